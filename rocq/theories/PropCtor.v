(** C19, C20, C21, C44: hyper-parameter validation, parameter groups, which parameters are trained,
    and failing constructor calls.  For all models, parameter arguments and hyper-parameters. *)

From Coq Require Import List Arith Lia Bool ZArith QArith Qcanon.
From Verif Require Import Scalar Res Tensor Structures OptimUtils Optimizer Construct OptFacts OptState QEx OptEx OptEx2 CtorSpec CtorFacts ProofCtor.
Import ListNotations.
Open Scope nat_scope.

Section PropCtor.
Context {SC : Scalar} {FL : FieldLaws SC}.

(** * C19: validation *)

(** A call with an invalid argument raises (TypeError for wrapped models, ValueError otherwise). *)
Theorem C19_rejected : forall a par hooks,
  ~ valid_call a -> snd (ctor a par hooks) = Err (if a_wrapped a then TypeError else ValueError).
Proof. exact C19_rejected_lemma. Qed.

(** A valid one succeeds, or raises KeyError exactly if some layer to train cannot be built (its
    weight was not handed over, or a structure is unknown). *)
Theorem C19_accepted : forall a par hooks,
  sizes_ok a -> valid_call a ->
  ((forall m, trained a m -> buildable a m) /\ exists c st, snd (ctor a par hooks) = Ok (c, st)) \/
  ((exists m, trained a m /\ ~ buildable a m) /\ snd (ctor a par hooks) = Err KeyError).
Proof. exact C19_accepted_lemma. Qed.

(** * C20: parameters of one layer *)
Theorem C20_rejected_iff : forall a par hooks,
  sizes_ok a -> a_wrapped a = false -> numbers_ok a -> something a -> once a -> known_values a ->
  snd (ctor a par hooks) = Err ValueError <-> ~ together a.
Proof. exact C20_rejected_iff_lemma. Qed.

(** After construction every parameter of a supported leaf is governed by the group it was handed
    over in: that is the group the optimizer uses for the layer. *)
Theorem C20_own_group : forall a par hooks hooks' c st n p i,
  ctor a par hooks = (hooks', Ok (c, st)) -> sizes_ok a ->
  In n (a_model a) -> n_leaf n = true -> is_supported (n_mod n) = true -> In (m_weight (n_mod n)) (n_params n) ->
  In p (n_params n) -> handed a i p ->
  exists g gg, settings a i = Some g /\ get_group c (s_groups st) (n_mod n) = Ok gg /\ same_hyper g gg.
Proof. exact C20_own_group_lemma. Qed.

Theorem C20_groups : forall a par hooks hooks' c st i gg,
  ctor a par hooks = (hooks', Ok (c, st)) -> nth_error (s_groups st) i = Some gg ->
  (exists g, settings a i = Some g /\ same_hyper g gg) /\ forall p, In p (g_params gg) <-> handed a i p.
Proof. exact C20_groups_lemma. Qed.

(** * C21: exactly the parameters handed over *)

(** The supported layers are the linear and convolution layers, those that have preconditioners. *)
Theorem C21_layers : forall m,
  (is_supported m = true <-> (exists i o b, m_layer m = Linear i o b) \/ (exists c, m_layer m = Conv2d c)) /\
  (is_supported m = true <-> exists dK dC, preconditioner_dims (m_layer m) = Ok (dK, dC)).
Proof. exact C21_layers_lemma. Qed.

(** With [params=None] the optimizer's groups hold exactly the trainable parameters of supported leaves. *)
Theorem C21_default_parameters : forall a par hooks hooks' c st p,
  ctor a par hooks = (hooks', Ok (c, st)) -> a_params a = PNone ->
  (exists gg, In gg (s_groups st) /\ In p (g_params gg)) <->
  (exists n, In n (a_model a) /\ n_leaf n = true /\ is_supported (n_mod n) = true /\ In p (n_params n) /\ a_requires_grad a p = true).
Proof. exact C21_default_parameters_lemma. Qed.

(** Missing: [trained] layers may own parameters that were not handed over (see below).  If every
    layer is handed over as a whole or not at all, no history changes any other parameter. *)
Theorem C21_only_handed_partial : forall a par hooks hooks' c st0 es p,
  ctor a par hooks = (hooks', Ok (c, st0)) ->
  (forall m q, trained a m -> In q (mod_params m) -> exists i, handed a i q) ->
  (forall i, ~ handed a i p) -> p_val (s_par (run c es st0) p) = p_val (par p).
Proof. exact C21_only_handed_partial_lemma. Qed.

(** In general only parameters of layers with some parameter handed over change. *)
Theorem C21_only_trained_layers : forall a par hooks hooks' c st0 es p,
  ctor a par hooks = (hooks', Ok (c, st0)) ->
  p_val (s_par (run c es st0) p) <> p_val (par p) -> exists m, trained a m /\ In p (mod_params m).
Proof. exact C21_only_trained_layers_lemma. Qed.

(** A layer with a frozen bias (no gradient) cannot be trained at all: every step raises. *)
Theorem C21_frozen_fails : forall c st m p,
  cfg_ok c -> In m (c_mods c) -> In p (mod_params m) -> p_grad (s_par st p) = None -> s_inf st = false ->
  exists e, snd (step c false st) = Err e.
Proof. exact C21_frozen_fails_lemma. Qed.

(** * C44: failing calls *)

(** Missing: calls that pass validation but fail when building the preconditioners (see below). *)
Theorem C44_invalid_partial : forall a par hooks,
  ~ valid_call a -> fst (ctor a par hooks) = hooks.
Proof. exact C44_invalid_partial_lemma. Qed.

(** Those leave hooks on all layers that would have been trained, ... *)
Theorem C44_hooks_left : forall a par hooks,
  sizes_ok a -> valid_call a -> (exists m, trained a m /\ ~ buildable a m) ->
  snd (ctor a par hooks) = Err KeyError /\ forall m, trained a m -> In (m_key m) (fst (ctor a par hooks)).
Proof. exact C44_hooks_left_lemma. Qed.

(** ... which make every later forward pass raise if the layer's weight is in no group. *)
Theorem C44_forward_raises : forall a m x b out st,
  is_supported m = true -> (forall i, ~ handed a i (m_weight m)) -> snd (forward_hook (cfg_of a) m x b out st) = Err KeyError.
Proof. exact C44_forward_raises_lemma. Qed.

End PropCtor.

Print Assumptions C19_rejected.
Print Assumptions C19_accepted.
Print Assumptions C20_rejected_iff.
Print Assumptions C20_own_group.
Print Assumptions C20_groups.
Print Assumptions C21_layers.
Print Assumptions C21_default_parameters.
Print Assumptions C21_only_handed_partial.
Print Assumptions C21_only_trained_layers.
Print Assumptions C21_frozen_fails.
Print Assumptions C44_invalid_partial.
Print Assumptions C44_hooks_left.
Print Assumptions C44_forward_raises.

(** All parameters: a valid, buildable call. *)
Example ex_accepted : valid_call ex_std /\ sizes_ok ex_std /\ outcome_of ex_std = Ok tt.
Proof. exact ex_accepted_case. Qed.

(** Weight and bias of one layer in two groups; the same parameter twice; nothing at all. *)
Example ex_rejected :
  (outcome_of (call (PGroups [([0; 2], fun g => g); ([1], fun g => g)]) dense2),
   outcome_of (call (PGroups [([0; 1], fun g => g); ([1; 2], fun g => g)]) dense2),
   outcome_of (call (PList []) dense2),
   outcome_of (ex_args PNone (qr (-1) 2) (qr 1 2) (qr 1 8) 2 dense2 false false (q 1)),
   outcome_of (call (PGroups [([0; 1], fun g => g); ([2], fun g => g)]) dense2))
  = (Err ValueError, Err ValueError, Err ValueError, Err ValueError, Ok tt).
Proof. exact ex_rejected_case. Qed.

(** Layers in different groups keep their own learning rates. *)
Example ex_two_groups :
  let r := built (call (PGroups [([0; 1], with_lr (q 3)); ([2], fun g => g)]) dense2) in
  (match get_group (fst r) (s_groups (snd r)) ex_m1 with Ok g => this (g_lr g) | Err _ => 0%Q end,
   match get_group (fst r) (s_groups (snd r)) ex_m2 with Ok g => this (g_lr g) | Err _ => 0%Q end)
  = (3 # 1, 1 # 10)%Q.
Proof. exact ex_two_groups_case. Qed.

(** Only the second layer handed over: the first keeps its parameters in a run of two iterations. *)
Example ex_only_second :
  let r := built (call (PList [2]) dense2) in
  let st := run (fst r) (ex_iter (q 1) ++ ex_step ++ ex_iter (q 1) ++ ex_step) (snd r) in
  ((val_of st 0, val_of st 1) = (val_of (snd r) 0, val_of (snd r) 1)) /\ val_of st 2 <> val_of (snd r) 2 /\ s_steps st = 2.
Proof. exact ex_only_second_case. Qed.

(** This call hands over a layer as a whole. *)
Example ex_only_second_whole :
  (forall m p, trained (call (PList [2]) dense2) m -> In p (mod_params m) -> exists i, handed (call (PList [2]) dense2) i p) /\
  (forall i, ~ handed (call (PList [2]) dense2) i 0) /\ trained (call (PList [2]) dense2) ex_m2.
Proof. exact ex_only_second_whole_case. Qed.

(** Only a bias: a valid call with a layer that cannot be built. *)
Example ex_bias_only :
  let a := call (PList [1]) dense2 in sizes_ok a /\ valid_call a /\ trained a ex_m1 /\ ~ buildable a ex_m1.
Proof. exact ex_bias_only_case. Qed.

(** * Refutations *)

(** C19: the documentation and the error message say the values must be positive; zero, negative
    integers, negative values of a group, and a negative damping are accepted, and T = 0 makes the
    first forward pass raise ZeroDivisionError. *)
Theorem C19_positive_refuted :
  outcome_of (call_lr (PyFloat (q 0 : @F Q_scalar)) (PyFloat (q 0 : @F Q_scalar)) PNone 1) = Ok tt /\
  outcome_of (call_lr (@PyInt Q_scalar (-3)) (PyFloat (q 0 : @F Q_scalar)) PNone 1) = Ok tt /\
  outcome_of (call_lr (PyFloat (q 1 : @F Q_scalar)) (PyFloat (q 0 : @F Q_scalar)) (PGroups [([0; 1; 2], with_lr (q (-3)))]) 1) = Ok tt /\
  outcome_of (call_lr (PyFloat (q 1 : @F Q_scalar)) (PyFloat (q (-1) : @F Q_scalar)) PNone 1) = Ok tt /\
  (let a := call_lr (PyFloat (q 1 : @F Q_scalar)) (PyFloat (q 0 : @F Q_scalar)) PNone 0 in
   outcome_of a = Ok tt /\ forall x out, outcome (forward_hook (fst (built a)) ex_m1 x true out (snd (built a))) = Err ZeroDivisionError).
Proof. exact C19_positive_refuted_lemma. Qed.
Print Assumptions C19_positive_refuted.

(** C21: handing over only the weight of a layer trains its bias, too. *)
Theorem C21_weight_only_refuted :
  exists (a : @args Q_scalar) (es : list (@event Q_scalar)),
    a_params a = PList [0] /\ built_ok a = true /\
    let st := run (fst (built a)) es (snd (built a)) in
    s_steps st = 1 /\ val_of (snd (built a)) 1 = ([1], [(-1 # 1)%Q]) /\ val_of st 1 <> val_of (snd (built a)) 1.
Proof. exact C21_weight_only_refuted_lemma. Qed.
Print Assumptions C21_weight_only_refuted.

(** C21: a model with a trainable weight and a frozen bias is accepted but no step succeeds. *)
Theorem C21_frozen_bias_refuted :
  let r := built frozen_args in
  built_ok frozen_args = true /\
  outcome (step (fst r) false (run (fst r) (ex_iter (q 1) ++ [@EGrad Q_scalar 1 None]) (snd r))) = Err AttributeError.
Proof. exact C21_frozen_bias_refuted_lemma. Qed.
Print Assumptions C21_frozen_bias_refuted.

(** C44: handing over only a bias, or naming an unknown structure, raises KeyError with the hooks
    already installed. *)
Theorem C44_hooks_left_refuted :
  (exists ps, ctor (call (PList ps) dense2) ex_par [] = ([0], Err KeyError)) /\
  ctor (call PNone (Some CDense, None)) ex_par [] = ([0; 1], Err KeyError) /\
  (forall x b out st, snd (@forward_hook Q_scalar (cfg_of (call (PList [1]) dense2)) ex_m1 x b out st) = Err KeyError).
Proof. exact C44_hooks_left_refuted_lemma. Qed.
Print Assumptions C44_hooks_left_refuted.
