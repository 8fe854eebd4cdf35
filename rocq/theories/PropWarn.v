(** C62: the warnings of the constructor. *)

From Coq Require Import List Arith Lia Bool ZArith QArith Qcanon.
From Verif Require Import Scalar Res Tensor Structures OptimUtils Optimizer Construct OptFacts OptState OptRun QEx OptEx OptEx2 CtorSpec CtorFacts ProofCtor IndepSpec Warn ProofWarn.
Import ListNotations.
Open Scope nat_scope.

Section PropWarn.
Context {SC : Scalar}.

(** * C62: which layers the user is warned about, whether or not the call succeeds in the end *)
Theorem C62_unsupported : forall a k,
  In (WUnsupported k) (ctor_warnings a) <->
  a_wrapped a = false /\ numbers_ok a /\ a_params a = PNone /\ a_warn a = true /\
  exists n, In n (a_model a) /\ m_key (n_mod n) = k /\ n_leaf n = true /\ is_supported (n_mod n) = false /\
    exists p, In p (n_params n) /\ a_requires_grad a p = true.
Proof. exact C62_unsupported_lemma. Qed.

(** * C62: which groups the user is warned about, and that exactly these lose their Riemannian momentum *)
Theorem C62_alpha {FL : FieldLaws SC} : forall a par hooks hooks' c st i g gg,
  ctor a par hooks = (hooks', Ok (c, st)) -> settings a i = Some g -> nth_error (s_groups st) i = Some gg ->
  (In (WAlpha i) (ctor_warnings a) <-> g_kfac_like g = true /\ g_alpha1 g <> f0) /\
  (In (WAlpha i) (ctor_warnings a) -> g_alpha1 gg = f0) /\
  (~ In (WAlpha i) (ctor_warnings a) -> g_alpha1 gg = g_alpha1 g).
Proof. exact C62_alpha_lemma. Qed.

(** * C62: no warning, nothing missed *)

(** Missing: parameters owned by a module with children (see below).  If every trainable parameter is one of a leaf and no layer is
    warned about although warnings are on, all trainable parameters are handed to the optimizer. *)
Theorem C62_complete_partial {FL : FieldLaws SC} : forall a par hooks hooks' c st p,
  ctor a par hooks = (hooks', Ok (c, st)) -> a_params a = PNone -> a_warn a = true ->
  (forall k, ~ In (WUnsupported k) (ctor_warnings a)) ->
  (exists n, In n (a_model a) /\ n_leaf n = true /\ In p (n_params n)) -> a_requires_grad a p = true ->
  exists gg, In gg (s_groups st) /\ In p (g_params gg).
Proof. exact C62_complete_partial_lemma. Qed.

(** * C62: every warning is issued at most once in a call *)
Theorem C62_once : forall a, NoDup (map (fun n => m_key (n_mod n)) (a_model a)) -> NoDup (ctor_warnings a).
Proof. exact C62_once_lemma. Qed.

End PropWarn.

Print Assumptions C62_unsupported.
Print Assumptions C62_alpha.
Print Assumptions C62_complete_partial.
Print Assumptions C62_once.

(** It gets a gradient and a step is made, but it is in no group; nobody is warned. *)
Theorem C62_container_refuted :
  ~ forall (a : @args Q_scalar) es,
      built_ok a = true -> a_params a = PNone -> a_warn a = true -> ctor_warnings a = [] ->
      forall n p g, In n (a_model a) -> In p (n_params n) -> a_requires_grad a p = true ->
        let st := run (fst (built a)) es (snd (built a)) in
        p_grad (s_par st p) = Some g -> Forall (fun r => r = Ok tt) (outcomes (fst (built a)) es (snd (built a))) -> s_steps st = 1 ->
        exists gg, In gg (s_groups st) /\ In p (g_params gg).
Proof. exact C62_container_refuted_lemma. Qed.
Print Assumptions C62_container_refuted.

(** ** Cases *)

(** A layer that is not supported (a normalisation layer with parameter 3), and Riemannian momentum with kfac_like: two warnings. *)
Example C62_example :
  let model := wn_model ++ [mkNode (mkMod 8 OtherModule 9 None) true [3]] in
  NoDup (map (fun n => m_key (n_mod n)) model) /\ built_ok (wn_args model (qr 1 2) true) = true /\
  ctor_warnings (wn_args model (qr 1 2) true) = [WUnsupported 8; WAlpha 0] /\
  map g_alpha1 (s_groups (snd (built (wn_args model (qr 1 2) true)))) = [q 0 : @F Q_scalar].
Proof. exact C62_example_case. Qed.

(** A model with nothing to train: the warning comes before the exception. *)
Example C62_failing_example :
  let a := wn_args [mkNode (mkMod 8 OtherModule 9 None) true [3]] (q 0) false in
  built_ok a = false /\ ctor_warnings a = [WUnsupported 8].
Proof. exact C62_failing_example_case. Qed.

(** The premises of [C62_complete_partial] for the model of the other examples. *)
Example C62_silent_example :
  built_ok (wn_args ex_model (q 0) false) = true /\ ctor_warnings (wn_args ex_model (q 0) false) = [] /\
  forall p, In p [0; 1; 2] -> exists n, In n ex_model /\ n_leaf n = true /\ In p (n_params n).
Proof. exact C62_silent_example_case. Qed.
