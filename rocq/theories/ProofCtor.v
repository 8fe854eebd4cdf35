(** C19, C20, C21, C44: hyper-parameter validation, parameter groups, which parameters are trained,
    and failing constructor calls.  For all models, parameter arguments and hyper-parameters. *)

From Coq Require Import List Arith Lia Bool ZArith QArith Qcanon.
From Verif Require Import Scalar Res Tensor Structures OptimUtils Optimizer Construct OptFacts OptState QEx OptEx OptEx2 CtorSpec CtorFacts.
Import ListNotations.
Open Scope nat_scope.

Section PropCtor.
Context {SC : Scalar} {FL : FieldLaws SC}.

Lemma C19_rejected_lemma a par hooks :
  ~ valid_call a -> snd (ctor a par hooks) = Err (if a_wrapped a then TypeError else ValueError).
Proof. intros V. rewrite (ctor_invalid a par hooks V). reflexivity. Qed.

Lemma C19_accepted_lemma a par hooks :
  sizes_ok a -> valid_call a ->
  ((forall m, trained a m -> buildable a m) /\ exists c st, snd (ctor a par hooks) = Ok (c, st)) \/
  ((exists m, trained a m /\ ~ buildable a m) /\ snd (ctor a par hooks) = Err KeyError).
Proof. intros S V. destruct (ctor_valid a par hooks S V) as (hs & _ & _ & H). exact H. Qed.

Lemma C20_rejected_iff_lemma a par hooks :
  sizes_ok a -> a_wrapped a = false -> numbers_ok a -> something a -> once a -> known_values a ->
  snd (ctor a par hooks) = Err ValueError <-> ~ together a.
Proof.
  intros S H1 H2 H3 H4 H5. split.
  - intros E T. destruct (C19_accepted_lemma a par hooks S (conj H1 (conj H2 (conj H3 (conj H4 (conj H5 T)))))) as [[_ (c & st & X)]|[_ X]]; congruence.
  - intros T. rewrite (C19_rejected_lemma a par hooks); [rewrite H1; reflexivity|]. intros (_ & _ & _ & _ & _ & X). exact (T X).
Qed.

Lemma C20_own_group_lemma a par hooks hooks' c st n p i :
  ctor a par hooks = (hooks', Ok (c, st)) -> sizes_ok a ->
  In n (a_model a) -> n_leaf n = true -> is_supported (n_mod n) = true -> In (m_weight (n_mod n)) (n_params n) ->
  In p (n_params n) -> handed a i p ->
  exists g gg, settings a i = Some g /\ get_group c (s_groups st) (n_mod n) = Ok gg /\ same_hyper g gg.
Proof. exact (ctor_param_group a par hooks hooks' c st n p i). Qed.

Lemma C20_groups_lemma a par hooks hooks' c st i gg :
  ctor a par hooks = (hooks', Ok (c, st)) -> nth_error (s_groups st) i = Some gg ->
  (exists g, settings a i = Some g /\ same_hyper g gg) /\ forall p, In p (g_params gg) <-> handed a i p.
Proof. intros E. exact (proj1 (ctor_groups a par hooks hooks' c st E) i gg). Qed.

(** The supported layers are the linear and convolution layers, those that have preconditioners. *)
Lemma C21_layers_lemma : forall m,
  (is_supported m = true <-> (exists i o b, m_layer m = Linear i o b) \/ (exists c, m_layer m = Conv2d c)) /\
  (is_supported m = true <-> exists dK dC, preconditioner_dims (m_layer m) = Ok (dK, dC)).
Proof.
  intros m. unfold is_supported. destruct (m_layer m) as [i o b|c|]; split; split; intros H; eauto 6; try discriminate.
  - cbn. eauto.
  - cbn. eauto.
  - destruct H as [(? & ? & ? & E)|(? & E)]; discriminate.
  - destruct H as (? & ? & E). discriminate.
Qed.

Lemma C21_default_parameters_lemma a par hooks hooks' c st p :
  ctor a par hooks = (hooks', Ok (c, st)) -> a_params a = PNone ->
  (exists gg, In gg (s_groups st) /\ In p (g_params gg)) <->
  (exists n, In n (a_model a) /\ n_leaf n = true /\ is_supported (n_mod n) = true /\ In p (n_params n) /\ a_requires_grad a p = true).
Proof.
  intros E P. rewrite <- (proj2 (ctor_groups _ _ _ _ _ _ E) p). unfold handed. rewrite P. split.
  - intros (i & _ & H). exact H.
  - intros H. exists 0. auto.
Qed.

Lemma C21_only_handed_partial_lemma a par hooks hooks' c st0 es p :
  ctor a par hooks = (hooks', Ok (c, st0)) ->
  (forall m q, trained a m -> In q (mod_params m) -> exists i, handed a i q) ->
  (forall i, ~ handed a i p) -> p_val (s_par (run c es st0) p) = p_val (par p).
Proof.
  intros E W N. destruct (ctor_eq a par hooks) as [[_ E']|[_ E']]; rewrite E in E'; [|discriminate].
  destruct (initialize_buffers (cfg_of a) (groups_of a)) as [d|e]; [|discriminate]. injection E' as Eh Ec Es.
  assert (NI : ~ In p (flat_map mod_params (c_mods c))).
  { intros I. apply in_flat_map in I as (m & Hm & Hp). rewrite Ec in Hm. destruct (W m p (proj1 (hooked_iff a m) Hm) Hp) as (i & Hi). exact (N i Hi). }
  rewrite (proj1 (run_par c es st0 p NI)), Es. reflexivity.
Qed.

Lemma C21_only_trained_layers_lemma a par hooks hooks' c st0 es p :
  ctor a par hooks = (hooks', Ok (c, st0)) ->
  p_val (s_par (run c es st0) p) <> p_val (par p) -> exists m, trained a m /\ In p (mod_params m).
Proof. exact (changed_trained a par hooks hooks' c st0 es p). Qed.

Lemma C21_frozen_fails_lemma c st m p :
  cfg_ok c -> In m (c_mods c) -> In p (mod_params m) -> p_grad (s_par st p) = None -> s_inf st = false ->
  exists e, snd (step c false st) = Err e.
Proof. exact (no_grad_fails c st m p). Qed.

Lemma C44_invalid_partial_lemma a par hooks :
  ~ valid_call a -> fst (ctor a par hooks) = hooks.
Proof. intros V. rewrite (ctor_invalid a par hooks V). reflexivity. Qed.

Lemma C44_hooks_left_lemma a par hooks :
  sizes_ok a -> valid_call a -> (exists m, trained a m /\ ~ buildable a m) ->
  snd (ctor a par hooks) = Err KeyError /\ forall m, trained a m -> In (m_key m) (fst (ctor a par hooks)).
Proof.
  intros S V (m & Hm & B). destruct (ctor_valid a par hooks S V) as (hs & Hh & E & [[X _]|[_ X]]); [exfalso; exact (B (X m Hm))|].
  split; [exact X|]. intros m' Hm'. rewrite E. apply in_or_app. right. apply Hh. eauto.
Qed.

Lemma C44_forward_raises_lemma a m x b out st :
  is_supported m = true -> (forall i, ~ handed a i (m_weight m)) -> snd (forward_hook (cfg_of a) m x b out st) = Err KeyError.
Proof. exact (stray_hook a m x b out st). Qed.

End PropCtor.

(** * Examples: the hypotheses are met by concrete calls *)

Definition outcome_of (a : @args Q_scalar) : res unit := match snd (ctor a ex_par []) with Ok _ => Ok tt | Err e => Err e end.
Definition call (params : @params_arg Q_scalar) (structs : option cls * option cls) : @args Q_scalar :=
  ex_args params (qr 1 2) (qr 1 2) (qr 1 8) 2 structs false false (q 1).

Lemma ex_std_sizes params structs :
  In structs [dense2; (Some CDense, None)] -> (forall l, params <> PGroups l) -> sizes_ok (call params structs).
Proof.
  intros Hs Hp. split.
  - intros n dK dC Hn E. unfold call, ex_args, ex_model in Hn. cbn in Hn. destruct Hn as [<-|[<-|[<-|[]]]]; cbn in E; try discriminate; injection E as <- <-; lia.
  - intros i g c E H. unfold settings, call, ex_args in E. cbn [a_params] in E.
    assert (g_structs g = structs).
    { destruct params as [|ps|l]; [|cbn in E|destruct (Hp l eq_refl)]; (destruct i; [|discriminate]; injection E as <-; reflexivity). }
    rewrite H0 in H. cbn in Hs. destruct Hs as [<-|[<-|[]]]; cbn in H; destruct H as [H|H]; try discriminate; injection H as <-; left; reflexivity.
Qed.

Lemma ex_accepted_case : valid_call ex_std /\ sizes_ok ex_std /\ outcome_of ex_std = Ok tt.
Proof.
  split; [|split; [apply (ex_std_sizes PNone dense2); [left; reflexivity|discriminate]|vm_compute; reflexivity]].
  assert (H : built_ok ex_std = true) by (vm_compute; reflexivity). apply built_spec in H.
  destruct (ctor ex_std ex_par []) as [h r] eqn:E. cbn in H. subst r. exact (proj1 (ctor_ok _ _ _ _ _ _ E)).
Qed.

Lemma ex_rejected_case :
  (outcome_of (call (PGroups [([0; 2], fun g => g); ([1], fun g => g)]) dense2),
   outcome_of (call (PGroups [([0; 1], fun g => g); ([1; 2], fun g => g)]) dense2),
   outcome_of (call (PList []) dense2),
   outcome_of (ex_args PNone (qr (-1) 2) (qr 1 2) (qr 1 8) 2 dense2 false false (q 1)),
   outcome_of (call (PGroups [([0; 1], fun g => g); ([2], fun g => g)]) dense2))
  = (Err ValueError, Err ValueError, Err ValueError, Err ValueError, Ok tt).
Proof. vm_compute. reflexivity. Qed.
(** Layers in different groups keep their own learning rates. *)
Definition with_lr (x : Qc) (g : @group Q_scalar) : @group Q_scalar :=
  @mkGroup Q_scalar (g_params g) x (g_momentum g) (g_damping g) (g_alpha1 g) (g_wd g) (g_T g) (g_loss g)
    (g_lr_cov g) (g_structs g) (g_approx g) (g_kfac_like g) (g_normalize g).

Lemma ex_two_groups_case :
  let r := built (call (PGroups [([0; 1], with_lr (q 3)); ([2], fun g => g)]) dense2) in
  (match get_group (fst r) (s_groups (snd r)) ex_m1 with Ok g => this (g_lr g) | Err _ => 0%Q end,
   match get_group (fst r) (s_groups (snd r)) ex_m2 with Ok g => this (g_lr g) | Err _ => 0%Q end)
  = (3 # 1, 1 # 10)%Q.
Proof. vm_compute. reflexivity. Qed.

Lemma ex_only_second_case :
  let r := built (call (PList [2]) dense2) in
  let st := run (fst r) (ex_iter (q 1) ++ ex_step ++ ex_iter (q 1) ++ ex_step) (snd r) in
  ((val_of st 0, val_of st 1) = (val_of (snd r) 0, val_of (snd r) 1)) /\ val_of st 2 <> val_of (snd r) 2 /\ s_steps st = 2.
Proof. vm_compute. repeat split. discriminate. Qed.

Lemma ex_only_second_whole_case :
  (forall m p, trained (call (PList [2]) dense2) m -> In p (mod_params m) -> exists i, handed (call (PList [2]) dense2) i p) /\
  (forall i, ~ handed (call (PList [2]) dense2) i 0) /\ trained (call (PList [2]) dense2) ex_m2.
Proof.
  split; [|split].
  - intros m p (n & r & i & Hn & <- & Hs & Hr & (_ & [<-|[]])) Hp. cbn in Hn. destruct Hn as [<-|[<-|[<-|[]]]]; cbn in Hs, Hr, Hp.
    + discriminate.
    + destruct Hr as [E|[E|[]]]; discriminate.
    + exists 0. split; [reflexivity|exact Hp].
  - intros i (_ & [E|[]]). discriminate.
  - exists (mkNode ex_m2 true [2]), 2, 0. repeat split; cbn; auto.
Qed.

Lemma ex_bias_only_case :
  let a := call (PList [1]) dense2 in sizes_ok a /\ valid_call a /\ trained a ex_m1 /\ ~ buildable a ex_m1.
Proof.
  split; [apply ex_std_sizes; [left; reflexivity|discriminate]|]. split; [|split].
  - destruct (ctor_eq (call (PList [1]) dense2) ex_par []) as [[V _]|[_ E]]; [apply valid_iff; exact V|].
    apply (f_equal (fun x => match snd x with Err KeyError => true | _ => false end)) in E. vm_compute in E. discriminate.
  - exists (mkNode ex_m1 true [0; 1]), 1, 0. repeat split; cbn; auto.
  - intros (i & g & (_ & [E|[]]) & _). discriminate.
Qed.

(** * Refutations *)

(** C19: the documentation and the error message say the values must be positive; zero, negative
    integers, negative values of a group, and a negative damping are accepted, and T = 0 makes the
    first forward pass raise ZeroDivisionError. *)
Definition call_lr (lr damping : @pynum Q_scalar) (params : @params_arg Q_scalar) (T : nat) : @args Q_scalar :=
  @mkArgs Q_scalar false ex_model (fun _ => true) params lr (PyFloat (q 0 : @F Q_scalar)) damping
    (PyFloat (q 0 : @F Q_scalar)) (PyFloat (q 0 : @F Q_scalar)) T LossBatch (PyFloat (qr 1 2 : @F Q_scalar)) dense2 Expand true false (q 1) false.

Lemma C19_positive_refuted_lemma :
  outcome_of (call_lr (PyFloat (q 0 : @F Q_scalar)) (PyFloat (q 0 : @F Q_scalar)) PNone 1) = Ok tt /\
  outcome_of (call_lr (@PyInt Q_scalar (-3)) (PyFloat (q 0 : @F Q_scalar)) PNone 1) = Ok tt /\
  outcome_of (call_lr (PyFloat (q 1 : @F Q_scalar)) (PyFloat (q 0 : @F Q_scalar)) (PGroups [([0; 1; 2], with_lr (q (-3)))]) 1) = Ok tt /\
  outcome_of (call_lr (PyFloat (q 1 : @F Q_scalar)) (PyFloat (q (-1) : @F Q_scalar)) PNone 1) = Ok tt /\
  (let a := call_lr (PyFloat (q 1 : @F Q_scalar)) (PyFloat (q 0 : @F Q_scalar)) PNone 0 in
   outcome_of a = Ok tt /\ forall x out, outcome (forward_hook (fst (built a)) ex_m1 x true out (snd (built a))) = Err ZeroDivisionError).
Proof. split; [|split; [|split; [|split; [|split]]]]; try (vm_compute; reflexivity). Qed.

Lemma C21_weight_only_refuted_lemma :
  exists (a : @args Q_scalar) (es : list (@event Q_scalar)),
    a_params a = PList [0] /\ built_ok a = true /\
    let st := run (fst (built a)) es (snd (built a)) in
    s_steps st = 1 /\ val_of (snd (built a)) 1 = ([1], [(-1 # 1)%Q]) /\ val_of st 1 <> val_of (snd (built a)) 1.
Proof.
  exists (call (PList [0]) dense2), (ex_iter (q 1) ++ ex_step). split; [reflexivity|]. split; [vm_compute; reflexivity|].
  cbv zeta. split; [vm_compute; reflexivity|]. split; [vm_compute; reflexivity|]. vm_compute. discriminate.
Qed.

(** C21: a model with a trainable weight and a frozen bias is accepted but no step succeeds. *)
Definition frozen_args : @args Q_scalar :=
  @mkArgs Q_scalar false ex_model (fun p => negb (Nat.eqb p 1)) PNone
    (PyFloat (qr 1 10 : @F Q_scalar)) (PyFloat (q 0 : @F Q_scalar)) (PyFloat (qr 1 4 : @F Q_scalar))
    (PyFloat (q 0 : @F Q_scalar)) (PyFloat (q 0 : @F Q_scalar)) 1 LossBatch (PyFloat (qr 1 2 : @F Q_scalar)) dense2 Expand true false (q 1) false.

Lemma C21_frozen_bias_refuted_lemma :
  let r := built frozen_args in
  built_ok frozen_args = true /\
  outcome (step (fst r) false (run (fst r) (ex_iter (q 1) ++ [@EGrad Q_scalar 1 None]) (snd r))) = Err AttributeError.
Proof. vm_compute. split; reflexivity. Qed.

Lemma C44_hooks_left_refuted_lemma :
  (exists ps, ctor (call (PList ps) dense2) ex_par [] = ([0], Err KeyError)) /\
  ctor (call PNone (Some CDense, None)) ex_par [] = ([0; 1], Err KeyError) /\
  (forall x b out st, snd (@forward_hook Q_scalar (cfg_of (call (PList [1]) dense2)) ex_m1 x b out st) = Err KeyError).
Proof.
  split; [exists [1]; vm_compute; reflexivity|]. split; [vm_compute; reflexivity|]. intros x b out st.
  refine (@C44_forward_raises_lemma Q_scalar _ _ _ _ _ _ _ _); [reflexivity|]. intros i [_ [H|[]]]. discriminate.
Qed.
