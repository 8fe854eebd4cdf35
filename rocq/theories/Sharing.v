(** Lemmas: without weight sharing the settings that concern it have no effect. *)

From Coq Require Import List Arith Lia Bool ZArith.
From Verif Require Import Scalar Res Tensor TensorFacts Structures StructSpec OptimUtils UtilsFacts ProofUtils Optimizer Construct OptState OptRun OptFail CtorSpec CtorFacts Indep SharingSpec.
Import ListNotations.

Section Sharing.
Context {SC : Scalar} {FL : FieldLaws SC}.
Open Scope F_scope.

(** ** Statistics *)

Lemma loss_scaling_alike la la' n : loss_alike la la' -> loss_scaling la' n 1 = loss_scaling la n 1.
Proof. intros [->|[[-> | ->] [-> | ->]]]; [reflexivity| | | |]; cbn; rewrite ?Nat.mul_1_r; reflexivity. Qed.

Lemma input_alike l x g ka ka' : used_once l x g -> approx_alike ka ka' -> process_input x l ka' = process_input x l ka.
Proof.
  intros U [->|[N1 N2]]; [reflexivity|].
  assert (E : process_input x l Expand = process_input x l Reduce).
  { destruct l as [d_in d_out bias|c|]; [| |contradiction].
    - destruct U as (b & mid & P & S1 & S2). exact (proj1 (C43_expand_is_reduce_lemma x g d_in d_out bias LossBatch b mid S1 S2 P)).
    - destruct U as (OK & EP & b & i1 & i2 & HO & S1 & S2). exact (proj1 (C43_expand_is_reduce_conv_lemma x g c LossBatch b i1 i2 OK EP S1 HO S2)). }
  destruct ka, ka'; try congruence.
Qed.

Lemma grad_alike l x g ka ka' la la' : used_once l x g -> approx_alike ka ka' -> loss_alike la la' ->
  process_grad_output g l la' ka' = process_grad_output g l la ka.
Proof.
  intros U KA LA.
  assert (E1 : process_grad_output g l la' ka' = process_grad_output g l la' ka).
  { destruct KA as [->|[N1 N2]]; [reflexivity|].
    assert (E : process_grad_output g l la' Expand = process_grad_output g l la' Reduce).
    { destruct l as [d_in d_out bias|c|]; [| |contradiction].
      - destruct U as (b & mid & P & S1 & S2). exact (proj2 (C43_expand_is_reduce_lemma x g d_in d_out bias la' b mid S1 S2 P)).
      - destruct U as (OK & EP & b & i1 & i2 & HO & S1 & S2). exact (proj2 (C43_expand_is_reduce_conv_lemma x g c la' b i1 i2 OK EP S1 HO S2)). }
    destruct ka, ka'; try congruence. }
  rewrite E1. clear E1.
  assert (E : (la' <> LossOther -> la <> LossOther -> process_grad_output g l la' ka = process_grad_output g l la ka)).
  { intros N1 N2. unfold process_grad_output. destruct l as [d_in d_out bias|c|]; [| |contradiction].
    - destruct U as (b & mid & P & S1 & S2).
      assert (E : linear_process_grad_output g la' ka = linear_process_grad_output g la ka).
      { unfold linear_process_grad_output. destruct (bsd g) as [[[b' s'] d']|] eqn:EB; [|reflexivity]. cbn [bind].
        assert (s' = 1%nat) as ->. { unfold bsd in EB. rewrite S2 in EB. destruct (mid ++ [d_out]) eqn:EM; [destruct mid; discriminate|].
          rewrite <- EM in EB. rewrite ?removelast_last, ?last_last in EB. injection EB as _ <- _. exact P. }
        rewrite (loss_scaling_alike la la') by exact LA. reflexivity. }
      rewrite E. destruct la, la', ka; try congruence.
    - destruct U as (OK & EP & b & i1 & i2 & HO & S1 & S2).
      assert (E : conv2d_process_grad_output g la' ka = conv2d_process_grad_output g la ka).
      { unfold conv2d_process_grad_output. rewrite S2. change (1 * 1)%nat with 1%nat. rewrite (loss_scaling_alike la la') by exact LA. reflexivity. }
      rewrite E. destruct la, la', ka; try congruence. }
  destruct LA as [->|[[-> | ->] [-> | ->]]]; [reflexivity|apply E; discriminate..].
Qed.

Lemma local_H_alike g g' l pv x y s : same_but_sharing g g' -> used_once l x y -> local_H g' l pv x y s = local_H g l pv x y s.
Proof.
  intros (_ & _ & _ & _ & _ & _ & _ & _ & _ & _ & _ & KA & LA) U. unfold local_H.
  rewrite (input_alike l x y (g_approx g) (g_approx g') U KA), (grad_alike l x y (g_approx g) (g_approx g') (g_loss g) (g_loss g') U KA LA). reflexivity.
Qed.

Ltac cut_groups g g' := destruct g, g'; unfold same_but_sharing; cbn; intros (-> & -> & -> & -> & -> & -> & -> & -> & -> & -> & -> & _ & _); reflexivity.

Lemma update_slots_alike g g' l n sc s : same_but_sharing g g' -> update_slots g' l n sc s = update_slots g l n sc s.
Proof. cut_groups g g'. Qed.
Lemma param_step_alike g g' d s : same_but_sharing g g' -> param_step g' d s = param_step g d s.
Proof. cut_groups g g'. Qed.

Definition same_cfg (c c' : cfg) : Prop := c_mods c' = c_mods c /\ forall p, c_p2g c' p = c_p2g c p.

Lemma group_alike c c' gs gs' m : same_cfg c c' -> Forall2 same_but_sharing gs gs' ->
  match get_group c gs m, get_group c' gs' m with Ok g, Ok g' => same_but_sharing g g' | Err e, Err e' => e = e' | _, _ => False end.
Proof.
  intros [_ EC] H. unfold get_group. rewrite EC. destruct (m_layer m); try reflexivity; (destruct (c_p2g c (m_weight m)) as [i|]; [|reflexivity]);
    (revert i; induction H as [|g g' gs gs' E H IH]; intros [|i]; cbn; [reflexivity|reflexivity|exact E|apply IH]).
Qed.

(** ** One event *)

Section Twin.
Variables (c c' : cfg) (gs' : list group).
Hypothesis SC' : same_cfg c c'.
Local Notation tw := (set_groups gs').

Lemma set_scale_gs v s : set_current_grad_scale v (tw s) = (tw (fst (set_current_grad_scale v s)), snd (set_current_grad_scale v s)).
Proof. exact (set_scale_twist gs' (s_par s) v s) || (unfold set_current_grad_scale, sbind, getS, modify, lift, ret; cbn [s_steps s_scales set_groups set_scales];
  destruct (Nat.eqb (s_steps s) 0); [|reflexivity]; destruct (get_grad_scale _ (-1)); [|reflexivity]; destruct (get_grad_scale _ 0); [|reflexivity];
  destruct (_ && _)%bool; reflexivity). Qed.

Lemma ensure_gs s : ensure_scale (tw s) = (tw (fst (ensure_scale s)), snd (ensure_scale s)).
Proof.
  unfold ensure_scale, sbind, getS, ret, raise. cbn [s_steps s_scales s_amp set_groups].
  destruct (get_grad_scale _ _); [reflexivity|]. destruct (s_amp s) as [[v|]|]; [apply set_scale_gs|reflexivity|apply set_scale_gs].
Qed.

Lemma forward_gs m x b out s : Forall2 same_but_sharing (s_groups s) gs' ->
  forward_hook c' m x b out (tw s) = (tw (fst (forward_hook c m x b out s)), snd (forward_hook c m x b out s)).
Proof.
  intros H. pose proof (group_alike c c' _ _ m SC' H) as G. unfold forward_hook, sbind, getS, modify, lift, ret.
  cbn [s_steps s_groups s_pend set_groups set_pend].
  destruct (get_group c (s_groups s) m) as [g|], (get_group c' gs' m) as [g'|]; try contradiction; [|subst; reflexivity].
  destruct b; [|reflexivity]. cbn [negb]. unfold is_update_step. destruct G as (_ & _ & _ & _ & _ & _ & -> & _). destruct (Nat.eqb (g_T g) 0); [reflexivity|].
  destruct (Nat.eqb _ 0); reflexivity.
Qed.

Lemma accumulate_gs m x y s : Forall2 same_but_sharing (s_groups s) gs' -> used_once (m_layer m) x y ->
  accumulate_H_terms c' m x y (tw s) = (tw (fst (accumulate_H_terms c m x y s)), snd (accumulate_H_terms c m x y s)).
Proof.
  intros H U. pose proof (group_alike c c' _ _ m SC' H) as G. unfold accumulate_H_terms, sbind, getS, lift.
  cbn [s_steps s_groups s_scales s_slots set_groups].
  destruct (get_group c (s_groups s) m) as [g|], (get_group c' gs' m) as [g'|]; try contradiction; [|subst; reflexivity].
  rewrite (local_H_alike g g') by assumption. destruct (local_H _ _ _ _ _ _) as [[hk hc]|]; [|reflexivity].
  unfold on_slots. cbn [s_slots set_groups]. destruct (store_H _ _ _). reflexivity.
Qed.

Lemma step_module_gs m s : Forall2 same_but_sharing (s_groups s) gs' ->
  step_module c' m (tw s) = (tw (fst (step_module c m s)), snd (step_module c m s)).
Proof.
  intros H. pose proof (group_alike c c' _ _ m SC' H) as G. unfold step_module, update_preconditioner, sbind, getS, lift.
  cbn [s_steps s_groups s_scales s_slots set_groups].
  destruct (get_group c (s_groups s) m) as [g|] eqn:Eg, (get_group c' gs' m) as [g'|] eqn:Eg'; try contradiction; [|subst; reflexivity].
  unfold on_slots. cbn [s_slots set_groups]. rewrite (update_slots_alike g g') by exact G.
  destruct (update_slots _ _ _ _ _) as [sl [[]|e]]; [|reflexivity].
  unfold compute_natural_gradient, sbind, getS, lift. cbn [s_steps s_groups s_scales s_slots s_par set_groups set_slots].
  destruct (nat_grad_matrix _ _ _ _ _ _) as [N|]; [|reflexivity]. destruct (split_matrix _ _) as [[w b]|]; [|reflexivity].
  cbn [s_groups set_groups set_slots]. rewrite Eg, Eg'. unfold on_par. cbn [s_par set_groups set_slots]. rewrite (param_step_alike g g') by exact G.
  destruct (param_step g w _) as [p1 [[]|e]]; [|reflexivity].
  destruct (m_bias m); [|reflexivity]. destruct b; [|reflexivity]. cbn [s_par set_groups set_slots set_par]. rewrite (param_step_alike g g') by exact G.
  destruct (param_step g _ _) as [p2 r]. reflexivity.
Qed.

Lemma steps_gs l : forall s, Forall2 same_but_sharing (s_groups s) gs' ->
  forS (step_module c') l (tw s) = (tw (fst (forS (step_module c) l s)), snd (forS (step_module c) l s)).
Proof.
  induction l as [|m l IH]; intros s H; [reflexivity|]. cbn [forS]. unfold sbind. rewrite step_module_gs by exact H. cbn [fst snd].
  pose proof (step_module_frame c m s) as (_ & _ & F3 & _). destruct (step_module c m s) as [s1 [[]|e]]; cbn [fst snd] in *; [|reflexivity].
  apply IH. rewrite F3. exact H.
Qed.

Lemma step_gs b s : Forall2 same_but_sharing (s_groups s) gs' -> step c' b (tw s) = (tw (fst (step c b s)), snd (step c b s)).
Proof.
  intros H. destruct b; [reflexivity|]. rewrite !step_eq, ensure_gs.
  destruct (ensure_scale s) as [s1 r] eqn:Es. apply ensure_scale_frame in Es as ((_ & _ & _ & F4 & _) & _). cbn [fst snd].
  destruct r as [[]|e]; [|reflexivity]. cbn [s_inf set_groups]. destruct (s_inf s1); [unfold drop_H; rewrite (proj1 SC'); reflexivity|]. unfold step_all. rewrite (proj1 SC'), steps_gs by (rewrite F4; exact H).
  destruct (forS _ _ s1) as [s2 [[]|e]]; reflexivity.
Qed.
End Twin.

Definition twins (s t : state) : Prop := t = set_groups (s_groups t) s /\ Forall2 same_but_sharing (s_groups s) (s_groups t).

Lemma twins_upd s t s' gs : twins s t -> s_groups s' = s_groups s -> gs = s_groups t -> twins s' (set_groups gs s').
Proof. intros [_ G] E ->. split; [reflexivity|]. cbn. rewrite E. exact G. Qed.

(** Hooks on outputs whose later backward passes use the weights once. *)
Definition hooks_once (es : list event) (s : state) : Prop :=
  forall out m x, s_pend s out = Some (m, x) -> forall es2 g es3, es = es2 ++ EBackward out g :: es3 -> Forall (not_output out) es2 -> used_once (m_layer m) x g.

Lemma event_groups c e s : (forall gs, e <> EGroups gs) -> s_groups (fst (event_op c e s)) = s_groups s.
Proof.
  intros N. destruct e as [m x b out|out g|p g|v|a i|b|gs]; cbn [event_op]; try reflexivity.
  - destruct (forward_frame c m x b out s) as (F & _). rewrite F. reflexivity.
  - unfold sbind, getS. destruct (s_pend s out) as [[m x]|]; [|reflexivity]. destruct (accumulate_frame c m x g s) as (_ & _ & F3 & _). exact F3.
  - destruct (set_current_grad_scale v s) as [s' r] eqn:Es. apply set_current_grad_scale_frame in Es as ((_ & _ & F3 & F4 & _) & _). exact F4.
  - destruct b; [reflexivity|]. rewrite step_eq. destruct (ensure_scale s) as [s1 r] eqn:Es. apply ensure_scale_frame in Es as ((_ & _ & _ & F4 & _) & _).
    destruct r as [[]|e]; [|exact F4]. destruct (s_inf s1); [exact F4|]. destruct (step_all c s1) as [s2 r2] eqn:E2. apply steps_frame in E2 as (_ & _ & F & _).
    destruct r2 as [[]|]; cbn; congruence.
  - exfalso. exact (N gs eq_refl).
Qed.

Lemma event_twins c c' e e' s t es : same_cfg c c' -> twins s t -> same_event_but_sharing e e' -> hooks_once (e :: es) s ->
  twins (fst (event_op c e s)) (fst (event_op c' e' t)) /\ snd (event_op c' e' t) = snd (event_op c e s).
Proof.
  intros SC' T A H. assert (X : (exists gs gs', e = EGroups gs /\ e' = EGroups gs' /\ Forall2 same_but_sharing gs gs') \/ (e' = e /\ forall gs, e <> EGroups gs)).
  { destruct e; destruct e'; cbn in A; try discriminate A; try (right; split; [congruence|intros ? Y; discriminate]). left. eauto. }
  destruct X as [(gs & gs' & -> & -> & G)|[-> N]].
  { cbn. split; [|reflexivity]. destruct T as [T1 T2]. split; [|exact G]. cbn. rewrite T1. reflexivity. }
  pose proof T as [E G]. pose proof (event_groups c e s N) as EG.
  enough (Y : event_op c' e t = (set_groups (s_groups t) (fst (event_op c e s)), snd (event_op c e s))).
  { rewrite Y. cbn [fst snd]. split; [|reflexivity]. apply (twins_upd s t); auto. }
  destruct e as [m x b out|out g|p g|v|a i|b|gs]; cbn [event_op].
  - rewrite E at 1. apply forward_gs; [exact SC'|exact G].
  - unfold sbind, getS. assert (EP : s_pend t out = s_pend s out) by (rewrite E; reflexivity). rewrite EP.
    destruct (s_pend s out) as [[m x]|] eqn:P; [|unfold ret; cbn; f_equal; exact E]. rewrite E at 1. apply (accumulate_gs c); [exact SC'|exact G|].
    exact (H out m x P [] g es eq_refl (Forall_nil _)).
  - rewrite E at 1. reflexivity.
  - rewrite E at 1. apply set_scale_gs.
  - rewrite E at 1. reflexivity.
  - rewrite E at 1. apply step_gs; [exact SC'|exact G].
  - exfalso. exact (N gs eq_refl).
Qed.

Lemma event_pend c e s : forall out,
  (forall m x b, e <> EForward m x b out) -> s_pend (fst (event_op c e s)) out = s_pend s out.
Proof.
  intros o N. destruct e as [m x b out|out g|p g|v|a i|b|gs]; cbn [event_op]; try reflexivity.
  - destruct (forward_frame c m x b out s) as (_ & F & _). apply F. intros ->. exact (N m x b eq_refl).
  - unfold sbind, getS. destruct (s_pend s out) as [[m x]|]; [|reflexivity]. 
    destruct (accumulate_frame c m x g s) as (_ & _ & _ & _ & _ & F & _). rewrite ?F. reflexivity || congruence.
  - destruct (set_current_grad_scale v s) as [s' r] eqn:Es. apply set_current_grad_scale_frame in Es as ((_ & _ & _ & _ & _ & _ & F) & _). cbn. rewrite ?F. reflexivity.
  - destruct b; [reflexivity|]. rewrite step_eq. destruct (ensure_scale s) as [s1 r] eqn:Es. apply ensure_scale_frame in Es as ((_ & _ & _ & _ & _ & _ & F7) & _).
    destruct r as [[]|e]; [|cbn; rewrite F7; reflexivity]. destruct (s_inf s1); [cbn; rewrite F7; reflexivity|]. destruct (step_all c s1) as [s2 r2] eqn:E2.
    apply steps_frame in E2 as (_ & _ & _ & _ & _ & F & _).
    destruct r2 as [[]|]; cbn; congruence.
Qed.

Lemma hooks_once_next c e es s : no_sharing (e :: es) -> hooks_once (e :: es) s ->
  no_sharing es /\ hooks_once es (fst (event_op c e s)).
Proof.
  intros NS H. split.
  - intros es1 m x b out es2 g es3 E F. apply (NS (e :: es1) m x b out es2 g es3); [rewrite E; reflexivity|exact F].
  - intros out m x P es2 g es3 E F.
    destruct e as [m0 x0 b0 out0|out0 g0|p0 g0|v0|a0 i0|b0|gs0].
    1: destruct (Nat.eq_dec out0 out) as [->|NE].
    1:{ cbn [event_op] in P. destruct (forward_frame c m0 x0 b0 out s) as (_ & _ & [Q|(Q & _)]); rewrite Q in P; [discriminate|]. injection P as <- <-.
        apply (NS [] m0 x0 b0 out es2 g es3); [rewrite E; reflexivity|exact F]. }
    all: rewrite event_pend in P by (intros; congruence);
      match goal with H : hooks_once (?e :: _) _ |- _ => refine (H out m x P (e :: es2) g es3 _ _); [rewrite E; reflexivity|constructor; [|exact F]; cbn; auto] end.
Qed.

Lemma run_twins c c' es : forall es' s t, same_cfg c c' -> twins s t -> Forall2 same_event_but_sharing es es' -> no_sharing es -> hooks_once es s ->
  twins (run c es s) (run c' es' t) /\ outcomes c' es' t = outcomes c es s.
Proof.
  induction es as [|e es IH]; intros es' s t SC' T A NS H; inversion A as [|? e' ? es2 A1 A2]; subst; [split; [exact T|reflexivity]|].
  destruct (event_twins c c' e e' s t es SC' T A1 H) as [T1 O1]. destruct (hooks_once_next c e es s NS H) as [NS1 H1].
  destruct (IH es2 _ _ SC' T1 A2 NS1 H1) as [T2 O2]. split; [exact T2|]. cbn [outcomes]. rewrite O1, O2. reflexivity.
Qed.

(** ** The constructor *)

Lemma settings_alike a a' : same_call a a' -> Forall2 same_but_sharing (groups_given a) (groups_given a').
Proof.
  intros (_ & Em & Er & _ & _ & _ & _ & _ & _ & _ & _ & Ew & _ & _ & _ & P). unfold groups_given. rewrite <- !call_settings_eq, Em, Er, Ew.
  assert (W : forall ps g g', same_but_sharing g g' -> same_but_sharing (with_params ps g) (with_params ps g')).
  { intros ps g g' (_ & S). split; [reflexivity|exact S]. }
  destruct (a_params a) as [|ps|l], (a_params a') as [|ps'|l']; try contradiction.
  - destruct (fst (trainable _ _ _)); constructor; [apply W; exact P|constructor].
  - destruct P as [-> P]. destruct ps; constructor; [apply W; exact P|constructor].
  - induction P as [|[x f] [y f'] l l' [E1 E2] _ IH]; [constructor|]. cbn [map fst snd] in *. subst y. constructor; [apply W; exact E2|exact IH].
Qed.

Lemma params_alike gs gs' : Forall2 same_but_sharing gs gs' -> map g_params gs' = map g_params gs.
Proof. induction 1 as [|g g' gs gs' (E & _) _ IH]; [reflexivity|]. cbn. rewrite E, IH. reflexivity. Qed.

Lemma reset_alike gs gs' : Forall2 same_but_sharing gs gs' -> Forall2 same_but_sharing (map reset gs) (map reset gs').
Proof.
  induction 1 as [|g g' gs gs' E _ IH]; constructor; [|exact IH]. pose proof E as (E1 & E2 & E3 & E4 & E5 & E6 & E7 & E8 & E9 & E10 & E11 & E12 & E13).
  unfold reset. rewrite E5, E10. destruct (_ && _)%bool; [|exact E]. repeat split; assumption || reflexivity.
Qed.

Lemma p2g_alike gs gs' p : map g_params gs' = map g_params gs -> forall i, p2g_from i gs' p = p2g_from i gs p.
Proof.
  revert gs'. induction gs as [|g gs IH]; intros [|g' gs'] E i; try discriminate; [reflexivity|]. cbn in E. injection E as E1 E2. cbn. rewrite (IH gs' E2), E1. reflexivity.
Qed.

Lemma cfg_alike a a' : same_call a a' -> same_cfg (cfg_of a) (cfg_of a').
Proof.
  intros S. pose proof (settings_alike a a' S) as G. pose proof S as (_ & Em & _). unfold cfg_of, groups_of. split; cbn.
  - rewrite Em. unfold hooked. rewrite (params_alike _ _ G). reflexivity.
  - intros p. apply p2g_alike. apply params_alike. apply reset_alike. exact G.
Qed.

Lemma in_group_params gs gs' i p : map g_params gs' = map g_params gs -> in_group gs i p -> in_group gs' i p.
Proof.
  intros E (g & N & I). assert (X : nth_error (map g_params gs) i = Some (g_params g)) by (rewrite nth_error_map, N; reflexivity).
  rewrite <- E, nth_error_map in X. destruct (nth_error gs' i) as [g'|] eqn:N'; [|discriminate]. injection X as X. exists g'. rewrite X. auto.
Qed.

Lemma known_alike gs gs' : Forall2 same_but_sharing gs gs' -> Forall known gs <-> Forall known gs'.
Proof.
  induction 1 as [|g g' gs gs' (_ & _ & _ & _ & _ & _ & _ & _ & _ & _ & _ & KA & LA) _ IH]; [split; auto|]. rewrite !Forall_cons_iff, IH.
  assert (X : known g <-> known g').
  { unfold known. assert (Y : g_approx g <> ApproxOther <-> g_approx g' <> ApproxOther) by (destruct KA as [->|[? ?]]; [reflexivity|split; auto]). rewrite Y.
    assert (Z : g_loss g <> LossOther <-> g_loss g' <> LossOther) by (destruct LA as [->|[[-> | ->] [-> | ->]]]; [reflexivity|split; intros _; discriminate..]).
    rewrite Z. reflexivity. }
  rewrite X. reflexivity.
Qed.

Lemma valid_alike a a' : same_call a a' -> valid_call0 a <-> valid_call0 a'.
Proof.
  intros S. pose proof (settings_alike a a' S) as G. pose proof (params_alike _ _ G) as P. unfold valid_call0. rewrite (known_alike _ _ G).
  pose proof S as (E1 & E2 & _ & E4 & E5 & E6 & E7 & E8 & _ & E10 & _). rewrite E1, E2. unfold numbers_ok. rewrite E4, E10, E7, E5, E8.
  assert (X : groups_given a <> [] <-> groups_given a' <> []) by (destruct G; split; congruence). rewrite X.
  assert (I : forall i p, in_group (groups_given a) i p <-> in_group (groups_given a') i p) by (intros; split; apply in_group_params; congruence).
  assert (Y : disjoint (groups_given a) <-> disjoint (groups_given a')).
  { unfold disjoint. split; intros D i j p Hi Hj; apply (D i j p); apply I; assumption. } rewrite Y.
  assert (Z : together0 (a_model a) (groups_given a) <-> together0 (a_model a) (groups_given a')).
  { unfold together0. split; intros D n p r i j H1 H2 H3 H4 H5 Hi Hj; apply (D n p r i j); auto; apply I; assumption. } rewrite Z.
  reflexivity.
Qed.

Lemma init_alike c c' gs gs' m : same_cfg c c' -> Forall2 same_but_sharing gs gs' -> init_slots c' gs' m = init_slots c gs m.
Proof.
  intros SC' G. pose proof (group_alike c c' gs gs' m SC' G) as X. unfold init_slots. destruct (preconditioner_dims (m_layer m)) as [[dK dC]|]; [|reflexivity]. cbn [bind].
  destruct (get_group c gs m) as [g|], (get_group c' gs' m) as [g'|]; try contradiction; [|subst; reflexivity]. cbn [bind].
  destruct X as (_ & _ & _ & _ & EA & _ & _ & _ & ES & _). rewrite EA, ES. reflexivity.
Qed.

Lemma buffers_alike c c' gs gs' : same_cfg c c' -> Forall2 same_but_sharing gs gs' -> initialize_buffers c' gs' = initialize_buffers c gs.
Proof.
  intros SC' G. unfold initialize_buffers. rewrite (proj1 SC'). generalize (fun _ : nat => no_slots). induction (c_mods c) as [|m ms IH]; intros d; [reflexivity|].
  cbn [foldM]. rewrite (init_alike c c' gs gs' m SC' G). destruct (init_slots c gs m); [|reflexivity]. cbn [bind]. apply IH.
Qed.

Lemma ctor_alike a a' par hooks : same_call a a' ->
  fst (ctor a' par hooks) = fst (ctor a par hooks) /\
  match snd (ctor a par hooks), snd (ctor a' par hooks) with
  | Ok (c, st), Ok (c', st') => same_cfg c c' /\ twins st st' /\ (forall o, s_pend st o = None)
  | Err e, Err e' => e' = e
  | _, _ => False
  end.
Proof.
  intros S. pose proof (settings_alike a a' S) as G. pose proof (reset_alike _ _ G) as G'. pose proof (cfg_alike a a' S) as C. pose proof (valid_alike a a' S) as V.
  pose proof (buffers_alike _ _ _ _ C G') as B. pose proof S as (E1 & _ & _ & _ & _ & _ & _ & _ & _ & _ & _ & _ & _ & EI & _).
  destruct (ctor_eq a par hooks) as [[V1 X]|[V1 X]]; destruct (ctor_eq a' par hooks) as [[V2 Y]|[V2 Y]]; rewrite X, Y; try (exfalso; revert V1 V2; rewrite V; auto; fail).
  - cbn [fst snd]. fold (groups_of a) in *. fold (groups_of a') in *. rewrite B, (proj1 C). split; [reflexivity|].
    destruct (initialize_buffers (cfg_of a) (groups_of a)) as [d|e]; [|reflexivity]. split; [exact C|]. split; [|reflexivity]. split; [|exact G']. cbn. rewrite EI. reflexivity.
  - cbn. rewrite E1. split; reflexivity.
Qed.

Lemma training_alike a a' par hooks hooks' c st es es' :
  ctor a par hooks = (hooks', Ok (c, st)) -> same_call a a' -> Forall2 same_event_but_sharing es es' -> no_sharing es ->
  exists c' st', ctor a' par hooks = (hooks', Ok (c', st')) /\ twins (run c es st) (run c' es' st') /\ outcomes c' es' st' = outcomes c es st.
Proof.
  intros E S A NS. destruct (ctor_alike a a' par hooks S) as [X Y]. rewrite E in X, Y. cbn [fst snd] in X, Y.
  destruct (ctor a' par hooks) as [h [[c' st']|e]]; cbn [fst snd] in X, Y; [|contradiction]. subst h. destruct Y as (C & T & P).
  exists c', st'. split; [reflexivity|]. apply run_twins; [exact C|exact T|exact A|exact NS|]. intros out m x Q. rewrite P in Q. discriminate.
Qed.

End Sharing.
