(** Lemmas: preconditioners do not depend on weights, gradients, learning rates, momenta and weight decays. *)

From Coq Require Import List Arith Lia Bool ZArith.
From Verif Require Import Scalar Res Tensor TensorFacts Structures StructSpec OptimUtils Optimizer Construct OptState OptRun OptSpec OptFacts OptTyped OptStep CtorSpec CtorFacts OptOrder OptFail ProgressSpec Progress IndepSpec.
Import ListNotations.

Section Indep.
Context {SC : Scalar} {FL : FieldLaws SC}.
Open Scope F_scope.

Definition twist (gs : list group) (pa : nat -> pslot) (s : state) : state := set_par pa (set_groups gs s).

Lemma twist_set_par gs pa pa' s : twist gs pa (set_par pa' s) = twist gs pa s. Proof. reflexivity. Qed.

Lemma group_curv c gs gs' m : Forall2 same_curv gs gs' ->
  match get_group c gs m, get_group c gs' m with Ok g, Ok g' => same_curv g g' | Err e, Err e' => e = e' | _, _ => False end.
Proof.
  intros H. unfold get_group. destruct (m_layer m); try reflexivity; (destruct (c_p2g c (m_weight m)) as [i|]; [|reflexivity]);
    (revert i; induction H as [|g g' gs gs' E H IH]; intros [|i]; cbn; [reflexivity|reflexivity|exact E|apply IH]).
Qed.

Lemma update_slots_curv g g' l n sc s : same_curv g g' -> update_slots g' l n sc s = update_slots g l n sc s.
Proof. destruct g, g'. unfold same_curv. cbn. intros (-> & -> & -> & -> & -> & -> & -> & -> & -> & ->). reflexivity. Qed.
Lemma local_H_curv g g' l pv x y s : same_curv g g' -> local_H g' l pv x y s = local_H g l pv x y s.
Proof. destruct g, g'. unfold same_curv. cbn. intros (-> & -> & -> & -> & -> & -> & -> & -> & -> & ->). reflexivity. Qed.

Section Twist.
Variables (c : cfg) (gs' : list group) (pa : nat -> pslot).

Lemma set_scale_twist v s : set_current_grad_scale v (twist gs' pa s) =
  (twist gs' pa (fst (set_current_grad_scale v s)), snd (set_current_grad_scale v s)).
Proof.
  unfold set_current_grad_scale, sbind, getS, modify, lift, ret. cbn [s_steps s_scales twist set_par set_groups set_scales].
  destruct (Nat.eqb (s_steps s) 0); [|reflexivity]. destruct (get_grad_scale _ (-1)); [|reflexivity]. destruct (get_grad_scale _ 0); [|reflexivity].
  destruct (_ && _)%bool; reflexivity.
Qed.

Lemma ensure_twist s : ensure_scale (twist gs' pa s) = (twist gs' pa (fst (ensure_scale s)), snd (ensure_scale s)).
Proof.
  unfold ensure_scale, sbind, getS, ret, raise. cbn [s_steps s_scales s_amp twist set_par set_groups].
  destruct (get_grad_scale _ _); [reflexivity|]. destruct (s_amp s) as [[v|]|]; [apply set_scale_twist|reflexivity|apply set_scale_twist].
Qed.

Lemma forward_twist m x b out s : Forall2 same_curv (s_groups s) gs' ->
  forward_hook c m x b out (twist gs' pa s) = (twist gs' pa (fst (forward_hook c m x b out s)), snd (forward_hook c m x b out s)).
Proof.
  intros H. pose proof (group_curv c _ _ m H) as G. unfold forward_hook, sbind, getS, modify, lift, ret.
  cbn [s_steps s_groups s_pend twist set_par set_groups set_pend].
  destruct (get_group c (s_groups s) m) as [g|], (get_group c gs' m) as [g'|]; try contradiction; [|subst; reflexivity].
  destruct b; [|reflexivity]. cbn [negb]. unfold is_update_step. destruct G as (_ & _ & _ & -> & _). destruct (Nat.eqb (g_T g) 0); [reflexivity|].
  destruct (Nat.eqb _ 0); reflexivity.
Qed.

Lemma accumulate_twist m x y s : Forall2 same_curv (s_groups s) gs' ->
  accumulate_H_terms c m x y (twist gs' pa s) = (twist gs' pa (fst (accumulate_H_terms c m x y s)), snd (accumulate_H_terms c m x y s)).
Proof.
  intros H. pose proof (group_curv c _ _ m H) as G. unfold accumulate_H_terms, sbind, getS, lift.
  cbn [s_steps s_groups s_scales s_slots twist set_par set_groups].
  destruct (get_group c (s_groups s) m) as [g|], (get_group c gs' m) as [g'|]; try contradiction; [|subst; reflexivity].
  rewrite (local_H_curv g g') by exact G. destruct (local_H _ _ _ _ _ _) as [[hk hc]|]; [|reflexivity].
  unfold on_slots. cbn [s_slots twist set_par set_groups]. destruct (store_H _ _ _). reflexivity.
Qed.

Lemma update_twist m s : Forall2 same_curv (s_groups s) gs' ->
  update_preconditioner c m (twist gs' pa s) = (twist gs' pa (fst (update_preconditioner c m s)), snd (update_preconditioner c m s)).
Proof.
  intros H. pose proof (group_curv c _ _ m H) as G. unfold update_preconditioner, sbind, getS, lift.
  cbn [s_steps s_groups s_scales s_slots twist set_par set_groups].
  destruct (get_group c (s_groups s) m) as [g|], (get_group c gs' m) as [g'|]; try contradiction; [|subst; reflexivity].
  unfold on_slots. cbn [s_slots twist set_par set_groups]. rewrite (update_slots_curv g g') by exact G. destruct (update_slots _ _ _ _ _). reflexivity.
Qed.
End Twist.

(** What follows the preconditioner update touches only parameters. *)
Definition only_par (s t : state) : Prop := t = set_par (s_par t) s.
Lemma op_refl s : only_par s s. Proof. destruct s; reflexivity. Qed.
Lemma op_trans a b d : only_par a b -> only_par b d -> only_par a d.
Proof. unfold only_par. intros H1 H2. rewrite H2, H1. reflexivity. Qed.

Lemma on_par_op k g d : keeps only_par (on_par k (param_step g d)).
Proof. intros s. unfold on_par. destruct (param_step g d (s_par s k)). reflexivity. Qed.

Lemma step_module_split c m s :
  only_par (fst (update_preconditioner c m s)) (fst (step_module c m s)).
Proof.
  unfold step_module. unfold sbind at 1. destruct (update_preconditioner c m s) as [s1 [[]|e]]; cbn [fst snd]; [|apply op_refl].
  match goal with |- only_par s1 (fst (?f s1)) => assert (K : keeps only_par f) end.
  2:{ specialize (K s1). exact K. }
  apply keeps_bind; [apply op_trans| |].
  - intros t. unfold compute_natural_gradient, sbind, getS, lift. destruct (nat_grad_matrix _ _ _ _ _ _); apply op_refl.
  - intros [w b]. apply keeps_bind; [apply op_trans|apply keeps_getS; apply op_refl|]. intros t.
    apply keeps_bind; [apply op_trans|apply keeps_lift; apply op_refl|]. intros g.
    apply keeps_bind; [apply op_trans|apply on_par_op|]. intros _.
    destruct (m_bias m); [|apply keeps_ret; apply op_refl]. destruct b; [apply on_par_op|apply keeps_ret; apply op_refl].
Qed.

(** ** The relation between the two runs *)
Record rel (s t : state) : Prop := mkRel {
  r_core : t = twist (s_groups t) (s_par t) s;
  r_gs : Forall2 same_curv (s_groups s) (s_groups t);
  r_grad : forall p, p_grad (s_par s p) = None <-> p_grad (s_par t p) = None
}.

Lemma rel_ready c s t cur m : rel s t -> ready c s cur m <-> ready c t cur m.
Proof.
  intros [E G H]. pose proof (group_curv c _ _ m G) as GC. unfold ready.
  assert (E1 : s_steps t = s_steps s) by (rewrite E; reflexivity). assert (E2 : s_slots t = s_slots s) by (rewrite E; reflexivity). rewrite E1, E2.
  assert (P : (forall p, In p (mod_params m) -> p_grad (s_par s p) <> None) <-> (forall p, In p (mod_params m) -> p_grad (s_par t p) <> None)).
  { split; intros X p Hp Y; apply (X p Hp); apply H; exact Y. }
  destruct (get_group c (s_groups s) m) as [g|], (get_group c (s_groups t) m) as [g'|]; try contradiction.
  2:{ split; intros (g & X & _); discriminate. }
  destruct GC as (_ & _ & EA & ET & _).
  split; intros (gg & X & Y & Z & W); injection X as <-; [exists g'|exists g]; (split; [reflexivity|]); [rewrite ET, EA|rewrite ET, EA in *];
    (split; [exact Y|]); (split; [apply P; exact Z|exact W]).
Qed.

Definition both (r r' : res unit) : Prop := r = Ok tt <-> r' = Ok tt.

Lemma rel_upd s t s' t' : rel s t -> s_groups s' = s_groups s -> t' = twist (s_groups t) (s_par t') s' ->
  (forall p, p_grad (s_par s' p) = p_grad (s_par s p)) -> (forall p, p_grad (s_par t' p) = p_grad (s_par t p)) -> rel s' t'.
Proof.
  intros [E G H] E1 E2 E3 E4. assert (EG : s_groups t' = s_groups t) by (rewrite E2; reflexivity). constructor.
  - rewrite EG. exact E2.
  - rewrite E1, EG. exact G.
  - intros p. rewrite E3, E4. apply H.
Qed.

Lemma step_module_rel c m s t cK cC dK dC prev cur :
  rel s t -> NoDup (mod_params m) -> bias_fits m -> usable cK dK -> usable cC dC -> preconditioner_dims (m_layer m) = Ok (dK, dC) ->
  typed cK cC dK dC (s_slots s (m_key m)) ->
  (forall p, In p (mod_params m) -> slot_fits (shape_of m p) (s_par s p)) -> (forall p, In p (mod_params m) -> slot_fits (shape_of m p) (s_par t p)) ->
  get_grad_scale (s_scales s) (Z.of_nat (s_steps s) - 1) = Ok prev -> get_grad_scale (s_scales s) (Z.of_nat (s_steps s)) = Ok cur ->
  rel (fst (step_module c m s)) (fst (step_module c m t)) /\ both (snd (step_module c m s)) (snd (step_module c m t)).
Proof.
  intros R ND BF UK UC Ed T PS PT Ep Ec. pose proof R as [E G H]. split.
  - pose proof (step_module_split c m s) as S1. pose proof (step_module_split c m t) as S2.
    rewrite E, update_twist in S2 by exact G. cbn [fst] in S2. rewrite <- E in S2.
    pose proof (step_module_gk c m s) as K1. pose proof (step_module_gk c m t) as K2.
    apply (rel_upd s t); auto.
    + destruct (step_module_frame c m s) as (_ & _ & F3 & _). exact F3.
    + unfold only_par in S1, S2. rewrite S1, twist_set_par. exact S2.
  - unfold both. rewrite (step_module_ready c m s cK cC dK dC prev cur ND BF UK UC Ed T PS Ep Ec).
    rewrite (step_module_ready c m t cK cC dK dC prev cur ND BF UK UC Ed).
    + apply rel_ready. exact R.
    + rewrite E. exact T.
    + exact PT.
    + rewrite E. exact Ep.
    + rewrite E. exact Ec.
Qed.

Lemma steps_rel c ty l : forall s t prev cur,
  rel s t -> tys_ok c ty -> incl l (c_mods c) -> NoDup (map m_key l) -> NoDup (flat_map mod_params l) -> (forall m, In m (c_mods c) -> bias_fits m) ->
  (forall m, In m l -> mod_typed ty m s) -> pars_fit c s -> pars_fit c t ->
  get_grad_scale (s_scales s) (Z.of_nat (s_steps s) - 1) = Ok prev -> get_grad_scale (s_scales s) (Z.of_nat (s_steps s)) = Ok cur ->
  rel (fst (forS (step_module c) l s)) (fst (forS (step_module c) l t)) /\ both (snd (forS (step_module c) l s)) (snd (forS (step_module c) l t)).
Proof.
  induction l as [|m l IH]; intros s t prev cur R TO I NK NP BF TA PS PT Ep Ec; [split; [exact R|split; auto]|].
  assert (Hm : In m (c_mods c)) by (apply I; left; reflexivity).
  pose proof (TO m Hm) as TOm. pose proof (TA m (or_introl eq_refl)) as T. unfold mod_typed in T.
  destruct (ty m) as [[[cK cC] dK] dC] eqn:Et. destruct TOm as (UK & UC & Ed). cbn [map flat_map] in NK, NP. apply NoDup_cons_iff in NK as [NK1 NK2].
  destruct (step_module_rel c m s t cK cC dK dC prev cur R (nodup_l _ _ NP) (BF m Hm) UK UC Ed T (fun p => PS m p Hm) (fun p => PT m p Hm) Ep Ec) as [R1 B1].
  pose proof (step_module_frame c m s) as (F1 & F2 & F3 & F4 & F5 & F6 & F7 & F8 & F9).
  pose proof (step_module_kf c m s) as KS. pose proof (step_module_kf c m t) as KT.
  cbn [forS]. unfold sbind. destruct (step_module c m s) as [s1 r1]. destruct (step_module c m t) as [t1 r2]. cbn [fst snd] in *.
  destruct r1 as [[]|e1], r2 as [[]|e2]; cbn [fst snd]; try (split; [exact R1|exact B1]).
  - apply (IH s1 t1 prev cur); try assumption.
    + intros m' Hm'. apply I. right. exact Hm'.
    + exact (nodup_r _ _ NP).
    + intros m' Hm'. unfold mod_typed. rewrite F8; [apply TA; right; exact Hm'|]. intros X. injection X as X. apply NK1. rewrite <- X. apply in_map. exact Hm'.
    + intros m' p Hm' Hp. apply KS. exact (PS m' p Hm' Hp).
    + intros m' p Hm' Hp. apply KT. exact (PT m' p Hm' Hp).
    + rewrite F1, F2. exact Ep.
    + rewrite F1, F2. exact Ec.
  - exfalso. destruct B1 as [B1 _]. discriminate (B1 eq_refl).
  - exfalso. destruct B1 as [_ B1]. discriminate (B1 eq_refl).
Qed.

Lemma step_eq c s :
  step c false s = match ensure_scale s with
    | (s1, Err e) => (s1, Err e)
    | (s1, Ok _) => if s_inf s1 then (finish (drop_H c (set_log (s_log s1 ++ [WarnInf]) s1)), Ok tt)
        else match step_all c s1 with (s2, Ok _) => (finish s2, Ok tt) | (s2, Err e) => (s2, Err e) end
    end.
Proof.
  unfold step. unfold sbind at 1. destruct (ensure_scale s) as [s1 [[]|e]]; [|reflexivity]. unfold sbind at 1, getS. destruct (s_inf s1); [reflexivity|].
  unfold sbind. destruct (step_all c s1) as [s2 [[]|e]]; reflexivity.
Qed.

Lemma same_outcome (r : res unit) : both r r. Proof. split; auto. Qed.

Lemma event_rel c ty e e' s t :
  rel s t -> alike e e' -> cfg_ok c -> tys_ok c ty -> (forall m, In m (c_mods c) -> bias_fits m) -> all_typed c ty s -> pars_fit c s -> pars_fit c t ->
  scales_ok (s_steps s) (s_scales s) ->
  rel (fst (event_op c e s)) (fst (event_op c e' t)) /\ both (snd (event_op c e s)) (snd (event_op c e' t)).
Proof.
  intros R A OK TO BF TA PS PT SO. pose proof R as [E G H].
  assert (X : (exists p g g', e = EGrad p (Some g) /\ e' = EGrad p (Some g')) \/ (exists gs gs', e = EGroups gs /\ e' = EGroups gs' /\ Forall2 same_curv gs gs') \/
              (e' = e /\ forall gs, e <> EGroups gs)).
  { destruct e as [| |p [g|]| | | |gs]; destruct e' as [| |p' [g'|]| | | |gs']; cbn in A; try discriminate; try contradiction;
      try (right; right; split; [congruence|intros gs0 Y; discriminate]).
    - left. subst p'. eauto.
    - right. left. eauto. }
  destruct X as [(p & g & g' & -> & ->)|[(gs & gs' & -> & -> & FG)|[-> NG]]].
  - split; [|apply same_outcome]. constructor; cbn.
    + rewrite E. reflexivity.
    + exact G.
    + intros q. unfold upd. destruct (Nat.eqb q p); [cbn; split; discriminate|]. apply H.
  - split; [|apply same_outcome]. constructor; cbn; [rewrite E; reflexivity|exact FG|exact H].
  - destruct e as [m x b out|out g|p g|v|a i|closure|gs]; [| | | | | |exfalso; exact (NG gs eq_refl)]; cbn [event_op].
    + rewrite E, forward_twist by exact G. split; [|apply same_outcome]. cbn [fst].
      destruct (forward_frame c m x b out s) as (F & _). apply (rel_upd s t); auto; rewrite F; reflexivity.
    + unfold sbind at 1 2 3 4, getS at 1 2 3 4. assert (EP : s_pend t out = s_pend s out) by (rewrite E; reflexivity). rewrite EP.
      destruct (s_pend s out) as [[m x]|]; [|split; [exact R|apply same_outcome]].
      rewrite E, accumulate_twist by exact G. split; [|apply same_outcome]. cbn [fst].
      destruct (accumulate_frame c m x g s) as (_ & _ & F3 & _ & _ & _ & _ & _ & F9). apply (rel_upd s t); auto.
      intros q. rewrite F9 by (intros []). reflexivity.
    + split; [|apply same_outcome]. constructor; cbn; [rewrite E; reflexivity|exact G|].
      intros q. unfold upd. destruct (Nat.eqb q p); [cbn; reflexivity|]. apply H.
    + rewrite E, set_scale_twist. split; [|apply same_outcome]. cbn [fst].
      destruct (set_current_grad_scale v s) as [s' r] eqn:Es. apply set_current_grad_scale_frame in Es as ((_ & _ & F3 & F4 & _) & _).
      apply (rel_upd s t); auto. intros q. cbn [fst]. rewrite F3. reflexivity.
    + split; [|apply same_outcome]. constructor; cbn; [rewrite E; reflexivity|exact G|exact H].
    + destruct closure; [split; [exact R|apply same_outcome]|].
      assert (ET : ensure_scale t = (twist (s_groups t) (s_par t) (fst (ensure_scale s)), snd (ensure_scale s))) by (rewrite E at 1; apply ensure_twist).
      rewrite !step_eq, ET.
      pose proof (ensure_scale_ok s SO) as EO. destruct (ensure_scale s) as [s1 r1] eqn:Es. cbn [fst snd] in *.
      pose proof Es as Es0. apply ensure_scale_frame in Es as ((F1 & F2 & F3 & F4 & F5 & F6 & F7) & F8 & F9).
      set (t1 := twist (s_groups t) (s_par t) s1).
      assert (R1 : rel s1 t1). { apply (rel_upd s t); auto. intros q. rewrite F3. reflexivity. }
      destruct r1 as [[]|e]; [|split; [exact R1|apply same_outcome]]. specialize (F9 eq_refl).
      change (s_inf t1) with (s_inf s1). destruct (s_inf s1).
      * split; [|apply same_outcome]. cbn. apply (rel_upd s1 t1); auto.
      * destruct (step_scale s) as [cur|] eqn:Ec; [|discriminate].
        destruct SO as (_ & _ & SO). destruct (In_get _ _ SO) as (prev & Ep). destruct TA as [TA _].
        destruct (steps_rel c ty (c_mods c) s1 t1 prev cur R1 TO) as [R2 B2]; try assumption.
        -- intros m Hm. exact Hm.
        -- exact (proj1 OK).
        -- exact (proj2 OK).
        -- intros m Hm. unfold mod_typed. rewrite F2. apply TA. exact Hm.
        -- intros m p Hm Hp. rewrite F3. exact (PS m p Hm Hp).
        -- rewrite F1, F8 by lia. exact Ep.
        -- rewrite F1. exact F9.
        -- unfold step_all. destruct (forS (step_module c) (c_mods c) s1) as [s2 r2]. destruct (forS (step_module c) (c_mods c) t1) as [t2 r3]. cbn [fst snd] in *.
           destruct r2 as [[]|e2], r3 as [[]|e3]; cbn [fst snd modify]; try (split; [exact R2|exact B2]).
           ++ split; [|apply same_outcome]. destruct R2 as [E2 G2 H2]. constructor; cbn; [rewrite E2; reflexivity|exact G2|exact H2].
           ++ exfalso. destruct B2 as [B2 _]. discriminate (B2 eq_refl).
           ++ exfalso. destruct B2 as [_ B2]. discriminate (B2 eq_refl).
Qed.

Lemma run_rel c ty es : forall es' s t,
  rel s t -> Forall2 alike es es' -> cfg_ok c -> tys_ok c ty -> (forall m, In m (c_mods c) -> bias_fits m) -> all_typed c ty s -> wf_run c es s ->
  pars_fit c s -> pars_fit c t -> Forall (grad_fits c) es -> Forall (grad_fits c) es' -> scales_ok (s_steps s) (s_scales s) ->
  rel (run c es s) (run c es' t) /\ Forall2 both (outcomes c es s) (outcomes c es' t).
Proof.
  induction es as [|e es IH]; intros es' s t R A OK TO BF TA W PS PT GS GT SO; inversion A as [|? e' ? es2 A1 A2]; subst.
  - split; [exact R|constructor].
  - destruct W as [W1 W2]. apply Forall_cons_iff in GS as [GS1 GS2]. apply Forall_cons_iff in GT as [GT1 GT2].
    destruct (event_rel c ty e e' s t R A1 OK TO BF TA PS PT SO) as [R1 B1].
    destruct (IH es2 _ _ R1 A2 OK TO BF) as [R2 B2]; try assumption.
    + apply event_all_typed; [exact TO|exact (proj1 OK)|exact TA|exact W1].
    + apply event_fits; assumption.
    + apply event_fits; assumption.
    + apply event_scales_ok. exact SO.
    + split; [exact R2|]. cbn [outcomes]. constructor; assumption.
Qed.

Lemma ctor_same a par par' h1 h2 h3 h4 c c' st st' :
  ctor a par h1 = (h2, Ok (c, st)) -> ctor a par' h3 = (h4, Ok (c', st')) ->
  c' = c /\ st' = twist (s_groups st') (s_par st') st /\ s_groups st' = s_groups st.
Proof.
  intros E1 E2. destruct (ctor_eq a par h1) as [[_ X]|[_ X]]; rewrite E1 in X; [|discriminate].
  destruct (ctor_eq a par' h3) as [[_ Y]|[_ Y]]; rewrite E2 in Y; [|discriminate].
  destruct (initialize_buffers (cfg_of a) (groups_of a)) as [d|e]; [|discriminate]. injection X as -> -> ->. injection Y as -> -> ->. repeat split.
Qed.

Lemma same_curv_refl g : same_curv g g. Proof. repeat split. Qed.

Lemma independent a par par' c c' st0 st0' es es' :
  setting a par c st0 -> setting a par' c' st0' -> torch_shapes par c -> torch_shapes par' c' ->
  (forall p, p_grad (par p) = None <-> p_grad (par' p) = None) ->
  Forall2 alike es es' -> wf_run c es st0 -> Forall (grad_fits c) es -> Forall (grad_fits c) es' ->
  c' = c /\ rel (run c es st0) (run c' es' st0') /\ Forall2 both (outcomes c es st0) (outcomes c' es' st0').
Proof.
  intros S S' TS TS' PG A W GS GT. pose proof S as ((h1 & h2 & E1) & _). pose proof S' as ((h3 & h4 & E2) & _).
  destruct (ctor_same _ _ _ _ _ _ _ _ _ _ _ E1 E2) as (-> & X & Y). split; [reflexivity|].
  destruct (setting_facts a par c st0 [] S TS I (Forall_nil _)) as (OK & TO & TA & PF & SO).
  destruct (setting_facts a par' c st0' [] S' TS' I (Forall_nil _)) as (_ & _ & _ & PF' & _). cbn [run] in *.
  apply (run_rel c (ctor_ty c (s_groups st0))); try assumption; [|exact (proj1 TS)].
  pose proof (ctor_state _ _ _ _ _ _ E1) as (_ & _ & _ & _ & _ & _ & P1). pose proof (ctor_state _ _ _ _ _ _ E2) as (_ & _ & _ & _ & _ & _ & P2).
  constructor; [exact X| |].
  - rewrite Y. clear. induction (s_groups st0); constructor; [apply same_curv_refl|assumption].
  - intros p. rewrite P1, P2. exact (PG p).
Qed.

End Indep.
