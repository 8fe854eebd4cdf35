(** Lemmas: the learning rate scales the way the weights go. *)

From Coq Require Import List Arith Lia Bool ZArith Field.
From Verif Require Import Scalar Res Tensor TensorFacts Structures StructSpec OptimUtils UtilsFacts ProofUtils Optimizer Construct OptState OptRun OptSpec OptFacts OptTyped OptStep OptDir CtorSpec CtorFacts OptOrder OptFail ProgressSpec Progress LayerSpec LayerSim IndepSpec Indep LinearSpec LinearFacts RateSpec.
Import ListNotations.

Section RateFacts.
Context {SC : Scalar} {FL : FieldLaws SC}.
Add Field Ffr : F_ft.
Open Scope F_scope.
(** [nw]: there is no weight decay; otherwise all learning rates of the second run are zero. *)
Variables (r : F) (nw : bool).

Definition pair_ok (g g' : group) : Prop := rescaled r g g' /\ (if nw then g_wd g = 0 else r = 0).

(** ** One parameter in both runs; [v0] are the weights at the beginning. *)
Record pr (s : list nat) (v0 : list F) (p1 p2 : pslot) : Prop := mkPr {
  pr_f1 : slot_fits s p1;
  pr_f2 : slot_fits s p2;
  pr_grad : p_grad p2 = p_grad p1;
  pr_val : forall k, (k < prod s)%nat -> nth k (data (p_val p2)) 0 = nth k v0 0 + r * (nth k (data (p_val p1)) 0 - nth k v0 0);
  pr_buf : nw = true -> forall k, (k < prod s)%nat -> obuf p2 k = obuf p1 k
}.

Lemma param2 g g' s v0 d p1 p2 : pair_ok g g' -> pr s v0 p1 p2 -> shape d = s ->
  exists q1 q2, param_step g d p1 = (q1, Ok tt) /\ param_step g' d p2 = (q2, Ok tt) /\ pr s v0 q1 q2.
Proof.
  intros [(_ & EM & EW & EL) NW] [(A1 & A2 & A3) (B1 & B2 & B3) PG PV PB] SD.
  destruct (param_step_nth g d p1 s (Logic.conj A1 A3) SD) as (v1 & C1 & E1 & V1 & R1).
  destruct (param_step_nth g' d p2 s (Logic.conj B1 B3) SD) as (v2 & C2 & E2 & V2 & R2).
  exists (mkP v1 (p_grad p1) C1), (mkP v2 (p_grad p2) C2). split; [exact E1|]. split; [exact E2|]. rewrite EM, EW, EL in R2.
  destruct (feqb (g_momentum g) 0).
  - destruct R1 as [-> R1], R2 as [-> R2]. constructor; cbn; [split; [exact V1|split; assumption]|split; [exact V2|split; assumption]|exact PG| |exact PB].
    intros k Hk. rewrite R1, R2, PV by exact Hk. destruct nw; rewrite NW; ring.
  - destruct R1 as (b1 & -> & S1 & R1 & W1), R2 as (b2 & -> & S2 & R2 & W2).
    constructor; cbn; [split; [exact V1|split; [assumption|intros b X; injection X as <-; exact S1]]|split; [exact V2|split; [assumption|intros b X; injection X as <-; exact S2]]|exact PG| |].
    + intros k Hk. rewrite W1, W2, R1, R2, PV by exact Hk. destruct nw; rewrite NW; [rewrite (PB eq_refl) by exact Hk|]; ring.
    + intros N k Hk. unfold obuf in R1, R2 |- *. cbn [p_buf] in *. fold (obuf p1 k) in *. fold (obuf p2 k) in *. rewrite R1, R2 by exact Hk. specialize (PB N k Hk). unfold obuf in PB. rewrite N in NW. rewrite NW, PB. ring.
Qed.

Lemma pair_curv g g' : pair_ok g g' -> same_curv g g'. Proof. intros [[H _] _]. exact H. Qed.
Lemma pairs_curv gs gs' : Forall2 pair_ok gs gs' -> Forall2 same_curv gs gs'.
Proof. induction 1; constructor; [apply pair_curv|]; assumption. Qed.

Lemma group_pair c gs gs' m : Forall2 pair_ok gs gs' ->
  match get_group c gs m, get_group c gs' m with Ok g, Ok g' => pair_ok g g' | Err e, Err e' => e = e' | _, _ => False end.
Proof.
  intros H. unfold get_group. destruct (m_layer m); try reflexivity; (destruct (c_p2g c (m_weight m)) as [i|]; [|reflexivity]);
    (revert i; induction H as [|g g' gs gs' E H IH]; intros [|i]; cbn; [reflexivity|reflexivity|exact E|apply IH]).
Qed.

(** ** Two runs *)
Section Two.
Variables (c : cfg) (ty : tys) (base : nat -> list F).
Hypothesis OK : cfg_ok c.
Hypothesis TO : tys_ok c ty.
Hypothesis BF : forall m, In m (c_mods c) -> bias_fits m.

Definition PR (pa pb : nat -> pslot) : Prop :=
  forall m p, In m (c_mods c) -> In p (mod_params m) -> pr (shape_of m p) (base p) (pa p) (pb p).

Lemma PR_upd pa pb m p q1 q2 : In m (c_mods c) -> In p (mod_params m) -> PR pa pb -> pr (shape_of m p) (base p) q1 q2 -> PR (upd pa p q1) (upd pb p q2).
Proof.
  intros Hm Hp H Q m' p' Hm' Hp'. unfold upd. destruct (Nat.eqb_spec p' p) as [E|]; [|apply H; assumption].
  subst p'. destruct (H m p Hm Hp) as [(E1 & _) _ _ _ _]. destruct (H m' p Hm' Hp') as [(E2 & _) _ _ _ _]. rewrite <- E2, E1. exact Q.
Qed.

Record two (s t : state) : Prop := mkTwo {
  t_core : t = twist (s_groups t) (s_par t) s;
  t_gs : Forall2 pair_ok (s_groups s) (s_groups t);
  t_par : PR (s_par s) (s_par t)
}.

Lemma two_upd s t s' : two s t -> s_groups s' = s_groups s -> s_par s' = s_par s -> two s' (twist (s_groups t) (s_par t) s').
Proof. intros [E G H] E1 E2. constructor; cbn; [reflexivity|rewrite E1; exact G|rewrite E2; exact H]. Qed.

Lemma update_keeps m s : s_par (fst (update_preconditioner c m s)) = s_par s /\ s_groups (fst (update_preconditioner c m s)) = s_groups s.
Proof.
  unfold update_preconditioner, sbind, getS, lift. destruct (get_group c (s_groups s) m) as [g|]; [|split; reflexivity].
  unfold on_slots. destruct (update_slots _ _ _ _ _). split; reflexivity.
Qed.

Lemma step_pars2 g g' m w b s t : In m (c_mods c) -> two s t -> pair_ok g g' -> shape w = weight_shape (m_layer m) ->
  match b with Some b => has_bias (m_layer m) = true /\ shape b = [n_out (m_layer m)] | None => has_bias (m_layer m) = false end ->
  two (fst (step_pars g m w b s)) (fst (step_pars g' m w b t)) /\ snd (step_pars g m w b s) = Ok tt /\ snd (step_pars g' m w b t) = Ok tt.
Proof.
  intros Hm [E G H] P SW SB. assert (Hw : In (m_weight m) (mod_params m)) by (left; reflexivity).
  assert (SW' : shape w = shape_of m (m_weight m)) by (unfold shape_of; rewrite Nat.eqb_refl; exact SW).
  destruct (param2 g g' _ _ w _ _ P (H m _ Hm Hw) SW') as (q1 & q2 & E1 & E2 & Q).
  pose proof (PR_upd _ _ _ _ _ _ Hm Hw H Q) as H1. pose proof (BF m Hm) as BFm. unfold bias_fits in BFm. pose proof (nodup_of c OK m Hm) as ND.
  unfold step_pars, sbind. unfold on_par at 1 3 5 7. rewrite E1, E2.
  destruct (m_bias m) as [p|] eqn:Eb.
  - destruct b as [b|]; [|congruence].
    assert (Hb : In p (mod_params m)) by (unfold mod_params; rewrite Eb; right; left; reflexivity).
    assert (NB : p <> m_weight m).
    { unfold mod_params in ND. rewrite Eb in ND. inversion ND as [|? ? X _]; subst. intros ->. apply X. left. reflexivity. }
    assert (SB' : shape b = shape_of m p) by (unfold shape_of; destruct (Nat.eqb_spec p (m_weight m)); [contradiction|apply SB]).
    destruct (param2 g g' _ _ b _ _ P (H1 m _ Hm Hb) SB') as (r1 & r2 & R1 & R2 & RQ).
    unfold on_par. cbn [s_par set_par]. rewrite R1, R2. split; [|split; reflexivity]. cbn [fst]. constructor; cbn.
    + rewrite E. reflexivity.
    + exact G.
    + apply (PR_upd _ _ m); assumption.
  - split; [|split; destruct b; reflexivity].
    assert (X : two (set_par (upd (s_par s) (m_weight m) q1) s) (set_par (upd (s_par t) (m_weight m) q2) t)).
    { constructor; cbn; [rewrite E; reflexivity|exact G|exact H1]. }
    destruct b; exact X.
Qed.

Lemma self_pm sh p : slot_fits sh p -> pm 1 0 sh p p p.
Proof.
  intros Fp. assert (M : forall t, mixes 1 0 t t t). { intros t. split; [reflexivity|]. split; [reflexivity|]. intros i. ring. }
  constructor; [exact Fp|apply M| |]; unfold omixes; [destruct (p_grad p)|destruct (p_buf p)]; try exact I; apply M.
Qed.

Lemma step_module2 m s t : In m (c_mods c) -> mod_typed ty m s -> two s t ->
  two (fst (step_module c m s)) (fst (step_module c m t)) /\ snd (step_module c m t) = snd (step_module c m s).
Proof.
  intros Hm T R. pose proof R as [E G H]. rewrite !step_module_view.
  assert (EU : update_preconditioner c m t = (twist (s_groups t) (s_par t) (fst (update_preconditioner c m s)), snd (update_preconditioner c m s))).
  { rewrite E at 1. apply update_twist. apply pairs_curv. exact G. }
  rewrite EU. destruct (update_keeps m s) as [KP KG].
  assert (T1 : mod_typed ty m (fst (update_preconditioner c m s))).
  { unfold update_preconditioner, sbind, getS, lift. destruct (get_group c (s_groups s) m) as [g|]; [|exact T]. unfold on_slots.
    destruct (update_slots g (m_layer m) (s_steps s) (s_scales s) (s_slots s (m_key m))) as [sl q] eqn:Eu. cbn [fst].
    unfold mod_typed in *. pose proof (TO m Hm) as TOm. destruct (ty m) as [[[cK cC] dK] dC]. destruct TOm as (UK & UC & Ed).
    cbn [s_slots set_slots]. rewrite upd_eq. pose proof (update_slots_typed g (m_layer m) (s_steps s) (s_scales s) _ cK cC dK dC UK UC Ed T) as [X _]. rewrite Eu in X. exact X. }
  destruct (update_preconditioner c m s) as [s1 [[]|e]]; cbn [fst snd] in *; pose proof (two_upd s t s1 R KG KP) as R1.
  2:{ split; [exact R1|reflexivity]. }
  set (t1 := twist (s_groups t) (s_par t) s1) in *.
  change (s_scales t1) with (s_scales s1). change (s_steps t1) with (s_steps s1). change (s_slots t1) with (s_slots s1).
  assert (EN : forall p, In p (mod_params m) -> grad_data (s_par t1 p) = grad_data (s_par s1 p)).
  { intros p Hp. destruct R1 as [_ _ H1]. destruct (H1 m p Hm Hp) as [_ _ X _ _]. unfold grad_data. rewrite X. reflexivity. }
  rewrite (EN (m_weight m)) by (left; reflexivity).
  assert (EB : option_map (fun b => grad_data (s_par t1 b)) (m_bias m) = option_map (fun b => grad_data (s_par s1 b)) (m_bias m)).
  { destruct (m_bias m) as [b|] eqn:Eb; [|reflexivity]. cbn [option_map]. f_equal. apply EN. unfold mod_params. rewrite Eb. right. left. reflexivity. }
  rewrite EB. unfold mod_typed in T1. pose proof (TO m Hm) as TOm. destruct (ty m) as [[[cK cC] dK] dC]. destruct TOm as (UK & UC & Ed).
  destruct T1 as [(K & EK & VK) (C & EC & VC) _ _ _ _]. rewrite EK, EC. cbn [lookup].
  destruct (nat_mix 1 0 m (get_grad_scale (s_scales s1) (Z.of_nat (s_steps s1))) K C cK cC dK dC (s_par s1) (s_par s1) (s_par s1) Ed UK UC VK VC (BF m Hm) (nodup_of c OK m Hm))
    as [(e & E1 & _)|(N & N2 & N3 & E1 & _ & _ & S1 & _ & _ & _)].
  { intros p Hp. apply self_pm. destruct R1 as [_ _ H1]. apply (H1 m p Hm Hp). }
  { rewrite E1. split; [exact R1|reflexivity]. }
  rewrite E1.
  destruct (split_mix 1 0 _ N N N dK dC Ed S1 S1 S1) as (w & b & _ & _ & _ & _ & F1 & _ & _ & SW & _ & _ & SB). { intros. ring. }
  rewrite F1. pose proof (group_pair c _ _ m (t_gs _ _ R1)) as GP.
  destruct (get_group c (s_groups s1) m) as [g|e], (get_group c (s_groups t1) m) as [g'|e']; try contradiction.
  - destruct (step_pars2 g g' m w b s1 t1 Hm R1 GP SW SB) as (X & Y & Z). split; [exact X|]. rewrite Y, Z. reflexivity.
  - split; [exact R1|]. cbn. rewrite GP. reflexivity.
Qed.

Lemma steps2 l : forall s t, incl l (c_mods c) -> (forall m, In m (c_mods c) -> mod_typed ty m s) -> two s t ->
  two (fst (forS (step_module c) l s)) (fst (forS (step_module c) l t)) /\ snd (forS (step_module c) l t) = snd (forS (step_module c) l s).
Proof.
  induction l as [|m l IH]; intros s t I T R; [split; [exact R|reflexivity]|].
  assert (Hm : In m (c_mods c)) by (apply I; left; reflexivity).
  destruct (step_module2 m s t Hm (T m Hm) R) as [R1 O1].
  assert (T1 : forall q, In q (c_mods c) -> mod_typed ty q (fst (step_module c m s))).
  { intros q Hq. apply (step_module_ty c ty q m TO Hq (same_key _ q m (proj1 OK) Hq Hm)). apply T. exact Hq. }
  cbn [forS]. unfold sbind. destruct (step_module c m s) as [s1 r1]. destruct (step_module c m t) as [t1 r2]. cbn [fst snd] in *. subst r2.
  destruct r1 as [[]|e]; [|split; [exact R1|reflexivity]]. apply IH; [|exact T1|exact R1]. intros q Hq. apply I. right. exact Hq.
Qed.

Lemma step2 closure s t : all_typed c ty s -> two s t ->
  two (fst (step c closure s)) (fst (step c closure t)) /\ snd (step c closure t) = snd (step c closure s).
Proof.
  intros [TA _] R. destruct closure; [split; [exact R|reflexivity]|]. pose proof R as [E G H].
  assert (ET : ensure_scale t = (twist (s_groups t) (s_par t) (fst (ensure_scale s)), snd (ensure_scale s))) by (rewrite E at 1; apply ensure_twist).
  rewrite !step_eq, ET. destruct (ensure_scale s) as [s1 r1] eqn:Es. cbn [fst snd].
  apply ensure_scale_frame in Es as ((F1 & F2 & F3 & F4 & F5 & F6 & F7) & _).
  assert (R1 : two s1 (twist (s_groups t) (s_par t) s1)) by (apply (two_upd s t); assumption).
  destruct r1 as [[]|e]; [|split; [exact R1|reflexivity]].
  set (t1 := twist (s_groups t) (s_par t) s1) in *. change (s_inf t1) with (s_inf s1). destruct (s_inf s1).
  { split; [|reflexivity]. cbn. apply (two_upd s1 t1 (finish (drop_H c (set_log (s_log s1 ++ [WarnInf]) s1))) R1); reflexivity. }
  destruct (steps2 (c_mods c) s1 t1 (fun m Hm => Hm)) as [R2 O2].
  { intros m Hm. unfold mod_typed. rewrite F2. apply TA. exact Hm. }
  { exact R1. }
  unfold step_all. destruct (forS (step_module c) (c_mods c) s1) as [s2 r2]. destruct (forS (step_module c) (c_mods c) t1) as [t2 r3]. cbn [fst snd] in *. subst r3.
  destruct r2 as [[]|e]; [|split; [exact R2|reflexivity]]. split; [|reflexivity]. cbn [fst].
  destruct R2 as [E2 G2 H2]. constructor; cbn; [rewrite E2; reflexivity|exact G2|exact H2].
Qed.

Definition pair_call (e e' : event) : Prop :=
  match e, e' with
  | EGroups gs, EGroups gs' => Forall2 pair_ok gs gs'
  | EGroups _, _ => False
  | _, _ => e' = e
  end.

Lemma event2 e e' s t : pair_call e e' -> grad_fits c e -> all_typed c ty s -> two s t ->
  two (fst (event_op c e s)) (fst (event_op c e' t)) /\ snd (event_op c e' t) = snd (event_op c e s).
Proof.
  intros M GF TA R. pose proof R as [E G H]. pose proof (pairs_curv _ _ G) as GC.
  destruct e as [m x b out|out g|p g|v|a i|closure|gs]; [| | | | | |destruct e'; try contradiction]; cbn in M; try subst e'; cbn [event_op].
  - rewrite E, forward_twist by exact GC. split; [|reflexivity]. cbn [fst].
    destruct (forward_frame c m x b out s) as (Ff & _). apply (two_upd s t); auto; rewrite Ff; reflexivity.
  - unfold sbind at 1 2 3 4, getS at 1 2 3 4. assert (EP : s_pend t out = s_pend s out) by (rewrite E; reflexivity). rewrite EP.
    destruct (s_pend s out) as [[m x]|]; [|split; [exact R|reflexivity]].
    rewrite E, accumulate_twist by exact GC. split; [|reflexivity]. cbn [fst].
    assert (K : s_par (fst (accumulate_H_terms c m x g s)) = s_par s /\ s_groups (fst (accumulate_H_terms c m x g s)) = s_groups s).
    { unfold accumulate_H_terms, sbind, getS, lift. destruct (get_group c (s_groups s) m); [|split; reflexivity].
      destruct (local_H _ _ _ _ _ _) as [[hk hc]|]; [|split; reflexivity]. unfold on_slots. destruct (store_H _ _ _). split; reflexivity. }
    destruct K. apply (two_upd s t); assumption.
  - split; [|reflexivity]. constructor; cbn; [rewrite E; reflexivity|exact G|].
    intros m q Hm Hq. unfold upd. destruct (Nat.eqb_spec q p) as [X|]; [|apply H; assumption]. subst q.
    destruct (H m p Hm Hq) as [(A1 & A2 & A3) (B1 & B2 & B3) PG PV PB].
    constructor; cbn; [| |reflexivity|exact PV|exact PB]; (split; [assumption|]; split; [|assumption]); intros u Eu; cbn in Eu; subst g; exact (GF m Hm Hq).
  - rewrite E, set_scale_twist. split; [|reflexivity]. cbn [fst].
    destruct (set_current_grad_scale v s) as [s' q] eqn:Es. apply set_current_grad_scale_frame in Es as ((_ & _ & F3 & F4 & _) & _).
    apply (two_upd s t); auto.
  - split; [|reflexivity]. constructor; cbn; [rewrite E; reflexivity|exact G|exact H].
  - apply step2; assumption.
  - split; [|reflexivity]. constructor; cbn; [rewrite E; reflexivity|exact M|exact H].
Qed.

Theorem run2 es : forall es' s t,
  Forall2 pair_call es es' -> Forall (grad_fits c) es -> all_typed c ty s -> wf_run c es s -> two s t ->
  two (run c es s) (run c es' t) /\ outcomes c es' t = outcomes c es s.
Proof.
  induction es as [|e es IH]; intros es' s t M GF TA W R; inversion M as [|? e' ? es2 M1 M2]; subst.
  - split; [exact R|reflexivity].
  - apply Forall_cons_iff in GF as [GF1 GF]. destruct W as [W1 W].
    destruct (event2 e e' s t M1 GF1 TA R) as [R1 O1].
    destruct (IH es2 (fst (event_op c e s)) (fst (event_op c e' t)) M2 GF) as [R2 O2].
    + apply event_all_typed; [exact TO|exact (proj1 OK)|exact TA|exact W1].
    + exact W.
    + exact R1.
    + split; [exact R2|]. cbn [outcomes]. rewrite O1, O2. reflexivity.
Qed.
End Two.
End RateFacts.
