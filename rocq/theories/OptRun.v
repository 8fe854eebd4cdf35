(** Invariants of whole histories of API calls (Optimizer.v, Construct.v). *)

From Coq Require Import List Arith Lia Bool ZArith.
From Verif Require Import Scalar Res Tensor Structures OptimUtils Optimizer Construct OptState.
Import ListNotations.

Section Run.
Context {SC : Scalar}.

Lemma run_app c es1 es2 st : run c (es1 ++ es2) st = run c es2 (run c es1 st).
Proof. revert st. induction es1; intros st; [reflexivity|]. cbn [app run]. apply IHes1. Qed.

Lemma run_inv (P : state -> Prop) c es st :
  P st -> (forall st e, P st -> P (fst (event_op c e st))) -> P (run c es st).
Proof. intros H0 H. revert st H0. induction es; intros st H0; [exact H0|]. cbn [run]. apply IHes. apply H. exact H0. Qed.

(** ** Calls other than step *)

Lemma forward_frame c m x b out st :
  let st' := fst (forward_hook c m x b out st) in
  st' = set_pend (s_pend st') st /\ (forall o, o <> out -> s_pend st' o = s_pend st o) /\
  (s_pend st' out = None \/ s_pend st' out = Some (m, x) /\ b = true /\
     exists g, get_group c (s_groups st) m = Ok g /\ is_update_step g (s_steps st) = Ok true).
Proof.
  unfold forward_hook, sbind, getS, modify, lift, ret.
  destruct (get_group c (s_groups st) m) as [g|] eqn:Eg; cbn.
  2:{ split; [destruct st; reflexivity|]. split; [intros o Ho; apply upd_neq; exact Ho|]. left. apply upd_eq. }
  destruct b; cbn.
  2:{ split; [destruct st; reflexivity|]. split; [intros o Ho; apply upd_neq; exact Ho|]. left. apply upd_eq. }
  destruct (is_update_step g (s_steps st)) as [[|]|] eqn:Eu; cbn.
  - split; [destruct st; reflexivity|]. split; [intros o Ho; apply upd_neq; exact Ho|]. right. rewrite upd_eq. eauto.
  - split; [destruct st; reflexivity|]. split; [intros o Ho; apply upd_neq; exact Ho|]. left. apply upd_eq.
  - split; [destruct st; reflexivity|]. split; [intros o Ho; apply upd_neq; exact Ho|]. left. apply upd_eq.
Qed.

Lemma accumulate_frame c m x g st : frame (Some (m_key m)) [] st (fst (accumulate_H_terms c m x g st)).
Proof.
  apply (keeps_at _ (accumulate_H_terms c m x g) st _ (snd (accumulate_H_terms c m x g st))).
  2:{ destruct (accumulate_H_terms c m x g st); reflexivity. }
  unfold accumulate_H_terms. apply keeps_bind; [apply frame_trans|apply keeps_getS; apply frame_refl|]. intros s.
  apply keeps_bind; [apply frame_trans|apply keeps_lift; apply frame_refl|]. intros gr.
  apply keeps_bind; [apply frame_trans|apply keeps_lift; apply frame_refl|]. intros [a b]. apply on_slots_frame.
Qed.

(** Preconditioners and their momenta. *)
Definition same_pre (s t : slots) : Prop :=
  sl_K t = sl_K s /\ sl_C t = sl_C s /\ sl_mK t = sl_mK s /\ sl_mC t = sl_mC s.

Lemma same_pre_refl s : same_pre s s.
Proof. repeat split. Qed.
Lemma same_pre_trans a b c : same_pre a b -> same_pre b c -> same_pre a c.
Proof. intros (A1 & A2 & A3 & A4) (B1 & B2 & B3 & B4). repeat split; congruence. Qed.

Lemma store_H_same HK HC : keeps same_pre (store_H HK HC).
Proof.
  unfold store_H. apply keeps_bind; [apply same_pre_trans|apply keeps_getS; apply same_pre_refl|]. intros s.
  apply keeps_bind; [apply same_pre_trans|apply keeps_lift; apply same_pre_refl|]. intros hk.
  apply keeps_bind; [apply same_pre_trans|apply keeps_modify; intros; repeat split|]. intros _.
  apply keeps_bind; [apply same_pre_trans|apply keeps_lift; apply same_pre_refl|]. intros hc.
  apply keeps_modify. intros. repeat split.
Qed.

Lemma accumulate_same c m x g st k : same_pre (s_slots st k) (s_slots (fst (accumulate_H_terms c m x g st)) k).
Proof.
  destruct (Nat.eq_dec k (m_key m)) as [->|N].
  - unfold accumulate_H_terms, sbind, getS, lift.
    destruct (get_group c (s_groups st) m) as [gr|]; [|apply same_pre_refl].
    destruct (local_H _ _ _ _ _ _) as [[a b]|]; [|apply same_pre_refl].
    unfold on_slots. pose proof (store_H_same a b (s_slots st (m_key m))) as H.
    destruct (store_H a b (s_slots st (m_key m))) as [s' r]. cbn in *. rewrite upd_eq. exact H.
  - destruct (accumulate_frame c m x g st) as (_ & _ & _ & _ & _ & _ & _ & H & _).
    rewrite H by congruence. apply same_pre_refl.
Qed.

(** ** The step counter *)

Lemma finish_steps st : s_steps (finish st) = S (s_steps st).
Proof. reflexivity. Qed.

Lemma step_counter c closure st st' r :
  step c closure st = (st', r) ->
  s_steps st' = match r with Ok _ => S (s_steps st) | Err _ => s_steps st end.
Proof.
  intros H. apply step_cases in H as [(_ & -> & ->)|(_ & st1 & [(e & E & -> & ->)|(E & H)])].
  - reflexivity.
  - apply ensure_scale_frame in E as ((E & _) & _). exact E.
  - apply ensure_scale_frame in E as ((E & _) & _). destruct H as [(_ & -> & ->)|(_ & st2 & r2 & E2 & H)].
    + cbn. rewrite E. reflexivity.
    + apply steps_frame in E2 as (E2 & _). destruct r2.
      * destruct H as [-> ->]. rewrite finish_steps. congruence.
      * destruct H as [-> ->]. congruence.
Qed.

Lemma other_counter c e st : (forall b, e <> EStep b) -> s_steps (fst (event_op c e st)) = s_steps st.
Proof.
  intros H. destruct e; cbn [event_op].
  - pose proof (forward_frame c m x grad_on out st) as (E & _). rewrite E. reflexivity.
  - unfold sbind, getS. destruct (s_pend st out) as [[m x]|]; [|reflexivity].
    destruct (accumulate_frame c m x g st) as (E & _). exact E.
  - reflexivity.
  - destruct (set_current_grad_scale s st) as [s' r] eqn:E. apply set_current_grad_scale_frame in E as ((E & _) & _). exact E.
  - reflexivity.
  - exfalso. eapply H. reflexivity.
  - reflexivity.
Qed.

(** The values of the counter at which steps succeeded. *)
Fixpoint step_times (c : cfg) (es : list event) (st : state) : list nat :=
  match es with
  | [] => []
  | e :: es' =>
      (match e, snd (event_op c e st) with EStep _, Ok _ => [s_steps st] | _, _ => [] end)
      ++ step_times c es' (fst (event_op c e st))
  end.

Lemma step_times_seq c es st :
  step_times c es st = seq (s_steps st) (length (step_times c es st)) /\
  s_steps (run c es st) = (s_steps st + length (step_times c es st))%nat.
Proof.
  revert st. induction es as [|e es IH]; intros st; [split; [reflexivity|cbn; lia]|].
  cbn [step_times run]. destruct (IH (fst (event_op c e st))) as [I1 I2].
  destruct e; try (cbn [app]; rewrite other_counter in * by discriminate; split; assumption).
  cbn [event_op] in *. destruct (step c closure st) as [st' r] eqn:E. cbn [fst snd] in *. pose proof (step_counter _ _ _ _ _ E) as C.
  destruct r; rewrite C in *; cbn [app length seq]; split; try assumption.
  - f_equal. exact I1.
  - lia.
Qed.

(** ** Preconditioners change only in update steps *)

Definition not_due (c : cfg) (m : modul) (st : state) : Prop :=
  forall g, get_group c (s_groups st) m = Ok g -> is_update_step g (s_steps st) <> Ok true.


Definition Pnd (c : cfg) (m : modul) (s t : state) : Prop :=
  not_due c m s -> same_pre (s_slots s (m_key m)) (s_slots t (m_key m)) /\ not_due c m t.

Lemma Pnd_refl c m s : Pnd c m s s.
Proof. intros N. split; [apply same_pre_refl|exact N]. Qed.
Lemma Pnd_trans c m a b d : Pnd c m a b -> Pnd c m b d -> Pnd c m a d.
Proof.
  intros H1 H2 N. destruct (H1 N) as [H3 N2]. destruct (H2 N2) as [H4 N3]. split; [|exact N3].
  eapply same_pre_trans; eassumption.
Qed.
Lemma frame_Pnd c m k ps s t : frame k ps s t -> k <> Some (m_key m) -> Pnd c m s t.
Proof.
  intros (A1 & A2 & A3 & A4 & A5 & A6 & A7 & A8 & A9) Hk N. split.
  - rewrite A8 by congruence. apply same_pre_refl.
  - intros g. rewrite A1, A3. apply N.
Qed.

Lemma step_module_not_due c m m' : m_key m' <> m_key m \/ m' = m -> keeps (Pnd c m) (step_module c m').
Proof.
  intros [N| ->].
  - intros s. apply (frame_Pnd c m _ _ _ _ (step_module_frame c m' s)). congruence.
  - unfold step_module. apply keeps_bind; [apply Pnd_trans| |].
    + intros s ND. split.
      2:{ pose proof (update_preconditioner_frame c m [] s) as (B1 & _ & B3 & _). intros g. rewrite B1, B3. apply ND. }
      unfold update_preconditioner, sbind, getS, lift. destruct (get_group c (s_groups s) m) as [g|] eqn:Eg; [|apply same_pre_refl].
      specialize (ND g Eg). unfold on_slots, update_slots, sbind at 1, lift at 1.
      destruct (is_update_step g (s_steps s)) as [[|]|]; [congruence| |]; cbn; rewrite upd_eq; apply same_pre_refl.
    + intros _. apply keeps_bind; [apply Pnd_trans| |].
      { intros s. apply (frame_Pnd c m _ _ _ _ (compute_natural_gradient_frame c m None [] s)). discriminate. }
      intros [w b]. apply keeps_bind; [apply Pnd_trans|apply keeps_getS; apply Pnd_refl|]. intros st.
      apply keeps_bind; [apply Pnd_trans|apply keeps_lift; apply Pnd_refl|]. intros g.
      assert (OP : forall p (f : SM pslot unit), keeps (Pnd c m) (on_par p f)).
      { intros p f s. apply (frame_Pnd c m _ _ _ _ (on_par_frame unit p f None [p] (or_introl eq_refl) s)). discriminate. }
      apply keeps_bind; [apply Pnd_trans|apply OP|]. intros _. destruct (m_bias m); [|apply keeps_ret; apply Pnd_refl].
      destruct b; [apply OP|apply keeps_ret; apply Pnd_refl].
Qed.

Lemma same_key (l : list modul) m m' : NoDup (map m_key l) -> In m l -> In m' l -> m_key m' <> m_key m \/ m' = m.
Proof.
  intros N Hm Hm'. destruct (Nat.eq_dec (m_key m') (m_key m)) as [E|]; [right|left; assumption].
  induction l as [|a l IH]; [contradiction|]. cbn in N. apply NoDup_cons_iff in N as [N1 N2].
  destruct Hm as [->|Hm], Hm' as [->|Hm'].
  - reflexivity.
  - exfalso. apply N1. rewrite <- E. apply in_map. exact Hm'.
  - exfalso. apply N1. rewrite E. apply in_map. exact Hm.
  - auto.
Qed.

Lemma drop_H_same c st k : same_pre (s_slots st k) (s_slots (drop_H c st) k).
Proof. unfold drop_H. cbn. destruct (existsb _ _); repeat split. Qed.

Lemma step_same c closure st m :
  NoDup (map m_key (c_mods c)) -> In m (c_mods c) -> s_inf st = true \/ not_due c m st ->
  same_pre (s_slots st (m_key m)) (s_slots (fst (step c closure st)) (m_key m)).
Proof.
  intros Nk Hm H. destruct (step c closure st) as [st' r] eqn:E. cbn [fst].
  apply step_cases in E as [(_ & -> & ->)|(_ & st1 & [(e & E & -> & ->)|(E & C)])].
  - apply same_pre_refl.
  - apply ensure_scale_frame in E as ((_ & E & _) & _). rewrite E. apply same_pre_refl.
  - apply ensure_scale_frame in E as ((E1 & E2 & E3 & E4 & _) & _). destruct C as [(_ & -> & ->)|(Ei & st2 & r2 & ES & C)].
    + unfold finish. cbn. rewrite <- E2. apply (drop_H_same c st1).
    + destruct H as [H|H]; [congruence|].
      assert (K : keeps (Pnd c m) (forS (step_module c) (c_mods c))).
      { apply keeps_forS; [apply Pnd_refl|apply Pnd_trans|]. intros m' Hm'. apply step_module_not_due. apply (same_key (c_mods c)); assumption. }
      pose proof (keeps_at _ _ _ _ _ K ES) as P. destruct P as [P _].
      { intros g. rewrite E1, E4. apply H. }
      rewrite E2 in P. destruct r2; destruct C as [-> ->]; exact P.
Qed.

(** ** Gradient scales *)

Definition scales_ok (n : nat) (d : list (Z * F)) : Prop :=
  NoDup (map fst d) /\ (forall k, In k (map fst d) -> k = (Z.of_nat n - 1)%Z \/ k = Z.of_nat n) /\
  In (Z.of_nat n - 1)%Z (map fst d).

Lemma put_keys d t v : map fst (put_scale d t v) = if existsb (Z.eqb t) (map fst d) then map fst d else map fst d ++ [t].
Proof.
  induction d as [|[u w] d IH]; cbn; [reflexivity|]. rewrite (Z.eqb_sym t u). destruct (Z.eqb_spec u t); cbn.
  - subst. reflexivity.
  - rewrite IH. destruct (existsb (Z.eqb t) (map fst d)); reflexivity.
Qed.

Lemma NoDup_app_one {A} (l : list A) a : NoDup l -> ~ In a l -> NoDup (l ++ [a]).
Proof.
  induction l; intros N H; cbn; [constructor; [auto|constructor]|]. apply NoDup_cons_iff in N as [N1 N2]. constructor.
  - intros I. apply in_app_iff in I as [I|[->|[]]]; [contradiction|]. apply H. left. reflexivity.
  - apply IHl; [exact N2|]. intros I. apply H. right. exact I.
Qed.

Lemma put_scales_ok n d v : scales_ok n d -> scales_ok n (put_scale d (Z.of_nat n) v) /\ In (Z.of_nat n) (map fst (put_scale d (Z.of_nat n) v)).
Proof.
  intros (N & B & I). unfold scales_ok. rewrite put_keys. destruct (existsb (Z.eqb (Z.of_nat n)) (map fst d)) eqn:E.
  - split; [auto|]. apply existsb_exists in E as (x & Hx & Ex). apply Z.eqb_eq in Ex. subst x. exact Hx.
  - assert (NI : ~ In (Z.of_nat n) (map fst d)).
    { intros H. assert (existsb (Z.eqb (Z.of_nat n)) (map fst d) = true); [|congruence].
      apply existsb_exists. exists (Z.of_nat n). split; [exact H|apply Z.eqb_refl]. }
    split; [|apply in_app_iff; right; left; reflexivity]. split; [|split].
    + apply NoDup_app_one; assumption.
    + intros k Hk. apply in_app_iff in Hk as [Hk|[<-|[]]]; [apply B; exact Hk|right; reflexivity].
    + apply in_app_iff. left. exact I.
Qed.

Lemma remove_keys d n : map fst (remove_used d n) = filter (fun k => negb (Z.ltb k (Z.of_nat n - 1))) (map fst d).
Proof.
  unfold remove_used. induction d as [|[u w] d IH]; cbn [filter map fst]; [reflexivity|].
  destruct (Z.ltb u (Z.of_nat n - 1)); cbn [negb map fst]; rewrite IH; reflexivity.
Qed.

Lemma remove_scales_ok n d : scales_ok n d -> In (Z.of_nat n) (map fst d) -> scales_ok (S n) (remove_used d (S n)).
Proof.
  intros (N & B & I) J. unfold scales_ok. rewrite remove_keys. split; [|split].
  - apply NoDup_filter. exact N.
  - intros k Hk. apply filter_In in Hk as [Hk Hl]. apply B in Hk. left.
    destruct (Z.ltb_spec k (Z.of_nat (S n) - 1)); [discriminate|]. lia.
  - apply filter_In. replace (Z.of_nat (S n) - 1)%Z with (Z.of_nat n) by lia. split; [exact J|].
    rewrite Z.ltb_irrefl. reflexivity.
Qed.

Lemma get_In d t v : get_grad_scale d t = Ok v -> In t (map fst d).
Proof.
  induction d as [|[u w] d IH]; cbn; [discriminate|]. destruct (Z.eqb_spec u t); [left; assumption|]. intros H. right. auto.
Qed.
Lemma In_get d t : In t (map fst d) -> exists v, get_grad_scale d t = Ok v.
Proof.
  induction d as [|[u w] d IH]; cbn; [contradiction|]. destruct (Z.eqb_spec u t); [eauto|]. intros [H|H]; [contradiction|auto].
Qed.

Lemma ensure_scales_ok st st' r :
  ensure_scale st = (st', r) -> scales_ok (s_steps st) (s_scales st) ->
  scales_ok (s_steps st') (s_scales st') /\ (r = Ok tt -> In (Z.of_nat (s_steps st')) (map fst (s_scales st'))).
Proof.
  unfold ensure_scale, sbind, getS, ret, raise. intros H HS.
  destruct (get_grad_scale (s_scales st) (Z.of_nat (s_steps st))) as [v|e] eqn:E.
  - injection H as <- <-. split; [exact HS|]. intros _. eapply get_In; exact E.
  - destruct (s_amp st) as [[v|]|].
    + apply set_current_grad_scale_frame in H as [(E1 & _) ->]. rewrite E1. destruct (put_scales_ok _ _ v HS). auto.
    + injection H as <- <-. split; [exact HS|]. discriminate.
    + apply set_current_grad_scale_frame in H as [(E1 & _) ->]. rewrite E1. destruct (put_scales_ok _ _ f1 HS). auto.
Qed.

Lemma step_scales_ok c closure st :
  scales_ok (s_steps st) (s_scales st) ->
  scales_ok (s_steps (fst (step c closure st))) (s_scales (fst (step c closure st))).
Proof.
  intros HS. destruct (step c closure st) as [st' r] eqn:E. cbn [fst].
  apply step_cases in E as [(_ & -> & ->)|(_ & st1 & [(e & E & -> & ->)|(E & C)])].
  - exact HS.
  - apply (ensure_scales_ok _ _ _ E HS).
  - destruct (ensure_scales_ok _ _ _ E HS) as [H1 H2]. specialize (H2 eq_refl).
    destruct C as [(_ & -> & ->)|(_ & st2 & r2 & ES & C)].
    + unfold finish. cbn. apply remove_scales_ok; assumption.
    + apply steps_frame in ES as (E1 & E2 & _). destruct r2; destruct C as [-> ->].
      * unfold finish. cbn [s_steps s_scales set_scales set_steps]. rewrite E1, E2. apply remove_scales_ok; assumption.
      * rewrite E1, E2. exact H1.
Qed.

Lemma event_scales_ok c e st :
  scales_ok (s_steps st) (s_scales st) ->
  scales_ok (s_steps (fst (event_op c e st))) (s_scales (fst (event_op c e st))).
Proof.
  intros HS. destruct e; cbn [event_op].
  - destruct (forward_frame c m x grad_on out st) as (E & _). rewrite E. exact HS.
  - unfold sbind, getS. destruct (s_pend st out) as [[m x]|]; [|exact HS].
    destruct (accumulate_frame c m x g st) as (E1 & E2 & _). rewrite E1, E2. exact HS.
  - exact HS.
  - destruct (set_current_grad_scale s st) as [s' r] eqn:E. apply set_current_grad_scale_frame in E as ((E & _) & E2).
    cbn [fst]. rewrite E, E2. apply put_scales_ok. exact HS.
  - exact HS.
  - apply step_scales_ok. exact HS.
  - exact HS.
Qed.

Lemma ctor_state a par hooks hooks' c st :
  ctor a par hooks = (hooks', Ok (c, st)) ->
  s_steps st = 0%nat /\ s_scales st = [((-1)%Z, a_init_scale a)] /\ s_amp st = None /\ s_inf st = false /\
  (forall o, s_pend st o = None) /\ s_log st = [] /\
  (forall p, s_par st p = mkP (p_val (par p)) (p_grad (par p)) None).
Proof.
  unfold ctor. intros H. apply sbind_ok in H as (? & ? & _ & H). apply sbind_ok in H as (? & ? & _ & H).
  apply sbind_ok in H as (? & ? & _ & H). apply sbind_ok in H as (? & [gs p2g] & _ & H).
  apply sbind_ok in H as (? & ? & _ & H). cbv zeta in H. apply sbind_ok in H as (? & ? & _ & H).
  injection H as _ _ <-. repeat split.
Qed.

(** The previous scale is the one the previous step used. *)
Lemma step_prev_scale c closure st st' :
  step c closure st = (st', Ok tt) ->
  exists v, step_scale st = Ok v /\ get_grad_scale (s_scales st') (Z.of_nat (s_steps st') - 1) = Ok v.
Proof.
  intros H. pose proof (step_counter _ _ _ _ _ H) as Ct. cbn in Ct.
  apply step_cases in H as [(_ & _ & D)|(_ & st1 & [(e & E & -> & D)|(E & C)])]; try discriminate.
  pose proof (ensure_scale_frame _ _ _ E) as ((E1 & _) & _ & E3). specialize (E3 eq_refl).
  assert (G : exists v, step_scale st = Ok v).
  { clear - E. unfold ensure_scale, sbind, getS, ret, raise in E. unfold step_scale.
    destruct (get_grad_scale _ _); [eauto|]. destruct (s_amp st) as [[v|]|]; [eauto|discriminate|eauto]. }
  destruct G as (v & G). exists v. split; [exact G|].
  replace (Z.of_nat (s_steps st') - 1)%Z with (Z.of_nat (s_steps st)) by lia.
  destruct C as [(_ & _ & ->)|(_ & st2 & r2 & ES & C)].
  - unfold finish. cbn [s_scales set_scales]. rewrite get_remove by (unfold drop_H, set_log, set_slots; cbn [s_steps]; lia). cbn. congruence.
  - apply steps_frame in ES as (S1 & S2 & _). destruct r2; destruct C as [C ->]; [|discriminate].
    unfold finish. cbn [s_scales set_scales]. rewrite get_remove by lia. rewrite S2. congruence.
Qed.

Lemma event_prev_scale c e st :
  s_steps (fst (event_op c e st)) = s_steps st ->
  get_grad_scale (s_scales (fst (event_op c e st))) (Z.of_nat (s_steps st) - 1) = get_grad_scale (s_scales st) (Z.of_nat (s_steps st) - 1).
Proof.
  intros Hs. destruct e; cbn [event_op] in *; try reflexivity.
  - destruct (forward_frame c m x grad_on out st) as (E & _). rewrite E. reflexivity.
  - unfold sbind, getS. destruct (s_pend st out) as [[m x]|]; [|reflexivity].
    destruct (accumulate_frame c m x g st) as (E1 & E2 & _). rewrite E2. reflexivity.
  - destruct (set_current_grad_scale s st) as [s' r] eqn:E. apply set_current_grad_scale_frame in E as (_ & E2).
    cbn [fst]. rewrite E2. apply get_put_other. lia.
  - destruct (step c closure st) as [st' r] eqn:E. cbn [fst] in *. pose proof (step_counter _ _ _ _ _ E) as C.
    destruct r as [[]|]; [lia|].
    apply step_cases in E as [(_ & -> & _)|(_ & st1 & [(e0 & E & -> & _)|(E & D)])].
    + reflexivity.
    + apply ensure_scale_frame in E as (_ & E & _). apply E. lia.
    + apply ensure_scale_frame in E as (_ & E & _). destruct D as [(_ & D & _)|(_ & st2 & r2 & ES & D)]; [discriminate|].
      apply steps_frame in ES as (_ & S2 & _). destruct r2; destruct D as [D ->]; [discriminate|].
      rewrite S2. apply E. lia.
Qed.

(** ** Methods that do not look at pending outputs *)

Definition blind {A} (x : SM state A) : Prop :=
  forall q s, x (set_pend q s) = (set_pend q (fst (x s)), snd (x s)).

Lemma blind_bind A B (x : SM state A) (f : A -> SM state B) : blind x -> (forall a, blind (f a)) -> blind (sbind x f).
Proof.
  intros Hx Hf q s. unfold sbind. rewrite Hx. destruct (x s) as [s' [a|e]]; cbn [fst snd]; [apply Hf|reflexivity].
Qed.
Lemma blind_getS A (f : state -> SM state A) :
  (forall s, blind (f s)) -> (forall q s, f (set_pend q s) = f s) -> blind (sbind getS f).
Proof. intros Hf He q s. unfold sbind, getS. rewrite He. apply Hf. Qed.
Lemma blind_lift A (r : res A) : blind (lift r).
Proof. intros q s. reflexivity. Qed.
Lemma blind_ret A (a : A) : blind (ret a).
Proof. intros q s. reflexivity. Qed.
Lemma blind_raise A e : blind (@raise state A e).
Proof. intros q s. reflexivity. Qed.
Lemma blind_on_slots A k (f : SM slots A) : blind (on_slots k f).
Proof. intros q s. unfold on_slots. cbn. destruct (f (s_slots s k)). reflexivity. Qed.
Lemma blind_on_par A k (f : SM pslot A) : blind (on_par k f).
Proof. intros q s. unfold on_par. cbn. destruct (f (s_par s k)). reflexivity. Qed.
Lemma blind_forS A (f : A -> SM state unit) l : (forall a, blind (f a)) -> blind (forS f l).
Proof. intros H. induction l; cbn [forS]; [apply blind_ret|]. apply blind_bind; [apply H|]. intros _. exact IHl. Qed.

Lemma blind_step_module c m : blind (step_module c m).
Proof.
  unfold step_module. apply blind_bind.
  - unfold update_preconditioner. apply blind_getS; [|reflexivity]. intros s. apply blind_bind; [apply blind_lift|]. intros g. apply blind_on_slots.
  - intros _. apply blind_bind.
    + unfold compute_natural_gradient. apply blind_getS; [|reflexivity]. intros s. apply blind_bind; [apply blind_lift|]. intros N. apply blind_lift.
    + intros [w b]. apply blind_getS; [|reflexivity]. intros s. apply blind_bind; [apply blind_lift|]. intros g.
      apply blind_bind; [apply blind_on_par|]. intros _. destruct (m_bias m); [|apply blind_ret]. destruct b; [apply blind_on_par|apply blind_ret].
Qed.

Lemma blind_set_scale v : blind (set_current_grad_scale v).
Proof.
  intros q s. unfold set_current_grad_scale, sbind, getS, modify, lift, ret. cbn.
  destruct (Nat.eqb (s_steps s) 0); [|reflexivity].
  destruct (get_grad_scale _ (-1)); [|reflexivity]. destruct (get_grad_scale _ 0); [|reflexivity].
  destruct (_ && _)%bool; reflexivity.
Qed.

Lemma blind_step c closure : blind (step c closure).
Proof.
  unfold step. destruct closure; [apply blind_raise|]. apply blind_bind.
  - unfold ensure_scale. apply blind_getS; [|reflexivity]. intros s.
    destruct (get_grad_scale _ _); [apply blind_ret|]. destruct (s_amp s) as [[v|]|]; [apply blind_set_scale|apply blind_raise|apply blind_set_scale].
  - intros _. apply blind_getS; [|reflexivity]. intros s. apply blind_bind.
    + destruct (s_inf s); [|apply blind_forS; apply blind_step_module].
      apply blind_bind; [intros q t; reflexivity|]. intros _ q t. reflexivity.
    + intros _ q t. reflexivity.
Qed.

Lemma blind_accumulate c m x g : blind (accumulate_H_terms c m x g).
Proof.
  unfold accumulate_H_terms. apply blind_getS; [|reflexivity]. intros s. apply blind_bind; [apply blind_lift|]. intros gr.
  apply blind_bind; [apply blind_lift|]. intros [a b]. apply blind_on_slots.
Qed.

(** The same up to the hook on output [out]. *)
Definition eq_but_pend (out : nat) (s t : state) : Prop :=
  t = set_pend (s_pend t) s /\ forall o, o <> out -> s_pend t o = s_pend s o.

Lemma eq_but_pend_refl out s : eq_but_pend out s s.
Proof. split; [destruct s; reflexivity|reflexivity]. Qed.

Lemma event_eq_but_pend c e out s t :
  eq_but_pend out s t -> (forall g, e <> EBackward out g) ->
  eq_but_pend out (fst (event_op c e s)) (fst (event_op c e t)).
Proof.
  intros [E HP] He.
  assert (BL : forall x : SM state unit, blind x -> (forall s0, s_pend (fst (x s0)) = s_pend s0) -> eq_but_pend out (fst (x s)) (fst (x t))).
  { intros x Bx Px. rewrite E, (Bx (s_pend t) s). cbn [fst]. split; [reflexivity|]. intros o Ho. cbn. rewrite Px. apply HP. exact Ho. }
  destruct e; cbn [event_op].
  - destruct (forward_frame c m x grad_on out0 s) as (E1 & F1 & _). destruct (forward_frame c m x grad_on out0 t) as (E2 & F2 & _).
    split.
    + rewrite E1, E2, E. reflexivity.
    + intros o Ho. destruct (Nat.eq_dec o out0) as [->|N]; [|rewrite F1, F2 by exact N; apply HP; exact Ho].
      unfold forward_hook, sbind, getS, modify, lift, ret. rewrite E. cbn.
      destruct (get_group c (s_groups s) m); [|cbn; rewrite !upd_eq; reflexivity].
      destruct (negb grad_on); [cbn; rewrite !upd_eq; reflexivity|].
      destruct (is_update_step _ _) as [[|]|]; cbn; rewrite !upd_eq; reflexivity.
  - assert (N : out0 <> out) by (intros ->; eapply He; reflexivity).
    unfold sbind, getS. rewrite (HP out0 N). destruct (s_pend s out0) as [[m x]|]; [|split; assumption].
    apply (BL (accumulate_H_terms c m x g)); [apply blind_accumulate|].
    intros s0. destruct (accumulate_frame c m x g s0) as (_ & _ & _ & _ & _ & P & _). exact P.
  - apply (BL (modify _)); [intros q s0; reflexivity|reflexivity].
  - apply (BL (set_current_grad_scale s0)); [apply blind_set_scale|]. intros s1.
    destruct (set_current_grad_scale s0 s1) as [s2 r] eqn:E1. apply set_current_grad_scale_frame in E1 as ((_ & _ & _ & _ & _ & _ & P) & _). exact P.
  - apply (BL (modify _)); [intros q s0; reflexivity|reflexivity].
  - apply (BL (step c closure)); [apply blind_step|]. intros s1.
    destruct (step c closure s1) as [s2 r] eqn:E1. cbn [fst].
    apply step_cases in E1 as [(_ & -> & ->)|(_ & st1 & [(e0 & E1 & -> & ->)|(E1 & C)])]; [reflexivity| |].
    + apply ensure_scale_frame in E1 as ((_ & _ & _ & _ & _ & _ & P) & _). exact P.
    + apply ensure_scale_frame in E1 as ((_ & _ & _ & _ & _ & _ & P) & _). destruct C as [(_ & -> & ->)|(_ & st2 & r2 & ES & C)].
      * exact P.
      * apply steps_frame in ES as (_ & _ & _ & _ & _ & P2 & _). destruct r2; destruct C as [-> ->]; unfold finish; cbn; congruence.
  - apply (BL (modify _)); [intros q s0; reflexivity|reflexivity].
Qed.

Lemma run_eq_but_pend c es out s t :
  eq_but_pend out s t -> (forall g, ~ In (EBackward out g) es) -> eq_but_pend out (run c es s) (run c es t).
Proof.
  revert s t. induction es as [|e es IH]; intros s t H He; [exact H|]. cbn [run]. apply IH.
  - apply event_eq_but_pend; [exact H|]. intros g ->. apply (He g). left. reflexivity.
  - intros g Hg. apply (He g). right. exact Hg.
Qed.

(** Results of the single calls of a history. *)
Fixpoint outcomes (c : cfg) (es : list event) (st : state) : list (res unit) :=
  match es with
  | [] => []
  | e :: es' => snd (event_op c e st) :: outcomes c es' (fst (event_op c e st))
  end.

Lemma event_eq_outcome c e out s t :
  eq_but_pend out s t -> (forall g, e <> EBackward out g) -> snd (event_op c e s) = snd (event_op c e t).
Proof.
  intros [E HP] He.
  assert (BL : forall x : SM state unit, blind x -> snd (x s) = snd (x t)).
  { intros x Bx. rewrite E, (Bx (s_pend t) s). reflexivity. }
  destruct e; cbn [event_op].
  - unfold forward_hook, sbind, getS, modify, lift, ret. rewrite E. cbn.
    destruct (get_group c (s_groups s) m); [|reflexivity]. destruct (negb grad_on); [reflexivity|].
    destruct (is_update_step _ _) as [[|]|]; reflexivity.
  - assert (N : out0 <> out) by (intros ->; eapply He; reflexivity).
    unfold sbind, getS. rewrite (HP out0 N). destruct (s_pend s out0) as [[m x]|]; [|reflexivity].
    apply (BL (accumulate_H_terms c m x g)). apply blind_accumulate.
  - reflexivity.
  - apply (BL (set_current_grad_scale s0)). apply blind_set_scale.
  - reflexivity.
  - apply (BL (step c closure)). apply blind_step.
  - reflexivity.
Qed.

Lemma outcomes_eq_but_pend c es out s t :
  eq_but_pend out s t -> (forall g, ~ In (EBackward out g) es) -> outcomes c es s = outcomes c es t.
Proof.
  revert s t. induction es as [|e es IH]; intros s t H He; [reflexivity|]. cbn [outcomes].
  assert (He1 : forall g, e <> EBackward out g) by (intros g ->; apply (He g); left; reflexivity).
  f_equal.
  - apply (event_eq_outcome c e out s t H He1).
  - apply IH; [apply event_eq_but_pend; assumption|]. intros g Hg. apply (He g). right. exact Hg.
Qed.

(** The scale of the last successful step of a history, [init] if there is none. *)
Fixpoint last_scale (c : cfg) (es : list event) (st : state) (init : res F) : res F :=
  match es with
  | [] => init
  | e :: es' =>
      last_scale c es' (fst (event_op c e st))
        (match e, snd (event_op c e st) with EStep _, Ok _ => step_scale st | _, _ => init end)
  end.

Lemma last_scale_prev c es st init :
  get_grad_scale (s_scales st) (Z.of_nat (s_steps st) - 1) = init ->
  get_grad_scale (s_scales (run c es st)) (Z.of_nat (s_steps (run c es st)) - 1) = last_scale c es st init.
Proof.
  revert st init. induction es as [|e es IH]; intros st init H; [exact H|]. cbn [run last_scale].
  assert (O : (forall b, e <> EStep b) ->
    get_grad_scale (s_scales (fst (event_op c e st))) (Z.of_nat (s_steps (fst (event_op c e st))) - 1) = init).
  { intros He. pose proof (other_counter c e st He) as E. rewrite E, event_prev_scale by exact E. exact H. }
  destruct e; try (apply IH; apply O; intros b; discriminate). clear O.
  apply IH. cbn [event_op]. destruct (step c closure st) as [st' r] eqn:E. cbn [fst snd].
  pose proof (step_counter _ _ _ _ _ E) as N. destruct r as [[]|e].
  - apply step_prev_scale in E as (v & E1 & E2). rewrite E1. exact E2.
  - pose proof (event_prev_scale c (EStep closure) st) as P. cbn [event_op] in P. rewrite E in P. cbn [fst] in P.
    rewrite N, P by exact N. exact H.
Qed.

(** Multiples of T below n. *)
Lemma due_count T n : (T <> 0)%nat ->
  length (filter (fun t => Nat.eqb (t mod T) 0) (seq 0 n)) = ((n + T - 1) / T)%nat.
Proof.
  intros HT. induction n as [|n IH].
  - cbn. symmetry. apply Nat.div_small. lia.
  - rewrite seq_S, filter_app, app_length, IH. cbn [filter]. rewrite Nat.add_0_l.
    replace (S n + T - 1)%nat with (n + T)%nat by lia.
    pose proof (Nat.div_mod n T HT) as D. pose proof (Nat.mod_upper_bound n T HT) as U.
    set (a := (n / T)%nat) in *. set (b := (n mod T)%nat) in *. clearbody a b.
    destruct (Nat.eqb_spec b 0) as [Hb|Hb]; cbn [length].
    + assert (A : ((n + T - 1) / T = a)%nat) by (symmetry; apply (Nat.div_unique _ _ _ (T - 1)); lia).
      assert (B : ((n + T) / T = a + 1)%nat) by (symmetry; apply (Nat.div_unique _ _ _ 0%nat); lia).
      lia.
    + assert (A : ((n + T - 1) / T = a + 1)%nat) by (symmetry; apply (Nat.div_unique _ _ _ (b - 1)%nat); lia).
      assert (B : ((n + T) / T = a + 1)%nat) by (symmetry; apply (Nat.div_unique _ _ _ b); lia).
      lia.
Qed.

(** A due module. *)
Lemma not_due_dec c m st : not_due c m st \/ exists g, get_group c (s_groups st) m = Ok g /\ g_T g <> 0%nat /\ (s_steps st mod g_T g = 0)%nat.
Proof.
  unfold not_due. destruct (get_group c (s_groups st) m) as [g|]; [|left; discriminate].
  unfold is_update_step. destruct (Nat.eqb_spec (g_T g) 0) as [E|E].
  - left. intros g' H. injection H as <-. rewrite E. discriminate.
  - destruct (Nat.eqb_spec (s_steps st mod g_T g) 0) as [E2|E2]; [right; eauto|].
    left. intros g' H. injection H as <-. destruct (Nat.eqb_spec (g_T g) 0); [contradiction|].
    destruct (Nat.eqb_spec (s_steps st mod g_T g) 0); [contradiction|discriminate].
Qed.

Lemma pre_changes_only_when_due c e st m :
  NoDup (map m_key (c_mods c)) -> In m (c_mods c) ->
  same_pre (s_slots st (m_key m)) (s_slots (fst (event_op c e st)) (m_key m)) \/
  e = EStep false /\ s_inf st = false /\
  exists g, get_group c (s_groups st) m = Ok g /\ g_T g <> 0%nat /\ (s_steps st mod g_T g = 0)%nat.
Proof.
  intros N I. destruct e; try (left; apply same_pre_refl).
  - left. destruct (forward_frame c m0 x grad_on out st) as (E & _). cbn [event_op]. rewrite E. apply same_pre_refl.
  - left. cbn [event_op]. unfold sbind, getS. destruct (s_pend st out) as [[m0 x]|]; [|apply same_pre_refl].
    apply accumulate_same.
  - left. cbn [event_op]. destruct (set_current_grad_scale s st) as [st' r] eqn:E.
    apply set_current_grad_scale_frame in E as ((_ & E & _) & _). cbn [fst]. rewrite E. apply same_pre_refl.
  - cbn [event_op]. destruct closure; [left; apply same_pre_refl|].
    destruct (s_inf st) eqn:Ei; [left; apply step_same; auto|].
    destruct (not_due_dec c m st) as [D|D]; [left; apply step_same; auto|]. right. auto.
Qed.

(** The warning of set_current_grad_scale. *)
Lemma set_scale_warning s st v :
  (s_steps st = 0%nat -> get_grad_scale (s_scales st) (-1) = Ok v) ->
  snd (set_current_grad_scale s st) = Ok tt /\
  s_log (fst (set_current_grad_scale s st)) =
    s_log st ++ (if Nat.eqb (s_steps st) 0 && (feqb v f1 && negb (feqb s f1)) then [WarnInitScale] else []).
Proof.
  intros H. unfold set_current_grad_scale, sbind, getS, modify, lift, ret.
  destruct (Nat.eqb_spec (s_steps st) 0) as [E|E]; cbn [andb].
  - rewrite E. cbn [Z.of_nat]. rewrite get_put_other by lia. rewrite (H E). rewrite get_put_same. cbv beta iota.
    destruct (feqb v f1 && negb (feqb s f1))%bool; cbn; [auto|]. rewrite app_nil_r. auto.
  - cbn. rewrite app_nil_r. auto.
Qed.

Lemma run_init_scale c es st init :
  get_grad_scale (s_scales st) (Z.of_nat (s_steps st) - 1) = init -> s_steps st = 0%nat ->
  s_steps (run c es st) = 0%nat -> get_grad_scale (s_scales (run c es st)) (-1) = init.
Proof.
  intros H E E'. pose proof (last_scale_prev c es st init H) as L. rewrite E' in L. cbn [Z.of_nat Z.sub Z.add Z.opp] in L.
  change (Z.opp 1) with (-1)%Z in L. rewrite L. clear L.
  revert st init H E E'. induction es as [|e es IH]; intros st init H E E'; [reflexivity|]. cbn [run last_scale] in *.
  destruct (step_times_seq c es (fst (event_op c e st))) as [_ L].
  assert (E1 : s_steps (fst (event_op c e st)) = 0%nat) by lia.
  assert (R : forall b, e = EStep b -> exists x, snd (event_op c e st) = Err x).
  { intros b ->. cbn [event_op] in *. destruct (step c b st) as [st' r] eqn:Es. apply step_counter in Es. cbn [fst snd] in *.
    destruct r; [lia|eauto]. }
  pose proof (event_prev_scale c e st) as P. rewrite E1 in P. specialize (P (eq_sym E)).
  destruct e; try (apply IH; [rewrite E1, E in *; congruence|assumption|assumption]).
  destruct (R closure eq_refl) as [x Hx]. rewrite Hx.
  apply IH; [rewrite E1, E in *; congruence|assumption|assumption].
Qed.

Lemma run_scales_ok c es st :
  scales_ok (s_steps st) (s_scales st) -> scales_ok (s_steps (run c es st)) (s_scales (run c es st)).
Proof. intros H. apply (run_inv (fun st => scales_ok (s_steps st) (s_scales st))); [exact H|]. intros. apply event_scales_ok. assumption. Qed.

Lemma scales_ok_length n d : scales_ok n d -> (length d <= 2)%nat.
Proof.
  intros (N & H & _). rewrite <- (map_length fst d).
  apply (NoDup_incl_length (l' := [(Z.of_nat n - 1)%Z; Z.of_nat n]) N). intros k Hk. destruct (H k Hk) as [->| ->]; cbn; auto.
Qed.

(** A skipped step. *)
Lemma ensure_scale_ok st :
  scales_ok (s_steps st) (s_scales st) ->
  snd (ensure_scale st) = match step_scale st with Ok _ => Ok tt | Err e => Err e end.
Proof.
  intros (_ & _ & I). apply In_get in I as [v I].
  assert (HV : s_steps st = 0%nat -> get_grad_scale (s_scales st) (-1) = Ok v) by (intros E; rewrite E in I; exact I).
  unfold ensure_scale, step_scale, sbind, getS, ret, raise.
  destruct (get_grad_scale (s_scales st) (Z.of_nat (s_steps st))); [reflexivity|].
  destruct (s_amp st) as [[x|]|]; [|reflexivity|]; apply (set_scale_warning _ st v HV).
Qed.

Lemma skipped_step c st :
  scales_ok (s_steps st) (s_scales st) -> s_inf st = true ->
  let (st', r) := step c false st in
  match step_scale st with
  | Err e => r = Err e
  | Ok v =>
      r = Ok tt /\ s_par st' = s_par st /\ s_steps st' = S (s_steps st) /\ s_groups st' = s_groups st /\
      (forall k, same_pre (s_slots st k) (s_slots st' k)) /\
      (forall m, In m (c_mods c) -> sl_HK (s_slots st' (m_key m)) = None /\ sl_HC (s_slots st' (m_key m)) = None) /\
      last (s_log st') WarnInitScale = WarnInf /\
      get_grad_scale (s_scales st') (Z.of_nat (s_steps st') - 1) = Ok v
  end.
Proof.
  intros HS Hi. pose proof (ensure_scale_ok st HS) as EO.
  destruct (step c false st) as [st' r] eqn:H. pose proof H as H0.
  apply step_cases in H as [(D & _)|(_ & st1 & [(e & E & -> & ->)|(E & [(_ & -> & ->)|(D & _)])])]; try congruence.
  - rewrite E in EO. cbn [snd] in EO. destruct (step_scale st); congruence.
  - rewrite E in EO. cbn [snd] in EO. destruct (step_scale st) as [v|] eqn:Ev; [|congruence].
    pose proof (ensure_scale_frame _ _ _ E) as ((E1 & E2 & E3 & E4 & _) & _).
    assert (EL : s_log (finish (drop_H c (set_log (s_log st1 ++ [WarnInf]) st1))) = s_log st1 ++ [WarnInf]) by reflexivity.
    split; [reflexivity|]. split; [cbn; exact E3|]. split; [rewrite finish_steps; cbn; congruence|]. split; [cbn; exact E4|].
    split; [|split; [|split]].
    + intros k. unfold finish. cbn. rewrite E2. destruct (existsb _ _); repeat split.
    + intros m Hm. unfold finish. cbn.
      replace (existsb (fun m0 => Nat.eqb (m_key m0) (m_key m)) (c_mods c)) with true; [split; reflexivity|].
      symmetry. apply existsb_exists. exists m. split; [exact Hm|apply Nat.eqb_refl].
    + rewrite EL. apply last_last.
    + apply step_prev_scale in H0 as (w & E5 & E6). rewrite Ev in E5. injection E5 as <-. exact E6.
Qed.

End Run.
