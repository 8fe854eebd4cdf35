(** Lemmas: when curvature statistics are collected, used and dropped. *)

From Coq Require Import List Arith Lia Bool ZArith.
From Verif Require Import Scalar Res Tensor Structures OptimUtils Optimizer OptState OptRun.
Import ListNotations.

Section Consume.
Context {SC : Scalar}.

(** A module is due at a state. *)
Definition due (c : cfg) (m : modul) (st : state) : Prop :=
  exists g, get_group c (s_groups st) m = Ok g /\ g_T g <> 0%nat /\ (s_steps st mod g_T g = 0)%nat.

(** Decision procedure, used by the examples. *)
Definition dueb (c : cfg) (m : modul) (st : state) : bool :=
  match get_group c (s_groups st) m with
  | Ok g => negb (Nat.eqb (g_T g) 0) && Nat.eqb (s_steps st mod g_T g) 0
  | Err _ => false
  end.
Lemma dueb_due c m st : dueb c m st = true -> due c m st.
Proof.
  unfold dueb, due. destruct (get_group c (s_groups st) m) as [g|]; [|discriminate]. intros H.
  apply andb_true_iff in H as [H1 H2]. exists g. split; [reflexivity|]. destruct (Nat.eqb_spec (g_T g) 0); [discriminate|].
  split; [assumption|]. apply Nat.eqb_eq. exact H2.
Qed.
Lemma dueb_not_due c m st : dueb c m st = false -> not_due c m st.
Proof.
  unfold dueb, not_due, is_update_step. intros H g Eg. rewrite Eg in H. destruct (Nat.eqb (g_T g) 0); [discriminate|].
  cbn in H. rewrite H. discriminate.
Qed.

Lemma due_update g n : g_T g <> 0%nat -> (n mod g_T g = 0)%nat -> is_update_step g n = Ok true.
Proof. intros H E. unfold is_update_step. destruct (Nat.eqb_spec (g_T g) 0); [contradiction|]. rewrite E. reflexivity. Qed.

Lemma update_slots_due g l n scales s s' r :
  is_update_step g n = Ok true -> update_slots g l n scales s = (s', r) ->
  (r = Ok tt -> (exists a, sl_HK s = Some a) /\ (exists b, sl_HC s = Some b) /\ sl_HK s' = None /\ sl_HC s' = None) /\
  (sl_K s <> None -> sl_C s <> None -> sl_HK s = None \/ sl_HC s = None -> r = Err KeyError).
Proof.
  intros E H. unfold update_slots in H. unfold sbind at 1, lift at 1 in H. rewrite E in H. cbn [negb] in H.
  unfold sbind at 1, entry at 1 in H. destruct (sl_K s) as [K|] eqn:EK; cbn [lookup] in H.
  2:{ injection H as <- <-. split; [discriminate|]. intros N. contradiction. }
  unfold sbind at 1, entry at 1 in H. destruct (sl_C s) as [C|] eqn:EC; cbn [lookup] in H.
  2:{ injection H as <- <-. split; [discriminate|]. intros _ N. contradiction. }
  unfold sbind at 1, entry at 1 in H. destruct (sl_HK s) as [HK|] eqn:EHK; cbn [lookup] in H.
  2:{ injection H as <- <-. split; [discriminate|]. reflexivity. }
  unfold sbind at 1, modify at 1 in H. unfold sbind at 1, entry at 1 in H. cbn [set_HK sl_HC] in H.
  destruct (sl_HC s) as [HC|] eqn:EHC; cbn [lookup] in H.
  2:{ injection H as <- <-. split; [discriminate|]. reflexivity. }
  split; [|intros _ _ [N|N]; discriminate]. intros ->. split; [eauto|]. split; [eauto|].
  (* the remaining commands keep the two entries *)
  set (P := fun a b : @slots SC => sl_HK b = sl_HK a /\ sl_HC b = sl_HC a).
  assert (PR : forall a, P a a) by (intros a; split; reflexivity).
  assert (PT : forall a b c, P a b -> P b c -> P a c) by (intros a b c [A1 A2] [B1 B2]; split; congruence).
  unfold sbind at 1, modify at 1 in H.
  match type of H with ?x ?s1 = _ => assert (KP : keeps P x) end.
  { repeat first [ apply keeps_bind; [exact PT| |intros] | apply keeps_lift; exact PR
                 | (apply keeps_modify; intros; split; reflexivity) | apply keeps_ret; exact PR
                 | match goal with |- keeps _ (match ?p with (_, _) => _ end) => destruct p end
                 | unfold apply_momenta; match goal with |- context [if ?b then _ else _] => destruct b end
                 | (intros sx; cbn; apply PR) ]. }
  apply (keeps_at _ _ _ _ _ KP) in H as [H1 H2]. rewrite H1, H2. split; reflexivity.
Qed.

Lemma sbind_eval {S A B} (x : SM S A) (f : A -> SM S B) s s1 a : x s = (s1, Ok a) -> sbind x f s = f a s1.
Proof. intros H. unfold sbind. rewrite H. reflexivity. Qed.

Lemma step_module_slots c m st st' :
  step_module c m st = (st', Ok tt) ->
  exists g s', get_group c (s_groups st) m = Ok g /\
    update_slots g (m_layer m) (s_steps st) (s_scales st) (s_slots st (m_key m)) = (s', Ok tt) /\
    s_slots st' (m_key m) = s'.
Proof.
  intros H. unfold step_module in H. apply sbind_ok in H as (sa & [] & H1 & H2).
  unfold update_preconditioner, sbind, getS, lift in H1.
  destruct (get_group c (s_groups st) m) as [g|] eqn:Eg; [|discriminate].
  unfold on_slots in H1. destruct (update_slots _ _ _ _ _) as [s' r] eqn:Eu. injection H1 as <- ->.
  exists g, s'. split; [reflexivity|]. split; [exact Eu|].
  set (P := fun a b : @state SC => s_slots b = s_slots a).
  assert (PR : forall a, P a a) by (intros a; reflexivity).
  assert (PT : forall a b c, P a b -> P b c -> P a c) by (unfold P; intros; congruence).
  match type of H2 with ?x ?s1 = _ => assert (KP : keeps P x) end.
  { apply keeps_bind; [exact PT| |].
    - unfold compute_natural_gradient. apply keeps_bind; [exact PT|apply keeps_getS; exact PR|]. intros s.
      apply keeps_bind; [exact PT|apply keeps_lift; exact PR|]. intros N. apply keeps_lift. exact PR.
    - intros [w b]. apply keeps_bind; [exact PT|apply keeps_getS; exact PR|]. intros s.
      apply keeps_bind; [exact PT|apply keeps_lift; exact PR|]. intros g0.
      assert (OP : forall p (f : SM pslot unit), keeps P (on_par p f)).
      { intros p f s0. unfold on_par. destruct (f (s_par s0 p)). reflexivity. }
      apply keeps_bind; [exact PT|apply OP|]. intros _.
      destruct (m_bias m); [|apply keeps_ret; exact PR]. destruct b; [apply OP|apply keeps_ret; exact PR]. }
  apply (keeps_at _ _ _ _ _ KP) in H2. rewrite H2. cbn. apply upd_eq.
Qed.

(** The state the loop over the modules starts from. *)
Lemma step_success c st st' :
  s_inf st = false -> step c false st = (st', Ok tt) ->
  exists st1 st2, ensure_scale st = (st1, Ok tt) /\ step_all c st1 = (st2, Ok tt) /\ st' = finish st2.
Proof.
  intros Hi H. apply step_cases in H as [(D & _)|(_ & st1 & [(e & _ & _ & D)|(E & [(D & _)|(_ & st2 & r2 & E2 & C)])])]; try congruence.
  destruct r2 as [[]|]; destruct C as [C1 C2]; [|discriminate]. exists st1, st2. auto.
Qed.

Lemma due_consumed c st st' m :
  cfg_ok c -> In m (c_mods c) -> s_inf st = false -> due c m st -> step c false st = (st', Ok tt) ->
  (exists a, sl_HK (s_slots st (m_key m)) = Some a) /\ (exists b, sl_HC (s_slots st (m_key m)) = Some b) /\
  sl_HK (s_slots st' (m_key m)) = None /\ sl_HC (s_slots st' (m_key m)) = None.
Proof.
  intros OK Hm Hi (g & Eg & HT & Ht) H. destruct (step_success c st st' Hi H) as (st1 & st2 & E1 & E2 & ->).
  apply ensure_scale_frame in E1 as ((F1 & F2 & F3 & F4 & _) & _).
  destruct (step_all_view c st1 st2 m OK Hm E2) as (st3 & E3 & E4 & _).
  apply step_module_slots in E3 as (g' & s' & Eg' & Eu & Es). rewrite F4 in Eg'. rewrite Eg in Eg'. injection Eg' as <-.
  rewrite F1, F2 in Eu. destruct (update_slots_due _ _ _ _ _ _ _ (due_update g _ HT Ht) Eu) as [D _].
  specialize (D eq_refl) as (D1 & D2 & D3 & D4). split; [exact D1|]. split; [exact D2|].
  unfold finish. cbn. rewrite E4, Es. auto.
Qed.

(** A missing statistic of the first module whose turn comes. *)
Lemma missing_fails c st m :
  cfg_ok c -> In m (c_mods c) -> s_inf st = false -> due c m st ->
  sl_HK (s_slots st (m_key m)) = None \/ sl_HC (s_slots st (m_key m)) = None ->
  exists e, snd (step c false st) = Err e.
Proof.
  intros OK Hm Hi D N. destruct (step c false st) as [st' [[]|e]] eqn:E; [|cbn; eauto].
  destruct (due_consumed c st st' m OK Hm Hi D E) as ([a Ea] & [b Eb] & _). destruct N; congruence.
Qed.

Lemma missing_keyerror c st m l :
  c_mods c = m :: l -> s_inf st = false -> due c m st -> scales_ok (s_steps st) (s_scales st) ->
  (exists v, step_scale st = Ok v) ->
  sl_K (s_slots st (m_key m)) <> None -> sl_C (s_slots st (m_key m)) <> None ->
  sl_HK (s_slots st (m_key m)) = None \/ sl_HC (s_slots st (m_key m)) = None ->
  snd (step c false st) = Err KeyError.
Proof.
  intros Em Hi (g & Eg & HT & Ht) HS [v Hv] NK NC N. pose proof (ensure_scale_ok st HS) as EO. rewrite Hv in EO.
  destruct (ensure_scale st) as [st1 r] eqn:E1. cbn [snd] in EO. subst r.
  pose proof (ensure_scale_frame _ _ _ E1) as ((F1 & F2 & F3 & F4 & F5 & F6 & _) & _).
  assert (E2 : snd (step_all c st1) = Err KeyError).
  { unfold step_all. rewrite Em. cbn [forS]. unfold step_module, update_preconditioner, sbind, getS, lift.
    rewrite F4, Eg. unfold on_slots. rewrite F1, F2.
    destruct (update_slots g (m_layer m) (s_steps st) (s_scales st1) (s_slots st (m_key m))) as [s' r] eqn:Eu.
    destruct (update_slots_due _ _ _ _ _ _ _ (due_update g _ HT Ht) Eu) as [_ D]. rewrite (D NK NC N). reflexivity. }
  unfold step. rewrite (sbind_eval _ _ _ _ _ E1). unfold sbind, getS. rewrite F6, Hi.
  destruct (step_all c st1) as [st2 r2]. cbn [snd] in E2. subst r2. reflexivity.
Qed.

(** At other steps nothing is collected ... *)
Lemma not_due_forward c m x b out st :
  not_due c m st -> s_pend (fst (forward_hook c m x b out st)) out = None.
Proof.
  intros N. destruct (forward_frame c m x b out st) as (_ & _ & [H|(_ & _ & g & Eg & Eu)]); [exact H|].
  exfalso. exact (N g Eg Eu).
Qed.

(** ... or used. *)
Lemma not_due_keeps_H c st st' m :
  cfg_ok c -> In m (c_mods c) -> s_inf st = false -> not_due c m st -> step c false st = (st', Ok tt) ->
  s_slots st' (m_key m) = s_slots st (m_key m).
Proof.
  intros OK Hm Hi ND H. destruct (step_success c st st' Hi H) as (st1 & st2 & E1 & E2 & ->).
  apply ensure_scale_frame in E1 as ((F1 & F2 & F3 & F4 & _) & _).
  destruct (step_all_view c st1 st2 m OK Hm E2) as (st3 & E3 & E4 & _).
  apply step_module_slots in E3 as (g' & s' & Eg' & Eu & Es). rewrite F4 in Eg'.
  rewrite F1, F2 in Eu. specialize (ND g' Eg'). unfold update_slots, sbind at 1, lift in Eu.
  destruct (is_update_step g' (s_steps st)) as [[|]|]; [congruence| |discriminate]. cbn in Eu. injection Eu as <-.
  unfold finish. cbn. congruence.
Qed.

(** Statistics come from a backward pass through a waiting hook. *)
Definition has_stats (k : nat) (st : state) : Prop := sl_HK (s_slots st k) <> None \/ sl_HC (s_slots st k) <> None.

Lemma stats_grow c e st k :
  ~ has_stats k st -> has_stats k (fst (event_op c e st)) ->
  exists out g m x, e = EBackward out g /\ s_pend st out = Some (m, x) /\ m_key m = k.
Proof.
  intros N H. destruct e; try (exfalso; apply N; exact H).
  - exfalso. apply N. destruct (forward_frame c m x grad_on out st) as (E & _). cbn [event_op] in H. rewrite E in H. exact H.
  - cbn [event_op] in H. unfold sbind, getS in H. destruct (s_pend st out) as [[m x]|] eqn:E; [|exfalso; apply N; exact H].
    exists out, g, m, x. split; [reflexivity|]. split; [exact E|].
    destruct (Nat.eq_dec (m_key m) k) as [|D]; [assumption|]. exfalso. apply N.
    destruct (accumulate_frame c m x g st) as (_ & _ & _ & _ & _ & _ & _ & F & _).
    unfold has_stats in H. rewrite F in H by congruence. exact H.
  - exfalso. apply N. cbn [event_op] in H. destruct (set_current_grad_scale s st) as [st' r] eqn:E.
    apply set_current_grad_scale_frame in E as ((_ & E & _) & _). cbn [fst] in H. unfold has_stats in H. rewrite E in H. exact H.
  - exfalso. apply N. cbn [event_op] in H. clear N.
    (* no command of step creates an entry *)
    set (P := fun a b : @state SC => has_stats k b -> has_stats k a).
    assert (PR : forall a, P a a) by (intros a; unfold P; auto).
    assert (PT : forall a b c, P a b -> P b c -> P a c) by (unfold P; auto).
    assert (KP : keeps P (step c closure)); [|apply (KP st); exact H].
    assert (SS : forall s t, only_scales s t -> P s t) by (intros s t (_ & E & _); unfold P, has_stats; rewrite E; auto).
    unfold step. destruct closure; [intros s; apply PR|].
    apply keeps_bind; [exact PT| |intros _].
    { intros s. destruct (ensure_scale s) as [t r] eqn:E. apply ensure_scale_frame in E as (E & _). apply SS. exact E. }
    apply keeps_bind; [exact PT|apply keeps_getS; exact PR|]. intros s.
    apply keeps_bind; [exact PT| |].
    + destruct (s_inf s).
      * apply keeps_bind; [exact PT|intros t; cbn; unfold P; auto|]. intros _ t. cbn [modify fst]. unfold P, has_stats, drop_H. cbn.
        destruct (existsb _ _); cbn; [intros [X|X]; congruence|auto].
      * apply keeps_forS; [exact PR|exact PT|]. intros m Hm.
        unfold step_module. apply keeps_bind; [exact PT| |intros _].
        -- intros t. unfold update_preconditioner, sbind, getS, lift. destruct (get_group c (s_groups t) m) as [g|]; [|apply PR].
           unfold on_slots. destruct (update_slots _ _ _ _ _) as [s' r] eqn:Eu. unfold P, has_stats. cbn.
           destruct (Nat.eq_dec k (m_key m)) as [->|D]; [|rewrite upd_neq by exact D; auto]. rewrite upd_eq.
           set (Q := fun a b : @slots SC => (sl_HK b <> None -> sl_HK a <> None) /\ (sl_HC b <> None -> sl_HC a <> None)).
           assert (QR : forall a, Q a a) by (intros a; split; auto).
           assert (QT : forall a b c, Q a b -> Q b c -> Q a c) by (intros a b c0 [A1 A2] [B1 B2]; split; auto).
           assert (KQ : keeps Q (update_slots g (m_layer m) (s_steps t) (s_scales t))).
           { unfold update_slots. apply keeps_bind; [exact QT|apply keeps_lift; exact QR|]. intros now.
             destruct (negb now); [apply keeps_ret; exact QR|].
             assert (EN : forall f, keeps Q (entry f)) by (intros f a; apply QR).
             assert (SN : forall f : slots -> slots, (forall a, Q a (f a)) -> keeps Q (modify f)) by (intros f Hf a; apply Hf).
             unfold apply_momenta.
             repeat first [ apply keeps_bind; [exact QT| |intros] | apply EN | apply keeps_lift; exact QR
                          | (apply SN; intro; split; cbn; intros; first [assumption|congruence]) | apply keeps_ret; exact QR
                          | match goal with |- keeps _ (match ?p with (_, _) => _ end) => destruct p end
                          | match goal with |- context [if ?b then _ else _] => destruct b end ]. }
           apply (keeps_at _ _ _ _ _ KQ) in Eu as [Q1 Q2]. intros [X|X]; auto.
        -- assert (OP : forall p (f : SM pslot unit), keeps P (on_par p f)).
           { intros p f s0. unfold on_par. destruct (f (s_par s0 p)). cbn. unfold P, has_stats. auto. }
           apply keeps_bind; [exact PT| |].
           { unfold compute_natural_gradient. apply keeps_bind; [exact PT|apply keeps_getS; exact PR|]. intros s0.
             apply keeps_bind; [exact PT|apply keeps_lift; exact PR|]. intros N. apply keeps_lift. exact PR. }
           intros [w b]. apply keeps_bind; [exact PT|apply keeps_getS; exact PR|]. intros s0.
           apply keeps_bind; [exact PT|apply keeps_lift; exact PR|]. intros g0.
           apply keeps_bind; [exact PT|apply OP|]. intros _.
           destruct (m_bias m); [|apply keeps_ret; exact PR]. destruct b; [apply OP|apply keeps_ret; exact PR].
    + intros _ t. cbn. unfold P, has_stats. auto.
Qed.

Lemma stats_origin c es st k :
  ~ has_stats k st -> has_stats k (run c es st) ->
  exists es1 out g es2 m x, es = es1 ++ EBackward out g :: es2 /\ s_pend (run c es1 st) out = Some (m, x) /\ m_key m = k.
Proof.
  revert st. induction es as [|e es IH]; intros st N H; [contradiction|]. cbn [run] in H.
  assert (D : has_stats k (fst (event_op c e st)) \/ ~ has_stats k (fst (event_op c e st))).
  { unfold has_stats. destruct (sl_HK _); [left; left; discriminate|]. destruct (sl_HC _); [left; right; discriminate|].
    right. intros [X|X]; congruence. }
  destruct D as [D|D].
  - destruct (stats_grow c e st k N D) as (out & g & m & x & -> & E & Ek). exists [], out, g, es, m, x. auto.
  - destruct (IH _ D H) as (es1 & out & g & es2 & m & x & -> & E & Ek). exists (e :: es1), out, g, es2, m, x. auto.
Qed.

Lemma pend_step c e st out :
  s_pend (fst (event_op c e st)) out = s_pend st out \/ exists m x b, e = EForward m x b out.
Proof.
  destruct e; try (left; reflexivity).
  - destruct (Nat.eq_dec out0 out) as [->|Ho]; [right; eauto|]. left. cbn [event_op].
    destruct (forward_frame c m x grad_on out0 st) as (_ & F & _). apply F. congruence.
  - left. cbn [event_op]. unfold sbind, getS. destruct (s_pend st out0) as [[m0 x0]|]; [|reflexivity].
    destruct (accumulate_frame c m0 x0 g st) as (_ & _ & _ & _ & _ & P & _). rewrite P. reflexivity.
  - left. cbn [event_op]. destruct (set_current_grad_scale s st) as [st' r] eqn:E.
    apply set_current_grad_scale_frame in E as ((_ & _ & _ & _ & _ & _ & P) & _). cbn. rewrite P. reflexivity.
  - left. cbn [event_op]. destruct (step c closure st) as [s2 r] eqn:E1. cbn [fst].
    apply step_cases in E1 as [(_ & -> & ->)|(_ & st1 & [(e0 & E1 & -> & ->)|(E1 & C)])]; [reflexivity| |].
    + apply ensure_scale_frame in E1 as ((_ & _ & _ & _ & _ & _ & P) & _). rewrite P. reflexivity.
    + apply ensure_scale_frame in E1 as ((_ & _ & _ & _ & _ & _ & P) & _). destruct C as [(_ & -> & ->)|(_ & st2 & r2 & ES & C)].
      * unfold finish. cbn. rewrite P. reflexivity.
      * apply steps_frame in ES as (_ & _ & _ & _ & _ & P2 & _). destruct r2; destruct C as [-> ->]; unfold finish; cbn; congruence.
Qed.

(** A waiting hook was registered by a forward pass with gradients at an update step. *)
Lemma pend_origin c es st out m x :
  s_pend st out = None -> s_pend (run c es st) out = Some (m, x) ->
  exists es1 es2, es = es1 ++ EForward m x true out :: es2 /\ due c m (run c es1 st).
Proof.
  intros N. induction es as [|e es IH] using rev_ind; intros H; [cbn in H; congruence|].
  rewrite run_app in H. cbn [run] in H.
  destruct (pend_step c e (run c es st) out) as [D|(m' & x' & b & ->)].
  - rewrite D in H. destruct (IH H) as (es1 & es2 & -> & Hg). exists es1, (es2 ++ [e]). split; [|exact Hg].
    rewrite <- app_assoc. reflexivity.
  - cbn [event_op] in H. destruct (forward_frame c m' x' b out (run c es st)) as (_ & _ & F).
    destruct F as [F|(F & -> & g & Eg & Eu)]; rewrite F in H; [discriminate|]. injection H as -> ->.
    exists es, []. split; [reflexivity|]. exists g. split; [exact Eg|]. unfold is_update_step in Eu.
    destruct (Nat.eqb_spec (g_T g) 0); [discriminate|]. split; [assumption|].
    destruct (Nat.eqb_spec (s_steps (run c es st) mod g_T g) 0); [assumption|discriminate].
Qed.

End Consume.
