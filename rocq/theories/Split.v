(** Lemmas: one optimizer with several groups and an optimizer for one of the groups. *)

From Coq Require Import List Arith Lia Bool ZArith.
From Verif Require Import Scalar Res Tensor Structures OptimUtils Optimizer Construct OptState OptRun OptFail OptOrder.
Import ListNotations.
Open Scope nat_scope.

Section Split.
Context {SC : Scalar}.

(** The list with only the [i]-th group. *)
Definition only (i : nat) (gs : list group) : list group := match nth_error gs i with Some g => [g] | None => [] end.

(** The events as the optimizer of group [i] sees them: the hooks of other groups' modules ([mine m = false])
    do not exist; [own o]: output [o] was made by a module of this group. *)
Fixpoint view_events (i : nat) (mine : modul -> bool) (own : nat -> bool) (es : list event) : list event :=
  match es with
  | [] => []
  | e :: es' =>
      match e with
      | EForward m x b out => (if mine m then [e] else []) ++ view_events i mine (upd own out (mine m)) es'
      | EBackward out _ => (if own out then [e] else []) ++ view_events i mine own es'
      | EGroups gs => EGroups (only i gs) :: view_events i mine own es'
      | _ => e :: view_events i mine own es'
      end
  end.

(** No step raises, except for those given a closure. *)
Fixpoint steps_ok (c : cfg) (es : list event) (st : state) : Prop :=
  match es with
  | [] => True
  | e :: es' => match e with EStep false => snd (event_op c e st) = Ok tt | _ => True end /\ steps_ok c es' (fst (event_op c e st))
  end.

(** Forward hooks belong to hooked modules. *)
Definition known_mods (c : cfg) (es : list event) : Prop :=
  Forall (fun e => match e with EForward m _ _ _ => In m (c_mods c) | _ => True end) es.

(** ** One module in two optimizers *)

Definition agree2 (c c' : cfg) (m : modul) (s t : state) : Prop :=
  s_steps t = s_steps s /\ s_scales t = s_scales s /\ get_group c' (s_groups t) m = get_group c (s_groups s) m /\
  s_slots t (m_key m) = s_slots s (m_key m) /\
  (forall p, In p (mod_params m) -> s_par t p = s_par s p).

Lemma on_slots_agree2 c c' A m (f : SM slots A) : rel2 (agree2 c c' m) (on_slots (m_key m) f) (on_slots (m_key m) f).
Proof.
  intros s t (A1 & A2 & A3 & A4 & A5). unfold on_slots. rewrite A4. destruct (f (s_slots s (m_key m))) as [s' r].
  cbn. split; [reflexivity|]. repeat split; cbn; try assumption. rewrite !upd_eq. reflexivity.
Qed.
Lemma on_par_agree2 c c' A m p (f : SM pslot A) : In p (mod_params m) -> rel2 (agree2 c c' m) (on_par p f) (on_par p f).
Proof.
  intros Hp s t (A1 & A2 & A3 & A4 & A5). unfold on_par. rewrite (A5 p Hp). destruct (f (s_par s p)) as [p' r].
  cbn. split; [reflexivity|]. repeat split; cbn; try assumption. intros q Hq.
  unfold upd. destruct (Nat.eqb q p); [reflexivity|apply A5; exact Hq].
Qed.

Lemma step_module_agree2 c c' m : rel2 (agree2 c c' m) (step_module c m) (step_module c' m).
Proof.
  unfold step_module. apply rel2_bind.
  - intros s t H. unfold update_preconditioner, sbind, getS, lift.
    pose proof H as (A1 & A2 & A3 & A4 & A5). rewrite A1, A2, A3.
    destruct (get_group c (s_groups s) m) as [g|e]; [|split; [reflexivity|exact H]].
    apply on_slots_agree2. exact H.
  - intros _. apply rel2_bind.
    + intros s t H. unfold compute_natural_gradient, sbind, getS, lift.
      pose proof H as (A1 & A2 & A3 & A4 & A5). rewrite A1, A2, A4.
      rewrite (A5 (m_weight m)) by (left; reflexivity).
      replace (option_map (fun b => grad_data (s_par t b)) (m_bias m)) with (option_map (fun b => grad_data (s_par s b)) (m_bias m)).
      * match goal with |- context [nat_grad_matrix ?a ?b ?c ?d ?e ?f] => destruct (nat_grad_matrix a b c d e f) end;
          split; try reflexivity; exact H.
      * unfold mod_params in A5. destruct (m_bias m) as [b|]; [|reflexivity]. cbn. rewrite A5 by (right; left; reflexivity). reflexivity.
    + intros [w b]. intros s t H. rewrite !group_bind.
      pose proof H as (A1 & A2 & A3 & A4 & A5). rewrite A3.
      destruct (get_group c (s_groups s) m) as [g|e]; [|split; [reflexivity|exact H]].
      clear A1 A2 A3 A4 A5. revert s t H.
      change (rel2 (agree2 c c' m) (let! _ := on_par (m_weight m) (param_step g w) in
          match m_bias m, b with Some p, Some d => on_par p (param_step g d) | _, _ => ret tt end)
        (let! _ := on_par (m_weight m) (param_step g w) in
          match m_bias m, b with Some p, Some d => on_par p (param_step g d) | _, _ => ret tt end)).
      apply rel2_bind; [apply on_par_agree2; left; reflexivity|]. intros _.
      destruct (m_bias m) as [p|] eqn:Eb; [|apply rel2_ret]. destruct b as [d|]; [|apply rel2_ret].
      apply on_par_agree2. unfold mod_params. rewrite Eb. right. left. reflexivity.
Qed.

Lemma mods_apart c m m' : cfg_ok c -> In m (c_mods c) -> In m' (c_mods c) -> m' <> m ->
  m_key m <> m_key m' /\ forall p, In p (mod_params m) -> ~ In p (mod_params m').
Proof.
  intros [NK NP] H1 H2 N. split; [intros E; apply N; symmetry; exact (key_inj c m' m NK H2 H1 E)|].
  revert NP H1 H2 N. generalize (c_mods c). induction l as [|a l IH]; intros NP H1 H2 N p P1 P2; [destruct H1|]. cbn [flat_map] in NP.
  assert (D : forall x, In x (mod_params a) -> ~ In x (flat_map mod_params l)) by (intros x X Y; exact (NoDup_app_disj _ _ NP x X Y)).
  destruct H1 as [->|H1], H2 as [->|H2].
  - congruence.
  - apply (D p P1). apply in_flat_map. eauto.
  - apply (D p P2). apply in_flat_map. eauto.
  - refine (IH _ H1 H2 N p P1 P2). exact (nodup_app_r _ _ NP).
Qed.

(** ** The two optimizers side by side *)

Variables (c c' : cfg) (i : nat) (mine : modul -> bool).
Hypothesis OK : cfg_ok c.
Hypothesis Hmods : c_mods c' = filter mine (c_mods c).
Hypothesis Hgroup : forall m gs, In m (c_mods c) -> mine m = true -> get_group c' (only i gs) m = get_group c gs m.

Definition part (own : nat -> bool) (s t : state) : Prop :=
  s_steps t = s_steps s /\ s_scales t = s_scales s /\ s_groups t = only i (s_groups s) /\ s_amp t = s_amp s /\ s_inf t = s_inf s /\
  (forall m, In m (c_mods c) -> mine m = true ->
     s_slots t (m_key m) = s_slots s (m_key m) /\ forall p, In p (mod_params m) -> s_par t p = s_par s p) /\
  (forall o, if own o then s_pend t o = s_pend s o /\ (forall m x, s_pend s o = Some (m, x) -> In m (c_mods c) /\ mine m = true)
             else forall m x, s_pend s o = Some (m, x) -> In m (c_mods c) /\ mine m = false).

Lemma part_agree own s t m : part own s t -> In m (c_mods c) -> mine m = true -> agree2 c c' m s t.
Proof.
  intros (A1 & A2 & A3 & A4 & A5 & A6 & A7) Hm Mm. destruct (A6 m Hm Mm) as [S1 S2]. repeat split; try assumption.
  rewrite A3. apply Hgroup; assumption.
Qed.

Lemma part_mine own s t m : part own s t -> In m (c_mods c) -> mine m = true ->
  snd (step_module c m s) = snd (step_module c' m t) /\ part own (fst (step_module c m s)) (fst (step_module c' m t)).
Proof.
  intros H Hm Mm. destruct (step_module_agree2 c c' m s t (part_agree own s t m H Hm Mm)) as [E AG']. split; [exact E|].
  pose proof (step_module_frame c m s) as (F1 & F2 & F3 & F4 & F5 & F6 & F7 & F8 & F9).
  pose proof (step_module_frame c' m t) as (G1 & G2 & G3 & G4 & G5 & G6 & G7 & G8 & G9).
  set (s' := fst (step_module c m s)) in *. set (t' := fst (step_module c' m t)) in *.
  destruct H as (A1 & A2 & A3 & A4 & A5 & A6 & A7). destruct AG' as (B1 & B2 & B3 & B4 & B5).
  split; [exact B1|]. split; [exact B2|]. split; [congruence|]. split; [congruence|]. split; [congruence|]. split.
  - intros m' Hm' Mm'. destruct (Nat.eq_dec (m_key m') (m_key m)) as [Ek|Nk].
    + rewrite (key_inj c m m' (proj1 OK) Hm Hm' Ek) in *. auto.
    + assert (N : m' <> m) by (intros ->; congruence). destruct (mods_apart c m m' OK Hm Hm' N) as [_ P]. rewrite G8, F8 by congruence.
      destruct (A6 m' Hm' Mm') as [S1 S2]. split; [exact S1|]. intros p Hp. rewrite G9, F9; [apply S2; exact Hp| |]; intros X; exact (P p X Hp).
  - intros o. specialize (A7 o). rewrite F6, G6. exact A7.
Qed.

Lemma part_other own s t m : part own s t -> In m (c_mods c) -> mine m = false -> part own (fst (step_module c m s)) t.
Proof.
  intros H Hm Mm. pose proof (step_module_frame c m s) as (F1 & F2 & F3 & F4 & F5 & F6 & F7 & F8 & F9).
  destruct H as (A1 & A2 & A3 & A4 & A5 & A6 & A7).
  split; [congruence|]. split; [congruence|]. split; [congruence|]. split; [congruence|]. split; [congruence|]. split.
  - intros m' Hm' Mm'. assert (N : m' <> m) by (intros ->; congruence). destruct (mods_apart c m m' OK Hm Hm' N) as [P1 P]. rewrite F8 by congruence.
    destruct (A6 m' Hm' Mm') as [S1 S2]. split; [exact S1|]. intros p Hp. rewrite F9; [apply S2; exact Hp|]. intros X; exact (P p X Hp).
  - intros o. specialize (A7 o). rewrite F6. exact A7.
Qed.

(** The loops. *)
Lemma part_loop own l : incl l (c_mods c) -> forall s t, part own s t ->
  match forS (step_module c) l s with
  | (s', Ok _) => exists t', forS (step_module c') (filter mine l) t = (t', Ok tt) /\ part own s' t'
  | (s', Err e) => exists m, In m l /\ (mine m = true -> snd (forS (step_module c') (filter mine l) t) = Err e)
  end.
Proof.
  induction l as [|m l IH]; intros I s t H; [cbn; exists t; auto|].
  assert (Hm : In m (c_mods c)) by (apply I; left; reflexivity). assert (Il : incl l (c_mods c)) by (intros x X; apply I; right; exact X).
  cbn [forS filter]. unfold sbind. destruct (mine m) eqn:Mm.
  - destruct (part_mine own s t m H Hm Mm) as [E P]. cbn [forS]. unfold sbind. destruct (step_module c m s) as [s1 r1], (step_module c' m t) as [t1 r2]. cbn in E, P. subst r2.
    destruct r1 as [[]|e]; [|exists m; split; [left; reflexivity|reflexivity]].
    specialize (IH Il s1 t1 P). destruct (forS (step_module c) l s1) as [s' [[]|e]]; [exact IH|]. destruct IH as (m' & X & Y). exists m'. split; [right; exact X|exact Y].
  - pose proof (part_other own s t m H Hm Mm) as P. destruct (step_module c m s) as [s1 r1]. cbn in P.
    destruct r1 as [[]|e]; [|exists m; split; [left; reflexivity|congruence]].
    specialize (IH Il s1 t P). destruct (forS (step_module c) l s1) as [s' [[]|e]]; [exact IH|]. destruct IH as (m' & X & Y). exists m'. split; [right; exact X|exact Y].
Qed.

Lemma part_set_scale own v s t : part own s t ->
  snd (set_current_grad_scale v s) = snd (set_current_grad_scale v t) /\ part own (fst (set_current_grad_scale v s)) (fst (set_current_grad_scale v t)).
Proof.
  intros (A1 & A2 & A3 & A4 & A5 & A6 & A7). unfold set_current_grad_scale, sbind, getS, modify, lift, ret. rewrite A1, A2.
  destruct (Nat.eqb (s_steps s) 0); [|split; [reflexivity|]; split; [cbn; assumption|]; split; [reflexivity|]; repeat (split; [cbn; assumption|]); exact A7].
  destruct (get_grad_scale _ (-1)); [|split; [reflexivity|]; split; [cbn; assumption|]; split; [reflexivity|]; repeat (split; [cbn; assumption|]); exact A7].
  destruct (get_grad_scale _ 0); [|split; [reflexivity|]; split; [cbn; assumption|]; split; [reflexivity|]; repeat (split; [cbn; assumption|]); exact A7].
  destruct (_ && _)%bool; (split; [reflexivity|]; split; [cbn; assumption|]; split; [reflexivity|]; repeat (split; [cbn; assumption|]); exact A7).
Qed.

Lemma part_ensure own s t : part own s t ->
  snd (ensure_scale s) = snd (ensure_scale t) /\ part own (fst (ensure_scale s)) (fst (ensure_scale t)).
Proof.
  intros H. pose proof H as (A1 & A2 & A3 & A4 & A5 & A6 & A7). unfold ensure_scale, sbind, getS. rewrite A1, A2, A4.
  destruct (get_grad_scale _ _); [split; [reflexivity|exact H]|].
  destruct (s_amp s) as [[v|]|]; [apply part_set_scale; exact H|split; [reflexivity|exact H]|apply part_set_scale; exact H].
Qed.

Lemma existsb_mine m l : incl l (c_mods c) -> In m (c_mods c) -> mine m = true ->
  existsb (fun m' => Nat.eqb (m_key m') (m_key m)) (filter mine l) = existsb (fun m' => Nat.eqb (m_key m') (m_key m)) l.
Proof.
  intros I Hm Mm. induction l as [|a l IH]; [reflexivity|]. assert (Il : incl l (c_mods c)) by (intros x X; apply I; right; exact X). specialize (IH Il).
  cbn. destruct (mine a) eqn:Ma; cbn; rewrite IH; [reflexivity|]. destruct (Nat.eqb_spec (m_key a) (m_key m)) as [E|N]; [|reflexivity].
  rewrite (key_inj c m a (proj1 OK) Hm (I a (or_introl eq_refl)) E) in Ma. congruence.
Qed.

Lemma part_finish own s t : part own s t -> part own (finish s) (finish t).
Proof.
  intros (A1 & A2 & A3 & A4 & A5 & A6 & A7). unfold finish. split; [cbn; congruence|]. split; [cbn [s_scales set_scales]; rewrite A1, A2; reflexivity|].
  repeat (split; [cbn; assumption|]). exact A7.
Qed.

Lemma part_drop own s t : part own s t -> part own (drop_H c s) (drop_H c' t).
Proof.
  intros (A1 & A2 & A3 & A4 & A5 & A6 & A7). unfold drop_H. repeat (split; [cbn; assumption|]). split; [|exact A7].
  intros m Hm Mm. destruct (A6 m Hm Mm) as [S1 S2]. cbn. rewrite Hmods, existsb_mine by (try assumption; apply incl_refl). rewrite S1. auto.
Qed.

Lemma part_step own cl s t : part own s t ->
  match step c cl s with
  | (s', Ok _) => exists t', step c' cl t = (t', Ok tt) /\ part own s' t'
  | (s', Err e) => snd (step c' cl t) = Err e \/ (cl = false /\ exists m, In m (c_mods c) /\ mine m = false)
  end /\ (cl = true -> fst (step c cl s) = s /\ step c' cl t = (t, Err NotImplementedError)).
Proof.
  intros H. split; [|intros ->; split; reflexivity]. destruct cl; [left; reflexivity|]. destruct (part_ensure own s t H) as [E P].
  unfold step, sbind, getS. destruct (ensure_scale s) as [s1 r1], (ensure_scale t) as [t1 r2]. cbn in E, P. subst r2. destruct r1 as [[]|e]; [|left; reflexivity].
  pose proof P as (A1 & A2 & A3 & A4 & A5 & A6 & A7). rewrite A5. destruct (s_inf s1) eqn:Ei.
  - cbn. eexists. split; [reflexivity|].
    assert (Q : part own (set_log (s_log s1 ++ [WarnInf]) s1) (set_log (s_log t1 ++ [WarnInf]) t1)) by (unfold part; cbn; rewrite Ei; do 4 (split; [assumption|]); split; [exact A5|]; split; [exact A6|exact A7]).
    exact (part_finish own _ _ (part_drop own _ _ Q)).
  - unfold step_all. rewrite Hmods. pose proof (part_loop own (c_mods c) (incl_refl _) s1 t1 P) as L.
    destruct (forS (step_module c) (c_mods c) s1) as [s' [[]|e]].
    + destruct L as (t' & -> & L). eexists. split; [reflexivity|]. exact (part_finish own _ _ L).
    + destruct L as (m & Hm & L). destruct (mine m) eqn:Mm; [|right; split; [reflexivity|]; exists m; auto].
      specialize (L eq_refl). left. destruct (forS (step_module c') (filter mine (c_mods c)) t1) as [t' r]. cbn in L. subst r. reflexivity.
Qed.

Lemma part_run es : forall own s t,
  known_mods c es -> part own s t -> steps_ok c es s ->
  (exists own', part own' (run c es s) (run c' (view_events i mine own es) t)) /\ steps_ok c' (view_events i mine own es) t.
Proof.
  induction es as [|e es IH]; intros own s t K H S; [split; [exists own; exact H|exact I]|].
  apply Forall_cons_iff in K as [K1 K2]. destruct S as [S1 S2]. cbn [run]. pose proof H as (A1 & A2 & A3 & A4 & A5 & A6 & A7).
  destruct e as [m x b out|out g|p g|v|a inf|cl|gs].
  - (* forward *) cbn [view_events].
    assert (F : exists u, fst (event_op c (EForward m x b out) s) = set_pend (upd (s_pend s) out u) s /\ (u = None \/ u = Some (m, x)) /\
      (mine m = true -> fst (event_op c' (EForward m x b out) t) = set_pend (upd (s_pend t) out u) t)).
    { cbn [event_op]. unfold forward_hook, sbind, getS, modify, lift, ret. cbn [set_pend s_groups s_steps s_pend]. rewrite A1, A3.
      destruct (mine m) eqn:Mm.
      - rewrite (Hgroup m (s_groups s) K1 Mm). destruct (get_group c (s_groups s) m) as [gr|]; [|exists None; auto]. destruct b; cbn [negb]; [|exists None; auto].
        destruct (is_update_step gr (s_steps s)) as [[|]|]; [exists (Some (m, x))|exists None|exists None]; auto.
      - destruct (get_group c (s_groups s) m) as [gr|]; [|exists None; split; [reflexivity|]; split; [auto|discriminate]].
        destruct b; cbn [negb]; [|exists None; split; [reflexivity|]; split; [auto|discriminate]].
        destruct (is_update_step gr (s_steps s)) as [[|]|]; [exists (Some (m, x))|exists None|exists None]; (split; [reflexivity|]; split; [auto|discriminate]). }
    destruct F as (u & E & U & E'). rewrite E in *. destruct (mine m) eqn:Mm.
    + cbn [app run steps_ok]. rewrite (E' eq_refl) in *. clear E'. assert (P : part (upd own out true) (set_pend (upd (s_pend s) out u) s) (set_pend (upd (s_pend t) out u) t)).
      { repeat (split; [cbn; assumption|]). intros o. cbn [set_pend s_pend]. unfold upd. destruct (Nat.eqb o out); [|exact (A7 o)].
        split; [reflexivity|]. intros m0 x0 E0. destruct U as [->| ->]; [discriminate|]. injection E0 as <- _. auto. }
      destruct (IH _ _ _ K2 P S2) as [I1 I2]. split; [exact I1|]. split; [exact I|exact I2].
    + cbn [app]. assert (P : part (upd own out false) (set_pend (upd (s_pend s) out u) s) t).
      { repeat (split; [cbn; assumption|]). intros o. cbn [set_pend s_pend]. unfold upd. destruct (Nat.eqb o out); [|exact (A7 o)].
        intros m0 x0 E0. destruct U as [->| ->]; [discriminate|]. injection E0 as <- _. auto. }
      exact (IH _ _ _ K2 P S2).
  - (* backward *) cbn [view_events]. pose proof (A7 out) as P. destruct (own out) eqn:Eo.
    + destruct P as [P1 P2]. cbn [app run steps_ok].
      assert (Q : part own (fst (event_op c (EBackward out g) s)) (fst (event_op c' (EBackward out g) t))).
      { cbn [event_op]. unfold sbind, getS. rewrite P1. destruct (s_pend s out) as [[m x]|] eqn:Ep; [|exact H]. destruct (P2 m x eq_refl) as [Hm Mm].
        unfold accumulate_H_terms, sbind, getS, lift. destruct (A6 m Hm Mm) as [B1 B2]. rewrite A1, A2, A3, B1, (Hgroup m (s_groups s) Hm Mm).
        destruct (get_group c (s_groups s) m) as [gr|]; [|exact H].
        destruct (local_H _ _ _ _ _ _) as [[hk hc]|]; [|exact H]. unfold on_slots. rewrite B1.
        destruct (store_H hk hc (s_slots s (m_key m))) as [sl r]. cbn. repeat (split; [cbn; assumption|]). split; [|exact A7].
        intros m' Hm' Mm'. destruct (A6 m' Hm' Mm') as [C1 C2]. cbn. unfold upd. destruct (Nat.eqb (m_key m') (m_key m)); auto. }
      destruct (IH _ _ _ K2 Q S2) as [I1 I2]. split; [exact I1|]. split; [exact I|exact I2].
    + cbn [app]. assert (Q : part own (fst (event_op c (EBackward out g) s)) t).
      { cbn [event_op]. unfold sbind, getS. destruct (s_pend s out) as [[m x]|] eqn:Ep; [|exact H]. destruct (P m x eq_refl) as [Hm Mm].
        destruct (accumulate_frame c m x g s) as (F1 & F2 & F3 & F4 & F5 & F6 & F7 & F8 & F9).
        split; [congruence|]. split; [congruence|]. split; [congruence|]. split; [congruence|]. split; [congruence|]. split.
        - intros m' Hm' Mm'. assert (N : m' <> m) by (intros ->; congruence). destruct (mods_apart c m m' OK Hm Hm' N) as [N1 _].
          destruct (A6 m' Hm' Mm') as [C1 C2]. rewrite F8 by congruence. split; [exact C1|]. intros p Hp. rewrite F9 by (intros []). apply C2; exact Hp.
        - intros o. specialize (A7 o). rewrite F6. exact A7. }
      exact (IH _ _ _ K2 Q S2).
  - cbn [view_events run steps_ok]. match goal with |- context [run c es ?s1] => match goal with |- context [run c' _ ?t1] => assert (Q : part own s1 t1) end end.
    { cbn. repeat (split; [cbn; assumption|]). split; [|exact A7]. intros m Hm Mm. destruct (A6 m Hm Mm) as [C1 C2]. split; [exact C1|].
      cbn. intros q Hq. unfold upd. destruct (Nat.eqb_spec q p) as [->|]; [rewrite (C2 p Hq); reflexivity|apply C2; exact Hq]. }
    destruct (IH _ _ _ K2 Q S2) as [I1 I2]. split; [exact I1|]. split; [exact I|exact I2].
  - cbn [view_events run steps_ok event_op]. destruct (part_set_scale own v s t H) as [_ Q]. destruct (IH _ _ _ K2 Q S2) as [I1 I2]. split; [exact I1|]. split; [exact I|exact I2].
  - cbn [view_events run steps_ok]. assert (Q : part own (fst (event_op c (EScaler a inf) s)) (fst (event_op c' (EScaler a inf) t))).
    { cbn. do 3 (split; [cbn; assumption|]). do 2 (split; [reflexivity|]). split; [exact A6|exact A7]. }
    destruct (IH _ _ _ K2 Q S2) as [I1 I2]. split; [exact I1|]. split; [exact I|exact I2].
  - cbn [view_events run steps_ok]. destruct (part_step own cl s t H) as [P PC]. destruct cl.
    + cbn [event_op] in *. destruct (PC eq_refl) as [E1 E2]. rewrite E1 in *. rewrite E2. cbn [fst]. destruct (IH _ _ _ K2 H S2) as [I1 I2]. split; [exact I1|]. split; [exact I|exact I2].
    + cbn [event_op] in *. destruct (step c false s) as [s' r]. cbn in S1. subst r. destruct P as (t' & E & P). rewrite E. cbn [fst snd].
      destruct (IH _ _ _ K2 P S2) as [I1 I2]. split; [exact I1|]. split; [reflexivity|exact I2].
  - cbn [view_events run steps_ok]. assert (Q : part own (fst (event_op c (EGroups gs) s)) (fst (event_op c' (EGroups (only i gs)) t))).
    { cbn. do 2 (split; [cbn; assumption|]). split; [reflexivity|]. do 2 (split; [cbn; assumption|]). split; [exact A6|exact A7]. }
    destruct (IH _ _ _ K2 Q S2) as [I1 I2]. split; [exact I1|]. split; [exact I|exact I2].
Qed.

End Split.
