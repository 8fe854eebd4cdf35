(** Lemmas: modules can be updated in any order; constructor calls with another order. *)

From Coq Require Import List Arith Lia Bool ZArith Permutation FinFun.
From Verif Require Import Scalar Res Tensor Structures OptimUtils Optimizer Construct OptState OptRun OptTyped CtorSpec CtorFacts OptFail OptOrder Split SplitCtor RelistSpec.
Import ListNotations.
Open Scope nat_scope.

Section Relist.
Context {SC : Scalar}.

Lemma same_with g g' : same_settings g g' -> g' = with_params (g_params g') g.
Proof.
  intros (H1 & H2 & H3 & H4 & H5 & H6 & H7 & H8 & H9 & H10 & H11 & H12). destruct g, g'. cbn in *. subst. reflexivity.
Qed.

(** The results of two lookups of a group. *)
Definition same_group_res (r r' : res group) : Prop :=
  match r, r' with Ok g, Ok g' => same_settings g g' | Err e, Err e' => e' = e | _, _ => False end.

(** ** One module in two optimizers *)

Definition agree3 (c c' : cfg) (m : modul) (s t : state) : Prop :=
  s_steps t = s_steps s /\ s_scales t = s_scales s /\ same_group_res (get_group c (s_groups s) m) (get_group c' (s_groups t) m) /\
  s_slots t (m_key m) = s_slots s (m_key m) /\
  (forall p, In p (mod_params m) -> s_par t p = s_par s p).

Lemma on_slots_agree3 c c' A m (f : SM slots A) : rel2 (agree3 c c' m) (on_slots (m_key m) f) (on_slots (m_key m) f).
Proof.
  intros s t (A1 & A2 & A3 & A4 & A5). unfold on_slots. rewrite A4. destruct (f (s_slots s (m_key m))) as [s' r].
  cbn. split; [reflexivity|]. repeat split; cbn; try assumption. rewrite !upd_eq. reflexivity.
Qed.
Lemma on_par_agree3 c c' A m p (f : SM pslot A) : In p (mod_params m) -> rel2 (agree3 c c' m) (on_par p f) (on_par p f).
Proof.
  intros Hp s t (A1 & A2 & A3 & A4 & A5). unfold on_par. rewrite (A5 p Hp). destruct (f (s_par s p)) as [p' r].
  cbn. split; [reflexivity|]. repeat split; cbn; try assumption. intros q Hq.
  unfold upd. destruct (Nat.eqb q p); [reflexivity|apply A5; exact Hq].
Qed.

Lemma step_module_agree3 c c' m : rel2 (agree3 c c' m) (step_module c m) (step_module c' m).
Proof.
  unfold step_module. apply rel2_bind.
  - intros s t H. unfold update_preconditioner, sbind, getS, lift.
    pose proof H as (A1 & A2 & A3 & A4 & A5). rewrite A1, A2. unfold same_group_res in A3.
    destruct (get_group c (s_groups s) m) as [g|e], (get_group c' (s_groups t) m) as [g'|e']; try contradiction; [|subst e'; split; [reflexivity|exact H]].
    rewrite (same_with _ _ A3). change (update_slots (with_params (g_params g') g)) with (update_slots g).
    apply on_slots_agree3. exact H.
  - intros _. apply rel2_bind.
    + intros s t H. unfold compute_natural_gradient, sbind, getS, lift.
      pose proof H as (A1 & A2 & A3 & A4 & A5). rewrite A1, A2, A4.
      rewrite (A5 (m_weight m)) by (left; reflexivity).
      replace (option_map (fun b => grad_data (s_par t b)) (m_bias m)) with (option_map (fun b => grad_data (s_par s b)) (m_bias m)).
      * match goal with |- context [nat_grad_matrix ?a ?b ?c ?d ?e ?f] => destruct (nat_grad_matrix a b c d e f) end;
          split; try reflexivity; exact H.
      * unfold mod_params in A5. destruct (m_bias m) as [b|]; [|reflexivity]. cbn. rewrite A5 by (right; left; reflexivity). reflexivity.
    + intros [w b]. intros s t H. rewrite !group_bind.
      pose proof H as (A1 & A2 & A3 & A4 & A5). unfold same_group_res in A3.
      destruct (get_group c (s_groups s) m) as [g|e], (get_group c' (s_groups t) m) as [g'|e']; try contradiction; [|subst e'; split; [reflexivity|exact H]].
      rewrite (same_with _ _ A3). change (param_step (with_params (g_params g') g)) with (param_step g).
      clear A1 A2 A3 A4 A5. revert s t H.
      change (rel2 (agree3 c c' m) (let! _ := on_par (m_weight m) (param_step g w) in
          match m_bias m, b with Some p, Some d => on_par p (param_step g d) | _, _ => ret tt end)
        (let! _ := on_par (m_weight m) (param_step g w) in
          match m_bias m, b with Some p, Some d => on_par p (param_step g d) | _, _ => ret tt end)).
      apply rel2_bind; [apply on_par_agree3; left; reflexivity|]. intros _.
      destruct (m_bias m) as [p|] eqn:Eb; [|apply rel2_ret]. destruct b as [d|]; [|apply rel2_ret].
      apply on_par_agree3. unfold mod_params. rewrite Eb. right. left. reflexivity.
Qed.

(** If every module can be updated alone, the loop succeeds. *)
Lemma steps_alone c l : NoDup (map m_key l) -> NoDup (flat_map mod_params l) ->
  forall s, (forall m, In m l -> snd (step_module c m s) = Ok tt) -> exists s', forS (step_module c) l s = (s', Ok tt).
Proof.
  induction l as [|m l IH]; intros Nk Np s H; [exists s; reflexivity|]. cbn [forS]. unfold sbind.
  pose proof (H m (or_introl eq_refl)) as Hm.
  assert (Q : forall m', In m' l -> snd (step_module c m' (fst (step_module c m s))) = Ok tt).
  { intros m' Hm'. rewrite <- (H m' (or_intror Hm')).
    assert (AP : apart m' m).
    { destruct (in_split _ _ Hm') as (l1 & l2 & ->). apply (nodup_apart (m :: l1) l2 m'); [exact Nk|exact Np|]. left. left. reflexivity. }
    pose proof (step_module_apart c m' m AP s) as [V _]. destruct (step_module_agree c c m' eq_refl _ _ V) as [R1 _]. symmetry. exact R1. }
  destruct (step_module c m s) as [s1 r1]. cbn in Hm, Q. subst r1. apply IH; [inversion Nk; assumption|exact (nodup_app_r _ _ Np)|exact Q].
Qed.

(** ** The two optimizers side by side *)

Variables (c c' : cfg) (n : nat) (pos : nat -> nat).
Hypothesis OK : cfg_ok c.
Hypothesis Hmods : Permutation (c_mods c) (c_mods c').
Hypothesis Hsmall : forall p i, c_p2g c p = Some i -> i < n.
Hypothesis Hpos : forall p, c_p2g c' p = option_map pos (c_p2g c p).

Lemma relist_group gs gs' m : moved n pos gs gs' -> same_group_res (get_group c gs m) (get_group c' gs' m).
Proof.
  intros M. unfold get_group. rewrite Hpos. destruct (c_p2g c (m_weight m)) as [i|] eqn:E; cbn [option_map].
  - specialize (M i (Hsmall _ _ E)). destruct (nth_error gs i), (nth_error gs' (pos i)), (m_layer m); cbn; try contradiction; auto.
  - destruct (m_layer m); reflexivity.
Qed.

Lemma relist_agree s t m : same_training n pos s t -> agree3 c c' m s t.
Proof.
  intros (A1 & A2 & A3 & A4 & A5 & A6 & A7 & A8 & A9). repeat split; auto. apply relist_group. exact A9.
Qed.

Lemma cfg_ok' : cfg_ok c'.
Proof.
  destruct OK as [Nk Np]. split.
  - eapply Permutation_NoDup; [apply Permutation_map; exact Hmods|exact Nk].
  - eapply Permutation_NoDup; [|exact Np]. apply Permutation_flat_map. exact Hmods.
Qed.

Lemma relist_all s t s' : same_training n pos s t -> step_all c s = (s', Ok tt) ->
  exists t', step_all c' t = (t', Ok tt) /\ same_training n pos s' t'.
Proof.
  intros R H. pose proof cfg_ok' as OK'.
  assert (AL : forall m, In m (c_mods c') -> exists s1 t1, step_module c m s = (s1, Ok tt) /\ step_module c' m t = (t1, Ok tt) /\ agree3 c c' m s1 t1 /\
    s_slots s' (m_key m) = s_slots s1 (m_key m) /\ (forall p, In p (mod_params m) -> s_par s' p = s_par s1 p)).
  { intros m Hm. apply (Permutation_in _ (Permutation_sym Hmods)) in Hm.
    destruct (step_all_view c s s' m OK Hm H) as (s1 & E & E1 & E2).
    destruct (step_module_agree3 c c' m s t (relist_agree s t m R)) as [Es Ea]. rewrite E in Es, Ea. cbn in Es, Ea.
    destruct (step_module c' m t) as [t1 r]. cbn in Es, Ea. subst r. exists s1, t1. auto. }
  destruct (steps_alone c' (c_mods c') (proj1 OK') (proj2 OK') t) as (t' & Et).
  { intros m Hm. destruct (AL m Hm) as (s1 & t1 & _ & -> & _). reflexivity. }
  exists t'. split; [exact Et|]. pose proof (steps_frame _ _ _ _ _ H) as (F1 & F2 & F3 & F4 & F5 & F6 & F7 & F8 & F9).
  pose proof (steps_frame _ _ _ _ _ Et) as (G1 & G2 & G3 & G4 & G5 & G6 & G7 & G8 & G9).
  destruct R as (A1 & A2 & A3 & A4 & A5 & A6 & A7 & A8 & A9).
  do 5 (split; [congruence|]). split; [|split; [|split]].
  - intros k. destruct (in_dec Nat.eq_dec k (map m_key (c_mods c'))) as [I|N].
    + apply in_map_iff in I as (m & <- & Hm). destruct (AL m Hm) as (s1 & t1 & E1 & E2 & (_ & _ & _ & B4 & _) & E3 & _).
      destruct (step_all_view c' t t' m OK' Hm Et) as (t2 & E4 & E5 & _). congruence.
    + rewrite G8 by exact N. rewrite A6. symmetry. apply F8. intros I. apply N. eapply Permutation_in; [apply Permutation_map; exact Hmods|exact I].
  - intros p. destruct (in_dec Nat.eq_dec p (flat_map mod_params (c_mods c'))) as [I|N].
    + apply in_flat_map in I as (m & Hm & Hp). destruct (AL m Hm) as (s1 & t1 & E1 & E2 & (_ & _ & _ & _ & B5) & _ & E3).
      destruct (step_all_view c' t t' m OK' Hm Et) as (t2 & E4 & _ & E5). rewrite (E5 p Hp), (E3 p Hp). rewrite E2 in E4. injection E4 as <-. apply B5. exact Hp.
    + rewrite G9 by exact N. rewrite A7. symmetry. apply F9. intros I. apply N. eapply Permutation_in; [apply Permutation_flat_map; exact Hmods|exact I].
  - intros o. rewrite F6, G6. apply A8.
  - rewrite F3, G3. exact A9.
Qed.

Lemma relist_set_scale v s t : same_training n pos s t ->
  snd (set_current_grad_scale v s) = snd (set_current_grad_scale v t) /\ same_training n pos (fst (set_current_grad_scale v s)) (fst (set_current_grad_scale v t)).
Proof.
  intros (A1 & A2 & A3 & A4 & A5 & A6 & A7 & A8 & A9). unfold set_current_grad_scale, sbind, getS, modify, lift, ret. rewrite A1, A2.
  destruct (Nat.eqb (s_steps s) 0); [|split; [reflexivity|]; unfold same_training; cbn; auto 12].
  destruct (get_grad_scale _ (-1)); [|split; [reflexivity|]; unfold same_training; cbn; auto 12].
  destruct (get_grad_scale _ 0); [|split; [reflexivity|]; unfold same_training; cbn; auto 12].
  destruct (_ && _)%bool; (split; [reflexivity|]; unfold same_training; cbn; rewrite ?A5; auto 12).
Qed.

Lemma relist_ensure s t : same_training n pos s t ->
  snd (ensure_scale s) = snd (ensure_scale t) /\ same_training n pos (fst (ensure_scale s)) (fst (ensure_scale t)).
Proof.
  intros H. pose proof H as (A1 & A2 & A3 & A4 & A5 & A6 & A7 & A8 & A9). unfold ensure_scale, sbind, getS. rewrite A1, A2, A3.
  destruct (get_grad_scale _ _); [split; [reflexivity|exact H]|].
  destruct (s_amp s) as [[v|]|]; [apply relist_set_scale; exact H|split; [reflexivity|exact H]|apply relist_set_scale; exact H].
Qed.

Lemma existsb_perm {A} (f : A -> bool) l l' : Permutation l l' -> existsb f l = existsb f l'.
Proof.
  intros P. destruct (existsb f l) eqn:E; symmetry.
  - apply existsb_exists in E as (x & Hx & E). apply existsb_exists. exists x. split; [eapply Permutation_in; eassumption|exact E].
  - apply not_true_is_false. intros X. apply existsb_exists in X as (x & Hx & X).
    enough (existsb f l = true) by congruence. apply existsb_exists. exists x. split; [eapply Permutation_in; [apply Permutation_sym|]; eassumption|exact X].
Qed.

Lemma relist_finish s t : same_training n pos s t -> same_training n pos (finish s) (finish t).
Proof. intros (A1 & A2 & A3 & A4 & A5 & A6 & A7 & A8 & A9). unfold finish, same_training. cbn. rewrite A1, A2. auto 12. Qed.

Lemma relist_step cl s t : same_training n pos s t -> (cl = false -> snd (step c cl s) = Ok tt) ->
  snd (step c' cl t) = snd (step c cl s) /\ same_training n pos (fst (step c cl s)) (fst (step c' cl t)).
Proof.
  intros R H. destruct cl; [split; [reflexivity|exact R]|]. specialize (H eq_refl).
  destruct (relist_ensure s t R) as [E P]. unfold step, sbind, getS in *. destruct (ensure_scale s) as [s1 r1], (ensure_scale t) as [t1 r2]. cbn in E, P. subst r2.
  destruct r1 as [[]|e]; [|discriminate]. pose proof P as (A1 & A2 & A3 & A4 & A5 & A6 & A7 & A8 & A9). rewrite A4. destruct (s_inf s1) eqn:Ei.
  - cbn. split; [reflexivity|]. apply (relist_finish (drop_H c (set_log (s_log s1 ++ [WarnInf]) s1)) (drop_H c' (set_log (s_log t1 ++ [WarnInf]) t1))).
    unfold same_training, drop_H. cbn. rewrite A5. repeat split; auto; [congruence|]. intros k. rewrite A6, (existsb_perm _ _ _ Hmods). reflexivity.
  - destruct (step_all c s1) as [s2 [[]|e]] eqn:Es; [|discriminate]. destruct (relist_all s1 t1 s2 P Es) as (t2 & -> & P2).
    split; [reflexivity|]. exact (relist_finish s2 t2 P2).
Qed.

Lemma relist_event e e' s t : same_event n pos e e' -> same_training n pos s t ->
  match e with EStep false => snd (event_op c e s) = Ok tt | _ => True end ->
  snd (event_op c' e' t) = snd (event_op c e s) /\ same_training n pos (fst (event_op c e s)) (fst (event_op c' e' t)).
Proof.
  intros E R H. pose proof R as (A1 & A2 & A3 & A4 & A5 & A6 & A7 & A8 & A9).
  destruct e as [m x b out|out g|p g|v|a inf|cl|gs]; cbn in E; try subst e'.
  - cbn [event_op]. unfold forward_hook, sbind, getS, modify, lift, ret. cbn [set_pend s_groups s_steps s_pend]. rewrite A1.
    pose proof (relist_group _ _ m A9) as G. unfold same_group_res in G.
    assert (U : forall u, same_training n pos (set_pend (upd (s_pend s) out u) s) (set_pend (upd (s_pend t) out u) t)).
    { intros u. unfold same_training. cbn. repeat split; auto. intros o. unfold upd. destruct (Nat.eqb o out); auto. }
    assert (UU : forall u, same_training n pos (set_pend (upd (upd (s_pend s) out None) out u) s) (set_pend (upd (upd (s_pend t) out None) out u) t)).
    { intros u. unfold same_training. cbn. repeat split; auto. intros o. unfold upd. destruct (Nat.eqb o out); auto. }
    destruct (get_group c (s_groups s) m) as [g|], (get_group c' (s_groups t) m) as [g'|]; try contradiction; [|subst; split; [reflexivity|apply U]].
    rewrite (same_with _ _ G). change (is_update_step (with_params (g_params g') g)) with (is_update_step g).
    destruct b; cbn [negb]; [|split; [reflexivity|apply U]].
    destruct (is_update_step g (s_steps s)) as [[|]|]; (split; [reflexivity|]); (apply UU || apply U).
  - cbn [event_op]. unfold sbind, getS. rewrite A8. destruct (s_pend s out) as [[m x]|]; [|split; [reflexivity|exact R]].
    unfold accumulate_H_terms, sbind, getS, lift. rewrite A1, A2, A6.
    pose proof (relist_group _ _ m A9) as G. unfold same_group_res in G.
    destruct (get_group c (s_groups s) m) as [g1|], (get_group c' (s_groups t) m) as [g'|]; try contradiction; [|subst; split; [reflexivity|exact R]].
    rewrite (same_with _ _ G). change (local_H (with_params (g_params g') g1)) with (local_H g1).
    destruct (local_H _ _ _ _ _ _) as [[hk hc]|]; [|split; [reflexivity|exact R]]. unfold on_slots. rewrite A6.
    destruct (store_H hk hc (s_slots s (m_key m))) as [sl r]. cbn. split; [reflexivity|]. unfold same_training. cbn. repeat split; auto.
    intros k. unfold upd. destruct (Nat.eqb k (m_key m)); auto.
  - split; [reflexivity|]. cbn. unfold same_training. cbn. rewrite A7. repeat split; auto. intros q. unfold upd. destruct (Nat.eqb q p); auto.
  - cbn [event_op]. destruct (relist_set_scale v s t R) as [X Y]. auto.
  - split; [reflexivity|]. unfold same_training. cbn. auto 12.
  - cbn [event_op] in *. apply relist_step; [exact R|]. intros ->. exact H.
  - destruct e'; try discriminate. split; [reflexivity|]. unfold same_training. cbn. auto 12.
Qed.

Lemma relist_run es es' : Forall2 (same_event n pos) es es' -> forall s t, same_training n pos s t -> steps_ok c es s ->
  outcomes c' es' t = outcomes c es s /\ steps_ok c' es' t /\ same_training n pos (run c es s) (run c' es' t).
Proof.
  intros F. induction F as [|e e' es es' E F IH]; intros s t R S; [split; [reflexivity|split; [exact I|exact R]]|].
  destruct S as [S1 S2]. destruct (relist_event e e' s t E R S1) as [O P]. destruct (IH _ _ P S2) as (I1 & I2 & I3).
  cbn [outcomes run steps_ok]. split; [rewrite O, I1; reflexivity|]. split; [|exact I3]. split; [|exact I2].
  destruct e as [| | | | |[|]|]; cbn in E; subst; try exact I; [rewrite O; exact S1|]. destruct e'; try discriminate. exact I.
Qed.

End Relist.
