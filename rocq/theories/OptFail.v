(** Lemmas: what a failing step leaves behind. *)

From Coq Require Import List Arith Lia Bool ZArith.
From Verif Require Import Scalar Res Tensor Structures OptimUtils Optimizer Construct OptState OptRun.
Import ListNotations.
Open Scope nat_scope.

Section Fail.
Context {SC : Scalar}.

Lemma forS_fails {S A} (f : A -> SM S unit) l s s' e :
  forS f l s = (s', Err e) -> exists l1 a l2 s1, l = l1 ++ a :: l2 /\ forS f l1 s = (s1, Ok tt) /\ f a s1 = (s', Err e).
Proof.
  revert s. induction l as [|a l IH]; intros s H; [discriminate|]. cbn [forS] in H. unfold sbind in H.
  destruct (f a s) as [s1 [[]|e1]] eqn:E.
  - destruct (IH s1 H) as (l1 & b & l2 & s2 & -> & H1 & H2). exists (a :: l1), b, l2, s2. split; [reflexivity|]. split; [|exact H2].
    cbn [forS]. unfold sbind. rewrite E. exact H1.
  - injection H as <- <-. exists [], a, l, s. auto.
Qed.

Lemma param_step_grad g d p : p_grad (fst (param_step g d p)) = p_grad p.
Proof.
  unfold param_step, sbind, getS, lift, modify. destruct (if feqb (g_wd g) f0 then Ok d else t_add_alpha d (p_val p) (g_wd g)); [|reflexivity].
  destruct (feqb (g_momentum g) f0).
  - destruct (t_add_alpha _ _ _); reflexivity.
  - destruct (t_add _ _); [|reflexivity]. destruct (t_add_alpha _ _ _); reflexivity.
Qed.

Lemma NoDup_app_disj {A} (a b : list A) : NoDup (a ++ b) -> forall x, In x a -> In x b -> False.
Proof.
  induction a as [|y a IH]; intros N x Ha Hb; [destruct Ha|]. cbn in N. apply NoDup_cons_iff in N as [N1 N2]. destruct Ha as [->|Ha].
  - apply N1. apply in_or_app. right. exact Hb.
  - exact (IH N2 x Ha Hb).
Qed.
Lemma nodup_app_r {A} (a b : list A) : NoDup (a ++ b) -> NoDup b.
Proof. induction a; intros H; [exact H|]. cbn in H. apply NoDup_cons_iff in H as [_ H]. exact (IHa H). Qed.

Definition grads_kept (s t : @state SC) : Prop := forall p, p_grad (s_par t p) = p_grad (s_par s p).
Lemma gk_refl s : grads_kept s s. Proof. intros p. reflexivity. Qed.
Lemma gk_trans a b c : grads_kept a b -> grads_kept b c -> grads_kept a c. Proof. intros H1 H2 p. rewrite H2. apply H1. Qed.

Lemma on_par_gk g d k : keeps grads_kept (on_par k (param_step g d)).
Proof.
  intros st. unfold on_par. pose proof (param_step_grad g d (s_par st k)) as H. destruct (param_step g d (s_par st k)) as [p' r]. cbn [fst] in *.
  intros p. cbn. unfold upd. destruct (Nat.eqb_spec p k) as [->|]; [exact H|reflexivity].
Qed.

Lemma step_module_gk c m : keeps grads_kept (step_module c m).
Proof.
  unfold step_module. apply keeps_bind; [apply gk_trans| |].
  { intros st p. destruct (update_preconditioner_frame c m [] st) as (_ & _ & _ & _ & _ & _ & _ & _ & H). rewrite H by (intros []). reflexivity. }
  intros _. apply keeps_bind; [apply gk_trans| |].
  { intros st p. destruct (compute_natural_gradient_frame c m None [] st) as (_ & _ & _ & _ & _ & _ & _ & _ & H). rewrite H by (intros []). reflexivity. }
  intros [w b]. apply keeps_bind; [apply gk_trans|apply keeps_getS; apply gk_refl|]. intros st.
  apply keeps_bind; [apply gk_trans|apply keeps_lift; apply gk_refl|]. intros g.
  apply keeps_bind; [apply gk_trans|apply on_par_gk|]. intros _.
  destruct (m_bias m); [|apply keeps_ret; apply gk_refl]. destruct b; [apply on_par_gk|apply keeps_ret; apply gk_refl].
Qed.

Lemma ensure_fails st st1 e :
  scales_ok (s_steps st) (s_scales st) -> ensure_scale st = (st1, Err e) -> st1 = st /\ s_amp st = Some None.
Proof.
  intros SO E. pose proof (ensure_scale_ok st SO) as H. rewrite E in H. cbn [snd] in H. unfold step_scale in H. unfold ensure_scale, sbind, getS, raise in E.
  destruct (get_grad_scale (s_scales st) (Z.of_nat (s_steps st))); [discriminate|].
  destruct (s_amp st) as [[v|]|]; [discriminate| |discriminate]. injection E as <- _. auto.
Qed.

Lemma failing_step c st st' e :
  cfg_ok c -> scales_ok (s_steps st) (s_scales st) -> step c false st = (st', Err e) ->
  (st' = st /\ s_amp st = Some None) \/
  s_inf st = false /\
  s_steps st' = s_steps st /\ s_groups st' = s_groups st /\ s_amp st' = s_amp st /\ s_inf st' = s_inf st /\ s_pend st' = s_pend st /\
  grads_kept st st' /\
  get_grad_scale (s_scales st') (Z.of_nat (s_steps st) - 1) = get_grad_scale (s_scales st) (Z.of_nat (s_steps st) - 1) /\
  get_grad_scale (s_scales st') (Z.of_nat (s_steps st)) = step_scale st /\
  exists l1 m l2, c_mods c = l1 ++ m :: l2 /\
    (forall m', In m' l2 -> s_slots st' (m_key m') = s_slots st (m_key m') /\ forall p, In p (mod_params m') -> s_par st' p = s_par st p).
Proof.
  intros [NK NP] SO H. apply step_cases in H as [(? & _)|(_ & st1 & [(e' & E & -> & _)|(E & [(_ & ? & _)|(Hi & st2 & r2 & E2 & X)])])]; try discriminate.
  - left. exact (ensure_fails st st1 e' SO E).
  - right. destruct r2 as [[]|e2]; [destruct X; discriminate|]. destruct X as [_ ->]. unfold step_all in E2.
    apply ensure_scale_frame in E as ((F1 & F2 & F3 & F4 & F5 & F6 & F7) & G1 & G2). specialize (G2 eq_refl).
    pose proof (steps_frame _ _ _ _ _ E2) as (A1 & A2 & A3 & A4 & A5 & A6 & A7 & A8 & A9).
    split; [exact Hi|]. do 5 (split; [congruence|]). split.
    { intros p. pose proof (keeps_at grads_kept (forS (step_module c) (c_mods c)) st1 st2 (Err e2)) as K. rewrite <- F3. apply K; [|exact E2].
      apply keeps_forS; [apply gk_refl|apply gk_trans|]. intros m _. apply step_module_gk. }
    split; [rewrite A2; apply G1; lia|]. split; [rewrite A2; exact G2|].
    destruct (forS_fails _ _ _ _ _ E2) as (l1 & m & l2 & s1 & Em & H1 & H2). exists l1, m, l2. split; [exact Em|].
    pose proof (steps_frame _ _ _ _ _ H1) as (_ & _ & _ & _ & _ & _ & _ & B8 & B9). pose proof (step_module_frame c m s1) as F. rewrite H2 in F. cbn in F.
    destruct F as (_ & _ & _ & _ & _ & _ & _ & C8 & C9). rewrite Em in NK, NP. intros m' Hm'. split.
    + assert (N : ~ In (m_key m') (map m_key (l1 ++ [m]))).
      { intros I. rewrite map_app in NK. cbn in NK. rewrite map_app in I. apply in_app_or in I as [I|[I|[]]].
        - apply (NoDup_app_disj _ _ NK (m_key m') I). right. apply in_map. exact Hm'.
        - apply nodup_app_r in NK. apply NoDup_cons_iff in NK as [NK _]. apply NK. rewrite I. apply in_map. exact Hm'. }
      rewrite map_app in N. rewrite C8, B8, F2; [reflexivity| |].
      * intros I. apply N. apply in_or_app. left. exact I.
      * intros I. apply N. apply in_or_app. right. left. congruence.
    + intros p Hp. rewrite flat_map_app in NP. cbn [flat_map] in NP.
      assert (I2 : In p (flat_map mod_params l2)) by (apply in_flat_map; eauto).
      rewrite C9, B9, F3; [reflexivity| |].
      * intros I. apply (NoDup_app_disj _ _ NP p I). apply in_or_app. right. exact I2.
      * intros I. apply nodup_app_r in NP. apply (NoDup_app_disj _ _ NP p I). exact I2.
Qed.

End Fail.
