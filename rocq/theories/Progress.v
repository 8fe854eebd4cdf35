(** Lemmas: exactly when calls raise, and regular training loops, which never do. *)

From Coq Require Import List Arith Lia Bool ZArith Field.
From Verif Require Import Scalar Res Tensor TensorFacts Structures StructSpec StructOps StructAct OptimUtils UtilsFacts ProofUtils Optimizer Construct OptState OptRun OptSpec OptFacts OptConsume OptDir OptTyped OptStep OptMom CtorSpec CtorFacts OptOrder OptFail ProgressSpec.
Import ListNotations.

Section Progress.
Context {SC : Scalar} {FL : FieldLaws SC}.
Add Field FFpg : F_ft.
Open Scope F_scope.

(** ** Shapes of parameters, gradients and buffers *)

Lemma param_step_fit s g d p : slot_fits s p -> slot_fits s (fst (param_step g d p)).
Proof.
  intros (Sv & Sg & Sb). unfold param_step. unfold sbind at 1, getS at 1. unfold sbind at 1, lift at 1.
  destruct (if feqb (g_wd g) 0 then Ok d else t_add_alpha d (p_val p) (g_wd g)) as [d'|]; [|repeat split; assumption].
  destruct (feqb (g_momentum g) 0).
  - unfold sbind, lift, modify. destruct (t_add_alpha (p_val p) d' (- g_lr g)) as [v|] eqn:E; cbn [fst]; [|repeat split; assumption].
    unfold t_add_alpha, t_map2 in E. destruct (shape_eqb _ _); [|discriminate]. injection E as <-. repeat split; assumption.
  - set (ob := t_scale _ _).
    assert (So : shape ob = s) by (unfold ob; cbn; destruct (p_buf p) eqn:E; [apply Sb; reflexivity|exact Sv]).
    unfold sbind, lift, modify. destruct (t_add ob d') as [b|] eqn:Eb; cbn [fst].
    2:{ repeat split; cbn; try assumption. intros b' E. injection E as <-. exact So. }
    assert (Sb' : shape b = s). { unfold t_add, t_map2 in Eb. destruct (shape_eqb _ _); [|discriminate]. injection Eb as <-. exact So. }
    destruct (t_add_alpha (p_val p) b (- g_lr g)) as [v|] eqn:E; cbn [fst]; repeat split; cbn; try assumption;
      try (intros b' E'; injection E' as <-; exact Sb').
    unfold t_add_alpha, t_map2 in E. destruct (shape_eqb _ _); [|discriminate]. injection E as <-. exact Sv.
Qed.

Definition keeps_fit (s t : state) : Prop := forall sh p, slot_fits sh (s_par s p) -> slot_fits sh (s_par t p).
Lemma kf_refl s : keeps_fit s s. Proof. intros sh p H. exact H. Qed.
Lemma kf_trans a b c : keeps_fit a b -> keeps_fit b c -> keeps_fit a c. Proof. intros H1 H2 sh p H. apply H2, H1, H. Qed.
Lemma kf_par s t : s_par t = s_par s -> keeps_fit s t. Proof. intros E sh p H. rewrite E. exact H. Qed.

Lemma on_par_kf g d k : keeps keeps_fit (on_par k (param_step g d)).
Proof.
  intros s sh p H. unfold on_par. pose proof (param_step_fit sh g d (s_par s k)) as F.
  destruct (param_step g d (s_par s k)) as [p' r]. cbn [fst s_par set_par] in *.
  destruct (Nat.eq_dec p k) as [->|N]; [rewrite upd_eq; apply F; exact H|rewrite upd_neq by exact N; exact H].
Qed.

Lemma step_module_kf c m : keeps keeps_fit (step_module c m).
Proof.
  unfold step_module. apply keeps_bind; [apply kf_trans| |].
  - intros s. apply kf_par. unfold update_preconditioner, sbind, getS, lift. destruct (get_group c (s_groups s) m); [|reflexivity].
    unfold on_slots. destruct (update_slots _ _ _ _ _). reflexivity.
  - intros _. apply keeps_bind; [apply kf_trans| |].
    + intros s. apply kf_par. unfold compute_natural_gradient, sbind, getS, lift. destruct (nat_grad_matrix _ _ _ _ _ _); reflexivity.
    + intros [w b]. apply keeps_bind; [apply kf_trans|apply keeps_getS; apply kf_refl|]. intros s0.
      apply keeps_bind; [apply kf_trans|apply keeps_lift; apply kf_refl|]. intros g0.
      apply keeps_bind; [apply kf_trans|apply on_par_kf|]. intros _.
      destruct (m_bias m); [|apply keeps_ret; apply kf_refl]. destruct b; [apply on_par_kf|apply keeps_ret; apply kf_refl].
Qed.

Lemma event_kf c e st : (forall p g, e <> EGrad p g) -> keeps_fit st (fst (event_op c e st)).
Proof.
  intros N. destruct e; try (apply kf_par; reflexivity); try (exfalso; eapply N; reflexivity).
  - apply kf_par. destruct (forward_frame c m x grad_on out st) as (E & _). cbn [event_op]. rewrite E. reflexivity.
  - apply kf_par. cbn [event_op]. unfold sbind, getS. destruct (s_pend st out) as [[m0 x0]|]; [|reflexivity].
    unfold accumulate_H_terms, sbind, getS, lift. destruct (get_group _ _ _); [|reflexivity]. destruct (local_H _ _ _ _ _ _) as [[? ?]|]; [|reflexivity].
    unfold on_slots. destruct (store_H _ _ _). reflexivity.
  - apply kf_par. cbn [event_op]. destruct (set_current_grad_scale s st) as [st' r] eqn:E.
    apply set_current_grad_scale_frame in E as ((_ & _ & E & _) & _). exact E.
  - cbn [event_op]. destruct (step c closure st) as [st' r] eqn:E. cbn [fst].
    apply step_cases in E as [(_ & -> & _)|(_ & st1 & [(e0 & E & -> & _)|(E & D)])]; [apply kf_refl| |];
      apply ensure_scale_frame in E as ((_ & _ & E & _) & _); [apply kf_par; exact E|].
    destruct D as [(_ & _ & ->)|(_ & st2 & r2 & ES & D)]; [apply kf_par; unfold finish; cbn; exact E|].
    eapply kf_trans; [apply kf_par; exact E|].
    assert (K : keeps_fit st1 st2).
    { apply (keeps_at _ (step_all c) st1 st2 r2); [|exact ES]. unfold step_all. apply keeps_forS; [apply kf_refl|apply kf_trans|].
      intros m' _. apply step_module_kf. }
    destruct r2; destruct D as [_ ->]; [|exact K]. eapply kf_trans; [exact K|]. apply kf_par. reflexivity.
Qed.

Lemma event_fits c e st : pars_fit c st -> grad_fits c e -> pars_fit c (fst (event_op c e st)).
Proof.
  intros P G m p Hm Hp. destruct (P m p Hm Hp) as (Sv & Sg & Sb).
  assert (X : (exists q g, e = EGrad q g) \/ forall q g, e <> EGrad q g). { destruct e; try (right; intros ? ? X; discriminate). left; eauto. }
  destruct X as [(q & g & ->)|N]; [|exact (event_kf c e st N _ _ (P m p Hm Hp))].
  cbn. unfold upd. destruct (Nat.eqb_spec p q) as [Eq|Nq]; [|repeat split; assumption]. subst q. repeat split; cbn; try assumption.
  intros g' E. cbn in G. subst g. exact (G m Hm Hp).
Qed.

Lemma run_fits c es st : pars_fit c st -> Forall (grad_fits c) es -> pars_fit c (run c es st).
Proof.
  revert st. induction es as [|e es IH]; intros st P G; [exact P|]. apply Forall_cons_iff in G as [G1 G2]. cbn [run].
  apply IH; [|exact G2]. apply event_fits; assumption.
Qed.

(** ** One module's step *)

Lemma shape_weight m : shape_of m (m_weight m) = weight_shape (m_layer m).
Proof. unfold shape_of. rewrite Nat.eqb_refl. reflexivity. Qed.
Lemma shape_bias m p : p <> m_weight m -> shape_of m p = [n_out (m_layer m)].
Proof. intros N. unfold shape_of. destruct (Nat.eqb_spec p (m_weight m)); [contradiction|reflexivity]. Qed.

Lemma step_module_ready c m st cK cC dK dC prev cur :
  NoDup (mod_params m) -> bias_fits m -> usable cK dK -> usable cC dC -> preconditioner_dims (m_layer m) = Ok (dK, dC) ->
  typed cK cC dK dC (s_slots st (m_key m)) -> (forall p, In p (mod_params m) -> slot_fits (shape_of m p) (s_par st p)) ->
  get_grad_scale (s_scales st) (Z.of_nat (s_steps st) - 1) = Ok prev -> get_grad_scale (s_scales st) (Z.of_nat (s_steps st)) = Ok cur ->
  snd (step_module c m st) = Ok tt <-> ready c st cur m.
Proof.
  intros ND BF UK UC Ed T PF Ep Ec. pose proof (dims_supported _ _ _ Ed) as Hs.
  assert (Nb : forall p, m_bias m = Some p -> p <> m_weight m).
  { intros p E. unfold mod_params in ND. rewrite E in ND. apply NoDup_cons_iff in ND as [ND _]. intros ->. apply ND. left. reflexivity. }
  split.
  - intros H. destruct (step_module c m st) as [st' r] eqn:E. cbn [snd] in H. subst r.
    destruct (step_module_parts c m st st' ND E) as (g & s' & N & w & b & P1 & P2 & P3 & P4 & _). exists g. split; [exact P1|].
    assert (HT : g_T g <> O).
    { intros HT. unfold update_slots, sbind at 1, lift in P2. unfold is_update_step in P2. rewrite HT in P2. discriminate. }
    split; [exact HT|]. split.
    + unfold nat_grad_matrix in P4. apply bind_ok in P4 as (wg & Ew & P4). apply bind_ok in P4 as (bg & Eb & _).
      intros p [<-|Hp].
      * intros X. unfold grad_data in Ew. rewrite X in Ew. discriminate.
      * destruct (m_bias m) as [q|]; [|destruct Hp]. destruct Hp as [<-|[]]. intros X. cbn in Eb. unfold grad_data in Eb. rewrite X in Eb. discriminate.
    + intros Ht. cbv zeta. destruct (update_ok_inv g _ _ _ _ _ _ _ _ _ UK UC Ed T (due_update g _ HT Ht) P2) as (HK & HC & prev' & cur' & E1 & E2 & _ & E3 & E4 & R).
      rewrite E1, E2. split; [discriminate|]. split; [discriminate|]. split; [congruence|]. intros Na.
      destruct R as [R|(a & b' & R1 & R2 & _)]; [contradiction|]. rewrite R1, R2. split; discriminate.
  - intros (g & Eg & HT & PG & PD).
    assert (U : exists s' K C, update_slots g (m_layer m) (s_steps st) (s_scales st) (s_slots st (m_key m)) = (s', Ok tt) /\
       sl_K s' = Some K /\ sl_C s' = Some C /\ valid cK dK K /\ valid cC dC C).
    { pose proof T as [(K & EK & VK) (C & EC & VC) TmK TmC THK THC]. destruct (Nat.eq_dec (s_steps st mod g_T g) 0) as [Ht|Ht].
      - destruct (PD Ht) as (D1 & D2 & D3 & D4). cbv zeta in D4.
        destruct (sl_HK (s_slots st (m_key m))) as [HK|] eqn:EHK; [|contradiction]. destruct (sl_HC (s_slots st (m_key m))) as [HC|] eqn:EHC; [|contradiction].
        assert (R : moms_ready g cK cC dK dC (s_slots st (m_key m))).
        { destruct (feqb_spec (g_alpha1 g) 0) as [[Ea _]|[Na _]]; [left; exact Ea|]. right. destruct (D4 Na) as [M1 M2].
          destruct (sl_mK (s_slots st (m_key m))) as [a|]; [|contradiction]. destruct (sl_mC (s_slots st (m_key m))) as [b|]; [|contradiction]. exists a, b. auto. }
        destruct (update_slots_act g (m_layer m) (s_steps st) (s_scales st) _ cK cC dK dC K C HK HC prev cur UK UC Ed HT Ht EK EC EHK EHC VK VC (THK _ eq_refl) (THC _ eq_refl) R Ep Ec D3)
          as (K' & C' & mK' & mC' & bK & bC & E & V1 & V2 & _). eexists. exists K', C'. split; [exact E|]. cbn. auto.
      - exists (s_slots st (m_key m)), K, C. split; [|auto]. unfold update_slots, sbind at 1, lift. unfold is_update_step.
        destruct (Nat.eqb_spec (g_T g) 0); [contradiction|]. destruct (Nat.eqb_spec (s_steps st mod g_T g) 0); [contradiction|]. reflexivity. }
    destruct U as (s' & K & C & EU & EK & EC & VK & VC).
    destruct (PF (m_weight m) (or_introl eq_refl)) as (Sv & Sg & Sb). rewrite shape_weight in Sv, Sg, Sb.
    destruct (p_grad (s_par st (m_weight m))) as [wg|] eqn:Ew; [|exfalso; exact (PG (m_weight m) (or_introl eq_refl) Ew)].
    specialize (Sg wg eq_refl).
    assert (B : exists bg, option_map (fun b => grad_data (s_par st b)) (m_bias m) = option_map Ok bg /\
       match bg with Some b => has_bias (m_layer m) = true /\ shape b = [n_out (m_layer m)] | None => has_bias (m_layer m) = false end).
    { unfold bias_fits in BF. destruct (m_bias m) as [p|] eqn:Eb.
      - assert (Ip : In p (mod_params m)) by (unfold mod_params; rewrite Eb; right; left; reflexivity).
        destruct (PF p Ip) as (_ & Sg' & _). pose proof (PG p Ip) as G. destruct (p_grad (s_par st p)) as [bg|] eqn:Egb; [|contradiction].
        exists (Some bg). cbn. unfold grad_data. rewrite Egb. split; [reflexivity|]. split; [exact BF|]. rewrite <- (shape_bias m p (Nb p eq_refl)). apply Sg'. reflexivity.
      - exists None. split; [reflexivity|exact BF]. }
    destruct B as (bg & Ebg & Sbg).
    destruct (C49_gradient_matrix_lemma (m_layer m) wg bg Hs Sg Sbg) as (G & EG & DG & SG & _).
    rewrite Ed in DG. injection DG as D1 D2. rewrite <- D1, <- D2 in SG.
    pose proof Ed as Ed'. rewrite (C49_dims_lemma _ Hs) in Ed'. injection Ed' as EdK EdC.
    match type of EG with _ => pose proof (nat_grad_any (m_layer m) wg bg cur K C cK cC dK dC G EG SG UK UC VK VC) as EN end.
    match type of EN with _ = Ok ?N => destruct (split_any (m_layer m) N Hs) as (w & b & ES & _ & Sw & Sb') end.
    { cbn. rewrite EdK, EdC. reflexivity. }
    unfold step_module. unfold sbind at 1, update_preconditioner at 1, sbind at 1, getS at 1, sbind at 1, lift at 1. rewrite Eg.
    unfold on_slots at 1. rewrite EU.
    unfold sbind at 1, compute_natural_gradient at 1, sbind at 1, getS at 1, sbind at 1, lift at 1.
    cbn [s_slots s_par s_scales s_steps set_slots]. rewrite upd_eq, EK, EC. unfold grad_data at 1. rewrite Ew, Ebg, Ec. cbn [lookup]. rewrite EN.
    unfold lift at 1. rewrite ES. unfold sbind at 1, getS at 1. cbn [s_groups set_slots]. unfold sbind at 1, lift at 1. rewrite Eg.
    unfold sbind at 1, on_par at 1. cbn [s_par set_slots].
    destruct (param_step_act g w (s_par st (m_weight m)) _ Sv Sw Sb) as (v & B & -> & _).
    unfold bias_fits in BF. destruct (m_bias m) as [p|] eqn:Eb; [|destruct b; reflexivity].
    destruct b as [d|]; [|reflexivity]. destruct Sb' as [_ Sd].
    assert (Ip : In p (mod_params m)) by (unfold mod_params; rewrite Eb; right; left; reflexivity).
    destruct (PF p Ip) as (Sv2 & _ & Sb2). rewrite (shape_bias m p (Nb p eq_refl)) in Sv2, Sb2.
    unfold on_par. cbn [s_par set_slots set_par]. rewrite upd_neq by (apply Nb; reflexivity).
    destruct (param_step_act g d (s_par st p) _ Sv2 Sd Sb2) as (v2 & B2 & -> & _). reflexivity.
Qed.

(** ** The step *)

Lemma steps_ready c ty l : forall st prev cur,
  cfg_ok c -> tys_ok c ty -> incl l (c_mods c) -> NoDup (map m_key l) -> NoDup (flat_map mod_params l) -> (forall m, In m (c_mods c) -> bias_fits m) ->
  (forall m, In m l -> mod_typed ty m st) -> pars_fit c st ->
  get_grad_scale (s_scales st) (Z.of_nat (s_steps st) - 1) = Ok prev -> get_grad_scale (s_scales st) (Z.of_nat (s_steps st)) = Ok cur ->
  snd (forS (step_module c) l st) = Ok tt <-> forall m, In m l -> ready c st cur m.
Proof.
  induction l as [|m l IH]; intros st prev cur OK TO I NK NP BF TA PF Ep Ec; [split; [intros _ m []|reflexivity]|].
  assert (Hm : In m (c_mods c)) by (apply I; left; reflexivity).
  pose proof (TO m Hm) as TOm. pose proof (TA m (or_introl eq_refl)) as T. unfold mod_typed in T.
  destruct (ty m) as [[[cK cC] dK] dC] eqn:Et. destruct TOm as (UK & UC & Ed). cbn [map flat_map] in NK, NP. apply NoDup_cons_iff in NK as [NK1 NK2].
  pose proof (step_module_ready c m st cK cC dK dC prev cur (nodup_l _ _ NP) (BF m Hm) UK UC Ed T (fun p => PF m p Hm) Ep Ec) as R.
  pose proof (step_module_frame c m st) as FR. pose proof (step_module_kf c m st) as KF.
  cbn [forS]. unfold sbind at 1. destruct (step_module c m st) as [st1 r] eqn:E. cbn [fst snd] in *. destruct FR as (F1 & F2 & F3 & F4 & F5 & F6 & F7 & F8 & F9).
  assert (SAME : forall m', In m' l -> s_slots st1 (m_key m') = s_slots st (m_key m') /\ forall p, In p (mod_params m') -> s_par st1 p = s_par st p).
  { intros m' Hm'. split.
    - apply F8. intros X. injection X as X. apply NK1. rewrite <- X. apply in_map. exact Hm'.
    - intros p Hp. apply F9. intros X. apply (NoDup_app_disj _ _ NP p X). apply in_flat_map. exists m'. auto. }
  assert (RD : forall m', In m' l -> ready c st1 cur m' <-> ready c st cur m').
  { intros m' Hm'. destruct (SAME m' Hm') as [S1 S2]. unfold ready. rewrite F1, F3, S1.
    split; intros (g & G1 & G2 & G3 & G4); exists g; (split; [exact G1|]); (split; [exact G2|]); (split; [|exact G4]); intros p Hp; [rewrite <- (S2 p Hp)|rewrite (S2 p Hp)]; exact (G3 p Hp). }
  destruct r as [[]|e].
  - rewrite (IH st1 prev cur OK TO); try assumption; try congruence.
    + split.
      * intros H m' [<-|Hm']; [apply R; reflexivity|apply (RD m' Hm'); exact (H m' Hm')].
      * intros H m' Hm'. apply RD; [exact Hm'|]. apply H. right. exact Hm'.
    + intros m' Hm'. apply I. right. exact Hm'.
    + exact (nodup_r _ _ NP).
    + intros m' Hm'. unfold mod_typed. rewrite (proj1 (SAME m' Hm')). apply TA. right. exact Hm'.
    + intros m' p Hm' Hp. apply KF. exact (PF m' p Hm' Hp).
  - split; [discriminate|]. intros H. cbn. apply R. apply H. left. reflexivity.
Qed.

Lemma step_outcome c ty st :
  cfg_ok c -> tys_ok c ty -> (forall m, In m (c_mods c) -> bias_fits m) -> all_typed c ty st -> pars_fit c st -> scales_ok (s_steps st) (s_scales st) ->
  snd (step c false st) = Ok tt <->
  exists cur, step_scale st = Ok cur /\ (s_inf st = true \/ forall m, In m (c_mods c) -> ready c st cur m).
Proof.
  intros OK TO BF [TA _] PF SO. pose proof (ensure_scale_ok st SO) as ES.
  destruct (step c false st) as [st' r] eqn:E. cbn [snd]. apply step_cases in E as [(X & _)|(_ & st1 & [(e & E & _ & ->)|(E & D)])]; [discriminate| |].
  - rewrite E in ES. cbn [snd] in ES. destruct (step_scale st); [discriminate|]. split; [discriminate|]. intros (cur & X & _). discriminate.
  - rewrite E in ES. cbn [snd] in ES. destruct (step_scale st) as [cur|] eqn:Ec; [|discriminate].
    pose proof (ensure_scale_frame _ _ _ E) as ((F1 & F2 & F3 & F4 & _) & F6 & F7). specialize (F7 eq_refl).
    destruct D as [(Hi & -> & _)|(Hi & st2 & r2 & E2 & D)].
    + split; [|reflexivity]. intros _. exists cur. auto.
    + destruct SO as (_ & _ & SO). destruct (In_get _ _ SO) as (prev & Ep).
      pose proof (steps_ready c ty (c_mods c) st1 prev cur OK TO) as R. unfold step_all in E2. rewrite E2 in R. cbn [snd] in R.
      assert (RD : forall m, ready c st1 cur m <-> ready c st cur m) by (intros m; unfold ready; rewrite F1, F2, F3, F4; reflexivity).
      assert (R' : r2 = Ok tt <-> forall m, In m (c_mods c) -> ready c st1 cur m).
      { apply R; clear R.
        - intros m Hm. exact Hm.
        - exact (proj1 OK).
        - exact (proj2 OK).
        - exact BF.
        - intros m Hm. unfold mod_typed. rewrite F2. apply TA. exact Hm.
        - intros m p Hm Hp. rewrite F3. exact (PF m p Hm Hp).
        - rewrite F1, F6 by lia. exact Ep.
        - rewrite F1, <- Ec. exact F7. }
      transitivity (r2 = Ok tt).
      { destruct r2 as [[]|]; destruct D as [-> _]; split; congruence. }
      rewrite R'. split.
      * intros H. exists cur. split; [reflexivity|]. right. intros m Hm. apply RD. exact (H m Hm).
      * intros (cur' & X & [Y|Y]); [congruence|]. injection X as <-. intros m Hm. apply RD. exact (Y m Hm).
Qed.

(** ** Backward passes *)

Lemma process_total l x g gr :
  fits l x g -> accepts l gr -> exists A B, process_input x l (g_approx gr) = Ok A /\ process_grad_output g l (g_loss gr) (g_approx gr) = Ok B.
Proof.
  intros Fi (NA & NL & EP). assert (Hk : g_approx gr = Expand \/ g_approx gr = Reduce) by (destruct (g_approx gr); auto; contradiction).
  destruct l as [d_in d_out bias|cv|]; [| |contradiction].
  - destruct Fi as (b & mid & Nb & Sx & Sg).
    assert (D : exists dK dC, preconditioner_dims (Linear d_in d_out bias) = Ok (dK, dC)) by (cbn; eauto). destruct D as (dK & dC & D).
    destruct (C39_linear_dims_lemma x g d_in d_out bias b mid (g_loss gr) (g_approx gr) dK dC Sx Sg Hk NL D) as (A & B & N & E1 & _ & E2 & _). eauto.
  - destruct Fi as (OK & b & i1 & i2 & o1 & o2 & Nb & HO & Sx & Sg).
    assert (D : exists dK dC, preconditioner_dims (Conv2d cv) = Ok (dK, dC)) by (cbn; eauto). destruct D as (dK & dC & D).
    assert (Hk' : (g_approx gr = Expand /\ even_pad cv) \/ g_approx gr = Reduce) by (destruct Hk as [Hk|Hk]; [left; split; [exact Hk|exact (EP Hk)]|right; exact Hk]).
    destruct (C39_conv_dims_lemma x g cv b i1 i2 o1 o2 (g_loss gr) (g_approx gr) dK dC OK Sx HO Sg Hk' NL D) as (A & B & N & E1 & _ & E2 & _). eauto.
Qed.

Lemma process_accepts l x g gr A B :
  fits l x g -> process_input x l (g_approx gr) = Ok A -> process_grad_output g l (g_loss gr) (g_approx gr) = Ok B -> accepts l gr.
Proof.
  intros Fi EA EB. split; [|split].
  - intros X. rewrite X in EA. discriminate.
  - intros X. rewrite X in EB. discriminate.
  - intros X. rewrite X in EA. destruct l as [| cv|]; auto. destruct Fi as (OK & _). exact (expand_even x cv A OK EA).
Qed.

Lemma backward_outcome c ty st out m x g :
  tys_ok c ty -> all_typed c ty st -> s_pend st out = Some (m, x) -> fits (m_layer m) x g ->
  snd (event_op c (EBackward out g) st) = Ok tt <-> backward_ready c st m.
Proof.
  intros TO [TA PA] EP Fi. pose proof (PA _ _ _ EP) as Hm. pose proof (TO m Hm) as TOm. pose proof (TA m Hm) as T. unfold mod_typed in T.
  destruct (ty m) as [[[cK cC] dK] dC] eqn:Et. destruct TOm as (UK & UC & Ed).
  cbn [event_op]. unfold sbind at 1, getS at 1. rewrite EP. unfold accumulate_H_terms, sbind, getS, lift.
  destruct (get_group c (s_groups st) m) as [gr|] eqn:Eg.
  2:{ split; [discriminate|]. intros (g' & ? & X & _). congruence. }
  split.
  - intros H. destruct (local_H gr (m_layer m) _ x g (s_slots st (m_key m))) as [[HK HC]|] eqn:EL; [|discriminate].
    unfold local_H in EL. apply bind_ok in EL as (A & EA & EL). apply bind_ok in EL as (B & EB & EL). apply bind_ok in EL as (K & _ & EL). apply bind_ok in EL as (C & _ & EL).
    apply bind_ok in EL as (hk & _ & EL). apply bind_ok in EL as (prev & Ep & EL). apply bind_ok in EL as (B' & E' & _).
    exists gr, prev. split; [exact Eg|]. split; [exact (process_accepts _ x g gr A B Fi EA EB)|]. split; [exact Ep|].
    unfold rootable. destruct (feqb prev 1) eqn:E1; [left; apply feqb_iff; exact E1|]. right. destruct (fltb prev 0); [discriminate|reflexivity].
  - intros (g' & prev & X & AC & Ep & RO). rewrite Eg in X. injection X as <-.
    destruct (process_total _ x g gr Fi AC) as (A & B & EA & EB). destruct (process_shapes _ _ _ _ _ _ _ _ _ Fi Ed EA EB) as (N & NN & SA & SB).
    pose proof T as [(K & EK & VK) (C & EC & VC) _ _ _ _]. pose proof UK as (OK & DK & _). pose proof UC as (OC & DC & _).
    assert (STA : shape (tr A) = [dK; N]) by (rewrite shape_tr, (rows_of _ _ _ SA), (cols_of _ _ _ _ SA); reflexivity).
    destruct (from_inner_some_act cK dK K (tr A) N OK DK VK STA) as (r & Er & Vr & _); [destruct cK; cbn; auto|].
    assert (LB : exists B', (if feqb prev 1 then Ok B else if fltb prev 0 then Err ValueError else Ok (t_divs B (fsqrt prev))) = Ok B' /\ shape B' = [N; dC]).
    { destruct (feqb prev 1) eqn:E1; [exists B; auto|]. destruct RO as [-> | ->]; [rewrite feqb_refl in E1; discriminate|]. eexists. split; [reflexivity|exact SB]. }
    destruct LB as (B' & EB' & SB').
    assert (STB : shape (tr B') = [dC; N]) by (rewrite shape_tr, (rows_of _ _ _ SB'), (cols_of _ _ _ _ SB'); reflexivity).
    destruct (from_inner_some_act cC dC C (tr B') N OC DC VC STB) as (q & Eq & Vq & _); [destruct cC; cbn; auto|].
    assert (EL : local_H gr (m_layer m) (get_grad_scale (s_scales st) (Z.of_nat (s_steps st) - 1)) x g (s_slots st (m_key m)) = Ok (r, q)).
    { unfold local_H. rewrite EA. cbn [bind]. rewrite EB. cbn [bind]. rewrite EK, EC. cbn [lookup bind]. rewrite Er. cbn [bind].
      rewrite Ep. cbn [bind]. rewrite EB'. cbn [bind]. rewrite Eq. reflexivity. }
    rewrite EL. destruct (store_H_typed r q _ _ _ _ _ UK UC T Vr Vq) as (hk & hc & ES & _). unfold on_slots. rewrite ES. reflexivity.
Qed.

(** ** Regular training *)

(** Is the module's update due, as the hooks see it? *)
Definition hooks (c : cfg) (st : state) (m : modul) : bool :=
  match get_group c (s_groups st) m with
  | Ok g => match is_update_step g (s_steps st) with Ok b => b | Err _ => false end
  | Err _ => false
  end.

Record inv (c : cfg) (ty : tys) (gs0 : list group) (outs : list (nat * option (modul * tensor))) (cov grads : list nat) (st : state) : Prop := mkInv {
  i_ty : all_typed c ty st;
  i_fit : pars_fit c st;
  i_so : scales_ok (s_steps st) (s_scales st);
  i_sc : Forall (fun tv => ok_scale (snd tv)) (s_scales st);
  i_amp : ok_amp (s_amp st);
  i_gs : ok_groups c gs0 (s_groups st);
  i_mom : forall m g0, In m (c_mods c) -> get_group c gs0 m = Ok g0 -> g_alpha1 g0 <> 0 ->
            sl_mK (s_slots st (m_key m)) <> None /\ sl_mC (s_slots st (m_key m)) <> None;
  i_out : forall o m x, producer outs o = Some (m, x) -> s_pend st o = if hooks c st m then Some (m, x) else None;
  i_mods : forall o m x, producer outs o = Some (m, x) -> In m (c_mods c);
  i_cov : forall m, In m (c_mods c) -> In (m_key m) cov -> hooks c st m = true ->
            sl_HK (s_slots st (m_key m)) <> None /\ sl_HC (s_slots st (m_key m)) <> None;
  i_grad : forall p, In p grads -> p_grad (s_par st p) <> None
}.

Lemma hooks_same c st t m : s_groups t = s_groups st -> s_steps t = s_steps st -> hooks c t m = hooks c st m.
Proof. intros E1 E2. unfold hooks. rewrite E1, E2. reflexivity. Qed.

Lemma hooks_due c st m g : get_group c (s_groups st) m = Ok g -> g_T g <> O -> hooks c st m = true <-> (s_steps st mod g_T g = 0)%nat.
Proof.
  intros Eg HT. unfold hooks. rewrite Eg. unfold is_update_step. destruct (Nat.eqb_spec (g_T g) 0); [contradiction|].
  destruct (Nat.eqb_spec (s_steps st mod g_T g) 0); split; auto; discriminate.
Qed.

Lemma get_scale_in P d t v : Forall (fun tv : Z * F => P (snd tv)) d -> get_grad_scale d t = Ok v -> P v.
Proof.
  induction d as [|[t' v'] d IH]; [discriminate|]. intros H E. apply Forall_cons_iff in H as [H1 H2]. cbn in E.
  destruct (Z.eqb t' t); [injection E as <-; exact H1|exact (IH H2 E)].
Qed.
Lemma put_scale_all (P : F -> Prop) d t v : Forall (fun tv : Z * F => P (snd tv)) d -> P v -> Forall (fun tv : Z * F => P (snd tv)) (put_scale d t v).
Proof.
  induction d as [|[t' v'] d IH]; intros H Pv; [constructor; [exact Pv|constructor]|]. apply Forall_cons_iff in H as [H1 H2]. cbn.
  destruct (Z.eqb t' t); constructor; auto.
Qed.
Lemma filter_all {A} (P : A -> Prop) f l : Forall P l -> Forall P (filter f l).
Proof. intros H. apply Forall_forall. intros x Hx. apply filter_In in Hx as [Hx _]. rewrite Forall_forall in H. exact (H x Hx). Qed.

Lemma ok_scale_1 : ok_scale 1.
Proof. split; [apply f1_neq_0|left; reflexivity]. Qed.

Section Regular.
Variables (c : cfg) (ty : tys) (gs0 : list group).
Hypothesis OK : cfg_ok c.
Hypothesis TO : tys_ok c ty.
Hypothesis BF : forall m, In m (c_mods c) -> bias_fits m.

Lemma keep_alloc e st outs cov grads : inv c ty gs0 outs cov grads st -> wf_event c st e ->
  forall m g0, In m (c_mods c) -> get_group c gs0 m = Ok g0 -> g_alpha1 g0 <> 0 ->
    sl_mK (s_slots (fst (event_op c e st)) (m_key m)) <> None /\ sl_mC (s_slots (fst (event_op c e st)) (m_key m)) <> None.
Proof.
  intros V W m g0 Hm Eg Na. destruct (i_mom _ _ _ _ _ _ _ V m g0 Hm Eg Na) as [M1 M2].
  destruct (event_ty c ty e st m TO (proj1 OK) (i_ty _ _ _ _ _ _ _ V) W Hm) as [_ [A1 A2]]; [apply (i_ty _ _ _ _ _ _ _ V); exact Hm|].
  split; [rewrite A1; exact M1|rewrite A2; exact M2].
Qed.

(** Calls that keep the counter, groups and scaler attributes. *)
Lemma inv_keep e st outs cov grads outs' cov' grads' :
  inv c ty gs0 outs cov grads st -> wf_event c st e -> grad_fits c e ->
  let t := fst (event_op c e st) in
  s_steps t = s_steps st -> s_groups t = s_groups st -> ok_amp (s_amp t) -> Forall (fun tv => ok_scale (snd tv)) (s_scales t) ->
  (forall o m x, producer outs' o = Some (m, x) -> In m (c_mods c)) ->
  (forall o m x, producer outs' o = Some (m, x) -> s_pend t o = if hooks c st m then Some (m, x) else None) ->
  (forall m, In m (c_mods c) -> In (m_key m) cov' -> hooks c st m = true -> sl_HK (s_slots t (m_key m)) <> None /\ sl_HC (s_slots t (m_key m)) <> None) ->
  (forall p, In p grads' -> p_grad (s_par t p) <> None) ->
  inv c ty gs0 outs' cov' grads' t.
Proof.
  intros V W GF t E1 E2 E3 E4 H0 H1 H2 H3. constructor; try assumption.
  - apply event_all_typed; [exact TO|exact (proj1 OK)|apply V|exact W].
  - apply event_fits; [apply V|exact GF].
  - unfold t. apply event_scales_ok. apply V.
  - rewrite E2. apply V.
  - exact (keep_alloc e st outs cov grads V W).
  - intros o m x P. rewrite (hooks_same c st t m E2 E1). exact (H1 o m x P).
  - intros m Hm Hc. rewrite (hooks_same c st t m E2 E1). exact (H2 m Hm Hc).
Qed.

Lemma regular_event e es st outs cov grads :
  inv c ty gs0 outs cov grads st -> regular c gs0 outs cov grads (e :: es) ->
  snd (event_op c e st) = Ok tt /\
  exists outs' cov' grads', inv c ty gs0 outs' cov' grads' (fst (event_op c e st)) /\ regular c gs0 outs' cov' grads' es.
Proof.
  intros V R. pose proof V as [V1 V2 V3 V4 V5 V6 V7 V8 V8' V9 V10]. destruct e as [m x b out|out g|p [g|]|s|a i|closure|gs]; cbn [regular] in R.
  - (* forward *)
    destruct R as [Hm R]. destruct (V6 m Hm) as (g0 & g & _ & Eg & HT & _).
    assert (EV : event_op c (EForward m x b out) st = (set_pend (upd (s_pend st) out (if b then if hooks c st m then Some (m, x) else None else None)) st, Ok tt)).
    { cbn [event_op]. unfold forward_hook, hooks, sbind, getS, modify, lift, ret. cbn [set_pend s_groups s_steps s_pend]. rewrite Eg.
      destruct b; [|reflexivity]. cbn [negb]. unfold is_update_step. destruct (Nat.eqb_spec (g_T g) 0); [contradiction|].
      destruct (Nat.eqb (s_steps st mod g_T g) 0); reflexivity. }
    split; [rewrite EV; reflexivity|]. eexists _, _, _. split; [|exact R].
    apply (inv_keep _ st outs cov grads); try exact I; try assumption; try (rewrite EV; cbn [fst]; first [reflexivity|assumption]).
    { intros o m' x' P. cbn [producer] in P. destruct (Nat.eqb out o); [|exact (V8' o m' x' P)]. destruct b; [injection P as <- _; exact Hm|discriminate]. }
    rewrite EV. cbn [fst]. intros o m' x' P. cbn [producer] in P. cbn [s_pend set_pend]. unfold upd. rewrite Nat.eqb_sym. destruct (Nat.eqb out o); [|exact (V8 o m' x' P)].
    destruct b; [injection P as <- <-; reflexivity|discriminate].
  - (* backward *)
    destruct R as (m & x & P & Fi & R). pose proof (V8 out m x P) as EP.
    assert (W : wf_event c st (EBackward out g)).
    { intros m' x' E. rewrite EP in E. destruct (hooks c st m); [|discriminate]. injection E as <- <-. exact Fi. }
    assert (EV : snd (event_op c (EBackward out g) st) = Ok tt /\ (hooks c st m = true -> In m (c_mods c) ->
       let t := fst (event_op c (EBackward out g) st) in sl_HK (s_slots t (m_key m)) <> None /\ sl_HC (s_slots t (m_key m)) <> None)).
    { destruct (hooks c st m) eqn:Eh.
      - pose proof (proj2 V1 _ _ _ EP) as Hm. destruct (V6 m Hm) as (g0 & gr & _ & Eg & HT & AC & _).
        destruct V3 as (V31 & V32 & V33). destruct (In_get _ _ V33) as (prev & Ep).
        assert (X : snd (event_op c (EBackward out g) st) = Ok tt).
        { apply (backward_outcome c ty st out m x g TO V1 EP Fi). exists gr, prev. split; [exact Eg|]. split; [exact AC|]. split; [exact Ep|].
          exact (proj2 (get_scale_in ok_scale _ _ _ V4 Ep)). }
        split; [exact X|]. intros _ _. revert X. cbn [event_op]. unfold sbind, getS. rewrite EP. unfold accumulate_H_terms, sbind, getS, lift. rewrite Eg.
        destruct (local_H _ _ _ _ _ _) as [[hk hc]|]; [|discriminate]. unfold on_slots. destruct (store_H hk hc (s_slots st (m_key m))) as [s' r] eqn:ES. cbn [snd fst s_slots set_slots].
        rewrite upd_eq. intros ->. unfold store_H, sbind, getS, lift, modify in ES.
        destruct (match sl_HK _ with Some h => add_ h hk 1 | None => Ok hk end) as [a|]; [|discriminate]. cbn [set_HK sl_HC] in ES.
        destruct (match sl_HC _ with Some h => add_ h hc 1 | None => Ok hc end) as [b|]; [|discriminate]. apply pair_equal_spec in ES as [<- _]. split; discriminate.
      - split; [|discriminate]. cbn [event_op]. unfold sbind, getS. rewrite EP. reflexivity. }
    destruct EV as [EV1 EV2]. split; [exact EV1|]. eexists _, _, _. split; [|exact R].
    assert (FR : frame (Some (m_key m)) [] st (fst (event_op c (EBackward out g) st))).
    { cbn [event_op]. unfold sbind, getS. rewrite EP. destruct (hooks c st m); [apply accumulate_frame|apply frame_refl]. }
    destruct FR as (F1 & F2 & F3 & F4 & F5 & F6 & F7 & F8 & F9).
    apply (inv_keep _ st outs cov grads); try exact I; try assumption.
    + rewrite F4. exact V5.
    + rewrite F2. exact V4.
    + intros o m' x' P'. rewrite F6. exact (V8 o m' x' P').
    + intros m' Hm' Hc Hh. destruct (Nat.eq_dec (m_key m') (m_key m)) as [Ek|Nk].
      * destruct (hooks c st m) eqn:Eh.
        -- rewrite Ek. apply EV2; [reflexivity|]. exact (proj2 V1 _ _ _ EP).
        -- destruct Hc as [Hc|Hc]. 2:{ cbn [event_op]. unfold sbind, getS. rewrite EP. exact (V9 m' Hm' Hc Hh). }
           rewrite (key_inj c m m' (proj1 OK) (V8' _ _ _ P) Hm' Ek) in Hh. congruence.
      * rewrite F8 by congruence. apply V9; try assumption. destruct Hc as [Hc|Hc]; [congruence|exact Hc].
    + intros p Hp. rewrite F9 by (intros []). exact (V10 p Hp).
  - (* gradients *)
    destruct R as [GF R]. split; [reflexivity|]. eexists _, _, _. split; [|exact R].
    apply (inv_keep _ st outs cov grads); try exact I; try assumption; try reflexivity.
    intros q Hq. cbn. unfold upd. destruct (Nat.eqb_spec q p) as [Eq|Nq]; [discriminate|]. apply V10. destruct Hq as [Hq|Hq]; [congruence|exact Hq].
  - split; [reflexivity|]. eexists _, _, _. split; [|exact R].
    apply (inv_keep _ st outs cov grads); try exact I; try assumption; try reflexivity.
    intros q Hq. apply in_remove in Hq as [Hq Nq]. cbn. rewrite upd_neq by exact Nq. exact (V10 q Hq).
  - (* scales *)
    destruct R as [OS R]. cbn [event_op]. destruct (set_current_grad_scale s st) as [t r] eqn:E.
    pose proof (set_current_grad_scale_frame _ _ _ _ E) as ((F1 & F2 & F3 & F4 & F5 & F6 & F7) & F8). split.
    + destruct V3 as (_ & _ & V33). destruct (In_get _ _ V33) as (prev & Ep).
      assert (HV : s_steps st = 0%nat -> get_grad_scale (s_scales st) (-1) = Ok prev) by (intros E0; rewrite E0 in Ep; exact Ep).
      rewrite <- E. exact (proj1 (set_scale_warning s st prev HV)).
    + eexists _, _, _. split; [|exact R]. 
      assert (ET : fst (event_op c (ESetScale s) st) = t) by (cbn [event_op]; rewrite E; reflexivity). cbn [fst]. rewrite <- ET.
      apply (inv_keep _ st outs cov grads); try exact I; try assumption; rewrite ET; try assumption; try congruence.
      * rewrite F8. apply put_scale_all; assumption.
      * intros o m x. rewrite F7. apply V8.
      * intros m. rewrite F2. apply V9.
      * intros p. rewrite F3. apply V10.
  - destruct R as [OA R]. split; [reflexivity|]. eexists _, _, _. split; [|exact R].
    apply (inv_keep _ st outs cov grads); try exact I; try assumption; reflexivity.
  - (* step *)
    destruct R as (-> & IC & IG & R).
    assert (EV : snd (step c false st) = Ok tt).
    { apply (step_outcome c ty st OK TO BF V1 V2 V3).
      assert (S : exists cur, step_scale st = Ok cur /\ ok_scale cur).
      { unfold step_scale. destruct (get_grad_scale (s_scales st) (Z.of_nat (s_steps st))) as [v|] eqn:E; [exists v; split; [reflexivity|exact (get_scale_in ok_scale _ _ _ V4 E)]|].
        destruct (s_amp st) as [[v|]|]; [exists v; auto|contradiction|]. exists 1. split; [reflexivity|exact ok_scale_1]. }
      destruct S as (cur & S1 & S2). exists cur. split; [exact S1|]. right. intros m Hm. destruct (V6 m Hm) as (g0 & g & E0 & Eg & HT & AC & AL).
      exists g. split; [exact Eg|]. split; [exact HT|]. split.
      - intros p Hp. apply V10, IG. apply in_flat_map. exists m. auto.
      - intros Ht. cbv zeta. destruct (V9 m Hm) as [S3 S4]; [apply IC, in_map; exact Hm|apply (hooks_due c st m g Eg HT); exact Ht|].
        split; [exact S3|]. split; [exact S4|]. split; [exact (proj1 S2)|]. intros Na. exact (V7 m g0 Hm E0 (AL Na)). }
    split; [exact EV|]. exists [], [], grads. split; [|exact R]. cbn [event_op]. destruct (step c false st) as [t r] eqn:E. cbn [snd] in EV. subst r.
    assert (ET : fst (event_op c (EStep false) st) = t) by (cbn [event_op]; rewrite E; reflexivity). cbn [fst]. rewrite <- ET.
    assert (SC' : Forall (fun tv => ok_scale (snd tv)) (s_scales t) /\ s_amp t = s_amp st /\ s_groups t = s_groups st /\ grads_kept st t).
    { apply step_cases in E as [(X & _)|(_ & st1 & [(e & _ & _ & X)|(E & D)])]; try discriminate.
      pose proof (ensure_scale_frame _ _ _ E) as ((F1 & F2 & F3 & F4 & F5 & F6 & F7) & _).
      assert (S1 : Forall (fun tv => ok_scale (snd tv)) (s_scales st1)).
      { unfold ensure_scale, sbind, getS, ret, raise in E. destruct (get_grad_scale (s_scales st) _); [injection E as <-; exact V4|].
        destruct (s_amp st) as [[v|]|]; [|discriminate|]; apply set_current_grad_scale_frame in E as (_ & ->); apply put_scale_all; try exact V4; [exact V5|exact ok_scale_1]. }
      destruct D as [(_ & _ & ->)|(_ & st2 & r2 & ES & D)].
      - unfold finish. cbn. split; [apply filter_all; exact S1|]. split; [exact F5|]. split; [exact F4|]. intros p. cbn. rewrite F3. reflexivity.
      - pose proof (steps_frame _ _ _ _ _ ES) as (G1 & G2 & G3 & G4 & _). destruct r2; destruct D as [X ->]; [|discriminate].
        unfold finish. cbn. rewrite G2. split; [apply filter_all; exact S1|]. split; [congruence|]. split; [congruence|].
        assert (K : grads_kept st1 st2).
        { apply (keeps_at _ (step_all c) st1 st2 (Ok a)); [|exact ES]. unfold step_all. apply keeps_forS; [apply gk_refl|apply gk_trans|]. intros m' _. apply step_module_gk. }
        intros p. cbn. rewrite K, F3. reflexivity. }
    destruct SC' as (S1 & S2 & S3 & S4). constructor.
    + apply event_all_typed; [exact TO|exact (proj1 OK)|apply V|exact I].
    + apply event_fits; [exact V2|exact I].
    + apply event_scales_ok. exact V3.
    + rewrite ET. exact S1.
    + rewrite ET, S2. exact V5.
    + rewrite ET, S3. exact V6.
    + exact (keep_alloc (EStep false) st outs cov grads V I).
    + intros o m x P. discriminate.
    + intros o m x P. discriminate.
    + intros m _ [].
    + intros p Hp. rewrite ET, S4. exact (V10 p Hp).
  - (* groups *)
    destruct R as (-> & -> & OG & R). split; [reflexivity|]. exists [], [], grads. split; [|exact R].
    constructor; try assumption; [|intros m _ []]. intros o m x P. discriminate.
Qed.

Lemma regular_run es st outs cov grads :
  inv c ty gs0 outs cov grads st -> regular c gs0 outs cov grads es -> Forall (fun r => r = Ok tt) (outcomes c es st).
Proof.
  revert st outs cov grads. induction es as [|e es IH]; intros st outs cov grads V R; [constructor|].
  destruct (regular_event e es st outs cov grads V R) as (E & outs' & cov' & grads' & V' & R'). cbn [outcomes].
  destruct (event_op c e st) as [t r]. constructor; [exact E|]. exact (IH t outs' cov' grads' V' R').
Qed.
End Regular.

Lemma setting_inv a par c st0 :
  setting a par c st0 -> torch_shapes par c -> sound_call a c (s_groups st0) ->
  cfg_ok c /\ tys_ok c (ctor_ty c (s_groups st0)) /\ inv c (ctor_ty c (s_groups st0)) (s_groups st0) [] [] [] st0.
Proof.
  intros S (BF & PF) (GF & SF). pose proof (setting_ok _ _ _ _ S) as [OK L]. destruct S as ((h & h' & E) & _ & _ & _ & SO).
  destruct (ctor_typed _ _ _ _ _ _ E (proj1 OK) SO L) as (TO & TA & M). split; [exact OK|]. split; [exact TO|].
  pose proof (ctor_state _ _ _ _ _ _ E) as (E1 & E2 & E3 & E4 & E5 & E6 & E7). constructor.
  - exact TA.
  - intros m p Hm Hp. rewrite E7. destruct (PF m p Hm Hp) as [P1 P2]. split; [exact P1|]. split; [exact P2|]. intros b X. discriminate.
  - rewrite E1, E2. split; [repeat constructor; intros []|]. split; [|left; reflexivity]. intros k [<-|[]]. left. reflexivity.
  - rewrite E2. constructor; [exact SF|constructor].
  - rewrite E3. exact I.
  - intros m Hm. destruct (M m Hm) as (g & cK & cC & dK & dC & K & C & Eg & _). exists g, g. split; [exact Eg|]. split; [exact Eg|].
    destruct (GF m g Hm Eg) as [G1 G2]. split; [exact G1|]. split; [|auto]. pose proof (ctor_ok _ _ _ _ _ _ E) as (V & _ & EG).
    assert (HN : exists i, nth_error (s_groups st0) i = Some g).
    { unfold get_group in Eg. destruct (m_layer m); try discriminate; (destruct (c_p2g c (m_weight m)) as [i|]; [|discriminate]);
        exists i; (destruct (nth_error (s_groups st0) i); congruence). }
    destruct HN as (i & HN). destruct (proj1 (ctor_groups _ _ _ _ _ _ E) i g HN) as ((g' & Es & SH) & _).
    destruct V as (_ & _ & _ & _ & KV & _). destruct (KV i g' Es) as [K1 K2]. unfold same_hyper in SH.
    destruct SH as (_ & _ & _ & _ & _ & H6 & _ & _ & H9 & _). split; [congruence|]. split; [congruence|exact G2].
  - intros m g0 Hm Eg Na. destruct (M m Hm) as (g & cK & cC & dK & dC & K & C & Eg' & _ & _ & _ & _ & _ & _ & _ & MM & _).
    rewrite Eg in Eg'. injection Eg' as <-. destruct (feqb (g_alpha1 g0) 0) eqn:Ea; [apply feqb_iff in Ea; contradiction|].
    destruct MM as (mK & mC & -> & -> & _). split; discriminate.
  - intros o m x P. discriminate.
  - intros o m x P. discriminate.
  - intros m _ [].
  - intros p [].
Qed.

Lemma regular_quiet a par c st0 es :
  setting a par c st0 -> torch_shapes par c -> sound_call a c (s_groups st0) -> regular c (s_groups st0) [] [] [] es ->
  Forall (fun r => r = Ok tt) (outcomes c es st0).
Proof.
  intros S TS SC0 R. destruct (setting_inv a par c st0 S TS SC0) as (OK & TO & V).
  exact (regular_run c _ _ OK TO (proj1 TS) es st0 [] [] [] V R).
Qed.

(** States reached by any history, also by one with failing calls. *)
Lemma setting_facts a par c st0 es :
  setting a par c st0 -> torch_shapes par c -> wf_run c es st0 -> Forall (grad_fits c) es ->
  let st := run c es st0 in let ty := ctor_ty c (s_groups st0) in
  cfg_ok c /\ tys_ok c ty /\ all_typed c ty st /\ pars_fit c st /\ scales_ok (s_steps st) (s_scales st).
Proof.
  intros S (BF & PF) W GF. cbv zeta. pose proof (setting_ok _ _ _ _ S) as [OK L]. destruct (setting_typed _ _ _ _ es S W) as [TO TA].
  split; [exact OK|]. split; [exact TO|]. split; [exact TA|]. destruct S as ((h & h' & E) & _).
  pose proof (ctor_state _ _ _ _ _ _ E) as (E1 & E2 & _ & _ & _ & _ & E7). split.
  - apply run_fits; [|exact GF]. intros m p Hm Hp. rewrite E7. destruct (PF m p Hm Hp) as [P1 P2]. split; [exact P1|]. split; [exact P2|]. intros b X. discriminate.
  - apply run_scales_ok. rewrite E1, E2. split; [repeat constructor; intros []|]. split; [|left; reflexivity]. intros k [<-|[]]. left. reflexivity.
Qed.

Lemma setting_step a par c st0 es :
  setting a par c st0 -> torch_shapes par c -> wf_run c es st0 -> Forall (grad_fits c) es ->
  let st := run c es st0 in
  snd (step c false st) = Ok tt <-> exists cur, step_scale st = Ok cur /\ (s_inf st = true \/ forall m, In m (c_mods c) -> ready c st cur m).
Proof.
  intros S TS W GF. destruct (setting_facts a par c st0 es S TS W GF) as (OK & TO & TA & PF & SO).
  exact (step_outcome c _ _ OK TO (proj1 TS) TA PF SO).
Qed.

Lemma setting_backward a par c st0 es out m x g :
  setting a par c st0 -> torch_shapes par c -> wf_run c es st0 -> Forall (grad_fits c) es ->
  let st := run c es st0 in
  s_pend st out = Some (m, x) -> fits (m_layer m) x g ->
  snd (event_op c (EBackward out g) st) = Ok tt <-> backward_ready c st m.
Proof.
  intros S TS W GF st EP Fi. destruct (setting_facts a par c st0 es S TS W GF) as (OK & TO & TA & PF & SO).
  exact (backward_outcome c _ _ out m x g TO TA EP Fi).
Qed.

End Progress.
