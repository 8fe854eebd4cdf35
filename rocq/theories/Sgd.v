(** Lemmas: with preconditioner learning rate 0 the preconditioners stay the identity and the optimizer is
    plain stochastic gradient descent. *)

From Coq Require Import List Arith Lia Bool ZArith Field.
From Verif Require Import Scalar Res Tensor TensorFacts Structures StructSpec StructDense StructOps StructAct OptimUtils UtilsFacts ProofUtils Optimizer Construct OptState OptRun OptSpec OptFacts OptConsume OptDir OptTyped OptStep OptMom OptNorm ProgressSpec Progress ScaleInv SgdSpec.
Import ListNotations.

Section Sgd.
Context {SC : Scalar} {FL : FieldLaws SC}.
Add Field Ffsg : F_ft.
Open Scope F_scope.

(** ** Preconditioners *)

Definition unit_pre (dK dC : nat) (s : slots) : Prop :=
  (forall K, sl_K s = Some K -> eqm dK (ent K) ident) /\ (forall C, sl_C s = Some C -> eqm dC (ent C) ident).

Lemma zero_rate g n m b : lr_cov_at g n = 0 -> normalized_lr g (lr_cov_at g n) m = Ok b -> b = 0.
Proof.
  intros -> H. unfold normalized_lr in H. destruct (g_normalize g); [|injection H as <-; reflexivity].
  apply bind_ok in H as (v & _ & H). injection H as <-. rewrite (Fdiv_def F_ft). ring.
Qed.

Lemma precond_zero n K m : eqm n K ident -> eqm n (precond_of n K m 0) ident.
Proof.
  intros E i j Hi Hj. unfold precond_of. transitivity (mmm n ident ident i j); [|apply mmm_ident_l; exact Hi].
  unfold mmm. apply sum_ext. intros k Hk. rewrite (E i k Hi Hk). ring.
Qed.

Lemma unit_dropped dK dC s s' : sl_K s' = sl_K s -> sl_C s' = sl_C s -> unit_pre dK dC s -> unit_pre dK dC s'.
Proof. intros E1 E2 [H1 H2]. split; [rewrite E1; exact H1|rewrite E2; exact H2]. Qed.

Ltac open_upd Eu := unfold update_slots; unfold sbind at 1, lift at 1; rewrite Eu; cbn [negb]; unfold sbind, entry, modify, lift.

Lemma update_slots_unit g l n scales s cK cC dK dC :
  usable cK dK -> usable cC dC -> preconditioner_dims l = Ok (dK, dC) -> typed cK cC dK dC s ->
  lr_cov_at g n = 0 -> unit_pre dK dC s -> unit_pre dK dC (fst (update_slots g l n scales s)).
Proof.
  intros UK UC Ed T Z U. pose proof UK as (OK & DK & HhK & NK). pose proof UC as (OC & DC & HhC & NC).
  pose proof T as [(K & EK & VK) (C & EC & VC) TmK TmC THK THC].
  set (P := fun r : slots * res unit => unit_pre dK dC (fst r)).
  change (P (update_slots g l n scales s)).
  assert (P0 : forall r, P (s, r)) by (intros r; exact U).
  assert (P1 : forall r, P (set_HK None s, r)) by (intros r; exact U).
  assert (P2 : forall r, P (set_HC None (set_HK None s), r)) by (intros r; exact U).
  destruct (is_update_step g n) as [[|]|] eqn:Eu.
  2:{ unfold update_slots, sbind at 1, lift. rewrite Eu. apply P0. }
  2:{ unfold update_slots, sbind at 1, lift. rewrite Eu. apply P0. }
  assert (Eu' : g_T g <> O /\ (n mod g_T g = 0)%nat).
  { unfold is_update_step in Eu. destruct (Nat.eqb_spec (g_T g) 0); [discriminate|]. split; [assumption|].
    destruct (Nat.eqb_spec (n mod g_T g) 0); [assumption|discriminate]. }
  destruct (sl_HK s) as [HK|] eqn:EHK.
  2:{ open_upd Eu. rewrite EK, EC, EHK. cbn [lookup]. apply P0. }
  destruct (sl_HC s) as [HC|] eqn:EHC.
  2:{ open_upd Eu. rewrite EK, EC, EHK. cbn [lookup set_HK sl_HC]. rewrite EHC. cbn [lookup]. apply P1. }
  destruct (get_grad_scale scales (Z.of_nat n - 1)) as [prev|] eqn:Ep.
  2:{ open_upd Eu. rewrite EK, EC, EHK. cbn [lookup set_HK sl_HC]. rewrite EHC. cbn [lookup]. rewrite Ep. apply P2. }
  destruct (get_grad_scale scales (Z.of_nat n)) as [cur|] eqn:Ec.
  2:{ open_upd Eu. rewrite EK, EC, EHK. cbn [lookup set_HK sl_HC]. rewrite EHC. cbn [lookup]. rewrite Ep, Ec. apply P2. }
  destruct (feqb_spec cur 0) as [[_ E0]|[N0 E0]].
  { open_upd Eu. unfold grad_unscaling. rewrite EK, EC, EHK. cbn [lookup set_HK sl_HC]. rewrite EHC. cbn [lookup]. rewrite Ep, Ec, E0. apply P2. }
  assert (R : moms_ready g cK cC dK dC s \/ g_alpha1 g <> 0 /\ (sl_mC s = None \/ exists mC, sl_mC s = Some mC /\ valid cC dC mC /\ sl_mK s = None)).
  { destruct (feqb_spec (g_alpha1 g) 0) as [[Ea _]|[Na _]]; [left; left; exact Ea|].
    destruct (sl_mC s) as [mC|] eqn:EmC; [|right; auto]. destruct (sl_mK s) as [mK|] eqn:EmK.
    - left. right. exists mK, mC. auto.
    - right. split; [exact Na|]. right. exists mC. auto. }
  destruct R as [R|[Na R]].
  - destruct (update_slots_act g l n scales s cK cC dK dC K C HK HC prev cur UK UC Ed (proj1 Eu') (proj2 Eu') EK EC EHK EHC VK VC (THK _ eq_refl) (THC _ eq_refl) R Ep Ec N0)
      as (K' & C' & mK' & mC' & bK & bC & E & _ & _ & _ & _ & B1 & B2 & _ & _ & F1 & F2). rewrite E. unfold P. cbn [fst].
    apply (zero_rate _ _ _ _ Z) in B1. apply (zero_rate _ _ _ _ Z) in B2. subst bK bC. destruct U as [U1 U2].
    split; intros X HX; injection HX as <-; intros i j Hi Hj; [rewrite F1|rewrite F2]; try assumption; apply precond_zero; try assumption; auto.
  - destruct (new_momenta_act g l K C HK HC (prev / (cur * cur)) cK cC dK dC UK UC Ed VK VC (THK _ eq_refl) (THC _ eq_refl))
      as (nK & nC & En & VnK & VnC & _).
    open_upd Eu. unfold grad_unscaling. rewrite EK, EC, EHK. cbn [lookup set_HK sl_HC]. rewrite EHC.
    cbn [lookup]. rewrite Ep, Ec, E0, En. unfold apply_momenta. rewrite (feqb_false _ _ Na).
    unfold sbind, entry, modify, lift. cbn [set_HC set_HK sl_mC sl_mK]. destruct R as [-> | (mC & -> & VmC & ->)]; cbn [lookup].
    + apply P2.
    + destruct (add__ok cC dC nC mC (g_alpha1 g) OC VnC VmC) as (r & -> & _). apply P2.
Qed.

(** One module: within a step groups and counter do not change; the preconditioners stay the identity if the rate is 0. *)
Definition mod_unit (ty : tys) (m : modul) (st : state) : Prop := let '(_, _, dK, dC) := ty m in unit_pre dK dC (s_slots st (m_key m)).
Definition rate0 (st : state) : Prop := Forall (fun g => lr_cov_at g (s_steps st) = 0) (s_groups st).
Definition stays (ty : tys) (m : modul) (s t : state) : Prop :=
  rate0 s -> mod_typed ty m s -> mod_unit ty m s -> rate0 t /\ mod_typed ty m t /\ mod_unit ty m t.
Lemma stays_refl ty m s : stays ty m s s.
Proof. intros H1 H2 H3. auto. Qed.
Lemma stays_trans ty m a b c : stays ty m a b -> stays ty m b c -> stays ty m a c.
Proof. intros H1 H2 A1 A2 A3. destruct (H1 A1 A2 A3) as (B1 & B2 & B3). auto. Qed.
Lemma stays_frame ty m s t : s_groups t = s_groups s -> s_steps t = s_steps s -> s_slots t (m_key m) = s_slots s (m_key m) -> stays ty m s t.
Proof. intros E1 E2 E3 A1 A2 A3. unfold rate0, mod_typed, mod_unit in *. rewrite E1, E2, E3. auto. Qed.

Lemma step_module_stays c ty m m' :
  tys_ok c ty -> In m (c_mods c) -> m_key m' <> m_key m \/ m' = m -> keeps (stays ty m) (step_module c m').
Proof.
  intros TO Hm [D| ->].
  - intros s. destruct (step_module_frame c m' s) as (F1 & _ & F3 & _ & _ & _ & _ & F & _). apply stays_frame; [exact F3|exact F1|apply F; congruence].
  - unfold step_module. apply keeps_bind; [apply stays_trans| |].
    + intros s Z T U. unfold update_preconditioner, sbind, getS, lift. destruct (get_group c (s_groups s) m) as [g|] eqn:Eg; [|auto].
      assert (Zg : lr_cov_at g (s_steps s) = 0). { unfold rate0 in Z. rewrite Forall_forall in Z. apply Z. apply get_group_In in Eg. exact Eg. }
      specialize (TO m Hm). unfold mod_typed, mod_unit, rate0 in *. destruct (ty m) as [[[cK cC] dK] dC]. destruct TO as (UK & UC & Ed).
      unfold on_slots. destruct (update_slots_typed g (m_layer m) (s_steps s) (s_scales s) _ _ _ _ _ UK UC Ed T) as [T' _].
      pose proof (update_slots_unit g (m_layer m) (s_steps s) (s_scales s) _ _ _ _ _ UK UC Ed T Zg U) as U'.
      destruct (update_slots _ _ _ _ _) as [s' r]. cbn in *. rewrite upd_eq. auto.
    + intros _. assert (OP : forall p (f : SM pslot unit), keeps (stays ty m) (on_par p f)).
      { intros p f s0. unfold on_par. destruct (f (s_par s0 p)). cbn. apply stays_frame; reflexivity. }
      apply keeps_bind; [apply stays_trans| |].
      { unfold compute_natural_gradient. apply keeps_bind; [apply stays_trans|apply keeps_getS; apply stays_refl|]. intros s0.
        apply keeps_bind; [apply stays_trans|apply keeps_lift; apply stays_refl|]. intros N. apply keeps_lift. apply stays_refl. }
      intros [w b]. apply keeps_bind; [apply stays_trans|apply keeps_getS; apply stays_refl|]. intros s0.
      apply keeps_bind; [apply stays_trans|apply keeps_lift; apply stays_refl|]. intros g0.
      apply keeps_bind; [apply stays_trans|apply OP|]. intros _.
      destruct (m_bias m); [|apply keeps_ret; apply stays_refl]. destruct b; [apply OP|apply keeps_ret; apply stays_refl].
Qed.

Lemma same_pre_unit ty m s t : same_pre (s_slots s (m_key m)) (s_slots t (m_key m)) -> mod_unit ty m s -> mod_unit ty m t.
Proof. intros E U. unfold mod_unit in *. destruct (ty m) as [[[cK cC] dK] dC]. destruct E as (E1 & E2 & _). eapply unit_dropped; [| |exact U]; congruence. Qed.

Lemma event_unit c ty e st m :
  cfg_ok c -> tys_ok c ty -> all_typed c ty st -> wf_event c st e -> In m (c_mods c) ->
  (forall b, e = EStep b -> rate0 st) -> mod_unit ty m st -> mod_unit ty m (fst (event_op c e st)).
Proof.
  intros OK TO TA W Hm Z U. destruct e; try exact U.
  - cbn [event_op]. destruct (forward_frame c m0 x grad_on out st) as (E & _). rewrite E. exact U.
  - cbn [event_op]. unfold sbind, getS. destruct (s_pend st out) as [[m0 x]|]; [|exact U].
    eapply same_pre_unit; [|exact U]. apply accumulate_same.
  - cbn [event_op]. destruct (set_current_grad_scale s st) as [st' r] eqn:E. apply set_current_grad_scale_frame in E as ((_ & E & _) & _).
    unfold mod_unit in *. cbn [fst]. rewrite E. exact U.
  - cbn [event_op]. destruct (step c closure st) as [st' r] eqn:E. cbn [fst]. specialize (Z _ eq_refl). destruct TA as [TA _]. specialize (TA m Hm).
    apply step_cases in E as [(_ & -> & _)|(_ & st1 & [(e0 & E & -> & _)|(E & D)])]; [exact U| |].
    + apply ensure_scale_frame in E as ((_ & E & _) & _). unfold mod_unit in *. rewrite E. exact U.
    + apply ensure_scale_frame in E as ((E1 & E2 & _ & E3 & _) & _).
      destruct (stays_frame ty m st st1 E3 E1 (f_equal (fun f => f (m_key m)) E2) Z TA U) as (Z1 & T1 & U1).
      destruct D as [(_ & _ & ->)|(_ & st2 & r2 & ES & D)].
      * eapply same_pre_unit; [|exact U1]. unfold finish. cbn [s_slots set_scales set_steps]. apply (drop_H_same c (set_log (s_log st1 ++ [WarnInf]) st1)).
      * assert (K2 : stays ty m st1 st2).
        { apply (keeps_at _ (step_all c) st1 st2 r2); [|exact ES]. unfold step_all. apply keeps_forS; [apply stays_refl|apply stays_trans|].
          intros m' Hm'. apply step_module_stays; [exact TO|exact Hm|]. apply (same_key (c_mods c)); [apply OK|assumption|assumption]. }
        destruct (K2 Z1 T1 U1) as (_ & _ & U2). destruct r2; destruct D as [_ ->]; exact U2.
Qed.

Lemma run_unit c ty es st m :
  cfg_ok c -> tys_ok c ty -> all_typed c ty st -> wf_run c es st -> In m (c_mods c) -> frozen c es st -> mod_unit ty m st -> mod_unit ty m (run c es st).
Proof.
  intros OK TO. revert st. induction es as [|e es IH]; intros st TA W Hm Z U; [exact U|]. destruct W as [W1 W2]. destruct Z as [Z1 Z2]. cbn [run].
  apply IH; try assumption; [apply event_all_typed; try assumption; apply OK|apply event_unit; assumption].
Qed.

(** ** One parameter *)

Lemma unit_rent c n s : valid c n s -> eqm n (ent s) ident -> eqm n (rent s) ident.
Proof.
  intros V E i j Hi Hj. unfold rent. destruct s; try (rewrite (E j i Hj Hi); unfold ident; rewrite Nat.eqb_sym; reflexivity). apply E; assumption.
Qed.

Lemma unit_dir nC nK C Ct K Kt G s i j :
  eqm nC C ident -> eqm nC Ct ident -> eqm nK K ident -> eqm nK Kt ident -> (i < nC)%nat -> (j < nK)%nat ->
  dir_of nC nK C Ct K Kt G s i j = G i j / s.
Proof.
  intros E1 E2 E3 E4 Hi Hj. unfold dir_of.
  assert (I : forall n (A : mat) (f : nat -> F) i, eqm n A ident -> (i < n)%nat -> sum n (fun k => A i k * f k) = f i).
  { intros n A f i0 E H0. rewrite (sum_single n i0 _ H0); [rewrite (E i0 i0 H0 H0); unfold ident; rewrite Nat.eqb_refl; ring|].
    intros k Hk N. rewrite (E i0 k H0 Hk). unfold ident. destruct (Nat.eqb_spec i0 k); [congruence|ring]. }
  rewrite (I nC C _ i E1 Hi). rewrite (I nC Ct _ i E2 Hi). rewrite (I nK K _ j E3 Hj). rewrite (I nK Kt _ j E4 Hj). reflexivity.
Qed.

Lemma nth_divs t s k : nth k (data (t_divs t s)) 0 = nth k (data t) 0 / s.
Proof.
  unfold t_divs. rewrite data_t_map. rewrite <- (map_nth (fun x => x / s)). f_equal. rewrite (Fdiv_def F_ft). ring.
Qed.

(** The scaled gradient as a matrix. *)
Lemma divided l wg bg s G :
  supported l -> shape wg = weight_shape l ->
  match bg with Some b => has_bias l = true /\ shape b = [n_out l] | None => has_bias l = false end ->
  grad_matrix l wg bg = Ok G ->
  split_matrix l (tab2 (rows G) (cols G) (fun i j => get2 G i j / s)) = Ok (t_divs wg s, option_map (fun b => t_divs b s) bg).
Proof.
  intros Hs Hw Hb EG.
  destruct (C49_gradient_matrix_lemma l wg bg Hs Hw Hb) as (M & EM & DM & SM0 & W1 & W2 & _). rewrite EG in EM. injection EM as <-.
  destruct (C49_gradient_matrix_lemma l (t_divs wg s) (option_map (fun b => t_divs b s) bg) Hs Hw) as (M' & EM' & DM' & SM' & W1' & W2' & SP).
  { destruct bg; exact Hb. }
  assert (ER : rows M' = rows G /\ cols M' = cols G) by (rewrite DM in DM'; injection DM' as -> ->; auto). destruct ER as [ER EC].
  replace (tab2 (rows G) (cols G) (fun i j => get2 G i j / s)) with M'; [exact SP|].
  rewrite <- (tab2_eta _ _ M' SM'), ER, EC. apply tab2_ext. intros i j Hi Hj.
  rewrite (C49_dims_lemma l Hs) in DM. injection DM as DC DR. rewrite <- DR in Hi. rewrite <- DC in Hj.
  destruct bg as [b|].
  - destruct Hb as [HB SB]. rewrite HB in Hj. destruct (Nat.eq_dec j (fan l)) as [->|NJ].
    + rewrite (W2' (t_divs b s) i eq_refl Hi), (W2 b i eq_refl Hi). unfold get1, t_divs, t_map. rewrite tget_tab; [reflexivity|]. rewrite SB. apply in_range1. exact Hi.
    + rewrite W1', W1 by (try assumption; lia). apply nth_divs.
  - rewrite Hb in Hj. rewrite W1', W1 by assumption. apply nth_divs.
Qed.

Lemma sgd_par_eq g p sh gr cur p' :
  slot_fits sh p -> p_grad p = Some gr -> param_step g (t_divs gr cur) p = (p', Ok tt) ->
  p' = sgd_par (g_lr g) (g_momentum g) (g_wd g) cur p.
Proof.
  intros (S1 & S2 & S3) EG H. specialize (S2 _ EG). unfold sgd_par. rewrite EG.
  unfold param_step in H. unfold sbind at 1, getS in H. apply sbind_ok in H as (p1 & d & E1 & H). unfold lift in E1. injection E1 as <- E1.
  assert (SD : shape (t_divs gr cur) = sh) by exact S2.
  assert (D : shape d = sh /\ forall idx, in_range sh idx -> tget d idx = tget gr idx / cur + g_wd g * tget (p_val p) idx).
  { destruct (feqb_spec (g_wd g) 0) as [[E0 E2]|[N0 E2]]; rewrite E2 in E1.
    - injection E1 as <-. split; [exact SD|]. intros idx Hi. rewrite E0. unfold t_divs, t_map. rewrite tget_tab by (rewrite S2; exact Hi). ring.
    - unfold t_add_alpha, t_map2 in E1. rewrite SD, S1, shape_eqb_refl in E1. injection E1 as <-. split; [reflexivity|]. intros idx Hi.
      rewrite tget_tab by exact Hi. unfold t_divs, t_map. rewrite tget_tab by (rewrite S2; exact Hi). ring. }
  destruct D as [Sd D]. destruct (feqb_spec (g_momentum g) 0) as [[E0 E2]|[N0 E2]]; rewrite E2 in H |- *.
  - apply sbind_ok in H as (p2 & v & E3 & H). unfold lift in E3. injection E3 as <- E3. unfold t_add_alpha, t_map2 in E3. rewrite S1, Sd, shape_eqb_refl in E3.
    injection E3 as <-. unfold modify in H. injection H as <-. rewrite S1, EG. f_equal. apply tab_ext. intros idx Hi. rewrite D by exact Hi. ring.
  - apply sbind_ok in H as (p2 & [] & E3 & H). unfold modify in E3. injection E3 as <-.
    set (buf0 := t_scale (g_momentum g) (match p_buf p with Some b => b | None => zeros (shape (p_val p)) end)) in *.
    assert (SB : shape buf0 = sh) by (unfold buf0, t_scale, t_map; cbn; destruct (p_buf p) as [b|]; [apply S3; reflexivity|exact S1]).
    assert (B0 : forall idx, in_range sh idx -> tget buf0 idx = g_momentum g * match p_buf p with Some b => tget b idx | None => 0 end).
    { intros idx Hi. unfold buf0, t_scale, t_map. destruct (p_buf p) as [b|].
      - rewrite tget_tab by (rewrite (S3 b eq_refl); exact Hi). reflexivity.
      - cbn [shape zeros tab]. rewrite tget_tab by (rewrite S1; exact Hi). unfold zeros. rewrite tget_tab by (rewrite S1; exact Hi). reflexivity. }
    apply sbind_ok in H as (p3 & buf & E4 & H). unfold lift in E4. injection E4 as <- E4. unfold t_add, t_map2 in E4. rewrite SB, Sd, shape_eqb_refl in E4. injection E4 as <-.
    apply sbind_ok in H as (p4 & [] & E5 & H). unfold modify in E5. injection E5 as <-.
    apply sbind_ok in H as (p5 & v & E6 & H). unfold lift in E6. injection E6 as <- E6. unfold t_add_alpha, t_map2 in E6. cbn [shape tab] in E6. rewrite S1, shape_eqb_refl in E6.
    injection E6 as <-. unfold modify in H. cbn [p_val p_grad p_buf] in H. injection H as <-. rewrite S1, EG. 
    assert (B : forall idx, in_range sh idx -> tget buf0 idx + tget d idx =
       g_momentum g * match p_buf p with Some b => tget b idx | None => 0 end + (tget gr idx / cur + g_wd g * tget (p_val p) idx)).
    { intros idx Hi. rewrite B0, D by exact Hi. reflexivity. }
    f_equal; [|f_equal; apply tab_ext; exact B]. apply tab_ext. intros idx Hi. rewrite tget_tab by exact Hi. rewrite B by exact Hi. ring.
Qed.

(** ** A successful step *)

Lemma group_of_mod c gs m p :
  NoDup (flat_map mod_params (c_mods c)) -> In m (c_mods c) -> In p (mod_params m) ->
  group_of (trained c) gs p = match c_p2g c (m_weight m) with Some i => nth_error gs i | None => None end.
Proof.
  intros ND Hm Hp. unfold trained. revert ND Hm. generalize (c_mods c). induction l as [|m0 l IH]; intros ND Hm; [destruct Hm|].
  cbn [flat_map] in *. fold (mod_params m0).
  assert (A : forall ps l' i, group_of (map (fun q => (q, i)) ps ++ l') gs p =
     if existsb (Nat.eqb p) ps then match i with Some i => nth_error gs i | None => None end else group_of l' gs p).
  { induction ps as [|q ps IHp]; intros l' i; [reflexivity|]. cbn [map app group_of existsb]. rewrite (Nat.eqb_sym p q). destruct (Nat.eqb q p); [reflexivity|]. apply IHp. }
  change (m_weight m0 :: match m_bias m0 with Some b => [b] | None => [] end) with (mod_params m0). rewrite A.
  destruct (existsb (Nat.eqb p) (mod_params m0)) eqn:EX.
  - apply existsb_exists in EX as (q & Hq & E). apply Nat.eqb_eq in E. subst q. destruct Hm as [->|Hm]; [reflexivity|]. exfalso.
    clear - ND Hm Hp Hq. induction (mod_params m0) as [|x xs IHx]; [destruct Hq|]. cbn in ND. apply NoDup_cons_iff in ND as [N1 N2]. destruct Hq as [->|Hq].
    + apply N1. apply in_app_iff. right. apply in_flat_map. exists m. auto.
    + exact (IHx N2 Hq).
  - destruct Hm as [->|Hm].
    + exfalso. assert (X : existsb (Nat.eqb p) (mod_params m) = true) by (apply existsb_exists; exists p; split; [exact Hp|apply Nat.eqb_refl]). congruence.
    + apply IH; [|exact Hm]. apply nodup_r in ND. exact ND.
Qed.

Lemma group_of_other c gs p : ~ In p (flat_map mod_params (c_mods c)) -> group_of (trained c) gs p = None.
Proof.
  unfold trained. generalize (c_mods c). induction l as [|m l IH]; intros H; [reflexivity|]. cbn [flat_map] in *.
  assert (A : forall ps l' i, ~ In p ps -> group_of (map (fun q => (q, i)) ps ++ l') gs p = group_of l' gs p).
  { induction ps as [|q ps IHp]; intros l' i N; [reflexivity|]. cbn [map app group_of]. destruct (Nat.eqb_spec q p) as [->|_]; [exfalso; apply N; left; reflexivity|].
    apply IHp. intros X. apply N. right. exact X. }
  rewrite A; [apply IH|]; intros X; apply H; apply in_app_iff; auto.
Qed.

Lemma get_err (d : list (Z * F)) t e : get_grad_scale d t = Err e -> e = KeyError.
Proof. induction d as [|[t' v] d IH]; cbn; [congruence|]. destruct (Z.eqb t' t); [discriminate|exact IH]. Qed.

Definition sim (st : state) (s : sgd) : Prop :=
  (forall p, s_par st p = w_par s p) /\ s_groups st = w_groups s /\ s_amp st = w_amp s /\ s_inf st = w_inf s /\
  get_grad_scale (s_scales st) (Z.of_nat (s_steps st)) = match w_scale s with Some v => Ok v | None => Err KeyError end.

Lemma sim_scale st s cur : sim st s -> step_scale st = Ok cur -> cur = sgd_scale s.
Proof.
  intros (_ & _ & EA & _ & ES) H. unfold step_scale in H. rewrite ES, EA in H. unfold sgd_scale. destruct (w_scale s); [congruence|].
  destruct (w_amp s) as [[v|]|]; congruence.
Qed.

Lemma step_param c ty st st' m p cur :
  cfg_ok c -> tys_ok c ty -> all_typed c ty st -> pars_fit c st -> (forall m, In m (c_mods c) -> bias_fits m) -> In m (c_mods c) -> In p (mod_params m) ->
  rate0 st -> mod_unit ty m st -> s_inf st = false -> step c false st = (st', Ok tt) -> step_scale st = Ok cur ->
  exists g, get_group c (s_groups st) m = Ok g /\ s_par st' p = sgd_par (g_lr g) (g_momentum g) (g_wd g) cur (s_par st p).
Proof.
  intros OK TO TA PF BF Hm Hp Z U Hi H Ecur.
  pose proof (event_all_typed c ty (EStep false) st TO (proj1 OK) TA I) as TA'. cbn [event_op] in TA'. rewrite H in TA'. cbn [fst] in TA'.
  pose proof (event_unit c ty (EStep false) st m OK TO TA I Hm (fun _ _ => Z) U) as U'. cbn [event_op] in U'. rewrite H in U'. cbn [fst] in U'.
  pose proof (TO m Hm) as TOm. destruct TA' as [TA' _]. pose proof (TA' m Hm) as T. unfold mod_typed, mod_unit in *. destruct (ty m) as [[[cK cC] dK] dC]. destruct TOm as (UK & UC & Ed).
  destruct (step_parts c st st' m OK Hm Hi H) as (cur' & g & scales & s2 & N & w & b & P1 & P2 & P3 & P4 & P5 & P6 & P7 & P8 & P9 & P10).
  rewrite Ecur in P1. injection P1 as <-. subst s2. exists g. split; [exact P4|].
  destruct T as [(K & EK & VK) (C & EC & VC) _ _ _ _]. destruct U' as [U1 U2]. specialize (U1 _ EK). specialize (U2 _ EC).
  rewrite EK, EC in P7. cbn [lookup] in P7. pose proof (dims_supported _ _ _ Ed) as Hs. specialize (BF m Hm). unfold bias_fits in BF.
  pose proof (PF m (m_weight m) Hm (or_introl eq_refl)) as FW. rewrite shape_weight in FW. destruct FW as (FW1 & FW2 & FW3).
  unfold grad_data at 1 in P7. destruct (p_grad (s_par st (m_weight m))) as [wg|] eqn:EW; [|discriminate P7].
  assert (BG : exists bg, option_map (fun b => grad_data (s_par st b)) (m_bias m) = option_map Ok bg /\
     match m_bias m, bg with Some q, Some t => p_grad (s_par st q) = Some t | None, None => True | _, _ => False end).
  { destruct (m_bias m) as [q|] eqn:EB; [|exists None; auto]. cbn [option_map] in *. unfold grad_data in *. destruct (p_grad (s_par st q)) as [t|]; [|discriminate P7].
    exists (Some t). auto. }
  destruct BG as (bg & EBG & HBG). rewrite EBG in P7.
  assert (NB : forall q, m_bias m = Some q -> q <> m_weight m).
  { intros q EQ E. destruct OK as [_ ND]. apply in_split in Hm as (l1 & l2 & EL). rewrite EL, flat_map_app in ND. apply nodup_r in ND. cbn [flat_map] in ND.
    apply nodup_l in ND. unfold mod_params in ND. rewrite EQ in ND. apply NoDup_cons_iff in ND as [N1 _]. apply N1. left. exact E. }
  assert (Hb : match bg with Some b => has_bias (m_layer m) = true /\ shape b = [n_out (m_layer m)] | None => has_bias (m_layer m) = false end).
  { destruct (m_bias m) as [q|] eqn:EB, bg as [t|]; try contradiction; [|exact BF]. split; [exact BF|].
    destruct (PF m q Hm) as (_ & F2 & _); [unfold mod_params; rewrite EB; right; left; reflexivity|]. rewrite (F2 _ HBG). apply shape_bias. apply NB. reflexivity. }
  destruct (C49_gradient_matrix_lemma (m_layer m) wg bg Hs (FW2 _ eq_refl) Hb) as (G & EG & DG & SG & _ & _ & _).
  rewrite Ed in DG. injection DG as D1 D2. rewrite <- D1, <- D2 in SG.
  rewrite (nat_grad_any (m_layer m) wg bg cur K C cK cC dK dC G EG SG UK UC VK VC) in P7. injection P7 as <-.
  rewrite (tab2_ext dC dK _ (fun i j => get2 G i j / cur)) in P8.
  2:{ intros i j Hi' Hj'. apply unit_dir; try assumption; [apply (unit_rent cC); assumption|apply (unit_rent cK); assumption]. }
  assert (P8' := divided (m_layer m) wg bg cur G Hs (FW2 _ eq_refl) Hb EG). rewrite <- D1, <- D2 in P8'. rewrite P8' in P8. injection P8 as <- <-.
  unfold mod_params in Hp. destruct Hp as [<-|Hp].
  - eapply sgd_par_eq; [split; [exact FW1|split; [rewrite EW; exact FW2|exact FW3]]|exact EW|exact P9].
  - destruct (m_bias m) as [q|] eqn:EB; [|destruct Hp]. destruct Hp as [->|[]]. destruct bg as [t|]; [|contradiction]. cbn [option_map] in P10.
    eapply sgd_par_eq; [|exact HBG|exact P10]. apply (PF m p Hm). unfold mod_params. rewrite EB. right. left. reflexivity.
Qed.

Lemma event_sim c ty e st s :
  cfg_ok c -> tys_ok c ty -> all_typed c ty st -> pars_fit c st -> (forall m, In m (c_mods c) -> bias_fits m) -> scales_ok (s_steps st) (s_scales st) ->
  (forall m, In m (c_mods c) -> mod_unit ty m st) -> (forall b, e = EStep b -> rate0 st /\ snd (event_op c e st) = Ok tt) ->
  sim st s -> sim (fst (event_op c e st)) (sgd_event (trained c) e s).
Proof.
  intros OK TO TA PF BF SO U Z S. pose proof S as (S1 & S2 & S3 & S4 & S5). destruct e as [m x b out|out g|p g|v|a i|closure|gs].
  - cbn [event_op sgd_event]. destruct (forward_frame c m x b out st) as (E & _). rewrite E. exact S.
  - cbn [event_op sgd_event]. unfold sbind, getS. destruct (s_pend st out) as [[m0 x]|]; [|exact S].
    destruct (accumulate_frame c m0 x g st) as (F1 & F2 & F3 & F4 & F5 & _ & _ & _ & F9).
    split; [intros p; rewrite F9 by (intros []); apply S1|]. rewrite F3, F4, F5, F2, F1. auto.
  - cbn [event_op sgd_event]. unfold modify. cbn [fst]. split; [|auto]. intros q. cbn [s_par set_par w_par]. unfold upd. rewrite !S1. reflexivity.
  - cbn [event_op sgd_event]. destruct (set_current_grad_scale v st) as [st' r] eqn:E. apply set_current_grad_scale_frame in E as ((F1 & F2 & F3 & F4 & F5 & F6 & F7) & F8). cbn [fst].
    split; [intros p; rewrite F3; apply S1|]. rewrite F4, F5, F6, F8, F1. cbn. repeat split; auto. apply get_put_same.
  - cbn [event_op sgd_event]. unfold modify. cbn [fst]. split; [exact S1|]. cbn. auto.
  - destruct (Z _ eq_refl) as [Z0 Z1]. cbn [event_op] in *. destruct (step c closure st) as [st' r] eqn:H. cbn [fst snd] in *. subst r.
    pose proof H as H0. apply step_cases in H0 as [(_ & _ & D)|(-> & st1 & [(e0 & _ & _ & D)|(E & D)])]; [discriminate D|discriminate D|].
    pose proof (ensure_scales_ok _ _ _ E SO) as [SO1 _]. pose proof E as E'. apply ensure_scale_frame in E' as ((F1 & F2 & F3 & F4 & F5 & F6 & F7) & _ & F8).
    specialize (F8 eq_refl). cbn [sgd_event].
    assert (GN : forall t, s_scales t = s_scales st1 -> s_steps t = s_steps st1 -> get_grad_scale (s_scales (finish t)) (Z.of_nat (s_steps (finish t))) = Err KeyError).
    { intros t E1 E2. unfold finish. cbn [s_scales s_steps set_scales set_steps]. rewrite E1, E2.
      match goal with |- ?X = _ => destruct X as [v|e] eqn:EG end; [|rewrite (get_err _ _ _ EG); reflexivity]. exfalso. apply get_In in EG. rewrite remove_keys in EG.
      apply filter_In in EG as [EG _]. destruct SO1 as (_ & SO1 & _). apply SO1 in EG. lia. }
    destruct D as [(Hi & _ & ->)|(Hi & st2 & r2 & ES & D)].
    + split; [intros p; cbn [w_par]; rewrite <- S4, Hi; cbn; rewrite F3; apply S1|]. cbn [w_groups w_amp w_inf w_scale]. 
      split; [cbn; congruence|]. split; [cbn; congruence|]. split; [cbn; congruence|]. apply GN; reflexivity.
    + destruct r2 as [u|]; [destruct D as [_ ->]|destruct D; discriminate]. destruct u. pose proof (steps_frame _ _ _ _ _ ES) as (Q1 & Q2 & Q3 & Q4 & Q5 & _ & _ & _ & Q9).
      split.
      2:{ cbn [w_groups w_amp w_inf w_scale]. split; [cbn; congruence|]. split; [cbn; congruence|]. split; [cbn; congruence|]. apply GN; assumption. }
      intros p. cbn [w_par]. rewrite <- S4, Hi.
      destruct (step_scale st) as [cur|] eqn:Ecur.
      2:{ exfalso. pose proof (ensure_scale_ok st SO) as X. rewrite E, Ecur in X. discriminate X. }
      destruct (in_dec Nat.eq_dec p (flat_map mod_params (c_mods c))) as [IN|NI].
      * apply in_flat_map in IN as (m & Hm & Hp).
        destruct (step_param c ty st _ m p cur OK TO TA PF BF Hm Hp Z0 (U m Hm) Hi H Ecur) as (g & EG & EP). rewrite EP, S1.
        rewrite (group_of_mod c _ m p (proj2 OK) Hm Hp). rewrite <- S2.
        unfold get_group in EG. destruct (m_layer m); [| |discriminate EG];
          (destruct (c_p2g c (m_weight m)) as [i|]; [|discriminate EG]; destruct (nth_error (s_groups st) i); [|discriminate EG]; injection EG as ->;
           rewrite (sim_scale st s cur S Ecur); reflexivity).
      * rewrite (group_of_other c _ p NI). cbn. rewrite Q9 by exact NI. rewrite F3. apply S1.
  - cbn [event_op sgd_event]. unfold modify. cbn [fst]. split; [exact S1|]. cbn. auto.
Qed.

Lemma run_sim c ty es st s :
  cfg_ok c -> tys_ok c ty -> (forall m, In m (c_mods c) -> bias_fits m) ->
  all_typed c ty st -> pars_fit c st -> scales_ok (s_steps st) (s_scales st) -> (forall m, In m (c_mods c) -> mod_unit ty m st) ->
  wf_run c es st -> Forall (grad_fits c) es -> frozen c es st -> no_failed_step c es st ->
  sim st s -> sim (run c es st) (sgd_run (trained c) es s).
Proof.
  intros OK TO BF. revert st s. induction es as [|e es IH]; intros st s TA PF SO U W GF Z NF S; [exact S|].
  destruct W as [W1 W2]. destruct Z as [Z1 Z2]. destruct NF as [N1 N2]. apply Forall_cons_iff in GF as [G1 G2]. cbn [run]. unfold sgd_run. cbn [fold_left].
  apply IH; try assumption.
  - apply event_all_typed; try assumption. apply OK.
  - apply event_fits; assumption.
  - apply event_scales_ok. exact SO.
  - intros m Hm. apply event_unit; auto.
  - apply (event_sim c ty); try assumption. intros b Eb. split; [exact (Z1 _ Eb)|exact (N1 _ Eb)].
Qed.

End Sgd.
