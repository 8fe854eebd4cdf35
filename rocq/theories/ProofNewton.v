(** C60: KFAC-like preconditioners converge to the inverse of the damped curvature. *)

From Coq Require Import List Arith Lia Bool ZArith QArith Qcanon Field Setoid Reals Lra.
From Verif Require Import Scalar Res Tensor TensorFacts Structures StructSpec StructAct OptimUtils ProofUtils Optimizer Construct OptSpec OptState OptRun OptFacts OptConsume OptTyped OptStep OptMom RealOrd OptNorm QEx OptEx OptEx2 OptEx3 ProofUpdate NewtonSpec MatInv Newton.
Import ListNotations.
Open Scope nat_scope.

Section PropNewton.
Context {SC : Scalar} {FL : FieldLaws SC}.
Add Field Ffpn : F_ft.
Open Scope F_scope.
#[local] Existing Instance eqm_equiv.
#[local] Existing Instance mmm_proper.

Lemma initial_tracks a par c st0 m cK cC dK dC : setting a par c st0 -> In m (c_mods c) -> tracks cK cC dK dC (s_slots st0 (m_key m)) (zero, zero).
Proof.
  intros S Hm. destruct (C22_initial_lemma a par c st0 m S Hm) as (g & _ & _ & _ & _ & _ & _ & _ & _ & _ & _ & _ & _ & _ & _ & E1 & E2).
  unfold tracks. rewrite E1, E2. split; intros; intros i j _ _; reflexivity.
Qed.

Lemma C60_statistics_lemma : forall a par c st0 es m cK cC dK dC,
  setting a par c st0 -> wf_run c es st0 -> no_failed_step c es st0 ->
  In m (c_mods c) -> has_ty c st0 m cK cC dK dC -> nonblock cK -> nonblock cC ->
  let s := s_slots (run c es st0) (m_key m) in let M := seen c m es st0 (zero, zero) in
  exists K C, sl_K s = Some K /\ sl_C s = Some C /\
    match sl_HK s with Some H => eqm dK (ent H) (proj cK dK (congr dK (ent K) (fst M))) | None => eqm dK (fst M) zero end /\
    match sl_HC s with Some H => eqm dC (ent H) (proj cC dC (congr dC (ent C) (snd M))) | None => eqm dC (snd M) zero end.
Proof.
  intros a par c st0 es m cK cC dK dC S W NF Hm HT NK NC s M. pose proof (setting_ok _ _ _ _ S) as [OK _].
  destruct (setting_typed _ _ _ _ [] S I) as [TO TA]. destruct (setting_typed _ _ _ _ es S W) as [_ TA'].
  pose proof (run_seen c _ es st0 m cK cC dK dC _ OK TO TA W Hm (has_ty_ctor _ _ _ _ _ _ _ HT) NK NC NF (initial_tracks _ _ _ _ _ cK cC dK dC S Hm)) as [T1 T2].
  destruct TA' as [TA' _]. specialize (TA' m Hm). unfold mod_typed in TA'. rewrite (has_ty_ctor _ _ _ _ _ _ _ HT) in TA'.
  destruct TA' as [(K & EK & _) (C & EC & _) _ _ _ _]. exists K, C. split; [exact EK|]. split; [exact EC|]. split; [apply T1; exact EK|apply T2; exact EC].
Qed.

Lemma C60_newton_lemma : forall a par c st0 es st' m cK cC dK dC g prev cur,
  setting a par c st0 -> wf_run c es st0 -> no_failed_step c es st0 ->
  In m (c_mods c) -> has_ty c st0 m cK cC dK dC -> simple cK -> simple cC ->
  let st := run c es st0 in let M := seen c m es st0 (zero, zero) in
  s_inf st = false -> due c m st -> step c false st = (st', Ok tt) -> get_group c (s_groups st) m = Ok g ->
  get_grad_scale (s_scales st) (Z.of_nat (s_steps st) - 1) = Ok prev -> step_scale st = Ok cur ->
  g_kfac_like g = true -> g_normalize g = false -> g_alpha1 g = 0 ->
  let AK := damp cK dK (fst M) (g_damping g) in
  let AC := damp cC dC (fun i j => prev / (cur * cur) * snd M i j) (g_damping g) in
  exists K C K' C',
    sl_K (s_slots st (m_key m)) = Some K /\ sl_C (s_slots st (m_key m)) = Some C /\
    sl_K (s_slots st' (m_key m)) = Some K' /\ sl_C (s_slots st' (m_key m)) = Some C' /\
    let b := rate_at g (s_steps st) in
    eqm dK (ent K') (mmm dK (ent K) (fun i j => ident i j + b / (1 + 1) * defect dK (ent K) AK i j)) /\
    eqm dC (ent C') (mmm dC (ent C) (fun i j => ident i j + b / (1 + 1) * defect dC (ent C) AC i j)).
Proof.
  intros a par c st0 es st' m cK cC dK dC g prev cur S W NF Hm HT SK SC' st M Hi Hd Hs Eg Ep Ec Gk Gn Ga AK AC. pose proof (setting_ok _ _ _ _ S) as [OK _].
  destruct (setting_typed _ _ _ _ [] S I) as [TO TA]. destruct (setting_typed _ _ _ _ es S W) as [_ TA'].
  pose proof (run_seen c _ es st0 m cK cC dK dC _ OK TO TA W Hm (has_ty_ctor _ _ _ _ _ _ _ HT) (simple_nonblock _ SK) (simple_nonblock _ SC') NF (initial_tracks _ _ _ _ _ cK cC dK dC S Hm)) as TR.
  destruct (due_newton c _ st st' m cK cC dK dC M (fst M) (fun i j => prev / (cur * cur) * snd M i j) (g_damping g) g prev cur OK TO TA' Hm (has_ty_ctor _ _ _ _ _ _ _ HT)
    SK SC' TR Hi Hd Hs Eg Ep Ec Gk Gn Ga eq_refl (fun i j _ _ => eq_refl) (fun i j _ _ => eq_refl)) as (K & C & K' & C' & H1 & H2 & H3 & H4 & _ & _ & _ & _ & N1 & N2).
  exists K, C, K', C'. do 4 (split; [assumption|]). split; assumption.
Qed.

Lemma fixed_inverse n K K' A (b : F) :
  eqm n K' (mmm n K (fun i j => ident i j + b / (1 + 1) * defect n K A i j)) -> eqm n K' K -> nonsingular n K -> b <> 0 ->
  eqm n (mmm n A (mmt n K K)) ident.
Proof.
  intros H E NS Nb.
  assert (Z : eqm n (defect n K A) zero).
  { intros i j Hi Hj. apply (NS (fun q => defect n K A q j)); [|exact Hi]. intros p Hp. change (mmm n K (defect n K A) p j = 0).
    assert (Q : b / (1 + 1) * mmm n K (defect n K A) p j = 0).
    { assert (X : mmm n K (fun i j => ident i j + b / (1 + 1) * defect n K A i j) p j = K p j + b / (1 + 1) * mmm n K (defect n K A) p j).
      { rewrite (mmm_ext n K K _ (fun i j => 1 * ident i j + b / (1 + 1) * defect n K A i j) p j Hp Hj) by (intros ? ? _ _; first [reflexivity|ring]).
        rewrite mmm_lin_r, mmm_ident_r by exact Hj. ring. }
      rewrite <- (H p j Hp Hj), (E p j Hp Hj) in X. transitivity (K p j + b / (1 + 1) * mmm n K (defect n K A) p j - K p j); [ring|]. rewrite <- X. ring. }
    transitivity ((1 + 1) / b * (b / (1 + 1) * mmm n K (defect n K A) p j)); [field; split; [exact two_neq0|exact Nb]|]. rewrite Q. ring. }
  assert (L : eqm n (mmm n (trp K) (mmm n A K)) ident).
  { rewrite <- congr_mmm. intros i j Hi Hj. specialize (Z i j Hi Hj). unfold defect, zero in Z.
    transitivity (ident i j - (ident i j - congr n K A i j)); [ring|]. rewrite Z. ring. }
  apply left_right in L. intros i j Hi Hj. rewrite <- (L i j Hi Hj). rewrite mmm_assoc. reflexivity.
Qed.

Lemma two_sided n m AC CC G KK AK (cur : F) (D : mat) :
  (forall i j, (i < n)%nat -> (j < m)%nat -> D i j = mmm n CC (mmm m G KK) i j / cur) ->
  eqm n (mmm n AC CC) ident -> eqm m (mmm m KK AK) ident ->
  forall i j, (i < n)%nat -> (j < m)%nat -> mmm n AC (mmm m D AK) i j = G i j / cur.
Proof.
  intros HD H1 H2 i j Hi Hj.
  assert (E1 : forall a, (a < n)%nat -> mmm m D AK a j = mmm n CC G a j / cur).
  { intros a Ha. unfold mmm at 1. rewrite (sum_ext _ _ (fun k => mmm n CC (mmm m G KK) a k * AK k j * (1 / cur))).
    2:{ intros k Hk. rewrite HD by assumption. rewrite !(Fdiv_def F_ft). ring. }
    rewrite sum_scale_r. rewrite (sum_ext _ _ (fun k => sum n (fun p => CC a p * (mmm m G KK p k * AK k j)))).
    2:{ intros k _. unfold mmm at 1. rewrite <- sum_scale_r. apply sum_ext. intros; ring. }
    rewrite sum_swap. rewrite (sum_ext _ _ (fun p => CC a p * G p j)).
    - unfold mmm. rewrite !(Fdiv_def F_ft). ring.
    - intros p Hp. rewrite sum_scale_l. f_equal. change (mmm m (mmm m G KK) AK p j = G p j). rewrite mmm_assoc.
      transitivity (mmm m G ident p j); [|apply mmm_ident_r; exact Hj]. unfold mmm at 1 3. apply sum_ext. intros k Hk. rewrite H2 by assumption. reflexivity. }
  unfold mmm at 1. rewrite (sum_ext _ _ (fun a => AC i a * mmm n CC G a j * (1 / cur))).
  2:{ intros a Ha. rewrite E1 by exact Ha. rewrite !(Fdiv_def F_ft). ring. }
  rewrite sum_scale_r. change (mmm n AC (mmm n CC G) i j * (1 / cur) = G i j / cur). rewrite <- mmm_assoc.
  assert (E2 : mmm n (mmm n AC CC) G i j = mmm n ident G i j) by (unfold mmm at 1 3; apply sum_ext; intros k Hk; rewrite H1 by assumption; reflexivity).
  rewrite E2, mmm_ident_l by exact Hi. rewrite !(Fdiv_def F_ft). ring.
Qed.

Lemma C60_stationary_lemma : forall a par c st0 es st' m cK cC dK dC g prev cur K C K' C' wg bg,
  setting a par c st0 -> wf_run c es st0 -> no_failed_step c es st0 ->
  In m (c_mods c) -> has_ty c st0 m cK cC dK dC -> simple cK -> simple cC ->
  let st := run c es st0 in let M := seen c m es st0 (zero, zero) in
  s_inf st = false -> due c m st -> step c false st = (st', Ok tt) -> get_group c (s_groups st) m = Ok g ->
  get_grad_scale (s_scales st) (Z.of_nat (s_steps st) - 1) = Ok prev -> step_scale st = Ok cur ->
  g_kfac_like g = true -> g_normalize g = false -> g_alpha1 g = 0 -> rate_at g (s_steps st) <> 0 ->
  sl_K (s_slots st (m_key m)) = Some K -> sl_C (s_slots st (m_key m)) = Some C ->
  sl_K (s_slots st' (m_key m)) = Some K' -> sl_C (s_slots st' (m_key m)) = Some C' ->
  eqm dK (ent K') (ent K) -> eqm dC (ent C') (ent C) -> nonsingular dK (ent K) -> nonsingular dC (ent C) ->
  mod_grads m st wg bg -> cur <> 0 ->
  let AK := damp cK dK (fst M) (g_damping g) in
  let AC := damp cC dC (fun i j => prev / (cur * cur) * snd M i j) (g_damping g) in
  eqm dK (mmm dK AK (mmt dK (ent K) (ent K))) ident /\ eqm dK (mmm dK (mmt dK (ent K) (ent K)) AK) ident /\
  eqm dC (mmm dC AC (mmt dC (ent C) (ent C))) ident /\ eqm dC (mmm dC (mmt dC (ent C) (ent C)) AC) ident /\
  exists G w b D, grad_matrix (m_layer m) wg bg = Ok G /\ direction m st st' = Ok (w, b) /\ grad_matrix (m_layer m) w b = Ok D /\
    forall i j, (i < dC)%nat -> (j < dK)%nat -> mmm dC AC (mmm dK (get2 D) AK) i j = get2 G i j / cur.
Proof.
  intros a par c st0 es st' m cK cC dK dC g prev cur K C K' C' wg bg S W NF Hm HT SK SC' st M Hi Hd Hs Eg Ep Ec Gk Gn Ga Nb EK EC EK' EC' QK QC NK NC MG Nc AK AC.
  destruct (C60_newton_lemma a par c st0 es st' m cK cC dK dC g prev cur S W NF Hm HT SK SC' Hi Hd Hs Eg Ep Ec Gk Gn Ga) as (K0 & C0 & K1 & C1 & F1 & F2 & F3 & F4 & N1 & N2).
  fold st in F1, F2. rewrite EK in F1. injection F1 as <-. rewrite EC in F2. injection F2 as <-. rewrite EK' in F3. injection F3 as <-. rewrite EC' in F4. injection F4 as <-.
  fold st M in N1, N2. fold AK in N1. fold AC in N2.
  pose proof (fixed_inverse dK _ _ _ _ N1 QK NK Nb) as I1. pose proof (fixed_inverse dC _ _ _ _ N2 QC NC Nb) as I2.
  split; [exact I1|]. split; [apply left_right; exact I1|]. split; [exact I2|]. split; [apply left_right; exact I2|].
  destruct (C29_direction_lemma a par c st0 es m cK cC dK dC st' wg bg cur S W Hm HT (simple_nonblock _ SK) (simple_nonblock _ SC') Hi Hs MG Ec Nc)
    as (K2 & C2 & G & w & b & D1 & D2 & D3 & D4 & D5 & D6 & _).
  rewrite EK' in D1. injection D1 as <-. rewrite EC' in D2. injection D2 as <-.
  eexists G, w, b, _. split; [exact D3|]. split; [exact D5|]. split; [exact D6|].
  apply (two_sided dC dK AC (mmt dC (ent C') (ent C')) (get2 G) (mmt dK (ent K') (ent K')) AK cur).
  - intros i j Hi' Hj. rewrite get2_tab2 by assumption. reflexivity.
  - transitivity (mmm dC AC (mmt dC (ent C) (ent C))); [|exact I2].
    intros i j Hi' Hj. apply mmm_ext; try assumption; [reflexivity|]. intros p r Hp Hr. unfold mmt. apply sum_ext. intros k Hk. rewrite !QC by assumption. reflexivity.
  - transitivity (mmm dK (mmt dK (ent K) (ent K)) AK); [|apply left_right; exact I1].
    intros i j Hi' Hj. apply mmm_ext; try assumption; [|reflexivity]. intros p r Hp Hr. unfold mmt. apply sum_ext. intros k Hk. rewrite !QK by assumption. reflexivity.
Qed.

Lemma fixed_zero n K K' mo (b : F) :
  eqm n K' (precond_of n K mo b) -> eqm n K' K -> nonsingular n K -> b <> 0 -> eqm n mo zero.
Proof.
  intros H E NS Nb i j Hi Hj. apply (NS (fun q => mo q j)); [|exact Hi]. intros p Hp. change (mmm n K mo p j = 0).
  assert (X : precond_of n K mo b p j = K p j - b * mmm n K mo p j).
  { unfold precond_of. rewrite (mmm_ext n K K _ (fun i j => 1 * ident i j + (- b) * mo i j) p j Hp Hj) by (intros ? ? _ _; first [reflexivity|ring]).
    rewrite mmm_lin_r, mmm_ident_r by exact Hj. ring. }
  rewrite <- (H p j Hp Hj), (E p j Hp Hj) in X.
  transitivity (1 / b * (K p j - (K p j - b * mmm n K mo p j))); [field; exact Nb|]. rewrite <- X. ring.
Qed.

Lemma C60_structures_lemma : forall a par c st0 es st' m cK cC dK dC g prev cur K C K' C',
  setting a par c st0 -> wf_run c es st0 -> no_failed_step c es st0 ->
  In m (c_mods c) -> has_ty c st0 m cK cC dK dC -> nonblock cK -> nonblock cC ->
  let st := run c es st0 in let M := seen c m es st0 (zero, zero) in
  s_inf st = false -> due c m st -> step c false st = (st', Ok tt) -> get_group c (s_groups st) m = Ok g ->
  get_grad_scale (s_scales st) (Z.of_nat (s_steps st) - 1) = Ok prev -> step_scale st = Ok cur ->
  g_kfac_like g = true -> g_normalize g = false -> g_alpha1 g = 0 -> rate_at g (s_steps st) <> 0 ->
  sl_K (s_slots st (m_key m)) = Some K -> sl_C (s_slots st (m_key m)) = Some C ->
  sl_K (s_slots st' (m_key m)) = Some K' -> sl_C (s_slots st' (m_key m)) = Some C' ->
  eqm dK (ent K') (ent K) -> eqm dC (ent C') (ent C) -> nonsingular dK (ent K) -> nonsingular dC (ent C) ->
  (forall i j, (i < dK)%nat -> (j < dK)%nat ->
     proj cK dK (congr dK (ent K) (fst M)) i j + g_damping g * proj cK dK (tmm dK (ent K) (ent K)) i j = ident i j) /\
  (forall i j, (i < dC)%nat -> (j < dC)%nat ->
     prev / (cur * cur) * proj cC dC (congr dC (ent C) (snd M)) i j + g_damping g * proj cC dC (tmm dC (ent C) (ent C)) i j = ident i j).
Proof.
  intros a par c st0 es st' m cK cC dK dC g prev cur K C K' C' S W NF Hm HT NBK NBC st M Hi Hd Hs Eg Ep Ec Gk Gn Ga Nb EK EC EK' EC' QK QC NK NC.
  pose proof (setting_ok _ _ _ _ S) as [OK _].
  destruct (setting_typed _ _ _ _ [] S I) as [TO TA]. destruct (setting_typed _ _ _ _ es S W) as [_ TA'].
  pose proof (run_seen c _ es st0 m cK cC dK dC _ OK TO TA W Hm (has_ty_ctor _ _ _ _ _ _ _ HT) NBK NBC NF (initial_tracks _ _ _ _ _ cK cC dK dC S Hm)) as [T1 T2].
  destruct (due_update_doc c _ st st' m cK cC dK dC OK TO TA' Hm (has_ty_ctor _ _ _ _ _ _ _ HT) NBK NBC Hi Hd Hs)
    as (g0 & K0 & C0 & HK & HC & K1 & C1 & mK & mC & bK & bC & prev0 & cur0 & F1 & F2 & F3 & F4 & F5 & F6 & F7 & _ & F8 & _ & _ & _ & _ & G1 & G2 & R1 & R2 & P1 & P2).
  rewrite Eg in F1. injection F1 as <-. rewrite Ep in F6. injection F6 as <-. rewrite Ec in F7. injection F7 as <-.
  rewrite EK in F2. injection F2 as <-. rewrite EC in F3. injection F3 as <-. fold st in T1, T2. specialize (T1 K EK). specialize (T2 C EC). rewrite F4 in T1. rewrite F5 in T2. fold M in T1, T2.
  rewrite F8 in EK', EC'. cbn [sl_K sl_C] in EK', EC'. injection EK' as ->. injection EC' as ->.
  unfold normalized_lr in R1, R2. rewrite Gn in R1, R2. injection R1 as <-. injection R2 as <-.
  pose proof (fixed_zero dK _ _ _ _ P1 QK NK Nb) as Z1. pose proof (fixed_zero dC _ _ _ _ P2 QC NC Nb) as Z2.
  split; intros i j Hi' Hj.
  - specialize (G1 i j Hi' Hj). rewrite (Z1 i j Hi' Hj) in G1. unfold doc_mK, half, zero in G1. rewrite Gk, Gn, Ga in G1. rewrite (T1 i j Hi' Hj) in G1.
    match type of G1 with 0 = _ * (?x - ?y) + _ => assert (Q : x - y = 0) end.
    { match goal with |- ?x = 0 => transitivity ((1 + 1) * (1 / (1 + 1) * x + 0 * oldm (sl_mK (s_slots st (m_key m))) i j)) end; [field; exact two_neq0|].
      rewrite <- G1. ring. }
    transitivity (ident i j + (1 * proj cK dK (congr dK (ent K) (fst M)) i j + g_damping g * 1 * proj cK dK (tmm dK (ent K) (ent K)) i j - ident i j)); [ring|]. rewrite Q. ring.
  - specialize (G2 i j Hi' Hj). rewrite (Z2 i j Hi' Hj) in G2. unfold doc_mC, half, zero in G2. rewrite Gk, Gn, Ga in G2. rewrite (T2 i j Hi' Hj) in G2.
    set (u := prev / (cur * cur)) in *. clearbody u.
    match type of G2 with 0 = _ * (?x - ?y) + _ => assert (Q : x - y = 0) end.
    { match goal with |- ?x = 0 => transitivity ((1 + 1) * (1 / (1 + 1) * x + 0 * oldm (sl_mC (s_slots st (m_key m))) i j)) end; [field; exact two_neq0|].
      rewrite <- G2. ring. }
    transitivity (ident i j + (u * proj cC dC (congr dC (ent C) (snd M)) i j + g_damping g * 1 * proj cC dC (tmm dC (ent C) (ent C)) i j - ident i j)); [ring|]. rewrite Q. ring.
Qed.

End PropNewton.

Section PropConverge.
Context {SC : Scalar} {FL : FieldLaws SC} {OR : Ordered SC}.
Add Field Ffpc : F_ft.
Open Scope R_scope.
#[local] Existing Instance eqm_equiv.
#[local] Existing Instance mmm_proper.

Lemma start_good n K A q b : (forall i j, (i < n)%nat -> (j < n)%nat -> K i j = ident i j) -> small n (defect n ident A) q -> good n K A q b 0.
Proof.
  intros HK S. split; [|split].
  - unfold err. cbn [pow]. rewrite Rmult_1_r. apply (small_ext n (defect n ident A)); [|exact S]. intros i j Hi Hj. unfold defect. f_equal.
    unfold congr. apply sum_ext. intros p Hp. apply sum_ext. intros r Hr. rewrite !HK by assumption. reflexivity.
  - cbn [grow]. apply (small_ext n ident); [intros i j Hi Hj; symmetry; apply HK; assumption|apply small_ident].
  - cbn [grow]. apply (small_ext n ident); [|apply small_ident]. intros i j Hi Hj. unfold trp. rewrite HK by assumption. unfold ident. rewrite Nat.eqb_sym. reflexivity.
Qed.

Lemma C60_rate_lemma : forall a par c st0 es m cK cC dK dC UK UC lam b q XK XC,
  setting a par c st0 -> wf_run c es st0 -> no_failed_step c es st0 ->
  In m (c_mods c) -> has_ty c st0 m cK cC dK dC -> simple cK -> simple cC ->
  steady c m dK dC UK UC lam (fun lr => b <= toR lr <= 1) es st0 (zero, zero) ->
  symmetric dK UK -> symmetric dC UC -> 0 < b <= 1 -> 0 <= q < 1 ->
  let AK := damp cK dK UK lam in let AC := damp cC dC UC lam in
  small dK (defect dK ident AK) q -> small dC (defect dC ident AC) q ->
  eqm dK (mmm dK AK XK) ident -> eqm dC (mmm dC AC XC) ident ->
  let s := s_slots (run c es st0) (m_key m) in
  let bound := exp (q / (b * (1 - q))) * (q / (1 - q)) * (1 - b * (1 - q)) ^ updates_of c m es st0 in
  exists K C, sl_K s = Some K /\ sl_C s = Some C /\
    (forall i j, (i < dK)%nat -> (j < dK)%nat -> Rabs (toR (mmt dK (ent K) (ent K) i j) - toR (XK i j)) <= bound) /\
    (forall i j, (i < dC)%nat -> (j < dC)%nat -> Rabs (toR (mmt dC (ent C) (ent C) i j) - toR (XC i j)) <= bound).
Proof.
  intros a par c st0 es m cK cC dK dC UK UC lam b q XK XC S W NF Hm HT SK SC' SD YK YC Hb Hq AK AC GK GC HXK HXC s bound. pose proof (setting_ok _ _ _ _ S) as [OK _].
  destruct (setting_typed _ _ _ _ [] S I) as [TO TA]. destruct (setting_typed _ _ _ _ es S W) as [_ TA'].
  pose proof (has_ty_ctor _ _ _ _ _ _ _ HT) as Et.
  destruct (C22_initial_lemma a par c st0 m S Hm) as (g & cK0 & cC0 & dK0 & dC0 & K0 & C0 & E1 & E2 & E3 & E4 & E5 & E6 & E7 & _).
  assert (HT0 : has_ty c st0 m cK0 cC0 dK0 dC0) by (exists g; auto). pose proof (has_ty_ctor _ _ _ _ _ _ _ HT0) as Et0. rewrite Et in Et0. injection Et0 as <- <- <- <-.
  destruct (run_good c _ es st0 m cK cC dK dC (zero, zero) UK UC lam q b 0 OK TO TA W Hm Et SK SC' NF (initial_tracks _ _ _ _ _ cK cC dK dC S Hm) SD YK YC Hq Hb) as [R1 R2].
  - intros K HK. rewrite E4 in HK. injection HK as <-. apply start_good; assumption.
  - intros C HC. rewrite E6 in HC. injection HC as <-. apply start_good; assumption.
  - destruct TA' as [TA' _]. specialize (TA' m Hm). unfold mod_typed in TA'. rewrite Et in TA'. destruct TA' as [(K & EK & _) (C & EC & _) _ _ _ _].
    exists K, C. split; [exact EK|]. split; [exact EC|]. split.
    + apply (good_inverse dK (ent K) AK XK q b _ Hq Hb (R1 K EK) HXK).
    + apply (good_inverse dC (ent C) AC XC q b _ Hq Hb (R2 C EC) HXC).
Qed.

Lemma small_inverse n A q : q < 1 -> small n (defect n ident A) q -> exists X, eqm n (mmm n A X) ident /\ eqm n (mmm n X A) ident.
Proof.
  intros Hq S. apply nonsingular_inverse. apply (small_nonsingular n (defect n ident A) q A Hq S). intros i j Hi Hj. unfold defect.
  assert (E : congr n ident A i j = A i j).
  { rewrite (congr_mmm n ident A i j Hi Hj). rewrite (mmm_ext n (trp ident) ident (mmm n A ident) A i j Hi Hj).
    - apply mmm_ident_l. exact Hi.
    - intros p r _ _. unfold trp, ident. rewrite Nat.eqb_sym. reflexivity.
    - intros p r _ Hr. apply mmm_ident_r. exact Hr. }
  rewrite E. ring.
Qed.

Lemma C60_limit_lemma : forall cK cC dK dC UK UC lam b q,
  simple cK -> simple cC -> symmetric dK UK -> symmetric dC UC -> 0 < b <= 1 -> 0 <= q < 1 ->
  let AK := damp cK dK UK lam in let AC := damp cC dC UC lam in
  small dK (defect dK ident AK) q -> small dC (defect dC ident AC) q ->
  exists XK XC,
    eqm dK (mmm dK AK XK) ident /\ eqm dK (mmm dK XK AK) ident /\ eqm dC (mmm dC AC XC) ident /\ eqm dC (mmm dC XC AC) ident /\
    forall eps, 0 < eps -> exists N, forall a par c st0 es m,
      setting a par c st0 -> wf_run c es st0 -> no_failed_step c es st0 -> In m (c_mods c) -> has_ty c st0 m cK cC dK dC ->
      steady c m dK dC UK UC lam (fun lr => b <= toR lr <= 1) es st0 (zero, zero) -> (N <= updates_of c m es st0)%nat ->
      let s := s_slots (run c es st0) (m_key m) in
      exists K C, sl_K s = Some K /\ sl_C s = Some C /\
        (forall i j, (i < dK)%nat -> (j < dK)%nat -> Rabs (toR (mmt dK (ent K) (ent K) i j) - toR (XK i j)) <= eps) /\
        (forall i j, (i < dC)%nat -> (j < dC)%nat -> Rabs (toR (mmt dC (ent C) (ent C) i j) - toR (XC i j)) <= eps).
Proof.
  intros cK cC dK dC UK UC lam b q SK SC' YK YC Hb Hq AK AC GK GC.
  destruct (small_inverse dK AK q (proj2 Hq) GK) as (XK & I1 & I2). destruct (small_inverse dC AC q (proj2 Hq) GC) as (XC & I3 & I4).
  exists XK, XC. do 4 (split; [assumption|]). intros eps He.
  set (B := exp (q / (b * (1 - q))) * (q / (1 - q))).
  assert (B0 : 0 <= B). { unfold B. pose proof (exp_pos (q / (b * (1 - q)))). assert (0 < / (1 - q)) by (apply Rinv_0_lt_compat; lra). unfold Rdiv at 2. apply Rmult_le_pos; [lra|]. nra. }
  pose proof (rate_range q b Hq Hb) as Hr. set (r := 1 - b * (1 - q)) in *.
  destruct (pow_lt_1_zero r ltac:(rewrite Rabs_pos_eq; lra) (eps / (B + 1)) ltac:(apply Rdiv_lt_0_compat; lra)) as (N & HN).
  exists N. intros a par c st0 es m S W NF Hm HT SD HU s.
  destruct (C60_rate_lemma a par c st0 es m cK cC dK dC UK UC lam b q XK XC S W NF Hm HT SK SC' SD YK YC Hb Hq GK GC I1 I3) as (K & C & EK & EC & R1 & R2).
  assert (LB : B * r ^ updates_of c m es st0 <= eps).
  { specialize (HN _ HU). pose proof (pow_range r (updates_of c m es st0) Hr) as P. rewrite Rabs_pos_eq in HN by lra.
    assert (X : eps / (B + 1) * (B + 1) = eps) by (field; lra). nra. }
  exists K, C. split; [exact EK|]. split; [exact EC|]. split; intros i j Hi Hj.
  - eapply Rle_trans; [apply R1; assumption|exact LB].
  - eapply Rle_trans; [apply R2; assumption|exact LB].
Qed.

End PropConverge.

(** * Cases *)

Definition nw_args (lam lr : Qc) (st : option cls * option cls) : @args Q_scalar :=
  @mkArgs Q_scalar false ex_model (fun _ => true) PNone
    (PyFloat (qr 1 10 : @F Q_scalar)) (PyFloat (qr 1 2 : @F Q_scalar)) (PyFloat (lam : @F Q_scalar))
    (PyFloat (q 0 : @F Q_scalar)) (PyFloat (qr 1 8 : @F Q_scalar)) 1 LossBatch
    (PyFloat (lr : @F Q_scalar)) st Expand true true (q 1) false.
(** One iteration with inputs [x1] and [x2] of the two layers and output gradients [g1], [g2], all gradients scaled by [s]. *)
Definition nw_iter (s x11 x12 g1 x2 g21 g22 : Qc) : list (@event Q_scalar) :=
  let t sh (l : list Qc) := @tab Q_scalar sh (fun idx => nth (flat sh idx) l (q 0)) in let sc y := @t_scale Q_scalar s y in
  [ @EForward Q_scalar ex_m1 (t [1; 2] [x11; x12]) true 10; @EForward Q_scalar ex_m2 (t [1; 1] [x2]) true 11;
    @EBackward Q_scalar 11 (sc (t [1; 2] [g21; g22])); @EBackward Q_scalar 10 (sc (t [1; 1] [g1]));
    @EGrad Q_scalar 0 (Some (sc (t [1; 2] [Qcmult g1 x11; Qcmult g1 x12]))); @EGrad Q_scalar 1 (Some (sc (t [1] [g1])));
    @EGrad Q_scalar 2 (Some (sc (t [2; 1] [Qcmult g21 x2; Qcmult g22 x2]))) ].

(** Decision procedures. *)
Definition eqmb (n : nat) (A B : nat -> nat -> @F Q_scalar) : bool :=
  forallb (fun i => forallb (fun j => @feqb Q_scalar (A i j) (B i j)) (seq 0 n)) (seq 0 n).
Lemma eqmb_ok n A B : eqmb n A B = true -> eqm n A B.
Proof.
  intros H i j Hi Hj. unfold eqmb in H. rewrite forallb_forall in H. specialize (H i ltac:(apply in_seq; lia)). rewrite forallb_forall in H.
  specialize (H j ltac:(apply in_seq; lia)). apply feqb_iff in H. exact H.
Qed.
Definition smallb (n : nat) (A : nat -> nat -> @F Q_scalar) (e : @F Q_scalar) : bool :=
  forallb (fun i => negb (fltb e (sum n (fun j => fabs (A i j))))) (seq 0 n).
Lemma smallb_ok n A e : smallb n A e = true -> small n A (toR e).
Proof.
  intros H i Hi. unfold smallb in H. rewrite forallb_forall in H. specialize (H i ltac:(apply in_seq; lia)). apply negb_true_iff, toR_nlt in H.
  rewrite toR_sum in H. erewrite rsum_ext in H; [exact H|]. intros j _. cbv beta. apply toR_abs.
Qed.
Definition steadyb_at (c : cfg) (m : modul) (dK dC : nat) (UK UC : @mat Q_scalar) (lam lo : @F Q_scalar) (st : @state Q_scalar) (M : @mat Q_scalar * @mat Q_scalar) : bool :=
  if (s_inf st || negb (dueb c m st))%bool then true else
  match get_group c (s_groups st) m, get_grad_scale (s_scales st) (Z.of_nat (s_steps st) - 1), step_scale st with
  | Ok g, Ok prev, Ok cur =>
      (g_kfac_like g && negb (g_normalize g) && feqb (g_alpha1 g) f0 && feqb (g_damping g) lam &&
       (negb (fltb (rate_at g (s_steps st)) lo) && negb (fltb f1 (rate_at g (s_steps st)))) &&
       eqmb dK (fst M) UK && eqmb dC (fun i j => fmul (fdiv prev (fmul cur cur)) (snd M i j)) UC)%bool
  | _, _, _ => true
  end.
Fixpoint steadyb (c : cfg) (m : modul) (dK dC : nat) (UK UC : @mat Q_scalar) (lam lo : @F Q_scalar) (es : list (@event Q_scalar)) (st : @state Q_scalar) (M : @mat Q_scalar * @mat Q_scalar) : bool :=
  match es with
  | [] => true
  | e :: es' => (match e with EStep false => steadyb_at c m dK dC UK UC lam lo st M | _ => true end &&
                 steadyb c m dK dC UK UC lam lo es' (fst (event_op c e st)) (seen_event c m e st M))%bool
  end.
Lemma steadyb_ok c m dK dC UK UC lam lo es st M :
  steadyb c m dK dC UK UC lam lo es st M = true -> steady c m dK dC UK UC lam (fun lr => toR lo <= toR lr <= 1)%R es st M.
Proof.
  revert st M. induction es as [|e es IH]; intros st M H es1 es2 g prev cur E; [destruct es1; discriminate E|].
  cbn [steadyb] in H. apply andb_true_iff in H as [H1 H2]. destruct es1 as [|e' es1].
  - injection E as -> _. cbn [run seen]. cbv zeta. intros Hi Hd Eg Ep Ec. unfold steadyb_at in H1.
    rewrite Hi, (due_dueb _ _ _ Hd), Eg, Ep, Ec in H1. cbn [orb negb] in H1. apply andb_true_iff in H1 as [H1 A7]. apply andb_true_iff in H1 as [H1 A6].
    apply andb_true_iff in H1 as [H1 A5]. apply andb_true_iff in H1 as [H1 A4]. apply andb_true_iff in H1 as [H1 A3]. apply andb_true_iff in H1 as [H1 A2].
    apply feqb_iff in A3. apply feqb_iff in A4. apply andb_true_iff in A5 as [L1 L2]. apply negb_true_iff, toR_nlt in L1. apply negb_true_iff, toR_nlt in L2.
    rewrite toR_1 in L2. apply negb_true_iff in A2. split; [exact H1|]. split; [exact A2|]. split; [exact A3|]. split; [exact A4|]. split; [split; assumption|].
    split; apply eqmb_ok; assumption.
  - injection E as -> E. cbn [run seen]. exact (IH _ _ H2 es1 es2 g prev cur E).
Qed.

(** Three updates on a constant curvature (also a case of [C60_statistics], [C60_newton] and [C60_limit]): the second iteration with announced scale 4, a skipped one in between. *)
Definition nw_hist : list (@event Q_scalar) :=
  let it s := nw_iter s (qr 1 4) (qr 1 4) (qr 1 2) (qr 1 2) (qr 1 2) (qr 1 4) in
  it (q 1) ++ ex_step ++ it (q 4) ++ [@ESetScale Q_scalar (q 4)] ++ ex_step ++
  it (q 4) ++ [@EScaler Q_scalar (Some (Some (q 4))) true] ++ ex_step ++ it (q 4) ++ [@EScaler Q_scalar (Some (Some (q 4))) false] ++ ex_step.
Definition nw_UK : @mat Q_scalar := fun i j => let a k := nth k [qr 1 4; qr 1 4; q 1] (q 0) in Qcmult (a i) (a j).
Definition nw_UC : @mat Q_scalar := fun _ _ => qr 1 4.

Lemma C60_rate_example_case :
  let a := nw_args (qr 3 8) (qr 1 2) dense2 in let c := fst (built a) in let st0 := snd (built a) in let es := nw_hist in
  let AK := damp CDense 3 nw_UK (qr 3 8 : @F Q_scalar) in let AC := damp CDense 1 nw_UC (qr 3 8 : @F Q_scalar) in
  setting a ex_par c st0 /\ wf_run c es st0 /\ no_failed_step c es st0 /\ In ex_m1 (c_mods c) /\ has_ty c st0 ex_m1 CDense CDense 3 1 /\
  simple CDense /\ steady c ex_m1 3 1 nw_UK nw_UC (qr 3 8 : @F Q_scalar) (fun lr => toR (qr 1 2 : @F Q_scalar) <= toR lr <= 1)%R es st0 (zero, zero) /\
  symmetric 3 nw_UK /\ symmetric 1 nw_UC /\ small 3 (defect 3 ident AK) (toR (qr 7 8 : @F Q_scalar)) /\ small 1 (defect 1 ident AC) (toR (qr 7 8 : @F Q_scalar)) /\
  updates_of c ex_m1 es st0 = 3.
Proof.
  cbv zeta. split; [apply built_setting; vm_compute; reflexivity|]. split; [apply wf_runb_ok; vm_compute; reflexivity|].
  split; [apply no_failb_ok; vm_compute; reflexivity|]. split; [left; reflexivity|].
  split; [exact (has_ty_dec (fst (built (nw_args (qr 3 8) (qr 1 2) dense2))) (snd (built (nw_args (qr 3 8) (qr 1 2) dense2))) ex_m1 (Some CDense, Some CDense, Ok (3, 1)) ltac:(vm_compute; reflexivity))|]. split; [left; reflexivity|].
  split; [apply steadyb_ok; vm_compute; reflexivity|]. split; [intros i j _ _; apply Qcmult_comm|]. split; [intros i j _ _; reflexivity|].
  split; [apply smallb_ok; vm_compute; reflexivity|]. split; [apply smallb_ok; vm_compute; reflexivity|]. vm_compute. reflexivity.
Qed.

(** Diagonal preconditioners, no damping, learning rate 1/3, second moments diag(4, 1, 1) and 4: the first step gives
    K = diag(1/2, 1, 1) and C = 1/2, and the second one does not change them (also a case of [C60_structures]). *)
Definition nw_diag : @args Q_scalar := nw_args (q 0) (qr 1 3) (Some CDiag, Some CDiag).
Definition nw_it2 : list (@event Q_scalar) := nw_iter (q 1) (q 2) (q 1) (q 2) (q 1) (q 1) (q 1).
Definition nw_at (k : option (@smat Q_scalar)) : nat -> nat -> @F Q_scalar := match k with Some K => ent K | None => fun _ _ => f0 end.
Lemma is_some_ex {A} (o : option A) : (match o with Some _ => true | None => false end) = true -> exists x, o = Some x.
Proof. destruct o; [eauto|discriminate]. Qed.

Lemma C60_stationary_example_case :
  let c := fst (built nw_diag) in let st0 := snd (built nw_diag) in let es := nw_it2 ++ ex_step ++ nw_it2 in
  let st := run c es st0 in let st' := fst (step c false st) in
  setting nw_diag ex_par c st0 /\ wf_run c es st0 /\ no_failed_step c es st0 /\ In ex_m1 (c_mods c) /\ has_ty c st0 ex_m1 CDiag CDiag 3 1 /\ simple CDiag /\
  s_inf st = false /\ due c ex_m1 st /\ step c false st = (st', Ok tt) /\
  (exists g, get_group c (s_groups st) ex_m1 = Ok g /\ g_kfac_like g = true /\ g_normalize g = false /\ g_alpha1 g = f0 /\ rate_at g (s_steps st) <> f0) /\
  get_grad_scale (s_scales st) (Z.of_nat (s_steps st) - 1) = Ok f1 /\ step_scale st = Ok f1 /\
  (exists K C K' C', sl_K (s_slots st 0) = Some K /\ sl_C (s_slots st 0) = Some C /\ sl_K (s_slots st' 0) = Some K' /\ sl_C (s_slots st' 0) = Some C' /\
     eqm 3 (ent K') (ent K) /\ eqm 1 (ent C') (ent C) /\ nonsingular 3 (ent K) /\ nonsingular 1 (ent C) /\
     ent K 0 0 = qr 1 2 /\ ent K 1 1 = q 1 /\ ent C 0 0 = qr 1 2) /\
  mod_grads ex_m1 st (@t_scale Q_scalar (q 1) (qt [1; 2] [4; 2]%Z)) (Some (@t_scale Q_scalar (q 1) (qt [1] [2]%Z))).
Proof.
  cbv zeta. set (c := fst (built nw_diag)). set (st0 := snd (built nw_diag)).
  split; [apply built_setting; vm_compute; reflexivity|]. split; [apply wf_runb_ok; vm_compute; reflexivity|].
  split; [apply no_failb_ok; vm_compute; reflexivity|]. split; [left; reflexivity|].
  split; [exact (has_ty_dec c st0 ex_m1 (Some CDiag, Some CDiag, Ok (3, 1)) ltac:(vm_compute; reflexivity))|]. split; [right; reflexivity|].
  split; [vm_compute; reflexivity|]. split; [apply dueb_due; vm_compute; reflexivity|].
  split. { match goal with |- step c false ?s = _ => destruct (step c false s) as [s' r] eqn:E; assert (R : is_ok (snd (step c false s)) = true) by (vm_compute; reflexivity) end.
    rewrite E in R. cbn [snd is_ok] in R. destruct r as [[]|]; [reflexivity|discriminate R]. }
  split. { assert (H : match get_group c (s_groups (run c (nw_it2 ++ ex_step ++ nw_it2) st0)) ex_m1 with Ok g => (g_kfac_like g && negb (g_normalize g) && feqb (g_alpha1 g) f0 && negb (feqb (rate_at g (s_steps (run c (nw_it2 ++ ex_step ++ nw_it2) st0))) f0))%bool | Err _ => false end = true) by (vm_compute; reflexivity).
    match type of H with match ?x with _ => _ end = true => destruct x as [g|]; [|discriminate H] end. exists g. apply andb_true_iff in H as [H A4]. apply andb_true_iff in H as [H A3]. apply andb_true_iff in H as [H A2].
    split; [reflexivity|]. split; [exact H|]. split; [apply negb_true_iff; exact A2|]. split; [apply feqb_iff; exact A3|]. apply negb_true_iff in A4. intros X. apply feqb_iff in X. rewrite X in A4. discriminate A4. }
  split; [vm_compute; f_equal; apply Qc_is_canon; reflexivity|]. split; [vm_compute; f_equal; apply Qc_is_canon; reflexivity|]. split.
  - set (st := run c (nw_it2 ++ ex_step ++ nw_it2) st0). set (st' := fst (step c false st)).
    destruct (is_some_ex (sl_K (s_slots st 0)) ltac:(vm_compute; reflexivity)) as (K & EK). destruct (is_some_ex (sl_C (s_slots st 0)) ltac:(vm_compute; reflexivity)) as (C & EC).
    destruct (is_some_ex (sl_K (s_slots st' 0)) ltac:(vm_compute; reflexivity)) as (K' & EK'). destruct (is_some_ex (sl_C (s_slots st' 0)) ltac:(vm_compute; reflexivity)) as (C' & EC').
    assert (HK : ent K = nw_at (sl_K (s_slots st 0))) by (rewrite EK; reflexivity). assert (HC : ent C = nw_at (sl_C (s_slots st 0))) by (rewrite EC; reflexivity).
    assert (HK' : ent K' = nw_at (sl_K (s_slots st' 0))) by (rewrite EK'; reflexivity). assert (HC' : ent C' = nw_at (sl_C (s_slots st' 0))) by (rewrite EC'; reflexivity).
    exists K, C, K', C'. do 4 (split; [assumption|]). rewrite HK, HC, HK', HC'. clear.
    split; [apply eqmb_ok; vm_compute; reflexivity|]. split; [apply eqmb_ok; vm_compute; reflexivity|].
    split; [apply (@left_nonsingular Q_scalar _ 3 (fun i j => if Nat.eqb i j then if Nat.eqb i 0 then q 2 else q 1 else q 0)); apply eqmb_ok; vm_compute; reflexivity|].
    split; [apply (@left_nonsingular Q_scalar _ 1 (fun i j => q 2)); apply eqmb_ok; vm_compute; reflexivity|].
    split; [|split]; vm_compute; apply Qc_is_canon; reflexivity.
  - unfold mod_grads. split; [|split; [reflexivity|]]; [vm_compute; reflexivity|]. cbn [m_bias ex_m1]. split; [vm_compute; reflexivity|]. split; reflexivity.
Qed.

Lemma C60_large_refuted_lemma :
  let a := nw_args (q 1) (q 1) (Some CDiag, Some CDiag) in let c := fst (built a) in let st0 := snd (built a) in
  let it := nw_iter (q 1) (q 1) (q 1) (q 1) (q 2) (q 2) (q 2) ++ ex_step in
  setting a ex_par c st0 /\
  (forall es, In es [it ++ it ++ it; it ++ it ++ it ++ it] ->
     wf_run c es st0 /\ no_failed_step c es st0 /\ has_ty c st0 ex_m2 CDiag CDiag 1 2 /\
     steady c ex_m2 1 2 (fun _ _ => q 4 : @F Q_scalar) (fun _ _ => q 4 : @F Q_scalar) (q 1 : @F Q_scalar) (fun lr => toR (q 1 : @F Q_scalar) <= toR lr <= 1)%R es st0 (zero, zero)) /\
  updates_of c ex_m2 (it ++ it ++ it) st0 = 3 /\ updates_of c ex_m2 (it ++ it ++ it ++ it) st0 = 4 /\
  mmt 1 (nw_at (sl_K (s_slots (run c (it ++ it ++ it) st0) 1))) (nw_at (sl_K (s_slots (run c (it ++ it ++ it) st0) 1))) 0 0 = q 1 /\
  mmt 1 (nw_at (sl_K (s_slots (run c (it ++ it ++ it ++ it) st0) 1))) (nw_at (sl_K (s_slots (run c (it ++ it ++ it ++ it) st0) 1))) 0 0 = q 1 /\
  eqm 1 (mmm 1 (damp CDiag 1 (fun _ _ => q 4 : @F Q_scalar) (q 1 : @F Q_scalar)) (fun _ _ => qr 1 5 : @F Q_scalar)) ident.
Proof.
  cbv zeta. split; [apply built_setting; vm_compute; reflexivity|]. split.
  - intros es Hes.
    assert (X : exists n, es = concat (repeat (nw_iter (q 1) (q 1) (q 1) (q 1) (q 2) (q 2) (q 2) ++ ex_step) n) /\ (n = 3 \/ n = 4)).
    { destruct Hes as [<-|[<-|[]]]; [exists 3|exists 4]; (split; [|auto]); cbn [repeat concat]; rewrite app_nil_r; reflexivity. }
    destruct X as (n & -> & Hn).
    split; [apply wf_runb_ok; destruct Hn as [-> | ->]; vm_compute; reflexivity|]. split; [apply no_failb_ok; destruct Hn as [-> | ->]; vm_compute; reflexivity|].
    split; [exact (has_ty_dec (fst (built (nw_args (q 1) (q 1) (Some CDiag, Some CDiag)))) (snd (built (nw_args (q 1) (q 1) (Some CDiag, Some CDiag)))) ex_m2 (Some CDiag, Some CDiag, Ok (1, 2)) ltac:(vm_compute; reflexivity))|].
    apply steadyb_ok. destruct Hn as [-> | ->]; vm_compute; reflexivity.
  - split; [vm_compute; reflexivity|]. split; [vm_compute; reflexivity|]. split; [vm_compute; apply Qc_is_canon; reflexivity|].
    split; [vm_compute; apply Qc_is_canon; reflexivity|]. apply eqmb_ok. vm_compute. reflexivity.
Qed.
