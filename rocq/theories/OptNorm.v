(** Lemmas: bounds on the preconditioner and momentum updates with normalised learning rates, and the
    KFAC-like update of K K^T. *)

From Coq Require Import List Arith Lia Bool ZArith Field Reals Lra.
From Verif Require Import Scalar Res Tensor TensorFacts Structures StructSpec StructDense StructOps StructAct OptimUtils Optimizer Construct OptState OptRun OptSpec OptFacts OptConsume OptTyped OptStep OptPre RealOrd.
Import ListNotations.
Open Scope nat_scope.

Section Kfac.
Context {SC : Scalar} {FL : FieldLaws SC}.
Add Field Ffkf : F_ft.
Open Scope F_scope.

Definition symmetric (n : nat) (M : mat) : Prop := forall i j, (i < n)%nat -> (j < n)%nat -> M i j = M j i.
(** K^T U K. *)
Definition congr (n : nat) (K U : mat) : mat := fun i j => sum n (fun a => sum n (fun b => K a i * U a b * K b j)).
(** P (U + d I) P for symmetric P. *)
Definition damped (n : nat) (P U : mat) (d : F) : mat :=
  mmm n P (mmm n (fun i j => U i j + d * ident i j) P).

Lemma mmm_ident_r n A i j : (j < n)%nat -> mmm n A ident i j = A i j.
Proof.
  intros Hj. unfold mmm, ident. rewrite (sum_single n j _ Hj); [rewrite Nat.eqb_refl; ring|].
  intros k Hk N. destruct (Nat.eqb_spec k j); [contradiction|ring].
Qed.
Lemma mmm_ident_l n A i j : (i < n)%nat -> mmm n ident A i j = A i j.
Proof.
  intros Hi. unfold mmm, ident. rewrite (sum_single n i _ Hi); [rewrite Nat.eqb_refl; ring|].
  intros k Hk N. destruct (Nat.eqb_spec i k); [congruence|ring].
Qed.
Lemma mmm_assoc n A B C i j : mmm n (mmm n A B) C i j = mmm n A (mmm n B C) i j.
Proof.
  unfold mmm.
  transitivity (sum n (fun k => sum n (fun q => A i q * B q k * C k j))).
  - apply sum_ext. intros k _. rewrite <- sum_scale_r. reflexivity.
  - rewrite sum_swap. apply sum_ext. intros q _. rewrite <- sum_scale_l. apply sum_ext. intros k _. ring.
Qed.
Lemma mmm_ext n A A' B B' i j : (i < n)%nat -> (j < n)%nat -> eqm n A A' -> eqm n B B' -> mmm n A B i j = mmm n A' B' i j.
Proof. intros Hi Hj HA HB. unfold mmm. apply sum_ext. intros k Hk. rewrite HA, HB by assumption. reflexivity. Qed.
Lemma mmt_mmm n A B i j : mmt n A B i j = mmm n A (fun a b => B b a) i j.
Proof. reflexivity. Qed.

(** K' = K (I - b m) with symmetric m: K' K'^T. *)
Lemma square_step n K K' m b i j :
  (i < n)%nat -> (j < n)%nat -> symmetric n m -> eqm n K' (precond_of n K m b) ->
  mmt n K' K' i j = mmt n K K i j - (1 + 1) * b * mmt n (mmm n K m) K i j + b * b * mmt n (mmm n K m) (mmm n K m) i j.
Proof.
  intros Hi Hj Sm HK.
  assert (E : forall a k, (a < n)%nat -> (k < n)%nat -> K' a k = K a k - b * mmm n K m a k).
  { intros a k Ha Hk. rewrite HK by assumption. unfold precond_of.
    transitivity (mmm n K ident a k - b * mmm n K m a k); [|rewrite mmm_ident_r by exact Hk; reflexivity].
    unfold mmm. rewrite <- sum_scale_l, <- sum_minus. apply sum_ext. intros q _. ring. }
  assert (C : mmt n K (mmm n K m) i j = mmt n (mmm n K m) K i j).
  { unfold mmt, mmm.
    transitivity (sum n (fun k => sum n (fun q => K i k * m q k * K j q))).
    - apply sum_ext. intros k Hk. rewrite <- sum_scale_l. apply sum_ext. intros q Hq. ring.
    - rewrite sum_swap. apply sum_ext. intros q Hq. rewrite <- sum_scale_r. apply sum_ext. intros k Hk. rewrite (Sm q k) by assumption. ring. }
  transitivity (mmt n K K i j - b * mmt n K (mmm n K m) i j - b * mmt n (mmm n K m) K i j + b * b * mmt n (mmm n K m) (mmm n K m) i j).
  - unfold mmt. rewrite <- !sum_scale_l. rewrite <- !sum_minus, <- sum_plus. apply sum_ext. intros k Hk. rewrite !E by assumption. ring.
  - rewrite C. ring.
Qed.

Lemma two_neq0 : 1 + 1 <> 0.
Proof. intros E. apply (fofnat_neq0 2); [discriminate|]. transitivity (1 + 1); [cbn; ring|exact E]. Qed.

(** m = (K^T U K + d K^T K - I) / 2. *)
Lemma kfac_momentum n K U d m i j :
  (i < n)%nat -> (j < n)%nat ->
  eqm n m (fun a b => (congr n K U a b + d * tmm n K K a b - ident a b) / (1 + 1)) ->
  (1 + 1) * mmt n (mmm n K m) K i j = damped n (mmt n K K) U d i j - mmt n K K i j.
Proof.
  intros Hi Hj Hm.
  assert (M2 : forall k, (k < n)%nat -> (1 + 1) * mmm n K m i k = mmm n (mmt n K K) (mmm n U K) i k + d * mmm n (mmt n K K) K i k - K i k).
  { intros k Hk.
    assert (A1 : mmm n K (congr n K U) i k = mmm n (mmt n K K) (mmm n U K) i k).
    { transitivity (mmm n K (mmm n (fun a b => K b a) (mmm n U K)) i k).
      - apply mmm_ext; try assumption; [intros ? ? _ _; reflexivity|]. intros a b Ha Hb. unfold congr, mmm. apply sum_ext. intros q _.
        rewrite <- sum_scale_l. apply sum_ext. intros r _. ring.
      - rewrite <- mmm_assoc. reflexivity. }
    assert (A2 : mmm n K (tmm n K K) i k = mmm n (mmt n K K) K i k).
    { transitivity (mmm n K (mmm n (fun a b => K b a) K) i k); [reflexivity|]. rewrite <- mmm_assoc. reflexivity. }
    rewrite <- A1, <- A2.
    transitivity (mmm n K (congr n K U) i k + d * mmm n K (tmm n K K) i k - mmm n K ident i k); [|rewrite mmm_ident_r by exact Hk; reflexivity].
    unfold mmm. rewrite <- !sum_scale_l, <- sum_plus, <- sum_minus. apply sum_ext. intros q Hq. rewrite Hm by assumption. field. apply two_neq0. }
  transitivity (sum n (fun k => (mmm n (mmt n K K) (mmm n U K) i k + d * mmm n (mmt n K K) K i k - K i k) * K j k)).
  { unfold mmt at 1. rewrite <- sum_scale_l. apply sum_ext. intros k Hk. rewrite <- M2 by exact Hk. ring. }
  assert (B1 : sum n (fun k => mmm n (mmt n K K) (mmm n U K) i k * K j k) = mmm n (mmt n K K) (mmm n U (mmt n K K)) i j).
  { change (mmm n (mmm n (mmt n K K) (mmm n U K)) (fun a b => K b a) i j = mmm n (mmt n K K) (mmm n U (mmt n K K)) i j).
    rewrite mmm_assoc. apply mmm_ext; try assumption; [intros ? ? _ _; reflexivity|]. intros a b Ha Hb. rewrite mmm_assoc. reflexivity. }
  assert (B2 : sum n (fun k => mmm n (mmt n K K) K i k * K j k) = mmm n (mmt n K K) (mmt n K K) i j).
  { change (mmm n (mmm n (mmt n K K) K) (fun a b => K b a) i j = mmm n (mmt n K K) (mmt n K K) i j). rewrite mmm_assoc. reflexivity. }
  transitivity (mmm n (mmt n K K) (mmm n U (mmt n K K)) i j + d * mmm n (mmt n K K) (mmt n K K) i j - mmt n K K i j).
  { rewrite <- B1, <- B2. unfold mmt at 5. rewrite <- sum_scale_l, <- sum_plus, <- sum_minus. apply sum_ext. intros k _. ring. }
  f_equal. unfold damped.
  transitivity (mmm n (mmt n K K) (fun a b => mmm n U (mmt n K K) a b + d * mmt n K K a b) i j).
  - set (P := mmt n K K). set (V := mmm n U P). unfold mmm. rewrite <- sum_scale_l, <- sum_plus. apply sum_ext. intros k _. ring.
  - apply mmm_ext; try assumption; [intros ? ? _ _; reflexivity|]. intros a b Ha Hb. set (P := mmt n K K).
    transitivity (mmm n U P a b + d * mmm n ident P a b); [rewrite mmm_ident_l by exact Ha; reflexivity|]. unfold mmm. rewrite <- sum_scale_l, <- sum_plus. apply sum_ext. intros q _. ring.
Qed.

Lemma congr_sym n K U : symmetric n U -> symmetric n (congr n K U).
Proof.
  intros HU i j Hi Hj. unfold congr. rewrite sum_swap. apply sum_ext. intros b Hb. apply sum_ext. intros a Ha. rewrite (HU a b) by assumption. ring.
Qed.

(** The KFAC-like step of P = K K^T. *)
Lemma kfac_step n K K' U d m b i j :
  (i < n)%nat -> (j < n)%nat -> symmetric n U ->
  eqm n m (fun a b => (congr n K U a b + d * tmm n K K a b - ident a b) / (1 + 1)) ->
  eqm n K' (precond_of n K m b) ->
  let P := mmt n K K in
  mmt n K' K' i j = P i j - b * (damped n P U d i j - P i j) + b * b * mmt n (mmm n K m) (mmm n K m) i j.
Proof.
  intros Hi Hj HU Hm HK P.
  assert (Sm : symmetric n m).
  { intros a q Ha Hq. rewrite !Hm by assumption. rewrite (congr_sym n K U HU a q) by assumption.
    assert (T : tmm n K K a q = tmm n K K q a) by (unfold tmm; apply sum_ext; intros; ring). rewrite T.
    unfold ident. rewrite (Nat.eqb_sym q a). reflexivity. }
  rewrite (square_step n K K' m b i j Hi Hj Sm HK). unfold P.
  transitivity (mmt n K K i j - b * ((1 + 1) * mmt n (mmm n K m) K i j) + b * b * mmt n (mmm n K m) (mmm n K m) i j); [ring|].
  rewrite (kfac_momentum n K U d m i j Hi Hj Hm). reflexivity.
Qed.

(** Scaled curvature. *)
Lemma congr_scale n K U u i j : congr n K (fun a b => u * U a b) i j = u * congr n K U i j.
Proof.
  unfold congr. rewrite <- sum_scale_l. apply sum_ext. intros a _. rewrite <- sum_scale_l. apply sum_ext. intros b _. ring.
Qed.

(** (A K)^T (A K) = K^T (A^T A) K. *)
Lemma conj_congr N n A K i j : conj N n A K i j = congr n K (tmm N A A) i j.
Proof.
  unfold conj, tmm, mmm, congr.
  transitivity (sum N (fun k => sum n (fun a => sum n (fun b => K a i * (A k a * A k b) * K b j)))).
  - apply sum_ext. intros k _. rewrite sum_mul. apply sum_ext. intros a _. apply sum_ext. intros b _. ring.
  - rewrite sum_swap. apply sum_ext. intros a _. rewrite sum_swap. apply sum_ext. intros b _.
    rewrite <- sum_scale_l, <- sum_scale_r. apply sum_ext. intros k _. ring.
Qed.
Lemma tmm_sym N A n : symmetric n (tmm N A A).
Proof. intros i j _ _. unfold tmm. apply sum_ext. intros. ring. Qed.

(** The matrix a class multiplies with in the role of K where the formulas use K^T K: K itself, except
    K^T for block-diagonal matrices (see C05). *)
Definition eff (s : smat) : mat := fun i j => rent s j i.

(** An update with the documented formulas. *)
Lemma updated_doc g l n prev cur cK cC dK dC s s' :
  updated g l n prev cur cK cC dK dC s s' ->
  exists K C HK HC K' C' mK mC bK bC,
    sl_K s = Some K /\ sl_C s = Some C /\ sl_HK s = Some HK /\ sl_HC s = Some HC /\
    s' = mkSlots (Some K') (Some C') (if feqb (g_alpha1 g) 0 then sl_mK s else Some mK) (if feqb (g_alpha1 g) 0 then sl_mC s else Some mC) None None /\
    eqm dK (ent mK) (doc_mK (g_kfac_like g) (g_normalize g) (g_damping g) (g_alpha1 g) (prev / (cur * cur)) dK dC (proj cK dK)
       (ent HK) (ent HC) (eff K) (eff C) (oldm (sl_mK s))) /\
    eqm dC (ent mC) (doc_mC (g_kfac_like g) (g_normalize g) (g_damping g) (g_alpha1 g) (prev / (cur * cur)) dK dC (proj cC dC)
       (ent HK) (ent HC) (eff K) (eff C) (oldm (sl_mC s))) /\
    normalized_lr g (lr_cov_at g n) mK = Ok bK /\ normalized_lr g (lr_cov_at g n) mC = Ok bC /\
    eqm dK (ent K') (precond_of dK (ent K) (ent mK) bK) /\
    eqm dC (ent C') (precond_of dC (ent C) (ent mC) bC).
Proof.
  intros (K & C & HK & HC & K' & C' & mK & mC & bK & bC & _ & _ & _ & _ & EK & EC & EHK & EHC & VK & VC & _ & _ & E & _ & _ & _ & _ & B1 & B2 & H1 & H2 & H3 & H4).
  exists K, C, HK, HC, K', C', mK, mC, bK, bC. do 5 (split; [assumption|]).
  split; [|split; [|auto]].
  - intros i j Hi' Hj. rewrite H1 by assumption. unfold doc_mK, momentum_of. rewrite half_mscale.
    unfold hweight, dweight. reflexivity.
  - intros i j Hi' Hj. rewrite H2 by assumption. unfold doc_mC, momentum_of. rewrite half_mscale.
    unfold cweight, dweight. reflexivity.
Qed.

(** With normalisation the new momentum is a convex combination of the increment and the old one. *)
Lemma doc_mK_convex kfac damping al u dK dC P HK HC K C old z i j :
  doc_mK kfac true damping al u dK dC P HK HC K C old i j =
  (1 - al) * doc_mK kfac false damping 0 u dK dC P HK HC K C z i j + al * old i j.
Proof. unfold doc_mK, half. field. repeat split; try apply two_neq0. Qed.
Lemma doc_mC_convex kfac damping al u dK dC P HK HC K C old z i j :
  doc_mC kfac true damping al u dK dC P HK HC K C old i j =
  (1 - al) * doc_mC kfac false damping 0 u dK dC P HK HC K C z i j + al * old i j.
Proof. unfold doc_mC, half. field. repeat split; try apply two_neq0. Qed.

(** ** The KFAC-like update *)

Lemma proj_dense n M i j : proj CDense n M i j = M i j.
Proof. reflexivity. Qed.

Lemma kfac_update a par c st0 es m dK dC st' g :
  setting a par c st0 -> wf_run c es st0 -> In m (c_mods c) -> has_ty c st0 m CDense CDense dK dC ->
  let st := run c es st0 in
  s_inf st = false -> due c m st -> step c false st = (st', Ok tt) ->
  get_group c (s_groups st) m = Ok g -> g_kfac_like g = true -> g_alpha1 g = 0 ->
  let s := s_slots st (m_key m) in let s' := s_slots st' (m_key m) in
  exists K C HK HC K' C' bK bC SK SC prev cur,
    sl_K s = Some K /\ sl_C s = Some C /\ sl_HK s = Some HK /\ sl_HC s = Some HC /\ sl_K s' = Some K' /\ sl_C s' = Some C' /\
    get_grad_scale (s_scales st) (Z.of_nat (s_steps st) - 1) = Ok prev /\ step_scale st = Ok cur /\
    (g_normalize g = false -> bK = lr_cov_at g (s_steps st) /\ bC = lr_cov_at g (s_steps st)) /\
    (forall U, symmetric dK U -> eqm dK (ent HK) (congr dK (ent K) U) ->
       let P := mmt dK (ent K) (ent K) in
       eqm dK (mmt dK (ent K') (ent K')) (fun i j => P i j - bK * (damped dK P U (g_damping g) i j - P i j) + bK * bK * mmt dK SK SK i j)) /\
    (forall U, symmetric dC U -> eqm dC (ent HC) (congr dC (ent C) U) ->
       let P := mmt dC (ent C) (ent C) in
       eqm dC (mmt dC (ent C') (ent C')) (fun i j => P i j
         - bC * (damped dC P (fun i j => prev / (cur * cur) * U i j) (g_damping g) i j - P i j) + bC * bC * mmt dC SC SC i j)).
Proof.
  intros St W Hm T st Hi D H Eg Hk Ha s s'. pose proof (setting_typed _ _ _ _ _ St W) as [TO TA]. pose proof (setting_ok _ _ _ _ St) as [OK _].
  destruct (due_update_doc c _ st st' m CDense CDense dK dC OK TO TA Hm (has_ty_ctor _ _ _ _ _ _ _ T) I I Hi D H)
    as (g' & K & C & HK & HC & K' & C' & mK & mC & bK & bC & prev & cur & Eg' & EK & EC & EHK & EHC & Ep & Ec & Nc & Es & _ & _ & _ & _ & MK & MC & RK & RC & PK & PC).
  rewrite Eg in Eg'. injection Eg' as <-. fold s in EK, EC, EHK, EHC, Es. fold s' in Es. rewrite Hk, Ha in MK, MC.
  exists K, C, HK, HC, K', C', bK, bC, (mmm dK (ent K) (ent mK)), (mmm dC (ent C) (ent mC)), prev, cur.
  do 4 (split; [assumption|]). rewrite Es. do 2 (split; [reflexivity|]). do 2 (split; [assumption|]).
  split. { intros Hn. unfold normalized_lr in RK, RC. rewrite Hn in RK, RC. injection RK as <-. injection RC as <-. auto. }
  split.
  - intros U SU EU P i j Hi' Hj. apply kfac_step; try assumption. intros a' b' Ha' Hb'. rewrite MK by assumption. unfold doc_mK, half. rewrite proj_dense.
    rewrite EU by assumption. destruct (g_normalize g); field; apply two_neq0.
  - intros U SU EU P i j Hi' Hj. apply kfac_step; try assumption.
    + intros a' b' Ha' Hb'. rewrite (SU a' b') by assumption. reflexivity.
    + intros a' b' Ha' Hb'. rewrite MC by assumption. unfold doc_mC, half. rewrite proj_dense.
      rewrite EU by assumption. rewrite congr_scale. destruct (g_normalize g); (field; split; [|apply two_neq0]; assumption).
Qed.

(** The stored statistics are K^T U K for Gram matrices U. *)
Lemma curvature_congr a par c st0 es m dK dC K C HK HC :
  setting a par c st0 -> wf_run c es st0 -> In m (c_mods c) -> has_ty c st0 m CDense CDense dK dC ->
  let s := s_slots (run c es st0) (m_key m) in
  sl_K s = Some K -> sl_C s = Some C -> sl_HK s = Some HK -> sl_HC s = Some HC ->
  (exists N A, eqm dK (ent HK) (congr dK (ent K) (tmm N A A))) /\ (exists N B, eqm dC (ent HC) (congr dC (ent C) (tmm N B B))).
Proof.
  intros St W Hm T s EK EC EHK EHC. pose proof (setting_typed _ _ _ _ [] St I) as [TO TA]. pose proof (setting_ok _ _ _ _ St) as [[NK NP] L].
  pose proof (has_ty_ctor _ _ _ _ _ _ _ T) as Et.
  assert (S0 : stats_of CDense CDense dK dC (s_slots st0 (m_key m))).
  { destruct St as ((h & h' & E) & _ & _ & _ & SO).
    destruct (ctor_typed _ _ _ _ _ _ E NK SO L) as (_ & _ & TT). destruct (TT m Hm) as (g & cK' & cC' & dK' & dC' & K0 & C0 & T1 & T2 & T3 & _ & T5 & T6 & T7 & T8 & T9 & T10 & T11).
    split; intros ? ? _ X; congruence. }
  destruct (run_stats c _ es st0 m CDense CDense dK dC TO NK TA W Hm Et S0) as [R1 R2].
  pose proof (setting_typed _ _ _ _ _ St W) as [_ [TA' _]]. specialize (TA' m Hm). unfold mod_typed in TA'. rewrite Et in TA'. destruct TA' as [(K1 & A1 & V1) (C1 & A2 & V2) _ _ _ _].
  fold s in A1, A2. rewrite EK in A1. rewrite EC in A2. injection A1 as <-. injection A2 as <-.
  destruct (R1 K HK EK EHK) as (N & A & RA). destruct (R2 C HC EC EHC) as (N' & B & RB). split.
  - exists N, A. intros i j Hi Hj. rewrite RA by assumption. rewrite proj_dense, (inner_conj _ _ CDense) by (try exact I; assumption). apply conj_congr.
  - exists N', B. intros i j Hi Hj. rewrite RB by assumption. rewrite proj_dense, (inner_conj _ _ CDense) by (try exact I; assumption). apply conj_congr.
Qed.

End Kfac.

Section Norm.
Context {SC : Scalar} {FL : FieldLaws SC} {OR : Ordered SC}.
Add Field Ffno : F_ft.
Open Scope R_scope.

(** Trivial kernel. *)
Definition nonsingular (n : nat) (M : nat -> nat -> F) : Prop :=
  forall x : nat -> F, (forall i, (i < n)%nat -> sum n (fun j => M i j * x j)%F = f0) -> forall j, (j < n)%nat -> x j = f0.

(** The bound of the relative change. *)
Lemma rate_bound g beta c n m b :
  cls_ok c -> valid c n m -> n <> O -> g_normalize g = true -> normalized_lr g beta m = Ok b ->
  forall i j, (i < n)%nat -> (j < n)%nat -> Rabs (toR (b * ent m i j)%F) <= Rabs (toR beta).
Proof.
  intros Hok V Hn Hg E i j Hi Hj. destruct (rate_R g beta c n m Hok V Hn) as (b' & E' & _ & H). rewrite E in E'. injection E' as <-.
  destruct (H Hg) as (v & Ev & Lv & B & _). specialize (B i j Hi Hj). rewrite toR_mul, Ev, Rabs_mult. unfold Rdiv. rewrite Rabs_mult.
  rewrite (Rabs_right (/ v)) by (left; apply Rinv_0_lt_compat; lra). rewrite Rmult_assoc.
  rewrite <- (Rmult_1_r (Rabs (toR beta))) at 2. apply Rmult_le_compat_l; [apply Rabs_pos|].
  apply (Rmult_le_reg_l v); [lra|]. rewrite <- Rmult_assoc, Rinv_r by lra. lra.
Qed.

Lemma largest n (x : nat -> R) : n <> O -> exists i, (i < n)%nat /\ forall j, (j < n)%nat -> Rabs (x j) <= Rabs (x i).
Proof.
  induction n as [|n IH]; intros Hn; [congruence|]. destruct (Nat.eq_dec n 0) as [->|N0].
  - exists O. split; [lia|]. intros j Hj. replace j with O by lia. lra.
  - destruct (IH N0) as (i & Hi & B). destruct (Rle_dec (Rabs (x i)) (Rabs (x n))).
    + exists n. split; [lia|]. intros j Hj. destruct (Nat.eq_dec j n) as [->|]; [lra|]. specialize (B j ltac:(lia)). lra.
    + exists i. split; [lia|]. intros j Hj. destruct (Nat.eq_dec j n) as [->|]; [lra|]. apply B. lia.
Qed.

Lemma nonsingular_step n K K' B beta :
  nonsingular n K -> (forall i j, (i < n)%nat -> (j < n)%nat -> Rabs (toR (B i j)) <= beta) -> beta * INR n < 1 ->
  eqm n K' (mmm n K (fun i j => ident i j - B i j)%F) -> nonsingular n K'.
Proof.
  intros NS HB Hb HK x Hx. destruct (Nat.eq_dec n 0) as [->|Hn]; [intros j Hj; lia|].
  set (y := fun i => sum n (fun j => (ident i j - B i j) * x j)%F).
  assert (Hy : forall i, (i < n)%nat -> y i = f0).
  { apply NS. intros i Hi. rewrite <- (Hx i Hi). unfold y.
    transitivity (sum n (fun k => sum n (fun j => K i k * (ident k j - B k j) * x j)%F)).
    - apply sum_ext. intros k _. rewrite <- sum_scale_l. apply sum_ext. intros j _. ring.
    - rewrite sum_swap. apply sum_ext. intros j Hj. rewrite sum_scale_r. rewrite HK by assumption. reflexivity. }
  assert (Ex : forall i, (i < n)%nat -> x i = sum n (fun j => B i j * x j)%F).
  { intros i Hi. specialize (Hy i Hi). unfold y in Hy.
    assert (E : sum n (fun j => ident i j * x j)%F = x i).
    { rewrite (sum_single n i _ Hi); [unfold ident; rewrite Nat.eqb_refl; ring|]. intros k _ N. unfold ident. destruct (Nat.eqb_spec i k); [congruence|ring]. }
    transitivity (fadd (sum n (fun j => (ident i j - B i j) * x j)%F) (sum n (fun j => B i j * x j)%F)).
    - rewrite <- sum_plus. rewrite <- E. apply sum_ext. intros. ring.
    - rewrite Hy. ring. }
  destruct (largest n (fun i => toR (x i)) Hn) as (i & Hi & Mx).
  assert (L : Rabs (toR (x i)) <= INR n * (beta * Rabs (toR (x i)))).
  { rewrite (Ex i Hi) at 1. rewrite toR_sum. apply rsum_abs. intros j Hj. rewrite toR_mul, Rabs_mult.
    apply Rmult_le_compat; try apply Rabs_pos; [apply HB; assumption|apply Mx; exact Hj]. }
  pose proof (Rabs_pos (toR (x i))) as P0.
  assert (Z : Rabs (toR (x i)) = 0) by nra.
  intros j Hj. apply toR_inj. rewrite toR_0. specialize (Mx j Hj). pose proof (Rabs_pos (toR (x j))) as Pj.
  assert (A : Rabs (toR (x j)) = 0) by lra. unfold Rabs in A. destruct (Rcase_abs (toR (x j))); lra.
Qed.

Lemma nonsingular_ext n A B : eqm n A B -> nonsingular n A -> nonsingular n B.
Proof. intros E NS x Hx. apply NS. intros i Hi. rewrite <- (Hx i Hi). apply sum_ext. intros j Hj. rewrite E by assumption. reflexivity. Qed.
Lemma nonsingular_ident n : nonsingular n ident.
Proof.
  intros x Hx j Hj. rewrite <- (Hx j Hj). rewrite (sum_single n j _ Hj); [unfold ident; rewrite Nat.eqb_refl; ring|].
  intros k _ N. unfold ident. destruct (Nat.eqb_spec j k); [congruence|ring].
Qed.

(** Convex combinations. *)
Lemma convex_bound al a b M : 0 <= al <= 1 -> Rabs a <= M -> Rabs b <= M -> Rabs ((1 - al) * a + al * b) <= M.
Proof.
  intros H Ha Hb. eapply Rle_trans; [apply Rabs_triang|]. rewrite !Rabs_mult, (Rabs_right (1 - al)), (Rabs_right al) by lra. nra.
Qed.

(** ** Histories *)

Lemma same_pre_eq s s' : same_pre s s' -> sl_K s' = sl_K s /\ sl_C s' = sl_C s /\ sl_mK s' = sl_mK s /\ sl_mC s' = sl_mC s.
Proof. unfold same_pre. tauto. Qed.

Lemma precond_rate n K m b K' : eqm n K' (precond_of n K m b) -> eqm n K' (mmm n K (fun i j => ident i j - b * m i j)%F).
Proof. exact (fun H => H). Qed.

Lemma zero_change n (K : mat) : eqm n K (mmm n K (fun i j => ident i j - f0)%F).
Proof. intros i j Hi Hj. rewrite (mmm_ext n K K _ ident i j Hi Hj); [symmetry; apply mmm_ident_r; exact Hj|intros ? ? ? ?; reflexivity|]. intros a b _ _. ring. Qed.

Definition rel_change (n : nat) (K K' : mat) (bound : R) : Prop :=
  exists B : mat, eqm n K' (mmm n K (fun i j => ident i j - B i j)%F) /\ forall i j, (i < n)%nat -> (j < n)%nat -> Rabs (toR (B i j)) <= bound.

Lemma event_bounded a par c st0 es e m cK cC dK dC g K C K' C' :
  setting a par c st0 -> wf_run c es st0 -> In m (c_mods c) -> has_ty c st0 m cK cC dK dC ->
  let st := run c es st0 in let st' := fst (event_op c e st) in
  wf_event c st e -> get_group c (s_groups st) m = Ok g -> g_normalize g = true ->
  sl_K (s_slots st (m_key m)) = Some K -> sl_C (s_slots st (m_key m)) = Some C ->
  sl_K (s_slots st' (m_key m)) = Some K' -> sl_C (s_slots st' (m_key m)) = Some C' ->
  rel_change dK (ent K) (ent K') (Rabs (toR (lr_cov_at g (s_steps st)))) /\
  rel_change dC (ent C) (ent C') (Rabs (toR (lr_cov_at g (s_steps st)))).
Proof.
  intros S W Hm T st st' We Eg Hn EK EC EK' EC'. pose proof (setting_typed _ _ _ _ _ S W) as [TO TA]. pose proof (setting_ok _ _ _ _ S) as [[NK NP] L].
  pose proof (has_ty_ctor _ _ _ _ _ _ _ T) as Et. pose proof (TO m Hm) as TOm. rewrite Et in TOm. destruct TOm as ((OK & _ & _ & NdK) & (OC & _ & _ & NdC) & _).
  destruct (event_pre c _ e st m cK cC dK dC TO NK TA Hm Et We) as [Sp|(g' & prev & cur & _ & _ & Eg' & _ & _ & U)].
  - apply same_pre_eq in Sp as (S1 & S2 & _ & _). fold st' in S1, S2. rewrite S1, EK in EK'. rewrite S2, EC in EC'. injection EK' as <-. injection EC' as <-.
    assert (B0 : Rabs (toR f0) <= Rabs (toR (lr_cov_at g (s_steps st)))) by (rewrite toR_0, Rabs_R0; apply Rabs_pos).
    split; exists (fun _ _ => f0); (split; [apply zero_change|intros; exact B0]).
  - rewrite Eg in Eg'. injection Eg' as <-.
    destruct U as (K1 & C1 & HK & HC & K1' & C1' & mK & mC & bK & bC & _ & _ & _ & _ & U1 & U2 & _ & _ & _ & _ & _ & _ & Es & _ & _ & VmK & VmC & RK & RC & _ & _ & PK & PC).
    rewrite EK in U1. rewrite EC in U2. injection U1 as <-. injection U2 as <-. fold st' in Es. rewrite Es in EK', EC'. cbn in EK', EC'.
    injection EK' as <-. injection EC' as <-.
    split; [exists (fun i j => bK * ent mK i j)%F|exists (fun i j => bC * ent mC i j)%F]; (split; [assumption|]).
    + exact (rate_bound g _ cK dK mK bK OK VmK NdK Hn RK).
    + exact (rate_bound g _ cC dC mC bC OC VmC NdC Hn RC).
Qed.

Lemma run_nonsingular a par c st0 es m cK cC dK dC :
  setting a par c st0 -> wf_run c es st0 -> In m (c_mods c) -> has_ty c st0 m cK cC dK dC ->
  (forall es1 es2 g, es = es1 ++ EStep false :: es2 -> get_group c (s_groups (run c es1 st0)) m = Ok g ->
     g_normalize g = true /\ Rabs (toR (lr_cov_at g (s_steps (run c es1 st0)))) * INR (max dK dC) < 1) ->
  exists K C, sl_K (s_slots (run c es st0) (m_key m)) = Some K /\ sl_C (s_slots (run c es st0) (m_key m)) = Some C /\
    nonsingular dK (ent K) /\ nonsingular dC (ent C).
Proof.
  intros S W Hm T HB. pose proof (setting_typed _ _ _ _ [] S I) as [TO TA]. pose proof (setting_ok _ _ _ _ S) as [[NK NP] L].
  pose proof (has_ty_ctor _ _ _ _ _ _ _ T) as Et. pose proof (TO m Hm) as TOm. rewrite Et in TOm. destruct TOm as ((OK & _ & _ & NdK) & (OC & _ & _ & NdC) & _).
  apply (pre_invariant (fun s => exists K C, sl_K s = Some K /\ sl_C s = Some C /\ nonsingular dK (ent K) /\ nonsingular dC (ent C))
    (fun st => forall g, get_group c (s_groups st) m = Ok g -> g_normalize g = true /\ Rabs (toR (lr_cov_at g (s_steps st))) * INR (max dK dC) < 1)
    c _ m cK cC dK dC TO NK Hm Et); try assumption.
  - intros s s' (K & C & H1 & H2 & H3) Sp. apply same_pre_eq in Sp as (S1 & S2 & _). exists K, C. rewrite S1, S2. auto.
  - intros st g prev cur s' _ Hok Eg _ _ U (K & C & EK & EC & NSK & NSC). destruct (Hok g Eg) as [Hn Hb].
    destruct U as (K1 & C1 & HK & HC & K1' & C1' & mK & mC & bK & bC & _ & _ & _ & _ & U1 & U2 & _ & _ & _ & _ & _ & _ & -> & _ & _ & VmK & VmC & RK & RC & _ & _ & PK & PC).
    rewrite EK in U1. rewrite EC in U2. injection U1 as <-. injection U2 as <-. exists K1', C1'. cbn. do 2 (split; [reflexivity|]).
    pose proof (Rabs_pos (toR (lr_cov_at g (s_steps st)))) as P0.
    pose proof (le_INR _ _ (Nat.le_max_l dK dC)). pose proof (le_INR _ _ (Nat.le_max_r dK dC)).
    split.
    + apply (nonsingular_step dK (ent K) (ent K1') (fun i j => bK * ent mK i j)%F (Rabs (toR (lr_cov_at g (s_steps st)))) NSK); [|nra|exact PK].
      exact (rate_bound g _ cK dK mK bK OK VmK NdK Hn RK).
    + apply (nonsingular_step dC (ent C) (ent C1') (fun i j => bC * ent mC i j)%F (Rabs (toR (lr_cov_at g (s_steps st)))) NSC); [|nra|exact PC].
      exact (rate_bound g _ cC dC mC bC OC VmC NdC Hn RC).
  - intros es1 es2 E g Eg. exact (HB es1 es2 g E Eg).
  - destruct S as ((h & h' & E) & _ & _ & _ & SO).
    destruct (ctor_typed _ _ _ _ _ _ E NK SO L) as (_ & _ & TT). destruct (TT m Hm) as (g & cK' & cC' & dK' & dC' & K & C & T1 & T2 & T3 & _ & T5 & T6 & T7 & T8 & _).
    destruct T as (g' & Eg' & Es' & Ed'). rewrite T1 in Eg'. injection Eg' as <-. rewrite T3 in Ed'. injection Ed' as -> ->.
    exists K, C. do 2 (split; [assumption|]).
    split; eapply nonsingular_ext; [|apply nonsingular_ident| |apply nonsingular_ident]; intros i j Hi Hj; symmetry; auto.
Qed.

(** The increments of the momenta of one module if [st] is followed by a step. *)
Definition incr_bounded (c : cfg) (m : modul) (cK cC : cls) (dK dC : nat) (M : R) (st : state) : Prop :=
  forall g prev cur K C HK HC, get_group c (s_groups st) m = Ok g -> due c m st ->
    get_grad_scale (s_scales st) (Z.of_nat (s_steps st) - 1) = Ok prev -> step_scale st = Ok cur ->
    sl_K (s_slots st (m_key m)) = Some K -> sl_C (s_slots st (m_key m)) = Some C ->
    sl_HK (s_slots st (m_key m)) = Some HK -> sl_HC (s_slots st (m_key m)) = Some HC ->
    g_normalize g = true /\ 0 <= toR (g_alpha1 g) <= 1 /\
    (forall i j, (i < dK)%nat -> (j < dK)%nat -> Rabs (toR (doc_mK (g_kfac_like g) false (g_damping g) f0 (prev / (cur * cur))%F dK dC (proj cK dK)
       (ent HK) (ent HC) (eff K) (eff C) (fun _ _ => f0) i j)) <= M) /\
    (forall i j, (i < dC)%nat -> (j < dC)%nat -> Rabs (toR (doc_mC (g_kfac_like g) false (g_damping g) f0 (prev / (cur * cur))%F dK dC (proj cC dC)
       (ent HK) (ent HC) (eff K) (eff C) (fun _ _ => f0) i j)) <= M).

Lemma run_momentum_bounded a par c st0 es m cK cC dK dC M :
  setting a par c st0 -> wf_run c es st0 -> In m (c_mods c) -> has_ty c st0 m cK cC dK dC -> 0 <= M ->
  (forall es1 es2, es = es1 ++ EStep false :: es2 -> incr_bounded c m cK cC dK dC M (run c es1 st0)) ->
  let s := s_slots (run c es st0) (m_key m) in
  (forall mK, sl_mK s = Some mK -> forall i j, (i < dK)%nat -> (j < dK)%nat -> Rabs (toR (ent mK i j)) <= M) /\
  (forall mC, sl_mC s = Some mC -> forall i j, (i < dC)%nat -> (j < dC)%nat -> Rabs (toR (ent mC i j)) <= M).
Proof.
  intros S W Hm T HM HB. pose proof (setting_typed _ _ _ _ [] S I) as [TO TA]. pose proof (setting_ok _ _ _ _ S) as [[NK NP] L].
  pose proof (has_ty_ctor _ _ _ _ _ _ _ T) as Et. cbv zeta.
  apply (pre_invariant (fun s => 
    (forall mK, sl_mK s = Some mK -> forall i j, (i < dK)%nat -> (j < dK)%nat -> Rabs (toR (ent mK i j)) <= M) /\
    (forall mC, sl_mC s = Some mC -> forall i j, (i < dC)%nat -> (j < dC)%nat -> Rabs (toR (ent mC i j)) <= M))
    (incr_bounded c m cK cC dK dC M) c _ m cK cC dK dC TO NK Hm Et); try assumption.
  - intros s s' [H1 H2] Sp. apply same_pre_eq in Sp as (_ & _ & S1 & S2). rewrite S1, S2. auto.
  - intros st g prev cur s' _ Hok Eg Ep Ec U [IK IC].
    assert (D : due c m st) by (destruct U as (? & ? & ? & ? & ? & ? & ? & ? & ? & ? & U1 & U2 & _); exists g; auto).
    destruct (updated_doc _ _ _ _ _ _ _ _ _ _ _ U) as (K & C & HK & HC & K' & C' & mK & mC & bK & bC & EK & EC & EHK & EHC & -> & MK & MC & _).
    destruct (Hok g prev cur K C HK HC Eg D Ep Ec EK EC EHK EHC) as (Hn & Ha & BK & BC). rewrite Hn in MK, MC. cbn.
    assert (OB : forall (n : nat) (o : option smat), (forall x, o = Some x -> forall i j, (i < n)%nat -> (j < n)%nat -> Rabs (toR (ent x i j)) <= M) ->
       forall i j, (i < n)%nat -> (j < n)%nat -> Rabs (toR (oldm o i j)) <= M).
    { intros n [x|] H i j Hi Hj; cbn; [apply (H x eq_refl); assumption|]. rewrite toR_0, Rabs_R0. exact HM. }
    split; intros x; (destruct (feqb (g_alpha1 g) f0); [auto|]); intros X; injection X as <-; intros i j Hi Hj.
    + rewrite MK by assumption. rewrite (doc_mK_convex _ _ _ _ _ _ _ _ _ _ _ _ (fun _ _ => f0)). rewrite toR_add, !toR_mul, toR_sub, toR_1.
      apply convex_bound; [exact Ha|apply BK; assumption|exact (OB dK _ IK i j Hi Hj)].
    + rewrite MC by assumption. rewrite (doc_mC_convex _ _ _ _ _ _ _ _ _ _ _ _ (fun _ _ => f0)). rewrite toR_add, !toR_mul, toR_sub, toR_1.
      apply convex_bound; [exact Ha|apply BC; assumption|exact (OB dC _ IC i j Hi Hj)].
  - destruct S as ((h & h' & E) & _ & _ & _ & SO).
    destruct (ctor_typed _ _ _ _ _ _ E NK SO L) as (_ & _ & TT). destruct (TT m Hm) as (g & cK' & cC' & dK' & dC' & K & C & T1 & T2 & T3 & _ & T5 & T6 & T7 & T8 & T9 & _).
    destruct T as (g' & Eg' & Es' & Ed'). rewrite T1 in Eg'. injection Eg' as <-. rewrite T3 in Ed'. injection Ed' as -> ->.
    destruct (feqb (g_alpha1 g) f0).
    + destruct T9 as [-> ->]. split; discriminate.
    + destruct T9 as (mK & mC & -> & -> & Z1 & Z2). split; intros x X; injection X as <-; intros i j Hi Hj; [rewrite Z1|rewrite Z2]; try assumption; rewrite toR_0, Rabs_R0; exact HM.
Qed.

End Norm.
