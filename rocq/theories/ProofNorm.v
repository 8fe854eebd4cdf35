(** C37, C38: preconditioner updates with normalised learning rates, and KFAC-like updates.

    As in PropUpdate.v all statements are about an optimizer built by the constructor ([setting]) after
    an arbitrary history of calls, failing ones included, with tensors of the layers' shapes. *)

From Coq Require Import List Arith Lia Bool ZArith QArith Qcanon Reals Lra.
From Verif Require Import Scalar Res Tensor TensorFacts Structures StructSpec StructNorm OptimUtils Optimizer Construct OptState OptRun OptSpec OptFacts OptConsume OptTyped OptStep OptPre OptMom RealOrd OptNorm CtorSpec CtorFacts QEx OptEx OptEx2 OptEx3 ProofUpdate.
Import ListNotations.
Open Scope nat_scope.

(** * C37 *)

Section PropNorm.
Context {SC : Scalar} {FL : FieldLaws SC} {OR : Ordered SC}.
Open Scope R_scope.

Lemma C37_bounded_lemma a par c st0 es e m cK cC dK dC g K C K' C' :
  setting a par c st0 -> wf_run c es st0 -> In m (c_mods c) -> has_ty c st0 m cK cC dK dC ->
  let st := run c es st0 in let st' := fst (event_op c e st) in
  wf_event c st e -> get_group c (s_groups st) m = Ok g -> g_normalize g = true ->
  sl_K (s_slots st (m_key m)) = Some K -> sl_C (s_slots st (m_key m)) = Some C ->
  sl_K (s_slots st' (m_key m)) = Some K' -> sl_C (s_slots st' (m_key m)) = Some C' ->
  let lr_cov := Rabs (toR (rate_at g (s_steps st))) in
  (exists B, eqm dK (ent K') (mmm dK (ent K) (fun i j => ident i j - B i j)%F) /\
     forall i j, (i < dK)%nat -> (j < dK)%nat -> Rabs (toR (B i j)) <= lr_cov) /\
  (exists B, eqm dC (ent C') (mmm dC (ent C) (fun i j => ident i j - B i j)%F) /\
     forall i j, (i < dC)%nat -> (j < dC)%nat -> Rabs (toR (B i j)) <= lr_cov).
Proof. exact (event_bounded a par c st0 es e m cK cC dK dC g K C K' C'). Qed.

Lemma C37_momentum_bounded_lemma a par c st0 es m cK cC dK dC M :
  setting a par c st0 -> wf_run c es st0 -> In m (c_mods c) -> has_ty c st0 m cK cC dK dC -> 0 <= M ->
  (forall es1 es2 g prev cur K C HK HC, es = es1 ++ EStep false :: es2 ->
     let st := run c es1 st0 in let s := s_slots st (m_key m) in let u := (prev / (cur * cur))%F in
     get_group c (s_groups st) m = Ok g -> due c m st ->
     get_grad_scale (s_scales st) (Z.of_nat (s_steps st) - 1) = Ok prev -> step_scale st = Ok cur ->
     sl_K s = Some K -> sl_C s = Some C -> sl_HK s = Some HK -> sl_HC s = Some HC ->
     g_normalize g = true /\ 0 <= toR (g_alpha1 g) <= 1 /\
     (forall i j, (i < dK)%nat -> (j < dK)%nat -> Rabs (toR (doc_mK (g_kfac_like g) false (g_damping g) f0 u dK dC (proj cK dK)
        (ent HK) (ent HC) (eff K) (eff C) (fun _ _ => f0) i j)) <= M) /\
     (forall i j, (i < dC)%nat -> (j < dC)%nat -> Rabs (toR (doc_mC (g_kfac_like g) false (g_damping g) f0 u dK dC (proj cC dC)
        (ent HK) (ent HC) (eff K) (eff C) (fun _ _ => f0) i j)) <= M)) ->
  let s := s_slots (run c es st0) (m_key m) in
  (forall mK, sl_mK s = Some mK -> forall i j, (i < dK)%nat -> (j < dK)%nat -> Rabs (toR (ent mK i j)) <= M) /\
  (forall mC, sl_mC s = Some mC -> forall i j, (i < dC)%nat -> (j < dC)%nat -> Rabs (toR (ent mC i j)) <= M).
Proof.
  intros St W Hm T HM H. apply (run_momentum_bounded a par c st0 es m cK cC dK dC M St W Hm T HM).
  intros es1 es2 E g prev cur K C HK HC. exact (H es1 es2 g prev cur K C HK HC E).
Qed.

Lemma C37_nonsingular_lemma a par c st0 es m cK cC dK dC :
  setting a par c st0 -> wf_run c es st0 -> In m (c_mods c) -> has_ty c st0 m cK cC dK dC ->
  (forall es1 es2 g, es = es1 ++ EStep false :: es2 -> get_group c (s_groups (run c es1 st0)) m = Ok g ->
     g_normalize g = true /\ Rabs (toR (rate_at g (s_steps (run c es1 st0)))) * INR (max dK dC) < 1) ->
  exists K C, sl_K (s_slots (run c es st0) (m_key m)) = Some K /\ sl_C (s_slots (run c es st0) (m_key m)) = Some C /\
    (forall x : nat -> F, (forall i, (i < dK)%nat -> sum dK (fun j => ent K i j * x j)%F = f0) -> forall j, (j < dK)%nat -> x j = f0) /\
    (forall x : nat -> F, (forall i, (i < dC)%nat -> sum dC (fun j => ent C i j * x j)%F = f0) -> forall j, (j < dC)%nat -> x j = f0).
Proof. exact (run_nonsingular a par c st0 es m cK cC dK dC). Qed.

End PropNorm.

(** * C38 *)

Section PropKfac.
Context {SC : Scalar} {FL : FieldLaws SC}.
Open Scope F_scope.

Lemma C38_update_lemma a par c st0 es m dK dC st' g :
  setting a par c st0 -> wf_run c es st0 -> In m (c_mods c) -> has_ty c st0 m CDense CDense dK dC ->
  let st := run c es st0 in
  s_inf st = false -> due c m st -> step c false st = (st', Ok tt) ->
  get_group c (s_groups st) m = Ok g -> g_kfac_like g = true -> g_alpha1 g = 0 ->
  let s := s_slots st (m_key m) in let s' := s_slots st' (m_key m) in
  exists K C HK HC K' C' bK bC SK SC prev cur,
    sl_K s = Some K /\ sl_C s = Some C /\ sl_HK s = Some HK /\ sl_HC s = Some HC /\ sl_K s' = Some K' /\ sl_C s' = Some C' /\
    get_grad_scale (s_scales st) (Z.of_nat (s_steps st) - 1) = Ok prev /\ step_scale st = Ok cur /\
    (g_normalize g = false -> bK = rate_at g (s_steps st) /\ bC = rate_at g (s_steps st)) /\
    (forall U, symmetric dK U -> eqm dK (ent HK) (congr dK (ent K) U) ->
       let P := mmt dK (ent K) (ent K) in
       eqm dK (mmt dK (ent K') (ent K')) (fun i j => P i j - bK * (damped dK P U (g_damping g) i j - P i j) + bK * bK * mmt dK SK SK i j)) /\
    (forall U, symmetric dC U -> eqm dC (ent HC) (congr dC (ent C) U) ->
       let P := mmt dC (ent C) (ent C) in
       eqm dC (mmt dC (ent C') (ent C')) (fun i j => P i j
         - bC * (damped dC P (fun i j => prev / (cur * cur) * U i j) (g_damping g) i j - P i j) + bC * bC * mmt dC SC SC i j)).
Proof. exact (kfac_update a par c st0 es m dK dC st' g). Qed.

Lemma C38_curvature_lemma a par c st0 es m dK dC K C HK HC :
  setting a par c st0 -> wf_run c es st0 -> In m (c_mods c) -> has_ty c st0 m CDense CDense dK dC ->
  let s := s_slots (run c es st0) (m_key m) in
  sl_K s = Some K -> sl_C s = Some C -> sl_HK s = Some HK -> sl_HC s = Some HC ->
  (exists N A, eqm dK (ent HK) (congr dK (ent K) (tmm N A A))) /\ (exists N B, eqm dC (ent HC) (congr dC (ent C) (tmm N B B))).
Proof. exact (curvature_congr a par c st0 es m dK dC K C HK HC). Qed.

Lemma C38_constructor_lemma a par c st0 es m g :
  setting a par c st0 -> wf_run c es st0 -> In m (c_mods c) -> get_group c (s_groups st0) m = Ok g -> g_kfac_like g = true ->
  g_alpha1 g = 0 /\ sl_mK (s_slots (run c es st0) (m_key m)) = None /\ sl_mC (s_slots (run c es st0) (m_key m)) = None.
Proof. exact (kfac_no_momenta a par c st0 es m g). Qed.

End PropKfac.

Lemma nz_setting_case : setting (nz_args false) ex_par nz_c nz_0 /\ wf_run nz_c nz_es nz_0 /\ c_mods nz_c = [ex_m1; ex_m2] /\
  has_ty nz_c nz_0 ex_m1 CDense CDense 3 1 /\ no_failed_step nz_c nz_es nz_0.
Proof.
  split; [apply built_setting; vm_compute; reflexivity|]. split; [apply wf_runb_ok; vm_compute; reflexivity|]. split; [vm_compute; reflexivity|].
  split; [exact (has_ty_dec nz_c nz_0 ex_m1 (Some CDense, Some CDense, Ok (3, 1)) ltac:(vm_compute; reflexivity))|].
  apply no_failb_ok. vm_compute. reflexivity.
Qed.

Lemma C37_bounded_example_case :
  pre_of nz_0 0 <> pre_of (run nz_c (ex_iter (q 1) ++ ex_step) nz_0) 0 /\ pre_of (run nz_c (ex_iter (q 1) ++ ex_step) nz_0) 0 <> pre_of (run nz_c nz_es nz_0) 0.
Proof. split; vm_compute; discriminate. Qed.

Lemma C37_nonsingular_example_case es1 es2 g :
  nz_es = es1 ++ @EStep Q_scalar false :: es2 -> get_group nz_c (s_groups (run nz_c es1 nz_0)) ex_m1 = Ok g ->
  g_normalize g = true /\ (Rabs (toR (rate_at g (s_steps (run nz_c es1 nz_0)))) * INR (max 3 1) < 1)%R.
Proof.
  intros E Eg.
  assert (H : at_steps (fun st => match get_group nz_c (s_groups st) ex_m1 with
    | Ok g => g_normalize g && @fltb Q_scalar (fmul (fabs (rate_at g (s_steps st))) (fofnat 3)) f1 | Err _ => false end) nz_c nz_es nz_0 = true) by (vm_compute; reflexivity).
  pose proof (at_steps_ok _ _ _ _ H es1 es2 E) as B. cbv beta in B. rewrite Eg in B. apply andb_true_iff in B as [B1 B2]. split; [exact B1|].
  apply toR_lt in B2. rewrite toR_mul, toR_abs, toR_ofnat, toR_1 in B2. exact B2.
Qed.

Lemma C37_momentum_bounded_example_case es1 es2 :
  nz_es = es1 ++ @EStep Q_scalar false :: es2 -> incr_bounded nz_c ex_m1 CDense CDense 3 1 (toR (q 36 : @F Q_scalar)) (run nz_c es1 nz_0).
Proof.
  intros E. assert (H : at_steps (incrb nz_c ex_m1 CDense CDense 3 1 (q 36)) nz_c nz_es nz_0 = true) by (vm_compute; reflexivity).
  apply incrb_ok. exact (at_steps_ok _ _ _ _ H es1 es2 E).
Qed.

Lemma C38_example_case :
  let c := fst (built (nz_args true)) in let st0 := snd (built (nz_args true)) in
  let es := ex_iter (q 1) ++ ex_step ++ ex_iter (q 1) in let st := run c es st0 in
  setting (nz_args true) ex_par c st0 /\ wf_run c es st0 /\ due c ex_m1 st /\ s_inf st = false /\ is_ok (snd (step c false st)) = true /\
  has_H st 0 = true /\ pre_of (fst (step c false st)) 0 <> pre_of st 0 /\
  match get_group c (s_groups st0) ex_m1 with Ok g => g_kfac_like g = true /\ @feqb Q_scalar (g_alpha1 g) f0 = true | Err _ => False end /\
  has_ty c st0 ex_m1 CDense CDense 3 1.
Proof.
  cbv zeta. split; [apply built_setting; vm_compute; reflexivity|]. split; [apply wf_runb_ok; vm_compute; reflexivity|].
  split; [apply dueb_due; vm_compute; reflexivity|]. do 3 (split; [vm_compute; reflexivity|]). split; [vm_compute; discriminate|].
  split; [vm_compute; split; reflexivity|].
  exact (has_ty_dec (fst (built (nz_args true))) (snd (built (nz_args true))) ex_m1 (Some CDense, Some CDense, Ok (3, 1)) ltac:(vm_compute; reflexivity)).
Qed.
