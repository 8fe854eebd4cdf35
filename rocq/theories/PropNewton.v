(** C60: KFAC-like preconditioners converge to the inverse of the damped curvature. *)

From Coq Require Import List Arith Lia Bool ZArith QArith Qcanon Field Setoid Reals Lra.
From Verif Require Import Scalar Res Tensor TensorFacts Structures StructSpec StructAct OptimUtils ProofUtils Optimizer Construct OptSpec OptState OptRun OptFacts OptConsume OptTyped OptStep OptMom RealOrd OptNorm QEx OptEx OptEx2 OptEx3 ProofUpdate NewtonSpec MatInv Newton ProofNewton.
Import ListNotations.
Open Scope nat_scope.

Section PropNewton.
Context {SC : Scalar} {FL : FieldLaws SC}.
Open Scope F_scope.

(** At any point of a history whose steps do not raise, the stored statistics are the projections of K^T M K and C^T M' C, for
    the second moments M and M' of the layer's inputs and output gradients of the passes since the last update. *)
Theorem C60_statistics : forall a par c st0 es m cK cC dK dC,
  setting a par c st0 -> wf_run c es st0 -> no_failed_step c es st0 ->
  In m (c_mods c) -> has_ty c st0 m cK cC dK dC -> nonblock cK -> nonblock cC ->
  let s := s_slots (run c es st0) (m_key m) in let M := seen c m es st0 (zero, zero) in
  exists K C, sl_K s = Some K /\ sl_C s = Some C /\
    match sl_HK s with Some H => eqm dK (ent H) (proj cK dK (congr dK (ent K) (fst M))) | None => eqm dK (fst M) zero end /\
    match sl_HC s with Some H => eqm dC (ent H) (proj cC dC (congr dC (ent C) (snd M))) | None => eqm dC (snd M) zero end.
Proof. exact C60_statistics_lemma. Qed.

(** A due step is K' = K (I + lr_cov/2 (I - K^T A K)) with A the damped curvature, and likewise for C. *)
Theorem C60_newton : forall a par c st0 es st' m cK cC dK dC g prev cur,
  setting a par c st0 -> wf_run c es st0 -> no_failed_step c es st0 ->
  In m (c_mods c) -> has_ty c st0 m cK cC dK dC -> simple cK -> simple cC ->
  let st := run c es st0 in let M := seen c m es st0 (zero, zero) in
  s_inf st = false -> due c m st -> step c false st = (st', Ok tt) -> get_group c (s_groups st) m = Ok g ->
  get_grad_scale (s_scales st) (Z.of_nat (s_steps st) - 1) = Ok prev -> step_scale st = Ok cur ->
  g_kfac_like g = true -> g_normalize g = false -> g_alpha1 g = 0 ->
  let AK := damp cK dK (fst M) (g_damping g) in
  let AC := damp cC dC (fun i j => prev / (cur * cur) * snd M i j) (g_damping g) in
  exists K C K' C',
    sl_K (s_slots st (m_key m)) = Some K /\ sl_C (s_slots st (m_key m)) = Some C /\
    sl_K (s_slots st' (m_key m)) = Some K' /\ sl_C (s_slots st' (m_key m)) = Some C' /\
    let b := rate_at g (s_steps st) in
    eqm dK (ent K') (mmm dK (ent K) (fun i j => ident i j + b / (1 + 1) * defect dK (ent K) AK i j)) /\
    eqm dC (ent C') (mmm dC (ent C) (fun i j => ident i j + b / (1 + 1) * defect dC (ent C) AC i j)).
Proof. exact C60_newton_lemma. Qed.

(** If such a step does not change the (nonsingular) preconditioners, K K^T and C C^T are exactly the inverses of the damped
    curvature, and the direction D taken by this step is the exact Kronecker-factored Newton step: (UC + lam I) D (UK + lam I) is the
    (un-scaled) gradient. *)
Theorem C60_stationary : forall a par c st0 es st' m cK cC dK dC g prev cur K C K' C' wg bg,
  setting a par c st0 -> wf_run c es st0 -> no_failed_step c es st0 ->
  In m (c_mods c) -> has_ty c st0 m cK cC dK dC -> simple cK -> simple cC ->
  let st := run c es st0 in let M := seen c m es st0 (zero, zero) in
  s_inf st = false -> due c m st -> step c false st = (st', Ok tt) -> get_group c (s_groups st) m = Ok g ->
  get_grad_scale (s_scales st) (Z.of_nat (s_steps st) - 1) = Ok prev -> step_scale st = Ok cur ->
  g_kfac_like g = true -> g_normalize g = false -> g_alpha1 g = 0 -> rate_at g (s_steps st) <> 0 ->
  sl_K (s_slots st (m_key m)) = Some K -> sl_C (s_slots st (m_key m)) = Some C ->
  sl_K (s_slots st' (m_key m)) = Some K' -> sl_C (s_slots st' (m_key m)) = Some C' ->
  eqm dK (ent K') (ent K) -> eqm dC (ent C') (ent C) -> nonsingular dK (ent K) -> nonsingular dC (ent C) ->
  mod_grads m st wg bg -> cur <> 0 ->
  let AK := damp cK dK (fst M) (g_damping g) in
  let AC := damp cC dC (fun i j => prev / (cur * cur) * snd M i j) (g_damping g) in
  eqm dK (mmm dK AK (mmt dK (ent K) (ent K))) ident /\ eqm dK (mmm dK (mmt dK (ent K) (ent K)) AK) ident /\
  eqm dC (mmm dC AC (mmt dC (ent C) (ent C))) ident /\ eqm dC (mmm dC (mmt dC (ent C) (ent C)) AC) ident /\
  exists G w b D, grad_matrix (m_layer m) wg bg = Ok G /\ direction m st st' = Ok (w, b) /\ grad_matrix (m_layer m) w b = Ok D /\
    forall i j, (i < dC)%nat -> (j < dK)%nat -> mmm dC AC (mmm dK (get2 D) AK) i j = get2 G i j / cur.
Proof. exact C60_stationary_lemma. Qed.

(** For every structure but the block-diagonal one: if a due step does not change the (nonsingular) preconditioners, the damped
    curvature in the coordinates K (respectively C), as far as the structure sees it, is the identity. *)
Theorem C60_structures : forall a par c st0 es st' m cK cC dK dC g prev cur K C K' C',
  setting a par c st0 -> wf_run c es st0 -> no_failed_step c es st0 ->
  In m (c_mods c) -> has_ty c st0 m cK cC dK dC -> nonblock cK -> nonblock cC ->
  let st := run c es st0 in let M := seen c m es st0 (zero, zero) in
  s_inf st = false -> due c m st -> step c false st = (st', Ok tt) -> get_group c (s_groups st) m = Ok g ->
  get_grad_scale (s_scales st) (Z.of_nat (s_steps st) - 1) = Ok prev -> step_scale st = Ok cur ->
  g_kfac_like g = true -> g_normalize g = false -> g_alpha1 g = 0 -> rate_at g (s_steps st) <> 0 ->
  sl_K (s_slots st (m_key m)) = Some K -> sl_C (s_slots st (m_key m)) = Some C ->
  sl_K (s_slots st' (m_key m)) = Some K' -> sl_C (s_slots st' (m_key m)) = Some C' ->
  eqm dK (ent K') (ent K) -> eqm dC (ent C') (ent C) -> nonsingular dK (ent K) -> nonsingular dC (ent C) ->
  (forall i j, (i < dK)%nat -> (j < dK)%nat ->
     proj cK dK (congr dK (ent K) (fst M)) i j + g_damping g * proj cK dK (tmm dK (ent K) (ent K)) i j = ident i j) /\
  (forall i j, (i < dC)%nat -> (j < dC)%nat ->
     prev / (cur * cur) * proj cC dC (congr dC (ent C) (snd M)) i j + g_damping g * proj cC dC (tmm dC (ent C) (ent C)) i j = ident i j).
Proof. exact C60_structures_lemma. Qed.

End PropNewton.

Print Assumptions C60_statistics.
Print Assumptions C60_newton.
Print Assumptions C60_stationary.
Print Assumptions C60_structures.

Section PropConverge.
Context {SC : Scalar} {FL : FieldLaws SC} {OR : Ordered SC}.
Open Scope R_scope.

(** On a constant curvature with I - UK - lam I and I - UC - lam I of norm at most q < 1, with learning rates between b and 1:
    after n updates K K^T and C C^T equal the inverses of the damped curvature up to an error that decreases like (1 - b (1-q))^n. *)
Theorem C60_rate : forall a par c st0 es m cK cC dK dC UK UC lam b q XK XC,
  setting a par c st0 -> wf_run c es st0 -> no_failed_step c es st0 ->
  In m (c_mods c) -> has_ty c st0 m cK cC dK dC -> simple cK -> simple cC ->
  steady c m dK dC UK UC lam (fun lr => b <= toR lr <= 1) es st0 (zero, zero) ->
  symmetric dK UK -> symmetric dC UC -> 0 < b <= 1 -> 0 <= q < 1 ->
  let AK := damp cK dK UK lam in let AC := damp cC dC UC lam in
  small dK (defect dK ident AK) q -> small dC (defect dC ident AC) q ->
  eqm dK (mmm dK AK XK) ident -> eqm dC (mmm dC AC XC) ident ->
  let s := s_slots (run c es st0) (m_key m) in
  let bound := exp (q / (b * (1 - q))) * (q / (1 - q)) * (1 - b * (1 - q)) ^ updates_of c m es st0 in
  exists K C, sl_K s = Some K /\ sl_C s = Some C /\
    (forall i j, (i < dK)%nat -> (j < dK)%nat -> Rabs (toR (mmt dK (ent K) (ent K) i j) - toR (XK i j)) <= bound) /\
    (forall i j, (i < dC)%nat -> (j < dC)%nat -> Rabs (toR (mmt dC (ent C) (ent C) i j) - toR (XC i j)) <= bound).
Proof. exact C60_rate_lemma. Qed.

(** The damped curvature has inverses, and for every precision there is a number of updates after which K K^T and C C^T are this close
    to them: for any model, and any history with that many updates. *)
Theorem C60_limit : forall cK cC dK dC UK UC lam b q,
  simple cK -> simple cC -> symmetric dK UK -> symmetric dC UC -> 0 < b <= 1 -> 0 <= q < 1 ->
  let AK := damp cK dK UK lam in let AC := damp cC dC UC lam in
  small dK (defect dK ident AK) q -> small dC (defect dC ident AC) q ->
  exists XK XC,
    eqm dK (mmm dK AK XK) ident /\ eqm dK (mmm dK XK AK) ident /\ eqm dC (mmm dC AC XC) ident /\ eqm dC (mmm dC XC AC) ident /\
    forall eps, 0 < eps -> exists N, forall a par c st0 es m,
      setting a par c st0 -> wf_run c es st0 -> no_failed_step c es st0 -> In m (c_mods c) -> has_ty c st0 m cK cC dK dC ->
      steady c m dK dC UK UC lam (fun lr => b <= toR lr <= 1) es st0 (zero, zero) -> (N <= updates_of c m es st0)%nat ->
      let s := s_slots (run c es st0) (m_key m) in
      exists K C, sl_K s = Some K /\ sl_C s = Some C /\
        (forall i j, (i < dK)%nat -> (j < dK)%nat -> Rabs (toR (mmt dK (ent K) (ent K) i j) - toR (XK i j)) <= eps) /\
        (forall i j, (i < dC)%nat -> (j < dC)%nat -> Rabs (toR (mmt dC (ent C) (ent C) i j) - toR (XC i j)) <= eps).
Proof. exact C60_limit_lemma. Qed.

End PropConverge.

Print Assumptions C60_rate.
Print Assumptions C60_limit.

(** * Cases *)

(** Three updates on a constant curvature (also a case of [C60_statistics], [C60_newton] and [C60_limit]): the second iteration with
    announced scale 4, a skipped one in between. *)
Example C60_rate_example :
  let a := nw_args (qr 3 8) (qr 1 2) dense2 in let c := fst (built a) in let st0 := snd (built a) in let es := nw_hist in
  let AK := damp CDense 3 nw_UK (qr 3 8 : @F Q_scalar) in let AC := damp CDense 1 nw_UC (qr 3 8 : @F Q_scalar) in
  setting a ex_par c st0 /\ wf_run c es st0 /\ no_failed_step c es st0 /\ In ex_m1 (c_mods c) /\ has_ty c st0 ex_m1 CDense CDense 3 1 /\
  simple CDense /\ steady c ex_m1 3 1 nw_UK nw_UC (qr 3 8 : @F Q_scalar) (fun lr => toR (qr 1 2 : @F Q_scalar) <= toR lr <= 1)%R es st0 (zero, zero) /\
  symmetric 3 nw_UK /\ symmetric 1 nw_UC /\ small 3 (defect 3 ident AK) (toR (qr 7 8 : @F Q_scalar)) /\ small 1 (defect 1 ident AC) (toR (qr 7 8 : @F Q_scalar)) /\
  updates_of c ex_m1 es st0 = 3.
Proof. exact C60_rate_example_case. Qed.

(** Diagonal preconditioners, no damping, learning rate 1/3, second moments diag(4, 1, 1) and 4: the first step gives
    K = diag(1/2, 1, 1) and C = 1/2, and the second one does not change them (also a case of [C60_structures]). *)
Example C60_stationary_example :
  let c := fst (built nw_diag) in let st0 := snd (built nw_diag) in let es := nw_it2 ++ ex_step ++ nw_it2 in
  let st := run c es st0 in let st' := fst (step c false st) in
  setting nw_diag ex_par c st0 /\ wf_run c es st0 /\ no_failed_step c es st0 /\ In ex_m1 (c_mods c) /\ has_ty c st0 ex_m1 CDiag CDiag 3 1 /\ simple CDiag /\
  s_inf st = false /\ due c ex_m1 st /\ step c false st = (st', Ok tt) /\
  (exists g, get_group c (s_groups st) ex_m1 = Ok g /\ g_kfac_like g = true /\ g_normalize g = false /\ g_alpha1 g = f0 /\ rate_at g (s_steps st) <> f0) /\
  get_grad_scale (s_scales st) (Z.of_nat (s_steps st) - 1) = Ok f1 /\ step_scale st = Ok f1 /\
  (exists K C K' C', sl_K (s_slots st 0) = Some K /\ sl_C (s_slots st 0) = Some C /\ sl_K (s_slots st' 0) = Some K' /\ sl_C (s_slots st' 0) = Some C' /\
     eqm 3 (ent K') (ent K) /\ eqm 1 (ent C') (ent C) /\ nonsingular 3 (ent K) /\ nonsingular 1 (ent C) /\
     ent K 0 0 = qr 1 2 /\ ent K 1 1 = q 1 /\ ent C 0 0 = qr 1 2) /\
  mod_grads ex_m1 st (@t_scale Q_scalar (q 1) (qt [1; 2] [4; 2]%Z)) (Some (@t_scale Q_scalar (q 1) (qt [1] [2]%Z))).
Proof. exact C60_stationary_example_case. Qed.

(** The condition on the curvature is needed: with second moment 4 and damping 1 (so that I - U - lam I is -4) and learning rate 1
    the preconditioner of the second layer alternates between 1 and -1: after 3 and 4 updates K K^T is still 1, no nearer to 1/5 than at the start. *)
Theorem C60_large_refuted :
  let a := nw_args (q 1) (q 1) (Some CDiag, Some CDiag) in let c := fst (built a) in let st0 := snd (built a) in
  let it := nw_iter (q 1) (q 1) (q 1) (q 1) (q 2) (q 2) (q 2) ++ ex_step in
  setting a ex_par c st0 /\
  (forall es, In es [it ++ it ++ it; it ++ it ++ it ++ it] ->
     wf_run c es st0 /\ no_failed_step c es st0 /\ has_ty c st0 ex_m2 CDiag CDiag 1 2 /\
     steady c ex_m2 1 2 (fun _ _ => q 4 : @F Q_scalar) (fun _ _ => q 4 : @F Q_scalar) (q 1 : @F Q_scalar) (fun lr => toR (q 1 : @F Q_scalar) <= toR lr <= 1)%R es st0 (zero, zero)) /\
  updates_of c ex_m2 (it ++ it ++ it) st0 = 3 /\ updates_of c ex_m2 (it ++ it ++ it ++ it) st0 = 4 /\
  mmt 1 (nw_at (sl_K (s_slots (run c (it ++ it ++ it) st0) 1))) (nw_at (sl_K (s_slots (run c (it ++ it ++ it) st0) 1))) 0 0 = q 1 /\
  mmt 1 (nw_at (sl_K (s_slots (run c (it ++ it ++ it ++ it) st0) 1))) (nw_at (sl_K (s_slots (run c (it ++ it ++ it ++ it) st0) 1))) 0 0 = q 1 /\
  eqm 1 (mmm 1 (damp CDiag 1 (fun _ _ => q 4 : @F Q_scalar) (q 1 : @F Q_scalar)) (fun _ _ => qr 1 5 : @F Q_scalar)) ident.
Proof. exact C60_large_refuted_lemma. Qed.
Print Assumptions C60_large_refuted.
