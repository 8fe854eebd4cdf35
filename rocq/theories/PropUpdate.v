(** C22, C28, C29, C30 and the optimizer part of C05: classes and dimensions of the preconditioners,
    their update, the update direction, momentum and weight decay.

    All statements are about an optimizer built by the constructor ([setting]) after an arbitrary
    history [es] of calls (failing calls included) whose layer inputs and output gradients have the
    layers' shapes ([wf_run]). *)

From Coq Require Import List Arith Lia Bool ZArith QArith Qcanon Reals Lra.
From Verif Require Import Scalar Res Tensor TensorFacts Structures StructSpec StructNorm OptimUtils UtilsFacts ProofUtils Optimizer Construct OptState OptRun OptSpec OptFacts OptConsume OptDir OptTyped OptStep OptMom RealOrd QEx OptEx OptEx2 ProofUpdate.
Import ListNotations.
Open Scope nat_scope.

Section PropUpdate.
Context {SC : Scalar} {FL : FieldLaws SC}.
Open Scope F_scope.

(** * C22: initial values, classes and dimensions *)
Theorem C22_initial : forall a par c st0 m,
  setting a par c st0 -> In m (c_mods c) ->
  exists g cK cC dK dC K C,
    get_group c (s_groups st0) m = Ok g /\ g_structs g = (Some cK, Some cC) /\ preconditioner_dims (m_layer m) = Ok (dK, dC) /\
    let s := s_slots st0 (m_key m) in
    sl_K s = Some K /\ eqm dK (ent K) ident /\ sl_C s = Some C /\ eqm dC (ent C) ident /\
    (if feqb (g_alpha1 g) 0 then sl_mK s = None /\ sl_mC s = None
     else exists mK mC, sl_mK s = Some mK /\ sl_mC s = Some mC /\ eqm dK (ent mK) (fun _ _ => 0) /\ eqm dC (ent mC) (fun _ _ => 0)) /\
    sl_HK s = None /\ sl_HC s = None.
Proof. exact C22_initial_lemma. Qed.

(** After any history: same classes and dimensions; momenta exist iff they existed at the start. *)
Theorem C22_kept : forall a par c st0 es m cK cC dK dC,
  setting a par c st0 -> wf_run c es st0 -> In m (c_mods c) -> has_ty c st0 m cK cC dK dC ->
  let s0 := s_slots st0 (m_key m) in let s := s_slots (run c es st0) (m_key m) in
  (exists K, sl_K s = Some K /\ valid cK dK K) /\ (exists C, sl_C s = Some C /\ valid cC dC C) /\
  (forall M, sl_mK s = Some M -> valid cK dK M) /\ (forall M, sl_mC s = Some M -> valid cC dC M) /\
  (forall M, sl_HK s = Some M -> valid cK dK M) /\ (forall M, sl_HC s = Some M -> valid cC dC M) /\
  (sl_mK s = None <-> sl_mK s0 = None) /\ (sl_mC s = None <-> sl_mC s0 = None).
Proof. exact C22_kept_lemma. Qed.

(** * C28: the preconditioner update *)

(** The statistics: every backward pass adds the projection of (A K)^T (A K) resp. (B C)^T (B C) / prev
    for the processed inputs A and output gradients B, and touches nothing else. *)
Theorem C28_statistics {SL : SqrtLaws SC} : forall a par c st0 es m cK cC dK dC x gout out g prev A B,
  setting a par c st0 -> wf_run c es st0 -> In m (c_mods c) -> has_ty c st0 m cK cC dK dC -> nonblock cK -> nonblock cC ->
  let st := run c es st0 in let s := s_slots st (m_key m) in
  s_pend st out = Some (m, x) -> fits (m_layer m) x gout ->
  get_group c (s_groups st) m = Ok g ->
  get_grad_scale (s_scales st) (Z.of_nat (s_steps st) - 1) = Ok prev -> fltb prev 0 = false -> prev <> 0 ->
  process_input x (m_layer m) (g_approx g) = Ok A ->
  process_grad_output gout (m_layer m) (g_loss g) (g_approx g) = Ok B ->
  let (st', r) := event_op c (EBackward out gout) st in
  r = Ok tt /\
  exists N K C hk hc, N <> O /\ shape A = [N; dK] /\ shape B = [N; dC] /\ sl_K s = Some K /\ sl_C s = Some C /\
    st' = set_slots (upd (s_slots st) (m_key m) (set_HC (Some hc) (set_HK (Some hk) s))) st /\
    valid cK dK hk /\ valid cC dC hc /\
    eqm dK (ent hk) (fun i j => oldm (sl_HK s) i j + proj cK dK (conj N dK (get2 A) (ent K)) i j) /\
    eqm dC (ent hc) (fun i j => oldm (sl_HC s) i j + proj cC dC (fun a b => conj N dC (get2 B) (ent C) a b / prev) i j).
Proof. exact C28_statistics_lemma. Qed.

(** A successful due step, INGD and KFAC-like variant, with and without momentum and normalisation. *)
Theorem C28_update : forall a par c st0 es m cK cC dK dC st',
  setting a par c st0 -> wf_run c es st0 -> In m (c_mods c) -> has_ty c st0 m cK cC dK dC -> nonblock cK -> nonblock cC ->
  let st := run c es st0 in
  s_inf st = false -> due c m st -> step c false st = (st', Ok tt) ->
  let s := s_slots st (m_key m) in let s' := s_slots st' (m_key m) in
  exists g K C HK HC K' C' mK mC bK bC prev cur,
    get_group c (s_groups st) m = Ok g /\
    sl_K s = Some K /\ sl_C s = Some C /\ sl_HK s = Some HK /\ sl_HC s = Some HC /\
    get_grad_scale (s_scales st) (Z.of_nat (s_steps st) - 1) = Ok prev /\ step_scale st = Ok cur /\ cur <> 0 /\
    s' = mkSlots (Some K') (Some C') (if feqb (g_alpha1 g) 0 then sl_mK s else Some mK) (if feqb (g_alpha1 g) 0 then sl_mC s else Some mC) None None /\
    valid cK dK K' /\ valid cC dC C' /\ valid cK dK mK /\ valid cC dC mC /\
    eqm dK (ent mK) (doc_mK (g_kfac_like g) (g_normalize g) (g_damping g) (g_alpha1 g) (prev / (cur * cur)) dK dC (proj cK dK)
       (ent HK) (ent HC) (ent K) (ent C) (oldm (sl_mK s))) /\
    eqm dC (ent mC) (doc_mC (g_kfac_like g) (g_normalize g) (g_damping g) (g_alpha1 g) (prev / (cur * cur)) dK dC (proj cC dC)
       (ent HK) (ent HC) (ent K) (ent C) (oldm (sl_mC s))) /\
    normalized_lr g (rate_at g (s_steps st)) mK = Ok bK /\ normalized_lr g (rate_at g (s_steps st)) mC = Ok bC /\
    eqm dK (ent K') (precond_of dK (ent K) (ent mK) bK) /\
    eqm dC (ent C') (precond_of dC (ent C) (ent mC) bC).
Proof. exact C28_update_lemma. Qed.

(** * C29: the direction *)
Theorem C29_direction : forall a par c st0 es m cK cC dK dC st' wg bg cur,
  setting a par c st0 -> wf_run c es st0 -> In m (c_mods c) -> has_ty c st0 m cK cC dK dC -> nonblock cK -> nonblock cC ->
  let st := run c es st0 in
  s_inf st = false -> step c false st = (st', Ok tt) -> mod_grads m st wg bg -> step_scale st = Ok cur -> cur <> 0 ->
  exists K C G w b,
    sl_K (s_slots st' (m_key m)) = Some K /\ sl_C (s_slots st' (m_key m)) = Some C /\
    grad_matrix (m_layer m) wg bg = Ok G /\ shape G = [dC; dK] /\
    direction m st st' = Ok (w, b) /\
    grad_matrix (m_layer m) w b = Ok (tab2 dC dK (fun i j => mmm dC (mmt dC (ent C) (ent C)) (mmm dK (get2 G) (mmt dK (ent K) (ent K))) i j / cur)) /\
    shape w = weight_shape (m_layer m) /\ match b with Some b => shape b = [n_out (m_layer m)] | None => True end /\
    dot w wg + odot b bg =
      sum dC (fun a => sum dK (fun b => let v := sum dC (fun k => sum dK (fun q => ent C k a * get2 G k q * ent K q b)) in v * v)) / cur.
Proof. exact C29_direction_lemma. Qed.

(** * C30: momentum and weight decay *)

(** After any history without failing steps, in which the group's momentum is [mu] at all updates
    (learning rate and weight decay may change): the parameter has decreased by the sum over the
    updates of lr times the momentum buffer, and the buffer is the geometrically weighted sum of
    the terms  direction + weight_decay * parameter;  without momentum there is no buffer. *)
Theorem C30_closed_form : forall a par c st0 es m p mu,
  setting a par c st0 -> In m (c_mods c) -> In p (mod_params m) -> (m_bias m <> None -> has_bias (m_layer m) = true) ->
  no_failed_step c es st0 -> mom_is c m mu (updates c es st0) ->
  let us := updates c es st0 in let v0 := p_val (s_par st0 p) in let p' := s_par (run c es st0) p in
  shape (p_val p') = shape v0 /\
  Forall (fun u => exists d, pdir m p u = Ok d /\ shape d = shape v0) us /\
  (forall idx, in_range (shape v0) idx -> tget (p_val p') idx = tget v0 idx -
     sum (length us) (fun t => match nth_error us t with
       | Some u => lr_at c m u * sum (S t) (fun s => match nth_error us s with
             | Some v => fpow mu (t - s) * term c m p idx v | None => 0 end)
       | None => 0 end)) /\
  (if feqb mu 0 then p_buf p' = None
   else match us with
        | [] => p_buf p' = None
        | _ => exists b, p_buf p' = Some b /\ shape b = shape v0 /\ forall idx, in_range (shape v0) idx ->
                 tget b idx = sum (length us) (fun s => match nth_error us s with
                     | Some v => fpow mu (length us - 1 - s) * term c m p idx v | None => 0 end)
        end).
Proof. exact C30_closed_form_lemma. Qed.

End PropUpdate.

Print Assumptions C22_initial.
Print Assumptions C22_kept.
Print Assumptions C28_statistics.
Print Assumptions C28_update.
Print Assumptions C29_direction.
Print Assumptions C30_closed_form.

(** * Statements about signs and norms, over (a subfield of) the real numbers *)

Section RealUpdate.
Context {SC : Scalar} {FL : FieldLaws SC} {OR : Ordered SC}.
Open Scope R_scope.

(** C28: the step size of K and C, without and with normalisation. *)
Theorem C28_rate : forall (g : group) beta c n m,
  cls_ok c -> valid c n m -> n <> O ->
  exists b, normalized_lr g beta m = Ok b /\
    (g_normalize g = false -> b = beta) /\
    (g_normalize g = true -> exists v, toR b = toR beta / v /\ 1 <= v /\
       (forall i j, (i < n)%nat -> (j < n)%nat -> Rabs (toR (ent m i j)) <= v) /\
       (v = 1 \/ exists i j, (i < n)%nat /\ (j < n)%nat /\ v = Rabs (toR (ent m i j)))).
Proof. exact C28_rate_lemma. Qed.

(** C29: never an ascent direction. *)
Theorem C29_not_ascent : forall a par c st0 es m cK cC dK dC st' wg bg cur w b,
  setting a par c st0 -> wf_run c es st0 -> In m (c_mods c) -> has_ty c st0 m cK cC dK dC -> nonblock cK -> nonblock cC ->
  let st := run c es st0 in
  s_inf st = false -> step c false st = (st', Ok tt) -> mod_grads m st wg bg -> step_scale st = Ok cur -> 0 < toR cur ->
  direction m st st' = Ok (w, b) -> 0 <= toR (dot w wg + odot b bg)%F.
Proof. exact C29_not_ascent_lemma. Qed.

End RealUpdate.

Print Assumptions C28_rate.
Print Assumptions C29_not_ascent.

(** * Examples: two layers, T = 2, dense preconditioners, momenta of both kinds, weight decay *)
Example up_setting : setting ex_std ex_par upc up0.
Proof. exact up_setting_case. Qed.

Example up_wf : wf_run upc up_hist up0.
Proof. exact up_wf_case. Qed.

Example up_mods : c_mods upc = [ex_m1; ex_m2].
Proof. exact up_mods_case. Qed.

Example up_has_ty : has_ty upc up0 ex_m1 CDense CDense 3 1 /\ nonblock CDense.
Proof. exact up_has_ty_case. Qed.

(** Momenta are allocated for alpha1 = 1/2 and not for alpha1 = 0. *)
Example C22_example :
  (match sl_mK (s_slots up0 0), sl_mC (s_slots up0 0) with Some a, Some b => (showd (Ok a), showd (Ok b)) | _, _ => (Err KeyError, Err KeyError) end)
    = (lit [3; 3] [0; 0; 0; 0; 0; 0; 0; 0; 0]%Z, lit [1; 1] [0]%Z) /\
  (let st := snd (built (ex_args PNone (q 0) (q 0) (q 0) 1 (Some CTril, Some CDiag) false false (q 1))) in
   match sl_mK (s_slots st 0), sl_mC (s_slots st 0) with None, None => true | _, _ => false end) = true.
Proof. exact C22_example_case. Qed.

(** C28, C29: the third step is due, succeeds, has gradients and scale 1. *)
Example C28_example :
  let st := run upc up_hist up0 in
  due upc ex_m1 st /\ s_inf st = false /\ snd (step upc false st) = Ok tt /\
  pre_of (fst (step upc false st)) 0 <> pre_of st 0 /\ step_scale st = Ok (q 1).
Proof. exact C28_example_case. Qed.

(** A backward pass waiting on an output, with fitting shapes. *)
Example C28_statistics_example :
  let st := run upc [@EForward Q_scalar ex_m1 ex_x1 true 10] up0 in
  s_pend st 10 = Some (ex_m1, ex_x1) /\ fits (Linear 2 1 true) ex_x1 ex_g1 /\
  is_ok (process_input ex_x1 (Linear 2 1 true) Expand) = true /\
  is_ok (process_grad_output ex_g1 (Linear 2 1 true) LossBatch Expand) = true.
Proof. exact C28_statistics_example_case. Qed.

Example C29_example :
  let st := run upc up_hist up0 in
  mod_grads ex_m1 st (@t_scale Q_scalar (q 1) (qt [1; 2] [6; -2]%Z)) (Some (@t_scale Q_scalar (q 1) (qt [1] [2]%Z))) /\
  (match direction ex_m1 st (fst (step upc false st)) with Ok (w, Some b) => (show w <> show (qt [1; 2] [6; -2]%Z)) | _ => False end).
Proof. exact C29_example_case. Qed.

(** C30: three updates without failure, momentum 1/2; the buffer exists. *)
Example C30_example :
  let es := up_hist ++ ex_step in
  no_failed_step upc es up0 /\ length (updates upc es up0) = 3 /\ mom_is upc ex_m1 (qr 1 2 : @F Q_scalar) (updates upc es up0) /\
  In 0 (mod_params ex_m1) /\ In 1 (mod_params ex_m1).
Proof. exact C30_example_case. Qed.

(** * Block-diagonal preconditioners *)

(** With the structure "block30diag" the optimizer goes uphill: after two iterations of training a single
    Linear(2, 1) layer (gradients those of the samples) the direction has a negative inner product
    with the gradient. *)
Theorem C29_block_ascent_refuted :
  exists (a : @args Q_scalar) par c st0 es m wg w st',
    setting a par c st0 /\ wf_run c es st0 /\ In m (c_mods c) /\ has_ty c st0 m (CBlock 30) (CBlock 30) 2 1 /\
    let st := run c es st0 in
    s_inf st = false /\ step c false st = (st', Ok tt) /\ mod_grads m st wg None /\ step_scale st = Ok (q 1) /\
    direction m st st' = Ok (w, None) /\ @fltb Q_scalar (dot w wg) (q 0) = true.
Proof. exact C29_block_ascent_refuted_lemma. Qed.
Print Assumptions C29_block_ascent_refuted.

(** The optimizer's own block-diagonal preconditioners are not symmetric, so their [rmatmat] does not
    multiply with the transpose (C05), *)
Theorem C05_optimizer_refuted :
  exists K X, sl_K (s_slots bl2 0) = Some K /\ shape X = [2; 1] /\
    match to_dense K, rmatmat K X with Ok M, Ok Y => show Y <> show (mm (tr M) X) | _, _ => False end.
Proof. exact C05_optimizer_refuted_lemma. Qed.
Print Assumptions C05_optimizer_refuted.

(** and the statistics of the next iteration are not those of C28: for the input x = (1, 0) the
    diagonal entries of (x K)^T (x K) are 9/4 and 36, those stored are 9/4 and 9. *)
Theorem C28_block_statistics_refuted :
  exists K hk, let st := run blc (blk_iter (qt [1; 2] [1; 0]%Z)) bl2 in
    sl_K (s_slots bl2 0) = Some K /\ sl_HK (s_slots bl2 0) = None /\ sl_HK (s_slots st 0) = Some hk /\
    @ent Q_scalar hk 1 1 <> @conj Q_scalar 1 2 (@get2 Q_scalar (qt [1; 2] [1; 0]%Z)) (ent K) 1 1.
Proof. exact C28_block_statistics_refuted_lemma. Qed.
Print Assumptions C28_block_statistics_refuted.
