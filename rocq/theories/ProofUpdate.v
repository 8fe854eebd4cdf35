(** C22, C28, C29, C30 and the optimizer part of C05: classes and dimensions of the preconditioners,
    their update, the update direction, momentum and weight decay.

    All statements are about an optimizer built by the constructor ([setting]) after an arbitrary
    history [es] of calls (failing calls included) whose layer inputs and output gradients have the
    layers' shapes ([wf_run]). *)

From Coq Require Import List Arith Lia Bool ZArith QArith Qcanon Reals Lra.
From Verif Require Import Scalar Res Tensor TensorFacts Structures StructSpec StructNorm OptimUtils UtilsFacts ProofUtils Optimizer Construct OptState OptRun OptSpec OptFacts OptConsume OptDir OptTyped OptStep OptMom RealOrd QEx OptEx OptEx2.
Import ListNotations.
Open Scope nat_scope.

Section PropUpdate.
Context {SC : Scalar} {FL : FieldLaws SC}.
Open Scope F_scope.

Lemma C22_initial_lemma a par c st0 m :
  setting a par c st0 -> In m (c_mods c) ->
  exists g cK cC dK dC K C,
    get_group c (s_groups st0) m = Ok g /\ g_structs g = (Some cK, Some cC) /\ preconditioner_dims (m_layer m) = Ok (dK, dC) /\
    let s := s_slots st0 (m_key m) in
    sl_K s = Some K /\ eqm dK (ent K) ident /\ sl_C s = Some C /\ eqm dC (ent C) ident /\
    (if feqb (g_alpha1 g) 0 then sl_mK s = None /\ sl_mC s = None
     else exists mK mC, sl_mK s = Some mK /\ sl_mC s = Some mC /\ eqm dK (ent mK) (fun _ _ => 0) /\ eqm dC (ent mC) (fun _ _ => 0)) /\
    sl_HK s = None /\ sl_HC s = None.
Proof.
  intros S Hm. pose proof (setting_ok _ _ _ _ S) as [[NK NP] L]. destruct S as ((h & h' & E) & _ & _ & _ & SO).
  destruct (ctor_typed _ _ _ _ _ _ E NK SO L) as (_ & _ & T).
  destruct (T m Hm) as (g & cK & cC & dK & dC & K & C & T1 & T2 & T3 & _ & T5).
  exists g, cK, cC, dK, dC, K, C. auto.
Qed.

Lemma C22_kept_lemma a par c st0 es m cK cC dK dC :
  setting a par c st0 -> wf_run c es st0 -> In m (c_mods c) -> has_ty c st0 m cK cC dK dC ->
  let s0 := s_slots st0 (m_key m) in let s := s_slots (run c es st0) (m_key m) in
  (exists K, sl_K s = Some K /\ valid cK dK K) /\ (exists C, sl_C s = Some C /\ valid cC dC C) /\
  (forall M, sl_mK s = Some M -> valid cK dK M) /\ (forall M, sl_mC s = Some M -> valid cC dC M) /\
  (forall M, sl_HK s = Some M -> valid cK dK M) /\ (forall M, sl_HC s = Some M -> valid cC dC M) /\
  (sl_mK s = None <-> sl_mK s0 = None) /\ (sl_mC s = None <-> sl_mC s0 = None).
Proof.
  intros S W Hm T s0 s. pose proof (setting_typed _ _ _ _ _ S W) as [TO [TA _]]. pose proof (setting_ok _ _ _ _ S) as [[NK NP] L].
  specialize (TA m Hm). unfold mod_typed in TA. rewrite (has_ty_ctor _ _ _ _ _ _ _ T) in TA. destruct TA as [A1 A2 A3 A4 A5 A6].
  pose proof (setting_typed _ _ _ _ [] S I) as [_ TA0]. destruct (run_all_typed c _ es st0 TO NK TA0 W) as [_ SA].
  destruct (SA m Hm) as [SA1 SA2]. do 7 (split; [assumption|]). exact SA2.
Qed.

Lemma C28_statistics_lemma {SL : SqrtLaws SC} a par c st0 es m cK cC dK dC x gout out g prev A B :
  setting a par c st0 -> wf_run c es st0 -> In m (c_mods c) -> has_ty c st0 m cK cC dK dC -> nonblock cK -> nonblock cC ->
  let st := run c es st0 in let s := s_slots st (m_key m) in
  s_pend st out = Some (m, x) -> fits (m_layer m) x gout ->
  get_group c (s_groups st) m = Ok g ->
  get_grad_scale (s_scales st) (Z.of_nat (s_steps st) - 1) = Ok prev -> fltb prev 0 = false -> prev <> 0 ->
  process_input x (m_layer m) (g_approx g) = Ok A ->
  process_grad_output gout (m_layer m) (g_loss g) (g_approx g) = Ok B ->
  let (st', r) := event_op c (EBackward out gout) st in
  r = Ok tt /\
  exists N K C hk hc, N <> O /\ shape A = [N; dK] /\ shape B = [N; dC] /\ sl_K s = Some K /\ sl_C s = Some C /\
    st' = set_slots (upd (s_slots st) (m_key m) (set_HC (Some hc) (set_HK (Some hk) s))) st /\
    valid cK dK hk /\ valid cC dC hc /\
    eqm dK (ent hk) (fun i j => oldm (sl_HK s) i j + proj cK dK (conj N dK (get2 A) (ent K)) i j) /\
    eqm dC (ent hc) (fun i j => oldm (sl_HC s) i j + proj cC dC (fun a b => conj N dC (get2 B) (ent C) a b / prev) i j).
Proof.
  intros S W Hm T NBK NBC st s EP F Eg Epr Hpr Npr EA EB. pose proof (setting_typed _ _ _ _ _ S W) as [TO TA].
  exact (backward_doc c _ st m x gout out cK cC dK dC A B TO TA Hm (has_ty_ctor _ _ _ _ _ _ _ T) NBK NBC EP F g prev Eg Epr Hpr Npr EA EB).
Qed.

Lemma C28_update_lemma a par c st0 es m cK cC dK dC st' :
  setting a par c st0 -> wf_run c es st0 -> In m (c_mods c) -> has_ty c st0 m cK cC dK dC -> nonblock cK -> nonblock cC ->
  let st := run c es st0 in
  s_inf st = false -> due c m st -> step c false st = (st', Ok tt) ->
  let s := s_slots st (m_key m) in let s' := s_slots st' (m_key m) in
  exists g K C HK HC K' C' mK mC bK bC prev cur,
    get_group c (s_groups st) m = Ok g /\
    sl_K s = Some K /\ sl_C s = Some C /\ sl_HK s = Some HK /\ sl_HC s = Some HC /\
    get_grad_scale (s_scales st) (Z.of_nat (s_steps st) - 1) = Ok prev /\ step_scale st = Ok cur /\ cur <> 0 /\
    s' = mkSlots (Some K') (Some C') (if feqb (g_alpha1 g) 0 then sl_mK s else Some mK) (if feqb (g_alpha1 g) 0 then sl_mC s else Some mC) None None /\
    valid cK dK K' /\ valid cC dC C' /\ valid cK dK mK /\ valid cC dC mC /\
    eqm dK (ent mK) (doc_mK (g_kfac_like g) (g_normalize g) (g_damping g) (g_alpha1 g) (prev / (cur * cur)) dK dC (proj cK dK)
       (ent HK) (ent HC) (ent K) (ent C) (oldm (sl_mK s))) /\
    eqm dC (ent mC) (doc_mC (g_kfac_like g) (g_normalize g) (g_damping g) (g_alpha1 g) (prev / (cur * cur)) dK dC (proj cC dC)
       (ent HK) (ent HC) (ent K) (ent C) (oldm (sl_mC s))) /\
    normalized_lr g (rate_at g (s_steps st)) mK = Ok bK /\ normalized_lr g (rate_at g (s_steps st)) mC = Ok bC /\
    eqm dK (ent K') (precond_of dK (ent K) (ent mK) bK) /\
    eqm dC (ent C') (precond_of dC (ent C) (ent mC) bC).
Proof.
  intros S W Hm T NBK NBC st Hi D H. pose proof (setting_typed _ _ _ _ _ S W) as [TO TA]. pose proof (setting_ok _ _ _ _ S) as [OK _].
  exact (due_update_doc c _ st st' m cK cC dK dC OK TO TA Hm (has_ty_ctor _ _ _ _ _ _ _ T) NBK NBC Hi D H).
Qed.

Lemma C29_direction_lemma a par c st0 es m cK cC dK dC st' wg bg cur :
  setting a par c st0 -> wf_run c es st0 -> In m (c_mods c) -> has_ty c st0 m cK cC dK dC -> nonblock cK -> nonblock cC ->
  let st := run c es st0 in
  s_inf st = false -> step c false st = (st', Ok tt) -> mod_grads m st wg bg -> step_scale st = Ok cur -> cur <> 0 ->
  exists K C G w b,
    sl_K (s_slots st' (m_key m)) = Some K /\ sl_C (s_slots st' (m_key m)) = Some C /\
    grad_matrix (m_layer m) wg bg = Ok G /\ shape G = [dC; dK] /\
    direction m st st' = Ok (w, b) /\
    grad_matrix (m_layer m) w b = Ok (tab2 dC dK (fun i j => mmm dC (mmt dC (ent C) (ent C)) (mmm dK (get2 G) (mmt dK (ent K) (ent K))) i j / cur)) /\
    shape w = weight_shape (m_layer m) /\ match b with Some b => shape b = [n_out (m_layer m)] | None => True end /\
    dot w wg + odot b bg =
      sum dC (fun a => sum dK (fun b => let v := sum dC (fun k => sum dK (fun q => ent C k a * get2 G k q * ent K q b)) in v * v)) / cur.
Proof.
  intros S W Hm T NBK NBC st Hi H MG Ec Nc. pose proof (setting_typed _ _ _ _ _ S W) as [TO TA]. pose proof (setting_ok _ _ _ _ S) as [OK _].
  destruct (direction_doc c _ st st' m cK cC dK dC wg bg cur OK TO TA Hm (has_ty_ctor _ _ _ _ _ _ _ T) NBK NBC Hi H MG Ec Nc)
    as (g & K & C & G & w & b & D0 & D1 & D2 & D3 & D4 & D5 & D6 & D7 & D8 & D9 & _).
  exists K, C, G, w, b. repeat (split; [assumption|]). split; [|exact D9]. destruct b; [apply D8|exact I].
Qed.

Lemma C30_closed_form_lemma a par c st0 es m p mu :
  setting a par c st0 -> In m (c_mods c) -> In p (mod_params m) -> (m_bias m <> None -> has_bias (m_layer m) = true) ->
  no_failed_step c es st0 -> mom_is c m mu (updates c es st0) ->
  let us := updates c es st0 in let v0 := p_val (s_par st0 p) in let p' := s_par (run c es st0) p in
  shape (p_val p') = shape v0 /\
  Forall (fun u => exists d, pdir m p u = Ok d /\ shape d = shape v0) us /\
  (forall idx, in_range (shape v0) idx -> tget (p_val p') idx = tget v0 idx -
     sum (length us) (fun t => match nth_error us t with
       | Some u => lr_at c m u * sum (S t) (fun s => match nth_error us s with
             | Some v => fpow mu (t - s) * term c m p idx v | None => 0 end)
       | None => 0 end)) /\
  (if feqb mu 0 then p_buf p' = None
   else match us with
        | [] => p_buf p' = None
        | _ => exists b, p_buf p' = Some b /\ shape b = shape v0 /\ forall idx, in_range (shape v0) idx ->
                 tget b idx = sum (length us) (fun s => match nth_error us s with
                     | Some v => fpow mu (length us - 1 - s) * term c m p idx v | None => 0 end)
        end).
Proof.
  intros St Hm Hp HB NF MI us v0 p'. pose proof (setting_ok _ _ _ _ St) as [OK _].
  assert (B0 : p_buf (s_par st0 p) = None).
  { destruct St as ((h & h' & E) & _). apply ctor_state in E as (_ & _ & _ & _ & _ & _ & E). rewrite E. reflexivity. }
  destruct (closed_form c m p mu OK Hm Hp HB es st0 (shape v0) B0 eq_refl NF MI) as (H1 & H2 & H3 & H4).
  split; [exact H1|]. split; [exact H2|]. split; [|exact H4].
  intros idx Hi. unfold p'. rewrite (H3 idx Hi). fold us. unfold decrease. f_equal. apply sum_ext. intros t Ht.
  destruct (nth_error us t); [|reflexivity]. f_equal. unfold geo. apply sum_ext. intros s Hs.
  replace (S t - 1 - s)%nat with (t - s)%nat by lia. reflexivity.
Qed.

End PropUpdate.

(** * Statements about signs and norms, over (a subfield of) the real numbers *)

Section RealUpdate.
Context {SC : Scalar} {FL : FieldLaws SC} {OR : Ordered SC}.
Open Scope R_scope.

Lemma C28_rate_lemma (g : group) beta c n m :
  cls_ok c -> valid c n m -> n <> O ->
  exists b, normalized_lr g beta m = Ok b /\
    (g_normalize g = false -> b = beta) /\
    (g_normalize g = true -> exists v, toR b = toR beta / v /\ 1 <= v /\
       (forall i j, (i < n)%nat -> (j < n)%nat -> Rabs (toR (ent m i j)) <= v) /\
       (v = 1 \/ exists i j, (i < n)%nat /\ (j < n)%nat /\ v = Rabs (toR (ent m i j)))).
Proof. exact (rate_R g beta c n m). Qed.

Lemma C29_not_ascent_lemma a par c st0 es m cK cC dK dC st' wg bg cur w b :
  setting a par c st0 -> wf_run c es st0 -> In m (c_mods c) -> has_ty c st0 m cK cC dK dC -> nonblock cK -> nonblock cC ->
  let st := run c es st0 in
  s_inf st = false -> step c false st = (st', Ok tt) -> mod_grads m st wg bg -> step_scale st = Ok cur -> 0 < toR cur ->
  direction m st st' = Ok (w, b) -> 0 <= toR (dot w wg + odot b bg)%F.
Proof.
  intros S W Hm T NBK NBC st Hi H MG Ec Nc D.
  assert (Nc' : cur <> f0) by (intros ->; rewrite toR_0 in Nc; lra).
  destruct (C29_direction_lemma a par c st0 es m cK cC dK dC st' wg bg cur S W Hm T NBK NBC Hi H MG Ec Nc')
    as (K & C & G & w' & b' & _ & _ & _ & _ & D' & _ & _ & _ & E).
  fold st in D'. rewrite D in D'. injection D' as <- <-. rewrite E, toR_div by exact Nc'.
  apply Rmult_le_pos; [|left; apply Rinv_0_lt_compat; exact Nc].
  rewrite toR_sum. apply rsum_nonneg. intros i Hi'. rewrite toR_sum. apply rsum_nonneg. intros j Hj. cbv zeta. rewrite toR_mul. apply Rle_0_sqr.
Qed.

End RealUpdate.

(** * Examples: two layers, T = 2, dense preconditioners, momenta of both kinds, weight decay *)

Definition upc : cfg := fst (built ex_std).
Definition up0 : @state Q_scalar := snd (built ex_std).
Definition up_hist : list (@event Q_scalar) := ex_iter (q 1) ++ ex_step ++ ex_iter (q 1) ++ ex_step ++ ex_iter (q 1).

Lemma up_setting_case : setting ex_std ex_par upc up0.
Proof. apply built_setting. vm_compute. reflexivity. Qed.

Lemma up_wf_case : wf_run upc up_hist up0.
Proof. apply wf_runb_ok. vm_compute. reflexivity. Qed.

Lemma up_mods_case : c_mods upc = [ex_m1; ex_m2].
Proof. vm_compute. reflexivity. Qed.
Lemma has_ty_dec (c : cfg) (st : @state Q_scalar) m x :
  (match get_group c (s_groups st) m with Ok g => Some (g_structs g, preconditioner_dims (m_layer m)) | Err _ => None end) = Some x ->
  match x with
  | ((Some cK, Some cC), Ok (dK, dC)) => has_ty c st m cK cC dK dC
  | _ => True
  end.
Proof.
  unfold has_ty. destruct (get_group c (s_groups st) m) as [g|]; [|discriminate]. intros H. injection H as <-.
  destruct (g_structs g) as [[cK|] [cC|]] eqn:E; try exact I. destruct (preconditioner_dims (m_layer m)) as [[dK dC]|] eqn:E2; [|exact I].
  exists g. auto.
Qed.

Lemma up_has_ty_case : has_ty upc up0 ex_m1 CDense CDense 3 1 /\ nonblock CDense.
Proof. split; [|exact I]. exact (has_ty_dec upc up0 ex_m1 (Some CDense, Some CDense, Ok (3, 1)) ltac:(vm_compute; reflexivity)). Qed.

Lemma C22_example_case :
  (match sl_mK (s_slots up0 0), sl_mC (s_slots up0 0) with Some a, Some b => (showd (Ok a), showd (Ok b)) | _, _ => (Err KeyError, Err KeyError) end)
    = (lit [3; 3] [0; 0; 0; 0; 0; 0; 0; 0; 0]%Z, lit [1; 1] [0]%Z) /\
  (let st := snd (built (ex_args PNone (q 0) (q 0) (q 0) 1 (Some CTril, Some CDiag) false false (q 1))) in
   match sl_mK (s_slots st 0), sl_mC (s_slots st 0) with None, None => true | _, _ => false end) = true.
Proof. vm_compute. split; reflexivity. Qed.

Lemma C28_example_case :
  let st := run upc up_hist up0 in
  due upc ex_m1 st /\ s_inf st = false /\ snd (step upc false st) = Ok tt /\
  pre_of (fst (step upc false st)) 0 <> pre_of st 0 /\ step_scale st = Ok (q 1).
Proof.
  split; [apply dueb_due; vm_compute; reflexivity|]. split; [vm_compute; reflexivity|]. split.
  - assert (H : is_ok (snd (step upc false (run upc up_hist up0))) = true) by (vm_compute; reflexivity).
    destruct (snd (step upc false (run upc up_hist up0))) as [[]|]; [reflexivity|discriminate].
  - split; [vm_compute; intros H; discriminate|]. vm_compute. reflexivity.
Qed.

Lemma C28_statistics_example_case :
  let st := run upc [@EForward Q_scalar ex_m1 ex_x1 true 10] up0 in
  s_pend st 10 = Some (ex_m1, ex_x1) /\ fits (Linear 2 1 true) ex_x1 ex_g1 /\
  is_ok (process_input ex_x1 (Linear 2 1 true) Expand) = true /\
  is_ok (process_grad_output ex_g1 (Linear 2 1 true) LossBatch Expand) = true.
Proof. repeat split; try (vm_compute; reflexivity). apply fitsb_fits. reflexivity. Qed.

Lemma C29_example_case :
  let st := run upc up_hist up0 in
  mod_grads ex_m1 st (@t_scale Q_scalar (q 1) (qt [1; 2] [6; -2]%Z)) (Some (@t_scale Q_scalar (q 1) (qt [1] [2]%Z))) /\
  (match direction ex_m1 st (fst (step upc false st)) with Ok (w, Some b) => (show w <> show (qt [1; 2] [6; -2]%Z)) | _ => False end).
Proof.
  split.
  - unfold mod_grads. split; [vm_compute; reflexivity|]. split; [reflexivity|]. cbn [m_bias ex_m1]. split; [vm_compute; reflexivity|]. split; reflexivity.
  - vm_compute. intros H. discriminate.
Qed.

Lemma C30_example_case :
  let es := up_hist ++ ex_step in
  no_failed_step upc es up0 /\ length (updates upc es up0) = 3 /\ mom_is upc ex_m1 (qr 1 2 : @F Q_scalar) (updates upc es up0) /\
  In 0 (mod_params ex_m1) /\ In 1 (mod_params ex_m1).
Proof.
  split; [apply no_failb_ok; vm_compute; reflexivity|]. split; [vm_compute; reflexivity|]. split; [|cbn; auto].
  intros u g Hu Eg.
  assert (H : forallb (fun u => match get_group upc (s_groups (fst u)) ex_m1 with Ok g => @feqb Q_scalar (g_momentum g) (qr 1 2) | Err _ => false end)
     (updates upc (up_hist ++ ex_step) up0) = true) by (vm_compute; reflexivity).
  rewrite forallb_forall in H. specialize (H u Hu). rewrite Eg in H. apply feqb_iff in H. exact H.
Qed.

(** * Block-diagonal preconditioners *)

(** With the structure "block30diag" the optimizer goes uphill: after two iterations of training a single
    Linear(2, 1) layer (gradients those of the samples) the direction has a negative inner product
    with the gradient. *)
Definition blk : @args Q_scalar := blk_args (CBlock 30) (CBlock 30).
Definition blc : cfg := fst (built blk).
Definition bl0 : @state Q_scalar := snd (built blk).
Definition bl1 : @state Q_scalar := run blc (blk_iter blk_x1 ++ ex_step ++ blk_iter blk_x2) bl0.
Definition bl2 : @state Q_scalar := fst (step blc false bl1).

Lemma C29_block_ascent_refuted_lemma :
  exists (a : @args Q_scalar) par c st0 es m wg w st',
    setting a par c st0 /\ wf_run c es st0 /\ In m (c_mods c) /\ has_ty c st0 m (CBlock 30) (CBlock 30) 2 1 /\
    let st := run c es st0 in
    s_inf st = false /\ step c false st = (st', Ok tt) /\ mod_grads m st wg None /\ step_scale st = Ok (q 1) /\
    direction m st st' = Ok (w, None) /\ @fltb Q_scalar (dot w wg) (q 0) = true.
Proof.
  exists blk, ex_par, blc, bl0, (blk_iter blk_x1 ++ ex_step ++ blk_iter blk_x2), blk_m, blk_x2.
  assert (D : exists w, direction blk_m bl1 bl2 = Ok (w, None) /\ @fltb Q_scalar (dot w blk_x2) (q 0) = true).
  { assert (H : (match direction blk_m bl1 bl2 with Ok (w, None) => @fltb Q_scalar (dot w blk_x2) (q 0) | _ => false end) = true) by (vm_compute; reflexivity).
    destruct (direction blk_m bl1 bl2) as [[w [b|]]|]; try discriminate. exists w. auto. }
  destruct D as (w & D1 & D2). exists w, bl2.
  split; [apply built_setting; vm_compute; reflexivity|]. split; [apply wf_runb_ok; vm_compute; reflexivity|].
  split; [left; vm_compute; reflexivity|].
  split; [exact (has_ty_dec blc bl0 blk_m (Some (CBlock 30), Some (CBlock 30), Ok (2, 1)) ltac:(vm_compute; reflexivity))|].
  fold bl1. cbv zeta. split; [vm_compute; reflexivity|]. split.
  { assert (H : is_ok (snd (step blc false bl1)) = true) by (vm_compute; reflexivity).
    unfold bl2. destruct (step blc false bl1) as [s [[]|]]; [reflexivity|discriminate]. }
  split; [unfold mod_grads; split; [vm_compute; reflexivity|split; reflexivity]|]. split; [vm_compute; reflexivity|]. auto.
Qed.

Lemma C05_optimizer_refuted_lemma :
  exists K X, sl_K (s_slots bl2 0) = Some K /\ shape X = [2; 1] /\
    match to_dense K, rmatmat K X with Ok M, Ok Y => show Y <> show (mm (tr M) X) | _, _ => False end.
Proof.
  assert (H : (match sl_K (s_slots bl2 0) with
    | Some K => match to_dense K, rmatmat K (qt [2; 1] [1; 0]%Z) with Ok M, Ok Y => show Y <> show (mm (tr M) (qt [2; 1] [1; 0]%Z)) | _, _ => False end
    | None => False end)) by (vm_compute; intros H; discriminate).
  destruct (sl_K (s_slots bl2 0)) as [K|]; [|contradiction]. exists K, (qt [2; 1] [1; 0]%Z). split; [reflexivity|]. split; [reflexivity|exact H].
Qed.

Lemma C28_block_statistics_refuted_lemma :
  exists K hk, let st := run blc (blk_iter (qt [1; 2] [1; 0]%Z)) bl2 in
    sl_K (s_slots bl2 0) = Some K /\ sl_HK (s_slots bl2 0) = None /\ sl_HK (s_slots st 0) = Some hk /\
    @ent Q_scalar hk 1 1 <> @conj Q_scalar 1 2 (@get2 Q_scalar (qt [1; 2] [1; 0]%Z)) (ent K) 1 1.
Proof.
  assert (H : (match sl_K (s_slots bl2 0), sl_HK (s_slots bl2 0), sl_HK (s_slots (run blc (blk_iter (qt [1; 2] [1; 0]%Z)) bl2) 0) with
    | Some K, None, Some hk => negb (@feqb Q_scalar (@ent Q_scalar hk 1 1) (@conj Q_scalar 1 2 (@get2 Q_scalar (qt [1; 2] [1; 0]%Z)) (ent K) 1 1))
    | _, _, _ => false end) = true) by (vm_compute; reflexivity).
  destruct (sl_K (s_slots bl2 0)) as [K|]; [|discriminate]. destruct (sl_HK (s_slots bl2 0)); [discriminate|].
  destruct (sl_HK (s_slots (run blc (blk_iter (qt [1; 2] [1; 0]%Z)) bl2) 0)) as [hk|] eqn:E3; [|discriminate].
  exists K, hk. cbv zeta. do 2 (split; [reflexivity|]). split; [exact E3|]. intros E. rewrite E in H. rewrite feqb_refl in H. discriminate.
Qed.
