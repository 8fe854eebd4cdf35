(** C23, C24, C25, C27, C47, C48: step counter and update schedule, life of the curvature
    statistics, gradient scale bookkeeping, skipped steps, the initial scale warning and evaluation
    passes.  All statements are about arbitrary histories of API calls [es] (calls may fail, the
    caller then goes on), arbitrary models, layers, structures, hyper-parameters, tensors. *)

From Coq Require Import List Arith Lia Bool ZArith QArith Qcanon.
From Verif Require Import Scalar Res Tensor Structures OptimUtils Optimizer Construct OptState OptRun OptConsume QEx OptEx.
Import ListNotations.
Open Scope nat_scope.

Section PropRun.
Context {SC : Scalar}.

Lemma C23_step_counts_lemma c closure st st' r :
  step c closure st = (st', r) ->
  s_steps st' = match r with Ok _ => S (s_steps st) | Err _ => s_steps st end.
Proof. exact (step_counter c closure st st' r). Qed.

Lemma C23_nothing_else_counts_lemma c e st : (forall b, e <> EStep b) -> s_steps (fst (event_op c e st)) = s_steps st.
Proof. exact (other_counter c e st). Qed.

Lemma C23_change_only_when_due_lemma c e st m :
  NoDup (map m_key (c_mods c)) -> In m (c_mods c) ->
  let s := s_slots st (m_key m) in let s' := s_slots (fst (event_op c e st)) (m_key m) in
  (sl_K s' = sl_K s /\ sl_C s' = sl_C s /\ sl_mK s' = sl_mK s /\ sl_mC s' = sl_mC s) \/
  e = EStep false /\ s_inf st = false /\
  exists g, get_group c (s_groups st) m = Ok g /\ g_T g <> 0 /\ s_steps st mod g_T g = 0.
Proof. exact (pre_changes_only_when_due c e st m). Qed.

Lemma C23_opportunities_lemma c es st T :
  s_steps st = 0 -> T <> 0 ->
  let times := step_times c es st in
  times = seq 0 (length times) /\ s_steps (run c es st) = length times /\
  length (filter (fun t => Nat.eqb (t mod T) 0) times) = (length times + T - 1) / T.
Proof.
  intros H0 HT times. destruct (step_times_seq c es st) as [H1 H2]. rewrite H0 in *. fold times in H1, H2.
  split; [exact H1|]. split; [exact H2|]. rewrite H1 at 1. exact (due_count T (length times) HT).
Qed.

Lemma C24_consumed_lemma c st st' m :
  cfg_ok c -> In m (c_mods c) -> s_inf st = false -> due c m st -> step c false st = (st', Ok tt) ->
  (exists a, sl_HK (s_slots st (m_key m)) = Some a) /\ (exists b, sl_HC (s_slots st (m_key m)) = Some b) /\
  sl_HK (s_slots st' (m_key m)) = None /\ sl_HC (s_slots st' (m_key m)) = None.
Proof. exact (due_consumed c st st' m). Qed.

Lemma C24_missing_fails_lemma c st m :
  cfg_ok c -> In m (c_mods c) -> s_inf st = false -> due c m st ->
  sl_HK (s_slots st (m_key m)) = None \/ sl_HC (s_slots st (m_key m)) = None ->
  exists e, snd (step c false st) = Err e.
Proof. exact (missing_fails c st m). Qed.

Lemma C24_missing_keyerror_lemma c st m l :
  c_mods c = m :: l -> s_inf st = false -> due c m st -> scales_ok (s_steps st) (s_scales st) ->
  (exists v, step_scale st = Ok v) ->
  sl_K (s_slots st (m_key m)) <> None -> sl_C (s_slots st (m_key m)) <> None ->
  sl_HK (s_slots st (m_key m)) = None \/ sl_HC (s_slots st (m_key m)) = None ->
  snd (step c false st) = Err KeyError.
Proof. exact (missing_keyerror c st m l). Qed.

Lemma C24_origin_lemma c es st k :
  ~ has_stats k st -> (forall o, s_pend st o = None) -> has_stats k (run c es st) ->
  exists es1 es2 es3 m x out g,
    es = es1 ++ EForward m x true out :: es2 ++ EBackward out g :: es3 /\ m_key m = k /\ due c m (run c es1 st).
Proof.
  intros N P H. destruct (stats_origin c es st k N H) as (ea & out & g & es3 & m & x & -> & E & Ek).
  destruct (pend_origin c ea st out m x (P out) E) as (es1 & es2 & -> & D).
  exists es1, es2, es3, m, x, out, g. rewrite <- app_assoc. auto.
Qed.

Lemma C24_not_collected_lemma c m x b out st :
  not_due c m st -> s_pend (fst (forward_hook c m x b out st)) out = None.
Proof. exact (not_due_forward c m x b out st). Qed.

Lemma C24_not_used_lemma c st st' m :
  cfg_ok c -> In m (c_mods c) -> s_inf st = false -> not_due c m st -> step c false st = (st', Ok tt) ->
  s_slots st' (m_key m) = s_slots st (m_key m).
Proof. exact (not_due_keeps_H c st st' m). Qed.

Lemma C25_bookkeeping_lemma a par hooks hooks' c st0 es :
  ctor a par hooks = (hooks', Ok (c, st0)) ->
  let st := run c es st0 in
  length (s_scales st) <= 2 /\ NoDup (map fst (s_scales st)) /\
  (forall k, In k (map fst (s_scales st)) -> k = (Z.of_nat (s_steps st) - 1)%Z \/ k = Z.of_nat (s_steps st)) /\
  exists v, get_grad_scale (s_scales st) (Z.of_nat (s_steps st) - 1) = Ok v.
Proof.
  intros H st. apply ctor_state in H as (E1 & E2 & _).
  assert (S0 : scales_ok (s_steps st0) (s_scales st0)).
  { rewrite E1, E2. split; [repeat constructor; intros []|]. split; [|left; reflexivity]. intros k [<-|[]]. left. reflexivity. }
  pose proof (run_scales_ok c es st0 S0) as SO. split; [exact (scales_ok_length _ _ SO)|].
  destruct SO as (N & K & I). split; [exact N|]. split; [exact K|]. exact (In_get _ _ I).
Qed.

Lemma C25_previous_scale_lemma a par hooks hooks' c st0 es :
  ctor a par hooks = (hooks', Ok (c, st0)) ->
  let st := run c es st0 in
  get_grad_scale (s_scales st) (Z.of_nat (s_steps st) - 1) = last_scale c es st0 (Ok (a_init_scale a)).
Proof.
  intros H st. apply ctor_state in H as (E1 & E2 & _). apply last_scale_prev. rewrite E1, E2. reflexivity.
Qed.

Lemma C27_skipped_lemma a par hooks hooks' c st0 es v :
  ctor a par hooks = (hooks', Ok (c, st0)) ->
  let st := run c es st0 in
  s_inf st = true -> step_scale st = Ok v ->
  let st' := fst (step c false st) in
  snd (step c false st) = Ok tt /\
  s_par st' = s_par st /\ s_groups st' = s_groups st /\ s_steps st' = S (s_steps st) /\
  (forall k, let s := s_slots st k in let s' := s_slots st' k in
     sl_K s' = sl_K s /\ sl_C s' = sl_C s /\ sl_mK s' = sl_mK s /\ sl_mC s' = sl_mC s) /\
  (forall m, In m (c_mods c) -> sl_HK (s_slots st' (m_key m)) = None /\ sl_HC (s_slots st' (m_key m)) = None) /\
  last (s_log st') WarnInitScale = WarnInf /\
  get_grad_scale (s_scales st') (Z.of_nat (s_steps st') - 1) = Ok v.
Proof.
  intros H st Hi Hv. apply ctor_state in H as (E1 & E2 & _).
  assert (S0 : scales_ok (s_steps st0) (s_scales st0)).
  { rewrite E1, E2. split; [repeat constructor; intros []|]. split; [|left; reflexivity]. intros k [<-|[]]. left. reflexivity. }
  pose proof (skipped_step c st (run_scales_ok c es st0 S0) Hi) as P. destruct (step c false st) as [st' r].
  rewrite Hv in P. cbn [fst snd]. destruct P as (P1 & P2 & P3 & P4 & P5 & P6 & P7 & P8).
  repeat (split; [assumption|]). exact P8.
Qed.

Lemma C47_warning_lemma {FL : FieldLaws SC} a par hooks hooks' c st0 es s :
  ctor a par hooks = (hooks', Ok (c, st0)) ->
  let st := run c es st0 in
  let st' := fst (set_current_grad_scale s st) in
  snd (set_current_grad_scale s st) = Ok tt /\
  ((s_steps st = 0 /\ a_init_scale a = f1 /\ s <> f1 /\ s_log st' = s_log st ++ [WarnInitScale]) \/
   ((s_steps st <> 0 \/ a_init_scale a <> f1 \/ s = f1) /\ s_log st' = s_log st)).
Proof.
  intros H st st'. apply ctor_state in H as (E1 & E2 & _).
  assert (I : s_steps st = 0 -> get_grad_scale (s_scales st) (-1) = Ok (a_init_scale a)).
  { intros E. apply run_init_scale; [rewrite E1, E2; reflexivity|exact E1|exact E]. }
  destruct (set_scale_warning s st (a_init_scale a) I) as [P1 P2]. split; [exact P1|].
  fold st' in P2. rewrite P2. destruct (Nat.eqb_spec (s_steps st) 0) as [E|E]; cbn [andb].
  2:{ right. split; [auto|]. apply app_nil_r. }
  destruct (feqb (a_init_scale a) f1) eqn:F1; cbn [andb].
  2:{ right. split; [|apply app_nil_r]. right. left. intros X. apply feqb_iff in X. congruence. }
  destruct (feqb s f1) eqn:F2; cbn [negb].
  1:{ right. split; [|apply app_nil_r]. right. right. apply feqb_iff. exact F2. }
  left. split; [exact E|]. split; [apply feqb_iff; exact F1|]. split; [|reflexivity].
  intros X. apply feqb_iff in X. congruence.
Qed.

Lemma C48_no_effect_lemma c es m x b out st :
  (forall g, ~ In (EBackward out g) es) ->
  let with_eval := run c (EForward m x b out :: es) st in
  let without := run c es st in
  s_par with_eval = s_par without /\ s_slots with_eval = s_slots without /\ s_steps with_eval = s_steps without /\
  s_scales with_eval = s_scales without /\ s_log with_eval = s_log without /\ s_groups with_eval = s_groups without /\
  (forall o, o <> out -> s_pend with_eval o = s_pend without o) /\
  tl (outcomes c (EForward m x b out :: es) st) = outcomes c es st.
Proof.
  intros He we wo.
  assert (E : eq_but_pend out st (fst (event_op c (EForward m x b out) st))).
  { cbn [event_op]. destruct (forward_frame c m x b out st) as (F1 & F2 & _). split; assumption. }
  destruct (run_eq_but_pend c es out _ _ E He) as [R1 R2]. fold wo in R1, R2. cbn [run] in we. fold we in R1, R2.
  rewrite R1. cbn [s_par s_slots s_steps s_scales s_log s_groups s_pend set_pend].
  repeat (split; [reflexivity|]). split; [exact R2|]. cbn [outcomes tl]. symmetry.
  exact (outcomes_eq_but_pend c es out _ _ E He).
Qed.

Lemma C48_no_grad_lemma c m x out st :
  s_pend st out = None -> forall o, s_pend (fst (forward_hook c m x false out st)) o = s_pend st o.
Proof.
  intros H o. destruct (forward_frame c m x false out st) as (_ & F & [G|(_ & G & _)]); [|discriminate].
  destruct (Nat.eq_dec o out) as [->|N]; [congruence|]. apply F. exact N.
Qed.

End PropRun.

(** * Examples: two layers (with and without bias), T = 2, dense preconditioners *)

Definition exc : cfg := fst (built ex_std).
Definition ex0 : @state Q_scalar := snd (built ex_std).

Lemma ex_built_case : snd (ctor ex_std ex_par []) = Ok (exc, ex0).
Proof. apply built_spec. vm_compute. reflexivity. Qed.

Lemma ex_cfg_ok_case : cfg_ok exc /\ c_mods exc = [ex_m1; ex_m2].
Proof. split; [|reflexivity]. split; vm_compute; repeat constructor; cbn; intuition discriminate. Qed.

(** C23: five iterations, one of them failing for lack of a backward pass; three steps succeed, two
    of them are due. *)
Definition ex_hist : list (@event Q_scalar) :=
  ex_iter (q 1) ++ ex_step ++ ex_iter (q 1) ++ ex_step ++ ex_step (* fails: no statistics *) ++
  ex_iter (q 1) ++ ex_step ++ [EStep true].

Lemma C23_example_case :
  step_times exc ex_hist ex0 = [0; 1; 2] /\ s_steps (run exc ex_hist ex0) = 3 /\
  filter (fun r => negb (is_ok r)) (outcomes exc ex_hist ex0) = [Err KeyError; Err NotImplementedError].
Proof. vm_compute. repeat split; reflexivity. Qed.

Lemma C23_example_pre_case :
  let s1 := run exc (ex_iter (q 1) ++ ex_step) ex0 in
  let s2 := run exc (ex_iter (q 1) ++ ex_step) s1 in
  pre_of ex0 0 = (lit [3;3] [1;0;0;0;1;0;0;0;1]%Z, lit [1;1] [1]%Z) /\
  snd (pre_of s1 0) = Ok ([1; 1], [-119 # 48]%Q) /\ pre_of s2 0 = pre_of s1 0.
Proof. vm_compute. repeat split; reflexivity. Qed.

Lemma C24_example_case :
  has_H ex0 0 = false /\ has_H (run exc (ex_iter (q 1)) ex0) 0 = true /\
  due exc ex_m1 (run exc (ex_iter (q 1)) ex0) /\
  outcome (step exc false (run exc (ex_iter (q 1)) ex0)) = Ok tt /\
  has_H (run exc (ex_iter (q 1) ++ ex_step) ex0) 0 = false /\
  snd (step exc false ex0) = Err KeyError.
Proof.
  repeat split; try (vm_compute; reflexivity).
  apply dueb_due. vm_compute. reflexivity.
Qed.

(** C24 fails for a backward pass after the step of a forward pass made before it: statistics are
    collected at a step that is not an update step, with the parameters already changed ... *)
Definition ex_stale : list (@event Q_scalar) :=
  [EForward ex_m1 ex_x1 true 20] ++ ex_iter (q 1) ++ ex_step.

Lemma C24_stale_backward_refuted_lemma :
  let st := run exc ex_stale ex0 in
  s_steps st = 1 /\ not_due exc ex_m1 st /\ has_H st 0 = false /\
  has_H (run exc [@EBackward Q_scalar 20 ex_g1] st) 0 = true /\
  (* ... and change the next update *)
  pre_of (run exc (ex_iter (q 1) ++ ex_step ++ ex_iter (q 1) ++ ex_step) st) 0 <>
  pre_of (run exc ([@EBackward Q_scalar 20 ex_g1] ++ ex_iter (q 1) ++ ex_step ++ ex_iter (q 1) ++ ex_step) st) 0.
Proof.
  split; [vm_compute; reflexivity|]. split.
  - apply dueb_not_due. vm_compute. reflexivity.
  - split; [vm_compute; reflexivity|]. split; [vm_compute; reflexivity|]. vm_compute. intros H. discriminate.
Qed.

(** C25, C27, C47: scaled iterations, one of them skipped. *)
Definition ex_scaled : list (@event Q_scalar) :=
  ex_iter (q 4) ++ [@ESetScale Q_scalar (q 4)] ++ ex_step ++
  ex_iter (q 9) ++ [@ESetScale Q_scalar (q 9); @EScaler Q_scalar None true] ++ ex_step.

Lemma C25_example_case :
  map fst (s_scales (run exc ex_scaled ex0)) = [1%Z] /\
  (match last_scale exc ex_scaled ex0 (Ok (q 1)) with Ok v => Ok (this v) | Err e => Err e end) = Ok 9%Q /\
  s_log (run exc ex_scaled ex0) = [WarnInitScale; WarnInf] /\
  s_inf (run exc ex_scaled ex0) = true /\
  (match step_scale (run exc ex_scaled ex0) with Ok v => Ok (this v) | Err e => Err e end) = Ok 1%Q.
Proof. vm_compute. repeat split; reflexivity. Qed.

Lemma C27_example_case :
  let st := run exc (ex_scaled ++ ex_iter (q 9)) ex0 in let st' := fst (step exc false st) in
  s_inf st = true /\ has_H st 0 = true /\ has_H st' 0 = false /\ s_steps st' = 3 /\
  val_of st' 0 = val_of st 0 /\ pre_of st' 0 = pre_of st 0.
Proof. vm_compute. repeat split; reflexivity. Qed.

Lemma C48_example_case :
  val_of (run exc ([@EForward Q_scalar ex_m1 ex_x2 true 33] ++ ex_iter (q 1) ++ ex_step) ex0) 0 =
  val_of (run exc (ex_iter (q 1) ++ ex_step) ex0) 0 /\
  val_of (run exc ([@EForward Q_scalar ex_m1 ex_x1 true 33; @EBackward Q_scalar 33 ex_g1] ++ ex_iter (q 1) ++ ex_step) ex0) 0 <>
  val_of (run exc (ex_iter (q 1) ++ ex_step) ex0) 0.
Proof. split; [vm_compute; reflexivity|]. vm_compute. intros H. discriminate. Qed.
