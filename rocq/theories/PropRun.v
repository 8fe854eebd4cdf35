(** C23, C24, C25, C27, C47, C48: step counter and update schedule, life of the curvature
    statistics, gradient scale bookkeeping, skipped steps, the initial scale warning and evaluation
    passes.  All statements are about arbitrary histories of API calls [es] (calls may fail, the
    caller then goes on), arbitrary models, layers, structures, hyper-parameters, tensors. *)

From Coq Require Import List Arith Lia Bool ZArith QArith Qcanon.
From Verif Require Import Scalar Res Tensor Structures OptimUtils Optimizer Construct OptState OptRun OptConsume QEx OptEx ProofRun.
Import ListNotations.
Open Scope nat_scope.

Section PropRun.
Context {SC : Scalar}.

(** * C23: update schedule *)

(** A step counts iff it returns; *)
Theorem C23_step_counts : forall c closure st st' r,
  step c closure st = (st', r) ->
  s_steps st' = match r with Ok _ => S (s_steps st) | Err _ => s_steps st end.
Proof. exact C23_step_counts_lemma. Qed.

(** nothing else does. *)
Theorem C23_nothing_else_counts : forall c e st, (forall b, e <> EStep b) -> s_steps (fst (event_op c e st)) = s_steps st.
Proof. exact C23_nothing_else_counts_lemma. Qed.

(** Preconditioners and their momenta change only in steps t with t % T = 0 that are not skipped. *)
Theorem C23_change_only_when_due : forall c e st m,
  NoDup (map m_key (c_mods c)) -> In m (c_mods c) ->
  let s := s_slots st (m_key m) in let s' := s_slots (fst (event_op c e st)) (m_key m) in
  (sl_K s' = sl_K s /\ sl_C s' = sl_C s /\ sl_mK s' = sl_mK s /\ sl_mC s' = sl_mC s) \/
  e = EStep false /\ s_inf st = false /\
  exists g, get_group c (s_groups st) m = Ok g /\ g_T g <> 0 /\ s_steps st mod g_T g = 0.
Proof. exact C23_change_only_when_due_lemma. Qed.

(** The successful steps of a history see the counters 0, 1, ..., n-1, so with a fixed T exactly
    ceil(n/T) of them are due. *)
Theorem C23_opportunities : forall c es st T,
  s_steps st = 0 -> T <> 0 ->
  let times := step_times c es st in
  times = seq 0 (length times) /\ s_steps (run c es st) = length times /\
  length (filter (fun t => Nat.eqb (t mod T) 0) times) = (length times + T - 1) / T.
Proof. exact C23_opportunities_lemma. Qed.

(** * C24: life of the curvature statistics *)

(** A due step that succeeds had statistics and consumes them. *)
Theorem C24_consumed : forall c st st' m,
  cfg_ok c -> In m (c_mods c) -> s_inf st = false -> due c m st -> step c false st = (st', Ok tt) ->
  (exists a, sl_HK (s_slots st (m_key m)) = Some a) /\ (exists b, sl_HC (s_slots st (m_key m)) = Some b) /\
  sl_HK (s_slots st' (m_key m)) = None /\ sl_HC (s_slots st' (m_key m)) = None.
Proof. exact C24_consumed_lemma. Qed.

(** Without statistics of some module a due step fails, ... *)
Theorem C24_missing_fails : forall c st m,
  cfg_ok c -> In m (c_mods c) -> s_inf st = false -> due c m st ->
  sl_HK (s_slots st (m_key m)) = None \/ sl_HC (s_slots st (m_key m)) = None ->
  exists e, snd (step c false st) = Err e.
Proof. exact C24_missing_fails_lemma. Qed.

(** ... with a KeyError if it is the first module. *)
Theorem C24_missing_keyerror : forall c st m l,
  c_mods c = m :: l -> s_inf st = false -> due c m st -> scales_ok (s_steps st) (s_scales st) ->
  (exists v, step_scale st = Ok v) ->
  sl_K (s_slots st (m_key m)) <> None -> sl_C (s_slots st (m_key m)) <> None ->
  sl_HK (s_slots st (m_key m)) = None \/ sl_HC (s_slots st (m_key m)) = None ->
  snd (step c false st) = Err KeyError.
Proof. exact C24_missing_keyerror_lemma. Qed.

(** Statistics exist only after a backward pass of a forward pass made at an update step. *)
Theorem C24_origin : forall c es st k,
  ~ has_stats k st -> (forall o, s_pend st o = None) -> has_stats k (run c es st) ->
  exists es1 es2 es3 m x out g,
    es = es1 ++ EForward m x true out :: es2 ++ EBackward out g :: es3 /\ m_key m = k /\ due c m (run c es1 st).
Proof. exact C24_origin_lemma. Qed.

(** A forward pass at another step registers no hook, and a step there leaves statistics alone. *)
Theorem C24_not_collected : forall c m x b out st,
  not_due c m st -> s_pend (fst (forward_hook c m x b out st)) out = None.
Proof. exact C24_not_collected_lemma. Qed.

Theorem C24_not_used : forall c st st' m,
  cfg_ok c -> In m (c_mods c) -> s_inf st = false -> not_due c m st -> step c false st = (st', Ok tt) ->
  s_slots st' (m_key m) = s_slots st (m_key m).
Proof. exact C24_not_used_lemma. Qed.

(** * C25: gradient scale bookkeeping *)
Theorem C25_bookkeeping : forall a par hooks hooks' c st0 es,
  ctor a par hooks = (hooks', Ok (c, st0)) ->
  let st := run c es st0 in
  length (s_scales st) <= 2 /\ NoDup (map fst (s_scales st)) /\
  (forall k, In k (map fst (s_scales st)) -> k = (Z.of_nat (s_steps st) - 1)%Z \/ k = Z.of_nat (s_steps st)) /\
  exists v, get_grad_scale (s_scales st) (Z.of_nat (s_steps st) - 1) = Ok v.
Proof. exact C25_bookkeeping_lemma. Qed.

(** The value found is the scale of the last successful step ([init_grad_scale] before). *)
Theorem C25_previous_scale : forall a par hooks hooks' c st0 es,
  ctor a par hooks = (hooks', Ok (c, st0)) ->
  let st := run c es st0 in
  get_grad_scale (s_scales st) (Z.of_nat (s_steps st) - 1) = last_scale c es st0 (Ok (a_init_scale a)).
Proof. exact C25_previous_scale_lemma. Qed.

(** * C27: skipped steps *)
Theorem C27_skipped : forall a par hooks hooks' c st0 es v,
  ctor a par hooks = (hooks', Ok (c, st0)) ->
  let st := run c es st0 in
  s_inf st = true -> step_scale st = Ok v ->
  let st' := fst (step c false st) in
  snd (step c false st) = Ok tt /\
  s_par st' = s_par st /\ s_groups st' = s_groups st /\ s_steps st' = S (s_steps st) /\
  (forall k, let s := s_slots st k in let s' := s_slots st' k in
     sl_K s' = sl_K s /\ sl_C s' = sl_C s /\ sl_mK s' = sl_mK s /\ sl_mC s' = sl_mC s) /\
  (forall m, In m (c_mods c) -> sl_HK (s_slots st' (m_key m)) = None /\ sl_HC (s_slots st' (m_key m)) = None) /\
  last (s_log st') WarnInitScale = WarnInf /\
  get_grad_scale (s_scales st') (Z.of_nat (s_steps st') - 1) = Ok v.
Proof. exact C27_skipped_lemma. Qed.

(** * C47: the warning about a forgotten initial scale *)
Theorem C47_warning {FL : FieldLaws SC} : forall a par hooks hooks' c st0 es s,
  ctor a par hooks = (hooks', Ok (c, st0)) ->
  let st := run c es st0 in
  let st' := fst (set_current_grad_scale s st) in
  snd (set_current_grad_scale s st) = Ok tt /\
  ((s_steps st = 0 /\ a_init_scale a = f1 /\ s <> f1 /\ s_log st' = s_log st ++ [WarnInitScale]) \/
   ((s_steps st <> 0 \/ a_init_scale a <> f1 \/ s = f1) /\ s_log st' = s_log st)).
Proof. exact C47_warning_lemma. Qed.

(** * C48: evaluation passes *)

(** A forward pass whose output [out] is not differentiated later, at any position of a history:
    the outcome of every later call and everything but the hook on [out] are the same. *)
Theorem C48_no_effect : forall c es m x b out st,
  (forall g, ~ In (EBackward out g) es) ->
  let with_eval := run c (EForward m x b out :: es) st in
  let without := run c es st in
  s_par with_eval = s_par without /\ s_slots with_eval = s_slots without /\ s_steps with_eval = s_steps without /\
  s_scales with_eval = s_scales without /\ s_log with_eval = s_log without /\ s_groups with_eval = s_groups without /\
  (forall o, o <> out -> s_pend with_eval o = s_pend without o) /\
  tl (outcomes c (EForward m x b out :: es) st) = outcomes c es st.
Proof. exact C48_no_effect_lemma. Qed.

(** Without gradients not even a hook is left behind. *)
Theorem C48_no_grad : forall c m x out st,
  s_pend st out = None -> forall o, s_pend (fst (forward_hook c m x false out st)) o = s_pend st o.
Proof. exact C48_no_grad_lemma. Qed.

End PropRun.

Print Assumptions C23_step_counts.
Print Assumptions C23_nothing_else_counts.
Print Assumptions C23_change_only_when_due.
Print Assumptions C23_opportunities.
Print Assumptions C24_consumed.
Print Assumptions C24_missing_fails.
Print Assumptions C24_missing_keyerror.
Print Assumptions C24_origin.
Print Assumptions C24_not_collected.
Print Assumptions C24_not_used.
Print Assumptions C25_bookkeeping.
Print Assumptions C25_previous_scale.
Print Assumptions C27_skipped.
Print Assumptions C47_warning.
Print Assumptions C48_no_effect.
Print Assumptions C48_no_grad.

(** The optimizer is built and its configuration is consistent. *)
Example ex_built : snd (ctor ex_std ex_par []) = Ok (exc, ex0).
Proof. exact ex_built_case. Qed.

Example ex_cfg_ok : cfg_ok exc /\ c_mods exc = [ex_m1; ex_m2].
Proof. exact ex_cfg_ok_case. Qed.

(** C23: five iterations, one of them failing for lack of a backward pass; three steps succeed, two
    of them are due. *)
Example C23_example :
  step_times exc ex_hist ex0 = [0; 1; 2] /\ s_steps (run exc ex_hist ex0) = 3 /\
  filter (fun r => negb (is_ok r)) (outcomes exc ex_hist ex0) = [Err KeyError; Err NotImplementedError].
Proof. exact C23_example_case. Qed.

(** The preconditioner of the first layer changes in step 0 and stays in step 1. *)
Example C23_example_pre :
  let s1 := run exc (ex_iter (q 1) ++ ex_step) ex0 in
  let s2 := run exc (ex_iter (q 1) ++ ex_step) s1 in
  pre_of ex0 0 = (lit [3;3] [1;0;0;0;1;0;0;0;1]%Z, lit [1;1] [1]%Z) /\
  snd (pre_of s1 0) = Ok ([1; 1], [-119 # 48]%Q) /\ pre_of s2 0 = pre_of s1 0.
Proof. exact C23_example_pre_case. Qed.

(** C24: statistics appear in the backward pass and are gone after the step. *)
Example C24_example :
  has_H ex0 0 = false /\ has_H (run exc (ex_iter (q 1)) ex0) 0 = true /\
  due exc ex_m1 (run exc (ex_iter (q 1)) ex0) /\
  outcome (step exc false (run exc (ex_iter (q 1)) ex0)) = Ok tt /\
  has_H (run exc (ex_iter (q 1) ++ ex_step) ex0) 0 = false /\
  snd (step exc false ex0) = Err KeyError.
Proof. exact C24_example_case. Qed.

(** C24 fails for a backward pass after the step of a forward pass made before it: statistics are
    collected at a step that is not an update step, with the parameters already changed ... *)
Theorem C24_stale_backward_refuted :
  let st := run exc ex_stale ex0 in
  s_steps st = 1 /\ not_due exc ex_m1 st /\ has_H st 0 = false /\
  has_H (run exc [@EBackward Q_scalar 20 ex_g1] st) 0 = true /\
  (* ... and change the next update *)
  pre_of (run exc (ex_iter (q 1) ++ ex_step ++ ex_iter (q 1) ++ ex_step) st) 0 <>
  pre_of (run exc ([@EBackward Q_scalar 20 ex_g1] ++ ex_iter (q 1) ++ ex_step ++ ex_iter (q 1) ++ ex_step) st) 0.
Proof. exact C24_stale_backward_refuted_lemma. Qed.
Print Assumptions C24_stale_backward_refuted.

(** C25, C27, C47: scaled iterations, one of them skipped. *)
Example C25_example :
  map fst (s_scales (run exc ex_scaled ex0)) = [1%Z] /\
  (match last_scale exc ex_scaled ex0 (Ok (q 1)) with Ok v => Ok (this v) | Err e => Err e end) = Ok 9%Q /\
  s_log (run exc ex_scaled ex0) = [WarnInitScale; WarnInf] /\
  s_inf (run exc ex_scaled ex0) = true /\
  (match step_scale (run exc ex_scaled ex0) with Ok v => Ok (this v) | Err e => Err e end) = Ok 1%Q.
Proof. exact C25_example_case. Qed.

Example C27_example :
  let st := run exc (ex_scaled ++ ex_iter (q 9)) ex0 in let st' := fst (step exc false st) in
  s_inf st = true /\ has_H st 0 = true /\ has_H st' 0 = false /\ s_steps st' = 3 /\
  val_of st' 0 = val_of st 0 /\ pre_of st' 0 = pre_of st 0.
Proof. exact C27_example_case. Qed.

(** C48: an evaluation pass inside an iteration, and the contrast: differentiating it matters. *)
Example C48_example :
  val_of (run exc ([@EForward Q_scalar ex_m1 ex_x2 true 33] ++ ex_iter (q 1) ++ ex_step) ex0) 0 =
  val_of (run exc (ex_iter (q 1) ++ ex_step) ex0) 0 /\
  val_of (run exc ([@EForward Q_scalar ex_m1 ex_x1 true 33; @EBackward Q_scalar 33 ex_g1] ++ ex_iter (q 1) ++ ex_step) ex0) 0 <>
  val_of (run exc (ex_iter (q 1) ++ ex_step) ex0) 0.
Proof. exact C48_example_case. Qed.
