(** C45, C50: failing steps, and layers used several times. *)

From Coq Require Import List Arith Lia Bool ZArith QArith Qcanon Permutation.
From Verif Require Import Scalar Res Tensor Structures StructSpec OptimUtils Optimizer Construct OptState OptRun OptSpec OptFacts OptConsume OptTyped OptPre OptOrder OptFail QEx OptEx OptEx2 ProofUpdate ProofFail.
Import ListNotations.
Open Scope nat_scope.

(** * C45: failing steps *)

Section PropFail.
Context {SC : Scalar}.

(** Passing a closure, or a scaler that announces no scale, changes nothing. *)
Theorem C45_closure : forall c st, step c true st = (st, Err NotImplementedError).
Proof. exact C45_closure_lemma. Qed.

(** Missing in general: the modules before the failing one have been updated, and the failing one may
    have lost its statistics (see below).  What remains: counter, groups, gradients, waiting hooks, the
    previous scale and all modules after the failing one. *)
Theorem C45_rest_kept_partial : forall a par hooks hooks' c st0 es st' e,
  ctor a par hooks = (hooks', Ok (c, st0)) -> cfg_ok c ->
  let st := run c es st0 in
  step c false st = (st', Err e) ->
  (st' = st /\ s_amp st = Some None) \/
  s_steps st' = s_steps st /\ s_groups st' = s_groups st /\ s_amp st' = s_amp st /\ s_inf st' = s_inf st /\ s_pend st' = s_pend st /\
  (forall p, p_grad (s_par st' p) = p_grad (s_par st p)) /\
  get_grad_scale (s_scales st') (Z.of_nat (s_steps st) - 1) = get_grad_scale (s_scales st) (Z.of_nat (s_steps st) - 1) /\
  get_grad_scale (s_scales st') (Z.of_nat (s_steps st)) = step_scale st /\
  exists l1 m l2, c_mods c = l1 ++ m :: l2 /\
    (forall m', In m' l2 -> s_slots st' (m_key m') = s_slots st (m_key m') /\ forall p, In p (mod_params m') -> s_par st' p = s_par st p).
Proof. exact C45_rest_kept_partial_lemma. Qed.

End PropFail.

Print Assumptions C45_closure.
Print Assumptions C45_rest_kept_partial.

(** The first layer's parameters and preconditioners are updated by the failing step, its statistics are
    gone, so that the step fails again after the backward pass has been made up for. *)
Theorem C45_retry_refuted :
  exists (a : @args Q_scalar) par c st0 es fix_ p,
    setting a par c st0 /\ wf_run c es st0 /\
    let st := run c es st0 in let st' := fst (step c false st) in
    snd (step c false st) = Err KeyError /\ show (p_val (s_par st' p)) <> show (p_val (s_par st p)) /\ pre_of st' 0 <> pre_of st 0 /\
    snd (step c false (run c fix_ st)) = Ok tt /\ snd (step c false (run c fix_ st')) = Err KeyError.
Proof. exact C45_retry_refuted_lemma. Qed.
Print Assumptions C45_retry_refuted.

(** A missing gradient: the preconditioners are updated although the step fails, and the retry with the
    gradient present raises KeyError. *)
Theorem C45_missing_gradient_refuted :
  exists (a : @args Q_scalar) par c st0 es fix_,
    setting a par c st0 /\ wf_run c es st0 /\
    let st := run c es st0 in let st' := fst (step c false st) in
    snd (step c false st) = Err AttributeError /\ pre_of st' 0 <> pre_of st 0 /\
    snd (step c false (run c fix_ st)) = Ok tt /\ snd (step c false (run c fix_ st')) = Err KeyError.
Proof. exact C45_missing_gradient_refuted_lemma. Qed.
Print Assumptions C45_missing_gradient_refuted.

(** The scale of a failed step is used by the retry although the scaler has announced another one:
    first 4, then (after the failure) 2. *)
Theorem C45_scale_refuted :
  exists (a : @args Q_scalar) par c st0 es v,
    setting a par c st0 /\ wf_run c es st0 /\
    let st := run c es st0 in
    s_steps st = 0 /\ s_amp st = Some (Some v) /\ (exists w, step_scale st = Ok w /\ w <> v).
Proof. exact C45_scale_refuted_lemma. Qed.
Print Assumptions C45_scale_refuted.

(** * C50: layers used several times *)

Section PropOrder.
Context {SC : Scalar} {FL : FieldLaws SC}.
Open Scope F_scope.

(** Running the backward hooks waiting on any outputs in another order gives the same state. *)
Theorem C50_order : forall a par c st0 es bs bs',
  setting a par c st0 -> wf_run c es st0 ->
  let st := run c es st0 in
  wf_run c bs st -> Forall (fun e => match e with EBackward _ _ => True | _ => False end) bs -> Permutation bs bs' ->
  run c bs st = run c bs' st.
Proof. exact C50_order_lemma. Qed.

(** The statistics are the old ones plus the sum of the contributions of the hooks of the module, each
    computed as if it were the only one ([contrib], OptOrder.v; see C50_single). *)
Theorem C50_added : forall a par c st0 es bs m cK cC dK dC,
  setting a par c st0 -> wf_run c es st0 -> In m (c_mods c) -> has_ty c st0 m cK cC dK dC ->
  let st := run c es st0 in
  wf_run c bs st -> Forall (fun e => match e with EBackward _ _ => True | _ => False end) bs ->
  let s := s_slots st (m_key m) in let s' := s_slots (run c bs st) (m_key m) in let l := contribs c st m bs in
  sl_K s' = sl_K s /\ sl_C s' = sl_C s /\ sl_mK s' = sl_mK s /\ sl_mC s' = sl_mC s /\
  match l with
  | [] => s' = s
  | _ => exists hk hc, sl_HK s' = Some hk /\ sl_HC s' = Some hc /\ valid cK dK hk /\ valid cC dC hc /\
      eqm dK (ent hk) (fun i j => oldm (sl_HK s) i j + fold_right (fun h r => ent (fst h) i j + r) 0 l) /\
      eqm dC (ent hc) (fun i j => oldm (sl_HC s) i j + fold_right (fun h r => ent (snd h) i j + r) 0 l)
  end.
Proof. exact C50_added_lemma. Qed.

(** The contribution of a hook is what it stores if its module has no statistics yet (the value is given
    by C28_statistics). *)
Theorem C50_single : forall a par c st0 es out gout m h,
  setting a par c st0 -> wf_run c es st0 -> In m (c_mods c) ->
  let st := run c es st0 in
  contrib c st m (EBackward out gout) = Some h ->
  let s' := s_slots (fst (event_op c (EBackward out gout) (without_H st (m_key m)))) (m_key m) in
  sl_HK s' = Some (fst h) /\ sl_HC s' = Some (snd h).
Proof. exact C50_single_lemma. Qed.

End PropOrder.

Print Assumptions C50_order.
Print Assumptions C50_added.
Print Assumptions C50_single.

(** A layer used three times (outputs 10, 12 and 13, the last of which is never differentiated) and another one. *)
Example C50_example :
  wf_run flc mu_es fl0 /\ wf_run flc mu_bs (run flc mu_es fl0) /\
  Forall (fun e => match e with @EBackward _ _ _ => True | _ => False end) mu_bs /\ Permutation mu_bs (rev mu_bs) /\
  length (contribs flc (run flc mu_es fl0) ex_m1 mu_bs) = 2 /\
  (match sl_HK (s_slots (run flc mu_bs (run flc mu_es fl0)) 0) with Some h => showd (Ok h) | None => Err KeyError end)
   = lit [3; 3] [9; -3; 3; -3; 50; 6; 3; 6; 2]%Z.
Proof. exact C50_example_case. Qed.
