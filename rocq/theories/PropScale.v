(** C26: training is invariant under gradient scaling. *)

From Coq Require Import List Arith Lia Bool ZArith QArith Qcanon Reals Lra.
From Verif Require Import Scalar Res Tensor Structures OptimUtils Optimizer Construct OptState OptRun OptTyped CtorSpec Split ScaleInv ScaleRun QEx OptEx OptEx2 ProofSplit ProofScale.
Import ListNotations.
Open Scope nat_scope.

Section PropScale.
Context {SC : Scalar} {FL : FieldLaws SC}.

(** Two optimizers for the same model, one constructed with init_grad_scale = 1, the other one with [sc (-1)]; the first
    sees a training loop without scaling, the second one the same loop with the loss of iteration n multiplied by
    [sc n] (so output gradients and gradients are [sc n] times as large).  After every such history
    everything the optimizers compute is the same, and the second one raises no exception either. *)
Theorem C26_scaling : forall a par c st0 sc ann es,
  setting a par c st0 -> a_init_scale a = f1 ->
  (forall t : Z, sc t <> f0 /\ fltb (sc t) f0 = false /\ fmul (fsqrt (sc t)) (fsqrt (sc t)) = sc t) ->
  loop c [] [] es -> wf_run c es st0 -> steps_ok c es st0 ->
  exists t0, (forall hooks h', ctor a par hooks = (h', Ok (c, st0)) -> ctor (with_init (sc (-1)%Z) a) par hooks = (h', Ok (c, t0))) /\
    let es' := scaled sc ann 0 false es in steps_ok c es' t0 /\
    let s := run c es st0 in let t := run c es' t0 in
    s_steps t = s_steps s /\ s_groups t = s_groups s /\
    (forall p, p_val (s_par t p) = p_val (s_par s p) /\ p_buf (s_par t p) = p_buf (s_par s p)) /\
    forall m, In m (c_mods c) -> let k := m_key m in
      sl_K (s_slots t k) = sl_K (s_slots s k) /\ sl_C (s_slots t k) = sl_C (s_slots s k) /\
      sl_mK (s_slots t k) = sl_mK (s_slots s k) /\ sl_mC (s_slots t k) = sl_mC (s_slots s k) /\ sl_HK (s_slots t k) = sl_HK (s_slots s k).
Proof. exact C26_scaling_lemma. Qed.

End PropScale.

Print Assumptions C26_scaling.

(** Over the real numbers every sequence of positive scales qualifies. *)
Theorem C26_scaling_real : forall (a : @args R_scalar) par c st0 (sc : Z -> R) ann es,
  setting a par c st0 -> a_init_scale a = f1 -> (forall t : Z, (0 < sc t)%R) ->
  loop c [] [] es -> wf_run c es st0 -> steps_ok c es st0 ->
  exists t0, (forall hooks h', ctor a par hooks = (h', Ok (c, st0)) -> ctor (with_init (sc (-1)%Z : @F R_scalar) a) par hooks = (h', Ok (c, t0))) /\
    let es' := @scaled R_scalar sc ann 0 false es in steps_ok c es' t0 /\
    let s := run c es st0 in let t := run c es' t0 in
    s_steps t = s_steps s /\ s_groups t = s_groups s /\
    (forall p, p_val (s_par t p) = p_val (s_par s p) /\ p_buf (s_par t p) = p_buf (s_par s p)) /\
    forall m, In m (c_mods c) -> let k := m_key m in
      sl_K (s_slots t k) = sl_K (s_slots s k) /\ sl_C (s_slots t k) = sl_C (s_slots s k) /\
      sl_mK (s_slots t k) = sl_mK (s_slots s k) /\ sl_mC (s_slots t k) = sl_mC (s_slots s k) /\ sl_HK (s_slots t k) = sl_HK (s_slots s k).
Proof. exact C26_scaling_real_lemma. Qed.
Print Assumptions C26_scaling_real.

(** ** Cases *)
Example C26_example :
  setting si ex_par sic si0 /\ a_init_scale si = @f1 Q_scalar /\ loop sic [] [] si_es /\ wf_run sic si_es si0 /\ steps_ok sic si_es si0 /\
  s_steps (run sic si_es si0) = 3 /\ val_of (run sic si_es si0) 2 <> val_of si0 2 /\ pre_of (run sic si_es si0) 0 <> pre_of si0 0.
Proof. exact C26_example_case. Qed.

(** The restriction to fresh outputs is needed: a backward pass through an output of an earlier iteration (a
    kept graph) is weighted with the wrong scale when its statistics are used.  T = 2: the output of iteration 0
    is used again in iteration 1. *)
Theorem C26_stale_refuted :
  exists (a : @args Q_scalar) par c st0 sc es,
    setting a par c st0 /\ a_init_scale a = @f1 Q_scalar /\ rewrites c [] es /\ wf_run c es st0 /\ steps_ok c es st0 /\
    (forall t : Z, sc t <> @f0 Q_scalar /\ @fltb Q_scalar (sc t) (@f0 Q_scalar) = false /\ @fmul Q_scalar (@fsqrt Q_scalar (sc t)) (@fsqrt Q_scalar (sc t)) = sc t) /\
    exists t0, (forall hooks h', ctor a par hooks = (h', Ok (c, st0)) -> ctor (with_init (sc (-1)%Z) a) par hooks = (h', Ok (c, t0))) /\
    let es' := scaled sc (fun _ => true) 0 false es in steps_ok c es' t0 /\
    s_steps (run c es' t0) = s_steps (run c es st0) /\ val_of (run c es' t0) 2 <> val_of (run c es st0) 2.
Proof. exact C26_stale_refuted_lemma. Qed.
Print Assumptions C26_stale_refuted.
