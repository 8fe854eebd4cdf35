(** C52: what the preconditioners depend on. *)

From Coq Require Import List Arith Lia Bool ZArith QArith Qcanon Reals.
From Verif Require Import Scalar Res Tensor Structures OptimUtils Optimizer Construct OptState OptRun OptTyped ProgressSpec ProgressEx IndepSpec Indep QEx OptEx OptEx2 ProofIndep.
Import ListNotations.
Open Scope nat_scope.

Section PropIndep.
Context {SC : Scalar} {FL : FieldLaws SC}.

(** Two optimizers built with the same arguments for models with different weights, and two histories of the same calls
    with different gradients, learning rates, momenta and weight decays (for instance two schedulers): preconditioners, their momenta,
    statistics, scales, counter and warnings are the same after them, and the same calls raise. *)
Theorem C52_independent : forall a par par' c c' st0 st0' es es',
  setting a par c st0 -> setting a par' c' st0' -> torch_shapes par c -> torch_shapes par' c' ->
  (forall p, p_grad (par p) = None <-> p_grad (par' p) = None) ->
  Forall2 alike es es' -> wf_run c es st0 -> Forall (grad_fits c) es -> Forall (grad_fits c) es' ->
  let s := run c es st0 in let s' := run c' es' st0' in
  (forall k, s_slots s' k = s_slots s k) /\ s_steps s' = s_steps s /\ s_scales s' = s_scales s /\ s_log s' = s_log s /\
  Forall2 (fun r r' => r = Ok tt <-> r' = Ok tt) (outcomes c es st0) (outcomes c' es' st0').
Proof. exact C52_independent_lemma. Qed.
End PropIndep.

Print Assumptions C52_independent.

(** ** Cases *)
Example C52_example :
  setting ex_std ex_par in_c in0 /\ setting ex_std in_par in_c in0' /\ torch_shapes ex_par in_c /\ torch_shapes in_par in_c /\
  (forall p, p_grad (ex_par p) = None <-> p_grad (in_par p) = None) /\
  Forall2 alike in_hist in_hist' /\ wf_run in_c in_hist in0 /\ Forall (grad_fits in_c) in_hist /\ Forall (grad_fits in_c) in_hist' /\
  s_steps (run in_c in_hist in0) = 3 /\ pre_of (run in_c in_hist in0) 0 <> pre_of in0 0 /\
  pre_of (run in_c in_hist' in0') 0 = pre_of (run in_c in_hist in0) 0 /\
  val_of (run in_c in_hist' in0') 0 <> val_of (run in_c in_hist in0) 0 /\
  map is_ok (outcomes in_c in_hist in0) = map is_ok (outcomes in_c in_hist' in0').
Proof. exact C52_example_case. Qed.

(** Whether a gradient is missing does matter: the step fails and leaves the later layers without update. *)
Theorem C52_missing_gradient_refuted :
  let es := ex_iter (q 1) in let es' := ex_iter (q 1) ++ [@EGrad Q_scalar 1 None] in
  is_ok (snd (step in_c false (run in_c es in0))) = true /\ is_ok (snd (step in_c false (run in_c es' in0))) = false /\
  pre_of (fst (step in_c false (run in_c es in0))) 1 <> pre_of (fst (step in_c false (run in_c es' in0))) 1.
Proof. exact C52_missing_gradient_refuted_lemma. Qed.
Print Assumptions C52_missing_gradient_refuted.
