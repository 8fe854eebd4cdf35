(** C59: without preconditioner learning rate the optimizer is stochastic gradient descent. *)

From Coq Require Import List Arith Lia Bool ZArith QArith Qcanon.
From Verif Require Import Scalar Res Tensor TensorFacts Structures StructSpec OptimUtils ProofUtils Optimizer Construct OptSpec OptState OptRun OptFacts OptTyped OptMom ProgressSpec Progress ProgressEx SgdSpec Sgd QEx OptEx OptEx2 ProofUpdate ProofSgd.
Import ListNotations.
Open Scope nat_scope.

Section PropSgd.
Context {SC : Scalar} {FL : FieldLaws SC}.

(** After any history, failing calls included, in which the preconditioner learning rate is 0 whenever [step] is called
    (for instance during a warm-up phase of a schedule), all preconditioners are the identity. *)
Theorem C59_identity : forall a par c st0 es m cK cC dK dC,
  setting a par c st0 -> wf_run c es st0 -> frozen c es st0 -> In m (c_mods c) -> has_ty c st0 m cK cC dK dC ->
  exists K C, sl_K (s_slots (run c es st0) (m_key m)) = Some K /\ sl_C (s_slots (run c es st0) (m_key m)) = Some C /\
    eqm dK (ent K) ident /\ eqm dC (ent C) ident.
Proof. exact C59_identity_lemma. Qed.

(** If moreover no step raises, all parameters and momentum buffers are those of plain SGD, started with the same parameters
    and called in the same way: for all structures, damping, update intervals, approximations, numbers of passes, gradient scales,
    skipped steps and changes of the groups. *)
Theorem C59_sgd : forall a par c st0 es,
  setting a par c st0 -> torch_shapes par c -> wf_run c es st0 -> Forall (grad_fits c) es -> frozen c es st0 -> no_failed_step c es st0 ->
  forall p, s_par (run c es st0) p = w_par (sgd_run (trained c) es (sgd_start par (s_groups st0))) p.
Proof. exact C59_sgd_lemma. Qed.

End PropSgd.

Print Assumptions C59_identity.
Print Assumptions C59_sgd.

(** * Cases *)

(** Four steps, the second with announced scale 4, the third skipped; the schedule is 0 for these steps and 1/2 afterwards. *)
Example C59_example :
  let a := warm_args 4 2 (Some (CBlock 30), Some CTril) in let c := fst (built a) in let st0 := snd (built a) in let es := warm_hist in
  setting a ex_par c st0 /\ torch_shapes ex_par c /\ wf_run c es st0 /\ Forall (grad_fits c) es /\ frozen c es st0 /\ no_failed_step c es st0 /\
  s_steps (run c es st0) = 4 /\ val_of (run c es st0) 0 <> val_of st0 0 /\ val_of (run c es st0) 1 <> val_of st0 1.
Proof. exact C59_example_case. Qed.

(** The condition is needed: if the warm-up ends after one step, the weights are not those of SGD. *)
Theorem C59_rate_needed_refuted :
  let a := warm_args 1 1 dense2 in let c := fst (built a) in let st0 := snd (built a) in let es := warm_hist in
  setting a ex_par c st0 /\ torch_shapes ex_par c /\ wf_run c es st0 /\ Forall (grad_fits c) es /\ no_failed_step c es st0 /\
  val_of (run c es st0) 0 <> show (p_val (w_par (sgd_run (trained c) es (sgd_start ex_par (s_groups st0))) 0)).
Proof. exact C59_rate_needed_refuted_lemma. Qed.
Print Assumptions C59_rate_needed_refuted.
