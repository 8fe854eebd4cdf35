(** C51: which training scripts raise no exception. *)

From Coq Require Import List Arith Lia Bool ZArith QArith Qcanon Reals.
From Verif Require Import Scalar Res Tensor Structures OptimUtils Optimizer Construct OptState OptRun OptTyped ProgressSpec Progress ProgressEx QEx OptEx OptEx2 ProofProgress.
Import ListNotations.
Open Scope nat_scope.

Section PropProgress.
Context {SC : Scalar} {FL : FieldLaws SC}.

(** Regular training raises no exception: any number of iterations, each with any number of forward and backward passes through
    all layers in any order, evaluation passes anywhere, groups edited between iterations, scales announced and overflows. *)
Theorem C51_regular : forall a par c st0 es,
  setting a par c st0 -> torch_shapes par c -> sound_call a c (s_groups st0) ->
  regular c (s_groups st0) [] [] [] es -> Forall (fun r => r = Ok tt) (outcomes c es st0).
Proof. exact C51_regular_lemma. Qed.

(** In any other history, failing calls included: the exact condition under which a step raises no exception ... *)
Theorem C51_step : forall a par c st0 es,
  setting a par c st0 -> torch_shapes par c -> wf_run c es st0 -> Forall (grad_fits c) es ->
  let st := run c es st0 in
  snd (step c false st) = Ok tt <-> exists cur, step_scale st = Ok cur /\ (s_inf st = true \/ forall m, In m (c_mods c) -> ready c st cur m).
Proof. exact C51_step_lemma. Qed.

(** ... and the one for a backward pass through an output whose forward pass was observed. *)
Theorem C51_backward : forall a par c st0 es out m x g,
  setting a par c st0 -> torch_shapes par c -> wf_run c es st0 -> Forall (grad_fits c) es ->
  let st := run c es st0 in
  s_pend st out = Some (m, x) -> fits (m_layer m) x g ->
  snd (event_op c (EBackward out g) st) = Ok tt <-> backward_ready c st m.
Proof. exact C51_backward_lemma. Qed.
End PropProgress.

Print Assumptions C51_regular.
Print Assumptions C51_step.
Print Assumptions C51_backward.

(** Instantiated with the real numbers. *)
Theorem C51_regular_real : forall (a : @args R_scalar) par c st0 es,
  setting a par c st0 -> torch_shapes par c -> sound_call a c (s_groups st0) ->
  regular c (s_groups st0) [] [] [] es -> Forall (fun r => r = Ok tt) (outcomes c es st0).
Proof. exact C51_regular_real_lemma. Qed.
Print Assumptions C51_regular_real.

(** ** Cases *)
Example C51_example :
  setting ex_std ex_par pr_c pr0 /\ torch_shapes ex_par pr_c /\ sound_call ex_std pr_c (s_groups pr0) /\
  regular pr_c (s_groups pr0) [] [] [] pr_hist /\
  s_steps (run pr_c pr_hist pr0) = 4 /\ val_of (run pr_c pr_hist pr0) 0 <> val_of pr0 0.
Proof. exact C51_example_case. Qed.

(** The hypotheses of the other two theorems, in a history in which both sides are false, then true. *)
Example C51_step_example :
  let es := ex_iter (q 1) ++ ex_step ++ [@EGrad Q_scalar 1 None] in
  setting ex_std ex_par pr_c pr0 /\ torch_shapes ex_par pr_c /\ wf_run pr_c es pr0 /\ Forall (grad_fits pr_c) es /\
  snd (step pr_c false (run pr_c es pr0)) <> Ok tt /\
  snd (step pr_c false (run pr_c (es ++ [@EGrad Q_scalar 1 (Some (qt [1] [5]%Z))]) pr0)) = Ok tt.
Proof. exact C51_step_example_case. Qed.

Example C51_backward_example :
  let es := firstn 2 (ex_iter (q 1)) in
  setting ex_std ex_par pr_c pr0 /\ torch_shapes ex_par pr_c /\ wf_run pr_c es pr0 /\ Forall (grad_fits pr_c) es /\
  s_pend (run pr_c es pr0) 10 = Some (ex_m1, ex_x1) /\ fits (m_layer ex_m1) ex_x1 ex_g1 /\
  snd (event_op pr_c (@EBackward Q_scalar 10 ex_g1) (run pr_c es pr0)) = Ok tt.
Proof. exact C51_backward_example_case. Qed.

(** ** What regular training excludes does raise *)

(** Shortening the update interval between the forward passes and the step. *)
Theorem C51_interval_refuted :
  exists gs, ok_groups pr_c (s_groups pr0) gs /\
    let es := ex_iter (q 1) ++ ex_step in
    Forall (fun r => r = Ok tt) (outcomes pr_c (es ++ ex_iter (q 1) ++ ex_step) pr0) /\
    outcome (step pr_c false (run pr_c (es ++ ex_iter (q 1) ++ [@EGroups Q_scalar gs]) pr0)) = Err KeyError.
Proof. exact C51_interval_refuted_lemma. Qed.
Print Assumptions C51_interval_refuted.

(** Switching Riemannian momentum on after an optimizer has been built without. *)
Theorem C51_momentum_refuted :
  exists (a : @args Q_scalar) gs, let c := fst (built a) in let st0 := snd (built a) in
    setting a ex_par c st0 /\ torch_shapes ex_par c /\ sound_call a c (s_groups st0) /\ gs = map (edit 2 (qr 1 2)) (s_groups st0) /\
    outcome (step c false (run c (@EGroups Q_scalar gs :: ex_iter (q 1)) st0)) = Err KeyError.
Proof. exact C51_momentum_refuted_lemma. Qed.
Print Assumptions C51_momentum_refuted.

(** A layer that takes no part in an iteration, though its parameters have (zero) gradients. *)
Theorem C51_unused_layer_refuted :
  let es := [@EForward Q_scalar ex_m1 ex_x1 true 10; @EBackward Q_scalar 10 ex_g1;
             @EGrad Q_scalar 0 (Some (qt [1; 2] [6; -2]%Z)); @EGrad Q_scalar 1 (Some (qt [1] [2]%Z)); @EGrad Q_scalar 2 (Some (qt [2; 1] [0; 0]%Z))] in
  outcome (step pr_c false (run pr_c es pr0)) = Err KeyError /\
  (* ... after the first layer has been updated already *)
  val_of (fst (step pr_c false (run pr_c es pr0))) 0 <> val_of pr0 0.
Proof. exact C51_unused_layer_refuted_lemma. Qed.
Print Assumptions C51_unused_layer_refuted.

(** A negative scale is accepted when announced; the next observed backward pass raises. *)
Theorem C51_negative_scale_refuted :
  let c := fst (built (ex_args PNone (q 0) (qr 1 2) (qr 1 8) 1 dense2 false false (q 1))) in
  let st0 := snd (built (ex_args PNone (q 0) (qr 1 2) (qr 1 8) 1 dense2 false false (q 1))) in
  let es := ex_iter (q 1) ++ [@ESetScale Q_scalar (q (-4) : @F Q_scalar)] ++ ex_step ++ firstn 2 (ex_iter (q 1)) in
  map is_ok (outcomes c es st0) = repeat true 11 /\
  outcome (event_op c (@EBackward Q_scalar 11 ex_g2) (run c es st0)) = Err ValueError.
Proof. exact C51_negative_scale_refuted_lemma. Qed.
Print Assumptions C51_negative_scale_refuted.
