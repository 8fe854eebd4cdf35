(** C53: the order of the samples in a batch does not matter. *)

From Coq Require Import List Arith Lia Bool ZArith QArith Qcanon Reals.
From Verif Require Import Scalar Res Tensor Structures OptimUtils Optimizer Construct OptState OptRun OptTyped ShuffleSpec Shuffle QEx OptEx OptEx2 Batch Accum ProofAccum ProofShuffle.
Import ListNotations.
Open Scope nat_scope.

Section PropShuffle.
Context {SC : Scalar} {FL : FieldLaws SC} {SQ : SqrtLaws SC}.

(** Two histories of the same calls on one optimizer that differ only in the order of the samples in the inputs of forward passes and
    in the output gradients of backward passes (any permutation in any call): everything the optimizer holds is the same
    after them, but for the inputs recorded by hooks still waiting, and the same calls raise. *)
Theorem C53_sample_order : forall a par c st0 es es',
  setting a par c st0 -> wf_run c es st0 -> Forall2 shuffled_call es es' ->
  let s := run c es st0 in let t := run c es' st0 in
  s_steps t = s_steps s /\ s_scales t = s_scales s /\ s_groups t = s_groups s /\ s_log t = s_log s /\
  (forall p, s_par t p = s_par s p) /\ (forall k, s_slots t k = s_slots s k) /\
  Forall2 (fun r r' => r = Ok tt <-> r' = Ok tt) (outcomes c es st0) (outcomes c es' st0).
Proof. exact C53_sample_order_lemma. Qed.
End PropShuffle.

Print Assumptions C53_sample_order.

(** Instantiated with the real numbers. *)
Theorem C53_sample_order_real : forall (a : @args R_scalar) par c st0 es es',
  setting a par c st0 -> wf_run c es st0 -> Forall2 shuffled_call es es' ->
  let s := run c es st0 in let t := run c es' st0 in
  s_steps t = s_steps s /\ s_scales t = s_scales s /\ s_groups t = s_groups s /\ s_log t = s_log s /\
  (forall p, s_par t p = s_par s p) /\ (forall k, s_slots t k = s_slots s k) /\
  Forall2 (fun r r' => r = Ok tt <-> r' = Ok tt) (outcomes c es st0) (outcomes c es' st0).
Proof. exact C53_sample_order_real_lemma. Qed.
Print Assumptions C53_sample_order_real.

(** ** Cases *)

(** Three iterations with batches of four samples; the second history rotates all batches. *)
Example C53_example :
  let a := ga LossBatch false in let c := gac LossBatch false in let st0 := ga0 LossBatch false in
  let es := flat_map whole_iter ga_its in let es' := map rot_call es in
  setting a ex_par c st0 /\ wf_run c es st0 /\ Forall2 shuffled_call es es' /\
  show (reorder rot (qt [4; 1] [5; 1; -2; 1]%Z)) = show (qt [4; 1] [-2; 5; 1; 1]%Z) /\
  s_steps (run c es st0) = 3 /\ pre_of (run c es st0) 0 <> pre_of st0 0 /\
  pre_of (run c es' st0) 0 = pre_of (run c es st0) 0 /\ val_of (run c es' st0) 0 = val_of (run c es st0) 0.
Proof. exact C53_example_case. Qed.

(** Samples are the entries along the first axis only.  Exchanging one position of a sequence between two samples changes the statistics
    of the reduce approximation, whose rows are means over the positions of a sample. *)
Theorem C53_positions_refuted :
  let l := Linear 1 1 false in
  let x := qt [4; 4; 1] [1; 2; 3; 4; 5; 6; 7; 8; 0; 0; 0; 0; 0; 0; 0; 0]%Z in
  let y := qt [4; 4; 1] [5; 2; 3; 4; 1; 6; 7; 8; 0; 0; 0; 0; 0; 0; 0; 0]%Z in
  let stat t ka := match process_input t l ka with Ok A => match from_inner (MDense (qt [1; 1] [1]%Z)) (Some (tr A)) with Ok h => showd (Ok h) | Err e => Err e end | Err e => Err e end in
  stat y Reduce <> stat x Reduce /\ stat y Expand = stat x Expand /\ is_ok (stat x Reduce) = true /\ is_ok (stat x Expand) = true.
Proof. exact C53_positions_refuted_lemma. Qed.
Print Assumptions C53_positions_refuted.
