(** C31: gradient accumulation over micro-batches. *)

From Coq Require Import List Arith Lia Bool ZArith QArith Qcanon Reals.
From Verif Require Import Scalar Res Tensor Structures OptimUtils Optimizer Construct OptState OptRun OptTyped CtorSpec ProgressSpec ProgressEx ProofProgress Batch Accum AccumRun QEx OptEx OptEx2 ProofAccum.
Import ListNotations.
Open Scope nat_scope.

Section PropAccum.
Context {SC : Scalar} {FL : FieldLaws SC} {SQ : SqrtLaws SC}.

(** Two optimizers for the same model.  One sees a training loop in which every iteration makes one forward and
    backward pass over the whole batch, the other one the same loop with the batch cut into [i_k] micro-batches of
    equal size whose backward passes see the corresponding rows of the loss's output gradients; the gradients at the time of
    the step are the same.  For averaged losses and the update that is not KFAC-like everything the two optimizers
    hold after any number of iterations is the same, and the second one raises no exception either.  All layers, structures, numbers of
    shared positions, update intervals, schedules of the groups' entries, scale announcements and overflows. *)
Theorem C31_accumulation_partial : forall a par c st0 its,
  setting a par c st0 ->
  Forall (fun g => g_kfac_like g = false /\ (g_loss g = LossBatch \/ g_loss g = LossBatchSeq)) (s_groups st0) ->
  Forall (iter_ok c) its -> quiet c (flat_map whole_iter its) st0 ->
  quiet c (flat_map micro_iter its) st0 /\
  let s := run c (flat_map whole_iter its) st0 in let t := run c (flat_map micro_iter its) st0 in
  s_steps t = s_steps s /\ s_scales t = s_scales s /\ s_groups t = s_groups s /\ s_log t = s_log s /\
  (forall p, s_par t p = s_par s p) /\ forall m, In m (c_mods c) -> s_slots t (m_key m) = s_slots s (m_key m).
Proof. exact C31_accumulation_partial_lemma. Qed.

(** The same with a condition on the calls of the first loop instead of their outcome. *)
Theorem C31_accumulation_regular_partial : forall a par c st0 its,
  setting a par c st0 -> torch_shapes par c -> sound_call a c (s_groups st0) ->
  Forall (fun g => g_kfac_like g = false /\ (g_loss g = LossBatch \/ g_loss g = LossBatchSeq)) (s_groups st0) ->
  Forall (iter_ok c) its -> regular c (s_groups st0) [] [] [] (flat_map whole_iter its) ->
  quiet c (flat_map whole_iter its) st0 /\ quiet c (flat_map micro_iter its) st0 /\
  let s := run c (flat_map whole_iter its) st0 in let t := run c (flat_map micro_iter its) st0 in
  s_steps t = s_steps s /\ s_scales t = s_scales s /\ s_groups t = s_groups s /\ s_log t = s_log s /\
  (forall p, s_par t p = s_par s p) /\ forall m, In m (c_mods c) -> s_slots t (m_key m) = s_slots s (m_key m).
Proof. exact C31_accumulation_regular_partial_lemma. Qed.
End PropAccum.

Print Assumptions C31_accumulation_partial.
Print Assumptions C31_accumulation_regular_partial.

(** Instantiated with the real numbers. *)
Theorem C31_accumulation_real_partial : forall (a : @args R_scalar) par c st0 its,
  setting a par c st0 ->
  Forall (fun g => g_kfac_like g = false /\ (g_loss g = LossBatch \/ g_loss g = LossBatchSeq)) (s_groups st0) ->
  Forall (iter_ok c) its -> quiet c (flat_map whole_iter its) st0 ->
  quiet c (flat_map micro_iter its) st0 /\
  let s := run c (flat_map whole_iter its) st0 in let t := run c (flat_map micro_iter its) st0 in
  s_steps t = s_steps s /\ s_scales t = s_scales s /\ s_groups t = s_groups s /\ s_log t = s_log s /\
  (forall p, s_par t p = s_par s p) /\ forall m, In m (c_mods c) -> s_slots t (m_key m) = s_slots s (m_key m).
Proof. exact C31_accumulation_real_partial_lemma. Qed.
Print Assumptions C31_accumulation_real_partial.

(** The hypotheses hold in the case above; the square roots in it are rational. *)
Example C31_example :
  let a := ga LossBatch false in let c := gac LossBatch false in let st0 := ga0 LossBatch false in
  let s := run c (flat_map whole_iter ga_its) st0 in let t := run c (flat_map micro_iter ga_its) st0 in
  setting a ex_par c st0 /\
  Forall (fun g => g_kfac_like g = false /\ (g_loss g = LossBatch \/ g_loss g = LossBatchSeq)) (s_groups st0) /\
  Forall (iter_ok c) ga_its /\ quiet c (flat_map whole_iter ga_its) st0 /\
  s_steps s = 3 /\ val_of s 0 <> val_of st0 0 /\ pre_of s 0 <> pre_of st0 0 /\ val_of t 0 = val_of s 0 /\ pre_of t 0 = pre_of s 0.
Proof. exact C31_example_case. Qed.

Example C31_regular_example :
  let a := ga LossBatch false in let c := gac LossBatch false in let st0 := ga0 LossBatch false in
  torch_shapes ex_par c /\ sound_call a c (s_groups st0) /\ regular c (s_groups st0) [] [] [] (flat_map whole_iter ga_its).
Proof. exact C31_regular_example_case. Qed.

(** The other update: micro-batches of equal size, an averaged loss, and different weights after one iteration. *)
Theorem C31_kfac_like_refuted :
  exists (a : @args Q_scalar) par c st0 its,
    setting a par c st0 /\ a_kfac_like a = true /\ a_loss a = LossBatch /\ Forall (iter_ok c) its /\
    quiet c (flat_map whole_iter its) st0 /\ quiet c (flat_map micro_iter its) st0 /\
    val_of (run c (flat_map micro_iter its) st0) 0 <> val_of (run c (flat_map whole_iter its) st0) 0.
Proof. exact C31_kfac_like_refuted_lemma. Qed.
Print Assumptions C31_kfac_like_refuted.

(** A summed loss (loss_average=None): the input statistics of every micro-batch are averages over its samples only. *)
Theorem C31_sum_refuted :
  exists (a : @args Q_scalar) par c st0 its,
    setting a par c st0 /\ a_kfac_like a = false /\ a_loss a = LossSum /\ Forall (iter_ok c) its /\
    quiet c (flat_map whole_iter its) st0 /\ quiet c (flat_map micro_iter its) st0 /\
    val_of (run c (flat_map micro_iter its) st0) 0 <> val_of (run c (flat_map whole_iter its) st0) 0.
Proof. exact C31_sum_refuted_lemma. Qed.
Print Assumptions C31_sum_refuted.

(** Micro-batches of different sizes (a last, smaller one): rows 0 to 3, 4 to 7 and 8 of a batch of nine. *)
Theorem C31_unequal_refuted :
  exists (a : @args Q_scalar) par c st0,
    setting a par c st0 /\ a_kfac_like a = false /\ a_loss a = LossBatch /\
    quiet c (gu_split [(0, 9)]) st0 /\ quiet c (gu_split [(0, 4); (4, 4); (8, 1)]) st0 /\
    val_of (run c (gu_split [(0, 4); (4, 4); (8, 1)]) st0) 0 <> val_of (run c (gu_split [(0, 9)]) st0) 0.
Proof. exact C31_unequal_refuted_lemma. Qed.
Print Assumptions C31_unequal_refuted.
