(** C18, C32, C33: several processes. *)

From Coq Require Import List Arith Lia Bool ZArith QArith Qcanon Reals.
From Verif Require Import Scalar Res Tensor TensorFacts Structures StructSpec StructPattern StructOps OptimUtils ProofUtils Optimizer Construct OptState OptFacts OptTyped Batch Accum Dist DistSpec DistRun QEx OptEx OptEx2 ProofAccum DistEx ProofDist.
Import ListNotations.
Open Scope nat_scope.

Section PropDist.
Context {SC : Scalar} {FL : FieldLaws SC} {SQ : SqrtLaws SC}.
Open Scope F_scope.

(** ** C18 *)

(** [a.all_reduce(op)] on [R] processes with matrices [s r] of the same class and size whose components are all contiguous: every process returns
    and holds the same matrix, which represents the sum or mean.  All classes (recursive ones too), sizes, entries and numbers of processes. *)
Theorem C18_all_reduce_partial : forall R op c n (s : nat -> smat) (lay : nat -> nat -> bool),
  R <> O -> cls_ok c -> (forall r, (r < R)%nat -> valid c n (s r)) ->
  (forall r i, (r < R)%nat -> (i < length (tensors (s r)))%nat -> lay r i = true) ->
  exists m, world (map (fun r => all_reduce op (lay r) (s r)) (seq 0 R)) = Some (map (fun _ => m) (seq 0 R)) /\ valid c n m /\
    repr m n (fun i j => let t := sum R (fun r => ent (s r) i j) in match op with OpSum => t | OpAvg => t / fofnat R end).
Proof. exact C18_all_reduce_partial_lemma. Qed.

(** All memory layouts: a component is reduced exactly on the processes on which it is contiguous. *)
Theorem C18_layouts : forall R op c n (s : nat -> smat) (lay : nat -> nat -> bool),
  R <> O -> cls_ok c -> (forall r, (r < R)%nat -> valid c n (s r)) ->
  exists a : nat -> smat, world (map (fun r => all_reduce op (lay r) (s r)) (seq 0 R)) = Some (map a (seq 0 R)) /\
    forall r, (r < R)%nat -> valid c n (a r) /\ forall k own, nth_error (tensors (s r)) k = Some own ->
      exists t, nth_error (tensors (a r)) k = Some t /\ shape t = shape own /\ forall idx, in_range (shape own) idx ->
        tget t idx = if lay r k then (let x := sum R (fun q => tget (nth k (tensors (s q)) own) idx) in match op with OpSum => x | OpAvg => x / fofnat R end) else tget own idx.
Proof. exact C18_layouts_lemma. Qed.

(** The six supported classes: everything the optimizer reduces is contiguous. *)
Theorem C18_optimizer_layouts : forall c n s i, In c supported_structures -> valid c n s -> inner_layout s i = true.
Proof. exact C18_optimizer_layouts_lemma. Qed.

(** ** C33 *)

(** [R] processes construct the same optimizer and then make the same calls in the same order, with different tensors of the same
    shapes: no process blocks forever, all calls have the same outcomes (exceptions included), and all processes hold the same
    preconditioners and parameters at the end.  All numbers of processes, histories (overflows seen by all, changed
    groups, scales, exceptions), layers, and the six structures. *)
Theorem C33_collectives_partial : forall R a par c st0 es,
  R <> O -> setting a par c st0 -> (forall m, In m (c_mods c) -> bias_ok m) -> (forall p, p_grad (par p) = None) ->
  Forall (fun er => forall r, (r < R)%nat -> aligned (er O) (er r)) es -> (forall r, (r < R)%nat -> legal c (of_rank r es) (fun _ => None)) ->
  exists (st : nat -> state) o, world (map (fun r => d_run c (of_rank r es) st0) (seq 0 R)) = Some (map (fun r => (st r, o)) (seq 0 R)) /\
    forall r, (r < R)%nat -> twins (st r) (st O).
Proof. exact C33_collectives_partial_lemma. Qed.

(** ** C32 *)

(** The same with the batch split evenly and averaged losses: what a single process holds that sees the whole batch is what every
    one of the [R] processes holds, and its calls have the same outcomes.  All numbers of processes and samples, histories, layers, the six
    structures, both kinds of update. *)
Theorem C32_distributed_partial : forall R a par c st0 es ers,
  R <> O -> setting a par c st0 -> (forall m, In m (c_mods c) -> bias_ok m) -> (forall p, p_grad (par p) = None) ->
  Forall (fun g => g_loss g = LossBatch \/ g_loss g = LossBatchSeq) (s_groups st0) ->
  Forall2 (split_event R true) es ers -> legal c es (fun _ => None) ->
  exists (st : nat -> state), world (map (fun r => d_run c (of_rank r ers) st0) (seq 0 R)) = Some (map (fun r => (st r, results c es st0)) (seq 0 R)) /\
    forall r, (r < R)%nat -> twins (st r) (run c es st0).
Proof. exact C32_distributed_partial_lemma. Qed.

End PropDist.

Print Assumptions C18_all_reduce_partial.
Print Assumptions C18_layouts.
Print Assumptions C18_optimizer_layouts.
Print Assumptions C33_collectives_partial.
Print Assumptions C32_distributed_partial.

(** Instantiated with the real numbers. *)
Theorem C32_distributed_real_partial : forall R (a : @args R_scalar) par c st0 es ers,
  R <> O -> setting a par c st0 -> (forall m, In m (c_mods c) -> bias_ok m) -> (forall p, p_grad (par p) = None) ->
  Forall (fun g => g_loss g = LossBatch \/ g_loss g = LossBatchSeq) (s_groups st0) ->
  Forall2 (split_event R true) es ers -> legal c es (fun _ => None) ->
  exists (st : nat -> state), world (map (fun r => d_run c (of_rank r ers) st0) (seq 0 R)) = Some (map (fun r => (st r, results c es st0)) (seq 0 R)) /\
    forall r, r < R -> twins (st r) (run c es st0).
Proof. exact C32_distributed_real_partial_lemma. Qed.
Print Assumptions C32_distributed_real_partial.

(** ** Cases for C18 *)
Example C18_example :
  let s r := dd_mat (Z.of_nat r) in
  (forall r, r < 3 -> valid (CRec TopRight (Fin 2) Inf CDense CDiag) 4 (s r)) /\ cls_ok (CRec TopRight (Fin 2) Inf CDense CDiag) /\
  show_all (world (map (fun r => all_reduce OpSum (fun _ => true) (s r)) (seq 0 3))) =
    repeat (lit [4; 4] [3; 6; 3; 3; 9; 12; 3; 3; 0; 0; 15; 0; 0; 0; 0; 3]%Z) 3.
Proof. exact C18_example_case. Qed.

(** A DenseMatrix created from a transposed tensor: all_reduce raises nothing and leaves every process with its own matrix. *)
Theorem C18_layout_refuted :
  exists (s : nat -> @smat Q_scalar) lay,
    (forall r, valid CDense 2 (s r)) /\ ~ ent (s 0) 0 0 = ent (s 1) 0 0 /\
    world (map (fun r => all_reduce OpSum lay (s r)) (seq 0 2)) = Some [s 0; s 1] /\
    fadd (ent (s 0) 0 0) (ent (s 1) 0 0) <> ent (s 0) 0 0.
Proof. exact C18_layout_refuted_lemma. Qed.
Print Assumptions C18_layout_refuted.

(** What the optimizer does with a recursive structure (not among the six): the result of from_inner has dense parts that are slices of a
    larger matrix, so all_reduce leaves them as they are and the processes' matrices differ. *)
Theorem C18_recursive_refuted :
  exists (K : @smat Q_scalar) (X : nat -> @tensor Q_scalar) (m : nat -> smat),
    valid (CRec TopRight (Fin 2) Inf CDense CDiag) 4 K /\ (forall r, r < 2 -> from_inner K (Some (X r)) = Ok (m r)) /\
    exists a0 a1, world (map (fun r => all_reduce OpAvg (inner_layout (m r)) (m r)) (seq 0 2)) = Some [a0; a1] /\
      ent a0 0 0 <> ent a1 0 0 /\ ent a0 0 0 <> fdiv (fadd (ent (m 0) 0 0) (ent (m 1) 0 0)) (fofnat 2).
Proof. exact C18_recursive_refuted_lemma. Qed.
Print Assumptions C18_recursive_refuted.

(** ** Cases for C32 and C33: four processes with one sample each *)

(** The last step raises AttributeError on all processes (no gradient of parameter 1). *)
Example C32_example :
  let a := ga LossBatch false in let c := gac LossBatch false in let st0 := ga0 LossBatch false in let s := run c dd_hist st0 in
  setting a ex_par c st0 /\ (forall m, In m (c_mods c) -> bias_ok m) /\ (forall p, p_grad (ex_par p) = None) /\
  Forall (fun g => g_loss g = LossBatch \/ g_loss g = LossBatchSeq) (s_groups st0) /\
  Forall2 (split_event 4 true) dd_hist (dd_ranks true) /\ legal c dd_hist (fun _ => None) /\
  s_steps s = 3 /\ val_of s 0 <> val_of st0 0 /\ pre_of s 0 <> pre_of st0 0 /\ last (results c dd_hist st0) (Ok tt) = Err AttributeError /\
  match dd_world LossBatch false (dd_ranks true) with Some l => map (fun x => obs (fst x)) l = repeat (obs s) 4 | None => False end.
Proof. exact C32_example_case. Qed.

(** A summed loss: the all-reduced input statistics are sums of averages, four times those of a single process. *)
Theorem C32_sum_refuted :
  exists R (a : @args Q_scalar) par c st0 es ers,
    R <> 0 /\ setting a par c st0 /\ (forall m, In m (c_mods c) -> bias_ok m) /\ (forall p, p_grad (par p) = None) /\
    Forall (fun g => g_loss g = LossSum) (s_groups st0) /\ Forall2 (split_event R false) es ers /\ legal c es (fun _ => None) /\
    exists l, world (map (fun r => d_run c (of_rank r ers) st0) (seq 0 R)) = Some l /\
      Forall (fun x => Forall (eq (Ok tt)) (snd x) /\ p_val (s_par (fst x) 0) <> p_val (s_par (run c es st0) 0)) l.
Proof. exact C32_sum_refuted_lemma. Qed.
Print Assumptions C32_sum_refuted.

(** The hypotheses of C33 in the same case. *)
Example C33_example :
  let c := gac LossBatch false in
  Forall (fun er => forall r, r < 4 -> aligned (er 0) (er r)) (dd_ranks true) /\ (forall r, r < 4 -> legal c (of_rank r (dd_ranks true)) (fun _ => None)).
Proof. exact C33_example_case. Qed.

(** An overflow that only process 0 sees: it skips the update; the others wait for it forever in their first all_reduce. *)
Theorem C33_overflow_refuted :
  exists (a : @args Q_scalar) par c st0 es,
    setting a par c st0 /\ (forall m, In m (c_mods c) -> bias_ok m) /\ (forall p, p_grad (par p) = None) /\
    Forall (fun er => forall r, r < 4 -> aligned (er 0) (er r) \/ exists i j, er 0 = @EScaler Q_scalar None i /\ er r = @EScaler Q_scalar None j) es /\
    (forall r, r < 4 -> legal c (of_rank r es) (fun _ => None)) /\
    world (map (fun r => d_run c (of_rank r es) st0) (seq 0 4)) = None.
Proof. exact C33_overflow_refuted_lemma. Qed.
Print Assumptions C33_overflow_refuted.

(** A parameter without gradient on process 3 only (its samples do not reach the layer): that process raises AttributeError, the others wait forever. *)
Theorem C33_missing_gradient_refuted :
  exists (a : @args Q_scalar) par c st0 es,
    setting a par c st0 /\ (forall m, In m (c_mods c) -> bias_ok m) /\ (forall p, p_grad (par p) = None) /\
    Forall (fun er => forall r, r < 4 -> aligned (er 0) (er r) \/ exists g, er 0 = @EGrad Q_scalar 2 g /\ er r = @EGrad Q_scalar 2 None) es /\
    (forall r, r < 4 -> legal c (of_rank r es) (fun _ => None)) /\
    world (map (fun r => d_run c (of_rank r es) st0) (seq 0 4)) = None.
Proof. exact C33_missing_gradient_refuted_lemma. Qed.
Print Assumptions C33_missing_gradient_refuted.
