(** Specification: schedules of asynchronous reductions.  Not a model of code. *)

From Coq Require Import List Arith Bool.
From Verif Require Import Scalar Res Tensor Structures Registry RegistrySpec Dist Async.
Import ListNotations.

Section AsyncSpec.
Context {SC : Scalar}.
Open Scope F_scope.

(** No component of a process's matrix is written by other code. *)
Definition left_alone (mats : nat -> rmat) (m : move) : Prop := match m with Write r a _ => ~ In a (references (mats r)) | _ => True end.

(** The moves of one process: what its own program does, in order. *)
Definition program (r : nat) (ms : list move) : list move :=
  filter (fun m => match m with Call q | Write q _ _ => Nat.eqb q r | Finish _ => false end) ms.

(** Sum or mean of [R] tensors, entry by entry. *)
Definition is_total (R : nat) (op : redop) (x : nat -> tensor) (t : tensor) : Prop :=
  (forall r, (r < R)%nat -> shape t = shape (x r)) /\
  forall idx, in_range (shape t) idx -> tget t idx = let s := sum R (fun r => tget (x r) idx) in match op with OpSum => s | OpAvg => s / fofnat R end.

(** [R] processes, each with a matrix no tensor of which is registered twice; the components have the same shapes everywhere. *)
Definition matching (R : nat) (mats : nat -> rmat) (objs : nat -> obj) (h : nat -> nat -> tensor) (shs : list (list nat)) : Prop :=
  R <> O /\ forall r, (r < R)%nat -> construct (mats r) = Ok (objs r) /\ NoDup (references (mats r)) /\ map (fun a => shape (h r a)) (references (mats r)) = shs.

(** Moves of [all_reduce] itself. *)
Definition own_move (m : move) : bool := match m with Write _ _ _ => false | _ => true end.
Definition is_call (m : move) : bool := match m with Call _ => true | _ => false end.
End AsyncSpec.
