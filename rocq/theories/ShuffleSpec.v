(** Specification vocabulary: the samples of a batch in another order.  Not a model of code. *)

From Coq Require Import List Arith Bool ZArith.
From Verif Require Import Scalar Res Tensor Structures OptimUtils Optimizer.
Import ListNotations.

Section ShuffleSpec.
Context {SC : Scalar}.

(** [sigma] permutes the numbers below [n]. *)
Definition permutes (sigma : nat -> nat) (n : nat) : Prop :=
  (forall i, (i < n)%nat -> (sigma i < n)%nat) /\ (forall i j, (i < n)%nat -> (j < n)%nat -> sigma i = sigma j -> i = j).

(** [t[sigma]]: the entries along the first axis (the samples of a batch) in the order of [sigma]. *)
Definition reorder (sigma : nat -> nat) (t : tensor) : tensor :=
  tab (shape t) (fun idx => match idx with i :: r => tget t (sigma i :: r) | [] => 0%F end).

Definition shuffled (t t' : tensor) : Prop :=
  exists sigma n rest, shape t = n :: rest /\ permutes sigma n /\ t' = reorder sigma t.

(** The same call, up to the order of the samples in layer inputs and output gradients. *)
Definition shuffled_call (e e' : event) : Prop :=
  match e, e' with
  | EForward m x b out, EForward m' x' b' out' => m' = m /\ b' = b /\ out' = out /\ shuffled x x'
  | EBackward out g, EBackward out' g' => out' = out /\ shuffled g g'
  | _, _ => e' = e
  end.

End ShuffleSpec.
