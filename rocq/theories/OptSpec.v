(** Specification of SINGD on plain matrices (functions of two indices), written from the
    docstrings of singd/optim/optimizer.py and the update rules in the paper it cites; nothing
    here refers to the structured matrix classes' code. *)

From Coq Require Import List Arith Lia Bool.
From Verif Require Import Scalar Res Tensor Optimizer.
Import ListNotations.

Section Spec.
Context {SC : Scalar}.
Open Scope F_scope.

Definition mat : Type := nat -> nat -> F.

(** Equality of n x n matrices. *)
Definition eqm (n : nat) (A B : mat) : Prop := forall i j, (i < n)%nat -> (j < n)%nat -> A i j = B i j.

Definition ident : mat := fun i j => if Nat.eqb i j then 1 else 0.
Definition trace (n : nat) (M : mat) : F := sum n (fun i => M i i).

(** A^T B and A B^T for n rows resp. columns. *)
Definition tmm (n : nat) (A B : mat) : mat := fun i j => sum n (fun k => A k i * B k j).
Definition mmt (n : nat) (A B : mat) : mat := fun i j => sum n (fun k => A i k * B j k).
Definition mmm (n : nat) (A B : mat) : mat := fun i j => sum n (fun k => A i k * B k j).

(** The Riemannian momentum of K (of C with the roles exchanged): [P] is the projection onto the
    structure, [hscale] and [dscale] are the weights of the curvature and damping terms
    (traces for INGD, one for the KFAC-like variant), [c] is 1/2, or (1 - alpha1) / 2 with
    normalisation. *)
Definition momentum_of (n : nat) (P : mat -> mat) (KK H old : mat) (c hscale dscale alpha1 : F) : mat :=
  fun i j => c * (hscale * H i j + dscale * P KK i j - ident i j) + alpha1 * old i j.

(** The documented Riemannian momenta of K and C (INGD with traces; KFAC-like without): U is the
    unscaling factor of the curvature, [P] the projection onto the structure, [n], [k] the
    dimensions of the matrix itself and of the other one. *)
Definition half (normalize : bool) (alpha1 : F) : F := (if normalize then 1 - alpha1 else 1) / (1 + 1).
Definition doc_mK (kfac normalize : bool) (damping alpha1 u : F) (dK dC : nat) (P : mat -> mat) (HK HC K C old : mat) : mat :=
  fun i j =>
    half normalize alpha1 *
      ((if kfac then 1 else u * (trace dC HC / fofnat dC)) * HK i j
       + damping * (if kfac then 1 else trace dC (tmm dC C C) / fofnat dC) * P (tmm dK K K) i j - ident i j)
    + alpha1 * old i j.
Definition doc_mC (kfac normalize : bool) (damping alpha1 u : F) (dK dC : nat) (P : mat -> mat) (HK HC K C old : mat) : mat :=
  fun i j =>
    half normalize alpha1 *
      ((if kfac then u else u * (trace dK HK / fofnat dK)) * HC i j
       + damping * (if kfac then 1 else trace dK (tmm dK K K) / fofnat dK) * P (tmm dC C C) i j - ident i j)
    + alpha1 * old i j.

(** K (I - beta m). *)
Definition precond_of (n : nat) (K m : mat) (beta : F) : mat := mmm n K (fun i j => ident i j - beta * m i j).

(** The step size of the preconditioners in step [t]: a constant or a schedule's value for the number of finished steps. *)
Definition rate_at (g : group) (t : nat) : F := match g_lr_cov g with LrConst x => x | LrSched f => f t end.

End Spec.
