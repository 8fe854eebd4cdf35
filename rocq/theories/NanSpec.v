(** Specification of C61: numbers which are not a number. *)

From Coq Require Import List Arith ZArith Bool Floats.SpecFloat.
From Verif Require Import Scalar Res Tensor Structures Optimizer Float.
Import ListNotations.
Open Scope nat_scope.

(** A value that arithmetic never gets rid of: the NaN of IEEE 754. *)
Class Absorbing (SC : Scalar) : Type := {
  nan : F;
  nan_add_l : forall x, fadd nan x = nan;
  nan_add_r : forall x, fadd x nan = nan;
  nan_mul_l : forall x, fmul nan x = nan;
  nan_mul_r : forall x, fmul x nan = nan;
  nan_div_l : forall x, fdiv nan x = nan;
  nan_div_r : forall x, fdiv x nan = nan;
  nan_sqrt : fsqrt nan = nan;
  nan_eqb : forall x, feqb nan x = false;
  nan_ltb : forall x, fltb nan x = false
}.

#[global] Instance SF_absorbing prec emax : Absorbing (SF_scalar prec emax).
Proof. refine {| nan := S754_nan : @F (SF_scalar prec emax) |}; try reflexivity; intros x; try reflexivity; destruct x; reflexivity. Defined.

Section Spec.
Context {SC : Scalar} {AB : Absorbing SC}.

(** The k-th number stored in a tensor is NaN. *)
Definition nan_at (t : tensor) (k : nat) : Prop := nth_error (data t) k = Some nan.

(** The k-th number of the i-th tensor of a structured matrix is NaN. *)
Definition nan_in (s : smat) (i k : nat) : Prop := exists t, nth_error (tensors s) i = Some t /\ nan_at t k.

(** Every number of a tensor is NaN. *)
Definition all_nan (t : tensor) : Prop := Forall (fun x => x = nan) (data t).

(** A square matrix. *)
Definition square (t : tensor) : Prop := exists n, shape t = [n; n].

End Spec.

(** Neither infinite nor NaN. *)
Definition finite (x : spec_float) : bool :=
  match x with S754_zero _ => true | S754_finite _ _ _ => true | _ => false end.
