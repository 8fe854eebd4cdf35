(** Scalars.

    singd computes with PyTorch floating point scalars.  The model is
    parametrised by the scalar operations the code uses; the laws the proofs
    need are stated separately.  SIMPLIFICATION: the theorems which assume these
    laws hold for exact arithmetic, without rounding, NaN and inf; Float.v has the
    floating point operations, for which the others hold. *)

From Coq Require Import List Arith Lia ZArith QArith Qcanon Reals Lra Field Bool.
Import ListNotations.

(** Operations on tensor entries and Python floats used in
    singd/structures/*.py, singd/optim/utils.py and singd/optim/optimizer.py
    (0, 1, +, *, -, /, sqrt, ==, <). *)
Class Scalar : Type := mkScalar {
  F : Type;
  f0 : F;
  f1 : F;
  fadd : F -> F -> F;
  fmul : F -> F -> F;
  fsub : F -> F -> F;
  fopp : F -> F;
  fdiv : F -> F -> F;
  finv : F -> F;
  fsqrt : F -> F;
  feqb : F -> F -> bool;
  fltb : F -> F -> bool
}.

Declare Scope F_scope.
Delimit Scope F_scope with F.
Bind Scope F_scope with F.
Notation "0" := f0 : F_scope.
Notation "1" := f1 : F_scope.
Infix "+" := fadd : F_scope.
Infix "*" := fmul : F_scope.
Infix "-" := fsub : F_scope.
Infix "/" := fdiv : F_scope.
Notation "- x" := (fopp x) : F_scope.

(** Conversion of an integer (Python int) to a scalar, as in
    singd/optim/utils.py:175 ([sqrt(x.shape[0])]) or
    singd/structures/blockdiagonal.py:313 ([self._blocks / dim]). *)
Fixpoint fofnat {S : Scalar} (n : nat) : F :=
  match n with
  | O => f0
  | Datatypes.S k => fadd (fofnat k) f1
  end.

(** Python's [abs] / [Tensor.abs], singd/structures/base.py:358. *)
Definition fabs {S : Scalar} (x : F) : F := if fltb x f0 then fopp x else x.

(** Python's two-argument [max(a, b)]: returns [b] only if it is strictly
    larger, singd/optim/optimizer.py:542-543. *)
Definition fmax {S : Scalar} (a b : F) : F := if fltb a b then b else a.

(** The laws used by the algebraic theorems: a field of characteristic 0 with
    decidable equality.
    They hold for real numbers and replace the floating point arithmetic of singd/structures/*.py and singd/optim/*.py. *)
Class FieldLaws (S : Scalar) : Prop := {
  F_ft : field_theory f0 f1 fadd fmul fsub fopp fdiv finv (@eq F);
  feqb_iff : forall x y : F, feqb x y = true <-> x = y;
  fofnat_S_neq0 : forall n, fofnat (Datatypes.S n) <> f0
}.

(** The law of the square root, on the squares that occur in the code: it is
    stated through a "non-negative" test given by [fltb].
    Roots are taken at singd/optim/utils.py:175, 204, 287, 333, optimizer.py:619 and in the norms (triltoeplitz.py:209). *)
Class SqrtLaws (S : Scalar) : Prop := {
  fsqrt_sqr : forall x : F, fltb x f0 = false -> fmul (fsqrt x) (fsqrt x) = x;
  fsqrt_nonneg : forall x : F, fltb x f0 = false -> fltb (fsqrt x) f0 = false;
  fofnat_nonneg : forall n, fltb (fofnat n) f0 = false
}.

(** ** Instance: Coq's real numbers. *)

(** For [==] on scalars, e.g. optimizer.py:523, 801, 805. *)
Definition Reqb (x y : R) : bool := if Req_EM_T x y then true else false.
(** [<] on reals, for [max] and [abs] (structures/base.py:358, optimizer.py:542-543). *)
Definition Rltb (x y : R) : bool := if Rlt_dec x y then true else false.

(** The scalars of singd/structures/*.py and singd/optim/*.py read as real numbers. *)
Definition R_scalar : Scalar :=
  {| F := R; f0 := 0%R; f1 := 1%R; fadd := Rplus; fmul := Rmult; fsub := Rminus;
     fopp := Ropp; fdiv := Rdiv; finv := Rinv; fsqrt := sqrt;
     feqb := Reqb; fltb := Rltb |}.

Lemma Rltb_true x y : Rltb x y = true <-> (x < y)%R.
Proof. unfold Rltb; destruct (Rlt_dec x y); split; intros; try easy; congruence. Qed.

Lemma Rltb_false x y : Rltb x y = false <-> (y <= x)%R.
Proof. unfold Rltb; destruct (Rlt_dec x y); split; intros; try easy; lra. Qed.

Lemma fofnat_R n : @fofnat R_scalar n = INR n.
Proof.
  induction n; [reflexivity|].
  rewrite S_INR, <- IHn. reflexivity.
Qed.

Global Instance R_field : FieldLaws R_scalar.
Proof.
  split.
  - exact Rfield.
  - intros x y; simpl; unfold Reqb; destruct (Req_EM_T x y); split; intros; try easy; congruence.
  - intros n. rewrite fofnat_R. apply not_0_INR. lia.
Qed.

Global Instance R_sqrt : SqrtLaws R_scalar.
Proof.
  split.
  - intros x H; simpl in *. apply sqrt_sqrt. apply Rltb_false in H. exact H.
  - intros x H; simpl in *. apply Rltb_false. apply sqrt_pos.
  - intros n; rewrite fofnat_R; simpl. apply Rltb_false. apply pos_INR.
Qed.

(** ** Instance: rational numbers, executable.

    The square root is exact on squares of rationals (integer square root of
    numerator and denominator); it is used for executing the model only. *)

(** For [sqrt] at singd/optim/utils.py:175, 204. *)
Definition Qc_sqrt (x : Qc) : Qc :=
  Q2Qc (Qmake (Z.sqrt (Qnum (this x))) (Z.to_pos (Z.sqrt (Zpos (Qden (this x)))))).
(** [==], e.g. optimizer.py:523. *)
Definition Qceqb (x y : Qc) : bool := Qeq_bool (this x) (this y).
(** [<], for structures/base.py:358 and optimizer.py:542-543. *)
Definition Qcltb (x y : Qc) : bool := negb (Qle_bool (this y) (this x)).

(** The scalars of singd/structures/*.py and singd/optim/*.py read as rational numbers. *)
Definition Q_scalar : Scalar :=
  {| F := Qc; f0 := Q2Qc 0; f1 := Q2Qc 1; fadd := Qcplus; fmul := Qcmult; fsub := Qcminus;
     fopp := Qcopp; fdiv := Qcdiv; finv := Qcinv; fsqrt := Qc_sqrt;
     feqb := Qceqb; fltb := Qcltb |}.

Lemma Q_fofnat_pos n : (0 < @fofnat Q_scalar (Datatypes.S n))%Qc.
Proof.
  induction n.
  - vm_compute. reflexivity.
  - change (@fofnat Q_scalar (Datatypes.S (Datatypes.S n)))
      with (@fofnat Q_scalar (Datatypes.S n) + 1)%Qc.
    apply Qclt_le_trans with (1 := IHn).
    rewrite <- (Qcplus_0_r (@fofnat Q_scalar (Datatypes.S n))) at 1.
    apply Qcplus_le_compat; [apply Qcle_refl|]. vm_compute. discriminate.
Qed.

Global Instance Q_field : FieldLaws Q_scalar.
Proof.
  split.
  - exact Qcft.
  - intros x y; simpl; unfold Qceqb. split; intros H.
    + apply Qc_is_canon. apply Qeq_bool_iff. exact H.
    + subst. apply Qeq_bool_iff. reflexivity.
  - intros n H. pose proof (Q_fofnat_pos n) as P. rewrite H in P.
    apply Qclt_not_eq in P. apply P. reflexivity.
Qed.
