(** Floating point scalars.

    The model is parametrised by the scalar operations (Scalar.v).  This file instantiates them with the IEEE 754
    operations of Coq's SpecFloat (round to nearest, ties to even; one NaN), for any precision and exponent range.

    SIMPLIFICATIONS: all numbers of a run have one format, Python floats (hyper-parameters, gradient scales) too;
    sums are added up one by one from the left, while PyTorch's kernels may choose another order; integers are
    converted by repeated addition of 1, which is exact below 2^prec. *)

From Coq Require Import List Arith ZArith Bool Floats.SpecFloat.
From Verif Require Import Scalar.

(** The arithmetic of a tensor dtype: precision and exponent bound as in IEEE 754. The dtypes of the tensors of
    singd/optim/optimizer.py:430-454 and singd/structures/*.py. *)
Definition SF_scalar (prec emax : Z) : Scalar :=
  let one := binary_normalize prec emax 1 0 false in
  mkScalar spec_float (S754_zero false) one (SFadd prec emax) (SFmul prec emax) (SFsub prec emax) SFopp
    (SFdiv prec emax) (SFdiv prec emax one) (SFsqrt prec emax) SFeqb SFltb.

(** [torch.float16], singd/structures/utils.py:12, 29. *)
Definition half_scalar : Scalar := SF_scalar 11 16.
(** [torch.bfloat16], singd/structures/utils.py:9, 29, 48. *)
Definition bfloat16_scalar : Scalar := SF_scalar 8 128.
(** [torch.float32], PyTorch's default dtype; singd/structures/utils.py:13, 49. *)
Definition single_scalar : Scalar := SF_scalar 24 128.
(** [torch.float64] and Python's [float], singd/optim/optimizer.py:82-107. *)
Definition double_scalar : Scalar := SF_scalar 53 1024.
