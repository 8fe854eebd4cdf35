(** Executable rational examples: helpers for the concrete cases shown beside the
    theorems.  Not a model of code. *)

From Coq Require Import List Arith ZArith QArith Qcanon Bool.
From Verif Require Import Scalar Res Tensor Structures.
Import ListNotations.

Definition q (z : Z) : Qc := Q2Qc (inject_Z z).
(** The rational z / p. *)
Definition qr (z : Z) (p : positive) : Qc := Q2Qc (Qmake z p).

(** The rational tensor of shape [s] with the given entries in row-major order. *)
Definition qt (s : list nat) (l : list Z) : @tensor Q_scalar :=
  @tab Q_scalar s (fun idx => q (nth (flat s idx) l 0%Z)).

(** Shape and entries, for comparison with literals. *)
Definition show (t : @tensor Q_scalar) : list nat * list Q := (shape t, map this (data t)).
Definition showr (r : res (@tensor Q_scalar)) : res (list nat * list Q) :=
  match r with Ok t => Ok (show t) | Err e => Err e end.
(** The dense matrix of a result. *)
Definition showd (r : res (@smat Q_scalar)) : res (list nat * list Q) :=
  match r with Ok s => showr (to_dense s) | Err e => Err e end.
Definition showq (r : res Qc) : res Q := match r with Ok x => Ok (this x) | Err e => Err e end.
(** Literals. *)
Definition lit (s : list nat) (l : list Z) : res (list nat * list Q) := Ok (s, map inject_Z l).
