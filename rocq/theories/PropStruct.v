(** Properties C01-C16: structured matrices.

    In the statements below [valid c n a] says that [a] is an object of class [c]
    which represents an n x n matrix (StructSpec.v), [to_dense a] is the code's
    conversion to a dense tensor, and [mm], [tr], [eye], [zeros] are the usual matrix
    product, transpose, identity and zero matrix of Tensor.v. *)

From Coq Require Import List Arith Lia Bool Field Ring ZArith QArith Qcanon Reals Lra.
From Verif Require Import Scalar Res Tensor TensorFacts Structures StructSpec StructDense StructPattern
  StructMul StructOps StructNorm QEx ProofStruct.
Import ListNotations.

(** ** Concrete objects used as examples *)

(** [[2,1,0],[3,4,0],[0,0,5]] in blocks of size 2. *)
Example ex_block_valid : cls_ok (CBlock 2) /\ dim_ok (CBlock 2) 3 /\ no_nested_hier (CBlock 2) /\ valid (CBlock 2) 3 ex_block.
Proof. exact ex_block_valid_case. Qed.

Example ex_hier_valid : cls_ok (CHier 1 1) /\ dim_ok (CHier 1 1) 4 /\ no_nested_hier (CHier 1 1) /\ valid (CHier 1 1) 4 ex_hier.
Proof. exact ex_hier_valid_case. Qed.

Example ex_tril_valid : cls_ok CTril /\ dim_ok CTril 3 /\ no_nested_hier CTril /\ valid CTril 3 ex_tril.
Proof. exact ex_tril_valid_case. Qed.

Example ex_rec_valid : cls_ok ex_cls /\ dim_ok ex_cls 5 /\ no_nested_hier ex_cls /\ hier_free ex_cls /\ valid ex_cls 5 ex_rec.
Proof. exact ex_rec_valid_case. Qed.

Section Generic.
Context {SC : Scalar} {FL : FieldLaws SC}.
Open Scope F_scope.

(** ** Well-formed objects always have a dense representation *)
Theorem C00_to_dense_total : forall c n a,
  cls_ok c -> valid c n a -> exists da, to_dense a = Ok da /\ shape da = [n; n] /\
    forall i j, (i < n)%nat -> (j < n)%nat -> get2 da i j = ent a i j.
Proof. exact C00_to_dense_total_lemma. Qed.

(** Two objects of the same class and dimension with the same dense matrix are equal. *)
Theorem C00_to_dense_injective : forall c n a b,
  cls_ok c -> valid c n a -> valid c n b -> to_dense a = to_dense b -> a = b.
Proof. exact C00_to_dense_injective_lemma. Qed.

(** ** C01 *)
Theorem C01_zeros : forall c n,
  cls_ok c -> dim_ok c n \/ c = CTril \/ c = CTriu ->
  exists z, c_zeros c n = Ok z /\ valid c n z /\ to_dense z = Ok (zeros [n; n]).
Proof. exact C01_zeros_lemma. Qed.

Theorem C01_eye : forall c n,
  cls_ok c -> dim_ok c n ->
  exists z, c_eye c n = Ok z /\ valid c n z /\ to_dense z = Ok (eye n).
Proof. exact C01_eye_lemma. Qed.

Theorem C01_eye_toeplitz_dim0 : c_eye CTril 0 = Err IndexError /\ c_eye CTriu 0 = Err IndexError.
Proof. exact C01_eye_toeplitz_dim0_lemma. Qed.

(** "The only exception" is false: a class of the recursive templates with a Toeplitz
    component raises in [zeros] when that component gets dimension 0. *)
Theorem C01_zeros_nested_toeplitz_refuted :
  exists c n, cls_ok c /\ n <> O /\ c_zeros c n = Err RuntimeError.
Proof. exact C01_zeros_nested_toeplitz_refuted_lemma. Qed.

(** ** C02 *)
Theorem C02_matmul : forall c n a b da db,
  cls_ok c -> dim_ok c n -> no_nested_hier c -> valid c n a -> valid c n b ->
  to_dense a = Ok da -> to_dense b = Ok db ->
  exists r, matmul_s a b = Ok r /\ valid c n r /\ to_dense r = Ok (mm da db).
Proof. exact C02_matmul_lemma. Qed.

(** ** C03 *)
Theorem C03_matmul_tensor : forall c n a da X m,
  cls_ok c -> valid c n a -> to_dense a = Ok da -> shape X = [n; m] ->
  match c with CTril | CTriu => n <> O /\ m <> O | _ => True end ->
  matmul_t a X = Ok (mm da X).
Proof. exact C03_matmul_tensor_lemma. Qed.

(** A wrong number of rows raises, for all classes but diagonal ... *)
Theorem C03_matmul_mismatch_partial : forall c n a X r m,
  cls_ok c -> valid c n a -> shape X = [r; m] -> r <> n -> c <> CDiag ->
  exists e, matmul_t a X = Err e.
Proof. exact C03_matmul_mismatch_partial_lemma. Qed.

(** ... and for diagonal matrices unless one of the two sizes is 1. *)
Theorem C03_matmul_mismatch_diag_partial : forall n a X r m,
  valid CDiag n a -> shape X = [r; m] -> r <> n -> n <> 1%nat -> r <> 1%nat ->
  matmul_t a X = Err RuntimeError.
Proof. exact C03_matmul_mismatch_diag_partial_lemma. Qed.

(** Multiplying with a tensor without columns raises for the Toeplitz classes. *)
Theorem C03_toeplitz_no_columns_refuted :
  exists c n a X, cls_ok c /\ valid c n a /\ shape X = [n; 0%nat] /\ matmul_t a X = Err RuntimeError.
Proof. exact C03_toeplitz_no_columns_refuted_lemma. Qed.

(** ** C04 *)
Theorem C04_rmatmat : forall c n a da X m,
  cls_ok c -> valid c n a -> to_dense a = Ok da -> shape X = [n; m] ->
  match c with CTril | CTriu => n <> O /\ m <> O | CBlock _ => False | _ => True end ->
  rmatmat a X = Ok (mm (tr da) X).
Proof. exact C04_rmatmat_lemma. Qed.

(** ** C05, structured-matrix level *)

(** What [rmatmat] of a block-diagonal matrix computes: the product without transpose. *)
Theorem C05_block_rmatmat_actual : forall D n a da X m,
  D <> O -> valid (CBlock D) n a -> to_dense a = Ok da -> shape X = [n; m] ->
  rmatmat a X = Ok (mm da X).
Proof. exact C05_block_rmatmat_actual_lemma. Qed.

(** Correct for matrices which are symmetric. *)
Theorem C05_block_rmatmat_symmetric_partial : forall D n a da X m,
  D <> O -> valid (CBlock D) n a -> to_dense a = Ok da -> tr da = da -> shape X = [n; m] ->
  rmatmat a X = Ok (mm (tr da) X).
Proof. exact C05_block_rmatmat_symmetric_partial_lemma. Qed.

(** ** C06 *)
Theorem C06_add : forall c n a b da db,
  cls_ok c -> dim_ok c n -> no_nested_hier c -> valid c n a -> valid c n b ->
  to_dense a = Ok da -> to_dense b = Ok db ->
  exists r, add a b = Ok r /\ valid c n r /\
            to_dense r = Ok (tab2 n n (fun i j => get2 da i j + get2 db i j)).
Proof. exact C06_add_lemma. Qed.

Theorem C06_mul : forall c n a v da,
  cls_ok c -> dim_ok c n -> no_nested_hier c -> valid c n a -> to_dense a = Ok da ->
  exists r, mul a v = Ok r /\ valid c n r /\ to_dense r = Ok (tab2 n n (fun i j => v * get2 da i j)).
Proof. exact C06_mul_lemma. Qed.

(** The in-place versions work for every class. *)
Theorem C06_add_inplace : forall c n a b alpha da db,
  cls_ok c -> valid c n a -> valid c n b -> to_dense a = Ok da -> to_dense b = Ok db ->
  exists r, add_ a b alpha = Ok r /\ valid c n r /\
            to_dense r = Ok (tab2 n n (fun i j => get2 da i j + alpha * get2 db i j)).
Proof. exact C06_add_inplace_lemma. Qed.

Theorem C06_mul_inplace : forall c n a v da,
  cls_ok c -> valid c n a -> to_dense a = Ok da ->
  valid c n (mul_ a v) /\ to_dense (mul_ a v) = Ok (tab2 n n (fun i j => v * get2 da i j)).
Proof. exact C06_mul_inplace_lemma. Qed.

(** ** C07 *)

(** The documented projection of a symmetric matrix. *)
Theorem C07_from_dense_symmetric : forall c n M,
  cls_ok c -> dim_ok c n -> shape M = [n; n] -> tr M = M ->
  exists s, from_dense c M = Ok s /\ valid c n s /\ to_dense s = Ok (tab2 n n (doc_proj c n (get2 M))).
Proof. exact C07_from_dense_symmetric_lemma. Qed.

(** Non-square input is rejected by the hierarchical and recursive classes. *)
Theorem C07_from_dense_rejects_nonsquare : forall M n m,
  shape M = [n; m] -> n <> m ->
  (forall k1 k2, from_dense (CHier k1 k2) M = Err ValueError) /\
  (forall sd ma mc ca cc, from_dense (CRec sd ma mc ca cc) M = Err ValueError) /\
  from_dense CTril M = Err AssertionError /\ from_dense CTriu M = Err AssertionError.
Proof. exact C07_from_dense_rejects_nonsquare_lemma. Qed.

(** ** C08 *)
Theorem C08_roundtrip_partial : forall c n a da,
  cls_ok c -> dim_ok c n -> hier_free c -> valid c n a -> to_dense a = Ok da -> from_dense c da = Ok a.
Proof. exact C08_roundtrip_partial_lemma. Qed.

Theorem C09_from_mat_inner : forall c n m X,
  cls_ok c -> dim_ok c n -> shape X = [n; m] ->
  exists r, from_mat_inner c X = Ok r /\ valid c n r /\ from_dense c (mm X (tr X)) = Ok r.
Proof. exact C09_from_mat_inner_lemma. Qed.

Theorem C09_from_inner_some : forall c n a da X m,
  cls_ok c -> dim_ok c n -> valid c n a -> to_dense a = Ok da -> shape X = [n; m] ->
  match c with CTril | CTriu => m <> O | CBlock _ => False | _ => True end ->
  exists r, from_inner a (Some X) = Ok r /\ valid c n r /\
            from_dense c (mm (mm (tr da) (mm X (tr X))) da) = Ok r.
Proof. exact C09_from_inner_some_lemma. Qed.

Theorem C09_from_inner_none : forall c n a da,
  cls_ok c -> dim_ok c n -> valid c n a -> to_dense a = Ok da ->
  match c with CBlock _ => False | _ => True end ->
  exists r, from_inner a None = Ok r /\ valid c n r /\ from_dense c (mm (tr da) da) = Ok r.
Proof. exact C09_from_inner_none_lemma. Qed.

Theorem C09_from_inner2 : forall c n a da XXT,
  cls_ok c -> dim_ok c n -> valid c n a -> to_dense a = Ok da -> shape XXT = [n; n] ->
  exists r, from_inner2 a XXT = Ok r /\ valid c n r /\
            from_dense c (mm (mm (tr da) XXT) da) = Ok r.
Proof. exact C09_from_inner2_lemma. Qed.

(** ** C10 *)
Theorem C10_average_trace : forall c n a da,
  cls_ok c -> valid c n a -> n <> O -> to_dense a = Ok da ->
  average_trace a = Ok (sum n (fun i => get2 da i i) / fofnat n).
Proof. exact C10_average_trace_lemma. Qed.

(** ** C11 *)
Theorem C11_diag_add : forall c n a v da,
  cls_ok c -> dim_ok c n -> no_nested_hier c -> valid c n a -> to_dense a = Ok da ->
  exists r, diag_add_ a v = Ok r /\ valid c n r /\
            to_dense r = Ok (tab2 n n (fun i j => get2 da i j + v * get2 (eye n) i j)).
Proof. exact C11_diag_add_lemma. Qed.

(** ** C15 *)
Theorem C15_hierarchical_ctor : forall k1 k2 A B C D E,
  (exists K1 d K2, shape A = [K1; K1] /\ shape B = [K1; (d + K2)%nat] /\ shape C = [d] /\
                   shape D = [K2; d] /\ shape E = [K2; K2] /\ (K1 <= k1)%nat /\ (K2 <= k2)%nat) /\
  mk_hier k1 k2 A B C D E = Ok (MHier k1 k2 A B C D E)
  \/
  ~ (exists K1 d K2, shape A = [K1; K1] /\ shape B = [K1; (d + K2)%nat] /\ shape C = [d] /\
                   shape D = [K2; d] /\ shape E = [K2; K2] /\ (K1 <= k1)%nat /\ (K2 <= k2)%nat) /\
  mk_hier k1 k2 A B C D E = Err ValueError.
Proof. exact C15_hierarchical_ctor_lemma. Qed.

(** Recursive classes: components are structured matrices with dense representations of
    dimensions [k] and [m]. *)
Theorem C15_recursive_ctor : forall sd ma mc ca cc A B C dA dC k m,
  to_dense A = Ok dA -> shape dA = [k; k] -> to_dense C = Ok dC -> shape dC = [m; m] ->
  let good := cls_of A = ca /\ cls_of C = cc /\
              shape B = match sd with TopRight => [k; m] | BottomLeft => [m; k] end /\
              match ma with Fin a => (k <= a)%nat | Inf => True end /\
              match mc with Fin c => (m <= c)%nat | Inf => True end in
  good /\ mk_rec sd ma mc ca cc A B C = Ok (MRec sd ma mc ca cc A B C)
  \/ ~ good /\ mk_rec sd ma mc ca cc A B C = Err ValueError.
Proof. exact C15_recursive_ctor_lemma. Qed.

(** Block-diagonal: well-shaped components are accepted ... *)
Theorem C15_block_ctor_accepts_partial : forall D n b l,
  D <> O -> shape b = [n / D; D; D]%nat -> shape l = [n mod D; n mod D]%nat ->
  mk_block D b l = Ok (MBlock D b l).
Proof. exact C15_block_ctor_accepts_partial_lemma. Qed.

(** ... and a bad last block or a bad number of axes is rejected. *)
Theorem C15_block_ctor_rejects_partial : forall D b l,
  (forall x r c, shape b <> [x; r; c]) \/ (forall k, shape l <> [k; k]) \/
  (exists k, shape l = [k; k] /\ (D <= k)%nat) ->
  mk_block D b l = Err ValueError.
Proof. exact C15_block_ctor_rejects_partial_lemma. Qed.

(** ** C16 *)
Theorem C16_toeplitz_matmul : forall cf X N m,
  N <> O -> m <> O -> shape cf = [(2 * N - 1)%nat] -> shape X = [N; m] ->
  toeplitz_matmul cf X = Ok (mm (tab2 N N (fun i j => get1 cf (N - 1 + j - i))) X).
Proof. exact C16_toeplitz_matmul_lemma. Qed.

(** Other lengths are rejected, except length 2N. *)
Theorem C16_toeplitz_matmul_rejects_partial : forall cf X N m len,
  shape cf = [len] -> shape X = [N; m] -> (len + 1 <> 2 * N)%nat -> (len <> 2 * N)%nat ->
  toeplitz_matmul cf X = Err RuntimeError.
Proof. exact C16_toeplitz_matmul_rejects_partial_lemma. Qed.

(** [all_traces]: entry [k] is the sum of the entries on the diagonal j - i = k - (rows - 1). *)
Theorem C16_all_traces : forall M n m,
  shape M = [n; m] -> (n + m <> 0)%nat ->
  all_traces M =
  Ok (tab1 (n + m - 1) (fun k =>
        sum n (fun i => sum m (fun j => if Nat.eqb (j + (n - 1)) (i + k) then get2 M i j else 0)))).
Proof. exact C16_all_traces_lemma. Qed.

End Generic.

Print Assumptions C00_to_dense_total.
Print Assumptions C00_to_dense_injective.
Print Assumptions C01_zeros.
Print Assumptions C01_eye.
Print Assumptions C01_eye_toeplitz_dim0.
Print Assumptions C01_zeros_nested_toeplitz_refuted.
Print Assumptions C02_matmul.
Print Assumptions C03_matmul_tensor.
Print Assumptions C03_matmul_mismatch_partial.
Print Assumptions C03_matmul_mismatch_diag_partial.
Print Assumptions C03_toeplitz_no_columns_refuted.
Print Assumptions C04_rmatmat.
Print Assumptions C05_block_rmatmat_actual.
Print Assumptions C05_block_rmatmat_symmetric_partial.
Print Assumptions C06_add.
Print Assumptions C06_mul.
Print Assumptions C06_add_inplace.
Print Assumptions C06_mul_inplace.
Print Assumptions C07_from_dense_symmetric.
Print Assumptions C07_from_dense_rejects_nonsquare.
Print Assumptions C08_roundtrip_partial.
Print Assumptions C09_from_mat_inner.
Print Assumptions C09_from_inner_some.
Print Assumptions C09_from_inner_none.
Print Assumptions C09_from_inner2.
Print Assumptions C10_average_trace.
Print Assumptions C11_diag_add.
Print Assumptions C15_hierarchical_ctor.
Print Assumptions C15_recursive_ctor.
Print Assumptions C15_block_ctor_accepts_partial.
Print Assumptions C15_block_ctor_rejects_partial.
Print Assumptions C16_toeplitz_matmul.
Print Assumptions C16_toeplitz_matmul_rejects_partial.
Print Assumptions C16_all_traces.

(** ** Refutations with concrete witnesses (rational entries) *)

(** C03: a diagonal matrix of dimension 1 times a tensor with 3 rows is silently computed. *)
Theorem C03_diag_mismatch_refuted :
  exists (a : @smat Q_scalar) X, valid CDiag 1 a /\ shape X = [3; 1]%nat /\ is_ok (matmul_t a X) = true.
Proof. exact C03_diag_mismatch_refuted_lemma. Qed.
Print Assumptions C03_diag_mismatch_refuted.

(** C05: [rmatmat] of a block-diagonal matrix does not multiply with the transpose. *)
Theorem C05_block_rmatmat_refuted :
  exists (a : @smat Q_scalar) da X,
    valid (CBlock 2) 3 a /\ to_dense a = Ok da /\ shape X = [3; 2]%nat /\
    rmatmat a X <> Ok (mm (tr da) X).
Proof. exact C05_block_rmatmat_refuted_lemma. Qed.
Print Assumptions C05_block_rmatmat_refuted.

(** C05: [from_inner()] of a block-diagonal matrix is not extracted from a.T @ a. *)
Theorem C05_block_from_inner_refuted :
  exists (a : @smat Q_scalar) da,
    valid (CBlock 2) 3 a /\ to_dense a = Ok da /\
    from_inner a None <> from_dense (CBlock 2) (mm (tr da) da).
Proof. exact C05_block_from_inner_refuted_lemma. Qed.
Print Assumptions C05_block_from_inner_refuted.

(** C08: the round trip doubles the off-diagonal parts of a hierarchical matrix. *)
Theorem C08_hierarchical_roundtrip_refuted :
  exists (a : @smat Q_scalar) da, valid (CHier 1 1) 4 a /\ to_dense a = Ok da /\ from_dense (CHier 1 1) da <> Ok a.
Proof. exact C08_hierarchical_roundtrip_refuted_lemma. Qed.
Print Assumptions C08_hierarchical_roundtrip_refuted.

(** C08, C06: consequently [a * 1.0] changes an object of a recursive class with a
    hierarchical component. *)
Theorem C06_nested_hierarchical_refuted :
  exists c n (a : @smat Q_scalar), cls_ok c /\ valid c n a /\ mul a (q 1) <> Ok a /\ is_ok (mul a (q 1)) = true.
Proof. exact C06_nested_hierarchical_refuted_lemma. Qed.
Print Assumptions C06_nested_hierarchical_refuted.

(** C08, C06: an object accepted by the constructor whose partition differs from the
    class's standard one loses entries in [a * 1.0]. *)
Theorem C06_nonstandard_partition_refuted :
  exists c (a : @smat Q_scalar) r, cls_ok c /\ ex_odd = Ok a /\ cls_of a = c /\ mul a (q 1) = Ok r /\ to_dense r <> to_dense a.
Proof. exact C06_nonstandard_partition_refuted_lemma. Qed.
Print Assumptions C06_nonstandard_partition_refuted.

(** C15: blocks of the wrong size are accepted by the block-diagonal constructor, and
    [to_dense] of the result raises. *)
Theorem C15_block_ctor_refuted :
  exists (b l : @tensor Q_scalar) a,
    shape b = [1; 2; 2]%nat /\ shape l = [1; 1]%nat /\ mk_block 3 b l = Ok a /\ to_dense a = Err RuntimeError.
Proof. exact C15_block_ctor_refuted_lemma. Qed.
Print Assumptions C15_block_ctor_refuted.

(** C16: a coefficient vector of even length 2N is accepted and the result has the wrong
    number of rows. *)
Theorem C16_toeplitz_even_length_refuted :
  exists (cf X : @tensor Q_scalar) r,
    shape cf = [4]%nat /\ shape X = [2; 1]%nat /\ toeplitz_matmul cf X = Ok r /\ shape r = [1; 1]%nat.
Proof. exact C16_toeplitz_even_length_refuted_lemma. Qed.
Print Assumptions C16_toeplitz_even_length_refuted.

(** ** C12, C13: norms, over the reals *)

Section Real.
Existing Instance R_scalar.
Open Scope R_scope.

Theorem C12_infinity_vector_norm : forall c n a da,
  cls_ok c -> valid c n a -> n <> O -> to_dense a = Ok da ->
  exists v : R, infinity_vector_norm a = Ok v /\
    (forall i j, (i < n)%nat -> (j < n)%nat -> Rabs (get2 da i j) <= v) /\
    (exists i j, (i < n)%nat /\ (j < n)%nat /\ Rabs (get2 da i j) = v).
Proof. exact C12_infinity_vector_norm_lemma. Qed.

Theorem C13_frobenius_norm : forall c n a da,
  cls_ok c -> fro_dim_ok c n -> valid c n a -> to_dense a = Ok da ->
  exists v : R, frobenius_norm a = Ok v /\ 0 <= v /\
    v * v = sum n (fun i => sum n (fun j => get2 da i j * get2 da i j)).
Proof. exact C13_frobenius_norm_lemma. Qed.

End Real.

Print Assumptions C12_infinity_vector_norm.
Print Assumptions C13_frobenius_norm.

(** C13: for dimension 0 the block-diagonal and hierarchical classes raise. *)
Theorem C13_frobenius_dim0_refuted :
  exists c (a : @smat Q_scalar), cls_ok c /\ c_zeros c 0 = Ok a /\ valid c 0 a /\ frobenius_norm a = Err RuntimeError.
Proof. exact C13_frobenius_dim0_refuted_lemma. Qed.
Print Assumptions C13_frobenius_dim0_refuted.

Example C12_C13_hypotheses_met :
  let a : @smat R_scalar := MHier 1 1 (@zeros R_scalar [1;1]%nat) (@ones R_scalar [1;3]%nat) (@ones R_scalar [2]%nat)
                              (@zeros R_scalar [1;2]%nat) (@ones R_scalar [1;1]%nat) in
  cls_ok (CHier 1 1) /\ fro_dim_ok (CHier 1 1) 4 /\ valid (CHier 1 1) 4 a.
Proof. exact C12_C13_hypotheses_met_case. Qed.

(** ** C14: everything above for every nesting of the recursive templates *)

Section Nesting.
Context {SC : Scalar} {FL : FieldLaws SC}.
Open Scope F_scope.

(** The algebra of structured matrices of class [c] and dimension [n] mirrors the algebra of
    n x n matrices. *)
Theorem C14_recursive_any_nesting : forall sd ma mc ca cc n,
  let c := CRec sd ma mc ca cc in
  cls_ok c -> dim_ok c n -> hier_free c -> mirrors_dense c n.
Proof. exact C14_recursive_any_nesting_lemma. Qed.

End Nesting.

Print Assumptions C14_recursive_any_nesting.

(** A Toeplitz part of dimension 0 makes [from_dense] raise, so C14 cannot drop [dim_ok]. *)
Theorem C14_toeplitz_part_dim0_refuted :
  exists c n (M : @tensor Q_scalar), cls_ok c /\ hier_free c /\ shape M = [n; n] /\ n <> O /\ from_dense c M = Err RuntimeError.
Proof. exact C14_toeplitz_part_dim0_refuted_lemma. Qed.
Print Assumptions C14_toeplitz_part_dim0_refuted.

Example C07_hypotheses_met :
  let M := qt [3;3]%nat [1;2;3;2;4;5;3;5;6]%Z in
  shape M = [3;3]%nat /\ show (tr M) = show M /\
  showd (from_dense (CHier 1 1) M) = lit [3;3]%nat [1;4;6;0;4;0;0;10;6]%Z.
Proof. exact C07_hypotheses_met_case. Qed.

Example C15_reject_hypotheses_met :
  mk_block 2 (qt [1;2;2]%nat [1;2;3;4]%Z) (qt [2;2]%nat [1;2;3;4]%Z) = Err ValueError /\
  mk_hier 1 1 (qt [2;2]%nat [1;2;3;4]%Z) (qt [2;0]%nat []) (qt [0]%nat []) (qt [0;0]%nat []) (qt [0;0]%nat []) = Err ValueError.
Proof. exact C15_reject_hypotheses_met_case. Qed.

Example C16_hypotheses_met :
  showr (toeplitz_matmul (qt [3]%nat [1;2;3]%Z) (qt [2;2]%nat [1;2;3;4]%Z)) = lit [2;2]%nat [11;16;7;10]%Z /\
  showr (all_traces (qt [2;3]%nat [1;2;3;4;5;6]%Z)) = lit [4]%nat [4;6;8;3]%Z /\
  toeplitz_matmul (qt [5]%nat [1;2;3;4;5]%Z) (qt [2;2]%nat [1;2;3;4]%Z) = Err RuntimeError.
Proof. exact C16_hypotheses_met_case. Qed.

(** ** Sanity runs of the model on the examples *)
Example run_block_matmul :
  showd (matmul_s ex_block ex_block) = lit [3;3]%nat [7;6;0; 18;19;0; 0;0;25]%Z.
Proof. exact run_block_matmul_case. Qed.

Example run_hier_dense :
  showd (Ok ex_hier) = lit [4;4]%nat [2;1;3;5; 0;4;0;0; 0;0;7;0; 0;6;8;9]%Z.
Proof. exact run_hier_dense_case. Qed.

Example run_rec_dense :
  showd (Ok ex_rec) = lit [5;5]%nat [1;2;1;2;3; 0;1;4;5;6; 0;0;7;0;0; 0;0;0;8;0; 0;0;9;1;2]%Z.
Proof. exact run_rec_dense_case. Qed.

Example run_tril_matmul :
  showr (matmul_t ex_tril ex_X3) = lit [3;2]%nat [1;2; 5;8; 14;20]%Z.
Proof. exact run_tril_matmul_case. Qed.

Example run_triu_rmatmat :
  showr (rmatmat ex_triu ex_X3) = lit [3;2]%nat [1;2; 5;8; 14;20]%Z.
Proof. exact run_triu_rmatmat_case. Qed.

Example run_from_dense_tril :
  showd (from_dense CTril (qt [2;2]%nat [2;1;1;4]%Z)) = lit [2;2]%nat [3;0;2;3]%Z.
Proof. exact run_from_dense_tril_case. Qed.
