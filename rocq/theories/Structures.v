(** The structured matrix classes, singd/structures/*.py.

    A Python class is a class descriptor [cls]; an object is a value of [smat]
    whose fields are the registered tensors.  A method which a class does not
    override dispatches to the naive version of the base class
    (singd/structures/base.py), like in Python. *)

From Coq Require Import List Arith Lia Bool.
From Verif Require Import Scalar Res Tensor.
Import ListNotations.

(** An entry of [MAX_DIMS]: an int or [float("inf")],
    singd/structures/recursive.py:140,278.  SIMPLIFICATION: no negative ints. *)
Inductive ext : Type := Fin (n : nat) | Inf.

(** Which template: [RecursiveTopRightMatrixTemplate]
    (singd/structures/recursive.py:85-220) or
    [RecursiveBottomLeftMatrixTemplate] (223-358). *)
Inductive side : Type := TopRight | BottomLeft.

(** Class descriptors:
    [CDense] DenseMatrix (dense.py:10), [CDiag] DiagonalMatrix (diagonal.py:13),
    [CBlock D] a subclass of BlockDiagonalMatrixTemplate with BLOCK_DIM = D
    (blockdiagonal.py:14, 401, 412), [CHier k1 k2] a subclass of
    HierarchicalMatrixTemplate with MAX_K1 = k1, MAX_K2 = k2
    (hierarchical.py:13, 448, 460), [CTril] TrilToeplitzMatrix,
    [CTriu] TriuToeplitzMatrix, [CRec sd ma mc a c] a subclass of a recursive
    template with MAX_DIMS = (ma, mc), CLS_A = a, CLS_C = c. *)
Inductive cls : Type :=
| CDense
| CDiag
| CBlock (D : nat)
| CHier (k1 k2 : nat)
| CTril
| CTriu
| CRec (sd : side) (ma mc : ext) (a c : cls).

(** singd/structures/blockdiagonal.py:401-409, 412-420. *)
Definition Block30DiagonalMatrix : cls := CBlock 30.
(** singd/structures/blockdiagonal.py:412-420. *)
Definition Block3DiagonalMatrix : cls := CBlock 3.
(** singd/structures/hierarchical.py:448-457, 460-469. *)
Definition Hierarchical15_15Matrix : cls := CHier 15 15.
(** singd/structures/hierarchical.py:460-469. *)
Definition Hierarchical3_2Matrix : cls := CHier 3 2.
(** singd/structures/triltopleftdiag.py, trilbottomrightdiag.py,
    triutopleftdiag.py, triubottomrightdiag.py: MAX_DIMS, CLS_A, CLS_C. *)
Definition TrilTopLeftDiagonalMatrix : cls := CRec BottomLeft Inf (Fin 1) CDiag CDense.
(** singd/structures/trilbottomrightdiag.py. *)
Definition TrilBottomRightDiagonalMatrix : cls := CRec BottomLeft (Fin 1) Inf CDense CDiag.
(** singd/structures/triutopleftdiag.py. *)
Definition TriuTopLeftDiagonalMatrix : cls := CRec TopRight Inf (Fin 1) CDiag CDense.
(** singd/structures/triubottomrightdiag.py. *)
Definition TriuBottomRightDiagonalMatrix : cls := CRec TopRight (Fin 1) Inf CDense CDiag.

(** For comparing classes, recursive.py:161, 299 ([isinstance]). *)
Definition ext_eq_dec (a b : ext) : {a = b} + {a <> b}.
Proof. decide equality. apply Nat.eq_dec. Defined.
(** For comparing classes, recursive.py:161, 299 ([isinstance]). *)
Definition side_eq_dec (a b : side) : {a = b} + {a <> b}.
Proof. decide equality. Defined.
(** For comparing classes, recursive.py:161, 299 ([isinstance]). *)
Definition cls_eq_dec (a b : cls) : {a = b} + {a <> b}.
Proof. decide equality; try apply Nat.eq_dec; try apply ext_eq_dec; apply side_eq_dec. Defined.

(** [dim > max_dim] fails, singd/structures/recursive.py:173-176. *)
Definition ext_leb (n : nat) (m : ext) : bool := match m with Fin k => Nat.leb n k | Inf => true end.

(** [_get_boundary], singd/structures/recursive.py:361-392. *)
Definition get_boundary (dim : nat) (ma mc : ext) : res nat :=
  match ma, mc with
  | Inf, Fin c => Ok (dim - c)            (* max(0, dim - dim_C) *)
  | Fin a, Inf => Ok (Nat.min a dim)
  | _, _ => Err ValueError
  end.

(** [_compute_block_dims], singd/structures/hierarchical.py:430-445. *)
Definition compute_block_dims (k1 k2 dim : nat) : nat * nat * nat :=
  if Nat.leb dim k1 then (dim, 0, 0)
  else if Nat.leb dim (k1 + k2) then (k1, 0, dim - k1)
  else (k1, dim - k1 - k2, k2).

Section Structures.
Context {SC : Scalar}.
Open Scope F_scope.

(** Objects; the tensor fields are the registered tensors, in registration order
    ([register_tensor], singd/structures/base.py:59-74). *)
Inductive smat : Type :=
| MDense (mat : tensor)
| MDiag (mat_diag : tensor)
| MBlock (D : nat) (blocks last : tensor)
| MHier (k1 k2 : nat) (A B C D E : tensor)
| MTril (lower_diags : tensor)
| MTriu (upper_diags : tensor)
| MRec (sd : side) (ma mc : ext) (ca cc : cls) (A : smat) (B : tensor) (C : smat).

(** [type(self)]. Used through [self.from_dense], e.g. base.py:106, and [type(self)]. *)
Definition cls_of (s : smat) : cls :=
  match s with
  | MDense _ => CDense
  | MDiag _ => CDiag
  | MBlock D _ _ => CBlock D
  | MHier k1 k2 _ _ _ _ _ => CHier k1 k2
  | MTril _ => CTril
  | MTriu _ => CTriu
  | MRec sd ma mc ca cc _ _ _ => CRec sd ma mc ca cc
  end.

(** [isinstance(x, c)]. SIMPLIFICATION: no subclasses of concrete classes. recursive.py:161, 299. *)
Definition isinstance (x : smat) (c : cls) : bool := if cls_eq_dec (cls_of x) c then true else false.

(** The number 2 of hierarchical.py:161, 163, 311, 317, 322, 324 and of 0.5 = 1/2, optimizer.py:500. *)
Definition two : F := 1 + 1.

(** ** singd/structures/utils.py *)

(** [diag_add_], singd/structures/utils.py:117-137. *)
Definition util_diag_add (mat : tensor) (value : F) : res tensor :=
  if is2 mat && Nat.eqb (rows mat) (cols mat) then
    Ok (tab2 (rows mat) (cols mat) (fun i j => if Nat.eqb i j then get2 mat i j + value else get2 mat i j))
  else Err ValueError.

(** [all_traces], singd/structures/utils.py:54-80. *)
Definition all_traces (mat : tensor) : res tensor :=
  match shape mat with
  | [num_rows; num_cols] =>
      match (num_rows + num_cols)%nat with
      | O => Err RuntimeError                       (* zeros(-1) *)
      | Datatypes.S num_diags =>
          (* idxs[row, col] = col - row + (num_rows - 1), flattened *)
          let idxs := map (fun k => (k mod num_cols + (num_rows - 1) - k / num_cols)%nat)
                          (seq 0 (num_rows * num_cols)) in
          t_scatter_add num_diags idxs (data mat)
      end
  | _ => Err ValueError
  end.

(** [toeplitz_matmul], singd/structures/utils.py:83-114. *)
Definition toeplitz_matmul (coeffs mat : tensor) : res tensor :=
  let* len := dim_at coeffs 0 in
  let toeplitz_dim := Nat.div (len + 1) 2 in
  let* num_rows := dim_at mat 0 in
  if negb (Nat.eqb toeplitz_dim num_rows) then Err RuntimeError
  else
    let* num_cols := dim_at mat 1 in
    if Nat.eqb num_rows 0 then Err RuntimeError     (* padding = -1 *)
    else
      let padding := (num_rows - 1)%nat in
      let conv_input := tr mat in
      let conv_weight := tab3 num_cols 1 len (fun _ _ q => get1 coeffs q) in
      let* conv_result := t_conv1d conv_input conv_weight padding num_cols in
      Ok (tr conv_result).

(** [_check_square], singd/structures/base.py:417-429. *)
Definition check_square (t : tensor) : res unit :=
  check (is2 t && Nat.eqb (rows t) (cols t)) ValueError.

(** ** Constructors *)

(** [DenseMatrix.__init__] (dense.py:25-38), [DiagonalMatrix.__init__]
    (diagonal.py:40-48), Toeplitz [__init__] (triltoeplitz.py:47-56,
    triutoeplitz.py:47-56) only store their argument. *)

(** [BlockDiagonalMatrixTemplate.__init__], blockdiagonal.py:69-110.  The
    condition of line 93 is Python's chained comparison
    [shape[1] != shape[2] and shape[2] != BLOCK_DIM]. *)
Definition mk_block (D : nat) (blocks last : tensor) : res smat :=
  match shape blocks with
  | [_; s1; s2] =>
      if negb (Nat.eqb s1 s2) && negb (Nat.eqb s2 D) then Err ValueError
      else if negb (is2 last && Nat.eqb (rows last) (cols last)) then Err ValueError
      else if Nat.leb D (rows last) || Nat.leb D (cols last) then Err ValueError
      else Ok (MBlock D blocks last)
  | _ => Err ValueError
  end.

(** [HierarchicalMatrixTemplate.__init__], hierarchical.py:79-143. *)
Definition mk_hier (k1 k2 : nat) (A B C D E : tensor) : res smat :=
  if negb (is2 A && is2 B && is1 C && is2 D && is2 E) then Err ValueError
  else
    let* _ := check_square A in
    let* _ := check_square E in
    let K1 := rows A in let K2 := rows E in let diag_dim := rows C in
    if Nat.ltb k1 (rows A) || Nat.ltb k2 (rows E) then Err ValueError
    else if negb (shape_eqb (shape D) [K2; diag_dim]) then Err ValueError
    else if negb (shape_eqb (shape B) [K1; (diag_dim + K2)%nat]) then Err ValueError
    else Ok (MHier k1 k2 A B C D E).

(** ** to_dense *)

(** Loop of [BlockDiagonalMatrixTemplate.to_dense], blockdiagonal.py:150-152. *)
Definition block_to_dense_step (D : nat) (blocks : tensor) (mat : tensor) (i : nat) : res tensor :=
  match shape blocks with
  | [_; s1; s2] =>
      t_setslice2 mat (i * D) ((i + 1) * D) (i * D) ((i + 1) * D)
        (tab2 s1 s2 (fun r c => get3 blocks i r c))
  | _ => Err IndexError
  end.

(** [to_dense]: dense.py:51-57, diagonal.py:107-113, blockdiagonal.py:136-157,
    hierarchical.py:168-183, triltoeplitz.py:85-97, triutoeplitz.py:85-97,
    recursive.py:207-220, 345-358. *)
Fixpoint to_dense (s : smat) : res tensor :=
  match s with
  | MDense mat => Ok mat
  | MDiag d => t_diag d
  | MBlock D blocks last =>
      let* num_blocks := dim_at blocks 0 in
      let* last_dim := dim_at last 0 in
      let total_dim := (num_blocks * D + last_dim)%nat in
      let* mat := foldM (block_to_dense_step D blocks) (zeros [total_dim; total_dim]) (seq 0 num_blocks) in
      let last_start := (num_blocks * D)%nat in
      t_setslice2 mat last_start total_dim last_start total_dim last
  | MHier k1 k2 A B C D E =>
      let K1 := rows A in let K2 := rows E in let diag_dim := rows C in
      let dim := (K1 + K2 + diag_dim)%nat in
      let mat := zeros [dim; dim] in
      let* mat := t_setslice2 mat 0 K1 0 K1 A in
      let* mat := t_setslice2 mat 0 K1 K1 dim B in
      let* mat := t_setdiag mat K1 (K1 + diag_dim) C in
      let* mat := t_setslice2 mat (K1 + diag_dim) dim K1 (K1 + diag_dim) D in
      t_setslice2 mat (K1 + diag_dim) dim (K1 + diag_dim) dim E
  | MTril d =>
      let* dim := dim_at d 0 in
      Ok (tab2 dim dim (fun i j => if Nat.leb j i then get1 d (i - j) else 0))
  | MTriu d =>
      let* dim := dim_at d 0 in
      Ok (tab2 dim dim (fun i j => if Nat.leb i j then get1 d (j - i) else 0))
  | MRec sd ma mc ca cc A B C =>
      let* A := to_dense A in
      let* C := to_dense C in
      let* mat := t_block_diag A C in
      let* dim_A := dim_at A 0 in
      match sd with
      | TopRight => t_setslice2 mat 0 dim_A dim_A (cols mat) B
      | BottomLeft => t_setslice2 mat dim_A (rows mat) 0 dim_A B
      end
  end.

(** [RecursiveTopRightMatrixTemplate.__init__], recursive.py:144-186 and
    [RecursiveBottomLeftMatrixTemplate.__init__], 282-324. *)
Definition mk_rec (sd : side) (ma mc : ext) (ca cc : cls) (A : smat) (B : tensor) (C : smat) : res smat :=
  if negb (isinstance A ca) || negb (isinstance C cc) then Err ValueError
  else
    let* dA := to_dense A in
    let* dC := to_dense C in
    let* dim_A := dim_at dA 0 in
    let* dim_C := dim_at dC 0 in
    let expected := match sd with TopRight => [dim_A; dim_C] | BottomLeft => [dim_C; dim_A] end in
    if negb (shape_eqb (shape B) expected) then Err ValueError
    else if negb (ext_leb dim_A ma) then Err ValueError
    else if negb (ext_leb dim_C mc) then Err ValueError
    else Ok (MRec sd ma mc ca cc A B C).

(** ** from_dense *)

(** The common part of the two Toeplitz [from_dense], triltoeplitz.py:69-81,
    triutoeplitz.py:69-81. *)
Definition toeplitz_coeffs (mat : tensor) : res tensor :=
  let* d0 := dim_at mat 0 in
  let* d1 := dim_at mat 1 in
  let* _ := check (Nat.eqb d0 d1) AssertionError in
  let* traces := all_traces mat in
  let dim := d0 in
  let idx_main := (dim - 1)%nat in
  let* hi := t_slice1 traces (idx_main + 1) (rows traces) in
  let* lo := t_slice1 traces 0 idx_main in
  let* lo := t_flip lo in
  let col := tab1 dim (fun k => match k with
                                | O => get1 traces idx_main
                                | Datatypes.S k' => get1 hi k' + get1 lo k'
                                end) in
  Ok (tab1 dim (fun k => get1 col k / fofnat (dim - k))).

(** [BlockDiagonalMatrixTemplate.from_dense], blockdiagonal.py:113-134. *)
Definition block_from_dense (D : nat) (mat : tensor) : res smat :=
  let* n := dim_at mat 0 in
  if Nat.eqb D 0 then Err ZeroDivisionError
  else
    let num_blocks := Nat.div n D in
    let last_start := (num_blocks * D)%nat in
    let* last := t_slice2 mat last_start (rows mat) last_start (cols mat) in
    let blocks_end := (num_blocks * D)%nat in
    (* mat.narrow(0, 0, blocks_end).narrow(1, 0, blocks_end) *)
    if negb (is2 mat && Nat.leb blocks_end (rows mat) && Nat.leb blocks_end (cols mat)) then Err RuntimeError
    else
      let* m := t_slice2 mat 0 blocks_end 0 blocks_end in
      let* m := t_reshape m [num_blocks; D; num_blocks; D] in
      (* mat[idxs, :, idxs, :] *)
      let blocks := tab3 num_blocks D D (fun x r c => tget m [x; r; x; c]) in
      mk_block D blocks last.

(** [HierarchicalMatrixTemplate.from_dense], hierarchical.py:146-166. *)
Definition hier_from_dense (k1 k2 : nat) (sym_mat : tensor) : res smat :=
  let* _ := check_square sym_mat in
  let dim := rows sym_mat in
  let '(K1, diag_dim, _) := compute_block_dims k1 k2 dim in
  let* A := t_slice2 sym_mat 0 K1 0 K1 in
  let* B := t_slice2 sym_mat 0 K1 K1 dim in
  let* dg := t_diag sym_mat in
  let* C := t_slice1 dg K1 (K1 + diag_dim) in
  let* D := t_slice2 sym_mat (K1 + diag_dim) dim K1 (K1 + diag_dim) in
  let* E := t_slice2 sym_mat (K1 + diag_dim) dim (K1 + diag_dim) dim in
  mk_hier k1 k2 A (t_scale two B) C (t_scale two D) E.

(** [from_dense]: dense.py:40-49, diagonal.py:92-105, blockdiagonal.py:113-134,
    hierarchical.py:146-166, triltoeplitz.py:59-83, triutoeplitz.py:59-83,
    recursive.py:188-205, 326-343. *)
Fixpoint from_dense (c : cls) (sym_mat : tensor) : res smat :=
  match c with
  | CDense => Ok (MDense sym_mat)
  | CDiag => let* d := t_diag sym_mat in Ok (MDiag d)
  | CBlock D => block_from_dense D sym_mat
  | CHier k1 k2 => hier_from_dense k1 k2 sym_mat
  | CTril => let* col := toeplitz_coeffs sym_mat in Ok (MTril col)
  | CTriu => let* row := toeplitz_coeffs sym_mat in Ok (MTriu row)
  | CRec sd ma mc a c =>
      let* _ := check_square sym_mat in
      let n := rows sym_mat in
      let* boundary := get_boundary n ma mc in
      let* tl := t_slice2 sym_mat 0 boundary 0 boundary in
      let* A := from_dense a tl in
      let* tr_ := t_slice2 sym_mat 0 boundary boundary n in
      let* bl := t_slice2 sym_mat boundary n 0 boundary in
      let* B := match sd with
                | TopRight => t_add tr_ (tr bl)
                | BottomLeft => t_add bl (tr tr_)
                end in
      let* br := t_slice2 sym_mat boundary n boundary n in
      let* C := from_dense c br in
      mk_rec sd ma mc a c A B C
  end.

(** ** named_tensors and in-place operations of the base class *)

(** [named_tensors] (without the names), base.py:76-83, recursive.py:42-59. *)
Fixpoint tensors (s : smat) : list tensor :=
  match s with
  | MDense t => [t]
  | MDiag t => [t]
  | MBlock _ b l => [b; l]
  | MHier _ _ A B C D E => [A; B; C; D; E]
  | MTril t => [t]
  | MTriu t => [t]
  | MRec _ _ _ _ _ A B C => B :: tensors A ++ tensors C
  end.

(** [mul_], base.py:155-167: multiplies every registered tensor in place. *)
Fixpoint mul_ (s : smat) (value : F) : smat :=
  let m := t_map (fun x => x * value) in
  match s with
  | MDense t => MDense (m t)
  | MDiag t => MDiag (m t)
  | MBlock D b l => MBlock D (m b) (m l)
  | MHier k1 k2 A B C D E => MHier k1 k2 (m A) (m B) (m C) (m D) (m E)
  | MTril t => MTril (m t)
  | MTriu t => MTriu (m t)
  | MRec sd ma mc ca cc A B C => MRec sd ma mc ca cc (mul_ A value) (m B) (mul_ C value)
  end.

(** One iteration of the loop of [add_], base.py:193-196: consumes the next tensor
    of [other]; [zip] stops when there is none. *)
Definition add_next (alpha : F) (t : tensor) (l : list tensor) : res (tensor * list tensor) :=
  match l with
  | [] => Ok (t, [])
  | o :: l' => let* t' := t_add_alpha t o alpha in Ok (t', l')
  end.

(** The loop of [add_] over the tensors of an object, in the order of
    [named_tensors]. base.py:193-196, recursive.py:42-59. *)
Fixpoint add_walk (alpha : F) (s : smat) (l : list tensor) : res (smat * list tensor) :=
  match s with
  | MDense t => let* '(t, l) := add_next alpha t l in Ok (MDense t, l)
  | MDiag t => let* '(t, l) := add_next alpha t l in Ok (MDiag t, l)
  | MBlock D b la =>
      let* '(b, l) := add_next alpha b l in
      let* '(la, l) := add_next alpha la l in
      Ok (MBlock D b la, l)
  | MHier k1 k2 A B C D E =>
      let* '(A, l) := add_next alpha A l in
      let* '(B, l) := add_next alpha B l in
      let* '(C, l) := add_next alpha C l in
      let* '(D, l) := add_next alpha D l in
      let* '(E, l) := add_next alpha E l in
      Ok (MHier k1 k2 A B C D E, l)
  | MTril t => let* '(t, l) := add_next alpha t l in Ok (MTril t, l)
  | MTriu t => let* '(t, l) := add_next alpha t l in Ok (MTriu t, l)
  | MRec sd ma mc ca cc A B C =>
      let* '(B, l) := add_next alpha B l in
      let* '(A, l) := add_walk alpha A l in
      let* '(C, l) := add_walk alpha C l in
      Ok (MRec sd ma mc ca cc A B C, l)
  end.

(** [add_], base.py:181-197. *)
Definition add_ (s other : smat) (alpha : F) : res smat :=
  let* '(s', _) := add_walk alpha s (tensors other) in Ok s'.

(** ** Multiplication *)

(** Base class, base.py:85-106. *)
Definition naive_matmul_t (s : smat) (other : tensor) : res tensor :=
  let* dense := to_dense s in t_matmul dense other.
(** [self @ other] of two structured matrices in the base class, base.py:99-106. *)
Definition naive_matmul_s (s other : smat) : res smat :=
  let* dense := to_dense s in
  let* other_dense := to_dense other in
  let* p := t_matmul dense other_dense in
  from_dense (cls_of s) p.

(** [BlockDiagonalMatrixTemplate.__matmul__] with a tensor,
    blockdiagonal.py:176-208. *)
Definition block_matmul_t (D : nat) (blocks last other : tensor) : res tensor :=
  let* num_blocks := dim_at blocks 0 in
  let* last_dim := dim_at last 0 in
  let total_dim := (num_blocks * D + last_dim)%nat in
  let* r := dim_at other 0 in
  if negb (Nat.eqb r total_dim) || negb (Nat.eqb (ndim other) 2) then Err ValueError
  else
    let* '(other_blocks, other_last) := t_split2 other (num_blocks * D) last_dim in
    (* rearrange "(block row) col -> block row col" *)
    let* other_blocks := t_reshape other_blocks [num_blocks; D; cols other] in
    let* result_blocks := e_nij_njk blocks other_blocks in
    (* rearrange "block row col -> (block row) col" *)
    let* result_blocks := t_reshape result_blocks [(num_blocks * D)%nat; cols other] in
    let* result_last := t_matmul last other_last in
    t_cat0 result_blocks result_last.

(** [HierarchicalMatrixTemplate.__matmul__] with a tensor, hierarchical.py:199-211. *)
Definition hier_matmul_t (A B C D E other : tensor) : res tensor :=
  let K1 := rows A in let K2 := rows E in let diag_dim := rows C in
  let* '(B_C, B_E) := t_split2c B diag_dim K2 in
  let* '(other_top, other_middle, other_bottom) := t_split3 other K1 diag_dim K2 in
  let* t1 := t_matmul A other_top in
  let* t2 := t_matmul B_C other_middle in
  let* t3 := t_matmul B_E other_bottom in
  let* t12 := t_add t1 t2 in
  let* top := t_add t12 t3 in
  let* middle := e_i_ij C other_middle in
  let* b1 := t_matmul D other_middle in
  let* b2 := t_matmul E other_bottom in
  let* bottom := t_add b1 b2 in
  let* tm := t_cat0 top middle in
  t_cat0 tm bottom.

(** Toeplitz coefficient vectors: [cat([col.flip(0), zeros(dim - 1)])]
    (triltoeplitz.py:139-141, triutoeplitz.py:160) and
    [cat([zeros(dim - 1), row])] (triutoeplitz.py:139, triltoeplitz.py:163). *)
Definition coeffs_lower (d : tensor) : res tensor :=
  let* dim := dim_at d 0 in
  let* fl := t_flip d in
  let* z := t_zeros_pred dim in
  t_cat fl z.
(** [cat([zeros(dim - 1), row])], triutoeplitz.py:139, triltoeplitz.py:163. *)
Definition coeffs_upper (d : tensor) : res tensor :=
  let* dim := dim_at d 0 in
  let* z := t_zeros_pred dim in
  t_cat z d.

(** [self @ other] with a [Tensor]: base.py:101-103, diagonal.py:64-65,
    blockdiagonal.py:176-208, hierarchical.py:202-211, triltoeplitz.py:138-142,
    triutoeplitz.py:138-140. *)
Definition matmul_t (s : smat) (other : tensor) : res tensor :=
  match s with
  | MDiag d => e_i_ij d other
  | MBlock D b l => block_matmul_t D b l other
  | MHier _ _ A B C D E => hier_matmul_t A B C D E other
  | MTril d => let* coeffs := coeffs_lower d in toeplitz_matmul coeffs other
  | MTriu d => let* coeffs := coeffs_upper d in toeplitz_matmul coeffs other
  | MDense _ | MRec _ _ _ _ _ _ _ _ => naive_matmul_t s other
  end.

(** Product of two Toeplitz coefficient vectors, triltoeplitz.py:145-149,
    triutoeplitz.py:143-147. *)
Definition toeplitz_product (self_diags other_diags : tensor) : res tensor :=
  let* dim := dim_at self_diags 0 in
  if Nat.eqb dim 0 then Err RuntimeError       (* pad by -1 / empty kernel *)
  else
    let* p := t_pad_left other_diags (dim - 1) in
    let* conv_input := t_reshape p [1%nat; rows p] in
    let* fl := t_flip self_diags in
    let* conv_weight := t_reshape fl [1%nat; 1%nat; rows fl] in
    let* r := t_conv1d conv_input conv_weight 0 1 in
    t_reshape r [cols r].

(** [self @ other] with a structured matrix: base.py:105-106, diagonal.py:66-67,
    blockdiagonal.py:210-213, hierarchical.py:213-230, triltoeplitz.py:144-149,
    triutoeplitz.py:142-147.  An [other] of a different class lacks the accessed
    attribute. *)
Definition matmul_s (s other : smat) : res smat :=
  match s with
  | MDiag d =>
      match other with
      | MDiag d' => let* p := t_mul d d' in Ok (MDiag p)
      | _ => Err AttributeError
      end
  | MBlock D b l =>
      match other with
      | MBlock _ b' l' =>
          let* out_blocks := e_nij_njk b b' in
          let* out_last := t_matmul l l' in
          mk_block D out_blocks out_last
      | _ => Err AttributeError
      end
  | MHier k1 k2 A B C D E =>
      let* '(B_C, B_E) := t_split2c B (rows C) (rows E) in
      match other with
      | MHier _ _ A' B' C' D' E' =>
          let* A_new := t_matmul A A' in
          let* C_new := t_mul C C' in
          let* E_new := t_matmul E E' in
          let* d1 := e_ij_j D C' in
          let* d2 := t_matmul E D' in
          let* D_new := t_add d1 d2 in
          let* '(B_C_other, B_E_other) := t_split2c B' (rows C') (rows E') in
          let* x1 := t_matmul A B_C_other in
          let* x2 := e_ij_j B_C C' in
          let* x3 := t_matmul B_E D' in
          let* x12 := t_add x1 x2 in
          let* left := t_add x12 x3 in
          let* y1 := t_matmul A B_E_other in
          let* y2 := t_matmul B_E E' in
          let* right := t_add y1 y2 in
          let* B_new := t_cat1 left right in
          mk_hier k1 k2 A_new B_new C_new D_new E_new
      | _ => Err AttributeError
      end
  | MTril d =>
      match other with
      | MTril d' => let* c := toeplitz_product d d' in Ok (MTril c)
      | _ => Err AttributeError
      end
  | MTriu d =>
      match other with
      | MTriu d' => let* r := toeplitz_product d d' in Ok (MTriu r)
      | _ => Err AttributeError
      end
  | MDense _ | MRec _ _ _ _ _ _ _ _ => naive_matmul_s s other
  end.

(** ** Addition and scalar multiplication *)

(** [__add__]: base.py:169-179, diagonal.py:69-78, blockdiagonal.py:215-226,
    hierarchical.py:232-247, triltoeplitz.py:99-108, triutoeplitz.py:99-108. *)
Definition add (s other : smat) : res smat :=
  match s with
  | MDiag d =>
      match other with MDiag d' => let* r := t_add d d' in Ok (MDiag r) | _ => Err AttributeError end
  | MBlock D b l =>
      match other with
      | MBlock _ b' l' => let* nb := t_add b b' in let* nl := t_add l l' in mk_block D nb nl
      | _ => Err AttributeError
      end
  | MHier k1 k2 A B C D E =>
      match other with
      | MHier _ _ A' B' C' D' E' =>
          let* A := t_add A A' in
          let* B := t_add B B' in
          let* C := t_add C C' in
          let* D := t_add D D' in
          let* E := t_add E E' in
          mk_hier k1 k2 A B C D E
      | _ => Err AttributeError
      end
  | MTril d =>
      match other with MTril d' => let* r := t_add d d' in Ok (MTril r) | _ => Err AttributeError end
  | MTriu d =>
      match other with MTriu d' => let* r := t_add d d' in Ok (MTriu r) | _ => Err AttributeError end
  | MDense _ | MRec _ _ _ _ _ _ _ _ =>
      let* d := to_dense s in
      let* d' := to_dense other in
      let* r := t_add d d' in
      from_dense (cls_of s) r
  end.

(** [__mul__]: base.py:143-153, diagonal.py:80-89, blockdiagonal.py:228-237,
    hierarchical.py:249-264, triltoeplitz.py:110-119, triutoeplitz.py:110-119. *)
Definition mul (s : smat) (other : F) : res smat :=
  let m := t_map (fun x => x * other) in
  match s with
  | MDiag d => Ok (MDiag (m d))
  | MBlock D b l => mk_block D (t_scale other b) (t_scale other l)
  | MHier k1 k2 A B C D E => mk_hier k1 k2 (m A) (m B) (m C) (m D) (m E)
  | MTril d => Ok (MTril (m d))
  | MTriu d => Ok (MTriu (m d))
  | MDense _ | MRec _ _ _ _ _ _ _ _ => let* d := to_dense s in from_dense (cls_of s) (m d)
  end.

(** ** rmatmat *)

(** [HierarchicalMatrixTemplate.rmatmat], hierarchical.py:266-293. *)
Definition hier_rmatmat (A B C D E mat : tensor) : res tensor :=
  let K1 := rows A in let K2 := rows E in let diag_dim := rows C in
  let* '(mat_top, mat_middle, mat_bottom) := t_split3 mat K1 diag_dim K2 in
  let* '(B_C, B_E) := t_split2c B diag_dim K2 in
  let* top := t_matmul (tr A) mat_top in
  let* m1 := t_matmul (tr B_C) mat_top in
  let* m2 := e_i_ij C mat_middle in
  let* m3 := t_matmul (tr D) mat_bottom in
  let* m12 := t_add m1 m2 in
  let* middle := t_add m12 m3 in
  let* b1 := t_matmul (tr B_E) mat_top in
  let* b2 := t_matmul (tr E) mat_bottom in
  let* bottom := t_add b1 b2 in
  let* tm := t_cat0 top middle in
  t_cat0 tm bottom.

(** [rmatmat]: base.py:199-209, diagonal.py:115-125, blockdiagonal.py:239-249
    ([self @ mat], no transpose), hierarchical.py:266-293,
    triltoeplitz.py:151-169, triutoeplitz.py:149-167. *)
Definition rmatmat (s : smat) (mat : tensor) : res tensor :=
  match s with
  | MDiag _ | MBlock _ _ _ => matmul_t s mat
  | MHier _ _ A B C D E => hier_rmatmat A B C D E mat
  | MTril d => let* coeffs := coeffs_upper d in toeplitz_matmul coeffs mat
  | MTriu d => let* coeffs := coeffs_lower d in toeplitz_matmul coeffs mat
  | MDense _ | MRec _ _ _ _ _ _ _ _ => let* dense := to_dense s in t_matmul (tr dense) mat
  end.

(** ** Structure extraction *)

(** [from_mat_inner]: base.py:286-297, diagonal.py:151-161, blockdiagonal.py:283-303. *)
Definition from_mat_inner (c : cls) (X : tensor) : res smat :=
  match c with
  | CDiag => let* d := t_sum1 (t_sq X) in Ok (MDiag d)
  | CBlock D =>
      let* dim := dim_at X 0 in
      if Nat.eqb D 0 then Err ZeroDivisionError
      else
        let num_blocks := Nat.div dim D in let last_dim := Nat.modulo dim D in
        let* '(X_blocks, X_last) := t_split2 X (num_blocks * D) last_dim in
        let* X_blocks := t_reshape X_blocks [num_blocks; D; cols X] in
        let* out_blocks := e_nij_nkj X_blocks X_blocks in
        let* out_last := t_matmul X_last (tr X_last) in
        mk_block D out_blocks out_last
  | _ => let* p := t_matmul X (tr X) in from_dense c p
  end.

(** [HierarchicalMatrixTemplate.from_inner], hierarchical.py:299-327. *)
Definition hier_from_inner (k1 k2 : nat) (A B C D E : tensor) (X : option tensor) : res smat :=
  let K1 := rows A in let K2 := rows E in let diag_dim := rows C in
  match X with
  | None =>
      let* A_new := t_matmul (tr A) A in
      let* B_new := t_matmul (t_scale two (tr A)) B in
      let* '(B_C, B_E) := t_split2c B diag_dim K2 in
      let* s1 := t_sum0 (t_sq B_C) in
      let* s2 := t_sum0 (t_sq D) in
      let* c1 := t_add (t_sq C) s1 in
      let* C_new := t_add c1 s2 in
      let* d1 := t_matmul (tr B_E) B_C in
      let* d2 := t_matmul (tr E) D in
      let* d12 := t_add d1 d2 in
      let D_new := t_scale two d12 in
      let* e1 := t_matmul (tr E) E in
      let* e2 := t_matmul (tr B_E) B_E in
      let* E_new := t_add e1 e2 in
      mk_hier k1 k2 A_new B_new C_new D_new E_new
  | Some X =>
      let* r := hier_rmatmat A B C D E X in
      let* '(S_A, S_C, S_E) := t_split3 r K1 diag_dim K2 in
      let* A_new := t_matmul S_A (tr S_A) in
      let* b1 := t_matmul S_A (tr S_C) in
      let* b2 := t_matmul S_A (tr S_E) in
      let* b12 := t_cat1 b1 b2 in
      let B_new := t_scale two b12 in
      let* C_new := t_sum1 (t_sq S_C) in
      let* D_new := t_matmul (t_scale two S_E) (tr S_C) in
      let* E_new := t_matmul S_E (tr S_E) in
      mk_hier k1 k2 A_new B_new C_new D_new E_new
  end.

(** [from_inner]: base.py:270-284, diagonal.py:131-149, blockdiagonal.py:255-281
    (for [X = None]: blocks times transposed blocks), hierarchical.py:299-327. *)
Definition from_inner (s : smat) (X : option tensor) : res smat :=
  match s with
  | MDiag d =>
      let mat_diag := t_sq d in
      match X with
      | None => Ok (MDiag mat_diag)
      | Some X => let* x := t_sum1 (t_sq X) in let* r := t_mul mat_diag x in Ok (MDiag r)
      end
  | MBlock D b l =>
      match X with
      | None =>
          let* out_blocks := e_nij_nkj b b in
          let* out_last := t_matmul l (tr l) in
          mk_block D out_blocks out_last
      | Some X => let* r := rmatmat s X in from_mat_inner (cls_of s) r
      end
  | MHier k1 k2 A B C D E => hier_from_inner k1 k2 A B C D E X
  | MDense _ | MTril _ | MTriu _ | MRec _ _ _ _ _ _ _ _ =>
      let* S_dense := match X with
                      | None => let* d := to_dense s in Ok (tr d)
                      | Some X => rmatmat s X
                      end in
      from_mat_inner (cls_of s) S_dense
  end.

(** [from_inner2]: base.py:303-314, diagonal.py:163-173. *)
Definition from_inner2 (s : smat) (XXT : tensor) : res smat :=
  match s with
  | MDiag d => let* dg := t_diag XXT in let* r := t_mul (t_sq d) dg in Ok (MDiag r)
  | _ =>
      let* dense := to_dense s in
      let* p := t_matmul (tr dense) XXT in
      let* q := t_matmul p dense in
      from_dense (cls_of s) q
  end.

(** ** average_trace, diag_add_, norms *)

(** [average_trace]: base.py:316-323, diagonal.py:175-181, blockdiagonal.py:305-313,
    hierarchical.py:329-341, triltoeplitz.py:175-181, triutoeplitz.py:173-179. *)
Definition average_trace (s : smat) : res F :=
  match s with
  | MDiag d => Ok (t_mean d)
  | MBlock D b l =>
      let* num_blocks := dim_at b 0 in
      let* last_dim := dim_at l 0 in
      let dim := fofnat (num_blocks * D + last_dim) in
      let* x := e_nii (t_divs b dim) in
      let* dg := t_diag l in
      Ok (x + tsum (t_divs dg dim))
  | MHier _ _ A B C D E =>
      let dim := fofnat (rows A + rows C + rows E) in
      let* dA := t_diag A in
      let* dE := t_diag E in
      Ok (tsum (t_divs dA dim) + tsum (t_divs C dim) + tsum (t_divs dE dim))
  | MTril d | MTriu d =>
      match data d with [] => Err IndexError | _ => Ok (get1 d 0) end
  | MDense _ | MRec _ _ _ _ _ _ _ _ =>
      let* dense := to_dense s in
      let* dg := t_diag dense in
      Ok (t_mean dg)
  end.

(** [diag_add_]: base.py:325-343, diagonal.py:183-193, blockdiagonal.py:315-330,
    hierarchical.py:343-355, triltoeplitz.py:183-193, triutoeplitz.py:181-191. *)
Definition diag_add_ (s : smat) (value : F) : res smat :=
  match s with
  | MDiag d => Ok (MDiag (t_map (fun x => x + value) d))
  | MBlock D b l =>
      match shape b with
      | [n; s1; s2] =>
          if negb (Nat.leb D s1 && Nat.leb D s2) then Err IndexError
          else if negb (is2 l && Nat.leb (rows l) (cols l)) then Err IndexError
          else
            Ok (MBlock D
                  (tab3 n s1 s2 (fun x r c =>
                     if Nat.eqb r c && Nat.ltb r D then get3 b x r c + value else get3 b x r c))
                  (tab2 (rows l) (cols l) (fun r c =>
                     if Nat.eqb r c then get2 l r c + value else get2 l r c)))
      | _ => Err IndexError
      end
  | MHier k1 k2 A B C D E =>
      let* A := util_diag_add A value in
      let C := t_map (fun x => x + value) C in
      let* E := util_diag_add E value in
      Ok (MHier k1 k2 A B C D E)
  | MTril d =>
      match data d with
      | [] => Err IndexError
      | _ => Ok (MTril (tab1 (rows d) (fun i => if Nat.eqb i 0 then get1 d i + value else get1 d i)))
      end
  | MTriu d =>
      match data d with
      | [] => Err IndexError
      | _ => Ok (MTriu (tab1 (rows d) (fun i => if Nat.eqb i 0 then get1 d i + value else get1 d i)))
      end
  | MDense _ | MRec _ _ _ _ _ _ _ _ =>
      let* dense := to_dense s in
      let* dense := util_diag_add dense value in
      from_dense (cls_of s) dense
  end.

(** [infinity_vector_norm], base.py:345-358: Python's [max] over the non-empty
    tensors; ValueError if there is none. *)
Definition infinity_vector_norm (s : smat) : res F :=
  let* ms := mapM t_absmax (filter (fun t => negb (Nat.eqb (numel t) 0)) (tensors s)) in
  match ms with
  | [] => Err ValueError
  | m :: l => Ok (fold_left fmax l m)
  end.

(** [vector_norm(t)] / [matrix_norm(t)] (2-norm / Frobenius norm).
    base.py:367, diagonal.py:201, triltoeplitz.py:209, triutoeplitz.py:207. *)
Definition norm2 (t : tensor) : F := fsqrt (tsum (t_sq t)).

(** [vector_norm(cat([t.flatten() for t in tensors if t.numel() > 0]))],
    blockdiagonal.py:338-340, hierarchical.py:363-365; [cat] of an empty list raises. *)
Definition norm2_cat (l : list tensor) : res F :=
  match filter (fun t => negb (Nat.eqb (numel t) 0)) l with
  | [] => Err RuntimeError
  | l' => Ok (fsqrt (fold_left (fun acc t => acc + tsum (t_sq t)) l' 0))
  end.

(** [frobenius_norm]: base.py:360-367, diagonal.py:195-201, blockdiagonal.py:332-340,
    hierarchical.py:357-365, triltoeplitz.py:195-209, triutoeplitz.py:193-207,
    recursive.py:70-82. *)
Fixpoint frobenius_norm (s : smat) : res F :=
  match s with
  | MDiag d => Ok (norm2 d)
  | MBlock D b l => norm2_cat [b; l]
  | MHier _ _ A B C D E => norm2_cat [A; B; C; D; E]
  | MTril d | MTriu d =>
      if is1 d then
        let dim := rows d in
        Ok (norm2 (tab1 dim (fun i => get1 d i * fsqrt (fofnat (dim - i)))))
      else Err ValueError
  | MRec _ _ _ _ _ A B C =>
      let fro_squared := tsum (t_sq B) in
      let* fA := frobenius_norm A in
      let* fC := frobenius_norm C in
      Ok (fsqrt (fro_squared + (fA * fA + fC * fC)))
  | MDense _ => let* d := to_dense s in Ok (norm2 d)
  end.

(** ** zeros and eye *)

(** [zeros]: base.py:372-392, diagonal.py:206-225, blockdiagonal.py:346-370,
    hierarchical.py:371-398, triltoeplitz.py:214-233, triutoeplitz.py:212-231. *)
Definition c_zeros (c : cls) (dim : nat) : res smat :=
  match c with
  | CDiag => Ok (MDiag (zeros [dim]))
  | CBlock D =>
      if Nat.eqb D 0 then Err ZeroDivisionError
      else mk_block D (zeros [Nat.div dim D; D; D]) (zeros [Nat.modulo dim D; Nat.modulo dim D])
  | CHier k1 k2 =>
      let '(K1, diag_dim, K2) := compute_block_dims k1 k2 dim in
      mk_hier k1 k2 (zeros [K1; K1]) (zeros [K1; (diag_dim + K2)%nat]) (zeros [diag_dim])
        (zeros [K2; diag_dim]) (zeros [K2; K2])
  | CTril => Ok (MTril (zeros [dim]))
  | CTriu => Ok (MTriu (zeros [dim]))
  | CDense | CRec _ _ _ _ _ => from_dense c (zeros [dim; dim])
  end.

(** [coeffs = zeros(dim); coeffs[0] = 1.0], triltoeplitz.py:254-256,
    triutoeplitz.py:252-254. *)
Definition unit_coeffs (dim : nat) : res tensor :=
  if Nat.eqb dim 0 then Err IndexError
  else Ok (tab1 dim (fun i => if Nat.eqb i 0 then 1 else 0)).

(** [eye]: base.py:394-414, diagonal.py:227-246, blockdiagonal.py:372-398,
    hierarchical.py:400-427, triltoeplitz.py:235-256, triutoeplitz.py:233-254. *)
Definition c_eye (c : cls) (dim : nat) : res smat :=
  match c with
  | CDiag => Ok (MDiag (ones [dim]))
  | CBlock D =>
      if Nat.eqb D 0 then Err ZeroDivisionError
      else
        (* one_block.unsqueeze(0).repeat(num_blocks, 1, 1) *)
        mk_block D (tab3 (Nat.div dim D) D D (fun _ r c => get2 (eye D) r c)) (eye (Nat.modulo dim D))
  | CHier k1 k2 =>
      let '(K1, diag_dim, K2) := compute_block_dims k1 k2 dim in
      mk_hier k1 k2 (eye K1) (zeros [K1; (diag_dim + K2)%nat]) (ones [diag_dim])
        (zeros [K2; diag_dim]) (eye K2)
  | CTril => let* t := unit_coeffs dim in Ok (MTril t)
  | CTriu => let* t := unit_coeffs dim in Ok (MTriu t)
  | CDense | CRec _ _ _ _ _ => from_dense c (eye dim)
  end.

End Structures.
