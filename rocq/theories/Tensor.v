(** Tensors and the PyTorch primitives singd uses.

    A tensor is a shape and a flat, row-major list of scalars (the contents of a
    contiguous PyTorch tensor).  Every primitive is a total function; the ones
    which can raise return [res].  The semantics of the primitives is PyTorch's
    documented one; they are part of the trusted reading of the code.

    SIMPLIFICATIONS: one kind of scalar; no dtype/device (see Dtypes.v); no storage
    sharing (see Alias.v); element-wise binary operations, slice assignments and
    einsum (except [e_i_ij]) require equal sizes where PyTorch would also broadcast
    size-1 axes; [t_absmax] compares with <, while PyTorch's max returns NaN if there is one. *)

From Coq Require Import List Arith Lia Bool.
From Verif Require Import Scalar Res.
Import ListNotations.

(** Number of elements of a shape ([Size.numel()]), e.g.
    singd/optim/optimizer.py:448. *)
Definition prod (s : list nat) : nat := fold_right Nat.mul 1 s.

Section Tensor.
Context {S : Scalar}.
Open Scope F_scope.

(** [torch.Tensor]. The values of all attributes and arguments of singd/structures/*.py. *)
Record tensor : Type := mkT {
  shape : list nat;
  data : list F;
  tok : Nat.eqb (length data) (prod shape) = true
}.

(** Row-major position of a multi-index. E.g. [mat.flatten()], singd/structures/utils.py:78. *)
Fixpoint flat (s idx : list nat) : nat :=
  match s, idx with
  | _ :: s', i :: idx' => (i * prod s' + flat s' idx')%nat
  | _, _ => O
  end.

(** Multi-index of a row-major position. Inverse of [flat] (singd/structures/utils.py:78). *)
Fixpoint unflat (s : list nat) (k : nat) : list nat :=
  match s with
  | [] => []
  | _ :: s' => (k / prod s')%nat :: unflat s' (k mod prod s')
  end.

(** The indices accepted by indexing, e.g. singd/structures/utils.py:135. *)
Definition in_range (s idx : list nat) : Prop := Forall2 lt idx s.

(** Element access [t[i, j, ...]] (in range). E.g. singd/structures/utils.py:135. *)
Definition tget (t : tensor) (idx : list nat) : F := nth (flat (shape t) idx) (data t) 0.

Lemma tab_ok (s : list nat) (f : list nat -> F) :
  Nat.eqb (length (map (fun k => f (unflat s k)) (seq 0 (prod s)))) (prod s) = true.
Proof. rewrite map_length, seq_length. apply Nat.eqb_refl. Qed.

(** The tensor of shape [s] with entries given by [f].
    All results of PyTorch operations of singd/structures/*.py are written this way. *)
Definition tab (s : list nat) (f : list nat -> F) : tensor :=
  mkT s (map (fun k => f (unflat s k)) (seq 0 (prod s))) (tab_ok s f).

(** 1d results, e.g. singd/structures/diagonal.py:105. *)
Definition tab1 (n : nat) (f : nat -> F) : tensor :=
  tab [n] (fun idx => match idx with [i] => f i | _ => 0 end).
(** 2d results, e.g. singd/structures/base.py:103. *)
Definition tab2 (n m : nat) (f : nat -> nat -> F) : tensor :=
  tab [n; m] (fun idx => match idx with [i; j] => f i j | _ => 0 end).
(** 3d results, e.g. singd/structures/blockdiagonal.py:132. *)
Definition tab3 (n m l : nat) (f : nat -> nat -> nat -> F) : tensor :=
  tab [n; m; l] (fun idx => match idx with [i; j; k] => f i j k | _ => 0 end).

(** [t[i]], e.g. singd/structures/triltoeplitz.py:192. *)
Definition get1 (t : tensor) (i : nat) : F := tget t [i].
(** [t[i, j]], e.g. singd/structures/utils.py:135. *)
Definition get2 (t : tensor) (i j : nat) : F := tget t [i; j].
(** [t[i, j, k]], e.g. singd/structures/blockdiagonal.py:151-152. *)
Definition get3 (t : tensor) (i j k : nat) : F := tget t [i; j; k].

(** [t.ndim], [t.numel()]. E.g. singd/structures/blockdiagonal.py:89, 98. *)
Definition ndim (t : tensor) : nat := length (shape t).
(** [t.numel()], e.g. singd/structures/base.py:358. *)
Definition numel (t : tensor) : nat := prod (shape t).

(** [t.shape[k]]; IndexError if there is no such axis. E.g. singd/structures/blockdiagonal.py:123, 142-143. *)
Definition dim_at (t : tensor) (k : nat) : res nat :=
  match nth_error (shape t) k with Some n => Ok n | None => Err IndexError end.

(** Comparison of shapes, e.g. singd/structures/hierarchical.py:120-124, recursive.py:169. *)
Definition shape_eqb (s1 s2 : list nat) : bool := if list_eq_dec Nat.eq_dec s1 s2 then true else false.

(** Sum of the values of [f] at 0, ..., n-1. E.g. in [@], singd/structures/base.py:103. *)
Fixpoint sum (n : nat) (f : nat -> F) : F :=
  match n with
  | O => 0
  | Datatypes.S k => sum k f + f k
  end.

(** Sum over all multi-indices of a shape ([t.sum()]). E.g. singd/structures/hierarchical.py:338-340. *)
Definition tsum (t : tensor) : F := sum (numel t) (fun k => nth k (data t) 0).

(** ** Creation *)

(** [torch.zeros], [torch.ones], [torch.eye] ([supported_eye],
    singd/structures/utils.py:32-51; the dtype round trip is exact for 0/1). *)
Definition zeros (s : list nat) : tensor := tab s (fun _ => 0).
(** [torch.ones], e.g. singd/structures/diagonal.py:246. *)
Definition ones (s : list nat) : tensor := tab s (fun _ => 1).
(** [supported_eye], singd/structures/utils.py:32-51. *)
Definition eye (n : nat) : tensor := tab2 n n (fun i j => if Nat.eqb i j then 1 else 0).

(** ** Element-wise operations *)

(** Element-wise function of one tensor, e.g. singd/structures/diagonal.py:89. *)
Definition t_map (f : F -> F) (t : tensor) : tensor := tab (shape t) (fun idx => f (tget t idx)).

(** Element-wise function of two tensors, e.g. singd/structures/diagonal.py:78. *)
Definition t_map2 (f : F -> F -> F) (a b : tensor) : res tensor :=
  if shape_eqb (shape a) (shape b)
  then Ok (tab (shape a) (fun idx => f (tget a idx) (tget b idx)))
  else Err RuntimeError.

(** [c * t], e.g. singd/structures/hierarchical.py:161, 163. *)
Definition t_scale (c : F) (t : tensor) : tensor := t_map (fun x => c * x) t.
(** [t / c], e.g. singd/structures/hierarchical.py:338-340. *)
Definition t_divs (t : tensor) (c : F) : tensor := t_map (fun x => x / c) t.
(** [a + b], e.g. singd/structures/diagonal.py:78. *)
Definition t_add (a b : tensor) : res tensor := t_map2 fadd a b.
(** [a * b], e.g. singd/structures/diagonal.py:67. *)
Definition t_mul (a b : tensor) : res tensor := t_map2 fmul a b.
(** [t ** 2], e.g. singd/structures/diagonal.py:146, 148. *)
Definition t_sq (t : tensor) : tensor := t_map (fun x => x * x) t.

(** [a.add_(b, alpha=alpha)]. singd/structures/base.py:195, singd/optim/optimizer.py:802, 811-814. *)
Definition t_add_alpha (a b : tensor) (alpha : F) : res tensor :=
  t_map2 (fun x y => x + alpha * y) a b.

(** ** 2d tensors *)

(** [t.shape[0]], [t.shape[1]], e.g. singd/structures/utils.py:68, 105-106. *)
Definition rows (t : tensor) : nat := nth 0 (shape t) O.
(** [t.shape[1]], e.g. singd/structures/utils.py:106. *)
Definition cols (t : tensor) : nat := nth 1 (shape t) O.
(** [t.ndim == 2], e.g. singd/structures/hierarchical.py:102, base.py:428. *)
Definition is2 (t : tensor) : bool := Nat.eqb (ndim t) 2.
(** [t.ndim == 1], e.g. singd/structures/hierarchical.py:102. *)
Definition is1 (t : tensor) : bool := Nat.eqb (ndim t) 1.

(** Matrix transpose, matrix product (mathematical). [t.T] and [@], e.g. singd/structures/base.py:209. *)
Definition tr (t : tensor) : tensor := tab2 (cols t) (rows t) (fun i j => get2 t j i).
(** The entries of [a @ b], e.g. singd/structures/base.py:103. *)
Definition mm (a b : tensor) : tensor :=
  tab2 (rows a) (cols b) (fun i j => sum (cols a) (fun k => get2 a i k * get2 b k j)).

(** [a @ b] on 2d tensors. E.g. singd/structures/base.py:103, 106, 209, 297, 314. *)
Definition t_matmul (a b : tensor) : res tensor :=
  if is2 a && is2 b && Nat.eqb (cols a) (rows b) then Ok (mm a b) else Err RuntimeError.

(** Python slicing [t[r0:r1, c0:c1]] of a 2d tensor; bounds are clamped.
    E.g. singd/structures/hierarchical.py:160-164, recursive.py:200-203. *)
Definition clamp (n a : nat) : nat := Nat.min a n.
(** [t[r0:r1, c0:c1]], e.g. singd/structures/hierarchical.py:160-164, recursive.py:200-203. *)
Definition t_slice2 (t : tensor) (r0 r1 c0 c1 : nat) : res tensor :=
  if is2 t then
    let r0 := clamp (rows t) r0 in let r1 := clamp (rows t) r1 in
    let c0 := clamp (cols t) c0 in let c1 := clamp (cols t) c1 in
    Ok (tab2 (r1 - r0) (c1 - c0) (fun i j => get2 t (r0 + i) (c0 + j)))
  else Err IndexError.

(** Python slicing [t[a:b]] of a 1d tensor. E.g. singd/structures/hierarchical.py:162, triltoeplitz.py:77-78. *)
Definition t_slice1 (t : tensor) (a b : nat) : res tensor :=
  if is1 t then
    let a := clamp (rows t) a in let b := clamp (rows t) b in
    Ok (tab1 (b - a) (fun i => get1 t (a + i)))
  else Err IndexError.

(** [t[r0:r1, c0:c1] = src].
    E.g. singd/structures/blockdiagonal.py:150-155, hierarchical.py:176-182, recursive.py:218. *)
Definition t_setslice2 (t : tensor) (r0 r1 c0 c1 : nat) (src : tensor) : res tensor :=
  if is2 t then
    let r0 := clamp (rows t) r0 in let r1 := clamp (rows t) r1 in
    let c0 := clamp (cols t) c0 in let c1 := clamp (cols t) c1 in
    if shape_eqb (shape src) [(r1 - r0)%nat; (c1 - c0)%nat] then
      Ok (tab2 (rows t) (cols t) (fun i j =>
            if Nat.leb r0 i && Nat.ltb i r1 && Nat.leb c0 j && Nat.ltb j c1
            then get2 src (i - r0) (j - c0) else get2 t i j))
    else Err RuntimeError
  else Err IndexError.

(** [idx = arange(a, b); t[idx, idx] = src] with a 1d [src]. singd/structures/hierarchical.py:178-179. *)
Definition t_setdiag (t : tensor) (a b : nat) (src : tensor) : res tensor :=
  if is2 t then
    if shape_eqb (shape src) [(b - a)%nat] then
      if Nat.leb b (rows t) && Nat.leb b (cols t) || Nat.leb b a then
        Ok (tab2 (rows t) (cols t) (fun i j =>
              if Nat.eqb i j && Nat.leb a i && Nat.ltb i b then get1 src (i - a) else get2 t i j))
      else Err IndexError
    else Err RuntimeError
  else Err IndexError.

(** [t.diag()]: diagonal of a 2d tensor, diagonal matrix of a 1d tensor.
    E.g. singd/structures/diagonal.py:105, 113, base.py:323. *)
Definition t_diag (t : tensor) : res tensor :=
  match shape t with
  | [n] => Ok (tab2 n n (fun i j => if Nat.eqb i j then get1 t i else 0))
  | [n; m] => Ok (tab1 (Nat.min n m) (fun i => get2 t i i))
  | _ => Err RuntimeError
  end.

(** [t.split([a, b])] and [t.split([a, b, c])] along the rows of a 2d tensor,
    [t.split([a, b], dim=1)] along the columns. singd/structures/blockdiagonal.py:183-185, 297. *)
Definition t_split2 (t : tensor) (a b : nat) : res (tensor * tensor) :=
  if is2 t && Nat.eqb (a + b) (rows t) then
    Ok (tab2 a (cols t) (fun i j => get2 t i j), tab2 b (cols t) (fun i j => get2 t (a + i) j))
  else Err RuntimeError.
(** [t.split([a, b, c])], singd/structures/hierarchical.py:203-205, 276, 320. *)
Definition t_split3 (t : tensor) (a b c : nat) : res (tensor * tensor * tensor) :=
  if is2 t && Nat.eqb (a + b + c) (rows t) then
    Ok (tab2 a (cols t) (fun i j => get2 t i j),
        tab2 b (cols t) (fun i j => get2 t (a + i) j),
        tab2 c (cols t) (fun i j => get2 t (a + b + i) j))
  else Err RuntimeError.
(** [t.split([a, b], dim=1)], singd/structures/hierarchical.py:200, 219, 278, 314. *)
Definition t_split2c (t : tensor) (a b : nat) : res (tensor * tensor) :=
  if is2 t && Nat.eqb (a + b) (cols t) then
    Ok (tab2 (rows t) a (fun i j => get2 t i j), tab2 (rows t) b (fun i j => get2 t i (a + j)))
  else Err RuntimeError.

(** [cat([a, b])] along rows / [cat([a, b], dim=1)] along columns (2d).
    singd/structures/blockdiagonal.py:208, hierarchical.py:211, 293. *)
Definition t_cat0 (a b : tensor) : res tensor :=
  if is2 a && is2 b && Nat.eqb (cols a) (cols b) then
    Ok (tab2 (rows a + rows b) (cols a) (fun i j =>
          if Nat.ltb i (rows a) then get2 a i j else get2 b (i - rows a) j))
  else Err RuntimeError.
(** [cat([a, b], dim=1)], singd/structures/hierarchical.py:220-228, 322, singd/optim/utils.py:173, 202, optimizer.py:690. *)
Definition t_cat1 (a b : tensor) : res tensor :=
  if is2 a && is2 b && Nat.eqb (rows a) (rows b) then
    Ok (tab2 (rows a) (cols a + cols b) (fun i j =>
          if Nat.ltb j (cols a) then get2 a i j else get2 b i (j - cols a)))
  else Err RuntimeError.
(** [cat([a, b])] of 1d tensors. singd/structures/triltoeplitz.py:139, 163, triutoeplitz.py:139, 161. *)
Definition t_cat (a b : tensor) : res tensor :=
  if is1 a && is1 b then
    Ok (tab1 (rows a + rows b) (fun i => if Nat.ltb i (rows a) then get1 a i else get1 b (i - rows a)))
  else Err RuntimeError.

(** [t.sum(0)], [t.sum(1)] of a 2d tensor. singd/structures/hierarchical.py:316. *)
Definition t_sum0 (t : tensor) : res tensor :=
  if is2 t then Ok (tab1 (cols t) (fun j => sum (rows t) (fun i => get2 t i j))) else Err IndexError.
(** [t.sum(1)], singd/structures/diagonal.py:148, 161, hierarchical.py:323. *)
Definition t_sum1 (t : tensor) : res tensor :=
  if is2 t then Ok (tab1 (rows t) (fun i => sum (cols t) (fun j => get2 t i j))) else Err IndexError.

(** [t.mean()] (for an empty tensor PyTorch returns NaN, the model 0/0).
    singd/structures/base.py:323, diagonal.py:181. *)
Definition t_mean (t : tensor) : F := tsum t / fofnat (numel t).

(** [t.reshape(s)]: same data, other shape. *)
Lemma reshape_ok (t : tensor) (s : list nat) :
  Nat.eqb (numel t) (prod s) = true -> Nat.eqb (length (data t)) (prod s) = true.
Proof.
  intros H. pose proof (tok t) as K. apply Nat.eqb_eq in H, K. apply Nat.eqb_eq.
  unfold numel in H. congruence.
Qed.

(** [t.reshape(s)]: same data, other shape; singd/structures/blockdiagonal.py:130, singd/optim/optimizer.py:726-730. *)
Definition t_reshape (t : tensor) (s : list nat) : res tensor :=
  match bool_dec (Nat.eqb (numel t) (prod s)) true with
  | left H => Ok (mkT s (data t) (reshape_ok t s H))
  | right _ => Err RuntimeError
  end.

(** [torch.block_diag(a, c)] of 2d tensors. singd/structures/recursive.py:215, 353. *)
Definition t_block_diag (a c : tensor) : res tensor :=
  if is2 a && is2 c then
    Ok (tab2 (rows a + rows c) (cols a + cols c) (fun i j =>
          if Nat.ltb i (rows a) then (if Nat.ltb j (cols a) then get2 a i j else 0)
          else (if Nat.ltb j (cols a) then 0 else get2 c (i - rows a) (j - cols a))))
  else Err RuntimeError.

(** ** einsum patterns used by the code *)

(** [einsum("nij,njk->nik", a, b)], singd/structures/blockdiagonal.py:193-197,211. *)
Definition e_nij_njk (a b : tensor) : res tensor :=
  match shape a, shape b with
  | [n; i; j], [n'; j'; k] =>
      if Nat.eqb n n' && Nat.eqb j j'
      then Ok (tab3 n i k (fun x r c => sum j (fun q => get3 a x r q * get3 b x q c)))
      else Err RuntimeError
  | _, _ => Err RuntimeError
  end.

(** [einsum("nij,nkj->nik", a, b)], singd/structures/blockdiagonal.py:276,300. *)
Definition e_nij_nkj (a b : tensor) : res tensor :=
  match shape a, shape b with
  | [n; i; j], [n'; k; j'] =>
      if Nat.eqb n n' && Nat.eqb j j'
      then Ok (tab3 n i k (fun x r c => sum j (fun q => get3 a x r q * get3 b x c q)))
      else Err RuntimeError
  | _, _ => Err RuntimeError
  end.

(** [einsum("nii->", a)], singd/structures/blockdiagonal.py:313. *)
Definition e_nii (a : tensor) : res F :=
  match shape a with
  | [n; i; i'] =>
      if Nat.eqb i i' then Ok (sum n (fun x => sum i (fun q => get3 a x q q))) else Err RuntimeError
  | _ => Err RuntimeError
  end.

(** [einsum("i,ij->ij", c, m)], singd/structures/hierarchical.py:209,286;
    on 2d tensors also ["i,i...->i..."], singd/structures/diagonal.py:65.
    einsum broadcasts an axis of size 1. *)
Definition e_i_ij (c m : tensor) : res tensor :=
  match shape c, shape m with
  | [n], [n'; k] =>
      if Nat.eqb n n' || Nat.eqb n 1 || Nat.eqb n' 1 then
        Ok (tab2 (if Nat.eqb n 1 then n' else n) k (fun i j =>
              get1 c (if Nat.eqb n 1 then O else i) * get2 m (if Nat.eqb n' 1 then O else i) j))
      else Err RuntimeError
  | _, _ => Err RuntimeError
  end.

(** [einsum("ij,j->ij", m, c)], singd/structures/hierarchical.py:218,224. *)
Definition e_ij_j (m c : tensor) : res tensor :=
  match shape m, shape c with
  | [k; n'], [n] => if Nat.eqb n n' then Ok (tab2 k n (fun i j => get2 m i j * get1 c j)) else Err RuntimeError
  | _, _ => Err RuntimeError
  end.

(** ** 1d helpers *)

(** [t.flip(0)] of a 1d tensor. singd/structures/triltoeplitz.py:78, 140, 147. *)
Definition t_flip (t : tensor) : res tensor :=
  if is1 t then Ok (tab1 (rows t) (fun i => get1 t (rows t - 1 - i))) else Err IndexError.

(** [pad(t, (k, 0))] of a 1d tensor. singd/structures/triltoeplitz.py:146, triutoeplitz.py:144. *)
Definition t_pad_left (t : tensor) (k : nat) : res tensor :=
  if is1 t then
    Ok (tab1 (k + rows t) (fun i => if Nat.ltb i k then 0 else get1 t (i - k)))
  else Err RuntimeError.

(** [zeros(n - 1)]: RuntimeError for n = 0 (negative size).
    singd/structures/triltoeplitz.py:140, 163, triutoeplitz.py:139, 161. *)
Definition t_zeros_pred (n : nat) : res tensor :=
  match n with O => Err RuntimeError | Datatypes.S k => Ok (zeros [k]) end.

(** [conv1d(input, weight, padding=p, groups=g)] with an un-batched input of
    shape [C_in, L] and a weight of shape [C_out, C_in/g, K]; stride and
    dilation 1. singd/structures/utils.py:112, triltoeplitz.py:148, triutoeplitz.py:146. *)
Definition t_conv1d (input weight : tensor) (p g : nat) : res tensor :=
  match shape input, shape weight with
  | [cin; l], [cout; cpg; k] =>
      if negb (Nat.eqb g 0) && Nat.eqb (cpg * g) cin && Nat.eqb (cout mod g) 0
         && negb (Nat.eqb k 0) && Nat.leb k (l + 2 * p)
      then
        Ok (tab2 cout (l + 2 * p - k + 1) (fun co o =>
              sum cpg (fun ci => sum k (fun q =>
                get3 weight co ci q *
                (if Nat.ltb (o + q) p then 0
                 else if Nat.ltb (o + q - p) l
                      then get2 input (co / (cout / g) * cpg + ci) (o + q - p)
                      else 0)))))
      else Err RuntimeError
  | _, _ => Err RuntimeError
  end.

(** [zeros(n).scatter_add_(0, idx, src)]. singd/structures/utils.py:78. *)
Definition t_scatter_add (n : nat) (idx : list nat) (src : list F) : res tensor :=
  if Nat.eqb (length idx) (length src) && forallb (fun i => Nat.ltb i n) idx then
    Ok (tab1 n (fun k => sum (length src) (fun e =>
                 if Nat.eqb (nth e idx O) k then nth e src 0 else 0)))
  else Err RuntimeError.

(** [t.abs().max()]; RuntimeError on an empty tensor. singd/structures/base.py:358. *)
Definition t_absmax (t : tensor) : res F :=
  match data t with
  | [] => Err RuntimeError
  | x :: l => Ok (fold_left (fun m y => fmax m (fabs y)) l (fabs x))
  end.

End Tensor.
