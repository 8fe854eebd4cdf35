(** Specification vocabulary: the features of a layer in another orthonormal basis.  Not a model of code. *)

From Coq Require Import List Arith Bool ZArith.
From Verif Require Import Scalar Res Tensor Structures StructSpec OptimUtils Optimizer OptSpec.
Import ListNotations.

Section RotateSpec.
Context {SC : Scalar}.
Open Scope F_scope.

(** Orthogonal n x n matrices: Q^T Q = I = Q Q^T. *)
Definition orth (n : nat) (Q : mat) : Prop := eqm n (tmm n Q Q) ident /\ eqm n (mmt n Q Q) ident.

(** Q^T M Q. *)
Definition turn (n : nat) (Q M : mat) : mat := fun i j => sum n (fun a => sum n (fun b => Q a i * M a b * Q b j)).

(** Q with further coordinates left alone (the one of the bias). *)
Definition ext (n : nat) (Q : mat) : mat := fun i j => if (Nat.ltb i n && Nat.ltb j n)%bool then Q i j else ident i j.

(** [t @ Q]: the vectors along the last axis in new coordinates. *)
Definition rotl (Q : mat) (t : tensor) : tensor :=
  match shape t with
  | [] => t
  | _ => tab (shape t) (fun idx => sum (last (shape t) O) (fun k => tget t (removelast idx ++ [k]) * Q k (last idx O)))
  end.

(** [P.T @ W @ Q] for weights of linear layers and [P.T @ b] for biases. *)
Definition turnp (QP : mat * mat) (t : tensor) : tensor :=
  match shape t with
  | [r; k] => tab2 r k (fun i j => sum r (fun a => sum k (fun b => snd QP a i * get2 t a b * fst QP b j)))
  | [r] => tab1 r (fun i => sum r (fun a => snd QP a i * get1 t a))
  | _ => t
  end.
Definition turn_slot (QP : mat * mat) (p : pslot) : pslot :=
  mkP (turnp QP (p_val p)) (option_map (turnp QP) (p_grad p)) (option_map (turnp QP) (p_buf p)).

(** Bases of inputs and outputs: any orthonormal ones for linear layers, the given ones for convolutions. *)
Definition framed (l : layer) (QP : mat * mat) : Prop :=
  match l with
  | Linear d_in d_out _ => orth d_in (fst QP) /\ orth d_out (snd QP)
  | _ => QP = (ident, ident)
  end.

(** Extracting the structure commutes with the change of basis.  All orthogonal matrices for the dense structure, signed
    permutations for the diagonal one. *)
Definition stable (c : cls) (n : nat) (Q : mat) : Prop := forall M, eqm n (proj c n (turn n Q M)) (turn n Q (proj c n M)).

(** Two structures extract the same matrices, up to the change of basis.  Block-diagonal matrices are kept apart because the code
    multiplies with them where it multiplies with the transposes of the others (up to dimension one this makes no difference). *)
Definition blocks (c : cls) : bool := match c with CBlock _ => true | _ => false end.
Definition like (c c' : cls) (n : nat) : Prop := blocks c' = blocks c \/ (n <= 1)%nat.
Definition alike (c c' : cls) (n : nat) (Q : mat) : Prop := like c c' n /\ forall M, eqm n (proj c' n (turn n Q M)) (turn n Q (proj c n M)).

(** Groups that may differ in their structures only. *)
Definition same_but_structs (g g' : group) : Prop :=
  g' = mkGroup (g_params g) (g_lr g) (g_momentum g) (g_damping g) (g_alpha1 g) (g_wd g) (g_T g) (g_loss g) (g_lr_cov g)
         (g_structs g') (g_approx g) (g_kfac_like g) (g_normalize g).

(** The same call in the other bases: [fr] for layers, [fo] for output tensors, [fp] for parameters.  [NS]: groups assigned by the
    caller may ask for normalised momenta. *)
Definition turned_call (NS : bool) (fr : modul -> mat * mat) (fo : nat -> mat) (fp : nat -> mat * mat) (e e' : event) : Prop :=
  match e, e' with
  | EForward m x b out, EForward m' x' b' out' => m' = m /\ b' = b /\ out' = out /\ x' = rotl (fst (fr m)) x /\ fo out = snd (fr m)
  | EBackward out g, EBackward out' g' => out' = out /\ g' = rotl (fo out) g
  | EGrad p g, EGrad p' g' => p' = p /\ g' = option_map (turnp (fp p)) g
  | EGroups gs, EGroups gs' => Forall2 same_but_structs gs gs' /\ (NS = false -> Forall (fun g => g_normalize g = false) gs)
  | _, _ => e' = e
  end.

(** A structured matrix (or none) in the other basis. *)
Definition oturn (n : nat) (Q : mat) (o o' : option smat) : Prop :=
  match o, o' with
  | Some M, Some M' => eqm n (ent M') (turn n Q (ent M))
  | None, None => True
  | _, _ => False
  end.
Definition turned_slots (dK dC : nat) (QK QC : mat) (s s' : slots) : Prop :=
  oturn dK QK (sl_K s) (sl_K s') /\ oturn dC QC (sl_C s) (sl_C s') /\ oturn dK QK (sl_mK s) (sl_mK s') /\ oturn dC QC (sl_mC s) (sl_mC s') /\
  oturn dK QK (sl_HK s) (sl_HK s') /\ oturn dC QC (sl_HC s) (sl_HC s').

(** The same matrix (or none), whatever the structure that stores it. *)
Definition osame (n : nat) (o o' : option smat) : Prop :=
  match o, o' with
  | Some M, Some M' => eqm n (ent M') (ent M)
  | None, None => True
  | _, _ => False
  end.
Definition same_matrices (dK dC : nat) (s s' : slots) : Prop :=
  osame dK (sl_K s) (sl_K s') /\ osame dC (sl_C s) (sl_C s') /\ osame dK (sl_mK s) (sl_mK s') /\ osame dC (sl_mC s) (sl_mC s') /\
  osame dK (sl_HK s) (sl_HK s') /\ osame dC (sl_HC s) (sl_HC s').

(** At most one entry of every row and column is not zero; with [orth]: permutations with signs. *)
Definition monomial (n : nat) (Q : mat) : Prop :=
  forall i a b, (i < n)%nat -> (a < n)%nat -> (b < n)%nat -> a <> b -> Q a i * Q b i = 0 /\ Q i a * Q i b = 0.
(** Q does not mix the blocks of size D. *)
Definition blockwise (D n : nat) (Q : mat) : Prop := forall i j, (i < n)%nat -> (j < n)%nat -> (i / D <> j / D)%nat -> Q i j = 0.

(** The features in reverse order. *)
Definition mirror (n : nat) : mat := fun i j => if Nat.eqb (i + j + 1) n then 1 else 0.
(** Inputs and outputs of a layer in reverse order. *)
Definition reversed (m : modul) : mat * mat := match m_layer m with Linear d_in d_out _ => (mirror d_in, mirror d_out) | _ => (ident, ident) end.
(** Lower and upper triangular Toeplitz matrices change places; dense and diagonal ones stay. *)
Definition mirrored (c c' : cls) : Prop :=
  match c with CTril => c' = CTriu | CTriu => c' = CTril | CDense => c' = CDense | CDiag => c' = CDiag | _ => False end.
(** Structures that are the same in dimension n: all in dimension one, the dense and the hierarchical one up to its first block. *)
Definition coincide (c c' : cls) (n : nat) : Prop :=
  c' = c \/ (n = 1%nat /\ Forall (fun k => In k [CDense; CDiag; CBlock 30; CHier 15 15; CTril; CTriu]) [c; c']) \/
  ((n <= 15)%nat /\ Forall (fun k => In k [CDense; CHier 15 15]) [c; c']).

(** A linear layer applied to a vector. *)
Definition lin (n : nat) (W : tensor) (b : option tensor) (x : nat -> F) (i : nat) : F :=
  sum n (fun k => get2 W i k * x k) + match b with Some b => get1 b i | None => 0 end.

End RotateSpec.
