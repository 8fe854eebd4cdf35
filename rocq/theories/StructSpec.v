(** Specification of the structured matrix classes: which matrix an object
    represents, which objects are well-formed, and which structured matrix a class
    extracts from a dense matrix.  Written from the class docstrings,
    independently of [to_dense] and [from_dense]. *)

From Coq Require Import List Arith Lia Bool.
From Verif Require Import Scalar Res Tensor Structures.
Import ListNotations.

(** Where a recursive class splits a matrix of dimension [n]: the component with a
    maximum dimension takes as much as it may. *)
Definition boundary (n : nat) (ma mc : ext) : nat :=
  match ma, mc with
  | Inf, Fin c => n - Nat.min n c
  | Fin a, Inf => Nat.min n a
  | _, _ => 0
  end.

(** Sensible class descriptors: positive block size; exactly one of the two
    maximum dimensions of a recursive class is infinite. *)
Fixpoint cls_ok (c : cls) : Prop :=
  match c with
  | CBlock D => D <> 0
  | CRec _ ma mc a c =>
      match ma, mc with Inf, Fin _ | Fin _, Inf => cls_ok a /\ cls_ok c | _, _ => False end
  | _ => True
  end.

(** No Toeplitz part has dimension 0. *)
Fixpoint dim_ok (c : cls) (n : nat) : Prop :=
  match c with
  | CTril | CTriu => n <> 0
  | CRec _ ma mc a c => dim_ok a (boundary n ma mc) /\ dim_ok c (n - boundary n ma mc)
  | _ => True
  end.

(** No hierarchical class below the recursive templates. *)
Fixpoint hier_free (c : cls) : Prop :=
  match c with
  | CHier _ _ => False
  | CRec _ _ _ a c => hier_free a /\ hier_free c
  | _ => True
  end.
Definition no_nested_hier (c : cls) : Prop :=
  match c with CHier _ _ => True | _ => hier_free c end.

Section Spec.
Context {SC : Scalar}.
Open Scope F_scope.

(** Dimension of the represented (square) matrix. *)
Fixpoint sdim (s : smat) : nat :=
  match s with
  | MDense t | MDiag t | MTril t | MTriu t => rows t
  | MBlock D b l => rows b * D + rows l
  | MHier _ _ A _ C _ E => rows A + rows C + rows E
  | MRec _ _ _ _ _ A _ C => sdim A + sdim C
  end.

(** Entry (i, j) of the represented matrix. *)
Fixpoint ent (s : smat) (i j : nat) : F :=
  match s with
  | MDense t => get2 t i j
  | MDiag t => if Nat.eqb i j then get1 t i else 0
  | MBlock D b l =>
      (* block number i / D; the last one is smaller *)
      if Nat.eqb (i / D) (j / D) then
        if Nat.ltb (i / D) (rows b) then get3 b (i / D) (i mod D) (j mod D)
        else get2 l (i - rows b * D) (j - rows b * D)
      else 0
  | MHier _ _ A B C D E =>
      (* [ A  B  B ]
         [ 0  C  0 ]   (C diagonal)
         [ 0  D  E ] *)
      let K1 := rows A in let d := rows C in
      if Nat.ltb i K1 then
        if Nat.ltb j K1 then get2 A i j else get2 B i (j - K1)
      else if Nat.ltb i (K1 + d) then
        if Nat.eqb i j then get1 C (i - K1) else 0
      else
        if Nat.ltb j K1 then 0
        else if Nat.ltb j (K1 + d) then get2 D (i - K1 - d) (j - K1)
        else get2 E (i - K1 - d) (j - K1 - d)
  | MTril d => if Nat.leb j i then get1 d (i - j) else 0
  | MTriu d => if Nat.leb i j then get1 d (j - i) else 0
  | MRec sd _ _ _ _ A B C =>
      (* [ A  B ]      [ A  0 ]
         [ 0  C ]  or  [ B  C ] *)
      let k := sdim A in
      match sd with
      | TopRight =>
          if Nat.ltb i k then (if Nat.ltb j k then ent A i j else get2 B i (j - k))
          else (if Nat.ltb j k then 0 else ent C (i - k) (j - k))
      | BottomLeft =>
          if Nat.ltb i k then (if Nat.ltb j k then ent A i j else 0)
          else (if Nat.ltb j k then get2 B (i - k) j else ent C (i - k) (j - k))
      end
  end.

(** The partition of dimension [n] in the hierarchical class: as much of the leading k1 and of the trailing k2
    as there is (in this order), the rest in between. *)
Definition hier_parts (k1 k2 n : nat) : nat * nat * nat := (Nat.min k1 n, n - k1 - k2, Nat.min k2 (n - k1))%nat.

(** The object is of class [c] and represents an n x n matrix, partitioned the way
    the class partitions dimension [n]. *)
Fixpoint valid (c : cls) (n : nat) (s : smat) {struct c} : Prop :=
  match c, s with
  | CDense, MDense t => shape t = [n; n]
  | CDiag, MDiag t => shape t = [n]
  | CBlock D, MBlock D' b l =>
      D' = D /\ shape b = [n / D; D; D]%nat /\ shape l = [n mod D; n mod D]%nat
  | CHier k1 k2, MHier k1' k2' A B C D E =>
      k1' = k1 /\ k2' = k2 /\
      exists K1 d K2, hier_parts k1 k2 n = (K1, d, K2) /\
        shape A = [K1; K1] /\ shape B = [K1; (d + K2)%nat] /\ shape C = [d] /\
        shape D = [K2; d] /\ shape E = [K2; K2]
  | CTril, MTril t => shape t = [n]
  | CTriu, MTriu t => shape t = [n]
  | CRec sd ma mc ca cc, MRec sd' ma' mc' ca' cc' A B C =>
      sd' = sd /\ ma' = ma /\ mc' = mc /\ ca' = ca /\ cc' = cc /\
      let k := boundary n ma mc in
      valid ca k A /\ valid cc (n - k) C /\
      shape B = match sd with TopRight => [k; (n - k)%nat] | BottomLeft => [(n - k)%nat; k] end
  | _, _ => False
  end.

(** Average of the k-th diagonals above and below the main diagonal, added up
    (just the average for the main diagonal). *)
Definition diag_avg (n : nat) (M : nat -> nat -> F) (k : nat) : F :=
  match k with
  | O => sum n (fun r => M r r) / fofnat n
  | _ => sum (n - k) (fun r => M r (r + k)%nat + M (r + k)%nat r) / fofnat (n - k)
  end.

(** The structured approximation a class extracts from the n x n matrix [M].  For a
    symmetric [M], [M i j + M j i] is twice the off-diagonal entry. *)
Fixpoint proj (c : cls) (n : nat) (M : nat -> nat -> F) (i j : nat) : F :=
  match c with
  | CDense => M i j
  | CDiag => if Nat.eqb i j then M i j else 0
  | CBlock D => if Nat.eqb (i / D) (j / D) then M i j else 0
  | CHier k1 k2 =>
      let '(K1, d, K2) := hier_parts k1 k2 n in
      if Nat.ltb i K1 then
        if Nat.ltb j K1 then M i j else (1 + 1) * M i j
      else if Nat.ltb i (K1 + d) then
        if Nat.eqb i j then M i j else 0
      else
        if Nat.ltb j K1 then 0
        else if Nat.ltb j (K1 + d) then (1 + 1) * M i j
        else M i j
  | CTril => if Nat.leb j i then diag_avg n M (i - j) else 0
  | CTriu => if Nat.leb i j then diag_avg n M (j - i) else 0
  | CRec sd ma mc ca cc =>
      let k := boundary n ma mc in
      if Nat.ltb i k then
        if Nat.ltb j k then proj ca k M i j
        else match sd with TopRight => M i j + M j i | BottomLeft => 0 end
      else
        if Nat.ltb j k then match sd with TopRight => 0 | BottomLeft => M i j + M j i end
        else proj cc (n - k) (fun i j => M (k + i) (k + j))%nat (i - k) (j - k)
  end.

(** The matrix has the structure of class [c]. *)
Fixpoint pattern (c : cls) (n : nat) (M : nat -> nat -> F) : Prop :=
  match c with
  | CDense => True
  | CDiag => forall i j, i < n -> j < n -> i <> j -> M i j = 0
  | CBlock D => forall i j, i < n -> j < n -> (i / D <> j / D)%nat -> M i j = 0
  | CHier k1 k2 =>
      let '(K1, d, K2) := hier_parts k1 k2 n in
      forall i j, i < n -> j < n -> K1 <= i ->
        (j < K1 \/ i < K1 + d /\ i <> j) -> M i j = 0
  | CTril => exists d, forall i j, i < n -> j < n -> M i j = if Nat.leb j i then d (i - j)%nat else 0
  | CTriu => exists d, forall i j, i < n -> j < n -> M i j = if Nat.leb i j then d (j - i)%nat else 0
  | CRec sd ma mc ca cc =>
      let k := boundary n ma mc in
      pattern ca k M /\ pattern cc (n - k) (fun i j => M (k + i) (k + j))%nat /\
      match sd with
      | TopRight => forall i j, k <= i -> i < n -> j < k -> M i j = 0
      | BottomLeft => forall i j, i < k -> k <= j -> j < n -> M i j = 0
      end
  end.

End Spec.
