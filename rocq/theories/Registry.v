(** The objects of singd/structures: registration of tensors and substructures under names, and the in-place operations as loops
    over [named_tensors] that change tensors where they are.

    Structures.v models a matrix as the value of its tensors.  Here an object holds references to tensors, and a heap holds their
    values, so that tensors can be shared between objects or registered twice.
    SIMPLIFICATION: of the attributes every Python object has, only those listed below; a substructure is a part of the object that
    contains it, not a reference. *)

From Coq Require Import List Arith Bool String.
From Verif Require Import Scalar Res Tensor Structures OptimUtils Optimizer.
Import ListNotations.

(** An instance: its class, the names of plain attributes ([self.K1 = ...], hierarchical.py:110-113), the registered tensors and
    substructures by attribute name ([setattr], base.py:73, recursive.py:39), and the two lists of names
    (base.py:57, recursive.py:23). *)
Inductive obj : Type :=
| Obj (k : cls) (plain : list string) (tattr : list (string * nat)) (sattr : list (string * obj)) (tnames snames : list string).

(** [self._tensor_names], base.py:57. *)
Definition o_tnames (o : obj) : list string := match o with Obj _ _ _ _ tn _ => tn end.
(** [self._substructure_names], recursive.py:23. *)
Definition o_snames (o : obj) : list string := match o with Obj _ _ _ _ _ sn => sn end.

Open Scope string_scope.

(** The attributes of [object] (base.py:17, the class statement). *)
Definition object_attrs : list string :=
  ["__class__"; "__delattr__"; "__dict__"; "__dir__"; "__doc__"; "__eq__"; "__format__"; "__ge__"; "__getattribute__"; "__gt__"; "__hash__";
   "__init__"; "__init_subclass__"; "__le__"; "__lt__"; "__module__"; "__ne__"; "__new__"; "__reduce__"; "__reduce_ex__"; "__repr__";
   "__setattr__"; "__sizeof__"; "__str__"; "__subclasshook__"; "__weakref__"].

(** The attributes of [StructuredMatrix], base.py:17-437; [ABC] adds [__abstractmethods__] and [_abc_impl]. *)
Definition base_attrs : list string :=
  ["WARN_NAIVE"; "WARN_NAIVE_EXCEPTIONS"; "register_tensor"; "named_tensors"; "__matmul__"; "from_dense"; "to_dense"; "__mul__"; "mul_"; "__add__";
   "add_"; "rmatmat"; "_warn_naive_implementation"; "all_reduce"; "from_inner"; "from_mat_inner"; "from_inner2"; "average_trace"; "diag_add_";
   "infinity_vector_norm"; "frobenius_norm"; "zeros"; "eye"; "_check_square"; "__abstractmethods__"; "_abc_impl"; "__annotations__"; "__slots__"].

(** Further attributes of the classes: blockdiagonal.py:67, hierarchical.py:76-77, 430, recursive.py:25, 61, 140-142, 278-280. *)
Definition class_attrs (k : cls) : list string :=
  object_attrs ++ base_attrs ++
  match k with
  | CBlock _ => ["BLOCK_DIM"]
  | CHier _ _ => ["MAX_K1"; "MAX_K2"; "_compute_block_dims"]
  | CRec _ _ _ _ _ => ["register_substructure"; "named_substructures"; "MAX_DIMS"; "CLS_A"; "CLS_C"]
  | _ => []
  end.

(** [hasattr(self, name)], base.py:70, recursive.py:36. *)
Definition hasattr (o : obj) (name : string) : bool :=
  match o with
  | Obj k plain ta sa _ _ => existsb (String.eqb name) (map fst ta ++ map fst sa ++ plain ++ class_attrs k)
  end.

(** Attribute access to a registered tensor, base.py:83, recursive.py:55. *)
Definition assoc {A} (name : string) (l : list (string * A)) : option A :=
  match find (fun p => String.eqb name (fst p)) l with Some p => Some (snd p) | None => None end.
(** [getattr(self, name)] for a registered tensor, base.py:83, recursive.py:55. *)
Definition get_tensor (o : obj) (name : string) : option nat := match o with Obj _ _ ta _ _ _ => assoc name ta end.
(** [getattr(self, name)] for a registered substructure, recursive.py:68. *)
Definition get_sub (o : obj) (name : string) : option obj := match o with Obj _ _ _ sa _ _ => assoc name sa end.

(** [register_tensor], base.py:59-74. *)
Definition register_tensor (a : nat) (name : string) : SM obj unit :=
  fun o => if hasattr o name then (o, Err ValueError)
           else match o with Obj k plain ta sa tn sn => (Obj k plain (ta ++ [(name, a)]) sa (tn ++ [name]) sn, Ok tt) end.

(** [register_substructure], recursive.py:25-40. *)
Definition register_substructure (s : obj) (name : string) : SM obj unit :=
  fun o => if hasattr o name then (o, Err ValueError)
           else match o with Obj k plain ta sa tn sn => (Obj k plain ta (sa ++ [(name, s)]) tn (sn ++ [name]), Ok tt) end.

(** A new instance: [super().__init__()] sets the list(s) of names (base.py:57, recursive.py:22-23); the plain attributes of
    hierarchical matrices, hierarchical.py:110-113. *)
Definition new_obj (k : cls) : obj :=
  Obj k ("_tensor_names" :: match k with
                            | CHier _ _ => ["K1"; "K2"; "diag_dim"; "dim"]
                            | CRec _ _ _ _ _ => ["_substructure_names"]
                            | _ => [] end) [] [] [] [].

(** The tensors and matrices handed to the constructors, by reference: the arguments of dense.py:25, diagonal.py:40, blockdiagonal.py:69,
    hierarchical.py:79, triltoeplitz.py:47, triutoeplitz.py:47, recursive.py:144, 282. *)
Inductive rmat : Type :=
| RDense (mat : nat)
| RDiag (mat_diag : nat)
| RBlock (D : nat) (blocks last : nat)
| RHier (k1 k2 : nat) (A B C D E : nat)
| RTril (lower_diags : nat)
| RTriu (upper_diags : nat)
| RRec (sd : side) (ma mc : ext) (ca cc : cls) (A : rmat) (B : nat) (C : rmat).

(** The class of the object. The constructors of [rmat] cite the files. *)
Definition rcls (r : rmat) : cls :=
  match r with
  | RDense _ => CDense
  | RDiag _ => CDiag
  | RBlock D _ _ => CBlock D
  | RHier k1 k2 _ _ _ _ _ => CHier k1 k2
  | RTril _ => CTril
  | RTriu _ => CTriu
  | RRec sd ma mc ca cc _ _ _ => CRec sd ma mc ca cc
  end.

(** The registrations of the constructors: dense.py:35-37, diagonal.py:46-48, blockdiagonal.py:106-110, hierarchical.py:130-143,
    triltoeplitz.py:54-56, triutoeplitz.py:54-56, recursive.py:178-185, 316-323.  The checks before them are in Structures.v. *)
Fixpoint construct (r : rmat) : res obj :=
  let regs (f : SM obj unit) : res obj := match f (new_obj (rcls r)) with (o, Ok _) => Ok o | (_, Err e) => Err e end in
  match r with
  | RDense t => regs (register_tensor t "_mat")
  | RDiag t => regs (register_tensor t "_mat_diag")
  | RBlock _ b l => regs (let! _ := register_tensor b "_blocks" in register_tensor l "_last")
  | RHier _ _ A B C D E =>
      regs (let! _ := register_tensor A "A" in let! _ := register_tensor B "B" in let! _ := register_tensor C "C" in
            let! _ := register_tensor D "D" in register_tensor E "E")
  | RTril t => regs (register_tensor t "_lower_diags")
  | RTriu t => regs (register_tensor t "_upper_diags")
  | RRec _ _ _ _ _ A B C =>
      let* oA := construct A in
      let* oC := construct C in
      regs (let! _ := register_substructure oA "A" in let! _ := register_tensor B "B" in register_substructure oC "C")
  end.

(** The own tensors, [named_tensors(include_substructures=False)], base.py:76-83, recursive.py:54-55. *)
Definition own_tensors (o : obj) : list (string * nat) :=
  flat_map (fun n => match get_tensor o n with Some a => [(n, a)] | None => [] end) (o_tnames o).

(** [named_tensors], base.py:76-83 and recursive.py:42-59: own tensors first, then those of the substructures; the substructure's name
    comes last (L59). *)
Fixpoint named_tensors (o : obj) : list (string * nat) :=
  match o with
  | Obj k plain ta sa tn sn =>
      let subs := map (fun p => (fst p, named_tensors (snd p))) sa in
      own_tensors o ++
      flat_map (fun subname => match assoc subname subs with
                               | Some l => map (fun p => (fst p ++ "." ++ subname, snd p)) l
                               | None => [] end) sn
  end.

Section Heap.
Context {SC : Scalar}.
Open Scope F_scope.

(** [tensor.mul_(value)] and other in-place changes of one tensor, base.py:165, 196. *)
Definition put (a : nat) (t : tensor) (h : nat -> tensor) : nat -> tensor := fun b => if Nat.eqb b a then t else h b.

(** The loop of [mul_], base.py:164-165. *)
Definition h_mul (o : obj) (value : F) (h : nat -> tensor) : nat -> tensor :=
  fold_left (fun h p => put (snd p) (t_map (fun x => x * value) (h (snd p))) h) (named_tensors o) h.

(** One iteration of the loop of [add_], base.py:196. *)
Definition h_add1 (alpha : F) (p : (string * nat) * (string * nat)) : SM (nat -> tensor) unit :=
  fun h => match t_add_alpha (h (snd (fst p))) (h (snd (snd p))) alpha with
           | Ok t => (put (snd (fst p)) t h, Ok tt)
           | Err e => (h, Err e)
           end.

(** The loop of [add_], base.py:193-196. *)
Definition h_add (o other : obj) (alpha : F) : SM (nat -> tensor) unit := forS (h_add1 alpha) (combine (named_tensors o) (named_tensors other)).

(** The matrix that an object represents at the moment; the classes are those of Structures.v. base.py:76-83. *)
Fixpoint seen_as (h : nat -> tensor) (r : rmat) : smat :=
  match r with
  | RDense t => MDense (h t)
  | RDiag t => MDiag (h t)
  | RBlock D b l => MBlock D (h b) (h l)
  | RHier k1 k2 A B C D E => MHier k1 k2 (h A) (h B) (h C) (h D) (h E)
  | RTril t => MTril (h t)
  | RTriu t => MTriu (h t)
  | RRec sd ma mc ca cc A B C => MRec sd ma mc ca cc (seen_as h A) (h B) (seen_as h C)
  end.
End Heap.
