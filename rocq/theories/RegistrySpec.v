(** Specification: names of the components of a structured matrix and what in-place operations may touch. *)

From Coq Require Import List Arith Bool String Ascii.
From Verif Require Import Scalar Res Tensor Structures Registry.
Import ListNotations.
Open Scope string_scope.

(** The names under which the components of a matrix of a class are listed. *)
Fixpoint component_names (k : cls) : list string :=
  match k with
  | CDense => ["_mat"]
  | CDiag => ["_mat_diag"]
  | CBlock _ => ["_blocks"; "_last"]
  | CHier _ _ => ["A"; "B"; "C"; "D"; "E"]
  | CTril => ["_lower_diags"]
  | CTriu => ["_upper_diags"]
  | CRec _ _ _ a c => "B" :: map (fun n => n ++ ".A") (component_names a) ++ map (fun n => n ++ ".C") (component_names c)
  end.

(** All references of a matrix. *)
Fixpoint references (r : rmat) : list nat :=
  match r with
  | RDense t | RDiag t | RTril t | RTriu t => [t]
  | RBlock _ b l => [b; l]
  | RHier _ _ A B C D E => [A; B; C; D; E]
  | RRec _ _ _ _ _ A B C => B :: references A ++ references C
  end.

(** The parts of recursive matrices have the declared classes (recursive.py:161, 299). *)
Fixpoint declared (r : rmat) : Prop :=
  match r with
  | RRec _ _ _ ca cc A _ C => rcls A = ca /\ rcls C = cc /\ declared A /\ declared C
  | _ => True
  end.

(** The parts of a dotted name. *)
Fixpoint dotted (s : string) : list string :=
  match s with
  | EmptyString => [EmptyString]
  | String c s' =>
      if Ascii.eqb c "."%char then EmptyString :: dotted s'
      else match dotted s' with [] => [String c EmptyString] | x :: l => String c x :: l end
  end.

(** Access by attributes, first to last: [o.x.y.z]. *)
Fixpoint access (o : obj) (path : list string) : option nat :=
  match path with
  | [] => None
  | [n] => get_tensor o n
  | n :: path' => match get_sub o n with Some o' => access o' path' | None => None end
  end.

(** The objects that exist: a new instance, then any calls of [register_tensor] and [register_substructure], also failing ones. *)
Inductive reachable : obj -> Prop :=
| reach_new k : reachable (new_obj k)
| reach_tensor o a name : reachable o -> reachable (fst (register_tensor a name o))
| reach_sub o s name : reachable o -> reachable (fst (register_substructure s name o)).

(** A name is in use: for a tensor, a substructure, a plain attribute or something of the class. *)
Definition in_use (o : obj) (name : string) : Prop :=
  get_tensor o name <> None \/ get_sub o name <> None \/ match o with Obj k plain _ _ _ _ => In name plain \/ In name (class_attrs k) end.

(** The documented interface: what users call or read on a matrix of a class.  A component of this name would hide it. *)
Definition interface (k : cls) : list string :=
  ["register_tensor"; "named_tensors"; "from_dense"; "to_dense"; "mul_"; "add_"; "rmatmat"; "all_reduce"; "from_inner"; "from_mat_inner"; "from_inner2";
   "average_trace"; "diag_add_"; "infinity_vector_norm"; "frobenius_norm"; "zeros"; "eye"; "__matmul__"; "__mul__"; "__add__"; "__init__"; "__class__";
   "_check_square"; "_warn_naive_implementation"; "WARN_NAIVE"; "WARN_NAIVE_EXCEPTIONS"; "_tensor_names"] ++
  match k with
  | CBlock _ => ["BLOCK_DIM"]
  | CHier _ _ => ["MAX_K1"; "MAX_K2"; "_compute_block_dims"; "dim"; "K1"; "K2"; "diag_dim"]
  | CRec _ _ _ _ _ => ["register_substructure"; "named_substructures"; "MAX_DIMS"; "CLS_A"; "CLS_C"; "_substructure_names"]
  | _ => []
  end.
Definition class_of (o : obj) : cls := match o with Obj k _ _ _ _ _ => k end.
