(** C67: components of structured matrices: names, registration, and the in-place operations on references. *)

From Coq Require Import List Arith ZArith QArith Qcanon Bool String Ascii Lia.
From Verif Require Import Scalar Res Tensor TensorFacts Structures OptimUtils Optimizer QEx Registry RegistrySpec RegistryFacts ProofRegistry.
Import ListNotations.
Open Scope nat_scope.
Open Scope string_scope.

(** Registration: a name in use is refused and nothing changes; a free name is afterwards bound to the tensor, is listed last, is in use,
    and nothing else changes. *)
Theorem C67_register : forall o name, reachable o ->
  (in_use o name -> forall a s, register_tensor a name o = (o, Err ValueError) /\ register_substructure s name o = (o, Err ValueError)) /\
  (~ in_use o name -> forall a, exists o', register_tensor a name o = (o', Ok tt) /\ get_tensor o' name = Some a /\
     own_tensors o' = (own_tensors o ++ [(name, a)])%list /\ in_use o' name /\
     (forall n, n <> name -> get_tensor o' n = get_tensor o n) /\ (forall n, get_sub o' n = get_sub o n) /\ o_snames o' = o_snames o) /\
  (~ in_use o name -> forall s, exists o', register_substructure s name o = (o', Ok tt) /\ get_sub o' name = Some s /\
     own_tensors o' = own_tensors o /\ o_snames o' = (o_snames o ++ [name])%list /\ in_use o' name /\
     (forall n, get_tensor o' n = get_tensor o n) /\ (forall n, n <> name -> get_sub o' n = get_sub o n)).
Proof. exact C67_register_lemma. Qed.
Print Assumptions C67_register.

(** A dense matrix: "_extra" is free, "_mat", "to_dense" and "_tensor_names" are in use. *)
Example C67_register_example : reachable reg_o /\ ~ in_use reg_o "_extra" /\ in_use reg_o "_mat" /\ in_use reg_o "to_dense" /\ in_use reg_o "_tensor_names" /\
  own_tensors (fst (register_tensor 8 "_extra" reg_o)) = [("_mat", 7); ("_extra", 8)] /\ snd (register_tensor 9 "_mat" reg_o) = Err ValueError.
Proof. exact C67_register_example_case. Qed.

(** The names of the documented interface of the class are refused at any time, for tensors and for substructures. *)
Theorem C67_reserved : forall o name, reachable o -> In name (interface (class_of o)) ->
  forall a s, register_tensor a name o = (o, Err ValueError) /\ register_substructure s name o = (o, Err ValueError).
Proof. exact C67_reserved_lemma. Qed.
Print Assumptions C67_reserved.

(** A hierarchical matrix with one component registered. *)
Example C67_reserved_example : reachable (fst (register_tensor 7 "A" (new_obj (CHier 1 2)))) /\
  In "_compute_block_dims" (interface (class_of (fst (register_tensor 7 "A" (new_obj (CHier 1 2)))))) /\
  snd (register_tensor 8 "_compute_block_dims" (fst (register_tensor 7 "A" (new_obj (CHier 1 2))))) = Err ValueError.
Proof. exact C67_reserved_example_case. Qed.

(** The constructors: no registration fails, the listed names are those of the class (in the same order for all matrices of the class, all
    different), and the listed tensors are those handed in. *)
Theorem C67_construct : forall r, declared r -> exists o, construct r = Ok o /\
  map fst (named_tensors o) = component_names (rcls r) /\ NoDup (component_names (rcls r)) /\ map snd (named_tensors o) = references r.
Proof. exact C67_construct_lemma. Qed.
Print Assumptions C67_construct.

(** The matrices that [add_] pairs have the same class: the loop pairs components of the same name. *)
Theorem C67_pairs : forall r r' o o', declared r -> declared r' -> rcls r = rcls r' -> construct r = Ok o -> construct r' = Ok o' ->
  map (fun p => fst (fst p)) (combine (named_tensors o) (named_tensors o')) = map (fun p => fst (snd p)) (combine (named_tensors o) (named_tensors o')) /\
  List.length (combine (named_tensors o) (named_tensors o')) = List.length (component_names (rcls r)).
Proof. exact C67_pairs_lemma. Qed.
Print Assumptions C67_pairs.

(** Three levels: a lower matrix whose first part is an upper matrix of a diagonal and a dense one, and whose last part is block-diagonal. *)
Example C67_construct_example : declared reg_r /\ declared reg_r' /\ rcls reg_r = rcls reg_r' /\
  match construct reg_r with Ok o => named_tensors o = [("B", 3); ("B.A", 1); ("_mat_diag.A.A", 0); ("_mat.C.A", 2); ("_blocks.C", 4); ("_last.C", 5)] | _ => False end.
Proof. exact C67_construct_example_case. Qed.

(** A listed name, read backwards, is an attribute path to the tensor. *)
Theorem C67_path : forall r o n a, construct r = Ok o -> In (n, a) (named_tensors o) -> access o (rev (dotted n)) = Some a.
Proof. exact C67_path_lemma. Qed.
Print Assumptions C67_path.

Example C67_path_example : match construct reg_r with
  | Ok o => In ("_mat.C.A", 2) (named_tensors o) /\ rev (dotted "_mat.C.A") = ["A"; "C"; "_mat"] /\ access o ["A"; "C"; "_mat"] = Some 2
  | _ => False end.
Proof. exact C67_path_example_case. Qed.

(** Read forwards, as names of attributes usually are (and as PyTorch names parameters of submodules), it need not be one. *)
Theorem C67_dotted_refuted : ~ (forall r o n a, declared r -> construct r = Ok o -> In (n, a) (named_tensors o) -> access o (dotted n) = Some a).
Proof. exact C67_dotted_refuted_lemma. Qed.
Print Assumptions C67_dotted_refuted.

(** It may even lead to another tensor: with hierarchical parts, "A.C" is listed for [self.C.A], but [self.A.C] is a tensor too. *)
Theorem C67_misread_refuted : ~ (forall r o n a b, declared r -> construct r = Ok o -> In (n, a) (named_tensors o) -> access o (dotted n) = Some b -> b = a).
Proof. exact C67_misread_refuted_lemma. Qed.
Print Assumptions C67_misread_refuted.

Section Any.
Context {SC : Scalar}.

(** What an object represents are the values of its listed tensors. *)
Theorem C67_values : forall r (h : nat -> tensor), tensors (seen_as h r) = map h (references r) /\ cls_of (seen_as h r) = rcls r /\
  forall h', (forall a, In a (references r) -> h' a = h a) -> seen_as h' r = seen_as h r.
Proof. exact C67_values_lemma. Qed.

(** In-place multiplication: if no tensor is registered twice, the object afterwards represents the multiple, and no other tensor changes. *)
Theorem C67_mul : forall r o value (h : nat -> tensor), construct r = Ok o -> NoDup (references r) ->
  seen_as (h_mul o value h) r = mul_ (seen_as h r) value /\ forall a, ~ In a (references r) -> h_mul o value h a = h a.
Proof. exact C67_mul_lemma. Qed.

(** In-place addition: if no tensor is registered twice and no tensor of [self] appears at a later place in [other], then [add_] on the
    objects agrees with [add_] on the matrices they represent; tensors of [other] that are not tensors of [self] do not change. *)
Theorem C67_add : forall r r' o o' alpha (h : nat -> tensor), construct r = Ok o -> construct r' = Ok o' -> NoDup (references r) ->
  (forall i j a, nth_error (references r) i = Some a -> nth_error (references r') j = Some a -> (j <= i)%nat) ->
  match add_ (seen_as h r) (seen_as h r') alpha with
  | Ok s => snd (h_add o o' alpha h) = Ok tt /\ seen_as (fst (h_add o o' alpha h)) r = s
  | Err e => snd (h_add o o' alpha h) = Err e
  end /\ (forall a, ~ In a (references r) -> fst (h_add o o' alpha h) a = h a).
Proof. exact C67_add_lemma. Qed.

(** Adding a matrix to itself is covered: [m.add_(m, alpha)] has the value that adding an equal copy would give. *)
Theorem C67_self : forall r o alpha (h : nat -> tensor), construct r = Ok o -> NoDup (references r) ->
  match add_ (seen_as h r) (seen_as h r) alpha with
  | Ok s => snd (h_add o o alpha h) = Ok tt /\ seen_as (fst (h_add o o alpha h)) r = s
  | Err e => snd (h_add o o alpha h) = Err e
  end.
Proof. exact C67_self_lemma. Qed.
End Any.

Print Assumptions C67_values.
Print Assumptions C67_mul.
Print Assumptions C67_add.
Print Assumptions C67_self.

(** The tensors of the example are doubled, others are not. *)
Example C67_mul_example : construct reg_r = Ok (built_obj reg_r) /\ NoDup (references reg_r) /\
  map (fun a => show (h_mul (built_obj reg_r) (q 2 : @F Q_scalar) reg_h a)) [0; 1; 5; 10] =
  [([1], [inject_Z 4]); ([1; 2], [inject_Z 6; inject_Z 8]); ([1; 1], [inject_Z 12]); ([1], [inject_Z 3])].
Proof. exact C67_mul_example_case. Qed.

Example C67_add_example : construct reg_r' = Ok (built_obj reg_r') /\
  (forall i j a, nth_error (references reg_r) i = Some a -> nth_error (references reg_r') j = Some a -> (j <= i)%nat) /\
  snd (h_add (built_obj reg_r) (built_obj reg_r') (q 2 : @F Q_scalar) reg_h) = Ok tt /\
  map (fun a => show (fst (h_add (built_obj reg_r) (built_obj reg_r') (q 2 : @F Q_scalar) reg_h) a)) [0; 1; 5; 10] =
  [([1], [inject_Z 8]); ([1; 2], [inject_Z 11; inject_Z 14]); ([1; 1], [inject_Z 20]); ([1], [inject_Z 3])].
Proof. exact C67_add_example_case. Qed.

Example C67_self_example : snd (h_add (built_obj reg_r) (built_obj reg_r) (q 3 : @F Q_scalar) reg_h) = Ok tt /\
  map (fun a => show (fst (h_add (built_obj reg_r) (built_obj reg_r) (q 3 : @F Q_scalar) reg_h) a)) [0; 1; 5] =
  [([1], [inject_Z 8]); ([1; 2], [inject_Z 12; inject_Z 16]); ([1; 1], [inject_Z 24])].
Proof. exact C67_self_example_case. Qed.

(** The condition on shared tensors is needed: a lower matrix with the same diagonal tensor as first and as last part is a legal matrix, but
    [mul_] multiplies this tensor twice. *)
Theorem C67_shared_refuted : ~ (forall r o value (h : nat -> @tensor Q_scalar), declared r -> construct r = Ok o ->
  seen_as (h_mul o value h) r = mul_ (seen_as h r) value).
Proof. exact C67_shared_refuted_lemma. Qed.
Print Assumptions C67_shared_refuted.

(** A failing [add_] is not undone: adding a block-diagonal matrix with another rest raises a RuntimeError after the blocks have changed. *)
Theorem C67_failed_add_refuted : ~ (forall r r' o o' alpha (h : nat -> @tensor Q_scalar) e, declared r -> declared r' -> rcls r = rcls r' ->
  construct r = Ok o -> construct r' = Ok o' -> snd (h_add o o' alpha h) = Err e -> forall a, fst (h_add o o' alpha h) a = h a).
Proof. exact C67_failed_add_refuted_lemma. Qed.
Print Assumptions C67_failed_add_refuted.
