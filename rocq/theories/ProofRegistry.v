(** C67: components of structured matrices: names, registration, and the in-place operations on references. *)

From Coq Require Import List Arith ZArith QArith Qcanon Bool String Ascii Lia.
From Verif Require Import Scalar Res Tensor TensorFacts Structures OptimUtils Optimizer QEx Registry RegistrySpec RegistryFacts.
Import ListNotations.
Open Scope nat_scope.
Open Scope string_scope.

Lemma assoc_some {A} n (l : list (string * A)) : assoc n l <> None <-> In n (map fst l).
Proof.
  unfold assoc. induction l as [|[m a] l IH]; [split; [intros H; elim H; reflexivity|intros []]|]. cbn. destruct (String.eqb_spec n m) as [->|N].
  - split; [intros _; left; reflexivity|discriminate].
  - rewrite IH. split; [intros H; right; exact H|intros [H|H]; [congruence|exact H]].
Qed.

Lemma flat_map_ext_in' {A B} (f g : A -> list B) l : (forall x, In x l -> f x = g x) -> flat_map f l = flat_map g l.
Proof.
  induction l as [|x l IH]; intros H; [reflexivity|]. cbn. rewrite (H x (or_introl eq_refl)), IH; [reflexivity|]. intros y Hy. apply H. right. exact Hy.
Qed.

Lemma in_use_attr o n : hasattr o n = true <-> in_use o n.
Proof.
  rewrite hasattr_in. unfold in_use. destruct o as [k pl ta sa tn sn]. cbn [get_tensor get_sub]. rewrite !assoc_some, !in_app_iff. reflexivity.
Qed.

Lemma reachable_lists o : reachable o -> match o with Obj _ _ ta sa tn sn => map fst ta = tn /\ map fst sa = sn /\ NoDup tn end.
Proof.
  induction 1 as [k|o a name _ IH|o s name _ IH].
  - repeat split; constructor.
  - unfold register_tensor. destruct (hasattr o name) eqn:Hn; [exact IH|]. destruct o as [k pl ta sa tn sn]. cbn. destruct IH as (I1 & I2 & I3).
    rewrite map_app, I1. repeat split; [exact I2|]. apply nodup_app'; [exact I3|constructor; [intros []|constructor]|].
    intros x Hx [<-|[]]. cbn [hasattr] in Hn. rewrite <- I1 in Hx. assert (Y : hasattr (Obj k pl ta sa tn sn) name = true) by (apply hasattr_in; apply in_or_app; left; exact Hx).
    cbn [hasattr] in Y. congruence.
  - unfold register_substructure. destruct (hasattr o name) eqn:Hn; [exact IH|]. destruct o as [k pl ta sa tn sn]. cbn. destruct IH as (I1 & I2 & I3).
    rewrite map_app, I2. repeat split; [exact I1|exact I3].
Qed.

Lemma C67_register_lemma o name : reachable o ->
  (in_use o name -> forall a s, register_tensor a name o = (o, Err ValueError) /\ register_substructure s name o = (o, Err ValueError)) /\
  (~ in_use o name -> forall a, exists o', register_tensor a name o = (o', Ok tt) /\ get_tensor o' name = Some a /\
     own_tensors o' = (own_tensors o ++ [(name, a)])%list /\ in_use o' name /\
     (forall n, n <> name -> get_tensor o' n = get_tensor o n) /\ (forall n, get_sub o' n = get_sub o n) /\ o_snames o' = o_snames o) /\
  (~ in_use o name -> forall s, exists o', register_substructure s name o = (o', Ok tt) /\ get_sub o' name = Some s /\
     own_tensors o' = own_tensors o /\ o_snames o' = (o_snames o ++ [name])%list /\ in_use o' name /\
     (forall n, get_tensor o' n = get_tensor o n) /\ (forall n, n <> name -> get_sub o' n = get_sub o n)).
Proof.
  intros R. apply reachable_lists in R. split; [|split].
  - intros U a s. apply in_use_attr in U. unfold register_tensor, register_substructure. rewrite U. split; reflexivity.
  - intros U a. rewrite <- in_use_attr in U. unfold register_tensor. destruct (hasattr o name) eqn:Hn; [exfalso; apply U; reflexivity|]. clear U.
    destruct o as [k pl ta sa tn sn]. destruct R as (R1 & R2 & R3).
    assert (NT : assoc name ta = None).
    { apply assoc_none. intros H. assert (Y : hasattr (Obj k pl ta sa tn sn) name = true) by (apply hasattr_in; apply in_or_app; left; exact H). congruence. }
    assert (K : forall n, n <> name -> assoc n (ta ++ [(name, a)]) = assoc n ta).
    { intros n Nn. rewrite assoc_app. destruct (assoc n ta); [reflexivity|]. unfold assoc. cbn. destruct (String.eqb_spec n name); [contradiction|reflexivity]. }
    assert (B : assoc name (ta ++ [(name, a)]) = Some a).
    { rewrite assoc_app, NT. unfold assoc. cbn. rewrite String.eqb_refl. reflexivity. }
    eexists. split; [reflexivity|]. split; [exact B|]. split; [|split; [left; cbn [get_tensor]; rewrite B; discriminate|]].
    + unfold own_tensors. cbn [o_tnames get_tensor]. rewrite flat_map_app. f_equal.
      * apply flat_map_ext_in'. intros n Hn'. rewrite K; [reflexivity|]. intros ->. rewrite <- R1 in Hn'. apply assoc_some in Hn'. contradiction.
      * cbn [flat_map]. rewrite B. reflexivity.
    + split; [exact K|]. split; [reflexivity|reflexivity].
  - intros U s. rewrite <- in_use_attr in U. unfold register_substructure. destruct (hasattr o name) eqn:Hn; [exfalso; apply U; reflexivity|]. clear U.
    destruct o as [k pl ta sa tn sn].
    assert (NT : assoc name sa = None).
    { apply assoc_none. intros H. assert (Y : hasattr (Obj k pl ta sa tn sn) name = true) by (apply hasattr_in; apply in_or_app; right; apply in_or_app; left; exact H). congruence. }
    assert (B : assoc name (sa ++ [(name, s)]) = Some s).
    { rewrite assoc_app, NT. unfold assoc. cbn. rewrite String.eqb_refl. reflexivity. }
    eexists. split; [reflexivity|]. split; [exact B|]. split; [reflexivity|]. split; [reflexivity|]. split; [right; left; cbn [get_sub]; rewrite B; discriminate|].
    split; [reflexivity|]. intros n Nn. cbn [get_sub]. rewrite assoc_app. destruct (assoc n sa); [reflexivity|]. unfold assoc. cbn.
    destruct (String.eqb_spec n name); [contradiction|reflexivity].
Qed.

Lemma reachable_attrs o : reachable o -> match o, new_obj (class_of o) with Obj k plain _ _ _ _, Obj k' plain' _ _ _ _ => k = k' /\ plain = plain' end.
Proof.
  induction 1 as [k|o a name _ IH|o s name _ IH].
  - destruct k; split; reflexivity.
  - unfold register_tensor. destruct (hasattr o name); [exact IH|]. destruct o as [k pl ta sa tn sn]. exact IH.
  - unfold register_substructure. destruct (hasattr o name); [exact IH|]. destruct o as [k pl ta sa tn sn]. exact IH.
Qed.

Lemma C67_reserved_lemma o name : reachable o -> In name (interface (class_of o)) ->
  forall a s, register_tensor a name o = (o, Err ValueError) /\ register_substructure s name o = (o, Err ValueError).
Proof.
  intros R I a s. apply reachable_attrs in R.
  assert (U : hasattr o name = true).
  { apply hasattr_in. destruct o as [k pl ta sa tn sn]. cbn [class_of] in *. rewrite !in_app_iff. right. right.
    assert (X : forallb (fun n => existsb (String.eqb n) (match new_obj k with Obj _ pl' _ _ _ _ => pl' end ++ class_attrs k)) (interface k) = true) by (destruct k; vm_compute; reflexivity).
    rewrite forallb_forall in X. specialize (X name I). apply existsb_exists in X as (n & Hn & E). apply String.eqb_eq in E. subst n.
    apply in_app_iff. destruct (new_obj k) as [k' pl' ? ? ? ?]. destruct R as [_ ->]. exact Hn. }
  unfold register_tensor, register_substructure. rewrite U. split; reflexivity.
Qed.

Lemma C67_reserved_example_case : reachable (fst (register_tensor 7 "A" (new_obj (CHier 1 2)))) /\
  In "_compute_block_dims" (interface (class_of (fst (register_tensor 7 "A" (new_obj (CHier 1 2)))))) /\
  snd (register_tensor 8 "_compute_block_dims" (fst (register_tensor 7 "A" (new_obj (CHier 1 2))))) = Err ValueError.
Proof. split; [apply reach_tensor, reach_new|]. split; [vm_compute; intuition|vm_compute; reflexivity]. Qed.

(** A dense matrix: "_extra" is free, "_mat", "to_dense" and "_tensor_names" are in use. *)
Definition reg_o : obj := fst (register_tensor 7 "_mat" (new_obj CDense)).

Lemma C67_register_example_case : reachable reg_o /\ ~ in_use reg_o "_extra" /\ in_use reg_o "_mat" /\ in_use reg_o "to_dense" /\ in_use reg_o "_tensor_names" /\
  own_tensors (fst (register_tensor 8 "_extra" reg_o)) = [("_mat", 7); ("_extra", 8)] /\ snd (register_tensor 9 "_mat" reg_o) = Err ValueError.
Proof.
  rewrite <- !in_use_attr. split; [apply reach_tensor, reach_new|]. split; [vm_compute; discriminate|]. repeat split; vm_compute; reflexivity.
Qed.

Lemma C67_construct_lemma r : declared r -> exists o, construct r = Ok o /\
  map fst (named_tensors o) = component_names (rcls r) /\ NoDup (component_names (rcls r)) /\ map snd (named_tensors o) = references r.
Proof.
  intros D. destruct (construct_ok r) as (o & E & L). exists o. rewrite L. split; [exact E|]. split; [apply listing_names; exact D|]. split; [apply names_nodup|].
  apply listing_refs.
Qed.

Lemma C67_pairs_lemma r r' o o' : declared r -> declared r' -> rcls r = rcls r' -> construct r = Ok o -> construct r' = Ok o' ->
  map (fun p => fst (fst p)) (combine (named_tensors o) (named_tensors o')) = map (fun p => fst (snd p)) (combine (named_tensors o) (named_tensors o')) /\
  List.length (combine (named_tensors o) (named_tensors o')) = List.length (component_names (rcls r)).
Proof.
  intros D D' K E E'. destruct (construct_ok r) as (x & Ex & L). rewrite E in Ex. injection Ex as <-. destruct (construct_ok r') as (x & Ex & L'). rewrite E' in Ex. injection Ex as <-.
  rewrite L, L'. apply listing_names in D, D'. rewrite <- K in D'. rewrite <- D in *. clear D E E' L L'. generalize dependent (listing r'). generalize (listing r).
  induction l as [|p l IH]; intros [|p' l'] H; try discriminate; [split; reflexivity|]. cbn in H. injection H as H0 H. destruct (IH l' H) as [I1 I2].
  cbn. rewrite I1, I2, H0. split; reflexivity.
Qed.

(** Three levels: a lower matrix whose first part is an upper matrix of a diagonal and a dense one, and whose last part is block-diagonal. *)
Definition reg_r : rmat := RRec BottomLeft (Fin 3) Inf (CRec TopRight Inf (Fin 2) CDiag CDense) (CBlock 2) (RRec TopRight Inf (Fin 2) CDiag CDense (RDiag 0) 1 (RDense 2)) 3 (RBlock 2 4 5).
Definition reg_r' : rmat := RRec BottomLeft (Fin 3) Inf (CRec TopRight Inf (Fin 2) CDiag CDense) (CBlock 2) (RRec TopRight Inf (Fin 2) CDiag CDense (RDiag 10) 11 (RDense 12)) 13 (RBlock 2 14 15).

Lemma C67_construct_example_case : declared reg_r /\ declared reg_r' /\ rcls reg_r = rcls reg_r' /\
  match construct reg_r with Ok o => named_tensors o = [("B", 3); ("B.A", 1); ("_mat_diag.A.A", 0); ("_mat.C.A", 2); ("_blocks.C", 4); ("_last.C", 5)] | _ => False end.
Proof. repeat split. Qed.

Lemma C67_path_lemma r o n a : construct r = Ok o -> In (n, a) (named_tensors o) -> access o (rev (dotted n)) = Some a.
Proof.
  intros E I. apply (path_back r o n a E). destruct (construct_ok r) as (x & Ex & L). rewrite E in Ex. injection Ex as <-. rewrite <- L. exact I.
Qed.

Lemma C67_path_example_case : match construct reg_r with
  | Ok o => In ("_mat.C.A", 2) (named_tensors o) /\ rev (dotted "_mat.C.A") = ["A"; "C"; "_mat"] /\ access o ["A"; "C"; "_mat"] = Some 2
  | _ => False end.
Proof. split; [|split; reflexivity]. right; right; right; left; reflexivity. Qed.

Lemma C67_dotted_refuted_lemma : ~ (forall r o n a, declared r -> construct r = Ok o -> In (n, a) (named_tensors o) -> access o (dotted n) = Some a).
Proof.
  intros H. destruct (construct reg_r) as [o|] eqn:E; [|discriminate].
  assert (X : access o (dotted "_mat.C.A") = Some 2).
  { apply (H reg_r o); [repeat split|exact E|]. injection E as <-. right; right; right; left; reflexivity. }
  injection E as <-. discriminate X.
Qed.

(** It may even lead to another tensor: with hierarchical parts, "A.C" is listed for [self.C.A], but [self.A.C] is a tensor too. *)
Definition misread_r : rmat := RRec BottomLeft (Fin 3) Inf (CHier 1 1) (CHier 1 1) (RHier 1 1 0 1 2 3 4) 5 (RHier 1 1 6 7 8 9 10).

Lemma C67_misread_refuted_lemma : ~ (forall r o n a b, declared r -> construct r = Ok o -> In (n, a) (named_tensors o) -> access o (dotted n) = Some b -> b = a).
Proof.
  intros H. destruct (construct misread_r) as [o|] eqn:E; [|discriminate].
  assert (X : 2 = 6).
  { apply (H misread_r o "A.C"); [repeat split|exact E| |]; injection E as <-; [|reflexivity]. do 6 right. left. reflexivity. }
  discriminate X.
Qed.

Section Any.
Context {SC : Scalar}.

Lemma C67_values_lemma r (h : nat -> tensor) : tensors (seen_as h r) = map h (references r) /\ cls_of (seen_as h r) = rcls r /\
  forall h', (forall a, In a (references r) -> h' a = h a) -> seen_as h' r = seen_as h r.
Proof. split; [apply seen_tensors|]. split; [apply seen_cls|]. intros h'. apply seen_ext. Qed.

Lemma C67_mul_lemma r o value (h : nat -> tensor) : construct r = Ok o -> NoDup (references r) ->
  seen_as (h_mul o value h) r = mul_ (seen_as h r) value /\ forall a, ~ In a (references r) -> h_mul o value h a = h a.
Proof. apply h_mul_seen. Qed.

Lemma C67_add_lemma r r' o o' alpha (h : nat -> tensor) : construct r = Ok o -> construct r' = Ok o' -> NoDup (references r) ->
  (forall i j a, nth_error (references r) i = Some a -> nth_error (references r') j = Some a -> (j <= i)%nat) ->
  match add_ (seen_as h r) (seen_as h r') alpha with
  | Ok s => snd (h_add o o' alpha h) = Ok tt /\ seen_as (fst (h_add o o' alpha h)) r = s
  | Err e => snd (h_add o o' alpha h) = Err e
  end /\ (forall a, ~ In a (references r) -> fst (h_add o o' alpha h) a = h a).
Proof. apply h_add_seen. Qed.

Lemma C67_self_lemma r o alpha (h : nat -> tensor) : construct r = Ok o -> NoDup (references r) ->
  match add_ (seen_as h r) (seen_as h r) alpha with
  | Ok s => snd (h_add o o alpha h) = Ok tt /\ seen_as (fst (h_add o o alpha h)) r = s
  | Err e => snd (h_add o o alpha h) = Err e
  end.
Proof.
  intros E N. apply (h_add_seen r r o o alpha h E E N). intros i j a H1 H2.
  assert (X : i = j). { apply (proj1 (NoDup_nth_error (references r)) N); [apply nth_error_Some; congruence|congruence]. }
  lia.
Qed.
End Any.

(** Values for the references of [reg_r] and [reg_r']: a 1x1 diagonal, a 1x2 block, a 2x2 dense matrix, a 3x3 block, one 2x2 block and a
    1x1 rest; the second matrix has the same entries plus one. *)
Definition reg_h (a : nat) : @tensor Q_scalar :=
  match a with
  | 0 => qt [1] [2]%Z | 1 => qt [1; 2] [3; 4]%Z | 2 => qt [2; 2] [1; 0; 5; 1]%Z | 3 => qt [3; 3] [1; 2; 3; 4; 5; 6; 7; 8; 9]%Z
  | 4 => qt [1; 2; 2] [1; 1; 0; 1]%Z | 5 => qt [1; 1] [6]%Z
  | 10 => qt [1] [3]%Z | 11 => qt [1; 2] [4; 5]%Z | 12 => qt [2; 2] [2; 1; 6; 2]%Z | 13 => qt [3; 3] [2; 3; 4; 5; 6; 7; 8; 9; 10]%Z
  | 14 => qt [1; 2; 2] [2; 2; 1; 2]%Z | 15 => qt [1; 1] [7]%Z
  | _ => qt [1] [100]%Z
  end.
(** The object of [reg_r]. *)
Definition built_obj (r : rmat) : obj := match construct r with Ok o => o | Err _ => new_obj CDense end.

Lemma C67_mul_example_case : construct reg_r = Ok (built_obj reg_r) /\ NoDup (references reg_r) /\
  map (fun a => show (h_mul (built_obj reg_r) (q 2 : @F Q_scalar) reg_h a)) [0; 1; 5; 10] =
  [([1], [inject_Z 4]); ([1; 2], [inject_Z 6; inject_Z 8]); ([1; 1], [inject_Z 12]); ([1], [inject_Z 3])].
Proof.
  split; [reflexivity|]. split; [|vm_compute; reflexivity].
  assert (X : nodup Nat.eq_dec (references reg_r) = references reg_r) by reflexivity. rewrite <- X. apply NoDup_nodup.
Qed.

Lemma C67_add_example_case : construct reg_r' = Ok (built_obj reg_r') /\
  (forall i j a, nth_error (references reg_r) i = Some a -> nth_error (references reg_r') j = Some a -> (j <= i)%nat) /\
  snd (h_add (built_obj reg_r) (built_obj reg_r') (q 2 : @F Q_scalar) reg_h) = Ok tt /\
  map (fun a => show (fst (h_add (built_obj reg_r) (built_obj reg_r') (q 2 : @F Q_scalar) reg_h) a)) [0; 1; 5; 10] =
  [([1], [inject_Z 8]); ([1; 2], [inject_Z 11; inject_Z 14]); ([1; 1], [inject_Z 20]); ([1], [inject_Z 3])].
Proof.
  split; [reflexivity|]. split; [|split; vm_compute; reflexivity].
  intros i j a H1 H2. exfalso. apply nth_error_In in H1, H2. cbn in H1, H2.
  repeat (destruct H1 as [<-|H1]; [repeat (destruct H2 as [H2|H2]; [discriminate|]); exact H2|]). exact H1.
Qed.

Lemma C67_self_example_case : snd (h_add (built_obj reg_r) (built_obj reg_r) (q 3 : @F Q_scalar) reg_h) = Ok tt /\
  map (fun a => show (fst (h_add (built_obj reg_r) (built_obj reg_r) (q 3 : @F Q_scalar) reg_h) a)) [0; 1; 5] =
  [([1], [inject_Z 8]); ([1; 2], [inject_Z 12; inject_Z 16]); ([1; 1], [inject_Z 24])].
Proof. split; vm_compute; reflexivity. Qed.

(** The condition on shared tensors is needed: a lower matrix with the same diagonal tensor as first and as last part is a legal matrix, but
    [mul_] multiplies this tensor twice. *)
Definition twice_r : rmat := RRec BottomLeft (Fin 2) Inf CDiag CDiag (RDiag 0) 1 (RDiag 0).
Definition twice_h (a : nat) : @tensor Q_scalar := match a with 0 => qt [2] [1; 3]%Z | _ => qt [2; 2] [0; 0; 0; 0]%Z end.

Lemma C67_shared_refuted_lemma : ~ (forall r o value (h : nat -> @tensor Q_scalar), declared r -> construct r = Ok o ->
  seen_as (h_mul o value h) r = mul_ (seen_as h r) value).
Proof.
  intros H. specialize (H twice_r (built_obj twice_r) (q 2 : @F Q_scalar) twice_h). assert (D : declared twice_r) by (repeat split). specialize (H D eq_refl).
  apply (f_equal (fun s => showd (Ok s))) in H.
  assert (X : showd (Ok (mul_ (seen_as twice_h twice_r) (q 2 : @F Q_scalar))) = lit [4; 4] [2; 0; 0; 0; 0; 6; 0; 0; 0; 0; 2; 0; 0; 0; 0; 6]%Z) by (vm_compute; reflexivity).
  assert (Y : showd (Ok (seen_as (h_mul (built_obj twice_r) (q 2 : @F Q_scalar) twice_h) twice_r)) = lit [4; 4] [4; 0; 0; 0; 0; 12; 0; 0; 0; 0; 4; 0; 0; 0; 0; 12]%Z)
    by (vm_compute; reflexivity).
  rewrite X, Y in H. discriminate H.
Qed.

(** A failing [add_] is not undone: adding a block-diagonal matrix with another rest raises a RuntimeError after the blocks have changed. *)
Definition fail_r : rmat := RBlock 3 0 1.
Definition fail_r' : rmat := RBlock 3 2 3.
Definition fail_h (a : nat) : @tensor Q_scalar :=
  match a with 0 | 2 => qt [1; 3; 3] [1; 0; 0; 0; 1; 0; 0; 0; 1]%Z | 1 => qt [0; 0] [] | _ => qt [2; 2] [1; 0; 0; 1]%Z end.

Lemma C67_failed_add_refuted_lemma : ~ (forall r r' o o' alpha (h : nat -> @tensor Q_scalar) e, declared r -> declared r' -> rcls r = rcls r' ->
  construct r = Ok o -> construct r' = Ok o' -> snd (h_add o o' alpha h) = Err e -> forall a, fst (h_add o o' alpha h) a = h a).
Proof.
  intros H. specialize (H fail_r fail_r' (built_obj fail_r) (built_obj fail_r') (q 1 : @F Q_scalar) fail_h RuntimeError I I eq_refl eq_refl eq_refl).
  assert (E : snd (h_add (built_obj fail_r) (built_obj fail_r') (q 1 : @F Q_scalar) fail_h) = Err RuntimeError) by (vm_compute; reflexivity).
  specialize (H E 0). apply (f_equal show) in H.
  assert (X : show (fst (h_add (built_obj fail_r) (built_obj fail_r') (q 1 : @F Q_scalar) fail_h) 0) = ([1; 3; 3], map inject_Z [2; 0; 0; 0; 2; 0; 0; 0; 2]%Z)) by (vm_compute; reflexivity).
  rewrite X in H. vm_compute in H. discriminate H.
Qed.
