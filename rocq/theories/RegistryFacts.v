(** Lemmas about Registry.v. *)

From Coq Require Import List Arith Lia Bool String Ascii.
From Verif Require Import Scalar Res Tensor Structures OptimUtils Optimizer Registry RegistrySpec.
Import ListNotations.
Open Scope string_scope.

(** ** Construction *)

Fixpoint listing (r : rmat) : list (string * nat) :=
  match r with
  | RDense t => [("_mat", t)]
  | RDiag t => [("_mat_diag", t)]
  | RBlock _ b l => [("_blocks", b); ("_last", l)]
  | RHier _ _ A B C D E => [("A", A); ("B", B); ("C", C); ("D", D); ("E", E)]
  | RTril t => [("_lower_diags", t)]
  | RTriu t => [("_upper_diags", t)]
  | RRec _ _ _ _ _ A B C => ("B", B) :: map (fun p => (fst p ++ ".A", snd p)) (listing A) ++ map (fun p => (fst p ++ ".C", snd p)) (listing C)
  end.

Lemma construct_ok r : exists o, construct r = Ok o /\ named_tensors o = listing r.
Proof.
  induction r as [t|t|D b l|k1 k2 A B C D E|t|t|sd ma mc ca cc A (oA & EA & NA) B C (oC & EC & NC)];
    try (eexists; split; [reflexivity|reflexivity]).
  cbn [construct]. rewrite EA, EC. cbn [bind]. eexists. split; [reflexivity|].
  cbn [named_tensors listing rcls new_obj]. cbn. rewrite NA, NC, app_nil_r. reflexivity.
Qed.

Lemma listing_refs r : map snd (listing r) = references r.
Proof.
  induction r; try reflexivity. cbn. rewrite map_app, !map_map. f_equal. f_equal; assumption.
Qed.

Lemma listing_names r : declared r -> map fst (listing r) = component_names (rcls r).
Proof.
  induction r; intros DC; try reflexivity. destruct DC as (<- & <- & D1 & D2). cbn. rewrite map_app, !map_map. cbn.
  rewrite <- IHr1, <- IHr2 by assumption. rewrite !map_map. reflexivity.
Qed.

(** ** Distinct names *)

Lemma app_length_s x y : String.length (x ++ y) = (String.length x + String.length y)%nat.
Proof. induction x as [|c x IH]; [reflexivity|]. cbn. rewrite IH. reflexivity. Qed.

Lemma app_inj_r x y z : x ++ z = y ++ z -> x = y.
Proof.
  revert y. induction x as [|c x IH]; intros [|d y] H; [reflexivity| | |].
  - exfalso. assert (L : String.length z = String.length (String d y ++ z)) by (rewrite <- H; reflexivity). cbn in L. rewrite app_length_s in L. lia.
  - exfalso. assert (L : String.length z = String.length (String c x ++ z)) by (rewrite H; reflexivity). cbn in L. rewrite app_length_s in L. lia.
  - cbn in H. injection H as -> H. f_equal. apply IH. exact H.
Qed.

Fixpoint final (s : string) (d : ascii) : ascii := match s with EmptyString => d | String c s' => final s' c end.
Lemma final_app s t d : final (s ++ t) d = final t (final s d).
Proof. revert d. induction s as [|c s IH]; intros d; [reflexivity|]. cbn. apply IH. Qed.

Lemma nodup_map_inj {A B} (f : A -> B) l : (forall x y, f x = f y -> x = y) -> NoDup l -> NoDup (map f l).
Proof.
  intros I. induction 1 as [|x l N _ IH]; constructor; [|exact IH]. intros H. apply in_map_iff in H as (y & E & Hy). apply I in E. subst. exact (N Hy).
Qed.

Lemma nodup_app' {A} (l1 l2 : list A) : NoDup l1 -> NoDup l2 -> (forall x, In x l1 -> ~ In x l2) -> NoDup (l1 ++ l2).
Proof.
  induction 1 as [|x l1 N _ IH]; intros N2 D; [exact N2|]. cbn. constructor.
  - intros H. apply in_app_or in H as [H|H]; [exact (N H)|]. exact (D x (or_introl eq_refl) H).
  - apply IH; [exact N2|]. intros y Hy. apply D. right. exact Hy.
Qed.

Lemma names_nodup k : NoDup (component_names k).
Proof.
  assert (X : forall l : list string, nodup string_dec l = l -> NoDup l) by (intros l <-; apply NoDup_nodup).
  induction k as [| |D|k1 k2| | |sd ma mc a IHa c IHc]; try (apply X; reflexivity).
  cbn. constructor.
  - intros H. apply in_app_or in H as [H|H]; apply in_map_iff in H as (y & E & _); apply (f_equal (fun s => final s "x"%char)) in E; rewrite final_app in E; discriminate.
  - apply nodup_app'.
    + apply nodup_map_inj; [|exact IHa]. intros x y. apply app_inj_r.
    + apply nodup_map_inj; [|exact IHc]. intros x y. apply app_inj_r.
    + intros x H1 H2. apply in_map_iff in H1 as (y & <- & _). apply in_map_iff in H2 as (z & E & _).
      apply (f_equal (fun s => final s "x"%char)) in E. rewrite !final_app in E. discriminate.
Qed.

(** ** Registration *)

Lemma assoc_app {A} n (l l' : list (string * A)) : assoc n (l ++ l') = match assoc n l with Some a => Some a | None => assoc n l' end.
Proof. unfold assoc. induction l as [|p l IH]; [reflexivity|]. cbn. destruct (n =? fst p)%string; [reflexivity|exact IH]. Qed.
Lemma assoc_none {A} n (l : list (string * A)) : ~ In n (map fst l) -> assoc n l = None.
Proof.
  unfold assoc. induction l as [|p l IH]; intros N; [reflexivity|]. cbn in *. destruct (String.eqb_spec n (fst p)) as [->|]; [exfalso; apply N; left; reflexivity|].
  apply IH. intros H. apply N. right. exact H.
Qed.

Lemma hasattr_in o n : hasattr o n = true <-> In n (match o with Obj k plain ta sa _ _ => map fst ta ++ map fst sa ++ plain ++ class_attrs k end).
Proof.
  destruct o. unfold hasattr. rewrite existsb_exists. split.
  - intros (x & H & E). apply String.eqb_eq in E. subst. exact H.
  - intros H. exists n. split; [exact H|apply String.eqb_refl].
Qed.

(** ** Paths *)

Lemma dotted_app s t : dotted (s ++ "." ++ t) = (dotted s ++ dotted t)%list.
Proof.
  induction s as [|c s IH]; [reflexivity|]. cbn [append dotted] in *. rewrite IH. destruct (Ascii.eqb c "."); [reflexivity|].
  destruct (dotted s) eqn:E; [exfalso|reflexivity]. destruct s; [discriminate|]. cbn in E. destruct (Ascii.eqb _ _); [discriminate|]. destruct (dotted s); discriminate.
Qed.

Lemma dotted_ne s : dotted s <> [].
Proof. destruct s; [discriminate|]. cbn. destruct (Ascii.eqb _ _); [discriminate|]. destruct (dotted s); discriminate. Qed.

Lemma access_sub o n o' p : get_sub o n = Some o' -> p <> [] -> access o (n :: p) = access o' p.
Proof. intros E N. destruct p; [congruence|]. cbn. cbn in E. rewrite E. reflexivity. Qed.

Lemma path_back r o n a : construct r = Ok o -> In (n, a) (listing r) -> access o (rev (dotted n)) = Some a.
Proof.
  revert o n a. induction r as [t|t|D b l|k1 k2 A B C D E|t|t|sd ma mc ca cc A IHA B C IHC]; intros o n a H I.
  1-6: injection H as <-; cbn [listing In] in I; repeat (destruct I as [I|I]; [injection I as <- <-; reflexivity|]); destruct I.
  cbn [construct] in H. destruct (construct A) as [oA|] eqn:EA; [|discriminate]. destruct (construct C) as [oC|] eqn:EC; [|discriminate]. cbn [bind] in H. injection H as <-.
  cbn [listing] in I. destruct I as [I|I]; [injection I as <- <-; reflexivity|].
  assert (NR : forall x, rev (dotted x) <> []) by (intros x H; apply (dotted_ne x); apply (f_equal (@rev string)) in H; rewrite rev_involutive in H; exact H).
  apply in_app_or in I as [I|I]; apply in_map_iff in I as ([n' a'] & E & I); injection E as <- <-; cbn [fst snd].
  - change ".A" with ("." ++ "A"). rewrite dotted_app, rev_app_distr. cbn [dotted Ascii.eqb rev app Bool.eqb]. rewrite (access_sub _ "A" oA); [apply IHA; auto|reflexivity|apply NR].
  - change ".C" with ("." ++ "C"). rewrite dotted_app, rev_app_distr. cbn [dotted Ascii.eqb rev app Bool.eqb]. rewrite (access_sub _ "C" oC); [apply IHC; auto|reflexivity|apply NR].
Qed.

(** ** In-place operations *)

Section Heap.
Context {SC : Scalar}.
Open Scope F_scope.

Lemma seen_ext r (h h' : nat -> tensor) : (forall a, In a (references r) -> h' a = h a) -> seen_as h' r = seen_as h r.
Proof.
  induction r; intros EQ; cbn in *; rewrite ?EQ by auto 10; try reflexivity.
  rewrite IHr1, IHr2; [reflexivity|..]; intros a Ha; apply EQ; right; apply in_or_app; auto.
Qed.

Lemma seen_tensors r (h : nat -> tensor) : tensors (seen_as h r) = map h (references r).
Proof. induction r; try reflexivity. cbn. rewrite map_app, IHr1, IHr2. reflexivity. Qed.

Lemma seen_cls r (h : nat -> tensor) : cls_of (seen_as h r) = rcls r.
Proof. destruct r; reflexivity. Qed.

(** The matrix of a reference structure from the list of its tensors. *)
Definition doubled (value : F) (t : tensor) : tensor := t_map (fun x => x * value) t.

Lemma mul_fold value l : forall (h : nat -> tensor), NoDup (map snd l) ->
  let h' := fold_left (fun h (p : string * nat) => put (snd p) (t_map (fun x => x * value) (h (snd p))) h) l h in
  (forall a, In a (map snd l) -> h' a = doubled value (h a)) /\ (forall a, ~ In a (map snd l) -> h' a = h a).
Proof.
  induction l as [|p l IH]; intros h N; [split; [intros a []|reflexivity]|]. cbn [map] in N. apply NoDup_cons_iff in N as [N1 N2].
  cbn [fold_left]. destruct (IH (put (snd p) (t_map (fun x => x * value) (h (snd p))) h) N2) as [I1 I2]. cbv zeta in *. split.
  - intros a [<-|Ha].
    + rewrite I2 by exact N1. unfold put. rewrite Nat.eqb_refl. reflexivity.
    + rewrite I1 by exact Ha. unfold put. destruct (Nat.eqb_spec a (snd p)) as [->|]; [exfalso; exact (N1 Ha)|reflexivity].
  - intros a Ha. rewrite I2 by (intros H; apply Ha; right; exact H). unfold put. destruct (Nat.eqb_spec a (snd p)) as [->|]; [exfalso; apply Ha; left; reflexivity|reflexivity].
Qed.

Lemma seen_mul r value (h h' : nat -> tensor) : (forall a, In a (references r) -> h' a = doubled value (h a)) -> seen_as h' r = mul_ (seen_as h r) value.
Proof.
  induction r; intros EQ; cbn in *; rewrite ?EQ by auto 10; try reflexivity.
  rewrite IHr1, IHr2; [reflexivity|..]; intros a Ha; apply EQ; right; apply in_or_app; auto.
Qed.

Lemma h_mul_seen r o value (h : nat -> tensor) : construct r = Ok o -> NoDup (references r) ->
  seen_as (h_mul o value h) r = mul_ (seen_as h r) value /\ forall a, ~ In a (references r) -> h_mul o value h a = h a.
Proof.
  intros E N. destruct (construct_ok r) as (o' & E' & L). rewrite E in E'. injection E' as <-. unfold h_mul. rewrite L.
  rewrite <- listing_refs in *. destruct (mul_fold value (listing r) h N) as [H1 H2]. cbv zeta in *. split; [|exact H2].
  apply seen_mul. rewrite <- listing_refs. exact H1.
Qed.

(** Adding: the walk of Structures.v over the values computes the same as the loop over the references. *)
Fixpoint walk (alpha : F) (ts l : list tensor) : res (list tensor * list tensor) :=
  match ts with
  | [] => Ok ([], l)
  | t :: ts' => let* '(t', l) := add_next alpha t l in let* '(r, l) := walk alpha ts' l in Ok (t' :: r, l)
  end.

Lemma walk_app alpha t1 t2 : forall l,
  walk alpha (t1 ++ t2) l = let* '(r1, l) := walk alpha t1 l in let* '(r2, l) := walk alpha t2 l in Ok (r1 ++ r2, l)%list.
Proof.
  induction t1 as [|t t1 IH]; intros l; cbn.
  - destruct (walk alpha t2 l) as [[? ?]|]; reflexivity.
  - destruct (add_next alpha t l) as [[t' l']|]; [|reflexivity]. cbn. rewrite IH. destruct (walk alpha t1 l') as [[? ?]|]; [|reflexivity]. cbn.
    destruct (walk alpha t2 _) as [[? ?]|]; reflexivity.
Qed.

Lemma walk_length alpha ts : forall l r l', walk alpha ts l = Ok (r, l') -> List.length r = List.length ts.
Proof.
  induction ts as [|t ts IH]; intros l r l' H; cbn in H; [injection H as <- _; reflexivity|].
  destruct (add_next alpha t l) as [[t' l1]|]; [|discriminate]. cbn in H. destruct (walk alpha ts l1) as [[r1 l2]|] eqn:E; [|discriminate]. injection H as <- _.
  cbn. f_equal. exact (IH _ _ _ E).
Qed.

Lemma map_app_inv {A B} (f : A -> B) l1 l2 r1 r2 : List.length r1 = List.length l1 -> map f (l1 ++ l2) = (r1 ++ r2)%list -> map f l1 = r1 /\ map f l2 = r2.
Proof.
  revert r1. induction l1 as [|x l1 IH]; intros [|y r1] L H; try discriminate; [split; [reflexivity|exact H]|]. cbn in H. injection H as H0 H.
  destruct (IH r1) as [H1 H2]; [cbn in L; lia|exact H|]. cbn. rewrite H0, H1. auto.
Qed.

Lemma walk_seen alpha r (h : nat -> tensor) : forall l,
  match walk alpha (map h (references r)) l with
  | Ok (ts, l') => exists s, add_walk alpha (seen_as h r) l = Ok (s, l') /\ forall h', map h' (references r) = ts -> s = seen_as h' r
  | Err e => add_walk alpha (seen_as h r) l = Err e
  end.
Proof.
  induction r as [t|t|D b la|k1 k2 A B C D E|t|t|sd ma mc ca cc A IHA B C IHC]; intros l.
  1-6: cbn; repeat (match goal with |- context [add_next ?al ?t ?l] => destruct (add_next al t l) as [[? ?]|]; cbn; [|reflexivity] end);
       eexists; (split; [reflexivity|]); intros h' X; injection X; intros; subst; reflexivity.
  cbn [references map seen_as add_walk]. cbn [walk]. destruct (add_next alpha (h B) l) as [[tB l1]|]; [|reflexivity]. cbn [bind].
  rewrite map_app, walk_app. specialize (IHA l1). destruct (walk alpha (map h (references A)) l1) as [[rA l2]|] eqn:EA; cbn [bind].
  2:{ rewrite IHA. reflexivity. }
  destruct IHA as (sA & E1 & F1). rewrite E1. cbn [bind]. specialize (IHC l2). destruct (walk alpha (map h (references C)) l2) as [[rC l3]|] eqn:EC; cbn [bind].
  2:{ rewrite IHC. reflexivity. }
  destruct IHC as (sC & E2 & F2). rewrite E2. cbn [bind]. eexists. split; [reflexivity|]. intros h' X. injection X as X1 X2.
  apply walk_length in EA. rewrite map_length in EA. destruct (map_app_inv h' _ _ _ _ EA X2) as [Y1 Y2].
  rewrite (F1 h' Y1), (F2 h' Y2), <- X1. reflexivity.
Qed.

(** No tensor of the first list occurs later in the second one. *)
Fixpoint in_step (l l' : list nat) : Prop :=
  match l, l' with
  | a :: l, b :: l' => ~ In a l' /\ in_step l l'
  | _, _ => True
  end.

Lemma map_put a t (h : nat -> tensor) l : ~ In a l -> map (put a t h) l = map h l.
Proof.
  induction l as [|b l IH]; intros N; [reflexivity|]. cbn. rewrite IH by (intros H; apply N; right; exact H). f_equal.
  unfold put. destruct (Nat.eqb_spec b a) as [->|]; [exfalso; apply N; left; reflexivity|reflexivity].
Qed.

Lemma h_add_walk alpha L : forall L' (h : nat -> tensor), NoDup (map snd L) -> in_step (map snd L) (map snd L') ->
  let x := forS (h_add1 alpha) (combine L L') h in
  match walk alpha (map h (map snd L)) (map h (map snd L')) with
  | Ok (ts, _) => snd x = Ok tt /\ map (fst x) (map snd L) = ts
  | Err e => snd x = Err e
  end /\ (forall a, ~ In a (map snd L) -> fst x a = h a).
Proof.
  induction L as [|p L IH]; intros L' h N S; cbv zeta; [split; [split; reflexivity|reflexivity]|].
  cbn [map] in N, S. apply NoDup_cons_iff in N as [N1 N2]. destruct L' as [|p' L'].
  - split; [|reflexivity]. cbn [combine forS map]. assert (W : forall ts, walk alpha ts [] = Ok (ts, [])) by (induction ts as [|t ts IHt]; [reflexivity|]; cbn; rewrite IHt; reflexivity).
    rewrite W. split; reflexivity.
  - cbn [map in_step] in S. destruct S as [S1 S2].
    assert (X : forS (h_add1 alpha) (combine (p :: L) (p' :: L')) h =
      match t_add_alpha (h (snd p)) (h (snd p')) alpha with Ok t => forS (h_add1 alpha) (combine L L') (put (snd p) t h) | Err e => (h, Err e) end).
    { cbn [combine forS]. unfold sbind. unfold h_add1 at 1. cbn [fst snd]. destruct (t_add_alpha (h (snd p)) (h (snd p')) alpha); reflexivity. }
    rewrite X. clear X. cbn [map walk add_next]. destruct (t_add_alpha (h (snd p)) (h (snd p')) alpha) as [t|e] eqn:Et; cbn [bind].
    2:{ split; reflexivity. }
    destruct (IH L' (put (snd p) t h) N2 S2) as [I1 I2]. cbv zeta in I1, I2.
    rewrite !map_put in I1 by assumption.
    set (y := forS (h_add1 alpha) (combine L L') (put (snd p) t h)) in *. split.
    + destruct (walk alpha (map h (map snd L)) (map h (map snd L'))) as [[ts l']|]; cbn [bind]; [|exact I1]. destruct I1 as [I1 I3]. split; [exact I1|].
      cbn [map]. rewrite I3. f_equal. rewrite I2 by exact N1. unfold put. rewrite Nat.eqb_refl. reflexivity.
    + intros a Ha. rewrite I2 by (intros H; apply Ha; right; exact H). unfold put. destruct (Nat.eqb_spec a (snd p)) as [->|]; [exfalso; apply Ha; left; reflexivity|reflexivity].
Qed.

Lemma in_step_of l : forall l', (forall i j a, nth_error l i = Some a -> nth_error l' j = Some a -> (j <= i)%nat) -> in_step l l'.
Proof.
  induction l as [|a l IH]; intros [|b l'] H; try exact I. split.
  - intros X. apply In_nth_error in X as [j X]. specialize (H 0%nat (S j) a eq_refl X). lia.
  - apply IH. intros i j x H1 H2. specialize (H (S i) (S j) x H1 H2). lia.
Qed.

Lemma h_add_seen r r' o o' alpha (h : nat -> tensor) : construct r = Ok o -> construct r' = Ok o' -> NoDup (references r) ->
  (forall i j a, nth_error (references r) i = Some a -> nth_error (references r') j = Some a -> (j <= i)%nat) ->
  match add_ (seen_as h r) (seen_as h r') alpha with
  | Ok s => snd (h_add o o' alpha h) = Ok tt /\ seen_as (fst (h_add o o' alpha h)) r = s
  | Err e => snd (h_add o o' alpha h) = Err e
  end /\ (forall a, ~ In a (references r) -> fst (h_add o o' alpha h) a = h a).
Proof.
  intros E E' N S. destruct (construct_ok r) as (x & Ex & L). rewrite E in Ex. injection Ex as <-. destruct (construct_ok r') as (x & Ex & L'). rewrite E' in Ex. injection Ex as <-.
  unfold h_add. rewrite L, L'. apply in_step_of in S. rewrite <- (listing_refs r) in N, S |- *. rewrite <- (listing_refs r') in S.
  destruct (h_add_walk alpha (listing r) (listing r') h N S) as [H1 H2]. cbv zeta in H1, H2. split; [|exact H2].
  unfold add_. rewrite seen_tensors, <- listing_refs. pose proof (walk_seen alpha r h (map h (map snd (listing r')))) as W. rewrite <- listing_refs in W.
  destruct (walk alpha _ _) as [[ts l']|e].
  - destruct W as (s & W1 & W2). rewrite W1. cbn [bind]. destruct H1 as [H1 H3]. split; [exact H1|]. symmetry. apply W2. exact H3.
  - rewrite W. exact H1.
Qed.

End Heap.
