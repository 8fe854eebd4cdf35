(** Creation, sums, multiples, structure extraction, trace and diagonal of
    structured matrices. *)

From Coq Require Import List Arith Lia Bool Field Ring.
From Verif Require Import Scalar Res Tensor TensorFacts Structures StructSpec StructDense StructPattern
  StructMul.
Import ListNotations.

Lemma valid_rec_ok sd ma mc a c : cls_ok (CRec sd ma mc a c) -> cls_ok a /\ cls_ok c.
Proof. simpl. destruct ma, mc; tauto. Qed.

Section Ops.
Context {SC : Scalar} {FL : FieldLaws SC}.
Open Scope F_scope.
Add Field Ffield_o : F_ft.

Lemma get_zeros1 n i : (i < n)%nat -> get1 (zeros [n]) i = 0.
Proof. intros. unfold get1, zeros. rewrite tget_tab; [reflexivity|apply in_range1; assumption]. Qed.
Lemma get_zeros2 n m i j : (i < n)%nat -> (j < m)%nat -> get2 (zeros [n; m]) i j = 0.
Proof. intros. unfold get2, zeros. rewrite tget_tab; [reflexivity|apply in_range2; assumption]. Qed.
Lemma get_zeros3 n m l i j k :
  (i < n)%nat -> (j < m)%nat -> (k < l)%nat -> get3 (zeros [n; m; l]) i j k = 0.
Proof. intros. unfold get3, zeros. rewrite tget_tab; [reflexivity|apply in_range3; assumption]. Qed.
Lemma get_ones1 n i : (i < n)%nat -> get1 (ones [n]) i = 1.
Proof. intros. unfold get1, ones. rewrite tget_tab; [reflexivity|apply in_range1; assumption]. Qed.

Lemma zeros_tab2 n m : zeros [n; m] = tab2 n m (fun _ _ => 0).
Proof.
  apply (ext2 n m); reflexivity.
Qed.

(** ** zeros and eye *)

Definition repr (s : smat) (n : nat) (M : nat -> nat -> F) : Prop :=
  forall i j, (i < n)%nat -> (j < n)%nat -> ent s i j = M i j.

Lemma zeros_ok c n :
  cls_ok c -> dim_ok c n \/ c = CTril \/ c = CTriu ->
  exists s, c_zeros c n = Ok s /\ valid c n s /\ repr s n (fun _ _ => 0).
Proof.
  intros Hok Hd.
  assert (Naive : dim_ok c n ->
     exists s, from_dense c (zeros [n; n]) = Ok s /\ valid c n s /\ repr s n (fun _ _ => 0)).
  { intros Hd'. destruct (from_dense_ok c n Hok Hd' (zeros [n; n]) eq_refl) as (s & E & V & H).
    exists s. split; [exact E|]. split; [exact V|]. intros i j Hi Hj. rewrite H by assumption.
    rewrite (proj_ext _ _ _ (fun i j => if Nat.eqb i j then 0 else 0)).
    - rewrite proj_diag by assumption. bd; reflexivity.
    - intros. rewrite get_zeros2 by assumption. bd; reflexivity.
    - assumption.
    - assumption. }
  destruct c; cbn [c_zeros].
  - apply Naive. exact I.
  - eexists. split; [reflexivity|]. split; [reflexivity|]. intros i j Hi Hj. cbn [ent].
    rewrite get_zeros1 by assumption. bd; reflexivity.
  - simpl in Hok. destruct (Nat.eqb_spec D 0); [contradiction|].
    rewrite (mk_block_ok D n) by (assumption || reflexivity).
    eexists. split; [reflexivity|]. split; [repeat split; reflexivity|].
    intros i j Hi Hj. cbn [ent]. change (rows (zeros (n / D :: _)%nat)) with (n / D)%nat.
    pose proof (block_dims D n Hok). pose proof (div_lt_iff D i n Hok Hi). pose proof (div_lt_iff D j n Hok Hj).
    pose proof (Nat.mod_upper_bound i D Hok). pose proof (Nat.mod_upper_bound j D Hok).
    bd; try reflexivity; [apply get_zeros3|apply get_zeros2]; lia.
  - rewrite block_dims_eq. destruct (hier_parts k1 k2 n) as [[K1 d] K2] eqn:Ed.
    pose proof (hier_parts_spec _ _ _ _ _ _ Ed) as (En & L1 & L2).
    rewrite mk_hier_ok with (K1 := K1) (d := d) (K2 := K2) by (assumption || reflexivity).
    eexists. split; [reflexivity|]. split.
    + simpl. rewrite Ed. split; [reflexivity|]. split; [reflexivity|]. exists K1, d, K2. repeat split; reflexivity.
    + intros i j Hi Hj. cbn [ent]. change (rows (zeros (K1 :: _))) with K1. change (rows (zeros [d])) with d.
      bd; try reflexivity; first [apply get_zeros2|apply get_zeros1]; lia.
  - eexists. split; [reflexivity|]. split; [reflexivity|]. intros i j Hi Hj. cbn [ent].
    bd; [|reflexivity]. apply get_zeros1. lia.
  - eexists. split; [reflexivity|]. split; [reflexivity|]. intros i j Hi Hj. cbn [ent].
    bd; [|reflexivity]. apply get_zeros1. lia.
  - destruct Hd as [Hd|[Hd|Hd]]; [|discriminate|discriminate]. apply Naive. exact Hd.
Qed.

Lemma eye_ok c n :
  cls_ok c -> dim_ok c n ->
  exists s, c_eye c n = Ok s /\ valid c n s /\ repr s n (fun i j => if Nat.eqb i j then 1 else 0).
Proof.
  intros Hok Hd.
  assert (Naive : exists s, from_dense c (eye n) = Ok s /\ valid c n s /\
                    repr s n (fun i j => if Nat.eqb i j then 1 else 0)).
  { destruct (from_dense_ok c n Hok Hd (eye n) eq_refl) as (s & E & V & H).
    exists s. split; [exact E|]. split; [exact V|]. intros i j Hi Hj. rewrite H by assumption.
    rewrite (proj_ext _ _ _ (fun i j => if Nat.eqb i j then 1 else 0)).
    - rewrite proj_diag by assumption. reflexivity.
    - intros. unfold eye. tsimp. reflexivity.
    - assumption.
    - assumption. }
  destruct c; cbn [c_eye]; try exact Naive.
  - eexists. split; [reflexivity|]. split; [reflexivity|]. intros i j Hi Hj. cbn [ent].
    rewrite get_ones1 by assumption. reflexivity.
  - simpl in Hok. destruct (Nat.eqb_spec D 0); [contradiction|].
    rewrite (mk_block_ok D n) by (assumption || reflexivity).
    eexists. split; [reflexivity|]. split; [repeat split; reflexivity|].
    intros i j Hi Hj. cbn [ent]. change (rows (tab3 (n / D) D D _)) with (n / D)%nat.
    pose proof (block_dims D n Hok). pose proof (div_lt_iff D i n Hok Hi). pose proof (div_lt_iff D j n Hok Hj).
    pose proof (Nat.mod_upper_bound i D Hok). pose proof (Nat.mod_upper_bound j D Hok).
    pose proof (Nat.div_mod i D Hok). pose proof (Nat.div_mod j D Hok).
    destruct (Nat.eqb_spec (i / D) (j / D)) as [E|E].
    + destruct (Nat.ltb_spec (i / D) (n / D)).
      * tsimp. unfold eye. tsimp. bd; try reflexivity; nia.
      * unfold eye. tsimp. bd; try reflexivity; nia.
    + bd; [congruence|reflexivity].
  - rewrite block_dims_eq. destruct (hier_parts k1 k2 n) as [[K1 d] K2] eqn:Ed.
    pose proof (hier_parts_spec _ _ _ _ _ _ Ed) as (En & L1 & L2).
    rewrite mk_hier_ok with (K1 := K1) (d := d) (K2 := K2) by (assumption || reflexivity).
    eexists. split; [reflexivity|]. split.
    + simpl. rewrite Ed. split; [reflexivity|]. split; [reflexivity|]. exists K1, d, K2. repeat split; reflexivity.
    + intros i j Hi Hj. cbn [ent]. change (rows (eye K1)) with K1. change (rows (ones [d])) with d.
      unfold eye.
      bd; try reflexivity; tsimp; try (rewrite get_zeros2 by lia); try (rewrite get_ones1 by lia); bd; reflexivity.
  - unfold unit_coeffs. simpl in Hd. destruct (Nat.eqb_spec n 0); [contradiction|]. cbn [bind].
    eexists. split; [reflexivity|]. split; [reflexivity|]. intros i j Hi Hj. cbn [ent].
    destruct (Nat.leb_spec j i); tsimp; bd; reflexivity.
  - unfold unit_coeffs. simpl in Hd. destruct (Nat.eqb_spec n 0); [contradiction|]. cbn [bind].
    eexists. split; [reflexivity|]. split; [reflexivity|]. intros i j Hi Hj. cbn [ent].
    destruct (Nat.leb_spec i j); tsimp; bd; reflexivity.
Qed.

(** ** Component-wise maps and zips (used by [add], [mul], [add_], [mul_]) *)

(** Apply [f] to all components. *)
Fixpoint smap (f : F -> F) (s : smat) : smat :=
  match s with
  | MDense t => MDense (t_map f t)
  | MDiag t => MDiag (t_map f t)
  | MBlock D b l => MBlock D (t_map f b) (t_map f l)
  | MHier k1 k2 A B C D E => MHier k1 k2 (t_map f A) (t_map f B) (t_map f C) (t_map f D) (t_map f E)
  | MTril t => MTril (t_map f t)
  | MTriu t => MTriu (t_map f t)
  | MRec sd ma mc ca cc A B C => MRec sd ma mc ca cc (smap f A) (t_map f B) (smap f C)
  end.

Lemma shape_t_map f t : shape (t_map f t) = shape t. Proof. reflexivity. Qed.

Lemma get1_map f t n i : shape t = [n] -> (i < n)%nat -> get1 (t_map f t) i = f (get1 t i).
Proof. intros H Hi. rewrite (t_map_ok1 f t n H). tsimp. reflexivity. Qed.
Lemma get2_map f t n m i j :
  shape t = [n; m] -> (i < n)%nat -> (j < m)%nat -> get2 (t_map f t) i j = f (get2 t i j).
Proof. intros H Hi Hj. rewrite (t_map_ok2 f t n m H). tsimp. reflexivity. Qed.
Lemma get3_map f t n m l i j k :
  shape t = [n; m; l] -> (i < n)%nat -> (j < m)%nat -> (k < l)%nat ->
  get3 (t_map f t) i j k = f (get3 t i j k).
Proof. intros H Hi Hj Hk. rewrite (t_map_ok3 f t n m l H). tsimp. reflexivity. Qed.

Lemma smap_valid c f : forall n s, valid c n s -> valid c n (smap f s).
Proof.
  induction c; intros n s H; destruct s; simpl in H; try contradiction; simpl; try assumption.
  - destruct H as (-> & -> & -> & -> & -> & HA & HC & HB). repeat (split; [reflexivity|]).
    split; [apply IHc1; exact HA|]. split; [apply IHc2; exact HC|]. exact HB.
Qed.

Lemma smap_ent c f : forall n s,
  f 0 = 0 -> cls_ok c -> valid c n s -> repr (smap f s) n (fun i j => f (ent s i j)).
Proof.
  induction c; intros n s F0 Hok H; destruct s; simpl in H; try contradiction; intros i j Hi Hj; cbn [smap ent].
  - rewrite (get2_map f _ n n) by assumption. reflexivity.
  - destruct (Nat.eqb_spec i j); [|auto]. rewrite (get1_map f _ n) by assumption. reflexivity.
  - destruct H as (-> & Hb & Hl). simpl in Hok.
    change (rows (t_map f blocks)) with (rows blocks). rewrite (rows_of _ _ _ Hb).
    pose proof (block_dims D n Hok). pose proof (div_lt_iff D i n Hok Hi). pose proof (div_lt_iff D j n Hok Hj).
    pose proof (Nat.mod_upper_bound i D Hok). pose proof (Nat.mod_upper_bound j D Hok).
    bd; auto.
    + apply (get3_map f _ (n / D) D D); assumption.
    + apply (get2_map f _ (n mod D) (n mod D)); [assumption|lia|lia].
  - destruct H as (-> & -> & K1 & d & K2 & Ed & HA & HB & HC & HD & HE).
    apply hier_parts_spec in Ed as (En & _).
    change (rows (t_map f A)) with (rows A). change (rows (t_map f C)) with (rows C).
    rewrite (rows_of _ _ _ HA), (rows_of _ _ _ HC).
    bd; auto.
    + apply (get2_map f _ K1 K1); assumption.
    + apply (get2_map f _ K1 (d + K2)); [assumption|lia|lia].
    + apply (get1_map f _ d); [assumption|lia].
    + apply (get2_map f _ K2 d); [assumption|lia|lia].
    + apply (get2_map f _ K2 K2); [assumption|lia|lia].
  - bd; [|auto]. apply (get1_map f _ n); [assumption|lia].
  - bd; [|auto]. apply (get1_map f _ n); [assumption|lia].
  - destruct H as (-> & -> & -> & -> & -> & HA & HC & HB).
    apply valid_rec_ok in Hok as [Ha Hc].
    pose proof (boundary_le n ma mc) as L.
    pose proof (valid_sdim _ _ _ Ha HA) as SA.
    pose proof (valid_sdim _ _ _ Ha (smap_valid _ f _ _ HA)) as SA'.
    rewrite SA, SA'. set (k := boundary n ma mc) in *.
    destruct sd; bd; auto.
    + apply (IHc1 k); assumption.
    + apply (get2_map f _ k (n - k)); [assumption|lia|lia].
    + apply (IHc2 (n - k)%nat); auto; lia.
    + apply (IHc1 k); assumption.
    + apply (get2_map f _ (n - k) k); [assumption|lia|lia].
    + apply (IHc2 (n - k)%nat); auto; lia.
Qed.

Lemma mul__smap s v : mul_ s v = smap (fun x => x * v) s.
Proof. induction s; simpl; congruence. Qed.

Lemma mul__ok c n s v :
  cls_ok c -> valid c n s -> valid c n (mul_ s v) /\ repr (mul_ s v) n (fun i j => v * ent s i j).
Proof.
  intros Hok V. rewrite mul__smap. split; [apply smap_valid; exact V|].
  intros i j Hi Hj. rewrite (smap_ent c _ n s) by (assumption || ring). ring.
Qed.

(** [add_] *)

Lemma t_add_alpha_ok a b alpha :
  shape a = shape b ->
  exists r, t_add_alpha a b alpha = Ok r /\ shape r = shape a /\
            forall idx, in_range (shape a) idx -> tget r idx = tget a idx + alpha * tget b idx.
Proof.
  intros H. unfold t_add_alpha, t_map2. rewrite H, shape_eqb_refl.
  eexists. split; [reflexivity|]. split; [reflexivity|]. intros idx Hi. rewrite tget_tab by exact Hi. reflexivity.
Qed.

(** The result of the loop on two objects of the same class and dimension. *)
Lemma add_walk_ok c alpha : forall n a b rest,
  cls_ok c -> valid c n a -> valid c n b ->
  exists r, add_walk alpha a (tensors b ++ rest) = Ok (r, rest) /\ valid c n r /\
            repr r n (fun i j => ent a i j + alpha * ent b i j).
Proof.
  induction c; intros n a b rest Hok Va Vb; destruct a; simpl in Va; try contradiction;
    destruct b; simpl in Vb; try contradiction; cbn [add_walk tensors app].
  - destruct (t_add_alpha_ok mat mat0 alpha) as (r & R & Sr & G); [congruence|].
    unfold add_next. rewrite R. cbn [bind]. eexists. split; [reflexivity|]. split; [simpl; congruence|].
    intros i j Hi Hj. cbn [ent]. apply G. rewrite Va. apply in_range2; assumption.
  - destruct (t_add_alpha_ok mat_diag mat_diag0 alpha) as (r & R & Sr & G); [congruence|].
    unfold add_next. rewrite R. cbn [bind]. eexists. split; [reflexivity|]. split; [simpl; congruence|].
    intros i j Hi Hj. cbn [ent]. bd; try ring. apply G. rewrite Va. apply in_range1; assumption.
  - destruct Va as (-> & Hb & Hl), Vb as (-> & Hb' & Hl').
    destruct (t_add_alpha_ok blocks blocks0 alpha) as (r & R & Sr & G); [congruence|].
    destruct (t_add_alpha_ok last last0 alpha) as (r2 & R2 & Sr2 & G2); [congruence|].
    unfold add_next. rewrite R. cbn [bind]. rewrite R2. cbn [bind].
    eexists. split; [reflexivity|]. split; [simpl; repeat split; congruence|].
    intros i j Hi Hj. cbn [ent]. unfold rows at 1 2 3. rewrite Sr. fold (rows blocks).
    rewrite (rows_of _ _ _ Hb), (rows_of _ _ _ Hb'). simpl in Hok.
    pose proof (block_dims D n Hok). pose proof (div_lt_iff D i n Hok Hi). pose proof (div_lt_iff D j n Hok Hj).
    pose proof (Nat.mod_upper_bound i D Hok). pose proof (Nat.mod_upper_bound j D Hok).
    bd; try ring.
    + apply G. rewrite Hb. apply in_range3; assumption.
    + apply G2. rewrite Hl. apply in_range2; lia.
  - destruct Va as (-> & -> & K1 & d & K2 & Ed & HA & HB & HC & HD & HE).
    destruct Vb as (-> & -> & K1' & d' & K2' & Ed' & HA' & HB' & HC' & HD' & HE').
    pose proof Ed as Ed''. rewrite Ed in Ed'. injection Ed' as <- <- <-.
    apply hier_parts_spec in Ed'' as (En & _).
    destruct (t_add_alpha_ok A A0 alpha) as (rA & RA & SA & GA); [congruence|].
    destruct (t_add_alpha_ok B B0 alpha) as (rB & RB & SB & GB); [congruence|].
    destruct (t_add_alpha_ok C C0 alpha) as (rC & RC & SC' & GC); [congruence|].
    destruct (t_add_alpha_ok D D0 alpha) as (rD & RD & SD & GD); [congruence|].
    destruct (t_add_alpha_ok E E0 alpha) as (rE & RE & SE & GE); [congruence|].
    unfold add_next. rewrite RA. cbn [bind]. rewrite RB. cbn [bind]. rewrite RC. cbn [bind].
    rewrite RD. cbn [bind]. rewrite RE. cbn [bind].
    eexists. split; [reflexivity|]. split.
    { simpl. split; [reflexivity|]. split; [reflexivity|]. exists K1, d, K2. repeat split; congruence. }
    intros i j Hi Hj. cbn [ent].
    assert (QA : rows rA = K1) by (apply (rows_of _ _ [K1]); congruence).
    assert (QC : rows rC = d) by (apply (rows_of _ _ []); congruence).
    rewrite QA, QC, (rows_of _ _ _ HA), (rows_of _ _ _ HC), (rows_of _ _ _ HA'), (rows_of _ _ _ HC').
    bd; try ring.
    + apply GA. rewrite HA. apply in_range2; lia.
    + apply GB. rewrite HB. apply in_range2; lia.
    + apply GC. rewrite HC. apply in_range1; lia.
    + apply GD. rewrite HD. apply in_range2; lia.
    + apply GE. rewrite HE. apply in_range2; lia.
  - destruct (t_add_alpha_ok lower_diags lower_diags0 alpha) as (r & R & Sr & G); [congruence|].
    unfold add_next. rewrite R. cbn [bind]. eexists. split; [reflexivity|]. split; [simpl; congruence|].
    intros i j Hi Hj. cbn [ent]. bd; [|ring]. apply G. rewrite Va. apply in_range1; lia.
  - destruct (t_add_alpha_ok upper_diags upper_diags0 alpha) as (r & R & Sr & G); [congruence|].
    unfold add_next. rewrite R. cbn [bind]. eexists. split; [reflexivity|]. split; [simpl; congruence|].
    intros i j Hi Hj. cbn [ent]. bd; [|ring]. apply G. rewrite Va. apply in_range1; lia.
  - destruct Va as (-> & -> & -> & -> & -> & HA & HC & HB).
    destruct Vb as (-> & -> & -> & -> & -> & HA' & HC' & HB').
    apply valid_rec_ok in Hok as [Ha Hc]. pose proof (boundary_le n ma mc) as L.
    destruct (t_add_alpha_ok B B0 alpha) as (rB & RB & SB & GB); [congruence|].
    destruct (IHc1 _ _ _ (tensors b2 ++ rest) Ha HA HA') as (rA & RA & VA & GA).
    destruct (IHc2 _ _ _ rest Hc HC HC') as (rC & RC & VC & GC).
    unfold add_next. rewrite RB. cbn [bind]. rewrite <- app_assoc, RA. cbn [bind]. rewrite RC. cbn [bind].
    eexists. split; [reflexivity|]. split.
    { simpl. repeat (split; [reflexivity|]). split; [exact VA|]. split; [exact VC|]. congruence. }
    intros i j Hi Hj. cbn [ent].
    rewrite (valid_sdim _ _ _ Ha HA), (valid_sdim _ _ _ Ha HA'), (valid_sdim _ _ _ Ha VA).
    set (k := boundary n ma mc) in *.
    destruct sd; bd; try ring.
    + apply GA; assumption.
    + apply GB. rewrite HB. apply in_range2; lia.
    + apply GC; lia.
    + apply GA; assumption.
    + apply GB. rewrite HB. apply in_range2; lia.
    + apply GC; lia.
Qed.

Lemma add__ok c n a b alpha :
  cls_ok c -> valid c n a -> valid c n b ->
  exists r, add_ a b alpha = Ok r /\ valid c n r /\
            repr r n (fun i j => ent a i j + alpha * ent b i j).
Proof.
  intros Hok Va Vb. destruct (add_walk_ok c alpha n a b [] Hok Va Vb) as (r & R & H).
  exists r. split; [|exact H]. unfold add_. rewrite app_nil_r in R. rewrite R. reflexivity.
Qed.

(** ** Out-of-place sum and multiple *)

Lemma mul_ok c n s v :
  cls_ok c -> dim_ok c n -> no_nested_hier c -> valid c n s ->
  exists r, mul s v = Ok r /\ valid c n r /\ repr r n (fun i j => v * ent s i j).
Proof.
  intros Hok Hd Hh V.
  assert (Fast : mul s v = Ok (smap (fun x => x * v) s) ->
     exists r, mul s v = Ok r /\ valid c n r /\ repr r n (fun i j => v * ent s i j)).
  { intros E. exists (smap (fun x => x * v) s). split; [exact E|]. rewrite <- mul__smap.
    apply mul__ok; assumption. }
  assert (Naive : hier_free c ->
     exists r, (let* d := to_dense s in from_dense (cls_of s) (t_map (fun x => x * v) d)) = Ok r /\
               valid c n r /\ repr r n (fun i j => v * ent s i j)).
  { intros Hf. rewrite (to_dense_ok c n s Hok V), (valid_cls _ _ _ V). cbn [bind].
    rewrite (t_map_ok2 _ _ n n) by reflexivity.
    rewrite (tab2_ext n n _ (fun i j => v * ent s i j)) by (intros; tsimp; ring).
    apply from_dense_pattern; try assumption. apply pattern_scale, pattern_ent; assumption. }
  destruct c; destruct s; simpl in V; try contradiction; try (apply Naive; exact Hh).
  - apply Fast. reflexivity.
  - destruct V as (-> & Hb & Hl). apply Fast. cbn [mul]. unfold t_scale.
    rewrite (mk_block_ok D n) by assumption. cbn [smap]. do 2 f_equal; unfold t_map; apply tab_ext; intros; ring.
  - destruct V as (-> & -> & K1 & d & K2 & Ed & HA & HB & HC & HD & HE). apply Fast. cbn [mul].
    apply hier_parts_spec in Ed as (En & L1 & L2).
    rewrite mk_hier_ok with (K1 := K1) (d := d) (K2 := K2) by assumption. reflexivity.
  - apply Fast. reflexivity.
  - apply Fast. reflexivity.
Qed.

Lemma t_add_alpha_1 a b : t_add_alpha a b 1 = t_add a b.
Proof.
  unfold t_add_alpha, t_add, t_map2. destruct (shape_eqb (shape a) (shape b)); [|reflexivity].
  f_equal. apply tab_ext. intros. ring.
Qed.

Lemma add_ok c n a b :
  cls_ok c -> dim_ok c n -> no_nested_hier c -> valid c n a -> valid c n b ->
  exists r, add a b = Ok r /\ valid c n r /\ repr r n (fun i j => ent a i j + ent b i j).
Proof.
  intros Hok Hd Hh Va Vb.
  assert (Fast : add a b = add_ a b 1 ->
     exists r, add a b = Ok r /\ valid c n r /\ repr r n (fun i j => ent a i j + ent b i j)).
  { intros E. destruct (add__ok c n a b 1 Hok Va Vb) as (r & R & V & H).
    exists r. rewrite E. split; [exact R|]. split; [exact V|]. intros i j Hi Hj.
    rewrite H by assumption. ring. }
  assert (Naive : hier_free c ->
     exists r, (let* d := to_dense a in let* d' := to_dense b in let* r := t_add d d' in
                from_dense (cls_of a) r) = Ok r /\
               valid c n r /\ repr r n (fun i j => ent a i j + ent b i j)).
  { intros Hf. rewrite (to_dense_ok c n a Hok Va), (to_dense_ok c n b Hok Vb), (valid_cls _ _ _ Va). cbn [bind].
    rewrite t_add_ok2 with (n := n) (m := n) by reflexivity. cbn [bind].
    rewrite (tab2_ext n n _ (fun i j => ent a i j + ent b i j)) by (intros; tsimp; ring).
    apply from_dense_pattern; try assumption. apply pattern_add; apply pattern_ent; assumption. }
  destruct c; destruct a; simpl in Va; try contradiction; destruct b; simpl in Vb; try contradiction;
    try (apply Naive; exact Hh).
  - apply Fast. unfold add_. cbn [add tensors add_walk add_next]. rewrite t_add_alpha_1. destruct (t_add mat_diag mat_diag0); reflexivity.
  - destruct Va as (-> & Hb & Hl), Vb as (-> & Hb' & Hl'). apply Fast.
    unfold add_. cbn [add tensors add_walk add_next]. rewrite t_add_alpha_1. unfold t_add.
    rewrite t_map2_ok3 with (n := (n / D)%nat) (m := D) (l := D) by assumption. cbn [bind add_next].
    rewrite t_add_alpha_1. unfold t_add.
    rewrite t_map2_ok2 with (n := (n mod D)%nat) (m := (n mod D)%nat) by assumption. cbn [bind].
    rewrite (mk_block_ok D n) by (assumption || reflexivity). reflexivity.
  - destruct Va as (-> & -> & K1 & d & K2 & Ed & HA & HB & HC & HD & HE).
    destruct Vb as (-> & -> & K1' & d' & K2' & Ed' & HA' & HB' & HC' & HD' & HE').
    rewrite Ed in Ed'. injection Ed' as <- <- <-.
    apply hier_parts_spec in Ed as (En & L1 & L2). apply Fast.
    unfold add_. cbn [add tensors add_walk add_next]. rewrite t_add_alpha_1. unfold t_add.
    rewrite t_map2_ok2 with (n := K1) (m := K1) by assumption. cbn [bind add_next].
    rewrite t_add_alpha_1. unfold t_add.
    rewrite t_map2_ok2 with (n := K1) (m := (d + K2)%nat) by assumption. cbn [bind add_next].
    rewrite t_add_alpha_1. unfold t_add.
    rewrite t_map2_ok1 with (n := d) by assumption. cbn [bind add_next].
    rewrite t_add_alpha_1. unfold t_add.
    rewrite t_map2_ok2 with (n := K2) (m := d) by assumption. cbn [bind add_next].
    rewrite t_add_alpha_1. unfold t_add.
    rewrite t_map2_ok2 with (n := K2) (m := K2) by assumption. cbn [bind].
    rewrite mk_hier_ok with (K1 := K1) (d := d) (K2 := K2) by (assumption || reflexivity). reflexivity.
  - apply Fast. unfold add_. cbn [add tensors add_walk add_next]. rewrite t_add_alpha_1. destruct (t_add lower_diags lower_diags0); reflexivity.
  - apply Fast. unfold add_. cbn [add tensors add_walk add_next]. rewrite t_add_alpha_1. destruct (t_add upper_diags upper_diags0); reflexivity.
Qed.

(** ** Structure extraction *)

(** X X^T *)
Definition gram (m : nat) (X : nat -> nat -> F) (i j : nat) : F := sum m (fun k => X i k * X j k).

Lemma from_mat_inner_ok c n m X :
  cls_ok c -> dim_ok c n -> shape X = [n; m] ->
  exists s, from_mat_inner c X = Ok s /\ valid c n s /\ repr s n (proj c n (gram m (get2 X))).
Proof.
  intros Hok Hd HX.
  assert (Naive : exists s, (let* p := t_matmul X (tr X) in from_dense c p) = Ok s /\ valid c n s /\
                       repr s n (proj c n (gram m (get2 X)))).
  { rewrite (tr_ok _ n m HX).
    rewrite t_matmul_ok with (n := n) (k := m) (m := n) by (assumption || reflexivity). cbn [bind].
    rewrite (tab2_ext n n _ (gram m (get2 X)))
      by (intros; unfold gram; apply sum_ext; intros; tsimp; reflexivity).
    destruct (from_dense_ok c n Hok Hd (tab2 n n (gram m (get2 X))) eq_refl) as (s & E & V & H).
    exists s. split; [exact E|]. split; [exact V|]. intros i j Hi Hj. rewrite H by assumption.
    apply proj_ext; try assumption. intros; tsimp; reflexivity. }
  destruct c; cbn [from_mat_inner]; try exact Naive.
  - unfold t_sq. rewrite (t_map_ok2 _ _ n m HX). rewrite t_sum1_ok with (n := n) (m := m) by reflexivity.
    cbn [bind]. eexists. split; [reflexivity|]. split; [reflexivity|]. intros i j Hi Hj.
    cbn [ent proj]. bd; [|reflexivity]. subst. tsimp. unfold gram. apply sum_ext. intros. tsimp. reflexivity.
  - simpl in Hok. rewrite (dim_at_0 _ _ _ HX). cbn [bind]. destruct (Nat.eqb_spec D 0); [contradiction|].
    pose proof (block_dims D n Hok) as E.
    rewrite t_split2_ok with (n := n) (m := m) by assumption. cbn [bind].
    rewrite (cols_of _ _ _ _ HX). rewrite reshape_23 by reflexivity. cbn [bind].
    rewrite e_nij_nkj_ok with (n := (n / D)%nat) (i := D) (j := m) (k := D) by reflexivity. cbn [bind].
    rewrite (tr_ok _ (n mod D) m) by reflexivity.
    rewrite t_matmul_ok with (n := (n mod D)%nat) (k := m) (m := (n mod D)%nat) by reflexivity. cbn [bind].
    rewrite (mk_block_ok D n) by (assumption || reflexivity).
    eexists. split; [reflexivity|]. split; [repeat split; reflexivity|].
    intros i j Hi Hj. cbn [ent proj]. change (rows (tab3 (n / D) D D _)) with (n / D)%nat.
    pose proof (div_lt_iff D i n Hok Hi). pose proof (div_lt_iff D j n Hok Hj).
    pose proof (div_le_n D i n Hok Hi). pose proof (div_le_n D j n Hok Hj).
    pose proof (Nat.mod_upper_bound i D Hok). pose proof (Nat.mod_upper_bound j D Hok).
    pose proof (Nat.div_mod i D Hok). pose proof (Nat.div_mod j D Hok).
    destruct (Nat.eqb_spec (i / D) (j / D)) as [Eij|]; [|reflexivity].
    destruct (Nat.ltb_spec (i / D) (n / D)); tsimp; unfold gram; apply sum_ext; intros k Hk; tsimp.
    + f_equal; f_equal; nia.
    + f_equal; f_equal; lia.
Qed.

(** K^T X *)
Definition tmul (n : nat) (K X : nat -> nat -> F) (i j : nat) : F := sum n (fun k => K k i * X k j).

Lemma gram_ext m X Y i j :
  (forall k, (k < m)%nat -> X i k = Y i k /\ X j k = Y j k) -> gram m X i j = gram m Y i j.
Proof. intros H. unfold gram. apply sum_ext. intros k Hk. destruct (H k Hk) as [-> ->]. reflexivity. Qed.

(** K^T K is the Gram matrix of K^T. *)
Lemma gram_tr n K i j : gram n (fun i j => K j i) i j = tmul n K K i j.
Proof. reflexivity. Qed.

Lemma hier_from_inner_some_ok k1 k2 n s X m :
  valid (CHier k1 k2) n s -> shape X = [n; m] ->
  exists r, from_inner s (Some X) = Ok r /\ valid (CHier k1 k2) n r /\
            repr r n (proj (CHier k1 k2) n (gram m (tmul n (ent s) (get2 X)))).
Proof.
  intros V HX. destruct s; simpl in V; try contradiction.
  destruct V as (-> & -> & K1 & d & K2 & Ed & HA & HB & HC & HD & HE).
  pose proof (hier_parts_spec _ _ _ _ _ _ Ed) as (En & L1 & L2).
  cbn [from_inner]. unfold hier_from_inner.
  rewrite (rows_of _ _ _ HA), (rows_of _ _ _ HC), (rows_of _ _ _ HE).
  rewrite <- En in HX.
  rewrite (hier_rmatmat_ok k1 k2 A B C D E K1 d K2 HA HB HC HD HE X m HX). cbn [bind].
  rewrite t_split3_ok with (n := (K1 + d + K2)%nat) (m := m) by reflexivity. cbn [bind].
  rewrite (tr_ok _ K1 m) by reflexivity.
  rewrite t_matmul_ok with (n := K1) (k := m) (m := K1) by reflexivity. cbn [bind].
  rewrite (tr_ok _ d m) by reflexivity.
  rewrite t_matmul_ok with (n := K1) (k := m) (m := d) by reflexivity. cbn [bind].
  rewrite (tr_ok _ K2 m) by reflexivity.
  rewrite t_matmul_ok with (n := K1) (k := m) (m := K2) by reflexivity. cbn [bind].
  rewrite t_cat1_ok with (n := d) (m := K2) (k := K1) by reflexivity. cbn [bind].
  unfold t_sq, t_scale. rewrite (t_map_ok2 (fun x => x * x) _ d m) by reflexivity.
  rewrite t_sum1_ok with (n := d) (m := m) by reflexivity. cbn [bind].
  rewrite (t_map_ok2 (fun x => two * x) _ K2 m) by reflexivity.
  rewrite t_matmul_ok with (n := K2) (k := m) (m := d) by reflexivity. cbn [bind].
  rewrite t_matmul_ok with (n := K2) (k := m) (m := K2) by reflexivity. cbn [bind].
  rewrite (t_map_ok2 (fun x => two * x) _ K1 (d + K2)) by reflexivity.
  rewrite mk_hier_ok with (K1 := K1) (d := d) (K2 := K2) by (assumption || reflexivity).
  eexists. split; [reflexivity|]. split.
  { simpl. split; [reflexivity|]. split; [reflexivity|]. exists K1, d, K2. repeat split; (assumption || reflexivity). }
  intros i j Hi Hj. rewrite <- En in Hi, Hj.
  cbn [proj]. rewrite Ed, <- En. cbn [ent].
  change (rows (tab2 K1 K1 _)) with K1. change (rows (tab1 d _)) with d.
  set (sK := MHier k1 k2 A B C D E).
  unfold gram, tmul.
  destruct (Nat.ltb_spec i K1); [|destruct (Nat.ltb_spec i (K1 + d))].
  - destruct (Nat.ltb_spec j K1).
    + tsimp. apply sum_ext. intros q Hq. tsimp. reflexivity.
    + tsimp. f_equal. destruct (Nat.ltb_spec (j - K1) d).
      * tsimp. apply sum_ext. intros q Hq. tsimp. do 2 f_equal. all: try reflexivity.
        replace (K1 + (j - K1))%nat with j by lia. reflexivity.
      * tsimp. apply sum_ext. intros q Hq. tsimp.
        replace (K1 + d + (j - K1 - d))%nat with j by lia. reflexivity.
  - destruct (Nat.eqb_spec i j); [|reflexivity]. subst j. tsimp. apply sum_ext. intros q Hq. tsimp.
    replace (K1 + (i - K1))%nat with i by lia. reflexivity.
  - destruct (Nat.ltb_spec j K1); [reflexivity|]. destruct (Nat.ltb_spec j (K1 + d)).
    + tsimp. rewrite <- sum_scale_l. apply sum_ext. intros q Hq. tsimp.
      replace (K1 + d + (i - K1 - d))%nat with i by lia. replace (K1 + (j - K1))%nat with j by lia. unfold two. ring.
    + tsimp. apply sum_ext. intros q Hq. tsimp.
      replace (K1 + d + (i - K1 - d))%nat with i by lia. replace (K1 + d + (j - K1 - d))%nat with j by lia.
      reflexivity.
Qed.

Lemma hier_from_inner_none_ok k1 k2 n s :
  valid (CHier k1 k2) n s ->
  exists r, from_inner s None = Ok r /\ valid (CHier k1 k2) n r /\
            repr r n (proj (CHier k1 k2) n (tmul n (ent s) (ent s))).
Proof.
  intros V. destruct s; simpl in V; try contradiction.
  destruct V as (-> & -> & K1 & d & K2 & Ed & HA & HB & HC & HD & HE).
  pose proof (hier_parts_spec _ _ _ _ _ _ Ed) as (En & L1 & L2).
  cbn [from_inner]. unfold hier_from_inner.
  rewrite (rows_of _ _ _ HC), (rows_of _ _ _ HE).
  rewrite (tr_ok A K1 K1 HA). 
  rewrite t_matmul_ok with (n := K1) (k := K1) (m := K1) by (assumption || reflexivity). cbn [bind].
  unfold t_scale, t_sq.
  rewrite (t_map_ok2 _ _ K1 K1) by reflexivity.
  rewrite t_matmul_ok with (n := K1) (k := K1) (m := (d + K2)%nat) by (assumption || reflexivity). cbn [bind].
  rewrite t_split2c_ok with (n := K1) (m := (d + K2)%nat) by (assumption || reflexivity). cbn [bind].
  rewrite (t_map_ok2 _ _ K1 d) by reflexivity. rewrite t_sum0_ok with (n := K1) (m := d) by reflexivity. cbn [bind].
  rewrite (t_map_ok2 _ D K2 d) by assumption. rewrite t_sum0_ok with (n := K2) (m := d) by reflexivity. cbn [bind].
  rewrite (t_map_ok1 _ C d) by assumption.
  unfold t_add at 1. rewrite t_map2_ok1 with (n := d) by reflexivity. cbn [bind].
  unfold t_add at 1. rewrite t_map2_ok1 with (n := d) by reflexivity. cbn [bind].
  rewrite (tr_ok _ K1 K2) by reflexivity.
  rewrite t_matmul_ok with (n := K2) (k := K1) (m := d) by reflexivity. cbn [bind].
  rewrite (tr_ok E K2 K2) by assumption.
  rewrite t_matmul_ok with (n := K2) (k := K2) (m := d) by (assumption || reflexivity). cbn [bind].
  rewrite t_add_ok2 with (n := K2) (m := d) by reflexivity. cbn [bind].
  rewrite t_matmul_ok with (n := K2) (k := K2) (m := K2) by (assumption || reflexivity). cbn [bind].
  rewrite t_matmul_ok with (n := K2) (k := K1) (m := K2) by (assumption || reflexivity). cbn [bind].
  rewrite t_add_ok2 with (n := K2) (m := K2) by reflexivity. cbn [bind].
  rewrite (t_map_ok2 _ _ K2 d) by reflexivity.
  rewrite mk_hier_ok with (K1 := K1) (d := d) (K2 := K2) by (assumption || reflexivity).
  eexists. split; [reflexivity|]. split.
  { simpl. split; [reflexivity|]. split; [reflexivity|]. exists K1, d, K2. repeat split; (assumption || reflexivity). }
  intros i j Hi Hj. rewrite <- En in Hi, Hj.
  cbn [proj]. rewrite Ed, <- En. cbn [ent].
  change (rows (tab2 K1 K1 _)) with K1. change (rows (tab1 d _)) with d.
  change (if i <? K1 then _ else _) with
    (let T := tmul (K1 + d + K2) (ent (MHier k1 k2 A B C D E)) (ent (MHier k1 k2 A B C D E)) i j in
     if (i <? K1)%nat then if (j <? K1)%nat then T else (1 + 1) * T
     else if (i <? K1 + d)%nat then if (i =? j)%nat then T else 0
     else if (j <? K1)%nat then 0 else if (j <? K1 + d)%nat then (1 + 1) * T else T) at 2 || idtac.
  unfold tmul.
  rewrite (hier_col_sum k1 k2 A B C D E K1 d K2 HA HC (fun k => ent (MHier k1 k2 A B C D E) k j) i Hi).
  cbn [ent]. rewrite (rows_of _ _ _ HA), (rows_of _ _ _ HC).
  destruct (Nat.ltb_spec i K1); [|destruct (Nat.ltb_spec i (K1 + d))].
  - destruct (Nat.ltb_spec j K1).
    + tsimp. apply sum_ext. intros q Hq. tsimp. bd. reflexivity.
    + tsimp. rewrite <- sum_scale_l. apply sum_ext. intros q Hq. tsimp. bd. unfold two; ring.
  - destruct (Nat.eqb_spec i j); [|reflexivity]. subst j. tsimp.
    match goal with |- ?x + ?y + ?z = ?y' + ?x' + ?z' =>
      replace y' with y; [replace x' with x; [replace z' with z; [ring|]|]|] end.
    + apply sum_ext. intros q Hq. tsimp. bd. f_equal. f_equal; lia.
    + bd. reflexivity.
    + apply sum_ext. intros q Hq. tsimp. bd. reflexivity.
  - destruct (Nat.ltb_spec j K1); [reflexivity|]. destruct (Nat.ltb_spec j (K1 + d)).
    + tsimp. f_equal. f_equal.
      * apply sum_ext. intros q Hq. tsimp. bd. f_equal. f_equal; lia.
      * apply sum_ext. intros q Hq. tsimp. bd. f_equal. f_equal; lia.
    + tsimp. match goal with |- ?x + ?y = ?y' + ?x' => replace y' with y; [replace x' with x; [ring|]|] end.
      * apply sum_ext. intros q Hq. tsimp. bd. f_equal. f_equal; lia.
      * apply sum_ext. intros q Hq. tsimp. bd. f_equal; f_equal; lia.
Qed.

Lemma from_inner_some_ok c n s X m :
  cls_ok c -> dim_ok c n -> valid c n s -> shape X = [n; m] ->
  match c with CTril | CTriu => m <> O | CBlock _ => False | _ => True end ->
  exists r, from_inner s (Some X) = Ok r /\ valid c n r /\
            repr r n (proj c n (gram m (tmul n (ent s) (get2 X)))).
Proof.
  intros Hok Hd V HX HT.
  assert (Naive : match c with CTril | CTriu => n <> O /\ m <> O | CBlock _ => False | _ => True end ->
     exists r, (let* S_dense := rmatmat s X in from_mat_inner (cls_of s) S_dense) = Ok r /\ valid c n r /\
            repr r n (proj c n (gram m (tmul n (ent s) (get2 X))))).
  { intros HT'. rewrite (rmatmat_ok c n s X m Hok V HX HT'), (valid_cls _ _ _ V). cbn [bind].
    destruct (from_mat_inner_ok c n m (tab2 n m (tmul n (ent s) (get2 X))) Hok Hd eq_refl) as (r & E & Vr & H).
    exists r. split; [exact E|]. split; [exact Vr|]. intros i j Hi Hj. rewrite H by assumption.
    apply proj_ext; try assumption. intros i' j' Hi' Hj'. apply gram_ext. intros k Hk. tsimp. split; reflexivity. }
  destruct c; try contradiction; destruct s; simpl in V; try contradiction; cbn [from_inner]; try (apply Naive; first [exact I | split; [exact Hd | exact HT]]).
  - unfold t_sq. rewrite (t_map_ok2 _ _ n m HX). rewrite t_sum1_ok with (n := n) (m := m) by reflexivity. cbn [bind].
    rewrite (t_map_ok1 _ _ n V). unfold t_mul. rewrite t_map2_ok1 with (n := n) by reflexivity. cbn [bind].
    eexists. split; [reflexivity|]. split; [reflexivity|]. intros i j Hi Hj. cbn [ent proj].
    bd; [|reflexivity]. subst. tsimp. unfold gram. rewrite <- sum_scale_l. apply sum_ext. intros k Hk. tsimp.
    assert (T : tmul n (ent (MDiag mat_diag)) (get2 X) j k = get1 mat_diag j * get2 X j k).
    { unfold tmul. rewrite (sum_single n j); [|assumption|].
      - cbn [ent]. rewrite Nat.eqb_refl. reflexivity.
      - intros q Hq Hne. cbn [ent]. bd. ring. }
    cbn [ent] in T. rewrite T. ring.
  - apply (hier_from_inner_some_ok k1 k2 n (MHier k0 k3 A B C D E) X m); assumption.
Qed.

Lemma from_inner_none_ok c n s :
  cls_ok c -> dim_ok c n -> valid c n s ->
  match c with CBlock _ => False | _ => True end ->
  exists r, from_inner s None = Ok r /\ valid c n r /\
            repr r n (proj c n (tmul n (ent s) (ent s))).
Proof.
  intros Hok Hd V HT.
  assert (Naive :
     exists r, (let* S_dense := (let* d := to_dense s in Ok (tr d)) in from_mat_inner (cls_of s) S_dense) = Ok r /\
            valid c n r /\ repr r n (proj c n (tmul n (ent s) (ent s)))).
  { rewrite (to_dense_ok c n s Hok V), (valid_cls _ _ _ V). cbn [bind].
    rewrite (tr_ok _ n n) by reflexivity.
    rewrite (tab2_ext n n _ (fun i j => ent s j i)) by (intros; tsimp; reflexivity).
    destruct (from_mat_inner_ok c n n (tab2 n n (fun i j => ent s j i)) Hok Hd eq_refl) as (r & E & Vr & H).
    exists r. split; [exact E|]. split; [exact Vr|]. intros i j Hi Hj. rewrite H by assumption.
    apply proj_ext; try assumption. intros i' j' Hi' Hj'. rewrite <- gram_tr.
    apply gram_ext. intros k Hk. tsimp. split; reflexivity. }
  destruct c; try contradiction; destruct s; simpl in V; try contradiction; cbn [from_inner]; try exact Naive.
  - unfold t_sq. rewrite (t_map_ok1 _ _ n V).
    eexists. split; [reflexivity|]. split; [reflexivity|]. intros i j Hi Hj. cbn [ent proj].
    bd; [|reflexivity]. subst. tsimp. unfold tmul. rewrite (sum_single n j); [|assumption|].
    + rewrite Nat.eqb_refl. reflexivity.
    + intros q Hq Hne. bd. ring.
  - apply (hier_from_inner_none_ok k1 k2 n (MHier k0 k3 A B C D E)); assumption.
Qed.

(** K^T M K *)
Definition congr (n : nat) (K M : nat -> nat -> F) (i j : nat) : F :=
  sum n (fun l => sum n (fun k => K k i * M k l) * K l j).

Lemma from_inner2_ok c n s XXT :
  cls_ok c -> dim_ok c n -> valid c n s -> shape XXT = [n; n] ->
  exists r, from_inner2 s XXT = Ok r /\ valid c n r /\
            repr r n (proj c n (congr n (ent s) (get2 XXT))).
Proof.
  intros Hok Hd V HX.
  assert (Naive :
     exists r, (let* dense := to_dense s in let* p := t_matmul (tr dense) XXT in
                let* q := t_matmul p dense in from_dense (cls_of s) q) = Ok r /\
            valid c n r /\ repr r n (proj c n (congr n (ent s) (get2 XXT)))).
  { rewrite (to_dense_ok c n s Hok V), (valid_cls _ _ _ V). cbn [bind].
    rewrite (tr_ok _ n n) by reflexivity.
    rewrite t_matmul_ok with (n := n) (k := n) (m := n) by (assumption || reflexivity). cbn [bind].
    rewrite t_matmul_ok with (n := n) (k := n) (m := n) by (assumption || reflexivity). cbn [bind].
    rewrite (tab2_ext n n _ (congr n (ent s) (get2 XXT))).
    2:{ intros i j Hi Hj. unfold congr. apply sum_ext. intros l Hl. tsimp. f_equal.
        apply sum_ext. intros k Hk. tsimp. reflexivity. }
    destruct (from_dense_ok c n Hok Hd (tab2 n n (congr n (ent s) (get2 XXT))) eq_refl) as (r & E & Vr & H).
    exists r. split; [exact E|]. split; [exact Vr|]. intros i j Hi Hj. rewrite H by assumption.
    apply proj_ext; try assumption. intros. tsimp. reflexivity. }
  destruct c; destruct s; simpl in V; try contradiction; cbn [from_inner2]; try exact Naive.
  rewrite (t_diag_ok2 _ _ _ HX), Nat.min_id. cbn [bind]. unfold t_sq, t_mul. rewrite (t_map_ok1 _ _ n V).
  rewrite t_map2_ok1 with (n := n) by reflexivity. cbn [bind].
  eexists. split; [reflexivity|]. split; [reflexivity|]. intros i j Hi Hj. cbn [ent proj].
  bd; [|reflexivity]. subst. tsimp. unfold congr. rewrite (sum_single n j); [|assumption|].
  - rewrite (sum_single n j); [|assumption|].
    + rewrite Nat.eqb_refl. ring.
    + intros k Hk Hne. bd. ring.
  - intros l Hl Hne. bd. ring.
Qed.

(** ** average_trace *)

Lemma average_trace_ok c n s :
  cls_ok c -> n <> O -> valid c n s ->
  average_trace s = Ok (sum n (fun i => ent s i i) / fofnat n).
Proof.
  intros Hok Hn V. pose proof (fofnat_neq0 n Hn) as N0.
  assert (Naive : (let* dense := to_dense s in let* dg := t_diag dense in Ok (t_mean dg)) =
                  Ok (sum n (fun i => ent s i i) / fofnat n)).
  { rewrite (to_dense_ok c n s Hok V). cbn [bind]. rewrite (t_diag_ok2 _ n n) by reflexivity.
    rewrite Nat.min_id. cbn [bind]. unfold t_mean. rewrite (tsum_1 _ n) by reflexivity.
    unfold numel. simpl prod. rewrite Nat.mul_1_r. do 2 f_equal. apply sum_ext. intros i Hi. tsimp. reflexivity. }
  destruct c; destruct s; simpl in V; try contradiction; cbn [average_trace]; try exact Naive.
  - unfold t_mean, numel. rewrite (tsum_1 _ n V), V. simpl prod. rewrite Nat.mul_1_r. do 2 f_equal.
    apply sum_ext. intros i Hi. cbn [ent]. rewrite Nat.eqb_refl. reflexivity.
  - destruct V as (-> & Hb & Hl). simpl in Hok. pose proof (block_dims D n Hok) as E.
    rewrite (dim_at_0 _ _ _ Hb), (dim_at_0 _ _ _ Hl). cbn [bind]. rewrite E.
    unfold t_divs. rewrite (t_map_ok3 _ _ _ _ _ Hb). unfold e_nii. rewrite shape_tab3, Nat.eqb_refl. cbn [bind].
    rewrite (t_diag_ok2 _ _ _ Hl), Nat.min_id. cbn [bind].
    rewrite (t_map_ok1 _ _ (n mod D)) by reflexivity. rewrite (tsum_1 _ (n mod D)) by reflexivity.
    f_equal. transitivity ((sum (n / D) (fun x => sum D (fun q => get3 blocks x q q)) + sum (n mod D) (fun i => get2 last i i)) / fofnat n).
    + rewrite (sum_ext (n / D) _ (fun x => sum D (fun q => get3 blocks x q q) * (finv (fofnat n)))).
      2:{ intros x Hx. rewrite <- sum_scale_r. apply sum_ext. intros q Hq. tsimp. field. exact N0. }
      rewrite (sum_ext (n mod D) _ (fun i => get2 last i i * (finv (fofnat n)))).
      2:{ intros x Hx. tsimp. field. exact N0. }
      rewrite !sum_scale_r. field. exact N0.
    + f_equal. rewrite <- E at 3. rewrite sum_split, sum_blocks. f_equal.
      * apply sum_ext. intros x Hx. apply sum_ext. intros q Hq. cbn [ent]. rewrite (rows_of _ _ _ Hb).
        rewrite Nat.eqb_refl. rewrite Nat.div_add_l, (Nat.div_small q D), Nat.add_0_r by assumption.
        rewrite (Nat.add_comm (x * D)), Nat.mod_add, (Nat.mod_small q D) by assumption. bd. reflexivity.
      * apply sum_ext. intros q Hq. cbn [ent]. rewrite (rows_of _ _ _ Hb), Nat.eqb_refl.
        pose proof (Nat.mod_upper_bound n D Hok).
        rewrite Nat.div_add_l, (Nat.div_small q D), Nat.add_0_r, Nat.ltb_irrefl by lia.
        f_equal; lia.
  - destruct V as (-> & -> & K1 & d & K2 & Ed & HA & HB & HC & HD & HE).
    apply hier_parts_spec in Ed as (En & _).
    rewrite (t_diag_ok2 _ _ _ HA), (t_diag_ok2 _ _ _ HE), !Nat.min_id. cbn [bind].
    rewrite (rows_of _ _ _ HA), (rows_of _ _ _ HC), (rows_of _ _ _ HE), En.
    unfold t_divs. rewrite (t_map_ok1 _ _ K1), (t_map_ok1 _ _ d), (t_map_ok1 _ _ K2) by (assumption || reflexivity).
    rewrite (tsum_1 _ K1), (tsum_1 _ d), (tsum_1 _ K2) by reflexivity.
    f_equal.
    transitivity ((sum K1 (fun i => get2 A i i) + sum d (get1 C) + sum K2 (fun i => get2 E i i)) / fofnat n).
    + rewrite (sum_ext K1 _ (fun i => get2 A i i * finv (fofnat n))) by (intros; tsimp; field; exact N0).
      rewrite (sum_ext d _ (fun i => get1 C i * finv (fofnat n))) by (intros; tsimp; field; exact N0).
      rewrite (sum_ext K2 _ (fun i => get2 E i i * finv (fofnat n))) by (intros; tsimp; field; exact N0).
      rewrite !sum_scale_r. field. exact N0.
    + f_equal. rewrite <- En, !sum_split. f_equal; [f_equal|]; apply sum_ext; intros q Hq; cbn [ent];
        rewrite (rows_of _ _ _ HA), (rows_of _ _ _ HC); bd; try reflexivity; f_equal; lia.
  - assert (D0 : data lower_diags <> []).
    { intro Z. pose proof (data_length lower_diags) as L. rewrite Z in L. unfold numel in L. rewrite V in L. simpl in L. lia. }
    destruct (data lower_diags) eqn:Q; [congruence|]. f_equal.
    rewrite (sum_ext n _ (fun _ => get1 lower_diags 0)).
    + rewrite sum_const_avg by assumption. reflexivity.
    + intros i Hi. cbn [ent]. rewrite Nat.leb_refl, Nat.sub_diag. reflexivity.
  - assert (D0 : data upper_diags <> []).
    { intro Z. pose proof (data_length upper_diags) as L. rewrite Z in L. unfold numel in L. rewrite V in L. simpl in L. lia. }
    destruct (data upper_diags) eqn:Q; [congruence|]. f_equal.
    rewrite (sum_ext n _ (fun _ => get1 upper_diags 0)).
    + rewrite sum_const_avg by assumption. reflexivity.
    + intros i Hi. cbn [ent]. rewrite Nat.leb_refl, Nat.sub_diag. reflexivity.
Qed.

(** ** diag_add_ *)

Lemma util_diag_add_ok t n v :
  shape t = [n; n] ->
  util_diag_add t v = Ok (tab2 n n (fun i j => get2 t i j + (if Nat.eqb i j then v else 0))).
Proof.
  intros H. unfold util_diag_add.
  rewrite (is2_of _ _ _ H), (rows_of _ _ _ H), (cols_of _ _ _ _ H), Nat.eqb_refl. simpl. f_equal.
  apply tab2_ext. intros. bd; ring.
Qed.

Lemma diag_add_ok c n s v :
  cls_ok c -> dim_ok c n -> no_nested_hier c -> valid c n s ->
  exists r, diag_add_ s v = Ok r /\ valid c n r /\
            repr r n (fun i j => ent s i j + (if Nat.eqb i j then v else 0)).
Proof.
  intros Hok Hd Hh V.
  assert (Naive : hier_free c ->
     exists r, (let* dense := to_dense s in let* dense := util_diag_add dense v in
                from_dense (cls_of s) dense) = Ok r /\
       valid c n r /\ repr r n (fun i j => ent s i j + (if Nat.eqb i j then v else 0))).
  { intros Hf. rewrite (to_dense_ok c n s Hok V), (valid_cls _ _ _ V). cbn [bind].
    rewrite (util_diag_add_ok _ n) by reflexivity. cbn [bind].
    rewrite (tab2_ext n n _ (fun i j => ent s i j + (if Nat.eqb i j then v else 0))) by (intros; tsimp; reflexivity).
    apply from_dense_pattern; try assumption.
    apply pattern_add; [apply pattern_ent; assumption|apply pattern_diag]. }
  destruct c; destruct s; simpl in V; try contradiction; cbn [diag_add_]; try (apply Naive; exact Hh).
  - rewrite (t_map_ok1 _ _ n V). eexists. split; [reflexivity|]. split; [reflexivity|].
    intros i j Hi Hj. cbn [ent]. bd; tsimp; ring.
  - destruct V as (-> & Hb & Hl). simpl in Hok. rewrite Hb, Nat.leb_refl. cbn [andb negb].
    rewrite (is2_of _ _ _ Hl), (rows_of _ _ _ Hl), (cols_of _ _ _ _ Hl), Nat.leb_refl. cbn [andb negb].
    eexists. split; [reflexivity|]. split; [repeat split; reflexivity|].
    intros i j Hi Hj. cbn [ent]. change (rows (tab3 (n / D) D D _)) with (n / D)%nat. rewrite (rows_of _ _ _ Hb).
    pose proof (block_dims D n Hok). pose proof (div_lt_iff D i n Hok Hi). pose proof (div_lt_iff D j n Hok Hj).
    pose proof (div_le_n D i n Hok Hi). pose proof (div_le_n D j n Hok Hj).
    pose proof (Nat.mod_upper_bound i D Hok). pose proof (Nat.mod_upper_bound j D Hok).
    pose proof (Nat.div_mod i D Hok). pose proof (Nat.div_mod j D Hok).
    destruct (Nat.eqb_spec (i / D) (j / D)) as [Eij|Nij].
    + destruct (Nat.ltb_spec (i / D) (n / D)); tsimp.
      * destruct (Nat.eqb_spec (i mod D) (j mod D)); destruct (Nat.eqb_spec i j); try nia; bd; ring.
      * destruct (Nat.eqb_spec (i - n / D * D) (j - n / D * D)); destruct (Nat.eqb_spec i j); try nia; ring.
    + destruct (Nat.eqb_spec i j); [subst; congruence|ring].
  - destruct V as (-> & -> & K1 & d & K2 & Ed & HA & HB & HC & HD & HE).
    rewrite (util_diag_add_ok A K1) by assumption. cbn [bind].
    rewrite (util_diag_add_ok E K2) by assumption. cbn [bind].
    rewrite (t_map_ok1 _ C d) by assumption.
    eexists. split; [reflexivity|]. split.
    { simpl. split; [reflexivity|]. split; [reflexivity|]. exists K1, d, K2. repeat split; (assumption || reflexivity). }
    apply hier_parts_spec in Ed as (En & _).
    intros i j Hi Hj. cbn [ent]. rewrite (rows_of _ _ _ HA), (rows_of _ _ _ HC).
    change (rows (tab2 K1 K1 _)) with K1. change (rows (tab1 d _)) with d.
    destruct (Nat.ltb_spec i K1); [|destruct (Nat.ltb_spec i (K1 + d))].
    + destruct (Nat.ltb_spec j K1); tsimp; bd; ring.
    + bd; tsimp; ring.
    + destruct (Nat.ltb_spec j K1); [bd; ring|]. destruct (Nat.ltb_spec j (K1 + d)); tsimp; bd; ring.
  - assert (D0 : data lower_diags <> []).
    { intro Z. pose proof (data_length lower_diags) as L. rewrite Z in L. unfold numel in L. rewrite V in L. simpl in L, Hd. lia. }
    destruct (data lower_diags) eqn:Q; [congruence|]. rewrite (rows_of _ _ _ V).
    eexists. split; [reflexivity|]. split; [reflexivity|].
    intros i j Hi Hj. cbn [ent]. destruct (Nat.leb_spec j i); tsimp; bd; ring.
  - assert (D0 : data upper_diags <> []).
    { intro Z. pose proof (data_length upper_diags) as L. rewrite Z in L. unfold numel in L. rewrite V in L. simpl in L, Hd. lia. }
    destruct (data upper_diags) eqn:Q; [congruence|]. rewrite (rows_of _ _ _ V).
    eexists. split; [reflexivity|]. split; [reflexivity|].
    intros i j Hi Hj. cbn [ent]. destruct (Nat.leb_spec i j); tsimp; bd; ring.
Qed.

End Ops.
