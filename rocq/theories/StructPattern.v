(** The structures are closed under the matrix operations, and extracting the
    structure of a matrix which already has it changes nothing. *)

From Coq Require Import List Arith Lia Bool Field Ring.
From Verif Require Import Scalar Res Tensor TensorFacts Structures StructSpec StructDense.
Import ListNotations.

Section Pattern.
Context {SC : Scalar} {FL : FieldLaws SC}.
Open Scope F_scope.
Add Field Ffield_p : F_ft.

(** Product of two n x n matrices given by their entries. *)
Definition mprod (n : nat) (M N : nat -> nat -> F) (i j : nat) : F :=
  sum n (fun k => M i k * N k j).

(** A sum whose terms vanish outside of a window. *)
Lemma sum_window a w n f :
  (a + w <= n)%nat ->
  (forall k, (k < n)%nat -> (k < a \/ a + w <= k)%nat -> f k = 0) ->
  sum n f = sum w (fun q => f (a + q)%nat).
Proof.
  intros H Z. rewrite (sum_split_at a n) by lia.
  rewrite (sum_0 a) by (intros; apply Z; lia).
  rewrite (sum_split_at w (n - a)) by lia.
  rewrite (sum_0 (n - a - w)) by (intros; apply Z; lia). ring.
Qed.

(** Product of two lower triangular Toeplitz matrices. *)
Lemma toeplitz_conv n d e i j :
  (i < n)%nat -> (j < n)%nat ->
  sum n (fun k => (if Nat.leb k i then d (i - k)%nat else 0) * (if Nat.leb j k then e (k - j)%nat else 0)) =
  if Nat.leb j i then sum (Datatypes.S (i - j)) (fun q => d (i - j - q)%nat * e q) else 0.
Proof.
  intros Hi Hj. destruct (Nat.leb_spec j i).
  - rewrite (sum_window j (Datatypes.S (i - j)) n).
    + apply sum_ext. intros q Hq. bd. f_equal; f_equal; lia.
    + lia.
    + intros k Hk Ho. bd; ring.
  - apply sum_0. intros k Hk. bd; ring.
Qed.

Lemma conv_comm m d e :
  sum (Datatypes.S m) (fun q => d (m - q)%nat * e q) = sum (Datatypes.S m) (fun q => e (m - q)%nat * d q).
Proof.
  rewrite <- (sum_rev (Datatypes.S m)). apply sum_ext. intros q Hq.
  replace (m - (Datatypes.S m - 1 - q))%nat with q by lia.
  replace (Datatypes.S m - 1 - q)%nat with (m - q)%nat by lia. ring.
Qed.

Lemma toeplitz_conv_upper n d e i j :
  (i < n)%nat -> (j < n)%nat ->
  sum n (fun k => (if Nat.leb i k then d (k - i)%nat else 0) * (if Nat.leb k j then e (j - k)%nat else 0)) =
  if Nat.leb i j then sum (Datatypes.S (j - i)) (fun q => d (j - i - q)%nat * e q) else 0.
Proof.
  intros Hi Hj.
  rewrite (sum_ext n _ (fun k => (if Nat.leb k j then e (j - k)%nat else 0) * (if Nat.leb i k then d (k - i)%nat else 0)))
    by (intros; ring).
  rewrite toeplitz_conv by assumption. destruct (Nat.leb_spec i j); [|reflexivity].
  apply conv_comm.
Qed.

Lemma pattern_ext c : forall n M N,
  (forall i j, (i < n)%nat -> (j < n)%nat -> M i j = N i j) -> pattern c n M -> pattern c n N.
Proof.
  induction c; intros n M N E H; cbn [pattern] in *.
  - exact I.
  - intros. rewrite <- E by assumption. auto.
  - intros. rewrite <- E by assumption. auto.
  - destruct (hier_parts k1 k2 n) as [[K1 d] K2]. intros. rewrite <- E by assumption. auto.
  - destruct H as [d H]. exists d. intros. rewrite <- E by assumption. auto.
  - destruct H as [d H]. exists d. intros. rewrite <- E by assumption. auto.
  - pose proof (boundary_le n ma mc). destruct H as (HA & HC & HB). split; [|split].
    + eapply IHc1; [|exact HA]. intros. apply E; lia.
    + eapply IHc2; [|exact HC]. intros. cbn beta. apply E; lia.
    + destruct sd; intros; rewrite <- E by lia; apply HB; lia.
Qed.

Lemma pattern_add c : forall n M N,
  pattern c n M -> pattern c n N -> pattern c n (fun i j => M i j + N i j).
Proof.
  induction c; intros n M N HM HN; cbn [pattern] in *.
  - exact I.
  - intros. rewrite HM, HN by assumption. ring.
  - intros. rewrite HM, HN by assumption. ring.
  - destruct (hier_parts k1 k2 n) as [[K1 d] K2]. intros. rewrite HM, HN by assumption. ring.
  - destruct HM as [d HM], HN as [e HN]. exists (fun k => d k + e k). intros.
    rewrite HM, HN by assumption. bd; ring.
  - destruct HM as [d HM], HN as [e HN]. exists (fun k => d k + e k). intros.
    rewrite HM, HN by assumption. bd; ring.
  - destruct HM as (HA & HC & HB), HN as (HA' & HC' & HB'). split; [|split].
    + apply IHc1; assumption.
    + apply (IHc2 _ _ _ HC HC').
    + destruct sd; intros; rewrite HB, HB' by assumption; ring.
Qed.

Lemma pattern_scale c : forall n v M, pattern c n M -> pattern c n (fun i j => v * M i j).
Proof.
  induction c; intros n v M HM; cbn [pattern] in *.
  - exact I.
  - intros. rewrite HM by assumption. ring.
  - intros. rewrite HM by assumption. ring.
  - destruct (hier_parts k1 k2 n) as [[K1 d] K2]. intros. rewrite HM by assumption. ring.
  - destruct HM as [d HM]. exists (fun k => v * d k). intros. rewrite HM by assumption. bd; ring.
  - destruct HM as [d HM]. exists (fun k => v * d k). intros. rewrite HM by assumption. bd; ring.
  - destruct HM as (HA & HC & HB). split; [|split].
    + apply IHc1; assumption.
    + apply (IHc2 _ v _ HC).
    + destruct sd; intros; rewrite HB by assumption; ring.
Qed.

(** Multiples of the identity have every structure. *)
Lemma pattern_diag c : forall n v,
  pattern c n (fun i j => if Nat.eqb i j then v else 0).
Proof.
  induction c; intros n v; cbn [pattern] in *.
  - exact I.
  - intros. bd. reflexivity.
  - intros. bd; [congruence|reflexivity].
  - destruct (hier_parts k1 k2 n) as [[K1 d] K2]. intros. bd; reflexivity.
  - exists (fun k => if Nat.eqb k 0 then v else 0). intros. bd; reflexivity.
  - exists (fun k => if Nat.eqb k 0 then v else 0). intros. bd; reflexivity.
  - split; [|split].
    + apply IHc1.
    + eapply pattern_ext; [|apply (IHc2 _ v)]. intros. cbn beta. bd; reflexivity.
    + destruct sd; intros; bd; reflexivity.
Qed.

Lemma pattern_mul c : forall n M N,
  hier_free c -> pattern c n M -> pattern c n N -> pattern c n (mprod n M N).
Proof.
  induction c; intros n M N Hf HM HN; cbn [pattern hier_free] in *.
  - exact I.
  - intros i j Hi Hj Hij. apply sum_0. intros k Hk.
    destruct (Nat.eq_dec i k) as [<-|]; [rewrite HN|rewrite HM]; try assumption; ring.
  - intros i j Hi Hj Hij. apply sum_0. intros k Hk.
    destruct (Nat.eq_dec (i / D) (k / D)) as [E|]; [rewrite HN|rewrite HM]; try assumption; try ring.
    congruence.
  - contradiction.
  - destruct HM as [d HM], HN as [e HN].
    exists (fun m => sum (Datatypes.S m) (fun q => d (m - q)%nat * e q)).
    intros i j Hi Hj. rewrite <- (toeplitz_conv n d e i j Hi Hj). unfold mprod.
    apply sum_ext. intros k Hk. rewrite HM, HN by assumption. reflexivity.
  - destruct HM as [d HM], HN as [e HN].
    exists (fun m => sum (Datatypes.S m) (fun q => d (m - q)%nat * e q)).
    intros i j Hi Hj. rewrite <- (toeplitz_conv_upper n d e i j Hi Hj). unfold mprod.
    apply sum_ext. intros k Hk. rewrite HM, HN by assumption. reflexivity.
  - destruct HM as (HA & HC & HB), HN as (HA' & HC' & HB'), Hf as [Hf1 Hf2].
    pose proof (boundary_le n ma mc) as L. set (k := boundary n ma mc) in *.
    split; [|split].
    + eapply pattern_ext; [|apply (IHc1 k M N Hf1 HA HA')].
      intros i j Hi Hj. unfold mprod. symmetry.
      rewrite (sum_split_at k n) by lia. rewrite (sum_0 (n - k)); [ring|].
      intros q Hq. destruct sd; [rewrite HB'|rewrite HB]; try lia; ring.
    + eapply pattern_ext; [|apply (IHc2 (n - k)%nat _ _ Hf2 HC HC')].
      intros i j Hi Hj. unfold mprod. symmetry.
      rewrite (sum_split_at k n) by lia. rewrite (sum_0 k); [ring|].
      intros q Hq. destruct sd; [rewrite HB|rewrite HB']; try lia; ring.
    + destruct sd; intros i j Hi Hj Hq; unfold mprod; apply sum_0; intros p Hp;
        destruct (Nat.lt_ge_cases p k).
      * rewrite HB by lia. ring.
      * rewrite HB' by lia. ring.
      * rewrite HB' by lia. ring.
      * rewrite HB by lia. ring.
Qed.

Lemma pattern_ent c : forall n s, cls_ok c -> valid c n s -> pattern c n (ent s).
Proof.
  induction c; intros n s Hok H; destruct s; simpl in H; try contradiction; cbn [pattern].
  - exact I.
  - intros. cbn [ent]. bd. reflexivity.
  - intros. cbn [ent]. destruct H as (-> & _). bd; [congruence|reflexivity].
  - destruct H as (-> & -> & K1 & d & K2 & -> & HA & HB & HC & HD & HE).
    intros i j Hi Hj Hk Hc. cbn [ent]. rewrite (rows_of _ _ _ HA), (rows_of _ _ _ HC).
    bd; reflexivity.
  - exists (get1 lower_diags). reflexivity.
  - exists (get1 upper_diags). reflexivity.
  - destruct H as (-> & -> & -> & -> & -> & HA & HC & HB).
    assert (Hok' : cls_ok c1 /\ cls_ok c2) by (simpl in Hok; destruct ma, mc; tauto).
    destruct Hok' as [Ha Hc]. pose proof (boundary_le n ma mc) as L.
    pose proof (valid_sdim _ _ _ Ha HA) as SA.
    set (k := boundary n ma mc) in *.
    split; [|split].
    + eapply pattern_ext; [|apply (IHc1 _ _ Ha HA)]. intros i j Hi Hj. cbn [ent]. rewrite SA.
      destruct sd; bd; reflexivity.
    + eapply pattern_ext; [|apply (IHc2 _ _ Hc HC)]. intros i j Hi Hj. cbn [ent]. rewrite SA.
      destruct sd; bd; f_equal; lia.
    + destruct sd; intros i j Hi Hj Hq; cbn [ent]; rewrite SA; bd; reflexivity.
Qed.

(** ** Projection of a matrix which has the structure *)

Lemma sum_const_avg n v : n <> O -> sum n (fun _ => v) / fofnat n = v.
Proof. intros H. rewrite sum_const. field. apply fofnat_neq0. exact H. Qed.

Lemma diag_avg_lower n d M k :
  (k < n)%nat ->
  (forall i j, (i < n)%nat -> (j < n)%nat -> M i j = if Nat.leb j i then d (i - j)%nat else 0) ->
  diag_avg n M k = d k.
Proof.
  intros Hk H. unfold diag_avg. destruct k as [|k].
  - rewrite (sum_ext n _ (fun _ => d O)); [apply sum_const_avg; lia|].
    intros r Hr. rewrite H by assumption. bd. f_equal. lia.
  - rewrite (sum_ext _ _ (fun _ => d (Datatypes.S k))); [apply sum_const_avg; lia|].
    intros r Hr. rewrite !H by lia. bd.
    replace (r + Datatypes.S k - r)%nat with (Datatypes.S k) by lia. ring.
Qed.

Lemma diag_avg_transpose n M k : diag_avg n (fun i j => M j i) k = diag_avg n M k.
Proof.
  unfold diag_avg. destruct k; [reflexivity|]. f_equal. apply sum_ext. intros. ring.
Qed.

Lemma diag_avg_upper n d M k :
  (k < n)%nat ->
  (forall i j, (i < n)%nat -> (j < n)%nat -> M i j = if Nat.leb i j then d (j - i)%nat else 0) ->
  diag_avg n M k = d k.
Proof.
  intros Hk H. rewrite <- diag_avg_transpose. apply diag_avg_lower; [exact Hk|].
  intros. apply H; assumption.
Qed.

Lemma proj_id c : forall n M i j,
  hier_free c -> pattern c n M -> (i < n)%nat -> (j < n)%nat -> proj c n M i j = M i j.
Proof.
  induction c; intros n M i j Hf H Hi Hj; cbn [proj pattern hier_free] in *.
  - reflexivity.
  - bd; [reflexivity|]. symmetry. auto.
  - bd; [reflexivity|]. symmetry. auto.
  - contradiction.
  - destruct H as [d H]. rewrite H by assumption. bd; [|reflexivity].
    apply diag_avg_lower; [lia|exact H].
  - destruct H as [d H]. rewrite H by assumption. bd; [|reflexivity].
    apply diag_avg_upper; [lia|exact H].
  - destruct H as (HA & HC & HB), Hf as [Hf1 Hf2].
    pose proof (boundary_le n ma mc) as L. set (k := boundary n ma mc) in *.
    bd.
    + apply IHc1; assumption.
    + destruct sd; [rewrite (HB j i) by lia; ring|symmetry; apply HB; lia].
    + destruct sd; [symmetry; apply HB; lia|rewrite (HB j i) by lia; ring].
    + rewrite IHc2 by (assumption || lia). f_equal; lia.
Qed.

(** The identity and its multiples are kept by every class, also hierarchical ones. *)
Lemma proj_diag c : forall n v i j,
  (i < n)%nat -> (j < n)%nat ->
  proj c n (fun i j => if Nat.eqb i j then v else 0) i j = if Nat.eqb i j then v else 0.
Proof.
  induction c; intros n v i j Hi Hj; cbn [proj].
  - reflexivity.
  - bd; reflexivity.
  - bd; try reflexivity. subst. congruence.
  - destruct (hier_parts k1 k2 n) as [[K1 d] K2]. bd; try reflexivity; ring.
  - transitivity (if Nat.leb j i then (if Nat.eqb (i - j) 0 then v else 0) else 0).
    + bd; try reflexivity;
      rewrite (diag_avg_lower n (fun k => if Nat.eqb k 0 then v else 0)) by
        (try lia; intros; bd; reflexivity); bd; reflexivity.
    + bd; reflexivity.
  - transitivity (if Nat.leb i j then (if Nat.eqb (j - i) 0 then v else 0) else 0).
    + bd; try reflexivity;
      rewrite (diag_avg_upper n (fun k => if Nat.eqb k 0 then v else 0)) by
        (try lia; intros; bd; reflexivity); bd; reflexivity.
    + bd; reflexivity.
  - pose proof (boundary_le n ma mc) as L. set (k := boundary n ma mc) in *.
    destruct (Nat.ltb_spec i k); destruct (Nat.ltb_spec j k).
    + rewrite IHc1 by assumption. reflexivity.
    + destruct sd; bd; ring.
    + destruct sd; bd; ring.
    + rewrite (proj_ext _ _ _ (fun i j => if Nat.eqb i j then v else 0)) by
        (try lia; intros; bd; reflexivity).
      rewrite IHc2 by lia. bd; reflexivity.
Qed.

(** An object is determined by the matrix it represents. *)
Lemma ent_inj c : forall n a b,
  cls_ok c -> valid c n a -> valid c n b ->
  (forall i j, (i < n)%nat -> (j < n)%nat -> ent a i j = ent b i j) -> a = b.
Proof.
  induction c; intros n a b Hok Ha Hb E; destruct a; simpl in Ha; try contradiction;
    destruct b; simpl in Hb; try contradiction.
  - f_equal. apply (ext2 n n); auto.
  - f_equal. apply (ext1 n); auto. intros i Hi. specialize (E i i Hi Hi). cbn [ent] in E.
    rewrite Nat.eqb_refl in E. exact E.
  - destruct Ha as (-> & Hb1 & Hl1), Hb as (-> & Hb2 & Hl2).
    simpl in Hok. pose proof (block_dims D n Hok) as En. f_equal.
    + apply (ext3 (n / D) D D); auto. intros x r c Hx Hr Hc.
      assert (Bx : (x * D + D <= n)%nat) by nia.
      specialize (E (x * D + r) (x * D + c))%nat. cbn [ent] in E.
      rewrite (rows_of _ _ _ Hb1), (rows_of _ _ _ Hb2) in E.
      rewrite !Nat.div_add_l, !(Nat.div_small _ D), !Nat.add_0_r, Nat.eqb_refl in E by assumption.
      rewrite !(Nat.add_comm (x * D)), !Nat.mod_add, !Nat.mod_small in E by assumption.
      destruct (Nat.ltb_spec x (n / D)); [|lia]. apply E; lia.
    + apply (ext2 (n mod D) (n mod D)); auto. intros r c Hr Hc.
      pose proof (Nat.mod_upper_bound n D Hok) as U.
      specialize (E (n / D * D + r) (n / D * D + c))%nat. cbn [ent] in E.
      rewrite (rows_of _ _ _ Hb1), (rows_of _ _ _ Hb2) in E.
      rewrite !Nat.div_add_l, (Nat.div_small r D), (Nat.div_small c D), !Nat.add_0_r, Nat.eqb_refl in E by lia.
      rewrite Nat.ltb_irrefl in E.
      replace (n / D * D + r - n / D * D)%nat with r in E by lia.
      replace (n / D * D + c - n / D * D)%nat with c in E by lia.
      apply E; lia.
  - destruct Ha as (-> & -> & K1 & d & K2 & Ed & HA & HB & HC & HD & HE).
    destruct Hb as (-> & -> & K1' & d' & K2' & Ed' & HA' & HB' & HC' & HD' & HE').
    rewrite Ed in Ed'. injection Ed' as <- <- <-.
    apply hier_parts_spec in Ed as (En & _).
    cbn [ent] in E.
    rewrite (rows_of _ _ _ HA), (rows_of _ _ _ HC), (rows_of _ _ _ HA'), (rows_of _ _ _ HC') in E.
    f_equal.
    + apply (ext2 K1 K1); auto. intros i j Hi Hj. specialize (E i j).
      revert E. bd. intros E. apply E; lia.
    + apply (ext2 K1 (d + K2)); auto. intros i j Hi Hj. specialize (E i (K1 + j))%nat.
      revert E. bd. intros E. replace (K1 + j - K1)%nat with j in E by lia. apply E; lia.
    + apply (ext1 d); auto. intros i Hi. specialize (E (K1 + i) (K1 + i))%nat.
      revert E. bd. intros E. replace (K1 + i - K1)%nat with i in E by lia. apply E; lia.
    + apply (ext2 K2 d); auto. intros i j Hi Hj. specialize (E (K1 + d + i) (K1 + j))%nat.
      revert E. bd; intros E; replace (K1 + j - K1)%nat with j in E by lia;
        replace (K1 + d + i - K1 - d)%nat with i in E by lia; apply E; lia.
    + apply (ext2 K2 K2); auto. intros i j Hi Hj. specialize (E (K1 + d + i) (K1 + d + j))%nat.
      revert E. bd; intros E; replace (K1 + d + j - K1 - d)%nat with j in E by lia;
        replace (K1 + d + i - K1 - d)%nat with i in E by lia; apply E; lia.
  - f_equal. apply (ext1 n); auto. intros i Hi. specialize (E i O). cbn [ent] in E.
    rewrite Nat.sub_0_r in E. revert E. bd. intros E. apply E; lia.
  - f_equal. apply (ext1 n); auto. intros i Hi. specialize (E O i). cbn [ent] in E.
    rewrite Nat.sub_0_r in E. revert E. bd. intros E. apply E; lia.
  - destruct Ha as (-> & -> & -> & -> & -> & HA & HC & HB).
    destruct Hb as (-> & -> & -> & -> & -> & HA' & HC' & HB').
    assert (Hok' : cls_ok c1 /\ cls_ok c2) by (simpl in Hok; destruct ma, mc; tauto).
    destruct Hok' as [Ha Hc]. pose proof (boundary_le n ma mc) as L.
    pose proof (valid_sdim _ _ _ Ha HA) as SA. pose proof (valid_sdim _ _ _ Ha HA') as SA'.
    cbn [ent] in E. rewrite SA, SA' in E.
    set (k := boundary n ma mc) in *.
    f_equal.
    + apply (IHc1 k); auto. intros i j Hi Hj. specialize (E i j).
      destruct sd; revert E; bd; intros E; apply E; lia.
    + destruct sd.
      * apply (ext2 k (n - k)); auto. intros i j Hi Hj. specialize (E i (k + j))%nat.
        revert E; bd; intros E. replace (k + j - k)%nat with j in E by lia. apply E; lia.
      * apply (ext2 (n - k) k); auto. intros i j Hi Hj. specialize (E (k + i) j)%nat.
        revert E; bd; intros E. replace (k + i - k)%nat with i in E by lia. apply E; lia.
    + apply (IHc2 (n - k)%nat); auto. intros i j Hi Hj. specialize (E (k + i) (k + j))%nat.
      destruct sd; revert E; bd; intros E;
        replace (k + i - k)%nat with i in E by lia; replace (k + j - k)%nat with j in E by lia; apply E; lia.
Qed.

(** Extracting a matrix which has the structure. *)
Lemma from_dense_pattern c n M :
  cls_ok c -> dim_ok c n -> hier_free c -> pattern c n M ->
  exists s, from_dense c (tab2 n n M) = Ok s /\ valid c n s /\
            forall i j, (i < n)%nat -> (j < n)%nat -> ent s i j = M i j.
Proof.
  intros Hok Hd Hf HM. destruct (from_dense_ok c n Hok Hd (tab2 n n M) eq_refl) as (s & E & V & H).
  exists s. split; [exact E|]. split; [exact V|]. intros i j Hi Hj.
  rewrite H by assumption. rewrite (proj_ext _ _ _ M) by (try assumption; intros; tsimp; reflexivity).
  apply proj_id; assumption.
Qed.

End Pattern.
