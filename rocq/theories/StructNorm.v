(** Norms of structured matrices (over the real numbers). *)

From Coq Require Import List Arith Lia Bool Field Ring Reals Lra.
From Verif Require Import Scalar Res Tensor TensorFacts Structures StructSpec StructDense StructPattern
  StructMul StructOps.
Import ListNotations.

(** Block-diagonal and hierarchical parts have dimension at least 1. *)
Fixpoint fro_dim_ok (c : cls) (n : nat) : Prop :=
  match c with
  | CBlock _ | CHier _ _ => n <> 0
  | CRec _ ma mc a c => fro_dim_ok a (boundary n ma mc) /\ fro_dim_ok c (n - boundary n ma mc)
  | _ => True
  end.

Section Generic.
Context {SC : Scalar} {FL : FieldLaws SC}.
Open Scope F_scope.
Add Field Ffield_n : F_ft.

(** ** Components and entries *)

Lemma tget_In t idx : in_range (shape t) idx -> In (tget t idx) (data t).
Proof.
  intros H. unfold tget. apply nth_In. rewrite data_length. apply flat_lt. exact H.
Qed.

Lemma In_tget t x : In x (data t) -> exists idx, in_range (shape t) idx /\ tget t idx = x.
Proof.
  intros H. apply (In_nth _ _ 0) in H as (k & Hk & E). rewrite data_length in Hk.
  exists (unflat (shape t) k). split; [apply unflat_range; exact Hk|].
  unfold tget. rewrite flat_unflat by exact Hk. exact E.
Qed.

Definition alldata (s : smat) : list F := flat_map data (tensors s).

Lemma alldata_rec sd ma mc ca cc A B C x :
  In x (alldata (MRec sd ma mc ca cc A B C)) <-> In x (data B) \/ In x (alldata A) \/ In x (alldata C).
Proof.
  unfold alldata. cbn [tensors flat_map]. rewrite flat_map_app, !in_app_iff. tauto.
Qed.

Ltac in_here :=
  unfold alldata; cbn [tensors flat_map]; rewrite ?app_nil_r, ?in_app_iff.

Lemma ent_in c : forall n s i j,
  cls_ok c -> valid c n s -> (i < n)%nat -> (j < n)%nat ->
  In (ent s i j) (alldata s) \/ ent s i j = 0 /\ i <> j.
Proof.
  induction c; intros n s i j Hok H Hi Hj; destruct s; simpl in H; try contradiction; cbn [ent].
  - left. in_here. apply tget_In. rewrite H. apply in_range2; assumption.
  - destruct (Nat.eqb_spec i j); [left|right; auto]. in_here. apply tget_In. rewrite H. apply in_range1; assumption.
  - destruct H as (-> & Hb & Hl). simpl in Hok. rewrite (rows_of _ _ _ Hb).
    pose proof (block_dims D n Hok). pose proof (div_lt_iff D i n Hok Hi). pose proof (div_lt_iff D j n Hok Hj).
    pose proof (Nat.mod_upper_bound i D Hok). pose proof (Nat.mod_upper_bound j D Hok).
    destruct (Nat.eqb_spec (i / D) (j / D)); [|right; split; [reflexivity|congruence]].
    left. in_here. destruct (Nat.ltb_spec (i / D) (n / D)).
    + left. apply tget_In. rewrite Hb. apply in_range3; assumption.
    + right. apply tget_In. rewrite Hl. apply in_range2; lia.
  - destruct H as (-> & -> & K1 & d & K2 & Ed & HA & HB & HC & HD & HE).
    apply hier_parts_spec in Ed as (En & _).
    rewrite (rows_of _ _ _ HA), (rows_of _ _ _ HC).
    destruct (Nat.ltb_spec i K1); [|destruct (Nat.ltb_spec i (K1 + d))].
    + left. in_here. destruct (Nat.ltb_spec j K1).
      * left. apply tget_In. rewrite HA. apply in_range2; lia.
      * right; left. apply tget_In. rewrite HB. apply in_range2; lia.
    + destruct (Nat.eqb_spec i j); [left|right; auto]. in_here.
      do 2 right; left. apply tget_In. rewrite HC. apply in_range1; lia.
    + destruct (Nat.ltb_spec j K1); [right; split; [reflexivity|lia]|left]. in_here.
      destruct (Nat.ltb_spec j (K1 + d)).
      * do 3 right; left. apply tget_In. rewrite HD. apply in_range2; lia.
      * do 4 right. apply tget_In. rewrite HE. apply in_range2; lia.
  - destruct (Nat.leb_spec j i); [left|right; split; [reflexivity|lia]]. in_here. apply tget_In.
    rewrite H. apply in_range1; lia.
  - destruct (Nat.leb_spec i j); [left|right; split; [reflexivity|lia]]. in_here. apply tget_In.
    rewrite H. apply in_range1; lia.
  - destruct H as (-> & -> & -> & -> & -> & HA & HC & HB).
    apply valid_rec_ok in Hok as [Ha Hc]. pose proof (boundary_le n ma mc) as L.
    rewrite (valid_sdim _ _ _ Ha HA), alldata_rec. set (k := boundary n ma mc) in *.
    assert (IA : (i < k)%nat -> (j < k)%nat ->
              (In (ent s1 i j) (data B) \/ In (ent s1 i j) (alldata s1) \/ In (ent s1 i j) (alldata s2)) \/
              ent s1 i j = 0 /\ i <> j).
    { intros Hi' Hj'. destruct (IHc1 k s1 i j Ha HA Hi' Hj') as [|]; tauto. }
    assert (IC : (k <= i)%nat -> (k <= j)%nat ->
              (In (ent s2 (i - k) (j - k)) (data B) \/ In (ent s2 (i - k) (j - k)) (alldata s1) \/
               In (ent s2 (i - k) (j - k)) (alldata s2)) \/
              ent s2 (i - k) (j - k) = 0 /\ i <> j).
    { intros Hi' Hj'. destruct (IHc2 (n - k)%nat s2 (i - k)%nat (j - k)%nat Hc HC) as [|[? ?]]; try lia.
      - tauto.
      - right. split; [assumption|lia]. }
    destruct sd; destruct (Nat.ltb_spec i k), (Nat.ltb_spec j k); auto;
      try (right; split; [reflexivity|lia]); left; left; apply tget_In; rewrite HB; apply in_range2; lia.
Qed.

Lemma in_ent c : forall n s x,
  cls_ok c -> valid c n s -> In x (alldata s) ->
  exists i j, (i < n)%nat /\ (j < n)%nat /\ ent s i j = x.
Proof.
  induction c; intros n s x Hok H Hx; destruct s; simpl in H; try contradiction; cbn [ent].
  - unfold alldata in Hx. cbn [tensors flat_map] in Hx. rewrite app_nil_r in Hx.
    apply In_tget in Hx as (idx & Hr & <-). rewrite H in Hr. apply in_range2_inv in Hr as (i & j & -> & ? & ?).
    exists i, j. auto.
  - unfold alldata in Hx. cbn [tensors flat_map] in Hx. rewrite app_nil_r in Hx.
    apply In_tget in Hx as (idx & Hr & <-). rewrite H in Hr. apply in_range1_inv in Hr as (i & -> & ?).
    exists i, i. rewrite Nat.eqb_refl. auto.
  - destruct H as (-> & Hb & Hl). simpl in Hok. rewrite (rows_of _ _ _ Hb).
    pose proof (block_dims D n Hok) as E. pose proof (Nat.mod_upper_bound n D Hok).
    unfold alldata in Hx. cbn [tensors flat_map] in Hx. rewrite app_nil_r, in_app_iff in Hx.
    destruct Hx as [Hx|Hx]; apply In_tget in Hx as (idx & Hr & <-).
    + rewrite Hb in Hr. apply in_range3_inv in Hr as (b & r & c & -> & Hb0 & Hr & Hc).
      exists (b * D + r)%nat, (b * D + c)%nat.
      rewrite !Nat.div_add_l, (Nat.div_small r D), (Nat.div_small c D), Nat.add_0_r, Nat.eqb_refl by lia.
      rewrite !(Nat.add_comm (b * D)), !Nat.mod_add, (Nat.mod_small r D), (Nat.mod_small c D) by lia.
      destruct (Nat.ltb_spec b (n / D)); [|lia]. repeat split; nia.
    + rewrite Hl in Hr. apply in_range2_inv in Hr as (r & c & -> & Hr & Hc).
      exists (n / D * D + r)%nat, (n / D * D + c)%nat.
      rewrite !Nat.div_add_l, (Nat.div_small r D), (Nat.div_small c D), Nat.add_0_r, Nat.eqb_refl by lia.
      rewrite Nat.ltb_irrefl. repeat split; try lia.
      unfold get2. do 3 f_equal; [lia|f_equal; lia].
  - destruct H as (-> & -> & K1 & d & K2 & Ed & HA & HB & HC & HD & HE).
    apply hier_parts_spec in Ed as (En & _).
    rewrite (rows_of _ _ _ HA), (rows_of _ _ _ HC).
    unfold alldata in Hx. cbn [tensors flat_map] in Hx. rewrite app_nil_r, !in_app_iff in Hx.
    destruct Hx as [Hx|[Hx|[Hx|[Hx|Hx]]]]; apply In_tget in Hx as (idx & Hr & <-).
    + rewrite HA in Hr. apply in_range2_inv in Hr as (i & j & -> & ? & ?).
      exists i, j. split; [lia|]. split; [lia|]. bd. reflexivity.
    + rewrite HB in Hr. apply in_range2_inv in Hr as (i & j & -> & ? & ?).
      exists i, (K1 + j)%nat. split; [lia|]. split; [lia|].
      destruct (Nat.ltb_spec i K1); [|lia]. destruct (Nat.ltb_spec (K1 + j) K1); [lia|].
      replace (K1 + j - K1)%nat with j by lia. reflexivity.
    + rewrite HC in Hr. apply in_range1_inv in Hr as (i & -> & ?).
      exists (K1 + i)%nat, (K1 + i)%nat. split; [lia|]. split; [lia|].
      destruct (Nat.ltb_spec (K1 + i) K1); [lia|]. destruct (Nat.ltb_spec (K1 + i) (K1 + d)); [|lia].
      rewrite Nat.eqb_refl. replace (K1 + i - K1)%nat with i by lia. reflexivity.
    + rewrite HD in Hr. apply in_range2_inv in Hr as (i & j & -> & ? & ?).
      exists (K1 + d + i)%nat, (K1 + j)%nat. split; [lia|]. split; [lia|].
      destruct (Nat.ltb_spec (K1 + d + i) K1); [lia|]. destruct (Nat.ltb_spec (K1 + d + i) (K1 + d)); [lia|].
      destruct (Nat.ltb_spec (K1 + j) K1); [lia|]. destruct (Nat.ltb_spec (K1 + j) (K1 + d)); [|lia].
      replace (K1 + d + i - K1 - d)%nat with i by lia. replace (K1 + j - K1)%nat with j by lia. reflexivity.
    + rewrite HE in Hr. apply in_range2_inv in Hr as (i & j & -> & ? & ?).
      exists (K1 + d + i)%nat, (K1 + d + j)%nat. split; [lia|]. split; [lia|].
      destruct (Nat.ltb_spec (K1 + d + i) K1); [lia|]. destruct (Nat.ltb_spec (K1 + d + i) (K1 + d)); [lia|].
      destruct (Nat.ltb_spec (K1 + d + j) K1); [lia|]. destruct (Nat.ltb_spec (K1 + d + j) (K1 + d)); [lia|].
      replace (K1 + d + i - K1 - d)%nat with i by lia. replace (K1 + d + j - K1 - d)%nat with j by lia. reflexivity.
  - unfold alldata in Hx. cbn [tensors flat_map] in Hx. rewrite app_nil_r in Hx.
    apply In_tget in Hx as (idx & Hr & <-). rewrite H in Hr. apply in_range1_inv in Hr as (i & -> & ?).
    exists i, O. rewrite Nat.sub_0_r. cbn [Nat.leb]. repeat split; lia.
  - unfold alldata in Hx. cbn [tensors flat_map] in Hx. rewrite app_nil_r in Hx.
    apply In_tget in Hx as (idx & Hr & <-). rewrite H in Hr. apply in_range1_inv in Hr as (i & -> & ?).
    exists O, i. rewrite Nat.sub_0_r. cbn [Nat.leb]. repeat split; lia.
  - destruct H as (-> & -> & -> & -> & -> & HA & HC & HB).
    apply valid_rec_ok in Hok as [Ha Hc]. pose proof (boundary_le n ma mc) as L.
    rewrite (valid_sdim _ _ _ Ha HA). rewrite alldata_rec in Hx. set (k := boundary n ma mc) in *.
    destruct Hx as [Hx|[Hx|Hx]].
    + apply In_tget in Hx as (idx & Hr & <-). rewrite HB in Hr.
      destruct sd; apply in_range2_inv in Hr as (i & j & -> & ? & ?).
      * exists i, (k + j)%nat. destruct (Nat.ltb_spec i k); [|lia]. destruct (Nat.ltb_spec (k + j) k); [lia|].
        replace (k + j - k)%nat with j by lia. repeat split; lia.
      * exists (k + i)%nat, j. destruct (Nat.ltb_spec (k + i) k); [lia|]. destruct (Nat.ltb_spec j k); [|lia].
        replace (k + i - k)%nat with i by lia. repeat split; lia.
    + destruct (IHc1 k s1 x Ha HA Hx) as (i & j & Hi & Hj & <-). exists i, j.
      destruct (Nat.ltb_spec i k); [|lia]. destruct (Nat.ltb_spec j k); [|lia].
      destruct sd; repeat split; lia.
    + destruct (IHc2 (n - k)%nat s2 x Hc HC Hx) as (i & j & Hi & Hj & <-). exists (k + i)%nat, (k + j)%nat.
      destruct (Nat.ltb_spec (k + i) k); [lia|]. destruct (Nat.ltb_spec (k + j) k); [lia|].
      replace (k + i - k)%nat with i by lia. replace (k + j - k)%nat with j by lia.
      destruct sd; repeat split; lia.
Qed.

(** ** Sum of squares *)

Definition ssq (n m : nat) (M : nat -> nat -> F) : F := sum n (fun i => sum m (fun j => M i j * M i j)).

Lemma ssq_ext n m M N :
  (forall i j, (i < n)%nat -> (j < m)%nat -> M i j = N i j) -> ssq n m M = ssq n m N.
Proof. intros H. unfold ssq. apply sum_ext. intros. apply sum_ext. intros. rewrite H by assumption. reflexivity. Qed.

Lemma ssq_0 n m M : (forall i j, (i < n)%nat -> (j < m)%nat -> M i j = 0) -> ssq n m M = 0.
Proof. intros H. unfold ssq. apply sum_0. intros. apply sum_0. intros. rewrite H by assumption. ring. Qed.

Lemma ssq_quad k n M :
  (k <= n)%nat ->
  ssq n n M = ssq k k M + ssq k (n - k) (fun i j => M i (k + j)%nat) +
              ssq (n - k) k (fun i j => M (k + i)%nat j) + ssq (n - k) (n - k) (fun i j => M (k + i) (k + j))%nat.
Proof.
  intros L. unfold ssq. rewrite (sum_split_at k n) by exact L.
  rewrite (sum_ext k _ (fun i => sum k (fun j => M i j * M i j) + sum (n - k) (fun j => M i (k + j)%nat * M i (k + j)%nat)))
    by (intros; apply sum_split_at; exact L).
  rewrite (sum_ext (n - k) _ (fun i => sum k (fun j => M (k + i)%nat j * M (k + i)%nat j) +
             sum (n - k) (fun j => M (k + i)%nat (k + j)%nat * M (k + i)%nat (k + j)%nat)))
    by (intros; apply sum_split_at; exact L).
  rewrite !sum_plus. ring.
Qed.

Lemma tsum_sq2 t n m : shape t = [n; m] -> tsum (t_sq t) = ssq n m (get2 t).
Proof.
  intros H. unfold t_sq. rewrite (t_map_ok2 _ _ n m H), (tsum_2 _ n m) by reflexivity.
  unfold ssq. apply sum_ext. intros. apply sum_ext. intros. tsimp. reflexivity.
Qed.
Lemma tsum_sq1 t n : shape t = [n] -> tsum (t_sq t) = sum n (fun i => get1 t i * get1 t i).
Proof.
  intros H. unfold t_sq. rewrite (t_map_ok1 _ _ n H), (tsum_1 _ n) by reflexivity.
  apply sum_ext. intros. tsimp. reflexivity.
Qed.
Lemma tsum_sq3 t n m l :
  shape t = [n; m; l] -> tsum (t_sq t) = sum n (fun i => ssq m l (get3 t i)).
Proof.
  intros H. unfold t_sq. rewrite (t_map_ok3 _ _ n m l H), (tsum_3 _ n m l) by reflexivity.
  unfold ssq. apply sum_ext. intros. apply sum_ext. intros. apply sum_ext. intros. tsimp. reflexivity.
Qed.

(** Sum over the lower triangle, by diagonals. *)
Lemma sum_tri n f :
  sum n (fun i => sum n (fun j => if Nat.leb j i then f (i - j)%nat else 0)) =
  sum n (fun k => fofnat (n - k) * f k).
Proof.
  transitivity (sum n (fun i => sum (Datatypes.S i) f)).
  - apply sum_ext. intros i Hi. rewrite (sum_split_at (Datatypes.S i) n) by lia.
    rewrite (sum_0 (n - Datatypes.S i)).
    + rewrite <- (sum_rev (Datatypes.S i) f).
      rewrite (sum_ext (Datatypes.S i) _ (fun j => f (Datatypes.S i - 1 - j)%nat)); [ring|].
      intros j Hj. destruct (Nat.leb_spec j i); [|lia]. f_equal. lia.
    + intros j Hj. destruct (Nat.leb_spec (Datatypes.S i + j) i); [lia|reflexivity].
  - induction n.
    + reflexivity.
    + change (sum (Datatypes.S n) (fun i => sum (Datatypes.S i) f))
        with (sum n (fun i => sum (Datatypes.S i) f) + sum (Datatypes.S n) f).
      rewrite IHn.
      rewrite (sum_ext (Datatypes.S n) (fun k => fofnat (Datatypes.S n - k) * f k)
                 (fun k => fofnat (n - k) * f k + f k)).
      * rewrite sum_plus. f_equal.
        change (sum (Datatypes.S n) (fun k => fofnat (n - k) * f k))
          with (sum n (fun k => fofnat (n - k) * f k) + fofnat (n - n) * f n).
        rewrite Nat.sub_diag. change (fofnat 0) with 0. ring.
      * intros k Hk. replace (Datatypes.S n - k)%nat with (Datatypes.S (n - k)) by lia.
        change (fofnat (Datatypes.S (n - k))) with (fofnat (n - k) + 1). ring.
Qed.

(** The sum of the squared entries, from the components. *)
Fixpoint fro2 (s : smat) : F :=
  match s with
  | MDense t => tsum (t_sq t)
  | MDiag t => tsum (t_sq t)
  | MBlock _ b l => tsum (t_sq b) + tsum (t_sq l)
  | MHier _ _ A B C D E => tsum (t_sq A) + tsum (t_sq B) + tsum (t_sq C) + tsum (t_sq D) + tsum (t_sq E)
  | MTril d | MTriu d => sum (rows d) (fun k => fofnat (rows d - k) * (get1 d k * get1 d k))
  | MRec _ _ _ _ _ A B C => tsum (t_sq B) + (fro2 A + fro2 C)
  end.

Lemma fro2_ok c : forall n s, cls_ok c -> valid c n s -> fro2 s = ssq n n (ent s).
Proof.
  induction c; intros n s Hok H; destruct s; simpl in H; try contradiction; cbn [fro2].
  - apply tsum_sq2. exact H.
  - rewrite (tsum_sq1 _ n H). unfold ssq. apply sum_ext. intros i Hi. cbn [ent].
    rewrite (sum_single n i); [rewrite Nat.eqb_refl; reflexivity|exact Hi|].
    intros j Hj Hne. bd. ring.
  - destruct H as (-> & Hb & Hl). simpl in Hok.
    rewrite (tsum_sq3 _ _ _ _ Hb), (tsum_sq2 _ _ _ Hl).
    pose proof (block_dims D n Hok) as E. pose proof (Nat.mod_upper_bound n D Hok) as U.
    rewrite (ssq_quad (n / D * D) n) by lia. replace (n - n / D * D)%nat with (n mod D) by lia.
    rewrite (ssq_0 (n / D * D) (n mod D)).
    2:{ intros i j Hi Hj. cbn [ent].
        rewrite Nat.div_add_l, (Nat.div_small j D), Nat.add_0_r by lia.
        assert (i / D < n / D)%nat by (apply div_lt_iff; [exact Hok|lia|exact Hi]). bd; try reflexivity. }
    rewrite (ssq_0 (n mod D) (n / D * D)).
    2:{ intros i j Hi Hj. cbn [ent].
        rewrite Nat.div_add_l, (Nat.div_small i D), Nat.add_0_r by lia.
        assert (j / D < n / D)%nat by (apply div_lt_iff; [exact Hok|lia|exact Hj]). bd; try reflexivity. }
    rewrite (ssq_ext (n mod D) (n mod D) (fun i j => ent _ _ _) (get2 last)).
    2:{ intros i j Hi Hj. cbn [ent]. rewrite (rows_of _ _ _ Hb).
        rewrite !Nat.div_add_l, (Nat.div_small i D), (Nat.div_small j D), Nat.add_0_r, Nat.eqb_refl, Nat.ltb_irrefl by lia.
        f_equal; lia. }
    transitivity (sum (n / D) (fun i => ssq D D (get3 blocks i)) + 0 + 0 + ssq (n mod D) (n mod D) (get2 last)); [ring|].
    f_equal. f_equal. f_equal.
    unfold ssq at 2. rewrite sum_blocks. apply sum_ext. intros b Hb0. unfold ssq. apply sum_ext. intros r Hr.
    rewrite sum_blocks. rewrite (sum_single (n / D) b).
    + apply sum_ext. intros c Hc. cbn [ent]. rewrite (rows_of _ _ _ Hb).
      rewrite !Nat.div_add_l, (Nat.div_small r D), (Nat.div_small c D), Nat.add_0_r, Nat.eqb_refl by lia.
      rewrite !(Nat.add_comm (b * D)), !Nat.mod_add, (Nat.mod_small r D), (Nat.mod_small c D) by lia.
      destruct (Nat.ltb_spec b (n / D)); [reflexivity|lia].
    + exact Hb0.
    + intros b' Hb' Hne. apply sum_0. intros c Hc. cbn [ent].
      rewrite !Nat.div_add_l, (Nat.div_small r D), (Nat.div_small c D) by lia. bd; ring.
  - destruct H as (-> & -> & K1 & d & K2 & Ed & HA & HB & HC & HD & HE).
    apply hier_parts_spec in Ed as (En & _).
    rewrite (tsum_sq2 _ _ _ HA), (tsum_sq2 _ _ _ HB), (tsum_sq1 _ _ HC), (tsum_sq2 _ _ _ HD), (tsum_sq2 _ _ _ HE).
    rewrite (ssq_quad K1 n) by lia. replace (n - K1)%nat with (d + K2)%nat by lia.
    rewrite (ssq_ext K1 K1 (ent _) (get2 A)).
    2:{ intros. cbn [ent]. rewrite (rows_of _ _ _ HA). bd; try reflexivity. }
    rewrite (ssq_ext K1 (d + K2) (fun i j => ent _ _ _) (get2 B)).
    2:{ intros i j Hi Hj. cbn [ent]. rewrite (rows_of _ _ _ HA).
        destruct (Nat.ltb_spec i K1); [|lia]. destruct (Nat.ltb_spec (K1 + j) K1); [lia|]. f_equal; lia. }
    rewrite (ssq_0 (d + K2) K1).
    2:{ intros i j Hi Hj. cbn [ent]. rewrite (rows_of _ _ _ HA), (rows_of _ _ _ HC). bd; try reflexivity. }
    rewrite (ssq_quad d (d + K2)) by lia. replace (d + K2 - d)%nat with K2 by lia.
    rewrite (ssq_0 d K2).
    2:{ intros i j Hi Hj. cbn [ent]. rewrite (rows_of _ _ _ HA), (rows_of _ _ _ HC). bd; try reflexivity. }
    rewrite (ssq_ext K2 d (fun i j => ent _ _ _) (get2 D)).
    2:{ intros i j Hi Hj. cbn [ent]. rewrite (rows_of _ _ _ HA), (rows_of _ _ _ HC).
        bd. f_equal; lia. }
    rewrite (ssq_ext K2 K2 (fun i j => ent _ _ _) (get2 E)).
    2:{ intros i j Hi Hj. cbn [ent]. rewrite (rows_of _ _ _ HA), (rows_of _ _ _ HC).
        bd. f_equal; lia. }
    assert (QC : ssq d d (fun i j => ent (MHier k1 k2 A B C D E) (K1 + i) (K1 + j)) = sum d (fun i => get1 C i * get1 C i)).
    { unfold ssq. apply sum_ext. intros i Hi. cbn [ent]. rewrite (rows_of _ _ _ HA), (rows_of _ _ _ HC).
      rewrite (sum_single d i); [|exact Hi|].
      - destruct (Nat.ltb_spec (K1 + i) K1); [lia|]. destruct (Nat.ltb_spec (K1 + i) (K1 + d)); [|lia].
        rewrite Nat.eqb_refl. replace (K1 + i - K1)%nat with i by lia. reflexivity.
      - intros j Hj Hne. bd. ring. }
    rewrite QC. ring.
  - rewrite (rows_of _ _ _ H). rewrite <- (sum_tri n (fun k => get1 lower_diags k * get1 lower_diags k)).
    unfold ssq. apply sum_ext. intros i Hi. apply sum_ext. intros j Hj. cbn [ent]. bd; ring.
  - rewrite (rows_of _ _ _ H). rewrite <- (sum_tri n (fun k => get1 upper_diags k * get1 upper_diags k)).
    rewrite sum_swap.
    unfold ssq. apply sum_ext. intros i Hi. apply sum_ext. intros j Hj. cbn [ent]. bd; ring.
  - destruct H as (-> & -> & -> & -> & -> & HA & HC & HB).
    apply valid_rec_ok in Hok as [Ha Hc]. pose proof (boundary_le n ma mc) as L.
    rewrite (IHc1 _ _ Ha HA), (IHc2 _ _ Hc HC).
    pose proof (valid_sdim _ _ _ Ha HA) as SA. set (k := boundary n ma mc) in *.
    rewrite (ssq_quad k n) by exact L.
    rewrite (ssq_ext k k (ent (MRec _ _ _ _ _ _ _ _)) (ent s1)).
    2:{ intros. cbn [ent]. rewrite SA. destruct sd; bd; try reflexivity. }
    rewrite (ssq_ext (n - k) (n - k) (fun i j => ent (MRec _ _ _ _ _ _ _ _) _ _) (ent s2)).
    2:{ intros i j Hi Hj. cbn [ent]. rewrite SA. destruct sd; bd; f_equal; lia. }
    destruct sd.
    + rewrite (ssq_0 (n - k) k) by (intros; cbn [ent]; rewrite SA; bd; reflexivity).
      rewrite (tsum_sq2 _ _ _ HB). rewrite (ssq_ext k (n - k) (fun i j => ent _ _ _) (get2 B)); [ring|].
      intros i j Hi Hj. cbn [ent]. rewrite SA. bd. f_equal; lia.
    + rewrite (ssq_0 k (n - k)) by (intros; cbn [ent]; rewrite SA; bd; reflexivity).
      rewrite (tsum_sq2 _ _ _ HB). rewrite (ssq_ext (n - k) k (fun i j => ent _ _ _) (get2 B)); [ring|].
      intros i j Hi Hj. cbn [ent]. rewrite SA. bd. f_equal; lia.
Qed.

Lemma tsum_numel0 t : numel t = O -> tsum t = 0.
Proof. intros H. unfold tsum. rewrite H. reflexivity. Qed.

Lemma norm2_cat_ok l :
  (exists t, In t l /\ numel t <> O) ->
  norm2_cat l = Ok (fsqrt (fold_left (fun acc t => acc + tsum (t_sq t)) l 0)).
Proof.
  intros (t & Ht & N0). unfold norm2_cat.
  assert (E : forall l acc, fold_left (fun acc t => acc + tsum (t_sq t)) (filter (fun t => negb (Nat.eqb (numel t) 0)) l) acc =
              fold_left (fun acc t => acc + tsum (t_sq t)) l acc).
  { clear - FL. induction l; intros acc; [reflexivity|]. simpl. destruct (Nat.eqb_spec (numel a) 0); simpl.
    - rewrite IHl. f_equal. rewrite (tsum_numel0 (t_sq a)) by exact e. ring.
    - apply IHl. }
  destruct (filter _ l) eqn:Q.
  - assert (In t []) by (rewrite <- Q; apply filter_In; split; [exact Ht|]; destruct (Nat.eqb_spec (numel t) 0); [contradiction|reflexivity]).
    contradiction.
  - rewrite <- Q, E. reflexivity.
Qed.

End Generic.

(** ** Over the reals *)

Section Real.
Existing Instance R_scalar.
Open Scope R_scope.

Lemma sumR_nonneg n (f : nat -> R) : (forall i, (i < n)%nat -> 0 <= f i) -> 0 <= (sum n f : R).
Proof.
  induction n; intros H; simpl; [lra|].
  assert (0 <= (sum n f : R)) by (apply IHn; intros; apply H; lia).
  specialize (H n ltac:(lia)). lra.
Qed.

Lemma sumR_le n (f g : nat -> R) : (forall i, (i < n)%nat -> f i <= g i) -> (sum n f : R) <= (sum n g : R).
Proof.
  induction n; intros H; simpl; [lra|].
  assert ((sum n f : R) <= (sum n g : R)) by (apply IHn; intros; apply H; lia).
  specialize (H n ltac:(lia)). lra.
Qed.

Lemma ssq_nonneg n m (M : nat -> nat -> R) : 0 <= (ssq n m M : R).
Proof. apply sumR_nonneg. intros. apply sumR_nonneg. intros. simpl. nra. Qed.

Lemma fabs_R (x : R) : (fabs x : R) = Rabs x.
Proof.
  unfold fabs. simpl. destruct (Rltb x 0) eqn:E.
  - apply Rltb_true in E. rewrite Rabs_left by exact E. reflexivity.
  - apply Rltb_false in E. rewrite Rabs_right by lra. reflexivity.
Qed.
Lemma fmax_R (x y : R) : (fmax x y : R) = Rmax x y.
Proof.
  unfold fmax. simpl. destruct (Rltb x y) eqn:E.
  - apply Rltb_true in E. rewrite Rmax_right by lra. reflexivity.
  - apply Rltb_false in E. rewrite Rmax_left by lra. reflexivity.
Qed.

(** [m] is the largest absolute value of [l]. *)
Definition is_absmax (l : list R) (m : R) : Prop :=
  (forall x, In x l -> Rabs x <= m) /\ (exists x, In x l /\ Rabs x = m).

Lemma t_absmax_ok (t : tensor) : numel t <> O -> exists m, t_absmax t = Ok m /\ is_absmax (data t) m.
Proof.
  intros N0. unfold t_absmax. pose proof (data_length t) as L.
  destruct (data t) as [|x l]; [simpl in L; lia|]. clear L.
  eexists. split; [reflexivity|].
  assert (G : forall (l : list F) (m : R) (l0 : list R), is_absmax l0 m ->
            is_absmax (l0 ++ l) (fold_left (fun m y => fmax m (fabs y)) l m)).
  { clear. induction l as [|y l]; intros m l0 H.
    - rewrite app_nil_r. exact H.
    - simpl. change (l0 ++ y :: l) with (l0 ++ [y] ++ l). rewrite app_assoc. apply IHl.
      rewrite fmax_R, fabs_R. destruct H as [H1 (z & Hz & E)]. split.
      + intros w Hw. apply in_app_iff in Hw as [Hw|[<-|[]]].
        * eapply Rle_trans; [apply H1; exact Hw|apply Rmax_l].
        * apply Rmax_r.
      + destruct (Rle_dec m (Rabs y)).
        * exists y. split; [apply in_app_iff; right; left; reflexivity|]. rewrite Rmax_right; [reflexivity|assumption].
        * exists z. split; [apply in_app_iff; left; exact Hz|]. rewrite Rmax_left; [exact E|lra]. }
  apply (G l (fabs x) [x]). rewrite fabs_R. split.
  - intros w [<-|[]]. lra.
  - exists x. split; [left; reflexivity|reflexivity].
Qed.

Lemma absmax_list (ts : list tensor) :
  (forall t, In t ts -> numel t <> O) ->
  exists ms, mapM t_absmax ts = Ok ms /\
             Forall2 (fun t m => is_absmax (data t) m) ts ms.
Proof.
  induction ts as [|t ts]; intros H.
  - exists []. split; [reflexivity|constructor].
  - destruct IHts as (ms & E & HF); [intros; apply H; right; assumption|].
    destruct (t_absmax_ok t) as (m & Em & Hm); [apply H; left; reflexivity|].
    exists (m :: ms). cbn [mapM]. rewrite Em. cbn [bind]. rewrite E. cbn [bind]. split; [reflexivity|]. constructor; assumption.
Qed.

Lemma absmax_fold ts ms : Forall2 (fun (t : tensor) m => is_absmax (data t) m) ts ms ->
  forall (m : R) l0, is_absmax l0 m -> is_absmax (l0 ++ flat_map data ts) (fold_left fmax ms m).
Proof.
  induction 1 as [|t m' ts ms H HF IH]; intros m l0 H0.
  - simpl. rewrite app_nil_r. exact H0.
  - simpl. rewrite app_assoc. apply IH. rewrite fmax_R.
    destruct H as [H1 (z & Hz & E)], H0 as [H2 (z' & Hz' & E')]. split.
    + intros w Hw. apply in_app_iff in Hw as [Hw|Hw].
      * eapply Rle_trans; [apply H2; exact Hw|apply Rmax_l].
      * eapply Rle_trans; [apply H1; exact Hw|apply Rmax_r].
    + destruct (Rle_dec m m').
      * exists z. split; [apply in_app_iff; right; exact Hz|]. rewrite Rmax_right; [exact E|assumption].
      * exists z'. split; [apply in_app_iff; left; exact Hz'|]. rewrite Rmax_left; [exact E'|lra].
Qed.

Lemma filter_data (ts : list tensor) :
  flat_map data (filter (fun t => negb (Nat.eqb (numel t) 0)) ts) = flat_map data ts.
Proof.
  induction ts; [reflexivity|]. cbn [filter]. destruct (Nat.eqb_spec (numel a) 0); cbn [negb flat_map].
  - rewrite IHts. pose proof (data_length a) as L. rewrite e in L. destruct (data a); [reflexivity|discriminate].
  - rewrite IHts. reflexivity.
Qed.

Lemma infinity_vector_norm_ok c n s :
  cls_ok c -> valid c n s -> n <> O ->
  exists v : R, infinity_vector_norm s = Ok v /\
    (forall i j, (i < n)%nat -> (j < n)%nat -> Rabs (ent s i j) <= v) /\
    (exists i j, (i < n)%nat /\ (j < n)%nat /\ Rabs (ent s i j) = v).
Proof.
  intros Hok V Hn. unfold infinity_vector_norm.
  assert (Q : forall t, In t (filter (fun t => negb (Nat.eqb (numel t) 0)) (tensors s)) -> numel t <> O).
  { intros t Ht. apply filter_In in Ht as [_ Ht]. destruct (Nat.eqb_spec (numel t) 0); [discriminate|assumption]. }
  destruct (absmax_list _ Q) as (ms & E & HF). rewrite E. simpl.
  pose proof (filter_data (tensors s)) as FD. fold (alldata s) in FD.
  destruct (ent_in c n s 0 0 Hok V) as [I0|[_ X]]; try lia.
  destruct HF as [|t m ts ms Hm HF].
  { rewrite <- FD in I0. contradiction. }
  exists (@fold_left R R (@fmax R_scalar) ms m). split; [reflexivity|].
  pose proof (absmax_fold ts ms HF m (data t) Hm) as G.
  change (data t ++ flat_map data ts) with (flat_map data (t :: ts)) in G. rewrite FD in G.
  destruct G as [G1 (x & Gx & Ex)]. split.
  - intros i j Hi Hj. destruct (ent_in c n s i j Hok V Hi Hj) as [I|[Z _]]; [apply G1; exact I|].
    rewrite Z. simpl. rewrite Rabs_R0. eapply Rle_trans; [apply Rabs_pos|apply Req_le; exact Ex].
  - destruct (in_ent c n s x Hok V Gx) as (i & j & Hi & Hj & Eij). exists i, j. rewrite Eij. auto.
Qed.

Lemma frobenius_norm_ok c : forall n s,
  cls_ok c -> fro_dim_ok c n -> valid c n s ->
  frobenius_norm s = Ok (sqrt (ssq n n (ent s) : R)).
Proof.
  intros n s Hok Hd V. rewrite <- (fro2_ok c n s Hok V). revert n s Hok Hd V.
  induction c; intros n s Hok Hd V; pose proof V as V0; destruct s; simpl in V; try contradiction; cbn [frobenius_norm fro2].
  - simpl to_dense. reflexivity.
  - reflexivity.
  - destruct V as (-> & Hb & Hl). rewrite norm2_cat_ok.
    + simpl fold_left. f_equal. simpl. f_equal. lra.
    + simpl in Hok, Hd. pose proof (block_dims D n Hok).
      destruct (Nat.eq_dec (n mod D) 0).
      * exists blocks. split; [left; reflexivity|]. unfold numel. rewrite Hb. simpl. nia.
      * exists last. split; [right; left; reflexivity|]. unfold numel. rewrite Hl. simpl. nia.
  - destruct V as (-> & -> & K1 & d & K2 & Ed & HA & HB & HC & HD & HE).
    apply hier_parts_spec in Ed as (En & _). rewrite norm2_cat_ok.
    + simpl fold_left. f_equal. simpl. f_equal. lra.
    + simpl in Hd. unfold numel. destruct (Nat.eq_dec K1 0); [destruct (Nat.eq_dec d 0)|].
      * exists E. split; [simpl; tauto|]. rewrite HE. simpl. nia.
      * exists C. split; [simpl; tauto|]. rewrite HC. simpl. nia.
      * exists A. split; [simpl; tauto|]. rewrite HA. simpl. nia.
  - rewrite (is1_of _ _ V). unfold norm2. rewrite (tsum_sq1 _ (rows lower_diags)) by reflexivity. simpl fsqrt.
    do 2 f_equal. apply sum_ext. intros i Hi. rewrite get1_tab1 by exact Hi. rewrite fofnat_R. simpl.
    transitivity (get1 lower_diags i * get1 lower_diags i * (sqrt (INR (rows lower_diags - i)) * sqrt (INR (rows lower_diags - i)))).
    + simpl. ring.
    + rewrite sqrt_sqrt by apply pos_INR. simpl. ring.
  - rewrite (is1_of _ _ V). unfold norm2. rewrite (tsum_sq1 _ (rows upper_diags)) by reflexivity. simpl fsqrt.
    do 2 f_equal. apply sum_ext. intros i Hi. rewrite get1_tab1 by exact Hi. rewrite fofnat_R. simpl.
    transitivity (get1 upper_diags i * get1 upper_diags i * (sqrt (INR (rows upper_diags - i)) * sqrt (INR (rows upper_diags - i)))).
    + simpl. ring.
    + rewrite sqrt_sqrt by apply pos_INR. simpl. ring.
  - destruct V as (-> & -> & -> & -> & -> & HA & HC & HB). destruct Hd as [Hda Hdc].
    apply valid_rec_ok in Hok as [Ha Hc].
    rewrite (IHc1 _ _ Ha Hda HA), (IHc2 _ _ Hc Hdc HC). cbn [bind]. f_equal. simpl fsqrt. f_equal.
    rewrite (fro2_ok _ _ _ Ha HA), (fro2_ok _ _ _ Hc HC). simpl.
    rewrite !sqrt_sqrt by apply ssq_nonneg. reflexivity.
Qed.

End Real.
