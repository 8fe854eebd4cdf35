(** [to_dense] gives the represented matrix, [from_dense] the documented projection. *)

From Coq Require Import List Arith Lia Bool Field Ring.
From Verif Require Import Scalar Res Tensor TensorFacts Structures StructSpec.
Import ListNotations.

(** Case distinction on all comparisons of natural numbers in the goal. *)
Ltac bd1 :=
  match goal with
  | |- context [Nat.ltb ?a ?b] => destruct (Nat.ltb_spec a b); try lia
  | |- context [Nat.leb ?a ?b] => destruct (Nat.leb_spec a b); try lia
  | |- context [Nat.eqb ?a ?b] => destruct (Nat.eqb_spec a b); try lia
  end.
Ltac bd := repeat (bd1; cbn [andb orb negb]); try lia.

(** ** Arithmetic *)

Lemma div_unique_iff D i k : D <> 0 -> (i / D = k <-> k * D <= i < (k + 1) * D).
Proof.
  intros HD. pose proof (Nat.div_mod i D HD) as E. pose proof (Nat.mod_upper_bound i D HD) as U.
  split.
  - intros <-. nia.
  - intros [L H]. symmetry. apply Nat.div_unique with (r := i - k * D); nia.
Qed.

Lemma mod_sub D i k : D <> 0 -> k * D <= i < (k + 1) * D -> i - k * D = i mod D.
Proof.
  intros HD H. assert (i / D = k) by (apply div_unique_iff; assumption).
  pose proof (Nat.div_mod i D HD). nia.
Qed.

Lemma block_dims D n : D <> 0 -> n / D * D + n mod D = n.
Proof. intros HD. pose proof (Nat.div_mod n D HD). lia. Qed.

Lemma div_le_n D i n : D <> 0 -> i < n -> i / D <= n / D.
Proof. intros HD H. apply Nat.div_le_mono; lia. Qed.

Lemma mul_div_le D n : D <> 0 -> n / D * D <= n.
Proof. intros HD. pose proof (block_dims D n HD). lia. Qed.

Lemma div_lt_iff D i n : D <> 0 -> i < n -> (i / D < n / D <-> i < n / D * D).
Proof.
  intros HD H. pose proof (Nat.div_mod i D HD). pose proof (Nat.mod_upper_bound i D HD). nia.
Qed.

Lemma boundary_le n ma mc : boundary n ma mc <= n.
Proof. unfold boundary. destruct ma, mc; lia. Qed.

Lemma get_boundary_ok n ma mc :
  (match ma, mc with Inf, Fin _ | Fin _, Inf => True | _, _ => False end) ->
  get_boundary n ma mc = Ok (boundary n ma mc) /\
  ext_leb (boundary n ma mc) ma = true /\ ext_leb (n - boundary n ma mc) mc = true.
Proof.
  unfold get_boundary, boundary, ext_leb. destruct ma, mc; intros H; try contradiction; simpl.
  - split; [f_equal; lia|]. split; [apply Nat.leb_le; lia|reflexivity].
  - split; [f_equal; lia|]. split; [reflexivity|apply Nat.leb_le; lia].
Qed.

Lemma block_dims_eq k1 k2 n : compute_block_dims k1 k2 n = hier_parts k1 k2 n.
Proof.
  unfold compute_block_dims, hier_parts.
  assert (P : forall a b c a' b' c' : nat, a = a' -> b = b' -> c = c' -> (a, b, c) = (a', b', c')) by (intros; subst; reflexivity).
  destruct (Nat.leb_spec n k1); [apply P; lia|]. destruct (Nat.leb_spec n (k1 + k2)); apply P; lia.
Qed.

Lemma hier_parts_spec k1 k2 n K1 d K2 :
  hier_parts k1 k2 n = (K1, d, K2) -> K1 + d + K2 = n /\ K1 <= k1 /\ K2 <= k2.
Proof. unfold hier_parts. intros H. injection H as <- <- <-. lia. Qed.

Section Dense.
Context {SC : Scalar} {FL : FieldLaws SC}.
Open Scope F_scope.
Add Field Ffield_d : F_ft.

(** ** to_dense *)

Lemma nth_data2 t n m e :
  shape t = [n; m] -> (e < n * m)%nat -> nth e (data t) 0 = get2 t (e / m) (e mod m).
Proof.
  intros H He. unfold get2, tget. rewrite H. simpl. f_equal.
  assert (m <> O) by nia. pose proof (Nat.div_mod e m). nia.
Qed.

Lemma block_fold_ok D n b :
  D <> O -> shape b = [n / D; D; D]%nat ->
  forall k, (k <= n / D)%nat ->
  foldM (block_to_dense_step D b) (zeros [n; n]) (seq 0 k) =
  Ok (tab2 n n (fun i j =>
        if Nat.eqb (i / D) (j / D) && Nat.ltb (i / D) k
        then get3 b (i / D) (i mod D) (j mod D) else 0)).
Proof.
  intros HD Hb. induction k as [|k IH]; intros Hk.
  - simpl. unfold zeros. f_equal. unfold tab2. apply tab_ext.
    intros idx Hi. apply in_range2_inv in Hi as (i & j & -> & _). rewrite andb_false_r. reflexivity.
  - rewrite seq_S, foldM_app, IH by lia. simpl. unfold block_to_dense_step. rewrite Hb.
    pose proof (mul_div_le D n HD) as L.
    assert (B : (k * D + D <= n)%nat) by nia.
    rewrite t_setslice2_ok with (n := n) (m := n); try reflexivity; try nia.
    + simpl. f_equal. apply tab2_ext. intros i j Hi Hj. tsimp.
      destruct (Nat.leb_spec (k * D) i); cbn [andb].
      2:{ assert (i / D <> k)%nat by (intro E; apply div_unique_iff in E; nia).
          bd; try reflexivity; nia. }
      destruct (Nat.ltb_spec i ((k + 1) * D)); cbn [andb].
      2:{ assert (i / D <> k)%nat by (intro E; apply div_unique_iff in E; nia).
          bd; try reflexivity; nia. }
      assert (Ei : (i / D = k)%nat) by (apply div_unique_iff; nia).
      destruct (Nat.leb_spec (k * D) j); cbn [andb].
      2:{ assert (j / D <> k)%nat by (intro E; apply div_unique_iff in E; nia).
          bd; try reflexivity; nia. }
      destruct (Nat.ltb_spec j ((k + 1) * D)); cbn [andb].
      2:{ assert (j / D <> k)%nat by (intro E; apply div_unique_iff in E; nia).
          bd; try reflexivity; nia. }
      assert (Ej : (j / D = k)%nat) by (apply div_unique_iff; nia).
      rewrite get2_tab2 by nia. rewrite !mod_sub by nia.
      rewrite Ei, Ej, Nat.eqb_refl. simpl. bd. reflexivity.
    + simpl. f_equal; [|f_equal]; nia.
Qed.

Lemma block_to_dense_ok D n b l :
  D <> O -> valid (CBlock D) n (MBlock D b l) ->
  to_dense (MBlock D b l) = Ok (tab2 n n (ent (MBlock D b l))).
Proof.
  intros HD (_ & Hb & Hl). pose proof (block_dims D n HD) as E.
  cbn [to_dense]. rewrite (dim_at_0 _ _ _ Hb), (dim_at_0 _ _ _ Hl). cbn [bind].
  rewrite E. rewrite (block_fold_ok D n b HD Hb) by lia. cbn [bind].
  rewrite t_setslice2_ok with (n := n) (m := n); try reflexivity; try lia.
  - f_equal. apply tab2_ext. intros i j Hi Hj. tsimp. cbn [ent].
    rewrite (rows_of _ _ _ Hb).
    pose proof (div_lt_iff D i n HD Hi) as Li. pose proof (div_lt_iff D j n HD Hj) as Lj.
    pose proof (div_le_n D i n HD Hi) as Mi. pose proof (div_le_n D j n HD Hj) as Mj.
    destruct (Nat.leb_spec (n / D * D) i); cbn [andb].
    + assert (Ei : (i / D = n / D)%nat) by lia. rewrite Ei.
      replace (i <? n)%nat with true by (symmetry; apply Nat.ltb_lt; lia). cbn [andb].
      destruct (Nat.leb_spec (n / D * D) j); cbn [andb].
      * assert (Ej : (j / D = n / D)%nat) by lia. rewrite Ej, Nat.eqb_refl, Nat.ltb_irrefl.
        replace (j <? n)%nat with true by (symmetry; apply Nat.ltb_lt; lia). reflexivity.
      * bd. reflexivity.
    + bd; reflexivity.
  - rewrite Hl. f_equal; [|f_equal]; lia.
Qed.

Lemma hier_to_dense_ok k1 k2 A B C D E K1 d K2 :
  shape A = [K1; K1] -> shape B = [K1; (d + K2)%nat] -> shape C = [d] ->
  shape D = [K2; d] -> shape E = [K2; K2] ->
  to_dense (MHier k1 k2 A B C D E) =
  Ok (tab2 (K1 + d + K2) (K1 + d + K2) (ent (MHier k1 k2 A B C D E))).
Proof.
  intros HA HB HC HD HE. cbn [to_dense].
  rewrite (rows_of _ _ _ HA), (rows_of _ _ _ HC), (rows_of _ _ _ HE).
  replace (K1 + K2 + d)%nat with (K1 + d + K2)%nat by lia.
  set (n := (K1 + d + K2)%nat).
  unfold zeros. 
  rewrite t_setslice2_ok with (n := n) (m := n); try reflexivity; try (unfold n; lia).
  2:{ rewrite HA. f_equal; [|f_equal]; lia. }
  cbn [bind].
  rewrite t_setslice2_ok with (n := n) (m := n); try reflexivity; try (unfold n; lia).
  2:{ rewrite HB. unfold n. f_equal; [|f_equal]; lia. }
  cbn [bind].
  rewrite t_setdiag_ok with (n := n) (m := n); try reflexivity; try (unfold n; lia).
  2:{ rewrite HC. f_equal; lia. }
  cbn [bind].
  rewrite t_setslice2_ok with (n := n) (m := n); try reflexivity; try (unfold n; lia).
  2:{ rewrite HD. unfold n. f_equal; [|f_equal]; lia. }
  cbn [bind].
  rewrite t_setslice2_ok with (n := n) (m := n); try reflexivity; try (unfold n; lia).
  2:{ rewrite HE. unfold n. f_equal; [|f_equal]; lia. }
  f_equal. apply tab2_ext. intros i j Hi Hj.
  repeat rewrite get2_tab2 by assumption.
  cbn [ent]. rewrite (rows_of _ _ _ HA), (rows_of _ _ _ HC).
  assert (Z : get2 (tab [n; n] (fun _ => 0)) i j = 0).
  { unfold get2. rewrite tget_tab; [reflexivity|apply in_range2; assumption]. }
  rewrite Z. unfold n in *. clear Z.
  bd; subst; try reflexivity; f_equal; try lia.
Qed.

Lemma valid_sdim c : forall n s, cls_ok c -> valid c n s -> sdim s = n.
Proof.
  induction c; intros n s Hok H; destruct s; simpl in H; try contradiction; simpl.
  - apply (rows_of _ _ _ H).
  - apply (rows_of _ _ _ H).
  - destruct H as (-> & Hb & Hl). rewrite (rows_of _ _ _ Hb), (rows_of _ _ _ Hl).
    apply block_dims. exact Hok.
  - destruct H as (-> & -> & K1 & d & K2 & Ed & HA & _ & HC & _ & HE).
    rewrite (rows_of _ _ _ HA), (rows_of _ _ _ HC), (rows_of _ _ _ HE).
    apply hier_parts_spec in Ed. lia.
  - apply (rows_of _ _ _ H).
  - apply (rows_of _ _ _ H).
  - destruct H as (-> & -> & -> & -> & -> & HA & HC & HB).
    assert (Hok' : cls_ok c1 /\ cls_ok c2) by (simpl in Hok; destruct ma, mc; tauto).
    destruct Hok' as [Ha Hc]. rewrite (IHc1 _ _ Ha HA), (IHc2 _ _ Hc HC).
    pose proof (boundary_le n ma mc). lia.
Qed.

Lemma rec_to_dense_ok sd ma mc ca cc A B C k m :
  sdim A = k ->
  to_dense A = Ok (tab2 k k (ent A)) -> to_dense C = Ok (tab2 m m (ent C)) ->
  shape B = match sd with TopRight => [k; m] | BottomLeft => [m; k] end ->
  to_dense (MRec sd ma mc ca cc A B C) =
  Ok (tab2 (k + m) (k + m) (ent (MRec sd ma mc ca cc A B C))).
Proof.
  intros Hd HA HC HB. cbn [to_dense]. rewrite HA, HC. cbn [bind].
  rewrite t_block_diag_ok with (n := k) (m := m); try reflexivity. cbn [bind].
  rewrite (dim_at_0 _ k [k]) by reflexivity. cbn [bind].
  destruct sd.
  - change (cols (tab2 (k + m) (k + m) _)) with (k + m)%nat.
    rewrite t_setslice2_ok with (n := (k + m)%nat) (m := (k + m)%nat); try reflexivity; try lia.
    2:{ rewrite HB. f_equal; [|f_equal]; lia. }
    f_equal. apply tab2_ext. intros i j Hi Hj. rewrite get2_tab2 by assumption.
    cbn [ent]. rewrite Hd.
    bd; tsimp; try reflexivity. f_equal; lia.
  - change (rows (tab2 (k + m) (k + m) _)) with (k + m)%nat.
    rewrite t_setslice2_ok with (n := (k + m)%nat) (m := (k + m)%nat); try reflexivity; try lia.
    2:{ rewrite HB. f_equal; [|f_equal]; lia. }
    f_equal. apply tab2_ext. intros i j Hi Hj. rewrite get2_tab2 by assumption.
    cbn [ent]. rewrite Hd.
    bd; tsimp; try reflexivity. f_equal; lia.
Qed.

Lemma to_dense_ok c : forall n s, cls_ok c -> valid c n s -> to_dense s = Ok (tab2 n n (ent s)).
Proof.
  induction c; intros n s Hok H; destruct s; simpl in H; try contradiction.
  - simpl. f_equal. symmetry. apply tab2_eta. exact H.
  - simpl. apply t_diag_ok1. exact H.
  - destruct H as (-> & Hb & Hl). apply block_to_dense_ok; [exact Hok|].
    simpl; auto.
  - destruct H as (-> & -> & K1 & d & K2 & Ed & HA & HB & HC & HD & HE).
    apply hier_parts_spec in Ed as (<- & _).
    apply hier_to_dense_ok; assumption.
  - cbn [to_dense]. rewrite (dim_at_0 _ _ _ H). reflexivity.
  - cbn [to_dense]. rewrite (dim_at_0 _ _ _ H). reflexivity.
  - destruct H as (-> & -> & -> & -> & -> & HA & HC & HB).
    assert (Hok' : cls_ok c1 /\ cls_ok c2) by (simpl in Hok; destruct ma, mc; tauto).
    destruct Hok' as [Ha Hc]. pose proof (boundary_le n ma mc).
    replace n with (boundary n ma mc + (n - boundary n ma mc))%nat at 1 2 by lia.
    apply rec_to_dense_ok.
    + apply (valid_sdim c1); assumption.
    + apply IHc1; assumption.
    + apply IHc2; assumption.
    + exact HB.
Qed.

Lemma valid_cls c n s : valid c n s -> cls_of s = c.
Proof.
  destruct c, s; simpl; try contradiction; try reflexivity.
  - intros (-> & _). reflexivity.
  - intros (-> & -> & _). reflexivity.
  - intros (-> & -> & -> & -> & -> & _). reflexivity.
Qed.

Lemma isinstance_valid c n s : valid c n s -> isinstance s c = true.
Proof.
  intros H. apply valid_cls in H. unfold isinstance. destruct (cls_eq_dec (cls_of s) c); congruence.
Qed.

(** ** from_dense *)

Lemma mk_block_ok D n b l :
  D <> O -> shape b = [n / D; D; D]%nat -> shape l = [n mod D; n mod D]%nat ->
  mk_block D b l = Ok (MBlock D b l).
Proof.
  intros HD Hb Hl. unfold mk_block. rewrite Hb, Nat.eqb_refl. cbn [negb andb].
  rewrite (is2_of _ _ _ Hl), (rows_of _ _ _ Hl), (cols_of _ _ _ _ Hl), Nat.eqb_refl.
  cbn [negb andb]. pose proof (Nat.mod_upper_bound n D HD). bd. reflexivity.
Qed.

Lemma mk_hier_ok k1 k2 A B C D E K1 d K2 :
  shape A = [K1; K1] -> shape B = [K1; (d + K2)%nat] -> shape C = [d] ->
  shape D = [K2; d] -> shape E = [K2; K2] -> (K1 <= k1)%nat -> (K2 <= k2)%nat ->
  mk_hier k1 k2 A B C D E = Ok (MHier k1 k2 A B C D E).
Proof.
  intros HA HB HC HD HE H1 H2. unfold mk_hier.
  rewrite (is2_of _ _ _ HA), (is2_of _ _ _ HB), (is1_of _ _ HC), (is2_of _ _ _ HD), (is2_of _ _ _ HE).
  unfold check_square, check.
  rewrite (is2_of _ _ _ HA), (is2_of _ _ _ HE).
  rewrite (rows_of _ _ _ HA), (cols_of _ _ _ _ HA), (rows_of _ _ _ HE), (cols_of _ _ _ _ HE), (rows_of _ _ _ HC).
  rewrite !Nat.eqb_refl, HD, HB, !shape_eqb_refl. simpl. bd. reflexivity.
Qed.

Lemma mk_rec_ok sd ma mc ca cc A B C k m :
  isinstance A ca = true -> isinstance C cc = true ->
  to_dense A = Ok (tab2 k k (ent A)) -> to_dense C = Ok (tab2 m m (ent C)) ->
  shape B = match sd with TopRight => [k; m] | BottomLeft => [m; k] end ->
  ext_leb k ma = true -> ext_leb m mc = true ->
  mk_rec sd ma mc ca cc A B C = Ok (MRec sd ma mc ca cc A B C).
Proof.
  intros HiA HiC HA HC HB H1 H2. unfold mk_rec. rewrite HiA, HiC. simpl.
  rewrite HA, HC. simpl. rewrite H1, H2.
  destruct sd; rewrite HB, shape_eqb_refl; reflexivity.
Qed.

(** The Toeplitz helper: sums along all diagonals. *)
Lemma all_traces_ok t n m :
  shape t = [n; m] -> (n + m <> 0)%nat ->
  all_traces t =
  Ok (tab1 (n + m - 1) (fun k =>
        sum n (fun i => sum m (fun j => if Nat.eqb (j + (n - 1)) (i + k) then get2 t i j else 0)))).
Proof.
  intros H Hn. unfold all_traces. rewrite H.
  destruct (n + m)%nat as [|q] eqn:Eq; [lia|]. unfold t_scatter_add.
  rewrite map_length, seq_length, data_length. unfold numel. rewrite H. simpl prod.
  rewrite Nat.mul_1_r, Nat.eqb_refl.
  assert (P : forall e, (e < n * m)%nat ->
             (e / m < n)%nat /\ (e mod m < m)%nat).
  { intros e He. assert (m <> O) by nia. split.
    - apply Nat.div_lt_upper_bound; lia.
    - apply Nat.mod_upper_bound; lia. }
  replace (forallb _ _) with true.
  2:{ symmetry. apply forallb_forall. intros x Hx. apply in_map_iff in Hx as (e & <- & He).
      apply in_seq in He. destruct (P e) as [P1 P2]; [lia|]. apply Nat.ltb_lt. lia. }
  cbn [andb]. f_equal. replace (Datatypes.S q - 1)%nat with q by lia.
  apply tab1_ext. intros k Hk.
  transitivity (sum (n * m) (fun e =>
     if Nat.eqb (e mod m + (n - 1)) (e / m + k) then get2 t (e / m) (e mod m) else 0)).
  - apply sum_ext. intros e He. destruct (P e He) as [P1 P2].
    rewrite nth_indep with (d' := (0 mod m + (n - 1) - 0 / m)%nat)
      by (rewrite map_length, seq_length; exact He).
    rewrite (map_nth (fun k => (k mod m + (n - 1) - k / m)%nat) (seq 0 (n * m)) O e).
    rewrite seq_nth by exact He. cbn [Nat.add].
    rewrite (nth_data2 t n m) by assumption.
    bd; reflexivity.
  - rewrite sum_blocks. apply sum_ext. intros i Hi. apply sum_ext. intros j Hj.
    assert (m <> O) by lia.
    rewrite Nat.div_add_l by assumption. rewrite (Nat.div_small j m Hj).
    rewrite Nat.add_comm with (n := (i * m)%nat), Nat.mod_add by assumption.
    rewrite (Nat.mod_small j m Hj). rewrite Nat.add_0_r. reflexivity.
Qed.

(** Sum along one diagonal. *)
Lemma sum_diag_upper n q f :
  (q < n)%nat ->
  sum n (fun i => sum n (fun j => if Nat.eqb (j + (n - 1)) (i + (n - 1 + q)) then f i j else 0)) =
  sum (n - q) (fun r => f r (r + q)%nat).
Proof.
  intros Hq. rewrite (sum_split_at (n - q) n) by lia.
  rewrite (sum_0 (n - (n - q))).
  2:{ intros i Hi. apply sum_0. intros j Hj. bd. reflexivity. }
  transitivity (sum (n - q) (fun r => f r (r + q)%nat) + 0); [f_equal|ring].
  apply sum_ext. intros i Hi.
  rewrite (sum_single n (i + q)); [|lia|].
  - bd. reflexivity.
  - intros j Hj Hne. bd. reflexivity.
Qed.

Lemma sum_diag_lower n q f :
  (q < n)%nat ->
  sum n (fun i => sum n (fun j => if Nat.eqb (j + (n - 1)) (i + (n - 1 - q)) then f i j else 0)) =
  sum (n - q) (fun r => f (r + q)%nat r).
Proof.
  intros Hq. rewrite sum_swap. rewrite <- (sum_diag_upper n q (fun i j => f j i)) by exact Hq.
  apply sum_ext. intros j Hj. apply sum_ext. intros i Hi. bd; reflexivity.
Qed.

Lemma toeplitz_coeffs_ok t n :
  shape t = [n; n] -> n <> O ->
  toeplitz_coeffs t = Ok (tab1 n (diag_avg n (get2 t))).
Proof.
  intros H Hn. unfold toeplitz_coeffs.
  rewrite (dim_at_0 _ _ _ H), (dim_at_1 _ _ _ _ H). cbn [bind].
  unfold check. rewrite Nat.eqb_refl. cbn [bind].
  rewrite (all_traces_ok t n n H) by lia. cbn [bind].
  change (rows (tab1 (n + n - 1) _)) with (n + n - 1)%nat.
  rewrite t_slice1_ok with (n := (n + n - 1)%nat); [|reflexivity|lia]. cbn [bind].
  rewrite t_slice1_ok with (n := (n + n - 1)%nat); [|reflexivity|lia]. cbn [bind].
  rewrite t_flip_ok with (n := (n - 1 - 0)%nat) by reflexivity. cbn [bind].
  f_equal. apply tab1_ext. intros k Hk. tsimp.
  unfold diag_avg. destruct k as [|k].
  - tsimp.
    rewrite Nat.sub_0_r. f_equal.
    pose proof (sum_diag_upper n 0 (get2 t)) as S0. rewrite Nat.add_0_r, Nat.sub_0_r in S0.
    rewrite S0 by lia. apply sum_ext. intros r _. rewrite Nat.add_0_r. reflexivity.
  - tsimp. f_equal.
    replace (n - 1 + 1 + k)%nat with (n - 1 + Datatypes.S k)%nat by lia.
    replace (0 + (n - 1 - 0 - 1 - k))%nat with (n - 1 - Datatypes.S k)%nat by lia.
    rewrite sum_diag_upper, sum_diag_lower by lia. rewrite <- sum_plus. reflexivity.
Qed.

Definition from_dense_spec (c : cls) (n : nat) : Prop :=
  forall t, shape t = [n; n] ->
  exists s, from_dense c t = Ok s /\ valid c n s /\
            forall i j, (i < n)%nat -> (j < n)%nat -> ent s i j = proj c n (get2 t) i j.

Lemma from_dense_dense n : from_dense_spec CDense n.
Proof. intros t H. exists (MDense t). split; [reflexivity|]. split; [exact H|]. reflexivity. Qed.

Lemma from_dense_diag n : from_dense_spec CDiag n.
Proof.
  intros t H. eexists. split.
  { cbn [from_dense]. rewrite (t_diag_ok2 _ _ _ H), Nat.min_id. reflexivity. }
  split; [reflexivity|]. intros i j Hi Hj. cbn [ent proj]. bd; [|reflexivity].
  subst. tsimp. reflexivity.
Qed.

Lemma from_dense_block D n : D <> O -> from_dense_spec (CBlock D) n.
Proof.
  intros HD t H. cbn [from_dense]. unfold block_from_dense.
  pose proof (block_dims D n HD) as E. pose proof (mul_div_le D n HD) as L.
  rewrite (dim_at_0 _ _ _ H). cbn [bind].
  replace (D =? 0)%nat with false by (symmetry; apply Nat.eqb_neq; exact HD).
  rewrite (rows_of _ _ _ H), (cols_of _ _ _ _ H), (is2_of _ _ _ H).
  rewrite t_slice2_ok with (n := n) (m := n) by (assumption || lia). cbn [bind].
  replace (n / D * D <=? n)%nat with true by (symmetry; apply Nat.leb_le; exact L).
  cbn [negb andb].
  rewrite t_slice2_ok with (n := n) (m := n) by (assumption || lia). cbn [bind].
  set (m0 := tab2 (n / D * D - 0) (n / D * D - 0) _).
  destruct (t_reshape_ok m0 [n / D; D; n / D; D]%nat) as (m' & R & Sm & Dm).
  { unfold numel, m0, prod. simpl. nia. }
  rewrite R. cbn [bind].
  rewrite (mk_block_ok D n) by (assumption || reflexivity ||
    (rewrite shape_tab2; f_equal; [|f_equal]; lia)).
  eexists. split; [reflexivity|]. split.
  { simpl. split; [reflexivity|]. split; [reflexivity|].
    f_equal; [|f_equal]; lia. }
  intros i j Hi Hj. cbn [ent proj].
  change (rows (tab3 (n / D) D D _)) with (n / D)%nat.
  destruct (Nat.eqb_spec (i / D) (j / D)) as [Eij|]; [|reflexivity].
  pose proof (div_lt_iff D i n HD Hi) as Li. pose proof (div_le_n D i n HD Hi).
  pose proof (div_lt_iff D j n HD Hj) as Lj.
  pose proof (Nat.div_mod i D HD) as Ei. pose proof (Nat.mod_upper_bound i D HD) as Mi.
  pose proof (Nat.div_mod j D HD) as Ej. pose proof (Nat.mod_upper_bound j D HD) as Mj.
  destruct (Nat.ltb_spec (i / D) (n / D)).
  - rewrite get3_tab3 by assumption.
    transitivity (get2 m0 i j).
    + unfold get2, tget. rewrite Sm, Dm. f_equal. unfold m0. simpl. nia.
    + unfold m0. rewrite get2_tab2 by lia. reflexivity.
  - rewrite get2_tab2 by lia. f_equal; lia.
Qed.

Lemma from_dense_hier k1 k2 n : from_dense_spec (CHier k1 k2) n.
Proof.
  intros t H. cbn [from_dense]. unfold hier_from_dense, check_square, check.
  rewrite (is2_of _ _ _ H), (rows_of _ _ _ H), (cols_of _ _ _ _ H), Nat.eqb_refl. cbn [bind andb]. rewrite block_dims_eq.
  destruct (hier_parts k1 k2 n) as [[K1 d] K2] eqn:Ed.
  pose proof (hier_parts_spec _ _ _ _ _ _ Ed) as (Es & E1 & E2).
  rewrite t_slice2_ok with (n := n) (m := n) by (assumption || lia). cbn [bind].
  rewrite t_slice2_ok with (n := n) (m := n) by (assumption || lia). cbn [bind].
  rewrite (t_diag_ok2 _ _ _ H), Nat.min_id. cbn [bind].
  rewrite t_slice1_ok with (n := n) by (reflexivity || lia). cbn [bind].
  rewrite t_slice2_ok with (n := n) (m := n) by (assumption || lia). cbn [bind].
  rewrite t_slice2_ok with (n := n) (m := n) by (assumption || lia). cbn [bind].
  replace (n - (K1 + d))%nat with K2 by lia.
  replace (K1 + d - K1)%nat with d by lia.
  replace (n - K1)%nat with (d + K2)%nat by lia.
  replace (K1 - 0)%nat with K1 by lia.
  unfold t_scale.
  rewrite t_map_ok2 with (n := K1) (m := (d + K2)%nat) by reflexivity.
  rewrite t_map_ok2 with (n := K2) (m := d) by reflexivity.
  rewrite mk_hier_ok with (K1 := K1) (d := d) (K2 := K2) by (reflexivity || lia).
  eexists. split; [reflexivity|]. split.
  { simpl. split; [reflexivity|]. split; [reflexivity|].
    exists K1, d, K2. repeat split; try reflexivity; assumption. }
  intros i j Hi Hj. cbn [ent proj]. rewrite Ed.
  change (rows (tab2 K1 K1 _)) with K1. change (rows (tab1 d _)) with d.
  bd; tsimp; try reflexivity.
  - do 2 f_equal; lia.
  - subst. f_equal; lia.
  - do 2 f_equal; lia.
  - f_equal; lia.
Qed.

Lemma from_dense_tril n : n <> O -> from_dense_spec CTril n.
Proof.
  intros Hn t H. cbn [from_dense]. rewrite (toeplitz_coeffs_ok t n H Hn). cbn [bind].
  eexists. split; [reflexivity|]. split; [reflexivity|].
  intros i j Hi Hj. cbn [ent proj]. bd; [|reflexivity]. tsimp. reflexivity.
Qed.
Lemma from_dense_triu n : n <> O -> from_dense_spec CTriu n.
Proof.
  intros Hn t H. cbn [from_dense]. rewrite (toeplitz_coeffs_ok t n H Hn). cbn [bind].
  eexists. split; [reflexivity|]. split; [reflexivity|].
  intros i j Hi Hj. cbn [ent proj]. bd; [|reflexivity]. tsimp. reflexivity.
Qed.

(** The projection only looks at entries in range. *)
Lemma diag_avg_ext n M N k :
  (k < n)%nat -> (forall i j, (i < n)%nat -> (j < n)%nat -> M i j = N i j) ->
  diag_avg n M k = diag_avg n N k.
Proof.
  intros Hk H. unfold diag_avg. destruct k; f_equal; apply sum_ext; intros r Hr; rewrite !H by lia; reflexivity.
Qed.

Lemma proj_ext c : forall n M N i j,
  (forall i j, (i < n)%nat -> (j < n)%nat -> M i j = N i j) -> (i < n)%nat -> (j < n)%nat ->
  proj c n M i j = proj c n N i j.
Proof.
  induction c; intros n M N i j H Hi Hj; cbn [proj].
  - auto.
  - bd; auto.
  - bd; auto.
  - destruct (hier_parts k1 k2 n) as [[K1 d] K2]. rewrite H by assumption. reflexivity.
  - bd; [|reflexivity]. apply diag_avg_ext; [lia|assumption].
  - bd; [|reflexivity]. apply diag_avg_ext; [lia|assumption].
  - pose proof (boundary_le n ma mc).
    bd.
    + apply IHc1; auto. intros. apply H; lia.
    + destruct sd; [|reflexivity]. rewrite !H by assumption. reflexivity.
    + destruct sd; [reflexivity|]. rewrite !H by assumption. reflexivity.
    + apply IHc2; try lia. intros. apply H; lia.
Qed.

Lemma from_dense_ok c : forall n, cls_ok c -> dim_ok c n -> from_dense_spec c n.
Proof.
  induction c; intros n Hok Hd.
  - apply from_dense_dense.
  - apply from_dense_diag.
  - apply from_dense_block. exact Hok.
  - apply from_dense_hier.
  - apply from_dense_tril. exact Hd.
  - apply from_dense_triu. exact Hd.
  - assert (Hok' : cls_ok c1 /\ cls_ok c2) by (simpl in Hok; destruct ma, mc; tauto).
    destruct Hok' as [Ha Hc]. destruct Hd as [Hda Hdc].
    assert (Hm : match ma, mc with Inf, Fin _ | Fin _, Inf => True | _, _ => False end)
      by (simpl in Hok; destruct ma, mc; tauto).
    destruct (get_boundary_ok n ma mc Hm) as (G & X1 & X2).
    pose proof (boundary_le n ma mc) as L. set (k := boundary n ma mc) in *.
    intros t H. cbn [from_dense]. unfold check_square, check.
    rewrite (is2_of _ _ _ H), (rows_of _ _ _ H), (cols_of _ _ _ _ H), Nat.eqb_refl. cbn [bind andb].
    rewrite G. cbn [bind].
    rewrite t_slice2_ok with (n := n) (m := n) by (assumption || lia). cbn [bind].
    replace (k - 0)%nat with k by lia.
    destruct (IHc1 k Ha Hda (tab2 k k (fun i j => get2 t (0 + i) (0 + j))) eq_refl)
      as (A & FA & VA & EA). rewrite FA. cbn [bind].
    rewrite t_slice2_ok with (n := n) (m := n) by (assumption || lia). cbn [bind].
    rewrite t_slice2_ok with (n := n) (m := n) by (assumption || lia). cbn [bind].
    replace (k - 0)%nat with k by lia.
    rewrite (tr_ok _ (n - k) k) by reflexivity. rewrite (tr_ok _ k (n - k)) by reflexivity.
    rewrite t_slice2_ok with (n := n) (m := n) by (assumption || lia).
    destruct (IHc2 (n - k)%nat Hc Hdc (tab2 (n - k) (n - k) (fun i j => get2 t (k + i) (k + j))) eq_refl)
      as (C & FC & VC & EC).
    assert (VA' := to_dense_ok _ _ _ Ha VA). assert (VC' := to_dense_ok _ _ _ Hc VC).
    assert (SA := valid_sdim _ _ _ Ha VA).
    destruct sd.
    + rewrite t_add_ok2 with (n := k) (m := (n - k)%nat) by reflexivity. cbn [bind].
      rewrite FC. cbn [bind].
      rewrite mk_rec_ok with (k := k) (m := (n - k)%nat); try assumption; try reflexivity;
        try (eapply isinstance_valid; eassumption).
      eexists. split; [reflexivity|]. split.
      { simpl. fold k. repeat split; try reflexivity; assumption. }
      intros i j Hi Hj. cbn [ent proj]. rewrite SA. fold k.
      bd.
      * rewrite EA by assumption. apply proj_ext; try assumption. intros. tsimp. reflexivity.
      * tsimp. f_equal; f_equal; lia.
      * reflexivity.
      * rewrite EC by lia. apply proj_ext; try lia. intros. tsimp. reflexivity.
    + rewrite t_add_ok2 with (n := (n - k)%nat) (m := k) by reflexivity. cbn [bind].
      rewrite FC. cbn [bind].
      rewrite mk_rec_ok with (k := k) (m := (n - k)%nat); try assumption; try reflexivity;
        try (eapply isinstance_valid; eassumption).
      eexists. split; [reflexivity|]. split.
      { simpl. fold k. repeat split; try reflexivity; assumption. }
      intros i j Hi Hj. cbn [ent proj]. rewrite SA. fold k.
      bd.
      * rewrite EA by assumption. apply proj_ext; try assumption. intros. tsimp. reflexivity.
      * reflexivity.
      * tsimp. f_equal; f_equal; lia.
      * rewrite EC by lia. apply proj_ext; try lia. intros. tsimp. reflexivity.
Qed.

End Dense.
