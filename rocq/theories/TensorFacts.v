(** Facts about tensors and finite sums. *)

From Coq Require Import List Arith Lia Bool Eqdep_dec Field Ring.
From Verif Require Import Scalar Res Tensor.
Import ListNotations.

(** ** Shapes and indices (no scalars involved) *)

Lemma flat_lt s idx : in_range s idx -> flat s idx < prod s.
Proof.
  unfold in_range. revert idx; induction s as [|n s IH]; intros idx H; inversion H; subst; simpl.
  - lia.
  - apply IH in H4. fold (prod s). nia.
Qed.

Lemma unflat_range s k : k < prod s -> in_range s (unflat s k).
Proof.
  unfold in_range. revert k; induction s as [|n s IH]; intros k H; simpl; constructor.
  - simpl in H. fold (prod s) in H. apply Nat.div_lt_upper_bound; [intro E; rewrite E in H|]; lia.
  - apply IH. simpl in H. fold (prod s) in H. apply Nat.mod_upper_bound. intro E. rewrite E in H. lia.
Qed.

Lemma unflat_flat s idx : in_range s idx -> unflat s (flat s idx) = idx.
Proof.
  unfold in_range. revert idx; induction s as [|n s IH]; intros idx H; inversion H; subst; simpl.
  - reflexivity.
  - pose proof (flat_lt s l H4) as B. f_equal.
    + rewrite Nat.div_add_l by lia. rewrite Nat.div_small by exact B. lia.
    + rewrite Nat.add_comm, Nat.mod_add by lia. rewrite Nat.mod_small by exact B. apply IH. exact H4.
Qed.

Lemma flat_unflat s k : k < prod s -> flat s (unflat s k) = k.
Proof.
  revert k; induction s as [|n s IH]; intros k H; simpl in *.
  - lia.
  - fold (prod s) in *. assert (prod s <> 0) by (intro E; rewrite E in H; lia).
    rewrite IH by (apply Nat.mod_upper_bound; assumption).
    rewrite (Nat.div_mod k (prod s)) at 3 by assumption. lia.
Qed.

Section Facts.
Context {SC : Scalar}.
Open Scope F_scope.

Lemma tensor_eq (a b : tensor) : shape a = shape b -> data a = data b -> a = b.
Proof.
  destruct a as [s d p], b as [s' d' p']; simpl; intros <- <-.
  f_equal. apply UIP_dec. apply bool_dec.
Qed.

Lemma data_length (t : tensor) : length (data t) = numel t.
Proof. pose proof (tok t) as H. apply Nat.eqb_eq in H. exact H. Qed.

Lemma tget_tab s f idx : in_range s idx -> tget (tab s f) idx = f idx.
Proof.
  intros H. unfold tget, tab; simpl.
  pose proof (flat_lt s idx H) as B.
  rewrite nth_indep with (d' := f (unflat s O)) by (rewrite map_length, seq_length; exact B).
  rewrite (map_nth (fun k => f (unflat s k))).
  rewrite seq_nth by exact B. simpl. rewrite unflat_flat by exact H. reflexivity.
Qed.

Lemma tensor_ext (a b : tensor) :
  shape a = shape b ->
  (forall idx, in_range (shape a) idx -> tget a idx = tget b idx) -> a = b.
Proof.
  intros Hs H. apply tensor_eq; [exact Hs|].
  apply nth_ext with (d := 0) (d' := 0).
  - rewrite !data_length. unfold numel. rewrite Hs. reflexivity.
  - intros k Hk. rewrite data_length in Hk.
    pose proof (H (unflat (shape a) k) (unflat_range _ _ Hk)) as E.
    unfold tget in E. rewrite <- Hs in E. rewrite flat_unflat in E by exact Hk. exact E.
Qed.

Lemma tab_ext s f g :
  (forall idx, in_range s idx -> f idx = g idx) -> tab s f = tab s g.
Proof.
  intros H. apply tensor_ext; [reflexivity|]. simpl. intros idx Hi.
  rewrite !tget_tab by exact Hi. auto.
Qed.

Lemma tab_eta (t : tensor) s : shape t = s -> tab s (tget t) = t.
Proof.
  intros <-. apply tensor_ext; [reflexivity|]. simpl. intros idx Hi. apply tget_tab. exact Hi.
Qed.

Lemma in_range1 n i : i < n -> in_range [n] [i].
Proof. intros; repeat constructor; assumption. Qed.
Lemma in_range2 n m i j : i < n -> j < m -> in_range [n; m] [i; j].
Proof. intros; repeat constructor; assumption. Qed.
Lemma in_range3 n m l i j k : i < n -> j < m -> k < l -> in_range [n; m; l] [i; j; k].
Proof. intros; repeat constructor; assumption. Qed.

Lemma in_range1_inv n idx : in_range [n] idx -> exists i, idx = [i] /\ i < n.
Proof. intros H; inversion H; subst. inversion H4; subst. eauto. Qed.
Lemma in_range2_inv n m idx : in_range [n; m] idx -> exists i j, idx = [i; j] /\ i < n /\ j < m.
Proof. intros H; inversion H; subst. apply in_range1_inv in H4 as (j & -> & Hj). eauto 10. Qed.
Lemma in_range3_inv n m l idx :
  in_range [n; m; l] idx -> exists i j k, idx = [i; j; k] /\ i < n /\ j < m /\ k < l.
Proof. intros H; inversion H; subst. apply in_range2_inv in H4 as (j & k & -> & Hj & Hk). eauto 10. Qed.

Lemma get1_tab1 n f i : i < n -> get1 (tab1 n f) i = f i.
Proof. intros. unfold get1, tab1. rewrite tget_tab; [reflexivity|]. apply in_range1; assumption. Qed.
Lemma get2_tab2 n m f i j : i < n -> j < m -> get2 (tab2 n m f) i j = f i j.
Proof. intros. unfold get2, tab2. rewrite tget_tab; [reflexivity|]. apply in_range2; assumption. Qed.
Lemma get3_tab3 n m l f i j k : i < n -> j < m -> k < l -> get3 (tab3 n m l f) i j k = f i j k.
Proof. intros. unfold get3, tab3. rewrite tget_tab; [reflexivity|]. apply in_range3; assumption. Qed.

Lemma ext1 n (a b : tensor) :
  shape a = [n] -> shape b = [n] -> (forall i, i < n -> get1 a i = get1 b i) -> a = b.
Proof.
  intros Ha Hb H. apply tensor_ext; [congruence|]. rewrite Ha. intros idx Hi.
  apply in_range1_inv in Hi as (i & -> & Hi). apply H. exact Hi.
Qed.
Lemma ext2 n m (a b : tensor) :
  shape a = [n; m] -> shape b = [n; m] ->
  (forall i j, i < n -> j < m -> get2 a i j = get2 b i j) -> a = b.
Proof.
  intros Ha Hb H. apply tensor_ext; [congruence|]. rewrite Ha. intros idx Hi.
  apply in_range2_inv in Hi as (i & j & -> & Hi & Hj). apply H; assumption.
Qed.
Lemma ext3 n m l (a b : tensor) :
  shape a = [n; m; l] -> shape b = [n; m; l] ->
  (forall i j k, i < n -> j < m -> k < l -> get3 a i j k = get3 b i j k) -> a = b.
Proof.
  intros Ha Hb H. apply tensor_ext; [congruence|]. rewrite Ha. intros idx Hi.
  apply in_range3_inv in Hi as (i & j & k & -> & Hi & Hj & Hk). apply H; assumption.
Qed.

Lemma tab1_ext n f g : (forall i, i < n -> f i = g i) -> tab1 n f = tab1 n g.
Proof. intros H. apply (ext1 n); try reflexivity. intros. rewrite !get1_tab1; auto. Qed.
Lemma tab2_ext n m f g : (forall i j, i < n -> j < m -> f i j = g i j) -> tab2 n m f = tab2 n m g.
Proof. intros H. apply (ext2 n m); try reflexivity. intros. rewrite !get2_tab2; auto. Qed.
Lemma tab3_ext n m l f g :
  (forall i j k, i < n -> j < m -> k < l -> f i j k = g i j k) -> tab3 n m l f = tab3 n m l g.
Proof. intros H. apply (ext3 n m l); try reflexivity. intros. rewrite !get3_tab3; auto. Qed.

Lemma tab1_eta n t : shape t = [n] -> tab1 n (get1 t) = t.
Proof. intros H. apply (ext1 n); auto. intros. apply get1_tab1; assumption. Qed.
Lemma tab2_eta n m t : shape t = [n; m] -> tab2 n m (get2 t) = t.
Proof. intros H. apply (ext2 n m); auto. intros. apply get2_tab2; assumption. Qed.

Lemma tab2_inj n m f g :
  tab2 n m f = tab2 n m g -> forall i j, i < n -> j < m -> f i j = g i j.
Proof.
  intros H i j Hi Hj. rewrite <- (get2_tab2 n m f i j), <- (get2_tab2 n m g i j) by assumption.
  rewrite H. reflexivity.
Qed.

Lemma shape_eqb_refl s : shape_eqb s s = true.
Proof. unfold shape_eqb. destruct (list_eq_dec Nat.eq_dec s s); congruence. Qed.
Lemma shape_eqb_eq s s' : shape_eqb s s' = true <-> s = s'.
Proof. unfold shape_eqb. destruct (list_eq_dec Nat.eq_dec s s'); split; congruence. Qed.

Lemma shape_tab1 n f : shape (tab1 n f) = [n]. Proof. reflexivity. Qed.
Lemma shape_tab2 n m f : shape (tab2 n m f) = [n; m]. Proof. reflexivity. Qed.
Lemma shape_tab3 n m l f : shape (tab3 n m l f) = [n; m; l]. Proof. reflexivity. Qed.

Lemma rows_of t n s : shape t = n :: s -> rows t = n.
Proof. unfold rows; intros ->; reflexivity. Qed.
Lemma cols_of t n m s : shape t = n :: m :: s -> cols t = m.
Proof. unfold cols; intros ->; reflexivity. Qed.
Lemma is2_of t n m : shape t = [n; m] -> is2 t = true.
Proof. unfold is2, ndim; intros ->; reflexivity. Qed.
Lemma is1_of t n : shape t = [n] -> is1 t = true.
Proof. unfold is1, ndim; intros ->; reflexivity. Qed.
Lemma is2_inv t : is2 t = true -> shape t = [rows t; cols t].
Proof.
  unfold is2, ndim, rows, cols. destruct (shape t) as [|a [|b [|c l]]]; simpl; congruence.
Qed.
Lemma is1_inv t : is1 t = true -> shape t = [rows t].
Proof.
  unfold is1, ndim, rows. destruct (shape t) as [|a [|b l]]; simpl; congruence.
Qed.

(** ** Field reasoning *)

Context {FL : FieldLaws SC}.

Lemma F_rt : ring_theory f0 f1 fadd fmul fsub fopp (@eq F).
Proof. exact (F_R F_ft). Qed.

Add Field Ffield : F_ft.

Lemma f1_neq_0 : f1 <> f0.
Proof. exact (F_1_neq_0 F_ft). Qed.

Lemma fofnat_neq0 n : (n <> 0)%nat -> fofnat n <> 0.
Proof. destruct n; [congruence|]. intros _. apply fofnat_S_neq0. Qed.

Lemma fofnat_add n m : fofnat (n + m) = fofnat n + fofnat m.
Proof. induction n; simpl; [|rewrite IHn]; ring. Qed.
Lemma fofnat_mul n m : fofnat (n * m) = fofnat n * fofnat m.
Proof. induction n; simpl; [|rewrite fofnat_add, IHn]; ring. Qed.
Lemma fofnat_1 : fofnat 1 = 1.
Proof. simpl; ring. Qed.
Lemma f2_neq0 : 1 + 1 <> 0.
Proof. pose proof (fofnat_S_neq0 1) as H. simpl in H. intro E. apply H. transitivity (1 + 1); [ring|exact E]. Qed.

Lemma fmul_eq0 x y : x * y = 0 -> x = 0 \/ y = 0.
Proof.
  intros H. destruct (feqb x 0) eqn:E.
  - left. apply feqb_iff. exact E.
  - right. assert (Hx : x <> 0). { intro Hx. apply feqb_iff in Hx. congruence. }
    transitivity (finv x * (x * y)). { field. exact Hx. } rewrite H. ring.
Qed.

Lemma fmul_neq0 x y : x <> 0 -> y <> 0 -> x * y <> 0.
Proof. intros Hx Hy H. apply fmul_eq0 in H. tauto. Qed.

(** ** Finite sums *)

Lemma sum_ext n f g : (forall i, (i < n)%nat -> f i = g i) -> sum n f = sum n g.
Proof.
  intros H. induction n; simpl; [reflexivity|]. rewrite IHn by (intros; apply H; lia).
  rewrite H by lia. reflexivity.
Qed.

Lemma sum_0 n f : (forall i, (i < n)%nat -> f i = 0) -> sum n f = 0.
Proof.
  intros H. induction n; simpl; [reflexivity|].
  rewrite IHn by (intros; apply H; lia). rewrite H by lia. ring.
Qed.

Lemma sum_plus n f g : sum n (fun i => f i + g i) = sum n f + sum n g.
Proof. induction n; simpl; [ring|]. rewrite IHn. ring. Qed.

Lemma sum_minus n f g : sum n (fun i => f i - g i) = sum n f - sum n g.
Proof. induction n; simpl; [ring|]. rewrite IHn. ring. Qed.

Lemma sum_scale_l n c f : sum n (fun i => c * f i) = c * sum n f.
Proof. induction n; simpl; [ring|]. rewrite IHn. ring. Qed.

Lemma sum_scale_r n c f : sum n (fun i => f i * c) = sum n f * c.
Proof. induction n; simpl; [ring|]. rewrite IHn. ring. Qed.

Lemma sum_const n c : sum n (fun _ => c) = fofnat n * c.
Proof. induction n; simpl; [ring|]. rewrite IHn. ring. Qed.

Lemma sum_split n m f : sum (n + m) f = sum n f + sum m (fun i => f (n + i)%nat).
Proof.
  induction m; simpl.
  - rewrite Nat.add_0_r. ring.
  - rewrite Nat.add_succ_r. simpl. rewrite IHm. ring.
Qed.

Lemma sum_split_at k n f : (k <= n)%nat -> sum n f = sum k f + sum (n - k) (fun i => f (k + i)%nat).
Proof. intros H. replace n with (k + (n - k))%nat at 1 by lia. apply sum_split. Qed.

Lemma sum_S_first n f : sum (Datatypes.S n) f = f O + sum n (fun i => f (Datatypes.S i)).
Proof.
  replace (Datatypes.S n) with (1 + n)%nat by lia. rewrite sum_split. simpl. ring.
Qed.

Lemma sum_swap n m f :
  sum n (fun i => sum m (fun j => f i j)) = sum m (fun j => sum n (fun i => f i j)).
Proof.
  induction n; simpl.
  - symmetry. apply sum_0. reflexivity.
  - rewrite IHn, <- sum_plus. reflexivity.
Qed.

Lemma sum_single n k f :
  (k < n)%nat -> (forall i, (i < n)%nat -> i <> k -> f i = 0) -> sum n f = f k.
Proof.
  intros Hk H. rewrite (sum_split_at k) by lia.
  rewrite sum_0 by (intros; apply H; lia).
  replace (n - k)%nat with (Datatypes.S (n - k - 1)) by lia. rewrite sum_S_first.
  rewrite sum_0.
  - rewrite Nat.add_0_r. ring.
  - intros i Hi. apply H; lia.
Qed.

(** Sum with a Kronecker delta. *)
Lemma sum_delta n k f :
  (k < n)%nat -> sum n (fun i => if Nat.eqb i k then f i else 0) = f k.
Proof.
  intros Hk. rewrite (sum_single n k); [rewrite Nat.eqb_refl; reflexivity|exact Hk|].
  intros i _ Hi. apply Nat.eqb_neq in Hi. rewrite Hi. reflexivity.
Qed.

(** Reversal. *)
Lemma sum_rev n f : sum n (fun i => f (n - 1 - i)%nat) = sum n f.
Proof.
  induction n; [reflexivity|].
  rewrite sum_S_first. simpl sum at 2.
  replace (Datatypes.S n - 1 - 0)%nat with n by lia.
  rewrite <- IHn.
  rewrite (sum_ext n _ (fun i => f (n - 1 - i)%nat)); [ring|].
  intros i Hi. f_equal. lia.
Qed.

(** Sum over [n] blocks of size [d]. *)
Lemma sum_blocks n d f :
  sum (n * d) f = sum n (fun b => sum d (fun r => f (b * d + r)%nat)).
Proof.
  induction n; simpl; [reflexivity|].
  rewrite Nat.add_comm, sum_split, IHn. reflexivity.
Qed.

Lemma sum_mul n m f g :
  sum n f * sum m g = sum n (fun i => sum m (fun j => f i * g j)).
Proof.
  rewrite <- sum_scale_r. apply sum_ext. intros i _. rewrite sum_scale_l. reflexivity.
Qed.

(** ** Matrix algebra on 2d tensors *)

Definition madd (a b : tensor) : tensor :=
  tab2 (rows a) (cols a) (fun i j => get2 a i j + get2 b i j).

Lemma shape_mm a b : shape (mm a b) = [rows a; cols b]. Proof. reflexivity. Qed.
Lemma shape_tr a : shape (tr a) = [cols a; rows a]. Proof. reflexivity. Qed.

Lemma get2_mm a b i j :
  (i < rows a)%nat -> (j < cols b)%nat ->
  get2 (mm a b) i j = sum (cols a) (fun k => get2 a i k * get2 b k j).
Proof. intros. unfold mm. rewrite get2_tab2 by assumption. reflexivity. Qed.

Lemma get2_tr a i j :
  (i < cols a)%nat -> (j < rows a)%nat -> get2 (tr a) i j = get2 a j i.
Proof. intros. unfold tr. rewrite get2_tab2 by assumption. reflexivity. Qed.

Lemma tr_tr a : is2 a = true -> tr (tr a) = a.
Proof.
  intros H. apply is2_inv in H. apply (ext2 (rows a) (cols a)); auto.
  intros. rewrite !get2_tr; auto.
Qed.

Lemma mm_assoc a b c :
  cols a = rows b -> cols b = rows c -> mm (mm a b) c = mm a (mm b c).
Proof.
  intros H1 H2. apply (ext2 (rows a) (cols c)); try reflexivity.
  intros i j Hi Hj. rewrite !get2_mm by assumption.
  change (cols (mm a b)) with (cols b).
  transitivity (sum (cols b) (fun k => sum (cols a) (fun l => get2 a i l * get2 b l k * get2 c k j))).
  - apply sum_ext. intros k Hk. rewrite get2_mm by assumption. rewrite sum_scale_r. reflexivity.
  - rewrite sum_swap. apply sum_ext. intros l Hl. rewrite get2_mm by lia.
    rewrite <- sum_scale_l. apply sum_ext. intros k Hk. ring.
Qed.

Lemma tr_mm a b : cols a = rows b -> tr (mm a b) = mm (tr b) (tr a).
Proof.
  intros H. apply (ext2 (cols b) (rows a)); try reflexivity.
  intros i j Hi Hj. rewrite get2_tr by assumption. rewrite !get2_mm by assumption.
  change (cols (tr b)) with (rows b). rewrite H.
  apply sum_ext. intros k Hk. rewrite !get2_tr by lia. ring.
Qed.

Lemma mm_eye_l n a m : shape a = [n; m] -> mm (eye n) a = a.
Proof.
  intros H. apply (ext2 n m); [rewrite shape_mm; rewrite (cols_of _ _ _ _ H); reflexivity|exact H|].
  intros i j Hi Hj. rewrite get2_mm; [|exact Hi|rewrite (cols_of _ _ _ _ H); exact Hj].
  rewrite (sum_single _ i); [|exact Hi|].
  - unfold eye. rewrite get2_tab2 by assumption. rewrite Nat.eqb_refl. ring.
  - intros k Hk Hne. change (cols (eye n)) with n in Hk. unfold eye. rewrite get2_tab2 by assumption.
    apply Nat.neq_sym, Nat.eqb_neq in Hne. rewrite Hne. ring.
Qed.

Lemma mm_eye_r n a m : shape a = [n; m] -> mm a (eye m) = a.
Proof.
  intros H. apply (ext2 n m); [rewrite shape_mm, (rows_of _ _ _ H); reflexivity|exact H|].
  intros i j Hi Hj. rewrite get2_mm; [|rewrite (rows_of _ _ _ H); exact Hi|exact Hj].
  rewrite (cols_of _ _ _ _ H).
  rewrite (sum_single _ j); [|exact Hj|].
  - unfold eye. rewrite get2_tab2 by assumption. rewrite Nat.eqb_refl. ring.
  - intros k Hk Hne. unfold eye. rewrite get2_tab2 by assumption.
    apply Nat.eqb_neq in Hne. rewrite Hne. ring.
Qed.

(** ** The primitives on known shapes *)

Lemma t_matmul_ok a b n k m :
  shape a = [n; k] -> shape b = [k; m] ->
  t_matmul a b = Ok (tab2 n m (fun i j => sum k (fun q => get2 a i q * get2 b q j))).
Proof.
  intros Ha Hb. unfold t_matmul. rewrite (is2_of _ _ _ Ha), (is2_of _ _ _ Hb).
  rewrite (cols_of _ _ _ _ Ha), (rows_of _ _ _ Hb), Nat.eqb_refl. simpl.
  unfold mm. rewrite (cols_of _ _ _ _ Ha), (rows_of _ _ _ Ha), (cols_of _ _ _ _ Hb). reflexivity.
Qed.

Lemma tr_ok a n m : shape a = [n; m] -> tr a = tab2 m n (fun i j => get2 a j i).
Proof. intros H. unfold tr. rewrite (cols_of _ _ _ _ H), (rows_of _ _ _ H). reflexivity. Qed.

Lemma t_add_ok2 a b n m :
  shape a = [n; m] -> shape b = [n; m] ->
  t_add a b = Ok (tab2 n m (fun i j => get2 a i j + get2 b i j)).
Proof.
  intros Ha Hb. unfold t_add, t_map2. rewrite Ha, Hb, shape_eqb_refl. f_equal.
  apply tab_ext. intros idx Hi. apply in_range2_inv in Hi as (i & j & -> & _ & _). reflexivity.
Qed.

Lemma t_map2_ok1 f a b n :
  shape a = [n] -> shape b = [n] ->
  t_map2 f a b = Ok (tab1 n (fun i => f (get1 a i) (get1 b i))).
Proof.
  intros Ha Hb. unfold t_map2. rewrite Ha, Hb, shape_eqb_refl. f_equal.
  apply tab_ext. intros idx Hi. apply in_range1_inv in Hi as (i & -> & _). reflexivity.
Qed.
Lemma t_map2_ok2 f a b n m :
  shape a = [n; m] -> shape b = [n; m] ->
  t_map2 f a b = Ok (tab2 n m (fun i j => f (get2 a i j) (get2 b i j))).
Proof.
  intros Ha Hb. unfold t_map2. rewrite Ha, Hb, shape_eqb_refl. f_equal.
  apply tab_ext. intros idx Hi. apply in_range2_inv in Hi as (i & j & -> & _). reflexivity.
Qed.
Lemma t_map2_ok3 f a b n m l :
  shape a = [n; m; l] -> shape b = [n; m; l] ->
  t_map2 f a b = Ok (tab3 n m l (fun i j k => f (get3 a i j k) (get3 b i j k))).
Proof.
  intros Ha Hb. unfold t_map2. rewrite Ha, Hb, shape_eqb_refl. f_equal.
  apply tab_ext. intros idx Hi. apply in_range3_inv in Hi as (i & j & k & -> & _). reflexivity.
Qed.

Lemma t_map_ok1 f a n : shape a = [n] -> t_map f a = tab1 n (fun i => f (get1 a i)).
Proof.
  intros Ha. unfold t_map. rewrite Ha.
  apply tab_ext. intros idx Hi. apply in_range1_inv in Hi as (i & -> & _). reflexivity.
Qed.
Lemma t_map_ok2 f a n m : shape a = [n; m] -> t_map f a = tab2 n m (fun i j => f (get2 a i j)).
Proof.
  intros Ha. unfold t_map. rewrite Ha.
  apply tab_ext. intros idx Hi. apply in_range2_inv in Hi as (i & j & -> & _). reflexivity.
Qed.
Lemma t_map_ok3 f a n m l :
  shape a = [n; m; l] -> t_map f a = tab3 n m l (fun i j k => f (get3 a i j k)).
Proof.
  intros Ha. unfold t_map. rewrite Ha.
  apply tab_ext. intros idx Hi. apply in_range3_inv in Hi as (i & j & k & -> & _). reflexivity.
Qed.

Lemma t_slice2_ok t n m r0 r1 c0 c1 :
  shape t = [n; m] -> (r0 <= r1 <= n)%nat -> (c0 <= c1 <= m)%nat ->
  t_slice2 t r0 r1 c0 c1 = Ok (tab2 (r1 - r0) (c1 - c0) (fun i j => get2 t (r0 + i) (c0 + j))).
Proof.
  intros H Hr Hc. unfold t_slice2. rewrite (is2_of _ _ _ H), (rows_of _ _ _ H), (cols_of _ _ _ _ H).
  unfold clamp. rewrite !Nat.min_l by lia. reflexivity.
Qed.

Lemma t_slice1_ok t n a b :
  shape t = [n] -> (a <= b <= n)%nat ->
  t_slice1 t a b = Ok (tab1 (b - a) (fun i => get1 t (a + i))).
Proof.
  intros H Hr. unfold t_slice1. rewrite (is1_of _ _ H), (rows_of _ _ _ H).
  unfold clamp. rewrite !Nat.min_l by lia. reflexivity.
Qed.

Lemma t_setslice2_ok t n m r0 r1 c0 c1 src :
  shape t = [n; m] -> (r0 <= r1 <= n)%nat -> (c0 <= c1 <= m)%nat ->
  shape src = [(r1 - r0)%nat; (c1 - c0)%nat] ->
  t_setslice2 t r0 r1 c0 c1 src =
  Ok (tab2 n m (fun i j =>
        if Nat.leb r0 i && Nat.ltb i r1 && Nat.leb c0 j && Nat.ltb j c1
        then get2 src (i - r0) (j - c0) else get2 t i j)).
Proof.
  intros H Hr Hc Hs. unfold t_setslice2.
  rewrite (is2_of _ _ _ H), (rows_of _ _ _ H), (cols_of _ _ _ _ H).
  unfold clamp. rewrite !Nat.min_l by lia. rewrite Hs, shape_eqb_refl. reflexivity.
Qed.

Lemma t_split2_ok t n m a b :
  shape t = [n; m] -> (a + b = n)%nat ->
  t_split2 t a b = Ok (tab2 a m (fun i j => get2 t i j), tab2 b m (fun i j => get2 t (a + i) j)).
Proof.
  intros H E. unfold t_split2. rewrite (is2_of _ _ _ H), (rows_of _ _ _ H), (cols_of _ _ _ _ H).
  rewrite E, Nat.eqb_refl. reflexivity.
Qed.
Lemma t_split3_ok t n m a b c :
  shape t = [n; m] -> (a + b + c = n)%nat ->
  t_split3 t a b c = Ok (tab2 a m (fun i j => get2 t i j), tab2 b m (fun i j => get2 t (a + i) j),
                         tab2 c m (fun i j => get2 t (a + b + i) j)).
Proof.
  intros H E. unfold t_split3. rewrite (is2_of _ _ _ H), (rows_of _ _ _ H), (cols_of _ _ _ _ H).
  rewrite E, Nat.eqb_refl. reflexivity.
Qed.
Lemma t_split2c_ok t n m a b :
  shape t = [n; m] -> (a + b = m)%nat ->
  t_split2c t a b = Ok (tab2 n a (fun i j => get2 t i j), tab2 n b (fun i j => get2 t i (a + j))).
Proof.
  intros H E. unfold t_split2c. rewrite (is2_of _ _ _ H), (rows_of _ _ _ H), (cols_of _ _ _ _ H).
  rewrite E, Nat.eqb_refl. reflexivity.
Qed.

Lemma t_cat0_ok a b n m k :
  shape a = [n; k] -> shape b = [m; k] ->
  t_cat0 a b = Ok (tab2 (n + m) k (fun i j => if Nat.ltb i n then get2 a i j else get2 b (i - n) j)).
Proof.
  intros Ha Hb. unfold t_cat0. rewrite (is2_of _ _ _ Ha), (is2_of _ _ _ Hb).
  rewrite (cols_of _ _ _ _ Ha), (cols_of _ _ _ _ Hb), Nat.eqb_refl. simpl.
  rewrite (rows_of _ _ _ Ha), (rows_of _ _ _ Hb). reflexivity.
Qed.
Lemma t_cat1_ok a b n m k :
  shape a = [k; n] -> shape b = [k; m] ->
  t_cat1 a b = Ok (tab2 k (n + m) (fun i j => if Nat.ltb j n then get2 a i j else get2 b i (j - n))).
Proof.
  intros Ha Hb. unfold t_cat1. rewrite (is2_of _ _ _ Ha), (is2_of _ _ _ Hb).
  rewrite (rows_of _ _ _ Ha), (rows_of _ _ _ Hb), Nat.eqb_refl. simpl.
  rewrite (cols_of _ _ _ _ Ha), (cols_of _ _ _ _ Hb). reflexivity.
Qed.
Lemma t_cat_ok a b n m :
  shape a = [n] -> shape b = [m] ->
  t_cat a b = Ok (tab1 (n + m) (fun i => if Nat.ltb i n then get1 a i else get1 b (i - n))).
Proof.
  intros Ha Hb. unfold t_cat. rewrite (is1_of _ _ Ha), (is1_of _ _ Hb).
  rewrite (rows_of _ _ _ Ha), (rows_of _ _ _ Hb). reflexivity.
Qed.

Lemma t_sum0_ok t n m :
  shape t = [n; m] -> t_sum0 t = Ok (tab1 m (fun j => sum n (fun i => get2 t i j))).
Proof.
  intros H. unfold t_sum0. rewrite (is2_of _ _ _ H), (rows_of _ _ _ H), (cols_of _ _ _ _ H). reflexivity.
Qed.
Lemma t_sum1_ok t n m :
  shape t = [n; m] -> t_sum1 t = Ok (tab1 n (fun i => sum m (fun j => get2 t i j))).
Proof.
  intros H. unfold t_sum1. rewrite (is2_of _ _ _ H), (rows_of _ _ _ H), (cols_of _ _ _ _ H). reflexivity.
Qed.

Lemma e_i_ij_ok c m n k :
  shape c = [n] -> shape m = [n; k] ->
  e_i_ij c m = Ok (tab2 n k (fun i j => get1 c i * get2 m i j)).
Proof.
  intros Hc Hm. unfold e_i_ij. rewrite Hc, Hm, Nat.eqb_refl. simpl. f_equal.
  destruct (Nat.eqb_spec n 1) as [->|Hn]; [|reflexivity].
  apply tab2_ext. intros i j Hi Hj. replace i with O by lia. reflexivity.
Qed.
Lemma e_ij_j_ok c m n k :
  shape c = [n] -> shape m = [k; n] ->
  e_ij_j m c = Ok (tab2 k n (fun i j => get2 m i j * get1 c j)).
Proof. intros Hc Hm. unfold e_ij_j. rewrite Hc, Hm, Nat.eqb_refl. reflexivity. Qed.
Lemma e_nij_njk_ok a b n i j k :
  shape a = [n; i; j] -> shape b = [n; j; k] ->
  e_nij_njk a b = Ok (tab3 n i k (fun x r c => sum j (fun q => get3 a x r q * get3 b x q c))).
Proof. intros Ha Hb. unfold e_nij_njk. rewrite Ha, Hb, !Nat.eqb_refl. reflexivity. Qed.
Lemma e_nij_nkj_ok a b n i j k :
  shape a = [n; i; j] -> shape b = [n; k; j] ->
  e_nij_nkj a b = Ok (tab3 n i k (fun x r c => sum j (fun q => get3 a x r q * get3 b x c q))).
Proof. intros Ha Hb. unfold e_nij_nkj. rewrite Ha, Hb, !Nat.eqb_refl. reflexivity. Qed.
Lemma t_diag_ok2 t n m :
  shape t = [n; m] -> t_diag t = Ok (tab1 (Nat.min n m) (fun i => get2 t i i)).
Proof. intros H. unfold t_diag. rewrite H. reflexivity. Qed.
Lemma t_diag_ok1 t n :
  shape t = [n] -> t_diag t = Ok (tab2 n n (fun i j => if Nat.eqb i j then get1 t i else 0)).
Proof. intros H. unfold t_diag. rewrite H. reflexivity. Qed.
Lemma t_setdiag_ok t n m a b src :
  shape t = [n; m] -> shape src = [(b - a)%nat] -> (b <= n)%nat -> (b <= m)%nat ->
  t_setdiag t a b src =
  Ok (tab2 n m (fun i j =>
        if Nat.eqb i j && Nat.leb a i && Nat.ltb i b then get1 src (i - a) else get2 t i j)).
Proof.
  intros H Hs Hn Hm. unfold t_setdiag. rewrite (is2_of _ _ _ H), Hs, shape_eqb_refl.
  rewrite (rows_of _ _ _ H), (cols_of _ _ _ _ H).
  apply Nat.leb_le in Hn, Hm. rewrite Hn, Hm. reflexivity.
Qed.
Lemma t_flip_ok t n : shape t = [n] -> t_flip t = Ok (tab1 n (fun i => get1 t (n - 1 - i))).
Proof. intros H. unfold t_flip. rewrite (is1_of _ _ H), (rows_of _ _ _ H). reflexivity. Qed.
Lemma t_block_diag_ok a c n m :
  shape a = [n; n] -> shape c = [m; m] ->
  t_block_diag a c = Ok (tab2 (n + m) (n + m) (fun i j =>
          if Nat.ltb i n then (if Nat.ltb j n then get2 a i j else 0)
          else (if Nat.ltb j n then 0 else get2 c (i - n) (j - n)))).
Proof.
  intros Ha Hc. unfold t_block_diag. rewrite (is2_of _ _ _ Ha), (is2_of _ _ _ Hc).
  rewrite (rows_of _ _ _ Ha), (rows_of _ _ _ Hc), (cols_of _ _ _ _ Ha), (cols_of _ _ _ _ Hc). reflexivity.
Qed.
Lemma dim_at_0 t n s : shape t = n :: s -> dim_at t 0 = Ok n.
Proof. intros H. unfold dim_at. rewrite H. reflexivity. Qed.
Lemma dim_at_1 t n m s : shape t = n :: m :: s -> dim_at t 1 = Ok m.
Proof. intros H. unfold dim_at. rewrite H. reflexivity. Qed.

Lemma t_reshape_ok t s :
  numel t = prod s -> exists t', t_reshape t s = Ok t' /\ shape t' = s /\ data t' = data t.
Proof.
  intros H. unfold t_reshape.
  destruct (bool_dec (numel t =? prod s)%nat true) as [E|E].
  - eexists; split; [reflexivity|]. split; reflexivity.
  - exfalso. apply E. apply Nat.eqb_eq. exact H.
Qed.

(** Sum of all entries by axes. *)
Lemma tsum_1 t n : shape t = [n] -> tsum t = sum n (get1 t).
Proof.
  intros H. unfold tsum, numel. rewrite H. simpl. rewrite Nat.mul_1_r.
  apply sum_ext. intros i Hi. unfold get1, tget. rewrite H. simpl. f_equal. lia.
Qed.

Lemma tsum_2 t n m : shape t = [n; m] -> tsum t = sum n (fun i => sum m (get2 t i)).
Proof.
  intros H. unfold tsum, numel. rewrite H. simpl. rewrite Nat.mul_1_r.
  rewrite sum_blocks. apply sum_ext. intros i Hi. apply sum_ext. intros j Hj.
  unfold get2, tget. rewrite H. simpl. f_equal. lia.
Qed.

Lemma tsum_3 t n m l :
  shape t = [n; m; l] -> tsum t = sum n (fun i => sum m (fun j => sum l (get3 t i j))).
Proof.
  intros H. unfold tsum, numel. rewrite H. simpl. rewrite Nat.mul_1_r.
  rewrite sum_blocks. apply sum_ext. intros i Hi.
  rewrite sum_blocks. apply sum_ext. intros j Hj. apply sum_ext. intros k Hk.
  unfold get3, tget. rewrite H. simpl. f_equal. lia.
Qed.

End Facts.

(** Rewrite the element accesses of tabulated tensors. *)
Ltac tsimp :=
  repeat (match goal with
    | |- context [get1 (tab1 ?n ?f) ?i] => rewrite (get1_tab1 n f i) by lia
    | |- context [get2 (tab2 ?n ?m ?f) ?i ?j] => rewrite (get2_tab2 n m f i j) by lia
    | |- context [get3 (tab3 ?n ?m ?l ?f) ?i ?j ?k] => rewrite (get3_tab3 n m l f i j k) by lia
    end).
