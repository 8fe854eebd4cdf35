(** Products with structured matrices. *)

From Coq Require Import List Arith Lia Bool Field Ring.
From Verif Require Import Scalar Res Tensor TensorFacts Structures StructSpec StructDense StructPattern.
Import ListNotations.

Section Mul.
Context {SC : Scalar} {FL : FieldLaws SC}.
Open Scope F_scope.
Add Field Ffield_m : F_ft.

Lemma sum_1 f : sum 1 f = f O.
Proof. simpl. ring. Qed.

(** ** Reshapes *)

Lemma reshape_23 t a b c :
  shape t = [(a * b)%nat; c] ->
  t_reshape t [a; b; c] = Ok (tab3 a b c (fun x r q => get2 t (x * b + r) q)).
Proof.
  intros H. destruct (t_reshape_ok t [a; b; c]) as (t' & R & S' & D').
  { unfold numel. rewrite H. simpl. lia. }
  rewrite R. f_equal. apply (ext3 a b c); auto. intros x r q Hx Hr Hq. tsimp.
  unfold get3, get2, tget. rewrite S', D', H. simpl. f_equal. nia.
Qed.

Lemma reshape_32 t a b c :
  b <> O -> shape t = [a; b; c] ->
  t_reshape t [(a * b)%nat; c] = Ok (tab2 (a * b) c (fun i j => get3 t (i / b) (i mod b) j)).
Proof.
  intros Hb H. destruct (t_reshape_ok t [(a * b)%nat; c]) as (t' & R & S' & D').
  { unfold numel. rewrite H. simpl. lia. }
  rewrite R. f_equal. apply (ext2 (a * b) c); auto. intros i j Hi Hj. tsimp.
  unfold get3, get2, tget. rewrite S', D', H. simpl. f_equal.
  pose proof (Nat.div_mod i b Hb). nia.
Qed.

Lemma reshape_12 t a :
  shape t = [a] -> t_reshape t [1%nat; a] = Ok (tab2 1 a (fun _ j => get1 t j)).
Proof.
  intros H. destruct (t_reshape_ok t [1%nat; a]) as (t' & R & S' & D').
  { unfold numel. rewrite H. simpl. lia. }
  rewrite R. f_equal. apply (ext2 1 a); auto. intros i j Hi Hj. tsimp.
  unfold get1, get2, tget. rewrite S', D', H. simpl. f_equal. nia.
Qed.

Lemma reshape_13 t a :
  shape t = [a] -> t_reshape t [1%nat; 1%nat; a] = Ok (tab3 1 1 a (fun _ _ j => get1 t j)).
Proof.
  intros H. destruct (t_reshape_ok t [1%nat; 1%nat; a]) as (t' & R & S' & D').
  { unfold numel. rewrite H. simpl. lia. }
  rewrite R. f_equal. apply (ext3 1 1 a); auto. intros i j k Hi Hj Hk. tsimp.
  unfold get1, get3, tget. rewrite S', D', H. simpl. f_equal. nia.
Qed.

Lemma reshape_21 t a :
  shape t = [1%nat; a] -> t_reshape t [a] = Ok (tab1 a (fun j => get2 t 0 j)).
Proof.
  intros H. destruct (t_reshape_ok t [a]) as (t' & R & S' & D').
  { unfold numel. rewrite H. simpl. lia. }
  rewrite R. f_equal. apply (ext1 a); auto. intros i Hi. tsimp.
  unfold get1, get2, tget. rewrite S', D', H. simpl. f_equal.
Qed.

(** ** Rows and columns of block-diagonal matrices *)

Lemma block_row_sum D n b l g i :
  D <> O -> valid (CBlock D) n (MBlock D b l) -> (i < n)%nat ->
  sum n (fun k => ent (MBlock D b l) i k * g k) =
  if Nat.ltb (i / D) (n / D)
  then sum D (fun q => get3 b (i / D) (i mod D) q * g (i / D * D + q)%nat)
  else sum (n mod D) (fun q => get2 l (i - n / D * D) q * g (n / D * D + q)%nat).
Proof.
  intros HD (_ & Hb & Hl) Hi. pose proof (block_dims D n HD) as E.
  pose proof (div_le_n D i n HD Hi). pose proof (div_lt_iff D i n HD Hi).
  pose proof (Nat.div_mod i D HD) as Ei. pose proof (Nat.mod_upper_bound i D HD) as Mi.
  pose proof (Nat.mod_upper_bound n D HD) as Mn.
  cbn [ent]. rewrite (rows_of _ _ _ Hb).
  destruct (Nat.ltb_spec (i / D) (n / D)).
  - rewrite (sum_window (i / D * D) D n).
    + apply sum_ext. intros q Hq.
      rewrite Nat.div_add_l, (Nat.div_small q D), Nat.add_0_r, Nat.eqb_refl by assumption.
      rewrite (Nat.add_comm (i / D * D) q) at 1. rewrite Nat.mod_add, (Nat.mod_small q D) by assumption.
      reflexivity.
    + nia.
    + intros k Hk Ho. destruct (Nat.eqb_spec (i / D) (k / D)) as [Ek|]; [|ring].
      exfalso. symmetry in Ek. apply div_unique_iff in Ek; [|assumption]. lia.
  - assert (Eid : (i / D = n / D)%nat) by lia. rewrite Eid.
    rewrite (sum_window (n / D * D) (n mod D) n).
    + apply sum_ext. intros q Hq.
      rewrite Nat.div_add_l, (Nat.div_small q D), Nat.add_0_r, Nat.eqb_refl by lia.
      f_equal. f_equal. lia.
    + lia.
    + intros k Hk Ho. destruct (Nat.eqb_spec (n / D) (k / D)) as [Ek|]; [|ring].
      exfalso. symmetry in Ek. apply div_unique_iff in Ek; [|assumption]. lia.
Qed.

(** ** Rows and columns of hierarchical matrices *)

Section Hier.
Variables (k1 k2 : nat) (A B C D E : @tensor SC) (K1 d K2 : nat).
Hypotheses (HA : shape A = [K1; K1]) (HB : shape B = [K1; (d + K2)%nat]) (HC : shape C = [d])
           (HD : shape D = [K2; d]) (HE : shape E = [K2; K2]).

Lemma hier_row_sum g i :
  (i < K1 + d + K2)%nat ->
  sum (K1 + d + K2) (fun k => ent (MHier k1 k2 A B C D E) i k * g k) =
  if Nat.ltb i K1 then
    sum K1 (fun k => get2 A i k * g k) + sum d (fun k => get2 B i k * g (K1 + k)%nat)
    + sum K2 (fun k => get2 B i (d + k) * g (K1 + d + k)%nat)
  else if Nat.ltb i (K1 + d) then get1 C (i - K1) * g i
  else sum d (fun k => get2 D (i - K1 - d) k * g (K1 + k)%nat)
       + sum K2 (fun k => get2 E (i - K1 - d) k * g (K1 + d + k)%nat).
Proof.
  intros Hi. rewrite !sum_split. cbn [ent].
  rewrite (rows_of _ _ _ HA), (rows_of _ _ _ HC).
  destruct (Nat.ltb_spec i K1).
  - f_equal; [f_equal|]; apply sum_ext; intros k Hk; bd; try reflexivity; do 2 f_equal; lia.
  - destruct (Nat.ltb_spec i (K1 + d)).
    + rewrite (sum_0 K1) by (intros; bd; ring).
      rewrite (sum_0 K2) by (intros; bd; ring).
      rewrite (sum_single d (i - K1)) by (try lia; intros; bd; ring).
      bd. replace (K1 + (i - K1))%nat with i by lia. ring.
    + rewrite (sum_0 K1) by (intros; bd; ring).
      rewrite (sum_ext d _ (fun k => get2 D (i - K1 - d) k * g (K1 + k)%nat))
        by (intros; bd; do 2 f_equal; lia).
      rewrite (sum_ext K2 _ (fun k => get2 E (i - K1 - d) k * g (K1 + d + k)%nat))
        by (intros; bd; do 2 f_equal; lia).
      ring.
Qed.

Lemma hier_col_sum g j :
  (j < K1 + d + K2)%nat ->
  sum (K1 + d + K2) (fun k => ent (MHier k1 k2 A B C D E) k j * g k) =
  if Nat.ltb j K1 then sum K1 (fun k => get2 A k j * g k)
  else if Nat.ltb j (K1 + d) then
    sum K1 (fun k => get2 B k (j - K1) * g k) + get1 C (j - K1) * g j
    + sum K2 (fun k => get2 D k (j - K1) * g (K1 + d + k)%nat)
  else sum K1 (fun k => get2 B k (j - K1) * g k)
       + sum K2 (fun k => get2 E k (j - K1 - d) * g (K1 + d + k)%nat).
Proof.
  intros Hj. rewrite !sum_split. cbn [ent].
  rewrite (rows_of _ _ _ HA), (rows_of _ _ _ HC).
  destruct (Nat.ltb_spec j K1).
  - rewrite (sum_0 d) by (intros; bd; ring). rewrite (sum_0 K2) by (intros; bd; ring).
    rewrite (sum_ext K1 _ (fun k => get2 A k j * g k)) by (intros; bd; reflexivity). ring.
  - destruct (Nat.ltb_spec j (K1 + d)).
    + rewrite (sum_ext K1 _ (fun k => get2 B k (j - K1) * g k)) by (intros; bd; reflexivity).
      f_equal; [f_equal|].
      * rewrite (sum_single d (j - K1)) by (try lia; intros; bd; ring).
        bd. do 2 f_equal; lia.
      * apply sum_ext. intros k Hk. bd. do 2 f_equal; lia.
    + rewrite (sum_ext K1 _ (fun k => get2 B k (j - K1) * g k)) by (intros; bd; reflexivity).
      rewrite (sum_0 d) by (intros; bd; ring).
      rewrite (sum_ext K2 _ (fun k => get2 E k (j - K1 - d) * g (K1 + d + k)%nat))
        by (intros; bd; do 2 f_equal; lia).
      ring.
Qed.

Lemma hier_matmul_t_ok X m :
  shape X = [(K1 + d + K2)%nat; m] ->
  hier_matmul_t A B C D E X =
  Ok (tab2 (K1 + d + K2) m (fun i j =>
        sum (K1 + d + K2) (fun k => ent (MHier k1 k2 A B C D E) i k * get2 X k j))).
Proof.
  intros HX. unfold hier_matmul_t.
  rewrite (rows_of _ _ _ HA), (rows_of _ _ _ HC), (rows_of _ _ _ HE).
  rewrite t_split2c_ok with (n := K1) (m := (d + K2)%nat) by (assumption || reflexivity).
  cbn [bind].
  rewrite t_split3_ok with (n := (K1 + d + K2)%nat) (m := m) by (assumption || reflexivity).
  cbn [bind].
  rewrite t_matmul_ok with (n := K1) (k := K1) (m := m) by (assumption || reflexivity). cbn [bind].
  rewrite t_matmul_ok with (n := K1) (k := d) (m := m) by (assumption || reflexivity). cbn [bind].
  rewrite t_matmul_ok with (n := K1) (k := K2) (m := m) by (assumption || reflexivity). cbn [bind].
  rewrite t_add_ok2 with (n := K1) (m := m) by reflexivity. cbn [bind].
  rewrite t_add_ok2 with (n := K1) (m := m) by reflexivity. cbn [bind].
  rewrite e_i_ij_ok with (n := d) (k := m) by (assumption || reflexivity). cbn [bind].
  rewrite t_matmul_ok with (n := K2) (k := d) (m := m) by (assumption || reflexivity). cbn [bind].
  rewrite t_matmul_ok with (n := K2) (k := K2) (m := m) by (assumption || reflexivity). cbn [bind].
  rewrite t_add_ok2 with (n := K2) (m := m) by reflexivity. cbn [bind].
  rewrite t_cat0_ok with (n := K1) (m := d) (k := m) by reflexivity. cbn [bind].
  rewrite t_cat0_ok with (n := (K1 + d)%nat) (m := K2) (k := m) by reflexivity.
  f_equal. apply tab2_ext. intros i j Hi Hj.
  rewrite (hier_row_sum (fun k => get2 X k j)) by exact Hi.
  bd; tsimp; bd; tsimp.
  - f_equal; [f_equal|]; apply sum_ext; intros k Hk; tsimp; reflexivity.
  - do 2 f_equal; lia.
  - replace (i - (K1 + d))%nat with (i - K1 - d)%nat by lia.
    f_equal; apply sum_ext; intros k Hk; tsimp; reflexivity.
Qed.

Lemma hier_rmatmat_ok X m :
  shape X = [(K1 + d + K2)%nat; m] ->
  hier_rmatmat A B C D E X =
  Ok (tab2 (K1 + d + K2) m (fun i j =>
        sum (K1 + d + K2) (fun k => ent (MHier k1 k2 A B C D E) k i * get2 X k j))).
Proof.
  intros HX. unfold hier_rmatmat.
  rewrite (rows_of _ _ _ HA), (rows_of _ _ _ HC), (rows_of _ _ _ HE).
  rewrite t_split3_ok with (n := (K1 + d + K2)%nat) (m := m) by (assumption || reflexivity).
  cbn [bind].
  rewrite t_split2c_ok with (n := K1) (m := (d + K2)%nat) by (assumption || reflexivity).
  cbn [bind].
  rewrite (tr_ok A K1 K1) by assumption.
  rewrite t_matmul_ok with (n := K1) (k := K1) (m := m) by (assumption || reflexivity). cbn [bind].
  rewrite (tr_ok _ K1 d) by reflexivity.
  rewrite t_matmul_ok with (n := d) (k := K1) (m := m) by (assumption || reflexivity). cbn [bind].
  rewrite e_i_ij_ok with (n := d) (k := m) by (assumption || reflexivity). cbn [bind].
  rewrite (tr_ok D K2 d) by assumption.
  rewrite t_matmul_ok with (n := d) (k := K2) (m := m) by (assumption || reflexivity). cbn [bind].
  rewrite t_add_ok2 with (n := d) (m := m) by reflexivity. cbn [bind].
  rewrite t_add_ok2 with (n := d) (m := m) by reflexivity. cbn [bind].
  rewrite (tr_ok _ K1 K2) by reflexivity.
  rewrite t_matmul_ok with (n := K2) (k := K1) (m := m) by (assumption || reflexivity). cbn [bind].
  rewrite (tr_ok E K2 K2) by assumption.
  rewrite t_matmul_ok with (n := K2) (k := K2) (m := m) by (assumption || reflexivity). cbn [bind].
  rewrite t_add_ok2 with (n := K2) (m := m) by reflexivity. cbn [bind].
  rewrite t_cat0_ok with (n := K1) (m := d) (k := m) by reflexivity. cbn [bind].
  rewrite t_cat0_ok with (n := (K1 + d)%nat) (m := K2) (k := m) by reflexivity.
  f_equal. apply tab2_ext. intros i j Hi Hj.
  rewrite (hier_col_sum (fun k => get2 X k j)) by exact Hi.
  bd; tsimp; bd; tsimp.
  - apply sum_ext; intros k Hk; tsimp; reflexivity.
  - f_equal; [f_equal|].
    + apply sum_ext; intros k Hk; tsimp; reflexivity.
    + do 2 f_equal; lia.
    + apply sum_ext; intros k Hk; tsimp; reflexivity.
  - f_equal; apply sum_ext; intros k Hk; tsimp; do 2 f_equal; lia.
Qed.

Variables (A' B' C' D' E' : @tensor SC).
Hypotheses (HA' : shape A' = [K1; K1]) (HB' : shape B' = [K1; (d + K2)%nat]) (HC' : shape C' = [d])
           (HD' : shape D' = [K2; d]) (HE' : shape E' = [K2; K2]).

Lemma hier_matmul_s_ok :
  (K1 <= k1)%nat -> (K2 <= k2)%nat ->
  exists A2 B2 C2 D2 E2,
    matmul_s (MHier k1 k2 A B C D E) (MHier k1 k2 A' B' C' D' E') = Ok (MHier k1 k2 A2 B2 C2 D2 E2) /\
    shape A2 = [K1; K1] /\ shape B2 = [K1; (d + K2)%nat] /\ shape C2 = [d] /\
    shape D2 = [K2; d] /\ shape E2 = [K2; K2] /\
    forall i j, (i < K1 + d + K2)%nat -> (j < K1 + d + K2)%nat ->
      ent (MHier k1 k2 A2 B2 C2 D2 E2) i j =
      mprod (K1 + d + K2) (ent (MHier k1 k2 A B C D E)) (ent (MHier k1 k2 A' B' C' D' E')) i j.
Proof.
  intros Hk1 Hk2. cbn [matmul_s].
  rewrite (rows_of _ _ _ HC), (rows_of _ _ _ HE), (rows_of _ _ _ HC'), (rows_of _ _ _ HE').
  rewrite t_split2c_ok with (n := K1) (m := (d + K2)%nat) by (assumption || reflexivity).
  cbn [bind].
  rewrite t_matmul_ok with (n := K1) (k := K1) (m := K1) by assumption. cbn [bind].
  unfold t_mul. rewrite t_map2_ok1 with (n := d) by assumption. cbn [bind].
  rewrite t_matmul_ok with (n := K2) (k := K2) (m := K2) by assumption. cbn [bind].
  rewrite e_ij_j_ok with (n := d) (k := K2) by assumption. cbn [bind].
  rewrite t_matmul_ok with (n := K2) (k := K2) (m := d) by assumption. cbn [bind].
  rewrite t_add_ok2 with (n := K2) (m := d) by reflexivity. cbn [bind].
  rewrite t_split2c_ok with (n := K1) (m := (d + K2)%nat) by (assumption || reflexivity).
  cbn [bind].
  rewrite t_matmul_ok with (n := K1) (k := K1) (m := d) by (assumption || reflexivity). cbn [bind].
  rewrite e_ij_j_ok with (n := d) (k := K1) by (assumption || reflexivity). cbn [bind].
  rewrite t_matmul_ok with (n := K1) (k := K2) (m := d) by (assumption || reflexivity). cbn [bind].
  rewrite t_add_ok2 with (n := K1) (m := d) by reflexivity. cbn [bind].
  rewrite t_add_ok2 with (n := K1) (m := d) by reflexivity. cbn [bind].
  rewrite t_matmul_ok with (n := K1) (k := K1) (m := K2) by (assumption || reflexivity). cbn [bind].
  rewrite t_matmul_ok with (n := K1) (k := K2) (m := K2) by (assumption || reflexivity). cbn [bind].
  rewrite t_add_ok2 with (n := K1) (m := K2) by reflexivity. cbn [bind].
  rewrite t_cat1_ok with (n := d) (m := K2) (k := K1) by reflexivity. cbn [bind].
  rewrite mk_hier_ok with (K1 := K1) (d := d) (K2 := K2) by (reflexivity || assumption).
  do 5 eexists. split; [reflexivity|]. repeat (split; [reflexivity|]).
  intros i j Hi Hj. unfold mprod.
  rewrite (hier_row_sum (fun k => ent (MHier k1 k2 A' B' C' D' E') k j)) by exact Hi.
  cbn [ent]. rewrite (rows_of _ _ _ HA'), (rows_of _ _ _ HC').
  change (rows (tab2 K1 K1 _)) with K1. change (rows (tab1 d _)) with d.
  destruct (Nat.ltb_spec i K1); [|destruct (Nat.ltb_spec i (K1 + d))].
  - destruct (Nat.ltb_spec j K1); [|destruct (Nat.ltb_spec j (K1 + d))].
    + tsimp. rewrite (sum_0 d) by (intros; bd; ring). rewrite (sum_0 K2) by (intros; bd; ring).
      match goal with |- _ = ?z + 0 + 0 => transitivity z; [|ring] end.
      apply sum_ext. intros k Hk. bd. reflexivity.
    + tsimp. bd. tsimp. f_equal; [f_equal|].
      * apply sum_ext. intros k Hk. bd. tsimp. do 2 f_equal; lia.
      * rewrite (sum_single d (j - K1)) by (try lia; intros; bd; ring).
        bd. do 2 f_equal; lia.
      * apply sum_ext. intros k Hk. bd. tsimp. do 2 f_equal; lia.
    + tsimp. bd. tsimp.
      rewrite (sum_0 d (fun k => get2 B i k * _)) by (intros; bd; ring).
      match goal with |- ?x + ?y = ?z + 0 + ?w => replace x with z; [replace y with w; [ring|]|] end.
      * apply sum_ext. intros k Hk. bd. tsimp. do 2 f_equal; lia.
      * apply sum_ext. intros k Hk. bd. tsimp. do 2 f_equal; lia.
  - bd; try ring. subst. tsimp. reflexivity.
  - destruct (Nat.ltb_spec j K1); [|destruct (Nat.ltb_spec j (K1 + d))].
    + rewrite (sum_0 d) by (intros; bd; ring). rewrite (sum_0 K2) by (intros; bd; ring). ring.
    + tsimp. f_equal.
      * rewrite (sum_single d (j - K1)) by (try lia; intros; bd; ring).
        bd. do 2 f_equal; lia.
      * apply sum_ext. intros k Hk. bd. do 2 f_equal; lia.
    + tsimp. rewrite (sum_0 d) by (intros; bd; ring).
      rewrite (sum_ext K2 (fun k => get2 E (i - K1 - d) k * (if (K1 + d + k <? K1)%nat then _ else _))
                       (fun k => get2 E (i - K1 - d) k * get2 E' k (j - K1 - d)))
        by (intros; bd; do 2 f_equal; lia).
      ring.
Qed.

End Hier.

(** ** Toeplitz products *)

Lemma toeplitz_matmul_ok cf X N m :
  N <> O -> m <> O -> shape cf = [(2 * N - 1)%nat] -> shape X = [N; m] ->
  toeplitz_matmul cf X =
  Ok (tab2 N m (fun i j => sum N (fun k => get1 cf (N - 1 + k - i) * get2 X k j))).
Proof.
  intros HN Hm Hc HX. unfold toeplitz_matmul.
  rewrite (dim_at_0 _ _ _ Hc), (dim_at_0 _ _ _ HX). cbn [bind].
  replace (2 * N - 1 + 1)%nat with (N * 2)%nat by lia. rewrite Nat.div_mul by lia.
  rewrite Nat.eqb_refl. cbn [negb]. rewrite (dim_at_1 _ _ _ _ HX). cbn [bind].
  replace (N =? 0)%nat with false by (symmetry; apply Nat.eqb_neq; exact HN).
  rewrite (tr_ok X N m HX). unfold t_conv1d. rewrite shape_tab2, shape_tab3.
  rewrite Nat.mul_1_l, Nat.eqb_refl, Nat.mod_same by exact Hm.
  replace (m =? 0)%nat with false by (symmetry; apply Nat.eqb_neq; exact Hm).
  replace (2 * N - 1 =? 0)%nat with false by (symmetry; apply Nat.eqb_neq; lia).
  replace (2 * N - 1 <=? N + 2 * (N - 1))%nat with true by (symmetry; apply Nat.leb_le; lia).
  cbn [andb negb Nat.eqb bind]. f_equal.
  replace (N + 2 * (N - 1) - (2 * N - 1) + 1)%nat with N by lia.
  rewrite (tr_ok _ m N) by reflexivity. apply tab2_ext. intros o co Ho Hco. tsimp.
  rewrite Nat.div_same by exact Hm. cbn [sum]. 
  rewrite (sum_window (N - 1 - o) N).
  - transitivity (sum N (fun k => get1 cf (N - 1 + k - o) * get2 X k co)); [|reflexivity].
    match goal with |- 0 + ?x = _ => transitivity x; [ring|] end.
    apply sum_ext. intros k Hk. tsimp. bd. rewrite Nat.div_1_r. tsimp.
    f_equal; f_equal; lia.
  - lia.
  - intros q Hq Ho'. bd; ring.
Qed.

Lemma coeffs_lower_ok d n :
  n <> O -> shape d = [n] ->
  coeffs_lower d = Ok (tab1 (2 * n - 1) (fun p => if Nat.ltb p n then get1 d (n - 1 - p) else 0)).
Proof.
  intros Hn H. unfold coeffs_lower. rewrite (dim_at_0 _ _ _ H). cbn [bind].
  rewrite (t_flip_ok _ _ H). cbn [bind]. unfold t_zeros_pred. destruct n as [|q]; [congruence|].
  cbn [bind]. rewrite t_cat_ok with (n := Datatypes.S q) (m := q) by reflexivity. f_equal.
  replace (2 * Datatypes.S q - 1)%nat with (Datatypes.S q + q)%nat by lia.
  apply tab1_ext. intros i Hi. bd; tsimp; try reflexivity.
  unfold zeros, get1. rewrite tget_tab; [reflexivity|]. apply in_range1. lia.
Qed.

Lemma coeffs_upper_ok d n :
  n <> O -> shape d = [n] ->
  coeffs_upper d = Ok (tab1 (2 * n - 1) (fun p => if Nat.ltb p (n - 1) then 0 else get1 d (p - (n - 1)))).
Proof.
  intros Hn H. unfold coeffs_upper. rewrite (dim_at_0 _ _ _ H). cbn [bind].
  unfold t_zeros_pred. destruct n as [|q]; [congruence|].
  cbn [bind]. rewrite t_cat_ok with (n := q) (m := Datatypes.S q) by (assumption || reflexivity). f_equal.
  replace (2 * Datatypes.S q - 1)%nat with (q + Datatypes.S q)%nat by lia.
  replace (Datatypes.S q - 1)%nat with q by lia.
  apply tab1_ext. intros i Hi. bd; tsimp; try reflexivity.
  unfold zeros, get1. rewrite tget_tab; [reflexivity|]. apply in_range1. lia.
Qed.

Lemma toeplitz_product_ok d e n :
  n <> O -> shape d = [n] -> shape e = [n] ->
  toeplitz_product d e =
  Ok (tab1 n (fun m => sum (Datatypes.S m) (fun q => get1 d (m - q) * get1 e q))).
Proof.
  intros Hn Hd He. unfold toeplitz_product. rewrite (dim_at_0 _ _ _ Hd). cbn [bind].
  replace (n =? 0)%nat with false by (symmetry; apply Nat.eqb_neq; exact Hn).
  unfold t_pad_left. rewrite (is1_of _ _ He), (rows_of _ _ _ He). cbn [bind].
  change (rows (tab1 (n - 1 + n) _)) with (n - 1 + n)%nat.
  rewrite reshape_12 by reflexivity. cbn [bind].
  rewrite (t_flip_ok _ _ Hd). cbn [bind]. change (rows (tab1 n _)) with n.
  rewrite reshape_13 by reflexivity. cbn [bind].
  unfold t_conv1d. rewrite shape_tab2, shape_tab3.
  replace (n =? 0)%nat with false by (symmetry; apply Nat.eqb_neq; exact Hn).
  replace (n <=? n - 1 + n + 2 * 0)%nat with true by (symmetry; apply Nat.leb_le; lia).
  cbn [andb negb Nat.eqb bind Nat.mul Nat.modulo Nat.divmod Nat.add].
  replace (n - 1 + n + 0 - n + 1)%nat with n by lia.
  change (cols (tab2 1 n _)) with n. cbn [fst snd Nat.sub Nat.eqb andb bind].
  change (cols (tab2 1 n _)) with n.
  rewrite reshape_21 by reflexivity. f_equal. apply tab1_ext. intros m Hm. tsimp.
  rewrite sum_1.
  rewrite (sum_window (n - 1 - m) (Datatypes.S m) n).
  - apply sum_ext. intros q Hq. tsimp. bd. change (0 / (1 / 1) * 1 + 0)%nat with O.
    tsimp. bd. f_equal; f_equal; lia.
  - lia.
  - intros q Hq Ho. change (0 / (1 / 1) * 1 + 0)%nat with O. tsimp. bd; tsimp; bd; ring.
Qed.

(** ** Structured times tensor *)

Lemma block_matmul_t_ok D n b l X m :
  D <> O -> valid (CBlock D) n (MBlock D b l) -> shape X = [n; m] ->
  block_matmul_t D b l X =
  Ok (tab2 n m (fun i j => sum n (fun k => ent (MBlock D b l) i k * get2 X k j))).
Proof.
  intros HD V HX. destruct (V) as (_ & Hb & Hl). pose proof (block_dims D n HD) as E.
  unfold block_matmul_t. rewrite (dim_at_0 _ _ _ Hb), (dim_at_0 _ _ _ Hl), (dim_at_0 _ _ _ HX). cbn [bind].
  rewrite E, Nat.eqb_refl. unfold ndim. rewrite HX. cbn [length Nat.eqb negb orb].
  rewrite t_split2_ok with (n := n) (m := m) by assumption. cbn [bind].
  rewrite (cols_of _ _ _ _ HX).
  rewrite reshape_23 by reflexivity. cbn [bind].
  rewrite e_nij_njk_ok with (n := (n / D)%nat) (i := D) (j := D) (k := m) by (assumption || reflexivity).
  cbn [bind]. rewrite reshape_32 by (assumption || reflexivity). cbn [bind].
  rewrite t_matmul_ok with (n := (n mod D)%nat) (k := (n mod D)%nat) (m := m) by (assumption || reflexivity).
  cbn [bind]. rewrite t_cat0_ok with (n := (n / D * D)%nat) (m := (n mod D)%nat) (k := m) by reflexivity.
  rewrite E. f_equal. apply tab2_ext. intros i j Hi Hj.
  rewrite (block_row_sum D n b l (fun k => get2 X k j) i HD V Hi).
  pose proof (div_lt_iff D i n HD Hi) as Li. pose proof (Nat.mod_upper_bound i D HD).
  destruct (Nat.ltb_spec i (n / D * D)); destruct (Nat.ltb_spec (i / D) (n / D)); try lia.
  - tsimp. apply sum_ext. intros q Hq. tsimp. rewrite get2_tab2 by nia. reflexivity.
  - tsimp. apply sum_ext. intros q Hq. tsimp. reflexivity.
Qed.

Lemma matmul_t_ok c n s X m :
  cls_ok c -> valid c n s -> shape X = [n; m] ->
  match c with CTril | CTriu => n <> O /\ m <> O | _ => True end ->
  matmul_t s X = Ok (tab2 n m (fun i j => sum n (fun k => ent s i k * get2 X k j))).
Proof.
  intros Hok V HX HT.
  assert (Naive : naive_matmul_t s X = Ok (tab2 n m (fun i j => sum n (fun k => ent s i k * get2 X k j)))).
  { unfold naive_matmul_t. rewrite (to_dense_ok c n s Hok V). cbn [bind].
    rewrite t_matmul_ok with (n := n) (k := n) (m := m) by (assumption || reflexivity). f_equal.
    apply tab2_ext. intros i j Hi Hj. apply sum_ext. intros k Hk. tsimp. reflexivity. }
  destruct c; destruct s; simpl in V; try contradiction; cbn [matmul_t]; try exact Naive.
  - rewrite e_i_ij_ok with (n := n) (k := m) by assumption. f_equal.
    apply tab2_ext. intros i j Hi Hj.
    rewrite (sum_single n i); [|exact Hi|].
    + cbn [ent]. rewrite Nat.eqb_refl. reflexivity.
    + intros k Hk Hne. cbn [ent]. bd. ring.
  - destruct V as (-> & V). apply block_matmul_t_ok; [exact Hok| |exact HX]. split; [reflexivity|exact V].
  - destruct V as (-> & -> & K1 & d & K2 & Ed & HA & HB & HC & HD & HE).
    apply hier_parts_spec in Ed as (<- & _).
    apply hier_matmul_t_ok; assumption.
  - destruct HT as [Hn Hm]. rewrite (coeffs_lower_ok _ n) by assumption. cbn [bind].
    rewrite toeplitz_matmul_ok with (N := n) (m := m) by (assumption || reflexivity). f_equal.
    apply tab2_ext. intros i j Hi Hj. apply sum_ext. intros k Hk. tsimp. cbn [ent].
    f_equal. bd; try reflexivity. f_equal. lia.
  - destruct HT as [Hn Hm]. rewrite (coeffs_upper_ok _ n) by assumption. cbn [bind].
    rewrite toeplitz_matmul_ok with (N := n) (m := m) by (assumption || reflexivity). f_equal.
    apply tab2_ext. intros i j Hi Hj. apply sum_ext. intros k Hk. tsimp. cbn [ent].
    f_equal. bd; try reflexivity. f_equal. lia.
Qed.

Lemma rmatmat_ok c n s X m :
  cls_ok c -> valid c n s -> shape X = [n; m] ->
  match c with CTril | CTriu => n <> O /\ m <> O | CBlock _ => False | _ => True end ->
  rmatmat s X = Ok (tab2 n m (fun i j => sum n (fun k => ent s k i * get2 X k j))).
Proof.
  intros Hok V HX HT.
  assert (Naive : (let* dense := to_dense s in t_matmul (tr dense) X) =
                  Ok (tab2 n m (fun i j => sum n (fun k => ent s k i * get2 X k j)))).
  { rewrite (to_dense_ok c n s Hok V). cbn [bind]. rewrite (tr_ok _ n n) by reflexivity.
    rewrite t_matmul_ok with (n := n) (k := n) (m := m) by (assumption || reflexivity). f_equal.
    apply tab2_ext. intros i j Hi Hj. apply sum_ext. intros k Hk. tsimp. reflexivity. }
  destruct c; destruct s; simpl in V; try contradiction; cbn [rmatmat]; try exact Naive.
  - cbn [matmul_t]. rewrite e_i_ij_ok with (n := n) (k := m) by assumption. f_equal.
    apply tab2_ext. intros i j Hi Hj.
    rewrite (sum_single n i); [|exact Hi|].
    + cbn [ent]. rewrite Nat.eqb_refl. reflexivity.
    + intros k Hk Hne. cbn [ent]. bd. ring.
  - destruct V as (-> & -> & K1 & d & K2 & Ed & HA & HB & HC & HD & HE).
    apply hier_parts_spec in Ed as (<- & _).
    apply hier_rmatmat_ok; assumption.
  - destruct HT as [Hn Hm]. rewrite (coeffs_upper_ok _ n) by assumption. cbn [bind].
    rewrite toeplitz_matmul_ok with (N := n) (m := m) by (assumption || reflexivity). f_equal.
    apply tab2_ext. intros i j Hi Hj. apply sum_ext. intros k Hk. tsimp. cbn [ent].
    f_equal. bd; try reflexivity. f_equal. lia.
  - destruct HT as [Hn Hm]. rewrite (coeffs_lower_ok _ n) by assumption. cbn [bind].
    rewrite toeplitz_matmul_ok with (N := n) (m := m) by (assumption || reflexivity). f_equal.
    apply tab2_ext. intros i j Hi Hj. apply sum_ext. intros k Hk. tsimp. cbn [ent].
    f_equal. bd; try reflexivity. f_equal. lia.
Qed.

(** ** Structured times structured *)

Lemma matmul_s_ok c n a b :
  cls_ok c -> dim_ok c n -> no_nested_hier c -> valid c n a -> valid c n b ->
  exists r, matmul_s a b = Ok r /\ valid c n r /\
            forall i j, (i < n)%nat -> (j < n)%nat -> ent r i j = mprod n (ent a) (ent b) i j.
Proof.
  intros Hok Hd Hh Va Vb.
  assert (Naive : hier_free c ->
          exists r, naive_matmul_s a b = Ok r /\ valid c n r /\
            forall i j, (i < n)%nat -> (j < n)%nat -> ent r i j = mprod n (ent a) (ent b) i j).
  { intros Hf. unfold naive_matmul_s. rewrite (to_dense_ok c n a Hok Va), (to_dense_ok c n b Hok Vb).
    cbn [bind]. rewrite t_matmul_ok with (n := n) (k := n) (m := n) by reflexivity. cbn [bind].
    rewrite (valid_cls _ _ _ Va).
    rewrite (tab2_ext n n _ (mprod n (ent a) (ent b))).
    2:{ intros i j Hi Hj. unfold mprod. apply sum_ext. intros k Hk. tsimp. reflexivity. }
    apply from_dense_pattern; try assumption.
    apply pattern_mul; try assumption; apply pattern_ent; assumption. }
  destruct c; destruct a; simpl in Va; try contradiction; destruct b; simpl in Vb; try contradiction;
    cbn [matmul_s]; try (apply Naive; exact Hh).
  - unfold t_mul. rewrite t_map2_ok1 with (n := n) by assumption. cbn [bind].
    eexists. split; [reflexivity|]. split; [reflexivity|]. intros i j Hi Hj. unfold mprod.
    rewrite (sum_single n i); [|exact Hi|].
    + cbn [ent]. rewrite Nat.eqb_refl. bd; [|ring]. subst. tsimp. reflexivity.
    + intros k Hk Hne. cbn [ent]. bd; ring.
  - destruct Va as (-> & Hb & Hl), Vb as (-> & Hb' & Hl').
    rewrite e_nij_njk_ok with (n := (n / D)%nat) (i := D) (j := D) (k := D) by assumption. cbn [bind].
    rewrite t_matmul_ok with (n := (n mod D)%nat) (k := (n mod D)%nat) (m := (n mod D)%nat) by assumption.
    cbn [bind]. rewrite (mk_block_ok D n) by (assumption || reflexivity).
    eexists. split; [reflexivity|]. split; [repeat split; reflexivity|].
    intros i j Hi Hj. unfold mprod.
    rewrite (block_row_sum D n blocks last (fun k => ent (MBlock D blocks0 last0) k j) i)
      by (try assumption; repeat split; assumption).
    cbn [ent]. rewrite (rows_of _ _ _ Hb').
    change (rows (tab3 (n / D) D D _)) with (n / D)%nat.
    simpl in Hok. pose proof (block_dims D n Hok) as E.
    pose proof (div_lt_iff D i n Hok Hi) as Li. pose proof (Nat.mod_upper_bound i D Hok).
    pose proof (div_lt_iff D j n Hok Hj) as Lj. pose proof (Nat.mod_upper_bound j D Hok).
    pose proof (div_le_n D i n Hok Hi). pose proof (div_le_n D j n Hok Hj).
    pose proof (Nat.mod_upper_bound n D Hok).
    destruct (Nat.ltb_spec (i / D) (n / D)).
    + assert (Q : forall q, (q < D)%nat -> ((i / D * D + q) / D = i / D)%nat /\ ((i / D * D + q) mod D = q)%nat).
      { intros q Hq. split.
        - rewrite Nat.div_add_l, (Nat.div_small q D) by assumption. lia.
        - rewrite Nat.add_comm, Nat.mod_add, Nat.mod_small by assumption. reflexivity. }
      destruct (Nat.eqb_spec (i / D) (j / D)) as [Eij|Eij].
      * tsimp. apply sum_ext. intros q Hq. destruct (Q q Hq) as [-> ->]. bd. reflexivity.
      * symmetry. apply sum_0. intros q Hq. destruct (Q q Hq) as [-> ->]. bd. ring.
    + assert (Q : forall q, (q < n mod D)%nat -> ((n / D * D + q) / D = n / D)%nat).
      { intros q Hq. rewrite Nat.div_add_l, (Nat.div_small q D) by lia. lia. }
      destruct (Nat.eqb_spec (i / D) (j / D)) as [Eij|Eij].
      * tsimp. apply sum_ext. intros q Hq. rewrite (Q q Hq).
        bd. f_equal. f_equal. lia.
      * symmetry. apply sum_0. intros q Hq. rewrite (Q q Hq). bd. ring.
  - destruct Va as (-> & -> & K1 & d & K2 & Ed & HA & HB & HC & HD & HE).
    destruct Vb as (-> & -> & K1' & d' & K2' & Ed' & HA' & HB' & HC' & HD' & HE').
    rewrite Ed in Ed'. injection Ed' as <- <- <-.
    pose proof (hier_parts_spec _ _ _ _ _ _ Ed) as (En & L1 & L2).
    destruct (hier_matmul_s_ok k1 k2 A B C D E K1 d K2 HA HB HC HD HE A0 B0 C0 D0 E0 HA' HB' HC' HD' HE' L1 L2)
      as (A2 & B2 & C2 & D2 & E2 & R & SA & SB & SC' & SD & SE & H).
    cbn [matmul_s] in R. rewrite R. eexists. split; [reflexivity|]. split.
    + simpl. split; [reflexivity|]. split; [reflexivity|]. exists K1, d, K2. repeat split; assumption.
    + rewrite <- En. exact H.
  - rewrite (toeplitz_product_ok _ _ n) by assumption. cbn [bind].
    eexists. split; [reflexivity|]. split; [reflexivity|]. intros i j Hi Hj. unfold mprod.
    cbn [ent].
    rewrite (toeplitz_conv n (get1 lower_diags) (get1 lower_diags0)) by assumption.
    bd; [|reflexivity]. tsimp. reflexivity.
  - rewrite (toeplitz_product_ok _ _ n) by assumption. cbn [bind].
    eexists. split; [reflexivity|]. split; [reflexivity|]. intros i j Hi Hj. unfold mprod.
    cbn [ent].
    rewrite (toeplitz_conv_upper n (get1 upper_diags) (get1 upper_diags0)) by assumption.
    bd; [|reflexivity]. tsimp. reflexivity.
Qed.

End Mul.
