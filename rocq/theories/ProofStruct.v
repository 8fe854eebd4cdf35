(** Properties C01-C16: structured matrices.

    In the statements below [valid c n a] says that [a] is an object of class [c]
    which represents an n x n matrix (StructSpec.v), [to_dense a] is the code's
    conversion to a dense tensor, and [mm], [tr], [eye], [zeros] are the usual matrix
    product, transpose, identity and zero matrix of Tensor.v. *)

From Coq Require Import List Arith Lia Bool Field Ring ZArith QArith Qcanon Reals Lra.
From Verif Require Import Scalar Res Tensor TensorFacts Structures StructSpec StructDense StructPattern
  StructMul StructOps StructNorm QEx.
Import ListNotations.

(** ** Concrete objects used as examples *)

(** [[2,1,0],[3,4,0],[0,0,5]] in blocks of size 2. *)
Definition ex_block : @smat Q_scalar := MBlock 2 (qt [1;2;2]%nat [2;1;3;4]%Z) (qt [1;1]%nat [5]%Z).
(** Hierarchical with K1 = K2 = 1, dimension 4. *)
Definition ex_hier : @smat Q_scalar :=
  MHier 1 1 (qt [1;1]%nat [2]%Z) (qt [1;3]%nat [1;3;5]%Z) (qt [2]%nat [4;7]%Z) (qt [1;2]%nat [6;8]%Z)
    (qt [1;1]%nat [9]%Z).
Definition ex_tril : @smat Q_scalar := MTril (qt [3]%nat [1;2;3]%Z).
Definition ex_triu : @smat Q_scalar := MTriu (qt [3]%nat [1;2;3]%Z).
Definition ex_diag : @smat Q_scalar := MDiag (qt [3]%nat [1;2;3]%Z).
(** Two levels of recursion: an upper triangular Toeplitz corner inside a
    lower-left template inside an upper-right template. *)
Definition ex_cls : cls := CRec TopRight (Fin 2) Inf CTriu (CRec BottomLeft Inf (Fin 1) CDiag CDense).
Definition ex_rec : @smat Q_scalar :=
  MRec TopRight (Fin 2) Inf CTriu (CRec BottomLeft Inf (Fin 1) CDiag CDense)
    (MTriu (qt [2]%nat [1;2]%Z)) (qt [2;3]%nat [1;2;3;4;5;6]%Z)
    (MRec BottomLeft Inf (Fin 1) CDiag CDense (MDiag (qt [2]%nat [7;8]%Z)) (qt [1;2]%nat [9;1]%Z)
       (MDense (qt [1;1]%nat [2]%Z))).
Definition ex_X3 : @tensor Q_scalar := qt [3;2]%nat [1;2;3;4;5;6]%Z.

Lemma ex_block_valid_case : cls_ok (CBlock 2) /\ dim_ok (CBlock 2) 3 /\ no_nested_hier (CBlock 2) /\ valid (CBlock 2) 3 ex_block.
Proof. repeat split; discriminate. Qed.

Lemma ex_hier_valid_case : cls_ok (CHier 1 1) /\ dim_ok (CHier 1 1) 4 /\ no_nested_hier (CHier 1 1) /\ valid (CHier 1 1) 4 ex_hier.
Proof. repeat split. exists 1%nat, 2%nat, 1%nat. repeat split. Qed.

Lemma ex_tril_valid_case : cls_ok CTril /\ dim_ok CTril 3 /\ no_nested_hier CTril /\ valid CTril 3 ex_tril.
Proof. repeat split. discriminate. Qed.

Lemma ex_rec_valid_case : cls_ok ex_cls /\ dim_ok ex_cls 5 /\ no_nested_hier ex_cls /\ hier_free ex_cls /\ valid ex_cls 5 ex_rec.
Proof. repeat split; discriminate. Qed.

Section Generic.
Context {SC : Scalar} {FL : FieldLaws SC}.
Open Scope F_scope.
Add Field Ffield_p : F_ft.

Lemma C00_to_dense_total_lemma c n a :
  cls_ok c -> valid c n a -> exists da, to_dense a = Ok da /\ shape da = [n; n] /\
    forall i j, (i < n)%nat -> (j < n)%nat -> get2 da i j = ent a i j.
Proof.
  intros Hok V. exists (tab2 n n (ent a)). split; [apply (to_dense_ok c); assumption|].
  split; [reflexivity|]. intros. tsimp. reflexivity.
Qed.

Lemma C00_to_dense_injective_lemma c n a b :
  cls_ok c -> valid c n a -> valid c n b -> to_dense a = to_dense b -> a = b.
Proof.
  intros Hok Va Vb E. apply (ent_inj c n); try assumption. intros i j Hi Hj.
  rewrite (to_dense_ok c n a Hok Va), (to_dense_ok c n b Hok Vb) in E.
  assert (E' : tab2 n n (ent a) = tab2 n n (ent b)) by congruence.
  apply (tab2_inj n n _ _ E' i j Hi Hj).
Qed.

Lemma dense_of c n a da :
  cls_ok c -> valid c n a -> to_dense a = Ok da ->
  shape da = [n; n] /\ forall i j, (i < n)%nat -> (j < n)%nat -> get2 da i j = ent a i j.
Proof.
  intros Hok V E. rewrite (to_dense_ok c n a Hok V) in E. injection E as <-.
  split; [reflexivity|]. intros. tsimp. reflexivity.
Qed.

Lemma to_dense_eq c n a T :
  cls_ok c -> valid c n a -> shape T = [n; n] ->
  (forall i j, (i < n)%nat -> (j < n)%nat -> ent a i j = get2 T i j) -> to_dense a = Ok T.
Proof.
  intros Hok V HT E. rewrite (to_dense_ok c n a Hok V). f_equal. apply (ext2 n n); [reflexivity|exact HT|].
  intros. tsimp. auto.
Qed.

Lemma C01_zeros_lemma c n :
  cls_ok c -> dim_ok c n \/ c = CTril \/ c = CTriu ->
  exists z, c_zeros c n = Ok z /\ valid c n z /\ to_dense z = Ok (zeros [n; n]).
Proof.
  intros Hok Hd. destruct (zeros_ok c n Hok Hd) as (z & E & V & H). exists z. split; [exact E|]. split; [exact V|].
  apply (to_dense_eq c n); [exact Hok|exact V|reflexivity|].
  intros. rewrite H, get_zeros2 by assumption. reflexivity.
Qed.

Lemma C01_eye_lemma c n :
  cls_ok c -> dim_ok c n ->
  exists z, c_eye c n = Ok z /\ valid c n z /\ to_dense z = Ok (eye n).
Proof.
  intros Hok Hd. destruct (eye_ok c n Hok Hd) as (z & E & V & H). exists z. split; [exact E|]. split; [exact V|].
  apply (to_dense_eq c n); [exact Hok|exact V|reflexivity|].
  intros. rewrite H by assumption. unfold eye. tsimp. reflexivity.
Qed.

Lemma C01_eye_toeplitz_dim0_lemma : c_eye CTril 0 = Err IndexError /\ c_eye CTriu 0 = Err IndexError.
Proof. split; reflexivity. Qed.

Lemma C01_zeros_nested_toeplitz_refuted_lemma :
  exists c n, cls_ok c /\ n <> O /\ c_zeros c n = Err RuntimeError.
Proof. exists (CRec TopRight (Fin 1) Inf CDense CTril), 1%nat. repeat split. discriminate. Qed.

Lemma C02_matmul_lemma c n a b da db :
  cls_ok c -> dim_ok c n -> no_nested_hier c -> valid c n a -> valid c n b ->
  to_dense a = Ok da -> to_dense b = Ok db ->
  exists r, matmul_s a b = Ok r /\ valid c n r /\ to_dense r = Ok (mm da db).
Proof.
  intros Hok Hd Hh Va Vb Ea Eb.
  destruct (dense_of _ _ _ _ Hok Va Ea) as [Sa Ga], (dense_of _ _ _ _ Hok Vb Eb) as [Sb Gb].
  destruct (matmul_s_ok c n a b Hok Hd Hh Va Vb) as (r & E & V & H). exists r. split; [exact E|]. split; [exact V|].
  apply (to_dense_eq c n); [exact Hok|exact V| |].
  - rewrite shape_mm, (rows_of _ _ _ Sa), (cols_of _ _ _ _ Sb). reflexivity.
  - intros i j Hi Hj. rewrite H by assumption.
    rewrite get2_mm; rewrite ?(rows_of _ _ _ Sa), ?(cols_of _ _ _ _ Sa), ?(cols_of _ _ _ _ Sb); try assumption.
    unfold mprod. apply sum_ext. intros k Hk. rewrite Ga, Gb by assumption. reflexivity.
Qed.

Lemma C03_matmul_tensor_lemma c n a da X m :
  cls_ok c -> valid c n a -> to_dense a = Ok da -> shape X = [n; m] ->
  match c with CTril | CTriu => n <> O /\ m <> O | _ => True end ->
  matmul_t a X = Ok (mm da X).
Proof.
  intros Hok V Ea HX HT. destruct (dense_of _ _ _ _ Hok V Ea) as [Sa Ga].
  rewrite (matmul_t_ok c n a X m Hok V HX HT). f_equal. unfold mm.
  rewrite (rows_of _ _ _ Sa), (cols_of _ _ _ _ HX), (cols_of _ _ _ _ Sa).
  apply tab2_ext. intros i j Hi Hj. apply sum_ext. intros k Hk. rewrite Ga by assumption. reflexivity.
Qed.

Lemma C03_matmul_mismatch_partial_lemma c n a X r m :
  cls_ok c -> valid c n a -> shape X = [r; m] -> r <> n -> c <> CDiag ->
  exists e, matmul_t a X = Err e.
Proof.
  intros Hok V HX Hr Hc.
  assert (Naive : exists e, naive_matmul_t a X = Err e).
  { unfold naive_matmul_t. rewrite (to_dense_ok c n a Hok V). cbn [bind]. unfold t_matmul.
    rewrite (is2_of _ _ _ HX), (rows_of _ _ _ HX). change (cols (tab2 n n (ent a))) with n.
    destruct (Nat.eqb_spec n r); [congruence|]. rewrite andb_false_r. eauto. }
  destruct c; destruct a; simpl in V; try contradiction; try exact Naive; cbn [matmul_t].
  - destruct V as (-> & Hb & Hl). unfold block_matmul_t.
    rewrite (dim_at_0 _ _ _ Hb), (dim_at_0 _ _ _ Hl), (dim_at_0 _ _ _ HX). cbn [bind].
    rewrite (block_dims D n Hok). destruct (Nat.eqb_spec r n); [congruence|]. cbn. eauto.
  - destruct V as (-> & -> & K1 & d & K2 & Ed & HA & HB & HCc & HD & HE).
    apply hier_parts_spec in Ed as (En & _).
    unfold hier_matmul_t. rewrite (rows_of _ _ _ HA), (rows_of _ _ _ HCc), (rows_of _ _ _ HE).
    rewrite t_split2c_ok with (n := K1) (m := (d + K2)%nat) by (assumption || reflexivity). cbn [bind].
    unfold t_split3. rewrite (is2_of _ _ _ HX), (rows_of _ _ _ HX), En. destruct (Nat.eqb_spec n r); [congruence|]. cbn. eauto.
  - destruct (Nat.eq_dec n 0) as [->|Hn].
    + unfold coeffs_lower. rewrite (dim_at_0 _ _ _ V), (t_flip_ok _ _ V). cbn. eauto.
    + rewrite (coeffs_lower_ok _ n Hn V). cbn [bind]. unfold toeplitz_matmul.
      rewrite (dim_at_0 _ (2 * n - 1) []) by reflexivity. rewrite (dim_at_0 _ _ _ HX). cbn [bind].
      replace (2 * n - 1 + 1)%nat with (n * 2)%nat by lia. rewrite Nat.div_mul by lia.
      destruct (Nat.eqb_spec n r); [congruence|]. cbn. eauto.
  - destruct (Nat.eq_dec n 0) as [->|Hn].
    + unfold coeffs_upper. rewrite (dim_at_0 _ _ _ V). cbn. eauto.
    + rewrite (coeffs_upper_ok _ n Hn V). cbn [bind]. unfold toeplitz_matmul.
      rewrite (dim_at_0 _ (2 * n - 1) []) by reflexivity. rewrite (dim_at_0 _ _ _ HX). cbn [bind].
      replace (2 * n - 1 + 1)%nat with (n * 2)%nat by lia. rewrite Nat.div_mul by lia.
      destruct (Nat.eqb_spec n r); [congruence|]. cbn. eauto.
Qed.

Lemma C03_matmul_mismatch_diag_partial_lemma n a X r m :
  valid CDiag n a -> shape X = [r; m] -> r <> n -> n <> 1%nat -> r <> 1%nat ->
  matmul_t a X = Err RuntimeError.
Proof.
  intros V HX Hr H1 H2. destruct a; simpl in V; try contradiction. cbn [matmul_t]. unfold e_i_ij. rewrite V, HX.
  destruct (Nat.eqb_spec n r); [congruence|]. destruct (Nat.eqb_spec n 1); [contradiction|].
  destruct (Nat.eqb_spec r 1); [contradiction|]. reflexivity.
Qed.

Lemma C03_toeplitz_no_columns_refuted_lemma :
  exists c n a X, cls_ok c /\ valid c n a /\ shape X = [n; 0%nat] /\ matmul_t a X = Err RuntimeError.
Proof.
  exists CTril, 1%nat, (MTril (tab1 1 (fun _ => 1))), (tab2 1 0 (fun _ _ => 0)). repeat split.
Qed.

Lemma C04_rmatmat_lemma c n a da X m :
  cls_ok c -> valid c n a -> to_dense a = Ok da -> shape X = [n; m] ->
  match c with CTril | CTriu => n <> O /\ m <> O | CBlock _ => False | _ => True end ->
  rmatmat a X = Ok (mm (tr da) X).
Proof.
  intros Hok V Ea HX HT. destruct (dense_of _ _ _ _ Hok V Ea) as [Sa Ga].
  rewrite (rmatmat_ok c n a X m Hok V HX HT). f_equal. unfold mm.
  rewrite (tr_ok _ _ _ Sa). rewrite (rows_of _ n [n]), (cols_of _ _ _ _ HX), (cols_of _ n n []) by reflexivity.
  apply tab2_ext. intros i j Hi Hj. apply sum_ext. intros k Hk. tsimp. rewrite Ga by assumption. reflexivity.
Qed.

Lemma C05_block_rmatmat_actual_lemma D n a da X m :
  D <> O -> valid (CBlock D) n a -> to_dense a = Ok da -> shape X = [n; m] ->
  rmatmat a X = Ok (mm da X).
Proof.
  intros HD V Ea HX. destruct a; simpl in V; try contradiction.
  exact (C03_matmul_tensor_lemma (CBlock D) n (MBlock D0 blocks last) da X m HD V Ea HX I).
Qed.

Lemma C05_block_rmatmat_symmetric_partial_lemma D n a da X m :
  D <> O -> valid (CBlock D) n a -> to_dense a = Ok da -> tr da = da -> shape X = [n; m] ->
  rmatmat a X = Ok (mm (tr da) X).
Proof. intros HD V Ea Hs HX. rewrite Hs. apply (C05_block_rmatmat_actual_lemma D n a da X m); assumption. Qed.

Lemma C06_add_lemma c n a b da db :
  cls_ok c -> dim_ok c n -> no_nested_hier c -> valid c n a -> valid c n b ->
  to_dense a = Ok da -> to_dense b = Ok db ->
  exists r, add a b = Ok r /\ valid c n r /\
            to_dense r = Ok (tab2 n n (fun i j => get2 da i j + get2 db i j)).
Proof.
  intros Hok Hd Hh Va Vb Ea Eb.
  destruct (dense_of _ _ _ _ Hok Va Ea) as [Sa Ga], (dense_of _ _ _ _ Hok Vb Eb) as [Sb Gb].
  destruct (add_ok c n a b Hok Hd Hh Va Vb) as (r & E & V & H). exists r. split; [exact E|]. split; [exact V|].
  apply (to_dense_eq c n); [exact Hok|exact V|reflexivity|].
  intros i j Hi Hj. rewrite H by assumption. tsimp. rewrite Ga, Gb by assumption. reflexivity.
Qed.

Lemma C06_mul_lemma c n a v da :
  cls_ok c -> dim_ok c n -> no_nested_hier c -> valid c n a -> to_dense a = Ok da ->
  exists r, mul a v = Ok r /\ valid c n r /\ to_dense r = Ok (tab2 n n (fun i j => v * get2 da i j)).
Proof.
  intros Hok Hd Hh Va Ea. destruct (dense_of _ _ _ _ Hok Va Ea) as [Sa Ga].
  destruct (mul_ok c n a v Hok Hd Hh Va) as (r & E & V & H). exists r. split; [exact E|]. split; [exact V|].
  apply (to_dense_eq c n); [exact Hok|exact V|reflexivity|].
  intros i j Hi Hj. rewrite H by assumption. tsimp. rewrite Ga by assumption. reflexivity.
Qed.

Lemma C06_add_inplace_lemma c n a b alpha da db :
  cls_ok c -> valid c n a -> valid c n b -> to_dense a = Ok da -> to_dense b = Ok db ->
  exists r, add_ a b alpha = Ok r /\ valid c n r /\
            to_dense r = Ok (tab2 n n (fun i j => get2 da i j + alpha * get2 db i j)).
Proof.
  intros Hok Va Vb Ea Eb.
  destruct (dense_of _ _ _ _ Hok Va Ea) as [Sa Ga], (dense_of _ _ _ _ Hok Vb Eb) as [Sb Gb].
  destruct (add__ok c n a b alpha Hok Va Vb) as (r & E & V & H). exists r. split; [exact E|]. split; [exact V|].
  apply (to_dense_eq c n); [exact Hok|exact V|reflexivity|].
  intros i j Hi Hj. rewrite H by assumption. tsimp. rewrite Ga, Gb by assumption. reflexivity.
Qed.

Lemma C06_mul_inplace_lemma c n a v da :
  cls_ok c -> valid c n a -> to_dense a = Ok da ->
  valid c n (mul_ a v) /\ to_dense (mul_ a v) = Ok (tab2 n n (fun i j => v * get2 da i j)).
Proof.
  intros Hok Va Ea. destruct (dense_of _ _ _ _ Hok Va Ea) as [Sa Ga].
  destruct (mul__ok c n a v Hok Va) as (V & H). split; [exact V|].
  apply (to_dense_eq c n); [exact Hok|exact V|reflexivity|].
  intros i j Hi Hj. rewrite H by assumption. tsimp. rewrite Ga by assumption. reflexivity.
Qed.

(** ** C07 *)

(** The documented projection of a symmetric matrix. *)
Fixpoint doc_proj (c : cls) (n : nat) (M : nat -> nat -> F) (i j : nat) : F :=
  match c with
  | CDense => M i j
  | CDiag => if Nat.eqb i j then M i i else 0
  | CBlock D => if Nat.eqb (i / D) (j / D) then M i j else 0
  | CHier k1 k2 =>
      let '(K1, d, K2) := hier_parts k1 k2 n in
      if Nat.ltb i K1 && Nat.ltb j K1 then M i j                               (* A *)
      else if Nat.ltb i K1 then (1 + 1) * M i j                                    (* B *)
      else if Nat.ltb i (K1 + d) then (if Nat.eqb i j then M i i else 0)       (* C *)
      else if Nat.ltb j K1 then 0
      else if Nat.ltb j (K1 + d) then (1 + 1) * M i j                              (* D *)
      else M i j                                                               (* E *)
  | CTril =>
      (* average of the (i-j)-th diagonal, off-diagonals doubled *)
      if Nat.ltb i j then 0
      else (if Nat.eqb i j then 1 else 1 + 1) * (sum (n - (i - j)) (fun r => M (r + (i - j))%nat r) / fofnat (n - (i - j)))
  | CTriu =>
      if Nat.ltb j i then 0
      else (if Nat.eqb i j then 1 else 1 + 1) * (sum (n - (j - i)) (fun r => M r (r + (j - i))%nat) / fofnat (n - (j - i)))
  | CRec sd ma mc ca cc =>
      let k := boundary n ma mc in
      match Nat.ltb i k, Nat.ltb j k with
      | true, true => doc_proj ca k M i j
      | true, false => match sd with TopRight => (1 + 1) * M i j | BottomLeft => 0 end
      | false, true => match sd with TopRight => 0 | BottomLeft => (1 + 1) * M i j end
      | false, false => doc_proj cc (n - k) (fun i j => M (k + i) (k + j))%nat (i - k) (j - k)
      end
  end.

Lemma doc_proj_ok c : forall n M i j,
  (forall i j, M i j = M j i) -> (i < n)%nat -> (j < n)%nat -> proj c n M i j = doc_proj c n M i j.
Proof.
  induction c; intros n M i j Hs Hi Hj; cbn [proj doc_proj].
  - reflexivity.
  - bd; congruence.
  - reflexivity.
  - destruct (hier_parts k1 k2 n) as [[K1 d] K2]. bd; try reflexivity; congruence.
  - destruct (Nat.leb_spec j i); destruct (Nat.ltb_spec i j); try lia; [|reflexivity].
    pose proof (fofnat_neq0 (n - (i - j)) ltac:(lia)) as N0.
    unfold diag_avg. destruct (i - j)%nat as [|k] eqn:Ek.
    + destruct (Nat.eqb_spec i j); [|lia]. rewrite Nat.sub_0_r in *.
      rewrite (sum_ext n (fun r => M (r + 0)%nat r) (fun r => M r r)) by (intros; rewrite Nat.add_0_r; reflexivity).
      field. exact N0.
    + destruct (Nat.eqb_spec i j); [lia|].
      rewrite (sum_ext _ _ (fun r => (1 + 1) * M (r + Datatypes.S k)%nat r)).
      2:{ intros r Hr. rewrite (Hs r (r + Datatypes.S k)%nat). ring. }
      rewrite sum_scale_l. field. exact N0.
  - destruct (Nat.leb_spec i j); destruct (Nat.ltb_spec j i); try lia; [|reflexivity].
    pose proof (fofnat_neq0 (n - (j - i)) ltac:(lia)) as N0.
    unfold diag_avg. destruct (j - i)%nat as [|k] eqn:Ek.
    + destruct (Nat.eqb_spec i j); [|lia]. rewrite Nat.sub_0_r in *.
      rewrite (sum_ext n (fun r => M r (r + 0)%nat) (fun r => M r r)) by (intros; rewrite Nat.add_0_r; reflexivity).
      field. exact N0.
    + destruct (Nat.eqb_spec i j); [lia|].
      rewrite (sum_ext _ _ (fun r => (1 + 1) * M r (r + Datatypes.S k)%nat)).
      2:{ intros r Hr. rewrite (Hs (r + Datatypes.S k)%nat r). ring. }
      rewrite sum_scale_l. field. exact N0.
  - destruct (Nat.ltb_spec i (boundary n ma mc)), (Nat.ltb_spec j (boundary n ma mc)).
    + apply IHc1; assumption.
    + destruct sd; [|reflexivity]. rewrite (Hs j i). ring.
    + destruct sd; [reflexivity|]. rewrite (Hs j i). ring.
    + apply IHc2; [intros; apply Hs|lia|lia].
Qed.

Lemma C07_from_dense_symmetric_lemma c n M :
  cls_ok c -> dim_ok c n -> shape M = [n; n] -> tr M = M ->
  exists s, from_dense c M = Ok s /\ valid c n s /\ to_dense s = Ok (tab2 n n (doc_proj c n (get2 M))).
Proof.
  intros Hok Hd HM Hs. destruct (from_dense_ok c n Hok Hd M HM) as (s & E & V & H).
  exists s. split; [exact E|]. split; [exact V|].
  apply (to_dense_eq c n); [exact Hok|exact V|reflexivity|].
  intros i j Hi Hj. rewrite H by assumption. tsimp.
  (* extend M symmetrically outside of its range *)
  set (N := fun i j => if Nat.ltb i n && Nat.ltb j n then get2 M i j else 0).
  assert (HN : forall i j, N i j = N j i).
  { intros a b. unfold N. destruct (Nat.ltb_spec a n), (Nat.ltb_spec b n); try reflexivity. cbn.
    rewrite <- Hs at 1. rewrite (tr_ok _ _ _ HM). tsimp. reflexivity. }
  assert (EN : forall a b, (a < n)%nat -> (b < n)%nat -> get2 M a b = N a b).
  { intros a b Ha Hb. unfold N. destruct (Nat.ltb_spec a n), (Nat.ltb_spec b n); try lia. reflexivity. }
  rewrite (proj_ext c n _ N i j EN Hi Hj), (doc_proj_ok c n N i j HN Hi Hj).
  assert (X : forall c n M N, (forall a b, (a < n)%nat -> (b < n)%nat -> M a b = N a b) ->
              forall i j, (i < n)%nat -> (j < n)%nat -> doc_proj c n M i j = doc_proj c n N i j).
  { clear. induction c; intros n M N EN i j Hi Hj; cbn [doc_proj].
    - auto.
    - bd; auto.
    - bd; auto.
    - destruct (hier_parts k1 k2 n) as [[K1 d] K2]. bd; try reflexivity; rewrite ?EN by lia; reflexivity.
    - bd; try reflexivity; do 2 f_equal; apply sum_ext; intros; apply EN; lia.
    - bd; try reflexivity; do 2 f_equal; apply sum_ext; intros; apply EN; lia.
    - pose proof (boundary_le n ma mc).
      destruct (Nat.ltb_spec i (boundary n ma mc)), (Nat.ltb_spec j (boundary n ma mc)).
      + apply IHc1; try assumption. intros. apply EN; lia.
      + destruct sd; [rewrite EN by lia|]; reflexivity.
      + destruct sd; [|rewrite EN by lia]; reflexivity.
      + apply IHc2; try lia. intros. apply EN; lia. }
  symmetry. apply X; assumption.
Qed.

Lemma C07_from_dense_rejects_nonsquare_lemma M n m :
  shape M = [n; m] -> n <> m ->
  (forall k1 k2, from_dense (CHier k1 k2) M = Err ValueError) /\
  (forall sd ma mc ca cc, from_dense (CRec sd ma mc ca cc) M = Err ValueError) /\
  from_dense CTril M = Err AssertionError /\ from_dense CTriu M = Err AssertionError.
Proof.
  intros HM Hne. cbn [from_dense]. unfold hier_from_dense, check_square, toeplitz_coeffs.
  rewrite (is2_of _ _ _ HM), (rows_of _ _ _ HM), (cols_of _ _ _ _ HM), (dim_at_0 _ _ _ HM), (dim_at_1 _ _ _ _ HM).
  apply Nat.eqb_neq in Hne. cbn [bind]. rewrite Hne. cbn [check andb bind]. auto.
Qed.

Lemma C08_roundtrip_partial_lemma c n a da :
  cls_ok c -> dim_ok c n -> hier_free c -> valid c n a -> to_dense a = Ok da -> from_dense c da = Ok a.
Proof.
  intros Hok Hd Hf V Ea. rewrite (to_dense_ok c n a Hok V) in Ea. injection Ea as <-.
  destruct (from_dense_pattern c n (ent a) Hok Hd Hf (pattern_ent c n a Hok V)) as (s & E & Vs & H).
  rewrite E. f_equal. apply (ent_inj c n); assumption.
Qed.

(** ** C09 *)

(** [from_inner] with and without argument, [from_inner2] and [from_mat_inner] are what
    [from_dense] (see C07) extracts from the dense product. *)

Lemma proj_from_dense c n r G :
  cls_ok c -> dim_ok c n -> shape G = [n; n] -> valid c n r ->
  (forall i j, (i < n)%nat -> (j < n)%nat -> ent r i j = proj c n (get2 G) i j) ->
  from_dense c G = Ok r.
Proof.
  intros Hok Hd HG V H. destruct (from_dense_ok c n Hok Hd G HG) as (s & E & Vs & Hs).
  rewrite E. f_equal. apply (ent_inj c n); try assumption. intros i j Hi Hj. rewrite Hs, H by assumption. reflexivity.
Qed.

Lemma C09_from_mat_inner_lemma c n m X :
  cls_ok c -> dim_ok c n -> shape X = [n; m] ->
  exists r, from_mat_inner c X = Ok r /\ valid c n r /\ from_dense c (mm X (tr X)) = Ok r.
Proof.
  intros Hok Hd HX. destruct (from_mat_inner_ok c n m X Hok Hd HX) as (r & E & V & H).
  exists r. split; [exact E|]. split; [exact V|]. apply (proj_from_dense c n); try assumption.
  - rewrite (tr_ok _ _ _ HX). rewrite shape_mm, (rows_of _ _ _ HX). reflexivity.
  - intros i j Hi Hj. rewrite H by assumption. apply proj_ext; try assumption. intros a b Ha Hb.
    rewrite (tr_ok _ _ _ HX). rewrite get2_mm; rewrite ?(rows_of _ _ _ HX); try assumption.
    rewrite (cols_of _ _ _ _ HX). unfold gram. apply sum_ext. intros. tsimp. reflexivity.
Qed.

Lemma C09_from_inner_some_lemma c n a da X m :
  cls_ok c -> dim_ok c n -> valid c n a -> to_dense a = Ok da -> shape X = [n; m] ->
  match c with CTril | CTriu => m <> O | CBlock _ => False | _ => True end ->
  exists r, from_inner a (Some X) = Ok r /\ valid c n r /\
            from_dense c (mm (mm (tr da) (mm X (tr X))) da) = Ok r.
Proof.
  intros Hok Hd V Ea HX HT. destruct (dense_of _ _ _ _ Hok V Ea) as [Sa Ga].
  destruct (from_inner_some_ok c n a X m Hok Hd V HX HT) as (r & E & Vr & H).
  exists r. split; [exact E|]. split; [exact Vr|].
  assert (EQ : mm (mm (tr da) (mm X (tr X))) da = mm (mm (tr da) X) (tr (mm (tr da) X))).
  { pose proof (rows_of _ _ _ Sa) as Ra. pose proof (cols_of _ _ _ _ Sa) as Ca.
    pose proof (rows_of _ _ _ HX) as Rx. pose proof (cols_of _ _ _ _ HX) as Cx.
    rewrite tr_mm by (change (cols (tr da)) with (rows da); congruence).
    rewrite tr_tr by (apply (is2_of _ _ _ Sa)).
    rewrite <- (mm_assoc (tr da) X (tr X)) by (change (cols (tr da)) with (rows da); congruence || reflexivity).
    rewrite (mm_assoc (mm (tr da) X) (tr X) da); [reflexivity| |].
    - reflexivity.
    - change (cols (tr X)) with (rows X). congruence. }
  rewrite EQ. clear EQ.
  assert (P : mm (tr da) X = tab2 n m (tmul n (ent a) (get2 X))).
  { rewrite (tr_ok _ _ _ Sa). unfold mm. rewrite (cols_of _ _ _ _ HX).
    change (rows (tab2 n n _)) with n. change (cols (tab2 n n _)) with n.
    apply tab2_ext. intros i j Hi Hj. unfold tmul. apply sum_ext. intros k Hk. tsimp. rewrite Ga by assumption. reflexivity. }
  rewrite P. apply (proj_from_dense c n); try assumption.
  - reflexivity.
  - intros i j Hi Hj. rewrite H by assumption. apply proj_ext; try assumption. intros x y Hx Hy.
    rewrite (tr_ok _ n m) by reflexivity. rewrite get2_mm by assumption.
    change (cols (tab2 n m _)) with m. unfold gram. apply sum_ext. intros. tsimp. reflexivity.
Qed.

Lemma C09_from_inner_none_lemma c n a da :
  cls_ok c -> dim_ok c n -> valid c n a -> to_dense a = Ok da ->
  match c with CBlock _ => False | _ => True end ->
  exists r, from_inner a None = Ok r /\ valid c n r /\ from_dense c (mm (tr da) da) = Ok r.
Proof.
  intros Hok Hd V Ea HT. destruct (dense_of _ _ _ _ Hok V Ea) as [Sa Ga].
  destruct (from_inner_none_ok c n a Hok Hd V HT) as (r & E & Vr & H).
  exists r. split; [exact E|]. split; [exact Vr|].
  apply (proj_from_dense c n); try assumption.
  - rewrite (tr_ok _ _ _ Sa), shape_mm, (cols_of _ _ _ _ Sa). reflexivity.
  - intros i j Hi Hj. rewrite H by assumption. apply proj_ext; try assumption. intros x y Hx Hy.
    rewrite (tr_ok _ _ _ Sa). rewrite get2_mm; rewrite ?(cols_of _ _ _ _ Sa); try assumption.
    change (cols (tab2 n n _)) with n. unfold tmul. apply sum_ext. intros k Hk. tsimp. rewrite !Ga by assumption. reflexivity.
Qed.

Lemma C09_from_inner2_lemma c n a da XXT :
  cls_ok c -> dim_ok c n -> valid c n a -> to_dense a = Ok da -> shape XXT = [n; n] ->
  exists r, from_inner2 a XXT = Ok r /\ valid c n r /\
            from_dense c (mm (mm (tr da) XXT) da) = Ok r.
Proof.
  intros Hok Hd V Ea HX. destruct (dense_of _ _ _ _ Hok V Ea) as [Sa Ga].
  destruct (from_inner2_ok c n a XXT Hok Hd V HX) as (r & E & Vr & H).
  exists r. split; [exact E|]. split; [exact Vr|].
  apply (proj_from_dense c n); try assumption.
  - rewrite shape_mm, (cols_of _ _ _ _ Sa), (tr_ok _ _ _ Sa). reflexivity.
  - intros i j Hi Hj. rewrite H by assumption. apply proj_ext; try assumption. intros x y Hx Hy.
    rewrite (tr_ok _ _ _ Sa). rewrite get2_mm; rewrite ?(cols_of _ _ _ _ Sa); try assumption.
    change (cols (mm (tab2 n n _) XXT)) with (cols XXT). rewrite (cols_of _ _ _ _ HX).
    unfold congr. apply sum_ext. intros l Hl. rewrite get2_mm; rewrite ?(cols_of _ _ _ _ HX); try assumption.
    change (cols (tab2 n n _)) with n. rewrite Ga by assumption. f_equal.
    apply sum_ext. intros k Hk. tsimp. rewrite Ga by assumption. reflexivity.
Qed.

Lemma C10_average_trace_lemma c n a da :
  cls_ok c -> valid c n a -> n <> O -> to_dense a = Ok da ->
  average_trace a = Ok (sum n (fun i => get2 da i i) / fofnat n).
Proof.
  intros Hok V Hn Ea. destruct (dense_of _ _ _ _ Hok V Ea) as [Sa Ga].
  rewrite (average_trace_ok c n a Hok Hn V). do 2 f_equal. apply sum_ext. intros. symmetry. apply Ga; assumption.
Qed.

Lemma C11_diag_add_lemma c n a v da :
  cls_ok c -> dim_ok c n -> no_nested_hier c -> valid c n a -> to_dense a = Ok da ->
  exists r, diag_add_ a v = Ok r /\ valid c n r /\
            to_dense r = Ok (tab2 n n (fun i j => get2 da i j + v * get2 (eye n) i j)).
Proof.
  intros Hok Hd Hh V Ea. destruct (dense_of _ _ _ _ Hok V Ea) as [Sa Ga].
  destruct (diag_add_ok c n a v Hok Hd Hh V) as (r & E & Vr & H). exists r. split; [exact E|]. split; [exact Vr|].
  apply (to_dense_eq c n); [exact Hok|exact Vr|reflexivity|].
  intros i j Hi Hj. rewrite H by assumption. tsimp. unfold eye. tsimp. rewrite Ga by assumption. f_equal. bd; ring.
Qed.

Lemma C15_hierarchical_ctor_lemma k1 k2 A B C D E :
  (exists K1 d K2, shape A = [K1; K1] /\ shape B = [K1; (d + K2)%nat] /\ shape C = [d] /\
                   shape D = [K2; d] /\ shape E = [K2; K2] /\ (K1 <= k1)%nat /\ (K2 <= k2)%nat) /\
  mk_hier k1 k2 A B C D E = Ok (MHier k1 k2 A B C D E)
  \/
  ~ (exists K1 d K2, shape A = [K1; K1] /\ shape B = [K1; (d + K2)%nat] /\ shape C = [d] /\
                   shape D = [K2; d] /\ shape E = [K2; K2] /\ (K1 <= k1)%nat /\ (K2 <= k2)%nat) /\
  mk_hier k1 k2 A B C D E = Err ValueError.
Proof.
  destruct (mk_hier k1 k2 A B C D E) as [s|e] eqn:Q.
  - left. unfold mk_hier in Q.
    destruct (is2 A) eqn:IA; [|discriminate]. destruct (is2 B) eqn:IB; [|discriminate].
    destruct (is1 C) eqn:IC; [|discriminate]. destruct (is2 D) eqn:ID; [|discriminate].
    destruct (is2 E) eqn:IE; [|discriminate]. cbn [negb andb] in Q. unfold check_square in Q. rewrite IA, IE in Q.
    destruct (Nat.eqb_spec (rows A) (cols A)) as [EA|]; [|discriminate].
    destruct (Nat.eqb_spec (rows E) (cols E)) as [EE|]; [|discriminate]. cbn [andb check bind] in Q.
    destruct (Nat.ltb_spec k1 (rows A)); [discriminate|]. destruct (Nat.ltb_spec k2 (rows E)); [discriminate|]. cbn [orb] in Q.
    destruct (shape_eqb (shape D) _) eqn:SD; [|discriminate]. destruct (shape_eqb (shape B) _) eqn:SB; [|discriminate].
    apply shape_eqb_eq in SD, SB. cbn [negb] in Q. injection Q as <-.
    apply is2_inv in IA, IE. apply is1_inv in IC. split; [|reflexivity].
    exists (rows A), (rows C), (rows E). rewrite <- EA in IA. rewrite <- EE in IE. repeat split; assumption.
  - right. split.
    + intros (K1 & d & K2 & HA & HB & HC & HD & HE & L1 & L2).
      rewrite (mk_hier_ok k1 k2 A B C D E K1 d K2) in Q by assumption. discriminate.
    + unfold mk_hier in Q.
      destruct (negb (is2 A && is2 B && is1 C && is2 D && is2 E)) eqn:I; [congruence|].
      unfold check_square, check in Q.
      destruct (is2 A && Nat.eqb (rows A) (cols A)); [|cbn in Q; congruence]. cbn [bind] in Q.
      destruct (is2 E && Nat.eqb (rows E) (cols E)); [|cbn in Q; congruence]. cbn [bind] in Q.
      destruct (Nat.ltb k1 (rows A) || Nat.ltb k2 (rows E)); [congruence|].
      destruct (negb (shape_eqb (shape D) _)); [congruence|].
      destruct (negb (shape_eqb (shape B) _)); [congruence|]. discriminate.
Qed.

Lemma C15_recursive_ctor_lemma sd ma mc ca cc A B C dA dC k m :
  to_dense A = Ok dA -> shape dA = [k; k] -> to_dense C = Ok dC -> shape dC = [m; m] ->
  let good := cls_of A = ca /\ cls_of C = cc /\
              shape B = match sd with TopRight => [k; m] | BottomLeft => [m; k] end /\
              match ma with Fin a => (k <= a)%nat | Inf => True end /\
              match mc with Fin c => (m <= c)%nat | Inf => True end in
  good /\ mk_rec sd ma mc ca cc A B C = Ok (MRec sd ma mc ca cc A B C)
  \/ ~ good /\ mk_rec sd ma mc ca cc A B C = Err ValueError.
Proof.
  intros EA SA EC SC' good. unfold mk_rec, isinstance.
  destruct (cls_eq_dec (cls_of A) ca); [|right; split; [intros (? & _); congruence|reflexivity]].
  destruct (cls_eq_dec (cls_of C) cc); [|right; split; [intros (_ & ? & _); congruence|reflexivity]].
  cbn [negb orb]. rewrite EA, EC. cbn [bind]. rewrite (dim_at_0 _ _ _ SA), (dim_at_0 _ _ _ SC'). cbn [bind].
  destruct (shape_eqb (shape B) _) eqn:SB.
  2:{ right. split; [|reflexivity]. intros (_ & _ & HB & _). apply shape_eqb_eq in HB. congruence. }
  apply shape_eqb_eq in SB. cbn [negb].
  destruct (ext_leb k ma) eqn:La.
  2:{ right. split; [|reflexivity]. intros (_ & _ & _ & H & _). destruct ma; [|discriminate].
      cbn in La. apply Nat.leb_gt in La. lia. }
  destruct (ext_leb m mc) eqn:Lc.
  2:{ right. split; [|reflexivity]. intros (_ & _ & _ & _ & H). destruct mc; [|discriminate].
      cbn in Lc. apply Nat.leb_gt in Lc. lia. }
  left. split; [|reflexivity]. unfold good. repeat split; try assumption.
  - destruct ma; [|exact I]. apply Nat.leb_le. exact La.
  - destruct mc; [|exact I]. apply Nat.leb_le. exact Lc.
Qed.

Lemma C15_block_ctor_accepts_partial_lemma D n b l :
  D <> O -> shape b = [n / D; D; D]%nat -> shape l = [n mod D; n mod D]%nat ->
  mk_block D b l = Ok (MBlock D b l).
Proof. apply mk_block_ok. Qed.

Lemma C15_block_ctor_rejects_partial_lemma D b l :
  (forall x r c, shape b <> [x; r; c]) \/ (forall k, shape l <> [k; k]) \/
  (exists k, shape l = [k; k] /\ (D <= k)%nat) ->
  mk_block D b l = Err ValueError.
Proof.
  intros H. unfold mk_block. destruct (shape b) as [|x [|r [|c [|? ?]]]] eqn:Sb; try reflexivity.
  destruct H as [H|H]; [specialize (H x r c); congruence|].
  destruct (negb (Nat.eqb r c) && negb (Nat.eqb c D)); [reflexivity|].
  destruct (is2 l) eqn:I2; [|reflexivity]. apply is2_inv in I2.
  destruct (Nat.eqb_spec (rows l) (cols l)) as [E|]; [|reflexivity]. cbn [andb negb].
  destruct H as [H|(k & Hk & L)].
  - exfalso. apply (H (cols l)). rewrite I2 at 1. congruence.
  - rewrite (rows_of _ _ _ Hk). destruct (Nat.leb_spec D k); [reflexivity|lia].
Qed.

Lemma C16_toeplitz_matmul_lemma cf X N m :
  N <> O -> m <> O -> shape cf = [(2 * N - 1)%nat] -> shape X = [N; m] ->
  toeplitz_matmul cf X = Ok (mm (tab2 N N (fun i j => get1 cf (N - 1 + j - i))) X).
Proof.
  intros HN Hm Hc HX. rewrite (toeplitz_matmul_ok cf X N m HN Hm Hc HX). f_equal.
  unfold mm. rewrite (cols_of _ _ _ _ HX). change (rows (tab2 N N _)) with N. change (cols (tab2 N N _)) with N.
  apply tab2_ext. intros. apply sum_ext. intros. tsimp. reflexivity.
Qed.

Lemma C16_toeplitz_matmul_rejects_partial_lemma cf X N m len :
  shape cf = [len] -> shape X = [N; m] -> (len + 1 <> 2 * N)%nat -> (len <> 2 * N)%nat ->
  toeplitz_matmul cf X = Err RuntimeError.
Proof.
  intros Hc HX H1 H2. unfold toeplitz_matmul. rewrite (dim_at_0 _ _ _ Hc), (dim_at_0 _ _ _ HX). cbn [bind].
  destruct (Nat.eqb_spec ((len + 1) / 2) N) as [E|]; [exfalso|reflexivity].
  pose proof (Nat.div_mod (len + 1) 2 ltac:(lia)). pose proof (Nat.mod_upper_bound (len + 1) 2 ltac:(lia)). lia.
Qed.

Lemma C16_all_traces_lemma M n m :
  shape M = [n; m] -> (n + m <> 0)%nat ->
  all_traces M =
  Ok (tab1 (n + m - 1) (fun k =>
        sum n (fun i => sum m (fun j => if Nat.eqb (j + (n - 1)) (i + k) then get2 M i j else 0)))).
Proof. apply all_traces_ok. Qed.

End Generic.

Lemma C03_diag_mismatch_refuted_lemma :
  exists (a : @smat Q_scalar) X, valid CDiag 1 a /\ shape X = [3; 1]%nat /\ is_ok (matmul_t a X) = true.
Proof. exists (MDiag (qt [1]%nat [2]%Z)), (qt [3;1]%nat [1;2;3]%Z). repeat split. Qed.

Lemma C05_block_rmatmat_refuted_lemma :
  exists (a : @smat Q_scalar) da X,
    valid (CBlock 2) 3 a /\ to_dense a = Ok da /\ shape X = [3; 2]%nat /\
    rmatmat a X <> Ok (mm (tr da) X).
Proof.
  destruct (C00_to_dense_total_lemma (CBlock 2) 3 ex_block) as (da & E & _).
  { exact (proj1 ex_block_valid_case). } { apply ex_block_valid_case. }
  exists ex_block, da, ex_X3. split; [apply ex_block_valid_case|]. split; [exact E|]. split; [reflexivity|].
  intros H. assert (K : showr (rmatmat ex_block ex_X3) = showr (match to_dense ex_block with Ok da => Ok (mm (tr da) ex_X3) | Err e => Err e end)).
  { rewrite E, H. reflexivity. }
  vm_compute in K. discriminate K.
Qed.

Lemma C05_block_from_inner_refuted_lemma :
  exists (a : @smat Q_scalar) da,
    valid (CBlock 2) 3 a /\ to_dense a = Ok da /\
    from_inner a None <> from_dense (CBlock 2) (mm (tr da) da).
Proof.
  destruct (C00_to_dense_total_lemma (CBlock 2) 3 ex_block) as (da & E & _).
  { exact (proj1 ex_block_valid_case). } { apply ex_block_valid_case. }
  exists ex_block, da. split; [apply ex_block_valid_case|]. split; [exact E|].
  intros H.
  assert (K : showd (from_inner ex_block None) = showd (match to_dense ex_block with Ok da => from_dense (CBlock 2) (mm (tr da) da) | Err e => Err e end)).
  { rewrite E, H. reflexivity. }
  vm_compute in K. discriminate K.
Qed.

Lemma C08_hierarchical_roundtrip_refuted_lemma :
  exists (a : @smat Q_scalar) da, valid (CHier 1 1) 4 a /\ to_dense a = Ok da /\ from_dense (CHier 1 1) da <> Ok a.
Proof.
  destruct (C00_to_dense_total_lemma (CHier 1 1) 4 ex_hier) as (da & E & _).
  { exact (proj1 ex_hier_valid_case). } { apply ex_hier_valid_case. }
  exists ex_hier, da. split; [apply ex_hier_valid_case|]. split; [exact E|].
  intros H.
  assert (K : showd (match to_dense ex_hier with Ok da => from_dense (CHier 1 1) da | Err e => Err e end) = showd (Ok ex_hier)).
  { rewrite E, H. reflexivity. }
  vm_compute in K. discriminate K.
Qed.

(** C08, C06: consequently [a * 1.0] changes an object of a recursive class with a
    hierarchical component. *)
Definition ex_rec_hier_cls : cls := CRec TopRight Inf (Fin 1) (CHier 1 1) CDense.
Definition ex_rec_hier : @smat Q_scalar :=
  MRec TopRight Inf (Fin 1) (CHier 1 1) CDense ex_hier (qt [4;1]%nat [1;2;3;4]%Z) (MDense (qt [1;1]%nat [1]%Z)).

Lemma C06_nested_hierarchical_refuted_lemma :
  exists c n (a : @smat Q_scalar), cls_ok c /\ valid c n a /\ mul a (q 1) <> Ok a /\ is_ok (mul a (q 1)) = true.
Proof.
  exists ex_rec_hier_cls, 5%nat, ex_rec_hier. split; [repeat split|]. split.
  { repeat split. exists 1%nat, 2%nat, 1%nat. repeat split. }
  split; [|vm_compute; reflexivity].
  intros H. assert (K : showd (mul ex_rec_hier (q 1)) = showd (Ok ex_rec_hier)) by (rewrite H; reflexivity).
  vm_compute in K. discriminate K.
Qed.

(** C08, C06: an object accepted by the constructor whose partition differs from the
    class's standard one loses entries in [a * 1.0]. *)
Definition ex_odd : res (@smat Q_scalar) :=
  mk_rec TopRight (Fin 5) Inf CDiag CDense (MDiag (qt [1]%nat [1]%Z)) (qt [1;2]%nat [1;1]%Z)
    (MDense (qt [2;2]%nat [1;2;3;4]%Z)).

Lemma C06_nonstandard_partition_refuted_lemma :
  exists c (a : @smat Q_scalar) r, cls_ok c /\ ex_odd = Ok a /\ cls_of a = c /\ mul a (q 1) = Ok r /\ to_dense r <> to_dense a.
Proof.
  assert (O : is_ok ex_odd = true) by (vm_compute; reflexivity).
  destruct ex_odd as [a|] eqn:E; [|discriminate O].
  destruct (mul a (q 1)) as [r|] eqn:M.
  - exists (CRec TopRight (Fin 5) Inf CDiag CDense), a, r. split; [repeat split|]. split; [reflexivity|].
    split; [unfold ex_odd, mk_rec in E; cbn -[qt] in E; injection E as <-; reflexivity|]. split; [exact M|].
    intros H. assert (K : showd (match ex_odd with Ok a => mul a (q 1) | Err e => Err e end) = showd ex_odd).
    { rewrite E, M. cbn [showd]. rewrite H. reflexivity. }
    vm_compute in K. discriminate K.
  - exfalso. assert (K : showd (match ex_odd with Ok a => mul a (q 1) | Err e => Err e end) = Err e).
    { rewrite E, M. reflexivity. }
    vm_compute in K. discriminate K.
Qed.

Lemma C15_block_ctor_refuted_lemma :
  exists (b l : @tensor Q_scalar) a,
    shape b = [1; 2; 2]%nat /\ shape l = [1; 1]%nat /\ mk_block 3 b l = Ok a /\ to_dense a = Err RuntimeError.
Proof. exists (qt [1;2;2]%nat [1;2;3;4]%Z), (qt [1;1]%nat [1]%Z). eexists. repeat split. Qed.

Lemma C16_toeplitz_even_length_refuted_lemma :
  exists (cf X : @tensor Q_scalar) r,
    shape cf = [4]%nat /\ shape X = [2; 1]%nat /\ toeplitz_matmul cf X = Ok r /\ shape r = [1; 1]%nat.
Proof. exists (qt [4]%nat [1;2;3;4]%Z), (qt [2;1]%nat [1;2]%Z). eexists. repeat split. Qed.

(** ** C12, C13: norms, over the reals *)

Section Real.
Existing Instance R_scalar.
Open Scope R_scope.

Lemma C12_infinity_vector_norm_lemma c n a da :
  cls_ok c -> valid c n a -> n <> O -> to_dense a = Ok da ->
  exists v : R, infinity_vector_norm a = Ok v /\
    (forall i j, (i < n)%nat -> (j < n)%nat -> Rabs (get2 da i j) <= v) /\
    (exists i j, (i < n)%nat /\ (j < n)%nat /\ Rabs (get2 da i j) = v).
Proof.
  intros Hok V Hn Ea. destruct (dense_of _ _ _ _ Hok V Ea) as [Sa Ga].
  destruct (infinity_vector_norm_ok c n a Hok V Hn) as (v & E & H1 & i & j & Hi & Hj & Eij).
  exists v. split; [exact E|]. split.
  - intros x y Hx Hy. rewrite Ga by assumption. apply H1; assumption.
  - exists i, j. rewrite Ga by assumption. auto.
Qed.

Lemma C13_frobenius_norm_lemma c n a da :
  cls_ok c -> fro_dim_ok c n -> valid c n a -> to_dense a = Ok da ->
  exists v : R, frobenius_norm a = Ok v /\ 0 <= v /\
    v * v = sum n (fun i => sum n (fun j => get2 da i j * get2 da i j)).
Proof.
  intros Hok Hd V Ea. destruct (dense_of _ _ _ _ Hok V Ea) as [Sa Ga].
  rewrite (frobenius_norm_ok c n a Hok Hd V). eexists. split; [reflexivity|]. split; [apply sqrt_pos|].
  rewrite sqrt_sqrt by apply ssq_nonneg. unfold ssq. apply (@sum_ext R_scalar). intros i Hi. apply (@sum_ext R_scalar). intros j Hj.
  rewrite Ga by assumption. reflexivity.
Qed.

End Real.

Lemma C13_frobenius_dim0_refuted_lemma :
  exists c (a : @smat Q_scalar), cls_ok c /\ c_zeros c 0 = Ok a /\ valid c 0 a /\ frobenius_norm a = Err RuntimeError.
Proof. exists (CBlock 2), (MBlock 2 (@zeros Q_scalar [0;2;2]%nat) (@zeros Q_scalar [0;0]%nat)). repeat split; discriminate. Qed.

Lemma C12_C13_hypotheses_met_case :
  let a : @smat R_scalar := MHier 1 1 (@zeros R_scalar [1;1]%nat) (@ones R_scalar [1;3]%nat) (@ones R_scalar [2]%nat)
                              (@zeros R_scalar [1;2]%nat) (@ones R_scalar [1;1]%nat) in
  cls_ok (CHier 1 1) /\ fro_dim_ok (CHier 1 1) 4 /\ valid (CHier 1 1) 4 a.
Proof. repeat split; try discriminate. exists 1%nat, 2%nat, 1%nat. repeat split. Qed.

(** ** C14: everything above for every nesting of the recursive templates *)

Section Nesting.
Context {SC : Scalar} {FL : FieldLaws SC}.
Open Scope F_scope.

(** The algebra of structured matrices of class [c] and dimension [n] mirrors the algebra of
    n x n matrices. *)
Definition mirrors_dense (c : cls) (n : nat) : Prop :=
  (exists z, c_zeros c n = Ok z /\ valid c n z /\ to_dense z = Ok (zeros [n; n])) /\
  (exists e, c_eye c n = Ok e /\ valid c n e /\ to_dense e = Ok (eye n)) /\
  (forall a, valid c n a -> exists da, to_dense a = Ok da /\ shape da = [n; n] /\ from_dense c da = Ok a) /\
  (forall a b da db, valid c n a -> valid c n b -> to_dense a = Ok da -> to_dense b = Ok db ->
     (exists r, matmul_s a b = Ok r /\ valid c n r /\ to_dense r = Ok (mm da db)) /\
     (exists r, add a b = Ok r /\ valid c n r /\ to_dense r = Ok (tab2 n n (fun i j => get2 da i j + get2 db i j))) /\
     (forall v, exists r, mul a v = Ok r /\ valid c n r /\ to_dense r = Ok (tab2 n n (fun i j => v * get2 da i j))) /\
     (forall v, exists r, diag_add_ a v = Ok r /\ valid c n r /\
                to_dense r = Ok (tab2 n n (fun i j => get2 da i j + v * get2 (eye n) i j))) /\
     (forall X m, shape X = [n; m] -> matmul_t a X = Ok (mm da X) /\ rmatmat a X = Ok (mm (tr da) X)) /\
     (exists r, from_inner a None = Ok r /\ valid c n r /\ from_dense c (mm (tr da) da) = Ok r) /\
     (n <> O -> average_trace a = Ok (sum n (fun i => get2 da i i) / fofnat n))).

Lemma C14_recursive_any_nesting_lemma sd ma mc ca cc n :
  let c := CRec sd ma mc ca cc in
  cls_ok c -> dim_ok c n -> hier_free c -> mirrors_dense c n.
Proof.
  intros c Hok Hd Hf. unfold mirrors_dense.
  split; [apply C01_zeros_lemma; auto|]. split; [apply C01_eye_lemma; auto|]. split.
  - intros a V. destruct (C00_to_dense_total_lemma c n a Hok V) as (da & E & S & _).
    exists da. split; [exact E|]. split; [exact S|]. apply (C08_roundtrip_partial_lemma c n); assumption.
  - intros a b da db Va Vb Ea Eb.
    split; [apply (C02_matmul_lemma c n a b da db); assumption|].
    split; [apply (C06_add_lemma c n a b da db); assumption|].
    split; [intros v; apply (C06_mul_lemma c n a v da); assumption|].
    split; [intros v; apply (C11_diag_add_lemma c n a v da); assumption|].
    split; [intros X m HX; split; [apply (C03_matmul_tensor_lemma c n a da X m)|apply (C04_rmatmat_lemma c n a da X m)]; assumption || exact I|].
    split; [apply (C09_from_inner_none_lemma c n a da); assumption || exact I|].
    intros Hn. apply (C10_average_trace_lemma c n); assumption.
Qed.

End Nesting.

Lemma C14_toeplitz_part_dim0_refuted_lemma :
  exists c n (M : @tensor Q_scalar), cls_ok c /\ hier_free c /\ shape M = [n; n] /\ n <> O /\ from_dense c M = Err RuntimeError.
Proof. exists (CRec TopRight (Fin 1) Inf CDense CTril), 1%nat, (qt [1;1]%nat [1]%Z). repeat split. discriminate. Qed.

Lemma C07_hypotheses_met_case :
  let M := qt [3;3]%nat [1;2;3;2;4;5;3;5;6]%Z in
  shape M = [3;3]%nat /\ show (tr M) = show M /\
  showd (from_dense (CHier 1 1) M) = lit [3;3]%nat [1;4;6;0;4;0;0;10;6]%Z.
Proof. vm_compute. repeat split. Qed.

Lemma C15_reject_hypotheses_met_case :
  mk_block 2 (qt [1;2;2]%nat [1;2;3;4]%Z) (qt [2;2]%nat [1;2;3;4]%Z) = Err ValueError /\
  mk_hier 1 1 (qt [2;2]%nat [1;2;3;4]%Z) (qt [2;0]%nat []) (qt [0]%nat []) (qt [0;0]%nat []) (qt [0;0]%nat []) = Err ValueError.
Proof. split; reflexivity. Qed.

Lemma C16_hypotheses_met_case :
  showr (toeplitz_matmul (qt [3]%nat [1;2;3]%Z) (qt [2;2]%nat [1;2;3;4]%Z)) = lit [2;2]%nat [11;16;7;10]%Z /\
  showr (all_traces (qt [2;3]%nat [1;2;3;4;5;6]%Z)) = lit [4]%nat [4;6;8;3]%Z /\
  toeplitz_matmul (qt [5]%nat [1;2;3;4;5]%Z) (qt [2;2]%nat [1;2;3;4]%Z) = Err RuntimeError.
Proof. vm_compute. repeat split. Qed.

Lemma run_block_matmul_case :
  showd (matmul_s ex_block ex_block) = lit [3;3]%nat [7;6;0; 18;19;0; 0;0;25]%Z.
Proof. vm_compute. reflexivity. Qed.

Lemma run_hier_dense_case :
  showd (Ok ex_hier) = lit [4;4]%nat [2;1;3;5; 0;4;0;0; 0;0;7;0; 0;6;8;9]%Z.
Proof. vm_compute. reflexivity. Qed.

Lemma run_rec_dense_case :
  showd (Ok ex_rec) = lit [5;5]%nat [1;2;1;2;3; 0;1;4;5;6; 0;0;7;0;0; 0;0;0;8;0; 0;0;9;1;2]%Z.
Proof. vm_compute. reflexivity. Qed.

Lemma run_tril_matmul_case :
  showr (matmul_t ex_tril ex_X3) = lit [3;2]%nat [1;2; 5;8; 14;20]%Z.
Proof. vm_compute. reflexivity. Qed.

Lemma run_triu_rmatmat_case :
  showr (rmatmat ex_triu ex_X3) = lit [3;2]%nat [1;2; 5;8; 14;20]%Z.
Proof. vm_compute. reflexivity. Qed.

Lemma run_from_dense_tril_case :
  showd (from_dense CTril (qt [2;2]%nat [2;1;1;4]%Z)) = lit [2;2]%nat [3;0;2;3]%Z.
Proof. vm_compute. reflexivity. Qed.
