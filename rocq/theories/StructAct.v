(** What the transposed products of every class actually compute, block-diagonal matrices
    (which do not transpose) included. *)

From Coq Require Import List Arith Lia Bool.
From Verif Require Import Scalar Res Tensor TensorFacts Structures StructSpec StructDense StructPattern StructMul StructOps.
Import ListNotations.

Section Act.
Context {SC : Scalar} {FL : FieldLaws SC}.
Open Scope F_scope.
Add Field Ffield_act : F_ft.

(** The matrix a class uses in the role of the transpose. *)
Definition rent (s : smat) (i j : nat) : F :=
  match s with MBlock _ _ _ => ent s i j | _ => ent s j i end.

Lemma rent_nonblock c n s :
  valid c n s -> (forall D, c <> CBlock D) -> forall i j, rent s i j = ent s j i.
Proof.
  intros V H i j. destruct s; try reflexivity. destruct c; simpl in V; try contradiction. exfalso. eapply H. reflexivity.
Qed.

Definition cols_ok (c : cls) (m : nat) : Prop := match c with CTril | CTriu => m <> O | _ => True end.

Lemma dim_ok_toeplitz c n : dim_ok c n -> match c with CTril | CTriu => n <> O | _ => True end.
Proof. destruct c; simpl; auto. Qed.

Lemma matmul_t_act c n s X m :
  cls_ok c -> dim_ok c n -> valid c n s -> shape X = [n; m] -> cols_ok c m ->
  matmul_t s X = Ok (tab2 n m (fun i j => sum n (fun k => ent s i k * get2 X k j))).
Proof.
  intros Hok Hd V HX HT. apply (matmul_t_ok c); try assumption. destruct c; simpl in *; auto.
Qed.

Lemma rmatmat_act c n s X m :
  cls_ok c -> dim_ok c n -> valid c n s -> shape X = [n; m] -> cols_ok c m ->
  rmatmat s X = Ok (tab2 n m (fun i j => sum n (fun k => rent s i k * get2 X k j))).
Proof.
  intros Hok Hd V HX HT.
  assert (NB : match c with CBlock _ => False | _ => True end ->
     rmatmat s X = Ok (tab2 n m (fun i j => sum n (fun k => rent s i k * get2 X k j)))).
  { intros NB. rewrite (rmatmat_ok c n s X m); try assumption; [|destruct c; simpl in *; auto].
    f_equal. apply tab2_ext. intros i j Hi Hj. apply sum_ext. intros k Hk.
    rewrite (rent_nonblock c n s V) by (intros D ->; exact NB). reflexivity. }
  destruct c; try (apply NB; exact I).
  destruct s; simpl in V; try contradiction. destruct V as (-> & V).
  cbn [rmatmat rent]. apply (matmul_t_ok (CBlock D) n (MBlock D blocks last) X m Hok); [split; [reflexivity|exact V]|assumption|exact I].
Qed.

Lemma from_inner_some_act c n s X m :
  cls_ok c -> dim_ok c n -> valid c n s -> shape X = [n; m] -> cols_ok c m ->
  exists r, from_inner s (Some X) = Ok r /\ valid c n r /\
            repr r n (proj c n (gram m (fun i j => sum n (fun k => rent s i k * get2 X k j)))).
Proof.
  intros Hok Hd V HX HT.
  assert (NB : match c with CBlock _ => False | _ => True end -> exists r, from_inner s (Some X) = Ok r /\ valid c n r /\
            repr r n (proj c n (gram m (fun i j => sum n (fun k => rent s i k * get2 X k j))))).
  { intros NB. destruct (from_inner_some_ok c n s X m Hok Hd V HX) as (r & E & Vr & H).
    { destruct c; simpl in *; auto. }
    exists r. split; [exact E|]. split; [exact Vr|]. intros i j Hi Hj. rewrite H by assumption.
    apply proj_ext; try assumption. intros i' j' Hi' Hj'. apply gram_ext. intros k Hk. unfold tmul.
    split; apply sum_ext; intros q Hq; rewrite (rent_nonblock c n s V) by (intros D ->; exact NB); reflexivity. }
  destruct c; try (apply NB; exact I).
  destruct s; simpl in V; try contradiction. pose proof V as V0. destruct V as (-> & V).
  cbn [from_inner]. rewrite (rmatmat_act (CBlock D) n (MBlock D blocks last) X m Hok Hd V0 HX HT). cbn [bind cls_of].
  destruct (from_mat_inner_ok (CBlock D) n m (tab2 n m (fun i j => sum n (fun k => rent (MBlock D blocks last) i k * get2 X k j))) Hok Hd eq_refl) as (r & E & Vr & H).
  exists r. split; [exact E|]. split; [exact Vr|]. intros i j Hi Hj. rewrite H by assumption.
  apply proj_ext; try assumption. intros i' j' Hi' Hj'. apply gram_ext. intros k Hk. tsimp. split; reflexivity.
Qed.

Lemma block_ent_row D n b l i k :
  D <> O -> valid (CBlock D) n (MBlock D b l) -> (i < n)%nat -> (k < n)%nat -> (i / D <> k / D)%nat -> ent (MBlock D b l) i k = 0.
Proof.
  intros HD (_ & Hb & Hl) Hi Hk Hne. cbn [ent]. destruct (Nat.eqb_spec (i / D) (k / D)); [contradiction|reflexivity].
Qed.

Lemma from_inner_none_act c n s :
  cls_ok c -> dim_ok c n -> valid c n s ->
  exists r, from_inner s None = Ok r /\ valid c n r /\ repr r n (proj c n (gram n (rent s))).
Proof.
  intros Hok Hd V.
  assert (NB : match c with CBlock _ => False | _ => True end -> exists r, from_inner s None = Ok r /\ valid c n r /\ repr r n (proj c n (gram n (rent s)))).
  { intros NB. destruct (from_inner_none_ok c n s Hok Hd V) as (r & E & Vr & H).
    { destruct c; simpl in *; auto. }
    exists r. split; [exact E|]. split; [exact Vr|]. intros i j Hi Hj. rewrite H by assumption.
    apply proj_ext; try assumption. intros i' j' Hi' Hj'. unfold tmul, gram. apply sum_ext. intros q Hq.
    rewrite !(rent_nonblock c n s V) by (intros D ->; exact NB). reflexivity. }
  destruct c; try (apply NB; exact I). clear NB.
  destruct s; simpl in V; try contradiction. pose proof V as V0. destruct V as (-> & Hb & Hl).
  cbn [from_inner]. simpl in Hok.
  rewrite e_nij_nkj_ok with (n := (n / D)%nat) (i := D) (j := D) (k := D) by assumption. cbn [bind].
  rewrite (tr_ok _ (n mod D) (n mod D)) by assumption.
  rewrite t_matmul_ok with (n := (n mod D)%nat) (k := (n mod D)%nat) (m := (n mod D)%nat) by (assumption || reflexivity). cbn [bind].
  rewrite (mk_block_ok D n) by (assumption || reflexivity).
  eexists. split; [reflexivity|]. split; [repeat split; reflexivity|].
  intros i j Hi Hj. cbn [proj]. cbn [ent]. change (rows (tab3 (n / D) D D _)) with (n / D)%nat.
  destruct (Nat.eqb_spec (i / D) (j / D)) as [Eij|]; [|reflexivity].
  pose proof (div_lt_iff D i n Hok Hi). pose proof (div_lt_iff D j n Hok Hj).
  pose proof (div_le_n D i n Hok Hi). pose proof (div_le_n D j n Hok Hj).
  pose proof (Nat.mod_upper_bound i D Hok). pose proof (Nat.mod_upper_bound j D Hok).
  pose proof (Nat.div_mod i D Hok). pose proof (Nat.div_mod j D Hok).
  unfold gram. cbn [rent].
  rewrite (block_row_sum D n blocks last (fun k => ent (MBlock D blocks last) j k) i Hok V0 Hi).
  pose proof (block_dims D n Hok) as E.
  destruct (Nat.ltb_spec (i / D) (n / D)).
  - tsimp. apply sum_ext. intros q Hq. tsimp. f_equal. cbn [ent]. rewrite (rows_of _ _ _ Hb).
    rewrite Nat.div_add_l, (Nat.div_small q D), Nat.add_0_r by assumption. rewrite <- Eij, Nat.eqb_refl.
    destruct (Nat.ltb_spec (i / D) (n / D)); [|lia].
    rewrite (Nat.add_comm (i / D * D) q). rewrite Nat.mod_add, (Nat.mod_small q D) by assumption. reflexivity.
  - tsimp. apply sum_ext. intros q Hq. tsimp. f_equal. cbn [ent]. rewrite (rows_of _ _ _ Hb).
    assert (EQ : ((n / D * D + q) / D = n / D)%nat).
    { rewrite Nat.div_add_l by assumption. pose proof (Nat.mod_upper_bound n D Hok). rewrite (Nat.div_small q D) by lia. lia. }
    rewrite EQ. assert (ED : (j / D = n / D)%nat) by lia. rewrite ED, Nat.eqb_refl, Nat.ltb_irrefl.
    f_equal; lia.
Qed.

End Act.
