(** Lemmas on square matrices over a field: a matrix with trivial kernel has an inverse; row-sum norms; one Newton step for
    the inverse square root.  Not a model of code. *)

From Coq Require Import List Arith Lia Bool Field Setoid Morphisms Reals Lra.
From Verif Require Import Scalar Res Tensor TensorFacts OptSpec RealOrd OptNorm NewtonSpec.
Import ListNotations.

Section Mat.
Context {SC : Scalar} {FL : FieldLaws SC}.
Add Field Ffmi : F_ft.
Open Scope F_scope.

#[local] Instance eqm_equiv n : Equivalence (eqm n).
Proof.
  split.
  - intros A i j _ _. reflexivity.
  - intros A B H i j Hi Hj. symmetry. apply H; assumption.
  - intros A B C H1 H2 i j Hi Hj. rewrite H1 by assumption. apply H2; assumption.
Qed.
#[local] Instance mmm_proper n : Proper (eqm n ==> eqm n ==> eqm n) (mmm n).
Proof. intros A A' HA B B' HB i j Hi Hj. apply mmm_ext; assumption. Qed.

(** ** Kernels *)

Definition skip (p j : nat) : nat := if Nat.ltb j p then j else Datatypes.S j.

Lemma sum_skip p : forall n f, (p <= n)%nat -> sum (Datatypes.S n) f = f p + sum n (fun j => f (skip p j)).
Proof.
  induction n as [|n IH]; intros f H.
  - replace p with O by lia. cbn [sum]. ring.
  - destruct (Nat.eq_dec p (Datatypes.S n)) as [->|N].
    + cbn [sum]. rewrite (sum_ext n (fun j => f (skip (Datatypes.S n) j)) f).
      2:{ intros i Hi. unfold skip. destruct (Nat.ltb_spec i (Datatypes.S n)); [reflexivity|lia]. }
      unfold skip. destruct (Nat.ltb_spec n (Datatypes.S n)); [ring|lia].
    + change (sum (Datatypes.S n) f + f (Datatypes.S n) = f p + (sum n (fun j => f (skip p j)) + f (skip p n))).
      rewrite (IH f) by lia. unfold skip at 3. destruct (Nat.ltb_spec n p); [lia|]. ring.
Qed.

Lemma find_nz n (r : nat -> F) : (exists j, (j < n)%nat /\ r j <> 0) \/ (forall j, (j < n)%nat -> r j = 0).
Proof.
  induction n as [|n [(j & Hj & N)|Z]]; [right; intros; lia|left; exists j; split; [lia|exact N]|].
  destruct (feqb (r n) 0) eqn:E.
  - right. intros j Hj. destruct (Nat.eq_dec j n) as [->|]; [apply feqb_iff; exact E|apply Z; lia].
  - left. exists n. split; [lia|]. intros H. apply feqb_iff in H. congruence.
Qed.

(** More unknowns than equations: a solution other than 0. *)
Lemma wide_kernel n : forall M : mat, exists x : nat -> F, (exists j, (j <= n)%nat /\ x j <> 0) /\
  forall i, (i < n)%nat -> sum (Datatypes.S n) (fun j => M i j * x j) = 0.
Proof.
  induction n as [|n IH]; intros M.
  - exists (fun _ => 1). split; [exists O; split; [lia|apply (F_1_neq_0 F_ft)]|intros; lia].
  - destruct (find_nz (Datatypes.S (Datatypes.S n)) (M n)) as [(p & Hp & Np)|Z].
    + destruct (IH (fun i j => M i (skip p j) - M i p * (M n (skip p j) / M n p))) as (x & (j & Hj & Nj) & Hx).
      set (y := fun q => if Nat.eqb q p then - (sum (Datatypes.S n) (fun j => M n (skip p j) * x j) / M n p)
                         else if Nat.ltb q p then x q else x (Nat.pred q)).
      assert (Y : forall k, y (skip p k) = x k).
      { intros k. unfold y, skip. destruct (Nat.ltb_spec k p).
        - destruct (Nat.eqb_spec k p); [lia|]. destruct (Nat.ltb_spec k p); [reflexivity|lia].
        - destruct (Nat.eqb_spec (Datatypes.S k) p); [lia|]. destruct (Nat.ltb_spec (Datatypes.S k) p); [lia|reflexivity]. }
      assert (Yp : y p = - (sum (Datatypes.S n) (fun j => M n (skip p j) * x j) / M n p)) by (unfold y; rewrite Nat.eqb_refl; reflexivity).
      exists y. split.
      * exists (skip p j). split; [unfold skip; destruct (Nat.ltb_spec j p); lia|]. rewrite Y. exact Nj.
      * intros i Hi. rewrite (sum_skip p) by lia. rewrite (sum_ext _ _ (fun j => M i (skip p j) * x j)) by (intros; rewrite Y; reflexivity). rewrite Yp.
        destruct (Nat.eq_dec i n) as [->|Ni]; [field; exact Np|].
        specialize (Hx i ltac:(lia)).
        rewrite (sum_ext _ _ (fun j => M i (skip p j) * x j - M i p / M n p * (M n (skip p j) * x j))) in Hx by (intros; field; exact Np).
        rewrite sum_minus, sum_scale_l in Hx. rewrite <- Hx. field. exact Np.
    + destruct (IH M) as (x & (j & Hj & Nj) & Hx). exists (fun q => if Nat.leb q n then x q else 0). split.
      * exists j. split; [lia|]. destruct (Nat.leb_spec j n); [exact Nj|lia].
      * intros i Hi. change (sum (Datatypes.S n) (fun j => M i j * (if Nat.leb j n then x j else 0)) + M i (Datatypes.S n) * (if Nat.leb (Datatypes.S n) n then x (Datatypes.S n) else 0) = 0).
        destruct (Nat.leb_spec (Datatypes.S n) n); [lia|]. rewrite (sum_ext _ _ (fun j => M i j * x j)).
        2:{ intros q Hq. destruct (Nat.leb_spec q n); [reflexivity|lia]. }
        destruct (Nat.eq_dec i n) as [->|Ni]; [rewrite sum_0 by (intros q Hq; rewrite Z by lia; ring); ring|]. rewrite Hx by lia. ring.
Qed.

Lemma pick_columns n (P : nat -> (nat -> F) -> Prop) : (forall j, (j < n)%nat -> exists u, P j u) -> exists L : mat, forall j, (j < n)%nat -> P j (fun i => L i j).
Proof.
  induction n as [|n IH]; intros H; [exists (fun _ _ => 0); intros; lia|].
  destruct IH as (L & HL); [intros; apply H; lia|]. destruct (H n) as (u & Hu); [lia|].
  exists (fun i j => if Nat.eqb j n then u i else L i j). intros j Hj. destruct (Nat.eqb_spec j n) as [->|N]; [exact Hu|apply HL; lia].
Qed.

(** Trivial kernel: an inverse from both sides. *)
Lemma nonsingular_inverse n M : nonsingular n M -> exists L, eqm n (mmm n M L) ident /\ eqm n (mmm n L M) ident.
Proof.
  intros I.
  assert (S1 : forall j, (j < n)%nat -> exists u, forall i, (i < n)%nat -> sum n (fun k => M i k * u k) = ident i j).
  { intros j Hj. destruct (wide_kernel n (fun i k => if Nat.eqb k n then ident i j else M i k)) as (x & (q & Hq & Nq) & Hx).
    assert (Hx' : forall i, (i < n)%nat -> sum n (fun k => M i k * x k) + ident i j * x n = 0).
    { intros i Hi. rewrite <- (Hx i Hi). cbn [sum]. rewrite Nat.eqb_refl. f_equal. apply sum_ext. intros k Hk. destruct (Nat.eqb_spec k n); [lia|reflexivity]. }
    destruct (feqb (x n) 0) eqn:E.
    - exfalso. apply feqb_iff in E. assert (Z : forall k, (k < n)%nat -> x k = 0).
      { apply I. intros i Hi. rewrite <- (Hx' i Hi), E. ring. }
      destruct (Nat.eq_dec q n) as [->|N]; [contradiction|]. apply Nq, Z. lia.
    - assert (N : x n <> 0) by (intros H; apply feqb_iff in H; congruence).
      exists (fun k => - (x k / x n)). intros i Hi. specialize (Hx' i Hi).
      rewrite (sum_ext _ _ (fun k => (- (1 / x n)) * (M i k * x k))) by (intros; field; exact N). rewrite sum_scale_l.
      transitivity ((- (1 / x n)) * (sum n (fun k => M i k * x k) + ident i j * x n) + ident i j); [field; exact N|]. rewrite Hx'. field. exact N. }
  destruct (pick_columns n _ S1) as (L & HL). exists L.
  assert (R : eqm n (mmm n M L) ident) by (intros i j Hi Hj; exact (HL j Hj i Hi)).
  split; [exact R|]. intros i j Hi Hj.
  assert (Z : forall k, (k < n)%nat -> mmm n L M k j - ident k j = 0).
  { apply (I (fun k => mmm n L M k j - ident k j)). intros q Hq.
    rewrite (sum_ext _ _ (fun k => M q k * mmm n L M k j - M q k * ident k j)) by (intros; ring). rewrite sum_minus.
    change (mmm n M (mmm n L M) q j - mmm n M ident q j = 0). rewrite <- (mmm_assoc n M L M q j), (mmm_ext n _ ident M M q j Hq Hj R) by (intros ? ? ? ?; reflexivity).
    rewrite mmm_ident_l, mmm_ident_r by assumption. ring. }
  specialize (Z i Hi). transitivity (mmm n L M i j - ident i j + ident i j); [ring|]. rewrite Z. ring.
Qed.

Lemma left_nonsingular n L M : eqm n (mmm n L M) ident -> nonsingular n M.
Proof.
  intros H x Hx j Hj.
  transitivity (sum n (fun k => mmm n L M j k * x k)).
  - rewrite (sum_single n j _ Hj).
    + rewrite H by assumption. unfold ident. rewrite Nat.eqb_refl. ring.
    + intros k Hk N. rewrite H by assumption. unfold ident. destruct (Nat.eqb_spec j k); [congruence|ring].
  - unfold mmm. rewrite (sum_ext _ _ (fun k => sum n (fun q => L j q * M q k * x k))) by (intros; rewrite <- sum_scale_r; reflexivity).
    rewrite sum_swap. apply sum_0. intros q Hq. rewrite (sum_ext _ _ (fun k => L j q * (M q k * x k))) by (intros; ring). rewrite sum_scale_l, Hx by exact Hq. ring.
Qed.

(** A left inverse is a right inverse. *)
Lemma left_right n L M : eqm n (mmm n L M) ident -> eqm n (mmm n M L) ident.
Proof.
  intros H. destruct (nonsingular_inverse n M (left_nonsingular n L M H)) as (L' & H1 & _).
  assert (E : eqm n L L').
  { transitivity (mmm n L (mmm n M L')); [rewrite H1; intros i j Hi Hj; rewrite mmm_ident_r by exact Hj; reflexivity|].
    transitivity (mmm n (mmm n L M) L'); [intros i j Hi Hj; symmetry; apply mmm_assoc|]. rewrite H. intros i j Hi Hj. apply mmm_ident_l. exact Hi. }
  rewrite E. exact H1.
Qed.

Lemma inverse_unique n A X Y : eqm n (mmm n A X) ident -> eqm n (mmm n A Y) ident -> eqm n X Y.
Proof.
  intros HX HY. apply left_right in HX. 
  transitivity (mmm n X (mmm n A Y)); [rewrite HY; intros i j Hi Hj; rewrite mmm_ident_r by exact Hj; reflexivity|].
  transitivity (mmm n (mmm n X A) Y); [intros i j Hi Hj; symmetry; apply mmm_assoc|]. rewrite HX. intros i j Hi Hj. apply mmm_ident_l. exact Hi.
Qed.

(** ** Products of linear combinations *)

Lemma mmm_lin_l n a A b B M i j : mmm n (fun i j => a * A i j + b * B i j) M i j = a * mmm n A M i j + b * mmm n B M i j.
Proof. unfold mmm. rewrite <- !sum_scale_l, <- sum_plus. apply sum_ext. intros. ring. Qed.
Lemma mmm_lin_r n a A b B M i j : mmm n M (fun i j => a * A i j + b * B i j) i j = a * mmm n M A i j + b * mmm n M B i j.
Proof. unfold mmm. rewrite <- !sum_scale_l, <- sum_plus. apply sum_ext. intros. ring. Qed.

Definition trp (A : mat) : mat := fun i j => A j i.
#[local] Instance trp_proper n : Proper (eqm n ==> eqm n) trp.
Proof. intros A A' H i j Hi Hj. apply H; assumption. Qed.
Lemma trp_mmm n A B : eqm n (trp (mmm n A B)) (mmm n (trp B) (trp A)).
Proof. intros i j _ _. unfold trp, mmm. apply sum_ext. intros. ring. Qed.
Lemma congr_mmm n K U : eqm n (congr n K U) (mmm n (trp K) (mmm n U K)).
Proof. intros i j _ _. unfold congr, mmm, trp. apply sum_ext. intros a _. rewrite <- sum_scale_l. apply sum_ext. intros b _. ring. Qed.

(** ** The Newton step *)

Lemma defect_sym n K A : symmetric n A -> symmetric n (defect n K A).
Proof.
  intros S i j Hi Hj. unfold defect. rewrite (congr_sym n K A S i j Hi Hj). f_equal. unfold ident. rewrite Nat.eqb_sym. reflexivity.
Qed.

(** K' = K (I + b/2 E) with E = I - K^T A K has the defect (1 - b) E + (b - b^2/4) E^2 + b^2/4 E^3. *)
Lemma newton_defect n K K' A b :
  symmetric n A -> let E := defect n K A in let h := b / (1 + 1) in
  eqm n K' (mmm n K (fun i j => ident i j + h * E i j)) ->
  eqm n (defect n K' A) (fun i j => (1 - b) * E i j + ((b - h * h) * mmm n E E i j + h * h * mmm n E (mmm n E E) i j)).
Proof.
  intros SA E h HK. set (T := fun i j => ident i j + h * E i j) in *.
  assert (ST : eqm n (trp T) T).
  { intros i j Hi Hj. unfold trp, T. rewrite (defect_sym n K A SA j i Hj Hi : E j i = E i j). unfold ident. rewrite Nat.eqb_sym. reflexivity. }
  assert (C : eqm n (congr n K' A) (mmm n T (mmm n (congr n K A) T))).
  { rewrite congr_mmm, HK, trp_mmm, ST, congr_mmm.
    assert (AS : forall A B C, eqm n (mmm n (mmm n A B) C) (mmm n A (mmm n B C))) by (intros P Q R i j _ _; apply mmm_assoc).
    rewrite !AS. reflexivity. }
  assert (CE : eqm n (congr n K A) (fun i j => 1 * ident i j + (-(1)) * E i j)).
  { intros i j _ _. unfold E, defect. ring. }
  assert (B2 : 1 + 1 <> 0) by apply two_neq0.
  intros i j Hi Hj. unfold defect at 1. rewrite C by assumption.
  rewrite (mmm_ext n T T _ (mmm n (fun i j => 1 * ident i j + - (1) * E i j) T) i j Hi Hj); [|reflexivity|rewrite CE; reflexivity].
  assert (P1 : eqm n (mmm n (fun i j => 1 * ident i j + - (1) * E i j) T)
      (fun i j => 1 * ident i j + 1 * ((h - 1) * E i j + - h * mmm n E E i j))).
  { intros a c Ha Hc. rewrite mmm_lin_l, mmm_ident_l by exact Ha.
    rewrite (mmm_ext n E E T (fun i j => 1 * ident i j + h * E i j) a c Ha Hc) by (try reflexivity; intros ? ? _ _; unfold T; ring).
    rewrite mmm_lin_r, mmm_ident_r by exact Hc. unfold T. ring. }
  rewrite (mmm_ext n T T _ _ i j Hi Hj (fun _ _ _ _ => eq_refl) P1).
  rewrite (mmm_ext n T (fun i j => 1 * ident i j + h * E i j) _ _ i j Hi Hj ltac:(intros ? ? _ _; unfold T; ring) (fun _ _ _ _ => eq_refl)).
  rewrite mmm_lin_l, mmm_ident_l by exact Hi. rewrite !mmm_lin_r, mmm_ident_r by exact Hj. unfold h. field. exact B2.
Qed.

End Mat.

(** ** Row sums of absolute values *)

Section Small.
Context {SC : Scalar} {FL : FieldLaws SC} {OR : Ordered SC}.
Add Field Ffsm : F_ft.
Open Scope R_scope.

#[local] Existing Instance eqm_equiv.
#[local] Existing Instance mmm_proper.
#[local] Existing Instance trp_proper.

Lemma rsum_le n f g : (forall i, (i < n)%nat -> f i <= g i) -> rsum n f <= rsum n g.
Proof. induction n; intros H; cbn [rsum]; [lra|]. assert (rsum n f <= rsum n g) by auto. specialize (H n (Nat.lt_succ_diag_r n)). lra. Qed.
Lemma rsum_plus n f g : rsum n (fun i => f i + g i) = rsum n f + rsum n g.
Proof. induction n; cbn [rsum]; [lra|]. rewrite IHn. lra. Qed.
Lemma rsum_scale n c f : rsum n (fun i => c * f i) = c * rsum n f.
Proof. induction n; cbn [rsum]; [lra|]. rewrite IHn. lra. Qed.
Lemma rsum_swap n m f : rsum n (fun i => rsum m (fun j => f i j)) = rsum m (fun j => rsum n (fun i => f i j)).
Proof.
  induction n; cbn [rsum].
  - induction m; cbn [rsum]; [reflexivity|]. rewrite <- IHm. lra.
  - rewrite IHn, <- rsum_plus. reflexivity.
Qed.
Lemma rsum_triangle n f : Rabs (rsum n f) <= rsum n (fun i => Rabs (f i)).
Proof. induction n; cbn [rsum]; [rewrite Rabs_R0; lra|]. eapply Rle_trans; [apply Rabs_triang|]. lra. Qed.
Lemma rsum_entry n f i : (forall j, (j < n)%nat -> 0 <= f j) -> (i < n)%nat -> f i <= rsum n f.
Proof.
  induction n; intros P Hi; [lia|]. cbn [rsum]. assert (0 <= rsum n f) by (apply rsum_nonneg; auto). pose proof (P n ltac:(lia)).
  destruct (Nat.eq_dec i n) as [->|]; [lra|]. assert (f i <= rsum n f) by (apply IHn; [auto|lia]). lra.
Qed.

Lemma small_ext n M M' q : eqm n M M' -> small n M q -> small n M' q.
Proof. intros E S i Hi. rewrite <- (rsum_ext n (fun j => Rabs (toR (M i j)))) by (intros; rewrite E by assumption; reflexivity). apply S. exact Hi. Qed.
Lemma small_le n M q q' : q <= q' -> small n M q -> small n M q'.
Proof. intros H S i Hi. specialize (S i Hi). lra. Qed.
Lemma small_entry n M q i j : small n M q -> (i < n)%nat -> (j < n)%nat -> Rabs (toR (M i j)) <= q.
Proof.
  intros S Hi Hj. eapply Rle_trans; [|apply (S i Hi)]. apply (rsum_entry n (fun j => Rabs (toR (M i j)))); [intros; apply Rabs_pos|exact Hj].
Qed.
Lemma small_lin n a A b B p q r s : Rabs (toR a) <= r -> Rabs (toR b) <= s -> 0 <= p -> 0 <= q -> small n A p -> small n B q ->
  small n (fun i j => fadd (fmul a (A i j)) (fmul b (B i j))) (r * p + s * q).
Proof.
  intros Ha Hb Hp Hq SA SB i Hi. apply Rle_trans with (rsum n (fun j => Rabs (toR a) * Rabs (toR (A i j)) + Rabs (toR b) * Rabs (toR (B i j)))).
  { apply rsum_le. intros j Hj. rewrite toR_add, !toR_mul. eapply Rle_trans; [apply Rabs_triang|]. rewrite !Rabs_mult. lra. }
  rewrite rsum_plus, !rsum_scale. specialize (SA i Hi). specialize (SB i Hi).
  pose proof (Rabs_pos (toR a)). pose proof (Rabs_pos (toR b)).
  assert (0 <= rsum n (fun j => Rabs (toR (A i j)))) by (apply rsum_nonneg; intros; apply Rabs_pos).
  assert (0 <= rsum n (fun j => Rabs (toR (B i j)))) by (apply rsum_nonneg; intros; apply Rabs_pos).
  apply Rplus_le_compat; apply Rmult_le_compat; lra.
Qed.
Lemma small_mul n A B p q : 0 <= q -> small n A p -> small n B q -> small n (mmm n A B) (p * q).
Proof.
  intros Hq SA SB i Hi.
  apply Rle_trans with (rsum n (fun j => rsum n (fun k => Rabs (toR (fmul (A i k) (B k j)))))).
  - apply rsum_le. intros j Hj. unfold mmm. rewrite toR_sum. apply rsum_triangle.
  - rewrite rsum_swap. rewrite (rsum_ext n _ (fun k => Rabs (toR (A i k)) * rsum n (fun j => Rabs (toR (B k j))))).
    2:{ intros k Hk. rewrite <- rsum_scale. apply rsum_ext. intros j Hj. rewrite toR_mul, Rabs_mult. reflexivity. }
    apply Rle_trans with (rsum n (fun k => Rabs (toR (A i k)) * q)); [apply rsum_le; intros k Hk; apply Rmult_le_compat_l; [apply Rabs_pos|apply SB; exact Hk]|].
    rewrite (rsum_ext n _ (fun k => q * Rabs (toR (A i k)))) by (intros; ring). rewrite rsum_scale, Rmult_comm. apply Rmult_le_compat_r; [exact Hq|apply SA; exact Hi].
Qed.
Lemma small_ident n : small n ident 1.
Proof.
  intros i Hi. assert (E : forall m, rsum m (fun j => Rabs (toR (ident i j))) = if (i <? m)%nat then 1 else 0).
  { induction m as [|m IH]; [reflexivity|]. cbn [rsum]. rewrite IH. unfold ident. destruct (Nat.eqb_spec i m) as [->|N].
    - rewrite toR_1, Rabs_R1. destruct (Nat.ltb_spec m m); [lia|]. destruct (Nat.ltb_spec m (S m)); [lra|lia].
    - rewrite toR_0, Rabs_R0. destruct (Nat.ltb_spec i m), (Nat.ltb_spec i (S m)); try lia; lra. }
  rewrite E. destruct (Nat.ltb_spec i n); [lra|lia].
Qed.

(** Y = Z + E Y. *)
Lemma small_neumann n E Y Z e z : e < 1 -> 0 <= e -> small n E e -> small n Z z ->
  eqm n Y (fun i j => fadd (Z i j) (mmm n E Y i j)) -> small n Y (z / (1 - e)).
Proof.
  intros He He0 SE SZ EY. destruct (Nat.eq_dec n 0) as [->|Hn]; [intros i Hi; lia|].
  destruct (largest n (fun i => rsum n (fun j => Rabs (toR (Y i j)))) Hn) as (i & Hi & Mx).
  set (y := rsum n (fun j => Rabs (toR (Y i j)))) in *.
  assert (P : forall k, (k < n)%nat -> rsum n (fun j => Rabs (toR (Y k j))) <= y).
  { intros k Hk. specialize (Mx k Hk).
    assert (0 <= rsum n (fun j => Rabs (toR (Y k j)))) by (apply rsum_nonneg; intros; apply Rabs_pos).
    assert (0 <= y) by (apply rsum_nonneg; intros; apply Rabs_pos). rewrite !Rabs_right in Mx by lra. exact Mx. }
  assert (Y0 : 0 <= y) by (apply rsum_nonneg; intros; apply Rabs_pos).
  assert (Q : y <= z + e * y).
  { unfold y at 1. rewrite (rsum_ext n _ (fun j => Rabs (toR (Z i j) + toR (mmm n E Y i j)))) by (intros; rewrite EY, toR_add by assumption; reflexivity).
    apply Rle_trans with (rsum n (fun j => Rabs (toR (Z i j)) + Rabs (toR (mmm n E Y i j)))); [apply rsum_le; intros; apply Rabs_triang|]. rewrite rsum_plus. apply Rplus_le_compat; [apply SZ; exact Hi|].
    apply (small_mul n E Y e y Y0 SE P). exact Hi. }
  intros k Hk. eapply Rle_trans; [apply P; exact Hk|]. apply (Rmult_le_reg_r (1 - e)); [lra|]. unfold Rdiv. rewrite Rmult_assoc, Rinv_l by lra. lra.
Qed.

Lemma small_nonsingular n E e M : e < 1 -> small n E e -> eqm n M (fun i j => fsub (ident i j) (E i j)) -> nonsingular n M.
Proof.
  intros He SE EM x Hx. destruct (Nat.eq_dec n 0) as [->|Hn]; [intros j Hj; lia|].
  assert (Ex : forall i, (i < n)%nat -> x i = sum n (fun j => fmul (E i j) (x j))).
  { intros i Hi. specialize (Hx i Hi). rewrite (sum_ext _ _ (fun j => fsub (fmul (ident i j) (x j)) (fmul (E i j) (x j)))) in Hx by (intros; rewrite EM by assumption; ring).
    rewrite sum_minus in Hx. assert (Ei : sum n (fun j => fmul (ident i j) (x j)) = x i).
    { rewrite (sum_single n i _ Hi); [unfold ident; rewrite Nat.eqb_refl; ring|]. intros k _ N. unfold ident. destruct (Nat.eqb_spec i k); [congruence|ring]. }
    rewrite Ei in Hx. transitivity (fadd (fsub (x i) (sum n (fun j => fmul (E i j) (x j)))) (sum n (fun j => fmul (E i j) (x j)))); [ring|]. rewrite Hx. ring. }
  destruct (largest n (fun i => toR (x i)) Hn) as (i & Hi & Mx).
  assert (L : Rabs (toR (x i)) <= e * Rabs (toR (x i))).
  { rewrite (Ex i Hi) at 1. rewrite toR_sum. eapply Rle_trans; [apply rsum_triangle|].
    apply Rle_trans with (rsum n (fun j => Rabs (toR (E i j)) * Rabs (toR (x i)))); [apply rsum_le; intros j Hj; rewrite toR_mul, Rabs_mult; apply Rmult_le_compat_l; [apply Rabs_pos|apply Mx; exact Hj]|].
    rewrite (rsum_ext n _ (fun j => Rabs (toR (x i)) * Rabs (toR (E i j)))) by (intros; ring). rewrite rsum_scale, Rmult_comm.
    apply Rmult_le_compat_r; [apply Rabs_pos|apply SE; exact Hi]. }
  pose proof (Rabs_pos (toR (x i))) as P0. assert (Z : Rabs (toR (x i)) = 0) by nra.
  intros j Hj. apply toR_inj. rewrite toR_0. specialize (Mx j Hj). pose proof (Rabs_pos (toR (x j))) as Pj.
  assert (A : Rabs (toR (x j)) = 0) by lra. unfold Rabs in A. destruct (Rcase_abs (toR (x j))); lra.
Qed.

(** ** The Newton step makes the defect smaller *)

Lemma toR_two : toR (fadd f1 f1) = 2. Proof. rewrite toR_add, toR_1. lra. Qed.

Lemma newton_small n K K' A b e :
  symmetric n A -> let E := defect n K A in
  eqm n K' (mmm n K (fun i j => fadd (ident i j) (fmul (fdiv b (fadd f1 f1)) (E i j)))) ->
  0 <= toR b <= 1 -> 0 <= e <= 1 -> small n E e -> small n (defect n K' A) (e * (1 - toR b * (1 - e))).
Proof.
  intros SA E HK Hb He SE. pose proof (newton_defect n K K' A b SA HK) as D. cbv zeta in D. fold E in D.
  apply (small_ext n _ _ _ (fun i j Hi Hj => eq_sym (D i j Hi Hj))).
  set (h := fdiv b (fadd f1 f1)) in *. assert (Eh : toR h = toR b / 2) by (unfold h; rewrite toR_div by apply two_neq0; rewrite toR_two; reflexivity).
  assert (S2 : small n (mmm n E E) (e * e)) by (apply small_mul; [lra|exact SE|exact SE]).
  assert (S3 : small n (mmm n E (mmm n E E)) (e * (e * e))) by (apply small_mul; [nra|exact SE|exact S2]).
  assert (S23 : small n (fun i j => fadd (fmul (fsub b (fmul h h)) (mmm n E E i j)) (fmul (fmul h h) (mmm n E (mmm n E E) i j)))
     ((toR b - toR b / 2 * (toR b / 2)) * (e * e) + (toR b / 2 * (toR b / 2)) * (e * (e * e)))).
  { apply small_lin; try assumption.
    - rewrite toR_sub, toR_mul, Eh, Rabs_right by nra. lra.
    - rewrite toR_mul, Eh, Rabs_right by nra. lra.
    - nra.
    - assert (0 <= e * e) by nra. nra. }
  assert (T : small n (fun i j => fadd (fmul (fsub f1 b) (E i j)) (fmul f1 (fadd (fmul (fsub b (fmul h h)) (mmm n E E i j)) (fmul (fmul h h) (mmm n E (mmm n E E) i j)))))
     ((1 - toR b) * e + 1 * ((toR b - toR b / 2 * (toR b / 2)) * (e * e) + (toR b / 2 * (toR b / 2)) * (e * (e * e))))).
  { apply small_lin; try assumption.
    - rewrite toR_sub, toR_1, Rabs_right by lra. lra.
    - rewrite toR_1, Rabs_R1. lra.
    - lra.
    - assert (0 <= e * e) by nra. assert (0 <= e * (e * e)) by nra. assert (0 <= toR b * toR b) by nra.
      assert (0 <= toR b - toR b / 2 * (toR b / 2)) by nra. assert (0 <= toR b / 2 * (toR b / 2)) by nra. nra. }
  apply (small_ext n _ (fun i j => fadd (fmul (fsub f1 b) (E i j)) (fadd (fmul (fsub b (fmul h h)) (mmm n E E i j)) (fmul (fmul h h) (mmm n E (mmm n E E) i j))))) in T.
  2:{ intros i j _ _. ring. }
  eapply small_le; [|exact T].
  assert (0 <= e * e) by nra. assert (0 <= toR b / 2 * (toR b / 2)) by nra. assert (e * (e * e) <= e * e) by nra. nra.
Qed.

(** K' is not much larger than K. *)
Lemma newton_growth n K K' A b e k :
  symmetric n A -> let E := defect n K A in
  eqm n K' (mmm n K (fun i j => fadd (ident i j) (fmul (fdiv b (fadd f1 f1)) (E i j)))) ->
  0 <= toR b <= 1 -> 0 <= e -> 0 <= k -> small n E e -> small n K k -> small n (trp K) k ->
  small n K' (k * (1 + e / 2)) /\ small n (trp K') (k * (1 + e / 2)).
Proof.
  intros SA E HK Hb He Hk SE S1 S2. set (h := fdiv b (fadd f1 f1)) in *.
  assert (Eh : toR h = toR b / 2) by (unfold h; rewrite toR_div by apply two_neq0; rewrite toR_two; reflexivity).
  set (T := fun i j => fadd (ident i j) (fmul h (E i j))) in *.
  assert (ST : small n T (1 + e / 2)).
  { apply (small_ext n (fun i j => fadd (fmul f1 (ident i j)) (fmul h (E i j)))); [intros i j _ _; unfold T; ring|].
    replace (1 + e / 2) with (1 * 1 + 1 / 2 * e) by lra. apply small_lin; [rewrite toR_1, Rabs_R1; lra|rewrite Eh, Rabs_right; lra|lra|exact He|apply small_ident|exact SE]. }
  assert (SY : eqm n (trp T) T).
  { intros i j Hi Hj. unfold trp, T. rewrite (defect_sym n K A SA j i Hj Hi : E j i = E i j). unfold ident. rewrite Nat.eqb_sym. reflexivity. }
  split.
  - apply (small_ext n (mmm n K T)); [symmetry; exact HK|]. apply small_mul; [lra|exact S1|exact ST].
  - apply (small_ext n (mmm n T (trp K))).
    + rewrite HK. rewrite trp_mmm, SY. reflexivity.
    + rewrite (Rmult_comm k). apply small_mul; [exact Hk|exact ST|exact S2].
Qed.

(** With a small defect K K^T is close to the inverse of A. *)
Lemma defect_inverse n K A X e k :
  small n (defect n K A) e -> 0 <= e < 1 -> 0 <= k -> small n K k -> small n (trp K) k -> eqm n (mmm n A X) ident ->
  forall i j, (i < n)%nat -> (j < n)%nat -> Rabs (toR (mmt n K K i j) - toR (X i j)) <= k * k * e / (1 - e).
Proof.
  intros SE He Hk S1 S2 HX. set (E := defect n K A) in *.
  assert (EC : eqm n (congr n K A) (fun i j => fsub (ident i j) (E i j))) by (intros i j _ _; unfold E, defect; ring).
  assert (NS : nonsingular n K).
  { pose proof (small_nonsingular n E e _ (proj2 He) SE EC) as N. intros x Hx. apply N. intros i Hi.
    rewrite (sum_ext _ _ (fun j => fmul (mmm n (trp K) (mmm n A K) i j) (x j))) by (intros j Hj; rewrite (congr_mmm n K A i j Hi Hj); reflexivity).
    unfold mmm at 1. rewrite (sum_ext _ _ (fun j => sum n (fun q => fmul (fmul (trp K i q) (mmm n A K q j)) (x j)))) by (intros; rewrite <- sum_scale_r; reflexivity).
    rewrite sum_swap. apply sum_0. intros q Hq.
    rewrite (sum_ext _ _ (fun j => sum n (fun p => fmul (fmul (trp K i q) (A q p)) (fmul (K p j) (x j))))).
    2:{ intros j Hj. unfold mmm. rewrite <- sum_scale_l, <- sum_scale_r. apply sum_ext. intros. ring. }
    rewrite sum_swap. apply sum_0. intros p Hp. rewrite sum_scale_l, Hx by exact Hp. ring. }
  destruct (nonsingular_inverse n K NS) as (L & L1 & L2).
  assert (AS : forall A B C, eqm n (mmm n (mmm n A B) C) (mmm n A (mmm n B C))) by (intros P Q R i j _ _; apply mmm_assoc).
  set (D := fun i j => fsub (mmm n K (trp K) i j) (X i j)).
  set (Y := mmm n L D).
  set (Z := fun i j => fopp (mmm n E (trp K) i j)).
  assert (idl : forall A, eqm n (mmm n ident A) A) by (intros P i j Hi Hj; apply mmm_ident_l; exact Hi).
  assert (idr : forall A, eqm n (mmm n A ident) A) by (intros P i j Hi Hj; apply mmm_ident_r; exact Hj).
  assert (KAD : eqm n (mmm n (congr n K A) Y) Z).
  { unfold Y. rewrite congr_mmm. rewrite !AS, <- (AS K L D), L1, idl.
    assert (AD : eqm n (mmm n A D) (fun i j => fadd (fmul f1 (mmm n A (mmm n K (trp K)) i j)) (fmul (fopp f1) (ident i j)))).
    { intros i j Hi Hj. transitivity (mmm n A (fun i j => fadd (fmul f1 (mmm n K (trp K) i j)) (fmul (fopp f1) (X i j))) i j).
      - apply mmm_ext; try assumption; [reflexivity|]. intros a b _ _. unfold D. ring.
      - rewrite mmm_lin_r. rewrite (HX i j Hi Hj). reflexivity. }
    rewrite AD. intros i j Hi Hj. rewrite mmm_lin_r, mmm_ident_r by exact Hj.
    assert (Q : eqm n (mmm n (trp K) (mmm n A (mmm n K (trp K)))) (fun i j => fadd (fmul f1 (trp K i j)) (fmul (fopp f1) (mmm n E (trp K) i j)))).
    { transitivity (mmm n (congr n K A) (trp K)); [rewrite congr_mmm, !AS; reflexivity|]. rewrite EC. intros a b Ha Hb.
      transitivity (mmm n (fun i j => fadd (fmul f1 (ident i j)) (fmul (fopp f1) (E i j))) (trp K) a b).
      - apply mmm_ext; try assumption; [|reflexivity]. intros ? ? _ _. ring.
      - rewrite mmm_lin_l, mmm_ident_l by exact Ha. reflexivity. }
    rewrite Q by assumption. unfold Z. ring. }
  assert (YZ : eqm n Y (fun i j => fadd (Z i j) (mmm n E Y i j))).
  { intros i j Hi Hj. rewrite <- (KAD i j Hi Hj).
    rewrite (mmm_ext n (congr n K A) (fun i j => fadd (fmul f1 (ident i j)) (fmul (fopp f1) (E i j))) Y Y i j Hi Hj); [|intros a b Ha Hb; rewrite EC by assumption; ring|reflexivity].
    rewrite mmm_lin_l, mmm_ident_l by exact Hi. ring. }
  assert (SZ : small n Z (e * k)).
  { apply (small_ext n (fun i j => fadd (fmul (fopp f1) (mmm n E (trp K) i j)) (fmul f0 (mmm n E (trp K) i j)))); [intros i j _ _; unfold Z; ring|].
    assert (SM : small n (mmm n E (trp K)) (e * k)) by (apply small_mul; assumption).
    replace (e * k) with (1 * (e * k) + 0 * (e * k)) by lra. apply small_lin; try assumption; try nra.
    - rewrite toR_opp, toR_1, Rabs_Ropp, Rabs_R1. lra.
    - rewrite toR_0, Rabs_R0. lra. }
  pose proof (small_neumann n E Y Z e (e * k) (proj2 He) (proj1 He) SE SZ YZ) as SY.
  assert (DK : eqm n D (mmm n K Y)) by (unfold Y; rewrite <- AS, L1, idl; reflexivity).
  assert (N0 : 0 <= e * k / (1 - e)) by (apply Rmult_le_pos; [nra|left; apply Rinv_0_lt_compat; lra]).
  pose proof (small_mul n K Y k _ N0 S1 SY) as SD. apply (small_ext n _ D) in SD; [|symmetry; exact DK].
  intros i j Hi Hj. pose proof (small_entry n D _ i j SD Hi Hj) as B. unfold D in B. rewrite toR_sub in B.
  change (mmm n K (trp K) i j) with (mmt n K K i j) in B. replace (k * k * e / (1 - e)) with (k * (e * k / (1 - e))) by (field; lra). exact B.
Qed.

End Small.
