(** Lemmas: structures that extract the same matrices, up to a change of basis. *)

From Coq Require Import List Arith Lia Bool ZArith Field Reals Lra.
From Verif Require Import Scalar Res Tensor TensorFacts Structures StructSpec StructDense OptimUtils Optimizer OptSpec OptFacts RealOrd RotateSpec Rotate.
Import ListNotations.
Open Scope nat_scope.

Section Swap.
Context {SC : Scalar} {FL : FieldLaws SC}.
Add Field FFsw : F_ft.
Open Scope F_scope.

Lemma monomial_col n Q a b i : monomial n Q -> (a < n)%nat -> (b < n)%nat -> (i < n)%nat -> Q a i <> 0 -> b <> a -> Q b i = 0.
Proof.
  intros MO Ha Hb Hi N D. destruct (MO i b a Hi Hb Ha D) as [E _]. destruct (feqb_spec (Q b i) 0) as [[X _]|[X _]]; [exact X|].
  exfalso. apply (fmul_neq0 _ _ X N). exact E.
Qed.
Lemma monomial_row n Q a i j : monomial n Q -> (a < n)%nat -> (i < n)%nat -> (j < n)%nat -> Q a i <> 0 -> j <> i -> Q a j = 0.
Proof.
  intros MO Ha Hi Hj N D. destruct (MO a j i Ha Hj Hi D) as [_ E]. destruct (feqb_spec (Q a j) 0) as [[X _]|[X _]]; [exact X|].
  exfalso. apply (fmul_neq0 _ _ X N). exact E.
Qed.

Lemma sum_some n f : sum n f <> 0 -> exists k, (k < n)%nat /\ f k <> 0.
Proof.
  induction n as [|n IH]; cbn [sum]; intros H; [exfalso; apply H; reflexivity|].
  destruct (feqb_spec (f n) 0) as [[E _]|[N _]]; [|exists n; split; [lia|exact N]].
  destruct IH as (k & Hk & Nk); [|exists k; split; [lia|exact Nk]]. intros X. apply H. rewrite X, E. ring.
Qed.

Lemma square_neq0 x : x * x <> 0 -> x <> 0.
Proof. intros H ->. apply H. ring. Qed.

(** The entry of a column / a row of a signed permutation that is not zero. *)
Lemma perm_col n Q i : orth n Q -> monomial n Q -> (i < n)%nat ->
  exists a, (a < n)%nat /\ Q a i * Q a i = 1 /\ forall b, (b < n)%nat -> b <> a -> Q b i = 0.
Proof.
  intros [O _] MO Hi. pose proof (O i i Hi Hi) as E. unfold tmm, ident in E. rewrite Nat.eqb_refl in E.
  destruct (sum_some n (fun k => Q k i * Q k i)) as (a & Ha & Na); [rewrite E; apply (F_1_neq_0 F_ft)|].
  apply square_neq0 in Na. assert (Z : forall b, (b < n)%nat -> b <> a -> Q b i = 0) by (intros b Hb Nb; apply (monomial_col n Q a b i); assumption).
  exists a. split; [exact Ha|]. split; [|exact Z]. rewrite <- E. symmetry. apply (sum_single n a (fun k => Q k i * Q k i) Ha). intros b Hb Nb. rewrite (Z b Hb Nb). ring.
Qed.
Lemma perm_row n Q a : orth n Q -> monomial n Q -> (a < n)%nat ->
  exists i, (i < n)%nat /\ Q a i * Q a i = 1 /\ forall b, (b < n)%nat -> b <> a -> Q b i = 0.
Proof.
  intros [_ O] MO Ha. pose proof (O a a Ha Ha) as E. unfold mmt, ident in E. rewrite Nat.eqb_refl in E.
  destruct (sum_some n (fun k => Q a k * Q a k)) as (i & Hi & Ni); [rewrite E; apply (F_1_neq_0 F_ft)|].
  apply square_neq0 in Ni. exists i. split; [exact Hi|]. split; [|intros b Hb Nb; apply (monomial_col n Q a b i); assumption].
  rewrite <- E. symmetry. apply (sum_single n i (fun k => Q a k * Q a k) Hi). intros j Hj Nj. rewrite (monomial_row n Q a i j MO Ha Hi Hj Ni Nj). ring.
Qed.
Lemma turn_perm n Q M i j a b : (a < n)%nat -> (b < n)%nat -> (forall k, (k < n)%nat -> k <> a -> Q k i = 0) -> (forall k, (k < n)%nat -> k <> b -> Q k j = 0) ->
  turn n Q M i j = Q a i * M a b * Q b j.
Proof.
  intros Ha Hb Za Zb. unfold turn. rewrite (sum_single n a) by (try exact Ha; intros k Hk Nk; apply sum_0; intros l _; rewrite (Za k Hk Nk); ring).
  rewrite (sum_single n b) by (try exact Hb; intros k Hk Nk; rewrite (Zb k Hk Nk); ring). reflexivity.
Qed.

Section Norm.
Context {OR : Ordered SC}.
Lemma unit_R x : x * x = 1 -> Rabs (toR x) = 1%R.
Proof.
  intros E. assert (H : (toR x * toR x = 1)%R) by (rewrite <- toR_mul, E; apply toR_1).
  destruct (Rcase_abs (toR x)) as [L|G]; unfold Rabs; destruct (Rcase_abs (toR x)); nra.
Qed.

Lemma normal_perm c c' n Q : cls_ok c -> cls_ok c' -> n <> O -> orth n Q -> monomial n Q -> normal c c' n Q.
Proof.
  intros K K' Nn O MO s s' V V' E. destruct (infinity_norm_R c n s K V Nn) as (v & -> & U & (i0 & j0 & Hi0 & Hj0 & A)).
  destruct (infinity_norm_R c' n s' K' V' Nn) as (v' & -> & U' & (i1 & j1 & Hi1 & Hj1 & A')).
  f_equal. apply toR_inj. apply Rle_antisym.
  - rewrite <- A'. rewrite E by assumption. destruct (perm_col n Q i1 O MO Hi1) as (a & Ha & Ua & Za). destruct (perm_col n Q j1 O MO Hj1) as (b & Hb & Ub & Zb).
    rewrite (turn_perm n Q _ i1 j1 a b Ha Hb Za Zb), !toR_mul, !Rabs_mult, (unit_R _ Ua), (unit_R _ Ub). pose proof (U a b Ha Hb). lra.
  - rewrite <- A. destruct (perm_row n Q i0 O MO Hi0) as (i & Hi & Ui & Zi). destruct (perm_row n Q j0 O MO Hj0) as (j & Hj & Uj & Zj).
    pose proof (U' i j Hi Hj) as B. rewrite E in B by assumption.
    rewrite (turn_perm n Q _ i j i0 j0 Hi0 Hj0 Zi Zj), !toR_mul, !Rabs_mult, (unit_R _ Ui), (unit_R _ Uj) in B. lra.
Qed.
End Norm.

(** ** The given basis *)

Lemma turn_id n Q M : eqr n n Q ident -> eqm n (turn n Q M) M.
Proof.
  intros H i j Hi Hj. rewrite (turn_perm n Q M i j i j Hi Hj).
  - rewrite !H by assumption. unfold ident. rewrite !Nat.eqb_refl. ring.
  - intros k Hk N. rewrite H by assumption. apply ident_neq. exact N.
  - intros k Hk N. rewrite H by assumption. apply ident_neq. exact N.
Qed.
Lemma alike_id c c' n Q : eqr n n Q ident -> like c c' n -> (forall M, eqm n (proj c' n M) (proj c n M)) -> alike c c' n Q.
Proof.
  intros H L P. split; [exact L|]. intros M i j Hi Hj. rewrite (turn_id n Q _ H) by assumption. rewrite <- (P M) by assumption.
  apply proj_ext; try assumption. intros p q Hp Hq. apply (turn_id n Q M H); assumption.
Qed.

Lemma proj_hier k1 k2 n M : (n <= k1)%nat -> eqm n (proj (CHier k1 k2) n M) M.
Proof.
  intros H i j Hi Hj. cbn [proj]. unfold hier_parts. rewrite Nat.min_r by exact H.
  destruct (Nat.ltb_spec i n); [|lia]. destruct (Nat.ltb_spec j n); [reflexivity|lia].
Qed.
Lemma proj_one c M : In c [CDense; CDiag; CBlock 30; CHier 15 15; CTril; CTriu] -> eqm 1 (proj c 1 M) M.
Proof.
  intros H i j Hi Hj. replace i with O by lia. replace j with O by lia.
  assert (D : sum 1 (fun r => M r r) / fofnat 1 = M O O) by (cbn [sum]; rewrite fofnat_1; field; apply (F_1_neq_0 F_ft)).
  destruct H as [<-|[<-|[<-|[<-|[<-|[<-|[]]]]]]]; try reflexivity; exact D.
Qed.
Lemma coincide_like c c' n : coincide c c' n -> like c c' n /\ forall M, eqm n (proj c' n M) (proj c n M).
Proof.
  intros [->|[[-> H]|[L H]]].
  - split; [left; reflexivity|]. intros M i j _ _. reflexivity.
  - inversion_clear H as [|? ? H1 H2]. inversion_clear H2 as [|? ? H3 _]. split; [right; lia|]. intros M i j Hi Hj. rewrite (proj_one c' M H3), (proj_one c M H1) by assumption. reflexivity.
  - inversion_clear H as [|? ? H1 H2]. inversion_clear H2 as [|? ? H3 _].
    assert (P : forall k, In k [CDense; CHier 15 15] -> blocks k = false /\ forall M, eqm n (proj k n M) M).
    { intros k [<-|[<-|[]]]; (split; [reflexivity|]); intros M; [intros i j _ _; reflexivity|apply proj_hier; exact L]. }
    destruct (P c H1) as [B1 P1]. destruct (P c' H3) as [B2 P2]. split; [left; congruence|]. intros M i j Hi Hj. rewrite P1, P2 by assumption. reflexivity.
Qed.

(** ** The features in reverse order *)

Lemma mirror_val n i j : (i < n)%nat -> (j < n)%nat -> j <> (n - 1 - i)%nat -> mirror n i j = 0.
Proof. intros Hi Hj N. unfold mirror. destruct (Nat.eqb_spec (i + j + 1)%nat n); [lia|reflexivity]. Qed.
Lemma mirror_one n i : (i < n)%nat -> mirror n (n - 1 - i)%nat i = 1 /\ mirror n i (n - 1 - i)%nat = 1.
Proof. intros Hi. unfold mirror. destruct (Nat.eqb_spec (n - 1 - i + i + 1)%nat n); [|lia]. destruct (Nat.eqb_spec (i + (n - 1 - i) + 1)%nat n); [|lia]. split; reflexivity. Qed.
Lemma turn_mirror n M i j : (i < n)%nat -> (j < n)%nat -> turn n (mirror n) M i j = M (n - 1 - i)%nat (n - 1 - j)%nat.
Proof.
  intros Hi Hj. rewrite (turn_perm n (mirror n) M i j (n - 1 - i)%nat (n - 1 - j)%nat); try lia.
  - destruct (mirror_one n i Hi) as [-> _]. destruct (mirror_one n j Hj) as [-> _]. ring.
  - intros k Hk N. apply mirror_val; lia.
  - intros k Hk N. apply mirror_val; lia.
Qed.
Lemma mirror_monomial n : monomial n (mirror n).
Proof.
  intros i a b Hi Ha Hb N. split.
  - destruct (Nat.eq_dec a (n - 1 - i)%nat) as [->|Na]; [rewrite (mirror_val n b i) by lia; ring|rewrite (mirror_val n a i) by lia; ring].
  - destruct (Nat.eq_dec a (n - 1 - i)%nat) as [->|Na]; [rewrite (mirror_val n i b) by lia; ring|rewrite (mirror_val n i a) by lia; ring].
Qed.
Lemma mirror_orth n : orth n (mirror n).
Proof.
  split; intros i j Hi Hj; [unfold tmm|unfold mmt]; (rewrite (sum_single n (n - 1 - i)%nat); [|lia|intros k Hk N]).
  - destruct (mirror_one n i Hi) as [-> _]. unfold ident. destruct (Nat.eqb_spec i j) as [->|N]; [destruct (mirror_one n j Hj) as [-> _]; ring|rewrite mirror_val by lia; ring].
  - rewrite (mirror_val n k i) by lia. ring.
  - destruct (mirror_one n i Hi) as [_ ->]. unfold ident. destruct (Nat.eqb_spec i j) as [->|N]; [destruct (mirror_one n j Hj) as [_ ->]; ring|rewrite mirror_val by lia; ring].
  - rewrite (mirror_val n i k) by lia. ring.
Qed.

Lemma diag_avg_mirror n M k : (k < n)%nat -> diag_avg n (turn n (mirror n) M) k = diag_avg n M k.
Proof.
  intros Hk. destruct k as [|k]; cbn [diag_avg].
  - f_equal. rewrite <- (sum_rev n (fun r => M r r)). apply sum_ext. intros r Hr. apply turn_mirror; assumption.
  - f_equal. set (d := (n - S k)%nat). rewrite <- (sum_rev d (fun r => M r (r + S k)%nat + M (r + S k)%nat r)). apply sum_ext. intros r Hr. unfold d in Hr.
    rewrite !turn_mirror by lia.
    replace (n - 1 - r)%nat with (d - 1 - r + S k)%nat by (unfold d; lia). replace (n - 1 - (r + S k))%nat with (d - 1 - r)%nat by (unfold d; lia). ring.
Qed.

Lemma mirrored_alike c c' n : mirrored c c' -> alike c c' n (mirror n).
Proof.
  intros H. destruct c; cbn in H; try contradiction; subst c'.
  - apply stable_alike, stable_dense.
  - apply stable_alike, stable_diag, mirror_monomial.
  - split; [left; reflexivity|]. intros M i j Hi Hj. rewrite (turn_mirror n (proj CTril n M)) by assumption. cbn [proj].
    destruct (Nat.leb_spec i j), (Nat.leb_spec (n - 1 - j)%nat (n - 1 - i)%nat); try lia; [|reflexivity].
    rewrite diag_avg_mirror by lia. f_equal. lia.
  - split; [left; reflexivity|]. intros M i j Hi Hj. rewrite (turn_mirror n (proj CTriu n M)) by assumption. cbn [proj].
    destruct (Nat.leb_spec j i), (Nat.leb_spec (n - 1 - i)%nat (n - 1 - j)%nat); try lia; [|reflexivity].
    rewrite diag_avg_mirror by lia. f_equal. lia.
Qed.
Lemma alike_eqr c c' n Q Q' : eqr n n Q Q' -> alike c c' n Q' -> alike c c' n Q.
Proof.
  intros E [L H]. split; [exact L|]. intros M i j Hi Hj.
  assert (T : forall N, eqr n n (turn n Q N) (turn n Q' N)).
  { intros N p q Hp Hq. unfold turn. apply sum_ext. intros x Hx. apply sum_ext. intros y Hy. rewrite !E by assumption. reflexivity. }
  rewrite (T (proj c n M)) by assumption. rewrite <- (H M) by assumption. apply proj_ext; try assumption. apply T.
Qed.

End Swap.
