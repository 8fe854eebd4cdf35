(** Scalars that are (a subfield of) the real numbers: statements about signs, absolute values and
    norms for the real numbers and for the executable rationals alike. *)

From Coq Require Import List Arith Lia Bool Field Ring QArith Qcanon Qreals Reals Lra.
From Verif Require Import Scalar Res Tensor TensorFacts Structures StructSpec StructNorm Optimizer OptFacts.
Import ListNotations.
Open Scope nat_scope.

(** The scalars are real numbers, with the order [fltb]. *)
Class Ordered (SC : Scalar) : Type := {
  toR : F -> R;
  toR_0 : toR f0 = 0%R;
  toR_1 : toR f1 = 1%R;
  toR_add : forall x y, toR (fadd x y) = (toR x + toR y)%R;
  toR_mul : forall x y, toR (fmul x y) = (toR x * toR y)%R;
  toR_lt : forall x y, fltb x y = true <-> (toR x < toR y)%R
}.

Global Instance R_ord : Ordered R_scalar.
Proof.
  refine (Build_Ordered R_scalar (fun x => x) eq_refl eq_refl (fun _ _ => eq_refl) (fun _ _ => eq_refl) _).
  intros x y. apply Rltb_true.
Defined.

Definition Qc_toR (x : Qc) : R := Q2R (this x).
Lemma Q2Qc_toR q : Qc_toR (Q2Qc q) = Q2R q.
Proof. unfold Qc_toR. apply Qeq_eqR. cbn. apply Qred_correct. Qed.

Global Instance Q_ord : Ordered Q_scalar.
Proof.
  refine (Build_Ordered Q_scalar Qc_toR _ _ _ _ _).
  - cbn [f0 Q_scalar]. rewrite Q2Qc_toR. apply RMicromega.Q2R_0.
  - cbn [f1 Q_scalar]. rewrite Q2Qc_toR. apply RMicromega.Q2R_1.
  - intros x y. cbn [fadd Q_scalar]. unfold Qcplus. rewrite Q2Qc_toR. apply Q2R_plus.
  - intros x y. cbn [fmul Q_scalar]. unfold Qcmult. rewrite Q2Qc_toR. apply Q2R_mult.
  - intros x y. cbn [fltb Q_scalar]. unfold Qcltb, Qc_toR. split.
    + intros H. apply negb_true_iff in H. apply Qlt_Rlt. apply Qnot_le_lt. intros L. apply Qle_bool_iff in L. congruence.
    + intros H. apply negb_true_iff. destruct (Qle_bool (this y) (this x)) eqn:E; [|reflexivity]. apply Qle_bool_iff in E.
      apply Qle_Rle in E. exfalso. apply (Rlt_irrefl (Q2R (this x))). eapply Rlt_le_trans; eassumption.
Defined.

Section Ord.
Context {SC : Scalar} {FL : FieldLaws SC} {OR : Ordered SC}.
Add Field Ffro : F_ft.
Open Scope R_scope.

Lemma toR_opp x : toR (fopp x) = - toR x.
Proof. assert (H : toR (fadd x (fopp x)) = 0) by (rewrite <- toR_0; f_equal; ring). rewrite toR_add in H. lra. Qed.
Lemma toR_sub x y : toR (fsub x y) = toR x - toR y.
Proof. replace (fsub x y) with (fadd x (fopp y)) by ring. rewrite toR_add, toR_opp. reflexivity. Qed.
Lemma toR_neq0 x : x <> f0 -> toR x <> 0.
Proof.
  intros H E. assert (P : toR (fmul x (finv x)) = 1) by (rewrite <- toR_1; f_equal; field; exact H). rewrite toR_mul, E in P. lra.
Qed.
Lemma toR_inj x y : toR x = toR y -> x = y.
Proof.
  intros H. destruct (feqb (fsub x y) f0) eqn:E.
  - apply feqb_iff in E. transitivity (fadd (fsub x y) y); [ring|]. rewrite E. ring.
  - exfalso. apply (toR_neq0 (fsub x y)); [|rewrite toR_sub; lra]. intros E'. apply feqb_iff in E'. congruence.
Qed.
Lemma toR_div x y : y <> f0 -> toR (fdiv x y) = toR x / toR y.
Proof.
  intros H. pose proof (toR_neq0 y H) as N. assert (P : toR (fmul (fdiv x y) y) = toR x) by (f_equal; field; exact H). rewrite toR_mul in P.
  apply (Rmult_eq_reg_r (toR y)); [|exact N]. rewrite P. unfold Rdiv. rewrite Rmult_assoc, Rinv_l by exact N. ring.
Qed.
Lemma toR_nlt x y : fltb x y = false <-> toR y <= toR x.
Proof.
  split; intros H.
  - destruct (Rle_or_lt (toR y) (toR x)) as [|L]; [assumption|]. apply toR_lt in L. congruence.
  - destruct (fltb x y) eqn:E; [|reflexivity]. apply toR_lt in E. lra.
Qed.
Lemma toR_abs x : toR (fabs x) = Rabs (toR x).
Proof.
  unfold fabs. destruct (fltb x f0) eqn:E.
  - apply toR_lt in E. rewrite toR_0 in E. rewrite Rabs_left by exact E. apply toR_opp.
  - apply toR_nlt in E. rewrite toR_0 in E. rewrite Rabs_right by lra. reflexivity.
Qed.
Lemma toR_max x y : toR (fmax x y) = Rmax (toR x) (toR y).
Proof.
  unfold fmax. destruct (fltb x y) eqn:E.
  - apply toR_lt in E. rewrite Rmax_right by lra. reflexivity.
  - apply toR_nlt in E. rewrite Rmax_left by lra. reflexivity.
Qed.
Lemma toR_ofnat n : toR (fofnat n) = INR n.
Proof. induction n; [exact toR_0|]. cbn [fofnat]. rewrite toR_add, IHn, toR_1, S_INR. reflexivity. Qed.

(** Sums of real numbers. *)
Fixpoint rsum (n : nat) (f : nat -> R) : R := match n with O => 0 | S k => rsum k f + f k end.

Lemma toR_sum n f : toR (sum n f) = rsum n (fun i => toR (f i)).
Proof. induction n; [exact toR_0|]. cbn [sum rsum]. rewrite toR_add, IHn. reflexivity. Qed.
Lemma rsum_ext n f g : (forall i, (i < n)%nat -> f i = g i) -> rsum n f = rsum n g.
Proof. induction n; intros H; [reflexivity|]. cbn [rsum]. rewrite IHn, (H n) by auto. reflexivity. Qed.
Lemma rsum_abs n f b : (forall i, (i < n)%nat -> Rabs (f i) <= b) -> Rabs (rsum n f) <= INR n * b.
Proof.
  induction n; intros H; cbn [rsum].
  - rewrite Rabs_R0. cbn. lra.
  - rewrite S_INR. eapply Rle_trans; [apply Rabs_triang|]. assert (Rabs (rsum n f) <= INR n * b) by (apply IHn; auto).
    specialize (H n (Nat.lt_succ_diag_r n)). lra.
Qed.
Lemma rsum_nonneg n f : (forall i, (i < n)%nat -> 0 <= f i) -> 0 <= rsum n f.
Proof. induction n; intros H; cbn [rsum]; [lra|]. assert (0 <= rsum n f) by auto. specialize (H n (Nat.lt_succ_diag_r n)). lra. Qed.

(** [m] is the largest absolute value of [l]. *)
Definition absmax (l : list F) (m : F) : Prop :=
  (forall x, In x l -> Rabs (toR x) <= toR m) /\ (exists x, In x l /\ Rabs (toR x) = toR m).

Lemma absmax_max l l' m m' : absmax l m -> absmax l' m' -> absmax (l ++ l') (fmax m m').
Proof.
  intros [H1 (z & Hz & E)] [H2 (z' & Hz' & E')]. unfold absmax. rewrite toR_max. split.
  - intros w Hw. apply in_app_iff in Hw as [Hw|Hw].
    + eapply Rle_trans; [apply H1; exact Hw|apply Rmax_l].
    + eapply Rle_trans; [apply H2; exact Hw|apply Rmax_r].
  - destruct (Rle_dec (toR m) (toR m')).
    + exists z'. split; [apply in_app_iff; right; exact Hz'|]. rewrite Rmax_right; assumption.
    + exists z. split; [apply in_app_iff; left; exact Hz|]. rewrite Rmax_left; [exact E|lra].
Qed.
Lemma absmax_one x : absmax [x] (fabs x).
Proof. unfold absmax. rewrite toR_abs. split; [intros w [<-|[]]; lra|]. exists x. split; [left; reflexivity|reflexivity]. Qed.

Lemma t_absmax_R (t : tensor) : numel t <> O -> exists m, t_absmax t = Ok m /\ absmax (data t) m.
Proof.
  intros N0. unfold t_absmax. pose proof (data_length t) as L. destruct (data t) as [|x l]; [simpl in L; lia|]. clear L.
  eexists. split; [reflexivity|].
  assert (G : forall (l : list F) m l0, absmax l0 m -> absmax (l0 ++ l) (fold_left (fun m y => fmax m (fabs y)) l m)).
  { clear - FL OR. induction l as [|y l]; intros m l0 H.
    - rewrite app_nil_r. exact H.
    - cbn [fold_left]. change (l0 ++ y :: l) with (l0 ++ [y] ++ l). rewrite app_assoc. apply IHl. apply absmax_max; [exact H|apply absmax_one]. }
  apply (G l (fabs x) [x]). apply absmax_one.
Qed.

Lemma absmax_listR (ts : list tensor) :
  (forall t, In t ts -> numel t <> O) -> exists ms, mapM t_absmax ts = Ok ms /\ Forall2 (fun t m => absmax (data t) m) ts ms.
Proof.
  induction ts as [|t ts]; intros H.
  - exists []. split; [reflexivity|constructor].
  - destruct IHts as (ms & E & HF); [intros; apply H; right; assumption|].
    destruct (t_absmax_R t) as (m & Em & Hm); [apply H; left; reflexivity|].
    exists (m :: ms). cbn [mapM]. rewrite Em. cbn [bind]. rewrite E. cbn [bind]. split; [reflexivity|]. constructor; assumption.
Qed.
Lemma absmax_foldR ts ms : Forall2 (fun (t : tensor) m => absmax (data t) m) ts ms ->
  forall m l0, absmax l0 m -> absmax (l0 ++ flat_map data ts) (fold_left fmax ms m).
Proof.
  induction 1 as [|t m' ts ms H HF IH]; intros m l0 H0.
  - cbn. rewrite app_nil_r. exact H0.
  - cbn [flat_map fold_left]. rewrite app_assoc. apply IH. apply absmax_max; assumption.
Qed.

Lemma filter_dataR (ts : list tensor) : flat_map data (filter (fun t => negb (Nat.eqb (numel t) 0)) ts) = flat_map data ts.
Proof.
  induction ts; [reflexivity|]. cbn [filter]. destruct (Nat.eqb_spec (numel a) 0); cbn [negb flat_map].
  - rewrite IHts. pose proof (data_length a) as L. rewrite e in L. destruct (data a); [reflexivity|discriminate].
  - rewrite IHts. reflexivity.
Qed.

Lemma infinity_norm_R c n s :
  cls_ok c -> valid c n s -> n <> O ->
  exists v, infinity_vector_norm s = Ok v /\
    (forall i j, (i < n)%nat -> (j < n)%nat -> Rabs (toR (ent s i j)) <= toR v) /\
    (exists i j, (i < n)%nat /\ (j < n)%nat /\ Rabs (toR (ent s i j)) = toR v).
Proof.
  intros Hok V Hn. unfold infinity_vector_norm.
  assert (Q : forall t, In t (filter (fun t => negb (Nat.eqb (numel t) 0)) (tensors s)) -> numel t <> O).
  { intros t Ht. apply filter_In in Ht as [_ Ht]. destruct (Nat.eqb_spec (numel t) 0); [discriminate|assumption]. }
  destruct (absmax_listR _ Q) as (ms & E & HF). rewrite E. cbn [bind].
  pose proof (filter_dataR (tensors s)) as FD. fold (alldata s) in FD.
  destruct (ent_in c n s 0 0 Hok V) as [I0|[_ X]]; try lia.
  destruct HF as [|t m ts ms Hm HF].
  { rewrite <- FD in I0. contradiction. }
  exists (fold_left fmax ms m). split; [reflexivity|].
  pose proof (absmax_foldR ts ms HF m (data t) Hm) as G.
  change (data t ++ flat_map data ts) with (flat_map data (t :: ts)) in G. rewrite FD in G.
  destruct G as [G1 (x & Gx & Ex)]. split.
  - intros i j Hi Hj. destruct (ent_in c n s i j Hok V Hi Hj) as [I|[Z _]]; [apply G1; exact I|].
    rewrite Z, toR_0, Rabs_R0. eapply Rle_trans; [apply Rabs_pos|apply Req_le; exact Ex].
  - destruct (in_ent c n s x Hok V Gx) as (i & j & Hi & Hj & Eij). exists i, j. rewrite Eij. auto.
Qed.

(** The step size of a preconditioner. *)
Lemma rate_R (g : group) beta c n m :
  cls_ok c -> valid c n m -> n <> O ->
  exists b, normalized_lr g beta m = Ok b /\
    (g_normalize g = false -> b = beta) /\
    (g_normalize g = true -> exists v, toR b = toR beta / v /\ 1 <= v /\
       (forall i j, (i < n)%nat -> (j < n)%nat -> Rabs (toR (ent m i j)) <= v) /\
       (v = 1 \/ exists i j, (i < n)%nat /\ (j < n)%nat /\ v = Rabs (toR (ent m i j)))).
Proof.
  intros Hok V Hn. destruct (normalized_lr_total g beta c n m Hok V Hn) as (b & E & H1 & H2). exists b. split; [exact E|]. split; [exact H1|].
  intros Hg. destruct (H2 Hg) as (v & Ev & Eb). destruct (infinity_norm_R c n m Hok V Hn) as (v' & Ev' & B1 & i & j & Hi & Hj & B2).
  rewrite Ev in Ev'. injection Ev' as <-. exists (toR (fmax f1 v)).
  assert (L : 1 <= toR (fmax f1 v)) by (rewrite toR_max, toR_1; apply Rmax_l).
  split. { rewrite Eb. apply toR_div. intros Z. rewrite Z, toR_0 in L. lra. }
  split; [exact L|]. rewrite toR_max, toR_1. split.
  - intros a b' Ha Hb. eapply Rle_trans; [apply B1; assumption|apply Rmax_r].
  - destruct (Rle_dec (toR v) 1); [left; apply Rmax_left; assumption|]. right. exists i, j. rewrite Rmax_right by lra. auto.
Qed.

End Ord.
