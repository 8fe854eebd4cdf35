(** Signs of the accumulated statistics: specification and lemmas. *)

From Coq Require Import List Arith Lia Bool ZArith Field Reals Lra.
From Verif Require Import Scalar Res Tensor TensorFacts Structures StructSpec StructDense StructOps StructAct OptimUtils Optimizer Construct OptState OptRun OptFacts RealOrd OptTyped OptPre.
Import ListNotations.
Open Scope nat_scope.

(** ** Specification *)
Section PsdSpec.
Context {SC : Scalar} {OR : Ordered SC}.

(** x^T M x. *)
Definition quad (n : nat) (M : nat -> nat -> F) (x : nat -> F) : F := sum n (fun i => sum n (fun j => fmul (x i) (fmul (M i j) (x j)))).
Definition psd (n : nat) (M : nat -> nat -> F) : Prop := forall x, (0 <= toR (quad n M x))%R.
Definition diag_nonneg (n : nat) (M : nat -> nat -> F) : Prop := forall i, i < n -> (0 <= toR (M i i))%R.

(** The structures that keep whole principal blocks. *)
Definition principal (c : cls) : Prop := match c with CDense | CDiag | CBlock _ => True | _ => False end.

End PsdSpec.

Section PsdFacts.
Context {SC : Scalar} {FL : FieldLaws SC} {OR : Ordered SC}.
Add Field FFpsd : F_ft.
Open Scope F_scope.

Lemma toR_sum_nonneg n f : (forall i, (i < n)%nat -> (0 <= toR (f i))%R) -> (0 <= toR (sum n f))%R.
Proof. intros H. rewrite toR_sum. apply rsum_nonneg. exact H. Qed.
Lemma toR_sq x : (0 <= toR (x * x))%R.
Proof. rewrite toR_mul. apply Rle_0_sqr. Qed.

Lemma gram_diag N X n : diag_nonneg n (gram N X).
Proof. intros i _. unfold gram. apply toR_sum_nonneg. intros k _. apply toR_sq. Qed.

Lemma diag_avg_nonneg n M : n <> O -> diag_nonneg n M -> (0 <= toR (diag_avg n M 0))%R.
Proof.
  intros Hn H. cbn [diag_avg]. destruct n as [|n]; [contradiction|]. rewrite toR_div by apply fofnat_S_neq0. rewrite toR_ofnat.
  apply Rmult_le_pos; [apply toR_sum_nonneg; exact H|]. apply Rlt_le, Rinv_0_lt_compat. apply lt_0_INR. lia.
Qed.

(** All structures keep or average the diagonal. *)
Lemma proj_diag c : forall n M, diag_nonneg n M -> diag_nonneg n (proj c n M).
Proof.
  induction c as [| |D|k1 k2| | |sd ma mc a IHa b IHb]; intros n M H i Hi; cbn [proj].
  - apply H; exact Hi.
  - rewrite Nat.eqb_refl. apply H; exact Hi.
  - rewrite Nat.eqb_refl. apply H; exact Hi.
  - destruct (hier_parts k1 k2 n) as [[K1 d] K2]. rewrite Nat.eqb_refl. destruct (Nat.ltb_spec i K1); [apply H; exact Hi|].
    destruct (Nat.ltb_spec i (K1 + d)); apply H; exact Hi.
  - rewrite Nat.leb_refl, Nat.sub_diag. apply diag_avg_nonneg; [lia|exact H].
  - rewrite Nat.leb_refl, Nat.sub_diag. apply diag_avg_nonneg; [lia|exact H].
  - set (k := boundary n ma mc). destruct (Nat.ltb_spec i k).
    + apply IHa; [|assumption]. intros j Hj. apply H. assert (k <= n)%nat by (unfold k, boundary; destruct ma, mc; lia). lia.
    + apply IHb; [|lia]. intros j Hj. apply H. lia.
Qed.

(** The part of a Gram matrix on the classes of a partition. *)
Lemma partition_psd n N X (f : nat -> nat) :
  (forall i, (i < n)%nat -> (f i < n)%nat) ->
  psd n (fun i j => if Nat.eqb (f i) (f j) then gram N X i j else 0).
Proof.
  intros Hf x. assert (E : quad n (fun i j => if Nat.eqb (f i) (f j) then gram N X i j else 0) x =
    sum N (fun k => sum n (fun b => sum n (fun i => if Nat.eqb (f i) b then x i * X i k else 0) * sum n (fun j => if Nat.eqb (f j) b then x j * X j k else 0)))).
  { transitivity (sum n (fun i => sum n (fun j => sum N (fun k => sum n (fun b => (if Nat.eqb (f i) b then x i * X i k else 0) * (if Nat.eqb (f j) b then x j * X j k else 0)))))).
    - unfold quad. apply sum_ext. intros i Hi. apply sum_ext. intros j Hj.
      transitivity (sum N (fun k => if Nat.eqb (f i) (f j) then x i * X i k * (x j * X j k) else 0)).
      + destruct (Nat.eqb (f i) (f j)); [|rewrite sum_0 by reflexivity; ring]. unfold gram. rewrite <- sum_scale_r, <- sum_scale_l.
        apply sum_ext. intros k _. ring.
      + apply sum_ext. intros k _. rewrite (sum_single n (f i)).
        * rewrite Nat.eqb_refl. rewrite (Nat.eqb_sym (f j) (f i)). destruct (Nat.eqb (f i) (f j)); ring.
        * apply Hf; exact Hi.
        * intros b _ Nb. destruct (Nat.eqb_spec (f i) b) as [<-|]; [contradiction|]. ring.
    - transitivity (sum n (fun i => sum N (fun k => sum n (fun j => sum n (fun b => (if Nat.eqb (f i) b then x i * X i k else 0) * (if Nat.eqb (f j) b then x j * X j k else 0)))))).
      { apply sum_ext. intros i _. apply sum_swap. }
      rewrite sum_swap. apply sum_ext. intros k _.
      transitivity (sum n (fun i => sum n (fun b => sum n (fun j => (if Nat.eqb (f i) b then x i * X i k else 0) * (if Nat.eqb (f j) b then x j * X j k else 0))))).
      { apply sum_ext. intros i _. apply sum_swap. }
      rewrite sum_swap. apply sum_ext. intros b _. rewrite <- sum_scale_r. apply sum_ext. intros i _. apply sum_scale_l. }
  rewrite E. apply toR_sum_nonneg. intros k _. apply toR_sum_nonneg. intros b _. apply toR_sq.
Qed.

Lemma quad_ext n M M' x : (forall i j, (i < n)%nat -> (j < n)%nat -> M i j = M' i j) -> quad n M x = quad n M' x.
Proof. intros H. unfold quad. apply sum_ext. intros i Hi. apply sum_ext. intros j Hj. rewrite H by assumption. reflexivity. Qed.

Lemma proj_psd c n N X : cls_ok c -> principal c -> psd n (proj c n (gram N X)).
Proof.
  intros OK P x. destruct c as [| |D| | | |]; try contradiction; cbn in OK.
  - destruct n as [|n]; [cbn; rewrite toR_0; lra|].
    rewrite (quad_ext _ _ (fun i j => if Nat.eqb ((fun _ : nat => O) i) ((fun _ : nat => O) j) then gram N X i j else 0)) by reflexivity.
    apply (partition_psd (S n) N X (fun _ => O)). intros; lia.
  - apply (partition_psd n N X (fun i => i)). auto.
  - apply (partition_psd n N X (fun i => (i / D)%nat)). intros i Hi. eapply Nat.le_lt_trans; [|exact Hi]. apply Nat.div_le_upper_bound; [exact OK|]. nia.
Qed.

(** ** All reachable states *)

Lemma stats_signs a par c st0 es m g cK cC dK dC :
  setting a par c st0 -> wf_run c es st0 -> In m (c_mods c) ->
  get_group c (s_groups st0) m = Ok g -> g_structs g = (Some cK, Some cC) -> preconditioner_dims (m_layer m) = Ok (dK, dC) ->
  let s := s_slots (run c es st0) (m_key m) in
  (forall H, sl_HK s = Some H -> diag_nonneg dK (ent H) /\ (principal cK -> psd dK (ent H))) /\
  (forall H, sl_HC s = Some H -> diag_nonneg dC (ent H) /\ (principal cC -> psd dC (ent H))).
Proof.
  intros SE W Hm Eg Es Ed s. pose proof (setting_ok _ _ _ _ SE) as [[NK NP] L]. destruct SE as ((h & h' & E) & _ & _ & _ & SO).
  destruct (ctor_typed _ _ _ _ _ _ E NK SO L) as (TO & TA & M).
  assert (Et : ctor_ty c (s_groups st0) m = (cK, cC, dK, dC)) by (unfold ctor_ty; rewrite Eg, Ed, Es; reflexivity).
  destruct (run_all_typed c _ es st0 TO NK TA W) as [[TR _] _]. specialize (TR m Hm). unfold mod_typed in TR. rewrite Et in TR. fold s in TR.
  assert (St0 : stats_of cK cC dK dC (s_slots st0 (m_key m))).
  { destruct (M m Hm) as (g' & cK' & cC' & dK' & dC' & K & C & _ & _ & _ & _ & _ & _ & _ & _ & _ & X1 & X2). split; intros ? ? _ X; congruence. }
  pose proof (run_stats c _ es st0 m cK cC dK dC TO NK TA W Hm Et St0) as [S1 S2]. fold s in S1, S2.
  pose proof (TO m Hm) as TOm. rewrite Et in TOm. destruct TOm as ((OK & _) & (OC & _) & _).
  destruct TR as [(K & EK & _) (C & EC & _) _ _ _ _]. split; intros H EH.
  - destruct (S1 K H EK EH) as (N & A & HA). split.
    + intros i Hi. rewrite HA by assumption. apply proj_diag; [|exact Hi]. apply gram_diag.
    + intros P x. rewrite (quad_ext _ _ _ x HA). apply proj_psd; assumption.
  - destruct (S2 C H EC EH) as (N & A & HA). split.
    + intros i Hi. rewrite HA by assumption. apply proj_diag; [|exact Hi]. apply gram_diag.
    + intros P x. rewrite (quad_ext _ _ _ x HA). apply proj_psd; assumption.
Qed.

(** The factors of the other side's statistics in the update (optimizer.py:495-515) are not negative. *)
Lemma trace_nonneg n M : diag_nonneg n M -> (0 <= toR (sum n (fun i => M i i)))%R.
Proof. intros H. apply toR_sum_nonneg. exact H. Qed.

End PsdFacts.
