(** Lemmas: training in other orthonormal bases of the layers' features. *)

From Coq Require Import List Arith Lia Bool ZArith Field Setoid Morphisms.
From Verif Require Import Scalar Res Tensor TensorFacts Structures StructSpec StructDense StructPattern StructOps StructAct OptimUtils UtilsFacts ProofUtils Optimizer Construct OptState OptRun OptSpec OptFacts OptDir OptTyped OptStep OptPre CtorFacts OptOrder OptFail ProgressSpec Progress Indep LoadFacts Shuffle RotateSpec.
Import ListNotations.

Section Rotate.
Context {SC : Scalar} {FL : FieldLaws SC}.
Add Field FFro : F_ft.
Open Scope F_scope.

(** ** Matrices *)

Definition eqr (n m : nat) (A B : mat) : Prop := forall i j, (i < n)%nat -> (j < m)%nat -> A i j = B i j.
Definition tp (A : mat) : mat := fun i j => A j i.

#[local] Instance eqr_equiv n m : Equivalence (eqr n m).
Proof.
  split.
  - intros A i j _ _. reflexivity.
  - intros A B H i j Hi Hj. symmetry. apply H; assumption.
  - intros A B C H1 H2 i j Hi Hj. rewrite H1 by assumption. apply H2; assumption.
Qed.
#[local] Instance mmm_proper n k m : Proper (eqr n k ==> eqr k m ==> eqr n m) (mmm k).
Proof. intros A A' HA B B' HB i j Hi Hj. unfold mmm. apply sum_ext. intros q Hq. rewrite HA, HB by assumption. reflexivity. Qed.
#[local] Instance tp_proper n m : Proper (eqr n m ==> eqr m n) tp.
Proof. intros A A' HA i j Hi Hj. apply HA; assumption. Qed.

Lemma mmm_assoc n m k l A B C : eqr n m (mmm l (mmm k A B) C) (mmm k A (mmm l B C)).
Proof.
  intros i j _ _. unfold mmm.
  transitivity (sum l (fun q => sum k (fun p => A i p * B p q * C q j))).
  - apply sum_ext. intros q _. rewrite <- sum_scale_r. reflexivity.
  - rewrite sum_swap. apply sum_ext. intros p _. rewrite <- sum_scale_l. apply sum_ext. intros q _. ring.
Qed.
Lemma mmm_id_l n m A : eqr n m (mmm n ident A) A.
Proof. intros i j Hi Hj. unfold mmm. rewrite (sum_single n i); [unfold ident; rewrite Nat.eqb_refl; ring|exact Hi|]. intros k Hk N. unfold ident. destruct (Nat.eqb_spec i k); [congruence|ring]. Qed.
Lemma mmm_id_r n m A : eqr n m (mmm m A ident) A.
Proof. intros i j Hi Hj. unfold mmm. rewrite (sum_single m j); [unfold ident; rewrite Nat.eqb_refl; ring|exact Hj|]. intros k Hk N. unfold ident. destruct (Nat.eqb_spec k j); [congruence|ring]. Qed.
Lemma tp_mmm n m k A B : eqr n m (tp (mmm k A B)) (mmm k (tp B) (tp A)).
Proof. intros i j _ _. unfold tp, mmm. apply sum_ext. intros. ring. Qed.

Lemma turn_mmm n Q M i j : turn n Q M i j = mmm n (tp Q) (mmm n M Q) i j.
Proof. unfold turn, mmm, tp. apply sum_ext. intros a _. rewrite <- sum_scale_l. apply sum_ext. intros b _. ring. Qed.
Lemma turn_eqr n m k Q M : eqr m k (turn n Q M) (mmm n (tp Q) (mmm n M Q)).
Proof. intros i j _ _. apply turn_mmm. Qed.
#[local] Instance turn_proper n Q : Proper (eqr n n ==> eqr n n) (turn n Q).
Proof. intros A B H. rewrite !turn_eqr, H. reflexivity. Qed.

Lemma orth_l n Q : orth n Q -> eqr n n (mmm n (tp Q) Q) ident.
Proof. intros [H _]. exact H. Qed.
Lemma orth_r n Q : orth n Q -> eqr n n (mmm n Q (tp Q)) ident.
Proof. intros [_ H]. exact H. Qed.

Lemma turn_ident n Q : orth n Q -> eqr n n (turn n Q ident) ident.
Proof. intros O. rewrite turn_eqr, mmm_id_l. apply orth_l. exact O. Qed.
Lemma turn_prod n Q A B : orth n Q -> eqr n n (turn n Q (mmm n A B)) (mmm n (turn n Q A) (turn n Q B)).
Proof.
  intros O. rewrite !turn_eqr. rewrite (mmm_assoc n n n n (tp Q)). rewrite (mmm_assoc n n n n A Q).
  rewrite <- (mmm_assoc n n n n Q (tp Q)). rewrite (orth_r n Q O), mmm_id_l. rewrite (mmm_assoc n n n n A B Q). reflexivity.
Qed.
Lemma turn_tp n Q M : eqr n n (turn n Q (tp M)) (tp (turn n Q M)).
Proof. intros i j _ _. unfold turn, tp. rewrite sum_swap. apply sum_ext. intros a _. apply sum_ext. intros b _. ring. Qed.
Lemma turn_add n Q A B a b i j : turn n Q (fun i j => a * A i j + b * B i j) i j = a * turn n Q A i j + b * turn n Q B i j.
Proof.
  unfold turn. rewrite <- !sum_scale_l, <- sum_plus. apply sum_ext. intros p _. rewrite <- !sum_scale_l, <- sum_plus. apply sum_ext. intros q _. ring.
Qed.
Lemma turn_0 n Q i j : turn n Q (fun _ _ => 0) i j = 0.
Proof. unfold turn. apply sum_0. intros. apply sum_0. intros. ring. Qed.

Lemma turn_trace n Q M : orth n Q -> trace n (turn n Q M) = trace n M.
Proof.
  intros O. unfold trace.
  transitivity (sum n (fun i => mmm n (mmm n M Q) (tp Q) i i)).
  - transitivity (sum n (fun i => sum n (fun a => tp Q i a * mmm n M Q a i))); [apply sum_ext; intros; apply turn_mmm|].
    rewrite sum_swap. apply sum_ext. intros a _. unfold mmm at 2. apply sum_ext. intros. ring.
  - apply sum_ext. intros i Hi. pose proof (mmm_assoc n n n n M Q (tp Q) i i Hi Hi) as E. rewrite E.
    assert (E2 : eqr n n (mmm n M (mmm n Q (tp Q))) M) by (rewrite (orth_r n Q O); apply mmm_id_r). apply E2; assumption.
Qed.

Lemma ext_in n Q i j : (i < n)%nat -> (j < n)%nat -> ext n Q i j = Q i j.
Proof. intros Hi Hj. unfold ext. destruct (Nat.ltb_spec i n), (Nat.ltb_spec j n); try lia. reflexivity. Qed.
Lemma ext_new_r n Q i j : (n <= j)%nat -> ext n Q i j = ident i j.
Proof. intros H. unfold ext. destruct (Nat.ltb_spec j n); [lia|]. rewrite andb_false_r. reflexivity. Qed.
Lemma ext_new_l n Q i j : (n <= i)%nat -> ext n Q i j = ident i j.
Proof. intros H. unfold ext. destruct (Nat.ltb_spec i n); [lia|]. reflexivity. Qed.
Lemma ext_eqr n Q : eqr n n (ext n Q) Q.
Proof. intros i j. apply ext_in. Qed.
Lemma ident_neq i j : i <> j -> ident i j = 0.
Proof. intros N. unfold ident. destruct (Nat.eqb_spec i j); [congruence|reflexivity]. Qed.

Lemma orth_eqr n Q Q' : eqr n n Q Q' -> orth n Q' -> orth n Q.
Proof.
  intros E [H1 H2]. split.
  - intros i j Hi Hj. rewrite <- (H1 i j Hi Hj). unfold tmm. apply sum_ext. intros k Hk. rewrite !E by assumption. reflexivity.
  - intros i j Hi Hj. rewrite <- (H2 i j Hi Hj). unfold mmt. apply sum_ext. intros k Hk. rewrite !E by assumption. reflexivity.
Qed.
Lemma orth_ident n : orth n ident.
Proof. split; intros i j Hi Hj; rewrite <- (mmm_id_l n n ident i j Hi Hj); unfold tmm, mmt, mmm; apply sum_ext; intros k _; f_equal; unfold ident; rewrite Nat.eqb_sym; reflexivity. Qed.

Lemma orth_ext n Q b : orth n Q -> orth (if b : bool then n + 1 else n)%nat (ext n Q).
Proof.
  intros O. destruct b; [|apply (orth_eqr n _ Q (ext_eqr n Q) O)]. destruct O as [H1 H2]. split; intros i j Hi Hj; unfold tmm, mmt; rewrite sum_split; cbn [sum].
  - rewrite Nat.add_0_r. rewrite !(ext_new_l n Q n) by lia. unfold eqm, tmm in H1.
    destruct (Nat.eq_dec i n) as [->|Ni]; [|destruct (Nat.eq_dec j n) as [->|Nj]].
    + rewrite sum_0 by (intros k Hk; rewrite (ext_new_r n Q k n), ident_neq by lia; ring). unfold ident at 1. rewrite Nat.eqb_refl. ring.
    + rewrite sum_0 by (intros k Hk; rewrite (ext_new_r n Q k n), (ident_neq k n) by lia; ring). rewrite (ident_neq n i), (ident_neq i n) by lia. ring.
    + rewrite (ident_neq n i) by lia. rewrite <- (H1 i j) by lia. transitivity (sum n (fun k => ext n Q k i * ext n Q k j)); [ring|].
      apply sum_ext. intros k Hk. rewrite !ext_in by lia. reflexivity.
  - rewrite Nat.add_0_r. rewrite !(ext_new_r n Q _ n) by lia. unfold eqm, mmt in H2.
    destruct (Nat.eq_dec i n) as [->|Ni]; [|destruct (Nat.eq_dec j n) as [->|Nj]].
    + rewrite sum_0 by (intros k Hk; rewrite (ext_new_l n Q n k), (ident_neq n k) by lia; ring). unfold ident at 1. rewrite Nat.eqb_refl. unfold ident. rewrite (Nat.eqb_sym j n). ring.
    + rewrite sum_0 by (intros k Hk; rewrite (ext_new_l n Q n k), (ident_neq n k) by lia; ring). rewrite (ident_neq i n) by lia. ring.
    + rewrite (ident_neq i n) by lia. rewrite <- (H2 i j) by lia. transitivity (sum n (fun k => ext n Q i k * ext n Q j k)); [ring|].
      apply sum_ext. intros k Hk. rewrite !ext_in by lia. reflexivity.
Qed.

(** ** Rectangular matrices: P^T M Q with n rows and m columns *)
Definition turn2 (n m : nat) (P Q M : mat) : mat := mmm n (tp P) (mmm m M Q).

Lemma turn2_dir nC nK P Q C Ct K Kt G G' C' Ct' K' Kt' s :
  orth nC P -> orth nK Q -> eqr nC nC C' (turn nC P C) -> eqr nC nC Ct' (turn nC P Ct) -> eqr nK nK K' (turn nK Q K) -> eqr nK nK Kt' (turn nK Q Kt) ->
  eqr nC nK G' (turn2 nC nK P Q G) ->
  eqr nC nK (dir_of nC nK C' Ct' K' Kt' G' s) (turn2 nC nK P Q (dir_of nC nK C Ct K Kt G s)).
Proof.
  intros OP OQ EC ECt EK EKt EG.
  assert (D : forall C Ct K Kt G, eqr nC nK (dir_of nC nK C Ct K Kt G s)
     (mmm nC C (mmm nC Ct (mmm nK (mmm nK (fun i j => G i j / s) (tp Kt)) (tp K))))).
  { clear - FL. intros C Ct K Kt G i j Hi Hj. unfold dir_of, mmm, tp. apply sum_ext. intros a _. f_equal. apply sum_ext. intros k _. f_equal.
    apply sum_ext. intros b _. rewrite (Rmul_comm (F_R F_ft)). f_equal. apply sum_ext. intros q _. ring. }
  assert (EG' : eqr nC nK (fun i j => G' i j / s) (turn2 nC nK P Q (fun i j => G i j / s))).
  { intros i j Hi Hj. rewrite EG by assumption. unfold turn2, mmm. rewrite (Fdiv_def F_ft), <- sum_scale_r. apply sum_ext. intros a _.
    rewrite <- (Rmul_assoc (F_R F_ft)). f_equal. rewrite <- sum_scale_r. apply sum_ext. intros b _. rewrite !(Fdiv_def F_ft). ring. }
  rewrite (D C' Ct' K' Kt' G'), EC, ECt, EK, EKt, EG'. unfold turn2 at 2. rewrite (D C Ct K Kt G). unfold turn2.
  set (Gs := fun i j => G i j / s). rewrite <- (turn_tp nK Q K), <- (turn_tp nK Q Kt). rewrite !turn_eqr.
  assert (X : forall A B k, eqr nC k (mmm nC (mmm nC (tp P) (mmm nC A P)) (mmm nC (tp P) B)) (mmm nC (tp P) (mmm nC A B))).
  { intros A B k. rewrite (mmm_assoc nC k nC nC (tp P)). rewrite (mmm_assoc nC k nC nC A P). rewrite <- (mmm_assoc nC k nC nC P (tp P)). rewrite (orth_r nC P OP), mmm_id_l. reflexivity. }
  assert (Y : forall A B k, eqr k nK (mmm nK (mmm nK A Q) (mmm nK (tp Q) (mmm nK B Q))) (mmm nK (mmm nK A B) Q)).
  { intros A B k. rewrite (mmm_assoc k nK nK nK A Q). rewrite <- (mmm_assoc nK nK nK nK Q (tp Q)). rewrite (orth_r nK Q OQ), mmm_id_l. rewrite <- (mmm_assoc k nK nK nK A B Q). reflexivity. }
  rewrite <- (mmm_assoc nC nK nC nK (tp P) Gs Q). rewrite (Y (mmm nC (tp P) Gs) (tp Kt) nC). rewrite (Y (mmm nK (mmm nC (tp P) Gs) (tp Kt)) (tp K) nC).
  rewrite !(mmm_assoc nC nK nC nK (tp P)). rewrite (X Ct). rewrite (X C).
  rewrite !(mmm_assoc nC nK nC nK). reflexivity.
Qed.

(** ** Structured matrices *)

Lemma rent_diag c n s i : valid c n s -> rent s i i = ent s i i.
Proof.
  intros V. assert (B : (exists D, c = CBlock D) \/ forall D, c <> CBlock D) by (destruct c; try (right; discriminate); left; eauto).
  destruct B as [[D ->]|NB]; [destruct s; cbn in V; try contradiction; reflexivity|apply (rent_nonblock c n); assumption].
Qed.

Lemma rent_turn c c' n Q s s' : like c c' n -> valid c n s -> valid c' n s' -> eqm n (ent s') (turn n Q (ent s)) -> eqr n n (rent s') (turn n Q (rent s)).
Proof.
  intros [L|L] V V' E.
  - assert (B : (exists D, c = CBlock D) \/ forall D, c <> CBlock D) by (destruct c; try (right; discriminate); left; eauto).
    destruct B as [[D ->]|NB].
    + destruct c'; try discriminate L. destruct s, s'; cbn in V, V'; try contradiction. exact E.
    + assert (NB' : forall D, c' <> CBlock D) by (intros D ->; destruct c; try discriminate L; eapply NB; reflexivity).
      assert (X : forall i j, rent s' i j = tp (ent s') i j) by (intros; apply (rent_nonblock c' n); assumption).
      assert (Y : eqr n n (turn n Q (rent s)) (turn n Q (tp (ent s)))).
      { apply turn_proper. intros i j _ _. apply (rent_nonblock c n); assumption. }
      rewrite Y, turn_tp. intros i j Hi Hj. rewrite X. apply E; assumption.
  - assert (D : forall k z, valid k n z -> eqr n n (rent z) (ent z)).
    { intros k z Vz i j Hi Hj. replace i with j by lia. apply (rent_diag k n). exact Vz. }
    rewrite (D c' s' V'). rewrite (turn_proper n Q _ _ (D c s V)). exact E.
Qed.

Lemma gram_turn n m Q Y Y' : eqr n m Y' (mmm n (tp Q) Y) -> eqm n (gram m Y') (turn n Q (gram m Y)).
Proof.
  intros E. assert (G : forall Z, eqr n n (gram m Z) (mmm m Z (tp Z))) by (intros Z i j _ _; reflexivity).
  change (eqr n n (gram m Y') (turn n Q (gram m Y))). rewrite turn_eqr, !G, E, tp_mmm.
  rewrite (mmm_assoc n n n m (tp Q) Y). rewrite (mmm_assoc n n m n Y (tp Y) Q). reflexivity.
Qed.

Lemma gram_rent_turn c c' n Q s s' : like c c' n -> orth n Q -> valid c n s -> valid c' n s' -> eqm n (ent s') (turn n Q (ent s)) ->
  eqm n (gram n (rent s')) (turn n Q (gram n (rent s))).
Proof.
  intros L O V V' E. pose proof (rent_turn c c' n Q s s' L V V' E) as R.
  assert (G : forall Z, eqr n n (gram n Z) (mmm n Z (tp Z))) by (intros Z i j _ _; reflexivity).
  change (eqr n n (gram n (rent s')) (turn n Q (gram n (rent s)))). rewrite !G, (turn_prod n Q) by exact O. rewrite turn_tp, R. reflexivity.
Qed.

Lemma alike_proj c c' n Q M M' : alike c c' n Q -> eqm n M' (turn n Q M) -> eqm n (proj c' n M') (turn n Q (proj c n M)).
Proof. intros [_ S] E i j Hi Hj. rewrite <- (S M i j Hi Hj). apply proj_ext; assumption. Qed.

Lemma momentum_ext n P P' KK H old cc a d al : eqm n (P' KK) (P KK) -> eqm n (momentum_of n P' KK H old cc a d al) (momentum_of n P KK H old cc a d al).
Proof. intros E i j Hi Hj. unfold momentum_of. rewrite E by assumption. reflexivity. Qed.

(** The largest absolute entry is the same in the other basis. *)
Definition normal (c c' : cls) (n : nat) (Q : mat) : Prop :=
  forall s s', valid c n s -> valid c' n s' -> eqm n (ent s') (turn n Q (ent s)) -> infinity_vector_norm s' = infinity_vector_norm s.

Lemma momentum_turn n Q P P' KK KK' H H' old old' cc a d al (PK : eqm n (P' KK') (turn n Q (P KK))) :
  orth n Q -> eqm n H' (turn n Q H) -> eqm n old' (turn n Q old) ->
  eqm n (momentum_of n P' KK' H' old' cc a d al) (turn n Q (momentum_of n P KK H old cc a d al)).
Proof.
  intros O EH EO i j Hi Hj. unfold momentum_of. rewrite EH, EO, PK by assumption. rewrite <- (turn_ident n Q O i j Hi Hj).
  rewrite (turn_add n Q (fun i j => cc * (a * H i j + d * P KK i j - ident i j)) old 1 al) || idtac.
  transitivity (turn n Q (fun i j => 1 * ((cc * a) * H i j + (cc * d) * P KK i j) + 1 * ((- cc) * ident i j + al * old i j)) i j).
  - rewrite (turn_add n Q (fun i j => cc * a * H i j + cc * d * P KK i j) (fun i j => - cc * ident i j + al * old i j)).
    rewrite (turn_add n Q H (P KK)), (turn_add n Q ident old). ring.
  - unfold turn. apply sum_ext. intros p _. apply sum_ext. intros q _. f_equal. f_equal. ring.
Qed.

Lemma precond_turn n Q K K' m m' b : orth n Q -> eqm n K' (turn n Q K) -> eqm n m' (turn n Q m) ->
  eqm n (precond_of n K' m' b) (turn n Q (precond_of n K m b)).
Proof.
  intros O EK Em. unfold precond_of. change (eqr n n (mmm n K' (fun i j => ident i j - b * m' i j)) (turn n Q (mmm n K (fun i j => ident i j - b * m i j)))).
  rewrite turn_prod by exact O. assert (EK' : eqr n n K' (turn n Q K)) by exact EK. rewrite EK'.
  assert (X : eqr n n (fun i j => ident i j - b * m' i j) (turn n Q (fun i j => ident i j - b * m i j))); [|rewrite X; reflexivity].
  intros i j Hi Hj. rewrite Em by assumption. rewrite <- (turn_ident n Q O i j Hi Hj) at 1.
  transitivity (turn n Q (fun i j => 1 * ident i j + (- b) * m i j) i j); [rewrite turn_add; ring|].
  unfold turn. apply sum_ext. intros p _. apply sum_ext. intros q _. ring.
Qed.

Lemma trace_eqm n A B : eqm n A B -> trace n A = trace n B.
Proof. intros E. unfold trace. apply sum_ext. intros i Hi. apply E; assumption. Qed.

Lemma oldm_turn n Q o o' : oturn n Q o o' -> eqm n (oldm o') (turn n Q (oldm o)).
Proof. destruct o, o'; cbn; intros H; try contradiction; [exact H|]. intros i j _ _. rewrite turn_0. reflexivity. Qed.

(** ** The update *)
Ltac open_upd Eu := unfold update_slots, sbind, entry, modify, lift; rewrite Eu; cbn [negb].

Lemma update_slots_turned g l n scales s s' cK cC cK' cC' dK dC QK QC :
  usable cK dK -> usable cC dC -> usable cK' dK -> usable cC' dC -> preconditioner_dims l = Ok (dK, dC) -> typed cK cC dK dC s -> typed cK' cC' dK dC s' ->
  orth dK QK -> orth dC QC -> alike cK cK' dK QK -> alike cC cC' dC QC -> (g_normalize g = true -> normal cK cK' dK QK /\ normal cC cC' dC QC) ->
  turned_slots dK dC QK QC s s' ->
  turned_slots dK dC QK QC (fst (update_slots g l n scales s)) (fst (update_slots g l n scales s')) /\
  snd (update_slots g l n scales s') = snd (update_slots g l n scales s).
Proof.
  intros UK UC UK' UC' Ed T T' OK OC SK SCc NN R. pose proof R as (RK & RC & RmK & RmC & RHK & RHC).
  pose proof T as [(K & EK & VK) (C & EC & VC) TmK TmC THK THC].
  pose proof T' as [(K' & EK' & VK') (C' & EC' & VC') TmK' TmC' THK' THC'].
  rewrite EK, EK' in RK. rewrite EC, EC' in RC. cbn [oturn] in RK, RC.
  set (P := fun a b : slots * res unit => turned_slots dK dC QK QC (fst a) (fst b) /\ snd b = snd a).
  change (P (update_slots g l n scales s) (update_slots g l n scales s')).
  assert (P0 : forall r, P (s, r) (s', r)) by (intros r; split; [exact R|reflexivity]).
  assert (P1 : forall r, P (set_HK None s, r) (set_HK None s', r)) by (intros r; split; [repeat split; cbn; auto; rewrite ?EK, ?EK', ?EC, ?EC'; assumption|reflexivity]).
  assert (P2 : forall r, P (set_HC None (set_HK None s), r) (set_HC None (set_HK None s'), r)) by (intros r; split; [repeat split; cbn; auto; rewrite ?EK, ?EK', ?EC, ?EC'; assumption|reflexivity]).
  destruct (is_update_step g n) as [[|]|] eqn:Eu.
  2:{ open_upd Eu. apply P0. }
  2:{ open_upd Eu. apply P0. }
  assert (Eu' : g_T g <> O /\ (n mod g_T g = 0)%nat).
  { unfold is_update_step in Eu. destruct (Nat.eqb_spec (g_T g) 0); [discriminate|]. split; [assumption|].
    destruct (Nat.eqb_spec (n mod g_T g) 0); [assumption|discriminate]. }
  destruct (sl_HK s) as [HK|] eqn:EHK; destruct (sl_HK s') as [HK'|] eqn:EHK'; cbn in RHK; try contradiction.
  2:{ open_upd Eu. rewrite EK, EC, EHK, EK', EC', EHK'. cbn [lookup]. apply P0. }
  destruct (sl_HC s) as [HC|] eqn:EHC; destruct (sl_HC s') as [HC'|] eqn:EHC'; cbn in RHC; try contradiction.
  2:{ open_upd Eu. rewrite EK, EC, EHK, EK', EC', EHK'. cbn [lookup set_HK sl_HC]. rewrite EHC, EHC'. cbn [lookup]. apply P1. }
  destruct (get_grad_scale scales (Z.of_nat n - 1)) as [prev|] eqn:Ep.
  2:{ open_upd Eu. rewrite EK, EC, EHK, EK', EC', EHK'. cbn [lookup set_HK sl_HC]. rewrite EHC, EHC'. cbn [lookup]. rewrite Ep. apply P2. }
  destruct (get_grad_scale scales (Z.of_nat n)) as [cur|] eqn:Ec.
  2:{ open_upd Eu. rewrite EK, EC, EHK, EK', EC', EHK'. cbn [lookup set_HK sl_HC]. rewrite EHC, EHC'. cbn [lookup]. rewrite Ep, Ec. apply P2. }
  destruct (feqb_spec cur 0) as [[_ E0]|[N0 E0]].
  { open_upd Eu. unfold grad_unscaling. rewrite EK, EC, EHK, EK', EC', EHK'. cbn [lookup set_HK sl_HC]. rewrite EHC, EHC'. cbn [lookup]. rewrite Ep, Ec, E0. apply P2. }
  assert (RM : (moms_ready g cK cC dK dC s /\ moms_ready g cK' cC' dK dC s') \/
     g_alpha1 g <> 0 /\ ((sl_mC s = None /\ sl_mC s' = None) \/
       exists mC mC', sl_mC s = Some mC /\ valid cC dC mC /\ sl_mK s = None /\ sl_mC s' = Some mC' /\ valid cC' dC mC' /\ sl_mK s' = None)).
  { destruct (feqb_spec (g_alpha1 g) 0) as [[Ea _]|[Na _]]; [left; split; left; exact Ea|].
    destruct (sl_mC s) as [mC|] eqn:EmC; destruct (sl_mC s') as [mC'|] eqn:EmC'; cbn in RmC; try contradiction; [|right; auto].
    destruct (sl_mK s) as [mK|] eqn:EmK; destruct (sl_mK s') as [mK'|] eqn:EmK'; cbn in RmK; try contradiction.
    - left. split; right; [exists mK, mC|exists mK', mC']; auto 10.
    - right. split; [exact Na|]. right. exists mC, mC'. auto 10. }
  destruct RM as [[R1 R2]|[Na RM]].
  - destruct (update_slots_act g l n scales s cK cC dK dC K C HK HC prev cur UK UC Ed (proj1 Eu') (proj2 Eu') EK EC EHK EHC VK VC (THK _ eq_refl) (THC _ eq_refl) R1 Ep Ec N0)
      as (K1 & C1 & mK1 & mC1 & bK & bC & E & VK1 & VC1 & VmK1 & VmC1 & BK & BC & HmK & HmC & HK1 & HC1).
    destruct (update_slots_act g l n scales s' cK' cC' dK dC K' C' HK' HC' prev cur UK' UC' Ed (proj1 Eu') (proj2 Eu') EK' EC' EHK' EHC' VK' VC' (THK' _ eq_refl) (THC' _ eq_refl) R2 Ep Ec N0)
      as (K2 & C2 & mK2 & mC2 & bK2 & bC2 & E' & VK2 & VC2 & VmK2 & VmC2 & BK2 & BC2 & HmK2 & HmC2 & HK2 & HC2).
    pose proof (gram_rent_turn cK cK' dK QK K K' (proj1 SK) OK VK VK' RK) as GK. pose proof (gram_rent_turn cC cC' dC QC C C' (proj1 SCc) OC VC VC' RC) as GC.
    assert (HW : hweight g (prev / (cur * cur)) dC (ent HC') = hweight g (prev / (cur * cur)) dC (ent HC)).
    { unfold hweight. rewrite (trace_eqm dC _ _ RHC), turn_trace by exact OC. reflexivity. }
    assert (CW : cweight g (prev / (cur * cur)) dK (ent HK') = cweight g (prev / (cur * cur)) dK (ent HK)).
    { unfold cweight. rewrite (trace_eqm dK _ _ RHK), turn_trace by exact OK. reflexivity. }
    assert (DW : dweight g dC (gram dC (rent C')) = dweight g dC (gram dC (rent C))).
    { unfold dweight. rewrite (trace_eqm dC _ _ GC), turn_trace by exact OC. reflexivity. }
    assert (DW2 : dweight g dK (gram dK (rent K')) = dweight g dK (gram dK (rent K))).
    { unfold dweight. rewrite (trace_eqm dK _ _ GK), turn_trace by exact OK. reflexivity. }
    rewrite HW, DW in HmK2. rewrite CW, DW2 in HmC2.
    assert (MK : eqr dK dK (ent mK2) (turn dK QK (ent mK1))).
    { transitivity (turn dK QK (momentum_of dK (proj cK dK) (gram dK (rent K)) (ent HK) (oldm (sl_mK s)) (mscale g)
       (hweight g (prev / (cur * cur)) dC (ent HC)) (dweight g dC (gram dC (rent C))) (g_alpha1 g))).
      - intros i j Hi Hj. rewrite HmK2 by assumption. apply momentum_turn; try assumption; [apply alike_proj; assumption|apply oldm_turn; exact RmK].
      - apply turn_proper. symmetry. exact HmK. }
    assert (MC : eqr dC dC (ent mC2) (turn dC QC (ent mC1))).
    { transitivity (turn dC QC (momentum_of dC (proj cC dC) (gram dC (rent C)) (ent HC) (oldm (sl_mC s)) (mscale g)
       (cweight g (prev / (cur * cur)) dK (ent HK)) (dweight g dK (gram dK (rent K))) (g_alpha1 g))).
      - intros i j Hi Hj. rewrite HmC2 by assumption. apply momentum_turn; try assumption; [apply alike_proj; assumption|apply oldm_turn; exact RmC].
      - apply turn_proper. symmetry. exact HmC. }
    assert (BB : bK2 = bK /\ bC2 = bC).
    { unfold normalized_lr in BK, BC, BK2, BC2. destruct (g_normalize g); [|split; congruence].
      destruct (NN eq_refl) as [N1 N2]. rewrite (N1 _ _ VmK1 VmK2 MK) in BK2. rewrite (N2 _ _ VmC1 VmC2 MC) in BC2. split; congruence. }
    destruct BB as [-> ->].
    rewrite E, E'. unfold P. cbn [fst snd]. split; [|reflexivity]. unfold turned_slots. cbn [sl_K sl_C sl_mK sl_mC sl_HK sl_HC oturn].
    split; [|split; [|split; [|split; [|split; exact I]]]].
    + change (eqr dK dK (ent K2) (turn dK QK (ent K1))). transitivity (turn dK QK (precond_of dK (ent K) (ent mK1) bK)).
      * intros i j Hi Hj. rewrite HK2 by assumption. apply precond_turn; assumption.
      * apply turn_proper. symmetry. exact HK1.
    + change (eqr dC dC (ent C2) (turn dC QC (ent C1))). transitivity (turn dC QC (precond_of dC (ent C) (ent mC1) bC)).
      * intros i j Hi Hj. rewrite HC2 by assumption. apply precond_turn; assumption.
      * apply turn_proper. symmetry. exact HC1.
    + destruct (feqb (g_alpha1 g) 0); [exact RmK|exact MK].
    + destruct (feqb (g_alpha1 g) 0); [exact RmC|exact MC].
  - destruct (new_momenta_act g l K C HK HC (prev / (cur * cur)) cK cC dK dC UK UC Ed VK VC (THK _ eq_refl) (THC _ eq_refl))
      as (nK & nC & En & VnK & VnC & _).
    destruct (new_momenta_act g l K' C' HK' HC' (prev / (cur * cur)) cK' cC' dK dC UK' UC' Ed VK' VC' (THK' _ eq_refl) (THC' _ eq_refl))
      as (nK' & nC' & En' & VnK' & VnC' & _).
    open_upd Eu. unfold grad_unscaling. rewrite EK, EC, EHK, EK', EC', EHK'. cbn [lookup set_HK sl_HC]. rewrite EHC, EHC'.
    cbn [lookup]. rewrite Ep, Ec, E0, En, En'. unfold apply_momenta. rewrite (feqb_false _ _ Na).
    unfold sbind, entry, modify, lift. cbn [set_HC set_HK sl_mC sl_mK]. destruct RM as [[-> ->] | (mC & mC' & -> & VmC & -> & -> & VmC' & ->)]; cbn [lookup].
    + apply P2.
    + pose proof UC as (OkC & _). pose proof UC' as (OkC' & _). destruct (add__ok cC dC nC mC (g_alpha1 g) OkC VnC VmC) as (r & -> & _).
      destruct (add__ok cC' dC nC' mC' (g_alpha1 g) OkC' VnC' VmC') as (r' & -> & _). apply P2.
Qed.

(** ** Tensors in other bases *)

Lemma shape_rotl Q t : shape (rotl Q t) = shape t. Proof. unfold rotl. destruct (shape t) eqn:E; [exact E|reflexivity]. Qed.
Lemma rotl_some Q t : shape t <> [] -> rotl Q t = tab (shape t) (fun idx => sum (last (shape t) O) (fun k => tget t (removelast idx ++ [k]) * Q k (last idx O))).
Proof. unfold rotl. destruct (shape t); [contradiction|reflexivity]. Qed.

Lemma bget_rotl Q t b mid d i s k : shape t = b :: mid ++ [d] -> (i < b)%nat -> (s < prod mid)%nat -> (k < d)%nat ->
  bget (rotl Q t) mid i s k = sum d (fun q => bget t mid i s q * Q q k).
Proof.
  intros St Hi Hs Hk. unfold bget. rewrite rotl_some by (rewrite St; discriminate). rewrite tget_tab.
  - rewrite St. change (b :: mid ++ [d]) with ((b :: mid) ++ [d]). change (i :: unflat mid s ++ [k]) with ((i :: unflat mid s) ++ [k]).
    rewrite !last_last, removelast_last. reflexivity.
  - rewrite St. constructor; [exact Hi|]. apply Forall2_app; [apply unflat_range; exact Hs|]. constructor; [exact Hk|constructor].
Qed.

Lemma rotl_ident t : rotl ident t = t.
Proof.
  destruct (list_eq_dec Nat.eq_dec (shape t) []) as [E0|N]; [unfold rotl; rewrite E0; reflexivity|]. rewrite rotl_some by exact N.
  apply tensor_ext; [reflexivity|]. intros idx Hi. cbn [shape tab] in Hi. rewrite tget_tab by exact Hi.
  destruct (exists_last N) as (s & d & E). rewrite E in *. rewrite last_last.
  apply Forall2_app_inv_r in Hi as (i1 & i2 & H1 & H2 & ->). inversion H2 as [|k ? l ? Hk H3]; subst. inversion H3; subst.
  rewrite removelast_last, last_last. rewrite (sum_single d k).
  - unfold ident. rewrite Nat.eqb_refl. ring.
  - exact Hk.
  - intros q _ Nq. rewrite ident_neq by exact Nq. ring.
Qed.

Lemma shape_turnp QP t : shape (turnp QP t) = shape t.
Proof. unfold turnp. destruct (shape t) as [|r [|k [|]]] eqn:E; try exact E; reflexivity. Qed.

Lemma turnp_ident t : turnp (ident, ident) t = t.
Proof.
  unfold turnp. destruct (shape t) as [|r [|k [|]]] eqn:E; try reflexivity.
  - apply (ext1 r); [reflexivity|exact E|]. intros i Hi. rewrite get1_tab1 by exact Hi. cbn [snd].
    rewrite (sum_single r i); [unfold ident; rewrite Nat.eqb_refl; ring|exact Hi|]. intros a _ N. rewrite ident_neq by exact N. ring.
  - apply (ext2 r k); [reflexivity|exact E|]. intros i j Hi Hj. rewrite get2_tab2 by assumption. cbn [fst snd].
    rewrite (sum_single r i); [|exact Hi|].
    + rewrite (sum_single k j); [unfold ident; rewrite !Nat.eqb_refl; ring|exact Hj|]. intros b _ N. rewrite (ident_neq b j) by exact N. ring.
    + intros a _ N. apply sum_0. intros b _. rewrite (ident_neq a i) by exact N. ring.
Qed.

Lemma turnp_lin QP a b r al be : shape b = shape a -> shape r = shape a ->
  (forall idx, in_range (shape a) idx -> tget r idx = al * tget a idx + be * tget b idx) ->
  forall idx, in_range (shape a) idx -> tget (turnp QP r) idx = al * tget (turnp QP a) idx + be * tget (turnp QP b) idx.
Proof.
  intros Sb Sr H idx Hi. unfold turnp. rewrite Sb, Sr. destruct (shape a) as [|x [|y [|]]] eqn:E; try (apply H; exact Hi).
  - apply in_range1_inv in Hi as (i & -> & Hi). change (get1 (tab1 x (fun i => sum x (fun a0 => snd QP a0 i * get1 r a0))) i =
      al * get1 (tab1 x (fun i => sum x (fun a0 => snd QP a0 i * get1 a a0))) i + be * get1 (tab1 x (fun i => sum x (fun a0 => snd QP a0 i * get1 b a0))) i).
    rewrite !get1_tab1 by exact Hi. rewrite <- !sum_scale_l, <- sum_plus. apply sum_ext. intros q Hq.
    unfold get1. rewrite H by (repeat constructor; exact Hq). ring.
  - apply in_range2_inv in Hi as (i & j & -> & Hi & Hj).
    change (get2 (tab2 x y (fun i j => sum x (fun a0 => sum y (fun b0 => snd QP a0 i * get2 r a0 b0 * fst QP b0 j)))) i j =
      al * get2 (tab2 x y (fun i j => sum x (fun a0 => sum y (fun b0 => snd QP a0 i * get2 a a0 b0 * fst QP b0 j)))) i j +
      be * get2 (tab2 x y (fun i j => sum x (fun a0 => sum y (fun b0 => snd QP a0 i * get2 b a0 b0 * fst QP b0 j)))) i j).
    rewrite !get2_tab2 by assumption. rewrite <- !sum_scale_l, <- sum_plus. apply sum_ext. intros p Hp.
    rewrite <- !sum_scale_l, <- sum_plus. apply sum_ext. intros q Hq. unfold get2. rewrite H by (apply in_range2; assumption). ring.
Qed.

Definition resmap {A B} (f : A -> B) (r : res A) : res B := match r with Ok x => Ok (f x) | Err e => Err e end.

Lemma turnp_add_alpha QP a b al : t_add_alpha (turnp QP a) (turnp QP b) al = resmap (turnp QP) (t_add_alpha a b al).
Proof.
  unfold t_add_alpha, t_map2. rewrite !shape_turnp. destruct (shape_eqb (shape a) (shape b)) eqn:E; [|reflexivity]. cbn [resmap]. f_equal.
  unfold shape_eqb in E. destruct (list_eq_dec Nat.eq_dec (shape a) (shape b)) as [Es|]; [|discriminate].
  apply tensor_ext; [rewrite shape_turnp; reflexivity|]. intros idx Hi. cbn [shape tab] in Hi. rewrite tget_tab by exact Hi.
  symmetry. rewrite (turnp_lin QP a b _ 1 al) by (try (cbn; congruence); try exact Hi; intros ix Hx; rewrite tget_tab by exact Hx; ring). ring.
Qed.
Lemma turnp_add QP a b : t_add (turnp QP a) (turnp QP b) = resmap (turnp QP) (t_add a b).
Proof.
  unfold t_add, t_map2. rewrite !shape_turnp. destruct (shape_eqb (shape a) (shape b)) eqn:E; [|reflexivity]. cbn [resmap]. f_equal.
  unfold shape_eqb in E. destruct (list_eq_dec Nat.eq_dec (shape a) (shape b)) as [Es|]; [|discriminate].
  apply tensor_ext; [rewrite shape_turnp; reflexivity|]. intros idx Hi. cbn [shape tab] in Hi. rewrite tget_tab by exact Hi.
  symmetry. rewrite (turnp_lin QP a b _ 1 1) by (try (cbn; congruence); try exact Hi; intros ix Hx; rewrite tget_tab by exact Hx; ring). ring.
Qed.
Lemma turnp_scale QP a c : t_scale c (turnp QP a) = turnp QP (t_scale c a).
Proof.
  unfold t_scale, t_map. apply tensor_ext; [cbn [shape tab]; rewrite !shape_turnp; reflexivity|]. intros idx Hi. cbn [shape tab] in Hi. rewrite tget_tab by exact Hi.
  rewrite shape_turnp in Hi. symmetry. rewrite (turnp_lin QP a a _ c 0) by (try reflexivity; try exact Hi; intros ix Hx; rewrite tget_tab by exact Hx; ring). ring.
Qed.
Lemma turnp_zeros QP s : turnp QP (zeros s) = zeros s.
Proof.
  apply tensor_ext; [apply shape_turnp|]. intros idx Hi. rewrite shape_turnp in Hi.
  rewrite (turnp_lin QP (zeros s) (zeros s) _ 0 0) by (try reflexivity; try exact Hi; intros ix Hx; unfold zeros; cbn [shape tab zeros] in *; rewrite !tget_tab by exact Hx; ring).
  unfold zeros. cbn [shape tab zeros] in Hi. rewrite tget_tab by exact Hi. ring.
Qed.

Lemma param_step_turned QP g d p :
  param_step g (turnp QP d) (turn_slot QP p) = (turn_slot QP (fst (param_step g d p)), snd (param_step g d p)).
Proof.
  unfold param_step, sbind, getS, lift, modify. cbn [p_val p_grad p_buf turn_slot].
  rewrite turnp_add_alpha. assert (D : (if feqb (g_wd g) 0 then Ok (turnp QP d) else resmap (turnp QP) (t_add_alpha d (p_val p) (g_wd g))) =
     resmap (turnp QP) (if feqb (g_wd g) 0 then Ok d else t_add_alpha d (p_val p) (g_wd g))) by (destruct (feqb (g_wd g) 0); reflexivity).
  rewrite D. clear D. destruct (if feqb (g_wd g) 0 then Ok d else t_add_alpha d (p_val p) (g_wd g)) as [d'|]; cbn [resmap]; [|reflexivity].
  destruct (feqb (g_momentum g) 0).
  - rewrite turnp_add_alpha. destruct (t_add_alpha (p_val p) d' (- g_lr g)); reflexivity.
  - assert (B : match option_map (turnp QP) (p_buf p) with Some b => b | None => zeros (shape (turnp QP (p_val p))) end =
       turnp QP (match p_buf p with Some b => b | None => zeros (shape (p_val p)) end)).
    { destruct (p_buf p); [reflexivity|]. cbn [option_map]. rewrite turnp_zeros, shape_turnp. reflexivity. }
    rewrite B, turnp_scale, turnp_add. destruct (t_add _ d') as [b|]; cbn [resmap]; [|reflexivity].
    rewrite turnp_add_alpha. destruct (t_add_alpha (p_val p) b (- g_lr g)); reflexivity.
Qed.

(** ** Gradient matrices *)

Lemma ext_ident n i j : ext n ident i j = ident i j.
Proof. unfold ext. destruct (_ && _)%bool; reflexivity. Qed.

Lemma fits_bias_turnp QP l (b : option tensor) :
  match b with Some b => has_bias l = true /\ shape b = [n_out l] | None => has_bias l = false end ->
  match option_map (turnp QP) b with Some b => has_bias l = true /\ shape b = [n_out l] | None => has_bias l = false end.
Proof. destruct b; cbn [option_map]; [rewrite shape_turnp|]; auto. Qed.

Lemma grad_matrix_turned l QP wg bg dK dC M :
  framed l QP -> supported l -> preconditioner_dims l = Ok (dK, dC) -> shape wg = weight_shape l ->
  match bg with Some b => has_bias l = true /\ shape b = [n_out l] | None => has_bias l = false end ->
  grad_matrix l wg bg = Ok M ->
  exists M', grad_matrix l (turnp QP wg) (option_map (turnp QP) bg) = Ok M' /\ shape M = [dC; dK] /\ shape M' = [dC; dK] /\
    eqr dC dK (get2 M') (turn2 dC dK (snd QP) (ext (fan l) (fst QP)) (get2 M)) /\
    split_matrix l M' = Ok (turnp QP wg, option_map (turnp QP) bg).
Proof.
  intros FR Hs Ed Sw Sb EM.
  destruct (C49_gradient_matrix_lemma l wg bg Hs Sw Sb) as (M0 & E0 & D0 & S0 & H1 & H2 & _). rewrite EM in E0. injection E0 as <-.
  destruct (C49_gradient_matrix_lemma l (turnp QP wg) (option_map (turnp QP) bg) Hs (eq_trans (shape_turnp QP wg) Sw) (fits_bias_turnp QP l bg Sb)) as (M' & EM' & D' & S' & H1' & H2' & ES).
  rewrite Ed in D0, D'. injection D0 as D1 D2. injection D' as D3 D4. rewrite <- D1, <- D2 in S0. rewrite <- D3, <- D4 in S'.
  exists M'. split; [exact EM'|]. split; [exact S0|]. split; [exact S'|]. split; [|exact ES].
  pose proof Ed as Ed'. rewrite (C49_dims_lemma l Hs) in Ed'. injection Ed' as EdK EdC.
  destruct l as [d_in d_out bias|cv|]; [| |exfalso; apply Hs; reflexivity].
  2:{ cbn in FR. subst QP. rewrite turnp_ident in EM'. assert (M' = M) as ->.
      { destruct bg; cbn [option_map] in EM'; rewrite ?turnp_ident in EM'; congruence. }
      unfold turn2. cbn [fst snd]. intros i j Hi Hj.
      assert (X : eqr dC dK (mmm dC (tp ident) (mmm dK (get2 M) (ext (fan (Conv2d cv)) ident))) (get2 M)); [|symmetry; apply X; assumption].
      assert (X1 : eqr dK dK (ext (fan (Conv2d cv)) ident) ident) by (intros p q _ _; apply ext_ident).
      assert (X2 : eqr dC dC (tp ident) ident) by (intros p q _ _; unfold tp, ident; rewrite Nat.eqb_sym; reflexivity).
      rewrite X1, X2, mmm_id_l, mmm_id_r. reflexivity. }
  cbn [fan n_out has_bias weight_shape] in *. clear D1 D2 D3 D4. subst dC. cbn in FR. destruct FR as [OQ OP].
  assert (W : forall t i r, shape t = [d_out; d_in] -> (i < d_out)%nat -> (r < d_in)%nat -> nth (i * d_in + r) (data t) 0 = get2 t i r).
  { intros t i r St Hi Hr. unfold get2, tget. rewrite St. f_equal. unfold flat, prod; cbn. lia. }
  assert (TW : forall i j, (i < d_out)%nat -> (j < d_in)%nat -> get2 (turnp QP wg) i j = sum d_out (fun a => sum d_in (fun b => snd QP a i * get2 wg a b * fst QP b j))).
  { intros i j Hi Hj. unfold turnp. rewrite Sw. rewrite get2_tab2 by assumption. reflexivity. }
  intros i j Hi Hj. unfold turn2, mmm, tp.
  assert (Jc : (j < d_in)%nat \/ bias = true /\ j = d_in) by (destruct bias; [lia|left; lia]).
  destruct Jc as [J|[-> ->]].
  - rewrite H1' by assumption. rewrite W by (try assumption; rewrite shape_turnp; exact Sw). rewrite TW by assumption.
    apply sum_ext. intros a Ha.
    assert (X : sum dK (fun k => get2 M a k * ext d_in (fst QP) k j) = sum d_in (fun b => get2 wg a b * fst QP b j)).
    { subst dK. assert (Y : sum d_in (fun k => get2 M a k * ext d_in (fst QP) k j) = sum d_in (fun b => get2 wg a b * fst QP b j)).
      { apply sum_ext. intros b Hb. rewrite H1 by assumption. rewrite (W wg) by assumption. rewrite ext_in by assumption. reflexivity. }
      destruct bias; [|exact Y]. rewrite sum_split. cbn [sum]. rewrite Y, Nat.add_0_r. rewrite ext_new_l, ident_neq by lia. ring. }
    rewrite X, <- sum_scale_l. apply sum_ext. intros b Hb. ring.
  - destruct bg as [bg|]; [|discriminate Sb]. destruct Sb as [_ Sb]. cbn [option_map] in *. rewrite (H2' _ i eq_refl Hi).
    unfold turnp at 1. rewrite Sb, get1_tab1 by exact Hi. apply sum_ext. intros a Ha. f_equal. subst dK. rewrite sum_split. cbn [sum].
    rewrite sum_0 by (intros k Hk; rewrite ext_new_r, ident_neq by lia; ring). rewrite Nat.add_0_r, (H2 bg a eq_refl Ha), ext_new_r by lia. unfold ident. rewrite Nat.eqb_refl. ring.
Qed.

Lemma split_turned l QP dK dC N N' :
  framed l QP -> supported l -> preconditioner_dims l = Ok (dK, dC) -> shape N = [dC; dK] -> shape N' = [dC; dK] ->
  eqr dC dK (get2 N') (turn2 dC dK (snd QP) (ext (fan l) (fst QP)) (get2 N)) ->
  exists w b, split_matrix l N = Ok (w, b) /\ split_matrix l N' = Ok (turnp QP w, option_map (turnp QP) b) /\ shape w = weight_shape l /\
    match b with Some b => has_bias l = true /\ shape b = [n_out l] | None => has_bias l = false end.
Proof.
  intros FR Hs Ed SN SN' E. pose proof Ed as Ed'. rewrite (C49_dims_lemma l Hs) in Ed'. injection Ed' as EdK EdC.
  destruct (split_any l N Hs) as (w & b & ES & EG & Sw & Sb); [rewrite SN, EdK, EdC; reflexivity|].
  exists w, b. split; [exact ES|]. split; [|auto].
  destruct (grad_matrix_turned l QP w b dK dC N FR Hs Ed Sw Sb EG) as (M' & _ & _ & S' & E' & ES').
  assert (M' = N') as <-; [|exact ES']. apply (ext2 dC dK); [exact S'|exact SN'|]. intros i j Hi Hj. rewrite E, E' by assumption. reflexivity.
Qed.

Lemma framed_orth l QP dK dC : framed l QP -> preconditioner_dims l = Ok (dK, dC) -> orth dK (ext (fan l) (fst QP)) /\ orth dC (snd QP).
Proof.
  intros FR Ed. destruct l as [d_in d_out bias|cv|]; [| |discriminate].
  - cbn in Ed. injection Ed as <- <-. destruct FR as [OQ OP]. split; [|exact OP]. apply (orth_ext d_in (fst QP) bias OQ).
  - cbn in FR. subst QP. split; [|apply orth_ident]. apply (orth_eqr dK _ ident); [intros i j _ _; apply ext_ident|apply orth_ident].
Qed.

Lemma nat_grad_turned l QP wg bg cur K C K' C' cK cC cK' cC' dK dC :
  framed l QP -> preconditioner_dims l = Ok (dK, dC) -> shape wg = weight_shape l ->
  match bg with Some b => has_bias l = true /\ shape b = [n_out l] | None => has_bias l = false end ->
  usable cK dK -> usable cC dC -> usable cK' dK -> usable cC' dC -> like cK cK' dK -> like cC cC' dC ->
  valid cK dK K -> valid cC dC C -> valid cK' dK K' -> valid cC' dC C' ->
  eqm dK (ent K') (turn dK (ext (fan l) (fst QP)) (ent K)) -> eqm dC (ent C') (turn dC (snd QP) (ent C)) ->
  exists N N' w b, nat_grad_matrix l (Ok wg) (option_map Ok bg) (Ok cur) (Ok K) (Ok C) = Ok N /\
    nat_grad_matrix l (Ok (turnp QP wg)) (option_map Ok (option_map (turnp QP) bg)) (Ok cur) (Ok K') (Ok C') = Ok N' /\
    split_matrix l N = Ok (w, b) /\ split_matrix l N' = Ok (turnp QP w, option_map (turnp QP) b) /\ shape w = weight_shape l /\
    match b with Some b => has_bias l = true /\ shape b = [n_out l] | None => has_bias l = false end.
Proof.
  intros FR Ed Sw Sb UK UC UK' UC' LK LC VK VC VK' VC' EK EC. pose proof (dims_supported _ _ _ Ed) as Hs.
  destruct (framed_orth l QP dK dC FR Ed) as [OQ OP].
  destruct (C49_gradient_matrix_lemma l wg bg Hs Sw Sb) as (M & EM & _).
  destruct (grad_matrix_turned l QP wg bg dK dC M FR Hs Ed Sw Sb EM) as (M' & EM' & SM & SM' & GM & _).
  pose proof (nat_grad_any l wg bg cur K C cK cC dK dC M EM SM UK UC VK VC) as E1.
  pose proof (nat_grad_any l _ _ cur K' C' cK' cC' dK dC M' EM' SM' UK' UC' VK' VC') as E2.
  match type of E1 with _ = Ok ?N => match type of E2 with _ = Ok ?N' =>
    destruct (split_turned l QP dK dC N N' FR Hs Ed eq_refl eq_refl) as (w & b & S1 & S2 & S3 & S4) end end.
  2:{ eexists; eexists; exists w, b. split; [exact E1|]. split; [exact E2|]. auto. }
  set (D := dir_of dC dK (ent C) (rent C) (ent K) (rent K) (get2 M) cur).
  set (D' := dir_of dC dK (ent C') (rent C') (ent K') (rent K') (get2 M') cur).
  assert (X : eqr dC dK D' (turn2 dC dK (snd QP) (ext (fan l) (fst QP)) D)).
  { apply turn2_dir; try assumption; [apply (rent_turn cC cC'); assumption|apply (rent_turn cK cK'); assumption]. }
  assert (Y : forall D, eqr dC dK (get2 (tab2 dC dK D)) D) by (intros Z i j Hi Hj; apply get2_tab2; assumption).
  rewrite (Y D'), X. unfold turn2. rewrite (Y D). reflexivity.
Qed.

(** ** Inputs and output gradients *)

Lemma withone_turned (bias : bool) d Q f i :
  (i < if bias then d + 1 else d)%nat ->
  withone bias d (fun k => sum d (fun q => f q * Q q k)) i = sum (if bias then d + 1 else d) (fun k => withone bias d f k * ext d Q k i).
Proof.
  intros Hi. unfold withone at 1.
  assert (X : (i < d)%nat -> sum d (fun k => withone bias d f k * ext d Q k i) = sum d (fun q => f q * Q q i)).
  { intros H. apply sum_ext. intros k Hk. unfold withone. destruct (Nat.ltb_spec k d); [|lia]. rewrite ext_in by assumption. reflexivity. }
  destruct bias.
  - rewrite sum_split. cbn [sum]. rewrite Nat.add_0_r. destruct (Nat.ltb_spec i d) as [H|H].
    + rewrite X, ext_new_l, ident_neq by lia. ring.
    + rewrite sum_0 by (intros k Hk; rewrite ext_new_r, ident_neq by lia; ring). rewrite ext_new_r by lia. replace i with d by lia.
      unfold withone, ident. rewrite Nat.ltb_irrefl, Nat.eqb_refl. ring.
  - destruct (Nat.ltb_spec i d) as [H|H]; [|lia]. symmetry. apply X. exact H.
Qed.
Lemma withone_ext bias d f g i : (forall k, (k < d)%nat -> f k = g k) -> withone bias d f i = withone bias d g i.
Proof. intros H. unfold withone. destruct (Nat.ltb_spec i d); auto. Qed.

Lemma linear_input_turned x bias b mid d Q ka : shape x = b :: mid ++ [d] -> ka = Expand \/ ka = Reduce ->
  exists A A' N, linear_process_input x bias ka = Ok A /\ linear_process_input (rotl Q x) bias ka = Ok A' /\
    eqr N (if bias then d + 1 else d)%nat (get2 A') (mmm (if bias then d + 1 else d)%nat (get2 A) (ext d Q)) /\ shape A = [N; if bias then d + 1 else d]%nat.
Proof.
  intros Sx [-> | ->].
  - destruct (linear_process_input_expand x bias b mid d Sx) as (A & EA & SA & GA).
    destruct (linear_process_input_expand (rotl Q x) bias b mid d (eq_trans (shape_rotl _ _) Sx)) as (A' & EA' & SA' & GA').
    exists A, A', (b * prod mid)%nat. split; [exact EA|]. split; [exact EA'|]. split; [|exact SA].
    intros r i Hr Hi. set (S := prod mid) in *. assert (NS : S <> O) by (intros Z; rewrite Z in Hr; lia).
    assert (Hn : (r / S < b)%nat) by (apply Nat.div_lt_upper_bound; [exact NS|lia]). pose proof (Nat.mod_upper_bound r S NS) as Hm.
    assert (Er : r = (r / S * S + r mod S)%nat) by (rewrite Nat.mul_comm; apply Nat.div_mod; exact NS).
    rewrite Er. rewrite GA' by assumption. unfold mmm.
    rewrite (withone_ext bias d _ (fun k => sum d (fun q => bget x mid (r / S) (r mod S) q * Q q k))) by (intros k Hk; apply (bget_rotl Q x b mid d); assumption).
    rewrite withone_turned by exact Hi. rewrite (Fdiv_def F_ft), <- sum_scale_r. apply sum_ext. intros k Hk. rewrite GA by assumption. rewrite (Fdiv_def F_ft). ring.
  - destruct (linear_process_input_reduce x bias b mid d Sx) as (A & EA & SA & GA).
    destruct (linear_process_input_reduce (rotl Q x) bias b mid d (eq_trans (shape_rotl _ _) Sx)) as (A' & EA' & SA' & GA').
    exists A, A', b. split; [exact EA|]. split; [exact EA'|]. split; [|exact SA].
    intros r i Hr Hi. rewrite GA' by assumption. unfold mmm.
    rewrite (withone_ext bias d _ (fun k => sum d (fun q => sum (prod mid) (fun s => bget x mid r s q) / fofnat (prod mid) * Q q k))).
    + rewrite withone_turned by exact Hi. rewrite (Fdiv_def F_ft), <- sum_scale_r. apply sum_ext. intros k Hk. rewrite GA by assumption. rewrite (Fdiv_def F_ft). ring.
    + intros k Hk. rewrite (sum_ext _ _ (fun s => sum d (fun q => bget x mid r s q * Q q k))) by (intros s Hs; apply (bget_rotl Q x b mid d); assumption).
      rewrite sum_swap, (Fdiv_def F_ft), <- sum_scale_r. apply sum_ext. intros q Hq. rewrite sum_scale_r, (Fdiv_def F_ft). ring.
Qed.

Lemma linear_grad_turned y la b mid d P ka : shape y = b :: mid ++ [d] -> ka = Expand \/ ka = Reduce ->
  exists B B' N, linear_process_grad_output y la ka = Ok B /\ linear_process_grad_output (rotl P y) la ka = Ok B' /\
    eqr N d (get2 B') (mmm d (get2 B) P) /\ shape B = [N; d].
Proof.
  intros Sy [-> | ->].
  - destruct (linear_process_grad_expand y la b mid d Sy) as (B & EB & SB & GB).
    destruct (linear_process_grad_expand (rotl P y) la b mid d (eq_trans (shape_rotl _ _) Sy)) as (B' & EB' & SB' & GB').
    exists B, B', (b * prod mid)%nat. split; [exact EB|]. split; [exact EB'|]. split; [|exact SB].
    intros r i Hr Hi. set (S := prod mid) in *. assert (NS : S <> O) by (intros Z; rewrite Z in Hr; lia).
    assert (Hn : (r / S < b)%nat) by (apply Nat.div_lt_upper_bound; [exact NS|lia]). pose proof (Nat.mod_upper_bound r S NS) as Hm.
    assert (Er : r = (r / S * S + r mod S)%nat) by (rewrite Nat.mul_comm; apply Nat.div_mod; exact NS).
    rewrite Er. rewrite GB' by assumption. rewrite (bget_rotl P y b mid d) by assumption. unfold mmm. rewrite <- sum_scale_l. apply sum_ext. intros k Hk. rewrite GB by assumption. ring.
  - destruct (linear_process_grad_reduce y la b mid d Sy) as (B & EB & SB & GB).
    destruct (linear_process_grad_reduce (rotl P y) la b mid d (eq_trans (shape_rotl _ _) Sy)) as (B' & EB' & SB' & GB').
    exists B, B', b. split; [exact EB|]. split; [exact EB'|]. split; [|exact SB].
    intros r i Hr Hi. rewrite GB' by assumption. unfold mmm.
    rewrite (sum_ext _ _ (fun s => sum d (fun q => bget y mid r s q * P q i))) by (intros s Hs; apply (bget_rotl P y b mid d); assumption).
    rewrite sum_swap, <- sum_scale_l. apply sum_ext. intros q Hq. rewrite GB by assumption. rewrite sum_scale_r. ring.
Qed.

Lemma process_turned l QP x y la ka dK dC : fits l x y -> framed l QP -> preconditioner_dims l = Ok (dK, dC) ->
  (exists e, process_input x l ka = Err e /\ process_input (rotl (fst QP) x) l ka = Err e) \/
  exists A A', process_input x l ka = Ok A /\ process_input (rotl (fst QP) x) l ka = Ok A' /\
   ((exists e, process_grad_output y l la ka = Err e /\ process_grad_output (rotl (snd QP) y) l la ka = Err e) \/
    exists B B' N, process_grad_output y l la ka = Ok B /\ process_grad_output (rotl (snd QP) y) l la ka = Ok B' /\ N <> O /\
      shape A = [N; dK] /\ shape A' = [N; dK] /\ shape B = [N; dC] /\ shape B' = [N; dC] /\
      eqr N dK (get2 A') (mmm dK (get2 A) (ext (fan l) (fst QP))) /\ eqr N dC (get2 B') (mmm dC (get2 B) (snd QP))).
Proof.
  intros FT FR Ed. assert (FT' : fits l (rotl (fst QP) x) (rotl (snd QP) y)) by (apply (fits_shape l x y); [exact FT|apply shape_rotl|apply shape_rotl]).
  destruct l as [d_in d_out bias|cv|]; [| |discriminate].
  - pose proof FT as (b & mid & Nb & Sx & Sy). destruct ka; [| |left; eexists; split; reflexivity].
    all: right; cbn [process_input].
    + destruct (linear_input_turned x bias b mid d_in (fst QP) Expand Sx (or_introl eq_refl)) as (A & A' & N & EA & EA' & GA & SA).
      exists A, A'. split; [exact EA|]. split; [exact EA'|].
      destruct (linear_grad_turned y la b mid d_out (snd QP) Expand Sy (or_introl eq_refl)) as (B & B' & N1 & EB & EB' & GB & SB).
      destruct la; [| | |left; eexists; split; reflexivity].
      all: right; exists B, B', N.
      all: match type of EB with linear_process_grad_output _ ?la _ = _ => destruct (process_shapes (Linear d_in d_out bias) x y la Expand A B dK dC FT Ed EA EB) as (M & NM & S1 & S2) end.
      all: match type of EB with linear_process_grad_output _ ?la _ = _ => destruct (process_shapes (Linear d_in d_out bias) _ _ la Expand A' B' dK dC FT' Ed EA' EB') as (M' & NM' & S1' & S2') end.
      all: cbn in Ed; injection Ed as <- <-; rewrite SA in S1; injection S1 as <-; rewrite SB in S2; injection S2 as ->.
      all: assert (M' = N) as -> by (destruct (linear_process_input_expand x bias b mid d_in Sx) as (A1 & X1 & X2 & _);
          destruct (linear_process_input_expand (rotl (fst QP) x) bias b mid d_in (eq_trans (shape_rotl _ _) Sx)) as (A2 & Y1 & Y2 & _); rewrite EA in X1; injection X1 as <-; rewrite EA' in Y1; injection Y1 as <-; congruence).
      all: split; [exact EB|]; split; [exact EB'|]; repeat (split; [assumption|]); assumption.
    + destruct (linear_input_turned x bias b mid d_in (fst QP) Reduce Sx (or_intror eq_refl)) as (A & A' & N & EA & EA' & GA & SA).
      exists A, A'. split; [exact EA|]. split; [exact EA'|].
      destruct (linear_grad_turned y la b mid d_out (snd QP) Reduce Sy (or_intror eq_refl)) as (B & B' & N1 & EB & EB' & GB & SB).
      destruct la; [| | |left; eexists; split; reflexivity].
      all: right; exists B, B', N.
      all: match type of EB with linear_process_grad_output _ ?la _ = _ => destruct (process_shapes (Linear d_in d_out bias) x y la Reduce A B dK dC FT Ed EA EB) as (M & NM & S1 & S2) end.
      all: match type of EB with linear_process_grad_output _ ?la _ = _ => destruct (process_shapes (Linear d_in d_out bias) _ _ la Reduce A' B' dK dC FT' Ed EA' EB') as (M' & NM' & S1' & S2') end.
      all: cbn in Ed; injection Ed as <- <-; rewrite SA in S1; injection S1 as <-; rewrite SB in S2; injection S2 as ->.
      all: assert (M' = N) as -> by (destruct (linear_process_input_reduce x bias b mid d_in Sx) as (A1 & X1 & X2 & _);
          destruct (linear_process_input_reduce (rotl (fst QP) x) bias b mid d_in (eq_trans (shape_rotl _ _) Sx)) as (A2 & Y1 & Y2 & _); rewrite EA in X1; injection X1 as <-; rewrite EA' in Y1; injection Y1 as <-; congruence).
      all: split; [exact EB|]; split; [exact EB'|]; repeat (split; [assumption|]); assumption.
  - cbn in FR. subst QP. cbn [fst snd]. destruct FT as (OKc & b & i1 & i2 & o1 & o2 & Nb & HO & Sx & Sy).
    rewrite !rotl_ident. rewrite !rotl_ident in FT'.
    destruct (process_input x (Conv2d cv) ka) as [A|e] eqn:EA; [|left; eauto]. right. exists A, A. split; [reflexivity|]. split; [reflexivity|].
    destruct (process_grad_output y (Conv2d cv) la ka) as [B|e] eqn:EB; [|left; eauto]. right.
    destruct (process_shapes _ x y la ka A B dK dC FT' Ed EA EB) as (N & NN & SA & SB). exists B, B, N.
    split; [reflexivity|]. split; [reflexivity|]. repeat (split; [assumption|]).
    split; [|rewrite mmm_id_r; reflexivity].
    assert (X1 : eqr dK dK (ext (fan (Conv2d cv)) ident) ident) by (intros p q _ _; apply ext_ident). rewrite X1, mmm_id_r. reflexivity.
Qed.

Lemma stat_turned c c' n K K' A A' N Q :
  usable c n -> usable c' n -> valid c n K -> valid c' n K' -> orth n Q -> alike c c' n Q -> eqm n (ent K') (turn n Q (ent K)) ->
  N <> O -> shape A = [N; n] -> shape A' = [N; n] -> eqr N n (get2 A') (mmm n (get2 A) Q) ->
  exists h h', from_inner K (Some (tr A)) = Ok h /\ from_inner K' (Some (tr A')) = Ok h' /\ valid c n h /\ valid c' n h' /\ eqm n (ent h') (turn n Q (ent h)).
Proof.
  intros (OK & D & _ & Nn) (OK' & D' & _ & Nn') V V' O ST E NN SA SA' EA.
  assert (STA : shape (tr A) = [n; N]) by (rewrite shape_tr, (rows_of _ _ _ SA), (cols_of _ _ _ _ SA); reflexivity).
  assert (STA' : shape (tr A') = [n; N]) by (rewrite shape_tr, (rows_of _ _ _ SA'), (cols_of _ _ _ _ SA'); reflexivity).
  destruct (from_inner_some_act c n K (tr A) N OK D V STA) as (h & Eh & Vh & Hh); [destruct c; cbn; auto|].
  destruct (from_inner_some_act c' n K' (tr A') N OK' D' V' STA') as (h' & Eh' & Vh' & Hh'); [destruct c'; cbn; auto|].
  exists h, h'. split; [exact Eh|]. split; [exact Eh'|]. split; [exact Vh|]. split; [exact Vh'|].
  assert (TRg : forall B, shape B = [N; n] -> eqr n N (get2 (tr B)) (tp (get2 B))).
  { intros B SB k r Hk Hr. unfold tr, tp. rewrite get2_tab2 by (rewrite ?(cols_of _ _ _ _ SB), ?(rows_of _ _ _ SB); assumption). reflexivity. }
  pose proof (rent_turn c c' n Q K K' (proj1 ST) V V' E) as RT.
  set (Y := fun i j => sum n (fun k => rent K i k * get2 (tr A) k j)) in *. set (Y' := fun i j => sum n (fun k => rent K' i k * get2 (tr A') k j)) in *.
  assert (EY : eqr n N Y' (mmm n (tp Q) Y)).
  { change Y with (mmm n (rent K) (get2 (tr A))). change Y' with (mmm n (rent K') (get2 (tr A'))).
    rewrite (TRg A SA), (TRg A' SA'), RT, EA, tp_mmm, turn_eqr. rewrite (mmm_assoc n N n n (tp Q)). rewrite (mmm_assoc n N n n (rent K) Q).
    rewrite <- (mmm_assoc n N n n Q (tp Q)). rewrite (orth_r n Q O), mmm_id_l. reflexivity. }
  pose proof (alike_proj c c' n Q _ _ ST (gram_turn n N Q Y Y' EY)) as X.
  change (eqr n n (ent h') (turn n Q (ent h))). transitivity (turn n Q (proj c n (gram N Y))).
  - intros i j Hi Hj. rewrite Hh' by assumption. apply X; assumption.
  - apply turn_proper. symmetry. exact Hh.
Qed.

Lemma local_H_turned g l prev x y s s' cK cC cK' cC' dK dC QP :
  usable cK dK -> usable cC dC -> usable cK' dK -> usable cC' dC -> preconditioner_dims l = Ok (dK, dC) -> typed cK cC dK dC s -> typed cK' cC' dK dC s' -> fits l x y ->
  framed l QP -> alike cK cK' dK (ext (fan l) (fst QP)) -> alike cC cC' dC (snd QP) -> turned_slots dK dC (ext (fan l) (fst QP)) (snd QP) s s' ->
  (exists e, local_H g l prev x y s = Err e /\ local_H g l prev (rotl (fst QP) x) (rotl (snd QP) y) s' = Err e) \/
  exists HK HC HK' HC', local_H g l prev x y s = Ok (HK, HC) /\ local_H g l prev (rotl (fst QP) x) (rotl (snd QP) y) s' = Ok (HK', HC') /\
    valid cK dK HK /\ valid cC dC HC /\ valid cK' dK HK' /\ valid cC' dC HC' /\
    eqm dK (ent HK') (turn dK (ext (fan l) (fst QP)) (ent HK)) /\ eqm dC (ent HC') (turn dC (snd QP) (ent HC)).
Proof.
  intros UK UC UK' UC' Ed [(K & EK & VK) (C & EC & VC) _ _ _ _] [(K' & EK' & VK') (C' & EC' & VC') _ _ _ _] FT FR SK SCC (RK & RC & _).
  rewrite EK, EK' in RK. rewrite EC, EC' in RC. cbn [oturn] in RK, RC. destruct (framed_orth l QP dK dC FR Ed) as [OQ OP].
  unfold local_H. rewrite EK, EC, EK', EC'. cbn [lookup].
  destruct (process_turned l QP x y (g_loss g) (g_approx g) dK dC FT FR Ed) as [(e & -> & ->)|(A & A' & -> & -> & [(e & -> & ->)|(B & B' & N & -> & -> & NN & SA & SA' & SB & SB' & GA & GB)])];
    cbn [bind]; try (left; exists e; split; reflexivity).
  destruct (stat_turned cK cK' dK K K' A A' N _ UK UK' VK VK' OQ SK RK NN SA SA' GA) as (HK & HK' & E1 & E1' & V1 & V1' & R1). rewrite E1, E1'. cbn [bind].
  destruct prev as [p|e]; [|left; exists e; split; reflexivity]. cbn [bind].
  destruct (feqb p 1) eqn:Ep.
  - cbn [bind]. destruct (stat_turned cC cC' dC C C' B B' N _ UC UC' VC VC' OP SCC RC NN SB SB' GB) as (HC & HC' & E2 & E2' & V2 & V2' & R2). rewrite E2, E2'. cbn [bind].
    right. exists HK, HC, HK', HC'. auto 10.
  - destruct (fltb p 0); [left; eexists; split; reflexivity|]. cbn [bind].
    assert (GD : forall Z, shape Z = [N; dC] -> eqr N dC (get2 (t_divs Z (fsqrt p))) (fun i j => get2 Z i j / fsqrt p)).
    { intros Z SZ i j Hi Hj. unfold t_divs. rewrite (t_map_ok2 _ _ _ _ SZ). rewrite get2_tab2 by assumption. reflexivity. }
    destruct (stat_turned cC cC' dC C C' (t_divs B (fsqrt p)) (t_divs B' (fsqrt p)) N _ UC UC' VC VC' OP SCC RC NN SB SB') as (HC & HC' & E2 & E2' & V2 & V2' & R2).
    + intros i j Hi Hj. rewrite (GD B' SB') by assumption. rewrite GB by assumption. unfold mmm. rewrite (Fdiv_def F_ft), <- sum_scale_r.
      apply sum_ext. intros k Hk. rewrite (GD B SB) by assumption. rewrite (Fdiv_def F_ft). ring.
    + rewrite E2, E2'. cbn [bind]. right. exists HK, HC, HK', HC'. auto 10.
Qed.

Lemma store_H_turned HK HC HK' HC' s s' cK cC cK' cC' dK dC QK QC :
  usable cK dK -> usable cC dC -> usable cK' dK -> usable cC' dC -> typed cK cC dK dC s -> typed cK' cC' dK dC s' ->
  valid cK dK HK -> valid cC dC HC -> valid cK' dK HK' -> valid cC' dC HC' ->
  eqm dK (ent HK') (turn dK QK (ent HK)) -> eqm dC (ent HC') (turn dC QC (ent HC)) -> turned_slots dK dC QK QC s s' ->
  turned_slots dK dC QK QC (fst (store_H HK HC s)) (fst (store_H HK' HC' s')) /\ snd (store_H HK' HC' s') = snd (store_H HK HC s).
Proof.
  intros UK UC UK' UC' T T' V1 V2 V3 V4 E1 E2 (RK & RC & RmK & RmC & RHK & RHC).
  destruct (store_H_typed HK HC s cK cC dK dC UK UC T V1 V2) as (hk & hc & -> & _ & _ & H1 & H2).
  destruct (store_H_typed HK' HC' s' cK' cC' dK dC UK' UC' T' V3 V4) as (hk' & hc' & -> & _ & _ & H3 & H4).
  cbn [fst snd]. split; [|reflexivity]. unfold turned_slots. cbn [sl_K sl_C sl_mK sl_mC sl_HK sl_HC set_HK set_HC oturn].
  assert (X : forall n Q o o' H H' h h', oturn n Q o o' -> eqm n (ent H') (turn n Q (ent H)) -> eqm n (ent h) (fun i j => oldm o i j + ent H i j) ->
     eqm n (ent h') (fun i j => oldm o' i j + ent H' i j) -> eqm n (ent h') (turn n Q (ent h))).
  { clear - FL. intros n Q o o' H H' h h' RO EH G G'. pose proof (oldm_turn n Q o o' RO) as EO. change (eqr n n (ent h') (turn n Q (ent h))).
    transitivity (turn n Q (fun i j => 1 * oldm o i j + 1 * ent H i j)).
    - intros i j Hi Hj. rewrite G' by assumption. rewrite turn_add, EO, EH by assumption. ring.
    - apply turn_proper. intros i j Hi Hj. rewrite G by assumption. ring. }
  repeat (split; [assumption|]). split; [apply (X dK QK (sl_HK s) (sl_HK s') HK HK')|apply (X dC QC (sl_HC s) (sl_HC s') HC HC')]; assumption.
Qed.


(** ** The step of one module *)

Lemma step_module_eq c m st :
  step_module c m st =
  match get_group c (s_groups st) m with
  | Err e => (st, Err e)
  | Ok g =>
      let '(sl, r) := update_slots g (m_layer m) (s_steps st) (s_scales st) (s_slots st (m_key m)) in
      let st1 := set_slots (upd (s_slots st) (m_key m) sl) st in
      match r with
      | Err e => (st1, Err e)
      | Ok _ =>
          match (let* N := nat_grad_matrix (m_layer m) (grad_data (s_par st (m_weight m))) (option_map (fun b => grad_data (s_par st b)) (m_bias m))
                    (get_grad_scale (s_scales st) (Z.of_nat (s_steps st))) (lookup (sl_K sl)) (lookup (sl_C sl)) in split_matrix (m_layer m) N) with
          | Err e => (st1, Err e)
          | Ok (w, b) =>
              match on_par (m_weight m) (param_step g w) st1 with
              | (st2, Err e) => (st2, Err e)
              | (st2, Ok _) => match m_bias m, b with Some p, Some d => on_par p (param_step g d) st2 | _, _ => (st2, Ok tt) end
              end
          end
      end
  end.
Proof.
  unfold step_module. unfold sbind at 1, update_preconditioner at 1, sbind at 1, getS at 1, sbind at 1, lift at 1.
  destruct (get_group c (s_groups st) m) as [g|] eqn:Eg; [|reflexivity]. unfold on_slots at 1.
  destruct (update_slots g (m_layer m) (s_steps st) (s_scales st) (s_slots st (m_key m))) as [sl [[]|e]]; [|reflexivity]. cbv zeta.
  unfold sbind at 1, compute_natural_gradient at 1, sbind at 1, getS at 1, sbind at 1, lift at 1.
  cbn [s_slots s_par s_scales s_steps set_slots]. rewrite upd_eq. destruct (nat_grad_matrix _ _ _ _ _ _) as [N|]; [|reflexivity]. cbn [bind].
  unfold lift at 1. destruct (split_matrix (m_layer m) N) as [[w b]|]; [|reflexivity].
  unfold sbind at 1, getS at 1. cbn [s_groups set_slots]. unfold sbind at 1, lift at 1. rewrite Eg. unfold sbind at 1.
  destruct (on_par (m_weight m) (param_step g w) _) as [st2 [[]|e]]; [|reflexivity]. destruct (m_bias m); [|reflexivity]. destruct b; reflexivity.
Qed.

Lemma structs_update g g' : same_but_structs g g' -> update_slots g' = update_slots g.
Proof. intros ->. destruct g. reflexivity. Qed.
Lemma structs_param g g' : same_but_structs g g' -> param_step g' = param_step g.
Proof. intros ->. destruct g. reflexivity. Qed.
Lemma structs_local g g' : same_but_structs g g' -> local_H g' = local_H g.
Proof. intros ->. destruct g. reflexivity. Qed.
Lemma structs_update_step g g' : same_but_structs g g' -> is_update_step g' = is_update_step g.
Proof. intros ->. destruct g. reflexivity. Qed.
Lemma structs_refl g : same_but_structs g g.
Proof. destruct g. reflexivity. Qed.
Lemma structs_all gs : Forall2 same_but_structs gs gs.
Proof. induction gs; constructor; [apply structs_refl|assumption]. Qed.

Lemma get_group_structs c gs gs' m : Forall2 same_but_structs gs gs' ->
  match get_group c gs m, get_group c gs' m with Ok g, Ok g' => same_but_structs g g' | Err e, Err e' => e' = e | _, _ => False end.
Proof.
  intros H. unfold get_group, sbind, lift.
  assert (N : forall i, match nth_error gs i, nth_error gs' i with Some g, Some g' => same_but_structs g g' | None, None => True | _, _ => False end).
  { clear m. induction H as [|g g' gs gs' H1 H2 IH]; intros [|i]; cbn; [exact I|exact I|exact H1|apply IH]. }
  assert (X : match (match c_p2g c (m_weight m) with None => Err KeyError | Some i => match nth_error gs i with Some g => Ok g | None => Err IndexError end end),
    (match c_p2g c (m_weight m) with None => Err KeyError | Some i => match nth_error gs' i with Some g => Ok g | None => Err IndexError end end) with
    | Ok g, Ok g' => same_but_structs g g' | Err e, Err e' => e' = e | _, _ => False end).
  { destruct (c_p2g c (m_weight m)) as [i|]; [|reflexivity]. specialize (N i). destruct (nth_error gs i), (nth_error gs' i); try contradiction; auto. }
  destruct (m_layer m); [exact X|exact X|reflexivity].
Qed.

(** [NS]: whether momenta may be normalised. *)
Definition frames (c : cfg) (NS : bool) (ty ty' : tys) (fr : modul -> mat * mat) (fp : nat -> mat * mat) : Prop :=
  forall m, In m (c_mods c) -> let '(cK, cC, dK, dC) := ty m in let '(cK', cC', dK', dC') := ty' m in
    framed (m_layer m) (fr m) /\ alike cK cK' dK (ext (fan (m_layer m)) (fst (fr m))) /\ alike cC cC' dC (snd (fr m)) /\
    (NS = true -> normal cK cK' dK (ext (fan (m_layer m)) (fst (fr m))) /\ normal cC cC' dC (snd (fr m))) /\
    forall p, In p (mod_params m) -> fp p = fr m.

Definition mod_turned (ty : tys) (fr : modul -> mat * mat) (m : modul) (s t : state) : Prop :=
  let '(cK, cC, dK, dC) := ty m in
  turned_slots dK dC (ext (fan (m_layer m)) (fst (fr m))) (snd (fr m)) (s_slots s (m_key m)) (s_slots t (m_key m)).

Record trel (c : cfg) (NS : bool) (ty : tys) (fr : modul -> mat * mat) (fo : nat -> mat) (fp : nat -> mat * mat) (s t : state) : Prop := mkTrel {
  t_eq : t = set_slots (s_slots t) (set_par (s_par t) (set_pend (s_pend t) (set_groups (s_groups t) s)));
  t_sl : forall m, In m (c_mods c) -> mod_turned ty fr m s t;
  t_par : forall p, s_par t p = turn_slot (fp p) (s_par s p);
  t_pd : forall out, match s_pend s out, s_pend t out with
           | Some (m, x), Some (m', x') => m' = m /\ x' = rotl (fst (fr m)) x /\ fo out = snd (fr m)
           | None, None => True
           | _, _ => False
           end;
  t_gr : Forall2 same_but_structs (s_groups s) (s_groups t);
  t_nn : NS = false -> Forall (fun g => g_normalize g = false) (s_groups s)
}.

Section Run.
Variables (c : cfg) (NS : bool) (ty ty' : tys) (fr : modul -> mat * mat) (fo : nat -> mat) (fp : nat -> mat * mat).
Hypotheses (OK : cfg_ok c) (TO : tys_ok c ty) (TO' : tys_ok c ty') (BF : forall m, In m (c_mods c) -> bias_fits m) (FRS : frames c NS ty ty' fr fp).

Lemma on_par_turned g d p s t :
  trel c NS ty fr fo fp s t ->
  trel c NS ty fr fo fp (fst (on_par p (param_step g d) s)) (fst (on_par p (param_step g (turnp (fp p) d)) t)) /\
  snd (on_par p (param_step g (turnp (fp p) d)) t) = snd (on_par p (param_step g d) s).
Proof.
  intros [E S P PD GR NN]. unfold on_par. rewrite (P p), param_step_turned. destruct (param_step g d (s_par s p)) as [q r]. cbn [fst snd]. split; [|reflexivity].
  constructor; cbn [s_slots s_par s_pend s_groups set_par]; try assumption.
  - rewrite E. reflexivity.
  - intros p'. unfold upd. destruct (Nat.eqb_spec p' p) as [->|]; [reflexivity|apply P].
Qed.

Lemma key_inj m m' : In m (c_mods c) -> In m' (c_mods c) -> m_key m = m_key m' -> m = m'.
Proof. intros H H' E. destruct (same_key (c_mods c) m m' (proj1 OK) H H') as [D|D]; [congruence|congruence]. Qed.

Lemma set_slots_turned m sl sl' s t :
  trel c NS ty fr fo fp s t -> In m (c_mods c) ->
  (let '(cK, cC, dK, dC) := ty m in turned_slots dK dC (ext (fan (m_layer m)) (fst (fr m))) (snd (fr m)) sl sl') ->
  trel c NS ty fr fo fp (set_slots (upd (s_slots s) (m_key m) sl) s) (set_slots (upd (s_slots t) (m_key m) sl') t).
Proof.
  intros [E S P PD GR NN] Hm H. constructor; cbn [s_slots s_par s_pend s_groups set_slots]; try assumption.
  - rewrite E. reflexivity.
  - intros m' Hm'. unfold mod_turned. cbn [s_slots set_slots]. destruct (Nat.eq_dec (m_key m') (m_key m)) as [Ek|Nk].
    + apply key_inj in Ek; [|assumption|assumption]. subst m'. rewrite !upd_eq. exact H.
    + rewrite !upd_neq by exact Nk. exact (S m' Hm').
Qed.

Lemma step_module_turned m s t :
  trel c NS ty fr fo fp s t -> In m (c_mods c) -> mod_typed ty m s -> mod_typed ty' m t ->
  (forall p, In p (mod_params m) -> slot_fits (shape_of m p) (s_par s p)) -> NoDup (mod_params m) ->
  trel c NS ty fr fo fp (fst (step_module c m s)) (fst (step_module c m t)) /\ snd (step_module c m t) = snd (step_module c m s).
Proof.
  intros R Hm T T' PF ND. pose proof R as [E S P PD GR NN]. pose proof (TO m Hm) as TOm. pose proof (TO' m Hm) as TOm'. pose proof (FRS m Hm) as FRm. pose proof (S m Hm) as Sm. unfold mod_typed in T, T'. unfold mod_turned in Sm.
  pose proof (set_slots_turned m) as SST. destruct (ty m) as [[[cK cC] dK] dC] eqn:Et. destruct (ty' m) as [[[cK' cC'] dK'] dC'] eqn:Et'. destruct TOm as (UK & UC & Ed). destruct TOm' as (UK' & UC' & Ed'). rewrite Ed in Ed'. injection Ed' as <- <-. destruct FRm as (FR & STK & STC & STN & FP).
  destruct (framed_orth _ _ _ _ FR Ed) as [OQ OP]. pose proof (dims_supported _ _ _ Ed) as Hs.
  rewrite !step_module_eq.
  assert (E2 : s_steps t = s_steps s) by (rewrite E; reflexivity). assert (E3 : s_scales t = s_scales s) by (rewrite E; reflexivity).
  rewrite E2, E3. pose proof (get_group_structs c _ _ m GR) as GG.
  destruct (get_group c (s_groups s) m) as [g|] eqn:Eg; destruct (get_group c (s_groups t) m) as [g'|] eqn:Eg'; try contradiction; [|subst; split; [exact R|reflexivity]].
  rewrite (structs_update g g' GG), (structs_param g g' GG).
  assert (NG : g_normalize g = true -> normal cK cK' dK (ext (fan (m_layer m)) (fst (fr m))) /\ normal cC cC' dC (snd (fr m))).
  { intros G1. apply STN. destruct NS; [reflexivity|]. apply get_group_In in Eg. pose proof (proj1 (Forall_forall _ _) (NN eq_refl) g Eg). congruence. }
  destruct (update_slots_turned g (m_layer m) (s_steps s) (s_scales s) _ _ cK cC cK' cC' dK dC _ _ UK UC UK' UC' Ed T T' OQ OP STK STC NG Sm) as [U1 U2].
  destruct (update_slots_typed g (m_layer m) (s_steps s) (s_scales s) _ cK cC dK dC UK UC Ed T) as [V1 _].
  destruct (update_slots_typed g (m_layer m) (s_steps s) (s_scales s) _ cK' cC' dK dC UK' UC' Ed T') as [V2 _].
  destruct (update_slots g (m_layer m) (s_steps s) (s_scales s) (s_slots s (m_key m))) as [sl r].
  destruct (update_slots g (m_layer m) (s_steps s) (s_scales s) (s_slots t (m_key m))) as [sl' r']. cbn [fst snd] in *. subst r'. cbv zeta.
  pose proof (SST sl sl' s t R Hm U1) as R1. destruct r as [[]|e]; [|split; [exact R1|reflexivity]].
  set (X := (let* N := nat_grad_matrix _ (grad_data (s_par s _)) _ _ _ _ in split_matrix _ N)). set (X' := (let* N := nat_grad_matrix _ (grad_data (s_par t _)) _ _ _ _ in split_matrix _ N)).
  assert (Nb : forall p, m_bias m = Some p -> p <> m_weight m).
  { intros p Ep. unfold mod_params in ND. rewrite Ep in ND. apply NoDup_cons_iff in ND as [ND _]. intros ->. apply ND. left. reflexivity. }
  assert (XX : match X, X' with Err e, Err e' => e' = e | Ok (w, b), Ok (w', b') => w' = turnp (fr m) w /\ b' = option_map (turnp (fr m)) b | _, _ => False end).
  { unfold X, X'. clear X X' R1 SST.
    assert (GS : grad_data (s_par s (m_weight m)) = match p_grad (s_par s (m_weight m)) with Some g => Ok g | None => Err AttributeError end) by reflexivity.
    assert (GT : grad_data (s_par t (m_weight m)) = match p_grad (s_par s (m_weight m)) with Some g => Ok (turnp (fr m) g) | None => Err AttributeError end).
    { unfold grad_data. rewrite (P (m_weight m)), (FP (m_weight m) (or_introl eq_refl)). cbn [turn_slot p_grad]. destruct (p_grad (s_par s (m_weight m))); reflexivity. }
    rewrite GS, GT. clear GS GT.
    pose proof (PF (m_weight m) (or_introl eq_refl)) as (_ & Sg & _). rewrite shape_weight in Sg.
    destruct (p_grad (s_par s (m_weight m))) as [wg|]; [|unfold nat_grad_matrix; cbn [option_map bind]; reflexivity]. cbn [option_map]. specialize (Sg wg eq_refl).
    pose proof (BF m Hm) as BFm. unfold bias_fits in BFm.
    assert (B : (exists p, m_bias m = Some p /\ p_grad (s_par s p) = None /\ p_grad (s_par t p) = None) \/
      exists bg, option_map (fun b => grad_data (s_par s b)) (m_bias m) = option_map Ok bg /\ option_map (fun b => grad_data (s_par t b)) (m_bias m) = option_map Ok (option_map (turnp (fr m)) bg) /\
       match bg with Some b => has_bias (m_layer m) = true /\ shape b = [n_out (m_layer m)] | None => has_bias (m_layer m) = false end).
    { destruct (m_bias m) as [p|] eqn:Eb.
      - assert (Ip : In p (mod_params m)) by (unfold mod_params; rewrite Eb; right; left; reflexivity).
        destruct (PF p Ip) as (_ & Sg' & _). cbn [option_map]. unfold grad_data. rewrite (P p), (FP p Ip). cbn [turn_slot p_grad].
        destruct (p_grad (s_par s p)) as [bg|] eqn:Egb.
        + right. exists (Some bg). cbn [option_map]. split; [reflexivity|]. split; [reflexivity|]. split; [exact BFm|]. rewrite <- (shape_bias m p (Nb p eq_refl)). apply Sg'. reflexivity.
        + left. exists p. split; [reflexivity|]. split; [exact Egb|]. rewrite P. cbn [turn_slot p_grad]. rewrite Egb. reflexivity.
      - right. exists None. split; [reflexivity|]. split; [reflexivity|]. exact BFm. }
    destruct B as [(p & Eb & G1 & G2)|(bg & B1 & B2 & Sbg)].
    { rewrite Eb. cbn [option_map]. unfold grad_data. rewrite G1, G2. unfold nat_grad_matrix. cbn [bind]. reflexivity. }
    rewrite B1, B2. pose proof V1 as [(K & EK & VK) (C & EC & VC) _ _ _ _]. pose proof V2 as [(K' & EK' & VK') (C' & EC' & VC') _ _ _ _].
    pose proof U1 as (RK & RC & _). rewrite EK, EK' in RK. rewrite EC, EC' in RC. cbn [oturn] in RK, RC. rewrite EK, EC, EK', EC'. cbn [lookup].
    destruct (get_grad_scale (s_scales s) (Z.of_nat (s_steps s))) as [cur|e].
    - destruct (nat_grad_turned (m_layer m) (fr m) wg bg cur K C K' C' cK cC cK' cC' dK dC FR Ed Sg Sbg UK UC UK' UC' (proj1 STK) (proj1 STC) VK VC VK' VC' RK RC)
        as (N & N' & w & b & EN & EN' & ES & ES' & _). rewrite EN, EN'. cbn [bind]. rewrite ES, ES'. split; reflexivity.
    - destruct (C49_gradient_matrix_lemma (m_layer m) wg bg Hs Sg Sbg) as (M & EM & _).
      destruct (grad_matrix_turned (m_layer m) (fr m) wg bg dK dC M FR Hs Ed Sg Sbg EM) as (M' & EM' & _).
      unfold nat_grad_matrix. destruct bg as [bg|]; cbn [option_map bind] in *; rewrite EM, EM'; cbn [bind]; reflexivity. }
  destruct X as [[w b]|e], X' as [[w' b']|e']; try contradiction.
  2:{ subst e'. split; [exact R1|reflexivity]. }
  destruct XX as [-> ->]. rewrite <- (FP (m_weight m) (or_introl eq_refl)).
  destruct (on_par_turned g w (m_weight m) _ _ R1) as [R2 O2].
  destruct (on_par (m_weight m) (param_step g w) _) as [s2 r2]. destruct (on_par (m_weight m) (param_step g (turnp (fp (m_weight m)) w)) _) as [t2 r2']. cbn [fst snd] in R2, O2. subst r2'.
  destruct r2 as [[]|e]; [|split; [exact R2|reflexivity]].
  destruct (m_bias m) as [p|] eqn:Eb; [|split; [exact R2|reflexivity]]. destruct b as [d|]; [|split; [exact R2|reflexivity]]. cbn [option_map].
  rewrite (FP (m_weight m) (or_introl eq_refl)). rewrite <- (FP p) by (unfold mod_params; rewrite Eb; right; left; reflexivity). apply on_par_turned. exact R2.
Qed.

Lemma steps_turned l : forall s t,
  trel c NS ty fr fo fp s t -> incl l (c_mods c) -> NoDup (map m_key l) -> NoDup (flat_map mod_params l) ->
  (forall m, In m l -> mod_typed ty m s) -> (forall m, In m l -> mod_typed ty' m t) -> pars_fit c s ->
  trel c NS ty fr fo fp (fst (forS (step_module c) l s)) (fst (forS (step_module c) l t)) /\ snd (forS (step_module c) l t) = snd (forS (step_module c) l s).
Proof.
  induction l as [|m l IH]; intros s t R I NK NP TA TA' PF; [split; [exact R|reflexivity]|].
  assert (Hm : In m (c_mods c)) by (apply I; left; reflexivity). cbn [map flat_map] in NK, NP. apply NoDup_cons_iff in NK as [NK1 NK2].
  destruct (step_module_turned m s t R Hm (TA m (or_introl eq_refl)) (TA' m (or_introl eq_refl)) (fun p => PF m p Hm) (nodup_l _ _ NP)) as [R1 O1].
  pose proof (step_module_frame c m s) as FS. pose proof (step_module_frame c m t) as FT. pose proof (step_module_kf c m s) as KF.
  cbn [forS]. unfold sbind. destruct (step_module c m s) as [s1 r]. destruct (step_module c m t) as [t1 r']. cbn [fst snd] in *. subst r'.
  destruct r as [[]|e]; [|split; [exact R1|reflexivity]].
  assert (KN : forall m', In m' l -> m_key m' <> m_key m) by (intros m' Hm' X; apply NK1; rewrite <- X; apply in_map; exact Hm').
  apply IH; try assumption.
  - intros m' Hm'. apply I. right. exact Hm'.
  - exact (nodup_r _ _ NP).
  - intros m' Hm'. unfold mod_typed. destruct FS as (_ & _ & _ & _ & _ & _ & _ & FS & _). rewrite FS by (intros X; injection X as X; exact (KN m' Hm' X)). apply TA. right. exact Hm'.
  - intros m' Hm'. unfold mod_typed. destruct FT as (_ & _ & _ & _ & _ & _ & _ & FT & _). rewrite FT by (intros X; injection X as X; exact (KN m' Hm' X)). apply TA'. right. exact Hm'.
  - intros m' p Hm' Hp. apply KF. exact (PF m' p Hm' Hp).
Qed.

(** ** Calls *)

Lemma set_scale_turned v s t : trel c NS ty fr fo fp s t ->
  trel c NS ty fr fo fp (fst (set_current_grad_scale v s)) (fst (set_current_grad_scale v t)) /\ snd (set_current_grad_scale v t) = snd (set_current_grad_scale v s).
Proof.
  intros [E S P PD GR NN].
  assert (X : set_current_grad_scale v t = (set_slots (s_slots t) (set_par (s_par t) (set_pend (s_pend t) (set_groups (s_groups t) (fst (set_current_grad_scale v s))))), snd (set_current_grad_scale v s))).
  { rewrite E at 1. unfold set_current_grad_scale, sbind, getS, modify, lift, ret. cbn [s_steps s_scales set_par set_slots set_pend set_scales set_groups].
    destruct (Nat.eqb (s_steps s) 0); [|reflexivity]. destruct (get_grad_scale _ (-1)); [|reflexivity]. destruct (get_grad_scale _ 0); [|reflexivity].
    destruct (_ && _)%bool; reflexivity. }
  rewrite X. cbn [fst snd]. split; [|reflexivity]. destruct (set_current_grad_scale v s) as [s' r] eqn:Es. cbn [fst].
  apply set_current_grad_scale_frame in Es as ((F1 & F2 & F3 & F4 & F5 & F6 & F7) & _).
  constructor; cbn [s_slots s_par s_pend s_groups set_slots set_par set_pend set_groups].
  - reflexivity.
  - intros m Hm. unfold mod_turned. cbn [s_slots set_slots set_par set_pend set_groups]. rewrite F2. exact (S m Hm).
  - rewrite F3. exact P.
  - rewrite F7. exact PD.
  - rewrite F4. exact GR.
  - rewrite F4. exact NN.
Qed.

Lemma ensure_turned s t : trel c NS ty fr fo fp s t ->
  trel c NS ty fr fo fp (fst (ensure_scale s)) (fst (ensure_scale t)) /\ snd (ensure_scale t) = snd (ensure_scale s).
Proof.
  intros R. pose proof R as [E _ _ _ _ _].
  assert (E1 : s_amp t = s_amp s) by (rewrite E; reflexivity). assert (E2 : s_steps t = s_steps s) by (rewrite E; reflexivity). assert (E3 : s_scales t = s_scales s) by (rewrite E; reflexivity).
  unfold ensure_scale, sbind, getS, ret, raise. rewrite E1, E2, E3.
  destruct (get_grad_scale _ _); [split; [exact R|reflexivity]|]. destruct (s_amp s) as [[v|]|]; [apply set_scale_turned; exact R|split; [exact R|reflexivity]|apply set_scale_turned; exact R].
Qed.

Lemma finish_turned s t : trel c NS ty fr fo fp s t -> trel c NS ty fr fo fp (finish s) (finish t).
Proof.
  intros [E S P PD GR NN]. unfold finish. constructor; cbn; try assumption. rewrite E. reflexivity.
Qed.

Lemma oturn_none n Q : oturn n Q None None. Proof. exact I. Qed.

Lemma step_turned closure s t :
  trel c NS ty fr fo fp s t -> all_typed c ty s -> all_typed c ty' t -> pars_fit c s ->
  trel c NS ty fr fo fp (fst (step c closure s)) (fst (step c closure t)) /\ snd (step c closure t) = snd (step c closure s).
Proof.
  intros R TA TA' PF. destruct closure; [split; [exact R|reflexivity]|]. rewrite !step_eq.
  destruct (ensure_turned s t R) as [R1 O1]. destruct (ensure_scale s) as [s1 r] eqn:Es. destruct (ensure_scale t) as [t1 r'] eqn:Et. cbn [fst snd] in R1, O1. subst r'.
  apply ensure_scale_frame in Es as ((_ & F2 & F3 & _) & _). apply ensure_scale_frame in Et as ((_ & G2 & G3 & _) & _).
  destruct r as [[]|e]; [|split; [exact R1|reflexivity]]. pose proof R1 as [E S P PD GR NN].
  assert (EI : s_inf t1 = s_inf s1) by (rewrite E; reflexivity). rewrite EI. destruct (s_inf s1).
  - split; [|reflexivity]. cbn [fst]. apply finish_turned. assert (EL : s_log t1 = s_log s1) by (rewrite E; reflexivity). rewrite EL.
    constructor; cbn [s_slots s_par s_pend s_groups drop_H set_slots set_log]; try assumption.
    + rewrite E. reflexivity.
    + intros m Hm. unfold mod_turned. cbn [s_slots drop_H set_slots set_log]. specialize (S m Hm). unfold mod_turned in S.
      destruct (existsb _ _); [|exact S]. destruct (ty m) as [[[cK cC] dK] dC]. destruct S as (S1 & S2 & S3 & S4 & _).
      unfold turned_slots. cbn [sl_K sl_C sl_mK sl_mC sl_HK sl_HC set_HK set_HC oturn]. auto 10.
  - destruct (steps_turned (c_mods c) s1 t1 R1) as [R2 O2].
    + intros m Hm. exact Hm.
    + exact (proj1 OK).
    + exact (proj2 OK).
    + intros m Hm. unfold mod_typed. rewrite F2. apply TA. exact Hm.
    + intros m Hm. unfold mod_typed. rewrite G2. apply TA'. exact Hm.
    + intros m p Hm Hp. rewrite F3. exact (PF m p Hm Hp).
    + unfold step_all. destruct (forS (step_module c) (c_mods c) s1) as [s2 r2]. destruct (forS (step_module c) (c_mods c) t1) as [t2 r2']. cbn [fst snd] in R2, O2. subst r2'.
      destruct r2 as [[]|e]; (split; [|reflexivity]); [apply finish_turned; exact R2|exact R2].
Qed.

Lemma backward_turned out g s t :
  trel c NS ty fr fo fp s t -> all_typed c ty s -> all_typed c ty' t -> wf_event c s (EBackward out g) ->
  trel c NS ty fr fo fp (fst (event_op c (EBackward out g) s)) (fst (event_op c (EBackward out (rotl (fo out) g)) t)) /\
  snd (event_op c (EBackward out (rotl (fo out) g)) t) = snd (event_op c (EBackward out g) s).
Proof.
  intros R TA TA' W. pose proof R as [E S P PD GR NN]. specialize (PD out).
  destruct (s_pend s out) as [[m x]|] eqn:EP.
  2:{ destruct (s_pend t out) as [[m' x']|] eqn:EP'; [contradiction|]. cbn [event_op]. unfold sbind, getS. rewrite EP, EP'. split; [exact R|reflexivity]. }
  destruct (s_pend t out) as [[m' x']|] eqn:EP'; [|contradiction]. destruct PD as (-> & -> & FO).
  pose proof (W m x EP) as FT. assert (Hm : In m (c_mods c)) by (exact (proj2 TA _ _ _ EP)).
  rewrite (backward_eq c s out m x g EP), (backward_eq c t out m _ _ EP'), FO.
  assert (E2 : s_steps t = s_steps s) by (rewrite E; reflexivity). assert (E3 : s_scales t = s_scales s) by (rewrite E; reflexivity).
  rewrite E2, E3. pose proof (get_group_structs c _ _ m GR) as GG.
  destruct (get_group c (s_groups s) m) as [gr|]; destruct (get_group c (s_groups t) m) as [gr'|]; try contradiction; [|subst; split; [exact R|reflexivity]].
  rewrite (structs_local gr gr' GG).
  pose proof (TO m Hm) as TOm. pose proof (TO' m Hm) as TOm'. pose proof (FRS m Hm) as FRm. pose proof (S m Hm) as Sm. pose proof (proj1 TA m Hm) as T. pose proof (proj1 TA' m Hm) as T'. unfold mod_typed in T, T'. unfold mod_turned in Sm.
  pose proof (set_slots_turned m) as SST. destruct (ty m) as [[[cK cC] dK] dC] eqn:Et. destruct (ty' m) as [[[cK' cC'] dK'] dC'] eqn:Et'. destruct TOm as (UK & UC & Ed). destruct TOm' as (UK' & UC' & Ed'). rewrite Ed in Ed'. injection Ed' as <- <-. destruct FRm as (FR & STK & STC & STN & FP).
  destruct (local_H_turned gr (m_layer m) (get_grad_scale (s_scales s) (Z.of_nat (s_steps s) - 1)) x g _ _ cK cC cK' cC' dK dC (fr m) UK UC UK' UC' Ed T T' FT FR STK STC Sm)
    as [(e & -> & ->)|(HK & HC & HK' & HC' & -> & -> & V1 & V2 & V3 & V4 & H1 & H2)]; [split; [exact R|reflexivity]|].
  destruct (store_H_turned HK HC HK' HC' _ _ cK cC cK' cC' dK dC _ _ UK UC UK' UC' T T' V1 V2 V3 V4 H1 H2 Sm) as [U1 U2]. unfold on_slots.
  destruct (store_H HK HC (s_slots s (m_key m))) as [sl r]. destruct (store_H HK' HC' (s_slots t (m_key m))) as [sl' r']. cbn [fst snd] in *. subst r'.
  split; [|reflexivity]. apply SST; assumption.
Qed.

Lemma event_turned e e' s t :
  trel c NS ty fr fo fp s t -> all_typed c ty s -> all_typed c ty' t -> pars_fit c s -> wf_event c s e -> turned_call NS fr fo fp e e' ->
  trel c NS ty fr fo fp (fst (event_op c e s)) (fst (event_op c e' t)) /\ snd (event_op c e' t) = snd (event_op c e s).
Proof.
  intros R TA TA' PF W H. pose proof R as [E S P PD GR NN].
  destruct e; cbn [turned_call] in H.
  - destruct e'; try discriminate H. destruct H as (-> & -> & -> & -> & HO). cbn [event_op].
    destruct (forward_frame c m x grad_on out s) as (E1 & F1 & _). destruct (forward_frame c m (rotl (fst (fr m)) x) grad_on out t) as (E2 & F2 & _).
    assert (FO : snd (forward_hook c m (rotl (fst (fr m)) x) grad_on out t) = snd (forward_hook c m x grad_on out s) /\
      match s_pend (fst (forward_hook c m x grad_on out s)) out, s_pend (fst (forward_hook c m (rotl (fst (fr m)) x) grad_on out t)) out with
      | Some (m, x), Some (m', x') => m' = m /\ x' = rotl (fst (fr m)) x /\ fo out = snd (fr m) | None, None => True | _, _ => False end).
    { unfold forward_hook, sbind, getS, modify, lift, ret. assert (E0 : s_steps t = s_steps s) by (rewrite E; reflexivity). rewrite E0. pose proof (get_group_structs c _ _ m GR) as GG.
      destruct (get_group c (s_groups s) m) as [gr|]; destruct (get_group c (s_groups t) m) as [gr'|]; try contradiction; [|subst; cbn; rewrite !upd_eq; split; [reflexivity|exact I]].
      rewrite (structs_update_step gr gr' GG). destruct (negb grad_on); [cbn; rewrite !upd_eq; split; [reflexivity|exact I]|].
      destruct (is_update_step _ _) as [[|]|]; cbn; rewrite !upd_eq; split; try reflexivity; try exact I. auto. }
    split; [|apply FO]. destruct FO as [_ FO]. constructor.
    + rewrite E2, E1. cbn [s_slots s_par s_pend set_pend]. rewrite E. reflexivity.
    + intros m' Hm'. unfold mod_turned. rewrite E1, E2. exact (S m' Hm').
    + intros p. rewrite E1, E2. exact (P p).
    + intros o. destruct (Nat.eq_dec o out) as [->|N]; [exact FO|]. rewrite F1, F2 by exact N. exact (PD o).
    + rewrite E1, E2. exact GR.
    + rewrite E1. exact NN.
  - destruct e'; try discriminate H. destruct H as (-> & ->). exact (backward_turned out g s t R TA TA' W).
  - destruct e'; try discriminate H. destruct H as (-> & ->). split; [|reflexivity].
    constructor; cbn; try assumption; [rewrite E; reflexivity|]. intros p'. unfold upd. destruct (Nat.eqb_spec p' p) as [->|]; [|apply P]. rewrite P. reflexivity.
  - subst e'. apply set_scale_turned. exact R.
  - subst e'. split; [|reflexivity]. constructor; cbn; try assumption. rewrite E. reflexivity.
  - subst e'. apply step_turned; assumption.
  - destruct e'; try discriminate H. destruct H as (HG & HN). split; [|reflexivity]. constructor; cbn; try assumption. rewrite E. reflexivity.
Qed.

Lemma wf_turned e e' s t : trel c NS ty fr fo fp s t -> turned_call NS fr fo fp e e' -> wf_event c s e -> wf_event c t e'.
Proof.
  intros [E S P PD GR NN] H W. destruct e; cbn [turned_call] in H; try (subst e'; exact I).
  - destruct e'; try discriminate H. destruct H as (-> & _). exact W.
  - destruct e'; try discriminate H. destruct H as (-> & ->). intros m x EP. specialize (PD out). rewrite EP in PD.
    destruct (s_pend s out) as [[m' x']|] eqn:EP'; [|contradiction]. destruct PD as (-> & -> & FO). rewrite FO.
    apply (fits_shape _ x' g); [exact (W m' x' EP')|apply shape_rotl|apply shape_rotl].
  - destruct e'; try discriminate H. exact I.
  - destruct e'; try discriminate H. exact I.
Qed.

Lemma run_turned es : forall es' s t,
  trel c NS ty fr fo fp s t -> all_typed c ty s -> all_typed c ty' t -> pars_fit c s -> wf_run c es s -> Forall (grad_fits c) es -> Forall2 (turned_call NS fr fo fp) es es' ->
  trel c NS ty fr fo fp (run c es s) (run c es' t) /\ outcomes c es' t = outcomes c es s.
Proof.
  induction es as [|e es IH]; intros es' s t R TA TA' PF W GF SH; inversion SH as [|? e' ? es2 H1 H2]; subst; [split; [exact R|reflexivity]|].
  destruct W as [W1 W2]. apply Forall_cons_iff in GF as [GF1 GF2]. destruct (event_turned e e' s t R TA TA' PF W1 H1) as [R1 O1].
  destruct (IH es2 _ _ R1) as [R2 O2]; try assumption.
  - apply event_all_typed; [exact TO|exact (proj1 OK)|exact TA|exact W1].
  - apply event_all_typed; [exact TO'|exact (proj1 OK)|exact TA'|exact (wf_turned e e' s t R H1 W1)].
  - apply event_fits; assumption.
  - split; [exact R2|]. cbn [outcomes]. rewrite O1, O2. reflexivity.
Qed.
End Run.

Lemma turn_const n Q M M' : eqm n M ident -> eqm n M' ident -> orth n Q -> eqm n M' (turn n Q M).
Proof.
  intros H H' O. change (eqr n n M' (turn n Q M)). transitivity (turn n Q ident); [|apply turn_proper; symmetry; exact H].
  transitivity ident; [exact H'|]. symmetry. apply turn_ident. exact O.
Qed.

Lemma setting_alike NS a a' par par' c c' st0 st0' es es' fr fo fp :
  setting a par c st0 -> setting a' par' c' st0' -> torch_shapes par c -> (forall p, par' p = turn_slot (fp p) (par p)) ->
  same_parameters a a' -> a_init_scale a' = a_init_scale a -> Forall2 same_but_structs (s_groups st0) (s_groups st0') ->
  (NS = false -> Forall (fun g => g_normalize g = false) (s_groups st0)) ->
  (forall m cK cC cK' cC' dK dC, In m (c_mods c) -> has_ty c st0 m cK cC dK dC -> has_ty c' st0' m cK' cC' dK dC ->
     framed (m_layer m) (fr m) /\ alike cK cK' dK (ext (fan (m_layer m)) (fst (fr m))) /\ alike cC cC' dC (snd (fr m)) /\
     (NS = true -> normal cK cK' dK (ext (fan (m_layer m)) (fst (fr m))) /\ normal cC cC' dC (snd (fr m))) /\
     forall p, In p (mod_params m) -> fp p = fr m) ->
  Forall2 (turned_call NS fr fo fp) es es' -> wf_run c es st0 -> Forall (grad_fits c) es ->
  same_cfg c c' /\ trel c NS (ctor_ty c (s_groups st0)) fr fo fp (run c es st0) (run c' es' st0') /\ outcomes c' es' st0' = outcomes c es st0.
Proof.
  intros S S' TS HP SP IS GR NN FR SH W GF. pose proof S as ((h1 & h2 & E1) & _). pose proof S' as ((h3 & h4 & E2) & _).
  destruct (ctor_same_cfg _ _ _ _ _ _ _ _ _ _ _ _ SP E1 E2) as [SCF _]. split; [exact SCF|].
  destruct (run_cfg c c' es' SCF st0') as [-> ->].
  destruct (setting_facts a par c st0 [] S TS I (Forall_nil _)) as (OK & TO & TA & PF & SO). cbn [run] in *.
  pose proof (setting_ok _ _ _ _ S) as [_ L]. pose proof S as (_ & _ & _ & _ & STR).
  pose proof (setting_ok _ _ _ _ S') as [OK' L']. pose proof S' as (_ & _ & _ & _ & STR').
  destruct (ctor_typed _ _ _ _ _ _ E1 (proj1 OK) STR L) as (_ & _ & CT).
  destruct (ctor_typed _ _ _ _ _ _ E2 (proj1 OK') STR' L') as (TO' & TA' & CT').
  assert (EM : c_mods c' = c_mods c) by exact (proj1 SCF).
  pose proof (ctor_state _ _ _ _ _ _ E1) as (A1 & A2 & A3 & A4 & D1 & A6 & P1). pose proof (ctor_state _ _ _ _ _ _ E2) as (B1 & B2 & B3 & B4 & D2 & B6 & P2).
  assert (FRS : frames c NS (ctor_ty c (s_groups st0)) (ctor_ty c' (s_groups st0')) fr fp).
  { intros m Hm. destruct (CT m Hm) as (g & cK & cC & dK & dC & K & C & C1 & C2 & C3 & -> & _).
    assert (Hm' : In m (c_mods c')) by (rewrite EM; exact Hm). destruct (CT' m Hm') as (g' & cK' & cC' & dK' & dC' & K' & C' & C1' & C2' & C3' & -> & _).
    rewrite C3 in C3'. injection C3' as <- <-. apply FR; [exact Hm|exists g; auto|exists g'; auto]. }
  apply (run_turned c NS (ctor_ty c (s_groups st0)) (ctor_ty c' (s_groups st0'))); try assumption.
  - unfold tys_ok in *. rewrite EM in TO'. exact TO'.
  - exact (proj1 TS).
  - constructor.
    + rewrite IS in B2. destruct st0, st0'. cbn in *. subst. reflexivity.
    + intros m Hm. specialize (FRS m Hm). unfold mod_turned. assert (Hm' : In m (c_mods c')) by (rewrite EM; exact Hm).
      destruct (CT m Hm) as (g & cK & cC & dK & dC & K & C & C1 & C2 & C3 & C4 & C5 & C6 & C7 & C8 & C9 & C10 & C11).
      destruct (CT' m Hm') as (g' & cK' & cC' & dK' & dC' & K' & C' & C1' & C2' & C3' & C4' & C5' & C6' & C7' & C8' & C9' & C10' & C11').
      rewrite C3 in C3'. injection C3' as <- <-.
      rewrite C4, C4' in *. destruct FRS as (F1 & F2 & F3 & _). destruct (framed_orth _ _ _ _ F1 C3) as [OQ OP].
      pose proof (get_group_structs c _ _ m GR) as GG. rewrite C1, <- (get_group_cfg c c' _ m SCF), C1' in GG.
      assert (GA : g_alpha1 g' = g_alpha1 g) by (rewrite GG; reflexivity). rewrite GA in C9'.
      unfold turned_slots. rewrite C5, C7, C10, C11, C5', C7', C10', C11'. cbn [oturn]. split; [apply turn_const; assumption|]. split; [apply turn_const; assumption|].
      assert (Z : forall n Q m m', eqm n (ent m) (fun _ _ => 0) -> eqm n (ent m') (fun _ _ => 0) -> eqm n (ent m') (turn n Q (ent m))).
      { intros n Q m0 m0' Hz Hz'. change (eqr n n (ent m0') (turn n Q (ent m0))). transitivity (turn n Q (fun _ _ => 0)); [|apply turn_proper; symmetry; exact Hz].
        intros i j Hi Hj. rewrite Hz', turn_0 by assumption. reflexivity. }
      destruct (feqb (g_alpha1 g) 0).
      * destruct C9 as [-> ->]. destruct C9' as [-> ->]. repeat split.
      * destruct C9 as (mK & mC & -> & -> & Z1 & Z2). destruct C9' as (mK' & mC' & -> & -> & Z1' & Z2'). cbn [oturn].
        split; [apply Z; assumption|]. split; [apply Z; assumption|]. split; exact I.
    + intros p. rewrite P1, P2, HP. reflexivity.
    + intros out. rewrite D1, D2. exact I.
    + exact GR.
    + exact NN.
  - unfold all_typed in *. rewrite EM in TA'. exact TA'.
Qed.

Lemma stable_alike c n Q : stable c n Q -> alike c c n Q.
Proof. intros S. split; [left; reflexivity|exact S]. Qed.

Lemma same_parameters_refl a : same_parameters a a.
Proof. split; [reflexivity|]. destruct (a_params a); reflexivity. Qed.

(** ** Which changes of basis a structure admits *)

Lemma stable_dense n Q : stable CDense n Q.
Proof. intros M i j _ _. reflexivity. Qed.

Lemma stable_ident c n : stable c n ident.
Proof.
  intros M i j Hi Hj. assert (X : forall N, eqm n (turn n ident N) N).
  { intros N. change (eqr n n (turn n ident N) N). rewrite turn_eqr. assert (T : eqr n n (tp ident) ident) by (intros p q _ _; unfold tp, ident; rewrite Nat.eqb_sym; reflexivity).
    rewrite T, mmm_id_l, mmm_id_r. reflexivity. }
  rewrite (X (proj c n M)) by assumption. apply proj_ext; try assumption. intros p q Hp Hq. apply X; assumption.
Qed.

Lemma stable_diag n Q : monomial n Q -> stable CDiag n Q.
Proof.
  intros MO M i j Hi Hj. cbn [proj]. unfold turn. destruct (Nat.eqb_spec i j) as [->|N].
  - apply sum_ext. intros a Ha. apply sum_ext. intros b Hb. destruct (Nat.eqb_spec a b) as [->|Nab]; [reflexivity|].
    destruct (MO j a b Hj Ha Hb Nab) as [H _]. replace (Q a j * M a b * Q b j) with (Q a j * Q b j * M a b) by ring. rewrite H. ring.
  - symmetry. apply sum_0. intros a Ha. apply sum_0. intros b Hb. destruct (Nat.eqb_spec a b) as [->|Nab]; [|ring].
    destruct (MO b i j Hb Hi Hj N) as [_ H]. replace (Q b i * M b b * Q b j) with (Q b i * Q b j * M b b) by ring. rewrite H. ring.
Qed.

Lemma stable_block D n Q : blockwise D n Q -> stable (CBlock D) n Q.
Proof.
  intros BW M i j Hi Hj. cbn [proj]. unfold turn. destruct (Nat.eqb_spec (i / D) (j / D)) as [E|N].
  - apply sum_ext. intros a Ha. apply sum_ext. intros b Hb. destruct (Nat.eqb_spec (a / D) (b / D)) as [|Nab]; [reflexivity|].
    destruct (Nat.eq_dec (a / D) (i / D)) as [Ea|Na]; [|rewrite (BW a i Ha Hi Na); ring]. rewrite (BW b j Hb Hj) by congruence. ring.
  - symmetry. apply sum_0. intros a Ha. apply sum_0. intros b Hb. destruct (Nat.eqb_spec (a / D) (b / D)) as [E|Nab]; [|ring].
    destruct (Nat.eq_dec (a / D) (i / D)) as [Ea|Na]; [|rewrite (BW a i Ha Hi Na); ring]. rewrite (BW b j Hb Hj) by congruence. ring.
Qed.

Lemma monomial_ext n Q (b : bool) : monomial n Q -> monomial (if b then n + 1 else n)%nat (ext n Q).
Proof.
  intros MO i x y Hi Hx Hy N.
  assert (X : forall p, (p < if b then n + 1 else n)%nat -> (p < n)%nat \/ p = n) by (intros p Hp; destruct b; lia).
  assert (Z1 : forall p, (p < n)%nat -> ext n Q p n = 0) by (intros p Hp; rewrite ext_new_r, ident_neq by lia; reflexivity).
  assert (Z2 : forall p, (p < n)%nat -> ext n Q n p = 0) by (intros p Hp; rewrite ext_new_l, ident_neq by lia; reflexivity).
  destruct (X i Hi) as [Ii| ->]; destruct (X x Hx) as [Ix| ->]; destruct (X y Hy) as [Iy| ->]; try (exfalso; apply N; reflexivity).
  - rewrite !ext_in by assumption. apply MO; assumption.
  - rewrite (Z2 i Ii), (Z1 i Ii). split; ring.
  - rewrite (Z2 i Ii), (Z1 i Ii). split; ring.
  - rewrite (Z1 x Ix), (Z2 x Ix). split; ring.
  - rewrite (Z1 x Ix), (Z2 x Ix). split; ring.
  - rewrite (Z1 y Iy), (Z2 y Iy). split; ring.
Qed.

Lemma monomial_ident i a b : a <> b -> ident a i * ident b i = 0 /\ ident i a * ident i b = 0.
Proof. intros N. unfold ident. destruct (Nat.eqb_spec a i) as [->|]; destruct (Nat.eqb_spec b i) as [->|]; rewrite ?Nat.eqb_refl; try contradiction;
  repeat (match goal with |- context [Nat.eqb ?x ?y] => destruct (Nat.eqb_spec x y); subst; try contradiction end); split; ring. Qed.

(** ** The function a layer computes *)

Lemma lin_turned n r QP W b x i :
  shape W = [r; n] -> (match b with Some b => shape b = [r] | None => True end) -> orth n (fst QP) -> (i < r)%nat ->
  lin n (turnp QP W) (option_map (turnp QP) b) (fun k => sum n (fun q => x q * fst QP q k)) i = sum r (fun a => snd QP a i * lin n W b x a).
Proof.
  intros SW Sb OQ Hi. unfold lin. rewrite (sum_ext r _ (fun a => snd QP a i * sum n (fun k => get2 W a k * x k) + snd QP a i * match b with Some b => get1 b a | None => 0 end)) by (intros; ring).
  rewrite sum_plus. f_equal.
  - assert (G : forall k, (k < n)%nat -> get2 (turnp QP W) i k = sum r (fun a => sum n (fun b => snd QP a i * get2 W a b * fst QP b k))).
    { intros k Hk. unfold turnp. rewrite SW, get2_tab2 by assumption. reflexivity. }
    rewrite (sum_ext n _ (fun k => sum r (fun a => snd QP a i * (mmm n (get2 W) (fst QP) a k * sum n (fun q => x q * fst QP q k))))).
    2:{ intros k Hk. rewrite G by exact Hk. rewrite <- sum_scale_r. apply sum_ext. intros a Ha. unfold mmm.
        replace (sum n (fun b0 => snd QP a i * get2 W a b0 * fst QP b0 k)) with (snd QP a i * sum n (fun b0 => get2 W a b0 * fst QP b0 k)); [ring|].
        rewrite <- sum_scale_l. apply sum_ext. intros b0 Hb0. ring. }
    rewrite sum_swap. apply sum_ext. intros a Ha. rewrite sum_scale_l. f_equal.
    pose (X := fun (p q : nat) => x p).
    assert (E : eqr 1 1 (mmm n (mmm n (fun _ => get2 W a) (fst QP)) (mmm n (tp (fst QP)) X)) (mmm n (fun _ => get2 W a) X)).
    { rewrite (mmm_assoc 1 1 n n). rewrite <- (mmm_assoc n 1 n n (fst QP) (tp (fst QP)) X). rewrite (orth_r n (fst QP) OQ), mmm_id_l. reflexivity. }
    specialize (E O O (Nat.lt_0_succ 0) (Nat.lt_0_succ 0)). unfold mmm, tp, X in E. rewrite <- E. apply sum_ext. intros k Hk. unfold mmm. f_equal. apply sum_ext. intros q Hq. ring.
  - destruct b as [b|]; cbn [option_map].
    + unfold turnp. rewrite Sb, get1_tab1 by exact Hi. reflexivity.
    + symmetry. apply sum_0. intros. ring.
Qed.

End Rotate.
