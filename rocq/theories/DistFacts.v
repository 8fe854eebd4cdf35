(** Lemmas: processes in lock step, and all_reduce of structured matrices. *)

From Coq Require Import List Arith Lia Bool ZArith Field.
From Verif Require Import Scalar Res Tensor TensorFacts Structures StructSpec StructDense StructPattern StructOps OptimUtils Optimizer Dist.
Import ListNotations.

Section Facts.
Context {SC : Scalar} {FL : FieldLaws SC}.
Add Field FFdi : F_ft.
Open Scope F_scope.

Lemma redop_eqb_refl op : redop_eqb op op = true.
Proof. destruct op; reflexivity. Qed.

(** ** Lock step *)

Section Lock.
Variable R : nat.

(** [R] processes that issue the same collectives and whose results have property [P]. *)
Inductive lock {A} (P : (nat -> A) -> Prop) : (nat -> proc A) -> Prop :=
| lock_done ps a : (forall r, (r < R)%nat -> ps r = Done (a r)) -> P a -> lock P ps
| lock_coll ps op t k :
    (forall r, (r < R)%nat -> ps r = AllRed op (t r) (k r)) -> (forall r, (r < R)%nat -> shape (t r) = shape (t O)) ->
    lock P (fun r => k r (reduced op (map t (seq 0 R)))) -> lock P ps.

Lemma lock_ext {A} (P : (nat -> A) -> Prop) ps qs : (forall r, (r < R)%nat -> qs r = ps r) -> lock P ps -> lock P qs.
Proof.
  intros H L. destruct L as [ps a Ha Pa|ps op t k Hk Hs L].
  - apply (lock_done P _ a); [|exact Pa]. intros r Hr. rewrite H, Ha by exact Hr. reflexivity.
  - apply (lock_coll P _ op t k); [|exact Hs|exact L]. intros r Hr. rewrite H, Hk by exact Hr. reflexivity.
Qed.
Lemma lock_weaken {A} (P Q : (nat -> A) -> Prop) ps : (forall a, P a -> Q a) -> lock P ps -> lock Q ps.
Proof. intros H L. induction L as [ps a Ha Pa|ps op t k Hk Hs L IH]; [eapply lock_done; eauto|eapply lock_coll; eauto]. Qed.
Lemma lock_ret {A} (P : (nat -> A) -> Prop) a : P a -> lock P (fun r => Done (a r)).
Proof. intros H. apply (lock_done P _ a); auto. Qed.

Lemma lock_bind {A B} (P : (nat -> A) -> Prop) (Q : (nat -> B) -> Prop) ps f :
  lock P ps -> (forall a, P a -> lock Q (fun r => f r (a r))) -> lock Q (fun r => pbind (ps r) (f r)).
Proof.
  intros L H. induction L as [ps a Ha Pa|ps op t k Hk Hs L IH].
  - apply (lock_ext Q (fun r => f r (a r))); [|apply H; exact Pa]. intros r Hr. rewrite Ha by exact Hr. reflexivity.
  - apply (lock_coll Q _ op t (fun r x => pbind (k r x) (f r))); [|exact Hs|exact IH]. intros r Hr. rewrite Hk by exact Hr. reflexivity.
Qed.

Lemma done_all {A} (ps : nat -> proc A) a l : (forall r, In r l -> ps r = Done (a r)) -> all_done (map ps l) = Some (map a l).
Proof.
  induction l as [|r l IH]; intros H; [reflexivity|]. cbn [map all_done]. rewrite H by (left; reflexivity).
  rewrite IH by (intros; apply H; right; assumption). reflexivity.
Qed.
Lemma call_all {A} (ps : nat -> proc A) op sh t k l :
  (forall r, In r l -> ps r = AllRed op (t r) (k r)) -> (forall r, In r l -> shape (t r) = sh) ->
  same_call op sh (map ps l) = Some (map t l, map k l).
Proof.
  induction l as [|r l IH]; intros H Hs; [reflexivity|]. cbn [map same_call]. rewrite H, Hs by (left; reflexivity).
  rewrite redop_eqb_refl, shape_eqb_refl. cbn [andb]. rewrite IH; [reflexivity| |]; intros; [apply H|apply Hs]; right; assumption.
Qed.

Lemma world_lock {A} (P : (nat -> A) -> Prop) ps :
  R <> O -> lock P ps -> exists a, world (map ps (seq 0 R)) = Some (map a (seq 0 R)) /\ P a.
Proof.
  intros NR L. assert (ES : exists l, seq 0 R = O :: l /\ (forall r, In r l -> (r < R)%nat) /\ (0 < R)%nat).
  { exists (seq 1 (R - 1)). destruct R as [|n]; [contradiction|]. split; [cbn; rewrite Nat.sub_0_r; reflexivity|]. split; [|lia]. intros r Hr. apply in_seq in Hr. lia. }
  destruct ES as (l & ES & I & P0).
  induction L as [ps a Ha Pa|ps op t k Hk Hs L IH].
  - exists a. split; [|exact Pa]. rewrite ES. cbn [map world]. rewrite Ha by lia. cbn [exec]. rewrite (done_all ps a) by (intros; apply Ha, I; assumption). reflexivity.
  - destruct IH as (a & Ea & Pa). exists a. split; [|exact Pa]. rewrite ES in *. cbn [map world] in *. rewrite Hk by lia. cbn [exec].
    rewrite (call_all ps op _ t k); [| |]; [|intros; apply Hk, I; assumption|intros; apply Hs, I; assumption].
    cbv zeta. rewrite map_map. exact Ea.
Qed.

(** ** Lists of tensors *)

Definition comp (ts : list tensor) (k : nat) : tensor := nth k ts (zeros []).
Definition totals (op : redop) (L : nat -> list tensor) (n : nat) : list tensor :=
  map (fun k => reduced op (map (fun r => comp (L r) k) (seq 0 R))) (seq 0 n).

(** What [all_reduce] leaves in the components: those that are not contiguous keep the process's own value. *)
Fixpoint mixed (lay : nat -> bool) (i : nat) (own tots : list tensor) : list tensor :=
  match own, tots with
  | t :: own', x :: tots' => (if lay i then x else t) :: mixed lay (S i) own' tots'
  | _, _ => []
  end.

Lemma mixed_true lay : forall own tots i, length own = length tots -> (forall k, (i <= k < i + length own)%nat -> lay k = true) -> mixed lay i own tots = tots.
Proof.
  induction own as [|t own IH]; intros [|x tots] i HL H; try discriminate; [reflexivity|]. cbn [mixed]. rewrite H by (cbn; lia).
  f_equal. apply IH; [cbn in HL; lia|]. intros k Hk. apply H. cbn. lia.
Qed.

Lemma totals_cons op L n : R <> O ->
  totals op L (S n) = reduced op (map (fun r => comp (L r) O) (seq 0 R)) :: totals op (fun r => tl (L r)) n.
Proof.
  intros NR. unfold totals. cbn [seq map]. f_equal. rewrite <- seq_shift, map_map. apply map_ext. intros k. f_equal. apply map_ext. intros r.
  unfold comp. destruct (L r); [destruct k; reflexivity|reflexivity].
Qed.

Lemma reduce_list_lock op (lay : nat -> nat -> bool) : R <> O -> forall shs L i,
  (forall r, (r < R)%nat -> map shape (L r) = shs) ->
  lock (fun a => forall r, (r < R)%nat -> a r = mixed (lay r) i (L r) (totals op L (length shs))) (fun r => reduce_list op (lay r) i (L r)).
Proof.
  intros NR. induction shs as [|sh shs IH]; intros L i H.
  - apply (lock_done _ _ (fun _ => [])).
    + intros r Hr. specialize (H r Hr). destruct (L r); [reflexivity|discriminate].
    + intros r Hr. specialize (H r Hr). destruct (L r); [reflexivity|discriminate].
  - assert (HL : forall r, (r < R)%nat -> L r = comp (L r) O :: tl (L r) /\ shape (comp (L r) O) = sh /\ map shape (tl (L r)) = shs).
    { intros r Hr. specialize (H r Hr). destruct (L r) as [|t l]; [discriminate|]. injection H as H1 H2. auto. }
    set (x := reduced op (map (fun r => comp (L r) O) (seq 0 R))).
    eapply (lock_coll _ _ op (fun r => comp (L r) O)
      (fun r x => pbind (reduce_list op (lay r) (S i) (tl (L r))) (fun xs => Done ((if lay r i then x else comp (L r) O) :: xs)))).
    + intros r Hr. destruct (HL r Hr) as (E & _). rewrite E at 1. reflexivity.
    + intros r Hr. rewrite (proj1 (proj2 (HL r Hr))). symmetry. apply HL. lia.
    + fold x.
      apply (lock_bind _ _ (fun r => reduce_list op (lay r) (S i) (tl (L r))) (fun r xs => Done ((if lay r i then x else comp (L r) O) :: xs)) (IH (fun r => tl (L r)) (S i) (fun r Hr => proj2 (proj2 (HL r Hr))))).
      intros a Ha. apply (lock_ret _ (fun r => (if lay r i then x else comp (L r) O) :: a r)). intros r Hr. cbn [length]. rewrite totals_cons by exact NR. fold x.
      destruct (HL r Hr) as (E & _). rewrite E at 2. cbn [mixed]. rewrite Ha by exact Hr. reflexivity.
Qed.

(** Reduction of numbers, one per process. *)
Definition red (op : redop) (f : nat -> F) : F := match op with OpSum => sum R f | OpAvg => sum R f / fofnat R end.

Lemma red_ext op f g : (forall r, (r < R)%nat -> f r = g r) -> red op f = red op g.
Proof. intros H. unfold red. destruct op; [|f_equal]; apply sum_ext; exact H. Qed.

Lemma reduced_spec op (t : nat -> tensor) sh :
  R <> O -> (forall r, (r < R)%nat -> shape (t r) = sh) ->
  shape (reduced op (map t (seq 0 R))) = sh /\
  forall idx, in_range sh idx -> tget (reduced op (map t (seq 0 R))) idx = red op (fun r => tget (t r) idx).
Proof.
  intros NR H. assert (E : shape (reduced op (map t (seq 0 R))) = sh).
  { unfold reduced. cbn [shape tab]. destruct R as [|n]; [contradiction|]. cbn [seq map]. apply H. lia. }
  split; [exact E|]. intros idx Hi. unfold reduced in *. cbn [shape tab] in E. rewrite E. rewrite tget_tab by exact Hi.
  rewrite map_length, seq_length. unfold red.
  assert (X : sum R (fun r => tget (nth r (map t (seq 0 R)) (zeros [])) idx) = sum R (fun r => tget (t r) idx)).
  { apply sum_ext. intros r Hr. f_equal. rewrite (nth_indep _ _ (t O)) by (rewrite map_length, seq_length; exact Hr).
    rewrite map_nth, seq_nth by exact Hr. reflexivity. }
  rewrite X. reflexivity.
Qed.

End Lock.

Lemma red_zero R op : R <> O -> red R op (fun _ => 0) = 0.
Proof.
  intros NR. assert (Z : sum R (fun _ => 0) = 0) by (clear NR; induction R as [|n IH]; [reflexivity|cbn [sum]; rewrite IH; ring]).
  destruct R as [|n]; [contradiction|]. unfold red. destruct op; [exact Z|]. rewrite Z. field. apply fofnat_S_neq0.
Qed.

(** ** Structured matrices *)

(** The shapes of the components. *)
Fixpoint comp_shapes (c : cls) (n : nat) : list (list nat) :=
  match c with
  | CDense => [[n; n]]
  | CDiag | CTril | CTriu => [[n]]
  | CBlock D => [[n / D; D; D]; [n mod D; n mod D]]%nat
  | CHier k1 k2 => let '(K1, d, K2) := hier_parts k1 k2 n in [[K1; K1]; [K1; (d + K2)%nat]; [d]; [K2; d]; [K2; K2]]
  | CRec sd ma mc ca cc =>
      let k := boundary n ma mc in
      match sd with TopRight => [k; (n - k)%nat] | BottomLeft => [(n - k)%nat; k] end :: comp_shapes ca k ++ comp_shapes cc (n - k)
  end.

Lemma valid_shapes c : forall n s, valid c n s -> map shape (tensors s) = comp_shapes c n.
Proof.
  induction c; intros n s V; destruct s; simpl in V; try contradiction; cbn [tensors map comp_shapes].
  - rewrite V. reflexivity.
  - rewrite V. reflexivity.
  - destruct V as (_ & -> & ->). reflexivity.
  - destruct V as (_ & _ & K1 & d & K2 & -> & -> & -> & -> & -> & ->). reflexivity.
  - rewrite V. reflexivity.
  - rewrite V. reflexivity.
  - destruct V as (-> & -> & -> & -> & -> & VA & VC & ->). rewrite map_app, (IHc1 _ _ VA), (IHc2 _ _ VC). destruct sd; reflexivity.
Qed.

Lemma refill_ok c : forall n s ts rest,
  valid c n s -> map shape ts = comp_shapes c n ->
  exists m, refill s (ts ++ rest) = (m, rest) /\ valid c n m /\ tensors m = ts.
Proof.
  induction c; intros n s ts rest V E; destruct s; simpl in V; try contradiction; cbn [comp_shapes] in E.
  1,2,5,6: destruct ts as [|t [|? ?]]; try discriminate; injection E as E; eexists; repeat split; cbn; auto.
  - destruct V as (-> & _ & _). destruct ts as [|t [|u [|? ?]]]; try discriminate. injection E as E1 E2. eexists. repeat split; cbn; auto.
  - destruct V as (-> & -> & K1 & d & K2 & Ed & _). rewrite Ed in E.
    destruct ts as [|t1 [|t2 [|t3 [|t4 [|t5 [|? ?]]]]]]; try discriminate. injection E as E1 E2 E3 E4 E5. eexists. split; [reflexivity|].
    split; [|reflexivity]. simpl. split; [reflexivity|]. split; [reflexivity|]. exists K1, d, K2. auto 10.
  - destruct V as (-> & -> & -> & -> & -> & VA & VC & _). destruct ts as [|t ts]; [discriminate|]. cbn [map] in E. injection E as E1 E2.
    apply map_eq_app in E2 as (ta & tc & -> & Ea & Ec).
    cbn [refill app take1]. rewrite <- app_assoc.
    destruct (IHc1 _ _ ta (tc ++ rest) VA Ea) as (mA & -> & VA' & TA). destruct (IHc2 _ _ tc rest VC Ec) as (mC & -> & VC' & TC).
    eexists. split; [reflexivity|]. split; [|cbn [tensors]; congruence]. simpl. repeat (split; [reflexivity|]). split; [exact VA'|]. split; [exact VC'|].
    rewrite E1. destruct sd; reflexivity.
Qed.

Lemma comp_shape ts shs k : map shape ts = shs -> (k < length shs)%nat -> shape (comp ts k) = nth k shs [].
Proof. intros <- H. unfold comp. change (@nil nat) with (shape (zeros [])). rewrite map_nth. reflexivity. Qed.

(** Every entry is 0 or an entry of a component. *)
Definition located (c : cls) (n i j : nat) (o : option (nat * list nat)) : Prop :=
  match o with
  | None => forall s, valid c n s -> ent s i j = 0
  | Some (k, idx) =>
      (k < length (comp_shapes c n))%nat /\ in_range (nth k (comp_shapes c n) []) idx /\
      forall s, valid c n s -> ent s i j = tget (comp (tensors s) k) idx
  end.

Lemma locate c : forall n i j, cls_ok c -> (i < n)%nat -> (j < n)%nat -> exists o, located c n i j o.
Proof.
  induction c; intros n i j Hok Hi Hj.
  - exists (Some (O, [i; j])). split; [cbn; lia|]. split; [apply in_range2; assumption|]. intros [] V; simpl in V; try contradiction. reflexivity.
  - destruct (Nat.eqb_spec i j) as [<-|N].
    + exists (Some (O, [i])). split; [cbn; lia|]. split; [apply in_range1; assumption|]. intros [] V; simpl in V; try contradiction. cbn [ent]. rewrite Nat.eqb_refl. reflexivity.
    + exists None. intros [] V; simpl in V; try contradiction. cbn [ent]. destruct (Nat.eqb_spec i j); [contradiction|reflexivity].
  - simpl in Hok. pose proof (block_dims D n Hok). pose proof (div_lt_iff D i n Hok Hi). pose proof (div_lt_iff D j n Hok Hj).
    pose proof (Nat.mod_upper_bound i D Hok). pose proof (Nat.mod_upper_bound j D Hok).
    destruct (Nat.eqb_spec (i / D) (j / D)) as [E|N].
    2:{ exists None. intros [] V; simpl in V; try contradiction. destruct V as (-> & _). cbn [ent]. destruct (Nat.eqb_spec (i / D) (j / D)); [contradiction|reflexivity]. }
    destruct (Nat.ltb_spec (i / D) (n / D)) as [L|L].
    + exists (Some (O, [i / D; i mod D; j mod D]%nat)). split; [cbn; lia|]. split; [cbn [comp_shapes nth]; apply in_range3; assumption|].
      intros [] V; simpl in V; try contradiction. destruct V as (-> & Hb & Hl). cbn [ent]. rewrite (rows_of _ _ _ Hb), E, Nat.eqb_refl. rewrite E in L.
      destruct (Nat.ltb_spec (j / D) (n / D)); [reflexivity|lia].
    + exists (Some (1%nat, [i - n / D * D; j - n / D * D]%nat)). split; [cbn; lia|]. split; [cbn [comp_shapes nth]; apply in_range2; lia|].
      intros [] V; simpl in V; try contradiction. destruct V as (-> & Hb & Hl). cbn [ent]. rewrite (rows_of _ _ _ Hb), E, Nat.eqb_refl. rewrite E in L.
      destruct (Nat.ltb_spec (j / D) (n / D)); [lia|reflexivity].
  - try rewrite block_dims_eq. destruct (hier_parts k1 k2 n) as [[K1 d] K2] eqn:Ed. pose proof Ed as Ed'. apply hier_parts_spec in Ed' as (En & _).
    assert (P : forall o, match o with
      | None => forall k1' k2' A B C D E, shape A = [K1; K1] -> shape C = [d] -> ent (MHier k1' k2' A B C D E) i j = 0
      | Some (k, idx) => (k < 5)%nat /\ in_range (nth k [[K1; K1]; [K1; (d + K2)%nat]; [d]; [K2; d]; [K2; K2]] []) idx /\
          forall k1' k2' A B C D E, shape A = [K1; K1] -> shape C = [d] -> ent (MHier k1' k2' A B C D E) i j = tget (comp [A; B; C; D; E] k) idx end ->
      located (CHier k1 k2) n i j o).
    { intros [[k idx]|]; unfold located; cbn [comp_shapes]; rewrite ?Ed.
      - intros (Hk & Hr & He). split; [exact Hk|]. split; [exact Hr|]. intros [] V; simpl in V; try contradiction.
        destruct V as (-> & -> & K1' & d' & K2' & Ed' & HA & HB & HC & HD & HE). rewrite Ed in Ed'. injection Ed' as <- <- <-. cbn [tensors]. apply He; assumption.
      - intros He [] V; simpl in V; try contradiction.
        destruct V as (-> & -> & K1' & d' & K2' & Ed' & HA & HB & HC & HD & HE). rewrite Ed in Ed'. injection Ed' as <- <- <-. apply He; assumption. }
    destruct (Nat.ltb_spec i K1) as [L1|L1]; [destruct (Nat.ltb_spec j K1) as [L2|L2]|destruct (Nat.ltb_spec i (K1 + d)) as [L2|L2];
      [destruct (Nat.eqb_spec i j) as [E0|N]|destruct (Nat.ltb_spec j K1) as [L3|L3]; [|destruct (Nat.ltb_spec j (K1 + d)) as [L4|L4]]]].
    1: exists (Some (0%nat, [i; j])). 2: exists (Some (1%nat, [i; (j - K1)%nat])). 3: exists (Some (2%nat, [(i - K1)%nat])). 4,5: exists None.
    6: exists (Some (3%nat, [(i - K1 - d)%nat; (j - K1)%nat])). 7: exists (Some (4%nat, [(i - K1 - d)%nat; (j - K1 - d)%nat])).
    all: apply P. 1,2,3,6,7: split; [lia|]; split; [cbn [nth]; first [apply in_range2; lia|apply in_range1; lia]|].
    all: intros k1' k2' A B C D E HA HC; cbn [ent]; rewrite (rows_of _ _ _ HA), (rows_of _ _ _ HC); bd; reflexivity.
  - destruct (Nat.leb_spec j i).
    + exists (Some (O, [(i - j)%nat])). split; [cbn; lia|]. split; [apply in_range1; lia|]. intros [] V; simpl in V; try contradiction. cbn [ent]. bd. reflexivity.
    + exists None. intros [] V; simpl in V; try contradiction. cbn [ent]. bd. reflexivity.
  - destruct (Nat.leb_spec i j).
    + exists (Some (O, [(j - i)%nat])). split; [cbn; lia|]. split; [apply in_range1; lia|]. intros [] V; simpl in V; try contradiction. cbn [ent]. bd. reflexivity.
    + exists None. intros [] V; simpl in V; try contradiction. cbn [ent]. bd. reflexivity.
  - apply valid_rec_ok in Hok as [Ha Hc]. pose proof (boundary_le n ma mc) as L. set (k := boundary n ma mc) in *.
    assert (VR : forall s, valid (CRec sd ma mc c1 c2) n s -> exists A B C, s = MRec sd ma mc c1 c2 A B C /\ valid c1 k A /\ valid c2 (n - k) C).
    { intros [] V; simpl in V; try contradiction. destruct V as (-> & -> & -> & -> & -> & VA & VC & _). do 3 eexists. split; [reflexivity|]. split; assumption. }
    assert (PA : (i < k)%nat -> (j < k)%nat -> exists o, located (CRec sd ma mc c1 c2) n i j o).
    { intros L1 L2. destruct (IHc1 k i j Ha L1 L2) as ([[q idx]|] & Ho); unfold located in Ho.
      - destruct Ho as (Hq & Hr & He). exists (Some (S q, idx)). unfold located. cbn [comp_shapes]. fold k. split; [cbn; rewrite app_length; lia|].
        split; [cbn [nth]; rewrite app_nth1 by exact Hq; exact Hr|]. intros s V. destruct (VR s V) as (A & B & C & -> & VA & VC).
        assert (LA : (q < length (tensors A))%nat) by (rewrite <- (map_length shape), (valid_shapes _ _ _ VA); exact Hq).
        cbn [tensors ent]. rewrite (valid_sdim _ _ _ Ha VA). unfold comp. cbn [nth]. rewrite app_nth1 by exact LA. rewrite He by exact VA. unfold comp. destruct sd; bd; reflexivity.
      - exists None. intros s V. destruct (VR s V) as (A & B & C & -> & VA & VC). cbn [ent]. rewrite (valid_sdim _ _ _ Ha VA), Ho by exact VA. destruct sd; bd; reflexivity. }
    assert (PC : (k <= i)%nat -> (k <= j)%nat -> exists o, located (CRec sd ma mc c1 c2) n i j o).
    { intros L1 L2. destruct (IHc2 (n - k)%nat (i - k)%nat (j - k)%nat Hc) as ([[q idx]|] & Ho); [lia|lia| |]; unfold located in Ho.
      - destruct Ho as (Hq & Hr & He). exists (Some (S (length (comp_shapes c1 k) + q), idx)). unfold located. cbn [comp_shapes]. fold k. split; [cbn; rewrite app_length; lia|].
        split; [cbn [nth]; rewrite app_nth2_plus; exact Hr|]. intros s V. destruct (VR s V) as (A & B & C & -> & VA & VC).
        assert (LA : length (tensors A) = length (comp_shapes c1 k)) by (rewrite <- (valid_shapes _ _ _ VA); symmetry; apply map_length).
        cbn [tensors ent]. rewrite (valid_sdim _ _ _ Ha VA). unfold comp. cbn [nth]. rewrite <- LA, app_nth2_plus. rewrite He by exact VC. unfold comp. destruct sd; bd; reflexivity.
      - exists None. intros s V. destruct (VR s V) as (A & B & C & -> & VA & VC). cbn [ent]. rewrite (valid_sdim _ _ _ Ha VA), Ho by exact VC. destruct sd; bd; reflexivity. }
    destruct (Nat.ltb_spec i k) as [L1|L1], (Nat.ltb_spec j k) as [L2|L2]; try (apply PA; assumption); try (apply PC; assumption); destruct sd.
    + exists (Some (O, [i; (j - k)%nat])). split; [cbn; lia|]. split; [cbn [comp_shapes nth]; fold k; apply in_range2; lia|].
      intros s V. destruct (VR s V) as (A & B & C & -> & VA & VC). cbn [ent]. rewrite (valid_sdim _ _ _ Ha VA). bd. reflexivity.
    + exists None. intros s V. destruct (VR s V) as (A & B & C & -> & VA & VC). cbn [ent]. rewrite (valid_sdim _ _ _ Ha VA). bd. reflexivity.
    + exists None. intros s V. destruct (VR s V) as (A & B & C & -> & VA & VC). cbn [ent]. rewrite (valid_sdim _ _ _ Ha VA). bd. reflexivity.
    + exists (Some (O, [(i - k)%nat; j])). split; [cbn; lia|]. split; [cbn [comp_shapes nth]; fold k; apply in_range2; lia|].
      intros s V. destruct (VR s V) as (A & B & C & -> & VA & VC). cbn [ent]. rewrite (valid_sdim _ _ _ Ha VA). bd. reflexivity.
Qed.

(** The matrix whose components are the reductions of the components. *)
Lemma totals_matrix R op c n (s : nat -> smat) :
  R <> O -> cls_ok c -> (forall r, (r < R)%nat -> valid c n (s r)) ->
  exists m, valid c n m /\ tensors m = totals R op (fun r => tensors (s r)) (length (comp_shapes c n)) /\
    (forall r, (r < R)%nat -> fst (refill (s r) (tensors m)) = m) /\ repr m n (fun i j => red R op (fun r => ent (s r) i j)).
Proof.
  intros NR Hok V. set (T := totals R op (fun r => tensors (s r)) (length (comp_shapes c n))).
  assert (CS : forall k, (k < length (comp_shapes c n))%nat -> forall r, (r < R)%nat -> shape (comp (tensors (s r)) k) = nth k (comp_shapes c n) []).
  { intros k Hk r Hr. apply comp_shape; [|exact Hk]. apply valid_shapes. apply V. exact Hr. }
  assert (CT : forall k, (k < length (comp_shapes c n))%nat -> comp T k = reduced op (map (fun r => comp (tensors (s r)) k) (seq 0 R))).
  { intros k Hk. unfold comp at 1, T, totals. set (f := fun k => reduced op (map (fun r => comp (tensors (s r)) k) (seq 0 R))). rewrite (nth_indep _ _ (f O)) by (rewrite map_length, seq_length; exact Hk).
    rewrite map_nth, seq_nth by exact Hk. reflexivity. }
  assert (ST : map shape T = comp_shapes c n).
  { apply (nth_ext _ _ [] []); [unfold T, totals; rewrite !map_length, seq_length; reflexivity|].
    intros k Hk. unfold T, totals in Hk. rewrite !map_length, seq_length in Hk. change (@nil nat) with (shape (zeros [])) at 1. rewrite map_nth. fold (comp T k).
    rewrite CT by exact Hk. apply reduced_spec; [exact NR|]. apply CS. exact Hk. }
  destruct (refill_ok c n (s O) T [] (V O ltac:(lia)) ST) as (m & Em & Vm & Tm). rewrite app_nil_r in Em. exists m. split; [exact Vm|]. split; [exact Tm|].
  assert (EN : repr m n (fun i j => red R op (fun r => ent (s r) i j))).
  { intros i j Hi Hj. destruct (locate c n i j Hok Hi Hj) as ([[k idx]|] & Ho); unfold located in Ho.
    - destruct Ho as (Hk & Hr & He). rewrite (He m Vm), Tm, CT by exact Hk.
      rewrite (proj2 (reduced_spec R op _ _ NR (CS k Hk)) idx Hr). apply red_ext. intros r Hr'. symmetry. apply He. apply V. exact Hr'.
    - rewrite Ho by exact Vm. rewrite (red_ext R op _ (fun _ => 0)) by (intros r Hr; apply Ho, V; exact Hr). symmetry. apply red_zero. exact NR. }
  split; [|exact EN]. intros r Hr. destruct (refill_ok c n (s r) (tensors m) [] (V r Hr)) as (m' & Em' & Vm' & Tm'); [rewrite Tm; exact ST|].
  rewrite app_nil_r in Em'. rewrite Em'. cbn [fst].
  apply (ent_inj c n); [exact Hok|exact Vm'|exact Vm|]. intros i j Hi Hj.
  destruct (locate c n i j Hok Hi Hj) as ([[k idx]|] & Ho); unfold located in Ho.
  - destruct Ho as (_ & _ & He). rewrite !He by assumption. rewrite Tm'. reflexivity.
  - rewrite !Ho by assumption. reflexivity.
Qed.

(** all_reduce, for any layouts. *)
Lemma all_reduce_any R op c n (s : nat -> smat) (lay : nat -> nat -> bool) :
  R <> O -> cls_ok c -> (forall r, (r < R)%nat -> valid c n (s r)) ->
  lock R (fun a => forall r, (r < R)%nat -> valid c n (a r) /\
            tensors (a r) = mixed (lay r) 0 (tensors (s r)) (totals R op (fun r => tensors (s r)) (length (comp_shapes c n))))
    (fun r => all_reduce op (lay r) (s r)).
Proof.
  intros NR Hok V. unfold all_reduce. destruct (totals_matrix R op c n s NR Hok V) as (m & Vm & Tm & _).
  eapply lock_bind; [apply (reduce_list_lock R op lay NR (comp_shapes c n) (fun r => tensors (s r)) 0); intros r Hr; apply valid_shapes, V, Hr|].
  intros a Ha. apply (lock_ret R _ (fun r => fst (refill (s r) (a r)))). intros r Hr. rewrite Ha by exact Hr.
  rewrite <- Tm. set (ts := mixed _ _ _ _).
  assert (ST : map shape ts = comp_shapes c n).
  { unfold ts. assert (G : forall lay shs own tots i, map shape own = shs -> map shape tots = shs -> map shape (mixed lay i own tots) = shs).
    { clear. induction shs as [|sh shs IH]; intros [|t own] [|x tots] i E1 E2; try discriminate; [reflexivity|]. injection E1 as E1 E3. injection E2 as E2 E4.
      cbn [mixed map]. f_equal; [destruct (lay i); assumption|apply IH; assumption]. }
    apply G; apply valid_shapes; [apply V; exact Hr|exact Vm]. }
  destruct (refill_ok c n (s r) ts [] (V r Hr) ST) as (m' & Em' & Vm' & Tm'). rewrite app_nil_r in Em'. rewrite Em'. split; [exact Vm'|exact Tm'].
Qed.

(** With contiguous components: the reduction, the same on all processes. *)
Lemma all_reduce_lock R op c n (s : nat -> smat) (lay : nat -> nat -> bool) :
  R <> O -> cls_ok c -> (forall r, (r < R)%nat -> valid c n (s r)) ->
  (forall r i, (r < R)%nat -> (i < length (tensors (s r)))%nat -> lay r i = true) ->
  exists m, valid c n m /\ repr m n (fun i j => red R op (fun r => ent (s r) i j)) /\
    lock R (fun a => forall r, (r < R)%nat -> a r = m) (fun r => all_reduce op (lay r) (s r)).
Proof.
  intros NR Hok V HL. unfold all_reduce. destruct (totals_matrix R op c n s NR Hok V) as (m & Vm & Tm & Rm & Em). exists m. split; [exact Vm|]. split; [exact Em|].
  eapply lock_bind; [apply (reduce_list_lock R op lay NR (comp_shapes c n) (fun r => tensors (s r)) 0); intros r Hr; apply valid_shapes, V, Hr|].
  intros a Ha. apply (lock_ret R _ (fun r => fst (refill (s r) (a r)))). intros r Hr. rewrite Ha by exact Hr. rewrite <- Tm.
  rewrite mixed_true; [apply Rm; exact Hr| |].
  - rewrite <- (map_length shape), <- (map_length shape (tensors m)), (valid_shapes _ _ _ Vm), (valid_shapes _ _ _ (V r Hr)). reflexivity.
  - intros k Hk. apply HL; [exact Hr|lia].
Qed.

End Facts.
