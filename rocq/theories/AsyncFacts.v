(** Lemmas: asynchronous reductions. *)

From Coq Require Import List Arith Bool Lia String.
From Verif Require Import Scalar Res Tensor TensorFacts Structures OptimUtils Optimizer OptState Registry RegistrySpec RegistryFacts Dist DistFacts Async AsyncSpec.
Import ListNotations.
Open Scope nat_scope.

Section AsyncFacts.
Context {SC : Scalar}.
Variables (R : nat) (op : redop) (mats : nat -> rmat) (objs : nat -> obj) (lay : nat -> nat -> bool) (h : nat -> nat -> tensor).
Hypothesis HO : forall r, r < R -> construct (mats r) = Ok (objs r).
Hypothesis HN : forall r, r < R -> NoDup (references (mats r)).

Notation refs r := (references (mats r)).
Definition at_ (i q : nat) : tensor := h q (nth i (refs q) 0).
Definition tot (i : nat) : tensor := reduced op (map (at_ i) (seq 0 R)).

Lemma named_refs r : r < R -> map snd (named_tensors (objs r)) = refs r.
Proof.
  intros Hr. destruct (construct_ok (mats r)) as (o & E & L). rewrite (HO r Hr) in E. injection E as <-. rewrite L. apply listing_refs.
Qed.

Record inv (s : asys) : Prop := mkInv {
  i_len : forall r, r < R -> List.length (calls s r) <= List.length (refs r);
  i_call : forall r i x, r < R -> nth_error (calls s r) i = Some x -> exists a, nth_error (refs r) i = Some a /\ x = (if lay r i then Ref a else Copied (h r a));
  i_val : forall r i a, r < R -> nth_error (refs r) i = Some a -> heaps s r a = (if finished s i && lay r i then tot i else h r a);
  i_fin : forall k, finished s k = true -> forall r, r < R -> k < List.length (calls s r) /\ shape (at_ k r) = shape (at_ k 0) }.

Lemma inv_fresh : inv (fresh h).
Proof.
  constructor; cbn.
  - intros; lia.
  - intros r i x _ E. destruct i; discriminate E.
  - reflexivity.
  - discriminate.
Qed.

Lemma call_shape r s s' : call R objs lay r s = Some s' -> r < R /\ exists a, nth_error (refs r) (List.length (calls s r)) = Some a /\
  s' = mkAsys (heaps s) (upd (calls s) r (calls s r ++ [if lay r (List.length (calls s r)) then Ref a else Copied (heaps s r a)])%list) (finished s).
Proof.
  unfold call. destruct (nth_error (named_tensors (objs r)) _) as [[nm a]|] eqn:E; [|discriminate]. destruct (Nat.ltb_spec r R) as [Hr|]; [|discriminate].
  intros X. injection X as <-. split; [exact Hr|]. exists a. split; [|reflexivity]. rewrite <- (named_refs r Hr). rewrite nth_error_map, E. reflexivity.
Qed.

Lemma call_enabled r s : r < R -> List.length (calls s r) < List.length (refs r) -> call R objs lay r s <> None.
Proof.
  intros Hr L. unfold call. rewrite <- (named_refs r Hr), map_length in L. apply nth_error_Some in L. destruct (nth_error _ _) as [[nm a]|]; [|contradiction].
  destruct (Nat.ltb_spec r R); [discriminate|lia].
Qed.

Lemma inv_call r s s' : inv s -> call R objs lay r s = Some s' -> inv s'.
Proof.
  intros [I1 I2 I3 I4] E. apply call_shape in E as (Hr & a & Ea & ->). set (i := List.length (calls s r)) in *.
  assert (Hi : i < List.length (refs r)) by (apply nth_error_Some; congruence).
  assert (F : finished s i = false). { destruct (finished s i) eqn:F; [|reflexivity]. destruct (I4 i F r Hr) as [X _]. unfold i in X. lia. }
  assert (V : heaps s r a = h r a) by (rewrite (I3 r i a Hr Ea), F; reflexivity).
  constructor; cbn [heaps calls finished].
  - intros q Hq. unfold upd. destruct (Nat.eqb_spec q r) as [->|]; [|apply I1; exact Hq]. rewrite app_length. cbn. fold i. lia.
  - intros q j x Hq Ej. unfold upd in Ej. destruct (Nat.eqb_spec q r) as [->|]; [|apply (I2 q j x Hq Ej)].
    destruct (Nat.lt_ge_cases j i) as [L|L].
    + rewrite nth_error_app1 in Ej by exact L. apply (I2 r j x Hq Ej).
    + rewrite nth_error_app2 in Ej by exact L. fold i in Ej. destruct (j - i) as [|d] eqn:Ed; [|destruct d; discriminate Ej]. cbn in Ej. injection Ej as <-.
      assert (j = i) by lia. subst j. exists a. split; [exact Ea|]. rewrite V. reflexivity.
  - exact I3.
  - intros k Fk q Hq. destruct (I4 k Fk q Hq) as [X Y]. split; [|exact Y]. unfold upd. destruct (Nat.eqb_spec q r) as [->|]; [|exact X]. rewrite app_length. cbn. fold i in X |- *. lia.
Qed.

Lemma operands_all s k rs : operands s k rs <> None <-> forall r, In r rs -> k < List.length (calls s r).
Proof.
  induction rs as [|r rs IH]; cbn [operands]; [split; [intros _ r []|discriminate]|]. split.
  - intros H q [<-|Hq].
    + apply nth_error_Some. destruct (nth_error (calls s r) k); [discriminate|contradiction].
    + apply IH; [|exact Hq]. destruct (nth_error (calls s r) k); [|contradiction]. destruct (operands s k rs); [discriminate|contradiction].
  - intros H. assert (X : nth_error (calls s r) k <> None) by (apply nth_error_Some, H; left; reflexivity). destruct (nth_error (calls s r) k); [|contradiction].
    assert (Y : operands s k rs <> None) by (apply IH; intros q Hq; apply H; right; exact Hq). destruct (operands s k rs); [discriminate|contradiction].
Qed.

Lemma alike_spec (f : nat -> tensor) : alike (map f (seq 0 R)) = true <-> forall r, r < R -> shape (f r) = shape (f 0).
Proof.
  destruct R as [|n]; [split; [intros; lia|reflexivity]|]. cbn [seq map alike]. rewrite forallb_forall. split.
  - intros H r Hr. destruct r as [|r]; [reflexivity|]. apply shape_eqb_eq. apply H. apply in_map. apply in_seq. lia.
  - intros H t Ht. apply in_map_iff in Ht as (r & <- & Hr). apply in_seq in Hr. rewrite H by lia. apply shape_eqb_refl.
Qed.

Lemma operand_value s k r : inv s -> finished s k = false -> r < R -> k < List.length (calls s r) -> operand_now s k r = at_ k r.
Proof.
  intros [I1 I2 I3 I4] F Hr L. unfold operand_now, at_. destruct (nth_error (calls s r) k) as [x|] eqn:Ex; [|apply nth_error_None in Ex; lia].
  destruct (I2 r k x Hr Ex) as (a & Ea & ->). rewrite (nth_error_nth _ _ 0 Ea). destruct (lay r k); cbn [now]; [|reflexivity]. rewrite (I3 r k a Hr Ea), F. reflexivity.
Qed.

Lemma finish_shape k s s' : inv s -> finish R op k s = Some s' -> finished s k = false /\ (forall r, r < R -> k < List.length (calls s r) /\ shape (at_ k r) = shape (at_ k 0)) /\
  s' = mkAsys (fun r => match nth_error (calls s r) k with Some (Ref a) => if Nat.ltb r R then put a (tot k) (heaps s r) else heaps s r | _ => heaps s r end) (calls s) (upd (finished s) k true).
Proof.
  intros I E. unfold finish in E. destruct (finished s k) eqn:F; [discriminate|]. destruct (operands s k (seq 0 R)) eqn:O; [|discriminate].
  assert (L : forall r, r < R -> k < List.length (calls s r)). { intros r Hr. apply (proj1 (operands_all s k (seq 0 R))); [congruence|]. apply in_seq. lia. }
  assert (M : map (operand_now s k) (seq 0 R) = map (at_ k) (seq 0 R)). { apply map_ext_in. intros r Hr. apply in_seq in Hr. apply operand_value; [exact I|exact F|lia|apply L; lia]. }
  cbv zeta in E. rewrite M in E. destruct (alike _) eqn:A; [|discriminate]. injection E as <-. split; [reflexivity|]. split; [|reflexivity].
  intros r Hr. split; [apply L; exact Hr|]. apply (proj1 (alike_spec (at_ k)) A r Hr).
Qed.

Lemma finish_enabled k s : inv s -> finished s k = false -> (forall r, r < R -> k < List.length (calls s r) /\ shape (at_ k r) = shape (at_ k 0)) -> finish R op k s <> None.
Proof.
  intros I F H. unfold finish. rewrite F. assert (O : operands s k (seq 0 R) <> None). { apply operands_all. intros r Hr. apply in_seq in Hr. apply H. lia. }
  destruct (operands s k (seq 0 R)); [|contradiction]. cbv zeta.
  assert (M : map (operand_now s k) (seq 0 R) = map (at_ k) (seq 0 R)). { apply map_ext_in. intros r Hr. apply in_seq in Hr. apply operand_value; [exact I|exact F|lia|apply H; lia]. }
  rewrite M. rewrite (proj2 (alike_spec (at_ k))); [discriminate|]. intros r Hr. apply H. exact Hr.
Qed.

Lemma inv_finish k s s' : inv s -> finish R op k s = Some s' -> inv s'.
Proof.
  intros I E. destruct (finish_shape k s s' I E) as (F & H & ->). destruct I as [I1 I2 I3 I4]. constructor; cbn [heaps calls finished].
  - exact I1.
  - exact I2.
  - intros r i a Hr Ea. destruct (Nat.ltb_spec r R) as [_|]; [|lia]. destruct (nth_error (calls s r) k) as [x|] eqn:Ex.
    2:{ exfalso. destruct (H r Hr) as [X _]. apply nth_error_None in Ex. lia. }
    destruct (I2 r k x Hr Ex) as (b & Eb & ->). unfold upd. destruct (Nat.eqb_spec i k) as [->|Nk].
    + rewrite Ea in Eb. injection Eb as <-. cbn [andb]. destruct (lay r k).
      * unfold put. rewrite Nat.eqb_refl. reflexivity.
      * rewrite (I3 r k a Hr Ea), F. reflexivity.
    + assert (N : a <> b). { intros ->. apply Nk. apply (proj1 (NoDup_nth_error (refs r)) (HN r Hr)); [apply nth_error_Some; congruence|congruence]. }
      destruct (lay r k); [|apply I3; assumption]. unfold put. destruct (Nat.eqb_spec a b); [contradiction|]. apply I3; assumption.
  - intros j Fj. unfold upd in Fj. destruct (Nat.eqb_spec j k) as [Ejk|]; [rewrite Ejk; exact H|apply I4; exact Fj].
Qed.

Lemma inv_write r a t s : inv s -> (r < R -> ~ In a (refs r)) -> inv (mkAsys (upd (heaps s) r (put a t (heaps s r))) (calls s) (finished s)).
Proof.
  intros [I1 I2 I3 I4] N. constructor; cbn [heaps calls finished]; try assumption.
  intros q i b Hq Eb. unfold upd. destruct (Nat.eqb_spec q r) as [->|]; [|apply I3; assumption].
  unfold put. destruct (Nat.eqb_spec b a) as [->|]; [|apply I3; assumption]. exfalso. apply (N Hq). apply nth_error_In in Eb. exact Eb.
Qed.

Lemma inv_move m s s' : inv s -> left_alone mats m -> amove R op objs lay m s = Some s' -> inv s'.
Proof.
  intros I L E. destruct m as [r|k|r a t]; cbn [amove] in E.
  - exact (inv_call r s s' I E).
  - exact (inv_finish k s s' I E).
  - injection E as <-. apply inv_write; [exact I|]. intros _. exact L.
Qed.

Lemma inv_schedule ms : forall s s', inv s -> Forall (left_alone mats) ms -> schedule R op objs lay ms s = Some s' -> inv s'.
Proof.
  induction ms as [|m ms IH]; intros s s' I L E; cbn [schedule] in E; [injection E as <-; exact I|]. inversion L as [|? ? L1 L2]; subst.
  destruct (amove R op objs lay m s) as [s1|] eqn:E1; [|discriminate]. exact (IH s1 s' (inv_move m s s1 I L1 E1) L2 E).
Qed.

(** ** Progress *)
Variable n : nat.
Hypothesis HL : forall r, r < R -> List.length (refs r) = n.
Hypothesis HS : forall r k, r < R -> k < n -> shape (at_ k r) = shape (at_ k 0).

Lemma progress s : inv s -> (forall r, r < R -> List.length (calls s r) = n /\ forall k, k < n -> finished s k = true) \/
  exists m, (match m with Write _ _ _ => False | _ => True end) /\ amove R op objs lay m s <> None.
Proof.
  intros I. destruct (forallb (fun r => Nat.eqb (List.length (calls s r)) n) (seq 0 R)) eqn:A.
  - rewrite forallb_forall in A. destruct (forallb (finished s) (seq 0 n)) eqn:B.
    + left. intros r Hr. rewrite forallb_forall in B. split; [apply Nat.eqb_eq, A, in_seq; lia|]. intros k Hk. apply B, in_seq. lia.
    + right. assert (X : exists k, k < n /\ finished s k = false).
      { clear - B. assert (G : forall l, forallb (finished s) l = false -> exists k, In k l /\ finished s k = false).
        { induction l as [|x l IH]; cbn; [discriminate|]. destruct (finished s x) eqn:E; [|intros _; exists x; auto]. intros H. destruct (IH H) as (k & K1 & K2). exists k. auto. }
        destruct (G _ B) as (k & K1 & K2). apply in_seq in K1. exists k. split; [lia|exact K2]. }
      destruct X as (k & Hk & Fk). exists (Finish k). split; [exact Logic.I|]. cbn [amove]. apply finish_enabled; [exact I|exact Fk|].
      intros r Hr. split; [|apply HS; assumption]. assert (E : List.length (calls s r) = n) by (apply Nat.eqb_eq, A, in_seq; lia). lia.
  - right. assert (X : exists r, r < R /\ List.length (calls s r) <> n).
    { clear - A. assert (G : forall l, forallb (fun r => Nat.eqb (List.length (calls s r)) n) l = false -> exists r, In r l /\ List.length (calls s r) <> n).
      { induction l as [|x l IH]; cbn; [discriminate|]. destruct (Nat.eqb_spec (List.length (calls s x)) n) as [|E]; [|intros _; exists x; auto]. intros H. destruct (IH H) as (r & K1 & K2). exists r. auto. }
      destruct (G _ A) as (r & K1 & K2). apply in_seq in K1. exists r. split; [lia|exact K2]. }
    destruct X as (r & Hr & Nr). exists (Call r). split; [exact Logic.I|]. cbn [amove]. apply call_enabled; [exact Hr|].
    pose proof (i_len s I r Hr) as L. rewrite (HL r Hr) in *. lia.
Qed.

(** The number of iterations and collectives done. *)
Definition amount (s : asys) : nat := list_sum (map (fun r => List.length (calls s r)) (seq 0 R)) + List.length (filter (finished s) (seq 0 n)).
Notation counts := own_move.

Lemma sum_upd (f g : nat -> nat) r l : NoDup l -> In r l -> g r = S (f r) -> (forall q, q <> r -> g q = f q) -> list_sum (map g l) = S (list_sum (map f l)).
Proof.
  intros N I E K. induction l as [|x l IH]; [destruct I|]. apply NoDup_cons_iff in N as [N1 N2]. change (g x + list_sum (map g l) = S (f x + list_sum (map f l))). destruct I as [->|I].
  - rewrite E. cbn. f_equal. f_equal. f_equal. apply map_ext_in. intros q Hq. apply K. intros ->. exact (N1 Hq).
  - rewrite IH by assumption. rewrite (K x) by (intros ->; exact (N1 I)). lia.
Qed.
Lemma filter_upd (f : nat -> bool) k l : NoDup l -> In k l -> f k = false -> List.length (filter (upd f k true) l) = S (List.length (filter f l)).
Proof.
  intros N I E. induction l as [|x l IH]; [destruct I|]. apply NoDup_cons_iff in N as [N1 N2]. cbn. destruct I as [->|I].
  - unfold upd at 1. rewrite Nat.eqb_refl, E. cbn. f_equal. f_equal. apply filter_ext_in. intros q Hq. unfold upd. destruct (Nat.eqb_spec q k) as [->|]; [contradiction|reflexivity].
  - unfold upd at 1. destruct (Nat.eqb_spec x k) as [->|]; [contradiction|]. destruct (f x); cbn; rewrite IH by assumption; reflexivity.
Qed.

Lemma amount_move m s s' : R <> 0 -> inv s -> amove R op objs lay m s = Some s' -> amount s' = (if counts m then 1 else 0) + amount s.
Proof.
  intros NR I E. destruct m as [r|k|r a t]; cbn [amove own_move] in *.
  - apply call_shape in E as (Hr & a & Ea & ->). unfold amount. cbn [calls finished].
    rewrite (sum_upd (fun r => List.length (calls s r)) _ r); [lia|apply seq_NoDup|apply in_seq; lia| |].
    + cbn. unfold upd. rewrite Nat.eqb_refl, app_length. cbn. lia.
    + intros q Hq. unfold upd. destruct (Nat.eqb_spec q r); [contradiction|reflexivity].
  - destruct (finish_shape k s s' I E) as (F & H & ->). unfold amount. cbn [calls finished]. rewrite filter_upd; [lia|apply seq_NoDup| |exact F].
    apply in_seq. destruct (H 0) as [X _]; [lia|]. pose proof (i_len s I 0) as Y. rewrite HL in Y by lia. lia.
  - injection E as <-. reflexivity.
Qed.

Lemma amount_schedule ms : R <> 0 -> forall s s', inv s -> Forall (left_alone mats) ms -> schedule R op objs lay ms s = Some s' ->
  amount s' = List.length (filter counts ms) + amount s.
Proof.
  intros NR. induction ms as [|m ms IH]; intros s s' I L E; cbn [schedule] in E; [injection E as <-; reflexivity|]. inversion L as [|? ? L1 L2]; subst.
  destruct (amove R op objs lay m s) as [s1|] eqn:E1; [|discriminate]. rewrite (IH s1 s' (inv_move m s s1 I L1 E1) L2 E), (amount_move m s s1 NR I E1).
  cbn [filter]. destruct (counts m); cbn; lia.
Qed.

Lemma amount_bound s : inv s -> amount s <= (R + 1) * n.
Proof.
  intros I. unfold amount. assert (A : list_sum (map (fun r => List.length (calls s r)) (seq 0 R)) <= R * n).
  { assert (G : forall l, (forall r, In r l -> r < R) -> list_sum (map (fun r => List.length (calls s r)) l) <= List.length l * n).
    { induction l as [|x l IH]; intros H; [reflexivity|].
      change (List.length (calls s x) + list_sum (map (fun r => List.length (calls s r)) l) <= n + List.length l * n). pose proof (i_len s I x (H x (or_introl eq_refl))) as X. rewrite HL in X by (apply H; left; reflexivity).
      specialize (IH (fun r Hr => H r (or_intror Hr))). lia. }
    specialize (G (seq 0 R)). rewrite seq_length in G. apply G. intros r Hr. apply in_seq in Hr. lia. }
  assert (B : forall l, List.length (filter (finished s) l) <= List.length l) by (induction l as [|x l IH]; cbn; [lia|]; destruct (finished s x); cbn; lia).
  specialize (B (seq 0 n)). rewrite seq_length in B. lia.
Qed.

Lemma amount_fresh : amount (fresh h) = 0.
Proof.
  unfold amount, fresh. cbn [calls finished]. assert (A : forall l, list_sum (map (fun _ : nat => List.length (@nil operand)) l) = 0) by (induction l; [reflexivity|exact IHl]).
  rewrite A. assert (B : forall l, List.length (filter (fun _ : nat => false) l) = 0) by (induction l; [reflexivity|exact IHl]). rewrite B. reflexivity.
Qed.

(** ** The synchronous version *)

Lemma refill_seen r (h0 h1 : nat -> tensor) : forall l, refill (seen_as h0 r) (map h1 (references r) ++ l) = (seen_as h1 r, l).
Proof.
  induction r; intros l; try reflexivity. cbn [seen_as refill references map app take1]. rewrite map_app, <- app_assoc, IHr1, IHr2. reflexivity.
Qed.

Lemma mixed_seen s r : inv s -> r < R -> (forall k, k < n -> finished s k = true) ->
  mixed (lay r) 0 (map (h r) (refs r)) (totals R op (fun q => map (h q) (refs q)) n) = map (heaps s r) (refs r).
Proof.
  intros I Hr F.
  assert (T : totals R op (fun q => map (h q) (refs q)) n = map tot (seq 0 n)).
  { unfold totals, tot. apply map_ext_in. intros k Hk. apply in_seq in Hk. f_equal. apply map_ext_in. intros q Hq. apply in_seq in Hq. unfold comp, at_.
    rewrite (nth_indep _ _ (h q 0)) by (rewrite map_length, HL by lia; lia). apply map_nth. }
  rewrite T. clear T.
  assert (G : forall l i, i + List.length l = n -> (forall j a, nth_error l j = Some a -> nth_error (refs r) (i + j) = Some a) ->
    mixed (lay r) i (map (h r) l) (map tot (seq i (List.length l))) = map (heaps s r) l).
  { induction l as [|a l IH]; intros i Hi Hl; [reflexivity|]. cbn [map List.length seq mixed]. cbn in Hi. f_equal.
    - specialize (Hl 0 a eq_refl). rewrite Nat.add_0_r in Hl. rewrite (i_val s I r i a Hr Hl), F by lia. reflexivity.
    - apply IH; [lia|]. intros j b Hb. specialize (Hl (S j) b Hb). rewrite <- Nat.add_succ_comm in Hl. exact Hl. }
  rewrite <- (HL r Hr). apply G; [rewrite (HL r Hr); lia|]. intros j a Ha. exact Ha.
Qed.

Lemma sync_same s : R <> 0 -> inv s -> (forall k, k < n -> finished s k = true) ->
  world (map (fun r => all_reduce op (lay r) (seen_as (h r) (mats r))) (seq 0 R)) = Some (map (fun r => seen_as (heaps s r) (mats r)) (seq 0 R)).
Proof.
  intros NR I F.
  assert (SH : forall r, r < R -> map shape (map (h r) (refs r)) = map shape (map (h 0) (refs 0))).
  { intros r Hr. apply (nth_ext _ _ [] []); [rewrite !map_length, !HL by lia; reflexivity|]. intros k Hk. rewrite !map_length, HL in Hk by exact Hr.
    pose proof (HS r k Hr Hk) as E. unfold at_ in E.
    assert (X : forall q, q < R -> nth k (map shape (map (h q) (refs q))) [] = shape (h q (nth k (refs q) 0))).
    { intros q Hq. rewrite (nth_indep _ [] (shape (h q 0))) by (rewrite !map_length, HL by exact Hq; exact Hk). rewrite map_nth, map_nth. reflexivity. }
    rewrite !X by lia. exact E. }
  assert (L : lock R (fun a => forall r, r < R -> a r = seen_as (heaps s r) (mats r)) (fun r => all_reduce op (lay r) (seen_as (h r) (mats r)))).
  { unfold all_reduce. eapply lock_bind.
    - apply (reduce_list_lock R op lay NR (map shape (map (h 0) (refs 0))) (fun r => tensors (seen_as (h r) (mats r))) 0).
      intros r Hr. rewrite seen_tensors. apply SH. exact Hr.
    - intros a Ha. apply lock_ret. intros r Hr. rewrite (Ha r Hr), seen_tensors.
      assert (X : totals R op (fun r => tensors (seen_as (h r) (mats r))) (List.length (map shape (map (h 0) (refs 0)))) = totals R op (fun q => map (h q) (refs q)) n).
      { rewrite !map_length, HL by lia. unfold totals. apply map_ext. intros k. f_equal. apply map_ext. intros q. rewrite seen_tensors. reflexivity. }
      rewrite X, (mixed_seen s r I Hr F). rewrite <- (app_nil_r (map _ _)), refill_seen. reflexivity. }
  destruct (world_lock R _ _ NR L) as (a & W & Ha). rewrite W. f_equal. apply map_ext_in. intros r Hr. apply in_seq in Hr. apply Ha. lia.
Qed.
End AsyncFacts.
