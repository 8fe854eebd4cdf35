(** C68: all_reduce with async_op=True. *)

From Coq Require Import List Arith ZArith QArith Qcanon Bool String Lia.
From Verif Require Import Scalar Res Tensor TensorFacts Structures OptimUtils Optimizer QEx Registry RegistrySpec RegistryFacts Dist DistFacts Async AsyncSpec AsyncFacts.
Import ListNotations.
Open Scope nat_scope.

Section Any.
Context {SC : Scalar}.

Lemma matching_parts R mats objs h shs : matching R mats objs h shs ->
  (forall r, r < R -> construct (mats r) = Ok (objs r)) /\ (forall r, r < R -> NoDup (references (mats r))) /\
  (forall r, r < R -> List.length (references (mats r)) = List.length shs) /\
  (forall r k, r < R -> k < List.length shs -> shape (at_ mats h k r) = shape (at_ mats h k 0)).
Proof.
  intros [NR H]. split; [|split; [|split]]; try (intros r Hr; destruct (H r Hr) as (H1 & H2 & H3); try assumption).
  - rewrite <- H3, map_length. reflexivity.
  - intros r k Hr Hk. assert (X : forall q, q < R -> shape (at_ mats h k q) = nth k shs []).
    { intros q Hq. destruct (H q Hq) as (_ & _ & Hs). unfold at_.
      assert (Hk' : k < List.length (references (mats q))) by (rewrite <- Hs, map_length in Hk; exact Hk). rewrite <- Hs.
      rewrite (nth_indep _ [] (shape (h q 0))) by (rewrite map_length; exact Hk'). symmetry. exact (map_nth (fun a => shape (h q a)) (references (mats q)) 0 k). }
    rewrite !X by lia. reflexivity.
Qed.

Lemma C68_handles_lemma R op mats objs lay h ms s r : (forall q, q < R -> construct (mats q) = Ok (objs q) /\ NoDup (references (mats q))) ->
  Forall (left_alone mats) ms -> schedule R op objs lay ms (fresh h) = Some s -> r < R ->
  (returned objs s r = true <-> handles s r = seq 0 (List.length (references (mats r)))) /\
  (returned objs s r = true -> amove R op objs lay (Call r) s = None) /\
  (returned objs s r = false -> exists s', amove R op objs lay (Call r) s = Some s' /\
     handles s' r = (handles s r ++ [List.length (handles s r)])%list /\ heaps s' = heaps s /\ finished s' = finished s /\ forall q, q <> r -> calls s' q = calls s q).
Proof.
  intros H L E Hr. pose proof (fun q Hq => proj1 (H q Hq)) as HO. pose proof (fun q Hq => proj2 (H q Hq)) as HN.
  pose proof (inv_schedule R op mats objs lay h HO HN ms _ s (inv_fresh R op mats lay h) L E) as I.
  assert (N : List.length (named_tensors (objs r)) = List.length (references (mats r))) by (rewrite <- (named_refs R mats objs HO r Hr), map_length; reflexivity).
  unfold returned, handles. rewrite N. split; [|split].
  - rewrite Nat.eqb_eq. split; [intros ->; reflexivity|]. intros X. apply (f_equal (@List.length nat)) in X. rewrite !seq_length in X. exact X.
  - intros X. apply Nat.eqb_eq in X. cbn [amove]. unfold call. assert (Y : nth_error (named_tensors (objs r)) (List.length (calls s r)) = None) by (apply nth_error_None; lia).
    rewrite Y. reflexivity.
  - intros X. apply Nat.eqb_neq in X. pose proof (i_len _ _ _ _ _ _ I r Hr) as B. cbn [amove].
    destruct (call R objs lay r s) as [s'|] eqn:C; [|exfalso; refine (call_enabled R mats objs lay HO r s Hr _ C); lia].
    exists s'. split; [reflexivity|]. destruct (call_shape R mats objs lay HO r s s' C) as (_ & a & Ea & ->). cbn [calls heaps finished]. unfold upd at 1. rewrite Nat.eqb_refl.
    rewrite app_length, seq_length. cbn [List.length]. split; [rewrite seq_app; reflexivity|]. split; [reflexivity|]. split; [reflexivity|].
    intros q Hq. unfold upd. destruct (Nat.eqb_spec q r); [contradiction|reflexivity].
Qed.

Lemma C68_state_lemma R op mats objs lay h ms s : R <> 0 -> (forall q, q < R -> construct (mats q) = Ok (objs q) /\ NoDup (references (mats q))) ->
  Forall (left_alone mats) ms -> schedule R op objs lay ms (fresh h) = Some s ->
  forall r i a, r < R -> nth_error (references (mats r)) i = Some a ->
  (finished s i = true -> lay r i = true -> is_total R op (fun q => h q (nth i (references (mats q)) 0)) (heaps s r a)) /\
  (finished s i = false \/ lay r i = false -> heaps s r a = h r a).
Proof.
  intros NR H L E r i a Hr Ea. pose proof (fun q Hq => proj1 (H q Hq)) as HO. pose proof (fun q Hq => proj2 (H q Hq)) as HN.
  pose proof (inv_schedule R op mats objs lay h HO HN ms _ s (inv_fresh R op mats lay h) L E) as I.
  pose proof (i_val _ _ _ _ _ _ I r i a Hr Ea) as V. split.
  - intros F Y. rewrite F, Y in V. cbn [andb] in V. rewrite V. pose proof (fun q Hq => proj2 (i_fin _ _ _ _ _ _ I i F q Hq)) as S.
    destruct (reduced_spec R op (at_ mats h i) (shape (at_ mats h i 0)) NR S) as [S1 S2]. fold (tot R op mats h i) in S1, S2. split.
    + intros q Hq. rewrite S1. symmetry. exact (S q Hq).
    + intros idx Hx. rewrite S1 in Hx. rewrite (S2 idx Hx). reflexivity.
  - intros X. rewrite V. destruct X as [->| ->]; [reflexivity|]. rewrite andb_false_r. reflexivity.
Qed.

Lemma C68_result_lemma R op mats objs lay h shs ms s r0 : matching R mats objs h shs -> Forall (left_alone mats) ms -> schedule R op objs lay ms (fresh h) = Some s ->
  r0 < R -> returned objs s r0 = true -> (forall k, In k (handles s r0) -> finished s k = true) ->
  world (map (fun r => all_reduce op (lay r) (seen_as (h r) (mats r))) (seq 0 R)) = Some (map (fun r => seen_as (heaps s r) (mats r)) (seq 0 R)).
Proof.
  intros M L E Hr Ret W. destruct (matching_parts R mats objs h shs M) as (HO & HN & HL & HS). destruct M as [NR _].
  pose proof (inv_schedule R op mats objs lay h HO HN ms _ s (inv_fresh R op mats lay h) L E) as I.
  apply (sync_same R op mats lay h (List.length shs) HL HS s NR I). intros k Hk. apply W. unfold handles. apply in_seq.
  unfold returned in Ret. apply Nat.eqb_eq in Ret. rewrite Ret, <- (map_length snd), (named_refs R mats objs HO r0 Hr), (HL r0 Hr). lia.
Qed.

Lemma C68_progress_lemma R op mats objs lay h shs ms s : matching R mats objs h shs -> Forall (left_alone mats) ms -> schedule R op objs lay ms (fresh h) = Some s ->
  List.length (filter own_move ms) <= (R + 1) * List.length shs /\
  ((forall r, r < R -> returned objs s r = true /\ forall k, In k (handles s r) -> finished s k = true) \/
   exists m s', own_move m = true /\ amove R op objs lay m s = Some s').
Proof.
  intros M L E. destruct (matching_parts R mats objs h shs M) as (HO & HN & HL & HS). destruct M as [NR _].
  pose proof (inv_schedule R op mats objs lay h HO HN ms _ s (inv_fresh R op mats lay h) L E) as I. split.
  - pose proof (amount_schedule R op mats objs lay h HO HN (List.length shs) HL ms NR _ s (inv_fresh R op mats lay h) L E) as A. rewrite amount_fresh in A.
    pose proof (amount_bound R op mats lay h (List.length shs) HL s I). lia.
  - destruct (progress R op mats objs lay h HO HN (List.length shs) HL HS s I) as [P|(m & Hm & P)].
    + left. intros r Hr. destruct (P r Hr) as [P1 P2]. split.
      * unfold returned. rewrite P1, <- (map_length snd), (named_refs R mats objs HO r Hr), (HL r Hr). apply Nat.eqb_refl.
      * intros k Hk. unfold handles in Hk. rewrite P1 in Hk. apply in_seq in Hk. apply P2. lia.
    + right. exists m. destruct (amove R op objs lay m s) as [s'|]; [|contradiction]. exists s'. split; [destruct m; [reflexivity|reflexivity|destruct Hm]|reflexivity].
Qed.

Lemma calls_made R op objs lay ms : forall s s', schedule R op objs lay ms s = Some s' ->
  forall q, List.length (calls s' q) = List.length (filter is_call (program q ms)) + List.length (calls s q).
Proof.
  induction ms as [|m ms IH]; intros s s' E q; cbn [schedule] in E; [injection E as <-; reflexivity|].
  destruct (amove R op objs lay m s) as [s1|] eqn:E1; [|discriminate]. rewrite (IH s1 s' E q). destruct m as [r|k|r a t]; cbn [amove] in E1.
  - unfold call in E1. destruct (nth_error _ _) as [[nm a]|]; [|discriminate]. destruct (Nat.ltb r R); [|discriminate]. injection E1 as <-. cbn [calls program filter].
    unfold upd. rewrite (Nat.eqb_sym r q). destruct (Nat.eqb_spec q r) as [->|]; [|reflexivity]. cbn [filter is_call List.length]. rewrite app_length. cbn. unfold program. lia.
  - unfold finish in E1. destruct (finished s k); [discriminate|]. destruct (operands s k (seq 0 R)); [|discriminate]. cbv zeta in E1. destruct (alike _); [|discriminate].
    injection E1 as <-. reflexivity.
  - injection E1 as <-. cbn [calls program filter]. destruct (Nat.eqb r q); reflexivity.
Qed.

Lemma C68_rendezvous_lemma R op mats objs lay h ms s k : (forall q, q < R -> construct (mats q) = Ok (objs q) /\ NoDup (references (mats q))) ->
  Forall (left_alone mats) ms -> schedule R op objs lay ms (fresh h) = Some s ->
  finished s k = true -> forall q, q < R -> k < List.length (filter is_call (program q ms)).
Proof.
  intros H L E F q Hq. pose proof (fun q Hq => proj1 (H q Hq)) as HO. pose proof (fun q Hq => proj2 (H q Hq)) as HN.
  pose proof (inv_schedule R op mats objs lay h HO HN ms _ s (inv_fresh R op mats lay h) L E) as I.
  destruct (i_fin _ _ _ _ _ _ I k F q Hq) as [X _]. rewrite (calls_made R op objs lay ms _ s E q) in X. cbn in X. lia.
Qed.
End Any.

(** Two processes with block-diagonal matrices of one 2x2 block and a 1x1 rest; the rest is not contiguous on process 1. *)
Definition as_mats (r : nat) : rmat := match r with 0 => RBlock 2 0 1 | _ => RBlock 2 3 2 end.
Definition as_objs (r : nat) : obj := match construct (as_mats r) with Ok o => o | Err _ => new_obj CDense end.
Definition as_lay (r i : nat) : bool := match r, i with 1, 1 => false | _, _ => true end.
Definition as_h (r a : nat) : @tensor Q_scalar :=
  match r, a with
  | 0, 0 => qt [1; 2; 2] [1; 2; 3; 4]%Z | 0, _ => qt [1; 1] [5]%Z
  | _, 3 => qt [1; 2; 2] [10; 20; 30; 40]%Z | _, _ => qt [1; 1] [50]%Z
  end.
(** The second collective is performed before the first, while process 0 writes a tensor of its own. *)
Definition as_ms : list (@move Q_scalar) := [Call 1; Call 1; Call 0; Write 0 7 (qt [1] [9]%Z); Call 0; Finish 1; Finish 0].
Definition as_end (ms : list (@move Q_scalar)) : @asys Q_scalar := match schedule 2 OpSum as_objs as_lay ms (fresh as_h) with Some s => s | None => fresh as_h end.

Lemma C68_example_case : matching 2 as_mats as_objs as_h [[1; 2; 2]; [1; 1]] /\ Forall (left_alone as_mats) as_ms /\
  (exists s, schedule 2 OpSum as_objs as_lay as_ms (fresh as_h) = Some s) /\ returned as_objs (as_end as_ms) 0 = true /\
  handles (as_end as_ms) 0 = [0; 1] /\ map (finished (as_end as_ms)) [0; 1; 2] = [true; true; false] /\
  map (fun p => show (heaps (as_end as_ms) (fst p) (snd p))) [(0, 0); (0, 1); (1, 3); (1, 2)] =
  [([1; 2; 2], map inject_Z [11; 22; 33; 44]%Z); ([1; 1], [inject_Z 55]); ([1; 2; 2], map inject_Z [11; 22; 33; 44]%Z); ([1; 1], [inject_Z 50])].
Proof.
  split; [|split; [|split; [|split; [|split; [|split]]]]]; [ | | |vm_compute; reflexivity|vm_compute; reflexivity|vm_compute; reflexivity|vm_compute; reflexivity].
  - split; [discriminate|]. intros r Hr. destruct r as [|[|r]]; [| |lia]; (split; [reflexivity|]; split; [|reflexivity]).
    all: cbn; constructor; [intros [X|[]]; discriminate|]; constructor; [intros []|constructor].
  - repeat constructor. cbn. intros [X|[X|[]]]; discriminate.
  - destruct (schedule 2 OpSum as_objs as_lay as_ms (fresh as_h)) as [s|] eqn:E; [exists s; reflexivity|exfalso].
    assert (X : match schedule 2 OpSum as_objs as_lay as_ms (fresh as_h) with Some _ => true | None => false end = true) by (vm_compute; reflexivity). rewrite E in X. discriminate.
Qed.

Lemma C68_handles_example_case : returned as_objs (as_end (firstn 4 as_ms)) 0 = false /\ returned as_objs (as_end (firstn 4 as_ms)) 1 = true /\ handles (as_end (firstn 4 as_ms)) 0 = [0] /\
  List.length (filter is_call (program 1 as_ms)) = 2.
Proof. repeat split; vm_compute; reflexivity. Qed.

Lemma C68_early_refuted_lemma : ~ (forall R op mats objs lay (h : nat -> nat -> @tensor Q_scalar) shs ms s, matching R mats objs h shs -> Forall (left_alone mats) ms ->
  schedule R op objs lay ms (fresh h) = Some s -> (forall r, r < R -> returned objs s r = true) ->
  world (map (fun r => all_reduce op (lay r) (seen_as (h r) (mats r))) (seq 0 R)) = Some (map (fun r => seen_as (heaps s r) (mats r)) (seq 0 R))).
Proof.
  intros H. specialize (H 2 OpSum as_mats as_objs (fun _ _ => true) as_h [[1; 2; 2]; [1; 1]] [Call 1; Call 1; Call 0; Call 0]).
  destruct (schedule 2 OpSum as_objs (fun _ _ => true) [Call 1; Call 1; Call 0; Call 0] (fresh as_h)) as [s|] eqn:E.
  - specialize (H s (proj1 C68_example_case)). assert (L : Forall (left_alone as_mats) [Call 1; Call 1; Call 0; Call (SC := Q_scalar) 0]) by (repeat constructor). specialize (H L eq_refl).
    assert (X : s = mkAsys as_h (calls s) (fun _ => false)) by (cbn in E; injection E as <-; reflexivity).
    assert (Ret : forall r, r < 2 -> returned as_objs s r = true) by (intros r Hr; cbn in E; injection E as <-; destruct r as [|[|r]]; [reflexivity|reflexivity|lia]).
    specialize (H Ret). rewrite X in H. cbn [heaps] in H. apply (f_equal (option_map (map (fun m => showd (Ok m))))) in H. vm_compute in H. discriminate H.
  - cbn in E. discriminate E.
Qed.

(** Writing a component before waiting is a race: the same programs can leave different matrices. *)
Definition race1 : list (@move Q_scalar) := [Call 0; Call 0; Call 1; Call 1; Finish 0; Finish 1; Write 0 0 (qt [1; 2; 2] [0; 0; 0; 0]%Z)].
Definition race2 : list (@move Q_scalar) := [Call 0; Call 0; Call 1; Call 1; Write 0 0 (qt [1; 2; 2] [0; 0; 0; 0]%Z); Finish 0; Finish 1].

Lemma C68_race_refuted_lemma : ~ (forall R op mats objs lay (h : nat -> nat -> @tensor Q_scalar) shs ms ms' s s', matching R mats objs h shs ->
  schedule R op objs lay ms (fresh h) = Some s -> schedule R op objs lay ms' (fresh h) = Some s' -> (forall r, program r ms = program r ms') ->
  (forall k, k < List.length shs -> finished s k = true /\ finished s' k = true) -> forall r, r < R -> seen_as (heaps s r) (mats r) = seen_as (heaps s' r) (mats r)).
Proof.
  intros H. specialize (H 2 OpSum as_mats as_objs as_lay as_h [[1; 2; 2]; [1; 1]] race1 race2 (as_end race1) (as_end race2) (proj1 C68_example_case)).
  assert (E1 : schedule 2 OpSum as_objs as_lay race1 (fresh as_h) = Some (as_end race1)).
  { unfold as_end. assert (X : match schedule 2 OpSum as_objs as_lay race1 (fresh as_h) with Some _ => true | None => false end = true) by (vm_compute; reflexivity).
    destruct (schedule 2 OpSum as_objs as_lay race1 (fresh as_h)); [reflexivity|discriminate]. }
  assert (E2 : schedule 2 OpSum as_objs as_lay race2 (fresh as_h) = Some (as_end race2)).
  { unfold as_end. assert (X : match schedule 2 OpSum as_objs as_lay race2 (fresh as_h) with Some _ => true | None => false end = true) by (vm_compute; reflexivity).
    destruct (schedule 2 OpSum as_objs as_lay race2 (fresh as_h)); [reflexivity|discriminate]. }
  specialize (H E1 E2). assert (P : forall r, program r race1 = program r race2) by (intros [|[|r]]; reflexivity). specialize (H P).
  assert (K : forall k, k < 2 -> finished (as_end race1) k = true /\ finished (as_end race2) k = true) by (intros [|[|k]] Hk; [vm_compute; auto|vm_compute; auto|lia]).
  specialize (H K 0 ltac:(lia)). apply (f_equal (fun m => showd (Ok m))) in H.
  assert (N : showd (Ok (seen_as (heaps (as_end race1) 0) (as_mats 0))) <> showd (Ok (seen_as (heaps (as_end race2) 0) (as_mats 0)))) by (vm_compute; discriminate).
  exact (N H).
Qed.
