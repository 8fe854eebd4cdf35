(** C68: all_reduce with async_op=True. *)

From Coq Require Import List Arith ZArith QArith Qcanon Bool String Lia.
From Verif Require Import Scalar Res Tensor TensorFacts Structures OptimUtils Optimizer QEx Registry RegistrySpec RegistryFacts Dist DistFacts Async AsyncSpec AsyncFacts ProofAsync.
Import ListNotations.
Open Scope nat_scope.

Section Any.
Context {SC : Scalar}.

(** A call never waits: as long as a component is left, the next collective is started whatever the other processes have done, no tensor
    changes, and the process gets one more handle; [all_reduce] returns when there is one handle for each component. *)
Theorem C68_handles : forall R op mats objs lay h ms s r, (forall q, q < R -> construct (mats q) = Ok (objs q) /\ NoDup (references (mats q))) ->
  Forall (left_alone mats) ms -> schedule R op objs lay ms (fresh h) = Some s -> r < R ->
  (returned objs s r = true <-> handles s r = seq 0 (List.length (references (mats r)))) /\
  (returned objs s r = true -> amove R op objs lay (Call r) s = None) /\
  (returned objs s r = false -> exists s', amove R op objs lay (Call r) s = Some s' /\
     handles s' r = (handles s r ++ [List.length (handles s r)])%list /\ heaps s' = heaps s /\ finished s' = finished s /\ forall q, q <> r -> calls s' q = calls s q).
Proof. exact C68_handles_lemma. Qed.

(** At any time of any schedule, a contiguous component whose collective has been performed holds the sum or mean over all processes, and every
    other component is as before; nothing in between is ever seen. *)
Theorem C68_state : forall R op mats objs lay h ms s, R <> 0 -> (forall q, q < R -> construct (mats q) = Ok (objs q) /\ NoDup (references (mats q))) ->
  Forall (left_alone mats) ms -> schedule R op objs lay ms (fresh h) = Some s ->
  forall r i a, r < R -> nth_error (references (mats r)) i = Some a ->
  (finished s i = true -> lay r i = true -> is_total R op (fun q => h q (nth i (references (mats q)) 0)) (heaps s r a)) /\
  (finished s i = false \/ lay r i = false -> heaps s r a = h r a).
Proof. exact C68_state_lemma. Qed.

(** When [all_reduce] has returned on one process and this process has waited for all its handles, every process holds the matrix that the synchronous
    version gives. *)
Theorem C68_result : forall R op mats objs lay h shs ms s r0, matching R mats objs h shs -> Forall (left_alone mats) ms -> schedule R op objs lay ms (fresh h) = Some s ->
  r0 < R -> returned objs s r0 = true -> (forall k, In k (handles s r0) -> finished s k = true) ->
  world (map (fun r => all_reduce op (lay r) (seen_as (h r) (mats r))) (seq 0 R)) = Some (map (fun r => seen_as (heaps s r) (mats r)) (seq 0 R)).
Proof. exact C68_result_lemma. Qed.

(** No schedule gets stuck or runs forever: unless [all_reduce] has returned everywhere and all handles are ready, some process can start its next
    collective or some collective can be performed; and there are at most (R + 1) * n such moves, n the number of components. *)
Theorem C68_progress : forall R op mats objs lay h shs ms s, matching R mats objs h shs -> Forall (left_alone mats) ms -> schedule R op objs lay ms (fresh h) = Some s ->
  List.length (filter own_move ms) <= (R + 1) * List.length shs /\
  ((forall r, r < R -> returned objs s r = true /\ forall k, In k (handles s r) -> finished s k = true) \/
   exists m s', own_move m = true /\ amove R op objs lay m s = Some s').
Proof. exact C68_progress_lemma. Qed.

(** A handle becomes ready only after every process has started this collective; so if a process does not call [all_reduce], the others wait forever and
    no tensor changes. *)
Theorem C68_rendezvous : forall R op mats objs lay h ms s k, (forall q, q < R -> construct (mats q) = Ok (objs q) /\ NoDup (references (mats q))) ->
  Forall (left_alone mats) ms -> schedule R op objs lay ms (fresh h) = Some s ->
  finished s k = true -> forall q, q < R -> k < List.length (filter is_call (program q ms)).
Proof. exact C68_rendezvous_lemma. Qed.
End Any.

Print Assumptions C68_handles.
Print Assumptions C68_state.
Print Assumptions C68_result.
Print Assumptions C68_progress.
Print Assumptions C68_rendezvous.

(** Two processes with block-diagonal matrices of one 2x2 block and a 1x1 rest; the rest is not contiguous on process 1. *)
Example C68_example : matching 2 as_mats as_objs as_h [[1; 2; 2]; [1; 1]] /\ Forall (left_alone as_mats) as_ms /\
  (exists s, schedule 2 OpSum as_objs as_lay as_ms (fresh as_h) = Some s) /\ returned as_objs (as_end as_ms) 0 = true /\
  handles (as_end as_ms) 0 = [0; 1] /\ map (finished (as_end as_ms)) [0; 1; 2] = [true; true; false] /\
  map (fun p => show (heaps (as_end as_ms) (fst p) (snd p))) [(0, 0); (0, 1); (1, 3); (1, 2)] =
  [([1; 2; 2], map inject_Z [11; 22; 33; 44]%Z); ([1; 1], [inject_Z 55]); ([1; 2; 2], map inject_Z [11; 22; 33; 44]%Z); ([1; 1], [inject_Z 50])].
Proof. exact C68_example_case. Qed.

(** After part of the schedule: process 0 has not returned and can go on. *)
Example C68_handles_example : returned as_objs (as_end (firstn 4 as_ms)) 0 = false /\ returned as_objs (as_end (firstn 4 as_ms)) 1 = true /\ handles (as_end (firstn 4 as_ms)) 0 = [0] /\
  List.length (filter is_call (program 1 as_ms)) = 2.
Proof. exact C68_handles_example_case. Qed.

(** The result is not there yet when the call returns. *)
Theorem C68_early_refuted : ~ (forall R op mats objs lay (h : nat -> nat -> @tensor Q_scalar) shs ms s, matching R mats objs h shs -> Forall (left_alone mats) ms ->
  schedule R op objs lay ms (fresh h) = Some s -> (forall r, r < R -> returned objs s r = true) ->
  world (map (fun r => all_reduce op (lay r) (seen_as (h r) (mats r))) (seq 0 R)) = Some (map (fun r => seen_as (heaps s r) (mats r)) (seq 0 R))).
Proof. exact C68_early_refuted_lemma. Qed.
Print Assumptions C68_early_refuted.

(** Writing a component before waiting is a race: the same programs can leave different matrices. *)
Theorem C68_race_refuted : ~ (forall R op mats objs lay (h : nat -> nat -> @tensor Q_scalar) shs ms ms' s s', matching R mats objs h shs ->
  schedule R op objs lay ms (fresh h) = Some s -> schedule R op objs lay ms' (fresh h) = Some s' -> (forall r, program r ms = program r ms') ->
  (forall k, k < List.length shs -> finished s k = true /\ finished s' k = true) -> forall r, r < R -> seen_as (heaps s r) (mats r) = seen_as (heaps s' r) (mats r)).
Proof. exact C68_race_refuted_lemma. Qed.
Print Assumptions C68_race_refuted.
