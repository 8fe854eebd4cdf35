(** Histories that contain checkpoint calls. *)

From Coq Require Import List Arith Lia Bool ZArith.
From Verif Require Import Scalar Res Tensor Structures OptimUtils Optimizer Construct OptState OptRun Checkpoint.
Import ListNotations.

Section CkptRun.
Context {SC : Scalar}.

(** [lives c st v]: an optimizer with configuration [c] can be in state [st], and [v] is the scale of the
    successful step made last (before the first one: [init_grad_scale]), where loading a checkpoint
    (optimizer.py:881-892) takes over the history of the optimizer that saved it (optimizer.py:867-879).
    That may be an optimizer of another model or the same one at an earlier or the present time.
    Every call may fail, the caller then goes on.  Saving changes nothing. *)
Inductive lives : cfg -> state -> F -> Prop :=
| lives_new a par hooks hooks' c st :
    ctor a par hooks = (hooks', Ok (c, st)) -> lives c st (a_init_scale a)
| lives_stepped c st v closure st' v' :
    lives c st v -> step c closure st = (st', Ok tt) -> step_scale st = Ok v' -> lives c st' v'
| lives_step_failed c st v closure st' e :
    lives c st v -> step c closure st = (st', Err e) -> lives c st' v
| lives_other c st v e :
    lives c st v -> (forall b, e <> EStep b) -> lives c (fst (event_op c e st)) v
| lives_loaded c st v c' st' v' d t :
    lives c st v -> lives c' st' v' -> state_dict c' st' = Ok d -> load_state_dict d st = (t, Ok tt) -> lives c t v'
| lives_load_failed c st v c' st' v' d t e :
    lives c st v -> lives c' st' v' -> state_dict c' st' = Ok d -> load_state_dict d st = (t, Err e) -> lives c t v.

Lemma saved_scales c st d : state_dict c st = Ok d -> sd_steps d = s_steps st /\ sd_scales d = s_scales st.
Proof. unfold state_dict. intros H. apply bind_ok in H as (gs & _ & H). apply bind_ok in H as (bs & _ & H). injection H as <-. split; reflexivity. Qed.

Lemma loaded_scales d st t r : load_state_dict d st = (t, r) ->
  match r with Ok _ => s_steps t = sd_steps d /\ s_scales t = sd_scales d | Err _ => t = st end.
Proof.
  unfold load_state_dict, sbind, getS, lift, modify. destruct (check _ _); [|intros H; injection H as <- <-; reflexivity].
  destruct (check _ _); intros H; injection H as <- <-; [split|]; reflexivity.
Qed.

Lemma lives_scales c st v : lives c st v ->
  scales_ok (s_steps st) (s_scales st) /\ get_grad_scale (s_scales st) (Z.of_nat (s_steps st) - 1) = Ok v.
Proof.
  induction 1 as [a par hooks hooks' c st H|c st v closure st' v' _ [IH1 IH2] H Hv|c st v closure st' e _ [IH1 IH2] H
    |c st v e _ [IH1 IH2] N|c st v c' st' v' d t _ _ _ [J1 J2] D L|c st v c' st' v' d t e _ IH _ _ D L].
  - apply ctor_state in H as (E1 & E2 & _). rewrite E1, E2. split; [|reflexivity]. split; [repeat constructor; intros []|]. split; [|left; reflexivity].
    intros k [<-|[]]. left. reflexivity.
  - pose proof (step_scales_ok c closure st IH1) as S1. rewrite H in S1. split; [exact S1|].
    apply step_prev_scale in H as (w & E1 & E2). congruence.
  - pose proof (step_scales_ok c closure st IH1) as S1. rewrite H in S1. split; [exact S1|].
    pose proof (step_counter _ _ _ _ _ H) as C. cbn in C. pose proof (event_prev_scale c (EStep closure) st) as P. cbn [event_op] in P.
    rewrite H in P. cbn [fst] in P. rewrite C, P by exact C. exact IH2.
  - pose proof (other_counter c e st N) as C. split; [apply event_scales_ok; exact IH1|]. rewrite C, event_prev_scale by exact C. exact IH2.
  - apply saved_scales in D as [D1 D2]. apply loaded_scales in L as [L1 L2]. rewrite L1, L2, D1, D2. split; assumption.
  - apply loaded_scales in L. subst t. exact IH.
Qed.

(** Backward hooks and steps look the previous scale up: it is there. *)
Lemma lives_bookkeeping c st v : lives c st v ->
  (length (s_scales st) <= 2)%nat /\ NoDup (map fst (s_scales st)) /\
  (forall k, In k (map fst (s_scales st)) -> k = (Z.of_nat (s_steps st) - 1)%Z \/ k = Z.of_nat (s_steps st)) /\
  get_grad_scale (s_scales st) (Z.of_nat (s_steps st) - 1) = Ok v.
Proof.
  intros H. apply lives_scales in H as [SO G]. split; [exact (scales_ok_length _ _ SO)|]. destruct SO as (N & K & _). auto.
Qed.

(** Histories of events (without checkpoint calls) are among these. *)
Lemma lives_run c st v es : lives c st v -> exists v', lives c (run c es st) v'.
Proof.
  revert st v. induction es as [|e es IH]; intros st v H; [eauto|]. cbn [run].
  assert (X : (exists b, e = EStep b) \/ forall b, e <> EStep b). { destruct e; try (right; intros ? X; discriminate). left; eauto. }
  destruct X as [(b & ->)|N]; [|exact (IH _ _ (lives_other _ _ _ _ H N))].
  cbn [event_op]. destruct (step c b st) as [st' [[]|x]] eqn:E; cbn [fst].
  - pose proof (step_prev_scale _ _ _ _ E) as (w & E1 & _). exact (IH _ _ (lives_stepped _ _ _ _ _ _ H E E1)).
  - exact (IH _ _ (lives_step_failed _ _ _ _ _ _ H E)).
Qed.

End CkptRun.
