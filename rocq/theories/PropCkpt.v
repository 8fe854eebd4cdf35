(** C34: checkpoints; C25 for histories with checkpoint calls. *)

From Coq Require Import List Arith Lia Bool ZArith QArith Qcanon.
From Verif Require Import Scalar Res Tensor Structures OptimUtils Optimizer Construct OptState OptRun CtorFacts Checkpoint CkptFacts CkptRun QEx OptEx OptEx2 ProofCkpt.
Import ListNotations.
Open Scope nat_scope.

Section PropCkpt.
Context {SC : Scalar}.

(** Saving at any time, loading into an optimizer built with the same arguments for a model with the saved
    parameters, and continuing gives the outcomes, parameters, momentum buffers, preconditioners,
    statistics, scales and groups of the run without interruption. *)
Theorem C34_resume : forall a par par' hooks hooks1 hooks' hooks2 c st0 c' st0' es es2 d,
  ctor a par hooks = (hooks1, Ok (c, st0)) -> keep_params (s_groups st0) es ->
  let st := run c es st0 in
  state_dict c st = Ok d -> s_amp st = None -> s_inf st = false ->
  (forall p, p_val (par' p) = p_val (s_par st p)) -> ctor a par' hooks' = (hooks2, Ok (c', st0')) ->
  self_contained c [] [] es2 ->
  c' = c /\
  exists t, load_state_dict d st0' = (t, Ok tt) /\ outcomes c' es2 t = outcomes c es2 st /\
    let u := run c' es2 t in let v := run c es2 st in
    s_steps u = s_steps v /\ s_scales u = s_scales v /\ (forall k, s_slots u k = s_slots v k) /\ s_groups u = s_groups v /\
    forall p, p_val (s_par u p) = p_val (s_par v p) /\ p_buf (s_par u p) = p_buf (s_par v p).
Proof. exact C34_resume_lemma. Qed.

(** Going back: loading into the optimizer that has trained on (parameters restored), at any later point. *)
Theorem C34_rollback : forall a par hooks hooks1 c st0 es es1 es2 d tgt,
  ctor a par hooks = (hooks1, Ok (c, st0)) -> keep_params (s_groups st0) es -> keep_params (s_groups st0) es1 ->
  let st := run c es st0 in let later := run c es1 st in
  state_dict c st = Ok d ->
  s_amp later = s_amp st -> s_inf later = s_inf st ->
  (forall p, p_val (tgt p) = p_val (s_par st p)) ->
  self_contained c [] [] es2 ->
  exists t, load_state_dict d (set_par tgt later) = (t, Ok tt) /\ outcomes c es2 t = outcomes c es2 st /\
    let u := run c es2 t in let v := run c es2 st in
    s_steps u = s_steps v /\ s_scales u = s_scales v /\ (forall k, s_slots u k = s_slots v k) /\ s_groups u = s_groups v /\
    forall p, p_val (s_par u p) = p_val (s_par v p) /\ p_buf (s_par u p) = p_buf (s_par v p).
Proof. exact C34_rollback_lemma. Qed.

(** Saving succeeds if every parameter of a trained layer is in some group. *)
Theorem C34_saves_partial : forall a par hooks hooks1 c st0 es,
  ctor a par hooks = (hooks1, Ok (c, st0)) -> keep_params (s_groups st0) es ->
  (forall m p, In m (c_mods c) -> In p (mod_params m) -> exists g, In g (s_groups st0) /\ In p (g_params g)) ->
  exists d, state_dict c (run c es st0) = Ok d.
Proof. exact C34_saves_partial_lemma. Qed.

(** Otherwise, once such a parameter has a momentum buffer, saving raises KeyError, at all later times. *)
Theorem C34_saves_fails : forall a par hooks hooks1 c st0 es p,
  ctor a par hooks = (hooks1, Ok (c, st0)) -> keep_params (s_groups st0) es ->
  (forall g, In g (s_groups st0) -> ~ In p (g_params g)) -> p_buf (s_par (run c es st0) p) <> None ->
  state_dict c (run c es st0) = Err KeyError.
Proof. exact C34_saves_fails_lemma. Qed.

(** C25, with saving and loading anywhere: at most two scales are stored, for the coming step and the one
    before; the latter is always there and is the scale of the last successful step of the history, where
    loading takes over the history of the optimizer that saved. *)
Theorem C25_checkpoints : forall c st v,
  lives c st v ->
  length (s_scales st) <= 2 /\ NoDup (map fst (s_scales st)) /\
  (forall k, In k (map fst (s_scales st)) -> k = (Z.of_nat (s_steps st) - 1)%Z \/ k = Z.of_nat (s_steps st)) /\
  get_grad_scale (s_scales st) (Z.of_nat (s_steps st) - 1) = Ok v.
Proof. exact C25_checkpoints_lemma. Qed.

(** Nothing is left out: every history of calls from every state with a history has one. *)
Theorem C25_checkpoints_total : forall c st v es, lives c st v -> exists v', lives c (run c es st) v'.
Proof. exact C25_checkpoints_total_lemma. Qed.

End PropCkpt.

Print Assumptions C34_resume.
Print Assumptions C34_rollback.
Print Assumptions C34_saves_partial.
Print Assumptions C34_saves_fails.
Print Assumptions C25_checkpoints.
Print Assumptions C25_checkpoints_total.

(** ** Cases *)

(** Momentum 1/2; checkpoint in the middle of an iteration, when statistics are stored. *)
Example C34_example :
  keep_params (s_groups ck0) ck_es /\ (exists d, state_dict ckc (run ckc ck_es ck0) = Ok d /\ length (sd_state d) = 3) /\
  has_H (run ckc ck_es ck0) 0 = true /\
  s_amp (run ckc ck_es ck0) = None /\ s_inf (run ckc ck_es ck0) = false /\ self_contained ckc [] [] ck_es2 /\
  s_steps (run ckc ck_es2 (run ckc ck_es ck0)) = 3.
Proof. exact C34_example_case. Qed.

(** C25: two steps with scales 4 and 9, the second skipped, then a checkpoint that is loaded into a new
    optimizer of the same model, which had no history. *)
Example C25_checkpoints_example :
  exists v d t, lives ckc (run ckc ck_sc ck0) v /\ state_dict ckc (run ckc ck_sc ck0) = Ok d /\
    load_state_dict d ck0 = (t, Ok tt) /\ lives ckc t v /\ this v = 9%Q /\ map fst (s_scales t) = [1%Z] /\ map fst (s_scales ck0) = [(-1)%Z].
Proof. exact C25_checkpoints_example_case. Qed.

(** Only the weights are handed to the optimizer: the bias is updated all the same (see C21), with a momentum
    buffer, and the optimizer cannot be saved. *)
Theorem C34_saves_refuted :
  exists (a : @args Q_scalar) par hooks hooks' c st0 es,
    ctor a par hooks = (hooks', Ok (c, st0)) /\ keep_params (s_groups st0) es /\
    (forall r, In r (outcomes c es st0) -> r = Ok tt) /\ state_dict c (run c es st0) = Err KeyError.
Proof. exact C34_saves_refuted_lemma. Qed.
Print Assumptions C34_saves_refuted.
