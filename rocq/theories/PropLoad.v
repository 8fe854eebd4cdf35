(** C55: loading a checkpoint replaces the whole state or nothing; what is accepted. *)

From Coq Require Import List Arith Lia Bool ZArith QArith Qcanon.
From Verif Require Import Scalar Res Tensor Structures OptimUtils Optimizer Construct OptState OptRun CtorFacts Checkpoint CkptFacts LoadFacts QEx OptEx OptEx2 ProofLoad.
Import ListNotations.
Open Scope nat_scope.

Section PropLoad.
Context {SC : Scalar}.

(** A rejected checkpoint changes nothing, and the exception is ValueError. *)
Theorem C55_all_or_nothing : forall d st t e,
  load_state_dict d st = (t, Err e) -> t = st /\ e = ValueError.
Proof. exact C55_all_or_nothing_lemma. Qed.

(** Accepted are exactly the checkpoints with as many groups, each with as many parameters. *)
Theorem C55_accepted : forall d st,
  (exists t, load_state_dict d st = (t, Ok tt)) <-> sizes (s_groups st) = sizes (sd_groups d).
Proof. exact C55_accepted_lemma. Qed.

(** An accepted checkpoint: step counter, scales, preconditioners, momenta, statistics and
    hyper-parameters are the saved ones; the parameters, their gradients, the parameters the groups
    point to, the tensor hooks and the scaler's attributes stay. *)
Theorem C55_effect : forall d st t,
  load_state_dict d st = (t, Ok tt) ->
  s_steps t = sd_steps d /\ s_scales t = sd_scales d /\ s_slots t = sd_slots d /\
  map g_params (s_groups t) = map g_params (s_groups st) /\ Forall2 same_entries (sd_groups d) (s_groups t) /\
  s_amp t = s_amp st /\ s_inf t = s_inf st /\ s_pend t = s_pend st /\ s_log t = s_log st /\
  forall p, p_val (s_par t p) = p_val (s_par st p) /\ p_grad (s_par t p) = p_grad (s_par st p).
Proof. exact C55_effect_lemma. Qed.

(** The loading optimizer may have been built with any other hyper-parameters (learning rates,
    structures, intervals, scale, flags): it continues exactly like the one that saved. *)
Theorem C55_replaces : forall a a' par par' hooks hooks1 hooks' hooks2 c st0 c' st0' es es2 d,
  same_parameters a a' ->
  ctor a par hooks = (hooks1, Ok (c, st0)) -> keep_params (s_groups st0) es ->
  let st := run c es st0 in
  state_dict c st = Ok d -> s_amp st = None -> s_inf st = false ->
  (forall p, p_val (par' p) = p_val (s_par st p)) -> ctor a' par' hooks' = (hooks2, Ok (c', st0')) ->
  self_contained c [] [] es2 ->
  exists t, load_state_dict d st0' = (t, Ok tt) /\ outcomes c' es2 t = outcomes c es2 st /\
    let u := run c' es2 t in let v := run c es2 st in
    s_steps u = s_steps v /\ s_scales u = s_scales v /\ (forall k, s_slots u k = s_slots v k) /\ s_groups u = s_groups v /\
    forall p, p_val (s_par u p) = p_val (s_par v p) /\ p_buf (s_par u p) = p_buf (s_par v p).
Proof. exact C55_replaces_lemma. Qed.

End PropLoad.

Print Assumptions C55_all_or_nothing.
Print Assumptions C55_accepted.
Print Assumptions C55_effect.
Print Assumptions C55_replaces.
Local Notation ld_st := (run (fst (built ld1)) ld_es (snd (built ld1))).

Example C55_example :
  same_parameters ld1 ld2 /\ built_ok ld1 = true /\ built_ok ld2 = true /\
  keep_params (s_groups (snd (built ld1))) ld_es /\
  s_amp ld_st = None /\ s_inf ld_st = false /\
  match state_dict (fst (built ld1)) ld_st with
  | Ok d => let (t, r) := load_state_dict d (snd (built ld2)) in
      is_ok r = true /\ s_steps t = 1 /\ map g_T (s_groups t) = [1] /\ map g_T (s_groups (snd (built ld2))) = [3] /\
      is_dense (sl_K (s_slots t 0)) = true /\ is_dense (sl_K (s_slots (snd (built ld2)) 0)) = false
  | Err _ => False
  end /\
  self_contained (fst (built ld1)) [] [] (ex_iter (q 1) ++ ex_step).
Proof. exact C55_example_case. Qed.

(** A rejected one: saved with two groups, loaded into an optimizer with one. *)
Example C55_rejected_example :
  match state_dict (fst (built ld3)) (run (fst (built ld3)) ld_es (snd (built ld3))) with
  | Ok d => snd (load_state_dict d ld_st) = Err ValueError /\ sizes (sd_groups d) = [2; 1] /\ sizes (s_groups ld_st) = [3]
  | Err _ => False
  end.
Proof. exact C55_rejected_example_case. Qed.

(** It is accepted; the first backward pass, which works without loading, then raises RuntimeError. *)
Theorem C55_foreign_refuted :
  exists (a a' : @args Q_scalar) par hooks hooks1 c st0 hooks' hooks2 c' st0' es d t es2,
    ctor a par hooks = (hooks1, Ok (c, st0)) /\ ctor a' par hooks' = (hooks2, Ok (c', st0')) /\
    (forall r, In r (outcomes c es st0) -> r = Ok tt) /\ state_dict c (run c es st0) = Ok d /\
    load_state_dict d st0' = (t, Ok tt) /\
    outcomes c' es2 st0' = [Ok tt; Ok tt] /\ outcomes c' es2 t = [Ok tt; Err RuntimeError].
Proof. exact C55_foreign_refuted_lemma. Qed.
Print Assumptions C55_foreign_refuted.

(** The momentum buffers of the two weights are exchanged, without any exception, then or in the next
    iteration, which moves both weights differently. *)
Theorem C55_exchanged_refuted :
  exists (a a' : @args Q_scalar) par hooks hooks1 c st0 hooks' hooks2 c' st0' es d t tgt,
    a_model a' = a_model a /\ a_params a = PList [0; 1] /\ a_params a' = PList [1; 0] /\
    ctor a par hooks = (hooks1, Ok (c, st0)) /\ ctor a' par hooks' = (hooks2, Ok (c', st0')) /\
    let st := run c es st0 in
    state_dict c st = Ok d /\ (forall p, p_val (tgt p) = p_val (s_par st p)) /\
    load_state_dict d (set_par tgt st0') = (t, Ok tt) /\
    buf_of t 0 = buf_of st 1 /\ buf_of t 1 = buf_of st 0 /\ buf_of st 0 <> buf_of st 1 /\
    (forall r, In r (outcomes c' es t) -> r = Ok tt) /\ (forall r, In r (outcomes c es st) -> r = Ok tt) /\
    val_of (run c' es t) 0 <> val_of (run c es st) 0.
Proof. exact C55_exchanged_refuted_lemma. Qed.
Print Assumptions C55_exchanged_refuted.
