(** C35: [state_dict] shares its contents with the optimizer. *)

From Coq Require Import List Arith Lia Bool ZArith QArith Qcanon.
From Verif Require Import Scalar Res Tensor Structures OptimUtils Optimizer Construct OptState OptRun Checkpoint Alias AliasFacts QEx OptEx ProofCkpt ProofAlias.
Import ListNotations.
Open Scope nat_scope.

Section PropAlias.
Context {SC : Scalar}.

(** ** What does not hold, in general *)

(** However long training continues, the dictionary shows the optimizer's current matrices and gradient scales
    and (for the momentum buffers that existed then) its current momentum, together with the number of
    steps at the time it was taken. *)
Theorem C35_tracks : forall c h o d es h' o',
  sound h o -> h_state_dict c h o = Ok d -> h_run c es h o = (h', o') ->
  exists v, content h' d = Some v /\ sd_slots v = s_slots (run c es (seen h o)) /\
    sd_scales v = s_scales (run c es (seen h o)) /\ sd_steps v = s_steps (seen h o) /\
    forall i b p, In (i, b) (sd_state v) -> nth_error (concat (map g_params (s_groups (seen h o)))) i = Some p ->
      p_buf (s_par (run c es (seen h o)) p) = Some b.
Proof. exact C35_tracks_lemma. Qed.

(** Whatever the outcome, loading removes the optimizer's attributes from its argument: loading it
    again — into any optimizer — raises KeyError. *)
Theorem C35_loads_once : forall d h o o' d' r,
  h_load d h o = (o', d', r) -> content h d' = None /\ forall h2 o2, h_load d' h2 o2 = (o2, d', Err KeyError).
Proof. exact C35_loads_once_lemma. Qed.

(** An optimizer that has loaded another one's dictionary has the same matrices and gradient
    scales as that one, after every further history of both. *)
Theorem C35_coupled : forall c1 c2 h o1 o2 d o2' d' es h' o1' o2'',
  sound h o1 -> h_state_dict c1 h o1 = Ok d -> h_load d h o2 = (o2', d', Ok tt) ->
  h_both c1 c2 es h o1 o2' = (h', o1', o2'') ->
  s_slots (seen h' o2'') = s_slots (seen h' o1') /\ s_scales (seen h' o2'') = s_scales (seen h' o1').
Proof. exact C35_coupled_lemma. Qed.

(** ** What holds with a deep copy *)

(** Optimizers just constructed have their own objects. *)
Theorem C35_separate : forall st1 st2 h h1 o1 h2 o2,
  h_new st1 h = (h1, o1) -> h_new st2 h1 = (h2, o2) ->
  (forall p, p_buf (s_par st1 p) = None) -> (forall p, p_buf (s_par st2 p) = None) ->
  sound h2 o1 /\ sound h2 o2 /\ disjoint o1 o2 /\ seen h2 o1 = st1 /\ seen h2 o2 = st2.
Proof. exact C35_separate_lemma. Qed.

(** A deep copy of the dictionary is a snapshot, whatever both optimizers do later; after loading it,
    which gives exactly the saved values, no history of one optimizer has an effect on
    the other one.  Missing: the same without the copy, which does not hold. *)
Theorem C35_deepcopy_partial : forall c1 c2 h o1 o2 d d' h1 es h2 o1' o2',
  sound h o1 -> sound h o2 -> disjoint o1 o2 -> h_state_dict c1 h o1 = Ok d -> deepcopy d h = (d', h1) ->
  h_both c1 c2 es h1 o1 o2 = (h2, o1', o2') ->
  exists v, state_dict c1 (seen h o1) = Ok v /\ content h2 d' = Some v /\
    forall o2'' d'', h_load d' h2 o2' = (o2'', d'', Ok tt) ->
      load_state_dict v (seen h2 o2') = (seen h2 o2'', Ok tt) /\
      forall es' h3 q1 q2, h_both c1 c2 es' h2 o1' o2'' = (h3, q1, q2) ->
        seen h3 q1 = run c1 (side true es') (seen h2 o1') /\
        seen h3 q2 = run c2 (side false es') (seen h2 o2'').
Proof. exact C35_deepcopy_partial_lemma. Qed.

End PropAlias.

Print Assumptions C35_tracks.
Print Assumptions C35_loads_once.
Print Assumptions C35_coupled.
Print Assumptions C35_separate.
Print Assumptions C35_deepcopy_partial.

(** The dictionary changes when training continues. *)
Theorem C35_snapshot_refuted :
  exists c (h : @heap Q_scalar) o d es h' o',
    sound h o /\ h_state_dict c h o = Ok d /\ h_run c es h o = (h', o') /\
    (forall r, In r (outcomes c es (seen h o)) -> r = Ok tt) /\ content h' d <> content h d.
Proof. exact C35_snapshot_refuted_lemma. Qed.
Print Assumptions C35_snapshot_refuted.

(** Going back to a dictionary taken earlier in the same run succeeds, but then the
    iteration that could follow when it was taken raises KeyError. *)
Theorem C35_rollback_refuted :
  exists c (h : @heap Q_scalar) o d es h' o' o'' d',
    sound h o /\ h_state_dict c h o = Ok d /\ h_run c es h o = (h', o') /\
    (forall r, In r (outcomes c es (seen h o)) -> r = Ok tt) /\
    h_load d h' o' = (o'', d', Ok tt) /\ In (Err KeyError) (outcomes c es (seen h' o'')).
Proof. exact C35_rollback_refuted_lemma. Qed.
Print Assumptions C35_rollback_refuted.

(** Loading changes its argument, which cannot be loaded again. *)
Theorem C35_argument_refuted :
  exists c (h : @heap Q_scalar) o d o2 o2' d',
    sound h o /\ h_state_dict c h o = Ok d /\ h_load d h o2 = (o2', d', Ok tt) /\
    content h d' <> content h d /\ snd (h_load d' h o2) = Err KeyError.
Proof. exact C35_argument_refuted_lemma. Qed.
Print Assumptions C35_argument_refuted.

(** After loading, training the first optimizer changes the second one's matrices. *)
Theorem C35_coupled_refuted :
  exists c (h : @heap Q_scalar) o1 o2 d o2' d' es h' o1',
    sound h o1 /\ sound h o2 /\ disjoint o1 o2 /\ h_state_dict c h o1 = Ok d /\ h_load d h o2 = (o2', d', Ok tt) /\
    h_run c es h o1 = (h', o1') /\ s_slots (seen h' o2') <> s_slots (seen h o2').
Proof. exact C35_coupled_refuted_lemma. Qed.
Print Assumptions C35_coupled_refuted.

(** The hypotheses of the theorems above: two optimizers, the first one trained for an iteration and
    saved with three momentum buffers; the copy is loaded after both have gone on. *)
Example C35_example :
  sound (fst w3) (snd w3) /\ sound (fst w3) (snd w2) /\ disjoint (snd w3) (snd w2) /\
  h_state_dict ckc (fst w3) (snd w3) = Ok the_dict /\ length (pd_state the_dict) = 3 /\
  (let '(d', h1) := deepcopy the_dict (fst w3) in
   let '(h2, o1', o2') := h_both ckc ckc w_es h1 (snd w3) (snd w2) in
   let '(o2'', d'', r) := h_load d' h2 o2' in
   r = Ok tt /\ first_K (content h2 d') = first_K (content (fst w3) the_dict) /\ first_K (content h2 d') <> first_K (content h2 the_dict) /\
   outcomes ckc one_iter (seen h2 o2'') = repeat (Ok tt) 8).
Proof. exact C35_example_case. Qed.
