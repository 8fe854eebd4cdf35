(** C36: parameter groups are independent. *)

From Coq Require Import List Arith Lia Bool ZArith QArith Qcanon.
From Verif Require Import Scalar Res Tensor Structures OptimUtils Optimizer Construct OptState OptRun OptTyped CtorSpec CtorFacts Split SplitCtor QEx OptEx OptEx2 ProofSplit.
Import ListNotations.
Open Scope nat_scope.

Section PropSplit.
Context {SC : Scalar} {FL : FieldLaws SC}.

(** The [i]-th group alone: the constructor called with only this group gives an optimizer that, fed with
    the same events (without the hooks of the other groups' modules), performs the same updates of the modules of
    this group after every history without failing step; and its steps do not fail either. *)
Theorem C36_split : forall a par hooks hooks' c st0 l i pf es,
  ctor a par hooks = (hooks', Ok (c, st0)) -> a_params a = PGroups l -> nth_error l i = Some pf ->
  plain_layers (a_model a) -> NoDup (map (fun n => m_key (n_mod n)) (a_model a)) -> NoDup (flat_map mod_params (c_mods c)) ->
  known_mods c es -> steps_ok c es st0 ->
  exists h' c' t0, ctor (with_group pf a) par hooks = (h', Ok (c', t0)) /\
    let es' := view_events i (of_group c i) (fun _ => false) es in
    steps_ok c' es' t0 /\
    let s := run c es st0 in let t := run c' es' t0 in
    s_steps t = s_steps s /\ s_scales t = s_scales s /\ s_groups t = only i (s_groups s) /\
    forall m, In m (c_mods c) -> of_group c i m = true ->
      s_slots t (m_key m) = s_slots s (m_key m) /\ forall p, In p (mod_params m) -> s_par t p = s_par s p.
Proof. exact C36_split_lemma. Qed.

(** Every trained module is in one of the groups. *)
Theorem C36_covered : forall a par hooks hooks' c st0 l m,
  ctor a par hooks = (hooks', Ok (c, st0)) -> a_params a = PGroups l -> NoDup (map (fun n => m_key (n_mod n)) (a_model a)) -> In m (c_mods c) ->
  exists i pf, nth_error l i = Some pf /\ of_group c i m = true /\ In (m_weight m) (fst pf).
Proof. exact C36_covered_lemma. Qed.

(** If a step fails, it fails with the same exception in one of the separate optimizers. *)
Theorem C36_failure : forall a par hooks hooks' c st0 l es st' e,
  ctor a par hooks = (hooks', Ok (c, st0)) -> a_params a = PGroups l ->
  plain_layers (a_model a) -> NoDup (map (fun n => m_key (n_mod n)) (a_model a)) -> NoDup (flat_map mod_params (c_mods c)) -> c_mods c <> [] ->
  known_mods c es -> steps_ok c es st0 -> step c false (run c es st0) = (st', Err e) ->
  exists i pf h' c' t0, nth_error l i = Some pf /\ ctor (with_group pf a) par hooks = (h', Ok (c', t0)) /\
    snd (step c' false (run c' (view_events i (of_group c i) (fun _ => false) es) t0)) = Err e.
Proof. exact C36_failure_lemma. Qed.

(** The update of a layer depends on its own dictionary entries, parameters, gradients, group, step counter
    and scales only, in any two optimizers. *)
Theorem C36_local : forall c c' m s t,
  s_steps t = s_steps s -> s_scales t = s_scales s -> get_group c' (s_groups t) m = get_group c (s_groups s) m ->
  s_slots t (m_key m) = s_slots s (m_key m) -> (forall p, In p (mod_params m) -> s_par t p = s_par s p) ->
  let s' := fst (step_module c m s) in let t' := fst (step_module c' m t) in
  snd (step_module c m s) = snd (step_module c' m t) /\ s_slots t' (m_key m) = s_slots s' (m_key m) /\
  (forall p, In p (mod_params m) -> s_par t' p = s_par s' p).
Proof. exact C36_local_lemma. Qed.

End PropSplit.

Print Assumptions C36_split.
Print Assumptions C36_covered.
Print Assumptions C36_failure.
Print Assumptions C36_local.

(** ** Cases *)

(** Two groups with different hyper-parameters: the first layer, and the second one with momentum 0 and T = 2. *)
Example C36_example :
  (exists h, ctor sp ex_par [] = (h, Ok (spc, sp0))) /\ known_mods spc sp_es /\ steps_ok spc sp_es sp0 /\
  map (of_group spc 1) (c_mods spc) = [false; true] /\
  length (view_events 1 (of_group spc 1) (fun _ => false) sp_es) = 12 /\ s_steps (run spc sp_es sp0) = 2 /\
  val_of (run spc sp_es sp0) 2 <> val_of sp0 2.
Proof. exact C36_example_case. Qed.

(** With a failing step the groups are not independent: the backward pass of the first group's layer is
    missing; the second group's layer is not updated, whereas its own optimizer would succeed. *)
Theorem C36_failure_refuted :
  exists (a : @args Q_scalar) par c st0 l i pf es c' t0,
    (exists h h', ctor a par h = (h', Ok (c, st0))) /\ a_params a = PGroups l /\ nth_error l i = Some pf /\ plain_layers (a_model a) /\ known_mods c es /\
    (exists h h', ctor (with_group pf a) par h = (h', Ok (c', t0))) /\
    let s := run c es st0 in let t := run c' (view_events i (of_group c i) (fun _ => false) es) t0 in
    snd (step c false s) = Err KeyError /\ val_of (fst (step c false s)) 2 = val_of s 2 /\
    snd (step c' false t) = Ok tt /\ val_of (fst (step c' false t)) 2 <> val_of s 2.
Proof. exact C36_failure_refuted_lemma. Qed.
Print Assumptions C36_failure_refuted.
