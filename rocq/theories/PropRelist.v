(** C64: the order in which modules, groups and parameters are listed does not matter. *)

From Coq Require Import List Arith Lia Bool ZArith Permutation QArith Qcanon.
From Verif Require Import Scalar Res Tensor Structures OptimUtils Optimizer Construct OptState OptRun OptTyped CtorSpec CtorFacts Split SplitCtor ProofSplit RelistSpec Relist RelistCtor QEx OptEx OptEx2 ProofRelist.
Import ListNotations.
Open Scope nat_scope.

Section PropRelist.
Context {SC : Scalar} {FL : FieldLaws SC}.

(** The same script, but modules are registered in another order in the model, parameters are handed over in
    another order and groups are at other positions: the constructor succeeds too and hooks the same modules; all
    calls return or raise the same; and at the end every preconditioner, momentum, parameter, buffer, the step
    counter, the scales and the issued warnings are the same.  No step of the script may raise. *)
Theorem C64_order : forall a par hooks h c st0 pos model' params' es es',
  ctor a par hooks = (h, Ok (c, st0)) ->
  NoDup (map (fun n => m_key (n_mod n)) (a_model a)) -> NoDup (flat_map mod_params (c_mods c)) ->
  Permutation (a_model a) model' -> relisted_params pos (a_params a) params' ->
  Forall2 (same_event (group_count (a_params a)) pos) es es' -> steps_ok c es st0 ->
  exists h' c' t0, ctor (call_with model' params' a) par hooks = (h', Ok (c', t0)) /\ Permutation h h' /\
    outcomes c' es' t0 = outcomes c es st0 /\
    same_training (group_count (a_params a)) pos (run c es st0) (run c' es' t0).
Proof. exact C64_order_lemma. Qed.

(** One pass over the modules does not depend on their order: for any two lists of the same hooked modules, if one
    loop succeeds so does the other, with the same result. *)
Theorem C64_loop : forall (c : cfg) (l l' : list modul) s s',
  NoDup (map m_key l) -> NoDup (flat_map mod_params l) -> Permutation l l' ->
  forS (step_module c) l s = (s', Ok tt) ->
  exists t', forS (step_module c) l' s = (t', Ok tt) /\
    (forall k, s_slots t' k = s_slots s' k) /\ (forall p, s_par t' p = s_par s' p) /\
    s_steps t' = s_steps s' /\ s_scales t' = s_scales s' /\ s_groups t' = s_groups s' /\ s_log t' = s_log s'.
Proof. exact C64_loop_lemma. Qed.

End PropRelist.

Print Assumptions C64_order.
Print Assumptions C64_loop.

(** ** Cases *)

(** Two groups with different hyper-parameters change places, the second layer is registered first and the bias is
    handed over before the weight; in between the learning rate of one group is changed. *)
Example C64_example :
  (exists h, ctor sp ex_par [] = (h, Ok (spc, sp0))) /\ NoDup (map (fun n => m_key (n_mod n)) (a_model sp)) /\ NoDup (flat_map mod_params (c_mods spc)) /\
  Permutation (a_model sp) rl_model /\ relisted_params rl_pos (a_params sp) (PGroups rl_groups) /\
  Forall2 (same_event (group_count (a_params sp)) rl_pos) rl_es rl_es' /\ steps_ok spc rl_es sp0 /\
  map m_key (c_mods spc) = [0; 1] /\ map m_key (c_mods (fst (built rl))) = [1; 0] /\
  s_steps (run spc rl_es sp0) = 2 /\ val_of (run spc rl_es sp0) 2 <> val_of sp0 2.
Proof. exact C64_example_case. Qed.

(** One pass over the two layers of this model. *)
Example C64_loop_example :
  let s := run spc (ex_iter (q 1) ++ [@ESetScale Q_scalar (q 1)]) sp0 in
  NoDup (map m_key (c_mods spc)) /\ NoDup (flat_map mod_params (c_mods spc)) /\ Permutation (c_mods spc) [ex_m2; ex_m1] /\
  (exists s', forS (step_module spc) (c_mods spc) s = (s', Ok tt)) /\
  val_of (fst (forS (step_module spc) (c_mods spc) s)) 2 <> val_of s 2.
Proof. exact C64_loop_example_case. Qed.

(** If a step raises, the order matters: the layers before the failing one are updated, those after it are not.
    The backward pass of the first layer is missing. *)
Theorem C64_failing_refuted :
  exists (a : @args Q_scalar) par c st0 model' es c' t0,
    (exists h h', ctor a par h = (h', Ok (c, st0))) /\ Permutation (a_model a) model' /\
    (exists h h', ctor (call_with model' (a_params a) a) par h = (h', Ok (c', t0))) /\
    NoDup (map (fun n => m_key (n_mod n)) (a_model a)) /\ NoDup (flat_map mod_params (c_mods c)) /\
    outcomes c' es t0 = outcomes c es st0 /\ val_of (run c es st0) 2 = val_of st0 2 /\ val_of (run c' es t0) 2 <> val_of t0 2.
Proof. exact C64_failing_refuted_lemma. Qed.
Print Assumptions C64_failing_refuted.

(** Layers that share their weight are updated one after the other: with weight decay the result depends on which
    layer comes first. *)
Theorem C64_tied_refuted :
  exists (a : @args Q_scalar) par c st0 model' es c' t0,
    (exists h h', ctor a par h = (h', Ok (c, st0))) /\ Permutation (a_model a) model' /\
    (exists h h', ctor (call_with model' (a_params a) a) par h = (h', Ok (c', t0))) /\
    NoDup (map (fun n => m_key (n_mod n)) (a_model a)) /\ steps_ok c es st0 /\ steps_ok c' es t0 /\
    val_of (run c es st0) 0 <> val_of (run c' es t0) 0.
Proof. exact C64_tied_refuted_lemma. Qed.
Print Assumptions C64_tied_refuted.
