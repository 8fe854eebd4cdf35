(** C71: the learning rate. *)

From Coq Require Import List Arith Lia Bool ZArith QArith Qcanon Reals Field.
From Verif Require Import Scalar Res Tensor Structures OptimUtils Optimizer Construct OptState OptRun OptTyped OptFacts OptStep CtorFacts TensorFacts LayerSim ProgressSpec Progress ProgressEx IndepSpec Indep LinearSpec LinearFacts DecaySpec DecayFacts RateSpec RateFacts QEx OptEx OptEx2 ProofIndep ProofLinear ProofDecay ProofRate.
Import ListNotations.
Open Scope nat_scope.

Section PropRate.
Context {SC : Scalar} {FL : FieldLaws SC}.
Open Scope F_scope.

(** Without weight decay the learning rate scales the way the weights go, and nothing else.  Two trainings with the same gradients and the
    same calls, except that every learning rate put in force is r times as large in the second: at any time the second
    has moved every weight r times as far from its initial value as the first; momentum buffers, preconditioners, statistics, scales,
    counter and warnings are the same, and the same calls raise, with the same exceptions. *)
Theorem C71_scaled : forall r a par c st0 gs gs' es es',
  setting a par c st0 -> torch_shapes par c -> Forall2 (rescaled r) gs gs' -> Forall2 (rescaled_call r) es es' ->
  Forall (fun g => g_wd g = 0) gs -> Forall (sets (fun g => g_wd g = 0)) es ->
  wf_run c (EGroups gs :: es) st0 -> Forall (grad_fits c) es ->
  let s := run c (EGroups gs :: es) st0 in let s' := run c (EGroups gs' :: es') st0 in
  (forall p i, trained c p -> (i < numel (p_val (par p)))%nat ->
     let v0 := nth i (data (p_val (par p))) 0 in
     fst (entry_of (s_par s' p) i) - v0 = r * (fst (entry_of (s_par s p) i) - v0) /\ snd (entry_of (s_par s' p) i) = snd (entry_of (s_par s p) i)) /\
  (forall k, s_slots s' k = s_slots s k) /\ s_steps s' = s_steps s /\ s_scales s' = s_scales s /\ s_log s' = s_log s /\
  outcomes c (EGroups gs' :: es') st0 = outcomes c (EGroups gs :: es) st0.
Proof. exact C71_scaled_lemma. Qed.

(** With learning rate zero the weights never move: whatever momentum, weight decay, gradients and passes are. *)
Theorem C71_still : forall a par c st0 gs es p,
  setting a par c st0 -> torch_shapes par c -> Forall (fun g => g_lr g = 0) gs -> Forall (sets (fun g => g_lr g = 0)) es ->
  wf_run c (EGroups gs :: es) st0 -> Forall (grad_fits c) es -> trained c p ->
  p_val (s_par (run c (EGroups gs :: es) st0) p) = p_val (par p).
Proof. exact C71_still_lemma. Qed.

(** Without weight decay gradients r times as large do the same to the weights as learning rates r times as large, if no step raises;
    the momentum buffers, however, become r times as large. *)
Theorem C71_gradients : forall r a par c st0 es es' m p i,
  setting a par c st0 -> torch_shapes par c -> (forall q, trained c q -> p_grad (par q) = None) -> Forall2 (times_call r) es es' ->
  wf_run c es st0 -> Forall (grad_fits c) es -> steps_return es (outcomes c es st0) ->
  In m (c_mods c) -> In p (mod_params m) -> (i < numel (p_val (par p)))%nat ->
  (forall g, In g (in_force c m es (s_groups st0) false) -> g_wd g = 0) ->
  let e := entry_of (s_par (run c es st0) p) i in let e' := entry_of (s_par (run c es' st0) p) i in let v0 := nth i (data (p_val (par p))) 0 in
  fst e' - v0 = r * (fst e - v0) /\ snd e' = r * snd e.
Proof. exact C71_gradients_lemma. Qed.
End PropRate.

Print Assumptions C71_scaled.
Print Assumptions C71_still.
Print Assumptions C71_gradients.

(** Learning rates three times as large, momentum 1/2, four iterations with a schedule and a skipped step. *)
Example C71_example :
  let gs := ra_groups (qr 1 2) (q 0) in let es := tl (de_hist (qr 1 2) (q 0)) in
  setting ex_std ex_par in_c (li0 ex_par) /\ torch_shapes ex_par in_c /\
  Forall2 (@rescaled Q_scalar (q 3)) gs (map (ra_times (q 3)) gs) /\ Forall2 (@rescaled_call Q_scalar (q 3)) es (map (ra_call (q 3)) es) /\
  forallb (fun g => @feqb Q_scalar (g_wd g) (q 0)) gs = true /\ forallb (fun e => match e with EGroups gs => forallb (fun g => @feqb Q_scalar (g_wd g) (q 0)) gs | _ => true end) es = true /\
  wf_run in_c (@EGroups Q_scalar gs :: es) (li0 ex_par) /\ Forall (grad_fits in_c) es /\ trained in_c 0 /\ 1 < numel (p_val (ex_par 0)) /\
  (let s := run in_c (@EGroups Q_scalar gs :: es) (li0 ex_par) in let s' := run in_c (@EGroups Q_scalar (map (ra_times (q 3)) gs) :: map (ra_call (q 3)) es) (li0 ex_par) in
   s_steps s = 4 /\ fst (entry_of (s_par s 0) 1) <> fst (entry_of (ex_par 0) 1) /\ snd (entry_of (s_par s 0) 1) <> q 0 /\
   (fst (entry_of (s_par s' 0) 1) - fst (entry_of (ex_par 0) 1))%Qc = (q 3 * (fst (entry_of (s_par s 0) 1) - fst (entry_of (ex_par 0) 1)))%Qc).
Proof. exact C71_example_case. Qed.

(** Learning rate zero with momentum 1/2 and weight decay 1/2: buffers and preconditioners move, weights do not. *)
Example C71_still_example :
  let gs := map (set_rates (q 0) (qr 1 2) (qr 1 2)) (s_groups in0) in let es := ex_iter (q 1) ++ ex_step ++ ex_iter (q 2) ++ ex_step in
  setting ex_std ex_par in_c (li0 ex_par) /\ torch_shapes ex_par in_c /\
  forallb (fun g => @feqb Q_scalar (g_lr g) (q 0)) gs = true /\ Forall (sets (fun g => g_lr g = (q 0 : @F Q_scalar))) es /\
  wf_run in_c (@EGroups Q_scalar gs :: es) (li0 ex_par) /\ Forall (grad_fits in_c) es /\ trained in_c 0 /\
  (let s := run in_c (@EGroups Q_scalar gs :: es) (li0 ex_par) in
   s_steps s = 2 /\ val_of s 0 = val_of (li0 ex_par) 0 /\ snd (entry_of (s_par s 0) 1) <> q 0 /\ pre_of s 0 <> pre_of (li0 ex_par) 0 /\
   forallb is_ok (outcomes in_c (@EGroups Q_scalar gs :: es) (li0 ex_par)) = true).
Proof. exact C71_still_example_case. Qed.

(** Gradients three times as large: the weights of learning rates three times as large, other buffers. *)
Example C71_gradients_example :
  let es := de_hist (qr 1 2) (q 0) in let es' := map (li_grad (q 3)) es in
  setting ex_std ex_par in_c (li0 ex_par) /\ torch_shapes ex_par in_c /\ (forall p, trained in_c p -> p_grad (ex_par p) = None) /\
  Forall2 (@times_call Q_scalar (q 3)) es es' /\ wf_run in_c es (li0 ex_par) /\ Forall (grad_fits in_c) es /\ steps_return es (outcomes in_c es (li0 ex_par)) /\
  map (fun g => g_wd g) (in_force in_c ex_m1 es (s_groups (li0 ex_par)) false) = [q 0; q 0; q 0] /\
  (let s := run in_c es (li0 ex_par) in let s' := run in_c es' (li0 ex_par) in
   let s2 := run in_c (map (ra_call (q 3)) es) (li0 ex_par) in
   val_of s 0 <> val_of (li0 ex_par) 0 /\ val_of s' 0 <> val_of s 0 /\ val_of s' 0 = val_of s2 0 /\ snd (entry_of (s_par s' 0) 1) <> snd (entry_of (s_par s2 0) 1)).
Proof. exact C71_gradients_example_case. Qed.

(** With weight decay twice the learning rate does not move the weights twice as far. *)
Theorem C71_decay_refuted :
  let gs := ra_groups (q 0) (qr 1 2) in let es := ex_iter (q 1) ++ ex_step ++ ex_iter (q 2) ++ ex_step in
  let s := run in_c (@EGroups Q_scalar gs :: es) (li0 ex_par) in let s' := run in_c (@EGroups Q_scalar (map (ra_times (q 2)) gs) :: es) (li0 ex_par) in
  forallb is_ok (outcomes in_c (@EGroups Q_scalar gs :: es) (li0 ex_par)) = true /\ Forall2 (@rescaled Q_scalar (q 2)) gs (map (ra_times (q 2)) gs) /\
  (fst (entry_of (s_par s' 0) 1) - fst (entry_of (ex_par 0) 1))%Qc <> (q 2 * (fst (entry_of (s_par s 0) 1) - fst (entry_of (ex_par 0) 1)))%Qc.
Proof. exact C71_decay_refuted_lemma. Qed.
Print Assumptions C71_decay_refuted.
