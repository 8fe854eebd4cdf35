(** C70: the part of the weights that no gradient reaches. *)

From Coq Require Import List Arith Lia Bool ZArith QArith Qcanon Reals Field Lra.
From Verif Require Import Scalar Res Tensor Structures OptimUtils Optimizer Construct OptState OptRun OptTyped CtorFacts TensorFacts LayerSim RealOrd ProgressSpec Progress ProgressEx Indep LinearSpec LinearFacts DecaySpec DecayFacts QEx OptEx OptEx2 ProofIndep ProofLinear ProofDecay.
Import ListNotations.
Open Scope nat_scope.

Section PropDecay.
Context {SC : Scalar} {FL : FieldLaws SC}.
Open Scope F_scope.

(** If all gradients handed over are zero, every entry of weights, biases and momentum buffers follows the recursion of momentum and weight
    decay with the settings in force at the steps which are not skipped, whatever passes go through the network. *)
Theorem C70_decay : forall a par c st0 es m p i,
  setting a par c st0 -> torch_shapes par c ->
  (forall q g, trained c q -> p_grad (par q) = Some g -> all_zero g) -> Forall zero_call es ->
  wf_run c es st0 -> Forall (grad_fits c) es -> steps_return es (outcomes c es st0) ->
  In m (c_mods c) -> In p (mod_params m) -> (i < numel (p_val (par p)))%nat ->
  entry_of (s_par (run c es st0) p) i = drifts (in_force c m es (s_groups st0) false) (nth i (data (p_val (par p))) 0, 0).
Proof. exact C70_decay_lemma. Qed.

(** Two trainings with the same arguments, calls and gradients, but different initial weights: the differences of
    weights and of momentum buffers follow the same recursion; gradients and curvature do not enter. *)
Theorem C70_difference : forall a par1 par2 c1 c2 st1 st2 es m p i,
  setting a par1 c1 st1 -> setting a par2 c2 st2 -> torch_shapes par1 c1 -> torch_shapes par2 c2 ->
  (forall q, trained c1 q -> p_grad (par2 q) = p_grad (par1 q)) ->
  wf_run c1 es st1 -> Forall (grad_fits c1) es -> steps_return es (outcomes c1 es st1) ->
  In m (c_mods c1) -> In p (mod_params m) -> (i < numel (p_val (par1 p)))%nat ->
  let e1 := entry_of (s_par (run c1 es st1) p) i in let e2 := entry_of (s_par (run c2 es st2) p) i in
  (fst e1 - fst e2, snd e1 - snd e2) =
  drifts (in_force c1 m es (s_groups st1) false) (nth i (data (p_val (par1 p))) 0 - nth i (data (p_val (par2 p))) 0, 0).
Proof. exact C70_difference_lemma. Qed.

(** Without momentum the difference is multiplied by 1 - lr * weight_decay at every step which is not skipped. *)
Theorem C70_forgets : forall a par1 par2 c1 c2 st1 st2 es m p i,
  setting a par1 c1 st1 -> setting a par2 c2 st2 -> torch_shapes par1 c1 -> torch_shapes par2 c2 ->
  (forall q, trained c1 q -> p_grad (par2 q) = p_grad (par1 q)) ->
  wf_run c1 es st1 -> Forall (grad_fits c1) es -> steps_return es (outcomes c1 es st1) ->
  In m (c_mods c1) -> In p (mod_params m) -> (i < numel (p_val (par1 p)))%nat ->
  (forall g, In g (in_force c1 m es (s_groups st1) false) -> g_momentum g = 0) ->
  nth i (data (p_val (s_par (run c1 es st1) p))) 0 - nth i (data (p_val (s_par (run c2 es st2) p))) 0 =
  fold_right (fun g r => (1 - g_lr g * g_wd g) * r) 1 (in_force c1 m es (s_groups st1) false) *
  (nth i (data (p_val (par1 p))) 0 - nth i (data (p_val (par2 p))) 0).
Proof. exact C70_forgets_lemma. Qed.

(** Without weight decay the difference never changes, and the momentum buffers are the same. *)
Theorem C70_remembers : forall a par1 par2 c1 c2 st1 st2 es m p i,
  setting a par1 c1 st1 -> setting a par2 c2 st2 -> torch_shapes par1 c1 -> torch_shapes par2 c2 ->
  (forall q, trained c1 q -> p_grad (par2 q) = p_grad (par1 q)) ->
  wf_run c1 es st1 -> Forall (grad_fits c1) es -> steps_return es (outcomes c1 es st1) ->
  In m (c_mods c1) -> In p (mod_params m) -> (i < numel (p_val (par1 p)))%nat ->
  (forall g, In g (in_force c1 m es (s_groups st1) false) -> g_wd g = 0) ->
  let e1 := entry_of (s_par (run c1 es st1) p) i in let e2 := entry_of (s_par (run c2 es st2) p) i in
  fst e1 - fst e2 = nth i (data (p_val (par1 p))) 0 - nth i (data (p_val (par2 p))) 0 /\ snd e1 = snd e2.
Proof. exact C70_remembers_lemma. Qed.
End PropDecay.

Print Assumptions C70_decay.
Print Assumptions C70_difference.
Print Assumptions C70_forgets.
Print Assumptions C70_remembers.

Section RealDecay.
Context {SC : Scalar} {FL : FieldLaws SC} {OR : Ordered SC}.
Open Scope R_scope.

(** Over (a subfield of) the real numbers: if the factors of all steps are at most rho in absolute value, the difference
    falls geometrically with the number of steps which are not skipped. *)
Theorem C70_rate : forall a par1 par2 c1 c2 st1 st2 es m p i rho,
  setting a par1 c1 st1 -> setting a par2 c2 st2 -> torch_shapes par1 c1 -> torch_shapes par2 c2 ->
  (forall q, trained c1 q -> p_grad (par2 q) = p_grad (par1 q)) ->
  wf_run c1 es st1 -> Forall (grad_fits c1) es -> steps_return es (outcomes c1 es st1) ->
  In m (c_mods c1) -> In p (mod_params m) -> (i < numel (p_val (par1 p)))%nat ->
  (forall g, In g (in_force c1 m es (s_groups st1) false) -> g_momentum g = f0 /\ Rabs (1 - toR (g_lr g) * toR (g_wd g)) <= rho) ->
  Rabs (toR (nth i (data (p_val (s_par (run c1 es st1) p))) f0) - toR (nth i (data (p_val (s_par (run c2 es st2) p))) f0)) <=
  rho ^ length (in_force c1 m es (s_groups st1) false) * Rabs (toR (nth i (data (p_val (par1 p))) f0) - toR (nth i (data (p_val (par2 p))) f0)).
Proof. exact C70_rate_lemma. Qed.
End RealDecay.

Print Assumptions C70_rate.

(** No momentum, weight decay 1/2: three steps count, with factors 3/4, 3/4 and 5/6; weights move. *)
Example C70_example :
  let es := de_hist (q 0) (qr 1 2) in
  (setting ex_std ex_par in_c (li0 ex_par) /\ setting ex_std in_par in_c (li0 in_par) /\ torch_shapes ex_par in_c /\ torch_shapes in_par in_c /\
   (forall q, trained in_c q -> p_grad (in_par q) = p_grad (ex_par q)) /\
   wf_run in_c es (li0 ex_par) /\ Forall (grad_fits in_c) es /\ steps_return es (outcomes in_c es (li0 ex_par)) /\
   In ex_m1 (c_mods in_c) /\ In 0 (mod_params ex_m1) /\ 1 < numel (p_val (ex_par 0))) /\
  map (fun g => (g_momentum g, g_lr g)) (in_force in_c ex_m1 es (s_groups (li0 ex_par)) false) = [(q 0, qr 1 2); (q 0, qr 1 2); (q 0, qr 1 3)] /\
  (let s1 := run in_c es (li0 ex_par) in let s2 := run in_c es (li0 in_par) in
   s_steps s1 = 4 /\ fst (entry_of (s_par s1 0) 1) <> fst (entry_of (s_par (li0 ex_par) 0) 1) /\
   (fst (entry_of (s_par s1 0) 1) - fst (entry_of (s_par s2 0) 1))%Qc = (qr 45 96 * (fst (entry_of (ex_par 0) 1) - fst (entry_of (in_par 0) 1)))%Qc).
Proof. exact C70_example_case. Qed.

(** No weight decay, momentum 1/2: the difference stays, the weights move. *)
Example C70_remembers_example :
  let es := de_hist (qr 1 2) (q 0) in
  (setting ex_std ex_par in_c (li0 ex_par) /\ setting ex_std in_par in_c (li0 in_par) /\ torch_shapes ex_par in_c /\ torch_shapes in_par in_c /\
   (forall q, trained in_c q -> p_grad (in_par q) = p_grad (ex_par q)) /\
   wf_run in_c es (li0 ex_par) /\ Forall (grad_fits in_c) es /\ steps_return es (outcomes in_c es (li0 ex_par)) /\
   In ex_m1 (c_mods in_c) /\ In 0 (mod_params ex_m1) /\ 1 < numel (p_val (ex_par 0))) /\
  map (fun g => (g_momentum g, g_wd g)) (in_force in_c ex_m1 es (s_groups (li0 ex_par)) false) = [(qr 1 2, q 0); (qr 1 2, q 0); (qr 1 2, q 0)] /\
  (let s1 := run in_c es (li0 ex_par) in let s2 := run in_c es (li0 in_par) in
   fst (entry_of (s_par s1 0) 1) <> fst (entry_of (s_par (li0 ex_par) 0) 1) /\ snd (entry_of (s_par s1 0) 1) <> q 0 /\
   (fst (entry_of (s_par s1 0) 1) - fst (entry_of (s_par s2 0) 1))%Qc = (fst (entry_of (ex_par 0) 1) - fst (entry_of (in_par 0) 1))%Qc).
Proof. exact C70_remembers_example_case. Qed.

(** With momentum and weight decay: the recursion, and a training without gradients. *)
Example C70_momentum_example :
  let es := map (li_grad (q 0)) (de_hist (qr 1 2) (qr 1 2)) in
  setting ex_std ex_par in_c (li0 ex_par) /\ torch_shapes ex_par in_c /\ (forall q g, trained in_c q -> p_grad (ex_par q) = Some g -> all_zero g) /\ Forall zero_call es /\
  wf_run in_c es (li0 ex_par) /\ Forall (grad_fits in_c) es /\ steps_return es (outcomes in_c es (li0 ex_par)) /\
  fst (entry_of (s_par (run in_c es (li0 ex_par)) 0) 1) = fst (drifts (in_force in_c ex_m1 es (s_groups (li0 ex_par)) false) (entry_of (ex_par 0) 1)) /\
  entry_of (s_par (run in_c es (li0 ex_par)) 0) 1 <> entry_of (ex_par 0) 1 /\ pre_of (run in_c es (li0 ex_par)) 0 <> pre_of (li0 ex_par) 0.
Proof. exact C70_momentum_example_case. Qed.
