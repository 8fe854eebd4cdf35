(** C65: performance warnings. *)

From Coq Require Import List Arith Lia Bool ZArith QArith Qcanon.
From Verif Require Import Scalar Res Tensor Structures OptimUtils Optimizer Construct OptState OptRun OptFacts OptTyped CtorSpec Naive NaiveSpec NaiveFacts NaiveRun QEx OptEx OptEx2 ProofNaive.
Import ListNotations.
Open Scope nat_scope.

Section PropNaive.
Context {SC : Scalar} {FL : FieldLaws SC}.

(** Collecting the warnings changes no result: the instrumented calls end in the same state with the same
    outcome, and so does the constructor. *)
Theorem C65_results : forall (a : args) par hooks c e st,
  snd (w_ctor a par hooks) = ctor a par hooks /\ snd (w_event_op c e st) = event_op c e st.
Proof. exact C65_results_lemma. Qed.

(** A successful call issues exactly: for a backward pass one warning for each Toeplitz factor of the layer, for
    a step one for each Toeplitz factor of each layer whose update is due, otherwise nothing. *)
Theorem C65_calls : forall (a : args) par c st0 es e,
  setting a par c st0 -> wf_run c es st0 -> snd (event_op c e (run c es st0)) = Ok tt ->
  call_warns c (s_groups st0) (run c es st0) e (naive_warnings c e (run c es st0)).
Proof. exact C65_calls_lemma. Qed.

(** A call that raises has issued no other warnings either. *)
Theorem C65_only : forall (a : args) par c st0 es e,
  setting a par c st0 -> wf_run c es st0 -> Forall (toeplitz_warning (s_groups st0)) (naive_warnings c e (run c es st0)).
Proof. exact C65_only_lemma. Qed.

(** The constructor issues none, whether it succeeds or not. *)
Theorem C65_constructor : forall (a : args) par hooks,
  (forall i g c, settings a i = Some g -> fst (g_structs g) = Some c \/ snd (g_structs g) = Some c -> In c supported_structures) ->
  fst (w_ctor a par hooks) = [].
Proof. exact C65_constructor_lemma. Qed.

(** Without Toeplitz structures no history of calls issues any. *)
Theorem C65_silent : forall (a : args) par c st0 es,
  setting a par c st0 -> wf_run c es st0 ->
  (forall g ct, In g (s_groups st0) -> fst (g_structs g) = Some ct \/ snd (g_structs g) = Some ct -> ~ toeplitz ct) ->
  all_naive_warnings c es st0 = [].
Proof. exact C65_silent_lemma. Qed.

(** The documented meaning of WARN_NAIVE_EXCEPTIONS ("methods that should not trigger a warning") fails for both
    Toeplitz classes: from_inner is exempt, but every successful call of it warns about from_mat_inner. *)
Theorem C65_exempt_refuted : forall (s : smat) X r,
  toeplitz (cls_of s) -> from_inner s X = Ok r ->
  In FromInner (exceptions (cls_of s)) /\ fst (w_from_inner s X) = [(cls_of s, FromMatInner)].
Proof. exact C65_exempt_refuted_lemma. Qed.

(** The recursive structures define none of the methods but frobenius_norm: each call of from_inner warns about
    from_inner, from_mat_inner and, with a factor, about rmatmat. *)
Theorem C65_recursive : forall (s : smat) X r sd ma mc ca cc,
  cls_of s = CRec sd ma mc ca cc -> from_inner s X = Ok r ->
  map snd (fst (w_from_inner s X)) = FromInner :: match X with Some _ => [Rmatmat] | None => [] end ++ [FromMatInner] /\
  forall w, In w (fst (w_from_inner s X)) -> fst w = cls_of s.
Proof. exact C65_recursive_lemma. Qed.

(** The methods the optimizer does not use: no matrix warns in frobenius_norm, also not one with recursive parts;
    __add__ and __mul__ warn for the recursive classes only, from_inner2 for block-diagonal, hierarchical and recursive
    ones. *)
Theorem C65_methods : forall (s o : smat) x X,
  fst (w_frobenius_norm s) = [] /\
  (fst (w_add s o) = [] /\ fst (w_mul s x) = [] /\ ~ recursive (cls_of s) \/
   fst (w_add s o) = [(cls_of s, Add)] /\ fst (w_mul s x) = [(cls_of s, Mul)] /\ recursive (cls_of s)) /\
  (fst (w_from_inner2 s X) <> [] <-> recursive (cls_of s) \/ (exists d, cls_of s = CBlock d) \/ exists k1 k2, cls_of s = CHier k1 k2).
Proof. exact C65_methods_lemma. Qed.

End PropNaive.

Print Assumptions C65_results.
Print Assumptions C65_calls.
Print Assumptions C65_only.
Print Assumptions C65_constructor.
Print Assumptions C65_silent.
Print Assumptions C65_exempt_refuted.
Print Assumptions C65_recursive.
Print Assumptions C65_methods.

(** Three iterations with T = 2: backward passes and steps of iterations 0 and 2 warn once for each layer, those of
    iteration 1 do not warn. *)
Example C65_example :
  setting nv ex_par nvc nv0 /\ wf_run nvc nv_es nv0 /\ fst (w_ctor nv ex_par []) = [] /\
  naive_warnings nvc (EBackward 11 ex_g2) (run nvc (firstn 2 nv_es) nv0) = [(CTril, FromMatInner)] /\
  snd (event_op nvc (EStep false) (run nvc (ex_iter (q 1)) nv0)) = Ok tt /\
  naive_warnings nvc (EStep false) (run nvc (ex_iter (q 1)) nv0) = [(CTril, FromMatInner); (CTril, FromMatInner)] /\
  all_naive_warnings nvc (ex_iter (q 1) ++ ex_step) (run nvc (ex_iter (q 1) ++ ex_step) nv0) = [] /\
  length (all_naive_warnings nvc (nv_es ++ ex_step) nv0) = 8.
Proof. exact C65_example_case. Qed.

(** Without Toeplitz structures: the hypotheses of [C65_silent] are met by a history with steps. *)
Example C65_silent_example :
  setting nh ex_par (fst (built nh)) (snd (built nh)) /\ wf_run (fst (built nh)) (ex_iter (q 1) ++ ex_step) (snd (built nh)) /\
  (forall g ct, In g (s_groups (snd (built nh))) -> fst (g_structs g) = Some ct \/ snd (g_structs g) = Some ct -> ~ toeplitz ct) /\
  s_steps (run (fst (built nh)) (ex_iter (q 1) ++ ex_step) (snd (built nh))) = 1.
Proof. exact C65_silent_example_case. Qed.

(** A lower-triangular Toeplitz matrix: from_inner is exempt and warns. *)
Example C65_exempt_example :
  toeplitz (cls_of (@MTril Q_scalar (qt [2] [1; 2]%Z))) /\ is_ok (from_inner (@MTril Q_scalar (qt [2] [1; 2]%Z)) (Some (qt [2; 1] [3; 4]%Z))) = true /\
  fst (w_from_inner (@MTril Q_scalar (qt [2] [1; 2]%Z)) (Some (qt [2; 1] [3; 4]%Z))) = [(CTril, FromMatInner)].
Proof. exact C65_exempt_example_case. Qed.

(** A recursive matrix: a diagonal and a dense block beside a row. *)
Example C65_recursive_example :
  cls_of (rcs [1; 0; 0; 0; 2; 0; 3; 4; 5]%Z) = TrilTopLeftDiagonalMatrix /\ is_ok (from_inner (rcs [1; 0; 0; 0; 2; 0; 3; 4; 5]%Z) (Some (qt [3; 1] [1; 2; 3]%Z))) = true /\
  map snd (fst (w_from_inner (rcs [1; 0; 0; 0; 2; 0; 3; 4; 5]%Z) (Some (qt [3; 1] [1; 2; 3]%Z)))) = [FromInner; Rmatmat; FromMatInner].
Proof. exact C65_recursive_example_case. Qed.

(** A step that raises (no gradients) has warned about the first layer. *)
Example C65_only_example :
  setting nv ex_par nvc nv0 /\ wf_run nvc (firstn 4 nv_es) nv0 /\
  outcome (event_op nvc (EStep false) (run nvc (firstn 4 nv_es) nv0)) = Err AttributeError /\
  naive_warnings nvc (EStep false) (run nvc (firstn 4 nv_es) nv0) = [(CTril, FromMatInner)].
Proof. exact C65_only_example_case. Qed.

(** A recursive matrix: frobenius_norm is silent and returns, __add__ warns. *)
Example C65_methods_example :
  cls_of (rcs [3; 0; 0; 0; 4; 0; 0; 0; 12]%Z) = TrilTopLeftDiagonalMatrix /\
  match w_frobenius_norm (rcs [3; 0; 0; 0; 4; 0; 0; 0; 12]%Z) with ([], Ok v) => Qc_eq_bool v (q 13) | _ => false end = true /\
  fst (w_add (rcs [3; 0; 0; 0; 4; 0; 0; 0; 12]%Z) (rcs [3; 0; 0; 0; 4; 0; 0; 0; 12]%Z)) = [(TrilTopLeftDiagonalMatrix, Add)] /\
  is_ok (add (rcs [3; 0; 0; 0; 4; 0; 0; 0; 12]%Z) (rcs [3; 0; 0; 0; 4; 0; 0; 0; 12]%Z)) = true.
Proof. exact C65_methods_example_case. Qed.
