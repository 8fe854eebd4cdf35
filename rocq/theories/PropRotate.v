(** C54: training does not depend on the orthonormal bases in which the features of linear layers are written. *)

From Coq Require Import List Arith Lia Bool ZArith QArith Qcanon Reals.
From Verif Require Import Scalar Res Tensor TensorFacts Structures StructSpec OptimUtils ProofUtils Optimizer Construct OptSpec OptState OptRun OptTyped ProgressSpec ProgressEx Indep LoadFacts RotateSpec Rotate QEx OptEx OptEx2 ProofRotate.
Import ListNotations.
Open Scope nat_scope.

Section PropRotate.
Context {SC : Scalar} {FL : FieldLaws SC}.

(** Inputs and outputs of the linear layers are written in other orthonormal bases (Q for inputs, P for outputs, per layer): weights
    P^T W Q, biases P^T b, inputs x Q, output gradients g P, gradients P^T G Q.  If extracting the structures commutes with the
    changes of basis and momenta are not normalised, then after any history of calls the weights, gradients and momentum buffers are
    those of the original history in the new bases, so are preconditioners, their momenta and statistics (Q^T K Q, P^T C P), and all
    calls have the same outcomes. *)
Theorem C54_equivariant : forall a par par' c c' st0 st0' es es' fr fo fp,
  setting a par c st0 -> setting a par' c' st0' -> torch_shapes par c -> (forall p, par' p = turn_slot (fp p) (par p)) ->
  Forall (fun g => g_normalize g = false) (s_groups st0) ->
  (forall m cK cC dK dC, In m (c_mods c) -> has_ty c st0 m cK cC dK dC ->
     framed (m_layer m) (fr m) /\ stable cK dK (ext (fan (m_layer m)) (fst (fr m))) /\ stable cC dC (snd (fr m)) /\
     forall p, In p (mod_params m) -> fp p = fr m) ->
  Forall2 (turned_call false fr fo fp) es es' -> wf_run c es st0 -> Forall (grad_fits c) es ->
  let s := run c es st0 in let t := run c' es' st0' in
  (forall p, s_par t p = turn_slot (fp p) (s_par s p)) /\
  (forall m cK cC dK dC, In m (c_mods c) -> has_ty c st0 m cK cC dK dC ->
     turned_slots dK dC (ext (fan (m_layer m)) (fst (fr m))) (snd (fr m)) (s_slots s (m_key m)) (s_slots t (m_key m))) /\
  s_steps t = s_steps s /\ s_scales t = s_scales s /\ Forall2 same_but_structs (s_groups s) (s_groups t) /\ s_log t = s_log s /\
  outcomes c' es' st0' = outcomes c es st0.
Proof. exact C54_equivariant_lemma. Qed.

(** With dense structures everywhere: any orthonormal bases. *)
Theorem C54_dense : forall a par par' c c' st0 st0' es es' fr fo fp,
  setting a par c st0 -> setting a par' c' st0' -> torch_shapes par c -> (forall p, par' p = turn_slot (fp p) (par p)) ->
  Forall (fun g => g_normalize g = false /\ g_structs g = (Some CDense, Some CDense)) (s_groups st0) ->
  (forall m, In m (c_mods c) -> framed (m_layer m) (fr m) /\ forall p, In p (mod_params m) -> fp p = fr m) ->
  Forall2 (turned_call false fr fo fp) es es' -> wf_run c es st0 -> Forall (grad_fits c) es ->
  (forall p, s_par (run c' es' st0') p = turn_slot (fp p) (s_par (run c es st0) p)) /\ outcomes c' es' st0' = outcomes c es st0.
Proof. exact C54_dense_lemma. Qed.

(** With diagonal structures everywhere: permutations of the features with changes of sign. *)
Theorem C54_diagonal : forall a par par' c c' st0 st0' es es' fr fo fp,
  setting a par c st0 -> setting a par' c' st0' -> torch_shapes par c -> (forall p, par' p = turn_slot (fp p) (par p)) ->
  Forall (fun g => g_normalize g = false /\ g_structs g = (Some CDiag, Some CDiag)) (s_groups st0) ->
  (forall m, In m (c_mods c) -> framed (m_layer m) (fr m) /\
     match m_layer m with Linear d_in d_out _ => monomial d_in (fst (fr m)) /\ monomial d_out (snd (fr m)) | _ => True end /\
     forall p, In p (mod_params m) -> fp p = fr m) ->
  Forall2 (turned_call false fr fo fp) es es' -> wf_run c es st0 -> Forall (grad_fits c) es ->
  (forall p, s_par (run c' es' st0') p = turn_slot (fp p) (s_par (run c es st0) p)) /\ outcomes c' es' st0' = outcomes c es st0.
Proof. exact C54_diagonal_lemma. Qed.

(** The two models compute the same function: the outputs of a turned linear layer for turned inputs are the turned outputs. *)
Theorem C54_same_function : forall n r QP W b x i,
  shape W = [r; n] -> (match b with Some b => shape b = [r] | None => True end) -> orth n (fst QP) -> i < r ->
  lin n (turnp QP W) (option_map (turnp QP) b) (fun k => sum n (fun q => (x q * fst QP q k)%F)) i = sum r (fun a => (snd QP a i * lin n W b x a)%F).
Proof. exact C54_same_function_lemma. Qed.

End PropRotate.

Print Assumptions C54_equivariant.
Print Assumptions C54_dense.
Print Assumptions C54_diagonal.
Print Assumptions C54_same_function.

(** Dense structures and a genuine rotation; Riemannian momentum, momentum, weight decay, a failing step. *)
Example C54_example :
  let a := rot_a dense2 false in let c := fst (built a) in let st0 := snd (built a) in let st0' := rst turn2d a in
  let es := rot_hist in let es' := map (rcall turn2d) es in
  setting a ex_par c st0 /\ setting a (rpar turn2d) c st0' /\ torch_shapes ex_par c /\
  Forall (fun g => g_normalize g = false /\ g_structs g = (Some CDense, Some CDense)) (s_groups st0) /\
  (forall m, In m (c_mods c) -> framed (m_layer m) (rfr turn2d m) /\ forall p, In p (mod_params m) -> rfp turn2d p = rfr turn2d m) /\
  Forall2 (turned_call false (rfr turn2d) (rfo turn2d) (rfp turn2d)) es es' /\ wf_run c es st0 /\ Forall (grad_fits c) es /\
  map is_ok (outcomes c es st0) <> map (fun _ => true) es /\
  val_of (run c es' st0') 0 = show (turnp (rfp turn2d 0) (p_val (s_par (run c es st0) 0))) /\
  val_of (run c es' st0') 0 <> val_of (run c es st0) 0 /\ val_of (run c es st0) 0 <> val_of st0 0 /\ s_steps (run c es st0) = 3.
Proof. exact C54_example_case. Qed.

(** Diagonal structures, features exchanged with a change of sign. *)
Example C54_example_diagonal :
  let a := rot_a (Some CDiag, Some CDiag) false in let c := fst (built a) in let st0 := snd (built a) in let st0' := rst swap2 a in
  let es := rot_hist in let es' := map (rcall swap2) es in
  (forall m, In m (c_mods c) -> framed (m_layer m) (rfr swap2 m) /\
     match m_layer m with Linear d_in d_out _ => monomial d_in (fst (rfr swap2 m)) /\ monomial d_out (snd (rfr swap2 m)) | _ => True end /\
     forall p, In p (mod_params m) -> rfp swap2 p = rfr swap2 m) /\
  Forall (fun g => g_normalize g = false /\ g_structs g = (Some CDiag, Some CDiag)) (s_groups st0) /\
  setting a ex_par c st0 /\ setting a (rpar swap2) c st0' /\
  val_of (run c es' st0') 0 = show (turnp (rfp swap2 0) (p_val (s_par (run c es st0) 0))) /\
  val_of (run c es' st0') 0 <> val_of (run c es st0) 0 /\ val_of (run c es st0) 0 <> val_of st0 0.
Proof. exact C54_example_diagonal_case. Qed.

(** Normalised momenta: the largest absolute entry depends on the basis, and so does training. *)
Theorem C54_normalized_refuted :
  let a := rot_a dense2 true in let c := fst (built a) in let st0 := snd (built a) in let st0' := rst turn2d a in
  let es := ex_iter (q 1) ++ ex_step in let es' := map (rcall turn2d) es in
  setting a ex_par c st0 /\ setting a (rpar turn2d) c st0' /\ Forall2 (turned_call false (rfr turn2d) (rfo turn2d) (rfp turn2d)) es es' /\ wf_run c es st0 /\
  forallb is_ok (outcomes c es st0) = true /\ forallb is_ok (outcomes c es' st0') = true /\
  val_of (run c es' st0') 0 <> show (turnp (rfp turn2d 0) (p_val (s_par (run c es st0) 0))).
Proof. exact C54_normalized_refuted_lemma. Qed.
Print Assumptions C54_normalized_refuted.

(** Diagonal structures and a genuine rotation. *)
Theorem C54_diagonal_rotation_refuted :
  let a := rot_a (Some CDiag, Some CDiag) false in let c := fst (built a) in let st0 := snd (built a) in let st0' := rst turn2d a in
  let es := ex_iter (q 1) ++ ex_step in let es' := map (rcall turn2d) es in
  setting a ex_par c st0 /\ setting a (rpar turn2d) c st0' /\ Forall2 (turned_call false (rfr turn2d) (rfo turn2d) (rfp turn2d)) es es' /\ wf_run c es st0 /\
  forallb is_ok (outcomes c es st0) = true /\ forallb is_ok (outcomes c es' st0') = true /\
  val_of (run c es' st0') 0 <> show (turnp (rfp turn2d 0) (p_val (s_par (run c es st0) 0))).
Proof. exact C54_diagonal_rotation_refuted_lemma. Qed.
Print Assumptions C54_diagonal_rotation_refuted.
