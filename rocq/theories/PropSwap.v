(** C58: of a structure only the matrices it extracts matter. *)

From Coq Require Import List Arith Lia Bool ZArith QArith Qcanon Reals.
From Verif Require Import Scalar Res Tensor TensorFacts Structures StructSpec OptimUtils ProofUtils Optimizer Construct OptSpec OptState OptRun OptFacts OptTyped RealOrd OptStep ProgressSpec ProgressEx Indep LoadFacts RotateSpec Rotate StructSwap QEx OptEx OptEx2 ProofRotate ProofSwap.
Import ListNotations.
Open Scope nat_scope.

Section PropSwap.
Context {SC : Scalar} {FL : FieldLaws SC} {OR : Ordered SC}.

(** Two optimizers for the same model differ in the structures only, and inputs and outputs of the layers of the second model are
    written in other bases.  If corresponding structures extract the same matrices (up to the change of basis), then after any history of
    calls the parameters, gradients and momentum buffers, the preconditioners, their momenta and statistics are the same up to the
    change of basis, and all calls have the same outcomes.  Momenta may be normalised if bases are permuted and signs changed only. *)
Theorem C58_alike : forall NS a a' par par' c c' st0 st0' es es' fr fo fp,
  setting a par c st0 -> setting a' par' c' st0' -> torch_shapes par c -> (forall p, par' p = turn_slot (fp p) (par p)) ->
  same_parameters a a' -> a_init_scale a' = a_init_scale a -> Forall2 same_but_structs (s_groups st0) (s_groups st0') ->
  (NS = false -> Forall (fun g => g_normalize g = false) (s_groups st0)) ->
  (forall m cK cC cK' cC' dK dC, In m (c_mods c) -> has_ty c st0 m cK cC dK dC -> has_ty c' st0' m cK' cC' dK dC ->
     framed (m_layer m) (fr m) /\ alike cK cK' dK (ext (fan (m_layer m)) (fst (fr m))) /\ alike cC cC' dC (snd (fr m)) /\
     (NS = true -> monomial dK (ext (fan (m_layer m)) (fst (fr m))) /\ monomial dC (snd (fr m))) /\
     forall p, In p (mod_params m) -> fp p = fr m) ->
  Forall2 (turned_call NS fr fo fp) es es' -> wf_run c es st0 -> Forall (grad_fits c) es ->
  let s := run c es st0 in let t := run c' es' st0' in
  (forall p, s_par t p = turn_slot (fp p) (s_par s p)) /\
  (forall m cK cC dK dC, In m (c_mods c) -> has_ty c st0 m cK cC dK dC ->
     turned_slots dK dC (ext (fan (m_layer m)) (fst (fr m))) (snd (fr m)) (s_slots s (m_key m)) (s_slots t (m_key m))) /\
  s_steps t = s_steps s /\ s_scales t = s_scales s /\ Forall2 same_but_structs (s_groups s) (s_groups t) /\ s_log t = s_log s /\
  outcomes c' es' st0' = outcomes c es st0.
Proof. exact C58_alike_lemma. Qed.

(** Structures that extract the same matrices from all matrices make the same optimizer: same parameters, same preconditioners,
    same momenta and statistics (as matrices), same outcomes, whatever the history. *)
Theorem C58_same : forall a a' par c c' st0 st0' es,
  setting a par c st0 -> setting a' par c' st0' -> torch_shapes par c ->
  same_parameters a a' -> a_init_scale a' = a_init_scale a -> Forall2 same_but_structs (s_groups st0) (s_groups st0') ->
  (forall m cK cC cK' cC' dK dC, In m (c_mods c) -> has_ty c st0 m cK cC dK dC -> has_ty c' st0' m cK' cC' dK dC ->
     (like cK cK' dK /\ forall M, eqm dK (proj cK' dK M) (proj cK dK M)) /\ (like cC cC' dC /\ forall M, eqm dC (proj cC' dC M) (proj cC dC M))) ->
  wf_run c es st0 -> Forall (grad_fits c) es ->
  let s := run c es st0 in let t := run c' es st0' in
  (forall p, s_par t p = s_par s p) /\
  (forall m cK cC dK dC, In m (c_mods c) -> has_ty c st0 m cK cC dK dC -> same_matrices dK dC (s_slots s (m_key m)) (s_slots t (m_key m))) /\
  s_steps t = s_steps s /\ s_scales t = s_scales s /\ s_log t = s_log s /\ outcomes c' es st0' = outcomes c es st0.
Proof. exact C58_same_lemma. Qed.

(** All six structures are the same optimizer for layers of dimension one, and so are the dense and the hierarchical one for layers with
    at most 15 inputs (with the bias) and outputs. *)
Theorem C58_coincide : forall a a' par c c' st0 st0' es,
  setting a par c st0 -> setting a' par c' st0' -> torch_shapes par c ->
  same_parameters a a' -> a_init_scale a' = a_init_scale a -> Forall2 same_but_structs (s_groups st0) (s_groups st0') ->
  (forall m cK cC cK' cC' dK dC, In m (c_mods c) -> has_ty c st0 m cK cC dK dC -> has_ty c' st0' m cK' cC' dK dC ->
     coincide cK cK' dK /\ coincide cC cC' dC) ->
  wf_run c es st0 -> Forall (grad_fits c) es ->
  (forall p, s_par (run c' es st0') p = s_par (run c es st0) p) /\ outcomes c' es st0' = outcomes c es st0.
Proof. exact C58_coincide_lemma. Qed.

(** Triangular Toeplitz matrices: an optimizer with the lower ones trains a model of linear layers without bias as one with the upper ones trains the
    model with the features of all layers in reverse order.  Likewise with dense or diagonal structures in place of Toeplitz ones. *)
Theorem C58_mirror : forall a a' par par' c c' st0 st0' es es' fo fp,
  setting a par c st0 -> setting a' par' c' st0' -> torch_shapes par c -> (forall p, par' p = turn_slot (fp p) (par p)) ->
  same_parameters a a' -> a_init_scale a' = a_init_scale a -> Forall2 same_but_structs (s_groups st0) (s_groups st0') ->
  (forall m, In m (c_mods c) -> (exists d_in d_out, m_layer m = Linear d_in d_out false) /\ forall p, In p (mod_params m) -> fp p = reversed m) ->
  (forall m cK cC cK' cC' dK dC, In m (c_mods c) -> has_ty c st0 m cK cC dK dC -> has_ty c' st0' m cK' cC' dK dC ->
     mirrored cK cK' /\ mirrored cC cC') ->
  Forall2 (turned_call true reversed fo fp) es es' -> wf_run c es st0 -> Forall (grad_fits c) es ->
  (forall p, s_par (run c' es' st0') p = turn_slot (fp p) (s_par (run c es st0) p)) /\ outcomes c' es' st0' = outcomes c es st0.
Proof. exact C58_mirror_lemma. Qed.

(** The features of linear layers permuted and with other signs, normalised momenta allowed: dense and diagonal structures. *)
Theorem C54_signed : forall a par par' c c' st0 st0' es es' fr fo fp,
  setting a par c st0 -> setting a par' c' st0' -> torch_shapes par c -> (forall p, par' p = turn_slot (fp p) (par p)) ->
  (forall m cK cC dK dC, In m (c_mods c) -> has_ty c st0 m cK cC dK dC -> In cK [CDense; CDiag] /\ In cC [CDense; CDiag]) ->
  (forall m, In m (c_mods c) -> framed (m_layer m) (fr m) /\
     match m_layer m with Linear d_in d_out _ => monomial d_in (fst (fr m)) /\ monomial d_out (snd (fr m)) | _ => True end /\
     forall p, In p (mod_params m) -> fp p = fr m) ->
  Forall2 (turned_call true fr fo fp) es es' -> wf_run c es st0 -> Forall (grad_fits c) es ->
  (forall p, s_par (run c' es' st0') p = turn_slot (fp p) (s_par (run c es st0) p)) /\ outcomes c' es' st0' = outcomes c es st0.
Proof. exact C54_signed_lemma. Qed.

End PropSwap.

Print Assumptions C58_alike.
Print Assumptions C58_same.
Print Assumptions C58_coincide.
Print Assumptions C58_mirror.
Print Assumptions C54_signed.

(** Dense against hierarchical structures, normalised momenta, a failing step. *)
Example C58_example_hierarchical :
  let a := sw_a dense2 in let a' := sw_a (Some (CHier 15 15), Some (CHier 15 15)) in
  let c := fst (built a) in let st0 := snd (built a) in let c' := fst (built a') in let st0' := snd (built a') in let es := sw_hist in
  setting a ex_par c st0 /\ setting a' ex_par c' st0' /\ torch_shapes ex_par c /\ same_parameters a a' /\ a_init_scale a' = a_init_scale a /\
  Forall2 same_but_structs (s_groups st0) (s_groups st0') /\
  (forall m cK cC cK' cC' dK dC, In m (c_mods c) -> has_ty c st0 m cK cC dK dC -> has_ty c' st0' m cK' cC' dK dC -> coincide cK cK' dK /\ coincide cC cC' dC) /\
  wf_run c es st0 /\ Forall (grad_fits c) es /\
  map is_ok (outcomes c es st0) <> map (fun _ => true) es /\ val_of (run c' es st0') 0 = val_of (run c es st0) 0 /\ val_of (run c es st0) 0 <> val_of st0 0 /\
  s_steps (run c es st0) = 3.
Proof. exact C58_example_hierarchical_case. Qed.

(** Block-diagonal structures extract the same matrices as dense ones up to dimension 30, but do not make the same optimizer: some
    of their products are with the transposes. *)
Theorem C58_block_refuted :
  let a := blk_args CDense CDense in let a' := blk_args (CBlock 30) (CBlock 30) in
  let c := fst (built a) in let st0 := snd (built a) in let c' := fst (built a') in let st0' := snd (built a') in
  let es := blk_iter blk_x1 ++ ex_step ++ blk_iter blk_x2 ++ ex_step ++ blk_iter blk_x1 ++ ex_step in
  (forall n (M : nat -> nat -> @F Q_scalar), n <= 30 -> @eqm Q_scalar n (proj (CBlock 30) n M) (proj CDense n M)) /\
  setting a ex_par c st0 /\ setting a' ex_par c' st0' /\ same_parameters a a' /\ Forall2 same_but_structs (s_groups st0) (s_groups st0') /\
  wf_run c es st0 /\ forallb is_ok (outcomes c es st0) = true /\ forallb is_ok (outcomes c' es st0') = true /\
  val_of (run c' es st0') 0 <> val_of (run c es st0) 0.
Proof. exact C58_block_refuted_lemma. Qed.
Print Assumptions C58_block_refuted.

(** Beyond these dimensions the structures differ: two Toeplitz structures or dense and diagonal ones in dimension 2, dense and
    hierarchical ones in dimension 16. *)
Theorem C58_bounds_refuted :
  (exists M, ~ @eqm Q_scalar 2 (proj CTril 2 M) (proj CTriu 2 M)) /\ (exists M, ~ @eqm Q_scalar 2 (proj CDiag 2 M) (proj CDense 2 M)) /\
  (exists M, ~ @eqm Q_scalar 16 (proj (CHier 15 15) 16 M) (proj CDense 16 M)).
Proof. exact C58_bounds_refuted_lemma. Qed.
Print Assumptions C58_bounds_refuted.

(** Lower against upper triangular Toeplitz structures, features reversed, normalised momenta. *)
Example C58_example_mirror :
  let a := mir_a (Some CTril, Some CTril) in let a' := mir_a (Some CTriu, Some CTriu) in
  let c := fst (built a) in let st0 := snd (built a) in let c' := fst (built a') in let st0' := mst a' in let es := mir_hist in let es' := map mcall es in
  setting a ex_par c st0 /\ setting a' mpar c' st0' /\ torch_shapes ex_par c /\ same_parameters a a' /\ Forall2 same_but_structs (s_groups st0) (s_groups st0') /\
  (forall m, In m (c_mods c) -> (exists d_in d_out, m_layer m = Linear d_in d_out false) /\ forall p, In p (mod_params m) -> mfp p = reversed m) /\
  (forall m cK cC cK' cC' dK dC, In m (c_mods c) -> has_ty c st0 m cK cC dK dC -> has_ty c' st0' m cK' cC' dK dC -> mirrored cK cK' /\ mirrored cC cC') /\
  Forall2 (turned_call true reversed mfo mfp) es es' /\ wf_run c es st0 /\ Forall (grad_fits c) es /\
  val_of (run c' es' st0') 0 = show (turnp (mfp 0) (p_val (s_par (run c es st0) 0))) /\
  val_of (run c' es' st0') 0 <> val_of (run c es st0) 0 /\ val_of (run c es st0) 0 <> val_of st0 0 /\ s_steps (run c es st0) = 3.
Proof. exact C58_example_mirror_case. Qed.

(** Diagonal input and dense output structures, normalised momenta, features exchanged with a change of sign. *)
Example C54_example_signed :
  let a := rot_a (Some CDiag, Some CDense) true in let c := fst (built a) in let st0 := snd (built a) in let st0' := rst swap2 a in
  let es := rot_hist in let es' := map (rcall swap2) es in
  setting a ex_par c st0 /\ setting a (rpar swap2) c st0' /\ torch_shapes ex_par c /\
  (forall m cK cC dK dC, In m (c_mods c) -> has_ty c st0 m cK cC dK dC -> In cK [CDense; CDiag] /\ In cC [CDense; CDiag]) /\
  (forall m, In m (c_mods c) -> framed (m_layer m) (rfr swap2 m) /\
     match m_layer m with Linear d_in d_out _ => monomial d_in (fst (rfr swap2 m)) /\ monomial d_out (snd (rfr swap2 m)) | _ => True end /\
     forall p, In p (mod_params m) -> rfp swap2 p = rfr swap2 m) /\
  Forall2 (turned_call true (rfr swap2) (rfo swap2) (rfp swap2)) es es' /\ wf_run c es st0 /\ Forall (grad_fits c) es /\
  Forall (fun g => g_normalize g = true) (s_groups st0) /\
  val_of (run c es' st0') 0 = show (turnp (rfp swap2 0) (p_val (s_par (run c es st0) 0))) /\
  val_of (run c es' st0') 0 <> val_of (run c es st0) 0 /\ val_of (run c es st0) 0 <> val_of st0 0.
Proof. exact C54_example_signed_case. Qed.
