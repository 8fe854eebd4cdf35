(** C57: signs of the accumulated statistics. *)

From Coq Require Import List Arith Lia Bool ZArith QArith Qcanon Reals.
From Verif Require Import Scalar Res Tensor Structures StructSpec OptimUtils Optimizer Construct OptState OptRun OptFacts RealOrd OptTyped Psd QEx OptEx OptEx2 ProofPsd.
Import ListNotations.
Open Scope nat_scope.

Section PropPsd.
Context {SC : Scalar} {FL : FieldLaws SC} {OR : Ordered SC}.

(** Whatever happened before: the statistics collected for the next update of the preconditioners have
    no negative number on the diagonal, so no negative trace either, for all structures. *)
Theorem C57_diagonal : forall a par c st0 es m g cK cC dK dC,
  setting a par c st0 -> wf_run c es st0 -> In m (c_mods c) ->
  get_group c (s_groups st0) m = Ok g -> g_structs g = (Some cK, Some cC) -> preconditioner_dims (m_layer m) = Ok (dK, dC) ->
  let s := s_slots (run c es st0) (m_key m) in
  (forall H, sl_HK s = Some H -> diag_nonneg dK (ent H) /\ (0 <= toR (sum dK (fun i => ent H i i)))%R) /\
  (forall H, sl_HC s = Some H -> diag_nonneg dC (ent H) /\ (0 <= toR (sum dC (fun i => ent H i i)))%R).
Proof. exact C57_diagonal_lemma. Qed.

(** For dense, diagonal and block-diagonal structures they are positive semi-definite. *)
Theorem C57_psd_partial : forall a par c st0 es m g cK cC dK dC,
  setting a par c st0 -> wf_run c es st0 -> In m (c_mods c) ->
  get_group c (s_groups st0) m = Ok g -> g_structs g = (Some cK, Some cC) -> preconditioner_dims (m_layer m) = Ok (dK, dC) ->
  let s := s_slots (run c es st0) (m_key m) in
  (forall H, sl_HK s = Some H -> principal cK -> psd dK (ent H)) /\
  (forall H, sl_HC s = Some H -> principal cC -> psd dC (ent H)).
Proof. exact C57_psd_partial_lemma. Qed.

End PropPsd.

Print Assumptions C57_diagonal.
Print Assumptions C57_psd_partial.

(** ** Cases *)
Example C57_diagonal_example :
  setting (sg_a CTril) ex_par (fst (built (sg_a CTril))) (snd (built (sg_a CTril))) /\
  wf_run (fst (built (sg_a CTril))) sg_es (snd (built (sg_a CTril))) /\ In ex_m1 (c_mods (fst (built (sg_a CTril)))) /\
  length (HK_of (run (fst (built (sg_a CTril))) sg_es (snd (built (sg_a CTril)))) 0 3) = 3 /\
  forallb (fun x => Qle_bool 0 x && negb (Qeq_bool 0 x)) (HK_of (run (fst (built (sg_a CTril))) sg_es (snd (built (sg_a CTril)))) 0 3) = true.
Proof. exact C57_diagonal_example_case. Qed.

Example C57_psd_example :
  setting (sg_a CDense) ex_par (fst (built (sg_a CDense))) (snd (built (sg_a CDense))) /\
  wf_run (fst (built (sg_a CDense))) sg_es (snd (built (sg_a CDense))) /\ In ex_m1 (c_mods (fst (built (sg_a CDense)))) /\ principal CDense /\
  match HK_form (run (fst (built (sg_a CDense))) sg_es (snd (built (sg_a CDense)))) 0 3 [1; -1; 2]%Z with
  | Some v => Qle_bool 0 v && negb (Qeq_bool 0 v) = true | None => False end.
Proof. exact C57_psd_example_case. Qed.

(** Not so for the triangular Toeplitz structures: one sample (1, 0) of a layer with bias. *)
Theorem C57_toeplitz_refuted :
  Forall (fun cK =>
    setting (sg_a cK) ex_par (fst (built (sg_a cK))) (snd (built (sg_a cK))) /\
    wf_run (fst (built (sg_a cK))) tp_es (snd (built (sg_a cK))) /\
    HK_form (run (fst (built (sg_a cK))) tp_es (snd (built (sg_a cK)))) 0 3 [1; 0; -1]%Z = Some (Qmake (-2) 3)) [CTril; CTriu].
Proof. exact C57_toeplitz_refuted_lemma. Qed.
Print Assumptions C57_toeplitz_refuted.

(** Nor for the hierarchical structure: one sample of ones of a layer with 33 inputs. *)
Theorem C57_hierarchical_refuted :
  setting hi_a hi_par (fst hi_built) (snd hi_built) /\
  wf_run (fst hi_built) hi_es (snd hi_built) /\
  HK_form (run (fst hi_built) hi_es (snd hi_built)) 0 33 hi_x = Some (Qmake (-2) 1).
Proof. exact C57_hierarchical_refuted_lemma. Qed.
Print Assumptions C57_hierarchical_refuted.
