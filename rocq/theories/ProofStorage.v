(** C56: how many numbers the optimizer keeps. *)

From Coq Require Import List Arith Lia Bool ZArith QArith Qcanon.
From Verif Require Import Scalar Res Tensor Structures StructSpec StructDense OptimUtils Optimizer Construct OptState OptRun OptFacts OptTyped Storage QEx OptEx OptEx2.
Import ListNotations.
Open Scope nat_scope.

Section PropStorage.
Context {SC : Scalar} {FL : FieldLaws SC}.

Lemma C56_layers_lemma a par c st0 es m g cK cC dK dC :
  setting a par c st0 -> wf_run c es st0 -> In m (c_mods c) ->
  get_group c (s_groups st0) m = Ok g -> g_structs g = (Some cK, Some cC) -> preconditioner_dims (m_layer m) = Ok (dK, dC) ->
  let s := s_slots (run c es st0) (m_key m) in
  held s = count_K s * storage cK dK + count_C s * storage cC dC /\
  1 <= count_K s <= (if feqb (g_alpha1 g) 0%F then 2 else 3) /\ 1 <= count_C s <= (if feqb (g_alpha1 g) 0%F then 2 else 3).
Proof.
  intros SE W Hm Eg Es Ed s. pose proof (setting_ok _ _ _ _ SE) as [[NK NP] L]. destruct SE as ((h & h' & E) & _ & _ & _ & SO).
  destruct (ctor_typed _ _ _ _ _ _ E NK SO L) as (TO & TA & M). destruct (run_all_typed c _ es st0 TO NK TA W) as [[TR _] AL].
  specialize (TR m Hm). specialize (AL m Hm). unfold mod_typed, ctor_ty in TR. rewrite Eg, Ed, Es in TR. fold s in TR, AL.
  split; [apply held_typed; exact TR|]. destruct (M m Hm) as (g' & cK' & cC' & dK' & dC' & K & C & Eg' & _ & _ & _ & _ & _ & _ & _ & X & _).
  rewrite Eg in Eg'. injection Eg' as <-. destruct TR as [(K1 & EK & _) (C1 & EC & _) _ _ _ _]. unfold count_K, count_C. rewrite EK, EC. cbn [present].
  destruct AL as [A1 A2]. destruct (feqb (g_alpha1 g) 0%F).
  - destruct X as [X1 X2]. apply A1 in X1. apply A2 in X2. rewrite X1, X2. cbn [present]. destruct (sl_HK s), (sl_HC s); cbn; lia.
  - destruct (sl_mK s), (sl_mC s), (sl_HK s), (sl_HC s); cbn; lia.
Qed.

Lemma C56_objects_lemma c n s : valid c n s -> stored s = storage c n.
Proof. exact (stored_valid c n s). Qed.

Lemma C56_never_more_lemma c n : cls_ok c -> storage c n <= n * n.
Proof. exact (storage_dense_bound c n). Qed.

Lemma C56_linear_lemma c n : In c supported_structures -> c <> CDense -> storage c n <= 31 * n.
Proof. intros H N. destruct (storage_supported c n H) as [[E _]|B]; [contradiction|exact B]. Qed.

Lemma C56_buffers_lemma a par hooks hooks' c st0 es p :
  ctor a par hooks = (hooks', Ok (c, st0)) ->
  let st := run c es st0 in
  shape (p_val (s_par st p)) = shape (p_val (par p)) /\
  forall b, p_buf (s_par st p) = Some b -> shape b = shape (p_val (par p)).
Proof.
  intros H st. apply ctor_state in H as (_ & _ & _ & _ & _ & _ & HP). destruct (run_kb c es st0 p) as [B E].
  { intros b Hb. rewrite HP in Hb. discriminate. }
  fold st in B, E. rewrite HP in E. cbn in E. split; [exact E|]. intros b Hb. rewrite <- E. apply B. exact Hb.
Qed.

End PropStorage.

(** ** Cases *)

(** Momentum 1/2, Riemannian momentum 1/2: before the second step there are three matrices for each side. *)
Definition so_es : list (@event Q_scalar) := ex_iter (q 1) ++ ex_step ++ ex_iter (q 1).
Definition so_a (al : Qc) : @args Q_scalar := ex_args PNone al (qr 1 2) (q 0) 1 (Some (CDiag), Some CDense) false false (q 1).

Lemma C56_layers_example_case :
  setting (so_a (qr 1 2)) ex_par (fst (built (so_a (qr 1 2)))) (snd (built (so_a (qr 1 2)))) /\
  wf_run (fst (built (so_a (qr 1 2)))) so_es (snd (built (so_a (qr 1 2)))) /\ In ex_m1 (c_mods (fst (built (so_a (qr 1 2))))) /\
  preconditioner_dims (m_layer ex_m1) = Ok (3, 1) /\
  held (s_slots (run (fst (built (so_a (qr 1 2)))) so_es (snd (built (so_a (qr 1 2))))) 0) = 3 * 3 + 3 * 1 /\
  held (s_slots (run (fst (built (so_a (q 0)))) so_es (snd (built (so_a (q 0))))) 0) = 2 * 3 + 2 * 1.
Proof.
  split; [apply built_setting; vm_compute; reflexivity|]. split; [apply wf_runb_ok; vm_compute; reflexivity|].
  split; [vm_compute; auto|]. repeat split; vm_compute; reflexivity.
Qed.

Lemma C56_sizes_example_case :
  map (fun c => storage c 100) supported_structures = [10000; 100; 2800; 2845; 100; 100] /\
  storage (CRec TopRight (Fin 10) Inf CDense CDiag) 100 = 1090.
Proof. split; vm_compute; reflexivity. Qed.

Lemma C56_objects_example_case :
  match from_dense (CHier 1 1) (qt [4; 4] [1;2;3;4; 2;5;6;7; 3;6;8;9; 4;7;9;10]%Z) with
  | Ok s => stored s = 9 /\ storage (CHier 1 1) 4 = 9
  | Err _ => False
  end.
Proof. vm_compute. split; reflexivity. Qed.

Lemma C56_buffers_example_case :
  let st := run (fst (built (so_a (qr 1 2)))) (ex_iter (q 1) ++ ex_step) (snd (built (so_a (qr 1 2)))) in
  option_map shape (p_buf (s_par st 0)) = Some [1; 2] /\ shape (p_val (ex_par 0)) = [1; 2].
Proof. split; vm_compute; reflexivity. Qed.
