(** C56: how many numbers the optimizer keeps. *)

From Coq Require Import List Arith Lia Bool ZArith QArith Qcanon.
From Verif Require Import Scalar Res Tensor Structures StructSpec StructDense OptimUtils Optimizer Construct OptState OptRun OptFacts OptTyped Storage QEx OptEx OptEx2 ProofStorage.
Import ListNotations.
Open Scope nat_scope.

Section PropStorage.
Context {SC : Scalar} {FL : FieldLaws SC}.

(** At any time, for every layer: each preconditioner, momentum and statistic holds as many numbers
    as its class needs for the layer's dimension, and there are at most three for each side of the layer
    (two without Riemannian momentum), whatever the calls, successful or not. *)
Theorem C56_layers : forall a par c st0 es m g cK cC dK dC,
  setting a par c st0 -> wf_run c es st0 -> In m (c_mods c) ->
  get_group c (s_groups st0) m = Ok g -> g_structs g = (Some cK, Some cC) -> preconditioner_dims (m_layer m) = Ok (dK, dC) ->
  let s := s_slots (run c es st0) (m_key m) in
  held s = count_K s * storage cK dK + count_C s * storage cC dC /\
  1 <= count_K s <= (if feqb (g_alpha1 g) 0%F then 2 else 3) /\ 1 <= count_C s <= (if feqb (g_alpha1 g) 0%F then 2 else 3).
Proof. exact C56_layers_lemma. Qed.

(** An object of class [c] for dimension [n], however it was computed. *)
Theorem C56_objects : forall c n s, valid c n s -> stored s = storage c n.
Proof. exact C56_objects_lemma. Qed.

(** Structured matrices never need more numbers than the dense matrix, and a number proportional to the
    dimension for all structures of the optimizer but the dense one. *)
Theorem C56_never_more : forall c n, cls_ok c -> storage c n <= n * n.
Proof. exact C56_never_more_lemma. Qed.

Theorem C56_linear : forall c n, In c supported_structures -> c <> CDense -> storage c n <= 31 * n.
Proof. exact C56_linear_lemma. Qed.

(** Momentum buffers have the shape of their parameter, which never changes. *)
Theorem C56_buffers : forall a par hooks hooks' c st0 es p,
  ctor a par hooks = (hooks', Ok (c, st0)) ->
  let st := run c es st0 in
  shape (p_val (s_par st p)) = shape (p_val (par p)) /\
  forall b, p_buf (s_par st p) = Some b -> shape b = shape (p_val (par p)).
Proof. exact C56_buffers_lemma. Qed.

End PropStorage.

Print Assumptions C56_layers.
Print Assumptions C56_objects.
Print Assumptions C56_never_more.
Print Assumptions C56_linear.
Print Assumptions C56_buffers.

(** ** Cases *)

(** Momentum 1/2, Riemannian momentum 1/2: before the second step there are three matrices for each side. *)
Example C56_layers_example :
  setting (so_a (qr 1 2)) ex_par (fst (built (so_a (qr 1 2)))) (snd (built (so_a (qr 1 2)))) /\
  wf_run (fst (built (so_a (qr 1 2)))) so_es (snd (built (so_a (qr 1 2)))) /\ In ex_m1 (c_mods (fst (built (so_a (qr 1 2))))) /\
  preconditioner_dims (m_layer ex_m1) = Ok (3, 1) /\
  held (s_slots (run (fst (built (so_a (qr 1 2)))) so_es (snd (built (so_a (qr 1 2))))) 0) = 3 * 3 + 3 * 1 /\
  held (s_slots (run (fst (built (so_a (q 0)))) so_es (snd (built (so_a (q 0))))) 0) = 2 * 3 + 2 * 1.
Proof. exact C56_layers_example_case. Qed.

Example C56_sizes_example :
  map (fun c => storage c 100) supported_structures = [10000; 100; 2800; 2845; 100; 100] /\
  storage (CRec TopRight (Fin 10) Inf CDense CDiag) 100 = 1090.
Proof. exact C56_sizes_example_case. Qed.

Example C56_objects_example :
  match from_dense (CHier 1 1) (qt [4; 4] [1;2;3;4; 2;5;6;7; 3;6;8;9; 4;7;9;10]%Z) with
  | Ok s => stored s = 9 /\ storage (CHier 1 1) 4 = 9
  | Err _ => False
  end.
Proof. exact C56_objects_example_case. Qed.

Example C56_buffers_example :
  let st := run (fst (built (so_a (qr 1 2)))) (ex_iter (q 1) ++ ex_step) (snd (built (so_a (qr 1 2)))) in
  option_map shape (p_buf (s_par st 0)) = Some [1; 2] /\ shape (p_val (ex_par 0)) = [1; 2].
Proof. exact C56_buffers_example_case. Qed.
