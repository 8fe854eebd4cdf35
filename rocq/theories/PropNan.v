(** C61: floating point numbers which are not a number. *)

From Coq Require Import List Arith Lia Bool ZArith Floats.SpecFloat.
From Verif Require Import Scalar Res Tensor TensorFacts Structures OptimUtils Optimizer Construct OptSpec OptState OptRun OptConsume OptStep Float NanSpec Nan QEx OptEx ProofRun ProofNan.
Import ListNotations.
Open Scope nat_scope.

Section PropNan.
Context {SC : Scalar} {AB : Absorbing SC}.

(** * C61: a NaN stays in a parameter, and in a momentum buffer, whatever is called afterwards *)
Theorem C61_parameters_keep : forall c es st p k,
  let st' := run c es st in
  (nan_at (p_val (s_par st p)) k -> nan_at (p_val (s_par st' p)) k) /\
  forall b, p_buf (s_par st p) = Some b -> nan_at b k -> exists b', p_buf (s_par st' p) = Some b' /\ nan_at b' k.
Proof. exact C61_parameters_keep_lemma. Qed.

(** * C61: a NaN stays in the stored tensors of a preconditioner, for all structures *)
Theorem C61_preconditioners_keep : forall c es st m i k,
  let s := s_slots st m in let s' := s_slots (run c es st) m in
  (forall K, sl_K s = Some K -> nan_in K i k -> exists K', sl_K s' = Some K' /\ nan_in K' i k) /\
  (forall C, sl_C s = Some C -> nan_in C i k -> exists C', sl_C s' = Some C' /\ nan_in C' i k).
Proof. exact C61_preconditioners_keep_lemma. Qed.

(** * C61: one NaN in a dense preconditioner destroys the weight and the bias of its layer at the next step, for good *)
Theorem C61_preconditioner_poisons : forall c st st' m K C es,
  cfg_ok c -> In m (c_mods c) -> s_inf st = false -> step c false st = (st', Ok tt) ->
  sl_K (s_slots st (m_key m)) = Some (MDense K) -> sl_C (s_slots st (m_key m)) = Some (MDense C) -> square K -> square C ->
  ((exists k, nan_at K k) \/ exists k, nan_at C k) ->
  all_nan (p_val (s_par (run c es st') (m_weight m))) /\
  match m_bias m with Some p => has_bias (m_layer m) = true -> all_nan (p_val (s_par (run c es st') p)) | None => True end.
Proof. exact C61_preconditioner_poisons_lemma. Qed.

(** * C61: so does one NaN in a gradient which is not skipped *)
Theorem C61_gradient_poisons : forall c st st' m K C wg bg es,
  cfg_ok c -> In m (c_mods c) -> s_inf st = false -> step c false st = (st', Ok tt) ->
  sl_K (s_slots st (m_key m)) = Some (MDense K) -> sl_C (s_slots st (m_key m)) = Some (MDense C) -> square K -> square C ->
  p_grad (s_par st (m_weight m)) = Some wg -> option_map (fun p => p_grad (s_par st p)) (m_bias m) = option_map Some bg ->
  shape wg = weight_shape (m_layer m) -> ((exists k, nan_at wg k) \/ exists b k, bg = Some b /\ nan_at b k) ->
  all_nan (p_val (s_par (run c es st') (m_weight m))) /\
  match m_bias m with Some p => has_bias (m_layer m) = true -> all_nan (p_val (s_par (run c es st') p)) | None => True end.
Proof. exact C61_gradient_poisons_lemma. Qed.

(** * C61: so does a gradient scale which is NaN, whatever the gradients are *)
Theorem C61_scale_poisons : forall c st st' m K C wg es,
  cfg_ok c -> In m (c_mods c) -> s_inf st = false -> step c false st = (st', Ok tt) ->
  sl_K (s_slots st (m_key m)) = Some (MDense K) -> sl_C (s_slots st (m_key m)) = Some (MDense C) -> square K -> square C ->
  p_grad (s_par st (m_weight m)) = Some wg -> shape wg = weight_shape (m_layer m) -> step_scale st = Ok nan ->
  all_nan (p_val (s_par (run c es st') (m_weight m))) /\
  match m_bias m with Some p => has_bias (m_layer m) = true -> all_nan (p_val (s_par (run c es st') p)) | None => True end.
Proof. exact C61_scale_poisons_lemma. Qed.

(** * C61: the output gradients are divided by the root of the scale; if that is NaN, so are all their statistics *)
Theorem C61_scale_statistics : forall c st st' m out x gout C,
  s_pend st out = Some (m, x) -> prod (shape gout) <> 0 ->
  sl_C (s_slots st (m_key m)) = Some (MDense C) -> square C -> sl_HC (s_slots st (m_key m)) = None ->
  get_grad_scale (s_scales st) (Z.of_nat (s_steps st) - 1) = Ok nan -> event_op c (EBackward out gout) st = (st', Ok tt) ->
  exists h, sl_HC (s_slots st' (m_key m)) = Some (MDense h) /\ shape h = shape C /\ all_nan h.
Proof. exact C61_scale_statistics_lemma. Qed.

End PropNan.

Print Assumptions C61_parameters_keep.
Print Assumptions C61_preconditioners_keep.
Print Assumptions C61_preconditioner_poisons.
Print Assumptions C61_gradient_poisons.
Print Assumptions C61_scale_poisons.
Print Assumptions C61_scale_statistics.

(** ** What the check for non-finite gradients does not see *)

(** Half precision. Hyper-parameters, weights, inputs and gradients are finite and moderate; the optimizer is built and
    the step succeeds. It is not true that the weights are finite then: the square of an input
    of 300 exceeds the largest half precision number. *)
Theorem C61_overflow_refuted :
  ~ forall (kfac_like normalize : bool) (x g : list Z),
      let a := fargs 11 16 dense2 kfac_like normalize (fl 11 16 1 0) in
      let c := fst (fbuilt 11 16 a) in let st0 := snd (fbuilt 11 16 a) in
      let es := fiter 11 16 x g (fl 11 16 1 0) in
      is_ok (snd (@ctor (SF_scalar 11 16) a (fpar 11 16) [])) = true ->
      forallb (fin_e 11 16) es = true -> Forall (fun r => r = Ok tt) (@outcomes (SF_scalar 11 16) c es st0) ->
      forallb finite (fweights 11 16 a es) = true.
Proof. exact C61_overflow_refuted_lemma. Qed.
Print Assumptions C61_overflow_refuted.

(** ** Rounding and gradient scaling *)

(** In exact arithmetic a constant gradient scale does not change the parameters (C26). With rounding it does:
    single precision, scale 3. *)
Theorem C61_scaling_refuted :
  ~ forall (s : spec_float) (x g : list Z),
      finite s = true -> SFltb (S754_zero false) s = true ->
      fweights 24 128 (fargs 24 128 dense2 false false s) (fiter 24 128 x g s ++ fiter 24 128 x g s) =
      fweights 24 128 (fargs 24 128 dense2 false false (fl 24 128 1 0)) (fiter 24 128 x g (fl 24 128 1 0) ++ fiter 24 128 x g (fl 24 128 1 0)).
Proof. exact C61_scaling_refuted_lemma. Qed.
Print Assumptions C61_scaling_refuted.

(** The run of the overflow, in half precision: after one iteration with an input of 300 an entry of K is NaN; the
    premises of the theorems hold for the second iteration, with an input of 1. *)
Example C61_poison_example :
  cfg_ok nan_c /\ In fm (c_mods nan_c) /\ s_inf nan_2 = false /\ snd (step nan_c false nan_2) = Ok tt /\
  (exists K C : @tensor (SF_scalar 11 16), sl_K (s_slots nan_2 0) = Some (MDense K) /\ sl_C (s_slots nan_2 0) = Some (MDense C) /\ square K /\ square C /\
     nan_at K 0) /\
  fweights 11 16 (fargs 11 16 dense2 true true (fl 11 16 1 0)) (fback 11 16 [300; 1]%Z [1; -1]%Z (fl 11 16 1 0)) = [fl 11 16 1 0; fl 11 16 2 0; fl 11 16 3 0; fl 11 16 4 0].
Proof. exact C61_poison_example_case. Qed.

(** A gradient with a NaN, single precision; a GradScaler which finds it protects the weights: the step is skipped. *)
Example C61_gradient_example :
  let a := fargs 24 128 dense2 true false (fl 24 128 1 0) in
  let es i := fback 24 128 [3; 1]%Z [1; -1]%Z (fl 24 128 1 0) ++ [@EGrad (SF_scalar 24 128) 0 (Some nan_g); @EScaler (SF_scalar 24 128) None i; @EStep (SF_scalar 24 128) false] in
  nan_at nan_g 3 /\
  fweights 24 128 a (es false) = repeat S754_nan 4 /\
  fweights 24 128 a (es true) = [fl 24 128 1 0; fl 24 128 2 0; fl 24 128 3 0; fl 24 128 4 0].
Proof. exact C61_gradient_example_case. Qed.

(** Diagonal preconditioners: only the column of the large input is lost. *)
Example C61_diagonal_example :
  map finite (fweights 11 16 (fargs 11 16 (Some CDiag, Some CDiag) true false (fl 11 16 1 0)) (fiter 11 16 [300; 1]%Z [1; -1]%Z (fl 11 16 1 0))) = [false; true; false; true].
Proof. exact C61_diagonal_example_case. Qed.

(** With a scale of 4 nothing is rounded differently. *)
Example C61_scaling_example :
  fweights 24 128 (fargs 24 128 dense2 false false (fl 24 128 4 0)) (fiter 24 128 [3; 1]%Z [1; -1]%Z (fl 24 128 4 0) ++ fiter 24 128 [3; 1]%Z [1; -1]%Z (fl 24 128 4 0)) =
  fweights 24 128 (fargs 24 128 dense2 false false (fl 24 128 1 0)) (fiter 24 128 [3; 1]%Z [1; -1]%Z (fl 24 128 1 0) ++ fiter 24 128 [3; 1]%Z [1; -1]%Z (fl 24 128 1 0)) /\
  forallb finite (fweights 24 128 (fargs 24 128 dense2 false false (fl 24 128 1 0)) (fiter 24 128 [3; 1]%Z [1; -1]%Z (fl 24 128 1 0) ++ fiter 24 128 [3; 1]%Z [1; -1]%Z (fl 24 128 1 0))) = true.
Proof. exact C61_scaling_example_case. Qed.

(** A NaN announced with [set_current_grad_scale] or given as initial scale; everything else is finite, and no call fails. *)
Example C61_scale_example :
  let a v := fargs 24 128 dense2 true false v in
  let one := fl 24 128 1 0 in
  let nan_s : spec_float := S754_nan in
  let b v := fst (fbuilt 24 128 (a v)) in
  let before v es := @run (SF_scalar 24 128) (b v) es (snd (fbuilt 24 128 (a v))) in
  let back := firstn 2 (fback 24 128 [3; 1]%Z [1; -1]%Z one) in
  let all := fback 24 128 [3; 1]%Z [1; -1]%Z one in
  let late := [@ESetScale (SF_scalar 24 128) nan_s; @EStep (SF_scalar 24 128) false] in
  (* a scale announced after the backward pass *)
  forallb finite (fweights 24 128 (a one) all) = true /\
  @step_scale (SF_scalar 24 128) (before one (all ++ firstn 1 late)) = Ok nan_s /\
  snd (@step (SF_scalar 24 128) (b one) false (before one (all ++ firstn 1 late))) = Ok tt /\
  fweights 24 128 (a one) (all ++ late) = repeat S754_nan 4 /\
  (* an initial scale *)
  @get_grad_scale (SF_scalar 24 128) (s_scales (before nan_s back)) (-1) = Ok nan_s /\
  is_ok (match s_pend (before nan_s back) 10 with Some _ => Ok tt | None => Err KeyError end) = true /\
  snd (@event_op (SF_scalar 24 128) (b nan_s) (@EBackward (SF_scalar 24 128) 10 (ft 24 128 [1; 2] [1; -1]%Z)) (before nan_s back)) = Ok tt /\
  data (dense_or (sl_HC (s_slots (before nan_s all) 0))) = repeat S754_nan 4 /\
  forallb finite (data (dense_or (sl_HC (s_slots (before one all) 0)))) = true.
Proof. exact C61_scale_example_case. Qed.
