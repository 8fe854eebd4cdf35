(** C51: which training scripts raise no exception. *)

From Coq Require Import List Arith Lia Bool ZArith QArith Qcanon Reals.
From Verif Require Import Scalar Res Tensor Structures OptimUtils Optimizer Construct OptState OptRun OptTyped ProgressSpec Progress ProgressEx QEx OptEx OptEx2.
Import ListNotations.
Open Scope nat_scope.

Section PropProgress.
Context {SC : Scalar} {FL : FieldLaws SC}.

Lemma C51_regular_lemma a par c st0 es :
  setting a par c st0 -> torch_shapes par c -> sound_call a c (s_groups st0) ->
  regular c (s_groups st0) [] [] [] es -> Forall (fun r => r = Ok tt) (outcomes c es st0).
Proof. exact (regular_quiet a par c st0 es). Qed.

Lemma C51_step_lemma a par c st0 es :
  setting a par c st0 -> torch_shapes par c -> wf_run c es st0 -> Forall (grad_fits c) es ->
  let st := run c es st0 in
  snd (step c false st) = Ok tt <-> exists cur, step_scale st = Ok cur /\ (s_inf st = true \/ forall m, In m (c_mods c) -> ready c st cur m).
Proof. exact (setting_step a par c st0 es). Qed.

Lemma C51_backward_lemma a par c st0 es out m x g :
  setting a par c st0 -> torch_shapes par c -> wf_run c es st0 -> Forall (grad_fits c) es ->
  let st := run c es st0 in
  s_pend st out = Some (m, x) -> fits (m_layer m) x g ->
  snd (event_op c (EBackward out g) st) = Ok tt <-> backward_ready c st m.
Proof. exact (setting_backward a par c st0 es out m x g). Qed.
End PropProgress.

Lemma C51_regular_real_lemma (a : @args R_scalar) par c st0 es :
  setting a par c st0 -> torch_shapes par c -> sound_call a c (s_groups st0) ->
  regular c (s_groups st0) [] [] [] es -> Forall (fun r => r = Ok tt) (outcomes c es st0).
Proof. exact (C51_regular_lemma a par c st0 es). Qed.

(** ** Cases *)

Definition pr_c : cfg := fst (built ex_std).
Definition pr0 : @state Q_scalar := snd (built ex_std).
(** Other values in all groups: update interval, Riemannian momentum. *)
Definition edit (T : nat) (al : Qc) (g : @group Q_scalar) : @group Q_scalar :=
  @mkGroup Q_scalar (g_params g) (g_lr g) (g_momentum g) (g_damping g) (al : @F Q_scalar) (g_wd g) T (g_loss g) (g_lr_cov g) (g_structs g) (g_approx g) (g_kfac_like g) (g_normalize g).

(** Two micro-batches, an evaluation pass between them; a skipped step; other groups; an announced scale. *)
Definition pr_hist : list (@event Q_scalar) :=
  ex_iter (q 1) ++ [@EForward Q_scalar ex_m1 ex_x1 false 30; @EGrad Q_scalar 1 None] ++ ex_iter (q 1) ++ ex_step ++
  [@EScaler Q_scalar (Some (Some (q 4 : @F Q_scalar))) true] ++ ex_iter (q 4) ++ ex_step ++
  [@EScaler Q_scalar None false; @EGroups Q_scalar (map (edit 1 (q 0)) (s_groups pr0))] ++
  ex_iter (q 16) ++ [@ESetScale Q_scalar (q 16 : @F Q_scalar)] ++ ex_step ++ ex_iter (q 1) ++ ex_step.

Lemma C51_example_case :
  setting ex_std ex_par pr_c pr0 /\ torch_shapes ex_par pr_c /\ sound_call ex_std pr_c (s_groups pr0) /\
  regular pr_c (s_groups pr0) [] [] [] pr_hist /\
  s_steps (run pr_c pr_hist pr0) = 4 /\ val_of (run pr_c pr_hist pr0) 0 <> val_of pr0 0.
Proof.
  split; [apply built_setting; vm_compute; reflexivity|]. split; [apply torch_shapesb_ok; vm_compute; reflexivity|].
  split; [apply sound_callb_ok; vm_compute; reflexivity|]. split; [apply regularb_ok; vm_compute; reflexivity|].
  split; [vm_compute; reflexivity|vm_compute; discriminate].
Qed.

Lemma C51_step_example_case :
  let es := ex_iter (q 1) ++ ex_step ++ [@EGrad Q_scalar 1 None] in
  setting ex_std ex_par pr_c pr0 /\ torch_shapes ex_par pr_c /\ wf_run pr_c es pr0 /\ Forall (grad_fits pr_c) es /\
  snd (step pr_c false (run pr_c es pr0)) <> Ok tt /\
  snd (step pr_c false (run pr_c (es ++ [@EGrad Q_scalar 1 (Some (qt [1] [5]%Z))]) pr0)) = Ok tt.
Proof.
  cbv zeta. split; [apply built_setting; vm_compute; reflexivity|]. split; [apply torch_shapesb_ok; vm_compute; reflexivity|].
  split; [apply wf_runb_ok; vm_compute; reflexivity|]. split; [apply grads_fitb_ok; vm_compute; reflexivity|].
  split; [vm_compute; discriminate|vm_compute; reflexivity].
Qed.

Lemma C51_backward_example_case :
  let es := firstn 2 (ex_iter (q 1)) in
  setting ex_std ex_par pr_c pr0 /\ torch_shapes ex_par pr_c /\ wf_run pr_c es pr0 /\ Forall (grad_fits pr_c) es /\
  s_pend (run pr_c es pr0) 10 = Some (ex_m1, ex_x1) /\ fits (m_layer ex_m1) ex_x1 ex_g1 /\
  snd (event_op pr_c (@EBackward Q_scalar 10 ex_g1) (run pr_c es pr0)) = Ok tt.
Proof.
  cbv zeta. split; [apply built_setting; vm_compute; reflexivity|]. split; [apply torch_shapesb_ok; vm_compute; reflexivity|].
  split; [apply wf_runb_ok; vm_compute; reflexivity|]. split; [apply grads_fitb_ok; vm_compute; reflexivity|].
  split; [reflexivity|]. split; [apply fitsb_fits; vm_compute; reflexivity|]. vm_compute. reflexivity.
Qed.

Lemma C51_interval_refuted_lemma :
  exists gs, ok_groups pr_c (s_groups pr0) gs /\
    let es := ex_iter (q 1) ++ ex_step in
    Forall (fun r => r = Ok tt) (outcomes pr_c (es ++ ex_iter (q 1) ++ ex_step) pr0) /\
    outcome (step pr_c false (run pr_c (es ++ ex_iter (q 1) ++ [@EGroups Q_scalar gs]) pr0)) = Err KeyError.
Proof.
  exists (map (edit 1 (q 0)) (s_groups pr0)). split; [apply ok_groupsb_ok; vm_compute; reflexivity|]. cbv zeta.
  split; [|vm_compute; reflexivity].
  assert (E : map is_ok (outcomes pr_c ((ex_iter (q 1) ++ ex_step) ++ ex_iter (q 1) ++ ex_step) pr0) = repeat true 16) by (vm_compute; reflexivity).
  apply Forall_forall. intros r Hr. assert (is_ok r = true).
  { apply (repeat_spec 16). rewrite <- E. apply in_map. exact Hr. }
  destruct r as [[]|]; [reflexivity|discriminate].
Qed.

Lemma C51_momentum_refuted_lemma :
  exists (a : @args Q_scalar) gs, let c := fst (built a) in let st0 := snd (built a) in
    setting a ex_par c st0 /\ torch_shapes ex_par c /\ sound_call a c (s_groups st0) /\ gs = map (edit 2 (qr 1 2)) (s_groups st0) /\
    outcome (step c false (run c (@EGroups Q_scalar gs :: ex_iter (q 1)) st0)) = Err KeyError.
Proof.
  exists (ex_args PNone (q 0) (qr 1 2) (qr 1 8) 2 dense2 false false (q 1)). eexists. cbv zeta.
  split; [apply built_setting; vm_compute; reflexivity|]. split; [apply torch_shapesb_ok; vm_compute; reflexivity|].
  split; [apply sound_callb_ok; vm_compute; reflexivity|]. split; [reflexivity|]. vm_compute. reflexivity.
Qed.

Lemma C51_unused_layer_refuted_lemma :
  let es := [@EForward Q_scalar ex_m1 ex_x1 true 10; @EBackward Q_scalar 10 ex_g1;
             @EGrad Q_scalar 0 (Some (qt [1; 2] [6; -2]%Z)); @EGrad Q_scalar 1 (Some (qt [1] [2]%Z)); @EGrad Q_scalar 2 (Some (qt [2; 1] [0; 0]%Z))] in
  outcome (step pr_c false (run pr_c es pr0)) = Err KeyError /\
  (* ... after the first layer has been updated already *)
  val_of (fst (step pr_c false (run pr_c es pr0))) 0 <> val_of pr0 0.
Proof. cbv zeta. split; [vm_compute; reflexivity|vm_compute; discriminate]. Qed.

Lemma C51_negative_scale_refuted_lemma :
  let c := fst (built (ex_args PNone (q 0) (qr 1 2) (qr 1 8) 1 dense2 false false (q 1))) in
  let st0 := snd (built (ex_args PNone (q 0) (qr 1 2) (qr 1 8) 1 dense2 false false (q 1))) in
  let es := ex_iter (q 1) ++ [@ESetScale Q_scalar (q (-4) : @F Q_scalar)] ++ ex_step ++ firstn 2 (ex_iter (q 1)) in
  map is_ok (outcomes c es st0) = repeat true 11 /\
  outcome (event_op c (@EBackward Q_scalar 11 ex_g2) (run c es st0)) = Err ValueError.
Proof. cbv zeta. split; vm_compute; reflexivity. Qed.
