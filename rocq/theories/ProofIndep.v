(** C52: what the preconditioners depend on. *)

From Coq Require Import List Arith Lia Bool ZArith QArith Qcanon Reals.
From Verif Require Import Scalar Res Tensor Structures OptimUtils Optimizer Construct OptState OptRun OptTyped ProgressSpec ProgressEx IndepSpec Indep QEx OptEx OptEx2.
Import ListNotations.
Open Scope nat_scope.

Section PropIndep.
Context {SC : Scalar} {FL : FieldLaws SC}.

Lemma C52_independent_lemma a par par' c c' st0 st0' es es' :
  setting a par c st0 -> setting a par' c' st0' -> torch_shapes par c -> torch_shapes par' c' ->
  (forall p, p_grad (par p) = None <-> p_grad (par' p) = None) ->
  Forall2 alike es es' -> wf_run c es st0 -> Forall (grad_fits c) es -> Forall (grad_fits c) es' ->
  let s := run c es st0 in let s' := run c' es' st0' in
  (forall k, s_slots s' k = s_slots s k) /\ s_steps s' = s_steps s /\ s_scales s' = s_scales s /\ s_log s' = s_log s /\
  Forall2 (fun r r' => r = Ok tt <-> r' = Ok tt) (outcomes c es st0) (outcomes c' es' st0').
Proof.
  intros S S' TS TS' PG A W GS GT. destruct (independent a par par' c c' st0 st0' es es' S S' TS TS' PG A W GS GT) as (E & [R _ _] & O).
  cbv zeta. rewrite R. repeat (split; [reflexivity|]). exact O.
Qed.
End PropIndep.

(** ** Cases *)

Definition in_c : cfg := fst (built ex_std).
Definition in0 : @state Q_scalar := snd (built ex_std).

(** Other weights; learning rate, momentum and weight decay of all groups changed. *)
Definition in_par (p : nat) : @pslot Q_scalar :=
  match p with
  | 0 => @mkP Q_scalar (qt [1; 2] [-7; 5]%Z) None None
  | 1 => @mkP Q_scalar (qt [1] [0]%Z) None None
  | _ => @mkP Q_scalar (qt [2; 1] [1; 9]%Z) None None
  end.
Definition in0' : @state Q_scalar := match snd (ctor ex_std in_par []) with Ok (_, st) => st | Err _ => in0 end.
Definition other (g : @group Q_scalar) : @group Q_scalar :=
  @mkGroup Q_scalar (g_params g) (q 3 : @F Q_scalar) (q 0 : @F Q_scalar) (g_damping g) (g_alpha1 g) (q 2 : @F Q_scalar) (g_T g) (g_loss g) (g_lr_cov g) (g_structs g) (g_approx g) (g_kfac_like g) (g_normalize g).
Definition other_grad (e : @event Q_scalar) : @event Q_scalar :=
  match e with EGrad p (Some t) => @EGrad Q_scalar p (Some (@t_scale Q_scalar (q (-5) : @F Q_scalar) t)) | _ => e end.
Definition in_hist : list (@event Q_scalar) := @EGroups Q_scalar (s_groups in0) :: ex_iter (q 1) ++ ex_step ++ ex_iter (q 2) ++ [@EGrad Q_scalar 1 None] ++ ex_step ++ ex_iter (q 1) ++ ex_step ++ ex_iter (q 3) ++ ex_step.
Definition in_hist' : list (@event Q_scalar) := @EGroups Q_scalar (map other (s_groups in0)) :: map other_grad (tl in_hist).

Lemma alike_other es : Forall2 alike es (map other_grad es).
Proof. induction es as [|e es IH]; constructor; [|exact IH]. destruct e as [| |p [g|]| | | |gs]; try reflexivity. cbn. induction gs; constructor; [repeat split|assumption]. Qed.

Lemma C52_example_case :
  setting ex_std ex_par in_c in0 /\ setting ex_std in_par in_c in0' /\ torch_shapes ex_par in_c /\ torch_shapes in_par in_c /\
  (forall p, p_grad (ex_par p) = None <-> p_grad (in_par p) = None) /\
  Forall2 alike in_hist in_hist' /\ wf_run in_c in_hist in0 /\ Forall (grad_fits in_c) in_hist /\ Forall (grad_fits in_c) in_hist' /\
  s_steps (run in_c in_hist in0) = 3 /\ pre_of (run in_c in_hist in0) 0 <> pre_of in0 0 /\
  pre_of (run in_c in_hist' in0') 0 = pre_of (run in_c in_hist in0) 0 /\
  val_of (run in_c in_hist' in0') 0 <> val_of (run in_c in_hist in0) 0 /\
  map is_ok (outcomes in_c in_hist in0) = map is_ok (outcomes in_c in_hist' in0').
Proof.
  split; [apply built_setting; vm_compute; reflexivity|].
  split.
  { destruct (built_setting ex_std) as (_ & S2 & S3 & S4 & S5); [vm_compute; reflexivity|]. split; [|split; [exact S2|split; [exact S3|split; [exact S4|]]]].
    - exists [], (fst (ctor ex_std in_par [])). unfold in0', in_c, built, in0. 
      destruct (ctor ex_std ex_par []) as [h1 r1] eqn:E1. destruct (ctor ex_std in_par []) as [h2 r2] eqn:E2.
      assert (O1 : built_ok ex_std = true) by (vm_compute; reflexivity). unfold built_ok in O1. rewrite E1 in O1. cbn [snd] in O1. destruct r1 as [[c1 s1]|]; [|discriminate].
      assert (O2 : is_ok (snd (ctor ex_std in_par [])) = true) by (vm_compute; reflexivity). rewrite E2 in O2. cbn [snd] in O2. destruct r2 as [[c2 s2]|]; [|discriminate].
      destruct (ctor_same _ _ _ _ _ _ _ _ _ _ _ E1 E2) as (-> & _ & _). reflexivity.
    - assert (EG : s_groups in0' = s_groups in0) by (vm_compute; reflexivity). rewrite EG. exact S5. }
  split; [apply torch_shapesb_ok; vm_compute; reflexivity|]. split; [apply torch_shapesb_ok; vm_compute; reflexivity|].
  split; [intros [|[|p]]; cbn; split; reflexivity|].
  split. { unfold in_hist'. constructor; [|apply alike_other]. cbn [alike]. induction (s_groups in0); constructor; [repeat split|assumption]. }
  split; [apply wf_runb_ok; vm_compute; reflexivity|]. split; [apply grads_fitb_ok; vm_compute; reflexivity|]. split; [apply grads_fitb_ok; vm_compute; reflexivity|].
  split; [vm_compute; reflexivity|]. split; [vm_compute; discriminate|]. split; [vm_compute; reflexivity|]. split; [vm_compute; discriminate|vm_compute; reflexivity].
Qed.

Lemma C52_missing_gradient_refuted_lemma :
  let es := ex_iter (q 1) in let es' := ex_iter (q 1) ++ [@EGrad Q_scalar 1 None] in
  is_ok (snd (step in_c false (run in_c es in0))) = true /\ is_ok (snd (step in_c false (run in_c es' in0))) = false /\
  pre_of (fst (step in_c false (run in_c es in0))) 1 <> pre_of (fst (step in_c false (run in_c es' in0))) 1.
Proof. cbv zeta. split; [vm_compute; reflexivity|]. split; [vm_compute; reflexivity|]. vm_compute. discriminate. Qed.
