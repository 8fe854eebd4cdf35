(** C53: the order of the samples in a batch does not matter. *)

From Coq Require Import List Arith Lia Bool ZArith QArith Qcanon Reals.
From Verif Require Import Scalar Res Tensor Structures OptimUtils Optimizer Construct OptState OptRun OptTyped ShuffleSpec Shuffle QEx OptEx OptEx2 Batch Accum ProofAccum.
Import ListNotations.
Open Scope nat_scope.

Section PropShuffle.
Context {SC : Scalar} {FL : FieldLaws SC} {SQ : SqrtLaws SC}.

Lemma C53_sample_order_lemma a par c st0 es es' :
  setting a par c st0 -> wf_run c es st0 -> Forall2 shuffled_call es es' ->
  let s := run c es st0 in let t := run c es' st0 in
  s_steps t = s_steps s /\ s_scales t = s_scales s /\ s_groups t = s_groups s /\ s_log t = s_log s /\
  (forall p, s_par t p = s_par s p) /\ (forall k, s_slots t k = s_slots s k) /\
  Forall2 (fun r r' => r = Ok tt <-> r' = Ok tt) (outcomes c es st0) (outcomes c es' st0).
Proof.
  intros S W SH. destruct (setting_shuffled a par c st0 es es' S W SH) as [[E _] O]. cbv zeta. rewrite E. repeat (split; [reflexivity|]). exact O.
Qed.
End PropShuffle.

Lemma C53_sample_order_real_lemma (a : @args R_scalar) par c st0 es es' :
  setting a par c st0 -> wf_run c es st0 -> Forall2 shuffled_call es es' ->
  let s := run c es st0 in let t := run c es' st0 in
  s_steps t = s_steps s /\ s_scales t = s_scales s /\ s_groups t = s_groups s /\ s_log t = s_log s /\
  (forall p, s_par t p = s_par s p) /\ (forall k, s_slots t k = s_slots s k) /\
  Forall2 (fun r r' => r = Ok tt <-> r' = Ok tt) (outcomes c es st0) (outcomes c es' st0).
Proof. exact (C53_sample_order_lemma a par c st0 es es'). Qed.

(** ** Cases *)

(** Three iterations with batches of four samples; the second history rotates all batches. *)
Definition rot (i : nat) : nat := match i with 0 => 2 | 1 => 0 | 2 => 3 | 3 => 1 | _ => i end.
Definition rot_call (e : @event Q_scalar) : @event Q_scalar :=
  match e with
  | EForward m x b out => @EForward Q_scalar m (reorder rot x) b out
  | EBackward out g => @EBackward Q_scalar out (reorder rot g)
  | _ => e
  end.
Definition four (e : @event Q_scalar) : bool :=
  match e with EForward _ t _ _ | EBackward _ t => Nat.eqb (hd 0 (shape t)) 4 | _ => true end.
Lemma rot_shuffled t : hd 0 (shape t) = 4 -> shuffled t (@reorder Q_scalar rot t).
Proof.
  destruct (shape t) as [|n r] eqn:E; [discriminate|]. cbn. intros ->. exists rot, 4, r. split; [exact E|]. split; [|reflexivity].
  split; [intros [|[|[|[|i]]]] H; cbn; lia|]. intros [|[|[|[|i]]]] [|[|[|[|j]]]] Hi Hj; cbn; lia.
Qed.
Lemma rot_calls es : forallb four es = true -> Forall2 shuffled_call es (map rot_call es).
Proof.
  induction es as [|e es IH]; intros H; [constructor|]. cbn [forallb map] in *. apply andb_true_iff in H as [H1 H2]. constructor; [|exact (IH H2)].
  destruct e; cbn [rot_call shuffled_call]; try reflexivity; cbn [four] in H1; apply Nat.eqb_eq in H1; repeat (split; [reflexivity|]); apply rot_shuffled; exact H1.
Qed.

Lemma C53_example_case :
  let a := ga LossBatch false in let c := gac LossBatch false in let st0 := ga0 LossBatch false in
  let es := flat_map whole_iter ga_its in let es' := map rot_call es in
  setting a ex_par c st0 /\ wf_run c es st0 /\ Forall2 shuffled_call es es' /\
  show (reorder rot (qt [4; 1] [5; 1; -2; 1]%Z)) = show (qt [4; 1] [-2; 5; 1; 1]%Z) /\
  s_steps (run c es st0) = 3 /\ pre_of (run c es st0) 0 <> pre_of st0 0 /\
  pre_of (run c es' st0) 0 = pre_of (run c es st0) 0 /\ val_of (run c es' st0) 0 = val_of (run c es st0) 0.
Proof.
  cbv zeta. split; [apply built_setting; vm_compute; reflexivity|]. split; [apply wf_runb_ok; vm_compute; reflexivity|].
  split; [apply rot_calls; vm_compute; reflexivity|]. split; [vm_compute; reflexivity|]. split; [vm_compute; reflexivity|]. split; [vm_compute; discriminate|].
  split; vm_compute; reflexivity.
Qed.

Lemma C53_positions_refuted_lemma :
  let l := Linear 1 1 false in
  let x := qt [4; 4; 1] [1; 2; 3; 4; 5; 6; 7; 8; 0; 0; 0; 0; 0; 0; 0; 0]%Z in
  let y := qt [4; 4; 1] [5; 2; 3; 4; 1; 6; 7; 8; 0; 0; 0; 0; 0; 0; 0; 0]%Z in
  let stat t ka := match process_input t l ka with Ok A => match from_inner (MDense (qt [1; 1] [1]%Z)) (Some (tr A)) with Ok h => showd (Ok h) | Err e => Err e end | Err e => Err e end in
  stat y Reduce <> stat x Reduce /\ stat y Expand = stat x Expand /\ is_ok (stat x Reduce) = true /\ is_ok (stat x Expand) = true.
Proof. cbv zeta. repeat split; vm_compute; first [discriminate|reflexivity]. Qed.
