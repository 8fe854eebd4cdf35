(** C69: trainings superpose. *)

From Coq Require Import List Arith Lia Bool ZArith QArith Qcanon Reals Field.
From Verif Require Import Scalar Res Tensor Structures OptimUtils Optimizer Construct OptState OptRun OptTyped CtorFacts TensorFacts LayerSim ProgressSpec Progress ProgressEx Indep LinearSpec LinearFacts QEx OptEx OptEx2 ProofIndep ProofLinear.
Import ListNotations.
Open Scope nat_scope.

Section PropLinear.
Context {SC : Scalar} {FL : FieldLaws SC}.

(** Three trainings with the same constructor arguments and the same calls: passes, scales, groups, steps.  If initial weights and the
    gradients handed over are x times those of the first plus y times those of the second, so are weights and momentum buffers
    after any such calls; the same calls raise, with the same exceptions. *)
Theorem C69_superposition : forall x y a par1 par2 par3 c1 c2 c3 st1 st2 st3 es1 es2 es3,
  setting a par1 c1 st1 -> setting a par2 c2 st2 -> setting a par3 c3 st3 -> torch_shapes par1 c1 ->
  (forall p, trained c1 p -> mixes x y (p_val (par1 p)) (p_val (par2 p)) (p_val (par3 p)) /\ omixes x y (p_grad (par1 p)) (p_grad (par2 p)) (p_grad (par3 p))) ->
  mixed_calls x y es1 es2 es3 -> wf_run c1 es1 st1 -> Forall (grad_fits c1) es1 ->
  let s1 := run c1 es1 st1 in let s2 := run c2 es2 st2 in let s3 := run c3 es3 st3 in
  (forall p, trained c1 p ->
     mixes x y (p_val (s_par s1 p)) (p_val (s_par s2 p)) (p_val (s_par s3 p)) /\ omixes x y (p_buf (s_par s1 p)) (p_buf (s_par s2 p)) (p_buf (s_par s3 p))) /\
  outcomes c2 es2 st2 = outcomes c1 es1 st1 /\ outcomes c3 es3 st3 = outcomes c1 es1 st1.
Proof. exact C69_superposition_lemma. Qed.

(** Without weights and gradients there is no movement: zero weights stay zero, whatever the passes through the network are. *)
Theorem C69_zero : forall a par c st0 es,
  setting a par c st0 -> torch_shapes par c ->
  (forall p, trained c p -> all_zero (p_val (par p)) /\ forall g, p_grad (par p) = Some g -> all_zero g) ->
  Forall zero_call es -> wf_run c es st0 -> Forall (grad_fits c) es ->
  forall p, trained c p -> all_zero (p_val (s_par (run c es st0) p)) /\ forall b, p_buf (s_par (run c es st0) p) = Some b -> all_zero b.
Proof. exact C69_zero_lemma. Qed.
End PropLinear.

Print Assumptions C69_superposition.
Print Assumptions C69_zero.

(** Three trainings over four iterations (with momentum, weight decay and a step that fails for want of a gradient):
    the weights of the third are 2 times those of the first minus 3 times those of the second, and none of them is constant. *)
Example C69_example :
  setting ex_std ex_par in_c (li0 ex_par) /\ setting ex_std in_par in_c (li0 in_par) /\ setting ex_std li_par in_c (li0 li_par) /\ torch_shapes ex_par in_c /\
  (forall p, trained in_c p -> @mixes Q_scalar (q 2) (q (-3)) (p_val (ex_par p)) (p_val (in_par p)) (p_val (li_par p)) /\ @omixes Q_scalar (q 2) (q (-3)) (p_grad (ex_par p)) (p_grad (in_par p)) (p_grad (li_par p))) /\
  @mixed_calls Q_scalar (q 2) (q (-3)) in_hist (map (li_grad (q 4)) in_hist) (map (li_grad (q 2 + q (-3) * q 4)%Qc) in_hist) /\ wf_run in_c in_hist (li0 ex_par) /\ Forall (grad_fits in_c) in_hist /\
  (let s1 := run in_c in_hist (li0 ex_par) in let s2 := run in_c (map (li_grad (q 4)) in_hist) (li0 in_par) in
   let s3 := run in_c (map (li_grad (q 2 + q (-3) * q 4)%Qc) in_hist) (li0 li_par) in
   s_steps s1 = 3 /\ forallb (fun p => mixb (q 2) (q (-3)) (p_val (s_par s1 p)) (p_val (s_par s2 p)) (p_val (s_par s3 p))) [0; 1; 2] = true /\
   val_of s1 0 <> val_of (li0 ex_par) 0 /\ val_of s2 0 <> val_of (li0 in_par) 0 /\ val_of s3 0 <> val_of (li0 li_par) 0 /\
   map is_ok (outcomes in_c in_hist (li0 ex_par)) <> map (fun _ => true) in_hist).
Proof. exact C69_example_case. Qed.

(** Zero weights, zero gradients, and passes that do move the preconditioners. *)
Example C69_zero_example :
  setting ex_std li_zpar in_c (li0 li_zpar) /\ torch_shapes li_zpar in_c /\
  (forall p, trained in_c p -> all_zero (p_val (li_zpar p)) /\ forall g, p_grad (li_zpar p) = Some g -> all_zero g) /\
  Forall zero_call li_zhist /\ wf_run in_c li_zhist (li0 li_zpar) /\ Forall (grad_fits in_c) li_zhist /\ trained in_c 0 /\
  (let s := run in_c li_zhist (li0 li_zpar) in
   s_steps s = 3 /\ zerob (p_val (s_par s 0)) = true /\ pre_of s 0 <> pre_of (li0 li_zpar) 0 /\ forallb is_ok (outcomes in_c li_zhist (li0 li_zpar)) = true).
Proof. exact C69_zero_example_case. Qed.

(** The passes must be the same.  If the output gradients of the backward passes are doubled too, as with a loss of twice the size,
    weights that started at zero do not double. *)
Theorem C69_loss_refuted :
  let es k := ex_iter (q k) ++ ex_step in
  let s1 := run in_c (es 1%Z) (li0 li_zpar) in let s2 := run in_c (es 2%Z) (li0 li_zpar) in
  forallb is_ok (outcomes in_c (es 1%Z) (li0 li_zpar)) = true /\ forallb is_ok (outcomes in_c (es 2%Z) (li0 li_zpar)) = true /\
  (forall p, trained in_c p -> @mixes Q_scalar (q 2) (q 0) (p_val (li_zpar p)) (p_val (li_zpar p)) (p_val (li_zpar p)) /\
     @omixes Q_scalar (q 2) (q 0) (p_grad (s_par s1 p)) (p_grad (s_par s1 p)) (p_grad (s_par s2 p))) /\
  ~ @mixes Q_scalar (q 2) (q 0) (p_val (s_par s1 0)) (p_val (s_par s1 0)) (p_val (s_par s2 0)).
Proof. exact C69_loss_refuted_lemma. Qed.
Print Assumptions C69_loss_refuted.
