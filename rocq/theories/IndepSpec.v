(** Specification vocabulary: what preconditioners must not depend on.  Not a model of code. *)

From Coq Require Import List Arith Bool ZArith.
From Verif Require Import Scalar Res Tensor Structures OptimUtils Optimizer.
Import ListNotations.

Section IndepSpec.
Context {SC : Scalar}.

(** Groups that differ at most in learning rate, momentum and weight decay. *)
Definition same_curv (g g' : group) : Prop :=
  g_params g' = g_params g /\ g_damping g' = g_damping g /\ g_alpha1 g' = g_alpha1 g /\ g_T g' = g_T g /\ g_loss g' = g_loss g /\
  g_lr_cov g' = g_lr_cov g /\ g_structs g' = g_structs g /\ g_approx g' = g_approx g /\ g_kfac_like g' = g_kfac_like g /\ g_normalize g' = g_normalize g.

(** The same call, up to the values of gradients and to learning rates, momenta and weight decays. *)
Definition alike (e e' : event) : Prop :=
  match e, e' with
  | EGrad p (Some _), EGrad p' (Some _) => p = p'
  | EGroups gs, EGroups gs' => Forall2 same_curv gs gs'
  | _, _ => e = e'
  end.

End IndepSpec.
