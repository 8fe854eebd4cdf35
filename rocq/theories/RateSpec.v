(** Specification vocabulary for the role of the learning rate.  Not a model of code. *)

From Coq Require Import List.
From Verif Require Import Scalar Res Tensor Structures OptimUtils Optimizer IndepSpec.
Import ListNotations.

Section RateSpec.
Context {SC : Scalar}.
Open Scope F_scope.

(** The same group with a learning rate [r] times as large. *)
Definition rescaled (r : F) (g g' : group) : Prop :=
  same_curv g g' /\ g_momentum g' = g_momentum g /\ g_wd g' = g_wd g /\ g_lr g' = r * g_lr g.

(** The same call, with learning rates [r] times as large where groups are edited. *)
Definition rescaled_call (r : F) (e e' : event) : Prop :=
  match e, e' with
  | EGroups gs, EGroups gs' => Forall2 (rescaled r) gs gs'
  | EGroups _, _ => False
  | _, _ => e' = e
  end.

(** What holds of all groups a call puts in force. *)
Definition sets (P : group -> Prop) (e : event) : Prop := match e with EGroups gs => Forall P gs | _ => True end.

(** The same call, with gradients [r] times as large. *)
Definition times_call (r : F) (e e' : event) : Prop :=
  match e, e' with
  | EGrad p (Some g), EGrad p' (Some g') => p' = p /\ shape g' = shape g /\ forall i, nth i (data g') 0 = r * nth i (data g) 0
  | EGrad _ (Some _), _ => False
  | _, _ => e' = e
  end.

End RateSpec.
