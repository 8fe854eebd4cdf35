(** Specification vocabulary for the superposition of trainings.  Not a model of code. *)

From Coq Require Import List.
From Verif Require Import Scalar Res Tensor Structures OptimUtils Optimizer Construct OptState OptRun.
Import ListNotations.

Section LinearSpec.
Context {SC : Scalar}.
Open Scope F_scope.

(** [t] = x [a] + y [b], for tensors of one shape. *)
Definition mixes (x y : F) (a b t : tensor) : Prop :=
  shape b = shape a /\ shape t = shape a /\ forall i, nth i (data t) 0 = x * nth i (data a) 0 + y * nth i (data b) 0.

(** The same for attributes that may be None: all three are, or none. *)
Definition omixes (x y : F) (a b t : option tensor) : Prop :=
  match a, b, t with
  | Some a, Some b, Some t => mixes x y a b t
  | None, None, None => True
  | _, _, _ => False
  end.

(** The third call gives the mixture of the gradients the first two give; all other calls are the same. *)
Definition mixed_call (x y : F) (e1 e2 e3 : event) : Prop :=
  match e1, e2, e3 with
  | EGrad p a, EGrad p' b, EGrad p'' t => p' = p /\ p'' = p /\ omixes x y a b t
  | EGrad _ _, _, _ => False
  | _, _, _ => e2 = e1 /\ e3 = e1
  end.

Fixpoint mixed_calls (x y : F) (es1 es2 es3 : list event) : Prop :=
  match es1, es2, es3 with
  | [], [], [] => True
  | e1 :: r1, e2 :: r2, e3 :: r3 => mixed_call x y e1 e2 e3 /\ mixed_calls x y r1 r2 r3
  | _, _, _ => False
  end.

(** Tensors of zeros. *)
Definition all_zero (t : tensor) : Prop := forall i, nth i (data t) 0 = 0.
Definition zero_call (e : event) : Prop := match e with EGrad _ (Some g) => all_zero g | _ => True end.

(** The parameters of the trained modules. *)
Definition trained (c : cfg) (p : nat) : Prop := exists m, In m (c_mods c) /\ In p (mod_params m).

End LinearSpec.
