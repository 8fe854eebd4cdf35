(** The warnings of the constructor of SINGD, singd/optim/optimizer.py:82-266.  They are issued before the hooks
    are installed, by [_get_trainable_parameters] (L351-383) and [_check_param_groups] (L301-309).
    SIMPLIFICATION: the texts are replaced by what they name (the layer, the index of the group). *)

From Coq Require Import List Arith Bool ZArith.
From Verif Require Import Scalar Res Tensor Structures OptimUtils Optimizer Construct.
Import ListNotations.

(** A warning: of the layer with unsupported parameters (optimizer.py:377-381), of the group whose alpha1 is
    set to zero (L304-308). *)
Inductive cwarn : Type := WUnsupported (layer : nat) | WAlpha (idx : nat).

Section Warn.
Context {SC : Scalar}.
Open Scope F_scope.

(** The loop over the groups, optimizer.py:301-320: a group is checked after its warning. *)
Fixpoint group_warnings (idx : nat) (gs : list group) : list cwarn :=
  match gs with
  | [] => []
  | g :: gs' =>
      (if g_kfac_like g && negb (feqb (g_alpha1 g) 0) then [WAlpha idx] else []) ++
      match check_group g with Ok _ => group_warnings (S idx) gs' | Err _ => [] end
  end.

(** The warnings of a call of the constructor in their order, L194-236; those issued before an exception stay. *)
Definition ctor_warnings (a : args) : list cwarn :=
  if a_wrapped a then []
  else if existsb bad_number [a_lr a; a_lr_cov a; a_alpha1 a; a_momentum a; a_wd a] then []
  else
    match a_params a with
    | PNone => map WUnsupported (snd (trainable (a_model a) (a_requires_grad a) (a_warn a)))
    | _ => []
    end ++
    match base_init a with Ok gs => group_warnings 0 gs | Err _ => [] end.

End Warn.
