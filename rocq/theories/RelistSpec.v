(** Specification: the same training script with modules, groups and parameters listed in another order. *)

From Coq Require Import List Arith Permutation.
From Verif Require Import Scalar Res Tensor Structures OptimUtils Optimizer Construct.
Import ListNotations.

Section RelistSpec.
Context {SC : Scalar}.

(** The groups have the same hyper-parameters (the entries of optimizer.py:216-230 except "params"). *)
Definition same_settings (g g' : group) : Prop :=
  g_lr g' = g_lr g /\ g_momentum g' = g_momentum g /\ g_damping g' = g_damping g /\ g_alpha1 g' = g_alpha1 g /\ g_wd g' = g_wd g /\
  g_T g' = g_T g /\ g_loss g' = g_loss g /\ g_lr_cov g' = g_lr_cov g /\ g_structs g' = g_structs g /\
  g_approx g' = g_approx g /\ g_kfac_like g' = g_kfac_like g /\ g_normalize g' = g_normalize g.

(** The [i]-th of the [n] groups is now at position [pos i] (optimizer.py:235, [self.param_groups]). *)
Definition moved (n : nat) (pos : nat -> nat) (gs gs' : list group) : Prop :=
  forall i, i < n ->
    match nth_error gs i, nth_error gs' (pos i) with
    | Some g, Some g' => same_settings g g'
    | None, None => True
    | _, _ => False
    end.

(** The number of groups handed to the constructor, optimizer.py:231-235. *)
Definition group_count (p : params_arg) : nat := match p with PGroups l => length l | _ => 1 end.

(** The same parameters in another order; groups move to the positions [pos]. *)
Definition relisted_params (pos : nat -> nat) (p p' : params_arg) : Prop :=
  match p, p' with
  | PNone, PNone => pos 0 = 0
  | PList l, PList l' => Permutation l l' /\ pos 0 = 0
  | PGroups l, PGroups l' =>
      length l' = length l /\
      (forall i j, i < length l -> j < length l -> pos i = pos j -> i = j) /\
      (forall i ps f, nth_error l i = Some (ps, f) -> exists ps', nth_error l' (pos i) = Some (ps', f) /\ Permutation ps ps')
  | _, _ => False
  end.

(** The same call of the constructor (optimizer.py:82-101) for other modules and parameters. *)
Definition call_with (model : list node) (params : params_arg) (a : args) : args :=
  mkArgs (a_wrapped a) model (a_requires_grad a) params (a_lr a) (a_momentum a) (a_damping a) (a_alpha1 a) (a_wd a)
    (a_T a) (a_loss a) (a_lr_cov a) (a_structs a) (a_approx a) (a_warn a) (a_kfac_like a) (a_init_scale a) (a_normalize a).

(** The same event, up to the positions of the groups in assignments to [param_groups]. *)
Definition same_event (n : nat) (pos : nat -> nat) (e e' : event) : Prop :=
  match e, e' with
  | EGroups gs, EGroups gs' => moved n pos gs gs'
  | _, _ => e' = e
  end.

(** Everything a user can observe is the same, except for the positions of the groups. *)
Definition same_training (n : nat) (pos : nat -> nat) (s t : state) : Prop :=
  s_steps t = s_steps s /\ s_scales t = s_scales s /\ s_amp t = s_amp s /\ s_inf t = s_inf s /\ s_log t = s_log s /\
  (forall k, s_slots t k = s_slots s k) /\ (forall p, s_par t p = s_par s p) /\ (forall o, s_pend t o = s_pend s o) /\
  moved n pos (s_groups s) (s_groups t).

End RelistSpec.
