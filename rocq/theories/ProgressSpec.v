(** Specification vocabulary for the absence of exceptions.  Not a model of code. *)

From Coq Require Import List Arith Bool ZArith.
From Verif Require Import Scalar Res Tensor Structures OptimUtils UtilsFacts ProofUtils Optimizer Construct OptState OptRun OptTyped.
Import ListNotations.

Section ProgressSpec.
Context {SC : Scalar}.
Open Scope F_scope.

(** ** Shapes *)

(** Shape of a parameter of a layer: weight or bias. *)
Definition shape_of (m : modul) (p : nat) : list nat :=
  if Nat.eqb p (m_weight m) then weight_shape (m_layer m) else [n_out (m_layer m)].

(** Value, gradient (if any) and momentum buffer (if any) have this shape. *)
Definition slot_fits (s : list nat) (p : pslot) : Prop :=
  shape (p_val p) = s /\ (forall g, p_grad p = Some g -> shape g = s) /\ (forall b, p_buf p = Some b -> shape b = s).
Definition pars_fit (c : cfg) (st : state) : Prop :=
  forall m p, In m (c_mods c) -> In p (mod_params m) -> slot_fits (shape_of m p) (s_par st p).

(** torch only accepts gradients of the shape of the parameter. *)
Definition grad_fits (c : cfg) (e : event) : Prop :=
  match e with
  | EGrad p (Some t) => forall m, In m (c_mods c) -> In p (mod_params m) -> shape t = shape_of m p
  | _ => True
  end.

(** A module has a bias parameter iff its layer has a bias. *)
Definition bias_fits (m : modul) : Prop := has_bias (m_layer m) = match m_bias m with Some _ => true | None => false end.

(** ** When a step works *)

(** Everything the step needs of module [m] is there: its group, a positive update interval, its gradients
    and, if an update is due, both statistics, a scale other than zero and, with Riemannian momentum, the momenta. *)
Definition ready (c : cfg) (st : state) (cur : F) (m : modul) : Prop :=
  exists g, get_group c (s_groups st) m = Ok g /\ g_T g <> O /\
    (forall p, In p (mod_params m) -> p_grad (s_par st p) <> None) /\
    ((s_steps st mod g_T g = 0)%nat ->
       let s := s_slots st (m_key m) in
       sl_HK s <> None /\ sl_HC s <> None /\ cur <> 0 /\ (g_alpha1 g <> 0 -> sl_mK s <> None /\ sl_mC s <> None)).

(** What a backward pass through an output of [m] needs: the group, documented values of kfac_approx and
    loss_average, symmetric padding for unfolded convolutions, and the scale of the previous step, from which a root is taken. *)
Definition accepts (l : layer) (g : group) : Prop :=
  g_approx g <> ApproxOther /\ g_loss g <> LossOther /\
  (g_approx g = Expand -> match l with Conv2d cv => even_pad cv | _ => True end).
Definition rootable (s : F) : Prop := s = 1 \/ fltb s 0 = false.
Definition backward_ready (c : cfg) (st : state) (m : modul) : Prop :=
  exists g prev, get_group c (s_groups st) m = Ok g /\ accepts (m_layer m) g /\
    get_grad_scale (s_scales st) (Z.of_nat (s_steps st) - 1) = Ok prev /\ rootable prev.

(** ** Regular training *)

(** Scales are positive (1 is, in every field). *)
Definition ok_scale (s : F) : Prop := s <> 0 /\ rootable s.
Definition ok_amp (a : option (option F)) : Prop := match a with None => True | Some None => False | Some (Some s) => ok_scale s end.

(** Groups [gs] can be used: every trained layer has its group, with a positive update interval and
    documented values; Riemannian momentum only if there was one at construction ([gs0]). *)
Definition ok_groups (c : cfg) (gs0 gs : list group) : Prop :=
  forall m, In m (c_mods c) -> exists g0 g, get_group c gs0 m = Ok g0 /\ get_group c gs m = Ok g /\
    g_T g <> O /\ accepts (m_layer m) g /\ (g_alpha1 g <> 0 -> g_alpha1 g0 <> 0).

(** The call of a layer that produced an output: the last one; evaluation passes register [None]. *)
Fixpoint producer (outs : list (nat * option (modul * tensor))) (o : nat) : option (modul * tensor) :=
  match outs with [] => None | (o', t) :: l => if Nat.eqb o' o then t else producer l o end.

(** What a training script must do, as a condition on its calls alone.  [outs]: outputs computed since the
    last step; [cov]: layers some output of which has been differentiated since the last step; [grads]: parameters
    that have a gradient.  Forward and backward passes in any order and number, with evaluation passes in between;
    backward passes only through outputs computed since the last step; groups are edited only before
    the first pass of an iteration; the step comes when all layers are covered and all parameters have gradients. *)
Fixpoint regular (c : cfg) (gs0 : list group) (outs : list (nat * option (modul * tensor))) (cov grads : list nat) (es : list event) : Prop :=
  match es with
  | [] => True
  | e :: es' =>
      match e with
      | EForward m x b out => In m (c_mods c) /\ regular c gs0 ((out, if b then Some (m, x) else None) :: outs) cov grads es'
      | EBackward out g => exists m x, producer outs out = Some (m, x) /\ fits (m_layer m) x g /\ regular c gs0 outs (m_key m :: cov) grads es'
      | EGrad p (Some t) => grad_fits c e /\ regular c gs0 outs cov (p :: grads) es'
      | EGrad p None => regular c gs0 outs cov (remove Nat.eq_dec p grads) es'
      | ESetScale s => ok_scale s /\ regular c gs0 outs cov grads es'
      | EScaler a inf => ok_amp a /\ regular c gs0 outs cov grads es'
      | EGroups gs => outs = [] /\ cov = [] /\ ok_groups c gs0 gs /\ regular c gs0 outs cov grads es'
      | EStep closure => closure = false /\ incl (map m_key (c_mods c)) cov /\ incl (flat_map mod_params (c_mods c)) grads /\ regular c gs0 [] [] grads es'
      end
  end.

(** The layers' biases and the shapes of their parameters and gradients are torch's. *)
Definition torch_shapes (par : nat -> pslot) (c : cfg) : Prop :=
  (forall m, In m (c_mods c) -> bias_fits m) /\
  (forall m p, In m (c_mods c) -> In p (mod_params m) ->
     shape (p_val (par p)) = shape_of m p /\ forall t, p_grad (par p) = Some t -> shape t = shape_of m p).

(** What is asked of the constructor's call: update intervals are positive, unfolded convolutions have symmetric padding,
    the initial scale is positive. *)
Definition sound_call (a : args) (c : cfg) (gs0 : list group) : Prop :=
  (forall m g, In m (c_mods c) -> get_group c gs0 m = Ok g ->
     g_T g <> O /\ (g_approx g = Expand -> match m_layer m with Conv2d cv => even_pad cv | _ => True end)) /\
  ok_scale (a_init_scale a).

End ProgressSpec.
