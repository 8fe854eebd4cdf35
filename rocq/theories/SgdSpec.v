(** Specification: plain stochastic gradient descent with momentum and weight decay, with the conventions of
    torch.optim.SGD and of gradient scalers.  Not a model of code in /repo. *)

From Coq Require Import List Arith Bool ZArith.
From Verif Require Import Scalar Res Tensor OptimUtils Optimizer OptSpec.
Import ListNotations.

Section SgdSpec.
Context {SC : Scalar}.
Open Scope F_scope.

(** Parameters with gradients and momentum buffers, parameter groups, the gradient scale announced for the next step (if any),
    the scale and the overflow flag of a gradient scaler. *)
Record sgd : Type := mkSgd {
  w_par : nat -> pslot; w_groups : list group; w_scale : option F; w_amp : option (option F); w_inf : bool
}.

(** The scale of the gradients: the announced one, else the scaler's, else 1. *)
Definition sgd_scale (s : sgd) : F :=
  match w_scale s with Some v => v | None => match w_amp s with Some (Some v) => v | _ => 1 end end.

(** One parameter with learning rate [lr], momentum [mu], weight decay [wd], gradients scaled by [sc]:
    buffer <- mu * buffer + gradient / sc + wd * parameter;  parameter <- parameter - lr * buffer. *)
Definition sgd_par (lr mu wd sc : F) (p : pslot) : pslot :=
  match p_grad p with
  | None => p
  | Some g =>
      let d idx := tget g idx / sc + wd * tget (p_val p) idx in
      let b idx := mu * match p_buf p with Some b => tget b idx | None => 0 end + d idx in
      let shp := shape (p_val p) in
      if feqb mu 0 then mkP (tab shp (fun idx => tget (p_val p) idx - lr * d idx)) (p_grad p) (p_buf p)
      else mkP (tab shp (fun idx => tget (p_val p) idx - lr * b idx)) (p_grad p) (Some (tab shp b))
  end.

(** The trained parameters, each with the number of its layer's group. *)
Definition trained (c : cfg) : list (nat * option nat) :=
  flat_map (fun m => map (fun p => (p, c_p2g c (m_weight m))) (m_weight m :: match m_bias m with Some b => [b] | None => [] end)) (c_mods c).
Fixpoint group_of (l : list (nat * option nat)) (gs : list group) (p : nat) : option group :=
  match l with
  | [] => None
  | (q, i) :: l' => if Nat.eqb q p then match i with Some i => nth_error gs i | None => None end else group_of l' gs p
  end.

(** The calls: passes do nothing, [step] changes all trained parameters unless there was an overflow. *)
Definition sgd_event (l : list (nat * option nat)) (e : event) (s : sgd) : sgd :=
  match e with
  | EForward _ _ _ _ | EBackward _ _ | EStep true => s
  | EGrad p g => mkSgd (fun q => if Nat.eqb q p then mkP (p_val (w_par s p)) g (p_buf (w_par s p)) else w_par s q) (w_groups s) (w_scale s) (w_amp s) (w_inf s)
  | ESetScale v => mkSgd (w_par s) (w_groups s) (Some v) (w_amp s) (w_inf s)
  | EScaler a i => mkSgd (w_par s) (w_groups s) (w_scale s) a i
  | EGroups gs => mkSgd (w_par s) gs (w_scale s) (w_amp s) (w_inf s)
  | EStep false =>
      mkSgd (fun p => if w_inf s then w_par s p
                      else match group_of l (w_groups s) p with
                           | Some g => sgd_par (g_lr g) (g_momentum g) (g_wd g) (sgd_scale s) (w_par s p)
                           | None => w_par s p
                           end) (w_groups s) None (w_amp s) (w_inf s)
  end.
Definition sgd_run (l : list (nat * option nat)) (es : list event) (s : sgd) : sgd := fold_left (fun s e => sgd_event l e s) es s.
Definition sgd_start (par : nat -> pslot) (gs : list group) : sgd := mkSgd (fun p => mkP (p_val (par p)) (p_grad (par p)) None) gs None None false.

(** Whenever [step] is called, the preconditioner learning rate is 0. *)
Fixpoint frozen (c : cfg) (es : list event) (st : state) : Prop :=
  match es with
  | [] => True
  | e :: es' => (forall b, e = EStep b -> Forall (fun g => rate_at g (s_steps st) = 0) (s_groups st)) /\ frozen c es' (fst (event_op c e st))
  end.

End SgdSpec.
