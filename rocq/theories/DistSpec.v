(** What the properties about several processes mean.  Not a model of code. *)

From Coq Require Import List Arith Bool ZArith.
From Verif Require Import Scalar Res Tensor Structures OptimUtils UtilsFacts ProofUtils Optimizer OptTyped Batch Dist.
Import ListNotations.

Section DistSpec.
Context {SC : Scalar}.
Open Scope F_scope.

(** Two optimizers hold the same: counter, scales, groups, warnings, preconditioners, parameters and momentum buffers;
    gradients and waiting hooks are local to a process. *)
Definition twins (st ref : state) : Prop :=
  s_steps st = s_steps ref /\ s_scales st = s_scales ref /\ s_groups st = s_groups ref /\ s_amp st = s_amp ref /\ s_inf st = s_inf ref /\
  s_log st = s_log ref /\ (forall k, s_slots st k = s_slots ref k) /\
  (forall p, p_val (s_par st p) = p_val (s_par ref p) /\ p_buf (s_par st p) = p_buf (s_par ref p)).

(** Layers have a bias parameter exactly if they are built with one. *)
Definition bias_ok (m : modul) : Prop := match m_bias m with Some _ => has_bias (m_layer m) = true | None => has_bias (m_layer m) = false end.

(** What autograd lets a process do: forward passes of the model's layers; output gradients that have the shape of the output of
    the last forward pass with that output; gradients with the shapes of the parameters. *)
Definition track (e : event) (last : nat -> option (modul * tensor)) : nat -> option (modul * tensor) :=
  match e with EForward m x _ out => upd last out (Some (m, x)) | _ => last end.
Definition legal_event (c : cfg) (last : nat -> option (modul * tensor)) (e : event) : Prop :=
  match e with
  | EForward m _ _ _ => In m (c_mods c)
  | EBackward out g => forall m x, last out = Some (m, x) -> fits (m_layer m) x g
  | EGrad p (Some g) => forall m, In m (c_mods c) -> (m_weight m = p -> shape g = weight_shape (m_layer m)) /\ (m_bias m = Some p -> shape g = [n_out (m_layer m)])
  | _ => True
  end.
Fixpoint legal (c : cfg) (es : list event) (last : nat -> option (modul * tensor)) : Prop :=
  match es with [] => True | e :: es' => legal_event c last e /\ legal c es' (track e last) end.

(** A history of [R] processes: what each of them does at every point; that of process [r]. *)
Definition of_rank (r : nat) (es : list (nat -> event)) : list event := map (fun f => f r) es.

(** The same call on another process: all arguments but tensors are the same, and the same gradients exist. *)
Definition aligned (e e' : event) : Prop :=
  match e with
  | EForward m _ on out => exists x', e' = EForward m x' on out
  | EBackward out _ => exists g', e' = EBackward out g'
  | EGrad p (Some g) => exists g', e' = EGrad p (Some g') /\ shape g' = shape g
  | _ => e' = e
  end.

(** The samples are split evenly: process [r] computes with samples [r*b] to [(r+1)*b-1] and its own loss.  For an averaged loss ([mean]), the output gradients
    of this loss are [R] times those of the loss over the whole batch, whose gradients are the processes' average; for a summed loss they are the same and
    the gradients are the processes' sum. *)
Definition split_event (R : nat) (mean : bool) (e : event) (er : nat -> event) : Prop :=
  match e with
  | EForward m x on out => exists b rest, b <> O /\ shape x = (R * b)%nat :: rest /\
      forall r, (r < R)%nat -> er r = EForward m (part x (r * b) b) on out
  | EBackward out g => exists b rest, b <> O /\ shape g = (R * b)%nat :: rest /\
      forall r, (r < R)%nat -> er r = EBackward out (if mean then t_scale (fofnat R) (part g (r * b) b) else part g (r * b) b)
  | EGrad p (Some g) => exists gr, (forall r, (r < R)%nat -> er r = EGrad p (Some (gr r)) /\ shape (gr r) = shape g) /\
      forall idx, in_range (shape g) idx -> tget g idx = let s := sum R (fun r => tget (gr r) idx) in if mean then s / fofnat R else s
  | EGroups gs => (forall r, (r < R)%nat -> er r = e) /\ Forall (fun g => if mean then g_loss g = LossBatch \/ g_loss g = LossBatchSeq else g_loss g = LossSum) gs
  | _ => forall r, (r < R)%nat -> er r = e
  end.

(** Outcomes of the calls of a single process without others. *)
Fixpoint results (c : cfg) (es : list event) (st : state) : list (res unit) :=
  match es with [] => [] | e :: es' => snd (event_op c e st) :: results c es' (fst (event_op c e st)) end.

End DistSpec.
