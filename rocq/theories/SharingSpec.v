(** Specification: training without weight sharing and the settings that concern weight sharing. *)

From Coq Require Import List Arith.
From Verif Require Import Scalar Res Tensor Structures OptimUtils UtilsFacts Optimizer Construct CtorSpec.
Import ListNotations.

Section SharingSpec.
Context {SC : Scalar}.

(** [kfac_approx] is "expand" or "reduce" in both, or the same unknown value (optimizer.py:77, 300-309). *)
Definition approx_alike (x y : approx) : Prop := y = x \/ (x <> ApproxOther /\ y <> ApproxOther).

(** [loss_average] is "batch" or "batch+sequence" in both, or the same (optimizer.py:75-76, 311-316). *)
Definition loss_alike (x y : lossavg) : Prop :=
  y = x \/ ((x = LossBatch \/ x = LossBatchSeq) /\ (y = LossBatch \/ y = LossBatchSeq)).

(** Groups that differ at most in how they treat shared weights (optimizer.py:216-230). *)
Definition same_but_sharing (g g' : group) : Prop :=
  g_params g' = g_params g /\ g_lr g' = g_lr g /\ g_momentum g' = g_momentum g /\ g_damping g' = g_damping g /\ g_alpha1 g' = g_alpha1 g /\
  g_wd g' = g_wd g /\ g_T g' = g_T g /\ g_lr_cov g' = g_lr_cov g /\ g_structs g' = g_structs g /\
  g_kfac_like g' = g_kfac_like g /\ g_normalize g' = g_normalize g /\
  approx_alike (g_approx g) (g_approx g') /\ loss_alike (g_loss g) (g_loss g').

(** Two calls of the constructor (optimizer.py:82-101) that differ at most in [kfac_approx] and [loss_average],
    in the arguments or in the groups. *)
Definition same_call (a a' : args) : Prop :=
  a_wrapped a' = a_wrapped a /\ a_model a' = a_model a /\ a_requires_grad a' = a_requires_grad a /\ a_lr a' = a_lr a /\ a_momentum a' = a_momentum a /\
  a_damping a' = a_damping a /\ a_alpha1 a' = a_alpha1 a /\ a_wd a' = a_wd a /\ a_T a' = a_T a /\ a_lr_cov a' = a_lr_cov a /\
  a_structs a' = a_structs a /\ a_warn a' = a_warn a /\ a_kfac_like a' = a_kfac_like a /\ a_init_scale a' = a_init_scale a /\ a_normalize a' = a_normalize a /\
  match a_params a, a_params a' with
  | PNone, PNone => same_but_sharing (call_settings a) (call_settings a')
  | PList ps, PList ps' => ps' = ps /\ same_but_sharing (call_settings a) (call_settings a')
  | PGroups l, PGroups l' =>
      Forall2 (fun x y => fst y = fst x /\ same_but_sharing (snd x (call_settings a)) (snd y (call_settings a'))) l l'
  | _, _ => False
  end.

(** The same event; assignments to [param_groups] may differ in how shared weights are treated. *)
Definition same_event_but_sharing (e e' : event) : Prop :=
  match e, e' with
  | EGroups gs, EGroups gs' => Forall2 same_but_sharing gs gs'
  | _, _ => e' = e
  end.

(** A layer input [x] and the gradient [g] of the output in which every sample uses the weights once: all dimensions
    between batch and features have size one; the kernel of a convolution is applied at a single position.
    The convolution's padding is the same on both sides. *)
Definition used_once (l : layer) (x g : tensor) : Prop :=
  match l with
  | Linear d_in d_out _ => exists b mid, prod mid = 1 /\ shape x = b :: mid ++ [d_in] /\ shape g = b :: mid ++ [d_out]
  | Conv2d c => conv_ok c /\ even_pad c /\ exists b i1 i2, outs c i1 i2 1 1 /\ shape x = [b; cv_in c; i1; i2] /\ shape g = [b; cv_out c; 1; 1]
  | OtherModule => False
  end.

(** The event is not a forward pass with the output [out]. *)
Definition not_output (out : nat) (e : event) : Prop := match e with EForward _ _ _ o => o <> out | _ => True end.

(** A history without weight sharing: every backward pass through the output of a forward pass has such shapes. *)
Definition no_sharing (es : list event) : Prop :=
  forall es1 m x b out es2 g es3, es = es1 ++ EForward m x b out :: es2 ++ EBackward out g :: es3 ->
  Forall (not_output out) es2 -> used_once (m_layer m) x g.

End SharingSpec.
