(** Specification vocabulary: second moments of the inputs and output gradients a layer has seen, independent of its
    preconditioners.  Not a model of code. *)

From Coq Require Import List Arith Bool ZArith Reals.
From Verif Require Import Scalar Res Tensor Structures StructSpec OptimUtils Optimizer OptSpec OptState OptConsume OptNorm RealOrd.
Import ListNotations.

Section NewtonSpec.
Context {SC : Scalar}.
Open Scope F_scope.

Definition zero : mat := fun _ _ => 0.
Definition plus (A B : mat) : mat := fun i j => A i j + B i j.

(** Sums over the samples of a^T a and b^T b for the processed inputs a and output gradients b; the latter divided by the scale of the
    previous step (by its root, before multiplying). *)
Definition moments (g : group) (l : layer) (prev : res F) (x gout : tensor) : option (mat * mat) :=
  match process_input x l (g_approx g), process_grad_output gout l (g_loss g) (g_approx g), prev with
  | Ok A, Ok B, Ok p =>
      let r := if feqb p 1 then 1 else fsqrt p in
      Some (fun i j => sum (rows A) (fun k => get2 A k i * get2 A k j), fun i j => sum (rows B) (fun k => get2 B k i / r * (get2 B k j / r)))
  | _, _, _ => None
  end.

(** Moments seen by module m since its last update (or skipped step). *)
Definition seen_event (c : cfg) (m : modul) (e : event) (st : state) (M : mat * mat) : mat * mat :=
  match e with
  | EBackward out gout =>
      match snd (event_op c e st), s_pend st out, get_group c (s_groups st) m with
      | Ok _, Some (m', x), Ok g =>
          if Nat.eqb (m_key m') (m_key m) then
            match moments g (m_layer m) (get_grad_scale (s_scales st) (Z.of_nat (s_steps st) - 1)) x gout with
            | Some (P, Q) => (plus (fst M) P, plus (snd M) Q)
            | None => M
            end
          else M
      | _, _, _ => M
      end
  | EStep _ => if s_inf st || dueb c m st then (zero, zero) else M
  | _ => M
  end.
Fixpoint seen (c : cfg) (m : modul) (es : list event) (st : state) (M : mat * mat) : mat * mat :=
  match es with
  | [] => M
  | e :: es' => seen c m es' (fst (event_op c e st)) (seen_event c m e st M)
  end.

(** How often the preconditioners of m have been updated. *)
Fixpoint updates_of (c : cfg) (m : modul) (es : list event) (st : state) : nat :=
  match es with
  | [] => 0
  | e :: es' => (match e with EStep _ => if negb (s_inf st) && dueb c m st then 1 else 0 | _ => 0 end + updates_of c m es' (fst (event_op c e st)))%nat
  end.

(** Structures whose matrices are closed under multiplication with themselves and whose extraction commutes with it. *)
Definition simple (k : cls) : Prop := k = CDense \/ k = CDiag.

(** The curvature a structure can see, plus damping. *)
Definition damp (k : cls) (n : nat) (U : mat) (lam : F) : mat := fun i j => proj k n U i j + lam * ident i j.

(** I - K^T A K. *)
Definition defect (n : nat) (K A : mat) : mat := fun i j => ident i j - congr n K A i j.

(** At every update of m: KFAC-like without momentum and normalisation, damping lam, learning rate in [Pb], and the moments
    (the second ones un-scaled) are UK and UC ([M0]: moments seen before). *)
Definition steady (c : cfg) (m : modul) (dK dC : nat) (UK UC : mat) (lam : F) (Pb : F -> Prop) (es : list event) (st0 : state) (M0 : mat * mat) : Prop :=
  forall es1 es2 g prev cur, es = es1 ++ EStep false :: es2 ->
    let st := run c es1 st0 in let M := seen c m es1 st0 M0 in
    s_inf st = false -> due c m st -> get_group c (s_groups st) m = Ok g ->
    get_grad_scale (s_scales st) (Z.of_nat (s_steps st) - 1) = Ok prev -> step_scale st = Ok cur ->
    g_kfac_like g = true /\ g_normalize g = false /\ g_alpha1 g = 0 /\ g_damping g = lam /\ Pb (rate_at g (s_steps st)) /\
    eqm dK (fst M) UK /\ eqm dC (fun i j => prev / (cur * cur) * snd M i j) UC.

End NewtonSpec.

Section SmallSpec.
Context {SC : Scalar} {OR : Ordered SC}.
Open Scope R_scope.

(** The maximum norm of the linear map is at most q. *)
Definition small (n : nat) (M : mat) (q : R) : Prop := forall i, (i < n)%nat -> rsum n (fun j => Rabs (toR (M i j))) <= q.

End SmallSpec.
