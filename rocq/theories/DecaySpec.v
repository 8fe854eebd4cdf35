(** Specification vocabulary for the part of the weights that no gradient reaches.  Not a model of code. *)

From Coq Require Import List.
From Verif Require Import Scalar Res Tensor Structures OptimUtils Optimizer Construct OptState OptRun.
Import ListNotations.

Section DecaySpec.
Context {SC : Scalar}.
Open Scope F_scope.

(** The groups in force for module [m] at the steps of a history which are not skipped, read off the calls: groups are
    replaced by edits, steps are skipped while found_inf is set. *)
Fixpoint in_force (c : cfg) (m : modul) (es : list event) (gs : list group) (inf : bool) : list group :=
  match es with
  | [] => []
  | EGroups gs' :: es => in_force c m es gs' inf
  | EScaler _ inf' :: es => in_force c m es gs inf'
  | EStep _ :: es =>
      (if inf then [] else match get_group c gs m with Ok g => [g] | Err _ => [] end) ++ in_force c m es gs inf
  | _ :: es => in_force c m es gs inf
  end.

(** One entry of a parameter and of its momentum buffer under weight decay and momentum alone. *)
Definition drift (g : group) (e : F * F) : F * F :=
  let '(v, b) := e in
  if feqb (g_momentum g) 0 then (v - g_lr g * (g_wd g * v), b)
  else let b' := g_momentum g * b + g_wd g * v in (v - g_lr g * b', b').
Definition drifts (gs : list group) (e : F * F) : F * F := fold_left (fun e g => drift g e) gs e.

(** Entry [i] of a parameter and of its buffer (zero if there is none). *)
Definition entry_of (p : pslot) (i : nat) : F * F :=
  (nth i (data (p_val p)) 0, match p_buf p with Some b => nth i (data b) 0 | None => 0 end).

(** Decay factors of the steps, multiplied. *)
Definition decay (gs : list group) : F := fold_right (fun g r => (1 - g_lr g * g_wd g) * r) 1 gs.

(** No step raises, in terms of the outcomes of the calls. *)
Fixpoint steps_return (es : list event) (os : list (res unit)) : Prop :=
  match es, os with
  | EStep _ :: es, o :: os => o = Ok tt /\ steps_return es os
  | _ :: es, _ :: os => steps_return es os
  | _, _ => True
  end.

End DecaySpec.
