(** [StructuredMatrix.all_reduce] with [async_op=True] (singd/structures/base.py:230-264): processes that start collectives without
    waiting for each other, and a backend that performs them at any later time and in any order.

    SIMPLIFICATIONS.  All processes pass the same operation, and the default group.  The backend performs a collective in one piece, once every
    process has started it; the collectives are matched by the order in which each process starts them, as torch.distributed does.
    Collectives of operands of different shapes are never performed. *)

From Coq Require Import List Arith Bool String.
From Verif Require Import Scalar Res Tensor Structures OptimUtils Optimizer Registry Dist.
Import ListNotations.

Section Async.
Context {SC : Scalar}.

(** What a process hands to [dist.all_reduce]: the component itself or, if it is not contiguous, a copy of its value at the time
    ([tensor.contiguous()], base.py:257). *)
Inductive operand : Type := Ref (a : nat) | Copied (t : tensor).

(** The value of an operand at the moment, base.py:257-260. *)
Definition now (h : nat -> tensor) (x : operand) : tensor := match x with Ref a => h a | Copied t => t end.

(** All processes: their tensors, the collectives each has started (one handle per entry, base.py:255-260), and the collectives that have
    been performed, i.e. whose handles are ready. *)
Record asys : Type := mkAsys { heaps : nat -> nat -> tensor; calls : nat -> list operand; finished : nat -> bool }.

(** Before any call of [all_reduce], base.py:255. *)
Definition fresh (h : nat -> nat -> tensor) : asys := mkAsys h (fun _ => []) (fun _ => false).

(** The processes [0..R-1] with their objects; [lay r i] tells whether the [i]-th component of process [r] is contiguous. base.py:230-257. *)
Variables (R : nat) (op : redop) (objs : nat -> obj) (lay : nat -> nat -> bool).

(** One iteration of process [r]'s loop, base.py:256-260; no iteration is left after the last component. *)
Definition call (r : nat) (s : asys) : option asys :=
  match nth_error (named_tensors (objs r)) (List.length (calls s r)) with
  | Some (_, a) =>
      if Nat.ltb r R
      then Some (mkAsys (heaps s) (upd (calls s) r (calls s r ++ [if lay r (List.length (calls s r)) then Ref a else Copied (heaps s r a)])%list) (finished s))
      else None
  | None => None
  end.

(** The handles process [r] has got so far, one for each iteration; [all_reduce] returns them when no component is left, base.py:263-264. *)
Definition handles (s : asys) (r : nat) : list nat := seq 0 (List.length (calls s r)).
(** [all_reduce] has returned on process [r], base.py:263-264. *)
Definition returned (s : asys) (r : nat) : bool := Nat.eqb (List.length (calls s r)) (List.length (named_tensors (objs r))).

(** The operands of collective [k] on the processes of a list, if all of them have started it. base.py:258-260. *)
Fixpoint operands (s : asys) (k : nat) (rs : list nat) : option (list operand) :=
  match rs with
  | [] => Some []
  | r :: rs' => match nth_error (calls s r) k, operands s k rs' with Some x, Some l => Some (x :: l) | _, _ => None end
  end.

(** Whether all tensors have the same shape, base.py:258-260. *)
Definition alike (ts : list tensor) : bool := match ts with [] => true | t :: ts' => forallb (fun t' => shape_eqb (shape t') (shape t)) ts' end.

(** The value of the operand of process [r] in collective [k]. base.py:258-260. *)
Definition operand_now (s : asys) (k r : nat) : tensor := match nth_error (calls s r) k with Some x => now (heaps s r) x | None => zeros [] end.

(** The backend performs collective [k]: every operand is overwritten; a copy is lost. base.py:257-260. *)
Definition finish (k : nat) (s : asys) : option asys :=
  if finished s k then None
  else match operands s k (seq 0 R) with
       | None => None
       | Some _ =>
           let ts := map (operand_now s k) (seq 0 R) in
           if alike ts
           then Some (mkAsys (fun r => match nth_error (calls s r) k with
                                       | Some (Ref a) => if Nat.ltb r R then put a (reduced op ts) (heaps s r) else heaps s r
                                       | _ => heaps s r end)
                             (calls s) (upd (finished s) k true))
           else None
       end.

(** What happens: an iteration of a process's loop, the backend performs a collective (base.py:256-260), or a process writes a tensor in
    other code (e.g. base.py:165). *)
Inductive move : Type := Call (r : nat) | Finish (k : nat) | Write (r a : nat) (t : tensor).

(** One move, base.py:255-264. *)
Definition amove (m : move) (s : asys) : option asys :=
  match m with
  | Call r => call r s
  | Finish k => finish k s
  | Write r a t => Some (mkAsys (upd (heaps s) r (put a t (heaps s r))) (calls s) (finished s))
  end.
(** A schedule, base.py:255-264. *)
Fixpoint schedule (ms : list move) (s : asys) : option asys :=
  match ms with [] => Some s | m :: ms' => match amove m s with Some s' => schedule ms' s' | None => None end end.
End Async.
