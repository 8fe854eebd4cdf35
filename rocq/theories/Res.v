(** Exceptions as values: the result of running a piece of Python code. *)

From Coq Require Import List.
Import ListNotations.

(** The exception classes raised by singd or by the PyTorch primitives it
    calls. E.g. singd/structures/blockdiagonal.py:89-104, singd/optim/optimizer.py:202-214, 747. *)
Inductive exn : Type :=
| ValueError | RuntimeError | KeyError | NotImplementedError | TypeError
| AttributeError | IndexError | AssertionError | ZeroDivisionError.

(** Result of an expression or call of singd/structures/*.py, singd/optim/*.py. *)
Inductive res (A : Type) : Type :=
| Ok (a : A)
| Err (e : exn).
Arguments Ok {A} a.
Arguments Err {A} e.

(** Sequencing: an exception skips the rest, as in all methods of singd/structures/*.py and singd/optim/*.py. *)
Definition bind {A B : Type} (x : res A) (f : A -> res B) : res B :=
  match x with
  | Ok a => f a
  | Err e => Err e
  end.

Notation "'let*' x ':=' a 'in' b" := (bind a (fun x => b))
  (at level 200, x name, a at level 100, b at level 200, right associativity).
Notation "'let*' ' p ':=' a 'in' b" := (bind a (fun p => b))
  (at level 200, p pattern, a at level 100, b at level 200, right associativity).

(** A Python check: [if not b: raise e]. E.g. singd/optim/optimizer.py:202-214, 310-320. *)
Definition check (b : bool) (e : exn) : res unit := if b then Ok tt else Err e.

(** A Python [for] loop over a list whose body may raise.
    E.g. singd/structures/blockdiagonal.py:150-152, singd/optim/optimizer.py:413-428. *)
Fixpoint foldM {A B : Type} (f : A -> B -> res A) (a : A) (l : list B) : res A :=
  match l with
  | [] => Ok a
  | x :: l' => bind (f a x) (fun a' => foldM f a' l')
  end.

(** A list comprehension whose body may raise, e.g. singd/structures/base.py:358, utils.py:156. *)
Fixpoint mapM {A B : Type} (f : A -> res B) (l : list A) : res (list B) :=
  match l with
  | [] => Ok []
  | x :: l' => bind (f x) (fun y => bind (mapM f l') (fun ys => Ok (y :: ys)))
  end.

(** Whether no exception was raised, e.g. by singd/optim/optimizer.py:732-781. *)
Definition is_ok {A} (x : res A) : bool := match x with Ok _ => true | Err _ => false end.

Lemma bind_ok {A B} (x : res A) (f : A -> res B) b :
  bind x f = Ok b <-> exists a, x = Ok a /\ f a = Ok b.
Proof.
  destruct x; simpl; split; intros H.
  - eauto.
  - destruct H as (a' & E & H). injection E as ->. exact H.
  - discriminate.
  - destruct H as (a' & E & _). discriminate.
Qed.

Lemma check_ok b e u : check b e = Ok u <-> b = true.
Proof. destruct b, u; simpl; split; congruence. Qed.

Lemma foldM_app {A B} (f : A -> B -> res A) a l1 l2 :
  foldM f a (l1 ++ l2) = bind (foldM f a l1) (fun a' => foldM f a' l2).
Proof.
  revert a; induction l1; intros; simpl; [reflexivity|].
  destruct (f a0 a); simpl; auto.
Qed.
