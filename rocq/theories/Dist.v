(** Several processes, each with its own optimizer (torch.distributed):
    StructuredMatrix.all_reduce (singd/structures/base.py:230-264), the parts of singd/optim/optimizer.py that
    depend on [dist.is_initialized()] (L622-627, L715-720), and what calls them.

    SIMPLIFICATIONS.
    - [dist.all_reduce] is a rendezvous: it returns once every process of the default group has called it.
      Processes that call it with different operations or shapes, or of which one terminates while another one
      waits, never return; NCCL may also give garbage.
    - [async_op=False] and [group=None], the only values used by the optimizer; [async_op=True] is in Async.v.
    - Exceptions are local to a process, as in Optimizer.v: the caller catches them and goes on. *)

From Coq Require Import List Arith Lia Bool ZArith.
From Verif Require Import Scalar Res Tensor Structures OptimUtils Optimizer.
Import ListNotations.

Section Dist.
Context {SC : Scalar}.
Open Scope F_scope.

(** ** Collectives *)

(** [dist.ReduceOp.SUM] and [AVG] (optimizer.py:625, 719). *)
Inductive redop : Type := OpSum | OpAvg.
(** Processes must pass the same operation (optimizer.py:625, 719). *)
Definition redop_eqb (a b : redop) : bool := match a, b with OpSum, OpSum | OpAvg, OpAvg => true | _, _ => false end.

(** What [dist.all_reduce] writes into the tensor of every process. base.py:257-262, optimizer.py:720. *)
Definition reduced (op : redop) (ts : list tensor) : tensor :=
  let s idx := sum (length ts) (fun r => tget (nth r ts (zeros [])) idx) in
  tab (match ts with t :: _ => shape t | [] => [] end)
      (fun idx => match op with OpSum => s idx | OpAvg => s idx / fofnat (length ts) end).

(** A process: its result, or a call of [dist.all_reduce] and what it does with the outcome.
    base.py:230-264, optimizer.py:715-720. *)
Inductive proc (A : Type) : Type :=
| Done (a : A)
| AllRed (op : redop) (t : tensor) (k : tensor -> proc A).
Arguments Done {A}.
Arguments AllRed {A}.

(** Sequencing of statements around collectives, base.py:255-262, optimizer.py:622-627. *)
Fixpoint pbind {A B} (p : proc A) (f : A -> proc B) : proc B :=
  match p with
  | Done a => f a
  | AllRed op t k => AllRed op t (fun x => pbind (k x) f)
  end.

(** The tensors and continuations of processes that all call the same collective.
    base.py:257-262, optimizer.py:720. *)
Fixpoint same_call {A} (op : redop) (sh : list nat) (ps : list (proc A)) : option (list tensor * list (tensor -> proc A)) :=
  match ps with
  | [] => Some ([], [])
  | Done _ :: _ => None
  | AllRed op' t k :: ps' =>
      if redop_eqb op' op && shape_eqb (shape t) sh
      then match same_call op sh ps' with Some (ts, ks) => Some (t :: ts, k :: ks) | None => None end
      else None
  end.
(** The results of processes none of which calls a collective any more (base.py:257-262, optimizer.py:720). *)
Fixpoint all_done {A} (ps : list (proc A)) : option (list A) :=
  match ps with
  | [] => Some []
  | Done a :: ps' => option_map (cons a) (all_done ps')
  | AllRed _ _ _ :: _ => None
  end.

(** All processes together ([p] is the one of rank 0): their results, [None] if
    some process never returns from a collective. base.py:257-262, optimizer.py:720. *)
Fixpoint exec {A} (p : proc A) (ps : list (proc A)) : option (list A) :=
  match p with
  | Done a => option_map (cons a) (all_done ps)
  | AllRed op t k =>
      match same_call op (shape t) ps with
      | None => None
      | Some (ts, ks) => let x := reduced op (t :: ts) in exec (k x) (map (fun k => k x) ks)
      end
  end.

(** ** StructuredMatrix.all_reduce, base.py:230-264 *)

(** The loop over [named_tensors] (L255-262): [dist.all_reduce] works on [tensor.contiguous()], which is
    the component itself if that is contiguous and a copy otherwise.  [lay i] tells whether the [i]-th
    component is contiguous. *)
Fixpoint reduce_list (op : redop) (lay : nat -> bool) (i : nat) (ts : list tensor) : proc (list tensor) :=
  match ts with
  | [] => Done []
  | t :: ts' =>
      AllRed op t (fun x => pbind (reduce_list op lay (S i) ts') (fun xs => Done ((if lay i then x else t) :: xs)))
  end.

(** The object after its components have been written, in the order of [named_tensors]. base.py:255-262. *)
Definition take1 (t : tensor) (l : list tensor) : tensor * list tensor := match l with x :: l' => (x, l') | [] => (t, []) end.
(** The object with new components, base.py:255-262, recursive.py:42-59. *)
Fixpoint refill (s : smat) (l : list tensor) : smat * list tensor :=
  match s with
  | MDense t => let '(t, l) := take1 t l in (MDense t, l)
  | MDiag t => let '(t, l) := take1 t l in (MDiag t, l)
  | MBlock D b la => let '(b, l) := take1 b l in let '(la, l) := take1 la l in (MBlock D b la, l)
  | MHier k1 k2 A B C D E =>
      let '(A, l) := take1 A l in let '(B, l) := take1 B l in let '(C, l) := take1 C l in
      let '(D, l) := take1 D l in let '(E, l) := take1 E l in (MHier k1 k2 A B C D E, l)
  | MTril t => let '(t, l) := take1 t l in (MTril t, l)
  | MTriu t => let '(t, l) := take1 t l in (MTriu t, l)
  | MRec sd ma mc ca cc A B C =>
      let '(B, l) := take1 B l in let '(A, l) := refill A l in let '(C, l) := refill C l in
      (MRec sd ma mc ca cc A B C, l)
  end.
(** [all_reduce], base.py:230-264. *)
Definition all_reduce (op : redop) (lay : nat -> bool) (s : smat) : proc smat :=
  pbind (reduce_list op lay 0 (tensors s)) (fun ts => Done (fst (refill s ts))).

(** ** Memory layouts *)

(** Whether a square slice with [n] rows of a matrix with row stride [ld] is contiguous.
    [is_contiguous()] as used by [contiguous()], base.py:258. *)
Definition slice_contig (n ld : nat) : bool := Nat.leb n 1 || Nat.eqb ld n.

(** Which components of [cls.from_dense(m)] are contiguous, for a square slice [m] with row stride [ld]:
    dense.py:40-49 keeps the slice itself; [diag()] copies (diagonal.py:106); block diagonal: the blocks are
    copied by advanced indexing, the last one is a slice (blockdiagonal.py:123-133); hierarchical: A and E are slices,
    B and D are new, C is a slice of a copied vector (hierarchical.py:158-162); Toeplitz: new vectors
    (triltoeplitz.py:73-86); recursive: B is new, A and C are built from slices (recursive.py:200-203, 338-341). *)
Fixpoint slice_layout (ld : nat) (s : smat) : list bool :=
  match s with
  | MDense t => [slice_contig (rows t) ld]
  | MDiag _ => [true]
  | MBlock _ b la => [true; slice_contig (rows la) ld]
  | MHier _ _ A B C D E => [slice_contig (rows A) ld; true; true; true; slice_contig (rows E) ld]
  | MTril _ => [true]
  | MTriu _ => [true]
  | MRec _ _ _ _ _ A B C => true :: slice_layout ld A ++ slice_layout ld C
  end.

(** The dimension of the represented matrix.
    As read by preconditioner_dims, optimizer.py:430-454, and base.py:282-297. *)
Fixpoint dim_of (s : smat) : nat :=
  match s with
  | MDense t | MDiag t | MTril t | MTriu t => rows t
  | MBlock D b la => (rows b * D + rows la)%nat
  | MHier _ _ A B C D E => (rows A + rows C + rows E)%nat
  | MRec _ _ _ _ _ A B C => (dim_of A + dim_of C)%nat
  end.

(** Which components of the result of [from_inner(X)] are contiguous: matrix products and sums are
    (diagonal.py:131-161, blockdiagonal.py:284-303, hierarchical.py:316-325); the classes without their own
    method use [from_dense] of a product (base.py:282-297), which is contiguous. *)
Definition inner_layout (s : smat) (i : nat) : bool :=
  match s with
  | MRec _ _ _ _ _ _ _ _ => nth i (slice_layout (dim_of s) s) true
  | _ => true
  end.

(** ** The optimizer *)

(** State, exceptions and collectives. optimizer.py:578-635, 666-781. *)
Definition dm (A : Type) : Type := state -> proc (state * res A).
(** A statement without collective, e.g. optimizer.py:598-620. *)
Definition dlift {A} (m : SM state A) : dm A := fun st => Done (m st).
(** A collective, optimizer.py:622-627, 715-720. *)
Definition dred {A} (p : proc A) : dm A := fun st => pbind p (fun a => Done (st, Ok a)).
(** Sequencing of statements of optimizer.py:578-635, 666-781. *)
Definition dbind {A B} (m : dm A) (f : A -> dm B) : dm B :=
  fun st => pbind (m st) (fun x => match snd x with Ok a => f a (fst x) | Err e => Done (fst x, Err e) end).
(** The loop of optimizer.py:785. *)
Fixpoint dfor {A} (f : A -> dm unit) (l : list A) : dm unit :=
  match l with
  | [] => dlift (ret tt)
  | a :: l' => dbind (f a) (fun _ => dfor f l')
  end.

(** optimizer.py:625, 719: [AVG if loss_average else SUM]. *)
Definition loss_op (la : lossavg) : redop := match la with LossSum => OpSum | _ => OpAvg end.

(** [_accumulate_H_terms], optimizer.py:578-635. *)
Definition d_accumulate (c : cfg) (m : modul) (x gout : tensor) : dm unit :=
  dbind (dlift (let! st := getS in
                let! g := lift (get_group c (s_groups st) m) in
                let! '(H_K, H_C) := lift (local_H g (m_layer m) (get_grad_scale (s_scales st) (Z.of_nat (s_steps st) - 1)) x gout (s_slots st (m_key m))) in
                ret (loss_op (g_loss g), H_K, H_C)))
    (fun '(op, H_K, H_C) =>
     dbind (dred (all_reduce op (inner_layout H_K) H_K)) (fun H_K =>
     dbind (dred (all_reduce op (inner_layout H_C) H_C)) (fun H_C =>
     dlift (on_slots (m_key m) (store_H H_K H_C))))).

(** [_compute_natural_gradient], optimizer.py:666-730.  The product is contiguous, or (Toeplitz C) the transpose
    of a contiguous tensor, which is reduced in place all the same: all processes have the same strides. *)
Definition d_natural_gradient (c : cfg) (m : modul) : dm (tensor * option tensor) :=
  dbind (dlift (let! st := getS in
                let s := s_slots st (m_key m) in
                let! N := lift (nat_grad_matrix (m_layer m) (grad_data (s_par st (m_weight m)))
                                  (option_map (fun b => grad_data (s_par st b)) (m_bias m))
                                  (get_grad_scale (s_scales st) (Z.of_nat (s_steps st)))
                                  (lookup (sl_K s)) (lookup (sl_C s))) in
                let! g := lift (get_group c (s_groups st) m) in
                ret (loss_op (g_loss g), N)))
    (fun '(op, N) =>
     dbind (dred (AllRed op N Done)) (fun N => dlift (lift (split_matrix (m_layer m) N)))).

(** One iteration of the loop in [_step], optimizer.py:785-814. *)
Definition d_step_module (c : cfg) (m : modul) : dm unit :=
  dbind (dlift (update_preconditioner c m)) (fun _ =>
  dbind (d_natural_gradient c m) (fun '(w, b) =>
  dlift (let! st := getS in
         let! g := lift (get_group c (s_groups st) m) in
         let! _ := on_par (m_weight m) (param_step g w) in
         match m_bias m, b with
         | Some p, Some d => on_par p (param_step g d)
         | _, _ => ret tt
         end))).

(** [step], optimizer.py:732-781. *)
Definition d_step (c : cfg) (closure : bool) : dm unit :=
  if closure then dlift (raise NotImplementedError)
  else
    dbind (dlift ensure_scale) (fun _ =>
    dbind (fun st => if s_inf st
                     then Done (drop_H c (set_log (s_log st ++ [WarnInf]) st), Ok tt)
                     else dfor (d_step_module c) (c_mods c) st) (fun _ =>
    dlift (modify (fun st =>
      let st := set_steps (Datatypes.S (s_steps st)) st in
      set_scales (remove_used (s_scales st) (s_steps st)) st)))).

(** API calls and histories, as in Optimizer.v. optimizer.py:548-635, 732-781, 836-854. *)
Definition d_event (c : cfg) (e : event) : dm unit :=
  match e with
  | EBackward out g =>
      fun st => match s_pend st out with
                | Some (m, x) => d_accumulate c m x g st
                | None => Done (st, Ok tt)
                end
  | EStep closure => d_step c closure
  | _ => dlift (event_op c e)
  end.

(** One process: its final state and the outcomes of its calls. optimizer.py:548-635, 732-781, 836-854. *)
Fixpoint d_run (c : cfg) (es : list event) (st : state) : proc (state * list (res unit)) :=
  match es with
  | [] => Done (st, [])
  | e :: es' => pbind (d_event c e st) (fun x => pbind (d_run c es' (fst x)) (fun y => Done (fst y, snd x :: snd y)))
  end.

(** All processes. base.py:257-262, optimizer.py:720. *)
Definition world {A} (ps : list (proc A)) : option (list A) := match ps with [] => Some [] | p :: ps' => exec p ps' end.

End Dist.

Arguments Done {SC A}.
Arguments AllRed {SC A}.
