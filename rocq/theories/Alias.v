(** Sharing of objects between optimizers and the dictionaries returned by [state_dict]
    (singd/optim/optimizer.py:856-892 and torch.optim.Optimizer of torch 2.2).

    Objects that are changed in place live in a heap: the dictionaries of matrices with their
    matrices (changed by optimizer.py:473-546, 630-635, 769-772), the dictionary [_grad_scales]
    (L834, 844), and the momentum buffers (L811).  Everything else is a value.

    SIMPLIFICATIONS.
    - The six dictionaries of matrices are one object, as in Optimizer.v: they are always handed over
      together.  A matrix is reachable only through its dictionary, so a dictionary is one object with its
      matrices.
    - An event is run by Optimizer.v on the contents, which are then written back to the objects: no
      method replaces the dictionaries or a momentum buffer by another object.
    - [torch.optim.Optimizer.state_dict] puts the buffers themselves (not copies) into the dictionary,
      [torch.optim.Optimizer.load_state_dict] keeps them if their type is the parameter's, and copies
      [param_groups] deeply. *)

From Coq Require Import List Arith Lia Bool ZArith.
From Verif Require Import Scalar Res Tensor Structures OptimUtils Optimizer Construct OptState Checkpoint.
Import ListNotations.

Section Alias.
Context {SC : Scalar}.

(** The objects, by address; [h_next] is the next free address. They are created at optimizer.py:246-266, 806-808. *)
Record heap : Type := mkHeap {
  h_slots : nat -> nat -> slots;
  h_scales : nat -> list (Z * F);
  h_bufs : nat -> tensor;
  h_next : nat
}.

(** An optimizer: its values (the entries for scales, slots and buffers are not used) and the
    addresses of its objects (optimizer.py:234-266; [self.state] of torch.optim.Optimizer). *)
Record opt : Type := mkOpt {
  o_base : state;
  o_slots : nat;
  o_scales : nat;
  o_bufs : nat -> option nat
}.

(** The state of Optimizer.v: the contents of the objects. optimizer.py:856-865 lists the shared ones. *)
Definition seen (h : heap) (o : opt) : state :=
  let st := o_base o in
  mkState (s_steps st) (h_scales h (o_scales o)) (h_slots h (o_slots o))
    (fun p => mkP (p_val (s_par st p)) (p_grad (s_par st p)) (option_map (h_bufs h) (o_bufs o p)))
    (s_groups st) (s_amp st) (s_inf st) (s_pend st) (s_log st).

(** optimizer.py:804-811: a buffer is created once and then changed in place. *)
Fixpoint write_bufs (ps : list nat) (st : state) (h : heap) (bufs : nat -> option nat) : heap * (nat -> option nat) :=
  match ps with
  | [] => (h, bufs)
  | p :: ps' =>
      match p_buf (s_par st p) with
      | None => write_bufs ps' st h bufs
      | Some b =>
          match bufs p with
          | Some l => write_bufs ps' st (mkHeap (h_slots h) (h_scales h) (upd (h_bufs h) l b) (h_next h)) bufs
          | None =>
              write_bufs ps' st (mkHeap (h_slots h) (h_scales h) (upd (h_bufs h) (h_next h) b) (S (h_next h)))
                (upd bufs p (Some (h_next h)))
          end
      end
  end.

(** One call on the optimizer. optimizer.py:548-635, 732-781, 836-854. *)
Definition h_event (c : cfg) (e : event) (h : heap) (o : opt) : heap * opt * res unit :=
  let '(st, r) := event_op c e (seen h o) in
  let h1 := mkHeap (upd (h_slots h) (o_slots o) (s_slots st)) (upd (h_scales h) (o_scales o) (s_scales st)) (h_bufs h) (h_next h) in
  let '(h2, bufs) := write_bufs (flat_map mod_params (c_mods c)) st h1 (o_bufs o) in
  (h2, mkOpt st (o_slots o) (o_scales o) bufs, r).

(** A history of calls of optimizer.py:548-635, 732-781, 836-854. *)
Fixpoint h_run (c : cfg) (es : list event) (h : heap) (o : opt) : heap * opt :=
  match es with
  | [] => (h, o)
  | e :: es' => let '(h', o', _) := h_event c e h o in h_run c es' h' o'
  end.

(** The constructor creates new objects (optimizer.py:246-266); no buffers exist. *)
Definition h_new (st : state) (h : heap) : heap * opt :=
  let n := h_next h in
  (mkHeap (upd (h_slots h) n (s_slots st)) (upd (h_scales h) (S n) (s_scales st)) (h_bufs h) (S (S n)),
   mkOpt st n (S n) (fun _ => None)).

(** A dictionary returned by [state_dict]: [param_groups] and [state] of torch, and the
    entries of [STATE_ATTRIBUTES]: [steps] (a number), and the addresses of [_grad_scales] and of
    the matrices; [None] once they have been removed. optimizer.py:856-879. *)
Record pdict : Type := mkPD {
  pd_groups : list group;
  pd_state : list (nat * nat);
  pd_attrs : option (nat * nat * nat)
}.

(** [state_dict], optimizer.py:867-879. *)
Definition h_state_dict (c : cfg) (h : heap) (o : opt) : res pdict :=
  let st := seen h o in
  let ids := concat (map g_params (s_groups st)) in
  let* gs := mapM (pack_group ids) (s_groups st) in
  let* bufs := mapM (fun p => let* i := number_of ids p in let* b := lookup (o_bufs o p) in Ok (i, b)) (with_buffer c st) in
  Ok (mkPD gs bufs (Some (s_steps st, o_scales o, o_slots o))).

(** What the dictionary shows at the moment (a value as in Checkpoint.v), if it is complete. optimizer.py:867-879. *)
Definition content (h : heap) (d : pdict) : option sdict :=
  match pd_attrs d with
  | None => None
  | Some (n, a, b) => Some (mkSD (pd_groups d) (map (fun kl => (fst kl, h_bufs h (snd kl))) (pd_state d)) n (h_scales h a) (h_slots h b))
  end.

(** torch's [load_state_dict]: the saved buffers, for the own parameters. Called by optimizer.py:889. *)
Definition loaded_locs (id_map saved : list (nat * nat)) : nat -> option nat :=
  fold_left (fun f kb => match dict_get (fst kb) id_map with Some p => upd f p (Some (snd kb)) | None => f end) saved (fun _ => None).

(** [load_state_dict], optimizer.py:881-892: the attributes are popped from the argument (L888),
    KeyError if they are missing; then torch's part, which may raise; then the objects become attributes
    of the optimizer (L891-892).  Result: optimizer, dictionary, outcome. *)
Definition h_load (d : pdict) (h : heap) (o : opt) : opt * pdict * res unit :=
  match pd_attrs d, content h d with
  | Some (n, a, b), Some v =>
      let d' := mkPD (pd_groups d) (pd_state d) None in
      let '(st, r) := load_state_dict v (seen h o) in
      match r with
      | Err e => (o, d', Err e)
      | Ok _ =>
          let id_map := combine (concat (map g_params (pd_groups d))) (concat (map g_params (s_groups (o_base o)))) in
          (mkOpt st b a (loaded_locs id_map (pd_state d)), d', Ok tt)
      end
  | _, _ => (o, d, Err KeyError)
  end.

(** [copy.deepcopy] of a dictionary: new objects with the same contents.
    Not part of the repository; what a user does with the result of optimizer.py:867-879. *)
Fixpoint copy_bufs (l : list (nat * nat)) (h : heap) : list (nat * nat) * heap :=
  match l with
  | [] => ([], h)
  | (i, a) :: l' =>
      let n := h_next h in
      let '(r, h') := copy_bufs l' (mkHeap (h_slots h) (h_scales h) (upd (h_bufs h) n (h_bufs h a)) (S n)) in
      ((i, n) :: r, h')
  end.

(** [copy.deepcopy] of the whole dictionary (result of optimizer.py:867-879). *)
Definition deepcopy (d : pdict) (h : heap) : pdict * heap :=
  let '(bs, h1) := copy_bufs (pd_state d) h in
  match pd_attrs d with
  | None => (mkPD (pd_groups d) bs None, h1)
  | Some (s, a, b) =>
      let n := h_next h1 in
      (mkPD (pd_groups d) bs (Some (s, S n, n)),
       mkHeap (upd (h_slots h1) n (h_slots h1 b)) (upd (h_scales h1) (S n) (h_scales h1 a)) (h_bufs h1) (S (S n)))
  end.

End Alias.

Arguments mkHeap {SC}.
Arguments mkOpt {SC}.
Arguments mkPD {SC}.
