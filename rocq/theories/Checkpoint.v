(** Model of [SINGD.state_dict] and [SINGD.load_state_dict] (singd/optim/optimizer.py:856-892) and of the
    methods of [torch.optim.Optimizer] they call (torch 2.2, not part of /repo; read as a primitive).

    SIMPLIFICATIONS.  The dictionary is a value, i.e. the checkpoint is written to a file or deep-copied at
    the time of the call; sharing of tensors between dictionary and optimizer is the topic of Alias.v.
    Data types of loaded buffers are not converted (they already have the parameter's type). *)

From Coq Require Import List Arith Lia Bool ZArith.
From Verif Require Import Scalar Res Tensor Structures OptimUtils Optimizer Construct OptState.
Import ListNotations.

Section Ckpt.
Context {SC : Scalar}.

(** The dictionary: [param_groups] (parameters replaced by numbers) and [state] of
    [torch.optim.Optimizer], and the attributes listed in [STATE_ATTRIBUTES] (L856-865); the six
    dictionaries of matrices are one function as in Optimizer.v. *)
Record sdict : Type := mkSD {
  sd_groups : list group;
  sd_state : list (nat * tensor);
  sd_steps : nat;
  sd_scales : list (Z * F);
  sd_slots : nat -> slots
}.

(** [param_mappings] in torch's [state_dict]: position of the first occurrence among the parameters of all groups.
    Called by optimizer.py:873. *)
Fixpoint index_of (p : nat) (ids : list nat) : option nat :=
  match ids with
  | [] => None
  | q :: l => if Nat.eqb q p then Some O else option_map S (index_of p l)
  end.

(** [param_mappings[id(p)]]: KeyError for parameters that are in no group. Called by optimizer.py:873. *)
Definition number_of (ids : list nat) (p : nat) : res nat := lookup (index_of p ids).

(** torch's [pack_group]: hyper-parameters as they are, parameters numbered. Called by optimizer.py:873. *)
Definition pack_group (ids : list nat) (g : group) : res group :=
  let* ns := mapM (number_of ids) (g_params g) in
  Ok (with_params ns g).

(** The parameters with an entry in [self.state]; only [_step] writes it (optimizer.py:804-806), for
    parameters of hooked modules. *)
Definition with_buffer (c : cfg) (st : state) : list nat :=
  filter (fun p => match p_buf (s_par st p) with Some _ => true | None => false end) (flat_map mod_params (c_mods c)).

(** [state_dict], optimizer.py:867-879. *)
Definition state_dict (c : cfg) (st : state) : res sdict :=
  let ids := concat (map g_params (s_groups st)) in
  let* gs := mapM (pack_group ids) (s_groups st) in
  let* bufs := mapM (fun p => let* i := number_of ids p in let* b := lookup (p_buf (s_par st p)) in Ok (i, b)) (with_buffer c st) in
  Ok (mkSD gs bufs (s_steps st) (s_scales st) (s_slots st)).

(** Lookup in a Python dictionary built from the list of pairs: the last one wins. Called by optimizer.py:889. *)
Definition dict_get (k : nat) (l : list (nat * nat)) : option nat :=
  option_map snd (find (fun kp => Nat.eqb (fst kp) k) (rev l)).

(** torch's [load_state_dict]: [state] is rebuilt from the saved one, the numbers mapped to the own parameters.
    Called by optimizer.py:889. *)
Definition loaded_buffers (id_map : list (nat * nat)) (saved : list (nat * tensor)) : nat -> option tensor :=
  fold_left (fun f kb => match dict_get (fst kb) id_map with Some p => upd f p (Some (snd kb)) | None => f end) saved (fun _ => None).

(** [load_state_dict], optimizer.py:881-892: torch's checks (number of groups, number of parameters per
    group), then torch's part, then the attributes. *)
Definition load_state_dict (d : sdict) : SM state unit :=
  let! st := getS in
  let own := map g_params (s_groups st) in
  let saved := map g_params (sd_groups d) in
  let! _ := lift (check (Nat.eqb (length own) (length saved)) ValueError) in
  let! _ := lift (check (forallb (fun ab => Nat.eqb (length (fst ab)) (length (snd ab))) (combine own saved)) ValueError) in
  let bufs := loaded_buffers (combine (concat saved) (concat own)) (sd_state d) in
  let! _ := modify (set_par (fun p => mkP (p_val (s_par st p)) (p_grad (s_par st p)) (bufs p))) in
  let! _ := modify (set_groups (map (fun gp => with_params (snd gp) (fst gp)) (combine (sd_groups d) own))) in
  let! _ := modify (set_steps (sd_steps d)) in
  let! _ := modify (set_scales (sd_scales d)) in
  modify (set_slots (sd_slots d)).

End Ckpt.

Arguments mkSD {SC}.
