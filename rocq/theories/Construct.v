(** Model of the constructor of SINGD, singd/optim/optimizer.py:82-266, and the methods it
    calls: [_get_trainable_parameters], [_check_param_groups], [_install_hooks],
    [_initialize_buffers].

    SIMPLIFICATIONS.
    - A model is the list of its modules in the order of [named_modules()] with the
      attributes the code reads; parameters are identified by [data_ptr()] as in Optimizer.v.
    - Of [torch.optim.Optimizer.__init__] only what the code relies on: empty parameter
      lists and parameters in several groups are rejected with ValueError, missing
      entries of a group are filled with the defaults. *)

From Coq Require Import List Arith Lia Bool ZArith.
From Verif Require Import Scalar Res Tensor Structures OptimUtils Optimizer.
Import ListNotations.

(** A module of the model: its name, layer type, weight and bias; whether
    [len(list(m.modules())) == 1] (optimizer.py:336, 368); [m.parameters()] (L340, 373, 656),
    which include those of submodules. *)
Record node : Type := mkNode {
  n_mod : modul;
  n_leaf : bool;
  n_params : list nat
}.

(** [isinstance(m, SUPPORTED_MODULES)], optimizer.py:74. *)
Definition is_supported (m : modul) : bool := match m_layer m with OtherModule => false | _ => true end.

Section Ctor.
Context {SC : Scalar}.
Open Scope F_scope.

(** Python numbers passed as hyper-parameters, and callables (L93, 206-214). *)
Inductive pynum : Type := PyInt (z : Z) | PyFloat (x : F) | PyCallable (f : nat -> F).

(** Conversion of a Python int to a float in arithmetic, e.g. L814. *)
Definition fofZ (z : Z) : F :=
  match z with Z0 => 0 | Zpos p => fofnat (Pos.to_nat p) | Zneg p => - fofnat (Pos.to_nat p) end.
(** SIMPLIFICATION: a callable passed for anything but lr_cov is not accepted here as a number
    (the code raises TypeError at its first use). optimizer.py:202-214. *)
Definition num (x : pynum) : F := match x with PyInt z => fofZ z | PyFloat f => f | PyCallable f => f O end.
(** [lr_cov], a number or a callable, optimizer.py:93, 208. *)
Definition cov (x : pynum) : lrcov := match x with PyCallable f => LrSched f | _ => LrConst (num x) end.

(** [isinstance(x, float) and x < 0.0], L213. *)
Definition bad_number (x : pynum) : bool := match x with PyFloat f => fltb f 0 | _ => false end.

(** The argument [params]: None, an iterable of parameters, or groups, each with the entries
    it overrides (a function that writes them over the defaults). optimizer.py:85, 218-235. *)
Inductive params_arg : Type :=
| PNone
| PList (ps : list nat)
| PGroups (l : list (list nat * (group -> group))).

(** The arguments of the constructor, optimizer.py:82-101. *)
Record args : Type := mkArgs {
  a_wrapped : bool;                 (* isinstance(model, (DP, DDP)) *)
  a_model : list node;
  a_requires_grad : nat -> bool;
  a_params : params_arg;
  a_lr : pynum; a_momentum : pynum; a_damping : pynum; a_alpha1 : pynum; a_wd : pynum;
  a_T : nat;
  a_loss : lossavg;
  a_lr_cov : pynum;
  a_structs : option cls * option cls;
  a_approx : approx;
  a_warn : bool;
  a_kfac_like : bool;
  a_init_scale : F;
  a_normalize : bool
}.

(** [defaults], L216-230. *)
Definition defaults (a : args) : group :=
  mkGroup [] (num (a_lr a)) (num (a_momentum a)) (num (a_damping a)) (num (a_alpha1 a)) (num (a_wd a))
    (a_T a) (a_loss a) (cov (a_lr_cov a)) (a_structs a) (a_approx a) (a_kfac_like a) (a_normalize a).

(** A group with other parameters, optimizer.py:216-235. *)
Definition with_params (ps : list nat) (g : group) : group :=
  mkGroup ps (g_lr g) (g_momentum g) (g_damping g) (g_alpha1 g) (g_wd g) (g_T g) (g_loss g)
    (g_lr_cov g) (g_structs g) (g_approx g) (g_kfac_like g) (g_normalize g).
(** Assigning the entry alpha1 of a group, optimizer.py:309. *)
Definition with_alpha1 (x : F) (g : group) : group :=
  mkGroup (g_params g) (g_lr g) (g_momentum g) (g_damping g) x (g_wd g) (g_T g) (g_loss g)
    (g_lr_cov g) (g_structs g) (g_approx g) (g_kfac_like g) (g_normalize g).

(** [_get_trainable_parameters], L351-383: the parameters and the names of layers warned about. *)
Fixpoint trainable (model : list node) (req : nat -> bool) (warn : bool) : list nat * list nat :=
  match model with
  | [] => ([], [])
  | n :: rest =>
      let '(ps, ws) := trainable rest req warn in
      if n_leaf n then
        let mine := filter req (n_params n) in
        if is_supported (n_mod n) then (mine ++ ps, ws)
        else if negb (match mine with [] => true | _ => false end) && warn
             then (ps, m_key (n_mod n) :: ws) else (ps, ws)
      else (ps, ws)
  end.

(** Whether two parameter lists share an element (torch.optim.Optimizer.add_param_group, called by optimizer.py:235). *)
Definition overlap (a b : list nat) : bool := existsb (fun p => existsb (Nat.eqb p) b) a.
(** No parameter occurs in two groups (torch.optim.Optimizer.add_param_group, called by optimizer.py:235). *)
Fixpoint disjoint_groups (l : list (list nat)) : bool :=
  match l with [] => true | x :: r => forallb (fun y => negb (overlap x y)) r && disjoint_groups r end.

(** [super().__init__(params, defaults)], L231-233. *)
Definition base_init (a : args) : res (list group) :=
  let gs :=
    match a_params a with
    | PNone =>
        match fst (trainable (a_model a) (a_requires_grad a) (a_warn a)) with
        | [] => [] | ps => [with_params ps (defaults a)]
        end
    | PList [] => []
    | PList ps => [with_params ps (defaults a)]
    | PGroups l => map (fun pf => with_params (fst pf) (snd pf (defaults a))) l
    end in
  match gs with
  | [] => Err ValueError
  | _ => if disjoint_groups (map g_params gs) then Ok gs else Err ValueError
  end.

(** L301-320: the checks of one group; returns the group with [alpha1] reset for kfac_like. *)
Definition check_group (g : group) : res group :=
  let g := if g_kfac_like g && negb (feqb (g_alpha1 g) 0) then with_alpha1 0 g else g in
  let* _ := check (match g_approx g with ApproxOther => false | _ => true end) ValueError in
  let* _ := check (match g_loss g with LossOther => false | _ => true end) ValueError in
  Ok g.

(** L322-326: the last group containing the parameter. *)
Fixpoint p2g_from (i : nat) (gs : list group) (p : nat) : option nat :=
  match gs with
  | [] => None
  | g :: gs' =>
      match p2g_from (S i) gs' p with
      | Some j => Some j
      | None => if existsb (Nat.eqb p) (g_params g) then Some i else None
      end
  end.

(** L338-342: [len(set(m_groups)) in [0, 1]] for a module. *)
Definition same_group (p2g : nat -> option nat) (ids ps : list nat) : bool :=
  match map p2g (filter (fun p => existsb (Nat.eqb p) ids) ps) with
  | [] => true
  | g :: l => forallb (fun h => match g, h with Some i, Some j => Nat.eqb i j | _, _ => false end) l
  end.

(** [_check_param_groups], L282-349. *)
Definition check_param_groups (model : list node) (gs : list group) : res (list group * (nat -> option nat)) :=
  let* gs := mapM check_group gs in
  let p2g := p2g_from 0 gs in
  let ids := concat (map g_params gs) in
  let mods := filter (fun n => n_leaf n && is_supported (n_mod n)) model in
  let* _ := check (forallb (fun n => same_group p2g ids (n_params n)) mods) ValueError in
  Ok (gs, p2g).

(** The modules hooked by [_install_hooks], L650-656. *)
Definition hooked (model : list node) (gs : list group) : list modul :=
  let ids := concat (map g_params gs) in
  map n_mod (filter (fun n => is_supported (n_mod n) && existsb (fun p => existsb (Nat.eqb p) ids) (n_params n)) model).

(** [_initialize_buffers] for one module, L413-428. *)
Definition init_slots (c : cfg) (gs : list group) (m : modul) : res slots :=
  let* '(dim_K, dim_C) := preconditioner_dims (m_layer m) in
  let* g := get_group c gs m in
  let* K_cls := lookup (fst (g_structs g)) in
  let* C_cls := lookup (snd (g_structs g)) in
  let* K := c_eye K_cls dim_K in
  let* C := c_eye C_cls dim_C in
  if feqb (g_alpha1 g) 0 then Ok (mkSlots (Some K) (Some C) None None None None)
  else
    let* m_K := c_zeros K_cls dim_K in
    let* m_C := c_zeros C_cls dim_C in
    Ok (mkSlots (Some K) (Some C) (Some m_K) (Some m_C) None None).

(** Empty dictionaries, optimizer.py:246-256. *)
Definition no_slots : slots := mkSlots None None None None None None.

(** [_initialize_buffers], L405-428. *)
Definition initialize_buffers (c : cfg) (gs : list group) : res (nat -> slots) :=
  foldM (fun d m => let* s := init_slots c gs m in Ok (upd d (m_key m) s)) (fun _ => no_slots) (c_mods c).

(** The constructor, L82-266.  The state it acts on is the list of names of the modules on which a
    forward hook is installed; [par] are the model's parameters. *)
Definition ctor (a : args) (par : nat -> pslot) : SM (list nat) (cfg * state) :=
  let! _ := lift (check (negb (a_wrapped a)) TypeError) in
  let! _ := lift (check (forallb (fun x => negb (bad_number x))
                    [a_lr a; a_lr_cov a; a_alpha1 a; a_momentum a; a_wd a]) ValueError) in
  let! gs := lift (base_init a) in
  let! '(gs, p2g) := lift (check_param_groups (a_model a) gs) in
  let mods := hooked (a_model a) gs in
  let! _ := modify (fun hooks => hooks ++ map m_key mods) in
  let c := mkCfg mods p2g in
  let! d := lift (initialize_buffers c gs) in
  ret (c, mkState 0 [((-1)%Z, a_init_scale a)] d (fun p => mkP (p_val (par p)) (p_grad (par p)) None)
            gs None false (fun _ => None) []).

End Ctor.

Arguments mkArgs {SC}.
Arguments PNone {SC}.
Arguments PList {SC}.
Arguments PGroups {SC}.
Arguments PyInt {SC}.
