(** Model of singd/optim/optimizer.py: the class SINGD after construction (hooks, statistics,
    preconditioner update, natural gradient, step, gradient scales).  The constructor is
    modelled in Construct.v.

    Every method is a function on the attributes it reads and writes, in a monad that keeps the
    state at the point where an exception was raised.

    SIMPLIFICATIONS.
    - Module names (strings, used as dictionary keys only) and parameters
      (identified by [data_ptr()]) are natural numbers.  Distinct parameters have distinct pointers.
    - The dictionaries [Ks], [Cs], [m_Ks], [m_Cs], [H_Ks], [H_Cs], all indexed by module
      names, are one function from names to a record of six optional entries.
    - [T] is a natural number (a negative T behaves like its absolute value in [steps % T]).
    - Tensors are values: [inputs[0].data] is the input at the time of the forward pass.
    - Data types and devices are ignored here (see Dtypes.v); processes are a single
      one here (see Dist.v). *)

From Coq Require Import List Arith Lia Bool ZArith.
From Verif Require Import Scalar Res Tensor Structures OptimUtils.
Import ListNotations.

(** ** State and exceptions *)

(** A Python method with attribute record [S]: final attributes and result or exception.
    The methods of optimizer.py:82-892. *)
Definition SM (S A : Type) : Type := S -> S * res A.

(** [return], e.g. optimizer.py:454. *)
Definition ret {S A} (a : A) : SM S A := fun s => (s, Ok a).
(** [raise], e.g. optimizer.py:747. *)
Definition raise {S A} (e : exn) : SM S A := fun s => (s, Err e).
(** An expression that does not change attributes, e.g. optimizer.py:485. *)
Definition lift {S A} (r : res A) : SM S A := fun s => (s, r).
(** Reading attributes, e.g. optimizer.py:466. *)
Definition getS {S} : SM S S := fun s => (s, Ok s).
(** Assigning attributes, e.g. optimizer.py:778. *)
Definition modify {S} (f : S -> S) : SM S unit := fun s => (f s, Ok tt).
(** Sequencing of statements in optimizer.py; an exception keeps the attributes assigned so far. *)
Definition sbind {S A B} (x : SM S A) (f : A -> SM S B) : SM S B :=
  fun s => let '(s', r) := x s in match r with Ok a => f a s' | Err e => (s', Err e) end.

Notation "'let!' x ':=' a 'in' b" := (sbind a (fun x => b))
  (at level 200, x name, a at level 100, b at level 200, right associativity).
Notation "'let!' ' p ':=' a 'in' b" := (sbind a (fun p => b))
  (at level 200, p pattern, a at level 100, b at level 200, right associativity).

(** A [for] loop, optimizer.py:785. *)
Fixpoint forS {S A} (f : A -> SM S unit) (l : list A) : SM S unit :=
  match l with
  | [] => ret tt
  | x :: l' => let! _ := f x in forS f l'
  end.

(** [d[k] = v] for the dictionaries of optimizer.py:246-256. *)
Definition upd {A} (f : nat -> A) (k : nat) (v : A) : nat -> A := fun k' => if Nat.eqb k' k then v else f k'.

Section Opt.
Context {SC : Scalar}.
Open Scope F_scope.

(** ** Attributes *)

(** [lr_cov]: a number or a callable of the step counter, optimizer.py:93, 530-535. *)
Inductive lrcov : Type := LrConst (x : F) | LrSched (f : nat -> F).

(** A parameter group, optimizer.py:216-230.  [g_structs] holds the classes the strings
    [structures] are mapped to by [SUPPORTED_STRUCTURES] (optimizer.py:66-73, 418-420),
    [None] for unknown strings. *)
Record group : Type := mkGroup {
  g_params : list nat;
  g_lr : F; g_momentum : F; g_damping : F; g_alpha1 : F; g_wd : F;
  g_T : nat;
  g_loss : lossavg;
  g_lr_cov : lrcov;
  g_structs : option cls * option cls;
  g_approx : approx;
  g_kfac_like : bool;
  g_normalize : bool
}.

(** A hooked module with its name, a key of [self.module_names] (optimizer.py:241, 637-664). *)
Record modul : Type := mkMod {
  m_key : nat;
  m_layer : layer;
  m_weight : nat;
  m_bias : option nat
}.

(** The entries of the six dictionaries for one module name, optimizer.py:246-256. *)
Record slots : Type := mkSlots {
  sl_K : option smat; sl_C : option smat;
  sl_mK : option smat; sl_mC : option smat;
  sl_HK : option smat; sl_HC : option smat
}.

(** A parameter: [p.data], [p.grad], [self.state[p]["momentum_buffer"]]
    (optimizer.py:682-690, 797-814). *)
Record pslot : Type := mkP {
  p_val : tensor;
  p_grad : option tensor;
  p_buf : option tensor
}.

(** Calls of [warn] (optimizer.py:768, 849). *)
Inductive warning : Type := WarnInf | WarnInitScale.

(** [self.module_names] and [self.param_to_group_idx], constant after construction
    (optimizer.py:239-241). *)
Record cfg : Type := mkCfg {
  c_mods : list modul;
  c_p2g : nat -> option nat
}.

(** The attributes that change: [steps] (L236), [_grad_scales] (L266), the dictionaries,
    [param_groups], parameters and momentum buffers; [grad_scale] and [found_inf]
    attributes set by [GradScaler.step] (L760, 763; [Some None] is the Python value None); and
    the tensor hooks waiting on layer outputs (L574-576), by output. *)
Record state : Type := mkState {
  s_steps : nat;
  s_scales : list (Z * F);
  s_slots : nat -> slots;
  s_par : nat -> pslot;
  s_groups : list group;
  s_amp : option (option F);
  s_inf : bool;
  s_pend : nat -> option (modul * tensor);
  s_log : list warning
}.

(** [self.steps = v], optimizer.py:778. *)
Definition set_steps v st := mkState v (s_scales st) (s_slots st) (s_par st) (s_groups st) (s_amp st) (s_inf st) (s_pend st) (s_log st).
(** [self._grad_scales = v], optimizer.py:266, 834, 844. *)
Definition set_scales v st := mkState (s_steps st) v (s_slots st) (s_par st) (s_groups st) (s_amp st) (s_inf st) (s_pend st) (s_log st).
(** Writing the dictionaries, optimizer.py:422-428, 473-474, 524-527, 545-546, 630-635. *)
Definition set_slots v st := mkState (s_steps st) (s_scales st) v (s_par st) (s_groups st) (s_amp st) (s_inf st) (s_pend st) (s_log st).
(** Writing parameters and momentum buffers, optimizer.py:805-814. *)
Definition set_par v st := mkState (s_steps st) (s_scales st) (s_slots st) v (s_groups st) (s_amp st) (s_inf st) (s_pend st) (s_log st).
(** Writing [self.param_groups], optimizer.py:235, 309, 889. *)
Definition set_groups v st := mkState (s_steps st) (s_scales st) (s_slots st) (s_par st) v (s_amp st) (s_inf st) (s_pend st) (s_log st).
(** [grad_scale] and [found_inf] set from outside, read at optimizer.py:760-764. *)
Definition set_amp v w st := mkState (s_steps st) (s_scales st) (s_slots st) (s_par st) (s_groups st) v w (s_pend st) (s_log st).
(** Registering a tensor hook, optimizer.py:574-576. *)
Definition set_pend v st := mkState (s_steps st) (s_scales st) (s_slots st) (s_par st) (s_groups st) (s_amp st) (s_inf st) v (s_log st).
(** [warn(...)], optimizer.py:768, 849. *)
Definition set_log v st := mkState (s_steps st) (s_scales st) (s_slots st) (s_par st) (s_groups st) (s_amp st) (s_inf st) (s_pend st) v.

(** Writing the dictionary entries of one module, L416-428, 473-474, 524-527, 545-546, 630-635. *)
Definition set_K v s := mkSlots v (sl_C s) (sl_mK s) (sl_mC s) (sl_HK s) (sl_HC s).
(** [self.Cs[name] = v], optimizer.py:423, 546. *)
Definition set_C v s := mkSlots (sl_K s) v (sl_mK s) (sl_mC s) (sl_HK s) (sl_HC s).
(** [self.m_Ks[name] = v], optimizer.py:427, 527. *)
Definition set_mK v s := mkSlots (sl_K s) (sl_C s) v (sl_mC s) (sl_HK s) (sl_HC s).
(** [self.m_Cs[name] = v], optimizer.py:428, 526. *)
Definition set_mC v s := mkSlots (sl_K s) (sl_C s) (sl_mK s) v (sl_HK s) (sl_HC s).
(** [self.H_Ks[name] = v] and [pop], optimizer.py:473, 630-632. *)
Definition set_HK v s := mkSlots (sl_K s) (sl_C s) (sl_mK s) (sl_mC s) v (sl_HC s).
(** [self.H_Cs[name] = v] and [pop], optimizer.py:474, 633-635. *)
Definition set_HC v s := mkSlots (sl_K s) (sl_C s) (sl_mK s) (sl_mC s) (sl_HK s) v.

(** Dictionary lookup [d[name]]: KeyError if missing. E.g. optimizer.py:471-474, 608. *)
Definition lookup {A} (o : option A) : res A := match o with Some a => Ok a | None => Err KeyError end.
(** [self.Ks[name]] etc., optimizer.py:471-474, 524-525. *)
Definition entry (f : slots -> option smat) : SM slots smat := fun s => (s, lookup (f s)).

(** ** Gradient scales *)

(** [_get_grad_scale], optimizer.py:816-825. *)
Fixpoint get_grad_scale (d : list (Z * F)) (t : Z) : res F :=
  match d with
  | [] => Err KeyError
  | (t', v) :: d' => if Z.eqb t' t then Ok v else get_grad_scale d' t
  end.

(** [self._grad_scales[t] = v] (optimizer.py:844): replaces in place or appends. *)
Fixpoint put_scale (d : list (Z * F)) (t : Z) (v : F) : list (Z * F) :=
  match d with
  | [] => [(t, v)]
  | (t', v') :: d' => if Z.eqb t' t then (t, v) :: d' else (t', v') :: put_scale d' t v
  end.

(** [_remove_used_grad_scales], optimizer.py:827-834. *)
Definition remove_used (d : list (Z * F)) (steps : nat) : list (Z * F) :=
  filter (fun tv => negb (Z.ltb (fst tv) (Z.of_nat steps - 1))) d.

(** [set_current_grad_scale], optimizer.py:836-854. *)
Definition set_current_grad_scale (s : F) : SM state unit :=
  let! st := getS in
  let d := put_scale (s_scales st) (Z.of_nat (s_steps st)) s in
  let! _ := modify (set_scales d) in
  if Nat.eqb (s_steps st) 0 then
    let! init := lift (get_grad_scale d (-1)) in
    let! this := lift (get_grad_scale d 0) in
    if feqb init 1 && negb (feqb this 1)
    then modify (fun st => set_log (s_log st ++ [WarnInitScale]) st)
    else ret tt
  else ret tt.

(** ** Hyper-parameters of a module *)

(** [_get_param_group_entry], optimizer.py:268-280 (the whole group instead of one entry). *)
Definition get_group (c : cfg) (gs : list group) (m : modul) : res group :=
  match m_layer m with
  | OtherModule => Err AssertionError
  | _ =>
      match c_p2g c (m_weight m) with
      | None => Err KeyError
      | Some i => match nth_error gs i with Some g => Ok g | None => Err IndexError end
      end
  end.

(** [self.steps % T == 0], optimizer.py:467, 574. *)
Definition is_update_step (g : group) (steps : nat) : res bool :=
  if Nat.eqb (g_T g) 0 then Err ZeroDivisionError else Ok (Nat.eqb (steps mod g_T g) 0).

(** ** Preconditioner update, optimizer.py:456-546 *)

(** optimizer.py:485: [prev_grad_scale / grad_scale**2]. *)
Definition grad_unscaling (prev cur : F) : res F :=
  if feqb cur 0 then Err ZeroDivisionError else Ok (prev / (cur * cur)).

(** optimizer.py:488-520: the new terms of the Riemannian momenta of K and C. *)
Definition new_momenta (g : group) (l : layer) (K C HK HC : smat) (unscaling : F) : res (smat * smat) :=
  let* K_tK := from_inner K None in
  let* C_tC := from_inner C None in
  let scale := (1 / two) * (if g_normalize g then 1 - g_alpha1 g else 1) in
  let* '(dim_K, dim_C) := preconditioner_dims l in
  (* step for m_K *)
  let* m_K := c_zeros (cls_of K) dim_K in
  let* a := if g_kfac_like g then Ok 1 else let* t := average_trace HC in Ok (unscaling * t) in
  let* m_K := add_ m_K HK a in
  let* a := if g_kfac_like g then Ok 1 else average_trace C_tC in
  let* m_K := add_ m_K K_tK (g_damping g * a) in
  let* m_K := diag_add_ m_K (- (1)) in
  let m_K := mul_ m_K scale in
  (* step for m_C *)
  let* m_C := c_zeros (cls_of C) dim_C in
  let* a := if g_kfac_like g then Ok unscaling else let* t := average_trace HK in Ok (unscaling * t) in
  let* m_C := add_ m_C HC a in
  let* a := if g_kfac_like g then Ok 1 else average_trace K_tK in
  let* m_C := add_ m_C C_tC (g_damping g * a) in
  let* m_C := diag_add_ m_C (- (1)) in
  let m_C := mul_ m_C scale in
  Ok (m_K, m_C).

(** optimizer.py:523-527: add the old momenta and store the new ones. *)
Definition apply_momenta (g : group) (m_K m_C : smat) : SM slots (smat * smat) :=
  if feqb (g_alpha1 g) 0 then ret (m_K, m_C)
  else
    let! old_C := entry sl_mC in
    let! m_C := lift (add_ m_C old_C (g_alpha1 g)) in
    let! old_K := entry sl_mK in
    let! m_K := lift (add_ m_K old_K (g_alpha1 g)) in
    let! _ := modify (set_mC (Some m_C)) in
    let! _ := modify (set_mK (Some m_K)) in
    ret (m_K, m_C).

(** optimizer.py:530-535. *)
Definition lr_cov_at (g : group) (steps : nat) : F :=
  match g_lr_cov g with LrConst x => x | LrSched f => f steps end.

(** optimizer.py:541-543. *)
Definition normalized_lr (g : group) (beta : F) (m : smat) : res F :=
  if g_normalize g then let* n := infinity_vector_norm m in Ok (beta / fmax 1 n) else Ok beta.

(** [_update_preconditioner], optimizer.py:456-546, on the module's dictionary entries. *)
Definition update_slots (g : group) (l : layer) (steps : nat) (scales : list (Z * F)) : SM slots unit :=
  let! now := lift (is_update_step g steps) in
  if negb now then ret tt
  else
    let! K := entry sl_K in
    let! C := entry sl_C in
    let! H_K := entry sl_HK in
    let! _ := modify (set_HK None) in
    let! H_C := entry sl_HC in
    let! _ := modify (set_HC None) in
    let! prev := lift (get_grad_scale scales (Z.of_nat steps - 1)) in
    let! cur := lift (get_grad_scale scales (Z.of_nat steps)) in
    let! unscaling := lift (grad_unscaling prev cur) in
    let! '(m_K, m_C) := lift (new_momenta g l K C H_K H_C unscaling) in
    let! '(m_K, m_C) := apply_momenta g m_K m_C in
    let! beta_K := lift (normalized_lr g (lr_cov_at g steps) m_K) in
    let! beta_C := lift (normalized_lr g (lr_cov_at g steps) m_C) in
    let! P := lift (matmul_s K m_K) in
    let! K' := lift (add_ K P (- beta_K)) in
    let! _ := modify (set_K (Some K')) in
    let! P := lift (matmul_s C m_C) in
    let! C' := lift (add_ C P (- beta_C)) in
    modify (set_C (Some C')).

(** Running a method on the dictionary entries of one module.
    The methods of optimizer.py:456-546, 578-635 access only these entries. *)
Definition on_slots {A} (k : nat) (f : SM slots A) : SM state A :=
  fun st => let '(s', r) := f (s_slots st k) in (set_slots (upd (s_slots st) k s') st, r).

(** [_update_preconditioner], optimizer.py:456-546. *)
Definition update_preconditioner (c : cfg) (m : modul) : SM state unit :=
  let! st := getS in
  let! g := lift (get_group c (s_groups st) m) in
  on_slots (m_key m) (update_slots g (m_layer m) (s_steps st) (s_scales st)).

(** ** Hooks *)

(** [_register_tensor_hook_on_output_to_accumulate_H_terms], optimizer.py:548-576; [grad_on] is
    [is_grad_enabled()], [out] identifies the output tensor, which is new: a hook on an older
    tensor with this identity is gone. *)
Definition forward_hook (c : cfg) (m : modul) (x : tensor) (grad_on : bool) (out : nat) : SM state unit :=
  let! st := getS in
  let! _ := modify (set_pend (upd (s_pend st) out None)) in
  let! g := lift (get_group c (s_groups st) m) in
  if negb grad_on then ret tt
  else
    let! now := lift (is_update_step g (s_steps st)) in
    if now then modify (set_pend (upd (s_pend st) out (Some (m, x)))) else ret tt.

(** [_accumulate_H_terms] up to L622: this process's contribution, from the module's K and C.
    The order of the lookups does not matter except for which exception is raised first. *)
Definition local_H (g : group) (l : layer) (prev : res F) (x gout : tensor) (s : slots) : res (smat * smat) :=
  let* a := process_input x l (g_approx g) in
  let* go := process_grad_output gout l (g_loss g) (g_approx g) in
  let* K := lookup (sl_K s) in
  let* C := lookup (sl_C s) in
  let* H_K := from_inner K (Some (tr a)) in
  let* prev := prev in
  let* go :=
    if feqb prev 1 then Ok go
    else if fltb prev 0 then Err ValueError (* math.sqrt *)
    else Ok (t_divs go (fsqrt prev)) in
  let* H_C := from_inner C (Some (tr go)) in
  Ok (H_K, H_C).

(** optimizer.py:629-635: store or add. *)
Definition store_H (H_K H_C : smat) : SM slots unit :=
  let! s := getS in
  let! hk := lift (match sl_HK s with Some h => add_ h H_K 1 | None => Ok H_K end) in
  let! _ := modify (set_HK (Some hk)) in
  let! hc := lift (match sl_HC s with Some h => add_ h H_C 1 | None => Ok H_C end) in
  modify (set_HC (Some hc)).

(** [_accumulate_H_terms], optimizer.py:578-635, without DDP. *)
Definition accumulate_H_terms (c : cfg) (m : modul) (x gout : tensor) : SM state unit :=
  let! st := getS in
  let! g := lift (get_group c (s_groups st) m) in
  let! '(H_K, H_C) := lift (local_H g (m_layer m) (get_grad_scale (s_scales st) (Z.of_nat (s_steps st) - 1)) x gout (s_slots st (m_key m))) in
  on_slots (m_key m) (store_H H_K H_C).

(** ** Natural gradient, optimizer.py:666-730 *)

(** [p.grad.data]: AttributeError if there is no gradient. optimizer.py:683, 685, 690. *)
Definition grad_data (p : pslot) : res tensor := match p_grad p with Some g => Ok g | None => Err AttributeError end.

(** optimizer.py:682-710, before the all-reduce. *)
Definition nat_grad_matrix (l : layer) (wg : res tensor) (bg : option (res tensor)) (cur : res F) (K C : res smat) : res tensor :=
  let* wg := wg in
  let* bg := match bg with None => Ok None | Some b => let* b := b in Ok (Some b) end in
  let* G := grad_matrix l wg bg in
  let* cur := cur in
  let G := if feqb cur 1 then G else t_divs G cur in
  let* K := K in
  let* t := rmatmat K (tr G) in
  let* t := matmul_t K t in
  let* C := C in
  let* u := rmatmat C (tr t) in
  matmul_t C u.

(** [_compute_natural_gradient] without DDP: the update directions of weight and bias. optimizer.py:666-730. *)
Definition compute_natural_gradient (c : cfg) (m : modul) : SM state (tensor * option tensor) :=
  let! st := getS in
  let s := s_slots st (m_key m) in
  let! N := lift (nat_grad_matrix (m_layer m) (grad_data (s_par st (m_weight m)))
                    (option_map (fun b => grad_data (s_par st b)) (m_bias m))
                    (get_grad_scale (s_scales st) (Z.of_nat (s_steps st)))
                    (lookup (sl_K s)) (lookup (sl_C s))) in
  lift (split_matrix (m_layer m) N).

(** ** Parameter update, optimizer.py:797-814 *)
Definition param_step (g : group) (d : tensor) : SM pslot unit :=
  let! p := getS in
  let! d := lift (if feqb (g_wd g) 0 then Ok d else t_add_alpha d (p_val p) (g_wd g)) in
  if feqb (g_momentum g) 0 then
    let! v := lift (t_add_alpha (p_val p) d (- g_lr g)) in
    modify (fun p => mkP v (p_grad p) (p_buf p))
  else
    let buf := t_scale (g_momentum g) (match p_buf p with Some b => b | None => zeros (shape (p_val p)) end) in
    let! _ := modify (fun p => mkP (p_val p) (p_grad p) (Some buf)) in
    let! buf := lift (t_add buf d) in
    let! _ := modify (fun p => mkP (p_val p) (p_grad p) (Some buf)) in
    let! v := lift (t_add_alpha (p_val p) buf (- g_lr g)) in
    modify (fun p => mkP v (p_grad p) (p_buf p)).

(** Running the parameter update on one parameter, optimizer.py:797-814. *)
Definition on_par {A} (k : nat) (f : SM pslot A) : SM state A :=
  fun st => let '(p', r) := f (s_par st k) in (set_par (upd (s_par st) k p') st, r).

(** One iteration of the loop in [_step], optimizer.py:785-814. *)
Definition step_module (c : cfg) (m : modul) : SM state unit :=
  let! _ := update_preconditioner c m in
  let! '(w, b) := compute_natural_gradient c m in
  let! st := getS in
  let! g := lift (get_group c (s_groups st) m) in
  let! _ := on_par (m_weight m) (param_step g w) in
  match m_bias m, b with
  | Some p, Some d => on_par p (param_step g d)
  | _, _ => ret tt
  end.

(** [_step], optimizer.py:783-814. *)
Definition step_all (c : cfg) : SM state unit := forS (step_module c) (c_mods c).

(** optimizer.py:768-772. *)
Definition drop_H (c : cfg) (st : state) : state :=
  set_slots (fun k => if existsb (fun m => Nat.eqb (m_key m) k) (c_mods c)
                      then set_HC None (set_HK None (s_slots st k)) else s_slots st k) st.

(** optimizer.py:753-758: the scale given by the user or by the scaler, 1 otherwise. *)
Definition ensure_scale : SM state unit :=
  let! st := getS in
  match get_grad_scale (s_scales st) (Z.of_nat (s_steps st)) with
  | Ok _ => ret tt
  | Err _ =>
      match s_amp st with
      | None => set_current_grad_scale 1
      | Some (Some s) => set_current_grad_scale s
      | Some None => raise AttributeError (* None.item() *)
      end
  end.

(** [step], optimizer.py:732-781; [closure]: whether a closure is passed. *)
Definition step (c : cfg) (closure : bool) : SM state unit :=
  if closure then raise NotImplementedError
  else
    let! _ := ensure_scale in
    let! st := getS in
    let! _ :=
      if s_inf st then
        let! _ := modify (fun st => set_log (s_log st ++ [WarnInf]) st) in
        modify (drop_H c)
      else step_all c in
    modify (fun st =>
      let st := set_steps (Datatypes.S (s_steps st)) st in
      set_scales (remove_used (s_scales st) (s_steps st)) st).

(** ** Histories of API calls *)

(** What a training script does with the optimizer: forward passes of hooked modules (L657-661),
    backward passes through their outputs (with the output gradient autograd computes), writing
    gradients ([backward()] or [zero_grad()]), scale calls, the attributes set by a
    GradScaler, step, and edits of the parameter groups (learning rate schedulers). *)
Inductive event : Type :=
| EForward (m : modul) (x : tensor) (grad_on : bool) (out : nat)
| EBackward (out : nat) (g : tensor)
| EGrad (p : nat) (g : option tensor)
| ESetScale (s : F)
| EScaler (scale : option (option F)) (inf : bool)
| EStep (closure : bool)
| EGroups (gs : list group).

(** The methods and hooks of optimizer.py:548-576, 578-635, 732-781, 836-854. *)
Definition event_op (c : cfg) (e : event) : SM state unit :=
  match e with
  | EForward m x grad_on out => forward_hook c m x grad_on out
  | EBackward out g =>
      let! st := getS in
      match s_pend st out with
      | Some (m, x) => accumulate_H_terms c m x g
      | None => ret tt
      end
  | EGrad p g => modify (fun st => set_par (upd (s_par st) p (mkP (p_val (s_par st p)) g (p_buf (s_par st p)))) st)
  | ESetScale s => set_current_grad_scale s
  | EScaler a i => modify (set_amp a i)
  | EStep closure => step c closure
  | EGroups gs => modify (set_groups gs)
  end.

(** The caller catches exceptions and goes on.
    The methods and hooks of optimizer.py:548-576, 578-635, 732-781, 836-854. *)
Fixpoint run (c : cfg) (es : list event) (st : state) : state :=
  match es with
  | [] => st
  | e :: es' => run c es' (fst (event_op c e st))
  end.

End Opt.

Arguments mkGroup {SC}.
Arguments LrConst {SC}.
Arguments LrSched {SC}.
