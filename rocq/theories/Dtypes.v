(** Data types of tensors: which type every tensor of the optimizer has, and which operations
    raise because of types (singd/structures/*.py, singd/optim/optimizer.py).

    This model follows the same code as Structures.v and Optimizer.v, but computes the data type of
    every tensor instead of its entries.

    PyTorch's rules, trusted:
    - element-wise operations and [cat] of tensors of different floating point types give the
      larger type ([promote]); in place, they keep the type of the tensor written to;
    - matrix products, contractions and convolutions of tensors of different types raise
      RuntimeError; an einsum without contracted index is an element-wise product;
    - [t.to(None)] is [t]; gradients have the type of their parameter;
    - products with Python numbers and with 0-dimensional tensors passed as [alpha] keep the type.

    SIMPLIFICATIONS. Shapes, entries and gradient scales are left out (see Optimizer.v).
    Which operations PyTorch lacks for half precision on some devices is left out. *)

From Coq Require Import List Arith Lia Bool ZArith.
From Verif Require Import Scalar Res Structures Optimizer.
Import ListNotations.

(** [torch.dtype]; [OtherType] stands for all other types (integers, complex, ...).
    utils.py:140-157, optimizer.py:385-403. *)
Inductive dtype : Type := Float16 | BFloat16 | Float32 | Float64 | OtherType (n : nat).

(** Equality of types, as used by [in] and [index] (utils.py:153-156). *)
Definition dtype_eqb (a b : dtype) : bool :=
  match a, b with
  | Float16, Float16 | BFloat16, BFloat16 | Float32, Float32 | Float64, Float64 => true
  | OtherType n, OtherType m => Nat.eqb n m
  | _, _ => false
  end.

(** ** singd/structures/utils.py:140-157 *)

(** L152: [supported]. *)
Definition supported_types : list dtype := [Float16; BFloat16; Float32].

(** [l.index(d)]: ValueError if missing. utils.py:156. *)
Fixpoint index (d : dtype) (l : list dtype) : res nat :=
  match l with
  | [] => Err ValueError
  | x :: l' => if dtype_eqb x d then Ok O else let* i := index d l' in Ok (S i)
  end.

(** Python's [min] of an iterable: ValueError if it is empty. utils.py:156. *)
Definition py_min (l : list nat) : res nat :=
  match l with [] => Err ValueError | x :: l' => Ok (fold_left Nat.min l' x) end.

(** [lowest_precision], utils.py:140-157. *)
Definition lowest_precision (ds : list dtype) : res dtype :=
  if existsb (fun d => negb (existsb (dtype_eqb d) supported_types)) ds then Err NotImplementedError
  else
    let* scores := mapM (fun d => index d supported_types) ds in
    let* i := py_min scores in
    match nth_error supported_types i with Some d => Ok d | None => Err IndexError end.

(** ** Types of PyTorch operations *)

(** Type promotion of an element-wise operation on floating point tensors.
    E.g. structures/base.py:195, diagonal.py:65. *)
Definition promote (a b : dtype) : res dtype :=
  match a, b with
  | OtherType _, _ | _, OtherType _ => Err TypeError
  | Float64, _ | _, Float64 => Ok Float64
  | Float16, Float16 => Ok Float16
  | BFloat16, BFloat16 => Ok BFloat16
  | _, _ => Ok Float32
  end.

(** Product, contraction or convolution. E.g. structures/base.py:103, 209. *)
Definition mm_type (a b : dtype) : res dtype := if dtype_eqb a b then Ok a else Err RuntimeError.

(** [a.add_(b)], [a *= b]. E.g. structures/base.py:195, diagonal.py:148. *)
Definition inplace_type (a b : dtype) : res dtype := let* _ := promote a b in Ok a.

(** ** Structured matrices: the types of their tensors *)
(** The attributes registered in singd/structures/*.py (base.py:59-74). *)
Inductive smt : Type :=
| TDense (mat : dtype)
| TDiag (diag : dtype)
| TBlock (blocks last : dtype)
| THier (A B C D E : dtype)
| TTril (diags : dtype)
| TTriu (diags : dtype)
| TRec (A : smt) (B : dtype) (C : smt).

(** [named_tensors], base.py:76-83 and recursive.py:42-59. *)
Fixpoint t_tensors (s : smt) : list dtype :=
  match s with
  | TDense d | TDiag d | TTril d | TTriu d => [d]
  | TBlock b l => [b; l]
  | THier a b c d e => [a; b; c; d; e]
  | TRec A B C => B :: t_tensors A ++ t_tensors C
  end.

(** [cls.zeros(dim, dtype=d)], [cls.eye(dim, dtype=d)] (base.py:373-414, blockdiagonal.py:347-398,
    diagonal.py:207-246, hierarchical.py:372-427, triltoeplitz.py:215-256, triutoeplitz.py:213-254):
    all tensors are created with type [d] ([supported_eye], utils.py:32-51, converts to it). *)
Fixpoint t_new (c : cls) (d : dtype) : smt :=
  match c with
  | CDense => TDense d
  | CDiag => TDiag d
  | CBlock _ => TBlock d d
  | CHier _ _ => THier d d d d d
  | CTril => TTril d
  | CTriu => TTriu d
  | CRec _ _ _ a c => TRec (t_new a d) d (t_new c d)
  end.

(** [type(self).zeros], [self.from_dense] (dense.py:40-49, diagonal.py:92-105, blockdiagonal.py:113-134,
    hierarchical.py:146-166, triltoeplitz.py:59-83, triutoeplitz.py:59-83, recursive.py:188-205, 326-343):
    slices, sums and traces of one matrix have its type. *)
Fixpoint t_like (s : smt) (d : dtype) : smt :=
  match s with
  | TDense _ => TDense d
  | TDiag _ => TDiag d
  | TBlock _ _ => TBlock d d
  | THier _ _ _ _ _ => THier d d d d d
  | TTril _ => TTril d
  | TTriu _ => TTriu d
  | TRec A _ C => TRec (t_like A d) d (t_like C d)
  end.

(** [to_dense] (dense.py:51-57, diagonal.py:107-113, blockdiagonal.py:136-157, hierarchical.py:168-183,
    triltoeplitz.py:85-97, triutoeplitz.py:85-97, recursive.py:207-220, 345-358): [zeros] of the type
    of the first tensor, or [block_diag], which promotes. *)
Fixpoint t_dense (s : smt) : res dtype :=
  match s with
  | TDense d | TDiag d | TTril d | TTriu d => Ok d
  | TBlock b _ => Ok b
  | THier a _ _ _ _ => Ok a
  | TRec A _ C => let* a := t_dense A in let* c := t_dense C in promote a c
  end.

(** [self @ x] for a tensor (base.py:85-107, diagonal.py:50-65, blockdiagonal.py:159-208,
    hierarchical.py:185-212, triltoeplitz.py:121-142, triutoeplitz.py:121-140). *)
Definition t_matmul (s : smt) (x : dtype) : res dtype :=
  match s with
  | TDense _ | TRec _ _ _ => let* d := t_dense s in mm_type d x
  | TDiag d => promote d x
  | TBlock b l =>
      let* _ := lowest_precision [b; x] in
      let* _ := lowest_precision [l; x] in
      promote b l
  | THier a b c d e =>
      let* t1 := mm_type a x in
      let* t2 := mm_type b x in
      let* t12 := promote t1 t2 in
      let* top := promote t12 t2 in
      let* mid := promote c x in
      let* b1 := mm_type d x in
      let* b2 := mm_type e x in
      let* bot := promote b1 b2 in
      let* tm := promote top mid in
      promote tm bot
  | TTril d | TTriu d => mm_type d x
  end.

(** [self.rmatmat(x)] (base.py:199-209, diagonal.py:115-125, blockdiagonal.py:239-249,
    hierarchical.py:266-293, triltoeplitz.py:151-169, triutoeplitz.py:149-167). *)
Definition t_rmatmat (s : smt) (x : dtype) : res dtype :=
  match s with
  | TDense _ | TRec _ _ _ => let* d := t_dense s in mm_type d x
  | TDiag _ | TBlock _ _ => t_matmul s x
  | THier a b c d e =>
      let* top := mm_type a x in
      let* _ := lowest_precision [c; x] in
      let* m1 := mm_type b x in
      let* m12 := promote m1 c in
      let* m3 := mm_type d x in
      let* mid := promote m12 m3 in
      let* b1 := mm_type b x in
      let* b2 := mm_type e x in
      let* bot := promote b1 b2 in
      let* tm := promote top mid in
      promote tm bot
  | TTril d | TTriu d => let* _ := lowest_precision [d; x] in Ok d
  end.

(** [self @ other] for a matrix of the same class (base.py:85-107, diagonal.py:66-67,
    blockdiagonal.py:210-213, hierarchical.py:214-230, triltoeplitz.py:144-149,
    triutoeplitz.py:142-147); classes are not mixed by the optimizer. *)
Definition t_matmul_s (s o : smt) : res smt :=
  match s, o with
  | TDiag d, TDiag d' => let* r := promote d d' in Ok (TDiag r)
  | TBlock b l, TBlock b' l' => let* rb := mm_type b b' in let* rl := mm_type l l' in Ok (TBlock rb rl)
  | THier a b c d e, THier a' b' c' d' e' =>
      let* A := mm_type a a' in
      let* C := promote c c' in
      let* E := mm_type e e' in
      let* d1 := promote d c' in
      let* d2 := mm_type e d' in
      let* D := promote d1 d2 in
      let* b1 := mm_type a b' in
      let* b2 := promote b c' in
      let* b12 := promote b1 b2 in
      let* b3 := mm_type b d' in
      let* b123 := promote b12 b3 in
      let* b4 := mm_type b e' in
      let* b14 := promote b1 b4 in
      let* B := promote b123 b14 in
      Ok (THier A B C D E)
  | TTril d, TTril d' => let* r := mm_type d d' in Ok (TTril r)
  | TTriu d, TTriu d' => let* r := mm_type d d' in Ok (TTriu r)
  | TDense _, TDense _ | TRec _ _ _, TRec _ _ _ =>
      let* d := t_dense s in
      let* d' := t_dense o in
      let* r := mm_type d d' in
      Ok (t_like s r)
  | _, _ => Err AttributeError
  end.

(** [self.from_inner()] (base.py:270-297, diagonal.py:131-149, blockdiagonal.py:276-279,
    hierarchical.py:309-319). *)
Definition t_inner_none (s : smt) : res smt :=
  match s with
  | TDiag d => Ok (TDiag d)
  | TBlock b l => Ok (TBlock b l)
  | THier a b c d e =>
      let* B := mm_type a b in
      let* cb := promote c b in
      let* C := promote cb d in
      let* ed := mm_type e d in
      let* D := promote b ed in
      let* E := promote e b in
      Ok (THier a B C D E)
  | _ => let* d := t_dense s in Ok (t_like s d)
  end.

(** [self.from_inner(X)] (base.py:270-297, diagonal.py:146-149, blockdiagonal.py:280-303,
    hierarchical.py:320-326). *)
Definition t_inner (s : smt) (x : dtype) : res smt :=
  match s with
  | TDiag d => let* d := inplace_type d x in Ok (TDiag d)
  | _ => let* d := t_rmatmat s x in Ok (t_like s d)
  end.

(** [self.add_(other)], base.py:181-197: in place on every tensor. *)
Definition t_add_ (s o : smt) : res smt :=
  let* _ := mapM (fun '(a, b) => inplace_type a b) (combine (t_tensors s) (t_tensors o)) in Ok s.

(** [self.diag_add_(value)] (base.py:325-343 rebuilds the matrix; in place in diagonal.py:183-193,
    blockdiagonal.py:315-330, hierarchical.py:343-355, triltoeplitz.py:183-193, triutoeplitz.py:181-191). *)
Definition t_diag_add_ (s : smt) : res smt :=
  match s with
  | TDense _ | TRec _ _ _ => let* d := t_dense s in Ok (t_like s d)
  | _ => Ok s
  end.

(** ** The optimizer *)

(** A hooked module with what its types depend on: structures, parameters, and the entries
    [preconditioner_dtype], [T], [alpha1 != 0], [weight_decay != 0], [momentum != 0] of its
    parameter group (optimizer.py:216-230). *)
Record tmod : Type := mkTmod {
  tm_key : nat;
  tm_clsK : cls; tm_clsC : cls;
  tm_weight : nat; tm_bias : option nat;
  tm_pd : option dtype * option dtype;
  tm_T : nat;
  tm_alpha1 : bool; tm_wd : bool; tm_momentum : bool
}.

(** The dictionaries' entries for one module, optimizer.py:246-256. *)
Record tslots : Type := mkTslots {
  ts_K : smt; ts_C : smt;
  ts_mK : option smt; ts_mC : option smt;
  ts_HK : option smt; ts_HC : option smt
}.

(** [p.data] and [self.state[p]["momentum_buffer"]], optimizer.py:799-814. *)
Record tpar : Type := mkTpar { tp_val : dtype; tp_buf : option dtype }.

(** What changes during training, optimizer.py:234-256. *)
Record tstate : Type := mkTstate {
  t_steps : nat;
  t_slots : nat -> tslots;
  t_par : nat -> tpar
}.

(** [o if o is not None else d], optimizer.py:399-400. *)
Definition or_else (o : option dtype) (d : dtype) : dtype := match o with Some d' => d' | None => d end.

(** [_get_preconditioner_dtypes_and_device], optimizer.py:385-403. *)
Definition dtype_K (m : tmod) (st : tstate) : dtype := or_else (fst (tm_pd m)) (tp_val (t_par st (tm_weight m))).
(** [dtype_C] of optimizer.py:385-403. *)
Definition dtype_C (m : tmod) (st : tstate) : dtype := or_else (snd (tm_pd m)) (tp_val (t_par st (tm_weight m))).

(** [_initialize_buffers], optimizer.py:405-428, for one module. *)
Definition t_init_slots (m : tmod) (st : tstate) : tslots :=
  let K := t_new (tm_clsK m) (dtype_K m st) in
  let C := t_new (tm_clsC m) (dtype_C m st) in
  mkTslots K C (if tm_alpha1 m then Some K else None) (if tm_alpha1 m then Some C else None) None None.

(** The constructor, on parameters of the given types, optimizer.py:233-261. *)
Definition t_init (ms : list tmod) (par : nat -> dtype) : tstate :=
  let st := mkTstate 0 (fun _ => mkTslots (TDense Float32) (TDense Float32) None None None None)
                     (fun p => mkTpar (par p) None) in
  mkTstate 0 (fold_left (fun f m => upd f (tm_key m) (t_init_slots m st)) ms (t_slots st)) (t_par st).

(** [_accumulate_H_terms], optimizer.py:578-635: inputs of type [x], output gradients of type
    [g], which are converted to the preconditioners' types (L598, 603); [process_input] and
    [process_grad_output] keep types (utils.py). *)
Definition t_accumulate (m : tmod) (x g : dtype) : SM tstate unit := fun st =>
  let s := t_slots st (tm_key m) in
  match (let a := dtype_K m st in
         let go := dtype_C m st in
         let* HK := t_inner (ts_K s) a in
         let* HC := t_inner (ts_C s) go in
         let* HK := match ts_HK s with Some h => t_add_ h HK | None => Ok HK end in
         let* HC := match ts_HC s with Some h => t_add_ h HC | None => Ok HC end in
         Ok (mkTslots (ts_K s) (ts_C s) (ts_mK s) (ts_mC s) (Some HK) (Some HC))) with
  | Ok s' => (mkTstate (t_steps st) (upd (t_slots st) (tm_key m) s') (t_par st), Ok tt)
  | Err e => (st, Err e)
  end.

(** The new term of a momentum matrix, optimizer.py:505-520. *)
Definition t_momentum (P : smt) (d : dtype) (H PtP : smt) : res smt :=
  let m := t_like P d in
  let* m := t_add_ m H in
  let* m := t_add_ m PtP in
  t_diag_add_ m.

(** [_update_preconditioner], optimizer.py:473-546, on the module's entries; the state is kept
    as it is at the point of an exception. *)
Definition t_update (m : tmod) (dK dC : dtype) : SM tslots unit :=
  let! s := getS in
  let K := ts_K s in
  let C := ts_C s in
  let! HK := lift (lookup (ts_HK s)) in
  let! _ := modify (fun s => mkTslots (ts_K s) (ts_C s) (ts_mK s) (ts_mC s) None (ts_HC s)) in
  let! HC := lift (lookup (ts_HC s)) in
  let! _ := modify (fun s => mkTslots (ts_K s) (ts_C s) (ts_mK s) (ts_mC s) None None) in
  let! KtK := lift (t_inner_none K) in
  let! CtC := lift (t_inner_none C) in
  let! mK := lift (t_momentum K dK HK KtK) in
  let! mC := lift (t_momentum C dC HC CtC) in
  let! '(mK, mC) :=
    (if tm_alpha1 m then
       let! oC := lift (lookup (ts_mC s)) in
       let! mC := lift (t_add_ mC oC) in
       let! oK := lift (lookup (ts_mK s)) in
       let! mK := lift (t_add_ mK oK) in
       let! _ := modify (fun s => mkTslots (ts_K s) (ts_C s) (Some mK) (Some mC) (ts_HK s) (ts_HC s)) in
       ret (mK, mC)
     else ret (mK, mC)) in
  let! P := lift (t_matmul_s K mK) in
  let! K' := lift (t_add_ K P) in
  let! _ := modify (fun s => mkTslots K' (ts_C s) (ts_mK s) (ts_mC s) (ts_HK s) (ts_HC s)) in
  let! P := lift (t_matmul_s C mC) in
  let! C' := lift (t_add_ C P) in
  modify (fun s => mkTslots (ts_K s) C' (ts_mK s) (ts_mC s) (ts_HK s) (ts_HC s)).

(** [_compute_natural_gradient], optimizer.py:682-713: type of the natural gradient. Here the
    entries of [preconditioner_dtype] are used as they are (L701): None means no conversion. *)
Definition t_natural_gradient (m : tmod) (K C : smt) (w : dtype) (b : option dtype) : res dtype :=
  let* g := match b with None => Ok w | Some b => promote w b end in
  let* t := t_rmatmat K (or_else (fst (tm_pd m)) g) in
  let* t := t_matmul K t in
  let* u := t_rmatmat C (or_else (snd (tm_pd m)) t) in
  let* u := t_matmul C u in
  Ok g.

(** optimizer.py:797-814 for one parameter and a direction of type [d]. *)
Definition t_param_step (m : tmod) (d : dtype) : SM tpar unit :=
  let! p := getS in
  let! d := lift (if tm_wd m then inplace_type d (tp_val p) else Ok d) in
  if tm_momentum m then
    let buf := match tp_buf p with Some b => b | None => tp_val p end in
    let! _ := modify (fun p => mkTpar (tp_val p) (Some buf)) in
    let! buf := lift (inplace_type buf d) in
    let! v := lift (inplace_type (tp_val p) buf) in
    modify (fun p => mkTpar v (Some buf))
  else
    let! v := lift (inplace_type (tp_val p) d) in
    modify (fun p => mkTpar v (tp_buf p)).

(** Running a method on the entries of one module, or on one parameter. optimizer.py:456-546, 578-635. *)
Definition on_tslots (k : nat) (f : SM tslots unit) : SM tstate unit := fun st =>
  let '(s', r) := f (t_slots st k) in (mkTstate (t_steps st) (upd (t_slots st) k s') (t_par st), r).
(** The same for one parameter, optimizer.py:797-814. *)
Definition on_tpar (k : nat) (f : SM tpar unit) : SM tstate unit := fun st =>
  let '(p', r) := f (t_par st k) in (mkTstate (t_steps st) (t_slots st) (upd (t_par st) k p'), r).

(** [steps % T == 0], optimizer.py:467, 574. *)
Definition t_due (m : tmod) (steps : nat) : res bool :=
  if Nat.eqb (tm_T m) 0 then Err ZeroDivisionError else Ok (Nat.eqb (steps mod tm_T m) 0).

(** One iteration of the loop of [_step], optimizer.py:785-814. *)
Definition t_step_module (m : tmod) : SM tstate unit :=
  let! st := getS in
  let! due := lift (t_due m (t_steps st)) in
  let! _ := (if due then on_tslots (tm_key m) (t_update m (dtype_K m st) (dtype_C m st)) else ret tt) in
  let! st := getS in
  let s := t_slots st (tm_key m) in
  let! d := lift (t_natural_gradient m (ts_K s) (ts_C s) (tp_val (t_par st (tm_weight m)))
                    (option_map (fun b => tp_val (t_par st b)) (tm_bias m))) in
  let! _ := on_tpar (tm_weight m) (t_param_step m d) in
  match tm_bias m with None => ret tt | Some b => on_tpar b (t_param_step m d) end.

(** [step], optimizer.py:732-781; [skip]: infinities were found. *)
Definition t_step (ms : list tmod) (skip : bool) : SM tstate unit :=
  let! _ := (if skip then
               modify (fun st => mkTstate (t_steps st)
                 (fun k => let s := t_slots st k in
                           if existsb (fun m => Nat.eqb (tm_key m) k) ms
                           then mkTslots (ts_K s) (ts_C s) (ts_mK s) (ts_mC s) None None else s)
                 (t_par st))
             else forS t_step_module ms) in
  modify (fun st => mkTstate (S (t_steps st)) (t_slots st) (t_par st)).

(** What happens to the optimizer: a backward pass through a module with inputs and output
    gradients of any type (optimizer.py:548-576, 578-635), or a call of [step]. *)
Inductive tevent : Type := TBackward (m : tmod) (x g : dtype) | TStep (skip : bool).

(** One call, optimizer.py:574-576, 732. *)
Definition t_event (ms : list tmod) (e : tevent) : SM tstate unit :=
  match e with
  | TBackward m x g =>
      let! st := getS in
      let! due := lift (t_due m (t_steps st)) in
      if due then t_accumulate m x g else ret tt
  | TStep skip => t_step ms skip
  end.

(** A history: final state and what the calls returned or raised.
    The calls of optimizer.py:548-576, 578-635, 732-781. *)
Fixpoint t_run (ms : list tmod) (es : list tevent) (st : tstate) : tstate * list (res unit) :=
  match es with
  | [] => (st, [])
  | e :: es' => let '(st', r) := t_event ms e st in let '(st'', rs) := t_run ms es' st' in (st'', r :: rs)
  end.
