(** The warnings about naive implementations, singd/structures/base.py:41-53, 212-228: a method that a class does
    not define itself is the one of the base class, which first warns.  The warnings are added to the model by
    running the same code once more while collecting them; NaiveFacts.v proves that the results stay the same.
    SIMPLIFICATION: a warning is replaced by what its text names (the class and the method); Python's filter, which
    by default shows a repeated warning once, is not modelled. *)

From Coq Require Import List Arith Bool ZArith.
From Verif Require Import Scalar Res Tensor Structures OptimUtils Optimizer Construct.
Import ListNotations.

(** The methods of the base class that warn, by the names they pass: __matmul__, __mul__, __add__, rmatmat,
    from_inner, from_mat_inner, from_inner2, trace (of average_trace), diag_add_, frobenius_norm, zero (of zeros),
    eye.  base.py:99, 152, 178, 208, 282, 296, 312, 322, 334, 366, 391, 413. *)
Inductive meth : Type :=
| Matmul | Mul | Add | Rmatmat | FromInner | FromMatInner | FromInner2 | Trace | DiagAdd | Frobenius | Zero | Eye.

(** Equality of names, base.py:223. *)
Definition meth_eq_dec (a b : meth) : {a = b} + {a <> b}.
Proof. decide equality. Defined.

(** "Calling naive implementation of {cls_name}.{fn_name}", base.py:225-228. *)
Definition nwarn : Type := cls * meth.

(** [WARN_NAIVE], base.py:52, dense.py:23. *)
Definition warn_flag (c : cls) : bool := match c with CDense => false | _ => true end.

(** [WARN_NAIVE_EXCEPTIONS], base.py:53, triltoeplitz.py:42-45, triutoeplitz.py:42-45. *)
Definition exceptions (c : cls) : list meth :=
  match c with CTril | CTriu => [FromInner; FromInner2] | _ => [] end.

(** [_warn_naive_implementation], base.py:212-228. *)
Definition warn_naive (c : cls) (m : meth) : list nwarn :=
  if warn_flag c && negb (if in_dec meth_eq_dec m (exceptions c) then true else false) then [(c, m)] else [].

(** The methods a class defines itself: diagonal.py:50-246, blockdiagonal.py:159-398, hierarchical.py:185-427,
    triltoeplitz.py:99-256, triutoeplitz.py:99-254, recursive.py:70-82; dense.py defines none of them. *)
Definition own (c : cls) : list meth :=
  match c with
  | CDense => []
  | CDiag => [Matmul; Add; Mul; Rmatmat; FromInner; FromMatInner; FromInner2; Trace; DiagAdd; Frobenius; Zero; Eye]
  | CBlock _ => [Matmul; Add; Mul; Rmatmat; FromInner; FromMatInner; Trace; DiagAdd; Frobenius; Zero; Eye]
  | CHier _ _ => [Matmul; Add; Mul; Rmatmat; FromInner; Trace; DiagAdd; Frobenius; Zero; Eye]
  | CTril | CTriu => [Add; Mul; Matmul; Rmatmat; Trace; DiagAdd; Frobenius; Zero; Eye]
  | CRec _ _ _ _ _ => [Frobenius]
  end.

(** What a call of method m of class c warns itself: nothing if the class defines it, base.py:212-228. *)
Definition naive (c : cls) (m : meth) : list nwarn :=
  if in_dec meth_eq_dec m (own c) then [] else warn_naive c m.

(** ** Results together with warnings *)

(** A call that returns or raises after some warnings, e.g. base.py:270-284. *)
Definition WR (A : Type) : Type := list nwarn * res A.
(** Sequencing, e.g. base.py:282-284. *)
Definition wbind {A B} (x : WR A) (f : A -> WR B) : WR B :=
  match x with
  | (w, Ok a) => let '(w', r) := f a in (w ++ w', r)
  | (w, Err e) => (w, Err e)
  end.
(** Code that does not warn, e.g. base.py:163-166. *)
Definition silent {A} (r : res A) : WR A := ([], r).
(** A method without further warnings inside, e.g. base.py:207-209. *)
Definition called {A} (c : cls) (m : meth) (r : res A) : WR A := (naive c m, r).

Notation "'letw' x ':=' a 'in' b" := (wbind a (fun x => b))
  (at level 200, x name, a at level 100, b at level 200, right associativity).
Notation "'letw' ' p ':=' a 'in' b" := (wbind a (fun p => b))
  (at level 200, p pattern, a at level 100, b at level 200, right associativity).

(** The same for code that changes a state, e.g. optimizer.py:456-546. *)
Definition WM (S A : Type) : Type := S -> list nwarn * (S * res A).
(** Sequencing, e.g. optimizer.py:488-520. *)
Definition wsbind {S A B} (x : WM S A) (f : A -> WM S B) : WM S B :=
  fun s => match x s with
           | (w, (s', Ok a)) => let '(w', r) := f a s' in (w ++ w', r)
           | (w, (s', Err e)) => (w, (s', Err e))
           end.
(** Code that does not warn, e.g. optimizer.py:797-814. *)
Definition quiet {S A} (x : SM S A) : WM S A := fun s => ([], x s).
(** Calling methods of structured matrices, e.g. optimizer.py:488-489. *)
Definition wlift {S A} (x : WR A) : WM S A := fun s => (fst x, (s, snd x)).
(** A loop, optimizer.py:785. *)
Fixpoint wforS {S A} (f : A -> WM S unit) (l : list A) : WM S unit :=
  match l with [] => quiet (ret tt) | a :: l' => wsbind (f a) (fun _ => wforS f l') end.

Notation "'lets' x ':=' a 'in' b" := (wsbind a (fun x => b))
  (at level 200, x name, a at level 100, b at level 200, right associativity).
Notation "'lets' ' p ':=' a 'in' b" := (wsbind a (fun p => b))
  (at level 200, p pattern, a at level 100, b at level 200, right associativity).

Section Naive.
Context {SC : Scalar}.
Open Scope F_scope.

(** ** The methods *)

(** [__matmul__] with a tensor, base.py:85-104. *)
Definition w_matmul_t (s : smat) (x : tensor) : WR tensor := called (cls_of s) Matmul (matmul_t s x).
(** [__matmul__] with a matrix, base.py:85-107. *)
Definition w_matmul_s (s o : smat) : WR smat := called (cls_of s) Matmul (matmul_s s o).
(** [__mul__], base.py:143-153. *)
Definition w_mul (s : smat) (x : F) : WR smat := called (cls_of s) Mul (mul s x).
(** [__add__], base.py:169-179. *)
Definition w_add (s o : smat) : WR smat := called (cls_of s) Add (add s o).
(** [rmatmat], base.py:199-209. *)
Definition w_rmatmat (s : smat) (x : tensor) : WR tensor := called (cls_of s) Rmatmat (rmatmat s x).
(** [from_mat_inner], base.py:286-297. *)
Definition w_from_mat_inner (c : cls) (x : tensor) : WR smat := called c FromMatInner (from_mat_inner c x).
(** [from_inner2], base.py:303-314. *)
Definition w_from_inner2 (s : smat) (x : tensor) : WR smat := called (cls_of s) FromInner2 (from_inner2 s x).
(** [average_trace], base.py:316-323. *)
Definition w_average_trace (s : smat) : WR F := called (cls_of s) Trace (average_trace s).
(** [diag_add_], base.py:325-343. *)
Definition w_diag_add_ (s : smat) (x : F) : WR smat := called (cls_of s) DiagAdd (diag_add_ s x).
(** [zeros], base.py:372-392. *)
Definition w_zeros (c : cls) (n : nat) : WR smat := called c Zero (c_zeros c n).
(** [eye], base.py:394-414. *)
Definition w_eye (c : cls) (n : nat) : WR smat := called c Eye (c_eye c n).
(** [frobenius_norm]: base.py:360-367; recursive.py:70-82 calls it for the parts. *)
Fixpoint w_frobenius_norm (s : smat) : WR F :=
  match s with
  | MRec _ _ _ _ _ A B C =>
      letw fA := w_frobenius_norm A in
      letw fC := w_frobenius_norm C in
      silent (Ok (fsqrt (tsum (t_sq B) + (fA * fA + fC * fC))))
  | _ => called (cls_of s) Frobenius (frobenius_norm s)
  end.
(** [from_inner]: the one of the base class warns and calls [rmatmat] and [from_mat_inner] of the class,
    base.py:270-284; those of the classes call only methods the classes define (blockdiagonal.py:255-281 and
    hierarchical.py:299-327 their own [rmatmat], blockdiagonal.py:281 its own [from_mat_inner]). *)
Definition w_from_inner (s : smat) (X : option tensor) : WR smat :=
  match s with
  | MDiag _ | MHier _ _ _ _ _ _ _ => called (cls_of s) FromInner (from_inner s X)
  | MBlock _ _ _ =>
      match X with
      | None => called (cls_of s) FromInner (from_inner s X)
      | Some x => letw r := w_rmatmat s x in w_from_mat_inner (cls_of s) r
      end
  | _ =>
      letw _ := called (cls_of s) FromInner (Ok tt) in
      letw S_dense := match X with
                      | None => silent (let* d := to_dense s in Ok (tr d))
                      | Some x => w_rmatmat s x
                      end in
      w_from_mat_inner (cls_of s) S_dense
  end.

(** ** The optimizer *)

(** optimizer.py:488-520. *)
Definition w_new_momenta (g : group) (l : layer) (K C HK HC : smat) (unscaling : F) : WR (smat * smat) :=
  letw K_tK := w_from_inner K None in
  letw C_tC := w_from_inner C None in
  let scale := (1 / two) * (if g_normalize g then 1 - g_alpha1 g else 1) in
  letw '(dim_K, dim_C) := silent (preconditioner_dims l) in
  letw m_K := w_zeros (cls_of K) dim_K in
  letw a := (if g_kfac_like g then silent (Ok 1) else letw t := w_average_trace HC in silent (Ok (unscaling * t))) in
  letw m_K := silent (add_ m_K HK a) in
  letw a := (if g_kfac_like g then silent (Ok 1) else w_average_trace C_tC) in
  letw m_K := silent (add_ m_K K_tK (g_damping g * a)) in
  letw m_K := w_diag_add_ m_K (- (1)) in
  let m_K := mul_ m_K scale in
  letw m_C := w_zeros (cls_of C) dim_C in
  letw a := (if g_kfac_like g then silent (Ok unscaling) else letw t := w_average_trace HK in silent (Ok (unscaling * t))) in
  letw m_C := silent (add_ m_C HC a) in
  letw a := (if g_kfac_like g then silent (Ok 1) else w_average_trace K_tK) in
  letw m_C := silent (add_ m_C C_tC (g_damping g * a)) in
  letw m_C := w_diag_add_ m_C (- (1)) in
  let m_C := mul_ m_C scale in
  silent (Ok (m_K, m_C)).

(** [_update_preconditioner], optimizer.py:456-546. *)
Definition w_update_slots (g : group) (l : layer) (steps : nat) (scales : list (Z * F)) : WM slots unit :=
  lets now := quiet (lift (is_update_step g steps)) in
  if negb now then quiet (ret tt)
  else
    lets K := quiet (entry sl_K) in
    lets C := quiet (entry sl_C) in
    lets H_K := quiet (entry sl_HK) in
    lets _ := quiet (modify (set_HK None)) in
    lets H_C := quiet (entry sl_HC) in
    lets _ := quiet (modify (set_HC None)) in
    lets prev := quiet (lift (get_grad_scale scales (Z.of_nat steps - 1))) in
    lets cur := quiet (lift (get_grad_scale scales (Z.of_nat steps))) in
    lets unscaling := quiet (lift (grad_unscaling prev cur)) in
    lets '(m_K, m_C) := wlift (w_new_momenta g l K C H_K H_C unscaling) in
    lets '(m_K, m_C) := quiet (apply_momenta g m_K m_C) in
    lets beta_K := quiet (lift (normalized_lr g (lr_cov_at g steps) m_K)) in
    lets beta_C := quiet (lift (normalized_lr g (lr_cov_at g steps) m_C)) in
    lets P := wlift (w_matmul_s K m_K) in
    lets K' := quiet (lift (add_ K P (- beta_K))) in
    lets _ := quiet (modify (set_K (Some K'))) in
    lets P := wlift (w_matmul_s C m_C) in
    lets C' := quiet (lift (add_ C P (- beta_C))) in
    quiet (modify (set_C (Some C'))).

(** [_update_preconditioner], optimizer.py:456-546. *)
Definition w_update_preconditioner (c : cfg) (m : modul) : WM state unit :=
  lets st := quiet getS in
  lets g := quiet (lift (get_group c (s_groups st) m)) in
  fun st' => let '(w, (s, r)) := w_update_slots g (m_layer m) (s_steps st) (s_scales st) (s_slots st' (m_key m)) in
             (w, (set_slots (upd (s_slots st') (m_key m) s) st', r)).

(** [_accumulate_H_terms] up to L622. *)
Definition w_local_H (g : group) (l : layer) (prev : res F) (x gout : tensor) (s : slots) : WR (smat * smat) :=
  letw a := silent (process_input x l (g_approx g)) in
  letw go := silent (process_grad_output gout l (g_loss g) (g_approx g)) in
  letw K := silent (lookup (sl_K s)) in
  letw C := silent (lookup (sl_C s)) in
  letw H_K := w_from_inner K (Some (tr a)) in
  letw prev := silent prev in
  letw go :=
    silent (if feqb prev 1 then Ok go
            else if fltb prev 0 then Err ValueError
            else Ok (t_divs go (fsqrt prev))) in
  letw H_C := w_from_inner C (Some (tr go)) in
  silent (Ok (H_K, H_C)).

(** [_accumulate_H_terms], optimizer.py:578-635. *)
Definition w_accumulate_H_terms (c : cfg) (m : modul) (x gout : tensor) : WM state unit :=
  lets st := quiet getS in
  lets g := quiet (lift (get_group c (s_groups st) m)) in
  lets '(H_K, H_C) := wlift (w_local_H g (m_layer m) (get_grad_scale (s_scales st) (Z.of_nat (s_steps st) - 1)) x gout (s_slots st (m_key m))) in
  quiet (on_slots (m_key m) (store_H H_K H_C)).

(** optimizer.py:682-710. *)
Definition w_nat_grad_matrix (l : layer) (wg : res tensor) (bg : option (res tensor)) (cur : res F) (K C : res smat) : WR tensor :=
  letw wg := silent wg in
  letw bg := silent (match bg with None => Ok None | Some b => let* b := b in Ok (Some b) end) in
  letw G := silent (grad_matrix l wg bg) in
  letw cur := silent cur in
  let G := if feqb cur 1 then G else t_divs G cur in
  letw K := silent K in
  letw t := w_rmatmat K (tr G) in
  letw t := w_matmul_t K t in
  letw C := silent C in
  letw u := w_rmatmat C (tr t) in
  w_matmul_t C u.

(** [_compute_natural_gradient], optimizer.py:666-730. *)
Definition w_compute_natural_gradient (c : cfg) (m : modul) : WM state (tensor * option tensor) :=
  lets st := quiet getS in
  let s := s_slots st (m_key m) in
  lets N := wlift (w_nat_grad_matrix (m_layer m) (grad_data (s_par st (m_weight m)))
                     (option_map (fun b => grad_data (s_par st b)) (m_bias m))
                     (get_grad_scale (s_scales st) (Z.of_nat (s_steps st)))
                     (lookup (sl_K s)) (lookup (sl_C s))) in
  quiet (lift (split_matrix (m_layer m) N)).

(** One iteration of the loop in [_step], optimizer.py:785-814. *)
Definition w_step_module (c : cfg) (m : modul) : WM state unit :=
  lets _ := w_update_preconditioner c m in
  lets '(w, b) := w_compute_natural_gradient c m in
  lets st := quiet getS in
  lets g := quiet (lift (get_group c (s_groups st) m)) in
  lets _ := quiet (on_par (m_weight m) (param_step g w)) in
  quiet (match m_bias m, b with
         | Some p, Some d => on_par p (param_step g d)
         | _, _ => ret tt
         end).

(** [step], optimizer.py:732-781. *)
Definition w_step (c : cfg) (closure : bool) : WM state unit :=
  if closure then quiet (raise NotImplementedError)
  else
    lets _ := quiet ensure_scale in
    lets st := quiet getS in
    lets _ :=
      (if s_inf st then
         quiet (let! _ := modify (fun st => set_log (s_log st ++ [WarnInf]) st) in
                modify (drop_H c))
       else wforS (w_step_module c) (c_mods c)) in
    quiet (modify (fun st =>
      let st := set_steps (Datatypes.S (s_steps st)) st in
      set_scales (remove_used (s_scales st) (s_steps st)) st)).

(** The methods and hooks of optimizer.py:548-576, 578-635, 732-781, 836-854. *)
Definition w_event_op (c : cfg) (e : event) : WM state unit :=
  match e with
  | EBackward out g =>
      lets st := quiet getS in
      match s_pend st out with
      | Some (m, x) => w_accumulate_H_terms c m x g
      | None => quiet (ret tt)
      end
  | EStep closure => w_step c closure
  | _ => quiet (event_op c e)
  end.

(** [_initialize_buffers] for one module, optimizer.py:413-428. *)
Definition w_init_slots (c : cfg) (gs : list group) (m : modul) : WR slots :=
  letw '(dim_K, dim_C) := silent (preconditioner_dims (m_layer m)) in
  letw g := silent (get_group c gs m) in
  letw K_cls := silent (lookup (fst (g_structs g))) in
  letw C_cls := silent (lookup (snd (g_structs g))) in
  letw K := w_eye K_cls dim_K in
  letw C := w_eye C_cls dim_C in
  if feqb (g_alpha1 g) 0 then silent (Ok (mkSlots (Some K) (Some C) None None None None))
  else
    letw m_K := w_zeros K_cls dim_K in
    letw m_C := w_zeros C_cls dim_C in
    silent (Ok (mkSlots (Some K) (Some C) (Some m_K) (Some m_C) None None)).

(** The loop of [_initialize_buffers], optimizer.py:413-428. *)
Fixpoint w_foldM {A B} (f : A -> B -> WR A) (a : A) (l : list B) : WR A :=
  match l with [] => silent (Ok a) | x :: l' => letw a' := f a x in w_foldM f a' l' end.
(** [_initialize_buffers], optimizer.py:405-428. *)
Definition w_initialize_buffers (c : cfg) (gs : list group) : WR (nat -> slots) :=
  w_foldM (fun d m => letw s := w_init_slots c gs m in silent (Ok (upd d (m_key m) s))) (fun _ => no_slots) (c_mods c).

(** The constructor, optimizer.py:82-266. *)
Definition w_ctor (a : args) (par : nat -> pslot) : WM (list nat) (cfg * state) :=
  lets _ := quiet (lift (check (negb (a_wrapped a)) TypeError)) in
  lets _ := quiet (lift (check (forallb (fun x => negb (bad_number x))
                    [a_lr a; a_lr_cov a; a_alpha1 a; a_momentum a; a_wd a]) ValueError)) in
  lets gs := quiet (lift (base_init a)) in
  lets '(gs, p2g) := quiet (lift (check_param_groups (a_model a) gs)) in
  let mods := hooked (a_model a) gs in
  lets _ := quiet (modify (fun hooks => hooks ++ map m_key mods)) in
  let c := mkCfg mods p2g in
  lets d := wlift (w_initialize_buffers c gs) in
  quiet (ret (c, mkState 0 [((-1)%Z, a_init_scale a)] d (fun p => mkP (p_val (par p)) (p_grad (par p)) None)
            gs None false (fun _ => None) [])).

(** The warnings of a call of the optimizer, base.py:212-228, optimizer.py:548-576, 578-635, 732-781. *)
Definition naive_warnings (c : cfg) (e : event) (st : state) : list nwarn := fst (w_event_op c e st).
(** The warnings of a history, base.py:212-228. *)
Fixpoint all_naive_warnings (c : cfg) (es : list event) (st : state) : list nwarn :=
  match es with [] => [] | e :: es' => let '(w, (st', _)) := w_event_op c e st in w ++ all_naive_warnings c es' st' end.

End Naive.
