(** Specification vocabulary for the constructor: what a call hands over, stated on the arguments
    alone.  Not a model of code. *)

From Coq Require Import List Arith Bool ZArith.
From Verif Require Import Scalar Res Tensor Structures OptimUtils Optimizer Construct OptFacts.
Import ListNotations.

Section CtorSpec.
Context {SC : Scalar}.
Open Scope F_scope.

(** Parameter [p] is handed over in the [i]-th parameter group: with [params=None] there is one
    group with the trainable parameters of the supported leaf layers. *)
Definition handed (a : args) (i p : nat) : Prop :=
  match a_params a with
  | PNone => i = O /\ exists n, In n (a_model a) /\ n_leaf n = true /\ is_supported (n_mod n) = true /\ In p (n_params n) /\ a_requires_grad a p = true
  | PList ps => i = O /\ In p ps
  | PGroups l => exists ps f, nth_error l i = Some (ps, f) /\ In p ps
  end.

(** The value of a number: an int is a number of ones, or minus that. *)
Definition value (x : pynum) : F :=
  match x with
  | PyInt z => if Z.leb 0 z then fofnat (Z.to_nat z) else - fofnat (Z.to_nat (- z))
  | PyFloat f => f
  | PyCallable f => f O
  end.
(** A number is a constant schedule; a callable is asked in every step. *)
Definition schedule (x : pynum) : lrcov := match x with PyCallable f => LrSched f | PyInt _ | PyFloat _ => LrConst (value x) end.

(** Hyper-parameters a group has unless it says otherwise: the arguments of the call of the same name. *)
Definition call_settings (a : args) : group :=
  {| g_params := []; g_lr := value (a_lr a); g_momentum := value (a_momentum a); g_damping := value (a_damping a); g_alpha1 := value (a_alpha1 a);
     g_wd := value (a_wd a); g_T := a_T a; g_loss := a_loss a; g_lr_cov := schedule (a_lr_cov a); g_structs := a_structs a;
     g_approx := a_approx a; g_kfac_like := a_kfac_like a; g_normalize := a_normalize a |}.

(** Hyper-parameters of the [i]-th group: the call's arguments, overridden by the group's entries. *)
Definition settings (a : args) (i : nat) : option group :=
  match a_params a with
  | PGroups l => option_map (fun pf => snd pf (call_settings a)) (nth_error l i)
  | _ => match i with O => Some (call_settings a) | S _ => None end
  end.

(** There is something to train. *)
Definition something (a : args) : Prop :=
  match a_params a with PGroups l => l <> [] | _ => exists p, handed a 0 p end.

(** No hyper-parameter of the call is a negative float. *)
Definition numbers_ok (a : args) : Prop :=
  forall x f, In x [a_lr a; a_lr_cov a; a_alpha1 a; a_momentum a; a_wd a] -> x = PyFloat f -> fltb f 0 = false.

(** No parameter is in two groups. *)
Definition once (a : args) : Prop := forall i j p, handed a i p -> handed a j p -> i = j.

(** kfac_approx and loss_average of every group are documented values. *)
Definition known_values (a : args) : Prop := forall i g, settings a i = Some g -> g_approx g <> ApproxOther /\ g_loss g <> LossOther.

(** The parameters of every supported leaf layer are in one group. *)
Definition together (a : args) : Prop :=
  forall n p r i j, In n (a_model a) -> n_leaf n = true -> is_supported (n_mod n) = true ->
    In p (n_params n) -> In r (n_params n) -> handed a i p -> handed a j r -> i = j.

Definition valid_call (a : args) : Prop :=
  a_wrapped a = false /\ numbers_ok a /\ something a /\ once a /\ known_values a /\ together a.

(** A module gets hooks: it is supported and one of its parameters was handed over. *)
Definition trained (a : args) (m : modul) : Prop :=
  exists n p i, In n (a_model a) /\ n_mod n = m /\ is_supported m = true /\ In p (n_params n) /\ handed a i p.

(** A module can get preconditioners: its weight was handed over in a group with supported structures. *)
Definition buildable (a : args) (m : modul) : Prop :=
  exists i g, handed a i (m_weight m) /\ settings a i = Some g /\ fst (g_structs g) <> None /\ snd (g_structs g) <> None.

(** All layers have positive sizes; structure strings are unknown ([None]) or among the supported ones. *)
Definition sizes_ok (a : args) : Prop :=
  (forall n dK dC, In n (a_model a) -> preconditioner_dims (m_layer (n_mod n)) = Ok (dK, dC) -> dK <> O /\ dC <> O) /\
  (forall i g c, settings a i = Some g -> fst (g_structs g) = Some c \/ snd (g_structs g) = Some c -> In c supported_structures).

(** [gg] has the hyper-parameters [g], except that KFAC-like groups have no Riemannian momentum. *)
Definition same_hyper (g gg : group) : Prop :=
  g_lr gg = g_lr g /\ g_momentum gg = g_momentum g /\ g_damping gg = g_damping g /\ g_wd gg = g_wd g /\
  g_T gg = g_T g /\ g_loss gg = g_loss g /\ g_lr_cov gg = g_lr_cov g /\ g_structs gg = g_structs g /\
  g_approx gg = g_approx g /\ g_kfac_like gg = g_kfac_like g /\ g_normalize gg = g_normalize g /\
  g_alpha1 gg = if g_kfac_like g then 0 else g_alpha1 g.

End CtorSpec.
