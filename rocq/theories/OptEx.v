(** A small rational training run used by the examples beside the optimizer theorems.  Not a model
    of code. *)

From Coq Require Import List Arith ZArith QArith Qcanon Bool.
From Verif Require Import Scalar Res Tensor Structures OptimUtils Optimizer Construct QEx.
Import ListNotations.
Open Scope nat_scope.

(** Linear(2, 1) with bias (parameters 0 and 1) and Linear(1, 2) without (parameter 2). *)
Definition ex_m1 : modul := mkMod 0 (Linear 2 1 true) 0 (Some 1).
Definition ex_m2 : modul := mkMod 1 (Linear 1 2 false) 2 None.
Definition ex_model : list node :=
  [mkNode (mkMod 7 OtherModule 9 None) false [0; 1; 2]; mkNode ex_m1 true [0; 1]; mkNode ex_m2 true [2]].

(** Values that keep all roots rational: one sample per batch. *)
Definition ex_x1 : @tensor Q_scalar := qt [1; 2] [3; -1]%Z.
Definition ex_g1 : @tensor Q_scalar := qt [1; 1] [2]%Z.
Definition ex_x2 : @tensor Q_scalar := qt [1; 1] [5]%Z.
Definition ex_g2 : @tensor Q_scalar := qt [1; 2] [1; -2]%Z.

Definition ex_par (p : nat) : @pslot Q_scalar :=
  match p with
  | 0 => @mkP Q_scalar (qt [1; 2] [1; 2]%Z) None None
  | 1 => @mkP Q_scalar (qt [1] [-1]%Z) None None
  | _ => @mkP Q_scalar (qt [2; 1] [4; 0]%Z) None None
  end.

(** Arguments of the constructor with the most interesting entries open. *)
Definition ex_args (params : @params_arg Q_scalar) (alpha1 momentum wd : Qc) (T : nat)
    (structs : option cls * option cls) (kfac_like normalize : bool) (init : Qc) : @args Q_scalar :=
  @mkArgs Q_scalar false ex_model (fun _ => true) params
    (PyFloat (qr 1 10 : @F Q_scalar)) (PyFloat (momentum : @F Q_scalar)) (PyFloat (qr 1 4 : @F Q_scalar))
    (PyFloat (alpha1 : @F Q_scalar)) (PyFloat (wd : @F Q_scalar)) T LossBatch
    (PyFloat (qr 1 2 : @F Q_scalar)) structs Expand true kfac_like init normalize.

Definition dense2 : option cls * option cls := (Some CDense, Some CDense).
Definition ex_std : @args Q_scalar := ex_args PNone (qr 1 2) (qr 1 2) (qr 1 8) 2 dense2 false false (q 1).

Definition no_state : @state Q_scalar :=
  mkState 0 [] (fun _ => no_slots) ex_par [] None false (fun _ => None) [].
Definition built (a : @args Q_scalar) : cfg * @state Q_scalar :=
  match snd (ctor a ex_par []) with Ok r => r | Err _ => (mkCfg [] (fun _ => None), no_state) end.
Definition built_ok (a : @args Q_scalar) : bool := is_ok (snd (ctor a ex_par [])).

Lemma built_spec a : built_ok a = true -> snd (ctor a ex_par []) = Ok (fst (built a), snd (built a)).
Proof. unfold built_ok, built. destruct (snd (ctor a ex_par [])) as [[c st]|]; [reflexivity|discriminate]. Qed.

(** One iteration: forward and backward through both layers with all gradients scaled by [s]. *)
Definition ex_iter (s : Qc) : list (@event Q_scalar) :=
  let sc (t : @tensor Q_scalar) := @t_scale Q_scalar s t in
  [ @EForward Q_scalar ex_m1 ex_x1 true 10; @EForward Q_scalar ex_m2 ex_x2 true 11;
    @EBackward Q_scalar 11 (sc ex_g2); @EBackward Q_scalar 10 (sc ex_g1);
    @EGrad Q_scalar 0 (Some (sc (qt [1; 2] [6; -2]%Z))); @EGrad Q_scalar 1 (Some (sc (qt [1] [2]%Z)));
    @EGrad Q_scalar 2 (Some (sc (qt [2; 1] [5; -10]%Z))) ].
Definition ex_step : list (@event Q_scalar) := [@EStep Q_scalar false].

(** Observations. *)
Definition val_of (st : @state Q_scalar) (p : nat) := show (p_val (s_par st p)).
Definition pre_of (st : @state Q_scalar) (k : nat) :=
  (match sl_K (s_slots st k) with Some m => showd (Ok m) | None => Err KeyError end,
   match sl_C (s_slots st k) with Some m => showd (Ok m) | None => Err KeyError end).
Definition has_H (st : @state Q_scalar) (k : nat) : bool :=
  match sl_HK (s_slots st k), sl_HC (s_slots st k) with Some _, Some _ => true | _, _ => false end.
Definition outcome {A} (x : @state Q_scalar * res A) : res unit := match snd x with Ok _ => Ok tt | Err e => Err e end.
