(** Deciding the hypotheses of the optimizer theorems for concrete runs, and further small runs.  Not
    a model of code. *)

From Coq Require Import List Arith ZArith QArith Qcanon Bool.
From Verif Require Import Scalar Res Tensor Structures OptimUtils Optimizer Construct OptState OptFacts OptTyped OptMom QEx OptEx.
Import ListNotations.
Open Scope nat_scope.

Definition supb (c : cls) : bool :=
  match c with
  | CDense | CDiag | CTril | CTriu => true
  | CBlock d => Nat.eqb d 30
  | CHier a b => Nat.eqb a 15 && Nat.eqb b 15
  | _ => false
  end.
Lemma supb_ok c : supb c = true -> In c supported_structures.
Proof.
  destruct c; cbn; try discriminate; auto 8.
  - intros H. apply Nat.eqb_eq in H. subst. auto 8.
  - intros H. apply andb_true_iff in H as [H1 H2]. apply Nat.eqb_eq in H1, H2. subst. auto 8.
Qed.

Fixpoint nodupb (l : list nat) : bool := match l with [] => true | x :: r => negb (existsb (Nat.eqb x) r) && nodupb r end.
Lemma nodupb_ok l : nodupb l = true -> NoDup l.
Proof.
  induction l as [|x r IH]; intros H; [constructor|]. cbn in H. apply andb_true_iff in H as [H1 H2]. constructor; [|apply IH; exact H2].
  intros I. apply negb_true_iff in H1. enough (existsb (Nat.eqb x) r = true) by congruence.
  apply existsb_exists. exists x. split; [exact I|apply Nat.eqb_refl].
Qed.

Definition settingb (a : @args Q_scalar) : bool :=
  built_ok a && nodupb (map (fun n => m_key (n_mod n)) (a_model a)) &&
  forallb (fun n => match preconditioner_dims (m_layer (n_mod n)) with Ok (dK, dC) => negb (Nat.eqb dK 0) && negb (Nat.eqb dC 0) | Err _ => true end) (a_model a) &&
  nodupb (flat_map mod_params (c_mods (fst (built a)))) &&
  forallb (fun g => match g_structs g with (Some x, Some y) => supb x && supb y | _ => true end) (s_groups (snd (built a))).

Lemma built_setting a : settingb a = true -> setting a ex_par (fst (built a)) (snd (built a)).
Proof.
  unfold settingb. intros H. repeat (apply andb_true_iff in H as [H ?]). split; [|split; [|split; [|split]]].
  - apply built_spec in H. exists [], (fst (ctor a ex_par [])). rewrite <- H. destruct (ctor a ex_par []). reflexivity.
  - apply nodupb_ok. assumption.
  - intros n dK dC Hn E. rewrite forallb_forall in H2. specialize (H2 n Hn). rewrite E in H2. apply andb_true_iff in H2 as [X Y].
    split; intros ->; discriminate.
  - apply nodupb_ok. assumption.
  - intros g cK cC Hg E. rewrite forallb_forall in H0. specialize (H0 g Hg). rewrite E in H0. apply andb_true_iff in H0 as [X Y].
    split; apply supb_ok; assumption.
Qed.

(** No step of a history raises. *)
Fixpoint no_failb (c : cfg) (es : list (@event Q_scalar)) (st : @state Q_scalar) : bool :=
  match es with
  | [] => true
  | e :: es' => (match e with EStep _ => is_ok (snd (event_op c e st)) | _ => true end) && no_failb c es' (fst (event_op c e st))
  end.
Lemma no_failb_ok c es st : no_failb c es st = true -> no_failed_step c es st.
Proof.
  revert st. induction es as [|e es IH]; intros st H; [exact I|]. cbn [no_failb no_failed_step] in *. apply andb_true_iff in H as [H1 H2].
  split; [|apply IH; exact H2]. intros b ->. destruct (snd (event_op c (EStep b) st)) as [[]|]; [reflexivity|discriminate].
Qed.

(** A single Linear(2, 1) without bias and block-diagonal preconditioners, KFAC-like, no damping,
    preconditioner learning rate 1, update in every step. *)
Definition blk_m : modul := mkMod 0 (Linear 2 1 false) 0 None.
Definition blk_args (cK cC : cls) : @args Q_scalar :=
  @mkArgs Q_scalar false [mkNode blk_m true [0]] (fun _ => true) PNone
    (PyFloat (qr 1 10 : @F Q_scalar)) (PyFloat (q 0 : @F Q_scalar)) (PyFloat (q 0 : @F Q_scalar))
    (PyFloat (q 0 : @F Q_scalar)) (PyFloat (q 0 : @F Q_scalar)) 1 LossBatch
    (PyFloat (q 1 : @F Q_scalar)) (Some cK, Some cC) Expand true true (q 1) false.
(** One sample [x], output gradient 1, hence gradient [x]. *)
Definition blk_iter (x : @tensor Q_scalar) : list (@event Q_scalar) :=
  [ @EForward Q_scalar blk_m x true 10; @EBackward Q_scalar 10 (qt [1; 1] [1]%Z); @EGrad Q_scalar 0 (Some x) ].
Definition blk_x1 : @tensor Q_scalar := qt [1; 2] [3; 0]%Z.
Definition blk_x2 : @tensor Q_scalar := @t_scale Q_scalar (qr (-2) 3) (qt [1; 2] [1; 2]%Z).
