(** C66: settings that concern weight sharing, without weight sharing. *)

From Coq Require Import List Arith Lia Bool ZArith QArith Qcanon.
From Verif Require Import Scalar Res Tensor Structures OptimUtils UtilsFacts Optimizer Construct CtorSpec OptState OptRun SharingSpec Sharing QEx OptEx OptEx2.
Import ListNotations.
Open Scope nat_scope.

Section PropSharing.
Context {SC : Scalar} {FL : FieldLaws SC}.

Lemma C66_constructor_lemma : forall a a' par hooks, same_call a a' ->
  fst (ctor a' par hooks) = fst (ctor a par hooks) /\
  match snd (ctor a par hooks), snd (ctor a' par hooks) with
  | Ok (c, st), Ok (c', st') =>
      c_mods c' = c_mods c /\ (forall p, c_p2g c' p = c_p2g c p) /\
      st' = set_groups (s_groups st') st /\ Forall2 same_but_sharing (s_groups st) (s_groups st')
  | Err e, Err e' => e' = e
  | _, _ => False
  end.
Proof.
  intros a a' par hooks S. destruct (ctor_alike a a' par hooks S) as [X Y]. split; [exact X|].
  destruct (snd (ctor a par hooks)) as [[c st]|], (snd (ctor a' par hooks)) as [[c' st']|]; try contradiction; [|exact Y].
  destruct Y as ([Y1 Y2] & [Y3 Y4] & _). auto.
Qed.

Lemma C66_no_sharing_lemma : forall a a' par hooks hooks' c st es es',
  ctor a par hooks = (hooks', Ok (c, st)) -> same_call a a' -> Forall2 same_event_but_sharing es es' -> no_sharing es ->
  exists c' st', ctor a' par hooks = (hooks', Ok (c', st')) /\
    outcomes c' es' st' = outcomes c es st /\
    (let s := run c es st in let t := run c' es' st' in
     t = set_groups (s_groups t) s /\ Forall2 same_but_sharing (s_groups s) (s_groups t)).
Proof.
  intros a a' par hooks hooks' c st es es' E S A NS. destruct (training_alike a a' par hooks hooks' c st es es' E S A NS) as (c' & st' & H1 & H2 & H3).
  exists c', st'. split; [exact H1|]. split; [exact H3|exact H2].
Qed.

End PropSharing.

(** ** Cases *)

(** The call with [kfac_approx], [loss_average] and [params] open. *)
Definition sh_args (ka : approx) (la : lossavg) (params : @params_arg Q_scalar) : @args Q_scalar :=
  @mkArgs Q_scalar false ex_model (fun _ => true) params
    (PyFloat (qr 1 10 : @F Q_scalar)) (PyFloat (qr 1 2 : @F Q_scalar)) (PyFloat (qr 1 4 : @F Q_scalar))
    (PyFloat (qr 1 2 : @F Q_scalar)) (PyFloat (qr 1 8 : @F Q_scalar)) 2 la
    (PyFloat (qr 1 2 : @F Q_scalar)) dense2 ka true false (q 1) false.
Definition with_sharing (ka : approx) (la : lossavg) (g : @group Q_scalar) : @group Q_scalar :=
  @mkGroup Q_scalar (g_params g) (g_lr g) (g_momentum g) (g_damping g) (g_alpha1 g) (g_wd g) (g_T g) la (g_lr_cov g) (g_structs g) ka (g_kfac_like g) (g_normalize g).

(** Two groups; the second call has other arguments and overrides them in the second group. *)
Definition sh_a : @args Q_scalar := sh_args Expand LossBatch (PGroups [([0; 1], fun g => g); ([2], fun g => g)]).
Definition sh_b : @args Q_scalar := sh_args Reduce LossBatchSeq (PGroups [([0; 1], fun g => g); ([2], with_sharing Reduce LossBatch)]).

(** Two iterations with a sequence dimension of size one in the first layer and none in the second. *)
Definition sh_iter (s : Qc) : list (@event Q_scalar) :=
  let sc (t : @tensor Q_scalar) := @t_scale Q_scalar s t in
  [ @EForward Q_scalar ex_m1 (qt [1; 1; 2] [3; -1]%Z) true 10; @EForward Q_scalar ex_m2 ex_x2 true 11;
    @EBackward Q_scalar 11 (sc ex_g2); @EBackward Q_scalar 10 (sc (qt [1; 1; 1] [2]%Z));
    @EGrad Q_scalar 0 (Some (sc (qt [1; 2] [6; -2]%Z))); @EGrad Q_scalar 1 (Some (sc (qt [1] [2]%Z)));
    @EGrad Q_scalar 2 (Some (sc (qt [2; 1] [5; -10]%Z))) ].
Definition sh_hist : list (@event Q_scalar) := sh_iter (q 1) ++ ex_step ++ sh_iter (q 2) ++ ex_step ++ sh_iter (q 1) ++ ex_step.

Definition onceb (l : layer) (x g : @tensor Q_scalar) : bool :=
  match l, shape x, shape g with
  | Linear d_in d_out _, [b; i], [b'; o] => Nat.eqb b b' && Nat.eqb i d_in && Nat.eqb o d_out
  | Linear d_in d_out _, [b; 1; i], [b'; 1; o] => Nat.eqb b b' && Nat.eqb i d_in && Nat.eqb o d_out
  | _, _, _ => false
  end.
Lemma onceb_ok l x g : onceb l x g = true -> used_once l x g.
Proof.
  unfold onceb, used_once. destruct l; try discriminate. destruct (shape x) as [|b [|[|[|?]] [|i [|? ?]]]]; try discriminate;
  destruct (shape g) as [|b' [|[|[|?]] [|o [|? ?]]]]; try discriminate; intros H; apply andb_true_iff in H as [H H3]; apply andb_true_iff in H as [H1 H2];
  apply Nat.eqb_eq in H1, H2, H3; subst; first [exists b', []; repeat split; reflexivity|exists b', [1]; repeat split; reflexivity].
Qed.
Definition no_sharingb (es : list (@event Q_scalar)) : bool :=
  forallb (fun e => match e with
    | EForward m x _ out => forallb (fun e' => match e' with EBackward o g => negb (Nat.eqb o out) || onceb (m_layer m) x g | _ => true end) es
    | _ => true end) es.
Lemma no_sharingb_ok es : no_sharingb es = true -> no_sharing es.
Proof.
  intros H es1 m x b out es2 g es3 -> _. unfold no_sharingb in H. rewrite forallb_forall in H.
  specialize (H (EForward m x b out) ltac:(apply in_or_app; right; left; reflexivity)). cbv beta iota in H. rewrite forallb_forall in H.
  specialize (H (EBackward out g) ltac:(apply in_or_app; right; right; apply in_or_app; right; left; reflexivity)). cbv beta iota in H.
  rewrite Nat.eqb_refl in H. apply onceb_ok. exact H.
Qed.

Lemma same_refl (es : list (@event Q_scalar)) : Forall2 same_event_but_sharing es es.
Proof. induction es as [|e es IH]; constructor; [|exact IH]. destruct e; try reflexivity. cbn. induction gs; constructor; [|assumption]. repeat split; left; reflexivity. Qed.

Lemma C66_example_case :
  built_ok sh_a = true /\ built_ok sh_b = true /\ same_call sh_a sh_b /\ Forall2 same_event_but_sharing sh_hist sh_hist /\ no_sharing sh_hist /\
  s_steps (run (fst (built sh_a)) sh_hist (snd (built sh_a))) = 3 /\
  pre_of (run (fst (built sh_a)) sh_hist (snd (built sh_a))) 0 <> pre_of (snd (built sh_a)) 0 /\
  map g_approx (s_groups (snd (built sh_a))) = [Expand; Expand] /\ map g_loss (s_groups (snd (built sh_a))) = [LossBatch; LossBatch] /\
  map g_approx (s_groups (snd (built sh_b))) = [Reduce; Reduce] /\ map g_loss (s_groups (snd (built sh_b))) = [LossBatchSeq; LossBatch].
Proof.
  split; [vm_compute; reflexivity|]. split; [vm_compute; reflexivity|].
  split. { repeat (split; [reflexivity|]). cbn [a_params sh_a sh_b sh_args]. 
           constructor; [|constructor; [|constructor]]; (split; [reflexivity|]); cbn; repeat (split; [reflexivity|]);
             (split; [right; split; discriminate|right; split; [left; reflexivity|first [left; reflexivity|right; reflexivity]]]). }
  split; [apply same_refl|]. split; [apply no_sharingb_ok; vm_compute; reflexivity|].
  split; [vm_compute; reflexivity|]. split; [vm_compute; discriminate|]. repeat split; vm_compute; reflexivity.
Qed.

Lemma C66_convolution_example_case :
  let c := mkConv 2 3 3 2 1 1 (PadInt 1 0) 1 1 1 true ModeZeros in
  used_once (Conv2d c) (qt [2; 2; 1; 2] [1; 2; 3; 4; 5; 6; 7; 8]%Z) (qt [2; 3; 1; 1] [1; 2; 3; 4; 5; 6]%Z).
Proof.
  cbv zeta. cbn [used_once]. split; [unfold conv_ok; cbn; repeat split; lia|]. split; [split; reflexivity|].
  exists 2, 1, 2. split; [|split; reflexivity]. apply outs_of; reflexivity.
Qed.

(** With a sequence of length four the settings matter: the preconditioners differ after the first step. *)
Definition sh_shared : list (@event Q_scalar) :=
  [ @EForward Q_scalar ex_m1 ex_x1 true 10; @EForward Q_scalar ex_m2 (qt [1; 4; 1] [5; 1; 0; 2]%Z) true 11;
    @EBackward Q_scalar 11 (qt [1; 4; 2] [1; -2; 0; 1; 1; 1; 3; 0]%Z); @EBackward Q_scalar 10 ex_g1;
    @EGrad Q_scalar 0 (Some (qt [1; 2] [6; -2]%Z)); @EGrad Q_scalar 1 (Some (qt [1] [2]%Z));
    @EGrad Q_scalar 2 (Some (qt [2; 1] [5; -10]%Z)); @EStep Q_scalar false ].

Lemma C66_sharing_refuted_lemma :
  let r a := run (fst (built a)) sh_shared (snd (built a)) in
  let a ka la := sh_args ka la PNone in
  (forall ka la, same_call (a Expand LossBatch) (a ka la) <-> ka <> ApproxOther /\ (la = LossBatch \/ la = LossBatchSeq)) /\
  s_steps (r (a Expand LossBatch)) = 1 /\ s_steps (r (a Reduce LossBatch)) = 1 /\ s_steps (r (a Expand LossBatchSeq)) = 1 /\
  pre_of (r (a Reduce LossBatch)) 1 <> pre_of (r (a Expand LossBatch)) 1 /\
  pre_of (r (a Expand LossBatchSeq)) 1 <> pre_of (r (a Expand LossBatch)) 1.
Proof.
  cbv zeta. split.
  { intros ka la. split.
    - intros (_ & _ & _ & _ & _ & _ & _ & _ & _ & _ & _ & _ & _ & _ & _ & P). cbn in P. destruct P as (_ & _ & _ & _ & _ & _ & _ & _ & _ & _ & _ & KA & LA).
      split; [destruct KA as [KA|[_ K]]; [cbn in KA; subst; discriminate|exact K]|]. destruct LA as [LA|[_ L]]; [left; exact LA|exact L].
    - intros [K L]. repeat (split; [reflexivity|]). cbn. repeat (split; [reflexivity|]). split; [right; split; [discriminate|exact K]|right; split; [left; reflexivity|exact L]]. }
  split; [vm_compute; reflexivity|]. split; [vm_compute; reflexivity|]. split; [vm_compute; reflexivity|]. split; vm_compute; discriminate.
Qed.

(** The same holds for a convolution that pads unevenly, although its kernel is applied once: with "expand" the backward pass
    raises NotImplementedError, with "reduce" it does not. *)
Definition sh_conv : conv := mkConv 1 1 2 2 1 1 PadSame 1 1 1 false ModeZeros.
Definition sh_cm : modul := mkMod 0 (Conv2d sh_conv) 0 None.
Definition sh_conv_args (ka : approx) : @args Q_scalar :=
  @mkArgs Q_scalar false [mkNode sh_cm true [0]] (fun _ => true) PNone
    (PyFloat (qr 1 10 : @F Q_scalar)) (PyFloat (qr 1 2 : @F Q_scalar)) (PyFloat (qr 1 4 : @F Q_scalar))
    (PyFloat (qr 1 2 : @F Q_scalar)) (PyFloat (qr 1 8 : @F Q_scalar)) 1 LossBatch
    (PyFloat (qr 1 2 : @F Q_scalar)) dense2 ka true false (q 1) false.
Definition sh_conv_par (p : nat) : @pslot Q_scalar := @mkP Q_scalar (qt [1; 1; 2; 2] [1; 2; 3; 4]%Z) None None.
Definition sh_conv_hist : list (@event Q_scalar) :=
  [@EForward Q_scalar sh_cm (qt [1; 1; 1; 1] [3]%Z) true 10; @EBackward Q_scalar 10 (qt [1; 1; 1; 1] [2]%Z)].

Lemma C66_uneven_refuted_lemma :
  conv_ok sh_conv /\ outs sh_conv 1 1 1 1 /\ same_call (sh_conv_args Expand) (sh_conv_args Reduce) /\
  match snd (ctor (sh_conv_args Expand) sh_conv_par []), snd (ctor (sh_conv_args Reduce) sh_conv_par []) with
  | Ok (c, st), Ok (c', st') =>
      outcomes c sh_conv_hist st = [Ok tt; Err NotImplementedError] /\ outcomes c' sh_conv_hist st' = [Ok tt; Ok tt]
  | _, _ => False
  end.
Proof.
  split; [unfold conv_ok; cbn; repeat split; lia|]. split; [apply outs_of; reflexivity|].
  split. { repeat (split; [reflexivity|]). cbn. repeat (split; [reflexivity|]). split; [right; split; discriminate|left; reflexivity]. }
  destruct (ctor (sh_conv_args Expand) sh_conv_par []) as [h [[c st]|e]] eqn:E1.
  2:{ assert (X : is_ok (snd (ctor (sh_conv_args Expand) sh_conv_par [])) = true) by (vm_compute; reflexivity). rewrite E1 in X. discriminate. }
  destruct (ctor (sh_conv_args Reduce) sh_conv_par []) as [h' [[c' st']|e]] eqn:E2.
  2:{ assert (X : is_ok (snd (ctor (sh_conv_args Reduce) sh_conv_par [])) = true) by (vm_compute; reflexivity). rewrite E2 in X. discriminate. }
  cbn [snd].
  assert (X1 : match snd (ctor (sh_conv_args Expand) sh_conv_par []) with Ok (c, st) => outcomes c sh_conv_hist st = [Ok tt; Err NotImplementedError] | _ => False end) by (vm_compute; reflexivity).
  assert (X2 : match snd (ctor (sh_conv_args Reduce) sh_conv_par []) with Ok (c, st) => outcomes c sh_conv_hist st = [Ok tt; Ok tt] | _ => False end) by (vm_compute; reflexivity).
  rewrite E1 in X1. rewrite E2 in X2. split; [exact X1|exact X2].
Qed.
