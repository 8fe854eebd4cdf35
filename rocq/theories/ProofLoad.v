(** C55: loading a checkpoint replaces the whole state or nothing; what is accepted. *)

From Coq Require Import List Arith Lia Bool ZArith QArith Qcanon.
From Verif Require Import Scalar Res Tensor Structures OptimUtils Optimizer Construct OptState OptRun CtorFacts Checkpoint CkptFacts LoadFacts QEx OptEx OptEx2.
Import ListNotations.
Open Scope nat_scope.

Section PropLoad.
Context {SC : Scalar}.

Lemma C55_all_or_nothing_lemma d st t e :
  load_state_dict d st = (t, Err e) -> t = st /\ e = ValueError.
Proof.
  intros H. destruct (load_cases d st) as [(_ & t' & E)|(_ & E)]; rewrite E in H; [discriminate|]. injection H as <- <-. split; reflexivity.
Qed.

Lemma C55_accepted_lemma d st :
  (exists t, load_state_dict d st = (t, Ok tt)) <-> sizes (s_groups st) = sizes (sd_groups d).
Proof.
  destruct (load_cases d st) as [(H & t & E)|(H & E)]; split; intros X; try assumption.
  - exists t. exact E.
  - destruct X as (t & X). rewrite E in X. discriminate.
  - contradiction.
Qed.

Lemma C55_effect_lemma d st t :
  load_state_dict d st = (t, Ok tt) ->
  s_steps t = sd_steps d /\ s_scales t = sd_scales d /\ s_slots t = sd_slots d /\
  map g_params (s_groups t) = map g_params (s_groups st) /\ Forall2 same_entries (sd_groups d) (s_groups t) /\
  s_amp t = s_amp st /\ s_inf t = s_inf st /\ s_pend t = s_pend st /\ s_log t = s_log st /\
  forall p, p_val (s_par t p) = p_val (s_par st p) /\ p_grad (s_par t p) = p_grad (s_par st p).
Proof. exact (load_effect d st t). Qed.

Lemma C55_replaces_lemma a a' par par' hooks hooks1 hooks' hooks2 c st0 c' st0' es es2 d :
  same_parameters a a' ->
  ctor a par hooks = (hooks1, Ok (c, st0)) -> keep_params (s_groups st0) es ->
  let st := run c es st0 in
  state_dict c st = Ok d -> s_amp st = None -> s_inf st = false ->
  (forall p, p_val (par' p) = p_val (s_par st p)) -> ctor a' par' hooks' = (hooks2, Ok (c', st0')) ->
  self_contained c [] [] es2 ->
  exists t, load_state_dict d st0' = (t, Ok tt) /\ outcomes c' es2 t = outcomes c es2 st /\
    let u := run c' es2 t in let v := run c es2 st in
    s_steps u = s_steps v /\ s_scales u = s_scales v /\ (forall k, s_slots u k = s_slots v k) /\ s_groups u = s_groups v /\
    forall p, p_val (s_par u p) = p_val (s_par v p) /\ p_buf (s_par u p) = p_buf (s_par v p).
Proof. exact (replaces a a' par par' hooks hooks1 hooks' hooks2 c st0 c' st0' es es2 d). Qed.

End PropLoad.

(** ** Cases *)

(** Saved with dense factors and Riemannian momentum after an update; loaded into an optimizer for diagonal
    factors, KFAC-like, T=3, scale 4. *)
Definition ld1 : @args Q_scalar := ex_args PNone (qr 1 2) (qr 1 2) (q 0) 1 dense2 false false (q 1).
Definition ld2 : @args Q_scalar := ex_args PNone (q 0) (q 0) (qr 1 8) 3 (Some CDiag, Some CDiag) true false (q 4).
Definition ld_es : list (@event Q_scalar) := ex_iter (q 1) ++ ex_step.
Local Notation ld_st := (run (fst (built ld1)) ld_es (snd (built ld1))).

Definition is_dense (o : option (@smat Q_scalar)) : bool :=
  match o with Some m => match cls_of m with CDense => true | _ => false end | None => false end.

Lemma C55_example_case :
  same_parameters ld1 ld2 /\ built_ok ld1 = true /\ built_ok ld2 = true /\
  keep_params (s_groups (snd (built ld1))) ld_es /\
  s_amp ld_st = None /\ s_inf ld_st = false /\
  match state_dict (fst (built ld1)) ld_st with
  | Ok d => let (t, r) := load_state_dict d (snd (built ld2)) in
      is_ok r = true /\ s_steps t = 1 /\ map g_T (s_groups t) = [1] /\ map g_T (s_groups (snd (built ld2))) = [3] /\
      is_dense (sl_K (s_slots t 0)) = true /\ is_dense (sl_K (s_slots (snd (built ld2)) 0)) = false
  | Err _ => False
  end /\
  self_contained (fst (built ld1)) [] [] (ex_iter (q 1) ++ ex_step).
Proof.
  split; [split; [reflexivity|intros p; reflexivity]|]. split; [vm_compute; reflexivity|]. split; [vm_compute; reflexivity|].
  split; [repeat constructor|]. split; [vm_compute; reflexivity|]. split; [vm_compute; reflexivity|]. split; [vm_compute; repeat split|].
  unfold ex_iter, ex_step. cbn [self_contained app]. assert (M : flat_map mod_params (c_mods (fst (built ld1))) = [0; 1; 2]) by (vm_compute; reflexivity). rewrite M.
  repeat (split; try exact I; cbn [In]; auto 10; try (intros p; cbn [In]; tauto)).
Qed.

(** A rejected one: saved with two groups, loaded into an optimizer with one. *)
Definition ld3 : @args Q_scalar := ex_args (PGroups [([0; 1], fun g => g); ([2], fun g => g)]) (qr 1 2) (qr 1 2) (q 0) 1 dense2 false false (q 1).

Lemma C55_rejected_example_case :
  match state_dict (fst (built ld3)) (run (fst (built ld3)) ld_es (snd (built ld3))) with
  | Ok d => snd (load_state_dict d ld_st) = Err ValueError /\ sizes (sd_groups d) = [2; 1] /\ sizes (s_groups ld_st) = [3]
  | Err _ => False
  end.
Proof. vm_compute. repeat split. Qed.

(** ** Accepted although it does not fit *)

(** A model whose first layer is Linear(3, 1): as many parameters, other sizes. *)
Definition fo_m1 : modul := mkMod 0 (Linear 3 1 true) 0 (Some 1).
Definition fo_args : @args Q_scalar :=
  @mkArgs Q_scalar false [mkNode fo_m1 true [0; 1]; mkNode ex_m2 true [2]] (fun _ => true) PNone
    (PyFloat (qr 1 10 : @F Q_scalar)) (PyFloat (qr 1 2 : @F Q_scalar)) (PyFloat (qr 1 4 : @F Q_scalar))
    (PyFloat (qr 1 2 : @F Q_scalar)) (PyFloat (q 0 : @F Q_scalar)) 1 LossBatch
    (PyFloat (qr 1 2 : @F Q_scalar)) dense2 Expand true false (q 1) false.
Definition fo_c : cfg := fst (built fo_args).
Definition fo_st : @state Q_scalar := snd (built fo_args).
Definition fo_es : list (@event Q_scalar) :=
  [@EForward Q_scalar fo_m1 (qt [1; 3] [3; -1; 2]%Z) true 10; @EBackward Q_scalar 10 (qt [1; 1] [2]%Z)].

Lemma C55_foreign_refuted_lemma :
  exists (a a' : @args Q_scalar) par hooks hooks1 c st0 hooks' hooks2 c' st0' es d t es2,
    ctor a par hooks = (hooks1, Ok (c, st0)) /\ ctor a' par hooks' = (hooks2, Ok (c', st0')) /\
    (forall r, In r (outcomes c es st0) -> r = Ok tt) /\ state_dict c (run c es st0) = Ok d /\
    load_state_dict d st0' = (t, Ok tt) /\
    outcomes c' es2 st0' = [Ok tt; Ok tt] /\ outcomes c' es2 t = [Ok tt; Err RuntimeError].
Proof.
  assert (B1 : exists h, ctor ld1 ex_par [] = (h, Ok (built ld1))).
  { assert (X : is_ok (snd (ctor ld1 ex_par [])) = true) by (vm_compute; reflexivity).
    unfold built. destruct (ctor ld1 ex_par []) as [h [cs|e]]; [exists h; reflexivity|discriminate]. }
  assert (B2 : exists h, ctor fo_args ex_par [] = (h, Ok (built fo_args))).
  { assert (X : is_ok (snd (ctor fo_args ex_par [])) = true) by (vm_compute; reflexivity).
    unfold built. destruct (ctor fo_args ex_par []) as [h [cs|e]]; [exists h; reflexivity|discriminate]. }
  destruct B1 as (h1 & B1). destruct B2 as (h2 & B2).
  assert (X : match state_dict (fst (built ld1)) ld_st with Ok d => let (t, r) := load_state_dict d fo_st in (r, outcomes fo_c fo_es t) | Err e => (Err e, []) end
    = (Ok tt, [Ok tt; Err RuntimeError])) by (vm_compute; reflexivity).
  destruct (state_dict (fst (built ld1)) ld_st) as [d|] eqn:D; [|discriminate]. destruct (load_state_dict d fo_st) as [t r] eqn:L.
  apply pair_equal_spec in X as [-> X].
  exists ld1, fo_args, ex_par, [], h1, (fst (built ld1)), (snd (built ld1)), [], h2, fo_c, fo_st, ld_es, d, t, fo_es.
  split; [rewrite B1, <- surjective_pairing; reflexivity|]. split; [unfold fo_c, fo_st; rewrite B2, <- surjective_pairing; reflexivity|].
  split.
  { assert (Y : forallb is_ok (outcomes (fst (built ld1)) ld_es (snd (built ld1))) = true) by (vm_compute; reflexivity).
    intros r Hr. rewrite forallb_forall in Y. specialize (Y r Hr). destruct r as [[]|]; [reflexivity|discriminate]. }
  split; [exact D|]. split; [exact L|]. split; [vm_compute; reflexivity|exact X].
Qed.

(** Two layers Linear(1, 1); the weights are handed over in the other order. *)
Definition sw_m (k : nat) : modul := mkMod k (Linear 1 1 false) k None.
Definition sw_args (ps : list nat) : @args Q_scalar :=
  @mkArgs Q_scalar false [mkNode (sw_m 0) true [0]; mkNode (sw_m 1) true [1]] (fun _ => true) (PList ps)
    (PyFloat (qr 1 10 : @F Q_scalar)) (PyFloat (qr 1 2 : @F Q_scalar)) (PyFloat (qr 1 4 : @F Q_scalar))
    (PyFloat (qr 1 2 : @F Q_scalar)) (PyFloat (q 0 : @F Q_scalar)) 1 LossBatch
    (PyFloat (qr 1 2 : @F Q_scalar)) dense2 Expand true false (q 1) false.
Definition sw_es : list (@event Q_scalar) :=
  [ @EForward Q_scalar (sw_m 0) (qt [1; 1] [3]%Z) true 10; @EForward Q_scalar (sw_m 1) (qt [1; 1] [-2]%Z) true 11;
    @EBackward Q_scalar 11 (qt [1; 1] [1]%Z); @EBackward Q_scalar 10 (qt [1; 1] [2]%Z);
    @EGrad Q_scalar 0 (Some (qt [1; 1] [6]%Z)); @EGrad Q_scalar 1 (Some (qt [1; 1] [-2]%Z)); @EStep Q_scalar false ].
Definition sw_par (p : nat) : @pslot Q_scalar := @mkP Q_scalar (qt [1; 1] [1]%Z) None None.
Definition sw_built (ps : list nat) : cfg * @state Q_scalar :=
  match snd (ctor (sw_args ps) sw_par []) with Ok r => r | Err _ => (mkCfg [] (fun _ => None), no_state) end.
Lemma sw_spec ps : is_ok (snd (ctor (sw_args ps) sw_par [])) = true -> exists h, ctor (sw_args ps) sw_par [] = (h, Ok (sw_built ps)).
Proof. unfold sw_built. destruct (ctor (sw_args ps) sw_par []) as [h [cs|e]]; [exists h; reflexivity|discriminate]. Qed.
Definition buf_of (st : @state Q_scalar) (p : nat) := option_map show (p_buf (s_par st p)).

Lemma C55_exchanged_refuted_lemma :
  exists (a a' : @args Q_scalar) par hooks hooks1 c st0 hooks' hooks2 c' st0' es d t tgt,
    a_model a' = a_model a /\ a_params a = PList [0; 1] /\ a_params a' = PList [1; 0] /\
    ctor a par hooks = (hooks1, Ok (c, st0)) /\ ctor a' par hooks' = (hooks2, Ok (c', st0')) /\
    let st := run c es st0 in
    state_dict c st = Ok d /\ (forall p, p_val (tgt p) = p_val (s_par st p)) /\
    load_state_dict d (set_par tgt st0') = (t, Ok tt) /\
    buf_of t 0 = buf_of st 1 /\ buf_of t 1 = buf_of st 0 /\ buf_of st 0 <> buf_of st 1 /\
    (forall r, In r (outcomes c' es t) -> r = Ok tt) /\ (forall r, In r (outcomes c es st) -> r = Ok tt) /\
    val_of (run c' es t) 0 <> val_of (run c es st) 0.
Proof.
  destruct (sw_spec [0; 1]) as (h1 & B1); [vm_compute; reflexivity|]. destruct (sw_spec [1; 0]) as (h2 & B2); [vm_compute; reflexivity|].
  set (c := fst (sw_built [0; 1])). set (st0 := snd (sw_built [0; 1])). set (c' := fst (sw_built [1; 0])). set (st0' := snd (sw_built [1; 0])).
  set (st := run c sw_es st0). set (tgt := s_par st).
  assert (X : match state_dict c st with
    | Ok d => let (t, r) := load_state_dict d (set_par tgt st0') in
       (is_ok r, forallb is_ok (outcomes c' sw_es t), forallb is_ok (outcomes c sw_es st), [buf_of t 0; buf_of t 1], [val_of (run c' sw_es t) 0])
    | Err _ => (false, false, false, [], []) end
    = (true, true, true, [Some ([1; 1], [(-81 # 32768)%Q]); Some ([1; 1], [(732421875 # 32768)%Q])], [([1; 1], [(-1150683602334253449215109822113891826053957687070067 # 396140812571321687967719751680)%Q])])) by (vm_compute; reflexivity).
  assert (Y : (buf_of st 0, buf_of st 1, map (Qeq_bool (-1150683602334253449215109822113891826053957687070067 # 396140812571321687967719751680)%Q) (snd (val_of (run c sw_es st) 0))) = (Some ([1; 1], [(732421875 # 32768)%Q]), Some ([1; 1], [(-81 # 32768)%Q]), [false])) by (vm_compute; reflexivity).
  assert (C1 : ctor (sw_args [0; 1]) sw_par [] = (h1, Ok (c, st0))) by (unfold c, st0; rewrite <- surjective_pairing; exact B1).
  assert (C2 : ctor (sw_args [1; 0]) sw_par [] = (h2, Ok (c', st0'))) by (unfold c', st0'; rewrite <- surjective_pairing; exact B2).
  assert (Es : run c sw_es st0 = st) by reflexivity. assert (Et : tgt = s_par st) by reflexivity.
  clearbody tgt. clearbody st. clearbody c st0 c' st0'. clear B1 B2.
  destruct (state_dict c st) as [d|] eqn:D; [|discriminate]. destruct (load_state_dict d (set_par tgt st0')) as [t r] eqn:L.
  apply pair_equal_spec in X as [X X5]. apply pair_equal_spec in X as [X X4]. apply pair_equal_spec in X as [X X3]. apply pair_equal_spec in X as [X1 X2].
  apply pair_equal_spec in Y as [Y Y3]. apply pair_equal_spec in Y as [Y1 Y2].
  destruct r as [[]|]; [|discriminate].
  exists (sw_args [0; 1]), (sw_args [1; 0]), sw_par, [], h1, c, st0, [], h2, c', st0', sw_es, d, t, tgt.
  split; [reflexivity|]. split; [reflexivity|]. split; [reflexivity|].
  split; [exact C1|]. split; [exact C2|].
  cbv zeta. rewrite Es. split; [exact D|]. split; [rewrite Et; reflexivity|]. split; [exact L|].
  apply (f_equal (fun l => (nth 0 l None, nth 1 l None))) in X4. cbn [nth] in X4. apply pair_equal_spec in X4 as [Z0 Z1].
  apply (f_equal (fun l => nth 0 l ([], []))) in X5. cbn [nth] in X5.
  split; [rewrite Z0, Y2; reflexivity|]. split; [rewrite Z1, Y1; reflexivity|]. split; [rewrite Y1, Y2; discriminate|].
  split; [|split].
  - intros r Hr. rewrite forallb_forall in X2. specialize (X2 r Hr). destruct r as [[]|]; [reflexivity|discriminate].
  - intros r Hr. rewrite forallb_forall in X3. specialize (X3 r Hr). destruct r as [[]|]; [reflexivity|discriminate].
  - intros Z. rewrite <- Z, X5 in Y3. discriminate Y3.
Qed.
