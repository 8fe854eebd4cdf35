(** C34: checkpoints; C25 for histories with checkpoint calls. *)

From Coq Require Import List Arith Lia Bool ZArith QArith Qcanon.
From Verif Require Import Scalar Res Tensor Structures OptimUtils Optimizer Construct OptState OptRun CtorFacts Checkpoint CkptFacts CkptRun QEx OptEx OptEx2.
Import ListNotations.
Open Scope nat_scope.

Section PropCkpt.
Context {SC : Scalar}.

Lemma C34_resume_lemma a par par' hooks hooks1 hooks' hooks2 c st0 c' st0' es es2 d :
  ctor a par hooks = (hooks1, Ok (c, st0)) -> keep_params (s_groups st0) es ->
  let st := run c es st0 in
  state_dict c st = Ok d -> s_amp st = None -> s_inf st = false ->
  (forall p, p_val (par' p) = p_val (s_par st p)) -> ctor a par' hooks' = (hooks2, Ok (c', st0')) ->
  self_contained c [] [] es2 ->
  c' = c /\
  exists t, load_state_dict d st0' = (t, Ok tt) /\ outcomes c' es2 t = outcomes c es2 st /\
    let u := run c' es2 t in let v := run c es2 st in
    s_steps u = s_steps v /\ s_scales u = s_scales v /\ (forall k, s_slots u k = s_slots v k) /\ s_groups u = s_groups v /\
    forall p, p_val (s_par u p) = p_val (s_par v p) /\ p_buf (s_par u p) = p_buf (s_par v p).
Proof.
  intros H K st D A I V H' C. destruct (ctor_cfg _ _ _ _ _ _ _ _ _ _ _ H H') as (-> & EG & _). split; [reflexivity|].
  apply ctor_state in H as (_ & _ & _ & _ & _ & _ & HP). apply ctor_state in H' as (_ & _ & A' & I' & _ & _ & HP').
  apply (resume c st st0' d es2 D).
  - intros p Hp. destruct (in_dec Nat.eq_dec p (flat_map mod_params (c_mods c))) as [|N]; [assumption|]. exfalso. apply Hp.
    destruct (run_par c es st0 p N) as [_ E]. unfold st. rewrite E, HP. reflexivity.
  - rewrite EG. symmetry. apply keep_params_run; [exact K|reflexivity].
  - intros p. rewrite HP'. apply V.
  - congruence.
  - congruence.
  - exact C.
Qed.

Lemma C34_rollback_lemma a par hooks hooks1 c st0 es es1 es2 d tgt :
  ctor a par hooks = (hooks1, Ok (c, st0)) -> keep_params (s_groups st0) es -> keep_params (s_groups st0) es1 ->
  let st := run c es st0 in let later := run c es1 st in
  state_dict c st = Ok d ->
  s_amp later = s_amp st -> s_inf later = s_inf st ->
  (forall p, p_val (tgt p) = p_val (s_par st p)) ->
  self_contained c [] [] es2 ->
  exists t, load_state_dict d (set_par tgt later) = (t, Ok tt) /\ outcomes c es2 t = outcomes c es2 st /\
    let u := run c es2 t in let v := run c es2 st in
    s_steps u = s_steps v /\ s_scales u = s_scales v /\ (forall k, s_slots u k = s_slots v k) /\ s_groups u = s_groups v /\
    forall p, p_val (s_par u p) = p_val (s_par v p) /\ p_buf (s_par u p) = p_buf (s_par v p).
Proof.
  intros H K K1 st later D A I V C. apply ctor_state in H as (_ & _ & _ & _ & _ & _ & HP).
  apply (resume c st (set_par tgt later) d es2 D).
  - intros p Hp. destruct (in_dec Nat.eq_dec p (flat_map mod_params (c_mods c))) as [|N]; [assumption|]. exfalso. apply Hp.
    destruct (run_par c es st0 p N) as [_ E]. unfold st. rewrite E, HP. reflexivity.
  - cbn. unfold later. assert (E : map g_params (s_groups st) = map g_params (s_groups st0)) by (apply keep_params_run; [exact K|reflexivity]).
    rewrite E. apply keep_params_run; [exact K1|exact E].
  - exact V.
  - exact A.
  - exact I.
  - exact C.
Qed.

Lemma C34_saves_partial_lemma a par hooks hooks1 c st0 es :
  ctor a par hooks = (hooks1, Ok (c, st0)) -> keep_params (s_groups st0) es ->
  (forall m p, In m (c_mods c) -> In p (mod_params m) -> exists g, In g (s_groups st0) /\ In p (g_params g)) ->
  exists d, state_dict c (run c es st0) = Ok d.
Proof.
  intros H K A. apply state_dict_ok. intros p Hp _. apply in_flat_map in Hp as (m & Hm & Hp). destruct (A m p Hm Hp) as (g & Hg & Hi).
  unfold all_params. rewrite (keep_params_run c (s_groups st0) es st0 K eq_refl). apply in_concat. exists (g_params g). split; [apply in_map; exact Hg|exact Hi].
Qed.

Lemma C34_saves_fails_lemma a par hooks hooks1 c st0 es p :
  ctor a par hooks = (hooks1, Ok (c, st0)) -> keep_params (s_groups st0) es ->
  (forall g, In g (s_groups st0) -> ~ In p (g_params g)) -> p_buf (s_par (run c es st0) p) <> None ->
  state_dict c (run c es st0) = Err KeyError.
Proof.
  intros H K N B. apply ctor_state in H as (_ & _ & _ & _ & _ & _ & HP). apply (state_dict_fails c _ p); [|exact B|].
  - destruct (in_dec Nat.eq_dec p (flat_map mod_params (c_mods c))) as [|X]; [assumption|]. exfalso. apply B. destruct (run_par c es st0 p X) as [_ E]. rewrite E, HP. reflexivity.
  - unfold all_params. rewrite (keep_params_run c (s_groups st0) es st0 K eq_refl). intros X. apply in_concat in X as (l & X1 & X2). apply in_map_iff in X1 as (g & <- & Hg). exact (N g Hg X2).
Qed.

Lemma C25_checkpoints_lemma c st v :
  lives c st v ->
  length (s_scales st) <= 2 /\ NoDup (map fst (s_scales st)) /\
  (forall k, In k (map fst (s_scales st)) -> k = (Z.of_nat (s_steps st) - 1)%Z \/ k = Z.of_nat (s_steps st)) /\
  get_grad_scale (s_scales st) (Z.of_nat (s_steps st) - 1) = Ok v.
Proof. exact (lives_bookkeeping c st v). Qed.

Lemma C25_checkpoints_total_lemma c st v es : lives c st v -> exists v', lives c (run c es st) v'.
Proof. exact (lives_run c st v es). Qed.

End PropCkpt.

(** ** Cases *)

(** Momentum 1/2; checkpoint in the middle of an iteration, when statistics are stored. *)
Definition ck : @args Q_scalar := ex_args PNone (qr 1 2) (qr 1 2) (q 0) 1 dense2 false false (q 1).
Definition ckc : cfg := fst (built ck).
Definition ck0 : @state Q_scalar := snd (built ck).
Definition ck_es : list (@event Q_scalar) := ex_iter (q 1) ++ [@EStep Q_scalar false] ++ ex_iter (q 1).
Definition ck_es2 : list (@event Q_scalar) :=
  [ @EGrad Q_scalar 0 (Some (qt [1; 2] [6; -2]%Z)); @EGrad Q_scalar 1 (Some (qt [1] [2]%Z)); @EGrad Q_scalar 2 (Some (qt [2; 1] [5; -10]%Z));
    @EStep Q_scalar false ] ++ ex_iter (q 1) ++ [@EStep Q_scalar false].

Lemma C34_example_case :
  keep_params (s_groups ck0) ck_es /\ (exists d, state_dict ckc (run ckc ck_es ck0) = Ok d /\ length (sd_state d) = 3) /\
  has_H (run ckc ck_es ck0) 0 = true /\
  s_amp (run ckc ck_es ck0) = None /\ s_inf (run ckc ck_es ck0) = false /\ self_contained ckc [] [] ck_es2 /\
  s_steps (run ckc ck_es2 (run ckc ck_es ck0)) = 3.
Proof.
  split; [repeat constructor|]. split.
  { destruct (state_dict ckc (run ckc ck_es ck0)) as [d|] eqn:E.
    - exists d. split; [reflexivity|]. assert (X : match state_dict ckc (run ckc ck_es ck0) with Ok d => length (sd_state d) | Err _ => 0 end = 3) by (vm_compute; reflexivity).
      rewrite E in X. exact X.
    - exfalso. assert (X : match state_dict ckc (run ckc ck_es ck0) with Ok d => true | Err _ => false end = true) by (vm_compute; reflexivity). rewrite E in X. discriminate. }
  split; [vm_compute; reflexivity|]. split; [vm_compute; reflexivity|]. split; [vm_compute; reflexivity|]. split; [|vm_compute; reflexivity].
  unfold ck_es2, ex_iter. cbn [self_contained app]. assert (M : flat_map mod_params (c_mods ckc) = [0; 1; 2]) by (vm_compute; reflexivity). rewrite M.
  repeat (split; try exact I; cbn [In]; auto 10; try (intros p; cbn [In]; tauto)).
Qed.

(** C25: two steps with scales 4 and 9, the second skipped, then a checkpoint that is loaded into a new
    optimizer of the same model, which had no history. *)
Definition ck_sc : list (@event Q_scalar) :=
  ex_iter (q 4) ++ [@ESetScale Q_scalar (q 4); @EStep Q_scalar false] ++
  ex_iter (q 9) ++ [@ESetScale Q_scalar (q 9); @EScaler Q_scalar None true; @EStep Q_scalar false].

Lemma C25_checkpoints_example_case :
  exists v d t, lives ckc (run ckc ck_sc ck0) v /\ state_dict ckc (run ckc ck_sc ck0) = Ok d /\
    load_state_dict d ck0 = (t, Ok tt) /\ lives ckc t v /\ this v = 9%Q /\ map fst (s_scales t) = [1%Z] /\ map fst (s_scales ck0) = [(-1)%Z].
Proof.
  assert (H : exists h, ctor ck ex_par [] = (h, Ok (built ck))).
  { assert (X : match snd (ctor ck ex_par []) with Ok _ => true | Err _ => false end = true) by (vm_compute; reflexivity).
    unfold built. destruct (ctor ck ex_par []) as [h [cs|e]]; [exists h; reflexivity|discriminate]. }
  destruct H as (h & H). rewrite (surjective_pairing (built ck)) in H. fold ckc ck0 in H.
  pose proof (lives_new _ _ _ _ _ _ H) as L0. destruct (lives_run _ _ _ ck_sc L0) as (v & L).
  pose proof (lives_bookkeeping _ _ _ L) as (_ & _ & _ & G).
  assert (X : match get_grad_scale (s_scales (run ckc ck_sc ck0)) (Z.of_nat (s_steps (run ckc ck_sc ck0)) - 1) with Ok v => Some (this v) | Err _ => None end = Some 9%Q) by (vm_compute; reflexivity).
  rewrite G in X. injection X as X.
  assert (Y : match state_dict ckc (run ckc ck_sc ck0) with Ok d => let (t, r) := load_state_dict d ck0 in
     match r with Ok _ => Some (map fst (s_scales t)) | Err _ => None end | Err _ => None end = Some [1%Z]) by (vm_compute; reflexivity).
  destruct (state_dict ckc (run ckc ck_sc ck0)) as [d|] eqn:D; [|discriminate].
  destruct (load_state_dict d ck0) as [t [[]|]] eqn:T; [|discriminate]. injection Y as Y.
  exists v, d, t. repeat (split; [first [assumption|reflexivity|exact (lives_loaded _ _ _ _ _ _ _ _ L0 L D T)]|]). vm_compute. reflexivity.
Qed.

(** Only the weights are handed to the optimizer: the bias is updated all the same (see C21), with a momentum
    buffer, and the optimizer cannot be saved. *)
Definition wo : @args Q_scalar := ex_args (PList [0; 2]) (qr 1 2) (qr 1 2) (q 0) 1 dense2 false false (q 1).

Lemma C34_saves_refuted_lemma :
  exists (a : @args Q_scalar) par hooks hooks' c st0 es,
    ctor a par hooks = (hooks', Ok (c, st0)) /\ keep_params (s_groups st0) es /\
    (forall r, In r (outcomes c es st0) -> r = Ok tt) /\ state_dict c (run c es st0) = Err KeyError.
Proof.
  assert (H : exists h, ctor wo ex_par [] = (h, Ok (built wo))).
  { assert (X : match snd (ctor wo ex_par []) with Ok _ => true | Err _ => false end = true) by (vm_compute; reflexivity).
    unfold built. destruct (ctor wo ex_par []) as [h [cs|e]]; [exists h; reflexivity|discriminate]. }
  destruct H as (h & H). destruct (built wo) as [c st0] eqn:E.
  assert (Ec : c = fst (built wo)) by (rewrite E; reflexivity). assert (Es : st0 = snd (built wo)) by (rewrite E; reflexivity).
  exists wo, ex_par, [], h, c, st0, (ex_iter (q 1) ++ [@EStep Q_scalar false]).
  split; [exact H|]. split; [repeat constructor|]. split.
  - assert (X : forallb is_ok (outcomes c (ex_iter (q 1) ++ [@EStep Q_scalar false]) st0) = true) by (rewrite Ec, Es; vm_compute; reflexivity).
    intros r Hr. rewrite forallb_forall in X. specialize (X r Hr). destruct r as [[]|]; [reflexivity|discriminate].
  - apply (C34_saves_fails_lemma wo ex_par [] h c st0 _ 1 H); [repeat constructor| |].
    + intros g Hg Hp. assert (X : forallb (fun g => negb (existsb (Nat.eqb 1) (g_params g))) (s_groups st0) = true) by (rewrite Es; vm_compute; reflexivity).
      rewrite forallb_forall in X. specialize (X g Hg). apply negb_true_iff in X. assert (Y : existsb (Nat.eqb 1) (g_params g) = true) by (apply existsb_exists; exists 1; split; [exact Hp|reflexivity]).
      congruence.
    + assert (X : match p_buf (s_par (run c (ex_iter (q 1) ++ [@EStep Q_scalar false]) st0) 1) with Some _ => true | None => false end = true) by (rewrite Ec, Es; vm_compute; reflexivity).
      intros Y. rewrite Y in X. discriminate.
Qed.
