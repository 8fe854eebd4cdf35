(** Lemmas: when [load_state_dict] succeeds, what it leaves alone, and that the hyper-parameters of the
    loading optimizer do not matter. *)

From Coq Require Import List Arith Lia Bool ZArith.
From Verif Require Import Scalar Res Tensor Structures OptimUtils Optimizer Construct OptState OptRun CtorSpec CtorFacts Checkpoint CkptFacts.
Import ListNotations.
Open Scope nat_scope.

(** ** Specification vocabulary *)
Section LoadSpec.
Context {SC : Scalar}.

(** Numbers of parameters in the groups. *)
Definition sizes (gs : list group) : list nat := map (fun g => length (g_params g)) gs.

(** Two constructor calls hand over the same parameters of the same model, in the same groups and order. *)
Definition same_parameters (a a' : args) : Prop :=
  a_model a' = a_model a /\
  match a_params a, a_params a' with
  | PNone, PNone => forall p, a_requires_grad a' p = a_requires_grad a p
  | PList ps, PList ps' => ps' = ps
  | PGroups l, PGroups l' => map fst l' = map fst l
  | _, _ => False
  end.

(** All entries of the groups but the parameters agree. *)
Definition same_entries (g g' : group) : Prop := with_params [] g' = with_params [] g.

End LoadSpec.

Section LoadFacts.
Context {SC : Scalar}.

(** ** Acceptance *)

Lemma sizes_check (own saved : list (list nat)) :
  Nat.eqb (length own) (length saved) && forallb (fun ab => Nat.eqb (length (fst ab)) (length (snd ab))) (combine own saved) = true
  <-> map (@length nat) own = map (@length nat) saved.
Proof.
  revert saved. induction own as [|a own IH]; intros [|b saved]; cbn; try (split; [discriminate|discriminate]); [tauto|].
  specialize (IH saved). destruct (Nat.eqb_spec (length a) (length b)) as [E|N]; cbn.
  - rewrite IH, E. split; [intros ->; reflexivity|intros H; injection H as H; exact H].
  - rewrite andb_false_r. split; [discriminate|]. intros H. injection H as H _. contradiction.
Qed.

Lemma load_cases d st :
  (sizes (s_groups st) = sizes (sd_groups d) /\ exists t, load_state_dict d st = (t, Ok tt)) \/
  (sizes (s_groups st) <> sizes (sd_groups d) /\ load_state_dict d st = (st, Err ValueError)).
Proof.
  pose proof (sizes_check (map g_params (s_groups st)) (map g_params (sd_groups d))) as H. rewrite !map_map in H.
  change (map (fun x => length (g_params x))) with sizes in H. unfold load_state_dict, sbind, getS, lift, modify.
  destruct (Nat.eqb (length (map g_params (s_groups st))) (length (map g_params (sd_groups d)))); cbn [andb] in H; cbn [check].
  2:{ right. split; [|reflexivity]. intros E. apply H in E. discriminate. }
  destruct (forallb _ _); cbn [check].
  - left. split; [apply H; reflexivity|]. eexists. reflexivity.
  - right. split; [|reflexivity]. intros E. apply H in E. discriminate.
Qed.

Lemma load_effect d st t :
  load_state_dict d st = (t, Ok tt) ->
  s_steps t = sd_steps d /\ s_scales t = sd_scales d /\ s_slots t = sd_slots d /\
  map g_params (s_groups t) = map g_params (s_groups st) /\ Forall2 same_entries (sd_groups d) (s_groups t) /\
  s_amp t = s_amp st /\ s_inf t = s_inf st /\ s_pend t = s_pend st /\ s_log t = s_log st /\
  forall p, p_val (s_par t p) = p_val (s_par st p) /\ p_grad (s_par t p) = p_grad (s_par st p).
Proof.
  intros H. destruct (load_cases d st) as [(E & _)|(_ & E)]; [|rewrite E in H; discriminate].
  unfold load_state_dict, sbind, getS, lift, modify in H. destruct (check _ _); [|discriminate]. destruct (check _ _); [|discriminate].
  injection H as <-. cbn. do 3 (split; [reflexivity|]).
  assert (X : map g_params (map (fun gp => with_params (snd gp) (fst gp)) (combine (sd_groups d) (map g_params (s_groups st)))) = map g_params (s_groups st)
    /\ Forall2 same_entries (sd_groups d) (map (fun gp => with_params (snd gp) (fst gp)) (combine (sd_groups d) (map g_params (s_groups st))))).
  { revert E. generalize (s_groups st) as gs. generalize (sd_groups d) as ds. clear. induction ds as [|x ds IH]; intros [|g gs] E; try discriminate.
    - split; [reflexivity|constructor].
    - cbn. injection E as _ E. destruct (IH gs E) as [I1 I2]. split; [rewrite I1; reflexivity|]. constructor; [reflexivity|exact I2]. }
  destruct X as [X1 X2]. split; [exact X1|]. split; [exact X2|]. do 4 (split; [reflexivity|]). intros p. split; reflexivity.
Qed.

(** ** Configurations that agree *)

Definition same_cfg (c c' : cfg) : Prop := c_mods c' = c_mods c /\ forall p, c_p2g c' p = c_p2g c p.

Lemma get_group_cfg c c' gs m : same_cfg c c' -> get_group c' gs m = get_group c gs m.
Proof. intros [_ H]. unfold get_group. rewrite H. reflexivity. Qed.

Lemma step_module_cfg c c' m st : same_cfg c c' -> step_module c' m st = step_module c m st.
Proof.
  intros H. assert (U : update_preconditioner c' m st = update_preconditioner c m st).
  { unfold update_preconditioner, sbind, getS, lift. rewrite (get_group_cfg c c' _ m H). reflexivity. }
  unfold step_module, sbind, getS, lift. rewrite U. destruct (update_preconditioner c m st) as [s1 [[]|]]; [|reflexivity].
  change (compute_natural_gradient c' m s1) with (compute_natural_gradient c m s1).
  destruct (compute_natural_gradient c m s1) as [s2 [[w b]|]]; [|reflexivity]. rewrite (get_group_cfg c c' _ m H). reflexivity.
Qed.

Lemma forS_ext {S A} (f g : A -> SM S unit) l s : (forall x s, f x s = g x s) -> forS f l s = forS g l s.
Proof.
  intros H. revert s. induction l as [|x l IH]; intros s; [reflexivity|]. cbn [forS]. unfold sbind. rewrite H. destruct (g x s) as [s' [[]|]]; [apply IH|reflexivity].
Qed.

Lemma step_cfg c c' b st : same_cfg c c' -> step c' b st = step c b st.
Proof.
  intros H. unfold step. destruct b; [reflexivity|]. unfold sbind, getS. destruct (ensure_scale st) as [s1 [[]|]]; [|reflexivity].
  destruct (s_inf s1).
  - unfold modify, drop_H. destruct H as [-> _]. reflexivity.
  - unfold step_all. destruct H as [E H]. rewrite E. rewrite (forS_ext (step_module c') (step_module c)); [reflexivity|].
    intros m s. apply step_module_cfg. split; assumption.
Qed.

Lemma event_cfg c c' e st : same_cfg c c' -> event_op c' e st = event_op c e st.
Proof.
  intros H. destruct e as [m x b out|out g|p g|v|a i|cl|gs]; try reflexivity; cbn [event_op].
  - unfold forward_hook, sbind, getS, modify, lift. rewrite (get_group_cfg c c' _ m H). reflexivity.
  - unfold sbind, getS. destruct (s_pend st out) as [[m x]|]; [|reflexivity].
    unfold accumulate_H_terms, sbind, getS, lift. rewrite (get_group_cfg c c' _ m H). reflexivity.
  - apply step_cfg. exact H.
Qed.

Lemma run_cfg c c' es : same_cfg c c' -> forall st, run c' es st = run c es st /\ outcomes c' es st = outcomes c es st.
Proof.
  intros H. induction es as [|e es IH]; intros st; [split; reflexivity|]. cbn [run outcomes]. rewrite (event_cfg c c' e st H).
  destruct (IH (fst (event_op c e st))) as [-> ->]. split; reflexivity.
Qed.

(** ** Constructor calls that hand over the same parameters *)

Lemma trainable_req model req req' w w' : (forall p, req' p = req p) -> fst (trainable model req' w') = fst (trainable model req w).
Proof.
  intros H. induction model as [|n model IH]; [reflexivity|]. cbn [trainable].
  rewrite (filter_ext req' req H). destruct (trainable model req' w') as [ps' ws'], (trainable model req w) as [ps ws]. cbn [fst] in IH. subst ps'.
  destruct (n_leaf n); [|reflexivity]. destruct (is_supported (n_mod n)); [reflexivity|].
  destruct (_ && w'), (_ && w); reflexivity.
Qed.

Lemma given_params a a' : same_parameters a a' -> map g_params (groups_given a') = map g_params (groups_given a).
Proof.
  intros [M P]. unfold groups_given. destruct (a_params a) as [|ps|l], (a_params a') as [|ps'|l']; try contradiction.
  - rewrite M, (trainable_req _ (a_requires_grad a) (a_requires_grad a') (a_warn a) (a_warn a') P). destruct (fst _); reflexivity.
  - subst ps'. destruct ps; reflexivity.
  - rewrite !map_map. cbn [with_params g_params]. exact P.
Qed.

Lemma p2g_params i gs gs' p : map g_params gs' = map g_params gs -> p2g_from i gs' p = p2g_from i gs p.
Proof.
  revert i gs'. induction gs as [|g gs IH]; intros i [|g' gs'] H; try discriminate; [reflexivity|]. cbn in H. injection H as H1 H2.
  cbn [p2g_from]. rewrite (IH _ _ H2), H1. reflexivity.
Qed.

Lemma ctor_same_cfg a a' par par' hooks hooks' h1 h2 c c' st st' :
  same_parameters a a' -> ctor a par hooks = (h1, Ok (c, st)) -> ctor a' par' hooks' = (h2, Ok (c', st')) ->
  same_cfg c c' /\ map g_params (s_groups st') = map g_params (s_groups st).
Proof.
  intros P H H'. apply ctor_ok in H as (_ & -> & ->). apply ctor_ok in H' as (_ & -> & ->). pose proof (given_params a a' P) as G.
  assert (G' : map g_params (groups_of a') = map g_params (groups_of a)) by (unfold groups_of; rewrite !map_params_reset; exact G).
  split; [|exact G']. split.
  - cbn [cfg_of c_mods]. unfold hooked. rewrite G. destruct P as [-> _]. reflexivity.
  - intros p. cbn [cfg_of c_p2g]. apply p2g_params. exact G'.
Qed.

Lemma replaces a a' par par' hooks hooks1 hooks' hooks2 c st0 c' st0' es es2 d :
  same_parameters a a' ->
  ctor a par hooks = (hooks1, Ok (c, st0)) -> keep_params (s_groups st0) es ->
  let st := run c es st0 in
  state_dict c st = Ok d -> s_amp st = None -> s_inf st = false ->
  (forall p, p_val (par' p) = p_val (s_par st p)) -> ctor a' par' hooks' = (hooks2, Ok (c', st0')) ->
  self_contained c [] [] es2 ->
  exists t, load_state_dict d st0' = (t, Ok tt) /\ outcomes c' es2 t = outcomes c es2 st /\
    let u := run c' es2 t in let v := run c es2 st in
    s_steps u = s_steps v /\ s_scales u = s_scales v /\ (forall k, s_slots u k = s_slots v k) /\ s_groups u = s_groups v /\
    forall p, p_val (s_par u p) = p_val (s_par v p) /\ p_buf (s_par u p) = p_buf (s_par v p).
Proof.
  intros P H K st D A I V H' C. destruct (ctor_same_cfg _ _ _ _ _ _ _ _ _ _ _ _ P H H') as (SC0 & EG).
  apply ctor_state in H as (_ & _ & _ & _ & _ & _ & HP). apply ctor_state in H' as (_ & _ & A' & I' & _ & _ & HP').
  destruct (resume c st st0' d es2 D) as (t & E1 & E2 & E3).
  - intros p Hp. destruct (in_dec Nat.eq_dec p (flat_map mod_params (c_mods c))) as [|N]; [assumption|]. exfalso. apply Hp.
    destruct (run_par c es st0 p N) as [_ E]. unfold st. rewrite E, HP. reflexivity.
  - rewrite EG. symmetry. apply keep_params_run; [exact K|reflexivity].
  - intros p. rewrite HP'. apply V.
  - congruence.
  - congruence.
  - exact C.
  - exists t. split; [exact E1|]. destruct (run_cfg c c' es2 SC0 t) as [-> ->]. auto.
Qed.

End LoadFacts.
