(** Lemmas: the performance warnings of whole calls, and of the constructor. *)

From Coq Require Import List Arith Lia Bool ZArith.
From Verif Require Import Scalar Res Tensor TensorFacts Structures StructSpec StructDense StructPattern StructMul StructOps StructNorm StructAct
  OptimUtils UtilsFacts Optimizer Construct OptState OptRun OptSpec OptFacts OptTyped CtorSpec CtorFacts Naive NaiveSpec NaiveFacts.
Import ListNotations.

Section Run.
Context {SC : Scalar} {FL : FieldLaws SC}.
Open Scope F_scope.

(** What a step says for a layer. *)
Definition said (c : cfg) (ty : tys) (gs : list group) (n : nat) (m : modul) : list nwarn :=
  match get_group c gs m with
  | Ok g => let '(cK, cC, _, _) := ty m in if Nat.eqb (n mod g_T g) 0 then tw cK ++ tw cC else []
  | Err _ => []
  end.

Definition tys_supp (c : cfg) (ty : tys) : Prop :=
  forall m, In m (c_mods c) -> let '(cK, cC, _, _) := ty m in supp cK /\ supp cC.

Lemma update_preconditioner_tells c ty m st :
  tys_ok c ty -> tys_supp c ty -> In m (c_mods c) -> mod_typed ty m st ->
  tells (w_update_preconditioner c m) st (said c ty (s_groups st) (s_steps st) m).
Proof.
  intros TO TS Hm T. unfold said. specialize (TO m Hm). specialize (TS m Hm). unfold mod_typed in T.
  destruct (ty m) as [[[cK cC] dK] dC]. destruct TO as (UK & UC & Ed). destruct TS as (SK & SC').
  unfold w_update_preconditioner. apply tells_quiet_bind. intros s0 s1 E. unfold getS in E. injection E as <- <-.
  apply tells_quiet_bind. intros s0 g E. unfold lift in E. injection E as <- E. rewrite E.
  destruct (update_slots_tells g (m_layer m) (s_steps st) (s_scales st) _ _ _ _ _ UK UC SK SC' Ed T) as [H1 H2].
  unfold tells. destruct (w_update_slots _ _ _ _ _) as [w [s2 r]]. cbn [fst snd] in *. split; [exact H1|].
  intros s' a E'. injection E' as E1 E2. subst r. exact (H2 _ _ eq_refl).
Qed.

Lemma natural_tells c ty m st :
  tys_supp c ty -> In m (c_mods c) -> mod_typed ty m st -> tells (w_compute_natural_gradient c m) st [].
Proof.
  intros TS Hm T. specialize (TS m Hm). unfold mod_typed in T. destruct (ty m) as [[[cK cC] dK] dC]. destruct TS as (SK & SC').
  destruct T as [(K & EK & VK) (C & EC & VC) _ _ _ _].
  unfold w_compute_natural_gradient. apply tells_quiet_bind. intros s0 s1 E. unfold getS in E. injection E as <- <-. cbv zeta.
  rewrite EK, EC. cbn [lookup]. change (@nil nwarn) with (@nil nwarn ++ []). apply tells_bind; [eapply tells_wlift; exact (nat_grad_says _ _ _ _ _ _ _ _ K C SK SC' VK VC)|].
  intros s2 a _. apply tells_quiet.
Qed.

Lemma update_preconditioner_ty c ty m st :
  tys_ok c ty -> In m (c_mods c) -> mod_typed ty m st -> mod_typed ty m (fst (update_preconditioner c m st)).
Proof.
  intros TO Hm T. unfold update_preconditioner, sbind, getS, lift. destruct (get_group c (s_groups st) m) as [g|]; [|exact T].
  specialize (TO m Hm). unfold mod_typed in *. destruct (ty m) as [[[cK cC] dK] dC]. destruct TO as (UK & UC & Ed).
  unfold on_slots. pose proof (update_slots_typed g (m_layer m) (s_steps st) (s_scales st) _ cK cC dK dC UK UC Ed T) as [H _].
  destruct (update_slots _ _ _ _ _) as [s' r]. cbn [fst] in *. cbn. rewrite upd_eq. exact H.
Qed.

Lemma step_module_tells c ty m st :
  tys_ok c ty -> tys_supp c ty -> In m (c_mods c) -> mod_typed ty m st ->
  tells (w_step_module c m) st (said c ty (s_groups st) (s_steps st) m).
Proof.
  intros TO TS Hm T. unfold w_step_module. rewrite <- (app_nil_r (said _ _ _ _ _)).
  apply tells_bind; [apply update_preconditioner_tells; assumption|]. intros s1 [] E. rewrite update_preconditioner_er in E.
  assert (T1 : mod_typed ty m s1) by (replace s1 with (fst (update_preconditioner c m st)) by (rewrite E; reflexivity); apply update_preconditioner_ty; assumption).
  change (@nil nwarn) with (@nil nwarn ++ []). apply tells_bind; [eapply natural_tells; eassumption|]. intros s2 [w b] _.
  do 3 (apply tells_quiet_bind; intros ? ? _). apply tells_quiet.
Qed.

Lemma steps_tells c ty ms st :
  tys_ok c ty -> tys_supp c ty -> NoDup (map m_key (c_mods c)) -> incl ms (c_mods c) ->
  (forall m, In m (c_mods c) -> mod_typed ty m st) ->
  tells (wforS (w_step_module c) ms) st (concat (map (said c ty (s_groups st) (s_steps st)) ms)).
Proof.
  intros TO TS ND. revert st. induction ms as [|m ms IH]; intros st Hi T; [apply tells_quiet|].
  cbn [wforS map concat]. assert (Hm : In m (c_mods c)) by (apply Hi; left; reflexivity).
  apply tells_bind; [apply step_module_tells; auto|]. intros s1 [] E. rewrite step_module_er in E.
  assert (E1 : s1 = fst (step_module c m st)) by (rewrite E; reflexivity).
  destruct (step_module_frame c m st) as (F1 & _ & F3 & _). rewrite <- E1 in F1, F3. rewrite <- F1, <- F3. apply IH.
  - intros x Hx. apply Hi. right. exact Hx.
  - intros m' Hm'. rewrite E1. apply (step_module_ty c ty m' m TO Hm').
    + destruct (same_key (c_mods c) m' m ND Hm' Hm) as [D| ->]; [left|right; reflexivity]. congruence.
    + apply T. exact Hm'.
Qed.

Lemma ensure_frame st : s_groups (fst (ensure_scale st)) = s_groups st /\ s_steps (fst (ensure_scale st)) = s_steps st /\
  s_slots (fst (ensure_scale st)) = s_slots st /\ s_inf (fst (ensure_scale st)) = s_inf st.
Proof.
  assert (H : forall s, s_groups (fst (set_current_grad_scale s st)) = s_groups st /\ s_steps (fst (set_current_grad_scale s st)) = s_steps st /\
    s_slots (fst (set_current_grad_scale s st)) = s_slots st /\ s_inf (fst (set_current_grad_scale s st)) = s_inf st).
  { intros s. unfold set_current_grad_scale, sbind, getS, modify, lift. destruct (Nat.eqb (s_steps st) 0); [|repeat split].
    destruct (get_grad_scale _ (-1)); [|repeat split]. destruct (get_grad_scale _ 0); [|repeat split]. destruct (_ && _); repeat split. }
  unfold ensure_scale, sbind, getS. destruct (get_grad_scale _ _); [repeat split|]. destruct (s_amp st) as [[s|]|]; [apply H|repeat split|apply H].
Qed.

(** What a call says. *)
Definition event_said (c : cfg) (ty : tys) (e : event) (st : state) : list nwarn :=
  match e with
  | EBackward out g => match s_pend st out with
                       | Some (m, x) => let '(cK, cC, _, _) := ty m in tw cK ++ tw cC
                       | None => []
                       end
  | EStep false => if s_inf st then [] else concat (map (said c ty (s_groups st) (s_steps st)) (c_mods c))
  | _ => []
  end.

Lemma event_tells c ty e st :
  tys_ok c ty -> tys_supp c ty -> NoDup (map m_key (c_mods c)) -> all_typed c ty st ->
  tells (w_event_op c e) st (event_said c ty e st).
Proof.
  intros TO TS ND [TA PA]. destruct e; try apply tells_quiet; unfold w_event_op, event_said.
  - apply tells_quiet_bind. intros s0 s1 E. unfold getS in E. injection E as <- <-. destruct (s_pend st out) as [[m x]|] eqn:EP; [|apply tells_quiet].
    pose proof (PA _ _ _ EP) as Hm. specialize (TA m Hm). specialize (TS m Hm). unfold mod_typed in TA. destruct (ty m) as [[[cK cC] dK] dC]. destruct TS as (SK & SC').
    unfold w_accumulate_H_terms. do 1 (apply tells_quiet_bind; intros s0 s1 E; unfold getS in E; injection E as <- <-).
    apply tells_quiet_bind; intros s0 s1 E; unfold lift in E; injection E as <- E.
    rewrite <- (app_nil_r (tw cK ++ tw cC)). apply tells_bind; [eapply tells_wlift; eapply local_H_says; eassumption|]. intros s2 [a b] _. apply tells_quiet.
  - unfold w_step. destruct closure; [apply tells_quiet|]. apply tells_quiet_bind. intros s1 [] E.
    assert (E1 : s1 = fst (ensure_scale st)) by (rewrite E; reflexivity). destruct (ensure_frame st) as (G1 & G2 & G3 & G4). rewrite <- E1 in G1, G2, G3, G4.
    apply tells_quiet_bind. intros s2 s3 E2. unfold getS in E2. injection E2 as <- <-. rewrite G4. destruct (s_inf st).
    + apply tells_quiet_bind. intros. apply tells_quiet.
    + rewrite <- (app_nil_r (concat _)). apply tells_bind; [|intros; apply tells_quiet]. rewrite <- G1, <- G2. apply steps_tells; auto; [intros x Hx; exact Hx|].
      intros m Hm. specialize (TA m Hm). unfold mod_typed in *. rewrite G3. exact TA.
Qed.

(** ** The constructor *)

Lemma init_says c gs m : (forall g cK cC, In g gs -> g_structs g = (Some cK, Some cC) -> supp cK /\ supp cC) ->
  says (w_init_slots c gs m) [] (fun _ => True).
Proof.
  intros H.
  assert (B : forall A B (x : WR A) (f : A -> WR B) (Q : A -> Prop) R, says x [] Q -> (forall a, Q a -> says (f a) [] R) -> says (wbind x f) [] R).
  { intros A B x f Q R H1 H2. change (@nil nwarn) with (@nil nwarn ++ []). eapply says_bind; eassumption. }
  assert (N : forall A (r : res A), says (silent r) [] (fun _ => True)) by (intros; apply says_silent; auto).
  unfold w_init_slots. eapply B; [apply N|]. intros [dK dC] _. eapply (B _ _ _ _ (fun g => In g gs)); [apply says_silent; intros g E; eapply get_group_In; exact E|].
  intros g Hg. eapply (B _ _ _ _ (fun cK => fst (g_structs g) = Some cK)); [apply says_silent; intros a E; destruct (fst (g_structs g)); [injection E as <-; reflexivity|discriminate]|].
  intros cK EK. eapply (B _ _ _ _ (fun cK => snd (g_structs g) = Some cK)); [apply says_silent; intros a E; destruct (snd (g_structs g)); [injection E as <-; reflexivity|discriminate]|].
  intros cC EC. destruct (H g cK cC Hg) as [SK SC']; [destruct (g_structs g); cbn in *; congruence|].
  destruct (own_used _ SK) as (_ & _ & _ & _ & ZK & YK & _). destruct (own_used _ SC') as (_ & _ & _ & _ & ZC & YC & _).
  eapply (B _ _ _ _ (fun _ => True)); [apply says_called; auto|]. intros K _. eapply (B _ _ _ _ (fun _ => True)); [apply says_called; auto|]. intros C _.
  destruct (feqb _ _); [apply N|]. eapply (B _ _ _ _ (fun _ => True)); [apply says_called; auto|]. intros mK _.
  eapply (B _ _ _ _ (fun _ => True)); [apply says_called; auto|]. intros mC _. apply N.
Qed.

Lemma buffers_says c gs : (forall g cK cC, In g gs -> g_structs g = (Some cK, Some cC) -> supp cK /\ supp cC) ->
  says (w_initialize_buffers c gs) [] (fun _ => True).
Proof.
  intros H. unfold w_initialize_buffers. generalize (fun _ : nat => no_slots) as d. induction (c_mods c) as [|m ms IH]; intros d.
  - apply says_silent. auto.
  - cbn [w_foldM]. change (@nil nwarn) with (@nil nwarn ++ []). eapply says_bind with (Q := fun _ => True); [|intros a _; apply IH].
    change (@nil nwarn) with (@nil nwarn ++ []). eapply says_bind; [apply init_says; exact H|]. intros s _. apply says_silent. auto.
Qed.

Lemma ctor_says a par hooks :
  (forall i g c, settings a i = Some g -> fst (g_structs g) = Some c \/ snd (g_structs g) = Some c -> In c supported_structures) ->
  fst (w_ctor a par hooks) = [].
Proof.
  intros H. assert (T : tells (w_ctor a par) hooks []).
  2:{ destruct T as [[r T] _]. symmetry in T. apply app_eq_nil in T. apply T. }
  unfold w_ctor. do 2 (apply tells_quiet_bind; intros ? ? _). apply tells_quiet_bind. intros s0 gs E. unfold lift in E. injection E as <- E.
  rewrite base_init_eq in E. assert (E' : gs = groups_given a /\ disjoint (groups_given a)).
  { destruct (groups_given a) as [|g0 l] eqn:Eg; [discriminate|]. cbv zeta in E. destruct (disjoint_groups (map g_params (g0 :: l))) eqn:D; [|discriminate].
    injection E as <-. split; [reflexivity|]. apply disjoint_iff. exact D. }
  destruct E' as [-> D]. apply tells_quiet_bind. intros s1 [gs p2g] E1. unfold lift in E1. injection E1 as <- E1.
  destruct (check_param_groups_eq (a_model a) (groups_given a) D) as [(E2 & _)|(E2 & _)]; rewrite E2 in E1; [|discriminate E1]. injection E1 as <- <-.
  cbv zeta. apply tells_quiet_bind. intros s2 [] _. change (@nil nwarn) with (@nil nwarn ++ []). apply tells_bind; [|intros; apply tells_quiet].
  eapply tells_wlift. apply buffers_says. intros g cK cC Hg E3. apply in_map_iff in Hg as (gg & <- & Hg). rewrite reset_structs in E3.
  apply In_nth_error in Hg as (i & Ei). destruct (given_settings a i gg Ei) as (g & Es & Eg).
  rewrite Eg in E3. assert (E4 : g_structs g = (Some cK, Some cC)) by exact E3. split; apply (H i g _ Es); rewrite E4; auto.
Qed.

(** ** In the setting of the property theorems *)

Lemma layer_group a par c st0 m g0 gs g :
  setting a par c st0 -> get_group c (s_groups st0) m = Ok g0 -> get_group c gs m = Ok g -> groups_of_layer (s_groups st0) gs m g0 g.
Proof.
  intros ((h & h' & E) & _) G0 G. apply ctor_ok in E as (_ & -> & Es). rewrite Es in *. cbn [s_groups] in *. unfold get_group in G0, G. cbn [cfg_of c_p2g] in G0, G.
  destruct (p2g_from 0 (groups_of a) (m_weight m)) as [i|] eqn:Ep; [|destruct (m_layer m); discriminate].
  exists i. destruct (p2g_some _ _ _ _ Ep) as (_ & g1 & E1 & I1). rewrite Nat.sub_0_r in E1.
  destruct (m_layer m); try discriminate; rewrite E1 in G0; injection G0 as <-; destruct (nth_error gs i) eqn:E2; try discriminate; injection G as <-;
    split; auto.
Qed.

Lemma setting_supp a par c st0 : setting a par c st0 -> tys_supp c (ctor_ty c (s_groups st0)) /\
  forall m, In m (c_mods c) -> exists g cK cC dK dC, get_group c (s_groups st0) m = Ok g /\ g_structs g = (Some cK, Some cC) /\ ctor_ty c (s_groups st0) m = (cK, cC, dK, dC).
Proof.
  intros S. pose proof (setting_ok _ _ _ _ S) as [[NK NP] L]. destruct S as ((h & h' & E) & _ & _ & _ & SO).
  destruct (ctor_typed _ _ _ _ _ _ E NK SO L) as (_ & _ & H). split.
  - intros m Hm. destruct (H m Hm) as (g & cK & cC & dK & dC & K & C & G & Es & _ & -> & _). exact (SO g cK cC (get_group_In _ _ _ _ G) Es).
  - intros m Hm. destruct (H m Hm) as (g & cK & cC & dK & dC & K & C & G & Es & _ & T & _). exists g, cK, cC, dK, dC. auto.
Qed.

Lemma layer_tw g cK cC : g_structs g = (Some cK, Some cC) -> layer_warns g (tw cK ++ tw cC).
Proof. intros E. exists cK, cC, (tw cK), (tw cC). split; [exact E|]. split; [apply tw_gram|]. split; [apply tw_gram|reflexivity]. Qed.

Lemma due_iff T n : T <> O -> (Nat.eqb (n mod T) 0 = true <-> Nat.divide T n).
Proof. intros H. rewrite Nat.eqb_eq. apply Nat.mod_divide. exact H. Qed.

Lemma step_module_due c m st s' a : step_module c m st = (s', Ok a) -> exists g, get_group c (s_groups st) m = Ok g /\ g_T g <> O.
Proof.
  intros H. unfold step_module in H. apply sbind_ok in H as (s1 & [] & H & _). unfold update_preconditioner, sbind, getS, lift in H.
  destruct (get_group c (s_groups st) m) as [g|]; [|discriminate]. exists g. split; [reflexivity|]. intros E. unfold on_slots, update_slots, sbind, lift, is_update_step in H.
  rewrite E in H. discriminate.
Qed.

Lemma steps_due c ms st s' a : forS (step_module c) ms st = (s', Ok a) -> forall m, In m ms -> exists g, get_group c (s_groups st) m = Ok g /\ g_T g <> O.
Proof.
  revert st. induction ms as [|m ms IH]; intros st H m' Hm; [destruct Hm|]. cbn [forS] in H. apply sbind_ok in H as (s1 & [] & H1 & H).
  destruct Hm as [<-|Hm]; [eapply step_module_due; exact H1|]. destruct (IH s1 H m' Hm) as (g & G & T). exists g. split; [|exact T].
  destruct (step_module_frame c m st) as (_ & _ & F & _). rewrite H1 in F. cbn [fst] in F. rewrite <- F. exact G.
Qed.

Lemma call_exact a par c st0 es e :
  setting a par c st0 -> wf_run c es st0 -> snd (event_op c e (run c es st0)) = Ok tt ->
  call_warns c (s_groups st0) (run c es st0) e (naive_warnings c e (run c es st0)).
Proof.
  intros S W OKe. destruct (setting_typed _ _ _ _ es S W) as [TO TA]. destruct (setting_supp _ _ _ _ S) as [TS SG]. pose proof (setting_ok _ _ _ _ S) as [[NK _] _].
  set (st := run c es st0) in *. set (ty := ctor_ty c (s_groups st0)) in *.
  assert (EX : naive_warnings c e st = event_said c ty e st).
  { destruct (event_tells c ty e st TO TS NK TA) as [_ H]. unfold naive_warnings. destruct (event_op c e st) as [s' r] eqn:E. cbn [snd] in OKe. subst r.
    apply (H s' tt). rewrite event_er. exact E. }
  rewrite EX. unfold event_said. destruct e; try constructor.
  - destruct (s_pend st out) as [[m x]|] eqn:EP; [|constructor; exact EP]. pose proof (proj2 TA _ _ _ EP) as Hm.
    destruct (SG m Hm) as (g0 & cK & cC & dK & dC & G0 & Es & Ety). fold ty in Ety. rewrite Ety.
    cbn [event_op] in OKe. unfold sbind at 1, getS at 1 in OKe. rewrite EP in OKe. unfold accumulate_H_terms, sbind at 1, getS at 1, sbind at 1, lift at 1 in OKe.
    destruct (get_group c (s_groups st) m) as [g1|] eqn:G; [|discriminate].
    eapply warns_backward; [exact EP|eapply layer_group; eassumption|apply layer_tw; exact Es].
  - destruct closure; [discriminate OKe|]. cbn [event_op] in OKe. destruct (s_inf st) eqn:EI; [constructor; exact EI|]. apply warns_step; [exact EI|].
    unfold step in OKe. destruct (sbind ensure_scale _ st) as [s' r] eqn:E. cbn [snd] in OKe. subst r. apply sbind_ok in E as (s1 & [] & E1 & E).
    destruct (ensure_frame st) as (F1 & F2 & F3 & F4). rewrite E1 in F1, F2, F3, F4. cbn [fst] in F1, F2, F3, F4.
    apply sbind_ok in E as (s2 & s3 & E2 & E). unfold getS in E2. injection E2 as <- <-. rewrite F4, EI in E. apply sbind_ok in E as (s4 & [] & E4 & _).
    unfold step_all in E4. pose proof (steps_due _ _ _ _ _ E4) as DU. rewrite F1 in DU. clear - S SG DU.
    assert (P : forall ms, incl ms (c_mods c) -> Forall2 (step_warns (s_groups st0) (s_groups st) (s_steps st)) ms (map (said c ty (s_groups st) (s_steps st)) ms)).
    2:{ apply P. intros x Hx. exact Hx. }
    induction ms as [|m ms IH]; intros Hi; [constructor|]. cbn [map]. constructor; [|apply IH; intros x Hx; apply Hi; right; exact Hx].
    assert (Hm : In m (c_mods c)) by (apply Hi; left; reflexivity). destruct (DU m Hm) as (g & G & T). destruct (SG m Hm) as (g0 & cK & cC & dK & dC & G0 & Es & Ety).
    exists g0, g. split; [eapply layer_group; eassumption|]. unfold said. rewrite G. fold ty in Ety. rewrite Ety.
    pose proof (due_iff (g_T g) (s_steps st) T) as DI. destruct (Nat.eqb (s_steps st mod g_T g) 0).
    + split; [intros _; apply layer_tw; exact Es|]. intros N. exfalso. apply N, DI. reflexivity.
    + split; [|reflexivity]. intros N. apply DI in N. discriminate.
Qed.

Lemma call_only a par c st0 es e :
  setting a par c st0 -> wf_run c es st0 -> Forall (toeplitz_warning (s_groups st0)) (naive_warnings c e (run c es st0)).
Proof.
  intros S W. destruct (setting_typed _ _ _ _ es S W) as [TO TA]. destruct (setting_supp _ _ _ _ S) as [TS SG]. pose proof (setting_ok _ _ _ _ S) as [[NK _] _].
  set (st := run c es st0) in *. set (ty := ctor_ty c (s_groups st0)) in *.
  destruct (event_tells c ty e st TO TS NK TA) as [[r EX] _]. fold (naive_warnings c e st) in EX.
  assert (L : forall m, In m (c_mods c) -> let '(cK, cC, _, _) := ty m in Forall (toeplitz_warning (s_groups st0)) (tw cK ++ tw cC)).
  { intros m Hm. destruct (SG m Hm) as (g0 & cK & cC & dK & dC & G0 & Es & Ety). fold ty in Ety. rewrite Ety. apply get_group_In in G0.
    apply Forall_app. split; apply Forall_forall; intros w Hw.
    - exists g0, cK. split; [exact G0|]. rewrite Es. destruct cK; try (destruct Hw; fail); destruct Hw as [<-|[]]; unfold toeplitz; auto.
    - exists g0, cC. split; [exact G0|]. rewrite Es. destruct cC; try (destruct Hw; fail); destruct Hw as [<-|[]]; unfold toeplitz; auto. }
  assert (A : Forall (toeplitz_warning (s_groups st0)) (event_said c ty e st)).
  { destruct e; try constructor; unfold event_said.
    - destruct (s_pend st out) as [[m x]|] eqn:EP; [|constructor]. specialize (L m (proj2 TA _ _ _ EP)). destruct (ty m) as [[[cK cC] dK] dC]. exact L.
    - destruct closure; [constructor|]. destruct (s_inf st); [constructor|]. apply Forall_concat. apply Forall_forall. intros l Hl. apply in_map_iff in Hl as (m & <- & Hm).
      specialize (L m Hm). unfold said. destruct (get_group c (s_groups st) m); [|constructor]. destruct (ty m) as [[[cK cC] dK] dC]. destruct (Nat.eqb _ _); [exact L|constructor]. }
  rewrite EX in A. apply Forall_app in A as [A _]. exact A.
Qed.

End Run.
