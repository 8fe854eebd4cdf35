(** Lemmas: the instrumented code of Naive.v computes what the model computes, and what it warns. *)

From Coq Require Import List Arith Lia Bool ZArith.
From Verif Require Import Scalar Res Tensor TensorFacts Structures StructSpec StructDense StructPattern StructMul StructOps StructNorm StructAct
  OptimUtils UtilsFacts Optimizer Construct OptState OptRun OptSpec OptFacts OptTyped CtorSpec CtorFacts Naive NaiveSpec.
Import ListNotations.

(** ** Results *)

Lemma wbind_snd {A B} (x : WR A) (f : A -> WR B) : snd (wbind x f) = bind (snd x) (fun a => snd (f a)).
Proof. unfold wbind, bind. destruct x as [w [a|e]]; cbn [snd]; [destruct (f a)|]; reflexivity. Qed.
Lemma er_bind {A B} (x : WR A) (r : res A) (f : A -> WR B) (h : A -> res B) :
  snd x = r -> (forall a, snd (f a) = h a) -> snd (wbind x f) = bind r h.
Proof. intros <- H. rewrite wbind_snd. destruct (snd x); [apply H|reflexivity]. Qed.
Lemma ers_bind {S A B} (x : WM S A) (y : SM S A) (f : A -> WM S B) (h : A -> SM S B) :
  (forall s, snd (x s) = y s) -> (forall a s, snd (f a s) = h a s) -> forall s, snd (wsbind x f s) = sbind y h s.
Proof.
  intros H H' s. unfold wsbind, sbind. rewrite <- H. destruct (x s) as [w [s' [a|e]]]; cbn [snd]; [|reflexivity]. rewrite <- H'. destruct (f a s'); reflexivity.
Qed.
Lemma ers_forS {S A} (f : A -> WM S unit) (h : A -> SM S unit) l :
  (forall a s, snd (f a s) = h a s) -> forall s, snd (wforS f l s) = forS h l s.
Proof. intros H. induction l; [reflexivity|]. cbn [wforS forS]. apply ers_bind; [apply H|]. intros _. exact IHl. Qed.

Ltac er := repeat (first [apply er_bind; [try reflexivity|intros; try reflexivity]]).
Ltac ers := repeat (first [apply ers_bind; [try reflexivity|intros; try reflexivity]]).

Section Erase.
Context {SC : Scalar}.
Open Scope F_scope.

Lemma from_inner_er s X : snd (w_from_inner s X) = from_inner s X.
Proof.
  destruct s; try reflexivity; unfold w_from_inner, from_inner.
  - change (bind ?a ?f) with (bind (Ok tt) (fun _ => bind a f)). er. destruct X; reflexivity.
  - destruct X; [|reflexivity]. er.
  - change (bind ?a ?f) with (bind (Ok tt) (fun _ => bind a f)). er. destruct X; reflexivity.
  - change (bind ?a ?f) with (bind (Ok tt) (fun _ => bind a f)). er. destruct X; reflexivity.
  - change (bind ?a ?f) with (bind (Ok tt) (fun _ => bind a f)). er. destruct X; reflexivity.
Qed.

Lemma new_momenta_er g l K C HK HC u : snd (w_new_momenta g l K C HK HC u) = new_momenta g l K C HK HC u.
Proof.
  unfold w_new_momenta, new_momenta. apply er_bind; [apply from_inner_er|]. intros KK. apply er_bind; [apply from_inner_er|]. intros CC.
  apply er_bind; [reflexivity|]. intros [dK dC]. apply er_bind; [reflexivity|]. intros mK.
  apply er_bind; [destruct (g_kfac_like g); [reflexivity|]; er|]. intros a1.
  apply er_bind; [reflexivity|]. intros m1. apply er_bind; [destruct (g_kfac_like g); reflexivity|]. intros a2.
  apply er_bind; [reflexivity|]. intros m2. apply er_bind; [reflexivity|]. intros m3. apply er_bind; [reflexivity|]. intros mC.
  apply er_bind; [destruct (g_kfac_like g); [reflexivity|]; er|]. intros a3. apply er_bind; [reflexivity|]. intros m4.
  apply er_bind; [destruct (g_kfac_like g); reflexivity|]. intros a4. apply er_bind; [reflexivity|]. intros m5.
  apply er_bind; [reflexivity|]. intros m6. reflexivity.
Qed.

Lemma update_slots_er g l n scales s : snd (w_update_slots g l n scales s) = update_slots g l n scales s.
Proof.
  unfold w_update_slots, update_slots. revert s. apply ers_bind; [reflexivity|]. intros now. destruct (negb now); [reflexivity|].
  do 9 (apply ers_bind; [reflexivity|]; intros ?).
  apply ers_bind; [intros s; unfold wlift, lift; cbn [snd]; rewrite new_momenta_er; reflexivity|]. intros [mK mC].
  apply ers_bind; [reflexivity|]. intros [mK' mC']. do 7 (apply ers_bind; [reflexivity|]; intros ?). reflexivity.
Qed.

Lemma update_preconditioner_er c m st : snd (w_update_preconditioner c m st) = update_preconditioner c m st.
Proof.
  unfold w_update_preconditioner, update_preconditioner. revert st. do 2 (apply ers_bind; [reflexivity|]; intros ?).
  intros st. unfold on_slots. rewrite <- update_slots_er. destruct (w_update_slots _ _ _ _ _) as [w [s r]]; reflexivity.
Qed.

Lemma local_H_er g l prev x gout s : snd (w_local_H g l prev x gout s) = local_H g l prev x gout s.
Proof.
  unfold w_local_H, local_H. do 4 (apply er_bind; [reflexivity|]; intros ?). apply er_bind; [apply from_inner_er|]. intros HK.
  do 2 (apply er_bind; [reflexivity|]; intros ?). apply er_bind; [apply from_inner_er|]. reflexivity.
Qed.
Lemma accumulate_er c m x g st : snd (w_accumulate_H_terms c m x g st) = accumulate_H_terms c m x g st.
Proof.
  unfold w_accumulate_H_terms, accumulate_H_terms. revert st. do 2 (apply ers_bind; [reflexivity|]; intros ?).
  apply ers_bind; [intros s; unfold wlift, lift; cbn [snd]; rewrite local_H_er; reflexivity|]. intros [? ?]. reflexivity.
Qed.
Lemma nat_grad_er l wg bg cur K C : snd (w_nat_grad_matrix l wg bg cur K C) = nat_grad_matrix l wg bg cur K C.
Proof. unfold w_nat_grad_matrix, nat_grad_matrix. do 9 (apply er_bind; [reflexivity|]; intros ?). reflexivity. Qed.
Lemma natural_er c m st : snd (w_compute_natural_gradient c m st) = compute_natural_gradient c m st.
Proof.
  unfold w_compute_natural_gradient, compute_natural_gradient. revert st. apply ers_bind; [reflexivity|]. intros st0.
  apply ers_bind; [intros s; unfold wlift, lift; cbn [snd]; rewrite nat_grad_er; reflexivity|]. reflexivity.
Qed.
Lemma step_module_er c m st : snd (w_step_module c m st) = step_module c m st.
Proof.
  unfold w_step_module, step_module. revert st. apply ers_bind; [apply update_preconditioner_er|]. intros [].
  apply ers_bind; [apply natural_er|]. intros [w b]. do 3 (apply ers_bind; [reflexivity|]; intros ?). reflexivity.
Qed.
Lemma step_er c cl st : snd (w_step c cl st) = step c cl st.
Proof.
  unfold w_step, step. revert st. destruct cl; [reflexivity|]. apply ers_bind; [reflexivity|]. intros []. apply ers_bind; [reflexivity|]. intros st0.
  apply ers_bind; [|reflexivity]. intros s. destruct (s_inf st0); [reflexivity|]. apply ers_forS. intros. apply step_module_er.
Qed.
Lemma event_er c e st : snd (w_event_op c e st) = event_op c e st.
Proof.
  destruct e; try reflexivity.
  - revert st. unfold w_event_op, event_op. apply ers_bind; [reflexivity|]. intros st0 s. destruct (s_pend st0 out) as [[m x]|]; [|reflexivity].
    apply accumulate_er.
  - apply step_er.
Qed.
Lemma init_er c gs m : snd (w_init_slots c gs m) = init_slots c gs m.
Proof.
  unfold w_init_slots, init_slots. apply er_bind; [reflexivity|]. intros [dK dC]. do 5 (apply er_bind; [reflexivity|]; intros ?).
  destruct (feqb _ _); [reflexivity|]. er.
Qed.
Lemma buffers_er c gs : snd (w_initialize_buffers c gs) = initialize_buffers c gs.
Proof.
  unfold w_initialize_buffers, initialize_buffers. generalize (fun _ : nat => no_slots) as d. induction (c_mods c) as [|m ms IH]; intros d; [reflexivity|].
  cbn [w_foldM foldM]. apply er_bind; [|apply IH]. apply er_bind; [apply init_er|reflexivity].
Qed.
Lemma ctor_er a par hooks : snd (w_ctor a par hooks) = ctor a par hooks.
Proof.
  unfold w_ctor, ctor. revert hooks. do 3 (apply ers_bind; [reflexivity|]; intros ?). apply ers_bind; [reflexivity|]. intros [gs p2g].
  cbv zeta. apply ers_bind; [reflexivity|]. intros []. apply ers_bind; [|reflexivity]. intros s. unfold wlift, lift. cbn [snd]. rewrite buffers_er. reflexivity.
Qed.

End Erase.

(** ** Warnings *)

Definition prefix {A} (a b : list A) : Prop := exists r, b = a ++ r.
Lemma prefix_refl {A} (a : list A) : prefix a a.
Proof. exists []. symmetry. apply app_nil_r. Qed.
Lemma prefix_nil {A} (a : list A) : prefix [] a.
Proof. exists a. reflexivity. Qed.
Lemma prefix_app {A} (a b c : list A) : prefix a b -> prefix a (b ++ c).
Proof. intros [r ->]. exists (r ++ c). rewrite app_assoc. reflexivity. Qed.
Lemma prefix_after {A} (a b c : list A) : prefix b c -> prefix (a ++ b) (a ++ c).
Proof. intros [r ->]. exists r. rewrite app_assoc. reflexivity. Qed.

(** A call warns ws, or the beginning of it if it raises. *)
Definition says {A} (x : WR A) (ws : list nwarn) (Q : A -> Prop) : Prop :=
  prefix (fst x) ws /\ (forall a, snd x = Ok a -> fst x = ws /\ Q a).

Lemma says_bind {A B} (x : WR A) (f : A -> WR B) w1 w2 Q R :
  says x w1 Q -> (forall a, Q a -> says (f a) w2 R) -> says (wbind x f) (w1 ++ w2) R.
Proof.
  intros [H1 H2] H. unfold says, wbind. destruct x as [w [a|e]]; cbn [fst snd] in *.
  - destruct (H2 a eq_refl) as [-> HQ]. destruct (H a HQ) as [G1 G2]. destruct (f a) as [w' r]; cbn [fst snd] in *. split; [apply prefix_after; exact G1|].
    intros b Eb. destruct (G2 b Eb) as [-> HR]. auto.
  - split; [apply prefix_app; exact H1|discriminate].
Qed.
Lemma says_silent {A} (r : res A) (Q : A -> Prop) : (forall a, r = Ok a -> Q a) -> says (silent r) [] Q.
Proof. intros H. split; [apply prefix_refl|]. intros a E. split; [reflexivity|]. apply H. exact E. Qed.
Lemma says_called {A} c m (r : res A) (Q : A -> Prop) : naive c m = [] -> (forall a, r = Ok a -> Q a) -> says (called c m r) [] Q.
Proof. intros N H. unfold called. rewrite N. apply says_silent. exact H. Qed.
Lemma says_weak {A} (x : WR A) w (Q R : A -> Prop) : says x w Q -> (forall a, snd x = Ok a -> Q a -> R a) -> says x w R.
Proof. intros [H1 H2] H. split; [exact H1|]. intros a E. destruct (H2 a E) as [E' HQ]. split; [exact E'|]. apply H; assumption. Qed.
Ltac nobody := apply says_silent; intros; exact I.

(** The same for code with a state; the state afterwards is known from [event_er] and its like. *)
Definition tells {S A} (x : WM S A) (s : S) (ws : list nwarn) : Prop :=
  prefix (fst (x s)) ws /\ (forall s' a, snd (x s) = (s', Ok a) -> fst (x s) = ws).
Lemma tells_bind {S A B} (x : WM S A) (f : A -> WM S B) s w1 w2 :
  tells x s w1 -> (forall s' a, snd (x s) = (s', Ok a) -> tells (f a) s' w2) -> tells (wsbind x f) s (w1 ++ w2).
Proof.
  intros [H1 H2] H. unfold tells, wsbind. destruct (x s) as [w [s' [a|e]]]; cbn [fst snd] in *.
  - rewrite (H2 s' a eq_refl). destruct (H s' a eq_refl) as [G1 G2]. destruct (f a s') as [w' r]; cbn [fst snd] in *. split; [apply prefix_after; exact G1|].
    intros s2 b Eb. rewrite (G2 _ _ Eb). reflexivity.
  - split; [apply prefix_app; exact H1|discriminate].
Qed.
Lemma tells_quiet {S A} (x : SM S A) s : tells (quiet x) s [].
Proof. split; [apply prefix_refl|reflexivity]. Qed.
Lemma tells_quiet_bind {S A B} (x : SM S A) (f : A -> WM S B) s w :
  (forall s' a, x s = (s', Ok a) -> tells (f a) s' w) -> tells (wsbind (quiet x) f) s w.
Proof. intros H. change w with ([] ++ w). apply tells_bind; [apply tells_quiet|]. exact H. Qed.
Lemma tells_wlift {S A} (x : WR A) (s : S) w Q : says x w Q -> tells (wlift x) s w.
Proof. intros [H1 H2]. split; [exact H1|]. intros s' a E. unfold wlift in E. cbn [snd] in E. injection E as _ E. destruct (H2 a E). assumption. Qed.

(** The warning of a Gram matrix. *)
Definition tw (c : cls) : list nwarn := match c with CTril | CTriu => [(c, FromMatInner)] | _ => [] end.
Lemma tw_gram c : gram_warns c (tw c).
Proof. destruct c; try (right; intros [E|E]; discriminate); left; [left|right]; reflexivity. Qed.

Lemma own_used c : In c supported_structures ->
  naive c Matmul = [] /\ naive c Rmatmat = [] /\ naive c Trace = [] /\ naive c DiagAdd = [] /\ naive c Zero = [] /\ naive c Eye = [] /\
  naive c FromInner = [] /\ naive c FromMatInner = match c with CHier _ _ => [(c, FromMatInner)] | _ => tw c end.
Proof. intros H. cbn in H. destruct H as [<-|[<-|[<-|[<-|[<-|[<-|[]]]]]]]; repeat split; reflexivity. Qed.

Section Says.
Context {SC : Scalar} {FL : FieldLaws SC}.
Open Scope F_scope.

Lemma from_inner_says s X : In (cls_of s) supported_structures -> says (w_from_inner s X) (tw (cls_of s)) (fun r => from_inner s X = Ok r).
Proof.
  intros H. apply (says_weak _ _ (fun _ => True)); [|intros a E _; rewrite <- from_inner_er; exact E].
  destruct (own_used _ H) as (_ & NR & _ & _ & _ & _ & NI & NM).
  destruct s; cbn [cls_of tw] in *; unfold w_from_inner; cbn [cls_of].
  - change (@nil nwarn) with (@nil nwarn ++ []). eapply says_bind; [apply says_called; [exact NI|intros; exact I]|]. intros _ _.
    change (@nil nwarn) with (@nil nwarn ++ []).
    apply says_bind with (Q := fun _ => True); [destruct X; [apply says_called; [exact NR|auto]|nobody]|]. intros r _. apply says_called; [exact NM|auto].
  - apply says_called; [exact NI|auto].
  - destruct X as [x|]; [|apply says_called; [exact NI|auto]].
    change (@nil nwarn) with (@nil nwarn ++ []). apply says_bind with (Q := fun _ => True); [apply says_called; [exact NR|auto]|].
    intros r _. apply says_called; [exact NM|auto].
  - apply says_called; [exact NI|auto].
  - change [(CTril, FromMatInner)] with ([] ++ [(CTril, FromMatInner)]). eapply says_bind; [apply says_called; [exact NI|intros; exact I]|]. intros _ _.
    change [(CTril, FromMatInner)] with ([] ++ [(CTril, FromMatInner)]).
    apply says_bind with (Q := fun _ => True); [destruct X; [apply says_called; [exact NR|auto]|nobody]|]. intros r _.
    unfold w_from_mat_inner, called. rewrite NM. split; [apply prefix_refl|auto].
  - change [(CTriu, FromMatInner)] with ([] ++ [(CTriu, FromMatInner)]). eapply says_bind; [apply says_called; [exact NI|intros; exact I]|]. intros _ _.
    change [(CTriu, FromMatInner)] with ([] ++ [(CTriu, FromMatInner)]).
    apply says_bind with (Q := fun _ => True); [destruct X; [apply says_called; [exact NR|auto]|nobody]|]. intros r _.
    unfold w_from_mat_inner, called. rewrite NM. split; [apply prefix_refl|auto].
  - exfalso. cbn in H. intuition discriminate.
Qed.

Definition supp (c : cls) : Prop := In c supported_structures.

Lemma local_H_says g l prev x gout s cK cC dK dC :
  supp cK -> supp cC -> typed cK cC dK dC s -> says (w_local_H g l prev x gout s) (tw cK ++ tw cC) (fun _ => True).
Proof.
  intros UK UC [(K & EK & VK) (C & EC & VC) _ _ _ _]. apply valid_cls in VK, VC. unfold w_local_H. rewrite EK, EC. cbn [lookup].
  change (tw cK ++ tw cC) with ([] ++ [] ++ [] ++ [] ++ tw cK ++ tw cC).
  apply says_bind with (Q := fun _ => True); [nobody|]. intros A _. apply says_bind with (Q := fun _ => True); [nobody|]. intros B _.
  apply says_bind with (Q := fun k => k = K); [apply says_silent; intros k E; injection E as <-; reflexivity|]. intros ? ->.
  apply says_bind with (Q := fun k => k = C); [apply says_silent; intros k E; injection E as <-; reflexivity|]. intros ? ->.
  rewrite <- VK at 1. eapply says_bind; [apply from_inner_says; rewrite VK; exact UK|]. intros HK _.
  change (tw cC) with ([] ++ [] ++ tw cC). apply says_bind with (Q := fun _ => True); [nobody|]. intros p _.
  apply says_bind with (Q := fun _ => True); [nobody|]. intros B' _.
  rewrite <- (app_nil_r (tw cC)). rewrite <- VC at 1. eapply says_bind; [apply from_inner_says; rewrite VC; exact UC|]. intros HC _. nobody.
Qed.

Lemma new_momenta_says g l K C HK HC u cK cC dK dC :
  usable cK dK -> usable cC dC -> supp cK -> supp cC -> preconditioner_dims l = Ok (dK, dC) ->
  valid cK dK K -> valid cC dC C -> valid cK dK HK -> valid cC dC HC ->
  says (w_new_momenta g l K C HK HC u) (tw cK ++ tw cC) (fun _ => True).
Proof.
  intros UK UC SK SC' Ed VK VC VHK VHC. pose proof UK as (OK & DK & _). pose proof UC as (OC & DC & _).
  destruct (own_used _ SK) as (_ & _ & TK & AK & ZK & _). destruct (own_used _ SC') as (_ & _ & TC & AC & ZC & _).
  pose proof (valid_cls _ _ _ VK) as CK. pose proof (valid_cls _ _ _ VC) as CC. pose proof (valid_cls _ _ _ VHK) as CHK. pose proof (valid_cls _ _ _ VHC) as CHC.
  destruct (from_inner_none_act cK dK K OK DK VK) as (KK & EKK & VKK & _). destruct (from_inner_none_act cC dC C OC DC VC) as (CCm & ECC & VCC & _).
  pose proof (valid_cls _ _ _ VKK) as CKK. pose proof (valid_cls _ _ _ VCC) as CCC.
  destruct (zeros_ok cK dK OK (or_introl DK)) as (zK & EzK & VzK & _). destruct (zeros_ok cC dC OC (or_introl DC)) as (zC & EzC & VzC & _).
  unfold w_new_momenta.
  rewrite <- CK at 1. eapply says_bind; [apply from_inner_says; rewrite CK; exact SK|]. cbv beta. intros k1 E1. rewrite EKK in E1. injection E1 as <-.
  rewrite <- (app_nil_r (tw cC)). rewrite <- CC at 1. eapply says_bind; [apply from_inner_says; rewrite CC; exact SC'|]. cbv beta. intros k2 E2. rewrite ECC in E2. injection E2 as <-.
  cbv zeta.
  assert (B : forall A B (x : WR A) (f : A -> WR B) (Q : A -> Prop) R, says x [] Q -> (forall a, Q a -> says (f a) [] R) -> says (wbind x f) [] R).
  { intros A B x f Q R H1 H2. change (@nil nwarn) with (@nil nwarn ++ []). eapply says_bind; eassumption. }
  eapply (B _ _ _ _ (fun p => p = (dK, dC))); [apply says_silent; intros p E; congruence|]. intros [d1 d2] E. injection E as -> ->.
  eapply (B _ _ _ _ (fun k => k = zK)); [apply says_called; [rewrite CK; exact ZK|]; rewrite CK; intros k E; congruence|]. intros k ->.
  eapply (B _ _ _ _ (fun _ => True)).
  { destruct (g_kfac_like g); [nobody|]. eapply (B _ _ _ _ (fun _ => True)); [apply says_called; [rewrite CHC; exact TC|auto]|]. intros t _. nobody. }
  intros a _. eapply (B _ _ _ _ (valid cK dK)); [apply says_silent; intros k E; destruct (add__ok cK dK zK HK a OK VzK VHK) as (r & Er & V & _); congruence|]. intros k Vk.
  eapply (B _ _ _ _ (fun _ => True)).
  { destruct (g_kfac_like g); [nobody|]. apply says_called; [rewrite CCC; exact TC|auto]. }
  intros a2 _. eapply (B _ _ _ _ (valid cK dK)); [apply says_silent; intros k' E; destruct (add__ok cK dK k KK (g_damping g * a2) OK Vk VKK) as (r & Er & V & _); congruence|]. intros k' Vk'.
  eapply (B _ _ _ _ (fun _ => True)); [apply says_called; [rewrite (valid_cls _ _ _ Vk'); exact AK|auto]|]. intros k3 _.
  eapply (B _ _ _ _ (fun k => k = zC)); [apply says_called; [rewrite CC; exact ZC|]; rewrite CC; intros k4 E; congruence|]. intros k4 ->.
  eapply (B _ _ _ _ (fun _ => True)).
  { destruct (g_kfac_like g); [nobody|]. eapply (B _ _ _ _ (fun _ => True)); [apply says_called; [rewrite CHK; exact TK|auto]|]. intros t _. nobody. }
  intros a3 _. eapply (B _ _ _ _ (valid cC dC)); [apply says_silent; intros k4 E; destruct (add__ok cC dC zC HC a3 OC VzC VHC) as (r & Er & V & _); congruence|]. intros k4 Vk4.
  eapply (B _ _ _ _ (fun _ => True)).
  { destruct (g_kfac_like g); [nobody|]. apply says_called; [rewrite CKK; exact TK|auto]. }
  intros a4 _. eapply (B _ _ _ _ (valid cC dC)); [apply says_silent; intros k5 E; destruct (add__ok cC dC k4 CCm (g_damping g * a4) OC Vk4 VCC) as (r & Er & V & _); congruence|]. intros k5 Vk5.
  eapply (B _ _ _ _ (fun _ => True)); [apply says_called; [rewrite (valid_cls _ _ _ Vk5); exact AC|auto]|]. intros k6 _. nobody.
Qed.

Lemma update_slots_tells g l n scales s cK cC dK dC :
  usable cK dK -> usable cC dC -> supp cK -> supp cC -> preconditioner_dims l = Ok (dK, dC) -> typed cK cC dK dC s ->
  tells (w_update_slots g l n scales) s (if Nat.eqb (n mod g_T g) 0 then tw cK ++ tw cC else []).
Proof.
  intros UK UC SK SC' Ed [(K & EK & VK) (C & EC & VC) _ _ THK THC]. unfold w_update_slots.
  destruct (own_used _ SK) as (MK & _). destruct (own_used _ SC') as (MC & _).
  apply tells_quiet_bind. intros s0 now E. unfold lift in E. injection E as <- E. unfold is_update_step in E.
  destruct (Nat.eqb (g_T g) 0); [discriminate|]. injection E as <-. destruct (Nat.eqb (n mod g_T g) 0); cbn [negb]; [|apply tells_quiet].
  apply tells_quiet_bind. intros s1 k1 E. unfold entry in E. rewrite EK in E. injection E as <- <-.
  apply tells_quiet_bind. intros s1 k1 E. unfold entry in E. rewrite EC in E. injection E as <- <-.
  apply tells_quiet_bind. intros s1 HK E. unfold entry in E. destruct (sl_HK s) as [HK'|] eqn:EHK; [|discriminate]. injection E as <- <-.
  apply tells_quiet_bind. intros s1 [] E. unfold modify in E. injection E as <-.
  apply tells_quiet_bind. intros s1 HC E. unfold entry in E. cbn [set_HK sl_HC] in E. destruct (sl_HC s) as [HC'|] eqn:EHC; [|discriminate]. injection E as <- <-.
  do 4 (apply tells_quiet_bind; intros ? ? _).
  rewrite <- (app_nil_r (tw cK ++ tw cC)).
  apply tells_bind; [eapply tells_wlift; eapply new_momenta_says; try eassumption; [apply THK; reflexivity|apply THC; reflexivity]|].
  intros s4 [mK mC] _. apply tells_quiet_bind. intros s5 [mK' mC'] _. do 2 (apply tells_quiet_bind; intros ? ? _).
  change (@nil nwarn) with (@nil nwarn ++ []). apply tells_bind.
  { eapply tells_wlift. apply says_called with (Q := fun _ => True); [rewrite (valid_cls _ _ _ VK); exact MK|auto]. }
  intros ? ? _. do 2 (apply tells_quiet_bind; intros ? ? _). change (@nil nwarn) with (@nil nwarn ++ []). apply tells_bind.
  { eapply tells_wlift. apply says_called with (Q := fun _ => True); [rewrite (valid_cls _ _ _ VC); exact MC|auto]. }
  intros ? ? _. apply tells_quiet_bind; intros ? ? _. apply tells_quiet.
Qed.

Lemma nat_grad_says l wg bg cur cK cC dK dC K C :
  supp cK -> supp cC -> valid cK dK K -> valid cC dC C -> says (w_nat_grad_matrix l wg bg cur (Ok K) (Ok C)) [] (fun _ => True).
Proof.
  intros SK SC' VK VC. destruct (own_used _ SK) as (MK & RK & _). destruct (own_used _ SC') as (MC & RC & _). apply valid_cls in VK, VC.
  assert (B : forall A B (x : WR A) (f : A -> WR B) (Q : A -> Prop) R, says x [] Q -> (forall a, Q a -> says (f a) [] R) -> says (wbind x f) [] R).
  { intros A B x f Q R H1 H2. change (@nil nwarn) with (@nil nwarn ++ []). eapply says_bind; eassumption. }
  unfold w_nat_grad_matrix. do 4 (eapply (B _ _ _ _ (fun _ => True)); [nobody|]; intros ? _). cbv zeta.
  eapply (B _ _ _ _ (fun k => k = K)); [apply says_silent; intros k E; injection E as <-; reflexivity|]. intros k ->.
  eapply (B _ _ _ _ (fun _ => True)); [apply says_called; [rewrite VK; exact RK|auto]|]. intros t _.
  eapply (B _ _ _ _ (fun _ => True)); [apply says_called; [rewrite VK; exact MK|auto]|]. intros t' _.
  eapply (B _ _ _ _ (fun k => k = C)); [apply says_silent; intros k E; injection E as <-; reflexivity|]. intros k ->.
  eapply (B _ _ _ _ (fun _ => True)); [apply says_called; [rewrite VC; exact RC|auto]|]. intros u _.
  apply says_called; [rewrite VC; exact MC|auto].
Qed.

End Says.
