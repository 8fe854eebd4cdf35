(** Frame and relational reasoning for the state monad of Optimizer.v. *)

From Coq Require Import List Arith Lia Bool ZArith.
From Verif Require Import Scalar Res Tensor Structures OptimUtils Optimizer.
Import ListNotations.

(** ** What a method leaves alone *)

Definition keeps {S A} (P : S -> S -> Prop) (x : SM S A) : Prop := forall s, P s (fst (x s)).

Section Keeps.
Context {S : Type} (P : S -> S -> Prop).
Hypothesis Prefl : forall s, P s s.
Hypothesis Ptrans : forall a b c, P a b -> P b c -> P a c.

Lemma keeps_ret A (a : A) : keeps P (ret a).
Proof. intros s. apply Prefl. Qed.
Lemma keeps_raise A e : keeps P (@raise S A e).
Proof. intros s. apply Prefl. Qed.
Lemma keeps_lift A (r : res A) : keeps P (lift r).
Proof. intros s. apply Prefl. Qed.
Lemma keeps_getS : keeps P getS.
Proof. intros s. apply Prefl. Qed.
Lemma keeps_modify f : (forall s, P s (f s)) -> keeps P (modify f).
Proof. intros H s. apply H. Qed.
Lemma keeps_bind A B (x : SM S A) (f : A -> SM S B) :
  keeps P x -> (forall a, keeps P (f a)) -> keeps P (sbind x f).
Proof.
  intros Hx Hf s. unfold sbind. specialize (Hx s). destruct (x s) as [s' [a|e]]; cbn in *; [|exact Hx].
  eapply Ptrans; [exact Hx|apply Hf].
Qed.
Lemma keeps_forS A (f : A -> SM S unit) l : (forall a, In a l -> keeps P (f a)) -> keeps P (forS f l).
Proof.
  induction l; intros H; cbn [forS]; [apply keeps_ret|].
  apply keeps_bind; [apply H; left; reflexivity|]. intros _. apply IHl. intros. apply H. right. assumption.
Qed.
End Keeps.

(** ** Two runs side by side *)

Definition rel2 {S A} (R : S -> S -> Prop) (x y : SM S A) : Prop :=
  forall s t, R s t -> snd (x s) = snd (y t) /\ R (fst (x s)) (fst (y t)).

Section Rel.
Context {S : Type} (R : S -> S -> Prop).

Lemma rel2_ret A (a : A) : rel2 R (ret a) (ret a).
Proof. intros s t H. split; [reflexivity|exact H]. Qed.
Lemma rel2_lift A (r : res A) : rel2 R (lift r) (lift r).
Proof. intros s t H. split; [reflexivity|exact H]. Qed.
Lemma rel2_raise A e : rel2 R (@raise S A e) (raise e).
Proof. intros s t H. split; [reflexivity|exact H]. Qed.
Lemma rel2_modify f g : (forall s t, R s t -> R (f s) (g t)) -> rel2 R (modify f) (modify g).
Proof. intros H s t HR. split; [reflexivity|]. apply H. exact HR. Qed.
Lemma rel2_bind A B (x y : SM S A) (f g : A -> SM S B) :
  rel2 R x y -> (forall a, rel2 R (f a) (g a)) -> rel2 R (sbind x f) (sbind y g).
Proof.
  intros Hx Hf s t H. unfold sbind. destruct (Hx s t H) as [E H'].
  destruct (x s) as [s' r], (y t) as [t' r']. cbn in *. subst r'. destruct r as [a|e]; [apply Hf; exact H'|].
  split; [reflexivity|exact H'].
Qed.
Lemma rel2_forS A (f g : A -> SM S unit) l : (forall a, In a l -> rel2 R (f a) (g a)) -> rel2 R (forS f l) (forS g l).
Proof.
  induction l; intros H; cbn [forS]; [apply rel2_ret|].
  apply rel2_bind; [apply H; left; reflexivity|]. intros _. apply IHl. intros. apply H. right. assumption.
Qed.
End Rel.

Lemma sbind_ok {S A B} (x : SM S A) (f : A -> SM S B) s s' b :
  sbind x f s = (s', Ok b) -> exists s1 a, x s = (s1, Ok a) /\ f a s1 = (s', Ok b).
Proof.
  unfold sbind. destruct (x s) as [s1 [a|e]] eqn:E; intros H; [|discriminate]. exists s1, a. auto.
Qed.

Lemma upd_eq {A} (f : nat -> A) k v : upd f k v k = v.
Proof. unfold upd. rewrite Nat.eqb_refl. reflexivity. Qed.
Lemma upd_neq {A} (f : nat -> A) k v k' : k' <> k -> upd f k v k' = f k'.
Proof. intros H. unfold upd. destruct (Nat.eqb_spec k' k); [contradiction|reflexivity]. Qed.

Section State.
Context {SC : Scalar}.

(** The parameters a module updates. *)
Definition mod_params (m : modul) : list nat := m_weight m :: match m_bias m with Some b => [b] | None => [] end.

(** Everything but dictionary entry [k] and parameters [ps] is the same. *)
Definition frame (k : option nat) (ps : list nat) (s t : state) : Prop :=
  s_steps t = s_steps s /\ s_scales t = s_scales s /\ s_groups t = s_groups s /\ s_amp t = s_amp s /\
  s_inf t = s_inf s /\ s_pend t = s_pend s /\ s_log t = s_log s /\
  (forall k', Some k' <> k -> s_slots t k' = s_slots s k') /\
  (forall p, ~ In p ps -> s_par t p = s_par s p).

Lemma frame_refl k ps s : frame k ps s s.
Proof. repeat split. Qed.
Lemma frame_trans k ps a b c : frame k ps a b -> frame k ps b c -> frame k ps a c.
Proof.
  intros (A1 & A2 & A3 & A4 & A5 & A6 & A7 & A8 & A9) (B1 & B2 & B3 & B4 & B5 & B6 & B7 & B8 & B9).
  repeat split; try congruence.
  - intros k' H. rewrite B8, A8 by assumption. reflexivity.
  - intros p H. rewrite B9, A9 by assumption. reflexivity.
Qed.
Lemma frame_weaken k k' ps ps' a b :
  frame k ps a b -> (forall q, Some q = k -> k' = Some q) -> (forall p, In p ps -> In p ps') -> frame k' ps' a b.
Proof.
  intros (A1 & A2 & A3 & A4 & A5 & A6 & A7 & A8 & A9) Hk Hp. repeat split; try assumption.
  - intros q H. apply A8. intros E. apply H. symmetry. apply Hk. exact E.
  - intros p H. apply A9. intros E. apply H. apply Hp. exact E.
Qed.

Lemma on_slots_frame A k (f : SM slots A) ps : keeps (frame (Some k) ps) (on_slots k f).
Proof.
  intros st. unfold on_slots. destruct (f (s_slots st k)) as [s' r]. cbn. repeat split; cbn.
  intros k' H. apply upd_neq. congruence.
Qed.
Lemma on_par_frame A p (f : SM pslot A) k ps : In p ps -> keeps (frame k ps) (on_par p f).
Proof.
  intros Hp st. unfold on_par. destruct (f (s_par st p)) as [p' r]. cbn. repeat split; cbn.
  intros q H. apply upd_neq. intros ->. contradiction.
Qed.

Ltac kp := first [ apply frame_refl | apply frame_trans | apply keeps_ret; apply frame_refl | apply keeps_lift; apply frame_refl | apply keeps_getS; apply frame_refl ].

Lemma update_preconditioner_frame c m ps : keeps (frame (Some (m_key m)) ps) (update_preconditioner c m).
Proof.
  unfold update_preconditioner. apply keeps_bind; [apply frame_trans|kp|]. intros st.
  apply keeps_bind; [apply frame_trans|kp|]. intros g. apply on_slots_frame.
Qed.

Lemma compute_natural_gradient_frame c m k ps : keeps (frame k ps) (compute_natural_gradient c m).
Proof.
  unfold compute_natural_gradient. apply keeps_bind; [apply frame_trans|kp|]. intros st.
  apply keeps_bind; [apply frame_trans|kp|]. intros g. kp.
Qed.

Lemma step_module_frame c m : keeps (frame (Some (m_key m)) (mod_params m)) (step_module c m).
Proof.
  unfold step_module. apply keeps_bind; [apply frame_trans|apply update_preconditioner_frame|]. intros _.
  apply keeps_bind; [apply frame_trans|apply compute_natural_gradient_frame|]. intros [w b].
  apply keeps_bind; [apply frame_trans|kp|]. intros st.
  apply keeps_bind; [apply frame_trans|kp|]. intros g.
  apply keeps_bind; [apply frame_trans|apply on_par_frame; left; reflexivity|]. intros _.
  unfold mod_params. destruct (m_bias m); [|kp]. destruct b; [|kp]. apply on_par_frame. right. left. reflexivity.
Qed.

(** ** Agreement of two states on what a module reads *)

Definition agree (m : modul) (s t : state) : Prop :=
  s_steps t = s_steps s /\ s_scales t = s_scales s /\ s_groups t = s_groups s /\
  s_slots t (m_key m) = s_slots s (m_key m) /\
  (forall p, In p (mod_params m) -> s_par t p = s_par s p).

Lemma agree_refl m s : agree m s s.
Proof. repeat split. Qed.

Lemma on_slots_agree A m (f : SM slots A) : rel2 (agree m) (on_slots (m_key m) f) (on_slots (m_key m) f).
Proof.
  intros s t (A1 & A2 & A3 & A4 & A5). unfold on_slots. rewrite A4. destruct (f (s_slots s (m_key m))) as [s' r].
  cbn. split; [reflexivity|]. repeat split; cbn; try assumption. rewrite !upd_eq. reflexivity.
Qed.
Lemma on_par_agree A m p (f : SM pslot A) : In p (mod_params m) -> rel2 (agree m) (on_par p f) (on_par p f).
Proof.
  intros Hp s t (A1 & A2 & A3 & A4 & A5). unfold on_par. rewrite (A5 p Hp). destruct (f (s_par s p)) as [p' r].
  cbn. split; [reflexivity|]. repeat split; cbn; try assumption. intros q Hq.
  unfold upd. destruct (Nat.eqb q p); [reflexivity|apply A5; exact Hq].
Qed.

Lemma group_bind A c m (f : group -> SM state A) s :
  (let! st := getS in let! g := lift (get_group c (s_groups st) m) in f g) s =
  match get_group c (s_groups s) m with Ok g => f g s | Err e => (s, Err e) end.
Proof. reflexivity. Qed.

(** The groups of two configurations agree on a module. *)
Lemma step_module_agree c c' m :
  c_p2g c (m_weight m) = c_p2g c' (m_weight m) -> rel2 (agree m) (step_module c m) (step_module c' m).
Proof.
  intros Hg.
  assert (GG : forall gs, get_group c gs m = get_group c' gs m) by (intros gs; unfold get_group; rewrite Hg; reflexivity).
  unfold step_module. apply rel2_bind.
  - intros s t H. unfold update_preconditioner, sbind, getS, lift.
    pose proof H as (A1 & A2 & A3 & A4 & A5). rewrite A1, A2, A3, GG.
    destruct (get_group c' (s_groups s) m) as [g|e]; [|split; [reflexivity|exact H]].
    apply on_slots_agree. exact H.
  - intros _. apply rel2_bind.
    + intros s t H. unfold compute_natural_gradient, sbind, getS, lift.
      pose proof H as (A1 & A2 & A3 & A4 & A5). rewrite A1, A2, A4.
      rewrite (A5 (m_weight m)) by (left; reflexivity).
      replace (option_map (fun b => grad_data (s_par t b)) (m_bias m)) with (option_map (fun b => grad_data (s_par s b)) (m_bias m)).
      * match goal with |- context [nat_grad_matrix ?a ?b ?c ?d ?e ?f] => destruct (nat_grad_matrix a b c d e f) end;
          split; try reflexivity; exact H.
      * unfold mod_params in A5. destruct (m_bias m) as [b|]; [|reflexivity]. cbn. rewrite A5 by (right; left; reflexivity). reflexivity.
    + intros [w b]. intros s t H. rewrite !group_bind.
      pose proof H as (A1 & A2 & A3 & A4 & A5). rewrite A3, GG.
      destruct (get_group c' (s_groups s) m) as [g|e]; [|split; [reflexivity|exact H]].
      revert s t H A1 A2 A3 A4 A5. intros s t H _ _ _ _ _. revert s t H.
      change (rel2 (agree m) (let! _ := on_par (m_weight m) (param_step g w) in
          match m_bias m, b with Some p, Some d => on_par p (param_step g d) | _, _ => ret tt end)
        (let! _ := on_par (m_weight m) (param_step g w) in
          match m_bias m, b with Some p, Some d => on_par p (param_step g d) | _, _ => ret tt end)).
      apply rel2_bind; [apply on_par_agree; left; reflexivity|]. intros _.
      destruct (m_bias m) as [p|] eqn:Eb; [|apply rel2_ret]. destruct b as [d|]; [|apply rel2_ret].
      apply on_par_agree. unfold mod_params. rewrite Eb. right. left. reflexivity.
Qed.

(** ** The loop over the modules *)

Definition cfg_ok (c : cfg) : Prop :=
  NoDup (map m_key (c_mods c)) /\ NoDup (flat_map mod_params (c_mods c)).

Lemma forS_app {S A} (f : A -> SM S unit) l1 l2 s :
  forS f (l1 ++ l2) s = (let! _ := forS f l1 in forS f l2) s.
Proof.
  revert s. induction l1; intros s; [reflexivity|]. cbn [app forS]. unfold sbind in *.
  destruct (f a s) as [s' [[]|e]]; [apply IHl1|reflexivity].
Qed.

(** The components a module sees, and those every module leaves alone. *)
Definition view (m : modul) (s t : state) : Prop :=
  agree m s t /\ s_amp t = s_amp s /\ s_inf t = s_inf s /\ s_pend t = s_pend s /\ s_log t = s_log s.

Lemma view_refl m s : view m s s.
Proof. split; [apply agree_refl|]. repeat split. Qed.
Lemma view_trans m a b c : view m a b -> view m b c -> view m a c.
Proof.
  intros ((A1 & A2 & A3 & A4 & A5) & A6 & A7 & A8 & A9) ((B1 & B2 & B3 & B4 & B5) & B6 & B7 & B8 & B9).
  repeat split; try congruence. intros p H. rewrite B5, A5 by assumption. reflexivity.
Qed.

Definition apart (m m' : modul) : Prop :=
  m_key m' <> m_key m /\ (forall p, In p (mod_params m) -> ~ In p (mod_params m')).

Lemma step_module_apart c m m' : apart m m' -> keeps (view m) (step_module c m').
Proof.
  intros [Hk Hp] s. destruct (step_module_frame c m' s) as (A1 & A2 & A3 & A4 & A5 & A6 & A7 & A8 & A9).
  repeat split; try assumption.
  - apply A8. congruence.
  - intros p H. apply A9. apply Hp. exact H.
Qed.

Lemma steps_apart c m l : (forall m', In m' l -> apart m m') -> keeps (view m) (forS (step_module c) l).
Proof.
  intros H. apply keeps_forS; [apply view_refl|apply view_trans|]. intros m' Hm. apply step_module_apart. apply H. exact Hm.
Qed.

Lemma nodup_apart (l1 l2 : list modul) m :
  NoDup (map m_key (l1 ++ m :: l2)) -> NoDup (flat_map mod_params (l1 ++ m :: l2)) ->
  forall m', In m' l1 \/ In m' l2 -> apart m m'.
Proof.
  intros Nk Np m' Hm. split.
  - intros E. rewrite map_app in Nk. cbn in Nk. apply NoDup_remove_2 in Nk. apply Nk.
    rewrite <- E. apply in_app_iff. destruct Hm; [left|right]; apply in_map; assumption.
  - intros p Hp Hp'. rewrite flat_map_app in Np. cbn [flat_map] in Np.
    destruct Hm as [Hm|Hm].
    + assert (D : forall q, In q (flat_map mod_params l1) -> ~ In q (mod_params m ++ flat_map mod_params l2)).
      { intros q Hq Hq'. clear - Np Hq Hq'. induction (flat_map mod_params l1) as [|x xs IH]; [contradiction|].
        cbn in Np. apply NoDup_cons_iff in Np as [N1 N2]. destruct Hq as [->|Hq]; [|apply IH; assumption].
        apply N1. apply in_app_iff. right. exact Hq'. }
      apply (D p).
      * apply in_flat_map. exists m'. split; assumption.
      * apply in_app_iff. left. exact Hp.
    + assert (N2 : NoDup (mod_params m ++ flat_map mod_params l2)).
      { clear - Np. induction (flat_map mod_params l1); [exact Np|]. cbn in Np. apply NoDup_cons_iff in Np as [_ N]. auto. }
      assert (I2 : In p (flat_map mod_params l2)) by (apply in_flat_map; exists m'; split; assumption).
      clear - N2 Hp I2. induction (mod_params m) as [|x xs IH]; [contradiction|]. cbn in N2.
      apply NoDup_cons_iff in N2 as [N1 N2]. destruct Hp as [->|Hp]; [|apply IH; assumption].
      apply N1. apply in_app_iff. right. exact I2.
Qed.

Lemma keeps_at {S A} (P : S -> S -> Prop) (x : SM S A) s s' r : keeps P x -> x s = (s', r) -> P s s'.
Proof. intros H E. specialize (H s). rewrite E in H. exact H. Qed.

(** In a successful pass over the modules each module does what it would do alone. *)
Lemma step_all_view c st st' m :
  cfg_ok c -> In m (c_mods c) -> step_all c st = (st', Ok tt) ->
  exists st1, step_module c m st = (st1, Ok tt) /\
    s_slots st' (m_key m) = s_slots st1 (m_key m) /\
    (forall p, In p (mod_params m) -> s_par st' p = s_par st1 p).
Proof.
  intros [Nk Np] Hm H. unfold step_all in H. apply in_split in Hm as (l1 & l2 & E). rewrite E in *.
  rewrite forS_app in H. apply sbind_ok in H as (sa & [] & H1 & H2). cbn [forS] in H2.
  apply sbind_ok in H2 as (sb & [] & H2 & H3).
  pose proof (nodup_apart l1 l2 m Nk Np) as AP.
  pose proof (keeps_at _ _ _ _ _ (steps_apart c m l1 (fun m' H => AP m' (or_introl H))) H1) as [V1 _].
  pose proof (keeps_at _ _ _ _ _ (steps_apart c m l2 (fun m' H => AP m' (or_intror H))) H3) as [V3 _].
  destruct (step_module_agree c c m eq_refl st sa V1) as [R1 R2].
  rewrite H2 in R1, R2. cbn in R1, R2. destruct (step_module c m st) as [st1 r]. cbn in R1, R2. subst r.
  exists st1. split; [reflexivity|].
  destruct V3 as (_ & _ & _ & V4 & V5), R2 as (_ & _ & _ & R4 & R5).
  split; [congruence|]. intros p Hp. rewrite V5, R5 by assumption. reflexivity.
Qed.

Lemma steps_frame c l st st' r :
  forS (step_module c) l st = (st', r) ->
  s_steps st' = s_steps st /\ s_scales st' = s_scales st /\ s_groups st' = s_groups st /\ s_amp st' = s_amp st /\
  s_inf st' = s_inf st /\ s_pend st' = s_pend st /\ s_log st' = s_log st /\
  (forall k, ~ In k (map m_key l) -> s_slots st' k = s_slots st k) /\
  (forall p, ~ In p (flat_map mod_params l) -> s_par st' p = s_par st p).
Proof.
  revert st. induction l as [|m l IH]; intros st H.
  - injection H as <- <-. repeat split.
  - cbn [forS] in H. unfold sbind in H. pose proof (step_module_frame c m st) as F.
    destruct (step_module c m st) as [s1 [[]|e]].
    + apply IH in H. cbn in F. destruct F as (A1 & A2 & A3 & A4 & A5 & A6 & A7 & A8 & A9).
      destruct H as (B1 & B2 & B3 & B4 & B5 & B6 & B7 & B8 & B9). repeat split; try congruence.
      * intros k Hk. cbn in Hk. rewrite B8, A8; [reflexivity|intros E; apply Hk; left; congruence|intros E; apply Hk; right; exact E].
      * intros p Hp. cbn [flat_map] in Hp. rewrite in_app_iff in Hp. rewrite B9, A9; [reflexivity|tauto|tauto].
    + injection H as <- <-. cbn in F. destruct F as (A1 & A2 & A3 & A4 & A5 & A6 & A7 & A8 & A9).
      repeat split; try assumption.
      * intros k Hk. apply A8. intros E. apply Hk. left. congruence.
      * intros p Hp. apply A9. cbn [flat_map] in Hp. rewrite in_app_iff in Hp. tauto.
Qed.

(** ** ensure_scale and step *)

Lemma get_put_same d t v : get_grad_scale (put_scale d t v) t = Ok v.
Proof.
  induction d as [|[t' v'] d IH]; cbn; [rewrite Z.eqb_refl; reflexivity|].
  destruct (Z.eqb_spec t' t); cbn; [rewrite Z.eqb_refl; reflexivity|]. destruct (Z.eqb_spec t' t); [contradiction|exact IH].
Qed.
Lemma get_put_other d t v t' : t' <> t -> get_grad_scale (put_scale d t v) t' = get_grad_scale d t'.
Proof.
  intros N. induction d as [|[u w] d IH]; cbn.
  - destruct (Z.eqb_spec t t'); [congruence|reflexivity].
  - destruct (Z.eqb_spec u t); cbn.
    + destruct (Z.eqb_spec t t'); [congruence|]. destruct (Z.eqb_spec u t'); [congruence|reflexivity].
    + destruct (Z.eqb_spec u t'); [reflexivity|exact IH].
Qed.
Lemma get_remove d n t : (Z.of_nat n - 1 <= t)%Z -> get_grad_scale (remove_used d n) t = get_grad_scale d t.
Proof.
  intros H. unfold remove_used. induction d as [|[u w] d IH]; cbn [filter get_grad_scale fst]; [reflexivity|].
  destruct (Z.ltb_spec u (Z.of_nat n - 1)); cbn [negb].
  - destruct (Z.eqb_spec u t); [lia|exact IH].
  - cbn [get_grad_scale]. rewrite IH. reflexivity.
Qed.

(** Only scales and warnings change. *)
Definition only_scales (s t : state) : Prop :=
  s_steps t = s_steps s /\ s_slots t = s_slots s /\ s_par t = s_par s /\ s_groups t = s_groups s /\
  s_amp t = s_amp s /\ s_inf t = s_inf s /\ s_pend t = s_pend s.

Lemma set_current_grad_scale_frame v s s' r :
  set_current_grad_scale v s = (s', r) ->
  only_scales s s' /\ s_scales s' = put_scale (s_scales s) (Z.of_nat (s_steps s)) v.
Proof.
  unfold set_current_grad_scale, sbind, getS, modify, lift, ret. intros H.
  destruct (Nat.eqb (s_steps s) 0); [|injection H as <- _; repeat split].
  destruct (get_grad_scale _ (-1)); [|injection H as <- _; repeat split].
  destruct (get_grad_scale _ 0); [|injection H as <- _; repeat split].
  destruct (_ && _)%bool; injection H as <- _; repeat split.
Qed.

(** The scale used by the next step: already announced, from the scaler, or one. *)
Definition step_scale (st : state) : res F :=
  match get_grad_scale (s_scales st) (Z.of_nat (s_steps st)) with
  | Ok v => Ok v
  | Err _ => match s_amp st with None => Ok f1 | Some (Some v) => Ok v | Some None => Err AttributeError end
  end.

Lemma ensure_scale_frame st st' r :
  ensure_scale st = (st', r) ->
  only_scales st st' /\
  (forall t, t <> Z.of_nat (s_steps st) -> get_grad_scale (s_scales st') t = get_grad_scale (s_scales st) t) /\
  (r = Ok tt -> get_grad_scale (s_scales st') (Z.of_nat (s_steps st)) = step_scale st).
Proof.
  unfold ensure_scale, step_scale. cbn [sbind getS]. unfold sbind, getS, ret, raise.
  destruct (get_grad_scale (s_scales st) (Z.of_nat (s_steps st))) as [v|e] eqn:E.
  - intros H. injection H as <- <-. repeat split. intros _. exact E.
  - destruct (s_amp st) as [[v|]|].
    + intros H. apply set_current_grad_scale_frame in H as [F ->]. split; [exact F|]. split.
      * intros t Ht. apply get_put_other. exact Ht.
      * intros _. apply get_put_same.
    + intros H. injection H as <- <-. repeat split. discriminate.
    + intros H. apply set_current_grad_scale_frame in H as [F ->]. split; [exact F|]. split.
      * intros t Ht. apply get_put_other. exact Ht.
      * intros _. apply get_put_same.
Qed.

Definition finish (st : state) : state :=
  set_scales (remove_used (s_scales st) (S (s_steps st))) (set_steps (S (s_steps st)) st).

(** The three outcomes of [step]. *)
Lemma step_cases c closure st st' r :
  step c closure st = (st', r) ->
  (closure = true /\ st' = st /\ r = Err NotImplementedError) \/
  (closure = false /\ exists st1,
     (exists e, ensure_scale st = (st1, Err e) /\ st' = st1 /\ r = Err e) \/
     ensure_scale st = (st1, Ok tt) /\
       ((s_inf st = true /\ r = Ok tt /\ st' = finish (drop_H c (set_log (s_log st1 ++ [WarnInf]) st1))) \/
        (s_inf st = false /\ exists st2 r2, step_all c st1 = (st2, r2) /\
           match r2 with Ok _ => r = Ok tt /\ st' = finish st2 | Err e => r = Err e /\ st' = st2 end))).
Proof.
  unfold step. destruct closure.
  - intros H. injection H as <- <-. left. auto.
  - intros H. right. split; [reflexivity|]. unfold sbind at 1 in H.
    destruct (ensure_scale st) as [st1 [[]|e]] eqn:E.
    2:{ exists st1. left. exists e. injection H as <- <-. auto. }
    exists st1. right. split; [reflexivity|].
    assert (Ei : s_inf st1 = s_inf st).
    { apply ensure_scale_frame in E as ((_ & _ & _ & _ & _ & Ei & _) & _). exact Ei. }
    unfold sbind, getS, modify in H. rewrite Ei in H. destruct (s_inf st).
    + left. injection H as <- <-. auto.
    + right. split; [reflexivity|]. destruct (step_all c st1) as [st2 [[]|e]].
      * exists st2, (Ok tt). injection H as <- <-. auto.
      * exists st2, (Err e). injection H as <- <-. auto.
Qed.

End State.
