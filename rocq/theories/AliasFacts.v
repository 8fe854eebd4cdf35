(** Facts about the heap model of Alias.v. *)

From Coq Require Import List Arith Lia Bool ZArith FunctionalExtensionality.
From Verif Require Import Scalar Res Tensor Structures OptimUtils Optimizer Construct OptState OptRun OptMom CtorFacts Checkpoint CkptFacts Alias.
Import ListNotations.

Section AliasFacts.
Context {SC : Scalar}.

(** All addresses of an optimizer are allocated, distinct parameters have distinct buffers. *)
Definition sound (h : heap) (o : opt) : Prop :=
  o_slots o < h_next h /\ o_scales o < h_next h /\ (forall p l, o_bufs o p = Some l -> l < h_next h) /\
  (forall p q l, o_bufs o p = Some l -> o_bufs o q = Some l -> p = q).

(** [h'] is [h] but for the objects of [o] and new ones. *)
Definition only (o : opt) (h h' : heap) : Prop :=
  h_next h <= h_next h' /\
  (forall a, a < h_next h -> a <> o_slots o -> h_slots h' a = h_slots h a) /\
  (forall a, a < h_next h -> a <> o_scales o -> h_scales h' a = h_scales h a) /\
  (forall l, l < h_next h -> (forall p, o_bufs o p <> Some l) -> h_bufs h' l = h_bufs h l).

Lemma write_bufs_spec ps st : forall h bufs h' bufs',
  write_bufs ps st h bufs = (h', bufs') ->
  (forall p l, bufs p = Some l -> l < h_next h) ->
  (forall p q l, bufs p = Some l -> bufs q = Some l -> p = q) ->
  h_slots h' = h_slots h /\ h_scales h' = h_scales h /\ h_next h <= h_next h' /\
  (forall p l, bufs' p = Some l -> l < h_next h') /\
  (forall p q l, bufs' p = Some l -> bufs' q = Some l -> p = q) /\
  (forall p l, bufs p = Some l -> bufs' p = Some l) /\
  (forall p l, bufs' p = Some l -> bufs p = Some l \/ h_next h <= l) /\
  (forall l, l < h_next h -> (forall p, bufs p <> Some l) -> h_bufs h' l = h_bufs h l) /\
  (forall p, ~ In p ps -> bufs' p = bufs p /\ forall l, bufs p = Some l -> h_bufs h' l = h_bufs h l) /\
  (forall p, In p ps -> p_buf (s_par st p) = None -> bufs' p = bufs p /\ forall l, bufs p = Some l -> h_bufs h' l = h_bufs h l) /\
  (forall p b, In p ps -> p_buf (s_par st p) = Some b -> exists l, bufs' p = Some l /\ h_bufs h' l = b).
Proof.
  induction ps as [|q ps IH]; intros h bufs h' bufs' E Hlt Hinj.
  - injection E as <- <-. repeat split; trivial; try lia; auto; intros; contradiction.
  - cbn [write_bufs] in E. destruct (p_buf (s_par st q)) as [b|] eqn:Eb.
    2:{ destruct (IH _ _ _ _ E Hlt Hinj) as (A1 & A2 & A3 & A4 & A5 & A6 & A7 & A8 & A9 & A10 & A11).
        repeat split; trivial.
        - apply A9. intros X. apply H. right. exact X.
        - apply A9. intros X. apply H. right. exact X.
        - destruct H as [<-|H]; [|apply A10; assumption].
          destruct (in_dec Nat.eq_dec q ps) as [I|N]; [apply A10; assumption|apply A9, N].
        - destruct H as [<-|H]; [|apply A10; assumption].
          destruct (in_dec Nat.eq_dec q ps) as [I|N]; [apply A10; assumption|apply A9, N].
        - intros p b [<-|I] Ep; [congruence|]. apply A11; assumption. }
    destruct (bufs q) as [l|] eqn:El.
    + apply IH in E; [|exact Hlt|exact Hinj]. cbn [h_slots h_scales h_bufs h_next] in E.
      destruct E as (A1 & A2 & A3 & A4 & A5 & A6 & A7 & A8 & A9 & A10 & A11).
      repeat split; trivial.
      * intros l' Hl' N. rewrite A8 by assumption. apply upd_neq. intros ->. apply (N q). exact El.
      * apply A9. intros X. apply H. right. exact X.
      * intros l' El'. destruct (A9 p) as [_ B]; [intros X; apply H; right; exact X|].
        rewrite (B l' El'). apply upd_neq. intros ->. apply H. left. apply (Hinj q p l); assumption.
      * destruct H as [<-|H]; [congruence|]. apply A10; assumption.
      * intros l' El'. destruct H as [<-|H]; [congruence|]. destruct (A10 p H H0) as [_ B]. rewrite (B l' El').
        apply upd_neq. intros ->. assert (p = q) by (apply (Hinj p q l); assumption). subst. congruence.
      * intros p b' I Ep. destruct (in_dec Nat.eq_dec p ps) as [I'|N]; [apply A11; assumption|].
        destruct I as [<-|I]; [|contradiction]. rewrite Eb in Ep. injection Ep as <-.
        exists l. destruct (A9 q N) as [B1 B2]. split; [rewrite B1; exact El|]. rewrite (B2 l El). apply upd_eq.
    + apply IH in E.
      2:{ intros p l. cbn [h_next]. unfold upd. destruct (Nat.eqb p q); intros X; [injection X as <-; lia|]. specialize (Hlt _ _ X). lia. }
      2:{ intros p p' l. unfold upd. destruct (Nat.eqb_spec p q) as [Ep|N], (Nat.eqb_spec p' q) as [Ep'|N']; intros X Y.
          - congruence.
          - injection X as <-. specialize (Hlt _ _ Y). lia.
          - injection Y as <-. specialize (Hlt _ _ X). lia.
          - apply (Hinj p p' l); assumption. }
      cbn [h_slots h_scales h_bufs h_next] in E.
      destruct E as (A1 & A2 & A3 & A4 & A5 & A6 & A7 & A8 & A9 & A10 & A11).
      assert (Old : forall p l', bufs p = Some l' -> upd bufs q (Some (h_next h)) p = Some l').
      { intros p l' X. rewrite upd_neq; [exact X|]. intros ->. congruence. }
      repeat split; trivial.
      * lia.
      * intros p l' X. apply A6, Old, X.
      * intros p l' X. destruct (A7 p l' X) as [Y|Y]; [|right; lia].
        unfold upd in Y. destruct (Nat.eqb p q); [injection Y as <-; right; lia|left; exact Y].
      * intros l' Hl' N. rewrite A8; [apply upd_neq; lia|lia|].
        intros p. unfold upd. destruct (Nat.eqb p q); [intros X; injection X as X; lia|apply N].
      * destruct (A9 p) as [B _]; [intros X; apply H; right; exact X|]. rewrite B. apply upd_neq.
        intros ->. apply H. left. reflexivity.
      * intros l' El'. destruct (A9 p) as [_ B]; [intros X; apply H; right; exact X|].
        rewrite (B l' (Old _ _ El')). apply upd_neq. specialize (Hlt _ _ El'). lia.
      * destruct H as [<-|H]; [congruence|]. destruct (A10 p H H0) as [B _]. rewrite B. apply upd_neq. intros ->. congruence.
      * intros l' El'. destruct H as [<-|H]; [congruence|]. destruct (A10 p H H0) as [_ B]. rewrite (B l' (Old _ _ El')).
        apply upd_neq. specialize (Hlt _ _ El'). lia.
      * intros p b' I Ep. destruct (in_dec Nat.eq_dec p ps) as [I'|N]; [apply A11; assumption|].
        destruct I as [<-|I]; [|contradiction]. rewrite Eb in Ep. injection Ep as <-.
        exists (h_next h). destruct (A9 q N) as [B1 B2]. split; [rewrite B1; apply upd_eq|].
        rewrite B2 by apply upd_eq. apply upd_eq.
Qed.

(** Momentum buffers outside the hooked modules never change. *)
Lemma event_buf c e st p :
  ~ In p (flat_map mod_params (c_mods c)) -> p_buf (s_par (fst (event_op c e st)) p) = p_buf (s_par st p).
Proof. intros N. apply (run_par c [e] st p N). Qed.

(** Buffers are never removed. *)
Lemma param_step_buf g d p : p_buf p <> None -> p_buf (fst (param_step g d p)) <> None.
Proof.
  intros H. unfold param_step, sbind, getS, lift, modify.
  destruct (if feqb (g_wd g) f0 then _ else _) as [d'|e]; [|exact H].
  destruct (feqb (g_momentum g) f0).
  - destruct (t_add_alpha _ _ _); cbn; exact H.
  - cbn. destruct (t_add _ _) as [b|e]; cbn; [|discriminate].
    destruct (t_add_alpha _ _ _); cbn; discriminate.
Qed.

Definition bufs_grow (s t : state) : Prop := forall p, p_buf (s_par s p) <> None -> p_buf (s_par t p) <> None.
Lemma grow_trans a b c : bufs_grow a b -> bufs_grow b c -> bufs_grow a c.
Proof. intros H1 H2 p Hp. apply H2, H1, Hp. Qed.
Lemma grow_same s t : s_par t = s_par s -> bufs_grow s t.
Proof. intros E p Hp. rewrite E. exact Hp. Qed.

Lemma step_module_grow c m : keeps bufs_grow (step_module c m).
Proof.
  assert (R : forall s, bufs_grow s s) by (intros s; apply grow_same; reflexivity).
  assert (P : forall p g d, keeps bufs_grow (on_par p (param_step g d))).
  { intros p g d st q Hq. unfold on_par. pose proof (param_step_buf g d (s_par st p)) as B.
    destruct (param_step g d (s_par st p)) as [p' r]. cbn in *. unfold upd. destruct (Nat.eqb_spec q p) as [E|N]; [|exact Hq].
    subst q. apply B, Hq. }
  unfold step_module. apply keeps_bind; [exact grow_trans| |].
  { unfold update_preconditioner. apply keeps_bind; [exact grow_trans|intros s; apply R|]. intros st.
    apply keeps_bind; [exact grow_trans|intros s; apply R|]. intros g s. unfold on_slots.
    destruct (update_slots _ _ _ _ _) as [s' r]. apply grow_same. reflexivity. }
  intros _. apply keeps_bind; [exact grow_trans| |].
  { unfold compute_natural_gradient. apply keeps_bind; [exact grow_trans|intros s; apply R|]. intros st.
    apply keeps_bind; [exact grow_trans|intros s; apply R|]. intros N s. apply R. }
  intros [w b]. apply keeps_bind; [exact grow_trans|intros s; apply R|]. intros st.
  apply keeps_bind; [exact grow_trans|intros s; apply R|]. intros g.
  apply keeps_bind; [exact grow_trans|apply P|]. intros _.
  destruct (m_bias m); [|intros s; apply R]. destruct b; [|intros s; apply R]. apply P.
Qed.

Lemma event_grow_other c e st : (forall b, e <> EStep b) -> bufs_grow st (fst (event_op c e st)).
Proof. intros N q Hq. rewrite (proj2 (event_par_keep c e st q N)). exact Hq. Qed.

Lemma event_grow c e st : bufs_grow st (fst (event_op c e st)).
Proof.
  destruct e as [m x b out|out g|p g|v|a i|cl|gs].
  6:{
  cbn [event_op]. destruct (step c cl st) as [st' r] eqn:H. cbn [fst].
  apply step_cases in H as [(_ & -> & _)|(_ & st1 & [(e & E & -> & _)|(E & [(_ & _ & ->)|(_ & st2 & r2 & E2 & X)])])].
  - apply grow_same. reflexivity.
  - apply ensure_scale_frame in E as ((_ & _ & E & _) & _). apply grow_same. exact E.
  - apply ensure_scale_frame in E as ((_ & _ & E & _) & _). apply grow_same. exact E.
  - apply ensure_scale_frame in E as ((_ & _ & E & _) & _).
    assert (G : bufs_grow st1 st2).
    { pose proof (keeps_forS bufs_grow (fun s => grow_same s s eq_refl) grow_trans _ (step_module c) (c_mods c) (fun m _ => step_module_grow c m) st1) as K.
      unfold step_all in E2. rewrite E2 in K. exact K. }
    apply grow_trans with st1; [apply grow_same; exact E|].
    destruct r2; destruct X as [_ ->]; exact G. }
  all: apply event_grow_other; discriminate.
Qed.

(** The heap model does what Optimizer.v does, and touches only the optimizer's own objects. *)
Lemma event_seen c e h o h' o' r :
  sound h o -> h_event c e h o = (h', o', r) ->
  seen h' o' = fst (event_op c e (seen h o)) /\ r = snd (event_op c e (seen h o)) /\
  sound h' o' /\ only o h h' /\ o_slots o' = o_slots o /\ o_scales o' = o_scales o /\
  (forall p l, o_bufs o' p = Some l -> o_bufs o p = Some l \/ h_next h <= l).
Proof.
  intros (S1 & S2 & S3 & S4) E. unfold h_event in E. pose proof (event_grow c e (seen h o)) as G.
  pose proof (fun p => event_buf c e (seen h o) p) as B.
  destruct (event_op c e (seen h o)) as [st r0] eqn:Eo. cbn [fst snd] in *.
  destruct (write_bufs _ st _ _) as [h2 bufs] eqn:Ew. injection E as <- <- <-.
  apply write_bufs_spec in Ew; [|exact S3|exact S4]. cbn [h_slots h_scales h_bufs h_next] in Ew.
  destruct Ew as (A1 & A2 & A3 & A4 & A5 & A6 & A7 & A8 & A9 & A10 & A11).
  split; [|split; [reflexivity|split; [|split; [|split; [reflexivity|split; [reflexivity|exact A7]]]]]].
  - unfold seen. cbn [o_base o_slots o_scales o_bufs]. rewrite A1, A2, !upd_eq.
    destruct st as [n sc sl par gs am inf pend lg]. cbn in *. f_equal. apply functional_extensionality. intros p.
    assert (X : option_map (h_bufs h2) (bufs p) = p_buf (par p)).
    { destruct (in_dec Nat.eq_dec p (flat_map mod_params (c_mods c))) as [I|N].
      - destruct (p_buf (par p)) as [b|] eqn:Eb.
        + destruct (A11 p b I Eb) as (l & -> & <-). reflexivity.
        + destruct (A10 p I Eb) as [-> _]. destruct (o_bufs o p) as [l|] eqn:El; [|reflexivity].
          exfalso. apply (G p); [cbn; rewrite El; discriminate|exact Eb].
      - destruct (A9 p N) as [-> A9']. rewrite (B p N). cbn. destruct (o_bufs o p) as [l|]; [|reflexivity].
        cbn. rewrite (A9' l eq_refl). reflexivity. }
    rewrite X. destruct (par p); reflexivity.
  - repeat split; cbn; trivial; lia.
  - repeat split.
    + exact A3.
    + intros a _ N. rewrite A1. apply upd_neq, N.
    + intros a _ N. rewrite A2. apply upd_neq, N.
    + exact A8.
Qed.

Lemma run_seen c es : forall h o h' o',
  sound h o -> h_run c es h o = (h', o') ->
  seen h' o' = run c es (seen h o) /\ sound h' o' /\ only o h h' /\
  o_slots o' = o_slots o /\ o_scales o' = o_scales o /\
  (forall p l, o_bufs o' p = Some l -> o_bufs o p = Some l \/ h_next h <= l).
Proof.
  induction es as [|e es IH]; intros h o h' o' S E.
  - injection E as <- <-. split; [reflexivity|]. split; [exact S|]. split; [|split; [reflexivity|split; [reflexivity|auto]]].
    repeat split; trivial.
  - cbn [h_run] in E. destruct (h_event c e h o) as [[h1 o1] r] eqn:E1.
    destruct (event_seen c e h o h1 o1 r S E1) as (A1 & _ & A3 & A4 & A5 & A6 & A7).
    destruct (IH h1 o1 h' o' A3 E) as (B1 & B2 & B3 & B4 & B5 & B6).
    split; [rewrite B1, A1; reflexivity|]. split; [exact B2|].
    destruct A4 as (C1 & C2 & C3 & C4), B3 as (D1 & D2 & D3 & D4).
    split; [|split; [congruence|split; [congruence|]]].
    + split; [lia|]. split; [|split].
      * intros a La N. rewrite D2, C2; trivial; [lia|congruence].
      * intros a La N. rewrite D3, C3; trivial; [lia|congruence].
      * intros l Ll N. rewrite D4, C4; trivial; [lia|].
        intros p X. destruct (A7 p l X) as [Y|Y]; [apply (N p), Y|lia].
    + intros p l X. destruct (B6 p l X) as [Y|Y]; [|right; lia].
      destruct (A7 p l Y) as [Z|Z]; [left; exact Z|right; exact Z].
Qed.

(** A dictionary that shares nothing with the optimizer. *)
Definition apart_from (h : heap) (o : opt) (d : pdict) : Prop :=
  (forall i l, In (i, l) (pd_state d) -> l < h_next h /\ forall p, o_bufs o p <> Some l) /\
  match pd_attrs d with
  | None => True
  | Some (_, a, b) => a < h_next h /\ b < h_next h /\ a <> o_scales o /\ b <> o_slots o
  end.

Lemma only_content o h h' d : only o h h' -> apart_from h o d -> content h' d = content h d.
Proof.
  intros (O1 & O2 & O3 & O4) [A1 A2]. unfold content. destruct (pd_attrs d) as [[[n a] b]|]; [|reflexivity].
  destruct A2 as (La & Lb & Na & Nb). rewrite (O2 b Lb Nb), (O3 a La Na). do 2 f_equal.
  apply map_ext_in. intros [i l] I. destruct (A1 i l I) as [Ll N]. cbn. rewrite (O4 l Ll N). reflexivity.
Qed.

Lemma copy_bufs_spec l : forall h r h',
  (forall i a, In (i, a) l -> a < h_next h) -> copy_bufs l h = (r, h') ->
  h_slots h' = h_slots h /\ h_scales h' = h_scales h /\ h_next h <= h_next h' /\
  (forall a, a < h_next h -> h_bufs h' a = h_bufs h a) /\
  (forall i a, In (i, a) r -> h_next h <= a < h_next h') /\ NoDup (map snd r) /\
  map fst r = map fst l /\
  map (fun kl => (fst kl, h_bufs h' (snd kl))) r = map (fun kl => (fst kl, h_bufs h (snd kl))) l.
Proof.
  induction l as [|[i a] l IH]; intros h r h' Hl E; cbn [copy_bufs] in E.
  - injection E as <- <-. repeat split; trivial; try (destruct H). constructor.
  - destruct (copy_bufs l _) as [r1 h1] eqn:E1. injection E as <- <-.
    apply IH in E1; [|cbn [h_next]; intros j b Hj; specialize (Hl j b (or_intror Hj)); lia].
    cbn [h_slots h_scales h_bufs h_next] in E1. destruct E1 as (A1 & A2 & A3 & A4 & A5 & A6 & A7 & A8).
    assert (La : a < h_next h) by (apply (Hl i a); left; reflexivity).
    split; [exact A1|]. split; [exact A2|]. split; [lia|]. split; [|split; [|split; [|split]]].
    + intros b Lb. rewrite A4 by lia. apply upd_neq. lia.
    + intros j b [X|X]; [injection X as <- <-; lia|]. specialize (A5 j b X). lia.
    + cbn. constructor; [|exact A6]. intros X. apply in_map_iff in X as ([j b] & Eb & Ib). cbn in Eb. subst b.
      specialize (A5 _ _ Ib). lia.
    + cbn. rewrite A7. reflexivity.
    + cbn [map fst snd]. rewrite A8. f_equal.
      * f_equal. rewrite A4 by lia. apply upd_eq.
      * apply map_ext_in. intros [j b] Ib. cbn. f_equal. apply upd_neq. specialize (Hl j b (or_intror Ib)). lia.
Qed.

Lemma deepcopy_spec d h d' h' :
  (forall i l, In (i, l) (pd_state d) -> l < h_next h) ->
  (forall n a b, pd_attrs d = Some (n, a, b) -> a < h_next h /\ b < h_next h) ->
  deepcopy d h = (d', h') ->
  content h' d' = content h d /\ h_next h <= h_next h' /\
  (forall a, a < h_next h -> h_slots h' a = h_slots h a /\ h_scales h' a = h_scales h a /\ h_bufs h' a = h_bufs h a) /\
  (forall i l, In (i, l) (pd_state d') -> h_next h <= l < h_next h') /\ NoDup (map snd (pd_state d')) /\
  pd_groups d' = pd_groups d /\ map fst (pd_state d') = map fst (pd_state d) /\
  (forall n a b, pd_attrs d' = Some (n, a, b) -> h_next h <= a < h_next h' /\ h_next h <= b < h_next h') /\
  (pd_attrs d <> None -> pd_attrs d' <> None).
Proof.
  intros Hb Ha E. unfold deepcopy in E. destruct (copy_bufs (pd_state d) h) as [bs h1] eqn:E1.
  apply copy_bufs_spec in E1; [|exact Hb]. destruct E1 as (A1 & A2 & A3 & A4 & A5 & A6 & A7 & A8).
  destruct (pd_attrs d) as [[[n a] b]|] eqn:Ed.
  - destruct (Ha n a b eq_refl) as [La Lb]. injection E as <- <-. cbn [pd_groups pd_state pd_attrs h_next].
    split; [|split; [lia|split; [|split; [|split; [exact A6|split; [reflexivity|split; [exact A7|split]]]]]]].
    + unfold content. rewrite Ed. cbn [pd_attrs pd_groups pd_state h_bufs h_scales h_slots]. rewrite !upd_eq, A1, A2. do 2 f_equal. exact A8.
    + intros x Lx. cbn [h_slots h_scales h_bufs]. rewrite !upd_neq by lia. rewrite A1, A2. repeat split. apply A4, Lx.
    + intros i l I. specialize (A5 i l I). lia.
    + intros n' a' b' X. injection X as <- <- <-. lia.
    + discriminate.
  - injection E as <- <-. cbn [pd_groups pd_state pd_attrs].
    split; [|split; [lia|split; [|split; [|split; [exact A6|split; [reflexivity|split; [exact A7|split]]]]]]].
    + unfold content. rewrite Ed. reflexivity.
    + intros x Lx. rewrite A1, A2. repeat split. apply A4, Lx.
    + intros i l I. specialize (A5 i l I). lia.
    + discriminate.
    + congruence.
Qed.

(** Addresses of a dictionary made by an optimizer. *)
Lemma state_dict_addr c h o d :
  sound h o -> h_state_dict c h o = Ok d ->
  pd_attrs d = Some (s_steps (o_base o), o_scales o, o_slots o) /\
  (forall i l, In (i, l) (pd_state d) -> exists p, o_bufs o p = Some l /\ number_of (concat (map g_params (s_groups (o_base o)))) p = Ok i) /\
  state_dict c (seen h o) = match content h d with Some v => Ok v | None => Err KeyError end.
Proof.
  intros S E. unfold h_state_dict in E. apply bind_ok in E as (gs & Eg & E). apply bind_ok in E as (bs & Eb & E).
  injection E as <-. cbn [pd_attrs pd_state]. split; [reflexivity|].
  apply mapM_in in Eb. split.
  - intros i l I. clear -Eb I. induction Eb as [|p x ps xs Hx F IH]; [destruct I|].
    destruct I as [->|I]; [|apply IH, I]. apply bind_ok in Hx as (j & Ej & Hx). apply bind_ok in Hx as (k & Ek & Hx).
    injection Hx as <- <-. exists p. split; [|exact Ej]. destruct (o_bufs o p); [cbn in Ek; congruence|discriminate Ek].
  - unfold state_dict. rewrite Eg. cbn [bind content pd_attrs pd_groups pd_state].
    assert (X : mapM (fun p => let* i := number_of (concat (map g_params (s_groups (seen h o)))) p in
                               let* b := lookup (p_buf (s_par (seen h o) p)) in Ok (i, b)) (with_buffer c (seen h o))
                = Ok (map (fun kl => (fst kl, h_bufs h (snd kl))) bs)).
    { clear -Eb. induction Eb as [|p x ps xs Hx F IH]; [reflexivity|].
      apply bind_ok in Hx as (j & Ej & Hx). apply bind_ok in Hx as (k & Ek & Hx). injection Hx as <-.
      cbn [mapM]. rewrite Ej. cbn [bind]. destruct (o_bufs o p) as [l|] eqn:El; [|discriminate Ek].
      cbn in Ek. injection Ek as ->.
      assert (L : lookup (p_buf (s_par (seen h o) p)) = Ok (h_bufs h k)) by (cbn; rewrite El; reflexivity).
      rewrite L. cbn [bind]. rewrite IH. reflexivity. }
    rewrite X. reflexivity.
Qed.

(** ** Loading *)

Lemma loaded_locs_in id_map saved p l : loaded_locs id_map saved p = Some l -> exists i, In (i, l) saved /\ dict_get i id_map = Some p.
Proof.
  unfold loaded_locs.
  assert (G : forall saved f, (fold_left (fun f kb => match dict_get (fst kb) id_map with Some p => upd f p (Some (snd kb)) | None => f end) saved f) p = Some l ->
     f p = Some l \/ exists i, In (i, l) saved /\ dict_get i id_map = Some p).
  { clear saved. induction saved as [|[i a] saved IH]; intros f E; cbn [fold_left fst snd] in E; [left; exact E|].
    destruct (IH _ E) as [X|(j & I & D)]; [|right; exists j; split; [right; exact I|exact D]].
    destruct (dict_get i id_map) as [q|] eqn:Eq; [|left; exact X].
    unfold upd in X. destruct (Nat.eqb_spec p q) as [Ep|N]; [|left; exact X].
    injection X as <-. right. exists i. split; [left; reflexivity|congruence]. }
  intros E. destruct (G saved _ E) as [X|X]; [discriminate X|exact X].
Qed.

Lemma loaded_locs_buffers id_map saved (hb : nat -> tensor) p :
  option_map hb (loaded_locs id_map saved p) = loaded_buffers id_map (map (fun kl => (fst kl, hb (snd kl))) saved) p.
Proof.
  unfold loaded_locs, loaded_buffers.
  assert (G : forall saved f g, (forall p, option_map hb (f p) = g p) ->
     option_map hb (fold_left (fun f kb => match dict_get (fst kb) id_map with Some p => upd f p (Some (snd kb)) | None => f end) saved f p)
     = fold_left (fun f kb => match dict_get (fst kb) id_map with Some p => upd f p (Some (snd kb)) | None => f end) (map (fun kl => (fst kl, hb (snd kl))) saved) g p).
  { clear saved. induction saved as [|[i a] saved IH]; intros f g H; cbn [fold_left map fst snd]; [apply H|].
    apply IH. intros q. destruct (dict_get i id_map) as [p'|]; [|apply H]. unfold upd. destruct (Nat.eqb q p'); [reflexivity|apply H]. }
  apply G. reflexivity.
Qed.

(** Loading gives the state of Checkpoint.v. *)
Lemma set_all n sc sl gs par st :
  set_slots sl (set_scales sc (set_steps n (set_groups gs (set_par par st)))) = mkState n sc sl par gs (s_amp st) (s_inf st) (s_pend st) (s_log st).
Proof. destruct st. reflexivity. Qed.

Lemma load_seen d h o o' d' :
  h_load d h o = (o', d', Ok tt) ->
  exists n a b v, pd_attrs d = Some (n, a, b) /\ content h d = Some v /\ load_state_dict v (seen h o) = (seen h o', Ok tt) /\
  o_slots o' = b /\ o_scales o' = a /\ pd_attrs d' = None /\
  (forall p l, o_bufs o' p = Some l -> exists i, In (i, l) (pd_state d)).
Proof.
  unfold h_load. destruct (pd_attrs d) as [[[n a] b]|] eqn:Ea; [|intros X; discriminate X].
  destruct (content h d) as [v|] eqn:Ev; [|intros X; discriminate X].
  destruct (load_state_dict v (seen h o)) as [st r] eqn:El. destruct r as [u|e]; [|intros X; discriminate X].
  intros X. injection X as <- <-. exists n, a, b, v. repeat split; trivial.
  2:{ intros p l X. cbn [o_bufs] in X. apply loaded_locs_in in X as (i & I & _). exists i. exact I. }
  destruct u. rewrite El. f_equal.
  unfold content in Ev. rewrite Ea in Ev. injection Ev as <-.
  unfold load_state_dict in El. cbn [sd_groups sd_state sd_steps sd_scales sd_slots] in El.
  unfold sbind, getS, lift, modify in El.
  destruct (check _ _) as [?|?]; [|discriminate El]. destruct (check _ _) as [?|?]; [|discriminate El].
  injection El as <-. rewrite set_all. unfold seen. cbn [o_base o_slots o_scales o_bufs s_steps s_par s_groups s_amp s_inf s_pend s_log p_val p_grad p_buf]. f_equal. apply functional_extensionality. intros p.
  f_equal. symmetry. apply loaded_locs_buffers.
Qed.

(** Loading a popped dictionary. *)
Lemma load_popped d h o : pd_attrs d = None -> h_load d h o = (o, d, Err KeyError).
Proof. intros E. unfold h_load. rewrite E. reflexivity. Qed.
Lemma load_pops d h o o' d' r : h_load d h o = (o', d', r) -> pd_attrs d' = None.
Proof.
  unfold h_load. destruct (pd_attrs d) as [[[n a] b]|] eqn:Ea.
  - unfold content. rewrite Ea. destruct (load_state_dict _ _) as [st [u|e]]; intros X; injection X as <- <- <-; reflexivity.
  - intros X. injection X as <- <- <-. exact Ea.
Qed.

(** ** Two optimizers *)

Definition disjoint (o o' : opt) : Prop :=
  o_slots o <> o_slots o' /\ o_scales o <> o_scales o' /\ forall p q l, o_bufs o p = Some l -> o_bufs o' q <> Some l.

Lemma only_seen o o' h h' : only o h h' -> sound h o' -> disjoint o o' -> seen h' o' = seen h o' /\ sound h' o'.
Proof.
  intros (O1 & O2 & O3 & O4) (S1 & S2 & S3 & S4) (D1 & D2 & D3). split.
  - unfold seen. rewrite (O2 _ S1), (O3 _ S2) by congruence. f_equal. apply functional_extensionality. intros p. f_equal.
    destruct (o_bufs o' p) as [l|] eqn:E; [|reflexivity]. cbn. rewrite O4; [reflexivity|apply (S3 p), E|].
    intros q X. exact (D3 _ _ _ X E).
  - repeat split; try lia; [|exact S4]. intros p l E. specialize (S3 p l E). lia.
Qed.

(** Histories of two optimizers, [true] for the first one. *)
Fixpoint h_both (c1 c2 : cfg) (es : list (bool * event)) (h : heap) (o1 o2 : opt) : heap * opt * opt :=
  match es with
  | [] => (h, o1, o2)
  | (true, e) :: es' => let '(h', o1', _) := h_event c1 e h o1 in h_both c1 c2 es' h' o1' o2
  | (false, e) :: es' => let '(h', o2', _) := h_event c2 e h o2 in h_both c1 c2 es' h' o1 o2'
  end.
Definition side (b : bool) (es : list (bool * event)) : list event :=
  map snd (filter (fun be => Bool.eqb (fst be) b) es).

Lemma disjoint_sym o o' : disjoint o o' -> disjoint o' o.
Proof. intros (D1 & D2 & D3). repeat split; try congruence. intros p q l X Y. exact (D3 _ _ _ Y X). Qed.

Lemma disjoint_event c e h o1 o2 h' o1' r :
  sound h o1 -> sound h o2 -> disjoint o1 o2 -> h_event c e h o1 = (h', o1', r) -> disjoint o1' o2.
Proof.
  intros S1 S2 (D1 & D2 & D3) E. destruct (event_seen c e h o1 h' o1' r S1 E) as (_ & _ & _ & _ & E1 & E2 & E3).
  repeat split; try congruence. intros p q l X Y. destruct (E3 p l X) as [Z|Z]; [exact (D3 _ _ _ Z Y)|].
  destruct S2 as (_ & _ & S2 & _). specialize (S2 q l Y). lia.
Qed.

Lemma both_seen c1 c2 es : forall h o1 o2 h' o1' o2',
  sound h o1 -> sound h o2 -> disjoint o1 o2 -> h_both c1 c2 es h o1 o2 = (h', o1', o2') ->
  seen h' o1' = run c1 (side true es) (seen h o1) /\ seen h' o2' = run c2 (side false es) (seen h o2).
Proof.
  induction es as [|[b e] es IH]; intros h o1 o2 h' o1' o2' S1 S2 D E; cbn [h_both] in E.
  - injection E as <- <- <-. split; reflexivity.
  - destruct b.
    + destruct (h_event c1 e h o1) as [[h1 o] r] eqn:E1.
      destruct (event_seen c1 e h o1 h1 o r S1 E1) as (A1 & _ & A3 & A4 & _).
      destruct (only_seen o1 o2 h h1 A4 S2 D) as [B1 B2].
      destruct (IH h1 o o2 h' o1' o2' A3 B2 (disjoint_event c1 e h o1 o2 h1 o r S1 S2 D E1) E) as [C1 C2].
      unfold side in *. cbn [filter fst Bool.eqb map snd run]. rewrite C1, C2, A1, B1. split; reflexivity.
    + destruct (h_event c2 e h o2) as [[h1 o] r] eqn:E1.
      destruct (event_seen c2 e h o2 h1 o r S2 E1) as (A1 & _ & A3 & A4 & _).
      destruct (only_seen o2 o1 h h1 A4 S1 (disjoint_sym _ _ D)) as [B1 B2].
      assert (D' := disjoint_sym _ _ (disjoint_event c2 e h o2 o1 h1 o r S2 S1 (disjoint_sym _ _ D) E1)).
      destruct (IH h1 o1 o h' o1' o2' B2 A3 D' E) as [C1 C2].
      unfold side in *. cbn [filter fst Bool.eqb map snd run]. rewrite C1, C2, A1, B1. split; reflexivity.
Qed.

(** Sharing is permanent. *)
Lemma event_addr c e h o h' o' r : h_event c e h o = (h', o', r) -> o_slots o' = o_slots o /\ o_scales o' = o_scales o.
Proof.
  unfold h_event. destruct (event_op c e (seen h o)) as [st r0]. destruct (write_bufs _ _ _ _) as [h2 bufs].
  intros X. injection X as <- <- <-. split; reflexivity.
Qed.
Lemma both_shared c1 c2 es : forall h o1 o2 h' o1' o2',
  o_slots o1 = o_slots o2 -> o_scales o1 = o_scales o2 -> h_both c1 c2 es h o1 o2 = (h', o1', o2') ->
  o_slots o1' = o_slots o2' /\ o_scales o1' = o_scales o2'.
Proof.
  induction es as [|[b e] es IH]; intros h o1 o2 h' o1' o2' E1 E2 E; cbn [h_both] in E.
  - injection E as <- <- <-. split; assumption.
  - destruct b.
    + destruct (h_event c1 e h o1) as [[h1 o] r] eqn:Ee. destruct (event_addr _ _ _ _ _ _ _ Ee) as [X1 X2].
      apply (IH h1 o o2 h' o1' o2'); congruence.
    + destruct (h_event c2 e h o2) as [[h1 o] r] eqn:Ee. destruct (event_addr _ _ _ _ _ _ _ Ee) as [X1 X2].
      apply (IH h1 o1 o h' o1' o2'); congruence.
Qed.

(** ** Deep copies *)

Lemma both_keep c1 c2 es : forall h o1 o2 h' o1' o2',
  sound h o1 -> sound h o2 -> disjoint o1 o2 -> h_both c1 c2 es h o1 o2 = (h', o1', o2') ->
  sound h' o1' /\ sound h' o2' /\ disjoint o1' o2' /\ h_next h <= h_next h' /\
  (o_slots o1' = o_slots o1 /\ o_scales o1' = o_scales o1 /\ forall p l, o_bufs o1' p = Some l -> o_bufs o1 p = Some l \/ h_next h <= l) /\
  (o_slots o2' = o_slots o2 /\ o_scales o2' = o_scales o2 /\ forall p l, o_bufs o2' p = Some l -> o_bufs o2 p = Some l \/ h_next h <= l) /\
  (forall d, apart_from h o1 d -> apart_from h o2 d -> content h' d = content h d /\ apart_from h' o1' d /\ apart_from h' o2' d).
Proof.
  assert (G : forall c e h o h1 o1 r d, sound h o -> h_event c e h o = (h1, o1, r) -> apart_from h o d -> apart_from h1 o1 d).
  { intros c e h o h1 o1 r d So E [A1 A2]. destruct (event_seen c e h o h1 o1 r So E) as (_ & _ & _ & (N & _) & E1 & E2 & E3). split.
    - intros i l I. destruct (A1 i l I) as [Ll Nl]. split; [lia|]. intros p X. destruct (E3 p l X) as [Y|Y]; [apply (Nl p), Y|lia].
    - destruct (pd_attrs d) as [[[n a] b]|]; [|trivial]. rewrite E1, E2. destruct A2 as (X1 & X2 & X3 & X4). repeat split; trivial; lia. }
  assert (G2 : forall h h1 o d, h_next h <= h_next h1 -> apart_from h o d -> apart_from h1 o d).
  { intros h h1 o d L [A1 A2]. split.
    - intros i l I. destruct (A1 i l I) as [Ll Nl]. split; [lia|exact Nl].
    - destruct (pd_attrs d) as [[[n a] b]|]; [|trivial]. destruct A2 as (X1 & X2 & X3 & X4). repeat split; trivial; lia. }
  induction es as [|[b e] es IH]; intros h o1 o2 h' o1' o2' S1 S2 D E; cbn [h_both] in E.
  - injection E as <- <- <-. repeat (split; trivial); auto.
  - destruct b.
    + destruct (h_event c1 e h o1) as [[h1 o] r] eqn:E1.
      destruct (event_seen c1 e h o1 h1 o r S1 E1) as (A1 & _ & A3 & A4 & A5 & A6 & A7).
      destruct (only_seen o1 o2 h h1 A4 S2 D) as [B1 B2].
      destruct (IH h1 o o2 h' o1' o2' A3 B2 (disjoint_event c1 e h o1 o2 h1 o r S1 S2 D E1) E) as (C1 & C2 & C3 & C4 & (C5 & C6 & C7) & (C8 & C9 & C10) & C11).
      assert (L := proj1 A4).
      split; [exact C1|]. split; [exact C2|]. split; [exact C3|]. split; [lia|]. split; [|split].
      * split; [congruence|]. split; [congruence|]. intros p l X. destruct (C7 p l X) as [Y|Y]; [|right; lia]. apply A7, Y.
      * split; [congruence|]. split; [congruence|]. intros p l X. destruct (C10 p l X) as [Y|Y]; [left; exact Y|right; lia].
      * intros d P1 P2. destruct (C11 d (G _ _ _ _ _ _ _ _ S1 E1 P1) (G2 _ _ _ _ L P2)) as (Q1 & Q2 & Q3).
        split; [|split; assumption]. rewrite Q1. apply (only_content o1); assumption.
    + destruct (h_event c2 e h o2) as [[h1 o] r] eqn:E1.
      destruct (event_seen c2 e h o2 h1 o r S2 E1) as (A1 & _ & A3 & A4 & A5 & A6 & A7).
      destruct (only_seen o2 o1 h h1 A4 S1 (disjoint_sym _ _ D)) as [B1 B2].
      assert (D' := disjoint_sym _ _ (disjoint_event c2 e h o2 o1 h1 o r S2 S1 (disjoint_sym _ _ D) E1)).
      destruct (IH h1 o1 o h' o1' o2' B2 A3 D' E) as (C1 & C2 & C3 & C4 & (C5 & C6 & C7) & (C8 & C9 & C10) & C11).
      assert (L := proj1 A4).
      split; [exact C1|]. split; [exact C2|]. split; [exact C3|]. split; [lia|]. split; [|split].
      * split; [congruence|]. split; [congruence|]. intros p l X. destruct (C7 p l X) as [Y|Y]; [left; exact Y|right; lia].
      * split; [congruence|]. split; [congruence|]. intros p l X. destruct (C10 p l X) as [Y|Y]; [|right; lia]. apply A7, Y.
      * intros d P1 P2. destruct (C11 d (G2 _ _ _ _ L P1) (G _ _ _ _ _ _ _ _ S2 E1 P2)) as (Q1 & Q2 & Q3).
        split; [|split; assumption]. rewrite Q1. apply (only_content o2); assumption.
Qed.

Lemma nodup_snd (l : list (nat * nat)) i j a : NoDup (map snd l) -> In (i, a) l -> In (j, a) l -> i = j.
Proof.
  induction l as [|[k b] l IH]; intros N I J; [destruct I|]. cbn in N. inversion N; subst.
  destruct I as [I|I], J as [J|J].
  - congruence.
  - injection I as -> ->. exfalso. apply H1. apply in_map_iff. exists (j, a). split; [reflexivity|exact J].
  - injection J as -> ->. exfalso. apply H1. apply in_map_iff. exists (i, a). split; [reflexivity|exact I].
  - apply IH; assumption.
Qed.

(** Loading a dictionary with objects of its own. *)
Lemma load_sound d h o o' d' :
  (forall i l, In (i, l) (pd_state d) -> l < h_next h) -> NoDup (map snd (pd_state d)) ->
  (forall n a b, pd_attrs d = Some (n, a, b) -> a < h_next h /\ b < h_next h) ->
  h_load d h o = (o', d', Ok tt) -> sound h o'.
Proof.
  intros B N A. unfold h_load. destruct (pd_attrs d) as [[[n a] b]|] eqn:Ea; [|discriminate].
  destruct (content h d) as [v|]; [|discriminate]. destruct (load_state_dict v (seen h o)) as [st [u|e]]; [|discriminate].
  intros X. injection X as <- <-. destruct (A n a b eq_refl) as [La Lb]. repeat split; cbn; trivial.
  - intros p l X. apply loaded_locs_in in X as (i & I & _). apply (B i), I.
  - intros p q l X Y. apply loaded_locs_in in X as (i & I & P). apply loaded_locs_in in Y as (j & J & Q).
    assert (i = j) by (apply (nodup_snd (pd_state d) i j l); assumption). subst. congruence.
Qed.

Lemma deepcopy_separates c1 c2 h o1 o2 d d' h1 es h2 o1' o2' :
  sound h o1 -> sound h o2 -> disjoint o1 o2 -> h_state_dict c1 h o1 = Ok d -> deepcopy d h = (d', h1) ->
  h_both c1 c2 es h1 o1 o2 = (h2, o1', o2') ->
  exists v, state_dict c1 (seen h o1) = Ok v /\ content h2 d' = Some v /\
    forall o2'' d'', h_load d' h2 o2' = (o2'', d'', Ok tt) ->
      load_state_dict v (seen h2 o2') = (seen h2 o2'', Ok tt) /\
      forall es' h3 q1 q2, h_both c1 c2 es' h2 o1' o2'' = (h3, q1, q2) ->
        seen h3 q1 = run c1 (side true es') (seen h2 o1') /\
        seen h3 q2 = run c2 (side false es') (seen h2 o2'').
Proof.
  intros S1 S2 D E Ec Eb. destruct (state_dict_addr c1 h o1 d S1 E) as (A1 & A2 & A3).
  assert (P1 : forall i l, In (i, l) (pd_state d) -> l < h_next h).
  { intros i l I. destruct (A2 i l I) as (p & Ep & _). destruct S1 as (_ & _ & S1 & _). exact (S1 p l Ep). }
  assert (P2 : forall n a b, pd_attrs d = Some (n, a, b) -> a < h_next h /\ b < h_next h).
  { intros n a b X. rewrite A1 in X. injection X as <- <- <-. destruct S1 as (X1 & X2 & _). split; assumption. }
  destruct (deepcopy_spec d h d' h1 P1 P2 Ec) as (B1 & B2 & B3 & B4 & B5 & B6 & B7 & B8 & B9).
  assert (T : forall o, sound h o -> sound h1 o /\ apart_from h1 o d').
  { intros o (X1 & X2 & X3 & X4). split.
    - repeat split; try lia; [|exact X4]. intros p l Y. specialize (X3 p l Y). lia.
    - split.
      + intros i l I. specialize (B4 i l I). split; [lia|]. intros p Y. specialize (X3 p l Y). lia.
      + destruct (pd_attrs d') as [[[n a] b]|] eqn:Ed; [|trivial]. destruct (B8 n a b eq_refl) as [Y1 Y2]. repeat split; lia. }
  destruct (T o1 S1) as [S1' R1], (T o2 S2) as [S2' R2].
  destruct (both_keep c1 c2 es h1 o1 o2 h2 o1' o2' S1' S2' D Eb) as (C1 & C2 & C3 & C4 & (C5 & C6 & C7) & _ & C11).
  destruct (C11 d' R1 R2) as (Q1 & Q2 & Q3).
  unfold content in A3. rewrite A1 in A3.
  eexists. split; [exact A3|]. split.
  { rewrite Q1, B1. unfold content. rewrite A1. reflexivity. }
  intros o2'' d'' L. destruct (load_seen d' h2 o2' o2'' d'' L) as (n & a & b & v & L1 & L2 & L3 & L4 & L5 & _ & L7).
  split.
  { rewrite Q1, B1 in L2. unfold content in L2. rewrite A1 in L2. injection L2 as <-. exact L3. }
  intros es' h3 q1 q2 Eb'. apply both_seen in Eb'; [exact Eb'|exact C1| |].
  - apply (load_sound d' h2 o2' o2'' d''); trivial.
    + intros i l I. specialize (B4 i l I). lia.
    + intros n' a' b' X. destruct (B8 n' a' b' X) as [Y1 Y2]. lia.
  - destruct Q2 as [Q2 Q2']. rewrite L1 in Q2'. destruct Q2' as (Y1 & Y2 & Y3 & Y4).
    repeat split; try congruence. intros p q l X Y. destruct (L7 q l Y) as (i & I). destruct (Q2 i l I) as [_ Nl]. exact (Nl p X).
Qed.

(** Buffers stay where they are. *)
Lemma event_loc c e h o h' o' r p l :
  sound h o -> h_event c e h o = (h', o', r) -> o_bufs o p = Some l -> o_bufs o' p = Some l.
Proof.
  intros (S1 & S2 & S3 & S4) E. unfold h_event in E. destruct (event_op c e (seen h o)) as [st r0].
  destruct (write_bufs _ st _ _) as [h2 bufs] eqn:Ew. injection E as <- <- <-.
  apply write_bufs_spec in Ew; [|exact S3|exact S4]. destruct Ew as (_ & _ & _ & _ & _ & A6 & _). apply A6.
Qed.
Lemma run_loc c es : forall h o h' o' p l,
  sound h o -> h_run c es h o = (h', o') -> o_bufs o p = Some l -> o_bufs o' p = Some l.
Proof.
  induction es as [|e es IH]; intros h o h' o' p l So E B; [injection E as <- <-; exact B|].
  cbn [h_run] in E. destruct (h_event c e h o) as [[h1 o1] r] eqn:E1.
  apply (IH h1 o1 h' o' p l); [apply (event_seen c e h o h1 o1 r So E1)|exact E|].
  apply (event_loc c e h o h1 o1 r p l So E1 B).
Qed.

(** The buffers in a dictionary are the optimizer's. *)
Lemma state_dict_bufs c h o d es h' o' v p i b :
  sound h o -> h_state_dict c h o = Ok d -> h_run c es h o = (h', o') -> content h' d = Some v ->
  In (i, b) (sd_state v) -> nth_error (concat (map g_params (s_groups (seen h o)))) i = Some p ->
  p_buf (s_par (run c es (seen h o)) p) = Some b.
Proof.
  intros So D E V I N. destruct (state_dict_addr c h o d So D) as (A & B & _).
  unfold content in V. rewrite A in V. injection V as <-. cbn [sd_state] in I.
  apply in_map_iff in I as ([j l] & X & I). cbn in X. injection X as <- <-.
  destruct (B j l I) as (q & Eq & Nq). apply number_ok, index_nth in Nq. cbn [seen s_groups] in N.
  assert (q = p) by congruence. subst q.
  destruct (run_seen c es h o h' o' So E) as (R & _). rewrite <- R. cbn.
  rewrite (run_loc c es h o h' o' p l So E Eq). reflexivity.
Qed.

End AliasFacts.
