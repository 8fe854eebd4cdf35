(** Lemmas: a loaded checkpoint gives back the saved state, and continues like it. *)

From Coq Require Import List Arith Lia Bool ZArith.
From Verif Require Import Scalar Res Tensor Structures OptimUtils Optimizer Construct OptState OptRun Checkpoint.
Import ListNotations.
Open Scope nat_scope.

Section CkptFacts.
Context {SC : Scalar}.

(** ** Numbers of parameters *)

Lemma index_nth p ids i : index_of p ids = Some i -> nth_error ids i = Some p.
Proof.
  revert i. induction ids as [|q l IH]; intros i H; [discriminate|]. cbn in H. destruct (Nat.eqb_spec q p) as [->|N].
  - injection H as <-. reflexivity.
  - destruct (index_of p l) as [j|]; [|discriminate]. injection H as <-. cbn. apply IH. reflexivity.
Qed.
Lemma index_in p ids : In p ids -> exists i, index_of p ids = Some i.
Proof.
  induction ids as [|q l IH]; intros H; [destruct H|]. cbn. destruct (Nat.eqb_spec q p) as [->|N]; [eauto|].
  destruct H as [H|H]; [congruence|]. destruct (IH H) as (i & ->). cbn. eauto.
Qed.
Lemma number_ok ids p i : number_of ids p = Ok i -> index_of p ids = Some i.
Proof. unfold number_of, lookup. destruct (index_of p ids); [|discriminate]. congruence. Qed.

Lemma mapM_in {A B} (f : A -> res B) l l' : mapM f l = Ok l' -> Forall2 (fun a b => f a = Ok b) l l'.
Proof.
  revert l'. induction l as [|a l IH]; intros l' H; cbn in H; [injection H as <-; constructor|].
  apply bind_ok in H as (b & E & H). apply bind_ok in H as (bs & E' & H). injection H as <-. constructor; [exact E|apply IH; exact E'].
Qed.
Lemma mapM_all {A B} (f : A -> res B) l : (forall a, In a l -> exists b, f a = Ok b) -> exists l', mapM f l = Ok l'.
Proof.
  induction l as [|a l IH]; intros H; [exists []; reflexivity|]. destruct (H a (or_introl eq_refl)) as (b & E).
  destruct IH as (bs & E'); [intros; apply H; right; assumption|]. exists (b :: bs). cbn. rewrite E. cbn. rewrite E'. reflexivity.
Qed.

Definition all_params (gs : list group) : list nat := concat (map g_params gs).

(** ** Saving *)

Lemma state_dict_ok c st :
  (forall p, In p (flat_map mod_params (c_mods c)) -> p_buf (s_par st p) <> None -> In p (all_params (s_groups st))) ->
  exists d, state_dict c st = Ok d.
Proof.
  intros H. unfold state_dict. destruct (mapM_all (pack_group (concat (map g_params (s_groups st)))) (s_groups st)) as (gs & ->).
  - intros g Hg. unfold pack_group. destruct (mapM_all (number_of (concat (map g_params (s_groups st)))) (g_params g)) as (ns & ->); [|eexists; reflexivity].
    intros p Hp. destruct (index_in p (concat (map g_params (s_groups st)))) as (i & E); [|exists i; unfold number_of; rewrite E; reflexivity].
    apply in_concat. exists (g_params g). split; [apply in_map; exact Hg|exact Hp].
  - cbn. match goal with |- context [mapM ?f ?l] => destruct (mapM_all f l) as (bs & ->) end; [|eexists; reflexivity].
    intros p Hp. apply filter_In in Hp as [Hp Hb]. destruct (p_buf (s_par st p)) as [b|] eqn:Eb; [|discriminate].
    destruct (index_in p (concat (map g_params (s_groups st)))) as (i & E); [apply H; [exact Hp|congruence]|].
    exists (i, b). unfold number_of. rewrite E. reflexivity.
Qed.

(** Nothing can be saved while a parameter outside all groups has a momentum buffer. *)
Lemma state_dict_fails c st p :
  In p (flat_map mod_params (c_mods c)) -> p_buf (s_par st p) <> None -> ~ In p (all_params (s_groups st)) ->
  state_dict c st = Err KeyError.
Proof.
  intros Hp Hb N. unfold state_dict. destruct (mapM_all (pack_group (concat (map g_params (s_groups st)))) (s_groups st)) as (gs & ->).
  - intros g Hg. unfold pack_group. destruct (mapM_all (number_of (concat (map g_params (s_groups st)))) (g_params g)) as (ns & ->); [|eexists; reflexivity].
    intros q Hq. destruct (index_in q (concat (map g_params (s_groups st)))) as (i & E); [|exists i; unfold number_of; rewrite E; reflexivity].
    apply in_concat. exists (g_params g). split; [apply in_map; exact Hg|exact Hq].
  - cbn. assert (W : In p (with_buffer c st)).
    { apply filter_In. split; [exact Hp|]. destruct (p_buf (s_par st p)); [reflexivity|congruence]. }
    match goal with |- bind (mapM ?f ?l) _ = _ => assert (E : mapM f l = Err KeyError) end; [|rewrite E; reflexivity].
    assert (F : forall q, In q (with_buffer c st) -> exists b, p_buf (s_par st q) = Some b).
    { intros q Hq. apply filter_In in Hq as [_ Hq]. destruct (p_buf (s_par st q)) as [b|]; [exists b; reflexivity|discriminate]. }
    revert W F. induction (with_buffer c st) as [|q l IH]; intros W F; [destruct W|]. cbn.
    destruct (F q (or_introl eq_refl)) as (b & Eb). unfold number_of at 1. destruct (index_of q (concat (map g_params (s_groups st)))) as [i|] eqn:Ei; [|reflexivity].
    cbn. rewrite Eb. cbn. destruct W as [->|W].
    + exfalso. apply N. apply index_nth in Ei. exact (nth_error_In _ _ Ei).
    + rewrite IH; [reflexivity|exact W|intros; apply F; right; assumption].
Qed.

(** ** Loading *)

Lemma find_some_rev l k p : (forall k' p', In (k', p') l -> k' = k -> p' = p) -> In (k, p) l -> dict_get k l = Some p.
Proof.
  intros U H. unfold dict_get. assert (X : exists kp, find (fun kp : nat * nat => Nat.eqb (fst kp) k) (rev l) = Some kp).
  { destruct (find _ (rev l)) eqn:E; [eauto|]. exfalso. pose proof (find_none _ _ E (k, p) (proj1 (in_rev _ _) H)) as X. cbn in X. rewrite Nat.eqb_refl in X. discriminate. }
  destruct X as ([k' p'] & E). rewrite E. cbn. apply find_some in E as [E1 E2]. cbn in E2. apply Nat.eqb_eq in E2.
  apply in_rev in E1. rewrite (U k' p' E1 E2). reflexivity.
Qed.

Lemma F2_len {A B} (R : A -> B -> Prop) l l' : Forall2 R l l' -> length l = length l'.
Proof. induction 1; cbn; congruence. Qed.

(** The saved numbers are the positions of the own parameters. *)
Lemma packed_params ids gs gs' : mapM (pack_group ids) gs = Ok gs' ->
  Forall2 (fun p i => index_of p ids = Some i) (concat (map g_params gs)) (concat (map g_params gs')) /\
  length gs' = length gs /\
  forallb (fun ab : list nat * list nat => Nat.eqb (length (fst ab)) (length (snd ab))) (combine (map g_params gs) (map g_params gs')) = true /\
  map (fun gp => with_params (snd gp) (fst gp)) (combine gs' (map g_params gs)) = gs.
Proof.
  intros H. apply mapM_in in H. induction H as [|g g' l l' E F IH]; [cbn; repeat split; constructor|].
  destruct IH as (I1 & I2 & I3 & I4). unfold pack_group in E. apply bind_ok in E as (ns & E & E'). injection E' as <-.
  apply mapM_in in E. cbn [map concat g_params with_params]. split; [|split; [cbn; congruence|split]].
  - apply Forall2_app; [|exact I1]. clear - E. induction E as [|p n l l' E F IH]; constructor; [apply number_ok; exact E|exact IH].
  - cbn [combine forallb fst snd]. rewrite (F2_len _ _ _ E), Nat.eqb_refl. exact I3.
  - cbn [combine map fst snd]. f_equal; [|exact I4]. destruct g. reflexivity.
Qed.

Lemma in_combine_pos ids ns ps k p : Forall2 (fun p i => index_of p ids = Some i) ps ns -> In (k, p) (combine ns ps) -> index_of p ids = Some k.
Proof.
  induction 1 as [|q n ps ns E F IH]; intros H; [destruct H|]. destruct H as [H|H]; [|apply IH; exact H]. injection H as <- <-. exact E.
Qed.
Lemma pos_in_combine ids ns ps p : Forall2 (fun p i => index_of p ids = Some i) ps ns -> In p ps -> exists k, In (k, p) (combine ns ps) /\ index_of p ids = Some k.
Proof.
  induction 1 as [|q n ps ns E F IH]; intros H; [destruct H|]. destruct H as [->|H].
  - exists n. split; [left; reflexivity|exact E].
  - destruct (IH H) as (k & H1 & H2). exists k. split; [right; exact H1|exact H2].
Qed.

Lemma loaded_spec id_map saved p : 
  loaded_buffers id_map saved p =
  match find (fun kb : nat * tensor => match dict_get (fst kb) id_map with Some q => Nat.eqb q p | None => false end) (rev saved) with
  | Some kb => Some (snd kb) | None => None end.
Proof.
  unfold loaded_buffers. rewrite <- fold_left_rev_right. generalize (rev saved). induction l as [|[k b] l IH]; [reflexivity|].
  cbn [fold_right find fst snd]. destruct (dict_get k id_map) as [q|]; [|exact IH]. unfold upd. rewrite (Nat.eqb_sym q p).
  destruct (Nat.eqb p q); [reflexivity|exact IH].
Qed.

(** What is loaded is what was saved: the target's own values, gradients, hooks and scaler attributes stay. *)
Lemma load_saved c st tgt d :
  state_dict c st = Ok d ->
  (forall p, p_buf (s_par st p) <> None -> In p (flat_map mod_params (c_mods c))) ->
  map g_params (s_groups tgt) = map g_params (s_groups st) ->
  exists t, load_state_dict d tgt = (t, Ok tt) /\
    s_steps t = s_steps st /\ s_scales t = s_scales st /\ s_slots t = s_slots st /\ s_groups t = s_groups st /\
    s_amp t = s_amp tgt /\ s_inf t = s_inf tgt /\ s_pend t = s_pend tgt /\ s_log t = s_log tgt /\
    forall p, p_val (s_par t p) = p_val (s_par tgt p) /\ p_grad (s_par t p) = p_grad (s_par tgt p) /\ p_buf (s_par t p) = p_buf (s_par st p).
Proof.
  intros H Hb Hg. unfold state_dict in H. apply bind_ok in H as (gs' & E1 & H). apply bind_ok in H as (bufs & E2 & H). injection H as <-.
  destruct (packed_params _ _ _ E1) as (P1 & P2 & P3 & P4). apply mapM_in in E2.
  unfold load_state_dict, sbind, getS, lift, modify. rewrite Hg. cbn [sd_groups sd_state sd_steps sd_scales sd_slots].
  rewrite !map_length, P2, Nat.eqb_refl. cbn [check]. rewrite P3. cbn [check].
  eexists. split; [reflexivity|]. cbn. rewrite P4. do 8 (split; [reflexivity|]). intros p. do 2 (split; [reflexivity|]).
  rewrite loaded_spec. set (ids := concat (map g_params (s_groups st))) in *. set (im := combine (concat (map g_params gs')) ids).
  assert (U : forall q k, In q ids -> index_of q ids = Some k -> dict_get k im = Some q).
  { intros q k Hq Ek. apply find_some_rev.
    - intros k' p' Hi ->. pose proof (in_combine_pos ids _ _ _ _ P1 Hi) as E3. apply index_nth in E3, Ek. congruence.
    - destruct (pos_in_combine ids _ _ q P1 Hq) as (k' & Hi & E3). rewrite Ek in E3. injection E3 as <-. exact Hi. }
  assert (V : forall k b, In (k, b) bufs -> exists q, In q ids /\ index_of q ids = Some k /\ p_buf (s_par st q) = Some b).
  { clear - E2. intros k b Hi. induction E2 as [|q kb l l' E F IH]; [destruct Hi|]. destruct Hi as [->|Hi]; [|apply IH; exact Hi].
    apply bind_ok in E as (i & Ei & E). apply bind_ok in E as (b' & Eb & E). injection E as -> ->. apply number_ok in Ei. exists q.
    split; [apply index_nth in Ei; exact (nth_error_In _ _ Ei)|]. split; [exact Ei|]. destruct (p_buf (s_par st q)); [|discriminate]. cbn in Eb. congruence. }
  match goal with |- match find ?f ?l with _ => _ end = _ => destruct (find f l) as [[k b]|] eqn:Ef end.
  - apply find_some in Ef as [F1 F2]. cbn [fst snd] in *. apply in_rev in F1. destruct (V k b F1) as (q & Hq & Eq & Ebq).
    rewrite (U q k Hq Eq) in F2. apply Nat.eqb_eq in F2. subst q. congruence.
  - destruct (p_buf (s_par st p)) as [b|] eqn:Ep; [exfalso|reflexivity].
    assert (W : In p (with_buffer c st)). { apply filter_In. split; [apply Hb; congruence|rewrite Ep; reflexivity]. }
    assert (X : exists k, In (k, b) bufs /\ index_of p ids = Some k).
    { clear - E2 W Ep. induction E2 as [|q kb l l' E F IH]; [destruct W|]. destruct W as [->|W].
      - apply bind_ok in E as (i & Ei & E). apply bind_ok in E as (b' & Eb & E). injection E as <-. rewrite Ep in Eb. injection Eb as <-.
        exists i. split; [left; reflexivity|apply number_ok; exact Ei].
      - destruct (IH W) as (k & H1 & H2). exists k. split; [right; exact H1|exact H2]. }
    destruct X as (k & X1 & X2). pose proof (find_none _ _ Ef (k, b) (proj1 (in_rev _ _) X1)) as X3. cbn [fst] in X3.
    rewrite (U p k) in X3; [rewrite Nat.eqb_refl in X3; discriminate|apply index_nth in X2; exact (nth_error_In _ _ X2)|exact X2].
Qed.

(** ** Continuing *)

(** Events that use only hooks and gradients made after the checkpoint: every backward pass goes through
    an output of a forward pass in the list, and before a step the gradients of all trained parameters are written. *)
Fixpoint self_contained (c : cfg) (outs ps : list nat) (es : list event) : Prop :=
  match es with
  | [] => True
  | e :: es' =>
      match e with
      | EForward _ _ _ out => self_contained c (out :: outs) ps es'
      | EBackward out _ => In out outs /\ self_contained c outs ps es'
      | EGrad p _ => self_contained c outs (p :: ps) es'
      | EStep _ => incl (flat_map mod_params (c_mods c)) ps /\ self_contained c outs ps es'
      | _ => self_contained c outs ps es'
      end
  end.

Definition like (outs ps : list nat) (s t : state) : Prop :=
  s_steps t = s_steps s /\ s_scales t = s_scales s /\ (forall k, s_slots t k = s_slots s k) /\ s_groups t = s_groups s /\
  s_amp t = s_amp s /\ s_inf t = s_inf s /\
  (forall p, p_val (s_par t p) = p_val (s_par s p) /\ p_buf (s_par t p) = p_buf (s_par s p)) /\
  (forall p, In p ps -> p_grad (s_par t p) = p_grad (s_par s p)) /\
  (forall o, In o outs -> s_pend t o = s_pend s o).

Lemma like_par outs ps s t p : like outs ps s t -> In p ps -> s_par t p = s_par s p.
Proof.
  intros (_ & _ & _ & _ & _ & _ & A & B & _) H. destruct (A p) as [A1 A2]. specialize (B p H).
  destruct (s_par t p), (s_par s p). cbn in *. congruence.
Qed.

Lemma like_agree outs ps s t m : like outs ps s t -> incl (mod_params m) ps -> agree m s t.
Proof.
  intros H I. pose proof H as (A1 & A2 & A3 & A4 & _). repeat split; try assumption; [apply A3|].
  intros p Hp. exact (like_par _ _ _ _ _ H (I p Hp)).
Qed.

Lemma like_step_module c m outs ps : incl (mod_params m) ps -> rel2 (like outs ps) (step_module c m) (step_module c m).
Proof.
  intros I s t H. pose proof (like_agree _ _ _ _ _ H I) as AG.
  destruct (step_module_agree c c m eq_refl s t AG) as [E AG']. split; [exact E|].
  pose proof (step_module_frame c m s) as (F1 & F2 & F3 & F4 & F5 & F6 & F7 & F8 & F9).
  pose proof (step_module_frame c m t) as (G1 & G2 & G3 & G4 & G5 & G6 & G7 & G8 & G9).
  set (s' := fst (step_module c m s)) in *. set (t' := fst (step_module c m t)) in *.
  destruct H as (A1 & A2 & A3 & A4 & A5 & A6 & A7 & A8 & A9). destruct AG' as (B1 & B2 & B3 & B4 & B5).
  split; [exact B1|]. split; [exact B2|]. split.
  { intros k. destruct (Nat.eq_dec k (m_key m)) as [->|N]; [exact B4|]. rewrite G8, F8 by congruence. apply A3. }
  split; [exact B3|]. split; [congruence|]. split; [congruence|]. split.
  { intros p. destruct (in_dec Nat.eq_dec p (mod_params m)) as [Hp|N]; [rewrite (B5 p Hp); auto|]. rewrite G9, F9 by exact N. apply A7. }
  split.
  { intros p Hi. destruct (in_dec Nat.eq_dec p (mod_params m)) as [Hp|N]; [rewrite (B5 p Hp); auto|]. rewrite G9, F9 by exact N. apply A8, Hi. }
  intros o Ho. assert (E1 : s_pend t' = s_pend t) by assumption. assert (E2 : s_pend s' = s_pend s) by assumption. rewrite E1, E2. apply A9, Ho.
Qed.

Lemma like_set_scale outs ps v : rel2 (like outs ps) (set_current_grad_scale v) (set_current_grad_scale v).
Proof.
  intros s t H. pose proof H as (A1 & A2 & A3 & A4 & A5 & A6 & A7 & A8 & A9).
  unfold set_current_grad_scale, sbind, getS, modify, lift, ret. rewrite A1, A2. destruct (Nat.eqb (s_steps s) 0).
  - destruct (get_grad_scale _ (-1)); [|split; [reflexivity|repeat split; cbn; try assumption; apply A7]].
    destruct (get_grad_scale _ 0); [|split; [reflexivity|repeat split; cbn; try assumption; apply A7]].
    destruct (_ && _)%bool; (split; [reflexivity|repeat split; cbn; try assumption; apply A7]).
  - split; [reflexivity|repeat split; cbn; try assumption; apply A7].
Qed.

Lemma like_ensure outs ps : rel2 (like outs ps) ensure_scale ensure_scale.
Proof.
  intros s t H. pose proof H as (A1 & A2 & A3 & A4 & A5 & A6 & A7 & A8 & A9).
  unfold ensure_scale, sbind, getS. rewrite A1, A2, A5. destruct (get_grad_scale _ _); [split; [reflexivity|exact H]|].
  destruct (s_amp s) as [[v|]|]; [apply like_set_scale; exact H|split; [reflexivity|exact H]|apply like_set_scale; exact H].
Qed.

Lemma like_step c closure outs ps : incl (flat_map mod_params (c_mods c)) ps -> rel2 (like outs ps) (step c closure) (step c closure).
Proof.
  intros I. unfold step. destruct closure; [apply rel2_raise|].
  apply rel2_bind; [apply like_ensure|]. intros _.
  assert (X : forall b : bool, rel2 (like outs ps)
    (let! _ := (if b then let! _ := modify (fun st : state => set_log (s_log st ++ [WarnInf]) st) in modify (drop_H c) else step_all c) in
     modify (fun st : state => let st := set_steps (S (s_steps st)) st in set_scales (remove_used (s_scales st) (s_steps st)) st))
    (let! _ := (if b then let! _ := modify (fun st : state => set_log (s_log st ++ [WarnInf]) st) in modify (drop_H c) else step_all c) in
     modify (fun st : state => let st := set_steps (S (s_steps st)) st in set_scales (remove_used (s_scales st) (s_steps st)) st))).
  { intros b. apply rel2_bind.
    - destruct b.
      + apply rel2_bind.
        * apply rel2_modify. intros s t (A1 & A2 & A3 & A4 & A5 & A6 & A7 & A8 & A9). repeat split; cbn; try assumption; apply A7.
        * intros _. apply rel2_modify. intros s t (A1 & A2 & A3 & A4 & A5 & A6 & A7 & A8 & A9). repeat split; cbn; try assumption; try apply A7.
          intros k. rewrite A3. reflexivity.
      + apply rel2_forS. intros m Hm. apply like_step_module. intros p Hp. apply I. apply in_flat_map. eauto.
    - intros _. apply rel2_modify. intros s t (A1 & A2 & A3 & A4 & A5 & A6 & A7 & A8 & A9). split; [cbn; congruence|]. split; [cbn [s_scales s_steps set_scales set_steps]; rewrite A1, A2; reflexivity|]. repeat split; cbn; first [assumption | apply A7]. }
  intros s t H. pose proof H as (_ & _ & _ & _ & _ & A6 & _). pose proof (X (s_inf t) s t H) as Y. rewrite A6 in Y at 1 3. exact Y.
Qed.

Lemma like_run c es : forall outs ps s t,
  self_contained c outs ps es -> like outs ps s t ->
  outcomes c es t = outcomes c es s /\ exists outs' ps', incl ps ps' /\ like outs' ps' (run c es s) (run c es t).
Proof.
  induction es as [|e es IH]; intros outs ps s t C H; [split; [reflexivity|exists outs, ps; split; [apply incl_refl|exact H]]|].
  cbn [run outcomes]. pose proof H as (A1 & A2 & A3 & A4 & A5 & A6 & A7 & A8 & A9).
  assert (X : forall outs1 ps1, incl ps ps1 -> self_contained c outs1 ps1 es ->
    snd (event_op c e t) = snd (event_op c e s) /\ like outs1 ps1 (fst (event_op c e s)) (fst (event_op c e t)) ->
    snd (event_op c e t) :: outcomes c es (fst (event_op c e t)) = snd (event_op c e s) :: outcomes c es (fst (event_op c e s)) /\
    exists outs' ps', incl ps ps' /\ like outs' ps' (run c es (fst (event_op c e s))) (run c es (fst (event_op c e t)))).
  { intros outs1 ps1 I C1 [E L]. destruct (IH outs1 ps1 _ _ C1 L) as (O & outs' & ps' & I' & L'). split; [congruence|].
    exists outs', ps'. split; [eapply incl_tran; eassumption|exact L']. }
  destruct e as [m x b out|out g|p g|v|a i|cl|gs]; cbn [self_contained] in C.
  - apply (X (out :: outs) ps (incl_refl _) C). cbn [event_op]. unfold forward_hook, sbind, getS, modify, lift, ret. cbn [set_pend s_groups s_steps s_pend].
    rewrite A1, A4.
    assert (Q : forall u, like (out :: outs) ps (set_pend (upd (s_pend s) out u) s) (set_pend (upd (s_pend t) out u) t)).
    { intros u. repeat split; cbn; try assumption; try apply A7. intros o Ho. unfold upd. destruct (Nat.eqb_spec o out); [reflexivity|]. destruct Ho as [->|Ho]; [congruence|apply A9, Ho]. }
    destruct (get_group c (s_groups s) m) as [gr|]; [|split; [reflexivity|apply Q]]. destruct b; cbn [negb]; [|split; [reflexivity|apply Q]].
    destruct (is_update_step gr (s_steps s)) as [[|]|]; cbn; (split; [reflexivity|]); try apply Q.
  - destruct C as [Ho C]. apply (X outs ps (incl_refl _) C). cbn [event_op]. unfold sbind, getS. rewrite (A9 out Ho).
    destruct (s_pend s out) as [[m x]|]; [|split; [reflexivity|exact H]]. unfold accumulate_H_terms, sbind, getS, lift. rewrite A1, A2, A3, A4.
    destruct (get_group c (s_groups s) m) as [gr|]; [|split; [reflexivity|exact H]].
    destruct (local_H _ _ _ _ _ _) as [[hk hc]|]; [|split; [reflexivity|exact H]]. unfold on_slots. rewrite A3.
    destruct (store_H hk hc (s_slots s (m_key m))) as [sl r]. cbn. split; [reflexivity|]. repeat split; cbn; try assumption; try apply A7.
    intros k. unfold upd. destruct (Nat.eqb k (m_key m)); [reflexivity|apply A3].
  - apply (X outs (p :: ps) (incl_tl _ (incl_refl _)) C). cbn. split; [reflexivity|]. destruct (A7 p) as [V B].
    repeat split; cbn; try assumption.
    + unfold upd. destruct (Nat.eqb p0 p); [exact V|apply A7].
    + unfold upd. destruct (Nat.eqb p0 p); [exact B|apply A7].
    + intros q Hq. unfold upd. destruct (Nat.eqb_spec q p); [reflexivity|]. destruct Hq as [->|Hq]; [congruence|apply A8, Hq].
  - apply (X outs ps (incl_refl _) C). destruct (like_set_scale outs ps v s t H) as [E L]. cbn [event_op]. auto.
  - apply (X outs ps (incl_refl _) C). cbn. split; [reflexivity|]. repeat split; cbn; try assumption; apply A7.
  - destruct C as [I C]. apply (X outs ps (incl_refl _) C). destruct (like_step c cl outs ps I s t H) as [E L]. cbn [event_op]. auto.
  - apply (X outs ps (incl_refl _) C). cbn. split; [reflexivity|]. repeat split; cbn; try assumption; apply A7.
Qed.

(** ** Both together *)

Definition keep_params (gs0 : list group) (es : list event) : Prop :=
  Forall (fun e => match e with EGroups gs => map g_params gs = map g_params gs0 | _ => True end) es.

Lemma event_groups c e st : s_groups (fst (event_op c e st)) = match e with EGroups gs => gs | _ => s_groups st end.
Proof.
  destruct e as [m x b out|out g|p g|v|a i|cl|gs]; try reflexivity; cbn [event_op].
  - destruct (forward_frame c m x b out st) as (E & _). rewrite E. reflexivity.
  - unfold sbind, getS. destruct (s_pend st out) as [[m x]|]; [|reflexivity].
    destruct (accumulate_frame c m x g st) as (_ & _ & F3 & _). assumption.
  - destruct (set_current_grad_scale v st) as [s' r] eqn:E. apply set_current_grad_scale_frame in E as ((_ & _ & _ & E & _) & _). exact E.
  - destruct (step c cl st) as [st' r] eqn:H. cbn [fst].
    apply step_cases in H as [(_ & -> & _)|(_ & st1 & [(e & E & -> & _)|(E & [(_ & _ & ->)|(_ & st2 & r2 & E2 & X)])])]; [reflexivity| | |];
      apply ensure_scale_frame in E as ((_ & _ & _ & E & _) & _); cbn; try assumption.
    apply steps_frame in E2 as (_ & _ & E2 & _). destruct r2; destruct X as [_ ->]; cbn; congruence.
Qed.

Lemma keep_params_run c gs0 es st : keep_params gs0 es -> map g_params (s_groups st) = map g_params gs0 ->
  map g_params (s_groups (run c es st)) = map g_params gs0.
Proof.
  revert st. induction es as [|e es IH]; intros st K H; [exact H|]. apply Forall_cons_iff in K as [K1 K2]. cbn [run]. apply IH; [exact K2|].
  rewrite event_groups. destruct e; try exact H. exact K1.
Qed.

Lemma ctor_cfg a par par' hooks hooks' h1 h2 c c' st st' :
  ctor a par hooks = (h1, Ok (c, st)) -> ctor a par' hooks' = (h2, Ok (c', st')) -> c' = c /\ s_groups st' = s_groups st /\ s_slots st' = s_slots st.
Proof.
  unfold ctor. intros H H'.
  apply sbind_ok in H as (? & ? & _ & H). apply sbind_ok in H as (? & ? & _ & H).
  apply sbind_ok in H as (? & gs0 & E1 & H). apply sbind_ok in H as (? & [gs p2g] & E2 & H).
  apply sbind_ok in H as (? & ? & _ & H). cbv zeta in H. apply sbind_ok in H as (? & d & E3 & H). injection H as _ <- <-.
  apply sbind_ok in H' as (? & ? & _ & H). apply sbind_ok in H as (? & ? & _ & H).
  apply sbind_ok in H as (? & gs0' & F1 & H). apply sbind_ok in H as (? & [gs' p2g'] & F2 & H).
  apply sbind_ok in H as (? & ? & _ & H). cbv zeta in H. apply sbind_ok in H as (? & d' & F3 & H). injection H as _ <- <-.
  unfold lift in *. injection E1 as _ E1. injection F1 as _ F1. rewrite E1 in F1. injection F1 as <-.
  injection E2 as _ E2. injection F2 as _ F2. rewrite E2 in F2. injection F2 as <- <-.
  injection E3 as _ E3. injection F3 as _ F3. rewrite E3 in F3. injection F3 as <-. auto.
Qed.

Lemma resume c st tgt d es :
  state_dict c st = Ok d ->
  (forall p, p_buf (s_par st p) <> None -> In p (flat_map mod_params (c_mods c))) ->
  map g_params (s_groups tgt) = map g_params (s_groups st) ->
  (forall p, p_val (s_par tgt p) = p_val (s_par st p)) ->
  s_amp tgt = s_amp st -> s_inf tgt = s_inf st ->
  self_contained c [] [] es ->
  exists t, load_state_dict d tgt = (t, Ok tt) /\
    outcomes c es t = outcomes c es st /\
    let u := run c es t in let v := run c es st in
    s_steps u = s_steps v /\ s_scales u = s_scales v /\ (forall k, s_slots u k = s_slots v k) /\ s_groups u = s_groups v /\
    forall p, p_val (s_par u p) = p_val (s_par v p) /\ p_buf (s_par u p) = p_buf (s_par v p).
Proof.
  intros D B G V A I C. destruct (load_saved c st tgt d D B G) as (t & E & L1 & L2 & L3 & L4 & L5 & L6 & L7 & _ & L8).
  exists t. split; [exact E|]. assert (L : like [] [] st t).
  { repeat split; try congruence; try (intros ? []).
    - destruct (L8 p) as (X & _). rewrite X. apply V.
    - destruct (L8 p) as (_ & _ & X). exact X. }
  destruct (like_run c es [] [] st t C L) as (O & outs & ps & _ & L'). split; [exact O|].
  destruct L' as (M1 & M2 & M3 & M4 & _ & _ & M7 & _). cbv zeta. auto.
Qed.

End CkptFacts.
