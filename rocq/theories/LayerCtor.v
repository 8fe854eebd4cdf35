(** Lemmas: the constructor treats a model and the model with rewritten layers alike. *)

From Coq Require Import List Arith Lia Bool ZArith.
From Verif Require Import Scalar Res Tensor TensorFacts Structures StructSpec OptimUtils UtilsFacts ProofUtils Optimizer Construct OptState OptRun OptSpec OptFacts OptDir OptTyped OptStep CtorSpec CtorFacts ProgressSpec Progress LayerSpec LayerSim.
Import ListNotations.

Section LayerCtor.
Context {SC : Scalar} {FL : FieldLaws SC}.
Open Scope F_scope.

(** A rewriting of modules that keeps name, weight and dimensions and adds no parameters. *)
Definition mild (r : rewriting) (m : modul) : Prop :=
  m_key (r_mod r m) = m_key m /\ m_weight (r_mod r m) = m_weight m /\
  (m_bias (r_mod r m) = m_bias m \/ m_bias (r_mod r m) = None) /\
  preconditioner_dims (m_layer (r_mod r m)) = preconditioner_dims (m_layer m).

Lemma mild_params r m : mild r m -> mod_params (r_mod r m) = mod_params m \/ mod_params (r_mod r m) = [m_weight m].
Proof. intros (_ & W & B & _). unfold mod_params. rewrite W. destruct B as [-> | ->]; auto. Qed.
Lemma mild_incl r m : mild r m -> incl (mod_params (r_mod r m)) (mod_params m).
Proof. intros M. destruct (mild_params r m M) as [-> | ->]; intros p Hp; [exact Hp|]. destruct Hp as [<-|[]]. left. reflexivity. Qed.
Lemma mild_supported r m : mild r m -> is_supported m = true -> is_supported (r_mod r m) = true.
Proof. intros (_ & _ & _ & D) H. unfold is_supported in *. destruct (m_layer m), (m_layer (r_mod r m)); try reflexivity; discriminate. Qed.

Lemma get_group_same c gs m c' gs' m' :
  is_supported m = true -> is_supported m' = true -> c_p2g c' (m_weight m') = c_p2g c (m_weight m) -> Forall2 same_settings gs gs' ->
  match get_group c gs m, get_group c' gs' m' with Ok g, Ok g' => same_settings g g' | Err e, Err e' => e = e' | _, _ => False end.
Proof.
  intros S S' E H. unfold get_group, is_supported in *. rewrite E.
  destruct (m_layer m); try discriminate; (destruct (m_layer m'); try discriminate); (destruct (c_p2g c (m_weight m)) as [i|]; [|reflexivity]);
    (clear E; revert i; induction H as [|g g' gs gs' X H IH]; intros [|i]; cbn; [reflexivity|reflexivity|exact X|apply IH]).
Qed.

Lemma same_settings_refl g : same_settings g g.
Proof. destruct g. reflexivity. Qed.

Section One.
Variable (r : rewriting) (a : args).
Hypothesis PM : plain_model a.
Hypothesis MI : forall n, In n (a_model a) -> is_supported (n_mod n) = true -> mild r (n_mod n).
Let a' := rewritten_args r a.
Let gs := groups_given a.
Let gs' := groups_given a'.
Variable d : nat -> slots.
Hypothesis VC : valid_call0 a.
Hypothesis IB : initialize_buffers (cfg_of a) (groups_of a) = Ok d.

Lemma weight_handed n p i : In n (a_model a) -> is_supported (n_mod n) = true -> In p (n_params n) -> in_group gs i p -> in_group gs i (m_weight (n_mod n)).
Proof.
  intros Hn Hs Hp Hi.
  assert (Hm : In (n_mod n) (c_mods (cfg_of a))).
  { cbn [cfg_of c_mods]. unfold hooked. apply in_map_iff. exists n. split; [reflexivity|]. apply filter_In. split; [exact Hn|]. rewrite Hs. cbn [andb].
    apply existsb_exists. exists p. split; [exact Hp|]. apply existsb_eqb. apply in_ids. exists i. exact Hi. }
  destruct (foldM_upd_ok _ _ _ _ _ IB _ Hm) as (sl & Es). unfold init_slots in Es. apply bind_ok in Es as ([dK dC] & _ & Es). apply bind_ok in Es as (g & Eg & _).
  assert (X : exists j, in_group gs j (m_weight (n_mod n))).
  { unfold get_group in Eg. cbn [cfg_of c_p2g] in Eg. destruct (p2g_from 0 (groups_of a) (m_weight (n_mod n))) as [j|] eqn:Ep.
    - apply p2g_some in Ep as [_ Ep]. apply (proj1 (in_group_reset gs _ _)) in Ep. eexists. exact Ep.
    - destruct (m_layer (n_mod n)); discriminate. }
  destruct X as (j & Hj). destruct VC as (_ & _ & _ & _ & _ & TG). destruct (PM n Hn Hs) as [Hl Ep].
  rewrite (TG n p (m_weight (n_mod n)) i j Hn Hl Hs Hp); try assumption. rewrite Ep. left. reflexivity.
Qed.

Lemma given_cases : gs' = gs \/
  exists p ps p' ps', gs = [with_params (p :: ps) (defaults a)] /\ gs' = [with_params (p' :: ps') (defaults a)] /\
    a_params a = PNone /\
    p :: ps = fst (trainable (a_model a) (a_requires_grad a) (a_warn a)) /\ p' :: ps' = fst (trainable (a_model a') (a_requires_grad a) (a_warn a)).
Proof.
  destruct (a_params a) as [|l|l] eqn:Ea.
  2,3: left; unfold gs', gs, groups_given; cbn [a' rewritten_args a_params]; rewrite Ea; reflexivity.
  right. destruct VC as (_ & _ & NE & _). fold gs in NE.
  assert (Eg : gs = match fst (trainable (a_model a) (a_requires_grad a) (a_warn a)) with [] => [] | ps => [with_params ps (defaults a)] end) by (unfold gs, groups_given; rewrite Ea; reflexivity).
  assert (Eg' : gs' = match fst (trainable (a_model a') (a_requires_grad a) (a_warn a)) with [] => [] | ps => [with_params ps (defaults a)] end) by (unfold gs', groups_given; cbn [a' rewritten_args a_params]; rewrite Ea; reflexivity).
  destruct (fst (trainable (a_model a) (a_requires_grad a) (a_warn a))) as [|p ps] eqn:Et; [rewrite Eg in NE; congruence|].
  assert (Hp : In p (fst (trainable (a_model a) (a_requires_grad a) (a_warn a)))) by (rewrite Et; left; reflexivity).
  apply trainable_in in Hp as (n & Hn & Hl & Hs & Hp & Hr).
  assert (Hw : in_group gs 0 (m_weight (n_mod n))).
  { apply (weight_handed n p 0 Hn Hs Hp). rewrite Eg. exists (with_params (p :: ps) (defaults a)). split; [reflexivity|]. left. reflexivity. }
  rewrite Eg in Hw. destruct Hw as (g & E0 & Hw). injection E0 as <-. cbn [with_params g_params] in Hw. rewrite <- Et in Hw.
  apply trainable_in in Hw as (n2 & _ & _ & _ & _ & Hr2).
  assert (Hw' : In (m_weight (n_mod n)) (fst (trainable (a_model a') (a_requires_grad a) (a_warn a)))).
  { apply trainable_in. exists (rewritten_node r n). cbn [a' rewritten_args a_model]. split; [apply in_map; exact Hn|]. unfold rewritten_node. rewrite Hs.
    cbn [n_leaf n_mod n_params]. split; [exact Hl|]. split; [apply mild_supported; [apply MI; assumption|exact Hs]|]. split; [|exact Hr2].
    left. destruct (MI n Hn Hs) as (_ & W & _). exact W. }
  destruct (fst (trainable (a_model a') (a_requires_grad a) (a_warn a))) as [|p' ps'] eqn:Et'; [destruct Hw'|].
  exists p, ps, p', ps'. auto.
Qed.

Lemma given_settings_same : Forall2 same_settings gs gs'.
Proof.
  destruct given_cases as [-> |(p & ps & p' & ps' & -> & -> & _)].
  - induction gs; constructor; [apply same_settings_refl|assumption].
  - repeat constructor.
Qed.
Lemma given_less i p : in_group gs' i p -> in_group gs i p.
Proof.
  destruct given_cases as [-> |(q & ps & q' & ps' & Eg & Eg' & Ea & Et & Et')]; [auto|]. rewrite Eg, Eg'. intros (g & E & H).
  destruct i as [|i]; [|destruct i; discriminate]. injection E as <-. exists (with_params (q :: ps) (defaults a)). split; [reflexivity|].
  cbn [with_params g_params] in *. rewrite Et. rewrite Et' in H. apply trainable_in in H as (n' & Hn' & Hl & Hs & Hp & Hr).
  cbn [a' rewritten_args a_model] in Hn'. apply in_map_iff in Hn' as (n & <- & Hn). apply trainable_in. exists n. split; [exact Hn|].
  unfold rewritten_node in *. destruct (is_supported (n_mod n)) eqn:Es; [|congruence]. cbn [n_leaf n_mod n_params] in *.
  destruct (PM n Hn Es) as [_ Ep]. split; [exact Hl|]. split; [reflexivity|]. split; [|exact Hr]. rewrite Ep. apply (mild_incl r); [apply MI; assumption|exact Hp].
Qed.
Lemma given_weights i n : In n (a_model a) -> is_supported (n_mod n) = true -> in_group gs i (m_weight (n_mod n)) -> in_group gs' i (m_weight (n_mod n)).
Proof.
  intros Hn Hs. destruct given_cases as [-> |(q & ps & q' & ps' & Eg & Eg' & Ea & Et & Et')]; [auto|]. rewrite Eg, Eg'. intros (g & E & H).
  destruct i as [|i]; [|destruct i; discriminate]. injection E as <-. exists (with_params (q' :: ps') (defaults a)). split; [reflexivity|].
  cbn [with_params g_params] in *. rewrite Et'. rewrite Et in H. apply trainable_in in H as (_ & _ & _ & _ & _ & Hr).
  apply trainable_in. exists (rewritten_node r n). cbn [a' rewritten_args a_model]. split; [apply in_map; exact Hn|]. unfold rewritten_node. rewrite Hs.
  cbn [n_leaf n_mod n_params]. destruct (PM n Hn Hs) as [Hl _]. split; [exact Hl|]. split; [apply mild_supported; [apply MI; assumption|exact Hs]|]. split; [|exact Hr].
  left. destruct (MI n Hn Hs) as (_ & W & _). exact W.
Qed.

Lemma hooked_rewritten : hooked (a_model a') gs' = map (r_mod r) (hooked (a_model a) gs).
Proof.
  unfold hooked. cbn [a' rewritten_args a_model].
  assert (X : forall l, incl l (a_model a) ->
    map n_mod (filter (fun n => is_supported (n_mod n) && existsb (fun p => existsb (Nat.eqb p) (concat (map g_params gs'))) (n_params n)) (map (rewritten_node r) l)) =
    map (r_mod r) (map n_mod (filter (fun n => is_supported (n_mod n) && existsb (fun p => existsb (Nat.eqb p) (concat (map g_params gs))) (n_params n)) l))).
  { induction l as [|n l IH]; intros I; [reflexivity|]. cbn [map filter]. specialize (IH (fun q Hq => I q (or_intror Hq))).
    assert (Hn : In n (a_model a)) by (apply I; left; reflexivity).
    assert (E : is_supported (n_mod (rewritten_node r n)) && existsb (fun p => existsb (Nat.eqb p) (concat (map g_params gs'))) (n_params (rewritten_node r n)) =
                is_supported (n_mod n) && existsb (fun p => existsb (Nat.eqb p) (concat (map g_params gs))) (n_params n)).
    { unfold rewritten_node. destruct (is_supported (n_mod n)) eqn:Es; [|rewrite Es; reflexivity]. cbn [n_mod n_params].
      rewrite (mild_supported r _ (MI n Hn Es) Es). cbn [andb]. destruct (PM n Hn Es) as [_ Ep].
      apply eq_true_iff_eq. rewrite !existsb_exists. split; intros (p & Hp & Hx); apply existsb_eqb, in_ids in Hx as (i & Hi).
      - exists p. split; [rewrite Ep; apply (mild_incl r); [apply MI; assumption|exact Hp]|]. apply existsb_eqb, in_ids. exists i. apply given_less. exact Hi.
      - exists (m_weight (n_mod n)). split; [left; destruct (MI n Hn Es) as (_ & W & _); exact W|]. apply existsb_eqb, in_ids. exists i.
        apply given_weights; [assumption|assumption|]. exact (weight_handed n p i Hn Es Hp Hi). }
    rewrite E. destruct (is_supported (n_mod n) && _) eqn:Eb; [|exact IH]. cbn [map]. f_equal; [|exact IH].
    unfold rewritten_node. apply andb_true_iff in Eb as [-> _]. reflexivity. }
  apply X. intros q Hq. exact Hq.
Qed.

Lemma valid_rewritten : valid_call0 a'.
Proof.
  destruct VC as (V1 & V2 & V3 & V4 & V5 & V6). fold gs in V3, V4, V5, V6. split; [exact V1|]. split; [exact V2|]. fold gs'. pose proof given_settings_same as F.
  split; [|split; [|split]].
  - intros E. rewrite E in F. inversion F. congruence.
  - intros i j p Hi Hj. apply given_less in Hi, Hj. exact (V4 i j p Hi Hj).
  - clear -F V5. induction F as [|g g' l l' E F IH]; [constructor|]. inversion_clear V5 as [|? ? K1 K2]. constructor; [|apply IH; exact K2]. unfold same_settings in E. rewrite E. exact K1.
  - intros n' p q i j Hn' Hl Hs Hp Hq Hi Hj. cbn [a' rewritten_args a_model] in Hn'. apply in_map_iff in Hn' as (n & <- & Hn). unfold rewritten_node in *.
    destruct (is_supported (n_mod n)) eqn:Es; [|congruence]. cbn [n_leaf n_mod n_params] in *. destruct (PM n Hn Es) as [_ Ep].
    apply (V6 n p q i j); try assumption; try (rewrite Ep; apply (mild_incl r); [apply MI; assumption|assumption]); apply given_less; assumption.
Qed.

Lemma reset_settings g g' : same_settings g g' -> same_settings (reset g) (reset g').
Proof.
  intros E. unfold same_settings in *. unfold reset. rewrite E. cbn [with_params g_kfac_like g_alpha1 g_params]. destruct (_ && _); reflexivity.
Qed.
Lemma groups_rewritten : Forall2 same_settings (groups_of a) (groups_of a').
Proof.
  unfold groups_of. fold gs gs'. induction given_settings_same; constructor; [apply reset_settings; assumption|assumption].
Qed.

Lemma hooked_node m : In m (hooked (a_model a) gs) -> exists n i, In n (a_model a) /\ m = n_mod n /\ is_supported m = true /\ in_group gs i (m_weight m).
Proof.
  intros H. unfold hooked in H. apply in_map_iff in H as (n & <- & H). apply filter_In in H as [Hn H]. apply andb_true_iff in H as [Hs H].
  apply existsb_exists in H as (p & Hp & H). apply existsb_eqb, in_ids in H as (i & Hi). exists n, i. split; [exact Hn|]. split; [reflexivity|]. split; [exact Hs|].
  exact (weight_handed n p i Hn Hs Hp Hi).
Qed.

Lemma p2g_rewritten m : In m (hooked (a_model a) gs) -> c_p2g (cfg_of a') (m_weight m) = c_p2g (cfg_of a) (m_weight m).
Proof.
  intros H. destruct (hooked_node m H) as (n & i & Hn & -> & Hs & Hi). cbn [cfg_of c_p2g]. unfold groups_of. fold gs gs'.
  destruct VC as (_ & _ & _ & D & _). destruct valid_rewritten as (_ & _ & _ & D' & _). fold gs in D. fold gs' in D'.
  rewrite (p2g_in _ _ i (proj2 (disjoint_reset _) D)) by (apply in_group_reset; exact Hi).
  apply p2g_in; [apply disjoint_reset; exact D'|]. apply in_group_reset. apply given_weights; assumption.
Qed.

Lemma buffers_rewritten : initialize_buffers (cfg_of a') (groups_of a') = Ok d.
Proof.
  rewrite <- IB. unfold initialize_buffers. cbn [cfg_of c_mods]. fold gs gs'. rewrite hooked_rewritten.
  assert (X : forall l z, incl l (hooked (a_model a) gs) ->
    foldM (fun d m => let* s := init_slots (cfg_of a') (groups_of a') m in Ok (upd d (m_key m) s)) z (map (r_mod r) l) =
    foldM (fun d m => let* s := init_slots (cfg_of a) (groups_of a) m in Ok (upd d (m_key m) s)) z l).
  { induction l as [|m l IH]; intros z I; [reflexivity|]. cbn [map foldM]. assert (Hm : In m (hooked (a_model a) gs)) by (apply I; left; reflexivity).
    destruct (hooked_node m Hm) as (n & i & Hn & E & Hs & Hi). pose proof (MI n Hn) as M. rewrite <- E in M. specialize (M Hs).
    assert (EI : init_slots (cfg_of a') (groups_of a') (r_mod r m) = init_slots (cfg_of a) (groups_of a) m).
    { pose proof (mild_supported r m M Hs) as Hs'. unfold init_slots. destruct M as (M1 & M2 & M3 & M4). rewrite M4. destruct (preconditioner_dims (m_layer m)) as [[dK dC]|]; [|reflexivity]. cbn [bind].
      pose proof (get_group_same (cfg_of a) (groups_of a) m (cfg_of a') (groups_of a') (r_mod r m) Hs) as G.
      specialize (G Hs'). rewrite M2 in G. specialize (G (p2g_rewritten m Hm) groups_rewritten).
      destruct (get_group (cfg_of a) (groups_of a) m) as [g|], (get_group (cfg_of a') (groups_of a') (r_mod r m)) as [g'|]; try contradiction; [|subst; reflexivity].
      unfold same_settings in G. rewrite G. reflexivity. }
    rewrite EI. destruct M as (-> & _). destruct (init_slots (cfg_of a) (groups_of a) m) as [sl|]; [|reflexivity]. cbn [bind]. apply IH.
    intros q Hq. apply I. right. exact Hq. }
  apply X. intros q Hq. exact Hq.
Qed.
End One.

Lemma nodup_less (r : rewriting) (l : list modul) : (forall m, In m l -> mild r m) -> NoDup (flat_map mod_params l) -> NoDup (flat_map mod_params (map (r_mod r) l)).
Proof.
  induction l as [|m l IH]; intros H N; [constructor|]. cbn [map flat_map] in *.
  assert (I : incl (flat_map mod_params (map (r_mod r) l)) (flat_map mod_params l)).
  { intros p Hp. apply in_flat_map in Hp as (m' & Hm' & Hp). apply in_map_iff in Hm' as (q & <- & Hq). apply in_flat_map. exists q. split; [exact Hq|].
    apply (mild_incl r); [apply H; right; exact Hq|exact Hp]. }
  pose proof (IH (fun q Hq => H q (or_intror Hq)) (nodup_r _ _ N)) as N2. pose proof (nodup_l _ _ N) as N1.
  assert (DJ : forall p, In p (mod_params m) -> ~ In p (flat_map mod_params (map (r_mod r) l))).
  { intros p Hp Hp'. apply I in Hp'. clear -N Hp Hp'. induction (mod_params m) as [|x xs IHx]; [destruct Hp|]. cbn in N. apply NoDup_cons_iff in N as [Nx N].
    destruct Hp as [->|Hp]; [apply Nx, in_or_app; right; exact Hp'|apply IHx; assumption]. }
  destruct (mild_params r m (H m (or_introl eq_refl))) as [-> | ->].
  - clear -N1 N2 DJ. revert N1 DJ. induction (mod_params m) as [|x xs IHx]; intros N1 DJ; [exact N2|]. cbn. apply NoDup_cons_iff in N1 as [Nx N1]. constructor.
    + intros X. apply in_app_or in X as [X|X]; [exact (Nx X)|exact (DJ x (or_introl eq_refl) X)].
    + apply IHx; [exact N1|]. intros p Hp. apply DJ. right. exact Hp.
  - cbn. constructor; [|exact N2]. apply DJ. left. reflexivity.
Qed.

(** The rewritten model is accepted and starts in the corresponding state. *)
Lemma rewritten_setting r a par par' c st0 :
  setting a par c st0 -> plain_model a -> (forall n, In n (a_model a) -> is_supported (n_mod n) = true -> mild r (n_mod n)) ->
  exists c' st0', setting (rewritten_args r a) par' c' st0' /\
    c_mods c' = map (r_mod r) (c_mods c) /\
    (forall m, In m (c_mods c) -> c_p2g c' (m_weight m) = c_p2g c (m_weight m)) /\
    (forall m, In m (c_mods c) -> mild r m) /\
    Forall2 same_settings (s_groups st0) (s_groups st0') /\ s_slots st0' = s_slots st0 /\ s_steps st0' = s_steps st0 /\ s_scales st0' = s_scales st0 /\
    s_amp st0' = s_amp st0 /\ s_inf st0' = s_inf st0 /\ s_log st0' = s_log st0 /\
    (forall out, s_pend st0 out = None) /\ (forall out, s_pend st0' out = None) /\
    s_par st0 = (fun p => mkP (p_val (par p)) (p_grad (par p)) None) /\ s_par st0' = (fun p => mkP (p_val (par' p)) (p_grad (par' p)) None).
Proof.
  intros ((h & h' & E) & NK & DN & NP & SOK) PM MI. destruct (ctor_eq a par h) as [[VC E']|[_ E']]; rewrite E in E'; [|discriminate].
  destruct (initialize_buffers (cfg_of a) (groups_of a)) as [d|] eqn:IB; [|discriminate]. injection E' as -> -> ->.
  pose proof (valid_rewritten r a PM MI d VC IB) as VC'. pose proof (buffers_rewritten r a PM MI d VC IB) as IB'.
  destruct (ctor_eq (rewritten_args r a) par' []) as [[_ E2]|[NV _]]; [|contradiction]. rewrite IB' in E2.
  eexists. eexists. split; [split; [eexists; eexists; exact E2|]|].
  - split; [|split; [|split]].
    + cbn [rewritten_args a_model]. rewrite map_map. erewrite map_ext_in; [exact NK|]. intros n Hn. unfold rewritten_node. destruct (is_supported (n_mod n)) eqn:Es; [|reflexivity].
      destruct (MI n Hn Es) as (X & _). exact X.
    + intros n' dK dC Hn'. cbn [rewritten_args a_model] in Hn'. apply in_map_iff in Hn' as (n & <- & Hn). unfold rewritten_node. destruct (is_supported (n_mod n)) eqn:Es; [|apply DN; exact Hn].
      cbn [n_mod]. destruct (MI n Hn Es) as (_ & _ & _ & X). rewrite X. apply DN. exact Hn.
    + cbn [cfg_of c_mods] in *. rewrite (hooked_rewritten r a PM MI d VC IB). apply nodup_less; [|exact NP].
      intros m Hm. destruct (hooked_node a PM d VC IB m Hm) as (n & i & Hn & -> & Hs & _). apply MI; assumption.
    + cbn [s_groups] in *. intros g cK cC Hg Ex. assert (F := groups_rewritten r a PM MI d VC IB). clear -SOK F Hg Ex.
      induction F as [|g1 g2 l1 l2 S F IH]; [destruct Hg|]. destruct Hg as [->|Hg].
      * unfold same_settings in S. rewrite S in Ex. exact (SOK g1 cK cC (or_introl eq_refl) Ex).
      * apply IH; [|exact Hg]. intros x xK xC Hx. apply SOK. right. exact Hx.
  - split; [exact (hooked_rewritten r a PM MI d VC IB)|]. split; [intros m Hm; exact (p2g_rewritten r a PM MI d VC IB m Hm)|].
    split; [intros m Hm; destruct (hooked_node a PM d VC IB m Hm) as (n & i & Hn & -> & Hs & _); apply MI; assumption|].
    split; [exact (groups_rewritten r a PM MI d VC IB)|]. cbn. auto 20.
Qed.
End LayerCtor.
