(** Lemmas: constructor calls that list modules, groups and parameters in another order. *)

From Coq Require Import List Arith Lia Bool ZArith Permutation FinFun.
From Verif Require Import Scalar Res Tensor Structures OptimUtils Optimizer Construct OptState OptRun OptTyped CtorSpec CtorFacts OptFail OptOrder Split SplitCtor RelistSpec Relist.
Import ListNotations.
Open Scope nat_scope.

Section RelistCtor.
Context {SC : Scalar} {FL : FieldLaws SC}.

Lemma filter_perm {A} (f : A -> bool) l l' : Permutation l l' -> Permutation (filter f l) (filter f l').
Proof.
  intros P. induction P; cbn; [constructor|destruct (f x); [constructor|]; assumption| |econstructor; eassumption].
  destruct (f x), (f y); try apply Permutation_refl. constructor.
Qed.

(** The groups of the second call, with the same members. *)
Definition regrouped (pos : nat -> nat) (gs gs' : list group) : Prop :=
  length gs' = length gs /\
  (forall i g, nth_error gs i = Some g -> exists g', nth_error gs' (pos i) = Some g' /\ same_settings g g' /\ (forall p, In p (g_params g') <-> In p (g_params g))) /\
  (forall i j, i < length gs -> j < length gs -> pos i = pos j -> i = j).

Lemma regrouped_onto pos gs gs' j : regrouped pos gs gs' -> j < length gs -> exists i, i < length gs /\ pos i = j.
Proof.
  intros (L & G & IN) Hj.
  assert (BF : bFun (length gs) pos).
  { intros i Hi. destruct (nth_error gs i) as [g|] eqn:E; [|apply nth_error_None in E; lia].
    destruct (G i g E) as (g' & E' & _). rewrite <- L. apply nth_error_Some. congruence. }
  destruct (proj1 (bInjective_bSurjective BF) IN j Hj) as (i & Hi & E). exists i. auto.
Qed.

Lemma regrouped_in pos gs gs' j p : regrouped pos gs gs' -> in_group gs' j p <-> exists i, pos i = j /\ in_group gs i p.
Proof.
  intros R. pose proof R as (L & G & IN). split.
  - intros (g' & E & Hp). assert (Hj : j < length gs) by (rewrite <- L; apply nth_error_Some; congruence).
    destruct (regrouped_onto pos gs gs' j R Hj) as (i & Hi & <-). exists i. split; [reflexivity|].
    destruct (nth_error gs i) as [g|] eqn:Ei; [|apply nth_error_None in Ei; lia]. destruct (G i g Ei) as (g2 & E2 & _ & M).
    exists g. split; [exact Ei|]. rewrite E2 in E. injection E as <-. apply M. exact Hp.
  - intros (i & <- & g & E & Hp). destruct (G i g E) as (g2 & E2 & _ & M). exists g2. split; [exact E2|]. apply M. exact Hp.
Qed.

Lemma regrouped_disjoint pos gs gs' : regrouped pos gs gs' -> disjoint gs -> disjoint gs'.
Proof.
  intros R D i j p Hi Hj. apply (regrouped_in pos gs gs' i p R) in Hi as (i' & <- & Hi). apply (regrouped_in pos gs gs' j p R) in Hj as (j' & <- & Hj).
  rewrite (D _ _ _ Hi Hj). reflexivity.
Qed.

Lemma same_reset g g' : same_settings g g' -> same_settings (reset g) (reset g').
Proof.
  intros H. pose proof H as (H1 & H2 & H3 & H4 & H5 & H6 & H7 & H8 & H9 & H10 & H11 & H12). unfold reset. rewrite H4, H11.
  destruct (_ && _); [|exact H]. unfold same_settings, with_alpha1. cbn. auto 15.
Qed.

(** Both calls hand over the same groups. *)
Lemma relisted_groups pos a model' params' :
  Permutation (a_model a) model' -> relisted_params pos (a_params a) params' -> groups_given a <> [] ->
  length (groups_given a) = group_count (a_params a) /\ regrouped pos (groups_given a) (groups_given (call_with model' params' a)).
Proof.
  intros PM RP NE. unfold groups_given in *. cbn [call_with a_params a_model a_requires_grad a_warn].
  change (defaults (call_with model' params' a)) with (defaults a).
  assert (ONE : forall ps ps', pos 0 = 0 -> (forall p, In p ps' <-> In p ps) ->
    regrouped pos [with_params ps (defaults a)] [with_params ps' (defaults a)]).
  { intros ps ps' P0 M. split; [reflexivity|]. split.
    - intros [|[|i]] g E; try discriminate. injection E as <-. rewrite P0. eexists. split; [reflexivity|]. split; [unfold same_settings; cbn; auto 15|exact M].
    - cbn. intros. lia. }
  destruct (a_params a) as [|ps|l], params' as [|ps'|l']; cbn [relisted_params] in RP; try contradiction.
  - assert (M : forall p, In p (fst (trainable model' (a_requires_grad a) (a_warn a))) <-> In p (fst (trainable (a_model a) (a_requires_grad a) (a_warn a)))).
    { intros p. rewrite !trainable_in. split; intros (n & Hn & X); exists n; (split; [|exact X]).
      - eapply Permutation_in; [apply Permutation_sym; exact PM|exact Hn].
      - eapply Permutation_in; [exact PM|exact Hn]. }
    destruct (fst (trainable (a_model a) _ _)) as [|p ps]; [contradiction|]. split; [reflexivity|].
    destruct (fst (trainable model' _ _)) as [|p' ps']; [destruct (proj2 (M p) (or_introl eq_refl))|]. apply ONE; assumption.
  - destruct RP as [P P0]. destruct ps as [|p ps]; [contradiction|]. split; [reflexivity|].
    destruct ps' as [|p' ps']; [apply Permutation_sym, Permutation_nil in P; discriminate|]. apply ONE; [exact P0|].
    intros q. split; apply Permutation_in; [apply Permutation_sym|]; exact P.
  - destruct RP as (L & IN & G). split; [cbn; apply map_length|]. split; [rewrite !map_length; exact L|]. split; [|rewrite map_length; exact IN].
    intros i g E. rewrite nth_error_map in E. destruct (nth_error l i) as [[ps f]|] eqn:El; [|discriminate]. injection E as <-. cbn [fst snd].
    destruct (G i ps f El) as (ps' & E' & P). exists (with_params ps' (f (defaults a))). rewrite nth_error_map, E'. split; [reflexivity|]. cbn [fst snd].
    split; [unfold same_settings; cbn; auto 15|]. cbn. intros q. split; apply Permutation_in; [apply Permutation_sym|]; exact P.
Qed.

Lemma moved_reset pos gs gs' : regrouped pos gs gs' -> moved (length gs) pos (map reset gs) (map reset gs').
Proof.
  intros (L & G & IN) i Hi. rewrite !nth_error_map. destruct (nth_error gs i) as [g|] eqn:E; [|apply nth_error_None in E; lia].
  destruct (G i g E) as (g' & -> & S & _). cbn. apply same_reset. exact S.
Qed.

Lemma init_slots_same c c' gs gs' m : same_group_res (get_group c gs m) (get_group c' gs' m) -> init_slots c' gs' m = init_slots c gs m.
Proof.
  intros H. unfold init_slots. unfold same_group_res in H. destruct (get_group c gs m) as [g|], (get_group c' gs' m) as [g'|]; try contradiction; [|subst; reflexivity].
  rewrite (same_with _ _ H). reflexivity.
Qed.

Lemma relist_ctor pos a model' params' par hooks h c st0 :
  ctor a par hooks = (h, Ok (c, st0)) -> NoDup (map m_key (c_mods c)) ->
  Permutation (a_model a) model' -> relisted_params pos (a_params a) params' ->
  exists h' c' t0, ctor (call_with model' params' a) par hooks = (h', Ok (c', t0)) /\ Permutation h h' /\
    Permutation (c_mods c) (c_mods c') /\
    (forall p i, c_p2g c p = Some i -> i < group_count (a_params a)) /\
    (forall p, c_p2g c' p = option_map pos (c_p2g c p)) /\
    same_training (group_count (a_params a)) pos st0 t0.
Proof.
  intros H ND PM RP. destruct (ctor_eq a par hooks) as [[V E]|[_ E]]; rewrite E in H; [|discriminate].
  destruct (initialize_buffers (cfg_of a) (groups_of a)) as [d|] eqn:Ed; [|discriminate]. injection H as <- <- <-. clear E.
  destruct V as (V1 & V2 & V3 & V4 & V5 & V6). destruct (relisted_groups pos a model' params' PM RP V3) as [LN RG].
  set (a' := call_with model' params' a) in *. pose proof RG as (L & G & IN).
  pose proof (regrouped_disjoint pos _ _ RG V4) as D'.
  assert (V' : valid_call0 a').
  { split; [exact V1|]. split; [exact V2|]. split.
    { intros X. rewrite X in L. destruct (groups_given a); [congruence|discriminate]. }
    split; [exact D'|]. split.
    - apply Forall_forall. intros g' Hg'. apply In_nth_error in Hg' as (j & Ej). assert (Hj : j < length (groups_given a)) by (rewrite <- L; apply nth_error_Some; congruence).
      destruct (regrouped_onto pos _ _ j RG Hj) as (i & Hi & <-). destruct (nth_error (groups_given a) i) as [g|] eqn:Ei; [|apply nth_error_None in Ei; lia].
      destruct (G i g Ei) as (g2 & E2 & S2 & _). rewrite E2 in Ej. injection Ej as <-. rewrite Forall_forall in V5. destruct (V5 g (nth_error_In _ _ Ei)) as [K1 K2].
      destruct S2 as (_ & _ & _ & _ & _ & _ & S7 & _ & _ & S10 & _). split; congruence.
    - intros n p r i j Hn Lf Hs Hp Hr Hi Hj. apply (regrouped_in pos _ _ i p RG) in Hi as (i' & <- & Hi). apply (regrouped_in pos _ _ j r RG) in Hj as (j' & <- & Hj).
      f_equal. apply (V6 n p r i' j'); try assumption. eapply Permutation_in; [apply Permutation_sym; exact PM|exact Hn]. }
  destruct (ctor_eq a' par hooks) as [[_ E]|[X _]]; [|contradiction].
  assert (P2 : forall p i, c_p2g (cfg_of a) p = Some i <-> in_group (groups_given a) i p).
  { intros p j. cbn [cfg_of c_p2g]. unfold groups_of. split.
    - intros Hp. apply p2g_some in Hp as [_ Hp]. rewrite Nat.sub_0_r, in_group_reset in Hp. exact Hp.
    - intros Hp. apply p2g_in; [apply disjoint_reset; exact V4|apply in_group_reset; exact Hp]. }
  assert (P2' : forall p i, in_group (groups_given a') i p -> c_p2g (cfg_of a') p = Some i).
  { intros p i Hp. cbn [cfg_of c_p2g]. unfold groups_of. apply p2g_in; [apply disjoint_reset; exact D'|apply in_group_reset; exact Hp]. }
  assert (HP : forall p, c_p2g (cfg_of a') p = option_map pos (c_p2g (cfg_of a) p)).
  { intros p. destruct (c_p2g (cfg_of a) p) as [i|] eqn:Ei; cbn [option_map].
    - apply P2'. apply (regrouped_in pos _ _ _ _ RG). exists i. split; [reflexivity|]. apply P2. exact Ei.
    - cbn [cfg_of c_p2g]. apply p2g_none. intros k Hk. unfold groups_of in Hk. rewrite in_group_reset in Hk. apply (regrouped_in pos _ _ _ _ RG) in Hk as (i & _ & Hk).
      apply P2 in Hk. congruence. }
  assert (HS : forall p i, c_p2g (cfg_of a) p = Some i -> i < group_count (a_params a)).
  { intros p i Hi. apply P2 in Hi as (g & Eg & _). rewrite <- LN. apply nth_error_Some. congruence. }
  assert (IDS : forall p, existsb (Nat.eqb p) (concat (map g_params (groups_given a'))) = existsb (Nat.eqb p) (concat (map g_params (groups_given a)))).
  { intros p. apply eq_true_iff_eq. rewrite !existsb_eqb, !in_ids. split.
    - intros (j & Hj). apply (regrouped_in pos _ _ _ _ RG) in Hj as (i & _ & Hi). eauto.
    - intros (i & Hi). exists (pos i). apply (regrouped_in pos _ _ _ _ RG). eauto. }
  assert (HM : Permutation (c_mods (cfg_of a)) (c_mods (cfg_of a'))).
  { cbn [cfg_of c_mods]. unfold hooked. apply Permutation_map. change (a_model a') with model'.
    eapply perm_trans; [apply filter_perm; exact PM|]. match goal with |- Permutation (filter ?f _) (filter ?g _) => replace (filter g model') with (filter f model'); [apply Permutation_refl|apply filter_ext] end.
    intros n. f_equal. symmetry. induction (n_params n) as [|p ps IH]; [reflexivity|]. cbn [existsb]. rewrite IDS, IH. reflexivity. }
  assert (MG : moved (group_count (a_params a)) pos (groups_of a) (groups_of a')) by (unfold groups_of; rewrite <- LN; apply moved_reset; exact RG).
  assert (SI : forall m, init_slots (cfg_of a') (groups_of a') m = init_slots (cfg_of a) (groups_of a) m).
  { intros m. apply init_slots_same. apply (relist_group (cfg_of a) (cfg_of a') (group_count (a_params a)) pos HS HP). exact MG. }
  assert (BU : forall m, In m (c_mods (cfg_of a)) -> exists s, init_slots (cfg_of a) (groups_of a) m = Ok s) by exact (foldM_upd_ok _ _ _ _ _ Ed).
  destruct (foldM_upd_all (cfg_of a') (groups_of a') (c_mods (cfg_of a')) (fun _ => no_slots)) as (d' & Ed').
  { intros m Hm. rewrite SI. apply BU. eapply Permutation_in; [apply Permutation_sym; exact HM|exact Hm]. }
  assert (Ei' : initialize_buffers (cfg_of a') (groups_of a') = Ok d') by exact Ed'. rewrite Ei' in E.
  eexists _, _, _. split; [exact E|]. split; [apply Permutation_app_head, Permutation_map; exact HM|]. split; [exact HM|]. split; [exact HS|]. split; [exact HP|].
  unfold same_training. cbn. do 5 (split; [reflexivity|]). split; [|split; [reflexivity|split; [reflexivity|exact MG]]].
  intros k. assert (ND' : NoDup (map m_key (c_mods (cfg_of a')))) by (eapply Permutation_NoDup; [apply Permutation_map; exact HM|exact ND]).
  destruct (fold_buffers _ _ _ _ _ ND' Ed') as [F1 F1']. destruct (fold_buffers _ _ _ _ _ ND Ed) as [F2 F2'].
  destruct (in_dec Nat.eq_dec k (map m_key (c_mods (cfg_of a)))) as [I|N].
  - apply in_map_iff in I as (m & <- & Hm). destruct (F2 m Hm) as (s & Es & ->). destruct (F1 m) as (s' & Es' & ->); [eapply Permutation_in; eassumption|].
    rewrite SI in Es'. congruence.
  - rewrite F2' by exact N. apply F1'. intros I. apply N. eapply Permutation_in; [apply Permutation_map, Permutation_sym; exact HM|exact I].
Qed.

End RelistCtor.
