(** Lemmas: the constructor called with one of several parameter groups; failing steps of the split. *)

From Coq Require Import List Arith Lia Bool ZArith.
From Verif Require Import Scalar Res Tensor Structures OptimUtils Optimizer Construct OptState OptRun OptTyped CtorSpec CtorFacts OptFail OptOrder Split.
Import ListNotations.
Open Scope nat_scope.

Section SplitCtor.
Context {SC : Scalar} {FL : FieldLaws SC}.

(** The same call with a single parameter group. *)
Definition with_group (pf : list nat * (group -> group)) (a : args) : args :=
  mkArgs (a_wrapped a) (a_model a) (a_requires_grad a) (PGroups [pf]) (a_lr a) (a_momentum a) (a_damping a) (a_alpha1 a) (a_wd a)
    (a_T a) (a_loss a) (a_lr_cov a) (a_structs a) (a_approx a) (a_warn a) (a_kfac_like a) (a_init_scale a) (a_normalize a).

(** Linear and Conv2d layers have no children, and their weight is one of their parameters. *)
Definition plain_layers (model : list node) : Prop :=
  forall n, In n model -> is_supported (n_mod n) = true -> n_leaf n = true /\ In (m_weight (n_mod n)) (n_params n).

(** The module is in group [i]. *)
Definition of_group (c : cfg) (i : nat) (m : modul) : bool := match c_p2g c (m_weight m) with Some j => Nat.eqb j i | None => false end.

Lemma filter_map {A B} (f : A -> B) p l : filter p (map f l) = map f (filter (fun x => p (f x)) l).
Proof. induction l as [|a l IH]; [reflexivity|]. cbn. destruct (p (f a)); cbn; rewrite IH; reflexivity. Qed.
Lemma filter_filter {A} (p r : A -> bool) l : filter p (filter r l) = filter (fun x => r x && p x) l.
Proof. induction l as [|a l IH]; [reflexivity|]. cbn. destruct (r a); cbn; [|exact IH]. destruct (p a); rewrite IH; reflexivity. Qed.
Lemma filter_ext_in' {A} (p r : A -> bool) l : (forall a, In a l -> p a = r a) -> filter p l = filter r l.
Proof.
  induction l as [|a l IH]; intros H; [reflexivity|]. cbn. rewrite (H a (or_introl eq_refl)).
  rewrite IH by (intros; apply H; right; assumption). reflexivity.
Qed.

Lemma foldM_upd_all c gs ms d : (forall m, In m ms -> exists s, init_slots c gs m = Ok s) ->
  exists d', foldM (fun d m => let* s := init_slots c gs m in Ok (upd d (m_key m) s)) d ms = Ok d'.
Proof.
  intros H. destruct (foldM_upd c gs ms d) as [E|(m & e & Hm & E & _)]; [exact E|]. destruct (H m Hm) as (s & X). congruence.
Qed.

Lemma init_slots_group c c' gs gs' m : get_group c' gs' m = get_group c gs m -> init_slots c' gs' m = init_slots c gs m.
Proof. intros H. unfold init_slots. rewrite H. reflexivity. Qed.

Lemma split_ctor a par hooks hooks' c st0 l i pf :
  ctor a par hooks = (hooks', Ok (c, st0)) -> a_params a = PGroups l -> nth_error l i = Some pf ->
  plain_layers (a_model a) -> NoDup (map m_key (c_mods c)) ->
  exists h' c' t0, ctor (with_group pf a) par hooks = (h', Ok (c', t0)) /\
    c_mods c' = filter (of_group c i) (c_mods c) /\
    (forall m gs, In m (c_mods c) -> of_group c i m = true -> get_group c' (only i gs) m = get_group c gs m) /\
    part c i (of_group c i) (fun _ => false) st0 t0.
Proof.
  intros H Ep En PL ND. destruct (ctor_eq a par hooks) as [[V E]|[_ E]]; rewrite E in H; [|discriminate].
  destruct (initialize_buffers (cfg_of a) (groups_of a)) as [d|] eqn:Ed; [|discriminate]. injection H as _ <- <-. clear E.
  assert (GA : groups_given a = map (fun pf => with_params (fst pf) (snd pf (defaults a))) l) by (unfold groups_given; rewrite Ep; reflexivity).
  set (g := with_params (fst pf) (snd pf (defaults a))).
  assert (Eg : nth_error (groups_given a) i = Some g) by (rewrite GA, nth_error_map, En; reflexivity).
  set (a' := with_group pf a). assert (GA' : groups_given a' = [g]) by reflexivity.
  destruct V as (V1 & V2 & V3 & V4 & V5 & V6).
  assert (IG : forall j p, in_group [g] j p -> j = 0 /\ in_group (groups_given a) i p).
  { intros [|j] p (g' & E & Hp); [|destruct j; discriminate]. injection E as <-. split; [reflexivity|]. exists g. auto. }
  assert (IG' : forall p, in_group (groups_given a) i p -> in_group [g] 0 p).
  { intros p (g' & E & Hp). exists g'. rewrite Eg in E. injection E as <-. auto. }
  assert (V' : valid_call0 a').
  { split; [exact V1|]. split; [exact V2|]. split; [rewrite GA'; discriminate|]. rewrite GA'. split; [|split].
    - intros j k p Hj Hk. apply IG in Hj as [-> _], Hk as [-> _]. reflexivity.
    - constructor; [|constructor]. rewrite Forall_forall in V5. apply V5. exact (nth_error_In _ _ Eg).
    - intros n p r j k _ _ _ _ _ Hj Hk. apply IG in Hj as [-> _], Hk as [-> _]. reflexivity. }
  destruct (ctor_eq a' par hooks) as [[_ E]|[X _]]; [|contradiction].
  (* modules *)
  assert (P2 : forall p j, c_p2g (cfg_of a) p = Some j <-> in_group (groups_given a) j p).
  { intros p j. cbn [cfg_of c_p2g]. unfold groups_of. split.
    - intros Hp. apply p2g_some in Hp as [_ Hp]. rewrite Nat.sub_0_r, in_group_reset in Hp. exact Hp.
    - intros Hp. apply p2g_in; [apply disjoint_reset; exact V4|apply in_group_reset; exact Hp]. }
  assert (P2' : forall p, in_group (groups_given a) i p -> c_p2g (cfg_of a') p = Some 0).
  { intros p Hp. cbn [cfg_of c_p2g]. unfold groups_of. rewrite GA'. apply p2g_in; [|apply in_group_reset, IG', Hp].
    apply disjoint_reset. destruct V' as (_ & _ & _ & V' & _). rewrite GA' in V'. exact V'. }
  assert (BU : forall m, In m (c_mods (cfg_of a)) -> exists s, init_slots (cfg_of a) (groups_of a) m = Ok s) by exact (foldM_upd_ok _ _ _ _ _ Ed).
  assert (MO : c_mods (cfg_of a') = filter (of_group (cfg_of a) i) (c_mods (cfg_of a))).
  { cbn [cfg_of c_mods]. change (a_model a') with (a_model a). unfold hooked. rewrite filter_map, filter_filter. f_equal.
    apply filter_ext_in'. intros n Hn. destruct (is_supported (n_mod n)) eqn:Es; [|reflexivity]. cbn [andb]. destruct (PL n Hn Es) as [Lf Hw].
    destruct (existsb (fun p => existsb (Nat.eqb p) (concat (map g_params (groups_given a)))) (n_params n)) eqn:Ex; cbn [andb].
    - assert (Hm : In (n_mod n) (c_mods (cfg_of a))).
      { cbn [cfg_of c_mods]. unfold hooked. apply in_map. apply filter_In. split; [exact Hn|]. rewrite Es, Ex. reflexivity. }
      destruct (BU _ Hm) as (s & Bs). unfold init_slots in Bs. apply bind_ok in Bs as ([dK dC] & _ & Bs). apply bind_ok in Bs as (g1 & Bg & _).
      unfold get_group in Bg. destruct (c_p2g (cfg_of a) (m_weight (n_mod n))) as [j|] eqn:Ej; [|destruct (m_layer (n_mod n)); discriminate].
      unfold of_group. rewrite Ej. rewrite P2 in Ej. rewrite GA'. cbn [map concat]. rewrite app_nil_r.
      destruct (Nat.eqb_spec j i) as [->|N].
      + apply existsb_exists. exists (m_weight (n_mod n)). split; [exact Hw|]. apply existsb_eqb. destruct (IG' _ Ej) as (g2 & E2 & H2). injection E2 as <-. exact H2.
      + apply not_true_is_false. intros X. apply existsb_exists in X as (p & Hp & X). apply existsb_eqb in X. apply N.
        apply (V6 n (m_weight (n_mod n)) p j i Hn Lf Es Hw Hp Ej). exists g. auto.
    - apply not_true_is_false. intros X. apply existsb_exists in X as (p & Hp & X). apply existsb_eqb in X. rewrite GA' in X. cbn [map concat] in X. rewrite app_nil_r in X.
      enough (existsb (fun p => existsb (Nat.eqb p) (concat (map g_params (groups_given a)))) (n_params n) = true) by congruence.
      apply existsb_exists. exists p. split; [exact Hp|]. apply existsb_eqb. apply in_ids. exists i, g. auto. }
  assert (GR : forall m gs, In m (c_mods (cfg_of a)) -> of_group (cfg_of a) i m = true -> get_group (cfg_of a') (only i gs) m = get_group (cfg_of a) gs m).
  { intros m gs Hm Mm. unfold get_group, of_group in *. destruct (c_p2g (cfg_of a) (m_weight m)) as [j|] eqn:Ej; [|discriminate].
    apply Nat.eqb_eq in Mm. subst j. pose proof Ej as Ei. rewrite P2 in Ei. rewrite (P2' _ Ei). unfold only. destruct (nth_error gs i); destruct (m_layer m); reflexivity. }
  assert (GO : groups_of a' = only i (groups_of a)).
  { unfold groups_of, only. rewrite GA', nth_error_map, Eg. reflexivity. }
  destruct (foldM_upd_all (cfg_of a') (groups_of a') (c_mods (cfg_of a')) (fun _ => no_slots)) as (d' & Ed').
  { intros m Hm. rewrite MO in Hm. apply filter_In in Hm as [Hm Mm]. destruct (BU m Hm) as (s & Bs). exists s. rewrite <- Bs. apply init_slots_group. rewrite GO. apply GR; assumption. }
  assert (Ei' : initialize_buffers (cfg_of a') (groups_of a') = Ok d') by exact Ed'. rewrite Ei' in E.
  eexists _, _, _. split; [exact E|]. split; [exact MO|]. split; [exact GR|].
  unfold part. cbn. split; [reflexivity|]. split; [reflexivity|]. split; [exact GO|]. split; [reflexivity|]. split; [reflexivity|]. split; [|intros o m x D; discriminate].
  intros m Hm Mm. split; [|reflexivity].
  assert (ND' : NoDup (map m_key (c_mods (cfg_of a')))) by (rewrite MO; apply nodup_filter_map; exact ND).
  destruct (fold_buffers _ _ _ _ _ ND' Ed') as [F1 _]. destruct (fold_buffers _ _ _ _ _ ND Ed) as [F2 _].
  destruct (F2 m Hm) as (s & Es & E2). destruct (F1 m) as (s' & Es' & E1); [rewrite MO; apply filter_In; auto|].
  rewrite E1, E2. assert (X : init_slots (cfg_of a') (groups_of a') m = init_slots (cfg_of a) (groups_of a) m) by (apply init_slots_group; rewrite GO; apply GR; assumption).
  congruence.
Qed.

(** A failing step fails in the optimizer of the failing module's group, with the same exception. *)
Lemma part_fail c s s' e : cfg_ok c -> step c false s = (s', Err e) -> c_mods c <> [] ->
  exists m, In m (c_mods c) /\
  forall c' i mine own t, c_mods c' = filter mine (c_mods c) ->
    (forall m gs, In m (c_mods c) -> mine m = true -> get_group c' (only i gs) m = get_group c gs m) ->
    part c i mine own s t -> mine m = true -> snd (step c' false t) = Err e.
Proof.
  intros OK H NE. apply step_cases in H as [(D & _)|(_ & s1 & [(e' & E & -> & E')|(E & [(_ & D & _)|(Hi & s2 & r2 & E2 & X)])])]; [discriminate| |discriminate|].
  - injection E' as <-. destruct (c_mods c) as [|m0 l0] eqn:Em; [congruence|]. exists m0. split; [left; reflexivity|]. rewrite <- Em. intros c' i mine own t HM HG P _.
    destruct (part_ensure c i mine own s t P) as [E3 _]. rewrite E in E3. cbn [fst snd] in E3.
    unfold step, sbind. destruct (ensure_scale t) as [t1 r] eqn:Et. cbn [fst snd] in E3. subst r. reflexivity.
  - destruct r2 as [[]|e2]; destruct X as [X ->]; [discriminate|]. injection X as <-. unfold step_all in E2. apply forS_fails in E2 as (l1 & m & l2 & sm & El & E1 & E2).
    exists m. split; [rewrite El; apply in_elt|]. intros c' i mine own t HM HG P Mm.
    destruct (part_ensure c i mine own s t P) as [E3 P1]. rewrite E in E3, P1. cbn [fst snd] in E3, P1.
    unfold step, sbind, getS. destruct (ensure_scale t) as [t1 r] eqn:Et. cbn [fst snd] in E3, P1. subst r. pose proof P1 as (_ & _ & _ & _ & A5 & _).
    rewrite A5. assert (Hi1 : s_inf s1 = false). { apply ensure_scale_frame in E as ((_ & _ & _ & _ & _ & E & _) & _). congruence. }
    rewrite Hi1. unfold step_all. rewrite HM, El, filter_app. cbn [filter]. rewrite Mm.
    assert (I1 : incl l1 (c_mods c)) by (rewrite El; apply incl_appl, incl_refl).
    pose proof (part_loop c c' i mine OK HG own l1 I1 s1 t1 P1) as L. rewrite E1 in L. destruct L as (tm & L & P2).
    assert (Hm : In m (c_mods c)) by (rewrite El; apply in_elt).
    destruct (part_mine c c' i mine OK HG own sm tm m P2 Hm Mm) as [E4 _]. rewrite E2 in E4. cbn [fst snd] in E4.
    rewrite forS_app. unfold sbind. rewrite L. cbn [forS]. unfold sbind. destruct (step_module c' m tm) as [t2 r] eqn:Et2. cbn [fst snd] in E4. subst r. reflexivity.
Qed.

End SplitCtor.
