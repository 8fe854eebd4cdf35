(** C62: the warnings of the constructor. *)

From Coq Require Import List Arith Lia Bool ZArith QArith Qcanon.
From Verif Require Import Scalar Res Tensor Structures OptimUtils Optimizer Construct OptFacts OptState OptRun QEx OptEx OptEx2 CtorSpec CtorFacts ProofCtor IndepSpec Warn.
Import ListNotations.
Open Scope nat_scope.

Section PropWarn.
Context {SC : Scalar}.

Lemma existsb_numbers (a : args) :
  existsb bad_number [a_lr a; a_lr_cov a; a_alpha1 a; a_momentum a; a_wd a] = false <-> numbers_ok a.
Proof.
  rewrite <- numbers_iff. generalize [a_lr a; a_lr_cov a; a_alpha1 a; a_momentum a; a_wd a]. induction l as [|x l IH]; cbn; [tauto|].
  destruct (bad_number x); cbn; [split; discriminate|exact IH].
Qed.

Lemma trainable_warns model req w k :
  In k (snd (trainable model req w)) <->
  w = true /\ exists n, In n model /\ m_key (n_mod n) = k /\ n_leaf n = true /\ is_supported (n_mod n) = false /\ exists p, In p (n_params n) /\ req p = true.
Proof.
  assert (E : forall l, negb match filter req l with [] => true | _ => false end = true <-> exists p, In p l /\ req p = true).
  { intros l. split.
    - destruct (filter req l) as [|p r] eqn:F; [discriminate|]. intros _. exists p. apply filter_In. rewrite F. left. reflexivity.
    - intros (p & Hp). apply filter_In in Hp. destruct (filter req l); [contradiction|reflexivity]. }
  induction model as [|n model IH]; cbn [trainable].
  - split; [contradiction|]. intros (_ & n & [] & _).
  - destruct (trainable model req w) as [ps ws]. cbn [snd] in IH. specialize (E (n_params n)).
    assert (R : (w = true /\ exists n0, In n0 (n :: model) /\ m_key (n_mod n0) = k /\ n_leaf n0 = true /\ is_supported (n_mod n0) = false /\ exists p, In p (n_params n0) /\ req p = true) <->
      (w = true /\ m_key (n_mod n) = k /\ n_leaf n = true /\ is_supported (n_mod n) = false /\ exists p, In p (n_params n) /\ req p = true) \/ In k ws).
    { rewrite IH. split.
      - intros (W & n0 & [<-|Hn] & H); [left; auto|right; split; [exact W|exists n0; auto]].
      - intros [(W & H)|(W & n0 & Hn & H)]; (split; [exact W|]); [exists n; split; [left; reflexivity|exact H]|exists n0; split; [right; exact Hn|exact H]]. }
    rewrite R. clear R IH.
    destruct (n_leaf n); [|cbn [snd]; split; [auto|intros [(_ & _ & D & _)|H]; [discriminate|exact H]]].
    destruct (is_supported (n_mod n)) eqn:S; cbn [snd]; [split; [auto|intros [(_ & _ & _ & D & _)|H]; [discriminate|exact H]]|].
    destruct (negb match filter req (n_params n) with [] => true | _ => false end && w) eqn:B; cbn [snd].
    + apply andb_true_iff in B as [B ->]. apply E in B. cbn [In]. split.
      * intros [<-|H]; [left; auto 6|right; exact H].
      * intros [(_ & H & _)|H]; auto.
    + split; [auto|]. intros [(W & _ & _ & _ & H)|H]; [|exact H]. apply E in H. rewrite H, W in B. discriminate.
Qed.

Lemma group_not_unsupported k gs : forall i, ~ In (WUnsupported k) (group_warnings i gs).
Proof.
  induction gs as [|g gs IH]; intros i; cbn [group_warnings]; [auto|]. rewrite in_app_iff. intros [H|H].
  - destruct (_ && _); [destruct H as [H|[]]; discriminate|contradiction].
  - destruct (check_group g); [exact (IH _ H)|contradiction].
Qed.

Lemma C62_unsupported_lemma : forall a k,
  In (WUnsupported k) (ctor_warnings a) <->
  a_wrapped a = false /\ numbers_ok a /\ a_params a = PNone /\ a_warn a = true /\
  exists n, In n (a_model a) /\ m_key (n_mod n) = k /\ n_leaf n = true /\ is_supported (n_mod n) = false /\
    exists p, In p (n_params n) /\ a_requires_grad a p = true.
Proof.
  intros a k. unfold ctor_warnings. rewrite <- existsb_numbers. destruct (a_wrapped a); [split; [contradiction|intros (D & _); discriminate]|].
  destruct (existsb _ _); [split; [contradiction|intros (_ & D & _); discriminate]|]. rewrite in_app_iff.
  assert (N : ~ In (WUnsupported k) match base_init a with Ok gs => group_warnings 0 gs | Err _ => [] end).
  { destruct (base_init a); [apply group_not_unsupported|auto]. }
  destruct (a_params a); try (split; [intros [[]|H]; contradiction|intros (_ & _ & D & _); discriminate]).
  rewrite in_map_iff. split.
  - intros [(k' & E & H)|H]; [|contradiction]. injection E as ->. apply trainable_warns in H as [W H]. auto.
  - intros (_ & _ & _ & W & H). left. exists k. split; [reflexivity|]. apply trainable_warns. auto.
Qed.

Lemma group_alpha i gs : Forall known gs -> forall j,
  In (WAlpha i) (group_warnings j gs) <-> exists g, j <= i /\ nth_error gs (i - j) = Some g /\ g_kfac_like g = true /\ feqb (g_alpha1 g) f0 = false.
Proof.
  induction gs as [|g gs IH]; intros K j; cbn [group_warnings].
  - split; [contradiction|]. intros (g & _ & E & _). destruct (i - j); discriminate.
  - apply Forall_cons_iff in K as [[K1 K2] K]. rewrite check_group_eq.
    assert (B : (match g_approx g with ApproxOther => false | _ => true end && match g_loss g with LossOther => false | _ => true end) = true).
    { destruct (g_approx g), (g_loss g); try reflexivity; congruence. }
    rewrite B, in_app_iff, (IH K (S j)). split.
    + intros [H|(h & L & E & H)].
      * destruct (g_kfac_like g) eqn:Gk; [|destruct H]. destruct (feqb (g_alpha1 g) f0) eqn:Ga; [destruct H|]. destruct H as [H|[]]. injection H as ->.
        exists g. rewrite Nat.sub_diag. auto.
      * exists h. split; [lia|]. split; [|exact H]. replace (i - j) with (S (i - S j)) by lia. exact E.
    + intros (h & L & E & H1 & H2). destruct (i - j) as [|d] eqn:D.
      * left. injection E as ->. rewrite H1, H2. left. f_equal. lia.
      * right. exists h. split; [lia|]. split; [|auto]. replace (i - S j) with d by lia. exact E.
Qed.

Lemma C62_alpha_lemma {FL : FieldLaws SC} : forall a par hooks hooks' c st i g gg,
  ctor a par hooks = (hooks', Ok (c, st)) -> settings a i = Some g -> nth_error (s_groups st) i = Some gg ->
  (In (WAlpha i) (ctor_warnings a) <-> g_kfac_like g = true /\ g_alpha1 g <> f0) /\
  (In (WAlpha i) (ctor_warnings a) -> g_alpha1 gg = f0) /\
  (~ In (WAlpha i) (ctor_warnings a) -> g_alpha1 gg = g_alpha1 g).
Proof.
  intros a par hooks hooks' c st i g gg E Es En.
  assert (A : In (WAlpha i) (ctor_warnings a) <-> g_kfac_like g = true /\ feqb (g_alpha1 g) f0 = false).
  { pose proof (ctor_ok _ _ _ _ _ _ E) as (V & _ & Eg). apply valid_iff in V as (V1 & V2 & V3 & V4 & V5 & _). unfold ctor_warnings.
    rewrite V1. apply existsb_numbers in V2. rewrite V2, base_init_eq.
    assert (EB : match groups_given a with [] => Err ValueError | gs => if disjoint_groups (map g_params gs) then Ok gs else Err ValueError end = Ok (groups_given a)).
    { apply disjoint_iff in V4. destruct (groups_given a) eqn:GG; [exfalso; apply V3; reflexivity|]. cbn in V4 |- *. rewrite V4. reflexivity. }
    rewrite EB. clear EB.
    rewrite in_app_iff, (group_alpha i _ V5), Nat.sub_0_r.
    rewrite Eg in En. unfold groups_of in En. rewrite nth_error_map in En. destruct (nth_error (groups_given a) i) as [gv|] eqn:Ev; [|discriminate].
    destruct (given_settings a i gv Ev) as (g' & Es' & ->). rewrite Es in Es'. injection Es' as <-. split.
    - intros [H|(h & _ & E1 & H)]; [|injection E1 as <-; exact H]. destruct (a_params a); try contradiction. apply in_map_iff in H as (x & X & _). discriminate.
    - intros H. right. exists (with_params (g_params gv) g). split; [lia|]. split; [reflexivity|exact H]. }
  destruct (proj1 (ctor_groups a par hooks hooks' c st E) i gg En) as [(g' & Es' & (_ & _ & _ & _ & _ & _ & _ & _ & _ & _ & _ & H)) _].
  rewrite Es in Es'. injection Es' as <-. split; [|split].
  - rewrite A. rewrite <- feqb_iff. destruct (feqb (g_alpha1 g) f0); split; intros [H1 H2]; split; congruence.
  - intros W. apply A in W as [W _]. rewrite H, W. reflexivity.
  - intros W. rewrite H. destruct (g_kfac_like g) eqn:Gk; [|reflexivity]. destruct (feqb (g_alpha1 g) f0) eqn:Ea; [symmetry; apply feqb_iff; exact Ea|].
    exfalso. apply W. apply A. auto.
Qed.

Lemma C62_complete_partial_lemma {FL : FieldLaws SC} : forall a par hooks hooks' c st p,
  ctor a par hooks = (hooks', Ok (c, st)) -> a_params a = PNone -> a_warn a = true ->
  (forall k, ~ In (WUnsupported k) (ctor_warnings a)) ->
  (exists n, In n (a_model a) /\ n_leaf n = true /\ In p (n_params n)) -> a_requires_grad a p = true ->
  exists gg, In gg (s_groups st) /\ In p (g_params gg).
Proof.
  intros a par hooks hooks' c st p E P W N (n & Hn & Hl & Hp) R. apply (C21_default_parameters_lemma a par hooks hooks' c st p E P).
  exists n. destruct (is_supported (n_mod n)) eqn:S; [auto|]. exfalso. apply (N (m_key (n_mod n))). apply C62_unsupported_lemma.
  pose proof (ctor_ok _ _ _ _ _ _ E) as (V & _). apply valid_iff in V as (V1 & V2 & _). do 4 (split; [assumption|]). exists n. split; [exact Hn|].
  split; [reflexivity|]. split; [exact Hl|]. split; [exact S|]. exists p. auto.
Qed.

Lemma warn_names model req w : incl (snd (trainable model req w)) (map (fun n => m_key (n_mod n)) model).
Proof. intros k H. apply trainable_warns in H as (_ & n & Hn & <- & _). apply (in_map (fun n => m_key (n_mod n))). exact Hn. Qed.

Lemma warn_once model req w : NoDup (map (fun n => m_key (n_mod n)) model) -> NoDup (snd (trainable model req w)).
Proof.
  induction model as [|n model IH]; cbn [trainable map]; intros D; [constructor|]. apply NoDup_cons_iff in D as [D1 D2]. specialize (IH D2).
  pose proof (warn_names model req w) as I. destruct (trainable model req w) as [ps ws]. cbn [snd] in *.
  destruct (n_leaf n); [|exact IH]. destruct (is_supported (n_mod n)); [exact IH|]. destruct (_ && _); [|exact IH].
  cbn [snd]. constructor; [|exact IH]. intros H. apply D1. apply I. exact H.
Qed.

Lemma group_later gs : forall j i, In (WAlpha i) (group_warnings j gs) -> j <= i.
Proof.
  induction gs as [|g gs IH]; intros j i; cbn [group_warnings]; [contradiction|]. rewrite in_app_iff. intros [H|H].
  - destruct (_ && _); [destruct H as [H|[]]; injection H as ->; lia|contradiction].
  - destruct (check_group g); [|contradiction]. apply IH in H. lia.
Qed.

Lemma group_once gs : forall j, NoDup (group_warnings j gs).
Proof.
  induction gs as [|g gs IH]; intros j; cbn [group_warnings]; [constructor|].
  assert (D : NoDup match check_group g with Ok _ => group_warnings (S j) gs | Err _ => [] end) by (destruct (check_group g); [apply IH|constructor]).
  destruct (_ && _); cbn [app]; [|exact D]. constructor; [|exact D]. intros H. destruct (check_group g); [|contradiction]. apply group_later in H. lia.
Qed.

Lemma C62_once_lemma : forall a, NoDup (map (fun n => m_key (n_mod n)) (a_model a)) -> NoDup (ctor_warnings a).
Proof.
  intros a D. unfold ctor_warnings. destruct (a_wrapped a); [constructor|]. destruct (existsb _ _); [constructor|].
  assert (G : NoDup match base_init a with Ok gs => group_warnings 0 gs | Err _ => [] end) by (destruct (base_init a); [apply group_once|constructor]).
  assert (U : forall l, NoDup l -> NoDup (map WUnsupported l ++ match base_init a with Ok gs => group_warnings 0 gs | Err _ => [] end)).
  { induction l as [|k l IH]; intros H; [exact G|]. apply NoDup_cons_iff in H as [H1 H2]. cbn [map app]. constructor; [|exact (IH H2)].
    rewrite in_app_iff, in_map_iff. intros [(x & X & Hx)|Hx]; [injection X as ->; contradiction|].
    destruct (base_init a); [exact (group_not_unsupported k _ _ Hx)|contradiction]. }
  destruct (a_params a); [apply U; apply warn_once; exact D|exact G|exact G].
Qed.

End PropWarn.

(** ** What is missed in silence *)

(** A module with children may own parameters, like the position embedding of a transformer: here parameter 3 of module 7. *)
Definition wn_model : list node :=
  [mkNode (mkMod 7 OtherModule 9 None) false [0; 1; 2; 3]; mkNode ex_m1 true [0; 1]; mkNode ex_m2 true [2]].
Definition wn_args (model : list node) (alpha1 : Qc) (kfac_like : bool) : @args Q_scalar :=
  @mkArgs Q_scalar false model (fun _ => true) PNone
    (PyFloat (qr 1 10 : @F Q_scalar)) (PyFloat (q 0 : @F Q_scalar)) (PyFloat (qr 1 4 : @F Q_scalar))
    (PyFloat (alpha1 : @F Q_scalar)) (PyFloat (q 0 : @F Q_scalar)) 1 LossBatch
    (PyFloat (qr 1 2 : @F Q_scalar)) dense2 Expand true kfac_like (q 1 : @F Q_scalar) false.

Definition wn_es : list (@event Q_scalar) := (ex_iter (q 1) ++ ex_step) ++ [@EGrad Q_scalar 3 (Some (qt [2; 1] [1; 1]%Z))].
Lemma last_grad {SC : Scalar} c es st p g : p_grad (s_par (run c (es ++ [EGrad p g]) st) p) = g.
Proof. rewrite run_app. cbn [run event_op modify fst s_par set_par]. unfold upd. rewrite Nat.eqb_refl. reflexivity. Qed.

Lemma C62_container_refuted_lemma :
  ~ forall (a : @args Q_scalar) es,
      built_ok a = true -> a_params a = PNone -> a_warn a = true -> ctor_warnings a = [] ->
      forall n p g, In n (a_model a) -> In p (n_params n) -> a_requires_grad a p = true ->
        let st := run (fst (built a)) es (snd (built a)) in
        p_grad (s_par st p) = Some g -> Forall (fun r => r = Ok tt) (outcomes (fst (built a)) es (snd (built a))) -> s_steps st = 1 ->
        exists gg, In gg (s_groups st) /\ In p (g_params gg).
Proof.
  intros H.
  assert (H1 : built_ok (wn_args wn_model (q 0) false) = true) by (vm_compute; reflexivity).
  assert (H2 : ctor_warnings (wn_args wn_model (q 0) false) = []) by (vm_compute; reflexivity).
  specialize (H (wn_args wn_model (q 0) false) wn_es H1 eq_refl eq_refl H2 (mkNode (mkMod 7 OtherModule 9 None) false [0; 1; 2; 3]) 3 (qt [2; 1] [1; 1]%Z)).
  cbv zeta in H. destruct H as (gg & Hg & Hp).
  - left. reflexivity.
  - cbn. auto 6.
  - reflexivity.
  - apply last_grad.
  - apply Forall_forall. intros r Hr. assert (E : forallb is_ok (outcomes (fst (built (wn_args wn_model (q 0) false))) wn_es (snd (built (wn_args wn_model (q 0) false)))) = true) by (vm_compute; reflexivity).
    rewrite forallb_forall in E. apply E in Hr. destruct r as [[]|]; [reflexivity|discriminate].
  - vm_compute. reflexivity.
  - assert (E : forallb (fun g => negb (existsb (Nat.eqb 3) (g_params g))) (s_groups (run (fst (built (wn_args wn_model (q 0) false))) wn_es (snd (built (wn_args wn_model (q 0) false))))) = true)
      by (vm_compute; reflexivity).
    rewrite forallb_forall in E. specialize (E gg Hg). apply negb_true_iff in E.
    clear Hg. assert (X : existsb (Nat.eqb 3) (g_params gg) = true) by (apply existsb_exists; exists 3; split; [exact Hp|reflexivity]).
    rewrite X in E. discriminate E.
Qed.

Lemma C62_example_case :
  let model := wn_model ++ [mkNode (mkMod 8 OtherModule 9 None) true [3]] in
  NoDup (map (fun n => m_key (n_mod n)) model) /\ built_ok (wn_args model (qr 1 2) true) = true /\
  ctor_warnings (wn_args model (qr 1 2) true) = [WUnsupported 8; WAlpha 0] /\
  map g_alpha1 (s_groups (snd (built (wn_args model (qr 1 2) true)))) = [q 0 : @F Q_scalar].
Proof.
  cbv zeta. split; [cbn; repeat constructor; cbn; lia|]. split; [vm_compute; reflexivity|]. split; vm_compute; reflexivity.
Qed.

Lemma C62_failing_example_case :
  let a := wn_args [mkNode (mkMod 8 OtherModule 9 None) true [3]] (q 0) false in
  built_ok a = false /\ ctor_warnings a = [WUnsupported 8].
Proof. split; vm_compute; reflexivity. Qed.

Lemma C62_silent_example_case :
  built_ok (wn_args ex_model (q 0) false) = true /\ ctor_warnings (wn_args ex_model (q 0) false) = [] /\
  forall p, In p [0; 1; 2] -> exists n, In n ex_model /\ n_leaf n = true /\ In p (n_params n).
Proof.
  split; [vm_compute; reflexivity|]. split; [vm_compute; reflexivity|]. intros p H. cbn in H.
  destruct H as [<-|[<-|[<-|[]]]]; [exists (mkNode ex_m1 true [0; 1])|exists (mkNode ex_m1 true [0; 1])|exists (mkNode ex_m2 true [2])]; cbn; auto 6.
Qed.
