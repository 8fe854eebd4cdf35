(** Lemmas: which constructor calls succeed, with which groups, and what failing ones leave behind. *)

From Coq Require Import List Arith Lia Bool ZArith.
From Verif Require Import Scalar Res Tensor Structures OptimUtils Optimizer Construct OptState OptRun StructSpec StructOps OptFacts OptTyped OptMom CtorSpec.
Import ListNotations.

Section CtorFacts.
Context {SC : Scalar} {FL : FieldLaws SC}.
Open Scope F_scope.

(** ** Vocabulary *)

(** The groups handed to the base class, before any check. *)
Definition groups_given (a : args) : list group :=
  match a_params a with
  | PNone => match fst (trainable (a_model a) (a_requires_grad a) (a_warn a)) with [] => [] | ps => [with_params ps (defaults a)] end
  | PList [] => []
  | PList ps => [with_params ps (defaults a)]
  | PGroups l => map (fun pf => with_params (fst pf) (snd pf (defaults a))) l
  end.

(** Parameter [p] is in the [i]-th group. *)
Definition in_group (gs : list group) (i p : nat) : Prop := exists g, nth_error gs i = Some g /\ In p (g_params g).

Definition disjoint (gs : list group) : Prop := forall i j p, in_group gs i p -> in_group gs j p -> i = j.
Definition known (g : group) : Prop := g_approx g <> ApproxOther /\ g_loss g <> LossOther.
(** Every supported leaf has its parameters in one group. *)
Definition together0 (model : list node) (gs : list group) : Prop :=
  forall n p r i j, In n model -> n_leaf n = true -> is_supported (n_mod n) = true ->
    In p (n_params n) -> In r (n_params n) -> in_group gs i p -> in_group gs j r -> i = j.
(** KFAC-like groups lose their Riemannian momentum. *)
Definition reset (g : group) : group := if g_kfac_like g && negb (feqb (g_alpha1 g) 0) then with_alpha1 0 g else g.
(** A hooked module can be given preconditioners. *)
Definition buildable0 (gs : list group) (m : modul) : Prop :=
  exists i g, nth_error gs i = Some g /\ In (m_weight m) (g_params g) /\ fst (g_structs g) <> None /\ snd (g_structs g) <> None.

(** ** Boolean tests *)

Lemma existsb_eqb p l : existsb (Nat.eqb p) l = true <-> In p l.
Proof.
  rewrite existsb_exists. split.
  - intros (x & Hx & E). apply Nat.eqb_eq in E. subst. exact Hx.
  - intros H. exists p. split; [exact H|apply Nat.eqb_refl].
Qed.
Lemma existsb_eqb_false p l : existsb (Nat.eqb p) l = false <-> ~ In p l.
Proof. rewrite <- existsb_eqb. destruct (existsb (Nat.eqb p) l); split; intros; congruence. Qed.

Lemma overlap_iff x y : overlap x y = true <-> exists p, In p x /\ In p y.
Proof.
  unfold overlap. rewrite existsb_exists. split; intros (p & H1 & H2); exists p; (split; [exact H1|]); apply existsb_eqb; exact H2.
Qed.

Lemma disjoint_iff gs : disjoint_groups (map g_params gs) = true <-> disjoint gs.
Proof.
  induction gs as [|g gs IH].
  - split; [|reflexivity]. intros _ i j p (x & E & _). destruct i; discriminate.
  - cbn [map disjoint_groups]. rewrite andb_true_iff, IH. split.
    + intros [H D] i j p Hi Hj. rewrite forallb_forall in H. destruct i as [|i], j as [|j]; [reflexivity| | |].
      * destruct Hi as (x & E & Hx). injection E as <-. destruct Hj as (y & E & Hy). cbn in E.
        specialize (H (g_params y) (in_map _ _ _ (nth_error_In _ _ E))). apply negb_true_iff in H.
        enough (overlap (g_params g) (g_params y) = true) by congruence. apply overlap_iff. eauto.
      * destruct Hj as (x & E & Hx). injection E as <-. destruct Hi as (y & E & Hy). cbn in E.
        specialize (H (g_params y) (in_map _ _ _ (nth_error_In _ _ E))). apply negb_true_iff in H.
        enough (overlap (g_params g) (g_params y) = true) by congruence. apply overlap_iff. eauto.
      * f_equal. exact (D i j p Hi Hj).
    + intros D. split.
      * apply forallb_forall. intros y Hy. apply in_map_iff in Hy as (h & <- & Hh). apply negb_true_iff.
        destruct (overlap (g_params g) (g_params h)) eqn:E; [|reflexivity]. apply overlap_iff in E as (p & P1 & P2).
        apply In_nth_error in Hh as (k & Hk). specialize (D 0%nat (S k) p). cbn in D.
        discriminate D; [exists g; auto|exists h; auto].
      * intros i j p Hi Hj. specialize (D (S i) (S j) p Hi Hj). lia.
Qed.

Lemma check_group_eq g : check_group g = if match g_approx g with ApproxOther => false | _ => true end && match g_loss g with LossOther => false | _ => true end then Ok (reset g) else Err ValueError.
Proof.
  unfold check_group. fold (reset g). assert (E : g_approx (reset g) = g_approx g /\ g_loss (reset g) = g_loss g).
  { unfold reset. destruct (g_kfac_like g && negb (feqb (g_alpha1 g) 0)); split; reflexivity. }
  destruct E as [-> ->]. destruct (g_approx g), (g_loss g); reflexivity.
Qed.

Lemma mapM_check gs :
  (mapM check_group gs = Ok (map reset gs) /\ Forall known gs) \/ (mapM check_group gs = Err ValueError /\ ~ Forall known gs).
Proof.
  induction gs as [|g gs IH]; [left; split; constructor|]. cbn [mapM]. rewrite check_group_eq. unfold known.
  destruct (g_approx g) eqn:Ea; destruct (g_loss g) eqn:El; cbn [andb bind];
    try (right; split; [reflexivity|]; intros H; apply Forall_cons_iff in H as [[H1 H2] _]; congruence);
    (destruct IH as [[E H]|[E H]]; rewrite E; cbn [bind];
     [left; split; [reflexivity|]; constructor; [split; congruence|exact H]
     |right; split; [reflexivity|]; intros X; apply Forall_cons_iff in X as [_ X]; exact (H X)]).
Qed.

Lemma reset_params g : g_params (reset g) = g_params g.
Proof. unfold reset. destruct (_ && _); reflexivity. Qed.
Lemma reset_structs g : g_structs (reset g) = g_structs g.
Proof. unfold reset. destruct (_ && _); reflexivity. Qed.
Lemma in_group_reset gs i p : in_group (map reset gs) i p <-> in_group gs i p.
Proof.
  unfold in_group. rewrite nth_error_map. destruct (nth_error gs i) as [g|]; cbn; split; intros (x & E & H); try discriminate; injection E as <-.
  - rewrite reset_params in H. eauto.
  - exists (reset g). rewrite reset_params. auto.
Qed.

Lemma p2g_some gs p : forall i j, p2g_from i gs p = Some j -> (i <= j)%nat /\ in_group gs (j - i) p.
Proof.
  induction gs as [|g gs IH]; intros i j H; [discriminate|]. cbn [p2g_from] in H.
  destruct (p2g_from (S i) gs p) as [k|] eqn:E.
  - injection H as <-. destruct (IH _ _ E) as [H1 H2]. split; [lia|]. replace (k - i)%nat with (S (k - S i)) by lia. exact H2.
  - destruct (existsb (Nat.eqb p) (g_params g)) eqn:Ex; [|discriminate]. injection H as <-. split; [lia|]. rewrite Nat.sub_diag.
    exists g. split; [reflexivity|]. apply existsb_eqb. exact Ex.
Qed.
Lemma p2g_none gs p : forall i, p2g_from i gs p = None <-> forall k, ~ in_group gs k p.
Proof.
  induction gs as [|g gs IH]; intros i; cbn [p2g_from].
  - split; [|reflexivity]. intros _ [|k] (x & E & _); discriminate.
  - destruct (p2g_from (S i) gs p) as [j|] eqn:E.
    + split; [discriminate|]. intros H. exfalso. apply p2g_some in E as [_ E]. exact (H (S (j - S i)) E).
    + rewrite (IH (S i)) in E. destruct (existsb (Nat.eqb p) (g_params g)) eqn:Ex.
      * split; [discriminate|]. intros H. exfalso. apply (H 0%nat). exists g. split; [reflexivity|]. apply existsb_eqb. exact Ex.
      * split; [|reflexivity]. intros _ [|k] (x & Ek & Hx); [|apply (E k); exists x; auto]. injection Ek as <-.
        apply existsb_eqb in Hx. congruence.
Qed.
Lemma p2g_in gs p i : disjoint gs -> in_group gs i p -> p2g_from 0 gs p = Some i.
Proof.
  intros D H. destruct (p2g_from 0 gs p) as [j|] eqn:E.
  - apply p2g_some in E as [_ E]. rewrite Nat.sub_0_r in E. f_equal. exact (D _ _ _ E H).
  - exfalso. apply (proj1 (p2g_none gs p 0) E i H).
Qed.

Lemma in_ids gs p : In p (concat (map g_params gs)) <-> exists i, in_group gs i p.
Proof.
  rewrite in_concat. split.
  - intros (l & Hl & Hp). apply in_map_iff in Hl as (g & <- & Hg). apply In_nth_error in Hg as (i & E). exists i, g. auto.
  - intros (i & g & E & Hp). exists (g_params g). split; [apply in_map; eapply nth_error_In; exact E|exact Hp].
Qed.

Lemma same_group_iff gs ps :
  disjoint gs ->
  same_group (p2g_from 0 gs) (concat (map g_params gs)) ps = true <->
  forall p r i j, In p ps -> In r ps -> in_group gs i p -> in_group gs j r -> i = j.
Proof.
  intros D. unfold same_group. set (fs := filter (fun p => existsb (Nat.eqb p) (concat (map g_params gs))) ps).
  assert (HF : forall p, In p fs <-> In p ps /\ exists i, in_group gs i p).
  { intros p. unfold fs. rewrite filter_In, existsb_eqb, in_ids. reflexivity. }
  destruct fs as [|p0 fs0] eqn:Ef.
  - split; [|reflexivity]. intros _ p r i j Hp _ Hi _. exfalso. apply (proj2 (HF p)). split; [exact Hp|eauto].
  - destruct (proj1 (HF p0) (or_introl eq_refl)) as (P0 & i0 & I0). cbn [map]. rewrite (p2g_in _ _ _ D I0). split.
    + intros H. rewrite forallb_forall in H.
      assert (A : forall p i, In p ps -> in_group gs i p -> i = i0).
      { intros p i Hp Hi. destruct (proj2 (HF p) (conj Hp (ex_intro _ i Hi))) as [E|E].
        - subst p. exact (D _ _ _ Hi I0).
        - specialize (H _ (in_map _ _ _ E)). rewrite (p2g_in _ _ _ D Hi) in H. apply Nat.eqb_eq in H. auto. }
      intros p r i j Hp Hr Hi Hj. rewrite (A p i Hp Hi), (A r j Hr Hj). reflexivity.
    + intros A. apply forallb_forall. intros h Hh. apply in_map_iff in Hh as (r & <- & Hr).
      destruct (proj1 (HF r) (or_intror Hr)) as (Pr & j & J). rewrite (p2g_in _ _ _ D J). apply Nat.eqb_eq.
      exact (A p0 r i0 j P0 Pr I0 J).
Qed.

Lemma map_params_reset gs : map g_params (map reset gs) = map g_params gs.
Proof. rewrite map_map. apply map_ext. exact reset_params. Qed.

Lemma disjoint_reset gs : disjoint (map reset gs) <-> disjoint gs.
Proof. unfold disjoint. split; intros D i j p Hi Hj; apply (D i j p); apply in_group_reset; assumption. Qed.

Lemma check_param_groups_eq model gs :
  disjoint gs ->
  (check_param_groups model gs = Ok (map reset gs, p2g_from 0 (map reset gs)) /\ Forall known gs /\ together0 model gs) \/
  (check_param_groups model gs = Err ValueError /\ ~ (Forall known gs /\ together0 model gs)).
Proof.
  intros D. unfold check_param_groups. destruct (mapM_check gs) as [[E K]|[E K]]; rewrite E; cbn [bind]; [|right; split; [reflexivity|tauto]].
  match goal with |- context [forallb ?f ?l] => destruct (forallb f l) eqn:EF end; cbn [check bind].
  - left. split; [reflexivity|]. split; [exact K|]. intros n p r i j Hn Hl Hs Hp Hr Hi Hj. rewrite forallb_forall in EF.
    assert (In n (filter (fun n => n_leaf n && is_supported (n_mod n)) model)) as Hn' by (apply filter_In; rewrite Hl, Hs; auto).
    specialize (EF n Hn'). rewrite same_group_iff in EF by (apply disjoint_reset; exact D).
    apply (EF p r i j Hp Hr); apply in_group_reset; assumption.
  - right. split; [reflexivity|]. intros [_ T]. enough (forallb (fun n => same_group (p2g_from 0 (map reset gs)) (concat (map g_params (map reset gs))) (n_params n))
       (filter (fun n => n_leaf n && is_supported (n_mod n)) model) = true) by congruence.
    apply forallb_forall. intros n Hn. apply filter_In in Hn as [Hn Hb]. apply andb_true_iff in Hb as [Hl Hs].
    apply same_group_iff; [apply disjoint_reset; exact D|]. intros p r i j Hp Hr Hi Hj. rewrite in_group_reset in Hi, Hj.
    exact (T n p r i j Hn Hl Hs Hp Hr Hi Hj).
Qed.

Lemma base_init_eq a :
  base_init a = match groups_given a with [] => Err ValueError | gs => if disjoint_groups (map g_params gs) then Ok gs else Err ValueError end.
Proof.
  unfold base_init, groups_given. destruct (a_params a) as [|ps|l].
  - destruct (fst _); reflexivity.
  - destruct ps; reflexivity.
  - destruct l; reflexivity.
Qed.

Lemma numbers_iff a :
  forallb (fun x => negb (bad_number x)) [a_lr a; a_lr_cov a; a_alpha1 a; a_momentum a; a_wd a] = true <-> numbers_ok a.
Proof.
  rewrite forallb_forall. unfold numbers_ok. split.
  - intros H x f Hx ->. specialize (H _ Hx). cbn in H. destruct (fltb f 0); [discriminate|reflexivity].
  - intros H x Hx. destruct x as [z|f|f]; cbn; try reflexivity. rewrite (H _ f Hx eq_refl). reflexivity.
Qed.

(** ** Validation *)

Definition valid_call0 (a : args) : Prop :=
  a_wrapped a = false /\ numbers_ok a /\ groups_given a <> [] /\ disjoint (groups_given a) /\
  Forall known (groups_given a) /\ together0 (a_model a) (groups_given a).

Definition groups_of (a : args) : list group := map reset (groups_given a).
Definition cfg_of (a : args) : cfg := mkCfg (hooked (a_model a) (groups_given a)) (p2g_from 0 (groups_of a)).

Lemma hooked_reset model gs : hooked model (map reset gs) = hooked model gs.
Proof. unfold hooked. rewrite map_params_reset. reflexivity. Qed.

Lemma ctor_eq a par hooks :
  (valid_call0 a /\ ctor a par hooks =
     (hooks ++ map m_key (c_mods (cfg_of a)),
      match initialize_buffers (cfg_of a) (groups_of a) with
      | Ok d => Ok (cfg_of a, mkState 0 [((-1)%Z, a_init_scale a)] d (fun p => mkP (p_val (par p)) (p_grad (par p)) None) (groups_of a) None false (fun _ => None) [])
      | Err e => Err e
      end)) \/
  (~ valid_call0 a /\ ctor a par hooks = (hooks, Err (if a_wrapped a then TypeError else ValueError))).
Proof.
  unfold ctor, valid_call0. unfold sbind, lift, modify, ret. destruct (a_wrapped a); cbn [negb check].
  { right. split; [intros (D & _); discriminate|reflexivity]. }
  pose proof (numbers_iff a) as N.
  destruct (forallb (fun x => negb (bad_number x)) [a_lr a; a_lr_cov a; a_alpha1 a; a_momentum a; a_wd a]); cbn [check].
  2:{ right. split; [|reflexivity]. intros (_ & H & _). apply N in H. discriminate. }
  rewrite base_init_eq. destruct (groups_given a) as [|g0 gs0] eqn:Eg.
  { right. split; [|reflexivity]. intros (_ & _ & H & _). congruence. }
  rewrite <- Eg in *. cbv zeta. pose proof (disjoint_iff (groups_given a)) as D. destruct (disjoint_groups (map g_params (groups_given a))).
  2:{ right. split; [|reflexivity]. intros (_ & _ & _ & H & _). apply D in H. discriminate. }
  pose proof (proj1 D eq_refl) as DJ. cbv beta iota.
  destruct (check_param_groups_eq (a_model a) (groups_given a) DJ) as [(E & K & T)|(E & KT)]; rewrite E; cbv beta iota.
  2:{ right. split; [|reflexivity]. intros (_ & _ & _ & _ & H). exact (KT H). }
  left. split; [split; [reflexivity|]; split; [apply N; reflexivity|]; split; [rewrite Eg; discriminate|auto]|].
  rewrite hooked_reset. fold (groups_of a). fold (cfg_of a).
  destruct (initialize_buffers (cfg_of a) (groups_of a)); reflexivity.
Qed.

(** ** Buffers *)

Lemma foldM_upd c gs ms d :
  (exists d', foldM (fun d m => let* s := init_slots c gs m in Ok (upd d (m_key m) s)) d ms = Ok d') \/
  (exists m e, In m ms /\ init_slots c gs m = Err e /\ foldM (fun d m => let* s := init_slots c gs m in Ok (upd d (m_key m) s)) d ms = Err e).
Proof.
  revert d. induction ms as [|m ms IH]; intros d; [left; exists d; reflexivity|]. cbn [foldM].
  destruct (init_slots c gs m) as [s|e] eqn:E; cbn [bind].
  - destruct (IH (upd d (m_key m) s)) as [H|(m' & e & Hm & E' & H)]; [left; exact H|]. right. exists m', e. cbn. auto.
  - right. exists m, e. cbn. auto.
Qed.
Lemma foldM_upd_ok c gs ms d d' :
  foldM (fun d m => let* s := init_slots c gs m in Ok (upd d (m_key m) s)) d ms = Ok d' -> forall m, In m ms -> exists s, init_slots c gs m = Ok s.
Proof.
  revert d. induction ms as [|m ms IH]; intros d H m' Hm; [destruct Hm|]. cbn [foldM] in H. apply bind_ok in H as (d1 & H1 & H).
  apply bind_ok in H1 as (s & Es & _). destruct Hm as [<-|Hm]; [eauto|exact (IH _ H m' Hm)].
Qed.

(** Structures are supported ones (or unknown strings), layers have positive sizes. *)
Definition sizes_ok0 (a : args) : Prop :=
  (forall n dK dC, In n (a_model a) -> preconditioner_dims (m_layer (n_mod n)) = Ok (dK, dC) -> dK <> O /\ dC <> O) /\
  (forall g cK, In g (groups_given a) -> fst (g_structs g) = Some cK -> In cK supported_structures) /\
  (forall g cC, In g (groups_given a) -> snd (g_structs g) = Some cC -> In cC supported_structures).

Lemma dims_of_supported m : is_supported m = true -> exists dK dC, preconditioner_dims (m_layer m) = Ok (dK, dC).
Proof. unfold is_supported. destruct (m_layer m); try discriminate; cbn; eauto. Qed.

Lemma init_slots_cases a m :
  sizes_ok0 a -> disjoint (groups_given a) -> In m (c_mods (cfg_of a)) ->
  (buildable0 (groups_given a) m /\ exists s, init_slots (cfg_of a) (groups_of a) m = Ok s) \/
  (~ buildable0 (groups_given a) m /\ init_slots (cfg_of a) (groups_of a) m = Err KeyError).
Proof.
  intros (S1 & S2 & S3) D Hm. cbn [cfg_of c_mods] in Hm. unfold hooked in Hm. apply in_map_iff in Hm as (n & <- & Hn).
  apply filter_In in Hn as [Hn Hb]. apply andb_true_iff in Hb as [Hs _]. set (m := n_mod n) in *.
  destruct (dims_of_supported m Hs) as (dK & dC & Ed). destruct (S1 n dK dC Hn Ed) as [NK NC]. unfold init_slots. rewrite Ed. cbn [bind].
  unfold get_group. cbn [cfg_of c_p2g]. assert (L : m_layer m <> OtherModule) by (intros E; unfold is_supported in Hs; rewrite E in Hs; discriminate).
  replace (match m_layer m with OtherModule => Err AssertionError | _ => match p2g_from 0 (groups_of a) (m_weight m) with None => Err KeyError | Some i => match nth_error (groups_of a) i with Some g => Ok g | None => Err IndexError end end end)
    with (match p2g_from 0 (groups_of a) (m_weight m) with None => Err KeyError | Some i => match nth_error (groups_of a) i with Some g => Ok g | None => Err IndexError end end)
    by (destruct (m_layer m); congruence).
  destruct (p2g_from 0 (groups_of a) (m_weight m)) as [i|] eqn:Ep.
  2:{ right. split; [|reflexivity]. intros (i & g & E & Hw & _). apply (proj1 (p2g_none _ _ 0) Ep i). unfold groups_of. rewrite in_group_reset. exists g. auto. }
  apply p2g_some in Ep as [_ Ep]. rewrite Nat.sub_0_r in Ep. unfold groups_of in Ep. rewrite in_group_reset in Ep. destruct Ep as (g & Eg & Hw).
  unfold groups_of. rewrite nth_error_map, Eg. cbn [option_map bind]. rewrite reset_structs.
  assert (U : forall i' g', nth_error (groups_given a) i' = Some g' -> In (m_weight m) (g_params g') -> g' = g).
  { intros i' g' E' H'. assert (i' = i) by (apply (D i' i (m_weight m)); eexists; eauto). subst. congruence. }
  destruct (fst (g_structs g)) as [cK|] eqn:EK; cbn [lookup bind].
  2:{ right. split; [|reflexivity]. intros (i' & g' & E' & H' & N1 & _). rewrite (U _ _ E' H') in N1. contradiction. }
  destruct (snd (g_structs g)) as [cC|] eqn:EC; cbn [lookup bind].
  2:{ right. split; [|reflexivity]. intros (i' & g' & E' & H' & _ & N1). rewrite (U _ _ E' H') in N1. contradiction. }
  left. split. { exists i, g. rewrite EK, EC. split; [exact Eg|]. split; [exact Hw|]. split; discriminate. }
  pose proof (supported_usable cK dK (S2 g cK (nth_error_In _ _ Eg) EK) NK) as (OK & DK & _).
  pose proof (supported_usable cC dC (S3 g cC (nth_error_In _ _ Eg) EC) NC) as (OC & DC & _).
  destruct (eye_ok cK dK OK DK) as (K & -> & _). destruct (eye_ok cC dC OC DC) as (C & -> & _). cbn [bind].
  destruct (zeros_ok cK dK OK (or_introl DK)) as (zK & -> & _). destruct (zeros_ok cC dC OC (or_introl DC)) as (zC & -> & _). cbn [bind].
  destruct (feqb _ _); eauto.
Qed.

(** The outcome of every constructor call. *)
Lemma ctor_outcome a par hooks :
  sizes_ok0 a ->
  (~ valid_call0 a /\ ctor a par hooks = (hooks, Err (if a_wrapped a then TypeError else ValueError))) \/
  (valid_call0 a /\ (exists m, In m (hooked (a_model a) (groups_given a)) /\ ~ buildable0 (groups_given a) m) /\
     ctor a par hooks = (hooks ++ map m_key (hooked (a_model a) (groups_given a)), Err KeyError)) \/
  (valid_call0 a /\ (forall m, In m (hooked (a_model a) (groups_given a)) -> buildable0 (groups_given a) m) /\
     exists st, ctor a par hooks = (hooks ++ map m_key (hooked (a_model a) (groups_given a)), Ok (cfg_of a, st)) /\ s_groups st = groups_of a).
Proof.
  intros S. destruct (ctor_eq a par hooks) as [[V E]|[V E]]; [|left; auto]. right.
  assert (D : disjoint (groups_given a)) by apply V. rewrite E. cbn [cfg_of c_mods]. unfold initialize_buffers.
  destruct (foldM_upd (cfg_of a) (groups_of a) (c_mods (cfg_of a)) (fun _ => no_slots)) as [(d & Ed)|(m & e & Hm & Ee & Ed)]; rewrite Ed.
  - right. split; [exact V|]. split; [|eexists; split; reflexivity]. intros m Hm.
    destruct (foldM_upd_ok _ _ _ _ _ Ed m Hm) as (s & Es). destruct (init_slots_cases a m S D Hm) as [[B _]|[_ X]]; [exact B|congruence].
  - left. destruct (init_slots_cases a m S D Hm) as [[_ (s & X)]|[B X]]; [congruence|]. split; [exact V|]. split; [exists m; auto|].
    rewrite X in Ee. injection Ee as <-. reflexivity.
Qed.

(** ** Which parameters are handed over *)

Lemma trainable_in model req warn p :
  In p (fst (trainable model req warn)) <->
  exists n, In n model /\ n_leaf n = true /\ is_supported (n_mod n) = true /\ In p (n_params n) /\ req p = true.
Proof.
  induction model as [|n model IH]; cbn [trainable].
  - cbn. split; [intros []|intros (n & [] & _)].
  - destruct (trainable model req warn) as [ps ws] eqn:E. cbn [fst] in IH.
    assert (R : (exists n0, In n0 (n :: model) /\ n_leaf n0 = true /\ is_supported (n_mod n0) = true /\ In p (n_params n0) /\ req p = true) <->
       (n_leaf n = true /\ is_supported (n_mod n) = true /\ In p (n_params n) /\ req p = true) \/ In p ps).
    { rewrite IH. split.
      - intros (n0 & [<-|H] & R); [left; exact R|right; exists n0; auto].
      - intros [R|(n0 & H & R)]; [exists n; cbn; auto|exists n0; cbn; auto]. }
    rewrite R. destruct (n_leaf n).
    2:{ cbn. split; [auto|intros [(X & _)|H]; [discriminate|exact H]]. }
    destruct (is_supported (n_mod n)).
    + cbn [fst]. rewrite in_app_iff, filter_In. tauto.
    + destruct (negb _ && warn); cbn [fst]; (split; [auto|intros [(_ & X & _)|H]; [discriminate|exact H]]).
Qed.

Lemma handed_iff a i p : in_group (groups_given a) i p <-> handed a i p.
Proof.
  unfold in_group, handed, groups_given. destruct (a_params a) as [|ps|l].
  - rewrite <- (trainable_in _ _ (a_warn a)). destruct (fst (trainable (a_model a) (a_requires_grad a) (a_warn a))) as [|p0 ps0].
    + split; [intros (g & E & _); destruct i; discriminate|intros [_ []]].
    + split.
      * intros (g & E & H). destruct i as [|i]; [|destruct i; discriminate]. injection E as <-. auto.
      * intros [-> H]. eexists. split; [reflexivity|exact H].
  - destruct ps as [|p0 ps0].
    + split; [intros (g & E & _); destruct i; discriminate|intros [_ []]].
    + split.
      * intros (g & E & H). destruct i as [|i]; [|destruct i; discriminate]. injection E as <-. auto.
      * intros [-> H]. eexists. split; [reflexivity|exact H].
  - rewrite nth_error_map. split.
    + intros (g & E & H). destruct (nth_error l i) as [[ps f]|]; [|discriminate]. injection E as <-. exists ps, f. auto.
    + intros (ps & f & -> & H). eexists. split; [reflexivity|exact H].
Qed.


(** ** In terms of the arguments *)

Lemma something_iff a : something a <-> groups_given a <> [].
Proof.
  unfold something, groups_given. pose proof (handed_iff a 0) as H. unfold groups_given in H. destruct (a_params a) as [|ps|l].
  - destruct (fst (trainable (a_model a) (a_requires_grad a) (a_warn a))) as [|p ps].
    + split; [|congruence]. intros (p & Hp). apply H in Hp as (g & E & _). discriminate.
    + split; [discriminate|]. intros _. exists p. apply H. eexists. split; [reflexivity|left; reflexivity].
  - destruct ps as [|p ps].
    + split; [|congruence]. intros (p & Hp). apply H in Hp as (g & E & _). discriminate.
    + split; [discriminate|]. intros _. exists p. apply H. eexists. split; [reflexivity|left; reflexivity].
  - destruct l; cbn; split; congruence.
Qed.

Lemma value_num x : value x = num x.
Proof. destruct x as [[|p|p]| |]; reflexivity. Qed.
Lemma schedule_cov x : schedule x = cov x.
Proof. destruct x as [[|p|p]| |]; reflexivity. Qed.
Lemma call_settings_eq a : call_settings a = defaults a.
Proof. unfold call_settings, defaults. rewrite !value_num, schedule_cov. reflexivity. Qed.

Lemma given_settings a i gg : nth_error (groups_given a) i = Some gg -> exists g, settings a i = Some g /\ gg = with_params (g_params gg) g.
Proof.
  unfold groups_given, settings. rewrite ?call_settings_eq. destruct (a_params a) as [|ps|l].
  - destruct (fst (trainable _ _ _)) as [|p ps]; [destruct i; discriminate|]. destruct i as [|[|i]]; try discriminate.
    intros E. injection E as <-. eexists. split; reflexivity.
  - destruct ps as [|p ps]; [destruct i; discriminate|]. destruct i as [|[|i]]; try discriminate. intros E. injection E as <-. eexists. split; reflexivity.
  - rewrite nth_error_map. destruct (nth_error l i) as [[ps f]|]; [|discriminate]. intros E. injection E as <-. eexists. split; reflexivity.
Qed.

Lemma settings_given a i g : something a -> settings a i = Some g -> exists ps, nth_error (groups_given a) i = Some (with_params ps g).
Proof.
  rewrite something_iff. unfold groups_given, settings. rewrite ?call_settings_eq. destruct (a_params a) as [|ps|l].
  - destruct (fst (trainable _ _ _)) as [|p ps]; [congruence|]. intros _. destruct i; [|discriminate]. intros E. injection E as <-. eexists. reflexivity.
  - destruct ps as [|p ps]; [congruence|]. intros _. destruct i; [|discriminate]. intros E. injection E as <-. eexists. reflexivity.
  - intros _. rewrite nth_error_map. destruct (nth_error l i) as [[ps f]|]; [|discriminate]. intros E. injection E as <-. eexists. reflexivity.
Qed.

Lemma disjoint_once a : disjoint (groups_given a) <-> once a.
Proof. unfold disjoint, once. split; intros H i j p Hi Hj; apply (H i j p); apply handed_iff; assumption. Qed.

Lemma known_iff a : something a -> Forall known (groups_given a) <-> known_values a.
Proof.
  intros Sm. rewrite Forall_forall. unfold known_values, known. split.
  - intros H i g E. destruct (settings_given a i g Sm E) as (ps & E'). exact (H _ (nth_error_In _ _ E')).
  - intros H gg Hg. apply In_nth_error in Hg as (i & E). destruct (given_settings a i gg E) as (g & Es & ->). exact (H i g Es).
Qed.

Lemma together_iff a : together0 (a_model a) (groups_given a) <-> together a.
Proof.
  unfold together0, together. split; intros H n p r i j H1 H2 H3 H4 H5 H6 H7; apply (H n p r i j); try assumption; apply handed_iff; assumption.
Qed.

Lemma valid_iff a : valid_call0 a <-> valid_call a.
Proof.
  unfold valid_call0, valid_call. rewrite disjoint_once, together_iff, <- something_iff.
  split; intros (H1 & H2 & H3 & H4 & H5 & H6); repeat (split; [assumption|]); (split; [apply known_iff; assumption|assumption]).
Qed.

Lemma buildable_iff a m : something a -> buildable0 (groups_given a) m <-> buildable a m.
Proof.
  intros Sm. unfold buildable0, buildable. split.
  - intros (i & gg & E & Hw & N1 & N2). destruct (given_settings a i gg E) as (g & Es & Eg). exists i, g.
    split; [apply handed_iff; exists gg; auto|]. split; [exact Es|]. rewrite Eg in N1, N2. auto.
  - intros (i & g & Hw & Es & N1 & N2). apply handed_iff in Hw as (gg & E & Hw). destruct (given_settings a i gg E) as (g' & Es' & Eg).
    rewrite Es in Es'. injection Es' as <-. exists i, gg. split; [exact E|]. split; [exact Hw|]. rewrite Eg. auto.
Qed.

Lemma sizes_iff a : sizes_ok a -> sizes_ok0 a.
Proof.
  intros [S1 S2]. split; [exact S1|]. split; intros gg c Hg E; apply In_nth_error in Hg as (i & Ei); destruct (given_settings a i gg Ei) as (g & Es & Eg);
    rewrite Eg in E; [exact (S2 i g c Es (or_introl E))|exact (S2 i g c Es (or_intror E))].
Qed.

Lemma hooked_iff a m : In m (hooked (a_model a) (groups_given a)) <-> trained a m.
Proof.
  unfold hooked, trained. rewrite in_map_iff. split.
  - intros (n & E & Hn). apply filter_In in Hn as [Hn Hb]. apply andb_true_iff in Hb as [Hs Hx]. apply existsb_exists in Hx as (p & Hp & Hx).
    apply existsb_eqb in Hx. apply in_ids in Hx as (i & Hi). exists n, p, i. subst m. repeat (split; [assumption || reflexivity|]). apply handed_iff. exact Hi.
  - intros (n & p & i & Hn & E & Hs & Hp & Hh). exists n. split; [exact E|]. apply filter_In. split; [exact Hn|]. subst m. rewrite Hs. cbn [andb].
    apply existsb_exists. exists p. split; [exact Hp|]. apply existsb_eqb. apply in_ids. exists i. apply handed_iff. exact Hh.
Qed.

(** Outcome of a call, by its arguments. *)
Lemma ctor_invalid a par hooks : ~ valid_call a -> ctor a par hooks = (hooks, Err (if a_wrapped a then TypeError else ValueError)).
Proof. intros V. destruct (ctor_eq a par hooks) as [[V' _]|[_ E]]; [exfalso; apply V, valid_iff, V'|exact E]. Qed.

Lemma ctor_valid a par hooks :
  sizes_ok a -> valid_call a ->
  exists hs, (forall k, In k hs <-> exists m, trained a m /\ m_key m = k) /\ fst (ctor a par hooks) = hooks ++ hs /\
  (((forall m, trained a m -> buildable a m) /\ exists c st, snd (ctor a par hooks) = Ok (c, st)) \/
   ((exists m, trained a m /\ ~ buildable a m) /\ snd (ctor a par hooks) = Err KeyError)).
Proof.
  intros S V. assert (Sm : something a) by apply V. exists (map m_key (hooked (a_model a) (groups_given a))). split.
  { intros k. rewrite in_map_iff. split; intros (m & H1 & H2); exists m; [apply hooked_iff in H2|apply hooked_iff in H1]; auto. }
  destruct (ctor_outcome a par hooks (sizes_iff a S)) as [[V' _]|[(_ & (m & Hm & B) & E)|(_ & B & st & E & _)]].
  - exfalso. apply V', valid_iff, V.
  - rewrite E. split; [reflexivity|]. right. split; [|reflexivity]. exists m. split; [apply hooked_iff; exact Hm|]. intros X. apply B, (buildable_iff a m Sm), X.
  - rewrite E. split; [reflexivity|]. left. split; [|eexists; eexists; reflexivity]. intros m Hm. apply (buildable_iff a m Sm), B, hooked_iff, Hm.
Qed.

Lemma reset_hyper ps g : same_hyper g (reset (with_params ps g)).
Proof.
  unfold same_hyper, reset. cbn [with_params g_kfac_like g_alpha1]. destruct (g_kfac_like g) eqn:Ek; cbn [andb]; [|repeat split; try assumption; cbn; rewrite Ek; reflexivity].
  destruct (feqb (g_alpha1 g) 0) eqn:E; cbn [negb]; repeat split; cbn; try rewrite Ek; try reflexivity. apply feqb_iff. exact E.
Qed.

Lemma ctor_ok a par hooks hooks' c st :
  ctor a par hooks = (hooks', Ok (c, st)) -> valid_call a /\ c = cfg_of a /\ s_groups st = groups_of a.
Proof.
  intros E. destruct (ctor_eq a par hooks) as [[V E']|[_ E']]; rewrite E in E'.
  - destruct (initialize_buffers (cfg_of a) (groups_of a)) as [d|e]; [|discriminate]. injection E' as -> -> ->. split; [apply valid_iff, V|]. split; reflexivity.
  - discriminate.
Qed.

Lemma ctor_groups a par hooks hooks' c st :
  ctor a par hooks = (hooks', Ok (c, st)) ->
  (forall i gg, nth_error (s_groups st) i = Some gg ->
     (exists g, settings a i = Some g /\ same_hyper g gg) /\ forall p, In p (g_params gg) <-> handed a i p) /\
  (forall p, (exists i, handed a i p) <-> exists gg, In gg (s_groups st) /\ In p (g_params gg)).
Proof.
  intros E. apply ctor_ok in E as (V & _ & ->). unfold groups_of. split.
  - intros i gg. rewrite nth_error_map. destruct (nth_error (groups_given a) i) as [gv|] eqn:En; [|discriminate]. intros X. injection X as <-. split.
    + destruct (given_settings a i gv En) as (g & Es & ->). exists g. split; [exact Es|]. apply reset_hyper.
    + intros p. rewrite reset_params, <- handed_iff. unfold in_group. rewrite En. split; [eauto|]. intros (x & X & H). injection X as <-. exact H.
  - intros p. split.
    + intros (i & H). apply handed_iff in H as (g & Eg & Hp). exists (reset g). split; [apply in_map; eapply nth_error_In; exact Eg|]. rewrite reset_params. exact Hp.
    + intros (gg & Hg & Hp). apply in_map_iff in Hg as (g & <- & Hg). rewrite reset_params in Hp. apply In_nth_error in Hg as (i & Ei). exists i. apply handed_iff.
      exists g. auto.
Qed.

Lemma ctor_get_group a par hooks hooks' c st m i :
  ctor a par hooks = (hooks', Ok (c, st)) -> is_supported m = true -> handed a i (m_weight m) ->
  exists gg, nth_error (s_groups st) i = Some gg /\ get_group c (s_groups st) m = Ok gg.
Proof.
  intros E Hs Hh. apply ctor_ok in E as (V & -> & ->). assert (D : disjoint (groups_given a)) by (apply disjoint_once; apply V).
  apply handed_iff in Hh. pose proof (proj2 (in_group_reset _ _ _) Hh) as Hr. apply disjoint_reset in D. pose proof (p2g_in _ _ _ D Hr) as Ep.
  destruct Hr as (gg & Eg & _). exists gg. split; [exact Eg|]. unfold get_group. cbn [cfg_of c_p2g]. unfold groups_of. rewrite Ep, Eg.
  unfold is_supported in Hs. destruct (m_layer m); congruence.
Qed.

(** The group of every parameter of a trained leaf layer. *)
Lemma ctor_param_group a par hooks hooks' c st n p i :
  ctor a par hooks = (hooks', Ok (c, st)) -> sizes_ok a ->
  In n (a_model a) -> n_leaf n = true -> is_supported (n_mod n) = true -> In (m_weight (n_mod n)) (n_params n) ->
  In p (n_params n) -> handed a i p ->
  exists g gg, settings a i = Some g /\ get_group c (s_groups st) (n_mod n) = Ok gg /\ same_hyper g gg.
Proof.
  intros E S Hn Hl Hs Hw Hp Hh. pose proof (ctor_ok _ _ _ _ _ _ E) as (V & _).
  destruct (ctor_valid a par hooks S V) as (hs & _ & _ & [[B _]|[_ X]]); [|rewrite E in X; discriminate].
  destruct (B (n_mod n)) as (j & g & Hj & Es & _). { exists n, p, i. auto 8. }
  assert (i = j) by (destruct V as (_ & _ & _ & _ & _ & T); exact (T n p _ i j Hn Hl Hs Hp Hw Hh Hj)). subst j.
  destruct (ctor_get_group _ _ _ _ _ _ _ _ E Hs Hj) as (gg & Eg & G). exists g, gg. split; [exact Es|]. split; [exact G|].
  destruct (proj1 (ctor_groups _ _ _ _ _ _ E) i gg Eg) as ((g' & Es' & SH) & _). rewrite Es in Es'. injection Es' as <-. exact SH.
Qed.

(** ** Which parameters change *)

Lemma step_par c closure st p :
  ~ In p (flat_map mod_params (c_mods c)) -> s_par (fst (step c closure st)) p = s_par st p.
Proof.
  intros N. destruct (step c closure st) as [st' r] eqn:H. cbn [fst].
  apply step_cases in H as [(_ & -> & _)|(_ & st1 & [(e & E & -> & _)|(E & [(_ & _ & ->)|(_ & st2 & r2 & E2 & X)])])]; [reflexivity| | |];
    apply ensure_scale_frame in E as ((_ & _ & E & _) & _).
  - rewrite E. reflexivity.
  - cbn. rewrite E. reflexivity.
  - apply steps_frame in E2 as (_ & _ & _ & _ & _ & _ & _ & _ & E2). rewrite <- E, <- (E2 p N).
    destruct r2; destruct X as [_ ->]; reflexivity.
Qed.

Lemma run_par c es st p :
  ~ In p (flat_map mod_params (c_mods c)) -> p_val (s_par (run c es st) p) = p_val (s_par st p) /\ p_buf (s_par (run c es st) p) = p_buf (s_par st p).
Proof.
  intros N. revert st. induction es as [|e es IH]; intros st; [split; reflexivity|]. cbn [run].
  destruct (IH (fst (event_op c e st))) as [-> ->]. destruct e; try (apply event_par_keep; discriminate). cbn [event_op]. rewrite step_par by exact N. split; reflexivity.
Qed.

Lemma changed_trained a par hooks hooks' c st0 es p :
  ctor a par hooks = (hooks', Ok (c, st0)) ->
  p_val (s_par (run c es st0) p) <> p_val (par p) -> exists m, trained a m /\ In p (mod_params m).
Proof.
  intros E H. pose proof (ctor_ok _ _ _ _ _ _ E) as (_ & Ec & _).
  destruct (in_dec Nat.eq_dec p (flat_map mod_params (c_mods c))) as [I|N].
  - apply in_flat_map in I as (m & Hm & Hp). exists m. split; [|exact Hp]. rewrite Ec in Hm. apply hooked_iff. exact Hm.
  - exfalso. apply H. destruct (run_par c es st0 p N) as [-> _].
    destruct (ctor_eq a par hooks) as [[V E']|[_ E']]; rewrite E in E'; [|discriminate].
    destruct (initialize_buffers (cfg_of a) (groups_of a)) as [d|e]; [|discriminate]. injection E' as _ _ ->. reflexivity.
Qed.

(** A step cannot succeed while a parameter of a hooked layer has no gradient. *)
Lemma no_grad_fails c st m p :
  cfg_ok c -> In m (c_mods c) -> In p (mod_params m) -> p_grad (s_par st p) = None -> s_inf st = false ->
  exists e, snd (step c false st) = Err e.
Proof.
  intros OK Hm Hp Hg Hi. destruct (step c false st) as [st' [[]|e]] eqn:H; [|exists e; reflexivity]. exfalso.
  apply step_cases in H as [(D & _)|(_ & st1 & [(e & _ & _ & D)|(E & [(D & _)|(_ & st2 & r2 & E2 & X)])])]; try congruence.
  destruct r2 as [[]|e]; [|destruct X; discriminate]. apply ensure_scale_frame in E as ((_ & _ & E & _) & _).
  destruct (step_all_view c st1 st2 m OK Hm E2) as (st3 & E3 & _). unfold step_module in E3.
  apply sbind_ok in E3 as (s4 & [] & E4 & E3). pose proof (update_preconditioner_frame c m [] st1) as Fr. rewrite E4 in Fr. cbn [fst] in Fr.
  destruct Fr as (_ & _ & _ & _ & _ & _ & _ & _ & Fr). assert (G : p_grad (s_par s4 p) = None) by (rewrite Fr by intros []; rewrite E; exact Hg).
  apply sbind_ok in E3 as (s5 & [w b] & E5 & _). unfold compute_natural_gradient in E5. apply sbind_ok in E5 as (s6 & s7 & E6 & E5). injection E6 as <- <-.
  apply sbind_ok in E5 as (s8 & N & E7 & _). unfold lift in E7. injection E7 as _ E7. unfold nat_grad_matrix in E7.
  unfold mod_params in Hp. destruct Hp as [<-|Hp].
  - unfold grad_data at 1 in E7. rewrite G in E7. discriminate.
  - apply bind_ok in E7 as (wg & _ & E7). destruct (m_bias m) as [b'|]; [|destruct Hp]. destruct Hp as [<-|[]]. cbn [option_map] in E7. unfold grad_data in E7. rewrite G in E7. discriminate.
Qed.

(** The hook of a module whose weight is in no group raises. *)
Lemma stray_hook a m x b out st :
  is_supported m = true -> (forall i, ~ handed a i (m_weight m)) -> snd (forward_hook (cfg_of a) m x b out st) = Err KeyError.
Proof.
  intros Hs N. unfold forward_hook, sbind, getS, modify, lift. cbn. unfold get_group. cbn [cfg_of c_p2g].
  assert (p2g_from 0 (groups_of a) (m_weight m) = None) as ->.
  { apply p2g_none. intros k H. unfold groups_of in H. rewrite in_group_reset in H. apply (N k). apply handed_iff. exact H. }
  unfold is_supported in Hs. destruct (m_layer m); try discriminate; reflexivity.
Qed.

(** KFAC-like groups have no Riemannian momentum. *)
Lemma kfac_no_momenta a par c st0 es m g :
  setting a par c st0 -> wf_run c es st0 -> In m (c_mods c) -> get_group c (s_groups st0) m = Ok g -> g_kfac_like g = true ->
  g_alpha1 g = 0 /\ sl_mK (s_slots (run c es st0) (m_key m)) = None /\ sl_mC (s_slots (run c es st0) (m_key m)) = None.
Proof.
  intros St W Hm Eg Hk. pose proof (setting_ok _ _ _ _ St) as [[NK NP] L]. pose proof (setting_typed _ _ _ _ [] St I) as [TO TA0].
  assert (A0 : g_alpha1 g = 0).
  { destruct St as ((h & h' & E) & _). pose proof (ctor_groups _ _ _ _ _ _ E) as [CG _].
    unfold get_group in Eg. destruct (c_p2g c (m_weight m)) as [i|]; [|destruct (m_layer m); discriminate].
    destruct (nth_error (s_groups st0) i) as [gg|] eqn:En; [|destruct (m_layer m); discriminate].
    assert (gg = g) as -> by (destruct (m_layer m); congruence).
    destruct (CG i g En) as ((g0 & _ & (_ & _ & _ & _ & _ & _ & _ & _ & _ & H1 & _ & H2)) & _). rewrite H2, <- H1, Hk. reflexivity. }
  split; [exact A0|].
  destruct (run_all_typed c _ es st0 TO NK TA0 W) as [_ SA]. destruct (SA m Hm) as [SA1 SA2].
  destruct St as ((h & h' & E) & _ & _ & _ & SO). destruct (ctor_typed _ _ _ _ _ _ E NK SO L) as (_ & _ & TT).
  destruct (TT m Hm) as (g1 & cK & cC & dK & dC & K & C & T1 & _ & _ & _ & _ & _ & _ & _ & T9 & _). rewrite Eg in T1. injection T1 as <-.
  rewrite A0 in T9. rewrite feqb_refl in T9. destruct T9 as [Z1 Z2]. split; [apply SA1; exact Z1|apply SA2; exact Z2].
Qed.

End CtorFacts.
