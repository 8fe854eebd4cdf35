(** Lemmas: momentum buffers and parameters over whole histories. *)

From Coq Require Import List Arith Lia Bool ZArith Field.
From Verif Require Import Scalar Res Tensor TensorFacts Structures OptimUtils Optimizer Construct OptState OptRun OptSpec OptConsume OptFacts OptDir OptStep.
Import ListNotations.

Section Mom.
Context {SC : Scalar} {FL : FieldLaws SC}.
Add Field Ffmo : F_ft.
Open Scope F_scope.

Fixpoint fpow (x : F) (n : nat) : F := match n with O => 1 | S n => x * fpow x n end.

(** The steps of a history that return and are not skipped: states before and after. *)
Fixpoint updates (c : cfg) (es : list event) (st : state) : list (state * state) :=
  match es with
  | [] => []
  | e :: es' =>
      (match e, snd (event_op c e st) with
       | EStep _, Ok _ => if s_inf st then [] else [(st, fst (event_op c e st))]
       | _, _ => []
       end) ++ updates c es' (fst (event_op c e st))
  end.

(** No step raises. *)
Fixpoint no_failed_step (c : cfg) (es : list event) (st : state) : Prop :=
  match es with
  | [] => True
  | e :: es' => (forall b, e = EStep b -> snd (event_op c e st) = Ok tt) /\ no_failed_step c es' (fst (event_op c e st))
  end.

Lemma updates_app c es1 es2 st : updates c (es1 ++ es2) st = updates c es1 st ++ updates c es2 (run c es1 st).
Proof. revert st. induction es1 as [|e es1 IH]; intros st; [reflexivity|]. cbn [app updates run]. rewrite IH, app_assoc. reflexivity. Qed.
Lemma no_failed_app c es1 es2 st : no_failed_step c (es1 ++ es2) st -> no_failed_step c es1 st /\ no_failed_step c es2 (run c es1 st).
Proof.
  revert st. induction es1 as [|e es1 IH]; intros st H; [split; [exact I|exact H]|]. cbn [app no_failed_step run] in *.
  destruct H as [H1 H2]. destruct (IH _ H2). auto.
Qed.

(** ** Directions *)

(** The part for parameter [p]. *)
Definition pdir (m : modul) (p : nat) (u : state * state) : res tensor :=
  let* '(w, b) := direction m (fst u) (snd u) in
  if Nat.eqb p (m_weight m) then Ok w else match b with Some d => Ok d | None => Err KeyError end.

Lemma param_update c st st' m p :
  cfg_ok c -> In m (c_mods c) -> In p (mod_params m) -> (m_bias m <> None -> has_bias (m_layer m) = true) ->
  s_inf st = false -> step c false st = (st', Ok tt) ->
  exists g d, get_group c (s_groups st) m = Ok g /\ pdir m p (st, st') = Ok d /\
    param_step g d (s_par st p) = (s_par st' p, Ok tt).
Proof.
  intros OK Hm Hp HB Hi H.
  destruct (step_parts c st st' m OK Hm Hi H) as (cur & g & scales & s' & N & w & b & P1 & _ & _ & P4 & _ & P6 & P7 & P8 & P9 & P10).
  subst s'. unfold pdir, direction. cbn [fst snd]. rewrite P1, P7. cbn [bind]. rewrite P8. cbn [bind].
  destruct (Nat.eqb_spec p (m_weight m)) as [->|Np]; [exists g, w; auto|].
  unfold mod_params in Hp. destruct Hp as [Hp|Hp]; [congruence|]. destruct (m_bias m) as [q|] eqn:Eb; [|contradiction].
  destruct Hp as [->|[]]. destruct b as [d|]; [exists g, d; auto|]. exfalso.
  specialize (HB ltac:(discriminate)). unfold split_matrix in P8. rewrite HB in P8.
  repeat (apply bind_ok in P8 as (? & _ & P8)). discriminate.
Qed.

Lemma map2_shapes f a b r : t_map2 f a b = Ok r -> shape a = shape b.
Proof. unfold t_map2. destruct (shape_eqb (shape a) (shape b)) eqn:E; [|discriminate]. intros _. apply shape_eqb_eq. exact E. Qed.

Lemma param_step_shapes g d p p' :
  param_step g d p = (p', Ok tt) ->
  shape d = shape (p_val p) /\ (g_momentum g <> 0 -> forall b, p_buf p = Some b -> shape b = shape (p_val p)).
Proof.
  intros H. unfold param_step in H. unfold sbind at 1, getS in H. apply sbind_ok in H as (p1 & d' & E1 & H).
  unfold lift in E1. injection E1 as <- E1.
  assert (SD : shape d' = shape d). { destruct (feqb (g_wd g) 0); [injection E1 as <-; reflexivity|].
     unfold t_add_alpha in E1. unfold t_map2 in E1. destruct (shape_eqb _ _); [|discriminate]. injection E1 as <-. reflexivity. }
  destruct (feqb_spec (g_momentum g) 0) as [[E0 E2]|[N0 E2]]; rewrite E2 in H.
  - apply sbind_ok in H as (? & v & E3 & H). unfold lift in E3. injection E3 as <- E3. apply map2_shapes in E3.
    split; [congruence|]. intros N. contradiction.
  - apply sbind_ok in H as (p2 & [] & E3 & H). apply sbind_ok in H as (p3 & buf & E4 & H). unfold lift in E4. injection E4 as <- E4.
    apply sbind_ok in H as (p4 & [] & E5 & H). apply sbind_ok in H as (p5 & v & E6 & H). unfold lift in E6. injection E6 as <- E6.
    apply map2_shapes in E6. pose proof (map2_shapes _ _ _ _ E4) as E7. unfold t_add, t_map2 in E4. destruct (shape_eqb _ _); [|discriminate].
    injection E4 as <-. cbn [shape tab t_scale t_map] in E6, E7. 
    split; [congruence|]. intros _ b Eb. rewrite Eb in E6. symmetry. exact E6.
Qed.

(** ** Closed forms *)

Section Closed.
Variables (c : cfg) (m : modul) (p : nat) (mu : F).

(** Hyper-parameters in force at an update. *)
Definition lr_at (u : state * state) : F := match get_group c (s_groups (fst u)) m with Ok g => g_lr g | Err _ => 0 end.
Definition wd_at (u : state * state) : F := match get_group c (s_groups (fst u)) m with Ok g => g_wd g | Err _ => 0 end.

(** direction + weight_decay * parameter *)
Definition term (idx : list nat) (u : state * state) : F :=
  match pdir m p u with Ok d => tget d idx | Err _ => 0 end + wd_at u * tget (p_val (s_par (fst u) p)) idx.

(** The geometrically weighted sum of the terms of all updates, and of the first [n]. *)
Definition geo (us : list (state * state)) (idx : list nat) (n : nat) : F :=
  sum n (fun t => match nth_error us t with Some u => fpow mu (n - 1 - t) * term idx u | None => 0 end).

Lemma geo_app us us' idx n : (n <= length us)%nat -> geo (us ++ us') idx n = geo us idx n.
Proof. intros H. unfold geo. apply sum_ext. intros t Ht. rewrite nth_error_app1 by lia. reflexivity. Qed.

Lemma geo_snoc us u idx : geo (us ++ [u]) idx (S (length us)) = mu * geo us idx (length us) + term idx u.
Proof.
  unfold geo. cbn [sum]. rewrite nth_error_app2, Nat.sub_diag by lia. cbn [nth_error].
  replace (S (length us) - 1 - length us)%nat with O by lia. cbn [fpow]. rewrite <- sum_scale_l. f_equal; [|ring].
  apply sum_ext. intros t Ht. rewrite nth_error_app1 by exact Ht. destruct (nth_error us t); [|ring].
  replace (S (length us) - 1 - t)%nat with (S (length us - 1 - t)) by lia. cbn [fpow]. ring.
Qed.

(** The total decrease of the parameter. *)
Definition decrease (us : list (state * state)) (idx : list nat) : F :=
  sum (length us) (fun t => match nth_error us t with Some u => lr_at u * geo us idx (S t) | None => 0 end).

Lemma decrease_snoc us u idx : decrease (us ++ [u]) idx = decrease us idx + lr_at u * geo (us ++ [u]) idx (S (length us)).
Proof.
  unfold decrease. rewrite app_length. cbn [length]. rewrite Nat.add_1_r. cbn [sum].
  rewrite nth_error_app2, Nat.sub_diag by lia. cbn [nth_error]. f_equal.
  apply sum_ext. intros t Ht. rewrite nth_error_app1 by exact Ht. destruct (nth_error us t); [|reflexivity].
  rewrite geo_app by lia. reflexivity.
Qed.

Lemma event_par_keep e st q :
  (forall b, e <> EStep b) ->
  p_val (s_par (fst (event_op c e st)) q) = p_val (s_par st q) /\ p_buf (s_par (fst (event_op c e st)) q) = p_buf (s_par st q).
Proof.
  intros H. destruct e; try (split; reflexivity).
  - cbn [event_op]. destruct (forward_frame c m0 x grad_on out st) as (E & _). rewrite E. split; reflexivity.
  - cbn [event_op]. unfold sbind, getS. destruct (s_pend st out) as [[m0 x]|]; [|split; reflexivity].
    destruct (accumulate_frame c m0 x g st) as (_ & _ & _ & _ & _ & _ & _ & _ & E). rewrite E by intros []. split; reflexivity.
  - cbn. unfold upd. destruct (Nat.eqb_spec q p0) as [->|]; split; reflexivity.
  - cbn [event_op]. destruct (set_current_grad_scale s st) as [st' r] eqn:E. apply set_current_grad_scale_frame in E as ((_ & _ & E & _) & _).
    cbn [fst]. rewrite E. split; reflexivity.
  - exfalso. eapply H. reflexivity.
Qed.

Lemma skipped_par closure st st' : s_inf st = true -> step c closure st = (st', Ok tt) -> s_par st' = s_par st.
Proof.
  intros Hi H. apply step_cases in H as [(_ & _ & D)|(_ & st1 & [(e & _ & _ & D)|(E & [(_ & _ & ->)|(D & _)])])]; try congruence.
  apply ensure_scale_frame in E as ((_ & _ & E & _) & _). cbn. exact E.
Qed.

Hypothesis OK : cfg_ok c.
Hypothesis Hm : In m (c_mods c).
Hypothesis Hp : In p (mod_params m).
Hypothesis HB : m_bias m <> None -> has_bias (m_layer m) = true.

(** The momentum in force at every update is [mu]. *)
Definition mom_is (us : list (state * state)) : Prop :=
  forall u g, In u us -> get_group c (s_groups (fst u)) m = Ok g -> g_momentum g = mu.

Lemma closed_form es st0 s :
  p_buf (s_par st0 p) = None -> shape (p_val (s_par st0 p)) = s -> no_failed_step c es st0 -> mom_is (updates c es st0) ->
  let us := updates c es st0 in let st := run c es st0 in
  shape (p_val (s_par st p)) = s /\
  Forall (fun u => exists d, pdir m p u = Ok d /\ shape d = s) us /\
  (forall idx, in_range s idx -> tget (p_val (s_par st p)) idx = tget (p_val (s_par st0 p)) idx - decrease us idx) /\
  (if feqb mu 0 then p_buf (s_par st p) = None
   else match us with
        | [] => p_buf (s_par st p) = None
        | _ => exists b, p_buf (s_par st p) = Some b /\ shape b = s /\ forall idx, in_range s idx -> tget b idx = geo us idx (length us)
        end).
Proof.
  intros B0 S0 NF MI us st. subst us st. induction es as [|e es IH] using rev_ind.
  - cbn [updates run]. split; [exact S0|]. split; [constructor|]. split; [intros; unfold decrease; cbn; ring|].
    destruct (feqb mu 0); exact B0.
  - apply no_failed_app in NF as [NF1 NF2]. rewrite updates_app in MI. rewrite updates_app, run_app.
    assert (MI1 : mom_is (updates c es st0)) by (intros u g Hu; apply MI; apply in_app_iff; left; exact Hu).
    destruct (IH NF1 MI1) as (I1 & I2 & I3 & I4). clear IH. set (us := updates c es st0) in *. set (st := run c es st0) in *.
    cbn [no_failed_step] in NF2. destruct NF2 as [NF2 _]. cbn [updates run].
    assert (KEEP : forall st', (forall b, e <> EStep b) \/ s_inf st = true ->
      p_val (s_par st' p) = p_val (s_par st p) -> p_buf (s_par st' p) = p_buf (s_par st p) ->
      shape (p_val (s_par st' p)) = s /\ Forall (fun u => exists d, pdir m p u = Ok d /\ shape d = s) us /\
      (forall idx, in_range s idx -> tget (p_val (s_par st' p)) idx = tget (p_val (s_par st0 p)) idx - decrease us idx) /\
      (if feqb mu 0 then p_buf (s_par st' p) = None
       else match us with
        | [] => p_buf (s_par st' p) = None
        | _ => exists b, p_buf (s_par st' p) = Some b /\ shape b = s /\ forall idx, in_range s idx -> tget b idx = geo us idx (length us)
        end)).
    { intros st' _ EV EB. rewrite EV, EB. auto. }
    assert (NS : (forall b, e <> EStep b) -> (match e with EStep _ => match snd (event_op c e st) with Ok _ => if s_inf st then [] else [(st, fst (event_op c e st))] | Err _ => [] end | _ => [] end) = []).
    { destruct e; try reflexivity. intros D. exfalso. eapply D. reflexivity. }
    destruct e as [| | | | |closure|];
      try (rewrite !app_nil_r; apply KEEP; [left; discriminate| |]; apply event_par_keep; discriminate).
    specialize (NF2 closure eq_refl). cbn [event_op] in NF2 |- *. destruct (step c closure st) as [st' r] eqn:E. cbn [fst snd] in NF2 |- *. subst r.
    destruct (s_inf st) eqn:Ei.
    { cbn [app]. rewrite app_nil_r. apply KEEP; [right; reflexivity| |]; rewrite (skipped_par closure st st' Ei E); reflexivity. }
    cbn [app]. destruct closure; [discriminate E|].
    destruct (param_update c st st' m p OK Hm Hp HB Ei E) as (g & d & Eg & Ed & EP).
    destruct (param_step_shapes g d (s_par st p) _ EP) as [SD SB].
    assert (Emu : g_momentum g = mu).
    { apply (MI (st, st') g); [|exact Eg]. apply in_app_iff. right. cbn [updates event_op]. rewrite E. cbn [snd]. rewrite Ei. left. reflexivity. }
    assert (TE : forall idx, term idx (st, st') = tget d idx + g_wd g * tget (p_val (s_par st p)) idx).
    { intros idx. unfold term, wd_at. cbn [fst]. rewrite Ed, Eg. reflexivity. }
    assert (LE : lr_at (st, st') = g_lr g) by (unfold lr_at; cbn [fst]; rewrite Eg; reflexivity).
    rewrite I1 in SD, SB.
    assert (SB' : forall b, p_buf (s_par st p) = Some b -> shape b = s).
    { intros b Eb. destruct (feqb_spec mu 0) as [[_ E0]|[N0 E0]]; rewrite E0 in I4; [congruence|]. apply SB; [congruence|exact Eb]. }
    destruct (param_step_act g d (s_par st p) s I1 SD SB') as (v & B & EA & SV & HA). rewrite EP in EA. injection EA as EA.
    rewrite EA. cbn [p_val p_buf].
    split; [exact SV|]. split; [apply Forall_app; split; [exact I2|]; constructor; [eauto|constructor]|].
    rewrite Emu in HA. rewrite app_length. cbn [length]. rewrite Nat.add_1_r.
    destruct (feqb_spec mu 0) as [[E0 E1]|[N0 E1]]; rewrite E1 in HA, I4 |- *.
    + destruct HA as [-> HV]. split; [|exact I4]. intros idx Hidx. rewrite HV, I3 by exact Hidx.
      rewrite decrease_snoc, geo_snoc, TE, LE, E0, I3 by exact Hidx. ring.
    + destruct HA as (b & -> & Sb & HBf & HV).
      assert (OB : forall idx, in_range s idx -> oldbuf (s_par st p) idx = geo us idx (length us)).
      { intros idx Hidx. unfold oldbuf. destruct us as [|u us'].
        - rewrite I4. reflexivity.
        - destruct I4 as (b0 & -> & _ & Hb). apply Hb. exact Hidx. }
      assert (HB2 : forall idx, in_range s idx -> tget b idx = geo (us ++ [(st, st')]) idx (S (length us))).
      { intros idx Hidx. rewrite HBf, OB, geo_snoc, TE by exact Hidx. reflexivity. }
      split.
      * intros idx Hidx. rewrite HV, HB2, I3, decrease_snoc, LE by exact Hidx. ring.
      * destruct us as [|u us']; cbn [app]; exists b; split; [reflexivity|split; [exact Sb|exact HB2]| |split; [exact Sb|exact HB2]]. reflexivity.
Qed.

End Closed.

End Mom.
