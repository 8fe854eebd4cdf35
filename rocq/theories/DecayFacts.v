(** Lemmas: a training without gradients is driven by weight decay and momentum alone. *)

From Coq Require Import List Arith Lia Bool ZArith Field.
From Verif Require Import Scalar Res Tensor TensorFacts Structures StructSpec OptimUtils UtilsFacts ProofUtils Optimizer Construct OptState OptRun OptSpec OptFacts OptTyped OptStep OptDir OptMom CtorSpec CtorFacts OptOrder OptFail CkptFacts ProgressSpec Progress LayerSpec LayerSim Indep LinearSpec LinearFacts DecaySpec.
Import ListNotations.

Section DecayFacts.
Context {SC : Scalar} {FL : FieldLaws SC}.
Add Field Ffdf : F_ft.
Open Scope F_scope.

Lemma zero_mix t : all_zero t -> mixes 0 0 t t t.
Proof. intros H. split; [reflexivity|]. split; [reflexivity|]. intros i. rewrite H. ring. Qed.
Lemma mix_zero a b t : mixes 0 0 a b t -> all_zero t.
Proof. intros (_ & _ & H) i. rewrite H. ring. Qed.
Lemma zeros_zero s : all_zero (zeros s).
Proof.
  intros i. destruct (Nat.lt_ge_cases i (prod s)) as [L|L].
  - rewrite (nth_tget (zeros s) s) by (assumption || reflexivity). unfold zeros. rewrite tget_tab by (apply unflat_range; exact L). reflexivity.
  - apply nth_overflow. rewrite data_length. exact L.
Qed.

Definition no_grads (m : modul) (par : nat -> pslot) : Prop := forall p g, In p (mod_params m) -> p_grad (par p) = Some g -> all_zero g.

Lemma event_inf c e st : s_inf (fst (event_op c e st)) = match e with EScaler _ i => i | _ => s_inf st end.
Proof.
  destruct e as [m x b out|out g|p g|v|a i|cl|gs]; try reflexivity; cbn [event_op].
  - destruct (forward_frame c m x b out st) as (E & _). rewrite E. reflexivity.
  - unfold sbind, getS. destruct (s_pend st out) as [[m x]|]; [|reflexivity].
    destruct (accumulate_frame c m x g st) as (_ & _ & _ & _ & F3 & _). assumption.
  - destruct (set_current_grad_scale v st) as [s' r] eqn:E. apply set_current_grad_scale_frame in E as ((_ & _ & _ & _ & _ & E & _) & _). exact E.
  - destruct (step c cl st) as [st' r] eqn:H. cbn [fst].
    apply step_cases in H as [(_ & -> & _)|(_ & st1 & [(e & E & -> & _)|(E & [(_ & _ & ->)|(_ & st2 & r2 & E2 & X)])])]; [reflexivity| | |];
      apply ensure_scale_frame in E as ((_ & _ & _ & _ & _ & E & _) & _); cbn; try assumption.
    apply steps_frame in E2 as (_ & _ & _ & _ & E2 & _). destruct r2; destruct X as [_ ->]; cbn; congruence.
Qed.

Lemma event_par c e st q : (forall b, e <> EStep b) -> (forall p g, e <> EGrad p g) -> s_par (fst (event_op c e st)) q = s_par st q.
Proof.
  intros H1 H2. destruct e as [m x b out|out g|p g|v|a i|cl|gs]; try reflexivity; cbn [event_op].
  - destruct (forward_frame c m x b out st) as (E & _). rewrite E. reflexivity.
  - unfold sbind, getS. destruct (s_pend st out) as [[m x]|]; [|reflexivity].
    destruct (accumulate_frame c m x g st) as (_ & _ & _ & _ & _ & _ & _ & _ & F). apply F. intros [].
  - exfalso. eapply H2. reflexivity.
  - destruct (set_current_grad_scale v st) as [s' r] eqn:E. apply set_current_grad_scale_frame in E as ((_ & _ & E & _) & _). cbn [fst]. rewrite E. reflexivity.
  - exfalso. eapply H1. reflexivity.
Qed.

Section One.
Variables (c : cfg) (ty : tys).
Hypothesis OK : cfg_ok c.
Hypothesis TO : tys_ok c ty.
Hypothesis BF : forall m, In m (c_mods c) -> bias_fits m.

(** Without gradients the directions are zero. *)
Lemma zero_step st st' m p :
  In m (c_mods c) -> In p (mod_params m) -> all_typed c ty st -> pars_fit c st -> no_grads m (s_par st) ->
  s_inf st = false -> step c false st = (st', Ok tt) ->
  exists g d, get_group c (s_groups st) m = Ok g /\ shape d = shape_of m p /\ all_zero d /\ param_step g d (s_par st p) = (s_par st' p, Ok tt).
Proof.
  intros Hm Hp TA PF NG Hi H.
  destruct (step_parts c st st' m OK Hm Hi H) as (cur & g & scales & s' & N & w & b & _ & _ & _ & P4 & _ & P6 & P7 & P8 & P9 & P10). subst s'.
  assert (TA' : all_typed c ty st').
  { pose proof (event_all_typed c ty (EStep false) st TO (proj1 OK) TA I) as X. cbn [event_op] in X. rewrite H in X. exact X. }
  destruct TA' as [TA' _]. specialize (TA' m Hm). pose proof (TO m Hm) as TOm. unfold mod_typed in TA'.
  destruct (ty m) as [[[cK cC] dK] dC]. destruct TOm as (UK & UC & Ed). destruct TA' as [(K & EK & VK) (C & EC & VC) _ _ _ _].
  rewrite EK, EC in P7. cbn [lookup] in P7.
  pose proof (nodup_of c OK m Hm) as ND.
  set (pz := fun p => mkP (zeros (shape_of m p)) (p_grad (s_par st p)) None).
  assert (PZ : forall p, In p (mod_params m) -> pm 0 0 (shape_of m p) (pz p) (pz p) (pz p)).
  { intros q Hq. destruct (PF m q Hm Hq) as (_ & F2 & _). constructor; cbn.
    - split; [reflexivity|]. split; [exact F2|discriminate].
    - apply zero_mix, zeros_zero.
    - unfold omixes. destruct (p_grad (s_par st q)) as [t|] eqn:Et; [|exact I]. apply zero_mix. exact (NG q t Hq Et).
    - exact I. }
  destruct (nat_mix 0 0 m (Ok cur) K C cK cC dK dC pz pz pz Ed UK UC VK VC (BF m Hm) ND PZ) as [(e & X & _)|(N1 & N2 & N3 & X1 & X2 & X3 & S1 & S2 & S3 & X)].
  { change (nat_grad_matrix (m_layer m) (grad_data (s_par st (m_weight m))) (option_map (fun b => grad_data (s_par st b)) (m_bias m)) (Ok cur) (Ok K) (Ok C) = Err e) in X. congruence. }
  change (nat_grad_matrix (m_layer m) (grad_data (s_par st (m_weight m))) (option_map (fun b => grad_data (s_par st b)) (m_bias m)) (Ok cur) (Ok K) (Ok C) = Ok N1) in X1.
  pose proof (eq_trans (eq_sym X1) P7) as Q1. pose proof (eq_trans (eq_sym X1) X2) as Q2. pose proof (eq_trans (eq_sym X1) X3) as Q3.
  injection Q1 as ->. injection Q2 as <-. injection Q3 as <-.
  destruct (split_mix 0 0 (m_layer m) N N N dK dC Ed S1 S1 S1 X) as (w1 & b1 & w2 & b2 & w3 & b3 & Y1 & Y2 & Y3 & SW & MW & MB & SB).
  rewrite P8 in Y1, Y2, Y3. injection Y1 as <- <-. injection Y2 as <- <-. injection Y3 as <- <-.
  exists g. unfold shape_of. destruct (Nat.eqb_spec p (m_weight m)) as [E|Np].
  { exists w. rewrite E in *. split; [exact P4|]. split; [exact SW|]. split; [exact (mix_zero _ _ _ MW)|exact P9]. }
  unfold mod_params in Hp. destruct Hp as [Hp|Hp]; [congruence|]. pose proof (BF m Hm) as BFm. unfold bias_fits in BFm.
  destruct (m_bias m) as [q|]; [|contradiction]. destruct Hp as [->|[]]. destruct b as [d|]; [|congruence].
  exists d. split; [exact P4|]. split; [apply SB|]. split; [exact (mix_zero _ _ _ MB)|exact P10].
Qed.

Lemma zero_run es : forall st m p i,
  In m (c_mods c) -> In p (mod_params m) -> all_typed c ty st -> pars_fit c st -> no_grads m (s_par st) ->
  Forall zero_call es -> wf_run c es st -> Forall (grad_fits c) es -> steps_return es (outcomes c es st) -> (i < prod (shape_of m p))%nat ->
  entry_of (s_par (run c es st) p) i = drifts (in_force c m es (s_groups st) (s_inf st)) (entry_of (s_par st p) i).
Proof.
  induction es as [|e es IH]; intros st m p i Hm Hp TA PF NG ZC W GF SR Hi; [reflexivity|].
  apply Forall_cons_iff in ZC as [Z1 ZC]. apply Forall_cons_iff in GF as [G1 GF]. destruct W as [W1 W].
  pose proof (event_all_typed c ty e st TO (proj1 OK) TA W1) as TA'. pose proof (event_fits c e st PF G1) as PF'.
  cbn [run]. set (st' := fst (event_op c e st)) in *.
  assert (SR' : steps_return es (outcomes c es st')).
  { cbn [outcomes] in SR. destruct e; cbn in SR; try exact SR. apply SR. }
  assert (NG' : no_grads m (s_par st') -> entry_of (s_par (run c es st') p) i = drifts (in_force c m es (s_groups st') (s_inf st')) (entry_of (s_par st' p) i)).
  { intros NG'. apply IH; assumption. }
  pose proof (event_groups c e st) as EG. pose proof (event_inf c e st) as EI. fold st' in EG, EI. rewrite EG, EI in NG'. clear EG EI.
  assert (SAME : (forall q, s_par st' q = s_par st q) ->
    entry_of (s_par (run c es st') p) i = drifts (in_force c m es (match e with EGroups gs => gs | _ => s_groups st end) (match e with EScaler _ i => i | _ => s_inf st end)) (entry_of (s_par st p) i)).
  { intros Q. rewrite NG'; [rewrite Q; reflexivity|]. intros q g Hq. rewrite Q. apply NG. exact Hq. }
  destruct e as [m0 x0 b0 out|out g0|p0 g0|v0|a0 i0|closure|gs0]; cbn [in_force];
    try (apply SAME; intros q; apply event_par; intros; discriminate).
  - rewrite NG'.
    + f_equal. unfold st'. cbn [event_op modify fst s_par set_par]. unfold upd. destruct (Nat.eqb_spec p p0) as [E|]; [subst p0|]; reflexivity.
    + intros q g Hq. unfold st'. cbn [event_op modify fst s_par set_par]. unfold upd. destruct (Nat.eqb_spec q p0) as [E|]; [|apply NG; exact Hq].
      cbn [p_grad]. intros ->. exact Z1.
  - cbn [outcomes steps_return] in SR. destruct SR as [SO _]. cbn [event_op] in *. destruct (step c closure st) as [st2 r] eqn:E. cbn [fst snd] in *. subst r st'.
    destruct (s_inf st) eqn:Ei.
    { cbn [app]. apply SAME. intros q. rewrite (skipped_par c closure st st2 Ei E). reflexivity. }
    destruct closure; [discriminate E|].
    assert (ALL : forall q, In q (mod_params m) -> exists g d, get_group c (s_groups st) m = Ok g /\ shape d = shape_of m q /\ all_zero d /\ param_step g d (s_par st q) = (s_par st2 q, Ok tt)).
    { intros q Hq. apply zero_step; assumption. }
    assert (FS : forall q, In q (mod_params m) -> fits_slot (shape_of m q) (s_par st q)).
    { intros q Hq. destruct (PF m q Hm Hq) as (F1 & _ & F3). split; assumption. }
    rewrite NG'.
    2:{ intros q g Hq. destruct (ALL q Hq) as (g' & d & _ & Sd & _ & EP).
        destruct (param_step_nth g' d (s_par st q) _ (FS q Hq) Sd) as (v & B & EP' & _). rewrite EP in EP'. injection EP' as ->. cbn [p_grad]. apply NG. exact Hq. }
    destruct (ALL p Hp) as (g & d & Eg & Sd & Zd & EP). rewrite Eg. cbn [app]. unfold drifts at 2. cbn [fold_left]. fold (drifts (in_force c m es (s_groups st) false)).
    unfold drifts at 1. f_equal.
    destruct (param_step_nth g d (s_par st p) _ (FS p Hp) Sd) as (v & B & EP' & _ & R). rewrite EP in EP'. injection EP' as ->.
    unfold entry_of at 1. cbn [p_val p_buf]. unfold entry_of, drift. destruct (feqb (g_momentum g) 0).
    + destruct R as [-> R]. rewrite R by exact Hi. rewrite Zd. f_equal. ring.
    + destruct R as (b & -> & _ & R1 & R2). rewrite R2, R1 by exact Hi. rewrite Zd. unfold obuf. f_equal; ring.
Qed.
End One.

(** ** The difference of two trainings *)

Lemma wf_mix x y c ty (OK : cfg_ok c) (TO : tys_ok c ty) (BF : forall m, In m (c_mods c) -> bias_fits m) es1 : forall es2 es3 s pa pb pc,
  mixed_calls x y es1 es2 es3 -> Forall (grad_fits c) es1 -> all_typed c ty s -> wf_run c es1 (set_par pa s) -> PM x y c pa pb pc ->
  wf_run c es3 (set_par pc s).
Proof.
  induction es1 as [|e1 es1 IH]; intros [|e2 es2] [|e3 es3] s pa pb pc M GF TA W H; try contradiction; [exact I|].
  destruct M as [M1 M]. apply Forall_cons_iff in GF as [GF1 GF]. destruct W as [W1 W].
  destruct (event_mix x y c ty OK TO BF e1 e2 e3 s pa pb pc M1 GF1 TA H) as (s' & pa' & pb' & pc' & r & E1 & E2 & E3 & H').
  assert (TA' : all_typed c ty (set_par pa' s')).
  { pose proof (f_equal fst E1) as X. cbn [fst] in X. rewrite <- X. apply event_all_typed; [exact TO|exact (proj1 OK)|apply (proj2 (all_typed_par c ty pa s)); exact TA|exact W1]. }
  rewrite E1 in W. cbn [fst] in W. cbn [wf_run]. rewrite E3. cbn [fst]. split; [|exact (IH es2 es3 s' pa' pb' pc' M GF (proj1 (all_typed_par c ty _ _) TA') W H')].
  destruct e1; cbn in M1; try (destruct M1 as [_ ->]); try exact I; [exact W1|exact W1|]. destruct e2, e3; try contradiction; exact I.
Qed.

(** Gradients set to zero. *)
Definition zero_grad_call (e : event) : event := match e with EGrad p (Some g) => EGrad p (Some (zeros (shape g))) | _ => e end.
Lemma self_mix g : mixes 1 (- (1)) g g (zeros (shape g)).
Proof. split; [reflexivity|]. split; [reflexivity|]. intros i. rewrite (zeros_zero (shape g) i). ring. Qed.
Lemma zeroed_mixed es : mixed_calls 1 (- (1)) es es (map zero_grad_call es).
Proof. induction es as [|e es IH]; [exact I|]. split; [|exact IH]. destruct e as [| |p [g|]| | | |]; cbn; auto. do 2 (split; [reflexivity|]). apply self_mix. Qed.
Lemma zeroed_zero es : Forall zero_call (map zero_grad_call es).
Proof. induction es as [|e es IH]; constructor; [|exact IH]. destruct e as [| |p [g|]| | | |]; try exact I. apply zeros_zero. Qed.
Lemma zeroed_fits c es : Forall (grad_fits c) es -> Forall (grad_fits c) (map zero_grad_call es).
Proof. intros H. induction H as [|e es He H IH]; constructor; [|exact IH]. destruct e as [| |p [g|]| | | |]; try exact I. exact He. Qed.
Lemma zeroed_force c m es : forall gs inf, in_force c m (map zero_grad_call es) gs inf = in_force c m es gs inf.
Proof. induction es as [|e es IH]; intros gs inf; [reflexivity|]. destruct e as [| |p [g|]| | | |]; cbn; rewrite ?IH; reflexivity. Qed.
Lemma zeroed_return es : forall os, steps_return es os -> steps_return (map zero_grad_call es) os.
Proof. induction es as [|e es IH]; intros os H; [exact I|]. destruct e as [| |p [g|]| | | |], os; cbn in *; try exact I; try (apply IH; exact H). split; [apply H|apply IH; apply H]. Qed.

(** The difference of two tensors. *)
Definition minus (a b : tensor) : tensor := tab (shape a) (fun idx => tget a idx - tget b idx).
Lemma minus_mix a b : shape b = shape a -> mixes 1 (- (1)) a b (minus a b).
Proof.
  intros S. apply (mixes_intro 1 (- (1)) (shape a)); try reflexivity; [exact S|]. intros k Hk.
  rewrite !(nth_tget _ (shape a)) by (assumption || reflexivity). unfold minus. rewrite tget_tab by (apply unflat_range; exact Hk). ring.
Qed.

Lemma difference a par1 par2 c1 c2 st1 st2 es m p i :
  setting a par1 c1 st1 -> setting a par2 c2 st2 -> torch_shapes par1 c1 -> torch_shapes par2 c2 ->
  (forall p, trained c1 p -> p_grad (par2 p) = p_grad (par1 p)) ->
  wf_run c1 es st1 -> Forall (grad_fits c1) es -> steps_return es (outcomes c1 es st1) ->
  In m (c_mods c1) -> In p (mod_params m) -> (i < numel (p_val (par1 p)))%nat ->
  let e1 := entry_of (s_par (run c1 es st1) p) i in let e2 := entry_of (s_par (run c2 es st2) p) i in
  (fst e1 - fst e2, snd e1 - snd e2) =
  drifts (in_force c1 m es (s_groups st1) false) (nth i (data (p_val (par1 p))) 0 - nth i (data (p_val (par2 p))) 0, 0).
Proof.
  intros S1 S2 TS TS2 PG W GF SR Hm Hp Hi.
  pose proof S1 as ((h1 & h1' & E1) & _). pose proof S2 as ((h2 & h2' & E2) & _).
  destruct (ctor_same _ _ _ _ _ _ _ _ _ _ _ E1 E2) as (-> & X2 & Y2).
  destruct (setting_facts a par1 c1 st1 [] S1 TS I (Forall_nil _)) as (OK & TO & TA & PF & _). cbn [run] in *.
  pose proof (ctor_state _ _ _ _ _ _ E1) as (_ & _ & _ & I1 & _ & _ & P1). pose proof (ctor_state _ _ _ _ _ _ E2) as (_ & _ & _ & _ & _ & _ & P2).
  assert (R2 : st2 = set_par (s_par st2) st1). { rewrite X2 at 1. rewrite Y2. unfold twist. destruct st1; reflexivity. }
  assert (R1 : st1 = set_par (s_par st1) st1) by (destruct st1; reflexivity).
  set (pc := fun p => mkP (minus (p_val (par1 p)) (p_val (par2 p))) (option_map (fun g => zeros (shape g)) (p_grad (par1 p))) None).
  assert (H : PM 1 (- (1)) c1 (s_par st1) (s_par st2) pc).
  { intros m' p' Hm' Hp'. constructor; [apply PF; assumption| | |]; rewrite ?P1, ?P2; cbn.
    - apply minus_mix. destruct (proj2 TS m' p' Hm' Hp') as [-> _]. destruct (proj2 TS2 m' p' Hm' Hp') as [-> _]. reflexivity.
    - rewrite PG by (exists m'; split; assumption). destruct (p_grad (par1 p')); [|exact I]. apply self_mix.
    - exact I. }
  assert (W' : wf_run c1 es (set_par (s_par st1) st1)) by (rewrite <- R1; exact W).
  pose proof (wf_mix 1 (- (1)) c1 _ OK TO (proj1 TS) es es (map zero_grad_call es) st1 _ _ _ (zeroed_mixed es) GF TA W' H) as W3.
  destruct (run_mix 1 (- (1)) c1 (ctor_ty c1 (s_groups st1)) OK TO (proj1 TS) es es (map zero_grad_call es) st1 _ _ _ (zeroed_mixed es) GF TA W' H) as (s' & pa & pb & pd & Q1 & Q2 & Q3 & H' & O2 & O3).
  assert (Z : entry_of (pd p) i = drifts (in_force c1 m es (s_groups st1) false) (entry_of (pc p) i)).
  { change (pd p) with (s_par (set_par pd s') p). rewrite <- Q3. rewrite <- zeroed_force. rewrite <- I1.
    change (pc p) with (s_par (set_par pc st1) p). change (s_groups st1) with (s_groups (set_par pc st1)). change (s_inf st1) with (s_inf (set_par pc st1)).
    apply (zero_run c1 (ctor_ty c1 (s_groups st1)) OK TO (proj1 TS)); try assumption.
    - intros m' p' Hm' Hp'. destruct (proj2 TS m' p' Hm' Hp') as [V1 V2]. cbn. split; [exact V1|]. split; [|intros b Eb; discriminate Eb].
      intros g Eg. cbn in Eg. destruct (p_grad (par1 p')) as [t|] eqn:Et; cbn in Eg; [|discriminate Eg]. injection Eg as <-. cbn. apply V2. reflexivity.
    - intros p' g Hp' Eg. cbn in Eg. destruct (p_grad (par1 p')) as [t|]; cbn in Eg; [|discriminate Eg]. injection Eg as <-. apply zeros_zero.
    - apply zeroed_zero.
    - apply zeroed_fits. exact GF.
    - rewrite O3, <- R1. apply zeroed_return. exact SR.
    - unfold numel in Hi. destruct (proj2 TS m p Hm Hp) as [V1 _]. rewrite V1 in Hi. exact Hi. }
  assert (A1 : run c1 es st1 = set_par pa s') by (rewrite R1; exact Q1). assert (A2 : run c1 es st2 = set_par pb s') by (rewrite R2; exact Q2).
  assert (ZZ : entry_of (pd p) i = (fst (entry_of (pa p) i) - fst (entry_of (pb p) i), snd (entry_of (pa p) i) - snd (entry_of (pb p) i))).
  { destruct (H' m p Hm Hp) as [_ (_ & _ & V) _ B]. unfold entry_of. cbn [fst snd]. rewrite V. unfold omixes in B.
    destruct (p_buf (pa p)) as [ba|], (p_buf (pb p)) as [bb|], (p_buf (pd p)) as [bd|]; try contradiction; [destruct B as (_ & _ & B); rewrite B|]; f_equal; ring. }
  assert (C0 : entry_of (pc p) i = (nth i (data (p_val (par1 p))) 0 - nth i (data (p_val (par2 p))) 0, 0)).
  { unfold entry_of, pc. cbn [p_val p_buf]. destruct (minus_mix (p_val (par1 p)) (p_val (par2 p))) as (_ & _ & V).
    { destruct (proj2 TS m p Hm Hp) as [-> _]. destruct (proj2 TS2 m p Hm Hp) as [-> _]. reflexivity. }
    rewrite V. f_equal. ring. }
  cbv zeta. rewrite A1, A2. cbn [s_par set_par]. rewrite <- ZZ, Z, C0. reflexivity.
Qed.

(** ** Consequences of the recursion *)

Lemma drifts_plain gs : forall v b, (forall g, In g gs -> g_momentum g = 0) -> drifts gs (v, b) = (decay gs * v, b).
Proof.
  unfold drifts. induction gs as [|g gs IH]; intros v b H; [cbn; f_equal; ring|]. cbn [fold_left decay fold_right]. unfold drift at 2.
  assert (E : feqb (g_momentum g) 0 = true) by (apply feqb_iff; apply H; left; reflexivity). rewrite E, IH by (intros g' Hg; apply H; right; exact Hg).
  f_equal. unfold decay. ring.
Qed.
Lemma drifts_no_decay gs : forall v, (forall g, In g gs -> g_wd g = 0) -> drifts gs (v, 0) = (v, 0).
Proof.
  unfold drifts. induction gs as [|g gs IH]; intros v H; [reflexivity|]. cbn [fold_left]. unfold drift at 2. rewrite (H g (or_introl eq_refl)).
  destruct (feqb (g_momentum g) 0).
  - replace (v - g_lr g * (0 * v)) with v by ring. apply IH. intros g' Hg. apply H. right. exact Hg.
  - replace (g_momentum g * 0 + 0 * v) with 0 by ring. replace (v - g_lr g * 0) with v by ring. apply IH. intros g' Hg. apply H. right. exact Hg.
Qed.
End DecayFacts.
