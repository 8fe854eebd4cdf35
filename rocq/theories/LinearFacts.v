(** Lemmas: weights and momentum buffers depend linearly on initial weights and gradients. *)

From Coq Require Import List Arith Lia Bool ZArith Field.
From Verif Require Import Scalar Res Tensor TensorFacts Structures StructSpec OptimUtils UtilsFacts ProofUtils Optimizer Construct OptState OptRun OptSpec OptFacts OptTyped OptStep OptDir CtorSpec CtorFacts OptOrder OptFail ProgressSpec Progress LayerSpec LayerSim Indep LinearSpec.
Import ListNotations.

Section LinearFacts.
Context {SC : Scalar} {FL : FieldLaws SC}.
Add Field Ffl : F_ft.
Open Scope F_scope.
Variables (x y : F).

(** ** Matrices *)

Lemma sum_mix n (A f g : nat -> F) : sum n (fun k => A k * (x * f k + y * g k)) = x * sum n (fun k => A k * f k) + y * sum n (fun k => A k * g k).
Proof. induction n; cbn [sum]; [ring|]. rewrite IHn. ring. Qed.

Lemma div_mul a s : a / s = a * finv s. Proof. apply (Fdiv_def F_ft). Qed.

Lemma dir_mix nC nK C Ct K Kt G1 G2 G3 s : (forall i j, (i < nC)%nat -> (j < nK)%nat -> G3 i j = x * G1 i j + y * G2 i j) ->
  forall i j, dir_of nC nK C Ct K Kt G3 s i j = x * dir_of nC nK C Ct K Kt G1 s i j + y * dir_of nC nK C Ct K Kt G2 s i j.
Proof.
  intros H i j. unfold dir_of. rewrite <- sum_mix. apply sum_ext. intros a _. f_equal.
  rewrite <- sum_mix. apply sum_ext. intros k Hk. f_equal.
  rewrite <- sum_mix. apply sum_ext. intros b _. f_equal.
  rewrite <- sum_mix. apply sum_ext. intros q Hq. f_equal. rewrite !div_mul, H by assumption. ring.
Qed.

(** ** Parameters *)

(** The three states of one parameter. *)
Record pm (s : list nat) (p1 p2 p3 : pslot) : Prop := mkPm {
  pm_fits : slot_fits s p1;
  pm_val : mixes x y (p_val p1) (p_val p2) (p_val p3);
  pm_grad : omixes x y (p_grad p1) (p_grad p2) (p_grad p3);
  pm_buf : omixes x y (p_buf p1) (p_buf p2) (p_buf p3)
}.

Lemma mixes_shape s a b t : mixes x y a b t -> shape a = s -> shape b = s /\ shape t = s.
Proof. intros (E1 & E2 & _) E. split; congruence. Qed.

Lemma mixes_intro s a b t : shape a = s -> shape b = s -> shape t = s ->
  (forall k, (k < prod s)%nat -> nth k (data t) 0 = x * nth k (data a) 0 + y * nth k (data b) 0) -> mixes x y a b t.
Proof.
  intros E1 E2 E3 H. split; [congruence|]. split; [congruence|]. intros k. destruct (Nat.lt_ge_cases k (prod s)) as [L|L]; [apply H; exact L|].
  assert (Z : forall t : tensor, shape t = s -> nth k (data t) 0 = 0).
  { intros u Eu. apply nth_overflow. rewrite (data_length u). unfold numel. rewrite Eu. exact L. }
  rewrite !Z by assumption. ring.
Qed.

Lemma pm_fit2 s p1 p2 p3 : pm s p1 p2 p3 -> fits_slot s p1 /\ fits_slot s p2 /\ fits_slot s p3.
Proof.
  intros [(E1 & E2 & E3) V G B]. destruct (mixes_shape s _ _ _ V E1) as [V1 V2].
  split; [split; assumption|]. unfold omixes in B.
  destruct (p_buf p1) as [b1|], (p_buf p2) as [b2|] eqn:Eb2, (p_buf p3) as [b3|] eqn:Eb3; try contradiction.
  - destruct (mixes_shape s _ _ _ B (E3 _ eq_refl)) as [B1 B2]. split; (split; [assumption|]); intros b Eb; congruence.
  - split; (split; [assumption|]); intros b Eb; congruence.
Qed.

Lemma param_mix g s d1 d2 d3 p1 p2 p3 : pm s p1 p2 p3 -> shape d1 = s -> mixes x y d1 d2 d3 ->
  exists q1 q2 q3, param_step g d1 p1 = (q1, Ok tt) /\ param_step g d2 p2 = (q2, Ok tt) /\ param_step g d3 p3 = (q3, Ok tt) /\ pm s q1 q2 q3.
Proof.
  intros P S1 D. destruct (mixes_shape s _ _ _ D S1) as [S2 S3]. destruct (pm_fit2 _ _ _ _ P) as (F1 & F2 & F3).
  destruct (param_step_nth g d1 p1 s F1 S1) as (v1 & B1 & E1 & V1 & R1).
  destruct (param_step_nth g d2 p2 s F2 S2) as (v2 & B2 & E2 & V2 & R2).
  destruct (param_step_nth g d3 p3 s F3 S3) as (v3 & B3 & E3 & V3 & R3).
  exists (mkP v1 (p_grad p1) B1), (mkP v2 (p_grad p2) B2), (mkP v3 (p_grad p3) B3). split; [exact E1|]. split; [exact E2|]. split; [exact E3|].
  destruct P as [(Z1 & Z2 & Z3) MV MG MB]. pose proof MV as (_ & _ & MV'). pose proof D as (_ & _ & D').
  destruct (feqb (g_momentum g) 0).
  - destruct R1 as [-> R1], R2 as [-> R2], R3 as [-> R3]. constructor; cbn; [repeat split; assumption| |exact MG|exact MB].
    apply (mixes_intro s); try assumption. intros k Hk. rewrite R1, R2, R3, MV', D' by exact Hk. ring.
  - destruct R1 as (b1 & -> & S1' & R1 & W1), R2 as (b2 & -> & S2' & R2 & W2), R3 as (b3 & -> & S3' & R3 & W3).
    assert (OB : forall k, obuf p3 k = x * obuf p1 k + y * obuf p2 k).
    { intros k. unfold obuf, omixes in *. destruct (p_buf p1), (p_buf p2), (p_buf p3); try contradiction; [apply MB|ring]. }
    assert (NB : forall k, (k < prod s)%nat -> nth k (data b3) 0 = x * nth k (data b1) 0 + y * nth k (data b2) 0).
    { intros k Hk. rewrite R1, R2, R3, MV', D', OB by exact Hk. ring. }
    constructor; cbn; [split; [exact V1|split; [exact Z2|intros b Eb; injection Eb as <-; exact S1']]| |exact MG|].
    + apply (mixes_intro s); try assumption. intros k Hk. rewrite W1, W2, W3, MV', NB by exact Hk. ring.
    + apply (mixes_intro s); assumption.
Qed.

(** ** The parameters of one module *)

Lemma split_mix l N1 N2 N3 dK dC : preconditioner_dims l = Ok (dK, dC) -> shape N1 = [dC; dK] -> shape N2 = [dC; dK] -> shape N3 = [dC; dK] ->
  (forall i j, (i < dC)%nat -> (j < dK)%nat -> get2 N3 i j = x * get2 N1 i j + y * get2 N2 i j) ->
  exists w1 b1 w2 b2 w3 b3, split_matrix l N1 = Ok (w1, b1) /\ split_matrix l N2 = Ok (w2, b2) /\ split_matrix l N3 = Ok (w3, b3) /\
    shape w1 = weight_shape l /\ mixes x y w1 w2 w3 /\ omixes x y b1 b2 b3 /\
    match b1 with Some b => has_bias l = true /\ shape b = [n_out l] | None => has_bias l = false end.
Proof.
  intros D S1 S2 S3 M. apply dims_width in D as (S & W & E).
  assert (SH : forall N, shape N = [dC; dK] -> exists w b, split_matrix l N = Ok (w, b) /\ layer_fit l w b /\
            forall i j, (i < n_out l)%nat -> (j < width l)%nat -> get2 N i j = cell l w b i j).
  { intros N SN. destruct (split_any l N S) as (w & b & E1 & G1 & Sw & Sb). { rewrite SN, <- W, <- E. reflexivity. }
    exists w, b. split; [exact E1|]. split; [split; assumption|]. destruct (matrix_cells l w b S (Logic.conj Sw Sb)) as (M' & EM & _ & _ & C).
    rewrite G1 in EM. injection EM as <-. exact C. }
  destruct (SH N1 S1) as (w1 & b1 & E1 & [SW1 SB1] & C1). destruct (SH N2 S2) as (w2 & b2 & E2 & [SW2 SB2] & C2). destruct (SH N3 S3) as (w3 & b3 & E3 & [SW3 SB3] & C3).
  exists w1, b1, w2, b2, w3, b3. split; [exact E1|]. split; [exact E2|]. split; [exact E3|]. split; [exact SW1|].
  assert (MC : forall i j, (i < n_out l)%nat -> (j < width l)%nat -> cell l w3 b3 i j = x * cell l w1 b1 i j + y * cell l w2 b2 i j).
  { intros i j Hi Hj. rewrite <- C1, <- C2, <- C3 by assumption. apply M; congruence. }
  split; [|split; [|exact SB1]].
  - apply (mixes_intro (weight_shape l)); try assumption. intros k Hk. rewrite (layer_size l S) in Hk.
    assert (NZ : fan l <> O) by (intros Z; rewrite Z in Hk; lia).
    assert (Hj : (k mod fan l < fan l)%nat) by (apply Nat.mod_upper_bound; exact NZ).
    assert (Hi : (k / fan l < n_out l)%nat) by (apply Nat.div_lt_upper_bound; [exact NZ|lia]).
    assert (Hw : (k mod fan l < width l)%nat) by (unfold width; destruct (has_bias l); lia).
    specialize (MC (k / fan l)%nat (k mod fan l)%nat Hi Hw). unfold cell in MC. destruct (Nat.ltb_spec (k mod fan l) (fan l)); [|lia].
    replace (k / fan l * fan l + k mod fan l)%nat with k in MC by (pose proof (Nat.div_mod k (fan l) NZ); lia). exact MC.
  - unfold omixes. destruct b1 as [b1|], b2 as [b2|], b3 as [b3|]; try exact I;
      try (exfalso; repeat match goal with H : _ /\ _ |- _ => destruct H end; congruence).
    destruct SB1 as [HB SB1], SB2 as [_ SB2], SB3 as [_ SB3]. apply (mixes_intro [n_out l]); try assumption. intros k Hk.
    assert (Hk' : (k < n_out l)%nat) by (unfold prod in Hk; cbn in Hk; lia).
    specialize (MC k (fan l) Hk'). unfold width in MC. rewrite HB in MC. specialize (MC ltac:(lia)). unfold cell in MC.
    destruct (Nat.ltb_spec (fan l) (fan l)); [lia|]. rewrite !(get1_nth _ (n_out l)) in MC by assumption. exact MC.
Qed.

Lemma nat_mix m cur K C cK cC dK dC pa pb pc :
  preconditioner_dims (m_layer m) = Ok (dK, dC) -> usable cK dK -> usable cC dC -> valid cK dK K -> valid cC dC C -> bias_fits m -> NoDup (mod_params m) ->
  (forall p, In p (mod_params m) -> pm (shape_of m p) (pa p) (pb p) (pc p)) ->
  let nat_of q := nat_grad_matrix (m_layer m) (grad_data (q (m_weight m))) (option_map (fun b => grad_data (q b)) (m_bias m)) cur (Ok K) (Ok C) in
  (exists e, nat_of pa = Err e /\ nat_of pb = Err e /\ nat_of pc = Err e) \/
  exists N1 N2 N3, nat_of pa = Ok N1 /\ nat_of pb = Ok N2 /\ nat_of pc = Ok N3 /\ shape N1 = [dC; dK] /\ shape N2 = [dC; dK] /\ shape N3 = [dC; dK] /\
    (forall i j, (i < dC)%nat -> (j < dK)%nat -> get2 N3 i j = x * get2 N1 i j + y * get2 N2 i j).
Proof.
  intros D UK UC VK VC BF ND P nat_of. pose proof (dims_width _ _ _ D) as (S & W & E). set (l := m_layer m) in *.
  assert (PW : pm (shape_of m (m_weight m)) (pa (m_weight m)) (pb (m_weight m)) (pc (m_weight m))) by (apply P; left; reflexivity).
  destruct PW as [(_ & FW & _) _ GW _]. unfold shape_of in FW. rewrite Nat.eqb_refl in FW. unfold omixes in GW.
  unfold nat_of, grad_data in *. clear nat_of.
  destruct (p_grad (pa (m_weight m))) as [w1|], (p_grad (pb (m_weight m))) as [w2|], (p_grad (pc (m_weight m))) as [w3|]; try contradiction;
    [|left; eexists; cbn; repeat split; reflexivity].
  specialize (FW _ eq_refl). fold l in FW. destruct (mixes_shape _ _ _ _ GW FW) as [FW2 FW3].
  assert (OB : (exists e, m_bias m <> None /\ forall l' w K' C', nat_grad_matrix l' (Ok w) (option_map (fun b => match p_grad (pa b) with Some g => Ok g | None => Err AttributeError end) (m_bias m)) cur K' C' = Err e /\
              nat_grad_matrix l' (Ok w) (option_map (fun b => match p_grad (pb b) with Some g => Ok g | None => Err AttributeError end) (m_bias m)) cur K' C' = Err e /\
              nat_grad_matrix l' (Ok w) (option_map (fun b => match p_grad (pc b) with Some g => Ok g | None => Err AttributeError end) (m_bias m)) cur K' C' = Err e) \/
    exists b1 b2 b3, option_map (fun b => match p_grad (pa b) with Some g => Ok g | None => Err AttributeError end) (m_bias m) = option_map Ok b1 /\
      option_map (fun b => match p_grad (pb b) with Some g => Ok g | None => Err AttributeError end) (m_bias m) = option_map Ok b2 /\
      option_map (fun b => match p_grad (pc b) with Some g => Ok g | None => Err AttributeError end) (m_bias m) = option_map Ok b3 /\ omixes x y b1 b2 b3 /\
      match b1 with Some b => has_bias l = true /\ shape b = [n_out l] | None => has_bias l = false end).
  { unfold bias_fits in BF. fold l in BF. destruct (m_bias m) as [b|] eqn:Eb; cbn [option_map].
    - assert (Hb : In b (mod_params m)) by (unfold mod_params; rewrite Eb; right; left; reflexivity).
      assert (NB : b <> m_weight m).
      { unfold mod_params in ND. rewrite Eb in ND. inversion ND as [|? ? X _]; subst. intros ->. apply X. left. reflexivity. }
      destruct (P b Hb) as [(_ & FB & _) _ GB _]. unfold shape_of in FB. destruct (Nat.eqb_spec b (m_weight m)) as [|_]; [contradiction|]. unfold omixes in GB.
      destruct (p_grad (pa b)) as [g1|], (p_grad (pb b)) as [g2|], (p_grad (pc b)) as [g3|]; try contradiction.
      + right. exists (Some g1), (Some g2), (Some g3). repeat (split; [reflexivity|]). split; [exact GB|]. split; [exact BF|]. apply FB. reflexivity.
      + left. eexists. split; [discriminate|]. intros. cbn. repeat split; reflexivity.
    - right. exists None, None, None. do 3 (split; [reflexivity|]). split; [exact I|]. cbn. exact BF. }
  destruct OB as [(e & _ & OB)|(b1 & b2 & b3 & B1 & B2 & B3 & MB & SB)].
  { left. exists e. split; [apply (OB l w1)|]. split; [apply (OB l w2)|apply (OB l w3)]. }
  rewrite B1, B2, B3.
  assert (SB2 : match b2 with Some b => has_bias l = true /\ shape b = [n_out l] | None => has_bias l = false end /\
                match b3 with Some b => has_bias l = true /\ shape b = [n_out l] | None => has_bias l = false end).
  { unfold omixes in MB. destruct b1, b2, b3; try contradiction; [|split; exact SB]. destruct SB as [HB SB]. destruct (mixes_shape _ _ _ _ MB SB). auto. }
  destruct SB2 as [SB2 SB3].
  destruct (matrix_cells l w1 b1 S (Logic.conj FW SB)) as (G1 & EG1 & SG1 & _ & C1). destruct (matrix_cells l w2 b2 S (Logic.conj FW2 SB2)) as (G2 & EG2 & SG2 & _ & C2).
  destruct (matrix_cells l w3 b3 S (Logic.conj FW3 SB3)) as (G3 & EG3 & SG3 & _ & C3). rewrite W, E in *.
  destruct cur as [cur|e].
  2:{ left. exists e. unfold nat_grad_matrix. cbn [bind].
      split; [|split]; [destruct b1|destruct b2|destruct b3]; cbn [option_map bind]; (rewrite EG1 || rewrite EG2 || rewrite EG3); reflexivity. }
  right. rewrite (nat_grad_any l w1 b1 cur K C cK cC dK dC G1), (nat_grad_any l w2 b2 cur K C cK cC dK dC G2), (nat_grad_any l w3 b3 cur K C cK cC dK dC G3) by assumption.
  do 3 eexists. do 3 (split; [reflexivity|]). do 3 (split; [reflexivity|]).
  intros i j Hi Hj. rewrite !get2_tab2 by assumption. apply dir_mix. intros i' j' Hi' Hj'. rewrite C1, C2, C3 by assumption.
  unfold cell. destruct (Nat.ltb j' (fan l)); [apply GW|]. unfold omixes in MB. destruct b1 as [b1|], b2 as [b2|], b3 as [b3|]; try contradiction; [|ring].
  destruct SB as [_ SB], SB2 as [_ SB2], SB3 as [_ SB3]. rewrite (get1_nth b1 dC), (get1_nth b2 dC), (get1_nth b3 dC) by (assumption || congruence). apply MB.
Qed.

(** ** What the parameters do not enter *)

Lemma set_par_par pa pb (s : state) : set_par pa (set_par pb s) = set_par pa s. Proof. reflexivity. Qed.
Lemma set_par_id (s : state) : set_par (s_par s) s = s. Proof. destruct s; reflexivity. Qed.

Definition ignores {A} (f : SM state A) : Prop := forall pa s, f (set_par pa s) = (set_par pa (fst (f s)), snd (f s)).

Lemma set_scale_ign v : ignores (set_current_grad_scale v).
Proof.
  intros pa s. unfold set_current_grad_scale, sbind, getS, modify, lift, ret. cbn [s_steps s_scales set_par set_scales].
  destruct (Nat.eqb (s_steps s) 0); [|reflexivity]. destruct (get_grad_scale _ (-1)); [|reflexivity]. destruct (get_grad_scale _ 0); [|reflexivity].
  destruct (_ && _)%bool; reflexivity.
Qed.
Lemma ensure_ign : ignores ensure_scale.
Proof.
  intros pa s. unfold ensure_scale, sbind, getS, ret, raise. cbn [s_steps s_scales s_amp set_par].
  destruct (get_grad_scale _ _); [reflexivity|]. destruct (s_amp s) as [[v|]|]; [apply set_scale_ign|reflexivity|apply set_scale_ign].
Qed.
Lemma forward_ign c m a b out : ignores (forward_hook c m a b out).
Proof.
  intros pa s. unfold forward_hook, sbind, getS, modify, lift, ret. cbn [s_steps s_groups s_pend set_par set_pend].
  destruct (get_group c (s_groups s) m) as [g|]; [|reflexivity]. destruct b; [|reflexivity]. cbn [negb]. unfold is_update_step.
  destruct (Nat.eqb (g_T g) 0); [reflexivity|]. destruct (Nat.eqb _ 0); reflexivity.
Qed.
Lemma accumulate_ign c m a b : ignores (accumulate_H_terms c m a b).
Proof.
  intros pa s. unfold accumulate_H_terms, sbind, getS, lift. cbn [s_steps s_groups s_scales s_slots set_par].
  destruct (get_group c (s_groups s) m) as [g|]; [|reflexivity]. destruct (local_H _ _ _ _ _ _) as [[hk hc]|]; [|reflexivity].
  unfold on_slots. cbn [s_slots set_par]. destruct (store_H _ _ _). reflexivity.
Qed.
Lemma update_ign c m : ignores (update_preconditioner c m).
Proof.
  intros pa s. unfold update_preconditioner, sbind, getS, lift. cbn [s_steps s_groups s_scales s_slots set_par].
  destruct (get_group c (s_groups s) m) as [g|]; [|reflexivity]. unfold on_slots. cbn [s_slots set_par]. destruct (update_slots _ _ _ _ _). reflexivity.
Qed.

(** ** Three runs *)

Section Three.
Variables (c : cfg) (ty : tys).
Hypothesis OK : cfg_ok c.
Hypothesis TO : tys_ok c ty.
Hypothesis BF : forall m, In m (c_mods c) -> bias_fits m.

Definition PM (pa pb pc : nat -> pslot) : Prop :=
  forall m p, In m (c_mods c) -> In p (mod_params m) -> pm (shape_of m p) (pa p) (pb p) (pc p).

Lemma nodup_of m : In m (c_mods c) -> NoDup (mod_params m).
Proof.
  intros Hm. destruct (in_split _ _ Hm) as (a & b & E). pose proof (proj2 OK) as N. rewrite E, flat_map_app in N. apply nodup_r in N. cbn [flat_map] in N.
  exact (nodup_l _ _ N).
Qed.

(** Writing one parameter in all three. *)
Lemma PM_upd pa pb pc m p q1 q2 q3 : In m (c_mods c) -> In p (mod_params m) -> PM pa pb pc -> pm (shape_of m p) q1 q2 q3 ->
  PM (upd pa p q1) (upd pb p q2) (upd pc p q3).
Proof.
  intros Hm Hp H Q m' p' Hm' Hp'. unfold upd. destruct (Nat.eqb_spec p' p) as [E|]; [|apply H; assumption].
  subst p'. destruct (H m p Hm Hp) as [(E1 & _) _ _ _]. destruct (H m' p Hm' Hp') as [(E2 & _) _ _ _]. rewrite <- E2, E1. exact Q.
Qed.

Lemma step_pars_mix g m w1 w2 w3 b1 b2 b3 s pa pb pc : In m (c_mods c) -> PM pa pb pc ->
  shape w1 = weight_shape (m_layer m) -> mixes x y w1 w2 w3 -> omixes x y b1 b2 b3 ->
  match b1 with Some b => has_bias (m_layer m) = true /\ shape b = [n_out (m_layer m)] | None => has_bias (m_layer m) = false end ->
  exists pa' pb' pc', step_pars g m w1 b1 (set_par pa s) = (set_par pa' s, Ok tt) /\ step_pars g m w2 b2 (set_par pb s) = (set_par pb' s, Ok tt) /\
    step_pars g m w3 b3 (set_par pc s) = (set_par pc' s, Ok tt) /\ PM pa' pb' pc'.
Proof.
  intros Hm H SW MW MB SB. assert (Hw : In (m_weight m) (mod_params m)) by (left; reflexivity).
  assert (SW' : shape w1 = shape_of m (m_weight m)) by (unfold shape_of; rewrite Nat.eqb_refl; exact SW).
  destruct (param_mix g _ w1 w2 w3 _ _ _ (H m _ Hm Hw) SW' MW) as (q1 & q2 & q3 & E1 & E2 & E3 & Q).
  unfold step_pars, sbind, on_par at 1 3 5. cbn [s_par set_par]. rewrite E1, E2, E3. rewrite !set_par_par.
  pose proof (PM_upd _ _ _ _ _ _ _ _ Hm Hw H Q) as H1. pose proof (BF m Hm) as BFm. unfold bias_fits in BFm. pose proof (nodup_of m Hm) as ND.
  set (pa1 := upd pa (m_weight m) q1) in *. set (pb1 := upd pb (m_weight m) q2) in *. set (pc1 := upd pc (m_weight m) q3) in *. clearbody pa1 pb1 pc1.
  destruct (m_bias m) as [b|] eqn:Eb.
  - unfold omixes in MB. destruct b1 as [b1|], b2 as [b2|], b3 as [b3|]; try contradiction; [|congruence].
    assert (Hb : In b (mod_params m)) by (unfold mod_params; rewrite Eb; right; left; reflexivity).
    assert (NB : b <> m_weight m).
    { unfold mod_params in ND. rewrite Eb in ND. inversion ND as [|? ? X _]; subst. intros ->. apply X. left. reflexivity. }
    assert (SB' : shape b1 = shape_of m b) by (unfold shape_of; destruct (Nat.eqb_spec b (m_weight m)); [contradiction|apply SB]).
    destruct (param_mix g _ b1 b2 b3 _ _ _ (H1 m _ Hm Hb) SB' MB) as (r1 & r2 & r3 & R1 & R2 & R3 & RQ).
    unfold on_par. cbn [s_par set_par]. rewrite R1, R2, R3. do 3 eexists. do 3 (split; [reflexivity|]). apply (PM_upd _ _ _ m); assumption.
  - exists pa1, pb1, pc1. repeat (split; [reflexivity|]). exact H1.
Qed.

(** The same call in all three. *)
Definition tri (f1 f2 f3 : SM state unit) (s : state) (pa pb pc : nat -> pslot) : Prop :=
  exists s' pa' pb' pc' r, f1 (set_par pa s) = (set_par pa' s', r) /\ f2 (set_par pb s) = (set_par pb' s', r) /\ f3 (set_par pc s) = (set_par pc' s', r) /\ PM pa' pb' pc'.

Lemma tri_ign (f : SM state unit) s pa pb pc : ignores f -> PM pa pb pc -> tri f f f s pa pb pc.
Proof. intros I H. exists (fst (f s)), pa, pb, pc, (snd (f s)). rewrite !I. repeat (split; [reflexivity|]). exact H. Qed.

Lemma step_module_mix m s pa pb pc : In m (c_mods c) -> mod_typed ty m s -> PM pa pb pc -> tri (step_module c m) (step_module c m) (step_module c m) s pa pb pc.
Proof.
  intros Hm T H. unfold tri. rewrite !step_module_view, !update_ign.
  assert (T1 : mod_typed ty m (fst (update_preconditioner c m s))).
  { unfold update_preconditioner, sbind, getS, lift. destruct (get_group c (s_groups s) m) as [g|]; [|exact T]. unfold on_slots.
    destruct (update_slots g (m_layer m) (s_steps s) (s_scales s) (s_slots s (m_key m))) as [sl q] eqn:Eu. cbn [fst].
    unfold mod_typed in *. pose proof (TO m Hm) as TOm. destruct (ty m) as [[[cK cC] dK] dC]. destruct TOm as (UK & UC & Ed).
    cbn [s_slots set_slots]. rewrite upd_eq. pose proof (update_slots_typed g (m_layer m) (s_steps s) (s_scales s) _ cK cC dK dC UK UC Ed T) as [X _]. rewrite Eu in X. exact X. }
  destruct (update_preconditioner c m s) as [s1 [[]|e]]; cbn [fst snd] in *.
  2:{ exists s1, pa, pb, pc, (Err e). repeat (split; [reflexivity|]). exact H. }
  cbn [s_par s_slots s_scales s_steps s_groups set_par].
  unfold mod_typed in T1. pose proof (TO m Hm) as TOm. destruct (ty m) as [[[cK cC] dK] dC]. destruct TOm as (UK & UC & Ed).
  destruct T1 as [(K & EK & VK) (C & EC & VC) _ _ _ _]. rewrite EK, EC. cbn [lookup].
  destruct (nat_mix m (get_grad_scale (s_scales s1) (Z.of_nat (s_steps s1))) K C cK cC dK dC pa pb pc Ed UK UC VK VC (BF m Hm) (nodup_of m Hm) (fun p => H m p Hm))
    as [(e & E1 & E2 & E3)|(N1 & N2 & N3 & E1 & E2 & E3 & S1 & S2 & S3 & MN)]; rewrite E1, E2, E3.
  { exists s1, pa, pb, pc, (Err e). repeat (split; [reflexivity|]). exact H. }
  destruct (split_mix _ N1 N2 N3 dK dC Ed S1 S2 S3 MN) as (w1 & b1 & w2 & b2 & w3 & b3 & F1 & F2 & F3 & SW & MW & MB & SB). rewrite F1, F2, F3.
  destruct (get_group c (s_groups s1) m) as [g|e].
  2:{ exists s1, pa, pb, pc, (Err e). repeat (split; [reflexivity|]). exact H. }
  destruct (step_pars_mix g m w1 w2 w3 b1 b2 b3 s1 pa pb pc Hm H SW MW MB SB) as (pa' & pb' & pc' & G1 & G2 & G3 & H').
  exists s1, pa', pb', pc', (Ok tt). repeat (split; [assumption|]). exact H'.
Qed.

Lemma typed_par m pa s : mod_typed ty m (set_par pa s) <-> mod_typed ty m s. Proof. unfold mod_typed. reflexivity. Qed.

Lemma steps_mix l : forall s pa pb pc, incl l (c_mods c) -> (forall m, In m (c_mods c) -> mod_typed ty m s) -> PM pa pb pc ->
  tri (forS (step_module c) l) (forS (step_module c) l) (forS (step_module c) l) s pa pb pc.
Proof.
  induction l as [|m l IH]; intros s pa pb pc I T H.
  - exists s, pa, pb, pc, (Ok tt). repeat (split; [reflexivity|]). exact H.
  - assert (Hm : In m (c_mods c)) by (apply I; left; reflexivity).
    destruct (step_module_mix m s pa pb pc Hm (T m Hm) H) as (s' & pa' & pb' & pc' & r & E1 & E2 & E3 & H').
    assert (T1 : forall q, In q (c_mods c) -> mod_typed ty q s').
    { intros q Hq. apply (proj1 (typed_par q pa' s')). pose proof (f_equal fst E1) as X. cbn [fst] in X. rewrite <- X.
      apply (step_module_ty c ty q m TO Hq (same_key _ q m (proj1 OK) Hq Hm)). apply (proj2 (typed_par q pa s)). apply T. exact Hq. }
    unfold tri. cbn [forS]. unfold sbind at 1 2 3. rewrite E1, E2, E3. destruct r as [[]|e].
    + apply IH; [|exact T1|exact H']. intros q Hq. apply I. right. exact Hq.
    + exists s', pa', pb', pc', (Err e). repeat (split; [reflexivity|]). exact H'.
Qed.

Lemma step_mix closure s pa pb pc : all_typed c ty s -> PM pa pb pc -> tri (step c closure) (step c closure) (step c closure) s pa pb pc.
Proof.
  intros [TA _] H. destruct closure.
  { exists s, pa, pb, pc, (Err NotImplementedError). repeat (split; [reflexivity|]). exact H. }
  unfold tri. rewrite !step_eq, !ensure_ign. destruct (ensure_scale s) as [s1 r1] eqn:Es. cbn [fst snd].
  pose proof Es as Es0. apply ensure_scale_frame in Es as ((F1 & F2 & F3 & F4 & F5 & F6 & F7) & _).
  destruct r1 as [[]|e]. 2:{ exists s1, pa, pb, pc, (Err e). repeat (split; [reflexivity|]). exact H. }
  cbn [s_inf s_log set_par]. destruct (s_inf s1).
  { exists (finish (drop_H c (set_log (s_log s1 ++ [WarnInf]) s1))), pa, pb, pc, (Ok tt). repeat (split; [reflexivity|]). exact H. }
  destruct (steps_mix (c_mods c) s1 pa pb pc) as (s' & pa' & pb' & pc' & r & E1 & E2 & E3 & H').
  { intros m Hm. exact Hm. }
  { intros m Hm. unfold mod_typed. rewrite F2. apply TA. exact Hm. }
  { exact H. }
  unfold step_all. rewrite E1, E2, E3. destruct r as [[]|e].
  - exists (finish s'), pa', pb', pc', (Ok tt). repeat (split; [reflexivity|]). exact H'.
  - exists s', pa', pb', pc', (Err e). repeat (split; [reflexivity|]). exact H'.
Qed.

Lemma event_mix e1 e2 e3 s pa pb pc : mixed_call x y e1 e2 e3 -> grad_fits c e1 -> all_typed c ty s -> PM pa pb pc ->
  tri (event_op c e1) (event_op c e2) (event_op c e3) s pa pb pc.
Proof.
  intros M GF TA H.
  destruct e1 as [m a b out|out g|p g|v|a i|closure|gs]; [| |destruct e2 as [| |p2 g2| | | |], e3 as [| |p3 g3| | | |]; try contradiction| | | |];
    cbn in M; try (destruct M as [-> ->]).
  - apply tri_ign; [apply forward_ign|exact H].
  - apply tri_ign; [|exact H]. intros q t. unfold event_op, sbind, getS. cbn [s_pend set_par].
    destruct (s_pend t out) as [[m a]|]; [apply accumulate_ign|reflexivity].
  - destruct M as (-> & -> & M). exists s. do 3 eexists. exists (Ok tt). do 3 (split; [reflexivity|]). cbn [s_par set_par].
    intros m q Hm Hq. unfold upd. destruct (Nat.eqb_spec q p) as [E|]; [|apply H; assumption]. subst q.
    destruct (H m p Hm Hq) as [(Z1 & Z2 & Z3) MV MG MB]. constructor; cbn; [|exact MV|exact M|exact MB].
    split; [exact Z1|]. split; [|exact Z3]. intros t Et. cbn in Et. subst g. exact (GF m Hm Hq).
  - apply tri_ign; [apply set_scale_ign|exact H].
  - exists (fst (event_op c (EScaler a i) s)), pa, pb, pc, (Ok tt). repeat (split; [reflexivity|]). exact H.
  - apply step_mix; assumption.
  - exists (fst (event_op c (EGroups gs) s)), pa, pb, pc, (Ok tt). repeat (split; [reflexivity|]). exact H.
Qed.

Lemma all_typed_par pa s : all_typed c ty (set_par pa s) <-> all_typed c ty s. Proof. unfold all_typed. reflexivity. Qed.

Theorem run_mix es1 : forall es2 es3 s pa pb pc,
  mixed_calls x y es1 es2 es3 -> Forall (grad_fits c) es1 -> all_typed c ty s -> wf_run c es1 (set_par pa s) -> PM pa pb pc ->
  exists s' pa' pb' pc', run c es1 (set_par pa s) = set_par pa' s' /\ run c es2 (set_par pb s) = set_par pb' s' /\ run c es3 (set_par pc s) = set_par pc' s' /\
    PM pa' pb' pc' /\ outcomes c es2 (set_par pb s) = outcomes c es1 (set_par pa s) /\ outcomes c es3 (set_par pc s) = outcomes c es1 (set_par pa s).
Proof.
  induction es1 as [|e1 es1 IH]; intros [|e2 es2] [|e3 es3] s pa pb pc M GF TA W H; try contradiction.
  - exists s, pa, pb, pc. repeat (split; [reflexivity|]). split; [exact H|]. split; reflexivity.
  - destruct M as [M1 M]. apply Forall_cons_iff in GF as [GF1 GF]. destruct W as [W1 W].
    destruct (event_mix e1 e2 e3 s pa pb pc M1 GF1 TA H) as (s' & pa' & pb' & pc' & r & E1 & E2 & E3 & H').
    assert (TA' : all_typed c ty (set_par pa' s')).
    { pose proof (f_equal fst E1) as X. cbn [fst] in X. rewrite <- X. apply event_all_typed; [exact TO|exact (proj1 OK)|apply (proj2 (all_typed_par pa s)); exact TA|exact W1]. }
    rewrite E1 in W. cbn [fst] in W.
    destruct (IH es2 es3 s' pa' pb' pc' M GF (proj1 (all_typed_par _ _) TA') W H') as (s2 & pa2 & pb2 & pc2 & R1 & R2 & R3 & H2 & O2 & O3).
    exists s2, pa2, pb2, pc2. cbn [run outcomes]. rewrite E1, E2, E3. cbn [fst snd]. split; [exact R1|]. split; [exact R2|]. split; [exact R3|]. split; [exact H2|].
    rewrite O2, O3. split; reflexivity.
Qed.
End Three.
End LinearFacts.
