(** Lemmas: the order of the samples in a batch does not matter. *)

From Coq Require Import List Arith Lia Bool ZArith Field Permutation.
From Verif Require Import Scalar Res Tensor TensorFacts Structures StructSpec StructDense StructPattern StructOps StructAct OptimUtils UtilsFacts ProofUtils Optimizer Construct OptState OptRun OptSpec OptFacts OptTyped OptPre ScaleInv ProgressSpec Progress Batch ShuffleSpec.
Import ListNotations.

Section Shuffle.
Context {SC : Scalar} {FL : FieldLaws SC} {SQ : SqrtLaws SC}.
Add Field FFsh : F_ft.
Open Scope F_scope.

(** ** Sums *)

Fixpoint lsum (l : list F) : F := match l with [] => 0 | x :: l' => x + lsum l' end.

Lemma lsum_perm l l' : Permutation l l' -> lsum l = lsum l'.
Proof. induction 1; cbn; [reflexivity|rewrite IHPermutation; reflexivity|ring|congruence]. Qed.
Lemma lsum_app l l' : lsum (l ++ l') = lsum l + lsum l'.
Proof. induction l as [|x l IH]; cbn; [ring|]. rewrite IH. ring. Qed.
Lemma sum_lsum n f : sum n f = lsum (map f (seq 0 n)).
Proof.
  induction n; [reflexivity|]. rewrite seq_S, map_app, lsum_app, <- IHn. cbn. ring.
Qed.

Lemma nodup_map_in (f : nat -> nat) l : (forall i j, In i l -> In j l -> f i = f j -> i = j) -> NoDup l -> NoDup (map f l).
Proof.
  induction l as [|x l IH]; intros H N; [constructor|]. apply NoDup_cons_iff in N as [N1 N2]. cbn. constructor.
  - intros I. apply in_map_iff in I as (y & E & Hy). apply N1. rewrite <- (H y x); [exact Hy|right; exact Hy|left; reflexivity|exact E].
  - apply IH; [|exact N2]. intros i j Hi Hj. apply H; right; assumption.
Qed.

Lemma sum_permute sigma n f : permutes sigma n -> sum n (fun i => f (sigma i)) = sum n f.
Proof.
  intros [P1 P2]. rewrite !sum_lsum. apply lsum_perm. rewrite <- (map_map sigma f). apply Permutation_map.
  apply NoDup_Permutation_bis.
  - apply nodup_map_in; [|apply seq_NoDup]. intros i j Hi Hj. apply in_seq in Hi, Hj. apply P2; lia.
  - rewrite map_length. reflexivity.
  - intros k Hk. apply in_map_iff in Hk as (i & <- & Hi). apply in_seq in Hi. apply in_seq. specialize (P1 i). lia.
Qed.

(** ** Statistics *)

Lemma reorder_part sigma x n rest i :
  shape x = n :: rest -> permutes sigma n -> (i < n)%nat -> part (reorder sigma x) i 1 = part x (sigma i) 1.
Proof.
  intros Sx [P _] Hi. apply (part_ext x _ (sigma i) 1 n rest Sx); [cbn; rewrite Sx; reflexivity|].
  intros k r Hk Hr. rewrite (tget_part _ i 1 n rest) by (try exact Sx; assumption).
  assert (k = O) as -> by lia. rewrite !Nat.add_0_r. unfold reorder. rewrite tget_tab; [reflexivity|]. rewrite Sx. constructor; assumption.
Qed.

Lemma samplewise_per P f f' x n rest per per' d raw raw' sigma :
  shape x = n :: rest -> n <> O -> permutes sigma n ->
  samplewise P f x n per d raw -> samplewise P f' (reorder sigma x) n per' d raw' -> per' = per.
Proof.
  intros Sx N Pm W W'. pose proof Pm as [P1 _]. assert (H0 : (0 < n)%nat) by lia. specialize (P1 O H0).
  destruct (W (sigma O) 1%nat) as (A & E & S1 & _); [lia|discriminate|]. destruct (W' O 1%nat) as (A' & E' & S1' & _); [lia|discriminate|].
  rewrite (reorder_part sigma x n rest) in E' by assumption. rewrite E in E'. injection E' as <-. rewrite S1 in S1'. injection S1' as S1'. lia.
Qed.

Lemma samplewise_rows P f f' x n rest per d raw raw' sigma i r k :
  shape x = n :: rest -> permutes sigma n ->
  samplewise P f x n per d raw -> samplewise P f' (reorder sigma x) n per d raw' ->
  (i < n)%nat -> (r < per)%nat -> (k < d)%nat -> f' 1%nat * raw' (i * per + r)%nat k = f 1%nat * raw (sigma i * per + r)%nat k.
Proof.
  intros Sx Pm W W' Hi Hr Hk. pose proof Pm as [P1 _]. specialize (P1 i Hi).
  destruct (W (sigma i) 1%nat) as (A & E & S1 & G); [lia|discriminate|]. destruct (W' i 1%nat) as (A' & E' & S1' & G'); [lia|discriminate|].
  rewrite (reorder_part sigma x n rest) in E' by assumption. rewrite E in E'. injection E' as <-.
  assert (Hr' : (r < 1 * per)%nat) by lia. pose proof (G r k Hr' Hk) as X. rewrite (G' r k Hr' Hk) in X. exact X.
Qed.

Lemma outer_scale v c per a b i j : outer (fun r k => c * v r k) per a b i j = c * c * outer v per a b i j.
Proof. unfold outer. rewrite <- sum_scale_l. apply sum_ext. intros. ring. Qed.

Lemma stat_shuffled cl d K P f f' x n rest per raw raw' q sigma A A' h :
  cls_ok cl -> dim_ok cl d -> valid cl d K -> per <> O -> n <> O ->
  f 1%nat * f 1%nat <> 0 -> f' 1%nat * f' 1%nat <> 0 -> f n * f n * (f' 1%nat * f' 1%nat) = f' n * f' n * (f 1%nat * f 1%nat) ->
  shape x = n :: rest -> permutes sigma n ->
  samplewise P f x n per d raw -> samplewise P f' (reorder sigma x) n per d raw' ->
  P x = Ok A -> P (reorder sigma x) = Ok A' ->
  from_inner K (Some (tr (t_scale q A))) = Ok h -> from_inner K (Some (tr (t_scale q A'))) = Ok h.
Proof.
  intros OK D VK Np Nn Nf Nf' RF Sx Pm W W' EA EA' Eh.
  destruct (stat_samples cl d K P f x n per raw q OK D VK Np W 0 n) as (B & h1 & EB & E1 & V1 & R1); [lia|exact Nn|].
  destruct (stat_samples cl d K P f' _ n per raw' q OK D VK Np W' 0 n) as (B' & h2 & EB' & E2 & V2 & R2); [lia|exact Nn|].
  rewrite (part_whole _ _ _ Sx) in EB. rewrite (part_whole (reorder sigma x) n rest Sx) in EB'.
  rewrite EA in EB. injection EB as <-. rewrite EA' in EB'. injection EB' as <-. rewrite Eh in E1. injection E1 as <-. rewrite E2. f_equal.
  apply (ent_inj cl d h2 h OK V2 V1). intros i j Hi Hj. rewrite R1, R2 by assumption.
  set (v := fun r i => sum d (fun k => rent K i k * raw r k)). set (v' := fun r i => sum d (fun k => rent K i k * raw' r k)).
  assert (X : f' 1%nat * f' 1%nat * proj cl d (outer v' per 0 n) i j = f 1%nat * f 1%nat * proj cl d (outer v per 0 n) i j).
  { rewrite <- !proj_scale by assumption. apply proj_ext; [|exact Hi|exact Hj]. intros u w Hu Hw. rewrite <- !outer_scale.
    unfold outer. rewrite !sum_blocks. cbn [Nat.mul Nat.add].
    rewrite <- (sum_permute sigma n (fun b => sum per (fun r => f 1%nat * v (b * per + r)%nat u * (f 1%nat * v (b * per + r)%nat w))) Pm).
    apply sum_ext. intros b Hb. apply sum_ext. intros r Hr.
    assert (X : forall i0, f' 1%nat * v' (b * per + r)%nat i0 = f 1%nat * v (sigma b * per + r)%nat i0).
    { intros i0. unfold v, v'. rewrite <- !sum_scale_l. apply sum_ext. intros k Hk.
      pose proof (samplewise_rows P f f' x n rest per d raw raw' sigma b r k Sx Pm W W' Hb Hr Hk) as Y.
      transitivity (rent K i0 k * (f' 1%nat * raw' (b * per + r)%nat k)); [ring|]. rewrite Y. ring. }
    rewrite !X. reflexivity. }
  assert (NF : f' 1%nat <> 0) by (intros Z; apply Nf'; rewrite Z; ring).
  assert (Y : proj cl d (outer v' per 0 n) i j = f 1%nat * f 1%nat * proj cl d (outer v per 0 n) i j / (f' 1%nat * f' 1%nat)) by (rewrite <- X; field; exact NF).
  rewrite Y. transitivity (f' n * f' n * (f 1%nat * f 1%nat) * (q * q) * proj cl d (outer v per 0 n) i j / (f' 1%nat * f' 1%nat)); [field; exact NF|].
  rewrite <- RF. field. exact NF.
Qed.

Lemma fits_shape l x g x' g' : fits l x g -> shape x' = shape x -> shape g' = shape g -> fits l x' g'.
Proof. intros H E1 E2. destruct l; [| |exact H]; cbn [fits] in *; rewrite E1, E2; exact H. Qed.

Lemma local_H_shuffled g l prev x x' gout gout' s HK HC cK cC dK dC :
  usable cK dK -> usable cC dC -> preconditioner_dims l = Ok (dK, dC) -> typed cK cC dK dC s -> fits l x gout ->
  shuffled x x' -> shuffled gout gout' ->
  local_H g l prev x gout s = Ok (HK, HC) -> local_H g l prev x' gout' s = Ok (HK, HC).
Proof.
  intros UK UC Ed T FT (sx & n & rest & Sx & Px & ->) (sg & n' & rest' & Sg & Pg & ->) E.
  pose proof UK as (OK & DK & _ & NK). pose proof UC as (OC & DC & _ & NC).
  destruct T as [(K & EK & VK) (C & EC & VC) _ _ _ _]. unfold local_H in E. rewrite EK, EC in E.
  destruct (process_input x l (g_approx g)) as [A|] eqn:EA; [|discriminate]. cbn [bind] in E.
  destruct (process_grad_output gout l (g_loss g) (g_approx g)) as [B|] eqn:EB; [|discriminate]. cbn [bind lookup] in E.
  assert (FT' : fits l (reorder sx x) (reorder sg gout)) by (apply (fits_shape l x gout); [exact FT|reflexivity|reflexivity]).
  destruct (process_total l _ _ g FT' (process_accepts _ x gout g A B FT EA EB)) as (A' & B' & EA' & EB').
  destruct (from_inner K (Some (tr A))) as [hk|] eqn:Ehk; [|discriminate]. cbn [bind] in E. destruct prev as [p|]; [|discriminate]. cbn [bind] in E.
  assert (HQ : exists q, forall B', (if feqb p 1 then Ok B' else if fltb p 0 then Err ValueError else Ok (t_divs B' (fsqrt p))) = Ok (t_scale q B')).
  { destruct (feqb p 1); [exists 1; intros; rewrite scale_1; reflexivity|]. destruct (fltb p 0); [discriminate|]. exists (1 / fsqrt p). intros. rewrite divs_scale. reflexivity. }
  destruct HQ as (q & HQ). rewrite HQ in E. cbn [bind] in E.
  destruct (from_inner C (Some (tr (t_scale q B)))) as [hc|] eqn:Ehc; [|discriminate]. cbn [bind] in E. injection E as <- <-.
  assert (Hla : g_loss g <> LossOther) by (intros Z; rewrite Z in EB; destruct (g_approx g); discriminate).
  destruct (input_samples l x gout (g_approx g) dK dC A FT Ed EA) as (n1 & r1 & per & raw & S1 & Nn & Np & SW1). rewrite Sx in S1. injection S1 as <- <-.
  destruct (input_samples l _ _ (g_approx g) dK dC A' FT' Ed EA') as (n1 & r1 & per1 & raw1 & S1 & _ & _ & SW1').
  change (shape (reorder sx x)) with (shape x) in S1. rewrite Sx in S1. injection S1 as <- <-.
  destruct (grad_samples l x gout (g_loss g) (g_approx g) dK dC B FT Ed EB) as (n2 & r2 & per' & sp & raw' & S2 & Nn' & Np' & Nsp & SW2). rewrite Sg in S2. injection S2 as <- <-.
  destruct (grad_samples l _ _ (g_loss g) (g_approx g) dK dC B' FT' Ed EB') as (n2 & r2 & per1' & sp1 & raw1' & S2 & _ & _ & Nsp1 & SW2').
  change (shape (reorder sg gout)) with (shape gout) in S2. rewrite Sg in S2. injection S2 as <- <-.
  pose proof (samplewise_per _ _ _ x n rest per per1 dK raw raw1 sx Sx Nn Px SW1 SW1') as ->.
  pose proof (samplewise_per _ _ _ gout n' rest' per' per1' dC raw' raw1' sg Sg Nn' Pg SW2 SW2') as ->.
  assert (FI : forall b, b <> O -> 1 / fsqrt (fofnat (b * per)) * (1 / fsqrt (fofnat (b * per))) = 1 / (fofnat b * fofnat per)).
  { intros b Nb. rewrite div_sqrt_mul by (intros Z; apply Nat.eq_mul_0 in Z; tauto). rewrite fofnat_mul. replace (1 * 1) with 1 by ring. reflexivity. }
  pose proof (fofnat_neq0 per Np) as Fp. pose proof (fofnat_neq0 1 ltac:(discriminate)) as F1.
  assert (N1 : 1 / (fofnat 1 * fofnat per) <> 0).
  { intros Z. apply (F_1_neq_0 F_ft). transitivity (1 / (fofnat 1 * fofnat per) * (fofnat 1 * fofnat per)); [field; auto|rewrite Z; ring]. }
  assert (HA : from_inner K (Some (tr A')) = Ok hk).
  { rewrite <- (scale_1 A'). rewrite <- (scale_1 A) in Ehk.
    eapply (stat_shuffled cK dK K _ _ _ x n rest per raw raw1 1 sx A A' hk OK DK VK Np Nn); [| | |exact Sx|exact Px|exact SW1|exact SW1'|exact EA|exact EA'|exact Ehk].
    - cbv beta. rewrite FI by discriminate. exact N1.
    - cbv beta. rewrite FI by discriminate. exact N1.
    - cbv beta. reflexivity. }
  assert (GF : forall s b, s <> O -> b <> O -> grad_factor (g_loss g) b s <> 0).
  { intros s0 b Ns Nb. unfold grad_factor. destruct (g_loss g); try congruence; first [apply (F_1_neq_0 F_ft)|apply fofnat_neq0]; auto.
    intros Z; apply Nat.eq_mul_0 in Z; tauto. }
  assert (HB : from_inner C (Some (tr (t_scale q B'))) = Ok hc).
  { eapply (stat_shuffled cC dC C _ _ _ gout n' rest' per' raw' raw1' q sg B B' hc OC DC VC Np' Nn'); [| | |exact Sg|exact Pg|exact SW2|exact SW2'|exact EB|exact EB'|exact Ehc]; cbv beta; rewrite !loss_scaling_sq by exact Hla.
    - apply GF; [exact Nsp|discriminate].
    - apply GF; [exact Nsp1|discriminate].
    - unfold grad_factor. destruct (g_loss g); try congruence; rewrite ?fofnat_mul; ring. }
  unfold local_H. rewrite EA', EB', EK, EC. cbn [bind lookup]. rewrite HA. cbn [bind]. rewrite HQ. cbn [bind]. rewrite HB. reflexivity.
Qed.
(** ** Runs *)

Lemma pend_step_frame c closure s1 : s_pend (fst (step c closure s1)) = s_pend s1.
Proof.
  destruct (step c closure s1) as [s2 r] eqn:E1. cbn [fst].
  apply step_cases in E1 as [(_ & -> & ->)|(_ & st1 & [(e0 & E1 & -> & ->)|(E1 & C)])]; [reflexivity| |].
  - apply ensure_scale_frame in E1 as ((_ & _ & _ & _ & _ & _ & P) & _). exact P.
  - apply ensure_scale_frame in E1 as ((_ & _ & _ & _ & _ & _ & P) & _). destruct C as [(_ & -> & ->)|(_ & st2 & r2 & ES & C)].
    + exact P.
    + apply steps_frame in ES as (_ & _ & _ & _ & _ & P2 & _). destruct r2; destruct C as [-> ->]; unfold finish; cbn; congruence.
Qed.

(** Equal up to the order of the samples in the recorded layer inputs. *)
Definition srel (s t : state) : Prop :=
  t = set_pend (s_pend t) s /\
  forall out, match s_pend s out, s_pend t out with
  | Some (m, x), Some (m', x') => m' = m /\ shuffled x x'
  | None, None => True
  | _, _ => False
  end.

Lemma srel_typed c ty s t : srel s t -> all_typed c ty s -> all_typed c ty t.
Proof.
  intros [E R] [TA PA]. split.
  - intros m Hm. specialize (TA m Hm). unfold mod_typed in *. rewrite E. exact TA.
  - intros out m x H. specialize (R out). rewrite H in R. destruct (s_pend s out) as [[m' x']|] eqn:EP; [|contradiction].
    destruct R as [-> _]. exact (PA _ _ _ EP).
Qed.

Lemma backward_eq c st out m x g : s_pend st out = Some (m, x) ->
  event_op c (EBackward out g) st =
  match get_group c (s_groups st) m with
  | Err e => (st, Err e)
  | Ok gr =>
      match local_H gr (m_layer m) (get_grad_scale (s_scales st) (Z.of_nat (s_steps st) - 1)) x g (s_slots st (m_key m)) with
      | Err e => (st, Err e)
      | Ok (HK, HC) => on_slots (m_key m) (store_H HK HC) st
      end
  end.
Proof.
  intros EP. cbn [event_op]. unfold sbind at 1, getS at 1. rewrite EP. unfold accumulate_H_terms, sbind, getS, lift.
  destruct (get_group c (s_groups st) m) as [gr|]; [|reflexivity]. destruct (local_H _ _ _ _ _ _) as [[HK HC]|]; reflexivity.
Qed.

Lemma backward_shuffled c ty s t out g g' :
  tys_ok c ty -> all_typed c ty s -> wf_event c s (EBackward out g) -> shuffled g g' -> srel s t ->
  srel (fst (event_op c (EBackward out g) s)) (fst (event_op c (EBackward out g') t)) /\
  (snd (event_op c (EBackward out g) s) = Ok tt <-> snd (event_op c (EBackward out g') t) = Ok tt).
Proof.
  intros TO TA W SG R. pose proof (srel_typed c ty s t R TA) as TA'. pose proof R as [E RP]. specialize (RP out).
  destruct (s_pend s out) as [[m x]|] eqn:EP.
  2:{ destruct (s_pend t out) as [[m' x']|] eqn:EP'; [contradiction|]. cbn [event_op]. unfold sbind, getS. rewrite EP, EP'. cbn [fst snd]. split; [exact R|reflexivity]. }
  destruct (s_pend t out) as [[m' x']|] eqn:EP'; [|contradiction]. destruct RP as [-> SX].
  pose proof (W m x EP) as FT.
  assert (FT' : fits (m_layer m) x' g').
  { destruct SX as (? & ? & ? & _ & _ & ->). destruct SG as (? & ? & ? & _ & _ & ->). apply (fits_shape _ x g); [exact FT|reflexivity|reflexivity]. }
  pose proof (backward_outcome c ty s out m x g TO TA EP FT) as O. pose proof (backward_outcome c ty t out m x' g' TO TA' EP' FT') as O'.
  assert (BR : backward_ready c t m <-> backward_ready c s m) by (rewrite E; reflexivity).
  split; [|rewrite O, O', BR; reflexivity].
  assert (Hm : In m (c_mods c)) by (destruct TA as [_ PA]; exact (PA _ _ _ EP)).
  pose proof (TO m Hm) as TOm. pose proof (proj1 TA m Hm) as T. unfold mod_typed in T.
  destruct (ty m) as [[[cK cC] dK] dC] eqn:Et. destruct TOm as (UK & UC & Ed).
  revert O O'. rewrite (backward_eq c s out m x g EP), (backward_eq c t out m x' g' EP').
  assert (E1 : get_group c (s_groups t) m = get_group c (s_groups s) m) by (rewrite E; reflexivity).
  assert (E2 : s_slots t = s_slots s) by (rewrite E; reflexivity). assert (E3 : s_scales t = s_scales s) by (rewrite E; reflexivity). assert (E4 : s_steps t = s_steps s) by (rewrite E; reflexivity).
  rewrite E1, E2, E3, E4. destruct (get_group c (s_groups s) m) as [gr|]; [|intros _ _; exact R].
  set (prev := get_grad_scale (s_scales s) (Z.of_nat (s_steps s) - 1)).
  destruct (local_H gr (m_layer m) prev x g (s_slots s (m_key m))) as [[HK HC]|] eqn:EL.
  - rewrite (local_H_shuffled gr (m_layer m) prev x x' g g' _ HK HC cK cC dK dC UK UC Ed T FT SX SG EL). intros _ _.
    unfold on_slots. rewrite E2. destruct (store_H HK HC (s_slots s (m_key m))) as [sl r]. cbn [fst].
    split; [rewrite E; reflexivity|]. exact (proj2 R).
  - destruct (local_H gr (m_layer m) prev x' g' (s_slots s (m_key m))) as [[HK HC]|] eqn:EL'; [|intros _ _; exact R].
    intros O O'. exfalso. destruct (local_H_typed _ _ _ _ _ _ _ _ _ _ _ _ UK UC Ed T FT' EL') as [V1 V2].
    destruct (store_H_typed HK HC _ _ _ _ _ UK UC T V1 V2) as (k1 & c1 & ES & _).
    assert (X : backward_ready c t m). { apply O'. unfold on_slots. rewrite E2, ES. reflexivity. }
    apply BR, O in X. discriminate.
Qed.

Lemma event_shuffled c ty e e' s t :
  tys_ok c ty -> all_typed c ty s -> wf_event c s e -> shuffled_call e e' -> srel s t ->
  srel (fst (event_op c e s)) (fst (event_op c e' t)) /\ (snd (event_op c e s) = Ok tt <-> snd (event_op c e' t) = Ok tt).
Proof.
  intros TO TA W SH R.
  assert (BL : forall x : SM state unit, blind x -> (forall s0, s_pend (fst (x s0)) = s_pend s0) ->
    srel (fst (x s)) (fst (x t)) /\ (snd (x s) = Ok tt <-> snd (x t) = Ok tt)).
  { intros x Bx Px. destruct R as [E RP]. rewrite E, (Bx (s_pend t) s). cbn [fst snd]. split; [|reflexivity]. split; [reflexivity|].
    intros out. cbn [set_pend s_pend]. rewrite Px. exact (RP out). }
  destruct e; cbn [shuffled_call] in SH.
  - destruct e'; try discriminate SH. destruct SH as (-> & -> & -> & SX). pose proof R as [E RP]. cbn [event_op].
    destruct (forward_frame c m x grad_on out s) as (E1 & F1 & _). destruct (forward_frame c m x0 grad_on out t) as (E2 & F2 & _).
    assert (FO : (snd (forward_hook c m x grad_on out s) = Ok tt <-> snd (forward_hook c m x0 grad_on out t) = Ok tt) /\
      match s_pend (fst (forward_hook c m x grad_on out s)) out, s_pend (fst (forward_hook c m x0 grad_on out t)) out with
      | Some (m, x), Some (m', x') => m' = m /\ shuffled x x' | None, None => True | _, _ => False end).
    { unfold forward_hook, sbind, getS, modify, lift, ret. rewrite E. cbn [s_groups s_steps set_pend s_pend].
      destruct (get_group c (s_groups s) m) as [gr|]; [|cbn; rewrite !upd_eq; split; [reflexivity|exact I]].
      destruct (negb grad_on); [cbn; rewrite !upd_eq; split; [reflexivity|exact I]|].
      destruct (is_update_step _ _) as [[|]|]; cbn; rewrite !upd_eq; split; try reflexivity; try exact I. split; [reflexivity|exact SX]. }
    split; [|apply FO]. split.
    + rewrite E1, E2, E. reflexivity.
    + intros o. destruct (Nat.eq_dec o out) as [->|N]; [apply FO|]. rewrite F1, F2 by exact N. exact (RP o).
  - destruct e'; try discriminate SH. destruct SH as (-> & SG). exact (backward_shuffled c ty s t out g g0 TO TA W SG R).
  - rewrite SH. apply (BL (modify _)); [intros q s0; reflexivity|reflexivity].
  - rewrite SH. apply (BL (set_current_grad_scale s0)); [apply blind_set_scale|]. intros s1.
    destruct (set_current_grad_scale s0 s1) as [s2 r] eqn:E1. apply set_current_grad_scale_frame in E1 as ((_ & _ & _ & _ & _ & _ & P) & _). exact P.
  - rewrite SH. apply (BL (modify _)); [intros q s0; reflexivity|reflexivity].
  - rewrite SH. apply (BL (step c closure)); [apply blind_step|]. intros s1. exact (pend_step_frame c closure s1).
  - rewrite SH. apply (BL (modify _)); [intros q s0; reflexivity|reflexivity].
Qed.

Lemma run_shuffled c ty es : forall es' s t,
  tys_ok c ty -> NoDup (map m_key (c_mods c)) -> all_typed c ty s -> wf_run c es s -> Forall2 shuffled_call es es' -> srel s t ->
  srel (run c es s) (run c es' t) /\ Forall2 (fun r r' => r = Ok tt <-> r' = Ok tt) (outcomes c es s) (outcomes c es' t).
Proof.
  induction es as [|e es IH]; intros es' s t TO ND TA W SH R; inversion SH as [|? e' ? es2 H1 H2]; subst; [split; [exact R|constructor]|].
  destruct W as [W1 W2]. destruct (event_shuffled c ty e e' s t TO TA W1 H1 R) as [R1 O1].
  destruct (IH es2 _ _ TO ND (event_all_typed c ty e s TO ND TA W1) W2 H2 R1) as [R2 O2]. cbn [run outcomes].
  split; [exact R2|]. constructor; assumption.
Qed.

Lemma srel_refl s : (forall out, s_pend s out = None) -> srel s s.
Proof. intros H. split; [destruct s; reflexivity|]. intros out. rewrite H. exact I. Qed.

Lemma setting_shuffled a par c st0 es es' :
  setting a par c st0 -> wf_run c es st0 -> Forall2 shuffled_call es es' ->
  srel (run c es st0) (run c es' st0) /\ Forall2 (fun r r' => r = Ok tt <-> r' = Ok tt) (outcomes c es st0) (outcomes c es' st0).
Proof.
  intros S W SH. pose proof (setting_ok _ _ _ _ S) as [OK L]. destruct (setting_typed _ _ _ _ [] S I) as [TO TA]. cbn [run] in TA.
  apply (run_shuffled c _ es es' st0 st0 TO); try assumption.
  - apply OK.
  - apply srel_refl. destruct S as ((h & h' & E) & _). pose proof (ctor_state _ _ _ _ _ _ E) as X. apply X.
Qed.
End Shuffle.
