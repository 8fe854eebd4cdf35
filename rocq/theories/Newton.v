(** Lemmas: the stored statistics in terms of the second moments seen, and the preconditioners on a constant curvature. *)

From Coq Require Import List Arith Lia Bool ZArith Field Setoid Reals Lra.
From Verif Require Import Scalar Res Tensor TensorFacts Structures StructSpec StructDense StructOps StructAct OptimUtils UtilsFacts ProofUtils Optimizer Construct OptState OptRun OptSpec OptFacts OptConsume ProofRun OptDir OptTyped OptStep OptPre OptMom RealOrd OptNorm ProofUpdate NewtonSpec MatInv.
Import ListNotations.

Section Newton.
Context {SC : Scalar} {FL : FieldLaws SC}.
Add Field Ffnw : F_ft.
Open Scope F_scope.
#[local] Existing Instance eqm_equiv.
#[local] Existing Instance mmm_proper.

Lemma conj_moment N n A K P : (forall i j, P i j = sum N (fun k => A k i * A k j)) -> eqm n (conj N n A K) (congr n K P).
Proof. intros H i j Hi Hj. rewrite conj_congr. unfold congr. apply sum_ext. intros a _. apply sum_ext. intros b _. rewrite H. reflexivity. Qed.

Lemma local_H_moments g l prev x gout s cK cC dK dC K C HK HC :
  usable cK dK -> usable cC dC -> nonblock cK -> nonblock cC -> preconditioner_dims l = Ok (dK, dC) -> fits l x gout ->
  sl_K s = Some K -> sl_C s = Some C -> valid cK dK K -> valid cC dC C ->
  local_H g l prev x gout s = Ok (HK, HC) ->
  valid cK dK HK /\ valid cC dC HC /\
  exists P Q, moments g l prev x gout = Some (P, Q) /\
    eqm dK (ent HK) (proj cK dK (congr dK (ent K) P)) /\ eqm dC (ent HC) (proj cC dC (congr dC (ent C) Q)).
Proof.
  intros UK UC NK NC Ed F EK EC VK VC H. unfold local_H in H. rewrite EK, EC in H. cbn [lookup] in H.
  apply bind_ok in H as (A & EA & H). apply bind_ok in H as (B & EB & H). cbn [bind] in H.
  destruct (process_shapes l x gout _ _ A B dK dC F Ed EA EB) as (N & NN & SA & SB).
  destruct (from_inner_inner cK dK K A N UK VK SA NN) as (r & Er & Vr & Hr).
  rewrite Er in H. cbn [bind] in H. apply bind_ok in H as (p & Ep & H). apply bind_ok in H as (B' & EB' & H).
  assert (SB' : shape B' = [N; dC] /\ forall k j, (k < N)%nat -> (j < dC)%nat -> get2 B' k j = get2 B k j / (if feqb p 1 then 1 else fsqrt p)).
  { destruct (feqb p 1) eqn:E1.
    - injection EB' as <-. split; [exact SB|]. intros. field. apply f1_neq_0.
    - destruct (fltb p 0); [discriminate|]. injection EB' as <-. split; [exact SB|]. intros k j Hk Hj. unfold t_divs, t_map, get2.
      rewrite tget_tab by (rewrite SB; apply in_range2; assumption). reflexivity. }
  destruct SB' as [SB' GB].
  destruct (from_inner_inner cC dC C B' N UC VC SB' NN) as (t & Et & Vt & Ht).
  rewrite Et in H. cbn [bind] in H. injection H as <- <-. split; [exact Vr|]. split; [exact Vt|].
  unfold moments. rewrite EA, EB, Ep. eexists _, _. split; [reflexivity|]. split.
  - intros i j Hi Hj. rewrite Hr by assumption. apply proj_ext; try assumption. intros a b Ha Hb. rewrite (inner_conj N dK cK _ K a b NK VK).
    apply conj_moment; try assumption. intros u v. rewrite (rows_of _ _ _ SA). reflexivity.
  - intros i j Hi Hj. rewrite Ht by assumption. apply proj_ext; try assumption. intros a b Ha Hb. rewrite (inner_conj N dC cC _ C a b NC VC).
    rewrite conj_congr. unfold congr. apply sum_ext. intros u Hu. apply sum_ext. intros v Hv. f_equal. f_equal. unfold tmm. rewrite (rows_of _ _ _ SB).
    apply sum_ext. intros k Hk. rewrite !GB by assumption. reflexivity.
Qed.

(** The stored statistics are the extracted K^T M K for the moments M. *)
Definition tracks (cK cC : cls) (dK dC : nat) (s : slots) (M : mat * mat) : Prop :=
  (forall K, sl_K s = Some K -> match sl_HK s with Some H => eqm dK (ent H) (proj cK dK (congr dK (ent K) (fst M))) | None => eqm dK (fst M) zero end) /\
  (forall C, sl_C s = Some C -> match sl_HC s with Some H => eqm dC (ent H) (proj cC dC (congr dC (ent C) (snd M))) | None => eqm dC (snd M) zero end).

Lemma congr_plus n K A B i j : congr n K (plus A B) i j = congr n K A i j + congr n K B i j.
Proof.
  unfold congr, plus. rewrite <- sum_plus. apply sum_ext. intros a _. rewrite <- sum_plus. apply sum_ext. intros b _. ring.
Qed.
Lemma congr_ext n K U U' : eqm n U U' -> eqm n (congr n K U) (congr n K U').
Proof. intros H i j _ _. unfold congr. apply sum_ext. intros a Ha. apply sum_ext. intros b Hb. rewrite H by assumption. reflexivity. Qed.

Lemma tracks_add c d K hk HK P M (o : option smat) :
  match o with Some H => eqm d (ent H) (proj c d (congr d (ent K) M)) | None => eqm d M zero end ->
  eqm d (ent HK) (proj c d (congr d (ent K) P)) -> eqm d (ent hk) (fun i j => oldm o i j + ent HK i j) ->
  eqm d (ent hk) (proj c d (congr d (ent K) (plus M P))).
Proof.
  intros HM HP Hk i j Hi Hj. rewrite Hk, HP by assumption. destruct o as [H|].
  - cbn [oldm]. rewrite HM by assumption. rewrite <- proj_add by assumption. apply proj_ext; try assumption. intros. symmetry. apply congr_plus.
  - cbn [oldm]. rewrite (proj_ext c d (congr d (ent K) (plus M P)) (congr d (ent K) P)); try assumption; [ring|].
    apply congr_ext. intros a b Ha Hb. unfold plus. rewrite HM by assumption. unfold zero. ring.
Qed.

Lemma event_seen c ty e st m cK cC dK dC M :
  cfg_ok c -> tys_ok c ty -> all_typed c ty st -> wf_event c st e -> In m (c_mods c) -> ty m = (cK, cC, dK, dC) -> nonblock cK -> nonblock cC ->
  (forall b, e = EStep b -> snd (event_op c e st) = Ok tt) ->
  tracks cK cC dK dC (s_slots st (m_key m)) M -> tracks cK cC dK dC (s_slots (fst (event_op c e st)) (m_key m)) (seen_event c m e st M).
Proof.
  intros OK TO TA W Hm Et NK NC NF St. pose proof TA as [TA' PA]. pose proof (TO m Hm) as TOm. pose proof (TA' m Hm) as T. unfold mod_typed in T. rewrite Et in TOm, T.
  destruct TOm as (UK & UC & Ed). set (s := s_slots st (m_key m)) in *. pose proof (proj1 OK) as ND.
  destruct e as [m0 x b out|out gout|p gr|sc|am inf|b|gs]; try exact St.
  - destruct (forward_frame c m0 x b out st) as (E & _). cbn [event_op seen_event]. rewrite E. exact St.
  - cbn [event_op seen_event]. unfold sbind, getS. destruct (s_pend st out) as [[m0 x]|] eqn:EP.
    2:{ cbn. exact St. }
    destruct (same_key (c_mods c) m m0 ND Hm (PA _ _ _ EP)) as [D| ->].
    + destruct (accumulate_frame c m0 x gout st) as (_ & _ & _ & _ & _ & _ & _ & F & _). rewrite F by congruence.
      destruct (Nat.eqb_spec (m_key m0) (m_key m)); [congruence|]. destruct (snd (accumulate_H_terms c m0 x gout st)); [destruct (get_group c (s_groups st) m)|]; exact St.
    + rewrite Nat.eqb_refl. unfold accumulate_H_terms, sbind, getS, lift. destruct (get_group c (s_groups st) m) as [gr|] eqn:Eg; [|exact St].
      destruct (local_H _ _ _ _ _ _) as [[HK HC]|] eqn:EL; [|exact St].
      specialize (W m x EP). pose proof T as [(K & EK & VK) (C & EC & VC) _ _ _ _].
      destruct (local_H_moments _ _ _ _ _ _ _ _ _ _ _ _ _ _ UK UC NK NC Ed W EK EC VK VC EL) as (VHK & VHC & P & Q & EM & HP & HQ).
      destruct (store_H_typed HK HC s _ _ _ _ UK UC T VHK VHC) as (hk & hc & ES & _ & _ & Hk & Hc).
      unfold on_slots. fold s. rewrite ES. cbn [fst snd]. rewrite EM. cbn [s_slots set_slots]. rewrite upd_eq.
      destruct St as [S1 S2]. split.
      * intros K0 F1. cbn in F1. rewrite EK in F1. injection F1 as <-. exact (tracks_add cK dK K hk HK P (fst M) _ (S1 K EK) HP Hk).
      * intros C0 F1. cbn in F1. rewrite EC in F1. injection F1 as <-. exact (tracks_add cC dC C hc HC Q (snd M) _ (S2 C EC) HQ Hc).
  - cbn [event_op seen_event]. destruct (set_current_grad_scale sc st) as [st' r] eqn:E.
    apply set_current_grad_scale_frame in E as ((_ & E & _) & _). cbn [fst]. rewrite E. exact St.
  - specialize (NF b eq_refl). cbn [event_op seen_event] in *. destruct (step c b st) as [st' r] eqn:E. cbn [fst snd] in *. subst r.
    assert (b = false) as ->.
    { destruct b; [|reflexivity]. apply step_cases in E as [(_ & _ & ?)|(? & _)]; discriminate. }
    destruct (s_inf st) eqn:Ei; cbn [orb].
    + apply step_cases in E as [(? & _)|(_ & st1 & [(e0 & E & _ & ?)|(E & D)])]; [discriminate|discriminate|].
      apply ensure_scale_frame in E as ((E1 & E2 & E3 & E4 & _) & E6 & E7).
      destruct D as [(Hi & _ & ->)|(Hi & _)]; [|congruence].
      match goal with |- tracks _ _ _ _ ?a _ => assert (Z : a = set_HC None (set_HK None s)) end.
      { unfold finish. cbn. rewrite E2. replace (existsb (fun m0 : modul => Nat.eqb (m_key m0) (m_key m)) (c_mods c)) with true; [reflexivity|].
        symmetry. apply existsb_exists. exists m. split; [exact Hm|apply Nat.eqb_refl]. }
      rewrite Z. split; intros ? ?; cbn; reflexivity.
    + destruct (dueb c m st) eqn:Ed'.
      * apply dueb_due in Ed'. destruct (C24_consumed_lemma c st st' m OK Hm Ei Ed' E) as (_ & _ & Z1 & Z2).
        split; intros ? ?; [rewrite Z1|rewrite Z2]; cbn; reflexivity.
      * rewrite (C24_not_used_lemma c st st' m OK Hm Ei); [exact St| |exact E].
        apply dueb_not_due. exact Ed'.
Qed.

Lemma run_seen c ty es st m cK cC dK dC M :
  cfg_ok c -> tys_ok c ty -> all_typed c ty st -> wf_run c es st -> In m (c_mods c) -> ty m = (cK, cC, dK, dC) -> nonblock cK -> nonblock cC ->
  no_failed_step c es st -> tracks cK cC dK dC (s_slots st (m_key m)) M -> tracks cK cC dK dC (s_slots (run c es st) (m_key m)) (seen c m es st M).
Proof.
  intros OK TO TA W Hm Et NK NC NF St. revert st M TA W NF St. induction es as [|e es IH]; intros st M TA W NF St; [exact St|]. destruct W as [W1 W2].
  destruct NF as [NF1 NF2]. cbn [run seen]. apply IH; [exact (event_all_typed c ty e st TO (proj1 OK) TA W1)|exact W2|exact NF2|].
  eapply event_seen; eassumption.
Qed.

(** ** One update *)

Lemma simple_nonblock k : simple k -> nonblock k.
Proof. intros [-> | ->]; exact I. Qed.

Lemma proj_congr k d K U : simple k -> valid k d K -> eqm d (proj k d (congr d (ent K) U)) (congr d (ent K) (proj k d U)).
Proof.
  intros [-> | ->] V i j Hi Hj; cbn [proj].
  - unfold congr. apply sum_ext. intros a _. apply sum_ext. intros b _. reflexivity.
  - assert (Z : forall a b, (a < d)%nat -> (b < d)%nat -> a <> b -> ent K a b = 0).
    { destruct K; cbn in V; try contradiction. intros a b Ha Hb N. cbn [ent]. destruct (Nat.eqb_spec a b); [contradiction|reflexivity]. }
    assert (R : forall W, congr d (ent K) W i j = ent K i i * W i j * ent K j j).
    { intros W. unfold congr. rewrite (sum_single d i _ Hi).
      - rewrite (sum_single d j _ Hj); [reflexivity|]. intros b Hb N. rewrite (Z b j) by assumption. ring.
      - intros a Ha N. apply sum_0. intros b Hb. rewrite (Z a i) by assumption. ring. }
    rewrite !R. destruct (Nat.eqb_spec i j); [reflexivity|ring].
Qed.
Lemma proj_gram k d K : simple k -> valid k d K -> eqm d (proj k d (tmm d (ent K) (ent K))) (congr d (ent K) ident).
Proof.
  intros S V.
  assert (E : eqm d (tmm d (ent K) (ent K)) (congr d (ent K) ident)).
  { intros i j Hi Hj. unfold tmm, congr. apply sum_ext. intros a Ha. rewrite (sum_single d a _ Ha).
    - unfold ident. rewrite Nat.eqb_refl. ring.
    - intros b Hb N. unfold ident. destruct (Nat.eqb_spec a b); [congruence|ring]. }
  intros i j Hi Hj. rewrite (proj_ext k d _ (congr d (ent K) ident) i j E Hi Hj), (proj_congr k d K ident S V i j Hi Hj).
  apply congr_ext; try assumption. intros a b Ha Hb. destruct S as [-> | ->]; cbn [proj]; [reflexivity|].
  unfold ident. destruct (Nat.eqb a b); reflexivity.
Qed.
Lemma proj_lin k d u M : simple k -> eqm d (proj k d (fun i j => u * M i j)) (fun i j => u * proj k d M i j).
Proof. intros [-> | ->] i j _ _; cbn [proj]; [reflexivity|]. destruct (Nat.eqb i j); [reflexivity|ring]. Qed.
Lemma proj_sym k d M : simple k -> symmetric d M -> symmetric d (proj k d M).
Proof.
  intros [-> | ->] S i j Hi Hj; cbn [proj]; [apply S; assumption|]. rewrite (Nat.eqb_sym j i). destruct (Nat.eqb_spec i j) as [->|]; reflexivity.
Qed.
Lemma damp_sym k d M lam : simple k -> symmetric d M -> symmetric d (damp k d M lam).
Proof. intros S Y i j Hi Hj. unfold damp. rewrite (proj_sym k d M S Y i j Hi Hj). unfold ident. rewrite (Nat.eqb_sym j i). reflexivity. Qed.

Lemma simple_update k d K K' H M U lam u b mo :
  simple k -> valid k d K -> eqm d (ent H) (proj k d (congr d (ent K) M)) -> eqm d (fun i j => u * M i j) U ->
  eqm d mo (fun i j => 1 / (1 + 1) * (u * ent H i j + lam * proj k d (tmm d (ent K) (ent K)) i j - ident i j)) ->
  eqm d (ent K') (precond_of d (ent K) mo b) ->
  eqm d (ent K') (mmm d (ent K) (fun i j => ident i j + b / (1 + 1) * defect d (ent K) (damp k d U lam) i j)).
Proof.
  intros S V HH HU Hm HK. rewrite HK. unfold precond_of. apply mmm_proper; [reflexivity|]. intros i j Hi Hj. rewrite Hm by assumption.
  assert (Q : u * ent H i j + lam * proj k d (tmm d (ent K) (ent K)) i j = congr d (ent K) (damp k d U lam) i j).
  { rewrite HH, (proj_congr k d K M S V), (proj_gram k d K S V) by assumption. unfold congr.
    rewrite <- !sum_scale_l, <- sum_plus. apply sum_ext. intros a Ha. rewrite <- !sum_scale_l, <- sum_plus. apply sum_ext. intros e He.
    unfold damp. rewrite <- (proj_ext k d _ _ a e HU Ha He), (proj_lin k d u M S a e Ha He). ring. }
  rewrite Q. unfold defect. field. apply two_neq0.
Qed.

(** A due step on moments M. *)
Lemma due_newton c ty st st' m cK cC dK dC M UK UC lam g prev cur :
  cfg_ok c -> tys_ok c ty -> all_typed c ty st -> In m (c_mods c) -> ty m = (cK, cC, dK, dC) -> simple cK -> simple cC ->
  tracks cK cC dK dC (s_slots st (m_key m)) M ->
  s_inf st = false -> due c m st -> step c false st = (st', Ok tt) ->
  get_group c (s_groups st) m = Ok g -> get_grad_scale (s_scales st) (Z.of_nat (s_steps st) - 1) = Ok prev -> step_scale st = Ok cur ->
  g_kfac_like g = true -> g_normalize g = false -> g_alpha1 g = 0 -> g_damping g = lam ->
  eqm dK (fst M) UK -> eqm dC (fun i j => prev / (cur * cur) * snd M i j) UC ->
  exists K C K' C', sl_K (s_slots st (m_key m)) = Some K /\ sl_C (s_slots st (m_key m)) = Some C /\
    sl_K (s_slots st' (m_key m)) = Some K' /\ sl_C (s_slots st' (m_key m)) = Some C' /\
    valid cK dK K /\ valid cC dC C /\ valid cK dK K' /\ valid cC dC C' /\
    let b := lr_cov_at g (s_steps st) in
    eqm dK (ent K') (mmm dK (ent K) (fun i j => ident i j + b / (1 + 1) * defect dK (ent K) (damp cK dK UK lam) i j)) /\
    eqm dC (ent C') (mmm dC (ent C) (fun i j => ident i j + b / (1 + 1) * defect dC (ent C) (damp cC dC UC lam) i j)).
Proof.
  intros OK TO TA Hm Et SK SC' [T1 T2] Hi D H Eg Ep Ec Gk Gn Ga Gd E1 E2.
  destruct (due_update_doc c ty st st' m cK cC dK dC OK TO TA Hm Et (simple_nonblock _ SK) (simple_nonblock _ SC') Hi D H)
    as (g0 & K & C & HK & HC & K' & C' & mK & mC & bK & bC & prev0 & cur0 & F1 & F2 & F3 & F4 & F5 & F6 & F7 & _ & F8 & V1 & V2 & _ & _ & G1 & G2 & R1 & R2 & P1 & P2).
  rewrite Eg in F1. injection F1 as <-. rewrite Ep in F6. injection F6 as <-. rewrite Ec in F7. injection F7 as <-.
  specialize (T1 K F2). specialize (T2 C F3). rewrite F4 in T1. rewrite F5 in T2.
  unfold normalized_lr in R1, R2. rewrite Gn in R1, R2. injection R1 as <-. injection R2 as <-.
  destruct TA as [TA _]. specialize (TA m Hm). unfold mod_typed in TA. rewrite Et in TA. destruct TA as [(K0 & Q1 & VK) (C0 & Q2 & VC) _ _ _ _].
  rewrite F2 in Q1. injection Q1 as <-. rewrite F3 in Q2. injection Q2 as <-.
  exists K, C, K', C'. rewrite F8. cbn [sl_K sl_C]. do 4 (split; [first [assumption|reflexivity]|]). do 4 (split; [assumption|]). cbv zeta. split.
  - eapply (simple_update cK dK K K' HK (fst M) UK lam 1); [exact SK|exact VK|exact T1| | |exact P1].
    + intros i j Hi' Hj. rewrite E1 by assumption. ring.
    + intros i j Hi' Hj. rewrite G1 by assumption. unfold doc_mK, half. rewrite Gk, Gn, Ga, Gd. ring.
  - eapply (simple_update cC dC C C' HC (snd M) UC lam (prev / (cur * cur))); [exact SC'|exact VC|exact T2|exact E2| |exact P2].
    intros i j Hi' Hj. rewrite G2 by assumption. unfold doc_mC, half. rewrite Gk, Gn, Ga, Gd. ring.
Qed.

End Newton.

Section Converge.
Context {SC : Scalar} {FL : FieldLaws SC} {OR : Ordered SC}.
Open Scope R_scope.
#[local] Existing Instance eqm_equiv.
#[local] Existing Instance mmm_proper.

(** After k updates with learning rates of at least [b] and initial defect [q]. *)
Definition err (q b : R) (k : nat) : R := q * (1 - b * (1 - q)) ^ k.
Fixpoint grow (q b : R) (k : nat) : R := match k with O => 1 | S k => grow q b k * (1 + err q b k / 2) end.
Definition good (d : nat) (K A : mat) (q b : R) (k : nat) : Prop :=
  small d (defect d K A) (err q b k) /\ small d K (grow q b k) /\ small d (trp K) (grow q b k).

Lemma rate_range q b : 0 <= q < 1 -> 0 < b <= 1 -> 0 <= 1 - b * (1 - q) < 1.
Proof. intros. nra. Qed.
Lemma pow_range r k : 0 <= r < 1 -> 0 <= r ^ k <= 1.
Proof. intros H. induction k; cbn [pow]; [lra|]. nra. Qed.
Lemma err_range q b k : 0 <= q < 1 -> 0 < b <= 1 -> 0 <= err q b k <= q.
Proof. intros H1 H2. pose proof (pow_range _ k (rate_range q b H1 H2)). unfold err. nra. Qed.
Lemma grow_pos q b k : 0 <= q < 1 -> 0 < b <= 1 -> 1 <= grow q b k.
Proof. intros H1 H2. induction k; cbn [grow]; [lra|]. pose proof (err_range q b k H1 H2). nra. Qed.

Lemma good_next d K K' A q b (be : @F SC) k :
  0 <= q < 1 -> 0 < b <= 1 -> b <= toR be <= 1 -> symmetric d A ->
  eqm d K' (mmm d K (fun i j => fadd (ident i j) (fmul (fdiv be (fadd f1 f1)) (defect d K A i j)))) ->
  good d K A q b k -> good d K' A q b (S k).
Proof.
  intros Hq Hb Hbe SA HK (G1 & G2 & G3). pose proof (err_range q b k Hq Hb) as He. pose proof (grow_pos q b k Hq Hb) as Hg.
  assert (B0 : 0 <= toR be <= 1) by lra. assert (E0 : 0 <= err q b k <= 1) by lra. assert (P0 : 0 <= grow q b k) by lra.
  destruct (newton_growth d K K' A be (err q b k) (grow q b k) SA HK B0 (proj1 E0) P0 G1 G2 G3) as [S1 S2].
  split; [|split; assumption].
  pose proof (newton_small d K K' A be (err q b k) SA HK B0 E0 G1) as S3.
  eapply small_le; [|exact S3]. unfold err at 3. cbn [pow].
  replace (q * ((1 - b * (1 - q)) * (1 - b * (1 - q)) ^ k)) with (err q b k * (1 - b * (1 - q))) by (unfold err; ring).
  apply Rmult_le_compat_l; [lra|]. nra.
Qed.

Lemma grow_exp q b k : 0 <= q < 1 -> 0 < b <= 1 -> grow q b k * grow q b k <= exp (q / (b * (1 - q))).
Proof.
  intros Hq Hb. set (r := 1 - b * (1 - q)). pose proof (rate_range q b Hq Hb) as Hr. fold r in Hr.
  assert (P : grow q b k <= exp (q / 2 * ((1 - r ^ k) / (1 - r)))).
  { induction k as [|k IH].
    - cbn [grow pow]. replace (q / 2 * ((1 - 1) / (1 - r))) with 0 by (field; lra). rewrite exp_0. lra.
    - cbn [grow]. replace (q / 2 * ((1 - r ^ S k) / (1 - r))) with (q / 2 * ((1 - r ^ k) / (1 - r)) + err q b k / 2).
      + rewrite exp_plus. pose proof (err_range q b k Hq Hb). pose proof (grow_pos q b k Hq Hb).
        apply Rmult_le_compat; [lra|lra|exact IH|]. pose proof (exp_ineq1_le (err q b k / 2)). lra.
      + unfold err. fold r. cbn [pow]. field. lra. }
  pose proof (grow_pos q b k Hq Hb) as Hg.
  assert (Q : exp (q / 2 * ((1 - r ^ k) / (1 - r))) <= exp (q / 2 / (1 - r))).
  { assert (X : q / 2 * ((1 - r ^ k) / (1 - r)) <= q / 2 / (1 - r)).
    { unfold Rdiv. rewrite (Rmult_assoc q (/ 2)). rewrite (Rmult_assoc q (/ 2) (/ (1 - r))).
      pose proof (pow_range r k Hr). assert (0 < / (1 - r)) by (apply Rinv_0_lt_compat; lra).
      apply Rmult_le_compat_l; [lra|]. apply Rmult_le_compat_l; [lra|]. rewrite <- (Rmult_1_l (/ (1 - r))) at 2. apply Rmult_le_compat_r; lra. }
    destruct X as [X|X]; [left; apply exp_increasing; exact X|right; rewrite X; reflexivity]. }
  replace (q / (b * (1 - q))) with (q / 2 / (1 - r) + q / 2 / (1 - r)) by (unfold r; field; nra). rewrite exp_plus. apply Rmult_le_compat; lra.
Qed.

Lemma good_inverse d K A X q b k :
  0 <= q < 1 -> 0 < b <= 1 -> good d K A q b k -> eqm d (mmm d A X) ident ->
  forall i j, (i < d)%nat -> (j < d)%nat -> Rabs (toR (mmt d K K i j) - toR (X i j)) <= exp (q / (b * (1 - q))) * (q / (1 - q)) * (1 - b * (1 - q)) ^ k.
Proof.
  intros Hq Hb (G1 & G2 & G3) HX i j Hi Hj. pose proof (err_range q b k Hq Hb) as He. pose proof (grow_pos q b k Hq Hb) as Hg.
  pose proof (defect_inverse d K A X (err q b k) (grow q b k) G1 ltac:(lra) ltac:(lra) G2 G3 HX i j Hi Hj) as B.
  eapply Rle_trans; [exact B|]. pose proof (grow_exp q b k Hq Hb) as Ge.
  replace (exp (q / (b * (1 - q))) * (q / (1 - q)) * (1 - b * (1 - q)) ^ k) with (exp (q / (b * (1 - q))) * (err q b k * / (1 - q))) by (unfold err; field; lra).
  unfold Rdiv. rewrite Rmult_assoc.
  assert (0 < / (1 - err q b k)) by (apply Rinv_0_lt_compat; lra).
  apply Rmult_le_compat; [nra|nra|exact Ge|]. apply Rmult_le_compat_l; [lra|]. apply Rinv_le_contravar; lra.
Qed.

(** ** Histories *)

Lemma due_dueb c m st : due c m st -> dueb c m st = true.
Proof. intros (g & Eg & N & Z). unfold dueb. rewrite Eg, Z. destruct (Nat.eqb_spec (g_T g) 0); [contradiction|reflexivity]. Qed.

Definition rates (b : R) (x : @F SC) : Prop := b <= toR x <= 1.

Lemma run_good c ty es st m cK cC dK dC M UK UC lam q b k :
  cfg_ok c -> tys_ok c ty -> all_typed c ty st -> wf_run c es st -> In m (c_mods c) -> ty m = (cK, cC, dK, dC) -> simple cK -> simple cC ->
  no_failed_step c es st -> tracks cK cC dK dC (s_slots st (m_key m)) M -> steady c m dK dC UK UC lam (rates b) es st M ->
  symmetric dK UK -> symmetric dC UC -> 0 <= q < 1 -> 0 < b <= 1 ->
  (forall K, sl_K (s_slots st (m_key m)) = Some K -> good dK (ent K) (damp cK dK UK lam) q b k) ->
  (forall C, sl_C (s_slots st (m_key m)) = Some C -> good dC (ent C) (damp cC dC UC lam) q b k) ->
  let k' := (k + updates_of c m es st)%nat in
  (forall K, sl_K (s_slots (run c es st) (m_key m)) = Some K -> good dK (ent K) (damp cK dK UK lam) q b k') /\
  (forall C, sl_C (s_slots (run c es st) (m_key m)) = Some C -> good dC (ent C) (damp cC dC UC lam) q b k').
Proof.
  intros OK TO TA W Hm Et SK SC' NF TR SD YK YC Hq Hb. revert st M k TA W NF TR SD.
  induction es as [|e es IH]; intros st M k TA W NF TR SD GK GC k'.
  { unfold k'. cbn [updates_of run]. rewrite Nat.add_0_r. split; assumption. }
  destruct W as [W1 W2]. destruct NF as [NF1 NF2].
  pose proof (event_all_typed c ty e st TO (proj1 OK) TA W1) as TA'.
  pose proof (event_seen c ty e st m cK cC dK dC M OK TO TA W1 Hm Et (simple_nonblock _ SK) (simple_nonblock _ SC') NF1 TR) as TR'.
  assert (SD' : steady c m dK dC UK UC lam (rates b) es (fst (event_op c e st)) (seen_event c m e st M)).
  { intros es1 es2 g prev cur E. cbv zeta. apply (SD (e :: es1) es2 g prev cur). rewrite E. reflexivity. }
  set (u := match e with EStep _ => if (negb (s_inf st) && dueb c m st)%bool then 1%nat else O | _ => O end).
  assert (KU : k' = (k + u + updates_of c m es (fst (event_op c e st)))%nat) by (unfold k', u; cbn [updates_of]; rewrite Nat.add_assoc; reflexivity).
  assert (GOOD : (forall K, sl_K (s_slots (fst (event_op c e st)) (m_key m)) = Some K -> good dK (ent K) (damp cK dK UK lam) q b (k + u)) /\
    (forall C, sl_C (s_slots (fst (event_op c e st)) (m_key m)) = Some C -> good dC (ent C) (damp cC dC UC lam) q b (k + u))).
  { assert (D : e = EStep false /\ s_inf st = false /\ due c m st \/ u = O /\
      sl_K (s_slots (fst (event_op c e st)) (m_key m)) = sl_K (s_slots st (m_key m)) /\ sl_C (s_slots (fst (event_op c e st)) (m_key m)) = sl_C (s_slots st (m_key m))).
    { destruct (C23_change_only_when_due_lemma c e st m (proj1 OK) Hm) as [(S1 & S2 & _)|D]; [|left; exact D].
      unfold u. destruct e as [| | | | |b0|]; try (right; split; [reflexivity|split; assumption]).
      destruct b0; [discriminate (NF1 true eq_refl)|]. destruct (s_inf st) eqn:Ei; [right; split; [reflexivity|split; assumption]|].
      destruct (dueb c m st) eqn:Ed; [left|right; split; [reflexivity|split; assumption]].
      split; [reflexivity|]. split; [reflexivity|apply dueb_due; exact Ed]. }
    destruct D as [(Ee & Ei & Du)|(U0 & S1 & S2)]; [|rewrite U0, Nat.add_0_r, S1, S2; split; assumption].
    assert (U1 : u = 1%nat) by (unfold u; rewrite Ee, Ei, (due_dueb _ _ _ Du); reflexivity). rewrite U1, Nat.add_1_r.
    pose proof (NF1 _ Ee) as OKs. rewrite Ee in OKs |- *. cbn [event_op] in OKs |- *.
    destruct (step c false st) as [st' r] eqn:Es. cbn [fst snd] in OKs |- *. subst r.
    destruct (due_update_doc c ty st st' m cK cC dK dC OK TO TA Hm Et (simple_nonblock _ SK) (simple_nonblock _ SC') Ei Du Es)
      as (g & K0 & C0 & _ & _ & _ & _ & _ & _ & _ & _ & prev & cur & F1 & F2 & F3 & _ & _ & F6 & F7 & _).
    destruct (SD [] es g prev cur (f_equal (fun x => x :: es) Ee) Ei Du F1 F6 F7) as (Gk & Gn & Ga & Gd & Pb & E1 & E2).
    destruct (due_newton c ty st st' m cK cC dK dC M UK UC lam g prev cur OK TO TA Hm Et SK SC' TR Ei Du Es F1 F6 F7 Gk Gn Ga Gd E1 E2)
      as (K & C & K' & C' & H1 & H2 & H3 & H4 & _ & _ & _ & _ & N1 & N2).
    rewrite H3, H4. split.
    - intros ? [= <-]. eapply (good_next dK (ent K) (ent K') _ q b); [exact Hq|exact Hb|exact Pb|apply damp_sym; assumption|exact N1|apply GK; exact H1].
    - intros ? [= <-]. eapply (good_next dC (ent C) (ent C') _ q b); [exact Hq|exact Hb|exact Pb|apply damp_sym; assumption|exact N2|apply GC; exact H2]. }
  rewrite KU. cbn [run]. apply (IH (fst (event_op c e st)) (seen_event c m e st M) (k + u)%nat TA' W2 NF2 TR' SD').
  2: intros C EC; refine (proj2 GOOD C EC). intros K EK. refine (proj1 GOOD K EK).
Qed.

End Converge.
