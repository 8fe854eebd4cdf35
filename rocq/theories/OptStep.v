(** Lemmas: what a successful step and a backward hook do to one module, with the documented
    formulas. *)

From Coq Require Import List Arith Lia Bool ZArith Field.
From Verif Require Import Scalar Res Tensor TensorFacts Structures StructSpec StructDense StructOps StructAct OptimUtils UtilsFacts ProofUtils Optimizer Construct OptState OptRun OptSpec OptFacts OptConsume OptDir OptTyped.
Import ListNotations.

Section Step.
Context {SC : Scalar} {FL : FieldLaws SC}.
Add Field Ffst : F_ft.
Open Scope F_scope.

Definition nonblock (c : cls) : Prop := match c with CBlock _ => False | _ => True end.

Lemma rent_tr c n s : nonblock c -> valid c n s -> forall i j, rent s i j = ent s j i.
Proof. intros NB V. apply (rent_nonblock c n s V). intros D ->. exact NB. Qed.

Lemma nodup_r {A} (a b : list A) : NoDup (a ++ b) -> NoDup b.
Proof. induction a; intros H; [exact H|]. cbn in H. apply NoDup_cons_iff in H as [_ H]. exact (IHa H). Qed.
Lemma nodup_l {A} (a b : list A) : NoDup (a ++ b) -> NoDup a.
Proof.
  induction a; intros H; [constructor|]. cbn in H. apply NoDup_cons_iff in H as [H1 H2]. constructor; [|exact (IHa H2)].
  intros I. apply H1. apply in_app_iff. left. exact I.
Qed.

(** ** A successful step, one module *)

Lemma step_parts c st st' m :
  cfg_ok c -> In m (c_mods c) -> s_inf st = false -> step c false st = (st', Ok tt) ->
  exists cur g scales s' N w b,
    step_scale st = Ok cur /\ get_grad_scale scales (Z.of_nat (s_steps st)) = Ok cur /\
    get_grad_scale scales (Z.of_nat (s_steps st) - 1) = get_grad_scale (s_scales st) (Z.of_nat (s_steps st) - 1) /\
    get_group c (s_groups st) m = Ok g /\
    update_slots g (m_layer m) (s_steps st) scales (s_slots st (m_key m)) = (s', Ok tt) /\
    s_slots st' (m_key m) = s' /\
    nat_grad_matrix (m_layer m) (grad_data (s_par st (m_weight m))) (option_map (fun b => grad_data (s_par st b)) (m_bias m))
      (Ok cur) (lookup (sl_K s')) (lookup (sl_C s')) = Ok N /\
    split_matrix (m_layer m) N = Ok (w, b) /\
    param_step g w (s_par st (m_weight m)) = (s_par st' (m_weight m), Ok tt) /\
    match m_bias m, b with
    | Some p, Some d => param_step g d (s_par st p) = (s_par st' p, Ok tt)
    | Some p, None => s_par st' p = s_par st p
    | None, _ => True
    end.
Proof.
  intros OK Hm Hi H. destruct (step_success c st st' Hi H) as (st1 & st2 & E1 & E2 & ->).
  pose proof (ensure_scale_frame _ _ _ E1) as ((F1 & F2 & F3 & F4 & _) & F6 & F7). specialize (F7 eq_refl).
  destruct (step_all_view c st1 st2 m OK Hm E2) as (st3 & E3 & E4 & E5).
  assert (ND : NoDup (mod_params m)).
  { destruct OK as [_ ND]. apply in_split in Hm as (l1 & l2 & El). rewrite El, flat_map_app in ND. cbn [flat_map] in ND.
    exact (nodup_l _ _ (nodup_r _ _ ND)). }
  apply (step_module_parts c m st1 st3 ND) in E3 as (g & s' & N & w & b & P1 & P2 & P3 & P4 & P5 & P6 & P7).
  rewrite F1, F2, F3, F4 in *.
  assert (EP : forall p, In p (mod_params m) -> s_par (finish st2) p = s_par st3 p) by (intros p Hp; cbn; apply E5; exact Hp).
  destruct (step_scale st) as [cur|] eqn:Ec.
  2:{ rewrite F7 in P4. unfold nat_grad_matrix in P4. apply bind_ok in P4 as (? & _ & P4). apply bind_ok in P4 as (? & _ & P4).
      apply bind_ok in P4 as (? & _ & P4). cbn [bind] in P4. discriminate. }
  exists cur, g, (s_scales st1), s', N, w, b. split; [reflexivity|]. split; [exact F7|]. split; [apply F6; lia|]. split; [exact P1|].
  split; [exact P2|]. split; [cbn; rewrite E4; exact P3|]. split; [rewrite <- F7; exact P4|]. split; [exact P5|].
  split; [rewrite EP by (left; reflexivity); exact P6|].
  destruct (m_bias m) as [p|] eqn:Eb; [|exact I].
  assert (Ip : In p (mod_params m)) by (unfold mod_params; rewrite Eb; right; left; reflexivity).
  rewrite EP by exact Ip. exact P7.
Qed.

(** ** The update of the entries, inverted *)

Ltac open_upd Eu := unfold update_slots; unfold sbind at 1, lift at 1; rewrite Eu; cbn [negb]; unfold sbind, entry, modify, lift.

Lemma update_ok_inv g l n scales s s' cK cC dK dC :
  usable cK dK -> usable cC dC -> preconditioner_dims l = Ok (dK, dC) -> typed cK cC dK dC s ->
  is_update_step g n = Ok true -> update_slots g l n scales s = (s', Ok tt) ->
  exists HK HC prev cur, sl_HK s = Some HK /\ sl_HC s = Some HC /\
    get_grad_scale scales (Z.of_nat n - 1) = Ok prev /\ get_grad_scale scales (Z.of_nat n) = Ok cur /\ cur <> 0 /\
    moms_ready g cK cC dK dC s.
Proof.
  intros UK UC Ed T Eu H. pose proof UK as (OK & DK & HhK & NK). pose proof UC as (OC & DC & HhC & NC).
  pose proof T as [(K & EK & VK) (C & EC & VC) TmK TmC THK THC].
  revert H. open_upd Eu. rewrite EK, EC. cbn [lookup].
  destruct (sl_HK s) as [HK|] eqn:EHK; cbn [lookup set_HK sl_HC]; [|discriminate].
  destruct (sl_HC s) as [HC|] eqn:EHC; cbn [lookup]; [|discriminate].
  destruct (get_grad_scale scales (Z.of_nat n - 1)) as [prev|] eqn:Ep; [|discriminate].
  destruct (get_grad_scale scales (Z.of_nat n)) as [cur|] eqn:Ec; [|discriminate].
  unfold grad_unscaling. destruct (feqb_spec cur 0) as [[_ ->]|[N0 ->]]; [discriminate|].
  destruct (new_momenta_act g l K C HK HC (prev / (cur * cur)) cK cC dK dC UK UC Ed VK VC (THK _ eq_refl) (THC _ eq_refl))
      as (nK & nC & En & VnK & VnC & _). rewrite En.
  intros H. exists HK, HC, prev, cur. do 5 (split; [try reflexivity; assumption|]).
  destruct (feqb_spec (g_alpha1 g) 0) as [[Ea Eb]|[Na Eb]]; [left; exact Ea|]. right.
  unfold apply_momenta in H. rewrite Eb in H. unfold sbind, entry, modify, lift in H. cbn [set_HC set_HK sl_mC sl_mK] in H.
  destruct (sl_mC s) as [mC|] eqn:EmC; cbn [lookup] in H; [|discriminate].
  destruct (add_ nC mC (g_alpha1 g)) as [|]; [|discriminate].
  destruct (sl_mK s) as [mK|] eqn:EmK; cbn [lookup] in H; [|discriminate].
  exists mK, mC. auto.
Qed.

Lemma half_mscale g : half (g_normalize g) (g_alpha1 g) = mscale g.
Proof. unfold half, mscale, two.
  assert (1 + 1 <> 0) by (intros E; apply (fofnat_neq0 2); [discriminate|]; transitivity (1 + 1); [cbn; ring|exact E]). destruct (g_normalize g); field; assumption. Qed.

Lemma gram_tmm n c s : nonblock c -> valid c n s -> forall i j, gram n (rent s) i j = tmm n (ent s) (ent s) i j.
Proof. intros NB V i j. unfold gram, tmm. apply sum_ext. intros k _. rewrite !(rent_tr c n s NB V). reflexivity. Qed.

(** ** The documented update *)

Lemma due_update_doc c ty st st' m cK cC dK dC :
  cfg_ok c -> tys_ok c ty -> all_typed c ty st -> In m (c_mods c) -> ty m = (cK, cC, dK, dC) -> nonblock cK -> nonblock cC ->
  s_inf st = false -> due c m st -> step c false st = (st', Ok tt) ->
  let s := s_slots st (m_key m) in let s' := s_slots st' (m_key m) in
  exists g K C HK HC K' C' mK mC bK bC prev cur,
    get_group c (s_groups st) m = Ok g /\
    sl_K s = Some K /\ sl_C s = Some C /\ sl_HK s = Some HK /\ sl_HC s = Some HC /\
    get_grad_scale (s_scales st) (Z.of_nat (s_steps st) - 1) = Ok prev /\ step_scale st = Ok cur /\ cur <> 0 /\
    s' = mkSlots (Some K') (Some C') (if feqb (g_alpha1 g) 0 then sl_mK s else Some mK) (if feqb (g_alpha1 g) 0 then sl_mC s else Some mC) None None /\
    valid cK dK K' /\ valid cC dC C' /\ valid cK dK mK /\ valid cC dC mC /\
    eqm dK (ent mK) (doc_mK (g_kfac_like g) (g_normalize g) (g_damping g) (g_alpha1 g) (prev / (cur * cur)) dK dC (proj cK dK)
       (ent HK) (ent HC) (ent K) (ent C) (oldm (sl_mK s))) /\
    eqm dC (ent mC) (doc_mC (g_kfac_like g) (g_normalize g) (g_damping g) (g_alpha1 g) (prev / (cur * cur)) dK dC (proj cC dC)
       (ent HK) (ent HC) (ent K) (ent C) (oldm (sl_mC s))) /\
    normalized_lr g (lr_cov_at g (s_steps st)) mK = Ok bK /\ normalized_lr g (lr_cov_at g (s_steps st)) mC = Ok bC /\
    eqm dK (ent K') (precond_of dK (ent K) (ent mK) bK) /\
    eqm dC (ent C') (precond_of dC (ent C) (ent mC) bC).
Proof.
  intros OK TO [TA _] Hm Et NBK NBC Hi (g & Eg & HT & Ht) H s s'.
  pose proof (TO m Hm) as TOm. pose proof (TA m Hm) as T. unfold mod_typed in T. rewrite Et in TOm, T. destruct TOm as (UK & UC & Ed).
  destruct (step_parts c st st' m OK Hm Hi H) as (cur & g' & scales & s2 & N & w & b & P1 & P2 & P3 & P4 & P5 & P6 & _).
  rewrite Eg in P4. injection P4 as <-. fold s in P5, T. fold s' in P6. subst s2.
  destruct (update_ok_inv g _ _ _ _ _ _ _ _ _ UK UC Ed T (due_update g _ HT Ht) P5) as (HK & HC & prev & cur' & EHK & EHC & Ep & Ec & Nc & R).
  rewrite P2 in Ec. injection Ec as <-. rewrite P3 in Ep.
  pose proof T as [(K & EK & VK) (C & EC & VC) _ _ THK THC].
  destruct (update_slots_act g (m_layer m) (s_steps st) scales s cK cC dK dC K C HK HC prev cur UK UC Ed HT Ht EK EC EHK EHC VK VC (THK _ EHK) (THC _ EHC) R
     (eq_trans P3 Ep) P2 Nc) as (K' & C' & mK & mC & bK & bC & E & V1 & V2 & V3 & V4 & B1 & B2 & H1 & H2 & H3 & H4).
  rewrite P5 in E. injection E as E.
  exists g, K, C, HK, HC, K', C', mK, mC, bK, bC, prev, cur.
  do 13 (split; [assumption|]).
  assert (TK : trace dK (tmm dK (ent K) (ent K)) = trace dK (gram dK (rent K))) by (unfold trace; apply sum_ext; intros; rewrite (gram_tmm dK cK K NBK VK); reflexivity).
  assert (TC : trace dC (tmm dC (ent C) (ent C)) = trace dC (gram dC (rent C))) by (unfold trace; apply sum_ext; intros; rewrite (gram_tmm dC cC C NBC VC); reflexivity).
  assert (PK : forall i j, (i < dK)%nat -> (j < dK)%nat -> proj cK dK (tmm dK (ent K) (ent K)) i j = proj cK dK (gram dK (rent K)) i j)
    by (intros; apply proj_ext; try assumption; intros; symmetry; apply (gram_tmm dK cK K NBK VK)).
  assert (PC : forall i j, (i < dC)%nat -> (j < dC)%nat -> proj cC dC (tmm dC (ent C) (ent C)) i j = proj cC dC (gram dC (rent C)) i j)
    by (intros; apply proj_ext; try assumption; intros; symmetry; apply (gram_tmm dC cC C NBC VC)).
  split; [|split].
  - intros i j Hi' Hj. rewrite H1 by assumption. unfold doc_mK, momentum_of. rewrite half_mscale, TC, PK by assumption.
    unfold hweight, dweight. reflexivity.
  - intros i j Hi' Hj. rewrite H2 by assumption. unfold doc_mC, momentum_of. rewrite half_mscale, TK, PC by assumption.
    unfold cweight, dweight. reflexivity.
  - auto.
Qed.

(** ** The direction *)

(** The gradients of the module's parameters, with the parameters' shapes. *)
Definition mod_grads (m : modul) (st : state) (wg : tensor) (bg : option tensor) : Prop :=
  p_grad (s_par st (m_weight m)) = Some wg /\ shape wg = weight_shape (m_layer m) /\
  match m_bias m, bg with
  | Some p, Some b => p_grad (s_par st p) = Some b /\ shape b = [n_out (m_layer m)] /\ has_bias (m_layer m) = true
  | None, None => has_bias (m_layer m) = false
  | _, _ => False
  end.

Lemma dims_supported l dK dC : preconditioner_dims l = Ok (dK, dC) -> supported l.
Proof. destruct l; discriminate. Qed.

(** What [_compute_natural_gradient] returns in the step from [st] to [st']. *)
Definition direction (m : modul) (st st' : state) : res (tensor * option tensor) :=
  let* N := nat_grad_matrix (m_layer m) (grad_data (s_par st (m_weight m))) (option_map (fun b => grad_data (s_par st b)) (m_bias m))
      (step_scale st) (lookup (sl_K (s_slots st' (m_key m)))) (lookup (sl_C (s_slots st' (m_key m)))) in
  split_matrix (m_layer m) N.

(** The tensors subtracted from weight and bias, as a matrix. *)
Lemma direction_act c ty st st' m cK cC dK dC wg bg cur :
  cfg_ok c -> tys_ok c ty -> all_typed c ty st -> In m (c_mods c) -> ty m = (cK, cC, dK, dC) ->
  s_inf st = false -> step c false st = (st', Ok tt) -> mod_grads m st wg bg -> step_scale st = Ok cur -> cur <> 0 ->
  exists g K C G w b,
    direction m st st' = Ok (w, b) /\
    get_group c (s_groups st) m = Ok g /\
    sl_K (s_slots st' (m_key m)) = Some K /\ valid cK dK K /\ sl_C (s_slots st' (m_key m)) = Some C /\ valid cC dC C /\
    grad_matrix (m_layer m) wg bg = Ok G /\ shape G = [dC; dK] /\
    grad_matrix (m_layer m) w b = Ok (tab2 dC dK (dir_of dC dK (ent C) (rent C) (ent K) (rent K) (get2 G) cur)) /\
    shape w = weight_shape (m_layer m) /\
    match b with Some b => has_bias (m_layer m) = true /\ shape b = [n_out (m_layer m)] | None => has_bias (m_layer m) = false end /\
    param_step g w (s_par st (m_weight m)) = (s_par st' (m_weight m), Ok tt) /\
    match m_bias m, b with
    | Some p, Some d => param_step g d (s_par st p) = (s_par st' p, Ok tt)
    | None, None => True
    | _, _ => False
    end.
Proof.
  intros OK TO TA Hm Et Hi H (Ew & Sw & Eb) Ecur Nc.
  assert (TA' : all_typed c ty st').
  { pose proof (event_all_typed c ty (EStep false) st TO (proj1 OK) TA I) as T. cbn [event_op] in T. rewrite H in T. exact T. }
  pose proof (TO m Hm) as TOm. destruct TA' as [TA' _]. pose proof (TA' m Hm) as T. unfold mod_typed in T. rewrite Et in TOm, T. destruct TOm as (UK & UC & Ed).
  destruct (step_parts c st st' m OK Hm Hi H) as (cur' & g & scales & s2 & N & w & b & P1 & P2 & P3 & P4 & P5 & P6 & P7 & P8 & P9 & P10).
  rewrite Ecur in P1. injection P1 as <-. subst s2.
  assert (ED : direction m st st' = Ok (w, b)) by (unfold direction; rewrite Ecur, P7; exact P8).
  destruct T as [(K & EK & VK) (C & EC & VC) _ _ _ _]. rewrite EK, EC in P7. cbn [lookup] in P7.
  unfold grad_data at 1 in P7. rewrite Ew in P7.
  assert (Ebg : option_map (fun b => grad_data (s_par st b)) (m_bias m) = option_map Ok bg).
  { destruct (m_bias m) as [p|], bg as [bg|]; try contradiction; [|reflexivity]. cbn. unfold grad_data. rewrite (proj1 Eb). reflexivity. }
  rewrite Ebg in P7. pose proof (dims_supported _ _ _ Ed) as Hs.
  assert (Hb : match bg with Some b => has_bias (m_layer m) = true /\ shape b = [n_out (m_layer m)] | None => has_bias (m_layer m) = false end).
  { destruct (m_bias m), bg; try contradiction; [split; apply Eb|exact Eb]. }
  destruct (C49_gradient_matrix_lemma (m_layer m) wg bg Hs Sw Hb) as (G & EG & DG & SG & _ & _ & _).
  rewrite Ed in DG. injection DG as D1 D2. rewrite <- D1, <- D2 in SG.
  rewrite (nat_grad_act (m_layer m) wg bg cur K C cK cC dK dC G EG SG Nc UK UC VK VC) in P7. injection P7 as <-.
  pose proof Ed as Ed'. rewrite (C49_dims_lemma _ Hs) in Ed'. injection Ed' as EdK EdC.
  match type of P8 with split_matrix _ ?N = _ => destruct (split_any (m_layer m) N Hs) as (w' & b' & ES & EGM & Sw' & Sb') end.
  { cbn. rewrite EdK, EdC. reflexivity. }
  rewrite P8 in ES. injection ES as <- <-.
  exists g, K, C, G, w, b. do 12 (split; [assumption|]).
  destruct (m_bias m), b, bg; try contradiction; try exact I; try exact P10.
  - rewrite Sb' in Eb. destruct Eb as (_ & _ & D). discriminate.
  - destruct Sb' as [Sb' _]. congruence.
Qed.

Lemma direction_doc c ty st st' m cK cC dK dC wg bg cur :
  cfg_ok c -> tys_ok c ty -> all_typed c ty st -> In m (c_mods c) -> ty m = (cK, cC, dK, dC) -> nonblock cK -> nonblock cC ->
  s_inf st = false -> step c false st = (st', Ok tt) -> mod_grads m st wg bg -> step_scale st = Ok cur -> cur <> 0 ->
  exists g K C G w b,
    direction m st st' = Ok (w, b) /\
    get_group c (s_groups st) m = Ok g /\
    sl_K (s_slots st' (m_key m)) = Some K /\ sl_C (s_slots st' (m_key m)) = Some C /\
    grad_matrix (m_layer m) wg bg = Ok G /\ shape G = [dC; dK] /\
    grad_matrix (m_layer m) w b = Ok (tab2 dC dK (fun i j => mmm dC (mmt dC (ent C) (ent C)) (mmm dK (get2 G) (mmt dK (ent K) (ent K))) i j / cur)) /\
    shape w = weight_shape (m_layer m) /\
    match b with Some b => has_bias (m_layer m) = true /\ shape b = [n_out (m_layer m)] | None => has_bias (m_layer m) = false end /\
    dot w wg + odot b bg =
      sum dC (fun a => sum dK (fun b => let v := sum dC (fun k => sum dK (fun q => ent C k a * get2 G k q * ent K q b)) in v * v)) / cur /\
    param_step g w (s_par st (m_weight m)) = (s_par st' (m_weight m), Ok tt) /\
    match m_bias m, b with
    | Some p, Some d => param_step g d (s_par st p) = (s_par st' p, Ok tt)
    | None, None => True
    | _, _ => False
    end.
Proof.
  intros OK TO TA Hm Et NBK NBC Hi H MG Ecur Nc.
  destruct (direction_act c ty st st' m cK cC dK dC wg bg cur OK TO TA Hm Et Hi H MG Ecur Nc)
    as (g & K & C & G & w & b & D0 & D1 & D2 & VK & D3 & VC & D4 & D5 & D6 & D7 & D8 & D9 & D10).
  assert (ED : tab2 dC dK (dir_of dC dK (ent C) (rent C) (ent K) (rent K) (get2 G) cur) =
     tab2 dC dK (dir_of dC dK (ent C) (fun a b => ent C b a) (ent K) (fun a b => ent K b a) (get2 G) cur)).
  { apply tab2_ext. intros i j Hi' Hj. unfold dir_of. apply sum_ext. intros a Ha. f_equal. apply sum_ext. intros k Hk.
    rewrite (rent_tr cC dC C NBC VC). f_equal. apply sum_ext. intros q Hq. f_equal. apply sum_ext. intros r Hr.
    rewrite (rent_tr cK dK K NBK VK). reflexivity. }
  rewrite ED in D6.
  exists g, K, C, G, w, b. do 6 (split; [assumption|]). split.
  { rewrite D6. f_equal. apply tab2_ext. intros i j Hi' Hj. apply dir_of_transposes. exact Nc. }
  split; [exact D7|]. split; [exact D8|]. split; [|auto].
  specialize (TO m Hm). rewrite Et in TO. destruct TO as (_ & _ & Ed). pose proof (dims_supported _ _ _ Ed) as Hs.
  destruct MG as (Ew & Sw & Eb).
  assert (Hb : match bg with Some b => has_bias (m_layer m) = true /\ shape b = [n_out (m_layer m)] | None => has_bias (m_layer m) = false end).
  { destruct (m_bias m), bg; try contradiction; [split; apply Eb|exact Eb]. }
  rewrite (dot_matrix (m_layer m) w b wg bg _ G Hs D7 Sw D8 Hb D6 D4).
  etransitivity; [|exact (dir_of_inner dC dK (ent C) (ent K) (get2 G) cur Nc)].
  rewrite (rows_of _ dC [dK]), (cols_of _ dC dK []) by reflexivity.
  apply sum_ext. intros i Hi'. apply sum_ext. intros j Hj. rewrite get2_tab2 by assumption. reflexivity.
Qed.

(** ** The statistics *)

(** A^T A K-conjugated: (A K)^T (A K), for an N x d matrix A. *)
Definition conj (N d : nat) (A K : mat) : mat := tmm N (mmm d A K) (mmm d A K).

Lemma from_inner_conj c d K A N :
  usable c d -> nonblock c -> valid c d K -> shape A = [N; d] -> N <> O ->
  exists r, from_inner K (Some (tr A)) = Ok r /\ valid c d r /\ eqm d (ent r) (proj c d (conj N d (get2 A) (ent K))).
Proof.
  intros (OK & DK & _) NB V SA NN.
  assert (ST : shape (tr A) = [d; N]) by (rewrite shape_tr, (rows_of _ _ _ SA), (cols_of _ _ _ _ SA); reflexivity).
  destruct (from_inner_some_act c d K (tr A) N OK DK V ST) as (r & Er & Vr & Hr); [destruct c; cbn; auto|].
  exists r. split; [exact Er|]. split; [exact Vr|]. intros i j Hi Hj. rewrite Hr by assumption.
  apply proj_ext; try assumption. intros a b Ha Hb. unfold gram, conj, tmm, mmm. apply sum_ext. intros k Hk.
  f_equal; apply sum_ext; intros q Hq; rewrite (rent_tr c d K NB V); unfold tr;
    rewrite get2_tab2 by (rewrite ?(cols_of _ _ _ _ SA), ?(rows_of _ _ _ SA); assumption); ring.
Qed.

Context {SL : SqrtLaws SC}.

Lemma backward_doc c ty st m x gout out cK cC dK dC A B :
  tys_ok c ty -> all_typed c ty st -> In m (c_mods c) -> ty m = (cK, cC, dK, dC) -> nonblock cK -> nonblock cC ->
  s_pend st out = Some (m, x) -> fits (m_layer m) x gout ->
  forall g prev, get_group c (s_groups st) m = Ok g ->
  get_grad_scale (s_scales st) (Z.of_nat (s_steps st) - 1) = Ok prev -> fltb prev 0 = false -> prev <> 0 ->
  process_input x (m_layer m) (g_approx g) = Ok A ->
  process_grad_output gout (m_layer m) (g_loss g) (g_approx g) = Ok B ->
  let (st', r) := event_op c (EBackward out gout) st in
  r = Ok tt /\
  exists N K C hk hc, N <> O /\ shape A = [N; dK] /\ shape B = [N; dC] /\
    sl_K (s_slots st (m_key m)) = Some K /\ sl_C (s_slots st (m_key m)) = Some C /\
    st' = set_slots (upd (s_slots st) (m_key m) (set_HC (Some hc) (set_HK (Some hk) (s_slots st (m_key m))))) st /\
    valid cK dK hk /\ valid cC dC hc /\
    eqm dK (ent hk) (fun i j => oldm (sl_HK (s_slots st (m_key m))) i j + proj cK dK (conj N dK (get2 A) (ent K)) i j) /\
    eqm dC (ent hc) (fun i j => oldm (sl_HC (s_slots st (m_key m))) i j + proj cC dC (fun a b => conj N dC (get2 B) (ent C) a b / prev) i j).
Proof.
  intros TO [TA _] Hm Et NBK NBC EP F g prev Eg Epr Hpr Npr EA EB.
  pose proof (TO m Hm) as TOm. pose proof (TA m Hm) as T. unfold mod_typed in T. rewrite Et in TOm, T. destruct TOm as (UK & UC & Ed).
  destruct (process_shapes _ _ _ _ _ _ _ _ _ F Ed EA EB) as (N & NN & SA & SB).
  pose proof T as [(K & EK & VK) (C & EC & VC) _ _ THK THC].
  destruct (from_inner_conj cK dK K A N UK NBK VK SA NN) as (HK & EHK & VHK & HHK).
  assert (LB : exists B', (if feqb prev 1 then Ok B else if fltb prev 0 then Err ValueError else Ok (t_divs B (fsqrt prev))) = Ok B' /\
     shape B' = [N; dC] /\ forall i j, conj N dC (get2 B') (ent C) i j = conj N dC (get2 B) (ent C) i j / prev).
  { destruct (feqb prev 1) eqn:E1.
    - apply feqb_iff in E1. exists B. split; [reflexivity|]. split; [exact SB|]. intros i j. rewrite E1. field. apply f1_neq_0.
    - rewrite Hpr. eexists. split; [reflexivity|]. split; [exact SB|]. intros i j.
      assert (Ns : fsqrt prev <> 0). { intros E0. apply Npr. rewrite <- (fsqrt_sqr prev Hpr), E0. ring. }
      assert (Er : prev = fsqrt prev * fsqrt prev) by (symmetry; exact (fsqrt_sqr prev Hpr)).
      revert Ns Er. generalize (fsqrt prev). intros r Ns Er. rewrite Er.
      unfold conj, tmm. rewrite <- sum_div by (apply fmul_neq0; exact Ns). apply sum_ext. intros k Hk.
      assert (M : forall q, mmm dC (get2 (t_divs B r)) (ent C) k q = mmm dC (get2 B) (ent C) k q / r).
      { intros q. unfold mmm. rewrite <- sum_div by exact Ns. apply sum_ext. intros p Hp. unfold t_divs, t_map, get2.
        rewrite tget_tab by (rewrite SB; apply in_range2; assumption). field. exact Ns. }
      rewrite !M. field. exact Ns. }
  destruct LB as (B' & EB' & SB' & CB').
  destruct (from_inner_conj cC dC C B' N UC NBC VC SB' NN) as (HC & EHC & VHC & HHC).
  assert (EL : local_H g (m_layer m) (get_grad_scale (s_scales st) (Z.of_nat (s_steps st) - 1)) x gout (s_slots st (m_key m)) = Ok (HK, HC)).
  { unfold local_H. rewrite EA. cbn [bind]. rewrite EB. cbn [bind]. rewrite EK, EC. cbn [lookup bind]. rewrite EHK. cbn [bind].
    rewrite Epr. cbn [bind]. rewrite EB'. cbn [bind]. rewrite EHC. reflexivity. }
  destruct (store_H_typed HK HC _ _ _ _ _ UK UC T VHK VHC) as (hk & hc & ES & Vk & Vc & Hk & Hc).
  cbn [event_op]. unfold sbind at 1, getS at 1. rewrite EP. unfold accumulate_H_terms, sbind, getS, lift. rewrite Eg, EL.
  unfold on_slots. rewrite ES. split; [reflexivity|]. exists N, K, C, hk, hc. do 8 (split; [first [reflexivity|assumption]|]). split.
  - intros i j Hi Hj. rewrite Hk, HHK by assumption. reflexivity.
  - intros i j Hi Hj. rewrite Hc, HHC by assumption. f_equal. apply proj_ext; try assumption. intros. apply CB'.
Qed.

End Step.
