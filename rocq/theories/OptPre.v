(** Lemmas: what a single call does to the dictionary entries of one module, for successful and
    failing calls, and what the stored statistics are after any history. *)

From Coq Require Import List Arith Lia Bool ZArith Field.
From Verif Require Import Scalar Res Tensor TensorFacts Structures StructSpec StructDense StructOps StructAct OptimUtils UtilsFacts ProofUtils Optimizer Construct OptState OptRun OptSpec OptFacts OptConsume OptDir OptTyped OptStep.
Import ListNotations.

Section Pre.
Context {SC : Scalar} {FL : FieldLaws SC}.
Add Field Ffpre : F_ft.
Open Scope F_scope.

(** ** The entries of one module under one call *)

Inductive slot_change (c : cfg) (m : modul) (st : state) (e : event) (s' : slots) : Prop :=
| ch_same : s' = s_slots st (m_key m) -> slot_change c m st e s'
| ch_back out gout x g HK HC :
    e = EBackward out gout -> s_pend st out = Some (m, x) -> get_group c (s_groups st) m = Ok g ->
    local_H g (m_layer m) (get_grad_scale (s_scales st) (Z.of_nat (s_steps st) - 1)) x gout (s_slots st (m_key m)) = Ok (HK, HC) ->
    s' = fst (store_H HK HC (s_slots st (m_key m))) -> slot_change c m st e s'
| ch_drop : e = EStep false -> s_inf st = true -> s' = set_HC None (set_HK None (s_slots st (m_key m))) -> slot_change c m st e s'
| ch_update g scales :
    e = EStep false -> s_inf st = false -> get_group c (s_groups st) m = Ok g ->
    get_grad_scale scales (Z.of_nat (s_steps st)) = step_scale st ->
    (forall t, t <> Z.of_nat (s_steps st) -> get_grad_scale scales t = get_grad_scale (s_scales st) t) ->
    s' = fst (update_slots g (m_layer m) (s_steps st) scales (s_slots st (m_key m))) -> slot_change c m st e s'.

(** [step_module] changes the entries by [update_slots] and in no other way. *)
Lemma step_module_upd c m st :
  s_slots (fst (step_module c m st)) (m_key m) = s_slots st (m_key m) \/
  exists g, get_group c (s_groups st) m = Ok g /\
    s_slots (fst (step_module c m st)) (m_key m) = fst (update_slots g (m_layer m) (s_steps st) (s_scales st) (s_slots st (m_key m))).
Proof.
  set (P := fun a b : @state SC => s_slots b = s_slots a).
  assert (PR : forall a, P a a) by (intros a; reflexivity).
  assert (PT : forall a b c, P a b -> P b c -> P a c) by (unfold P; intros; congruence).
  assert (OP : forall p (f : SM pslot unit), keeps P (on_par p f)).
  { intros p f s0. unfold on_par. destruct (f (s_par s0 p)). reflexivity. }
  set (rest := let! '(w, b) := compute_natural_gradient c m in let! st := getS in let! g := lift (get_group c (s_groups st) m) in
     let! _ := on_par (m_weight m) (param_step g w) in match m_bias m, b with Some p, Some d => on_par p (param_step g d) | _, _ => ret tt end).
  assert (KP : keeps P rest).
  { unfold rest. apply keeps_bind; [exact PT| |].
    - unfold compute_natural_gradient. apply keeps_bind; [exact PT|apply keeps_getS; exact PR|]. intros s.
      apply keeps_bind; [exact PT|apply keeps_lift; exact PR|]. intros N. apply keeps_lift. exact PR.
    - intros [w b]. apply keeps_bind; [exact PT|apply keeps_getS; exact PR|]. intros s.
      apply keeps_bind; [exact PT|apply keeps_lift; exact PR|]. intros g0.
      apply keeps_bind; [exact PT|apply OP|]. intros _.
      destruct (m_bias m); [|apply keeps_ret; exact PR]. destruct b; [apply OP|apply keeps_ret; exact PR]. }
  assert (E : s_slots (fst (step_module c m st)) = s_slots (fst (update_preconditioner c m st))).
  { change (step_module c m st) with (sbind (update_preconditioner c m) (fun _ => rest) st). unfold sbind.
    destruct (update_preconditioner c m st) as [s1 [[]|e]]; [exact (KP s1)|reflexivity]. }
  rewrite E. unfold update_preconditioner, sbind, getS, lift.
  destruct (get_group c (s_groups st) m) as [g|] eqn:Eg; [|left; reflexivity]. right. exists g. split; [reflexivity|].
  unfold on_slots. destruct (update_slots _ _ _ _ _) as [s' r] eqn:Eu. cbn. apply upd_eq.
Qed.

Lemma steps_upd c l m st :
  NoDup (map m_key l) -> In m l ->
  let st' := fst (forS (step_module c) l st) in
  s_slots st' (m_key m) = s_slots st (m_key m) \/
  exists g, get_group c (s_groups st) m = Ok g /\
    s_slots st' (m_key m) = fst (update_slots g (m_layer m) (s_steps st) (s_scales st) (s_slots st (m_key m))).
Proof.
  revert st. induction l as [|a l IH]; intros st ND Hm; [contradiction|]. cbn [map] in ND. apply NoDup_cons_iff in ND as [N1 N2].
  cbn [forS]. unfold sbind. destruct (step_module c a st) as [s1 [[]|e]] eqn:E1.
  - pose proof (step_module_frame c a st) as F. rewrite E1 in F. cbn [fst] in F. destruct F as (A1 & A2 & A3 & _ & _ & _ & _ & A8 & _).
    destruct Hm as [->|Hm].
    + destruct (forS (step_module c) l s1) as [s2 r2] eqn:E2. apply steps_frame in E2 as (_ & _ & _ & _ & _ & _ & _ & B8 & _).
      cbn [fst]. rewrite B8 by exact N1. pose proof (step_module_upd c m st) as U. rewrite E1 in U. exact U.
    + assert (D : m_key m <> m_key a) by (intros D; apply N1; rewrite <- D; apply in_map; exact Hm).
      specialize (IH s1 N2 Hm). cbv zeta in IH. rewrite A1, A2, A3, A8 in IH by congruence. exact IH.
  - cbn [fst]. destruct Hm as [->|Hm].
    + pose proof (step_module_upd c m st) as U. rewrite E1 in U. exact U.
    + assert (D : m_key m <> m_key a) by (intros D; apply N1; rewrite <- D; apply in_map; exact Hm).
      pose proof (step_module_frame c a st) as F. rewrite E1 in F. cbn [fst] in F. destruct F as (_ & _ & _ & _ & _ & _ & _ & A8 & _).
      left. apply A8. congruence.
Qed.

Lemma event_slots c e st m :
  NoDup (map m_key (c_mods c)) -> In m (c_mods c) -> (forall out m' x, s_pend st out = Some (m', x) -> In m' (c_mods c)) ->
  slot_change c m st e (s_slots (fst (event_op c e st)) (m_key m)).
Proof.
  intros ND Hm PA. destruct e; try (apply ch_same; reflexivity).
  - apply ch_same. destruct (forward_frame c m0 x grad_on out st) as (E & _). cbn [event_op]. rewrite E. reflexivity.
  - cbn [event_op]. unfold sbind, getS. destruct (s_pend st out) as [[m0 x]|] eqn:EP; [|apply ch_same; reflexivity].
    destruct (same_key (c_mods c) m m0 ND Hm (PA _ _ _ EP)) as [D| ->].
    + apply ch_same. destruct (accumulate_frame c m0 x g st) as (_ & _ & _ & _ & _ & _ & _ & F & _). apply F. congruence.
    + unfold accumulate_H_terms, sbind, getS, lift. destruct (get_group c (s_groups st) m) as [gr|] eqn:Eg; [|apply ch_same; reflexivity].
      destruct (local_H _ _ _ _ _ _) as [[HK HC]|] eqn:EL; [|apply ch_same; reflexivity].
      unfold on_slots. eapply ch_back; try eassumption; [reflexivity|]. destruct (store_H HK HC _) as [s' r]. cbn. apply upd_eq.
  - apply ch_same. cbn [event_op]. destruct (set_current_grad_scale s st) as [st' r] eqn:E.
    apply set_current_grad_scale_frame in E as ((_ & E & _) & _). cbn [fst]. rewrite E. reflexivity.
  - cbn [event_op]. destruct (step c closure st) as [st' r] eqn:E. cbn [fst].
    apply step_cases in E as [(_ & -> & _)|(-> & st1 & [(e0 & E & -> & _)|(E & D)])]; [apply ch_same; reflexivity| |].
    + apply ensure_scale_frame in E as ((_ & E & _) & _). apply ch_same. rewrite E. reflexivity.
    + apply ensure_scale_frame in E as ((E1 & E2 & E3 & E4 & _) & E6 & E7). specialize (E7 eq_refl).
      destruct D as [(Hi & _ & ->)|(Hi & st2 & r2 & ES & D)].
      * apply ch_drop; [reflexivity|exact Hi|]. unfold finish. cbn. rewrite E2.
        replace (existsb (fun m0 : modul => Nat.eqb (m_key m0) (m_key m)) (c_mods c)) with true; [reflexivity|].
        symmetry. apply existsb_exists. exists m. split; [exact Hm|apply Nat.eqb_refl].
      * assert (ES' : s_slots st' (m_key m) = s_slots (fst (step_all c st1)) (m_key m)).
        { rewrite ES. destruct r2; destruct D as [_ ->]; reflexivity. }
        rewrite ES'. pose proof (steps_upd c (c_mods c) m st1 ND Hm) as U. cbv zeta in U. fold (step_all c) in U. rewrite E1, E2, E4 in U.
        destruct U as [U|(g & Eg & U)]; [apply ch_same; exact U|].
        eapply ch_update; [reflexivity|exact Hi|exact Eg|exact E7|exact E6|exact U].
Qed.

(** ** The preconditioners of one module under one call *)

Ltac open_upd Eu := unfold update_slots; unfold sbind at 1, lift at 1; rewrite Eu; cbn [negb]; unfold sbind, entry, modify, lift.

(** A full update, as in [update_slots_act]; the group is due. *)
Definition updated (g : group) (l : layer) (steps : nat) (prev cur : F) (cK cC : cls) (dK dC : nat) (s s' : slots) : Prop :=
  exists K C HK HC K' C' mK' mC' bK bC,
    g_T g <> O /\ (steps mod g_T g = 0)%nat /\ cur <> 0 /\ moms_ready g cK cC dK dC s /\
    sl_K s = Some K /\ sl_C s = Some C /\ sl_HK s = Some HK /\ sl_HC s = Some HC /\
    valid cK dK K /\ valid cC dC C /\ valid cK dK HK /\ valid cC dC HC /\
    s' = mkSlots (Some K') (Some C') (if feqb (g_alpha1 g) 0 then sl_mK s else Some mK')
         (if feqb (g_alpha1 g) 0 then sl_mC s else Some mC') None None /\
    valid cK dK K' /\ valid cC dC C' /\ valid cK dK mK' /\ valid cC dC mC' /\
    normalized_lr g (lr_cov_at g steps) mK' = Ok bK /\ normalized_lr g (lr_cov_at g steps) mC' = Ok bC /\
    eqm dK (ent mK') (momentum_of dK (proj cK dK) (gram dK (rent K)) (ent HK) (oldm (sl_mK s)) (mscale g)
       (hweight g (prev / (cur * cur)) dC (ent HC)) (dweight g dC (gram dC (rent C))) (g_alpha1 g)) /\
    eqm dC (ent mC') (momentum_of dC (proj cC dC) (gram dC (rent C)) (ent HC) (oldm (sl_mC s)) (mscale g)
       (cweight g (prev / (cur * cur)) dK (ent HK)) (dweight g dK (gram dK (rent K))) (g_alpha1 g)) /\
    eqm dK (ent K') (precond_of dK (ent K) (ent mK') bK) /\
    eqm dC (ent C') (precond_of dC (ent C) (ent mC') bC).

Definition less_H (s t : slots) : Prop := (sl_HK t = sl_HK s \/ sl_HK t = None) /\ (sl_HC t = sl_HC s \/ sl_HC t = None).

Lemma update_slots_pre g l n scales s cK cC dK dC :
  usable cK dK -> usable cC dC -> preconditioner_dims l = Ok (dK, dC) -> typed cK cC dK dC s ->
  let s' := fst (update_slots g l n scales s) in
  (same_pre s s' /\ less_H s s') \/
  exists prev cur, get_grad_scale scales (Z.of_nat n - 1) = Ok prev /\ get_grad_scale scales (Z.of_nat n) = Ok cur /\
    snd (update_slots g l n scales s) = Ok tt /\ updated g l n prev cur cK cC dK dC s s'.
Proof.
  intros UK UC Ed T s'. pose proof UK as (OK & DK & HhK & NK). pose proof UC as (OC & DC & HhC & NC).
  pose proof T as [(K & EK & VK) (C & EC & VC) TmK TmC THK THC].
  set (P := fun r : slots * res unit => (same_pre s (fst r) /\ less_H s (fst r)) \/
    exists prev cur, get_grad_scale scales (Z.of_nat n - 1) = Ok prev /\ get_grad_scale scales (Z.of_nat n) = Ok cur /\
    snd r = Ok tt /\ updated g l n prev cur cK cC dK dC s (fst r)).
  change (P (update_slots g l n scales s)). clear s'.
  assert (P0 : forall r, P (s, r)) by (intros r; left; cbn; unfold less_H; auto using same_pre_refl).
  assert (P1 : forall r, P (set_HK None s, r)) by (intros r; left; split; [repeat split|unfold less_H; cbn; auto]).
  assert (P2 : forall r, P (set_HC None (set_HK None s), r)) by (intros r; left; split; [repeat split|unfold less_H; cbn; auto]).
  destruct (is_update_step g n) as [[|]|] eqn:Eu.
  2:{ unfold update_slots, sbind at 1, lift. rewrite Eu. apply P0. }
  2:{ unfold update_slots, sbind at 1, lift. rewrite Eu. apply P0. }
  assert (Eu' : g_T g <> O /\ (n mod g_T g = 0)%nat).
  { unfold is_update_step in Eu. destruct (Nat.eqb_spec (g_T g) 0); [discriminate|]. split; [assumption|].
    destruct (Nat.eqb_spec (n mod g_T g) 0); [assumption|discriminate]. }
  destruct (sl_HK s) as [HK|] eqn:EHK.
  2:{ open_upd Eu. rewrite EK, EC, EHK. cbn [lookup]. apply P0. }
  destruct (sl_HC s) as [HC|] eqn:EHC.
  2:{ open_upd Eu. rewrite EK, EC, EHK. cbn [lookup set_HK sl_HC]. rewrite EHC. cbn [lookup]. apply P1. }
  destruct (get_grad_scale scales (Z.of_nat n - 1)) as [prev|] eqn:Ep.
  2:{ open_upd Eu. rewrite EK, EC, EHK. cbn [lookup set_HK sl_HC]. rewrite EHC. cbn [lookup]. rewrite Ep. apply P2. }
  destruct (get_grad_scale scales (Z.of_nat n)) as [cur|] eqn:Ec.
  2:{ open_upd Eu. rewrite EK, EC, EHK. cbn [lookup set_HK sl_HC]. rewrite EHC. cbn [lookup]. rewrite Ep, Ec. apply P2. }
  destruct (feqb_spec cur 0) as [[_ E0]|[N0 E0]].
  { open_upd Eu. unfold grad_unscaling. rewrite EK, EC, EHK. cbn [lookup set_HK sl_HC]. rewrite EHC. cbn [lookup]. rewrite Ep, Ec, E0. apply P2. }
  assert (R : moms_ready g cK cC dK dC s \/ g_alpha1 g <> 0 /\ (sl_mC s = None \/ exists mC, sl_mC s = Some mC /\ valid cC dC mC /\ sl_mK s = None)).
  { destruct (feqb_spec (g_alpha1 g) 0) as [[Ea _]|[Na _]]; [left; left; exact Ea|].
    destruct (sl_mC s) as [mC|] eqn:EmC; [|right; auto]. destruct (sl_mK s) as [mK|] eqn:EmK.
    - left. right. exists mK, mC. auto.
    - right. split; [exact Na|]. right. exists mC. auto. }
  destruct R as [R|[Na R]].
  - destruct (update_slots_act g l n scales s cK cC dK dC K C HK HC prev cur UK UC Ed (proj1 Eu') (proj2 Eu') EK EC EHK EHC VK VC (THK _ eq_refl) (THC _ eq_refl) R Ep Ec N0)
      as (K' & C' & mK' & mC' & bK & bC & E & VK' & VC' & VmK & VmC & U). rewrite E. right. exists prev, cur.
    do 2 (split; [first [reflexivity|assumption]|]). cbn [fst snd]. split; [reflexivity|]. exists K, C, HK, HC, K', C', mK', mC', bK, bC.
    destruct Eu' as [Eu1 Eu2]. pose proof (THK _ eq_refl). pose proof (THC _ eq_refl).
    do 8 (split; [assumption|]). do 4 (split; [assumption|]). split; [reflexivity|]. do 4 (split; [assumption|]). exact U.
  - destruct (new_momenta_act g l K C HK HC (prev / (cur * cur)) cK cC dK dC UK UC Ed VK VC (THK _ eq_refl) (THC _ eq_refl))
      as (nK & nC & En & VnK & VnC & _).
    open_upd Eu. unfold grad_unscaling. rewrite EK, EC, EHK. cbn [lookup set_HK sl_HC]. rewrite EHC.
    cbn [lookup]. rewrite Ep, Ec, E0, En. unfold apply_momenta. rewrite (feqb_false _ _ Na).
    unfold sbind, entry, modify, lift. cbn [set_HC set_HK sl_mC sl_mK]. destruct R as [-> | (mC & -> & VmC & ->)]; cbn [lookup].
    + apply P2.
    + destruct (add__ok cC dC nC mC (g_alpha1 g) OC VnC VmC) as (r & -> & _). apply P2.
Qed.

(** ** The projection is additive *)

Lemma diag_avg_add n M N k : (k < n)%nat -> diag_avg n (fun i j => M i j + N i j) k = diag_avg n M k + diag_avg n N k.
Proof.
  intros Hk. unfold diag_avg. assert (Z : fofnat (n - k) <> 0) by (apply fofnat_neq0; lia). assert (Z0 : fofnat n <> 0) by (apply fofnat_neq0; lia).
  destruct k.
  - rewrite Nat.sub_0_r in *. transitivity (sum n (fun r => M r r + N r r) / fofnat n); [reflexivity|]. rewrite sum_plus. field. assumption.
  - match goal with |- ?s / ?d = ?a / _ + ?b / _ => assert (E : s = a + b) end.
    { rewrite <- sum_plus. apply sum_ext. intros r Hr. ring. }
    rewrite E. field. assumption.
Qed.

Lemma proj_add c : forall n M N i j, (i < n)%nat -> (j < n)%nat -> proj c n (fun i j => M i j + N i j) i j = proj c n M i j + proj c n N i j.
Proof.
  induction c; intros n M N i j Hi Hj; cbn [proj].
  - reflexivity.
  - bd; [reflexivity|ring].
  - bd; [reflexivity|ring].
  - destruct (hier_parts k1 k2 n) as [[K1 d] K2]. bd; ring.
  - bd; [|ring]. apply diag_avg_add. lia.
  - bd; [|ring]. apply diag_avg_add. lia.
  - pose proof (boundary_le n ma mc). bd.
    + apply IHc1; lia.
    + destruct sd; ring.
    + destruct sd; ring.
    + rewrite IHc2 by lia. reflexivity.
Qed.

(** ** The statistics after any history *)

(** K^T A^T A K as computed for the preconditioner [K] and N samples (rows of [A]). *)
Definition inner (N d : nat) (A : mat) (K : smat) : mat := gram N (fun i j => sum d (fun k => rent K i k * A j k)).

Definition stack (N1 : nat) (A1 A2 : mat) : mat := fun k j => if Nat.ltb k N1 then A1 k j else A2 (k - N1)%nat j.

Lemma inner_stack N1 N2 d A1 A2 K i j : inner (N1 + N2) d (stack N1 A1 A2) K i j = inner N1 d A1 K i j + inner N2 d A2 K i j.
Proof.
  unfold inner, gram. rewrite sum_split. f_equal; apply sum_ext; intros k Hk; f_equal; apply sum_ext; intros q Hq; unfold stack.
  - destruct (Nat.ltb_spec k N1); [reflexivity|lia].
  - destruct (Nat.ltb_spec k N1); [reflexivity|lia].
  - destruct (Nat.ltb_spec (N1 + k) N1); [lia|]. do 2 f_equal. lia.
  - destruct (Nat.ltb_spec (N1 + k) N1); [lia|]. do 2 f_equal. lia.
Qed.

Lemma inner_conj N d c A K i j : nonblock c -> valid c d K -> inner N d A K i j = conj N d A (ent K) i j.
Proof.
  intros NB V. unfold inner, gram, conj, tmm, mmm. apply sum_ext. intros k Hk. f_equal; apply sum_ext; intros q Hq; rewrite (rent_tr c d K NB V); ring.
Qed.

Lemma from_inner_inner c d K A N :
  usable c d -> valid c d K -> shape A = [N; d] -> N <> O ->
  exists r, from_inner K (Some (tr A)) = Ok r /\ valid c d r /\ eqm d (ent r) (proj c d (inner N d (get2 A) K)).
Proof.
  intros (OK & DK & _) V SA NN.
  assert (ST : shape (tr A) = [d; N]) by (rewrite shape_tr, (rows_of _ _ _ SA), (cols_of _ _ _ _ SA); reflexivity).
  destruct (from_inner_some_act c d K (tr A) N OK DK V ST) as (r & Er & Vr & Hr); [destruct c; cbn; auto|].
  exists r. split; [exact Er|]. split; [exact Vr|]. intros i j Hi Hj. rewrite Hr by assumption.
  apply proj_ext; try assumption. intros a b Ha Hb. unfold inner, gram. apply sum_ext. intros k Hk.
  f_equal; apply sum_ext; intros q Hq; unfold tr;
    rewrite get2_tab2 by (rewrite ?(cols_of _ _ _ _ SA), ?(rows_of _ _ _ SA); assumption); reflexivity.
Qed.

Lemma local_H_inner g l prev x gout s cK cC dK dC K C HK HC :
  usable cK dK -> usable cC dC -> preconditioner_dims l = Ok (dK, dC) -> fits l x gout ->
  sl_K s = Some K -> sl_C s = Some C -> valid cK dK K -> valid cC dC C ->
  local_H g l prev x gout s = Ok (HK, HC) ->
  valid cK dK HK /\ valid cC dC HC /\
  exists N A B, eqm dK (ent HK) (proj cK dK (inner N dK A K)) /\ eqm dC (ent HC) (proj cC dC (inner N dC B C)).
Proof.
  intros UK UC Ed F EK EC VK VC H. unfold local_H in H. rewrite EK, EC in H. cbn [lookup] in H.
  apply bind_ok in H as (A & EA & H). apply bind_ok in H as (B & EB & H). cbn [bind] in H.
  destruct (process_shapes l x gout _ _ A B dK dC F Ed EA EB) as (N & NN & SA & SB).
  destruct (from_inner_inner cK dK K A N UK VK SA NN) as (r & Er & Vr & Hr).
  rewrite Er in H. cbn [bind] in H. apply bind_ok in H as (p & _ & H). apply bind_ok in H as (B' & EB' & H).
  assert (SB' : shape B' = [N; dC]).
  { destruct (feqb p 1); [injection EB' as <-; exact SB|]. destruct (fltb p 0); [discriminate|]. injection EB' as <-. exact SB. }
  destruct (from_inner_inner cC dC C B' N UC VC SB' NN) as (t & Et & Vt & Ht).
  rewrite Et in H. cbn [bind] in H. injection H as <- <-. split; [exact Vr|]. split; [exact Vt|]. exists N, (get2 A), (get2 B'). auto.
Qed.

(** The stored statistics are those of some samples for the CURRENT preconditioners. *)
Definition stats_of (cK cC : cls) (dK dC : nat) (s : slots) : Prop :=
  (forall K H, sl_K s = Some K -> sl_HK s = Some H -> exists N A, eqm dK (ent H) (proj cK dK (inner N dK A K))) /\
  (forall C H, sl_C s = Some C -> sl_HC s = Some H -> exists N B, eqm dC (ent H) (proj cC dC (inner N dC B C))).

Lemma add_inner c d h r t K N1 A1 N2 A2 :
  eqm d (ent h) (proj c d (inner N1 d A1 K)) -> eqm d (ent r) (proj c d (inner N2 d A2 K)) ->
  eqm d (ent t) (fun i j => ent h i j + ent r i j) -> eqm d (ent t) (proj c d (inner (N1 + N2) d (stack N1 A1 A2) K)).
Proof.
  intros H1 H2 H3 i j Hi Hj. rewrite H3, H1, H2 by assumption. rewrite <- proj_add by assumption.
  apply proj_ext; try assumption. intros. symmetry. apply inner_stack.
Qed.

Lemma event_stats c ty e st m cK cC dK dC :
  tys_ok c ty -> NoDup (map m_key (c_mods c)) -> all_typed c ty st -> wf_event c st e -> In m (c_mods c) -> ty m = (cK, cC, dK, dC) ->
  stats_of cK cC dK dC (s_slots st (m_key m)) -> stats_of cK cC dK dC (s_slots (fst (event_op c e st)) (m_key m)).
Proof.
  intros TO ND [TA PA] W Hm Et St. pose proof (TO m Hm) as TOm. pose proof (TA m Hm) as T. unfold mod_typed in T. rewrite Et in TOm, T.
  destruct TOm as (UK & UC & Ed). set (s := s_slots st (m_key m)) in *.
  destruct (event_slots c e st m ND Hm PA) as [E|out gout x g HK HC Ee EP Eg EL E|Ee Ei E|g scales Ee Ei Eg E1 E2 E]; fold s in E; rewrite E.
  - exact St.
  - subst e. specialize (W m x EP). pose proof T as [(K & EK & VK) (C & EC & VC) _ _ _ _]. fold s in EL.
    destruct (local_H_inner _ _ _ _ _ _ _ _ _ _ _ _ _ _ UK UC Ed W EK EC VK VC EL) as (VHK & VHC & N & A & B & HA & HB).
    destruct (store_H_typed HK HC s _ _ _ _ UK UC T VHK VHC) as (hk & hc & ES & _ & _ & Hk & Hc). rewrite ES. cbn [fst]. clear E ES.
    destruct St as [St1 St2]. split.
    + intros K0 H0 F1 F2. cbn in F1, F2. rewrite EK in F1. injection F1 as <-. injection F2 as <-. destruct (sl_HK s) as [h|] eqn:EH.
      * destruct (St1 K h EK eq_refl) as (N1 & A1 & H1). eexists _, _. exact (add_inner cK dK h HK hk K _ _ _ _ H1 HA Hk).
      * exists N, A. intros i j Hi Hj. rewrite Hk, HA by assumption. cbn [oldm]. ring.
    + intros C0 H0 F1 F2. cbn in F1, F2. rewrite EC in F1. injection F1 as <-. injection F2 as <-. destruct (sl_HC s) as [h|] eqn:EH.
      * destruct (St2 C h EC eq_refl) as (N1 & A1 & H1). eexists _, _. exact (add_inner cC dC h HC hc C _ _ _ _ H1 HB Hc).
      * exists N, B. intros i j Hi Hj. rewrite Hc, HB by assumption. cbn [oldm]. ring.
  - split; cbn; discriminate.
  - destruct (update_slots_pre g (m_layer m) (s_steps st) scales s cK cC dK dC UK UC Ed T) as [[(S1 & S2 & _) [L1 L2]]|(prev & cur & _ & _ & _ & U)].
    + destruct St as [St1 St2]. split.
      * intros K H F1 F2. rewrite S1 in F1. destruct L1 as [L1|L1]; rewrite L1 in F2; [|discriminate]. exact (St1 K H F1 F2).
      * intros K H F1 F2. rewrite S2 in F1. destruct L2 as [L2|L2]; rewrite L2 in F2; [|discriminate]. exact (St2 K H F1 F2).
    + destruct U as (K & C & HK & HC & K' & C' & mK & mC & bK & bC & U). destruct U as (_ & _ & _ & _ & _ & _ & _ & _ & _ & _ & _ & _ & U & _).
      rewrite U. split; cbn; discriminate.
Qed.

Lemma run_stats c ty es st m cK cC dK dC :
  tys_ok c ty -> NoDup (map m_key (c_mods c)) -> all_typed c ty st -> wf_run c es st -> In m (c_mods c) -> ty m = (cK, cC, dK, dC) ->
  stats_of cK cC dK dC (s_slots st (m_key m)) -> stats_of cK cC dK dC (s_slots (run c es st) (m_key m)).
Proof.
  intros TO ND TA W Hm Et. revert st TA W. induction es as [|e es IH]; intros st TA W St; [exact St|]. destruct W as [W1 W2]. cbn [run].
  apply IH; [exact (event_all_typed c ty e st TO ND TA W1)|exact W2|]. eapply event_stats; eassumption.
Qed.

(** ** Invariants of the preconditioners *)

(** The relation between the preconditioners before and after one call. *)
Lemma event_pre c ty e st m cK cC dK dC :
  tys_ok c ty -> NoDup (map m_key (c_mods c)) -> all_typed c ty st -> In m (c_mods c) -> ty m = (cK, cC, dK, dC) ->
  let s := s_slots st (m_key m) in let s' := s_slots (fst (event_op c e st)) (m_key m) in
  wf_event c st e ->
  same_pre s s' \/
  exists g prev cur, e = EStep false /\ s_inf st = false /\ get_group c (s_groups st) m = Ok g /\
    get_grad_scale (s_scales st) (Z.of_nat (s_steps st) - 1) = Ok prev /\ step_scale st = Ok cur /\
    updated g (m_layer m) (s_steps st) prev cur cK cC dK dC s s'.
Proof.
  intros TO ND [TA PA] Hm Et s s' W. pose proof (TO m Hm) as TOm. pose proof (TA m Hm) as T. unfold mod_typed in T. rewrite Et in TOm, T.
  destruct TOm as (UK & UC & Ed). fold s in T.
  destruct (event_slots c e st m ND Hm PA) as [E|out gout x g HK HC Ee EP Eg EL E|Ee Ei E|g scales Ee Ei Eg E1 E2 E]; fold s in E; fold s' in E.
  - left. rewrite E. apply same_pre_refl.
  - left. rewrite E. exact (store_H_same HK HC s).
  - left. rewrite E. repeat split.
  - destruct (update_slots_pre g (m_layer m) (s_steps st) scales s cK cC dK dC UK UC Ed T) as [[S1 _]|(prev & cur & P1 & P2 & P3 & U)].
    + left. rewrite E. exact S1.
    + right. exists g, prev, cur. split; [exact Ee|]. split; [exact Ei|]. split; [exact Eg|].
      split; [rewrite <- P1; symmetry; apply E2; lia|]. split; [rewrite <- E1; exact P2|]. rewrite E. exact U.
Qed.

(** An invariant of the entries kept by each update is kept by all histories; [P] may depend on
    the state in which the update happens. *)
Lemma pre_invariant (Inv : slots -> Prop) (Ok_st : state -> Prop) c ty m cK cC dK dC :
  tys_ok c ty -> NoDup (map m_key (c_mods c)) -> In m (c_mods c) -> ty m = (cK, cC, dK, dC) ->
  (forall s s', Inv s -> same_pre s s' -> Inv s') ->
  (forall st g prev cur s', all_typed c ty st -> Ok_st st -> get_group c (s_groups st) m = Ok g ->
     get_grad_scale (s_scales st) (Z.of_nat (s_steps st) - 1) = Ok prev -> step_scale st = Ok cur ->
     updated g (m_layer m) (s_steps st) prev cur cK cC dK dC (s_slots st (m_key m)) s' -> Inv (s_slots st (m_key m)) -> Inv s') ->
  forall es st, all_typed c ty st -> wf_run c es st ->
  (forall es1 es2, es = es1 ++ EStep false :: es2 -> Ok_st (run c es1 st)) ->
  Inv (s_slots st (m_key m)) -> Inv (s_slots (run c es st) (m_key m)).
Proof.
  intros TO ND Hm Et I1 I2. induction es as [|e es IH]; intros st TA W HO HI; [exact HI|]. destruct W as [W1 W2]. cbn [run].
  apply IH; [exact (event_all_typed c ty e st TO ND TA W1)|exact W2| |].
  - intros es1 es2 E. exact (HO (e :: es1) es2 (f_equal (cons e) E)).
  - destruct (event_pre c ty e st m cK cC dK dC TO ND TA Hm Et W1) as [H|(g & prev & cur & -> & _ & Eg & Ep & Ec & U)].
    + exact (I1 _ _ HI H).
    + eapply I2; try eassumption. exact (HO [] es eq_refl).
Qed.

End Pre.
