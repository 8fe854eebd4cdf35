(** Lemmas: whole training runs with micro-batches. *)

From Coq Require Import List Arith Lia Bool ZArith Field.
From Verif Require Import Scalar Res Tensor TensorFacts Structures StructSpec StructDense StructPattern StructOps StructAct OptimUtils UtilsFacts ProofUtils Optimizer Construct OptState OptRun OptSpec OptFacts OptTyped OptPre ScaleInv ScaleRun Batch Accum.
Import ListNotations.

Section AccumRun.
Context {SC : Scalar} {FL : FieldLaws SC} {SQ : SqrtLaws SC}.
Add Field FFar : F_ft.
Open Scope F_scope.

(** ** The step *)

Lemma new_momenta_pair g l K C HK HC rk rc u cK cC dK dC :
  usable cK dK -> usable cC dC -> preconditioner_dims l = Ok (dK, dC) ->
  valid cK dK K -> valid cC dC C -> valid cK dK HK -> valid cC dC HC -> rk * rc = 1 -> g_kfac_like g = false ->
  new_momenta g l K C (mul_ HK rk) (mul_ HC rc) u = new_momenta g l K C HK HC u.
Proof.
  intros UK UC Ed VK VC VHK VHC E KF. pose proof UK as (OK & DK & HhK & NK). pose proof UC as (OC & DC & HhC & NC).
  unfold new_momenta. destruct (from_inner_none_act cK dK K OK DK VK) as (KK & -> & VKK & _). destruct (from_inner_none_act cC dC C OC DC VC) as (CC & -> & VCC & _).
  cbn [bind]. rewrite Ed, KF. cbn [bind].
  assert (ECK : cls_of K = cK) by (eapply valid_cls; eassumption).
  assert (ECC : cls_of C = cC) by (eapply valid_cls; eassumption).
  destruct (average_trace_scaled cC dC HC rc OC NC VHC) as (t & Et & Et'). rewrite Et, Et'. cbn [bind].
  destruct (average_trace_scaled cK dK HK rk OK NK VHK) as (tk & Ek & Ek'). rewrite Ek, Ek'. cbn [bind].
  destruct (zeros_ok cK dK OK (or_introl DK)) as (z & Ez & Vz & _). rewrite ECK, Ez. cbn [bind].
  rewrite (add_scaled cK dK z HK (u * t) rk (u * (rc * t)) OK Vz VHK) by (transitivity (rk * rc * (u * t)); [ring|rewrite E; ring]).
  match goal with |- bind ?x _ = _ => destruct x as [a1|]; [|reflexivity] end. cbn [bind].
  match goal with |- bind ?x _ = _ => destruct x as [m1|]; [|reflexivity] end. cbn [bind].
  match goal with |- bind ?x _ = _ => destruct x as [a2|]; [|reflexivity] end. cbn [bind].
  match goal with |- bind ?x _ = _ => destruct x as [m2|]; [|reflexivity] end. cbn [bind].
  destruct (zeros_ok cC dC OC (or_introl DC)) as (z2 & Ez2 & Vz2 & _). rewrite ECC, Ez2. cbn [bind].
  rewrite (add_scaled cC dC z2 HC (u * tk) rc (u * (rk * tk)) OC Vz2 VHC) by (transitivity (rk * rc * (u * tk)); [ring|rewrite E; ring]). reflexivity.
Qed.

Lemma arel_eq k s : sl_HK s = None -> sl_HC s = None -> arel k s s.
Proof. intros H1 H2. unfold arel. rewrite H1, H2. repeat split. Qed.
Lemma arel_none k s s' : arel k s s' -> sl_HK s = None -> sl_HC s = None -> s' = s.
Proof.
  intros (R1 & R2 & R3 & R4 & R5 & R6) N1 N2. rewrite N1 in R5. rewrite N2 in R6. destruct s as [s1 s2 s3 s4 s5 s6], s' as [t1 t2 t3 t4 t5 t6]. cbn in *. congruence.
Qed.

Lemma update_slots_pair g l n sc s s' k cK cC dK dC :
  usable cK dK -> usable cC dC -> preconditioner_dims l = Ok (dK, dC) -> typed cK cC dK dC s -> arel k s s' -> k <> O -> g_kfac_like g = false ->
  snd (update_slots g l n sc s) = snd (update_slots g l n sc s') /\ arel k (fst (update_slots g l n sc s)) (fst (update_slots g l n sc s')).
Proof.
  intros UK UC Ed T R Nk KF. pose proof R as (R1 & R2 & R3 & R4 & R5 & R6).
  unfold update_slots. unfold sbind, lift, entry, modify.
  destruct (is_update_step g n) as [[|]|]; cbn [negb]; cbv beta iota; try (split; [reflexivity|exact R]). rewrite R1.
  destruct (sl_K s) as [K|] eqn:EK; cbn [lookup]; cbv beta iota; [|split; [reflexivity|exact R]]. rewrite R2.
  destruct (sl_C s) as [C|] eqn:EC; cbn [lookup]; cbv beta iota; [|split; [reflexivity|exact R]]. rewrite R5.
  destruct (sl_HK s) as [HK|] eqn:EHK; cbn [lookup option_map]; cbv beta iota; [|split; [reflexivity|exact R]].
  cbn [set_HK sl_HC]. rewrite R6. destruct (sl_HC s) as [HC|] eqn:EHC; cbn [lookup option_map]; cbv beta iota.
  2:{ split; [reflexivity|]. unfold arel. unfold fst, set_HK. cbn [sl_K sl_C sl_mK sl_mC sl_HK sl_HC].
      do 5 (split; [congruence || reflexivity|]). rewrite R6, EHC. reflexivity. }
  destruct T as [(K' & EK' & VK) (C' & EC' & VC) _ _ THK THC]. rewrite EK in EK'. injection EK' as <-. rewrite EC in EC'. injection EC' as <-.
  assert (ES : set_HC None (set_HK None s') = set_HC None (set_HK None s)) by (unfold set_HC, set_HK; cbn; congruence).
  rewrite ES. set (s2 := set_HC None (set_HK None s)).
  assert (AE : arel k s2 s2) by (apply arel_eq; reflexivity).
  destruct (get_grad_scale sc (Z.of_nat n - 1)) as [p|]; [|split; [reflexivity|exact AE]].
  destruct (get_grad_scale sc (Z.of_nat n)) as [q|]; [|split; [reflexivity|exact AE]].
  destruct (grad_unscaling p q) as [u|]; [|split; [reflexivity|exact AE]].
  rewrite (new_momenta_pair g l K C HK HC (fofnat k) (1 / fofnat k) u cK cC dK dC UK UC Ed VK VC (THK _ EHK) (THC _ EHC)) by (first [exact KF|field; apply fofnat_neq0; exact Nk]).
  assert (F : forall x, keeps (fun a b => sl_HK a = None /\ sl_HC a = None -> sl_HK b = None /\ sl_HC b = None) x ->
    snd (x s2) = snd (x s2) /\ arel k (fst (x s2)) (fst ((x : SM slots unit) s2))).
  { intros x HX. split; [reflexivity|]. apply arel_eq; apply HX; split; reflexivity. }
  destruct (new_momenta g l K C HK HC u) as [[mK mC]|]; [|split; [reflexivity|exact AE]].
  apply (F (let! '(m_K, m_C) := apply_momenta g mK mC in
    let! beta_K := lift (normalized_lr g (lr_cov_at g n) m_K) in
    let! beta_C := lift (normalized_lr g (lr_cov_at g n) m_C) in
    let! P := lift (matmul_s K m_K) in
    let! K' := lift (add_ K P (- beta_K)) in
    let! _ := modify (set_K (Some K')) in
    let! P := lift (matmul_s C m_C) in
    let! C' := lift (add_ C P (- beta_C)) in
    modify (set_C (Some C')))).
  set (Q := fun a b : slots => sl_HK a = None /\ sl_HC a = None -> sl_HK b = None /\ sl_HC b = None).
  assert (Qr : forall a, Q a a) by (intros a H; exact H). assert (Qt : forall a b c, Q a b -> Q b c -> Q a c) by (unfold Q; auto).
  repeat first [ apply keeps_bind; [exact Qt| |intros ?] | apply keeps_lift; exact Qr | apply keeps_ret; exact Qr | apply keeps_modify; intros ? H; exact H ].
  - unfold apply_momenta. destruct (feqb _ _); [apply keeps_ret; exact Qr|].
    repeat first [ apply keeps_bind; [exact Qt| |intros ?] | apply keeps_lift; exact Qr | apply keeps_ret; exact Qr | apply keeps_modify; intros ? H; exact H | intros t H; exact H ].
  - destruct a as [mK' mC'].
    repeat first [ apply keeps_bind; [exact Qt| |intros ?] | apply keeps_lift; exact Qr | apply keeps_ret; exact Qr | apply keeps_modify; intros ? H; exact H ].
Qed.

(** A due update consumes the statistics. *)
Definition clear (s : slots) : Prop := sl_HK s = None /\ sl_HC s = None.

Lemma update_slots_clear g l n sc s : is_update_step g n = Ok true -> snd (update_slots g l n sc s) = Ok tt -> clear (fst (update_slots g l n sc s)).
Proof.
  intros Eu H. unfold update_slots in *. unfold sbind at 1, lift at 1 in H. unfold sbind at 1, lift at 1. rewrite Eu in *. cbn [negb] in *.
  unfold sbind, entry, modify, lift in *.
  destruct (lookup (sl_K s)); [|discriminate]. destruct (lookup (sl_C s)); [|discriminate]. destruct (lookup (sl_HK s)); [|discriminate].
  destruct (lookup (sl_HC (set_HK None s))); [|discriminate].
  destruct (get_grad_scale sc (Z.of_nat n - 1)); [|discriminate]. destruct (get_grad_scale sc (Z.of_nat n)); [|discriminate].
  destruct (grad_unscaling _ _); [|discriminate]. destruct (new_momenta _ _ _ _ _ _ _) as [[mK mC]|]; [|discriminate].
  assert (A : clear (fst (apply_momenta g mK mC (set_HC None (set_HK None s))))).
  { unfold apply_momenta. destruct (feqb _ _); [split; reflexivity|]. unfold sbind, entry, lift, modify, ret. destruct (lookup _); [|split; reflexivity].
    destruct (add_ _ _ _); [|split; reflexivity]. destruct (lookup _); [|split; reflexivity]. destruct (add_ _ _ _); split; reflexivity. }
  destruct (apply_momenta g mK mC (set_HC None (set_HK None s))) as [s3 [[mK' mC']|]]; [|discriminate]. cbn [fst] in A.
  destruct (normalized_lr g (lr_cov_at g n) mK'); [|discriminate]. destruct (normalized_lr g (lr_cov_at g n) mC'); [|discriminate].
  destruct (matmul_s _ mK'); [|discriminate]. destruct (add_ _ _ _); [|discriminate]. destruct (matmul_s _ mC'); [|discriminate].
  destruct (add_ _ _ _); [|discriminate]. exact A.
Qed.

Lemma step_module_clear c m st : snd (step_module c m st) = Ok tt ->
  due_now c m st \/ clear (s_slots st (m_key m)) -> clear (s_slots (fst (step_module c m st)) (m_key m)).
Proof.
  intros H. unfold step_module in *. unfold sbind at 1 in H. unfold sbind at 1.
  assert (U : forall s1, update_preconditioner c m st = (s1, Ok tt) -> 
    (due_now c m st \/ clear (s_slots st (m_key m)) -> clear (s_slots s1 (m_key m)))).
  { intros s1 E. unfold update_preconditioner, sbind, getS, lift in E. destruct (get_group c (s_groups st) m) as [g|] eqn:Eg; [|discriminate].
    unfold on_slots in E. destruct (update_slots g (m_layer m) (s_steps st) (s_scales st) (s_slots st (m_key m))) as [s' r] eqn:Es.
    injection E as <- ->. cbn. rewrite upd_eq. intros [(g' & Eg' & D)|D].
    - rewrite Eg in Eg'. injection Eg' as <-. pose proof (update_slots_clear g (m_layer m) (s_steps st) (s_scales st) (s_slots st (m_key m)) D) as X.
      rewrite Es in X. apply X. reflexivity.
    - destruct (is_update_step g (s_steps st)) as [[|]|] eqn:Eu.
      + pose proof (update_slots_clear g (m_layer m) (s_steps st) (s_scales st) (s_slots st (m_key m)) Eu) as X. rewrite Es in X. apply X. reflexivity.
      + unfold update_slots, sbind at 1, lift at 1 in Es. rewrite Eu in Es. cbn [negb] in Es. injection Es as <-. exact D.
      + unfold update_slots, sbind at 1, lift at 1 in Es. rewrite Eu in Es. discriminate. }
  destruct (update_preconditioner c m st) as [s1 [[]|]] eqn:E1; [|discriminate]. pose proof (U s1 eq_refl) as UH. intros D. specialize (UH D).
  match goal with |- context [fst (?x s1)] => assert (K : keeps (fun a b => s_slots b = s_slots a) x) end.
  { assert (Tr : forall a b d : state, s_slots b = s_slots a -> s_slots d = s_slots b -> s_slots d = s_slots a) by (intros; congruence).
    assert (OP : forall p (f : SM pslot unit), keeps (fun a b => s_slots b = s_slots a) (on_par p f)).
    { intros p f s0. unfold on_par. destruct (f (s_par s0 p)). reflexivity. }
    apply keeps_bind; [exact Tr| |].
    { unfold compute_natural_gradient. apply keeps_bind; [exact Tr|apply keeps_getS; reflexivity|]. intros s0.
      apply keeps_bind; [exact Tr|apply keeps_lift; reflexivity|]. intros N. apply keeps_lift. reflexivity. }
    intros [a b]. apply keeps_bind; [exact Tr|apply keeps_getS; reflexivity|]. intros s0. apply keeps_bind; [exact Tr|apply keeps_lift; reflexivity|]. intros g0.
    apply keeps_bind; [exact Tr|apply OP|]. intros _. destruct (m_bias m); [|apply keeps_ret; reflexivity]. destruct b; [apply OP|apply keeps_ret; reflexivity]. }
  rewrite (K s1). exact UH.
Qed.

Lemma steps_clear c : forall l st st', NoDup (map m_key l) -> forS (step_module c) l st = (st', Ok tt) ->
  (forall m, In m l -> due_now c m st \/ clear (s_slots st (m_key m))) ->
  forall m, In m l -> clear (s_slots st' (m_key m)).
Proof.
  induction l as [|a l IH]; intros st st' ND H D m Hm; [destruct Hm|]. cbn [forS] in H. apply sbind_ok in H as (s1 & [] & H1 & H2).
  cbn in ND. apply NoDup_cons_iff in ND as [N1 N2]. pose proof (step_module_frame c a st) as F. rewrite H1 in F. cbn [fst] in F.
  destruct F as (F1 & F2 & F3 & F4 & F5 & F6 & F7 & F8 & F9).
  pose proof (step_module_clear c a st) as X. rewrite H1 in X. cbn [fst snd] in X. specialize (X eq_refl (D a (or_introl eq_refl))).
  assert (D' : forall m', In m' l -> due_now c m' s1 \/ clear (s_slots s1 (m_key m'))).
  { intros m' Hm'. destruct (D m' (or_intror Hm')) as [Y|Y]; [left; exact (due_same c m' st s1 F1 F3 Y)|right]. rewrite F8; [exact Y|].
    intros E. injection E as E. apply N1. rewrite <- E. apply in_map. exact Hm'. }
  destruct Hm as [<-|Hm]; [|exact (IH s1 st' N2 H2 D' m Hm)].
  apply steps_frame in H2 as (_ & _ & _ & _ & _ & _ & _ & B8 & _). rewrite B8 by exact N1. exact X.
Qed.

(** ** States *)

(** Both optimizers agree on everything but the waiting hooks and the statistics. *)
Definition alike (st st' : state) : Prop :=
  s_steps st' = s_steps st /\ s_scales st' = s_scales st /\ s_groups st' = s_groups st /\ s_amp st' = s_amp st /\
  s_inf st' = s_inf st /\ s_log st' = s_log st.
Definition same_params (st st' : state) : Prop := forall p, s_par st' p = s_par st p.
Definition near (c : cfg) (k : nat) (st st' : state) : Prop :=
  alike st st' /\ same_params st st' /\ forall m, In m (c_mods c) -> arel k (s_slots st (m_key m)) (s_slots st' (m_key m)).
Definition equal (c : cfg) (st st' : state) : Prop :=
  alike st st' /\ same_params st st' /\ forall m, In m (c_mods c) -> s_slots st' (m_key m) = s_slots st (m_key m).
Definition all_clear (c : cfg) (st : state) : Prop := forall m, In m (c_mods c) -> clear (s_slots st (m_key m)).

Section Step.
Variables (c : cfg) (ty : tys) (k : nat).
Hypothesis TO : tys_ok c ty.
Hypothesis ND : NoDup (map m_key (c_mods c)).
Hypothesis Nk : k <> O.

Definition nearly (st st' : state) : Prop := near c k st st' /\ slots_typed c ty st /\ Forall plain (s_groups st).

Lemma plain_group gs m g : Forall plain gs -> get_group c gs m = Ok g -> plain g.
Proof.
  intros F H. unfold get_group in H. rewrite Forall_forall in F. destruct (m_layer m); try discriminate; destruct (c_p2g c (m_weight m)) as [i|]; try discriminate;
  destruct (nth_error gs i) eqn:E; try discriminate; injection H as <-; apply nth_error_In in E; exact (F _ E).
Qed.

Lemma nearly_pre m : In m (c_mods c) -> rel2 nearly (update_preconditioner c m) (update_preconditioner c m).
Proof.
  intros Hm s t (((S1 & S2 & S3 & S4 & S5 & S6) & S7 & S8) & T & P).
  unfold update_preconditioner, sbind, getS, lift. rewrite S3. destruct (get_group c (s_groups s) m) as [g|] eqn:Eg; [|split; [reflexivity|split; [split; [|split]|split]; [unfold alike; auto 10|assumption..]]].
  unfold on_slots. rewrite S1, S2. pose proof (TO m Hm) as TOm. pose proof (T m Hm) as Tm. unfold mod_typed in Tm. destruct (ty m) as [[[cK cC] dK] dC] eqn:Ety. destruct TOm as (UK & UC & Ed).
  destruct (update_slots_pair g (m_layer m) (s_steps s) (s_scales s) _ _ k _ _ _ _ UK UC Ed Tm (S8 m Hm) Nk (proj1 (plain_group _ _ _ P Eg))) as [E1 E2].
  destruct (update_slots_typed g (m_layer m) (s_steps s) (s_scales s) _ _ _ _ _ UK UC Ed Tm) as [E3 _].
  destruct (update_slots g (m_layer m) (s_steps s) (s_scales s) (s_slots s (m_key m))) as [s' r1].
  destruct (update_slots g (m_layer m) (s_steps s) (s_scales s) (s_slots t (m_key m))) as [t' r2]. cbn [fst snd] in *.
  split; [exact E1|]. split; [split; [|split]|split; [|exact P]].
  - unfold alike. cbn. auto 10.
  - exact S7.
  - intros m' Hm'. cbn. destruct (same_key (c_mods c) m' m ND Hm' Hm) as [D| ->]; [rewrite !upd_neq by congruence; apply S8; exact Hm'|rewrite !upd_eq; exact E2].
  - intros m' Hm'. unfold mod_typed. cbn. destruct (same_key (c_mods c) m' m ND Hm' Hm) as [D| ->]; [rewrite upd_neq by congruence; apply T; exact Hm'|].
    rewrite upd_eq, Ety. exact E3.
Qed.

Lemma nearly_grad m : In m (c_mods c) -> rel2 nearly (compute_natural_gradient c m) (compute_natural_gradient c m).
Proof.
  intros Hm s t D. pose proof D as (((S1 & S2 & S3 & S4 & S5 & S6) & S7 & S8) & T & P).
  unfold compute_natural_gradient, sbind, getS, lift. rewrite S1, S2. destruct (S8 m Hm) as (R1 & R2 & _). rewrite R1, R2. rewrite (S7 (m_weight m)).
  assert (GB : option_map (fun b => grad_data (s_par t b)) (m_bias m) = option_map (fun b => grad_data (s_par s b)) (m_bias m)) by (destruct (m_bias m) as [b|]; [cbn; rewrite (S7 b)|]; reflexivity).
  rewrite GB. destruct (nat_grad_matrix _ _ _ _ _ _) as [N|]; cbn [fst snd]; split; try reflexivity; exact D.
Qed.

Lemma nearly_par x g d : rel2 nearly (on_par x (param_step g d)) (on_par x (param_step g d)).
Proof.
  intros s t D. pose proof D as (((S1 & S2 & S3 & S4 & S5 & S6) & S7 & S8) & T & P). unfold on_par. rewrite (S7 x).
  destruct (param_step g d (s_par s x)) as [a r1]. cbn [fst snd] in *. split; [reflexivity|].
  split; [split; [|split]|split; [exact T|exact P]].
  - unfold alike. cbn. auto 10.
  - intros y. cbn. unfold upd. destruct (Nat.eqb y x); [reflexivity|apply S7].
  - exact S8.
Qed.

Lemma nearly_module m : In m (c_mods c) -> rel2 nearly (step_module c m) (step_module c m).
Proof.
  intros Hm. unfold step_module. apply rel2_bind; [apply nearly_pre; exact Hm|]. intros _. apply rel2_bind; [apply nearly_grad; exact Hm|]. intros [dw db].
  intros s t D. pose proof D as (((_ & _ & S3 & _) & _) & _). rewrite !group_bind, S3.
  destruct (get_group c (s_groups s) m) as [g|]; [|split; [reflexivity|exact D]]. clear S3. revert s t D.
  apply rel2_bind; [apply nearly_par|]. intros _. destruct (m_bias m) as [b|]; [|apply rel2_ret].
  destruct db as [d|]; [apply nearly_par|apply rel2_ret].
Qed.

Lemma nearly_all : rel2 nearly (step_all c) (step_all c).
Proof. apply rel2_forS. intros m Hm. apply nearly_module. exact Hm. Qed.

Lemma nearly_set_scale v : rel2 nearly (set_current_grad_scale v) (set_current_grad_scale v).
Proof.
  intros s t D. pose proof D as (((S1 & S2 & S3 & S4 & S5 & S6) & S7 & S8) & T & P).
  unfold set_current_grad_scale, sbind, getS, modify, lift, ret. rewrite S1, S2. cbn [s_scales set_scales s_steps].
  assert (N : nearly (set_scales (put_scale (s_scales s) (Z.of_nat (s_steps s)) v) s) (set_scales (put_scale (s_scales s) (Z.of_nat (s_steps s)) v) t)).
  { split; [split; [|split]|split]; [|assumption..]. unfold alike. cbn. auto 10. }
  destruct (Nat.eqb (s_steps s) 0); [|split; [reflexivity|exact N]].
  destruct (get_grad_scale _ _); [|split; [reflexivity|exact N]]. destruct (get_grad_scale _ _); [|split; [reflexivity|exact N]].
  destruct (_ && _); (split; [reflexivity|]); [|exact N].
  destruct N as ((N1 & N2 & N3) & N4 & N5). split; [split; [|split]|split]; [|assumption..].
  destruct N1 as (? & ? & ? & ? & ? & N6). unfold alike. cbn in *. rewrite S6. auto 10.
Qed.

Lemma nearly_ensure : rel2 nearly ensure_scale ensure_scale.
Proof.
  intros s t D. pose proof D as (((S1 & S2 & S3 & S4 & S5 & S6) & S7 & S8) & T & P). unfold ensure_scale, sbind, getS. rewrite S1, S2, S4.
  destruct (get_grad_scale _ _); [split; [reflexivity|exact D]|]. destruct (s_amp s) as [[v|]|]; [apply nearly_set_scale; exact D|split; [reflexivity|exact D]|apply nearly_set_scale; exact D].
Qed.

Lemma drop_slots st m : In m (c_mods c) -> s_slots (drop_H c st) (m_key m) = set_HC None (set_HK None (s_slots st (m_key m))).
Proof.
  intros Hm. unfold drop_H. cbn. replace (existsb (fun m0 => m_key m0 =? m_key m)%nat (c_mods c)) with true; [reflexivity|].
  symmetry. apply existsb_exists. exists m. split; [exact Hm|apply Nat.eqb_refl].
Qed.
Lemma nearly_drop s t : nearly s t -> nearly (drop_H c s) (drop_H c t).
Proof.
  intros ((A & S7 & S8) & T & P). split; [split; [exact A|split; [exact S7|]]|split; [|exact P]].
  - intros m Hm. rewrite !drop_slots by exact Hm. destruct (S8 m Hm) as (R1 & R2 & R3 & R4 & _). unfold arel. cbn. auto 10.
  - intros m Hm. specialize (T m Hm). unfold mod_typed in *. rewrite drop_slots by exact Hm. destruct (ty m) as [[[cK cC] dK] dC]. apply typed_dropHC, typed_dropHK. exact T.
Qed.
Lemma nearly_log l s t : nearly s t -> nearly (set_log (s_log s ++ l) s) (set_log (s_log t ++ l) t).
Proof.
  intros (((S1 & S2 & S3 & S4 & S5 & S6) & S7 & S8) & T & P). split; [split; [|split]|split]; [|assumption..]. unfold alike. cbn. rewrite S6. auto 10.
Qed.

Lemma nearly_step : rel2 nearly (step c false) (step c false).
Proof.
  unfold step. apply rel2_bind; [exact nearly_ensure|]. intros _. intros s t D. unfold sbind, getS. pose proof D as (((S1 & S2 & S3 & S4 & S5 & S6) & _) & _). rewrite S5.
  assert (F : forall s t : state, nearly s t -> nearly (finish s) (finish t)).
  { intros a b (((A1 & A2 & A3 & A4 & A5 & A6) & A7 & A8) & AT & AP). split; [split; [|split]|split]; [|assumption..]. unfold alike. cbn. rewrite A1, A2. auto 10. }
  destruct (s_inf s).
  - unfold modify. cbn [fst snd]. split; [reflexivity|]. apply (F _ _ (nearly_drop _ _ (nearly_log [WarnInf] _ _ D))).
  - destruct (nearly_all s t D) as [X1 X2]. destruct (step_all c s) as [s' r1]. destruct (step_all c t) as [t' r2]. cbn [fst snd] in *. subst r2.
    destruct r1; [|split; [reflexivity|exact X2]]. unfold modify. cbn [fst snd]. split; [reflexivity|]. exact (F _ _ X2).
Qed.

(** After a successful step nothing is left. *)
Lemma step_clear st : snd (step c false st) = Ok tt ->
  (forall m, In m (c_mods c) -> due_now c m st \/ clear (s_slots st (m_key m))) -> all_clear c (fst (step c false st)).
Proof.
  intros OK D m Hm. destruct (step c false st) as [s2 r] eqn:E. cbn [fst snd] in *. subst r.
  apply step_cases in E as [(E & _)|(_ & s1 & [(e & _ & _ & E)|(E & C)])]; [discriminate..|].
  apply ensure_scale_frame in E as ((B1 & B2 & B3 & B4 & B5 & B6 & B7) & _).
  destruct C as [(_ & _ & ->)|(_ & s1b & r2 & EA & C)].
  - change (s_slots (finish ?x)) with (s_slots x). rewrite drop_slots by exact Hm. split; reflexivity.
  - destruct r2 as [[]|]; destruct C as [C ->]; [|discriminate]. change (s_slots (finish ?x)) with (s_slots x).
    apply (steps_clear c (c_mods c) s1 s1b ND EA); [|exact Hm]. intros m' Hm'. rewrite B2. destruct (D m' Hm') as [Y|Y]; [left|right; exact Y].
    apply (due_same c m' st s1 B1 B4). exact Y.
Qed.

(** ** Settings and gradients *)

Lemma nearly_setting e : is_setting e \/ is_scaling e -> rel2 nearly (event_op c e) (event_op c e).
Proof.
  intros H. assert (H' : is_setting e) by (destruct H as [H|H]; [exact H|destruct e; try exact H; destruct H]). destruct e; try contradiction; cbn [event_op].
  - apply nearly_set_scale.
  - intros s t (((S1 & S2 & S3 & S4 & S5 & S6) & S7 & S8) & T & P). unfold modify. cbn [fst snd]. split; [reflexivity|].
    split; [split; [|split]|split]; [|assumption..]. unfold alike. cbn. auto 10.
  - intros s t (((S1 & S2 & S3 & S4 & S5 & S6) & S7 & S8) & T & P). unfold modify. cbn [fst snd]. split; [reflexivity|].
    split; [split; [|split]|split]; [|assumption..|exact H']. unfold alike. cbn. auto 10.
Qed.
Lemma nearly_settings es : forall s t, Forall (fun e => is_setting e \/ is_scaling e) es -> nearly s t ->
  nearly (run c es s) (run c es t) /\ (quiet c es s -> quiet c es t).
Proof.
  induction es as [|e es IH]; intros s t H N; [split; [exact N|auto]|]. apply Forall_cons_iff in H as [H1 H2]. cbn [run quiet].
  destruct (nearly_setting e H1 s t N) as [E1 E2]. destruct (IH _ _ H2 E2) as [E3 E4]. split; [exact E3|]. intros [Q1 Q2]. split; [rewrite <- E1; exact Q1|exact (E4 Q2)].
Qed.
Lemma settings_slots es : forall s, Forall (fun e => is_setting e \/ is_scaling e) es -> s_slots (run c es s) = s_slots s.
Proof.
  induction es as [|e es IH]; intros s H; [reflexivity|]. apply Forall_cons_iff in H as [H1 H2]. cbn [run]. rewrite (IH _ H2).
  destruct e; try (destruct H1; contradiction); cbn [event_op]; try reflexivity.
  destruct (set_current_grad_scale s0 s) as [s1 r] eqn:E. apply set_current_grad_scale_frame in E as ((_ & E & _) & _). exact E.
Qed.
Lemma scalings_frame es : forall s, Forall is_scaling es -> s_steps (run c es s) = s_steps s /\ s_groups (run c es s) = s_groups s.
Proof.
  induction es as [|e es IH]; intros s H; [split; reflexivity|]. apply Forall_cons_iff in H as [H1 H2]. cbn [run]. destruct (IH (fst (event_op c e s)) H2) as [-> ->].
  destruct e; try contradiction; cbn [event_op]; try (split; reflexivity).
  destruct (set_current_grad_scale s0 s) as [s1 r] eqn:E. apply set_current_grad_scale_frame in E as ((E1 & _ & _ & E2 & _) & _). split; assumption.
Qed.

Definition wr (gs : list (nat * option tensor)) (par : nat -> pslot) : nat -> pslot :=
  fold_left (fun par '(p, g) => upd par p (mkP (p_val (par p)) g (p_buf (par p)))) gs par.
Lemma writes_run gs : forall st, run c (writes gs) st = set_par (wr gs (s_par st)) st /\ quiet c (writes gs) st.
Proof.
  induction gs as [|[p g] gs IH]; intros st; [split; [destruct st; reflexivity|exact I]|]. cbn [writes map run quiet event_op]. unfold modify. cbn [fst snd]. fold (writes gs).
  match goal with |- context [run c _ ?x] => destruct (IH x) as [-> Q] end. split; [reflexivity|]. split; [reflexivity|exact Q].
Qed.
Lemma wr_keeps gs : forall par p, p_val (wr gs par p) = p_val (par p) /\ p_buf (wr gs par p) = p_buf (par p) /\ (~ In p (map fst gs) -> wr gs par p = par p).
Proof.
  induction gs as [|[x g] gs IH]; intros par p; [auto|]. cbn [wr fold_left map fst].
  destruct (IH (upd par x (mkP (p_val (par x)) g (p_buf (par x)))) p) as (E1 & E2 & E3). unfold wr in *. rewrite E1, E2. unfold upd in *.
  destruct (Nat.eqb_spec p x) as [Ex|N]; cbn; (split; [congruence|split; [congruence|]]).
  - subst x. intros H. exfalso. apply H. left. reflexivity.
  - intros H. apply E3. intros J. apply H. right. exact J.
Qed.
Lemma wr_agree gs : forall par par', (forall p, p_val (par' p) = p_val (par p) /\ p_buf (par' p) = p_buf (par p) /\ (In p (map fst gs) \/ p_grad (par' p) = p_grad (par p))) ->
  forall p, wr gs par' p = wr gs par p.
Proof.
  induction gs as [|[x g] gs IH]; intros par par' H p.
  - destruct (H p) as (E1 & E2 & [[]|E3]). cbn. destruct (par p), (par' p). cbn in *. congruence.
  - cbn [wr fold_left]. apply IH. intros y. unfold upd. destruct (Nat.eqb_spec y x) as [->|N].
    + destruct (H x) as (E1 & E2 & _). cbn. auto.
    + destruct (H y) as (E1 & E2 & E3). split; [exact E1|]. split; [exact E2|]. destruct E3 as [[E3|E3]|E3]; [cbn in E3; congruence|left; exact E3|right; exact E3].
Qed.

(** ** The passes over the micro-batches *)

Lemma acc1_par f st t : acc1 c (set_par f st) t = set_par f (acc1 c st t).
Proof.
  destruct t as [[m x] g]. unfold acc1. change (waits c (set_par f st) m) with (waits c st m). destruct (waits c st m); [|reflexivity].
  unfold accumulate_H_terms, sbind, getS, lift. cbn [set_par s_groups s_steps s_scales s_slots]. destruct (get_group c (s_groups st) m) as [gr|]; [|reflexivity].
  destruct (local_H _ _ _ _ _ _) as [[hk hc]|]; [|reflexivity]. unfold on_slots. cbn [set_par s_slots]. destruct (store_H hk hc _) as [s r]. reflexivity.
Qed.
Lemma accs_par f ts : forall st, fold_left (acc1 c) ts (set_par f st) = set_par f (fold_left (acc1 c) ts st).
Proof. induction ts as [|t ts IH]; intros st; [reflexivity|]. cbn. rewrite acc1_par. apply IH. Qed.

Lemma acc_ok_par f st t : acc_ok c (set_par f st) t <-> acc_ok c st t.
Proof.
  destruct t as [[m x] g]. unfold acc_ok. change (waits c (set_par f st) m) with (waits c st m). destruct (waits c st m); [|reflexivity].
  unfold accumulate_H_terms, sbind, getS, lift. cbn [set_par s_groups s_steps s_scales s_slots]. destruct (get_group c (s_groups st) m) as [gr|]; [|reflexivity].
  destruct (local_H _ _ _ _ _ _) as [[hk hc]|]; [|reflexivity]. unfold on_slots. cbn [set_par s_slots]. destruct (store_H hk hc _) as [s r]. reflexivity.
Qed.
Lemma accs_ok_par f ts : forall st, accs_ok c ts (set_par f st) <-> accs_ok c ts st.
Proof. induction ts as [|t ts IH]; intros st; [reflexivity|]. cbn [accs_ok]. rewrite acc_ok_par, acc1_par, IH. reflexivity. Qed.
Lemma accs_ok_app a b : forall st, accs_ok c (a ++ b) st <-> accs_ok c a st /\ accs_ok c b (fold_left (acc1 c) a st).
Proof. induction a as [|t a IH]; intros st; cbn [accs_ok app fold_left]; [tauto|]. rewrite IH. tauto. Qed.

Lemma micros_run us mid : forall js st,
  exists P par, run c (flat_map (fun j => pass (map (micro_call j) us) ++ writes (mid j)) js) st = set_par par (set_pend P (fold_left (acc1 c) (micro_calls us js) st)) /\
    (forall p, p_val (par p) = p_val (s_par st p) /\ p_buf (par p) = p_buf (s_par st p) /\ ((forall j, ~ In p (map fst (mid j))) -> par p = s_par st p)) /\
    (Forall (fun u => fwd_ok c st (call_mod (b_call u))) us -> accs_ok c (micro_calls us js) st ->
     quiet c (flat_map (fun j => pass (map (micro_call j) us) ++ writes (mid j)) js) st).
Proof.
  induction js as [|j js IH]; intros st.
  - exists (s_pend st), (s_par st). split; [destruct st; reflexivity|]. split; [auto|]. intros _ _. exact I.
  - cbn [flat_map micro_calls]. fold (micro_calls us js). rewrite !run_app.
    destruct (pass_run c (map (micro_call j) us) st) as (P & EPS & _ & Q1). rewrite EPS.
    destruct (writes_run (mid j) (set_pend P (fold_left (acc1 c) (rev (map (micro_call j) us)) st))) as [EWR Q2]. rewrite EWR.
    match goal with |- context [run c _ ?x] => set (st1 := x) end. destruct (IH st1) as (P2 & par & -> & H1 & H2).
    assert (EF : fold_left (acc1 c) (micro_calls us js) st1 = set_par (s_par st1) (set_pend P (fold_left (acc1 c) (rev (map (micro_call j) us) ++ micro_calls us js) st))).
    { unfold st1 at 1. rewrite accs_par, accs_pend, fold_left_app. reflexivity. }
    destruct (accs_slots c (rev (map (micro_call j) us)) st) as (sl & ESL).
    exists P2, par. split; [|split].
    + rewrite EF. reflexivity.
    + intros p. destruct (H1 p) as (E1 & E2 & E3). assert (EP : s_par st1 p = wr (mid j) (s_par st) p) by (unfold st1; rewrite ESL; reflexivity).
      destruct (wr_keeps (mid j) (s_par st) p) as (W1 & W2 & W3). rewrite E1, E2, EP, W1, W2. split; [reflexivity|]. split; [reflexivity|].
      intros H. rewrite (E3 H), EP. apply W3. apply H.
    + intros FW AO. rewrite accs_ok_app in AO. destruct AO as [AO1 AO2]. rewrite !quiet_app. split; [split; [|]|].
      * apply Q1. split; [|rewrite accs_ok_pend; exact AO1]. apply Forall_forall. intros t Ht. apply in_map_iff in Ht as (u & <- & Hu). rewrite micro_mod. rewrite Forall_forall in FW. exact (FW u Hu).
      * rewrite EPS. apply writes_run.
      * rewrite run_app, EPS, EWR. fold st1. apply H2; [unfold st1; rewrite ESL; exact FW|]. unfold st1. rewrite accs_ok_par, accs_ok_pend. exact AO2.
Qed.

(** The hooks see the same in both states. *)
Definition same_view (st st' : state) : Prop :=
  s_steps st' = s_steps st /\ s_scales st' = s_scales st /\ s_groups st' = s_groups st /\
  forall m, In m (c_mods c) -> s_slots st' (m_key m) = s_slots st (m_key m).
Lemma acc1_view st st' t : same_view st st' -> In (call_mod t) (c_mods c) -> same_view (acc1 c st t) (acc1 c st' t) /\ (acc_ok c st t <-> acc_ok c st' t).
Proof.
  intros V Hm. pose proof V as (V1 & V2 & V3 & V4). destruct t as [[m x] g]. cbn [call_mod] in Hm. unfold acc1, acc_ok.
  assert (EW : waits c st' m = waits c st m) by (unfold waits; rewrite V1, V3; reflexivity). rewrite EW. destruct (waits c st m); [|split; [exact V|reflexivity]].
  unfold accumulate_H_terms, sbind, getS, lift. rewrite V3. destruct (get_group c (s_groups st) m) as [gr|]; [|split; [exact V|reflexivity]].
  rewrite V1, V2, (V4 m Hm). destruct (local_H _ _ _ _ _ _) as [[hk hc]|]; [|split; [exact V|reflexivity]]. unfold on_slots. rewrite (V4 m Hm).
  destruct (store_H hk hc _) as [s r]. cbn [fst snd]. split; [|reflexivity]. unfold same_view. cbn. do 3 (split; [assumption|]).
  intros m' Hm'. unfold upd. destruct (Nat.eqb _ _); [reflexivity|apply V4; exact Hm'].
Qed.
Lemma accs_view ts : forall st st', same_view st st' -> Forall (fun t => In (call_mod t) (c_mods c)) ts ->
  same_view (fold_left (acc1 c) ts st) (fold_left (acc1 c) ts st') /\ (accs_ok c ts st <-> accs_ok c ts st').
Proof.
  induction ts as [|t ts IH]; intros st st' V H; [split; [exact V|reflexivity]|]. apply Forall_cons_iff in H as [H1 H2]. cbn [fold_left accs_ok].
  destruct (acc1_view st st' t V H1) as [V' A]. destruct (IH _ _ V' H2) as [V2 A2]. split; [exact V2|]. rewrite A, A2. reflexivity.
Qed.

(** ** One iteration *)

Lemma iteration it st st' :
  k = i_k it -> iter_ok c it -> equal c st st' -> all_clear c st -> slots_typed c ty st -> Forall plain (s_groups st) -> quiet c (whole_iter it) st ->
  let s := run c (whole_iter it) st in let s' := run c (micro_iter it) st' in
  equal c s s' /\ all_clear c s /\ slots_typed c ty s /\ Forall plain (s_groups s) /\ quiet c (micro_iter it) st'.
Proof.
  intros Ek (I1 & I2 & _ & I4 & I5) EQ CL TY PL Q. cbv zeta. unfold whole_iter, micro_iter in *. rewrite <- Ek in *.
  rewrite !quiet_app in Q. destruct Q as (QP & QC & QW & QS & QE). rewrite !run_app, !quiet_app in *.
  assert (F1 : Forall (fun e => is_setting e \/ is_scaling e) (i_pre it)) by (eapply Forall_impl; [|exact I1]; cbn; auto).
  assert (F2 : Forall (fun e => is_setting e \/ is_scaling e) (i_post it)) by (eapply Forall_impl; [|exact I2]; cbn; auto).
  (* settings *)
  assert (N0 : nearly st st').
  { destruct EQ as (E1 & E2 & E3). split; [split; [exact E1|split; [exact E2|]]|split; assumption]. intros m Hm. rewrite (E3 m Hm). apply arel_eq; apply CL; exact Hm. }
  destruct (nearly_settings _ st st' F1 N0) as [N1 QP']. pose proof (settings_slots _ st F1) as SL1. pose proof (settings_slots _ st' F1) as SL1'.
  specialize (QP' QP). set (st1 := run c (i_pre it) st) in *. set (st1' := run c (i_pre it) st') in *. clearbody st1 st1'.
  assert (CL1 : all_clear c st1) by (intros m Hm; rewrite SL1; apply CL; exact Hm).
  assert (V1 : same_view st1 st1').
  { destruct N1 as (((A1 & A2 & A3 & _) & _) & _). do 3 (split; [assumption|]). intros m Hm. rewrite SL1, SL1'. apply EQ. exact Hm. }
  destruct N1 as ((AL1 & PA1 & _) & TY1 & PL1). clear SL1 SL1' N0 EQ CL TY PL QP.
  (* passes *)
  set (us := i_calls it) in *. set (cs := rev (map b_call us)).
  assert (CO : Forall (call_ok c) cs).
  { apply Forall_forall. intros t Ht. apply in_rev in Ht. apply in_map_iff in Ht as (u & <- & Hu). eapply bcall_call_ok. rewrite Forall_forall in I4. exact (I4 u Hu). }
  destruct (pass_run c (map b_call us) st1) as (P & EP & _ & QPS). fold cs in EP, QPS. apply QPS in QC as [FW AO]. rewrite accs_ok_pend in AO.
  destruct (accs_spec c ty TO ND cs st1 TY1 CO) as [SOI SP]. apply SOI in AO. destruct (SP AO) as [TYc SPc].
  assert (SO : Forall (fun u => stat_ok c st1 (b_call u)) us).
  { apply Forall_forall. intros u Hu. rewrite Forall_forall in AO. apply AO. unfold cs. apply in_rev. rewrite rev_involutive. apply in_map. exact Hu. }
  assert (HL : forall m g, In m (c_mods c) -> get_group c (s_groups st1) m = Ok g -> mean_loss g) by (intros m g _ Eg; apply (plain_group _ _ _ PL1 Eg)).
  destruct (micros_run us (i_mid it) (seq 0 k) st1') as (P' & par & EM & PAR & QM).
  assert (MC : Forall (fun t => In (call_mod t) (c_mods c)) (micro_calls us (seq 0 k))).
  { apply Forall_forall. intros t Ht. unfold micro_calls in Ht. apply in_flat_map in Ht as (j & _ & Ht). apply in_rev in Ht. apply in_map_iff in Ht as (u & <- & Hu).
    rewrite micro_mod. rewrite Forall_forall in I4. specialize (I4 u Hu). unfold bcall_ok in I4. destruct (b_call u) as [[m x] g]. apply I4. }
  destruct (accs_view _ _ _ V1 MC) as [VW AOV].
  assert (AOM : c_mods c <> [] -> accs_ok c (micro_calls us (seq 0 k)) st1 /\ True).
  { intros _. split; [|exact I]. destruct us as [|u0 us0] eqn:EU; [unfold micro_calls; clear; induction (seq 0 k); [exact I|exact IHl]|]. rewrite <- EU in *.
    assert (Hm0 : In (call_mod (b_call u0)) (c_mods c)). { rewrite Forall_forall in I4. assert (X : In u0 us) by (rewrite EU; left; reflexivity). specialize (I4 _ X). unfold bcall_ok in I4. destruct (b_call u0) as [[m x] g]. apply I4. }
    destruct (ty (call_mod (b_call u0))) as [[[cK cC] dK] dC] eqn:Et.
    destruct (micro_sums c ty k st1 TO ND Nk TY1 HL us _ cK cC dK dC I4 SO Hm0 Et) as (M1 & M2 & _).
    apply (accs_spec c ty TO ND _ st1 TY1 M2). exact M1. }
  assert (AOM' : accs_ok c (micro_calls us (seq 0 k)) st1).
  { destruct (c_mods c) as [|m0 ms] eqn:EC; [|apply AOM; discriminate]. destruct (micro_calls us (seq 0 k)); [exact I|]. apply Forall_cons_iff in MC as [[] _]. }
  apply AOV in AOM'.
  assert (QM' : quiet c (flat_map (fun j => pass (map (micro_call j) us) ++ writes (i_mid it j)) (seq 0 k)) st1').
  { apply QM; [|exact AOM']. apply Forall_forall. intros u Hu. rewrite Forall_forall in FW. specialize (FW _ (in_map b_call _ _ Hu)). destruct V1 as (A1 & _ & A3 & _).
    unfold fwd_ok in *. rewrite A1, A3. exact FW. }
  (* gradients *)
  rewrite EP in *. rewrite EM in *.
  destruct (writes_run (i_grads it) (set_pend P (fold_left (acc1 c) cs st1))) as [EW _]. rewrite EW in *.
  destruct (writes_run (i_grads it) (set_par par (set_pend P' (fold_left (acc1 c) (micro_calls us (seq 0 k)) st1')))) as [EW' QW']. rewrite EW' in *.
  destruct (accs_slots c cs st1) as (sl & ESL). destruct (accs_slots c (micro_calls us (seq 0 k)) st1') as (sl' & ESL').
  match goal with |- context [run c (i_post it) ?x] => set (st2 := x) end.
  match goal with |- equal c _ (run c _ (run c (i_post it) ?x)) /\ _ => set (st2' := x) end.
  assert (N2 : nearly st2 st2').
  { split; [split; [|split]|split].
    - unfold st2, st2'. rewrite ESL, ESL'. exact AL1.
    - intros p. unfold st2, st2'. cbn [set_par s_par set_pend]. apply wr_agree. intros y. rewrite ESL. cbn [set_slots s_par].
      destruct (PAR y) as (X1 & X2 & X3). rewrite (PA1 y) in *. split; [exact X1|]. split; [exact X2|].
      destruct (in_dec Nat.eq_dec y (map fst (i_grads it))) as [J|J]; [left; exact J|right]. rewrite X3; [reflexivity|]. intros j Hj. apply J. exact (I5 j y Hj).
    - intros m Hm. unfold st2, st2'. cbn [set_par s_slots set_pend]. destruct VW as (_ & _ & _ & VS). rewrite (VS m Hm).
      destruct (CL1 m Hm) as [C1 C2]. exact (micro_arel c ty k st1 TO ND Nk TY1 HL us m I4 SO Hm C1 C2).
    - intros m Hm. specialize (TYc m Hm). exact TYc.
    - unfold st2. rewrite ESL. exact PL1. }
  (* before the step *)
  destruct (nearly_settings _ st2 st2' F2 N2) as [N3 QS']. specialize (QS' QS). pose proof (settings_slots _ st2 F2) as SL3. destruct (scalings_frame _ st2 I2) as [SS3 SG3].
  assert (D : forall m, In m (c_mods c) -> due_now c m (run c (i_post it) st2) \/ clear (s_slots (run c (i_post it) st2) (m_key m))).
  { intros m Hm. rewrite SL3. destruct (ty m) as [[[cK cC] dK] dC] eqn:Et. destruct (SPc m cK cC dK dC Hm Et) as [_ X]. cbv zeta in X.
    assert (G1 : s_steps st2 = s_steps st1 /\ s_groups st2 = s_groups st1) by (unfold st2; rewrite ESL; split; reflexivity). destruct G1 as [G1 G2].
    destruct (existsb (here c st1 m) cs) eqn:EH.
    - left. apply existsb_exists in EH as (t & Ht & Hh). unfold here in Hh. apply andb_true_iff in Hh as [Hk Hw]. apply Nat.eqb_eq in Hk.
      rewrite Forall_forall in CO. specialize (CO t Ht). unfold call_ok in CO. destruct t as [[m' x] g]. cbn [call_mod] in *. destruct CO as [Hm' _].
      destruct (same_key (c_mods c) m m' ND Hm Hm') as [Dk|Em]; [congruence|]. subst m'. unfold waits in Hw. unfold due_now. rewrite SS3, SG3, G1, G2.
      destruct (get_group c (s_groups st1) m) as [gr|]; [|discriminate]. exists gr. split; [reflexivity|]. destruct (is_update_step gr (s_steps st1)) as [[|]|]; try discriminate. reflexivity.
    - right. unfold st2. cbn [set_par s_slots set_pend]. rewrite X. apply CL1. exact Hm. }
  fold st2 in QE. set (st3 := run c (i_post it) st2) in *. set (st3' := run c (i_post it) st2') in *. clearbody st3 st3'.
  cbn [run quiet event_op] in *. destruct QE as [QE _]. destruct (nearly_step st3 st3' N3) as [X1 X2]. pose proof (step_clear st3 QE D) as CL4.
  destruct X2 as ((Y1 & Y2 & Y3) & Y4 & Y5). split; [|split; [exact CL4|split; [exact Y4|split; [exact Y5|]]]].
  - split; [exact Y1|]. split; [exact Y2|]. intros m Hm. destruct (CL4 m Hm) as [C1 C2]. exact (arel_none k _ _ (Y3 m Hm) C1 C2).
  - split; [exact QP'|]. split; [exact QM'|]. split; [exact QW'|]. split; [exact QS'|]. split; [rewrite <- X1; exact QE|exact I].
Qed.
End Step.

(** ** Training *)

Lemma accumulation_run c ty its : tys_ok c ty -> NoDup (map m_key (c_mods c)) -> forall st st',
  Forall (iter_ok c) its -> equal c st st' -> all_clear c st -> slots_typed c ty st -> Forall plain (s_groups st) -> quiet c (flat_map whole_iter its) st ->
  equal c (run c (flat_map whole_iter its) st) (run c (flat_map micro_iter its) st') /\ quiet c (flat_map micro_iter its) st'.
Proof.
  intros TO ND. induction its as [|it its IH]; intros st st' H EQ CL TY PL Q; [split; [exact EQ|exact I]|]. apply Forall_cons_iff in H as [H1 H2].
  cbn [flat_map] in *. rewrite !run_app, quiet_app in *. destruct Q as [Q1 Q2]. pose proof H1 as (_ & _ & Nk & _).
  destruct (iteration c ty (i_k it) TO ND Nk it st st' eq_refl H1 EQ CL TY PL Q1) as (E1 & E2 & E3 & E4 & E5).
  destruct (IH _ _ H2 E1 E2 E3 E4 Q2) as [R1 R2]. split; [exact R1|]. split; [exact E5|exact R2].
Qed.

Lemma accumulation_setting a par c st0 its :
  setting a par c st0 -> Forall plain (s_groups st0) -> Forall (iter_ok c) its -> quiet c (flat_map whole_iter its) st0 ->
  equal c (run c (flat_map whole_iter its) st0) (run c (flat_map micro_iter its) st0) /\ quiet c (flat_map micro_iter its) st0.
Proof.
  intros SE PL IO Q. pose proof (setting_typed a par c st0 [] SE I) as [TO TA]. pose proof (setting_ok _ _ _ _ SE) as [[ND _] _].
  apply (accumulation_run c (ctor_ty c (s_groups st0)) its TO ND st0 st0 IO); try assumption.
  - repeat split.
  - destruct SE as ((h & h' & E) & _ & _ & _ & SO). pose proof (ctor_slots _ _ _ _ _ _ E ND) as IS.
    intros m Hm. specialize (IS m Hm). unfold init_slots in IS. apply bind_ok in IS as ([d1 d2] & _ & IS). apply bind_ok in IS as (g & _ & IS).
    apply bind_ok in IS as (k1 & _ & IS). apply bind_ok in IS as (k2 & _ & IS). apply bind_ok in IS as (k3 & _ & IS). apply bind_ok in IS as (k4 & _ & IS).
    destruct (feqb _ _); [injection IS as <-; split; reflexivity|]. apply bind_ok in IS as (k5 & _ & IS). apply bind_ok in IS as (k6 & _ & IS). injection IS as <-. split; reflexivity.
  - exact (proj1 TA).
Qed.

Lemma quiet_outcomes c es : forall st, quiet c es st <-> Forall (fun r => r = Ok tt) (outcomes c es st).
Proof.
  induction es as [|e es IH]; intros st; cbn [quiet outcomes]; [split; constructor|]. rewrite Forall_cons_iff, IH. reflexivity.
Qed.
End AccumRun.
