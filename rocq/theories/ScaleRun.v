(** Lemmas: whole training runs with scaled losses. *)

From Coq Require Import List Arith Lia Bool ZArith Field.
From Verif Require Import Scalar Res Tensor TensorFacts Structures StructSpec OptimUtils UtilsFacts Optimizer Construct OptState OptRun OptSpec OptFacts OptTyped OptPre Split CtorFacts ScaleInv.
Import ListNotations.

Section ScaleRun.
Context {SC : Scalar} {FL : FieldLaws SC}.
Add Field FFsr : F_ft.
Open Scope F_scope.

(** ** The two training loops *)

(** A training loop without gradient scaling.  In every iteration: backward passes go through
    outputs of this iteration ([fresh]), every gradient is written anew ([w]; zero_grad), and groups are edited
    before the forward passes only. *)
Fixpoint loop (c : cfg) (fresh w : list nat) (es : list event) : Prop :=
  match es with
  | [] => True
  | EForward m x b out :: es' => loop c (out :: fresh) w es'
  | EBackward out g :: es' => In out fresh /\ loop c fresh w es'
  | EGrad p g :: es' => loop c fresh (p :: w) es'
  | ESetScale _ :: es' => False
  | EScaler a inf :: es' => a = None /\ loop c fresh w es'
  | EStep true :: es' => loop c fresh w es'
  | EStep false :: es' => (forall m p, In m (c_mods c) -> In p (mod_params m) -> In p w) /\ loop c [] [] es'
  | EGroups gs :: es' => fresh = [] /\ loop c fresh w es'
  end.

(** The same loop with the loss multiplied by [sc n] in iteration [n]; the scale is announced
    by [set_current_grad_scale] where [ann n] holds, and by a GradScaler otherwise. *)
Fixpoint scaled (sc : Z -> F) (ann : nat -> bool) (n : nat) (inf : bool) (es : list event) : list event :=
  match es with
  | [] => []
  | EBackward out g :: es' => EBackward out (t_scale (sc (Z.of_nat n)) g) :: scaled sc ann n inf es'
  | EGrad p g :: es' => EGrad p (option_map (t_scale (sc (Z.of_nat n))) g) :: scaled sc ann n inf es'
  | EScaler a i :: es' => EScaler a i :: scaled sc ann n i es'
  | EStep false :: es' =>
      (if ann n then [ESetScale (sc (Z.of_nat n)); EStep false]
       else [EScaler (Some (Some (sc (Z.of_nat n)))) inf; EStep false; EScaler None inf]) ++ scaled sc ann (S n) inf es'
  | e :: es' => e :: scaled sc ann n inf es'
  end.

(** ** Setting the scale *)

Lemma get_key d t : In t (map fst d) -> exists v, get_grad_scale d t = Ok v.
Proof.
  induction d as [|[u v] d IH]; intros H; [destruct H|]. cbn. destruct (Z.eqb_spec u t); [exists v; reflexivity|].
  apply IH. destruct H as [H|H]; [contradiction|exact H].
Qed.
Lemma get_nokey d t : ~ In t (map fst d) -> get_grad_scale d t = Err KeyError.
Proof.
  induction d as [|[u v] d IH]; intros H; [reflexivity|]. cbn in *. destruct (Z.eqb_spec u t); [tauto|]. apply IH. tauto.
Qed.
Lemma set_scale_ok v st : scales_ok (s_steps st) (s_scales st) ->
  snd (set_current_grad_scale v st) = Ok tt.
Proof.
  intros (_ & _ & I). unfold set_current_grad_scale, sbind, getS, modify, lift, ret. destruct (Nat.eqb_spec (s_steps st) 0) as [E|E]; [|reflexivity].
  rewrite E in *. cbn [Z.of_nat] in *. rewrite get_put_other by discriminate. change (0 - 1)%Z with (-1)%Z in I. destruct (get_key _ _ I) as (u & ->). rewrite get_put_same.
  destruct (_ && _); reflexivity.
Qed.
Lemma ensure_ok v st : scales_ok (s_steps st) (s_scales st) -> step_scale st = Ok v -> snd (ensure_scale st) = Ok tt.
Proof.
  intros S H. unfold ensure_scale, step_scale, sbind, getS in *. destruct (get_grad_scale _ _) as [u|]; [reflexivity|].
  destruct (s_amp st) as [[u|]|]; [apply set_scale_ok; exact S|discriminate|apply set_scale_ok; exact S].
Qed.

Lemma and_drop (A B : Prop) : (A /\ True /\ B) <-> (A /\ B).
Proof. tauto. Qed.

(** ** The invariant *)

(** The update is due for the module. *)
Definition due_now (c : cfg) (m : modul) (st : state) : Prop :=
  exists g, get_group c (s_groups st) m = Ok g /\ is_update_step g (s_steps st) = Ok true.

Definition tidy (c : cfg) (fresh : list nat) (st : state) : Prop :=
  (forall out m x, In out fresh -> s_pend st out = Some (m, x) -> due_now c m st) /\
  (forall m, In m (c_mods c) -> sl_HC (s_slots st (m_key m)) <> None -> fresh <> [] /\ due_now c m st).

Definition inv (c : cfg) (ty : tys) (sc : Z -> F) (fresh w : list nat) (st st' : state) : Prop :=
  let n := Z.of_nat (s_steps st) in
  strel c w (sc n) (sc n * sc n / sc (n - 1)%Z) st st' /\ all_typed c ty st /\ tidy c fresh st /\
  scales_ok (s_steps st) (s_scales st) /\ scales_ok (s_steps st) (s_scales st') /\
  get_grad_scale (s_scales st) (n - 1) = Ok 1 /\ get_grad_scale (s_scales st) n = Err KeyError /\
  get_grad_scale (s_scales st') (n - 1) = Ok (sc (n - 1)%Z) /\ get_grad_scale (s_scales st') n = Err KeyError /\
  s_amp st = None /\ s_amp st' = None.

Lemma due_same c m st st' : s_steps st' = s_steps st -> s_groups st' = s_groups st -> due_now c m st -> due_now c m st'.
Proof. intros E1 E2 (g & H1 & H2). exists g. rewrite E1, E2. auto. Qed.

(** A due update consumes H_C. *)
Lemma update_slots_HC g l n sc s : is_update_step g n = Ok true -> snd (update_slots g l n sc s) = Ok tt -> sl_HC (fst (update_slots g l n sc s)) = None.
Proof.
  intros Eu H. unfold update_slots in *. unfold sbind at 1, lift at 1 in H. unfold sbind at 1, lift at 1. rewrite Eu in *. cbn [negb] in *.
  unfold sbind, entry, modify, lift in *.
  destruct (lookup (sl_K s)); [|discriminate]. destruct (lookup (sl_C s)); [|discriminate]. destruct (lookup (sl_HK s)); [|discriminate].
  destruct (lookup (sl_HC (set_HK None s))); [|discriminate].
  destruct (get_grad_scale sc (Z.of_nat n - 1)); [|discriminate]. destruct (get_grad_scale sc (Z.of_nat n)); [|discriminate].
  destruct (grad_unscaling _ _); [|discriminate]. destruct (new_momenta _ _ _ _ _ _ _) as [[mK mC]|]; [|discriminate].
  assert (A : sl_HC (fst (apply_momenta g mK mC (set_HC None (set_HK None s)))) = None).
  { unfold apply_momenta. destruct (feqb _ _); [reflexivity|]. unfold sbind, entry, lift, modify, ret. destruct (lookup _); [|reflexivity].
    destruct (add_ _ _ _); [|reflexivity]. destruct (lookup _); [|reflexivity]. destruct (add_ _ _ _); reflexivity. }
  destruct (apply_momenta g mK mC (set_HC None (set_HK None s))) as [s3 [[mK' mC']|]]; [|discriminate]. cbn [fst] in A.
  destruct (normalized_lr g (lr_cov_at g n) mK'); [|discriminate]. destruct (normalized_lr g (lr_cov_at g n) mC'); [|discriminate].
  destruct (matmul_s _ mK'); [|discriminate]. destruct (add_ _ _ _); [|discriminate]. destruct (matmul_s _ mC'); [|discriminate].
  destruct (add_ _ _ _); [|discriminate]. exact A.
Qed.

Lemma step_module_HC c m st : snd (step_module c m st) = Ok tt ->
  (exists g, get_group c (s_groups st) m = Ok g) /\
  (due_now c m st \/ sl_HC (s_slots st (m_key m)) = None -> sl_HC (s_slots (fst (step_module c m st)) (m_key m)) = None).
Proof.
  intros H. unfold step_module in *. unfold sbind at 1 in H. unfold sbind at 1.
  assert (U : forall s1, update_preconditioner c m st = (s1, Ok tt) -> (exists g, get_group c (s_groups st) m = Ok g) /\
    (due_now c m st \/ sl_HC (s_slots st (m_key m)) = None -> sl_HC (s_slots s1 (m_key m)) = None)).
  { intros s1 E. unfold update_preconditioner, sbind, getS, lift in E. destruct (get_group c (s_groups st) m) as [g|] eqn:Eg; [|discriminate].
    split; [exists g; reflexivity|]. unfold on_slots in E. destruct (update_slots g (m_layer m) (s_steps st) (s_scales st) (s_slots st (m_key m))) as [s' r] eqn:Es.
    injection E as <- ->. cbn. rewrite upd_eq. intros [(g' & Eg' & D)|D].
    - rewrite Eg in Eg'. injection Eg' as <-. pose proof (update_slots_HC g (m_layer m) (s_steps st) (s_scales st) (s_slots st (m_key m)) D) as X.
      rewrite Es in X. apply X. reflexivity.
    - destruct (is_update_step g (s_steps st)) as [[|]|] eqn:Eu.
      + pose proof (update_slots_HC g (m_layer m) (s_steps st) (s_scales st) (s_slots st (m_key m)) Eu) as X. rewrite Es in X. apply X. reflexivity.
      + unfold update_slots, sbind at 1, lift at 1 in Es. rewrite Eu in Es. cbn [negb] in Es. injection Es as <-. exact D.
      + unfold update_slots, sbind at 1, lift at 1 in Es. rewrite Eu in Es. discriminate. }
  destruct (update_preconditioner c m st) as [s1 [[]|]] eqn:E1; [|discriminate]. destruct (U s1 eq_refl) as [UG UH]. split; [exact UG|]. intros D. specialize (UH D).
  match goal with |- context [fst (?x s1)] => assert (K : keeps (fun a b => s_slots b = s_slots a) x) end.
  { assert (Tr : forall a b d : state, s_slots b = s_slots a -> s_slots d = s_slots b -> s_slots d = s_slots a) by (intros; congruence).
    assert (OP : forall p (f : SM pslot unit), keeps (fun a b => s_slots b = s_slots a) (on_par p f)).
    { intros p f s0. unfold on_par. destruct (f (s_par s0 p)). reflexivity. }
    apply keeps_bind; [exact Tr| |].
    { unfold compute_natural_gradient. apply keeps_bind; [exact Tr|apply keeps_getS; reflexivity|]. intros s0.
      apply keeps_bind; [exact Tr|apply keeps_lift; reflexivity|]. intros N. apply keeps_lift. reflexivity. }
    intros [a b]. apply keeps_bind; [exact Tr|apply keeps_getS; reflexivity|]. intros s0. apply keeps_bind; [exact Tr|apply keeps_lift; reflexivity|]. intros g0.
    apply keeps_bind; [exact Tr|apply OP|]. intros _. destruct (m_bias m); [|apply keeps_ret; reflexivity]. destruct b; [apply OP|apply keeps_ret; reflexivity]. }
  rewrite (K s1). exact UH.
Qed.

Lemma steps_HC c : forall l st st', NoDup (map m_key l) -> forS (step_module c) l st = (st', Ok tt) ->
  (forall m, In m l -> due_now c m st \/ sl_HC (s_slots st (m_key m)) = None) ->
  forall m, In m l -> sl_HC (s_slots st' (m_key m)) = None.
Proof.
  induction l as [|a l IH]; intros st st' ND H D m Hm; [destruct Hm|]. cbn [forS] in H. apply sbind_ok in H as (s1 & [] & H1 & H2).
  cbn in ND. apply NoDup_cons_iff in ND as [N1 N2]. pose proof (step_module_frame c a st) as F. rewrite H1 in F. cbn [fst] in F.
  destruct F as (F1 & F2 & F3 & F4 & F5 & F6 & F7 & F8 & F9).
  pose proof (step_module_HC c a st) as X. rewrite H1 in X. cbn [fst snd] in X. destruct (X eq_refl) as [_ X2]. specialize (X2 (D a (or_introl eq_refl))).
  assert (D' : forall m', In m' l -> due_now c m' s1 \/ sl_HC (s_slots s1 (m_key m')) = None).
  { intros m' Hm'. destruct (D m' (or_intror Hm')) as [Y|Y]; [left; exact (due_same c m' st s1 F1 F3 Y)|right]. rewrite F8; [exact Y|].
    intros E. injection E as E. apply N1. rewrite <- E. apply in_map. exact Hm'. }
  destruct Hm as [<-|Hm]; [|exact (IH s1 st' N2 H2 D' m Hm)].
  apply steps_frame in H2 as (_ & _ & _ & _ & _ & _ & _ & B8 & _). rewrite B8 by exact N1. exact X2.
Qed.

Section Run.
Variables (c : cfg) (ty : tys) (sc : Z -> F) (ann : nat -> bool).
Hypothesis TO : tys_ok c ty.
Hypothesis ND : NoDup (map m_key (c_mods c)).
Hypothesis HS : forall t, good (sc t).

Lemma ratio t : sc t * sc t / sc (t - 1)%Z * (sc (t - 1)%Z / (sc t * sc t)) = 1.
Proof. field. split; apply HS. Qed.

(** One successful step of both. *)
Lemma inv_step fresh w st st' t0 :
  inv c ty sc fresh w st st' -> (forall m p, In m (c_mods c) -> In p (mod_params m) -> In p w) ->
  snd (step c false st) = Ok tt ->
  strel c w (sc (Z.of_nat (s_steps st))) (sc (Z.of_nat (s_steps st)) * sc (Z.of_nat (s_steps st)) / sc (Z.of_nat (s_steps st) - 1)%Z) st t0 ->
  scales_ok (s_steps st) (s_scales t0) -> get_grad_scale (s_scales t0) (Z.of_nat (s_steps st) - 1) = Ok (sc (Z.of_nat (s_steps st) - 1)%Z) ->
  step_scale t0 = Ok (sc (Z.of_nat (s_steps st))) ->
  let s2 := fst (step c false st) in let t2 := fst (step c false t0) in
  snd (step c false t0) = Ok tt /\ s_steps s2 = S (s_steps st) /\ s_inf s2 = s_inf st /\ s_amp t2 = s_amp t0 /\
  (forall t3, t3 = set_amp None (s_inf t2) t2 -> inv c ty sc [] [] s2 t3).
Proof.
  intros (R & TA & (TD1 & TD2) & S1 & S2 & G1 & G2 & G3 & G4 & A1 & A2) HW OK Rt St Gt SSt.
  pose proof Rt as (Q1 & Q2 & Q3 & Q4 & Q5 & Q6 & Q7). cbv zeta.
  destruct (step c false st) as [s2 r] eqn:E. cbn [snd fst] in *. subst r.
  assert (ES : all_typed c ty s2).
  { pose proof (event_all_typed c ty (EStep false) st TO ND TA I) as X. cbn [event_op] in X. rewrite E in X. exact X. }
  pose proof (step_scales_ok c false st S1) as Z1. rewrite E in Z1. cbn [fst] in Z1.
  assert (St' : scales_ok (s_steps t0) (s_scales t0)) by (rewrite Q1; exact St).
  pose proof (step_scales_ok c false t0 St') as Z2.
  apply step_cases in E as [(D & _)|(_ & s1 & [(e & _ & _ & D)|(E & D)])]; [discriminate..|].
  pose proof E as E'. apply ensure_scale_frame in E' as ((B1 & B2 & B3 & B4 & B5 & B6 & B7) & B8 & B9). specialize (B9 eq_refl).
  unfold step_scale in B9. rewrite G2, A1 in B9.
  pose proof (ensure_ok _ t0 St' SSt) as Et. destruct (ensure_scale t0) as [t1 r1] eqn:Et1. cbn [snd] in Et. subst r1.
  pose proof Et1 as Et2. apply ensure_scale_frame in Et2 as ((C1 & C2 & C3 & C4 & C5 & C6 & C7) & C8 & C9). specialize (C9 eq_refl). rewrite SSt in C9.
  assert (HS0 : forall v, (step c false t0 = v -> step c false t0 = v)) by auto. clear HS0.
  destruct D as [(Hi & _ & Es2)|(Hi & s1b & r2 & EA & D)].
  - (* overflow *)
    assert (Et3 : step c false t0 = (finish (drop_H c (set_log (s_log t1 ++ [WarnInf]) t1)), Ok tt)).
    { unfold step, sbind at 1. rewrite Et1. unfold sbind, getS, modify. rewrite C6, Q3, Hi. reflexivity. }
    rewrite Et3 in *. cbn [fst snd] in *. split; [reflexivity|]. subst s2. split; [unfold finish; cbn; congruence|]. split; [unfold finish; cbn; congruence|]. split; [unfold finish; cbn; congruence|].
    assert (EH : forall (x : state) m, In m (c_mods c) -> s_slots (finish (drop_H c x)) (m_key m) = set_HC None (set_HK None (s_slots x (m_key m)))).
    { intros x m Hm. unfold finish, drop_H. cbn. replace (existsb (fun m0 => m_key m0 =? m_key m)%nat (c_mods c)) with true; [reflexivity|].
      symmetry. apply existsb_exists. exists m. split; [exact Hm|apply Nat.eqb_refl]. }
    intros t3 ->. assert (ESt : s_steps (finish (drop_H c (set_log (s_log s1 ++ [WarnInf]) s1))) = S (s_steps st)) by (unfold finish; cbn; congruence).
    assert (ESt' : s_steps (finish (drop_H c (set_log (s_log t1 ++ [WarnInf]) t1))) = S (s_steps st)) by (unfold finish; cbn; congruence).
    unfold inv. cbv zeta. rewrite ESt in *. rewrite ESt' in *. replace (Z.of_nat (S (s_steps st)) - 1)%Z with (Z.of_nat (s_steps st)) by lia.
    split; [|split; [exact ES|split; [|split; [exact Z1|split; [exact Z2|]]]]].
    + unfold strel. split; [cbn; congruence|]. split; [cbn; congruence|]. split; [cbn; congruence|]. split; [cbn; congruence|]. split; [|split].
      * intros m Hm. change (s_slots (set_amp None (s_inf (finish (drop_H c (set_log (s_log t1 ++ [WarnInf]) t1)))) (finish (drop_H c (set_log (s_log t1 ++ [WarnInf]) t1)))))
          with (s_slots (finish (drop_H c (set_log (s_log t1 ++ [WarnInf]) t1)))). rewrite !EH by exact Hm. cbn [set_log s_slots].
        rewrite C2, B2. destruct (Q5 m Hm) as (X1 & X2 & X3 & X4 & X5 & X6). unfold srel. cbn. repeat split; assumption.
      * intros p. cbn. rewrite C3, B3. apply Q6.
      * intros p [].
    + split; [intros out m x []|]. intros m Hm HH. exfalso. apply HH. rewrite EH by exact Hm. reflexivity.
    + unfold finish. cbn [s_scales set_scales set_steps set_amp drop_H set_slots set_log s_amp s_steps].
      assert (N1 : forall d, scales_ok (S (s_steps st)) d -> get_grad_scale d (Z.of_nat (S (s_steps st))) = Ok 1 \/ True) by auto. clear N1.
      rewrite B1, C1, Q1. rewrite !get_remove by lia. rewrite B9. rewrite Q1 in C9. rewrite C9.
      split; [reflexivity|]. split; [|split; [reflexivity|split; [|split; [congruence|reflexivity]]]].
      * rewrite B8 by lia. apply get_nokey. intros I. destruct S1 as (_ & S1 & _). apply S1 in I. lia.
      * rewrite C8 by lia. apply get_nokey. intros I. destruct St as (_ & S3 & _). apply S3 in I. lia.
  - (* update *)
    destruct r2 as [[]|]; destruct D as [D Es2]; [|discriminate]. subst s2.
    set (q := sc (Z.of_nat (s_steps st))) in *. set (p := sc (Z.of_nat (s_steps st) - 1)%Z) in *.
    assert (DU : during c ty w p q (q * q / p) s1 t1).
    { split; [|split].
      - unfold strel. rewrite B1, B2, B3, B4, B6, B7, C1, C2, C3, C4, C6, C7. repeat (split; [assumption|]). assumption.
      - intros m Hm. pose proof (proj1 TA m Hm) as X. unfold mod_typed in *. rewrite B2. exact X.
      - rewrite B1. rewrite Q1 in C9, C8. split; [rewrite B8 by lia; exact G1|]. split; [exact B9|]. split; [rewrite C8 by lia; exact Gt|exact C9]. }
    assert (Nq : q <> 0) by apply HS. pose proof (ratio (Z.of_nat (s_steps st))) as Hr. fold q p in Hr.
    destruct (during_all c ty w p q (q * q / p) TO ND Nq Hr HW s1 t1 DU) as [X1 X2]. rewrite EA in X1, X2. cbn [fst snd] in X1, X2.
    destruct (step_all c t1) as [t1b r3] eqn:EB. cbn [fst snd] in X1, X2. subst r3.
    assert (Et3 : step c false t0 = (finish t1b, Ok tt)).
    { unfold step, sbind at 1. rewrite Et1. unfold sbind, getS, modify. rewrite C6, Q3, Hi, EB. reflexivity. }
    rewrite Et3 in *. cbn [fst snd] in *. pose proof (steps_frame c _ _ _ _ EA) as (F1 & F2 & F3 & F4 & F5 & F6 & _).
    pose proof (steps_frame c _ _ _ _ EB) as (H1 & H2 & H3 & H4 & H5 & H6 & _).
    split; [reflexivity|]. split; [unfold finish; cbn; congruence|]. split; [unfold finish; cbn; congruence|]. split; [unfold finish; cbn; congruence|].
    intros t3 ->. assert (ESt : s_steps (finish s1b) = S (s_steps st)) by (unfold finish; cbn; congruence).
    assert (ESt' : s_steps (finish t1b) = S (s_steps st)) by (unfold finish; cbn; congruence).
    assert (HN : forall m, In m (c_mods c) -> sl_HC (s_slots s1b (m_key m)) = None).
    { apply (steps_HC c (c_mods c) s1 s1b ND EA). intros m Hm. rewrite B2. destruct (sl_HC (s_slots st (m_key m))) as [h|] eqn:EH; [left|right; reflexivity].
      apply (due_same c m st s1 B1 B4). apply (TD2 m Hm). rewrite EH. discriminate. }
    destruct X2 as ((Y1 & Y2 & Y3 & Y4 & Y5 & Y6 & Y7) & _).
    unfold inv. cbv zeta. rewrite ESt in *. rewrite ESt' in *. replace (Z.of_nat (S (s_steps st)) - 1)%Z with (Z.of_nat (s_steps st)) by lia.
    split; [|split; [exact ES|split; [|split; [exact Z1|split; [exact Z2|]]]]].
    + unfold strel. split; [cbn; congruence|]. split; [cbn; congruence|]. split; [cbn; congruence|]. split; [cbn; congruence|]. split; [|split].
      * intros m Hm. destruct (Y5 m Hm) as (V1 & V2 & V3 & V4 & V5 & V6). rewrite (HN m Hm) in V6. unfold srel. cbn. rewrite (HN m Hm). auto 10.
      * exact Y6.
      * intros x [].
    + split; [intros out m x []|]. intros m Hm HH. exfalso. apply HH. exact (HN m Hm).
    + unfold finish. cbn [s_scales set_scales set_steps set_amp s_amp s_steps]. rewrite F1, F2, H1, H2, B1, C1, Q1.
      rewrite !get_remove by lia. rewrite Q1 in C9. rewrite B9, C9.
      split; [reflexivity|]. split; [|split; [reflexivity|split; [|split; [congruence|reflexivity]]]].
      * rewrite B8 by lia. apply get_nokey. intros J. destruct S1 as (_ & S1 & _). apply S1 in J. lia.
      * rewrite C8 by (rewrite Q1; lia). apply get_nokey. intros J. destruct St as (_ & S3 & _). apply S3 in J. lia.
Qed.

Lemma inv_run es : forall fresh w st st',
  inv c ty sc fresh w st st' -> loop c fresh w es -> wf_run c es st -> steps_ok c es st ->
  (exists fresh' w', inv c ty sc fresh' w' (run c es st) (run c (scaled sc ann (s_steps st) (s_inf st) es) st')) /\
  steps_ok c (scaled sc ann (s_steps st) (s_inf st) es) st'.
Proof.
  induction es as [|e es IH]; intros fresh w st st' IV L W OK; [split; [exists fresh, w; exact IV|exact I]|].
  destruct W as [W1 W2]. destruct OK as [OK1 OK2]. pose proof (event_all_typed c ty e st TO ND) as TA'.
  pose proof IV as ((R1 & R2 & R3 & R4 & R5 & R6 & R7) & TA & (TD1 & TD2) & S1 & S2 & G1 & G2 & G3 & G4 & A1 & A2). cbv zeta in *. specialize (TA' TA W1).
  cbn [run]. destruct e as [m x b out|out g|p g|v|a inf|cl|gs]; cbn [loop] in L; cbn [scaled run steps_ok].
  - (* forward *)
    assert (F : exists u, fst (event_op c (EForward m x b out) st) = set_pend (upd (s_pend st) out u) st /\
       fst (event_op c (EForward m x b out) st') = set_pend (upd (s_pend st') out u) st' /\ (forall m' x', u = Some (m', x') -> due_now c m' st)).
    { cbn [event_op]. unfold forward_hook, sbind, getS, modify, lift, ret. cbn [set_pend s_groups s_steps s_pend]. rewrite R1, R2.
      destruct (get_group c (s_groups st) m) as [gr|] eqn:Eg; [|exists None; repeat split; intros; discriminate].
      destruct b; cbn [negb]; [|exists None; repeat split; intros; discriminate].
      destruct (is_update_step gr (s_steps st)) as [[|]|] eqn:Eu; try (exists None; repeat split; intros; discriminate).
      exists (Some (m, x)). cbn. split; [|split]; [| |intros m' x' Hu; injection Hu as <- <-; exists gr; auto]; unfold set_pend; cbn; f_equal; reflexivity. }
    destruct F as (u & E1 & E2 & HU). rewrite E1 in *. rewrite E2. apply and_drop. set (s2 := set_pend (upd (s_pend st) out u) st) in *.
    assert (IV2 : inv c ty sc (out :: fresh) w s2 (set_pend (upd (s_pend st') out u) st')).
    { unfold inv. cbv zeta. split; [|split; [exact TA'|split; [|cbn; auto 10]]].
      - unfold strel. cbn. rewrite R4. repeat (split; [assumption || reflexivity|]). assumption.
      - split; [|intros m' Hm' HH; split; [discriminate|exact (proj2 (TD2 m' Hm' HH))]].
        intros o m' x' Ho Hp. unfold s2 in Hp. cbn in Hp. unfold upd in Hp. destruct (Nat.eqb_spec o out) as [->|No].
        + apply (HU _ _ Hp).
        + destruct Ho as [Ho|Ho]; [congruence|]. exact (TD1 o m' x' Ho Hp). }
    exact (IH _ _ _ _ IV2 L W2 OK2).
  - (* backward *)
    destruct L as [L1 L2]. cbn [event_op] in *. unfold sbind, getS in *. apply and_drop. rewrite R4. destruct (s_pend st out) as [[m x]|] eqn:EP.
    2:{ cbn [fst] in *. exact (IH _ _ _ _ IV L2 W2 OK2). }
    pose proof (proj2 TA _ _ _ EP) as Hm. pose proof (TO m Hm) as TOm. pose proof (proj1 TA m Hm) as Tm. unfold mod_typed in Tm. destruct (ty m) as [[[cK cC] dK] dC] eqn:Ety. destruct TOm as (UK & UC & Ed).
    cbn [wf_event] in W1. specialize (W1 m x EP).
    set (q := sc (Z.of_nat (s_steps st))) in *. set (p := sc (Z.of_nat (s_steps st) - 1)%Z) in *.
    assert (A : exists s2 t2, fst (accumulate_H_terms c m x g st) = s2 /\ fst (accumulate_H_terms c m x (t_scale q g) st') = t2 /\
       (s2 = st /\ t2 = st' \/ exists u u', s2 = set_slots (upd (s_slots st) (m_key m) u) st /\ t2 = set_slots (upd (s_slots st') (m_key m) u') st' /\ srel (q * q / p) u u')).
    { do 2 eexists. split; [reflexivity|]. split; [reflexivity|]. unfold accumulate_H_terms, sbind, getS, lift. rewrite R1, R2, G1, G3.
      destruct (get_group c (s_groups st) m) as [gr|]; [|left; auto].
      rewrite (local_H_scaled gr (m_layer m) p q x g _ _ _ _ _ _ _ UK UC Ed Tm (R5 m Hm) W1 (HS _)).
      destruct (local_H gr (m_layer m) (Ok 1) x g (s_slots st (m_key m))) as [[HK HC]|] eqn:EL; [|left; auto]. cbn [bind].
      destruct (local_H_typed _ _ _ _ _ _ _ _ _ _ _ _ UK UC Ed Tm W1 EL) as [VK VC].
      destruct (store_H_scaled HK HC _ _ _ _ _ _ _ UK UC Tm (R5 m Hm) VK VC) as [X1 X2]. right. unfold on_slots.
      destruct (store_H HK HC (s_slots st (m_key m))) as [u r1]. destruct (store_H HK (mul_ HC (q * q / p)) (s_slots st' (m_key m))) as [u' r2]. exists u, u'. cbn in *. auto. }
    destruct A as (s2 & t2 & E1 & E2 & A). rewrite E1 in *. rewrite E2.
    assert (ST : s_steps s2 = s_steps st /\ s_inf s2 = s_inf st) by (destruct A as [[-> _]|(u & u' & -> & _)]; split; reflexivity).
    assert (IV2 : inv c ty sc fresh w s2 t2).
    { destruct A as [[-> ->]|(u & u' & -> & -> & X)]; [exact IV|].
      unfold inv. cbv zeta. split; [|split; [exact TA'|split; [|cbn; auto 10]]].
      - unfold strel. cbn. do 4 (split; [assumption|]). split; [|auto]. intros m' Hm'.
        destruct (same_key (c_mods c) m' m ND Hm' Hm) as [D| ->]; [rewrite !upd_neq by congruence; apply R5; exact Hm'|rewrite !upd_eq; exact X].
      - split; [exact TD1|]. intros m' Hm' HH. cbn in HH. destruct (same_key (c_mods c) m' m ND Hm' Hm) as [D| ->].
        + rewrite upd_neq in HH by congruence. exact (TD2 m' Hm' HH).
        + split; [intros ->; destruct L1|]. exact (TD1 out _ x L1 EP). }
    destruct ST as [ST1 ST2]. rewrite <- ST1, <- ST2. exact (IH _ _ _ _ IV2 L2 W2 OK2).
  - (* gradient *)
    cbn [event_op modify fst] in *. unfold modify in *. cbn [fst] in *.
    apply and_drop. set (s2 := set_par (upd (s_par st) p (mkP (p_val (s_par st p)) g (p_buf (s_par st p)))) st) in *.
    match goal with |- context [run c _ (set_par ?f st')] => set (t2 := set_par f st') end.
    assert (IV2 : inv c ty sc fresh (p :: w) s2 t2).
    { unfold inv. cbv zeta. split; [|split; [exact TA'|split; [exact (conj TD1 TD2)|cbn; auto 10]]].
      unfold strel. cbn. do 4 (split; [assumption|]). split; [exact R5|]. split.
      - intros y. unfold upd. destruct (Nat.eqb_spec y p) as [->|Ny]; [cbn; apply R6|apply R6].
      - intros y Hy. unfold upd. destruct (Nat.eqb_spec y p) as [->|Ny]; [reflexivity|]. destruct Hy as [Hy|Hy]; [congruence|]. exact (R7 y Hy). }
    exact (IH _ _ _ _ IV2 L W2 OK2).
  - (* no scale announced *) destruct L.
  - (* overflow flag *)
    destruct L as [-> L]. apply and_drop. cbn [event_op] in *. unfold modify in *. cbn [fst] in *.
    assert (IV2 : inv c ty sc fresh w (set_amp None inf st) (set_amp None inf st')).
    { unfold inv. cbv zeta. split; [|split; [exact TA'|split; [exact (conj TD1 TD2)|cbn; auto 10]]]. unfold strel. cbn. auto 10. }
    exact (IH _ _ _ _ IV2 L W2 OK2).
  - (* step *)
    destruct cl.
    { cbn [run steps_ok]. apply and_drop. cbn [event_op step] in *. unfold step, raise in *. cbn [fst run] in *. exact (IH _ _ _ _ IV L W2 OK2). }
    destruct L as [HW L]. cbn [event_op] in *.
    destruct (ann (s_steps st)) eqn:An.
    + (* announced by the user *) cbn [app run steps_ok]. apply and_drop. cbn [event_op].
      destruct (set_current_grad_scale (sc (Z.of_nat (s_steps st))) st') as [t1 r1] eqn:E1. apply set_current_grad_scale_frame in E1 as ((B1 & B2 & B3 & B4 & B5 & B6 & B7) & B8).
      cbn [fst]. destruct (inv_step fresh w st st' t1 IV HW OK1) as (X1 & X2 & X3 & X4 & X5).
      * unfold strel. rewrite B1, B2, B3, B4, B6, B7. repeat (split; [assumption|]). assumption.
      * rewrite B8, R1. apply put_scales_ok. exact S2.
      * rewrite B8, R1. rewrite get_put_other by lia. exact G3.
      * unfold step_scale. rewrite B8, B1, R1. rewrite get_put_same. reflexivity.
      * assert (IV2 : inv c ty sc [] [] (fst (step c false st)) (fst (step c false t1))).
        { apply X5. destruct (fst (step c false t1)) as [a1 a2 a3 a4 a5 a6 a7 a8 a9] eqn:Ex. cbn in X4. unfold set_amp. cbn. rewrite X4, B5, A2. reflexivity. }
        rewrite <- X2, <- X3. destruct (IH _ _ _ _ IV2 L W2 OK2) as [J1 J2]. split; [exact J1|]. split; [exact X1|exact J2].
    + (* announced by a scaler *) cbn [app run steps_ok]. apply and_drop. cbn [event_op]. unfold modify. cbn [fst].
      set (t1 := set_amp (Some (Some (sc (Z.of_nat (s_steps st))))) (s_inf st) st').
      destruct (inv_step fresh w st st' t1 IV HW OK1) as (X1 & X2 & X3 & X4 & X5).
      * unfold strel. cbn. repeat (split; [assumption || reflexivity|]). assumption.
      * exact S2.
      * exact G3.
      * unfold step_scale. cbn. rewrite R1, G4. reflexivity.
      * assert (EI : s_inf (fst (step c false t1)) = s_inf st).
        { specialize (X5 _ eq_refl). destruct X5 as ((_ & _ & Y & _) & _). cbn [s_inf set_amp] in Y. rewrite Y. exact X3. }
        assert (IV2 : inv c ty sc [] [] (fst (step c false st)) (set_amp None (s_inf st) (fst (step c false t1)))) by (apply X5; rewrite EI; reflexivity).
        pose proof (IH _ _ _ _ IV2 L W2 OK2) as J. rewrite X2, X3 in J. destruct J as [J1 J2]. split; [exact J1|]. split; [exact X1|]. split; [exact I|exact J2].
  - (* groups *)
    destruct L as [-> L]. apply and_drop. cbn [event_op] in *. unfold modify in *. cbn [fst] in *.
    assert (IV2 : inv c ty sc [] w (set_groups gs st) (set_groups gs st')).
    { unfold inv. cbv zeta. split; [|split; [exact TA'|split; [|cbn; auto 10]]].
      - unfold strel. cbn. auto 10.
      - split; [intros o m x []|]. intros m Hm HH. destruct (TD2 m Hm HH) as [D _]. congruence. }
    exact (IH _ _ _ _ IV2 L W2 OK2).
Qed.
End Run.

(** ** The constructor *)

Definition with_init (x : F) (a : args) : args :=
  mkArgs (a_wrapped a) (a_model a) (a_requires_grad a) (a_params a) (a_lr a) (a_momentum a) (a_damping a) (a_alpha1 a) (a_wd a)
    (a_T a) (a_loss a) (a_lr_cov a) (a_structs a) (a_approx a) (a_warn a) (a_kfac_like a) x (a_normalize a).

Lemma ctor_init x a par hooks h' c st :
  ctor a par hooks = (h', Ok (c, st)) -> ctor (with_init x a) par hooks = (h', Ok (c, set_scales [((-1)%Z, x)] st)).
Proof.
  intros H. unfold ctor in *. change (base_init (with_init x a)) with (base_init a).
  cbn [with_init a_wrapped a_lr a_lr_cov a_alpha1 a_momentum a_wd a_model a_init_scale].
  apply sbind_ok in H as (h1 & [] & H1 & H). apply sbind_ok in H as (h2 & [] & H2 & H). apply sbind_ok in H as (h3 & gs0 & H3 & H). apply sbind_ok in H as (h4 & [gs p2g] & H4 & H).
  cbv zeta in H. apply sbind_ok in H as (h5 & [] & H5 & H). apply sbind_ok in H as (h6 & d & H6 & H).
  unfold sbind. rewrite H1, H2, H3, H4, H5, H6. unfold ret in *. injection H as <- <- <-. reflexivity.
Qed.

Lemma scaled_run a par c st0 sc ann es :
  setting a par c st0 -> a_init_scale a = 1 -> (forall t, good (sc t)) ->
  loop c [] [] es -> wf_run c es st0 -> steps_ok c es st0 ->
  let t0 := set_scales [((-1)%Z, sc (-1)%Z)] st0 in
  (forall hooks h', ctor a par hooks = (h', Ok (c, st0)) -> ctor (with_init (sc (-1)%Z) a) par hooks = (h', Ok (c, t0))) /\
  steps_ok c (scaled sc ann 0 false es) t0 /\
  exists ty fresh w, inv c ty sc fresh w (run c es st0) (run c (scaled sc ann 0 false es) t0).
Proof.
  intros SE Ei HS L W OK. cbv zeta. split; [intros hooks h' E; apply ctor_init; exact E|].
  pose proof (setting_typed a par c st0 [] SE I) as [TO TA]. pose proof (setting_ok _ _ _ _ SE) as [[ND _] _].
  destruct SE as ((h & h' & E) & _ & _ & _ & SO). pose proof (ctor_state _ _ _ _ _ _ E) as (E1 & E2 & E3 & E4 & E5).
  pose proof (ctor_slots _ _ _ _ _ _ E ND) as IS.
  set (t0 := set_scales [((-1)%Z, sc (-1)%Z)] st0).
  assert (IV : inv c (ctor_ty c (s_groups st0)) sc [] [] st0 t0).
  { unfold inv. cbv zeta.
    assert (HN : forall m, In m (c_mods c) -> sl_HC (s_slots st0 (m_key m)) = None).
    { intros m Hm. specialize (IS m Hm). unfold init_slots in IS. apply bind_ok in IS as ([d1 d2] & _ & IS). apply bind_ok in IS as (g & _ & IS).
      apply bind_ok in IS as (k1 & _ & IS). apply bind_ok in IS as (k2 & _ & IS). apply bind_ok in IS as (k3 & _ & IS). apply bind_ok in IS as (k4 & _ & IS).
      destruct (feqb _ _); [injection IS as <-; reflexivity|]. apply bind_ok in IS as (k5 & _ & IS). apply bind_ok in IS as (k6 & _ & IS). injection IS as <-. reflexivity. }
    split; [|split; [exact TA|split; [|]]].
    - unfold strel, t0. cbn. do 4 (split; [reflexivity|]). split; [intros m Hm; apply srel_eq; apply HN; exact Hm|]. split; [auto|intros p []].
    - split; [intros o m x []|]. intros m Hm HH. exfalso. apply HH. apply HN. exact Hm.
    - unfold t0. cbn [s_scales set_scales s_amp]. rewrite E1, E2, E3, Ei. cbn.
      assert (SO1 : forall v, scales_ok 0 [((-1)%Z, v)]).
      { intros v. split; [repeat constructor; intros []|]. split; [intros k [<-|[]]; left; reflexivity|left; reflexivity]. }
      auto 10. }
  destruct (inv_run c (ctor_ty c (s_groups st0)) sc ann TO ND HS es [] [] st0 t0 IV L W OK) as [(fr & w & J) K].
  rewrite E1, E4 in *. split; [exact K|]. exists (ctor_ty c (s_groups st0)), fr, w. exact J.
Qed.
End ScaleRun.
