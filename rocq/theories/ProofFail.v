(** C45, C50: failing steps, and layers used several times. *)

From Coq Require Import List Arith Lia Bool ZArith QArith Qcanon Permutation.
From Verif Require Import Scalar Res Tensor Structures StructSpec OptimUtils Optimizer Construct OptState OptRun OptSpec OptFacts OptConsume OptTyped OptPre OptOrder OptFail QEx OptEx OptEx2 ProofUpdate.
Import ListNotations.
Open Scope nat_scope.

(** * C45: failing steps *)

Section PropFail.
Context {SC : Scalar}.

Lemma C45_closure_lemma c st : step c true st = (st, Err NotImplementedError).
Proof. reflexivity. Qed.

Lemma C45_rest_kept_partial_lemma a par hooks hooks' c st0 es st' e :
  ctor a par hooks = (hooks', Ok (c, st0)) -> cfg_ok c ->
  let st := run c es st0 in
  step c false st = (st', Err e) ->
  (st' = st /\ s_amp st = Some None) \/
  s_steps st' = s_steps st /\ s_groups st' = s_groups st /\ s_amp st' = s_amp st /\ s_inf st' = s_inf st /\ s_pend st' = s_pend st /\
  (forall p, p_grad (s_par st' p) = p_grad (s_par st p)) /\
  get_grad_scale (s_scales st') (Z.of_nat (s_steps st) - 1) = get_grad_scale (s_scales st) (Z.of_nat (s_steps st) - 1) /\
  get_grad_scale (s_scales st') (Z.of_nat (s_steps st)) = step_scale st /\
  exists l1 m l2, c_mods c = l1 ++ m :: l2 /\
    (forall m', In m' l2 -> s_slots st' (m_key m') = s_slots st (m_key m') /\ forall p, In p (mod_params m') -> s_par st' p = s_par st p).
Proof.
  intros H OK st E. apply ctor_state in H as (E1 & E2 & _).
  assert (S0 : scales_ok (s_steps st0) (s_scales st0)).
  { rewrite E1, E2. split; [repeat constructor; intros []|]. split; [|left; reflexivity]. intros k [<-|[]]. left. reflexivity. }
  destruct (failing_step c st st' e OK (run_scales_ok c es st0 S0) E) as [H|(_ & H)]; [left; exact H|right; exact H].
Qed.

End PropFail.

(** ** What goes wrong *)

(** An optimizer with T = 1 for the model of OptEx.v. *)
Definition fl : @args Q_scalar := ex_args PNone (qr 1 2) (qr 1 2) (q 0) 1 dense2 false false (q 1).
Definition flc : cfg := fst (built fl).
Definition fl0 : @state Q_scalar := snd (built fl).
(** One iteration in which the second layer's backward pass is forgotten, and the part forgotten. *)
Definition fl_forgot : list (@event Q_scalar) :=
  [ @EForward Q_scalar ex_m1 ex_x1 true 10; @EForward Q_scalar ex_m2 ex_x2 true 11; @EBackward Q_scalar 10 ex_g1;
    @EGrad Q_scalar 0 (Some (qt [1; 2] [6; -2]%Z)); @EGrad Q_scalar 1 (Some (qt [1] [2]%Z)); @EGrad Q_scalar 2 (Some (qt [2; 1] [5; -10]%Z)) ].
Definition fl_rest : list (@event Q_scalar) := [ @EBackward Q_scalar 11 ex_g2 ].

Definition err_of {A} (x : @state Q_scalar * res A) : option exn := match snd x with Ok _ => None | Err e => Some e end.

Lemma C45_retry_refuted_lemma :
  exists (a : @args Q_scalar) par c st0 es fix_ p,
    setting a par c st0 /\ wf_run c es st0 /\
    let st := run c es st0 in let st' := fst (step c false st) in
    snd (step c false st) = Err KeyError /\ show (p_val (s_par st' p)) <> show (p_val (s_par st p)) /\ pre_of st' 0 <> pre_of st 0 /\
    snd (step c false (run c fix_ st)) = Ok tt /\ snd (step c false (run c fix_ st')) = Err KeyError.
Proof.
  exists fl, ex_par, flc, fl0, fl_forgot, fl_rest, 0.
  split; [apply built_setting; vm_compute; reflexivity|]. split; [apply wf_runb_ok; vm_compute; reflexivity|]. cbv zeta.
  assert (A : err_of (step flc false (run flc fl_forgot fl0)) = Some KeyError) by (vm_compute; reflexivity).
  assert (B : err_of (step flc false (run flc fl_rest (run flc fl_forgot fl0))) = None) by (vm_compute; reflexivity).
  assert (C : err_of (step flc false (run flc fl_rest (fst (step flc false (run flc fl_forgot fl0))))) = Some KeyError) by (vm_compute; reflexivity).
  unfold err_of in *. split; [destruct (snd (step flc false (run flc fl_forgot fl0))); congruence|].
  split; [vm_compute; discriminate|]. split; [vm_compute; discriminate|].
  split; [destruct (snd (step flc false (run flc fl_rest (run flc fl_forgot fl0)))) as [[]|]; congruence|].
  destruct (snd (step flc false (run flc fl_rest (fst (step flc false (run flc fl_forgot fl0)))))); congruence.
Qed.

Lemma C45_missing_gradient_refuted_lemma :
  exists (a : @args Q_scalar) par c st0 es fix_,
    setting a par c st0 /\ wf_run c es st0 /\
    let st := run c es st0 in let st' := fst (step c false st) in
    snd (step c false st) = Err AttributeError /\ pre_of st' 0 <> pre_of st 0 /\
    snd (step c false (run c fix_ st)) = Ok tt /\ snd (step c false (run c fix_ st')) = Err KeyError.
Proof.
  exists fl, ex_par, flc, fl0, (ex_iter (q 1) ++ [@EGrad Q_scalar 0 None]), [@EGrad Q_scalar 0 (Some (qt [1; 2] [6; -2]%Z))].
  split; [apply built_setting; vm_compute; reflexivity|]. split; [apply wf_runb_ok; vm_compute; reflexivity|]. cbv zeta.
  set (st := run flc (ex_iter (q 1) ++ [@EGrad Q_scalar 0 None]) fl0).
  set (f := [@EGrad Q_scalar 0 (Some (qt [1; 2] [6; -2]%Z))]).
  assert (A : err_of (step flc false st) = Some AttributeError) by (vm_compute; reflexivity).
  assert (B : err_of (step flc false (run flc f st)) = None) by (vm_compute; reflexivity).
  assert (C : err_of (step flc false (run flc f (fst (step flc false st)))) = Some KeyError) by (vm_compute; reflexivity).
  unfold err_of in *. split; [destruct (snd (step flc false st)); congruence|].
  split; [vm_compute; discriminate|].
  split; [destruct (snd (step flc false (run flc f st))) as [[]|]; congruence|].
  destruct (snd (step flc false (run flc f (fst (step flc false st))))); congruence.
Qed.

(** The scale of a failed step is used by the retry although the scaler has announced another one:
    first 4, then (after the failure) 2. *)
Definition fl_scale2 : list (@event Q_scalar) :=
  fl_forgot ++ [@EScaler Q_scalar (Some (Some (q 4 : @F Q_scalar))) false; @EStep Q_scalar false; @EScaler Q_scalar (Some (Some (q 2 : @F Q_scalar))) false].

Lemma C45_scale_refuted_lemma :
  exists (a : @args Q_scalar) par c st0 es v,
    setting a par c st0 /\ wf_run c es st0 /\
    let st := run c es st0 in
    s_steps st = 0 /\ s_amp st = Some (Some v) /\ (exists w, step_scale st = Ok w /\ w <> v).
Proof.
  exists fl, ex_par, flc, fl0, fl_scale2, (q 2 : @F Q_scalar).
  split; [apply built_setting; vm_compute; reflexivity|]. split; [apply wf_runb_ok; vm_compute; reflexivity|]. cbv zeta.
  split; [vm_compute; reflexivity|]. split; [vm_compute; reflexivity|]. exists (q 4 : @F Q_scalar). split; [vm_compute; reflexivity|].
  intros H. apply (feqb_iff) in H. vm_compute in H. discriminate.
Qed.

(** * C50: layers used several times *)

Section PropOrder.
Context {SC : Scalar} {FL : FieldLaws SC}.
Open Scope F_scope.

Lemma C50_order_lemma a par c st0 es bs bs' :
  setting a par c st0 -> wf_run c es st0 ->
  let st := run c es st0 in
  wf_run c bs st -> Forall (fun e => match e with EBackward _ _ => True | _ => False end) bs -> Permutation bs bs' ->
  run c bs st = run c bs' st.
Proof.
  intros S W st Wb B P. pose proof (setting_typed _ _ _ _ _ S W) as [TO TA]. pose proof (setting_ok _ _ _ _ S) as [[NK NP] L].
  exact (backwards_perm c _ bs bs' st TO NK TA Wb B P).
Qed.

Lemma C50_added_lemma a par c st0 es bs m cK cC dK dC :
  setting a par c st0 -> wf_run c es st0 -> In m (c_mods c) -> has_ty c st0 m cK cC dK dC ->
  let st := run c es st0 in
  wf_run c bs st -> Forall (fun e => match e with EBackward _ _ => True | _ => False end) bs ->
  let s := s_slots st (m_key m) in let s' := s_slots (run c bs st) (m_key m) in let l := contribs c st m bs in
  sl_K s' = sl_K s /\ sl_C s' = sl_C s /\ sl_mK s' = sl_mK s /\ sl_mC s' = sl_mC s /\
  match l with
  | [] => s' = s
  | _ => exists hk hc, sl_HK s' = Some hk /\ sl_HC s' = Some hc /\ valid cK dK hk /\ valid cC dC hc /\
      eqm dK (ent hk) (fun i j => oldm (sl_HK s) i j + fold_right (fun h r => ent (fst h) i j + r) 0 l) /\
      eqm dC (ent hc) (fun i j => oldm (sl_HC s) i j + fold_right (fun h r => ent (snd h) i j + r) 0 l)
  end.
Proof.
  intros S W Hm T st Wb B s s' l. pose proof (setting_typed _ _ _ _ _ S W) as [TO TA]. pose proof (setting_ok _ _ _ _ S) as [[NK NP] L].
  destruct (backwards c _ bs st m cK cC dK dC TO NK TA Wb B Hm (has_ty_ctor _ _ _ _ _ _ _ T)) as ((H1 & H2 & H3 & H4) & H5). do 4 (split; [assumption|]). exact H5.
Qed.

Lemma C50_single_lemma a par c st0 es out gout m h :
  setting a par c st0 -> wf_run c es st0 -> In m (c_mods c) ->
  let st := run c es st0 in
  contrib c st m (EBackward out gout) = Some h ->
  let s' := s_slots (fst (event_op c (EBackward out gout) (without_H st (m_key m)))) (m_key m) in
  sl_HK s' = Some (fst h) /\ sl_HC s' = Some (snd h).
Proof.
  intros S W Hm st. pose proof (setting_typed _ _ _ _ _ S W) as [TO TA]. pose proof (setting_ok _ _ _ _ S) as [[NK NP] L].
  exact (contrib_alone c _ st out gout m h NK TA Hm).
Qed.

End PropOrder.

(** A layer used three times (outputs 10, 12 and 13, the last of which is never differentiated) and another one. *)
Definition mu_es : list (@event Q_scalar) :=
  [ @EForward Q_scalar ex_m1 ex_x1 true 10; @EForward Q_scalar ex_m2 ex_x2 true 11;
    @EForward Q_scalar ex_m1 (qt [1; 2] [0; 7]%Z) true 12; @EForward Q_scalar ex_m1 ex_x1 true 13 ].
Definition mu_bs : list (@event Q_scalar) := [ @EBackward Q_scalar 12 (qt [1; 1] [-3]%Z); @EBackward Q_scalar 11 ex_g2; @EBackward Q_scalar 10 ex_g1 ].

Lemma C50_example_case :
  wf_run flc mu_es fl0 /\ wf_run flc mu_bs (run flc mu_es fl0) /\
  Forall (fun e => match e with @EBackward _ _ _ => True | _ => False end) mu_bs /\ Permutation mu_bs (rev mu_bs) /\
  length (contribs flc (run flc mu_es fl0) ex_m1 mu_bs) = 2 /\
  (match sl_HK (s_slots (run flc mu_bs (run flc mu_es fl0)) 0) with Some h => showd (Ok h) | None => Err KeyError end)
   = lit [3; 3] [9; -3; 3; -3; 50; 6; 3; 6; 2]%Z.
Proof.
  split; [apply wf_runb_ok; vm_compute; reflexivity|]. split; [apply wf_runb_ok; vm_compute; reflexivity|].
  split; [repeat constructor|]. split; [apply Permutation_rev|]. vm_compute. split; reflexivity.
Qed.
