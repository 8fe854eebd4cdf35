(** C61: floating point numbers which are not a number. *)

From Coq Require Import List Arith Lia Bool ZArith Floats.SpecFloat.
From Verif Require Import Scalar Res Tensor TensorFacts Structures OptimUtils Optimizer Construct OptSpec OptState OptRun OptConsume OptStep Float NanSpec Nan QEx OptEx ProofRun.
Import ListNotations.
Open Scope nat_scope.

Section PropNan.
Context {SC : Scalar} {AB : Absorbing SC}.

Lemma C61_parameters_keep_lemma : forall c es st p k,
  let st' := run c es st in
  (nan_at (p_val (s_par st p)) k -> nan_at (p_val (s_par st' p)) k) /\
  forall b, p_buf (s_par st p) = Some b -> nan_at b k -> exists b', p_buf (s_par st' p) = Some b' /\ nan_at b' k.
Proof.
  intros c es st p k st'. destruct (run_kept c es st) as [_ H]. destruct (H p) as [[_ H1] H2]. split; [apply H1|].
  intros b Eb N. rewrite Eb in H2. destruct H2 as (b' & E & _ & H2). exists b'. auto.
Qed.

Lemma C61_preconditioners_keep_lemma : forall c es st m i k,
  let s := s_slots st m in let s' := s_slots (run c es st) m in
  (forall K, sl_K s = Some K -> nan_in K i k -> exists K', sl_K s' = Some K' /\ nan_in K' i k) /\
  (forall C, sl_C s = Some C -> nan_in C i k -> exists C', sl_C s' = Some C' /\ nan_in C' i k).
Proof.
  intros c es st m i k s s'. destruct (run_kept c es st) as [H _]. destruct (H m) as [H1 H2]. fold s s' in H1, H2. split.
  - intros K E N. rewrite E in H1. destruct H1 as (K' & E' & H1). exists K'. split; [exact E'|]. exact (skept_nan _ _ _ _ H1 N).
  - intros K E N. rewrite E in H2. destruct H2 as (K' & E' & H2). exists K'. split; [exact E'|]. exact (skept_nan _ _ _ _ H2 N).
Qed.

Lemma C61_preconditioner_poisons_lemma : forall c st st' m K C es,
  cfg_ok c -> In m (c_mods c) -> s_inf st = false -> step c false st = (st', Ok tt) ->
  sl_K (s_slots st (m_key m)) = Some (MDense K) -> sl_C (s_slots st (m_key m)) = Some (MDense C) -> square K -> square C ->
  ((exists k, nan_at K k) \/ exists k, nan_at C k) ->
  all_nan (p_val (s_par (run c es st') (m_weight m))) /\
  match m_bias m with Some p => has_bias (m_layer m) = true -> all_nan (p_val (s_par (run c es st') p)) | None => True end.
Proof.
  intros c st st' m K C es OK Hm Hi Hs EK EC SK SC' HN.
  destruct (step_poison c st st' m K C OK Hm Hi Hs EK EC SK SC' HN) as [H1 H2].
  destruct (run_kept c es st') as [_ R]. split; [destruct (R (m_weight m)) as [R1 _]; exact (all_nan_kept _ _ R1 H1)|].
  destruct (m_bias m) as [p|]; [|exact I]. intros HB. destruct (R p) as [R1 _]. exact (all_nan_kept _ _ R1 (H2 HB)).
Qed.

Lemma C61_gradient_poisons_lemma : forall c st st' m K C wg bg es,
  cfg_ok c -> In m (c_mods c) -> s_inf st = false -> step c false st = (st', Ok tt) ->
  sl_K (s_slots st (m_key m)) = Some (MDense K) -> sl_C (s_slots st (m_key m)) = Some (MDense C) -> square K -> square C ->
  p_grad (s_par st (m_weight m)) = Some wg -> option_map (fun p => p_grad (s_par st p)) (m_bias m) = option_map Some bg ->
  shape wg = weight_shape (m_layer m) -> ((exists k, nan_at wg k) \/ exists b k, bg = Some b /\ nan_at b k) ->
  all_nan (p_val (s_par (run c es st') (m_weight m))) /\
  match m_bias m with Some p => has_bias (m_layer m) = true -> all_nan (p_val (s_par (run c es st') p)) | None => True end.
Proof.
  intros c st st' m K C wg bg es OK Hm Hi Hs EK EC SK SC' Ew Eb Sw HN.
  destruct (step_poison_grad c st st' m K C wg bg OK Hm Hi Hs EK EC SK SC' Ew Eb Sw HN) as [H1 H2].
  destruct (run_kept c es st') as [_ R]. split; [destruct (R (m_weight m)) as [R1 _]; exact (all_nan_kept _ _ R1 H1)|].
  destruct (m_bias m) as [p|]; [|exact I]. intros HB. destruct (R p) as [R1 _]. exact (all_nan_kept _ _ R1 (H2 HB)).
Qed.

Lemma C61_scale_poisons_lemma : forall c st st' m K C wg es,
  cfg_ok c -> In m (c_mods c) -> s_inf st = false -> step c false st = (st', Ok tt) ->
  sl_K (s_slots st (m_key m)) = Some (MDense K) -> sl_C (s_slots st (m_key m)) = Some (MDense C) -> square K -> square C ->
  p_grad (s_par st (m_weight m)) = Some wg -> shape wg = weight_shape (m_layer m) -> step_scale st = Ok nan ->
  all_nan (p_val (s_par (run c es st') (m_weight m))) /\
  match m_bias m with Some p => has_bias (m_layer m) = true -> all_nan (p_val (s_par (run c es st') p)) | None => True end.
Proof.
  intros c st st' m K C wg es OK Hm Hi Hs EK EC SK SC' Ew Sw HS.
  destruct (step_poison_scale c st st' m K C wg OK Hm Hi Hs EK EC SK SC' Ew Sw HS) as [H1 H2].
  destruct (run_kept c es st') as [_ R]. split; [destruct (R (m_weight m)) as [R1 _]; exact (all_nan_kept _ _ R1 H1)|].
  destruct (m_bias m) as [p|]; [|exact I]. intros HB. destruct (R p) as [R1 _]. exact (all_nan_kept _ _ R1 (H2 HB)).
Qed.

Lemma C61_scale_statistics_lemma : forall c st st' m out x gout C,
  s_pend st out = Some (m, x) -> prod (shape gout) <> 0 ->
  sl_C (s_slots st (m_key m)) = Some (MDense C) -> square C -> sl_HC (s_slots st (m_key m)) = None ->
  get_grad_scale (s_scales st) (Z.of_nat (s_steps st) - 1) = Ok nan -> event_op c (EBackward out gout) st = (st', Ok tt) ->
  exists h, sl_HC (s_slots st' (m_key m)) = Some (MDense h) /\ shape h = shape C /\ all_nan h.
Proof. exact backward_nan. Qed.

End PropNan.

(** ** A small floating point run *)

Section FloatRun.
Variables (prec emax : Z).
Let SC := SF_scalar prec emax.

(** The number z * 2^e, rounded. *)
Definition fl (z e : Z) : @F SC := binary_normalize prec emax z e false.
Definition ft (s : list nat) (l : list Z) : @tensor SC := @tab SC s (fun idx => fl (nth (flat s idx) l 0%Z) 0).
(** Linear(2, 2) without bias. *)
Definition fm : modul := mkMod 0 (Linear 2 2 false) 0 None.
Definition fpar (p : nat) : @pslot SC := @mkP SC (ft [2; 2] [1; 2; 3; 4]%Z) None None.
Definition fargs (structs : option cls * option cls) (kfac_like normalize : bool) (init : @F SC) : @args SC :=
  @mkArgs SC false [mkNode fm true [0]] (fun _ => true) PNone
    (PyFloat (fl 1 (-3))) (PyFloat (fl 1 (-1))) (PyFloat (fl 1 (-10)))
    (PyFloat (fl 1 (-1))) (PyFloat (fl 1 (-7))) 1 LossBatch
    (PyFloat (fl 1 (-1))) structs Expand true kfac_like init normalize.
(** The gradient of the weight for one sample. *)
Definition fgrad (x g : list Z) : @tensor SC := @mm SC (@tr SC (ft [1; 2] g)) (ft [1; 2] x).
(** One iteration with one sample; output and parameter gradients multiplied by [s]. *)
Definition fback (x g : list Z) (s : @F SC) : list (@event SC) :=
  [ @ESetScale SC s; @EForward SC fm (ft [1; 2] x) true 10; @EBackward SC 10 (@t_scale SC s (ft [1; 2] g));
    @EGrad SC 0 (Some (@t_scale SC s (fgrad x g))) ].
Definition fiter (x g : list Z) (s : @F SC) : list (@event SC) := fback x g s ++ [@EStep SC false].
Definition fbuilt (a : @args SC) : cfg * @state SC :=
  match snd (@ctor SC a fpar []) with Ok r => r | Err _ => (mkCfg [] (fun _ => None), @mkState SC 0 [] (fun _ => no_slots) fpar [] None false (fun _ => None) []) end.
Definition fweight (st : @state SC) : list (@F SC) := data (p_val (s_par st 0)).
Definition fweights (a : @args SC) (es : list (@event SC)) : list (@F SC) := fweight (@run SC (fst (fbuilt a)) es (snd (fbuilt a))).
(** Every number handed to the optimizer is finite. *)
Definition fin_t (t : @tensor SC) : bool := forallb finite (data t).
Definition fin_e (e : @event SC) : bool :=
  match e with
  | EForward _ x _ _ => fin_t x | EBackward _ g => fin_t g | EGrad _ (Some g) => fin_t g | EGrad _ None => true
  | ESetScale s => finite s | EScaler (Some (Some s)) inf => finite s && negb inf | EScaler _ inf => negb inf
  | EStep _ => true | EGroups _ => false
  end.
End FloatRun.

Lemma C61_overflow_refuted_lemma :
  ~ forall (kfac_like normalize : bool) (x g : list Z),
      let a := fargs 11 16 dense2 kfac_like normalize (fl 11 16 1 0) in
      let c := fst (fbuilt 11 16 a) in let st0 := snd (fbuilt 11 16 a) in
      let es := fiter 11 16 x g (fl 11 16 1 0) in
      is_ok (snd (@ctor (SF_scalar 11 16) a (fpar 11 16) [])) = true ->
      forallb (fin_e 11 16) es = true -> Forall (fun r => r = Ok tt) (@outcomes (SF_scalar 11 16) c es st0) ->
      forallb finite (fweights 11 16 a es) = true.
Proof.
  intros H. specialize (H false false [300; 1]%Z [1; -1]%Z). cbv zeta in H.
  assert (E : false = true); [|discriminate E]. rewrite <- H; [vm_compute; reflexivity|vm_compute; reflexivity|vm_compute; reflexivity|].
  vm_compute. repeat constructor.
Qed.

Lemma C61_scaling_refuted_lemma :
  ~ forall (s : spec_float) (x g : list Z),
      finite s = true -> SFltb (S754_zero false) s = true ->
      fweights 24 128 (fargs 24 128 dense2 false false s) (fiter 24 128 x g s ++ fiter 24 128 x g s) =
      fweights 24 128 (fargs 24 128 dense2 false false (fl 24 128 1 0)) (fiter 24 128 x g (fl 24 128 1 0) ++ fiter 24 128 x g (fl 24 128 1 0)).
Proof.
  intros H. specialize (H (fl 24 128 3 0) [3; 1]%Z [1; -1]%Z). cbv zeta in H. specialize (H eq_refl eq_refl). vm_compute in H. discriminate H.
Qed.

(** ** Cases *)

(** The run of the overflow, in half precision: after one iteration with an input of 300 all weights and an entry of K are
    NaN; the premises of the theorems hold for the second iteration, with an input of 1. *)
Notation nan_c := (fst (fbuilt 11 16 (fargs 11 16 dense2 true true (fl 11 16 1 0)))) (only parsing).
Notation nan_0 := (snd (fbuilt 11 16 (fargs 11 16 dense2 true true (fl 11 16 1 0)))) (only parsing).
Notation nan_1 := (@run (SF_scalar 11 16) nan_c (fiter 11 16 [300; 1]%Z [1; -1]%Z (fl 11 16 1 0)) nan_0) (only parsing).
Notation nan_2 := (@run (SF_scalar 11 16) nan_c (fback 11 16 [1; 1]%Z [1; 1]%Z (fl 11 16 1 0)) nan_1) (only parsing).

Definition dense_or {SC : Scalar} (o : option smat) : tensor := match o with Some (MDense K) => K | _ => zeros [] end.
Definition is_dense {SC : Scalar} (o : option smat) : bool := match o with Some (MDense K) => true | _ => false end.
Lemma dense_or_ok {SC : Scalar} o : is_dense o = true -> o = Some (MDense (dense_or o)).
Proof. destruct o as [[]|]; cbn; intros; try discriminate; reflexivity. Qed.

Lemma C61_poison_example_case :
  cfg_ok nan_c /\ In fm (c_mods nan_c) /\ s_inf nan_2 = false /\ snd (step nan_c false nan_2) = Ok tt /\
  (exists K C : @tensor (SF_scalar 11 16), sl_K (s_slots nan_2 0) = Some (MDense K) /\ sl_C (s_slots nan_2 0) = Some (MDense C) /\ square K /\ square C /\
     nan_at K 0) /\
  fweights 11 16 (fargs 11 16 dense2 true true (fl 11 16 1 0)) (fback 11 16 [300; 1]%Z [1; -1]%Z (fl 11 16 1 0)) = [fl 11 16 1 0; fl 11 16 2 0; fl 11 16 3 0; fl 11 16 4 0].
Proof.
  split; [vm_compute; split; repeat constructor; intros [] |].
  split; [vm_compute; left; reflexivity|]. split; [vm_compute; reflexivity|]. split; [vm_compute; reflexivity|].
  split; [|vm_compute; reflexivity].
  exists (dense_or (sl_K (s_slots nan_2 0))), (dense_or (sl_C (s_slots nan_2 0))).
  split; [apply dense_or_ok; vm_compute; reflexivity|]. split; [apply dense_or_ok; vm_compute; reflexivity|].
  split; [exists 2; vm_compute; reflexivity|]. split; [exists 2; vm_compute; reflexivity|]. vm_compute; reflexivity.
Qed.

(** A gradient with a NaN, single precision; a GradScaler which finds it protects the weights: the step is skipped. *)
Definition nan_g : @tensor (SF_scalar 24 128) := @tab (SF_scalar 24 128) [2; 2] (fun idx => if Nat.eqb (flat [2; 2] idx) 3 then S754_nan else fl 24 128 1 0).

Lemma C61_gradient_example_case :
  let a := fargs 24 128 dense2 true false (fl 24 128 1 0) in
  let es i := fback 24 128 [3; 1]%Z [1; -1]%Z (fl 24 128 1 0) ++ [@EGrad (SF_scalar 24 128) 0 (Some nan_g); @EScaler (SF_scalar 24 128) None i; @EStep (SF_scalar 24 128) false] in
  nan_at nan_g 3 /\
  fweights 24 128 a (es false) = repeat S754_nan 4 /\
  fweights 24 128 a (es true) = [fl 24 128 1 0; fl 24 128 2 0; fl 24 128 3 0; fl 24 128 4 0].
Proof. vm_compute. repeat split; reflexivity. Qed.

Lemma C61_diagonal_example_case :
  map finite (fweights 11 16 (fargs 11 16 (Some CDiag, Some CDiag) true false (fl 11 16 1 0)) (fiter 11 16 [300; 1]%Z [1; -1]%Z (fl 11 16 1 0))) = [false; true; false; true].
Proof. vm_compute. reflexivity. Qed.

Lemma C61_scaling_example_case :
  fweights 24 128 (fargs 24 128 dense2 false false (fl 24 128 4 0)) (fiter 24 128 [3; 1]%Z [1; -1]%Z (fl 24 128 4 0) ++ fiter 24 128 [3; 1]%Z [1; -1]%Z (fl 24 128 4 0)) =
  fweights 24 128 (fargs 24 128 dense2 false false (fl 24 128 1 0)) (fiter 24 128 [3; 1]%Z [1; -1]%Z (fl 24 128 1 0) ++ fiter 24 128 [3; 1]%Z [1; -1]%Z (fl 24 128 1 0)) /\
  forallb finite (fweights 24 128 (fargs 24 128 dense2 false false (fl 24 128 1 0)) (fiter 24 128 [3; 1]%Z [1; -1]%Z (fl 24 128 1 0) ++ fiter 24 128 [3; 1]%Z [1; -1]%Z (fl 24 128 1 0))) = true.
Proof. vm_compute. split; reflexivity. Qed.

Lemma C61_scale_example_case :
  let a v := fargs 24 128 dense2 true false v in
  let one := fl 24 128 1 0 in
  let nan_s : spec_float := S754_nan in
  let b v := fst (fbuilt 24 128 (a v)) in
  let before v es := @run (SF_scalar 24 128) (b v) es (snd (fbuilt 24 128 (a v))) in
  let back := firstn 2 (fback 24 128 [3; 1]%Z [1; -1]%Z one) in
  let all := fback 24 128 [3; 1]%Z [1; -1]%Z one in
  let late := [@ESetScale (SF_scalar 24 128) nan_s; @EStep (SF_scalar 24 128) false] in
  (* a scale announced after the backward pass *)
  forallb finite (fweights 24 128 (a one) all) = true /\
  @step_scale (SF_scalar 24 128) (before one (all ++ firstn 1 late)) = Ok nan_s /\
  snd (@step (SF_scalar 24 128) (b one) false (before one (all ++ firstn 1 late))) = Ok tt /\
  fweights 24 128 (a one) (all ++ late) = repeat S754_nan 4 /\
  (* an initial scale *)
  @get_grad_scale (SF_scalar 24 128) (s_scales (before nan_s back)) (-1) = Ok nan_s /\
  is_ok (match s_pend (before nan_s back) 10 with Some _ => Ok tt | None => Err KeyError end) = true /\
  snd (@event_op (SF_scalar 24 128) (b nan_s) (@EBackward (SF_scalar 24 128) 10 (ft 24 128 [1; 2] [1; -1]%Z)) (before nan_s back)) = Ok tt /\
  data (dense_or (sl_HC (s_slots (before nan_s all) 0))) = repeat S754_nan 4 /\
  forallb finite (data (dense_or (sl_HC (s_slots (before one all) 0)))) = true.
Proof. vm_compute. repeat split; reflexivity. Qed.
