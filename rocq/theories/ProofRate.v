(** C71: the learning rate. *)

From Coq Require Import List Arith Lia Bool ZArith QArith Qcanon Reals Field.
From Verif Require Import Scalar Res Tensor Structures OptimUtils Optimizer Construct OptState OptRun OptTyped OptFacts OptStep CtorFacts TensorFacts LayerSim ProgressSpec Progress ProgressEx IndepSpec Indep LinearSpec LinearFacts DecaySpec DecayFacts RateSpec RateFacts QEx OptEx OptEx2 ProofIndep ProofLinear ProofDecay.
Import ListNotations.
Open Scope nat_scope.

Section PropRate.
Context {SC : Scalar} {FL : FieldLaws SC}.
Add Field Ffra : F_ft.
Open Scope F_scope.

Lemma two_start r nw a par c st0 gs gs' es es' :
  setting a par c st0 -> torch_shapes par c -> Forall2 (pair_ok r nw) gs gs' -> Forall2 (pair_call r nw) es es' ->
  wf_run c (EGroups gs :: es) st0 -> Forall (grad_fits c) es ->
  two r nw c (fun p => data (p_val (par p))) (run c (EGroups gs :: es) st0) (run c (EGroups gs' :: es') st0) /\
  outcomes c (EGroups gs' :: es') st0 = outcomes c (EGroups gs :: es) st0.
Proof.
  intros S TS PG PC [W1 W] GF. pose proof S as ((h1 & h2 & E1) & _).
  destruct (setting_facts a par c st0 [] S TS I (Forall_nil _)) as (OK & TO & TA & PF & _). cbn [run] in *.
  pose proof (ctor_state _ _ _ _ _ _ E1) as (_ & _ & _ & _ & _ & _ & P1).
  assert (TA1 : all_typed c (ctor_ty c (s_groups st0)) (fst (event_op c (EGroups gs) st0))) by (apply event_all_typed; [exact TO|exact (proj1 OK)|exact TA|exact W1]).
  destruct (run2 r nw c (ctor_ty c (s_groups st0)) (fun p => data (p_val (par p))) OK TO (proj1 TS) es es' (fst (event_op c (EGroups gs) st0)) (fst (event_op c (EGroups gs') st0)) PC GF TA1 W) as [R O].
  - constructor; cbn; [destruct st0; reflexivity|exact PG|]. intros m p Hm Hp.
    constructor; [apply PF; assumption|apply PF; assumption|reflexivity| |reflexivity]. intros k _. rewrite P1. cbn. ring.
  - split; [exact R|]. cbn [outcomes]. rewrite O. reflexivity.
Qed.

Lemma pair_plain r gs gs' : Forall2 (rescaled r) gs gs' -> Forall (fun g => g_wd g = 0) gs -> Forall2 (pair_ok r true) gs gs'.
Proof. induction 1; intros N; constructor; inversion N; subst; [split; assumption|auto]. Qed.
Lemma pair_self gs : Forall (fun g => g_lr g = 0) gs -> Forall2 (pair_ok (0 : F) false) gs gs.
Proof.
  induction 1 as [|g gs H _ IH]; constructor; [|exact IH]. split; [|reflexivity]. split; [apply same_curv_refl|]. split; [reflexivity|]. split; [reflexivity|].
  rewrite H. ring.
Qed.

Lemma C71_scaled_lemma : forall r a par c st0 gs gs' es es',
  setting a par c st0 -> torch_shapes par c -> Forall2 (rescaled r) gs gs' -> Forall2 (rescaled_call r) es es' ->
  Forall (fun g => g_wd g = 0) gs -> Forall (sets (fun g => g_wd g = 0)) es ->
  wf_run c (EGroups gs :: es) st0 -> Forall (grad_fits c) es ->
  let s := run c (EGroups gs :: es) st0 in let s' := run c (EGroups gs' :: es') st0 in
  (forall p i, trained c p -> (i < numel (p_val (par p)))%nat ->
     let v0 := nth i (data (p_val (par p))) 0 in
     fst (entry_of (s_par s' p) i) - v0 = r * (fst (entry_of (s_par s p) i) - v0) /\ snd (entry_of (s_par s' p) i) = snd (entry_of (s_par s p) i)) /\
  (forall k, s_slots s' k = s_slots s k) /\ s_steps s' = s_steps s /\ s_scales s' = s_scales s /\ s_log s' = s_log s /\
  outcomes c (EGroups gs' :: es') st0 = outcomes c (EGroups gs :: es) st0.
Proof.
  intros r a par c st0 gs gs' es es' S TS RG RC NG NC W GF. cbv zeta.
  assert (PC : Forall2 (pair_call r true) es es').
  { clear W GF. revert NC. induction RC as [|e e' es es' E RC IH]; intros NC; constructor; inversion NC as [|? ? N1 N2]; subst; [|auto].
    destruct e; cbn in *; try exact E. destruct e'; try contradiction. apply pair_plain; assumption. }
  destruct (two_start r true a par c st0 gs gs' es es' S TS (pair_plain _ _ _ RG NG) PC W GF) as [[E _ H] O].
  set (s := run c (EGroups gs :: es) st0) in *. set (s' := run c (EGroups gs' :: es') st0) in *. clearbody s s'. split.
  - intros p i (m & Hm & Hp) Hi. destruct (H m p Hm Hp) as [_ _ _ PV PB].
    assert (SZ : numel (p_val (par p)) = prod (shape_of m p)).
    { destruct (setting_facts a par c st0 [] S TS I (Forall_nil _)) as (_ & _ & _ & PF & _). destruct (PF m p Hm Hp) as (X & _). cbn [run] in X.
      pose proof S as ((h1 & h2 & E1) & _). pose proof (ctor_state _ _ _ _ _ _ E1) as (_ & _ & _ & _ & _ & _ & P1). rewrite P1 in X. cbn in X. unfold numel. rewrite X. reflexivity. }
    rewrite SZ in Hi. split; [|exact (PB eq_refl i Hi)]. unfold entry_of. cbn [fst]. rewrite PV by exact Hi. ring.
  - do 4 (split; [rewrite E; reflexivity|]). exact O.
Qed.

Lemma C71_still_lemma : forall a par c st0 gs es p,
  setting a par c st0 -> torch_shapes par c -> Forall (fun g => g_lr g = 0) gs -> Forall (sets (fun g => g_lr g = 0)) es ->
  wf_run c (EGroups gs :: es) st0 -> Forall (grad_fits c) es -> trained c p ->
  p_val (s_par (run c (EGroups gs :: es) st0) p) = p_val (par p).
Proof.
  intros a par c st0 gs es p S TS ZG ZC W GF (m & Hm & Hp).
  assert (PC : Forall2 (pair_call (0 : F) false) es es).
  { clear W GF. induction ZC as [|e es Z ZC IH]; constructor; [|exact IH]. destruct e; try reflexivity. apply pair_self. exact Z. }
  destruct (two_start 0 false a par c st0 gs gs es es S TS (pair_self _ ZG) PC W GF) as [[_ _ H] _].
  destruct (H m p Hm Hp) as [(F1 & _) _ _ PV _].
  destruct (setting_facts a par c st0 [] S TS I (Forall_nil _)) as (_ & _ & _ & PF & _). destruct (PF m p Hm Hp) as (X & _). cbn [run] in X.
  pose proof S as ((h1 & h2 & E1) & _). pose proof (ctor_state _ _ _ _ _ _ E1) as (_ & _ & _ & _ & _ & _ & P1). rewrite P1 in X. cbn in X.
  apply tensor_eq; [congruence|]. apply (nth_ext _ _ 0 0).
  - rewrite !data_length. unfold numel. rewrite F1, X. reflexivity.
  - intros k Hk. rewrite data_length in Hk. unfold numel in Hk. rewrite F1 in Hk. rewrite PV by exact Hk. ring.
Qed.
Lemma C71_gradients_lemma : forall r a par c st0 es es' m p i,
  setting a par c st0 -> torch_shapes par c -> (forall q, trained c q -> p_grad (par q) = None) -> Forall2 (times_call r) es es' ->
  wf_run c es st0 -> Forall (grad_fits c) es -> steps_return es (outcomes c es st0) ->
  In m (c_mods c) -> In p (mod_params m) -> (i < numel (p_val (par p)))%nat ->
  (forall g, In g (in_force c m es (s_groups st0) false) -> g_wd g = 0) ->
  let e := entry_of (s_par (run c es st0) p) i in let e' := entry_of (s_par (run c es' st0) p) i in let v0 := nth i (data (p_val (par p))) 0 in
  fst e' - v0 = r * (fst e - v0) /\ snd e' = r * snd e.
Proof.
  intros r a par c st0 es es' m p i S TS NG TC W GF SR Hm Hp Hi ND.
  pose proof S as ((h1 & h2 & E1) & _). destruct (setting_facts a par c st0 [] S TS I (Forall_nil _)) as (OK & TO & TA & PF & _). cbn [run] in *.
  pose proof (ctor_state _ _ _ _ _ _ E1) as (_ & _ & _ & _ & _ & _ & P1).
  assert (R1 : st0 = set_par (s_par st0) st0) by (destruct st0; reflexivity).
  assert (W' : wf_run c es (set_par (s_par st0) st0)) by (rewrite <- R1; exact W).
  set (z := fun q : nat => mkP (zeros (shape (p_val (par q)))) (None : option tensor) (None : option tensor)).
  assert (ZN : forall s k, nth k (data (zeros s)) 0 = 0) by (intros s k; apply zeros_zero).
  assert (H1 : PM 1 (- (1)) c (s_par st0) (s_par st0) z).
  { intros m' q Hm' Hq. constructor; [apply PF; assumption| | |]; rewrite P1; cbn; [apply self_mix| |exact I].
    rewrite NG by (exists m'; split; assumption). exact I. }
  pose proof (wf_mix 1 (- (1)) c _ OK TO (proj1 TS) es es (map zero_grad_call es) st0 _ _ _ (zeroed_mixed es) GF TA W' H1) as W1.
  assert (H2 : PM 1 1 c z (s_par st0) (s_par st0)).
  { intros m' q Hm' Hq. pose proof (PF m' q Hm' Hq) as (V & _). rewrite P1 in V. cbn in V. constructor.
    - split; [exact V|]. split; intros g Eg; discriminate Eg.
    - rewrite P1. cbn. split; [reflexivity|]. split; [reflexivity|]. intros k. rewrite ZN. ring.
    - rewrite P1. cbn. rewrite NG by (exists m'; split; assumption). exact I.
    - rewrite P1. exact I. }
  assert (MZ : mixed_calls 1 1 (map zero_grad_call es) (map zero_grad_call es) (map zero_grad_call es)).
  { clear - FL. induction es as [|e es IH]; [exact I|]. split; [|exact IH]. destruct e as [| |q [g|]| | | |]; cbn; auto. do 4 (split; [reflexivity|]).
    intros k. assert (ZN : forall s, nth k (data (zeros s)) 0 = 0) by (intros s; apply zeros_zero). rewrite ZN. ring. }
  pose proof (wf_mix 1 1 c _ OK TO (proj1 TS) _ _ _ st0 _ _ _ MZ (zeroed_fits c es GF) TA W1 H2) as W2. rewrite <- R1 in W2.
  assert (MC : mixed_calls r (1 - r) es (map zero_grad_call es) es').
  { clear - TC FL. induction TC as [|e e' es es' E TC IH]; [exact I|]. split; [|exact IH].
    destruct e as [| |q [g|]| | | |], e' as [| |q' [g'|]| | | |]; cbn in E; try contradiction; try discriminate E; try (rewrite E; split; reflexivity).
    - destruct E as (-> & Sg & Eg). do 2 (split; [reflexivity|]). split; [reflexivity|]. split; [exact Sg|]. intros k. rewrite Eg.
      assert (ZN : nth k (data (zeros (shape g))) 0 = 0) by apply zeros_zero. rewrite ZN. ring.
    - injection E as ->. do 2 (split; [reflexivity|]). exact I. }
  destruct (C69_superposition_lemma r (1 - r) a par par par c c c st0 st0 st0 es (map zero_grad_call es) es' S S S TS) as (SP & O2 & _); try assumption.
  { intros q Hq. split; [split; [reflexivity|split; [reflexivity|intros k; ring]]|]. rewrite NG by exact Hq. exact I. }
  destruct (SP p (ex_intro _ m (Logic.conj Hm Hp))) as [(_ & _ & V) B].
  assert (D : entry_of (s_par (run c (map zero_grad_call es) st0) p) i = (nth i (data (p_val (par p))) 0, 0)).
  { rewrite (C70_decay_lemma a par c st0 (map zero_grad_call es) m p i); try assumption.
    - rewrite zeroed_force. apply drifts_no_decay. exact ND.
    - intros q g Hq Eg. rewrite NG in Eg by exact Hq. discriminate Eg.
    - apply zeroed_zero.
    - apply zeroed_fits. exact GF.
    - rewrite O2. apply zeroed_return. exact SR. }
  cbv zeta. unfold entry_of in *. injection D as D1 D2. cbn [fst snd]. split.
  - rewrite V, D1. ring.
  - unfold omixes in B. destruct (p_buf (s_par (run c es st0) p)), (p_buf (s_par (run c (map zero_grad_call es) st0) p)), (p_buf (s_par (run c es' st0) p)); try contradiction; [|ring].
    destruct B as (_ & _ & B). rewrite B, D2. ring.
Qed.
End PropRate.

(** The groups with other learning rates. *)
Definition ra_times (r : Qc) (g : @group Q_scalar) : @group Q_scalar := set_rates (r * g_lr g)%Qc (g_momentum g) (g_wd g) g.
Definition ra_call (r : Qc) (e : @event Q_scalar) : @event Q_scalar := match e with EGroups gs => @EGroups Q_scalar (map (ra_times r) gs) | _ => e end.
Definition ra_groups (mu wd : Qc) : list (@group Q_scalar) := map (set_rates (qr 1 2) mu wd) (s_groups in0).
Lemma ra_rescaled r gs : Forall2 (@rescaled Q_scalar r) gs (map (ra_times r) gs).
Proof. induction gs as [|g gs IH]; constructor; [|exact IH]. split; [destruct g; repeat split|]. destruct g; repeat split. Qed.
Lemma ra_calls r es : Forall2 (@rescaled_call Q_scalar r) es (map (ra_call r) es).
Proof. induction es as [|e es IH]; constructor; [|exact IH]. destruct e; try reflexivity. apply ra_rescaled. Qed.
Lemma ra_sets (P : group -> Prop) es : forallb (fun e => match e with EGroups gs => false | _ => true end) es = true -> Forall (@sets Q_scalar P) es.
Proof. intros H. apply Forall_forall. intros e He. rewrite forallb_forall in H. specialize (H e He). destruct e; try exact I. discriminate H. Qed.

Lemma C71_example_case :
  let gs := ra_groups (qr 1 2) (q 0) in let es := tl (de_hist (qr 1 2) (q 0)) in
  setting ex_std ex_par in_c (li0 ex_par) /\ torch_shapes ex_par in_c /\
  Forall2 (@rescaled Q_scalar (q 3)) gs (map (ra_times (q 3)) gs) /\ Forall2 (@rescaled_call Q_scalar (q 3)) es (map (ra_call (q 3)) es) /\
  forallb (fun g => @feqb Q_scalar (g_wd g) (q 0)) gs = true /\ forallb (fun e => match e with EGroups gs => forallb (fun g => @feqb Q_scalar (g_wd g) (q 0)) gs | _ => true end) es = true /\
  wf_run in_c (@EGroups Q_scalar gs :: es) (li0 ex_par) /\ Forall (grad_fits in_c) es /\ trained in_c 0 /\ 1 < numel (p_val (ex_par 0)) /\
  (let s := run in_c (@EGroups Q_scalar gs :: es) (li0 ex_par) in let s' := run in_c (@EGroups Q_scalar (map (ra_times (q 3)) gs) :: map (ra_call (q 3)) es) (li0 ex_par) in
   s_steps s = 4 /\ fst (entry_of (s_par s 0) 1) <> fst (entry_of (ex_par 0) 1) /\ snd (entry_of (s_par s 0) 1) <> q 0 /\
   (fst (entry_of (s_par s' 0) 1) - fst (entry_of (ex_par 0) 1))%Qc = (q 3 * (fst (entry_of (s_par s 0) 1) - fst (entry_of (ex_par 0) 1)))%Qc).
Proof.
  cbv zeta. split; [apply li_setting; vm_compute; reflexivity|]. split; [apply torch_shapesb_ok; vm_compute; reflexivity|].
  split; [apply ra_rescaled|]. split; [apply ra_calls|]. split; [vm_compute; reflexivity|]. split; [vm_compute; reflexivity|].
  split; [apply wf_runb_ok; vm_compute; reflexivity|]. split; [apply grads_fitb_ok; vm_compute; reflexivity|].
  split; [exists ex_m1; split; [vm_compute; left; reflexivity|left; reflexivity]|]. split; [vm_compute; lia|].
  split; [vm_compute; reflexivity|]. split; [vm_compute; discriminate|]. split; [vm_compute; discriminate|].
  apply (@feqb_iff Q_scalar _). vm_compute. reflexivity.
Qed.

Lemma C71_still_example_case :
  let gs := map (set_rates (q 0) (qr 1 2) (qr 1 2)) (s_groups in0) in let es := ex_iter (q 1) ++ ex_step ++ ex_iter (q 2) ++ ex_step in
  setting ex_std ex_par in_c (li0 ex_par) /\ torch_shapes ex_par in_c /\
  forallb (fun g => @feqb Q_scalar (g_lr g) (q 0)) gs = true /\ Forall (sets (fun g => g_lr g = (q 0 : @F Q_scalar))) es /\
  wf_run in_c (@EGroups Q_scalar gs :: es) (li0 ex_par) /\ Forall (grad_fits in_c) es /\ trained in_c 0 /\
  (let s := run in_c (@EGroups Q_scalar gs :: es) (li0 ex_par) in
   s_steps s = 2 /\ val_of s 0 = val_of (li0 ex_par) 0 /\ snd (entry_of (s_par s 0) 1) <> q 0 /\ pre_of s 0 <> pre_of (li0 ex_par) 0 /\
   forallb is_ok (outcomes in_c (@EGroups Q_scalar gs :: es) (li0 ex_par)) = true).
Proof.
  cbv zeta. split; [apply li_setting; vm_compute; reflexivity|]. split; [apply torch_shapesb_ok; vm_compute; reflexivity|].
  split; [vm_compute; reflexivity|]. split; [apply ra_sets; vm_compute; reflexivity|].
  split; [apply wf_runb_ok; vm_compute; reflexivity|]. split; [apply grads_fitb_ok; vm_compute; reflexivity|].
  split; [exists ex_m1; split; [vm_compute; left; reflexivity|left; reflexivity]|].
  split; [vm_compute; reflexivity|]. split; [vm_compute; reflexivity|]. split; [vm_compute; discriminate|]. split; [vm_compute; discriminate|vm_compute; reflexivity].
Qed.

Lemma ra_times_calls r es : Forall2 (@times_call Q_scalar r) es (map (li_grad r) es).
Proof.
  induction es as [|e es IH]; constructor; [|exact IH]. destruct e as [| |p [g|]| | | |]; try reflexivity. do 2 (split; [reflexivity|]). intros i.
  destruct (Nat.lt_ge_cases i (numel g)) as [L|L].
  - unfold t_scale, t_map. rewrite (nth_tget (tab (shape g) (fun idx => @fmul Q_scalar r (tget g idx))) (shape g)) by (exact L || reflexivity). rewrite tget_tab by (apply unflat_range; exact L).
    rewrite <- nth_tget by (exact L || reflexivity). reflexivity.
  - rewrite !nth_overflow; [|rewrite data_length; exact L|rewrite data_length; exact L]. symmetry. apply Qcmult_0_r.
Qed.

Lemma C71_gradients_example_case :
  let es := de_hist (qr 1 2) (q 0) in let es' := map (li_grad (q 3)) es in
  setting ex_std ex_par in_c (li0 ex_par) /\ torch_shapes ex_par in_c /\ (forall p, trained in_c p -> p_grad (ex_par p) = None) /\
  Forall2 (@times_call Q_scalar (q 3)) es es' /\ wf_run in_c es (li0 ex_par) /\ Forall (grad_fits in_c) es /\ steps_return es (outcomes in_c es (li0 ex_par)) /\
  map (fun g => g_wd g) (in_force in_c ex_m1 es (s_groups (li0 ex_par)) false) = [q 0; q 0; q 0] /\
  (let s := run in_c es (li0 ex_par) in let s' := run in_c es' (li0 ex_par) in
   let s2 := run in_c (map (ra_call (q 3)) es) (li0 ex_par) in
   val_of s 0 <> val_of (li0 ex_par) 0 /\ val_of s' 0 <> val_of s 0 /\ val_of s' 0 = val_of s2 0 /\ snd (entry_of (s_par s' 0) 1) <> snd (entry_of (s_par s2 0) 1)).
Proof.
  cbv zeta. split; [apply li_setting; vm_compute; reflexivity|]. split; [apply torch_shapesb_ok; vm_compute; reflexivity|].
  split. { intros p Hp. destruct (li_trained p Hp) as [->|[->| ->]]; reflexivity. }
  split; [apply ra_times_calls|]. split; [apply wf_runb_ok; vm_compute; reflexivity|]. split; [apply grads_fitb_ok; vm_compute; reflexivity|].
  split; [apply de_returnb_ok; vm_compute; reflexivity|]. split; [vm_compute; reflexivity|].
  split; [vm_compute; discriminate|]. split; [vm_compute; discriminate|]. split; [vm_compute; reflexivity|vm_compute; discriminate].
Qed.

Lemma C71_decay_refuted_lemma :
  let gs := ra_groups (q 0) (qr 1 2) in let es := ex_iter (q 1) ++ ex_step ++ ex_iter (q 2) ++ ex_step in
  let s := run in_c (@EGroups Q_scalar gs :: es) (li0 ex_par) in let s' := run in_c (@EGroups Q_scalar (map (ra_times (q 2)) gs) :: es) (li0 ex_par) in
  forallb is_ok (outcomes in_c (@EGroups Q_scalar gs :: es) (li0 ex_par)) = true /\ Forall2 (@rescaled Q_scalar (q 2)) gs (map (ra_times (q 2)) gs) /\
  (fst (entry_of (s_par s' 0) 1) - fst (entry_of (ex_par 0) 1))%Qc <> (q 2 * (fst (entry_of (s_par s 0) 1) - fst (entry_of (ex_par 0) 1)))%Qc.
Proof.
  cbv zeta. split; [vm_compute; reflexivity|]. split; [apply ra_rescaled|].
  intros H. apply (@feqb_iff Q_scalar _) in H. vm_compute in H. discriminate H.
Qed.
