(** C70: the part of the weights that no gradient reaches. *)

From Coq Require Import List Arith Lia Bool ZArith QArith Qcanon Reals Field Lra.
From Verif Require Import Scalar Res Tensor Structures OptimUtils Optimizer Construct OptState OptRun OptTyped CtorFacts TensorFacts LayerSim RealOrd ProgressSpec Progress ProgressEx Indep LinearSpec LinearFacts DecaySpec DecayFacts QEx OptEx OptEx2 ProofIndep ProofLinear.
Import ListNotations.
Open Scope nat_scope.

Section PropDecay.
Context {SC : Scalar} {FL : FieldLaws SC}.
Add Field Ffpd : F_ft.
Open Scope F_scope.

Lemma C70_decay_lemma : forall a par c st0 es m p i,
  setting a par c st0 -> torch_shapes par c ->
  (forall q g, trained c q -> p_grad (par q) = Some g -> all_zero g) -> Forall zero_call es ->
  wf_run c es st0 -> Forall (grad_fits c) es -> steps_return es (outcomes c es st0) ->
  In m (c_mods c) -> In p (mod_params m) -> (i < numel (p_val (par p)))%nat ->
  entry_of (s_par (run c es st0) p) i = drifts (in_force c m es (s_groups st0) false) (nth i (data (p_val (par p))) 0, 0).
Proof.
  intros a par c st0 es m p i S TS ZG ZC W GF SR Hm Hp Hi.
  destruct (setting_facts a par c st0 [] S TS I (Forall_nil _)) as (OK & TO & TA & PF & _). cbn [run] in *.
  pose proof S as ((h1 & h1' & E1) & _). pose proof (ctor_state _ _ _ _ _ _ E1) as (_ & _ & _ & I1 & _ & _ & P1).
  rewrite <- I1. rewrite (zero_run c (ctor_ty c (s_groups st0)) OK TO (proj1 TS) es st0 m p i Hm Hp TA PF); try assumption.
  - unfold entry_of at 1. rewrite P1. reflexivity.
  - intros q g Hq. rewrite P1. cbn. apply ZG. exists m. split; assumption.
  - destruct (proj2 TS m p Hm Hp) as [V _]. unfold numel in Hi. rewrite V in Hi. exact Hi.
Qed.

Lemma C70_difference_lemma : forall a par1 par2 c1 c2 st1 st2 es m p i,
  setting a par1 c1 st1 -> setting a par2 c2 st2 -> torch_shapes par1 c1 -> torch_shapes par2 c2 ->
  (forall q, trained c1 q -> p_grad (par2 q) = p_grad (par1 q)) ->
  wf_run c1 es st1 -> Forall (grad_fits c1) es -> steps_return es (outcomes c1 es st1) ->
  In m (c_mods c1) -> In p (mod_params m) -> (i < numel (p_val (par1 p)))%nat ->
  let e1 := entry_of (s_par (run c1 es st1) p) i in let e2 := entry_of (s_par (run c2 es st2) p) i in
  (fst e1 - fst e2, snd e1 - snd e2) =
  drifts (in_force c1 m es (s_groups st1) false) (nth i (data (p_val (par1 p))) 0 - nth i (data (p_val (par2 p))) 0, 0).
Proof. exact difference. Qed.

Lemma C70_forgets_lemma : forall a par1 par2 c1 c2 st1 st2 es m p i,
  setting a par1 c1 st1 -> setting a par2 c2 st2 -> torch_shapes par1 c1 -> torch_shapes par2 c2 ->
  (forall q, trained c1 q -> p_grad (par2 q) = p_grad (par1 q)) ->
  wf_run c1 es st1 -> Forall (grad_fits c1) es -> steps_return es (outcomes c1 es st1) ->
  In m (c_mods c1) -> In p (mod_params m) -> (i < numel (p_val (par1 p)))%nat ->
  (forall g, In g (in_force c1 m es (s_groups st1) false) -> g_momentum g = 0) ->
  nth i (data (p_val (s_par (run c1 es st1) p))) 0 - nth i (data (p_val (s_par (run c2 es st2) p))) 0 =
  fold_right (fun g r => (1 - g_lr g * g_wd g) * r) 1 (in_force c1 m es (s_groups st1) false) *
  (nth i (data (p_val (par1 p))) 0 - nth i (data (p_val (par2 p))) 0).
Proof.
  intros a par1 par2 c1 c2 st1 st2 es m p i S1 S2 T1 T2 PG W GF SR Hm Hp Hi M.
  pose proof (difference a par1 par2 c1 c2 st1 st2 es m p i S1 S2 T1 T2 PG W GF SR Hm Hp Hi) as D. cbv zeta in D. rewrite drifts_plain in D by exact M.
  injection D as D _. exact D.
Qed.

Lemma C70_remembers_lemma : forall a par1 par2 c1 c2 st1 st2 es m p i,
  setting a par1 c1 st1 -> setting a par2 c2 st2 -> torch_shapes par1 c1 -> torch_shapes par2 c2 ->
  (forall q, trained c1 q -> p_grad (par2 q) = p_grad (par1 q)) ->
  wf_run c1 es st1 -> Forall (grad_fits c1) es -> steps_return es (outcomes c1 es st1) ->
  In m (c_mods c1) -> In p (mod_params m) -> (i < numel (p_val (par1 p)))%nat ->
  (forall g, In g (in_force c1 m es (s_groups st1) false) -> g_wd g = 0) ->
  let e1 := entry_of (s_par (run c1 es st1) p) i in let e2 := entry_of (s_par (run c2 es st2) p) i in
  fst e1 - fst e2 = nth i (data (p_val (par1 p))) 0 - nth i (data (p_val (par2 p))) 0 /\ snd e1 = snd e2.
Proof.
  intros a par1 par2 c1 c2 st1 st2 es m p i S1 S2 T1 T2 PG W GF SR Hm Hp Hi M.
  pose proof (difference a par1 par2 c1 c2 st1 st2 es m p i S1 S2 T1 T2 PG W GF SR Hm Hp Hi) as D. cbv zeta in *. rewrite drifts_no_decay in D by exact M.
  generalize dependent (entry_of (s_par (run c1 es st1) p) i). intros [v1 b1]. generalize (entry_of (s_par (run c2 es st2) p) i). intros [v2 b2] D.
  cbn [fst snd] in *. injection D as D1 D2. split; [exact D1|]. replace b1 with ((b1 - b2) + b2) by ring. rewrite D2. ring.
Qed.
End PropDecay.

Section RealDecay.
Context {SC : Scalar} {FL : FieldLaws SC} {OR : Ordered SC}.
Open Scope R_scope.

Lemma C70_rate_lemma : forall a par1 par2 c1 c2 st1 st2 es m p i rho,
  setting a par1 c1 st1 -> setting a par2 c2 st2 -> torch_shapes par1 c1 -> torch_shapes par2 c2 ->
  (forall q, trained c1 q -> p_grad (par2 q) = p_grad (par1 q)) ->
  wf_run c1 es st1 -> Forall (grad_fits c1) es -> steps_return es (outcomes c1 es st1) ->
  In m (c_mods c1) -> In p (mod_params m) -> (i < numel (p_val (par1 p)))%nat ->
  (forall g, In g (in_force c1 m es (s_groups st1) false) -> g_momentum g = f0 /\ Rabs (1 - toR (g_lr g) * toR (g_wd g)) <= rho) ->
  Rabs (toR (nth i (data (p_val (s_par (run c1 es st1) p))) f0) - toR (nth i (data (p_val (s_par (run c2 es st2) p))) f0)) <=
  rho ^ length (in_force c1 m es (s_groups st1) false) * Rabs (toR (nth i (data (p_val (par1 p))) f0) - toR (nth i (data (p_val (par2 p))) f0)).
Proof.
  intros a par1 par2 c1 c2 st1 st2 es m p i rho S1 S2 T1 T2 PG W GF SR Hm Hp Hi M.
  assert (M0 : forall g, In g (in_force c1 m es (s_groups st1) false) -> g_momentum g = f0) by (intros g Hg; apply M; exact Hg).
  pose proof (C70_forgets_lemma a par1 par2 c1 c2 st1 st2 es m p i S1 S2 T1 T2 PG W GF SR Hm Hp Hi M0) as D.
  apply (f_equal toR) in D. rewrite toR_mul, !toR_sub in D. rewrite D, Rabs_mult. apply Rmult_le_compat_r; [apply Rabs_pos|].
  clear - FL M. induction (in_force c1 m es (s_groups st1) false) as [|g gs IH]; cbn [fold_right length pow]; [rewrite toR_1, Rabs_R1; apply Rle_refl|].
  rewrite toR_mul, toR_sub, toR_mul, toR_1, Rabs_mult. apply Rmult_le_compat; try apply Rabs_pos; [apply M; left; reflexivity|].
  apply IH. intros g' Hg. apply M. right. exact Hg.
Qed.
End RealDecay.

(** ** Cases *)

Definition set_rates (lr mu wd : Qc) (g : @group Q_scalar) : @group Q_scalar :=
  @mkGroup Q_scalar (g_params g) (lr : @F Q_scalar) (mu : @F Q_scalar) (g_damping g) (g_alpha1 g) (wd : @F Q_scalar) (g_T g) (g_loss g) (g_lr_cov g) (g_structs g) (g_approx g) (g_kfac_like g) (g_normalize g).
(** Four iterations: new rates before the first and the last step, the third step is skipped. *)
Definition de_hist (mu wd : Qc) : list (@event Q_scalar) :=
  @EGroups Q_scalar (map (set_rates (qr 1 2) mu wd) (s_groups in0)) :: ex_iter (q 1) ++ ex_step ++ ex_iter (q 2) ++ ex_step ++
  ex_iter (q 5) ++ [@EScaler Q_scalar None true] ++ ex_step ++
  [@EScaler Q_scalar None false; @EGroups Q_scalar (map (set_rates (qr 1 3) mu wd) (s_groups in0))] ++ ex_iter (q 3) ++ ex_step.

Definition de_returnb (es : list (@event Q_scalar)) (os : list (res unit)) : bool :=
  forallb (fun eo => match eo with (EStep _, o) => is_ok o | _ => true end) (combine es os).
Lemma de_returnb_ok es : forall os, de_returnb es os = true -> steps_return es os.
Proof.
  unfold de_returnb. induction es as [|e es IH]; intros [|o os] H; try exact I; [destruct e; exact I|].
  cbn [combine forallb] in H. apply andb_true_iff in H as [H1 H2]. destruct e; try (apply IH; exact H2). split; [|apply IH; exact H2].
  destruct o as [[]|]; [reflexivity|discriminate].
Qed.
Lemma de_case mu wd :
  wf_runb in_c (de_hist mu wd) (li0 ex_par) = true -> grads_fitb in_c (de_hist mu wd) = true ->
  de_returnb (de_hist mu wd) (outcomes in_c (de_hist mu wd) (li0 ex_par)) = true ->
  setting ex_std ex_par in_c (li0 ex_par) /\ setting ex_std in_par in_c (li0 in_par) /\ torch_shapes ex_par in_c /\ torch_shapes in_par in_c /\
  (forall q, trained in_c q -> p_grad (in_par q) = p_grad (ex_par q)) /\
  wf_run in_c (de_hist mu wd) (li0 ex_par) /\ Forall (grad_fits in_c) (de_hist mu wd) /\ steps_return (de_hist mu wd) (outcomes in_c (de_hist mu wd) (li0 ex_par)) /\
  In ex_m1 (c_mods in_c) /\ In 0 (mod_params ex_m1) /\ 1 < numel (p_val (ex_par 0)).
Proof.
  intros H1 H2 H3. split; [apply li_setting; vm_compute; reflexivity|]. split; [apply li_setting; vm_compute; reflexivity|].
  split; [apply torch_shapesb_ok; vm_compute; reflexivity|]. split; [apply torch_shapesb_ok; vm_compute; reflexivity|].
  split. { intros p Hp. destruct (li_trained p Hp) as [->|[->| ->]]; reflexivity. }
  split; [apply wf_runb_ok; exact H1|]. split; [apply grads_fitb_ok; exact H2|]. split; [apply de_returnb_ok; exact H3|].
  split; [vm_compute; left; reflexivity|]. split; [left; reflexivity|]. vm_compute. lia.
Qed.

Lemma C70_example_case :
  let es := de_hist (q 0) (qr 1 2) in
  (setting ex_std ex_par in_c (li0 ex_par) /\ setting ex_std in_par in_c (li0 in_par) /\ torch_shapes ex_par in_c /\ torch_shapes in_par in_c /\
   (forall q, trained in_c q -> p_grad (in_par q) = p_grad (ex_par q)) /\
   wf_run in_c es (li0 ex_par) /\ Forall (grad_fits in_c) es /\ steps_return es (outcomes in_c es (li0 ex_par)) /\
   In ex_m1 (c_mods in_c) /\ In 0 (mod_params ex_m1) /\ 1 < numel (p_val (ex_par 0))) /\
  map (fun g => (g_momentum g, g_lr g)) (in_force in_c ex_m1 es (s_groups (li0 ex_par)) false) = [(q 0, qr 1 2); (q 0, qr 1 2); (q 0, qr 1 3)] /\
  (let s1 := run in_c es (li0 ex_par) in let s2 := run in_c es (li0 in_par) in
   s_steps s1 = 4 /\ fst (entry_of (s_par s1 0) 1) <> fst (entry_of (s_par (li0 ex_par) 0) 1) /\
   (fst (entry_of (s_par s1 0) 1) - fst (entry_of (s_par s2 0) 1))%Qc = (qr 45 96 * (fst (entry_of (ex_par 0) 1) - fst (entry_of (in_par 0) 1)))%Qc).
Proof.
  cbv zeta. split; [apply de_case; vm_compute; reflexivity|]. split; [vm_compute; reflexivity|].
  split; [vm_compute; reflexivity|]. split; [vm_compute; discriminate|apply Qc_is_canon; vm_compute; reflexivity].
Qed.

Lemma C70_remembers_example_case :
  let es := de_hist (qr 1 2) (q 0) in
  (setting ex_std ex_par in_c (li0 ex_par) /\ setting ex_std in_par in_c (li0 in_par) /\ torch_shapes ex_par in_c /\ torch_shapes in_par in_c /\
   (forall q, trained in_c q -> p_grad (in_par q) = p_grad (ex_par q)) /\
   wf_run in_c es (li0 ex_par) /\ Forall (grad_fits in_c) es /\ steps_return es (outcomes in_c es (li0 ex_par)) /\
   In ex_m1 (c_mods in_c) /\ In 0 (mod_params ex_m1) /\ 1 < numel (p_val (ex_par 0))) /\
  map (fun g => (g_momentum g, g_wd g)) (in_force in_c ex_m1 es (s_groups (li0 ex_par)) false) = [(qr 1 2, q 0); (qr 1 2, q 0); (qr 1 2, q 0)] /\
  (let s1 := run in_c es (li0 ex_par) in let s2 := run in_c es (li0 in_par) in
   fst (entry_of (s_par s1 0) 1) <> fst (entry_of (s_par (li0 ex_par) 0) 1) /\ snd (entry_of (s_par s1 0) 1) <> q 0 /\
   (fst (entry_of (s_par s1 0) 1) - fst (entry_of (s_par s2 0) 1))%Qc = (fst (entry_of (ex_par 0) 1) - fst (entry_of (in_par 0) 1))%Qc).
Proof.
  cbv zeta. split; [apply de_case; vm_compute; reflexivity|]. split; [vm_compute; reflexivity|].
  split; [vm_compute; discriminate|]. split; [vm_compute; discriminate|apply Qc_is_canon; vm_compute; reflexivity].
Qed.

Lemma C70_momentum_example_case :
  let es := map (li_grad (q 0)) (de_hist (qr 1 2) (qr 1 2)) in
  setting ex_std ex_par in_c (li0 ex_par) /\ torch_shapes ex_par in_c /\ (forall q g, trained in_c q -> p_grad (ex_par q) = Some g -> all_zero g) /\ Forall zero_call es /\
  wf_run in_c es (li0 ex_par) /\ Forall (grad_fits in_c) es /\ steps_return es (outcomes in_c es (li0 ex_par)) /\
  fst (entry_of (s_par (run in_c es (li0 ex_par)) 0) 1) = fst (drifts (in_force in_c ex_m1 es (s_groups (li0 ex_par)) false) (entry_of (ex_par 0) 1)) /\
  entry_of (s_par (run in_c es (li0 ex_par)) 0) 1 <> entry_of (ex_par 0) 1 /\ pre_of (run in_c es (li0 ex_par)) 0 <> pre_of (li0 ex_par) 0.
Proof.
  cbv zeta. split; [apply li_setting; vm_compute; reflexivity|]. split; [apply torch_shapesb_ok; vm_compute; reflexivity|].
  split. { intros p g Hp Eg. destruct (li_trained p Hp) as [->|[->| ->]]; discriminate Eg. }
  split. { apply Forall_forall. intros e He. apply in_map_iff in He as (e0 & <- & He).
    assert (X : forallb (fun e => match li_grad (q 0) e with EGrad _ (Some g) => zerob g | _ => true end) (de_hist (qr 1 2) (qr 1 2)) = true) by (vm_compute; reflexivity).
    rewrite forallb_forall in X. specialize (X e0 He). unfold zero_call. destruct (li_grad (q 0) e0) as [| |p [g|]| | | |]; try exact I. apply zerob_ok. exact X. }
  split; [apply wf_runb_ok; vm_compute; reflexivity|]. split; [apply grads_fitb_ok; vm_compute; reflexivity|]. split; [apply de_returnb_ok; vm_compute; reflexivity|].
  split; [apply Qc_is_canon; vm_compute; reflexivity|]. split; [vm_compute; discriminate|vm_compute; discriminate].
Qed.
