(** C59: without preconditioner learning rate the optimizer is stochastic gradient descent. *)

From Coq Require Import List Arith Lia Bool ZArith QArith Qcanon.
From Verif Require Import Scalar Res Tensor TensorFacts Structures StructSpec OptimUtils ProofUtils Optimizer Construct OptSpec OptState OptRun OptFacts OptTyped OptMom ProgressSpec Progress ProgressEx SgdSpec Sgd QEx OptEx OptEx2 ProofUpdate.
Import ListNotations.
Open Scope nat_scope.

Section PropSgd.
Context {SC : Scalar} {FL : FieldLaws SC}.

Lemma setting_unit a par c st0 m : setting a par c st0 -> In m (c_mods c) -> mod_unit (ctor_ty c (s_groups st0)) m st0.
Proof.
  intros S Hm. destruct (C22_initial_lemma a par c st0 m S Hm) as (g & cK & cC & dK & dC & K & C & E1 & E2 & E3 & E4 & E5 & E6 & E7 & _).
  unfold mod_unit. rewrite (has_ty_ctor c st0 m cK cC dK dC); [|exists g; auto].
  split; intros X HX; [rewrite E4 in HX|rewrite E6 in HX]; injection HX as <-; assumption.
Qed.

Lemma C59_identity_lemma : forall a par c st0 es m cK cC dK dC,
  setting a par c st0 -> wf_run c es st0 -> frozen c es st0 -> In m (c_mods c) -> has_ty c st0 m cK cC dK dC ->
  exists K C, sl_K (s_slots (run c es st0) (m_key m)) = Some K /\ sl_C (s_slots (run c es st0) (m_key m)) = Some C /\
    eqm dK (ent K) ident /\ eqm dC (ent C) ident.
Proof.
  intros a par c st0 es m cK cC dK dC S W Z Hm HT. pose proof (setting_ok _ _ _ _ S) as [OK _].
  destruct (setting_typed _ _ _ _ [] S I) as [TO TA]. destruct (setting_typed _ _ _ _ es S W) as [_ TA'].
  pose proof (run_unit c _ es st0 m OK TO TA W Hm Z (setting_unit _ _ _ _ _ S Hm)) as U. destruct TA' as [TA' _]. specialize (TA' m Hm).
  unfold mod_unit, mod_typed in *. rewrite (has_ty_ctor _ _ _ _ _ _ _ HT) in U, TA'. destruct TA' as [(K & EK & _) (C & EC & _) _ _ _ _].
  exists K, C. split; [exact EK|]. split; [exact EC|]. split; apply U; assumption.
Qed.

Lemma C59_sgd_lemma : forall a par c st0 es,
  setting a par c st0 -> torch_shapes par c -> wf_run c es st0 -> Forall (grad_fits c) es -> frozen c es st0 -> no_failed_step c es st0 ->
  forall p, s_par (run c es st0) p = w_par (sgd_run (trained c) es (sgd_start par (s_groups st0))) p.
Proof.
  intros a par c st0 es S TS W GF Z NF. destruct (setting_facts a par c st0 [] S TS I (Forall_nil _)) as (OK & TO & TA & PF & SO). cbn [run] in *.
  assert (H : sim (run c es st0) (sgd_run (trained c) es (sgd_start par (s_groups st0)))).
  { apply (run_sim c (ctor_ty c (s_groups st0))); try assumption.
    - apply TS.
    - intros m Hm. eapply setting_unit; eassumption.
    - destruct S as ((h & h' & E) & _). destruct (ctor_state _ _ _ _ _ _ E) as (E1 & E2 & E3 & E4 & _ & _ & E7).
      split; [intros p; exact (E7 p)|]. split; [reflexivity|]. split; [exact E3|]. split; [exact E4|]. rewrite E1, E2. reflexivity. }
  apply H.
Qed.

End PropSgd.

(** * Cases *)

(** A schedule: learning rate 0 for the first [n] steps, 1/2 afterwards. *)
Definition warm (n k : nat) : @F Q_scalar := if Nat.ltb k n then q 0 else qr 1 2.
Definition warm_args (n T : nat) (st : option cls * option cls) : @args Q_scalar :=
  @mkArgs Q_scalar false ex_model (fun _ => true) PNone
    (PyFloat (qr 1 10 : @F Q_scalar)) (PyFloat (qr 1 2 : @F Q_scalar)) (PyFloat (qr 1 4 : @F Q_scalar))
    (PyFloat (qr 1 2 : @F Q_scalar)) (PyFloat (qr 1 8 : @F Q_scalar)) T LossBatch
    (@PyCallable Q_scalar (warm n)) st Expand true false (q 1) true.
(** Four steps: the second with announced scale 4, the third skipped. *)
Definition warm_hist : list (@event Q_scalar) :=
  ex_iter (q 1) ++ ex_step ++ ex_iter (q 4) ++ [@ESetScale Q_scalar (q 4)] ++ ex_step ++
  ex_iter (q 1) ++ [@EScaler Q_scalar (Some (Some (q 2))) true] ++ ex_step ++ ex_iter (q 2) ++ [@EScaler Q_scalar (Some (Some (q 2))) false] ++ ex_step.
Definition frozenb_at (st : @state Q_scalar) : bool := forallb (fun g => @feqb Q_scalar (lr_cov_at g (s_steps st)) (q 0)) (s_groups st).
Fixpoint frozenb (c : cfg) (es : list (@event Q_scalar)) (st : @state Q_scalar) : bool :=
  match es with
  | [] => true
  | e :: es' => (match e with EStep _ => frozenb_at st | _ => true end) && frozenb c es' (fst (event_op c e st))
  end.
Lemma frozenb_ok c es st : frozenb c es st = true -> frozen c es st.
Proof.
  revert st. induction es as [|e es IH]; intros st H; [exact I|]. cbn [frozenb frozen] in *. apply andb_true_iff in H as [H1 H2].
  split; [|apply IH; exact H2]. intros b ->. apply Forall_forall. intros g Hg. unfold frozenb_at in H1. rewrite forallb_forall in H1. apply feqb_iff. exact (H1 g Hg).
Qed.

Lemma C59_example_case :
  let a := warm_args 4 2 (Some (CBlock 30), Some CTril) in let c := fst (built a) in let st0 := snd (built a) in let es := warm_hist in
  setting a ex_par c st0 /\ torch_shapes ex_par c /\ wf_run c es st0 /\ Forall (grad_fits c) es /\ frozen c es st0 /\ no_failed_step c es st0 /\
  s_steps (run c es st0) = 4 /\ val_of (run c es st0) 0 <> val_of st0 0 /\ val_of (run c es st0) 1 <> val_of st0 1.
Proof.
  cbv zeta. split; [apply built_setting; vm_compute; reflexivity|]. split; [apply torch_shapesb_ok; vm_compute; reflexivity|].
  split; [apply wf_runb_ok; vm_compute; reflexivity|]. split; [apply grads_fitb_ok; vm_compute; reflexivity|].
  split; [apply frozenb_ok; vm_compute; reflexivity|]. split; [apply no_failb_ok; vm_compute; reflexivity|].
  split; [vm_compute; reflexivity|]. split; vm_compute; discriminate.
Qed.

Lemma C59_rate_needed_refuted_lemma :
  let a := warm_args 1 1 dense2 in let c := fst (built a) in let st0 := snd (built a) in let es := warm_hist in
  setting a ex_par c st0 /\ torch_shapes ex_par c /\ wf_run c es st0 /\ Forall (grad_fits c) es /\ no_failed_step c es st0 /\
  val_of (run c es st0) 0 <> show (p_val (w_par (sgd_run (trained c) es (sgd_start ex_par (s_groups st0))) 0)).
Proof.
  cbv zeta. split; [apply built_setting; vm_compute; reflexivity|]. split; [apply torch_shapesb_ok; vm_compute; reflexivity|].
  split; [apply wf_runb_ok; vm_compute; reflexivity|]. split; [apply grads_fitb_ok; vm_compute; reflexivity|].
  split; [apply no_failb_ok; vm_compute; reflexivity|]. vm_compute. discriminate.
Qed.
