(** C58: of a structure only the matrices it extracts matter. *)

From Coq Require Import List Arith Lia Bool ZArith QArith Qcanon Reals.
From Verif Require Import Scalar Res Tensor TensorFacts Structures StructSpec OptimUtils ProofUtils Optimizer Construct CtorFacts OptSpec OptState OptRun OptFacts OptTyped RealOrd OptStep ProgressSpec ProgressEx Indep LoadFacts RotateSpec Rotate StructSwap QEx OptEx OptEx2 ProofRotate.
Import ListNotations.
Open Scope nat_scope.

Section PropSwap.
Context {SC : Scalar} {FL : FieldLaws SC} {OR : Ordered SC}.

Lemma C58_alike_lemma NS a a' par par' c c' st0 st0' es es' fr fo fp :
  setting a par c st0 -> setting a' par' c' st0' -> torch_shapes par c -> (forall p, par' p = turn_slot (fp p) (par p)) ->
  same_parameters a a' -> a_init_scale a' = a_init_scale a -> Forall2 same_but_structs (s_groups st0) (s_groups st0') ->
  (NS = false -> Forall (fun g => g_normalize g = false) (s_groups st0)) ->
  (forall m cK cC cK' cC' dK dC, In m (c_mods c) -> has_ty c st0 m cK cC dK dC -> has_ty c' st0' m cK' cC' dK dC ->
     framed (m_layer m) (fr m) /\ alike cK cK' dK (ext (fan (m_layer m)) (fst (fr m))) /\ alike cC cC' dC (snd (fr m)) /\
     (NS = true -> monomial dK (ext (fan (m_layer m)) (fst (fr m))) /\ monomial dC (snd (fr m))) /\
     forall p, In p (mod_params m) -> fp p = fr m) ->
  Forall2 (turned_call NS fr fo fp) es es' -> wf_run c es st0 -> Forall (grad_fits c) es ->
  let s := run c es st0 in let t := run c' es' st0' in
  (forall p, s_par t p = turn_slot (fp p) (s_par s p)) /\
  (forall m cK cC dK dC, In m (c_mods c) -> has_ty c st0 m cK cC dK dC ->
     turned_slots dK dC (ext (fan (m_layer m)) (fst (fr m))) (snd (fr m)) (s_slots s (m_key m)) (s_slots t (m_key m))) /\
  s_steps t = s_steps s /\ s_scales t = s_scales s /\ Forall2 same_but_structs (s_groups s) (s_groups t) /\ s_log t = s_log s /\
  outcomes c' es' st0' = outcomes c es st0.
Proof.
  intros S S' TS HP SP IS GR NN FR SH W GF.
  destruct (setting_typed a par c st0 [] S I) as [TO _]. destruct (setting_typed a' par' c' st0' [] S' I) as [TO' _].
  pose proof S as ((h1 & h2 & E1) & _). pose proof S' as ((h3 & h4 & E2) & _). destruct (ctor_same_cfg _ _ _ _ _ _ _ _ _ _ _ _ SP E1 E2) as [[EM _] _].
  destruct (setting_alike NS a a' par par' c c' st0 st0' es es' fr fo fp S S' TS HP SP IS GR NN) as (_ & [E SL P _ GR' _] & O); try assumption.
  - intros m cK cC cK' cC' dK dC Hm HT HT'. destruct (FR m cK cC cK' cC' dK dC Hm HT HT') as (F1 & F2 & F3 & F4 & F5).
    split; [exact F1|]. split; [exact F2|]. split; [exact F3|]. split; [|exact F5]. intros X. destruct (F4 X) as [M1 M2].
    assert (Hm' : In m (c_mods c')) by (rewrite EM; exact Hm). specialize (TO m Hm). specialize (TO' m Hm').
    rewrite (has_ty_ctor _ _ _ _ _ _ _ HT) in TO. rewrite (has_ty_ctor _ _ _ _ _ _ _ HT') in TO'.
    destruct TO as ((OK1 & _ & _ & N1) & (OK2 & _ & _ & N2) & Ed). destruct TO' as ((OK1' & _) & (OK2' & _) & _).
    destruct (framed_orth _ _ _ _ F1 Ed) as [OQ OP]. split; apply normal_perm; assumption.
  - cbv zeta. split; [exact P|]. split.
    + intros m cK cC dK dC Hm HT. specialize (SL m Hm). unfold mod_turned in SL. rewrite (has_ty_ctor _ _ _ _ _ _ _ HT) in SL. exact SL.
    + assert (F : s_steps (run c' es' st0') = s_steps (run c es st0) /\ s_scales (run c' es' st0') = s_scales (run c es st0) /\ s_log (run c' es' st0') = s_log (run c es st0)) by (rewrite E; repeat split).
      destruct F as (F1 & F2 & F3). auto.
Qed.

Lemma C58_same_lemma a a' par c c' st0 st0' es :
  setting a par c st0 -> setting a' par c' st0' -> torch_shapes par c ->
  same_parameters a a' -> a_init_scale a' = a_init_scale a -> Forall2 same_but_structs (s_groups st0) (s_groups st0') ->
  (forall m cK cC cK' cC' dK dC, In m (c_mods c) -> has_ty c st0 m cK cC dK dC -> has_ty c' st0' m cK' cC' dK dC ->
     (like cK cK' dK /\ forall M, eqm dK (proj cK' dK M) (proj cK dK M)) /\ (like cC cC' dC /\ forall M, eqm dC (proj cC' dC M) (proj cC dC M))) ->
  wf_run c es st0 -> Forall (grad_fits c) es ->
  let s := run c es st0 in let t := run c' es st0' in
  (forall p, s_par t p = s_par s p) /\
  (forall m cK cC dK dC, In m (c_mods c) -> has_ty c st0 m cK cC dK dC -> same_matrices dK dC (s_slots s (m_key m)) (s_slots t (m_key m))) /\
  s_steps t = s_steps s /\ s_scales t = s_scales s /\ s_log t = s_log s /\ outcomes c' es st0' = outcomes c es st0.
Proof.
  intros S S' TS SP IS GR PR W GF. set (fr := fun _ : modul => (ident, ident) : mat * mat). set (fp := fun _ : nat => (ident, ident) : mat * mat).
  assert (TI : forall p, turn_slot (ident, ident) p = p).
  { intros [v g b]. unfold turn_slot. cbn [p_val p_grad p_buf]. rewrite turnp_ident. destruct g as [g|], b as [b|]; cbn [option_map]; rewrite ?turnp_ident; reflexivity. }
  assert (XI : forall n k, eqr n n (ext k ident) ident) by (intros n k i j _ _; apply ext_ident).
  assert (MI : forall n Q, eqr n n Q ident -> monomial n Q).
  { intros n Q H i x y Hi Hx Hy N. rewrite !H by assumption. apply monomial_ident. exact N. }
  assert (FI : forall l, supported l -> framed l (ident, ident)).
  { intros [d_in d_out b|cv|] Hs; cbn; [split; apply orth_ident|reflexivity|exfalso; apply Hs; reflexivity]. }
  destruct (C58_alike_lemma true a a' par par c c' st0 st0' es es fr (fun _ => ident) fp) as (P & SL & F1 & F2 & _ & F3 & O); try assumption.
  - intros p. symmetry. apply TI.
  - intros X. discriminate X.
  - intros m cK cC cK' cC' dK dC Hm HT HT'. destruct (PR m cK cC cK' cC' dK dC Hm HT HT') as [[L1 P1] [L2 P2]]. cbn [fst snd fr].
    destruct HT as (_ & _ & _ & Ed). split; [apply FI; exact (dims_supported _ _ _ Ed)|].
    split; [apply alike_id; auto|]. split; [apply alike_id; auto; intros i j _ _; reflexivity|]. split; [|reflexivity].
    intros _. split; apply MI; [apply XI|intros i j _ _; reflexivity].
  - clear - FL. induction es as [|e es IH]; constructor; [|exact IH]. destruct e; cbn; auto.
    + repeat (split; [reflexivity|]). split; [symmetry; apply rotl_ident|reflexivity].
    + split; [reflexivity|]. symmetry. apply rotl_ident.
    + split; [reflexivity|]. destruct g; cbn [option_map]; [unfold fp; rewrite turnp_ident|]; reflexivity.
    + split; [apply structs_all|]. intros X. discriminate X.
  - cbv zeta. split; [intros p; rewrite P; apply TI|]. split; [|auto].
    intros m cK cC dK dC Hm HT. specialize (SL m cK cC dK dC Hm HT). cbn [fr fst snd] in SL.
    assert (OI : forall n Q o o', eqr n n Q ident -> oturn n Q o o' -> osame n o o').
    { clear - FL. intros n Q o o' H. destruct o, o'; cbn; auto. intros E i j Hi Hj. rewrite E by assumption. apply (turn_id n Q _ H); assumption. }
    destruct SL as (R1 & R2 & R3 & R4 & R5 & R6). repeat split; eapply OI; try eassumption; try apply XI; intros i j _ _; reflexivity.
Qed.

Lemma C58_coincide_lemma a a' par c c' st0 st0' es :
  setting a par c st0 -> setting a' par c' st0' -> torch_shapes par c ->
  same_parameters a a' -> a_init_scale a' = a_init_scale a -> Forall2 same_but_structs (s_groups st0) (s_groups st0') ->
  (forall m cK cC cK' cC' dK dC, In m (c_mods c) -> has_ty c st0 m cK cC dK dC -> has_ty c' st0' m cK' cC' dK dC ->
     coincide cK cK' dK /\ coincide cC cC' dC) ->
  wf_run c es st0 -> Forall (grad_fits c) es ->
  (forall p, s_par (run c' es st0') p = s_par (run c es st0) p) /\ outcomes c' es st0' = outcomes c es st0.
Proof.
  intros S S' TS SP IS GR PR W GF. destruct (C58_same_lemma a a' par c c' st0 st0' es S S' TS SP IS GR) as (P & _ & _ & _ & _ & O); try assumption; [|split; assumption].
  intros m cK cC cK' cC' dK dC Hm HT HT'. destruct (PR m cK cC cK' cC' dK dC Hm HT HT') as [H1 H2]. split; apply coincide_like; assumption.
Qed.

Lemma C58_mirror_lemma a a' par par' c c' st0 st0' es es' fo fp :
  setting a par c st0 -> setting a' par' c' st0' -> torch_shapes par c -> (forall p, par' p = turn_slot (fp p) (par p)) ->
  same_parameters a a' -> a_init_scale a' = a_init_scale a -> Forall2 same_but_structs (s_groups st0) (s_groups st0') ->
  (forall m, In m (c_mods c) -> (exists d_in d_out, m_layer m = Linear d_in d_out false) /\ forall p, In p (mod_params m) -> fp p = reversed m) ->
  (forall m cK cC cK' cC' dK dC, In m (c_mods c) -> has_ty c st0 m cK cC dK dC -> has_ty c' st0' m cK' cC' dK dC ->
     mirrored cK cK' /\ mirrored cC cC') ->
  Forall2 (turned_call true reversed fo fp) es es' -> wf_run c es st0 -> Forall (grad_fits c) es ->
  (forall p, s_par (run c' es' st0') p = turn_slot (fp p) (s_par (run c es st0) p)) /\ outcomes c' es' st0' = outcomes c es st0.
Proof.
  intros S S' TS HP SP IS GR LN MI SH W GF.
  destruct (C58_alike_lemma true a a' par par' c c' st0 st0' es es' reversed fo fp) as (P & _ & _ & _ & _ & _ & O); try assumption; [intros X; discriminate X| |split; assumption].
  intros m cK cC cK' cC' dK dC Hm HT HT'. destruct (MI m cK cC cK' cC' dK dC Hm HT HT') as [M1 M2]. destruct (LN m Hm) as [(d_in & d_out & El) FP].
  destruct HT as (_ & _ & _ & Ed). unfold reversed. rewrite El in *. cbn in Ed. injection Ed as <- <-. cbn [fst snd fan].
  split; [split; apply mirror_orth|]. split; [apply (alike_eqr _ _ _ _ (mirror d_in)); [apply ext_eqr|apply mirrored_alike; exact M1]|].
  split; [apply mirrored_alike; exact M2|]. split; [|intros p Hp; rewrite (FP p Hp); unfold reversed; rewrite El; reflexivity].
  intros _. split; [apply (monomial_ext d_in (mirror d_in) false)|]; apply mirror_monomial.
Qed.

Lemma C54_signed_lemma a par par' c c' st0 st0' es es' fr fo fp :
  setting a par c st0 -> setting a par' c' st0' -> torch_shapes par c -> (forall p, par' p = turn_slot (fp p) (par p)) ->
  (forall m cK cC dK dC, In m (c_mods c) -> has_ty c st0 m cK cC dK dC -> In cK [CDense; CDiag] /\ In cC [CDense; CDiag]) ->
  (forall m, In m (c_mods c) -> framed (m_layer m) (fr m) /\
     match m_layer m with Linear d_in d_out _ => monomial d_in (fst (fr m)) /\ monomial d_out (snd (fr m)) | _ => True end /\
     forall p, In p (mod_params m) -> fp p = fr m) ->
  Forall2 (turned_call true fr fo fp) es es' -> wf_run c es st0 -> Forall (grad_fits c) es ->
  (forall p, s_par (run c' es' st0') p = turn_slot (fp p) (s_par (run c es st0) p)) /\ outcomes c' es' st0' = outcomes c es st0.
Proof.
  intros S S' TS HP CL FR SH W GF. pose proof S as ((h1 & h2 & E1) & _). pose proof S' as ((h3 & h4 & E2) & _).
  destruct (ctor_same _ _ _ _ _ _ _ _ _ _ _ E1 E2) as (-> & _ & Y).
  destruct (C58_alike_lemma true a a par par' c c st0 st0' es es' fr fo fp) as (P & _ & _ & _ & _ & _ & O); try assumption; [apply same_parameters_refl|reflexivity|rewrite Y; apply structs_all|intros X; discriminate X| |split; assumption].
  intros m cK cC cK' cC' dK dC Hm HT HT'. assert (X : cK' = cK /\ cC' = cC).
  { destruct HT as (g & G1 & G2 & _). destruct HT' as (g' & G1' & G2' & _). rewrite Y in G1'. rewrite G1 in G1'. injection G1' as <-. rewrite G2 in G2'. injection G2' as <- <-. split; reflexivity. }
  destruct X as [-> ->]. destruct (CL m cK cC dK dC Hm HT) as [C1 C2]. destruct (FR m Hm) as (F1 & F2 & F3). destruct HT as (_ & _ & _ & Ed).
  assert (MM : monomial dK (ext (fan (m_layer m)) (fst (fr m))) /\ monomial dC (snd (fr m))).
  { destruct (m_layer m) as [d_in d_out b|cv|]; [| |discriminate].
    - injection Ed as <- <-. destruct F2 as [M1 M2]. split; [exact (monomial_ext d_in _ b M1)|exact M2].
    - cbn in F1. rewrite F1. cbn [fst snd]. split; intros i x y _ _ _ N; rewrite ?ext_ident; apply monomial_ident; exact N. }
  assert (ST : forall k n Q, In k [CDense; CDiag] -> monomial n Q -> alike k k n Q).
  { intros k n Q [<-|[<-|[]]] M; apply stable_alike; [apply stable_dense|apply stable_diag; exact M]. }
  destruct MM as [M1 M2]. split; [exact F1|]. split; [apply ST; assumption|]. split; [apply ST; assumption|]. split; [intros _; split; assumption|exact F3].
Qed.

End PropSwap.

(** ** Cases *)

Lemma setting_groups2 (a a' : @args Q_scalar) par par' c c' st st' :
  setting a par c st -> setting a' par' c' st' -> Forall2 same_but_structs (groups_of a) (groups_of a') -> Forall2 same_but_structs (s_groups st) (s_groups st').
Proof.
  intros ((h1 & h2 & E) & _) ((h1' & h2' & E') & _) H. apply ctor_ok in E as (_ & _ & ->). apply ctor_ok in E' as (_ & _ & ->). exact H.
Qed.

Lemma setting_structs (a : @args Q_scalar) par c st g : setting a par c st -> In g (s_groups st) -> In (g_structs g) (map g_structs (groups_of a)).
Proof. intros ((h1 & h2 & E) & _) H. apply ctor_ok in E as (_ & _ & X). rewrite X in H. apply in_map. exact H. Qed.

Definition sw_a (st : option cls * option cls) : @args Q_scalar := ex_args PNone (qr 1 2) (qr 1 2) (qr 1 8) 2 st false true (q 1).
Definition sw_hist : list (@event Q_scalar) := ex_iter (q 1) ++ ex_step ++ ex_iter (q 1) ++ [@EGrad Q_scalar 1 None] ++ ex_step ++ ex_iter (q 1) ++ ex_step ++ ex_iter (q 1) ++ ex_iter (q 1) ++ ex_step.

Lemma C58_example_hierarchical_case :
  let a := sw_a dense2 in let a' := sw_a (Some (CHier 15 15), Some (CHier 15 15)) in
  let c := fst (built a) in let st0 := snd (built a) in let c' := fst (built a') in let st0' := snd (built a') in let es := sw_hist in
  setting a ex_par c st0 /\ setting a' ex_par c' st0' /\ torch_shapes ex_par c /\ same_parameters a a' /\ a_init_scale a' = a_init_scale a /\
  Forall2 same_but_structs (s_groups st0) (s_groups st0') /\
  (forall m cK cC cK' cC' dK dC, In m (c_mods c) -> has_ty c st0 m cK cC dK dC -> has_ty c' st0' m cK' cC' dK dC -> coincide cK cK' dK /\ coincide cC cC' dC) /\
  wf_run c es st0 /\ Forall (grad_fits c) es /\
  map is_ok (outcomes c es st0) <> map (fun _ => true) es /\ val_of (run c' es st0') 0 = val_of (run c es st0) 0 /\ val_of (run c es st0) 0 <> val_of st0 0 /\
  s_steps (run c es st0) = 3.
Proof.
  cbv zeta. lazymatch goal with |- setting ?a ?p ?c ?s /\ setting ?a' ?p' ?c' ?s' /\ _ => assert (S1 : setting a p c s) by (apply built_setting; vm_compute; reflexivity); assert (S2 : setting a' p' c' s') by (apply built_setting; vm_compute; reflexivity) end.
  split; [exact S1|]. split; [exact S2|].
  split; [apply torch_shapesb_ok; vm_compute; reflexivity|]. split; [split; [reflexivity|intros p; reflexivity]|]. split; [reflexivity|].
  split; [eapply setting_groups2; [eassumption|eassumption|]; constructor; [reflexivity|constructor]|].
  split. { intros m cK cC cK' cC' dK dC Hm (g & G1 & G2 & G3) (g' & G1' & G2' & _).
    change (c_mods (fst (built (sw_a dense2)))) with [ex_m1; ex_m2] in Hm.
    apply get_group_In in G1. apply get_group_In in G1'. apply (setting_structs _ _ _ _ _ S1) in G1. apply (setting_structs _ _ _ _ _ S2) in G1'. rewrite G2 in G1. rewrite G2' in G1'. vm_compute in G1, G1'. destruct G1 as [G1|[]]. destruct G1' as [G1'|[]]. injection G1 as <- <-. injection G1' as <- <-.
    assert (D : dK <= 15 /\ dC <= 15) by (destruct Hm as [<-|[<-|[]]]; cbn in G3; injection G3 as <- <-; lia).
    destruct D as [D1 D2]. split; right; right; (split; [assumption|]); (apply Forall_cons; [cbn; auto|apply Forall_cons; [cbn; auto|constructor]]). }
  split; [apply wf_runb_ok; vm_compute; reflexivity|]. split; [apply grads_fitb_ok; vm_compute; reflexivity|].
  split; [vm_compute; discriminate|]. split; [vm_compute; reflexivity|]. split; [vm_compute; discriminate|vm_compute; reflexivity].
Qed.

Lemma C58_block_refuted_lemma :
  let a := blk_args CDense CDense in let a' := blk_args (CBlock 30) (CBlock 30) in
  let c := fst (built a) in let st0 := snd (built a) in let c' := fst (built a') in let st0' := snd (built a') in
  let es := blk_iter blk_x1 ++ ex_step ++ blk_iter blk_x2 ++ ex_step ++ blk_iter blk_x1 ++ ex_step in
  (forall n (M : nat -> nat -> @F Q_scalar), n <= 30 -> @eqm Q_scalar n (proj (CBlock 30) n M) (proj CDense n M)) /\
  setting a ex_par c st0 /\ setting a' ex_par c' st0' /\ same_parameters a a' /\ Forall2 same_but_structs (s_groups st0) (s_groups st0') /\
  wf_run c es st0 /\ forallb is_ok (outcomes c es st0) = true /\ forallb is_ok (outcomes c' es st0') = true /\
  val_of (run c' es st0') 0 <> val_of (run c es st0) 0.
Proof.
  cbv zeta. split.
  { intros n M L i j Hi Hj. cbn [proj]. rewrite !Nat.div_small by lia. reflexivity. }
  lazymatch goal with |- setting ?a ?p ?c ?s /\ setting ?a' ?p' ?c' ?s' /\ _ => assert (S1 : setting a p c s) by (apply built_setting; vm_compute; reflexivity); assert (S2 : setting a' p' c' s') by (apply built_setting; vm_compute; reflexivity) end.
  split; [exact S1|]. split; [exact S2|].
  split; [split; [reflexivity|intros p; reflexivity]|]. split; [eapply setting_groups2; [eassumption|eassumption|]; constructor; [reflexivity|constructor]|]. split; [apply wf_runb_ok; vm_compute; reflexivity|].
  split; [vm_compute; reflexivity|]. split; [vm_compute; reflexivity|]. vm_compute. discriminate.
Qed.

Lemma C58_bounds_refuted_lemma :
  (exists M, ~ @eqm Q_scalar 2 (proj CTril 2 M) (proj CTriu 2 M)) /\ (exists M, ~ @eqm Q_scalar 2 (proj CDiag 2 M) (proj CDense 2 M)) /\
  (exists M, ~ @eqm Q_scalar 16 (proj (CHier 15 15) 16 M) (proj CDense 16 M)).
Proof.
  split; [|split].
  - exists (fun _ _ => q 1). intros H. specialize (H 0 1 ltac:(lia) ltac:(lia)). vm_compute in H. discriminate.
  - exists (fun _ _ => q 1). intros H. specialize (H 0 1 ltac:(lia) ltac:(lia)). vm_compute in H. discriminate.
  - exists (fun _ _ => q 1). intros H. specialize (H 0 15 ltac:(lia) ltac:(lia)). vm_compute in H. discriminate.
Qed.

(** Two linear layers without bias. *)
Definition mir_a (st : option cls * option cls) : @args Q_scalar :=
  @mkArgs Q_scalar false [mkNode blk_m true [0]; mkNode ex_m2 true [2]] (fun _ => true) PNone
    (PyFloat (qr 1 10 : @F Q_scalar)) (PyFloat (qr 1 2 : @F Q_scalar)) (PyFloat (qr 1 4 : @F Q_scalar))
    (PyFloat (qr 1 2 : @F Q_scalar)) (PyFloat (qr 1 8 : @F Q_scalar)) 1 LossBatch
    (PyFloat (qr 1 2 : @F Q_scalar)) st Expand true false (q 1) true.
Definition mir_iter : list (@event Q_scalar) :=
  [ @EForward Q_scalar blk_m ex_x1 true 10; @EForward Q_scalar ex_m2 ex_x2 true 11; @EBackward Q_scalar 11 ex_g2; @EBackward Q_scalar 10 ex_g1;
    @EGrad Q_scalar 0 (Some (qt [1; 2] [6; -2]%Z)); @EGrad Q_scalar 2 (Some (qt [2; 1] [5; -10]%Z)) ].
Definition mir_hist : list (@event Q_scalar) := mir_iter ++ ex_step ++ mir_iter ++ ex_step ++ mir_iter ++ mir_iter ++ ex_step.
Definition mfp (p : nat) : (nat -> nat -> @F Q_scalar) * (nat -> nat -> @F Q_scalar) := if Nat.eqb p 0 then reversed blk_m else reversed ex_m2.
Definition mfo (out : nat) : nat -> nat -> @F Q_scalar := if Nat.eqb out 10 then snd (reversed blk_m) else snd (reversed ex_m2).
Definition mpar (p : nat) : @pslot Q_scalar := turn_slot (mfp p) (ex_par p).
Definition mcall (e : @event Q_scalar) : @event Q_scalar :=
  match e with
  | EForward m x b out => @EForward Q_scalar m (rotl (fst (reversed m)) x) b out
  | EBackward out g => @EBackward Q_scalar out (rotl (mfo out) g)
  | EGrad p g => @EGrad Q_scalar p (option_map (turnp (mfp p)) g)
  | _ => e
  end.
Definition mst (a : @args Q_scalar) : @state Q_scalar := match snd (ctor a mpar []) with Ok (_, st) => st | Err _ => snd (built a) end.
Lemma mst_setting a : settingb a = true -> is_ok (snd (ctor a mpar [])) = true -> setting a mpar (fst (built a)) (mst a).
Proof.
  intros SB O2. destruct (built_setting a SB) as ((h1 & h2 & E1) & S2 & S3 & S4 & S5). unfold mst. destruct (ctor a mpar []) as [h3 r2] eqn:E2. cbn [snd] in *.
  destruct r2 as [[c2 s2]|]; [|discriminate]. destruct (ctor_same _ _ _ _ _ _ _ _ _ _ _ E1 E2) as (-> & _ & EG).
  split; [exists [], h3; exact E2|]. split; [exact S2|]. split; [exact S3|]. split; [exact S4|]. rewrite EG. exact S5.
Qed.
Lemma mcall_ok es : forallb (fun e => match e with EGroups _ => false | _ => true end) es = true ->
  (forall m x b out, In (@EForward Q_scalar m x b out) es -> mfo out = snd (reversed m)) ->
  Forall2 (turned_call true reversed mfo mfp) es (map mcall es).
Proof.
  induction es as [|e es IH]; intros H FO; [constructor|]. cbn [forallb map] in *. apply andb_true_iff in H as [H1 H2].
  constructor; [|apply IH; [exact H2|intros; eapply FO; right; eassumption]].
  destruct e as [m x b out| | | | | |]; cbn [mcall turned_call]; try reflexivity; try (repeat split; reflexivity); [|discriminate].
  repeat (split; [reflexivity|]). eapply FO. left. reflexivity.
Qed.

Lemma C58_example_mirror_case :
  let a := mir_a (Some CTril, Some CTril) in let a' := mir_a (Some CTriu, Some CTriu) in
  let c := fst (built a) in let st0 := snd (built a) in let c' := fst (built a') in let st0' := mst a' in let es := mir_hist in let es' := map mcall es in
  setting a ex_par c st0 /\ setting a' mpar c' st0' /\ torch_shapes ex_par c /\ same_parameters a a' /\ Forall2 same_but_structs (s_groups st0) (s_groups st0') /\
  (forall m, In m (c_mods c) -> (exists d_in d_out, m_layer m = Linear d_in d_out false) /\ forall p, In p (mod_params m) -> mfp p = reversed m) /\
  (forall m cK cC cK' cC' dK dC, In m (c_mods c) -> has_ty c st0 m cK cC dK dC -> has_ty c' st0' m cK' cC' dK dC -> mirrored cK cK' /\ mirrored cC cC') /\
  Forall2 (turned_call true reversed mfo mfp) es es' /\ wf_run c es st0 /\ Forall (grad_fits c) es /\
  val_of (run c' es' st0') 0 = show (turnp (mfp 0) (p_val (s_par (run c es st0) 0))) /\
  val_of (run c' es' st0') 0 <> val_of (run c es st0) 0 /\ val_of (run c es st0) 0 <> val_of st0 0 /\ s_steps (run c es st0) = 3.
Proof.
  cbv zeta. lazymatch goal with |- setting ?a ?p ?c ?s /\ setting ?a' ?p' ?c' ?s' /\ _ => assert (S1 : setting a p c s) by (apply built_setting; vm_compute; reflexivity); assert (S2 : setting a' p' c' s') by (apply mst_setting; vm_compute; reflexivity) end.
  split; [exact S1|]. split; [exact S2|].
  split; [apply torch_shapesb_ok; vm_compute; reflexivity|]. split; [split; [reflexivity|intros p; reflexivity]|].
  split; [eapply setting_groups2; [eassumption|eassumption|]; constructor; [reflexivity|constructor]|].
  split. { intros m Hm. change (c_mods (fst (built (mir_a (Some CTril, Some CTril))))) with [blk_m; ex_m2] in Hm. destruct Hm as [<-|[<-|[]]]; (split; [do 2 eexists; reflexivity|]); intros p [<-|[]]; reflexivity. }
  split. { intros m cK cC cK' cC' dK dC _ (g & G1 & G2 & _) (g' & G1' & G2' & _). apply get_group_In in G1. apply get_group_In in G1'. apply (setting_structs _ _ _ _ _ S1) in G1. apply (setting_structs _ _ _ _ _ S2) in G1'. rewrite G2 in G1. rewrite G2' in G1'.
    vm_compute in G1, G1'. destruct G1 as [G1|[]]. destruct G1' as [G1'|[]]. injection G1 as <- <-. injection G1' as <- <-. split; reflexivity. }
  split. { apply mcall_ok; [vm_compute; reflexivity|]. intros m x b out H.
    assert (X : (m = blk_m /\ out = 10) \/ (m = ex_m2 /\ out = 11)).
    { unfold mir_hist, mir_iter, ex_step in H. cbn [app] in H. repeat (destruct H as [H|H]; [try discriminate H; injection H as <- <- <- <-; auto|]). destruct H. }
    destruct X as [[-> ->]|[-> ->]]; reflexivity. }
  split; [apply wf_runb_ok; vm_compute; reflexivity|]. split; [apply grads_fitb_ok; vm_compute; reflexivity|].
  split; [vm_compute; reflexivity|]. split; [vm_compute; discriminate|]. split; [vm_compute; discriminate|vm_compute; reflexivity].
Qed.

Lemma C54_example_signed_case :
  let a := rot_a (Some CDiag, Some CDense) true in let c := fst (built a) in let st0 := snd (built a) in let st0' := rst swap2 a in
  let es := rot_hist in let es' := map (rcall swap2) es in
  setting a ex_par c st0 /\ setting a (rpar swap2) c st0' /\ torch_shapes ex_par c /\
  (forall m cK cC dK dC, In m (c_mods c) -> has_ty c st0 m cK cC dK dC -> In cK [CDense; CDiag] /\ In cC [CDense; CDiag]) /\
  (forall m, In m (c_mods c) -> framed (m_layer m) (rfr swap2 m) /\
     match m_layer m with Linear d_in d_out _ => monomial d_in (fst (rfr swap2 m)) /\ monomial d_out (snd (rfr swap2 m)) | _ => True end /\
     forall p, In p (mod_params m) -> rfp swap2 p = rfr swap2 m) /\
  Forall2 (turned_call true (rfr swap2) (rfo swap2) (rfp swap2)) es es' /\ wf_run c es st0 /\ Forall (grad_fits c) es /\
  Forall (fun g => g_normalize g = true) (s_groups st0) /\
  val_of (run c es' st0') 0 = show (turnp (rfp swap2 0) (p_val (s_par (run c es st0) 0))) /\
  val_of (run c es' st0') 0 <> val_of (run c es st0) 0 /\ val_of (run c es st0) 0 <> val_of st0 0.
Proof.
  cbv zeta. lazymatch goal with |- setting ?a ?p ?c ?s /\ _ => assert (S1 : setting a p c s) by (apply built_setting; vm_compute; reflexivity) end.
  split; [exact S1|]. split; [apply rst_setting; vm_compute; reflexivity|].
  split; [apply torch_shapesb_ok; vm_compute; reflexivity|].
  split. { intros m cK cC dK dC _ (g & G1 & G2 & _). apply get_group_In in G1. apply (setting_structs _ _ _ _ _ S1) in G1. rewrite G2 in G1. vm_compute in G1. destruct G1 as [G1|[]]. injection G1 as <- <-. split; cbn; auto. }
  split.
  { assert (M2 : @monomial Q_scalar 2 swap2) by (intros [|[|i]] [|[|x]] [|[|y]] Hi Hx Hy N; try lia; split; apply (@feqb_iff Q_scalar _); vm_compute; reflexivity).
    assert (M1 : @monomial Q_scalar 1 flip) by (intros [|i] [|x] [|y] Hi Hx Hy N; lia).
    intros m Hm. change (c_mods (fst (built (rot_a (Some CDiag, Some CDense) true)))) with [ex_m1; ex_m2] in Hm. destruct Hm as [<-|[<-|[]]]; (split; [split|split; [split|]]).
    - exact orth_swap2. - exact orth_flip. - exact M2. - exact M1. - intros p [<-|[<-|[]]]; reflexivity.
    - exact orth_flip. - exact orth_swap2. - exact M1. - exact M2. - intros p [<-|[]]; reflexivity. }
  split; [apply rcall_ok; vm_compute; reflexivity|]. split; [apply wf_runb_ok; vm_compute; reflexivity|]. split; [apply grads_fitb_ok; vm_compute; reflexivity|].
  split; [repeat constructor|]. split; [vm_compute; reflexivity|]. split; vm_compute; discriminate.
Qed.
