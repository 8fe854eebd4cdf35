(** C65: performance warnings. *)

From Coq Require Import List Arith Lia Bool ZArith QArith Qcanon.
From Verif Require Import Scalar Res Tensor Structures OptimUtils Optimizer Construct OptState OptRun OptFacts OptTyped CtorSpec Naive NaiveSpec NaiveFacts NaiveRun QEx OptEx OptEx2.
Import ListNotations.
Open Scope nat_scope.

Section PropNaive.
Context {SC : Scalar} {FL : FieldLaws SC}.

Lemma C65_results_lemma (a : args) par hooks c e st :
  snd (w_ctor a par hooks) = ctor a par hooks /\ snd (w_event_op c e st) = event_op c e st.
Proof. split; [apply ctor_er|apply event_er]. Qed.

Lemma C65_calls_lemma (a : args) par c st0 es e :
  setting a par c st0 -> wf_run c es st0 -> snd (event_op c e (run c es st0)) = Ok tt ->
  call_warns c (s_groups st0) (run c es st0) e (naive_warnings c e (run c es st0)).
Proof. exact (call_exact a par c st0 es e). Qed.

Lemma C65_only_lemma (a : args) par c st0 es e :
  setting a par c st0 -> wf_run c es st0 -> Forall (toeplitz_warning (s_groups st0)) (naive_warnings c e (run c es st0)).
Proof. exact (call_only a par c st0 es e). Qed.

Lemma C65_constructor_lemma (a : args) par hooks :
  (forall i g c, settings a i = Some g -> fst (g_structs g) = Some c \/ snd (g_structs g) = Some c -> In c supported_structures) ->
  fst (w_ctor a par hooks) = [].
Proof. exact (ctor_says a par hooks). Qed.

(** Without Toeplitz structures no history of calls issues any. *)
Lemma warnings_none (c : cfg) st0 es1 es2 :
  (forall e es, wf_run c es st0 -> naive_warnings c e (run c es st0) = []) -> wf_run c (es1 ++ es2) st0 ->
  all_naive_warnings c es2 (run c es1 st0) = [].
Proof.
  intros H. revert es1. induction es2 as [|e es2 IH]; intros es1 W; [reflexivity|]. cbn [all_naive_warnings].
  assert (W1 : wf_run c es1 st0).
  { clear - W. revert st0 W. induction es1 as [|e' l IHl]; intros st0 W; [exact I|]. destruct W as [W1 W2]. split; [exact W1|]. apply IHl. exact W2. }
  pose proof (event_er c e (run c es1 st0)) as ER. pose proof (H e es1 W1) as HW. unfold naive_warnings in HW.
  destruct (w_event_op c e (run c es1 st0)) as [w [s' r']]. cbn [fst snd] in *. subst w. replace s' with (run c (es1 ++ [e]) st0) by (rewrite run_app; cbn [run]; rewrite <- ER; reflexivity). cbn [app].
  apply IH. rewrite <- app_assoc. exact W.
Qed.

Lemma C65_silent_lemma (a : args) par c st0 es :
  setting a par c st0 -> wf_run c es st0 ->
  (forall g ct, In g (s_groups st0) -> fst (g_structs g) = Some ct \/ snd (g_structs g) = Some ct -> ~ toeplitz ct) ->
  all_naive_warnings c es st0 = [].
Proof.
  intros S W N. apply (warnings_none c st0 [] es); [|exact W]. intros e es' W'. pose proof (call_only a par c st0 es' e S W') as F.
  destruct (naive_warnings c e (run c es' st0)) as [|w l]; [reflexivity|]. exfalso. apply Forall_inv in F as (g & ct & Hg & T & Es & _). exact (N g ct Hg Es T).
Qed.

Lemma C65_exempt_refuted_lemma (s : smat) X r :
  toeplitz (cls_of s) -> from_inner s X = Ok r ->
  In FromInner (exceptions (cls_of s)) /\ fst (w_from_inner s X) = [(cls_of s, FromMatInner)].
Proof.
  intros T E. assert (S : In (cls_of s) supported_structures) by (destruct T as [-> | ->]; cbn; auto 8).
  destruct (from_inner_says s X S) as [_ H]. destruct (H r) as [-> _]; [rewrite from_inner_er; exact E|].
  destruct T as [-> | ->]; split; cbn; auto.
Qed.

Lemma C65_recursive_lemma (s : smat) X r sd ma mc ca cc :
  cls_of s = CRec sd ma mc ca cc -> from_inner s X = Ok r ->
  map snd (fst (w_from_inner s X)) = FromInner :: match X with Some _ => [Rmatmat] | None => [] end ++ [FromMatInner] /\
  forall w, In w (fst (w_from_inner s X)) -> fst w = cls_of s.
Proof.
  intros Ec E. destruct s; try discriminate. rewrite <- from_inner_er in E. unfold w_from_inner in *. unfold wbind in *. cbn [called silent fst snd] in *.
  destruct X as [x|].
  - unfold w_rmatmat, w_from_mat_inner, called in *. cbn [fst snd] in *. destruct (rmatmat _ x); [|discriminate]. cbn [fst snd app]. split; [reflexivity|].
    intros w Hw. cbn in Hw. destruct Hw as [<-|[<-|[<-|[]]]]; reflexivity.
  - cbn [silent fst snd] in *. destruct (let* d := _ in _); [|discriminate]. cbn [fst snd app]. split; [reflexivity|].
    intros w Hw. cbn in Hw. destruct Hw as [<-|[<-|[]]]; reflexivity.
Qed.

Lemma C65_methods_lemma (s o : smat) x X :
  fst (w_frobenius_norm s) = [] /\
  (fst (w_add s o) = [] /\ fst (w_mul s x) = [] /\ ~ recursive (cls_of s) \/
   fst (w_add s o) = [(cls_of s, Add)] /\ fst (w_mul s x) = [(cls_of s, Mul)] /\ recursive (cls_of s)) /\
  (fst (w_from_inner2 s X) <> [] <-> recursive (cls_of s) \/ (exists d, cls_of s = CBlock d) \/ exists k1 k2, cls_of s = CHier k1 k2).
Proof.
  split; [|split].
  - induction s; try reflexivity. cbn [w_frobenius_norm]. unfold wbind. destruct (w_frobenius_norm s1) as [w1 [f1|]]; cbn [fst] in *; subst; [|reflexivity].
    destruct (w_frobenius_norm s2) as [w2 [f2|]]; cbn [fst] in *; subst; reflexivity.
  - destruct s; try (left; split; [reflexivity|]; split; [reflexivity|]; intros (? & ? & ? & ? & ? & EE); discriminate).
    right. split; [reflexivity|]. split; [reflexivity|]. cbn. unfold recursive. eauto 8.
  - unfold recursive. destruct s; cbn; split; intros H; try congruence; try (exfalso; apply H; reflexivity);
      try (destruct H as [(? & ? & ? & ? & ? & EE)|[(? & EE)|(? & ? & EE)]]; discriminate EE).
    + right. left. eauto.
    + right. right. eauto.
    + left. eauto 8.
Qed.

End PropNaive.

(** ** Cases *)
Definition nv : @args Q_scalar := ex_args PNone (qr 1 2) (qr 1 2) (qr 1 8) 2 (Some CTril, Some CDiag) false false (q 1).
Definition nvc : cfg := fst (built nv).
Definition nv0 : @state Q_scalar := snd (built nv).
Definition nv_es : list (@event Q_scalar) := ex_iter (q 1) ++ ex_step ++ ex_iter (q 1) ++ ex_step ++ ex_iter (q 1).

Lemma C65_example_case :
  setting nv ex_par nvc nv0 /\ wf_run nvc nv_es nv0 /\ fst (w_ctor nv ex_par []) = [] /\
  naive_warnings nvc (EBackward 11 ex_g2) (run nvc (firstn 2 nv_es) nv0) = [(CTril, FromMatInner)] /\
  snd (event_op nvc (EStep false) (run nvc (ex_iter (q 1)) nv0)) = Ok tt /\
  naive_warnings nvc (EStep false) (run nvc (ex_iter (q 1)) nv0) = [(CTril, FromMatInner); (CTril, FromMatInner)] /\
  all_naive_warnings nvc (ex_iter (q 1) ++ ex_step) (run nvc (ex_iter (q 1) ++ ex_step) nv0) = [] /\
  length (all_naive_warnings nvc (nv_es ++ ex_step) nv0) = 8.
Proof.
  split; [apply built_setting; vm_compute; reflexivity|]. split; [apply wf_runb_ok; vm_compute; reflexivity|]. split; [vm_compute; reflexivity|].
  split; [vm_compute; reflexivity|]. split; [|split; [vm_compute; reflexivity|split; vm_compute; reflexivity]].
  assert (X : is_ok (snd (event_op nvc (EStep false) (run nvc (ex_iter (q 1)) nv0))) = true) by (vm_compute; reflexivity).
  destruct (snd (event_op _ _ _)) as [[]|]; [reflexivity|discriminate].
Qed.

(** Without Toeplitz structures: the hypotheses of [C65_silent] are met by a history with steps. *)
Definition nh : @args Q_scalar := ex_args PNone (qr 1 2) (qr 1 2) (qr 1 8) 1 (Some (CHier 15 15), Some (CBlock 30)) false false (q 1).

Lemma C65_silent_example_case :
  setting nh ex_par (fst (built nh)) (snd (built nh)) /\ wf_run (fst (built nh)) (ex_iter (q 1) ++ ex_step) (snd (built nh)) /\
  (forall g ct, In g (s_groups (snd (built nh))) -> fst (g_structs g) = Some ct \/ snd (g_structs g) = Some ct -> ~ toeplitz ct) /\
  s_steps (run (fst (built nh)) (ex_iter (q 1) ++ ex_step) (snd (built nh))) = 1.
Proof.
  split; [apply built_setting; vm_compute; reflexivity|]. split; [apply wf_runb_ok; vm_compute; reflexivity|]. split; [|vm_compute; reflexivity].
  assert (X : forallb (fun g => match g_structs g with (Some (CHier 15 15), Some (CBlock 30)) => true | _ => false end) (s_groups (snd (built nh))) = true) by (vm_compute; reflexivity).
  intros g ct Hg. rewrite forallb_forall in X. specialize (X g Hg). destruct (g_structs g) as [x y]. cbn [fst snd].
  intros H T. assert (Y : match ct with CTril | CTriu => True | _ => False end) by (destruct T as [-> | ->]; exact I).
  destruct H as [-> | ->]; destruct ct; try contradiction; try discriminate X; destruct x as [[]|]; try discriminate X;
    repeat (match type of X with context [match ?n with O => _ | S _ => _ end] => destruct n; try discriminate X end).
Qed.

Lemma C65_exempt_example_case :
  toeplitz (cls_of (@MTril Q_scalar (qt [2] [1; 2]%Z))) /\ is_ok (from_inner (@MTril Q_scalar (qt [2] [1; 2]%Z)) (Some (qt [2; 1] [3; 4]%Z))) = true /\
  fst (w_from_inner (@MTril Q_scalar (qt [2] [1; 2]%Z)) (Some (qt [2; 1] [3; 4]%Z))) = [(CTril, FromMatInner)].
Proof. split; [left; reflexivity|]. split; vm_compute; reflexivity. Qed.

Definition rcs (l : list Z) : @smat Q_scalar :=
  match from_dense TrilTopLeftDiagonalMatrix (qt [3; 3] l) with Ok s => s | Err _ => @MDense Q_scalar (qt [0] []) end.
Lemma C65_recursive_example_case :
  cls_of (rcs [1; 0; 0; 0; 2; 0; 3; 4; 5]%Z) = TrilTopLeftDiagonalMatrix /\ is_ok (from_inner (rcs [1; 0; 0; 0; 2; 0; 3; 4; 5]%Z) (Some (qt [3; 1] [1; 2; 3]%Z))) = true /\
  map snd (fst (w_from_inner (rcs [1; 0; 0; 0; 2; 0; 3; 4; 5]%Z) (Some (qt [3; 1] [1; 2; 3]%Z)))) = [FromInner; Rmatmat; FromMatInner].
Proof. split; [vm_compute; reflexivity|]. split; vm_compute; reflexivity. Qed.

Lemma C65_only_example_case :
  setting nv ex_par nvc nv0 /\ wf_run nvc (firstn 4 nv_es) nv0 /\
  outcome (event_op nvc (EStep false) (run nvc (firstn 4 nv_es) nv0)) = Err AttributeError /\
  naive_warnings nvc (EStep false) (run nvc (firstn 4 nv_es) nv0) = [(CTril, FromMatInner)].
Proof.
  split; [apply built_setting; vm_compute; reflexivity|]. split; [apply wf_runb_ok; vm_compute; reflexivity|]. split; vm_compute; reflexivity.
Qed.

Lemma C65_methods_example_case :
  cls_of (rcs [3; 0; 0; 0; 4; 0; 0; 0; 12]%Z) = TrilTopLeftDiagonalMatrix /\
  match w_frobenius_norm (rcs [3; 0; 0; 0; 4; 0; 0; 0; 12]%Z) with ([], Ok v) => Qc_eq_bool v (q 13) | _ => false end = true /\
  fst (w_add (rcs [3; 0; 0; 0; 4; 0; 0; 0; 12]%Z) (rcs [3; 0; 0; 0; 4; 0; 0; 0; 12]%Z)) = [(TrilTopLeftDiagonalMatrix, Add)] /\
  is_ok (add (rcs [3; 0; 0; 0; 4; 0; 0; 0; 12]%Z) (rcs [3; 0; 0; 0; 4; 0; 0; 0; 12]%Z)) = true.
Proof. split; [vm_compute; reflexivity|]. split; [vm_compute; reflexivity|]. split; vm_compute; reflexivity. Qed.
