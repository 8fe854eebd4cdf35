(** C18, C32, C33: several processes. *)

From Coq Require Import List Arith Lia Bool ZArith QArith Qcanon Reals.
From Verif Require Import Scalar Res Tensor TensorFacts Structures StructSpec StructPattern StructOps OptimUtils ProofUtils Optimizer Construct OptState OptFacts OptTyped Batch Accum Dist DistSpec DistRun QEx OptEx OptEx2 ProofAccum DistEx.
Import ListNotations.
Open Scope nat_scope.

Section PropDist.
Context {SC : Scalar} {FL : FieldLaws SC} {SQ : SqrtLaws SC}.
Open Scope F_scope.

Lemma C18_all_reduce_partial_lemma R op c n (s : nat -> smat) (lay : nat -> nat -> bool) :
  R <> O -> cls_ok c -> (forall r, (r < R)%nat -> valid c n (s r)) ->
  (forall r i, (r < R)%nat -> (i < length (tensors (s r)))%nat -> lay r i = true) ->
  exists m, world (map (fun r => all_reduce op (lay r) (s r)) (seq 0 R)) = Some (map (fun _ => m) (seq 0 R)) /\ valid c n m /\
    repr m n (fun i j => let t := sum R (fun r => ent (s r) i j) in match op with OpSum => t | OpAvg => t / fofnat R end).
Proof. exact (all_reduce_world R op c n s lay). Qed.

Lemma C18_layouts_lemma R op c n (s : nat -> smat) (lay : nat -> nat -> bool) :
  R <> O -> cls_ok c -> (forall r, (r < R)%nat -> valid c n (s r)) ->
  exists a : nat -> smat, world (map (fun r => all_reduce op (lay r) (s r)) (seq 0 R)) = Some (map a (seq 0 R)) /\
    forall r, (r < R)%nat -> valid c n (a r) /\ forall k own, nth_error (tensors (s r)) k = Some own ->
      exists t, nth_error (tensors (a r)) k = Some t /\ shape t = shape own /\ forall idx, in_range (shape own) idx ->
        tget t idx = if lay r k then (let x := sum R (fun q => tget (nth k (tensors (s q)) own) idx) in match op with OpSum => x | OpAvg => x / fofnat R end) else tget own idx.
Proof. exact (all_reduce_layouts R op c n s lay). Qed.

Lemma C18_optimizer_layouts_lemma c n s i : In c supported_structures -> valid c n s -> inner_layout s i = true.
Proof. exact (inner_contiguous c n s i). Qed.

Lemma C33_collectives_partial_lemma R a par c st0 es :
  R <> O -> setting a par c st0 -> (forall m, In m (c_mods c) -> bias_ok m) -> (forall p, p_grad (par p) = None) ->
  Forall (fun er => forall r, (r < R)%nat -> aligned (er O) (er r)) es -> (forall r, (r < R)%nat -> legal c (of_rank r es) (fun _ => None)) ->
  exists (st : nat -> state) o, world (map (fun r => d_run c (of_rank r es) st0) (seq 0 R)) = Some (map (fun r => (st r, o)) (seq 0 R)) /\
    forall r, (r < R)%nat -> twins (st r) (st O).
Proof. exact (collectives_match R a par c st0 es). Qed.

Lemma C32_distributed_partial_lemma R a par c st0 es ers :
  R <> O -> setting a par c st0 -> (forall m, In m (c_mods c) -> bias_ok m) -> (forall p, p_grad (par p) = None) ->
  Forall (fun g => g_loss g = LossBatch \/ g_loss g = LossBatchSeq) (s_groups st0) ->
  Forall2 (split_event R true) es ers -> legal c es (fun _ => None) ->
  exists (st : nat -> state), world (map (fun r => d_run c (of_rank r ers) st0) (seq 0 R)) = Some (map (fun r => (st r, results c es st0)) (seq 0 R)) /\
    forall r, (r < R)%nat -> twins (st r) (run c es st0).
Proof. exact (distributed_equal R a par c st0 es ers). Qed.

End PropDist.

Lemma C32_distributed_real_partial_lemma R (a : @args R_scalar) par c st0 es ers :
  R <> O -> setting a par c st0 -> (forall m, In m (c_mods c) -> bias_ok m) -> (forall p, p_grad (par p) = None) ->
  Forall (fun g => g_loss g = LossBatch \/ g_loss g = LossBatchSeq) (s_groups st0) ->
  Forall2 (split_event R true) es ers -> legal c es (fun _ => None) ->
  exists (st : nat -> state), world (map (fun r => d_run c (of_rank r ers) st0) (seq 0 R)) = Some (map (fun r => (st r, results c es st0)) (seq 0 R)) /\
    forall r, r < R -> twins (st r) (run c es st0).
Proof. exact (C32_distributed_partial_lemma R a par c st0 es ers). Qed.

Lemma C18_example_case :
  let s r := dd_mat (Z.of_nat r) in
  (forall r, r < 3 -> valid (CRec TopRight (Fin 2) Inf CDense CDiag) 4 (s r)) /\ cls_ok (CRec TopRight (Fin 2) Inf CDense CDiag) /\
  show_all (world (map (fun r => all_reduce OpSum (fun _ => true) (s r)) (seq 0 3))) =
    repeat (lit [4; 4] [3; 6; 3; 3; 9; 12; 3; 3; 0; 0; 15; 0; 0; 0; 0; 3]%Z) 3.
Proof. split; [intros r _; repeat split|]. split; [repeat split; discriminate|]. vm_compute. reflexivity. Qed.

Lemma C18_layout_refuted_lemma :
  exists (s : nat -> @smat Q_scalar) lay,
    (forall r, valid CDense 2 (s r)) /\ ~ ent (s 0) 0 0 = ent (s 1) 0 0 /\
    world (map (fun r => all_reduce OpSum lay (s r)) (seq 0 2)) = Some [s 0; s 1] /\
    fadd (ent (s 0) 0 0) (ent (s 1) 0 0) <> ent (s 0) 0 0.
Proof.
  exists (fun r => MDense (qt [2; 2] [Z.of_nat r + 1; 2; 3; 4]%Z)), (fun _ => false). split; [intros r; repeat split|]. split; [vm_compute; discriminate|].
  split; [reflexivity|]. vm_compute. discriminate.
Qed.

Lemma C18_recursive_refuted_lemma :
  exists (K : @smat Q_scalar) (X : nat -> @tensor Q_scalar) (m : nat -> smat),
    valid (CRec TopRight (Fin 2) Inf CDense CDiag) 4 K /\ (forall r, r < 2 -> from_inner K (Some (X r)) = Ok (m r)) /\
    exists a0 a1, world (map (fun r => all_reduce OpAvg (inner_layout (m r)) (m r)) (seq 0 2)) = Some [a0; a1] /\
      ent a0 0 0 <> ent a1 0 0 /\ ent a0 0 0 <> fdiv (fadd (ent (m 0) 0 0) (ent (m 1) 0 0)) (fofnat 2).
Proof.
  set (K := dd_mat 1). set (X r := qt [4; 1] [Z.of_nat r; 1; 1; 2]%Z).
  exists K, X, (fun r => match from_inner K (Some (X r)) with Ok v => v | Err _ => K end). split; [repeat split|].
  assert (O : forall (r : res (@smat Q_scalar)) d, is_ok r = true -> r = Ok (match r with Ok v => v | Err _ => d end)) by (intros [?|?] d H; [reflexivity|discriminate H]).
  split; [intros [|[|r]] Hr; [apply O; vm_compute; reflexivity|apply O; vm_compute; reflexivity|lia]|].
  set (w := world _). assert (L : match w with Some [a0; a1] => negb (feqb (ent a0 0 0) (ent a1 0 0)) && negb (feqb (ent a0 0 0) (fdiv (fadd (ent (match from_inner K (Some (X 0)) with Ok v => v | Err _ => K end) 0 0) (ent (match from_inner K (Some (X 1)) with Ok v => v | Err _ => K end) 0 0)) (fofnat 2))) | _ => false end = true) by (vm_compute; reflexivity).
  destruct w as [[|a0 [|a1 [|? ?]]]|]; try discriminate L. exists a0, a1. split; [reflexivity|]. apply andb_true_iff in L as [L1 L2].
  split; intros EQ; [rewrite EQ in L1|rewrite EQ in L2]; rewrite (proj2 (feqb_iff _ _) eq_refl) in *; discriminate.
Qed.

Lemma C32_example_case :
  let a := ga LossBatch false in let c := gac LossBatch false in let st0 := ga0 LossBatch false in let s := run c dd_hist st0 in
  setting a ex_par c st0 /\ (forall m, In m (c_mods c) -> bias_ok m) /\ (forall p, p_grad (ex_par p) = None) /\
  Forall (fun g => g_loss g = LossBatch \/ g_loss g = LossBatchSeq) (s_groups st0) /\
  Forall2 (split_event 4 true) dd_hist (dd_ranks true) /\ legal c dd_hist (fun _ => None) /\
  s_steps s = 3 /\ val_of s 0 <> val_of st0 0 /\ pre_of s 0 <> pre_of st0 0 /\ last (results c dd_hist st0) (Ok tt) = Err AttributeError /\
  match dd_world LossBatch false (dd_ranks true) with Some l => map (fun x => obs (fst x)) l = repeat (obs s) 4 | None => False end.
Proof.
  cbv zeta. split; [apply built_setting; vm_compute; reflexivity|]. split; [apply dd_bias; vm_compute; reflexivity|]. split; [intros [|[|p]]; reflexivity|].
  split; [apply dd_loss; vm_compute; reflexivity|]. split; [apply dd_split|]. split; [apply legalb_ok; vm_compute; reflexivity|].
  split; [vm_compute; reflexivity|]. split; [vm_compute; discriminate|]. split; [vm_compute; discriminate|]. split; vm_compute; reflexivity.
Qed.

Lemma C32_sum_refuted_lemma :
  exists R (a : @args Q_scalar) par c st0 es ers,
    R <> 0 /\ setting a par c st0 /\ (forall m, In m (c_mods c) -> bias_ok m) /\ (forall p, p_grad (par p) = None) /\
    Forall (fun g => g_loss g = LossSum) (s_groups st0) /\ Forall2 (split_event R false) es ers /\ legal c es (fun _ => None) /\
    exists l, world (map (fun r => d_run c (of_rank r ers) st0) (seq 0 R)) = Some l /\
      Forall (fun x => Forall (eq (Ok tt)) (snd x) /\ p_val (s_par (fst x) 0) <> p_val (s_par (run c es st0) 0)) l.
Proof.
  exists 4, (ga LossSum false), ex_par, (gac LossSum false), (ga0 LossSum false), (dd_iter ga_grads), (map (shard_ev 4 1 false dd_delta) (dd_iter ga_grads)).
  split; [discriminate|]. split; [apply built_setting; vm_compute; reflexivity|]. split; [apply dd_bias; vm_compute; reflexivity|]. split; [intros [|[|p]]; reflexivity|].
  split. { assert (H : map g_loss (s_groups (ga0 LossSum false)) = [LossSum]) by (vm_compute; reflexivity). destruct (s_groups (ga0 LossSum false)) as [|g [|? ?]]; try discriminate. injection H as H. apply Forall_cons; [exact H|apply Forall_nil]. }
  split. { assert (H : Forall (fun e => match e with EForward _ x _ _ => exists rest, shape x = 4 * 1 :: rest | EBackward _ g => exists rest, shape g = 4 * 1 :: rest | EGroups _ => False | _ => True end) (dd_iter ga_grads)).
    { repeat (apply Forall_cons; [first [exact I|eexists; reflexivity]|]). apply Forall_nil. }
    induction H as [|e es H _ IH]; [constructor|]. constructor; [apply shard_split; [discriminate|discriminate|apply Qc_is_canon; vm_compute; reflexivity|exact H]|exact IH]. }
  split; [apply legalb_ok; vm_compute; reflexivity|].
  set (s := run _ _ _). set (w := world _).
  assert (L : match w with Some l => forallb (fun x => forallb is_ok (snd x) && differs (fst x) s 0) l | None => false end = true) by (vm_compute; reflexivity).
  destruct w as [l|]; [|discriminate]. exists l. split; [reflexivity|]. apply Forall_forall. intros x Hx. apply (proj1 (forallb_forall _ _) L) in Hx. apply andb_true_iff in Hx as [H1 H2].
  split; [|apply differs_ok; exact H2]. apply Forall_forall. intros o Ho. apply (proj1 (forallb_forall _ _) H1) in Ho. destruct o as [[]|]; [reflexivity|discriminate].
Qed.

Lemma C33_example_case :
  let c := gac LossBatch false in
  Forall (fun er => forall r, r < 4 -> aligned (er 0) (er r)) (dd_ranks true) /\ (forall r, r < 4 -> legal c (of_rank r (dd_ranks true)) (fun _ => None)).
Proof.
  cbv zeta. split.
  - unfold dd_ranks. apply Forall_forall. intros er H. apply in_map_iff in H as (e & <- & _). intros r _. destruct e as [| |p [g|]| | | |]; cbn; eauto.
  - intros [|[|[|[|r]]]] Hr; [| | | |lia]; apply legalb_ok; vm_compute; reflexivity.
Qed.

Lemma C33_overflow_refuted_lemma :
  exists (a : @args Q_scalar) par c st0 es,
    setting a par c st0 /\ (forall m, In m (c_mods c) -> bias_ok m) /\ (forall p, p_grad (par p) = None) /\
    Forall (fun er => forall r, r < 4 -> aligned (er 0) (er r) \/ exists i j, er 0 = @EScaler Q_scalar None i /\ er r = @EScaler Q_scalar None j) es /\
    (forall r, r < 4 -> legal c (of_rank r es) (fun _ => None)) /\
    world (map (fun r => d_run c (of_rank r es) st0) (seq 0 4)) = None.
Proof.
  set (es := map (shard_ev 4 1 true dd_delta) (@pass Q_scalar (map b_call ga_calls) ++ @writes Q_scalar ga_grads) ++ [(fun r => @EScaler Q_scalar None (Nat.eqb r 0)); fun _ => @EStep Q_scalar false]).
  exists (ga LossBatch false), ex_par, (gac LossBatch false), (ga0 LossBatch false), es.
  split; [apply built_setting; vm_compute; reflexivity|]. split; [apply dd_bias; vm_compute; reflexivity|]. split; [intros [|[|p]]; reflexivity|]. split; [|split].
  - unfold es. apply Forall_app. split.
    + apply Forall_forall. intros er H. apply in_map_iff in H as (e & <- & _). intros r _. left. destruct e as [| |p [g|]| | | |]; cbn; eauto.
    + apply Forall_cons; [intros r _; right; eexists; eexists; split; reflexivity|]. apply Forall_cons; [intros r _; left; reflexivity|apply Forall_nil].
  - intros [|[|[|[|r]]]] Hr; [| | | |lia]; apply legalb_ok; vm_compute; reflexivity.
  - set (w := world _). assert (L : match w with None => true | Some _ => false end = true) by (vm_compute; reflexivity). destruct w; [discriminate|reflexivity].
Qed.

Lemma C33_missing_gradient_refuted_lemma :
  exists (a : @args Q_scalar) par c st0 es,
    setting a par c st0 /\ (forall m, In m (c_mods c) -> bias_ok m) /\ (forall p, p_grad (par p) = None) /\
    Forall (fun er => forall r, r < 4 -> aligned (er 0) (er r) \/ exists g, er 0 = @EGrad Q_scalar 2 g /\ er r = @EGrad Q_scalar 2 None) es /\
    (forall r, r < 4 -> legal c (of_rank r es) (fun _ => None)) /\
    world (map (fun r => d_run c (of_rank r es) st0) (seq 0 4)) = None.
Proof.
  set (es := map (shard_ev 4 1 true dd_delta) (@pass Q_scalar (map b_call ga_calls) ++ @writes Q_scalar (firstn 2 ga_grads)) ++
    [(fun r => @EGrad Q_scalar 2 (if Nat.eqb r 3 then None else Some (qt [2; 1] [-2; -10]%Z))); fun _ => @EStep Q_scalar false]).
  exists (ga LossBatch false), ex_par, (gac LossBatch false), (ga0 LossBatch false), es.
  split; [apply built_setting; vm_compute; reflexivity|]. split; [apply dd_bias; vm_compute; reflexivity|]. split; [intros [|[|p]]; reflexivity|]. split; [|split].
  - unfold es. apply Forall_app. split.
    + apply Forall_forall. intros er H. apply in_map_iff in H as (e & <- & _). intros r _. left. destruct e as [| |p [g|]| | | |]; cbn; eauto.
    + apply Forall_cons; [intros [|[|[|[|r]]]] Hr; [left|left|left|right|lia]|]; [cbn; eauto..| |]; [eexists; split; reflexivity|]. apply Forall_cons; [intros r _; left; reflexivity|apply Forall_nil].
  - intros [|[|[|[|r]]]] Hr; [| | | |lia]; apply legalb_ok; vm_compute; reflexivity.
  - set (w := world _). assert (L : match w with None => true | Some _ => false end = true) by (vm_compute; reflexivity). destruct w; [discriminate|reflexivity].
Qed.
