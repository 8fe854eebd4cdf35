(** C31: gradient accumulation over micro-batches. *)

From Coq Require Import List Arith Lia Bool ZArith QArith Qcanon Reals.
From Verif Require Import Scalar Res Tensor Structures OptimUtils Optimizer Construct OptState OptRun OptTyped CtorSpec ProgressSpec ProgressEx ProofProgress Batch Accum AccumRun QEx OptEx OptEx2.
Import ListNotations.
Open Scope nat_scope.

Section PropAccum.
Context {SC : Scalar} {FL : FieldLaws SC} {SQ : SqrtLaws SC}.

Lemma C31_accumulation_partial_lemma a par c st0 its :
  setting a par c st0 ->
  Forall (fun g => g_kfac_like g = false /\ (g_loss g = LossBatch \/ g_loss g = LossBatchSeq)) (s_groups st0) ->
  Forall (iter_ok c) its -> quiet c (flat_map whole_iter its) st0 ->
  quiet c (flat_map micro_iter its) st0 /\
  let s := run c (flat_map whole_iter its) st0 in let t := run c (flat_map micro_iter its) st0 in
  s_steps t = s_steps s /\ s_scales t = s_scales s /\ s_groups t = s_groups s /\ s_log t = s_log s /\
  (forall p, s_par t p = s_par s p) /\ forall m, In m (c_mods c) -> s_slots t (m_key m) = s_slots s (m_key m).
Proof.
  intros SE PL IO Q. destruct (accumulation_setting a par c st0 its SE PL IO Q) as [((E1 & E2 & E3 & E4 & E5 & E6) & E7 & E8) Q'].
  split; [exact Q'|]. cbv zeta. auto 10.
Qed.

Lemma C31_accumulation_regular_partial_lemma a par c st0 its :
  setting a par c st0 -> torch_shapes par c -> sound_call a c (s_groups st0) ->
  Forall (fun g => g_kfac_like g = false /\ (g_loss g = LossBatch \/ g_loss g = LossBatchSeq)) (s_groups st0) ->
  Forall (iter_ok c) its -> regular c (s_groups st0) [] [] [] (flat_map whole_iter its) ->
  quiet c (flat_map whole_iter its) st0 /\ quiet c (flat_map micro_iter its) st0 /\
  let s := run c (flat_map whole_iter its) st0 in let t := run c (flat_map micro_iter its) st0 in
  s_steps t = s_steps s /\ s_scales t = s_scales s /\ s_groups t = s_groups s /\ s_log t = s_log s /\
  (forall p, s_par t p = s_par s p) /\ forall m, In m (c_mods c) -> s_slots t (m_key m) = s_slots s (m_key m).
Proof.
  intros SE TS SC0 PL IO RG. assert (Q : quiet c (flat_map whole_iter its) st0) by (apply quiet_outcomes; exact (C51_regular_lemma a par c st0 _ SE TS SC0 RG)).
  split; [exact Q|]. exact (C31_accumulation_partial_lemma a par c st0 its SE PL IO Q).
Qed.
End PropAccum.

Lemma C31_accumulation_real_partial_lemma (a : @args R_scalar) par c st0 its :
  setting a par c st0 ->
  Forall (fun g => g_kfac_like g = false /\ (g_loss g = LossBatch \/ g_loss g = LossBatchSeq)) (s_groups st0) ->
  Forall (iter_ok c) its -> quiet c (flat_map whole_iter its) st0 ->
  quiet c (flat_map micro_iter its) st0 /\
  let s := run c (flat_map whole_iter its) st0 in let t := run c (flat_map micro_iter its) st0 in
  s_steps t = s_steps s /\ s_scales t = s_scales s /\ s_groups t = s_groups s /\ s_log t = s_log s /\
  (forall p, s_par t p = s_par s p) /\ forall m, In m (c_mods c) -> s_slots t (m_key m) = s_slots s (m_key m).
Proof. exact (C31_accumulation_partial_lemma a par c st0 its). Qed.

(** ** Cases *)

Definition ga (la : lossavg) (kfac_like : bool) : @args Q_scalar :=
  @mkArgs Q_scalar false ex_model (fun _ => true) PNone
    (PyFloat (qr 1 10 : @F Q_scalar)) (PyFloat (qr 1 2 : @F Q_scalar)) (PyFloat (qr 1 4 : @F Q_scalar))
    (PyFloat (qr 1 2 : @F Q_scalar)) (PyFloat (qr 1 8 : @F Q_scalar)) 2 la
    (PyFloat (qr 1 2 : @F Q_scalar)) dense2 Expand true kfac_like (q 1) false.
Definition gac (la : lossavg) (kf : bool) : cfg := fst (built (ga la kf)).
Definition ga0 (la : lossavg) (kf : bool) : @state Q_scalar := snd (built (ga la kf)).

(** Four micro-batches of one sample; the first layer is called with a batch of four, the second one too. *)
Definition ga_calls : list (@bcall Q_scalar) :=
  [ @mkBcall Q_scalar 1 (ex_m1, qt [4; 2] [3; -1; 1; 1; 0; 2; 1; -3]%Z, qt [4; 1] [2; 1; -1; 3]%Z);
    @mkBcall Q_scalar 1 (ex_m2, qt [4; 1] [5; 1; -2; 1]%Z, qt [4; 2] [1; -2; 0; 1; 3; 1; -1; 1]%Z) ].
Definition ga_grads : list (nat * option (@tensor Q_scalar)) :=
  [(0, Some (qt [1; 2] [10; -12]%Z)); (1, Some (qt [1] [5]%Z)); (2, Some (qt [2; 1] [-2; -10]%Z))].
Definition ga_mid (j : nat) : list (nat * option (@tensor Q_scalar)) :=
  [(0, Some (qt [1; 2] [Z.of_nat j; 1]%Z)); (1, None); (2, Some (qt [2; 1] [1; 7]%Z))].
Definition ga_it (pre post : list (@event Q_scalar)) : @iter Q_scalar := @mkIter Q_scalar pre ga_calls 4 ga_mid ga_grads post.
Definition ga_its : list (@iter Q_scalar) :=
  [ga_it [] []; ga_it [] [@EScaler Q_scalar None true]; ga_it [@EScaler Q_scalar None false] [@ESetScale Q_scalar (q 4)]].

Fixpoint quietb (c : cfg) (es : list (@event Q_scalar)) (st : @state Q_scalar) : bool :=
  match es with [] => true | e :: es' => is_ok (snd (event_op c e st)) && quietb c es' (fst (event_op c e st)) end.
Lemma quietb_ok c es : forall st, quietb c es st = true -> quiet c es st.
Proof.
  induction es as [|e es IH]; intros st H; [exact I|]. cbn [quietb quiet] in *. apply andb_true_iff in H as [H1 H2]. split; [|exact (IH _ H2)].
  destruct (snd (event_op c e st)) as [[]|]; [reflexivity|discriminate].
Qed.
Lemma ga_iter_ok la kf pre post : Forall is_setting pre -> Forall is_scaling post ->
  c_mods (gac la kf) = [ex_m1; ex_m2] -> iter_ok (gac la kf) (ga_it pre post).
Proof.
  intros H1 H2 M. split; [exact H1|]. split; [exact H2|]. split; [discriminate|]. split.
  - cbn [i_calls i_k ga_it]. unfold ga_calls. repeat (apply Forall_cons; [|]); [| |apply Forall_nil]; unfold bcall_ok; cbn [b_call b_size]; rewrite M.
    + split; [left; reflexivity|]. split; [exists 4, []; repeat split; discriminate|]. split; [discriminate|]. eexists. reflexivity.
    + split; [right; left; reflexivity|]. split; [exists 4, []; repeat split; discriminate|]. split; [discriminate|]. eexists. reflexivity.
  - intros j p Hp. exact Hp.
Qed.

Lemma C31_example_case :
  let a := ga LossBatch false in let c := gac LossBatch false in let st0 := ga0 LossBatch false in
  let s := run c (flat_map whole_iter ga_its) st0 in let t := run c (flat_map micro_iter ga_its) st0 in
  setting a ex_par c st0 /\
  Forall (fun g => g_kfac_like g = false /\ (g_loss g = LossBatch \/ g_loss g = LossBatchSeq)) (s_groups st0) /\
  Forall (iter_ok c) ga_its /\ quiet c (flat_map whole_iter ga_its) st0 /\
  s_steps s = 3 /\ val_of s 0 <> val_of st0 0 /\ pre_of s 0 <> pre_of st0 0 /\ val_of t 0 = val_of s 0 /\ pre_of t 0 = pre_of s 0.
Proof.
  cbv zeta. split; [apply built_setting; vm_compute; reflexivity|].
  split. { assert (E : map (fun g => (g_kfac_like g, g_loss g)) (s_groups (ga0 LossBatch false)) = [(false, LossBatch)]) by (vm_compute; reflexivity).
    destruct (s_groups (ga0 LossBatch false)) as [|g [|? ?]]; try discriminate. injection E as E1 E2. apply Forall_cons; [split; [exact E1|left; exact E2]|apply Forall_nil]. }
  split. { unfold ga_its. repeat (apply Forall_cons; [apply ga_iter_ok; [repeat constructor..|vm_compute; reflexivity]|]). apply Forall_nil. }
  split; [apply quietb_ok; vm_compute; reflexivity|]. split; [vm_compute; reflexivity|]. split; [vm_compute; discriminate|]. split; [vm_compute; discriminate|].
  split; vm_compute; reflexivity.
Qed.

Lemma C31_regular_example_case :
  let a := ga LossBatch false in let c := gac LossBatch false in let st0 := ga0 LossBatch false in
  torch_shapes ex_par c /\ sound_call a c (s_groups st0) /\ regular c (s_groups st0) [] [] [] (flat_map whole_iter ga_its).
Proof.
  cbv zeta. split; [apply torch_shapesb_ok; vm_compute; reflexivity|]. split; [apply sound_callb_ok; vm_compute; reflexivity|].
  apply regularb_ok. vm_compute. reflexivity.
Qed.

Lemma C31_kfac_like_refuted_lemma :
  exists (a : @args Q_scalar) par c st0 its,
    setting a par c st0 /\ a_kfac_like a = true /\ a_loss a = LossBatch /\ Forall (iter_ok c) its /\
    quiet c (flat_map whole_iter its) st0 /\ quiet c (flat_map micro_iter its) st0 /\
    val_of (run c (flat_map micro_iter its) st0) 0 <> val_of (run c (flat_map whole_iter its) st0) 0.
Proof.
  exists (ga LossBatch true), ex_par, (gac LossBatch true), (ga0 LossBatch true), [ga_it [] []].
  split; [apply built_setting; vm_compute; reflexivity|]. split; [reflexivity|]. split; [reflexivity|].
  split; [repeat (apply Forall_cons; [apply ga_iter_ok; [repeat constructor..|vm_compute; reflexivity]|]); apply Forall_nil|].
  split; [apply quietb_ok; vm_compute; reflexivity|]. split; [apply quietb_ok; vm_compute; reflexivity|]. vm_compute. discriminate.
Qed.

Lemma C31_sum_refuted_lemma :
  exists (a : @args Q_scalar) par c st0 its,
    setting a par c st0 /\ a_kfac_like a = false /\ a_loss a = LossSum /\ Forall (iter_ok c) its /\
    quiet c (flat_map whole_iter its) st0 /\ quiet c (flat_map micro_iter its) st0 /\
    val_of (run c (flat_map micro_iter its) st0) 0 <> val_of (run c (flat_map whole_iter its) st0) 0.
Proof.
  exists (ga LossSum false), ex_par, (gac LossSum false), (ga0 LossSum false), [ga_it [] []].
  split; [apply built_setting; vm_compute; reflexivity|]. split; [reflexivity|]. split; [reflexivity|].
  split; [repeat (apply Forall_cons; [apply ga_iter_ok; [repeat constructor..|vm_compute; reflexivity]|]); apply Forall_nil|].
  split; [apply quietb_ok; vm_compute; reflexivity|]. split; [apply quietb_ok; vm_compute; reflexivity|]. vm_compute. discriminate.
Qed.

(** Micro-batches of different sizes (a last, smaller one): rows 0 to 3, 4 to 7 and 8 of a batch of nine. *)
Definition gu_x : @tensor Q_scalar := qt [9; 2] [3; -1; 1; 1; 0; 2; 1; -3; 2; 2; 1; 0; 0; 1; 4; 1; 1; 5]%Z.
Definition gu_g : @tensor Q_scalar := qt [9; 1] [2; 1; -1; 3; 1; 1; -2; 4; 1]%Z.
Definition gu_x2 : @tensor Q_scalar := qt [9; 1] [5; 1; -2; 1; 3; 2; 1; 1; -1]%Z.
Definition gu_g2 : @tensor Q_scalar := qt [9; 2] [1; -2; 0; 1; 3; 1; -1; 1; 2; 0; 0; 1; 1; 1; 1; -1; 2; 1]%Z.
Definition gu_split (sizes : list (nat * nat)) : list (@event Q_scalar) :=
  flat_map (fun '(s, n) => @pass Q_scalar [(ex_m1, part gu_x s n, part gu_g s n); (ex_m2, part gu_x2 s n, part gu_g2 s n)]) sizes ++
  @writes Q_scalar ga_grads ++ [@EStep Q_scalar false].

Lemma C31_unequal_refuted_lemma :
  exists (a : @args Q_scalar) par c st0,
    setting a par c st0 /\ a_kfac_like a = false /\ a_loss a = LossBatch /\
    quiet c (gu_split [(0, 9)]) st0 /\ quiet c (gu_split [(0, 4); (4, 4); (8, 1)]) st0 /\
    val_of (run c (gu_split [(0, 4); (4, 4); (8, 1)]) st0) 0 <> val_of (run c (gu_split [(0, 9)]) st0) 0.
Proof.
  exists (ga LossBatch false), ex_par, (gac LossBatch false), (ga0 LossBatch false).
  split; [apply built_setting; vm_compute; reflexivity|]. split; [reflexivity|]. split; [reflexivity|].
  split; [apply quietb_ok; vm_compute; reflexivity|]. split; [apply quietb_ok; vm_compute; reflexivity|]. vm_compute. discriminate.
Qed.
