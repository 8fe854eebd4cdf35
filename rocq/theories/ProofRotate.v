(** C54: training does not depend on the orthonormal bases in which the features of linear layers are written. *)

From Coq Require Import List Arith Lia Bool ZArith QArith Qcanon Reals.
From Verif Require Import Scalar Res Tensor TensorFacts Structures StructSpec OptimUtils ProofUtils Optimizer Construct OptSpec OptState OptRun OptTyped ProgressSpec ProgressEx Indep LoadFacts RotateSpec Rotate QEx OptEx OptEx2.
Import ListNotations.
Open Scope nat_scope.

Section PropRotate.
Context {SC : Scalar} {FL : FieldLaws SC}.

Lemma C54_equivariant_lemma a par par' c c' st0 st0' es es' fr fo fp :
  setting a par c st0 -> setting a par' c' st0' -> torch_shapes par c -> (forall p, par' p = turn_slot (fp p) (par p)) ->
  Forall (fun g => g_normalize g = false) (s_groups st0) ->
  (forall m cK cC dK dC, In m (c_mods c) -> has_ty c st0 m cK cC dK dC ->
     framed (m_layer m) (fr m) /\ stable cK dK (ext (fan (m_layer m)) (fst (fr m))) /\ stable cC dC (snd (fr m)) /\
     forall p, In p (mod_params m) -> fp p = fr m) ->
  Forall2 (turned_call false fr fo fp) es es' -> wf_run c es st0 -> Forall (grad_fits c) es ->
  let s := run c es st0 in let t := run c' es' st0' in
  (forall p, s_par t p = turn_slot (fp p) (s_par s p)) /\
  (forall m cK cC dK dC, In m (c_mods c) -> has_ty c st0 m cK cC dK dC ->
     turned_slots dK dC (ext (fan (m_layer m)) (fst (fr m))) (snd (fr m)) (s_slots s (m_key m)) (s_slots t (m_key m))) /\
  s_steps t = s_steps s /\ s_scales t = s_scales s /\ Forall2 same_but_structs (s_groups s) (s_groups t) /\ s_log t = s_log s /\
  outcomes c' es' st0' = outcomes c es st0.
Proof.
  intros S S' TS HP NN FR SH W GF. pose proof S as ((h1 & h2 & E1) & _). pose proof S' as ((h3 & h4 & E2) & _).
  destruct (ctor_same _ _ _ _ _ _ _ _ _ _ _ E1 E2) as (-> & _ & Y).
  destruct (setting_alike false a a par par' c c st0 st0' es es' fr fo fp S S' TS HP (same_parameters_refl a) eq_refl) as (_ & [E SL P _ GR _] & O); try assumption.
  - rewrite Y. apply structs_all.
  - intros _. exact NN.
  - intros m cK cC cK' cC' dK dC Hm HT HT'. assert (X : cK' = cK /\ cC' = cC).
    { destruct HT as (g & G1 & G2 & _). destruct HT' as (g' & G1' & G2' & _). rewrite Y in G1'. rewrite G1 in G1'. injection G1' as <-. rewrite G2 in G2'. injection G2' as <- <-. split; reflexivity. }
    destruct X as [-> ->]. destruct (FR m cK cC dK dC Hm HT) as (F1 & F2 & F3 & F4). split; [exact F1|]. split; [apply stable_alike; exact F2|]. split; [apply stable_alike; exact F3|].
    split; [intros X; discriminate X|exact F4].
  - cbv zeta. split; [exact P|]. split.
    + intros m cK cC dK dC Hm HT. specialize (SL m Hm). unfold mod_turned in SL. rewrite (has_ty_ctor _ _ _ _ _ _ _ HT) in SL. exact SL.
    + assert (F : s_steps (run c es' st0') = s_steps (run c es st0) /\ s_scales (run c es' st0') = s_scales (run c es st0) /\ s_log (run c es' st0') = s_log (run c es st0)) by (rewrite E; repeat split).
      destruct F as (F1 & F2 & F3). auto.
Qed.

Lemma C54_dense_lemma a par par' c c' st0 st0' es es' fr fo fp :
  setting a par c st0 -> setting a par' c' st0' -> torch_shapes par c -> (forall p, par' p = turn_slot (fp p) (par p)) ->
  Forall (fun g => g_normalize g = false /\ g_structs g = (Some CDense, Some CDense)) (s_groups st0) ->
  (forall m, In m (c_mods c) -> framed (m_layer m) (fr m) /\ forall p, In p (mod_params m) -> fp p = fr m) ->
  Forall2 (turned_call false fr fo fp) es es' -> wf_run c es st0 -> Forall (grad_fits c) es ->
  (forall p, s_par (run c' es' st0') p = turn_slot (fp p) (s_par (run c es st0) p)) /\ outcomes c' es' st0' = outcomes c es st0.
Proof.
  intros S S' TS HP NN FR SH W GF. destruct (C54_equivariant_lemma a par par' c c' st0 st0' es es' fr fo fp S S' TS HP) as (P & _ & _ & _ & _ & _ & O); try assumption; [| |split; assumption].
  - apply Forall_forall. intros g Hg. exact (proj1 (proj1 (Forall_forall _ _) NN g Hg)).
  - intros m cK cC dK dC Hm (g & E1 & E2 & E3). destruct (FR m Hm) as [F1 F2]. apply get_group_In in E1.
    destruct (proj1 (Forall_forall _ _) NN g E1) as [_ ES]. rewrite E2 in ES. injection ES as -> ->. split; [exact F1|]. split; [apply stable_dense|]. split; [apply stable_dense|exact F2].
Qed.

Lemma C54_diagonal_lemma a par par' c c' st0 st0' es es' fr fo fp :
  setting a par c st0 -> setting a par' c' st0' -> torch_shapes par c -> (forall p, par' p = turn_slot (fp p) (par p)) ->
  Forall (fun g => g_normalize g = false /\ g_structs g = (Some CDiag, Some CDiag)) (s_groups st0) ->
  (forall m, In m (c_mods c) -> framed (m_layer m) (fr m) /\
     match m_layer m with Linear d_in d_out _ => monomial d_in (fst (fr m)) /\ monomial d_out (snd (fr m)) | _ => True end /\
     forall p, In p (mod_params m) -> fp p = fr m) ->
  Forall2 (turned_call false fr fo fp) es es' -> wf_run c es st0 -> Forall (grad_fits c) es ->
  (forall p, s_par (run c' es' st0') p = turn_slot (fp p) (s_par (run c es st0) p)) /\ outcomes c' es' st0' = outcomes c es st0.
Proof.
  intros S S' TS HP NN FR SH W GF. destruct (C54_equivariant_lemma a par par' c c' st0 st0' es es' fr fo fp S S' TS HP) as (P & _ & _ & _ & _ & _ & O); try assumption; [| |split; assumption].
  - apply Forall_forall. intros g Hg. exact (proj1 (proj1 (Forall_forall _ _) NN g Hg)).
  - intros m cK cC dK dC Hm (g & E1 & E2 & E3). destruct (FR m Hm) as (F1 & F2 & F3). apply get_group_In in E1.
    destruct (proj1 (Forall_forall _ _) NN g E1) as [_ ES]. rewrite E2 in ES. injection ES as -> ->. split; [exact F1|].
    destruct (m_layer m) as [d_in d_out b|cv|]; [| |discriminate].
    + injection E3 as <- <-. destruct F2 as [M1 M2]. split; [|split; [|exact F3]]; apply stable_diag; [exact (monomial_ext d_in _ b M1)|exact M2].
    + cbn in F1. rewrite F1. cbn [fst snd]. split; [|split; [apply stable_ident|rewrite <- F1; exact F3]].
      apply stable_diag. intros i x y _ _ _ N. rewrite !ext_ident. apply monomial_ident. exact N.
Qed.

Lemma C54_same_function_lemma n r QP W b x i :
  shape W = [r; n] -> (match b with Some b => shape b = [r] | None => True end) -> orth n (fst QP) -> i < r ->
  lin n (turnp QP W) (option_map (turnp QP) b) (fun k => sum n (fun q => (x q * fst QP q k)%F)) i = sum r (fun a => (snd QP a i * lin n W b x a)%F).
Proof. exact (lin_turned n r QP W b x i). Qed.

End PropRotate.

(** ** Cases *)

(** A rotation by rational cosine and sine, and the change of sign. *)
Definition turn2d (i j : nat) : Qc := match i, j with 0, 0 => qr 3 5 | 0, 1 => qr 4 5 | 1, 0 => qr (-4) 5 | 1, 1 => qr 3 5 | _, _ => q 0 end.
Definition flip (i j : nat) : Qc := if Nat.eqb i j then q (-1) else q 0.
(** First and second feature exchanged, the latter with its sign changed. *)
Definition swap2 (i j : nat) : Qc := match i, j with 0, 1 => q 1 | 1, 0 => q (-1) | _, _ => q 0 end.

Definition eqmb (n : nat) (A B : nat -> nat -> @F Q_scalar) : bool := forallb (fun i => forallb (fun j => @feqb Q_scalar (A i j) (B i j)) (seq 0 n)) (seq 0 n).
Lemma eqmb_ok n A B : eqmb n A B = true -> @eqm Q_scalar n A B.
Proof.
  unfold eqmb. rewrite forallb_forall. intros H i j Hi Hj. assert (X : In i (seq 0 n)) by (apply in_seq; lia). specialize (H i X). rewrite forallb_forall in H.
  assert (Y : In j (seq 0 n)) by (apply in_seq; lia). apply (@feqb_iff Q_scalar _). exact (H j Y).
Qed.
Lemma orth_turn2d : @orth Q_scalar 2 turn2d. Proof. split; apply eqmb_ok; vm_compute; reflexivity. Qed.
Lemma orth_flip : @orth Q_scalar 1 flip. Proof. split; apply eqmb_ok; vm_compute; reflexivity. Qed.
Lemma orth_swap2 : @orth Q_scalar 2 swap2. Proof. split; apply eqmb_ok; vm_compute; reflexivity. Qed.

Section Case.
(** The basis of the two-dimensional features. *)
Variable Q2 : nat -> nat -> Qc.
Definition rfr (m : modul) : (nat -> nat -> @F Q_scalar) * (nat -> nat -> @F Q_scalar) := if Nat.eqb (m_key m) 0 then (Q2, flip) else (flip, Q2).
Definition rfp (p : nat) : (nat -> nat -> @F Q_scalar) * (nat -> nat -> @F Q_scalar) := if Nat.ltb p 2 then (Q2, flip) else (flip, Q2).
Definition rfo (out : nat) : nat -> nat -> @F Q_scalar := if Nat.eqb out 10 then flip else Q2.
Definition rpar (p : nat) : @pslot Q_scalar := turn_slot (rfp p) (ex_par p).
Definition rcall (e : @event Q_scalar) : @event Q_scalar :=
  match e with
  | EForward m x b out => @EForward Q_scalar m (rotl (fst (rfr m)) x) b out
  | EBackward out g => @EBackward Q_scalar out (rotl (rfo out) g)
  | EGrad p g => @EGrad Q_scalar p (option_map (turnp (rfp p)) g)
  | _ => e
  end.
Variable a : @args Q_scalar.
Definition rst : @state Q_scalar := match snd (ctor a rpar []) with Ok (_, st) => st | Err _ => snd (built a) end.

Lemma rst_setting : settingb a = true -> is_ok (snd (ctor a rpar [])) = true -> setting a rpar (fst (built a)) rst.
Proof.
  intros SB O2. destruct (built_setting a SB) as ((h1 & h2 & E1) & S2 & S3 & S4 & S5). unfold rst. destruct (ctor a rpar []) as [h3 r2] eqn:E2. cbn [snd] in *.
  destruct r2 as [[c2 s2]|]; [|discriminate]. destruct (ctor_same _ _ _ _ _ _ _ _ _ _ _ E1 E2) as (-> & _ & EG).
  split; [exists [], h3; exact E2|]. split; [exact S2|]. split; [exact S3|]. split; [exact S4|]. rewrite EG. exact S5.
Qed.

(** Forward passes of the two layers of the examples, as in [ex_iter]. *)
Definition plain (e : @event Q_scalar) : bool :=
  match e with EForward m _ _ out => (Nat.eqb (m_key m) 0 && Nat.eqb out 10) || (Nat.eqb (m_key m) 1 && Nat.eqb out 11) | EGroups _ => false | _ => true end.
Lemma rcall_ok NS es : forallb plain es = true -> Forall2 (turned_call NS rfr rfo rfp) es (map rcall es).
Proof.
  induction es as [|e es IH]; intros H; [constructor|]. cbn [forallb map] in *. apply andb_true_iff in H as [H1 H2]. constructor; [|exact (IH H2)].
  destruct e as [m x b out| | | | | |]; cbn [rcall turned_call]; try reflexivity; try (repeat split; reflexivity); [|discriminate].
  repeat (split; [reflexivity|]). cbn [plain] in H1. unfold rfo, rfr.
  apply orb_true_iff in H1 as [H1|H1]; apply andb_true_iff in H1 as [K1 K2]; apply Nat.eqb_eq in K1; apply Nat.eqb_eq in K2; rewrite K1, K2; reflexivity.
Qed.
End Case.

Definition rot_hist : list (@event Q_scalar) := ex_iter (q 1) ++ ex_step ++ ex_iter (q 1) ++ [@EGrad Q_scalar 1 None] ++ ex_step ++ ex_iter (q 1) ++ ex_step ++ ex_iter (q 1) ++ ex_iter (q 1) ++ ex_step.
Definition rot_a (st : option cls * option cls) (normalize : bool) : @args Q_scalar := ex_args PNone (qr 1 2) (qr 1 2) (qr 1 8) 2 st false normalize (q 1).

Lemma C54_example_case :
  let a := rot_a dense2 false in let c := fst (built a) in let st0 := snd (built a) in let st0' := rst turn2d a in
  let es := rot_hist in let es' := map (rcall turn2d) es in
  setting a ex_par c st0 /\ setting a (rpar turn2d) c st0' /\ torch_shapes ex_par c /\
  Forall (fun g => g_normalize g = false /\ g_structs g = (Some CDense, Some CDense)) (s_groups st0) /\
  (forall m, In m (c_mods c) -> framed (m_layer m) (rfr turn2d m) /\ forall p, In p (mod_params m) -> rfp turn2d p = rfr turn2d m) /\
  Forall2 (turned_call false (rfr turn2d) (rfo turn2d) (rfp turn2d)) es es' /\ wf_run c es st0 /\ Forall (grad_fits c) es /\
  map is_ok (outcomes c es st0) <> map (fun _ => true) es /\
  val_of (run c es' st0') 0 = show (turnp (rfp turn2d 0) (p_val (s_par (run c es st0) 0))) /\
  val_of (run c es' st0') 0 <> val_of (run c es st0) 0 /\ val_of (run c es st0) 0 <> val_of st0 0 /\ s_steps (run c es st0) = 3.
Proof.
  cbv zeta. split; [apply built_setting; vm_compute; reflexivity|]. split; [apply rst_setting; vm_compute; reflexivity|].
  split; [apply torch_shapesb_ok; vm_compute; reflexivity|].
  split; [repeat constructor|].
  split. { intros m Hm. change (c_mods (fst (built (rot_a dense2 false)))) with [ex_m1; ex_m2] in Hm. destruct Hm as [<-|[<-|[]]]; (split; [split|]).
    - exact orth_turn2d. - exact orth_flip. - intros p [<-|[<-|[]]]; reflexivity. - exact orth_flip. - exact orth_turn2d. - intros p [<-|[]]; reflexivity. }
  split; [apply rcall_ok; vm_compute; reflexivity|]. split; [apply wf_runb_ok; vm_compute; reflexivity|]. split; [apply grads_fitb_ok; vm_compute; reflexivity|].
  split; [vm_compute; discriminate|]. split; [vm_compute; reflexivity|]. split; [vm_compute; discriminate|]. split; [vm_compute; discriminate|vm_compute; reflexivity].
Qed.

Lemma C54_example_diagonal_case :
  let a := rot_a (Some CDiag, Some CDiag) false in let c := fst (built a) in let st0 := snd (built a) in let st0' := rst swap2 a in
  let es := rot_hist in let es' := map (rcall swap2) es in
  (forall m, In m (c_mods c) -> framed (m_layer m) (rfr swap2 m) /\
     match m_layer m with Linear d_in d_out _ => monomial d_in (fst (rfr swap2 m)) /\ monomial d_out (snd (rfr swap2 m)) | _ => True end /\
     forall p, In p (mod_params m) -> rfp swap2 p = rfr swap2 m) /\
  Forall (fun g => g_normalize g = false /\ g_structs g = (Some CDiag, Some CDiag)) (s_groups st0) /\
  setting a ex_par c st0 /\ setting a (rpar swap2) c st0' /\
  val_of (run c es' st0') 0 = show (turnp (rfp swap2 0) (p_val (s_par (run c es st0) 0))) /\
  val_of (run c es' st0') 0 <> val_of (run c es st0) 0 /\ val_of (run c es st0) 0 <> val_of st0 0.
Proof.
  cbv zeta. split.
  { assert (M2 : @monomial Q_scalar 2 swap2) by (intros [|[|i]] [|[|x]] [|[|y]] Hi Hx Hy N; try lia; split; apply (@feqb_iff Q_scalar _); vm_compute; reflexivity).
    assert (M1 : @monomial Q_scalar 1 flip) by (intros [|i] [|x] [|y] Hi Hx Hy N; lia).
    intros m Hm. change (c_mods (fst (built (rot_a (Some CDiag, Some CDiag) false)))) with [ex_m1; ex_m2] in Hm. destruct Hm as [<-|[<-|[]]]; (split; [split|split; [split|]]).
    - exact orth_swap2. - exact orth_flip. - exact M2. - exact M1. - intros p [<-|[<-|[]]]; reflexivity.
    - exact orth_flip. - exact orth_swap2. - exact M1. - exact M2. - intros p [<-|[]]; reflexivity. }
  split; [repeat constructor|]. split; [apply built_setting; vm_compute; reflexivity|]. split; [apply rst_setting; vm_compute; reflexivity|].
  split; [vm_compute; reflexivity|]. split; vm_compute; discriminate.
Qed.

Lemma C54_normalized_refuted_lemma :
  let a := rot_a dense2 true in let c := fst (built a) in let st0 := snd (built a) in let st0' := rst turn2d a in
  let es := ex_iter (q 1) ++ ex_step in let es' := map (rcall turn2d) es in
  setting a ex_par c st0 /\ setting a (rpar turn2d) c st0' /\ Forall2 (turned_call false (rfr turn2d) (rfo turn2d) (rfp turn2d)) es es' /\ wf_run c es st0 /\
  forallb is_ok (outcomes c es st0) = true /\ forallb is_ok (outcomes c es' st0') = true /\
  val_of (run c es' st0') 0 <> show (turnp (rfp turn2d 0) (p_val (s_par (run c es st0) 0))).
Proof.
  cbv zeta. split; [apply built_setting; vm_compute; reflexivity|]. split; [apply rst_setting; vm_compute; reflexivity|].
  split; [apply rcall_ok; vm_compute; reflexivity|]. split; [apply wf_runb_ok; vm_compute; reflexivity|].
  split; [vm_compute; reflexivity|]. split; [vm_compute; reflexivity|]. vm_compute. discriminate.
Qed.

Lemma C54_diagonal_rotation_refuted_lemma :
  let a := rot_a (Some CDiag, Some CDiag) false in let c := fst (built a) in let st0 := snd (built a) in let st0' := rst turn2d a in
  let es := ex_iter (q 1) ++ ex_step in let es' := map (rcall turn2d) es in
  setting a ex_par c st0 /\ setting a (rpar turn2d) c st0' /\ Forall2 (turned_call false (rfr turn2d) (rfo turn2d) (rfp turn2d)) es es' /\ wf_run c es st0 /\
  forallb is_ok (outcomes c es st0) = true /\ forallb is_ok (outcomes c es' st0') = true /\
  val_of (run c es' st0') 0 <> show (turnp (rfp turn2d 0) (p_val (s_par (run c es st0) 0))).
Proof.
  cbv zeta. split; [apply built_setting; vm_compute; reflexivity|]. split; [apply rst_setting; vm_compute; reflexivity|].
  split; [apply rcall_ok; vm_compute; reflexivity|]. split; [apply wf_runb_ok; vm_compute; reflexivity|].
  split; [vm_compute; reflexivity|]. split; [vm_compute; reflexivity|]. vm_compute. discriminate.
Qed.
