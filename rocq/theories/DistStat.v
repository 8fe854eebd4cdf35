(** Lemmas: one module's statistics and natural gradient on several processes. *)

From Coq Require Import List Arith Lia Bool ZArith Field.
From Verif Require Import Scalar Res Tensor TensorFacts Structures StructSpec StructDense StructPattern StructOps StructMul StructAct OptimUtils UtilsFacts ProofUtils Optimizer OptState OptSpec OptFacts OptDir OptTyped OptPre ScaleInv Batch Accum Dist DistFacts.
Import ListNotations.

Section Stat.
Context {SC : Scalar} {FL : FieldLaws SC} {SQ : SqrtLaws SC}.
Add Field FFds : F_ft.
Open Scope F_scope.

(** ** Whether a call raises does not depend on its data *)

Lemma input_uniform l ka :
  (exists e, forall x g, fits l x g -> process_input x l ka = Err e) \/ (forall x g, fits l x g -> exists A, process_input x l ka = Ok A).
Proof.
  destruct l as [d_in d_out bias|cv|]; [| |left; exists NotImplementedError; intros x g []].
  - destruct ka.
    + right. intros x g (b & mid & _ & S1 & S2). destruct (C39_linear_dims_lemma x g d_in d_out bias b mid LossSum Expand _ _ S1 S2 (or_introl eq_refl) ltac:(discriminate) eq_refl) as (A & _ & _ & E & _). eauto.
    + right. intros x g (b & mid & _ & S1 & S2). destruct (C39_linear_dims_lemma x g d_in d_out bias b mid LossSum Reduce _ _ S1 S2 (or_intror eq_refl) ltac:(discriminate) eq_refl) as (A & _ & _ & E & _). eauto.
    + left. eexists. intros x g _. reflexivity.
  - assert (ED : exists dK dC, preconditioner_dims (Conv2d cv) = Ok (dK, dC)) by (do 2 eexists; reflexivity). destruct ED as (dK & dC & ED).
    destruct ka; [| |left; eexists; intros x g _; reflexivity].
    + destruct (Nat.eq_dec (pad_front (cv_pad cv) (pint1 (cv_pad cv)) (cv_k1 cv) (cv_d1 cv)) (pad_back (cv_pad cv) (pint1 (cv_pad cv)) (cv_k1 cv) (cv_d1 cv))) as [E1|N1];
      [destruct (Nat.eq_dec (pad_front (cv_pad cv) (pint2 (cv_pad cv)) (cv_k2 cv) (cv_d2 cv)) (pad_back (cv_pad cv) (pint2 (cv_pad cv)) (cv_k2 cv) (cv_d2 cv))) as [E2|N2]|].
      * right. intros x g (OK & b & i1 & i2 & o1 & o2 & _ & HO & S1 & S2).
        destruct (C39_conv_dims_lemma x g cv b i1 i2 o1 o2 LossSum Expand dK dC OK S1 HO S2 (or_introl (conj eq_refl (conj E1 E2))) ltac:(discriminate) ED) as (A & _ & _ & E & _). eauto.
      * left. exists NotImplementedError. intros x g (OK & _). destruct OK as (_ & _ & _ & _ & _ & _ & _ & _ & _ & _ & _ & HP).
        unfold process_input, conv2d_process_input, extract_patches. unfold pad_front, pad_back in *. destruct (cv_pad cv); try contradiction; try congruence.
        destruct HP as [-> ->]. cbn [get_conv_paddings Nat.eqb negb bind]. rewrite (proj2 (Nat.eqb_eq _ _) E1). cbn [check bind].
        rewrite (proj2 (Nat.eqb_neq _ _) N2). reflexivity.
      * left. exists NotImplementedError. intros x g (OK & _). destruct OK as (_ & _ & _ & _ & _ & _ & _ & _ & _ & _ & _ & HP).
        unfold process_input, conv2d_process_input, extract_patches. unfold pad_front, pad_back in *. destruct (cv_pad cv); try contradiction; try congruence.
        destruct HP as [-> ->]. cbn [get_conv_paddings Nat.eqb negb bind]. rewrite (proj2 (Nat.eqb_neq _ _) N1). reflexivity.
    + right. intros x g (OK & b & i1 & i2 & o1 & o2 & _ & HO & S1 & S2).
      destruct (C39_conv_dims_lemma x g cv b i1 i2 o1 o2 LossSum Reduce dK dC OK S1 HO S2 (or_intror eq_refl) ltac:(discriminate) ED) as (A & _ & _ & E & _). eauto.
Qed.

Lemma grad_uniform l la ka :
  (exists e, forall x g, fits l x g -> process_grad_output g l la ka = Err e) \/ (forall x g, fits l x g -> exists B, process_grad_output g l la ka = Ok B).
Proof.
  destruct l as [d_in d_out bias|cv|]; [| |left; exists NotImplementedError; intros x g []].
  - destruct ka; [| |left; exists AssertionError; intros; destruct la; reflexivity].
    + destruct la; [| | |left; eexists; intros x g _; reflexivity]; right; intros x g (b & mid & _ & S1 & S2).
      all: match goal with |- context [process_grad_output _ _ ?la ?ka] => destruct (C39_linear_dims_lemma x g d_in d_out bias b mid la ka _ _ S1 S2 (or_introl eq_refl) ltac:(discriminate) eq_refl) as (_ & B & _ & _ & _ & E & _) end; eauto.
    + destruct la; [| | |left; eexists; intros x g _; reflexivity]; right; intros x g (b & mid & _ & S1 & S2).
      all: match goal with |- context [process_grad_output _ _ ?la ?ka] => destruct (C39_linear_dims_lemma x g d_in d_out bias b mid la ka _ _ S1 S2 (or_intror eq_refl) ltac:(discriminate) eq_refl) as (_ & B & _ & _ & _ & E & _) end; eauto.
  - destruct ka; [| |left; exists AssertionError; intros; destruct la; reflexivity];
    (destruct la; [| | |left; eexists; intros x g _; reflexivity]); right; intros x g (OK & b & i1 & i2 & o1 & o2 & _ & HO & S1 & S2);
    cbn [process_grad_output]; unfold conv2d_process_grad_output; rewrite S2; eauto.
Qed.

Lemma local_H_uniform g l prev s cK cC dK dC :
  usable cK dK -> usable cC dC -> preconditioner_dims l = Ok (dK, dC) -> typed cK cC dK dC s ->
  (exists e, forall x gout, fits l x gout -> local_H g l prev x gout s = Err e) \/
  (forall x gout, fits l x gout -> exists HK HC, local_H g l prev x gout s = Ok (HK, HC) /\ valid cK dK HK /\ valid cC dC HC).
Proof.
  intros UK UC Ed T. pose proof UK as (OK & DK & HhK & NK). pose proof UC as (OC & DC & HhC & NC).
  pose proof T as [(K & EK & VK) (C & EC & VC) _ _ _ _].
  destruct (input_uniform l (g_approx g)) as [(e & He)|HA].
  { left. exists e. intros x gout F. unfold local_H. rewrite (He x gout F). reflexivity. }
  destruct (grad_uniform l (g_loss g) (g_approx g)) as [(e & He)|HB].
  { left. exists e. intros x gout F. unfold local_H. destruct (HA x gout F) as (A & ->). cbn [bind]. rewrite (He x gout F). reflexivity. }
  assert (Q : forall x gout, fits l x gout -> exists A B N HK, process_input x l (g_approx g) = Ok A /\ process_grad_output gout l (g_loss g) (g_approx g) = Ok B /\
    N <> O /\ shape B = [N; dC] /\ from_inner K (Some (tr A)) = Ok HK).
  { intros x gout F. destruct (HA x gout F) as (A & EA), (HB x gout F) as (B & EB).
    destruct (process_shapes l x gout _ _ A B dK dC F Ed EA EB) as (N & NN & SA & SB).
    assert (STA : shape (tr A) = [dK; N]) by (rewrite shape_tr, (rows_of _ _ _ SA), (cols_of _ _ _ _ SA); reflexivity).
    destruct (from_inner_some_act cK dK K (tr A) N OK DK VK STA) as (r & Er & Vr & _); [destruct cK; cbn; auto|].
    exists A, B, N, r. auto. }
  assert (L : forall x gout, fits l x gout -> exists B N HK, process_grad_output gout l (g_loss g) (g_approx g) = Ok B /\ N <> O /\ shape B = [N; dC] /\
    local_H g l prev x gout s = (let* prev := prev in
      let* go := if feqb prev 1 then Ok B else if fltb prev 0 then Err ValueError else Ok (t_divs B (fsqrt prev)) in
      let* H_C := from_inner C (Some (tr go)) in Ok (HK, H_C))).
  { intros x gout F. destruct (Q x gout F) as (A & B & N & HK & EA & EB & NN & SB & EH). exists B, N, HK. split; [exact EB|]. split; [exact NN|]. split; [exact SB|].
    unfold local_H. rewrite EA, EB, EK, EC. cbn [bind lookup]. rewrite EH. reflexivity. }
  destruct prev as [p|e].
  2:{ left. exists e. intros x gout F. destruct (L x gout F) as (B & N & HK & _ & _ & _ & ->). reflexivity. }
  assert (FC : forall B N, N <> O -> shape B = [N; dC] -> exists h, from_inner C (Some (tr B)) = Ok h).
  { intros B N NN SB. assert (STB : shape (tr B) = [dC; N]) by (rewrite shape_tr, (rows_of _ _ _ SB), (cols_of _ _ _ _ SB); reflexivity).
    destruct (from_inner_some_act cC dC C (tr B) N OC DC VC STB) as (r & Er & _); [destruct cC; cbn; auto|]. eauto. }
  destruct (feqb p 1) eqn:E1; [|destruct (fltb p 0) eqn:E2].
  2:{ left. exists ValueError. intros x gout F. destruct (L x gout F) as (B & N & HK & _ & _ & _ & ->). cbn [bind]. rewrite E1, E2. reflexivity. }
  all: right; intros x gout F; destruct (L x gout F) as (B & N & HK & EB & NN & SB & E); cbn [bind] in E; rewrite E1 in E; rewrite ?E2 in E; cbn [bind] in E.
  - destruct (FC B N NN SB) as (h & Eh). rewrite Eh in E. cbn [bind] in E. exists HK, h. split; [exact E|].
    apply (local_H_typed g l (Ok p) x gout s cK cC dK dC HK h UK UC Ed T F). exact E.
  - destruct (FC (t_divs B (fsqrt p)) N NN SB) as (h & Eh). rewrite Eh in E. cbn [bind] in E. exists HK, h. split; [exact E|].
    apply (local_H_typed g l (Ok p) x gout s cK cC dK dC HK h UK UC Ed T F). exact E.
Qed.

(** ** Multiplying the output gradient *)

Lemma local_H_mulgrad g l prev x q gout s cK cC dK dC :
  usable cK dK -> usable cC dC -> preconditioner_dims l = Ok (dK, dC) -> typed cK cC dK dC s -> fits l x gout ->
  local_H g l prev x (t_scale q gout) s = let* '(HK, HC) := local_H g l prev x gout s in Ok (HK, mul_ HC (q * q)).
Proof.
  intros UK UC Ed T F. pose proof UC as (OC & DC & HhC & NC).
  destruct T as [(K & EK & VK) (C & EC & VC) _ _ _ _]. unfold local_H. rewrite EK, EC.
  destruct (process_input x l (g_approx g)) as [A|] eqn:EA; [|reflexivity]. cbn [bind]. rewrite process_grad_output_scale.
  destruct (process_grad_output gout l (g_loss g) (g_approx g)) as [B|] eqn:EB; [|reflexivity]. unfold rscale. cbn [bind lookup].
  destruct (process_shapes l x gout _ _ A B dK dC F Ed EA EB) as (N & NN & SA & SB).
  destruct (from_inner K (Some (tr A))) as [HK|]; [|reflexivity]. cbn [bind].
  destruct prev as [p|]; [|reflexivity]. cbn [bind].
  destruct (feqb p 1) eqn:Ep; [|destruct (fltb p 0); [reflexivity|]]; cbn [bind].
  - assert (STB : shape (tr B) = [dC; N]) by (rewrite shape_tr, (rows_of _ _ _ SB), (cols_of _ _ _ _ SB); reflexivity).
    rewrite tr_scale. destruct (from_inner_scale cC dC C (tr B) N q OC DC VC STB) as (h & -> & _ & ->); [destruct cC; cbn; auto|]. reflexivity.
  - set (B' := t_divs B (fsqrt p)).
    assert (EB' : t_divs (t_scale q B) (fsqrt p) = t_scale q B').
    { unfold B', t_divs, t_scale, t_map. apply tensor_ext; [reflexivity|]. cbn [shape tab]. intros idx Hi. rewrite !tget_tab by exact Hi.
      rewrite !(Fdiv_def F_ft). ring. }
    rewrite EB'. assert (STB : shape (tr B') = [dC; N]) by (unfold B'; rewrite shape_tr; change (rows (t_divs B (fsqrt p))) with (rows B); change (cols (t_divs B (fsqrt p))) with (cols B); rewrite (rows_of _ _ _ SB), (cols_of _ _ _ _ SB); reflexivity).
    rewrite tr_scale. destruct (from_inner_scale cC dC C (tr B') N q OC DC VC STB) as (h & -> & _ & ->); [destruct cC; cbn; auto|]. reflexivity.
Qed.

(** ** The statistics of the parts of a batch add up *)

(** Each of [R] processes gets [b] of [R * b] samples; the gradients of its mean loss are [R] times those of the mean
    loss over all samples.  The average statistics are those of the whole batch. *)
Lemma local_H_shards R g l prev x gout s HK HC cK cC dK dC b rest :
  R <> O -> b <> O -> usable cK dK -> usable cC dC -> preconditioner_dims l = Ok (dK, dC) -> typed cK cC dK dC s -> fits l x gout -> shape x = (R * b)%nat :: rest ->
  mean_loss g -> local_H g l prev x gout s = Ok (HK, HC) ->
  exists hK hC : nat -> smat,
    (forall r, (r < R)%nat -> local_H g l prev (part x (r * b) b) (t_scale (fofnat R) (part gout (r * b) b)) s = Ok (hK r, hC r)) /\
    (forall i j, (i < dK)%nat -> (j < dK)%nat -> ent HK i j = red R OpAvg (fun r => ent (hK r) i j)) /\
    (forall i j, (i < dC)%nat -> (j < dC)%nat -> ent HC i j = red R OpAvg (fun r => ent (hC r) i j)).
Proof.
  intros NR Nb UK UC Ed T F Sx ML E. pose proof UC as (OC & _).
  assert (FR : fofnat R <> 0) by (destruct R; [contradiction|apply fofnat_S_neq0]). assert (Fb : fofnat b <> 0) by (destruct b; [contradiction|apply fofnat_S_neq0]).
  destruct (local_H_part g l prev x gout s HK HC cK cC dK dC (R * b) rest UK UC Ed T F Sx E) as (MK & MC & AK & AC & P).
  assert (Sg : exists rest', shape gout = (R * b)%nat :: rest').
  { destruct l; [| |contradiction].
    - destruct F as (n & mid & _ & S1 & S2). rewrite Sx in S1. injection S1 as <- _. eauto.
    - destruct F as (_ & n & i1 & i2 & o1 & o2 & _ & _ & S1 & S2). rewrite Sx in S1. injection S1 as <- _. eauto. }
  destruct Sg as (rest' & Sg).
  assert (LW : forall n, loss_weight (g_loss g) n = fofnat n) by (intros n; destruct ML as [-> | ->]; reflexivity).
  assert (Q : forall r, (r < R)%nat -> exists hK hC, local_H g l prev (part x (r * b) b) (part gout (r * b) b) s = Ok (hK, hC) /\ valid cK dK hK /\ valid cC dC hC /\
    eqm dK (ent hK) (fun i j => MK (r * b)%nat b i j / fofnat b) /\ eqm dC (ent hC) (fun i j => fofnat b * MC (r * b)%nat b i j)).
  { intros r Hr. destruct (P (r * b)%nat b) as (hK & hC & P1 & P2 & P3 & P4 & P5); [nia|exact Nb|]. rewrite LW in P5. exists hK, hC. auto. }
  pose (h r := match local_H g l prev (part x (r * b) b) (part gout (r * b) b) s with Ok v => v | Err _ => (HK, HC) end).
  exists (fun r => fst (h r)), (fun r => mul_ (snd (h r)) (fofnat R * fofnat R)).
  assert (Qh : forall r, (r < R)%nat -> local_H g l prev (part x (r * b) b) (part gout (r * b) b) s = Ok (h r) /\ valid cC dC (snd (h r)) /\
    eqm dK (ent (fst (h r))) (fun i j => MK (r * b)%nat b i j / fofnat b) /\ eqm dC (ent (snd (h r))) (fun i j => fofnat b * MC (r * b)%nat b i j)).
  { intros r Hr. destruct (Q r Hr) as (hK & hC & P1 & P2 & P3 & P4 & P5). unfold h. rewrite P1. auto. }
  destruct (P O (R * b)%nat) as (wK & wC & P1 & _ & _ & P4 & P5); [lia|nia|]. rewrite (part_whole _ _ _ Sx), (part_whole _ _ _ Sg), E in P1. injection P1 as <- <-. rewrite LW in P5.
  split; [|split].
  - intros r Hr. rewrite (local_H_mulgrad g l prev _ _ _ s cK cC dK dC UK UC Ed T (fits_part l x gout (r * b) b _ _ F Sx Nb)).
    destruct (Qh r Hr) as (-> & _). destruct (h r); reflexivity.
  - intros i j Hi Hj. rewrite (P4 i j Hi Hj). rewrite (red_ext R OpAvg _ (fun r => MK (r * b)%nat b i j / fofnat b)) by (intros r Hr; apply (Qh r Hr); assumption).
    unfold red. rewrite sum_div by exact Fb. rewrite (parts_sum (fun a b => MK a b i j) b) by (intros; apply AK; assumption). rewrite fofnat_mul. field. auto.
  - intros i j Hi Hj. rewrite (P5 i j Hi Hj). rewrite (red_ext R OpAvg _ (fun r => (fofnat R * fofnat R * fofnat b) * MC (r * b)%nat b i j)).
    + unfold red. rewrite sum_scale_l. rewrite (parts_sum (fun a b => MC a b i j) b) by (intros; apply AC; assumption). rewrite fofnat_mul. field. auto.
    + intros r Hr. destruct (Qh r Hr) as (_ & V & _ & Er). rewrite (proj2 (mul__ok cC dC _ (fofnat R * fofnat R) OC V) i j Hi Hj), (Er i j Hi Hj). ring.
Qed.

(** ** The natural gradient is linear in the gradient *)

Lemma dir_of_add nC nK C Ct K Kt G G' s i j :
  dir_of nC nK C Ct K Kt (fun a b => G a b + G' a b) s i j = dir_of nC nK C Ct K Kt G s i j + dir_of nC nK C Ct K Kt G' s i j.
Proof.
  unfold dir_of. rewrite <- sum_plus. apply sum_ext. intros a Ha. rewrite (sum_ext nC _ (fun k => Ct a k * sum nK (fun b => K j b * sum nK (fun q => Kt b q * (G k q / s))) + Ct a k * sum nK (fun b => K j b * sum nK (fun q => Kt b q * (G' k q / s))))).
  { rewrite sum_plus. ring. }
  intros k Hk. rewrite (sum_ext nK _ (fun b => K j b * sum nK (fun q => Kt b q * (G k q / s)) + K j b * sum nK (fun q => Kt b q * (G' k q / s)))).
  { rewrite sum_plus. ring. }
  intros b Hb. rewrite (sum_ext nK _ (fun q => Kt b q * (G k q / s) + Kt b q * (G' k q / s))); [rewrite sum_plus; ring|].
  intros q Hq. rewrite !(Fdiv_def F_ft). ring.
Qed.
Lemma dir_of_mul nC nK C Ct K Kt G v s i j :
  dir_of nC nK C Ct K Kt (fun a b => v * G a b) s i j = v * dir_of nC nK C Ct K Kt G s i j.
Proof.
  unfold dir_of. rewrite <- sum_scale_l. apply sum_ext. intros a Ha. rewrite (sum_ext nC _ (fun k => v * (Ct a k * sum nK (fun b => K j b * sum nK (fun q => Kt b q * (G k q / s)))))).
  { rewrite sum_scale_l. ring. }
  intros k Hk. rewrite (sum_ext nK _ (fun b => v * (K j b * sum nK (fun q => Kt b q * (G k q / s))))).
  { rewrite sum_scale_l. ring. }
  intros b Hb. rewrite (sum_ext nK _ (fun q => v * (Kt b q * (G k q / s)))); [rewrite sum_scale_l; ring|].
  intros q Hq. rewrite !(Fdiv_def F_ft). ring.
Qed.
Lemma dir_of_sum nC nK C Ct K Kt (G : nat -> mat) s i j n :
  dir_of nC nK C Ct K Kt (fun a b => sum n (fun r => G r a b)) s i j = sum n (fun r => dir_of nC nK C Ct K Kt (G r) s i j).
Proof.
  induction n as [|n IH].
  - cbn [sum]. transitivity (0 * dir_of nC nK C Ct K Kt (fun _ _ => 0) s i j); [rewrite <- dir_of_mul; unfold dir_of|ring].
    replace (0 * 0) with 0 by ring. reflexivity.
  - cbn [sum]. rewrite dir_of_add, IH. reflexivity.
Qed.

End Stat.
