(** Lemmas: training with scaled losses and training without, side by side. *)

From Coq Require Import List Arith Lia Bool ZArith Field.
From Verif Require Import Scalar Res Tensor TensorFacts Structures StructSpec StructDense StructPattern StructOps StructAct OptimUtils UtilsFacts ProofUtils Optimizer Construct OptState OptRun OptSpec OptFacts OptTyped OptPre.
Import ListNotations.

Section ScaleInv.
Context {SC : Scalar} {FL : FieldLaws SC}.
Add Field FFsi : F_ft.
Open Scope F_scope.

(** ** Scaling tensors *)

Lemma data_t_map f t : data (t_map f t) = map f (data t).
Proof.
  apply nth_ext with (d := f 0) (d' := f 0).
  - rewrite data_length, map_length, data_length. reflexivity.
  - intros k Hk. rewrite data_length in Hk. change (numel (t_map f t)) with (numel t) in Hk. rewrite (map_nth f).
    unfold t_map, tab. cbn [data]. rewrite nth_indep with (d' := f (tget t (unflat (shape t) O))) by (rewrite map_length, seq_length; exact Hk).
    rewrite (map_nth (fun k => f (tget t (unflat (shape t) k)))). rewrite seq_nth by exact Hk. cbn [plus]. f_equal.
    unfold tget. rewrite flat_unflat by exact Hk. apply nth_indep. rewrite data_length. exact Hk.
Qed.
Lemma tget_scale a t idx : tget (t_scale a t) idx = a * tget t idx.
Proof.
  unfold tget, t_scale. rewrite data_t_map. change (shape (t_map (fun x => a * x) t)) with (shape t).
  replace 0 with (a * 0) at 1 by ring. rewrite (map_nth (fun x => a * x)). reflexivity.
Qed.
Lemma tab_scale s a f : tab s (fun i => a * f i) = t_scale a (tab s f).
Proof. apply tensor_ext; [reflexivity|]. intros idx Hi. rewrite tget_scale, !tget_tab by exact Hi. reflexivity. Qed.
Lemma scale_scale a b t : t_scale a (t_scale b t) = t_scale (a * b) t.
Proof. apply tensor_ext; [reflexivity|]. intros idx Hi. rewrite !tget_scale. ring. Qed.
Lemma scale_1 t : t_scale 1 t = t.
Proof. apply tensor_ext; [reflexivity|]. intros idx Hi. rewrite !tget_scale. ring. Qed.
Lemma divs_scale t c : t_divs t c = t_scale (1 / c) t.
Proof.
  apply tensor_ext; [reflexivity|]. intros idx Hi. rewrite tget_scale. unfold t_divs, t_map. change (in_range (shape t) idx) in Hi.
  rewrite tget_tab by exact Hi. rewrite !(Fdiv_def F_ft). ring.
Qed.
Lemma unscale a t : a <> 0 -> t_divs (t_scale a t) a = t.
Proof. intros N. rewrite divs_scale, scale_scale. replace (1 / a * a) with 1 by (field; exact N). apply scale_1. Qed.
Lemma tr_scale a t : tr (t_scale a t) = t_scale a (tr t).
Proof.
  unfold tr. change (cols (t_scale a t)) with (cols t). change (rows (t_scale a t)) with (rows t). unfold tab2. rewrite <- tab_scale. apply tab_ext.
  intros idx Hi. apply in_range2_inv in Hi as (i & j & -> & _ & _). apply tget_scale.
Qed.
Lemma tab2_scale n m a f : tab2 n m (fun i j => a * f i j) = t_scale a (tab2 n m f).
Proof. unfold tab2. rewrite <- tab_scale. apply tab_ext. intros idx Hi. apply in_range2_inv in Hi as (i & j & -> & _ & _). reflexivity. Qed.

Definition rscale (a : F) (r : res tensor) : res tensor := let* t := r in Ok (t_scale a t).

Lemma reshape_scale a t s : t_reshape (t_scale a t) s = rscale a (t_reshape t s).
Proof.
  unfold t_reshape. change (numel (t_scale a t)) with (numel t). destruct (bool_dec _ true) as [E|E]; [|reflexivity].
  unfold rscale. cbn [bind]. f_equal. apply tensor_eq; [reflexivity|]. cbn [data]. unfold t_scale. rewrite !data_t_map. reflexivity.
Qed.
Lemma sum_scale n a f : sum n (fun i => a * f i) = a * sum n f.
Proof. induction n; cbn [sum]; [ring|]. rewrite IHn. ring. Qed.

Lemma process_grad_output_scale a g l la ka :
  process_grad_output (t_scale a g) l la ka = rscale a (process_grad_output g l la ka).
Proof.
  assert (L : linear_process_grad_output (t_scale a g) la ka = rscale a (linear_process_grad_output g la ka)).
  { unfold linear_process_grad_output. change (bsd (t_scale a g)) with (bsd g). destruct (bsd g) as [[[b s] d]|]; [|reflexivity]. cbn [bind].
    assert (R : forall s', t_reshape (t_scale a g) s' = rscale a (t_reshape g s')) by (intros; apply reshape_scale).
    destruct ka.
    - rewrite R. destruct (t_reshape g _) as [t|]; [|reflexivity]. unfold rscale. cbn [bind]. rewrite !scale_scale. do 2 f_equal. ring.
    - rewrite R. destruct (t_reshape g _) as [t|]; [|reflexivity]. unfold rscale. cbn [bind]. rewrite scale_scale, <- !tab2_scale. f_equal. apply tab2_ext.
      intros i j _ _. replace (sum s (fun j0 => get3 (t_scale a t) i j0 j)) with (sum s (fun j0 => a * get3 t i j0 j)) by (apply sum_ext; intros; symmetry; apply tget_scale).
      rewrite sum_scale. ring.
    - rewrite R. destruct (t_reshape g _) as [t|]; [|reflexivity]. unfold rscale. cbn [bind]. rewrite scale_scale, <- !tab2_scale. f_equal. apply tab2_ext.
      intros i j _ _. replace (sum s (fun j0 => get3 (t_scale a t) i j0 j)) with (sum s (fun j0 => a * get3 t i j0 j)) by (apply sum_ext; intros; symmetry; apply tget_scale).
      rewrite sum_scale. ring. }
  assert (C : conv2d_process_grad_output (t_scale a g) la ka = rscale a (conv2d_process_grad_output g la ka)).
  { unfold conv2d_process_grad_output. change (shape (t_scale a g)) with (shape g). destruct (shape g) as [|b [|c [|o1 [|o2 [|? ?]]]]]; try reflexivity.
    unfold rscale. cbn [bind]. f_equal. rewrite scale_scale.
    assert (S2 : forall n j, sum o1 (fun u => sum o2 (fun v => get4 (t_scale a g) n j u v)) = a * sum o1 (fun u => sum o2 (fun v => get4 g n j u v))).
    { intros n j. rewrite <- sum_scale. apply sum_ext. intros u _. rewrite <- sum_scale. apply sum_ext. intros v _. apply tget_scale. }
    destruct ka; rewrite <- !tab2_scale; apply tab2_ext; intros i j _ _.
    - change (get4 (t_scale a g)) with (fun x y z w => tget (t_scale a g) [x; y; z; w]). cbv beta. rewrite tget_scale. unfold get4. ring.
    - rewrite S2. ring.
    - rewrite S2. ring. }
  unfold process_grad_output. destruct la, ka, l; first [reflexivity|exact L|exact C].
Qed.

Lemma cat1_scale a x y : t_cat1 (t_scale a x) (t_scale a y) = rscale a (t_cat1 x y).
Proof.
  unfold t_cat1. change (is2 (t_scale a x)) with (is2 x). change (is2 (t_scale a y)) with (is2 y).
  change (rows (t_scale a x)) with (rows x). change (rows (t_scale a y)) with (rows y). change (cols (t_scale a x)) with (cols x). change (cols (t_scale a y)) with (cols y).
  destruct (_ && _); [|reflexivity]. unfold rscale. cbn [bind]. f_equal. rewrite <- tab2_scale. apply tab2_ext. intros i j _ _.
  destruct (Nat.ltb j (cols x)); apply tget_scale.
Qed.

Lemma grad_matrix_scale a l wg bg :
  grad_matrix l (t_scale a wg) (option_map (t_scale a) bg) = rscale a (grad_matrix l wg bg).
Proof.
  unfold grad_matrix. change (shape (t_scale a wg)) with (shape wg).
  assert (G : match l with
    | Conv2d _ => match shape wg with n :: rest => t_reshape (t_scale a wg) [n; prod rest] | [] => Err IndexError end
    | Linear _ _ _ => Ok (t_scale a wg) | OtherModule => Err NotImplementedError end =
    rscale a (match l with
    | Conv2d _ => match shape wg with n :: rest => t_reshape wg [n; prod rest] | [] => Err IndexError end
    | Linear _ _ _ => Ok wg | OtherModule => Err NotImplementedError end)).
  { destruct l; try reflexivity. destruct (shape wg); [reflexivity|]. apply reshape_scale. }
  rewrite G. clear G. match goal with |- context [rscale a ?m] => destruct m as [g|]; [|reflexivity] end. unfold rscale at 1. cbn [bind].
  destruct bg as [b|]; cbn [option_map]; [|reflexivity]. change (shape (t_scale a b)) with (shape b).
  destruct (shape b) as [|n [|? ?]]; try reflexivity. rewrite reshape_scale. destruct (t_reshape b _) as [b'|]; [|reflexivity].
  unfold rscale at 1. cbn [bind]. apply cat1_scale.
Qed.

(** ** Scaling structured matrices *)

Lemma diag_avg_0 a (f : nat -> F) k n : sum n (fun i => a * f i) / k = a * (sum n f / k).
Proof. rewrite sum_scale, !(Fdiv_def F_ft). ring. Qed.

Lemma diag_avg_scale a n M k : diag_avg n (fun i j => a * M i j) k = a * diag_avg n M k.
Proof.
  unfold diag_avg. destruct k.
  - rewrite sum_scale, !(Fdiv_def F_ft). ring.
  - match goal with |- ?s / ?d = a * (?t / _) => assert (E : s = a * t) end.
    { rewrite <- sum_scale. apply sum_ext. intros r Hr. ring. }
    rewrite E, !(Fdiv_def F_ft). ring.
Qed.

Lemma proj_scale a c : forall n M i j, (i < n)%nat -> (j < n)%nat -> proj c n (fun i j => a * M i j) i j = a * proj c n M i j.
Proof.
  induction c; intros n M i j Hi Hj; cbn [proj].
  - reflexivity.
  - bd; [reflexivity|ring].
  - bd; [reflexivity|ring].
  - destruct (hier_parts k1 k2 n) as [[K1 d] K2]. bd; ring.
  - bd; [|ring]. apply diag_avg_scale.
  - bd; [|ring]. apply diag_avg_scale.
  - pose proof (boundary_le n ma mc). bd.
    + apply IHc1; lia.
    + destruct sd; ring.
    + destruct sd; ring.
    + rewrite IHc2 by lia. reflexivity.
Qed.

Lemma from_inner_scale c n s X N a :
  cls_ok c -> dim_ok c n -> valid c n s -> shape X = [n; N] -> cols_ok c N ->
  exists r, from_inner s (Some X) = Ok r /\ valid c n r /\ from_inner s (Some (t_scale a X)) = Ok (mul_ r (a * a)).
Proof.
  intros OK D V SX CK. destruct (from_inner_some_act c n s X N OK D V SX CK) as (r & E & Vr & R).
  assert (SX' : shape (t_scale a X) = [n; N]) by exact SX.
  destruct (from_inner_some_act c n s (t_scale a X) N OK D V SX' CK) as (r' & E' & Vr' & R').
  exists r. split; [exact E|]. split; [exact Vr|]. rewrite E'. f_equal. destruct (mul__ok c n r (a * a) OK Vr) as [Vm Rm].
  apply (ent_inj c n); try assumption. intros i j Hi Hj. rewrite Rm, R, R' by assumption. rewrite <- proj_scale by assumption. apply proj_ext; try assumption.
  intros i' j' _ _. unfold gram. rewrite <- sum_scale. apply sum_ext. intros k _.
  assert (Q : forall i, sum n (fun k0 => rent s i k0 * get2 (t_scale a X) k0 k) = a * sum n (fun k0 => rent s i k0 * get2 X k0 k)).
  { intros i0. rewrite <- sum_scale. apply sum_ext. intros k0 _. unfold get2. rewrite tget_scale. ring. }
  rewrite !Q. ring.
Qed.

Lemma add_scaled c n x y a r u : cls_ok c -> valid c n x -> valid c n y -> r * u = a -> add_ x (mul_ y r) u = add_ x y a.
Proof.
  intros OK Vx Vy E. destruct (mul__ok c n y r OK Vy) as [Vm Rm].
  destruct (add__ok c n x y a OK Vx Vy) as (z & -> & Vz & Rz). destruct (add__ok c n x (mul_ y r) u OK Vx Vm) as (z' & -> & Vz' & Rz'). f_equal.
  apply (ent_inj c n); try assumption. intros i j Hi Hj. rewrite Rz, Rz', Rm by assumption. rewrite <- E. ring.
Qed.
Lemma add_both c n x y r : cls_ok c -> valid c n x -> valid c n y ->
  exists z, add_ x y 1 = Ok z /\ valid c n z /\ add_ (mul_ x r) (mul_ y r) 1 = Ok (mul_ z r).
Proof.
  intros OK Vx Vy. destruct (mul__ok c n y r OK Vy) as [Vm Rm]. destruct (mul__ok c n x r OK Vx) as [Vl Rl].
  destruct (add__ok c n x y 1 OK Vx Vy) as (z & E & Vz & Rz). destruct (add__ok c n (mul_ x r) (mul_ y r) 1 OK Vl Vm) as (z' & -> & Vz' & Rz').
  exists z. split; [exact E|]. split; [exact Vz|]. f_equal. destruct (mul__ok c n z r OK Vz) as [Vmz Rmz].
  apply (ent_inj c n); try assumption. intros i j Hi Hj. rewrite Rmz, Rz', Rz, Rl, Rm by assumption. ring.
Qed.
Lemma average_trace_scaled c n y r : cls_ok c -> n <> O -> valid c n y ->
  exists t, average_trace y = Ok t /\ average_trace (mul_ y r) = Ok (r * t).
Proof.
  intros OK N V. destruct (mul__ok c n y r OK V) as [Vm Rm]. rewrite (average_trace_ok c n y OK N V), (average_trace_ok c n _ OK N Vm).
  eexists. split; [reflexivity|]. f_equal. rewrite <- diag_avg_0. f_equal. apply sum_ext. intros i Hi. apply Rm; exact Hi.
Qed.

(** ** One module *)

(** The same dictionary entries, with [H_C] multiplied by [r]. *)
Definition srel (r : F) (s s' : slots) : Prop :=
  sl_K s' = sl_K s /\ sl_C s' = sl_C s /\ sl_mK s' = sl_mK s /\ sl_mC s' = sl_mC s /\ sl_HK s' = sl_HK s /\
  sl_HC s' = option_map (fun h => mul_ h r) (sl_HC s).

Lemma srel_eq r s : sl_HC s = None -> srel r s s.
Proof. intros H. repeat split. rewrite H. reflexivity. Qed.

Lemma new_momenta_scaled g l K C HK HC r u cK cC dK dC :
  usable cK dK -> usable cC dC -> preconditioner_dims l = Ok (dK, dC) ->
  valid cK dK K -> valid cC dC C -> valid cK dK HK -> valid cC dC HC -> r * u = 1 ->
  new_momenta g l K C HK (mul_ HC r) u = new_momenta g l K C HK HC 1.
Proof.
  intros UK UC Ed VK VC VHK VHC E. pose proof UK as (OK & DK & HhK & NK). pose proof UC as (OC & DC & HhC & NC).
  unfold new_momenta. destruct (from_inner_none_act cK dK K OK DK VK) as (KK & -> & VKK & _). destruct (from_inner_none_act cC dC C OC DC VC) as (CC & -> & VCC & _).
  cbn [bind]. rewrite Ed. cbn [bind].
  assert (ECK : cls_of K = cK) by (eapply valid_cls; eassumption).
  assert (ECC : cls_of C = cC) by (eapply valid_cls; eassumption).
  destruct (average_trace_scaled cC dC HC r OC NC VHC) as (t & Et & Et'). rewrite Et, Et'. cbn [bind].
  replace (u * (r * t)) with (1 * t) by (rewrite <- E; ring).
  destruct (c_zeros (cls_of K) dK) as [z|] eqn:Ez; [|reflexivity]. cbn [bind].
  match goal with |- bind ?x _ = _ => destruct x as [a1|]; [|reflexivity] end. cbn [bind].
  match goal with |- bind ?x _ = _ => destruct x as [m1|]; [|reflexivity] end. cbn [bind].
  match goal with |- bind ?x _ = _ => destruct x as [a2|]; [|reflexivity] end. cbn [bind].
  match goal with |- bind ?x _ = _ => destruct x as [m2|]; [|reflexivity] end. cbn [bind].
  match goal with |- bind ?x _ = _ => destruct x as [m3|]; [|reflexivity] end. cbn [bind].
  destruct (zeros_ok cC dC OC (or_introl DC)) as (z2 & Ez2 & Vz2 & _). rewrite ECC, Ez2. cbn [bind].
  destruct (g_kfac_like g); cbn [bind].
  - rewrite (add_scaled cC dC z2 HC 1 r u OC Vz2 VHC E). reflexivity.
  - destruct (average_trace HK) as [tk|]; [|reflexivity]. cbn [bind].
    rewrite (add_scaled cC dC z2 HC (1 * tk) r (u * tk) OC Vz2 VHC) by (rewrite <- E; ring). reflexivity.
Qed.

Lemma update_slots_scaled g l n sc sc' s s' r p q cK cC dK dC :
  usable cK dK -> usable cC dC -> preconditioner_dims l = Ok (dK, dC) -> typed cK cC dK dC s -> srel r s s' ->
  get_grad_scale sc (Z.of_nat n - 1) = Ok 1 -> get_grad_scale sc (Z.of_nat n) = Ok 1 ->
  get_grad_scale sc' (Z.of_nat n - 1) = Ok p -> get_grad_scale sc' (Z.of_nat n) = Ok q -> q <> 0 -> r * (p / (q * q)) = 1 ->
  snd (update_slots g l n sc s) = snd (update_slots g l n sc' s') /\ srel r (fst (update_slots g l n sc s)) (fst (update_slots g l n sc' s')).
Proof.
  intros UK UC Ed T R G1 G2 G3 G4 Nq E. pose proof R as (R1 & R2 & R3 & R4 & R5 & R6).
  unfold update_slots. unfold sbind, lift, entry, modify.
  destruct (is_update_step g n) as [[|]|]; cbn [negb]; cbv beta iota; try (split; [reflexivity|exact R]). rewrite R1.
  destruct (sl_K s) as [K|] eqn:EK; cbn [lookup]; cbv beta iota; [|split; [reflexivity|exact R]]. rewrite R2.
  destruct (sl_C s) as [C|] eqn:EC; cbn [lookup]; cbv beta iota; [|split; [reflexivity|exact R]]. rewrite R5.
  destruct (sl_HK s) as [HK|] eqn:EHK; cbn [lookup]; cbv beta iota; [|split; [reflexivity|exact R]].
  cbn [set_HK sl_HC]. rewrite R6. destruct (sl_HC s) as [HC|] eqn:EHC; cbn [lookup option_map]; cbv beta iota.
  2:{ split; [reflexivity|]. unfold srel. unfold fst, set_HK. cbn [sl_K sl_C sl_mK sl_mC sl_HK sl_HC].
      do 5 (split; [congruence|]). rewrite R6, EHC. reflexivity. }
  rewrite G1, G2, G3, G4. unfold grad_unscaling. rewrite (feqb_false 1 0) by apply f1_neq_0. rewrite (feqb_false q 0 Nq).
  destruct T as [(K' & EK' & VK) (C' & EC' & VC) _ _ THK THC]. rewrite EK in EK'. injection EK' as <-. rewrite EC in EC'. injection EC' as <-.
  rewrite (new_momenta_scaled g l K C HK HC r (p / (q * q)) cK cC dK dC UK UC Ed VK VC (THK _ EHK) (THC _ EHC) E).
  replace (1 / (1 * 1)) with 1 by (field; apply f1_neq_0).
  assert (ES : set_HC None (set_HK None s') = set_HC None (set_HK None s)) by (unfold set_HC, set_HK; cbn; congruence).
  cbv beta iota. rewrite ES. set (s2 := set_HC None (set_HK None s)).
  assert (F : forall x, keeps (fun a b => sl_HC a = None -> sl_HC b = None) x ->
    snd (x s2) = snd (x s2) /\ srel r (fst (x s2)) (fst ((x : SM slots unit) s2))).
  { intros x HX. split; [reflexivity|]. apply srel_eq. apply HX. reflexivity. }
  destruct (new_momenta g l K C HK HC 1) as [[mK mC]|]; [|split; [reflexivity|apply srel_eq; reflexivity]].
  apply (F (let! '(m_K, m_C) := apply_momenta g mK mC in
    let! beta_K := lift (normalized_lr g (lr_cov_at g n) m_K) in
    let! beta_C := lift (normalized_lr g (lr_cov_at g n) m_C) in
    let! P := lift (matmul_s K m_K) in
    let! K' := lift (add_ K P (- beta_K)) in
    let! _ := modify (set_K (Some K')) in
    let! P := lift (matmul_s C m_C) in
    let! C' := lift (add_ C P (- beta_C)) in
    modify (set_C (Some C')))).
  set (Q := fun a b : slots => sl_HC a = None -> sl_HC b = None).
  assert (Qr : forall a, Q a a) by (intros a H; exact H). assert (Qt : forall a b c, Q a b -> Q b c -> Q a c) by (unfold Q; auto).
  repeat first [ apply keeps_bind; [exact Qt| |intros ?] | apply keeps_lift; exact Qr | apply keeps_ret; exact Qr | apply keeps_modify; intros ? H; exact H ].
  - unfold apply_momenta. destruct (feqb _ _); [apply keeps_ret; exact Qr|].
    repeat first [ apply keeps_bind; [exact Qt| |intros ?] | apply keeps_lift; exact Qr | apply keeps_ret; exact Qr | apply keeps_modify; intros ? H; exact H | intros t H; exact H ].
  - destruct a as [mK' mC'].
    repeat first [ apply keeps_bind; [exact Qt| |intros ?] | apply keeps_lift; exact Qr | apply keeps_ret; exact Qr | apply keeps_modify; intros ? H; exact H ].
Qed.

(** A scale that can be used as a divisor, with its root. *)
Definition good (x : F) : Prop := x <> 0 /\ fltb x 0 = false /\ fsqrt x * fsqrt x = x.

Lemma local_H_scaled g l p q x gout s s' r cK cC dK dC :
  usable cK dK -> usable cC dC -> preconditioner_dims l = Ok (dK, dC) -> typed cK cC dK dC s -> srel r s s' -> fits l x gout -> good p ->
  local_H g l (Ok p) x (t_scale q gout) s' =
  let* '(HK, HC) := local_H g l (Ok 1) x gout s in Ok (HK, mul_ HC (q * q / p)).
Proof.
  intros UK UC Ed T R F (P1 & P2 & P3). pose proof UK as (OK & DK & HhK & NK). pose proof UC as (OC & DC & HhC & NC).
  pose proof R as (R1 & R2 & _). destruct T as [(K & EK & VK) (C & EC & VC) _ _ _ _]. unfold local_H. rewrite R1, R2, EK, EC.
  destruct (process_input x l (g_approx g)) as [A|] eqn:EA; [|reflexivity]. cbn [bind]. rewrite process_grad_output_scale.
  destruct (process_grad_output gout l (g_loss g) (g_approx g)) as [B|] eqn:EB; [|reflexivity]. unfold rscale. cbn [bind lookup].
  destruct (process_shapes l x gout _ _ A B dK dC F Ed EA EB) as (N & NN & SA & SB).
  destruct (from_inner K (Some (tr A))) as [HK|]; [|reflexivity]. cbn [bind].
  rewrite (proj2 (feqb_iff 1 1) eq_refl). cbn [bind].
  assert (STB : shape (tr B) = [dC; N]) by (rewrite shape_tr, (rows_of _ _ _ SB), (cols_of _ _ _ _ SB); reflexivity).
  assert (G : exists a, (if feqb p 1 then Ok (t_scale q B) else if fltb p 0 then Err ValueError else Ok (t_divs (t_scale q B) (fsqrt p))) = Ok (t_scale a B) /\ a * a = q * q / p).
  { destruct (feqb_spec p 1) as [[Ep ->]|[Np ->]]; [exists q; split; [reflexivity|rewrite Ep; field; apply f1_neq_0]|]. rewrite P2.
    assert (N0 : fsqrt p <> 0) by (intros Z; apply P1; rewrite <- P3, Z; ring).
    exists (q / fsqrt p). split; [rewrite divs_scale, scale_scale; do 2 f_equal; field; exact N0|].
    rewrite <- P3 at 3. field. exact N0. }
  destruct G as (a & -> & Ea). cbn [bind]. rewrite tr_scale.
  destruct (from_inner_scale cC dC C (tr B) N a OC DC VC STB) as (h & -> & _ & ->); [destruct cC; cbn; auto|]. cbn [bind]. rewrite Ea. reflexivity.
Qed.

Lemma store_H_scaled HK HC s s' r cK cC dK dC :
  usable cK dK -> usable cC dC -> typed cK cC dK dC s -> srel r s s' -> valid cK dK HK -> valid cC dC HC ->
  snd (store_H HK HC s) = snd (store_H HK (mul_ HC r) s') /\ srel r (fst (store_H HK HC s)) (fst (store_H HK (mul_ HC r) s')).
Proof.
  intros (OK & _) (OC & _) T R VK VC. pose proof (ty_HK _ _ _ _ _ T) as THK. pose proof (ty_HC _ _ _ _ _ T) as THC. pose proof R as (R1 & R2 & R3 & R4 & R5 & R6).
  unfold store_H, sbind, getS, lift, modify. rewrite R5.
  destruct (match sl_HK s with Some h => add_ h HK 1 | None => Ok HK end) as [hk|]; [|split; [reflexivity|exact R]].
  rewrite R6. destruct (sl_HC s) as [h|] eqn:E; cbn [option_map].
  - destruct (add_both cC dC h HC r OC (THC h eq_refl) VC) as (z & -> & Vz & ->). cbn [fst snd]. split; [reflexivity|].
    unfold srel. cbn. rewrite R1, R2, R3, R4. repeat split.
  - cbn [fst snd]. split; [reflexivity|]. unfold srel. cbn. rewrite R1, R2, R3, R4. repeat split.
Qed.

(** ** The natural gradient *)

Lemma nat_grad_scaled l wg bg q K C : q <> 0 ->
  nat_grad_matrix l (rscale q wg) (option_map (rscale q) bg) (Ok q) K C = nat_grad_matrix l wg bg (Ok 1) K C.
Proof.
  intros N. unfold nat_grad_matrix. destruct wg as [w|]; [|reflexivity]. unfold rscale at 1. cbn [bind].
  assert (B : match option_map (rscale q) bg with None => Ok None | Some b => let* b := b in Ok (Some b) end =
              let* b := match bg with None => Ok None | Some b => let* b := b in Ok (Some b) end in Ok (option_map (t_scale q) b)).
  { destruct bg as [[b|]|]; reflexivity. }
  rewrite B. destruct (match bg with None => Ok None | Some b => let* b := b in Ok (Some b) end) as [b|]; [|reflexivity]. cbn [bind].
  rewrite grad_matrix_scale. destruct (grad_matrix l w b) as [G|]; [|reflexivity]. unfold rscale. cbn [bind].
  rewrite (proj2 (feqb_iff 1 1) eq_refl).
  assert (EG : (if feqb q 1 then t_scale q G else t_divs (t_scale q G) q) = G).
  { destruct (feqb_spec q 1) as [[-> ->]|[Nq ->]]; [apply scale_1|apply unscale; exact N]. }
  rewrite EG. reflexivity.
Qed.

(** ** States *)

(** The same training, with gradients of the parameters [w] multiplied by [q] and [H_C] by [r]. *)
Definition strel (c : cfg) (w : list nat) (q r : F) (st st' : state) : Prop :=
  s_steps st' = s_steps st /\ s_groups st' = s_groups st /\ s_inf st' = s_inf st /\ s_pend st' = s_pend st /\
  (forall m, In m (c_mods c) -> srel r (s_slots st (m_key m)) (s_slots st' (m_key m))) /\
  (forall p, p_val (s_par st' p) = p_val (s_par st p) /\ p_buf (s_par st' p) = p_buf (s_par st p)) /\
  (forall p, In p w -> p_grad (s_par st' p) = option_map (t_scale q) (p_grad (s_par st p))).

Lemma param_step_scaled g d p p' :
  p_val p' = p_val p -> p_buf p' = p_buf p ->
  snd (param_step g d p) = snd (param_step g d p') /\
  p_val (fst (param_step g d p')) = p_val (fst (param_step g d p)) /\ p_buf (fst (param_step g d p')) = p_buf (fst (param_step g d p)) /\
  p_grad (fst (param_step g d p')) = p_grad p' /\ p_grad (fst (param_step g d p)) = p_grad p.
Proof.
  intros E1 E2. unfold param_step, sbind, getS, lift, modify. rewrite E1, E2.
  destruct (if feqb (g_wd g) 0 then Ok d else t_add_alpha d (p_val p) (g_wd g)) as [d'|]; [|cbn; auto].
  destruct (feqb (g_momentum g) 0).
  - destruct (t_add_alpha _ _ _) as [v|]; cbn; auto.
  - destruct (t_add _ _) as [b|]; [|cbn; auto]. destruct (t_add_alpha _ _ _) as [v|]; cbn; auto.
Qed.

Section InStep.
Variables (c : cfg) (ty : tys) (w : list nat) (p q r : F).
Hypothesis TO : tys_ok c ty.
Hypothesis ND : NoDup (map m_key (c_mods c)).
Hypothesis Nq : q <> 0.
Hypothesis Hr : r * (p / (q * q)) = 1.
Hypothesis HW : forall m x, In m (c_mods c) -> In x (mod_params m) -> In x w.

Definition during (st st' : state) : Prop :=
  strel c w q r st st' /\ (forall m, In m (c_mods c) -> mod_typed ty m st) /\
  get_grad_scale (s_scales st) (Z.of_nat (s_steps st) - 1) = Ok 1 /\ get_grad_scale (s_scales st) (Z.of_nat (s_steps st)) = Ok 1 /\
  get_grad_scale (s_scales st') (Z.of_nat (s_steps st) - 1) = Ok p /\ get_grad_scale (s_scales st') (Z.of_nat (s_steps st)) = Ok q.

Lemma during_pre m : In m (c_mods c) -> rel2 during (update_preconditioner c m) (update_preconditioner c m).
Proof.
  intros Hm s t (S & T & G1 & G2 & G3 & G4). pose proof S as (S1 & S2 & S3 & S4 & S5 & S6 & S7).
  unfold update_preconditioner, sbind, getS, lift. rewrite S2. destruct (get_group c (s_groups s) m) as [g|]; [|split; [reflexivity|repeat (split; [assumption|]); assumption]].
  unfold on_slots. rewrite S1. pose proof (TO m Hm) as TOm. pose proof (T m Hm) as Tm. unfold mod_typed in Tm. destruct (ty m) as [[[cK cC] dK] dC] eqn:Ety. destruct TOm as (UK & UC & Ed).
  destruct (update_slots_scaled g (m_layer m) (s_steps s) (s_scales s) (s_scales t) _ _ r p q _ _ _ _ UK UC Ed Tm (S5 m Hm) G1 G2 G3 G4 Nq Hr) as [E1 E2].
  destruct (update_slots_typed g (m_layer m) (s_steps s) (s_scales s) _ _ _ _ _ UK UC Ed Tm) as [E3 _].
  destruct (update_slots g (m_layer m) (s_steps s) (s_scales s) (s_slots s (m_key m))) as [s' r1].
  destruct (update_slots g (m_layer m) (s_steps s) (s_scales t) (s_slots t (m_key m))) as [t' r2]. cbn [fst snd] in *.
  split; [exact E1|]. split; [|split; [|cbn; auto]].
  - unfold strel. cbn. do 4 (split; [assumption|]). split; [|split; assumption]. intros m' Hm'.
    destruct (same_key (c_mods c) m' m ND Hm' Hm) as [D| ->]; [rewrite !upd_neq by congruence; apply S5; exact Hm'|rewrite !upd_eq; exact E2].
  - intros m' Hm'. unfold mod_typed. cbn. destruct (same_key (c_mods c) m' m ND Hm' Hm) as [D| ->]; [rewrite upd_neq by congruence; apply T; exact Hm'|].
    rewrite upd_eq, Ety. exact E3.
Qed.

Lemma during_grad m : In m (c_mods c) -> rel2 during (compute_natural_gradient c m) (compute_natural_gradient c m).
Proof.
  intros Hm s t D. pose proof D as (S & T & G1 & G2 & G3 & G4). pose proof S as (S1 & S2 & S3 & S4 & S5 & S6 & S7).
  unfold compute_natural_gradient, sbind, getS, lift. rewrite S1, G2, G4. destruct (S5 m Hm) as (R1 & R2 & _). rewrite R1, R2.
  assert (GD : forall x, In x (mod_params m) -> grad_data (s_par t x) = rscale q (grad_data (s_par s x))).
  { intros x Hx. unfold grad_data. rewrite (S7 x (HW m x Hm Hx)). destruct (p_grad (s_par s x)); reflexivity. }
  rewrite (GD (m_weight m)) by (left; reflexivity).
  assert (GB : option_map (fun b => grad_data (s_par t b)) (m_bias m) = option_map (rscale q) (option_map (fun b => grad_data (s_par s b)) (m_bias m))).
  { unfold mod_params in GD. destruct (m_bias m) as [b|]; [|reflexivity]. cbn [option_map]. rewrite (GD b) by (right; left; reflexivity). reflexivity. }
  rewrite GB, (nat_grad_scaled _ _ _ q) by exact Nq.
  destruct (nat_grad_matrix _ _ _ _ _ _) as [N|]; cbn [fst snd]; split; try reflexivity; exact D.
Qed.

Lemma during_par x g d : rel2 during (on_par x (param_step g d)) (on_par x (param_step g d)).
Proof.
  intros s t D. pose proof D as (S & T & G1 & G2 & G3 & G4). pose proof S as (S1 & S2 & S3 & S4 & S5 & S6 & S7). unfold on_par.
  destruct (param_step_scaled g d (s_par s x) (s_par t x)) as (E1 & E2 & E3 & E4 & E5); [apply S6|apply S6|].
  destruct (param_step g d (s_par s x)) as [a r1]. destruct (param_step g d (s_par t x)) as [b r2]. cbn [fst snd] in *. split; [exact E1|].
  split; [|split; [exact T|cbn; auto]]. unfold strel. cbn. do 4 (split; [assumption|]). split; [exact S5|]. split.
  - intros y. destruct (Nat.eq_dec y x) as [->|Ny]; [rewrite !upd_eq; auto|rewrite !upd_neq by exact Ny; apply S6].
  - intros y Hy. destruct (Nat.eq_dec y x) as [->|Ny]; [rewrite !upd_eq, E4, E5; apply S7; exact Hy|rewrite !upd_neq by exact Ny; apply S7; exact Hy].
Qed.

Lemma during_module m : In m (c_mods c) -> rel2 during (step_module c m) (step_module c m).
Proof.
  intros Hm. unfold step_module. apply rel2_bind; [apply during_pre; exact Hm|]. intros _. apply rel2_bind; [apply during_grad; exact Hm|]. intros [dw db].
  intros s t D. pose proof D as ((_ & S2 & _) & _). rewrite !group_bind, S2.
  destruct (get_group c (s_groups s) m) as [g|]; [|split; [reflexivity|exact D]]. revert s t D S2.
  intros s t D _. revert s t D. apply rel2_bind; [apply during_par|]. intros _. destruct (m_bias m) as [b|]; [|apply rel2_ret].
  destruct db as [d|]; [apply during_par|apply rel2_ret].
Qed.

Lemma during_all : rel2 during (step_all c) (step_all c).
Proof. apply rel2_forS. intros m Hm. apply during_module. exact Hm. Qed.
End InStep.
End ScaleInv.
