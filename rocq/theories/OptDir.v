(** Lemmas: the natural gradient and the parameter update of one module. *)

From Coq Require Import List Arith Lia Bool ZArith Field.
From Verif Require Import Scalar Res Tensor TensorFacts Structures StructSpec StructMul StructAct OptimUtils UtilsFacts ProofUtils Optimizer OptState OptSpec OptFacts OptConsume.
Import ListNotations.

Section Dir.
Context {SC : Scalar} {FL : FieldLaws SC}.
Add Field Ffd : F_ft.
Open Scope F_scope.

(** ** The matrix *)

(** C Ct G (K Kt)^T / s for an nC x nK matrix G. *)
Definition dir_of (nC nK : nat) (C Ct K Kt G : mat) (s : F) : mat :=
  fun i j => sum nC (fun a => C i a * sum nC (fun k => Ct a k * sum nK (fun b => K j b * sum nK (fun q => Kt b q * (G k q / s))))).

Lemma usable_cols c n m : usable c n -> m <> O -> cols_ok c m.
Proof. intros _ H. destruct c; cbn; auto. Qed.

Lemma nat_grad_any l wg bg cur K C cK cC dK dC G :
  grad_matrix l wg bg = Ok G -> shape G = [dC; dK] ->
  usable cK dK -> usable cC dC -> valid cK dK K -> valid cC dC C ->
  nat_grad_matrix l (Ok wg) (option_map Ok bg) (Ok cur) (Ok K) (Ok C) =
    Ok (tab2 dC dK (dir_of dC dK (ent C) (rent C) (ent K) (rent K) (get2 G) cur)).
Proof.
  intros EG SG UK UC VK VC. pose proof UK as (OK & DK & _ & NK). pose proof UC as (OC & DC & _ & NC).
  unfold nat_grad_matrix. cbn [bind].
  replace (match option_map Ok bg with None => Ok None | Some b => let* b := b in Ok (Some b) end) with (Ok bg : res (option tensor)) by (destruct bg; reflexivity).
  cbn [bind]. rewrite EG. cbn [bind].
  set (G' := if feqb cur 1 then G else t_divs G cur).
  assert (SG' : shape G' = [dC; dK]) by (unfold G'; destruct (feqb cur 1); [exact SG|exact SG]).
  assert (HG' : forall i j, (i < dC)%nat -> (j < dK)%nat -> get2 G' i j = get2 G i j / cur).
  { intros i j Hi Hj. unfold G'. destruct (feqb cur 1) eqn:E.
    - apply feqb_iff in E. rewrite E. field. apply f1_neq_0.
    - unfold t_divs, t_map, get2. rewrite tget_tab; [reflexivity|]. rewrite SG. apply in_range2; assumption. }
  assert (ST : shape (tr G') = [dK; dC]) by (rewrite shape_tr, (rows_of _ _ _ SG'), (cols_of _ _ _ _ SG'); reflexivity).
  rewrite (rmatmat_act cK dK K (tr G') dC OK DK VK ST (usable_cols _ _ _ UK NC)). cbn [bind].
  rewrite (fun X H => matmul_t_act cK dK K X dC OK DK VK H (usable_cols _ _ _ UK NC)) by reflexivity. cbn [bind].
  match goal with |- context [tr (tab2 dK dC ?f)] => set (t := tr (tab2 dK dC f)) end.
  assert (St : shape t = [dC; dK]) by reflexivity.
  rewrite (rmatmat_act cC dC C t dK OC DC VC St (usable_cols _ _ _ UC NK)). cbn [bind].
  rewrite (fun X H => matmul_t_act cC dC C X dK OC DC VC H (usable_cols _ _ _ UC NK)) by reflexivity.
  f_equal. apply tab2_ext. intros i j Hi Hj. unfold dir_of. apply sum_ext. intros a Ha. f_equal.
  rewrite get2_tab2 by assumption. apply sum_ext. intros k Hk. f_equal.
  unfold t, tr. rewrite get2_tab2 by assumption. rewrite get2_tab2 by assumption. apply sum_ext. intros b Hb. f_equal.
  rewrite get2_tab2 by assumption. apply sum_ext. intros q Hq. f_equal.
  unfold tr. rewrite get2_tab2 by (rewrite ?(cols_of _ _ _ _ SG'), ?(rows_of _ _ _ SG'); assumption). apply HG'; assumption.
Qed.

Lemma nat_grad_act l wg bg cur K C cK cC dK dC G :
  grad_matrix l wg bg = Ok G -> shape G = [dC; dK] -> cur <> 0 ->
  usable cK dK -> usable cC dC -> valid cK dK K -> valid cC dC C ->
  nat_grad_matrix l (Ok wg) (option_map Ok bg) (Ok cur) (Ok K) (Ok C) =
    Ok (tab2 dC dK (dir_of dC dK (ent C) (rent C) (ent K) (rent K) (get2 G) cur)).
Proof. intros EG SG _. apply nat_grad_any; assumption. Qed.

Lemma sum_div n f s : s <> 0 -> sum n (fun i => f i / s) = sum n f / s.
Proof. intros H. induction n; cbn [sum]; [field; exact H|]. rewrite IHn. field. exact H. Qed.

(** With true transposes this is C C^T G K K^T / s. *)
Lemma dir_of_transposes nC nK C K G s i j :
  s <> 0 ->
  dir_of nC nK C (fun a b => C b a) K (fun a b => K b a) G s i j =
  mmm nC (mmt nC C C) (mmm nK G (mmt nK K K)) i j / s.
Proof.
  intros Hs. unfold dir_of, mmm, mmt.
  transitivity (sum nC (fun k => sum nC (fun a => C i a * C k a) * sum nK (fun q => G k q * sum nK (fun b => K q b * K j b)) / s)).
  2:{ apply sum_div. exact Hs. }
  rewrite (sum_ext nC _ (fun a => sum nC (fun k => C i a * C k a * (sum nK (fun q => G k q * sum nK (fun b => K q b * K j b)) / s)))).
  - rewrite sum_swap. apply sum_ext. intros k Hk. rewrite sum_scale_r. field. exact Hs.
  - intros a Ha. rewrite <- sum_scale_l. apply sum_ext. intros k Hk.
    assert (E : sum nK (fun b => K j b * sum nK (fun q => K q b * (G k q / s))) = sum nK (fun q => G k q * sum nK (fun b => K q b * K j b)) / s).
    { transitivity (sum nK (fun b => sum nK (fun q => K j b * K q b * G k q) * (1 / s))).
      - apply sum_ext. intros b Hb. rewrite <- !sum_scale_l, <- sum_scale_r. apply sum_ext. intros q Hq. field. exact Hs.
      - rewrite sum_scale_r, sum_swap. transitivity (sum nK (fun q => G k q * sum nK (fun b => K q b * K j b)) * (1 / s)); [|field; exact Hs].
        f_equal. apply sum_ext. intros q Hq. rewrite <- sum_scale_l. apply sum_ext. intros b Hb. ring. }
    rewrite E. ring.
Qed.

(** Its inner product with the gradient is the squared norm of C^T G K, over s. *)
Lemma dir_of_inner nC nK C K G s :
  s <> 0 ->
  sum nC (fun i => sum nK (fun j => dir_of nC nK C (fun a b => C b a) K (fun a b => K b a) G s i j * G i j)) =
  sum nC (fun a => sum nK (fun b => let v := sum nC (fun k => sum nK (fun q => C k a * G k q * K q b)) in v * v)) / s.
Proof.
  intros Hs.
  set (V := fun a b => sum nC (fun k => sum nK (fun q => C k a * G k q * K q b))).
  assert (D : forall i j, dir_of nC nK C (fun a b => C b a) K (fun a b => K b a) G s i j =
                sum nC (fun a => sum nK (fun b => C i a * K j b * V a b)) * (1 / s)).
  { intros i j. unfold dir_of. rewrite <- sum_scale_r. apply sum_ext. intros a Ha.
    transitivity (sum nC (fun k => sum nK (fun b => sum nK (fun q => C i a * K j b * (C k a * G k q * K q b) * (1 / s))))).
    - rewrite <- sum_scale_l. apply sum_ext. intros k Hk. rewrite <- !sum_scale_l. apply sum_ext. intros b Hb.
      rewrite <- !sum_scale_l. apply sum_ext. intros q Hq. field. exact Hs.
    - rewrite sum_swap, <- sum_scale_r. apply sum_ext. intros b Hb. unfold V.
      rewrite <- sum_scale_l, <- sum_scale_r. apply sum_ext. intros k Hk.
      rewrite <- sum_scale_l, <- sum_scale_r. reflexivity. }
  transitivity (sum nC (fun i => sum nK (fun j => sum nC (fun a => sum nK (fun b => V a b * (C i a * G i j * K j b))))) * (1 / s)).
  - rewrite <- sum_scale_r. apply sum_ext. intros i Hi. rewrite <- sum_scale_r. apply sum_ext. intros j Hj. rewrite D.
    rewrite <- !sum_scale_r. apply sum_ext. intros a Ha. rewrite <- !sum_scale_r. apply sum_ext. intros b Hb. ring.
  - transitivity (sum nC (fun a => sum nK (fun b => V a b * V a b)) * (1 / s)); [|unfold V; cbv zeta; field; exact Hs]. f_equal.
    transitivity (sum nC (fun i => sum nC (fun a => sum nK (fun j => sum nK (fun b => V a b * (C i a * G i j * K j b)))))).
    { apply sum_ext. intros i Hi. apply sum_swap. }
    rewrite sum_swap. apply sum_ext. intros a Ha.
    transitivity (sum nC (fun i => sum nK (fun b => sum nK (fun j => V a b * (C i a * G i j * K j b))))).
    { apply sum_ext. intros i Hi. apply sum_swap. }
    rewrite sum_swap. apply sum_ext. intros b Hb. unfold V at 3. rewrite <- sum_scale_l. apply sum_ext. intros i Hi. rewrite <- sum_scale_l. reflexivity.
Qed.

(** ** Splitting any matrix of the layer's dimensions into parameter shapes *)

Lemma split_any l N :
  supported l -> shape N = [n_out l; if has_bias l then fan l + 1 else fan l]%nat ->
  exists w b, split_matrix l N = Ok (w, b) /\ grad_matrix l w b = Ok N /\ shape w = weight_shape l /\
    match b with Some b => has_bias l = true /\ shape b = [n_out l] | None => has_bias l = false end.
Proof.
  intros Hs HN. destruct (weight_shape_eq l Hs) as (rest & Ew & Er & E0).
  set (w0 := tab2 (n_out l) (fan l) (get2 N)).
  destruct (t_reshape_ok w0 (weight_shape l)) as (w & _ & Sw & Dw).
  { unfold numel. rewrite Ew. change (n_out l * (fan l * 1) = n_out l * prod rest)%nat. rewrite Er. lia. }
  set (b0 := if has_bias l then Some (tab1 (n_out l) (fun i => get2 N i (fan l))) else None).
  assert (Hb0 : match b0 with Some b => has_bias l = true /\ shape b = [n_out l] | None => has_bias l = false end)
    by (unfold b0; destruct (has_bias l); [split; reflexivity|reflexivity]).
  destruct (C49_gradient_matrix_lemma l w b0 Hs Sw Hb0) as (M & EM & DM & SM & H1 & H2 & ES).
  assert (M = N) as <-.
  { rewrite (C49_dims_lemma l Hs) in DM. injection DM as D1 D2.
    apply (ext2 (n_out l) (if has_bias l then fan l + 1 else fan l)); [congruence|exact HN|].
    intros i j Hi Hj. assert (J : (j < fan l)%nat \/ has_bias l = true /\ j = fan l) by (destruct (has_bias l); [lia|left; lia]).
    destruct J as [J|[Eb ->]].
    - rewrite H1, Dw by assumption. assert (E : get2 w0 i j = get2 N i j) by (unfold w0; apply get2_tab2; assumption).
      rewrite <- E. unfold get2, tget. f_equal. unfold w0. cbn. lia.
    - unfold b0 in H2. rewrite Eb in H2. rewrite (H2 _ i eq_refl Hi). rewrite get1_tab1 by exact Hi. reflexivity. }
  exists w, b0. auto.
Qed.

(** Sum of the products of all entries. *)
Definition dot (a b : tensor) : F := sum (numel a) (fun k => nth k (data a) 0 * nth k (data b) 0).
Definition odot (a b : option tensor) : F := match a, b with Some a, Some b => dot a b | _, _ => 0 end.

Lemma dot_matrix l w b wg bg N G :
  supported l -> shape w = weight_shape l -> shape wg = weight_shape l ->
  match b with Some b => has_bias l = true /\ shape b = [n_out l] | None => has_bias l = false end ->
  match bg with Some b => has_bias l = true /\ shape b = [n_out l] | None => has_bias l = false end ->
  grad_matrix l w b = Ok N -> grad_matrix l wg bg = Ok G ->
  dot w wg + odot b bg = sum (rows N) (fun i => sum (cols N) (fun j => get2 N i j * get2 G i j)).
Proof.
  intros Hs Sw Swg Hb Hbg EN EG. destruct (weight_shape_eq l Hs) as (rest & Ew & Er & E0).
  destruct (C49_gradient_matrix_lemma l w b Hs Sw Hb) as (N' & EN' & DN & _ & N1 & N2 & _). rewrite EN in EN'. injection EN' as <-.
  destruct (C49_gradient_matrix_lemma l wg bg Hs Swg Hbg) as (G' & EG' & DG & _ & G1 & G2 & _). rewrite EG in EG'. injection EG' as <-.
  rewrite (C49_dims_lemma l Hs) in DN. injection DN as <- <-.
  assert (DW : dot w wg = sum (n_out l) (fun i => sum (fan l) (fun j => get2 N i j * get2 G i j))).
  { unfold dot, numel. rewrite Sw, Ew. change (prod (n_out l :: rest)) with (n_out l * prod rest)%nat. rewrite Er, sum_blocks.
    apply sum_ext. intros i Hi. apply sum_ext. intros j Hj. rewrite N1, G1 by assumption. reflexivity. }
  destruct b as [b|], bg as [bg|]; [|destruct Hb; congruence|destruct Hbg; congruence|].
  - destruct Hb as [Hb Sb]. destruct Hbg as [_ Sbg]. rewrite Hb.
    rewrite (sum_ext (n_out l) (fun i => sum (fan l + 1) (fun j => get2 N i j * get2 G i j))
       (fun i => sum (fan l) (fun j => get2 N i j * get2 G i j) + get1 b i * get1 bg i)).
    + rewrite sum_plus, DW. f_equal. unfold odot, dot, numel. rewrite Sb. unfold prod; cbn [fold_right]. rewrite Nat.mul_1_r.
      apply sum_ext. intros i Hi. unfold get1, tget. rewrite Sb, Sbg. unfold flat, prod; cbn [fold_right]. f_equal; f_equal; lia.
    + intros i Hi. rewrite sum_split. cbn [sum]. rewrite Nat.add_0_r, (N2 b i eq_refl Hi), (G2 bg i eq_refl Hi). ring.
  - rewrite Hb. cbn [odot]. rewrite DW. ring.
Qed.

(** ** One module's step taken apart *)

Lemma step_module_parts c m st st' :
  NoDup (mod_params m) -> step_module c m st = (st', Ok tt) ->
  exists g s' N w b,
    get_group c (s_groups st) m = Ok g /\
    update_slots g (m_layer m) (s_steps st) (s_scales st) (s_slots st (m_key m)) = (s', Ok tt) /\
    s_slots st' (m_key m) = s' /\
    nat_grad_matrix (m_layer m) (grad_data (s_par st (m_weight m))) (option_map (fun b => grad_data (s_par st b)) (m_bias m))
      (get_grad_scale (s_scales st) (Z.of_nat (s_steps st))) (lookup (sl_K s')) (lookup (sl_C s')) = Ok N /\
    split_matrix (m_layer m) N = Ok (w, b) /\
    param_step g w (s_par st (m_weight m)) = (s_par st' (m_weight m), Ok tt) /\
    match m_bias m, b with
    | Some p, Some d => param_step g d (s_par st p) = (s_par st' p, Ok tt)
    | Some p, None => s_par st' p = s_par st p
    | None, _ => True
    end.
Proof.
  intros ND H. pose proof H as H0. apply step_module_slots in H0 as (g & s' & Eg & Eu & Es). exists g, s'.
  unfold step_module in H. apply sbind_ok in H as (sa & [] & H1 & H).
  unfold update_preconditioner, sbind, getS, lift in H1. rewrite Eg in H1. unfold on_slots in H1. rewrite Eu in H1. injection H1 as <-.
  apply sbind_ok in H as (sb & [w b] & H2 & H). unfold compute_natural_gradient, sbind, getS, lift in H2.
  cbn [s_slots s_par s_scales s_steps set_slots] in H2. rewrite upd_eq in H2.
  destruct (nat_grad_matrix _ _ _ _ _ _) as [N|] eqn:EN; [|discriminate]. injection H2 as <- ES.
  exists N, w, b. split; [exact Eg|]. split; [exact Eu|]. split; [exact Es|]. split; [reflexivity|]. split; [exact ES|].
  unfold sbind at 1, getS at 1 in H. cbn [s_groups set_slots] in H. unfold sbind at 1, lift at 1 in H. rewrite Eg in H.
  apply sbind_ok in H as (sc & [] & H3 & H4). unfold on_par in H3. cbn [s_par set_slots] in H3.
  destruct (param_step g w (s_par st (m_weight m))) as [p1 r1] eqn:E1. injection H3 as <- ->.
  destruct (m_bias m) as [p|] eqn:Eb.
  - assert (Np : p <> m_weight m).
    { unfold mod_params in ND. rewrite Eb in ND. apply NoDup_cons_iff in ND as [ND _]. intros ->. apply ND. left. reflexivity. }
    destruct b as [d|].
    + unfold on_par in H4. cbn [s_par set_slots set_par] in H4. rewrite upd_neq in H4 by exact Np.
      destruct (param_step g d (s_par st p)) as [p2 r2] eqn:E2. injection H4 as <- ->. cbn [s_par set_slots set_par].
      rewrite upd_neq by congruence. rewrite !upd_eq. auto.
    + injection H4 as <-. cbn [s_par set_slots set_par]. rewrite upd_eq, upd_neq by exact Np. auto.
  - replace (match b with Some _ | _ => ret tt end) with (@ret state unit tt) in H4 by (destruct b; reflexivity).
    injection H4 as <-. cbn [s_par set_par]. rewrite upd_eq. auto.
Qed.

(** ** The update of one parameter *)

Lemma map2_ok f a b s : shape a = s -> shape b = s ->
  exists r, t_map2 f a b = Ok r /\ shape r = s /\ forall idx, in_range s idx -> tget r idx = f (tget a idx) (tget b idx).
Proof.
  intros Ha Hb. unfold t_map2. rewrite Ha, Hb, shape_eqb_refl. eexists. split; [reflexivity|]. split; [reflexivity|].
  intros idx Hi. rewrite tget_tab by exact Hi. reflexivity.
Qed.

Lemma add_alpha_ok a b alpha s : shape a = s -> shape b = s ->
  exists r, t_add_alpha a b alpha = Ok r /\ shape r = s /\ forall idx, in_range s idx -> tget r idx = tget a idx + alpha * tget b idx.
Proof. intros Ha Hb. unfold t_add_alpha. apply (map2_ok (fun x y => x + alpha * y) a b s Ha Hb). Qed.

(** The old buffer, a zero tensor if there is none. *)
Definition oldbuf (p : pslot) (idx : list nat) : F := match p_buf p with Some b => tget b idx | None => 0 end.

Lemma param_step_act g d p s :
  shape (p_val p) = s -> shape d = s -> (forall b, p_buf p = Some b -> shape b = s) ->
  exists v B, param_step g d p = (mkP v (p_grad p) B, Ok tt) /\ shape v = s /\
    (if feqb (g_momentum g) 0 then
       B = p_buf p /\ forall idx, in_range s idx -> tget v idx = tget (p_val p) idx - g_lr g * (tget d idx + g_wd g * tget (p_val p) idx)
     else exists b, B = Some b /\ shape b = s /\
       (forall idx, in_range s idx -> tget b idx = g_momentum g * oldbuf p idx + (tget d idx + g_wd g * tget (p_val p) idx)) /\
       (forall idx, in_range s idx -> tget v idx = tget (p_val p) idx - g_lr g * tget b idx)).
Proof.
  intros Sv Sd Sb. unfold param_step. unfold sbind at 1, getS.
  assert (D : exists d', (if feqb (g_wd g) 0 then Ok d else t_add_alpha d (p_val p) (g_wd g)) = Ok d' /\ shape d' = s /\
     forall idx, in_range s idx -> tget d' idx = tget d idx + g_wd g * tget (p_val p) idx).
  { destruct (feqb (g_wd g) 0) eqn:E.
    - exists d. split; [reflexivity|]. split; [exact Sd|]. intros idx _. apply feqb_iff in E. rewrite E. ring.
    - apply add_alpha_ok; assumption. }
  destruct D as (d' & Ed & Sd' & Hd). unfold sbind at 1, lift at 1. rewrite Ed.
  destruct (feqb (g_momentum g) 0) eqn:Em.
  - destruct (add_alpha_ok (p_val p) d' (- g_lr g) s Sv Sd') as (v & Ev & SV & HV). unfold sbind, lift, modify. rewrite Ev.
    exists v, (p_buf p). split; [reflexivity|]. split; [exact SV|]. split; [reflexivity|]. intros idx Hi. rewrite HV, Hd by exact Hi. ring.
  - set (ob := match p_buf p with Some b => b | None => zeros (shape (p_val p)) end).
    assert (So : shape ob = s) by (unfold ob; destruct (p_buf p) eqn:E; [apply Sb; reflexivity|exact Sv]).
    assert (Ho : forall idx, in_range s idx -> tget ob idx = oldbuf p idx).
    { intros idx Hi. unfold ob, oldbuf. destruct (p_buf p); [reflexivity|]. unfold zeros. rewrite tget_tab by (rewrite Sv; exact Hi). reflexivity. }
    destruct (map2_ok fadd (t_scale (g_momentum g) ob) d' s So Sd') as (b & Eb & SB & HB).
    destruct (add_alpha_ok (p_val p) b (- g_lr g) s Sv SB) as (v & Ev & SV & HV).
    unfold sbind, lift, modify, t_add. rewrite Eb, Ev. exists v, (Some b). split; [reflexivity|]. split; [exact SV|].
    exists b. split; [reflexivity|]. split; [exact SB|]. split.
    + intros idx Hi. rewrite HB by exact Hi. unfold t_scale, t_map. rewrite tget_tab by (rewrite So; exact Hi). rewrite Ho, Hd by exact Hi. reflexivity.
    + intros idx Hi. rewrite HV by exact Hi. ring.
Qed.

End Dir.
