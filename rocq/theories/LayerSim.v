(** Lemmas: two layers with the same matrices, processed inputs and processed output gradients are trained alike. *)

From Coq Require Import List Arith Lia Bool ZArith.
From Verif Require Import Scalar Res Tensor TensorFacts Structures StructSpec OptimUtils UtilsFacts ProofUtils Optimizer Construct OptState OptRun OptSpec OptFacts OptDir OptTyped OptStep CtorSpec CtorFacts ProgressSpec Progress LayerSpec.
Import ListNotations.

Section LayerSim.
Context {SC : Scalar} {FL : FieldLaws SC}.
Open Scope F_scope.

(** ** Matrices *)

Lemma dims_width l dK dC : preconditioner_dims l = Ok (dK, dC) -> supported l /\ width l = dK /\ n_out l = dC.
Proof.
  intros E. pose proof (dims_supported _ _ _ E) as S. split; [exact S|]. rewrite (C49_dims_lemma l S) in E. injection E as E1 E2. auto.
Qed.

Lemma matrix_cells l w b : supported l -> layer_fit l w b ->
  exists M, grad_matrix l w b = Ok M /\ shape M = [n_out l; width l] /\ split_matrix l M = Ok (w, b) /\
    forall i j, (i < n_out l)%nat -> (j < width l)%nat -> get2 M i j = cell l w b i j.
Proof.
  intros S [Sw Sb]. destruct (C49_gradient_matrix_lemma l w b S Sw Sb) as (M & EM & DM & SM & H1 & H2 & ES).
  exists M. rewrite (C49_dims_lemma l S) in DM. injection DM as D1 D2. rewrite <- D1, <- D2 in SM. split; [exact EM|]. split; [exact SM|]. split; [exact ES|].
  intros i j Hi Hj. unfold cell. destruct (Nat.ltb_spec j (fan l)); [apply H1; assumption|]. unfold width in Hj.
  destruct b as [b|].
  - destruct Sb as [Sb _]. rewrite Sb in Hj. assert (j = fan l) as -> by lia. apply (H2 b); [reflexivity|exact Hi].
  - rewrite Sb in Hj. lia.
Qed.

Lemma grad_matrix_same l w b l' w' b' dK dC :
  preconditioner_dims l = Ok (dK, dC) -> preconditioner_dims l' = Ok (dK, dC) -> same_matrix l w b l' w' b' ->
  exists M, grad_matrix l w b = Ok M /\ grad_matrix l' w' b' = Ok M /\ shape M = [dC; dK].
Proof.
  intros D D' (L & L' & E). apply dims_width in D as (S & W & N), D' as (S' & W' & N').
  destruct (matrix_cells l w b S L) as (M & EM & SM & _ & C). destruct (matrix_cells l' w' b' S' L') as (M' & EM' & SM' & _ & C').
  exists M. split; [exact EM|]. rewrite W, N in *. rewrite W', N' in *. split; [|exact SM]. rewrite EM'. f_equal.
  rewrite <- (tab2_eta dC dK M SM), <- (tab2_eta dC dK M' SM'). apply tab2_ext. intros i j Hi Hj. rewrite C, C' by assumption. symmetry. apply E; assumption.
Qed.

Lemma split_same l l' N dK dC :
  preconditioner_dims l = Ok (dK, dC) -> preconditioner_dims l' = Ok (dK, dC) -> shape N = [dC; dK] ->
  exists w b w' b', split_matrix l N = Ok (w, b) /\ split_matrix l' N = Ok (w', b') /\ same_matrix l w b l' w' b'.
Proof.
  intros D D' SN. apply dims_width in D as (S & W & E), D' as (S' & W' & E').
  destruct (split_any l N S) as (w & b & E1 & G1 & Sw & Sb). { rewrite SN, <- W, <- E. reflexivity. }
  destruct (split_any l' N S') as (w' & b' & E2 & G2 & Sw' & Sb'). { rewrite SN, <- W', <- E'. reflexivity. }
  exists w, b, w', b'. split; [exact E1|]. split; [exact E2|].
  assert (L : layer_fit l w b) by (split; assumption). assert (L' : layer_fit l' w' b') by (split; assumption).
  split; [exact L|]. split; [exact L'|]. intros i j Hi Hj.
  destruct (matrix_cells l w b S L) as (M & EM & _ & _ & C). destruct (matrix_cells l' w' b' S' L') as (M' & EM' & _ & _ & C').
  rewrite G1 in EM. injection EM as <-. rewrite G2 in EM'. injection EM' as <-. rewrite <- C, <- C' by (congruence || lia). reflexivity.
Qed.

(** ** One parameter *)

Definition obuf (p : pslot) (k : nat) : F := match p_buf p with Some b => nth k (data b) 0 | None => 0 end.

Lemma nth_tget (t : tensor) s k : shape t = s -> (k < prod s)%nat -> nth k (data t) 0 = tget t (unflat s k).
Proof. intros <- H. unfold tget. rewrite flat_unflat by exact H. reflexivity. Qed.

Definition fits_slot (s : list nat) (p : pslot) : Prop := shape (p_val p) = s /\ forall b, p_buf p = Some b -> shape b = s.

Lemma param_step_nth g d p s :
  fits_slot s p -> shape d = s ->
  exists v B, param_step g d p = (mkP v (p_grad p) B, Ok tt) /\ shape v = s /\
    (if feqb (g_momentum g) 0 then
       B = p_buf p /\ forall k, (k < prod s)%nat -> nth k (data v) 0 = nth k (data (p_val p)) 0 - g_lr g * (nth k (data d) 0 + g_wd g * nth k (data (p_val p)) 0)
     else exists b, B = Some b /\ shape b = s /\
       (forall k, (k < prod s)%nat -> nth k (data b) 0 = g_momentum g * obuf p k + (nth k (data d) 0 + g_wd g * nth k (data (p_val p)) 0)) /\
       (forall k, (k < prod s)%nat -> nth k (data v) 0 = nth k (data (p_val p)) 0 - g_lr g * nth k (data b) 0)).
Proof.
  intros [Sv Sb] Sd. destruct (param_step_act g d p s Sv Sd Sb) as (v & B & E & SV & R). exists v, B. split; [exact E|]. split; [exact SV|].
  destruct (feqb (g_momentum g) 0).
  - destruct R as [RB R]. split; [exact RB|]. intros k Hk. rewrite !(nth_tget _ s) by assumption. apply R. apply unflat_range. exact Hk.
  - destruct R as (b & RB & SB & R1 & R2). exists b. split; [exact RB|]. split; [exact SB|]. split; intros k Hk.
    + rewrite !(nth_tget _ s) by assumption. rewrite R1 by (apply unflat_range; exact Hk). do 2 f_equal. unfold oldbuf, obuf.
      destruct (p_buf p) as [o|] eqn:Eo; [|reflexivity]. symmetry. apply nth_tget; [apply Sb; reflexivity|exact Hk].
    + rewrite !(nth_tget _ s) by assumption. apply R2. apply unflat_range. exact Hk.
Qed.

(** ** The parameters of one module *)

Definition step_pars (g : group) (m : modul) (w : tensor) (b : option tensor) : SM state unit :=
  let! _ := on_par (m_weight m) (param_step g w) in
  match m_bias m, b with
  | Some p, Some d => on_par p (param_step g d)
  | _, _ => ret tt
  end.

(** The values, buffers of a module as a matrix. *)
Definition bias_of (sel : pslot -> option tensor) (m : modul) (pa : nat -> pslot) : option tensor :=
  match m_bias m with Some p => sel (pa p) | None => None end.
Definition vcell (m : modul) (pa : nat -> pslot) : nat -> nat -> F :=
  cell (m_layer m) (p_val (pa (m_weight m))) (bias_of (fun p => Some (p_val p)) m pa).
Definition bcell (m : modul) (pa : nat -> pslot) (i j : nat) : F :=
  match p_buf (pa (m_weight m)) with Some w => cell (m_layer m) w (bias_of p_buf m pa) i j | None => 0 end.

(** What a module's parameters look like: values of the right shapes, all buffers or none. *)
Definition nice (m : modul) (pa : nat -> pslot) : Prop :=
  NoDup (mod_params m) /\ bias_fits m /\ supported (m_layer m) /\
  layer_fit (m_layer m) (p_val (pa (m_weight m))) (bias_of (fun p => Some (p_val p)) m pa) /\
  ((forall p, In p (mod_params m) -> p_buf (pa p) = None) \/
   exists w, p_buf (pa (m_weight m)) = Some w /\ layer_fit (m_layer m) w (bias_of p_buf m pa)).

Lemma layer_size l : supported l -> prod (weight_shape l) = (n_out l * fan l)%nat.
Proof. intros S. destruct (weight_shape_eq l S) as (rest & E & <- & _). rewrite E. reflexivity. Qed.

Lemma cell_lt l i j : (i < n_out l)%nat -> (j < fan l)%nat -> (i * fan l + j < n_out l * fan l)%nat.
Proof. intros. nia. Qed.

Lemma get1_nth (t : tensor) n i : shape t = [n] -> (i < n)%nat -> get1 t i = nth i (data t) 0.
Proof. intros H Hi. unfold get1, tget. rewrite H. f_equal. cbn. lia. Qed.

Lemma step_pars_nice g m w b st :
  nice m (s_par st) -> layer_fit (m_layer m) w b ->
  exists pa, step_pars g m w b st = (set_par pa st, Ok tt) /\ nice m pa /\
    (forall p, ~ In p (mod_params m) -> pa p = s_par st p) /\ (forall p, p_grad (pa p) = p_grad (s_par st p)) /\
    (if feqb (g_momentum g) 0 then
       (forall p, p_buf (pa p) = p_buf (s_par st p)) /\
       forall i j, (i < n_out (m_layer m))%nat -> (j < width (m_layer m))%nat ->
         vcell m pa i j = vcell m (s_par st) i j - g_lr g * (cell (m_layer m) w b i j + g_wd g * vcell m (s_par st) i j)
     else
       p_buf (pa (m_weight m)) <> None /\
       (forall i j, (i < n_out (m_layer m))%nat -> (j < width (m_layer m))%nat ->
         bcell m pa i j = g_momentum g * bcell m (s_par st) i j + (cell (m_layer m) w b i j + g_wd g * vcell m (s_par st) i j)) /\
       (forall i j, (i < n_out (m_layer m))%nat -> (j < width (m_layer m))%nat ->
         vcell m pa i j = vcell m (s_par st) i j - g_lr g * bcell m pa i j)).
Proof.
  intros (ND & BF & SU & [Sv Svb] & BU) [Sw Sb]. set (pa0 := s_par st) in *. set (l := m_layer m) in *.
  assert (FW : fits_slot (weight_shape l) (pa0 (m_weight m))).
  { split; [exact Sv|]. intros o Eo. destruct BU as [BU|(o' & Eo' & [So _])]; [rewrite BU in Eo by (left; reflexivity); discriminate|]. congruence. }
  destruct (param_step_nth g w (pa0 (m_weight m)) _ FW Sw) as (v1 & B1 & E1 & SV1 & R1).
  unfold bias_fits in BF. fold l in BF. unfold step_pars, sbind, on_par at 1. fold pa0. rewrite E1.
  assert (CL : forall i j t x, (i < n_out l)%nat -> (j < fan l)%nat -> cell l t x i j = nth (i * fan l + j) (data t) 0).
  { intros i j t x Hi Hj. unfold cell. destruct (Nat.ltb_spec j (fan l)); [reflexivity|lia]. }
  assert (KK : forall i j, (i < n_out l)%nat -> (j < fan l)%nat -> (i * fan l + j < prod (weight_shape l))%nat).
  { intros i j Hi Hj. rewrite (layer_size l SU). apply cell_lt; assumption. }
  destruct (m_bias m) as [q|] eqn:Eq.
  - (* with bias *)
    destruct b as [d|]; [|congruence]. destruct Sb as [_ Sd].
    assert (Nq : q <> m_weight m). { unfold mod_params in ND. rewrite Eq in ND. apply NoDup_cons_iff in ND as [N _]. intros ->. apply N. left. reflexivity. }
    assert (MP : forall p, In p (mod_params m) <-> p = m_weight m \/ p = q).
    { intros p. unfold mod_params. rewrite Eq. cbn. split; [intros [<-|[<-|[]]]; auto|intros [->| ->]; auto]. }
    unfold bias_of in Svb. rewrite Eq in Svb. destruct Svb as [_ Svb].
    assert (FB : fits_slot [n_out l] (pa0 q)).
    { split; [exact Svb|]. intros o Eo. destruct BU as [BU|(o' & Eo' & [_ So])]; [rewrite BU in Eo by (apply MP; auto); discriminate|].
      unfold bias_of in So. rewrite Eq, Eo in So. apply So. }
    destruct (param_step_nth g d (pa0 q) _ FB Sd) as (v2 & B2 & E2 & SV2 & R2).
    cbn [set_par s_par]. unfold on_par. cbn [set_par s_par]. rewrite upd_neq by exact Nq. rewrite E2.
    set (P1 := mkP v1 (p_grad (pa0 (m_weight m))) B1). set (P2 := mkP v2 (p_grad (pa0 q)) B2).
    exists (upd (upd pa0 (m_weight m) P1) q P2). split; [reflexivity|].
    set (pa := upd (upd pa0 (m_weight m) P1) q P2).
    assert (G1 : pa (m_weight m) = P1) by (unfold pa; rewrite upd_neq by congruence; apply upd_eq).
    assert (G2 : pa q = P2) by (unfold pa; apply upd_eq).
    assert (G3 : forall p, ~ In p (mod_params m) -> pa p = pa0 p).
    { intros p Hp. unfold pa. rewrite !upd_neq; [reflexivity| |]; intros ->; apply Hp, MP; auto. }
    assert (LE : forall i j, (i < n_out l)%nat -> (j < width l)%nat -> (j < fan l)%nat \/ j = fan l).
    { intros i j _ Hj. unfold width in Hj. rewrite BF in Hj. lia. }
    assert (CB : forall i t x, (i < n_out l)%nat -> shape x = [n_out l] -> cell l t (Some x) i (fan l) = nth i (data x) 0).
    { intros i t x Hi Hx. unfold cell. rewrite Nat.ltb_irrefl. apply (get1_nth _ (n_out l)); assumption. }
    assert (KB : forall i, (i < n_out l)%nat -> (i < prod [n_out l])%nat) by (intros; cbn; lia).
    assert (VL : forall pp, vcell m pp = cell l (p_val (pp (m_weight m))) (Some (p_val (pp q)))).
    { intros pp. unfold vcell, bias_of. rewrite Eq. reflexivity. }
    assert (GR : forall p, p_grad (pa p) = p_grad (pa0 p)).
    { intros p. destruct (Nat.eq_dec p q) as [->|N1]; [rewrite G2; reflexivity|]. destruct (Nat.eq_dec p (m_weight m)) as [->|N2]; [rewrite G1; reflexivity|].
      rewrite G3; [reflexivity|]. rewrite MP. tauto. }
    destruct (feqb (g_momentum g) 0) eqn:Em.
    + destruct R1 as [RB1 R1], R2 as [RB2 R2].
      assert (BB : forall p, p_buf (pa p) = p_buf (pa0 p)).
      { intros p. destruct (Nat.eq_dec p q) as [->|N1]; [rewrite G2; exact RB2|]. destruct (Nat.eq_dec p (m_weight m)) as [->|N2]; [rewrite G1; exact RB1|].
        rewrite G3; [reflexivity|]. rewrite MP. tauto. }
      split.
      { split; [exact ND|]. split; [unfold bias_fits; rewrite Eq; exact BF|]. split; [exact SU|]. split.
        - split; [rewrite G1; exact SV1|]. unfold bias_of. rewrite Eq, G2. split; [exact BF|exact SV2].
        - destruct BU as [BU|(o & Eo & Lo)]; [left; intros p Hp; rewrite BB; apply BU; exact Hp|]. right. exists o. rewrite BB. split; [exact Eo|].
          unfold bias_of in *. rewrite Eq in *. rewrite BB. exact Lo. }
      split; [exact G3|]. split; [exact GR|]. split; [exact BB|]. intros i j Hi Hj. rewrite !VL, G1, G2. cbn [p_val P1 P2].
      destruct (LE i j Hi Hj) as [H| ->].
      * rewrite !CL by assumption. apply R1. apply KK; assumption.
      * rewrite !CB by assumption. apply R2. apply KB; assumption.
    + destruct R1 as (b1 & -> & SB1 & RA1 & RV1), R2 as (b2 & -> & SB2 & RA2 & RV2).
      assert (BL : bcell m pa = cell l b1 (Some b2)). { unfold bcell, bias_of. rewrite Eq, G1, G2. reflexivity. }
      split.
      { split; [exact ND|]. split; [unfold bias_fits; rewrite Eq; exact BF|]. split; [exact SU|]. split.
        - split; [rewrite G1; exact SV1|]. unfold bias_of. rewrite Eq, G2. split; [exact BF|exact SV2].
        - right. exists b1. rewrite G1. split; [reflexivity|]. split; [exact SB1|]. unfold bias_of. rewrite Eq, G2. split; [exact BF|exact SB2]. }
      split; [exact G3|]. split; [exact GR|]. split; [rewrite G1; discriminate|].
      assert (OB : forall i j, (i < n_out l)%nat -> (j < width l)%nat -> bcell m pa0 i j = if Nat.ltb j (fan l) then obuf (pa0 (m_weight m)) (i * fan l + j) else obuf (pa0 q) i).
      { intros i j Hi Hj. unfold bcell, obuf. destruct BU as [BU|(o & Eo & [_ Lo])].
        - rewrite (BU (m_weight m)) by (apply MP; auto). rewrite (BU q) by (apply MP; auto). destruct (Nat.ltb j (fan l)); reflexivity.
        - unfold bias_of in *. rewrite Eq in *. rewrite Eo. unfold cell. fold l. destruct (Nat.ltb j (fan l)); [reflexivity|]. destruct (p_buf (pa0 q)) as [x|]; [|reflexivity].
          apply (get1_nth _ (n_out l)); [apply Lo|exact Hi]. }
      split; intros i j Hi Hj.
      * rewrite OB by assumption. rewrite !VL, BL. destruct (LE i j Hi Hj) as [H| ->].
        -- rewrite (proj2 (Nat.ltb_lt j (fan l)) H). rewrite !CL by assumption. apply RA1. apply KK; assumption.
        -- rewrite Nat.ltb_irrefl, !CB by assumption. apply RA2. apply KB; assumption.
      * rewrite !VL, BL, G1, G2. cbn [p_val P1 P2]. destruct (LE i j Hi Hj) as [H| ->].
        -- rewrite !CL by assumption. apply RV1. apply KK; assumption.
        -- rewrite !CB by assumption. apply RV2. apply KB; assumption.
  - (* without bias *)
    destruct b as [d|]; [destruct Sb; congruence|]. unfold ret.
    set (P1 := mkP v1 (p_grad (pa0 (m_weight m))) B1). exists (upd pa0 (m_weight m) P1). split; [reflexivity|].
    set (pa := upd pa0 (m_weight m) P1).
    assert (MP : forall p, In p (mod_params m) <-> p = m_weight m).
    { intros p. unfold mod_params. rewrite Eq. cbn. split; [intros [<-|[]]; auto|intros ->; auto]. }
    assert (G1 : pa (m_weight m) = P1) by (unfold pa; apply upd_eq).
    assert (G3 : forall p, ~ In p (mod_params m) -> pa p = pa0 p).
    { intros p Hp. unfold pa. rewrite !upd_neq; [reflexivity|]; intros ->; apply Hp, MP; auto. }
    assert (LE : forall i j, (i < n_out l)%nat -> (j < width l)%nat -> (j < fan l)%nat).
    { intros i j _ Hj. unfold width in Hj. rewrite BF in Hj. lia. }
    assert (VL : forall pp, vcell m pp = cell l (p_val (pp (m_weight m))) None).
    { intros pp. unfold vcell, bias_of. rewrite Eq. reflexivity. }
    assert (GR : forall p, p_grad (pa p) = p_grad (pa0 p)).
    { intros p. destruct (Nat.eq_dec p (m_weight m)) as [->|N2]; [rewrite G1; reflexivity|]. rewrite G3; [reflexivity|]. rewrite MP. tauto. }
    destruct (feqb (g_momentum g) 0) eqn:Em.
    + destruct R1 as [RB1 R1].
      assert (BB : forall p, p_buf (pa p) = p_buf (pa0 p)).
      { intros p. destruct (Nat.eq_dec p (m_weight m)) as [->|N2]; [rewrite G1; exact RB1|]. rewrite G3; [reflexivity|]. rewrite MP. tauto. }
      split.
      { split; [exact ND|]. split; [unfold bias_fits; rewrite Eq; exact BF|]. split; [exact SU|]. split.
        - split; [rewrite G1; exact SV1|]. unfold bias_of. rewrite Eq. exact BF.
        - destruct BU as [BU|(o & Eo & Lo)]; [left; intros p Hp; rewrite BB; apply BU; exact Hp|]. right. exists o. rewrite BB. split; [exact Eo|].
          unfold bias_of in *. rewrite Eq in *. exact Lo. }
      split; [exact G3|]. split; [exact GR|]. split; [exact BB|]. intros i j Hi Hj. rewrite !VL, G1. cbn [p_val P1]. pose proof (LE i j Hi Hj) as H.
      rewrite !CL by assumption. apply R1. apply KK; assumption.
    + destruct R1 as (b1 & -> & SB1 & RA1 & RV1).
      assert (BL : bcell m pa = cell l b1 None). { unfold bcell, bias_of. rewrite Eq, G1. reflexivity. }
      split.
      { split; [exact ND|]. split; [unfold bias_fits; rewrite Eq; exact BF|]. split; [exact SU|]. split.
        - split; [rewrite G1; exact SV1|]. unfold bias_of. rewrite Eq. exact BF.
        - right. exists b1. rewrite G1. split; [reflexivity|]. split; [exact SB1|]. unfold bias_of. rewrite Eq. exact BF. }
      split; [exact G3|]. split; [exact GR|]. split; [rewrite G1; discriminate|].
      assert (OB : forall i j, (i < n_out l)%nat -> (j < fan l)%nat -> bcell m pa0 i j = obuf (pa0 (m_weight m)) (i * fan l + j)).
      { intros i j Hi Hj. unfold bcell, obuf. destruct (p_buf (pa0 (m_weight m))); [|reflexivity]. apply CL; assumption. }
      split; intros i j Hi Hj; pose proof (LE i j Hi Hj) as H.
      * rewrite OB by assumption. rewrite !VL, BL. rewrite !CL by assumption. apply RA1. apply KK; assumption.
      * rewrite !VL, BL, G1. cbn [p_val P1]. rewrite !CL by assumption. apply RV1. apply KK; assumption.
Qed.

(** ** Pairs of modules *)

Lemma nice_same m m' pa pa' :
  NoDup (mod_params m) -> NoDup (mod_params m') -> bias_fits m -> bias_fits m' -> supported (m_layer m) -> supported (m_layer m') ->
  same_params m m' pa pa' -> nice m pa /\ nice m' pa'.
Proof.
  intros N N' B B' S S' (V & _ & U). destruct V as [[V _]|(w & w' & E & E' & L & L' & _)]; [discriminate (V (m_weight m) (or_introl eq_refl))|].
  injection E as <-. injection E' as <-. cbv zeta in *.
  destruct U as [[U U']|(u & u' & Eu & Eu' & Lu & Lu' & _)].
  - split; (repeat (split; [assumption|])); left; assumption.
  - split; (repeat (split; [assumption|])); right; eexists; split; eassumption.
Qed.

Lemma nice_val m pa : nice m pa -> exists w, p_val (pa (m_weight m)) = w /\ layer_fit (m_layer m) w (bias_of (fun p => Some (p_val p)) m pa).
Proof. intros (_ & _ & _ & L & _). eexists. split; [reflexivity|exact L]. Qed.

Lemma same_vcell m m' pa pa' :
  nice m pa -> nice m' pa' ->
  same_at (fun p => Some (p_val p)) m m' pa pa' <-> forall i j, (i < n_out (m_layer m))%nat -> (j < width (m_layer m))%nat -> vcell m pa i j = vcell m' pa' i j.
Proof.
  intros (_ & _ & _ & L & _) (_ & _ & _ & L' & _). split.
  - intros [[V _]|(w & w' & E & E' & _ & _ & C)]; [discriminate (V (m_weight m) (or_introl eq_refl))|].
    injection E as <-. injection E' as <-. exact C.
  - intros C. right. exists (p_val (pa (m_weight m))), (p_val (pa' (m_weight m'))). split; [reflexivity|]. split; [reflexivity|]. split; [exact L|]. split; [exact L'|exact C].
Qed.

Lemma same_bcell m m' pa pa' :
  nice m pa -> nice m' pa' ->
  same_at p_buf m m' pa pa' <->
  (p_buf (pa (m_weight m)) = None <-> p_buf (pa' (m_weight m')) = None) /\
  (forall i j, (i < n_out (m_layer m))%nat -> (j < width (m_layer m))%nat -> bcell m pa i j = bcell m' pa' i j).
Proof.
  intros (_ & _ & _ & _ & B) (_ & _ & _ & _ & B'). split.
  - intros [[V V']|(w & w' & E & E' & _ & _ & C)].
    + unfold bcell. rewrite (V (m_weight m) (or_introl eq_refl)), (V' (m_weight m') (or_introl eq_refl)). split; [tauto|reflexivity].
    + unfold bcell. rewrite E, E'. split; [split; discriminate|exact C].
  - intros [I C]. destruct B as [B|(w & E & L)], B' as [B'|(w' & E' & L')].
    + left. auto.
    + exfalso. rewrite (B (m_weight m) (or_introl eq_refl)), E' in I. destruct I as [I _]. discriminate (I eq_refl).
    + exfalso. rewrite (B' (m_weight m') (or_introl eq_refl)), E in I. destruct I as [_ I]. discriminate (I eq_refl).
    + right. exists w, w'. split; [exact E|]. split; [exact E'|]. split; [exact L|]. split; [exact L'|]. intros i j Hi Hj.
      specialize (C i j Hi Hj). unfold bcell in C. rewrite E, E' in C. exact C.
Qed.

Lemma same_at_grad m m' pa pa' qa qa' :
  (forall p, p_grad (qa p) = p_grad (pa p)) -> (forall p, p_grad (qa' p) = p_grad (pa' p)) ->
  same_at p_grad m m' pa pa' -> same_at p_grad m m' qa qa'.
Proof.
  intros E E' [[V V']|(w & w' & H & H' & C)].
  - left. split; intros p Hp; rewrite ?E, ?E'; auto.
  - right. exists w, w'. rewrite E, E'. split; [exact H|]. split; [exact H'|]. cbv zeta in *.
    assert (X : bias_of p_grad m qa = bias_of p_grad m pa) by (unfold bias_of; destruct (m_bias m); [apply E|reflexivity]).
    assert (X' : bias_of p_grad m' qa' = bias_of p_grad m' pa') by (unfold bias_of; destruct (m_bias m'); [apply E'|reflexivity]).
    unfold bias_of in X, X'. cbv beta. rewrite X, X'. exact C.
Qed.

Lemma step_pars_same g g' m m' w b w' b' st st' dK dC :
  same_settings g g' ->
  preconditioner_dims (m_layer m) = Ok (dK, dC) -> preconditioner_dims (m_layer m') = Ok (dK, dC) ->
  NoDup (mod_params m) -> NoDup (mod_params m') -> bias_fits m -> bias_fits m' ->
  same_params m m' (s_par st) (s_par st') -> same_matrix (m_layer m) w b (m_layer m') w' b' ->
  exists pa pa', step_pars g m w b st = (set_par pa st, Ok tt) /\ step_pars g' m' w' b' st' = (set_par pa' st', Ok tt) /\
    same_params m m' pa pa' /\
    (forall p, ~ In p (mod_params m) -> pa p = s_par st p) /\ (forall p, ~ In p (mod_params m') -> pa' p = s_par st' p).
Proof.
  intros G D D' N N' B B' SP (L & L' & C). pose proof (dims_width _ _ _ D) as (S & W & O). pose proof (dims_width _ _ _ D') as (S' & W' & O').
  destruct (nice_same m m' _ _ N N' B B' S S' SP) as [NI NI'].
  destruct (step_pars_nice g m w b st NI L) as (pa & E & NI1 & K1 & G1 & R1).
  destruct (step_pars_nice g' m' w' b' st' NI' L') as (pa' & E' & NI1' & K1' & G1' & R1').
  exists pa, pa'. split; [exact E|]. split; [exact E'|]. split; [|auto].
  destruct SP as (SV & SG & SB). pose proof (proj1 (same_vcell _ _ _ _ NI NI') SV) as CV. pose proof (proj1 (same_bcell _ _ _ _ NI NI') SB) as [IB CB].
  unfold same_settings in G. rewrite G in R1'. cbn [with_params g_momentum g_lr g_wd] in R1'. rewrite O, W in *. rewrite O', W' in *.
  destruct (feqb (g_momentum g) 0).
  - destruct R1 as [BB VV], R1' as [BB' VV']. split; [|split].
    + apply same_vcell; [assumption|assumption|]. rewrite O, W. intros i j Hi Hj. rewrite VV, VV', CV, C by assumption. reflexivity.
    + apply (same_at_grad _ _ (s_par st) (s_par st')); assumption.
    + apply same_bcell; [assumption|assumption|]. rewrite O, W, BB, BB'. split; [exact IB|]. intros i j Hi Hj.
      assert (X : forall mm qa ra, (forall p, p_buf (qa p) = p_buf (ra p)) -> bcell mm qa i j = bcell mm ra i j).
      { intros mm qa ra H. unfold bcell, bias_of. rewrite H. destruct (m_bias mm); [rewrite H|]; reflexivity. }
      rewrite (X m pa (s_par st) BB), (X m' pa' (s_par st') BB'). apply CB; assumption.
  - destruct R1 as (BN & BB & VV), R1' as (BN' & BB' & VV').
    assert (CB2 : forall i j, (i < dC)%nat -> (j < dK)%nat -> bcell m pa i j = bcell m' pa' i j).
    { intros i j Hi Hj. rewrite BB, BB', CV, CB, C by assumption. reflexivity. }
    split; [|split].
    + apply same_vcell; [assumption|assumption|]. rewrite O, W. intros i j Hi Hj. rewrite VV, VV', CV, CB2 by assumption. reflexivity.
    + apply (same_at_grad _ _ (s_par st) (s_par st')); assumption.
    + apply same_bcell; [assumption|assumption|]. rewrite O, W. split; [split; intros X; [destruct (BN X)|destruct (BN' X)]|exact CB2].
Qed.

(** ** The relation between the two runs *)

Section Runs.
Variable (r : rewriting) (c c' : cfg).

(** What a rewriting must satisfy. *)
Record sound (ms : list modul) : Prop := mkSound {
  so_key : forall m, In m ms -> m_key (r_mod r m) = m_key m;
  so_weight : forall m, In m ms -> m_weight (r_mod r m) = m_weight m;
  so_dims : forall m, In m ms -> preconditioner_dims (m_layer (r_mod r m)) = preconditioner_dims (m_layer m);
  so_bias : forall m, In m ms -> bias_fits (r_mod r m);
  so_in : forall m x g ka, In m ms -> fits (m_layer m) x g -> process_input (r_in r m x) (m_layer (r_mod r m)) ka = process_input x (m_layer m) ka;
  so_out : forall m x g la ka, In m ms -> fits (m_layer m) x g -> process_grad_output (r_out r m g) (m_layer (r_mod r m)) la ka = process_grad_output g (m_layer m) la ka
}.

Hypothesis SO : sound (c_mods c).
Hypothesis MODS : c_mods c' = map (r_mod r) (c_mods c).
Hypothesis P2G : forall m, In m (c_mods c) -> c_p2g c' (m_weight m) = c_p2g c (m_weight m).
Hypothesis OK : cfg_ok c.
Hypothesis OK' : cfg_ok c'.
Hypothesis BF : forall m, In m (c_mods c) -> bias_fits m.
Variable ty : tys.
Hypothesis TO : tys_ok c ty.

Record sim (own : nat -> option modul) (s t : state) : Prop := mkSim {
  si_steps : s_steps t = s_steps s;
  si_scales : s_scales t = s_scales s;
  si_slots : forall k, s_slots t k = s_slots s k;
  si_groups : Forall2 same_settings (s_groups s) (s_groups t);
  si_amp : s_amp t = s_amp s;
  si_inf : s_inf t = s_inf s;
  si_log : s_log t = s_log s;
  si_pend : forall out, match s_pend s out with
    | Some (m, x) => own out = Some m /\ s_pend t out = Some (r_mod r m, r_in r m x)
    | None => s_pend t out = None end;
  si_par : forall m, In m (c_mods c) -> same_params m (r_mod r m) (s_par s) (s_par t)
}.

Lemma dims_of m : In m (c_mods c) -> exists dK dC, preconditioner_dims (m_layer m) = Ok (dK, dC) /\ preconditioner_dims (m_layer (r_mod r m)) = Ok (dK, dC).
Proof.
  intros Hm. pose proof (TO m Hm) as T. destruct (ty m) as [[[cK cC] dK] dC]. destruct T as (_ & _ & E). exists dK, dC. split; [exact E|].
  rewrite (so_dims _ SO m Hm). exact E.
Qed.

Lemma group_sim m gs gs' : In m (c_mods c) -> Forall2 same_settings gs gs' ->
  match get_group c gs m, get_group c' gs' (r_mod r m) with Ok g, Ok g' => same_settings g g' | Err e, Err e' => e = e' | _, _ => False end.
Proof.
  intros Hm H. destruct (dims_of m Hm) as (dK & dC & D & D'). apply dims_supported in D, D'. unfold get_group, supported in *. rewrite (so_weight _ SO m Hm), (P2G m Hm).
  destruct (m_layer m); try congruence; (destruct (m_layer (r_mod r m)); try congruence); (destruct (c_p2g c (m_weight m)) as [i|]; [|reflexivity]);
    (revert i; induction H as [|g g' gs gs' E H IH]; intros [|i]; cbn; [reflexivity|reflexivity|exact E|apply IH]).
Qed.

Lemma update_slots_sim g g' l l' n sc : same_settings g g' -> preconditioner_dims l' = preconditioner_dims l -> update_slots g' l' n sc = update_slots g l n sc.
Proof. intros -> E. unfold update_slots, new_momenta. rewrite E. reflexivity. Qed.

Lemma sim_slots own s t k v : sim own s t -> sim own (set_slots (upd (s_slots s) k v) s) (set_slots (upd (s_slots t) k v) t).
Proof.
  intros [H1 H2 H3 H4 H5 H6 H7 H8 H9]. constructor; cbn; try assumption. intros k'. unfold upd. destruct (Nat.eqb k' k); [reflexivity|apply H3].
Qed.

Lemma on_slots_sim {A} own s t k (f : SM slots A) : sim own s t ->
  sim own (fst (on_slots k f s)) (fst (on_slots k f t)) /\ snd (on_slots k f t) = snd (on_slots k f s).
Proof.
  intros H. unfold on_slots. rewrite (si_slots _ _ _ H k). destruct (f (s_slots s k)) as [v q]. cbn. split; [apply sim_slots; exact H|reflexivity].
Qed.

Lemma update_sim own s t m : In m (c_mods c) -> sim own s t ->
  sim own (fst (update_preconditioner c m s)) (fst (update_preconditioner c' (r_mod r m) t)) /\
  snd (update_preconditioner c' (r_mod r m) t) = snd (update_preconditioner c m s).
Proof.
  intros Hm H. unfold update_preconditioner, sbind, getS, lift. pose proof (group_sim m _ _ Hm (si_groups _ _ _ H)) as G.
  destruct (get_group c (s_groups s) m) as [g|], (get_group c' (s_groups t) (r_mod r m)) as [g'|]; try contradiction; [|subst; split; [exact H|reflexivity]].
  rewrite (so_key _ SO m Hm), (update_slots_sim g g' _ _ _ _ G (so_dims _ SO m Hm)), (si_steps _ _ _ H), (si_scales _ _ _ H).
  apply on_slots_sim. exact H.
Qed.

Lemma nodup_mod m : In m (c_mods c) -> NoDup (mod_params m) /\ NoDup (mod_params (r_mod r m)).
Proof.
  assert (X : forall l : list modul, NoDup (flat_map mod_params l) -> forall q, In q l -> NoDup (mod_params q)).
  { induction l as [|a l IH]; intros N q Hq; [destruct Hq|]. cbn [flat_map] in N. destruct Hq as [->|Hq].
    - exact (nodup_l _ _ N).
    - apply IH; [exact (nodup_r _ _ N)|exact Hq]. }
  intros Hm. split; [apply (X _ (proj2 OK) m Hm)|]. apply (X _ (proj2 OK')). rewrite MODS. apply in_map. exact Hm.
Qed.

Lemma apart_pars : forall m q p, In m (c_mods c) -> In q (c_mods c) -> m <> q -> In p (mod_params m) -> ~ In p (mod_params q).
Proof.
  intros m q p Hm Hq N Hp Hp'. apply in_split in Hm as (l1 & l2 & E). destruct OK as [NK NP]. rewrite E in NK, NP.
  assert (Hq' : In q l1 \/ In q l2). { rewrite E in Hq. apply in_app_iff in Hq as [Hq|[Hq|Hq]]; [auto|congruence|auto]. }
  destruct (nodup_apart l1 l2 m NK NP q Hq') as [_ A]. exact (A p Hp Hp').
Qed.
Lemma apart_pars' : forall m q p, In m (c_mods c) -> In q (c_mods c) -> m <> q -> In p (mod_params (r_mod r m)) -> ~ In p (mod_params (r_mod r q)).
Proof.
  intros m q p Hm Hq N Hp Hp'. apply in_split in Hm as (l1 & l2 & E). destruct OK' as [NK NP]. rewrite MODS, E, map_app in NK, NP. cbn [map] in NK, NP.
  assert (Hq' : In (r_mod r q) (map (r_mod r) l1) \/ In (r_mod r q) (map (r_mod r) l2)).
  { rewrite E in Hq. apply in_app_iff in Hq as [Hq|[Hq|Hq]]; [left; apply in_map; exact Hq|congruence|right; apply in_map; exact Hq]. }
  destruct (nodup_apart _ _ _ NK NP _ Hq') as [_ A]. exact (A p Hp Hp').
Qed.

Lemma same_at_frame sel m m' pa pa' qa qa' :
  (forall p, In p (mod_params m) -> qa p = pa p) -> (forall p, In p (mod_params m') -> qa' p = pa' p) ->
  same_at sel m m' pa pa' -> same_at sel m m' qa qa'.
Proof.
  intros E E' [[V V']|(w & w' & H & H' & C)].
  - left. split; intros p Hp; rewrite ?E, ?E' by exact Hp; auto.
  - right. exists w, w'. rewrite E, E' by (left; reflexivity). split; [exact H|]. split; [exact H'|]. cbv zeta in *.
    assert (X : match m_bias m with Some p => sel (qa p) | None => None end = match m_bias m with Some p => sel (pa p) | None => None end).
    { destruct (m_bias m) as [p|] eqn:Ep; [|reflexivity]. rewrite E; [reflexivity|]. unfold mod_params. rewrite Ep. right. left. reflexivity. }
    assert (X' : match m_bias m' with Some p => sel (qa' p) | None => None end = match m_bias m' with Some p => sel (pa' p) | None => None end).
    { destruct (m_bias m') as [p|] eqn:Ep; [|reflexivity]. rewrite E'; [reflexivity|]. unfold mod_params. rewrite Ep. right. left. reflexivity. }
    cbv beta. rewrite X, X'. exact C.
Qed.

Lemma sim_pars own s t m pa pa' : In m (c_mods c) -> sim own s t -> same_params m (r_mod r m) pa pa' ->
  (forall p, ~ In p (mod_params m) -> pa p = s_par s p) -> (forall p, ~ In p (mod_params (r_mod r m)) -> pa' p = s_par t p) ->
  sim own (set_par pa s) (set_par pa' t).
Proof.
  intros Hm [H1 H2 H3 H4 H5 H6 H7 H8 H9] SP F F'. constructor; cbn; try assumption.
  intros q Hq. destruct (same_key (c_mods c) m q (proj1 OK) Hm Hq) as [D| ->]; [|exact SP]. assert (N : q <> m) by congruence. destruct (H9 q Hq) as (A1 & A2 & A3).
  split; [|split]; (eapply same_at_frame; [| |eassumption]); intros p Hp; (apply F || apply F');
    solve [eapply (apart_pars q m); eassumption | eapply (apart_pars' q m); eassumption].
Qed.

Lemma grads_sim m cur K C pa pa' : In m (c_mods c) -> bias_fits m -> same_at p_grad m (r_mod r m) pa pa' ->
  let ng mm qa := nat_grad_matrix (m_layer mm) (grad_data (qa (m_weight mm))) (option_map (fun b => grad_data (qa b)) (m_bias mm)) cur K C in
  ng (r_mod r m) pa' = ng m pa /\
  forall N cK cC dK dC, ng m pa = Ok N -> preconditioner_dims (m_layer m) = Ok (dK, dC) -> usable cK dK -> usable cC dC ->
    (forall k, K = Ok k -> valid cK dK k) -> (forall k, C = Ok k -> valid cC dC k) -> shape N = [dC; dK].
Proof.
  intros Hm B SG ng. destruct (dims_of m Hm) as (dK & dC & D & D'). unfold ng. pose proof (so_bias _ SO m Hm) as B'.
  destruct SG as [[V V']|(w & w' & E & E' & C1)].
  - unfold nat_grad_matrix, grad_data. rewrite (V (m_weight m) (or_introl eq_refl)), (V' _ (or_introl eq_refl)). cbn [bind]. split; [reflexivity|discriminate].
  - cbv zeta in C1. destruct (grad_matrix_same _ _ _ _ _ _ dK dC D D' C1) as (M & EM & EM' & SM).
    assert (X : forall mm ll qa q bm, bias_fits mm -> ll = m_layer mm -> p_grad (qa (m_weight mm)) = Some q ->
       bm = bias_of p_grad mm qa -> match bm with Some b => has_bias ll = true /\ shape b = [n_out ll] | None => has_bias ll = false end ->
       nat_grad_matrix ll (grad_data (qa (m_weight mm))) (option_map (fun b => grad_data (qa b)) (m_bias mm)) cur K C = nat_grad_matrix ll (Ok q) (option_map Ok bm) cur K C).
    { intros mm ll qa q bm Bm -> Eq -> Fb. unfold grad_data at 1. rewrite Eq. f_equal. unfold bias_of in *. unfold bias_fits in Bm. destruct (m_bias mm) as [p|]; [|reflexivity].
      cbn. unfold grad_data. destruct (p_grad (qa p)); [reflexivity|congruence]. }
    pose proof C1 as ((_ & Fb) & (_ & Fb') & _). rewrite (X m _ pa w _ B eq_refl E eq_refl Fb), (X (r_mod r m) _ pa' w' _ B' eq_refl E' eq_refl Fb').
    split.
    + unfold nat_grad_matrix. cbn [bind]. unfold bias_of.
      assert (Y : forall o : option tensor, match option_map Ok o with None => Ok None | Some b => let* b := b in Ok (Some b) end = Ok o) by (intros [?|]; reflexivity).
      rewrite !Y. cbn [bind]. rewrite EM, EM'. reflexivity.
    + intros N cK cC dK0 dC0 EN D0 UK UC VK VC. rewrite D in D0. injection D0 as <- <-.
      destruct cur as [cu|]; destruct K as [k|]; destruct C as [kc|];
        try (unfold nat_grad_matrix in EN; repeat (apply bind_ok in EN as (? & ? & EN)); discriminate).
      unfold bias_of in EN. rewrite (nat_grad_any _ _ _ cu k kc cK cC dK dC M EM SM UK UC (VK _ eq_refl) (VC _ eq_refl)) in EN. injection EN as <-. reflexivity.
Qed.

Lemma step_module_view cc m s :
  step_module cc m s =
  match update_preconditioner cc m s with
  | (s1, Err e) => (s1, Err e)
  | (s1, Ok _) =>
      match nat_grad_matrix (m_layer m) (grad_data (s_par s1 (m_weight m))) (option_map (fun b => grad_data (s_par s1 b)) (m_bias m))
              (get_grad_scale (s_scales s1) (Z.of_nat (s_steps s1))) (lookup (sl_K (s_slots s1 (m_key m)))) (lookup (sl_C (s_slots s1 (m_key m)))) with
      | Err e => (s1, Err e)
      | Ok N =>
          match split_matrix (m_layer m) N with
          | Err e => (s1, Err e)
          | Ok (w, b) =>
              match get_group cc (s_groups s1) m with
              | Err e => (s1, Err e)
              | Ok g => step_pars g m w b s1
              end
          end
      end
  end.
Proof.
  unfold step_module, compute_natural_gradient, step_pars, sbind, getS, lift. destruct (update_preconditioner cc m s) as [s1 [[]|e]]; [|reflexivity].
  cbv beta iota zeta. destruct (nat_grad_matrix _ _ _ _ _ _) as [N|]; [|reflexivity]. destruct (split_matrix _ _) as [[w b]|]; [|reflexivity].
  destruct (get_group cc (s_groups s1) m); reflexivity.
Qed.

Lemma step_module_sim own s t m : In m (c_mods c) -> mod_typed ty m s -> sim own s t ->
  sim own (fst (step_module c m s)) (fst (step_module c' (r_mod r m) t)) /\ snd (step_module c' (r_mod r m) t) = snd (step_module c m s).
Proof.
  intros Hm T H. destruct (update_sim own s t m Hm H) as [H1 E1].
  assert (T1 : mod_typed ty m (fst (update_preconditioner c m s))).
  { unfold update_preconditioner, sbind, getS, lift. destruct (get_group c (s_groups s) m) as [g|]; [|exact T]. unfold on_slots.
    destruct (update_slots g (m_layer m) (s_steps s) (s_scales s) (s_slots s (m_key m))) as [sl q] eqn:Eu. cbn [fst].
    unfold mod_typed in *. pose proof (TO m Hm) as TOm. destruct (ty m) as [[[cK cC] dK] dC]. destruct TOm as (UK & UC & Ed).
    cbn [s_slots set_slots]. rewrite upd_eq. pose proof (update_slots_typed g (m_layer m) (s_steps s) (s_scales s) _ cK cC dK dC UK UC Ed T) as [X _]. rewrite Eu in X. exact X. }
  rewrite !step_module_view.
  destruct (update_preconditioner c m s) as [s1 q1], (update_preconditioner c' (r_mod r m) t) as [t1 q1']. cbn [fst snd] in *. subst q1'.
  destruct q1 as [[]|]; [|split; [exact H1|reflexivity]]. clear H T s t. rename s1 into s, t1 into t, H1 into H.
  destruct (si_par _ _ _ H m Hm) as (SV & SG & SB).
  destruct (grads_sim m (get_grad_scale (s_scales s) (Z.of_nat (s_steps s))) (lookup (sl_K (s_slots s (m_key m)))) (lookup (sl_C (s_slots s (m_key m)))) _ _ Hm (BF m Hm) SG) as [EN SN].
  cbv zeta in EN, SN. rewrite (so_key _ SO m Hm), (si_slots _ _ _ H), (si_steps _ _ _ H), (si_scales _ _ _ H). rewrite EN.
  destruct (nat_grad_matrix (m_layer m) _ _ _ _ _) as [N|]; [|split; [exact H|reflexivity]].
  destruct (dims_of m Hm) as (dK & dC & D & D').
  assert (SHN : shape N = [dC; dK]).
  { unfold mod_typed in T1. pose proof (TO m Hm) as TOm. destruct (ty m) as [[[cK cC] dK0] dC0]. destruct TOm as (UK & UC & Ed). rewrite D in Ed. injection Ed as <- <-.
    apply (SN N cK cC dK dC eq_refl D UK UC); destruct T1 as [(K & EK & VK) (C & EC & VC) _ _ _ _]; intros k E; rewrite ?EK, ?EC in E; injection E as <-; assumption. }
  destruct (split_same _ _ N dK dC D D' SHN) as (w & b & w' & b' & ES & ES' & SM). rewrite ES, ES'.
  pose proof (group_sim m _ _ Hm (si_groups _ _ _ H)) as G.
  destruct (get_group c (s_groups s) m) as [g|], (get_group c' (s_groups t) (r_mod r m)) as [g'|]; try contradiction; [|subst; split; [exact H|reflexivity]].
  destruct (nodup_mod m Hm) as [ND ND'].
  destruct (step_pars_same g g' m (r_mod r m) w b w' b' s t dK dC G D D' ND ND' (BF m Hm) (so_bias _ SO m Hm) (si_par _ _ _ H m Hm) SM) as (pa & pa' & E2 & E2' & SP & F & F').
  rewrite E2, E2'. cbn [fst snd]. split; [|reflexivity]. apply (sim_pars own s t m); assumption.
Qed.

Lemma steps_sim own l : forall s t, incl l (c_mods c) -> (forall m, In m (c_mods c) -> mod_typed ty m s) -> sim own s t ->
  sim own (fst (forS (step_module c) l s)) (fst (forS (step_module c') (map (r_mod r) l) t)) /\
  snd (forS (step_module c') (map (r_mod r) l) t) = snd (forS (step_module c) l s).
Proof.
  induction l as [|m l IH]; intros s t I T H; [split; [exact H|reflexivity]|]. cbn [forS map]. unfold sbind.
  assert (Hm : In m (c_mods c)) by (apply I; left; reflexivity).
  destruct (step_module_sim own s t m Hm (T m Hm) H) as [H1 E1].
  assert (T1 : forall q, In q (c_mods c) -> mod_typed ty q (fst (step_module c m s))).
  { intros q Hq. apply (step_module_ty c ty q m TO Hq (same_key _ q m (proj1 OK) Hq Hm) s). apply T. exact Hq. }
  destruct (step_module c m s) as [s1 q1], (step_module c' (r_mod r m) t) as [t1 q1']. cbn [fst snd] in *. subst q1'.
  destruct q1 as [[]|]; [|split; [exact H1|reflexivity]]. apply IH; [|exact T1|exact H1]. intros x Hx. apply I. right. exact Hx.
Qed.

Lemma set_scale_sim own v s t : sim own s t ->
  sim own (fst (set_current_grad_scale v s)) (fst (set_current_grad_scale v t)) /\ snd (set_current_grad_scale v t) = snd (set_current_grad_scale v s).
Proof.
  intros H. pose proof H as [H1 H2 H3 H4 H5 H6 H7 H8 H9]. unfold set_current_grad_scale, sbind, getS, modify, lift, ret. rewrite H1, H2.
  assert (X : forall d, sim own (set_scales d s) (set_scales d t)) by (intros d; constructor; cbn; auto).
  destruct (Nat.eqb (s_steps s) 0); [|split; [apply X|reflexivity]]. destruct (get_grad_scale _ (-1)); [|split; [apply X|reflexivity]].
  destruct (get_grad_scale _ 0); [|split; [apply X|reflexivity]]. destruct (_ && _)%bool; (split; [|reflexivity]); [|apply X].
  constructor; cbn; auto. rewrite H7. reflexivity.
Qed.

Lemma ensure_sim own s t : sim own s t ->
  sim own (fst (ensure_scale s)) (fst (ensure_scale t)) /\ snd (ensure_scale t) = snd (ensure_scale s).
Proof.
  intros H. pose proof H as [H1 H2 H3 H4 H5 H6 H7 H8 H9]. unfold ensure_scale, sbind, getS. rewrite H1, H2, H5.
 
  destruct (get_grad_scale _ _); [split; [exact H|reflexivity]|]. destruct (s_amp s) as [[v|]|]; [apply set_scale_sim; exact H|split; [exact H|reflexivity]|apply set_scale_sim; exact H].
Qed.

Lemma finish_sim own s t : sim own s t -> sim own (finish s) (finish t).
Proof. intros [H1 H2 H3 H4 H5 H6 H7 H8 H9]. constructor; cbn; auto; congruence. Qed.

Lemma drop_sim own s t : sim own s t -> sim own (drop_H c s) (drop_H c' t).
Proof.
  intros [H1 H2 H3 H4 H5 H6 H7 H8 H9]. constructor; cbn; auto. intros k. rewrite H3, MODS.
  assert (X : forall l, incl l (c_mods c) -> existsb (fun m => Nat.eqb (m_key m) k) (map (r_mod r) l) = existsb (fun m => Nat.eqb (m_key m) k) l).
  { induction l as [|a l IH]; intros I; [reflexivity|]. cbn. rewrite IH by (intros q Hq; apply I; right; exact Hq). rewrite (so_key _ SO a) by (apply I; left; reflexivity). reflexivity. }
  rewrite X by (intros q Hq; exact Hq). reflexivity.
Qed.

Lemma step_sim own closure s t : (forall m, In m (c_mods c) -> mod_typed ty m s) -> sim own s t ->
  sim own (fst (step c closure s)) (fst (step c' closure t)) /\ snd (step c' closure t) = snd (step c closure s).
Proof.
  intros T H. unfold step. destruct closure; [split; [exact H|reflexivity]|]. destruct (ensure_sim own s t H) as [H1 E1].
  assert (T1 : forall m, In m (c_mods c) -> mod_typed ty m (fst (ensure_scale s))).
  { intros m Hm. destruct (ensure_scale s) as [s1 q1] eqn:E. apply ensure_scale_frame in E as ((_ & E & _) & _). unfold mod_typed. cbn [fst]. rewrite E. apply T. exact Hm. }
  unfold sbind. destruct (ensure_scale s) as [s1 q1], (ensure_scale t) as [t1 q1']. cbn [fst snd] in *. subst q1'. destruct q1 as [[]|]; [|split; [exact H1|reflexivity]].
  unfold getS. rewrite (si_inf _ _ _ H1). destruct (s_inf s1).
  - cbn [modify fst snd]. split; [|reflexivity]. apply finish_sim. apply drop_sim. destruct H1 as [G1 G2 G3 G4 G5 G6 G7 G8 G9]. constructor; cbn; auto. rewrite G7. reflexivity.
  - destruct (steps_sim own (c_mods c) s1 t1 (fun q Hq => Hq) T1 H1) as [H2 E2]. unfold step_all. rewrite MODS.
    destruct (forS (step_module c) (c_mods c) s1) as [s2 q2], (forS (step_module c') (map (r_mod r) (c_mods c)) t1) as [t2 q2']. cbn [fst snd] in *. subst q2'.
    destruct q2 as [[]|]; [|split; [exact H2|reflexivity]]. cbn [modify fst snd]. split; [|reflexivity]. apply finish_sim. exact H2.
Qed.

Definition owned (own : nat -> option modul) (e : event) : nat -> option modul :=
  match e with EForward m _ _ out => upd own out (Some m) | _ => own end.

Lemma forward_sim own s t m x b out : In m (c_mods c) -> sim own s t ->
  sim (upd own out (Some m)) (fst (forward_hook c m x b out s)) (fst (forward_hook c' (r_mod r m) (r_in r m x) b out t)) /\
  snd (forward_hook c' (r_mod r m) (r_in r m x) b out t) = snd (forward_hook c m x b out s).
Proof.
  intros Hm [H1 H2 H3 H4 H5 H6 H7 H8 H9]. pose proof (group_sim m _ _ Hm H4) as G. unfold forward_hook, sbind, getS, modify, lift, ret.
  cbn [s_steps s_groups s_pend set_pend].
  assert (P0 : sim (upd own out (Some m)) (set_pend (upd (s_pend s) out None) s) (set_pend (upd (s_pend t) out None) t)).
  { constructor; cbn; auto. intros o. unfold upd. destruct (Nat.eqb o out); [reflexivity|]. exact (H8 o). }
  assert (P1 : sim (upd own out (Some m)) (set_pend (upd (s_pend s) out (Some (m, x))) (set_pend (upd (s_pend s) out None) s))
     (set_pend (upd (s_pend t) out (Some (r_mod r m, r_in r m x))) (set_pend (upd (s_pend t) out None) t))).
  { constructor; cbn; auto. intros o. unfold upd. destruct (Nat.eqb o out); [split; reflexivity|]. exact (H8 o). }
  destruct (get_group c (s_groups s) m) as [g|], (get_group c' (s_groups t) (r_mod r m)) as [g'|]; try contradiction; [|subst; split; [exact P0|reflexivity]].
  destruct b; [|split; [exact P0|reflexivity]]. cbn [negb]. rewrite H1. unfold is_update_step. unfold same_settings in G. rewrite G. cbn [with_params g_T].
  destruct (Nat.eqb (g_T g) 0); [split; [exact P0|reflexivity]|]. destruct (Nat.eqb _ 0); split; try reflexivity; [exact P1|exact P0].
Qed.

Lemma backward_sim own s t out g : (forall m x, s_pend s out = Some (m, x) -> In m (c_mods c) /\ fits (m_layer m) x g) -> sim own s t ->
  sim own (fst (event_op c (EBackward out g) s)) (fst (event_op c' (EBackward out (match own out with Some m => r_out r m g | None => g end)) t)) /\
  snd (event_op c' (EBackward out (match own out with Some m => r_out r m g | None => g end)) t) = snd (event_op c (EBackward out g) s).
Proof.
  intros W H. pose proof (si_pend _ _ _ H out) as P. cbn [event_op]. unfold sbind at 1 3, getS at 1 3. unfold sbind at 1 2, getS at 1 2.
  destruct (s_pend s out) as [[m x]|] eqn:EP; [|rewrite P; split; [exact H|reflexivity]].
  destruct P as [-> ->]. destruct (W m x eq_refl) as [Hm FT]. pose proof (group_sim m _ _ Hm (si_groups _ _ _ H)) as G.
  unfold accumulate_H_terms, sbind, getS, lift.
  destruct (get_group c (s_groups s) m) as [gr|], (get_group c' (s_groups t) (r_mod r m)) as [gr'|]; try contradiction; [|subst; split; [exact H|reflexivity]].
  assert (E : forall prev sl, local_H gr' (m_layer (r_mod r m)) prev (r_in r m x) (r_out r m g) sl = local_H gr (m_layer m) prev x g sl).
  { intros prev sl. unfold local_H. unfold same_settings in G. rewrite G. cbn [with_params g_approx g_loss].
    rewrite (so_in _ SO m x g _ Hm FT), (so_out _ SO m x g _ _ Hm FT). reflexivity. }
  rewrite E, (so_key _ SO m Hm), (si_slots _ _ _ H), (si_steps _ _ _ H), (si_scales _ _ _ H).
  destruct (local_H _ _ _ _ _ _) as [[hk hc]|]; [|split; [exact H|reflexivity]]. apply on_slots_sim. exact H.
Qed.

Lemma grads_run cc m w b es s :
  exists pa, run cc (write_grads m w b ++ es) s = run cc es (set_par pa s) /\
    answers cc (write_grads m w b ++ es) s = answers cc es (set_par pa s) /\
    (wf_run cc (write_grads m w b ++ es) s -> wf_run cc es (set_par pa s)) /\
    (forall p, p_val (pa p) = p_val (s_par s p)) /\ (forall p, p_buf (pa p) = p_buf (s_par s p)) /\
    (forall p, ~ In p (mod_params m) -> pa p = s_par s p) /\
    (forall p, m_bias m = Some p -> p_grad (pa p) = b) /\ (NoDup (mod_params m) -> p_grad (pa (m_weight m)) = w).
Proof.
  unfold write_grads, mod_params. destruct (m_bias m) as [q|].
  - exists (upd (upd (s_par s) (m_weight m) (mkP (p_val (s_par s (m_weight m))) w (p_buf (s_par s (m_weight m))))) q
      (mkP (p_val (upd (s_par s) (m_weight m) (mkP (p_val (s_par s (m_weight m))) w (p_buf (s_par s (m_weight m)))) q)) b
           (p_buf (upd (s_par s) (m_weight m) (mkP (p_val (s_par s (m_weight m))) w (p_buf (s_par s (m_weight m)))) q)))).
    split; [reflexivity|]. split; [reflexivity|]. split; [intros (_ & _ & W); exact W|].
    split; [|split; [|split; [|split]]].
    + intros p. unfold upd. destruct (Nat.eqb_spec p q) as [->|]; cbn; [destruct (Nat.eqb_spec q (m_weight m)) as [->|]; reflexivity|destruct (Nat.eqb_spec p (m_weight m)) as [->|]; reflexivity].
    + intros p. unfold upd. destruct (Nat.eqb_spec p q) as [->|]; cbn; [destruct (Nat.eqb_spec q (m_weight m)) as [->|]; reflexivity|destruct (Nat.eqb_spec p (m_weight m)) as [->|]; reflexivity].
    + intros p Hp. rewrite !upd_neq; [reflexivity| |]; intros ->; apply Hp; cbn; auto.
    + intros p Ep. injection Ep as <-. rewrite upd_eq. reflexivity.
    + intros N. apply NoDup_cons_iff in N as [N _]. rewrite upd_neq by (intros E; apply N; left; congruence). rewrite upd_eq. reflexivity.
  - exists (upd (s_par s) (m_weight m) (mkP (p_val (s_par s (m_weight m))) w (p_buf (s_par s (m_weight m))))).
    split; [reflexivity|]. split; [reflexivity|]. split; [intros (_ & W); exact W|].
    split; [|split; [|split; [|split]]].
    + intros p. unfold upd. destruct (Nat.eqb_spec p (m_weight m)) as [->|]; reflexivity.
    + intros p. unfold upd. destruct (Nat.eqb_spec p (m_weight m)) as [->|]; reflexivity.
    + intros p Hp. rewrite upd_neq; [reflexivity|]; intros ->; apply Hp; cbn; auto.
    + discriminate.
    + intros _. rewrite upd_eq. reflexivity.
Qed.

Lemma same_at_sel sel m m' pa pa' qa qa' : (forall p, sel (qa p) = sel (pa p)) -> (forall p, sel (qa' p) = sel (pa' p)) ->
  same_at sel m m' pa pa' -> same_at sel m m' qa qa'.
Proof.
  intros E E' [[V V']|(w & w' & H & H' & C)].
  - left. split; intros p Hp; rewrite ?E, ?E'; auto.
  - right. exists w, w'. rewrite E, E'. split; [exact H|]. split; [exact H'|]. cbv zeta in *.
    assert (X : bias_of sel m qa = bias_of sel m pa) by (unfold bias_of; destruct (m_bias m); [apply E|reflexivity]).
    assert (X' : bias_of sel m' qa' = bias_of sel m' pa') by (unfold bias_of; destruct (m_bias m'); [apply E'|reflexivity]).
    unfold bias_of in X, X'. cbv beta. rewrite X, X'. exact C.
Qed.

Lemma write_sim own s t m pa pa' w b w' b' : In m (c_mods c) -> sim own s t ->
  (w = None /\ w' = None /\ b = None /\ b' = None \/ exists v v', w = Some v /\ w' = Some v' /\ same_matrix (m_layer m) v b (m_layer (r_mod r m)) v' b') ->
  (forall p, p_val (pa p) = p_val (s_par s p)) -> (forall p, p_buf (pa p) = p_buf (s_par s p)) -> (forall p, ~ In p (mod_params m) -> pa p = s_par s p) ->
  (forall p, m_bias m = Some p -> p_grad (pa p) = b) -> p_grad (pa (m_weight m)) = w ->
  (forall p, p_val (pa' p) = p_val (s_par t p)) -> (forall p, p_buf (pa' p) = p_buf (s_par t p)) -> (forall p, ~ In p (mod_params (r_mod r m)) -> pa' p = s_par t p) ->
  (forall p, m_bias (r_mod r m) = Some p -> p_grad (pa' p) = b') -> p_grad (pa' (m_weight (r_mod r m))) = w' ->
  sim own (set_par pa s) (set_par pa' t).
Proof.
  intros Hm H X V B F Gb Gw V' B' F' Gb' Gw'. apply (sim_pars own s t m); try assumption. destruct (si_par _ _ _ H m Hm) as (SV & _ & SB).
  split; [|split].
  - apply (same_at_sel _ _ _ (s_par s) (s_par t)); [intros p; rewrite V; reflexivity|intros p; rewrite V'; reflexivity|exact SV].
  - destruct X as [(-> & -> & -> & ->)|(v & v' & -> & -> & SM)].
    + left. split; intros p; unfold mod_params.
      * destruct (m_bias m) as [q|]; [intros [<-|[<-|[]]]; [exact Gw|apply Gb; reflexivity]|intros [<-|[]]; exact Gw].
      * destruct (m_bias (r_mod r m)) as [q|]; [intros [<-|[<-|[]]]; [exact Gw'|apply Gb'; reflexivity]|intros [<-|[]]; exact Gw'].
    + right. exists v, v'. split; [exact Gw|]. split; [exact Gw'|]. cbv zeta beta.
      pose proof (BF m Hm) as BM. pose proof (so_bias _ SO m Hm) as BM'. unfold bias_fits in BM, BM'. destruct SM as ([S1 S2] & [S1' S2'] & SC1).
      assert (Y : match m_bias m with Some p => p_grad (pa p) | None => None end = b).
      { destruct (m_bias m) as [q|]; [apply Gb; reflexivity|]. destruct b; [destruct S2; congruence|reflexivity]. }
      assert (Y' : match m_bias (r_mod r m) with Some p => p_grad (pa' p) | None => None end = b').
      { destruct (m_bias (r_mod r m)) as [q|]; [apply Gb'; reflexivity|]. destruct b'; [destruct S2'; congruence|reflexivity]. }
      rewrite Y, Y'. split; [split; assumption|]. split; [split; assumption|exact SC1].
  - apply (same_at_sel _ _ _ (s_par s) (s_par t)); [intros p; rewrite B; reflexivity|intros p; rewrite B'; reflexivity|exact SB].
Qed.

Theorem rewritten_sim own es es' : rewritten_calls r (c_mods c) own es es' -> forall s t,
  all_typed c ty s -> wf_run c es s -> sim own s t ->
  (exists own', sim own' (run c es s) (run c' es' t)) /\ answers c' es' t = answers c es s.
Proof.
  assert (ND : NoDup (map m_key (c_mods c))) by exact (proj1 OK).
  intros RC. induction RC as [own|own m x b out es es' RC IH|own out g es es' RC IH|own m w b w' b' es es' Hm SM RC IH|own m es es' Hm RC IH|own gs gs' es es' HG RC IH|own e es es' HP RC IH];
    intros s t TA W H.
  - split; [exists own; exact H|reflexivity].
  - destruct W as [W1 W2]. cbn [run answers]. destruct (forward_sim own s t m x b out W1 H) as [H1 E1]. cbn [event_op]. rewrite E1.
    destruct (IH _ _ (event_all_typed c ty _ s TO ND TA W1) W2 H1) as [I1 I2]. split; [exact I1|]. f_equal. exact I2.
  - destruct W as [W1 W2]. cbn [run answers].
    destruct (backward_sim own s t out g) as [H1 E1]; [|exact H|].
    { intros m x E. split; [exact (proj2 TA _ _ _ E)|exact (W1 m x E)]. }
    rewrite E1. destruct (IH _ _ (event_all_typed c ty _ s TO ND TA W1) W2 H1) as [I1 I2]. split; [exact I1|]. f_equal. exact I2.
  - destruct (grads_run c m (Some w) b es s) as (pa & -> & -> & WR & V & B & F & Gb & Gw).
    destruct (grads_run c' (r_mod r m) (Some w') b' es' t) as (pa' & -> & -> & _ & V' & B' & F' & Gb' & Gw').
    destruct (nodup_mod m Hm) as [N N']. apply IH.
    + exact TA.
    + apply WR. exact W.
    + apply (write_sim own s t m pa pa' (Some w) b (Some w') b'); auto. right. exists w, w'. auto.
  - destruct (grads_run c m None None es s) as (pa & -> & -> & WR & V & B & F & Gb & Gw).
    destruct (grads_run c' (r_mod r m) None None es' t) as (pa' & -> & -> & _ & V' & B' & F' & Gb' & Gw').
    destruct (nodup_mod m Hm) as [N N']. apply IH.
    + exact TA.
    + apply WR. exact W.
    + apply (write_sim own s t m pa pa' None None None None); auto.
  - destruct W as [W1 W2]. cbn [run answers event_op]. destruct (IH (set_groups gs s) (set_groups gs' t)) as [I1 I2].
    + exact TA.
    + exact W2.
    + destruct H as [H1 H2 H3 H4 H5 H6 H7 H8 H9]. constructor; cbn; auto.
    + split; [exact I1|]. cbn. f_equal. exact I2.
  - destruct W as [W1 W2]. assert (X : sim own (fst (event_op c e s)) (fst (event_op c' e t)) /\ snd (event_op c' e t) = snd (event_op c e s)).
    { destruct e; try contradiction.
      - apply set_scale_sim. exact H.
      - cbn. split; [|reflexivity]. destruct H as [H1 H2 H3 H4 H5 H6 H7 H8 H9]. constructor; cbn; auto.
      - apply step_sim; [apply TA|exact H]. }
    destruct X as [X1 X2]. destruct (IH _ _ (event_all_typed c ty _ s TO ND TA W1) W2 X1) as [I1 I2].
    destruct e; try contradiction; cbn [run answers]; rewrite X2; (split; [exact I1|]); f_equal; exact I2.
Qed.
End Runs.
End LayerSim.
