(** Proofs for C61: a NaN never disappears from the stored tensors, and a NaN in a dense preconditioner spreads. *)

From Coq Require Import List Arith Lia Bool ZArith.
From Verif Require Import Scalar Res Tensor TensorFacts Structures OptimUtils Optimizer OptState OptRun OptConsume OptStep OptPre UtilsFacts NanSpec.
Import ListNotations.
Open Scope nat_scope.

Section Nan.
Context {SC : Scalar} {AB : Absorbing SC}.

(** ** Tensors *)

Lemma nth_error_data (t : tensor) k x : nth_error (data t) k = Some x <-> k < prod (shape t) /\ nth k (data t) f0 = x.
Proof.
  pose proof (data_length t) as L. unfold numel in L. rewrite <- L. split.
  - intros H. split; [apply nth_error_Some; congruence|]. apply nth_error_nth. exact H.
  - intros [H <-]. apply nth_error_nth'. exact H.
Qed.

Lemma nth_tab s f k : k < prod s -> nth k (data (tab s f)) f0 = f (unflat s k).
Proof.
  intros H. cbn [tab data]. rewrite nth_indep with (d' := f (unflat s 0)) by (rewrite map_length, seq_length; exact H).
  rewrite (map_nth (fun k => f (unflat s k))). rewrite seq_nth by exact H. reflexivity.
Qed.

Lemma tget_unflat (t : tensor) k : k < prod (shape t) -> tget t (unflat (shape t) k) = nth k (data t) f0.
Proof.
  intros H. rewrite <- (tab_eta t _ eq_refl) at 3. rewrite nth_tab by exact H. reflexivity.
Qed.

(** NaN entries stay NaN. *)
Definition kept (t t' : tensor) : Prop := shape t' = shape t /\ forall k, nan_at t k -> nan_at t' k.

Lemma kept_refl t : kept t t.
Proof. split; [reflexivity|]. intros k H; exact H. Qed.
Lemma kept_trans a b c : kept a b -> kept b c -> kept a c.
Proof. intros [S1 H1] [S2 H2]. split; [congruence|]. intros k H. auto. Qed.

Lemma map_kept f t : f nan = nan -> kept t (t_map f t).
Proof.
  intros E. split; [reflexivity|]. intros k H. unfold nan_at in *. apply nth_error_data in H as [L H]. apply nth_error_data. split; [exact L|].
  unfold t_map. rewrite nth_tab by exact L. rewrite tget_unflat by exact L. rewrite H. exact E.
Qed.

Lemma map2_inv f a b t : t_map2 f a b = Ok t -> shape b = shape a /\ t = tab (shape a) (fun idx => f (tget a idx) (tget b idx)).
Proof.
  unfold t_map2. destruct (shape_eqb (shape a) (shape b)) eqn:E; [|discriminate]. intros H. injection H as <-.
  apply shape_eqb_eq in E. auto.
Qed.

Lemma map2_kept_l f a b t : (forall x, f nan x = nan) -> t_map2 f a b = Ok t -> kept a t.
Proof.
  intros E H. apply map2_inv in H as [S ->]. split; [cbn; congruence|]. intros k N. unfold nan_at in *. apply nth_error_data in N as [L N]. apply nth_error_data.
  split; [exact L|]. rewrite nth_tab by exact L. rewrite (tget_unflat a) by exact L. rewrite N. apply E.
Qed.

Lemma map2_kept_r f a b t : (forall x, f x nan = nan) -> t_map2 f a b = Ok t -> kept b t.
Proof.
  intros E H. apply map2_inv in H as [S ->]. split; [cbn; congruence|]. intros k N. unfold nan_at in *. apply nth_error_data in N as [L N]. apply nth_error_data.
  rewrite S in L. split; [exact L|]. rewrite nth_tab by exact L. rewrite <- S at 2. rewrite (tget_unflat b) by (rewrite S; exact L). rewrite N. apply E.
Qed.

Lemma add_alpha_kept_l a b al t : t_add_alpha a b al = Ok t -> kept a t.
Proof. apply map2_kept_l. intros. apply nan_add_l. Qed.
Lemma add_alpha_kept_r a b al t : t_add_alpha a b al = Ok t -> kept b t.
Proof. apply map2_kept_r. intros. rewrite nan_mul_r. apply nan_add_r. Qed.
Lemma add_kept_l a b t : t_add a b = Ok t -> kept a t.
Proof. apply map2_kept_l. intros. apply nan_add_l. Qed.
Lemma add_kept_r a b t : t_add a b = Ok t -> kept b t.
Proof. apply map2_kept_r. intros. apply nan_add_r. Qed.

(** ** Structured matrices *)

Definition skept (s s' : smat) : Prop := cls_of s' = cls_of s /\ Forall2 kept (tensors s) (tensors s').

Lemma skept_nan s s' i k : skept s s' -> nan_in s i k -> nan_in s' i k.
Proof.
  unfold skept, nan_in. intros [_ H] (t & Ht & N). revert i Ht. induction H; intros i Ht; [destruct i; discriminate|].
  destruct i; cbn in Ht; [injection Ht as ->; eexists; split; [reflexivity|apply H; exact N]|]. apply IHForall2. exact Ht.
Qed.

Lemma skept_refl s : skept s s.
Proof. split; [reflexivity|]. induction (tensors s); constructor; auto using kept_refl. Qed.

Lemma add_next_kept al t l t' l' : add_next al t l = Ok (t', l') -> kept t t'.
Proof.
  unfold add_next. destruct l; [intros H; injection H as <- <-; apply kept_refl|].
  intros H. apply bind_ok in H as (u & E & H). injection H as <- <-. exact (add_alpha_kept_l _ _ _ _ E).
Qed.

Ltac nx := match goal with H : bind _ _ = Ok _ |- _ => apply bind_ok in H as ([? ?] & ? & ?) end.

Lemma add_walk_kept al s : forall l s' l', add_walk al s l = Ok (s', l') -> skept s s'.
Proof.
  induction s; intros l s' l' H; cbn [add_walk] in H; repeat nx;
    match goal with H : Ok _ = Ok _ |- _ => injection H as <- <- end; (split; [reflexivity|]); cbn [tensors];
    repeat (apply Forall2_cons; [eapply add_next_kept; eassumption|]); try apply Forall2_nil.
  apply Forall2_app; [eapply IHs1|eapply IHs2]; eassumption.
Qed.

Lemma add_kept s o al s' : add_ s o al = Ok s' -> skept s s'.
Proof. unfold add_. intros H. apply bind_ok in H as ([u l] & E & H). injection H as <-. exact (add_walk_kept _ _ _ _ _ E). Qed.

(** ** Preconditioners *)

Definition okept (o o' : option smat) : Prop :=
  match o with Some s => exists s', o' = Some s' /\ skept s s' | None => True end.

Lemma okept_refl o : okept o o.
Proof. destruct o; cbn; eauto using skept_refl. Qed.

Lemma skept_trans a b c : skept a b -> skept b c -> skept a c.
Proof.
  unfold skept. intros [S1 H1] [S2 H2]. split; [congruence|]. clear S1 S2. revert c H2. generalize (tensors a) (tensors b) H1. clear. intros la lb H1 c. generalize (tensors c). clear c.
  induction H1; intros lc H2; inversion H2; subst; constructor; eauto using kept_trans.
Qed.

Lemma okept_trans a b c : okept a b -> okept b c -> okept a c.
Proof.
  destruct a as [a|]; [|intros; exact I]. intros (s & -> & H1) (s2 & -> & H2). exists s2. eauto using skept_trans.
Qed.

Definition kkept (s s' : slots) : Prop := okept (sl_K s) (sl_K s') /\ okept (sl_C s) (sl_C s').

Lemma kkept_refl s : kkept s s.
Proof. split; apply okept_refl. Qed.
Lemma kkept_trans a b c : kkept a b -> kkept b c -> kkept a c.
Proof. intros [H1 H2] [H3 H4]. split; eauto using okept_trans. Qed.

(** Either K and C do not change at all, or entries are added to theirs. *)
Lemma update_slots_kept g l n sc s s' r : update_slots g l n sc s = (s', r) -> kkept s s'.
Proof.
  intros H. unfold update_slots, sbind, lift, entry, modify, ret in H.
  destruct (is_update_step g n) as [[|]|]; cbn [negb] in H; try (injection H as <- <-; split; apply okept_refl).
  destruct (lookup (sl_K s)) as [K|] eqn:EK; [|injection H as <- <-; split; apply okept_refl].
  destruct (lookup (sl_C s)) as [C|] eqn:EC; [|injection H as <- <-; split; apply okept_refl].
  destruct (lookup (sl_HK s)) as [HK|]; [|injection H as <- <-; split; apply okept_refl]. cbn [set_HK sl_HC] in H.
  destruct (lookup (sl_HC s)) as [HC|]; [|injection H as <- <-; split; apply okept_refl].
  set (s1 := set_HC None (set_HK None s)) in H. change (set_HC None _) with s1 in H.
  assert (K1 : kkept s s1) by (split; apply okept_refl).
  destruct (get_grad_scale sc (Z.of_nat n - 1)); [|injection H as <- <-; exact K1].
  destruct (get_grad_scale sc (Z.of_nat n)); [|injection H as <- <-; exact K1].
  destruct (grad_unscaling _ _); [|injection H as <- <-; exact K1].
  destruct (new_momenta _ _ _ _ _ _ _) as [[mK mC]|]; [|injection H as <- <-; exact K1].
  destruct (apply_momenta g mK mC s1) as [s2 [[mK2 mC2]|]] eqn:EA.
  2:{ injection H as <- <-. unfold apply_momenta, sbind, lift, entry, modify, ret in EA.
      destruct (feqb (g_alpha1 g) f0); [discriminate|].
      destruct (lookup (sl_mC s1)); [|injection EA as <- _; exact K1]. destruct (add_ mC _ _); [|injection EA as <- _; exact K1].
      destruct (lookup (sl_mK s1)); [|injection EA as <- _; exact K1]. destruct (add_ mK _ _); [discriminate|injection EA as <- _; exact K1]. }
  assert (K2 : sl_K s2 = sl_K s /\ sl_C s2 = sl_C s).
  { unfold apply_momenta, sbind, lift, entry, modify, ret in EA.
      destruct (feqb (g_alpha1 g) f0); [injection EA as <- _ _; auto|].
      destruct (lookup (sl_mC s1)); [|discriminate]. destruct (add_ mC _ _); [|discriminate].
      destruct (lookup (sl_mK s1)); [|discriminate]. destruct (add_ mK _ _); [|discriminate]. injection EA as <- _ _. auto. }
  assert (EK' : sl_K s = Some K) by (destruct (sl_K s); cbn in EK; [injection EK as ->; reflexivity|discriminate]).
  assert (EC' : sl_C s = Some C) by (destruct (sl_C s); cbn in EC; [injection EC as ->; reflexivity|discriminate]).
  destruct K2 as [K2 C2].
  assert (K3 : kkept s s2) by (split; rewrite ?K2, ?C2; apply okept_refl).
  destruct (normalized_lr g _ mK2); [|injection H as <- <-; exact K3].
  destruct (normalized_lr g _ mC2); [|injection H as <- <-; exact K3].
  destruct (matmul_s K mK2); [|injection H as <- <-; exact K3].
  destruct (add_ K _ _) as [K'|] eqn:E1; [|injection H as <- <-; exact K3].
  assert (K4 : okept (sl_K s) (Some K')) by (rewrite EK'; exists K'; split; [reflexivity|exact (add_kept _ _ _ _ E1)]).
  destruct (matmul_s C mC2); [|injection H as <- <-; split; [exact K4|cbn; rewrite C2; apply okept_refl]].
  destruct (add_ C _ _) as [C'|] eqn:E2; [|injection H as <- <-; split; [exact K4|cbn; rewrite C2; apply okept_refl]].
  injection H as <- <-. split; [exact K4|]. rewrite EC'. exists C'. split; [reflexivity|]. exact (add_kept _ _ _ _ E2).
Qed.

Lemma store_H_kept HK HC s : kkept s (fst (store_H HK HC s)).
Proof.
  unfold store_H, sbind, lift, getS, modify.
  destruct (match sl_HK s with Some h => add_ h HK f1 | None => Ok HK end); [|split; apply okept_refl].
  cbn [fst]. destruct (match sl_HC s with Some h => add_ h HC f1 | None => Ok HC end); split; apply okept_refl.
Qed.

(** ** Parameters *)

Definition bkept (o o' : option tensor) : Prop :=
  match o with Some t => exists t', o' = Some t' /\ kept t t' | None => True end.
Lemma bkept_refl o : bkept o o.
Proof. destruct o; cbn; eauto using kept_refl. Qed.
Lemma bkept_trans a b c : bkept a b -> bkept b c -> bkept a c.
Proof. destruct a as [a|]; [|intros; exact I]. intros (s & -> & H1) (s2 & -> & H2). exists s2. eauto using kept_trans. Qed.

Definition pkept (p p' : pslot) : Prop := kept (p_val p) (p_val p') /\ bkept (p_buf p) (p_buf p').
Lemma pkept_refl p : pkept p p.
Proof. split; [apply kept_refl|apply bkept_refl]. Qed.
Lemma pkept_trans a b c : pkept a b -> pkept b c -> pkept a c.
Proof. intros [H1 H2] [H3 H4]. split; eauto using kept_trans, bkept_trans. Qed.

Lemma param_step_kept g d p p' r : param_step g d p = (p', r) -> pkept p p'.
Proof.
  unfold param_step, sbind, lift, getS, modify. intros H.
  destruct (if feqb (g_wd g) f0 then Ok d else t_add_alpha d (p_val p) (g_wd g)) as [d'|]; [|injection H as <- <-; apply pkept_refl].
  destruct (feqb (g_momentum g) f0).
  - destruct (t_add_alpha (p_val p) d' _) as [v|] eqn:E; [|injection H as <- <-; apply pkept_refl].
    injection H as <- <-. split; [exact (add_alpha_kept_l _ _ _ _ E)|apply bkept_refl].
  - set (b := t_scale (g_momentum g) _) in H. cbn [p_val p_grad p_buf] in H.
    assert (B : bkept (p_buf p) (Some b)).
    { destruct (p_buf p) as [b0|]; [|exact I]. exists b. split; [reflexivity|]. apply map_kept. apply nan_mul_r. }
    destruct (t_add b d') as [b'|] eqn:E; [|injection H as <- <-; split; [apply kept_refl|exact B]].
    assert (B' : bkept (p_buf p) (Some b')).
    { eapply bkept_trans; [exact B|]. exists b'. split; [reflexivity|]. exact (add_kept_l _ _ _ E). }
    destruct (t_add_alpha (p_val p) b' _) as [v|] eqn:E2; [|injection H as <- <-; split; [apply kept_refl|exact B']].
    injection H as <- <-. split; [exact (add_alpha_kept_l _ _ _ _ E2)|exact B'].
Qed.

(** ** All API calls *)

Definition stkept (s t : state) : Prop :=
  (forall k, kkept (s_slots s k) (s_slots t k)) /\ (forall p, pkept (s_par s p) (s_par t p)).

Lemma stkept_refl s : stkept s s.
Proof. split; intros; [apply kkept_refl|apply pkept_refl]. Qed.
Lemma stkept_trans a b c : stkept a b -> stkept b c -> stkept a c.
Proof. intros [H1 H2] [H3 H4]. split; intros; eauto using kkept_trans, pkept_trans. Qed.

Lemma stkept_same s t : s_slots t = s_slots s -> s_par t = s_par s -> stkept s t.
Proof. intros E1 E2. split; intros; rewrite ?E1, ?E2; [apply kkept_refl|apply pkept_refl]. Qed.

Lemma on_slots_kept A k (f : SM slots A) : (forall s s' r, f s = (s', r) -> kkept s s') -> keeps stkept (on_slots k f).
Proof.
  intros H st. unfold on_slots. destruct (f (s_slots st k)) as [s' r] eqn:E. cbn [fst set_slots]. split; [|intros; apply pkept_refl].
  intros k'. cbn. unfold upd. destruct (Nat.eqb k' k) eqn:Ek; [|apply kkept_refl]. apply Nat.eqb_eq in Ek as ->. eauto.
Qed.

Lemma on_par_kept A k (f : SM pslot A) : (forall s s' r, f s = (s', r) -> pkept s s') -> keeps stkept (on_par k f).
Proof.
  intros H st. unfold on_par. destruct (f (s_par st k)) as [s' r] eqn:E. cbn [fst set_par]. split; [intros; apply kkept_refl|].
  intros k'. cbn. unfold upd. destruct (Nat.eqb k' k) eqn:Ek; [|apply pkept_refl]. apply Nat.eqb_eq in Ek as ->. eauto.
Qed.

Ltac kb := apply keeps_bind; [exact stkept_trans| |].
Ltac kt := first [apply keeps_getS; apply stkept_refl | apply keeps_lift; apply stkept_refl | apply keeps_ret; apply stkept_refl | apply keeps_raise; apply stkept_refl].

Lemma step_module_kept c m : keeps stkept (step_module c m).
Proof.
  unfold step_module. kb.
  { unfold update_preconditioner. kb; [kt|]. intros st. kb; [kt|]. intros g. apply on_slots_kept. apply update_slots_kept. }
  intros _. kb. { unfold compute_natural_gradient. kb; [kt|]. intros st. kb; [kt|]. intros N. kt. }
  intros [w b]. kb; [kt|]. intros st. kb; [kt|]. intros g. kb; [apply on_par_kept; apply param_step_kept|].
  intros _. destruct (m_bias m); [|kt]. destruct b; [apply on_par_kept; apply param_step_kept|kt].
Qed.

Lemma scale_kept s : keeps stkept (set_current_grad_scale s).
Proof.
  unfold set_current_grad_scale. kb; [kt|]. intros st. kb; [apply keeps_modify; intros; apply stkept_same; reflexivity|]. intros _.
  destruct (Nat.eqb _ _); [|kt]. kb; [kt|]. intros a. kb; [kt|]. intros b. destruct (_ && _); [|kt].
  apply keeps_modify; intros; apply stkept_same; reflexivity.
Qed.

Lemma step_kept c b : keeps stkept (step c b).
Proof.
  unfold step. destruct b; [kt|]. kb.
  { unfold ensure_scale. kb; [kt|]. intros st. destruct (get_grad_scale _ _); [kt|]. destruct (s_amp st) as [[s|]|]; [apply scale_kept|kt|apply scale_kept]. }
  intros _. kb; [kt|]. intros st. kb.
  { destruct (s_inf st).
    - kb; [apply keeps_modify; intros; apply stkept_same; reflexivity|]. intros _. apply keeps_modify. intros s. split; [|intros; apply pkept_refl].
      intros k. cbn. destruct (existsb _ _); split; apply okept_refl.
    - apply keeps_forS; [exact stkept_refl|exact stkept_trans|]. intros m _. apply step_module_kept. }
  intros _. apply keeps_modify. intros s. apply stkept_same; reflexivity.
Qed.

Lemma event_kept c e : keeps stkept (event_op c e).
Proof.
  destruct e; cbn [event_op].
  - intros st. destruct (forward_frame c m x grad_on out st) as (E & _). rewrite E. apply stkept_same; reflexivity.
  - kb; [kt|]. intros st. destruct (s_pend st out) as [[m x]|]; [|kt]. unfold accumulate_H_terms. kb; [kt|]. intros st2. kb; [kt|]. intros g2.
    kb; [kt|]. intros [HK HC]. apply on_slots_kept. intros s s' r E. pose proof (store_H_kept HK HC s) as K. rewrite E in K. exact K.
  - apply keeps_modify. intros st. split; [intros; apply kkept_refl|]. intros q. cbn. unfold upd.
    destruct (Nat.eqb q p) eqn:E; [|apply pkept_refl]. apply Nat.eqb_eq in E as ->. split; [apply kept_refl|apply bkept_refl].
  - apply scale_kept.
  - apply keeps_modify. intros; apply stkept_same; reflexivity.
  - apply step_kept.
  - apply keeps_modify. intros; apply stkept_same; reflexivity.
Qed.

Lemma run_kept c es : forall st, stkept st (run c es st).
Proof.
  induction es as [|e es IH]; intros st; cbn [run]; [apply stkept_refl|]. eapply stkept_trans; [apply (event_kept c e st)|apply IH].
Qed.

(** ** Dense preconditioners *)

Lemma sum_nan n f i : i < n -> f i = nan -> sum n f = nan.
Proof.
  intros H E. induction n; [lia|]. cbn [sum]. destruct (Nat.eq_dec i n) as [->|D]; [rewrite E; apply nan_add_r|].
  rewrite IHn by lia. apply nan_add_l.
Qed.

(** All entries of the first [n] rows and [m] columns. *)
Definition nans (n m : nat) (t : tensor) : Prop := forall i j, i < n -> j < m -> get2 t i j = nan.

Lemma matmul_inv a b t : t_matmul a b = Ok t -> is2 a = true /\ is2 b = true /\ cols a = rows b /\ t = mm a b.
Proof.
  unfold t_matmul. destruct (is2 a && is2 b && Nat.eqb (cols a) (rows b)) eqn:E; [|discriminate]. intros H. injection H as <-.
  apply andb_true_iff in E as [E E3]. apply andb_true_iff in E as [E1 E2]. apply Nat.eqb_eq in E3. auto.
Qed.

Lemma get2_mm a b i j : i < rows a -> j < cols b -> get2 (mm a b) i j = sum (cols a) (fun k => fmul (get2 a i k) (get2 b k j)).
Proof. intros. unfold mm. rewrite get2_tab2 by assumption. reflexivity. Qed.
Lemma get2_tr a i j : i < cols a -> j < rows a -> get2 (tr a) i j = get2 a j i.
Proof. intros. unfold tr. rewrite get2_tab2 by assumption. reflexivity. Qed.
Lemma rows_mm a b : rows (mm a b) = rows a. Proof. reflexivity. Qed.
Lemma cols_mm a b : cols (mm a b) = cols b. Proof. reflexivity. Qed.
Lemma rows_tr a : rows (tr a) = cols a. Proof. reflexivity. Qed.
Lemma cols_tr a : cols (tr a) = rows a. Proof. reflexivity. Qed.

(** One NaN in a square matrix K makes every entry of K Kᵀ X NaN. *)
Lemma dense_spreads K n i j X Y Z :
  shape K = [n; n] -> i < n -> j < n -> get2 K i j = nan ->
  rmatmat (MDense K) X = Ok Y -> matmul_t (MDense K) Y = Ok Z ->
  shape Z = [n; cols X] /\ nans n (cols X) Z.
Proof.
  intros S Hi Hj N H1 H2. cbn in H1, H2. apply matmul_inv in H1 as (_ & X2 & HX & ->). apply matmul_inv in H2 as (_ & _ & _ & ->).
  pose proof (rows_of _ _ _ S) as R. pose proof (cols_of _ _ _ _ S) as Q.
  split; [rewrite <- R; reflexivity|]. intros a b Ha Hb. rewrite get2_mm by (rewrite ?R, ?cols_mm; assumption).
  rewrite Q. apply (sum_nan _ _ j Hj). rewrite get2_mm by (rewrite ?rows_tr, ?Q; assumption).
  rewrite cols_tr, R, (sum_nan _ _ i Hi); [apply nan_mul_r|]. rewrite get2_tr by (rewrite ?R, ?Q; assumption). rewrite N. apply nan_mul_l.
Qed.

(** A matrix of NaNs stays one. *)
Lemma dense_keeps C n X Y Z :
  shape C = [n; n] -> nans n (cols X) X -> rmatmat (MDense C) X = Ok Y -> matmul_t (MDense C) Y = Ok Z ->
  shape Z = [n; cols X] /\ nans n (cols X) Z.
Proof.
  intros S N H1 H2. cbn in H1, H2. apply matmul_inv in H1 as (_ & X2 & HX & ->). apply matmul_inv in H2 as (_ & _ & _ & ->).
  pose proof (rows_of _ _ _ S) as R. pose proof (cols_of _ _ _ _ S) as Q.
  split; [rewrite <- R; reflexivity|]. intros a b Ha Hb. rewrite get2_mm by (rewrite ?R, ?cols_mm; assumption).
  rewrite Q. apply (sum_nan _ _ a Ha). rewrite get2_mm by (rewrite ?rows_tr, ?Q; assumption).
  rewrite cols_tr, R, (sum_nan _ _ a Ha); [apply nan_mul_r|]. rewrite N by assumption. apply nan_mul_r.
Qed.

Lemma nan_at_get2 K n k : shape K = [n; n] -> nan_at K k -> exists i j, i < n /\ j < n /\ get2 K i j = nan.
Proof.
  intros S H. apply nth_error_data in H as [L H]. rewrite <- tget_unflat in H by exact L. rewrite S in *.
  pose proof (unflat_range [n; n] k L) as R. apply in_range2_inv in R as (i & j & E & Hi & Hj). rewrite E in H. exists i, j. auto.
Qed.

Lemma nans_all t n m : shape t = [n; m] -> nans n m t -> all_nan t.
Proof.
  intros S H. unfold all_nan. apply Forall_forall. intros x Hx. apply In_nth_error in Hx as [k Hk]. apply nth_error_data in Hk as [L Hk].
  rewrite <- tget_unflat in Hk by exact L. rewrite S in *. pose proof (unflat_range [n; m] k L) as R.
  apply in_range2_inv in R as (i & j & E & Hi & Hj). rewrite E in Hk. rewrite <- Hk. apply H; assumption.
Qed.

(** Both factors dense and one of them not a number: the direction is. *)
Lemma direction_nan l wg bg cur K C n q N :
  shape K = [n; n] -> shape C = [q; q] -> ((exists k, nan_at K k) \/ exists k, nan_at C k) ->
  nat_grad_matrix l wg bg cur (Ok (MDense K)) (Ok (MDense C)) = Ok N -> exists r c, shape N = [r; c] /\ nans r c N.
Proof.
  intros SK SC' HN H. unfold nat_grad_matrix in H. apply bind_ok in H as (w & _ & H). apply bind_ok in H as (b & _ & H).
  apply bind_ok in H as (G & _ & H). apply bind_ok in H as (cu & _ & H). set (G' := if feqb cu f1 then G else t_divs G cu) in H.
  cbn [bind] in H. apply bind_ok in H as (y & E1 & H). apply bind_ok in H as (t & E2 & H). apply bind_ok in H as (u & E3 & H).
  destruct HN as [[k HN]|[k HN]].
  - apply (nan_at_get2 _ n) in HN as (i & j & Hi & Hj & HN); [|exact SK].
    destruct (dense_spreads K n i j _ _ _ SK Hi Hj HN E1 E2) as [St Nt].
    pose proof (rows_of _ _ _ St) as Rt. pose proof (cols_of _ _ _ _ St) as Qt.
    enough (NT : nans q (cols (tr t)) (tr t)) by (destruct (dense_keeps C q _ _ _ SC' NT E3 H) as [SN NN]; eauto).
    intros a c Ha Hc. rewrite cols_tr, Rt in Hc. cbn in E3. apply matmul_inv in E3 as (_ & _ & D & _).
    rewrite cols_tr, rows_tr, (rows_of _ _ _ SC') in D. rewrite get2_tr by (rewrite ?Rt; lia). apply Nt; [exact Hc|lia].
  - apply (nan_at_get2 _ q) in HN as (i & j & Hi & Hj & HN); [|exact SC'].
    destruct (dense_spreads C q i j _ _ _ SC' Hi Hj HN E3 H) as [SN NN]. eauto.
Qed.

Lemma all_nan_nth t : all_nan t <-> forall k, k < prod (shape t) -> nth k (data t) f0 = nan.
Proof.
  unfold all_nan. rewrite Forall_forall. pose proof (data_length t) as L. unfold numel in L. split.
  - intros H k Hk. apply H. apply nth_In. lia.
  - intros H x Hx. apply (In_nth _ _ f0) in Hx as (k & Hk & <-). apply H. lia.
Qed.

Lemma reshape_inv t s t' : t_reshape t s = Ok t' -> shape t' = s /\ data t' = data t.
Proof. unfold t_reshape. destruct (bool_dec _ _); [|discriminate]. intros H. injection H as <-. auto. Qed.

Lemma reshape_nan t s t' : t_reshape t s = Ok t' -> all_nan t -> all_nan t'.
Proof. intros H. apply reshape_inv in H as [_ E]. unfold all_nan. rewrite E. auto. Qed.

Lemma slice_nan t r c r0 r1 c0 c1 t' : shape t = [r; c] -> nans r c t -> t_slice2 t r0 r1 c0 c1 = Ok t' -> all_nan t'.
Proof.
  intros S N H. unfold t_slice2 in H. destruct (is2 t); [|discriminate]. rewrite (rows_of _ _ _ S), (cols_of _ _ _ _ S) in H. unfold clamp in H.
  injection H as <-. eapply nans_all; [reflexivity|]. intros i j Hi Hj. rewrite get2_tab2 by assumption. apply N; lia.
Qed.

Lemma split_nan l N w b r c : shape N = [r; c] -> nans r c N -> split_matrix l N = Ok (w, b) ->
  all_nan w /\ match b with Some d => all_nan d | None => True end.
Proof.
  intros S HN H. unfold split_matrix in H. destruct (has_bias l).
  - apply bind_ok in H as (w1 & E1 & H). apply bind_ok in H as (b1 & E2 & H). apply bind_ok in H as (w2 & E3 & H).
    apply bind_ok in H as (b2 & E4 & H). injection H as <- <-. split; eapply reshape_nan; try eassumption; eapply slice_nan; eassumption.
  - apply bind_ok in H as (w2 & E3 & H). injection H as <- <-. split; [|exact I]. eapply reshape_nan; [eassumption|]. eapply nans_all; eassumption.
Qed.

Lemma all_nan_kept a b : kept a b -> all_nan a -> all_nan b.
Proof.
  intros [S H] N. rewrite all_nan_nth in *. intros k Hk. rewrite S in Hk. specialize (N k Hk).
  assert (A : nan_at a k) by (apply nth_error_data; auto). apply H in A. apply nth_error_data in A as [_ A]. exact A.
Qed.

Lemma param_step_nan g d p p' : all_nan d -> param_step g d p = (p', Ok tt) -> all_nan (p_val p').
Proof.
  intros N H. unfold param_step, sbind, lift, getS, modify in H.
  destruct (if feqb (g_wd g) f0 then Ok d else t_add_alpha d (p_val p) (g_wd g)) as [d'|] eqn:Ed; [|discriminate].
  assert (N' : all_nan d').
  { destruct (feqb (g_wd g) f0); [injection Ed as <-; exact N|]. exact (all_nan_kept _ _ (add_alpha_kept_l _ _ _ _ Ed) N). }
  destruct (feqb (g_momentum g) f0).
  - destruct (t_add_alpha (p_val p) d' _) as [v|] eqn:E; [|discriminate]. injection H as <-.
    exact (all_nan_kept _ _ (add_alpha_kept_r _ _ _ _ E) N').
  - set (b := t_scale (g_momentum g) _) in H. cbn [p_val p_grad p_buf] in H.
    destruct (t_add b d') as [b'|] eqn:E; [|discriminate].
    destruct (t_add_alpha (p_val p) b' _) as [v|] eqn:E2; [|discriminate]. injection H as <-.
    exact (all_nan_kept _ _ (add_alpha_kept_r _ _ _ _ E2) (all_nan_kept _ _ (add_kept_r _ _ _ E) N')).
Qed.

Lemma skept_dense K s : skept (MDense K) s -> exists K', s = MDense K' /\ kept K K'.
Proof.
  intros [E H]. destruct s; try discriminate E. cbn in H. inversion H; subst. eauto.
Qed.

(** ** Gradients *)

(** Some entry of a matrix of this shape. *)
Definition some2 (t : tensor) (n m : nat) : Prop := shape t = [n; m] /\ exists i j, i < n /\ j < m /\ get2 t i j = nan.

Lemma some2_at t n m k : shape t = [n; m] -> nan_at t k -> some2 t n m.
Proof.
  intros S H. split; [exact S|]. apply nth_error_data in H as [L H]. rewrite <- tget_unflat in H by exact L. rewrite S in *.
  pose proof (unflat_range [n; m] k L) as R. apply in_range2_inv in R as (i & j & E & Hi & Hj). rewrite E in H. exists i, j. auto.
Qed.

Lemma cat1_l a b t n m : some2 a n m -> t_cat1 a b = Ok t -> exists m', some2 t n m'.
Proof.
  intros [S (i & j & Hi & Hj & N)] H. unfold t_cat1 in H. destruct (_ && _); [|discriminate]. injection H as <-.
  rewrite (rows_of _ _ _ S), (cols_of _ _ _ _ S). exists (m + cols b). split; [reflexivity|]. exists i, j.
  split; [exact Hi|]. split; [lia|]. rewrite get2_tab2 by lia. replace (Nat.ltb j m) with true by (symmetry; apply Nat.ltb_lt; exact Hj). exact N.
Qed.

Lemma cat1_r a b t n m : some2 b n m -> t_cat1 a b = Ok t -> exists m', some2 t n m'.
Proof.
  intros [S (i & j & Hi & Hj & N)] H. unfold t_cat1 in H. destruct (_ && _) eqn:E; [|discriminate]. injection H as <-.
  apply andb_true_iff in E as [_ E]. apply Nat.eqb_eq in E. rewrite E, (rows_of _ _ _ S), (cols_of _ _ _ _ S). exists (cols a + m). split; [reflexivity|]. exists i, (cols a + j).
  split; [exact Hi|]. split; [lia|]. rewrite get2_tab2 by lia. replace (Nat.ltb (cols a + j) (cols a)) with false by (symmetry; apply Nat.ltb_ge; lia).
  replace (cols a + j - cols a) with j by lia. exact N.
Qed.

Lemma grad_matrix_nan l wg bg G :
  length (weight_shape l) >= 2 -> shape wg = weight_shape l -> ((exists k, nan_at wg k) \/ (exists b k, bg = Some b /\ nan_at b k)) ->
  grad_matrix l wg bg = Ok G -> exists n m, some2 G n m.
Proof.
  intros L S HN H. unfold grad_matrix in H. apply bind_ok in H as (g & E & H).
  assert (A : (exists k, nan_at wg k) -> exists n m, some2 g n m).
  { intros [k Hk]. destruct l as [i o bi|cv|]; [| |discriminate].
    - injection E as <-. eexists _, _. apply (some2_at _ _ _ k); [exact S|exact Hk].
    - destruct (shape wg) as [|n rest]; [discriminate|]. apply reshape_inv in E as [S2 D2]. exists n, (prod rest). apply (some2_at _ _ _ k); [exact S2|].
      unfold nan_at in *. rewrite D2. exact Hk. }
  destruct bg as [b|].
  - apply bind_ok in H as (b' & Eb & H). destruct HN as [HN|(b0 & k & Eb0 & HN)].
    + destruct (A HN) as (n & m & Hg). destruct (cat1_l _ _ _ _ _ Hg H) as [m' ?]. eauto.
    + injection Eb0 as <-. destruct (shape b) as [|n [|]]; try discriminate. apply reshape_inv in Eb as [S2 D2].
      assert (Hb : some2 b' n 1) by (apply (some2_at _ _ _ k S2); unfold nan_at in *; rewrite D2; exact HN).
      destruct (cat1_r _ _ _ _ _ Hb H) as [m' ?]. eauto.
  - injection H as <-. destruct HN as [HN|(b0 & k & Eb0 & _)]; [exact (A HN)|discriminate].
Qed.

(** A NaN in X: its column in K Kᵀ X. *)
Lemma column_spreads K n X Y Z i j :
  shape K = [n; n] -> i < n -> j < cols X -> get2 X i j = nan ->
  rmatmat (MDense K) X = Ok Y -> matmul_t (MDense K) Y = Ok Z ->
  shape Z = [n; cols X] /\ forall a, a < n -> get2 Z a j = nan.
Proof.
  intros S Hi Hj N H1 H2. cbn in H1, H2. apply matmul_inv in H1 as (_ & X2 & HX & ->). apply matmul_inv in H2 as (_ & _ & _ & ->).
  pose proof (rows_of _ _ _ S) as R. pose proof (cols_of _ _ _ _ S) as Q.
  split; [rewrite <- R; reflexivity|]. intros a Ha. rewrite get2_mm by (rewrite ?R, ?cols_mm; assumption).
  rewrite Q. apply (sum_nan _ _ i Hi). rewrite get2_mm by (rewrite ?rows_tr, ?Q; assumption).
  rewrite cols_tr, R, (sum_nan _ _ i Hi); [apply nan_mul_r|]. rewrite N. apply nan_mul_r.
Qed.

Lemma direction_grad l wg bg cur K C n q N :
  length (weight_shape l) >= 2 -> shape wg = weight_shape l -> ((exists k, nan_at wg k) \/ (exists b k, bg = Some b /\ nan_at b k)) ->
  shape K = [n; n] -> shape C = [q; q] ->
  nat_grad_matrix l (Ok wg) (option_map Ok bg) cur (Ok (MDense K)) (Ok (MDense C)) = Ok N -> exists r c, shape N = [r; c] /\ nans r c N.
Proof.
  intros L S HN SK SC' H. unfold nat_grad_matrix in H. cbn [bind] in H.
  assert (Eb : match option_map (@Ok tensor) bg with None => Ok None | Some b => let* b := b in Ok (Some b) end = Ok bg) by (destruct bg; reflexivity).
  rewrite Eb in H. cbn [bind] in H.
  apply bind_ok in H as (G & EG & H). apply bind_ok in H as (cu & _ & H). destruct (grad_matrix_nan _ _ _ _ L S HN EG) as (gr & gc & HG).
  set (G' := if feqb cu f1 then G else t_divs G cu) in H.
  assert (HG' : some2 G' gr gc).
  { unfold G'. destruct (feqb cu f1); [exact HG|]. destruct HG as [SG (i & j & Hi & Hj & E)]. split; [exact SG|]. exists i, j. split; [exact Hi|]. split; [exact Hj|].
    unfold t_divs, t_map, get2. rewrite tget_tab by (rewrite SG; apply in_range2; assumption). change (tget G [i; j]) with (get2 G i j). rewrite E. apply nan_div_l. }
  clearbody G'. clear HG EG. destruct HG' as [SG (i & j & Hi & Hj & E)].
  pose proof (rows_of _ _ _ SG) as RG. pose proof (cols_of _ _ _ _ SG) as QG.
  cbn [bind] in H. apply bind_ok in H as (y & E1 & H). apply bind_ok in H as (t & E2 & H). apply bind_ok in H as (u & E3 & H).
  assert (Dn : gc = n). { cbn in E1. apply matmul_inv in E1 as (_ & _ & D & _). rewrite cols_tr, rows_tr, QG, (rows_of _ _ _ SK) in D. lia. }
  destruct (column_spreads K n (tr G') y t j i SK) with (4 := E1) (5 := E2) as [St Nt]; [lia|rewrite cols_tr; lia|rewrite get2_tr by lia; exact E|].
  rewrite cols_tr, RG in St. pose proof (rows_of _ _ _ St) as Rt. pose proof (cols_of _ _ _ _ St) as Qt.
  assert (Dq : gr = q). { cbn in E3. apply matmul_inv in E3 as (_ & _ & D & _). rewrite cols_tr, rows_tr, Qt, (rows_of _ _ _ SC') in D. lia. }
  subst gr gc. exists q, n.
  assert (A : forall b, b < n -> forall a, a < q -> get2 N a b = nan).
  { intros b Hb. destruct (column_spreads C q (tr t) u N i b SC') with (4 := E3) (5 := H) as [_ A]; [lia|rewrite cols_tr; lia| |exact A].
    rewrite get2_tr by lia. apply Nt. exact Hb. }
  split; [|intros a b Ha Hb; apply A; assumption].
  cbn in E3, H. apply matmul_inv in E3 as (_ & _ & _ & ->). apply matmul_inv in H as (_ & _ & _ & ->).
  unfold mm at 1. cbn [shape tab2 tab]. rewrite cols_mm, cols_tr, Rt, (rows_of _ _ _ SC'). reflexivity.
Qed.

(** A successful step with dense factors of which one is not a number. *)
Lemma step_poison c st st' m K C :
  cfg_ok c -> In m (c_mods c) -> s_inf st = false -> step c false st = (st', Ok tt) ->
  sl_K (s_slots st (m_key m)) = Some (MDense K) -> sl_C (s_slots st (m_key m)) = Some (MDense C) -> square K -> square C ->
  ((exists k, nan_at K k) \/ exists k, nan_at C k) ->
  all_nan (p_val (s_par st' (m_weight m))) /\
  match m_bias m with Some p => has_bias (m_layer m) = true -> all_nan (p_val (s_par st' p)) | None => True end.
Proof.
  intros OK Hm Hi Hs EK EC [n SK] [q SC'] HN.
  destruct (step_parts c st st' m OK Hm Hi Hs) as (cur & g & scales & s' & N & w & b & _ & _ & _ & _ & EU & _ & EN & ES & EW & EB).
  apply update_slots_kept in EU as [KK KC]. rewrite EK in KK. rewrite EC in KC. destruct KK as (K1 & EK1 & KK). destruct KC as (C1 & EC1 & KC).
  apply skept_dense in KK as (K' & -> & SK' & KK). apply skept_dense in KC as (C' & -> & SC2 & KC). rewrite EK1, EC1 in EN. cbn [lookup] in EN.
  assert (HN' : (exists k, nan_at K' k) \/ exists k, nan_at C' k) by (destruct HN as [[k H]|[k H]]; [left|right]; exists k; auto).
  rewrite <- SK' in SK. rewrite <- SC2 in SC'. destruct (direction_nan _ _ _ _ K' C' n q N SK SC' HN' EN) as (r & c0 & SN & NN).
  destruct (split_nan _ _ _ _ _ _ SN NN ES) as [Nw Nb]. split; [exact (param_step_nan _ _ _ _ Nw EW)|].
  destruct (m_bias m) as [p|]; [|exact I]. intros HB. destruct b as [d|]; [exact (param_step_nan _ _ _ _ Nb EB)|].
  unfold split_matrix in ES. rewrite HB in ES. repeat (apply bind_ok in ES as (? & ? & ES)). discriminate.
Qed.

(** A successful step with dense factors and a gradient which is not a number. *)
Lemma step_poison_grad c st st' m K C wg bg :
  cfg_ok c -> In m (c_mods c) -> s_inf st = false -> step c false st = (st', Ok tt) ->
  sl_K (s_slots st (m_key m)) = Some (MDense K) -> sl_C (s_slots st (m_key m)) = Some (MDense C) -> square K -> square C ->
  p_grad (s_par st (m_weight m)) = Some wg -> option_map (fun p => p_grad (s_par st p)) (m_bias m) = option_map Some bg ->
  shape wg = weight_shape (m_layer m) -> ((exists k, nan_at wg k) \/ exists b k, bg = Some b /\ nan_at b k) ->
  all_nan (p_val (s_par st' (m_weight m))) /\
  match m_bias m with Some p => has_bias (m_layer m) = true -> all_nan (p_val (s_par st' p)) | None => True end.
Proof.
  intros OK Hm Hi Hs EK EC [n SK] [q SC'] Ew Eb Sw HN.
  destruct (step_parts c st st' m OK Hm Hi Hs) as (cur & g & scales & s' & N & w & b & _ & _ & _ & Eg & EU & _ & EN & ES & EW & EB).
  apply update_slots_kept in EU as [KK KC]. rewrite EK in KK. rewrite EC in KC. destruct KK as (K1 & EK1 & KK). destruct KC as (C1 & EC1 & KC).
  apply skept_dense in KK as (K' & -> & SK' & KK). apply skept_dense in KC as (C' & -> & SC2 & KC). rewrite EK1, EC1 in EN. cbn [lookup] in EN.
  rewrite <- SK' in SK. rewrite <- SC2 in SC'.
  assert (L : length (weight_shape (m_layer m)) >= 2).
  { unfold get_group in Eg. destruct (m_layer m) as [i o bi|cv|]; [cbn; lia|cbn; lia|discriminate]. }
  unfold grad_data at 1 in EN. rewrite Ew in EN.
  assert (Eo : option_map (fun b => grad_data (s_par st b)) (m_bias m) = option_map Ok bg).
  { destruct (m_bias m), bg; try discriminate; [|reflexivity]. cbn in *. injection Eb as Eb. unfold grad_data. rewrite Eb. reflexivity. }
  rewrite Eo in EN. destruct (direction_grad _ _ _ _ K' C' n q N L Sw HN SK SC' EN) as (r & c0 & SN & NN).
  destruct (split_nan _ _ _ _ _ _ SN NN ES) as [Nw Nb]. split; [exact (param_step_nan _ _ _ _ Nw EW)|].
  destruct (m_bias m) as [p|]; [|exact I]. intros HB. destruct b as [d|]; [exact (param_step_nan _ _ _ _ Nb EB)|].
  unfold split_matrix in ES. rewrite HB in ES. repeat (apply bind_ok in ES as (? & ? & ES)). discriminate.
Qed.

(** ** A scale that is not a number *)

Lemma divs_nan t n m : shape t = [n; m] -> nans n m (t_divs t nan).
Proof. intros S i j Hi Hj. unfold t_divs, t_map, get2. rewrite tget_tab by (rewrite S; apply in_range2; assumption). apply nan_div_r. Qed.

Lemma tr_nan t n m : shape t = [n; m] -> nans n m t -> nans m n (tr t).
Proof. intros S H i j Hi Hj. rewrite get2_tr by (rewrite ?(rows_of _ _ _ S), ?(cols_of _ _ _ _ S); assumption). apply H; assumption. Qed.

Lemma grad_matrix_2 l wg bg G : length (weight_shape l) >= 2 -> shape wg = weight_shape l -> grad_matrix l wg bg = Ok G -> exists n m, shape G = [n; m].
Proof.
  intros L S H. unfold grad_matrix in H. apply bind_ok in H as (g & E & H).
  assert (A : exists n m, shape g = [n; m]).
  { destruct l as [i o bi|cv|]; [| |discriminate].
    - injection E as <-. rewrite S. cbn. eauto.
    - destruct (shape wg) as [|n rest]; [discriminate|]. apply reshape_inv in E as [S2 _]. eauto. }
  destruct bg as [b|]; [|injection H as <-; exact A].
  apply bind_ok in H as (b' & _ & H). unfold t_cat1 in H. destruct (_ && _); [|discriminate]. injection H as <-. cbn. eauto.
Qed.

Lemma direction_scale l wg bg K C n q N :
  length (weight_shape l) >= 2 -> shape wg = weight_shape l -> shape K = [n; n] -> shape C = [q; q] ->
  nat_grad_matrix l (Ok wg) bg (Ok nan) (Ok (MDense K)) (Ok (MDense C)) = Ok N -> exists r c, shape N = [r; c] /\ nans r c N.
Proof.
  intros L S SK SC' H. unfold nat_grad_matrix in H. cbn [bind] in H. apply bind_ok in H as (b & _ & H). apply bind_ok in H as (G & EG & H).
  destruct (grad_matrix_2 _ _ _ _ L S EG) as (gr & gc & SG). rewrite nan_eqb in H. cbn [bind] in H.
  apply bind_ok in H as (y & E1 & H). apply bind_ok in H as (t & E2 & H). apply bind_ok in H as (u & E3 & H).
  assert (SG' : shape (t_divs G nan) = [gr; gc]) by exact SG. pose proof (tr_nan _ _ _ SG' (divs_nan G gr gc SG)) as NG.
  pose proof (rows_of _ _ _ SG') as RG. pose proof (cols_of _ _ _ _ SG') as QG.
  assert (Dn : gc = n). { cbn in E1. apply matmul_inv in E1 as (_ & _ & D & _). rewrite cols_tr, rows_tr, QG, (rows_of _ _ _ SK) in D. lia. }
  clear QG. subst gc. destruct (dense_keeps K n (tr (t_divs G nan)) y t SK) as [St Nt]; try assumption. { rewrite cols_tr, RG. exact NG. }
  rewrite cols_tr, RG in St, Nt. pose proof (cols_of _ _ _ _ St) as Qt. pose proof (rows_of _ _ _ St) as Rt.
  assert (Dq : gr = q). { cbn in E3. apply matmul_inv in E3 as (_ & _ & D & _). rewrite cols_tr, rows_tr, Qt, (rows_of _ _ _ SC') in D. lia. }
  rewrite Dq in *. destruct (dense_keeps C q (tr t) u N SC') as [SN NN]; try assumption. { rewrite cols_tr, Rt. apply tr_nan; assumption. }
  eauto.
Qed.

Lemma step_poison_scale c st st' m K C wg :
  cfg_ok c -> In m (c_mods c) -> s_inf st = false -> step c false st = (st', Ok tt) ->
  sl_K (s_slots st (m_key m)) = Some (MDense K) -> sl_C (s_slots st (m_key m)) = Some (MDense C) -> square K -> square C ->
  p_grad (s_par st (m_weight m)) = Some wg -> shape wg = weight_shape (m_layer m) -> step_scale st = Ok nan ->
  all_nan (p_val (s_par st' (m_weight m))) /\
  match m_bias m with Some p => has_bias (m_layer m) = true -> all_nan (p_val (s_par st' p)) | None => True end.
Proof.
  intros OK Hm Hi Hs EK EC [n SK] [q SC'] Ew Sw HS.
  destruct (step_parts c st st' m OK Hm Hi Hs) as (cur & g & scales & s' & N & w & b & Ecur & _ & _ & Eg & EU & _ & EN & ES & EW & EB).
  rewrite HS in Ecur. injection Ecur as <-.
  apply update_slots_kept in EU as [KK KC]. rewrite EK in KK. rewrite EC in KC. destruct KK as (K1 & EK1 & KK). destruct KC as (C1 & EC1 & KC).
  apply skept_dense in KK as (K' & -> & SK' & KK). apply skept_dense in KC as (C' & -> & SC2 & KC). rewrite EK1, EC1 in EN. cbn [lookup] in EN.
  rewrite <- SK' in SK. rewrite <- SC2 in SC'.
  assert (L : length (weight_shape (m_layer m)) >= 2).
  { unfold get_group in Eg. destruct (m_layer m) as [i o bi|cv|]; [cbn; lia|cbn; lia|discriminate]. }
  unfold grad_data at 1 in EN. rewrite Ew in EN. destruct (direction_scale _ _ _ K' C' n q N L Sw SK SC' EN) as (r & c0 & SN & NN).
  destruct (split_nan _ _ _ _ _ _ SN NN ES) as [Nw Nb]. split; [exact (param_step_nan _ _ _ _ Nw EW)|].
  destruct (m_bias m) as [p|]; [|exact I]. intros HB. destruct b as [d|]; [exact (param_step_nan _ _ _ _ Nb EB)|].
  unfold split_matrix in ES. rewrite HB in ES. repeat (apply bind_ok in ES as (? & ? & ES)). discriminate.
Qed.

(** The second moment of output gradients divided by the root of such a scale. *)
Lemma grad_rows g l la ka B : prod (shape g) <> 0 -> process_grad_output g l la ka = Ok B -> exists N d, N <> 0 /\ shape B = [N; d].
Proof.
  intros P H. assert (H' : match l with Conv2d _ => conv2d_process_grad_output g la ka = Ok B | Linear _ _ _ => linear_process_grad_output g la ka = Ok B | OtherModule => False end).
  { unfold process_grad_output in H. destruct la, ka; try discriminate; destruct l; try discriminate; exact H. }
  clear H. destruct l as [i o bi|cv|]; [| |contradiction].
  - unfold linear_process_grad_output in H'. apply bind_ok in H' as ([[b s] d] & E & H'). unfold bsd in E.
    destruct (shape g) as [|b0 [|x r]] eqn:S; try discriminate. set (z := x :: r) in *. injection E as <- <- <-.
    assert (Z : z <> []) by discriminate. rewrite (app_removelast_last O Z) in P. change (b0 * prod (removelast z ++ [last z O]) <> 0) in P.
    rewrite prod_app in P. apply Nat.neq_mul_0 in P as [P1 P2]. apply Nat.neq_mul_0 in P2 as [P2 _].
    apply bind_ok in H' as (g' & E & H'). injection H' as <-. destruct ka.
    + apply reshape_inv in E as [S' _]. exists (b0 * prod (removelast z)), (last z O). split; [apply Nat.neq_mul_0; auto|exact S'].
    + apply bind_ok in E as (g2 & _ & E). injection E as <-. exists b0, (last z O). split; [exact P1|reflexivity].
    + apply bind_ok in E as (g2 & _ & E). injection E as <-. exists b0, (last z O). split; [exact P1|reflexivity].
  - unfold conv2d_process_grad_output in H'. destruct (shape g) as [|b [|c [|o1 [|o2 [|? ?]]]]]; try discriminate. injection H' as <-.
    cbn in P. assert (b <> 0 /\ o1 <> 0 /\ o2 <> 0) as (P1 & P2 & P3) by (repeat split; intros ->; lia).
    destruct ka; [exists (b * o1 * o2), c|exists b, c|exists b, c]; (split; [|reflexivity]); [|exact P1|exact P1].
    apply Nat.neq_mul_0. split; [apply Nat.neq_mul_0; auto|exact P3].
Qed.

Lemma local_H_nan g l x gout s C H :
  prod (shape gout) <> 0 -> sl_C s = Some (MDense C) -> square C ->
  local_H g l (Ok nan) x gout s = Ok H -> exists h, snd H = MDense h /\ shape h = shape C /\ all_nan h.
Proof.
  intros P EC [q SC'] E. unfold local_H in E. apply bind_ok in E as (A & EA & E). apply bind_ok in E as (B & EB & E). apply bind_ok in E as (K & _ & E).
  rewrite EC in E. cbn [lookup bind] in E. apply bind_ok in E as (HK & _ & E). rewrite nan_eqb, nan_ltb, nan_sqrt in E. cbn [bind] in E.
  apply bind_ok in E as (HC & EH & E). injection E as <-. cbn [snd].
  destruct (grad_rows _ _ _ _ _ P EB) as (N & d & NN & SB).
  assert (SB' : shape (t_divs B nan) = [N; d]) by exact SB. pose proof (tr_nan _ _ _ SB' (divs_nan B N d SB)) as NB.
  cbn [from_inner] in EH. apply bind_ok in EH as (S_d & ES & EH). cbn in ES. apply matmul_inv in ES as (_ & _ & D1 & ->).
  assert (SX : shape (tr (t_divs B nan)) = [d; N]) by (rewrite shape_tr, (rows_of _ _ _ SB'), (cols_of _ _ _ _ SB'); reflexivity).
  set (X := tr (t_divs B nan)) in *. clearbody X. clear SB'.
  pose proof (rows_of _ _ _ SC') as RC. pose proof (cols_of _ _ _ _ SC') as QC. pose proof (cols_of _ _ _ _ SX) as QX. pose proof (rows_of _ _ _ SX) as RX.
  rewrite cols_tr, RC, RX in D1. subst d.
  assert (NM : nans q N (mm (tr C) X)).
  { intros i j Hi Hj. rewrite get2_mm by (rewrite ?rows_tr, ?QC, ?QX; assumption). rewrite cols_tr, RC. apply (sum_nan _ _ i Hi). rewrite NB by assumption. apply nan_mul_r. }
  cbn in EH. apply bind_ok in EH as (p & Ep & EH). apply matmul_inv in Ep as (_ & _ & _ & ->).
  injection EH as <-. eexists. split; [reflexivity|].
  assert (SP : shape (mm (mm (tr C) X) (tr (mm (tr C) X))) = [q; q]).
  { rewrite shape_mm, cols_tr, rows_mm, rows_tr, QC. reflexivity. }
  split; [rewrite SC'; exact SP|]. apply (nans_all _ q q SP). intros i j Hi Hj.
  rewrite get2_mm by (rewrite ?cols_tr, ?rows_mm, ?rows_tr, ?QC; assumption). rewrite cols_mm, QX.
  apply (sum_nan N _ 0); [lia|]. rewrite NM by lia. apply nan_mul_l.
Qed.

Lemma backward_nan c st st' m out x gout C :
  s_pend st out = Some (m, x) -> prod (shape gout) <> 0 ->
  sl_C (s_slots st (m_key m)) = Some (MDense C) -> square C -> sl_HC (s_slots st (m_key m)) = None ->
  get_grad_scale (s_scales st) (Z.of_nat (s_steps st) - 1) = Ok nan -> event_op c (EBackward out gout) st = (st', Ok tt) ->
  exists h, sl_HC (s_slots st' (m_key m)) = Some (MDense h) /\ shape h = shape C /\ all_nan h.
Proof.
  intros EP P EC SC' EH ES H. cbn [event_op] in H. unfold sbind at 1, getS at 1 in H. rewrite EP in H.
  unfold accumulate_H_terms, sbind, getS, lift in H. destruct (get_group c (s_groups st) m) as [g|]; [|discriminate]. rewrite ES in H.
  destruct (local_H g (m_layer m) (Ok nan) x gout (s_slots st (m_key m))) as [[hk hc]|] eqn:EL; [|discriminate].
  destruct (local_H_nan _ _ _ _ _ _ _ P EC SC' EL) as (h & Eh & Sh & Nh). cbn [snd] in Eh. subst hc.
  unfold on_slots, store_H, sbind, getS, lift, modify in H. cbn [s_slots] in H.
  destruct (match sl_HK (s_slots st (m_key m)) with Some h0 => add_ h0 hk f1 | None => Ok hk end) as [hk'|]; [|discriminate].
  cbn [sl_HC set_HK] in H. rewrite EH in H. injection H as <-. cbn [s_slots set_slots]. rewrite upd_eq. cbn. eauto.
Qed.

End Nan.
