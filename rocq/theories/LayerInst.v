(** Lemmas: biases as weights and convolutions as linear layers have the same layer statistics. *)

From Coq Require Import List Arith Lia Bool ZArith.
From Coq Require Import Field.
From Verif Require Import Scalar Res Tensor TensorFacts Structures StructSpec OptimUtils UtilsFacts ProofUtils Optimizer Construct OptState OptRun OptSpec OptFacts OptDir OptTyped OptStep CtorSpec CtorFacts ProgressSpec Progress LayerSpec LayerSim LayerCtor.
Import ListNotations.

Section LayerInst.
Context {SC : Scalar} {FL : FieldLaws SC}.
Open Scope F_scope.
Add Field Ffield_li : F_ft.

(** ** Biases *)

Lemma in_range_app s idx t jdx : in_range s idx -> in_range t jdx -> in_range (s ++ t) (idx ++ jdx).
Proof. intros H H'. unfold in_range in *. apply Forall2_app; assumption. Qed.

Lemma append_one_shape x b mid d : shape x = b :: mid ++ [d] -> shape (append_one x) = b :: mid ++ [(d + 1)%nat].
Proof.
  intros H. unfold append_one. cbn [shape tab]. rewrite H. change (b :: mid ++ [d]) with ((b :: mid) ++ [d]). rewrite removelast_last, last_last, Nat.add_1_r. reflexivity.
Qed.
Lemma append_one_get x b mid d n s k : shape x = b :: mid ++ [d] -> (n < b)%nat -> (s < prod mid)%nat -> (k < d + 1)%nat ->
  bget (append_one x) mid n s k = withone true d (bget x mid n s) k.
Proof.
  intros H Hn Hs Hk. unfold bget, append_one. rewrite H. rewrite tget_tab.
  - change (b :: mid ++ [d]) with ((b :: mid) ++ [d]). rewrite !last_last. change (n :: unflat mid s ++ [k]) with ((n :: unflat mid s) ++ [k]). rewrite last_last. reflexivity.
  - change (b :: mid ++ [d]) with ((b :: mid) ++ [d]). rewrite removelast_last, last_last. change (n :: unflat mid s ++ [k]) with ((n :: unflat mid s) ++ [k]).
    apply in_range_app; [constructor; [exact Hn|apply unflat_range; exact Hs]|]. constructor; [lia|constructor].
Qed.

Lemma bias_input d o x g ka : fits (Linear d o true) x g -> process_input (append_one x) (Linear (d + 1) o false) ka = process_input x (Linear d o true) ka.
Proof.
  intros (b & mid & Z & Sx & _). unfold process_input. pose proof (append_one_shape x b mid d Sx) as S1. destruct ka; [| |reflexivity].
  - destruct (linear_process_input_expand x true b mid d Sx) as (A & -> & SA & GA). destruct (linear_process_input_expand (append_one x) false b mid (d + 1) S1) as (A' & -> & SA' & GA').
    f_equal. rewrite <- (tab2_eta _ _ A SA), <- (tab2_eta _ _ A' SA'). apply tab2_ext. intros i j Hi Hj.
    assert (P0 : prod mid <> O) by (intros E; rewrite E in Hi; lia).
    rewrite (Nat.div_mod i (prod mid) P0). rewrite (Nat.mul_comm (prod mid)).
    assert (H1 : (i / prod mid < b)%nat) by (apply Nat.div_lt_upper_bound; [exact P0|lia]).
    assert (H2 : (i mod prod mid < prod mid)%nat) by (apply Nat.mod_upper_bound; exact P0).
    rewrite GA, GA' by assumption. f_equal. unfold withone at 1. destruct (Nat.ltb_spec j (d + 1)); [|lia]. apply (append_one_get x b mid d); assumption.
  - destruct (linear_process_input_reduce x true b mid d Sx) as (A & -> & SA & GA). destruct (linear_process_input_reduce (append_one x) false b mid (d + 1) S1) as (A' & -> & SA' & GA').
    f_equal. rewrite <- (tab2_eta _ _ A SA), <- (tab2_eta _ _ A' SA'). apply tab2_ext. intros i j Hi Hj.
    assert (P0 : prod mid <> O) by lia.
    rewrite GA, GA' by assumption. f_equal. unfold withone at 1 2. destruct (Nat.ltb_spec j (d + 1)); [|lia].
    rewrite (sum_ext (prod mid) _ (fun s => withone true d (bget x mid i s) j)) by (intros s Hs; apply (append_one_get x b mid d); assumption).
    unfold withone. destruct (Nat.ltb_spec j d); [reflexivity|]. rewrite sum_const. field. apply fofnat_neq0. exact P0.
Qed.

(** ** Convolutions *)

Lemma kidx_of c m q : (0 < cv_k1 c)%nat -> (0 < cv_k2 c)%nat -> (q < m * cv_k1 c * cv_k2 c)%nat ->
  (q / (cv_k1 c * cv_k2 c) < m)%nat /\ (q mod (cv_k1 c * cv_k2 c) / cv_k2 c < cv_k1 c)%nat /\ (q mod cv_k2 c < cv_k2 c)%nat /\
  kidx c (q / (cv_k1 c * cv_k2 c)) (q mod (cv_k1 c * cv_k2 c) / cv_k2 c) (q mod cv_k2 c) = q.
Proof.
  intros H1 H2 Hq. set (k1 := cv_k1 c) in *. set (k2 := cv_k2 c) in *. assert (K : (k1 * k2 <> 0)%nat) by nia.
  assert (A1 : (q / (k1 * k2) < m)%nat) by (apply Nat.div_lt_upper_bound; [exact K|nia]).
  assert (A2 : (q mod (k1 * k2) < k1 * k2)%nat) by (apply Nat.mod_upper_bound; exact K).
  split; [exact A1|]. split; [apply Nat.div_lt_upper_bound; nia|]. split; [apply Nat.mod_upper_bound; lia|].
  unfold kidx. fold k1 k2. pose proof (Nat.div_mod q (k1 * k2) K) as E1.
  assert (E2 : (q mod k2 = (q mod (k1 * k2)) mod k2)%nat).
  { rewrite E1 at 1. replace (k1 * k2 * (q / (k1 * k2)) + q mod (k1 * k2))%nat with (q mod (k1 * k2) + (k1 * (q / (k1 * k2))) * k2)%nat by nia. apply Nat.mod_add. lia. }
  pose proof (Nat.div_mod (q mod (k1 * k2)) k2 ltac:(lia)) as E3. rewrite E2. nia.
Qed.

Lemma conv_outs_eq c i1 i2 o1 o2 : outs c i1 i2 o1 o2 -> conv_outs c i1 i2 = (o1, o2).
Proof.
  intros [H1 H2]. pose proof H1 as (K1 & S1 & D1 & _). pose proof H2 as (K2 & S2 & D2 & _).
  apply fits_at_formula in H1 as [_ ->]; [|assumption..]. apply fits_at_formula in H2 as [_ ->]; [|assumption..]. reflexivity.
Qed.

Lemma patches_eq c x b i1 i2 o1 o2 : shape x = [b; cv_in c; i1; i2] -> outs c i1 i2 o1 o2 ->
  patches c x = tab3 b (o1 * o2) (fan (Conv2d c)) (fun n o r =>
    patch x c n (o / o2) (o mod o2) (r / (cv_k1 c * cv_k2 c)) (r mod (cv_k1 c * cv_k2 c) / cv_k2 c) (r mod cv_k2 c)).
Proof. intros H O. unfold patches. rewrite H, (conv_outs_eq _ _ _ _ _ O). reflexivity. Qed.

Lemma conv_input c x g ka o bias : fits (Conv2d c) x g -> even_pad c -> bias = cv_bias c ->
  process_input (patches c x) (Linear (fan (Conv2d c)) o bias) ka = process_input x (Conv2d c) ka.
Proof.
  intros (OKc & b & i1 & i2 & o1 & o2 & Z & OU & Sx & _) EV ->. rewrite (patches_eq c x b i1 i2 o1 o2 Sx OU).
  pose proof OKc as (_ & _ & K1 & K2 & _).
  unfold process_input. destruct ka; [| |reflexivity].
  - unfold conv2d_process_input. destruct (extract_patches_ok x c b i1 i2 o1 o2 OKc Sx OU EV) as (P & -> & SP & GP). cbn [bind]. rewrite SP.
    assert (E : P = tab3 b (o1 * o2) (fan (Conv2d c)) (fun n o r =>
      patch x c n (o / o2) (o mod o2) (r / (cv_k1 c * cv_k2 c)) (r mod (cv_k1 c * cv_k2 c) / cv_k2 c) (r mod cv_k2 c))).
    { apply (ext3 b (o1 * o2) (fan (Conv2d c))); [exact SP|reflexivity|]. intros n q k Hn Hq Hk. rewrite get3_tab3 by assumption.
      assert (O2 : o2 <> 0%nat) by (intros E0; rewrite E0 in Hq; lia).
      destruct (kidx_of c (cv_in c / cv_groups c) k K1 K2 Hk) as (B1 & B2 & B3 & Ek).
      assert (H1 : (q / o2 < o1)%nat) by (apply Nat.div_lt_upper_bound; [exact O2|lia]).
      assert (H2 : (q mod o2 < o2)%nat) by (apply Nat.mod_upper_bound; exact O2).
      rewrite <- (GP n (q / o2)%nat (q mod o2)%nat) by assumption. rewrite Ek. f_equal. rewrite (Nat.div_mod q o2 O2) at 1. lia. }
    rewrite <- E. unfold linear_process_input. rewrite (bsd_ok P b [(o1 * o2)%nat] (fan (Conv2d c))) by exact SP. cbn [bind].
    replace (prod [(o1 * o2)%nat]) with (o1 * o2)%nat by (cbn; lia). reflexivity.
  - unfold conv2d_process_input. destruct (extract_averaged_patches_ok x c b i1 i2 o1 o2 OKc Sx OU) as (Q & -> & SQ & GQ). cbn [bind].
    set (P := tab3 b (o1 * o2) (fan (Conv2d c)) _). assert (SP : shape P = b :: [(o1 * o2)%nat] ++ [fan (Conv2d c)]) by reflexivity.
    unfold linear_process_input. rewrite (bsd_ok P b [(o1 * o2)%nat] (fan (Conv2d c)) SP). cbn [bind].
    destruct (reshape3_ok P b [(o1 * o2)%nat] (fan (Conv2d c)) SP) as (P' & -> & SP' & GP'). cbn [bind].
    assert (PR : prod [(o1 * o2)%nat] = (o1 * o2)%nat) by (cbn; lia). rewrite PR in *. f_equal.
    rewrite <- (tab2_eta _ _ Q SQ). apply tab2_ext. intros n k Hn Hk.
    destruct (kidx_of c (cv_in c / cv_groups c) k K1 K2 Hk) as (B1 & B2 & B3 & Ek).
    transitivity (get2 Q n (kidx c (k / (cv_k1 c * cv_k2 c)) (k mod (cv_k1 c * cv_k2 c) / cv_k2 c) (k mod cv_k2 c))); [|rewrite Ek; reflexivity]. rewrite GQ by assumption. f_equal. rewrite sum_blocks. apply sum_ext. intros u Hu. apply sum_ext. intros v Hv.
    rewrite GP' by (try assumption; nia). unfold bget. cbn [unflat app]. rewrite Nat.div_1_r.
    change (tget P [n; (u * o2 + v)%nat; k]) with (get3 P n (u * o2 + v) k). unfold P. rewrite get3_tab3 by (assumption || nia).
    rewrite idx2_div, idx2_mod by assumption. reflexivity.
Qed.

Lemma conv_grad c x g la ka d bias : fits (Conv2d c) x g ->
  process_grad_output (positions g) (Linear d (cv_out c) bias) la ka = process_grad_output g (Conv2d c) la ka.
Proof.
  intros (OKc & b & i1 & i2 & o1 & o2 & Z & OU & _ & Sg).
  assert (E : positions g = tab3 b (o1 * o2) (cv_out c) (fun n o j => get4 g n j (o / o2) (o mod o2))) by (unfold positions; rewrite Sg; reflexivity).
  assert (SP : shape (positions g) = b :: [(o1 * o2)%nat] ++ [cv_out c]) by (rewrite E; reflexivity).
  assert (PR : prod [(o1 * o2)%nat] = (o1 * o2)%nat) by (cbn; lia).
  assert (GP : forall n u v j, (n < b)%nat -> (u < o1)%nat -> (v < o2)%nat -> (j < cv_out c)%nat -> bget (positions g) [(o1 * o2)%nat] n (u * o2 + v) j = get4 g n j u v).
  { intros n u v j Hn Hu Hv Hj. unfold bget. cbn [unflat app]. rewrite Nat.div_1_r. rewrite E. 
    change (tget ?P [n; (u * o2 + v)%nat; j]) with (get3 P n (u * o2 + v) j). rewrite get3_tab3 by (assumption || nia).
    rewrite idx2_div, idx2_mod by assumption. reflexivity. }
  assert (X : ka = Expand \/ ka = Reduce -> linear_process_grad_output (positions g) la ka = conv2d_process_grad_output g la ka).
  { intros [-> | ->].
    - destruct (linear_process_grad_expand (positions g) la b [(o1 * o2)%nat] (cv_out c) SP) as (B & -> & SB & GB).
      destruct (conv_process_grad_expand g la b (cv_out c) o1 o2 Sg) as (B' & -> & SB' & GB'). rewrite PR in *. f_equal.
      rewrite <- Nat.mul_assoc in SB'. rewrite <- (tab2_eta _ _ B SB), <- (tab2_eta _ _ B' SB'). apply tab2_ext. intros i j Hi Hj.
      assert (P0 : (o1 * o2 <> 0)%nat) by (intros E0; rewrite E0 in Hi; lia). assert (O2 : o2 <> 0%nat) by (intros ->; lia).
      assert (D : exists n u v, (n < b)%nat /\ (u < o1)%nat /\ (v < o2)%nat /\ i = (n * (o1 * o2) + (u * o2 + v))%nat).
      { exists (i / (o1 * o2))%nat, (i mod (o1 * o2) / o2)%nat, (i mod (o1 * o2) mod o2)%nat.
        assert (i mod (o1 * o2) < o1 * o2)%nat by (apply Nat.mod_upper_bound; exact P0).
        split; [apply Nat.div_lt_upper_bound; [exact P0|lia]|]. split; [apply Nat.div_lt_upper_bound; [exact O2|lia]|]. split; [apply Nat.mod_upper_bound; exact O2|].
        pose proof (Nat.div_mod i _ P0). pose proof (Nat.div_mod (i mod (o1 * o2)) o2 O2). lia. }
      destruct D as (n & u & v & Hn & Hu & Hv & ->). rewrite GB by (assumption || nia). rewrite GB', GP by assumption. reflexivity.
    - destruct (linear_process_grad_reduce (positions g) la b [(o1 * o2)%nat] (cv_out c) SP) as (B & -> & SB & GB).
      destruct (conv_process_grad_reduce g la b (cv_out c) o1 o2 Sg) as (B' & -> & SB' & GB'). rewrite PR in *. f_equal.
      rewrite <- (tab2_eta _ _ B SB), <- (tab2_eta _ _ B' SB'). apply tab2_ext. intros n j Hn Hj. rewrite GB, GB' by assumption. f_equal.
      rewrite sum_blocks. apply sum_ext. intros u Hu. apply sum_ext. intros v Hv. apply GP; assumption. }
  unfold process_grad_output. destruct la, ka; try reflexivity; apply X; auto.
Qed.

(** ** The two rewritings *)

Lemma mild_fold pick m : is_supported m = true -> mild (fold_biases pick) m.
Proof.
  intros _. unfold mild, fold_biases, without_bias. cbn [r_mod]. destruct (pick (m_key m)); [|auto]. destruct (m_layer m) as [d o [|]|cv|] eqn:E; cbn [m_key m_weight m_bias m_layer]; rewrite ?E; auto.
Qed.
Lemma mild_unfold pick m : is_supported m = true -> mild (unfold_convs pick) m.
Proof.
  intros _. unfold mild, unfold_convs, as_linear. cbn [r_mod]. destruct (pick (m_key m)); [|auto]. destruct (m_layer m) as [d o bb|cv|] eqn:E; cbn [m_key m_weight m_bias m_layer]; rewrite ?E; auto.
  split; [reflexivity|]. split; [reflexivity|]. split; [auto|]. rewrite !C49_dims_lemma by discriminate. reflexivity.
Qed.

Lemma sound_fold pick ms : (forall m, In m ms -> bias_fits m) -> (forall m, In m ms -> is_supported m = true) -> sound (fold_biases pick) ms.
Proof.
  intros B S. constructor; intros m.
  - intros Hm. apply (mild_fold pick m (S m Hm)).
  - intros Hm. apply (mild_fold pick m (S m Hm)).
  - intros Hm. apply (mild_fold pick m (S m Hm)).
  - intros Hm. specialize (B m Hm). unfold fold_biases, without_bias. cbn [r_mod]. destruct (pick (m_key m)); [|exact B]. destruct (m_layer m) as [d o [|]|cv|]; try exact B. reflexivity.
  - intros x g ka Hm. unfold fold_biases, without_bias. cbn [r_mod r_in]. destruct (pick (m_key m)); [|reflexivity]. destruct (m_layer m) as [d o [|]|cv|] eqn:E; try (rewrite E; reflexivity).
    cbn [m_layer]. apply bias_input.
  - intros x g la ka Hm _. unfold fold_biases, without_bias. cbn [r_mod r_out]. destruct (pick (m_key m)); [|reflexivity]. destruct (m_layer m) as [d o [|]|cv|] eqn:E; try (rewrite E; reflexivity).
    reflexivity.
Qed.

Lemma sound_unfold pick ms : (forall m, In m ms -> bias_fits m) -> (forall m, In m ms -> is_supported m = true) ->
  (forall m cv, In m ms -> pick (m_key m) = true -> m_layer m = Conv2d cv -> even_pad cv) -> sound (unfold_convs pick) ms.
Proof.
  intros B S EV. constructor; intros m.
  - intros Hm. apply (mild_unfold pick m (S m Hm)).
  - intros Hm. apply (mild_unfold pick m (S m Hm)).
  - intros Hm. apply (mild_unfold pick m (S m Hm)).
  - intros Hm. specialize (B m Hm). unfold unfold_convs, as_linear. cbn [r_mod]. destruct (pick (m_key m)); [|exact B]. destruct (m_layer m) as [d o bb|cv|] eqn:E; try exact B.
    unfold bias_fits in *. rewrite E in B. exact B.
  - intros x g ka Hm. specialize (EV m). unfold unfold_convs, as_linear. cbn [r_mod r_in]. destruct (pick (m_key m)); [|reflexivity]. destruct (m_layer m) as [d o bb|cv|] eqn:E; try (rewrite E; reflexivity).
    cbn [m_layer]. intros FT. apply (conv_input cv x g); [exact FT|apply EV; auto|reflexivity].
  - intros x g la ka Hm. unfold unfold_convs, as_linear. cbn [r_mod r_out]. destruct (pick (m_key m)); [|reflexivity]. destruct (m_layer m) as [d o bb|cv|] eqn:E; try (rewrite E; reflexivity).
    cbn [m_layer]. apply conv_grad.
Qed.

(** ** Training *)

Lemma trained_alike r a par par' c st0 es es' :
  setting a par c st0 -> (forall m, In m (c_mods c) -> bias_fits m) -> plain_model a ->
  (forall n, In n (a_model a) -> is_supported (n_mod n) = true -> mild r (n_mod n)) -> sound r (c_mods c) ->
  starts_alike r (c_mods c) par par' -> wf_run c es st0 -> rewritten_calls r (c_mods c) (fun _ => None) es es' ->
  exists c' st0', setting (rewritten_args r a) par' c' st0' /\ c_mods c' = map (r_mod r) (c_mods c) /\
    let s := run c es st0 in let t := run c' es' st0' in
    (forall k, s_slots t k = s_slots s k) /\ s_steps t = s_steps s /\ s_scales t = s_scales s /\ s_log t = s_log s /\
    (forall m, In m (c_mods c) -> same_params m (r_mod r m) (s_par s) (s_par t)) /\
    answers c' es' st0' = answers c es st0.
Proof.
  intros S BF PM MI SO SA W RC. destruct (rewritten_setting r a par par' c st0 S PM MI) as (c' & st0' & S' & EM & EP & MM & EG & E1 & E2 & E3 & E4 & E5 & E6 & E7 & E8 & E9 & E10).
  exists c', st0'. split; [exact S'|]. split; [exact EM|]. cbv zeta.
  destruct (setting_typed a par c st0 [] S I) as [TO TA]. cbn [run] in TA.
  destruct (rewritten_sim r c c' SO EM EP (proj1 (setting_ok _ _ _ _ S)) (proj1 (setting_ok _ _ _ _ S')) BF _ TO (fun _ => None) es es' RC st0 st0' TA W) as [(own & [H1 H2 H3 H4 H5 H6 H7 H8 H9]) AN].
  - constructor; try assumption.
    + intros k. rewrite E1. reflexivity.
    + intros out. rewrite E7. apply E8.
    + intros m Hm. rewrite E9, E10. destruct (SA m Hm) as [A1 A2]. split; [|split].
      * apply (same_at_sel _ _ _ par par'); [reflexivity|reflexivity|exact A1].
      * apply (same_at_sel _ _ _ par par'); [reflexivity|reflexivity|exact A2].
      * left. split; reflexivity.
  - auto 10.
Qed.

Lemma hooked_supported a par c st0 m : setting a par c st0 -> In m (c_mods c) -> is_supported m = true.
Proof.
  intros ((h & h' & E) & _) Hm. apply ctor_ok in E as (_ & -> & _). cbn [cfg_of c_mods] in Hm. apply in_map_iff in Hm as (n & <- & Hn).
  apply filter_In in Hn as [_ Hn]. apply andb_true_iff in Hn as [Hn _]. exact Hn.
Qed.
End LayerInst.
