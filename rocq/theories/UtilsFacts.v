(** Facts about the layer-processing model OptimUtils.v. *)

From Coq Require Import List Arith Lia Bool ZArith Field Ring.
From Verif Require Import Scalar Res Tensor TensorFacts OptimUtils.
Import ListNotations.

Section Facts.
Context {SC : Scalar}.
Open Scope F_scope.

Lemma prod_app s s' : prod (s ++ s') = (prod s * prod s')%nat.
Proof. induction s; cbn [app prod fold_right]; [unfold prod; lia|]. fold (prod (s ++ s')). rewrite IHs. fold (prod s). lia. Qed.

Lemma flat_app s idx s' idx' :
  length idx = length s -> flat (s ++ s') (idx ++ idx') = (flat s idx * prod s' + flat s' idx')%nat.
Proof.
  revert idx. induction s; intros [|i idx] H; try discriminate; cbn [app flat].
  - reflexivity.
  - rewrite IHs by (cbn in H; lia). rewrite prod_app. lia.
Qed.

Lemma idx2_lt u v n m : (u < n -> v < m -> u * m + v < n * m)%nat.
Proof. intros. nia. Qed.

Lemma idx3_lt n u v b o1 o2 : (n < b -> u < o1 -> v < o2 -> n * (o1 * o2) + (u * o2 + v) < b * o1 * o2)%nat.
Proof.
  intros. rewrite <- Nat.mul_assoc. apply idx2_lt; [assumption|]. apply idx2_lt; assumption.
Qed.

Lemma idx2_div u v m : (v < m -> (u * m + v) / m = u)%nat.
Proof. intros. symmetry. apply (Nat.div_unique _ _ _ v); lia. Qed.
Lemma idx2_mod u v m : (v < m -> (u * m + v) mod m = v)%nat.
Proof. intros. symmetry. apply (Nat.mod_unique _ _ u); lia. Qed.

Lemma length_unflat s k : length (unflat s k) = length s.
Proof. revert k. induction s; intros; cbn [unflat length]; [reflexivity|]. rewrite IHs. reflexivity. Qed.

Lemma tget_data t idx : tget t idx = nth (flat (shape t) idx) (data t) 0.
Proof. reflexivity. Qed.

Lemma get4_tab4 n m l o f i j k p :
  (i < n)%nat -> (j < m)%nat -> (k < l)%nat -> (p < o)%nat -> get4 (tab4 n m l o f) i j k p = f i j k p.
Proof. intros. unfold get4, tab4. rewrite tget_tab; [reflexivity|]. repeat constructor; assumption. Qed.

(** Reading a tensor of shape b :: mid ++ [d] at batch entry, flattened middle position
    and last coordinate. *)
Definition bget (t : tensor) (mid : list nat) (i s k : nat) : F := tget t (i :: unflat mid s ++ [k]).

Lemma bsd_ok t b mid d : shape t = b :: mid ++ [d] -> bsd t = Ok (b, prod mid, d).
Proof.
  intros H. unfold bsd. rewrite H. destruct (mid ++ [d]) as [|x l] eqn:E.
  - destruct mid; discriminate.
  - rewrite <- E. rewrite removelast_last, last_last. reflexivity.
Qed.

Lemma reshape3_ok t b mid d :
  shape t = b :: mid ++ [d] ->
  exists t', t_reshape t [b; prod mid; d] = Ok t' /\ shape t' = [b; prod mid; d] /\
    forall i s k, (i < b)%nat -> (s < prod mid)%nat -> (k < d)%nat -> get3 t' i s k = bget t mid i s k.
Proof.
  intros H. destruct (t_reshape_ok t [b; prod mid; d]) as (t' & E & S' & D').
  { unfold numel. rewrite H. change (b :: mid ++ [d]) with ((b :: mid) ++ [d]). rewrite prod_app. unfold prod; cbn. lia. }
  exists t'. split; [exact E|]. split; [exact S'|]. intros i s k Hi Hs Hk.
  unfold get3, bget. rewrite !tget_data, S', D', H. f_equal. cbn [flat]. rewrite flat_app by apply length_unflat.
  rewrite flat_unflat by assumption. rewrite prod_app. cbn [prod fold_right flat]. nia.
Qed.

Lemma reshape2_ok t b mid d :
  shape t = b :: mid ++ [d] ->
  exists t', t_reshape t [(b * prod mid)%nat; d] = Ok t' /\ shape t' = [(b * prod mid)%nat; d] /\
    forall i s k, (i < b)%nat -> (s < prod mid)%nat -> (k < d)%nat ->
      get2 t' (i * prod mid + s) k = bget t mid i s k.
Proof.
  intros H. destruct (t_reshape_ok t [(b * prod mid)%nat; d]) as (t' & E & S' & D').
  { unfold numel. rewrite H. change (b :: mid ++ [d]) with ((b :: mid) ++ [d]). rewrite prod_app. unfold prod; cbn. lia. }
  exists t'. split; [exact E|]. split; [exact S'|]. intros i s k Hi Hs Hk.
  unfold get2, bget. rewrite !tget_data, S', D', H. f_equal. cbn [flat]. rewrite flat_app by apply length_unflat.
  rewrite flat_unflat by assumption. rewrite prod_app. cbn [prod fold_right flat]. nia.
Qed.

(** The columns of the processed input: the features and, with bias, a one. *)
Definition withone (bias : bool) (d : nat) (f : nat -> F) (i : nat) : F := if Nat.ltb i d then f i else 1.

Lemma finish_input_ok bias x n d :
  shape x = [n; d] ->
  finish_input bias x =
  Ok (tab2 n (if bias then d + 1 else d) (fun r i => withone bias d (get2 x r) i / fsqrt (fofnat n))).
Proof.
  intros H. unfold finish_input. destruct bias.
  - rewrite (rows_of _ _ _ H), (t_cat1_ok x (ones [n; 1%nat]) d 1 n) by (assumption || reflexivity). cbn [bind].
    change (rows (tab2 n (d + 1) _)) with n. unfold t_divs. rewrite (t_map_ok2 _ _ n (d + 1)) by reflexivity.
    f_equal. apply tab2_ext. intros i j Hi Hj. tsimp. unfold withone. destruct (Nat.ltb_spec j d); [reflexivity|].
    replace (get2 (ones [n; 1%nat]) i (j - d)) with (1 : F); [reflexivity|].
    unfold get2, ones. rewrite tget_tab; [reflexivity|]. apply in_range2; lia.
  - cbn [bind]. rewrite (rows_of _ _ _ H). unfold t_divs. rewrite (t_map_ok2 _ _ n d) by assumption.
    f_equal. apply tab2_ext. intros i j Hi Hj. unfold withone. destruct (Nat.ltb_spec j d); [reflexivity|lia].
Qed.

Lemma linear_process_input_expand x bias b mid d :
  shape x = b :: mid ++ [d] ->
  exists A, linear_process_input x bias Expand = Ok A /\
    shape A = [(b * prod mid)%nat; (if bias then d + 1 else d)%nat] /\
    forall n s i, (n < b)%nat -> (s < prod mid)%nat -> (i < (if bias then d + 1 else d))%nat ->
      get2 A (n * prod mid + s) i = withone bias d (bget x mid n s) i / fsqrt (fofnat (b * prod mid)).
Proof.
  intros H. unfold linear_process_input. rewrite (bsd_ok _ _ _ _ H). cbn [bind].
  destruct (reshape2_ok x b mid d H) as (t' & -> & S' & G). cbn [bind].
  rewrite (finish_input_ok bias t' _ _ S'). eexists. split; [reflexivity|]. split; [reflexivity|].
  intros n s i Hn Hs Hi. assert (n * prod mid + s < b * prod mid)%nat by nia.
  rewrite get2_tab2 by assumption. unfold withone. destruct (Nat.ltb_spec i d); [|reflexivity].
  rewrite G by assumption. reflexivity.
Qed.

Lemma linear_process_input_reduce x bias b mid d :
  shape x = b :: mid ++ [d] ->
  exists A, linear_process_input x bias Reduce = Ok A /\
    shape A = [b; (if bias then d + 1 else d)%nat] /\
    forall n i, (n < b)%nat -> (i < (if bias then d + 1 else d))%nat ->
      get2 A n i = withone bias d (fun i => sum (prod mid) (fun s => bget x mid n s i) / fofnat (prod mid)) i
                   / fsqrt (fofnat b).
Proof.
  intros H. unfold linear_process_input. rewrite (bsd_ok _ _ _ _ H). cbn [bind].
  destruct (reshape3_ok x b mid d H) as (t' & -> & S' & G). cbn [bind].
  rewrite (finish_input_ok bias _ b d) by reflexivity. eexists. split; [reflexivity|]. split; [reflexivity|].
  intros n i Hn Hi. rewrite get2_tab2 by assumption. unfold withone. destruct (Nat.ltb_spec i d); [|reflexivity].
  rewrite get2_tab2 by assumption. do 2 f_equal. apply sum_ext. intros s Hs. apply G; assumption.
Qed.

Lemma linear_process_grad_expand g la b mid d :
  shape g = b :: mid ++ [d] ->
  exists B, linear_process_grad_output g la Expand = Ok B /\ shape B = [(b * prod mid)%nat; d] /\
    forall n s i, (n < b)%nat -> (s < prod mid)%nat -> (i < d)%nat ->
      get2 B (n * prod mid + s) i = loss_scaling la b (prod mid) * bget g mid n s i.
Proof.
  intros H. unfold linear_process_grad_output. rewrite (bsd_ok _ _ _ _ H). cbn [bind].
  destruct (reshape2_ok g b mid d H) as (t' & -> & S' & G). cbn [bind].
  unfold t_scale. rewrite (t_map_ok2 _ _ _ _ S'). eexists. split; [reflexivity|]. split; [reflexivity|].
  intros n s i Hn Hs Hi. assert (n * prod mid + s < b * prod mid)%nat by nia.
  rewrite get2_tab2 by assumption. rewrite G by assumption. reflexivity.
Qed.

Lemma linear_process_grad_reduce g la b mid d :
  shape g = b :: mid ++ [d] ->
  exists B, linear_process_grad_output g la Reduce = Ok B /\ shape B = [b; d] /\
    forall n i, (n < b)%nat -> (i < d)%nat ->
      get2 B n i = loss_scaling la b (prod mid) * sum (prod mid) (fun s => bget g mid n s i).
Proof.
  intros H. unfold linear_process_grad_output. rewrite (bsd_ok _ _ _ _ H). cbn [bind].
  destruct (reshape3_ok g b mid d H) as (t' & -> & S' & G). cbn [bind].
  unfold t_scale. rewrite (t_map_ok2 _ _ b d) by reflexivity. eexists. split; [reflexivity|]. split; [reflexivity|].
  intros n i Hn Hi. rewrite !get2_tab2 by assumption. f_equal. apply sum_ext. intros s Hs. apply G; assumption.
Qed.

Lemma conv_process_grad_expand g la b c o1 o2 :
  shape g = [b; c; o1; o2] ->
  exists B, conv2d_process_grad_output g la Expand = Ok B /\ shape B = [(b * o1 * o2)%nat; c] /\
    forall n u v j, (n < b)%nat -> (u < o1)%nat -> (v < o2)%nat -> (j < c)%nat ->
      get2 B (n * (o1 * o2) + (u * o2 + v)) j = loss_scaling la b (o1 * o2) * get4 g n j u v.
Proof.
  intros H. unfold conv2d_process_grad_output. rewrite H. unfold t_scale.
  rewrite (t_map_ok2 _ _ (b * o1 * o2) c) by reflexivity. eexists. split; [reflexivity|]. split; [reflexivity|].
  intros n u v j Hn Hu Hv Hj. pose proof (idx3_lt n u v b o1 o2 Hn Hu Hv) as L.
  rewrite !get2_tab2 by assumption. f_equal.
  pose proof (idx2_lt u v o1 o2 Hu Hv) as L2.
  rewrite (idx2_div n (u * o2 + v) (o1 * o2) L2), (idx2_mod n (u * o2 + v) (o1 * o2) L2), (idx2_div u v o2 Hv).
  replace (n * (o1 * o2) + (u * o2 + v))%nat with ((n * o1 + u) * o2 + v)%nat by ring.
  rewrite (idx2_mod _ v o2 Hv). reflexivity.
Qed.

Lemma conv_process_grad_reduce g la b c o1 o2 :
  shape g = [b; c; o1; o2] ->
  exists B, conv2d_process_grad_output g la Reduce = Ok B /\ shape B = [b; c] /\
    forall n j, (n < b)%nat -> (j < c)%nat ->
      get2 B n j = loss_scaling la b (o1 * o2) * sum o1 (fun u => sum o2 (fun v => get4 g n j u v)).
Proof.
  intros H. unfold conv2d_process_grad_output. rewrite H. unfold t_scale.
  rewrite (t_map_ok2 _ _ b c) by reflexivity. eexists. split; [reflexivity|]. split; [reflexivity|].
  intros n j Hn Hj. rewrite !get2_tab2 by assumption. reflexivity.
Qed.

(** ** Convolutions *)

(** Padding of an axis in front: integers, "valid", "same". *)
Definition pad_front (p : padding) (pint k d : nat) : nat :=
  match p with PadInt _ _ => pint | PadSame => d * (k - 1) / 2 | _ => O end.
Definition pad_back (p : padding) (pint k d : nat) : nat :=
  match p with PadInt _ _ => pint | PadSame => d * (k - 1) - d * (k - 1) / 2 | _ => O end.
Definition pint1 (p : padding) : nat := match p with PadInt p1 _ => p1 | _ => O end.
Definition pint2 (p : padding) : nat := match p with PadInt _ p2 => p2 | _ => O end.

(** Value of a zero-padded axis of size [i] at an integer position. *)
Definition zget (i : nat) (z : Z) (v : nat -> F) : F :=
  if ((0 <=? z)%Z && (z <? Z.of_nat i)%Z)%bool then v (Z.to_nat z) else 0.

Lemma padded_zget i p q v : padded i p q v = zget i (Z.of_nat q - Z.of_nat p) v.
Proof.
  unfold padded, zget. destruct (Nat.leb_spec p q), (Nat.ltb_spec (q - p) i),
    (Z.leb_spec 0 (Z.of_nat q - Z.of_nat p)), (Z.ltb_spec (Z.of_nat q - Z.of_nat p) (Z.of_nat i)); try lia; cbn [andb].
  - f_equal. lia.
  - reflexivity.
  - reflexivity.
  - reflexivity.
Qed.

(** The input value (averaged over the channel groups) kernel position (u, v) of channel [ci]
    sees at output position (o1, o2). *)
Definition patch (x : tensor) (c : conv) (n o1 o2 ci u v : nat) : F :=
  match shape x with
  | [_; _; i1; i2] =>
      let pos o s k d p := (Z.of_nat o * Z.of_nat s + Z.of_nat k * Z.of_nat d - Z.of_nat p)%Z in
      let p1 := pad_front (cv_pad c) (pint1 (cv_pad c)) (cv_k1 c) (cv_d1 c) in
      let p2 := pad_front (cv_pad c) (pint2 (cv_pad c)) (cv_k2 c) (cv_d2 c) in
      zget i1 (pos o1 (cv_s1 c) u (cv_d1 c) p1) (fun a =>
      zget i2 (pos o2 (cv_s2 c) v (cv_d2 c) p2) (fun e =>
        sum (cv_groups c) (fun g => get4 x n (g * (cv_in c / cv_groups c) + ci) a e) / fofnat (cv_groups c)))
  | _ => 0
  end.

(** Along a padded axis of size [i + pl + pr] the kernel (size [k], dilation [d]) fits at the positions [0, s, 2 s, ...] up to the [o]-th. *)
Definition fits_at (i k s d pl pr o : nat) : Prop :=
  (0 < k /\ 0 < s /\ 0 < d /\ 0 < o /\ forall u, u < o <-> u * s + d * (k - 1) < i + pl + pr)%nat.
(** The number of output positions per axis of the layer on inputs of size (i1, i2). *)
Definition outs (c : conv) (i1 i2 o1 o2 : nat) : Prop :=
  fits_at i1 (cv_k1 c) (cv_s1 c) (cv_d1 c) (pad_front (cv_pad c) (pint1 (cv_pad c)) (cv_k1 c) (cv_d1 c))
    (pad_back (cv_pad c) (pint1 (cv_pad c)) (cv_k1 c) (cv_d1 c)) o1 /\
  fits_at i2 (cv_k2 c) (cv_s2 c) (cv_d2 c) (pad_front (cv_pad c) (pint2 (cv_pad c)) (cv_k2 c) (cv_d2 c))
    (pad_back (cv_pad c) (pint2 (cv_pad c)) (cv_k2 c) (cv_d2 c)) o2.

Lemma fits_at_formula i k s d pl pr o :
  (0 < k)%nat -> (0 < s)%nat -> (0 < d)%nat -> (fits_at i k s d pl pr o <-> (d * (k - 1) < i + pl + pr)%nat /\ o = ((i + pl + pr - (d * (k - 1) + 1)) / s + 1)%nat).
Proof.
  intros Hk Hs Hd. set (n := (i + pl + pr)%nat). set (w := (d * (k - 1))%nat).
  assert (X : forall u, (w < n)%nat -> ((u < (n - (w + 1)) / s + 1)%nat <-> (u * s + w < n)%nat)).
  { intros u L. pose proof (Nat.div_mod (n - (w + 1)) s ltac:(lia)) as E. pose proof (Nat.mod_upper_bound (n - (w + 1)) s ltac:(lia)) as B.
    set (q := ((n - (w + 1)) / s)%nat) in *. split; intros H; [|destruct (Nat.lt_ge_cases u (q + 1)) as [C|C]; [exact C|]]; nia. }
  unfold fits_at. fold n w. split.
  - intros (_ & _ & _ & P & A). assert (L : (w < n)%nat) by (apply (A O) in P; lia). split; [exact L|].
    pose proof (A (o - 1)%nat) as A1. pose proof (A o) as A2. rewrite <- X in A1, A2 by exact L. destruct A1 as [A1 _]. destruct A2 as [_ A2]. 
    assert (~ (o < (n - (w + 1)) / s + 1)%nat) by (intros C; apply A2 in C; lia). specialize (A1 ltac:(lia)). lia.
  - intros [L ->]. repeat split; try assumption; try lia; apply X; exact L.
Qed.
Lemma fits_at_out_size i k s d pl pr o : fits_at i k s d pl pr o <-> out_size i k s d pl pr = Some o.
Proof.
  unfold out_size. destruct (Nat.eqb_spec k 0) as [->|Hk]; [split; [intros (C & _); lia|discriminate]|]. destruct (Nat.eqb_spec s 0) as [->|Hs]; [split; [intros (_ & C & _); lia|discriminate]|].
  destruct (Nat.eqb_spec d 0) as [->|Hd]; [split; [intros (_ & _ & C & _); lia|discriminate]|]. cbn [orb]. rewrite fits_at_formula by lia.
  destruct (Nat.leb_spec (d * (k - 1) + 1) (i + pl + pr)).
  - split; [intros [_ ->]; reflexivity|]. intros E. injection E as <-. split; [lia|reflexivity].
  - split; [intros [C _]; lia|discriminate].
Qed.
Lemma outs_of c i1 i2 o1 o2 :
  out_size i1 (cv_k1 c) (cv_s1 c) (cv_d1 c) (pad_front (cv_pad c) (pint1 (cv_pad c)) (cv_k1 c) (cv_d1 c))
    (pad_back (cv_pad c) (pint1 (cv_pad c)) (cv_k1 c) (cv_d1 c)) = Some o1 ->
  out_size i2 (cv_k2 c) (cv_s2 c) (cv_d2 c) (pad_front (cv_pad c) (pint2 (cv_pad c)) (cv_k2 c) (cv_d2 c))
    (pad_back (cv_pad c) (pint2 (cv_pad c)) (cv_k2 c) (cv_d2 c)) = Some o2 -> outs c i1 i2 o1 o2.
Proof. intros H1 H2. split; apply fits_at_out_size; assumption. Qed.

(** Equal padding on both ends. *)
Definition even_pad (c : conv) : Prop :=
  pad_front (cv_pad c) (pint1 (cv_pad c)) (cv_k1 c) (cv_d1 c) = pad_back (cv_pad c) (pint1 (cv_pad c)) (cv_k1 c) (cv_d1 c) /\
  pad_front (cv_pad c) (pint2 (cv_pad c)) (cv_k2 c) (cv_d2 c) = pad_back (cv_pad c) (pint2 (cv_pad c)) (cv_k2 c) (cv_d2 c).

Lemma average_groups_ok x b c i1 i2 g :
  shape x = [b; c; i1; i2] -> g <> O -> (c mod g = 0)%nat ->
  average_groups x g =
  Ok (tab4 b (c / g) i1 i2 (fun n ci u v => sum g (fun k => get4 x n (k * (c / g) + ci) u v) / fofnat g)).
Proof.
  intros H Hg Hm. unfold average_groups. rewrite H. destruct (Nat.eqb_spec g 0); [contradiction|].
  rewrite Hm. reflexivity.
Qed.

Lemma paddings_ok c k s d pint :
  match cv_pad c with PadSame => s = 1%nat | PadOther => False | PadInt _ _ => False | _ => True end ->
  get_conv_paddings k s d (cv_pad c) = Ok (pad_front (cv_pad c) pint k d, pad_back (cv_pad c) pint k d).
Proof. destruct (cv_pad c); intros H; try contradiction; cbn; [subst s; reflexivity|reflexivity]. Qed.

(** Index of kernel entry (ci, u, v) in the flattened patch. *)
Definition kidx (c : conv) (ci u v : nat) : nat := ((ci * cv_k1 c + u) * cv_k2 c + v)%nat.

Lemma kidx_split k1 k2 ci u v :
  (u < k1)%nat -> (v < k2)%nat ->
  (((ci * k1 + u) * k2 + v) / (k1 * k2) = ci /\ (((ci * k1 + u) * k2 + v) mod (k1 * k2)) / k2 = u /\
   ((ci * k1 + u) * k2 + v) mod k2 = v)%nat.
Proof.
  intros Hu Hv. pose proof (idx2_lt u v k1 k2 Hu Hv) as L2.
  replace ((ci * k1 + u) * k2 + v)%nat with (ci * (k1 * k2) + (u * k2 + v))%nat by ring.
  rewrite (idx2_div ci _ _ L2), (idx2_mod ci _ _ L2), (idx2_div u v k2 Hv).
  replace (ci * (k1 * k2) + (u * k2 + v))%nat with ((ci * k1 + u) * k2 + v)%nat by ring.
  rewrite (idx2_mod _ v k2 Hv). auto.
Qed.

Lemma kidx_lt c ci u v n :
  (ci < n)%nat -> (u < cv_k1 c)%nat -> (v < cv_k2 c)%nat -> (kidx c ci u v < n * cv_k1 c * cv_k2 c)%nat.
Proof. intros. unfold kidx. apply idx2_lt; [|assumption]. apply idx2_lt; assumption. Qed.

Lemma zget_ext i z f g : (forall a, (a < i)%nat -> f a = g a) -> zget i z f = zget i z g.
Proof.
  intros H. unfold zget. destruct (Z.leb_spec 0 z), (Z.ltb_spec z (Z.of_nat i)); cbn [andb]; try reflexivity.
  apply H. lia.
Qed.

Lemma extract_patches_ok x c b i1 i2 o1 o2 :
  conv_ok c -> shape x = [b; cv_in c; i1; i2] -> outs c i1 i2 o1 o2 -> even_pad c ->
  exists P, extract_patches x (cv_k1 c) (cv_k2 c) (cv_s1 c) (cv_s2 c) (cv_pad c) (cv_d1 c) (cv_d2 c) (cv_groups c) = Ok P /\
    shape P = [b; (o1 * o2)%nat; (cv_in c / cv_groups c * cv_k1 c * cv_k2 c)%nat] /\
    forall n u1 u2 ci u v, (n < b)%nat -> (u1 < o1)%nat -> (u2 < o2)%nat -> (ci < cv_in c / cv_groups c)%nat ->
      (u < cv_k1 c)%nat -> (v < cv_k2 c)%nat ->
      get3 P n (u1 * o2 + u2) (kidx c ci u v) = patch x c n u1 u2 ci u v.
Proof.
  intros (Hin & Hout & Hk1 & Hk2 & Hs1 & Hs2 & Hd1 & Hd2 & Hg & Hmi & Hmo & Hp) Hx (HO1 & HO2) (Hev1 & Hev2).
  unfold extract_patches.
  assert (EP : (let* ' (p1, p2) :=
    match cv_pad c with
    | PadInt p1 p2 => Ok (p1, p2)
    | _ =>
        let* '(l1, r1) := get_conv_paddings (cv_k1 c) (cv_s1 c) (cv_d1 c) (cv_pad c) in
        let* _ := check (Nat.eqb l1 r1) NotImplementedError in
        let* '(l2, r2) := get_conv_paddings (cv_k2 c) (cv_s2 c) (cv_d2 c) (cv_pad c) in
        let* _ := check (Nat.eqb l2 r2) NotImplementedError in
        Ok (l1, l2)
    end in Ok (p1, p2)) = Ok (pad_front (cv_pad c) (pint1 (cv_pad c)) (cv_k1 c) (cv_d1 c),
                              pad_front (cv_pad c) (pint2 (cv_pad c)) (cv_k2 c) (cv_d2 c))).
  { pose proof (paddings_ok c (cv_k1 c) (cv_s1 c) (cv_d1 c) (pint1 (cv_pad c))) as Q1.
    pose proof (paddings_ok c (cv_k2 c) (cv_s2 c) (cv_d2 c) (pint2 (cv_pad c))) as Q2.
    destruct (cv_pad c); try contradiction; [reflexivity| |];
      (rewrite Q1, Q2 by intuition); cbn [bind]; rewrite <- Hev1, <- Hev2, !Nat.eqb_refl; reflexivity. }
  match type of EP with (let* ' _ := ?m in _) = _ =>
    assert (EP' : m = Ok (pad_front (cv_pad c) (pint1 (cv_pad c)) (cv_k1 c) (cv_d1 c),
                              pad_front (cv_pad c) (pint2 (cv_pad c)) (cv_k2 c) (cv_d2 c)))
      by (destruct m as [[? ?]|]; cbn in EP; congruence) end.
  rewrite EP'. cbn [bind]. clear EP EP'.
  rewrite (average_groups_ok x b (cv_in c) i1 i2 (cv_groups c)) by (assumption || lia). cbn [bind].
  unfold unfold. cbn [shape tab4 tab].
  set (p1 := pad_front (cv_pad c) (pint1 (cv_pad c)) (cv_k1 c) (cv_d1 c)) in *.
  set (p2 := pad_front (cv_pad c) (pint2 (cv_pad c)) (cv_k2 c) (cv_d2 c)) in *.
  rewrite <- Hev1 in HO1. rewrite <- Hev2 in HO2. rewrite (proj1 (fits_at_out_size _ _ _ _ _ _ _) HO1), (proj1 (fits_at_out_size _ _ _ _ _ _ _) HO2). cbn [bind].
  cbn [shape tab3 tab]. eexists. split; [reflexivity|]. split; [reflexivity|].
  intros n u1 u2 ci u v Hn Hu1 Hu2 Hci Hu Hv.
  pose proof (kidx_lt c ci u v _ Hci Hu Hv) as LK.
  assert (LO : (u1 * o2 + u2 < o1 * o2)%nat) by nia.
  rewrite get3_tab3 by assumption. fold (@tab3 SC).
  rewrite get3_tab3 by assumption. cbv zeta.
  unfold kidx at 1 2 3. destruct (kidx_split (cv_k1 c) (cv_k2 c) ci u v Hu Hv) as (-> & -> & ->).
  assert (E1 : ((u1 * o2 + u2) / o2 = u1)%nat) by (symmetry; apply (Nat.div_unique _ _ _ u2); lia).
  assert (E2 : ((u1 * o2 + u2) mod o2 = u2)%nat) by (symmetry; apply (Nat.mod_unique _ _ u1); lia).
  rewrite E1, E2. rewrite padded_zget. unfold patch. rewrite Hx. fold p1 p2. cbv zeta.
  replace (Z.of_nat (u1 * cv_s1 c + u * cv_d1 c) - Z.of_nat p1)%Z
    with (Z.of_nat u1 * Z.of_nat (cv_s1 c) + Z.of_nat u * Z.of_nat (cv_d1 c) - Z.of_nat p1)%Z by lia.
  apply zget_ext. intros a Ha. rewrite padded_zget.
  replace (Z.of_nat (u2 * cv_s2 c + v * cv_d2 c) - Z.of_nat p2)%Z
    with (Z.of_nat u2 * Z.of_nat (cv_s2 c) + Z.of_nat v * Z.of_nat (cv_d2 c) - Z.of_nat p2)%Z by lia.
  apply zget_ext. intros e He. change (get4 (tab4 b (cv_in c / cv_groups c) i1 i2
    (fun n ci u v : nat => sum (cv_groups c) (fun k => get4 x n (k * (cv_in c / cv_groups c) + ci) u v) / fofnat (cv_groups c))) n ci a e = sum (cv_groups c) (fun g => get4 x n (g * (cv_in c / cv_groups c) + ci) a e) / fofnat (cv_groups c)).
  rewrite get4_tab4 by assumption. reflexivity.
Qed.

Lemma reshape_grad t n rest :
  shape t = n :: rest ->
  exists t', t_reshape t [n; prod rest] = Ok t' /\ shape t' = [n; prod rest] /\ data t' = data t.
Proof.
  intros H. destruct (t_reshape_ok t [n; prod rest]) as (t' & E & S' & D').
  { unfold numel. rewrite H. unfold prod. cbn. lia. }
  eauto.
Qed.

End Facts.

Section Algebra.
Context {SC : Scalar} {FL : FieldLaws SC}.
Open Scope F_scope.
Add Field Ffield_u : F_ft.

Lemma sum_zget i p q (f : nat -> F) :
  sum i (fun a => f a * (if Nat.eqb (a + p) q then 1 else 0)) = zget i (Z.of_nat q - Z.of_nat p) f.
Proof.
  unfold zget. destruct (Z.leb_spec 0 (Z.of_nat q - Z.of_nat p)), (Z.ltb_spec (Z.of_nat q - Z.of_nat p) (Z.of_nat i)); cbn [andb].
  - rewrite (sum_single i (Z.to_nat (Z.of_nat q - Z.of_nat p))).
    + destruct (Nat.eqb_spec (Z.to_nat (Z.of_nat q - Z.of_nat p) + p) q); [ring|lia].
    + lia.
    + intros a Ha Hne. destruct (Nat.eqb_spec (a + p) q); [lia|ring].
  - apply sum_0. intros a Ha. destruct (Nat.eqb_spec (a + p) q); [lia|ring].
  - apply sum_0. intros a Ha. destruct (Nat.eqb_spec (a + p) q); [lia|ring].
  - apply sum_0. intros a Ha. destruct (Nat.eqb_spec (a + p) q); [lia|ring].
Qed.

Lemma sum_pattern i o q p (f : nat -> F) :
  sum i (fun a => f a * sum o (fun b => if Nat.eqb (a + p) (q b) then 1 else 0)) =
  sum o (fun b => zget i (Z.of_nat (q b) - Z.of_nat p) f).
Proof.
  rewrite (sum_ext i _ (fun a => sum o (fun b => f a * (if Nat.eqb (a + p) (q b) then 1 else 0)))).
  2:{ intros. rewrite sum_scale_l. reflexivity. }
  rewrite sum_swap. apply sum_ext. intros. apply sum_zget.
Qed.

Lemma out_size_pos i k s d pl pr o : fits_at i k s d pl pr o -> o <> O.
Proof. intros (_ & _ & _ & H & _). lia. Qed.

Lemma index_pattern_ok c i k s d pint o :
  match cv_pad c with PadSame => s = 1%nat | PadOther => False | _ => True end ->
  fits_at i k s d (pad_front (cv_pad c) pint k d) (pad_back (cv_pad c) pint k d) o ->
  index_pattern i k s d (cv_pad c) pint =
  Ok (tab3 k o i (fun a b e => if Nat.eqb (e + pad_front (cv_pad c) pint k d) (b * s + a * d) then 1 else 0)).
Proof.
  intros Hp Ho. apply fits_at_out_size in Ho. unfold index_pattern. destruct (cv_pad c) eqn:Ec; try contradiction; cbn [pad_front pad_back] in *.
  - cbn [bind]. rewrite Ho. reflexivity.
  - unfold get_conv_paddings. rewrite Hp. cbn [Nat.eqb negb bind]. rewrite Hp in Ho. rewrite Ho. reflexivity.
  - cbn [get_conv_paddings bind]. rewrite Ho. reflexivity.
Qed.

Lemma extract_averaged_patches_ok x c b i1 i2 o1 o2 :
  conv_ok c -> shape x = [b; cv_in c; i1; i2] -> outs c i1 i2 o1 o2 ->
  exists P, extract_averaged_patches x (cv_k1 c) (cv_k2 c) (cv_s1 c) (cv_s2 c) (cv_pad c) (cv_d1 c) (cv_d2 c) (cv_groups c) = Ok P /\
    shape P = [b; (cv_in c / cv_groups c * cv_k1 c * cv_k2 c)%nat] /\
    forall n ci u v, (n < b)%nat -> (ci < cv_in c / cv_groups c)%nat -> (u < cv_k1 c)%nat -> (v < cv_k2 c)%nat ->
      get2 P n (kidx c ci u v) =
      sum o1 (fun u1 => sum o2 (fun u2 => patch x c n u1 u2 ci u v)) / fofnat (o1 * o2).
Proof.
  intros (Hin & Hout & Hk1 & Hk2 & Hs1 & Hs2 & Hd1 & Hd2 & Hg & Hmi & Hmo & Hp) Hx (HO1 & HO2).
  unfold extract_averaged_patches.
  rewrite (average_groups_ok x b (cv_in c) i1 i2 (cv_groups c)) by (assumption || lia). cbn [bind].
  set (X := fun n ci u v : nat => sum (cv_groups c) (fun k => get4 x n (k * (cv_in c / cv_groups c) + ci) u v) / fofnat (cv_groups c)).
  cbn [shape tab4 tab].
  replace (match cv_pad c with PadInt p1 p2 => (p1, p2) | _ => (O, O) end) with (pint1 (cv_pad c), pint2 (cv_pad c))
    by (destruct (cv_pad c); reflexivity).
  rewrite (index_pattern_ok c i1 (cv_k1 c) (cv_s1 c) (cv_d1 c) (pint1 (cv_pad c)) o1);
    [|destruct (cv_pad c); intuition|exact HO1].
  rewrite (index_pattern_ok c i2 (cv_k2 c) (cv_s2 c) (cv_d2 c) (pint2 (cv_pad c)) o2);
    [|destruct (cv_pad c); intuition|exact HO2].
  set (p1 := pad_front (cv_pad c) (pint1 (cv_pad c)) (cv_k1 c) (cv_d1 c)) in *.
  set (p2 := pad_front (cv_pad c) (pint2 (cv_pad c)) (cv_k2 c) (cv_d2 c)) in *.
  cbn [bind]. unfold mean_mid. cbn [shape tab3 tab bind]. fold (@tab3 SC).
  eexists. split; [reflexivity|]. split; [reflexivity|].
  intros n ci u v Hn Hci Hu Hv. pose proof (kidx_lt c ci u v _ Hci Hu Hv) as LK.
  rewrite get2_tab2 by assumption. cbv zeta. unfold kidx.
  destruct (kidx_split (cv_k1 c) (cv_k2 c) ci u v Hu Hv) as (-> & -> & ->).
  pose proof (out_size_pos _ _ _ _ _ _ _ HO1) as P1. pose proof (out_size_pos _ _ _ _ _ _ _ HO2) as P2.
  assert (N1 : fofnat o1 <> 0) by (apply fofnat_neq0; exact P1).
  assert (N2 : fofnat o2 <> 0) by (apply fofnat_neq0; exact P2).
  transitivity (sum i1 (fun a => sum i2 (fun e =>
      X n ci a e * sum o2 (fun b' => if Nat.eqb (e + p2) (b' * cv_s2 c + v * cv_d2 c) then 1 else 0))
      * sum o1 (fun b' => if Nat.eqb (a + p1) (b' * cv_s1 c + u * cv_d1 c) then 1 else 0)) / (fofnat o1 * fofnat o2)).
  { transitivity (sum i1 (fun a => (sum i2 (fun e =>
      X n ci a e * sum o2 (fun b' => if Nat.eqb (e + p2) (b' * cv_s2 c + v * cv_d2 c) then 1 else 0))
      * sum o1 (fun b' => if Nat.eqb (a + p1) (b' * cv_s1 c + u * cv_d1 c) then 1 else 0)) * (1 / (fofnat o1 * fofnat o2)))).
    2:{ rewrite sum_scale_r. field. split; assumption. }
    apply sum_ext. intros a Ha. rewrite <- !sum_scale_r. apply sum_ext. intros e He.
    change (get4 (tab [b; (cv_in c / cv_groups c)%nat; i1; i2] _) n ci a e) with (get4 (tab4 b (cv_in c / cv_groups c) i1 i2 X) n ci a e).
    rewrite get4_tab4 by assumption. rewrite !get2_tab2 by assumption.
    rewrite (sum_ext o1 _ (fun b' => if Nat.eqb (a + p1) (b' * cv_s1 c + u * cv_d1 c) then 1 else 0)).
    2:{ intros b' Hb'. rewrite get3_tab3 by assumption. reflexivity. }
    rewrite (sum_ext o2 _ (fun b' => if Nat.eqb (e + p2) (b' * cv_s2 c + v * cv_d2 c) then 1 else 0)).
    2:{ intros b' Hb'. rewrite get3_tab3 by assumption. reflexivity. }
    field. split; assumption. }
  rewrite fofnat_mul. f_equal. 
  rewrite (sum_ext i1 _ (fun a => sum o2 (fun b' => zget i2 (Z.of_nat (b' * cv_s2 c + v * cv_d2 c) - Z.of_nat p2) (X n ci a)) *
      sum o1 (fun b' => if Nat.eqb (a + p1) (b' * cv_s1 c + u * cv_d1 c) then 1 else 0))).
  2:{ intros a Ha. f_equal. apply (sum_pattern i2 o2 (fun b' => (b' * cv_s2 c + v * cv_d2 c)%nat) p2 (X n ci a)). }
  rewrite (sum_pattern i1 o1 (fun b' => (b' * cv_s1 c + u * cv_d1 c)%nat) p1
             (fun a => sum o2 (fun b' => zget i2 (Z.of_nat (b' * cv_s2 c + v * cv_d2 c) - Z.of_nat p2) (X n ci a)))).
  apply sum_ext. intros u1 Hu1. unfold patch. rewrite Hx. fold p1 p2. cbv zeta.
  replace (Z.of_nat (u1 * cv_s1 c + u * cv_d1 c) - Z.of_nat p1)%Z
    with (Z.of_nat u1 * Z.of_nat (cv_s1 c) + Z.of_nat u * Z.of_nat (cv_d1 c) - Z.of_nat p1)%Z by lia.
  set (z1 := (Z.of_nat u1 * Z.of_nat (cv_s1 c) + Z.of_nat u * Z.of_nat (cv_d1 c) - Z.of_nat p1)%Z).
  transitivity (sum o2 (fun b' => zget i1 z1 (fun a => zget i2 (Z.of_nat (b' * cv_s2 c + v * cv_d2 c) - Z.of_nat p2) (X n ci a)))).
  { unfold zget at 1 3. destruct ((0 <=? z1)%Z && (z1 <? Z.of_nat i1)%Z)%bool; [reflexivity|].
    symmetry. apply sum_0. reflexivity. }
  apply sum_ext. intros u2 Hu2. apply zget_ext. intros a Ha.
  replace (Z.of_nat (u2 * cv_s2 c + v * cv_d2 c) - Z.of_nat p2)%Z
    with (Z.of_nat u2 * Z.of_nat (cv_s2 c) + Z.of_nat v * Z.of_nat (cv_d2 c) - Z.of_nat p2)%Z by lia.
  reflexivity.
Qed.

End Algebra.
