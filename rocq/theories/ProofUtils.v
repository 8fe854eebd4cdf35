(** Properties C39-C43 and C49: layer dimensions and statistics
    (singd/optim/utils.py and singd/optim/optimizer.py:430-454, 682-690, 721-730). *)

From Coq Require Import List Arith Lia Bool ZArith QArith Qcanon Field Ring.
From Verif Require Import Scalar Res Tensor TensorFacts Structures OptimUtils UtilsFacts QEx.
Import ListNotations.

Section Generic.
Context {SC : Scalar} {FL : FieldLaws SC} {SQ : SqrtLaws SC}.
Open Scope F_scope.
Add Field Ffield_pu : F_ft.

(** ** C49 *)

(** Number of kernel entries per output channel. *)
Definition fan (l : layer) : nat :=
  match l with
  | Linear d_in _ _ => d_in
  | Conv2d c => (cv_in c / cv_groups c * cv_k1 c * cv_k2 c)%nat
  | OtherModule => O
  end.
Definition n_out (l : layer) : nat :=
  match l with Linear _ d_out _ => d_out | Conv2d c => cv_out c | OtherModule => O end.
Definition supported (l : layer) : Prop := l <> OtherModule.

Lemma C49_dims_lemma l :
  supported l -> preconditioner_dims l = Ok ((if has_bias l then fan l + 1 else fan l)%nat, n_out l).
Proof.
  intros H. destruct l; [reflexivity| |congruence]. cbn.
  replace (cv_in c / cv_groups c * (cv_k1 c * (cv_k2 c * 1)))%nat with (cv_in c / cv_groups c * cv_k1 c * cv_k2 c)%nat by lia.
  reflexivity.
Qed.

Lemma C49_unsupported_lemma : preconditioner_dims OtherModule = Err NotImplementedError.
Proof. reflexivity. Qed.

Lemma weight_shape_eq l :
  supported l -> exists rest, weight_shape l = n_out l :: rest /\ prod rest = fan l /\ nth 0 (weight_shape l) O = n_out l.
Proof.
  intros H. destruct l; [| |congruence].
  - exists [d_in]. repeat split. unfold prod; cbn. lia.
  - exists [(cv_in c / cv_groups c)%nat; cv_k1 c; cv_k2 c]. repeat split. unfold prod; cbn. lia.
Qed.

Lemma C49_gradient_matrix_lemma l wg bg :
  supported l -> shape wg = weight_shape l ->
  match bg with Some b => has_bias l = true /\ shape b = [n_out l] | None => has_bias l = false end ->
  exists M, grad_matrix l wg bg = Ok M /\
    preconditioner_dims l = Ok (cols M, rows M) /\ shape M = [rows M; cols M] /\
    (forall i r, (i < n_out l)%nat -> (r < fan l)%nat -> get2 M i r = nth (i * fan l + r) (data wg) 0) /\
    (forall b i, bg = Some b -> (i < n_out l)%nat -> get2 M i (fan l) = get1 b i) /\
    split_matrix l M = Ok (wg, bg).
Proof.
  intros Hs Hw Hb. rewrite (C49_dims_lemma l Hs).
  destruct (weight_shape_eq l Hs) as (rest & Ew & Er & E0).
  (* the weight part *)
  assert (G : exists g, match l with
    | Linear _ _ _ => Ok wg
    | Conv2d _ => match shape wg with n :: rest => t_reshape wg [n; prod rest] | [] => Err IndexError end
    | OtherModule => Err NotImplementedError end = Ok g /\ shape g = [n_out l; fan l] /\ data g = data wg).
  { destruct l; [| |congruence].
    - exists wg. rewrite Hw. auto.
    - rewrite Hw, Ew. destruct (reshape_grad wg (n_out (Conv2d c)) rest) as (g & E & S' & D'); [congruence|].
      exists g. rewrite E, S', D', Er. auto. }
  destruct G as (g & Eg & Sg & Dg). unfold grad_matrix. 
  assert (Eg' : match l with
    | Linear _ _ _ => Ok wg
    | Conv2d _ => match shape wg with n :: rest => t_reshape wg [n; prod rest] | [] => Err IndexError end
    | OtherModule => Err NotImplementedError end = Ok g) by exact Eg.
  replace (match l with
    | Conv2d _ => match shape wg with n :: rest => t_reshape wg [n; prod rest] | [] => Err IndexError end
    | Linear _ _ _ => Ok wg
    | OtherModule => Err NotImplementedError end) with (Ok g : res tensor).
  cbn [bind].
  assert (Gg : forall i r, (i < n_out l)%nat -> (r < fan l)%nat -> get2 g i r = nth (i * fan l + r) (data wg) 0).
  { intros i r Hi Hr. unfold get2, tget. rewrite Sg, Dg. f_equal. unfold flat, prod; cbn. lia. }
  assert (RW : forall t, shape t = [n_out l; fan l] -> data t = data wg -> t_reshape t (weight_shape l) = Ok wg).
  { intros t St Dt. destruct (t_reshape_ok t (weight_shape l)) as (t' & -> & S' & D').
    - unfold numel. rewrite St, Ew. change (n_out l * (fan l * 1) = n_out l * prod rest)%nat. rewrite Er. lia.
    - f_equal. apply tensor_eq; congruence. }
  destruct bg as [b|].
  - destruct Hb as [Hb1 Hb2]. rewrite Hb2, Hb1.
    destruct (t_reshape_ok b [n_out l; 1%nat]) as (b' & -> & Sb & Db).
    { unfold numel. rewrite Hb2. unfold prod; cbn. lia. }
    cbn [bind]. rewrite (t_cat1_ok g b' (fan l) 1 (n_out l)) by assumption.
    eexists. split; [reflexivity|]. split; [reflexivity|]. split; [reflexivity|].
    assert (Gb : forall i, (i < n_out l)%nat -> get2 b' i 0 = get1 b i).
    { intros i Hi. unfold get2, get1, tget. rewrite Sb, Db, Hb2. f_equal; unfold flat, prod; cbn; lia. }
    split; [|split].
    + intros i r Hi Hr. tsimp. destruct (Nat.ltb_spec r (fan l)); [|lia]. apply Gg; assumption.
    + intros b0 i E Hi. injection E as <-. tsimp. rewrite Nat.ltb_irrefl, Nat.sub_diag. apply Gb; exact Hi.
    + unfold split_matrix. rewrite Hb1.
      change (rows (tab2 (n_out l) (fan l + 1) _)) with (n_out l). change (cols (tab2 (n_out l) (fan l + 1) _)) with (fan l + 1)%nat.
      rewrite (t_slice2_ok _ (n_out l) (fan l + 1)) by (reflexivity || lia).
      rewrite (t_slice2_ok _ (n_out l) (fan l + 1)) by (reflexivity || lia). cbn [bind].
      replace (tab2 (n_out l - 0) (fan l + 1 - 1 - 0) _) with g.
      2:{ rewrite <- (tab2_eta (n_out l) (fan l) g Sg). replace (n_out l - 0)%nat with (n_out l) by lia.
          replace (fan l + 1 - 1 - 0)%nat with (fan l) by lia. apply tab2_ext. intros i j Hi Hj. cbn [Nat.add].
          tsimp. destruct (Nat.ltb_spec j (fan l)); [reflexivity|lia]. }
      rewrite (RW g Sg Dg). cbn [bind].
      replace (tab2 (n_out l - 0) (fan l + 1 - (fan l + 1 - 1)) _) with b'.
      2:{ rewrite <- (tab2_eta (n_out l) 1 b' Sb). replace (n_out l - 0)%nat with (n_out l) by lia.
          replace (fan l + 1 - (fan l + 1 - 1))%nat with 1%nat by lia. apply tab2_ext. intros i j Hi Hj. cbn [Nat.add].
          tsimp. destruct (Nat.ltb_spec (fan l + 1 - 1 + j) (fan l)); [lia|]. f_equal. lia. }
      rewrite E0. destruct (t_reshape_ok b' [n_out l]) as (b2 & -> & S2 & D2).
      { unfold numel. rewrite Sb. unfold prod; cbn. lia. }
      cbn [bind]. do 3 f_equal. apply tensor_eq; congruence.
  - exists g. split; [reflexivity|]. rewrite Hb. rewrite (rows_of _ _ _ Sg), (cols_of _ _ _ _ Sg).
    split; [reflexivity|]. split; [exact Sg|]. split; [exact Gg|]. split; [discriminate|].
    unfold split_matrix. rewrite Hb, (RW g Sg Dg). reflexivity.
Qed.

Lemma C39_linear_dims_lemma x g d_in d_out (bias : bool) b mid la ka dK dC :
  shape x = b :: mid ++ [d_in] -> shape g = b :: mid ++ [d_out] ->
  ka = Expand \/ ka = Reduce -> la <> LossOther ->
  preconditioner_dims (Linear d_in d_out bias) = Ok (dK, dC) ->
  exists A B N, process_input x (Linear d_in d_out bias) ka = Ok A /\ shape A = [N; dK] /\
    process_grad_output g (Linear d_in d_out bias) la ka = Ok B /\ shape B = [N; dC] /\
    N = match ka with Expand => (b * prod mid)%nat | _ => b end.
Proof.
  intros Hx Hg Hka Hla Hd. cbn in Hd. injection Hd as <- <-.
  destruct Hka as [-> | ->].
  - destruct (linear_process_input_expand x bias b mid d_in Hx) as (A & EA & SA & _).
    destruct (linear_process_grad_expand g la b mid d_out Hg) as (B & EB & SB & _).
    exists A, B, (b * prod mid)%nat. destruct la; try congruence; repeat split; assumption.
  - destruct (linear_process_input_reduce x bias b mid d_in Hx) as (A & EA & SA & _).
    destruct (linear_process_grad_reduce g la b mid d_out Hg) as (B & EB & SB & _).
    exists A, B, b. destruct la; try congruence; repeat split; assumption.
Qed.

Lemma C39_conv_dims_lemma x g c b i1 i2 o1 o2 la ka dK dC :
  conv_ok c -> shape x = [b; cv_in c; i1; i2] -> outs c i1 i2 o1 o2 -> shape g = [b; cv_out c; o1; o2] ->
  (ka = Expand /\ even_pad c) \/ ka = Reduce -> la <> LossOther ->
  preconditioner_dims (Conv2d c) = Ok (dK, dC) ->
  exists A B N, process_input x (Conv2d c) ka = Ok A /\ shape A = [N; dK] /\
    process_grad_output g (Conv2d c) la ka = Ok B /\ shape B = [N; dC] /\
    N = match ka with Expand => (b * (o1 * o2))%nat | _ => b end.
Proof.
  intros Hc Hx Ho Hg Hka Hla Hd. rewrite (C49_dims_lemma (Conv2d c)) in Hd by discriminate.
  assert (EK : dK = (if cv_bias c then fan (Conv2d c) + 1 else fan (Conv2d c))%nat) by (cbn [has_bias] in Hd; congruence).
  assert (EC : dC = cv_out c) by (cbn [n_out] in Hd; congruence). subst dK dC. clear Hd.
  destruct Hka as [[-> Hev]| ->].
  - destruct (extract_patches_ok x c b i1 i2 o1 o2 Hc Hx Ho Hev) as (P & EP & SP & _).
    destruct (conv_process_grad_expand g la b (cv_out c) o1 o2 Hg) as (B & EB & SB & _).
    unfold process_input, conv2d_process_input. rewrite EP. cbn [bind]. rewrite SP.
    destruct (t_reshape_ok P [(b * (o1 * o2))%nat; (cv_in c / cv_groups c * cv_k1 c * cv_k2 c)%nat]) as (P' & -> & SP' & _).
    { unfold numel. rewrite SP. unfold prod; cbn. lia. }
    cbn [bind]. rewrite (finish_input_ok _ _ _ _ SP').
    eexists; exists B, (b * (o1 * o2))%nat. split; [reflexivity|]. split; [reflexivity|].
    split; [destruct la; try congruence; exact EB|]. rewrite SB. rewrite Nat.mul_assoc. auto.
  - destruct (extract_averaged_patches_ok x c b i1 i2 o1 o2 Hc Hx Ho) as (P & EP & SP & _).
    destruct (conv_process_grad_reduce g la b (cv_out c) o1 o2 Hg) as (B & EB & SB & _).
    unfold process_input, conv2d_process_input. rewrite EP. cbn [bind].
    rewrite (finish_input_ok _ _ _ _ SP).
    eexists; exists B, b. split; [reflexivity|]. split; [reflexivity|].
    split; [destruct la; try congruence; exact EB|]. auto.
Qed.

Lemma C39_uneven_same_padding_refuted_lemma x :
  exists c, conv_ok c /\ conv2d_process_input x c Expand = Err NotImplementedError.
Proof.
  exists (mkConv 1 1 2 2 1 1 PadSame 1 1 1 false ModeZeros). split; [repeat split; cbn; lia|]. reflexivity.
Qed.

Lemma C39_unbatched_refuted_lemma x :
  (forall d_in d_out bias ka, shape x = [d_in] -> is_ok (process_input x (Linear d_in d_out bias) ka) = false) /\
  (forall c i1 i2 ka, conv_ok c -> shape x = [cv_in c; i1; i2] -> cv_pad c = PadValid -> is_ok (process_input x (Conv2d c) ka) = false).
Proof.
  split.
  - intros d_in d_out bias ka H. destruct ka; [| |reflexivity]; cbn; unfold linear_process_input, bsd; rewrite H; reflexivity.
  - intros c i1 i2 ka Hc H Hp. destruct ka; [| |reflexivity]; cbn [process_input];
      unfold conv2d_process_input, extract_patches, extract_averaged_patches, average_groups; rewrite H; [rewrite Hp|]; reflexivity.
Qed.

(** ** C40 *)

Lemma get_gram A n d i j :
  shape A = [n; d] -> (i < d)%nat -> (j < d)%nat -> get2 (mm (tr A) A) i j = sum n (fun r => get2 A r i * get2 A r j).
Proof.
  intros H Hi Hj. rewrite (tr_ok _ _ _ H). rewrite get2_mm; rewrite ?(cols_of _ _ _ _ H); try assumption.
  change (cols (tab2 d n _)) with n. apply sum_ext. intros. tsimp. reflexivity.
Qed.

Lemma sqrt_mul_nat n : fsqrt (fofnat n) * fsqrt (fofnat n) = fofnat n.
Proof. apply fsqrt_sqr. apply fofnat_nonneg. Qed.

Lemma sqrt_neq0 n : n <> O -> fsqrt (fofnat n) <> 0.
Proof.
  intros Hn E. pose proof (sqrt_mul_nat n) as H. rewrite E in H. apply (fofnat_neq0 n Hn). rewrite <- H. ring.
Qed.

Lemma div_sqrt_mul n x y : n <> O -> x / fsqrt (fofnat n) * (y / fsqrt (fofnat n)) = x * y / fofnat n.
Proof.
  intros Hn. pose proof (sqrt_mul_nat n) as E. pose proof (sqrt_neq0 n Hn) as N0.
  set (s := fsqrt (fofnat n)) in *. rewrite <- E. field. exact N0.
Qed.

Lemma sum_div n f c : c <> 0 -> sum n (fun i => f i / c) = sum n f / c.
Proof.
  intros Hc. rewrite (sum_ext n _ (fun i => f i * (1 / c))) by (intros; field; exact Hc).
  rewrite sum_scale_r. field. exact Hc.
Qed.

Lemma C40_linear_input_expand_lemma x d_in d_out (bias : bool) b mid dK :
  shape x = b :: mid ++ [d_in] -> (b * prod mid <> 0)%nat -> dK = (if bias then d_in + 1 else d_in)%nat ->
  exists A, process_input x (Linear d_in d_out bias) Expand = Ok A /\
    forall i j, (i < dK)%nat -> (j < dK)%nat ->
    get2 (mm (tr A) A) i j =
    sum b (fun n => sum (prod mid) (fun s =>
      withone bias d_in (bget x mid n s) i * withone bias d_in (bget x mid n s) j)) / fofnat (b * prod mid).
Proof.
  intros Hx Hn ->. destruct (linear_process_input_expand x bias b mid d_in Hx) as (A & EA & SA & GA).
  exists A. split; [exact EA|]. intros i j Hi Hj. rewrite (get_gram _ _ _ _ _ SA Hi Hj). rewrite sum_blocks.
  pose proof (fofnat_neq0 _ Hn) as N0. rewrite <- sum_div by exact N0. apply sum_ext. intros n Hnb.
  rewrite <- sum_div by exact N0. apply sum_ext. intros s Hs.
  rewrite !GA by assumption. apply div_sqrt_mul. exact Hn.
Qed.

Lemma C40_linear_input_reduce_lemma x d_in d_out (bias : bool) b mid dK :
  shape x = b :: mid ++ [d_in] -> b <> O -> dK = (if bias then d_in + 1 else d_in)%nat ->
  let mean n := withone bias d_in (fun i => sum (prod mid) (fun s => bget x mid n s i) / fofnat (prod mid)) in
  exists A, process_input x (Linear d_in d_out bias) Reduce = Ok A /\
    forall i j, (i < dK)%nat -> (j < dK)%nat ->
    get2 (mm (tr A) A) i j = sum b (fun n => mean n i * mean n j) / fofnat b.
Proof.
  intros Hx Hn -> mean. destruct (linear_process_input_reduce x bias b mid d_in Hx) as (A & EA & SA & GA).
  exists A. split; [exact EA|]. intros i j Hi Hj. rewrite (get_gram _ _ _ _ _ SA Hi Hj).
  pose proof (fofnat_neq0 _ Hn) as N0. rewrite <- sum_div by exact N0. apply sum_ext. intros n Hnb.
  rewrite !GA by assumption. apply div_sqrt_mul. exact Hn.
Qed.

(** The factor applied to the output gradients' second moment. *)
Definition grad_factor (la : lossavg) (b s : nat) : F :=
  match la with LossSum => 1 | LossBatch => fofnat b | _ => fofnat (b * s) end.

Lemma loss_scaling_sq la b s : la <> LossOther -> loss_scaling la b s * loss_scaling la b s = grad_factor la b s.
Proof.
  destruct la; intros H; cbn [loss_scaling grad_factor]; [ring| | |congruence].
  - transitivity (fsqrt (fofnat b) * fsqrt (fofnat b)); [ring|apply sqrt_mul_nat].
  - transitivity (fsqrt (fofnat (b * s)) * fsqrt (fofnat (b * s))); [ring|apply sqrt_mul_nat].
Qed.

Lemma C40_linear_grad_expand_lemma g d_in d_out (bias : bool) la b mid :
  shape g = b :: mid ++ [d_out] -> la <> LossOther ->
  exists B, process_grad_output g (Linear d_in d_out bias) la Expand = Ok B /\
    forall i j, (i < d_out)%nat -> (j < d_out)%nat ->
    get2 (mm (tr B) B) i j =
    grad_factor la b (prod mid) * sum b (fun n => sum (prod mid) (fun s => bget g mid n s i * bget g mid n s j)).
Proof.
  intros Hg Hla. destruct (linear_process_grad_expand g la b mid d_out Hg) as (B & EB & SB & GB).
  exists B. split; [destruct la; try congruence; exact EB|]. intros i j Hi Hj. rewrite (get_gram _ _ _ _ _ SB Hi Hj).
  rewrite sum_blocks. rewrite <- (loss_scaling_sq la b (prod mid) Hla).
  rewrite <- sum_scale_l. apply sum_ext. intros n Hn. rewrite <- sum_scale_l. apply sum_ext. intros s Hs.
  rewrite !GB by assumption. ring.
Qed.

Lemma C40_linear_grad_reduce_lemma g d_in d_out (bias : bool) la b mid :
  shape g = b :: mid ++ [d_out] -> la <> LossOther ->
  let tot n i := sum (prod mid) (fun s => bget g mid n s i) in
  exists B, process_grad_output g (Linear d_in d_out bias) la Reduce = Ok B /\
    forall i j, (i < d_out)%nat -> (j < d_out)%nat ->
    get2 (mm (tr B) B) i j = grad_factor la b (prod mid) * sum b (fun n => tot n i * tot n j).
Proof.
  intros Hg Hla tot. destruct (linear_process_grad_reduce g la b mid d_out Hg) as (B & EB & SB & GB).
  exists B. split; [destruct la; try congruence; exact EB|]. intros i j Hi Hj. rewrite (get_gram _ _ _ _ _ SB Hi Hj).
  rewrite <- (loss_scaling_sq la b (prod mid) Hla).
  rewrite <- sum_scale_l. apply sum_ext. intros n Hn. rewrite !GB by assumption. unfold tot. ring.
Qed.

Lemma C40_conv_grad_expand_lemma g c la b o1 o2 :
  shape g = [b; cv_out c; o1; o2] -> la <> LossOther ->
  exists B, process_grad_output g (Conv2d c) la Expand = Ok B /\
    forall i j, (i < cv_out c)%nat -> (j < cv_out c)%nat ->
    get2 (mm (tr B) B) i j =
    grad_factor la b (o1 * o2) *
    sum b (fun n => sum o1 (fun u => sum o2 (fun v => get4 g n i u v * get4 g n j u v))).
Proof.
  intros Hg Hla. destruct (conv_process_grad_expand g la b (cv_out c) o1 o2 Hg) as (B & EB & SB & GB).
  exists B. split; [destruct la; try congruence; exact EB|]. intros i j Hi Hj. rewrite (get_gram _ _ _ _ _ SB Hi Hj).
  rewrite <- Nat.mul_assoc, sum_blocks. rewrite <- (loss_scaling_sq la b (o1 * o2) Hla).
  rewrite <- sum_scale_l. apply sum_ext. intros n Hn. rewrite sum_blocks.
  rewrite <- sum_scale_l. apply sum_ext. intros u Hu. rewrite <- sum_scale_l. apply sum_ext. intros v Hv.
  rewrite !GB by assumption. ring.
Qed.

Lemma C40_conv_grad_reduce_lemma g c la b o1 o2 :
  shape g = [b; cv_out c; o1; o2] -> la <> LossOther ->
  let tot n i := sum o1 (fun u => sum o2 (fun v => get4 g n i u v)) in
  exists B, process_grad_output g (Conv2d c) la Reduce = Ok B /\
    forall i j, (i < cv_out c)%nat -> (j < cv_out c)%nat ->
    get2 (mm (tr B) B) i j = grad_factor la b (o1 * o2) * sum b (fun n => tot n i * tot n j).
Proof.
  intros Hg Hla tot. destruct (conv_process_grad_reduce g la b (cv_out c) o1 o2 Hg) as (B & EB & SB & GB).
  exists B. split; [destruct la; try congruence; exact EB|]. intros i j Hi Hj. rewrite (get_gram _ _ _ _ _ SB Hi Hj).
  rewrite <- (loss_scaling_sq la b (o1 * o2) Hla).
  rewrite <- sum_scale_l. apply sum_ext. intros n Hn. rewrite !GB by assumption. unfold tot. ring.
Qed.

Lemma C40_conv_input_expand_lemma x c b i1 i2 o1 o2 :
  conv_ok c -> shape x = [b; cv_in c; i1; i2] -> outs c i1 i2 o1 o2 -> even_pad c -> b <> O ->
  exists A, process_input x (Conv2d c) Expand = Ok A /\
    (* kernel positions *)
    (forall ci u v ci' u' v',
       (ci < cv_in c / cv_groups c)%nat -> (u < cv_k1 c)%nat -> (v < cv_k2 c)%nat ->
       (ci' < cv_in c / cv_groups c)%nat -> (u' < cv_k1 c)%nat -> (v' < cv_k2 c)%nat ->
       get2 (mm (tr A) A) (kidx c ci u v) (kidx c ci' u' v') =
       sum b (fun n => sum o1 (fun y => sum o2 (fun z =>
         patch x c n y z ci u v * patch x c n y z ci' u' v'))) / fofnat (b * (o1 * o2))) /\
    (* bias column *)
    (cv_bias c = true -> forall ci u v,
       (ci < cv_in c / cv_groups c)%nat -> (u < cv_k1 c)%nat -> (v < cv_k2 c)%nat ->
       get2 (mm (tr A) A) (kidx c ci u v) (fan (Conv2d c)) =
       sum b (fun n => sum o1 (fun y => sum o2 (fun z => patch x c n y z ci u v))) / fofnat (b * (o1 * o2))).
Proof.
  intros Hc Hx Ho Hev Hb.
  destruct (extract_patches_ok x c b i1 i2 o1 o2 Hc Hx Ho Hev) as (P & EP & SP & GP).
  pose proof (out_size_pos _ _ _ _ _ _ _ (proj1 Ho)) as P1. pose proof (out_size_pos _ _ _ _ _ _ _ (proj2 Ho)) as P2.
  unfold process_input, conv2d_process_input. rewrite EP. cbn [bind]. rewrite SP.
  set (r := (cv_in c / cv_groups c * cv_k1 c * cv_k2 c)%nat) in *.
  destruct (t_reshape_ok P [(b * (o1 * o2))%nat; r]) as (P' & -> & SP' & DP').
  { unfold numel. rewrite SP. unfold prod; cbn. lia. }
  assert (GP' : forall n o i, (n < b)%nat -> (o < o1 * o2)%nat -> (i < r)%nat -> get2 P' (n * (o1 * o2) + o) i = get3 P n o i).
  { intros n o i Hn Hoo Hi. unfold get2, get3, tget. rewrite SP', SP, DP'. f_equal. unfold flat, prod; cbn. nia. }
  cbn [bind]. rewrite (finish_input_ok _ _ _ _ SP'). eexists. split; [reflexivity|].
  set (A := tab2 _ _ _). assert (SA : shape A = [(b * (o1 * o2))%nat; (if cv_bias c then r + 1 else r)%nat]) by reflexivity.
  assert (N0 : (b * (o1 * o2) <> 0)%nat) by nia.
  pose proof (fofnat_neq0 _ N0) as NF.
  assert (GA : forall n y z ci u v, (n < b)%nat -> (y < o1)%nat -> (z < o2)%nat ->
     (ci < cv_in c / cv_groups c)%nat -> (u < cv_k1 c)%nat -> (v < cv_k2 c)%nat ->
     get2 A (n * (o1 * o2) + (y * o2 + z)) (kidx c ci u v) = patch x c n y z ci u v / fsqrt (fofnat (b * (o1 * o2)))).
  { intros n y z ci u v Hn Hy Hz Hci Hu Hv. pose proof (kidx_lt c ci u v _ Hci Hu Hv) as LK. fold r in LK.
    pose proof (idx2_lt y z o1 o2 Hy Hz) as LO.
    unfold A. rewrite get2_tab2.
    - unfold withone. destruct (Nat.ltb_spec (kidx c ci u v) r); [|lia]. rewrite GP' by assumption.
      rewrite GP by assumption. reflexivity.
    - apply idx2_lt; assumption.
    - destruct (cv_bias c); lia. }
  split.
  - intros ci u v ci' u' v' Hci Hu Hv Hci' Hu' Hv'.
    pose proof (kidx_lt c ci u v _ Hci Hu Hv) as LK. pose proof (kidx_lt c ci' u' v' _ Hci' Hu' Hv') as LK'. fold r in LK, LK'.
    rewrite (get_gram A _ _ _ _ SA) by (destruct (cv_bias c); lia).
    rewrite sum_blocks, <- sum_div by exact NF. apply sum_ext. intros n Hn.
    rewrite sum_blocks, <- sum_div by exact NF. apply sum_ext. intros y Hy.
    rewrite <- sum_div by exact NF. apply sum_ext. intros z Hz. rewrite !GA by assumption.
    apply div_sqrt_mul. exact N0.
  - intros HB ci u v Hci Hu Hv. pose proof (kidx_lt c ci u v _ Hci Hu Hv) as LK. fold r in LK.
    change (fan (Conv2d c)) with r. rewrite (get_gram A _ _ _ _ SA) by (rewrite HB; lia).
    rewrite sum_blocks, <- sum_div by exact NF. apply sum_ext. intros n Hn.
    rewrite sum_blocks, <- sum_div by exact NF. apply sum_ext. intros y Hy.
    rewrite <- sum_div by exact NF. apply sum_ext. intros z Hz. rewrite GA by assumption.
    assert (GB : get2 A (n * (o1 * o2) + (y * o2 + z)) r = 1 / fsqrt (fofnat (b * (o1 * o2)))).
    { unfold A. rewrite get2_tab2.
      - unfold withone. rewrite Nat.ltb_irrefl. reflexivity.
      - apply idx2_lt; [assumption|]. apply idx2_lt; assumption.
      - rewrite HB. lia. }
    rewrite GB, div_sqrt_mul by exact N0. field. exact NF.
Qed.

Lemma C40_conv_input_reduce_lemma x c b i1 i2 o1 o2 :
  conv_ok c -> shape x = [b; cv_in c; i1; i2] -> outs c i1 i2 o1 o2 -> b <> O ->
  let mean n ci u v := sum o1 (fun y => sum o2 (fun z => patch x c n y z ci u v)) / fofnat (o1 * o2) in
  exists A, process_input x (Conv2d c) Reduce = Ok A /\
    (forall ci u v ci' u' v',
       (ci < cv_in c / cv_groups c)%nat -> (u < cv_k1 c)%nat -> (v < cv_k2 c)%nat ->
       (ci' < cv_in c / cv_groups c)%nat -> (u' < cv_k1 c)%nat -> (v' < cv_k2 c)%nat ->
       get2 (mm (tr A) A) (kidx c ci u v) (kidx c ci' u' v') =
       sum b (fun n => mean n ci u v * mean n ci' u' v') / fofnat b) /\
    (cv_bias c = true -> forall ci u v,
       (ci < cv_in c / cv_groups c)%nat -> (u < cv_k1 c)%nat -> (v < cv_k2 c)%nat ->
       get2 (mm (tr A) A) (kidx c ci u v) (fan (Conv2d c)) = sum b (fun n => mean n ci u v) / fofnat b).
Proof.
  intros Hc Hx Ho Hb mean.
  destruct (extract_averaged_patches_ok x c b i1 i2 o1 o2 Hc Hx Ho) as (P & EP & SP & GP).
  unfold process_input, conv2d_process_input. rewrite EP. cbn [bind].
  set (r := (cv_in c / cv_groups c * cv_k1 c * cv_k2 c)%nat) in *.
  rewrite (finish_input_ok _ _ _ _ SP). eexists. split; [reflexivity|].
  set (A := tab2 _ _ _). assert (SA : shape A = [b; (if cv_bias c then r + 1 else r)%nat]) by reflexivity.
  pose proof (fofnat_neq0 _ Hb) as NF.
  assert (GA : forall n ci u v, (n < b)%nat ->
     (ci < cv_in c / cv_groups c)%nat -> (u < cv_k1 c)%nat -> (v < cv_k2 c)%nat ->
     get2 A n (kidx c ci u v) = mean n ci u v / fsqrt (fofnat b)).
  { intros n ci u v Hn Hci Hu Hv. pose proof (kidx_lt c ci u v _ Hci Hu Hv) as LK. fold r in LK.
    unfold A. rewrite get2_tab2 by (try assumption; destruct (cv_bias c); lia).
    unfold withone. destruct (Nat.ltb_spec (kidx c ci u v) r); [|lia].
    rewrite GP by assumption. reflexivity. }
  split.
  - intros ci u v ci' u' v' Hci Hu Hv Hci' Hu' Hv'.
    pose proof (kidx_lt c ci u v _ Hci Hu Hv) as LK. pose proof (kidx_lt c ci' u' v' _ Hci' Hu' Hv') as LK'. fold r in LK, LK'.
    rewrite (get_gram A _ _ _ _ SA) by (destruct (cv_bias c); lia).
    rewrite <- sum_div by exact NF. apply sum_ext. intros n Hn. rewrite !GA by assumption. apply div_sqrt_mul. exact Hb.
  - intros HB ci u v Hci Hu Hv. pose proof (kidx_lt c ci u v _ Hci Hu Hv) as LK. fold r in LK.
    change (fan (Conv2d c)) with r. rewrite (get_gram A _ _ _ _ SA) by (rewrite HB; lia).
    rewrite <- sum_div by exact NF. apply sum_ext. intros n Hn. rewrite GA by assumption.
    assert (GB : get2 A n r = 1 / fsqrt (fofnat b)).
    { unfold A. rewrite get2_tab2 by (try assumption; rewrite HB; lia). unfold withone. rewrite Nat.ltb_irrefl. reflexivity. }
    rewrite GB, div_sqrt_mul by exact Hb. field. exact NF.
Qed.

Lemma C40_accepted_lemma : forall x g l la ka,
  (is_ok (process_input x l ka) = true -> (ka = Expand \/ ka = Reduce) /\ supported l) /\
  (is_ok (process_grad_output g l la ka) = true -> la <> LossOther /\ (ka = Expand \/ ka = Reduce) /\ supported l).
Proof.
  intros x g l la ka. unfold supported. split.
  - destruct ka, l; cbn; intros H; try discriminate; (split; [auto|discriminate]).
  - destruct la, ka, l; cbn; intros H; try discriminate; (split; [discriminate|split; [auto|discriminate]]).
Qed.

Lemma C40_loss_average_consistent_lemma g d_in d_out (bias : bool) la b mid N :
  shape g = b :: mid ++ [d_out] ->
  (la = LossBatch /\ N = b) \/ (la = LossBatchSeq /\ N = (b * prod mid)%nat) -> N <> O ->
  forall ka, ka = Expand \/ ka = Reduce ->
  exists B B', process_grad_output (t_divs g (fofnat N)) (Linear d_in d_out bias) la ka = Ok B /\
    process_grad_output g (Linear d_in d_out bias) LossSum ka = Ok B' /\
    forall i j, (i < d_out)%nat -> (j < d_out)%nat ->
    get2 (mm (tr B) B) i j = get2 (mm (tr B') B') i j / fofnat N.
Proof.
  intros Hg HN Nz ka Hka. pose proof (fofnat_neq0 _ Nz) as NF.
  assert (Hg' : shape (t_divs g (fofnat N)) = b :: mid ++ [d_out]) by exact Hg.
  assert (Hla : la <> LossOther) by (destruct HN as [[-> _]|[-> _]]; discriminate).
  assert (EF : grad_factor la b (prod mid) = fofnat N) by (destruct HN as [[-> ->]|[-> ->]]; reflexivity).
  assert (GB : forall n s i, (n < b)%nat -> (s < prod mid)%nat -> (i < d_out)%nat ->
            bget (t_divs g (fofnat N)) mid n s i = bget g mid n s i / fofnat N).
  { intros n s i Hn Hs Hi. unfold bget, t_divs, t_map. rewrite Hg. rewrite tget_tab; [reflexivity|].
    constructor; [exact Hn|]. apply Forall2_app; [apply unflat_range; exact Hs|]. repeat constructor. exact Hi. }
  destruct Hka as [-> | ->].
  - destruct (C40_linear_grad_expand_lemma (t_divs g (fofnat N)) d_in d_out bias la b mid Hg' Hla) as (B & EB & VB).
    destruct (C40_linear_grad_expand_lemma g d_in d_out bias LossSum b mid Hg ltac:(discriminate)) as (B' & EB' & VB').
    exists B, B'. split; [exact EB|]. split; [exact EB'|]. intros i j Hi Hj. rewrite VB, VB' by assumption.
    cbn [grad_factor]. rewrite EF.
    rewrite (sum_ext b _ (fun n => sum (prod mid) (fun s => bget g mid n s i * bget g mid n s j) / (fofnat N * fofnat N))).
    + rewrite sum_div by (apply fmul_neq0; exact NF). field. exact NF.
    + intros n Hn. rewrite <- sum_div by (apply fmul_neq0; exact NF). apply sum_ext. intros s Hs.
      rewrite !GB by assumption. field. exact NF.
  - destruct (C40_linear_grad_reduce_lemma (t_divs g (fofnat N)) d_in d_out bias la b mid Hg' Hla) as (B & EB & VB).
    destruct (C40_linear_grad_reduce_lemma g d_in d_out bias LossSum b mid Hg ltac:(discriminate)) as (B' & EB' & VB').
    exists B, B'. split; [exact EB|]. split; [exact EB'|]. intros i j Hi Hj. rewrite VB, VB' by assumption.
    cbn [grad_factor]. rewrite EF.
    assert (T : forall n i, (n < b)%nat -> (i < d_out)%nat -> sum (prod mid) (fun s => bget (t_divs g (fofnat N)) mid n s i) = sum (prod mid) (fun s => bget g mid n s i) / fofnat N).
    { intros n k Hn Hk. rewrite <- sum_div by exact NF. apply sum_ext. intros. apply GB; assumption. }
    rewrite (sum_ext b _ (fun n => sum (prod mid) (fun s => bget g mid n s i) * sum (prod mid) (fun s => bget g mid n s j) / (fofnat N * fofnat N))).
    + rewrite sum_div by (apply fmul_neq0; exact NF). field. exact NF.
    + intros n Hn. rewrite !T by assumption. field. exact NF.
Qed.

Lemma C41_averaged_patches_lemma x c b i1 i2 o1 o2 :
  conv_ok c -> shape x = [b; cv_in c; i1; i2] -> outs c i1 i2 o1 o2 -> even_pad c ->
  exists P Q,
    extract_patches x (cv_k1 c) (cv_k2 c) (cv_s1 c) (cv_s2 c) (cv_pad c) (cv_d1 c) (cv_d2 c) (cv_groups c) = Ok P /\
    extract_averaged_patches x (cv_k1 c) (cv_k2 c) (cv_s1 c) (cv_s2 c) (cv_pad c) (cv_d1 c) (cv_d2 c) (cv_groups c) = Ok Q /\
    Q = tab2 b (fan (Conv2d c)) (fun n k => sum (o1 * o2) (fun o => get3 P n o k) / fofnat (o1 * o2)).
Proof.
  intros Hc Hx Ho Hev.
  destruct (extract_patches_ok x c b i1 i2 o1 o2 Hc Hx Ho Hev) as (P & EP & SP & GP).
  destruct (extract_averaged_patches_ok x c b i1 i2 o1 o2 Hc Hx Ho) as (Q & EQ & SQ' & GQ).
  exists P, Q. split; [exact EP|]. split; [exact EQ|].
  apply (ext2 b (fan (Conv2d c))); [exact SQ'|reflexivity|]. intros n k Hn Hk. tsimp.
  destruct Hc as (Hin & Hout & Hk1 & Hk2 & _).
  (* every column is a kernel position *)
  set (ci := (k / (cv_k1 c * cv_k2 c))%nat). set (w := (k mod (cv_k1 c * cv_k2 c))%nat).
  assert (Ew : k = (ci * (cv_k1 c * cv_k2 c) + w)%nat) by (unfold ci, w; rewrite Nat.mul_comm; apply Nat.div_mod; nia).
  assert (Lw : (w < cv_k1 c * cv_k2 c)%nat) by (apply Nat.mod_upper_bound; nia).
  set (u := (w / cv_k2 c)%nat). set (v := (w mod cv_k2 c)%nat).
  assert (Euv : w = (u * cv_k2 c + v)%nat) by (unfold u, v; rewrite Nat.mul_comm; apply Nat.div_mod; lia).
  assert (Lv : (v < cv_k2 c)%nat) by (apply Nat.mod_upper_bound; lia).
  assert (Lu : (u < cv_k1 c)%nat) by (apply Nat.div_lt_upper_bound; lia).
  assert (Lci : (ci < cv_in c / cv_groups c)%nat).
  { apply Nat.div_lt_upper_bound; [nia|]. cbn [fan] in Hk. nia. }
  replace k with (kidx c ci u v) by (unfold kidx; rewrite Ew, Euv; ring).
  rewrite GQ by assumption. f_equal. rewrite sum_blocks. apply sum_ext. intros y Hy. apply sum_ext. intros z Hz.
  symmetry. apply GP; assumption.
Qed.

Lemma C41_averaged_patches_any_padding_lemma x c b i1 i2 o1 o2 :
  conv_ok c -> shape x = [b; cv_in c; i1; i2] -> outs c i1 i2 o1 o2 ->
  exists Q,
    extract_averaged_patches x (cv_k1 c) (cv_k2 c) (cv_s1 c) (cv_s2 c) (cv_pad c) (cv_d1 c) (cv_d2 c) (cv_groups c) = Ok Q /\
    shape Q = [b; fan (Conv2d c)] /\
    forall n ci u v, (n < b)%nat -> (ci < cv_in c / cv_groups c)%nat -> (u < cv_k1 c)%nat -> (v < cv_k2 c)%nat ->
    get2 Q n (kidx c ci u v) = sum o1 (fun y => sum o2 (fun z => patch x c n y z ci u v)) / fofnat (o1 * o2).
Proof.
  intros Hc Hx Ho. destruct (extract_averaged_patches_ok x c b i1 i2 o1 o2 Hc Hx Ho) as (Q & EQ & SQ' & GQ).
  exists Q. split; [exact EQ|]. split; [exact SQ'|]. exact GQ.
Qed.

(** ** C42 *)

(** Reading a padded axis according to the layer's padding mode. *)
Definition axis (m : padding_mode) (i : nat) (z : Z) (v : nat -> F) : F :=
  match m with
  | ModeZeros => zget i z v
  | ModeCircular => v (Z.to_nat (z mod Z.of_nat i))
  end.

(** What a [Conv2d] layer computes: output of sample [n], channel [co], position (y, z). *)
Definition conv_out (c : conv) (x W : tensor) (bias : nat -> F) (n co y z : nat) : F :=
  let cpg := (cv_in c / cv_groups c)%nat in
  let grp := (co / (cv_out c / cv_groups c))%nat in
  let p1 := pad_front (cv_pad c) (pint1 (cv_pad c)) (cv_k1 c) (cv_d1 c) in
  let p2 := pad_front (cv_pad c) (pint2 (cv_pad c)) (cv_k2 c) (cv_d2 c) in
  bias co +
  sum cpg (fun ci => sum (cv_k1 c) (fun u => sum (cv_k2 c) (fun v =>
    get4 W co ci u v *
    axis (cv_mode c) (nth 2 (shape x) O) (Z.of_nat y * Z.of_nat (cv_s1 c) + Z.of_nat u * Z.of_nat (cv_d1 c) - Z.of_nat p1) (fun a =>
    axis (cv_mode c) (nth 3 (shape x) O) (Z.of_nat z * Z.of_nat (cv_s2 c) + Z.of_nat v * Z.of_nat (cv_d2 c) - Z.of_nat p2) (fun e =>
      get4 x n (grp * cpg + ci) a e))))).

Lemma C42_conv_is_linear_in_patches_lemma c x W bv M b i1 i2 o1 o2 :
  conv_ok c -> cv_groups c = 1%nat -> cv_mode c = ModeZeros -> even_pad c -> b <> O ->
  shape x = [b; cv_in c; i1; i2] -> outs c i1 i2 o1 o2 -> shape W = weight_shape (Conv2d c) ->
  match bv with Some v => cv_bias c = true /\ shape v = [cv_out c] | None => cv_bias c = false end ->
  grad_matrix (Conv2d c) W bv = Ok M ->
  exists A, process_input x (Conv2d c) Expand = Ok A /\
    forall n co y z, (n < b)%nat -> (co < cv_out c)%nat -> (y < o1)%nat -> (z < o2)%nat ->
      conv_out c x W (fun i => match bv with Some v => get1 v i | None => 0 end) n co y z =
      fsqrt (fofnat (b * (o1 * o2))) * get2 (mm M (tr A)) co (n * (o1 * o2) + (y * o2 + z)).
Proof.
  intros Hc Hgr Hmode Hev Hb Hx Ho HW Hbv HM.
  destruct (C49_gradient_matrix_lemma (Conv2d c) W bv ltac:(discriminate) HW Hbv) as (M' & EM & Dm & SM & GM & GB & _).
  rewrite HM in EM. injection EM as <-. rewrite (C49_dims_lemma (Conv2d c)) in Dm by discriminate.
  assert (EK : cols M = (if cv_bias c then fan (Conv2d c) + 1 else fan (Conv2d c))%nat) by (cbn [has_bias] in Dm; congruence).
  assert (EC : rows M = cv_out c) by (cbn [n_out] in Dm; congruence).
  destruct (extract_patches_ok x c b i1 i2 o1 o2 Hc Hx Ho Hev) as (P & EP & SP & GP).
  pose proof (out_size_pos _ _ _ _ _ _ _ (proj1 Ho)) as P1. pose proof (out_size_pos _ _ _ _ _ _ _ (proj2 Ho)) as P2.
  unfold process_input, conv2d_process_input. rewrite EP. cbn [bind]. rewrite SP.
  set (r := (cv_in c / cv_groups c * cv_k1 c * cv_k2 c)%nat) in *.
  destruct (t_reshape_ok P [(b * (o1 * o2))%nat; r]) as (P' & -> & SP' & DP').
  { unfold numel. rewrite SP. unfold prod; cbn. lia. }
  assert (GP' : forall n o i, (n < b)%nat -> (o < o1 * o2)%nat -> (i < r)%nat -> get2 P' (n * (o1 * o2) + o) i = get3 P n o i).
  { intros n o i Hn Hoo Hi. unfold get2, get3, tget. rewrite SP', SP, DP'. f_equal. unfold flat, prod; cbn. nia. }
  cbn [bind]. rewrite (finish_input_ok _ _ _ _ SP'). eexists. split; [reflexivity|].
  intros n co y z Hn Hco Hy Hz.
  assert (N0 : (b * (o1 * o2) <> 0)%nat) by nia. pose proof (sqrt_neq0 _ N0) as NS.
  pose proof (idx2_lt y z o1 o2 Hy Hz) as LO. pose proof (idx2_lt n (y * o2 + z) b (o1 * o2) Hn LO) as LR.
  set (D := (if cv_bias c then r + 1 else r)%nat) in *.
  rewrite (tr_ok _ (b * (o1 * o2)) D) by reflexivity.
  rewrite get2_mm; [|rewrite EC; exact Hco|exact LR].
  change (fan (Conv2d c)) with r in *. change (if cv_bias c then r + 1 else r)%nat with D in EK. rewrite EK.
  rewrite <- sum_scale_l.
  rewrite (sum_ext D _ (fun k => get2 M co k * withone (cv_bias c) r (get3 P n (y * o2 + z)) k)).
  2:{ intros k Hk. tsimp. unfold withone. destruct (Nat.ltb_spec k r).
      - rewrite GP' by assumption. field. exact NS.
      - field. exact NS. }
  (* kernel part of the sum *)
  assert (KS : sum r (fun k => get2 M co k * withone (cv_bias c) r (get3 P n (y * o2 + z)) k) =
    sum (cv_in c / cv_groups c) (fun ci => sum (cv_k1 c) (fun u => sum (cv_k2 c) (fun v =>
      get4 W co ci u v * patch x c n y z ci u v)))).
  { unfold r. rewrite <- Nat.mul_assoc, sum_blocks. apply sum_ext. intros ci Hci. rewrite sum_blocks.
    apply sum_ext. intros u Hu. apply sum_ext. intros v Hv.
    replace (ci * (cv_k1 c * cv_k2 c) + (u * cv_k2 c + v))%nat with (kidx c ci u v) by (unfold kidx; ring).
    pose proof (kidx_lt c ci u v _ Hci Hu Hv) as LK. fold r in LK.
    unfold withone. rewrite Nat.mul_assoc. fold r. destruct (Nat.ltb_spec (kidx c ci u v) r); [|lia].
    rewrite GP by assumption. f_equal. rewrite GM by assumption. change (fan (Conv2d c)) with r.
    unfold get4, tget. rewrite HW. f_equal. unfold kidx, r. cbn [weight_shape flat prod fold_right]. ring. }
  unfold conv_out. cbv zeta. rewrite Hmode. cbn [axis].
  replace (co / (cv_out c / cv_groups c))%nat with O.
  2:{ rewrite Hgr, Nat.div_1_r. symmetry. apply Nat.div_small. exact Hco. }
  assert (PS : forall ci u v, (ci < cv_in c / cv_groups c)%nat ->
     zget (nth 2 (shape x) O) (Z.of_nat y * Z.of_nat (cv_s1 c) + Z.of_nat u * Z.of_nat (cv_d1 c) - Z.of_nat (pad_front (cv_pad c) (pint1 (cv_pad c)) (cv_k1 c) (cv_d1 c))) (fun a =>
     zget (nth 3 (shape x) O) (Z.of_nat z * Z.of_nat (cv_s2 c) + Z.of_nat v * Z.of_nat (cv_d2 c) - Z.of_nat (pad_front (cv_pad c) (pint2 (cv_pad c)) (cv_k2 c) (cv_d2 c))) (fun e =>
       get4 x n (0 * (cv_in c / cv_groups c) + ci) a e)) = patch x c n y z ci u v).
  { intros ci u v Hci. unfold patch. rewrite Hx, Hgr. cbn [nth]. apply zget_ext. intros a Ha. apply zget_ext. intros e He.
    cbn [sum]. rewrite fofnat_1. field; apply f1_neq_0. }
  rewrite (sum_ext (cv_in c / cv_groups c) _ (fun ci => sum (cv_k1 c) (fun u => sum (cv_k2 c) (fun v =>
      get4 W co ci u v * patch x c n y z ci u v)))).
  2:{ intros ci Hci. apply sum_ext. intros u Hu. apply sum_ext. intros v Hv. rewrite PS by assumption. reflexivity. }
  rewrite <- KS. clear KS PS. unfold D. destruct bv as [bvec|].
  - destruct Hbv as [Hb1 Hb2]. rewrite Hb1. rewrite Nat.add_1_r. cbn [sum]. unfold withone at 3. rewrite Nat.ltb_irrefl.
    rewrite (GB bvec co eq_refl Hco). ring.
  - rewrite Hbv. ring.
Qed.

Lemma C42_linear_is_linear_lemma d_in d_out (bias : bool) x W bv M b mid :
  shape x = b :: mid ++ [d_in] -> (b * prod mid <> 0)%nat -> shape W = [d_out; d_in] ->
  match bv with Some v => bias = true /\ shape v = [d_out] | None => bias = false end ->
  grad_matrix (Linear d_in d_out bias) W bv = Ok M ->
  exists A, process_input x (Linear d_in d_out bias) Expand = Ok A /\
    forall n s o, (n < b)%nat -> (s < prod mid)%nat -> (o < d_out)%nat ->
      sum d_in (fun k => get2 W o k * bget x mid n s k) + match bv with Some v => get1 v o | None => 0 end =
      fsqrt (fofnat (b * prod mid)) * get2 (mm M (tr A)) o (n * prod mid + s).
Proof.
  intros Hx N0 HW Hbv HM.
  destruct (C49_gradient_matrix_lemma (Linear d_in d_out bias) W bv ltac:(discriminate) HW Hbv) as (M' & EM & Dm & SM & GM & GB & _).
  rewrite HM in EM. injection EM as <-. cbn in Dm. injection Dm as EK EC.
  destruct (linear_process_input_expand x bias b mid d_in Hx) as (A & EA & SA & GA).
  exists A. split; [exact EA|]. intros n s o Hn Hs Hoo. pose proof (sqrt_neq0 _ N0) as NS.
  rewrite (tr_ok _ _ _ SA). pose proof (idx2_lt n s b (prod mid) Hn Hs) as LR.
  rewrite get2_mm; [|rewrite <- EC; exact Hoo|exact LR]. rewrite <- EK, <- sum_scale_l.
  rewrite (sum_ext (if bias then d_in + 1 else d_in) _ (fun k => get2 M o k * withone bias d_in (bget x mid n s) k)).
  2:{ intros k Hk. tsimp. rewrite GA by assumption. field. exact NS. }
  assert (KS : sum d_in (fun k => get2 W o k * bget x mid n s k) = sum d_in (fun k => get2 M o k * withone bias d_in (bget x mid n s) k)).
  { apply sum_ext. intros k Hk. unfold withone. destruct (Nat.ltb_spec k d_in); [|lia]. f_equal.
    rewrite GM by assumption. unfold get2, tget. rewrite HW. f_equal. cbn. lia. }
  rewrite KS. destruct bv as [v|].
  - destruct Hbv as [-> Hb2]. rewrite Nat.add_1_r. cbn [sum]. unfold withone at 3. rewrite Nat.ltb_irrefl.
    pose proof (GB v o eq_refl Hoo) as Q. cbn [fan] in Q. rewrite Q. ring.
  - rewrite Hbv. ring.
Qed.

Lemma C43_exact_constant_gradients_lemma x g d_in d_out (bias : bool) b (gamma : nat -> F) dK :
  shape x = [b; d_in] -> shape g = [b; d_out] -> b <> O -> dK = (if bias then d_in + 1 else d_in)%nat ->
  (forall n k, (n < b)%nat -> (k < d_out)%nat -> get2 g n k = gamma k / fofnat b) ->
  forall ka, ka = Expand \/ ka = Reduce ->
  exists A B, process_input x (Linear d_in d_out bias) ka = Ok A /\
    process_grad_output g (Linear d_in d_out bias) LossBatch ka = Ok B /\
    forall i j k l, (i < dK)%nat -> (j < dK)%nat -> (k < d_out)%nat -> (l < d_out)%nat ->
      get2 (mm (tr A) A) i j * get2 (mm (tr B) B) k l =
      sum b (fun n => (gamma k * withone bias d_in (get2 x n) i) * (gamma l * withone bias d_in (get2 x n) j)) / fofnat b.
Proof.
  intros Hx Hg Hb EdK Hgam ka Hka. pose proof (fofnat_neq0 _ Hb) as NF.
  assert (Bx : forall n i, bget x [] n 0 i = get2 x n i) by reflexivity.
  assert (Bg : forall n i, bget g [] n 0 i = get2 g n i) by reflexivity.
  assert (HB : forall B, (forall k l, (k < d_out)%nat -> (l < d_out)%nat ->
            get2 (mm (tr B) B) k l = fofnat b * sum b (fun n => get2 g n k * get2 g n l)) ->
            forall k l, (k < d_out)%nat -> (l < d_out)%nat -> get2 (mm (tr B) B) k l = gamma k * gamma l).
  { intros B VB k l Hk Hl. rewrite VB by assumption.
    rewrite (sum_ext b _ (fun _ => gamma k * gamma l / (fofnat b * fofnat b))).
    - rewrite sum_const. field. exact NF.
    - intros n Hn. rewrite !Hgam by assumption. field. exact NF. }
  assert (HA : forall A, (forall i j, (i < dK)%nat -> (j < dK)%nat ->
            get2 (mm (tr A) A) i j = sum b (fun n => withone bias d_in (get2 x n) i * withone bias d_in (get2 x n) j) / fofnat b) ->
            forall i j k l, (i < dK)%nat -> (j < dK)%nat ->
            get2 (mm (tr A) A) i j * (gamma k * gamma l) =
            sum b (fun n => (gamma k * withone bias d_in (get2 x n) i) * (gamma l * withone bias d_in (get2 x n) j)) / fofnat b).
  { intros A VA i j k l Hi Hj. rewrite VA by assumption.
    rewrite (sum_ext b (fun n => (gamma k * withone bias d_in (get2 x n) i) * (gamma l * withone bias d_in (get2 x n) j))
      (fun n => (gamma k * gamma l) * (withone bias d_in (get2 x n) i * withone bias d_in (get2 x n) j))) by (intros; ring).
    rewrite sum_scale_l. field. exact NF. }
  assert (W1 : forall n i, withone bias d_in (bget x [] n 0) i = withone bias d_in (get2 x n) i) by reflexivity.
  destruct Hka as [-> | ->].
  - destruct (C40_linear_input_expand_lemma x d_in d_out bias b [] dK Hx ltac:(cbn; lia) EdK) as (A & EA & VA).
    destruct (C40_linear_grad_expand_lemma g d_in d_out bias LossBatch b [] Hg ltac:(discriminate)) as (B & EB & VB).
    exists A, B. split; [exact EA|]. split; [exact EB|]. intros i j k l Hi Hj Hk Hl.
    rewrite (HB B) by (try assumption; intros; rewrite VB by assumption; cbn [grad_factor prod fold_right]; f_equal; apply sum_ext; intros; cbn [sum]; rewrite !Bg; ring).
    apply HA; try assumption. intros i' j' Hi' Hj'. rewrite VA by assumption. cbn [prod fold_right]. rewrite Nat.mul_1_r. f_equal.
    apply sum_ext. intros. cbn [sum]. rewrite !W1. ring.
  - destruct (C40_linear_input_reduce_lemma x d_in d_out bias b [] dK Hx Hb EdK) as (A & EA & VA).
    destruct (C40_linear_grad_reduce_lemma g d_in d_out bias LossBatch b [] Hg ltac:(discriminate)) as (B & EB & VB).
    exists A, B. split; [exact EA|]. split; [exact EB|]. intros i j k l Hi Hj Hk Hl.
    rewrite (HB B) by (try assumption; intros; rewrite VB by assumption; cbn [grad_factor prod fold_right]; f_equal; apply sum_ext; intros; cbn [sum]; rewrite !Bg; ring).
    apply HA; try assumption. intros i' j' Hi' Hj'. rewrite VA by assumption. f_equal.
    apply sum_ext. intros n Hn. cbn [prod fold_right sum]. rewrite fofnat_1.
    assert (WW : forall i, withone bias d_in (fun i => (0 + bget x [] n 0 i) / 1) i = withone bias d_in (get2 x n) i).
    { intros q. unfold withone. destruct (Nat.ltb q d_in); [|reflexivity]. rewrite Bx. field; apply f1_neq_0. }
    rewrite !WW. reflexivity.
Qed.

Lemma C43_expand_is_reduce_lemma x g d_in d_out (bias : bool) la b mid :
  shape x = b :: mid ++ [d_in] -> shape g = b :: mid ++ [d_out] -> prod mid = 1%nat ->
  process_input x (Linear d_in d_out bias) Expand = process_input x (Linear d_in d_out bias) Reduce /\
  process_grad_output g (Linear d_in d_out bias) la Expand = process_grad_output g (Linear d_in d_out bias) la Reduce.
Proof.
  intros Hx Hg H1. split.
  - destruct (linear_process_input_expand x bias b mid d_in Hx) as (A & EA & SA & GA).
    destruct (linear_process_input_reduce x bias b mid d_in Hx) as (A' & EA' & SA' & GA').
    cbn [process_input]. rewrite EA, EA'. f_equal. rewrite H1, Nat.mul_1_r in SA.
    apply (ext2 b (if bias then d_in + 1 else d_in)); try assumption. intros n i Hn Hi.
    specialize (GA n 0%nat i Hn ltac:(lia) Hi). rewrite H1, Nat.mul_1_r, Nat.mul_1_r, Nat.add_0_r in GA.
    rewrite GA, GA' by assumption. f_equal. unfold withone. destruct (Nat.ltb i d_in); [|reflexivity].
    rewrite H1, fofnat_1. cbn [sum]. field; apply f1_neq_0.
  - destruct (linear_process_grad_expand g la b mid d_out Hg) as (A & EA & SA & GA).
    destruct (linear_process_grad_reduce g la b mid d_out Hg) as (A' & EA' & SA' & GA').
    destruct la; try reflexivity; (match goal with |- process_grad_output _ _ ?la _ = _ => change (linear_process_grad_output g la Expand = linear_process_grad_output g la Reduce) end; rewrite EA, EA'; f_equal; rewrite H1, Nat.mul_1_r in SA;
    apply (ext2 b d_out); try assumption; intros n i Hn Hi;
    specialize (GA n 0%nat i Hn ltac:(lia) Hi); rewrite H1, Nat.mul_1_r, Nat.add_0_r in GA;
    rewrite GA, GA' by assumption; rewrite H1; cbn [sum]; ring).
Qed.

Lemma C43_expand_is_reduce_conv_lemma x g c la b i1 i2 :
  conv_ok c -> even_pad c -> shape x = [b; cv_in c; i1; i2] -> outs c i1 i2 1 1 -> shape g = [b; cv_out c; 1%nat; 1%nat] ->
  process_input x (Conv2d c) Expand = process_input x (Conv2d c) Reduce /\
  process_grad_output g (Conv2d c) la Expand = process_grad_output g (Conv2d c) la Reduce.
Proof.
  intros Hc Hev Hx Ho Hg. split.
  - destruct (C41_averaged_patches_lemma x c b i1 i2 1 1 Hc Hx Ho Hev) as (P & Q & EP & EQ & E).
    destruct (extract_patches_ok x c b i1 i2 1 1 Hc Hx Ho Hev) as (P0 & EP0 & SP & _).
    rewrite EP in EP0. injection EP0 as <-.
    unfold process_input, conv2d_process_input. rewrite EP, EQ. cbn [bind]. rewrite SP.
    destruct (t_reshape_ok P [(b * (1 * 1))%nat; (cv_in c / cv_groups c * cv_k1 c * cv_k2 c)%nat]) as (P' & -> & SP' & DP').
    { unfold numel. rewrite SP. unfold prod; cbn. lia. }
    cbn [bind]. f_equal. rewrite E. replace (b * (1 * 1))%nat with b in SP' by lia.
    apply (ext2 b (fan (Conv2d c))); [exact SP'|reflexivity|]. intros n k Hn Hk. tsimp.
    change (1 * 1)%nat with 1%nat. cbn [sum]. rewrite fofnat_1. unfold get2, get3, tget. rewrite SP', SP, DP'. change (1 * 1)%nat with 1%nat.
    replace (flat [b; 1%nat; (cv_in c / cv_groups c * cv_k1 c * cv_k2 c)%nat] [n; O; k])
      with (flat [b; (cv_in c / cv_groups c * cv_k1 c * cv_k2 c)%nat] [n; k]) by (cbn; ring).
    field; apply f1_neq_0.
  - destruct (conv_process_grad_expand g la b (cv_out c) 1 1 Hg) as (A & EA & SA & GA).
    destruct (conv_process_grad_reduce g la b (cv_out c) 1 1 Hg) as (A' & EA' & SA' & GA').
    destruct la; try reflexivity; (match goal with |- process_grad_output _ _ ?la _ = _ => change (conv2d_process_grad_output g la Expand = conv2d_process_grad_output g la Reduce) end;
    rewrite EA, EA'; f_equal; rewrite !Nat.mul_1_r in SA;
    apply (ext2 b (cv_out c)); try assumption; intros n i Hn Hi;
    specialize (GA n 0%nat 0%nat i Hn ltac:(lia) ltac:(lia) Hi); change (1 * 1)%nat with 1%nat in *; change (0 * 1)%nat with 0%nat in *; rewrite ?Nat.mul_1_r, ?Nat.add_0_r in GA;
    rewrite GA, GA' by assumption; cbn [sum]; ring).
Qed.

Lemma C43_reduce_exact_for_mean_outputs_lemma x g d_in d_out (bias : bool) b mid (gamma : nat -> F) dK :
  shape x = b :: mid ++ [d_in] -> shape g = b :: mid ++ [d_out] -> (b * prod mid <> 0)%nat ->
  dK = (if bias then d_in + 1 else d_in)%nat ->
  (forall n s k, (n < b)%nat -> (s < prod mid)%nat -> (k < d_out)%nat ->
     bget g mid n s k = gamma k / fofnat (b * prod mid)) ->
  (* b times the gradient of sample n's parameters, as autograd sums it over positions *)
  let psg n k i := sum (prod mid) (fun s => (fofnat b * bget g mid n s k) * withone bias d_in (bget x mid n s) i) in
  exists A B, process_input x (Linear d_in d_out bias) Reduce = Ok A /\
    process_grad_output g (Linear d_in d_out bias) LossBatch Reduce = Ok B /\
    forall i j k l, (i < dK)%nat -> (j < dK)%nat -> (k < d_out)%nat -> (l < d_out)%nat ->
      get2 (mm (tr A) A) i j * get2 (mm (tr B) B) k l =
      sum b (fun n => psg n k i * psg n l j) / fofnat b.
Proof.
  intros Hx Hg N0 EdK Hgam psg. assert (Hb : b <> O) by nia. assert (Hm : prod mid <> O) by nia.
  pose proof (fofnat_neq0 _ Hb) as NF. pose proof (fofnat_neq0 _ Hm) as MF.
  destruct (C40_linear_input_reduce_lemma x d_in d_out bias b mid dK Hx Hb EdK) as (A & EA & VA).
  destruct (C40_linear_grad_reduce_lemma g d_in d_out bias LossBatch b mid Hg ltac:(discriminate)) as (B & EB & VB).
  exists A, B. split; [exact EA|]. split; [exact EB|]. intros i j k l Hi Hj Hk Hl.
  rewrite VA, VB by assumption. clear VA VB EA EB. cbv zeta. cbn [grad_factor].
  set (mean := fun n => withone bias d_in (fun i => sum (prod mid) (fun s => bget x mid n s i) / fofnat (prod mid))).
  assert (TOT : forall n k, (n < b)%nat -> (k < d_out)%nat -> sum (prod mid) (fun s => bget g mid n s k) = gamma k / fofnat b).
  { intros n k' Hn Hk'. rewrite (sum_ext _ _ (fun _ => gamma k' / fofnat (b * prod mid))) by (intros; apply Hgam; assumption).
    rewrite sum_const, fofnat_mul. field. split; assumption. }
  assert (PSG : forall n k i, (n < b)%nat -> (k < d_out)%nat -> (i < dK)%nat -> psg n k i = gamma k * mean n i).
  { intros n k' i' Hn Hk' Hi'. unfold psg.
    rewrite (sum_ext _ _ (fun s => gamma k' / fofnat (prod mid) * withone bias d_in (bget x mid n s) i')).
    2:{ intros s Hs. rewrite Hgam by assumption. rewrite fofnat_mul. field. split; assumption. }
    rewrite sum_scale_l. unfold mean, withone. destruct (Nat.ltb i' d_in).
    - field. exact MF.
    - rewrite sum_const. field. exact MF. }
  rewrite (sum_ext b (fun n => psg n k i * psg n l j) (fun n => (gamma k * gamma l) * (mean n i * mean n j))).
  2:{ intros n Hn. rewrite !PSG by assumption. ring. }
  rewrite (sum_ext b (fun n => sum (prod mid) (fun s => bget g mid n s k) * sum (prod mid) (fun s => bget g mid n s l))
             (fun _ => gamma k * gamma l / (fofnat b * fofnat b))).
  2:{ intros n Hn. rewrite !TOT by assumption. field. exact NF. }
  rewrite sum_const, sum_scale_l. unfold mean.
  set (S0 := sum b _). field. exact NF.
Qed.

End Generic.

(** ** Refutations and examples with rational entries *)

(** C42 fails with circular padding, which the code ignores, ... *)
Definition ex_circ : conv := mkConv 1 1 1 2 1 1 (PadInt 0 1) 1 1 1 false ModeCircular.
Definition ex_x : @tensor Q_scalar := qt [1;1;1;2]%nat [1;2]%Z.
Definition ex_W : @tensor Q_scalar := qt [1;1;1;2]%nat [1;1]%Z.

Lemma C42_circular_padding_refuted_lemma :
  conv_ok ex_circ /\ outs ex_circ 1 2 1 3 /\
  exists P, extract_patches ex_x 1 2 1 1 (PadInt 0 1) 1 1 1 = Ok P /\
    this (conv_out ex_circ ex_x ex_W (fun _ => q 0) 0 0 0 0) = inject_Z 3 /\
    (* the kernel is all ones, so its product with the patch is the patch's sum *)
    this (@sum Q_scalar 2 (fun k => get3 P 0 0 k)) = inject_Z 1.
Proof.
  split; [repeat split; cbn; lia|]. split; [apply outs_of; reflexivity|].
  eexists. split; [reflexivity|]. split; vm_compute; reflexivity.
Qed.

(** ... and with channel groups, over which the code averages the patches. *)
Definition ex_grp : conv := mkConv 2 2 1 1 1 1 (PadInt 0 0) 1 1 2 false ModeZeros.

Lemma C42_groups_refuted_lemma :
  let x := qt [1;2;1;1]%nat [1;3]%Z in let W := qt [2;1;1;1]%nat [1;1]%Z in
  conv_ok ex_grp /\ outs ex_grp 1 1 1 1 /\
  exists P, extract_patches x 1 1 1 1 (PadInt 0 0) 1 1 2 = Ok P /\
    this (conv_out ex_grp x W (fun _ => q 0) 0 0 0 0) = inject_Z 1 /\
    this (conv_out ex_grp x W (fun _ => q 0) 0 1 0 0) = inject_Z 3 /\
    this (get3 P 0 0 0) = inject_Z 2.
Proof.
  cbv zeta. split; [repeat split; cbn; lia|]. split; [apply outs_of; reflexivity|].
  eexists. split; [reflexivity|]. repeat split; vm_compute; reflexivity.
Qed.

(** A convolution with stride, dilation, padding and bias meeting the hypotheses. *)
Definition ex_conv : conv := mkConv 2 3 2 2 2 1 (PadInt 1 0) 1 2 1 true ModeZeros.
Definition ex_xc : @tensor Q_scalar := qt [1;2;3;4]%nat [1;2;3;4;5;6;7;8;9;10;11;12;1;1;1;1;2;2;2;2;3;3;3;3]%Z.

Lemma conv_hypotheses_met_case :
  conv_ok ex_conv /\ cv_groups ex_conv = 1%nat /\ cv_mode ex_conv = ModeZeros /\ even_pad ex_conv /\
  shape ex_xc = [1; cv_in ex_conv; 3; 4]%nat /\ outs ex_conv 3 4 2 2 /\
  preconditioner_dims (Conv2d ex_conv) = Ok (9, 3)%nat /\
  showr (extract_patches ex_xc 2 2 2 1 (PadInt 1 0) 1 2 1) =
    lit [1;4;8]%nat [0;0;1;3;0;0;1;1; 0;0;2;4;0;0;1;1; 5;7;9;11;2;2;3;3; 6;8;10;12;2;2;3;3]%Z.
Proof. split; [repeat split; cbn; lia|]. do 3 (split; [repeat split; reflexivity|]). split; [reflexivity|]. split; [apply outs_of; reflexivity|]. split; vm_compute; reflexivity. Qed.

Lemma linear_hypotheses_met_case :
  let x := qt [2;2;1]%nat [2;4;6;8]%Z in
  shape x = (2 :: [2] ++ [1])%nat /\
  showr (process_input x (Linear 1 3 true) Expand) =
    Ok ([4;2]%nat, [1; 1#2; 2; 1#2; 3; 1#2; 4; 1#2]%Q) /\
  showr (process_grad_output x (Linear 5 1 true) LossBatchSeq Reduce) = lit [2;1]%nat [12;28]%Z.
Proof. repeat split; vm_compute; reflexivity. Qed.
