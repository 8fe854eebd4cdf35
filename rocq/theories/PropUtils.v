(** Properties C39-C43 and C49: layer dimensions and statistics
    (singd/optim/utils.py and singd/optim/optimizer.py:430-454, 682-690, 721-730). *)

From Coq Require Import List Arith Lia Bool ZArith QArith Qcanon Field Ring.
From Verif Require Import Scalar Res Tensor TensorFacts Structures OptimUtils UtilsFacts QEx ProofUtils.
Import ListNotations.

Section Generic.
Context {SC : Scalar} {FL : FieldLaws SC} {SQ : SqrtLaws SC}.
Open Scope F_scope.

(** ** C49 *)

(** Number of kernel entries per output channel. *)
Theorem C49_dims : forall l,
  supported l -> preconditioner_dims l = Ok ((if has_bias l then fan l + 1 else fan l)%nat, n_out l).
Proof. exact C49_dims_lemma. Qed.

Theorem C49_unsupported : preconditioner_dims OtherModule = Err NotImplementedError.
Proof. exact C49_unsupported_lemma. Qed.

(** The gradient matrix has exactly the preconditioner's dimensions, its columns are the
    kernel entries in row-major order followed by the bias, and splitting it gives
    the parameter-shaped tensors back. *)
Theorem C49_gradient_matrix : forall l wg bg,
  supported l -> shape wg = weight_shape l ->
  match bg with Some b => has_bias l = true /\ shape b = [n_out l] | None => has_bias l = false end ->
  exists M, grad_matrix l wg bg = Ok M /\
    preconditioner_dims l = Ok (cols M, rows M) /\ shape M = [rows M; cols M] /\
    (forall i r, (i < n_out l)%nat -> (r < fan l)%nat -> get2 M i r = nth (i * fan l + r) (data wg) 0) /\
    (forall b i, bg = Some b -> (i < n_out l)%nat -> get2 M i (fan l) = get1 b i) /\
    split_matrix l M = Ok (wg, bg).
Proof. exact C49_gradient_matrix_lemma. Qed.

(** ** C39 *)
Theorem C39_linear_dims : forall x g d_in d_out (bias : bool) b mid la ka dK dC,
  shape x = b :: mid ++ [d_in] -> shape g = b :: mid ++ [d_out] ->
  ka = Expand \/ ka = Reduce -> la <> LossOther ->
  preconditioner_dims (Linear d_in d_out bias) = Ok (dK, dC) ->
  exists A B N, process_input x (Linear d_in d_out bias) ka = Ok A /\ shape A = [N; dK] /\
    process_grad_output g (Linear d_in d_out bias) la ka = Ok B /\ shape B = [N; dC] /\
    N = match ka with Expand => (b * prod mid)%nat | _ => b end.
Proof. exact C39_linear_dims_lemma. Qed.

Theorem C39_conv_dims : forall x g c b i1 i2 o1 o2 la ka dK dC,
  conv_ok c -> shape x = [b; cv_in c; i1; i2] -> outs c i1 i2 o1 o2 -> shape g = [b; cv_out c; o1; o2] ->
  (ka = Expand /\ even_pad c) \/ ka = Reduce -> la <> LossOther ->
  preconditioner_dims (Conv2d c) = Ok (dK, dC) ->
  exists A B N, process_input x (Conv2d c) ka = Ok A /\ shape A = [N; dK] /\
    process_grad_output g (Conv2d c) la ka = Ok B /\ shape B = [N; dC] /\
    N = match ka with Expand => (b * (o1 * o2))%nat | _ => b end.
Proof. exact C39_conv_dims_lemma. Qed.

(** Convolutions with "same" padding that is not even on both ends are supported by "reduce"
    only: "expand" raises. *)
Theorem C39_uneven_same_padding_refuted : forall x,
  exists c, conv_ok c /\ conv2d_process_input x c Expand = Err NotImplementedError.
Proof. exact C39_uneven_same_padding_refuted_lemma. Qed.

(** Inputs without batch axis, which PyTorch's layers accept, are not supported. *)
Theorem C39_unbatched_refuted : forall x,
  (forall d_in d_out bias ka, shape x = [d_in] -> is_ok (process_input x (Linear d_in d_out bias) ka) = false) /\
  (forall c i1 i2 ka, conv_ok c -> shape x = [cv_in c; i1; i2] -> cv_pad c = PadValid -> is_ok (process_input x (Conv2d c) ka) = false).
Proof. exact C39_unbatched_refuted_lemma. Qed.

(** Linear layers, expand: the average over all batch and shared positions. *)
Theorem C40_linear_input_expand : forall x d_in d_out (bias : bool) b mid dK,
  shape x = b :: mid ++ [d_in] -> (b * prod mid <> 0)%nat -> dK = (if bias then d_in + 1 else d_in)%nat ->
  exists A, process_input x (Linear d_in d_out bias) Expand = Ok A /\
    forall i j, (i < dK)%nat -> (j < dK)%nat ->
    get2 (mm (tr A) A) i j =
    sum b (fun n => sum (prod mid) (fun s =>
      withone bias d_in (bget x mid n s) i * withone bias d_in (bget x mid n s) j)) / fofnat (b * prod mid).
Proof. exact C40_linear_input_expand_lemma. Qed.

(** Linear layers, reduce: the average over the batch of the means over shared positions. *)
Theorem C40_linear_input_reduce : forall x d_in d_out (bias : bool) b mid dK,
  shape x = b :: mid ++ [d_in] -> b <> O -> dK = (if bias then d_in + 1 else d_in)%nat ->
  let mean n := withone bias d_in (fun i => sum (prod mid) (fun s => bget x mid n s i) / fofnat (prod mid)) in
  exists A, process_input x (Linear d_in d_out bias) Reduce = Ok A /\
    forall i j, (i < dK)%nat -> (j < dK)%nat ->
    get2 (mm (tr A) A) i j = sum b (fun n => mean n i * mean n j) / fofnat b.
Proof. exact C40_linear_input_reduce_lemma. Qed.

(** The factor applied to the output gradients' second moment. *)
Theorem C40_linear_grad_expand : forall g d_in d_out (bias : bool) la b mid,
  shape g = b :: mid ++ [d_out] -> la <> LossOther ->
  exists B, process_grad_output g (Linear d_in d_out bias) la Expand = Ok B /\
    forall i j, (i < d_out)%nat -> (j < d_out)%nat ->
    get2 (mm (tr B) B) i j =
    grad_factor la b (prod mid) * sum b (fun n => sum (prod mid) (fun s => bget g mid n s i * bget g mid n s j)).
Proof. exact C40_linear_grad_expand_lemma. Qed.

Theorem C40_linear_grad_reduce : forall g d_in d_out (bias : bool) la b mid,
  shape g = b :: mid ++ [d_out] -> la <> LossOther ->
  let tot n i := sum (prod mid) (fun s => bget g mid n s i) in
  exists B, process_grad_output g (Linear d_in d_out bias) la Reduce = Ok B /\
    forall i j, (i < d_out)%nat -> (j < d_out)%nat ->
    get2 (mm (tr B) B) i j = grad_factor la b (prod mid) * sum b (fun n => tot n i * tot n j).
Proof. exact C40_linear_grad_reduce_lemma. Qed.

Theorem C40_conv_grad_expand : forall g c la b o1 o2,
  shape g = [b; cv_out c; o1; o2] -> la <> LossOther ->
  exists B, process_grad_output g (Conv2d c) la Expand = Ok B /\
    forall i j, (i < cv_out c)%nat -> (j < cv_out c)%nat ->
    get2 (mm (tr B) B) i j =
    grad_factor la b (o1 * o2) *
    sum b (fun n => sum o1 (fun u => sum o2 (fun v => get4 g n i u v * get4 g n j u v))).
Proof. exact C40_conv_grad_expand_lemma. Qed.

Theorem C40_conv_grad_reduce : forall g c la b o1 o2,
  shape g = [b; cv_out c; o1; o2] -> la <> LossOther ->
  let tot n i := sum o1 (fun u => sum o2 (fun v => get4 g n i u v)) in
  exists B, process_grad_output g (Conv2d c) la Reduce = Ok B /\
    forall i j, (i < cv_out c)%nat -> (j < cv_out c)%nat ->
    get2 (mm (tr B) B) i j = grad_factor la b (o1 * o2) * sum b (fun n => tot n i * tot n j).
Proof. exact C40_conv_grad_reduce_lemma. Qed.

(** Convolutions: averages over batch and output positions of the patches. *)
Theorem C40_conv_input_expand : forall x c b i1 i2 o1 o2,
  conv_ok c -> shape x = [b; cv_in c; i1; i2] -> outs c i1 i2 o1 o2 -> even_pad c -> b <> O ->
  exists A, process_input x (Conv2d c) Expand = Ok A /\
    (* kernel positions *)
    (forall ci u v ci' u' v',
       (ci < cv_in c / cv_groups c)%nat -> (u < cv_k1 c)%nat -> (v < cv_k2 c)%nat ->
       (ci' < cv_in c / cv_groups c)%nat -> (u' < cv_k1 c)%nat -> (v' < cv_k2 c)%nat ->
       get2 (mm (tr A) A) (kidx c ci u v) (kidx c ci' u' v') =
       sum b (fun n => sum o1 (fun y => sum o2 (fun z =>
         patch x c n y z ci u v * patch x c n y z ci' u' v'))) / fofnat (b * (o1 * o2))) /\
    (* bias column *)
    (cv_bias c = true -> forall ci u v,
       (ci < cv_in c / cv_groups c)%nat -> (u < cv_k1 c)%nat -> (v < cv_k2 c)%nat ->
       get2 (mm (tr A) A) (kidx c ci u v) (fan (Conv2d c)) =
       sum b (fun n => sum o1 (fun y => sum o2 (fun z => patch x c n y z ci u v))) / fofnat (b * (o1 * o2))).
Proof. exact C40_conv_input_expand_lemma. Qed.

Theorem C40_conv_input_reduce : forall x c b i1 i2 o1 o2,
  conv_ok c -> shape x = [b; cv_in c; i1; i2] -> outs c i1 i2 o1 o2 -> b <> O ->
  let mean n ci u v := sum o1 (fun y => sum o2 (fun z => patch x c n y z ci u v)) / fofnat (o1 * o2) in
  exists A, process_input x (Conv2d c) Reduce = Ok A /\
    (forall ci u v ci' u' v',
       (ci < cv_in c / cv_groups c)%nat -> (u < cv_k1 c)%nat -> (v < cv_k2 c)%nat ->
       (ci' < cv_in c / cv_groups c)%nat -> (u' < cv_k1 c)%nat -> (v' < cv_k2 c)%nat ->
       get2 (mm (tr A) A) (kidx c ci u v) (kidx c ci' u' v') =
       sum b (fun n => mean n ci u v * mean n ci' u' v') / fofnat b) /\
    (cv_bias c = true -> forall ci u v,
       (ci < cv_in c / cv_groups c)%nat -> (u < cv_k1 c)%nat -> (v < cv_k2 c)%nat ->
       get2 (mm (tr A) A) (kidx c ci u v) (fan (Conv2d c)) = sum b (fun n => mean n ci u v) / fofnat b).
Proof. exact C40_conv_input_reduce_lemma. Qed.

(** Consistency over the loss averages: if the loss is averaged over N terms (the batch, or
    batch and sequence), autograd's output gradients are 1/N times the gradients of the
    terms, and the statistic is the average over these N of what "sum" gives. *)
Theorem C40_loss_average_consistent : forall g d_in d_out (bias : bool) la b mid N,
  shape g = b :: mid ++ [d_out] ->
  (la = LossBatch /\ N = b) \/ (la = LossBatchSeq /\ N = (b * prod mid)%nat) -> N <> O ->
  forall ka, ka = Expand \/ ka = Reduce ->
  exists B B', process_grad_output (t_divs g (fofnat N)) (Linear d_in d_out bias) la ka = Ok B /\
    process_grad_output g (Linear d_in d_out bias) LossSum ka = Ok B' /\
    forall i j, (i < d_out)%nat -> (j < d_out)%nat ->
    get2 (mm (tr B) B) i j = get2 (mm (tr B') B') i j / fofnat N.
Proof. exact C40_loss_average_consistent_lemma. Qed.

(** Only documented settings and layers are processed. *)
Theorem C40_accepted : forall x g l la ka,
  (is_ok (process_input x l ka) = true -> (ka = Expand \/ ka = Reduce) /\ supported l) /\
  (is_ok (process_grad_output g l la ka) = true -> la <> LossOther /\ (ka = Expand \/ ka = Reduce) /\ supported l).
Proof. exact C40_accepted_lemma. Qed.

(** ** C41 *)
Theorem C41_averaged_patches : forall x c b i1 i2 o1 o2,
  conv_ok c -> shape x = [b; cv_in c; i1; i2] -> outs c i1 i2 o1 o2 -> even_pad c ->
  exists P Q,
    extract_patches x (cv_k1 c) (cv_k2 c) (cv_s1 c) (cv_s2 c) (cv_pad c) (cv_d1 c) (cv_d2 c) (cv_groups c) = Ok P /\
    extract_averaged_patches x (cv_k1 c) (cv_k2 c) (cv_s1 c) (cv_s2 c) (cv_pad c) (cv_d1 c) (cv_d2 c) (cv_groups c) = Ok Q /\
    Q = tab2 b (fan (Conv2d c)) (fun n k => sum (o1 * o2) (fun o => get3 P n o k) / fofnat (o1 * o2)).
Proof. exact C41_averaged_patches_lemma. Qed.

(** Also where unfolding is not supported (uneven "same" padding): the entries are the
    averages of the inputs that the kernel reads, [patch], over all output positions. *)
Theorem C41_averaged_patches_any_padding : forall x c b i1 i2 o1 o2,
  conv_ok c -> shape x = [b; cv_in c; i1; i2] -> outs c i1 i2 o1 o2 ->
  exists Q,
    extract_averaged_patches x (cv_k1 c) (cv_k2 c) (cv_s1 c) (cv_s2 c) (cv_pad c) (cv_d1 c) (cv_d2 c) (cv_groups c) = Ok Q /\
    shape Q = [b; fan (Conv2d c)] /\
    forall n ci u v, (n < b)%nat -> (ci < cv_in c / cv_groups c)%nat -> (u < cv_k1 c)%nat -> (v < cv_k2 c)%nat ->
    get2 Q n (kidx c ci u v) = sum o1 (fun y => sum o2 (fun z => patch x c n y z ci u v)) / fofnat (o1 * o2).
Proof. exact C41_averaged_patches_any_padding_lemma. Qed.

(** Without channel groups and with zero padding the layer's output is the product of the
    parameter matrix (arranged like the gradient matrix of C49, bias last) with the
    processed input row of the position, whose normalisation is undone. *)
Theorem C42_conv_is_linear_in_patches : forall c x W bv M b i1 i2 o1 o2,
  conv_ok c -> cv_groups c = 1%nat -> cv_mode c = ModeZeros -> even_pad c -> b <> O ->
  shape x = [b; cv_in c; i1; i2] -> outs c i1 i2 o1 o2 -> shape W = weight_shape (Conv2d c) ->
  match bv with Some v => cv_bias c = true /\ shape v = [cv_out c] | None => cv_bias c = false end ->
  grad_matrix (Conv2d c) W bv = Ok M ->
  exists A, process_input x (Conv2d c) Expand = Ok A /\
    forall n co y z, (n < b)%nat -> (co < cv_out c)%nat -> (y < o1)%nat -> (z < o2)%nat ->
      conv_out c x W (fun i => match bv with Some v => get1 v i | None => 0 end) n co y z =
      fsqrt (fofnat (b * (o1 * o2))) * get2 (mm M (tr A)) co (n * (o1 * o2) + (y * o2 + z)).
Proof. exact C42_conv_is_linear_in_patches_lemma. Qed.

(** The same for linear layers, for every number of shared axes. *)
Theorem C42_linear_is_linear : forall d_in d_out (bias : bool) x W bv M b mid,
  shape x = b :: mid ++ [d_in] -> (b * prod mid <> 0)%nat -> shape W = [d_out; d_in] ->
  match bv with Some v => bias = true /\ shape v = [d_out] | None => bias = false end ->
  grad_matrix (Linear d_in d_out bias) W bv = Ok M ->
  exists A, process_input x (Linear d_in d_out bias) Expand = Ok A /\
    forall n s o, (n < b)%nat -> (s < prod mid)%nat -> (o < d_out)%nat ->
      sum d_in (fun k => get2 W o k * bget x mid n s k) + match bv with Some v => get1 v o | None => 0 end =
      fsqrt (fofnat (b * prod mid)) * get2 (mm M (tr A)) o (n * prod mid + s).
Proof. exact C42_linear_is_linear_lemma. Qed.

(** ** C43 *)

(** A linear layer whose output gradients do not depend on the sample: the product of the two
    statistics is the second moment of the per-sample parameter gradients gamma a_n^T
    (no shared axes, loss averaged over the batch). *)
Theorem C43_exact_constant_gradients : forall x g d_in d_out (bias : bool) b (gamma : nat -> F) dK,
  shape x = [b; d_in] -> shape g = [b; d_out] -> b <> O -> dK = (if bias then d_in + 1 else d_in)%nat ->
  (forall n k, (n < b)%nat -> (k < d_out)%nat -> get2 g n k = gamma k / fofnat b) ->
  forall ka, ka = Expand \/ ka = Reduce ->
  exists A B, process_input x (Linear d_in d_out bias) ka = Ok A /\
    process_grad_output g (Linear d_in d_out bias) LossBatch ka = Ok B /\
    forall i j k l, (i < dK)%nat -> (j < dK)%nat -> (k < d_out)%nat -> (l < d_out)%nat ->
      get2 (mm (tr A) A) i j * get2 (mm (tr B) B) k l =
      sum b (fun n => (gamma k * withone bias d_in (get2 x n) i) * (gamma l * withone bias d_in (get2 x n) j)) / fofnat b.
Proof. exact C43_exact_constant_gradients_lemma. Qed.

(** Expand and reduce coincide if there is a single shared position. *)
Theorem C43_expand_is_reduce : forall x g d_in d_out (bias : bool) la b mid,
  shape x = b :: mid ++ [d_in] -> shape g = b :: mid ++ [d_out] -> prod mid = 1%nat ->
  process_input x (Linear d_in d_out bias) Expand = process_input x (Linear d_in d_out bias) Reduce /\
  process_grad_output g (Linear d_in d_out bias) la Expand = process_grad_output g (Linear d_in d_out bias) la Reduce.
Proof. exact C43_expand_is_reduce_lemma. Qed.

Theorem C43_expand_is_reduce_conv : forall x g c la b i1 i2,
  conv_ok c -> even_pad c -> shape x = [b; cv_in c; i1; i2] -> outs c i1 i2 1 1 -> shape g = [b; cv_out c; 1%nat; 1%nat] ->
  process_input x (Conv2d c) Expand = process_input x (Conv2d c) Reduce /\
  process_grad_output g (Conv2d c) la Expand = process_grad_output g (Conv2d c) la Reduce.
Proof. exact C43_expand_is_reduce_conv_lemma. Qed.

(** Reduce is exact for weight sharing with an averaged output: if the output gradient of every
    shared position is gamma / (b S), the per-sample parameter gradients are
    gamma times the mean input, and the product of the reduce statistics is their
    second moment. *)
Theorem C43_reduce_exact_for_mean_outputs : forall x g d_in d_out (bias : bool) b mid (gamma : nat -> F) dK,
  shape x = b :: mid ++ [d_in] -> shape g = b :: mid ++ [d_out] -> (b * prod mid <> 0)%nat ->
  dK = (if bias then d_in + 1 else d_in)%nat ->
  (forall n s k, (n < b)%nat -> (s < prod mid)%nat -> (k < d_out)%nat ->
     bget g mid n s k = gamma k / fofnat (b * prod mid)) ->
  (* b times the gradient of sample n's parameters, as autograd sums it over positions *)
  let psg n k i := sum (prod mid) (fun s => (fofnat b * bget g mid n s k) * withone bias d_in (bget x mid n s) i) in
  exists A B, process_input x (Linear d_in d_out bias) Reduce = Ok A /\
    process_grad_output g (Linear d_in d_out bias) LossBatch Reduce = Ok B /\
    forall i j k l, (i < dK)%nat -> (j < dK)%nat -> (k < d_out)%nat -> (l < d_out)%nat ->
      get2 (mm (tr A) A) i j * get2 (mm (tr B) B) k l =
      sum b (fun n => psg n k i * psg n l j) / fofnat b.
Proof. exact C43_reduce_exact_for_mean_outputs_lemma. Qed.

End Generic.

Print Assumptions C49_dims.
Print Assumptions C49_unsupported.
Print Assumptions C49_gradient_matrix.
Print Assumptions C39_linear_dims.
Print Assumptions C39_conv_dims.
Print Assumptions C39_uneven_same_padding_refuted.
Print Assumptions C39_unbatched_refuted.
Print Assumptions C40_linear_input_expand.
Print Assumptions C40_linear_input_reduce.
Print Assumptions C40_linear_grad_expand.
Print Assumptions C40_linear_grad_reduce.
Print Assumptions C40_conv_grad_expand.
Print Assumptions C40_conv_grad_reduce.
Print Assumptions C40_conv_input_expand.
Print Assumptions C40_conv_input_reduce.
Print Assumptions C40_loss_average_consistent.
Print Assumptions C40_accepted.
Print Assumptions C41_averaged_patches.
Print Assumptions C41_averaged_patches_any_padding.
Print Assumptions C42_conv_is_linear_in_patches.
Print Assumptions C42_linear_is_linear.
Print Assumptions C43_exact_constant_gradients.
Print Assumptions C43_expand_is_reduce.
Print Assumptions C43_expand_is_reduce_conv.
Print Assumptions C43_reduce_exact_for_mean_outputs.

(** ** Refutations and examples with rational entries *)

(** C42 fails with circular padding, which the code ignores, ... *)
Theorem C42_circular_padding_refuted :
  conv_ok ex_circ /\ outs ex_circ 1 2 1 3 /\
  exists P, extract_patches ex_x 1 2 1 1 (PadInt 0 1) 1 1 1 = Ok P /\
    this (conv_out ex_circ ex_x ex_W (fun _ => q 0) 0 0 0 0) = inject_Z 3 /\
    (* the kernel is all ones, so its product with the patch is the patch's sum *)
    this (@sum Q_scalar 2 (fun k => get3 P 0 0 k)) = inject_Z 1.
Proof. exact C42_circular_padding_refuted_lemma. Qed.
Print Assumptions C42_circular_padding_refuted.

(** ... and with channel groups, over which the code averages the patches. *)
Theorem C42_groups_refuted :
  let x := qt [1;2;1;1]%nat [1;3]%Z in let W := qt [2;1;1;1]%nat [1;1]%Z in
  conv_ok ex_grp /\ outs ex_grp 1 1 1 1 /\
  exists P, extract_patches x 1 1 1 1 (PadInt 0 0) 1 1 2 = Ok P /\
    this (conv_out ex_grp x W (fun _ => q 0) 0 0 0 0) = inject_Z 1 /\
    this (conv_out ex_grp x W (fun _ => q 0) 0 1 0 0) = inject_Z 3 /\
    this (get3 P 0 0 0) = inject_Z 2.
Proof. exact C42_groups_refuted_lemma. Qed.
Print Assumptions C42_groups_refuted.

(** A convolution with stride, dilation, padding and bias meeting the hypotheses. *)
Example conv_hypotheses_met :
  conv_ok ex_conv /\ cv_groups ex_conv = 1%nat /\ cv_mode ex_conv = ModeZeros /\ even_pad ex_conv /\
  shape ex_xc = [1; cv_in ex_conv; 3; 4]%nat /\ outs ex_conv 3 4 2 2 /\
  preconditioner_dims (Conv2d ex_conv) = Ok (9, 3)%nat /\
  showr (extract_patches ex_xc 2 2 2 1 (PadInt 1 0) 1 2 1) =
    lit [1;4;8]%nat [0;0;1;3;0;0;1;1; 0;0;2;4;0;0;1;1; 5;7;9;11;2;2;3;3; 6;8;10;12;2;2;3;3]%Z.
Proof. exact conv_hypotheses_met_case. Qed.

(** Linear layer with one shared axis; four rows, so that the root is exact. *)
Example linear_hypotheses_met :
  let x := qt [2;2;1]%nat [2;4;6;8]%Z in
  shape x = (2 :: [2] ++ [1])%nat /\
  showr (process_input x (Linear 1 3 true) Expand) =
    Ok ([4;2]%nat, [1; 1#2; 2; 1#2; 3; 1#2; 4; 1#2]%Q) /\
  showr (process_grad_output x (Linear 5 1 true) LossBatchSeq Reduce) = lit [2;1]%nat [12;28]%Z.
Proof. exact linear_hypotheses_met_case. Qed.
