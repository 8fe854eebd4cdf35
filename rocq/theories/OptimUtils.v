(** Model of singd/optim/utils.py: processing of layer inputs and output gradients
    before they enter the preconditioner statistics, and of the layers it dispatches on.

    SIMPLIFICATION: 2-tuples of a layer (kernel size, stride, ...) are two fields;
    [_pair] (utils.py:12, 46, 104-110) is the identity on them. *)

From Coq Require Import List Arith Lia Bool ZArith.
From Verif Require Import Scalar Res Tensor.
Import ListNotations.

(** The argument [padding] of a convolution: a pair of integers or a string,
    utils.py:19, 45, 108. *)
Inductive padding : Type :=
| PadInt (p1 p2 : nat)
| PadSame                   (* "same" *)
| PadValid                  (* "valid" *)
| PadOther.                 (* any other string *)

(** The attributes of [torch.nn.Conv2d] read by utils.py:165-171 and
    optimizer.py:446-450, plus [padding_mode], which the code never reads. *)
Inductive padding_mode : Type := ModeZeros | ModeCircular.

(** [torch.nn.Conv2d], see above (utils.py:165-171, optimizer.py:446-450). *)
Record conv : Type := mkConv {
  cv_in : nat; cv_out : nat;
  cv_k1 : nat; cv_k2 : nat;           (* kernel_size *)
  cv_s1 : nat; cv_s2 : nat;           (* stride *)
  cv_pad : padding;
  cv_d1 : nat; cv_d2 : nat;           (* dilation *)
  cv_groups : nat;
  cv_bias : bool;                     (* bias is not None *)
  cv_mode : padding_mode
}.

(** The modules the code distinguishes: [Linear], [Conv2d], anything else
    (utils.py:139-144, 243-252). *)
Inductive layer : Type :=
| Linear (d_in d_out : nat) (bias : bool)
| Conv2d (c : conv)
| OtherModule.

(** [kfac_approx] and [loss_average] strings, optimizer.py:318-329. *)
Inductive approx : Type := Expand | Reduce | ApproxOther.
(** [loss_average], optimizer.py:315-320. *)
Inductive lossavg : Type := LossSum (* None *) | LossBatch | LossBatchSeq | LossOther.

(** What [torch.nn.Conv2d.__init__] guarantees about its attributes (positive sizes,
    channels divisible by groups, "same" only with stride 1, no unknown strings).
    The layers handed to utils.py:147-176, 255-296. *)
Definition conv_ok (c : conv) : Prop :=
  (0 < cv_in c /\ 0 < cv_out c /\ 0 < cv_k1 c /\ 0 < cv_k2 c /\ 0 < cv_s1 c /\ 0 < cv_s2 c /\
   0 < cv_d1 c /\ 0 < cv_d2 c /\ 0 < cv_groups c /\
   cv_in c mod cv_groups c = 0 /\ cv_out c mod cv_groups c = 0 /\
   match cv_pad c with PadSame => cv_s1 c = 1 /\ cv_s2 c = 1 | PadOther => False | _ => True end)%nat.

(** The shape of [module.weight], as created by PyTorch's layers and read at
    optimizer.py:443, 447, 450. *)
Definition weight_shape (l : layer) : list nat :=
  match l with
  | Linear d_in d_out _ => [d_out; d_in]
  | Conv2d c => [cv_out c; (cv_in c / cv_groups c)%nat; cv_k1 c; cv_k2 c]
  | OtherModule => []
  end.

(** [module.bias is not None], utils.py:172, 201, optimizer.py:445, 449, 689, 723. *)
Definition has_bias (l : layer) : bool :=
  match l with Linear _ _ b => b | Conv2d c => cv_bias c | OtherModule => false end.

(** [SINGD.preconditioner_dims], optimizer.py:430-454: (dim_K, dim_C). *)
Definition preconditioner_dims (l : layer) : res (nat * nat) :=
  match l with
  | Linear _ _ b =>
      match weight_shape l with
      | [dim_C; dim_K] => Ok ((if b then dim_K + 1 else dim_K)%nat, dim_C)
      | _ => Err ValueError
      end
  | Conv2d c =>
      match weight_shape l with
      | dim_C :: rest => Ok ((if cv_bias c then prod rest + 1 else prod rest)%nat, dim_C)
      | _ => Err IndexError
      end
  | OtherModule => Err NotImplementedError
  end.

Section Utils.
Context {S : Scalar}.
Open Scope F_scope.

(** 4d tensors. utils.py:54-59. *)
Definition tab4 (n m l o : nat) (f : nat -> nat -> nat -> nat -> F) : tensor :=
  tab [n; m; l; o] (fun idx => match idx with [i; j; k; p] => f i j k p | _ => 0 end).
(** Entry of a 4d tensor, utils.py:54-59. *)
Definition get4 (t : tensor) (i j k p : nat) : F := tget t [i; j; k; p].

(** [einconv.utils.get_conv_paddings(kernel_size, stride, padding, dilation)] for
    strings, called at utils.py:47. *)
Definition get_conv_paddings (k s d : nat) (p : padding) : res (nat * nat) :=
  match p with
  | PadValid => Ok (O, O)
  | PadSame =>
      if negb (Nat.eqb s 1) then Err ValueError
      else let total := (d * (k - 1))%nat in
           let left := (total / 2)%nat in
           Ok (left, (total - left)%nat)
  | PadInt p1 _ => Ok (p1, p1)
  | PadOther => Err ValueError
  end.

(** Number of output positions of a convolution along an axis of size [i] padded by
    [pl] and [pr]; [None] if there is none ([F.unfold] raises, utils.py:57-59). *)
Definition out_size (i k s d pl pr : nat) : option nat :=
  if Nat.eqb k 0 || Nat.eqb s 0 || Nat.eqb d 0 then None
  else if Nat.leb (d * (k - 1) + 1) (i + pl + pr)
       then Some ((i + pl + pr - (d * (k - 1) + 1)) / s + 1)%nat
       else None.

(** [rearrange "b (g c_in) i1 i2 -> b g c_in i1 i2"] followed by the mean over [g],
    utils.py:54-55, 94-95. *)
Definition average_groups (x : tensor) (groups : nat) : res tensor :=
  match shape x with
  | [b; c; i1; i2] =>
      if Nat.eqb groups 0 then Err RuntimeError
      else if negb (Nat.eqb (c mod groups) 0) then Err RuntimeError
      else
        let c_in := (c / groups)%nat in
        Ok (tab4 b c_in i1 i2 (fun n ci u v =>
              sum groups (fun g => get4 x n (g * c_in + ci) u v) / fofnat groups))
  | _ => Err RuntimeError
  end.

(** Entry of the zero-padded axis: position [o * s + k * d] of an axis with [p] zeros in
    front, used by [F.unfold]. utils.py:57-59. *)
Definition padded (i p q : nat) (v : nat -> F) : F :=
  if Nat.leb p q && Nat.ltb (q - p) i then v (q - p)%nat else 0.

(** [F.unfold(x, kernel_size, dilation, padding, stride)], utils.py:57-59; the result has
    shape [b, c_in * k1 * k2, o1 * o2]. *)
Definition unfold (x : tensor) (k1 k2 s1 s2 p1 p2 d1 d2 : nat) : res tensor :=
  match shape x with
  | [b; c; i1; i2] =>
      match out_size i1 k1 s1 d1 p1 p1, out_size i2 k2 s2 d2 p2 p2 with
      | Some o1, Some o2 =>
          Ok (tab3 b (c * k1 * k2) (o1 * o2) (fun n r o =>
                let ci := (r / (k1 * k2))%nat in
                let u := ((r mod (k1 * k2)) / k2)%nat in
                let v := (r mod k2)%nat in
                padded i1 p1 (o / o2 * s1 + u * d1) (fun a =>
                padded i2 p2 (o mod o2 * s2 + v * d2) (fun b' => get4 x n ci a b'))))
      | _, _ => Err RuntimeError
      end
  | _ => Err RuntimeError
  end.

(** [_extract_patches], utils.py:15-60. *)
Definition extract_patches (x : tensor) (k1 k2 s1 s2 : nat) (p : padding) (d1 d2 groups : nat) : res tensor :=
  let* '(p1, p2) :=
    match p with
    | PadInt p1 p2 => Ok (p1, p2)
    | _ =>
        let* '(l1, r1) := get_conv_paddings k1 s1 d1 p in
        let* _ := check (Nat.eqb l1 r1) NotImplementedError in
        let* '(l2, r2) := get_conv_paddings k2 s2 d2 p in
        let* _ := check (Nat.eqb l2 r2) NotImplementedError in
        Ok (l1, l2)
    end in
  let* x := average_groups x groups in
  let* x_unfold := unfold x k1 k2 s1 s2 p1 p2 d1 d2 in
  (* rearrange "b c_in_k1_k2 o1_o2 -> b o1_o2 c_in_k1_k2" *)
  match shape x_unfold with
  | [b; r; o] => Ok (tab3 b o r (fun n i j => get3 x_unfold n j i))
  | _ => Err RuntimeError
  end.

(** [einconv.index_pattern(i, k, stride, padding, dilation)], called at utils.py:113-115:
    entry [k, o, i] is 1 iff input position i is the one read by kernel position k at output
    position o. *)
Definition index_pattern (i k s d : nat) (p : padding) (pint : nat) : res tensor :=
  let* '(pl, pr) := match p with PadInt _ _ => Ok (pint, pint) | _ => get_conv_paddings k s d p end in
  match out_size i k s d pl pr with
  | Some o => Ok (tab3 k o i (fun a b c => if Nat.eqb (c + pl) (b * s + a * d) then 1 else 0))
  | None => Err RuntimeError
  end.

(** [reduce(pi, "k o i -> k i", "mean")], utils.py:116. *)
Definition mean_mid (t : tensor) : res tensor :=
  match shape t with
  | [k; o; i] => Ok (tab2 k i (fun a c => sum o (fun b => get3 t a b c) / fofnat o))
  | _ => Err RuntimeError
  end.

(** [_extract_averaged_patches], utils.py:63-119. *)
Definition extract_averaged_patches (x : tensor) (k1 k2 s1 s2 : nat) (p : padding) (d1 d2 groups : nat) : res tensor :=
  let* x := average_groups x groups in
  match shape x with
  | [b; c; i1; i2] =>
      let '(q1, q2) := match p with PadInt p1 p2 => (p1, p2) | _ => (O, O) end in
      let* pi1 := index_pattern i1 k1 s1 d1 p q1 in
      let* pi1 := mean_mid pi1 in
      let* pi2 := index_pattern i2 k2 s2 d2 p q2 in
      let* pi2 := mean_mid pi2 in
      (* einsum "b c_in i1 i2, k1 i1, k2 i2 -> b c_in k1 k2", then flatten *)
      Ok (tab2 b (c * k1 * k2) (fun n r =>
            let ci := (r / (k1 * k2))%nat in
            let u := ((r mod (k1 * k2)) / k2)%nat in
            let v := (r mod k2)%nat in
            sum i1 (fun a => sum i2 (fun e => get4 x n ci a e * get2 pi1 u a * get2 pi2 v e))))
  | _ => Err RuntimeError
  end.

(** Appending a column of ones for layers with bias and dividing by the root of the number
    of rows, utils.py:172-176, 201-205. *)
Definition finish_input (bias : bool) (x : tensor) : res tensor :=
  let* x := if bias then t_cat1 x (ones [rows x; 1%nat]) else Ok x in
  Ok (t_divs x (fsqrt (fofnat (rows x)))).

(** [conv2d_process_input], utils.py:147-176. *)
Definition conv2d_process_input (x : tensor) (l : conv) (ka : approx) : res tensor :=
  match ka with
  | Expand =>
      let* x := extract_patches x (cv_k1 l) (cv_k2 l) (cv_s1 l) (cv_s2 l) (cv_pad l) (cv_d1 l) (cv_d2 l) (cv_groups l) in
      (* rearrange "b o1_o2 c_in_k1_k2 -> (b o1_o2) c_in_k1_k2" *)
      match shape x with
      | [b; o; r] => let* x := t_reshape x [(b * o)%nat; r] in finish_input (cv_bias l) x
      | _ => Err RuntimeError
      end
  | _ =>
      let* x := extract_averaged_patches x (cv_k1 l) (cv_k2 l) (cv_s1 l) (cv_s2 l) (cv_pad l) (cv_d1 l) (cv_d2 l) (cv_groups l) in
      finish_input (cv_bias l) x
  end.

(** The axes of "b ... d": first, product of the middle ones, last; einops needs at least
    two axes, utils.py:196, 199, 337, 340. *)
Definition bsd (x : tensor) : res (nat * nat * nat) :=
  match shape x with
  | b :: ((_ :: _) as s) => Ok (b, prod (removelast s), last s O)
  | _ => Err RuntimeError
  end.

(** [linear_process_input], utils.py:179-205. *)
Definition linear_process_input (x : tensor) (bias : bool) (ka : approx) : res tensor :=
  let* '(b, s, d) := bsd x in
  let* x :=
    match ka with
    | Expand => t_reshape x [(b * s)%nat; d]
    | _ =>
        let* x := t_reshape x [b; s; d] in
        Ok (tab2 b d (fun i k => sum s (fun j => get3 x i j k) / fofnat s))
    end in
  finish_input bias x.

(** [process_input], utils.py:122-144. *)
Definition process_input (x : tensor) (l : layer) (ka : approx) : res tensor :=
  match ka with
  | ApproxOther => Err AssertionError
  | _ =>
      match l with
      | Conv2d c => conv2d_process_input x c ka
      | Linear _ _ bias => linear_process_input x bias ka
      | OtherModule => Err NotImplementedError
      end
  end.

(** The factor [scaling], utils.py:279-286, 325-333, with [grad_scaling = 1.0]
    (utils.py:242); [n] is the batch size and [sp] the size of the shared axes. *)
Definition loss_scaling (la : lossavg) (n sp : nat) : F :=
  match la with
  | LossSum => 1
  | LossBatch => 1 * fsqrt (fofnat n)
  | LossBatchSeq => 1 * fsqrt (fofnat (n * sp))
  | LossOther => 1 * fsqrt (fofnat n)
  end.

(** [conv2d_process_grad_output], utils.py:255-296. *)
Definition conv2d_process_grad_output (g : tensor) (la : lossavg) (ka : approx) : res tensor :=
  match shape g with
  | [b; c; o1; o2] =>
      let scaling := loss_scaling la b (o1 * o2) in
      let g' :=
        match ka with
        | Expand => (* "b c o1 o2 -> (b o1 o2) c" *)
            tab2 (b * o1 * o2) c (fun r j => get4 g (r / (o1 * o2)) j (r mod (o1 * o2) / o2) (r mod o2))
        | _ => tab2 b c (fun n j => sum o1 (fun u => sum o2 (fun v => get4 g n j u v)))
        end in
      Ok (t_scale scaling g')
  | _ => Err RuntimeError
  end.

(** [linear_process_grad_output], utils.py:299-342. *)
Definition linear_process_grad_output (g : tensor) (la : lossavg) (ka : approx) : res tensor :=
  let* '(b, s, d) := bsd g in
  let scaling := loss_scaling la b s in
  let* g' :=
    match ka with
    | Expand => t_reshape g [(b * s)%nat; d]
    | _ =>
        let* g := t_reshape g [b; s; d] in
        Ok (tab2 b d (fun i k => sum s (fun j => get3 g i j k)))
    end in
  Ok (t_scale scaling g').

(** [process_grad_output], utils.py:208-252. *)
Definition process_grad_output (g : tensor) (l : layer) (la : lossavg) (ka : approx) : res tensor :=
  match la, ka with
  | LossOther, _ => Err AssertionError
  | _, ApproxOther => Err AssertionError
  | _, _ =>
      match l with
      | Conv2d _ => conv2d_process_grad_output g la ka
      | Linear _ _ _ => linear_process_grad_output g la ka
      | OtherModule => Err NotImplementedError
      end
  end.

(** The gradient as a matrix with the bias as last column, optimizer.py:682-690. *)
Definition grad_matrix (l : layer) (wg : tensor) (bg : option tensor) : res tensor :=
  let* g :=
    match l with
    | Conv2d _ =>
        (* flatten(start_dim=1) *)
        match shape wg with
        | n :: rest => t_reshape wg [n; prod rest]
        | [] => Err IndexError
        end
    | Linear _ _ _ => Ok wg
    | OtherModule => Err NotImplementedError
    end in
  match bg with
  | None => Ok g
  | Some b =>
      (* cat([grad_mat, bias_grad.unsqueeze(1)], dim=1) *)
      let* b := match shape b with [n] => t_reshape b [n; 1%nat] | _ => Err IndexError end in
      t_cat1 g b
  end.

(** Splitting a matrix into parameter shapes, optimizer.py:721-730. *)
Definition split_matrix (l : layer) (nat_grad : tensor) : res (tensor * option tensor) :=
  if has_bias l then
    let k := cols nat_grad in
    let* w := t_slice2 nat_grad 0 (rows nat_grad) 0 (k - 1) in
    let* b := t_slice2 nat_grad 0 (rows nat_grad) (k - 1) k in
    let* w := t_reshape w (weight_shape l) in
    let* b := t_reshape b [nth 0 (weight_shape l) O] in
    Ok (w, Some b)
  else
    let* w := t_reshape nat_grad (weight_shape l) in Ok (w, None).

End Utils.
