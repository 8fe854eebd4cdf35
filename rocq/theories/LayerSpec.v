(** Specification vocabulary: one layer written as another one.  Not a model of code. *)

From Coq Require Import List Arith Bool ZArith.
From Verif Require Import Scalar Res Tensor Structures OptimUtils UtilsFacts ProofUtils Optimizer Construct OptState.
Import ListNotations.

Section LayerSpec.
Context {SC : Scalar}.
Open Scope F_scope.

(** ** Parameters of a layer as one matrix *)

(** Row [i], column [j] of the weight, flattened behind its first axis, with the bias as last column. *)
Definition cell (l : layer) (w : tensor) (b : option tensor) (i j : nat) : F :=
  if Nat.ltb j (fan l) then nth (i * fan l + j) (data w) 0 else match b with Some b => get1 b i | None => 0 end.
Definition width (l : layer) : nat := if has_bias l then (fan l + 1)%nat else fan l.

(** Tensors of the shapes of the parameters of [l] (a bias iff the layer has one). *)
Definition layer_fit (l : layer) (w : tensor) (b : option tensor) : Prop :=
  shape w = weight_shape l /\ match b with Some b => has_bias l = true /\ shape b = [n_out l] | None => has_bias l = false end.

(** The same matrix, seen as parameters of two layers. *)
Definition same_matrix (l : layer) (w : tensor) (b : option tensor) (l' : layer) (w' : tensor) (b' : option tensor) : Prop :=
  layer_fit l w b /\ layer_fit l' w' b' /\
  forall i j, (i < n_out l)%nat -> (j < width l)%nat -> cell l w b i j = cell l' w' b' i j.

(** Two layers agree in something their parameters may have (value, gradient, momentum buffer): all of them
    lack it or all have it and they are the same matrix. *)
Definition same_at (sel : pslot -> option tensor) (m m' : modul) (pa pa' : nat -> pslot) : Prop :=
  (forall p, In p (mod_params m) -> sel (pa p) = None) /\ (forall p, In p (mod_params m') -> sel (pa' p) = None) \/
  exists w w', sel (pa (m_weight m)) = Some w /\ sel (pa' (m_weight m')) = Some w' /\
    let bias m pa := match m_bias m with Some p => sel (pa p) | None => None end in
    same_matrix (m_layer m) w (bias m pa) (m_layer m') w' (bias m' pa').

Definition same_params (m m' : modul) (pa pa' : nat -> pslot) : Prop :=
  same_at (fun p => Some (p_val p)) m m' pa pa' /\ same_at p_grad m m' pa pa' /\ same_at p_buf m m' pa pa'.

(** Groups that differ at most in the list of their parameters. *)
Definition same_settings (g g' : group) : Prop := g' = with_params (g_params g') g.

(** ** Rewriting layers *)

(** A module in terms of another one with the same weight, and its inputs and output gradients in terms of the other's. *)
Record rewriting : Type := mkRewriting {
  r_mod : modul -> modul;
  r_in : modul -> tensor -> tensor;
  r_out : modul -> tensor -> tensor
}.

(** Parameters before the constructor is called. *)
Definition starts_alike (r : rewriting) (ms : list modul) (par par' : nat -> pslot) : Prop :=
  forall m, In m ms -> same_at (fun p => Some (p_val p)) m (r_mod r m) par par' /\ same_at p_grad m (r_mod r m) par par'.

(** Writing the gradients of a module: [backward()] or [zero_grad()]. *)
Definition write_grads (m : modul) (w b : option tensor) : list event :=
  EGrad (m_weight m) w :: match m_bias m with Some p => [EGrad p b] | None => [] end.

Definition plain_call (e : event) : Prop :=
  match e with ESetScale _ | EScaler _ _ | EStep _ => True | _ => False end.

(** The same training, call by call, with the modules [ms] rewritten.  [own]: the module whose forward pass computed an output. *)
Inductive rewritten_calls (r : rewriting) (ms : list modul) : (nat -> option modul) -> list event -> list event -> Prop :=
| RC_nil own : rewritten_calls r ms own [] []
| RC_forward own m x b out es es' :
    rewritten_calls r ms (upd own out (Some m)) es es' ->
    rewritten_calls r ms own (EForward m x b out :: es) (EForward (r_mod r m) (r_in r m x) b out :: es')
| RC_backward own out g es es' :
    rewritten_calls r ms own es es' ->
    rewritten_calls r ms own (EBackward out g :: es) (EBackward out (match own out with Some m => r_out r m g | None => g end) :: es')
| RC_grads own m w b w' b' es es' :
    In m ms -> same_matrix (m_layer m) w b (m_layer (r_mod r m)) w' b' ->
    rewritten_calls r ms own es es' ->
    rewritten_calls r ms own (write_grads m (Some w) b ++ es) (write_grads (r_mod r m) (Some w') b' ++ es')
| RC_no_grads own m es es' :
    In m ms ->
    rewritten_calls r ms own es es' ->
    rewritten_calls r ms own (write_grads m None None ++ es) (write_grads (r_mod r m) None None ++ es')
| RC_groups own gs gs' es es' :
    Forall2 same_settings gs gs' ->
    rewritten_calls r ms own es es' ->
    rewritten_calls r ms own (EGroups gs :: es) (EGroups gs' :: es')
| RC_plain own e es es' :
    plain_call e ->
    rewritten_calls r ms own es es' ->
    rewritten_calls r ms own (e :: es) (e :: es').

(** The outcomes of all calls but the gradient writes (which are no calls of the optimizer and never raise). *)
Fixpoint answers (c : cfg) (es : list event) (st : state) : list (res unit) :=
  match es with
  | [] => []
  | e :: es' =>
      match e with EGrad _ _ => [] | _ => [snd (event_op c e st)] end ++ answers c es' (fst (event_op c e st))
  end.

(** A call of the constructor for the model with rewritten layers.  Supported layers own their weight and bias and nothing else. *)
Definition plain_model (a : args) : Prop :=
  forall n, In n (a_model a) -> is_supported (n_mod n) = true -> n_leaf n = true /\ n_params n = mod_params (n_mod n).
Definition rewritten_node (r : rewriting) (n : node) : node :=
  if is_supported (n_mod n) then mkNode (r_mod r (n_mod n)) (n_leaf n) (mod_params (r_mod r (n_mod n))) else n.
Definition rewritten_args (r : rewriting) (a : args) : args :=
  mkArgs (a_wrapped a) (map (rewritten_node r) (a_model a)) (a_requires_grad a) (a_params a)
    (a_lr a) (a_momentum a) (a_damping a) (a_alpha1 a) (a_wd a) (a_T a) (a_loss a) (a_lr_cov a) (a_structs a) (a_approx a)
    (a_warn a) (a_kfac_like a) (a_init_scale a) (a_normalize a).

(** ** A bias as the weight of a constant input *)

(** [cat([x, ones], dim=-1)]. *)
Definition append_one (x : tensor) : tensor :=
  tab (removelast (shape x) ++ [S (last (shape x) O)]) (fun idx => if Nat.ltb (last idx O) (last (shape x) O) then tget x idx else 1).

Definition without_bias (m : modul) : modul :=
  match m_layer m with
  | Linear d o true => mkMod (m_key m) (Linear (d + 1) o false) (m_weight m) None
  | _ => m
  end.
(** The linear layers with bias among those [pick] selects (by name) lose it and get inputs with an additional one. *)
Definition fold_biases (pick : nat -> bool) : rewriting :=
  mkRewriting (fun m => if pick (m_key m) then without_bias m else m)
    (fun m x => if pick (m_key m) then match m_layer m with Linear _ _ true => append_one x | _ => x end else x)
    (fun m g => g).

(** ** A convolution as a linear layer on patches *)

(** Output positions of a convolution along an axis. *)
Definition conv_outs (c : conv) (i1 i2 : nat) : nat * nat :=
  let o i k s d p := ((i + pad_front (cv_pad c) p k d + pad_back (cv_pad c) p k d - (d * (k - 1) + 1)) / s + 1)%nat in
  (o i1 (cv_k1 c) (cv_s1 c) (cv_d1 c) (pint1 (cv_pad c)), o i2 (cv_k2 c) (cv_s2 c) (cv_d2 c) (pint2 (cv_pad c))).

(** The patches of an image (averaged over the groups of channels), one row for each output position. *)
Definition patches (c : conv) (x : tensor) : tensor :=
  match shape x with
  | [b; _; i1; i2] =>
      let '(o1, o2) := conv_outs c i1 i2 in
      tab3 b (o1 * o2) (fan (Conv2d c)) (fun n o r =>
        patch x c n (o / o2) (o mod o2) (r / (cv_k1 c * cv_k2 c)) (r mod (cv_k1 c * cv_k2 c) / cv_k2 c) (r mod cv_k2 c))
  | _ => x
  end.
(** An output gradient with one row for each output position. *)
Definition positions (g : tensor) : tensor :=
  match shape g with
  | [b; c; o1; o2] => tab3 b (o1 * o2) c (fun n o j => get4 g n j (o / o2) (o mod o2))
  | _ => g
  end.

Definition as_linear (m : modul) : modul :=
  match m_layer m with
  | Conv2d c => mkMod (m_key m) (Linear (fan (Conv2d c)) (cv_out c) (cv_bias c)) (m_weight m) (m_bias m)
  | _ => m
  end.
(** The convolutions among the modules [pick] selects (by name) become linear layers on their patches. *)
Definition unfold_convs (pick : nat -> bool) : rewriting :=
  mkRewriting (fun m => if pick (m_key m) then as_linear m else m)
    (fun m x => if pick (m_key m) then match m_layer m with Conv2d c => patches c x | _ => x end else x)
    (fun m g => if pick (m_key m) then match m_layer m with Conv2d _ => positions g | _ => g end else g).

End LayerSpec.
