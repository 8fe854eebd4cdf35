(** C63: a layer is trained through its matrix view only. *)

From Coq Require Import List Arith Lia Bool ZArith QArith Qcanon.
From Verif Require Import Scalar Res Tensor TensorFacts Structures OptimUtils UtilsFacts ProofUtils Optimizer Construct OptFacts OptState OptRun OptSpec OptTyped QEx OptEx OptEx2 ProgressSpec ProgressEx LayerSpec LayerSim LayerCtor LayerInst ProofLayer.
Import ListNotations.
Open Scope nat_scope.

Section PropLayer.
Context {SC : Scalar} {FL : FieldLaws SC}.

(** * C63: a bias is trained as the weight of a constant input

    Take the biases of any linear layers into their weights as a last column and feed these layers inputs with a one appended:
    the constructor accepts the new model, all calls end the same way, all preconditioners, momenta, counters and scales are the same ones,
    and the parameters are the same matrices, at any point of any training. *)
Theorem C63_bias : forall pick a par par' c st0 es es',
  setting a par c st0 -> (forall m, In m (c_mods c) -> bias_fits m) -> plain_model a ->
  starts_alike (fold_biases pick) (c_mods c) par par' ->
  wf_run c es st0 -> rewritten_calls (fold_biases pick) (c_mods c) (fun _ => None) es es' ->
  exists c' st0', setting (rewritten_args (fold_biases pick) a) par' c' st0' /\ c_mods c' = map (r_mod (fold_biases pick)) (c_mods c) /\
    let s := run c es st0 in let t := run c' es' st0' in
    (forall k, s_slots t k = s_slots s k) /\ s_steps t = s_steps s /\ s_scales t = s_scales s /\ s_log t = s_log s /\
    (forall m, In m (c_mods c) -> same_params m (r_mod (fold_biases pick) m) (s_par s) (s_par t)) /\
    answers c' es' st0' = answers c es st0.
Proof. exact C63_bias_lemma. Qed.

(** * C63: a convolution is trained as a linear layer on its patches

    Replace any convolutions with symmetric padding by linear layers on their patches. *)
Theorem C63_patches : forall pick a par par' c st0 es es',
  setting a par c st0 -> (forall m, In m (c_mods c) -> bias_fits m) -> plain_model a ->
  (forall m cv, In m (c_mods c) -> pick (m_key m) = true -> m_layer m = Conv2d cv -> even_pad cv) ->
  starts_alike (unfold_convs pick) (c_mods c) par par' ->
  wf_run c es st0 -> rewritten_calls (unfold_convs pick) (c_mods c) (fun _ => None) es es' ->
  exists c' st0', setting (rewritten_args (unfold_convs pick) a) par' c' st0' /\ c_mods c' = map (r_mod (unfold_convs pick)) (c_mods c) /\
    let s := run c es st0 in let t := run c' es' st0' in
    (forall k, s_slots t k = s_slots s k) /\ s_steps t = s_steps s /\ s_scales t = s_scales s /\ s_log t = s_log s /\
    (forall m, In m (c_mods c) -> same_params m (r_mod (unfold_convs pick) m) (s_par s) (s_par t)) /\
    answers c' es' st0' = answers c es st0.
Proof. exact C63_patches_lemma. Qed.
End PropLayer.

Print Assumptions C63_bias.
Print Assumptions C63_patches.

(** Two iterations of the two-layer model whose first layer has a bias; [lay_par] is the same model with the bias as third column of the weight. *)
Example C63_bias_met :
  let a := ex_args PNone (qr 1 2) (qr 1 2) (qr 1 8) 1 dense2 false true (q 1) in
  let c := fst (built a) in let st0 := snd (built a) in
  let es := lay_it (-2) ++ lay_it 3 in let es' := lay_it' (-2) ++ lay_it' 3 in
  let r := snd (ctor (rewritten_args (fold_biases lay_pick) a) lay_par []) in
  setting a ex_par c st0 /\ (forall m, In m (c_mods c) -> bias_fits m) /\ plain_model a /\
  starts_alike (fold_biases lay_pick) (c_mods c) ex_par lay_par /\ wf_run c es st0 /\
  rewritten_calls (fold_biases lay_pick) (c_mods c) (fun _ => None) es es' /\
  match r with
  | Ok (c', st0') =>
      answers c' es' st0' = repeat (Ok tt) 10 /\
      data (p_val (s_par (run c' es' st0') 0)) = data (p_val (s_par (run c es st0) 0)) ++ data (p_val (s_par (run c es st0) 1)) /\
      data (p_val (s_par (run c es st0) 0)) <> data (p_val (s_par st0 0))
  | Err _ => False
  end.
Proof. exact C63_bias_met_case. Qed.

(** One iteration of a convolution with stride, dilation, padding and bias; as a linear layer it has the same data in its weight. *)
Example C63_patches_met : forall ka, ka = Expand \/ ka = Reduce ->
  let a := cv_args ka in
  let c := fst (cv_built ka) in let st0 := snd (cv_built ka) in let r := unfold_convs (fun _ => true) in
  let es := cv_it cv_m [3; 2; 2; 2] ex_xc cv_g in let es' := cv_it cv_m' [3; 8] (patches ex_conv ex_xc) (positions cv_g) in
  setting a (cv_par [3; 2; 2; 2]) c st0 /\ (forall m, In m (c_mods c) -> bias_fits m) /\ plain_model a /\
  (forall m cv, In m (c_mods c) -> true = true -> m_layer m = Conv2d cv -> even_pad cv) /\
  starts_alike r (c_mods c) (cv_par [3; 2; 2; 2]) (cv_par [3; 8]) /\ wf_run c es st0 /\
  rewritten_calls r (c_mods c) (fun _ => None) es es' /\ shape (patches ex_conv ex_xc) = [1; 4; 8] /\
  match snd (ctor (rewritten_args r a) (cv_par [3; 8]) []) with
  | Ok (c', st0') =>
      answers c' es' st0' = repeat (Ok tt) 3 /\
      data (p_val (s_par (run c' es' st0') 0)) = data (p_val (s_par (run c es st0) 0)) /\
      data (p_val (s_par (run c es st0) 0)) <> data (p_val (s_par st0 0))
  | Err _ => False
  end.
Proof. exact C63_patches_met_case. Qed.
