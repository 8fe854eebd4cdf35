(** C63: a layer is trained through its matrix view only. *)

From Coq Require Import List Arith Lia Bool ZArith QArith Qcanon.
From Verif Require Import Scalar Res Tensor TensorFacts Structures OptimUtils UtilsFacts ProofUtils Optimizer Construct OptFacts OptState OptRun OptSpec OptTyped QEx OptEx OptEx2 ProgressSpec ProgressEx LayerSpec LayerSim LayerCtor LayerInst.
Import ListNotations.
Open Scope nat_scope.

Section PropLayer.
Context {SC : Scalar} {FL : FieldLaws SC}.

Lemma C63_bias_lemma : forall pick a par par' c st0 es es',
  setting a par c st0 -> (forall m, In m (c_mods c) -> bias_fits m) -> plain_model a ->
  starts_alike (fold_biases pick) (c_mods c) par par' ->
  wf_run c es st0 -> rewritten_calls (fold_biases pick) (c_mods c) (fun _ => None) es es' ->
  exists c' st0', setting (rewritten_args (fold_biases pick) a) par' c' st0' /\ c_mods c' = map (r_mod (fold_biases pick)) (c_mods c) /\
    let s := run c es st0 in let t := run c' es' st0' in
    (forall k, s_slots t k = s_slots s k) /\ s_steps t = s_steps s /\ s_scales t = s_scales s /\ s_log t = s_log s /\
    (forall m, In m (c_mods c) -> same_params m (r_mod (fold_biases pick) m) (s_par s) (s_par t)) /\
    answers c' es' st0' = answers c es st0.
Proof.
  intros pick a par par' c st0 es es' S BF PM SA W RC. apply (trained_alike _ a par par' c st0 es es'); try assumption.
  - intros n _ Hn. apply mild_fold. exact Hn.
  - apply sound_fold; [exact BF|]. intros m Hm. apply (hooked_supported a par c st0 m S Hm).
Qed.

Lemma C63_patches_lemma : forall pick a par par' c st0 es es',
  setting a par c st0 -> (forall m, In m (c_mods c) -> bias_fits m) -> plain_model a ->
  (forall m cv, In m (c_mods c) -> pick (m_key m) = true -> m_layer m = Conv2d cv -> even_pad cv) ->
  starts_alike (unfold_convs pick) (c_mods c) par par' ->
  wf_run c es st0 -> rewritten_calls (unfold_convs pick) (c_mods c) (fun _ => None) es es' ->
  exists c' st0', setting (rewritten_args (unfold_convs pick) a) par' c' st0' /\ c_mods c' = map (r_mod (unfold_convs pick)) (c_mods c) /\
    let s := run c es st0 in let t := run c' es' st0' in
    (forall k, s_slots t k = s_slots s k) /\ s_steps t = s_steps s /\ s_scales t = s_scales s /\ s_log t = s_log s /\
    (forall m, In m (c_mods c) -> same_params m (r_mod (unfold_convs pick) m) (s_par s) (s_par t)) /\
    answers c' es' st0' = answers c es st0.
Proof.
  intros pick a par par' c st0 es es' S BF PM EV SA W RC. apply (trained_alike _ a par par' c st0 es es'); try assumption.
  - intros n _ Hn. apply mild_unfold. exact Hn.
  - apply sound_unfold; [exact BF| |exact EV]. intros m Hm. apply (hooked_supported a par c st0 m S Hm).
Qed.
End PropLayer.

(** Two iterations of the two-layer model whose first layer has a bias; [lay_par] is the same model with the bias as third column of the weight. *)
Definition lay_pick (k : nat) : bool := Nat.eqb k 0.
Definition lay_m1 : modul := mkMod 0 (Linear 3 1 false) 0 None.
Definition lay_par (p : nat) : @pslot Q_scalar := match p with 0 => @mkP Q_scalar (qt [1; 3] [1; 2; -1]%Z) None None | _ => ex_par p end.
Definition lay_it (g : Z) : list (@event Q_scalar) :=
  [ @EForward Q_scalar ex_m1 ex_x1 true 10; @EForward Q_scalar ex_m2 ex_x2 true 11;
    @EBackward Q_scalar 11 ex_g2; @EBackward Q_scalar 10 ex_g1 ] ++
  write_grads ex_m1 (Some (qt [1; 2] [6; g]%Z)) (Some (qt [1] [2]%Z)) ++ write_grads ex_m2 (Some (qt [2; 1] [5; -10]%Z)) None ++ ex_step.
Definition lay_it' (g : Z) : list (@event Q_scalar) :=
  [ @EForward Q_scalar lay_m1 (append_one ex_x1) true 10; @EForward Q_scalar ex_m2 ex_x2 true 11;
    @EBackward Q_scalar 11 ex_g2; @EBackward Q_scalar 10 ex_g1 ] ++
  write_grads lay_m1 (Some (qt [1; 3] [6; g; 2]%Z)) None ++ write_grads ex_m2 (Some (qt [2; 1] [5; -10]%Z)) None ++ ex_step.

Lemma lay_same (a b c d : Z) : d = c -> 
  @same_matrix Q_scalar (Linear 2 1 true) (qt [1; 2] [a; b]) (Some (qt [1] [c])) (Linear 3 1 false) (qt [1; 3] [a; b; d]) None.
Proof.
  intros ->. split; [split; [reflexivity|split; reflexivity]|]. split; [split; reflexivity|]. intros i j Hi Hj. cbn in Hi, Hj. assert (i = 0) by lia. subst i.
  destruct j as [|[|[|j]]]; try reflexivity. lia.
Qed.
Lemma lay_refl (m : modul) (w : @tensor Q_scalar) : @layer_fit Q_scalar (m_layer m) w None -> same_matrix (m_layer m) w None (m_layer m) w None.
Proof. intros H. split; [exact H|]. split; [exact H|]. reflexivity. Qed.

Lemma lay_rewritten own g es es' : 
  (forall own', rewritten_calls (fold_biases lay_pick) [ex_m1; ex_m2] own' es es') ->
  rewritten_calls (fold_biases lay_pick) [ex_m1; ex_m2] own (lay_it g ++ es) (lay_it' g ++ es').
Proof.
  intros H. unfold lay_it, lay_it'. rewrite <- !app_assoc. cbn [app].
  apply (RC_forward (SC := Q_scalar) (fold_biases lay_pick) _ own ex_m1). apply (RC_forward (SC := Q_scalar) (fold_biases lay_pick) _ _ ex_m2).
  apply (RC_backward (SC := Q_scalar) (fold_biases lay_pick)). apply (RC_backward (SC := Q_scalar) (fold_biases lay_pick)).
  apply (RC_grads (SC := Q_scalar) (fold_biases lay_pick) _ _ ex_m1); [left; reflexivity|apply lay_same; reflexivity|].
  apply (RC_grads (SC := Q_scalar) (fold_biases lay_pick) _ _ ex_m2); [right; left; reflexivity|apply lay_refl; split; reflexivity|].
  apply (RC_plain (SC := Q_scalar)); [exact I|]. apply H.
Qed.

Lemma C63_bias_met_case :
  let a := ex_args PNone (qr 1 2) (qr 1 2) (qr 1 8) 1 dense2 false true (q 1) in
  let c := fst (built a) in let st0 := snd (built a) in
  let es := lay_it (-2) ++ lay_it 3 in let es' := lay_it' (-2) ++ lay_it' 3 in
  let r := snd (ctor (rewritten_args (fold_biases lay_pick) a) lay_par []) in
  setting a ex_par c st0 /\ (forall m, In m (c_mods c) -> bias_fits m) /\ plain_model a /\
  starts_alike (fold_biases lay_pick) (c_mods c) ex_par lay_par /\ wf_run c es st0 /\
  rewritten_calls (fold_biases lay_pick) (c_mods c) (fun _ => None) es es' /\
  match r with
  | Ok (c', st0') =>
      answers c' es' st0' = repeat (Ok tt) 10 /\
      data (p_val (s_par (run c' es' st0') 0)) = data (p_val (s_par (run c es st0) 0)) ++ data (p_val (s_par (run c es st0) 1)) /\
      data (p_val (s_par (run c es st0) 0)) <> data (p_val (s_par st0 0))
  | Err _ => False
  end.
Proof.
  assert (M : c_mods (fst (built (ex_args PNone (qr 1 2) (qr 1 2) (qr 1 8) 1 dense2 false true (q 1)))) = [ex_m1; ex_m2]) by (vm_compute; reflexivity).
  cbv zeta. rewrite M. split; [apply built_setting; vm_compute; reflexivity|]. split; [intros m [<-|[<-|[]]]; reflexivity|]. split.
  { intros n [<-|[<-|[<-|[]]]] H; [discriminate| |]; split; reflexivity. }
  split. { intros m [<-|[<-|[]]].
    - split; [|left; split; intros p Hp; cbn in Hp; intuition (subst; reflexivity)]. right. eexists _, _. split; [reflexivity|]. split; [reflexivity|]. apply lay_same. reflexivity.
    - split; [|left; split; intros p Hp; cbn in Hp; intuition (subst; reflexivity)]. right. eexists _, _. split; [reflexivity|]. split; [reflexivity|]. apply (lay_refl ex_m2). split; reflexivity. }
  split; [apply wf_runb_ok; vm_compute; reflexivity|]. split.
  { apply lay_rewritten. intros own. rewrite <- (app_nil_r (lay_it 3)), <- (app_nil_r (lay_it' 3)). apply lay_rewritten. intros own'. constructor. }
  vm_compute. split; [reflexivity|]. split; [reflexivity|]. discriminate.
Qed.

(** One iteration of a convolution with stride, dilation, padding and bias; as a linear layer it has the same data in its weight. *)
Definition cv_w : list Z := [1;0;2;-1;3;1;0;0;2;2;1;1;0;-3;1;0;1;1;1;2;0;0;1;-2]%Z.
Definition cv_gw : list Z := [2;1;0;1;0;0;1;1;-1;2;3;0;1;4;0;2;2;1;0;-5;1;1;0;3]%Z.
Definition cv_m : modul := mkMod 0 (Conv2d ex_conv) 0 (Some 1).
Definition cv_m' : modul := mkMod 0 (Linear 8 3 true) 0 (Some 1).
Definition cv_g : @tensor Q_scalar := qt [1; 3; 2; 2] [1; 0; 2; -1; 0; 3; 1; 1; 2; 0; 0; 1]%Z.
Definition cv_par (s : list nat) (p : nat) : @pslot Q_scalar :=
  match p with 0 => @mkP Q_scalar (qt s cv_w) None None | _ => @mkP Q_scalar (qt [3] [1; 0; -1]%Z) None None end.
Definition cv_args (ka : approx) : @args Q_scalar :=
  @mkArgs Q_scalar false [mkNode cv_m true [0; 1]] (fun _ => true) PNone
    (PyFloat (qr 1 10 : @F Q_scalar)) (PyFloat (qr 1 2 : @F Q_scalar)) (PyFloat (qr 1 4 : @F Q_scalar))
    (PyFloat (qr 1 2 : @F Q_scalar)) (PyFloat (qr 1 8 : @F Q_scalar)) 1 LossBatch
    (PyFloat (qr 1 2 : @F Q_scalar)) (Some CDiag, Some CDense) ka true false (q 1 : @F Q_scalar) false.
Definition cv_built (ka : approx) : cfg * @state Q_scalar :=
  match snd (ctor (cv_args ka) (cv_par [3; 2; 2; 2]) []) with Ok r => r | Err _ => (mkCfg [] (fun _ => None), no_state) end.
Definition cv_it (m : modul) (s : list nat) (x g : @tensor Q_scalar) : list (@event Q_scalar) :=
  [@EForward Q_scalar m x true 10; @EBackward Q_scalar 10 g] ++ write_grads m (Some (qt s cv_gw)) (Some (qt [3] [1; 2; 3]%Z)) ++ ex_step.

Lemma cv_same z (b : @tensor Q_scalar) : length z = 24 -> shape b = [3] ->
  @same_matrix Q_scalar (Conv2d ex_conv) (qt [3; 2; 2; 2] z) (Some b) (Linear 8 3 true) (qt [3; 8] z) (Some b).
Proof.
  intros L B. split; [split; [reflexivity|split; [reflexivity|exact B]]|]. split; [split; [reflexivity|split; [reflexivity|exact B]]|].
  intros i j Hi Hj. unfold cell. change (fan (Linear 8 3 true)) with 8. change (fan (Conv2d ex_conv)) with 8. reflexivity.
Qed.

Lemma cv_pend (c : cfg) m x b out (st : @state Q_scalar) m' x' :
  s_pend (fst (event_op c (@EForward Q_scalar m x b out) st)) out = Some (m', x') -> m' = m /\ x' = x.
Proof.
  cbn [event_op]. unfold forward_hook, sbind, getS, modify, lift, ret. destruct (get_group c (s_groups st) m) as [g|]; cbn; [|rewrite upd_eq; discriminate].
  destruct b; cbn; [|rewrite upd_eq; discriminate]. destruct (is_update_step g (s_steps st)) as [[|]|]; cbn; rewrite upd_eq; try discriminate.
  intros E. injection E as <- <-. split; reflexivity.
Qed.

Lemma C63_patches_met_case : forall ka, ka = Expand \/ ka = Reduce ->
  let a := cv_args ka in
  let c := fst (cv_built ka) in let st0 := snd (cv_built ka) in let r := unfold_convs (fun _ => true) in
  let es := cv_it cv_m [3; 2; 2; 2] ex_xc cv_g in let es' := cv_it cv_m' [3; 8] (patches ex_conv ex_xc) (positions cv_g) in
  setting a (cv_par [3; 2; 2; 2]) c st0 /\ (forall m, In m (c_mods c) -> bias_fits m) /\ plain_model a /\
  (forall m cv, In m (c_mods c) -> true = true -> m_layer m = Conv2d cv -> even_pad cv) /\
  starts_alike r (c_mods c) (cv_par [3; 2; 2; 2]) (cv_par [3; 8]) /\ wf_run c es st0 /\
  rewritten_calls r (c_mods c) (fun _ => None) es es' /\ shape (patches ex_conv ex_xc) = [1; 4; 8] /\
  match snd (ctor (rewritten_args r a) (cv_par [3; 8]) []) with
  | Ok (c', st0') =>
      answers c' es' st0' = repeat (Ok tt) 3 /\
      data (p_val (s_par (run c' es' st0') 0)) = data (p_val (s_par (run c es st0) 0)) /\
      data (p_val (s_par (run c es st0) 0)) <> data (p_val (s_par st0 0))
  | Err _ => False
  end.
Proof.
  intros ka K. assert (M : c_mods (fst (cv_built ka)) = [cv_m]) by (destruct K as [-> | ->]; vm_compute; reflexivity).
  assert (CT : snd (ctor (cv_args ka) (cv_par [3; 2; 2; 2]) []) = Ok (fst (cv_built ka), snd (cv_built ka))).
  { unfold cv_built. assert (X : is_ok (snd (ctor (cv_args ka) (cv_par [3; 2; 2; 2]) [])) = true) by (destruct K as [-> | ->]; vm_compute; reflexivity).
    destruct (snd (ctor (cv_args ka) (cv_par [3; 2; 2; 2]) [])) as [[u v]|]; [reflexivity|discriminate]. }
  assert (G : map g_structs (s_groups (snd (cv_built ka))) = [(Some CDiag, Some CDense)]) by (destruct K as [-> | ->]; vm_compute; reflexivity).
  cbv zeta. rewrite M. split.
  { split; [exists [], (fst (ctor (cv_args ka) (cv_par [3; 2; 2; 2]) [])); rewrite <- CT; destruct (ctor (cv_args ka) (cv_par [3; 2; 2; 2]) []); reflexivity|].
    split; [apply nodupb_ok; reflexivity|]. split; [intros n dK dC [<-|[]] E; vm_compute in E; injection E as <- <-; split; discriminate|].
    split; [rewrite M; apply nodupb_ok; reflexivity|]. intros g cK cC Hg E. apply (in_map g_structs) in Hg. rewrite G in Hg. destruct Hg as [Hg|[]]. rewrite E in Hg. injection Hg as <- <-. split; apply supb_ok; reflexivity. }
  split; [intros m [<-|[]]; reflexivity|]. split; [intros n [<-|[]] _; split; reflexivity|]. split.
  { intros m cv [<-|[]] _ E. injection E as <-. apply conv_hypotheses_met_case. }
  split. { intros m [<-|[]]. split; [|left; split; intros p Hp; cbn in Hp; intuition (subst; reflexivity)]. right. eexists _, _. split; [reflexivity|]. split; [reflexivity|]. apply cv_same; reflexivity. }
  split.
  { cbn [wf_run cv_it app write_grads m_bias m_weight cv_m ex_step wf_event]. rewrite M. split; [left; reflexivity|]. split; [|repeat split].
    intros m x E. apply cv_pend in E as [-> ->]. split; [apply conv_hypotheses_met_case|]. exists 1, 3, 4, 2, 2.
    split; [discriminate|]. split; [apply conv_hypotheses_met_case|]. split; reflexivity. }
  split.
  { apply (RC_forward (SC := Q_scalar) (unfold_convs (fun _ => true)) _ _ cv_m). apply (RC_backward (SC := Q_scalar) (unfold_convs (fun _ => true))).
    apply (RC_grads (SC := Q_scalar) (unfold_convs (fun _ => true)) _ _ cv_m); [left; reflexivity|apply cv_same; reflexivity|]. apply (RC_plain (SC := Q_scalar)); [exact I|]. constructor. }
  split; [reflexivity|]. destruct K as [-> | ->]; vm_compute; (split; [reflexivity|]; split; [reflexivity|]; discriminate).
Qed.
