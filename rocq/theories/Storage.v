(** How many numbers the optimizer keeps: specification and lemmas. *)

From Coq Require Import List Arith Lia Bool ZArith.
From Verif Require Import Scalar Res Tensor TensorFacts Structures StructSpec StructDense StructOps OptimUtils Optimizer Construct OptState OptRun OptFacts OptTyped.
Import ListNotations.
Open Scope nat_scope.

(** ** Specification *)

(** Numbers a class needs for an n x n matrix, from the pictures in the class docstrings
    (diagonal.py:15-38, blockdiagonal.py:17-65, hierarchical.py:14-60, triltoeplitz.py, triutoeplitz.py,
    recursive.py). *)
Fixpoint storage (c : cls) (n : nat) : nat :=
  match c with
  | CDense => n * n
  | CDiag | CTril | CTriu => n
  | CBlock D => n / D * (D * D) + n mod D * (n mod D)
  | CHier k1 k2 =>
      let K1 := Nat.min n k1 in let K2 := Nat.min (n - K1) k2 in let d := n - K1 - K2 in
      K1 * K1 + K1 * (d + K2) + d + K2 * d + K2 * K2
  | CRec _ ma mc a c =>
      let k := boundary n ma mc in storage a k + k * (n - k) + storage c (n - k)
  end.

Section StorageSpec.
Context {SC : Scalar}.

(** Numbers held by an object: the sizes of its registered tensors. *)
Definition stored (s : smat) : nat := list_sum (map (fun t => length (data t)) (tensors s)).
Definition present (o : option smat) : nat := match o with Some _ => 1 | None => 0 end.
Definition stored_opt (o : option smat) : nat := match o with Some s => stored s | None => 0 end.

(** Numbers held for a layer: preconditioners, momenta, statistics. *)
Definition held (s : slots) : nat :=
  stored_opt (sl_K s) + stored_opt (sl_mK s) + stored_opt (sl_HK s) + (stored_opt (sl_C s) + stored_opt (sl_mC s) + stored_opt (sl_HC s)).
(** How many matrices there are for the input and for the output side of a layer. *)
Definition count_K (s : slots) : nat := present (sl_K s) + present (sl_mK s) + present (sl_HK s).
Definition count_C (s : slots) : nat := present (sl_C s) + present (sl_mC s) + present (sl_HC s).

End StorageSpec.

(** ** Bounds *)

Lemma storage_block D n : D <> 0 -> storage (CBlock D) n <= D * n.
Proof.
  intros H. cbn [storage]. pose proof (Nat.div_mod n D H) as E. pose proof (Nat.mod_upper_bound n D H) as B.
  set (a := n / D) in *. set (r := n mod D) in *. clearbody a r. subst n. nia.
Qed.
Lemma storage_hier k1 k2 n : storage (CHier k1 k2) n <= (k1 + k2 + 1) * n.
Proof.
  cbn [storage]. set (K1 := Nat.min n k1). set (K2 := Nat.min (n - K1) k2). set (d := n - K1 - K2).
  assert (K1 <= k1) by apply Nat.le_min_r. assert (K2 <= k2) by apply Nat.le_min_r.
  assert (E : n = K1 + K2 + d) by (unfold d, K2, K1; lia). clearbody d K2 K1. subst n. nia.
Qed.

Lemma storage_dense_bound c n : cls_ok c -> storage c n <= n * n.
Proof.
  revert n. induction c as [| |D|k1 k2| | |sd ma mc a IHa c IHc]; intros n OK; cbn [storage]; try nia.
  - cbn in OK. pose proof (Nat.div_mod n D OK) as E. set (q := n / D) in *. set (r := n mod D) in *. clearbody q r. subst n. assert (q <= q * q) by (destruct q; nia).
    pose proof (Nat.mul_le_mono_r q (q * q) (D * D) H). nia.
  - assert (B : boundary n ma mc <= n) by (unfold boundary; destruct ma, mc; lia).
    assert (cls_ok a /\ cls_ok c) as [Oa Oc] by (cbn in OK; destruct ma, mc; try contradiction; exact OK).
    specialize (IHa (boundary n ma mc) Oa). specialize (IHc (n - boundary n ma mc) Oc).
    set (k := boundary n ma mc) in *. clearbody k. destruct (Nat.le_exists_sub k n B) as (m & -> & _). rewrite Nat.add_sub in *. nia.
Qed.

(** Linear in the dimension unless dense. *)
Lemma storage_supported c n :
  In c supported_structures -> (c = CDense /\ storage c n = n * n) \/ storage c n <= 31 * n.
Proof.
  intros H. cbn in H. destruct H as [<-|[<-|[<-|[<-|[<-|[<-|[]]]]]]]; auto; right; try (cbn [storage]; lia).
  - pose proof (storage_block 30 n (Nat.neq_succ_0 29)) as B. lia.
  - exact (storage_hier 15 15 n).
Qed.

Section StorageFacts.
Context {SC : Scalar}.

Lemma len_data (t : tensor) : length (data t) = prod (shape t).
Proof. apply Nat.eqb_eq. exact (tok t). Qed.

Lemma stored_valid c n s : valid c n s -> stored s = storage c n.
Proof.
  revert n s. induction c as [| |D|k1 k2| | |sd ma mc a IHa c IHc]; intros n s V; destruct s; try contradiction; cbn in V; unfold stored; cbn [tensors map list_sum fold_right storage];
    rewrite ?len_data.
  - rewrite V. cbn. lia.
  - rewrite V. cbn. lia.
  - destruct V as (_ & -> & ->). cbn. lia.
  - destruct V as (_ & _ & K1 & d & K2 & Eq & -> & -> & -> & -> & ->). unfold hier_parts in Eq.
    assert (Y : Nat.min n k1 = K1 /\ Nat.min (n - K1) k2 = K2 /\ n - K1 - K2 = d).
    { destruct (Nat.leb_spec n k1); [injection Eq as <- <- <-; lia|]. destruct (Nat.leb_spec n (k1 + k2)); injection Eq as <- <- <-; lia. }
    destruct Y as (-> & -> & ->). cbn. lia.
  - rewrite V. cbn. lia.
  - rewrite V. cbn. lia.
  - destruct V as (_ & _ & _ & _ & _ & VA & VC & SB). rewrite map_app, list_sum_app. specialize (IHa _ _ VA). specialize (IHc _ _ VC). unfold stored in IHa, IHc.
    rewrite IHa, IHc, SB. set (k := boundary n ma mc). destruct sd; cbn; lia.
Qed.

Lemma held_typed cK cC dK dC s : typed cK cC dK dC s -> held s = count_K s * storage cK dK + count_C s * storage cC dC.
Proof.
  intros [(K & EK & VK) (C & EC & VC) TmK TmC THK THC]. unfold held, count_K, count_C. rewrite EK, EC. cbn [stored_opt present].
  rewrite (stored_valid _ _ _ VK), (stored_valid _ _ _ VC).
  assert (X : forall (o : option smat) c n, (forall m, o = Some m -> valid c n m) -> stored_opt o = present o * storage c n).
  { intros [m|] c n H; cbn; [rewrite (stored_valid c n m (H m eq_refl)); lia|reflexivity]. }
  rewrite (X _ _ _ TmK), (X _ _ _ TmC), (X _ _ _ THK), (X _ _ _ THC). lia.
Qed.

(** ** Momentum buffers *)

Definition buf_ok (p : pslot) : Prop := forall b, p_buf p = Some b -> shape b = shape (p_val p).
Definition keeps_buf (p q : pslot) : Prop := buf_ok p -> buf_ok q /\ shape (p_val q) = shape (p_val p).

Lemma map2_shape f a b r : t_map2 f a b = Ok r -> shape r = shape a.
Proof. unfold t_map2. destruct (shape_eqb _ _); [|discriminate]. intros H. injection H as <-. reflexivity. Qed.

Lemma param_step_buf g d : keeps keeps_buf (param_step g d).
Proof.
  intros p B. unfold param_step, sbind, getS, lift, modify.
  destruct (if feqb (g_wd g) 0 then _ else _) as [d'|]; [|split; [exact B|reflexivity]].
  destruct (feqb (g_momentum g) 0).
  - destruct (t_add_alpha (p_val p) d' (- g_lr g)) as [v|] eqn:E; [|split; [exact B|reflexivity]]. apply map2_shape in E. cbn. split; [|exact E].
    intros b Hb. cbn in Hb |- *. rewrite E. apply B. exact Hb.
  - set (b0 := match p_buf p with Some b => b | None => zeros (shape (p_val p)) end).
    assert (S0 : shape (t_scale (g_momentum g) b0) = shape (p_val p)).
    { cbn. unfold b0. destruct (p_buf p) as [b|] eqn:Eb; [apply B; exact Eb|reflexivity]. }
    cbn [p_val]. destruct (t_add _ d') as [b1|] eqn:E1.
    2:{ cbn. split; [|reflexivity]. intros b Hb. cbn in Hb |- *. injection Hb as <-. exact S0. }
    apply map2_shape in E1. destruct (t_add_alpha (p_val p) b1 (- g_lr g)) as [v|] eqn:E2.
    + apply map2_shape in E2. cbn. split; [|exact E2]. intros b Hb. cbn in Hb |- *. injection Hb as <-. congruence.
    + cbn. split; [|reflexivity]. intros b Hb. cbn in Hb |- *. injection Hb as <-. congruence.
Qed.

Definition keeps_bufs (s t : state) : Prop := forall p, keeps_buf (s_par s p) (s_par t p).
Lemma kb_refl s : keeps_bufs s s.
Proof. intros p B. split; [exact B|reflexivity]. Qed.
Lemma kb_trans a b c : keeps_bufs a b -> keeps_bufs b c -> keeps_bufs a c.
Proof. intros H1 H2 p B. destruct (H1 p B) as [B1 E1]. destruct (H2 p B1) as [B2 E2]. split; [exact B2|congruence]. Qed.
Lemma kb_par s t : s_par t = s_par s -> keeps_bufs s t.
Proof. intros E p B. rewrite E. split; [exact B|reflexivity]. Qed.

Lemma on_par_kb k f : keeps keeps_buf f -> keeps keeps_bufs (@on_par SC unit k f).
Proof.
  intros H s p B. unfold on_par. specialize (H (s_par s k)). destruct (f (s_par s k)) as [q r]. cbn in *. unfold upd.
  destruct (Nat.eqb_spec p k) as [->|N]; [apply H; exact B|split; [exact B|reflexivity]].
Qed.

Lemma step_module_kb c m : keeps keeps_bufs (step_module c m).
Proof.
  unfold step_module. apply keeps_bind; [apply kb_trans| |].
  { intros s. apply kb_par. unfold update_preconditioner, sbind, getS, lift. destruct (get_group _ _ _); [|reflexivity].
    unfold on_slots. destruct (update_slots _ _ _ _ _). reflexivity. }
  intros _. apply keeps_bind; [apply kb_trans| |].
  { unfold compute_natural_gradient. apply keeps_bind; [apply kb_trans|apply keeps_getS; apply kb_refl|]. intros s0.
    apply keeps_bind; [apply kb_trans|apply keeps_lift; apply kb_refl|]. intros N. apply keeps_lift. apply kb_refl. }
  intros [w b]. apply keeps_bind; [apply kb_trans|apply keeps_getS; apply kb_refl|]. intros s0.
  apply keeps_bind; [apply kb_trans|apply keeps_lift; apply kb_refl|]. intros g0.
  apply keeps_bind; [apply kb_trans|apply on_par_kb, param_step_buf|]. intros _.
  destruct (m_bias m); [|apply keeps_ret; apply kb_refl]. destruct b; [apply on_par_kb, param_step_buf|apply keeps_ret; apply kb_refl].
Qed.

Lemma event_kb c e st : keeps_bufs st (fst (event_op c e st)).
Proof.
  destruct e as [m x b out|out g|p g|v|a i|cl|gs]; try (apply kb_par; reflexivity); cbn [event_op].
  - apply kb_par. destruct (forward_frame c m x b out st) as (E & _). rewrite E. reflexivity.
  - unfold sbind, getS. destruct (s_pend st out) as [[m x]|]; [|apply kb_refl].
    destruct (accumulate_frame c m x g st) as (_ & _ & _ & _ & _ & _ & _ & _ & F). intros p. rewrite F; [|intros []].
    intros B. split; [exact B|reflexivity].
  - intros q B. cbn. unfold upd. destruct (Nat.eqb_spec q p) as [->|N]; cbn; split; try exact B; reflexivity.
  - destruct (set_current_grad_scale v st) as [s' r] eqn:E. apply set_current_grad_scale_frame in E as ((_ & _ & E & _) & _). apply kb_par. exact E.
  - destruct (step c cl st) as [st' r] eqn:H. cbn [fst].
    apply step_cases in H as [(_ & -> & _)|(_ & st1 & [(e & E & -> & _)|(E & D)])]; [apply kb_refl| |].
    + apply ensure_scale_frame in E as ((_ & _ & E & _) & _). apply kb_par. exact E.
    + apply ensure_scale_frame in E as ((_ & _ & E & _) & _). eapply kb_trans; [apply kb_par; exact E|].
      destruct D as [(_ & _ & ->)|(_ & st2 & r2 & E2 & X)]; [apply kb_par; reflexivity|].
      assert (K : keeps_bufs st1 st2).
      { apply (keeps_at _ (step_all c) st1 st2 r2); [|exact E2]. unfold step_all. apply keeps_forS; [apply kb_refl|apply kb_trans|]. intros m _. apply step_module_kb. }
      destruct r2; destruct X as [_ ->]; [|exact K]. eapply kb_trans; [exact K|]. apply kb_par. reflexivity.
Qed.

Lemma run_kb c es st : keeps_bufs st (run c es st).
Proof. revert st. induction es as [|e es IH]; intros st; [apply kb_refl|]. cbn [run]. eapply kb_trans; [apply event_kb|apply IH]. Qed.

End StorageFacts.
