(** C35: [state_dict] shares its contents with the optimizer. *)

From Coq Require Import List Arith Lia Bool ZArith QArith Qcanon.
From Verif Require Import Scalar Res Tensor Structures OptimUtils Optimizer Construct OptState OptRun Checkpoint Alias AliasFacts QEx OptEx ProofCkpt.
Import ListNotations.
Open Scope nat_scope.

Section PropAlias.
Context {SC : Scalar}.

Lemma C35_tracks_lemma c h o d es h' o' :
  sound h o -> h_state_dict c h o = Ok d -> h_run c es h o = (h', o') ->
  exists v, content h' d = Some v /\ sd_slots v = s_slots (run c es (seen h o)) /\
    sd_scales v = s_scales (run c es (seen h o)) /\ sd_steps v = s_steps (seen h o) /\
    forall i b p, In (i, b) (sd_state v) -> nth_error (concat (map g_params (s_groups (seen h o)))) i = Some p ->
      p_buf (s_par (run c es (seen h o)) p) = Some b.
Proof.
  intros S D E. destruct (state_dict_addr c h o d S D) as (A & _ & _).
  destruct (run_seen c es h o h' o' S E) as (R & _ & _ & E1 & E2 & _).
  assert (V : exists v, content h' d = Some v) by (unfold content; rewrite A; eexists; reflexivity).
  destruct V as (v & V). exists v. split; [exact V|].
  assert (B := fun i b p => state_dict_bufs c h o d es h' o' v p i b S D E V).
  unfold content in V. rewrite A in V. injection V as <-. cbn [sd_slots sd_scales sd_steps].
  split; [|split; [|split; [reflexivity|exact B]]]; rewrite <- R; cbn; rewrite ?E1, ?E2; reflexivity.
Qed.

Lemma C35_loads_once_lemma d h o o' d' r :
  h_load d h o = (o', d', r) -> content h d' = None /\ forall h2 o2, h_load d' h2 o2 = (o2, d', Err KeyError).
Proof.
  intros E. apply load_pops in E. unfold content. rewrite E. split; [reflexivity|]. intros. apply load_popped, E.
Qed.

Lemma C35_coupled_lemma c1 c2 h o1 o2 d o2' d' es h' o1' o2'' :
  sound h o1 -> h_state_dict c1 h o1 = Ok d -> h_load d h o2 = (o2', d', Ok tt) ->
  h_both c1 c2 es h o1 o2' = (h', o1', o2'') ->
  s_slots (seen h' o2'') = s_slots (seen h' o1') /\ s_scales (seen h' o2'') = s_scales (seen h' o1').
Proof.
  intros S D L E. destruct (state_dict_addr c1 h o1 d S D) as (A & _ & _).
  destruct (load_seen d h o2 o2' d' L) as (n & a & b & v & A' & _ & _ & E1 & E2 & _).
  rewrite A in A'. injection A' as <- <- <-.
  destruct (both_shared c1 c2 es h o1 o2' h' o1' o2'' (eq_sym E1) (eq_sym E2) E) as [X Y].
  cbn. rewrite X, Y. split; reflexivity.
Qed.

Lemma C35_separate_lemma st1 st2 h h1 o1 h2 o2 :
  h_new st1 h = (h1, o1) -> h_new st2 h1 = (h2, o2) ->
  (forall p, p_buf (s_par st1 p) = None) -> (forall p, p_buf (s_par st2 p) = None) ->
  sound h2 o1 /\ sound h2 o2 /\ disjoint o1 o2 /\ seen h2 o1 = st1 /\ seen h2 o2 = st2.
Proof.
  intros E1 E2 B1 B2. injection E1 as <- <-. injection E2 as <- <-. cbn.
  repeat split; cbn; try lia; try (intros; discriminate).
  - unfold seen. cbn. repeat first [rewrite upd_eq | rewrite upd_neq by lia]. destruct st1 as [n sc sl par gs am inf pend lg]. cbn in *. f_equal.
    apply FunctionalExtensionality.functional_extensionality. intros p. specialize (B1 p). destruct (par p) as [x g bf]. cbn in *. rewrite B1. reflexivity.
  - unfold seen. cbn. rewrite !upd_eq. destruct st2 as [n sc sl par gs am inf pend lg]. cbn in *. f_equal.
    apply FunctionalExtensionality.functional_extensionality. intros p. specialize (B2 p). destruct (par p) as [x g bf]. cbn in *. rewrite B2. reflexivity.
Qed.

Lemma C35_deepcopy_partial_lemma c1 c2 h o1 o2 d d' h1 es h2 o1' o2' :
  sound h o1 -> sound h o2 -> disjoint o1 o2 -> h_state_dict c1 h o1 = Ok d -> deepcopy d h = (d', h1) ->
  h_both c1 c2 es h1 o1 o2 = (h2, o1', o2') ->
  exists v, state_dict c1 (seen h o1) = Ok v /\ content h2 d' = Some v /\
    forall o2'' d'', h_load d' h2 o2' = (o2'', d'', Ok tt) ->
      load_state_dict v (seen h2 o2') = (seen h2 o2'', Ok tt) /\
      forall es' h3 q1 q2, h_both c1 c2 es' h2 o1' o2'' = (h3, q1, q2) ->
        seen h3 q1 = run c1 (side true es') (seen h2 o1') /\
        seen h3 q2 = run c2 (side false es') (seen h2 o2'').
Proof. exact (deepcopy_separates c1 c2 h o1 o2 d d' h1 es h2 o1' o2'). Qed.

End PropAlias.

(** ** Examples and witnesses *)

Definition heap0 : @heap Q_scalar := @mkHeap Q_scalar (fun _ _ => no_slots) (fun _ => []) (fun _ => qt [0] []) 0.
(** Two optimizers built with the same arguments (as C34, momentum 1/2). *)
Definition w1 : heap * opt := @h_new Q_scalar ck0 heap0.
Definition w2 : heap * opt := @h_new Q_scalar ck0 (fst w1).
Definition one_iter : list (@event Q_scalar) := ex_iter (q 1) ++ ex_step.
(** The first one is trained for an iteration and saved. *)
Definition w3 : heap * opt := h_run ckc one_iter (fst w2) (snd w1).
Definition w_dict : res (@pdict Q_scalar) := h_state_dict ckc (fst w3) (snd w3).
(** Another iteration. *)
Definition w4 : heap * opt := h_run ckc one_iter (fst w3) (snd w3).

Definition first_K (v : option (@sdict Q_scalar)) :=
  match v with
  | Some v => match sl_K (sd_slots v 0) with Some m => showd (Ok m) | None => Err KeyError end
  | None => Err KeyError
  end.
Definition momentum_of (v : option (@sdict Q_scalar)) :=
  match v with Some v => map (fun kb => (fst kb, show (snd kb))) (sd_state v) | None => [] end.

Lemma ck0_bufs p : p_buf (s_par ck0 p) = None.
Proof. unfold ck0. destruct p as [|[|[|p]]]; vm_compute; reflexivity. Qed.

Lemma w_sound : sound (fst w2) (snd w1) /\ sound (fst w2) (snd w2) /\ disjoint (snd w1) (snd w2).
Proof.
  destruct (C35_separate_lemma ck0 ck0 heap0 (fst w1) (snd w1) (fst w2) (snd w2)) as (A & B & C & _);
    [unfold w1; destruct (h_new ck0 heap0); reflexivity|unfold w2; destruct (h_new ck0 (fst w1)); reflexivity|exact ck0_bufs|exact ck0_bufs|].
  split; [exact A|split; [exact B|exact C]].
Qed.

Lemma w3_run : h_run ckc one_iter (fst w2) (snd w1) = (fst w3, snd w3).
Proof. unfold w3. destruct (h_run _ _ _ _); reflexivity. Qed.
Lemma w4_run : h_run ckc one_iter (fst w3) (snd w3) = (fst w4, snd w4).
Proof. unfold w4. destruct (h_run _ _ _ _); reflexivity. Qed.
Lemma w3_sound : sound (fst w3) (snd w3) /\ sound (fst w3) (snd w2) /\ disjoint (snd w3) (snd w2).
Proof.
  destruct w_sound as (A & B & C). destruct (run_seen ckc one_iter _ _ _ _ A w3_run) as (_ & S1 & O & E1 & E2 & E3).
  destruct (only_seen _ _ _ _ O B C) as [_ S2]. split; [exact S1|]. split; [exact S2|].
  destruct C as (C1 & C2 & C3). split; [congruence|]. split; [congruence|].
  intros p r l X Y. destruct (E3 p l X) as [Z|Z]; [exact (C3 p r l Z Y)|].
  destruct B as (_ & _ & B & _). specialize (B r l Y). lia.
Qed.
Definition the_dict : @pdict Q_scalar := match w_dict with Ok d => d | Err _ => mkPD [] [] None end.
Lemma w_dict_ok : h_state_dict ckc (fst w3) (snd w3) = Ok the_dict.
Proof.
  unfold the_dict, w_dict. assert (X : is_ok (h_state_dict ckc (fst w3) (snd w3)) = true) by (vm_compute; reflexivity).
  destruct (h_state_dict ckc (fst w3) (snd w3)); [reflexivity|discriminate X].
Qed.

Lemma C35_snapshot_refuted_lemma :
  exists c (h : @heap Q_scalar) o d es h' o',
    sound h o /\ h_state_dict c h o = Ok d /\ h_run c es h o = (h', o') /\
    (forall r, In r (outcomes c es (seen h o)) -> r = Ok tt) /\ content h' d <> content h d.
Proof.
  exists ckc, (fst w3), (snd w3), the_dict, one_iter, (fst w4), (snd w4).
  split; [exact (proj1 w3_sound)|]. split; [exact w_dict_ok|]. split; [exact w4_run|]. split.
  - intros r H. assert (X : outcomes ckc one_iter (seen (fst w3) (snd w3)) = repeat (Ok tt) 8) by (vm_compute; reflexivity).
    rewrite X in H. apply repeat_spec in H. exact H.
  - intros E. apply (f_equal first_K) in E. vm_compute in E. discriminate E.
Qed.

Lemma C35_rollback_refuted_lemma :
  exists c (h : @heap Q_scalar) o d es h' o' o'' d',
    sound h o /\ h_state_dict c h o = Ok d /\ h_run c es h o = (h', o') /\
    (forall r, In r (outcomes c es (seen h o)) -> r = Ok tt) /\
    h_load d h' o' = (o'', d', Ok tt) /\ In (Err KeyError) (outcomes c es (seen h' o'')).
Proof.
  exists ckc, (fst w3), (snd w3), the_dict, one_iter, (fst w4), (snd w4).
  exists (fst (fst (h_load the_dict (fst w4) (snd w4)))), (snd (fst (h_load the_dict (fst w4) (snd w4)))).
  split; [exact (proj1 w3_sound)|]. split; [exact w_dict_ok|]. split; [exact w4_run|]. split; [|split].
  - intros r H. assert (X : outcomes ckc one_iter (seen (fst w3) (snd w3)) = repeat (Ok tt) 8) by (vm_compute; reflexivity).
    rewrite X in H. apply repeat_spec in H. exact H.
  - assert (X : snd (h_load the_dict (fst w4) (snd w4)) = Ok tt) by (vm_compute; reflexivity).
    destruct (h_load the_dict (fst w4) (snd w4)) as [[o d] r]. cbn [fst snd] in *. congruence.
  - assert (X : outcomes ckc one_iter (seen (fst w4) (fst (fst (h_load the_dict (fst w4) (snd w4)))))
        = [Ok tt; Ok tt; Err KeyError; Err KeyError; Ok tt; Ok tt; Ok tt; Err KeyError]) by (vm_compute; reflexivity).
    rewrite X. right. right. left. reflexivity.
Qed.

Lemma C35_argument_refuted_lemma :
  exists c (h : @heap Q_scalar) o d o2 o2' d',
    sound h o /\ h_state_dict c h o = Ok d /\ h_load d h o2 = (o2', d', Ok tt) /\
    content h d' <> content h d /\ snd (h_load d' h o2) = Err KeyError.
Proof.
  exists ckc, (fst w3), (snd w3), the_dict, (snd w2).
  exists (fst (fst (h_load the_dict (fst w3) (snd w2)))), (snd (fst (h_load the_dict (fst w3) (snd w2)))).
  split; [exact (proj1 w3_sound)|]. split; [exact w_dict_ok|].
  assert (X : snd (h_load the_dict (fst w3) (snd w2)) = Ok tt) by (vm_compute; reflexivity).
  assert (Y : first_K (content (fst w3) the_dict) <> Err KeyError) by (vm_compute; discriminate).
  destruct (h_load the_dict (fst w3) (snd w2)) as [[o d] r] eqn:E. cbn [fst snd] in *. subst r. split; [reflexivity|].
  destruct (C35_loads_once_lemma _ _ _ _ _ _ E) as [Z1 Z2]. split.
  - intros H. rewrite <- H, Z1 in Y. apply Y. reflexivity.
  - rewrite Z2. reflexivity.
Qed.

Lemma C35_coupled_refuted_lemma :
  exists c (h : @heap Q_scalar) o1 o2 d o2' d' es h' o1',
    sound h o1 /\ sound h o2 /\ disjoint o1 o2 /\ h_state_dict c h o1 = Ok d /\ h_load d h o2 = (o2', d', Ok tt) /\
    h_run c es h o1 = (h', o1') /\ s_slots (seen h' o2') <> s_slots (seen h o2').
Proof.
  exists ckc, (fst w3), (snd w3), (snd w2), the_dict.
  exists (fst (fst (h_load the_dict (fst w3) (snd w2)))), (snd (fst (h_load the_dict (fst w3) (snd w2)))), one_iter, (fst w4), (snd w4).
  destruct w3_sound as (A & B & C). split; [exact A|]. split; [exact B|]. split; [exact C|]. split; [exact w_dict_ok|]. split; [|split].
  - assert (X : snd (h_load the_dict (fst w3) (snd w2)) = Ok tt) by (vm_compute; reflexivity).
    destruct (h_load the_dict (fst w3) (snd w2)) as [[o d] r]. cbn [fst snd] in *. congruence.
  - exact w4_run.
  - intros E. apply (f_equal (fun f => match sl_K (f 0) with Some m => showd (Ok m) | None => Err KeyError end)) in E.
    vm_compute in E. discriminate E.
Qed.

(** The hypotheses of the theorems above: two optimizers, the first one trained for an iteration and
    saved with three momentum buffers; the copy is loaded after both have gone on. *)
Definition w_es : list (bool * @event Q_scalar) := map (fun e => (true, e)) one_iter ++ map (fun e => (false, e)) one_iter.

Lemma C35_example_case :
  sound (fst w3) (snd w3) /\ sound (fst w3) (snd w2) /\ disjoint (snd w3) (snd w2) /\
  h_state_dict ckc (fst w3) (snd w3) = Ok the_dict /\ length (pd_state the_dict) = 3 /\
  (let '(d', h1) := deepcopy the_dict (fst w3) in
   let '(h2, o1', o2') := h_both ckc ckc w_es h1 (snd w3) (snd w2) in
   let '(o2'', d'', r) := h_load d' h2 o2' in
   r = Ok tt /\ first_K (content h2 d') = first_K (content (fst w3) the_dict) /\ first_K (content h2 d') <> first_K (content h2 the_dict) /\
   outcomes ckc one_iter (seen h2 o2'') = repeat (Ok tt) 8).
Proof.
  destruct w3_sound as (A & B & C). split; [exact A|]. split; [exact B|]. split; [exact C|]. split; [exact w_dict_ok|]. split; [vm_compute; reflexivity|].
  assert (X : (let '(d', h1) := deepcopy the_dict (fst w3) in
   let '(h2, o1', o2') := h_both ckc ckc w_es h1 (snd w3) (snd w2) in
   let '(o2'', d'', r) := h_load d' h2 o2' in
   (r, first_K (content h2 d'), outcomes ckc one_iter (seen h2 o2'')))
   = (Ok tt, first_K (content (fst w3) the_dict), repeat (Ok tt) 8)) by (vm_compute; reflexivity).
  assert (Y : (let '(d', h1) := deepcopy the_dict (fst w3) in
   let '(h2, o1', o2') := h_both ckc ckc w_es h1 (snd w3) (snd w2) in
   let '(o2'', d'', r) := h_load d' h2 o2' in
   first_K (content h2 d') <> first_K (content h2 the_dict))) by (vm_compute; discriminate).
  destruct (deepcopy the_dict (fst w3)) as [d' h1]. destruct (h_both ckc ckc w_es h1 (snd w3) (snd w2)) as [[h2 o1'] o2'].
  destruct (h_load d' h2 o2') as [[o2'' d''] r]. apply pair_equal_spec in X as [X X3]. apply pair_equal_spec in X as [X1 X2]. exact (conj X1 (conj X2 (conj Y X3))).
Qed.
