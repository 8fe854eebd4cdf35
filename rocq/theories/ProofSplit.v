(** C36: parameter groups are independent. *)

From Coq Require Import List Arith Lia Bool ZArith QArith Qcanon.
From Verif Require Import Scalar Res Tensor Structures OptimUtils Optimizer Construct OptState OptRun OptTyped CtorSpec CtorFacts Split SplitCtor QEx OptEx OptEx2.
Import ListNotations.
Open Scope nat_scope.

Section PropSplit.
Context {SC : Scalar} {FL : FieldLaws SC}.

Lemma C36_split_lemma a par hooks hooks' c st0 l i pf es :
  ctor a par hooks = (hooks', Ok (c, st0)) -> a_params a = PGroups l -> nth_error l i = Some pf ->
  plain_layers (a_model a) -> NoDup (map (fun n => m_key (n_mod n)) (a_model a)) -> NoDup (flat_map mod_params (c_mods c)) ->
  known_mods c es -> steps_ok c es st0 ->
  exists h' c' t0, ctor (with_group pf a) par hooks = (h', Ok (c', t0)) /\
    let es' := view_events i (of_group c i) (fun _ => false) es in
    steps_ok c' es' t0 /\
    let s := run c es st0 in let t := run c' es' t0 in
    s_steps t = s_steps s /\ s_scales t = s_scales s /\ s_groups t = only i (s_groups s) /\
    forall m, In m (c_mods c) -> of_group c i m = true ->
      s_slots t (m_key m) = s_slots s (m_key m) /\ forall p, In p (mod_params m) -> s_par t p = s_par s p.
Proof.
  intros H Ep En PL NK NP K S.
  assert (ND : NoDup (map m_key (c_mods c))) by (rewrite (ctor_mods _ _ _ _ _ _ H); unfold hooked; rewrite map_map; apply nodup_filter_map; exact NK).
  destruct (split_ctor a par hooks hooks' c st0 l i pf H Ep En PL ND) as (h' & c' & t0 & E & M & G & P).
  exists h', c', t0. split; [exact E|]. cbv zeta.
  destruct (part_run c c' i (of_group c i) (Logic.conj ND NP) M G es (fun _ => false) st0 t0 K P S) as [(own & Q) S'].
  split; [exact S'|]. destruct Q as (Q1 & Q2 & Q3 & _ & _ & Q6 & _). auto.
Qed.

Lemma C36_covered_lemma a par hooks hooks' c st0 l m :
  ctor a par hooks = (hooks', Ok (c, st0)) -> a_params a = PGroups l -> NoDup (map (fun n => m_key (n_mod n)) (a_model a)) -> In m (c_mods c) ->
  exists i pf, nth_error l i = Some pf /\ of_group c i m = true /\ In (m_weight m) (fst pf).
Proof.
  intros H Ep NK Hm.
  assert (ND : NoDup (map m_key (c_mods c))) by (rewrite (ctor_mods _ _ _ _ _ _ H); unfold hooked; rewrite map_map; apply nodup_filter_map; exact NK).
  pose proof (ctor_slots _ _ _ _ _ _ H ND m Hm) as B. unfold init_slots in B. apply bind_ok in B as ([d1 d2] & _ & B). apply bind_ok in B as (g & B & _).
  destruct (ctor_eq a par hooks) as [[V E]|[_ E]]; rewrite E in H; [|discriminate]. destruct (initialize_buffers _ _) as [d'|]; [|discriminate]. injection H as _ <- <-.
  unfold get_group in B. destruct (c_p2g (cfg_of a) (m_weight m)) as [i|] eqn:Ei; [|destruct (m_layer m); discriminate].
  pose proof Ei as Ej. cbn [cfg_of c_p2g] in Ej. apply p2g_some in Ej as [_ Ej]. rewrite Nat.sub_0_r in Ej. unfold groups_of in Ej. rewrite in_group_reset in Ej.
  destruct Ej as (g' & Ej & Hw). unfold groups_given in Ej. rewrite Ep, nth_error_map in Ej. destruct (nth_error l i) as [pf|] eqn:En; [|discriminate].
  injection Ej as <-. exists i, pf. split; [exact En|]. split; [unfold of_group; rewrite Ei; apply Nat.eqb_refl|exact Hw].
Qed.

Lemma C36_failure_lemma a par hooks hooks' c st0 l es st' e :
  ctor a par hooks = (hooks', Ok (c, st0)) -> a_params a = PGroups l ->
  plain_layers (a_model a) -> NoDup (map (fun n => m_key (n_mod n)) (a_model a)) -> NoDup (flat_map mod_params (c_mods c)) -> c_mods c <> [] ->
  known_mods c es -> steps_ok c es st0 -> step c false (run c es st0) = (st', Err e) ->
  exists i pf h' c' t0, nth_error l i = Some pf /\ ctor (with_group pf a) par hooks = (h', Ok (c', t0)) /\
    snd (step c' false (run c' (view_events i (of_group c i) (fun _ => false) es) t0)) = Err e.
Proof.
  intros H Ep PL NK NP NE K S F.
  assert (ND : NoDup (map m_key (c_mods c))) by (rewrite (ctor_mods _ _ _ _ _ _ H); unfold hooked; rewrite map_map; apply nodup_filter_map; exact NK).
  destruct (part_fail c _ _ _ (Logic.conj ND NP) F NE) as (m & Hm & X).
  destruct (C36_covered_lemma a par hooks hooks' c st0 l m H Ep NK Hm) as (i & pf & En & Om & _).
  destruct (split_ctor a par hooks hooks' c st0 l i pf H Ep En PL ND) as (h' & c' & t0 & E & M & G & P).
  exists i, pf, h', c', t0. split; [exact En|]. split; [exact E|].
  destruct (part_run c c' i (of_group c i) (Logic.conj ND NP) M G es (fun _ => false) st0 t0 K P S) as [(own & Q) S'].
  exact (X c' i (of_group c i) own _ M G Q Om).
Qed.

Lemma C36_local_lemma c c' m s t :
  s_steps t = s_steps s -> s_scales t = s_scales s -> get_group c' (s_groups t) m = get_group c (s_groups s) m ->
  s_slots t (m_key m) = s_slots s (m_key m) -> (forall p, In p (mod_params m) -> s_par t p = s_par s p) ->
  let s' := fst (step_module c m s) in let t' := fst (step_module c' m t) in
  snd (step_module c m s) = snd (step_module c' m t) /\ s_slots t' (m_key m) = s_slots s' (m_key m) /\
  (forall p, In p (mod_params m) -> s_par t' p = s_par s' p).
Proof.
  intros H1 H2 H3 H4 H5. destruct (step_module_agree2 c c' m s t) as (E & _ & _ & _ & A4 & A5); [repeat split; assumption|]. auto.
Qed.

End PropSplit.

(** ** Cases *)

(** Two groups with different hyper-parameters: the first layer, and the second one with momentum 0 and T = 2. *)
Definition other_group (g : @group Q_scalar) : @group Q_scalar :=
  @mkGroup Q_scalar (g_params g) (q 1 : @F Q_scalar) (q 0 : @F Q_scalar) (g_damping g) (g_alpha1 g) (g_wd g) 2 (g_loss g) (g_lr_cov g) (g_structs g) (g_approx g) (g_kfac_like g) (g_normalize g).
Definition sp_groups : list (list nat * (@group Q_scalar -> @group Q_scalar)) := [([0; 1], fun g => g); ([2], other_group)].
Definition sp : @args Q_scalar := ex_args (@PGroups Q_scalar sp_groups) (qr 1 2) (qr 1 2) (q 0) 1 dense2 false false (q 1).
Definition spc : cfg := fst (built sp).
Definition sp0 : @state Q_scalar := snd (built sp).
Definition sp_es : list (@event Q_scalar) := ex_iter (q 1) ++ ex_step ++ ex_iter (q 1) ++ ex_step.
Lemma sp_built : exists h, ctor sp ex_par [] = (h, Ok (spc, sp0)).
Proof.
  assert (X : built_ok sp = true) by (vm_compute; reflexivity). apply built_spec in X.
  exists (fst (ctor sp ex_par [])). rewrite surjective_pairing at 1. rewrite X. reflexivity.
Qed.
Lemma sp_plain : plain_layers ex_model /\ NoDup (map (fun n => m_key (n_mod n)) ex_model) /\ NoDup (flat_map mod_params (c_mods spc)).
Proof.
  split; [|split].
  - intros n Hn Hs. cbn in Hn. destruct Hn as [<-|[<-|[<-|[]]]]; cbn in *; [discriminate|split; [reflexivity|auto]|split; [reflexivity|auto]].
  - repeat constructor; cbn; intuition discriminate.
  - assert (M : flat_map mod_params (c_mods spc) = [0; 1; 2]) by (vm_compute; reflexivity). rewrite M. repeat constructor; cbn; intuition discriminate.
Qed.

Definition step_okb {A} (r : @state Q_scalar * res A) : bool := is_ok (snd r).
Fixpoint steps_okb (c : cfg) (es : list (@event Q_scalar)) (st : @state Q_scalar) : bool :=
  match es with
  | [] => true
  | e :: es' => match e with EStep false => is_ok (snd (event_op c e st)) | _ => true end && steps_okb c es' (fst (event_op c e st))
  end.
Lemma steps_okb_ok c es : forall st, steps_okb c es st = true -> steps_ok c es st.
Proof.
  induction es as [|e es IH]; intros st H; [exact I|]. cbn in H. apply andb_true_iff in H as [H1 H2]. split; [|apply IH; exact H2].
  destruct e as [| | | | |[|]|]; try exact I. destruct (snd (event_op c (EStep false) st)) as [[]|]; [reflexivity|discriminate].
Qed.

Lemma C36_example_case :
  (exists h, ctor sp ex_par [] = (h, Ok (spc, sp0))) /\ known_mods spc sp_es /\ steps_ok spc sp_es sp0 /\
  map (of_group spc 1) (c_mods spc) = [false; true] /\
  length (view_events 1 (of_group spc 1) (fun _ => false) sp_es) = 12 /\ s_steps (run spc sp_es sp0) = 2 /\
  val_of (run spc sp_es sp0) 2 <> val_of sp0 2.
Proof.
  split; [exact sp_built|]. split.
  { assert (M : c_mods spc = [ex_m1; ex_m2]) by (vm_compute; reflexivity). unfold known_mods. rewrite M. unfold sp_es, ex_iter, ex_step. cbn [app]. repeat (apply Forall_cons; [cbn; auto|]). apply Forall_nil. }
  split; [apply steps_okb_ok; vm_compute; reflexivity|]. split; [vm_compute; reflexivity|]. split; [vm_compute; reflexivity|]. split; [vm_compute; reflexivity|].
  vm_compute. discriminate.
Qed.

(** With a failing step the groups are not independent: the backward pass of the first group's layer is
    missing; the second group's layer is not updated, whereas its own optimizer would succeed. *)
Definition sp_miss : list (@event Q_scalar) :=
  [ @EForward Q_scalar ex_m2 ex_x2 true 11; @EBackward Q_scalar 11 ex_g2;
    @EGrad Q_scalar 0 (Some (qt [1; 2] [6; -2]%Z)); @EGrad Q_scalar 1 (Some (qt [1] [2]%Z)); @EGrad Q_scalar 2 (Some (qt [2; 1] [5; -10]%Z)) ].

Lemma C36_failure_refuted_lemma :
  exists (a : @args Q_scalar) par c st0 l i pf es c' t0,
    (exists h h', ctor a par h = (h', Ok (c, st0))) /\ a_params a = PGroups l /\ nth_error l i = Some pf /\ plain_layers (a_model a) /\ known_mods c es /\
    (exists h h', ctor (with_group pf a) par h = (h', Ok (c', t0))) /\
    let s := run c es st0 in let t := run c' (view_events i (of_group c i) (fun _ => false) es) t0 in
    snd (step c false s) = Err KeyError /\ val_of (fst (step c false s)) 2 = val_of s 2 /\
    snd (step c' false t) = Ok tt /\ val_of (fst (step c' false t)) 2 <> val_of s 2.
Proof.
  set (sp' := with_group ([2], other_group) sp).
  exists sp, ex_par, spc, sp0, sp_groups, 1, ([2], other_group), sp_miss, (fst (built sp')), (snd (built sp')).
  split; [exists []; exact sp_built|]. split; [reflexivity|]. split; [reflexivity|]. split; [exact (proj1 sp_plain)|]. split.
  { assert (M : c_mods spc = [ex_m1; ex_m2]) by (vm_compute; reflexivity). unfold known_mods. rewrite M. unfold sp_miss. repeat (apply Forall_cons; [cbn; auto|]). apply Forall_nil. }
  split.
  { exists []. assert (X : built_ok sp' = true) by (vm_compute; reflexivity). apply built_spec in X.
    exists (fst (ctor sp' ex_par [])). fold sp'. rewrite surjective_pairing at 1. rewrite X. reflexivity. }
  cbv zeta. set (s := run spc sp_miss sp0). set (t := run (fst (built sp')) (view_events 1 (of_group spc 1) (fun _ => false) sp_miss) (snd (built sp'))).
  assert (A : outcome (step spc false s) = Err KeyError) by (vm_compute; reflexivity).
  assert (B : outcome (step (fst (built sp')) false t) = Ok tt) by (vm_compute; reflexivity).
  unfold outcome in A, B. split; [destruct (snd (step spc false s)); congruence|]. split; [vm_compute; reflexivity|].
  split; [destruct (snd (step (fst (built sp')) false t)) as [[]|]; congruence|]. vm_compute. discriminate.
Qed.
