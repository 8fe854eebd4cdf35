(** C64: the order in which modules, groups and parameters are listed does not matter. *)

From Coq Require Import List Arith Lia Bool ZArith Permutation QArith Qcanon.
From Verif Require Import Scalar Res Tensor Structures OptimUtils Optimizer Construct OptState OptRun OptTyped CtorSpec CtorFacts Split SplitCtor ProofSplit RelistSpec Relist RelistCtor QEx OptEx OptEx2.
Import ListNotations.
Open Scope nat_scope.

Section PropRelist.
Context {SC : Scalar} {FL : FieldLaws SC}.

Lemma C64_order_lemma : forall a par hooks h c st0 pos model' params' es es',
  ctor a par hooks = (h, Ok (c, st0)) ->
  NoDup (map (fun n => m_key (n_mod n)) (a_model a)) -> NoDup (flat_map mod_params (c_mods c)) ->
  Permutation (a_model a) model' -> relisted_params pos (a_params a) params' ->
  Forall2 (same_event (group_count (a_params a)) pos) es es' -> steps_ok c es st0 ->
  exists h' c' t0, ctor (call_with model' params' a) par hooks = (h', Ok (c', t0)) /\ Permutation h h' /\
    outcomes c' es' t0 = outcomes c es st0 /\
    same_training (group_count (a_params a)) pos (run c es st0) (run c' es' t0).
Proof.
  intros a par hooks h c st0 pos model' params' es es' H NK NP PM RP FE S.
  assert (ND : NoDup (map m_key (c_mods c))) by (rewrite (ctor_mods _ _ _ _ _ _ H); unfold hooked; rewrite map_map; apply nodup_filter_map; exact NK).
  destruct (relist_ctor pos a model' params' par hooks h c st0 H ND PM RP) as (h' & c' & t0 & E & PH & HM & HS & HP & ST).
  exists h', c', t0. split; [exact E|]. split; [exact PH|].
  destruct (relist_run c c' (group_count (a_params a)) pos (Logic.conj ND NP) HM HS HP es es' FE st0 t0 ST S) as (R1 & _ & R3).
  split; [exact R1|exact R3].
Qed.

Lemma C64_loop_lemma : forall (c : cfg) (l l' : list modul) s s',
  NoDup (map m_key l) -> NoDup (flat_map mod_params l) -> Permutation l l' ->
  forS (step_module c) l s = (s', Ok tt) ->
  exists t', forS (step_module c) l' s = (t', Ok tt) /\
    (forall k, s_slots t' k = s_slots s' k) /\ (forall p, s_par t' p = s_par s' p) /\
    s_steps t' = s_steps s' /\ s_scales t' = s_scales s' /\ s_groups t' = s_groups s' /\ s_log t' = s_log s'.
Proof.
  intros c l l' s s' NK NP P H. pose proof (steps_frame _ _ _ _ _ H) as (F1 & F2 & F3 & F4 & F5 & F6 & F7 & F8 & F9).
  assert (ND' : cfg_ok (mkCfg l (c_p2g c))) by (split; assumption).
  set (c1 := mkCfg l (c_p2g c)). set (c2 := mkCfg l' (c_p2g c)).
  assert (OK2 : cfg_ok c2).
  { split; cbn; [eapply Permutation_NoDup; [apply Permutation_map; exact P|exact NK]|eapply Permutation_NoDup; [apply Permutation_flat_map; exact P|exact NP]]. }
  assert (AL : forall m, In m l' -> exists s1, step_module c m s = (s1, Ok tt) /\ s_slots s' (m_key m) = s_slots s1 (m_key m) /\ forall p, In p (mod_params m) -> s_par s' p = s_par s1 p).
  { intros m Hm. apply (Permutation_in _ (Permutation_sym P)) in Hm. exact (step_all_view c1 s s' m ND' Hm H). }
  destruct (steps_alone c l' (proj1 OK2) (proj2 OK2) s) as (t' & Et).
  { intros m Hm. destruct (AL m Hm) as (s1 & -> & _). reflexivity. }
  exists t'. split; [exact Et|]. pose proof (steps_frame _ _ _ _ _ Et) as (G1 & G2 & G3 & G4 & G5 & G6 & G7 & G8 & G9).
  split; [|split; [|repeat split; congruence]].
  - intros k. destruct (in_dec Nat.eq_dec k (map m_key l')) as [I|N].
    + apply in_map_iff in I as (m & <- & Hm). destruct (AL m Hm) as (s1 & E1 & E2 & _).
      destruct (step_all_view c2 s t' m OK2 Hm Et) as (s2 & E3 & E4 & _).
      change (step_module c2 m s) with (step_module c m s) in E3. congruence.
    + rewrite G8 by exact N. symmetry. apply F8. intros I. apply N. eapply Permutation_in; [apply Permutation_map; exact P|exact I].
  - intros p. destruct (in_dec Nat.eq_dec p (flat_map mod_params l')) as [I|N].
    + apply in_flat_map in I as (m & Hm & Hp). destruct (AL m Hm) as (s1 & E1 & _ & E2).
      destruct (step_all_view c2 s t' m OK2 Hm Et) as (s2 & E3 & _ & E4).
      change (step_module c2 m s) with (step_module c m s) in E3. rewrite (E4 p Hp), (E2 p Hp). congruence.
    + rewrite G9 by exact N. symmetry. apply F9. intros I. apply N. eapply Permutation_in; [apply Permutation_flat_map; exact P|exact I].
Qed.

End PropRelist.

(** ** Cases *)

(** Two groups with different hyper-parameters change places, the second layer is registered first and the bias is
    handed over before the weight; in between the learning rate of one group is changed. *)
Definition rl_model : list node := rev ex_model.
Definition rl_groups : list (list nat * (@group Q_scalar -> @group Q_scalar)) := [([2], other_group); ([1; 0], fun g => g)].
Definition rl_pos (i : nat) : nat := match i with 0 => 1 | _ => 0 end.
Definition rl : @args Q_scalar := call_with rl_model (PGroups rl_groups) sp.
Definition rl_es : list (@event Q_scalar) := ex_iter (q 1) ++ ex_step ++ [EGroups (map other_group (s_groups sp0))] ++ ex_iter (q 1) ++ ex_step.
Definition rl_es' : list (@event Q_scalar) := ex_iter (q 1) ++ ex_step ++ [EGroups (map other_group (s_groups (snd (built rl))))] ++ ex_iter (q 1) ++ ex_step.

Lemma C64_example_case :
  (exists h, ctor sp ex_par [] = (h, Ok (spc, sp0))) /\ NoDup (map (fun n => m_key (n_mod n)) (a_model sp)) /\ NoDup (flat_map mod_params (c_mods spc)) /\
  Permutation (a_model sp) rl_model /\ relisted_params rl_pos (a_params sp) (PGroups rl_groups) /\
  Forall2 (same_event (group_count (a_params sp)) rl_pos) rl_es rl_es' /\ steps_ok spc rl_es sp0 /\
  map m_key (c_mods spc) = [0; 1] /\ map m_key (c_mods (fst (built rl))) = [1; 0] /\
  s_steps (run spc rl_es sp0) = 2 /\ val_of (run spc rl_es sp0) 2 <> val_of sp0 2.
Proof.
  split; [exact sp_built|]. split; [exact (proj1 (proj2 sp_plain))|]. split; [exact (proj2 (proj2 sp_plain))|].
  split; [apply Permutation_rev|]. split.
  { cbn. split; [reflexivity|]. split; [intros i j Hi Hj; destruct i as [|[|i]], j as [|[|j]]; cbn; lia|].
    intros [|[|[|i]]] ps f E; try discriminate; injection E as <- <-; eexists; (split; [reflexivity|]); [apply perm_swap|apply Permutation_refl]. }
  split.
  { unfold rl_es, rl_es'. repeat (apply Forall2_app; [|]); try (unfold ex_iter, ex_step; repeat (apply Forall2_cons; [reflexivity|]); apply Forall2_nil).
    apply Forall2_cons; [|apply Forall2_nil]. cbn [same_event]. intros i Hi. cbn in Hi.
    assert (E1 : exists g1 g2, s_groups sp0 = [g1; g2] /\ exists g1' g2', s_groups (snd (built rl)) = [g2'; g1'] /\ same_settings g1 g1' /\ same_settings g2 g2').
    { assert (X : s_groups sp0 = map (fun pf => with_params (fst pf) (snd pf (defaults sp))) sp_groups) by (vm_compute; reflexivity).
      assert (Y : s_groups (snd (built rl)) = map (fun pf => with_params (fst pf) (snd pf (defaults sp))) rl_groups) by (vm_compute; reflexivity).
      rewrite X, Y. eexists _, _. split; [reflexivity|]. eexists _, _. split; [reflexivity|]. unfold same_settings. cbn. auto 30. }
    destruct E1 as (g1 & g2 & -> & g1' & g2' & -> & S1 & S2).
    assert (SO : forall g g', same_settings g g' -> same_settings (other_group g) (other_group g')).
    { unfold same_settings, other_group. cbn. intuition congruence. }
    destruct i as [|[|i]]; cbn; [apply SO; exact S1|apply SO; exact S2|lia]. }
  split; [apply steps_okb_ok; vm_compute; reflexivity|]. split; [vm_compute; reflexivity|]. split; [vm_compute; reflexivity|]. split; [vm_compute; reflexivity|].
  vm_compute. discriminate.
Qed.

Lemma C64_loop_example_case :
  let s := run spc (ex_iter (q 1) ++ [@ESetScale Q_scalar (q 1)]) sp0 in
  NoDup (map m_key (c_mods spc)) /\ NoDup (flat_map mod_params (c_mods spc)) /\ Permutation (c_mods spc) [ex_m2; ex_m1] /\
  (exists s', forS (step_module spc) (c_mods spc) s = (s', Ok tt)) /\
  val_of (fst (forS (step_module spc) (c_mods spc) s)) 2 <> val_of s 2.
Proof.
  cbv zeta. assert (M : c_mods spc = [ex_m1; ex_m2]) by (vm_compute; reflexivity). split; [rewrite M; repeat constructor; cbn; intuition discriminate|].
  split; [exact (proj2 (proj2 sp_plain))|]. split; [rewrite M; apply perm_swap|].
  set (s := run spc (ex_iter (q 1) ++ [@ESetScale Q_scalar (q 1)]) sp0).
  assert (B : is_ok (snd (forS (step_module spc) (c_mods spc) s)) = true) by (vm_compute; reflexivity). split; [|vm_compute; discriminate].
  destruct (forS (step_module spc) (c_mods spc) s) as [s' [[]|e]]; [eauto|discriminate].
Qed.

Lemma C64_failing_refuted_lemma :
  exists (a : @args Q_scalar) par c st0 model' es c' t0,
    (exists h h', ctor a par h = (h', Ok (c, st0))) /\ Permutation (a_model a) model' /\
    (exists h h', ctor (call_with model' (a_params a) a) par h = (h', Ok (c', t0))) /\
    NoDup (map (fun n => m_key (n_mod n)) (a_model a)) /\ NoDup (flat_map mod_params (c_mods c)) /\
    outcomes c' es t0 = outcomes c es st0 /\ val_of (run c es st0) 2 = val_of st0 2 /\ val_of (run c' es t0) 2 <> val_of t0 2.
Proof.
  set (sp' := call_with rl_model (a_params sp) sp).
  exists sp, ex_par, spc, sp0, rl_model, (sp_miss ++ ex_step), (fst (built sp')), (snd (built sp')).
  split; [exists []; exact sp_built|]. split; [apply Permutation_rev|]. split.
  { exists []. assert (X : built_ok sp' = true) by (vm_compute; reflexivity). apply built_spec in X.
    exists (fst (ctor sp' ex_par [])). fold sp'. rewrite surjective_pairing at 1. rewrite X. reflexivity. }
  split; [exact (proj1 (proj2 sp_plain))|]. split; [exact (proj2 (proj2 sp_plain))|].
  split; [vm_compute; reflexivity|]. split; [vm_compute; reflexivity|]. vm_compute. discriminate.
Qed.

(** Layers that share their weight are updated one after the other: with weight decay the result depends on which
    layer comes first. *)
Definition td_m1 : modul := mkMod 0 (Linear 1 1 false) 0 None.
Definition td_m2 : modul := mkMod 1 (Linear 1 1 false) 0 None.
Definition td_par (p : nat) : @pslot Q_scalar := @mkP Q_scalar (qt [1; 1] [1]%Z) None None.
Definition td (model : list node) : @args Q_scalar := call_with model PNone (ex_args PNone (q 0) (q 0) (qr 1 8) 1 dense2 false false (q 1)).
Definition td_fwd : list node := [mkNode td_m1 true [0]; mkNode td_m2 true [0]].
Definition td_es : list (@event Q_scalar) :=
  [ @EForward Q_scalar td_m1 (qt [1; 1] [1]%Z) true 10; @EForward Q_scalar td_m2 (qt [1; 1] [2]%Z) true 11;
    @EBackward Q_scalar 11 (qt [1; 1] [1]%Z); @EBackward Q_scalar 10 (qt [1; 1] [1]%Z); @EGrad Q_scalar 0 (Some (qt [1; 1] [3]%Z)) ] ++ ex_step.
Definition td_built (a : @args Q_scalar) : cfg * @state Q_scalar :=
  match snd (ctor a td_par []) with Ok r => r | Err _ => (mkCfg [] (fun _ => None), no_state) end.
Lemma td_spec a : is_ok (snd (ctor a td_par [])) = true -> ctor a td_par [] = (fst (ctor a td_par []), Ok (fst (td_built a), snd (td_built a))).
Proof. intros H. rewrite surjective_pairing at 1. f_equal. unfold td_built. destruct (snd (ctor a td_par [])) as [[c st]|]; [reflexivity|discriminate]. Qed.

Lemma C64_tied_refuted_lemma :
  exists (a : @args Q_scalar) par c st0 model' es c' t0,
    (exists h h', ctor a par h = (h', Ok (c, st0))) /\ Permutation (a_model a) model' /\
    (exists h h', ctor (call_with model' (a_params a) a) par h = (h', Ok (c', t0))) /\
    NoDup (map (fun n => m_key (n_mod n)) (a_model a)) /\ steps_ok c es st0 /\ steps_ok c' es t0 /\
    val_of (run c es st0) 0 <> val_of (run c' es t0) 0.
Proof.
  set (a := td td_fwd). set (a' := td (rev td_fwd)).
  exists a, td_par, (fst (td_built a)), (snd (td_built a)), (rev td_fwd), td_es, (fst (td_built a')), (snd (td_built a')).
  split; [exists [], (fst (ctor a td_par [])); apply td_spec; vm_compute; reflexivity|]. split; [apply Permutation_rev|].
  split; [exists [], (fst (ctor a' td_par [])); apply (td_spec a'); vm_compute; reflexivity|].
  split; [repeat constructor; cbn; intuition discriminate|].
  split; [apply steps_okb_ok; vm_compute; reflexivity|]. split; [apply steps_okb_ok; vm_compute; reflexivity|]. vm_compute. discriminate.
Qed.
