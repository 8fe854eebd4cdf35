(** Lemmas: accumulating the gradients of micro-batches and one pass over the whole batch, side by side. *)

From Coq Require Import List Arith Lia Bool ZArith Field.
From Verif Require Import Scalar Res Tensor TensorFacts Structures StructSpec StructDense StructPattern StructOps StructAct OptimUtils UtilsFacts ProofUtils Optimizer Construct OptState OptRun OptSpec OptFacts OptTyped OptPre ScaleInv ScaleRun Batch.
Import ListNotations.

Section Accum.
Context {SC : Scalar} {FL : FieldLaws SC} {SQ : SqrtLaws SC}.
Add Field FFac : F_ft.
Open Scope F_scope.

(** ** Training loops *)

(** A call of a hooked module: its input and the loss's gradient with respect to its output. *)
Definition call : Type := modul * tensor * tensor.
Definition call_mod (t : call) : modul := let '(m, _, _) := t in m.

(** One forward and backward pass; autograd visits the calls in reverse order. *)
Definition outputs (cs : list call) : list (nat * call) := combine (seq 0 (length cs)) cs.
Definition pass (cs : list call) : list event :=
  map (fun '(out, (m, x, g)) => EForward m x true out) (outputs cs) ++ map (fun '(out, (m, x, g)) => EBackward out g) (rev (outputs cs)).

(** A call on the whole batch, with the number of its samples in every micro-batch. *)
Record bcall : Type := mkBcall { b_size : nat; b_call : call }.
Definition micro_call (j : nat) (u : bcall) : call :=
  let '(m, x, g) := b_call u in (m, part x (j * b_size u) (b_size u), part g (j * b_size u) (b_size u)).

Definition writes (gs : list (nat * option tensor)) : list event := map (fun '(p, g) => EGrad p g) gs.

(** One iteration: settings before it, the calls, the number of micro-batches, what [p.grad] holds after the
    single micro-batches and at the end, settings before the step. *)
Record iter : Type := mkIter {
  i_pre : list event; i_calls : list bcall; i_k : nat;
  i_mid : nat -> list (nat * option tensor); i_grads : list (nat * option tensor); i_post : list event }.

Definition whole_iter (it : iter) : list event :=
  i_pre it ++ pass (map b_call (i_calls it)) ++ writes (i_grads it) ++ i_post it ++ [EStep false].
Definition micro_iter (it : iter) : list event :=
  i_pre it ++ flat_map (fun j => pass (map (micro_call j) (i_calls it)) ++ writes (i_mid it j)) (seq 0 (i_k it)) ++
  writes (i_grads it) ++ i_post it ++ [EStep false].

(** The loss is averaged and the update is not the KFAC-like one. *)
Definition mean_loss (g : group) : Prop := g_loss g = LossBatch \/ g_loss g = LossBatchSeq.
Definition plain (g : group) : Prop := g_kfac_like g = false /\ mean_loss g.

(** Events allowed before and after the passes. *)
Definition is_setting (e : event) : Prop := match e with EGroups gs => Forall plain gs | ESetScale _ | EScaler _ _ => True | _ => False end.
Definition is_scaling (e : event) : Prop := match e with ESetScale _ | EScaler _ _ => True | _ => False end.

(** The batch of every call is [k] micro-batches of its size, and the final gradients overwrite the intermediate ones. *)
Definition bcall_ok (c : cfg) (k : nat) (u : bcall) : Prop :=
  let '(m, x, g) := b_call u in
  In m (c_mods c) /\ fits (m_layer m) x g /\ b_size u <> O /\ exists rest, shape x = (k * b_size u)%nat :: rest.
Definition iter_ok (c : cfg) (it : iter) : Prop :=
  Forall is_setting (i_pre it) /\ Forall is_scaling (i_post it) /\ i_k it <> O /\ Forall (bcall_ok c (i_k it)) (i_calls it) /\
  (forall j p, In p (map fst (i_mid it j)) -> In p (map fst (i_grads it))).

(** Nothing raises. *)
Fixpoint quiet (c : cfg) (es : list event) (st : state) : Prop :=
  match es with [] => True | e :: es' => snd (event_op c e st) = Ok tt /\ quiet c es' (fst (event_op c e st)) end.

Lemma run_app c es es' st : run c (es ++ es') st = run c es' (run c es st).
Proof. revert st. induction es as [|e es IH]; intros st; [reflexivity|]. cbn. apply IH. Qed.
Lemma quiet_app c es es' st : quiet c (es ++ es') st <-> quiet c es st /\ quiet c es' (run c es st).
Proof. revert st. induction es as [|e es IH]; intros st; cbn; [tauto|]. rewrite IH. tauto. Qed.

(** ** A pass *)

(** The forward hook installs a hook on the output. *)
Definition waits (c : cfg) (st : state) (m : modul) : bool :=
  match get_group c (s_groups st) m with
  | Ok g => match is_update_step g (s_steps st) with Ok b => b | Err _ => false end
  | Err _ => false
  end.
Definition fwd_ok (c : cfg) (st : state) (m : modul) : Prop :=
  exists g b, get_group c (s_groups st) m = Ok g /\ is_update_step g (s_steps st) = Ok b.

(** What the hooks of a call do to the statistics. *)
Definition acc1 (c : cfg) (st : state) (t : call) : state :=
  let '(m, x, g) := t in if waits c st m then fst (accumulate_H_terms c m x g st) else st.
Definition acc_ok (c : cfg) (st : state) (t : call) : Prop :=
  let '(m, x, g) := t in if waits c st m then snd (accumulate_H_terms c m x g st) = Ok tt else True.

Lemma forward_run c m x out st :
  fst (event_op c (EForward m x true out) st) = set_pend (upd (s_pend st) out (if waits c st m then Some (m, x) else None)) st /\
  (snd (event_op c (EForward m x true out) st) = Ok tt <-> fwd_ok c st m).
Proof.
  cbn [event_op]. unfold forward_hook, waits, fwd_ok, sbind, getS, modify, lift, ret. cbn [set_pend s_groups s_steps s_pend negb].
  destruct (get_group c (s_groups st) m) as [g|e].
  2:{ split; [reflexivity|]. split; [discriminate|]. intros (g & b & E & _). discriminate. }
  destruct (is_update_step g (s_steps st)) as [[|]|e] eqn:E; (split; [reflexivity|]); (split; [try discriminate|try reflexivity]).
  - intros _. exists g, true. auto.
  - intros _. exists g, false. auto.
  - intros (g' & b & E1 & E2). injection E1 as <-. rewrite E in E2. discriminate.
Qed.

Lemma forwards_run c : forall (cs : list call) n st,
  exists P, run c (map (fun '(out, (m, x, g)) => EForward m x true out) (combine (seq n (length cs)) cs)) st = set_pend P st /\
    (forall o m x g, In (o, (m, x, g)) (combine (seq n (length cs)) cs) -> P o = if waits c st m then Some (m, x) else None) /\
    (forall o, (o < n)%nat -> P o = s_pend st o) /\
    (forall o m x, P o = Some (m, x) -> s_pend st o = Some (m, x) \/ exists g, In (m, x, g) cs) /\
    (quiet c (map (fun '(out, (m, x, g)) => EForward m x true out) (combine (seq n (length cs)) cs)) st <-> Forall (fun t => fwd_ok c st (call_mod t)) cs).
Proof.
  induction cs as [|[[m x] g] cs IH]; intros n st.
  - exists (s_pend st). split; [destruct st; reflexivity|]. split; [intros ? ? ? ? []|]. split; [reflexivity|]. split; [auto|]. cbn. split; [constructor|auto].
  - cbn [length seq combine map run quiet]. destruct (forward_run c m x n st) as [-> QF]. set (st1 := set_pend _ st).
    destruct (IH (S n) st1) as (P & E & H1 & H2 & H3 & H4). exists P. rewrite E. split; [reflexivity|]. split; [|split; [|split]].
    + intros o m' x' g' [Ho|Ho]; [|exact (H1 o m' x' g' Ho)]. injection Ho as <- <- <- <-. rewrite H2 by lia. unfold st1. cbn. rewrite upd_eq. reflexivity.
    + intros o Ho. rewrite H2 by lia. unfold st1. cbn. rewrite upd_neq by lia. reflexivity.
    + intros o m' x' Ho. apply H3 in Ho as [Ho|(g' & Ho)]; [|right; exists g'; right; exact Ho]. unfold st1 in Ho. cbn in Ho. unfold upd in Ho.
      destruct (Nat.eqb o n); [|left; exact Ho]. destruct (waits c st m); [|discriminate]. injection Ho as <- <-. right. exists g. left. reflexivity.
    + rewrite QF, H4, Forall_cons_iff. reflexivity.
Qed.

Lemma accumulate_pend c m x g P st :
  accumulate_H_terms c m x g (set_pend P st) = (set_pend P (fst (accumulate_H_terms c m x g st)), snd (accumulate_H_terms c m x g st)).
Proof.
  unfold accumulate_H_terms, sbind, getS, lift. cbn [set_pend s_groups s_steps s_scales s_slots]. destruct (get_group c (s_groups st) m) as [gr|]; [|reflexivity].
  destruct (local_H _ _ _ _ _ _) as [[hk hc]|]; [|reflexivity]. unfold on_slots. cbn [set_pend s_slots]. destruct (store_H hk hc _) as [s r]. reflexivity.
Qed.
Lemma acc1_pend c P st t : acc1 c (set_pend P st) t = set_pend P (acc1 c st t).
Proof. destruct t as [[m x] g]. unfold acc1. change (waits c (set_pend P st) m) with (waits c st m). destruct (waits c st m); [|reflexivity]. rewrite accumulate_pend. reflexivity. Qed.
Lemma accs_pend c P ts : forall st, fold_left (acc1 c) ts (set_pend P st) = set_pend P (fold_left (acc1 c) ts st).
Proof. induction ts as [|t ts IH]; intros st; [reflexivity|]. cbn. rewrite acc1_pend. apply IH. Qed.

(** Only the statistics change. *)
Lemma accumulate_slots c m x g st : exists s, fst (accumulate_H_terms c m x g st) = set_slots s st.
Proof.
  unfold accumulate_H_terms, sbind, getS, lift. destruct (get_group c (s_groups st) m) as [gr|]; [|exists (s_slots st); destruct st; reflexivity].
  destruct (local_H _ _ _ _ _ _) as [[hk hc]|]; [|exists (s_slots st); destruct st; reflexivity]. unfold on_slots. destruct (store_H hk hc _) as [s r]. eexists. reflexivity.
Qed.
Lemma acc1_slots c t st : exists s, acc1 c st t = set_slots s st.
Proof. destruct t as [[m x] g]. unfold acc1. destruct (waits c st m); [apply accumulate_slots|]. exists (s_slots st). destruct st. reflexivity. Qed.
Lemma accs_slots c ts : forall st, exists s, fold_left (acc1 c) ts st = set_slots s st.
Proof.
  induction ts as [|t ts IH]; intros st; [exists (s_slots st); destruct st; reflexivity|]. cbn. destruct (acc1_slots c t st) as (s & ->).
  destruct (IH (set_slots s st)) as (s' & ->). exists s'. reflexivity.
Qed.

Fixpoint accs_ok (c : cfg) (ts : list call) (st : state) : Prop :=
  match ts with [] => True | t :: ts' => acc_ok c st t /\ accs_ok c ts' (acc1 c st t) end.

Lemma backs_run c : forall (ps : list (nat * call)) st,
  (forall o m x g, In (o, (m, x, g)) ps -> s_pend st o = if waits c st m then Some (m, x) else None) ->
  run c (map (fun '(out, (m, x, g)) => EBackward out g) ps) st = fold_left (acc1 c) (map snd ps) st /\
  (quiet c (map (fun '(out, (m, x, g)) => EBackward out g) ps) st <-> accs_ok c (map snd ps) st).
Proof.
  induction ps as [|[o [[m x] g]] ps IH]; intros st H; [cbn; tauto|]. cbn [map snd run fold_left quiet accs_ok].
  pose proof (H o m x g (or_introl eq_refl)) as Ho.
  assert (E : fst (event_op c (EBackward o g) st) = acc1 c st (m, x, g) /\ (snd (event_op c (EBackward o g) st) = Ok tt <-> acc_ok c st (m, x, g))).
  { cbn [event_op acc1 acc_ok]. unfold sbind, getS. rewrite Ho. destruct (waits c st m); [tauto|]. cbn. tauto. }
  destruct E as [E1 E2]. rewrite E1, E2. destruct (acc1_slots c (m, x, g) st) as (s & Es). rewrite Es.
  destruct (IH (set_slots s st)) as [I1 I2]; [intros o' m' x' g' Ho'; exact (H o' m' x' g' (or_intror Ho'))|]. rewrite I1, I2. tauto.
Qed.

Lemma outputs_snd (cs : list call) : forall n, map snd (combine (seq n (length cs)) cs) = cs.
Proof. induction cs as [|t cs IH]; intros n; [reflexivity|]. cbn. rewrite IH. reflexivity. Qed.

Lemma pass_run c cs st :
  exists P, run c (pass cs) st = set_pend P (fold_left (acc1 c) (rev cs) st) /\
    (forall o m x, P o = Some (m, x) -> s_pend st o = Some (m, x) \/ exists g, In (m, x, g) cs) /\
    (quiet c (pass cs) st <-> Forall (fun t => fwd_ok c st (call_mod t)) cs /\ accs_ok c (rev cs) (set_pend P st)).
Proof.
  unfold pass. destruct (forwards_run c cs 0 st) as (P & E & H1 & H2 & H3 & H4). exists P. rewrite quiet_app. rewrite run_app. unfold outputs. rewrite E.
  destruct (backs_run c (rev (combine (seq 0 (length cs)) cs)) (set_pend P st)) as [I1 I2].
  { intros o m x g Ho. apply in_rev in Ho. exact (H1 o m x g Ho). }
  rewrite I1, I2, map_rev, outputs_snd, accs_pend. rewrite H4. split; [reflexivity|]. split; [exact H3|]. reflexivity.
Qed.

Lemma accs_ok_pend c P ts : forall st, accs_ok c ts (set_pend P st) <-> accs_ok c ts st.
Proof.
  induction ts as [|t ts IH]; intros st; [reflexivity|]. cbn [accs_ok]. rewrite acc1_pend, IH.
  assert (A : acc_ok c (set_pend P st) t <-> acc_ok c st t).
  { destruct t as [[m x] g]. unfold acc_ok. change (waits c (set_pend P st) m) with (waits c st m). destruct (waits c st m); [|tauto]. rewrite accumulate_pend. tauto. }
  rewrite A. reflexivity.
Qed.

(** ** The statistics after several calls *)

(** The contribution of a call. *)
Definition stat (c : cfg) (st : state) (t : call) : res (smat * smat) :=
  let '(m, x, g) := t in
  let* gr := get_group c (s_groups st) m in
  local_H gr (m_layer m) (get_grad_scale (s_scales st) (Z.of_nat (s_steps st) - 1)) x g (s_slots st (m_key m)).
Definition here (c : cfg) (st : state) (m : modul) (t : call) : bool :=
  (Nat.eqb (m_key (call_mod t)) (m_key m) && waits c st (call_mod t))%bool.
Definition cval (pr : smat * smat -> smat) (c : cfg) (st : state) (m : modul) (t : call) (i j : nat) : F :=
  if here c st m t then match stat c st t with Ok h => ent (pr h) i j | Err _ => 0 end else 0.
Definition tsum (pr : smat * smat -> smat) (c : cfg) (st : state) (m : modul) (ts : list call) (i j : nat) : F :=
  fold_right (fun t r => cval pr c st m t i j + r) 0 ts.
Definition call_ok (c : cfg) (t : call) : Prop := let '(m, x, g) := t in In m (c_mods c) /\ fits (m_layer m) x g.
Definition stat_ok (c : cfg) (st : state) (t : call) : Prop := waits c st (call_mod t) = true -> exists h, stat c st t = Ok h.

Lemma tsum_app pr c st m ts ts' i j : tsum pr c st m (ts ++ ts') i j = tsum pr c st m ts i j + tsum pr c st m ts' i j.
Proof.
  induction ts as [|t ts IH]; [change (tsum pr c st m ([] ++ ts') i j) with (tsum pr c st m ts' i j); change (tsum pr c st m [] i j) with 0; ring|].
  change (tsum pr c st m ((t :: ts) ++ ts') i j) with (cval pr c st m t i j + tsum pr c st m (ts ++ ts') i j). rewrite IH.
  change (tsum pr c st m (t :: ts) i j) with (cval pr c st m t i j + tsum pr c st m ts i j). ring.
Qed.
Lemma tsum_rev pr c st m ts i j : tsum pr c st m (rev ts) i j = tsum pr c st m ts i j.
Proof. induction ts as [|t ts IH]; [reflexivity|]. cbn [rev]. rewrite tsum_app, IH.
  change (tsum pr c st m [t] i j) with (cval pr c st m t i j + 0). change (tsum pr c st m (t :: ts) i j) with (cval pr c st m t i j + tsum pr c st m ts i j). ring. Qed.

Section Typed.
Variables (c : cfg) (ty : tys).
Hypothesis TO : tys_ok c ty.
Hypothesis ND : NoDup (map m_key (c_mods c)).

Definition slots_typed (st : state) : Prop := forall m, In m (c_mods c) -> mod_typed ty m st.

Lemma acc1_spec st m x g :
  slots_typed st -> In m (c_mods c) -> fits (m_layer m) x g ->
  (acc_ok c st (m, x, g) <-> stat_ok c st (m, x, g)) /\
   (acc1 c st (m, x, g) = st \/
   exists h, stat c st (m, x, g) = Ok h /\ waits c st m = true /\
   acc1 c st (m, x, g) = set_slots (upd (s_slots st) (m_key m) (fst (store_H (fst h) (snd h) (s_slots st (m_key m))))) st) /\
   (stat_ok c st (m, x, g) -> waits c st m = true -> exists h, stat c st (m, x, g) = Ok h /\
   acc1 c st (m, x, g) = set_slots (upd (s_slots st) (m_key m) (fst (store_H (fst h) (snd h) (s_slots st (m_key m))))) st).
Proof.
  intros TA Hm FT. pose proof (TO m Hm) as TOm. pose proof (TA m Hm) as T. unfold mod_typed in T. destruct (ty m) as [[[cK cC] dK] dC]. destruct TOm as (UK & UC & Ed).
  unfold acc_ok, acc1, stat_ok, stat. cbn [call_mod]. destruct (waits c st m) eqn:EW.
  2:{ split; [|split; [left; reflexivity|discriminate]]. split; [discriminate|auto]. }
  unfold accumulate_H_terms, sbind, getS, lift. destruct (get_group c (s_groups st) m) as [gr|]; cbn [bind].
  2:{ cbn [fst snd]. split; [|split; [left; reflexivity|]]; [split; [discriminate|intros H; destruct (H eq_refl); discriminate]|intros H; destruct (H eq_refl); discriminate]. }
  destruct (local_H gr (m_layer m) _ x g (s_slots st (m_key m))) as [[hk hc]|] eqn:EL.
  2:{ cbn [fst snd]. split; [|split; [left; reflexivity|]]; [split; [discriminate|intros H; destruct (H eq_refl); discriminate]|intros H; destruct (H eq_refl); discriminate]. }
  destruct (local_H_typed _ _ _ _ _ _ _ _ _ _ _ _ UK UC Ed T FT EL) as [VK VC].
  destruct (store_H_typed hk hc _ _ _ _ _ UK UC T VK VC) as (k1 & c1 & ES & _). unfold on_slots. cbn [fst snd]. rewrite ES. cbn [fst snd].
  split; [|split].
  - split; [intros _ _; eexists; reflexivity|reflexivity].
  - right. exists (hk, hc). cbn [fst snd]. rewrite ES. auto.
  - intros _ _. exists (hk, hc). cbn [fst snd]. rewrite ES. auto.
Qed.

(** A hook neither changes K and C nor other modules' entries. *)
Lemma acc1_keeps st t :
  slots_typed st -> call_ok c t ->
  slots_typed (acc1 c st t) /\ (forall m, In m (c_mods c) -> same_pre (s_slots st (m_key m)) (s_slots (acc1 c st t) (m_key m))).
Proof.
  destruct t as [[m x] g]. intros TA [Hm FT]. destruct (acc1_spec st m x g TA Hm FT) as (_ & [->|(h & ES & EW & ->)] & _); [split; [exact TA|intros; apply same_pre_refl]|].
  pose proof (TO m Hm) as TOm. pose proof (TA m Hm) as T. unfold mod_typed in T. destruct (ty m) as [[[cK cC] dK] dC] eqn:Et. destruct TOm as (UK & UC & Ed).
  unfold stat in ES. destruct (get_group c (s_groups st) m) as [gr|]; [|discriminate]. cbn [bind] in ES. destruct h as [hk hc].
  destruct (local_H_typed _ _ _ _ _ _ _ _ _ _ _ _ UK UC Ed T FT ES) as [VK VC].
  destruct (store_H_typed hk hc _ _ _ _ _ UK UC T VK VC) as (k1 & c1 & EH & V1 & V2 & _). cbn [fst snd]. rewrite EH. cbn [fst].
  split.
  - intros m' Hm'. unfold mod_typed. cbn [set_slots s_slots]. destruct (same_key (c_mods c) m' m ND Hm' Hm) as [D| <-].
    + rewrite upd_neq by congruence. exact (TA m' Hm').
    + rewrite upd_eq, Et. destruct T as [T1 T2 T3 T4 T5 T6]. constructor; cbn; try assumption; intros z Z; injection Z as <-; assumption.
  - intros m' Hm'. cbn [set_slots s_slots]. unfold upd. destruct (Nat.eqb_spec (m_key m') (m_key m)) as [E|]; [|apply same_pre_refl]. rewrite E. repeat split.
Qed.

Lemma stat_same st st' t :
  s_groups st' = s_groups st -> s_scales st' = s_scales st -> s_steps st' = s_steps st ->
  sl_K (s_slots st' (m_key (call_mod t))) = sl_K (s_slots st (m_key (call_mod t))) -> sl_C (s_slots st' (m_key (call_mod t))) = sl_C (s_slots st (m_key (call_mod t))) ->
  stat c st' t = stat c st t.
Proof.
  intros E1 E2 E3 E4 E5. destruct t as [[m x] g]. cbn [call_mod] in *. unfold stat. rewrite E1, E2, E3. destruct (get_group c (s_groups st) m); [|reflexivity]. cbn [bind].
  unfold local_H. rewrite E4, E5. reflexivity.
Qed.
Lemma stat_acc1 st t t' : slots_typed st -> call_ok c t -> call_ok c t' -> stat c (acc1 c st t) t' = stat c st t'.
Proof.
  intros TA O O'. destruct (acc1_keeps st t TA O) as [_ S]. destruct (acc1_slots c t st) as (s & E). rewrite E in *.
  destruct t' as [[m x] g]. destruct O' as [Hm _]. destruct (S m Hm) as (S1 & S2 & _).
  apply stat_same; first [reflexivity|assumption].
Qed.

Lemma accs_spec : forall ts st,
  slots_typed st -> Forall (call_ok c) ts ->
  (accs_ok c ts st <-> Forall (stat_ok c st) ts) /\
   (Forall (stat_ok c st) ts ->
   slots_typed (fold_left (acc1 c) ts st) /\
   forall m cK cC dK dC, In m (c_mods c) -> ty m = (cK, cC, dK, dC) ->
   let s := s_slots st (m_key m) in let s' := s_slots (fold_left (acc1 c) ts st) (m_key m) in
   same_pre s s' /\
   if existsb (here c st m) ts then
     exists hk hc, sl_HK s' = Some hk /\ sl_HC s' = Some hc /\ valid cK dK hk /\ valid cC dC hc /\
   eqm dK (ent hk) (fun i j => oldm (sl_HK s) i j + tsum fst c st m ts i j) /\
   eqm dC (ent hc) (fun i j => oldm (sl_HC s) i j + tsum snd c st m ts i j)
   else s' = s).
Proof.
  induction ts as [|t ts IH]; intros st TA O.
  - cbn. split; [split; [constructor|auto]|]. intros _. split; [exact TA|]. intros. split; [apply same_pre_refl|reflexivity].
  - apply Forall_cons_iff in O as [O1 O2]. cbn [accs_ok fold_left existsb]. set (st1 := acc1 c st t).
    destruct (acc1_keeps st t TA O1) as [TA1 SP1]. fold st1 in TA1, SP1. destruct (IH st1 TA1 O2) as [I1 I2]. clear IH.
    destruct (acc1_slots c t st) as (sl & Esl). fold st1 in Esl.
    assert (EW : forall m, waits c st1 m = waits c st m) by (intros; rewrite Esl; reflexivity).
    assert (ES : forall t', In t' ts -> stat c st1 t' = stat c st t').
    { intros t' Ht'. apply stat_acc1; [exact TA|exact O1|]. rewrite Forall_forall in O2. exact (O2 t' Ht'). }
    assert (EF : Forall (stat_ok c st1) ts <-> Forall (stat_ok c st) ts).
    { rewrite !Forall_forall. unfold stat_ok. split; intros H t' Ht'; specialize (H t' Ht'); rewrite ?EW, ?(ES t' Ht') in *; exact H. }
    assert (EC : forall pr m i j, tsum pr c st1 m ts i j = tsum pr c st m ts i j).
    { intros pr m i j. unfold tsum. clear - FL ES EW. induction ts as [|a ts IH]; [reflexivity|]. cbn [fold_right]. rewrite IH by (intros; apply ES; right; assumption).
      f_equal. unfold cval, here. rewrite EW, ES by (left; reflexivity). reflexivity. }
    assert (EX : forall m, existsb (here c st1 m) ts = existsb (here c st m) ts).
    { intros m. clear - EW. induction ts as [|a ts IH]; [reflexivity|]. cbn. unfold here at 1 3. rewrite EW, IH. reflexivity. }
    destruct t as [[mt x] g]. destruct O1 as [Hmt FT]. destruct (acc1_spec st mt x g TA Hmt FT) as (A1 & _ & A3).
    split; [rewrite I1, EF, Forall_cons_iff, A1; reflexivity|].
    intros SO. apply Forall_cons_iff in SO as [SO1 SO2]. destruct (I2 (proj2 EF SO2)) as [TA2 SPEC]. split; [exact TA2|].
    intros m cK cC dK dC Hm Et. specialize (SPEC m cK cC dK dC Hm Et). cbv zeta in *. rewrite EX in SPEC. destruct SPEC as [SP2 SPEC].
    split; [eapply same_pre_trans; [exact (SP1 m Hm)|exact SP2]|].
    unfold tsum. cbn [fold_right].
    assert (UNF : forall pr i j, fold_right (fun t r => cval pr c st m t i j + r) 0 ts = tsum pr c st1 m ts i j) by (intros; rewrite EC; reflexivity).
    destruct (here c st m (mt, x, g)) eqn:EH; cbn [orb].
    + unfold here in EH. cbn [call_mod] in EH. apply andb_true_iff in EH as [Ek EWm]. apply Nat.eqb_eq in Ek.
      destruct (same_key (c_mods c) m mt ND Hm Hmt) as [D|Emt]; [congruence|]. subst mt.
      destruct (A3 SO1 EWm) as ([hk hc] & Est & Eacc). fold st1 in Eacc.
      pose proof (TO m Hm) as TOm. pose proof (TA m Hm) as T. unfold mod_typed in T. rewrite Et in TOm, T. destruct TOm as (UK & UC & Ed).
      pose proof Est as Est'. unfold stat in Est'. destruct (get_group c (s_groups st) m) as [gr|]; [|discriminate]. cbn [bind] in Est'.
      destruct (local_H_typed _ _ _ _ _ _ _ _ _ _ _ _ UK UC Ed T FT Est') as [VK VC].
      destruct (store_H_typed hk hc _ _ _ _ _ UK UC T VK VC) as (k1 & c1 & ESt & V1 & V2 & H1 & H2). cbn [fst snd] in Eacc. rewrite ESt in Eacc. cbn [fst] in Eacc.
      assert (E1 : s_slots st1 (m_key m) = set_HC (Some c1) (set_HK (Some k1) (s_slots st (m_key m)))) by (rewrite Eacc; cbn [set_slots s_slots]; apply upd_eq).
      rewrite E1 in SPEC. cbn [sl_HK sl_HC set_HC set_HK oldm] in SPEC.
      assert (CV : forall pr i j, cval pr c st m (m, x, g) i j = ent (pr (hk, hc)) i j).
      { intros. unfold cval, here. cbn [call_mod]. rewrite Nat.eqb_refl, EWm, Est. reflexivity. }
      destruct (existsb (here c st m) ts) eqn:EB.
      * destruct SPEC as (hk2 & hc2 & B1 & B2 & B3 & B4 & B5 & B6). exists hk2, hc2. do 4 (split; [assumption|]).
        split; intros i j Hi Hj; [rewrite B5, H1 by assumption|rewrite B6, H2 by assumption]; rewrite UNF, CV; cbn [fst snd]; ring.
      * exists k1, c1. rewrite SPEC. cbn. do 4 (split; [first [reflexivity|assumption]|]).
        assert (Z : forall pr i j, fold_right (fun t r => cval pr c st m t i j + r) 0 ts = 0).
        { intros pr i j. clear - FL EB. induction ts as [|a ts IH]; [reflexivity|]. cbn in *. apply orb_false_iff in EB as [E1 E2]. unfold cval at 1. rewrite E1, IH by exact E2. ring. }
        split; intros i j Hi Hj; rewrite Z, CV; [rewrite H1 by assumption|rewrite H2 by assumption]; cbn [fst snd]; ring.
    + assert (E1 : s_slots st1 (m_key m) = s_slots st (m_key m)).
      { unfold here in EH. cbn [call_mod] in EH. destruct (bool_dec (waits c st mt) true) as [EWm|EWm].
        - rewrite EWm, andb_true_r in EH. apply Nat.eqb_neq in EH. destruct (A3 SO1 EWm) as (h & _ & Eacc). fold st1 in Eacc. rewrite Eacc. cbn [set_slots s_slots]. apply upd_neq. congruence.
        - unfold st1, acc1. destruct (waits c st mt); [congruence|reflexivity]. }
      rewrite E1 in SPEC. assert (CV : forall pr i j, cval pr c st m (mt, x, g) i j = 0) by (intros; unfold cval; rewrite EH; reflexivity).
      destruct (existsb (here c st m) ts); [|exact SPEC].
      destruct SPEC as (hk2 & hc2 & B1 & B2 & B3 & B4 & B5 & B6). exists hk2, hc2. do 4 (split; [assumption|]).
      split; intros i j Hi Hj; [rewrite B5 by assumption|rewrite B6 by assumption]; rewrite UNF, CV; ring.
Qed.
End Typed.

(** ** Micro-batches against the whole batch *)

Lemma fits_part l x g a b n rest :
  fits l x g -> shape x = n :: rest -> b <> O -> fits l (part x a b) (part g a b).
Proof.
  intros FT Sx N. destruct l as [d_in d_out bias|cv|]; [| |contradiction].
  - destruct FT as (n' & mid & Nb & S1 & S2). exists b, mid. split; [intros Z; apply Nat.eq_mul_0 in Z as [Z|Z]; [contradiction|]; apply Nb; rewrite Z; lia|].
    split; cbn; [rewrite S1|rewrite S2]; reflexivity.
  - destruct FT as (OK & n' & i1 & i2 & o1 & o2 & Nb & HO & S1 & S2). split; [exact OK|]. exists b, i1, i2, o1, o2. split; [exact N|]. split; [exact HO|].
    split; cbn; [rewrite S1|rewrite S2]; reflexivity.
Qed.

Lemma parts_sum (M : nat -> nat -> F) b : (forall a b b', M a (b + b')%nat = M a b + M (a + b)%nat b') ->
  forall k, sum k (fun j => M (j * b)%nat b) = M O (k * b)%nat.
Proof.
  intros H. assert (Z : forall a, M a O = 0).
  { intros a. pose proof (H a O O) as E. rewrite !Nat.add_0_r in E. replace (M a O) with (M a O + M a O - M a O) by ring. rewrite <- E. ring. }
  induction k as [|k IH]; [cbn; symmetry; apply Z|]. cbn [sum]. rewrite IH. replace (S k * b)%nat with (k * b + b)%nat by lia. rewrite H, Nat.add_0_l. ring.
Qed.

Section Compare.
Variables (c : cfg) (ty : tys) (k : nat) (st : state).
Hypothesis TO : tys_ok c ty.
Hypothesis ND : NoDup (map m_key (c_mods c)).
Hypothesis Nk : k <> O.
Hypothesis TA : slots_typed c ty st.
Hypothesis HL : forall m g, In m (c_mods c) -> get_group c (s_groups st) m = Ok g -> mean_loss g.

Lemma micro_mod j u : call_mod (micro_call j u) = call_mod (b_call u).
Proof. unfold micro_call. destruct (b_call u) as [[m x] g]. reflexivity. Qed.
Lemma here_micro m j u : here c st m (micro_call j u) = here c st m (b_call u).
Proof. unfold here. rewrite micro_mod. reflexivity. Qed.

Lemma bcall_call_ok u : bcall_ok c k u -> call_ok c (b_call u).
Proof. unfold bcall_ok, call_ok. destruct (b_call u) as [[m x] g]. intros (H1 & H2 & _). auto. Qed.
Lemma micro_call_ok u j : bcall_ok c k u -> call_ok c (micro_call j u).
Proof.
  unfold bcall_ok, call_ok, micro_call. destruct (b_call u) as [[m x] g]. intros (H1 & H2 & H3 & rest & H4). split; [exact H1|].
  eapply fits_part; eassumption.
Qed.

(** A call on the whole batch and its micro-batches. *)
Lemma micro_stats u m cK cC dK dC :
  bcall_ok c k u -> stat_ok c st (b_call u) -> In m (c_mods c) -> ty m = (cK, cC, dK, dC) ->
  (forall j, (j < k)%nat -> stat_ok c st (micro_call j u)) /\
  (forall i i', (i < dK)%nat -> (i' < dK)%nat -> sum k (fun j => cval fst c st m (micro_call j u) i i') = fofnat k * cval fst c st m (b_call u) i i') /\
  (forall i i', (i < dC)%nat -> (i' < dC)%nat -> sum k (fun j => cval snd c st m (micro_call j u) i i') = (1 / fofnat k) * cval snd c st m (b_call u) i i').
Proof.
  intros BO SO Hm Et. pose proof (fofnat_neq0 k Nk) as Fk.
  assert (Z : forall f : nat -> F, (forall j, f j = 0) -> forall q, sum k f = q * 0) by (intros f Hf q; rewrite sum_0 by auto; ring).
  destruct (waits c st (call_mod (b_call u))) eqn:EW.
  2:{ split; [intros j _ W; rewrite micro_mod, EW in W; discriminate|].
      assert (C0 : forall pr t i i', call_mod t = call_mod (b_call u) -> cval pr c st m t i i' = 0) by (intros pr t i i' Et'; unfold cval, here; rewrite Et', EW, andb_false_r; reflexivity).
      split; intros i i' _ _; rewrite (C0 _ (b_call u)) by reflexivity; apply Z; intros j; apply C0, micro_mod. }
  destruct (SO EW) as ([HK HC] & ES). unfold bcall_ok in BO. destruct u as [b [[mu x] g]]. cbn [b_call b_size call_mod] in *.
  destruct BO as (Hmu & FT & Nb & rest & Sx). destruct (ty mu) as [[[cK' cC'] dK'] dC'] eqn:Etu.
  pose proof (TO mu Hmu) as TOm. pose proof (TA mu Hmu) as T. unfold mod_typed in T. rewrite Etu in TOm, T. destruct TOm as (UK & UC & Ed).
  pose proof ES as EL. unfold stat in EL. destruct (get_group c (s_groups st) mu) as [gr|] eqn:Eg; [|discriminate]. cbn [bind] in EL.
  destruct (local_H_part _ _ _ _ _ _ _ _ _ _ _ _ _ _ UK UC Ed T FT Sx EL) as (MK & MC & AK & AC & PART).
  assert (WHOLE : eqm dK' (ent HK) (fun i j => MK O (k * b)%nat i j / fofnat (k * b)) /\ eqm dC' (ent HC) (fun i j => loss_weight (g_loss gr) (k * b) * MC O (k * b)%nat i j)).
  { destruct (PART O (k * b)%nat) as (hK & hC & E & _ & _ & R1 & R2); [lia|intros Q; apply Nat.eq_mul_0 in Q; tauto|].
    assert (Sg : exists rg, shape g = (k * b)%nat :: rg).
    { destruct (m_layer mu); [| |contradiction].
      - destruct FT as (n' & mid & _ & F1 & F2). rewrite Sx in F1. injection F1 as <- _. eauto.
      - destruct FT as (_ & n' & ? & ? & ? & ? & _ & _ & F1 & F2). rewrite Sx in F1. injection F1 as <- _. eauto. }
    destruct Sg as (rg & Sg). rewrite (part_whole x _ _ Sx), (part_whole g _ _ Sg), EL in E. injection E as <- <-. auto. }
  destruct WHOLE as [WK WC]. pose proof (fofnat_neq0 b Nb) as Fb.
  assert (EJ : forall j, (j < k)%nat -> exists hK hC, stat c st (micro_call j {| b_size := b; b_call := (mu, x, g) |}) = Ok (hK, hC) /\
     eqm dK' (ent hK) (fun i i' => MK (j * b)%nat b i i' / fofnat b) /\ eqm dC' (ent hC) (fun i i' => loss_weight (g_loss gr) b * MC (j * b)%nat b i i')).
  { intros j Hj. destruct (PART (j * b)%nat b) as (hK & hC & E & _ & _ & R1 & R2); [|exact Nb|].
    - replace (j * b + b)%nat with (S j * b)%nat by lia. apply Nat.mul_le_mono_r. lia.
    - exists hK, hC. unfold stat, micro_call. cbn [b_call b_size]. rewrite Eg. cbn [bind]. auto. }
  split; [intros j Hj _; destruct (EJ j Hj) as (hK & hC & E & _); eauto|].
  assert (CV : forall pr j i i', (j < k)%nat -> here c st m (mu, x, g) = true ->
     cval pr c st m (micro_call j {| b_size := b; b_call := (mu, x, g) |}) i i' = match stat c st (micro_call j {| b_size := b; b_call := (mu, x, g) |}) with Ok h => ent (pr h) i i' | Err _ => 0 end).
  { intros pr j i i' Hj Hh. unfold cval. rewrite here_micro. cbn [b_call]. rewrite Hh. reflexivity. }
  destruct (here c st m (mu, x, g)) eqn:EH.
  2:{ assert (C0 : forall pr j i i', cval pr c st m (micro_call j {| b_size := b; b_call := (mu, x, g) |}) i i' = 0) by (intros; unfold cval; rewrite here_micro; cbn [b_call]; rewrite EH; reflexivity).
      assert (C1 : forall pr i i', cval pr c st m (mu, x, g) i i' = 0) by (intros; unfold cval; rewrite EH; reflexivity).
      split; intros i i' _ _; rewrite C1; apply Z; intros j; apply C0. }
  unfold here in EH. cbn [call_mod] in EH. apply andb_true_iff in EH as [Ek _]. apply Nat.eqb_eq in Ek.
  destruct (same_key (c_mods c) m mu ND Hm Hmu) as [D|Emu]; [congruence|]. subst mu. rewrite Et in Etu. injection Etu as <- <- <- <-.
  assert (HH : here c st m (m, x, g) = true) by (unfold here; cbn [call_mod]; rewrite Nat.eqb_refl, EW; reflexivity).
  split; intros i i' Hi Hi'.
  - unfold cval at 2. rewrite HH, ES. cbn [fst]. rewrite WK by assumption.
    transitivity (sum k (fun j => (1 / fofnat b) * MK (j * b)%nat b i i')).
    { apply sum_ext. intros j Hj. rewrite CV by (first [reflexivity|assumption]). destruct (EJ j Hj) as (hK & hC & -> & R1 & _). cbn [fst]. rewrite R1 by assumption. field. exact Fb. }
    rewrite sum_scale_l, (parts_sum (fun a b => MK a b i i') b) by (intros; apply AK; assumption). rewrite fofnat_mul. field. auto.
  - unfold cval at 2. rewrite HH, ES. cbn [snd]. rewrite WC by assumption.
    transitivity (sum k (fun j => fofnat b * MC (j * b)%nat b i i')).
    { apply sum_ext. intros j Hj. rewrite CV by (first [reflexivity|assumption]). destruct (EJ j Hj) as (hK & hC & -> & _ & R2). cbn [snd]. rewrite R2 by assumption.
      destruct (HL m gr Hm Eg) as [-> | ->]; reflexivity. }
    rewrite sum_scale_l, (parts_sum (fun a b => MC a b i i') b) by (intros; apply AC; assumption).
    destruct (HL m gr Hm Eg) as [-> | ->]; cbn [loss_weight]; rewrite fofnat_mul; field; exact Fk.
Qed.

Definition micro_calls (us : list bcall) (js : list nat) : list call := flat_map (fun j => rev (map (micro_call j) us)) js.

Lemma tsum_micro pr m us i i' : forall n a,
  tsum pr c st m (micro_calls us (seq a n)) i i' = sum n (fun j => tsum pr c st m (map (micro_call (a + j)) us) i i').
Proof.
  induction n as [|n IH]; intros a; [reflexivity|]. cbn [seq micro_calls flat_map]. fold (micro_calls us (seq (S a) n)). rewrite tsum_app, tsum_rev, IH, sum_S_first.
  rewrite Nat.add_0_r. f_equal. apply sum_ext. intros j _. replace (S a + j)%nat with (a + S j)%nat by lia. reflexivity.
Qed.

Lemma micro_sums us m cK cC dK dC :
  Forall (bcall_ok c k) us -> Forall (fun u => stat_ok c st (b_call u)) us -> In m (c_mods c) -> ty m = (cK, cC, dK, dC) ->
  Forall (stat_ok c st) (micro_calls us (seq 0 k)) /\ Forall (call_ok c) (micro_calls us (seq 0 k)) /\
  existsb (here c st m) (micro_calls us (seq 0 k)) = existsb (here c st m) (rev (map b_call us)) /\
  (forall i i', (i < dK)%nat -> (i' < dK)%nat -> tsum fst c st m (micro_calls us (seq 0 k)) i i' = fofnat k * tsum fst c st m (rev (map b_call us)) i i') /\
  (forall i i', (i < dC)%nat -> (i' < dC)%nat -> tsum snd c st m (micro_calls us (seq 0 k)) i i' = (1 / fofnat k) * tsum snd c st m (rev (map b_call us)) i i').
Proof.
  intros BO SO Hm Et.
  assert (IM : forall t, In t (micro_calls us (seq 0 k)) -> exists j u, (j < k)%nat /\ In u us /\ t = micro_call j u).
  { intros t Ht. unfold micro_calls in Ht. apply in_flat_map in Ht as (j & Hj & Ht). apply in_seq in Hj. apply in_rev in Ht. apply in_map_iff in Ht as (u & <- & Hu). exists j, u. split; [lia|auto]. }
  rewrite Forall_forall in BO, SO.
  split; [|split; [|split]].
  - apply Forall_forall. intros t Ht. destruct (IM t Ht) as (j & u & Hj & Hu & ->). apply (micro_stats u m cK cC dK dC (BO u Hu) (SO u Hu) Hm Et). exact Hj.
  - apply Forall_forall. intros t Ht. destruct (IM t Ht) as (j & u & Hj & Hu & ->). apply micro_call_ok. exact (BO u Hu).
  - apply eq_true_iff_eq. rewrite !existsb_exists. split.
    + intros (t & Ht & H). destruct (IM t Ht) as (j & u & Hj & Hu & ->). rewrite here_micro in H. exists (b_call u). split; [|exact H]. apply in_rev. rewrite rev_involutive. apply in_map. exact Hu.
    + intros (t & Ht & H). apply in_rev in Ht. apply in_map_iff in Ht as (u & <- & Hu). exists (micro_call 0 u). rewrite here_micro. split; [|exact H].
      unfold micro_calls. apply in_flat_map. exists O. split; [apply in_seq; lia|]. apply in_rev. rewrite rev_involutive. apply in_map. exact Hu.
  - split; intros i i' Hi Hi'; rewrite tsum_micro, tsum_rev; cbn [plus].
    + clear IM. induction us as [|u us IH]; [cbn; rewrite sum_0 by reflexivity; ring|]. unfold tsum. cbn [map fold_right]. rewrite sum_plus.
      destruct (micro_stats u m cK cC dK dC (BO u (or_introl eq_refl)) (SO u (or_introl eq_refl)) Hm Et) as (_ & E & _). rewrite E by assumption.
      specialize (IH (fun u Hu => BO u (or_intror Hu)) (fun u Hu => SO u (or_intror Hu))). unfold tsum in IH. rewrite IH. ring.
    + clear IM. induction us as [|u us IH]; [cbn; rewrite sum_0 by reflexivity; ring|]. unfold tsum. cbn [map fold_right]. rewrite sum_plus.
      destruct (micro_stats u m cK cC dK dC (BO u (or_introl eq_refl)) (SO u (or_introl eq_refl)) Hm Et) as (_ & _ & E). rewrite E by assumption.
      specialize (IH (fun u Hu => BO u (or_intror Hu)) (fun u Hu => SO u (or_intror Hu))). unfold tsum in IH. rewrite IH. ring.
Qed.

(** The same dictionary entries, with [H_K] multiplied and [H_C] divided by the number of micro-batches. *)
Definition arel (s s' : slots) : Prop :=
  sl_K s' = sl_K s /\ sl_C s' = sl_C s /\ sl_mK s' = sl_mK s /\ sl_mC s' = sl_mC s /\
  sl_HK s' = option_map (fun h => mul_ h (fofnat k)) (sl_HK s) /\ sl_HC s' = option_map (fun h => mul_ h (1 / fofnat k)) (sl_HC s).

Lemma micro_arel us m :
  Forall (bcall_ok c k) us -> Forall (fun u => stat_ok c st (b_call u)) us -> In m (c_mods c) ->
  sl_HK (s_slots st (m_key m)) = None -> sl_HC (s_slots st (m_key m)) = None ->
  arel (s_slots (fold_left (acc1 c) (rev (map b_call us)) st) (m_key m)) (s_slots (fold_left (acc1 c) (micro_calls us (seq 0 k)) st) (m_key m)).
Proof.
  intros BO SO Hm N1 N2. destruct (ty m) as [[[cK cC] dK] dC] eqn:Et. destruct (micro_sums us m cK cC dK dC BO SO Hm Et) as (M1 & M2 & M3 & M4 & M5).
  assert (W1 : Forall (stat_ok c st) (rev (map b_call us))).
  { apply Forall_forall. intros t Ht. apply in_rev in Ht. apply in_map_iff in Ht as (u & <- & Hu). rewrite Forall_forall in SO. exact (SO u Hu). }
  assert (W2 : Forall (call_ok c) (rev (map b_call us))).
  { apply Forall_forall. intros t Ht. apply in_rev in Ht. apply in_map_iff in Ht as (u & <- & Hu). apply bcall_call_ok. rewrite Forall_forall in BO. exact (BO u Hu). }
  destruct (accs_spec c ty TO ND _ st TA W2) as [_ A]. destruct (A W1) as [_ A1]. destruct (A1 m cK cC dK dC Hm Et) as [A2 A3]. clear A A1.
  destruct (accs_spec c ty TO ND _ st TA M2) as [_ B]. destruct (B M1) as [_ B1]. destruct (B1 m cK cC dK dC Hm Et) as [B2 B3]. clear B B1. cbv zeta in *.
  rewrite M3 in B3. rewrite N1, N2 in *. cbn [oldm] in *.
  destruct (existsb (here c st m) (rev (map b_call us))).
  - destruct A3 as (hk & hc & E1 & E2 & V1 & V2 & R1 & R2). destruct B3 as (hk' & hc' & E1' & E2' & V1' & V2' & R1' & R2').
    destruct A2 as (P1 & P2 & P3 & P4), B2 as (Q1 & Q2 & Q3 & Q4). unfold arel. rewrite E1, E2, E1', E2', P1, P2, P3, P4, Q1, Q2, Q3, Q4. cbn [option_map].
    pose proof (TO m Hm) as TOm. rewrite Et in TOm. destruct TOm as ((OK & _) & (OC & _) & _).
    do 4 (split; [reflexivity|]). split; f_equal.
    + destruct (mul__ok cK dK hk (fofnat k) OK V1) as [Vm Rm]. apply (ent_inj cK dK); try assumption. intros i j Hi Hj. rewrite R1', Rm, R1, M4 by assumption. ring.
    + destruct (mul__ok cC dC hc (1 / fofnat k) OC V2) as [Vm Rm]. apply (ent_inj cC dC); try assumption. intros i j Hi Hj. rewrite R2', Rm, R2, M5 by assumption. ring.
  - rewrite A3, B3. unfold arel. rewrite N1, N2. repeat split.
Qed.
End Compare.
End Accum.
