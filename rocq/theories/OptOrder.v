(** Lemmas: a sequence of backward hooks adds the contributions of the single hooks to the statistics,
    in any order. *)

From Coq Require Import List Arith Lia Bool ZArith Field Permutation FunctionalExtensionality.
From Verif Require Import Scalar Res Tensor TensorFacts Structures StructSpec StructDense StructPattern StructOps StructAct OptimUtils Optimizer Construct OptState OptRun OptSpec OptFacts OptConsume OptTyped OptStep OptPre.
Import ListNotations.
Open Scope nat_scope.

Section Order.
Context {SC : Scalar} {FL : FieldLaws SC}.
Add Field Ffor : F_ft.
Open Scope F_scope.

Definition is_backward (e : event) : Prop := match e with EBackward _ _ => True | _ => False end.

(** What the hook run by the event contributes to the statistics of [m]: none if no hook is waiting, if
    it belongs to another module, or if it raises. *)
Definition contrib (c : cfg) (st : state) (m : modul) (e : event) : option (smat * smat) :=
  match e with
  | EBackward out gout =>
      match s_pend st out with
      | Some (m', x) =>
          if Nat.eqb (m_key m') (m_key m) then
            match get_group c (s_groups st) m with
            | Ok g =>
                match local_H g (m_layer m) (get_grad_scale (s_scales st) (Z.of_nat (s_steps st) - 1)) x gout (s_slots st (m_key m)) with
                | Ok h => Some h
                | Err _ => None
                end
            | Err _ => None
            end
          else None
      | None => None
      end
  | _ => None
  end.

Definition contribs (c : cfg) (st : state) (m : modul) (es : list event) : list (smat * smat) :=
  flat_map (fun e => match contrib c st m e with Some h => [h] | None => [] end) es.

(** Sum of the entries of a list of matrices. *)
Definition lsum {A} (f : A -> smat) (l : list A) (i j : nat) : F := fold_right (fun a r => ent (f a) i j + r) 0 l.

Lemma lsum_perm {A} (f : A -> smat) l l' i j : Permutation l l' -> lsum f l i j = lsum f l' i j.
Proof.
  induction 1; cbn [lsum fold_right] in *; try reflexivity.
  - unfold lsum in IHPermutation. rewrite IHPermutation. reflexivity.
  - ring.
  - congruence.
Qed.

Lemma backward_frame c out gout st :
  exists s, fst (event_op c (EBackward out gout) st) = set_slots s st.
Proof.
  cbn [event_op]. unfold sbind, getS. destruct (s_pend st out) as [[m x]|].
  - unfold accumulate_H_terms, sbind, getS, lift. destruct (get_group c (s_groups st) m) as [g|].
    + destruct (local_H _ _ _ _ _ _) as [[hk hc]|].
      * unfold on_slots. destruct (store_H hk hc (s_slots st (m_key m))) as [s' r]. eexists. reflexivity.
      * exists (s_slots st). destruct st. reflexivity.
    + exists (s_slots st). destruct st. reflexivity.
  - exists (s_slots st). destruct st. reflexivity.
Qed.

Lemma key_inj c m m' : NoDup (map m_key (c_mods c)) -> In m (c_mods c) -> In m' (c_mods c) -> m_key m' = m_key m -> m' = m.
Proof.
  generalize (c_mods c). induction l as [|a l IH]; intros ND H1 H2 E; [destruct H1|]. cbn in ND. apply NoDup_cons_iff in ND as [N ND].
  destruct H1 as [->|H1], H2 as [->|H2]; try reflexivity.
  - exfalso. apply N. rewrite <- E. apply in_map. exact H2.
  - exfalso. apply N. rewrite E. apply in_map. exact H1.
  - exact (IH ND H1 H2 E).
Qed.

Lemma backward_slots c ty out gout st m :
  NoDup (map m_key (c_mods c)) -> all_typed c ty st -> In m (c_mods c) ->
  s_slots (fst (event_op c (EBackward out gout) st)) (m_key m) =
  match contrib c st m (EBackward out gout) with
  | Some (hk, hc) => fst (store_H hk hc (s_slots st (m_key m)))
  | None => s_slots st (m_key m)
  end.
Proof.
  intros ND [TA PA] Hm. cbn [event_op contrib]. unfold sbind, getS. destruct (s_pend st out) as [[m' x]|] eqn:EP; [|reflexivity].
  unfold accumulate_H_terms, sbind, getS, lift. destruct (Nat.eqb_spec (m_key m') (m_key m)) as [E|N].
  - pose proof (key_inj c m m' ND Hm (PA _ _ _ EP) E) as ->.
    destruct (get_group c (s_groups st) m) as [g|]; [|reflexivity]. destruct (local_H _ _ _ _ _ _) as [[hk hc]|]; [|reflexivity].
    unfold on_slots. destruct (store_H hk hc (s_slots st (m_key m))) as [s' r] eqn:E2. cbn. unfold upd. rewrite Nat.eqb_refl. reflexivity.
  - destruct (get_group c (s_groups st) m') as [g|]; [|reflexivity]. destruct (local_H _ _ _ _ _ _) as [[hk hc]|]; [|reflexivity].
    unfold on_slots. destruct (store_H hk hc (s_slots st (m_key m'))) as [s' r] eqn:E2. cbn. unfold upd.
    destruct (Nat.eqb_spec (m_key m) (m_key m')); [congruence|reflexivity].
Qed.

Lemma local_H_KC g l prev x gout s s' :
  sl_K s' = sl_K s -> sl_C s' = sl_C s -> local_H g l prev x gout s' = local_H g l prev x gout s.
Proof. intros E1 E2. unfold local_H. rewrite E1, E2. reflexivity. Qed.

Lemma contrib_keep c ty out gout st m e :
  NoDup (map m_key (c_mods c)) -> all_typed c ty st -> In m (c_mods c) ->
  contrib c (fst (event_op c (EBackward out gout) st)) m e = contrib c st m e.
Proof.
  intros ND TA Hm. pose proof (backward_slots c ty out gout st m ND TA Hm) as BS. destruct (backward_frame c out gout st) as (s & E).
  assert (SK : sl_K (s_slots (fst (event_op c (EBackward out gout) st)) (m_key m)) = sl_K (s_slots st (m_key m)) /\
    sl_C (s_slots (fst (event_op c (EBackward out gout) st)) (m_key m)) = sl_C (s_slots st (m_key m))).
  { rewrite BS. destruct (contrib c st m (EBackward out gout)) as [[hk hc]|]; [|auto].
    destruct (store_H_same hk hc (s_slots st (m_key m))) as (H1 & H2 & _). auto. }
  rewrite E in *. cbn [s_slots set_slots] in SK. destruct SK as [S1 S2].
  destruct e; try reflexivity. cbn [contrib set_slots s_pend s_groups s_scales s_steps s_slots].
  destruct (s_pend st out0) as [[m' x]|]; [|reflexivity]. destruct (Nat.eqb (m_key m') (m_key m)); [|reflexivity].
  destruct (get_group c (s_groups st) m); [|reflexivity]. rewrite (local_H_KC _ _ _ _ _ _ _ S1 S2). reflexivity.
Qed.

Lemma contrib_valid c ty st m e cK cC dK dC h :
  tys_ok c ty -> all_typed c ty st -> NoDup (map m_key (c_mods c)) -> In m (c_mods c) -> ty m = (cK, cC, dK, dC) -> wf_event c st e ->
  contrib c st m e = Some h -> valid cK dK (fst h) /\ valid cC dC (snd h).
Proof.
  intros TO [TA PA] ND Hm Et W H. pose proof (TO m Hm) as TOm. pose proof (TA m Hm) as T. unfold mod_typed in T. rewrite Et in TOm, T.
  destruct TOm as (UK & UC & Ed). destruct e; try discriminate. cbn [contrib] in H. destruct (s_pend st out) as [[m' x]|] eqn:EP; [|discriminate].
  destruct (Nat.eqb_spec (m_key m') (m_key m)) as [E|N]; [|discriminate]. pose proof (key_inj c m m' ND Hm (PA _ _ _ EP) E) as ->.
  destruct (get_group c (s_groups st) m) as [gr|]; [|discriminate]. destruct (local_H _ _ _ _ _ _) as [[hk hc]|] eqn:EL; [|discriminate].
  injection H as <-. exact (local_H_typed _ _ _ _ _ _ _ _ _ _ _ _ UK UC Ed T (W m x EP) EL).
Qed.

(** Any number of backward hooks. *)
Lemma backwards c ty bs : forall st m cK cC dK dC,
  tys_ok c ty -> NoDup (map m_key (c_mods c)) -> all_typed c ty st -> wf_run c bs st -> Forall is_backward bs ->
  In m (c_mods c) -> ty m = (cK, cC, dK, dC) ->
  let s := s_slots st (m_key m) in let s' := s_slots (run c bs st) (m_key m) in let l := contribs c st m bs in
  same_pre s s' /\
  match l with
  | [] => s' = s
  | _ => exists hk hc, sl_HK s' = Some hk /\ sl_HC s' = Some hc /\ valid cK dK hk /\ valid cC dC hc /\
      eqm dK (ent hk) (fun i j => oldm (sl_HK s) i j + lsum fst l i j) /\
      eqm dC (ent hc) (fun i j => oldm (sl_HC s) i j + lsum snd l i j)
  end.
Proof.
  induction bs as [|e bs IH]; intros st m cK cC dK dC TO ND TA W B Hm Et; [cbn; split; [apply same_pre_refl|reflexivity]|].
  destruct W as [W1 W2]. apply Forall_cons_iff in B as [B1 B2]. destruct e as [|out gout| | | | |]; try destruct B1.
  cbv zeta. cbn [run]. set (st1 := fst (event_op c (EBackward out gout) st)) in *.
  pose proof (event_all_typed c ty _ st TO ND TA W1) as TA1. fold st1 in TA1.
  specialize (IH st1 m cK cC dK dC TO ND TA1 W2 B2 Hm Et). cbv zeta in IH.
  assert (EC : contribs c st1 m bs = contribs c st m bs).
  { unfold contribs. apply flat_map_ext. intros e. unfold st1. rewrite (contrib_keep c ty) by assumption. reflexivity. }
  rewrite EC in IH. pose proof (backward_slots c ty out gout st m ND TA Hm) as BS. fold st1 in BS.
  pose proof (TO m Hm) as TOm. pose proof (proj1 TA m Hm) as T. unfold mod_typed in T. rewrite Et in TOm, T. destruct TOm as (UK & UC & Ed).
  set (s := s_slots st (m_key m)) in *. cbn [contribs flat_map]. fold (contribs c st m bs).
  destruct (contrib c st m (EBackward out gout)) as [[hk hc]|] eqn:ECo.
  - destruct (contrib_valid c ty st m _ cK cC dK dC _ TO TA ND Hm Et W1 ECo) as [VK VC]. cbn [fst snd] in VK, VC.
    destruct (store_H_typed hk hc s _ _ _ _ UK UC T VK VC) as (k1 & c1 & ES & V1 & V2 & H1 & H2). rewrite ES in BS. cbn [fst] in BS.
    rewrite BS in IH. cbn [sl_HK sl_HC set_HC set_HK oldm] in IH. destruct IH as [SP IH].
    split; [eapply same_pre_trans; [|exact SP]; repeat split|]. cbn [app].
    destruct (contribs c st m bs) as [|p r].
    + exists k1, c1. rewrite IH. cbn. do 4 (split; [first [reflexivity|assumption]|]).
      split; intros i j Hi Hj; [rewrite H1|rewrite H2]; try assumption; ring.
    + destruct IH as (k2 & c2 & E1 & E2 & V3 & V4 & Q1 & Q2). exists k2, c2. do 4 (split; [assumption|]).
      split; intros i j Hi Hj; [rewrite Q1, H1 by assumption|rewrite Q2, H2 by assumption]; unfold lsum; cbn; ring.
  - rewrite BS in IH. exact IH.
Qed.

(** Other keys are not touched. *)
Lemma backwards_other c ty bs : forall st k,
  tys_ok c ty -> NoDup (map m_key (c_mods c)) -> all_typed c ty st -> wf_run c bs st -> Forall is_backward bs ->
  (forall m, In m (c_mods c) -> m_key m <> k) -> s_slots (run c bs st) k = s_slots st k.
Proof.
  induction bs as [|e bs IH]; intros st k TO ND TA W B Hk; [reflexivity|]. destruct W as [W1 W2]. apply Forall_cons_iff in B as [B1 B2].
  cbn [run]. rewrite (IH _ k TO ND (event_all_typed c ty _ st TO ND TA W1) W2 B2 Hk).
  destruct e as [|out gout| | | | |]; try destruct B1. cbn [event_op]. unfold sbind, getS. destruct (s_pend st out) as [[m x]|] eqn:EP; [|reflexivity].
  unfold accumulate_H_terms, sbind, getS, lift. destruct (get_group c (s_groups st) m) as [g|]; [|reflexivity].
  destruct (local_H _ _ _ _ _ _) as [[hk hc]|]; [|reflexivity]. unfold on_slots. destruct (store_H _ _ _). cbn. unfold upd.
  destruct (Nat.eqb_spec k (m_key m)) as [E|]; [|reflexivity]. exfalso. exact (Hk m (proj2 TA _ _ _ EP) (eq_sym E)).
Qed.

Lemma backwards_frame c bs : forall st, Forall is_backward bs -> run c bs st = set_slots (s_slots (run c bs st)) st.
Proof.
  induction bs as [|e bs IH]; intros st B; [destruct st; reflexivity|]. apply Forall_cons_iff in B as [B1 B2]. cbn [run].
  rewrite (IH _ B2). destruct e as [|out gout| | | | |]; try destruct B1. destruct (backward_frame c out gout st) as (s & ->). reflexivity.
Qed.

Lemma wf_backwards c bs : forall st, Forall is_backward bs -> wf_run c bs st <-> Forall (wf_event c st) bs.
Proof.
  induction bs as [|e bs IH]; intros st B; [split; constructor|]. apply Forall_cons_iff in B as [B1 B2]. cbn [wf_run]. rewrite Forall_cons_iff.
  rewrite (IH _ B2). destruct e as [|out gout| | | | |]; try destruct B1. destruct (backward_frame c out gout st) as (s & ->).
  assert (X : forall e, wf_event c (set_slots s st) e <-> wf_event c st e) by (intros []; reflexivity).
  rewrite !Forall_forall. split; intros [H1 H2]; (split; [exact H1|]); intros e He; apply X; apply H2; exact He.
Qed.

Lemma backwards_perm c ty bs bs' st :
  tys_ok c ty -> NoDup (map m_key (c_mods c)) -> all_typed c ty st -> wf_run c bs st -> Forall is_backward bs ->
  Permutation bs bs' -> run c bs st = run c bs' st.
Proof.
  intros TO ND TA W B P. assert (B' : Forall is_backward bs') by (eapply Permutation_Forall; eassumption).
  assert (W' : wf_run c bs' st) by (apply wf_backwards; [exact B'|]; eapply Permutation_Forall; [exact P|]; apply wf_backwards; assumption).
  rewrite (backwards_frame c bs st B), (backwards_frame c bs' st B'). f_equal. apply functional_extensionality. intros k.
  destruct (existsb (fun m => Nat.eqb (m_key m) k) (c_mods c)) eqn:Ek.
  - apply existsb_exists in Ek as (m & Hm & E). apply Nat.eqb_eq in E. subst k. destruct (ty m) as [[[cK cC] dK] dC] eqn:Et.
    pose proof (backwards c ty bs st m cK cC dK dC TO ND TA W B Hm Et) as (S1 & H1).
    pose proof (backwards c ty bs' st m cK cC dK dC TO ND TA W' B' Hm Et) as (S2 & H2).
    assert (PC : Permutation (contribs c st m bs) (contribs c st m bs')) by (apply Permutation_flat_map; exact P).
    destruct (contribs c st m bs) as [|p r] eqn:E1.
    + apply Permutation_nil in PC. rewrite PC in H2. rewrite H1, H2. reflexivity.
    + destruct (contribs c st m bs') as [|p' r'] eqn:E2; [symmetry in PC; apply Permutation_nil in PC; discriminate|].
      destruct H1 as (hk & hc & A1 & A2 & A3 & A4 & A5 & A6). destruct H2 as (hk' & hc' & A1' & A2' & A3' & A4' & A5' & A6').
      pose proof (TO m Hm) as TOm. rewrite Et in TOm. destruct TOm as ((OK & _) & (OC & _) & _).
      assert (hk = hk') as ->.
      { apply (ent_inj cK dK); try assumption. intros i j Hi Hj. rewrite A5, A5' by assumption. rewrite (lsum_perm fst _ _ i j PC). reflexivity. }
      assert (hc = hc') as ->.
      { apply (ent_inj cC dC); try assumption. intros i j Hi Hj. rewrite A6, A6' by assumption. rewrite (lsum_perm snd _ _ i j PC). reflexivity. }
      destruct S1 as (P1 & P2 & P3 & P4), S2 as (R1 & R2 & R3 & R4).
      destruct (s_slots (run c bs st) (m_key m)), (s_slots (run c bs' st) (m_key m)); cbn in *. congruence.
  - assert (N : forall m, In m (c_mods c) -> m_key m <> k).
    { intros m Hm E. enough (existsb (fun m => Nat.eqb (m_key m) k) (c_mods c) = true) by congruence. apply existsb_exists. exists m. split; [exact Hm|]. apply Nat.eqb_eq. exact E. }
    rewrite (backwards_other c ty bs), (backwards_other c ty bs') by assumption. reflexivity.
Qed.

(** [contrib] is what the hook stores when it finds no statistics of its module. *)
Definition without_H (st : state) (k : nat) : state := set_slots (upd (s_slots st) k (set_HC None (set_HK None (s_slots st k)))) st.

Lemma contrib_alone c T st out gout m h :
  NoDup (map m_key (c_mods c)) -> all_typed c T st -> In m (c_mods c) ->
  contrib c st m (EBackward out gout) = Some h ->
  let s' := s_slots (fst (event_op c (EBackward out gout) (without_H st (m_key m)))) (m_key m) in
  sl_HK s' = Some (fst h) /\ sl_HC s' = Some (snd h).
Proof.
  intros NK [TA PA] Hm H. cbn [contrib] in H. destruct (s_pend st out) as [[m' x]|] eqn:EP; [|discriminate].
  destruct (Nat.eqb_spec (m_key m') (m_key m)) as [E|N]; [|discriminate]. pose proof (key_inj c m m' NK Hm (PA _ _ _ EP) E) as ->.
  destruct (get_group c (s_groups st) m) as [gr|] eqn:Eg; [|discriminate]. destruct (local_H _ _ _ _ _ _) as [[hk hc]|] eqn:EL; [|discriminate].
  injection H as <-. unfold without_H. set (s0 := set_HC None (set_HK None (s_slots st (m_key m)))).
  assert (E0 : upd (s_slots st) (m_key m) s0 (m_key m) = s0) by (unfold upd; rewrite Nat.eqb_refl; reflexivity).
  set (f := upd (s_slots st) (m_key m) s0) in *. clearbody f.
  rewrite <- (local_H_KC _ _ _ _ _ (s_slots st (m_key m)) s0 eq_refl eq_refl) in EL.
  cbn [event_op]. unfold sbind, getS. cbn [set_slots s_pend]. rewrite EP.
  unfold accumulate_H_terms, sbind, getS, lift. cbn [set_slots s_groups s_scales s_steps s_slots]. rewrite Eg, E0, EL.
  unfold on_slots. cbn [set_slots s_slots]. rewrite E0. cbn. unfold upd. rewrite !Nat.eqb_refl. cbn. auto.
Qed.

End Order.
