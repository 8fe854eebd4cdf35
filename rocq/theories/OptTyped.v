(** Lemmas: classes and dimensions of the preconditioners, momenta and statistics are kept by every
    call, successful or not. *)

From Coq Require Import List Arith Lia Bool ZArith Field.
From Verif Require Import Scalar Res Tensor TensorFacts Structures StructSpec StructOps StructAct OptimUtils UtilsFacts ProofUtils Optimizer Construct OptState OptRun OptSpec OptFacts OptConsume.
Import ListNotations.

Section Typed.
Context {SC : Scalar} {FL : FieldLaws SC}.
Add Field FFty : F_ft.
Open Scope F_scope.

(** ** Shapes a layer sees *)

(** Input [x] and output gradient [g] of one pass through the layer, with a non-empty batch. *)
Definition fits (l : layer) (x g : tensor) : Prop :=
  match l with
  | Linear d_in d_out _ => exists b mid, (b * prod mid)%nat <> O /\ shape x = b :: mid ++ [d_in] /\ shape g = b :: mid ++ [d_out]
  | Conv2d c => conv_ok c /\ exists b i1 i2 o1 o2, b <> O /\ outs c i1 i2 o1 o2 /\ shape x = [b; cv_in c; i1; i2] /\ shape g = [b; cv_out c; o1; o2]
  | OtherModule => False
  end.

Lemma expand_even x c A : conv_ok c -> conv2d_process_input x c Expand = Ok A -> even_pad c.
Proof.
  intros OK H. unfold conv2d_process_input in H. apply bind_ok in H as (y & H & _). unfold extract_patches in H.
  destruct OK as (_ & _ & _ & _ & _ & _ & _ & _ & _ & _ & _ & HP). unfold even_pad, pad_front, pad_back.
  destruct (cv_pad c) eqn:Ep; try (split; reflexivity).
  destruct HP as [E1 E2]. rewrite E1, E2 in H.
  apply bind_ok in H as ([p1 p2] & H & _). apply bind_ok in H as ([l1 r1] & G1 & H). apply bind_ok in H as ([] & C1 & H).
  apply bind_ok in H as ([l2 r2] & G2 & H). apply bind_ok in H as ([] & C2 & H). clear H.
  unfold get_conv_paddings in G1, G2. cbn [negb Nat.eqb] in G1, G2. injection G1 as <- <-. injection G2 as <- <-.
  unfold check in C1, C2. split.
  - destruct (Nat.eqb _ _) eqn:E in C1; [apply Nat.eqb_eq; exact E|discriminate].
  - destruct (Nat.eqb _ _) eqn:E in C2; [apply Nat.eqb_eq; exact E|discriminate].
Qed.

Lemma process_shapes l x g la ka A B dK dC :
  fits l x g -> preconditioner_dims l = Ok (dK, dC) ->
  process_input x l ka = Ok A -> process_grad_output g l la ka = Ok B ->
  exists N, N <> O /\ shape A = [N; dK] /\ shape B = [N; dC].
Proof.
  intros F D EA EB.
  assert (Hk : ka = Expand \/ ka = Reduce) by (destruct ka; auto; discriminate).
  assert (Hl : la <> LossOther) by (intros ->; destruct ka; discriminate).
  destruct l as [d_in d_out bias|c|]; [| |contradiction].
  - destruct F as (b & mid & Nb & Sx & Sg).
    destruct (C39_linear_dims_lemma x g d_in d_out bias b mid la ka dK dC Sx Sg Hk Hl D) as (A' & B' & N & E1 & S1 & E2 & S2 & EN).
    rewrite EA in E1. rewrite EB in E2. injection E1 as <-. injection E2 as <-. exists N. split; [|auto].
    intros ->. destruct Hk as [-> | ->]; [congruence|]. apply Nb. rewrite <- EN. reflexivity.
  - destruct F as (OK & b & i1 & i2 & o1 & o2 & Nb & HO & Sx & Sg).
    assert (Hk' : (ka = Expand /\ even_pad c) \/ ka = Reduce).
    { destruct Hk as [-> | ->]; [|auto]. left. split; [reflexivity|]. exact (expand_even x c A OK EA). }
    destruct (C39_conv_dims_lemma x g c b i1 i2 o1 o2 la ka dK dC OK Sx HO Sg Hk' Hl D) as (A' & B' & N & E1 & S1 & E2 & S2 & EN).
    rewrite EA in E1. rewrite EB in E2. injection E1 as <-. injection E2 as <-. exists N. split; [|auto].
    destruct HO as [HO1 HO2]. apply out_size_pos in HO1, HO2.
    intros ->. destruct Hk as [-> | ->]; [|congruence]. symmetry in EN. apply Nat.eq_mul_0 in EN as [EN|EN]; [contradiction|].
    apply Nat.eq_mul_0 in EN as [EN|EN]; contradiction.
Qed.

(** ** One module *)

Record typed (cK cC : cls) (dK dC : nat) (s : slots) : Prop := mkTyped {
  ty_K : exists K, sl_K s = Some K /\ valid cK dK K;
  ty_C : exists C, sl_C s = Some C /\ valid cC dC C;
  ty_mK : forall m, sl_mK s = Some m -> valid cK dK m;
  ty_mC : forall m, sl_mC s = Some m -> valid cC dC m;
  ty_HK : forall m, sl_HK s = Some m -> valid cK dK m;
  ty_HC : forall m, sl_HC s = Some m -> valid cC dC m
}.

(** Momenta are neither created nor dropped. *)
Definition same_alloc (s t : slots) : Prop := (sl_mK t = None <-> sl_mK s = None) /\ (sl_mC t = None <-> sl_mC s = None).

Lemma same_alloc_refl s : same_alloc s s.
Proof. split; reflexivity. Qed.
Lemma same_alloc_trans a b c : same_alloc a b -> same_alloc b c -> same_alloc a c.
Proof. intros [A1 A2] [B1 B2]. split; [rewrite B1; exact A1|rewrite B2; exact A2]. Qed.

Lemma typed_dropHK cK cC dK dC s : typed cK cC dK dC s -> typed cK cC dK dC (set_HK None s).
Proof. intros [T1 T2 T3 T4 T5 T6]. constructor; cbn; auto. discriminate. Qed.
Lemma typed_dropHC cK cC dK dC s : typed cK cC dK dC s -> typed cK cC dK dC (set_HC None s).
Proof. intros [T1 T2 T3 T4 T5 T6]. constructor; cbn; auto. discriminate. Qed.

Ltac open_upd Eu := unfold update_slots; unfold sbind at 1, lift at 1; rewrite Eu; cbn [negb]; unfold sbind, entry, modify, lift.

Lemma update_slots_typed g l n scales s cK cC dK dC :
  usable cK dK -> usable cC dC -> preconditioner_dims l = Ok (dK, dC) -> typed cK cC dK dC s ->
  typed cK cC dK dC (fst (update_slots g l n scales s)) /\ same_alloc s (fst (update_slots g l n scales s)).
Proof.
  intros UK UC Ed T. pose proof UK as (OK & DK & HhK & NK). pose proof UC as (OC & DC & HhC & NC).
  pose proof T as [(K & EK & VK) (C & EC & VC) TmK TmC THK THC].
  assert (T2 : typed cK cC dK dC (set_HC None (set_HK None s))) by (apply typed_dropHC, typed_dropHK; exact T).
  assert (A2 : same_alloc s (set_HC None (set_HK None s))) by (split; reflexivity).
  set (P := fun r : slots * res unit => typed cK cC dK dC (fst r) /\ same_alloc s (fst r)).
  change (P (update_slots g l n scales s)).
  assert (P0 : forall r, P (s, r)) by (intros r; split; [exact T|apply same_alloc_refl]).
  assert (P1 : forall r, P (set_HK None s, r)) by (intros r; split; [apply typed_dropHK; exact T|split; reflexivity]).
  assert (P2 : forall r, P (set_HC None (set_HK None s), r)) by (intros r; split; assumption).
  destruct (is_update_step g n) as [[|]|] eqn:Eu.
  2:{ unfold update_slots, sbind at 1, lift. rewrite Eu. apply P0. }
  2:{ unfold update_slots, sbind at 1, lift. rewrite Eu. apply P0. }
  assert (Eu' : g_T g <> O /\ (n mod g_T g = 0)%nat).
  { unfold is_update_step in Eu. destruct (Nat.eqb_spec (g_T g) 0); [discriminate|]. split; [assumption|].
    destruct (Nat.eqb_spec (n mod g_T g) 0); [assumption|discriminate]. }
  destruct (sl_HK s) as [HK|] eqn:EHK.
  2:{ open_upd Eu. rewrite EK, EC, EHK. cbn [lookup]. apply P0. }
  destruct (sl_HC s) as [HC|] eqn:EHC.
  2:{ open_upd Eu. rewrite EK, EC, EHK. cbn [lookup set_HK sl_HC]. rewrite EHC. cbn [lookup]. apply P1. }
  destruct (get_grad_scale scales (Z.of_nat n - 1)) as [prev|] eqn:Ep.
  2:{ open_upd Eu. rewrite EK, EC, EHK. cbn [lookup set_HK sl_HC]. rewrite EHC. cbn [lookup]. rewrite Ep. apply P2. }
  destruct (get_grad_scale scales (Z.of_nat n)) as [cur|] eqn:Ec.
  2:{ open_upd Eu. rewrite EK, EC, EHK. cbn [lookup set_HK sl_HC]. rewrite EHC. cbn [lookup]. rewrite Ep, Ec. apply P2. }
  destruct (feqb_spec cur 0) as [[_ E0]|[N0 E0]].
  { open_upd Eu. unfold grad_unscaling. rewrite EK, EC, EHK. cbn [lookup set_HK sl_HC]. rewrite EHC. cbn [lookup]. rewrite Ep, Ec, E0. apply P2. }
  assert (R : moms_ready g cK cC dK dC s \/ g_alpha1 g <> 0 /\ (sl_mC s = None \/ exists mC, sl_mC s = Some mC /\ valid cC dC mC /\ sl_mK s = None)).
  { destruct (feqb_spec (g_alpha1 g) 0) as [[Ea _]|[Na _]]; [left; left; exact Ea|].
    destruct (sl_mC s) as [mC|] eqn:EmC; [|right; auto]. destruct (sl_mK s) as [mK|] eqn:EmK.
    - left. right. exists mK, mC. auto.
    - right. split; [exact Na|]. right. exists mC. auto. }
  destruct R as [R|[Na R]].
  - destruct (update_slots_act g l n scales s cK cC dK dC K C HK HC prev cur UK UC Ed (proj1 Eu') (proj2 Eu') EK EC EHK EHC VK VC (THK _ eq_refl) (THC _ eq_refl) R Ep Ec N0)
      as (K' & C' & mK' & mC' & bK & bC & E & VK' & VC' & VmK & VmC & _). rewrite E. unfold P. cbn [fst]. split.
    + constructor; cbn [sl_K sl_C sl_mK sl_mC sl_HK sl_HC]; try discriminate; try (eexists; split; [reflexivity|assumption]).
      * destruct (feqb (g_alpha1 g) 0); [exact TmK|]. intros m Hm. injection Hm as <-. exact VmK.
      * destruct (feqb (g_alpha1 g) 0); [exact TmC|]. intros m Hm. injection Hm as <-. exact VmC.
    + unfold same_alloc. cbn [sl_mK sl_mC]. destruct (feqb_spec (g_alpha1 g) 0) as [[_ ->]|[Na ->]]; [split; reflexivity|].
      destruct R as [R|(a & b & Ea & Eb & _)]; [contradiction|]. rewrite Ea, Eb. split; split; discriminate.
  - destruct (new_momenta_act g l K C HK HC (prev / (cur * cur)) cK cC dK dC UK UC Ed VK VC (THK _ eq_refl) (THC _ eq_refl))
      as (nK & nC & En & VnK & VnC & _).
    open_upd Eu. unfold grad_unscaling. rewrite EK, EC, EHK. cbn [lookup set_HK sl_HC]. rewrite EHC.
    cbn [lookup]. rewrite Ep, Ec, E0, En. unfold apply_momenta. rewrite (feqb_false _ _ Na).
    unfold sbind, entry, modify, lift. cbn [set_HC set_HK sl_mC sl_mK]. destruct R as [-> | (mC & -> & VmC & ->)]; cbn [lookup].
    + apply P2.
    + destruct (add__ok cC dC nC mC (g_alpha1 g) OC VnC VmC) as (r & -> & _). apply P2.
Qed.

Lemma local_H_typed g l prev x gout s cK cC dK dC HK HC :
  usable cK dK -> usable cC dC -> preconditioner_dims l = Ok (dK, dC) -> typed cK cC dK dC s -> fits l x gout ->
  local_H g l prev x gout s = Ok (HK, HC) -> valid cK dK HK /\ valid cC dC HC.
Proof.
  intros UK UC Ed T F H. pose proof UK as (OK & DK & HhK & NK). pose proof UC as (OC & DC & HhC & NC).
  destruct T as [(K & EK & VK) (C & EC & VC) _ _ _ _]. unfold local_H in H. rewrite EK, EC in H. cbn [lookup] in H.
  apply bind_ok in H as (A & EA & H). apply bind_ok in H as (B & EB & H). cbn [bind] in H.
  destruct (process_shapes l x gout _ _ A B dK dC F Ed EA EB) as (N & NN & SA & SB).
  assert (STA : shape (tr A) = [dK; N]) by (rewrite shape_tr, (rows_of _ _ _ SA), (cols_of _ _ _ _ SA); reflexivity).
  destruct (from_inner_some_act cK dK K (tr A) N OK DK VK STA) as (r & Er & Vr & _); [destruct cK; cbn; auto|].
  rewrite Er in H. cbn [bind] in H. apply bind_ok in H as (p & _ & H). apply bind_ok in H as (B' & EB' & H).
  assert (SB' : shape B' = [N; dC]).
  { destruct (feqb p 1); [injection EB' as <-; exact SB|]. destruct (fltb p 0); [discriminate|]. injection EB' as <-. exact SB. }
  assert (STB : shape (tr B') = [dC; N]) by (rewrite shape_tr, (rows_of _ _ _ SB'), (cols_of _ _ _ _ SB'); reflexivity).
  destruct (from_inner_some_act cC dC C (tr B') N OC DC VC STB) as (q & Eq & Vq & _); [destruct cC; cbn; auto|].
  rewrite Eq in H. cbn [bind] in H. injection H as <- <-. auto.
Qed.

Lemma store_H_typed HK HC s cK cC dK dC :
  usable cK dK -> usable cC dC -> typed cK cC dK dC s -> valid cK dK HK -> valid cC dC HC ->
  exists hk hc, store_H HK HC s = (set_HC (Some hc) (set_HK (Some hk) s), Ok tt) /\ valid cK dK hk /\ valid cC dC hc /\
    eqm dK (ent hk) (fun i j => oldm (sl_HK s) i j + ent HK i j) /\ eqm dC (ent hc) (fun i j => oldm (sl_HC s) i j + ent HC i j).
Proof.
  intros (OK & _) (OC & _) T VK VC. pose proof (ty_HK _ _ _ _ _ T) as THK. pose proof (ty_HC _ _ _ _ _ T) as THC.
  unfold store_H, sbind, getS, lift, modify.
  assert (A : exists hk, match sl_HK s with Some h => add_ h HK 1 | None => Ok HK end = Ok hk /\ valid cK dK hk /\
     eqm dK (ent hk) (fun i j => oldm (sl_HK s) i j + ent HK i j)).
  { destruct (sl_HK s) as [h|] eqn:E.
    - destruct (add__ok cK dK h HK 1 OK (THK h eq_refl) VK) as (r & Er & Vr & Hr). exists r. split; [exact Er|]. split; [exact Vr|].
      intros i j Hi Hj. rewrite Hr by assumption. cbn [oldm]. ring.
    - exists HK. split; [reflexivity|]. split; [exact VK|]. intros i j Hi Hj. cbn [oldm]. ring. }
  assert (B : exists hc, match sl_HC s with Some h => add_ h HC 1 | None => Ok HC end = Ok hc /\ valid cC dC hc /\
     eqm dC (ent hc) (fun i j => oldm (sl_HC s) i j + ent HC i j)).
  { destruct (sl_HC s) as [h|] eqn:E.
    - destruct (add__ok cC dC h HC 1 OC (THC h eq_refl) VC) as (r & Er & Vr & Hr). exists r. split; [exact Er|]. split; [exact Vr|].
      intros i j Hi Hj. rewrite Hr by assumption. cbn [oldm]. ring.
    - exists HC. split; [reflexivity|]. split; [exact VC|]. intros i j Hi Hj. cbn [oldm]. ring. }
  destruct A as (hk & -> & VA & HA). destruct B as (hc & EB & VB & HB). cbn [set_HK sl_HC]. rewrite EB.
  exists hk, hc. auto.
Qed.

(** ** All modules *)

(** Classes and dimensions of each module. *)
Definition tys : Type := modul -> cls * cls * nat * nat.
Definition tys_ok (c : cfg) (ty : tys) : Prop :=
  forall m, In m (c_mods c) -> let '(cK, cC, dK, dC) := ty m in
    usable cK dK /\ usable cC dC /\ preconditioner_dims (m_layer m) = Ok (dK, dC).
Definition mod_typed (ty : tys) (m : modul) (st : state) : Prop :=
  let '(cK, cC, dK, dC) := ty m in typed cK cC dK dC (s_slots st (m_key m)).
Definition all_typed (c : cfg) (ty : tys) (st : state) : Prop :=
  (forall m, In m (c_mods c) -> mod_typed ty m st) /\ (forall out m x, s_pend st out = Some (m, x) -> In m (c_mods c)).

(** Histories in which forward passes are passes of hooked modules and output gradients have the
    shape of the output. *)
Definition wf_event (c : cfg) (st : state) (e : event) : Prop :=
  match e with
  | EForward m x b out => In m (c_mods c)
  | EBackward out g => forall m x, s_pend st out = Some (m, x) -> fits (m_layer m) x g
  | _ => True
  end.
Fixpoint wf_run (c : cfg) (es : list event) (st : state) : Prop :=
  match es with [] => True | e :: es' => wf_event c st e /\ wf_run c es' (fst (event_op c e st)) end.

Definition keeps_ty (ty : tys) (m : modul) (s t : state) : Prop :=
  mod_typed ty m s -> mod_typed ty m t /\ same_alloc (s_slots s (m_key m)) (s_slots t (m_key m)).
Lemma keeps_ty_refl ty m s : keeps_ty ty m s s.
Proof. intros H. split; [exact H|apply same_alloc_refl]. Qed.
Lemma keeps_ty_trans ty m a b c : keeps_ty ty m a b -> keeps_ty ty m b c -> keeps_ty ty m a c.
Proof. intros H1 H2 T. destruct (H1 T) as [T1 A1]. destruct (H2 T1) as [T2 A2]. split; [exact T2|eapply same_alloc_trans; eassumption]. Qed.
Lemma same_slots_ty ty m s t : s_slots t (m_key m) = s_slots s (m_key m) -> keeps_ty ty m s t.
Proof. intros E T. unfold mod_typed in *. rewrite E. split; [exact T|apply same_alloc_refl]. Qed.

Lemma step_module_ty c ty m m' :
  tys_ok c ty -> In m (c_mods c) -> m_key m' <> m_key m \/ m' = m -> keeps (keeps_ty ty m) (step_module c m').
Proof.
  intros TO Hm [D| ->].
  - intros s. apply same_slots_ty. destruct (step_module_frame c m' s) as (_ & _ & _ & _ & _ & _ & _ & F & _). apply F. congruence.
  - unfold step_module. apply keeps_bind; [apply keeps_ty_trans| |].
    + intros s T. unfold update_preconditioner, sbind, getS, lift. destruct (get_group c (s_groups s) m) as [g|]; [|apply keeps_ty_refl; exact T].
      specialize (TO m Hm). unfold mod_typed in *. destruct (ty m) as [[[cK cC] dK] dC]. destruct TO as (UK & UC & Ed).
      unfold on_slots. destruct (update_slots_typed g (m_layer m) (s_steps s) (s_scales s) _ _ _ _ _ UK UC Ed T) as [T' A'].
      destruct (update_slots _ _ _ _ _) as [s' r]. cbn in *. rewrite upd_eq. auto.
    + intros _. assert (OP : forall p (f : SM pslot unit), keeps (keeps_ty ty m) (on_par p f)).
      { intros p f s0. unfold on_par. destruct (f (s_par s0 p)). cbn. apply same_slots_ty. reflexivity. }
      apply keeps_bind; [apply keeps_ty_trans| |].
      { unfold compute_natural_gradient. apply keeps_bind; [apply keeps_ty_trans|apply keeps_getS; apply keeps_ty_refl|]. intros s0.
        apply keeps_bind; [apply keeps_ty_trans|apply keeps_lift; apply keeps_ty_refl|]. intros N. apply keeps_lift. apply keeps_ty_refl. }
      intros [w b]. apply keeps_bind; [apply keeps_ty_trans|apply keeps_getS; apply keeps_ty_refl|]. intros s0.
      apply keeps_bind; [apply keeps_ty_trans|apply keeps_lift; apply keeps_ty_refl|]. intros g0.
      apply keeps_bind; [apply keeps_ty_trans|apply OP|]. intros _.
      destruct (m_bias m); [|apply keeps_ret; apply keeps_ty_refl]. destruct b; [apply OP|apply keeps_ret; apply keeps_ty_refl].
Qed.

Lemma event_ty c ty e st m :
  tys_ok c ty -> NoDup (map m_key (c_mods c)) -> all_typed c ty st -> wf_event c st e -> In m (c_mods c) ->
  keeps_ty ty m st (fst (event_op c e st)).
Proof.
  intros TO ND [TA PA] W Hm. destruct e; try (apply same_slots_ty; reflexivity).
  - apply same_slots_ty. destruct (forward_frame c m0 x grad_on out st) as (E & _). cbn [event_op]. rewrite E. reflexivity.
  - cbn [event_op]. unfold sbind, getS. destruct (s_pend st out) as [[m0 x]|] eqn:EP; [|apply keeps_ty_refl].
    destruct (same_key (c_mods c) m m0 ND Hm (PA _ _ _ EP)) as [D| ->].
    + apply same_slots_ty. destruct (accumulate_frame c m0 x g st) as (_ & _ & _ & _ & _ & _ & _ & F & _). apply F. congruence.
    + intros T. unfold accumulate_H_terms, sbind, getS, lift. destruct (get_group c (s_groups st) m) as [gr|]; [|apply keeps_ty_refl; exact T].
      destruct (local_H _ _ _ _ _ _) as [[HK HC]|] eqn:EL; [|apply keeps_ty_refl; exact T].
      specialize (TO m Hm). specialize (W m x EP). unfold mod_typed in *. destruct (ty m) as [[[cK cC] dK] dC]. destruct TO as (UK & UC & Ed).
      destruct (local_H_typed _ _ _ _ _ _ _ _ _ _ _ _ UK UC Ed T W EL) as [VK VC].
      destruct (store_H_typed HK HC _ _ _ _ _ UK UC T VK VC) as (hk & hc & ES & Vk & Vc & _).
      unfold on_slots. rewrite ES. cbn. rewrite upd_eq. split; [|split; reflexivity].
      destruct T as [T1 T2 T3 T4 T5 T6]. constructor; cbn; auto; intros h Hh; injection Hh as <-; assumption.
  - apply same_slots_ty. cbn [event_op]. destruct (set_current_grad_scale s st) as [st' r] eqn:E.
    apply set_current_grad_scale_frame in E as ((_ & E & _) & _). cbn [fst]. rewrite E. reflexivity.
  - cbn [event_op]. destruct (step c closure st) as [st' r] eqn:E. cbn [fst].
    apply step_cases in E as [(_ & -> & _)|(_ & st1 & [(e0 & E & -> & _)|(E & D)])]; [apply keeps_ty_refl| |].
    + apply ensure_scale_frame in E as ((_ & E & _) & _). apply same_slots_ty. rewrite E. reflexivity.
    + apply ensure_scale_frame in E as ((_ & E & _) & _).
      assert (K1 : keeps_ty ty m st st1) by (apply same_slots_ty; rewrite E; reflexivity).
      destruct D as [(_ & _ & ->)|(_ & st2 & r2 & ES & D)].
      * eapply keeps_ty_trans; [exact K1|]. intros T. unfold finish, mod_typed in *. cbn. destruct (existsb _ _); cbn.
        -- destruct (ty m) as [[[cK cC] dK] dC]. split; [apply typed_dropHC, typed_dropHK; exact T|split; reflexivity].
        -- split; [exact T|apply same_alloc_refl].
      * assert (K2 : keeps_ty ty m st1 st2).
        { apply (keeps_at _ (step_all c) st1 st2 r2); [|exact ES]. unfold step_all. apply keeps_forS; [apply keeps_ty_refl|apply keeps_ty_trans|].
          intros m' Hm'. apply step_module_ty; [exact TO|exact Hm|]. apply (same_key (c_mods c)); assumption. }
        destruct r2; destruct D as [_ ->]; (eapply keeps_ty_trans; [exact K1|]); [|exact K2].
        eapply keeps_ty_trans; [exact K2|]. apply same_slots_ty. reflexivity.
Qed.

Lemma event_all_typed c ty e st :
  tys_ok c ty -> NoDup (map m_key (c_mods c)) -> all_typed c ty st -> wf_event c st e -> all_typed c ty (fst (event_op c e st)).
Proof.
  intros TO ND TA W. split.
  - intros m Hm. apply (event_ty c ty e st m TO ND TA W Hm). apply TA. exact Hm.
  - intros out m x H. destruct (pend_step c e st out) as [E|(m' & x' & b & ->)].
    + rewrite E in H. exact (proj2 TA _ _ _ H).
    + cbn [event_op] in H. destruct (forward_frame c m' x' b out st) as (_ & _ & [F|(F & _)]); rewrite F in H; [discriminate|].
      injection H as <- <-. exact W.
Qed.

Lemma run_all_typed c ty es st :
  tys_ok c ty -> NoDup (map m_key (c_mods c)) -> all_typed c ty st -> wf_run c es st ->
  all_typed c ty (run c es st) /\
  forall m, In m (c_mods c) -> same_alloc (s_slots st (m_key m)) (s_slots (run c es st) (m_key m)).
Proof.
  intros TO ND. revert st. induction es as [|e es IH]; intros st TA W.
  - split; [exact TA|]. intros. apply same_alloc_refl.
  - destruct W as [W1 W2]. cbn [run]. destruct (IH _ (event_all_typed c ty e st TO ND TA W1) W2) as [R1 R2].
    split; [exact R1|]. intros m Hm. eapply same_alloc_trans; [|apply R2; exact Hm].
    apply (event_ty c ty e st m TO ND TA W1 Hm). apply TA. exact Hm.
Qed.

(** ** The constructor *)

Lemma fold_buffers c gs ms d d' :
  NoDup (map m_key ms) ->
  foldM (fun d m => let* s := init_slots c gs m in Ok (upd d (m_key m) s)) d ms = Ok d' ->
  (forall m, In m ms -> exists s, init_slots c gs m = Ok s /\ d' (m_key m) = s) /\
  (forall k, ~ In k (map m_key ms) -> d' k = d k).
Proof.
  revert d. induction ms as [|m ms IH]; intros d ND H.
  - injection H as <-. split; [intros m []|reflexivity].
  - cbn [foldM] in H. apply bind_ok in H as (d1 & H1 & H). apply bind_ok in H1 as (s & Es & H1). injection H1 as <-.
    cbn in ND. apply NoDup_cons_iff in ND as [N1 N2]. destruct (IH _ N2 H) as [I1 I2]. split.
    + intros m' [<-|Hm']; [|apply I1; exact Hm']. exists s. split; [exact Es|]. rewrite I2 by exact N1. apply upd_eq.
    + intros k Hk. cbn in Hk. rewrite I2 by tauto. apply upd_neq. intros ->. tauto.
Qed.

Lemma ctor_slots a par hooks hooks' c st :
  ctor a par hooks = (hooks', Ok (c, st)) -> NoDup (map m_key (c_mods c)) ->
  forall m, In m (c_mods c) -> init_slots c (s_groups st) m = Ok (s_slots st (m_key m)).
Proof.
  intros H ND m Hm. unfold ctor in H. apply sbind_ok in H as (h1 & [] & H1 & H). apply sbind_ok in H as (h2 & [] & H2 & H).
  apply sbind_ok in H as (h3 & gs0 & H3 & H). apply sbind_ok in H as (h4 & [gs p2g] & H4 & H). cbv zeta in H.
  apply sbind_ok in H as (h5 & [] & H5 & H). apply sbind_ok in H as (h6 & d & H6 & H). unfold ret in H. injection H as <- <- <-.
  unfold lift in H6. injection H6 as <- H6. unfold initialize_buffers in H6. cbn [c_mods s_groups s_slots] in *.
  destruct (fold_buffers _ _ _ _ _ ND H6) as [I1 _]. destruct (I1 m Hm) as (s & E & ->). exact E.
Qed.

(** The classes given by the module's group at construction. *)
Definition ctor_ty (c : cfg) (gs : list group) : tys :=
  fun m => match get_group c gs m, preconditioner_dims (m_layer m) with
           | Ok g, Ok (dK, dC) => match g_structs g with (Some cK, Some cC) => (cK, cC, dK, dC) | _ => (CDense, CDense, dK, dC) end
           | _, _ => (CDense, CDense, O, O)
           end.

(** All structures are among the six supported ones and all layers have positive sizes. *)
Definition structs_ok (gs : list group) : Prop :=
  forall g cK cC, In g gs -> g_structs g = (Some cK, Some cC) -> In cK supported_structures /\ In cC supported_structures.
Definition layers_ok (c : cfg) : Prop :=
  forall m dK dC, In m (c_mods c) -> preconditioner_dims (m_layer m) = Ok (dK, dC) -> dK <> O /\ dC <> O.

Lemma get_group_In c gs m g : get_group c gs m = Ok g -> In g gs.
Proof.
  unfold get_group. destruct (m_layer m); try discriminate; destruct (c_p2g c (m_weight m)) as [i|]; try discriminate;
    destruct (nth_error gs i) eqn:E; try discriminate; intros H; injection H as <-; eapply nth_error_In; exact E.
Qed.

Lemma ctor_typed a par hooks hooks' c st :
  ctor a par hooks = (hooks', Ok (c, st)) -> NoDup (map m_key (c_mods c)) -> structs_ok (s_groups st) -> layers_ok c ->
  tys_ok c (ctor_ty c (s_groups st)) /\ all_typed c (ctor_ty c (s_groups st)) st /\
  forall m, In m (c_mods c) -> exists g cK cC dK dC K C,
    get_group c (s_groups st) m = Ok g /\ g_structs g = (Some cK, Some cC) /\
    preconditioner_dims (m_layer m) = Ok (dK, dC) /\ ctor_ty c (s_groups st) m = (cK, cC, dK, dC) /\
    sl_K (s_slots st (m_key m)) = Some K /\ eqm dK (ent K) ident /\
    sl_C (s_slots st (m_key m)) = Some C /\ eqm dC (ent C) ident /\
    (if feqb (g_alpha1 g) 0 then sl_mK (s_slots st (m_key m)) = None /\ sl_mC (s_slots st (m_key m)) = None
     else exists mK mC, sl_mK (s_slots st (m_key m)) = Some mK /\ sl_mC (s_slots st (m_key m)) = Some mC /\
            eqm dK (ent mK) (fun _ _ => 0) /\ eqm dC (ent mC) (fun _ _ => 0)) /\
    sl_HK (s_slots st (m_key m)) = None /\ sl_HC (s_slots st (m_key m)) = None.
Proof.
  intros H ND SO LO. pose proof (ctor_slots _ _ _ _ _ _ H ND) as CS. apply ctor_state in H as (_ & _ & _ & _ & HP & _).
  assert (M : forall m, In m (c_mods c) -> exists g cK cC dK dC K C,
    get_group c (s_groups st) m = Ok g /\ g_structs g = (Some cK, Some cC) /\
    preconditioner_dims (m_layer m) = Ok (dK, dC) /\ ctor_ty c (s_groups st) m = (cK, cC, dK, dC) /\
    usable cK dK /\ usable cC dC /\ typed cK cC dK dC (s_slots st (m_key m)) /\
    sl_K (s_slots st (m_key m)) = Some K /\ eqm dK (ent K) ident /\
    sl_C (s_slots st (m_key m)) = Some C /\ eqm dC (ent C) ident /\
    (if feqb (g_alpha1 g) 0 then sl_mK (s_slots st (m_key m)) = None /\ sl_mC (s_slots st (m_key m)) = None
     else exists mK mC, sl_mK (s_slots st (m_key m)) = Some mK /\ sl_mC (s_slots st (m_key m)) = Some mC /\
            eqm dK (ent mK) (fun _ _ => 0) /\ eqm dC (ent mC) (fun _ _ => 0)) /\
    sl_HK (s_slots st (m_key m)) = None /\ sl_HC (s_slots st (m_key m)) = None).
  { intros m Hm. specialize (CS m Hm). unfold init_slots in CS. apply bind_ok in CS as ([dK dC] & Ed & CS).
    apply bind_ok in CS as (g & Eg & CS). apply bind_ok in CS as (cK & EK & CS). apply bind_ok in CS as (cC & EC & CS).
    assert (Es : g_structs g = (Some cK, Some cC)).
    { destruct (g_structs g) as [[x|] [y|]]; cbn in EK, EC; congruence. }
    destruct (LO m dK dC Hm Ed) as [NK NC]. destruct (SO g cK cC (get_group_In _ _ _ _ Eg) Es) as [IK IC].
    pose proof (supported_usable cK dK IK NK) as UK. pose proof (supported_usable cC dC IC NC) as UC.
    pose proof UK as (OK & DK & _). pose proof UC as (OC & DC & _).
    destruct (eye_ok cK dK OK DK) as (K & EeK & VK & HK). destruct (eye_ok cC dC OC DC) as (C & EeC & VC & HC).
    destruct (zeros_ok cK dK OK (or_introl DK)) as (zK & EzK & VzK & HzK). destruct (zeros_ok cC dC OC (or_introl DC)) as (zC & EzC & VzC & HzC).
    rewrite EeK, EeC, EzK, EzC in CS. cbn [bind] in CS.
    exists g, cK, cC, dK, dC, K, C. split; [exact Eg|]. split; [exact Es|]. split; [exact Ed|].
    split; [unfold ctor_ty; rewrite Eg, Ed, Es; reflexivity|]. split; [exact UK|]. split; [exact UC|].
    destruct (feqb (g_alpha1 g) 0).
    - injection CS as <-. cbn. split; [constructor; cbn; try discriminate; eexists; split; try reflexivity; assumption|].
      repeat split; assumption.
    - injection CS as <-. cbn. split.
      { constructor; cbn; try discriminate; try (eexists; split; [reflexivity|assumption]); intros m0 Hm0; injection Hm0 as <-; assumption. }
      split; [reflexivity|]. split; [exact HK|]. split; [reflexivity|]. split; [exact HC|]. split; [|split; reflexivity].
      exists zK, zC. repeat split; assumption. }
  split; [|split].
  - intros m Hm. destruct (M m Hm) as (g & cK & cC & dK & dC & K & C & _ & _ & Ed & -> & UK & UC & _). auto.
  - split.
    + intros m Hm. unfold mod_typed. destruct (M m Hm) as (g & cK & cC & dK & dC & K & C & _ & _ & Ed & -> & UK & UC & T & _). exact T.
    + intros out m x E. rewrite HP in E. discriminate.
  - intros m Hm. destruct (M m Hm) as (g & cK & cC & dK & dC & K & C & M1 & M2 & M3 & M4 & _ & _ & _ & M5).
    exists g, cK, cC, dK, dC, K, C. auto.
Qed.

(** ** The setting of the property theorems *)

(** A constructed optimizer: the names of the model's modules are distinct (they are in
    [named_modules()]), all layers have positive sizes, no two hooked layers share a parameter, and
    the structures are among the supported ones. *)
Definition setting (a : args) (par : nat -> pslot) (c : cfg) (st0 : state) : Prop :=
  (exists hooks hooks', ctor a par hooks = (hooks', Ok (c, st0))) /\
  NoDup (map (fun n => m_key (n_mod n)) (a_model a)) /\
  (forall n dK dC, In n (a_model a) -> preconditioner_dims (m_layer (n_mod n)) = Ok (dK, dC) -> dK <> O /\ dC <> O) /\
  NoDup (flat_map mod_params (c_mods c)) /\ structs_ok (s_groups st0).

Lemma nodup_filter_map {A} (f : A -> nat) p l : NoDup (map f l) -> NoDup (map f (filter p l)).
Proof.
  induction l as [|x l IH]; intros N; [constructor|]. cbn in N. apply NoDup_cons_iff in N as [N1 N2]. cbn.
  destruct (p x); [|apply IH; exact N2]. cbn. constructor; [|apply IH; exact N2]. intros I. apply N1.
  apply in_map_iff in I as (y & E & Hy). apply filter_In in Hy as [Hy _]. rewrite <- E. apply in_map. exact Hy.
Qed.

Lemma ctor_mods a par hooks hooks' c st :
  ctor a par hooks = (hooks', Ok (c, st)) -> c_mods c = hooked (a_model a) (s_groups st).
Proof.
  intros H. unfold ctor in H. apply sbind_ok in H as (h1 & [] & H1 & H). apply sbind_ok in H as (h2 & [] & H2 & H).
  apply sbind_ok in H as (h3 & gs0 & H3 & H). apply sbind_ok in H as (h4 & [gs p2g] & H4 & H). cbv zeta in H.
  apply sbind_ok in H as (h5 & [] & H5 & H). apply sbind_ok in H as (h6 & d & H6 & H). unfold ret in H. injection H as <- <- <-.
  reflexivity.
Qed.

Lemma setting_ok a par c st0 :
  setting a par c st0 -> cfg_ok c /\ layers_ok c.
Proof.
  intros ((h & h' & E) & N & L & NP & SO). pose proof (ctor_mods _ _ _ _ _ _ E) as M. split; [split; [|exact NP]|].
  - rewrite M. unfold hooked. rewrite map_map. apply nodup_filter_map. exact N.
  - intros m dK dC Hm Hd. rewrite M in Hm. unfold hooked in Hm. apply in_map_iff in Hm as (n & <- & Hn). apply filter_In in Hn as [Hn _].
    exact (L n dK dC Hn Hd).
Qed.

Lemma setting_typed a par c st0 es :
  setting a par c st0 -> wf_run c es st0 ->
  tys_ok c (ctor_ty c (s_groups st0)) /\ all_typed c (ctor_ty c (s_groups st0)) (run c es st0).
Proof.
  intros S W. pose proof (setting_ok _ _ _ _ S) as [[NK NP] L]. destruct S as ((h & h' & E) & _ & _ & _ & SO).
  destruct (ctor_typed _ _ _ _ _ _ E NK SO L) as (TO & TA & _). split; [exact TO|].
  apply (run_all_typed c _ es st0 TO NK TA W).
Qed.

(** The class and dimensions of a module. *)
Definition has_ty (c : cfg) (st0 : state) (m : modul) (cK cC : cls) (dK dC : nat) : Prop :=
  exists g, get_group c (s_groups st0) m = Ok g /\ g_structs g = (Some cK, Some cC) /\ preconditioner_dims (m_layer m) = Ok (dK, dC).
Lemma has_ty_ctor c st0 m cK cC dK dC : has_ty c st0 m cK cC dK dC -> ctor_ty c (s_groups st0) m = (cK, cC, dK, dC).
Proof. intros (g & E1 & E2 & E3). unfold ctor_ty. rewrite E1, E3, E2. reflexivity. Qed.

(** Decision procedures for the examples. *)
Definition layer_eq_dec (a b : layer) : {a = b} + {a <> b}.
Proof. repeat decide equality. Defined.
Definition modul_eq_dec (a b : modul) : {a = b} + {a <> b}.
Proof. repeat decide equality. Defined.
Definition fitsb (l : layer) (x g : tensor) : bool :=
  match l, shape x, shape g with
  | Linear d_in d_out _, [b; i], [b'; o] => negb (Nat.eqb b 0) && Nat.eqb b b' && Nat.eqb i d_in && Nat.eqb o d_out
  | _, _, _ => false
  end.
Lemma fitsb_fits l x g : fitsb l x g = true -> fits l x g.
Proof.
  unfold fitsb, fits. destruct l; try discriminate.
  destruct (shape x) as [|b [|i [|? ?]]]; try discriminate. destruct (shape g) as [|b' [|o [|? ?]]]; try discriminate.
  intros H. apply andb_true_iff in H as [H H4]. apply andb_true_iff in H as [H H3]. apply andb_true_iff in H as [H1 H2].
  apply Nat.eqb_eq in H2, H3, H4. subst. destruct (Nat.eqb_spec b' 0); [discriminate|]. exists b', []. cbn. repeat split; lia.
Qed.
Definition wf_eventb (c : cfg) (st : state) (e : event) : bool :=
  match e with
  | EForward m x b out => existsb (fun m' => if modul_eq_dec m m' then true else false) (c_mods c)
  | EBackward out g => match s_pend st out with Some (m, x) => fitsb (m_layer m) x g | None => true end
  | _ => true
  end.
Fixpoint wf_runb (c : cfg) (es : list event) (st : state) : bool :=
  match es with [] => true | e :: es' => wf_eventb c st e && wf_runb c es' (fst (event_op c e st)) end.
Lemma wf_runb_ok c es st : wf_runb c es st = true -> wf_run c es st.
Proof.
  revert st. induction es as [|e es IH]; intros st H; [exact I|]. cbn [wf_runb wf_run] in *. apply andb_true_iff in H as [H1 H2].
  split; [|apply IH; exact H2]. unfold wf_eventb in H1. destruct e; try exact I.
  - apply existsb_exists in H1 as (m' & Hm & E). destruct (modul_eq_dec m m') as [->|]; [exact Hm|discriminate].
  - intros m x E. rewrite E in H1. apply fitsb_fits. exact H1.
Qed.

End Typed.
