(** Lemmas: optimizers on several processes in lock step with each other and, if each gets a part of the
    batch, with a single optimizer on the whole batch. *)

From Coq Require Import List Arith Lia Bool ZArith Field.
From Verif Require Import Scalar Res Tensor TensorFacts Structures StructSpec StructDense StructPattern StructOps StructMul StructAct OptimUtils UtilsFacts ProofUtils Optimizer Construct OptState OptRun OptSpec OptFacts OptDir OptTyped OptPre OptStep ScaleInv Batch Accum Dist DistSpec DistFacts DistStat.
Import ListNotations.

Section Run.
Context {SC : Scalar} {FL : FieldLaws SC} {SQ : SqrtLaws SC}.
Add Field FFdr : F_ft.
Open Scope F_scope.

(** Gradients and waiting hooks are left alone. *)
Definition hands_off (s t : state) : Prop :=
  (forall p, p_grad (s_par t p) = p_grad (s_par s p)) /\ s_pend t = s_pend s /\ s_groups t = s_groups s.

(** Gradients have the shapes of the parameters. *)
Definition grads_fit (m : modul) (st : state) : Prop :=
  (forall g, p_grad (s_par st (m_weight m)) = Some g -> shape g = weight_shape (m_layer m)) /\
  (forall b g, m_bias m = Some b -> p_grad (s_par st b) = Some g -> shape g = [n_out (m_layer m)]).

Section Sim.
Variables (R : nat) (c : cfg) (ty : tys).
Hypothesis NR : R <> O.
Hypothesis TO : tys_ok c ty.
Hypothesis ND : NoDup (map m_key (c_mods c)).
Hypothesis FLAT : forall m, In m (c_mods c) -> let '(cK, cC, _, _) := ty m in In cK supported_structures /\ In cC supported_structures.
Hypothesis BO : forall m, In m (c_mods c) -> bias_ok m.

(** [E]: the processes work on parts of the reference's batches. *)
Variable E : Prop.
(** The last forward pass for every output, on every process and in the reference. *)
Variables (L : nat -> nat -> option (modul * tensor)) (Lr : nat -> option (modul * tensor)).

(** The mean of one tensor per process. *)
Definition mean_of (g : tensor) (gr : nat -> tensor) : Prop := forall idx, in_range (shape g) idx -> tget g idx = red R OpAvg (fun r => tget (gr r) idx).
(** Each process has [b] of the [R * b] samples. *)
Definition shards (x : tensor) (xr : nat -> tensor) : Prop :=
  exists b rest, b <> O /\ shape x = (R * b)%nat :: rest /\ forall r, (r < R)%nat -> xr r = part x (r * b) b.

Definition grads_rel (st : nat -> state) (ref : state) : Prop := forall p,
  (p_grad (s_par ref p) = None /\ forall r, (r < R)%nat -> p_grad (s_par (st r) p) = None) \/
  (exists g gr, p_grad (s_par ref p) = Some g /\ (forall r, (r < R)%nat -> p_grad (s_par (st r) p) = Some (gr r) /\ shape (gr r) = shape g) /\ (E -> mean_of g gr)).
Definition pends_rel (st : nat -> state) (ref : state) : Prop := forall out,
  (s_pend ref out = None /\ forall r, (r < R)%nat -> s_pend (st r) out = None) \/
  (exists m x xr, s_pend ref out = Some (m, x) /\ In m (c_mods c) /\ (forall r, (r < R)%nat -> s_pend (st r) out = Some (m, xr r)) /\
     (Lr out = Some (m, x) /\ (forall r, (r < R)%nat -> L r out = Some (m, xr r)) /\ (E -> shards x xr))).

Definition Inv (gs : list group) (st : nat -> state) (ref : state) : Prop :=
  (forall r, (r < R)%nat -> twins (st r) ref) /\ grads_rel st ref /\ pends_rel st ref /\
  (forall m, In m (c_mods c) -> mod_typed ty m ref) /\ (forall m, In m (c_mods c) -> grads_fit m ref) /\ s_groups ref = gs /\ (E -> Forall mean_loss gs).

(** ** Simulation *)

Definition good {A} (gs : list group) (x : SM state A) (ref : state) (a : nat -> state * res A) : Prop :=
  exists ref' o, Inv gs (fun r => fst (a r)) ref' /\ (forall r, (r < R)%nat -> snd (a r) = o) /\ (E -> x ref = (ref', o)).
Definition simat {A} gs (d : nat -> dm A) (x : SM state A) (st : nat -> state) (ref : state) : Prop :=
  lock R (good gs x ref) (fun r => d r (st r)).
Definition sim {A} gs (d : nat -> dm A) (x : SM state A) : Prop := forall st ref, Inv gs st ref -> simat gs d x st ref.

Lemma sim_bind {A B} gs (d : nat -> dm A) x (f : nat -> A -> dm B) g :
  sim gs d x -> (forall a, sim gs (fun r => f r a) (g a)) -> sim gs (fun r => dbind (d r) (f r)) (sbind x g).
Proof.
  intros H1 H2 st ref I. unfold simat, dbind. eapply lock_bind; [exact (H1 st ref I)|]. intros a (ref' & o & I' & Ho & He).
  destruct o as [v|e].
  - apply (lock_ext R _ (fun r => f r v (fst (a r)))); [intros r Hr; rewrite Ho by exact Hr; reflexivity|].
    eapply lock_weaken; [|exact (H2 v _ _ I')]. intros b (ref2 & o2 & I2 & Ho2 & He2). exists ref2, o2. split; [exact I2|]. split; [exact Ho2|].
    intros HE. unfold sbind. rewrite (He HE). exact (He2 HE).
  - apply (lock_done R _ _ (fun r => (fst (a r), Err e))); [intros r Hr; rewrite Ho by exact Hr; reflexivity|].
    exists ref', (Err e). split; [exact I'|]. split; [reflexivity|]. intros HE. unfold sbind. rewrite (He HE). reflexivity.
Qed.

Lemma sim_for {A} gs (d : nat -> A -> dm unit) x l : (forall a, In a l -> sim gs (fun r => d r a) (x a)) -> sim gs (fun r => dfor (d r) l) (forS x l).
Proof.
  induction l as [|a l IH]; intros H.
  - intros st ref I. apply (lock_done R _ _ (fun r => (st r, Ok tt))); [reflexivity|]. exists ref, (Ok tt). auto.
  - cbn [dfor forS]. apply sim_bind; [apply H; left; reflexivity|]. intros _. apply IH. intros b Hb. apply H. right. exact Hb.
Qed.

(** Operations without collectives. *)
Lemma sim_op {A} gs (x : SM state A) :
  rel2 twins x x -> keeps hands_off x -> (forall m, In m (c_mods c) -> keeps (fun s t => mod_typed ty m s -> mod_typed ty m t) x) ->
  sim gs (fun _ => dlift x) x.
Proof.
  intros H1 H2 H3 st ref (I1 & I2 & I3 & I4 & I5 & I6 & I7). apply (lock_done R _ _ (fun r => x (st r))); [reflexivity|].
  exists (fst (x ref)), (snd (x ref)). split; [|split; [|intros _; destruct (x ref); reflexivity]].
  2:{ intros r Hr. apply (H1 (st r) ref (I1 r Hr)). }
  pose proof (H2 ref) as (K1 & K2 & K3).
  split; [intros r Hr; apply (H1 (st r) ref (I1 r Hr))|]. split; [|split; [|split; [|split; [|split; [congruence|exact I7]]]]].
  - intros p. rewrite K1. destruct (I2 p) as [[N1 N2]|(g & gr & G1 & G2 & G3)].
    + left. split; [exact N1|]. intros r Hr. destruct (H2 (st r)) as (-> & _). apply N2. exact Hr.
    + right. exists g, gr. split; [exact G1|]. split; [|exact G3]. intros r Hr. destruct (H2 (st r)) as (-> & _). apply G2. exact Hr.
  - intros out. rewrite K2. destruct (I3 out) as [[N1 N2]|(m & y & xr & G1 & G2 & G3 & G4)].
    + left. split; [exact N1|]. intros r Hr. destruct (H2 (st r)) as (_ & -> & _). apply N2. exact Hr.
    + right. exists m, y, xr. split; [exact G1|]. split; [exact G2|]. split; [|exact G4]. intros r Hr. destruct (H2 (st r)) as (_ & -> & _). apply G3. exact Hr.
  - intros m Hm. apply (H3 m Hm ref). apply I4. exact Hm.
  - intros m Hm. destruct (I5 m Hm) as [F1 F2]. split; [intros g; rewrite K1; apply F1|intros b g; rewrite K1; apply F2].
Qed.

Lemma ho_refl s : hands_off s s.
Proof. repeat split. Qed.
Lemma ho_trans a b d : hands_off a b -> hands_off b d -> hands_off a d.
Proof. intros (A1 & A2 & A3) (B1 & B2 & B3). split; [intros p; rewrite B1; apply A1|]. split; congruence. Qed.

Lemma twins_refl s : twins s s.
Proof. repeat split. Qed.

(** ** Setting the scale *)

Lemma twins_set_scale v : rel2 twins (set_current_grad_scale v) (set_current_grad_scale v).
Proof.
  intros s t D. pose proof D as (S1 & S2 & S3 & S4 & S5 & S6 & S7 & S8).
  unfold set_current_grad_scale, sbind, getS, modify, lift, ret. rewrite S1, S2. cbn [s_scales set_scales s_steps].
  assert (N : twins (set_scales (put_scale (s_scales t) (Z.of_nat (s_steps t)) v) s) (set_scales (put_scale (s_scales t) (Z.of_nat (s_steps t)) v) t)).
  { unfold twins. cbn. auto 10. }
  destruct (Nat.eqb (s_steps t) 0); [|split; [reflexivity|exact N]].
  destruct (get_grad_scale _ _); [|split; [reflexivity|exact N]]. destruct (get_grad_scale _ _); [|split; [reflexivity|exact N]].
  destruct (_ && _); (split; [reflexivity|]); [|exact N]. unfold twins. cbn. rewrite S6. auto 10.
Qed.
Lemma set_scale_off v : keeps hands_off (set_current_grad_scale v).
Proof.
  intros s. destruct (set_current_grad_scale v s) as [t r] eqn:H. apply set_current_grad_scale_frame in H as ((B1 & B2 & B3 & B4 & B5 & B6 & B7) & _). cbn [fst].
  split; [intros p; congruence|]. split; congruence.
Qed.
Lemma set_scale_ty v m : keeps (fun s t => mod_typed ty m s -> mod_typed ty m t) (set_current_grad_scale v).
Proof.
  intros s T. destruct (set_current_grad_scale v s) as [t r] eqn:H. apply set_current_grad_scale_frame in H as ((B1 & B2 & _) & _). cbn [fst].
  unfold mod_typed in *. rewrite B2. exact T.
Qed.
Lemma twins_ensure : rel2 twins ensure_scale ensure_scale.
Proof.
  intros s t D. pose proof D as (S1 & S2 & S3 & S4 & S5 & S6 & S7 & S8). unfold ensure_scale, sbind, getS. rewrite S1, S2, S4.
  destruct (get_grad_scale _ _); [split; [reflexivity|exact D]|]. destruct (s_amp t) as [[v|]|]; [apply twins_set_scale; exact D|split; [reflexivity|exact D]|apply twins_set_scale; exact D].
Qed.
Lemma ensure_off : keeps hands_off ensure_scale.
Proof.
  intros s. destruct (ensure_scale s) as [t r] eqn:H. apply ensure_scale_frame in H as ((B1 & B2 & B3 & B4 & B5 & B6 & B7) & _). cbn [fst].
  split; [intros p; congruence|]. split; congruence.
Qed.
Lemma ensure_ty m : keeps (fun s t => mod_typed ty m s -> mod_typed ty m t) ensure_scale.
Proof.
  intros s T. destruct (ensure_scale s) as [t r] eqn:H. apply ensure_scale_frame in H as ((B1 & B2 & _) & _). cbn [fst].
  unfold mod_typed in *. rewrite B2. exact T.
Qed.

(** ** The step of one module *)

Lemma twins_on_slots {A} k (f : SM slots A) : rel2 twins (on_slots k f) (on_slots k f).
Proof.
  intros s t (S1 & S2 & S3 & S4 & S5 & S6 & S7 & S8). unfold on_slots. rewrite S7. destruct (f (s_slots t k)) as [u r]. cbn [fst snd]. split; [reflexivity|].
  unfold twins. cbn. do 6 (split; [assumption|]). split; [|exact S8]. intros k'. unfold upd. destruct (Nat.eqb k' k); [reflexivity|apply S7].
Qed.
Lemma on_slots_off {A} k (f : SM slots A) : keeps hands_off (on_slots k f).
Proof. intros s. unfold on_slots. destruct (f (s_slots s k)). repeat split. Qed.
Lemma twins_pre m : rel2 twins (update_preconditioner c m) (update_preconditioner c m).
Proof.
  intros s t D. pose proof D as (S1 & S2 & S3 & _). unfold update_preconditioner, sbind, getS, lift. rewrite S3.
  destruct (get_group c (s_groups t) m) as [g|]; [|split; [reflexivity|exact D]]. rewrite S1, S2. apply twins_on_slots. exact D.
Qed.
Lemma pre_off m : keeps hands_off (update_preconditioner c m).
Proof.
  intros s. unfold update_preconditioner, sbind, getS, lift. destruct (get_group _ _ _); [|apply ho_refl]. apply on_slots_off.
Qed.
Lemma pre_ty m m' : In m (c_mods c) -> In m' (c_mods c) -> keeps (fun s t => mod_typed ty m s -> mod_typed ty m t) (update_preconditioner c m').
Proof.
  intros Hm Hm' s T. unfold update_preconditioner, sbind, getS, lift. destruct (get_group _ _ _) as [g|]; [|exact T]. unfold on_slots.
  destruct (same_key (c_mods c) m m' ND Hm Hm') as [D| ->].
  - destruct (update_slots _ _ _ _ _) as [s' r]. unfold mod_typed in *. cbn. rewrite upd_neq by congruence. exact T.
  - specialize (TO m Hm). unfold mod_typed in *. destruct (ty m) as [[[cK cC] dK] dC]. destruct TO as (UK & UC & Ed).
    destruct (update_slots_typed g (m_layer m) (s_steps s) (s_scales s) _ _ _ _ _ UK UC Ed T) as [T' _]. destruct (update_slots _ _ _ _ _) as [s' r]. cbn in *. rewrite upd_eq. exact T'.
Qed.

Lemma twins_par p g d : rel2 twins (on_par p (param_step g d)) (on_par p (param_step g d)).
Proof.
  intros s t D. pose proof D as (S1 & S2 & S3 & S4 & S5 & S6 & S7 & S8). unfold on_par.
  destruct (param_step_scaled g d (s_par t p) (s_par s p)) as (E1 & E2 & E3 & E4 & E5); [apply S8|apply S8|].
  destruct (param_step g d (s_par s p)) as [a r1]. destruct (param_step g d (s_par t p)) as [b r2]. cbn [fst snd] in *. split; [symmetry; exact E1|].
  unfold twins. cbn. do 7 (split; [assumption|]). intros y. destruct (Nat.eq_dec y p) as [->|Ny]; [rewrite !upd_eq; auto|rewrite !upd_neq by exact Ny; apply S8].
Qed.
Lemma par_off p g d : keeps hands_off (on_par p (param_step g d)).
Proof.
  intros s. unfold on_par. destruct (param_step_scaled g d (s_par s p) (s_par s p) eq_refl eq_refl) as (_ & _ & _ & E4 & _).
  destruct (param_step g d (s_par s p)) as [a r1]. cbn [fst snd] in *. split; [|split; reflexivity]. intros y. cbn. destruct (Nat.eq_dec y p) as [->|Ny]; [rewrite upd_eq; exact E4|rewrite upd_neq by exact Ny; reflexivity].
Qed.
Lemma par_ty {A} p (f : SM pslot A) m : keeps (fun s t => mod_typed ty m s -> mod_typed ty m t) (on_par p f).
Proof. intros s T. unfold on_par. destruct (f (s_par s p)). exact T. Qed.

(** The update of the parameters with given directions. *)
Definition move (m : modul) (w : tensor) (b : option tensor) : SM state unit :=
  let! st := getS in
  let! g := lift (get_group c (s_groups st) m) in
  let! _ := on_par (m_weight m) (param_step g w) in
  match m_bias m, b with
  | Some p, Some d => on_par p (param_step g d)
  | _, _ => ret tt
  end.

Lemma sim_move gs m w b : sim gs (fun _ => dlift (move m w b)) (move m w b).
Proof.
  apply sim_op.
  - intros s t D. unfold move. rewrite !group_bind. pose proof D as (_ & _ & S3 & _). rewrite S3. destruct (get_group c (s_groups t) m) as [g|]; [|split; [reflexivity|exact D]].
    revert s t D S3. intros s t D _. revert s t D. apply rel2_bind; [apply twins_par|]. intros _. destruct (m_bias m); [|apply rel2_ret]. destruct b; [apply twins_par|apply rel2_ret].
  - unfold move. apply keeps_bind; [apply ho_trans|apply keeps_getS; apply ho_refl|]. intros s0. apply keeps_bind; [apply ho_trans|apply keeps_lift; apply ho_refl|]. intros g.
    apply keeps_bind; [apply ho_trans|apply par_off|]. intros _. destruct (m_bias m); [|apply keeps_ret; apply ho_refl]. destruct b; [apply par_off|apply keeps_ret; apply ho_refl].
  - intros m' Hm'. assert (Rf : forall s : state, mod_typed ty m' s -> mod_typed ty m' s) by auto.
    assert (Tr : forall a b d : state, (mod_typed ty m' a -> mod_typed ty m' b) -> (mod_typed ty m' b -> mod_typed ty m' d) -> mod_typed ty m' a -> mod_typed ty m' d) by auto.
    unfold move. apply keeps_bind; [exact Tr|apply keeps_getS; exact Rf|]. intros s0. apply keeps_bind; [exact Tr|apply keeps_lift; exact Rf|]. intros g.
    apply keeps_bind; [exact Tr|apply par_ty|]. intros _. destruct (m_bias m); [|apply keeps_ret; exact Rf]. destruct b; [apply par_ty|apply keeps_ret; exact Rf].
Qed.

(** A process that fails before the collective. *)
Lemma sim_fail {A B} gs (x : nat -> SM state A) (f : nat -> A -> dm B) (y : SM state B) e st ref :
  Inv gs st ref -> (forall r, (r < R)%nat -> x r (st r) = (st r, Err e)) -> (E -> y ref = (ref, Err e)) ->
  simat gs (fun r => dbind (dlift (x r)) (f r)) y st ref.
Proof.
  intros I H HE. apply (lock_done R _ _ (fun r => (st r, Err e))).
  - intros r Hr. unfold dbind, dlift. cbn [pbind]. rewrite H by exact Hr. reflexivity.
  - exists ref, (Err e). split; [exact I|]. split; [reflexivity|exact HE].
Qed.

(** The gradient as a matrix on every process. *)
Lemma grads_matrix m st ref dK dC :
  In m (c_mods c) -> grads_rel st ref -> grads_fit m ref -> preconditioner_dims (m_layer m) = Ok (dK, dC) ->
  let gw s := grad_data (s_par s (m_weight m)) in let gb s := option_map (fun b => grad_data (s_par s b)) (m_bias m) in
  (forall cur K C, nat_grad_matrix (m_layer m) (gw ref) (gb ref) cur K C = Err AttributeError /\
     forall r, (r < R)%nat -> nat_grad_matrix (m_layer m) (gw (st r)) (gb (st r)) cur K C = Err AttributeError) \/
  (exists wg bg wr br G Gr,
     gw ref = Ok wg /\ gb ref = option_map Ok bg /\ grad_matrix (m_layer m) wg bg = Ok G /\ shape G = [dC; dK] /\
     (forall r, (r < R)%nat -> gw (st r) = Ok (wr r) /\ gb (st r) = option_map Ok (br r) /\ grad_matrix (m_layer m) (wr r) (br r) = Ok (Gr r) /\ shape (Gr r) = [dC; dK]) /\
     (E -> forall i j, (i < dC)%nat -> (j < dK)%nat -> get2 G i j = red R OpAvg (fun r => get2 (Gr r) i j))).
Proof.
  intros Hm GR GF Ed gw gb. pose proof (dims_supported _ _ _ Ed) as Hs. pose proof (BO m Hm) as Hb. unfold bias_ok in Hb. destruct GF as [GF1 GF2].
  destruct (GR (m_weight m)) as [[N1 N2]|(wg & wr & W1 & W2 & W3)].
  { left. intros cur K C. unfold gw, grad_data. rewrite N1. split; [reflexivity|]. intros r Hr. rewrite N2 by exact Hr. reflexivity. }
  assert (Sw : shape wg = weight_shape (m_layer m)) by (apply GF1; exact W1).
  assert (Swr : forall r, (r < R)%nat -> shape (wr r) = weight_shape (m_layer m)) by (intros r Hr; destruct (W2 r Hr) as [_ ->]; exact Sw).
  assert (B : (forall cur K C, nat_grad_matrix (m_layer m) (gw ref) (gb ref) cur K C = Err AttributeError /\
     forall r, (r < R)%nat -> nat_grad_matrix (m_layer m) (gw (st r)) (gb (st r)) cur K C = Err AttributeError) \/
    exists bg br, gb ref = option_map Ok bg /\ (forall r, (r < R)%nat -> gb (st r) = option_map Ok (br r)) /\
      match bg with Some b => has_bias (m_layer m) = true /\ shape b = [n_out (m_layer m)] | None => has_bias (m_layer m) = false end /\
      (forall r, (r < R)%nat -> match br r with Some b => has_bias (m_layer m) = true /\ shape b = [n_out (m_layer m)] | None => has_bias (m_layer m) = false end) /\
      (forall b, bg = Some b -> exists b', (forall r, (r < R)%nat -> br r = Some (b' r)) /\ (E -> mean_of b b'))).
  { unfold gb. destruct (m_bias m) as [p|] eqn:Ep.
    - cbn [option_map]. destruct (GR p) as [[N1 N2]|(bg & br & B1 & B2 & B3)].
      + left. intros cur K C. unfold gw, grad_data. rewrite W1, N1. split; [reflexivity|]. intros r Hr. destruct (W2 r Hr) as [-> _]. rewrite N2 by exact Hr. reflexivity.
      + right. pose proof (GF2 p bg eq_refl B1) as Sb. exists (Some bg), (fun r => Some (br r)). unfold grad_data. rewrite B1. split; [reflexivity|].
        split; [intros r Hr; destruct (B2 r Hr) as [-> _]; reflexivity|]. split; [auto|]. split; [intros r Hr; destruct (B2 r Hr) as [_ ->]; auto|].
        intros b Hbb. injection Hbb as <-. exists br. auto.
    - right. exists None, (fun _ => None). repeat split; auto. discriminate. }
  destruct B as [B|(bg & br & B1 & B2 & B3 & B4 & B5)]; [left; exact B|right].
  destruct (C49_gradient_matrix_lemma (m_layer m) wg bg Hs Sw B3) as (G & EG & DG & SG & G1 & G2 & _).
  rewrite Ed in DG. injection DG as DK DC. rewrite <- DK, <- DC in SG.
  pose (Gr r := match grad_matrix (m_layer m) (wr r) (br r) with Ok v => v | Err _ => G end).
  exists wg, bg, wr, br, G, Gr. unfold gw. unfold grad_data at 1. rewrite W1. do 4 (split; [first [reflexivity|assumption]|]).
  assert (X : forall r, (r < R)%nat -> grad_matrix (m_layer m) (wr r) (br r) = Ok (Gr r) /\ shape (Gr r) = [dC; dK] /\
    (forall i k, (i < n_out (m_layer m))%nat -> (k < fan (m_layer m))%nat -> get2 (Gr r) i k = nth (i * fan (m_layer m) + k) (data (wr r)) 0) /\
    (forall b i, br r = Some b -> (i < n_out (m_layer m))%nat -> get2 (Gr r) i (fan (m_layer m)) = get1 b i)).
  { intros r Hr. destruct (C49_gradient_matrix_lemma (m_layer m) (wr r) (br r) Hs (Swr r Hr) (B4 r Hr)) as (Gx & EGx & DGx & SGx & Gx1 & Gx2 & _).
    rewrite Ed in DGx. injection DGx as DKx DCx. rewrite <- DKx, <- DCx in SGx. unfold Gr. rewrite EGx. auto. }
  split.
  - intros r Hr. unfold grad_data. destruct (W2 r Hr) as [-> _]. destruct (X r Hr) as (X1 & X2 & _). rewrite (B2 r Hr). auto.
  - intros HE i j Hi Hj. pose proof (C49_dims_lemma (m_layer m) Hs) as CD. rewrite Ed in CD. injection CD as CD1 CD2.
    destruct (weight_shape_eq (m_layer m) Hs) as (rest & Ew & Er & _).
    assert (J : (j < fan (m_layer m))%nat \/ has_bias (m_layer m) = true /\ j = fan (m_layer m)) by (destruct (has_bias (m_layer m)); [lia|left; lia]).
    destruct J as [J|[Eb ->]].
    + rewrite G1 by (congruence || lia). rewrite (red_ext R OpAvg _ (fun r => nth (i * fan (m_layer m) + j) (data (wr r)) 0)) by (intros r Hr; apply (X r Hr); (congruence || lia)).
      assert (PR : (i * fan (m_layer m) + j < prod (weight_shape (m_layer m)))%nat).
      { rewrite Ew. change (prod (n_out (m_layer m) :: rest)) with (n_out (m_layer m) * prod rest)%nat. rewrite Er. nia. }
      pose proof (W3 HE (unflat (weight_shape (m_layer m)) (i * fan (m_layer m) + j))) as M. rewrite Sw in M. specialize (M (unflat_range _ _ PR)).
      unfold tget at 1 in M. rewrite Sw, flat_unflat in M by exact PR. rewrite M. apply red_ext. intros r Hr. unfold tget. rewrite (Swr r Hr), flat_unflat by exact PR. reflexivity.
    + destruct bg as [b|]; [|congruence]. destruct (B5 b eq_refl) as (b' & B6 & B7). rewrite (G2 b i eq_refl) by congruence.
      rewrite (red_ext R OpAvg _ (fun r => get1 (b' r) i)) by (intros r Hr; destruct (X r Hr) as (_ & _ & _ & X4); apply X4; [apply B6; exact Hr|congruence]).
      unfold get1. apply (B7 HE). destruct B3 as [_ ->]. apply in_range1. congruence.
Qed.

Lemma avg_op gs m g : (E -> Forall mean_loss gs) -> E -> get_group c gs m = Ok g -> loss_op (g_loss g) = OpAvg.
Proof.
  intros H HE Eg. apply get_group_In in Eg. pose proof (proj1 (Forall_forall _ _) (H HE) g Eg) as [-> | ->]; reflexivity.
Qed.

Lemma sim_natgrad gs m g : In m (c_mods c) -> get_group c gs m = Ok g -> sim gs (fun _ => d_natural_gradient c m) (compute_natural_gradient c m).
Proof.
  intros Hm Eg st ref I. pose proof I as (I1 & I2 & I3 & I4 & I5 & I6 & I7).
  pose proof (TO m Hm) as TOm. pose proof (I4 m Hm) as Tm. unfold mod_typed in Tm. destruct (ty m) as [[[cK cC] dK] dC] eqn:Ety. destruct TOm as (UK & UC & Ed).
  pose proof Tm as [(K & EK & VK) (C & EC & VC) _ _ _ _].
  assert (TW : forall r, (r < R)%nat -> get_grad_scale (s_scales (st r)) (Z.of_nat (s_steps (st r))) = get_grad_scale (s_scales ref) (Z.of_nat (s_steps ref)) /\
    s_slots (st r) (m_key m) = s_slots ref (m_key m) /\ s_groups (st r) = gs).
  { intros r Hr. destruct (I1 r Hr) as (T1 & T2 & T3 & _ & _ & _ & T7 & _). rewrite T1, T2, T7, T3, I6. auto. }
  set (cur := get_grad_scale (s_scales ref) (Z.of_nat (s_steps ref))) in *.
  destruct (grads_matrix m st ref dK dC Hm I2 (I5 m Hm) Ed) as [F|(wg & bg & wr & br & G & Gr & W1 & W2 & W3 & W4 & W5 & W6)].
  { apply (sim_fail gs (fun _ => _) (fun _ => _) _ AttributeError); [exact I| |].
    - intros r Hr. destruct (TW r Hr) as (T1 & T2 & T3). unfold sbind, getS, lift. rewrite T1, T2. rewrite (proj2 (F _ _ _) r Hr). reflexivity.
    - intros _. unfold compute_natural_gradient, sbind, getS, lift. rewrite (proj1 (F _ _ _)). reflexivity. }
  assert (NGe : forall e wg bg G, grad_matrix (m_layer m) wg bg = Ok G -> nat_grad_matrix (m_layer m) (Ok wg) (option_map Ok bg) (Err e) (Ok K) (Ok C) = Err e).
  { intros e w b G0 H0. unfold nat_grad_matrix. destruct b as [b|]; cbn [option_map bind]; rewrite H0; reflexivity. }
  destruct cur as [cv|e] eqn:Ecur.
  2:{ apply (sim_fail gs (fun _ => _) (fun _ => _) _ e); [exact I| |].
    - intros r Hr. destruct (TW r Hr) as (T1 & T2 & T3). unfold sbind, getS, lift. rewrite T1, T2, EK, EC. cbn [lookup]. destruct (W5 r Hr) as (-> & -> & Hg & _). rewrite (NGe e _ _ _ Hg). reflexivity.
    - intros _. unfold compute_natural_gradient, sbind, getS, lift. fold cur. rewrite Ecur, EK, EC. cbn [lookup]. rewrite W1, W2, (NGe e _ _ _ W3). reflexivity. }
  set (op := loss_op (g_loss g)).
  pose (N r := tab2 dC dK (dir_of dC dK (ent C) (rent C) (ent K) (rent K) (get2 (Gr r)) cv)).
  pose (NN := reduced op (map N (seq 0 R))).
  assert (LS : forall r, (r < R)%nat -> d_natural_gradient c m (st r) = AllRed op (N r) (fun x => Done (st r, split_matrix (m_layer m) x))).
  { intros r Hr. destruct (TW r Hr) as (T1 & T2 & T3). unfold d_natural_gradient, dbind, dlift, sbind, getS, lift, ret. cbn [pbind]. rewrite T1, T2, EK, EC. cbn [lookup].
    destruct (W5 r Hr) as (-> & -> & Hg & Sg). rewrite (nat_grad_any _ _ _ cv K C cK cC dK dC (Gr r) Hg Sg UK UC VK VC). rewrite T3, Eg. reflexivity. }
  apply (lock_coll R _ _ op N (fun r x => Done (st r, split_matrix (m_layer m) x))); [exact LS|reflexivity|]. fold NN.
  apply (lock_ret R _ (fun r => (st r, split_matrix (m_layer m) NN))). exists ref, (split_matrix (m_layer m) NN). split; [exact I|]. split; [reflexivity|].
  intros HE. unfold compute_natural_gradient, sbind, getS, lift. fold cur. rewrite Ecur, EK, EC. cbn [lookup]. rewrite W1, W2.
  rewrite (nat_grad_any _ _ _ cv K C cK cC dK dC G W3 W4 UK UC VK VC). do 2 f_equal.
  assert (HO : op = OpAvg) by (apply (avg_op gs m g I7 HE Eg)).
  assert (NN2 : shape NN = [dC; dK]) by (apply reduced_spec; [exact NR|reflexivity]).
  apply (ext2 dC dK); [reflexivity|exact NN2|]. intros i j Hi Hj. rewrite get2_tab2 by assumption.
  unfold get2 at 2. unfold NN. rewrite (proj2 (reduced_spec R op N [dC; dK] NR (fun r _ => eq_refl)) [i; j] (in_range2 _ _ _ _ Hi Hj)). rewrite HO.
  rewrite (red_ext R OpAvg _ (fun r => dir_of dC dK (ent C) (rent C) (ent K) (rent K) (get2 (Gr r)) cv i j)) by (intros r Hr; unfold N; apply get2_tab2; assumption).
  unfold red. rewrite <- dir_of_sum. transitivity (dir_of dC dK (ent C) (rent C) (ent K) (rent K) (fun a b => 1 / fofnat R * sum R (fun r => get2 (Gr r) a b)) cv i j).
  - unfold dir_of. apply sum_ext. intros a Ha. f_equal. apply sum_ext. intros k Hk. f_equal. apply sum_ext. intros b Hb. f_equal. apply sum_ext. intros q Hq. do 2 f_equal.
    rewrite (W6 HE k q Hk Hq). unfold red. field. apply fofnat_neq0. exact NR.
  - rewrite dir_of_mul. field. apply fofnat_neq0. exact NR.
Qed.

Lemma sim_module gs m : In m (c_mods c) -> sim gs (fun _ => d_step_module c m) (step_module c m).
Proof.
  intros Hm. destruct (get_group c gs m) as [g|e] eqn:Eg.
  - unfold d_step_module, step_module. apply sim_bind.
    + apply sim_op; [apply twins_pre|apply pre_off|]. intros m' Hm'. apply pre_ty; assumption.
    + intros _. apply sim_bind; [apply (sim_natgrad gs m g Hm Eg)|]. intros [w b]. apply (sim_move gs m w b).
  - intros st ref I. pose proof I as (I1 & _ & _ & _ & _ & I6 & _). unfold d_step_module. apply (sim_fail gs (fun _ => _) (fun _ => _) _ e); [exact I| |].
    + intros r Hr. destruct (I1 r Hr) as (_ & _ & T3 & _). unfold update_preconditioner, sbind, getS, lift. rewrite T3, I6, Eg. reflexivity.
    + intros _. unfold step_module, update_preconditioner, sbind, getS, lift. rewrite I6, Eg. reflexivity.
Qed.

(** ** The step *)

Definition overflow : SM state unit := fun st => (drop_H c (set_log (s_log st ++ [WarnInf]) st), Ok tt).

Lemma sim_step gs closure : sim gs (fun _ => d_step c closure) (step c closure).
Proof.
  unfold d_step, step. destruct closure.
  - intros st ref I. apply (lock_done R _ _ (fun r => (st r, Err NotImplementedError))); [reflexivity|]. exists ref, (Err NotImplementedError). auto.
  - apply sim_bind; [apply sim_op; [apply twins_ensure|apply ensure_off|intros; apply ensure_ty]|]. intros _.
    set (fin := modify _).
    assert (SF : sim gs (fun _ => dlift fin) fin).
    { apply sim_op.
      - intros s t (S1 & S2 & S3 & S4 & S5 & S6 & S7 & S8). split; [reflexivity|]. unfold fin, modify, twins. cbn. rewrite S1, S2. auto 10.
      - intros s. repeat split.
      - intros m Hm s T. exact T. }
    assert (SO : sim gs (fun _ => dlift overflow) overflow).
    { apply sim_op.
      - intros s t (S1 & S2 & S3 & S4 & S5 & S6 & S7 & S8). split; [reflexivity|]. unfold overflow, twins. cbn. rewrite S6. do 6 (split; [first [assumption|reflexivity]|]). split; [|exact S8].
        intros k. rewrite S7. reflexivity.
      - intros s. repeat split.
      - intros m Hm s T. unfold overflow, mod_typed in *. cbn. destruct (existsb _ _); [|exact T]. destruct (ty m) as [[[cK cC] dK] dC]. apply typed_dropHC, typed_dropHK. exact T. }
    change (sim gs (fun _ => dbind (fun st => if s_inf st then dlift overflow st else dfor (d_step_module c) (c_mods c) st) (fun _ => dlift fin))
              (fun st => sbind (if s_inf st then overflow else step_all c) (fun _ => fin) st)).
    intros st ref I. pose proof I as (I1 & _).
    apply (lock_ext R _ (fun r => dbind (if s_inf ref then dlift overflow else dfor (d_step_module c) (c_mods c)) (fun _ => dlift fin) (st r))).
    { intros r Hr. unfold dbind. destruct (I1 r Hr) as (_ & _ & _ & _ & -> & _). destruct (s_inf ref); reflexivity. }
    destruct (s_inf ref) eqn:Ei.
    + pose proof (sim_bind gs (fun _ => dlift overflow) overflow (fun _ _ => dlift fin) (fun _ => fin) SO (fun _ => SF) st ref I) as X. unfold simat in X.
      eapply lock_weaken; [|exact X]. intros a (ref' & o & A1 & A2 & A3). exists ref', o. rewrite Ei. auto.
    + pose proof (sim_bind gs (fun _ => dfor (d_step_module c) (c_mods c)) (step_all c) (fun _ _ => dlift fin) (fun _ => fin)
        (sim_for gs (fun _ => d_step_module c) (step_module c) (c_mods c) (fun m Hm => sim_module gs m Hm)) (fun _ => SF) st ref I) as X. unfold simat in X.
      eapply lock_weaken; [|exact X]. intros a (ref' & o & A1 & A2 & A3). exists ref', o. rewrite Ei. auto.
Qed.

(** ** The backward hook *)

Lemma flat_layout c0 n s i : In c0 supported_structures -> valid c0 n s -> inner_layout s i = true.
Proof.
  intros H V. cbn in H. repeat (destruct H as [<-|H]; [destruct s; simpl in V; try contradiction; reflexivity|]). destruct H.
Qed.

Lemma sim_acc gs m x xr g gr st ref :
  Inv gs st ref -> In m (c_mods c) -> (forall r, (r < R)%nat -> fits (m_layer m) (xr r) (gr r)) ->
  (E -> fits (m_layer m) x g /\ exists b rest, b <> O /\ shape x = (R * b)%nat :: rest /\
     forall r, (r < R)%nat -> xr r = part x (r * b) b /\ gr r = t_scale (fofnat R) (part g (r * b) b)) ->
  simat gs (fun r => d_accumulate c m (xr r) (gr r)) (accumulate_H_terms c m x g) st ref.
Proof.
  intros I Hm FR HE. pose proof I as (I1 & I2 & I3 & I4 & I5 & I6 & I7).
  pose proof (TO m Hm) as TOm. pose proof (I4 m Hm) as Tm. unfold mod_typed in Tm. pose proof (FLAT m Hm) as FLm. destruct (ty m) as [[[cK cC] dK] dC] eqn:Ety. destruct TOm as (UK & UC & Ed). destruct FLm as [FK FC].
  pose proof UK as (OK & _). pose proof UC as (OC & _).
  assert (TW : forall r, (r < R)%nat -> get_grad_scale (s_scales (st r)) (Z.of_nat (s_steps (st r)) - 1) = get_grad_scale (s_scales ref) (Z.of_nat (s_steps ref) - 1) /\
    s_slots (st r) (m_key m) = s_slots ref (m_key m) /\ s_groups (st r) = gs).
  { intros r Hr. destruct (I1 r Hr) as (T1 & T2 & T3 & _ & _ & _ & T7 & _). rewrite T1, T2, T7, T3, I6. auto. }
  set (prev := get_grad_scale (s_scales ref) (Z.of_nat (s_steps ref) - 1)) in *. set (s := s_slots ref (m_key m)) in *.
  destruct (get_group c gs m) as [gp|e] eqn:Eg.
  2:{ unfold d_accumulate. apply (sim_fail gs (fun r => _) (fun r => _) _ e); [exact I| |].
    - intros r Hr. destruct (TW r Hr) as (_ & _ & T3). unfold sbind, getS, lift. rewrite T3, Eg. reflexivity.
    - intros _. unfold accumulate_H_terms, sbind, getS, lift. rewrite I6, Eg. reflexivity. }
  destruct (local_H_uniform gp (m_layer m) prev s cK cC dK dC UK UC Ed Tm) as [(e & LE)|LO].
  { unfold d_accumulate. apply (sim_fail gs (fun r => _) (fun r => _) _ e); [exact I| |].
    - intros r Hr. destruct (TW r Hr) as (T1 & T2 & T3). unfold sbind, getS, lift. rewrite T3, Eg, T1, T2. rewrite LE by (apply FR; exact Hr). reflexivity.
    - intros HE'. unfold accumulate_H_terms, sbind, getS, lift. rewrite I6, Eg. fold prev s. rewrite LE by (apply HE; exact HE'). reflexivity. }
  pose (h r := match local_H gp (m_layer m) prev (xr r) (gr r) s with Ok v => v | Err _ => (MDense (zeros []), MDense (zeros [])) end).
  assert (Hh : forall r, (r < R)%nat -> local_H gp (m_layer m) prev (xr r) (gr r) s = Ok (h r) /\ valid cK dK (fst (h r)) /\ valid cC dC (snd (h r))).
  { intros r Hr. destruct (LO _ _ (FR r Hr)) as (a & b & L1 & L2 & L3). unfold h. rewrite L1. auto. }
  set (op := loss_op (g_loss gp)).
  destruct (all_reduce_lock R op cK dK (fun r => fst (h r)) (fun r => inner_layout (fst (h r))) NR OK (fun r Hr => proj1 (proj2 (Hh r Hr)))) as (mK & VmK & EmK & LK).
  { intros r i Hr _. apply (flat_layout cK dK); [exact FK|apply Hh; exact Hr]. }
  destruct (all_reduce_lock R op cC dC (fun r => snd (h r)) (fun r => inner_layout (snd (h r))) NR OC (fun r Hr => proj2 (proj2 (Hh r Hr)))) as (mC & VmC & EmC & LC).
  { intros r i Hr _. apply (flat_layout cC dC); [exact FC|apply Hh; exact Hr]. }
  unfold simat.
  apply (lock_ext R _ (fun r => pbind (pbind (all_reduce op (inner_layout (fst (h r))) (fst (h r))) (fun a => Done (st r, Ok a)))
    (fun x1 => match snd x1 with Ok HK => dbind (dred (all_reduce op (inner_layout (snd (h r))) (snd (h r)))) (fun HC => dlift (on_slots (m_key m) (store_H HK HC))) (fst x1) | Err e => Done (fst x1, Err e) end))).
  { intros r Hr. unfold d_accumulate. unfold dbind at 1. unfold dlift at 1, sbind, getS, lift, ret. cbn [pbind].
    destruct (TW r Hr) as (T1 & T2 & T3). rewrite T3, Eg, T1, T2. destruct (Hh r Hr) as (-> & _). destruct (h r) as [a b]. reflexivity. }
  eapply lock_bind.
  { eapply lock_bind; [exact LK|]. intros a Ha. apply (lock_done R (fun v => forall r, (r < R)%nat -> v r = (st r, Ok mK)) _ (fun r => (st r, Ok mK))); [|reflexivity]. intros r Hr. rewrite Ha by exact Hr. reflexivity. }
  intros a Ha.
  apply (lock_ext R _ (fun r => pbind (pbind (all_reduce op (inner_layout (snd (h r))) (snd (h r))) (fun b => Done (st r, Ok b)))
    (fun x1 => match snd x1 with Ok HC => dlift (on_slots (m_key m) (store_H mK HC)) (fst x1) | Err e => Done (fst x1, Err e) end))).
  { intros r Hr. rewrite Ha by exact Hr. reflexivity. }
  eapply lock_bind.
  { eapply lock_bind; [exact LC|]. intros b Hb. apply (lock_done R (fun v => forall r, (r < R)%nat -> v r = (st r, Ok mC)) _ (fun r => (st r, Ok mC))); [|reflexivity]. intros r Hr. rewrite Hb by exact Hr. reflexivity. }
  intros b Hb.
  apply (lock_ext R _ (fun r => dlift (on_slots (m_key m) (store_H mK mC)) (st r))); [intros r Hr; rewrite Hb by exact Hr; reflexivity|].
  assert (SS : sim gs (fun _ => dlift (on_slots (m_key m) (store_H mK mC))) (on_slots (m_key m) (store_H mK mC))).
  { apply sim_op; [apply twins_on_slots|apply on_slots_off|]. intros m' Hm' s0 T. unfold on_slots. destruct (same_key (c_mods c) m' m ND Hm' Hm) as [D| ->].
    - destruct (store_H _ _ _) as [s' r]. unfold mod_typed in *. cbn. rewrite upd_neq by congruence. exact T.
    - unfold mod_typed in *. rewrite Ety in *. destruct (store_H_typed mK mC _ _ _ _ _ UK UC T VmK VmC) as (hk & hc & ES & Vk & Vc & _). rewrite ES. cbn. rewrite upd_eq.
      destruct T as [T1 T2 T3 T4 T5 T6]. constructor; cbn; auto; intros h0 Hh0; injection Hh0 as <-; assumption. }
  eapply lock_weaken; [|exact (SS st ref I)]. intros v (ref' & o & A1 & A2 & A3). exists ref', o. split; [exact A1|]. split; [exact A2|]. intros HE'.
  rewrite <- (A3 HE'). destruct (HE HE') as (FT & bb & rest & Nb & Sx & Hxg).
  assert (HO : op = OpAvg) by (apply (avg_op gs m gp I7 HE' Eg)). pose proof (get_group_In _ _ _ _ Eg) as IG. pose proof (proj1 (Forall_forall _ _) (I7 HE') gp IG) as ML.
  destruct (LO x g FT) as (HK & HC & LHK & VK' & VC').
  destruct (local_H_shards R gp (m_layer m) prev x g s HK HC cK cC dK dC bb rest NR Nb UK UC Ed Tm FT Sx ML LHK) as (hK & hC & Q1 & Q2 & Q3).
  assert (QH : forall r, (r < R)%nat -> h r = (hK r, hC r)).
  { intros r Hr. destruct (Hh r Hr) as (Hl & _). destruct (Hxg r Hr) as [Ex Eg']. rewrite Ex, Eg', (Q1 r Hr) in Hl. injection Hl as <-. reflexivity. }
  assert (MK : mK = HK).
  { apply (ent_inj cK dK); try assumption. intros i j Hi Hj. rewrite (EmK i j Hi Hj), (Q2 i j Hi Hj), HO. apply red_ext. intros r Hr. rewrite QH by exact Hr. reflexivity. }
  assert (MC : mC = HC).
  { apply (ent_inj cC dC); try assumption. intros i j Hi Hj. rewrite (EmC i j Hi Hj), (Q3 i j Hi Hj), HO. apply red_ext. intros r Hr. rewrite QH by exact Hr. reflexivity. }
  unfold accumulate_H_terms, sbind, getS, lift. rewrite I6, Eg. fold prev s. rewrite LHK, MK, MC. reflexivity.
Qed.

End Sim.

(** ** Histories *)

(** The calls of the processes [er] against that of the reference. *)
Definition event_rel (R : nat) (E : Prop) (e : event) (er : nat -> event) : Prop :=
  match e with
  | EForward m x on out => exists xr, (forall r, (r < R)%nat -> er r = EForward m (xr r) on out) /\ (E -> shards R x xr)
  | EBackward out g => exists gr, (forall r, (r < R)%nat -> er r = EBackward out (gr r)) /\
      (E -> exists b rest, b <> O /\ shape g = (R * b)%nat :: rest /\ forall r, (r < R)%nat -> gr r = t_scale (fofnat R) (part g (r * b) b))
  | EGrad p (Some g) => exists gr, (forall r, (r < R)%nat -> er r = EGrad p (Some (gr r)) /\ shape (gr r) = shape g) /\ (E -> mean_of R g gr)
  | EGroups gs => (forall r, (r < R)%nat -> er r = e) /\ (E -> Forall mean_loss gs)
  | _ => forall r, (r < R)%nat -> er r = e
  end.

Section Hist.
Variables (R : nat) (c : cfg) (ty : tys).
Hypothesis NR : R <> O.
Hypothesis TO : tys_ok c ty.
Hypothesis ND : NoDup (map m_key (c_mods c)).
Hypothesis FLAT : forall m, In m (c_mods c) -> let '(cK, cC, _, _) := ty m in In cK supported_structures /\ In cC supported_structures.
Hypothesis BO : forall m, In m (c_mods c) -> bias_ok m.
Variable E : Prop.

Definition reached (L : nat -> nat -> option (modul * tensor)) (Lr : nat -> option (modul * tensor)) (st : nat -> state) (ref : state) : Prop :=
  exists gs, Inv R c ty E L Lr gs st ref.

Lemma ev_forward m x xr on out L Lr gs st ref :
  Inv R c ty E L Lr gs st ref -> In m (c_mods c) -> (E -> shards R x xr) ->
  Inv R c ty E (fun r => upd (L r) out (Some (m, xr r))) (upd Lr out (Some (m, x))) gs
    (fun r => fst (forward_hook c m (xr r) on out (st r))) (fst (forward_hook c m x on out ref)) /\
  forall r, (r < R)%nat -> snd (forward_hook c m (xr r) on out (st r)) = snd (forward_hook c m x on out ref).
Proof.
  intros (I1 & I2 & I3 & I4 & I5 & I6 & I7) Hm HE.
  assert (FW : forall y s, s_steps s = s_steps ref -> s_groups s = s_groups ref ->
    exists w, forward_hook c m y on out s = (set_pend (if w : bool then upd (s_pend s) out (Some (m, y)) else upd (s_pend s) out None) s, snd (forward_hook c m x on out ref)) /\
      (forall o, s_pend (fst (forward_hook c m x on out ref)) o = if w then upd (s_pend ref) out (Some (m, x)) o else upd (s_pend ref) out None o) /\
      w = match get_group c (s_groups ref) m with Ok g => on && match is_update_step g (s_steps ref) with Ok b => b | Err _ => false end | Err _ => false end).
  { intros y s Hs Hg. unfold forward_hook, sbind, getS, modify, lift, ret. rewrite Hs, Hg. destruct (get_group c (s_groups ref) m) as [g|]; [|exists false; auto].
    destruct on; cbn [negb andb]; [|exists false; auto]. destruct (is_update_step g (s_steps ref)) as [[]|]; [exists true; auto|exists false; auto|exists false; auto]. }
  set (w := match get_group c (s_groups ref) m with Ok g => on && match is_update_step g (s_steps ref) with Ok b => b | Err _ => false end | Err _ => false end) in *.
  destruct (FW x ref eq_refl eq_refl) as (w0 & F1 & F2 & F3).
  assert (FR : forall r, (r < R)%nat -> forward_hook c m (xr r) on out (st r) =
     (set_pend (if w then upd (s_pend (st r)) out (Some (m, xr r)) else upd (s_pend (st r)) out None) (st r), snd (forward_hook c m x on out ref))).
  { intros r Hr. destruct (I1 r Hr) as (T1 & _ & T3 & _). destruct (FW (xr r) (st r) T1 T3) as (w1 & G1 & _ & G3). rewrite G1, G3. reflexivity. }
  split; [|intros r Hr; rewrite FR by exact Hr; reflexivity]. rewrite F1. cbn [fst]. rewrite F3.
  split; [intros r Hr; rewrite FR by exact Hr; exact (I1 r Hr)|]. split; [|split; [|split; [exact I4|split; [exact I5|split; [exact I6|exact I7]]]]].
  - intros p. destruct (I2 p) as [[N1 N2]|(g & gr & G1 & G2 & G3)].
    + left. split; [exact N1|]. intros r Hr. rewrite FR by exact Hr. exact (N2 r Hr).
    + right. exists g, gr. split; [exact G1|]. split; [|exact G3]. intros r Hr. rewrite FR by exact Hr. exact (G2 r Hr).
  - intros o. destruct (Nat.eq_dec o out) as [->|No].
    + destruct w.
      * right. exists m, x, xr. cbn [s_pend set_pend]. rewrite !upd_eq. split; [reflexivity|]. split; [exact Hm|]. split; [intros r Hr; rewrite FR by exact Hr; cbn [s_pend set_pend fst]; rewrite upd_eq; reflexivity|].
        split; [reflexivity|]. split; [intros r Hr; rewrite upd_eq; reflexivity|exact HE].
      * left. cbn [s_pend set_pend]. rewrite upd_eq. split; [reflexivity|]. intros r Hr. rewrite FR by exact Hr. cbn [s_pend set_pend fst]. rewrite upd_eq. reflexivity.
    + assert (P0 : s_pend (set_pend (if w then upd (s_pend ref) out (Some (m, x)) else upd (s_pend ref) out None) ref) o = s_pend ref o) by (cbn; destruct w; rewrite ?upd_neq by exact No; reflexivity).
      assert (P1 : forall r, (r < R)%nat -> s_pend (fst (forward_hook c m (xr r) on out (st r))) o = s_pend (st r) o) by (intros r Hr; rewrite FR by exact Hr; cbn; destruct w; rewrite ?upd_neq by exact No; reflexivity).
      rewrite P0. destruct (I3 o) as [[N1 N2]|(m' & x' & xr' & G1 & G2 & G3 & G4 & G5 & G6)].
      * left. split; [exact N1|]. intros r Hr. rewrite P1 by exact Hr. exact (N2 r Hr).
      * right. exists m', x', xr'. split; [exact G1|]. split; [exact G2|]. split; [intros r Hr; rewrite P1 by exact Hr; exact (G3 r Hr)|].
        rewrite upd_neq by exact No. split; [exact G4|]. split; [|exact G6]. intros r Hr. rewrite upd_neq by exact No. exact (G5 r Hr).
Qed.

Lemma fits_batch l x g n rest : fits l x g -> shape g = n :: rest -> exists rest', shape x = n :: rest'.
Proof.
  intros F S. destruct l; [| |contradiction].
  - destruct F as (b & mid & _ & S1 & S2). rewrite S2 in S. injection S as <- <-. eauto.
  - destruct F as (_ & b & i1 & i2 & o1 & o2 & _ & _ & S1 & S2). rewrite S2 in S. injection S as <- <-. eauto.
Qed.

Lemma event_lock e er L Lr st ref :
  reached L Lr st ref -> event_rel R E e er -> legal_event c Lr e -> (forall r, (r < R)%nat -> legal_event c (L r) (er r)) ->
  lock R (fun a => exists ref' o, reached (fun r => track (er r) (L r)) (track e Lr) (fun r => fst (a r)) ref' /\ (forall r, (r < R)%nat -> snd (a r) = o) /\ (E -> event_op c e ref = (ref', o)))
    (fun r => d_event c (er r) (st r)).
Proof.
  intros [gs I] ER LE LR.
  assert (INVL : forall L1 L2 Lr0 gs0 st0 ref0, (forall r, (r < R)%nat -> L1 r = L2 r) -> Inv R c ty E L1 Lr0 gs0 st0 ref0 -> Inv R c ty E L2 Lr0 gs0 st0 ref0).
  { intros L1 L2 Lr0 gs0 st0 ref0 HL (J1 & J2 & J3 & J4). split; [exact J1|]. split; [exact J2|]. split; [|exact J4]. intros o. destruct (J3 o) as [N|(m' & x' & xr' & G1 & G2 & G3 & G4 & G5 & G6)]; [left; exact N|right].
    exists m', x', xr'. do 4 (split; [assumption|]). split; [|exact G6]. intros r Hr. rewrite <- HL by exact Hr. exact (G5 r Hr). }
  assert (INVS : forall Lx Lr0 gs0 st1 st2 ref0, (forall r, (r < R)%nat -> st1 r = st2 r) -> Inv R c ty E Lx Lr0 gs0 st1 ref0 -> Inv R c ty E Lx Lr0 gs0 st2 ref0).
  { intros Lx Lr0 gs0 st1 st2 ref0 HS (J1 & J2 & J3 & J4). split; [intros r Hr; rewrite <- HS by exact Hr; exact (J1 r Hr)|]. split; [|split; [|exact J4]].
    - intros p. destruct (J2 p) as [[N1 N2]|(g & gr & G1 & G2 & G3)]; [left|right].
      + split; [exact N1|]. intros r Hr. rewrite <- HS by exact Hr. exact (N2 r Hr).
      + exists g, gr. split; [exact G1|]. split; [|exact G3]. intros r Hr. rewrite <- HS by exact Hr. exact (G2 r Hr).
    - intros o. destruct (J3 o) as [[N1 N2]|(m' & x' & xr' & G1 & G2 & G3 & G4)]; [left|right].
      + split; [exact N1|]. intros r Hr. rewrite <- HS by exact Hr. exact (N2 r Hr).
      + exists m', x', xr'. do 2 (split; [assumption|]). split; [|exact G4]. intros r Hr. rewrite <- HS by exact Hr. exact (G3 r Hr). }
  assert (QUIET : forall (d : dm unit) x, sim R c ty E L Lr gs (fun _ => d) x -> (forall r, (r < R)%nat -> d_event c (er r) = d /\ track (er r) (L r) = L r) -> event_op c e = x -> track e Lr = Lr ->
    lock R (fun a => exists ref' o, reached (fun r => track (er r) (L r)) (track e Lr) (fun r => fst (a r)) ref' /\ (forall r, (r < R)%nat -> snd (a r) = o) /\ (E -> event_op c e ref = (ref', o)))
    (fun r => d_event c (er r) (st r))).
  { intros d x SX HD HX HT. apply (lock_ext R _ (fun r => d (st r))); [intros r Hr; destruct (HD r Hr) as [-> _]; reflexivity|].
    eapply lock_weaken; [|exact (SX st ref I)]. intros a (ref' & o & A1 & A2 & A3). exists ref', o. split; [|split; [exact A2|rewrite HX; exact A3]].
    exists gs. rewrite HT. eapply INVL; [|exact A1]. intros r Hr. destruct (HD r Hr) as [_ ->]. reflexivity. }
  destruct e as [m x on out|out g|p g|s|a i|closure|gs'].
  - destruct ER as (xr & H1 & H2). destruct (ev_forward m x xr on out L Lr gs st ref I LE H2) as [J1 J2].
    apply (lock_done R _ _ (fun r => forward_hook c m (xr r) on out (st r))); [intros r Hr; rewrite H1 by exact Hr; reflexivity|].
    exists (fst (forward_hook c m x on out ref)), (snd (forward_hook c m x on out ref)). split; [|split; [exact J2|intros _; cbn [event_op]; destruct (forward_hook c m x on out ref); reflexivity]].
    exists gs. cbn [track]. eapply INVL; [|exact J1]. intros r Hr. rewrite H1 by exact Hr. reflexivity.
  - destruct ER as (gr & H1 & H2). pose proof I as (I1 & I2 & I3 & I4).
    apply (lock_weaken R (good R c ty E L Lr gs (event_op c (EBackward out g)) ref)).
    { intros a (ref' & o & A1 & A2 & A3). exists ref', o. split; [|split; [exact A2|exact A3]]. exists gs. cbn [track]. eapply INVL; [|exact A1]. intros r Hr. rewrite H1 by exact Hr. reflexivity. }
    destruct (I3 out) as [[N1 N2]|(m & x & xr & G1 & G2 & G3 & G4 & G5 & G6)].
    + apply (lock_done R _ _ (fun r => (st r, Ok tt))); [intros r Hr; rewrite H1 by exact Hr; cbn [d_event]; rewrite N2 by exact Hr; reflexivity|].
      exists ref, (Ok tt). split; [exact I|]. split; [reflexivity|]. intros _. cbn [event_op]. unfold sbind, getS. rewrite N1. reflexivity.
    + apply (lock_ext R _ (fun r => d_accumulate c m (xr r) (gr r) (st r))); [intros r Hr; rewrite H1 by exact Hr; cbn [d_event]; rewrite (G3 r Hr); reflexivity|].
      assert (FF : forall r, (r < R)%nat -> fits (m_layer m) (xr r) (gr r)).
      { intros r Hr. pose proof (LR r Hr) as X. rewrite H1 in X by exact Hr. exact (X m (xr r) (G5 r Hr)). }
      pose proof (LE m x G4) as F0.
      eapply lock_weaken; [|apply (sim_acc R c ty NR TO ND FLAT E L Lr gs m x xr g gr st ref I G2 FF)].
      * intros a (ref' & o & A1 & A2 & A3). exists ref', o. split; [exact A1|]. split; [exact A2|]. intros HE. rewrite <- (A3 HE). cbn [event_op]. unfold sbind at 1, getS at 1. rewrite G1. reflexivity.
      * intros HE. split; [exact F0|]. destruct (G6 HE) as (b & rest & Nb & Sx & Hx). destruct (H2 HE) as (b' & rest' & Nb' & Sg & Hg).
        destruct (fits_batch _ _ _ _ _ F0 Sg) as (r3 & S3). rewrite Sx in S3. injection S3 as S3 _. assert (b' = b) by nia. subst b'.
        exists b, rest. split; [exact Nb|]. split; [exact Sx|]. intros r Hr. split; [apply Hx; exact Hr|apply Hg; exact Hr].
  - pose proof I as (I1 & I2 & I3 & I4 & I5 & I6 & I7).
    assert (X : exists gr, (forall r, (r < R)%nat -> er r = EGrad p (gr r)) /\
      ((g = None /\ forall r, (r < R)%nat -> gr r = None) \/ exists g0 gr0, g = Some g0 /\ (forall r, (r < R)%nat -> gr r = Some (gr0 r) /\ shape (gr0 r) = shape g0) /\ (E -> mean_of R g0 gr0))).
    { destruct g as [g|].
      - destruct ER as (gr & H1 & H2). exists (fun r => Some (gr r)). split; [intros r Hr; apply H1; exact Hr|]. right. exists g, gr. split; [reflexivity|]. split; [|exact H2]. intros r Hr. split; [reflexivity|apply H1; exact Hr].
      - exists (fun _ => None). split; [exact ER|]. left. auto. }
    destruct X as (gr & H1 & H2).
    pose (put := fun (g : option tensor) (s : state) => set_par (upd (s_par s) p (mkP (p_val (s_par s p)) g (p_buf (s_par s p)))) s).
    apply (lock_done R _ _ (fun r => (put (gr r) (st r), Ok tt))); [intros r Hr; rewrite H1 by exact Hr; reflexivity|].
    exists (put g ref), (Ok tt). split; [|split; [reflexivity|intros _; reflexivity]]. exists gs. cbn [track].
    apply (INVL L); [intros r Hr; rewrite H1 by exact Hr; reflexivity|].
    split; [|split; [|split; [exact I3|split; [exact I4|split; [|split; [exact I6|exact I7]]]]]].
    + intros r Hr. destruct (I1 r Hr) as (T1 & T2 & T3 & T4 & T5 & T6 & T7 & T8). unfold twins. cbn. do 7 (split; [assumption|]). intros y.
      destruct (Nat.eq_dec y p) as [->|Ny]; [rewrite !upd_eq; cbn; apply T8|rewrite !upd_neq by exact Ny; apply T8].
    + intros y. cbn. destruct (Nat.eq_dec y p) as [->|Ny].
      * rewrite upd_eq. destruct H2 as [[-> H2]|(g0 & gr0 & -> & H2 & H3)]; [left|right].
        -- split; [reflexivity|]. intros r Hr. rewrite upd_eq. cbn. apply H2. exact Hr.
        -- exists g0, gr0. split; [reflexivity|]. split; [|exact H3]. intros r Hr. rewrite upd_eq. cbn. apply H2. exact Hr.
      * rewrite upd_neq by exact Ny. destruct (I2 y) as [[N1 N2]|(g1 & gr1 & G1 & G2 & G3)]; [left|right].
        -- split; [exact N1|]. intros r Hr. rewrite upd_neq by exact Ny. apply N2. exact Hr.
        -- exists g1, gr1. split; [exact G1|]. split; [|exact G3]. intros r Hr. rewrite upd_neq by exact Ny. apply G2. exact Hr.
    + intros m Hm. destruct (I5 m Hm) as [F1 F2]. split.
      * intros g1. cbn. destruct (Nat.eq_dec (m_weight m) p) as [Ep|Np]; [|rewrite upd_neq by exact Np; apply F1]. rewrite Ep, upd_eq. cbn. intros ->. apply (LE m Hm). exact Ep.
      * intros b g1 Hb. cbn. destruct (Nat.eq_dec b p) as [Ep|Np]; [|rewrite upd_neq by exact Np; apply F2; exact Hb]. rewrite Ep, upd_eq. cbn. intros ->. apply (LE m Hm). congruence.
  - apply (QUIET (dlift (set_current_grad_scale s)) (set_current_grad_scale s)); [|intros r Hr; rewrite (ER r Hr); split; reflexivity|reflexivity|reflexivity].
    apply sim_op; [apply twins_set_scale|apply set_scale_off|intros; apply set_scale_ty].
  - apply (QUIET (dlift (modify (set_amp a i))) (modify (set_amp a i))); [|intros r Hr; rewrite (ER r Hr); split; reflexivity|reflexivity|reflexivity].
    apply sim_op.
    + intros s t (T1 & T2 & T3 & T4 & T5 & T6 & T7 & T8). split; [reflexivity|]. unfold twins. cbn. auto 10.
    + intros s. repeat split.
    + intros m Hm s T. exact T.
  - apply (QUIET (d_step c closure) (step c closure)); [|intros r Hr; rewrite (ER r Hr); split; reflexivity|reflexivity|reflexivity].
    apply sim_step; assumption.
  - destruct ER as [ER HM]. apply (lock_done R _ _ (fun r => (set_groups gs' (st r), Ok tt))); [intros r Hr; rewrite (ER r Hr); reflexivity|].
    exists (set_groups gs' ref), (Ok tt). split; [|split; [reflexivity|intros _; reflexivity]]. exists gs'. cbn [track].
    apply (INVL L); [intros r Hr; rewrite ER by exact Hr; reflexivity|]. destruct I as (I1 & I2 & I3 & I4 & I5 & I6 & I7).
    split; [|split; [exact I2|split; [exact I3|split; [exact I4|split; [exact I5|split; [reflexivity|exact HM]]]]]].
    intros r Hr. destruct (I1 r Hr) as (T1 & T2 & T3 & T4 & T5 & T6 & T7 & T8). unfold twins. cbn. auto 10.
Qed.

Lemma run_lock es ers : Forall2 (event_rel R E) es ers -> forall L Lr st ref,
  reached L Lr st ref -> legal c es Lr -> (forall r, (r < R)%nat -> legal c (map (fun f => f r) ers) (L r)) ->
  lock R (fun a => exists ref' o L' Lr', reached L' Lr' (fun r => fst (a r)) ref' /\ (forall r, (r < R)%nat -> snd (a r) = o) /\ (E -> ref' = run c es ref /\ o = results c es ref))
    (fun r => d_run c (map (fun f => f r) ers) (st r)).
Proof.
  induction 1 as [|e er es ers HE HF IH]; intros L Lr st ref I LG LR.
  - apply (lock_done R _ _ (fun r => (st r, []))); [reflexivity|]. exists ref, [], L, Lr. auto.
  - cbn [map d_run]. destruct LG as [LG1 LG2]. eapply lock_bind.
    { apply (event_lock e er L Lr st ref I HE LG1). intros r Hr. apply (LR r Hr). }
    intros a (ref1 & o1 & A1 & A2 & A3). eapply lock_bind.
    { apply (IH _ _ _ _ A1 LG2). intros r Hr. apply (LR r Hr). }
    intros b (ref2 & o2 & L2 & Lr2 & B1 & B2 & B3). apply (lock_ret R _ (fun r => (fst (b r), snd (a r) :: snd (b r)))).
    exists ref2, (o1 :: o2), L2, Lr2. split; [exact B1|]. split; [intros r Hr; cbn [snd]; rewrite A2, B2 by exact Hr; reflexivity|].
    intros X. cbn [run results]. rewrite (A3 X). cbn [fst snd]. destruct (B3 X) as [-> ->]. auto.
Qed.

End Hist.

(** From the constructor. *)
Lemma run_world R a par c st0 (E : Prop) es ers :
  R <> O -> setting a par c st0 -> (forall m, In m (c_mods c) -> bias_ok m) -> (forall p, p_grad (s_par st0 p) = None) -> (forall out, s_pend st0 out = None) ->
  (E -> Forall mean_loss (s_groups st0)) -> Forall2 (event_rel R E) es ers -> legal c es (fun _ => None) -> (forall r, (r < R)%nat -> legal c (map (fun f => f r) ers) (fun _ => None)) ->
  exists (st' : nat -> state) o ref', world (map (fun r => d_run c (map (fun f => f r) ers) st0) (seq 0 R)) = Some (map (fun r => (st' r, o)) (seq 0 R)) /\
    (forall r, (r < R)%nat -> twins (st' r) ref') /\ (E -> ref' = run c es st0 /\ o = results c es st0).
Proof.
  intros NR S BO NG NP ML ER LG LR. pose proof (setting_ok _ _ _ _ S) as [[NK NPa] LO]. destruct S as ((h & h' & EC) & _ & _ & _ & SO).
  destruct (ctor_typed _ _ _ _ _ _ EC NK SO LO) as (TO & TA & TI).
  assert (FLAT : forall m, In m (c_mods c) -> let '(cK, cC, _, _) := ctor_ty c (s_groups st0) m in In cK supported_structures /\ In cC supported_structures).
  { intros m Hm. destruct (TI m Hm) as (g & cK & cC & dK & dC & K & C & G1 & G2 & _ & -> & _). apply (SO g); [eapply get_group_In; exact G1|exact G2]. }
  destruct (world_lock R _ _ NR (run_lock R c _ NR TO NK FLAT BO E es ers ER (fun _ _ => None) (fun _ => None) (fun _ => st0) st0
    ltac:(exists (s_groups st0); split; [intros; apply twins_refl|]; split; [intros p; left; rewrite NG; auto|]; split; [intros out; left; rewrite NP; auto|];
          split; [apply TA|]; split; [intros m Hm; split; intros; rewrite NG in *; discriminate|]; auto) LG LR)) as (b & W & ref' & o & L' & Lr' & [gs' I] & B2 & B3).
  exists (fun r => fst (b r)), o, ref'. split; [|split; [apply I|exact B3]]. rewrite W. f_equal. apply map_ext_in. intros r Hr. apply in_seq in Hr. rewrite <- (B2 r) by lia. apply surjective_pairing.
Qed.

Lemma aligned_rel R er : (forall r, (r < R)%nat -> aligned (er O) (er r)) -> event_rel R False (er O) er.
Proof.
  intros H. unfold event_rel. destruct (er O) as [m x on out|out g|p [g|]|s|a i|cl|gs] eqn:E0; try exact H.
  - exists (fun r => match er r with EForward _ y _ _ => y | _ => x end). split; [|intros []]. intros r Hr. destruct (H r Hr) as (y & ->). reflexivity.
  - exists (fun r => match er r with EBackward _ y => y | _ => g end). split; [|intros []]. intros r Hr. destruct (H r Hr) as (y & ->). reflexivity.
  - exists (fun r => match er r with EGrad _ (Some y) => y | _ => g end). split; [|intros []]. intros r Hr. destruct (H r Hr) as (y & -> & S). auto.
  - split; [exact H|intros []].
Qed.

Lemma split_rel R e er : split_event R true e er -> event_rel R True e er.
Proof.
  unfold split_event, event_rel. destruct e as [m x on out|out g|p [g|]|s|a i|cl|gs]; auto.
  - intros (b & rest & Nb & Sx & H). exists (fun r => part x (r * b) b). split; [exact H|]. intros _. exists b, rest. auto.
  - intros (b & rest & Nb & Sx & H). exists (fun r => t_scale (fofnat R) (part g (r * b) b)). split; [exact H|]. intros _. exists b, rest. auto.
  - intros (gr & H1 & H2). exists gr. split; [exact H1|]. intros _ idx Hi. exact (H2 idx Hi).
  - intros [H1 H2]. split; [exact H1|]. intros _. exact H2.
Qed.

Lemma ctor_fresh a par c st0 : setting a par c st0 -> (forall p, p_grad (par p) = None) ->
  (forall p, p_grad (s_par st0 p) = None) /\ forall out, s_pend st0 out = None.
Proof.
  intros ((h & h' & E) & _) H. unfold ctor in E.
  apply sbind_ok in E as (? & ? & _ & E). apply sbind_ok in E as (? & ? & _ & E). apply sbind_ok in E as (? & gs0 & E1 & E). apply sbind_ok in E as (? & [gs p2g] & E2 & E).
  apply sbind_ok in E as (? & ? & _ & E). cbv zeta in E. apply sbind_ok in E as (? & d & E3 & E). injection E as _ <- <-. cbn. auto.
Qed.

Lemma collectives_match R a par c st0 es :
  R <> O -> setting a par c st0 -> (forall m, In m (c_mods c) -> bias_ok m) -> (forall p, p_grad (par p) = None) ->
  Forall (fun er => forall r, (r < R)%nat -> aligned (er O) (er r)) es -> (forall r, (r < R)%nat -> legal c (of_rank r es) (fun _ => None)) ->
  exists (st : nat -> state) o, world (map (fun r => d_run c (of_rank r es) st0) (seq 0 R)) = Some (map (fun r => (st r, o)) (seq 0 R)) /\
    forall r, (r < R)%nat -> twins (st r) (st O).
Proof.
  intros NR S BO NG AL LG. destruct (ctor_fresh _ _ _ _ S NG) as [F1 F2].
  destruct (run_world R a par c st0 False (of_rank O es) es NR S BO F1 F2 ltac:(intros []) ) as (st & o & ref & W & T & _); [|apply LG; lia|exact LG|].
  - unfold of_rank. clear LG. induction AL as [|er es H _ IH]; [constructor|]. constructor; [apply aligned_rel; exact H|exact IH].
  - exists st, o. split; [exact W|]. intros r Hr. destruct (T r Hr) as (A1 & A2 & A3 & A4 & A5 & A6 & A7 & A8). destruct (T O ltac:(lia)) as (B1 & B2 & B3 & B4 & B5 & B6 & B7 & B8).
    unfold twins. do 6 (split; [congruence|]). split; [intros k; rewrite A7, B7; reflexivity|]. intros p. rewrite (proj1 (A8 p)), (proj1 (B8 p)), (proj2 (A8 p)), (proj2 (B8 p)). auto.
Qed.

(** The processes' histories are legal if that of the single process is. *)
Lemma split_legal R mean c es ers r : (r < R)%nat -> Forall2 (split_event R mean) es ers -> forall last lr,
  (forall out, last out = None /\ lr out = None \/ exists m x b rest, last out = Some (m, x) /\ b <> O /\ shape x = (R * b)%nat :: rest /\ lr out = Some (m, part x (r * b) b)) ->
  legal c es last -> legal c (of_rank r ers) lr.
Proof.
  intros Hr. induction 1 as [|e er es ers H HF IH]; intros last lr D LG; [exact I|]. destruct LG as [L1 L2]. cbn [of_rank map legal]. fold (of_rank r ers).
  destruct e as [m x on out|out g|p [g|]|s|a i|cl|gs]; cbn [split_event legal_event track] in *.
  - destruct H as (b & rest & Nb & Sx & H). rewrite (H r Hr). split; [exact L1|]. cbn [track]. refine (IH _ _ _ L2). intros o. destruct (Nat.eq_dec o out) as [->|No]; [rewrite !upd_eq; right; exists m, x, b, rest; auto|rewrite !upd_neq by exact No; apply D].
  - destruct H as (b & rest & Nb & Sg & H). rewrite (H r Hr). split; [|exact (IH _ _ D L2)]. intros m x Hl. destruct (D out) as [[_ N]|(m' & x' & b' & rest' & D1 & D2 & D3 & D4)]; [congruence|].
    rewrite D4 in Hl. injection Hl as <- <-. pose proof (L1 m' x' D1) as F0. destruct (fits_batch _ _ _ _ _ F0 Sg) as (r3 & S3). rewrite D3 in S3. injection S3 as S3 _. assert (b' = b) by nia. subst b'.
    pose proof (fits_part _ x' g (r * b) b _ _ F0 D3 Nb) as F1. destruct mean; [|exact F1].
    destruct (m_layer m'); [| |contradiction]; cbn [fits] in F1 |- *; exact F1.
  - destruct H as (gr & H & _). destruct (H r Hr) as [-> Sg]. split; [|exact (IH _ _ D L2)]. cbn [legal_event]. intros m Hm. rewrite Sg. exact (L1 m Hm).
  - rewrite (H r Hr). split; [exact I|exact (IH _ _ D L2)].
  - rewrite (H r Hr). split; [exact I|exact (IH _ _ D L2)].
  - rewrite (H r Hr). split; [exact I|exact (IH _ _ D L2)].
  - rewrite (H r Hr). split; [exact I|exact (IH _ _ D L2)].
  - destruct H as [H _]. rewrite (H r Hr). split; [exact I|exact (IH _ _ D L2)].
Qed.

Lemma distributed_equal R a par c st0 es ers :
  R <> O -> setting a par c st0 -> (forall m, In m (c_mods c) -> bias_ok m) -> (forall p, p_grad (par p) = None) ->
  Forall (fun g => g_loss g = LossBatch \/ g_loss g = LossBatchSeq) (s_groups st0) ->
  Forall2 (split_event R true) es ers -> legal c es (fun _ => None) ->
  exists (st : nat -> state), world (map (fun r => d_run c (of_rank r ers) st0) (seq 0 R)) = Some (map (fun r => (st r, results c es st0)) (seq 0 R)) /\
    forall r, (r < R)%nat -> twins (st r) (run c es st0).
Proof.
  intros NR S BO NG ML SP LG. destruct (ctor_fresh _ _ _ _ S NG) as [F1 F2].
  destruct (run_world R a par c st0 True es ers NR S BO F1 F2 (fun _ => ML)) as (st & o & ref & W & T & Q); [|exact LG| |].
  - clear - SP. induction SP; constructor; [apply split_rel; assumption|assumption].
  - intros r Hr. apply (split_legal R true c es ers r Hr SP (fun _ => None) (fun _ => None)); [left; auto|exact LG].
  - destruct (Q I) as [-> ->]. exists st. auto.
Qed.

(** ** all_reduce *)

Lemma all_reduce_world R op c n (s : nat -> smat) (lay : nat -> nat -> bool) :
  R <> O -> cls_ok c -> (forall r, (r < R)%nat -> valid c n (s r)) ->
  (forall r i, (r < R)%nat -> (i < length (tensors (s r)))%nat -> lay r i = true) ->
  exists m, world (map (fun r => all_reduce op (lay r) (s r)) (seq 0 R)) = Some (map (fun _ => m) (seq 0 R)) /\ valid c n m /\
    repr m n (fun i j => let t := sum R (fun r => ent (s r) i j) in match op with OpSum => t | OpAvg => t / fofnat R end).
Proof.
  intros NR OK V HL. destruct (all_reduce_lock R op c n s lay NR OK V HL) as (m & Vm & Em & LK). exists m. destruct (world_lock R _ _ NR LK) as (a & W & Ha).
  split; [|split; [exact Vm|exact Em]]. rewrite W. f_equal. apply map_ext_in. intros r Hr. apply in_seq in Hr. apply Ha. lia.
Qed.

Lemma mixed_nth lay : forall own tots i k d, length own = length tots -> (k < length own)%nat ->
  nth k (mixed lay i own tots) d = if lay (i + k)%nat then nth k tots d else nth k own d.
Proof.
  induction own as [|t own IH]; intros [|x tots] i k d HL Hk; cbn [length] in *; try lia. destruct k as [|k]; cbn [mixed nth].
  - rewrite Nat.add_0_r. reflexivity.
  - rewrite (IH tots (S i) k d) by lia. rewrite Nat.add_succ_comm. reflexivity.
Qed.

Lemma all_reduce_layouts R op c n (s : nat -> smat) (lay : nat -> nat -> bool) :
  R <> O -> cls_ok c -> (forall r, (r < R)%nat -> valid c n (s r)) ->
  exists a : nat -> smat, world (map (fun r => all_reduce op (lay r) (s r)) (seq 0 R)) = Some (map a (seq 0 R)) /\
    forall r, (r < R)%nat -> valid c n (a r) /\ forall k own, nth_error (tensors (s r)) k = Some own ->
      exists t, nth_error (tensors (a r)) k = Some t /\ shape t = shape own /\ forall idx, in_range (shape own) idx ->
        tget t idx = if lay r k then (let x := sum R (fun q => tget (nth k (tensors (s q)) own) idx) in match op with OpSum => x | OpAvg => x / fofnat R end) else tget own idx.
Proof.
  intros NR OK V. destruct (world_lock R _ _ NR (all_reduce_any R op c n s lay NR OK V)) as (a & W & Ha). exists a. split; [exact W|].
  intros r Hr. destruct (Ha r Hr) as [Va Ta]. split; [exact Va|]. intros k own Hk.
  set (N := length (comp_shapes c n)) in *.
  assert (LN : forall q, (q < R)%nat -> length (tensors (s q)) = N) by (intros q Hq; unfold N; rewrite <- (valid_shapes _ _ _ (V q Hq)), map_length; reflexivity).
  assert (kN : (k < N)%nat) by (rewrite <- (LN r Hr); apply nth_error_Some; congruence).
  assert (SH : forall q d, (q < R)%nat -> shape (nth k (tensors (s q)) d) = nth k (comp_shapes c n) []).
  { intros q d Hq. rewrite <- (valid_shapes _ _ _ (V q Hq)). rewrite (nth_indep _ [] (shape d)) by (rewrite map_length, LN; assumption). rewrite map_nth. reflexivity. }
  assert (SO : shape own = nth k (comp_shapes c n) []) by (rewrite <- (SH r own Hr); rewrite (nth_error_nth _ _ own Hk); reflexivity).
  pose (tot := reduced op (map (fun q => comp (tensors (s q)) k) (seq 0 R))).
  assert (ST : forall q, (q < R)%nat -> shape (comp (tensors (s q)) k) = shape own) by (intros q Hq; unfold comp; rewrite SH by exact Hq; symmetry; exact SO).
  destruct (reduced_spec R op (fun q => comp (tensors (s q)) k) (shape own) NR ST) as [S1 S2].
  assert (LT : length (totals R op (fun r => tensors (s r)) N) = N) by (unfold totals; rewrite map_length, seq_length; reflexivity).
  exists (if lay r k then tot else own). split.
  - rewrite Ta. rewrite (nth_error_nth' _ own).
    + f_equal. rewrite mixed_nth by (rewrite ?LT, ?LN by exact Hr; (reflexivity || assumption)). rewrite Nat.add_0_l. destruct (lay r k); [|apply nth_error_nth; exact Hk].
      unfold totals. set (f := fun k => reduced op (map (fun r => comp (tensors (s r)) k) (seq 0 R))). rewrite (nth_indep _ _ (f O)) by (rewrite map_length, seq_length; exact kN).
      rewrite map_nth, seq_nth by exact kN. reflexivity.
    + rewrite <- Ta. rewrite <- (map_length shape), (valid_shapes _ _ _ Va). exact kN.
  - destruct (lay r k); [|auto]. split; [exact S1|]. intros idx Hi. unfold tot. rewrite (S2 idx Hi). unfold red. destruct op; [|f_equal]; apply sum_ext; intros q Hq; unfold comp; f_equal; apply nth_indep; rewrite LN; assumption.
Qed.

Lemma inner_contiguous c n s i : In c supported_structures -> valid c n s -> inner_layout s i = true.
Proof. apply flat_layout. Qed.

End Run.
