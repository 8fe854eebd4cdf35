(** Facts about the data-type model of Dtypes.v: [lowest_precision], and an invariant of all
    histories. *)

From Coq Require Import List Arith Lia Bool ZArith.
From Verif Require Import Scalar Res Structures Optimizer Dtypes.
Import ListNotations.

(** ** lowest_precision *)

Lemma dtype_eqb_eq a b : dtype_eqb a b = true <-> a = b.
Proof.
  destruct a, b; simpl; try (split; congruence).
  rewrite Nat.eqb_eq. split; congruence.
Qed.
Lemma dtype_eqb_refl a : dtype_eqb a a = true.
Proof. apply dtype_eqb_eq. reflexivity. Qed.

(** The order float16 < bfloat16 < float32 of the documentation (utils.py:147). *)
Definition rank (d : dtype) : option nat :=
  match d with Float16 => Some 0 | BFloat16 => Some 1 | Float32 => Some 2 | _ => None end.

Lemma index_rank d : index d supported_types = match rank d with Some n => Ok n | None => Err ValueError end.
Proof. destruct d; reflexivity. Qed.

Lemma member_rank d : existsb (dtype_eqb d) supported_types = match rank d with Some _ => true | None => false end.
Proof. destruct d; reflexivity. Qed.

Lemma mapM_index ds :
  (forall d, In d ds -> rank d <> None) ->
  exists ns, mapM (fun d => index d supported_types) ds = Ok ns /\ map Some ns = map rank ds.
Proof.
  induction ds as [|d ds IH]; intros H; [exists []; split; reflexivity|].
  destruct IH as (ns & E & Em); [intros; apply H; right; assumption|].
  destruct (rank d) as [n|] eqn:Er; [|exfalso; apply (H d); [left; reflexivity|assumption]].
  exists (n :: ns). split; [|simpl; rewrite Er, Em; reflexivity].
  cbn [mapM]. rewrite index_rank, Er. cbn [bind]. rewrite E. reflexivity.
Qed.

Lemma fold_min_spec l : forall x, In (fold_left Nat.min l x) (x :: l) /\ (forall y, In y (x :: l) -> fold_left Nat.min l x <= y).
Proof.
  induction l as [|a l IH]; intros x; cbn [fold_left].
  - split; [left; reflexivity|]. intros y [->|[]]. lia.
  - destruct (IH (Nat.min x a)) as [I L]. split.
    + destruct I as [I|I]; [|right; right; exact I].
      rewrite <- I. destruct (Nat.min_spec x a) as [[_ ->]|[_ ->]]; [left|right; left]; reflexivity.
    + intros y [<-|[<-|I']].
      * assert (H := L _ (or_introl eq_refl)). lia.
      * assert (H := L _ (or_introl eq_refl)). lia.
      * apply L. right. exact I'.
Qed.

(** All arguments supported: an argument of least rank. *)
Lemma lowest_ok ds :
  ds <> [] -> (forall d, In d ds -> rank d <> None) ->
  exists r n, lowest_precision ds = Ok r /\ In r ds /\ rank r = Some n /\
              forall d k, In d ds -> rank d = Some k -> n <= k.
Proof.
  intros Hne H. unfold lowest_precision.
  assert (Ex : existsb (fun d => negb (existsb (dtype_eqb d) supported_types)) ds = false).
  { apply Bool.not_true_is_false. intros E. apply existsb_exists in E as (d & I & E).
    rewrite member_rank in E. specialize (H d I). destruct (rank d); [discriminate|congruence]. }
  rewrite Ex. destruct (mapM_index ds H) as (ns & E & Em). rewrite E. cbn [bind].
  destruct ns as [|n ns]; [destruct ds; [congruence|discriminate]|]. cbn [py_min bind].
  destruct (fold_min_spec ns n) as [I L]. set (k := fold_left Nat.min ns n) in *.
  assert (Ik : In (Some k) (map rank ds)) by (rewrite <- Em; apply in_map; exact I).
  apply in_map_iff in Ik as (d & Ed & Id).
  exists d, k. repeat split; trivial.
  - destruct d; try discriminate Ed; injection Ed as Ed; rewrite <- Ed; reflexivity.
  - intros d' k' Id' Ed'. apply L.
    assert (Ik : In (Some k') (map Some (n :: ns))) by (rewrite Em, <- Ed'; apply in_map; exact Id').
    apply in_map_iff in Ik as (j & Ej & Ij). injection Ej as ->. exact Ij.
Qed.

Lemma lowest_unsupported ds d : In d ds -> rank d = None -> lowest_precision ds = Err NotImplementedError.
Proof.
  intros I E. unfold lowest_precision.
  replace (existsb _ ds) with true; [reflexivity|]. symmetry. apply existsb_exists.
  exists d. split; [exact I|]. rewrite member_rank, E. reflexivity.
Qed.

Lemma all_supported_dec ds : (forall d, In d ds -> rank d <> None) \/ exists d, In d ds /\ rank d = None.
Proof.
  induction ds as [|d ds [IH|(x & I & E)]].
  - left. intros d [].
  - destruct (rank d) eqn:E; [left|right; exists d; split; [left; reflexivity|exact E]].
    intros x [<-|I]; [congruence|apply IH; exact I].
  - right. exists x. split; [right; exact I|exact E].
Qed.

Lemma rank_inj a b n : rank a = Some n -> rank b = Some n -> a = b.
Proof. destruct a, b; simpl; congruence. Qed.

(** The result depends on the set of arguments only. *)
Lemma lowest_set ds ds' :
  ds <> [] -> ds' <> [] -> (forall d, In d ds <-> In d ds') -> lowest_precision ds = lowest_precision ds'.
Proof.
  intros N N' H. destruct (all_supported_dec ds) as [A|(d & I & E)].
  - destruct (lowest_ok ds N A) as (r & n & -> & I & R & L).
    destruct (lowest_ok ds' N') as (r' & n' & -> & I' & R' & L'); [intros d I'; apply A, H; exact I'|].
    f_equal. apply rank_inj with n; [exact R|]. rewrite R'. f_equal.
    apply Nat.le_antisymm; [apply (L' r); [apply H; exact I|exact R]|apply (L r'); [apply H; exact I'|exact R']].
  - rewrite (lowest_unsupported ds d I E), (lowest_unsupported ds' d); [reflexivity|apply H; exact I|exact E].
Qed.

(** ** Operations on matrices of one type *)

(** Floating point types. *)
Definition floating (d : dtype) : Prop := match d with OtherType _ => False | _ => True end.

Lemma promote_same d r : promote d d = Ok r -> r = d.
Proof. destruct d; simpl; congruence. Qed.
Lemma promote_self d : floating d -> promote d d = Ok d.
Proof. destruct d; simpl; tauto. Qed.
Lemma promote_ok a b : floating a -> floating b -> exists r, promote a b = Ok r /\ floating r.
Proof. destruct a, b; simpl; intros H1 H2; try tauto; eexists; split; try reflexivity; exact I. Qed.
Lemma inplace_keeps a b r : inplace_type a b = Ok r -> r = a.
Proof. unfold inplace_type. destruct (promote a b); simpl; congruence. Qed.
Lemma inplace_ok a b : floating a -> floating b -> inplace_type a b = Ok a.
Proof. intros A B. unfold inplace_type. destruct (promote_ok a b A B) as (r & -> & _). reflexivity. Qed.
Lemma mm_self d : mm_type d d = Ok d.
Proof. unfold mm_type. rewrite dtype_eqb_refl. reflexivity. Qed.

Lemma like_new c d d' : t_like (t_new c d) d' = t_new c d'.
Proof. induction c; simpl; congruence. Qed.

Lemma dense_new_inv c d r : t_dense (t_new c d) = Ok r -> r = d.
Proof.
  revert r. induction c; simpl; intros r E; try congruence.
  apply bind_ok in E as (a & Ea & E). apply bind_ok in E as (b & Eb & E).
  rewrite (IHc1 _ Ea), (IHc2 _ Eb) in E. apply promote_same in E. exact E.
Qed.
Lemma dense_new c d : floating d -> t_dense (t_new c d) = Ok d.
Proof. intros H. induction c; simpl; trivial. rewrite IHc1, IHc2. simpl. apply promote_self, H. Qed.

Lemma tensors_new c d : Forall (eq d) (t_tensors (t_new c d)).
Proof.
  induction c; simpl; repeat (apply Forall_cons; [reflexivity|]); try apply Forall_nil.
  apply Forall_app. split; assumption.
Qed.

Lemma add_keeps s o r : t_add_ s o = Ok r -> r = s.
Proof. unfold t_add_. destruct (mapM _ _); simpl; congruence. Qed.

Lemma mapM_all_ok {A B} (f : A -> res B) l : (forall x, In x l -> exists y, f x = Ok y) -> exists ys, mapM f l = Ok ys.
Proof.
  induction l as [|x l IH]; intros H; [exists []; reflexivity|].
  destruct (H x (or_introl eq_refl)) as (y & E). destruct IH as (ys & Es); [intros; apply H; right; assumption|].
  exists (y :: ys). cbn [mapM]. rewrite E. cbn [bind]. rewrite Es. reflexivity.
Qed.

Lemma add_new c c' d d' : floating d -> floating d' -> t_add_ (t_new c d) (t_new c' d') = Ok (t_new c d).
Proof.
  intros H H'. unfold t_add_.
  destruct (mapM_all_ok (fun '(a, b) => inplace_type a b) (combine (t_tensors (t_new c d)) (t_tensors (t_new c' d')))) as (ys & ->); [|reflexivity].
  intros [a b] I. assert (Ia := in_combine_l _ _ _ _ I). assert (Ib := in_combine_r _ _ _ _ I).
  assert (Fa := tensors_new c d). assert (Fb := tensors_new c' d').
  rewrite Forall_forall in Fa, Fb. rewrite <- (Fa _ Ia), <- (Fb _ Ib).
  eexists. apply inplace_ok; assumption.
Qed.

Lemma diag_add_inv c d r : t_diag_add_ (t_new c d) = Ok r -> r = t_new c d.
Proof.
  destruct c; simpl; try congruence. intros E.
  apply bind_ok in E as (x & Ex & E). change (t_dense (t_new (CRec sd ma mc c1 c2) d) = Ok x) in Ex.
  apply dense_new_inv in Ex. subst x. injection E as <-. rewrite !like_new. reflexivity.
Qed.
Lemma diag_add_new c d : floating d -> t_diag_add_ (t_new c d) = Ok (t_new c d).
Proof.
  intros H. destruct c; try reflexivity. unfold t_diag_add_. cbn [t_new].
  change (TRec (t_new c1 d) d (t_new c2 d)) with (t_new (CRec sd ma mc c1 c2) d).
  rewrite (dense_new _ d H). cbn [bind]. rewrite like_new. reflexivity.
Qed.

Lemma momentum_inv c d0 d H P r : t_momentum (t_new c d0) d H P = Ok r -> r = t_new c d.
Proof.
  unfold t_momentum. rewrite like_new. intros E.
  apply bind_ok in E as (m & Em & E). apply add_keeps in Em. subst m.
  apply bind_ok in E as (m & Em & E). apply add_keeps in Em. subst m.
  apply diag_add_inv in E. exact E.
Qed.
Lemma momentum_new c d : floating d -> t_momentum (t_new c d) d (t_new c d) (t_new c d) = Ok (t_new c d).
Proof.
  intros F. unfold t_momentum. rewrite like_new, !add_new by assumption. cbn [bind].
  rewrite add_new by assumption. cbn [bind]. apply diag_add_new, F.
Qed.

Lemma inner_none_inv c d r : t_inner_none (t_new c d) = Ok r -> r = t_new c d.
Proof.
  destruct c; cbn [t_new t_inner_none t_dense t_like bind]; try congruence; intros E.
  - rewrite mm_self in E. destruct d; cbn in E; congruence.
  - apply bind_ok in E as (x & Ex & E). change (t_dense (t_new (CRec sd ma mc c1 c2) d) = Ok x) in Ex.
    apply dense_new_inv in Ex. subst x. injection E as <-. rewrite !like_new. reflexivity.
Qed.
Lemma inner_none_new c d : floating d -> t_inner_none (t_new c d) = Ok (t_new c d).
Proof.
  intros H. destruct c; try reflexivity.
  - destruct d; cbn in *; tauto.
  - unfold t_inner_none. cbn [t_new]. change (TRec (t_new c1 d) d (t_new c2 d)) with (t_new (CRec sd ma mc c1 c2) d).
    rewrite (dense_new _ d H). cbn [bind]. rewrite like_new. reflexivity.
Qed.

(** Classes that never call [lowest_precision]. *)
Definition any_float (c : cls) : Prop :=
  match c with CDense | CDiag | CRec _ _ _ _ _ => True | _ => False end.
Definition suits (c : cls) (d : dtype) : Prop := floating d /\ (rank d <> None \/ any_float c).
(** Classes whose product with a tensor of another type is defined. *)
Definition mixes (c : cls) (x : dtype) : Prop :=
  match c with
  | CDiag => True
  | CBlock _ | CTril | CTriu => rank x <> None
  | _ => False
  end.

Lemma lowest2 a b : rank a <> None -> rank b <> None -> exists r, lowest_precision [a; b] = Ok r.
Proof. destruct a, b; simpl; intros H H'; try congruence; eexists; reflexivity. Qed.

Lemma rmatmat_new c d : suits c d -> t_rmatmat (t_new c d) d = Ok d.
Proof.
  intros [F S]. destruct c; cbn [t_new].
  - simpl. apply mm_self.
  - simpl. apply promote_self, F.
  - destruct S as [S|[]]. simpl. destruct (lowest2 d d S S) as (r & ->). cbn [bind]. apply promote_self, F.
  - destruct S as [S|[]]. simpl. rewrite !mm_self. destruct (lowest2 d d S S) as (r & ->). cbn [bind].
    rewrite !promote_self by exact F. cbn [bind]. rewrite !promote_self by exact F. cbn [bind]. rewrite !promote_self by exact F. cbn [bind].
    rewrite !promote_self by exact F. reflexivity.
  - destruct S as [S|[]]. simpl. destruct (lowest2 d d S S) as (r & ->). reflexivity.
  - destruct S as [S|[]]. simpl. destruct (lowest2 d d S S) as (r & ->). reflexivity.
  - unfold t_rmatmat. change (TRec (t_new c1 d) d (t_new c2 d)) with (t_new (CRec sd ma mc c1 c2) d).
    rewrite (dense_new _ d F). apply mm_self.
Qed.

Lemma matmul_new c d : suits c d -> t_matmul (t_new c d) d = Ok d.
Proof.
  intros [F S]. destruct c; cbn [t_new].
  - simpl. apply mm_self.
  - simpl. apply promote_self, F.
  - destruct S as [S|[]]. simpl. destruct (lowest2 d d S S) as (r & ->). cbn [bind]. apply promote_self, F.
  - simpl. rewrite !mm_self. cbn [bind]. rewrite !promote_self by exact F. cbn [bind].
    rewrite !promote_self by exact F. cbn [bind]. rewrite !promote_self by exact F. cbn [bind]. rewrite !promote_self by exact F. reflexivity.
  - simpl. apply mm_self.
  - simpl. apply mm_self.
  - unfold t_matmul. change (TRec (t_new c1 d) d (t_new c2 d)) with (t_new (CRec sd ma mc c1 c2) d).
    rewrite (dense_new _ d F). apply mm_self.
Qed.

(** [C @ C.rmatmat(x)] for [x] of another type. *)
Lemma twice_mixed c d x :
  suits c d -> floating x -> mixes c x ->
  exists r, (let* u := t_rmatmat (t_new c d) x in t_matmul (t_new c d) u) = Ok r.
Proof.
  intros [F S] Fx M. destruct c; cbn [mixes] in M; try tauto; cbn [t_new].
  - simpl. destruct (promote_ok d x F Fx) as (u & -> & Fu). cbn [bind].
    destruct (promote_ok d u F Fu) as (r & -> & _). exists r. reflexivity.
  - destruct S as [S|[]]. simpl. destruct (lowest2 d x S M) as (r & ->). cbn [bind].
    rewrite (promote_self d F). cbn [bind]. destruct (lowest2 d d S S) as (r' & ->). cbn [bind].
    exists d. reflexivity.
  - destruct S as [S|[]]. simpl. destruct (lowest2 d x S M) as (r & ->). cbn [bind]. exists d. apply mm_self.
  - destruct S as [S|[]]. simpl. destruct (lowest2 d x S M) as (r & ->). cbn [bind]. exists d. apply mm_self.
Qed.

Lemma rmatmat_inv c d r : t_rmatmat (t_new c d) d = Ok r -> r = d.
Proof.
  destruct c; cbn [t_new t_rmatmat t_matmul t_dense].
  - cbn [bind]. rewrite mm_self. congruence.
  - apply promote_same.
  - intros E. apply bind_ok in E as (a & _ & E). apply bind_ok in E as (b & _ & E). apply promote_same in E. exact E.
  - rewrite !mm_self. cbn [bind]. intros E. apply bind_ok in E as (a & _ & E).
    apply bind_ok in E as (x & Ex & E). apply promote_same in Ex. subst x.
    apply bind_ok in E as (x & Ex & E). apply promote_same in Ex. subst x.
    apply bind_ok in E as (x & Ex & E). apply promote_same in Ex. subst x.
    apply bind_ok in E as (x & Ex & E). apply promote_same in Ex. subst x.
    apply promote_same in E. exact E.
  - intros E. apply bind_ok in E as (a & _ & E). congruence.
  - intros E. apply bind_ok in E as (a & _ & E). congruence.
  - change (TRec (t_new c1 d) d (t_new c2 d)) with (t_new (CRec sd ma mc c1 c2) d). intros E.
    apply bind_ok in E as (a & Ea & E). change (t_dense (t_new (CRec sd ma mc c1 c2) d) = Ok a) in Ea.
    apply dense_new_inv in Ea. subst a. rewrite mm_self in E. congruence.
Qed.

Lemma inner_inv c d r : t_inner (t_new c d) d = Ok r -> r = t_new c d.
Proof.
  intros E. assert (N : forall s, s = t_new c d -> (let* x := t_rmatmat s d in Ok (t_like s x)) = Ok r -> r = t_new c d).
  { intros s -> E'. apply bind_ok in E' as (x & Ex & E'). apply rmatmat_inv in Ex. subst x.
    injection E' as <-. apply like_new. }
  destruct c; try (exact (N _ eq_refl E)).
  cbn [t_new t_inner] in *. apply bind_ok in E as (x & Ex & E). apply inplace_keeps in Ex. subst x. congruence.
Qed.
Lemma inner_new c d : suits c d -> t_inner (t_new c d) d = Ok (t_new c d).
Proof.
  intros S. assert (N : forall s, s = t_new c d -> (let* x := t_rmatmat s d in Ok (t_like s x)) = Ok (t_new c d)).
  { intros s ->. rewrite (rmatmat_new c d S). cbn [bind]. rewrite like_new. reflexivity. }
  destruct c; try (exact (N _ eq_refl)).
  destruct S as [F _]. cbn [t_new t_inner]. rewrite (inplace_ok d d F F). reflexivity.
Qed.

Lemma matmul_s_new c d : floating d -> t_matmul_s (t_new c d) (t_new c d) = Ok (t_new c d).
Proof.
  intros F. destruct c; cbn [t_new t_matmul_s].
  - cbn. rewrite mm_self. reflexivity.
  - rewrite promote_self by exact F. reflexivity.
  - rewrite mm_self. reflexivity.
  - rewrite !mm_self. destruct d; cbn in *; tauto.
  - rewrite mm_self. reflexivity.
  - rewrite mm_self. reflexivity.
  - change (TRec (t_new c1 d) d (t_new c2 d)) with (t_new (CRec sd ma mc c1 c2) d).
    rewrite (dense_new _ d F). cbn [bind]. rewrite mm_self. cbn [bind]. rewrite like_new. reflexivity.
Qed.

(** ** An invariant of all histories *)

Section Inv.
Variable ms : list tmod.
Variable par : nat -> dtype.

(** The types the user asked for (None: the type of the weight). *)
Definition wantK (m : tmod) : dtype := or_else (fst (tm_pd m)) (par (tm_weight m)).
Definition wantC (m : tmod) : dtype := or_else (snd (tm_pd m)) (par (tm_weight m)).

(** Combinations for which no operation can raise because of types. *)
Definition compatible (m : tmod) : Prop :=
  suits (tm_clsK m) (wantK m) /\ suits (tm_clsC m) (wantC m) /\ floating (par (tm_weight m)) /\
  (forall b, tm_bias m = Some b -> par b = par (tm_weight m)) /\
  (snd (tm_pd m) = None -> wantK m = par (tm_weight m) \/ mixes (tm_clsC m) (wantK m)).

(** Exceptions due to types. *)
Definition type_exn (e : exn) : Prop :=
  e = RuntimeError \/ e = NotImplementedError \/ e = TypeError \/ e = AttributeError.

Definition slot_ok (m : tmod) (s : tslots) : Prop :=
  ts_K s = t_new (tm_clsK m) (wantK m) /\ ts_C s = t_new (tm_clsC m) (wantC m) /\
  ts_mK s = (if tm_alpha1 m then Some (t_new (tm_clsK m) (wantK m)) else None) /\
  ts_mC s = (if tm_alpha1 m then Some (t_new (tm_clsC m) (wantC m)) else None) /\
  (forall h, ts_HK s = Some h -> h = t_new (tm_clsK m) (wantK m)) /\
  (forall h, ts_HC s = Some h -> h = t_new (tm_clsC m) (wantC m)).

Definition par_ok (p : nat) (s : tpar) : Prop :=
  tp_val s = par p /\ (forall b, tp_buf s = Some b -> b = par p).

Definition inv (st : tstate) : Prop :=
  (forall m, In m ms -> slot_ok m (t_slots st (tm_key m))) /\ (forall p, par_ok p (t_par st p)).

Hypothesis distinct : NoDup (map tm_key ms).

Lemma same_key m m' : In m ms -> In m' ms -> tm_key m = tm_key m' -> m = m'.
Proof.
  revert distinct. induction ms as [|x l IH]; intros ND I I' E; [destruct I|].
  simpl in ND. inversion ND as [|? ? Nx ND']; subst.
  destruct I as [->|I], I' as [->|I']; trivial.
  - exfalso. apply Nx. rewrite E. apply in_map. exact I'.
  - exfalso. apply Nx. rewrite <- E. apply in_map. exact I.
  - apply IH; assumption.
Qed.

Lemma dtypeK_inv m st : inv st -> dtype_K m st = wantK m.
Proof. intros [_ P]. unfold dtype_K, wantK. destruct (P (tm_weight m)) as [-> _]. reflexivity. Qed.
Lemma dtypeC_inv m st : inv st -> dtype_C m st = wantC m.
Proof. intros [_ P]. unfold dtype_C, wantC. destruct (P (tm_weight m)) as [-> _]. reflexivity. Qed.

(** A method keeps the invariant, and raises no type exception for compatible types. *)
Definition fine {S : Type} (I : S -> Prop) (c : Prop) (o : S * res unit) : Prop :=
  I (fst o) /\ (c -> forall e, snd o = Err e -> ~ type_exn e).

Lemma fine_bind {S} (I : S -> Prop) c (x y : SM S unit) st :
  fine I c (x st) -> (forall st', I st' -> fine I c (y st')) -> fine I c ((let! _ := x in y) st).
Proof.
  intros [H1 H2] Hy. unfold sbind. destruct (x st) as [st' [u|e]] eqn:E; cbn [fst snd] in *.
  - apply Hy. exact H1.
  - split; [exact H1|exact H2].
Qed.

Lemma fine_ok {S} (I : S -> Prop) c st : I st -> fine I c (st, Ok tt).
Proof. intros H. split; [exact H|]. intros _ e E. discriminate E. Qed.

Lemma key_not_type : ~ type_exn KeyError.
Proof. unfold type_exn. intuition discriminate. Qed.
Lemma zero_not_type : ~ type_exn ZeroDivisionError.
Proof. unfold type_exn. intuition discriminate. Qed.

Lemma update_fine m s : slot_ok m s -> fine (slot_ok m) (compatible m) (t_update m (wantK m) (wantC m) s).
Proof.
  intros (EK & EC & EmK & EmC & HK & HC).
  assert (F : compatible m -> floating (wantK m) /\ floating (wantC m)).
  { intros ((F1 & _) & (F2 & _) & _). split; assumption. }
  unfold t_update, getS, modify, lift, ret, sbind.
  destruct (ts_HK s) as [hk|] eqn:Ek; cbn [lookup].
  2:{ split; [|intros _ e E; injection E as <-; apply key_not_type].
      cbn [fst]. repeat split; trivial; congruence. }
  rewrite (HK hk eq_refl).
  destruct (ts_HC s) as [hc|] eqn:Ec; cbn [lookup ts_K ts_C ts_mK ts_mC ts_HK ts_HC].
  2:{ split; [|intros _ e E; injection E as <-; apply key_not_type].
      cbn [fst]. repeat split; cbn; trivial; congruence. }
  rewrite (HC hc eq_refl), EK, EC.
  assert (Ifl : slot_ok m (mkTslots (t_new (tm_clsK m) (wantK m)) (t_new (tm_clsC m) (wantC m)) (ts_mK s) (ts_mC s) None None)).
  { repeat split; cbn; trivial; congruence. }
  destruct (t_inner_none (t_new (tm_clsK m) (wantK m))) as [KtK|e] eqn:E1.
  2:{ split; [exact Ifl|]. intros c e' _. rewrite inner_none_new in E1 by apply F, c. discriminate E1. }
  apply inner_none_inv in E1. subst KtK.
  destruct (t_inner_none (t_new (tm_clsC m) (wantC m))) as [CtC|e] eqn:E1.
  2:{ split; [exact Ifl|]. intros c e' _. rewrite inner_none_new in E1 by apply F, c. discriminate E1. }
  apply inner_none_inv in E1. subst CtC.
  destruct (t_momentum (t_new (tm_clsK m) (wantK m)) (wantK m) _ _) as [mK|e] eqn:E1.
  2:{ split; [exact Ifl|]. intros c e' _. rewrite momentum_new in E1 by apply F, c. discriminate E1. }
  apply momentum_inv in E1. subst mK.
  destruct (t_momentum (t_new (tm_clsC m) (wantC m)) (wantC m) _ _) as [mC|e] eqn:E1.
  2:{ split; [exact Ifl|]. intros c e' _. rewrite momentum_new in E1 by apply F, c. discriminate E1. }
  apply momentum_inv in E1. subst mC.
  (* the remaining part, once the momenta are known *)
  assert (Rest : forall s0, slot_ok m s0 ->
    fine (slot_ok m) (compatible m)
      (match t_matmul_s (t_new (tm_clsK m) (wantK m)) (t_new (tm_clsK m) (wantK m)) with
       | Ok P => match t_add_ (t_new (tm_clsK m) (wantK m)) P with
         | Ok K' => match t_matmul_s (t_new (tm_clsC m) (wantC m)) (t_new (tm_clsC m) (wantC m)) with
           | Ok P0 => match t_add_ (t_new (tm_clsC m) (wantC m)) P0 with
             | Ok C' => (mkTslots K' C' (ts_mK s0) (ts_mC s0) (ts_HK s0) (ts_HC s0), Ok tt)
             | Err e => (mkTslots K' (ts_C s0) (ts_mK s0) (ts_mC s0) (ts_HK s0) (ts_HC s0), Err e)
             end
           | Err e => (mkTslots K' (ts_C s0) (ts_mK s0) (ts_mC s0) (ts_HK s0) (ts_HC s0), Err e)
           end
         | Err e => (s0, Err e)
         end
       | Err e => (s0, Err e)
       end)).
  { intros s0 Hs0.
    destruct (t_matmul_s (t_new (tm_clsK m) (wantK m)) _) as [P|e] eqn:E1.
    2:{ split; [exact Hs0|]. intros c e' _. rewrite matmul_s_new in E1 by apply F, c. discriminate E1. }
    destruct (t_add_ (t_new (tm_clsK m) (wantK m)) P) as [K'|e] eqn:E2.
    2:{ split; [exact Hs0|]. intros c e' _. rewrite matmul_s_new in E1 by apply F, c. injection E1 as <-.
        rewrite add_new in E2 by apply F, c. discriminate E2. }
    apply add_keeps in E2. subst K'.
    assert (Hs1 : slot_ok m (mkTslots (t_new (tm_clsK m) (wantK m)) (ts_C s0) (ts_mK s0) (ts_mC s0) (ts_HK s0) (ts_HC s0))).
    { destruct Hs0 as (A1 & A2 & A3 & A4 & A5 & A6). repeat split; cbn; trivial. }
    destruct (t_matmul_s (t_new (tm_clsC m) (wantC m)) _) as [P'|e] eqn:E3.
    2:{ split; [exact Hs1|]. intros c e' _. rewrite matmul_s_new in E3 by apply F, c. discriminate E3. }
    destruct (t_add_ (t_new (tm_clsC m) (wantC m)) P') as [C'|e] eqn:E4.
    2:{ split; [exact Hs1|]. intros c e' _. rewrite matmul_s_new in E3 by apply F, c. injection E3 as <-.
        rewrite add_new in E4 by apply F, c. discriminate E4. }
    apply add_keeps in E4. subst C'. apply fine_ok.
    destruct Hs0 as (A1 & A2 & A3 & A4 & A5 & A6). repeat split; cbn; trivial. }
  destruct (tm_alpha1 m) eqn:Ea.
  2:{ specialize (Rest _ Ifl). cbn [ts_K ts_C ts_mK ts_mC ts_HK ts_HC] in Rest. clear - Rest.
      destruct (t_matmul_s (t_new (tm_clsK m) (wantK m)) _); [|exact Rest].
      destruct (t_add_ (t_new (tm_clsK m) (wantK m)) a); [|exact Rest]. cbn.
      destruct (t_matmul_s (t_new (tm_clsC m) (wantC m)) _); [|exact Rest].
      destruct (t_add_ (t_new (tm_clsC m) (wantC m)) a1); exact Rest. }
  rewrite EmC. cbn [lookup].
  destruct (t_add_ (t_new (tm_clsC m) (wantC m)) (t_new (tm_clsC m) (wantC m))) as [mC|e] eqn:E1.
  2:{ split; [rewrite EmC in Ifl; exact Ifl|]. intros c e' _. rewrite add_new in E1 by apply F, c. discriminate E1. }
  apply add_keeps in E1. subst mC. rewrite EmK. cbn [lookup].
  destruct (t_add_ (t_new (tm_clsK m) (wantK m)) (t_new (tm_clsK m) (wantK m))) as [mK|e] eqn:E1.
  2:{ split; [rewrite EmC, EmK in Ifl; exact Ifl|]. intros c e' _. rewrite add_new in E1 by apply F, c. discriminate E1. }
  apply add_keeps in E1. subst mK. cbn [ts_K ts_C ts_mK ts_mC ts_HK ts_HC].
  rewrite EmC, EmK in Ifl. specialize (Rest _ Ifl). cbn [ts_K ts_C ts_mK ts_mC ts_HK ts_HC] in Rest. clear - Rest.
  destruct (t_matmul_s (t_new (tm_clsK m) (wantK m)) _); [|exact Rest].
  destruct (t_add_ (t_new (tm_clsK m) (wantK m)) a); [|exact Rest]. cbn.
  destruct (t_matmul_s (t_new (tm_clsC m) (wantC m)) _); [|exact Rest].
  destruct (t_add_ (t_new (tm_clsC m) (wantC m)) a1); exact Rest.
Qed.

Lemma on_tslots_fine m c f st :
  In m ms -> inv st -> (forall s, slot_ok m s -> fine (slot_ok m) c (f s)) -> fine inv c (on_tslots (tm_key m) f st).
Proof.
  intros Im [Hs Hp] Hf. unfold on_tslots. specialize (Hf _ (Hs m Im)).
  destruct (f (t_slots st (tm_key m))) as [s' r] eqn:E. destruct Hf as [H1 H2]. cbn [fst snd] in *.
  split; [|exact H2]. split; [|exact Hp]. cbn [t_slots fst]. intros m' Im'. unfold upd.
  destruct (Nat.eqb_spec (tm_key m') (tm_key m)) as [Ek|N]; [|apply Hs, Im'].
  rewrite (same_key m' m Im' Im Ek). exact H1.
Qed.

Lemma on_tpar_fine p (c : Prop) f st :
  inv st -> (forall s, par_ok p s -> fine (par_ok p) c (f s)) -> fine inv c (on_tpar p f st).
Proof.
  intros [Hs Hp] Hf. unfold on_tpar. specialize (Hf _ (Hp p)).
  destruct (f (t_par st p)) as [s' r] eqn:E. destruct Hf as [H1 H2]. cbn [fst snd] in *.
  split; [|exact H2]. split; [exact Hs|]. cbn [t_par fst]. intros p'. unfold upd.
  destruct (Nat.eqb_spec p' p) as [Ek|N]; [subst; exact H1|apply Hp].
Qed.

Lemma param_step_fine m p d s (c : Prop) :
  (c -> floating d /\ floating (par p)) -> par_ok p s -> fine (par_ok p) c (t_param_step m d s).
Proof.
  intros Hc [Ev Eb]. unfold t_param_step, getS, modify, lift, ret, sbind. rewrite Ev.
  assert (Fin : forall d', (c -> floating d') ->
     fine (par_ok p) c
       ((if tm_momentum m then
          fun s0 : tpar =>
          let '(s', r) := (mkTpar (tp_val s0) (Some match tp_buf s with Some b => b | None => par p end), Ok tt) in
          match r with
          | Ok _ => let '(s'0, r0) := (s', inplace_type match tp_buf s with Some b => b | None => par p end d') in
             match r0 with
             | Ok a0 => let '(s'1, r1) := (s'0, inplace_type (par p) a0) in
                match r1 with Ok a1 => (mkTpar a1 (Some a0), Ok tt) | Err e => (s'1, Err e) end
             | Err e => (s'0, Err e)
             end
          | Err e => (s', Err e)
          end
         else fun s0 : tpar =>
          let '(s', r) := (s0, inplace_type (par p) d') in
          match r with Ok a => (mkTpar a (tp_buf s'), Ok tt) | Err e => (s', Err e) end) s)).
  { intros d' Hd'. destruct (tm_momentum m).
    - set (buf := match tp_buf s with Some b => b | None => par p end).
      assert (Eq : buf = par p) by (unfold buf; destruct (tp_buf s); [apply Eb; reflexivity|reflexivity]).
      rewrite Eq. cbn beta iota.
      destruct (inplace_type (par p) d') as [b'|e] eqn:E1.
      2:{ split; [split; cbn; [exact Ev|intros b E; injection E as <-; reflexivity]|].
          intros C. rewrite (inplace_ok _ _ (proj2 (Hc C)) (Hd' C)) in E1. discriminate E1. }
      apply inplace_keeps in E1. subst b'.
      destruct (inplace_type (par p) (par p)) as [v|e] eqn:E1.
      2:{ split; [split; cbn; [exact Ev|intros b E; injection E as <-; reflexivity]|].
          intros C. rewrite (inplace_ok _ _ (proj2 (Hc C)) (proj2 (Hc C))) in E1. discriminate E1. }
      apply inplace_keeps in E1. subst v. apply fine_ok. split; cbn; [reflexivity|].
      intros b E. injection E as <-. reflexivity.
    - destruct (inplace_type (par p) d') as [v|e] eqn:E1.
      2:{ split; [split; assumption|]. intros C. rewrite (inplace_ok _ _ (proj2 (Hc C)) (Hd' C)) in E1. discriminate E1. }
      apply inplace_keeps in E1. subst v. apply fine_ok. split; cbn; [reflexivity|exact Eb]. }
  destruct (tm_wd m).
  - destruct (inplace_type d (par p)) as [d'|e] eqn:E1.
    + apply inplace_keeps in E1. subst d'. apply Fin. intros C. apply (Hc C).
    + split; [split; assumption|]. intros C. destruct (Hc C) as [F1 F2]. rewrite (inplace_ok _ _ F1 F2) in E1. discriminate E1.
  - apply Fin. intros C. apply (Hc C).
Qed.

Lemma nat_grad_fine m s :
  slot_ok m s ->
  compatible m -> t_natural_gradient m (ts_K s) (ts_C s) (par (tm_weight m)) (option_map par (tm_bias m)) = Ok (par (tm_weight m)).
Proof.
  intros (EK & EC & _) (SK & SC & Fw & Hb & Hm). unfold t_natural_gradient.
  assert (Eg : match option_map par (tm_bias m) with None => Ok (par (tm_weight m)) | Some b => promote (par (tm_weight m)) b end = Ok (par (tm_weight m))).
  { destruct (tm_bias m) as [b|]; [|reflexivity]. cbn. rewrite (Hb b eq_refl). apply promote_self, Fw. }
  rewrite Eg, EK, EC. cbn [bind]. fold (wantK m). rewrite (rmatmat_new _ _ SK). cbn [bind].
  rewrite (matmul_new _ _ SK). cbn [bind].
  destruct (snd (tm_pd m)) as [d2|] eqn:E2.
  - assert (Ew : wantC m = d2) by (unfold wantC; rewrite E2; reflexivity).
    cbn [or_else]. rewrite <- Ew, (rmatmat_new _ _ SC). cbn [bind]. rewrite (matmul_new _ _ SC). reflexivity.
  - assert (Ew : wantC m = par (tm_weight m)) by (unfold wantC; rewrite E2; reflexivity).
    cbn [or_else]. destruct (Hm eq_refl) as [Ed|Mx].
    + rewrite Ed, <- Ew, (rmatmat_new _ _ SC). cbn [bind]. rewrite (matmul_new _ _ SC). cbn [bind]. rewrite Ew. reflexivity.
    + destruct (twice_mixed _ _ (wantK m) SC (proj1 SK) Mx) as (r & Er).
      apply bind_ok in Er as (u & Eu & Er). rewrite Eu. cbn [bind]. rewrite Er. reflexivity.
Qed.

Lemma step_module_fine m st : In m ms -> inv st -> fine inv (compatible m) (t_step_module m st).
Proof.
  intros Im Hi. unfold t_step_module. unfold sbind at 1. cbn [getS]. cbv beta.
  unfold sbind at 1. unfold lift at 1. cbv beta.
  unfold t_due. destruct (Nat.eqb (tm_T m) 0) eqn:ET.
  { split; [exact Hi|]. intros _ e E. injection E as <-. apply zero_not_type. }
  apply fine_bind.
  { destruct (Nat.eqb (t_steps st mod tm_T m) 0); [|apply fine_ok, Hi].
    rewrite (dtypeK_inv m st Hi), (dtypeC_inv m st Hi). apply on_tslots_fine; [exact Im|exact Hi|].
    intros s Hs. apply update_fine, Hs. }
  clear st Hi ET. intros st Hi. unfold sbind at 1. cbn [getS]. cbv beta.
  unfold sbind at 1. unfold lift at 1. cbv beta.
  destruct (proj2 Hi (tm_weight m)) as [Ew _]. rewrite Ew.
  replace (option_map (fun b => tp_val (t_par st b)) (tm_bias m)) with (option_map par (tm_bias m)).
  2:{ destruct (tm_bias m) as [b|]; [|reflexivity]. cbn. destruct (proj2 Hi b) as [-> _]. reflexivity. }
  destruct (t_natural_gradient m _ _ _ _) as [d|e] eqn:En.
  2:{ split; [exact Hi|]. intros C e' _. rewrite (nat_grad_fine m _ (proj1 Hi m Im) C) in En. discriminate En. }
  assert (Hd : compatible m -> floating d /\ floating (par (tm_weight m))).
  { intros C. rewrite (nat_grad_fine m _ (proj1 Hi m Im) C) in En. injection En as <-.
    destruct C as (_ & _ & Fw & _). split; exact Fw. }
  apply fine_bind.
  { apply on_tpar_fine; [exact Hi|]. intros s Hs. apply param_step_fine; assumption. }
  intros st' Hi'. destruct (tm_bias m) as [b|] eqn:Eb; [|apply fine_ok, Hi'].
  apply on_tpar_fine; [exact Hi'|]. intros s Hs. apply param_step_fine; [|exact Hs].
  intros C. destruct (Hd C) as [F1 F2]. split; [exact F1|]. destruct C as (_ & _ & _ & Hb & _).
  rewrite (Hb b Eb). exact F2.
Qed.

Lemma fine_weaken {S} (I : S -> Prop) (c c' : Prop) o : (c' -> c) -> fine I c o -> fine I c' o.
Proof. intros H [H1 H2]. split; [exact H1|]. intros C. apply H2, H, C. Qed.

Definition all_compatible : Prop := forall m, In m ms -> compatible m.

Lemma accumulate_fine m x g st : In m ms -> inv st -> fine inv (compatible m) (t_accumulate m x g st).
Proof.
  intros Im Hi. unfold t_accumulate. rewrite (dtypeK_inv m st Hi), (dtypeC_inv m st Hi).
  destruct (proj1 Hi m Im) as (EK & EC & EmK & EmC & HK & HC). rewrite EK, EC.
  set (s := t_slots st (tm_key m)) in *.
  destruct (t_inner (t_new (tm_clsK m) (wantK m)) (wantK m)) as [hk|e] eqn:E1; cbn [bind].
  2:{ split; [exact Hi|]. intros (SK & _) e' _. rewrite (inner_new _ _ SK) in E1. discriminate E1. }
  apply inner_inv in E1. subst hk.
  destruct (t_inner (t_new (tm_clsC m) (wantC m)) (wantC m)) as [hc|e] eqn:E1; cbn [bind].
  2:{ split; [exact Hi|]. intros (_ & SC & _) e' _. rewrite (inner_new _ _ SC) in E1. discriminate E1. }
  apply inner_inv in E1. subst hc.
  assert (A1 : forall r, match ts_HK s with Some h => t_add_ h (t_new (tm_clsK m) (wantK m)) | None => Ok (t_new (tm_clsK m) (wantK m)) end = r ->
     (forall v, r = Ok v -> v = t_new (tm_clsK m) (wantK m)) /\ (compatible m -> is_ok r = true)).
  { intros r <-. destruct (ts_HK s) as [h|]; [|split; [congruence|reflexivity]].
    rewrite (HK h eq_refl). split; [intros v E; apply add_keeps in E; exact E|].
    intros ((F & _) & _). rewrite (add_new _ _ _ _ F F). reflexivity. }
  assert (A2 : forall r, match ts_HC s with Some h => t_add_ h (t_new (tm_clsC m) (wantC m)) | None => Ok (t_new (tm_clsC m) (wantC m)) end = r ->
     (forall v, r = Ok v -> v = t_new (tm_clsC m) (wantC m)) /\ (compatible m -> is_ok r = true)).
  { intros r <-. destruct (ts_HC s) as [h|]; [|split; [congruence|reflexivity]].
    rewrite (HC h eq_refl). split; [intros v E; apply add_keeps in E; exact E|].
    intros (_ & (F & _) & _). rewrite (add_new _ _ _ _ F F). reflexivity. }
  destruct (match ts_HK s with Some h => t_add_ h _ | None => _ end) as [hk|e] eqn:E1; cbn [bind].
  2:{ split; [exact Hi|]. intros C. destruct (A1 _ eq_refl) as [_ B]. discriminate (B C). }
  destruct (match ts_HC s with Some h => t_add_ h _ | None => _ end) as [hc|e] eqn:E2; cbn [bind].
  2:{ split; [exact Hi|]. intros C. destruct (A2 _ eq_refl) as [_ B]. discriminate (B C). }
  destruct (A1 _ eq_refl) as [V1 _]. destruct (A2 _ eq_refl) as [V2 _].
  rewrite (V1 hk eq_refl), (V2 hc eq_refl). apply fine_ok. split; [|exact (proj2 Hi)].
  cbn [t_slots]. intros m' Im'. unfold upd. destruct (Nat.eqb_spec (tm_key m') (tm_key m)) as [Ek|N].
  - rewrite (same_key m' m Im' Im Ek). repeat split; cbn; trivial; congruence.
  - apply (proj1 Hi m' Im').
Qed.

Lemma steps_fine l : incl l ms -> forall st, inv st -> fine inv all_compatible (forS t_step_module l st).
Proof.
  induction l as [|m l IH]; intros Hl st Hi; [apply fine_ok, Hi|]. cbn [forS]. apply fine_bind.
  - eapply fine_weaken; [|apply step_module_fine; [apply Hl; left; reflexivity|exact Hi]].
    intros C. apply C, Hl. left. reflexivity.
  - intros st' Hi'. apply IH; [intros x I; apply Hl; right; exact I|exact Hi'].
Qed.

Definition event_of (e : tevent) : Prop := match e with TBackward m _ _ => In m ms | TStep _ => True end.

Lemma event_fine e st : event_of e -> inv st -> fine inv all_compatible (t_event ms e st).
Proof.
  destruct e as [m x g|skip]; intros He Hi; cbn [t_event event_of] in *.
  - unfold sbind at 1. cbn [getS]. cbv beta. unfold sbind at 1. unfold lift at 1. cbv beta. unfold t_due.
    destruct (Nat.eqb (tm_T m) 0).
    { split; [exact Hi|]. intros _ e E. injection E as <-. apply zero_not_type. }
    destruct (Nat.eqb (t_steps st mod tm_T m) 0); [|apply fine_ok, Hi].
    eapply fine_weaken; [|apply accumulate_fine; assumption]. intros C. apply C, He.
  - unfold t_step. apply fine_bind.
    + destruct skip; [|apply steps_fine; [apply incl_refl|exact Hi]]. apply fine_ok. split; [|exact (proj2 Hi)].
      cbn [t_slots]. intros m Im. destruct (existsb _ ms); [|apply (proj1 Hi m Im)].
      destruct (proj1 Hi m Im) as (EK & EC & EmK & EmC & _). repeat split; cbn; trivial; congruence.
    + intros st' Hi'. apply fine_ok. exact Hi'.
Qed.

Lemma init_inv : inv (t_init ms par).
Proof.
  split; [|intros p; split; [reflexivity|intros b E; discriminate E]].
  assert (G : forall l f, NoDup (map tm_key l) -> forall m, In m l ->
     fold_left (fun f m => upd f (tm_key m) (t_init_slots m (mkTstate 0 (fun _ => mkTslots (TDense Float32) (TDense Float32) None None None None) (fun p => mkTpar (par p) None)))) l f (tm_key m)
     = t_init_slots m (mkTstate 0 (fun _ => mkTslots (TDense Float32) (TDense Float32) None None None None) (fun p => mkTpar (par p) None))).
  { assert (Out : forall l f k, ~ In k (map tm_key l) ->
       fold_left (fun f m => upd f (tm_key m) (t_init_slots m (mkTstate 0 (fun _ => mkTslots (TDense Float32) (TDense Float32) None None None None) (fun p => mkTpar (par p) None)))) l f k = f k).
    { induction l as [|x l IH]; intros f k N; [reflexivity|]. cbn [fold_left]. rewrite IH; [|intros I; apply N; right; exact I].
      unfold upd. destruct (Nat.eqb_spec k (tm_key x)) as [E|_]; [|reflexivity]. exfalso. apply N. left. congruence. }
    induction l as [|x l IH]; intros f ND m I; [destruct I|].
    simpl in ND. inversion ND as [|? ? Nx ND']; subst. cbn [fold_left]. destruct I as [->|I]; [|apply IH; assumption].
    rewrite Out by exact Nx. unfold upd. rewrite Nat.eqb_refl. reflexivity. }
  intros m Im. unfold t_init. cbn [t_slots]. rewrite (G ms _ distinct m Im).
  unfold t_init_slots. cbn. unfold dtype_K, dtype_C. cbn. fold (wantK m) (wantC m).
  repeat split; cbn; trivial; try congruence.
Qed.

Lemma run_fine es : Forall event_of es -> forall st, inv st ->
  inv (fst (t_run ms es st)) /\
  (all_compatible -> forall e, In (Err e) (snd (t_run ms es st)) -> ~ type_exn e).
Proof.
  induction es as [|e es IH]; intros He st Hi; [split; [exact Hi|intros _ e []]|].
  inversion He as [|? ? H1 H2]; subst. cbn [t_run].
  destruct (event_fine e st H1 Hi) as [Hi' Hr]. destruct (t_event ms e st) as [st' r].
  cbn [fst snd] in *. destruct (IH H2 st' Hi') as [Hi'' Hr'].
  destruct (t_run ms es st') as [st'' rs]. cbn [fst snd] in *. split; [exact Hi''|].
  intros C x [E|I]; [apply (Hr C); exact E|apply (Hr' C); exact I].
Qed.

End Inv.
