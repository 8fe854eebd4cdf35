(** Decision procedures for the examples beside the statements on exceptions.  Not a model of code. *)

From Coq Require Import List Arith Lia Bool ZArith QArith Qcanon.
From Verif Require Import Scalar Res Tensor TensorFacts Structures OptimUtils Optimizer Construct OptState OptRun OptTyped ProgressSpec QEx OptEx OptEx2.
Import ListNotations.
Open Scope nat_scope.

Section ProgressEx.
Context {SC : Scalar} {FL : FieldLaws SC}.
Open Scope F_scope.

Definition okb (s : F) : bool := negb (feqb s 0) && (feqb s 1 || negb (fltb s 0)).
Lemma okb_ok s : okb s = true -> ok_scale s.
Proof.
  unfold okb. intros H. apply andb_true_iff in H as [H1 H2]. split.
  - intros ->. rewrite (proj2 (feqb_iff 0 0) eq_refl) in H1. discriminate.
  - apply orb_true_iff in H2 as [H2|H2]; [left; apply feqb_iff; exact H2|right; apply negb_true_iff; exact H2].
Qed.

Definition acceptsb (l : layer) (g : group) : bool :=
  match g_approx g, g_loss g, l with
  | _, LossOther, _ => false | ApproxOther, _, _ => false
  | Expand, _, Conv2d _ => false
  | _, _, _ => true
  end.
Lemma acceptsb_ok l g : acceptsb l g = true -> accepts l g.
Proof. unfold acceptsb, accepts. destruct (g_approx g), (g_loss g), l; intros H; try discriminate; repeat split; congruence || exact I. Qed.

Definition ok_groupsb (c : cfg) (gs0 gs : list group) : bool :=
  forallb (fun m => match get_group c gs0 m, get_group c gs m with
    | Ok g0, Ok g => negb (Nat.eqb (g_T g) 0) && acceptsb (m_layer m) g && (feqb (g_alpha1 g) 0 || negb (feqb (g_alpha1 g0) 0))
    | _, _ => false end) (c_mods c).
Lemma ok_groupsb_ok c gs0 gs : ok_groupsb c gs0 gs = true -> ok_groups c gs0 gs.
Proof.
  unfold ok_groupsb. rewrite forallb_forall. intros H m Hm. specialize (H m Hm).
  destruct (get_group c gs0 m) as [g0|]; [|discriminate]. destruct (get_group c gs m) as [g|]; [|discriminate]. exists g0, g.
  apply andb_true_iff in H as [H H3]. apply andb_true_iff in H as [H1 H2]. split; [reflexivity|]. split; [reflexivity|].
  split; [intros E; rewrite E in H1; discriminate|]. split; [apply acceptsb_ok; exact H2|]. intros N E.
  apply orb_true_iff in H3 as [H3|H3]; [apply feqb_iff in H3; contradiction|]. rewrite (proj2 (feqb_iff _ _) E) in H3. discriminate.
Qed.

Definition gradb (c : cfg) (p : nat) (t : tensor) : bool :=
  forallb (fun m => negb (existsb (Nat.eqb p) (mod_params m)) || shape_eqb (shape t) (shape_of m p)) (c_mods c).
Lemma gradb_ok c p t : gradb c p t = true -> grad_fits c (EGrad p (Some t)).
Proof.
  unfold gradb. rewrite forallb_forall. intros H m Hm Hp. specialize (H m Hm). apply orb_true_iff in H as [H|H].
  - apply negb_true_iff in H. assert (existsb (Nat.eqb p) (mod_params m) = true) by (apply existsb_exists; exists p; split; [exact Hp|apply Nat.eqb_refl]). congruence.
  - apply shape_eqb_eq. exact H.
Qed.

Definition inclb (l l' : list nat) : bool := forallb (fun x => existsb (Nat.eqb x) l') l.
Lemma inclb_ok l l' : inclb l l' = true -> incl l l'.
Proof.
  unfold inclb. rewrite forallb_forall. intros H x Hx. specialize (H x Hx). apply existsb_exists in H as (y & Hy & E).
  apply Nat.eqb_eq in E. subst. exact Hy.
Qed.

Fixpoint regularb (c : cfg) (gs0 : list group) (outs : list (nat * option (modul * tensor))) (cov grads : list nat) (es : list event) : bool :=
  match es with
  | [] => true
  | e :: es' =>
      match e with
      | EForward m x b out => (if in_dec modul_eq_dec m (c_mods c) then true else false) && regularb c gs0 ((out, if b then Some (m, x) else None) :: outs) cov grads es'
      | EBackward out g => match producer outs out with Some (m, x) => fitsb (m_layer m) x g && regularb c gs0 outs (m_key m :: cov) grads es' | None => false end
      | EGrad p (Some t) => gradb c p t && regularb c gs0 outs cov (p :: grads) es'
      | EGrad p None => regularb c gs0 outs cov (remove Nat.eq_dec p grads) es'
      | ESetScale s => okb s && regularb c gs0 outs cov grads es'
      | EScaler a inf => match a with None => true | Some None => false | Some (Some s) => okb s end && regularb c gs0 outs cov grads es'
      | EGroups gs => match outs, cov with [], [] => ok_groupsb c gs0 gs && regularb c gs0 outs cov grads es' | _, _ => false end
      | EStep closure => negb closure && inclb (map m_key (c_mods c)) cov && inclb (flat_map mod_params (c_mods c)) grads && regularb c gs0 [] [] grads es'
      end
  end.
Lemma regularb_ok c gs0 es : forall outs cov grads, regularb c gs0 outs cov grads es = true -> regular c gs0 outs cov grads es.
Proof.
  induction es as [|e es IH]; intros outs cov grads H; [exact I|]. destruct e as [m x b out|out g|p [g|]|s|a i|closure|gs]; cbn [regularb regular] in *.
  - destruct (in_dec modul_eq_dec m (c_mods c)); [|discriminate]. split; [assumption|apply IH; exact H].
  - destruct (producer outs out) as [[m x]|]; [|discriminate]. apply andb_true_iff in H as [H1 H2]. exists m, x. split; [reflexivity|].
    split; [apply fitsb_fits; exact H1|apply IH; exact H2].
  - apply andb_true_iff in H as [H1 H2]. split; [apply gradb_ok; exact H1|apply IH; exact H2].
  - apply IH. exact H.
  - apply andb_true_iff in H as [H1 H2]. split; [apply okb_ok; exact H1|apply IH; exact H2].
  - apply andb_true_iff in H as [H1 H2]. split; [|apply IH; exact H2]. destruct a as [[s|]|]; [apply okb_ok; exact H1|discriminate|exact I].
  - repeat (apply andb_true_iff in H as [H ?]). split; [destruct closure; [discriminate|reflexivity]|]. split; [apply inclb_ok; assumption|].
    split; [apply inclb_ok; assumption|]. apply IH. assumption.
  - destruct outs; [|discriminate]. destruct cov; [|discriminate]. apply andb_true_iff in H as [H1 H2]. split; [reflexivity|]. split; [reflexivity|].
    split; [apply ok_groupsb_ok; exact H1|apply IH; exact H2].
Qed.

Definition torch_shapesb (par : nat -> pslot) (c : cfg) : bool :=
  forallb (fun m => Bool.eqb (has_bias (m_layer m)) (match m_bias m with Some _ => true | None => false end) &&
    forallb (fun p => shape_eqb (shape (p_val (par p))) (shape_of m p) &&
       match p_grad (par p) with Some t => shape_eqb (shape t) (shape_of m p) | None => true end) (mod_params m)) (c_mods c).
Lemma torch_shapesb_ok par c : torch_shapesb par c = true -> torch_shapes par c.
Proof.
  unfold torch_shapesb. rewrite forallb_forall. intros H. split.
  - intros m Hm. specialize (H m Hm). apply andb_true_iff in H as [H _]. apply eqb_prop. exact H.
  - intros m p Hm Hp. specialize (H m Hm). apply andb_true_iff in H as [_ H]. rewrite forallb_forall in H. specialize (H p Hp).
    apply andb_true_iff in H as [H1 H2]. split; [apply shape_eqb_eq; exact H1|]. intros t E. rewrite E in H2. apply shape_eqb_eq. exact H2.
Qed.

Definition sound_callb (a : args) (c : cfg) (gs0 : list group) : bool :=
  forallb (fun m => match m_layer m, get_group c gs0 m with Conv2d _, _ => false | _, Ok g => negb (Nat.eqb (g_T g) 0) | _, Err _ => true end) (c_mods c) &&
  okb (a_init_scale a).
Lemma sound_callb_ok a c gs0 : sound_callb a c gs0 = true -> sound_call a c gs0.
Proof.
  unfold sound_callb. intros H. apply andb_true_iff in H as [H1 H2]. split; [|apply okb_ok; exact H2].
  rewrite forallb_forall in H1. intros m g Hm E. specialize (H1 m Hm). rewrite E in H1.
  assert (N : g_T g <> O). { intros X. rewrite X in H1. destruct (m_layer m); discriminate. }
  split; [exact N|]. intros _. destruct (m_layer m); [exact I|discriminate|exact I].
Qed.

Definition grads_fitb (c : cfg) (es : list event) : bool := forallb (fun e => match e with EGrad p (Some t) => gradb c p t | _ => true end) es.
Lemma grads_fitb_ok c es : grads_fitb c es = true -> Forall (grad_fits c) es.
Proof.
  unfold grads_fitb. rewrite forallb_forall. intros H. apply Forall_forall. intros e He. specialize (H e He).
  destruct e as [| |p [t|]| | | |]; try exact I. apply gradb_ok. exact H.
Qed.
End ProgressEx.
