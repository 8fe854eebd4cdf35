(** Helpers for the cases beside the theorems about several processes.  Not a model of code. *)

From Coq Require Import List Arith Lia Bool ZArith QArith Qcanon Field.
From Verif Require Import Scalar Res Tensor TensorFacts Structures StructSpec StructDense OptimUtils UtilsFacts ProofUtils Optimizer Construct OptState OptFacts OptTyped Batch Accum Dist DistSpec QEx OptEx OptEx2 ProofAccum.
Import ListNotations.
Open Scope nat_scope.

Definition dd_mat (z : Z) : @smat Q_scalar :=
  MRec TopRight (Fin 2) Inf CDense CDiag (MDense (qt [2; 2] [z; 2; 3; 4]%Z)) (qt [2; 2] [z; 1; 1; z]%Z) (MDiag (qt [2] [5; z]%Z)).
Definition show_all (w : option (list (@smat Q_scalar))) := match w with Some l => map (fun s => showd (Ok s)) l | None => [] end.

(** Decision procedures. *)
Definition legal_eventb (c : cfg) (last : nat -> option (modul * @tensor Q_scalar)) (e : @event Q_scalar) : bool :=
  match e with
  | EForward m _ _ _ => existsb (fun m' => if modul_eq_dec m m' then true else false) (c_mods c)
  | EBackward out g => match last out with Some (m, x) => fitsb (m_layer m) x g | None => true end
  | EGrad p (Some g) => forallb (fun m => (negb (Nat.eqb (m_weight m) p) || shape_eqb (shape g) (weight_shape (m_layer m))) &&
      match m_bias m with Some b => negb (Nat.eqb b p) || shape_eqb (shape g) [n_out (m_layer m)] | None => true end) (c_mods c)
  | _ => true
  end.
Fixpoint legalb (c : cfg) (es : list (@event Q_scalar)) (last : nat -> option (modul * tensor)) : bool :=
  match es with [] => true | e :: es' => legal_eventb c last e && legalb c es' (track e last) end.
Lemma legalb_ok c es : forall last, legalb c es last = true -> legal c es last.
Proof.
  induction es as [|e es IH]; intros last H; [exact I|]. cbn [legalb legal] in *. apply andb_true_iff in H as [H1 H2]. split; [|exact (IH _ H2)].
  unfold legal_eventb, legal_event in *. destruct e as [m x on out|out g|p [g|]|s|a i|cl|gs]; try exact I.
  - apply existsb_exists in H1 as (m' & Hm & E). destruct (modul_eq_dec m m') as [->|]; [exact Hm|discriminate].
  - intros m x E. rewrite E in H1. apply fitsb_fits. exact H1.
  - intros m Hm. apply (proj1 (forallb_forall _ _) H1) in Hm. apply andb_true_iff in Hm as [A1 A2]. split.
    + intros E. rewrite E, Nat.eqb_refl in A1. apply shape_eqb_eq. exact A1.
    + intros E. rewrite E, Nat.eqb_refl in A2. apply shape_eqb_eq. exact A2.
Qed.

Section Back.
Context {SC : Scalar} {FL : FieldLaws SC}.
Add Field FFdx : F_ft.
Open Scope F_scope.
Lemma mean_back R (v : F) : R <> O -> v = (sum R (fun _ => v) + 0) / fofnat R.
Proof. intros N. rewrite sum_const. field. apply fofnat_neq0. exact N. Qed.
Lemma sum_back R (v : F) : R <> O -> v = sum R (fun _ => v / fofnat R) + 0.
Proof. intros N. rewrite sum_const. field. apply fofnat_neq0. exact N. Qed.
End Back.

(** The part of one of [R] processes with [b] samples each; [d r] is added to its gradients. *)
Definition shard_ev (R b : nat) (mean : bool) (d : nat -> Qc) (e : @event Q_scalar) (r : nat) : @event Q_scalar :=
  match e with
  | EForward m x on out => @EForward Q_scalar m (part x (r * b) b) on out
  | EBackward out g => @EBackward Q_scalar out (if mean then t_scale (@fofnat Q_scalar R) (part g (r * b) b) else part g (r * b) b)
  | EGrad p (Some g) => @EGrad Q_scalar p (Some (@tab Q_scalar (shape g) (fun idx => (if mean then tget g idx + d r else tget g idx / @fofnat Q_scalar R + d r)%F)))
  | _ => e
  end.
Lemma shard_split R b mean d e :
  R <> 0 -> b <> 0 -> @sum Q_scalar R (d : nat -> @F Q_scalar) = (f0 : @F Q_scalar) ->
  match e with
  | EForward _ x _ _ => exists rest, shape x = R * b :: rest | EBackward _ g => exists rest, shape g = R * b :: rest
  | EGroups _ => False | _ => True
  end -> split_event R mean e (shard_ev R b mean d e).
Proof.
  intros NR Nb D H. destruct e as [m x on out|out g|p [g|]|s|a i|cl|gs]; cbn [split_event shard_ev]; try reflexivity; try contradiction.
  - destruct H as (rest & H). exists b, rest. auto.
  - destruct H as (rest & H). exists b, rest. auto.
  - eexists. split; [intros r Hr; split; reflexivity|]. intros idx Hi. cbv zeta.
    rewrite (sum_ext R _ (fun r => ((if mean then tget g idx else (tget g idx / fofnat R)) + d r)%F)) by (intros r Hr; rewrite tget_tab by exact Hi; destruct mean; reflexivity).
    rewrite sum_plus, D. destruct mean; [apply mean_back|apply sum_back]; exact NR.
Qed.

Definition dd_delta (r : nat) : Qc := nth r [q 1; q (-3); q 4; q (-2)] (q 0).
Definition dd_iter (g : list (nat * option (@tensor Q_scalar))) : list (@event Q_scalar) :=
  @pass Q_scalar (map b_call ga_calls) ++ @writes Q_scalar g ++ [@EStep Q_scalar false].
(** Three iterations, the second of which overflows on all processes. *)
Definition dd_hist : list (@event Q_scalar) :=
  dd_iter ga_grads ++ [@EScaler Q_scalar None true] ++ dd_iter ga_grads ++ [@EScaler Q_scalar None false; @ESetScale Q_scalar (q 4)] ++ dd_iter ga_grads ++
  [@EGrad Q_scalar 1 None; @EStep Q_scalar false].
Definition dd_ranks (mean : bool) : list (nat -> @event Q_scalar) := map (shard_ev 4 1 mean dd_delta) dd_hist.
Definition dd_world (la : lossavg) (kf : bool) (es : list (nat -> @event Q_scalar)) :=
  world (map (fun r => d_run (gac la kf) (of_rank r es) (ga0 la kf)) (seq 0 4)).

Lemma dd_split mean : Forall2 (split_event 4 mean) dd_hist (dd_ranks mean).
Proof.
  unfold dd_ranks. assert (H : Forall (fun e => match e with EForward _ x _ _ => exists rest, shape x = 4 * 1 :: rest | EBackward _ g => exists rest, shape g = 4 * 1 :: rest | EGroups _ => False | _ => True end) dd_hist).
  { repeat (apply Forall_cons; [first [exact I|eexists; reflexivity]|]). apply Forall_nil. }
  induction H as [|e es H _ IH]; [constructor|]. constructor; [apply shard_split; [discriminate|discriminate|apply Qc_is_canon; vm_compute; reflexivity|exact H]|exact IH].
Qed.
Lemma dd_bias la kf : c_mods (gac la kf) = [ex_m1; ex_m2] -> forall m, In m (c_mods (gac la kf)) -> bias_ok m.
Proof. intros -> m [<-|[<-|[]]]; reflexivity. Qed.
Lemma dd_loss la kf : match map g_loss (s_groups (ga0 la kf)) with [l] => l = LossBatch | _ => False end -> Forall (fun g => g_loss g = LossBatch \/ g_loss g = LossBatchSeq) (s_groups (ga0 la kf)).
Proof. intros H. destruct (s_groups (ga0 la kf)) as [|g [|? ?]]; try contradiction. apply Forall_cons; [left; exact H|apply Forall_nil]. Qed.

(** What is checked about a final state: counter, values and preconditioners. *)
Definition obs (st : @state Q_scalar) := (s_steps st, val_of st 0, val_of st 1, val_of st 2, pre_of st 0, pre_of st 1).


(** Whether the values of a parameter differ. *)
Definition differs (st st' : @state Q_scalar) (p : nat) : bool :=
  existsb (fun i => negb (@feqb Q_scalar (nth i (data (p_val (s_par st p))) f0) (nth i (data (p_val (s_par st' p))) f0))) (seq 0 (numel (p_val (s_par st p)))).
Lemma differs_ok st st' p : differs st st' p = true -> p_val (s_par st p) <> p_val (s_par st' p).
Proof.
  unfold differs. intros H E. apply existsb_exists in H as (i & _ & H). rewrite E in H. rewrite (proj2 (feqb_iff _ _) eq_refl) in H. discriminate.
Qed.
