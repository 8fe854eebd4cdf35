(** C57: signs of the accumulated statistics. *)

From Coq Require Import List Arith Lia Bool ZArith QArith Qcanon Reals.
From Verif Require Import Scalar Res Tensor Structures StructSpec OptimUtils Optimizer Construct OptState OptRun OptFacts RealOrd OptTyped Psd QEx OptEx OptEx2.
Import ListNotations.
Open Scope nat_scope.

Section PropPsd.
Context {SC : Scalar} {FL : FieldLaws SC} {OR : Ordered SC}.

Lemma C57_diagonal_lemma a par c st0 es m g cK cC dK dC :
  setting a par c st0 -> wf_run c es st0 -> In m (c_mods c) ->
  get_group c (s_groups st0) m = Ok g -> g_structs g = (Some cK, Some cC) -> preconditioner_dims (m_layer m) = Ok (dK, dC) ->
  let s := s_slots (run c es st0) (m_key m) in
  (forall H, sl_HK s = Some H -> diag_nonneg dK (ent H) /\ (0 <= toR (sum dK (fun i => ent H i i)))%R) /\
  (forall H, sl_HC s = Some H -> diag_nonneg dC (ent H) /\ (0 <= toR (sum dC (fun i => ent H i i)))%R).
Proof.
  intros SE W Hm Eg Es Ed s. destruct (stats_signs _ _ _ _ _ _ _ _ _ _ _ SE W Hm Eg Es Ed) as [S1 S2]. fold s in S1, S2.
  split; intros H EH; [destruct (S1 H EH) as [D _]|destruct (S2 H EH) as [D _]]; (split; [exact D|apply trace_nonneg; exact D]).
Qed.

Lemma C57_psd_partial_lemma a par c st0 es m g cK cC dK dC :
  setting a par c st0 -> wf_run c es st0 -> In m (c_mods c) ->
  get_group c (s_groups st0) m = Ok g -> g_structs g = (Some cK, Some cC) -> preconditioner_dims (m_layer m) = Ok (dK, dC) ->
  let s := s_slots (run c es st0) (m_key m) in
  (forall H, sl_HK s = Some H -> principal cK -> psd dK (ent H)) /\
  (forall H, sl_HC s = Some H -> principal cC -> psd dC (ent H)).
Proof.
  intros SE W Hm Eg Es Ed s. destruct (stats_signs _ _ _ _ _ _ _ _ _ _ _ SE W Hm Eg Es Ed) as [S1 S2]. fold s in S1, S2.
  split; intros H EH; [apply (S1 H EH)|apply (S2 H EH)].
Qed.

End PropPsd.

(** ** Cases *)

Definition sg_a (cK : cls) : @args Q_scalar := ex_args PNone (qr 1 2) (qr 1 2) (q 0) 1 (Some cK, Some CDense) false false (q 1).
Definition sg_es : list (@event Q_scalar) := ex_iter (q 1) ++ ex_step ++ ex_iter (q 1).
(** Entries of the statistics of a layer, and the form at a vector. *)
Definition HK_of (st : @state Q_scalar) (k n : nat) : list Q :=
  match sl_HK (s_slots st k) with Some H => map (fun i => this (ent H i i)) (seq 0 n) | None => [] end.
Definition HK_form (st : @state Q_scalar) (k n : nat) (x : list Z) : option Q :=
  match sl_HK (s_slots st k) with Some H => Some (this (@quad Q_scalar n (ent H) (fun i => q (nth i x 0%Z)))) | None => None end.

Lemma C57_diagonal_example_case :
  setting (sg_a CTril) ex_par (fst (built (sg_a CTril))) (snd (built (sg_a CTril))) /\
  wf_run (fst (built (sg_a CTril))) sg_es (snd (built (sg_a CTril))) /\ In ex_m1 (c_mods (fst (built (sg_a CTril)))) /\
  length (HK_of (run (fst (built (sg_a CTril))) sg_es (snd (built (sg_a CTril)))) 0 3) = 3 /\
  forallb (fun x => Qle_bool 0 x && negb (Qeq_bool 0 x)) (HK_of (run (fst (built (sg_a CTril))) sg_es (snd (built (sg_a CTril)))) 0 3) = true.
Proof.
  split; [apply built_setting; vm_compute; reflexivity|]. split; [apply wf_runb_ok; vm_compute; reflexivity|].
  split; [vm_compute; auto|]. repeat split; vm_compute; reflexivity.
Qed.

Lemma C57_psd_example_case :
  setting (sg_a CDense) ex_par (fst (built (sg_a CDense))) (snd (built (sg_a CDense))) /\
  wf_run (fst (built (sg_a CDense))) sg_es (snd (built (sg_a CDense))) /\ In ex_m1 (c_mods (fst (built (sg_a CDense)))) /\ principal CDense /\
  match HK_form (run (fst (built (sg_a CDense))) sg_es (snd (built (sg_a CDense)))) 0 3 [1; -1; 2]%Z with
  | Some v => Qle_bool 0 v && negb (Qeq_bool 0 v) = true | None => False end.
Proof.
  split; [apply built_setting; vm_compute; reflexivity|]. split; [apply wf_runb_ok; vm_compute; reflexivity|].
  split; [vm_compute; auto|]. split; [exact I|]. vm_compute. reflexivity.
Qed.

(** Not so for the triangular Toeplitz structures: one sample (1, 0) of a layer with bias. *)
Definition tp_es : list (@event Q_scalar) :=
  [ @EForward Q_scalar ex_m1 (qt [1; 2] [1; 0]%Z) true 10; @EBackward Q_scalar 10 (qt [1; 1] [1]%Z) ].

Lemma C57_toeplitz_refuted_lemma :
  Forall (fun cK =>
    setting (sg_a cK) ex_par (fst (built (sg_a cK))) (snd (built (sg_a cK))) /\
    wf_run (fst (built (sg_a cK))) tp_es (snd (built (sg_a cK))) /\
    HK_form (run (fst (built (sg_a cK))) tp_es (snd (built (sg_a cK)))) 0 3 [1; 0; -1]%Z = Some (Qmake (-2) 3)) [CTril; CTriu].
Proof.
  apply Forall_cons; [|apply Forall_cons; [|apply Forall_nil]];
    (split; [apply built_setting; vm_compute; reflexivity|split; [apply wf_runb_ok; vm_compute; reflexivity|vm_compute; reflexivity]]).
Qed.

(** Nor for the hierarchical structure: one sample of ones of a layer with 33 inputs. *)
Definition hi_m : modul := mkMod 0 (Linear 33 1 false) 0 None.
Definition hi_a : @args Q_scalar :=
  @mkArgs Q_scalar false [mkNode hi_m true [0]] (fun _ => true) PNone
    (PyFloat (qr 1 10 : @F Q_scalar)) (PyFloat (q 0 : @F Q_scalar)) (PyFloat (q 0 : @F Q_scalar))
    (PyFloat (q 0 : @F Q_scalar)) (PyFloat (q 0 : @F Q_scalar)) 1 LossBatch
    (PyFloat (q 1 : @F Q_scalar)) (Some (CHier 15 15), Some CDense) Expand true false (q 1) false.
Definition hi_par (p : nat) : @pslot Q_scalar := @mkP Q_scalar (qt [1; 33] (repeat 2%Z 33)) None None.
Definition hi_built : cfg * @state Q_scalar :=
  match snd (ctor hi_a hi_par []) with Ok x => x | Err _ => (fst (built hi_a), no_state) end.
Definition hi_es : list (@event Q_scalar) :=
  [ @EForward Q_scalar hi_m (qt [1; 33] (repeat 1%Z 33)) true 10; @EBackward Q_scalar 10 (qt [1; 1] [1]%Z) ].
Definition hi_x : list Z := ([-2] ++ repeat 0 14 ++ [1; 1])%Z.

Lemma C57_hierarchical_refuted_lemma :
  setting hi_a hi_par (fst hi_built) (snd hi_built) /\
  wf_run (fst hi_built) hi_es (snd hi_built) /\
  HK_form (run (fst hi_built) hi_es (snd hi_built)) 0 33 hi_x = Some (Qmake (-2) 1).
Proof.
  split; [|split; [apply wf_runb_ok; vm_compute; reflexivity|vm_compute; reflexivity]].
  split; [|split; [|split; [|split]]].
  - exists [], (fst (ctor hi_a hi_par [])). unfold hi_built.
    assert (E : is_ok (snd (ctor hi_a hi_par [])) = true) by (vm_compute; reflexivity).
    destruct (ctor hi_a hi_par []) as [h [[c st]|e]]; [reflexivity|discriminate E].
  - apply nodupb_ok. vm_compute. reflexivity.
  - intros n dK dC [<-|[]] E. cbn in E. injection E as <- <-. split; discriminate.
  - apply nodupb_ok. vm_compute. reflexivity.
  - assert (E : forallb (fun g => match g_structs g with (Some x, Some y) => supb x && supb y | _ => true end) (s_groups (snd hi_built)) = true)
      by (vm_compute; reflexivity).
    rewrite forallb_forall in E. intros g cK cC Hg Eg. specialize (E g Hg). rewrite Eg in E. apply andb_true_iff in E as [X Y].
    split; apply supb_ok; assumption.
Qed.
