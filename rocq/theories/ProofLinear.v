(** C69: trainings superpose. *)

From Coq Require Import List Arith Lia Bool ZArith QArith Qcanon Reals Field.
From Verif Require Import Scalar Res Tensor Structures OptimUtils Optimizer Construct OptState OptRun OptTyped CtorFacts TensorFacts LayerSim ProgressSpec Progress ProgressEx Indep LinearSpec LinearFacts QEx OptEx OptEx2 ProofIndep.
Import ListNotations.
Open Scope nat_scope.

Section PropLinear.
Context {SC : Scalar} {FL : FieldLaws SC}.
Add Field Ffpl : F_ft.

Lemma C69_superposition_lemma : forall x y a par1 par2 par3 c1 c2 c3 st1 st2 st3 es1 es2 es3,
  setting a par1 c1 st1 -> setting a par2 c2 st2 -> setting a par3 c3 st3 -> torch_shapes par1 c1 ->
  (forall p, trained c1 p -> mixes x y (p_val (par1 p)) (p_val (par2 p)) (p_val (par3 p)) /\ omixes x y (p_grad (par1 p)) (p_grad (par2 p)) (p_grad (par3 p))) ->
  mixed_calls x y es1 es2 es3 -> wf_run c1 es1 st1 -> Forall (grad_fits c1) es1 ->
  let s1 := run c1 es1 st1 in let s2 := run c2 es2 st2 in let s3 := run c3 es3 st3 in
  (forall p, trained c1 p ->
     mixes x y (p_val (s_par s1 p)) (p_val (s_par s2 p)) (p_val (s_par s3 p)) /\ omixes x y (p_buf (s_par s1 p)) (p_buf (s_par s2 p)) (p_buf (s_par s3 p))) /\
  outcomes c2 es2 st2 = outcomes c1 es1 st1 /\ outcomes c3 es3 st3 = outcomes c1 es1 st1.
Proof.
  intros x y a par1 par2 par3 c1 c2 c3 st1 st2 st3 es1 es2 es3 S1 S2 S3 TS MP MC W GF.
  pose proof S1 as ((h1 & h1' & E1) & _). pose proof S2 as ((h2 & h2' & E2) & _). pose proof S3 as ((h3 & h3' & E3) & _).
  destruct (ctor_same _ _ _ _ _ _ _ _ _ _ _ E1 E2) as (-> & X2 & Y2). destruct (ctor_same _ _ _ _ _ _ _ _ _ _ _ E1 E3) as (-> & X3 & Y3).
  destruct (setting_facts a par1 c1 st1 [] S1 TS I (Forall_nil _)) as (OK & TO & TA & PF & _). cbn [run] in *.
  pose proof (ctor_state _ _ _ _ _ _ E1) as (_ & _ & _ & _ & _ & _ & P1). pose proof (ctor_state _ _ _ _ _ _ E2) as (_ & _ & _ & _ & _ & _ & P2).
  pose proof (ctor_state _ _ _ _ _ _ E3) as (_ & _ & _ & _ & _ & _ & P3).
  assert (R2 : st2 = set_par (s_par st2) st1). { rewrite X2 at 1. rewrite Y2. unfold twist. destruct st1; reflexivity. }
  assert (R3 : st3 = set_par (s_par st3) st1). { rewrite X3 at 1. rewrite Y3. unfold twist. destruct st1; reflexivity. }
  assert (R1 : st1 = set_par (s_par st1) st1) by (destruct st1; reflexivity).
  assert (H : PM x y c1 (s_par st1) (s_par st2) (s_par st3)).
  { intros m p Hm Hp. destruct (MP p) as [MV MG]; [exists m; split; assumption|].
    constructor; [apply PF; assumption| | |]; rewrite ?P1, ?P2, ?P3; cbn; [exact MV|exact MG|exact I]. }
  assert (W' : wf_run c1 es1 (set_par (s_par st1) st1)) by (rewrite <- R1; exact W).
  destruct (run_mix x y c1 (ctor_ty c1 (s_groups st1)) OK TO (proj1 TS) es1 es2 es3 st1 _ _ _ MC GF TA W' H) as (s' & pa & pb & pc & Q1 & Q2 & Q3 & H' & O2 & O3).
  rewrite <- R1, <- R2, <- R3 in *. cbv zeta. rewrite Q1, Q2, Q3. cbn [s_par set_par]. split; [|split; [exact O2|exact O3]].
  intros p (m & Hm & Hp). destruct (H' m p Hm Hp) as [_ V _ B]. split; assumption.
Qed.

Lemma C69_zero_lemma : forall a par c st0 es,
  setting a par c st0 -> torch_shapes par c ->
  (forall p, trained c p -> all_zero (p_val (par p)) /\ forall g, p_grad (par p) = Some g -> all_zero g) ->
  Forall zero_call es -> wf_run c es st0 -> Forall (grad_fits c) es ->
  forall p, trained c p -> all_zero (p_val (s_par (run c es st0) p)) /\ forall b, p_buf (s_par (run c es st0) p) = Some b -> all_zero b.
Proof.
  intros a par c st0 es S TS Z ZC W GF p Hp.
  assert (ZM : forall t, all_zero t -> mixes (0 : F)%F (0 : F)%F t t t). { intros t Ht. split; [reflexivity|]. split; [reflexivity|]. intros i. rewrite Ht. ring. }
  assert (MC : mixed_calls (0 : F)%F (0 : F)%F es es es).
  { clear W GF. induction ZC as [|e es ZE ZC IH]; [exact I|]. split; [|exact IH]. destruct e as [| |q [g|]| | | |]; cbn; auto. }
  destruct (C69_superposition_lemma 0%F 0%F a par par par c c c st0 st0 st0 es es es S S S TS) as (H & _); try assumption.
  - intros q Hq. destruct (Z q Hq) as [Z1 Z2]. split; [apply ZM; exact Z1|]. unfold omixes. destruct (p_grad (par q)) as [g|]; [apply ZM; apply Z2; reflexivity|exact I].
  - destruct (H p Hp) as [(_ & _ & V) B]. split.
    + intros i. rewrite (V i). ring.
    + intros b Eb. rewrite Eb in B. destruct B as (_ & _ & B). intros i. rewrite (B i). ring.
Qed.
End PropLinear.

(** ** Cases *)

(** 2 times the weights of the first training minus 3 times those of the second. *)
Definition li_par (p : nat) : @pslot Q_scalar :=
  match p with
  | 0 => @mkP Q_scalar (qt [1; 2] [23; -11]%Z) None None
  | 1 => @mkP Q_scalar (qt [1] [-2]%Z) None None
  | _ => @mkP Q_scalar (qt [2; 1] [5; -27]%Z) None None
  end.
Definition li0 (par : nat -> @pslot Q_scalar) : @state Q_scalar := match snd (ctor ex_std par []) with Ok (_, st) => st | Err _ => in0 end.
Definition li_grad (k : Qc) (e : @event Q_scalar) : @event Q_scalar :=
  match e with EGrad p (Some t) => @EGrad Q_scalar p (Some (@t_scale Q_scalar (k : @F Q_scalar) t)) | _ => e end.
Definition mixb (x y : Qc) (a b t : @tensor Q_scalar) : bool :=
  shape_eqb (shape b) (shape a) && shape_eqb (shape t) (shape a) &&
  forallb (fun k => @feqb Q_scalar (nth k (data t) (q 0)) (x * nth k (data a) (q 0) + y * nth k (data b) (q 0))%Qc) (seq 0 (prod (shape a))).

Lemma mixb_ok x y a b t : mixb x y a b t = true -> @mixes Q_scalar x y a b t.
Proof.
  unfold mixb. intros H. apply andb_true_iff in H as [H H3]. apply andb_true_iff in H as [H1 H2]. apply shape_eqb_eq in H1, H2.
  apply (@mixes_intro Q_scalar _ x y (shape a)); auto. intros k Hk. rewrite forallb_forall in H3. apply (@feqb_iff Q_scalar _). apply H3. apply in_seq. lia.
Qed.
Definition omixb (x y : Qc) (a b t : option (@tensor Q_scalar)) : bool :=
  match a, b, t with Some a, Some b, Some t => mixb x y a b t | None, None, None => true | _, _, _ => false end.
Lemma omixb_ok x y a b t : omixb x y a b t = true -> @omixes Q_scalar x y a b t.
Proof. unfold omixb, omixes. destruct a, b, t; try discriminate; [apply mixb_ok|intros _; exact I]. Qed.
Lemma li_setting par : is_ok (snd (ctor ex_std par [])) = true -> s_groups (li0 par) = s_groups in0 -> setting ex_std par in_c (li0 par).
Proof.
  intros O2 EG. destruct (built_setting ex_std) as (_ & S2 & S3 & S4 & S5); [vm_compute; reflexivity|]. split; [|split; [exact S2|split; [exact S3|split; [exact S4|]]]].
  - exists [], (fst (ctor ex_std par [])). unfold li0, in_c, built, in0.
    destruct (ctor ex_std ex_par []) as [h1 r1] eqn:E1. destruct (ctor ex_std par []) as [h2 r2] eqn:E2.
    assert (O1 : built_ok ex_std = true) by (vm_compute; reflexivity). unfold built_ok in O1. rewrite E1 in O1. cbn [snd] in O1. destruct r1 as [[c1 s1]|]; [|discriminate].
    cbn [snd] in O2. destruct r2 as [[c2 s2]|]; [|discriminate].
    destruct (ctor_same _ _ _ _ _ _ _ _ _ _ _ E1 E2) as (-> & _ & _). reflexivity.
  - rewrite EG. exact S5.
Qed.
Lemma li_calls x y k es : @mixed_calls Q_scalar x y es (map (li_grad k) es) (map (li_grad (x + y * k)%Qc) es).
Proof.
  induction es as [|e es IH]; [exact I|]. split; [|exact IH]. destruct e as [| |p [g|]| | | |]; cbn; auto. repeat (split; [reflexivity|]).
  intros i.
  assert (D : forall k, nth i (data (@t_scale Q_scalar k g)) (q 0) = (k * nth i (data g) (q 0))%Qc).
  { intros j. unfold t_scale, t_map. destruct (Nat.lt_ge_cases i (numel g)) as [L|L].
    - rewrite (nth_tget (tab (shape g) (fun idx => @fmul Q_scalar j (tget g idx))) (shape g)) by (exact L || reflexivity). rewrite tget_tab by (apply unflat_range; exact L).
      rewrite <- nth_tget by (exact L || reflexivity). reflexivity.
    - rewrite !nth_overflow; [|rewrite data_length; exact L|rewrite data_length; exact L]. symmetry. apply Qcmult_0_r. }
  change (@f0 Q_scalar) with (q 0). rewrite !D. generalize (nth i (data g) (q 0)). intros v. change ((x + y * k) * v = x * v + y * (k * v))%Qc. ring.
Qed.

Lemma li_trained p : trained in_c p -> p = 0 \/ p = 1 \/ p = 2.
Proof. intros (m & Hm & Hp). vm_compute in Hm. destruct Hm as [<-|[<-|[]]]; vm_compute in Hp; intuition. Qed.

Lemma C69_example_case :
  setting ex_std ex_par in_c (li0 ex_par) /\ setting ex_std in_par in_c (li0 in_par) /\ setting ex_std li_par in_c (li0 li_par) /\ torch_shapes ex_par in_c /\
  (forall p, trained in_c p -> @mixes Q_scalar (q 2) (q (-3)) (p_val (ex_par p)) (p_val (in_par p)) (p_val (li_par p)) /\ @omixes Q_scalar (q 2) (q (-3)) (p_grad (ex_par p)) (p_grad (in_par p)) (p_grad (li_par p))) /\
  @mixed_calls Q_scalar (q 2) (q (-3)) in_hist (map (li_grad (q 4)) in_hist) (map (li_grad (q 2 + q (-3) * q 4)%Qc) in_hist) /\ wf_run in_c in_hist (li0 ex_par) /\ Forall (grad_fits in_c) in_hist /\
  (let s1 := run in_c in_hist (li0 ex_par) in let s2 := run in_c (map (li_grad (q 4)) in_hist) (li0 in_par) in
   let s3 := run in_c (map (li_grad (q 2 + q (-3) * q 4)%Qc) in_hist) (li0 li_par) in
   s_steps s1 = 3 /\ forallb (fun p => mixb (q 2) (q (-3)) (p_val (s_par s1 p)) (p_val (s_par s2 p)) (p_val (s_par s3 p))) [0; 1; 2] = true /\
   val_of s1 0 <> val_of (li0 ex_par) 0 /\ val_of s2 0 <> val_of (li0 in_par) 0 /\ val_of s3 0 <> val_of (li0 li_par) 0 /\
   map is_ok (outcomes in_c in_hist (li0 ex_par)) <> map (fun _ => true) in_hist).
Proof.
  split; [apply li_setting; vm_compute; reflexivity|]. split; [apply li_setting; vm_compute; reflexivity|]. split; [apply li_setting; vm_compute; reflexivity|].
  split; [apply torch_shapesb_ok; vm_compute; reflexivity|].
  split. { intros p Hp. split; [apply mixb_ok|]; destruct (li_trained p Hp) as [->|[->| ->]]; try (vm_compute; reflexivity); exact I. }
  split; [apply li_calls|]. split; [apply wf_runb_ok; vm_compute; reflexivity|]. split; [apply grads_fitb_ok; vm_compute; reflexivity|].
  cbv zeta. split; [vm_compute; reflexivity|]. split; [vm_compute; reflexivity|]. repeat (split; [vm_compute; discriminate|]). vm_compute. discriminate.
Qed.

(** Zero weights, zero gradients, and passes that do move the preconditioners. *)
Definition li_zpar (p : nat) : @pslot Q_scalar :=
  match p with
  | 0 => @mkP Q_scalar (qt [1; 2] [0; 0]%Z) None None
  | 1 => @mkP Q_scalar (qt [1] [0]%Z) None None
  | _ => @mkP Q_scalar (qt [2; 1] [0; 0]%Z) None None
  end.
Definition li_zhist : list (@event Q_scalar) := map (li_grad (q 0)) (ex_iter (q 1) ++ ex_step ++ ex_iter (q 2) ++ ex_step ++ ex_iter (q 1) ++ ex_step).
Definition zerob (t : @tensor Q_scalar) : bool := forallb (fun v => @feqb Q_scalar v (q 0)) (data t).
Lemma zerob_ok t : zerob t = true -> all_zero t.
Proof.
  unfold zerob. intros H i. rewrite forallb_forall in H. destruct (nth_in_or_default i (data t) (@f0 Q_scalar)) as [L|L]; [|exact L].
  apply (@feqb_iff Q_scalar _). apply (H _ L).
Qed.

Lemma C69_zero_example_case :
  setting ex_std li_zpar in_c (li0 li_zpar) /\ torch_shapes li_zpar in_c /\
  (forall p, trained in_c p -> all_zero (p_val (li_zpar p)) /\ forall g, p_grad (li_zpar p) = Some g -> all_zero g) /\
  Forall zero_call li_zhist /\ wf_run in_c li_zhist (li0 li_zpar) /\ Forall (grad_fits in_c) li_zhist /\ trained in_c 0 /\
  (let s := run in_c li_zhist (li0 li_zpar) in
   s_steps s = 3 /\ zerob (p_val (s_par s 0)) = true /\ pre_of s 0 <> pre_of (li0 li_zpar) 0 /\ forallb is_ok (outcomes in_c li_zhist (li0 li_zpar)) = true).
Proof.
  split; [apply li_setting; vm_compute; reflexivity|]. split; [apply torch_shapesb_ok; vm_compute; reflexivity|].
  split. { intros p Hp. split; [apply zerob_ok|]; destruct (li_trained p Hp) as [->|[->| ->]]; try (vm_compute; reflexivity); intros g Eg; discriminate Eg. }
  split. { apply Forall_forall. intros e He. unfold li_zhist in He. apply in_map_iff in He as (e0 & <- & He). 
    assert (X : forallb (fun e => match li_grad (q 0) e with EGrad _ (Some g) => zerob g | _ => true end) (ex_iter (q 1) ++ ex_step ++ ex_iter (q 2) ++ ex_step ++ ex_iter (q 1) ++ ex_step) = true) by (vm_compute; reflexivity).
    rewrite forallb_forall in X. specialize (X e0 He). unfold zero_call. destruct (li_grad (q 0) e0) as [| |p [g|]| | | |]; try exact I. apply zerob_ok. exact X. }
  split; [apply wf_runb_ok; vm_compute; reflexivity|]. split; [apply grads_fitb_ok; vm_compute; reflexivity|].
  split. { exists ex_m1. split; [vm_compute; left; reflexivity|left; reflexivity]. }
  cbv zeta. split; [vm_compute; reflexivity|]. split; [vm_compute; reflexivity|]. split; [vm_compute; discriminate|vm_compute; reflexivity].
Qed.

Lemma C69_loss_refuted_lemma :
  let es k := ex_iter (q k) ++ ex_step in
  let s1 := run in_c (es 1%Z) (li0 li_zpar) in let s2 := run in_c (es 2%Z) (li0 li_zpar) in
  forallb is_ok (outcomes in_c (es 1%Z) (li0 li_zpar)) = true /\ forallb is_ok (outcomes in_c (es 2%Z) (li0 li_zpar)) = true /\
  (forall p, trained in_c p -> @mixes Q_scalar (q 2) (q 0) (p_val (li_zpar p)) (p_val (li_zpar p)) (p_val (li_zpar p)) /\
     @omixes Q_scalar (q 2) (q 0) (p_grad (s_par s1 p)) (p_grad (s_par s1 p)) (p_grad (s_par s2 p))) /\
  ~ @mixes Q_scalar (q 2) (q 0) (p_val (s_par s1 0)) (p_val (s_par s1 0)) (p_val (s_par s2 0)).
Proof.
  cbv zeta. split; [vm_compute; reflexivity|]. split; [vm_compute; reflexivity|]. split.
  { intros p Hp. split; [apply mixb_ok; destruct (li_trained p Hp) as [->|[->| ->]]; vm_compute; reflexivity|].
    apply omixb_ok. destruct (li_trained p Hp) as [->|[->| ->]]; vm_compute; reflexivity. }
  intros (_ & _ & H). specialize (H 0).
  apply (@feqb_iff Q_scalar _) in H. vm_compute in H. discriminate H.
Qed.
