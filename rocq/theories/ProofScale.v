(** C26: training is invariant under gradient scaling. *)

From Coq Require Import List Arith Lia Bool ZArith QArith Qcanon Reals Lra.
From Verif Require Import Scalar Res Tensor Structures OptimUtils Optimizer Construct OptState OptRun OptTyped CtorSpec Split ScaleInv ScaleRun QEx OptEx OptEx2 ProofSplit.
Import ListNotations.
Open Scope nat_scope.

Section PropScale.
Context {SC : Scalar} {FL : FieldLaws SC}.

Lemma C26_scaling_lemma a par c st0 sc ann es :
  setting a par c st0 -> a_init_scale a = f1 ->
  (forall t : Z, sc t <> f0 /\ fltb (sc t) f0 = false /\ fmul (fsqrt (sc t)) (fsqrt (sc t)) = sc t) ->
  loop c [] [] es -> wf_run c es st0 -> steps_ok c es st0 ->
  exists t0, (forall hooks h', ctor a par hooks = (h', Ok (c, st0)) -> ctor (with_init (sc (-1)%Z) a) par hooks = (h', Ok (c, t0))) /\
    let es' := scaled sc ann 0 false es in steps_ok c es' t0 /\
    let s := run c es st0 in let t := run c es' t0 in
    s_steps t = s_steps s /\ s_groups t = s_groups s /\
    (forall p, p_val (s_par t p) = p_val (s_par s p) /\ p_buf (s_par t p) = p_buf (s_par s p)) /\
    forall m, In m (c_mods c) -> let k := m_key m in
      sl_K (s_slots t k) = sl_K (s_slots s k) /\ sl_C (s_slots t k) = sl_C (s_slots s k) /\
      sl_mK (s_slots t k) = sl_mK (s_slots s k) /\ sl_mC (s_slots t k) = sl_mC (s_slots s k) /\ sl_HK (s_slots t k) = sl_HK (s_slots s k).
Proof.
  intros SE Ei HS L W OK. destruct (scaled_run a par c st0 sc ann es SE Ei HS L W OK) as (E & K & ty & fr & w & IV).
  eexists. split; [exact E|]. cbv zeta. split; [exact K|]. destruct IV as ((R1 & R2 & _ & _ & R5 & R6 & _) & _).
  split; [exact R1|]. split; [exact R2|]. split; [exact R6|]. intros m Hm. destruct (R5 m Hm) as (X1 & X2 & X3 & X4 & X5 & _). auto.
Qed.

End PropScale.

Lemma C26_scaling_real_lemma (a : @args R_scalar) par c st0 (sc : Z -> R) ann es :
  setting a par c st0 -> a_init_scale a = f1 -> (forall t : Z, (0 < sc t)%R) ->
  loop c [] [] es -> wf_run c es st0 -> steps_ok c es st0 ->
  exists t0, (forall hooks h', ctor a par hooks = (h', Ok (c, st0)) -> ctor (with_init (sc (-1)%Z : @F R_scalar) a) par hooks = (h', Ok (c, t0))) /\
    let es' := @scaled R_scalar sc ann 0 false es in steps_ok c es' t0 /\
    let s := run c es st0 in let t := run c es' t0 in
    s_steps t = s_steps s /\ s_groups t = s_groups s /\
    (forall p, p_val (s_par t p) = p_val (s_par s p) /\ p_buf (s_par t p) = p_buf (s_par s p)) /\
    forall m, In m (c_mods c) -> let k := m_key m in
      sl_K (s_slots t k) = sl_K (s_slots s k) /\ sl_C (s_slots t k) = sl_C (s_slots s k) /\
      sl_mK (s_slots t k) = sl_mK (s_slots s k) /\ sl_mC (s_slots t k) = sl_mC (s_slots s k) /\ sl_HK (s_slots t k) = sl_HK (s_slots s k).
Proof.
  intros SE Ei HP. apply (C26_scaling_lemma a par c st0 (sc : Z -> @F R_scalar) ann es SE Ei). intros t. pose proof (HP t) as P.
  assert (N : @fltb R_scalar (sc t) (@f0 R_scalar) = false).
  { cbn. unfold Rltb. destruct (Rlt_dec (sc t) 0); [lra|reflexivity]. }
  split; [cbn; lra|]. split; [exact N|]. exact (@fsqrt_sqr R_scalar R_sqrt (sc t) N).
Qed.

(** ** Cases *)

Definition si : @args Q_scalar := ex_args PNone (qr 1 2) (qr 1 2) (qr 1 8) 2 dense2 false false (q 1).
Definition sic : cfg := fst (built si).
Definition si0 : @state Q_scalar := snd (built si).
(** An overflow in the second iteration; scales 4, 9, 1/4, 1, ... after an initial scale 16. *)
Definition si_es : list (@event Q_scalar) :=
  ex_iter (q 1) ++ ex_step ++ ex_iter (q 1) ++ [@EScaler Q_scalar None true] ++ ex_step ++ [@EScaler Q_scalar None false] ++ ex_iter (q 1) ++ ex_step.
Definition si_sc (t : Z) : Qc := match t with (-1)%Z => q 16 | 0%Z => q 4 | 1%Z => q 9 | 2%Z => qr 1 4 | _ => q 1 end.
Lemma si_good t : (si_sc t : @F Q_scalar) <> @f0 Q_scalar /\ @fltb Q_scalar (si_sc t) (@f0 Q_scalar) = false /\
  @fmul Q_scalar (@fsqrt Q_scalar (si_sc t)) (@fsqrt Q_scalar (si_sc t)) = (si_sc t : @F Q_scalar).
Proof.
  assert (G : forall x, In x [q 16; q 4; q 9; qr 1 4; q 1] -> (x : @F Q_scalar) <> @f0 Q_scalar /\ @fltb Q_scalar x (@f0 Q_scalar) = false /\
    @fmul Q_scalar (@fsqrt Q_scalar x) (@fsqrt Q_scalar x) = (x : @F Q_scalar)).
  { intros x Hx. repeat (destruct Hx as [<-|Hx]; [split; [vm_compute; discriminate|split; [vm_compute; reflexivity|apply Qc_is_canon; vm_compute; reflexivity]]|]). destruct Hx. }
  apply G. unfold si_sc. destruct t as [|[p|[p|p|]|]|[p|p|]]; cbn; tauto.
Qed.
Lemma si_loop : loop sic [] [] si_es.
Proof.
  assert (M : c_mods sic = [ex_m1; ex_m2]) by (vm_compute; reflexivity).
  assert (W : forall w, In 0 w -> In 1 w -> In 2 w -> forall m p, In m (c_mods sic) -> In p (mod_params m) -> In p w).
  { intros w H0 H1 H2 m p Hm Hp. rewrite M in Hm. destruct Hm as [<-|[<-|[]]]; cbn in Hp; intuition (subst; assumption). }
  unfold si_es, ex_iter, ex_step. cbn [app loop].
  repeat first [ exact I | split; [apply W; cbn; tauto|] | split; [reflexivity|] | split; [cbn; tauto|] ].
Qed.

Lemma C26_example_case :
  setting si ex_par sic si0 /\ a_init_scale si = @f1 Q_scalar /\ loop sic [] [] si_es /\ wf_run sic si_es si0 /\ steps_ok sic si_es si0 /\
  s_steps (run sic si_es si0) = 3 /\ val_of (run sic si_es si0) 2 <> val_of si0 2 /\ pre_of (run sic si_es si0) 0 <> pre_of si0 0.
Proof.
  split; [apply built_setting; vm_compute; reflexivity|]. split; [vm_compute; reflexivity|]. split; [exact si_loop|].
  split; [apply wf_runb_ok; vm_compute; reflexivity|]. split; [apply steps_okb_ok; vm_compute; reflexivity|].
  split; [vm_compute; reflexivity|]. split; vm_compute; discriminate.
Qed.

(** The restriction to fresh outputs is needed: a backward pass through an output of an earlier iteration (a
    kept graph) is weighted with the wrong scale when its statistics are used.  T = 2: the output of iteration 0
    is used again in iteration 1. *)
Fixpoint rewrites (c : cfg) (w : list nat) (es : list (@event Q_scalar)) : Prop :=
  match es with
  | [] => True
  | EGrad p _ :: es' => rewrites c (p :: w) es'
  | EStep _ :: es' => (forall m p, In m (c_mods c) -> In p (mod_params m) -> In p w) /\ rewrites c [] es'
  | EForward _ _ _ _ :: es' | EBackward _ _ :: es' => rewrites c w es'
  | _ => False
  end.
Definition si_stale : list (@event Q_scalar) :=
  ex_iter (q 1) ++ ex_step ++ skipn 2 (ex_iter (q 1)) ++ ex_step ++ ex_iter (q 1) ++ ex_step.
Definition si_sc2 (t : Z) : Qc := match t with 1%Z => q 4 | _ => q 1 end.

Lemma C26_stale_refuted_lemma :
  exists (a : @args Q_scalar) par c st0 sc es,
    setting a par c st0 /\ a_init_scale a = @f1 Q_scalar /\ rewrites c [] es /\ wf_run c es st0 /\ steps_ok c es st0 /\
    (forall t : Z, sc t <> @f0 Q_scalar /\ @fltb Q_scalar (sc t) (@f0 Q_scalar) = false /\ @fmul Q_scalar (@fsqrt Q_scalar (sc t)) (@fsqrt Q_scalar (sc t)) = sc t) /\
    exists t0, (forall hooks h', ctor a par hooks = (h', Ok (c, st0)) -> ctor (with_init (sc (-1)%Z) a) par hooks = (h', Ok (c, t0))) /\
    let es' := scaled sc (fun _ => true) 0 false es in steps_ok c es' t0 /\
    s_steps (run c es' t0) = s_steps (run c es st0) /\ val_of (run c es' t0) 2 <> val_of (run c es st0) 2.
Proof.
  exists si, ex_par, sic, si0, (si_sc2 : Z -> @F Q_scalar), si_stale.
  split; [apply built_setting; vm_compute; reflexivity|]. split; [vm_compute; reflexivity|]. split.
  { assert (M : c_mods sic = [ex_m1; ex_m2]) by (vm_compute; reflexivity).
    assert (W : forall w, In 0 w -> In 1 w -> In 2 w -> forall m p, In m (c_mods sic) -> In p (mod_params m) -> In p w).
    { intros w H0 H1 H2 m p Hm Hp. rewrite M in Hm. destruct Hm as [<-|[<-|[]]]; cbn in Hp; intuition (subst; assumption). }
    unfold si_stale, ex_iter, ex_step. cbn [app rewrites skipn]. repeat first [ exact I | split; [apply W; cbn; tauto|] ]. }
  split; [apply wf_runb_ok; vm_compute; reflexivity|]. split; [apply steps_okb_ok; vm_compute; reflexivity|]. split.
  { assert (G : forall x, In x [q 4; q 1] -> (x : @F Q_scalar) <> @f0 Q_scalar /\ @fltb Q_scalar x (@f0 Q_scalar) = false /\
      @fmul Q_scalar (@fsqrt Q_scalar x) (@fsqrt Q_scalar x) = (x : @F Q_scalar)).
    { intros x Hx. repeat (destruct Hx as [<-|Hx]; [split; [vm_compute; discriminate|split; [vm_compute; reflexivity|apply Qc_is_canon; vm_compute; reflexivity]]|]). destruct Hx. }
    intros t. apply G. unfold si_sc2. destruct t as [|[p|p|]|p]; cbn; tauto. }
  eexists. split; [intros hooks h' E; apply ctor_init; exact E|]. cbv zeta. split; [apply steps_okb_ok; vm_compute; reflexivity|].
  split; vm_compute; [reflexivity|discriminate].
Qed.
