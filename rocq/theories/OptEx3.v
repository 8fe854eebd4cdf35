(** Decision procedures and a rational run for the examples beside the statements on normalised
    learning rates and KFAC-like updates.  Not a model of code. *)

From Coq Require Import List Arith Lia Bool ZArith QArith Qcanon Reals Lra.
From Verif Require Import Scalar Res Tensor TensorFacts Structures StructSpec OptimUtils Optimizer Construct OptState OptRun OptSpec OptFacts OptConsume OptTyped OptStep OptPre RealOrd OptNorm QEx OptEx OptEx2.
Import ListNotations.
Open Scope nat_scope.

(** A test of all states in which [step] is called. *)
Fixpoint at_steps {SC : Scalar} (P : state -> bool) (c : cfg) (es : list event) (st : state) : bool :=
  match es with
  | [] => true
  | e :: es' => (match e with EStep false => P st | _ => true end) && at_steps P c es' (fst (event_op c e st))
  end.
Lemma at_steps_ok {SC : Scalar} P c es st : at_steps P c es st = true ->
  forall es1 es2, es = es1 ++ EStep false :: es2 -> P (run c es1 st) = true.
Proof.
  revert st. induction es as [|e es IH]; intros st H es1 es2 E; [destruct es1; discriminate|].
  cbn [at_steps] in H. apply andb_true_iff in H as [H1 H2]. destruct es1 as [|e1 es1]; cbn [app] in E; injection E as -> E.
  - exact H1.
  - cbn [run]. exact (IH _ H2 es1 es2 E).
Qed.

(** Bounds on the increments. *)
Definition all_within (n : nat) (M : @F Q_scalar) (A : @mat Q_scalar) : bool :=
  forallb (fun i => forallb (fun j => negb (@fltb Q_scalar M (fabs (A i j)))) (seq 0 n)) (seq 0 n).
Lemma all_within_ok n M A : all_within n M A = true -> forall i j, i < n -> j < n -> (Rabs (toR (A i j)) <= toR M)%R.
Proof.
  unfold all_within. rewrite forallb_forall. intros H i j Hi Hj. specialize (H i ltac:(apply in_seq; lia)). rewrite forallb_forall in H.
  specialize (H j ltac:(apply in_seq; lia)). apply negb_true_iff in H. apply toR_nlt in H. rewrite toR_abs in H. exact H.
Qed.

Definition incrb (c : cfg) (m : modul) (cK cC : cls) (dK dC : nat) (M : @F Q_scalar) (st : @state Q_scalar) : bool :=
  match get_group c (s_groups st) m, get_grad_scale (s_scales st) (Z.of_nat (s_steps st) - 1), step_scale st,
        sl_K (s_slots st (m_key m)), sl_C (s_slots st (m_key m)), sl_HK (s_slots st (m_key m)), sl_HC (s_slots st (m_key m)) with
  | Ok g, Ok prev, Ok cur, Some K, Some C, Some HK, Some HC =>
      g_normalize g && negb (@fltb Q_scalar (g_alpha1 g) f0) && negb (@fltb Q_scalar f1 (g_alpha1 g)) &&
      all_within dK M (@doc_mK Q_scalar (g_kfac_like g) false (g_damping g) f0 (fdiv prev (fmul cur cur)) dK dC (proj cK dK)
       (ent HK) (ent HC) (eff K) (eff C) (fun _ _ => f0)) &&
      all_within dC M (@doc_mC Q_scalar (g_kfac_like g) false (g_damping g) f0 (fdiv prev (fmul cur cur)) dK dC (proj cC dC)
       (ent HK) (ent HC) (eff K) (eff C) (fun _ _ => f0))
  | _, _, _, _, _, _, _ => false
  end.
Lemma incrb_ok c m cK cC dK dC M st : incrb c m cK cC dK dC M st = true -> incr_bounded c m cK cC dK dC (toR M) st.
Proof.
  unfold incrb. intros H g prev cur K C HK HC Eg _ Ep Ec EK EC EHK EHC. rewrite Eg, Ep, Ec, EK, EC, EHK, EHC in H.
  apply andb_true_iff in H as [H H5]. apply andb_true_iff in H as [H H4]. apply andb_true_iff in H as [H H3]. apply andb_true_iff in H as [H1 H2].
  split; [exact H1|]. apply negb_true_iff, toR_nlt in H2. apply negb_true_iff, toR_nlt in H3. rewrite toR_0 in H2. rewrite toR_1 in H3.
  split; [split; assumption|]. split; apply all_within_ok; assumption.
Qed.

(** Normalised learning rates: the model of OptEx.v, damping 1/4, alpha1 = 1/2, lr_cov = 1/5 (below one
    over the largest dimension, 3), update in every step. *)
Definition nz_args (kfac_like : bool) : @args Q_scalar :=
  @mkArgs Q_scalar false ex_model (fun _ => true) PNone
    (PyFloat (qr 1 10 : @F Q_scalar)) (PyFloat (q 0 : @F Q_scalar)) (PyFloat (qr 1 4 : @F Q_scalar))
    (PyFloat (qr 1 2 : @F Q_scalar)) (PyFloat (q 0 : @F Q_scalar)) 1 LossBatch
    (PyFloat (qr 1 5 : @F Q_scalar)) dense2 Expand true kfac_like (q 1) (negb kfac_like).
Definition nz_c : cfg := fst (built (nz_args false)).
Definition nz_0 : @state Q_scalar := snd (built (nz_args false)).
Definition nz_es : list (@event Q_scalar) := ex_iter (q 1) ++ ex_step ++ ex_iter (q 1) ++ ex_step.
