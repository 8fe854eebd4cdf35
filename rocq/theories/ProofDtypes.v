(** Properties C17 and C46: data types (singd/structures/utils.py:140-157,
    singd/optim/optimizer.py:385-403, 578-730). *)

From Coq Require Import List Arith Lia Bool ZArith.
From Verif Require Import Scalar Res Structures Optimizer Dtypes DtypeFacts.
Import ListNotations.

(** ** C17 *)

(** The documented order of supported types (utils.py:147). *)
Definition is_supported (d : dtype) : Prop := d = Float16 \/ d = BFloat16 \/ d = Float32.
Definition at_most (a b : dtype) : Prop :=
  match a, b with
  | Float16, _ => True
  | BFloat16, Float16 => False
  | BFloat16, _ => True
  | Float32, Float32 => True
  | _, _ => False
  end.

Lemma supported_rank d : is_supported d <-> rank d <> None.
Proof. unfold is_supported. destruct d; simpl; split; intuition congruence. Qed.

Lemma C17_lowest_lemma ds :
  ds <> [] -> (forall d, In d ds -> is_supported d) ->
  exists r, lowest_precision ds = Ok r /\ In r ds /\ forall d, In d ds -> at_most r d.
Proof.
  intros N H. destruct (lowest_ok ds N) as (r & n & E & I & R & L); [intros d Id; apply supported_rank, H, Id|].
  exists r. split; [exact E|]. split; [exact I|]. intros d Id. specialize (H d Id).
  destruct H as [->|[->| ->]]; destruct r; simpl in *; try discriminate R; trivial;
    injection R as <-; exfalso; specialize (L _ _ Id eq_refl); lia.
Qed.

Lemma C17_unsupported_lemma ds :
  ds <> [] -> (lowest_precision ds = Err NotImplementedError <-> exists d, In d ds /\ ~ is_supported d).
Proof.
  intros N. split.
  - intros E. destruct (all_supported_dec ds) as [A|(d & I & R)].
    + destruct (lowest_ok ds N A) as (r & n & E' & _). congruence.
    + exists d. split; [exact I|]. rewrite supported_rank. intros H. apply H, R.
  - intros (d & I & H). apply (lowest_unsupported ds d I).
    destruct (rank d) eqn:R; [|reflexivity]. exfalso. apply H, supported_rank. congruence.
Qed.

Lemma C17_set_lemma ds ds' :
  ds <> [] -> ds' <> [] -> (forall d, In d ds <-> In d ds') -> lowest_precision ds = lowest_precision ds'.
Proof. exact (lowest_set ds ds'). Qed.

Lemma C17_example_case :
  lowest_precision [Float32; BFloat16; Float32] = Ok BFloat16
  /\ lowest_precision [BFloat16; Float32; BFloat16; Float32] = Ok BFloat16
  /\ lowest_precision [BFloat16; Float16; Float32] = Ok Float16
  /\ lowest_precision [Float16; Float64] = Err NotImplementedError
  /\ lowest_precision [] = Err ValueError.
Proof. repeat split. Qed.

(** ** C46 *)

(** All tensors of a matrix have type [d]. *)
Definition of_type (d : dtype) (s : smt) : Prop := Forall (eq d) (t_tensors s).

(** The type asked for: an entry of [preconditioner_dtype], or the weight's type. *)
Definition asked (o : option dtype) (w : dtype) : dtype := match o with Some d => d | None => w end.

Lemma C46_kept_lemma ms par es :
  NoDup (map tm_key ms) ->
  Forall (fun e => match e with TBackward m _ _ => In m ms | TStep _ => True end) es ->
  let st := fst (t_run ms es (t_init ms par)) in
  (forall m, In m ms ->
     let s := t_slots st (tm_key m) in
     let dK := asked (fst (tm_pd m)) (par (tm_weight m)) in
     let dC := asked (snd (tm_pd m)) (par (tm_weight m)) in
     of_type dK (ts_K s) /\ (forall M, ts_mK s = Some M -> of_type dK M) /\
     of_type dC (ts_C s) /\ (forall M, ts_mC s = Some M -> of_type dC M)) /\
  (forall p, tp_val (t_par st p) = par p /\ forall b, tp_buf (t_par st p) = Some b -> b = par p).
Proof.
  intros ND He st. destruct (run_fine ms par ND es He _ (init_inv ms par ND)) as [[Hs Hp] _]. split.
  - intros m Im. destruct (Hs m Im) as (EK & EC & EmK & EmC & _). cbv zeta. fold st in EK, EC, EmK, EmC.
    rewrite EK, EC, EmK, EmC. unfold of_type, asked. repeat split.
    + apply tensors_new.
    + intros M E. destruct (tm_alpha1 m); [|discriminate E]. injection E as <-. apply tensors_new.
    + apply tensors_new.
    + intros M E. destruct (tm_alpha1 m); [|discriminate E]. injection E as <-. apply tensors_new.
  - exact Hp.
Qed.

(** Types for which training works with a module's structures: floating point types; the
    structures other than dense, diagonal and recursive ones only support the three types of
    [lowest_precision]; weight and bias share a type; and if the type for C is not given, the type for K is
    the weight's type too, or the structure of C is diagonal, block-diagonal or Toeplitz. *)
Definition workable (par : nat -> dtype) (m : tmod) : Prop :=
  let w := par (tm_weight m) in
  let dK := asked (fst (tm_pd m)) w in
  let dC := asked (snd (tm_pd m)) w in
  let floats d := is_supported d \/ d = Float64 in
  let stores c d := is_supported d \/ d = Float64 /\ (c = CDense \/ c = CDiag \/ exists sd ma mc a b, c = CRec sd ma mc a b) in
  floats w /\ stores (tm_clsK m) dK /\ stores (tm_clsC m) dC /\
  (forall b, tm_bias m = Some b -> par b = w) /\
  (snd (tm_pd m) = None ->
   dK = w \/ tm_clsC m = CDiag
   \/ is_supported dK /\ ((exists D, tm_clsC m = CBlock D) \/ tm_clsC m = CTril \/ tm_clsC m = CTriu)).

Lemma workable_compatible par m : workable par m -> compatible par m.
Proof.
  intros (Fw & SK & SC & Hb & Hm).
  assert (FF : forall d, is_supported d \/ d = Float64 -> floating d).
  { intros d [[->|[->| ->]]| ->]; exact I. }
  assert (SS : forall c d, is_supported d \/ d = Float64 /\ (c = CDense \/ c = CDiag \/ exists sd ma mc a b, c = CRec sd ma mc a b) -> suits c d).
  { intros c d [S|[-> S]].
    - split; [apply FF; left; exact S|]. left. apply supported_rank, S.
    - split; [exact I|]. right. destruct S as [->|[->|(sd & ma & mc & a & b & ->)]]; exact I. }
  split; [apply SS, SK|]. split; [apply SS, SC|]. split; [apply FF, Fw|]. split; [exact Hb|].
  intros E. destruct (Hm E) as [Ed|[Ec|(Sd & Ec)]].
  - left. exact Ed.
  - right. rewrite Ec. exact I.
  - right. destruct Ec as [(D & ->)|[->| ->]]; apply supported_rank in Sd; exact Sd.
Qed.

Lemma C46_no_type_errors_partial_lemma ms par es :
  NoDup (map tm_key ms) ->
  Forall (fun e => match e with TBackward m _ _ => In m ms | TStep _ => True end) es ->
  (forall m, In m ms -> workable par m) ->
  forall e, In (Err e) (snd (t_run ms es (t_init ms par))) ->
  e <> RuntimeError /\ e <> NotImplementedError /\ e <> TypeError /\ e <> AttributeError.
Proof.
  intros ND He Hw e Hi. destruct (run_fine ms par ND es He _ (init_inv ms par ND)) as [_ Hr].
  assert (N := Hr (fun m Im => workable_compatible par m (Hw m Im)) e Hi).
  unfold type_exn in N. repeat split; intros ->; apply N; auto.
Qed.

(** Mixed types: bfloat16 weights, K in float32, C in float16 for all kinds of structures; two
    iterations with inputs of other types. All calls succeed. *)
Definition ex_tmod (k : nat) (cK cC : cls) (pd : option dtype * option dtype) : tmod :=
  mkTmod k cK cC (2 * k) (Some (2 * k + 1)) pd 1 true true true.
Definition ex_tmods : list tmod :=
  [ ex_tmod 0 CDense (CHier 15 15) (Some Float32, Some Float16);
    ex_tmod 1 (CBlock 30) CTril (Some Float32, Some Float16);
    ex_tmod 2 CTriu CDiag (None, None);
    ex_tmod 3 (CRec TopRight (Fin 3) Inf CDense CDiag) (CBlock 30) (Some Float16, None) ].
Definition ex_thist (ms : list tmod) : list tevent :=
  map (fun m => TBackward m Float32 BFloat16) ms ++ [TStep false]
  ++ map (fun m => TBackward m BFloat16 Float64) ms ++ [TStep true]
  ++ map (fun m => TBackward m BFloat16 Float64) ms ++ [TStep false].

Lemma C46_example_case :
  NoDup (map tm_key ex_tmods)
  /\ Forall (fun e => match e with TBackward m _ _ => In m ex_tmods | TStep _ => True end) (ex_thist ex_tmods)
  /\ (forall m, In m ex_tmods -> workable (fun _ => BFloat16) m)
  /\ snd (t_run ex_tmods (ex_thist ex_tmods) (t_init ex_tmods (fun _ => BFloat16))) = repeat (Ok tt) 15
  /\ ts_C (t_slots (fst (t_run ex_tmods (ex_thist ex_tmods) (t_init ex_tmods (fun _ => BFloat16)))) 0)
     = THier Float16 Float16 Float16 Float16 Float16.
Proof.
  split; [repeat constructor; simpl; intuition discriminate|].
  split; [repeat (apply Forall_cons; [cbn; tauto|]); apply Forall_nil|].
  split; [|split; reflexivity].
  intros m Hm. unfold workable, is_supported, asked.
  repeat (destruct Hm as [<-|Hm]; [cbn; intuition (try congruence); right; right; split; eauto|]); destruct Hm.
Qed.

Lemma C46_default_type_refuted_lemma :
  exists m par,
    tm_clsK m = CDense /\ tm_clsC m = CDense /\ tm_pd m = (Some Float32, None) /\ (forall p, par p = BFloat16) /\
    snd (t_run [m] [TBackward m BFloat16 BFloat16; TStep false] (t_init [m] par)) = [Ok tt; Err RuntimeError].
Proof. exists (ex_tmod 0 CDense CDense (Some Float32, None)), (fun _ => BFloat16). repeat split. Qed.

(** In general: a module with dense C and such types makes every step of every history fail,
    except the steps skipped because of infinities. *)
Definition at_odds (par : nat -> dtype) (m : tmod) : Prop :=
  tm_clsC m = CDense /\ snd (tm_pd m) = None /\
  exists d, fst (tm_pd m) = Some d /\ suits (tm_clsK m) d /\ d <> par (tm_weight m) /\
  floating (par (tm_weight m)) /\ forall b, tm_bias m = Some b -> par b = par (tm_weight m).

Lemma at_odds_natural_gradient par m s :
  at_odds par m -> slot_ok par m s ->
  t_natural_gradient m (ts_K s) (ts_C s) (par (tm_weight m)) (option_map par (tm_bias m)) = Err RuntimeError.
Proof.
  intros (Ec & E2 & d & E1 & SK & N & Fw & Hb) (EK & EC & _). unfold t_natural_gradient.
  assert (Eg : match option_map par (tm_bias m) with None => Ok (par (tm_weight m)) | Some b => promote (par (tm_weight m)) b end = Ok (par (tm_weight m))).
  { destruct (tm_bias m) as [b|]; [|reflexivity]. cbn. rewrite (Hb b eq_refl). apply promote_self, Fw. }
  assert (WK : wantK par m = d) by (unfold wantK; rewrite E1; reflexivity).
  assert (WC : wantC par m = par (tm_weight m)) by (unfold wantC; rewrite E2; reflexivity).
  rewrite Eg, EK, EC, E1, E2, WK, WC, Ec. cbn [bind or_else]. rewrite (rmatmat_new _ _ SK). cbn [bind].
  rewrite (matmul_new _ _ SK). cbn [bind t_new t_rmatmat t_dense]. unfold mm_type.
  destruct (dtype_eqb (par (tm_weight m)) d) eqn:E; [|reflexivity].
  apply dtype_eqb_eq in E. congruence.
Qed.

Lemma at_odds_step par ms m st :
  NoDup (map tm_key ms) -> In m ms -> at_odds par m -> inv ms par st -> snd (t_step_module m st) <> Ok tt.
Proof.
  intros ND Im Ha Hi. unfold t_step_module. unfold sbind at 1. cbn [getS]. cbv beta.
  unfold sbind at 1. unfold lift at 1. cbv beta.
  unfold t_due. destruct (Nat.eqb (tm_T m) 0); [discriminate|].
  match goal with |- snd ((let! _ := ?x in _) st) <> _ => set (upd1 := x) end.
  assert (Hu : fine (inv ms par) (compatible par m) (upd1 st)).
  { unfold upd1. destruct (Nat.eqb (t_steps st mod tm_T m) 0); [|apply fine_ok, Hi].
    rewrite (dtypeK_inv ms par m st Hi), (dtypeC_inv ms par m st Hi). apply on_tslots_fine; trivial.
    intros s Hs. apply update_fine, Hs. }
  unfold sbind at 1. destruct (upd1 st) as [st' [u|e]]; [|discriminate].
  destruct Hu as [Hi' _]. cbn [fst] in Hi'. unfold sbind at 1. cbn [getS]. cbv beta.
  unfold sbind at 1. unfold lift at 1. cbv beta.
  destruct (proj2 Hi' (tm_weight m)) as [Ew _]. rewrite Ew.
  replace (option_map (fun b => tp_val (t_par st' b)) (tm_bias m)) with (option_map par (tm_bias m)).
  2:{ destruct (tm_bias m) as [b|]; [|reflexivity]. cbn. destruct (proj2 Hi' b) as [-> _]. reflexivity. }
  rewrite (at_odds_natural_gradient par m _ Ha (proj1 Hi' m Im)). discriminate.
Qed.

Lemma C46_default_type_fails_lemma ms par es m :
  NoDup (map tm_key ms) -> In m ms -> at_odds par m ->
  Forall (fun e => match e with TBackward m _ _ => In m ms | TStep _ => True end) es ->
  snd (t_event ms (TStep false) (fst (t_run ms es (t_init ms par)))) <> Ok tt.
Proof.
  intros ND Im Ha He. destruct (run_fine ms par ND es He _ (init_inv ms par ND)) as [Hi _].
  set (st := fst (t_run ms es (t_init ms par))) in *. clearbody st.
  assert (G : forall l st, incl l ms -> In m l -> inv ms par st -> snd (forS t_step_module l st) <> Ok tt).
  { clear st Hi. induction l as [|x l IH]; intros st Hl I Hi; [destruct I|]. cbn [forS]. unfold sbind.
    assert (Ix : In x ms) by (apply Hl; left; reflexivity).
    destruct (step_module_fine ms par ND x st Ix Hi) as [Hi' _].
    destruct (t_step_module x st) as [st' [u|e]] eqn:E; [|discriminate]. destruct I as [->|I].
    - exfalso. apply (at_odds_step par ms m st ND Im Ha Hi). rewrite E. destruct u. reflexivity.
    - apply IH; [intros y Iy; apply Hl; right; exact Iy|exact I|exact Hi']. }
  specialize (G ms st (incl_refl _) Im Hi). cbn [t_event]. unfold t_step, sbind.
  destruct (forS t_step_module ms st) as [st' [u|e]]; [|discriminate].
  exfalso. apply G. destruct u. reflexivity.
Qed.

Lemma C46_default_type_example_case : at_odds (fun _ => BFloat16) (ex_tmod 0 CDense CDense (Some Float32, None)).
Proof.
  repeat split. exists Float32. repeat split; try discriminate. left. discriminate.
Qed.

Lemma C46_double_refuted_lemma :
  forall c, In c [CBlock 30; CHier 15 15; CTril; CTriu] ->
  exists m par, tm_clsK m = c /\ tm_clsC m = c /\ tm_pd m = (None, None) /\ (forall p, par p = Float64) /\
    snd (t_run [m] [TBackward m Float64 Float64; TStep false] (t_init [m] par)) = [Err NotImplementedError; Err KeyError].
Proof.
  intros c Hc. exists (ex_tmod 0 c c (None, None)), (fun _ => Float64).
  repeat (destruct Hc as [<-|Hc]; [repeat split|]); destruct Hc.
Qed.
