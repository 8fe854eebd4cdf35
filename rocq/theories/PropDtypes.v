(** Properties C17 and C46: data types (singd/structures/utils.py:140-157,
    singd/optim/optimizer.py:385-403, 578-730). *)

From Coq Require Import List Arith Lia Bool ZArith.
From Verif Require Import Scalar Res Structures Optimizer Dtypes DtypeFacts ProofDtypes.
Import ListNotations.

(** One of the arguments, of lowest precision. *)
Theorem C17_lowest : forall ds,
  ds <> [] -> (forall d, In d ds -> is_supported d) ->
  exists r, lowest_precision ds = Ok r /\ In r ds /\ forall d, In d ds -> at_most r d.
Proof. exact C17_lowest_lemma. Qed.
Print Assumptions C17_lowest.

(** NotImplementedError exactly if some argument is not supported. *)
Theorem C17_unsupported : forall ds,
  ds <> [] -> (lowest_precision ds = Err NotImplementedError <-> exists d, In d ds /\ ~ is_supported d).
Proof. exact C17_unsupported_lemma. Qed.
Print Assumptions C17_unsupported.

(** Order and repetition of the arguments do not matter. *)
Theorem C17_set : forall ds ds',
  ds <> [] -> ds' <> [] -> (forall d, In d ds <-> In d ds') -> lowest_precision ds = lowest_precision ds'.
Proof. exact C17_set_lemma. Qed.
Print Assumptions C17_set.

Example C17_example :
  lowest_precision [Float32; BFloat16; Float32] = Ok BFloat16
  /\ lowest_precision [BFloat16; Float32; BFloat16; Float32] = Ok BFloat16
  /\ lowest_precision [BFloat16; Float16; Float32] = Ok Float16
  /\ lowest_precision [Float16; Float64] = Err NotImplementedError
  /\ lowest_precision [] = Err ValueError.
Proof. exact C17_example_case. Qed.

(** In every history — whatever the types are and whichever calls raise — K and its momentum
    keep the first type, C and its momentum the second type, and parameters and their momentum
    buffers keep their own types. *)
Theorem C46_kept : forall ms par es,
  NoDup (map tm_key ms) ->
  Forall (fun e => match e with TBackward m _ _ => In m ms | TStep _ => True end) es ->
  let st := fst (t_run ms es (t_init ms par)) in
  (forall m, In m ms ->
     let s := t_slots st (tm_key m) in
     let dK := asked (fst (tm_pd m)) (par (tm_weight m)) in
     let dC := asked (snd (tm_pd m)) (par (tm_weight m)) in
     of_type dK (ts_K s) /\ (forall M, ts_mK s = Some M -> of_type dK M) /\
     of_type dC (ts_C s) /\ (forall M, ts_mC s = Some M -> of_type dC M)) /\
  (forall p, tp_val (t_par st p) = par p /\ forall b, tp_buf (t_par st p) = Some b -> b = par p).
Proof. exact C46_kept_lemma. Qed.
Print Assumptions C46_kept.

(** With such types no call raises because of types, in any history. *)
Theorem C46_no_type_errors_partial : forall ms par es,
  NoDup (map tm_key ms) ->
  Forall (fun e => match e with TBackward m _ _ => In m ms | TStep _ => True end) es ->
  (forall m, In m ms -> workable par m) ->
  forall e, In (Err e) (snd (t_run ms es (t_init ms par))) ->
  e <> RuntimeError /\ e <> NotImplementedError /\ e <> TypeError /\ e <> AttributeError.
Proof. exact C46_no_type_errors_partial_lemma. Qed.
Print Assumptions C46_no_type_errors_partial.

(** Mixed types: bfloat16 weights, K in float32, C in float16 for all kinds of structures; two
    iterations with inputs of other types. All calls succeed. *)
Example C46_example :
  NoDup (map tm_key ex_tmods)
  /\ Forall (fun e => match e with TBackward m _ _ => In m ex_tmods | TStep _ => True end) (ex_thist ex_tmods)
  /\ (forall m, In m ex_tmods -> workable (fun _ => BFloat16) m)
  /\ snd (t_run ex_tmods (ex_thist ex_tmods) (t_init ex_tmods (fun _ => BFloat16))) = repeat (Ok tt) 15
  /\ ts_C (t_slots (fst (t_run ex_tmods (ex_thist ex_tmods) (t_init ex_tmods (fun _ => BFloat16)))) 0)
     = THier Float16 Float16 Float16 Float16 Float16.
Proof. exact C46_example_case. Qed.

(** Not for every combination: [preconditioner_dtype = (float32, None)] and bfloat16 weights. The
    natural gradient is computed in float32 (optimizer.py:707) and then multiplied with C, which has
    the weight's type, without conversion (L701, 710): every step raises RuntimeError. *)
Theorem C46_default_type_refuted :
  exists m par,
    tm_clsK m = CDense /\ tm_clsC m = CDense /\ tm_pd m = (Some Float32, None) /\ (forall p, par p = BFloat16) /\
    snd (t_run [m] [TBackward m BFloat16 BFloat16; TStep false] (t_init [m] par)) = [Ok tt; Err RuntimeError].
Proof. exact C46_default_type_refuted_lemma. Qed.
Print Assumptions C46_default_type_refuted.

(** In general: a module with dense C and such types makes every step of every history fail,
    except the steps skipped because of infinities. *)
Theorem C46_default_type_fails : forall ms par es m,
  NoDup (map tm_key ms) -> In m ms -> at_odds par m ->
  Forall (fun e => match e with TBackward m _ _ => In m ms | TStep _ => True end) es ->
  snd (t_event ms (TStep false) (fst (t_run ms es (t_init ms par)))) <> Ok tt.
Proof. exact C46_default_type_fails_lemma. Qed.
Print Assumptions C46_default_type_fails.

Example C46_default_type_example : at_odds (fun _ => BFloat16) (ex_tmod 0 CDense CDense (Some Float32, None)).
Proof. exact C46_default_type_example_case. Qed.

(** Double precision: the structures that call [lowest_precision] raise NotImplementedError
    already in the backward pass. *)
Theorem C46_double_refuted :
  forall c, In c [CBlock 30; CHier 15 15; CTril; CTriu] ->
  exists m par, tm_clsK m = c /\ tm_clsC m = c /\ tm_pd m = (None, None) /\ (forall p, par p = Float64) /\
    snd (t_run [m] [TBackward m Float64 Float64; TStep false] (t_init [m] par)) = [Err NotImplementedError; Err KeyError].
Proof. exact C46_double_refuted_lemma. Qed.
Print Assumptions C46_double_refuted.
