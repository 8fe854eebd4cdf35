(** C66: settings that concern weight sharing, without weight sharing. *)

From Coq Require Import List Arith Lia Bool ZArith QArith Qcanon.
From Verif Require Import Scalar Res Tensor Structures OptimUtils UtilsFacts Optimizer Construct CtorSpec OptState OptRun SharingSpec Sharing QEx OptEx OptEx2 ProofSharing.
Import ListNotations.
Open Scope nat_scope.

Section PropSharing.
Context {SC : Scalar} {FL : FieldLaws SC}.

(** Two calls of the constructor that differ at most in [kfac_approx] and in "batch" or "batch+sequence" do the same: they raise
    the same exception or build optimizers whose states differ at most in these settings. *)
Theorem C66_constructor : forall a a' par hooks, same_call a a' ->
  fst (ctor a' par hooks) = fst (ctor a par hooks) /\
  match snd (ctor a par hooks), snd (ctor a' par hooks) with
  | Ok (c, st), Ok (c', st') =>
      c_mods c' = c_mods c /\ (forall p, c_p2g c' p = c_p2g c p) /\
      st' = set_groups (s_groups st') st /\ Forall2 same_but_sharing (s_groups st) (s_groups st')
  | Err e, Err e' => e' = e
  | _, _ => False
  end.
Proof. exact C66_constructor_lemma. Qed.

(** In every history in which each sample uses the weights of every layer once, these settings have no effect:
    every call has the same outcome, and afterwards the two optimizers, and the models they train, differ in nothing
    but these settings. *)
Theorem C66_no_sharing : forall a a' par hooks hooks' c st es es',
  ctor a par hooks = (hooks', Ok (c, st)) -> same_call a a' -> Forall2 same_event_but_sharing es es' -> no_sharing es ->
  exists c' st', ctor a' par hooks = (hooks', Ok (c', st')) /\
    outcomes c' es' st' = outcomes c es st /\
    (let s := run c es st in let t := run c' es' st' in
     t = set_groups (s_groups t) s /\ Forall2 same_but_sharing (s_groups s) (s_groups t)).
Proof. exact C66_no_sharing_lemma. Qed.

End PropSharing.

Print Assumptions C66_constructor.
Print Assumptions C66_no_sharing.

(** ** Cases *)

(** Two groups trained with "expand" and "batch"; the second call passes "reduce" and "batch+sequence" and overrides the latter in the second group. *)
Example C66_example :
  built_ok sh_a = true /\ built_ok sh_b = true /\ same_call sh_a sh_b /\ Forall2 same_event_but_sharing sh_hist sh_hist /\ no_sharing sh_hist /\
  s_steps (run (fst (built sh_a)) sh_hist (snd (built sh_a))) = 3 /\
  pre_of (run (fst (built sh_a)) sh_hist (snd (built sh_a))) 0 <> pre_of (snd (built sh_a)) 0 /\
  map g_approx (s_groups (snd (built sh_a))) = [Expand; Expand] /\ map g_loss (s_groups (snd (built sh_a))) = [LossBatch; LossBatch] /\
  map g_approx (s_groups (snd (built sh_b))) = [Reduce; Reduce] /\ map g_loss (s_groups (snd (built sh_b))) = [LossBatchSeq; LossBatch].
Proof. exact C66_example_case. Qed.

(** A convolution whose kernel covers the whole padded input uses its weights once. *)
Example C66_convolution_example :
  let c := mkConv 2 3 3 2 1 1 (PadInt 1 0) 1 1 1 true ModeZeros in
  used_once (Conv2d c) (qt [2; 2; 1; 2] [1; 2; 3; 4; 5; 6; 7; 8]%Z) (qt [2; 3; 1; 1] [1; 2; 3; 4; 5; 6]%Z).
Proof. exact C66_convolution_example_case. Qed.

(** With a sequence of length four the settings matter: the preconditioners differ after the first step. *)
Theorem C66_sharing_refuted :
  let r a := run (fst (built a)) sh_shared (snd (built a)) in
  let a ka la := sh_args ka la PNone in
  (forall ka la, same_call (a Expand LossBatch) (a ka la) <-> ka <> ApproxOther /\ (la = LossBatch \/ la = LossBatchSeq)) /\
  s_steps (r (a Expand LossBatch)) = 1 /\ s_steps (r (a Reduce LossBatch)) = 1 /\ s_steps (r (a Expand LossBatchSeq)) = 1 /\
  pre_of (r (a Reduce LossBatch)) 1 <> pre_of (r (a Expand LossBatch)) 1 /\
  pre_of (r (a Expand LossBatchSeq)) 1 <> pre_of (r (a Expand LossBatch)) 1.
Proof. exact C66_sharing_refuted_lemma. Qed.
Print Assumptions C66_sharing_refuted.

(** Even without weight sharing the approximation matters for a convolution that pads unevenly (its kernel is applied once): with "expand" the backward pass
    raises NotImplementedError, with "reduce" it does not. *)
Theorem C66_uneven_refuted :
  conv_ok sh_conv /\ outs sh_conv 1 1 1 1 /\ same_call (sh_conv_args Expand) (sh_conv_args Reduce) /\
  match snd (ctor (sh_conv_args Expand) sh_conv_par []), snd (ctor (sh_conv_args Reduce) sh_conv_par []) with
  | Ok (c, st), Ok (c', st') =>
      outcomes c sh_conv_hist st = [Ok tt; Err NotImplementedError] /\ outcomes c' sh_conv_hist st' = [Ok tt; Ok tt]
  | _, _ => False
  end.
Proof. exact C66_uneven_refuted_lemma. Qed.
Print Assumptions C66_uneven_refuted.
