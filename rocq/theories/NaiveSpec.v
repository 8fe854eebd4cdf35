(** Specification of C65, independent of Naive.v's helpers: which performance warnings a call may issue. *)

From Coq Require Import List Arith Bool ZArith.
From Verif Require Import Scalar Res Tensor Structures OptimUtils Optimizer Construct Naive.
Import ListNotations.

(** The Toeplitz classes, triltoeplitz.py, triutoeplitz.py. *)
Definition toeplitz (c : cls) : Prop := c = CTril \/ c = CTriu.

(** Classes built from the templates of recursive.py:85-358. *)
Definition recursive (c : cls) : Prop := exists sd ma mc ca cc, c = CRec sd ma mc ca cc.

(** The one warning of each Toeplitz matrix whose Gram matrix is taken: from_mat_inner, which base.py:284 calls
    and which is not among the exceptions of triltoeplitz.py:42-45. *)
Inductive gram_warns : cls -> list nwarn -> Prop :=
| gram_toeplitz c : toeplitz c -> gram_warns c [(c, FromMatInner)]
| gram_other c : ~ toeplitz c -> gram_warns c [].

Section Spec.
Context {SC : Scalar}.

(** The group a layer was given at construction (in gs0) and what this group is now (in gs), optimizer.py:268-280. *)
Definition groups_of_layer (gs0 gs : list group) (m : modul) (g0 g : group) : Prop :=
  exists i, nth_error gs0 i = Some g0 /\ In (m_weight m) (g_params g0) /\ nth_error gs i = Some g.

(** One Gram matrix for each of the two factors of a layer, optimizer.py:488-489, 609, 620. *)
Definition layer_warns (g0 : group) (ws : list nwarn) : Prop :=
  exists cK cC wK wC, g_structs g0 = (Some cK, Some cC) /\ gram_warns cK wK /\ gram_warns cC wC /\ ws = wK ++ wC.

(** In a step only the layers whose update is due (optimizer.py:467). *)
Definition step_warns (gs0 gs : list group) (n : nat) (m : modul) (ws : list nwarn) : Prop :=
  exists g0 g, groups_of_layer gs0 gs m g0 g /\
    ((Nat.divide (g_T g) n -> layer_warns g0 ws) /\ (~ Nat.divide (g_T g) n -> ws = [])).

(** What a successful call issues. *)
Inductive call_warns (c : cfg) (gs0 : list group) (st : state) : event -> list nwarn -> Prop :=
| warns_backward out x m y g0 g ws :
    s_pend st out = Some (m, y) -> groups_of_layer gs0 (s_groups st) m g0 g -> layer_warns g0 ws ->
    call_warns c gs0 st (EBackward out x) ws
| warns_nothing out x : s_pend st out = None -> call_warns c gs0 st (EBackward out x) []
| warns_step wss : s_inf st = false -> Forall2 (step_warns gs0 (s_groups st) (s_steps st)) (c_mods c) wss ->
    call_warns c gs0 st (EStep false) (concat wss)
| warns_skipped : s_inf st = true -> call_warns c gs0 st (EStep false) []
| warns_forward m x b out : call_warns c gs0 st (EForward m x b out) []
| warns_grad p g : call_warns c gs0 st (EGrad p g) []
| warns_scale s : call_warns c gs0 st (ESetScale s) []
| warns_scaler s i : call_warns c gs0 st (EScaler s i) []
| warns_groups gs : call_warns c gs0 st (EGroups gs) [].

(** A warning about the Gram matrix of a Toeplitz factor of a group of the constructor's call,
    optimizer.py:66-73, 413-428. *)
Definition toeplitz_warning (gs0 : list group) (w : nwarn) : Prop :=
  exists g ct, In g gs0 /\ toeplitz ct /\ (fst (g_structs g) = Some ct \/ snd (g_structs g) = Some ct) /\ w = (ct, FromMatInner).

End Spec.
