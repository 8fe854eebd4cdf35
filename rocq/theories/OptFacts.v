(** Facts about the preconditioner update, the curvature accumulation and the natural gradient
    of a single layer (model in Optimizer.v). *)

From Coq Require Import List Arith Lia Bool ZArith Field.
From Verif Require Import Scalar Res Tensor TensorFacts Structures StructSpec StructDense StructPattern StructMul StructOps StructNorm StructAct OptimUtils UtilsFacts Optimizer OptSpec.
Import ListNotations.

Section OptFacts.
Context {SC : Scalar} {FL : FieldLaws SC}.
Open Scope F_scope.
Add Field Ffield_opt : F_ft.

(** A class usable in the optimizer for dimension [n]. *)
Definition usable (c : cls) (n : nat) : Prop := cls_ok c /\ dim_ok c n /\ no_nested_hier c /\ n <> O.

(** The six supported structures are usable for every positive dimension. *)
Definition supported_structures : list cls := [CDense; CDiag; CBlock 30; CHier 15 15; CTril; CTriu].
Lemma supported_usable c n : In c supported_structures -> n <> O -> usable c n.
Proof.
  intros H Hn. simpl in H. unfold usable.
  repeat (destruct H as [<-|H]; [repeat split; simpl; auto; discriminate|]). contradiction.
Qed.

(** Traces are not changed by the projection. *)
Lemma trace_proj c : forall n M, cls_ok c -> dim_ok c n -> trace n (proj c n M) = trace n M.
Proof.
  unfold trace. induction c; intros n M Hok Hd; cbn [proj].
  - reflexivity.
  - apply sum_ext. intros i Hi. rewrite Nat.eqb_refl. reflexivity.
  - apply sum_ext. intros i Hi. rewrite Nat.eqb_refl. reflexivity.
  - apply sum_ext. intros i Hi. destruct (hier_parts k1 k2 n) as [[K1 d] K2] eqn:E.
    rewrite Nat.eqb_refl. destruct (Nat.ltb_spec i K1); [reflexivity|].
    destruct (Nat.ltb_spec i (K1 + d)); reflexivity.
  - simpl in Hd. rewrite (sum_ext n _ (fun _ => diag_avg n M 0)).
    + rewrite sum_const. cbn [diag_avg]. field. apply fofnat_neq0. exact Hd.
    + intros i Hi. rewrite Nat.leb_refl, Nat.sub_diag. reflexivity.
  - simpl in Hd. rewrite (sum_ext n _ (fun _ => diag_avg n M 0)).
    + rewrite sum_const. cbn [diag_avg]. field. apply fofnat_neq0. exact Hd.
    + intros i Hi. rewrite Nat.leb_refl, Nat.sub_diag. reflexivity.
  - destruct Hd as [Hda Hdc]. apply valid_rec_ok in Hok as [Ha Hc]. set (k := boundary n ma mc) in *.
    pose proof (boundary_le n ma mc). fold k in H. 
    rewrite !(sum_split_at k n) by exact H. f_equal.
    + rewrite <- (IHc1 k M Ha Hda). apply sum_ext. intros i Hi. destruct (Nat.ltb_spec i k); [|lia]. reflexivity.
    + rewrite <- (IHc2 (n - k)%nat (fun i j => M (k + i) (k + j))%nat Hc Hdc). apply sum_ext. intros i Hi.
      destruct (Nat.ltb_spec (k + i) k); [lia|]. replace (k + i - k)%nat with i by lia. reflexivity.
Qed.

Lemma infinity_vector_norm_total c n s :
  cls_ok c -> valid c n s -> n <> O -> exists v, infinity_vector_norm s = Ok v.
Proof.
  intros Hok V Hn. unfold infinity_vector_norm.
  assert (G : forall ts, (forall t, In t ts -> numel t <> O) -> exists ms, mapM t_absmax ts = Ok ms /\ length ms = length ts).
  { induction ts as [|t ts IH]; intros H; [exists []; split; reflexivity|].
    destruct IH as (ms & E & L); [intros; apply H; right; assumption|].
    assert (N : numel t <> O) by (apply H; left; reflexivity). rewrite <- (data_length t) in N.
    cbn [mapM]. unfold t_absmax at 1. destruct (data t); [contradiction|]. cbn [bind]. rewrite E. cbn [bind].
    eexists. split; [reflexivity|]. simpl. rewrite L. reflexivity. }
  destruct (G (filter (fun t => negb (Nat.eqb (numel t) 0)) (tensors s))) as (ms & E & L).
  { intros t Ht. apply filter_In in Ht as [_ Ht]. destruct (Nat.eqb_spec (numel t) 0); [discriminate|assumption]. }
  rewrite E. cbn [bind]. destruct ms; [|eauto].
  destruct (filter (fun t => negb (Nat.eqb (numel t) 0)) (tensors s)) as [|t ts] eqn:Ef; [|discriminate].
  exfalso. destruct (ent_in c n s 0 0 Hok V) as [I0|[_ X]]; try lia.
  unfold alldata in I0. apply in_flat_map in I0 as (t & Ht & Hx).
  assert (In t []); [|contradiction]. rewrite <- Ef. apply filter_In. split; [exact Ht|].
  destruct (Nat.eqb_spec (numel t) 0) as [N|]; [|reflexivity]. rewrite <- (data_length t) in N. destruct (data t); [contradiction|discriminate].
Qed.

(** ** The new terms of the momenta *)

Definition mscale (g : group) : F := (1 / two) * (if g_normalize g then 1 - g_alpha1 g else 1).

Lemma new_momentum_one c n s H KK a d v scale :
  usable c n -> valid c n H -> valid c n KK -> c = cls_of s ->
  exists r,
    (let* m := c_zeros (cls_of s) n in
     let* m := add_ m H a in
     let* m := add_ m KK (d * v) in
     let* m := diag_add_ m (- (1)) in
     Ok (mul_ m scale)) = Ok r /\ valid c n r /\
    repr r n (fun i j => scale * (a * ent H i j + d * v * ent KK i j - ident i j)).
Proof.
  intros (Hok & Hd & Hh & Hn) VH VK E. rewrite <- E.
  destruct (zeros_ok c n Hok (or_introl Hd)) as (z & Ez & Vz & Hz). rewrite Ez. cbn [bind].
  destruct (add__ok c n z H a Hok Vz VH) as (r1 & E1 & V1 & H1). rewrite E1. cbn [bind].
  destruct (add__ok c n r1 KK (d * v) Hok V1 VK) as (r2 & E2 & V2 & H2). rewrite E2. cbn [bind].
  destruct (diag_add_ok c n r2 (- (1)) Hok Hd Hh V2) as (r3 & E3 & V3 & H3). rewrite E3. cbn [bind].
  destruct (mul__ok c n r3 scale Hok V3) as (V4 & H4).
  eexists. split; [reflexivity|]. split; [exact V4|].
  intros i j Hi Hj. rewrite H4, H3, H2, H1, Hz by assumption. unfold ident. destruct (Nat.eqb i j); ring.
Qed.

(** Weights of the curvature and damping terms. *)
Definition hweight (g : group) (u : F) (n : nat) (H : mat) : F :=
  if g_kfac_like g then 1 else u * (trace n H / fofnat n).
Definition cweight (g : group) (u : F) (n : nat) (H : mat) : F :=
  if g_kfac_like g then u else u * (trace n H / fofnat n).
Definition dweight (g : group) (n : nat) (KK : mat) : F :=
  g_damping g * (if g_kfac_like g then 1 else trace n KK / fofnat n).

Lemma new_momenta_act g l K C HK HC u cK cC dK dC :
  usable cK dK -> usable cC dC -> preconditioner_dims l = Ok (dK, dC) ->
  valid cK dK K -> valid cC dC C -> valid cK dK HK -> valid cC dC HC ->
  exists mK mC, new_momenta g l K C HK HC u = Ok (mK, mC) /\ valid cK dK mK /\ valid cC dC mC /\
    eqm dK (ent mK) (fun i j => mscale g * (hweight g u dC (ent HC) * ent HK i j
                      + dweight g dC (gram dC (rent C)) * proj cK dK (gram dK (rent K)) i j - ident i j)) /\
    eqm dC (ent mC) (fun i j => mscale g * (cweight g u dK (ent HK) * ent HC i j
                      + dweight g dK (gram dK (rent K)) * proj cC dC (gram dC (rent C)) i j - ident i j)).
Proof.
  intros UK UC Ed VK VC VHK VHC.
  pose proof UK as (OK & DK & _ & NK). pose proof UC as (OC & DC & _ & NC).
  unfold new_momenta.
  destruct (from_inner_none_act cK dK K OK DK VK) as (KtK & EK & VKK & HKK). rewrite EK. cbn [bind].
  destruct (from_inner_none_act cC dC C OC DC VC) as (CtC & EC & VCC & HCC). rewrite EC. cbn [bind].
  rewrite Ed. cbn [bind].
  assert (TK : average_trace KtK = Ok (trace dK (gram dK (rent K)) / fofnat dK)).
  { rewrite (average_trace_ok cK dK KtK OK NK VKK), <- (trace_proj cK dK _ OK DK). do 2 f_equal.
    apply sum_ext. intros i Hi. apply HKK; assumption. }
  assert (TC : average_trace CtC = Ok (trace dC (gram dC (rent C)) / fofnat dC)).
  { rewrite (average_trace_ok cC dC CtC OC NC VCC), <- (trace_proj cC dC _ OC DC). do 2 f_equal.
    apply sum_ext. intros i Hi. apply HCC; assumption. }
  rewrite TK, TC.
  rewrite (average_trace_ok cK dK HK OK NK VHK), (average_trace_ok cC dC HC OC NC VHC).
  destruct (new_momentum_one cK dK K HK KtK (hweight g u dC (ent HC)) (g_damping g) (if g_kfac_like g then 1 else trace dC (gram dC (rent C)) / fofnat dC) (mscale g) UK VHK VKK (eq_sym (valid_cls _ _ _ VK))) as (mK & E1 & V1 & H1).
  destruct (new_momentum_one cC dC C HC CtC (cweight g u dK (ent HK)) (g_damping g) (if g_kfac_like g then 1 else trace dK (gram dK (rent K)) / fofnat dK) (mscale g) UC VHC VCC (eq_sym (valid_cls _ _ _ VC))) as (mC & E2 & V2 & H2).
  exists mK, mC. split.
  { unfold hweight in E1. unfold cweight in E2. unfold mscale in E1, E2.
    unfold trace in *. 
    destruct (c_zeros (cls_of K) dK) as [zK|] eqn:ZK; [|discriminate]. cbn [bind] in E1 |- *.
    destruct (g_kfac_like g); cbn [bind] in E1, E2 |- *.
    all: destruct (add_ zK HK _) as [a1|]; [|discriminate]; cbn [bind] in E1 |- *.
    all: destruct (add_ a1 KtK _) as [a2|]; [|discriminate]; cbn [bind] in E1 |- *.
    all: destruct (diag_add_ a2 _) as [a3|]; [|discriminate]; cbn [bind] in E1 |- *.
    all: destruct (c_zeros (cls_of C) dC) as [zC|]; [|discriminate]; cbn [bind] in E2 |- *.
    all: destruct (add_ zC HC _) as [b1|]; [|discriminate]; cbn [bind] in E2 |- *.
    all: destruct (add_ b1 CtC _) as [b2|]; [|discriminate]; cbn [bind] in E2 |- *.
    all: destruct (diag_add_ b2 _) as [b3|]; [|discriminate]; cbn [bind] in E2 |- *.
    all: injection E1 as <-; injection E2 as <-; reflexivity. }
  split; [exact V1|]. split; [exact V2|]. split.
  - intros i j Hi Hj. rewrite H1, HKK by assumption. unfold dweight. reflexivity.
  - intros i j Hi Hj. rewrite H2, HCC by assumption. unfold dweight. reflexivity.
Qed.

(** ** The whole update of one layer *)

Definition oldm (o : option smat) : mat := match o with Some m => ent m | None => fun _ _ => 0 end.

(** The momentum entries are usable by the update: present and well-formed if they are needed. *)
Definition moms_ready (g : group) (cK cC : cls) (dK dC : nat) (s : slots) : Prop :=
  g_alpha1 g = 0 \/ exists mK mC, sl_mK s = Some mK /\ sl_mC s = Some mC /\ valid cK dK mK /\ valid cC dC mC.

Lemma feqb_refl x : feqb x x = true.
Proof. apply feqb_iff. reflexivity. Qed.
Lemma feqb_false x y : x <> y -> feqb x y = false.
Proof. intros H. destruct (feqb x y) eqn:E; [|reflexivity]. apply feqb_iff in E. contradiction. Qed.
Lemma feqb_spec x y : {x = y /\ feqb x y = true} + {x <> y /\ feqb x y = false}.
Proof.
  destruct (feqb x y) eqn:E.
  - left. split; [apply feqb_iff; exact E|reflexivity].
  - right. split; [|reflexivity]. intros ->. rewrite feqb_refl in E. discriminate.
Qed.

Lemma apply_momenta_act g mK mC s cK cC dK dC :
  cls_ok cK -> cls_ok cC -> valid cK dK mK -> valid cC dC mC -> moms_ready g cK cC dK dC s ->
  exists mK' mC',
    apply_momenta g mK mC s =
      (mkSlots (sl_K s) (sl_C s) (if feqb (g_alpha1 g) 0 then sl_mK s else Some mK')
         (if feqb (g_alpha1 g) 0 then sl_mC s else Some mC') (sl_HK s) (sl_HC s), Ok (mK', mC')) /\
    valid cK dK mK' /\ valid cC dC mC' /\
    eqm dK (ent mK') (fun i j => ent mK i j + g_alpha1 g * oldm (sl_mK s) i j) /\
    eqm dC (ent mC') (fun i j => ent mC i j + g_alpha1 g * oldm (sl_mC s) i j).
Proof.
  intros OK OC VK VC R. unfold apply_momenta. destruct (feqb_spec (g_alpha1 g) 0) as [[E ->]|[N ->]].
  - exists mK, mC. split; [destruct s; reflexivity|]. split; [exact VK|]. split; [exact VC|].
    rewrite E. split; intros i j Hi Hj; ring.
  - destruct R as [R|(oK & oC & EK & EC & VoK & VoC)]; [contradiction|].
    destruct (add__ok cC dC mC oC (g_alpha1 g) OC VC VoC) as (rC & E1 & V1 & H1).
    destruct (add__ok cK dK mK oK (g_alpha1 g) OK VK VoK) as (rK & E2 & V2 & H2).
    exists rK, rC. unfold sbind, entry, lift, modify, ret. rewrite EC. cbn [lookup]. rewrite E1.
    rewrite EK. cbn [lookup]. rewrite E2. split; [destruct s; reflexivity|].
    split; [exact V2|]. split; [exact V1|]. cbn [oldm]. split; assumption.
Qed.

Lemma normalized_lr_total g beta c n m :
  cls_ok c -> valid c n m -> n <> O ->
  exists b, normalized_lr g beta m = Ok b /\ (g_normalize g = false -> b = beta) /\
            (g_normalize g = true -> exists v, infinity_vector_norm m = Ok v /\ b = beta / fmax 1 v).
Proof.
  intros Hok V Hn. unfold normalized_lr. destruct (g_normalize g).
  - destruct (infinity_vector_norm_total c n m Hok V Hn) as (v & E). rewrite E. cbn [bind].
    eexists. split; [reflexivity|]. split; [discriminate|]. intros _. exists v. auto.
  - exists beta. split; [reflexivity|]. split; [reflexivity|discriminate].
Qed.

Lemma precond_act c n K m beta :
  usable c n -> valid c n K -> valid c n m ->
  exists P K', matmul_s K m = Ok P /\ add_ K P (- beta) = Ok K' /\ valid c n K' /\
               eqm n (ent K') (precond_of n (ent K) (ent m) beta).
Proof.
  intros (Hok & Hd & Hh & Hn) VK Vm.
  destruct (matmul_s_ok c n K m Hok Hd Hh VK Vm) as (P & E1 & V1 & H1).
  destruct (add__ok c n K P (- beta) Hok VK V1) as (K' & E2 & V2 & H2).
  exists P, K'. split; [exact E1|]. split; [exact E2|]. split; [exact V2|].
  intros i j Hi Hj. rewrite H2, H1 by assumption. unfold precond_of, mmm, mprod.
  transitivity (sum n (fun k => ent K i k * ident k j) + - beta * sum n (fun k => ent K i k * ent m k j)).
  - f_equal. unfold ident. symmetry. rewrite (sum_single n j _ Hj).
    + rewrite Nat.eqb_refl. ring.
    + intros k Hk Hne. destruct (Nat.eqb_spec k j); [contradiction|]. ring.
  - rewrite <- sum_scale_l, <- sum_plus. apply sum_ext. intros k Hk. ring.
Qed.

Lemma update_slots_act g l steps scales s cK cC dK dC K C HK HC prev cur :
  usable cK dK -> usable cC dC -> preconditioner_dims l = Ok (dK, dC) ->
  g_T g <> O -> (steps mod g_T g = 0)%nat ->
  sl_K s = Some K -> sl_C s = Some C -> sl_HK s = Some HK -> sl_HC s = Some HC ->
  valid cK dK K -> valid cC dC C -> valid cK dK HK -> valid cC dC HC ->
  moms_ready g cK cC dK dC s ->
  get_grad_scale scales (Z.of_nat steps - 1) = Ok prev -> get_grad_scale scales (Z.of_nat steps) = Ok cur -> cur <> 0 ->
  exists K' C' mK' mC' bK bC,
    update_slots g l steps scales s =
      (mkSlots (Some K') (Some C') (if feqb (g_alpha1 g) 0 then sl_mK s else Some mK')
         (if feqb (g_alpha1 g) 0 then sl_mC s else Some mC') None None, Ok tt) /\
    valid cK dK K' /\ valid cC dC C' /\ valid cK dK mK' /\ valid cC dC mC' /\
    normalized_lr g (lr_cov_at g steps) mK' = Ok bK /\ normalized_lr g (lr_cov_at g steps) mC' = Ok bC /\
    eqm dK (ent mK') (momentum_of dK (proj cK dK) (gram dK (rent K)) (ent HK) (oldm (sl_mK s)) (mscale g)
       (hweight g (prev / (cur * cur)) dC (ent HC)) (dweight g dC (gram dC (rent C))) (g_alpha1 g)) /\
    eqm dC (ent mC') (momentum_of dC (proj cC dC) (gram dC (rent C)) (ent HC) (oldm (sl_mC s)) (mscale g)
       (cweight g (prev / (cur * cur)) dK (ent HK)) (dweight g dK (gram dK (rent K))) (g_alpha1 g)) /\
    eqm dK (ent K') (precond_of dK (ent K) (ent mK') bK) /\
    eqm dC (ent C') (precond_of dC (ent C) (ent mC') bC).
Proof.
  intros UK UC Ed HT Ht EK EC EHK EHC VK VC VHK VHC R Ep Ec Nc.
  pose proof UK as (OK & DK & HhK & NK). pose proof UC as (OC & DC & HhC & NC).
  destruct (new_momenta_act g l K C HK HC (prev / (cur * cur)) cK cC dK dC UK UC Ed VK VC VHK VHC)
    as (nK & nC & En & VnK & VnC & HnK & HnC).
  set (s1 := mkSlots (Some K) (Some C) (sl_mK s) (sl_mC s) None None).
  assert (Es : set_HC None (set_HK None s) = s1) by (unfold set_HC, set_HK, s1; cbn; rewrite EK, EC; reflexivity).
  destruct (apply_momenta_act g nK nC s1 cK cC dK dC OK OC VnK VnC R) as (mK & mC & Em & VmK & VmC & HmK & HmC).
  destruct (normalized_lr_total g (lr_cov_at g steps) cK dK mK OK VmK NK) as (bK & EbK & _).
  destruct (normalized_lr_total g (lr_cov_at g steps) cC dC mC OC VmC NC) as (bC & EbC & _).
  destruct (precond_act cK dK K mK bK UK VK VmK) as (PK & K' & E1 & E2 & V1 & H1).
  destruct (precond_act cC dC C mC bC UC VC VmC) as (PC & C' & E3 & E4 & V2 & H2).
  exists K', C', mK, mC, bK, bC. split.
  - unfold update_slots, is_update_step, grad_unscaling. destruct (Nat.eqb_spec (g_T g) 0); [contradiction|].
    rewrite Ht. cbn [Nat.eqb]. unfold sbind at 1, lift at 1. cbn [negb].
    unfold sbind, entry, modify, lift. rewrite EK, EC. cbn [lookup]. rewrite EHK. cbn [lookup set_HK sl_HC set_HC sl_K sl_C sl_mK sl_mC sl_HK].
    rewrite EHC. cbn [lookup]. rewrite Ep, Ec. rewrite (feqb_false _ _ Nc). rewrite En.
    rewrite Es. rewrite Em, EbK, EbC, E1, E2, E3, E4. reflexivity.
  - repeat (split; [assumption|]). split; [|split; [|split; assumption]].
    + intros i j Hi Hj. rewrite HmK, HnK by assumption. reflexivity.
    + intros i j Hi Hj. rewrite HmC, HnC by assumption. reflexivity.
Qed.

End OptFacts.
