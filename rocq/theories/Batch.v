(** Lemmas: statistics of a part of the batch.  Samples (entries along the first axis of layer
    inputs and output gradients) are processed independently, up to the normalisation by the
    batch size (singd/optim/utils.py:122-342, singd/optim/optimizer.py:578-622). *)

From Coq Require Import List Arith Lia Bool ZArith Field.
From Verif Require Import Scalar Res Tensor TensorFacts Structures StructSpec StructDense StructPattern StructOps StructAct OptimUtils UtilsFacts ProofUtils Optimizer OptState OptSpec OptFacts OptTyped OptPre ScaleInv.
Import ListNotations.

Section Batch.
Context {SC : Scalar} {FL : FieldLaws SC} {SQ : SqrtLaws SC}.
Add Field FFba : F_ft.
Open Scope F_scope.

(** Samples [a], ..., [a + b - 1] of a batch: [t[a:a+b]]. *)
Definition part (t : tensor) (a b : nat) : tensor :=
  tab (b :: tl (shape t)) (fun idx => match idx with i :: r => tget t ((a + i)%nat :: r) | [] => 0 end).

Lemma irc n s idx : in_range (n :: s) idx -> exists i r, idx = i :: r /\ (i < n)%nat /\ in_range s r.
Proof. intros H. inversion H; subst. eauto. Qed.
Lemma irn idx : in_range [] idx -> idx = [].
Proof. intros H. inversion H. reflexivity. Qed.

Lemma tget_part t a b n rest i r :
  shape t = n :: rest -> (i < b)%nat -> in_range rest r -> tget (part t a b) (i :: r) = tget t ((a + i)%nat :: r).
Proof. intros H Hi Hr. unfold part. rewrite tget_tab; [reflexivity|]. rewrite H. constructor; assumption. Qed.

Lemma part_ext t t' a b n rest :
  shape t = n :: rest -> shape t' = b :: rest ->
  (forall i r, (i < b)%nat -> in_range rest r -> tget t' (i :: r) = tget t ((a + i)%nat :: r)) -> t' = part t a b.
Proof.
  intros H H' E. apply tensor_ext; [cbn; rewrite H; exact H'|]. rewrite H'. intros idx Hr. apply irc in Hr as (i & r & -> & Hi & Hr).
  rewrite (tget_part t a b n rest) by assumption. apply E; assumption.
Qed.

Lemma get4_part t a b n c i1 i2 i j k p :
  shape t = [n; c; i1; i2] -> (i < b)%nat -> (j < c)%nat -> (k < i1)%nat -> (p < i2)%nat -> get4 (part t a b) i j k p = get4 t (a + i) j k p.
Proof. intros H Hi Hj Hk Hp. apply (tget_part t a b n [c; i1; i2]); [exact H|exact Hi|]. repeat (constructor; [assumption|]). constructor. Qed.

Lemma bget_part t a b n mid d i s k :
  shape t = n :: mid ++ [d] -> (i < b)%nat -> (s < prod mid)%nat -> (k < d)%nat -> bget (part t a b) mid i s k = bget t mid (a + i) s k.
Proof.
  intros H Hi Hs Hk. apply (tget_part t a b n (mid ++ [d])); [exact H|exact Hi|].
  assert (R : forall s0 r0, in_range s0 r0 -> in_range (s0 ++ [d]) (r0 ++ [k])).
  { intros s0 r0 Hr. apply Forall2_app; [exact Hr|]. constructor; [exact Hk|constructor]. }
  apply R. apply unflat_range. exact Hs.
Qed.

(** Rows of a matrix. *)
Lemma get2_part M a b n d i k : shape M = [n; d] -> (i < b)%nat -> (k < d)%nat -> get2 (part M a b) i k = get2 M (a + i) k.
Proof. intros H Hi Hk. apply (tget_part M a b n [d]); [exact H|exact Hi|]. repeat (constructor; [assumption|]). constructor. Qed.

(** ** Patches *)

Lemma average_groups_part x y g a b n c i1 i2 :
  shape x = [n; c; i1; i2] -> (a + b <= n)%nat -> average_groups x g = Ok y -> average_groups (part x a b) g = Ok (part y a b).
Proof.
  intros H L E. unfold average_groups in *. assert (H' : shape (part x a b) = [b; c; i1; i2]) by (cbn; rewrite H; reflexivity). rewrite H in E. rewrite H'.
  destruct (Nat.eqb_spec g 0) as [|Ng]; [discriminate|]. destruct (Nat.eqb_spec (c mod g) 0) as [Ec|]; cbn [negb] in *; [|discriminate].
  injection E as <-. f_equal. apply (part_ext _ _ a b n [(c / g)%nat; i1; i2]); [reflexivity|reflexivity|].
  intros i r Hi Hr. apply irc in Hr as (j & r1 & -> & Hj & Hr). apply irc in Hr as (k & r2 & -> & Hk & Hr). apply irc in Hr as (p & r3 & -> & Hp & Hr). apply irn in Hr as ->.
  change (get4 (tab4 b (c / g) i1 i2 (fun m ci u v => sum g (fun g0 => get4 (part x a b) m (g0 * (c / g) + ci) u v) / fofnat g)) i j k p =
          get4 (tab4 n (c / g) i1 i2 (fun m ci u v => sum g (fun g0 => get4 x m (g0 * (c / g) + ci) u v) / fofnat g)) (a + i) j k p).
  rewrite !get4_tab4 by (assumption || lia). f_equal. apply sum_ext. intros q Hq. apply (get4_part x a b n c i1 i2); try assumption.
  apply Nat.div_exact in Ec; [|exact Ng]. rewrite Ec at 2. rewrite (Nat.mul_comm g). eapply Nat.lt_le_trans; [apply (Nat.add_lt_mono_l j (c / g)); exact Hj|].
  rewrite <- (Nat.mul_1_l (c / g)) at 2. rewrite <- Nat.mul_add_distr_r. rewrite (Nat.mul_comm (c / g)). apply Nat.mul_le_mono_r. lia.
Qed.

Lemma padded_ext i p q f g : (forall a, (a < i)%nat -> f a = g a) -> padded i p q f = padded i p q g.
Proof.
  intros H. unfold padded. destruct (Nat.leb p q); [|reflexivity]. destruct (Nat.ltb_spec (q - p) i); [|reflexivity]. cbn. apply H. assumption.
Qed.

Lemma unfold_part x y k1 k2 s1 s2 p1 p2 d1 d2 a b n c i1 i2 :
  shape x = [n; c; i1; i2] -> (a + b <= n)%nat -> unfold x k1 k2 s1 s2 p1 p2 d1 d2 = Ok y ->
  unfold (part x a b) k1 k2 s1 s2 p1 p2 d1 d2 = Ok (part y a b) /\ exists r o, shape y = [n; r; o].
Proof.
  intros H L E. unfold unfold in *. assert (H' : shape (part x a b) = [b; c; i1; i2]) by (cbn; rewrite H; reflexivity). rewrite H in E. rewrite H'.
  destruct (out_size i1 k1 s1 d1 p1 p1) as [o1|] eqn:O1; [|discriminate]. destruct (out_size i2 k2 s2 d2 p2 p2) as [o2|] eqn:O2; [|discriminate].
  injection E as <-. split; [|do 2 eexists; reflexivity]. f_equal. apply (part_ext _ _ a b n [(c * k1 * k2)%nat; (o1 * o2)%nat]); [reflexivity|reflexivity|].
  intros i r Hi Hr. apply irc in Hr as (j & r1 & -> & Hj & Hr). apply irc in Hr as (k & r2 & -> & Hk & Hr). apply irn in Hr as ->.
  match goal with |- tget (tab3 ?A ?B ?D ?f) [i; j; k] = tget (tab3 ?A' _ _ ?g) _ => change (get3 (tab3 A B D f) i j k = get3 (tab3 A' B D g) (a + i) j k) end.
  rewrite !get3_tab3 by (assumption || lia). cbv zeta.
  assert (Hc : (j / (k1 * k2) < c)%nat). { apply Nat.div_lt_upper_bound; [|lia]. intros Z. assert (c * k1 * k2 = 0)%nat by (rewrite <- Nat.mul_assoc, Z; lia). lia. }
  apply padded_ext. intros u Hu. apply padded_ext. intros v Hv. apply (get4_part x a b n c i1 i2); assumption.
Qed.

Lemma extract_patches_part x y k1 k2 s1 s2 p d1 d2 g a b n c i1 i2 :
  shape x = [n; c; i1; i2] -> (a + b <= n)%nat -> extract_patches x k1 k2 s1 s2 p d1 d2 g = Ok y ->
  extract_patches (part x a b) k1 k2 s1 s2 p d1 d2 g = Ok (part y a b) /\ exists o r, shape y = [n; o; r].
Proof.
  intros H L E. unfold extract_patches in *.
  match type of E with bind ?m _ = _ => destruct m as [[p1 p2]|]; [|discriminate] end. cbn [bind] in *.
  destruct (average_groups x g) as [z|] eqn:EA; [|discriminate]. cbn [bind] in *. rewrite (average_groups_part x z g a b n c i1 i2 H L EA). cbn [bind].
  assert (Sz : exists c', shape z = [n; c'; i1; i2]).
  { unfold average_groups in EA. rewrite H in EA. destruct (Nat.eqb g 0); [discriminate|]. destruct (negb _); [discriminate|]. injection EA as <-. eexists. reflexivity. }
  destruct Sz as (c' & Sz). destruct (unfold z k1 k2 s1 s2 p1 p2 d1 d2) as [w|] eqn:EU; [|discriminate]. cbn [bind] in *.
  destruct (unfold_part z w k1 k2 s1 s2 p1 p2 d1 d2 a b n c' i1 i2 Sz L EU) as [-> (r & o & Sw)]. cbn [bind].
  assert (Sp : shape (part w a b) = [b; r; o]) by (cbn; rewrite Sw; reflexivity). rewrite Sw in E. rewrite Sp. injection E as <-. split; [|do 2 eexists; reflexivity].
  f_equal. apply (part_ext _ _ a b n [o; r]); [reflexivity|reflexivity|].
  intros i l Hi Hl. apply irc in Hl as (j & r1 & -> & Hj & Hl). apply irc in Hl as (k & r2 & -> & Hk & Hl). apply irn in Hl as ->.
  match goal with |- tget (tab3 ?A ?B ?D ?f) [i; j; k] = tget (tab3 ?A' _ _ ?g) _ => change (get3 (tab3 A B D f) i j k = get3 (tab3 A' B D g) (a + i) j k) end.
  rewrite !get3_tab3 by (assumption || lia). apply (tget_part w a b n [r; o]); [exact Sw|exact Hi|]. repeat (constructor; [assumption|]). constructor.
Qed.

Lemma extract_averaged_patches_part x y k1 k2 s1 s2 p d1 d2 g a b n c i1 i2 :
  shape x = [n; c; i1; i2] -> (a + b <= n)%nat -> extract_averaged_patches x k1 k2 s1 s2 p d1 d2 g = Ok y ->
  extract_averaged_patches (part x a b) k1 k2 s1 s2 p d1 d2 g = Ok (part y a b) /\ exists r, shape y = [n; r].
Proof.
  intros H L E. unfold extract_averaged_patches in *.
  destruct (average_groups x g) as [z|] eqn:EA; [|discriminate]. cbn [bind] in *. rewrite (average_groups_part x z g a b n c i1 i2 H L EA). cbn [bind].
  assert (Sz : exists c', shape z = [n; c'; i1; i2]).
  { unfold average_groups in EA. rewrite H in EA. destruct (Nat.eqb g 0); [discriminate|]. destruct (negb _); [discriminate|]. injection EA as <-. eexists. reflexivity. }
  destruct Sz as (c' & Sz). assert (Sp : shape (part z a b) = [b; c'; i1; i2]) by (cbn; rewrite Sz; reflexivity). rewrite Sz in E. rewrite Sp.
  destruct (match p with PadInt p1 p2 => (p1, p2) | _ => (O, O) end) as [q1 q2].
  destruct (index_pattern i1 k1 s1 d1 p q1) as [t1|]; [|discriminate]. cbn [bind] in *. destruct (mean_mid t1) as [m1|]; [|discriminate]. cbn [bind] in *.
  destruct (index_pattern i2 k2 s2 d2 p q2) as [t2|]; [|discriminate]. cbn [bind] in *. destruct (mean_mid t2) as [m2|]; [|discriminate]. cbn [bind] in *.
  injection E as <-. split; [|eexists; reflexivity]. f_equal. apply (part_ext _ _ a b n [(c' * k1 * k2)%nat]); [reflexivity|reflexivity|].
  intros i l Hi Hl. apply irc in Hl as (j & r1 & -> & Hj & Hl). apply irn in Hl as ->.
  match goal with |- tget (tab2 ?A ?B ?f) [i; j] = tget (tab2 ?A' _ ?g) _ => change (get2 (tab2 A B f) i j = get2 (tab2 A' B g) (a + i) j) end.
  rewrite !get2_tab2 by (assumption || lia). cbv zeta.
  assert (Hc : (j / (k1 * k2) < c')%nat). { apply Nat.div_lt_upper_bound; [|lia]. intros Z. assert (c' * k1 * k2 = 0)%nat by (rewrite <- Nat.mul_assoc, Z; lia). lia. }
  apply sum_ext. intros u Hu. apply sum_ext. intros v Hv. rewrite (get4_part z a b n c' i1 i2); try assumption. reflexivity.
Qed.

(** ** Layer inputs and output gradients *)

(** A matrix with [per] rows per sample computed from a batch of [n]: for every part of the batch, up to
    the factor [f], the rows of the part's samples. *)
Definition samplewise (P : tensor -> res tensor) (f : nat -> F) (x : tensor) (n per d : nat) (raw : nat -> nat -> F) : Prop :=
  forall a b, (a + b <= n)%nat -> b <> O ->
  exists A, P (part x a b) = Ok A /\ shape A = [(b * per)%nat; d] /\
    forall r i, (r < b * per)%nat -> (i < d)%nat -> get2 A r i = f b * raw (a * per + r)%nat i.

Lemma split_row r b per : (r < b * per)%nat -> (r / per < b /\ r mod per < per /\ r = r / per * per + r mod per)%nat.
Proof.
  intros H. assert (N : per <> O) by (intros ->; lia). pose proof (Nat.mod_upper_bound r per N). pose proof (Nat.div_mod r per N).
  split; [apply Nat.div_lt_upper_bound; [exact N|lia]|]. lia.
Qed.
Lemma row_sample a r b per : (r < b * per)%nat -> ((a * per + r) / per = a + r / per /\ (a * per + r) mod per = r mod per)%nat.
Proof.
  intros H. assert (N : per <> O) by (intros ->; lia). rewrite Nat.add_comm, Nat.div_add by exact N. rewrite Nat.mod_add by exact N. lia.
Qed.

Lemma input_samples l x g ka dK dC A :
  fits l x g -> preconditioner_dims l = Ok (dK, dC) -> process_input x l ka = Ok A ->
  exists n rest per raw, shape x = n :: rest /\ n <> O /\ per <> O /\
    samplewise (fun y => process_input y l ka) (fun b => 1 / fsqrt (fofnat (b * per))) x n per dK raw.
Proof.
  intros FT D EA. assert (Hk : ka = Expand \/ ka = Reduce) by (destruct ka; auto; discriminate).
  rewrite C49_dims_lemma in D by (destruct l; [discriminate|discriminate|contradiction]). injection D as <- <-.
  destruct l as [d_in d_out bias|c|]; [| |contradiction].
  - destruct FT as (n & mid & Nb & Sx & _). exists n, (mid ++ [d_in]). cbn [has_bias fan].
    assert (Sp : forall a b, shape (part x a b) = b :: mid ++ [d_in]) by (intros; cbn; rewrite Sx; reflexivity).
    destruct Hk as [-> | ->].
    + exists (prod mid), (fun r i => withone bias d_in (bget x mid (r / prod mid) (r mod prod mid)) i).
      split; [exact Sx|]. split; [intros ->; apply Nb; reflexivity|]. split; [intros Z; apply Nb; rewrite Z; lia|].
      intros a b L N. destruct (linear_process_input_expand (part x a b) bias b mid d_in (Sp a b)) as (A' & E & SA & GA).
      exists A'. split; [exact E|]. split; [exact SA|]. intros r i Hr Hi. destruct (split_row r b (prod mid) Hr) as (H1 & H2 & H3).
      destruct (row_sample a r b (prod mid) Hr) as [-> ->]. rewrite H3 at 1. rewrite GA by assumption. rewrite !(Fdiv_def F_ft), <- !(Fdiv_def F_ft).
      assert (W : withone bias d_in (bget (part x a b) mid (r / prod mid) (r mod prod mid)) i = withone bias d_in (bget x mid (a + r / prod mid) (r mod prod mid)) i).
      { unfold withone. destruct (Nat.ltb_spec i d_in); [|reflexivity]. apply (bget_part x a b n mid d_in); assumption. }
      rewrite W, !(Fdiv_def F_ft). ring.
    + exists 1%nat, (fun r i => withone bias d_in (fun i => sum (prod mid) (fun s => bget x mid r s i) / fofnat (prod mid)) i).
      split; [exact Sx|]. split; [intros ->; apply Nb; reflexivity|]. split; [discriminate|].
      intros a b L N. destruct (linear_process_input_reduce (part x a b) bias b mid d_in (Sp a b)) as (A' & E & SA & GA).
      exists A'. split; [exact E|]. rewrite !Nat.mul_1_r. split; [exact SA|]. intros r i Hr Hi. rewrite GA by assumption.
      assert (W : withone bias d_in (fun i => sum (prod mid) (fun s => bget (part x a b) mid r s i) / fofnat (prod mid)) i =
                  withone bias d_in (fun i => sum (prod mid) (fun s => bget x mid (a + r) s i) / fofnat (prod mid)) i).
      { unfold withone. destruct (Nat.ltb_spec i d_in); [|reflexivity]. f_equal. apply sum_ext. intros s Hs. apply (bget_part x a b n mid d_in); assumption. }
      rewrite W, !(Fdiv_def F_ft). ring.
  - destruct FT as (OK & n & i1 & i2 & o1 & o2 & Nb & HO & Sx & _). exists n, [cv_in c; i1; i2]. cbn [process_input] in *.
    set (e := (cv_in c / cv_groups c * cv_k1 c * cv_k2 c)%nat). change (fan (Conv2d c)) with e. cbn [has_bias].
    destruct (HO) as [HO1 HO2]. apply out_size_pos in HO1, HO2.
    destruct Hk as [-> | ->].
    + destruct (extract_patches_ok x c n i1 i2 o1 o2 OK Sx HO (expand_even x c A OK EA)) as (P & EP & SP & _). fold e in SP.
      exists (o1 * o2)%nat, (fun r i => withone (cv_bias c) e (get3 P (r / (o1 * o2)) (r mod (o1 * o2))) i).
      split; [exact Sx|]. split; [exact Nb|]. split; [intros Z; apply Nat.eq_mul_0 in Z; tauto|].
      intros a b L N. destruct (extract_patches_part x P _ _ _ _ _ _ _ _ a b n _ _ _ Sx L EP) as [E _]. cbv beta. cbn [process_input]. unfold conv2d_process_input. rewrite E. cbn [bind].
      assert (Sp : shape (part P a b) = [b; (o1 * o2)%nat; e]) by (cbn; rewrite SP; reflexivity). rewrite Sp.
      assert (PM : prod [(o1 * o2)%nat] = (o1 * o2)%nat) by (unfold prod; cbn; lia).
      destruct (reshape2_ok (part P a b) b [(o1 * o2)%nat] e) as (R & ER & SR & GR); [cbn [app]; exact Sp|]. rewrite PM in *. rewrite ER. cbn [bind].
      rewrite (finish_input_ok (cv_bias c) R (b * (o1 * o2)) e) by exact SR. eexists. split; [reflexivity|]. split; [reflexivity|].
      intros r i Hr Hi. rewrite get2_tab2 by assumption. destruct (split_row r b (o1 * o2) Hr) as (H1 & H2 & H3).
      destruct (row_sample a r b (o1 * o2) Hr) as [-> ->].
      assert (W : withone (cv_bias c) e (get2 R r) i = withone (cv_bias c) e (get3 P (a + r / (o1 * o2)) (r mod (o1 * o2))) i).
      { unfold withone. destruct (Nat.ltb_spec i e); [|reflexivity]. rewrite H3 at 1. rewrite GR by assumption. unfold bget.
        cbn [unflat app]. rewrite Nat.div_1_r. apply (tget_part P a b n [(o1 * o2)%nat; e]); [exact SP|exact H1|]. repeat (constructor; [assumption|]). constructor. }
      rewrite W, !(Fdiv_def F_ft). ring.
    + destruct (extract_averaged_patches_ok x c n i1 i2 o1 o2 OK Sx HO) as (P & EP & SP & _). fold e in SP.
      exists 1%nat, (fun r i => withone (cv_bias c) e (get2 P r) i). split; [exact Sx|]. split; [exact Nb|]. split; [discriminate|].
      intros a b L N. destruct (extract_averaged_patches_part x P _ _ _ _ _ _ _ _ a b n _ _ _ Sx L EP) as [E _]. cbv beta. cbn [process_input]. unfold conv2d_process_input. rewrite E. cbn [bind].
      assert (Sp : shape (part P a b) = [b; e]) by (cbn; rewrite SP; reflexivity).
      rewrite (finish_input_ok (cv_bias c) _ b e) by exact Sp. eexists. split; [reflexivity|]. rewrite !Nat.mul_1_r. split; [reflexivity|].
      intros r i Hr Hi. rewrite get2_tab2 by assumption.
      assert (W : withone (cv_bias c) e (get2 (part P a b) r) i = withone (cv_bias c) e (get2 P (a + r)) i).
      { unfold withone. destruct (Nat.ltb_spec i e); [|reflexivity]. apply (get2_part P a b n e); assumption. }
      rewrite W, !(Fdiv_def F_ft). ring.
Qed.

(** Entries of an output gradient per batch entry that [loss_average = "batch+sequence"] averages over. *)
Lemma grad_samples l x g la ka dK dC B :
  fits l x g -> preconditioner_dims l = Ok (dK, dC) -> process_grad_output g l la ka = Ok B ->
  exists n rest per sp raw, shape g = n :: rest /\ n <> O /\ per <> O /\ sp <> O /\
    samplewise (fun y => process_grad_output y l la ka) (fun b => loss_scaling la b sp) g n per dC raw.
Proof.
  intros FT D EB.
  assert (Hk : ka = Expand \/ ka = Reduce) by (destruct ka; auto; destruct la; discriminate).
  assert (Hl : la <> LossOther) by (intros ->; destruct ka; discriminate).
  assert (PL : forall y l, process_grad_output y l la ka = match l with Conv2d _ => conv2d_process_grad_output y la ka | Linear _ _ _ => linear_process_grad_output y la ka | OtherModule => Err NotImplementedError end).
  { intros. destruct la, Hk as [-> | ->]; try congruence; reflexivity. }
  rewrite C49_dims_lemma in D by (destruct l; [discriminate|discriminate|contradiction]). injection D as <- <-.
  destruct l as [d_in d_out bias|c|]; [| |contradiction].
  - destruct FT as (n & mid & Nb & _ & Sg). exists n, (mid ++ [d_out]). cbn [n_out].
    assert (Sp : forall a b, shape (part g a b) = b :: mid ++ [d_out]) by (intros; cbn; rewrite Sg; reflexivity).
    assert (N1 : n <> O) by (intros ->; apply Nb; reflexivity). assert (N2 : prod mid <> O) by (intros Z; apply Nb; rewrite Z; lia).
    destruct Hk as [-> | ->].
    + exists (prod mid), (prod mid), (fun r i => bget g mid (r / prod mid) (r mod prod mid) i). do 4 (split; [assumption|]).
      intros a b L N. rewrite PL. destruct (linear_process_grad_expand (part g a b) la b mid d_out (Sp a b)) as (A' & E & SA & GA).
      exists A'. split; [exact E|]. split; [exact SA|]. intros r i Hr Hi. destruct (split_row r b (prod mid) Hr) as (H1 & H2 & H3).
      destruct (row_sample a r b (prod mid) Hr) as [-> ->]. rewrite H3 at 1. rewrite GA by assumption.
      rewrite (bget_part g a b n mid d_out) by assumption. reflexivity.
    + exists 1%nat, (prod mid), (fun r i => sum (prod mid) (fun s => bget g mid r s i)). do 2 (split; [assumption|]). split; [discriminate|]. split; [assumption|].
      intros a b L N. rewrite PL. destruct (linear_process_grad_reduce (part g a b) la b mid d_out (Sp a b)) as (A' & E & SA & GA).
      exists A'. split; [exact E|]. rewrite !Nat.mul_1_r. split; [exact SA|]. intros r i Hr Hi. rewrite GA by assumption. f_equal.
      apply sum_ext. intros s Hs. apply (bget_part g a b n mid d_out); assumption.
  - destruct FT as (OK & n & i1 & i2 & o1 & o2 & Nb & HO & _ & Sg). exists n, [cv_out c; o1; o2]. cbn [n_out].
    destruct (HO) as [HO1 HO2]. apply out_size_pos in HO1, HO2. assert (N2 : (o1 * o2)%nat <> O) by (intros Z; apply Nat.eq_mul_0 in Z; tauto).
    assert (Sp : forall a b, shape (part g a b) = [b; cv_out c; o1; o2]) by (intros; cbn; rewrite Sg; reflexivity).
    destruct Hk as [-> | ->].
    + exists (o1 * o2)%nat, (o1 * o2)%nat, (fun r i => get4 g (r / (o1 * o2)) i (r mod (o1 * o2) / o2) (r mod (o1 * o2) mod o2)). do 4 (split; [assumption|]).
      intros a b L N. rewrite PL. destruct (conv_process_grad_expand (part g a b) la b (cv_out c) o1 o2 (Sp a b)) as (A' & E & SA & GA).
      exists A'. split; [exact E|]. split; [rewrite Nat.mul_assoc; exact SA|]. intros r i Hr Hi. destruct (split_row r b (o1 * o2) Hr) as (H1 & H2 & H3).
      destruct (split_row (r mod (o1 * o2)) o1 o2 H2) as (H4 & H5 & H6).
      destruct (row_sample a r b (o1 * o2) Hr) as [-> ->]. rewrite H3 at 1. rewrite H6 at 1. rewrite GA by assumption.
      rewrite (get4_part g a b n (cv_out c) o1 o2) by assumption. reflexivity.
    + exists 1%nat, (o1 * o2)%nat, (fun r i => sum o1 (fun u => sum o2 (fun v => get4 g r i u v))). do 2 (split; [assumption|]). split; [discriminate|]. split; [assumption|].
      intros a b L N. rewrite PL. destruct (conv_process_grad_reduce (part g a b) la b (cv_out c) o1 o2 (Sp a b)) as (A' & E & SA & GA).
      exists A'. split; [exact E|]. rewrite !Nat.mul_1_r. split; [exact SA|]. intros r i Hr Hi. rewrite GA by assumption. f_equal.
      apply sum_ext. intros u Hu. apply sum_ext. intros v Hv. apply (get4_part g a b n (cv_out c) o1 o2); assumption.
Qed.

(** ** Statistics *)

Lemma part_whole t n rest : shape t = n :: rest -> part t 0 n = t.
Proof. intros H. symmetry. apply (part_ext t t 0 n n rest); [exact H|exact H|]. reflexivity. Qed.

(** Sum of the outer products of the rows of samples [a], ..., [a + b - 1]. *)
Definition outer (v : nat -> nat -> F) (per a b i j : nat) : F := sum (b * per) (fun r => v (a * per + r)%nat i * v (a * per + r)%nat j).

Lemma outer_add v per a b b' i j : outer v per a (b + b') i j = outer v per a b i j + outer v per (a + b) b' i j.
Proof.
  unfold outer. rewrite Nat.mul_add_distr_r, sum_split. f_equal. apply sum_ext. intros r _.
  replace ((a + b) * per + r)%nat with (a * per + (b * per + r))%nat by lia. reflexivity.
Qed.

Lemma stat_samples cl d K P f x n per raw q :
  cls_ok cl -> dim_ok cl d -> valid cl d K -> per <> O -> samplewise P f x n per d raw ->
  let v r i := sum d (fun k => rent K i k * raw r k) in
  forall a b, (a + b <= n)%nat -> b <> O -> exists A h, P (part x a b) = Ok A /\ from_inner K (Some (tr (t_scale q A))) = Ok h /\ valid cl d h /\
    forall i j, (i < d)%nat -> (j < d)%nat -> ent h i j = (f b * f b) * (q * q) * proj cl d (outer v per a b) i j.
Proof.
  intros OK D VK Np SW v a b L N. destruct (SW a b L N) as (A & EA & SA & GA).
  assert (ST : shape (tr (t_scale q A)) = [d; (b * per)%nat]).
  { rewrite shape_tr. change (rows (t_scale q A)) with (rows A). change (cols (t_scale q A)) with (cols A). rewrite (rows_of _ _ _ SA), (cols_of _ _ _ _ SA). reflexivity. }
  destruct (from_inner_some_act cl d K (tr (t_scale q A)) (b * per) OK D VK ST) as (h & Eh & Vh & Rh).
  { assert (b * per <> O)%nat by (intros Z; apply Nat.eq_mul_0 in Z; tauto). destruct cl; cbn; auto. }
  exists A, h. split; [exact EA|]. split; [exact Eh|]. split; [exact Vh|]. intros i j Hi Hj. rewrite Rh by assumption.
  rewrite <- proj_scale by assumption. apply proj_ext; [|assumption|assumption]. intros i' j' Hi' Hj'. unfold gram, outer. rewrite <- sum_scale_l.
  apply sum_ext. intros r Hr.
  assert (V : forall i, sum d (fun k => rent K i k * get2 (tr (t_scale q A)) k r) = f b * q * v (a * per + r)%nat i).
  { intros i0. unfold v. rewrite <- sum_scale_l. apply sum_ext. intros k Hk.
    assert (T : get2 (tr (t_scale q A)) k r = q * get2 A r k).
    { rewrite (tr_ok (t_scale q A) (b * per) d SA). rewrite get2_tab2 by assumption. apply tget_scale. }
    rewrite T, GA by assumption. ring. }
  rewrite !V. ring.
Qed.

(** The factor of a part of the batch with [b] samples in the statistics of the output gradients. *)
Definition loss_weight (la : lossavg) (b : nat) : F := match la with LossSum => 1 | _ => fofnat b end.

Lemma local_H_part g l prev x gout s HK HC cK cC dK dC n rest :
  usable cK dK -> usable cC dC -> preconditioner_dims l = Ok (dK, dC) -> typed cK cC dK dC s -> fits l x gout -> shape x = n :: rest ->
  local_H g l prev x gout s = Ok (HK, HC) ->
  exists MK MC : nat -> nat -> mat,
    (forall a b b' i j, (i < dK)%nat -> (j < dK)%nat -> MK a (b + b')%nat i j = MK a b i j + MK (a + b)%nat b' i j) /\
    (forall a b b' i j, (i < dC)%nat -> (j < dC)%nat -> MC a (b + b')%nat i j = MC a b i j + MC (a + b)%nat b' i j) /\
    (forall a b, (a + b <= n)%nat -> b <> O ->
      exists hK hC, local_H g l prev (part x a b) (part gout a b) s = Ok (hK, hC) /\ valid cK dK hK /\ valid cC dC hC /\
        eqm dK (ent hK) (fun i j => MK a b i j / fofnat b) /\ eqm dC (ent hC) (fun i j => loss_weight (g_loss g) b * MC a b i j)).
Proof.
  intros UK UC Ed T FT Sx E. pose proof UK as (OK & DK & _ & NK). pose proof UC as (OC & DC & _ & NC).
  destruct T as [(K & EK & VK) (C & EC & VC) _ _ _ _]. unfold local_H in E. rewrite EK, EC in E.
  destruct (process_input x l (g_approx g)) as [A|] eqn:EA; [|discriminate]. cbn [bind] in E.
  destruct (process_grad_output gout l (g_loss g) (g_approx g)) as [B|] eqn:EB; [|discriminate]. cbn [bind lookup] in E.
  destruct (from_inner K (Some (tr A))) as [hk|]; [|discriminate]. cbn [bind] in E. destruct prev as [p|]; [|discriminate]. cbn [bind] in E.
  assert (HQ : exists q, forall B', (if feqb p 1 then Ok B' else if fltb p 0 then Err ValueError else Ok (t_divs B' (fsqrt p))) = Ok (t_scale q B')).
  { destruct (feqb p 1); [exists 1; intros; rewrite scale_1; reflexivity|]. destruct (fltb p 0); [discriminate|]. exists (1 / fsqrt p). intros. rewrite divs_scale. reflexivity. }
  destruct HQ as (q & HQ).
  destruct (input_samples l x gout (g_approx g) dK dC A FT Ed EA) as (n1 & r1 & per & raw & S1 & Nn & Np & SW1). rewrite Sx in S1. injection S1 as <- <-.
  destruct (grad_samples l x gout (g_loss g) (g_approx g) dK dC B FT Ed EB) as (n2 & r2 & per' & sp & raw' & S2 & _ & Np' & Nsp & SW2).
  assert (n2 = n) as ->.
  { destruct l; [| |contradiction].
    - destruct FT as (b & mid & _ & F1 & F2). congruence.
    - destruct FT as (_ & b & ? & ? & ? & ? & _ & _ & F1 & F2). congruence. }
  set (vK := fun r i => sum dK (fun k => rent K i k * raw r k)). set (vC := fun r i => sum dC (fun k => rent C i k * raw' r k)).
  set (kc := match g_loss g with LossBatchSeq => fofnat sp | _ => 1 end).
  exists (fun a b i j => proj cK dK (outer vK per a b) i j / fofnat per), (fun a b i j => kc * (q * q) * proj cC dC (outer vC per' a b) i j).
  assert (Hla : g_loss g <> LossOther) by (intros Z; rewrite Z in EB; destruct (g_approx g); discriminate).
  split; [|split].
  - intros a b b' i j Hi Hj. rewrite !(Fdiv_def F_ft).
    rewrite (proj_ext cK dK (outer vK per a (b + b')) (fun i j => outer vK per a b i j + outer vK per (a + b) b' i j) i j) by (try assumption; intros; apply outer_add).
    rewrite proj_add by assumption. ring.
  - intros a b b' i j Hi Hj.
    rewrite (proj_ext cC dC (outer vC per' a (b + b')) (fun i j => outer vC per' a b i j + outer vC per' (a + b) b' i j) i j) by (try assumption; intros; apply outer_add).
    rewrite proj_add by assumption. ring.
  - intros a b L N.
    destruct (stat_samples cK dK K _ _ x n per raw 1 OK DK VK Np SW1 a b L N) as (A' & hK & EA' & EhK & VhK & RK).
    destruct (stat_samples cC dC C _ _ gout n per' raw' q OC DC VC Np' SW2 a b L N) as (B' & hC & EB' & EhC & VhC & RC).
    cbv beta in EA', EB'. exists hK, hC. split.
    { unfold local_H. rewrite EA', EB', EK, EC. cbn [bind lookup]. rewrite <- (scale_1 A') in EhK at 1. rewrite scale_scale in EhK. replace (1 * 1) with 1 in EhK by ring.
      rewrite scale_1 in EhK. rewrite EhK. cbn [bind]. rewrite HQ. cbn [bind]. rewrite EhC. reflexivity. }
    split; [exact VhK|]. split; [exact VhC|]. pose proof (fofnat_neq0 b N) as Fb. pose proof (fofnat_neq0 per Np) as Fp.
    split; intros i j Hi Hj.
    + rewrite RK by assumption. assert (X : 1 / fsqrt (fofnat (b * per)) * (1 / fsqrt (fofnat (b * per))) = 1 / (fofnat b * fofnat per)).
      { rewrite div_sqrt_mul by (intros Z; apply Nat.eq_mul_0 in Z; tauto). rewrite fofnat_mul. replace (1 * 1) with 1 by ring. reflexivity. }
      rewrite X. fold vK. field. auto.
    + rewrite RC by assumption. rewrite loss_scaling_sq by exact Hla. fold vC. unfold grad_factor, loss_weight, kc. destruct (g_loss g); try congruence; rewrite ?fofnat_mul; ring.
Qed.
End Batch.
