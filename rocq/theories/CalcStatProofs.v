From Verif Require Import Base TableModel TableSpec TableSortProofs LearnModel LearnSpec LearnProofs LearnMultiProofs CalcModel CalcStatModel CalcSpec CalcProofs CalcNormProofs CalcPercProofs.
From Coq Require Import QArith Qabs Lqa Sorted.
Open Scope list_scope.
Open Scope nat_scope.

Lemma nonMissing_app a b : nonMissing (a ++ b) = nonMissing a ++ nonMissing b.
Proof. unfold nonMissing. apply flat_map_app. Qed.
Lemma nonMissing_perm a b : Permutation a b -> Permutation (nonMissing a) (nonMissing b).
Proof. apply flat_map_perm. Qed.
Lemma len_parts l : List.length (nonMissing l) + nanCount l = List.length l.
Proof. unfold nanCount. induction l as [|[x|] t IH]; simpl; auto; unfold isNan in *; lia. Qed.
Definition nz (x : option Q) : bool := match x with Some q => negb (Qeq_bool q 0) | None => true end.
Lemma denseOf_split s l : denseOf s l -> exists zs, Permutation (nonMissing l) (nonMissing (spStored s) ++ zs) /\
  (forall z, In z zs -> (z == 0)%Q) /\ List.length (spStored s) + List.length zs = List.length l /\
  List.length l = spLen s /\ nanCount l = nanCount (spStored s) /\ numZeroDense l = List.length zs.
Proof.
  intros [Hl Hp]. fold nz in Hp. change (fun x => match x with Some q => negb (Qeq_bool q 0) | None => true end) with nz in Hp.
  exists (nonMissing (filter isZero l)).
  assert (HP : Permutation l (filter nz l ++ filter isZero l)).
  { clear. induction l as [|x t IH]; simpl; auto. destruct x as [q|]; simpl; [|apply perm_skip; auto].
    destruct (Qeq_bool q 0); simpl; [|apply perm_skip; auto]. apply Permutation_cons_app; auto. }
  assert (Hz : List.length (nonMissing (filter isZero l)) = List.length (filter isZero l)).
  { clear. induction l as [|[q|] t IH]; simpl; auto. destruct (Qeq_bool q 0); simpl; auto. }
  split; [|split; [|split; [|split; [|split]]]]; auto.
  - eapply Permutation_trans; [apply nonMissing_perm, HP|]. rewrite nonMissing_app. apply Permutation_app_tail, nonMissing_perm, Permutation_sym, Hp.
  - intros z Hin. unfold nonMissing in Hin. apply in_flat_map in Hin as (x & Hx & Hin). apply filter_In in Hx as [_ Hx].
    destruct x as [q|]; [|destruct Hin]. destruct Hin as [<-|[]]. apply Qeq_bool_eq. exact Hx.
  - rewrite Hz, (Permutation_length Hp), <- app_length. symmetry. apply Permutation_length, HP.
  - unfold nanCount. rewrite (perm_filter_len isNan _ _ Hp), (perm_filter_len isNan _ _ HP), filter_app, app_length.
    assert (E : filter isNan (filter isZero l) = []). { clear. induction l as [|[q|] t IH]; simpl; auto. destruct (Qeq_bool q 0); auto. }
    rewrite E. simpl. lia.
Qed.
Lemma qsum_zeros zs : (forall z, In z zs -> (z == 0)%Q) -> (qsum zs == 0)%Q.
Proof.
  induction zs as [|z t IH]; intros H; [reflexivity|]. rewrite qsum_cons, IH, (H z (or_introl eq_refl)) by (intros; apply H; right; auto). reflexivity.
Qed.
Lemma qnatZ n : inject_Z (Z.of_nat n) = qnat n.
Proof. reflexivity. Qed.
Lemma mean_sparse s l : denseOf s l -> optQeq (meanSparse s) (meanDense l).
Proof.
  intros H. destruct (denseOf_split s l H) as (zs & HP & Hz & H1 & H2 & H3 & _). unfold meanSparse, meanDense.
  pose proof (len_parts l) as Hp. replace (Z.of_nat (spLen s) - Z.of_nat (nanCount (spStored s)))%Z with (Z.of_nat (List.length (nonMissing l))) by lia.
  destruct (List.length (nonMissing l) =? 0) eqn:E.
  - apply Nat.eqb_eq in E. rewrite E. simpl. auto.
  - apply Nat.eqb_neq in E. replace (Z.of_nat (List.length (nonMissing l)) =? 0)%Z with false by (symmetry; apply Z.eqb_neq; lia).
    simpl. rewrite qnatZ, (qsum_perm _ _ HP), qsum_app, (qsum_zeros zs Hz), Qplus_0_r. reflexivity.
Qed.
Lemma sqdev_eq m m' v : (m == m')%Q -> (sqdev m v == sqdev m' v)%Q.
Proof.
  intros E. unfold sqdev. induction v as [|x t IH]; [reflexivity|]. cbn [map]. rewrite !qsum_cons, IH, E. reflexivity.
Qed.
Lemma sqdev_zeros m zs : (forall z, In z zs -> (z == 0)%Q) -> (sqdev m zs == m * m * qnat (List.length zs))%Q.
Proof.
  unfold sqdev. induction zs as [|z t IH]; intros H.
  - change (qsum (map (fun x => (x - m) * (x - m))%Q [])) with 0%Q. change (qnat (List.length (@nil Q))) with 0%Q. ring.
  - cbn [map List.length]. rewrite qsum_cons, IH, (H z (or_introl eq_refl)), qnat_S by (intros; apply H; right; auto). ring.
Qed.
Lemma sqdev_app m a b : (sqdev m (a ++ b) == sqdev m a + sqdev m b)%Q.
Proof. unfold sqdev. rewrite map_app. apply qsum_app. Qed.
Lemma sqdev_perm m a b : Permutation a b -> (sqdev m a == sqdev m b)%Q.
Proof. intros H. unfold sqdev. apply qsum_perm, Permutation_map, H. Qed.
Lemma variance_sparse ddof s l : denseOf s l -> optQeq (varianceSparse ddof s) (varianceDense ddof l).
Proof.
  intros H. pose proof (mean_sparse s l H) as Hm. destruct (denseOf_split s l H) as (zs & HP & Hz & H1 & H2 & H3 & _).
  unfold varianceSparse, varianceDense. destruct (meanSparse s) as [m|], (meanDense l) as [m'|]; try contradiction; [|exact I].
  simpl in Hm. pose proof (len_parts l) as Hp.
  replace (Z.of_nat (spLen s) - Z.of_nat (nanCount (spStored s)) - Z.of_nat ddof)%Z
    with (Z.of_nat (List.length (nonMissing l)) - Z.of_nat ddof)%Z by lia.
  destruct (Z.of_nat (List.length (nonMissing l)) - Z.of_nat ddof =? 0)%Z; [exact I|].
  replace (Z.of_nat (spLen s) - Z.of_nat (List.length (spStored s)))%Z with (Z.of_nat (List.length zs)) by lia.
  simpl. rewrite qnatZ. apply Qmult_comp; [|reflexivity].
  rewrite (sqdev_perm m' _ _ HP), sqdev_app, (sqdev_zeros m' zs Hz), (sqdev_eq m m' _ Hm), Hm. reflexivity.
Qed.
Lemma zero_sparse s l : denseOf s l -> Z.of_nat (numZeroDense l) = numZeroSparse s.
Proof.
  intros H. destruct (denseOf_split s l H) as (zs & HP & Hz & H1 & H2 & H3 & H4). unfold numZeroSparse. lia.
Qed.
(** extreme values *)
Definition eqvIn (a b : list Q) : Prop := (forall x, In x a -> exists y, In y b /\ (x == y)%Q) /\ (forall x, In x b -> exists y, In y a /\ (x == y)%Q).
Lemma qmin_eqv a b : eqvIn a b -> optQeq (qmin a) (qmin b).
Proof.
  intros [H1 H2]. destruct (qmin a) as [x|] eqn:Ea, (qmin b) as [y|] eqn:Eb; simpl; auto.
  - destruct (qmin_spec _ _ Ea) as [Ia Ba]. destruct (qmin_spec _ _ Eb) as [Ib Bb].
    destruct (H1 x Ia) as (x' & Ix & Ex). destruct (H2 y Ib) as (y' & Iy & Ey). specialize (Ba y' Iy). specialize (Bb x' Ix). lra.
  - destruct (qmin_spec _ _ Ea) as [Ia _]. destruct (H1 x Ia) as (x' & Ix & _). destruct b; [destruct Ix|discriminate].
  - destruct (qmin_spec _ _ Eb) as [Ia _]. destruct (H2 y Ia) as (x' & Ix & _). destruct a; [destruct Ix|discriminate].
Qed.
Lemma qmax_eqv a b : eqvIn a b -> optQeq (qmax a) (qmax b).
Proof.
  intros [H1 H2]. destruct (qmax a) as [x|] eqn:Ea, (qmax b) as [y|] eqn:Eb; simpl; auto.
  - destruct (qmax_spec _ _ Ea) as [Ia Ba]. destruct (qmax_spec _ _ Eb) as [Ib Bb].
    destruct (H1 x Ia) as (x' & Ix & Ex). destruct (H2 y Ib) as (y' & Iy & Ey). specialize (Ba y' Iy). specialize (Bb x' Ix). lra.
  - destruct (qmax_spec _ _ Ea) as [Ia _]. destruct (H1 x Ia) as (x' & Ix & _). destruct b; [destruct Ix|discriminate].
  - destruct (qmax_spec _ _ Eb) as [Ia _]. destruct (H2 y Ia) as (x' & Ix & _). destruct a; [destruct Ix|discriminate].
Qed.
Lemma toProcess_eqv s l : denseOf s l -> eqvIn (nonMissing (toProcess s)) (nonMissing l).
Proof.
  intros H. destruct (denseOf_split s l H) as (zs & HP & Hz & H1 & H2 & _). unfold toProcess.
  destruct (List.length (spStored s) <? spLen s) eqn:E.
  - apply Nat.ltb_lt in E. destruct zs as [|z zs]; [simpl in H1; lia|]. rewrite nonMissing_app. split.
    + intros x Hx. apply in_app_iff in Hx as [Hx|[<-|[]]].
      * exists x. split; [|reflexivity]. eapply Permutation_in; [apply Permutation_sym, HP|]. apply in_or_app; auto.
      * exists z. split; [|symmetry; apply Hz; left; auto]. eapply Permutation_in; [apply Permutation_sym, HP|]. apply in_or_app; right; left; auto.
    + intros x Hx. eapply Permutation_in in Hx; [|exact HP]. apply in_app_iff in Hx as [Hx|Hx].
      * exists x. split; [apply in_or_app; auto|reflexivity].
      * exists 0%Q. split; [apply in_or_app; right; left; auto|apply Hz; auto].
  - apply Nat.ltb_ge in E. destruct zs as [|z zs]; [|simpl in H1; lia]. rewrite app_nil_r in HP. split; intros x Hx; exists x; split; try reflexivity.
    + eapply Permutation_in; [apply Permutation_sym, HP|]; auto.
    + eapply Permutation_in; [apply HP|]; auto.
Qed.
Lemma minmax_sparse s l : denseOf s l -> optQeq (minSparse s) (minDense l) /\ optQeq (maxSparse s) (maxDense l).
Proof. intros H. split; [apply qmin_eqv|apply qmax_eqv]; apply toProcess_eqv; auto. Qed.
Lemma minmax_spec l : nonMissing l <> [] -> exists mn mx, minDense l = Some mn /\ maxDense l = Some mx /\
  In (Some mn) l /\ In (Some mx) l /\ forall x, In (Some x) l -> (mn <= x <= mx)%Q.
Proof.
  intros Hne. assert (HI : forall x, In x (nonMissing l) <-> In (Some x) l).
  { intros x. unfold nonMissing. rewrite in_flat_map. split.
    - intros ([y|] & Hy & Hx); [destruct Hx as [<-|[]]; auto|destruct Hx].
    - intros H. exists (Some x). split; auto. left; auto. }
  destruct (qmin_some _ Hne) as [mn Emn]. destruct (qmax_some _ Hne) as [mx Emx]. exists mn, mx.
  destruct (qmin_spec _ _ Emn) as [A1 A2]. destruct (qmax_spec _ _ Emx) as [B1 B2].
  split; auto. split; auto. split; [apply HI; auto|]. split; [apply HI; auto|]. intros x Hx. apply HI in Hx. auto.
Qed.
