(** Proofs about GroupFoldIterator's initialisation (C32). *)
From Verif Require Import Base NamesModel NamesSpec NamesProofs TableModel TableSpec TableProofs TableOps
  PrepModel PrepSpec PrepProofs FoldModel FoldSpec FoldProofs LearnProofs.
From Coq Require Import Sorted.
Open Scope list_scope.
Open Scope nat_scope.

Section K.
Context {L : Type} {EL : EqDec L}.
Variable missing : L -> bool.
Lemma keep_gen : forall (vals : list L) a,
  StronglySorted lt (map fst (filter (fun p => negb (missing (snd p))) (combine (seq a (List.length vals)) vals))) /\
  Forall (fun i => a <= i) (map fst (filter (fun p => negb (missing (snd p))) (combine (seq a (List.length vals)) vals))).
Proof.
  induction vals as [|v vals IH]; intros a; simpl; [split; constructor|].
  destruct (IH (S a)) as [H1 H2]. destruct (missing v); simpl.
  - split; auto. eapply Forall_impl; [|exact H2]. simpl; intros; lia.
  - split; constructor; auto. eapply Forall_impl; [|exact H2]. simpl; intros; lia.
Qed.
Lemma keep_sorted vals : StronglySorted lt (keepNonMissing missing vals).
Proof. apply keep_gen. Qed.
Lemma keep_In vals i : In i (keepNonMissing missing vals) <-> exists v, nth_error vals i = Some v /\ missing v = false.
Proof.
  unfold keepNonMissing. rewrite in_map_iff. split.
  - intros ((i' & v) & <- & H). apply filter_In in H. destruct H as [H1 H2]. apply combine_seq_In in H1.
    exists v. simpl in *. split; auto. destruct (missing v); auto; discriminate.
  - intros (v & H1 & H2). exists (i, v). split; auto. apply filter_In. split; [apply combine_seq_In; auto|].
    simpl. rewrite H2. reflexivity.
Qed.
Lemma sorted_nodup l : StronglySorted lt l -> NoDup l.
Proof.
  induction 1 as [|a l H IH F]; constructor; auto. intros Hin. rewrite Forall_forall in F. specialize (F _ Hin). lia.
Qed.
Definition keptVals (vals : list L) (keep : list nat) :=
  flat_map (fun i => match nth_error vals i with Some v => [v] | None => [] end) keep.
Lemma keptVals_nth vals : forall keep, (forall i, In i keep -> i < List.length vals) ->
  List.length (keptVals vals keep) = List.length keep /\
  forall j, nth_error (keptVals vals keep) j = match nth_error keep j with Some i => nth_error vals i | None => None end.
Proof.
  induction keep as [|i keep IH]; intros H; simpl; [split; auto; intros []; auto|].
  destruct (nth_error vals i) as [v|] eqn:E.
  2: { apply nth_error_None in E. specialize (H i (or_introl eq_refl)). lia. }
  destruct IH as [L1 L2]; [intros; apply H; right; auto|].
  simpl. split; [auto|]. intros [|j]; simpl; auto.
Qed.
Lemma groupInit_spec {V} (vals : list L) (data : list (option (table V))) :
  Forall (okData (List.length vals)) data -> (exists t0 rest, data = Some t0 :: rest) ->
  (exists i v, nth_error vals i = Some v /\ missing v = false) ->
  exists data' folds keep, groupInit missing vals data = Ok (data', folds) /\
    StronglySorted lt keep /\
    (forall i, In i keep <-> exists v, nth_error vals i = Some v /\ missing v = false) /\
    Forall2 (fun d d' => match d, d' with
                         | None, None => True
                         | Some t, Some t' => subTable t keep (seq 0 (alen (tf t))) t'
                         | _, _ => False end) data data' /\
    partitionOf (List.length keep) folds /\
    forall fold, In fold folds -> fold <> [] /\ exists v, missing v = false /\
      forall j, In j fold <-> exists i, nth_error keep j = Some i /\ nth_error vals i = Some v.
Proof.
  intros HD (t0 & rest & E0) (i0 & v0 & Hi0 & Hm0).
  set (keep := keepNonMissing missing vals).
  assert (HK : forall i, In i keep <-> exists v, nth_error vals i = Some v /\ missing v = false) by (intros; apply keep_In).
  assert (Hb : forall i, In i keep -> i < List.length vals).
  { intros i Hi. apply HK in Hi. destruct Hi as (v & Hv & _). apply nth_error_Some. congruence. }
  assert (HS := keep_sorted vals). fold keep in HS.
  assert (ND := sorted_nodup _ HS).
  assert (HM : exists data', rmapM (fun d => match d with
                           | None => Ok None
                           | Some t => rmap Some (copyIds Pts t (intIds keep)) end) data = Ok data' /\
     Forall2 (fun d d' => match d, d' with
                         | None, None => True
                         | Some t, Some t' => subTable t keep (seq 0 (alen (tf t))) t'
                         | _, _ => False end) data data').
  { clear E0. induction HD as [|d data Hd HD IH]; [exists []; split; [reflexivity|constructor]|].
    destruct IH as (data' & E & F). cbn [rmapM]. destruct d as [t|].
    - destruct Hd as [Hw Hn]. destruct (copyIds_P V t keep Hw ND) as (t' & Et & St).
      { intros i Hi. rewrite Hn. auto. }
      exists (Some t' :: data'). rewrite Et. cbn [rmap rbind]. rewrite E. split; [reflexivity|]. constructor; auto.
    - exists (None :: data'). cbn [rbind]. rewrite E. split; [reflexivity|]. constructor; auto. }
  destruct HM as (data' & E & F).
  destruct (@groupFolds_spec L EL (keptVals vals keep)) as [P1 P2].
  destruct (keptVals_nth vals keep Hb) as [KL KN]. rewrite KL in P1.
  exists data', (groupFolds (keptVals vals keep)), keep.
  assert (Hlen : Forall (fun d => match d with Some t => alen (tp t) = List.length keep | None => True end) data').
  { clear -F. induction F as [|d d' data data' H F IH]; constructor; auto.
    destruct d, d'; try tauto. destruct H as (_ & H & _). auto. }
  assert (Hpos : List.length keep <> 0).
  { destruct keep; [|discriminate]. exfalso. apply (proj2 (HK i0)); eauto. }
  split; [|split; [|split; [|split; [|split]]]]; auto.
  - unfold groupInit. fold keep. rewrite E. cbn [rbind].
    rewrite E0 in F. inversion F as [|? d' ? rest' H0 FR]; subst. destruct d' as [t'|]; [|tauto].
    match goal with |- (if ?b then _ else _) = _ => destruct b eqn:Eb; [exfalso|reflexivity] end.
    apply existsb_exists in Eb. destruct Eb as ([t|] & Hin & Hc); [|discriminate].
    rewrite Forall_forall in Hlen. pose proof (Hlen _ Hin) as H1. pose proof (Hlen _ (or_introl eq_refl)) as H2.
    simpl in H1, H2. rewrite H1, H2, Nat.eqb_refl in Hc. simpl in Hc. rewrite orb_false_r in Hc.
    apply Nat.eqb_eq in Hc. auto.
  - intros fold Hf. destruct (P2 _ Hf) as [N (v & Hv)]. split; auto. exists v.
    assert (HV : forall j, In j fold <-> exists i, nth_error keep j = Some i /\ nth_error vals i = Some v).
    { intros j. rewrite Hv, KN. split.
      - destruct (nth_error keep j) as [i|]; [|discriminate]. eauto.
      - intros (i & -> & H). auto. }
    split; auto. destruct fold as [|j fold]; [congruence|].
    destruct (proj1 (HV j) (or_introl eq_refl)) as (i & H1 & H2).
    apply nth_error_In, HK in H1. destruct H1 as (v' & H3 & H4). congruence.
Qed.
End K.
