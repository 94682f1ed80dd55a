(** Proofs for folds and the Validator (C32, C33, C54). *)
From Verif Require Import Base NamesModel NamesSpec NamesProofs NamesIndexProofs TableModel TableSpec TableProofs
  TablePermProofs TableOps TableSortProofs TableInsertProofs TableOpsProofs PrepModel PrepSpec PrepProofs TableGroupProofs FlatProofs EncodeProofs FoldModel FoldSpec.
From Coq Require Import Sorted.
Open Scope list_scope.
Open Scope nat_scope.

(** ** k folds *)
Lemma firstn_skipn_app {A} (l : list A) a b c : a <= b -> b <= c ->
  firstn (b - a) (skipn a l) ++ firstn (c - b) (skipn b l) = firstn (c - a) (skipn a l).
Proof.
  intros H1 H2. apply nth_error_ext. intros i. rewrite nth_error_app, firstn_length, skipn_length.
  rewrite !nth_error_firstn, !nth_error_skipn.
  destruct (Nat.ltb_spec i (Nat.min (b - a) (List.length l - a))).
  - replace (i <? b - a) with true by (symmetry; apply Nat.ltb_lt; lia).
    replace (i <? c - a) with true by (symmetry; apply Nat.ltb_lt; lia). auto.
  - destruct (le_lt_dec (b - a) (List.length l - a)) as [Hl|Hl].
    + replace (Nat.min (b - a) (List.length l - a)) with (b - a) in * by lia.
      replace (b + (i - (b - a))) with (a + i) by lia.
      destruct (Nat.ltb_spec (i - (b - a)) (c - b)), (Nat.ltb_spec i (c - a)); auto; lia.
    + replace (Nat.min (b - a) (List.length l - a)) with (List.length l - a) in * by lia.
      assert (Hn : forall j, List.length l <= j -> nth_error l j = None) by (intros; apply nth_error_None; auto).
      rewrite (Hn (b + _)) by lia. rewrite (Hn (a + i)) by lia.
      destruct (_ <? _), (_ <? _); auto.
Qed.
Definition stopOf (m r f : nat) : nat := f * m + Nat.min f r.
Lemma foldSlices_spec m r ind c : forall f,
  (forall j l, nth_error (foldSlices m r ind f c (stopOf m r f)) j = Some l ->
     l = firstn (m + (if f + j <? r then 1 else 0)) (skipn (stopOf m r (f + j)) ind)) /\
  List.length (foldSlices m r ind f c (stopOf m r f)) = c /\
  List.concat (foldSlices m r ind f c (stopOf m r f)) =
    firstn (stopOf m r (f + c) - stopOf m r f) (skipn (stopOf m r f) ind).
Proof.
  induction c as [|c IH]; intros f.
  - cbn [foldSlices]. rewrite Nat.add_0_r, Nat.sub_diag. split; [intros [|j] l; discriminate|]. auto.
  - cbn [foldSlices].
    assert (Es : (f + 1) * m + (if f <? r then f + 1 else r) = stopOf m r (S f)).
    { unfold stopOf. destruct (Nat.ltb_spec f r); lia. }
    rewrite Es. destruct (IH (S f)) as (A & B & C). split; [|split].
    + intros [|j] l H; cbn [nth_error] in H.
      * injection H as <-. rewrite Nat.add_0_r. f_equal. unfold stopOf. destruct (Nat.ltb_spec f r); lia.
      * apply A in H. rewrite H. replace (S f + j) with (f + S j) by lia. auto.
    + cbn. auto.
    + cbn [List.concat]. rewrite C. replace (S f + c) with (f + S c) by lia.
      apply firstn_skipn_app; unfold stopOf; nia.
Qed.

Lemma kFolds_spec n k ind : Permutation ind (seq 0 n) -> 0 < k -> k <= n ->
  exists folds, kFolds n (Z.of_nat k) ind = Ok folds /\ List.length folds = k /\
    List.concat folds = ind /\
    forall f, In f folds -> List.length f = n / k \/ List.length f = n / k + 1.
Proof.
  intros Hp Hk Hn. unfold kFolds. destruct (Z.leb_spec (Z.of_nat k) 0); [lia|].
  destruct (Nat.eqb_spec n 0); [lia|]. rewrite Nat2Z.id. cbv zeta.
  assert (Hm : 1 <= n / k) by (apply Nat.div_le_lower_bound; lia).
  destruct (Nat.eqb_spec (n / k) 0); [lia|].
  set (m := n / k) in *. set (r := n mod k).
  assert (Hnr : n = k * m + r) by (apply Nat.div_mod; lia).
  assert (Hr : r < k) by (apply Nat.mod_upper_bound; lia).
  assert (Hl : List.length ind = n) by (apply Permutation_length in Hp; rewrite seq_length in Hp; auto).
  destruct (foldSlices_spec m r ind k 0) as (A & B & C). change (stopOf m r 0) with 0 in *.
  eexists. split; [reflexivity|]. split; auto.
  assert (Hstop : stopOf m r (0 + k) = n) by (unfold stopOf; nia).
  split.
  - rewrite C, Hstop. change (skipn 0 ind) with ind. rewrite Nat.sub_0_r. apply firstn_all2. lia.
  - intros f Hf. apply In_nth_error in Hf. destruct Hf as [j Hj]. pose proof (nth_error_lt _ _ Hj) as Hjk. rewrite B in Hjk.
    apply A in Hj. subst f. cbn [plus]. rewrite firstn_length, skipn_length, Hl.
    assert (Hle : stopOf m r j + (m + (if j <? r then 1 else 0)) <= n).
    { unfold stopOf. destruct (Nat.ltb_spec j r); nia. }
    destruct (j <? r); rewrite Nat.min_l by lia; lia.
Qed.
Lemma kFolds_reject n z ind : (z <= 0)%Z \/ (Z.of_nat n < z)%Z -> exists e, kFolds n z ind = Err e.
Proof.
  intros H. unfold kFolds. destruct (Z.leb_spec z 0); [eauto|]. destruct (n =? 0); [eauto|].
  rewrite Nat.div_small by lia. cbn. eauto.
Qed.
Lemma leaveOneOut_spec n ind : Permutation ind (seq 0 n) -> 0 < n ->
  exists folds, leaveOneOut n ind = Ok folds /\ List.length folds = n /\ List.concat folds = ind /\
    forall f, In f folds -> List.length f = 1.
Proof.
  intros Hp Hn. destruct (kFolds_spec n n ind Hp Hn (Nat.le_refl n)) as (folds & E & L & C & S).
  exists folds. split; auto. split; auto. split; auto.
  intros f Hf. rewrite Nat.div_same in S by lia.
  assert (Hone : forall fs : list (list nat), (forall f, In f fs -> 1 <= List.length f) -> List.length (List.concat fs) = List.length fs ->
     forall f, In f fs -> List.length f = 1).
  { clear. induction fs as [|g fs IH]; intros Hge Hl f Hf; [destruct Hf|]. cbn in *.
    rewrite app_length in Hl. pose proof (Hge g (or_introl eq_refl)) as Hg.
    assert (Hc : List.length fs <= List.length (List.concat fs)).
    { assert (G : forall f, In f fs -> 1 <= List.length f) by auto. clear -G.
      induction fs as [|h fs IH]; cbn; auto. rewrite app_length. pose proof (G h (or_introl eq_refl)).
      assert (List.length fs <= List.length (List.concat fs)) by (apply IH; intros; apply G; simpl; auto). lia. }
    destruct Hf as [<-|Hf]; [lia|]. apply IH; auto. lia. }
  apply (Hone folds); auto.
  - intros g Hg. destruct (S g Hg); lia.
  - rewrite C, L. apply Permutation_length in Hp. rewrite seq_length in Hp. auto.
Qed.

(** ** group folds *)
Section Group.
Variable V : Type.
Context {EV : EqDec V}.
Definition gInv (done : list V) (d : dict V (list nat)) : Prop :=
  wfdict d /\ (forall v l, dget v d = Some l -> l <> [] /\ forall i, In i l <-> nth_error done i = Some v) /\
  Permutation (List.concat (map snd d)) (seq 0 (List.length done)).
Lemma concat_dset_add (d : dict V (list nat)) v l i : dget v d = Some l ->
  Permutation (List.concat (map snd (dset v (l ++ [i]) d))) (List.concat (map snd d) ++ [i]).
Proof.
  induction d as [|[a b] d IH]; cbn [dget dset]; [discriminate|].
  destruct (eq_dec v a) as [->|].
  - intros [= ->]. cbn. rewrite <- !app_assoc. apply Permutation_app_head. apply Permutation_app_comm.
  - intros H. cbn. rewrite <- app_assoc. apply Permutation_app_head, IH; auto.
Qed.
Lemma groupLoop_inv vals : forall done d, gInv done d ->
  gInv (done ++ vals) (groupLoop (List.length done) vals d).
Proof.
  induction vals as [|v vals IH]; intros done d (W & H & P); cbn [groupLoop].
  - rewrite app_nil_r. split; auto.
  - replace (done ++ v :: vals) with ((done ++ [v]) ++ vals) by (rewrite <- app_assoc; auto).
    replace (S (List.length done)) with (List.length (done ++ [v])) by (rewrite app_length; cbn; lia).
    apply IH. clear IH.
    assert (Hnth : forall i w, nth_error (done ++ [v]) i = Some w <->
              nth_error done i = Some w \/ (i = List.length done /\ w = v)).
    { intros i w. rewrite nth_error_app. destruct (Nat.ltb_spec i (List.length done)) as [Hi|Hi].
      - split; [auto|intros [|[]]; auto; lia].
      - split.
        + destruct (i - List.length done) as [|k] eqn:E; cbn.
          * intros [= ->]. right. split; auto. lia.
          * destruct k; discriminate.
        + intros [Hn|[-> ->]]; [apply nth_error_lt in Hn; lia|]. rewrite Nat.sub_diag. auto. }
    assert (Hlen : seq 0 (List.length (done ++ [v])) = seq 0 (List.length done) ++ [List.length done]).
    { rewrite app_length. cbn [List.length]. rewrite Nat.add_1_r. apply (seq_S (List.length done) 0). }
    destruct (dget v d) as [l|] eqn:E.
    + split; [apply wfdict_dset; auto|]. split.
      * intros w lw. rewrite dget_dset. destruct (eq_dec w v) as [->|Hw].
        -- intros [= <-]. split; [destruct l; discriminate|]. intros i. rewrite in_app_iff, Hnth.
           destruct (H v l E) as [_ Hl]. rewrite Hl. cbn. intuition.
        -- intros Hd. destruct (H w lw Hd) as [A B]. split; auto. intros i. rewrite B, Hnth. intuition congruence.
      * rewrite concat_dset_add by eauto. rewrite Hlen. apply Permutation_app_tail; auto.
    + assert (Hk : ~ In v (dkeys d)) by (apply dget_None; auto).
      assert (Hnot : forall i, nth_error done i <> Some v).
      { intros i Hi. assert (Hin : In i (seq 0 (List.length done))) by (apply in_seq; apply nth_error_lt in Hi; lia).
        eapply Permutation_in in Hin; [|apply Permutation_sym; exact P].
        apply in_concat in Hin. destruct Hin as [l [Hl Hil]]. apply in_map_iff in Hl. destruct Hl as [[w l'] [El Hd]]. cbn in El; subst l'.
        assert (Hg : dget w d = Some l) by (apply In_dget; auto). apply (H w l Hg) in Hil. rewrite Hi in Hil. injection Hil as <-. congruence. }
      split; [apply wfdict_dset; auto|]. split.
      * intros w lw. rewrite dget_dset. destruct (eq_dec w v) as [->|Hw].
        -- intros [= <-]. split; [discriminate|]. intros i. rewrite Hnth. cbn. split; [intuition|]. intros [Hi|[-> _]]; auto. exfalso; eapply Hnot; eauto.
        -- intros Hd. destruct (H w lw Hd) as [A B]. split; auto. intros i. rewrite B, Hnth. intuition congruence.
      * rewrite dset_new by auto. rewrite map_app, concat_app. cbn. rewrite Hlen. apply Permutation_app; auto.
Qed.
Lemma groupFolds_spec (vals : list V) :
  partitionOf (List.length vals) (groupFolds vals) /\
  forall fold, In fold (groupFolds vals) -> fold <> [] /\ exists v, forall i, In i fold <-> nth_error vals i = Some v.
Proof.
  assert (H : gInv vals (groupLoop 0 vals [])).
  { apply (groupLoop_inv vals [] []). split; [constructor|]. split; [discriminate|constructor]. }
  destruct H as (W & H & P). split; auto.
  intros fold Hf. unfold groupFolds in Hf. apply in_map_iff in Hf. destruct Hf as [[v l] [<- Hd]].
  apply In_dget in Hd; auto. destruct (H v l Hd) as [A B]. split; auto. exists v; auto.
Qed.
End Group.

(** ** the iterator *)
Section Iter.
Variable V : Type.
Implicit Types t : table V.
Lemma extractIds_P t idx : wf t -> NoDup idx -> (forall i, In i idx -> i < alen (tp t)) ->
  exists rest ret, extractIds Pts t (intIds idx) = Ok (rest, ret) /\
    subTable t idx (seq 0 (alen (tf t))) ret /\
    subTable t (without (alen (tp t)) idx) (seq 0 (alen (tf t))) rest.
Proof.
  intros Hw Hd Hi. unfold extractIds. rewrite (getTargets_ids V Pts t _ idx); auto.
  2: { apply constructIndices_int; auto. }
  cbn [rbind].
  destruct (taken_spec V Pts t idx Hw Hd Hi) as (r & Er & Wr & So & L & It).
  destruct (remaining_spec V Pts t idx Hw Hd Hi) as (q & Eq & Wq & Oq & Lq & Iq).
  rewrite Er. cbn [rbind]. rewrite Eq. cbn [rbind]. exists q, r. split; auto. split; apply items_subTable_P; auto.
  - intros i Hin. apply keepIdx_range in Hin; auto.
  - rewrite Iq, survivors_keep, items_length by auto. reflexivity.
  - split; rewrite Oq; auto.
Qed.
Lemma permute_P t order : wf t -> Permutation order (seq 0 (alen (tp t))) ->
  exists t', permuteIds Pts t (intIds order) = Ok t' /\ subTable t order (seq 0 (alen (tf t))) t'.
Proof.
  intros W Hp.
  assert (Hr : forall i, In i order -> i < alen (tp t)).
  { intros i Hi. eapply Permutation_in in Hi; eauto. apply in_seq in Hi. lia. }
  assert (HD : Forall2 (fun id i => Denotes (ax Pts t) false id (Z.of_nat i)) (intIds order) order).
  { apply constructIndices_Denotes; [apply W|]. apply constructIndices_int; auto. }
  destruct (permuteIds_accept V Pts t (intIds order) order W HD Hp) as [t' E].
  exists t'. split; auto.
  destruct (permuteIds_iff V Pts t (intIds order) t' W E) as (o & HD' & Hp' & W' & O' & I').
  assert (o = order).
  { apply constructIndices_Denotes in HD; [|apply W]. apply constructIndices_Denotes in HD'; [|apply W]. congruence. }
  subst o. apply items_subTable_P; auto. split; rewrite O'; auto.
Qed.

Lemma foldPair_spec t fold shuffle : wf t -> NoDup fold -> (forall i, In i fold -> i < alen (tp t)) ->
  Permutation shuffle (seq 0 (alen (tp t) - List.length fold)) ->
  exists train test, foldPair fold shuffle t = Ok (train, test) /\
    subTable t (selected shuffle (without (alen (tp t)) fold)) (seq 0 (alen (tf t))) train /\
    subTable t fold (seq 0 (alen (tf t))) test.
Proof.
  intros W Hd Hi Hs. unfold foldPair.
  destruct (extractIds_P t fold W Hd Hi) as (rest & ret & E & Sret & Srest). rewrite E. cbn [rbind fst snd].
  pose proof Srest as (Wr & Lp & Lf & _).
  assert (Hlw : List.length (without (alen (tp t)) fold) = alen (tp t) - List.length fold).
  { pose proof (filter_length_split (fun i => mem i fold) (seq 0 (alen (tp t)))) as G. rewrite seq_length in G.
    assert (Hf : Permutation (filter (fun i => mem i fold) (seq 0 (alen (tp t)))) fold).
    { apply NoDup_Permutation; auto; [apply NoDup_filter, seq_NoDup|].
      intros x. rewrite filter_In, mem_In, in_seq. split; [tauto|]. intros Hx. specialize (Hi x Hx). intuition lia. }
    apply Permutation_length in Hf. unfold without. lia. }
  destruct (permute_P rest shuffle Wr) as (train & Et & St).
  { rewrite Lp, Hlw. auto. }
  rewrite Et. cbn [rbind]. exists train, ret. split; auto. split; auto.
  rewrite Lf in St. rewrite seq_length in St.
  assert (Hsh : forall i, In i shuffle -> i < List.length (without (alen (tp t)) fold)).
  { intros i Hx. eapply Permutation_in in Hx; eauto. apply in_seq in Hx. lia. }
  pose proof (subTable_trans V t rest train (without (alen (tp t)) fold) (seq 0 (alen (tf t))) shuffle (seq 0 (alen (tf t)))) as T.
  replace (seq 0 (alen (tf t))) with (selected (seq 0 (alen (tf t))) (seq 0 (alen (tf t)))) by (apply selected_seq; apply seq_length).
  apply T; auto.
  - intros i Hx. eapply without_range; eauto.
  - intros i Hx. apply in_seq in Hx. lia.
  - intros i Hx. rewrite seq_length. apply in_seq in Hx. lia.
Qed.
Lemma NoDup_app_parts {A} (a b : list A) : NoDup (a ++ b) -> NoDup a /\ NoDup b.
Proof.
  induction a as [|x a IH]; cbn; intros H; [split; [constructor|auto]|]. inversion H as [|y l Hn Hd]; subst.
  destruct (IH Hd). split; auto. constructor; auto. intros Hx. apply Hn, in_or_app; auto.
Qed.
Lemma partition_fold n folds fold : partitionOf n folds -> In fold folds ->
  NoDup fold /\ (forall i, In i fold -> i < n) .
Proof.
  intros P Hf. assert (N : NoDup (List.concat folds)) by (eapply Permutation_NoDup; [apply Permutation_sym; exact P|apply seq_NoDup]).
  apply in_split in Hf. destruct Hf as (a & b & ->). rewrite concat_app in N. cbn in N.
  apply NoDup_app_parts in N. destruct N as [_ N]. apply NoDup_app_parts in N. destruct N as [N _]. split; auto.
  intros i Hi. assert (Hin : In i (seq 0 n)).
  { eapply Permutation_in; [exact P|]. apply in_concat. exists fold. split; auto. apply in_or_app. simpl; auto. }
  apply in_seq in Hin. lia.
Qed.
Lemma perm_selected_all {A} shuffle (l : list A) : Permutation shuffle (seq 0 (List.length l)) -> Permutation (selected shuffle l) l.
Proof.
  intros H. rewrite <- (selected_seq l (List.length l) eq_refl) at 2. unfold selected.
  apply Permutation_flat_map; auto.
Qed.
Lemma without_length n fold : NoDup fold -> (forall i, In i fold -> i < n) -> List.length (without n fold) = n - List.length fold.
Proof.
  intros Hd Hi. pose proof (filter_length_split (fun i => mem i fold) (seq 0 n)) as G. rewrite seq_length in G.
  assert (Hf : Permutation (filter (fun i => mem i fold) (seq 0 n)) fold).
  { apply NoDup_Permutation; auto; [apply NoDup_filter, seq_NoDup|].
    intros x. rewrite filter_In, mem_In, in_seq. split; [tauto|]. intros Hx. specialize (Hi x Hx). intuition lia. }
  apply Permutation_length in Hf. unfold without. lia.
Qed.
Lemma foldNext_ok n (data : list (option (table V))) folds shuf index fold : Forall (okData n) data -> partitionOf n folds -> okShuffle n folds shuf ->
  nth_error folds index = Some fold ->
  exists sets, foldNext data folds (shuf index) index = (S index, Ok sets) /\ foldSets n fold data sets.
Proof.
  intros Hd P Hs Hf. unfold foldNext. rewrite Hf.
  destruct (partition_fold n folds fold P (nth_error_In _ _ Hf)) as [Nf Rf].
  specialize (Hs index fold Hf). set (sh := shuf index) in *.
  assert (G : exists sets, rmapM (fun d => match d with None => Ok None | Some t => rmap Some (foldPair fold sh t) end) data = Ok sets /\
     Forall2 (fun d s => match d, s with
                        | None, None => True
                        | Some t, Some (train, test) =>
                            subTable t (selected sh (without n fold)) (seq 0 (alen (tf t))) train /\
                            subTable t fold (seq 0 (alen (tf t))) test
                        | _, _ => False end) data sets).
  { induction Hd as [|d data Hd1 Hd IH]; cbn [rmapM]; [eexists; split; [reflexivity|constructor]|].
    destruct IH as (sets & E & F2). rewrite E. destruct d as [t|].
    - destruct Hd1 as [W L]. destruct (foldPair_spec t fold sh W Nf) as (tr & te & Ep & S1 & S2); [rewrite L; auto|rewrite L; auto|].
      rewrite Ep. cbn [rmap rbind]. eexists; split; [reflexivity|]. constructor; auto. rewrite L in S1. auto.
    - cbn [rbind]. eexists; split; [reflexivity|]. constructor; auto. }
  destruct G as (sets & E & F2). rewrite E. exists sets. split; auto.
  exists (selected sh (without n fold)). split; auto.
  apply perm_selected_all. rewrite without_length by auto. auto.
Qed.
Variable R : Type.
Lemma cvLoop_ok n (data : list (option (table V))) folds shuf (learn : list (option (table V * table V)) -> result R) :
  Forall (okData n) data -> partitionOf n folds -> okShuffle n folds shuf ->
  (forall sets, exists r, learn sets = Ok r) ->
  forall c index acc, index + c = List.length folds ->
  exists rs, cvLoop data folds shuf learn (S c) index acc = (0, Ok (acc ++ rs)) /\
    Forall2 (fun fold r => exists sets, foldSets n fold data sets /\ learn sets = Ok r) (skipn index folds) rs.
Proof.
  intros Hd P Hs HL. induction c as [|c IH]; intros index acc Hi; cbn [cvLoop].
  - unfold foldNext. rewrite (proj2 (nth_error_None folds index)) by lia. exists []. rewrite app_nil_r.
    split; auto. rewrite skipn_all2 by lia. constructor.
  - destruct (nth_error_is_some folds (i := index)) as [fold Hf]; [lia|].
    destruct (foldNext_ok n data folds shuf index fold Hd P Hs Hf) as (sets & E & FS). rewrite E.
    destruct (HL sets) as [r Hr]. rewrite Hr.
    destruct (IH (S index) (acc ++ [r])) as (rs & Ec & F2); [lia|].
    cbn [cvLoop] in Ec. rewrite Ec. exists (r :: rs). rewrite <- app_assoc. split; auto.
    assert (Es : skipn index folds = fold :: skipn (S index) folds).
    { clear -Hf. revert index Hf. induction folds as [|g fs IHf]; intros [|i] H; cbn in *; try discriminate; [congruence|].
      apply IHf in H. rewrite H. destruct fs; reflexivity. }
    rewrite Es. constructor; auto. eauto.
Qed.
Lemma crossValidate_ok n (data : list (option (table V))) folds shuf learn :
  Forall (okData n) data -> partitionOf n folds -> okShuffle n folds shuf ->
  (forall sets, exists r : R, learn sets = Ok r) ->
  exists rs, crossValidate data folds shuf learn 0 = (0, Ok rs) /\
    Forall2 (fun fold r => exists sets, foldSets n fold data sets /\ learn sets = Ok r) folds rs.
Proof.
  intros Hd P Hs HL. unfold crossValidate.
  destruct (cvLoop_ok n data folds shuf learn Hd P Hs HL (List.length folds) 0 [] eq_refl) as (rs & E & F2).
  exists rs. auto.
Qed.
End Iter.

(** ** the collected known labels *)
Lemma NoDup_app_disj {A} (a b : list A) x : NoDup (a ++ b) -> In x a -> In x b -> False.
Proof.
  induction a as [|y a IH]; cbn [app]; intros N Ha Hb; [destruct Ha|].
  inversion N; subst. destruct Ha as [->|Ha]; auto. apply H1, in_or_app; auto.
Qed.
Section Collect.
Variable V : Type.
Implicit Types t : table V.
Lemma subTable_items_P t t' idx : wf t -> (forall i, In i idx -> i < alen (tp t)) ->
  subTable t idx (seq 0 (alen (tf t))) t' -> items Pts t' = selected idx (items Pts t).
Proof.
  intros W R (W' & Lp & Lf & Np & Nf & C). rewrite seq_length in Lf.
  apply nth_error_ext. intros j. rewrite selected_nth by (intros; rewrite items_length; auto).
  rewrite items_nth by auto. cbn [ax vectors]. rewrite Np.
  rewrite selected_nth by (intros i Hi; rewrite getNames_length; [auto|apply W]).
  destruct (nth_error idx j) as [i|] eqn:E; auto.
  assert (Hi : i < alen (tp t)) by (apply R; eapply nth_error_In; eauto).
  assert (Hj : j < List.length idx) by (eapply nth_error_lt; eauto).
  rewrite items_nth by auto. cbn [ax vectors].
  destruct (nth_error (getNames (tp t)) i); auto.
  destruct (nth_error_is_some (rows t) (i := i)) as [r Hr]; [rewrite (proj1 W); auto|].
  destruct (nth_error_is_some (rows t') (i := j)) as [r' Hr']; [rewrite (proj1 W'); lia|].
  rewrite Hr, Hr'. do 2 f_equal. apply nth_error_ext. intros p.
  specialize (C j p). unfold cell in C. rewrite Hr', E, nth_error_seq in C. rewrite C.
  destruct (p <? alen (tf t)) eqn:Ep; cbn [plus]; [rewrite Hr; auto|].
  symmetry. apply nth_error_None. apply Nat.ltb_ge in Ep.
  rewrite (proj1 (proj2 W) r); auto. eapply nth_error_In; eauto.
Qed.
Lemma names_unique a i j s : Inv a -> nth_error (getNames a) i = Some (Some s) ->
  nth_error (getNames a) j = Some (Some s) -> i = j.
Proof.
  intros I H1 H2. apply names_in_dict in H1; auto. apply names_in_dict in H2; auto. congruence.
Qed.
Lemma append_sub t p q a b : wf t -> NoDup (p ++ q) -> (forall i, In i (p ++ q) -> i < alen (tp t)) ->
  subTable t p (seq 0 (alen (tf t))) a -> subTable t q (seq 0 (alen (tf t))) b ->
  exists c, insertTable Pts a None b = Ok c /\ subTable t (p ++ q) (seq 0 (alen (tf t))) c.
Proof.
  intros W N R A B.
  assert (Rp : forall i, In i p -> i < alen (tp t)) by (intros; apply R, in_or_app; auto).
  assert (Rq : forall i, In i q -> i < alen (tp t)) by (intros; apply R, in_or_app; auto).
  pose proof (subTable_items_P t a p W Rp A) as IA. pose proof (subTable_items_P t b q W Rq B) as IB.
  destruct A as (Wa & Lpa & Lfa & Npa & Nfa & Ca). destruct B as (Wb & Lpb & Lfb & Npb & Nfb & Cb).
  destruct (insert_accept _ Pts a b Wa Wb) as (c & Ec & Wc & Oc & Ic).
  - cbn [offax]. lia.
  - cbn [offax]. congruence.
  - cbn [ax]. intros s i j H1 H2. rewrite Npa in H1. rewrite Npb in H2.
    rewrite selected_nth in H1 by (intros; rewrite getNames_length; auto; apply W).
    rewrite selected_nth in H2 by (intros; rewrite getNames_length; auto; apply W).
    destruct (nth_error p i) as [x|] eqn:E1; [|discriminate]. destruct (nth_error q j) as [y|] eqn:E2; [|discriminate].
    assert (x = y) by (eapply names_unique; eauto; apply W). subst y.
    apply nth_error_In in E1, E2. eapply (NoDup_app_disj); eauto.
  - exists c. split; auto. apply items_subTable_P; auto.
    + rewrite Ic, IA, IB, selected_app. auto.
    + split; cbn [offax]; cbn [offax] in Oc; rewrite Oc; [rewrite seq_length in Lfa; auto|].
      rewrite Nfa. apply selected_seq. apply getNames_length, W.
Qed.
Lemma collectY_from t : wf t -> forall tests folds p acc,
  NoDup (p ++ List.concat folds) -> (forall i, In i (p ++ List.concat folds) -> i < alen (tp t)) ->
  subTable t p (seq 0 (alen (tf t))) acc ->
  Forall2 (fun f y => subTable t f (seq 0 (alen (tf t))) y) folds tests ->
  exists c, collectY (Some acc) tests = Ok (Some c) /\ subTable t (p ++ List.concat folds) (seq 0 (alen (tf t))) c.
Proof.
  intros W. induction tests as [|y tests IH]; intros folds p acc N R A F; inversion F; subst; cbn [collectY List.concat].
  - cbn [List.concat]. rewrite app_nil_r. eauto.
  - cbn [List.concat] in *. rewrite app_assoc in *.
    destruct (append_sub t p x acc y W) as (c & Ec & Sc); auto.
    { apply NoDup_app_parts in N. tauto. }
    { intros i Hi. apply R, in_or_app; auto. }
    rewrite Ec. cbn [rbind]. apply IH; auto.
Qed.
Lemma collectY_ok t folds tests : wf t -> partitionOf (alen (tp t)) folds -> folds <> [] ->
  Forall2 (fun f y => subTable t f (seq 0 (alen (tf t))) y) folds tests ->
  exists c, collectY None tests = Ok (Some c) /\ subTable t (List.concat folds) (seq 0 (alen (tf t))) c.
Proof.
  intros W P NE F. destruct F as [|f y folds tests Hy F]; [tauto|]. cbn [collectY List.concat rbind].
  apply collectY_from; auto.
  - eapply Permutation_NoDup; [symmetry; apply P|apply seq_NoDup].
  - intros i Hi. eapply Permutation_in in Hi; [|apply P]. apply in_seq in Hi. lia.
Qed.
End Collect.

(** ** the best result *)
Section Best.
Variables P A : Type.
Variable isBest : P -> P -> bool.
Hypothesis BO : betterOrder isBest.
Implicit Types s : vstate P A.
Lemma firstBest_add (l : list (P * A)) b x : firstBest isBest l b ->
  firstBest isBest (l ++ [x]) (if isBest (fst x) (fst b) then x else b).
Proof.
  destruct BO as (Irr & Tr & Tie). intros (k & Hk & H1 & H2). assert (Lk := nth_error_lt _ _ Hk).
  destruct (isBest (fst x) (fst b)) eqn:E.
  - exists (List.length l). rewrite nth_error_app2, Nat.sub_diag by auto. split; auto.
    assert (G : forall i y, i < List.length l -> nth_error (l ++ [x]) i = Some y -> isBest (fst x) (fst y) = true).
    { intros i y Hi Hy. rewrite nth_error_app1 in Hy by auto. specialize (H1 i y Hy).
      destruct (isBest (fst b) (fst y)) eqn:Eb; [eauto|]. destruct (Tie _ _ H1 Eb (fst x)) as [_ T]. congruence. }
    split; auto. intros i y Hy. destruct (Nat.lt_ge_cases i (List.length l)) as [Hi|Hi].
    + specialize (G i y Hi Hy). destruct (isBest (fst y) (fst x)) eqn:E2; auto.
      rewrite <- (Irr (fst x)). symmetry. eauto.
    + rewrite nth_error_app2 in Hy by auto. destruct (i - List.length l) as [|q]; [injection Hy as <-; auto|destruct q; discriminate].
  - exists k. rewrite nth_error_app1 by auto. split; auto. split; intros i y; intros.
    + destruct (Nat.lt_ge_cases i (List.length l)) as [Hi|Hi].
      * rewrite nth_error_app1 in H by auto. eauto.
      * rewrite nth_error_app2 in H by auto. destruct (i - List.length l) as [|q]; [injection H as <-; auto|destruct q; discriminate].
    + rewrite nth_error_app1 in H0 by lia. eauto.
Qed.
Definition okV s (l : list (P * A)) : Prop :=
  vResults s = map fst l /\ vArguments s = map snd l /\
  match vBest s with None => l = [] | Some b => firstBest isBest l b end.
Lemma validate_inv cs : forall s l, okV s l -> okV (fold_left (validate isBest) cs s) (l ++ recorded cs).
Proof.
  induction cs as [|[pa r] cs IH]; intros s l H; cbn [fold_left].
  - unfold recorded. cbn. rewrite app_nil_r. auto.
  - destruct r; cbn [validate]; unfold recorded; cbn [filter snd map fst].
    + change (pa :: map fst (filter snd cs)) with ([pa] ++ recorded cs). rewrite app_assoc. apply IH.
      destruct H as (H1 & H2 & H3). unfold record. repeat split; cbn [vResults vArguments vBest].
      * rewrite map_app, H1. auto.
      * rewrite map_app, H2. auto.
      * destruct (vBest s) as [b|].
        -- pose proof (firstBest_add l b pa H3) as F. destruct (isBest (fst pa) (fst b)); auto.
        -- subst l. exists 0. cbn. split; auto. split; [|lia]. intros [|i] x Hx; [injection Hx as <-; apply BO|destruct i; discriminate].
    + apply IH; auto.
Qed.
Lemma validate_all cs : okV (fold_left (validate isBest) cs vinit) (recorded cs).
Proof. apply (validate_inv cs vinit []). repeat split. Qed.
Lemma firstBest_unique (l : list (P * A)) b b' : firstBest isBest l b -> firstBest isBest l b' -> b = b'.
Proof.
  intros (k & Hk & H1 & H2) (k' & Hk' & H1' & H2').
  destruct (Nat.lt_trichotomy k k') as [L|[->|L]]; [|congruence|].
  - specialize (H2' k b L Hk). specialize (H1 k' b' Hk'). congruence.
  - specialize (H2 k' b' L Hk'). specialize (H1' k b Hk). congruence.
Qed.
Lemma combine_split_eq {X Y} (l : list (X * Y)) : combine (map fst l) (map snd l) = l.
Proof. induction l as [|[x y] l IH]; cbn; congruence. Qed.
Lemma sorted_spec s l : okV s l ->
  Permutation (sortedResults isBest s) l /\
  (forall i j x y, i < j -> nth_error (sortedResults isBest s) i = Some x ->
     nth_error (sortedResults isBest s) j = Some y -> isBest (fst y) (fst x) = false) /\
  hd_error (sortedResults isBest s) = vBest s.
Proof.
  intros (H1 & H2 & H3). unfold sortedResults. rewrite H1, H2, combine_split_eq.
  set (le := fun x y : P * A => negb (isBest (fst y) (fst x))).
  destruct BO as (Irr & Tr & Tie).
  assert (LT : forall x y, le x y = true \/ le y x = true).
  { intros x y. unfold le. destruct (isBest (fst y) (fst x)) eqn:E1; auto. destruct (isBest (fst x) (fst y)) eqn:E2; auto.
    exfalso. assert (isBest (fst x) (fst x) = true) by eauto. rewrite Irr in *. discriminate. }
  assert (LTr : forall x y z, le x y = true -> le y z = true -> le x z = true).
  { intros x y z. unfold le. rewrite !negb_true_iff. intros Ha Hb.
    destruct (isBest (fst z) (fst x)) eqn:E; auto.
    destruct (isBest (fst x) (fst y)) eqn:E1; [rewrite <- Hb; symmetry; eauto|].
    destruct (Tie _ _ Ha E1 (fst z)) as [_ T]. congruence. }
  split; [apply stableSort_perm|]. 
  assert (HD : match vBest s with None => l = [] | Some b => firstBest isBest l b end -> hd_error (stableSort le l) = vBest s).
  { clear H3. intros H3. 
    assert (G : forall l : list (P * A), match hd_error (stableSort le l) with None => l = [] | Some b => firstBest isBest l b end).
    { clear -BO. destruct BO as (Irr & Tr & Tie). induction l as [|x l IH]; [reflexivity|].
      change (stableSort le (x :: l)) with (insertBy le x (stableSort le l)). destruct (stableSort le l) as [|h tl] eqn:E; cbn [insertBy hd_error] in *.
      - subst l. exists 0. cbn. split; auto. split; [|lia]. intros [|i] y Hy; [injection Hy as <-; auto|destruct i; discriminate].
      - destruct IH as (k & Hk & G1 & G2). destruct (le x h) eqn:El; cbn [hd_error].
        + unfold le in El. apply negb_true_iff in El. exists 0. cbn [nth_error]. split; auto. split; [|lia].
          intros [|i] y Hy; [injection Hy as <-; auto|]. cbn in Hy. specialize (G1 i y Hy).
          destruct (isBest (fst y) (fst x)) eqn:Ey; auto.
          destruct (isBest (fst x) (fst h)) eqn:Ex; [rewrite <- G1; symmetry; eauto|].
          destruct (Tie _ _ El Ex (fst y)) as [_ T]. congruence.
        + unfold le in El. apply negb_false_iff in El. exists (S k). split; auto. split.
          * intros [|i] y Hy; [injection Hy as <-|eauto].
            destruct (isBest (fst x) (fst h)) eqn:Ex; auto. rewrite <- (Irr (fst x)). symmetry; eauto.
          * intros [|i] y Hi Hy; [injection Hy as <-; auto|]. cbn in Hy. eapply G2; eauto. lia. }
    specialize (G l). destruct (hd_error (stableSort le l)) as [h|], (vBest s) as [b|]; auto.
    - f_equal. eapply firstBest_unique; eauto.
    - subst l. destruct G as (k & Hk & _). destruct k; discriminate.
    - subst l. destruct H3 as (k & Hk & _). destruct k; discriminate. }
  split; [|auto].
  assert (SS : StronglySorted (lexR le (fun _ _ => True)) (stableSort le l)).
  { apply stableSort_sorted; auto. clear. induction l; constructor; auto. apply Forall_forall; auto. }
  intros i j x y Hij Hx Hy. pose proof (StronglySorted_nth _ _ SS i j x y Hij Hx Hy) as R.
  apply lexR_le in R. unfold le in R. apply negb_true_iff in R. auto.
Qed.
End Best.
