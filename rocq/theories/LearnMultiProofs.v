From Verif Require Import Base TableModel TableSpec TableSortProofs LearnModel LearnSpec LearnProofs.
From Coq Require Import Sorted.
Open Scope list_scope.
Open Scope nat_scope.

(** ** C47: the flat index of a pair *)
Definition posOf (lo hi n : nat) : nat := lo * n - lo * (lo + 1) / 2 + (hi - (lo + 1)).
Lemma half_succ lo : S lo * (S lo + 1) / 2 = lo * (lo + 1) / 2 + S lo.
Proof.
  replace (S lo * (S lo + 1)) with (lo * (lo + 1) + (S lo) * 2) by lia.
  apply Nat.div_add. lia.
Qed.
Lemma half_le lo n : lo < n -> lo * (lo + 1) / 2 <= lo * n.
Proof.
  intros H. apply Nat.div_le_upper_bound; [lia|]. nia.
Qed.
Lemma posOf_0 hi n : 0 < hi -> posOf 0 hi n = hi - 1.
Proof. intros H. unfold posOf. simpl. lia. Qed.
Lemma posOf_S lo hi n : lo < hi -> hi < n -> posOf (S lo) (S hi) (S n) = n + posOf lo hi n.
Proof.
  intros H1 H2. unfold posOf. rewrite half_succ.
  pose proof (half_le lo n ltac:(lia)) as Hh.
  replace (S lo * S n) with (lo * n + lo + n + 1) by lia.
  replace (S hi - (S lo + 1)) with (hi - (lo + 1)) by lia. lia.
Qed.
Lemma pairsOf_posOf n : forall s lo hi, lo < hi -> hi < n ->
  nth_error (pairsOf (seq s n)) (posOf lo hi n) = Some (s + lo, s + hi).
Proof.
  induction n as [|n IH]; intros s lo hi H1 H2; [lia|].
  cbn [seq pairsOf]. destruct hi as [|hi]; [lia|]. destruct lo as [|lo].
  - rewrite posOf_0 by lia. rewrite nth_error_app1 by (rewrite map_length, seq_length; lia).
    rewrite nth_error_map_eq. rewrite nth_error_seq.
    replace (S hi - 1 <? n) with true by (symmetry; apply Nat.ltb_lt; lia).
    simpl. do 2 f_equal; lia.
  - rewrite posOf_S by lia. rewrite nth_error_app2 by (rewrite map_length, seq_length; lia).
    rewrite map_length, seq_length. replace (n + posOf lo hi n - n) with (posOf lo hi n) by lia.
    rewrite IH by lia. do 2 f_equal; lia.
Qed.
Lemma valueFrom_spec (data : list Z) n pos neg : List.length data = List.length (pairsOf (seq 0 n)) ->
  pos < n -> neg < n ->
  (pos = neg /\ valueFromOneVOneData data pos neg n = Ok None) \/
  exists i v, nth_error data i = Some v /\
    (pos < neg /\ nth_error (pairsOf (seq 0 n)) i = Some (pos, neg) /\ valueFromOneVOneData data pos neg n = Ok (Some v) \/
     neg < pos /\ nth_error (pairsOf (seq 0 n)) i = Some (neg, pos) /\ valueFromOneVOneData data pos neg n = Ok (Some (- v)%Z)).
Proof.
  intros Hlen Hp Hn. unfold valueFromOneVOneData.
  destruct (pos =? neg) eqn:E; [apply Nat.eqb_eq in E; auto|]. apply Nat.eqb_neq in E. right.
  destruct (neg <? pos) eqn:El.
  - apply Nat.ltb_lt in El. pose proof (pairsOf_posOf n 0 neg pos El Hp) as Hpos.
    fold (posOf neg pos n).
    pose proof (nth_error_lt _ _ Hpos) as Hlt. rewrite <- Hlen in Hlt.
    destruct (nth_error data (posOf neg pos n)) as [v|] eqn:Ev; [|apply nth_error_None in Ev; lia].
    exists (posOf neg pos n), v. split; auto.
  - apply Nat.ltb_ge in El. assert (El' : pos < neg) by lia.
    pose proof (pairsOf_posOf n 0 pos neg El' Hn) as Hpos.
    fold (posOf pos neg n).
    pose proof (nth_error_lt _ _ Hpos) as Hlt. rewrite <- Hlen in Hlt.
    destruct (nth_error data (posOf pos neg n)) as [v|] eqn:Ev; [|apply nth_error_None in Ev; lia].
    exists (posOf pos neg n), v. split; auto.
Qed.

(** ** C47: one-vs-one training *)
Section OvO.
Context {V : Type} {EV : EqDec V}.
Lemma splitRow_spec c (row : list V) : c < List.length row ->
  exists p, splitRow c row = [p] /\ trainingRow c row p.
Proof.
  intros H. unfold splitRow. destruct (nth_error row c) as [l|] eqn:E; [|apply nth_error_None in E; lia].
  eexists; split; [reflexivity|]. split; auto.
  intros j. unfold dropAt. simpl. rewrite nth_error_app, firstn_length.
  replace (Nat.min c (List.length row)) with c by lia.
  destruct (j <? c) eqn:Ej.
  - rewrite nth_error_firstn, Ej. auto.
  - apply Nat.ltb_ge in Ej. change (match row with [] => [] | _ :: l0 => skipn c l0 end) with (skipn (S c) row).
    rewrite nth_error_skipn. f_equal; lia.
Qed.
Lemma reattach_named c (row : list V) p : c < List.length row -> splitRow c row = [p] -> reattach true c p = row.
Proof.
  unfold splitRow. intros Hc. destruct (nth_error row c) as [l|] eqn:E; [|discriminate]. intros [= <-].
  apply nth_error_split in E as (l1 & l2 & -> & <-).
  assert (Hd : dropAt (List.length l1) (l1 ++ l :: l2) = l1 ++ l2).
  { unfold dropAt. rewrite firstn_app, firstn_all, Nat.sub_diag, firstn_O, app_nil_r.
    rewrite skipn_app, skipn_all2 by lia. replace (S (List.length l1) - List.length l1) with 1 by lia. reflexivity. }
  rewrite Hd. unfold reattach. simpl fst. simpl snd.
  rewrite firstn_app, firstn_all, Nat.sub_diag, firstn_O, app_nil_r.
  rewrite skipn_app, skipn_all, Nat.sub_diag. reflexivity.
Qed.
Lemma reattach_last c (row : list V) p : S c = List.length row -> splitRow c row = [p] -> reattach false c p = row.
Proof.
  unfold splitRow. intros Hc. destruct (nth_error row c) as [l|] eqn:E; [|discriminate]. intros [= <-].
  apply nth_error_split in E as (l1 & l2 & -> & <-).
  rewrite app_length in Hc; cbn [List.length] in Hc. destruct l2; [|cbn [List.length] in Hc; lia].
  assert (Hd : dropAt (List.length l1) (l1 ++ [l]) = l1).
  { unfold dropAt. rewrite firstn_app, firstn_all, Nat.sub_diag, firstn_O, app_nil_r.
    rewrite skipn_all2 by (rewrite app_length; cbn [List.length]; lia). apply app_nil_r. }
  rewrite Hd. reflexivity.
Qed.
Lemma reattach_id named c (row : list V) : c < List.length row -> (named = false -> S c = List.length row) ->
  map (reattach named c) (splitRow c row) = [row].
Proof.
  intros Hc Hl. destruct (splitRow_spec c row Hc) as (p & Hp & _). rewrite Hp. simpl. f_equal.
  destruct named; [apply reattach_named|apply reattach_last]; auto.
Qed.
Lemma flat_map_perm {A B} (f : A -> list B) l l' : Permutation l l' -> Permutation (flat_map f l) (flat_map f l').
Proof.
  induction 1; simpl; auto.
  - apply Permutation_app_head; auto.
  - rewrite !app_assoc. apply Permutation_app_tail, Permutation_app_comm.
  - etransitivity; eauto.
Qed.
Lemma filter_perm {A} (f : A -> bool) l l' : Permutation l l' -> Permutation (filter f l) (filter f l').
Proof.
  induction 1; simpl; auto.
  - destruct (f x); auto.
  - destruct (f x), (f y); auto. apply perm_swap.
  - etransitivity; eauto.
Qed.
Lemma filter_partition {A} (f : A -> bool) l : Permutation (filter (fun x => negb (f x)) l ++ filter f l) l.
Proof.
  induction l as [|x l IH]; simpl; auto. destruct (f x); simpl; auto.
  rewrite <- Permutation_middle. auto.
Qed.
Lemma map_flat_map_id named c (rows : list (list V)) :
  (forall r, In r rows -> c < List.length r /\ (named = false -> S c = List.length r)) ->
  map (reattach named c) (flat_map (splitRow c) rows) = rows.
Proof.
  induction rows as [|r rows IH]; intros H; auto. simpl. rewrite map_app, IH by (intros; apply H; right; auto).
  destruct (H r (or_introl eq_refl)) as [H1 H2]. rewrite reattach_id by auto. reflexivity.
Qed.
Lemma ovoLoop_spec named c (rows0 : list (list V)) :
  (forall r, In r rows0 -> c < List.length r /\ (named = false -> S c = List.length r)) ->
  forall pairs rows, Permutation rows rows0 ->
  Forall2 (fun pr tr => Permutation tr (flat_map (splitRow c) (filter (labelIn c pr) rows0)))
          pairs (ovoLoop named c rows pairs).
Proof.
  intros H. induction pairs as [|pr pairs IH]; intros rows HP; simpl; constructor.
  - apply flat_map_perm, filter_perm; auto.
  - apply IH. rewrite map_flat_map_id.
    + etransitivity; [apply filter_partition|auto].
    + intros r Hr. apply filter_In in Hr as [Hr _]. apply H. eapply Permutation_in; eauto.
Qed.
Lemma splitRows_spec c (rows : list (list V)) : (forall r, In r rows -> c < List.length r) ->
  Forall2 (trainingRow c) rows (flat_map (splitRow c) rows).
Proof.
  induction rows as [|r rows IH]; intros H; simpl; [constructor|].
  destruct (splitRow_spec c r (H r (or_introl eq_refl))) as (p & -> & Hp). simpl. constructor; auto.
  apply IH. intros; apply H; right; auto.
Qed.
Lemma ovo_training named c (rows : list (list V)) labels :
  (forall r, In r rows -> c < List.length r /\ (named = false -> S c = List.length r)) -> labels <> [] ->
  exists trs, ovoTrain named c rows labels = Some trs /\ Forall2 (pairTraining c rows) (pairsOf labels) trs.
Proof.
  intros H Hl. unfold ovoTrain, generateAllPairs. destruct labels as [|l0 ls]; [congruence|].
  eexists; split; [reflexivity|].
  pose proof (ovoLoop_spec named c rows H (pairsOf (l0 :: ls)) rows (Permutation_refl _)) as HF.
  induction HF as [|pr tr prs trs Hp _ IH]; constructor; auto.
  exists (flat_map (splitRow c) (filter (labelIn c pr) rows)). split; auto.
  assert (Ef : filter (fun r => match nth_error r c with
       | Some l => eqbd l (fst pr) || eqbd l (snd pr) | None => false end) rows = filter (labelIn c pr) rows).
  { apply filter_ext. intros r. unfold labelIn, eqbd. destruct (nth_error r c) as [l|]; auto. simpl.
    destruct (eq_dec l (fst pr)), (eq_dec l (snd pr)); auto. }
  rewrite Ef. apply splitRows_spec. intros r Hr. apply filter_In in Hr as [Hr _]. apply H; auto.
Qed.
End OvO.

(** ** C46 *)
Section Scores.
Context {L S : Type} {EL : EqDec L}.
Variable leb : L -> L -> bool.
Hypothesis Htot : forall x y, leb x y = true \/ leb y x = true.
Hypothesis Htr : forall x y z, leb x y = true -> leb y z = true -> leb x z = true.
Hypothesis Hanti : forall x y, leb x y = true -> leb y x = true -> x = y.
Lemma stableSort_fixed l : StronglySorted (fun x y => leb x y = true) l -> stableSort leb l = l.
Proof.
  unfold stableSort. induction 1 as [|x l HS IH HF]; simpl; auto. rewrite IH.
  destruct l as [|y t]; simpl; auto. inversion HF as [|? ? H _]; subst. rewrite H. auto.
Qed.
Lemma stableSort_idem l : stableSort leb (stableSort leb l) = stableSort leb l.
Proof.
  apply stableSort_fixed.
  assert (H : StronglySorted (fun _ _ : L => True) l).
  { induction l; constructor; auto. apply Forall_forall; auto. }
  apply (stableSort_sorted leb Htot Htr) in H.
  induction H as [|x t HS IH HF]; constructor; auto.
  eapply Forall_impl; [|exact HF]. intros y. unfold lexR. tauto.
Qed.
Lemma getScoresRow_unique labels (row : list S) : getScoresRow leb (npUnique leb labels) row = row.
Proof.
  unfold getScoresRow, npUnique. rewrite stableSort_idem.
  destruct (list_eq_dec eq_dec _ _); congruence.
Qed.
Lemma npUnique_spec labels : NoDup (npUnique leb labels) /\ (forall l, In l (npUnique leb labels) <-> In l labels) /\
  StronglySorted (fun x y => leb x y = true) (npUnique leb labels).
Proof.
  unfold npUnique. pose proof (stableSort_perm leb (nodup eq_dec labels)) as HP. repeat split.
  - eapply Permutation_NoDup; [symmetry; exact HP|]. apply NoDup_nodup.
  - intros H. apply (nodup_In eq_dec). eapply Permutation_in; [exact HP|exact H].
  - intros H. eapply Permutation_in; [symmetry; exact HP|]. apply nodup_In; auto.
  - rewrite <- stableSort_idem.
    assert (H : StronglySorted (fun _ _ : L => True) (stableSort leb (nodup eq_dec labels))).
    { clear HP. induction (stableSort leb (nodup eq_dec labels)); constructor; auto. apply Forall_forall; auto. }
    apply (stableSort_sorted leb Htot Htr) in H.
    induction H as [|x t HS IH HF]; constructor; auto.
    eapply Forall_impl; [|exact HF]. intros y. unfold lexR. tauto.
Qed.
Lemma indexOf_nth (ls : list L) i l : NoDup ls -> nth_error ls i = Some l -> indexOf l ls = Some i.
Proof.
  revert i; induction ls as [|x ls IH]; intros i Hn Hi; [destruct i; discriminate|].
  inversion Hn as [|? ? Hx Hn']; subst. simpl. destruct i as [|i]; simpl in Hi.
  - injection Hi as ->. destruct (eq_dec l l); congruence.
  - destruct (eq_dec l x) as [->|_]; [exfalso; apply Hx; eapply nth_error_In; eauto|].
    rewrite (IH i) by auto. reflexivity.
Qed.
Lemma dget_combine (ls : list L) (row : list S) i l s : NoDup ls -> nth_error ls i = Some l -> nth_error row i = Some s ->
  dget l (combine ls row) = Some s.
Proof.
  revert row i; induction ls as [|x ls IH]; intros row i Hn Hi Hs; [destruct i; discriminate|].
  inversion Hn as [|? ? Hx Hn']; subst. destruct i as [|i]; simpl in Hi.
  - injection Hi as ->. destruct row; [discriminate|]. simpl in *. injection Hs as ->. destruct (eq_dec l l); congruence.
  - destruct row as [|r row]; [discriminate|]. simpl in *. destruct (eq_dec l x) as [->|_]; [exfalso; apply Hx; eapply nth_error_In; eauto|].
    eapply IH; eauto.
Qed.
Lemma map_fst_combine_firstn (ls : list L) (row : list S) : List.length ls = List.length row -> map fst (combine ls row) = ls.
Proof.
  revert row; induction ls as [|x ls IH]; intros [|r row] H; simpl in *; try discriminate; auto.
  f_equal; apply IH; lia.
Qed.
Lemma scores_spec labels (row : list S) : List.length row = List.length (npUnique leb labels) ->
  map fst (allScoresNamed leb (npUnique leb labels) row) = npUnique leb labels /\
  forall i l s, nth_error (npUnique leb labels) i = Some l -> nth_error row i = Some s ->
    dget l (allScoresNamed leb (npUnique leb labels) row) = Some s /\
    bestScoreOf leb (npUnique leb labels) row l = Some s.
Proof.
  intros Hlen. destruct (npUnique_spec labels) as (Hn & _ & _).
  unfold allScoresNamed, bestScoreOf. rewrite getScoresRow_unique. split.
  - apply map_fst_combine_firstn; auto.
  - intros i l s Hi Hs. split; [eapply dget_combine; eauto|]. rewrite (indexOf_nth _ _ _ Hn Hi). auto.
Qed.
(** getScores on an arbitrary internal order: right when the order is an
    involution of the sorted one, in particular for two labels *)
Lemma dget_enum (ls : list L) i l : NoDup ls -> nth_error ls i = Some l ->
  dget l (fold_left (fun d p => dset (snd p) (fst p) d) (combine (seq 0 (List.length ls)) ls) []) = Some i.
Proof.
  intros Hn Hi.
  assert (E : forall (ps : list (nat * L)) (d0 : @dict L nat), fold_left (fun d p => dset (snd p) (fst p) d) ps d0 = 
     fold_left (fun d p => dset (fst p) (snd p) d) (map (fun p => (snd p, fst p)) ps) d0).
  { induction ps; intros; simpl; auto. }
  rewrite E. fold (dict_of (map (fun p : nat * L => (snd p, fst p)) (combine (seq 0 (List.length ls)) ls))).
  assert (Em : map fst (map (fun p : nat * L => (snd p, fst p)) (combine (seq 0 (List.length ls)) ls)) = ls).
  { rewrite map_map. simpl. clear. generalize 0. induction ls as [|x ls IH]; intros a; simpl; auto. f_equal; auto. }
  rewrite dict_of_nodup by (rewrite Em; auto).
  apply In_dget; [unfold wfdict, dkeys; rewrite Em; auto|].
  apply in_map_iff. exists (i, l). split; auto. apply combine_seq_In; auto.
Qed.
(** ** one-vs-all 'allScores' *)
Lemma placeScores_spec zero (headers names : list L) (row : list S) :
  NoDup headers -> Permutation names headers -> List.length row = List.length names ->
  exists out, placeScores zero headers names row = Ok out /\ List.length out = List.length headers /\
    forall i j l s, nth_error names i = Some l -> nth_error row i = Some s -> nth_error headers j = Some l ->
      nth_error out j = Some s.
Proof.
  intros Hh HP Hlen. unfold placeScores.
  assert (Hnn : NoDup names) by (eapply Permutation_NoDup; [symmetry; exact HP|auto]).
  set (idx := fold_left (fun (d : @dict L nat) (p : nat * L) => dset (snd p) (fst p) d) (combine (seq 0 (List.length headers)) headers) []).
  assert (Hidx : forall j l, nth_error headers j = Some l -> dget l idx = Some j).
  { intros j l Hj. apply dget_enum; auto. }
  assert (Em : map fst (combine names row) = names) by (apply map_fst_combine_firstn; lia).
  fold (dict_of (combine names row)). rewrite dict_of_nodup by (rewrite Em; auto).
  set (step := fun (acc : result (list S)) (p : L * S) => _).
  assert (Hin : forall l, In l names -> In l headers) by (intros; eapply Permutation_in; eauto).
  clear HP. revert row Hlen Em. 
  assert (G : forall names (row : list S) acc, NoDup names -> (forall l, In l names -> In l headers) -> List.length row = List.length names ->
     List.length acc = List.length headers ->
     exists out, fold_left step (combine names row) (Ok acc) = Ok out /\ List.length out = List.length headers /\
       (forall i j l s, nth_error names i = Some l -> nth_error row i = Some s -> nth_error headers j = Some l -> nth_error out j = Some s) /\
       (forall j l, nth_error headers j = Some l -> ~ In l names -> nth_error out j = nth_error acc j)).
  { clear names Hnn Hin. induction names as [|x names IH]; intros row acc Hnn Hin Hlen Hacc.
    - simpl. exists acc. repeat split; auto. intros [|i]; discriminate.
    - destruct row as [|r row]; [discriminate|]. inversion Hnn as [|? ? Hx Hn']; subst.
      destruct (In_nth_error _ _ (Hin x (or_introl eq_refl))) as [jx Hjx].
      cbn [combine fold_left]. unfold step at 2. cbn [fst snd rbind]. rewrite (Hidx _ _ Hjx).
      destruct (IH row (upd acc jx r)) as (out & Ho & Hol & H1 & H2); auto.
      { intros; apply Hin; right; auto. }
      { rewrite upd_length; auto. }
      exists out. split; auto. split; auto. split.
      + intros [|i] j l s Hi Hs Hj; simpl in Hi, Hs.
        * injection Hi as ->. injection Hs as ->.
          assert (j = jx) by (exact (@NoDup_nth_error_inj _ headers j jx l Hh Hj Hjx)). subst j.
          rewrite (H2 jx l Hjx Hx). apply nth_error_upd_same. apply nth_error_lt in Hjx. lia.
        * eapply H1; eauto.
      + intros j l Hj Hnl. rewrite (H2 j l Hj) by (intros HH; apply Hnl; right; auto).
        apply nth_error_upd_other. intros ->. apply Hnl. left. congruence. }
  intros row Hlen Em. destruct (G names row (repeat zero (List.length headers)) Hnn Hin Hlen (repeat_length _ _)) as (out & Ho & Hl & H1 & _).
  exists out. auto.
Qed.
End Scores.
