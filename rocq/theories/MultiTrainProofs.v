(** Proofs for C67, continued: OneVsAll training and raw scores. *)
From Verif Require Import Base NamesModel NamesSpec NamesProofs TableModel TableSpec TableProofs TablePermProofs TableOps TableOps3Proofs MatchModel MatchSpec MatchProofs ElementsModel ElementsSpec ElementsProofs ElementsCalcProofs LearnModel LearnSpec LearnProofs LearnMultiProofs GetModel GetSpec GetCountProofs GetProofs GetIterProofs ImputeKnnProofs MergeLoopProofs MultiModel MultiSpec MultiProofs.
From Coq Require Import QArith Lqa Sorted Permutation Lia.
Open Scope string_scope. Open Scope list_scope. Open Scope nat_scope.

Section Train.
Variable intOf floatOf : string -> option pval.
Variable strOf : pval -> string.
Variable setOrder : list pval -> list pval.
Variable fit : table pval -> table pval -> result applier.
Lemma relabel_spec (y : table pval) l : wf y -> exists y', calculateOnElements intOf floatOf strOf y (relabel l) None None false false = Ok y' /\ Relabelled y l y'.
Proof.
  intros W.
  assert (Z : ZeroUniform (relabel l)).
  { intros v Hv. f_equal. assert (E : pyEq v l = pyEq (PInt 0) l); [|rewrite E; reflexivity].
    apply eq_true_iff_eq. rewrite !pyEq_spec. split; intros H; [eapply Same_trans; [apply Same_sym; exact Hv|exact H]|eapply Same_trans; eauto]. }
  assert (K : OneKind false false (relabel l) None None y).
  { exists KInt. split; [discriminate|]. intros i j v r _ _ _ H. cbn in H. injection H as <-. destruct (pyEq v l); reflexivity. }
  pose proof (calculateOnElements_spec intOf floatOf strOf y (relabel l) None None None None false false W Logic.I Logic.I (fun C => ltac:(discriminate C)) (fun C => ltac:(discriminate C)) Z (fun _ => K) ltac:(discriminate)) as H.
  cbn zeta in H. destruct (calculateOnElements intOf floatOf strOf y (relabel l) None None false false) as [r|e].
  - exists r. split; auto. destruct H as [P1 [P2 [P3 P4]]]. cbn [positionsOf] in P2, P3. rewrite seq_length in P2, P3.
    split; auto. split; [rewrite P2; auto|]. split; [rewrite P3; auto|].
    intros i j v Hv. destruct (cell_range y i j v W Hv) as [R1 R2].
    destruct (P4 i j i j v) as [w [Hw HB]]; [cbn; rewrite nth_error_seq; apply Nat.ltb_lt in R1; rewrite R1; reflexivity|cbn; rewrite nth_error_seq; apply Nat.ltb_lt in R2; rewrite R2; reflexivity|exact Hv|].
    exists w. split; auto.
    assert (S0 : forall z, Same (PInt z) (PInt z)) by (intros z; apply pyEq_spec, pyEq_self; discriminate).
    assert (HW : Same w (if pyEq v l then PInt 1 else PInt 0)).
    { destruct HB as [HB|[_ HB]]; destruct HB as [[C _]|[_ [x [Hx Hor]]]]; try discriminate; cbn in Hx; injection Hx as <-.
      - destruct (pyEq v l); cbn in Hor; (destruct Hor as [->|HS]; auto).
      - exfalso. destruct (pyEq v l); cbn in Hor; (destruct Hor as [C|C]; [discriminate|inversion C as [? ? ? ? X| | | |]; inversion X]). }
    destruct (pyEq v l) eqn:E; [left; split; auto; apply pyEq_spec; auto|right; split; auto; intros C; apply pyEq_spec in C; congruence].
  - exfalso. destruct H as [i [j [v [_ [_ H]]]]]. cbn in H. discriminate.
Qed.
Lemma column_labels (y : table pval) i : wf y -> 0 < alen (tf y) -> nth_error (column y 0) i = cell y i 0.
Proof.
  intros W H. assert (E : nth_error (vectors Fts y) 0 = Some (column y 0)).
  { rewrite vectors_Fts_nth. apply Nat.ltb_lt in H. rewrite H. reflexivity. }
  apply (vectors_cell pval Fts y 0 _ i W E).
Qed.
Lemma train_on (x y : table pval) : wf y -> 0 < alen (tf y) ->
  match (labels <- labelsOf y ;;
         ls <- rmapM (fun label =>
          y' <- calculateOnElements intOf floatOf strOf y (relabel label) None None false false ;;
          m <- fit x y' ;;
          Ok (label, m)) (setOrder labels) ;;
         match ls with [] => Err IndexErr | _ => Ok ls end) with
  | Ok ls => ls <> [] /\ map fst ls = setOrder (column y 0) /\ forall l m, In (l, m) ls -> exists y', Relabelled y l y' /\ fit x y' = Ok m
  | Err e => (setOrder (column y 0) = [] /\ e = IndexErr) \/ exists l y', In l (setOrder (column y 0)) /\ Relabelled y l y' /\ fit x y' = Err e
  end.
Proof.
  intros W H. unfold labelsOf. destruct (Nat.eqb_spec (alen (tf y)) 0) as [Z|_]; [lia|]. cbn [rbind].
  set (f := fun label => y' <- calculateOnElements intOf floatOf strOf y (relabel label) None None false false ;; m <- fit x y' ;; Ok (label, m)).
  destruct (rmapM f (setOrder (column y 0))) as [ls|e] eqn:E; cbn [rbind].
  - assert (MF : map fst ls = setOrder (column y 0)).
    { clear -E. revert ls E. induction (setOrder (column y 0)) as [|l s IH]; intros ls E; cbn [rmapM] in E; [injection E as <-; reflexivity|].
      destruct (f l) as [p|] eqn:Ef; cbn [rbind] in E; [|discriminate]. destruct (rmapM f s) as [r|] eqn:Er; cbn [rbind] in E; [|discriminate]. injection E as <-. cbn [map]. f_equal; [|auto].
      unfold f in Ef. destruct (calculateOnElements intOf floatOf strOf y (relabel l) None None false false) as [y'|]; cbn [rbind] in Ef; [|discriminate].
      destruct (fit x y') as [m|]; cbn [rbind] in Ef; [|discriminate]. injection Ef as <-. reflexivity. }
    destruct ls as [|p ls]; [left; split; auto|]. split; [discriminate|]. split; auto.
    intros l m Hin. apply In_nth_error in Hin. destruct Hin as [i Hi].
    assert (Hl : nth_error (setOrder (column y 0)) i = Some l) by (rewrite <- MF, nth_error_map, Hi; reflexivity).
    pose proof (rmapM_ok_nth _ _ E i Hl) as [b [Eb Fb]]. rewrite Hi in Eb. injection Eb as <-. unfold f in Fb.
    destruct (relabel_spec y l W) as [y' [Ey Ry]]. rewrite Ey in Fb; cbn [rbind] in Fb. destruct (fit x y') as [m'|] eqn:Em; cbn [rbind] in Fb; [|discriminate].
    injection Fb as <-. exists y'. auto.
  - right. destruct (rmapM_fail _ _ _ E) as [l [Hl Fl]]. unfold f in Fl. destruct (relabel_spec y l W) as [y' [Ey Ry]]. rewrite Ey in Fl; cbn [rbind] in Fl.
    destruct (fit x y') as [m'|e'] eqn:Em; cbn [rbind] in Fl; [discriminate|]. injection Fl as <-. exists l, y'. auto.
Qed.
Lemma ovaTrain_obj (x y : table pval) : wf y -> 0 < alen (tf y) -> (forall l, LabelSet l (setOrder l)) ->
  match ovaTrain intOf floatOf strOf setOrder fit x (YObj y) with
  | Ok ls => ls <> [] /\ (exists labels, (forall i, nth_error labels i = cell y i 0) /\ LabelSet labels (map fst ls)) /\
      forall l m, In (l, m) ls -> exists y', Relabelled y l y' /\ fit x y' = Ok m
  | Err e => (alen (tp y) = 0 /\ e = IndexErr) \/ exists i l y', cell y i 0 = Some l /\ Relabelled y l y' /\ fit x y' = Err e
  end.
Proof.
  intros W H HS. unfold ovaTrain. cbn [separate rbind fst snd]. pose proof (train_on x y W H) as T.
  destruct (labels <- labelsOf y ;; _) as [ls|e].
  - destruct T as [T1 [T2 T3]]. split; auto. split; auto. exists (column y 0). split; [intros i; apply column_labels; auto|]. rewrite T2. apply HS.
  - destruct (HS (column y 0)) as [S1 [S2 _]]. destruct T as [[T1 ->]|[l [y' [T1 T2]]]].
    + left. split; auto. destruct (alen (tp y)) as [|k] eqn:E; auto. exfalso. destruct (cell_some y 0 0 W) as [v [Hv _]]; [lia|lia|].
      rewrite <- (column_labels y 0 W H) in Hv. destruct (S2 v (nth_error_In _ _ Hv)) as [w [Hw _]]. rewrite T1 in Hw. destruct Hw.
    + right. apply S1, In_nth_error in T1. destruct T1 as [i Hi]. rewrite column_labels in Hi by auto. exists i, l, y'. auto.
Qed.
(** labels given as a feature of the data *)
Lemma separate_id (x : table pval) id j : wf x -> Denotes (tf x) false id (Z.of_nat j) ->
  exists xs ys, separate x (YId id) = Ok (xs, ys) /\ wf xs /\ wf ys /\ sameOff Fts x xs /\ sameOff Fts x ys /\
    items Fts ys = selected [j] (items Fts x) /\ items Fts xs = survivors [j] (items Fts x).
Proof.
  intros W HD. pose proof W as [_ [_ [_ WF]]]. unfold separate.
  assert (EC : constructIndices (tf x) [id] = Ok [j]) by (apply constructIndices_Denotes; auto). rewrite EC; cbn [rbind].
  assert (Hj : j < alen (tf x)).
  { unfold constructIndices in EC. cbn in EC. destruct (getIndex (tf x) id false) as [z|] eqn:G; cbn in EC; [|discriminate].
    injection EC as <-. destruct (getIndex_range _ _ _ WF G). lia. }
  destruct (structural_spec _ Fts x [j] W) as [ret [rest [_ [E [_ [_ [W1 [W2 [O1 [O2 [I1 [I2 _]]]]]]]]]]]].
  { repeat constructor. intros []. }
  { intros i [<-|[]]. exact Hj. }
  rewrite E; cbn [rbind]. exists rest, ret. do 6 (split; auto).
Qed.
Lemma ovaTrain_id (x : table pval) id j : wf x -> Denotes (tf x) false id (Z.of_nat j) ->
  exists xs ys, wf xs /\ wf ys /\ sameOff Fts x xs /\ sameOff Fts x ys /\ items Fts ys = selected [j] (items Fts x) /\ items Fts xs = survivors [j] (items Fts x) /\
    ovaTrain intOf floatOf strOf setOrder fit x (YId id) = ovaTrain intOf floatOf strOf setOrder fit xs (YObj ys).
Proof.
  intros W HD. destruct (separate_id x id j W HD) as [xs [ys [E H]]]. exists xs, ys. destruct H as [H1 [H2 [H3 [H4 [H5 H6]]]]]. do 6 (split; auto).
  unfold ovaTrain. rewrite E. reflexivity.
Qed.
End Train.

(** ** Raw scores *)
Lemma F2_nth {X Y} (R : X -> Y -> Prop) a b : Forall2 R a b -> forall i x, nth_error a i = Some x -> exists y, nth_error b i = Some y /\ R x y.
Proof. induction 1 as [|x y a b H F IH]; intros i z E; [destruct i; discriminate|]. destruct i as [|i]; cbn in E |- *; [injection E as <-; exists y; auto|auto]. Qed.
Definition lexlt (p q : nat * nat) : Prop := fst p < fst q \/ fst p = fst q /\ snd p < snd q.
Lemma pairs_sorted m : forall s, StronglySorted lexlt (pairsOf (seq s m)).
Proof.
  induction m as [|m IH]; intros s; cbn [seq pairsOf]; [constructor|].
  assert (G : forall k a, s < a -> StronglySorted lexlt (map (fun y => (s, y)) (seq a k) ++ pairsOf (seq (S s) m))).
  { induction k as [|k IHk]; intros a Ha; cbn; [apply IH|]. constructor; [apply IHk; lia|]. apply Forall_forall. intros [p q] Hin. apply in_app_or in Hin. destruct Hin as [Hin|Hin].
    - apply in_map_iff in Hin. destruct Hin as [z [[= <- <-] Hz]]. apply in_seq in Hz. right. cbn. lia.
    - apply pairsOf_In in Hin. destruct Hin as [i [j [_ [Hi _]]]]. apply nth_error_In, in_seq in Hi. left. cbn. lia. }
  apply G. lia.
Qed.
Lemma pairs_members n a b : In (a, b) (pairsOf (seq 0 n)) <-> a < b < n.
Proof.
  rewrite pairsOf_In. split.
  - intros [i [j [H [Hi Hj]]]]. rewrite nth_error_seq in Hi, Hj. destruct (i <? n) eqn:E1; [|discriminate]. destruct (j <? n) eqn:E2; [|discriminate].
    injection Hi as <-. injection Hj as <-. apply Nat.ltb_lt in E1, E2. lia.
  - intros H. exists a, b. split; [lia|]. rewrite !nth_error_seq. assert (E1 : (a <? n) = true) by (apply Nat.ltb_lt; lia). assert (E2 : (b <? n) = true) by (apply Nat.ltb_lt; lia). rewrite E1, E2. auto.
Qed.
Lemma PairScores_pairs n r score : PairScores n r score -> List.length r = List.length (pairsOf (seq 0 n)) /\
  forall k a b, nth_error (pairsOf (seq 0 n)) k = Some (a, b) -> nth_error r k = Some (score a b).
Proof.
  intros [ps [L [A [B S]]]]. assert (E : ps = pairsOf (seq 0 n)).
  { apply (sorted_ext lexlt); auto using pairs_sorted.
    - intros [x1 x2]. unfold lexlt; cbn; lia.
    - intros [x1 x2] [y1 y2] [z1 z2]. unfold lexlt; cbn. lia.
    - intros [a b]. rewrite pairs_members. split; intros H.
      + apply In_nth_error in H. destruct H as [k Hk]. apply (A k a b Hk).
      + destruct (B a b H) as [k Hk]. eapply nth_error_In; eauto. }
  subst ps. split; auto. intros k a b Hk. apply (A k a b Hk).
Qed.
Lemma winsOf_spec n r score k : PairScores n r score -> k < n -> exists w, winsOf r n k = Ok w /\ NumberOf (Beats score k) (seq 0 n) w.
Proof.
  intros HP Hk. destruct (PairScores_pairs n r score HP) as [L V]. unfold winsOf.
  destruct (rmapM_F2 (fun j => valueFromOneVOneData r k j n) (fun j o => Beats score k j <-> exists v, o = Some v /\ (0 < v)%Z) (seq 0 n)) as [os [E F]].
  { intros j Hj. apply in_seq in Hj. destruct (valueFrom_spec r n k j L Hk) as [[-> Ev]|[i [v [Hv Hor]]]]; [lia| |].
    - exists None. split; auto. unfold Beats. split; [lia|]. intros [v [C _]]; discriminate.
    - destruct Hor as [[Hlt [Hp Ev]]|[Hlt [Hp Ev]]]; rewrite Ev; eexists; (split; [reflexivity|]); pose proof (V i _ _ Hp) as Es; rewrite Hv in Es; injection Es as ->; unfold Beats.
      + split; [intros [[_ H]|[C _]]; [eauto|lia]|]. intros [v [[= <-] H]]. left; auto.
      + split; [intros [[C _]|[_ H]]; [lia|]; eexists; split; [reflexivity|lia]|]. intros [v [[= <-] H]]. right. split; auto. lia. }
  rewrite E; cbn [rbind]. eexists. split; [reflexivity|].
  clear -F. induction F as [|j o js os H F IH]; [constructor|]. cbn [filter]. destruct o as [v|].
  - destruct (0 <? v)%Z eqn:Z; cbn [List.length].
    + apply no_yes; auto. apply H. exists v. split; auto. apply Z.ltb_lt; auto.
    + apply no_no; auto. intros C. apply H in C. destruct C as [w [[= <-] C]]. apply Z.ltb_ge in Z. lia.
  - apply no_no; auto. intros C. apply H in C. destruct C as [w [C _]]. discriminate.
Qed.
Lemma format_binary raw : (forall r, In r raw -> List.length r = 1) -> forall trial vote,
  exists out, formatScores 2 1 trial vote raw = Ok out /\ Forall2 (fun r o => exists s, r = [s] /\ o = [inject_Z (- s); inject_Z s]) raw out.
Proof.
  intros H trial vote. unfold formatScores. cbn [Nat.eqb andb]. apply rmapM_F2. intros r Hr. pose proof (H r Hr) as L. destruct r as [|s [|? ?]]; try discriminate.
  eexists. split; [reflexivity|]. exists s. split; auto.
Qed.
Lemma format_ova n raw vote : 2 <= n -> formatScores n n 4 vote raw = Ok (map (map inject_Z) raw).
Proof.
  intros H. unfold formatScores. destruct (Nat.eqb_spec n 2) as [->|_]; [reflexivity|]. cbn [andb]. destruct (Nat.eqb_spec n 3) as [->|Hne]; cbn [negb].
  - reflexivity.
  - rewrite Nat.eqb_refl. reflexivity.
Qed.
Lemma format_ovo n width raw vote : 3 <= n -> width * 2 = n * (n - 1) -> (forall r, In r raw -> exists score, PairScores n r score) ->
  exists out, formatScores n width 6 vote raw = Ok out /\
    Forall2 (fun r o => exists score, PairScores n r score /\ List.length o = n /\ forall k, k < n -> exists w, NumberOf (Beats score k) (seq 0 n) w /\
      nth_error o k = Some (inject_Z (Z.of_nat w) / inject_Z (Z.of_nat (n - 1)))%Q) raw out.
Proof.
  intros H HW HP. unfold formatScores. destruct (Nat.eqb_spec n 2) as [C|_]; [lia|]. cbn [andb].
  assert (D : (if negb (width =? 3) then (if negb (n =? 3) then Ok (width =? n) else o <- vote ;; Ok match o with Some b => b | None => false end) else Ok (6 =? 4)) = Ok false).
  { destruct (Nat.eqb_spec width 3) as [->|Hne]; cbn [negb]; [reflexivity|]. destruct (Nat.eqb_spec n 3) as [->|Hn3]; cbn [negb]; [lia|]. f_equal. apply Nat.eqb_neq. intros ->. nia. }
  rewrite D; cbn [rbind]. apply rmapM_F2. intros r Hr. destruct (HP r Hr) as [score PS].
  destruct (rmapM_F2 (winsOf r n) (fun k w => NumberOf (Beats score k) (seq 0 n) w) (seq 0 n)) as [ws [E F]].
  { intros k Hk. apply in_seq in Hk. destruct (winsOf_spec n r score k PS) as [w [E N]]; [lia|]. eauto. }
  unfold singleLabelWins. rewrite E; cbn [rbind]. destruct (Nat.eqb_spec n 1) as [C|_]; [lia|]. eexists. split; [reflexivity|]. exists score. split; auto.
  split; [rewrite map_length, <- (F2_len _ _ _ F), seq_length; auto|].
  intros k Hk. assert (Q : exists w, nth_error ws k = Some w /\ NumberOf (Beats score k) (seq 0 n) w).
  { assert (Hs : nth_error (seq 0 n) k = Some k) by (rewrite nth_error_seq; apply Nat.ltb_lt in Hk; rewrite Hk; reflexivity).
    destruct (F2_nth _ _ _ F k k Hs) as [w [Hw Nw]]. exists w. auto. }
  destruct Q as [w [Hw Nw]]. exists w. split; auto. rewrite nth_error_map, Hw. reflexivity.
Qed.
Lemma validTestData_spec shape points features : validTestData shape points features = Ok tt <->
  match shape with None => True | Some (np, nf) => features = nf \/ (np = nf /\ points = features) end.
Proof.
  destruct shape as [[np nf]|]; cbn [validTestData]; [|tauto]. destruct (Nat.eqb_spec nf features) as [->|H]; [split; auto|].
  destruct (Nat.eqb_spec np nf); destruct (Nat.eqb_spec points features); cbn [andb]; split; intros C; try discriminate; try tauto; try (destruct C as [C|[C1 C2]]; congruence).
Qed.
