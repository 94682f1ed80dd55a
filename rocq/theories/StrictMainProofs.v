(** Proofs about merge with a strict axis (C16). *)
From Verif Require Import Base NamesModel NamesSpec NamesProofs TableModel TableSpec TableProofs TableOps TableOpsProofs MatchModel MatchSpec MatchProofs FlatModel FlatProofs ElementsProofs ElementsCalcProofs TableSortProofs
  BinOpModel BinOpSpec BinOpProofs MergeModel MergeSpec MergeLoopProofs MergeColsProofs MergeJoinProofs MergeProofs MergeNamesProofs MergeMainProofs MergeSortProofs RawProofs StrictModel StrictSpec StrictProofs.
From Coq Require Import Sorted Permutation String Lia.
Open Scope string_scope.
Open Scope list_scope.
Open Scope nat_scope.

(** ** pairs *)
Lemma filter_one (f : nat -> bool) n k : k < n -> (forall x, x < n -> f x = true <-> x = k) -> filter f (seq 0 n) = [k].
Proof.
  intros Hk H. assert (G : forall a m, a <= k < a + m -> (forall x, a <= x < a + m -> f x = true <-> x = k) -> filter f (seq a m) = [k]).
  { intros a m. revert a. induction m as [|m IH]; intros a B E; [lia|]. cbn [seq filter]. destruct (f a) eqn:Fa.
    - apply E in Fa; [|lia]. subst a. f_equal. rewrite <- (app_nil_r []). cbn. clear IH. assert (Z : forall b m', k < b -> (forall x, b <= x < b + m' -> f x = true <-> x = k) -> filter f (seq b m') = []).
      { intros b m'. revert b. induction m' as [|m' IH']; intros b Hb E'; auto. cbn [seq filter]. destruct (f b) eqn:Fb; [apply E' in Fb; lia|]. apply IH'; [lia|intros; apply E'; lia]. }
      apply Z; [lia|intros; apply E; lia].
    - assert (a <> k) by (intros ->; assert (f k = true) by (apply E; [lia|auto]); congruence). apply IH; [lia|intros; apply E; lia]. }
  apply G; [lia|intros; apply H; lia].
Qed.
Lemma filter_all {A} (f : A -> bool) l : (forall x, In x l -> f x = true) -> filter f l = l.
Proof. induction l as [|x l IH]; intros H; cbn; auto. rewrite (H x (or_introl eq_refl)), IH; auto. intros; apply H; cbn; auto. Qed.
(** every name of [l] is in [r] *)
Definition Covers (l r : list (option string)) : Prop := forall i, i < List.length l -> exists k, k < List.length r /\ partner l r i = Some k.
Lemma covers_cols l r : Covers l r -> joinCols Intersection l r = map (fun i => (Some i, partner l r i)) (seq 0 (List.length l)).
Proof.
  intros C. unfold joinCols. f_equal. apply filter_all. intros i I. apply in_seq in I. destruct (C i ltac:(lia)) as [k [_ E]]. unfold hasPartner. rewrite E. reflexivity.
Qed.
Lemma flat_map_single {A B} (f : A -> list B) (g : A -> B) l : (forall x, In x l -> f x = [g x]) -> flat_map f l = map g l.
Proof. induction l as [|x l IH]; intros H; auto. cbn [flat_map map]. rewrite (H x (or_introl eq_refl)), IH; auto. intros; apply H; right; auto. Qed.
Lemma covers_rows (t o : table pval) : wf t -> wf o -> Covers (getNames (tp t)) (getNames (tp o)) ->
  joinRows Intersection (alen (tp t)) (alen (tp o)) (sameName t o) = map (fun i => (Some i, partner (getNames (tp t)) (getNames (tp o)) i)) (seq 0 (List.length (getNames (tp t)))).
Proof.
  intros W1 W2 C. assert (It : Inv (tp t)) by apply W1. assert (Io : Inv (tp o)) by apply W2.
  pose proof (getNames_length _ It) as Lt. pose proof (getNames_length _ Io) as Lo. pose proof (names_Distinct _ Io) as Do.
  unfold joinRows. rewrite app_nil_r. rewrite Lt.
  apply flat_map_single. intros i I. apply in_seq in I. destruct (C i ltac:(lia)) as [k [Hk E]].
  rewrite (filter_one (sameName t o i) (alen (tp o)) k).
  - rewrite E. reflexivity.
  - lia.
  - intros x Hx. rewrite (partner_iff _ _ i k Do) in E. destruct E as [s [A B]]. unfold sameName. rewrite (nth_error_nth _ _ None A). split.
    + destruct (nth x (getNames (tp o)) None) as [b|] eqn:Eb; [|discriminate]. intros Q. apply String.eqb_eq in Q. subst b.
      apply (Do x k s); auto. rewrite <- Eb. apply nth_error_nth'. lia.
    + intros ->. rewrite (nth_error_nth _ _ None B). apply String.eqb_refl.
Qed.
Lemma In_joinRows point n n' m i k : In (Some i, Some k) (joinRows point n n' m) <-> i < n /\ k < n' /\ m i k = true.
Proof.
  unfold joinRows. rewrite in_app_iff. split.
  - intros [H|H].
    + apply in_flat_map in H as [x [X H]]. apply in_seq in X.
      assert (G : In (Some i, Some k) (map (fun k => (Some x, Some k)) (filter (m x) (seq 0 n')))).
      { destruct (filter (m x) (seq 0 n')) as [|y ys]; destruct point; cbn in H |- *; auto; destruct H as [H|H]; try discriminate; try contradiction; auto. }
      apply in_map_iff in G as [k' [E G]]. injection E as -> ->. apply filter_In in G as [G1 G2]. apply in_seq in G1. repeat split; auto; lia.
    + destruct point; try contradiction. apply in_map_iff in H as [x [E _]]. discriminate.
  - intros [A [B C]]. left. apply in_flat_map. exists i. split; [apply in_seq; lia|].
    assert (F : In k (filter (m i) (seq 0 n'))) by (apply filter_In; split; [apply in_seq; lia|auto]).
    destruct (filter (m i) (seq 0 n')) as [|y ys]; [destruct F|]. destruct point; apply (in_map (fun k => (Some i, Some k))) in F; exact F.
Qed.
Lemma In_joinCols feature l r j j' : In (Some j, Some j') (joinCols feature l r) <-> j < List.length l /\ partner l r j = Some j'.
Proof.
  unfold joinCols. assert (G : forall js, In (Some j, Some j') (map (fun j => (Some j, partner l r j)) js) <-> In j js /\ partner l r j = Some j').
  { intros js. rewrite in_map_iff. split; [intros [x [E I]]; injection E as -> E; auto|intros [I E]; exists j; rewrite E; auto]. }
  destruct feature.
  - rewrite G, filter_In, in_seq. unfold hasPartner. split; [intros [[A B] C]; split; auto; lia|intros [A B]; rewrite B; repeat split; auto; lia].
  - rewrite in_app_iff, G, in_seq. split; [intros [[A B]|A]; [split; auto; lia|apply in_map_iff in A as [x [E _]]; discriminate]|intros [A B]; left; split; auto; lia].
  - rewrite G, in_seq. split; [intros [A B]; split; auto; lia|intros [A B]; split; auto; lia].
Qed.
Lemma conflict_iff (t o : table pval) point feature m : wf t -> wf o ->
  Conflict t o m <-> Disagree t o (joinRows point (alen (tp t)) (alen (tp o)) m) (joinCols feature (getNames (tf t)) (getNames (tf o))).
Proof.
  intros W1 W2. split.
  - intros (i & k & j & j' & v & w & M & P & A & B & V & W & S'). exists i, k, j, j', v, w. rewrite In_joinRows, In_joinCols.
    destruct (cell_range t i j v W1 A) as [R1 R2]. destruct (cell_range o k j' w W2 B) as [R3 R4]. rewrite (getNames_length _ (proj2 (proj2 (proj2 W1)))). repeat split; auto.
  - intros (i & k & j & j' & v & w & I & J & A & B & V & W & S'). apply In_joinRows in I as [_ [_ I]]. apply In_joinCols in J as [_ J]. exists i, k, j, j', v, w. repeat split; auto.
Qed.

(** ** the working names pair the points (features) as specified *)
Lemma pairs_work force l r bn l' r' : Corresponds force l r bn -> List.length l = List.length r -> DifferentNames (workNames bn l r) -> DifferentNames r ->
  l' = workNames bn l r -> r' = (if bn then r else workNames bn l r) ->
  Covers l' r' /\ strictPairs bn l r = map (fun i => (Some i, partner l' r' i)) (seq 0 (List.length l')).
Proof.
  intros C L D Dr El Er. unfold strictPairs. assert (Ll' : List.length l' = List.length l) by (rewrite El; apply workNames_length; auto). rewrite Ll'.
  destruct C as [N1 N2 P|F N _].
  - assert (Wl : workNames true l r = l) by (apply workNames_full; auto). rewrite Wl in El. subst l' r'. split; [|reflexivity].
    intros i Hi. destruct (nth_error_is_some l Hi) as [[s|] E]; [|exfalso; apply N1; eapply nth_error_In; eauto].
    assert (I : In (Some s) r) by (eapply Permutation_in; [exact P|eapply nth_error_In; eauto]). apply In_nth_error in I as [k K]. exists k. split; [eapply nth_error_lt; eauto|].
    apply partner_iff; [exact Dr|]. exists s. auto.
  - subst l' r'. set (W := workNames false l r) in *. assert (LW : List.length W = List.length l) by (apply workNames_length; auto).
    assert (PW : forall i, i < List.length l -> partner W W i = Some i).
    { intros i Hi. apply partner_iff; [exact D|]. destruct (nth_error_is_some W (i:=i)) as [[s|] E]; [lia| |exfalso; apply (workNames_some false l r L); eapply nth_error_In; eauto]. exists s. auto. }
    split; [intros i Hi; exists i; split; auto; apply PW; lia|]. apply map_ext_in. intros i I. apply in_seq in I. rewrite PW by lia. reflexivity.
Qed.
Lemma putAxis_wf sd (t : table pval) a : wf t -> Inv a -> alen a = alen (ax sd t) -> wf (putAxis sd t a).
Proof. intros [W1 [W2 [W3 W4]]] I L. destruct sd; cbn in *; repeat split; cbn; auto; try congruence. intros r H. rewrite L. auto. Qed.
Lemma cell_put sd (t : table pval) a i j : cell (putAxis sd t a) i j = cell t i j.
Proof. destruct sd; reflexivity. Qed.
Lemma joinCell_put sd (t o : table pval) a b rw c : joinCell (putAxis sd t a) (putAxis sd o b) rw c = joinCell t o rw c.
Proof. destruct sd; reflexivity. Qed.
Lemma Disagree_put sd (t o : table pval) a b rs cs : Disagree (putAxis sd t a) (putAxis sd o b) rs cs <-> Disagree t o rs cs.
Proof. destruct sd; split; intros H; exact H. Qed.
Lemma endSet (a : axis) (e : option (list (option string))) x n : Inv a -> alen a = n -> match e with Some l => l | None => repeat None n end = x -> List.length x = n -> DifferentNames x ->
  exists a', setNames a (match e with None => ANone | Some l => AList (map to_newname l) end) ONone = (a', Ok tt) /\ Inv a' /\ alen a' = n /\ getNames a' = x.
Proof.
  intros I La E Lx D. destruct e as [l|].
  - subst l. pose proof (give_spec a x I ltac:(congruence)) as G. unfold give in G. destruct (setNames a (AList (map to_newname x)) ONone) as [a' [[]|e]]; [|destruct G; contradiction].
    destruct G as [_ [G1 [G2 [G3 _]]]]. exists a'. repeat split; auto. congruence.
  - exists (mkAxis (alen a) None). split; [reflexivity|]. split; [exact Logic.I|]. split; [auto|]. rewrite uncreated_names by reflexivity. cbn. congruence.
Qed.

(** ** features strict *)
Lemma strict_features h on force (t o : table pval) bn m : wf t -> wf o -> 0 < alen (tp t) -> 0 < alen (tp o) -> 0 < alen (tf t) -> alen (tf t) = alen (tf o) ->
  let ln := getNames (tf t) in let rn := getNames (tf o) in
  Corresponds force ln rn bn -> DifferentNames (workNames bn ln rn) -> In None ln \/ InOrder (tf t) ->
  StrictMatch t o bn on m -> OneMatch t o m ->
  let rs := joinRows h (alen (tp t)) (alen (tp o)) m in let cs := strictPairs bn ln rn in
  (~ Disagree t o rs cs /\ exists r, strictMerge Fts h on force t o = (r, Ok tt) /\
     Joined t o rs cs (if byNames on then map (joinName (getNames (tp t)) (getNames (tp o))) rs else repeat None (List.length rs)) (endNames bn ln rn) r) \/
  (Disagree t o rs cs /\ exists r, strictMerge Fts h on force t o = (r, Err InvalidArgumentValue)).
Proof.
  intros W1 W2 P1 P2 P3 Len ln rn Co Df Ord SM OM rs cs.
  assert (Il : Inv (tf t)) by apply W1. assert (Ir : Inv (tf o)) by apply W2.
  pose proof (getNames_length _ Il) as Ll. pose proof (getNames_length _ Ir) as Lr. fold ln in Ll. fold rn in Lr.
  unfold strictMerge. cbn [ax]. rewrite Len, Nat.eqb_refl. cbn [negb].
  pose proof (strictAxes_spec force (tf t) (tf o) Il Ir Len P3) as SA. cbv zeta in SA. fold ln rn in SA.
  destruct (strictAxes force (tf t) (tf o)) as [[[l' r'] e]|er].
  2:{ destruct SA as [_ SA]. exfalso. exact (SA bn Co Df). }
  destruct SA as [bn' [Co' [Df' [I1 [I2 [L1 [L2 [C1 [C2 [N1 [N2 [Ee Or]]]]]]]]]]]].
  assert (bn' = bn). { destruct Co as [A B _|_ [A|A] _], Co' as [A' B' _|_ [A'|A'] _]; auto; contradiction. } subst bn'. clear Co' Df'.
  destruct (pairs_work force ln rn bn (getNames l') (getNames r') Co ltac:(congruence) Df (names_Distinct _ Ir) N1 N2) as [Cv Pa].
  pose proof (getNames_length _ I1) as Ll'. pose proof (getNames_length _ I2) as Lr'. pose proof (names_Distinct _ I2) as Dr'.
  set (T := putAxis Fts t l'). set (O := putAxis Fts o r').
  assert (WT : wf T) by (apply putAxis_wf; auto). assert (WO : wf O) by (apply putAxis_wf; auto).
  assert (Cs : joinCols Intersection (getNames (tf T)) (getNames (tf O)) = cs) by (cbn [T O putAxis tf]; rewrite covers_cols by auto; symmetry; exact Pa).
  assert (JK : JoinKey T O on m /\ UniqueKey T O on /\ (on = None -> namesCreated (tp T) = true /\ namesCreated (tp O) = true)).
  { destruct SM as [Q1 Q2|o0 j j' K U].
    - split; [exact (jk_names T O)|]. split; [exact Logic.I|auto].
    - assert (Pin : forall x y, In (Some x, Some y) cs -> x < List.length (getNames l') /\ partner (getNames l') (getNames r') x = Some y).
      { intros x y H. rewrite <- Cs in H. apply In_joinCols in H. exact H. }
      inversion K as [s j0 j0' K1 K2|j0 K2]; subst; destruct (Pin _ _ K2) as [Lj Pj]; apply (partner_iff _ _ _ _ Dr') in Pj as [s' [A B]].
      + change (nth_error (workNames bn ln rn) j = Some (Some s)) in K1. rewrite <- N1 in K1. rewrite K1 in A. injection A as <-. split; [|split; [|discriminate]].
        * exact (jk_feature T O s j j' K1 B).
        * exists j, j'. split; [exact K1|]. split; [exact B|]. exact U.
      + split; [|split; [|discriminate]].
        * exact (jk_index T O s' j' A B).
        * exists j', s'. split; [reflexivity|]. split; [exact A|]. split; [exact B|]. exact U. }
  destruct JK as [JK [UK NC]].
  assert (NR : NoRefill T O m) by (intros i k k' j A B X Y _ Z; exact (OM i k k' j A B X Y Z)).
  assert (Rs : joinRows h (alen (tp T)) (alen (tp O)) m = rs) by reflexivity.
  destruct (mergeFrontend_spec T O h Intersection on m WT WO P1 P2 C1 C2 NC JK UK NR (fun _ => Or Ord) ltac:(discriminate)) as [[Nc [R [E J]]]|[Cf [R E]]].
  - left. split.
    { intros D. apply Nc. apply (conflict_iff T O h Intersection m WT WO). rewrite Rs, Cs. exact D. }
    rewrite E. destruct J as [WR [RR [LP [LF [NF NP]]]]]. rewrite Rs in RR, LP, NP. rewrite Cs in RR, LF.
    assert (Lc : List.length cs = alen (tf t)) by (unfold cs, strictPairs; rewrite map_length, seq_length; exact Ll).
    destruct (endSet (tf R) e (endNames bn ln rn) (alen (tf t)) ltac:(apply WR) ltac:(congruence) Ee) as [a [Sa [Ia [La Na]]]].
    { rewrite endNames_length by congruence. exact Ll. } { apply endNames_different; auto; congruence. }
    cbn [ax]. rewrite Sa. exists (putAxis Fts R a). split; [reflexivity|].
    split; [apply putAxis_wf; auto; cbn [ax]; congruence|]. split; [exact RR|]. split; [exact LP|]. split; [cbn [putAxis tf]; congruence|]. split; [exact NP|exact Na].
  - right. split.
    { apply (conflict_iff T O h Intersection m WT WO) in Cf. rewrite Rs, Cs in Cf. exact Cf. }
    rewrite E. eexists. reflexivity.
Qed.

(** ** points strict, by name or position *)
Lemma strict_points h force (t o : table pval) bn : wf t -> wf o -> 0 < alen (tp t) -> alen (tp t) = alen (tp o) -> namesCreated (tf t) = true -> namesCreated (tf o) = true ->
  let ln := getNames (tp t) in let rn := getNames (tp o) in
  Corresponds force ln rn bn -> DifferentNames (workNames bn ln rn) -> (h = Intersection -> InOrder (tf t)) ->
  let rs := strictPairs bn ln rn in let cs := joinCols h (getNames (tf t)) (getNames (tf o)) in
  (~ Disagree t o rs cs /\ exists r, strictMerge Pts h None force t o = (r, Ok tt) /\
     Joined t o rs cs (endNames bn ln rn) (map (joinName (getNames (tf t)) (getNames (tf o))) cs) r) \/
  (Disagree t o rs cs /\ exists r, strictMerge Pts h None force t o = (r, Err InvalidArgumentValue)).
Proof.
  intros W1 W2 P1 Len K1 K2 ln rn Co Df Ord rs cs.
  assert (Il : Inv (tp t)) by apply W1. assert (Ir : Inv (tp o)) by apply W2.
  pose proof (getNames_length _ Il) as Ll. pose proof (getNames_length _ Ir) as Lr. fold ln in Ll. fold rn in Lr.
  unfold strictMerge. cbn [ax]. rewrite Len, Nat.eqb_refl. cbn [negb].
  pose proof (strictAxes_spec force (tp t) (tp o) Il Ir Len P1) as SA. cbv zeta in SA. fold ln rn in SA.
  destruct (strictAxes force (tp t) (tp o)) as [[[l' r'] e]|er].
  2:{ destruct SA as [_ SA]. exfalso. exact (SA bn Co Df). }
  destruct SA as [bn' [Co' [Df' [I1 [I2 [L1 [L2 [C1 [C2 [N1 [N2 [Ee Or]]]]]]]]]]]].
  assert (bn' = bn). { destruct Co as [A B _|_ [A|A] _], Co' as [A' B' _|_ [A'|A'] _]; auto; contradiction. } subst bn'. clear Co' Df'.
  destruct (pairs_work force ln rn bn (getNames l') (getNames r') Co ltac:(congruence) Df (names_Distinct _ Ir) N1 N2) as [Cv Pa].
  pose proof (getNames_length _ I1) as Ll'. pose proof (getNames_length _ I2) as Lr'. pose proof (names_Distinct _ I2) as Dr'.
  set (T := putAxis Pts t l'). set (O := putAxis Pts o r').
  assert (WT : wf T) by (apply putAxis_wf; auto). assert (WO : wf O) by (apply putAxis_wf; auto).
  assert (Rs : joinRows Intersection (alen (tp T)) (alen (tp O)) (sameName T O) = rs) by (rewrite covers_rows by auto; symmetry; exact Pa).
  assert (NR : NoRefill T O (sameName T O)).
  { intros i k k' j A B X Y _ _. assert (G : forall x, x < alen (tp O) -> sameName T O i x = true -> exists s, nth_error (getNames r') x = Some (Some s) /\ nth i (getNames l') None = Some s).
    { intros x Hx H. unfold sameName in H. change (getNames (tp T)) with (getNames l') in H. change (getNames (tp O)) with (getNames r') in H.
      destruct (nth i (getNames l') None) as [s|]; [|discriminate]. destruct (nth x (getNames r') None) as [s'|] eqn:Ex; [|discriminate]. apply String.eqb_eq in H. subst s'. exists s. split; auto. rewrite <- Ex. apply nth_error_nth'. rewrite Lr'. exact Hx. }
    destruct (G k X A) as [s [G1 G2]]. destruct (G k' Y B) as [s' [G3 G4]]. rewrite G2 in G4. injection G4 as <-. exact (Dr' _ _ _ G1 G3). }
  assert (Cs : joinCols h (getNames (tf T)) (getNames (tf O)) = cs) by reflexivity.
  destruct (mergeFrontend_spec T O Intersection h None (sameName T O) WT WO ltac:(cbn [T putAxis tp]; lia) ltac:(cbn [O putAxis tp]; lia) K1 K2 (fun _ => conj C1 C2) (jk_names T O) Logic.I NR Ord ltac:(congruence)) as [[Nc [R [E J]]]|[Cf [R E]]].
  - left. split.
    { intros D. apply Nc. apply (conflict_iff T O Intersection h (sameName T O) WT WO). rewrite Rs, Cs. exact D. }
    rewrite E. destruct J as [WR [RR [LP [LF [NF NP]]]]]. rewrite Rs in RR, LP, NP. rewrite Cs in RR, LF, NF.
    assert (Lc : List.length rs = alen (tp t)) by (unfold rs, strictPairs; rewrite map_length, seq_length; exact Ll).
    destruct (endSet (tp R) e (endNames bn ln rn) (alen (tp t)) ltac:(apply WR) ltac:(congruence) Ee) as [a [Sa [Ia [La Na]]]].
    { rewrite endNames_length by congruence. exact Ll. } { apply endNames_different; auto; congruence. }
    cbn [ax]. rewrite Sa. exists (putAxis Pts R a). split; [reflexivity|].
    split; [apply putAxis_wf; auto; cbn [ax]; congruence|]. split; [exact RR|]. split; [cbn [putAxis tp]; congruence|]. split; [exact LF|]. split; [exact Na|exact NF].
  - right. split.
    { apply (conflict_iff T O Intersection h (sameName T O) WT WO) in Cf. rewrite Rs, Cs in Cf. exact Cf. }
    rewrite E. eexists. reflexivity.
Qed.

(** ** refusals *)
Lemma strict_sizes sd h on force t o : alen (ax sd t) <> alen (ax sd o) -> strictMerge sd h on force t o = (t, Err InvalidArgumentValue).
Proof. intros H. unfold strictMerge. rewrite (proj2 (Nat.eqb_neq _ _) H). reflexivity. Qed.
Lemma strict_names_refused sd h on force (t o : table pval) : wf t -> wf o -> 0 < alen (ax sd t) -> (sd = Pts -> on = None) ->
  (forall bn, Corresponds force (getNames (ax sd t)) (getNames (ax sd o)) bn -> ~ DifferentNames (workNames bn (getNames (ax sd t)) (getNames (ax sd o)))) ->
  strictMerge sd h on force t o = (t, Err InvalidArgumentValue).
Proof.
  intros W1 W2 P Hon H. unfold strictMerge. destruct (Nat.eqb_spec (alen (ax sd t)) (alen (ax sd o))) as [E|N]; [|reflexivity]. cbn [negb].
  pose proof (strictAxes_spec force (ax sd t) (ax sd o) ltac:(destruct sd; apply W1) ltac:(destruct sd; apply W2) E P) as SA. cbv zeta in SA.
  destruct (strictAxes force (ax sd t) (ax sd o)) as [[[l' r'] e]|er].
  - destruct SA as [bn [C [D _]]]. exfalso. exact (H bn C D).
  - destruct SA as [-> _]. destruct sd; [rewrite (Hon eq_refl)|]; reflexivity.
Qed.
(** ** points strict, by the values of a feature *)
Lemma removeEq_spec x l l' : removeEq x l = Some l' -> exists a y b, l = a ++ y :: b /\ l' = a ++ b /\ Same x y.
Proof.
  revert l'. induction l as [|y l IH]; intros l' H; [discriminate|]. cbn in H. destruct (pyEq x y) eqn:E.
  - injection H as <-. exists [], y, l. repeat split; auto. apply pyEq_spec. auto.
  - destruct (removeEq x l) as [l2|]; [|discriminate]. injection H as <-. destruct (IH l2 eq_refl) as [a [z [b [-> [-> S1]]]]]. exists (y :: a), z, b. auto.
Qed.
Lemma removeEq_none x l : removeEq x l = None -> forall y, In y l -> ~ Same x y.
Proof.
  induction l as [|z l IH]; intros H y I; [destruct I|]. cbn in H. destruct (pyEq x z) eqn:E; [discriminate|]. destruct (removeEq x l) eqn:R; [discriminate|].
  destruct I as [->|I]; [intros C; apply pyEq_spec in C; congruence|auto].
Qed.
Lemma rearranged_spec a b : rearranged a b = true -> exists c, Permutation b c /\ Forall2 Same a c.
Proof.
  revert b. induction a as [|x a IH]; intros b H; cbn in H.
  - destruct b; [|discriminate]. exists []. split; constructor.
  - destruct (removeEq x b) as [b'|] eqn:R; [|discriminate]. destruct (IH b' H) as [c [P F]]. apply removeEq_spec in R as [p [y [q [-> [-> S1]]]]].
    exists (y :: c). split; [|constructor; auto]. rewrite <- P. symmetry. apply Permutation_middle.
Qed.
Lemma rearranged_complete a : forall b c, Permutation b c -> Forall2 Same a c -> rearranged a b = true.
Proof.
  induction a as [|x a IH]; intros b c P F.
  - inversion F; subst. apply Permutation_sym, Permutation_nil in P. subst b. reflexivity.
  - inversion F as [|x' y a' c' S1 F' E1 E2]; subst. cbn. destruct (removeEq x b) as [b'|] eqn:R.
    + apply removeEq_spec in R as [p [z [q [-> [-> S2]]]]].
      assert (I : In z (y :: c')) by (eapply Permutation_in; [exact P|apply in_elt]).
      destruct I as [->|I].
      * apply (IH _ c'); auto. apply (Permutation_cons_inv (a := z)). eapply Permutation_trans; [apply Permutation_middle|exact P].
      * apply in_split in I as [c1 [c2 ->]].
        assert (P3 : Permutation (p ++ q) (c1 ++ y :: c2)).
        { apply (Permutation_cons_inv (a := z)). eapply Permutation_trans; [apply Permutation_middle|]. eapply Permutation_trans; [exact P|].
          eapply Permutation_trans; [apply perm_skip, Permutation_sym, Permutation_middle|]. eapply Permutation_trans; [apply perm_swap|]. apply perm_skip. apply Permutation_middle. }
        apply Forall2_app_inv_r in F' as [a1 [a2 [F1 [F2 ->]]]]. inversion F2 as [|u v a3 c3 S3 F3]; subst.
        apply (IH _ (c1 ++ y :: c2)); auto. apply Forall2_app; auto. constructor; auto.
        eapply Same_trans; [exact S3|]. eapply Same_trans; [apply Same_sym; exact S2|exact S1].
    + exfalso. refine (removeEq_none _ _ R y _ S1). eapply Permutation_in; [apply Permutation_sym; exact P|left; reflexivity].
Qed.
Lemma Forall2_nth_error {A B} (R : A -> B -> Prop) l : forall l', List.length l = List.length l' ->
  (forall i x y, nth_error l i = Some x -> nth_error l' i = Some y -> R x y) -> Forall2 R l l'.
Proof.
  induction l as [|x l IH]; intros [|y l'] L H; try discriminate; constructor; [apply (H 0); reflexivity|]. apply IH; [cbn in L; lia|]. intros i; apply (H (S i)).
Qed.
Lemma Forall2_nth {A B} (R : A -> B -> Prop) l l' : Forall2 R l l' -> forall i x, nth_error l i = Some x -> exists y, nth_error l' i = Some y /\ R x y.
Proof. induction 1 as [|a b l l' H F IH]; intros [|i] x E; try discriminate; cbn in *; [injection E as <-; eauto|eauto]. Qed.
Lemma order_nth (t o : table pval) j j' order i : OneToOne t o j j' order -> i < alen (tp o) -> exists k, nth_error order i = Some k /\ k < alen (tp o).
Proof.
  intros [P _] Hi. assert (L : List.length order = alen (tp o)) by (rewrite (Permutation_length P), seq_length; reflexivity).
  destruct (nth_error_is_some order (i:=i)) as [k K]; [lia|]. exists k. split; auto. assert (I : In k (seq 0 (alen (tp o)))) by (eapply Permutation_in; [exact P|eapply nth_error_In; eauto]). apply in_seq in I. lia.
Qed.
Lemma uniqueMatch_spec (t o : table pval) on j j' : wf t -> wf o -> alen (tp t) = alen (tp o) -> KeyOf t o on j j' ->
  match uniqueMatch t o on with
  | Ok _ => exists order, OneToOne t o j j' order
  | Err e => e = InvalidArgumentValueCombination /\ forall order, ~ OneToOne t o j j' order
  end.
Proof.
  intros W1 W2 Len K. assert (I1 : Inv (tf t)) by apply W1. assert (I2 : Inv (tf o)) by apply W2.
  assert (G1 : keyColumn t on = Ok (column t j)). { unfold keyColumn. destruct K as [s j j' A B|s j A B]; cbn [onIdent]; [rewrite (getIndex_name _ s j)|rewrite (getIndex_pos _ j s)]; auto; rewrite Nat2Z.id; reflexivity. }
  assert (G2 : keyColumn o on = Ok (column o j')). { unfold keyColumn. destruct K as [s j j' A B|s j A B]; cbn [onIdent]; [rewrite (getIndex_name _ s j')|rewrite (getIndex_pos _ j s)]; auto; rewrite Nat2Z.id; reflexivity. }
  assert (B1 : j < alen (tf t) /\ j' < alen (tf o)). { rewrite <- (getNames_length _ I1), <- (getNames_length _ I2). destruct K as [s j j' A B|s j A B]; split; eapply nth_error_lt; eauto. }
  destruct B1 as [B1 B2]. unfold uniqueMatch. rewrite G1. cbn [rbind].
  pose proof (column_length_wf _ t j W1 B1) as L1. pose proof (column_length_wf _ o j' W2 B2) as L2. rewrite <- L1.
  destruct (Nat.eqb_spec (distinct (column t j)) (List.length (column t j))) as [D|D]; cbn [negb].
  2:{ split; auto. intros order [_ [_ U]]. apply D. apply distinct_full. intros i i' v w L X Y. rewrite (column_nth_wf _ t j i W1 B1) in X. rewrite (column_nth_wf _ t j i' W1 B1) in Y. apply (U i i'); auto. lia. }
  pose proof (proj1 (distinct_full (column t j)) D) as D'. rewrite G2. cbn [rbind].
  destruct (rearranged (column t j) (column o j')) eqn:R.
  - apply rearranged_spec in R as [c [P F]]. apply Permutation_nth_error in P as [Lc [f [Inj Hf]]].
    assert (Bf : forall n, n < alen (tp o) -> f n < alen (tp o)).
    { intros n Hn. assert (E : exists x, nth_error c n = Some x) by (apply nth_error_is_some; lia). destruct E as [x E]. rewrite Hf in E. apply nth_error_lt in E. lia. }
    exists (map f (seq 0 (alen (tp o)))). split; [|split].
    + apply NoDup_Permutation_bis; [apply FinFun.Injective_map_NoDup; [exact Inj|apply seq_NoDup]|rewrite map_length; lia|].
      intros x I. apply in_map_iff in I as [n [<- I]]. apply in_seq in I. apply in_seq. specialize (Bf n). lia.
    + intros i k E. rewrite nth_error_map_eq, nth_error_seq in E. destruct (i <? alen (tp o)) eqn:Hi; [|discriminate]. injection E as <-. cbn [Nat.add]. apply Nat.ltb_lt in Hi.
      destruct (nth_error_is_some (column t j) (i:=i)) as [v V]; [lia|]. destruct (Forall2_nth _ _ _ F i v V) as [w [Wc Sm]]. rewrite Hf in Wc.
      rewrite (column_nth_wf _ t j i W1 B1) in V. rewrite (column_nth_wf _ o j' _ W2 B2) in Wc. exists v, w. auto.
    + intros i i' v w N X Y. rewrite <- (column_nth_wf _ t j i W1 B1) in X. rewrite <- (column_nth_wf _ t j i' W1 B1) in Y. destruct (Nat.lt_ge_cases i i') as [Q|Q]; [exact (D' i i' v w Q X Y)|].
      intros C. apply (D' i' i w v); auto; [lia|apply Same_sym; auto].
  - split; auto. intros order OO. assert (Q : rearranged (column t j) (column o j') = true); [|congruence].
    destruct OO as [P [H _]]. apply (rearranged_complete _ _ (map (fun k => nth k (column o j') PNone) order)).
    + rewrite P. rewrite <- L2. replace (map (fun k => nth k (column o j') PNone) (seq 0 (List.length (column o j')))) with (column o j'); auto.
      apply nth_error_ext. intros n. rewrite nth_error_map_eq, nth_error_seq. destruct (n <? List.length (column o j')) eqn:Hn.
      * apply Nat.ltb_lt in Hn. cbn [option_map]. apply nth_error_nth'. exact Hn.
      * apply Nat.ltb_ge in Hn. apply nth_error_None. exact Hn.
    + apply Forall2_nth_error. { rewrite map_length, (Permutation_length P), seq_length. congruence. }
      intros i x y X Y. rewrite nth_error_map_eq in Y. destruct (nth_error order i) as [k|] eqn:Ek; [|discriminate]. injection Y as <-.
      destruct (H i k Ek) as [v [w [V [Wc Sm]]]]. rewrite column_nth_wf in X by assumption. rewrite V in X. injection X as <-.
      rewrite <- (column_nth_wf _ o j' k W2 B2) in Wc. rewrite (nth_error_nth _ _ PNone Wc). exact Sm.
Qed.
Lemma oneToOne_rows (t o : table pval) j j' order : wf t -> wf o -> alen (tp t) = alen (tp o) -> OneToOne t o j j' order ->
  (forall i k, i < alen (tp t) -> k < alen (tp o) -> sameValue t o j j' i k = true <-> nth_error order i = Some k) /\
  joinRows Intersection (alen (tp t)) (alen (tp o)) (sameValue t o j j') = pairsBy order.
Proof.
  intros W1 W2 Len OO. pose proof OO as [P [H U]]. assert (Lo : List.length order = alen (tp o)) by (rewrite (Permutation_length P), seq_length; reflexivity).
  assert (G : forall i k, i < alen (tp t) -> k < alen (tp o) -> sameValue t o j j' i k = true <-> nth_error order i = Some k).
  { intros i k Hi Hk. split.
    - intros S1. unfold sameValue in S1. destruct (cell t i j) as [v|] eqn:V; [|discriminate]. destruct (cell o k j') as [w|] eqn:Wc; [|discriminate]. apply pyEq_spec in S1.
      assert (Ik : In k order) by (eapply Permutation_in; [apply Permutation_sym; exact P|apply in_seq; lia]). apply In_nth_error in Ik as [i' E].
      destruct (Nat.eq_dec i i') as [->|N]; auto. exfalso. destruct (H i' k E) as [v' [w' [V' [Wc' S2]]]]. rewrite Wc in Wc'. injection Wc' as <-.
      apply (U i i' v v' N V V'). eapply Same_trans; [exact S1|apply Same_sym; exact S2].
    - intros E. destruct (H i k E) as [v [w [V [Wc Sm]]]]. unfold sameValue. rewrite V, Wc. apply pyEq_spec. exact Sm. }
  split; [exact G|]. unfold joinRows. rewrite app_nil_r. unfold pairsBy. rewrite Lo.
  transitivity (map (fun i => (Some i, nth_error order i)) (seq 0 (alen (tp t)))).
  - apply flat_map_single. intros i I. apply in_seq in I. destruct (order_nth t o j j' order i OO ltac:(lia)) as [k [E Hk]].
    rewrite (filter_one (sameValue t o j j' i) (alen (tp o)) k); [rewrite E; reflexivity|auto|]. intros x Hx. rewrite G by lia. rewrite E. split; [intros Q; injection Q as ->; auto|intros ->; auto].
  - rewrite Len. apply nth_error_ext. intros n. rewrite !nth_error_map_eq, nth_error_combine, nth_error_seq. destruct (n <? alen (tp o)) eqn:Hn; cbn [option_map]; auto.
    apply Nat.ltb_lt in Hn. destruct (nth_error order n) as [k|] eqn:E; cbn; [rewrite ?E; reflexivity|]. apply nth_error_None in E. lia.
Qed.
Lemma strict_key h on force (t o : table pval) j j' : wf t -> wf o -> 0 < alen (tp t) -> alen (tp t) = alen (tp o) -> namesCreated (tf t) = true -> namesCreated (tf o) = true ->
  KeyOf t o on j j' -> (h = Intersection -> InOrder (tf t)) -> (h = LeftOnly -> InOrder (tf t) /\ KeyAfterShared t o (Some on)) ->
  let cs := joinCols h (getNames (tf t)) (getNames (tf o)) in
  (forall order, OneToOne t o j j' order ->
    (~ Disagree t o (pairsBy order) cs /\ exists r, strictMerge Pts h (Some on) force t o = (r, Ok tt) /\
       Joined t o (pairsBy order) cs (repeat None (alen (tp t))) (map (joinName (getNames (tf t)) (getNames (tf o))) cs) r) \/
    (Disagree t o (pairsBy order) cs /\ exists r, strictMerge Pts h (Some on) force t o = (r, Err InvalidArgumentValue))) /\
  ((forall order, ~ OneToOne t o j j' order) -> strictMerge Pts h (Some on) force t o = (t, Err InvalidArgumentValueCombination)).
Proof.
  intros W1 W2 P1 Len N1 N2 K O1 O2 cs. unfold strictMerge. cbn [ax]. rewrite Len, Nat.eqb_refl. cbn [negb].
  pose proof (uniqueMatch_spec t o on j j' W1 W2 Len K) as UM. split.
  - intros order OO. destruct (uniqueMatch t o on) as [[]|e]; [|destruct UM as [_ UM]; destruct (UM order OO)]. clear UM.
    destruct (oneToOne_rows t o j j' order W1 W2 Len OO) as [G Rs].
    assert (AD : AllDifferent t j).
    { destruct OO as [P [H U]]. intros i i' v w N V Wc. split; [eapply U; eauto|]. left. intros ->. destruct (cell_range t i j _ W1 V) as [Hi _].
      assert (Lo : List.length order = alen (tp o)) by (rewrite (Permutation_length P), seq_length; reflexivity).
      destruct (nth_error_is_some order (i:=i)) as [k E]; [lia|]. destruct (H i k E) as [v' [w' [V' [_ Sm]]]]. rewrite V in V'. injection V' as <-. inversion Sm as [a b p q HA| | | |]. inversion HA. }
    assert (JK : JoinKey t o (Some on) (sameValue t o j j') /\ UniqueKey t o (Some on)).
    { destruct K as [s j j' A B|s j A B].
      - split; [exact (jk_feature t o s j j' A B)|]. exists j, j'. auto.
      - split; [exact (jk_index t o s j A B)|]. exists j, s. auto. }
    destruct JK as [JK UK].
    assert (NR : NoRefill t o (sameValue t o j j')).
    { intros i k k' jj A B Hk Hk' _ C. destruct (cell_range t i jj _ W1 C) as [Hi _]. apply G in A, B; auto. congruence. }
    destruct (mergeFrontend_spec t o Intersection h (Some on) (sameValue t o j j') W1 W2 P1 ltac:(lia) N1 N2 ltac:(discriminate) JK UK NR O1 (fun E _ => O2 E)) as [[Nc [R [E J]]]|[Cf [R E]]].
    + left. split. { intros D. apply Nc. apply (conflict_iff t o Intersection h _ W1 W2). rewrite Rs. exact D. }
      exists R. split; [exact E|]. destruct J as [WR [RR [LP [LF [NF NP]]]]]. rewrite Rs in RR, LP, NP. cbn [byNames] in NP.
      assert (Lp : List.length (pairsBy order) = alen (tp t)).
      { unfold pairsBy. rewrite map_length, combine_length, seq_length, Nat.min_id. rewrite (Permutation_length (proj1 OO)), seq_length. auto. }
      split; auto. split; auto. split; auto. split; auto. split; auto. congruence.
    + right. split; [|eauto]. apply (conflict_iff t o Intersection h _ W1 W2) in Cf. rewrite Rs in Cf. exact Cf.
  - intros N. destruct (uniqueMatch t o on) as [[]|e]; [destruct UM as [order OO]; destruct (N order OO)|]. destruct UM as [-> _]. reflexivity.
Qed.
Lemma strict_key_unknown h force (t o : table pval) s : wf t -> 0 < alen (tf t) -> alen (tp t) = alen (tp o) -> ~ In (Some s) (getNames (tf t)) ->
  strictMerge Pts h (Some (OnName s)) force t o = (t, Err InvalidArgumentValue).
Proof.
  intros W1 P Len N. unfold strictMerge. cbn [ax]. rewrite Len, Nat.eqb_refl. cbn [negb].
  assert (K : keyColumn t (OnName s) = Err InvalidArgumentValue); [|unfold uniqueMatch; rewrite K; reflexivity].
  unfold keyColumn. cbn [onIdent]. unfold getIndex. destruct (Z.eqb_spec (Z.of_nat (alen (tf t))) 0); [lia|].
  destruct (getIndexByName (tf t) s) as [i|e] eqn:E.
  - exfalso. apply N. apply (getIndexByName_In (tf t) s i) in E; [eapply nth_error_In; eauto|apply W1].
  - unfold getIndexByName in E. destruct (dget s (names_dict (ensure (tf t)))); [discriminate|]. injection E as <-. reflexivity.
Qed.

(** ** sorted by the feature joined on *)
Lemma strict_sorted leb on force (t o r : table pval) k : TotalOrder leb -> strictMerge Fts Union (Some on) force t o = (r, Ok tt) -> wf r -> SortKey r on k ->
  exists r', mergeStrict leb Fts Union (Some on) force t o = (r', Ok tt) /\ SortedByFeature leb k r r'.
Proof.
  intros TO E W K. unfold mergeStrict. rewrite E. assert (IR : Inv (tf r)) by apply W.
  assert (G : truthy on = true /\ getIndex (tf r) (onIdent on) false = Ok (Z.of_nat k) /\ k < alen (tf r)).
  { destruct K as [s k N H|k H]; cbn [truthy onIdent].
    - destruct (String.eqb_spec s ""); [congruence|]. split; [reflexivity|]. split; [apply getIndex_name; auto|]. rewrite <- (getNames_length _ IR). eapply nth_error_lt; eauto.
    - destruct (Z.eqb_spec (Z.of_nat k) 0); [lia|]. split; [reflexivity|]. split; [apply PrepProofs.getIndex_nat; lia|lia]. }
  destruct G as [-> [-> B]]. rewrite Nat2Z.id.
  destruct (sortByKeys_spec pval leb TO false Pts r [k] W) as [r' [order [E' [W' [P [I [SO H]]]]]]].
  { intros x [<-|[]]. exact B. }
  rewrite E'. exists r'. split; [reflexivity|]. exists order. split; [exact W'|]. split; [exact P|]. split; [exact I|]. split; [apply SO|].
  intros p q i j v w L X Y V V'. specialize (H p q i j L X Y). cbn in H. unfold keyOf in H. rewrite V, V' in H. destruct H as [x [y [X' [Y' H]]]]. injection X' as <-. injection Y' as <-. destruct H as [[H H']|[H [_ H']]]; split; auto; congruence.
Qed.
Lemma strict_plain leb sd h on force (t o : table pval) : (sd = Fts -> h = Union -> on = None \/ on = Some (OnName "") \/ on = Some (OnIndex 0)) ->
  mergeStrict leb sd h on force t o = strictMerge sd h on force t o.
Proof.
  intros H. unfold mergeStrict. destruct (strictMerge sd h on force t o) as [x [[]|e]]; [|reflexivity].
  destruct sd; try reflexivity. destruct h; try reflexivity. destruct (H eq_refl eq_refl) as [->|[->| ->]]; reflexivity.
Qed.
Lemma strict_failed leb sd h on force (t o x : table pval) e : strictMerge sd h on force t o = (x, Err e) -> mergeStrict leb sd h on force t o = (x, Err e).
Proof. intros H. unfold mergeStrict. rewrite H. reflexivity. Qed.
