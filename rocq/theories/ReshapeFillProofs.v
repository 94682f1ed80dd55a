(** Proofs for C49: the rows and the names combineByExpandingFeatures makes. *)
From Verif Require Import Base NamesModel NamesSpec NamesProofs NamesIndexProofs TableModel TableSpec TableProofs TableOpsProofs FlatProofs MatchModel MatchSpec MatchProofs
  MergeModel BinOpProofs MergeLoopProofs MergeNamesProofs ReshapeModel ReshapeSpec ReshapeTextProofs ReshapeSplitProofs ReshapeCollapseProofs ReshapeExpandProofs.
Open Scope string_scope. Open Scope list_scope. Open Scope nat_scope.

(** ** filling a row *)
Lemma assignSlice_ok A B C src stop : List.length src = List.length B -> stop = List.length A + List.length B ->
  assignSlice (A ++ B ++ C) (List.length A) stop src = Ok (A ++ src ++ C).
Proof.
  intros L ->. unfold assignSlice. rewrite !app_length.
  replace (Nat.min (List.length A) (List.length A + (List.length B + List.length C))) with (List.length A) by lia.
  replace (Nat.min (List.length A + List.length B) (List.length A + (List.length B + List.length C)) - List.length A) with (List.length B) by lia.
  rewrite L, Nat.eqb_refl. rewrite firstn_app, firstn_all, Nat.sub_diag. cbn [firstn]. rewrite app_nil_r.
  rewrite skipn_app, skipn_all2 by lia. replace (List.length A + List.length B - List.length A) with (List.length B) by lia.
  rewrite skipn_app, skipn_all, Nat.sub_diag. reflexivity.
Qed.
Definition lookupVals (ne : nat) (d : list (pval * list pval)) (n : pval) : list pval :=
  match find (fun p => pyEq n (fst p)) d with Some p => snd p | None => repeat PNaN ne end.
Lemma lookupVals_length ne d n : (forall p, In p d -> List.length (snd p) = ne) -> List.length (lookupVals ne d n) = ne.
Proof.
  intros H. unfold lookupVals. destruct (find _ d) as [p|] eqn:E; [|apply repeat_length]. apply H. apply find_some in E. tauto.
Qed.
Lemma fillNames_ok ni ne d : (forall p, In p d -> List.length (snd p) = ne) -> forall names j P m,
  List.length P = ni + j * ne ->
  fillNames ni ne j names d (P ++ repeat PNone (List.length names * ne + m)) =
  Ok (P ++ flat_map (lookupVals ne d) names ++ repeat PNone m).
Proof.
  intros H. induction names as [|n names IH]; intros j P m L; [reflexivity|].
  cbn [fillNames List.length flat_map]. rewrite Nat.mul_succ_l, (Nat.add_comm (_ * ne)), <- Nat.add_assoc, repeat_app, <- L.
  change (match find _ d with Some p => snd p | None => repeat PNaN ne end) with (lookupVals ne d n).
  rewrite assignSlice_ok by (rewrite ?repeat_length, ?lookupVals_length; auto). cbn [rbind].
  rewrite app_assoc, IH, <- !app_assoc; [reflexivity|]. rewrite app_length, lookupVals_length, L by exact H. cbn. lia.
Qed.
Lemma fillExpanded_ok ni ne nf names key d : (forall p, In p d -> List.length (snd p) = ne) -> ni <= List.length key ->
  nf = List.length key + List.length names * ne ->
  fillExpanded ni ne nf names (key, d) = Ok (firstn ni key ++ flat_map (lookupVals ne d) names ++ skipn ni key).
Proof.
  intros H L ->. unfold fillExpanded. cbn [fst snd].
  assert (E : repeat PNone (List.length key + List.length names * ne) = [] ++ repeat PNone ni ++ repeat PNone (List.length names * ne + (List.length key - ni))).
  { cbn [app]. rewrite <- repeat_app. f_equal. lia. }
  assert (LF : List.length (firstn ni key) = ni) by (rewrite firstn_length; lia).
  rewrite E. change 0 with (List.length (@nil pval)) at 1. rewrite assignSlice_ok by (rewrite ?repeat_length, ?LF; auto). cbn [rbind app].
  rewrite fillNames_ok by (auto; rewrite LF; lia). cbn [rbind].
  assert (LV : List.length (flat_map (lookupVals ne d) names) = List.length names * ne).
  { rewrite (flat_map_const_length _ _ ne); [reflexivity|]. intros x _. apply lookupVals_length. exact H. }
  rewrite app_assoc, <- (app_nil_r (repeat PNone _)).
  replace (ni + List.length names * ne) with (List.length (firstn ni key ++ flat_map (lookupVals ne d) names)) by (rewrite app_length, LF, LV; reflexivity).
  rewrite assignSlice_ok; [rewrite app_nil_r, <- app_assoc; reflexivity| |]; rewrite ?repeat_length, ?skipn_length; [lia|].
  rewrite app_length, LF, LV. lia.
Qed.

(** ** the values of a name in a group *)
Lemma lookup_found ni ui vi rs key n r : NoClash ni ui rs -> In r rs -> SameValues (keyOf' ui r) key -> Same (nameOf ni r) n ->
  lookupVals (List.length vi) (dictOf ni ui vi rs key) n = pick r vi.
Proof.
  intros C I K N. apply tupEq_spec in K. apply pyEq_spec in N. unfold lookupVals.
  destruct (find (fun p => pyEq n (fst p)) (dictOf ni ui vi rs key)) as [p|] eqn:E.
  - apply find_some in E. destruct E as [P E]. unfold dictOf in P. apply in_map_iff in P. destruct P as [a [<- A]]. apply filter_In in A. destruct A as [A KA].
    cbn [fst snd] in *. assert (Q : Clash ni ui a r /\ Clash ni ui r a).
    { assert (X : tupEq (keyOf' ui a) (keyOf' ui r) = true) by (rewrite tupEq_sym in K; exact (tupEq_trans _ _ _ KA K)).
      assert (Y : pyEq (nameOf ni a) (nameOf ni r) = true) by (rewrite pyEq_sym; exact (pyEq_trans _ _ _ N E)).
      split; (split; [apply tupEq_spec|apply pyEq_spec]); auto; [rewrite tupEq_sym|rewrite pyEq_sym]; assumption. }
    apply In_nth_error in A. apply In_nth_error in I. destruct A as [i A], I as [j J].
    destruct (Nat.lt_trichotomy i j) as [L|[->|L]].
    + exfalso. exact (C i j a r L A J (proj1 Q)).
    + rewrite A in J. injection J as <-. reflexivity.
    + exfalso. exact (C j i r a L J A (proj2 Q)).
  - exfalso. apply (find_none _ _ E (nameOf ni r, valsOf vi r)) in N as X || pose proof (find_none _ _ E (nameOf ni r, valsOf vi r)) as X.
    assert (In (nameOf ni r, valsOf vi r) (dictOf ni ui vi rs key)) as Y.
    { unfold dictOf. apply in_map_iff. exists r. split; [reflexivity|]. apply filter_In. auto. }
    specialize (X Y). cbn in X. rewrite pyEq_sym in X. congruence.
Qed.
Lemma lookup_none ni ui vi rs key n : (forall r, In r rs -> ~ (SameValues (keyOf' ui r) key /\ Same (nameOf ni r) n)) ->
  lookupVals (List.length vi) (dictOf ni ui vi rs key) n = repeat PNaN (List.length vi).
Proof.
  intros H. unfold lookupVals. destruct (find _ _) as [p|] eqn:E; [|reflexivity]. exfalso.
  apply find_some in E. destruct E as [P E]. unfold dictOf in P. apply in_map_iff in P. destruct P as [a [<- A]]. apply filter_In in A. destruct A as [A KA].
  apply (H a A). split; [apply tupEq_spec; exact KA|apply pyEq_spec; rewrite pyEq_sym; exact E].
Qed.
Lemma dict_lengths ni ui vi rs key : forall p, In p (dictOf ni ui vi rs key) -> List.length (snd p) = List.length vi.
Proof. intros p P. unfold dictOf in P. apply in_map_iff in P. destruct P as [a [<- _]]. cbn. unfold valsOf, pick. apply map_length. Qed.

(** ** names one by one *)
Lemma setOne_ok a s i : Inv a -> nth_error (getNames a) i = Some None -> ~ In (Some s) (getNames a) ->
  exists b, setNames a (AStr s) (OOne (IdInt (Z.of_nat i))) = (b, Ok tt) /\ Inv b /\ alen b = alen a /\ getNames b = upd (getNames a) i (Some s).
Proof.
  intros I N F. pose proof (getNames_length _ I) as L. assert (LI : i < alen a) by (rewrite <- L; apply nth_error_Some; congruence).
  pose proof (Inv_facts _ (ensure_Inv _ I)) as [L1 [WD D]].
  assert (LE : alen (ensure a) = alen a) by (unfold ensure; destruct (namesCreated a); reflexivity).
  unfold getNames in *. set (e := ensure a) in *.
  assert (DM : dget s (names_dict e) = None). { destruct (dget s (names_dict e)) as [j|] eqn:E; [|reflexivity]. apply D in E. apply nth_error_In in E. contradiction. }
  assert (DB : dmem s (names_dict e) = false). { destruct (dmem s (names_dict e)) eqn:E; [|reflexivity]. apply dmem_dget in E. destruct E as [v E]. congruence. }
  cbn [setNames]. unfold setNames_some. replace (alen a =? 0) with false by (symmetry; apply Nat.eqb_neq; lia).
  cbn [assignments_len List.length]. replace (1 <=? alen a) with true by (symmetry; apply Nat.leb_le; lia). cbn [andb Nat.eqb]. fold e.
  assert (RO : resolveOld e [IdInt (Z.of_nat i)] = Ok [(None, i)]).
  { cbn [resolveOld]. unfold getIndex. rewrite LE. replace (Z.of_nat (alen a) =? 0)%Z with false by lia.
    replace (Z.of_nat i <? 0)%Z with false by lia. replace (Z.of_nat (alen a) <=? Z.of_nat i)%Z with false by lia. cbn [orb rbind].
    replace (Z.of_nat i <? 0)%Z with false by lia. cbn [orb rbind]. rewrite Nat2Z.id, (nth_error_nth _ _ _ N). reflexivity. }
  rewrite RO. cbn [assignments_iter map snd combine]. unfold dict_of. cbn [fold_left fst snd dset checkNew deleteOld writeNew newname_opt].
  rewrite DB. eexists. split; [reflexivity|]. cbn [alen astate]. 
  assert (NI : Inv (mkAxis (alen e) (Some (dset s i (names_dict e), upd (names_inv e) i (Some s))))).
  { unfold Inv. cbn [astate alen]. rewrite upd_length. split; [exact L1|]. split; [apply wfdict_dset; exact WD|].
    intros s' j. destruct (eq_dec s' s) as [->|NS].
    - rewrite dget_dset. destruct (eq_dec s s) as [_|X]; [|congruence]. split.
      + intros E. injection E as <-. apply nth_error_upd_same. rewrite L1, LE; exact LI.
      + intros E. destruct (Nat.eq_dec i j) as [->|NE]; [reflexivity|]. rewrite nth_error_upd_other in E by auto. apply nth_error_In in E. contradiction.
    - rewrite dget_dset. destruct (eq_dec s' s) as [X|_]; [congruence|]. rewrite D. destruct (Nat.eq_dec i j) as [<-|NE].
      + rewrite nth_error_upd_same by (rewrite L1, LE; exact LI). rewrite N. split; intros E; congruence.
      + rewrite nth_error_upd_other by auto. reflexivity. }
  split; [exact NI|]. split; [exact LE|]. reflexivity.
Qed.
Lemma upd_app {A} (P : list A) x Q y : upd (P ++ x :: Q) (List.length P) y = P ++ y :: Q.
Proof. induction P as [|p P IH]; [reflexivity|]. cbn. rewrite IH. reflexivity. Qed.
Lemma nameOneByOne_ok : forall l a P m, Inv a -> getNames a = P ++ repeat None (List.length l + m) -> DistinctNames (P ++ map Some l ++ repeat None m) ->
  exists b, nameOneByOne a (List.length P) l = (b, Ok tt) /\ Inv b /\ alen b = alen a /\ getNames b = P ++ map Some l ++ repeat None m.
Proof.
  induction l as [|s l IH]; intros a P m I G D; [exists a; auto|].
  cbn [List.length Nat.add] in G. cbn [repeat] in G.
  assert (N : nth_error (getNames a) (List.length P) = Some None) by (rewrite G, nth_error_app2, Nat.sub_diag by lia; reflexivity).
  assert (F : ~ In (Some s) (getNames a)).
  { rewrite G. intros X. apply in_app_or in X. destruct X as [X|X].
    - apply In_nth_error in X. destruct X as [j X]. assert (LJ : j < List.length P) by (apply nth_error_Some; congruence).
      assert (j = List.length P); [|lia]. apply (D j (List.length P) s); [rewrite nth_error_app1 by lia; exact X|rewrite nth_error_app2, Nat.sub_diag by lia; reflexivity].
    - change (None :: repeat None (List.length l + m)) with (repeat (@None string) (S (List.length l + m))) in X. apply repeat_spec in X. discriminate. }
  destruct (setOne_ok a s (List.length P) I N F) as [b [E [Ib [Lb Gb]]]]. cbn [nameOneByOne]. rewrite E.
  rewrite G, upd_app in Gb. 
  assert (Gb' : getNames b = (P ++ [Some s]) ++ repeat None (List.length l + m)) by (rewrite <- app_assoc; exact Gb).
  destruct (IH b (P ++ [Some s]) m Ib Gb') as [c [Ec [Ic [Lc Gc]]]]; [rewrite <- app_assoc; exact D|].
  rewrite app_length, Nat.add_1_r in Ec. exists c. split; [exact Ec|]. split; [exact Ic|]. split; [lia|]. rewrite Gc, <- app_assoc. reflexivity.
Qed.

(** ** increasing lists with the same elements *)
Definition Increasing (l : list nat) : Prop := forall g h p q, g < h -> nth_error l g = Some p -> nth_error l h = Some q -> p < q.
Lemma Increasing_tail p ps : Increasing (p :: ps) -> Increasing ps /\ forall q, In q ps -> p < q.
Proof.
  intros I. split; [intros g h a b L G H; apply (I (S g) (S h)); auto; lia|].
  intros q Q. apply In_nth_error in Q. destruct Q as [h H]. apply (I 0 (S h) p q); [lia|reflexivity|exact H].
Qed.

Lemma Increasing_ext : forall l l', Increasing l -> Increasing l' -> (forall x, In x l <-> In x l') -> l = l'.
Proof.
  induction l as [|p l IH]; intros [|q l'] I J E.
  - reflexivity.
  - exfalso. apply (E q). left. reflexivity.
  - exfalso. apply (E p). left. reflexivity.
  - destruct (Increasing_tail _ _ I) as [I1 I2]. destruct (Increasing_tail _ _ J) as [J1 J2].
    assert (p = q). { destruct (proj1 (E p) (or_introl eq_refl)) as [X|X]; [auto|]. destruct (proj2 (E q) (or_introl eq_refl)) as [Y|Y]; [auto|].
      apply J2 in X. apply I2 in Y. lia. }
    subst q. f_equal. apply IH; auto. intros x. split; intros X.
    + destruct (proj1 (E x) (or_intror X)) as [<-|Y]; [apply I2 in X; lia|exact Y].
    + destruct (proj2 (E x) (or_intror X)) as [<-|Y]; [apply J2 in X; lia|exact Y].
Qed.
Lemma Firsts_In {A} (R : A -> A -> Prop) l ps : (forall x y, R x y -> R y x) -> Firsts R l ps -> forall p,
  In p ps <-> exists x, nth_error l p = Some x /\ forall q y, q < p -> nth_error l q = Some y -> ~ R x y.
Proof.
  intros S [F1 [F2 F3]] p. split.
  - intros I. apply In_nth_error in I. destruct I as [g G]. exact (F1 g p G).
  - intros [x [X N]]. destruct (F3 p x X) as [g [p' [x' [G [X' XX]]]]]. destruct (Nat.lt_trichotomy p p') as [L|[->|L]].
    + destruct (F1 g p' G) as [x'' [Y M]]. rewrite X' in Y. injection Y as <-. exfalso. exact (M p x L X (S _ _ XX)).
    + eapply nth_error_In. exact G.
    + exfalso. exact (N p' x' L X' XX).
Qed.
Lemma Firsts_unique {A} (R : A -> A -> Prop) l ps ps' : (forall x y, R x y -> R y x) -> Firsts R l ps -> Firsts R l ps' -> ps = ps'.
Proof.
  intros S F F'. apply Increasing_ext; [exact (proj1 (proj2 F))|exact (proj1 (proj2 F'))|].
  intros p. rewrite (Firsts_In R l ps S F), (Firsts_In R l ps' S F'). reflexivity.
Qed.
Lemma SameValues_sym a b : SameValues a b -> SameValues b a.
Proof. intros H. apply tupEq_spec. rewrite tupEq_sym. apply tupEq_spec. exact H. Qed.

(** ** prefixes *)
Lemma countStr_alone (strOf : pval -> string) (names : list pval) j n : nth_error names j = Some n ->
  (1 <? countStr (strOf n) (map strOf names)) = true <-> exists k m, nth_error names k = Some m /\ strOf m = strOf n /\ k <> j.
Proof.
  intros J. unfold countStr. rewrite Nat.ltb_lt.
  destruct (nth_error_split names j J) as [A [B [E LA]]].
  assert (X : List.length (filter (String.eqb (strOf n)) (map strOf names)) = S (List.length (filter (String.eqb (strOf n)) (map strOf (A ++ B))))).
  { rewrite E, !map_app, !filter_app, !app_length. cbn [map filter]. rewrite String.eqb_refl. cbn [List.length]. lia. }
  rewrite X. split.
  - intros L. destruct (filter (String.eqb (strOf n)) (map strOf (A ++ B))) as [|s l] eqn:F; [cbn in L; lia|].
    assert (I : In s (filter (String.eqb (strOf n)) (map strOf (A ++ B)))) by (rewrite F; left; reflexivity).
    apply filter_In in I. destruct I as [I SS]. apply String.eqb_eq in SS. subst s. apply in_map_iff in I. destruct I as [m [M I]].
    apply in_app_or in I. destruct I as [I|I]; apply In_nth_error in I; destruct I as [k K].
    + exists k, m. assert (LK : k < List.length A) by (apply nth_error_Some; congruence). split; [rewrite E, nth_error_app1 by lia; exact K|]. split; [exact M|lia].
    + exists (S (List.length A) + k), m. split; [|split; [exact M|lia]]. rewrite E, nth_error_app2 by lia.
      replace (S (List.length A) + k - List.length A) with (S k) by lia. exact K.
  - intros [k [m [K [M NE]]]]. assert (I : In (strOf n) (filter (String.eqb (strOf n)) (map strOf (A ++ B)))).
    { apply filter_In. split; [|apply String.eqb_refl]. apply in_map_iff. exists m. split; [exact M|]. apply in_or_app. rewrite E in K.
      destruct (Nat.lt_trichotomy k (List.length A)) as [L|[->|L]]; [left|lia|right].
      - rewrite nth_error_app1 in K by lia. eapply nth_error_In. exact K.
      - rewrite nth_error_app2 in K by lia. replace (k - List.length A) with (S (k - List.length A - 1)) in K by lia. cbn in K. eapply nth_error_In. exact K. }
    destruct (filter (String.eqb (strOf n)) (map strOf (A ++ B))) as [|z l]; [destruct I|cbn; lia].
Qed.
Lemma prefixesOf_ok strOf modify names ps : modify = true \/ NoDup (map strOf names) -> List.length ps = List.length names ->
  (forall j s, nth_error ps j = Some s -> PrefixOf strOf names j s) -> prefixesOf strOf modify names = Ok ps.
Proof.
  intros M L P. unfold prefixesOf.
  assert (X : map (fun n => if 1 <? countStr (strOf n) (map strOf names) then (strOf n ++ "(" ++ typeName n ++ ")")%string else strOf n) names = ps).
  { apply nth_error_ext. intros j. destruct (Nat.lt_ge_cases j (List.length ps)) as [LJ|LJ].
    - destruct (nth_error ps j) as [s|] eqn:S; [|apply nth_error_None in S; lia]. destruct (P j s S) as [n [N C]]. rewrite nth_error_map, N. cbn [option_map].
      pose proof (countStr_alone strOf names j n N) as Q. destruct C as [[C ->]|[C ->]].
      + destruct (1 <? _); [|reflexivity]. destruct (proj1 Q eq_refl) as [k [m [K [E NE]]]]. exfalso. apply NE. exact (C k m K E).
      + rewrite (proj2 Q C). reflexivity.
    - rewrite (proj2 (nth_error_None _ _)) by (rewrite map_length; lia). symmetry. apply nth_error_None. lia. }
  destruct (nodupb (map strOf names)) eqn:N.
  - f_equal. rewrite <- X. apply map_ext_in. intros n I. apply In_nth_error in I. destruct I as [j J].
    pose proof (countStr_alone strOf names j n J) as Q. destruct (1 <? _); [|reflexivity]. destruct (proj1 Q eq_refl) as [k [m [K [E NE]]]]. exfalso. apply NE.
    apply nodupb_NoDup in N. rewrite NoDup_nth_error in N. apply N; [rewrite map_length; apply nth_error_Some; congruence|].
    rewrite !nth_error_map, K, J. cbn. congruence.
  - destruct M as [->|M]; [rewrite X; reflexivity|]. apply nodupb_NoDup in M. congruence.
Qed.
Lemma prefixesOf_err strOf names : ~ NoDup (map strOf names) -> prefixesOf strOf false names = Err ImproperObjectAction.
Proof.
  intros N. unfold prefixesOf. destruct (nodupb (map strOf names)) eqn:E; [|reflexivity]. apply nodupb_NoDup in E. contradiction.
Qed.
(** ** suffixes *)
Lemma Refers_state a id i : Refers a id i -> getIndex_state a id = a.
Proof.
  intros [L R]. destruct id; try reflexivity; cbn [getIndex_state]. destruct (alen a =? 0); [reflexivity|]. unfold ensure, namesCreated.
  destruct (astate a) eqn:E; [reflexivity|]. exfalso. unfold getNames in R. rewrite names_inv_ensure in R. unfold names_inv in R. rewrite E in R.
  apply nth_error_In in R. apply repeat_spec in R. discriminate.
Qed.
Lemma Refers_states a ids idx : Forall2 (Refers a) ids idx -> fold_left getIndex_state ids a = a.
Proof. induction 1 as [|id i ids idx H F IH]; [reflexivity|]. cbn [fold_left]. rewrite (Refers_state _ _ _ H). exact IH. Qed.
Lemma suffixOf_ok strOf a id i s : Inv a -> Refers a id i -> SuffixOf strOf a id i s -> suffixOf strOf a id = Ok s.
Proof.
  intros I [L R] [S|[E [z [-> ->]]]].
  - destruct id as [z|s'| |]; cbn [suffixOf]; try contradiction.
    + unfold namesCreated. destruct (astate a) eqn:E.
      * unfold getName. fold (getNames a). rewrite (getNames_length _ I). destruct R as [->| ->].
        -- replace (Z.of_nat i <? 0)%Z with false by lia. replace (Z.of_nat i <? 0)%Z with false by lia. rewrite Nat2Z.id, S. reflexivity.
        -- replace (Z.of_nat i - Z.of_nat (alen a) <? 0)%Z with true by lia. replace (Z.of_nat i - Z.of_nat (alen a) + Z.of_nat (alen a))%Z with (Z.of_nat i) by lia.
           replace (Z.of_nat i <? 0)%Z with false by lia. rewrite Nat2Z.id, S. reflexivity.
      * exfalso. unfold getNames in S. rewrite names_inv_ensure in S. unfold names_inv in S. rewrite E in S. apply nth_error_In in S. apply repeat_spec in S. discriminate.
    + rewrite S in R. injection R as ->. reflexivity.
  - cbn [suffixOf]. unfold namesCreated. rewrite E. reflexivity.
Qed.
Lemma rmapM_nth {A B} (f : A -> result B) : forall l l', List.length l = List.length l' ->
  (forall j x y, nth_error l j = Some x -> nth_error l' j = Some y -> f x = Ok y) -> rmapM f l = Ok l'.
Proof.
  induction l as [|x l IH]; intros [|y l'] L H; try discriminate; [reflexivity|]. cbn [rmapM]. rewrite (H 0 x y eq_refl eq_refl). cbn [rbind].
  rewrite (IH l'); [reflexivity| |]; [cbn in L; lia|]. intros j a b J K. exact (H (S j) a b J K).
Qed.
Lemma newNames_ok strOf a vids vi sfx ps : Inv a -> Forall2 (Refers a) vids vi -> 0 < List.length vids -> List.length sfx = List.length vids ->
  (1 < List.length vids -> forall j id i s, nth_error vids j = Some id -> nth_error vi j = Some i -> nth_error sfx j = Some s -> SuffixOf strOf a id i s) ->
  newNames strOf a vids ps = Ok (expandedNames ps sfx).
Proof.
  intros I RF LV LS H. unfold newNames. destruct (1 <? List.length vids) eqn:E.
  - apply Nat.ltb_lt in E. specialize (H E).
    assert (X : forall p, rmapM (fun id => rmap (fun s => (p ++ "_" ++ s)%string) (suffixOf strOf a id)) vids = Ok (map (fun s => (p ++ "_" ++ s)%string) sfx)).
    { intros p. apply rmapM_nth; [rewrite map_length; auto|]. intros j id y J Y. rewrite nth_error_map in Y. destruct (nth_error sfx j) as [s|] eqn:S; [|discriminate].
      injection Y as <-. destruct (Forall2_nth_l _ _ _ _ _ RF J) as [i [K R]]. rewrite (suffixOf_ok strOf a id i s I R (H j id i s J K S)). reflexivity. }
    rewrite (rmapM_nth _ ps (map (fun p => map (fun s => (p ++ "_" ++ s)%string) sfx) ps)); [|rewrite map_length; reflexivity|].
    + cbn [rmap rbind]. rewrite <- flat_map_concat_map. unfold expandedNames. destruct sfx as [|s [|s' sfx]]; cbn in LS; [lia|lia|reflexivity].
    + intros j x y J K. rewrite nth_error_map, J in K. injection K as <-. apply X.
  - apply Nat.ltb_ge in E. unfold expandedNames. destruct sfx as [|s [|s' sfx]]; cbn in LS; [lia|reflexivity|lia].
Qed.
