(** Proofs for C49: expanding what was collapsed. *)
From Verif Require Import Base NamesModel NamesSpec NamesProofs NamesIndexProofs TableModel TableSpec TableProofs TableOpsProofs FlatProofs MatchModel MatchSpec MatchProofs
  MergeModel BinOpProofs MergeLoopProofs MergeNamesProofs ReshapeModel ReshapeSpec ReshapeTextProofs ReshapeSplitProofs ReshapeCollapseProofs ReshapeExpandProofs ReshapeFillProofs ReshapeExpandMain.
Open Scope string_scope. Open Scope list_scope. Open Scope nat_scope.

Lemma others_last R n : n = R + 2 -> others [R; R + 1] n = seq 0 R.
Proof.
  intros ->. unfold others. rewrite seq_app, filter_app. cbn [seq].
  assert (E : filter (fun i => negb (mem i [R; R + 1])) (seq 0 R) = seq 0 R).
  { rewrite (filter_ext_in _ (fun _ => true)); [induction (seq 0 R) as [|x l IH]; [reflexivity|cbn; rewrite IH; reflexivity]|].
    intros i I. apply in_seq in I. apply negb_true_iff. apply mem_not_In. cbn. lia. }
  rewrite E. cbn [filter Nat.add].
  assert (E1 : mem R [R; R + 1] = true) by (apply mem_In; left; reflexivity).
  assert (E2 : mem (S R) [R; R + 1] = true) by (apply mem_In; right; left; lia).
  rewrite E1, E2. cbn. apply app_nil_r.
Qed.
Lemma pick_prefix l l' R : R = List.length l -> pick (l ++ l') (seq 0 R) = l.
Proof.
  intros ->. unfold pick. apply nth_error_ext_len; [rewrite map_length, seq_length; reflexivity|]. intros i. rewrite nth_error_map.
  destruct (Nat.lt_ge_cases i (List.length l)) as [L|L].
  - rewrite (nth_error_nth' (seq 0 _) 0), seq_nth by (rewrite ?seq_length; lia). cbn [option_map Nat.add]. rewrite app_nth1 by lia. symmetry. apply nth_error_nth'. exact L.
  - rewrite !(proj2 (nth_error_None _ _)) by (rewrite ?seq_length; lia). reflexivity.
Qed.
Lemma nth_after {A} (l : list A) x l' R d : R = List.length l -> nth R (l ++ x :: l') d = x.
Proof. intros ->. rewrite app_nth2, Nat.sub_diag by lia. reflexivity. Qed.
Lemma nth_after2 {A} (l : list A) x y l' R d : R = List.length l -> nth (R + 1) (l ++ x :: y :: l') d = y.
Proof. intros ->. rewrite app_nth2 by lia. replace (List.length l + 1 - List.length l) with 1 by lia. reflexivity. Qed.

Section Round.
Variable strOf : pval -> string.
Hypothesis strOf_str : forall s, strOf (PStr s) = s.
Variable t : table pval.
Hypothesis W : wf t.
Variables (ids : list ident) (idx : list nat) (nameFt valueFt : option string).
Hypothesis RF : Forall2 (Refers (tf t)) ids idx.
Hypothesis ND : NoDup idx.
Let W1 := proj1 W.
Let W2 := proj1 (proj2 W).
Let Ip := proj1 (proj2 (proj2 W)).
Let If_ := proj2 (proj2 (proj2 W)).
Let k := List.length idx.
Let rest := others idx (alen (tf t)).
Hypothesis NP : 0 < alen (tp t).
Hypothesis NK : 0 < k.
Hypothesis DN : DistinctNames (map (fun i => nth i (getNames (tf t)) None) rest ++ [nameFt; valueFt]).
Hypothesis PN : astate (tp t) = None \/ FullyNamed (tp t).
Hypothesis O1 : OneType (List.concat (map (fun r => pick r rest) (rows t))).
Hypothesis O2 : OneType (List.concat (map (fun r => pick r idx) (rows t))).
(** the collapsed features are named; the retained values tell the points apart *)
Variable cnames : list string.
Hypothesis CN : Forall2 (fun i s => nth_error (getNames (tf t)) i = Some (Some s)) idx cnames.
Hypothesis NaNfree : forall r, In r (rows t) -> ~ In PNaN (pick r rest).
Hypothesis UNI : forall i j a b, i < j -> nth_error (rows t) i = Some a -> nth_error (rows t) j = Some b -> ~ SameValues (pick a rest) (pick b rest).

Let R := List.length rest.
Lemma cnames_len : List.length cnames = k.
Proof. clear - CN. unfold k. induction CN; cbn; auto. Qed.
Lemma cname q i : nth_error idx q = Some i -> exists s, nth_error cnames q = Some s /\ nth_error (getNames (tf t)) i = Some (Some s) /\ nameOrIndex (tf t) i = PStr s.
Proof.
  intros Q. destruct (Forall2_nth_l _ _ _ _ _ CN Q) as [s [S E]]. exists s. split; [exact S|]. split; [exact E|]. unfold nameOrIndex. rewrite (nth_error_nth _ _ _ E). reflexivity.
Qed.
Lemma cnames_distinct a b s : nth_error cnames a = Some s -> nth_error cnames b = Some s -> a = b.
Proof.
  intros A B. assert (LA : a < List.length idx) by (fold k; rewrite <- cnames_len; apply nth_error_Some; congruence).
  assert (LB : b < List.length idx) by (fold k; rewrite <- cnames_len; apply nth_error_Some; congruence).
  destruct (nth_error idx a) as [i|] eqn:I; [|apply nth_error_None in I; lia]. destruct (nth_error idx b) as [j|] eqn:J; [|apply nth_error_None in J; lia].
  destruct (cname a i I) as [x [X [NX _]]]. destruct (cname b j J) as [y [Y [NY _]]]. rewrite A in X. rewrite B in Y. injection X as <-. injection Y as <-.
  pose proof (Inv_names_distinct _ If_ _ _ _ NX NY). subst j. rewrite NoDup_nth_error in ND. apply ND; [exact LA|congruence].
Qed.
Lemma cnames_NoDup : NoDup cnames.
Proof. apply NoDup_nth_error. intros i j L E. destruct (nth_error cnames i) as [s|] eqn:S; [|apply nth_error_None in S; lia]. symmetry in E. exact (cnames_distinct i j s S E). Qed.

Theorem round_trip : exists t1, collapseFeatures strOf t ids nameFt valueFt = (t1, Ok tt) /\
  forall nameId valueId modify, Refers (tf t1) nameId R -> Refers (tf t1) valueId (R + 1) ->
  exists t2, expandFeatures strOf t1 nameId [valueId] modify = (t2, Ok tt) /\ wf t2 /\
    alen (tp t2) = alen (tp t) /\
    getNames (tf t2) = map (fun i => nth i (getNames (tf t)) None) (rest ++ idx) /\
    (forall p r, nth_error (rows t) p = Some r -> nth_error (rows t2) p = Some (pick r (rest ++ idx))) /\
    (forall p s, nth_error (getNames (tp t)) p = Some (Some s) -> nth_error (getNames (tp t2)) p = Some (Some (s ++ "_0")%string)).
Proof.
  assert (O3 : OneType (map (nameOrIndex (tf t)) idx)).
  { right. right. right. right. intros v I. apply in_map_iff in I. destruct I as [i [<- I]]. apply In_nth_error in I. destruct I as [q Q]. destruct (cname q i Q) as [s [_ [_ ->]]]. eauto. }
  destruct (collapse_ok strOf t W ids idx nameFt valueFt RF ND NP DN PN O1 O2 O3) as [t1 [E1 [Wt1 [L1 [N1 [D1 [P1 S1]]]]]]].
  exists t1. split; [exact E1|]. intros nameId valueId modify RN RVal.
  fold k in L1, D1, P1. fold rest in N1, D1.
  assert (LF1 : alen (tf t1) = R + 2).
  { rewrite <- (getNames_length _ (proj2 (proj2 (proj2 Wt1)))), N1, app_length, map_length. reflexivity. }
  assert (LR1 : List.length (rows t1) = alen (tp t) * k) by (rewrite (proj1 Wt1), L1; reflexivity).
  (* a point of the collapsed object *)
  assert (AT : forall m r, nth_error (rows t1) m = Some r -> exists row i s, nth_error (rows t) (m / k) = Some row /\ nth_error idx (m mod k) = Some i /\
     nth_error cnames (m mod k) = Some s /\ r = pick row rest ++ [PStr s; nth i row PNaN]).
  { intros m r M. assert (LM : m < alen (tp t) * k) by (rewrite <- LR1; apply nth_error_Some; congruence).
    assert (LQ : m mod k < k) by (apply Nat.mod_upper_bound; lia). assert (LP : m / k < alen (tp t)) by (apply Nat.div_lt_upper_bound; lia).
    destruct (nth_error (rows t) (m / k)) as [row|] eqn:ER; [|apply nth_error_None in ER; rewrite W1 in ER; lia].
    destruct (nth_error idx (m mod k)) as [i|] eqn:EI; [|apply nth_error_None in EI; unfold k in *; lia].
    destruct (cname _ _ EI) as [s [S [_ NI]]]. pose proof (D1 _ _ _ _ ER EI) as X. rewrite NI in X.
    replace (m / k * k + m mod k) with m in X by (rewrite (Nat.div_mod m k) at 1 by lia; lia). rewrite M in X. injection X as ->.
    exists row, i, s. auto. }
  assert (AT' : forall p row q i s, nth_error (rows t) p = Some row -> nth_error idx q = Some i -> nth_error cnames q = Some s ->
     nth_error (rows t1) (p * k + q) = Some (pick row rest ++ [PStr s; nth i row PNaN])).
  { intros p row q i s P Q S. rewrite (D1 _ _ _ _ P Q). destruct (cname q i Q) as [s' [S' [_ ->]]]. rewrite S in S'. injection S' as <-. reflexivity. }
  assert (LPR : forall row, List.length (pick row rest) = R) by (intros row; unfold pick; apply map_length).
  assert (OL : others [R; R + 1] (alen (tf t1)) = seq 0 R) by (apply others_last; exact LF1).
  assert (KEY : forall row x y, pick (pick row rest ++ [x; y]) (others [R; R + 1] (alen (tf t1))) = pick row rest) by (intros row x y; rewrite OL; apply pick_prefix; rewrite LPR; reflexivity).
  assert (NAME : forall row x y, nth R (pick row rest ++ [x; y]) PNaN = x) by (intros row x y; apply nth_after; rewrite LPR; reflexivity).
  assert (VAL : forall row x y, pick (pick row rest ++ [x; y]) [R + 1] = [y]) by (intros row x y; unfold pick at 1; cbn [map]; rewrite nth_after2 by (rewrite LPR; reflexivity); reflexivity).
  assert (Idx0 : exists i0, nth_error idx 0 = Some i0) by (unfold k in NK; destruct idx as [|i0 l]; [cbn in NK; lia|exists i0; reflexivity]).
  destruct Idx0 as [i0 I0].
  assert (Refl : forall row, In row (rows t) -> SameValues (pick row rest) (pick row rest)).
  { intros row I. apply tupEq_spec, tupEq_refl, NaNfree, I. }
  assert (UNI' : forall i j a b, nth_error (rows t) i = Some a -> nth_error (rows t) j = Some b -> SameValues (pick a rest) (pick b rest) -> i = j).
  { intros i j a b A B H. destruct (Nat.lt_trichotomy i j) as [L|[L|L]]; [|exact L|]; exfalso; [exact (UNI i j a b L A B H)|exact (UNI j i b a L B A (SameValues_sym _ _ H))]. }
  pose (pos := map (fun p => p * k) (seq 0 (alen (tp t)))).
  pose (npos := seq 0 k).
  assert (POS : forall g p, nth_error pos g = Some p <-> g < alen (tp t) /\ p = g * k).
  { intros g p. unfold pos. rewrite nth_error_map. destruct (Nat.lt_ge_cases g (alen (tp t))) as [L|L].
    - rewrite (nth_error_nth' (seq 0 _) 0), seq_nth by (rewrite ?seq_length; lia). cbn. split; [intros E; injection E as <-; auto|intros [_ ->]; reflexivity].
    - rewrite (proj2 (nth_error_None _ _)) by (rewrite seq_length; lia). cbn. split; [discriminate|lia]. }
  assert (NPOS : forall g p, nth_error npos g = Some p <-> g < k /\ p = g).
  { intros g p. unfold npos. destruct (Nat.lt_ge_cases g k) as [L|L].
    - rewrite (nth_error_nth' (seq 0 _) 0), seq_nth by (rewrite ?seq_length; lia). cbn. split; [intros E; injection E as <-; auto|intros [_ ->]; reflexivity].
    - rewrite (proj2 (nth_error_None _ _)) by (rewrite seq_length; lia). cbn. split; [discriminate|lia]. }
  assert (DM : forall p, p * k / k = p /\ (p * k) mod k = 0).
  { intros p. rewrite <- (Nat.add_0_r (p * k)). apply divmod_at. lia. }
  assert (FP : Firsts SameValues (map (fun r => pick r (others [R; R + 1] (alen (tf t1)))) (rows t1)) pos).
  { split; [|split].
    - intros g p G. apply POS in G. destruct G as [LG ->].
      destruct (nth_error (rows t) g) as [row|] eqn:ER; [|apply nth_error_None in ER; rewrite W1 in ER; lia].
      destruct (cname 0 i0 I0) as [s0 [S0 _]]. pose proof (AT' g row 0 i0 s0 ER I0 S0) as X. rewrite Nat.add_0_r in X.
      exists (pick row rest). split; [rewrite nth_error_map, X; cbn [option_map]; rewrite KEY; reflexivity|].
      intros q y LQ Y H. rewrite nth_error_map in Y. destruct (nth_error (rows t1) q) as [r|] eqn:EQ; [|discriminate]. injection Y as <-.
      destruct (AT q r EQ) as [row' [i [s [ER' [_ [_ ->]]]]]]. rewrite KEY in H. pose proof (UNI' _ _ _ _ ER ER' H) as X2.
      assert (q / k < g) by (apply Nat.div_lt_upper_bound; lia). lia.
    - intros g h p q L G H. apply POS in G. apply POS in H. destruct G as [_ ->], H as [_ ->]. apply Nat.mul_lt_mono_pos_r; lia.
    - intros q y Y. rewrite nth_error_map in Y. destruct (nth_error (rows t1) q) as [r|] eqn:EQ; [|discriminate]. injection Y as <-.
      destruct (AT q r EQ) as [row [i [s [ER [_ [_ ->]]]]]]. exists (q / k), (q / k * k), (pick row rest).
      assert (q / k < alen (tp t)) by (rewrite <- W1; apply nth_error_Some; congruence).
      split; [apply POS; auto|]. destruct (cname 0 i0 I0) as [s0 [S0 _]]. pose proof (AT' _ row 0 i0 s0 ER I0 S0) as X. rewrite Nat.add_0_r in X.
      split; [rewrite nth_error_map, X; cbn [option_map]; rewrite KEY; reflexivity|]. rewrite KEY. apply Refl. eapply nth_error_In. exact ER. }
  assert (FN : Firsts Same (map (fun r => nth R r PNaN) (rows t1)) npos).
  { assert (R0 : exists row0, nth_error (rows t) 0 = Some row0) by (destruct (nth_error (rows t) 0) as [x|] eqn:X; [eauto|apply nth_error_None in X; rewrite W1 in X; lia]).
    destruct R0 as [row0 R0].
    split; [|split].
    - intros g p G. apply NPOS in G. destruct G as [LG ->].
      destruct (nth_error idx g) as [i|] eqn:EI; [|apply nth_error_None in EI; unfold k in *; lia]. destruct (cname g i EI) as [s [S _]].
      exists (PStr s). pose proof (AT' 0 row0 g i s R0 EI S) as X. cbn [Nat.mul Nat.add] in X. split; [rewrite nth_error_map, X; cbn [option_map]; rewrite NAME; reflexivity|].
      intros q y LQ Y H. rewrite nth_error_map in Y. destruct (nth_error (rows t1) q) as [r|] eqn:EQ; [|discriminate]. injection Y as <-.
      destruct (AT q r EQ) as [row' [i' [s' [_ [_ [S' ->]]]]]]. rewrite NAME in H. rewrite Nat.mod_small in S' by lia.
      apply pyEq_spec in H. cbn in H. apply String.eqb_eq in H. subst s'. pose proof (cnames_distinct _ _ _ S S'). lia.
    - intros g h p q L G H. apply NPOS in G. apply NPOS in H. lia.
    - intros q y Y. rewrite nth_error_map in Y. destruct (nth_error (rows t1) q) as [r|] eqn:EQ; [|discriminate]. injection Y as <-.
      destruct (AT q r EQ) as [row [i [s [ER [EI [S ->]]]]]]. exists (q mod k), (q mod k), (PStr s). assert (q mod k < k) by (apply Nat.mod_upper_bound; lia).
      split; [apply NPOS; auto|]. split; [|rewrite NAME; apply pyEq_spec; cbn; apply String.eqb_refl].
      pose proof (AT' 0 row0 _ i s R0 EI S) as X. cbn [Nat.mul Nat.add] in X. rewrite nth_error_map, X. cbn [option_map]. rewrite NAME. reflexivity. }
  assert (NAMES : map (fun q => nth R (nth q (rows t1) []) PNaN) npos = map PStr cnames).
  { apply nth_error_ext_len; [unfold npos; rewrite !map_length, seq_length, cnames_len; reflexivity|]. intros g. rewrite !nth_error_map.
    destruct (Nat.lt_ge_cases g k) as [L|L].
    - rewrite (proj2 (NPOS g g)) by auto. cbn [option_map].
      destruct (nth_error idx g) as [i|] eqn:EI; [|apply nth_error_None in EI; unfold k in *; lia]. destruct (cname g i EI) as [s [S _]]. rewrite S. cbn [option_map].
      assert (R0 : exists row0, nth_error (rows t) 0 = Some row0) by (destruct (nth_error (rows t) 0) as [x|] eqn:X; [eauto|apply nth_error_None in X; rewrite W1 in X; lia]).
      destruct R0 as [row0 R0]. pose proof (AT' 0 row0 g i s R0 EI S) as X. cbn [Nat.mul Nat.add] in X. rewrite (nth_error_nth _ _ _ X), NAME. reflexivity.
    - rewrite !(proj2 (nth_error_None _ _)); [reflexivity|rewrite cnames_len; lia|unfold npos; rewrite seq_length; lia]. }
  assert (MAPS : map strOf (map PStr cnames) = cnames) by (rewrite map_map; rewrite (map_ext _ (fun x => x)) by exact strOf_str; apply map_id).
  assert (KEPT : map (fun i => nth i (getNames (tf t1)) None) (others [R; R + 1] (alen (tf t1))) = map (fun i => nth i (getNames (tf t)) None) rest).
  { rewrite OL, N1. apply nth_error_ext_len; [rewrite !map_length, seq_length; reflexivity|]. intros i. rewrite nth_error_map.
    destruct (Nat.lt_ge_cases i R) as [L|L].
    - rewrite (nth_error_nth' (seq 0 _) 0), seq_nth by (rewrite ?seq_length; lia). cbn [option_map Nat.add]. rewrite app_nth1 by (rewrite map_length; exact L).
      symmetry. apply nth_error_nth'. rewrite map_length. exact L.
    - rewrite !(proj2 (nth_error_None _ _)); [reflexivity|rewrite map_length; exact L|rewrite seq_length; exact L]. }
  assert (LKept : List.length (map (fun i => nth i (getNames (tf t)) None) rest) = R) by apply map_length.
  assert (IDXN : map Some cnames = map (fun i => nth i (getNames (tf t)) None) idx).
  { apply nth_error_ext_len; [rewrite !map_length; exact cnames_len|]. intros q. rewrite !nth_error_map. destruct (nth_error idx q) as [i|] eqn:Q.
    - destruct (cname q i Q) as [s [S [N _]]]. rewrite S. cbn [option_map]. rewrite (nth_error_nth _ _ None N). reflexivity.
    - cbn. rewrite (proj2 (nth_error_None cnames q)); [reflexivity|]. rewrite cnames_len. apply nth_error_None. exact Q. }
  destruct (expand_ok strOf t1 Wt1 nameId R [valueId] [R + 1] modify RN) with (pos := pos) (npos := npos) (prefixes := cnames) (suffixes := [""])
    as [t2 [E2 [Wt2 [L2 [N2 [D2 P2]]]]]].
  - constructor; [exact RVal|constructor].
  - constructor; [intros [X|[]]; lia|constructor; [intros []|constructor]].
  - intros r I. apply In_nth_error in I. destruct I as [m M]. destruct (AT m r M) as [row [i [s [ER [_ [_ ->]]]]]]. rewrite KEY, NAME. split; [|discriminate].
    apply NaNfree. eapply nth_error_In. exact ER.
  - exact FP.
  - exact FN.
  - intros i j a b L A B [H1 H2]. destruct (AT i a A) as [ra [ia [sa [RA [_ [SA ->]]]]]]. destruct (AT j b B) as [rb [ib [sb [RB [_ [SB ->]]]]]].
    rewrite !KEY in H1. rewrite !NAME in H2. apply pyEq_spec in H2. cbn in H2. apply String.eqb_eq in H2. subst sb.
    pose proof (UNI' _ _ _ _ RA RB H1) as X. pose proof (cnames_distinct _ _ _ SA SB) as Y.
    rewrite (Nat.div_mod i k), (Nat.div_mod j k) in L by lia. rewrite X, Y in L. lia.
  - cbn. lia.
  - rewrite OL, seq_length. lia.
  - unfold npos. rewrite seq_length. exact cnames_len.
  - intros j s S. rewrite NAMES. exists (PStr s). split; [rewrite nth_error_map, S; reflexivity|]. left. rewrite strOf_str. split; [|reflexivity].
    intros a m A B. rewrite nth_error_map in A. destruct (nth_error cnames a) as [x|] eqn:X; [|discriminate]. injection A as <-. rewrite strOf_str in B. subst x.
    exact (cnames_distinct a j s X S).
  - right. rewrite NAMES, MAPS. exact cnames_NoDup.
  - reflexivity.
  - cbn. lia.
  - rewrite KEPT. rewrite firstn_all2, skipn_all2 by (rewrite LKept; lia). rewrite app_nil_r. unfold expandedNames. rewrite IDXN, <- map_app.
    apply DistinctNames_Distinct. intros a b s A B. rewrite nth_error_map in A, B.
    destruct (nth_error (rest ++ idx) a) as [i|] eqn:EA; [|discriminate]. destruct (nth_error (rest ++ idx) b) as [j|] eqn:EB; [|discriminate].
    injection A as A. injection B as B.
    assert (LT : forall i, In i (rest ++ idx) -> i < alen (tf t)).
    { intros x X. apply in_app_or in X. destruct X as [X|X]; [|exact (Refers_lt _ _ _ RF x X)]. apply filter_In in X. destruct X as [X _]. apply in_seq in X. lia. }
    assert (NDA : NoDup (rest ++ idx)).
    { apply NoDup_app_intro; [apply NoDup_filter, seq_NoDup|exact ND|]. intros x X Y. apply filter_In in X. destruct X as [_ X]. apply negb_true_iff, mem_not_In in X. contradiction. }
    pose proof (LT i (nth_error_In _ _ EA)) as LI. pose proof (LT j (nth_error_In _ _ EB)) as LJ.
    assert (i = j).
    { apply (Inv_names_distinct _ If_ i j s).
      - rewrite (nth_error_nth' _ None) by (rewrite (getNames_length _ If_); exact LI). rewrite A. reflexivity.
      - rewrite (nth_error_nth' _ None) by (rewrite (getNames_length _ If_); exact LJ). rewrite B. reflexivity. }
    subst j. rewrite NoDup_nth_error in NDA. apply NDA; [apply nth_error_Some; congruence|congruence].
  - exists t2. split; [exact E2|]. split; [exact Wt2|]. split; [rewrite L2; unfold pos; rewrite map_length, seq_length; reflexivity|]. split; [|split].
    + rewrite N2, KEPT. rewrite firstn_all2, skipn_all2 by (rewrite LKept; lia). rewrite app_nil_r. unfold expandedNames. rewrite IDXN, <- map_app. reflexivity.
    + intros p r P. assert (LP : p < alen (tp t)) by (rewrite <- W1; apply nth_error_Some; congruence).
      destruct (cname 0 i0 I0) as [s0 [S0 _]]. pose proof (AT' p r 0 i0 s0 P I0 S0) as X. rewrite Nat.add_0_r in X.
      destruct (D2 p (p * k) _ (proj2 (POS p (p * k)) (conj LP eq_refl)) X) as [cells [C1 [C2 C3]]].
      rewrite KEY in C1. rewrite firstn_all2, skipn_all2 in C1 by (rewrite LPR; lia). rewrite app_nil_r in C1. rewrite C1. f_equal. unfold pick at 2. rewrite map_app. f_equal.
      assert (CE : cells = map (fun i => [nth i r PNaN]) idx).
      { apply nth_error_ext_len; [rewrite C2, map_length; unfold npos; rewrite seq_length; reflexivity|]. intros q. rewrite nth_error_map.
        destruct (nth_error idx q) as [i|] eqn:Q.
        - assert (LQ : q < k) by (apply nth_error_Some; congruence). destruct (cname q i Q) as [s [S _]].
          assert (R0 : exists row0, nth_error (rows t) 0 = Some row0) by (destruct (nth_error (rows t) 0) as [x|] eqn:X0; [eauto|apply nth_error_None in X0; rewrite W1 in X0; lia]).
          destruct R0 as [row0 R0]. pose proof (AT' 0 row0 q i s R0 Q S) as Y. cbn [Nat.mul Nat.add] in Y.
          destruct (C3 q q _ (proj2 (NPOS q q) (conj LQ eq_refl)) Y) as [C4 _]. pose proof (AT' p r q i s P Q S) as Z.
          rewrite (C4 _ (nth_error_In _ _ Z)); [cbn [option_map]; rewrite VAL; reflexivity| |].
          + rewrite !KEY. apply Refl. eapply nth_error_In. exact P.
          + rewrite !NAME. apply pyEq_spec. cbn. apply String.eqb_refl.
        - intros H. exfalso. apply nth_error_None in Q. rewrite C2 in H. unfold npos in H. rewrite seq_length in H. unfold k in H. lia. }
      rewrite CE. generalize idx as il. clear. intros il. induction il as [|i l IH]; [reflexivity|]. cbn. rewrite IH. reflexivity.
    + intros p s N. assert (LP : p < alen (tp t)) by (rewrite <- (getNames_length _ Ip); apply nth_error_Some; congruence).
      rewrite (P2 p (p * k) (proj2 (POS p (p * k)) (conj LP eq_refl))). pose proof (P1 p 0 s N NK) as X. rewrite Nat.add_0_r in X. exact X.
Qed.
End Round.
