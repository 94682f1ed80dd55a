(** Property C71: splitByParsing, splitByCollapsingFeatures and
    combineByExpandingFeatures of Sparse objects.  Definitions used in the
    statements: SparseReshapeSpec.v (Holds, Placed, ZerosLast, SelfInverse),
    ReshapeSpec.v, SparseSpec.v (sinv, entsOK, val), TableSpec.v. *)
From Verif Require Import Base NamesModel NamesSpec NamesProofs TableModel TableSpec TableProofs TableOps MatchModel MatchSpec MatchProofs
  SparseModel SparseSpec MergeModel MergeLoopProofs MergeProps ReshapeModel ReshapeSpec ReshapeTextProofs ReshapeSplitProofs ReshapeCollapseProofs ReshapeExpandProofs ReshapeFillProofs ReshapeExpandMain ReshapeProps
  SparseReshapeModel SparseReshapeSpec SparseReshapeProofs SparseReshapeSplit SparseReshapeCollapse SparseReshapeCollapseMain SparseReshapeExpand.
From Coq Require Import Sorted List. Import ListNotations.
Open Scope string_scope. Open Scope list_scope. Open Scope nat_scope.
Notation val := (SparseSpec.val (PInt 0)).

(** ** splitByParsing *)
(** Text split by a separator, a position or a list of them, in an object that can
    hold text: the same names and values as C49 says of the other types. *)
Theorem C71_split_text : forall strOf o (t : table pval) id i r names parts, wf t -> Holds o t -> entsOK (PInt 0) (oMat o) -> oKind o = 4 ->
  Refers (tf t) id i -> 0 < alen (tp t) -> (forall f, r <> RFun f) ->
  List.length parts = alen (tp t) ->
  (forall p v, cell t p i = Some v -> exists ps, nth_error parts p = Some ps /\ Pieces r v ps /\ List.length ps = List.length names) ->
  DistinctNames (replaced i names (getNames (tf t))) ->
  exists o' t', splitByParsingS strOf o id r names = (o', Ok tt) /\ Holds o' t' /\ Placed (oMat o') /\ wf t' /\ tp t' = tp t /\
    getNames (tf t') = replaced i names (getNames (tf t)) /\
    forall p row, nth_error (rows t) p = Some row -> exists ps, nth_error parts p = Some ps /\ nth_error (rows t') p = Some (replaced i ps row).
Proof.
  intros strOf o t id i r names parts W H E K RF NP NF LP PP DN.
  destruct (split_ok t W id i r names RF parts NP LP PP DN) as [t' [D [W' [A [B C]]]]].
  destruct (split_refines strOf o t W H E NP id i r names RF t' D (or_introl (conj K (or_introl NF)))) as [o' [X [Y [Z _]]]].
  exists o', t'. auto 10.
Qed.
(** Any rule: whenever the other types split, a Sparse object does and has the same
    names and values, if it can hold any value and each new feature is of one
    type, or everything is a float. *)
Theorem C71_split_partial : forall strOf o (t : table pval) id i r names t', wf t -> Holds o t -> entsOK (PInt 0) (oMat o) -> 0 < alen (tp t) ->
  Refers (tf t) id i -> splitByParsing t id r names = (t', Ok tt) ->
  (oKind o = 4 /\ ((forall f, r <> RFun f) \/ forall j, j < List.length names -> OneType (column t' (i + j))) \/
   oKind o = 2 /\ (forall e, In e (ents (oMat o)) -> IsFloat (ev e)) /\ (forall p j v, j < List.length names -> cell t' p (i + j) = Some v -> IsFloat v)) ->
  exists o', splitByParsingS strOf o id r names = (o', Ok tt) /\ Holds o' t' /\ Placed (oMat o').
Proof.
  intros strOf o t id i r names t' W H E NP RF D TY. destruct (split_refines strOf o t W H E NP id i r names RF t' D TY) as [o' [A [B [C _]]]]. eauto.
Qed.
(** The result (accepted, or which exception) and the names are those of the other
    types, always. *)
Theorem C71_split_same_result : forall strOf o (t : table pval) id i r names, wf t -> Holds o t -> entsOK (PInt 0) (oMat o) -> 0 < alen (tp t) -> Refers (tf t) id i ->
  snd (splitByParsingS strOf o id r names) = snd (splitByParsing t id r names) /\
  oPts (fst (splitByParsingS strOf o id r names)) = tp (fst (splitByParsing t id r names)) /\
  oFts (fst (splitByParsingS strOf o id r names)) = tf (fst (splitByParsing t id r names)).
Proof. intros strOf o t id i r names W H E NP RF. exact (same_errors strOf o t W H E NP id i r names RF). Qed.
(** A value with another number of pieces than names: refused, nothing changed. *)
Theorem C71_split_refused : forall strOf o (t : table pval) id i r names, wf t -> Holds o t -> entsOK (PInt 0) (oMat o) -> Refers (tf t) id i -> (forall l, r <> RList l) ->
  (exists p v, cell t p i = Some v /\ forall ps, Pieces r v ps -> List.length ps <> List.length names) ->
  exists e, splitByParsingS strOf o id r names = (o, Err e).
Proof. intros strOf o t id i r names W H E RF NL. apply (refusedS strOf o t W H E id i r names RF). destruct r; cbn; auto. exact (NL l eq_refl). Qed.

(** ** splitByCollapsingFeatures *)
(** Right under three conditions: no collapsed value is zero, in every point the
    zeros among the values kept come last, and the features are given in an
    order that undoes itself ([SelfInverse]).  No condition on types. *)
Theorem C71_collapse_partial : forall o (t : table pval) ids idx nameFt valueFt, wf t -> Holds o t -> sinv (PInt 0) (oMat o) ->
  Forall2 (Refers (tf t)) ids idx -> NoDup idx ->
  let rest := others idx (alen (tf t)) in
  let k := List.length idx in
  0 < alen (tp t) -> 0 < k ->
  DistinctNames (map (fun i => nth i (getNames (tf t)) None) rest ++ [nameFt; valueFt]) ->
  (astate (tp t) = None \/ FullyNamed (tp t)) ->
  (forall p i v, In i idx -> cell t p i = Some v -> v <> PInt 0) ->
  (forall row, In row (rows t) -> ZerosLast (pick row rest)) -> SelfInverse idx ->
  exists o' t', collapseFeaturesS o ids nameFt valueFt = (o', Ok tt) /\ Holds o' t' /\ wf t' /\ Placed (oMat o') /\
    alen (tp t') = alen (tp t) * k /\ getNames (tf t') = map (fun i => nth i (getNames (tf t)) None) rest ++ [nameFt; valueFt] /\
    (forall p row q i, nth_error (rows t) p = Some row -> nth_error idx q = Some i ->
       nth_error (rows t') (p * k + q) = Some (pick row rest ++ [nameCell (getNames (tf t)) i; nth i row PNaN])) /\
    (forall p q s, nth_error (getNames (tp t)) p = Some (Some s) -> q < k -> nth_error (getNames (tp t')) (p * k + q) = Some (Some (s ++ "_" ++ decStr q)%string)) /\
    (astate (tp t) = None -> astate (tp t') = None).
Proof.
  intros o t ids idx nameFt valueFt W H SI RF ND rest k NP K DN PN NZ ZL SE. setoid_rewrite <- (nameOrIndex_cell (tf t)).
  exact (collapse_right o t W H SI ids idx nameFt valueFt RF ND NP K DN PN NZ ZL SE).
Qed.
(** What it does without the last two conditions: the kept values other than zero
    move to the front; the value next to the name of feature number q is the one
    of the feature whose rank is the place where the feature of rank q is listed. *)
Theorem C71_collapse_does : forall o (t : table pval) ids idx nameFt valueFt, wf t -> Holds o t -> sinv (PInt 0) (oMat o) ->
  Forall2 (Refers (tf t)) ids idx -> NoDup idx ->
  let rest := others idx (alen (tf t)) in
  let k := List.length idx in
  0 < alen (tp t) -> 0 < k ->
  DistinctNames (map (fun i => nth i (getNames (tf t)) None) rest ++ [nameFt; valueFt]) ->
  (astate (tp t) = None \/ FullyNamed (tp t)) ->
  (forall p i v, In i idx -> cell t p i = Some v -> v <> PInt 0) ->
  exists o', collapseFeaturesS o ids nameFt valueFt = (o', Ok tt) /\ Placed (oMat o') /\
    forall p row q i, nth_error (rows t) p = Some row -> nth_error idx q = Some i ->
      (forall c, c < List.length rest -> val (oMat o') (p * k + q) c = nth c (nonzeros (pick row rest)) (PInt 0)) /\
      val (oMat o') (p * k + q) (List.length rest) = nameCell (getNames (tf t)) i /\
      (forall m j i', nth_error idx m = Some j -> rank idx j = q -> In i' idx -> rank idx i' = m ->
         val (oMat o') (p * k + q) (S (List.length rest)) = nth i' row PNaN).
Proof.
  intros o t ids idx nameFt valueFt W H SI RF ND rest k NP K DN PN NZ.
  destruct (collapse_general o t W H SI ids idx nameFt valueFt RF ND NP K DN PN NZ) as [o' [A [_ [_ [B [_ [_ [_ [_ [_ [_ [_ C]]]]]]]]]]]].
  exists o'. split; [exact A|]. split; [exact B|]. intros p row q i P Q. rewrite <- nameOrIndex_cell. exact (C p row q i P Q).
Qed.
(** Every increasing and every decreasing order undoes itself. *)
Theorem C71_collapse_orders : forall l, StronglySorted lt l \/ StronglySorted gt l -> SelfInverse l.
Proof. intros l [S|S]; [exact (SelfInverse_increasing l S)|exact (SelfInverse_decreasing l S)]. Qed.
(** One zero among the values to collapse: an exception, whatever the object.  The
    names and values stay (the entries may be sorted). *)
Theorem C71_collapse_zero : forall o (t : table pval) ids idx nameFt valueFt, wf t -> Holds o t -> sinv (PInt 0) (oMat o) ->
  Forall2 (Refers (tf t)) ids idx -> NoDup idx -> 0 < alen (tp t) ->
  forall p i, cell t p i = Some (PInt 0) -> In i idx ->
  exists e o', collapseFeaturesS o ids nameFt valueFt = (o', Err e) /\ Holds o' t /\ sinv (PInt 0) (oMat o').
Proof.
  intros o t ids idx nameFt valueFt W H SI RF ND NP p i C I. destruct (collapse_zero o t W H SI ids idx nameFt valueFt RF ND NP p i C I) as [e [s' [A [B [C1 [C2 C3]]]]]].
  exists e. eexists. split; [exact A|]. split; [|exact B]. destruct H as [_ [_ [R1 [R2 R3]]]]. split; [reflexivity|]. split; [reflexivity|]. cbn [oMat].
  split; [congruence|]. split; [congruence|]. intros a b L M. rewrite C3. apply R3; assumption.
Qed.

(** ** combineByExpandingFeatures *)
(** As C49, wherever the feature of names stands as long as the features have
    names. *)
Theorem C71_expand_partial : forall strOf o (t : table pval) nameId ni vids vi modify pos npos prefixes suffixes, wf t -> Holds o t -> entsOK (PInt 0) (oMat o) ->
  Refers (tf t) nameId ni -> Forall2 (Refers (tf t)) vids vi -> NoDup (ni :: vi) ->
  let rest := others (ni :: vi) (alen (tf t)) in
  let key r := pick r rest in
  let name r := nth ni r PNaN in
  let names := map (fun q => name (nth q (rows t) [])) npos in
  let kept := map (fun i => nth i (getNames (tf t)) None) rest in
  let names' := firstn ni kept ++ map Some (expandedNames prefixes suffixes) ++ skipn ni kept in
  (forall r, In r (rows t) -> ~ In PNaN (key r) /\ name r <> PNaN) ->
  Firsts SameValues (map key (rows t)) pos -> Firsts Same (map name (rows t)) npos ->
  (forall i j a b, i < j -> nth_error (rows t) i = Some a -> nth_error (rows t) j = Some b -> ~ (SameValues (key a) (key b) /\ Same (name a) (name b))) ->
  0 < List.length vids -> (ni <= List.length rest \/ astate (tf t) <> None) ->
  List.length prefixes = List.length npos -> (forall j s, nth_error prefixes j = Some s -> PrefixOf strOf names j s) ->
  (modify = true \/ NoDup (map strOf names)) ->
  List.length suffixes = List.length vids ->
  (1 < List.length vids -> forall j id i s, nth_error vids j = Some id -> nth_error vi j = Some i -> nth_error suffixes j = Some s -> SuffixOf strOf (tf t) id i s) ->
  DistinctNames names' ->
  exists o' t', expandFeaturesS strOf o nameId vids modify = (o', Ok tt) /\ Holds o' t' /\ wf t' /\ Placed (oMat o') /\
    alen (tp t') = List.length pos /\ getNames (tf t') = names' /\
    (forall g p r, nth_error pos g = Some p -> nth_error (rows t) p = Some r -> exists cells,
       nth_error (rows t') g = Some (firstn ni (key r) ++ List.concat cells ++ skipn ni (key r)) /\ List.length cells = List.length npos /\
       forall j q nr, nth_error npos j = Some q -> nth_error (rows t) q = Some nr ->
         (forall v, In v (rows t) -> SameValues (key v) (key r) -> Same (name v) (name nr) -> nth_error cells j = Some (pick v vi)) /\
         ((forall v, In v (rows t) -> ~ (SameValues (key v) (key r) /\ Same (name v) (name nr))) -> nth_error cells j = Some (repeat PNaN (List.length vi)))) /\
    (forall g p, nth_error pos g = Some p -> nth_error (getNames (tp t')) g = nth_error (getNames (tp t)) p).
Proof.
  intros strOf o t nameId ni vids vi modify pos npos prefixes suffixes W H E RN RV ND rest key name names kept names' NN FP FN NC LV AL LP PF MD LS SF DN.
  exact (expand_okS strOf o t W H E nameId ni vids vi modify RN RV ND NN pos npos FP FN NC prefixes suffixes LV AL LP PF MD LS SF DN).
Qed.
Theorem C71_expand_clash : forall strOf o (t : table pval) nameId ni vids vi modify, wf t -> Holds o t -> entsOK (PInt 0) (oMat o) ->
  Refers (tf t) nameId ni -> Forall2 (Refers (tf t)) vids vi -> NoDup (ni :: vi) ->
  let rest := others (ni :: vi) (alen (tf t)) in
  (forall r, In r (rows t) -> ~ In PNaN (pick r rest) /\ nth ni r PNaN <> PNaN) ->
  (exists i j a b, i < j /\ nth_error (rows t) i = Some a /\ nth_error (rows t) j = Some b /\ SameValues (pick a rest) (pick b rest) /\ Same (nth ni a PNaN) (nth ni b PNaN)) ->
  expandFeaturesS strOf o nameId vids modify = (o, Err ImproperObjectAction).
Proof. intros strOf o t nameId ni vids vi modify W H E RN RV ND rest NN. exact (expand_clashS strOf o t W H E nameId ni vids vi modify RN RV ND NN). Qed.

(** Two different names with the same text: refused, nothing changed. *)
Theorem C71_expand_same_text : forall strOf o (t : table pval) nameId ni vids vi pos npos, wf t -> Holds o t -> entsOK (PInt 0) (oMat o) ->
  Refers (tf t) nameId ni -> Forall2 (Refers (tf t)) vids vi -> NoDup (ni :: vi) ->
  let key r := pick r (others (ni :: vi) (alen (tf t))) in
  let name r := nth ni r PNaN in
  (forall r, In r (rows t) -> ~ In PNaN (key r) /\ name r <> PNaN) ->
  Firsts SameValues (map key (rows t)) pos -> Firsts Same (map name (rows t)) npos ->
  (forall i j a b, i < j -> nth_error (rows t) i = Some a -> nth_error (rows t) j = Some b -> ~ (SameValues (key a) (key b) /\ Same (name a) (name b))) ->
  ~ NoDup (map strOf (map (fun q => name (nth q (rows t) [])) npos)) ->
  expandFeaturesS strOf o nameId vids false = (o, Err ImproperObjectAction).
Proof.
  intros strOf o t nameId ni vids vi pos npos W H E RN RV ND key name NN FP FN NC D.
  exact (expand_same_textS strOf o t W H E nameId ni vids vi false RN RV ND NN pos npos FP FN NC D eq_refl).
Qed.

(** ** Concrete cases *)
(** the Sparse object for a table *)
Definition stored (t : table pval) (kind : nat) : sobj :=
  mkSO (tp t) (tf t) (mkSp (alen (tp t)) (alen (tf t))
    (List.concat (map (fun x : nat * list pval => List.concat (map (fun c : nat * pval => if isZero (snd c) then [] else [mkE (fst x) (fst c) (snd c)])
       (combine (seq 0 (List.length (snd x))) (snd x)))) (combine (seq 0 (List.length (rows t))) (rows t)))) None None) kind.
Ltac held := split; [reflexivity|split; [reflexivity|split; [reflexivity|split; [reflexivity|
  let i := fresh in let j := fresh in let A := fresh in let B := fresh in intros i j A B; vm_compute in A, B; do 5 (destruct i as [|i]; [do 5 (destruct j as [|j]; [first [reflexivity|exfalso; lia]|]); exfalso; lia|]); exfalso; lia]]]].
Ltac ents_ok := split; [vm_compute; repeat (constructor; [cbn; intuition discriminate|]); constructor|
  let e := fresh in let X := fresh in intros e X; vm_compute in X; cases X; (split; [vm_compute; lia|split; [vm_compute; lia|discriminate]])].
Definition exS : table pval := tab ["p1"; "p2"] ["x"; "y"; "a"; "b"] [[PInt 1; PInt 3; PInt 5; PInt 7]; [PInt 2; PInt 0; PInt 6; PInt 8]].
(** what the object reads as *)
Example C71_collapse_case : exists o',
  wf exS /\ Holds (stored exS 4) exS /\ sinv (PInt 0) (oMat (stored exS 4)) /\ Forall2 (Refers (tf exS)) [IdStr "b"; IdInt 2] [3; 2] /\ NoDup [3; 2] /\
  FullyNamed (tp exS) /\ (forall p i v, In i [3; 2] -> cell exS p i = Some v -> v <> PInt 0) /\
  (forall row, In row (rows exS) -> ZerosLast (pick row (others [3; 2] 4))) /\ SelfInverse [3; 2] /\
  collapseFeaturesS (stored exS 4) [IdStr "b"; IdInt 2] (Some "n") (Some "v") = (o', Ok tt) /\
  map (fun p => map (val (oMat o') p) (seq 0 4)) (seq 0 4) =
    [[PInt 1; PInt 3; PStr "b"; PInt 7]; [PInt 1; PInt 3; PStr "a"; PInt 5]; [PInt 2; PInt 0; PStr "b"; PInt 8]; [PInt 2; PInt 0; PStr "a"; PInt 6]] /\
  getNames (oPts o') = [Some "p1_0"; Some "p1_1"; Some "p2_0"; Some "p2_1"] /\ getNames (oFts o') = [Some "x"; Some "y"; Some "n"; Some "v"].
Proof.
  eexists. split; [tabwf|]. split; [held|]. split; [split; [ents_ok|reflexivity]|]. split; [constructor; [refers|constructor; [refers|constructor]]|].
  split; [repeat (constructor; [cbn; intuition discriminate|]); constructor|].
  split; [intros i L; cbn in L; destruct i as [|[|i]]; [eexists; reflexivity|eexists; reflexivity|lia]|].
  split; [intros p i v X C; cbn in X; destruct p as [|[|p]]; cases X; cbn in C; try (injection C as <-; discriminate); destruct p; discriminate|].
  split; [intros row X; cbn in X; cases X; intros a b L M; vm_compute in M; assert (a = 0 /\ b = 1) as [-> ->] by lia; cbn; auto; discriminate|].
  split; [apply SelfInverse_decreasing; repeat (constructor; [|repeat constructor; lia]); constructor|].
  split; [vm_compute; reflexivity|]. split; [vm_compute; reflexivity|]. split; reflexivity.
Qed.
Definition exT : table pval := tab ["p1"; "p2"] ["id"; "date"; "x"] [[PInt 0; PStr "2019-3"; PInt 5]; [PInt 2; PStr "20-11"; PInt 0]].
Example C71_split_case : exists o',
  wf exT /\ Holds (stored exT 4) exT /\ entsOK (PInt 0) (oMat (stored exT 4)) /\ Refers (tf exT) (IdStr "date") 1 /\
  splitByParsingS strEx (stored exT 4) (IdStr "date") (RStr "-") [Some "y"; Some "m"] = (o', Ok tt) /\
  map (fun p => map (val (oMat o') p) (seq 0 4)) (seq 0 2) = [[PInt 0; PStr "2019"; PStr "3"; PInt 5]; [PInt 2; PStr "20"; PStr "11"; PInt 0]].
Proof.
  eexists. split; [tabwf|]. split; [held|]. split; [ents_ok|]. split; [refers|]. split; [vm_compute; reflexivity|]. vm_compute. reflexivity.
Qed.
(** the feature of names after a value feature: the values that the other types
    lose (C49_expand_position_refuted) are there *)
Definition exP : table pval := tab [] ["v"; "id"; "n"] [[PInt 9; PInt 1; PStr "a"]; [PInt 8; PInt 1; PStr "b"]; [PInt 7; PInt 0; PStr "a"]].
Example C71_expand_case : exists o' t',
  wf exP /\ Holds (stored exP 4) exP /\ entsOK (PInt 0) (oMat (stored exP 4)) /\ Refers (tf exP) (IdStr "n") 2 /\ Forall2 (Refers (tf exP)) [IdStr "v"] [0] /\
  Firsts SameValues (map (fun r => pick r (others [2; 0] 3)) (rows exP)) [0; 2] /\ Firsts Same (map (fun r => nth 2 r PNaN) (rows exP)) [0; 1] /\
  astate (tf exP) <> None /\
  expandFeaturesS strEx (stored exP 4) (IdStr "n") [IdStr "v"] false = (o', Ok tt) /\
  getNames (oFts o') = [Some "id"; Some "a"; Some "b"] /\
  map (fun p => map (val (oMat o') p) (seq 0 3)) (seq 0 2) = [[PInt 1; PInt 9; PInt 8]; [PInt 0; PInt 7; PNaN]] /\
  expandFeatures strEx exP (IdStr "n") [IdStr "v"] false = (t', Ok tt) /\ rows t' = [[PInt 1; PInt 1; PInt 9]; [PInt 0; PInt 0; PInt 7]].
Proof.
  eexists. eexists. split; [tabwf|]. split; [held|]. split; [ents_ok|]. split; [refers|]. split; [constructor; [refers|constructor]|].
  split; [apply (firstsPos_Firsts [] tupEq tupEq_trans); [exact tupEq_spec|]; intros x X; cbn in X; cases X; reflexivity|].
  split; [apply (firstsPos_Firsts PNaN pyEq pyEq_trans); [exact pyEq_spec|]; intros x X; cbn in X; cases X; reflexivity|].
  split; [discriminate|]. split; [vm_compute; reflexivity|]. split; [reflexivity|]. split; [vm_compute; reflexivity|]. split; [vm_compute; reflexivity|reflexivity].
Qed.

(** ** Counterexamples *)
(** Features in the order b, c, a: every value stands next to another feature's
    name. *)
Theorem C71_collapse_order_refuted : exists t o', wf t /\ Holds (stored t 4) t /\ rows t = [[PInt 1; PInt 2; PInt 3]] /\
  getNames (tf t) = [Some "a"; Some "b"; Some "c"] /\
  collapseFeaturesS (stored t 4) [IdStr "b"; IdStr "c"; IdStr "a"] (Some "n") (Some "v") = (o', Ok tt) /\
  map (fun p => map (val (oMat o') p) (seq 0 2)) (seq 0 3) = [[PStr "b"; PInt 3]; [PStr "c"; PInt 1]; [PStr "a"; PInt 2]].
Proof.
  exists (tab [] ["a"; "b"; "c"] [[PInt 1; PInt 2; PInt 3]]). eexists. split; [tabwf|]. split; [held|]. split; [reflexivity|]. split; [reflexivity|]. split; vm_compute; reflexivity.
Qed.
(** A zero among the values kept: the values after it move one feature to the left. *)
Theorem C71_collapse_kept_zero_refuted : exists t o', wf t /\ Holds (stored t 4) t /\ rows t = [[PInt 0; PInt 4; PInt 5]] /\
  getNames (tf t) = [Some "x"; Some "y"; Some "a"] /\
  collapseFeaturesS (stored t 4) [IdStr "a"] (Some "n") (Some "v") = (o', Ok tt) /\ getNames (oFts o') = [Some "x"; Some "y"; Some "n"; Some "v"] /\
  map (fun p => map (val (oMat o') p) (seq 0 4)) (seq 0 1) = [[PInt 4; PInt 0; PStr "a"; PInt 5]].
Proof.
  exists (tab [] ["x"; "y"; "a"] [[PInt 0; PInt 4; PInt 5]]). eexists. split; [tabwf|]. split; [held|]. split; [reflexivity|]. split; [reflexivity|]. split; [vm_compute; reflexivity|]. split; [reflexivity|]. vm_compute; reflexivity.
Qed.
(** An object of numbers whose feature is split into text by a function: the
    numbers of the other features become text. *)
Theorem C71_split_numbers_refuted : exists t o' f, wf t /\ Holds (stored t 2) t /\ rows t = [[PFloat 1%Q; PFloat 2%Q]] /\
  f (PFloat 2%Q) = Ok [PStr "a"; PStr "b"] /\
  splitByParsingS strEx (stored t 2) (IdStr "y") (RFun f) [Some "u"; Some "w"] = (o', Ok tt) /\
  val (oMat o') 0 0 = PStr (strEx (PFloat 1%Q)).
Proof.
  exists (tab [] ["x"; "y"] [[PFloat 1%Q; PFloat 2%Q]]). eexists. exists (fun _ => Ok [PStr "a"; PStr "b"]).
  split; [tabwf|]. split; [held|]. split; [reflexivity|]. split; [reflexivity|]. split; [vm_compute; reflexivity|]. vm_compute; reflexivity.
Qed.
(** Zeros are stored: by expanding, and by splitting with a function that returns
    one.  The object's own rule (no stored zeros) no longer holds. *)
Theorem C71_stored_zero_refuted : exists t o' u o'' f, wf t /\ entsOK (PInt 0) (oMat (stored t 4)) /\ wf u /\ entsOK (PInt 0) (oMat (stored u 4)) /\
  expandFeaturesS strEx (stored t 4) (IdStr "n") [IdStr "v"] false = (o', Ok tt) /\ ~ entsOK (PInt 0) (oMat o') /\
  splitByParsingS strEx (stored u 4) (IdStr "y") (RFun f) [Some "u"; Some "w"] = (o'', Ok tt) /\ ~ entsOK (PInt 0) (oMat o'').
Proof.
  exists (tab [] ["n"; "v"] [[PStr "a"; PInt 0]; [PStr "b"; PInt 1]]). eexists. exists (tab [] ["x"; "y"] [[PInt 1; PInt 2]]). eexists. exists (fun _ => Ok [PInt 0; PInt 2]).
  split; [tabwf|]. split; [ents_ok|]. split; [tabwf|]. split; [ents_ok|]. split; [vm_compute; reflexivity|]. split; [|split; [vm_compute; reflexivity|]].
  - intros [_ X]. destruct (X (mkE 0 0 (PInt 0))) as [_ [_ Z]]; [cbn; auto|]. apply Z. reflexivity.
  - intros [_ X]. destruct (X (mkE 0 1 (PInt 0))) as [_ [_ Z]]; [cbn; auto|]. apply Z. reflexivity.
Qed.
(** Without feature names and with the feature of names last: an exception after
    the data have changed. *)
Theorem C71_expand_unnamed_refuted : exists t o' e, wf t /\ Holds (stored t 4) t /\ rows t = [[PInt 9; PInt 8; PStr "a"]; [PInt 6; PInt 5; PStr "b"]] /\
  expandFeaturesS strEx (stored t 4) (IdInt 2) [IdInt 0; IdInt 1] false = (o', Err e) /\ snp (oMat o') = 1 /\ alen (tp t) = 2.
Proof.
  exists (mkTable (fresh 2) (fresh 3) [[PInt 9; PInt 8; PStr "a"]; [PInt 6; PInt 5; PStr "b"]]). eexists. eexists.
  split; [split; [reflexivity|split; [intros x X; cbn in X; cases X; reflexivity|split; apply fresh_Inv]]|]. split; [held|]. split; [reflexivity|]. split; [vm_compute; reflexivity|]. split; reflexivity.
Qed.

Print Assumptions C71_split_text.
Print Assumptions C71_split_partial.
Print Assumptions C71_split_same_result.
Print Assumptions C71_split_refused.
Print Assumptions C71_collapse_partial.
Print Assumptions C71_collapse_does.
Print Assumptions C71_collapse_orders.
Print Assumptions C71_collapse_zero.
Print Assumptions C71_expand_partial.
Print Assumptions C71_expand_clash.
Print Assumptions C71_expand_same_text.
