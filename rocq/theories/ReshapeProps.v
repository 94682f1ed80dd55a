(** Property C49: splitByParsing, splitByCollapsingFeatures and
    combineByExpandingFeatures.  Definitions used in the statements:
    ReshapeSpec.v, TableSpec.v (wf, cell), MatchSpec.v (Same). *)
From Verif Require Import Base NamesModel NamesSpec NamesProofs TableModel TableSpec TableProofs TableOps MatchModel MatchSpec MatchProofs
  MergeModel MergeLoopProofs MergeProps ReshapeModel ReshapeSpec ReshapeTextProofs ReshapeSplitProofs ReshapeCollapseProofs ReshapeExpandProofs ReshapeFillProofs ReshapeExpandMain ReshapeRoundProofs.
From Coq Require Import DecimalString QArith.
Open Scope string_scope.
Open Scope list_scope.
Open Scope nat_scope.

(** ** splitByParsing *)
(** What a rule makes of a value ([Pieces]) takes the place of the value in every
    point; the new names take the place of the name; points and all other values
    stay.  Lists of separators and positions: separators of one character, each
    present in what is left, positions that do not go back (see the
    counterexamples). *)
Theorem C49_split_partial : forall (t : table pval) id i r names parts, wf t -> Refers (tf t) id i -> 0 < alen (tp t) ->
  List.length parts = alen (tp t) ->
  (forall p v, cell t p i = Some v -> exists ps, nth_error parts p = Some ps /\ Pieces r v ps /\ List.length ps = List.length names) ->
  DistinctNames (replaced i names (getNames (tf t))) ->
  exists t', splitByParsing t id r names = (t', Ok tt) /\ wf t' /\ tp t' = tp t /\
    getNames (tf t') = replaced i names (getNames (tf t)) /\
    forall p row, nth_error (rows t) p = Some row -> exists ps, nth_error parts p = Some ps /\ nth_error (rows t') p = Some (replaced i ps row).
Proof. intros t id i r names parts W RF. exact (split_ok t W id i r names RF parts). Qed.
(** The pieces put together again are the value. *)
Theorem C49_split_reassembles : forall sep s ps l z a b qs,
  (Pieces (RStr sep) (PStr s) (map PStr ps) -> String.concat sep ps = s /\ forall p, In p ps -> forall k, ~ OccursAt sep p k) /\
  (Pieces (RInt z) (PStr s) [PStr a; PStr b] -> s = (a ++ b)%string) /\
  (Pieces (RList l) (PStr s) (map PStr qs) -> rebuild l qs = s).
Proof.
  assert (INJ : forall a b, map PStr a = map PStr b -> a = b).
  { induction a as [|x a IH]; intros [|y b] E; try discriminate; [reflexivity|]. injection E as -> E. rewrite (IH b E). reflexivity. }
  intros sep s ps l z a b qs. split; [|split]; intros H; inversion H; subst; auto.
  - repeat match goal with E : map PStr _ = map PStr _ |- _ => apply INJ in E; subst end.
    split; [apply Splits_join; assumption|apply (Splits_free sep s); assumption].
  - repeat match goal with E : map PStr _ = map PStr _ |- _ => apply INJ in E; subst end. eapply Parses_rebuild. eassumption.
Qed.
(** A separator or a position splits every text in exactly one way. *)
Theorem C49_split_total : forall s sep z, (sep <> "" -> exists ps, Pieces (RStr sep) (PStr s) ps) /\ (exists ps, Pieces (RInt z) (PStr s) ps) /\
  (forall r v ps ps', Pieces r v ps -> Pieces r v ps' -> ps = ps').
Proof.
  intros s sep z. split; [|split].
  - intros N. destruct (pySplit_Splits sep s N) as [ps [_ S]]. exists (map PStr ps). constructor; assumption.
  - eexists. apply (pieces_sound (RInt z) (PStr s)); [exact I|]. reflexivity.
  - intros r v ps ps' H H'. apply pieces_complete in H. apply pieces_complete in H'. congruence.
Qed.
(** A value with another number of pieces than names, or none at all: refused,
    the object is as it was. *)
Theorem C49_split_refused : forall (t : table pval) id i r names, wf t -> Refers (tf t) id i -> (forall l, r <> RList l) ->
  (exists p v, cell t p i = Some v /\ forall ps, Pieces r v ps -> List.length ps <> List.length names) ->
  exists e, splitByParsing t id r names = (t, Err e).
Proof. intros t id i r names W RF NL. apply (split_refused t W id i r names RF). destruct r; cbn; auto. exact (NL l eq_refl). Qed.
Theorem C49_split_count : forall (t : table pval) id i r names p v, wf t -> Refers (tf t) id i ->
  cell t p i = Some v -> (exists ps, Pieces r v ps /\ List.length ps <> List.length names) ->
  (forall q w, q < p -> cell t q i = Some w -> exists ps, Pieces r w ps /\ List.length ps = List.length names) ->
  splitByParsing t id r names = (t, Err InvalidArgumentValueCombination).
Proof. intros t id i r names p v W RF. exact (split_count t W id i r names RF p v). Qed.

(** ** splitByCollapsingFeatures *)
(** For every point p and collapsed feature q, the object has at p*k+q the
    retained values, the name (or index) of the feature and its value; points
    are called name_q.  Requires elements that numpy keeps as they are (one type
    among the retained values, one among the collapsed values), and either no
    point names or a name for every point. *)
Theorem C49_collapse_partial : forall strOf (t : table pval) ids idx nameFt valueFt, wf t -> Forall2 (Refers (tf t)) ids idx -> NoDup idx ->
  let rest := others idx (alen (tf t)) in
  let k := List.length idx in
  0 < alen (tp t) ->
  DistinctNames (map (fun i => nth i (getNames (tf t)) None) rest ++ [nameFt; valueFt]) ->
  (astate (tp t) = None \/ FullyNamed (tp t)) ->
  OneType (List.concat (map (fun r => pick r rest) (rows t))) -> OneType (List.concat (map (fun r => pick r idx) (rows t))) ->
  OneType (map (nameCell (getNames (tf t))) idx) ->
  exists t', collapseFeatures strOf t ids nameFt valueFt = (t', Ok tt) /\ wf t' /\
    alen (tp t') = alen (tp t) * k /\ getNames (tf t') = map (fun i => nth i (getNames (tf t)) None) rest ++ [nameFt; valueFt] /\
    (forall p row q i, nth_error (rows t) p = Some row -> nth_error idx q = Some i ->
       nth_error (rows t') (p * k + q) = Some (pick row rest ++ [nameCell (getNames (tf t)) i; nth i row PNaN])) /\
    (forall p q s, nth_error (getNames (tp t)) p = Some (Some s) -> q < k -> nth_error (getNames (tp t')) (p * k + q) = Some (Some (s ++ "_" ++ decStr q)%string)) /\
    (astate (tp t) = None -> astate (tp t') = None).
Proof.
  intros strOf t ids idx nameFt valueFt W RF ND rest k NP DN PN O1 O2. rewrite <- (map_ext _ _ (nameOrIndex_cell (tf t))). intros O3.
  setoid_rewrite <- (nameOrIndex_cell (tf t)). exact (collapse_ok strOf t W ids idx nameFt valueFt RF ND NP DN PN O1 O2 O3).
Qed.

(** ** combineByExpandingFeatures *)
(** [pos]: the first points with each combination of the other values; [npos]:
    the first points with each name.  The object has one point for each of
    [pos], in that order, under that point's name: its other values and, in the
    place of the feature of names, for each name the values of the point with
    these other values and this name, or nan where there is none.  Requires that
    the feature of names stands at or before the position after the last
    feature kept ([ni <= length rest]); otherwise see the counterexample. *)
Theorem C49_expand_partial : forall strOf (t : table pval) nameId ni vids vi modify pos npos prefixes suffixes, wf t ->
  Refers (tf t) nameId ni -> Forall2 (Refers (tf t)) vids vi -> NoDup (ni :: vi) ->
  let rest := others (ni :: vi) (alen (tf t)) in
  let key r := pick r rest in
  let name r := nth ni r PNaN in
  let names := map (fun q => name (nth q (rows t) [])) npos in
  let kept := map (fun i => nth i (getNames (tf t)) None) rest in
  let names' := firstn ni kept ++ map Some (expandedNames prefixes suffixes) ++ skipn ni kept in
  (forall r, In r (rows t) -> ~ In PNaN (key r) /\ name r <> PNaN) ->
  Firsts SameValues (map key (rows t)) pos -> Firsts Same (map name (rows t)) npos ->
  (forall i j a b, i < j -> nth_error (rows t) i = Some a -> nth_error (rows t) j = Some b -> ~ (SameValues (key a) (key b) /\ Same (name a) (name b))) ->
  0 < List.length vids -> ni <= List.length rest ->
  List.length prefixes = List.length npos -> (forall j s, nth_error prefixes j = Some s -> PrefixOf strOf names j s) ->
  (modify = true \/ NoDup (map strOf names)) ->
  List.length suffixes = List.length vids ->
  (1 < List.length vids -> forall j id i s, nth_error vids j = Some id -> nth_error vi j = Some i -> nth_error suffixes j = Some s -> SuffixOf strOf (tf t) id i s) ->
  DistinctNames names' ->
  exists t', expandFeatures strOf t nameId vids modify = (t', Ok tt) /\ wf t' /\
    alen (tp t') = List.length pos /\ getNames (tf t') = names' /\
    (forall g p r, nth_error pos g = Some p -> nth_error (rows t) p = Some r -> exists cells,
       nth_error (rows t') g = Some (firstn ni (key r) ++ List.concat cells ++ skipn ni (key r)) /\ List.length cells = List.length npos /\
       forall j q nr, nth_error npos j = Some q -> nth_error (rows t) q = Some nr ->
         (forall v, In v (rows t) -> SameValues (key v) (key r) -> Same (name v) (name nr) -> nth_error cells j = Some (pick v vi)) /\
         ((forall v, In v (rows t) -> ~ (SameValues (key v) (key r) /\ Same (name v) (name nr))) -> nth_error cells j = Some (repeat PNaN (List.length vi)))) /\
    (forall g p, nth_error pos g = Some p -> nth_error (getNames (tp t')) g = nth_error (getNames (tp t)) p).
Proof.
  intros strOf t nameId ni vids vi modify pos npos prefixes suffixes W RN RV ND rest key name names kept names' NN FP FN NC LV AL LP PF MD LS SF DN.
  exact (expand_ok strOf t W nameId ni vids vi modify RN RV ND NN pos npos FP FN NC prefixes suffixes LV AL LP PF MD LS SF DN).
Qed.
(** Two points with the same other values and the same name: refused, the object
    is as it was. *)
Theorem C49_expand_clash : forall strOf (t : table pval) nameId ni vids vi modify, wf t ->
  Refers (tf t) nameId ni -> Forall2 (Refers (tf t)) vids vi -> NoDup (ni :: vi) ->
  let rest := others (ni :: vi) (alen (tf t)) in
  (forall r, In r (rows t) -> ~ In PNaN (pick r rest) /\ nth ni r PNaN <> PNaN) ->
  (exists i j a b, i < j /\ nth_error (rows t) i = Some a /\ nth_error (rows t) j = Some b /\ SameValues (pick a rest) (pick b rest) /\ Same (nth ni a PNaN) (nth ni b PNaN)) ->
  expandFeatures strOf t nameId vids modify = (t, Err ImproperObjectAction).
Proof. intros strOf t nameId ni vids vi modify W RN RV ND rest NN. exact (expand_clash strOf t W nameId ni vids vi modify RN RV ND NN). Qed.
(** Two different names with the same text (1 and '1'): refused unless
    modifyDuplicateFeatureNames is set, the object is as it was. *)
Theorem C49_expand_same_text : forall strOf (t : table pval) nameId ni vids vi npos, wf t ->
  Refers (tf t) nameId ni -> Forall2 (Refers (tf t)) vids vi -> NoDup (ni :: vi) ->
  let rest := others (ni :: vi) (alen (tf t)) in
  (forall r, In r (rows t) -> ~ In PNaN (pick r rest) /\ nth ni r PNaN <> PNaN) ->
  Firsts Same (map (fun r => nth ni r PNaN) (rows t)) npos ->
  ~ NoDup (map strOf (map (fun q => nth ni (nth q (rows t) []) PNaN) npos)) ->
  expandFeatures strOf t nameId vids false = (t, Err ImproperObjectAction).
Proof.
  intros strOf t nameId ni vids vi npos W RN RV ND rest NN FN D.
  destruct (Forall2_dec_clash t ni rest) as [C|NC]; [exact (expand_clash strOf t W nameId ni vids vi false RN RV ND NN C)|].
  exact (expand_same_text strOf t W nameId ni vids vi false RN RV ND NN _ npos (keysFirsts t ni vi NN) FN NC D eq_refl).
Qed.

(** ** Expanding what was collapsed *)
(** With named collapsed features and retained values that tell the points
    apart, the features come back, the collapsed ones after the others in the
    order given, with all values and names; point names get the suffix _0. *)
Theorem C49_round_trip_partial : forall strOf (t : table pval) ids idx nameFt valueFt cnames, (forall s, strOf (PStr s) = s) -> wf t ->
  Forall2 (Refers (tf t)) ids idx -> NoDup idx ->
  let rest := others idx (alen (tf t)) in
  0 < alen (tp t) -> 0 < List.length idx ->
  DistinctNames (map (fun i => nth i (getNames (tf t)) None) rest ++ [nameFt; valueFt]) ->
  (astate (tp t) = None \/ FullyNamed (tp t)) ->
  OneType (List.concat (map (fun r => pick r rest) (rows t))) -> OneType (List.concat (map (fun r => pick r idx) (rows t))) ->
  Forall2 (fun i s => nth_error (getNames (tf t)) i = Some (Some s)) idx cnames ->
  (forall r, In r (rows t) -> ~ In PNaN (pick r rest)) ->
  (forall i j a b, i < j -> nth_error (rows t) i = Some a -> nth_error (rows t) j = Some b -> ~ SameValues (pick a rest) (pick b rest)) ->
  exists t1, collapseFeatures strOf t ids nameFt valueFt = (t1, Ok tt) /\
  forall nameId valueId modify, Refers (tf t1) nameId (List.length rest) -> Refers (tf t1) valueId (List.length rest + 1) ->
  exists t2, expandFeatures strOf t1 nameId [valueId] modify = (t2, Ok tt) /\ wf t2 /\
    alen (tp t2) = alen (tp t) /\
    getNames (tf t2) = map (fun i => nth i (getNames (tf t)) None) (rest ++ idx) /\
    (forall p r, nth_error (rows t) p = Some r -> nth_error (rows t2) p = Some (pick r (rest ++ idx))) /\
    (forall p s, nth_error (getNames (tp t)) p = Some (Some s) -> nth_error (getNames (tp t2)) p = Some (Some (s ++ "_0")%string)).
Proof.
  intros strOf t ids idx nameFt valueFt cnames SS W RF ND rest NP NK DN PN O1 O2 CN NaNf UNI.
  exact (round_trip strOf SS t W ids idx nameFt valueFt RF ND NP NK DN PN O1 O2 cnames CN NaNf UNI).
Qed.

(** ** Concrete cases *)
Definition strEx (v : pval) : string :=
  match v with PStr s => s | PInt z => NilEmpty.string_of_int (Z.to_int z) | PBool true => "True" | PBool false => "False" | PNone => "None" | _ => "nan" end.
Definition exSplit : table pval := tab ["p1"; "p2"] ["id"; "date"; "x"] [[PInt 1; PStr "2019-3"; PInt 5]; [PInt 2; PStr "20-11"; PInt 6]].
Definition exWide : table pval := tab ["p1"; "p2"] ["id"; "a"; "b"] [[PInt 1; PInt 5; PInt 7]; [PInt 2; PInt 6; PInt 8]].
Definition exLong : table pval := tab ["p1"; "p2"; "p3"] ["id"; "n"; "v"] [[PInt 1; PStr "a"; PInt 7]; [PInt 1; PStr "b"; PInt 8]; [PInt 2; PStr "b"; PInt 9]].
Ltac refers := split; [vm_compute; lia|first [reflexivity|left; reflexivity|vm_compute; auto]].
Ltac cases X := repeat (destruct X as [X|X]; [subst|]); try contradiction.
Example C49_split_case : exists t', splitByParsing exSplit (IdStr "date") (RStr "-") [Some "y"; Some "m"] = (t', Ok tt) /\
  wf exSplit /\ Refers (tf exSplit) (IdStr "date") 1 /\
  rows t' = [[PInt 1; PStr "2019"; PStr "3"; PInt 5]; [PInt 2; PStr "20"; PStr "11"; PInt 6]] /\
  getNames (tf t') = [Some "id"; Some "y"; Some "m"; Some "x"].
Proof. eexists. split; [vm_compute; reflexivity|]. split; [tabwf|]. split; [refers|]. split; reflexivity. Qed.
(** a position, a separator and the rest *)
Example C49_list_case : Pieces (RList [ItInt 2; ItStr "-"]) (PStr "ab12-x-y") (map PStr ["ab"; "12"; "x-y"]).
Proof.
  constructor.
  - intros sep [E|[E|[]]]; [discriminate|]. injection E as <-. reflexivity.
  - change "ab12-x-y"%string with ("ab" ++ ("12" ++ "-" ++ "x-y"))%string. constructor; [reflexivity|]. constructor; [discriminate| |constructor].
    split; [exists "12", "x-y"; auto|]. intros j L [a [b [E Q]]]. cbn in L.
    destruct a as [|c [|c' [|c'' a]]]; cbn in Q; try lia; cbn in E; discriminate.
Qed.

(** the hypotheses of the round trip hold of a concrete object, and what comes
    out *)
Example C49_round_trip_case : exists t1 t2,
  wf exWide /\ Forall2 (Refers (tf exWide)) [IdStr "b"; IdInt 1] [2; 1] /\ FullyNamed (tp exWide) /\
  DistinctNames (map (fun i => nth i (getNames (tf exWide)) None) (others [2; 1] 3) ++ [Some "n"; Some "v"]) /\
  OneType (List.concat (map (fun r => pick r (others [2; 1] 3)) (rows exWide))) /\ OneType (List.concat (map (fun r => pick r [2; 1]) (rows exWide))) /\
  Forall2 (fun i s => nth_error (getNames (tf exWide)) i = Some (Some s)) [2; 1] ["b"; "a"] /\
  (forall i j a b, i < j -> nth_error (rows exWide) i = Some a -> nth_error (rows exWide) j = Some b -> ~ SameValues (pick a (others [2; 1] 3)) (pick b (others [2; 1] 3))) /\
  collapseFeatures strEx exWide [IdStr "b"; IdInt 1] (Some "n") (Some "v") = (t1, Ok tt) /\
  rows t1 = [[PInt 1; PStr "b"; PInt 7]; [PInt 1; PStr "a"; PInt 5]; [PInt 2; PStr "b"; PInt 8]; [PInt 2; PStr "a"; PInt 6]] /\
  getNames (tp t1) = [Some "p1_0"; Some "p1_1"; Some "p2_0"; Some "p2_1"] /\
  Refers (tf t1) (IdStr "n") 1 /\ Refers (tf t1) (IdStr "v") 2 /\
  expandFeatures strEx t1 (IdStr "n") [IdStr "v"] false = (t2, Ok tt) /\
  rows t2 = [[PInt 1; PInt 7; PInt 5]; [PInt 2; PInt 8; PInt 6]] /\
  getNames (tf t2) = [Some "id"; Some "b"; Some "a"] /\ getNames (tp t2) = [Some "p1_0"; Some "p2_0"].
Proof.
  eexists. eexists. split; [tabwf|]. split; [constructor; [refers|constructor; [refers|constructor]]|].
  split; [intros i L; cbn in L; destruct i as [|[|i]]; [eexists; reflexivity|eexists; reflexivity|lia]|].
  split; [intros i j s A B; destruct i as [|[|[|[|i]]]], j as [|[|[|[|j]]]]; vm_compute in A, B; try discriminate; try reflexivity; try (destruct i; discriminate); try (destruct j; discriminate); congruence|].
  split; [right; right; left; intros v V; cbn in V; cases V; eauto|].
  split; [right; right; left; intros v V; cbn in V; cases V; eauto|].
  split; [constructor; [reflexivity|constructor; [reflexivity|constructor]]|].
  split; [intros i j a b L A B H; assert (j < 2) by (change 2 with (List.length (rows exWide)); apply nth_error_Some; congruence);
          assert (i = 0 /\ j = 1) as [-> ->] by lia; cbn in A, B; injection A as <-; injection B as <-; apply tupEq_spec in H; discriminate|].
  split; [vm_compute; reflexivity|]. split; [reflexivity|]. split; [reflexivity|]. split; [refers|]. split; [refers|]. split; [vm_compute; reflexivity|]. repeat split; reflexivity.
Qed.
(** an object with a missing value and several points of a group *)
Example C49_expand_case : exists t',
  wf exLong /\ Refers (tf exLong) (IdStr "n") 1 /\ Forall2 (Refers (tf exLong)) [IdInt 2] [2] /\
  Firsts SameValues (map (fun r => pick r (others [1; 2] 3)) (rows exLong)) [0; 2] /\ Firsts Same (map (fun r => nth 1 r PNaN) (rows exLong)) [0; 1] /\
  expandFeatures strEx exLong (IdStr "n") [IdInt 2] false = (t', Ok tt) /\
  rows t' = [[PInt 1; PInt 7; PInt 8]; [PInt 2; PNaN; PInt 9]] /\ getNames (tf t') = [Some "id"; Some "a"; Some "b"] /\ getNames (tp t') = [Some "p1"; Some "p3"].
Proof.
  eexists. split; [tabwf|]. split; [refers|]. split; [constructor; [refers|constructor]|].
  split; [apply (firstsPos_Firsts [] tupEq tupEq_trans); [exact tupEq_spec|]; intros x X; cbn in X; cases X; reflexivity|].
  split; [apply (firstsPos_Firsts PNaN pyEq pyEq_trans); [exact pyEq_spec|]; intros x X; cbn in X; cases X; reflexivity|].
  split; [vm_compute; reflexivity|]. repeat split; reflexivity.
Qed.
(** two names with the same text *)
Example C49_modify_case : exists t', 
  expandFeatures strEx (tab [] ["id"; "n"; "v"; "w"] [[PInt 1; PStr "1"; PInt 7; PInt 0]; [PInt 1; PInt 1; PInt 8; PInt 0]]) (IdStr "n") [IdStr "v"; IdInt 3] true = (t', Ok tt) /\
  getNames (tf t') = [Some "id"; Some "1(str)_v"; Some "1(str)_w"; Some "1(int)_v"; Some "1(int)_w"] /\ rows t' = [[PInt 1; PInt 7; PInt 0; PInt 8; PInt 0]].
Proof. eexists. split; [vm_compute; reflexivity|]. split; reflexivity. Qed.

(** ** Counterexamples *)
(** A list with a separator of more than one character: only its first character
    is skipped, the rest stays in the next piece. *)
Theorem C49_split_long_separator_refuted : exists t t' sep, wf t /\ String.length sep = 2 /\
  splitByParsing t (IdStr "s") (RList [ItStr sep]) [Some "u"; Some "v"] = (t', Ok tt) /\
  rows t = [[PStr "a, b"]] /\ sep = ", " /\ rows t' = [[PStr "a"; PStr " b"]].
Proof. exists (tab [] ["s"] [[PStr "a, b"]]). eexists. exists ", ". split; [tabwf|]. split; [reflexivity|]. split; [vm_compute; reflexivity|]. repeat split; reflexivity. Qed.
(** Positions that go back: characters are repeated, nothing is refused. *)
Theorem C49_split_backwards_refuted : exists t t', wf t /\
  splitByParsing t (IdStr "s") (RList [ItInt 2; ItInt 1]) [Some "u"; Some "v"; Some "w"] = (t', Ok tt) /\
  rows t = [[PStr "abcd"]] /\ rows t' = [[PStr "ab"; PStr ""; PStr "bcd"]].
Proof. exists (tab [] ["s"] [[PStr "abcd"]]). eexists. split; [tabwf|]. split; [vm_compute; reflexivity|]. repeat split; reflexivity. Qed.
(** A resulting name that is in use: refused, but the data have been split and the
    names no longer fit the features. *)
Theorem C49_split_name_taken_refuted : exists t t', wf t /\
  splitByParsing t (IdStr "s") (RStr "-") [Some "u"; Some "x"] = (t', Err InvalidArgumentValue) /\ t' <> t /\ ~ wf t'.
Proof.
  exists (tab [] ["s"; "x"] [[PStr "p-q"; PInt 1]]). eexists. split; [tabwf|]. split; [vm_compute; reflexivity|]. split; [discriminate|].
  intros [_ [_ [_ I]]]. cbn in I. destruct I as [L _]. discriminate.
Qed.
(** Collapsing changes values that are not collapsed: a number next to text becomes
    text, True next to a number becomes 1. *)
Theorem C49_collapse_types_refuted : exists t t' u u', wf t /\ wf u /\
  collapseFeatures strEx t [IdStr "a"; IdStr "b"] (Some "n") (Some "v") = (t', Ok tt) /\
  rows t = [[PStr "NYC"; PInt 1; PInt 4; PInt 5]] /\ rows t' = [[PStr "NYC"; PStr "1"; PStr "a"; PInt 4]; [PStr "NYC"; PStr "1"; PStr "b"; PInt 5]] /\
  collapseFeatures strEx u [IdStr "a"; IdStr "b"] (Some "n") (Some "v") = (u', Ok tt) /\
  rows u = [[PBool true; PInt 2; PInt 4; PInt 5]] /\ rows u' = [[PInt 1; PInt 2; PStr "a"; PInt 4]; [PInt 1; PInt 2; PStr "b"; PInt 5]].
Proof.
  exists (tab [] ["city"; "k"; "a"; "b"] [[PStr "NYC"; PInt 1; PInt 4; PInt 5]]). eexists. exists (tab [] ["c"; "k"; "a"; "b"] [[PBool true; PInt 2; PInt 4; PInt 5]]). eexists.
  split; [tabwf|]. split; [tabwf|]. split; [vm_compute; reflexivity|]. split; [reflexivity|]. split; [reflexivity|]. split; [vm_compute; reflexivity|]. split; reflexivity.
Qed.
(** Collapsing no features deletes every point. *)
Theorem C49_collapse_nothing_refuted : exists t t', wf t /\ alen (tp t) = 1 /\ collapseFeatures strEx t [] (Some "n") (Some "v") = (t', Ok tt) /\ alen (tp t') = 0.
Proof. exists (tab [] ["k"; "l"] [[PInt 1; PInt 2]]). eexists. split; [tabwf|]. split; [reflexivity|]. split; [vm_compute; reflexivity|]. reflexivity. Qed.
(** Points that have no names but whose names were asked for once: refused (two
    points called None_0), after the data have changed. *)
Theorem C49_collapse_default_names_refuted : exists t t', wf t /\ getNames (tp t) = [None; None] /\
  collapseFeatures strEx t [IdStr "a"; IdStr "b"] (Some "n") (Some "v") = (t', Err InvalidArgumentValue) /\ rows t' <> rows t /\ ~ wf t'.
Proof.
  exists (mkTable (fst (setNames (fresh 2) (AList [NNone; NNone]) ONone)) (ax' ["k"; "a"; "b"]) [[PInt 1; PInt 2; PInt 3]; [PInt 4; PInt 5; PInt 6]]). eexists.
  split; [|split; [reflexivity|split; [vm_compute; reflexivity|split; [discriminate|]]]].
  - split; [reflexivity|]. split; [intros x X; cbn in X; cases X; reflexivity|]. split; apply setNames_list_Inv, fresh_Inv.
  - intros [_ [_ [I _]]]. cbn in I. destruct I as [L _]. discriminate.
Qed.
(** The feature of names is the last of value, id, name: the ids are written over the
    place of the first name and the values of the last name are lost, without an
    error; with value and name alone there is an exception. *)
Theorem C49_expand_position_refuted : exists t t' u, wf t /\ wf u /\
  expandFeatures strEx t (IdStr "n") [IdStr "v"] false = (t', Ok tt) /\
  rows t = [[PInt 9; PInt 1; PStr "a"]; [PInt 8; PInt 1; PStr "b"]; [PInt 7; PInt 2; PStr "a"]] /\
  getNames (tf t') = [Some "id"; Some "a"; Some "b"] /\ rows t' = [[PInt 1; PInt 1; PInt 9]; [PInt 2; PInt 2; PInt 7]] /\
  rows u = [[PInt 9; PStr "a"]; [PInt 8; PStr "b"]] /\ expandFeatures strEx u (IdStr "n") [IdStr "v"] false = (u, Err ValueErr).
Proof.
  exists (tab [] ["v"; "id"; "n"] [[PInt 9; PInt 1; PStr "a"]; [PInt 8; PInt 1; PStr "b"]; [PInt 7; PInt 2; PStr "a"]]). eexists.
  exists (tab [] ["v"; "n"] [[PInt 9; PStr "a"]; [PInt 8; PStr "b"]]).
  split; [tabwf|]. split; [tabwf|]. split; [vm_compute; reflexivity|]. repeat split; reflexivity.
Qed.

Print Assumptions C49_split_partial. Print Assumptions C49_split_reassembles. Print Assumptions C49_split_total. Print Assumptions C49_split_refused.
Print Assumptions C49_split_count. Print Assumptions C49_collapse_partial. Print Assumptions C49_expand_partial. Print Assumptions C49_expand_clash.
Print Assumptions C49_expand_same_text. Print Assumptions C49_round_trip_partial.
