(** C25, C26, C27: loading a CSV file with names, selection of points and
    features, and the types of the features. *)
From Coq Require Import Permutation.
From Verif Require Import Base CsvModel CsvSpec CsvTypesProofs CsvLoadProofs CsvMainProofs CsvRefuseProofs CsvNamesProofs CsvOrderProofs.
Open Scope string_scope.
Open Scope list_scope.
Open Scope nat_scope.

(** a small instance of int() and float() for the examples *)
Definition exInt (s : string) : bool := mem s ["0"; "1"; "2"; "3"; "4"; "5"; "6"; "7"; "8"; "9"].
Definition exFloat (s : string) : bool := mem s ["0"; "1"; "2"; "3"; "4"; "5"; "6"; "7"; "8"; "9"; "1.5"; "2.5"].
Example ex_oracle : ParseOracle exInt exFloat.
Proof.
  split; [|repeat split; reflexivity]. intros s H. apply mem_In in H. apply mem_In. cbn in *. intuition auto.
Qed.

(** ** C25: names *)
(** names given as a dict are the names given as the list it describes *)
Theorem C25_csv_dict_names : forall isInt isFloat raw d l other ign keepP keepF eim,
  (forall k z, In (k, z) d -> (0 <= z < Z.of_nat (List.length d))%Z) -> NoDup (map snd d) -> DictList d l ->
  loadCsv isInt isFloat raw (NmDict d) other ign keepP keepF eim = loadCsv isInt isFloat raw (NmList l) other ign keepP keepF eim /\
  loadCsv isInt isFloat raw other (NmDict d) ign keepP keepF eim = loadCsv isInt isFloat raw other (NmList l) ign keepP keepF eim.
Proof. exact dict_as_list. Qed.
Print Assumptions C25_csv_dict_names.
Example C25_dict_case : DictList [("b", 1%Z); ("a", 0%Z)] [Some "a"; Some "b"] /\
  loadCsv exInt exFloat [["1"; "2"]; ["3"; "4"]] NmNone (NmDict [("b", 1%Z); ("a", 0%Z)]) false None None true =
  Ok ([[LInt "1"; LInt "2"]; [LInt "3"; LInt "4"]], NFalse, NL [Some "a"; Some "b"]).
Proof. split; [|reflexivity]. split; [reflexivity|]. cbn. intros k z [E|[E|[]]]; injection E as <- <-; split; try lia; reflexivity. Qed.

(** a dict with two names for one position is refused *)
Theorem C25_csv_dict_duplicates : forall isInt isFloat raw d other ign keepP keepF eim,
  (forall k z, In (k, z) d -> (0 <= z < Z.of_nat (List.length d))%Z) -> ~ NoDup (map snd d) ->
  (exists a b rest, raw = a :: b :: rest /\ NoPossible a b) -> other <> NmBool false -> (forall d', other <> NmDict d') ->
  loadCsv isInt isFloat raw (NmDict d) other ign keepP keepF eim = Err InvalidArgumentValue /\
  loadCsv isInt isFloat raw other (NmDict d) ign keepP keepF eim = Err InvalidArgumentValue.
Proof. exact dict_refused. Qed.
Print Assumptions C25_csv_dict_duplicates.

(** everything is kept: lists of names label the positions in order, names in
    the file label the vectors they are written next to *)
Theorem C25_csv_names_partial : forall isInt isFloat, ParseOracle isInt isFloat ->
  forall raw pnArg fnArg pn fn eim pa fa rows body n,
  Explicit raw pnArg fnArg pn fn -> ReadsFts pn fn raw fa rows -> ReadsPts pn rows pa body -> (forall r, In r body -> List.length r = n) -> 0 < n ->
  Fits fa n -> Fits pa (List.length body) -> (match fa with AKept _ => False | _ => True end) -> (match pa with AKept _ => False | _ => True end) ->
  ~ Trailing eim body (seq 0 (List.length body)) fa n ->
  exists data, loadCsv isInt isFloat raw pnArg fnArg false None None eim =
      Ok (data, match pa with AFile l | AGiven l => NL l | _ => NFalse end, match fa with AFile l | AGiven l => NL l | _ => NFalse end) /\
    DataIs isInt isFloat eim body (seq 0 (List.length body)) (seq 0 n) data.
Proof.
  intros isInt isFloat O raw pnArg fnArg pn fn eim pa fa rows body n EX RF RP HB Np FF FP KF KP NT.
  destruct (load_selects isInt isFloat O raw pn fn None None eim pa fa rows body n _ _ RF RP HB Np FF FP (kept_all _ _ KP) (fun x => x) (kept_all _ _ KF) I (or_intror NT)) as [data [E D]].
  exists data. split; [|exact D]. rewrite (Explicit_load isInt isFloat _ _ _ _ _ _ _ _ _ EX), E.
  assert (N : forall a m, Fits a m -> match a with AKept _ => False | _ => True end -> keptNames a (seq 0 m) = match a with AFile l | AGiven l => NL l | _ => NFalse end).
  { intros a m F K. destruct a; cbn in *; try reflexivity; [| |destruct K]; rewrite <- F, map_nth_seq; reflexivity. }
  rewrite !N; auto.
Qed.
Print Assumptions C25_csv_names_partial.
Example C25_names_case :
  Explicit [["x"; "y"]; ["1"; "2.5"]; ["3"; "z"]] (NmList [Some "p"; None]) (NmBool true) (NL [Some "p"; None]) NTrue /\
  ReadsFts (NL [Some "p"; None]) NTrue [["x"; "y"]; ["1"; "2.5"]; ["3"; "z"]] (AFile [Some "x"; Some "y"]) [["1"; "2.5"]; ["3"; "z"]] /\
  ReadsPts (NL [Some "p"; None]) [["1"; "2.5"]; ["3"; "z"]] (AGiven [Some "p"; None]) [["1"; "2.5"]; ["3"; "z"]] /\
  loadCsv exInt exFloat [["x"; "y"]; ["1"; "2.5"]; ["3"; "z"]] (NmList [Some "p"; None]) (NmBool true) false None None true =
  Ok ([[LInt "1"; LStr "2.5"]; [LInt "3"; LStr "z"]], NL [Some "p"; None], NL [Some "x"; Some "y"]).
Proof.
  split; [|split; [|split]].
  - exists ["x"; "y"], ["1"; "2.5"], [["3"; "z"]]. split; [reflexivity|]. split; [exists "x", "1"; repeat split; discriminate|]. repeat split; try reflexivity. left. discriminate.
  - apply (rf_file (NL [Some "p"; None]) ["x"; "y"]). discriminate.
  - constructor. discriminate.
  - reflexivity.
Qed.
(** automatic names: a first line of distinct texts above a line with a number
    is the header, "pointNames" in its first cell announces point names *)
Theorem C25_csv_automatic : forall isInt isFloat, ParseOracle isInt isFloat -> isFloat "pointNames" = false ->
  forall c0 cs d0 ds rest ign keepP keepF eim, List.length cs = List.length ds -> (forall c, In c (c0 :: cs) -> c <> "") ->
  let raw := (c0 :: cs) :: (d0 :: ds) :: rest in
  (HeaderLike isFloat c0 cs d0 ds -> loadCsv isInt isFloat raw NmAuto NmAuto ign keepP keepF eim =
     loadWith isInt isFloat raw (if string_dec c0 "pointNames" then NTrue else NFalse) NTrue NFalse ign keepP keepF eim) /\
  (~ HeaderLike isFloat c0 cs d0 ds -> loadCsv isInt isFloat raw NmAuto NmAuto ign keepP keepF eim = loadWith isInt isFloat raw NFalse NFalse NFalse ign keepP keepF eim).
Proof. intros isInt isFloat O FP c0 cs d0 ds rest ign keepP keepF eim. exact (csv_auto isInt isFloat O c0 cs d0 ds rest ign keepP keepF eim FP). Qed.
Print Assumptions C25_csv_automatic.
Example C25_automatic_case : HeaderLike exFloat "pointNames" ["x"] "a" ["1"] /\
  loadCsv exInt exFloat [["pointNames"; "x"]; ["a"; "1"]; ["b"; "2"]] NmAuto NmAuto false None None true =
  Ok ([[LInt "1"]; [LInt "2"]], NL [Some "a"; Some "b"], NL [Some "x"]).
Proof.
  split; [|reflexivity]. split; [|split; [|left; split; [reflexivity|exists "1"; split; [left|]; reflexivity]]].
  - intros c [<-|[]]. reflexivity.
  - repeat constructor. intros [].
Qed.
(** a blank cell above the point names: distinct first cells of the lines are
    used as with pointNames=True *)
Theorem C25_csv_blank_corner : forall isInt isFloat h rows pn ign keepP keepF eim,
  h <> [] -> (forall r, In r rows -> r <> []) -> NoDup (map (hd "") rows) -> pointStep pn keepP = Ok tt ->
  loadWith isInt isFloat (h :: rows) pn NTrue NTrue ign keepP keepF eim = loadWith isInt isFloat (h :: rows) NTrue NTrue NFalse ign keepP keepF eim.
Proof. exact track_as_names. Qed.
Print Assumptions C25_csv_blank_corner.
Example C25_blank_corner_case : loadCsv exInt exFloat [[""; "x"]; ["a"; "1"]; ["b"; "2"]] NmAuto NmAuto false None None true =
  Ok ([[LInt "1"]; [LInt "2"]], NL [Some "a"; Some "b"], NL [Some "x"]).
Proof. reflexivity. Qed.

(** a file that is loaded with all its points has lines of equal length *)
Theorem C25_csv_rectangular : forall isInt isFloat raw pnArg fnArg pn fn ign keepF eim res,
  Explicit raw pnArg fnArg pn fn -> loadCsv isInt isFloat raw pnArg fnArg ign None keepF eim = Ok res ->
  forall r r', In r raw -> In r' raw -> List.length r = List.length r'.
Proof. exact ragged. Qed.
Print Assumptions C25_csv_rectangular.
Example C25_ragged_case : loadCsv exInt exFloat [["1"; "2"]; ["3"]] NmNone NmNone false None None true = Err FileFormatErr.
Proof. reflexivity. Qed.

(** names the user gives are lost or replaced: (1) a list of point names is
    dropped when featureNames=False; (2) both lists are dropped for a file with
    one line; (3) with a blank first cell the names of the file replace the
    list, also (4) with pointNames=False; (5) a list of feature names takes the
    first column away and names the points; (6) a dict with a position out of
    range or negative is refused with IndexError or TypeError; (7) a header
    with a repeated name is accepted; (8) a list shorter than the file names
    the points 'a', 'l', 'l', or (9) is refused with IndexError *)
Theorem C25_csv_names_refuted :
  let lc := loadCsv exInt exFloat in
  (exists d, lc [["1"; "2"]; ["3"; "4"]] (NmList [Some "a"; Some "b"]) (NmBool false) false None None true = Ok (d, NFalse, NFalse)) /\
  (exists d, lc [["1"; "2"]] (NmList [Some "a"]) (NmList [Some "u"; Some "v"]) false None None true = Ok (d, NFalse, NFalse)) /\
  (exists d, lc [[""; "x"]; ["a"; "1"]; ["b"; "2"]] (NmList [Some "p"; Some "q"]) (NmBool true) false None None true = Ok (d, NL [Some "a"; Some "b"], NL [Some "x"])) /\
  (exists d, lc [[""; "x"]; ["a"; "1"]; ["b"; "2"]] (NmBool false) (NmBool true) false None None true = Ok (d, NL [Some "a"; Some "b"], NL [Some "x"])) /\
  lc [[""; "1"]; ["a"; "2"]] (NmBool false) (NmList [Some "u"; Some "v"]) false None None true =
    Ok ([[LInt "1"]; [LInt "2"]], NL [Some "u"; Some "v"], NL [Some "u"; Some "v"]) /\
  lc [["1"; "2"]; ["3"; "4"]] NmNone (NmDict [("u", 5%Z)]) false None None true = Err IndexErr /\
  lc [["1"; "2"]; ["3"; "4"]] NmNone (NmDict [("u", (-1)%Z)]) false None None true = Err TypeErr /\
  (exists d, lc [["a"; "a"]; ["1"; "2"]] NmAuto NmAuto false None None true = Ok (d, NFalse, NL [Some "a"; Some "a"])) /\
  (exists d, lc [["1"]; ["2"]; ["3"]; ["4"]] (NmList [Some "a"; Some "b"]) NmNone false None None true = Ok (d, NL [Some "a"; Some "l"; Some "l"], NFalse)) /\
  lc [["1"]; ["2"]; ["3"]; ["4"]; ["5"]] (NmList [Some "a"; Some "b"; Some "c"; Some "d"]) NmNone false None None true = Err IndexErr.
Proof. cbv zeta. repeat split; try reflexivity; eexists; reflexivity. Qed.
Print Assumptions C25_csv_names_refuted.

(** ** C26: keepPoints and keepFeatures *)
(** the kept points and features, in the requested order, with their names *)
Theorem C26_csv_keep_partial : forall isInt isFloat, ParseOracle isInt isFloat ->
  forall raw pnArg fnArg pn fn keepP keepF eim pa fa rows body n P F,
  Explicit raw pnArg fnArg pn fn -> ReadsFts pn fn raw fa rows -> ReadsPts pn rows pa body -> (forall r, In r body -> List.length r = n) -> 0 < n ->
  Fits fa n -> Fits pa (List.length body) -> Kept (List.length body) pa keepP P -> ~ Ambiguous pa (List.length body) keepP ->
  Kept n fa keepF F -> FeatOk fa n keepF F -> keepF <> None \/ ~ Trailing eim body P fa n ->
  exists data, loadCsv isInt isFloat raw pnArg fnArg false keepP keepF eim = Ok (data, keptNames pa P, keptNames fa F) /\
    DataIs isInt isFloat eim body P F data.
Proof.
  intros isInt isFloat O raw pnArg fnArg pn fn keepP keepF eim pa fa rows body n P F EX RF RP HB Np FF FP KP NA KF FO H.
  rewrite (Explicit_load isInt isFloat _ _ _ _ _ _ _ _ _ EX). exact (load_selects isInt isFloat O _ _ _ _ _ _ _ _ _ _ _ _ _ RF RP HB Np FF FP KP NA KF FO H).
Qed.
Print Assumptions C26_csv_keep_partial.
Example C26_keep_case :
  let raw := [["id"; "x"; "y"; "z"]; ["a"; "1"; "t"; "3"]; ["b"; "2"; "u"; "2.5"]; ["c"; "3"; "v"; "5"]] in
  Explicit raw (NmBool true) (NmBool true) NTrue NTrue /\
  Kept 3 (AFile [Some "a"; Some "b"; Some "c"]) (Some [KStr "c"; KInt 0]) [2; 0] /\ Kept 3 (AFile [Some "x"; Some "y"; Some "z"]) (Some [KInt 2; KStr "x"]) [2; 0] /\
  loadCsv exInt exFloat raw (NmBool true) (NmBool true) false (Some [KStr "c"; KInt 0]) (Some [KInt 2; KStr "x"]) true =
    Ok ([[LInt "5"; LInt "3"]; [LInt "3"; LInt "1"]], NL [Some "c"; Some "a"], NL [Some "z"; Some "x"]).
Proof.
  assert (U : forall (x y z s : string) k, nth_error [Some x; Some y; Some z] k = Some (Some s) -> k < 3) by (intros x y z s [|[|[|k]]] H; try lia; destruct k; discriminate).
  split; [|split; [|split; [|reflexivity]]].
  - eexists _, _, _. split; [reflexivity|]. split; [eexists _, _; repeat split; discriminate|]. repeat split. left. discriminate.
  - constructor; [|repeat constructor; cbn; lia|exact I]. constructor; [|constructor; [|constructor]]; (split; [lia|]); [split; [reflexivity|]|reflexivity].
    intros k' H. destruct k' as [|[|[|k]]]; try discriminate; [reflexivity|]. apply U in H. lia.
  - constructor; [|repeat constructor; cbn; lia|exact I]. constructor; [|constructor; [|constructor]]; (split; [lia|]); [reflexivity|split; [reflexivity|]].
    intros k' H. destruct k' as [|[|[|k]]]; try discriminate; [reflexivity|]. apply U in H. lia.
Qed.
(** lines that all end with the separator: the empty last column is not a
    feature *)
Theorem C26_csv_trailing_separator : forall isInt isFloat, ParseOracle isInt isFloat ->
  forall raw pnArg fnArg pn fn keepP eim pa fa rows body n P,
  Explicit raw pnArg fnArg pn fn -> ReadsFts pn fn raw fa rows -> ReadsPts pn rows pa body -> (forall r, In r body -> List.length r = n) -> 0 < n ->
  Fits fa n -> Fits pa (List.length body) -> Kept (List.length body) pa keepP P -> ~ Ambiguous pa (List.length body) keepP ->
  Trailing eim body P fa n ->
  exists data, loadCsv isInt isFloat raw pnArg fnArg false keepP None eim = Ok (data, keptNames pa P, cutNames fa n) /\
    DataIs isInt isFloat eim body P (seq 0 (n - 1)) data.
Proof.
  intros isInt isFloat O raw pnArg fnArg pn fn keepP eim pa fa rows body n P EX RF RP HB Np FF FP KP NA H.
  rewrite (Explicit_load isInt isFloat _ _ _ _ _ _ _ _ _ EX).
  refine (load_trailing isInt isFloat O _ _ _ _ None _ _ _ _ _ _ _ (seq 0 n) RF RP HB Np FF FP KP NA _ I eq_refl H).
  constructor. destruct H as [_ [_ [_ [_ H]]]]. destruct fa; auto.
Qed.
Print Assumptions C26_csv_trailing_separator.
Example C26_trailing_case :
  Trailing true [["1"; ""]; ["2"; ""]] [0; 1] (AFile [Some "x"; None]) 2 /\
  loadCsv exInt exFloat [["x"; ""]; ["1"; ""]; ["2"; ""]] (NmBool false) (NmBool true) false None None true = Ok ([[LInt "1"]; [LInt "2"]], NFalse, NL [Some "x"]).
Proof.
  split; [|reflexivity]. split; [reflexivity|]. split; [lia|]. split; [discriminate|]. split; [|reflexivity]. intros v [<-|[<-|[]]]; reflexivity.
Qed.
(** ignoreNonNumericalFeatures drops exactly the features of text *)
Theorem C26_csv_numeric_only : forall isInt isFloat, ParseOracle isInt isFloat ->
  forall raw pnArg fnArg pn fn keepP keepF eim pa fa rows body n P F,
  Explicit raw pnArg fnArg pn fn -> ReadsFts pn fn raw fa rows -> ReadsPts pn rows pa body -> (forall r, In r body -> List.length r = n) -> 0 < n ->
  Fits fa n -> Fits pa (List.length body) -> Kept (List.length body) pa keepP P -> ~ Ambiguous pa (List.length body) keepP ->
  Kept n fa keepF F -> FeatOk fa n keepF F -> P <> [] -> keepF <> None \/ ~ Trailing eim body P fa n ->
  exists data keep, loadCsv isInt isFloat raw pnArg fnArg true keepP keepF eim = Ok (data, keptNames pa P, chosenNames keep (keptNames fa F)) /\
    NotText isInt isFloat eim body P F keep /\ DataIs isInt isFloat eim body P (chosen keep F 0) data.
Proof.
  intros isInt isFloat O raw pnArg fnArg pn fn keepP keepF eim pa fa rows body n P F EX RF RP HB Np FF FP KP NA KF FO NP H.
  rewrite (Explicit_load isInt isFloat _ _ _ _ _ _ _ _ _ EX). exact (load_numeric isInt isFloat O _ _ _ _ _ _ _ _ _ _ _ _ _ RF RP HB Np FF FP KP NA KF FO NP H).
Qed.
Print Assumptions C26_csv_numeric_only.
Example C26_numeric_case : loadCsv exInt exFloat [["x"; "y"; "z"]; ["1"; "t"; "2.5"]; ["2"; "u"; "3"]] (NmBool false) (NmBool true) true None None true =
  Ok ([[LInt "1"; LFloat "2.5"]; [LInt "2"; LFloat "3"]], NFalse, NL [Some "x"; Some "z"]).
Proof. reflexivity. Qed.
(** identifiers that do not denote distinct points are refused *)
Theorem C26_csv_unknown_points : forall isInt isFloat raw pnArg fnArg pn fn ign ids keepF eim pa fa rows body n F,
  Explicit raw pnArg fnArg pn fn -> ReadsFts pn fn raw fa rows -> ReadsPts pn rows pa body -> (forall r, In r body -> List.length r = n) -> 0 < n ->
  Fits fa n -> Fits pa (List.length body) -> Kept n fa keepF F -> FeatOk fa n keepF F ->
  (match pa with AKept l => List.length l = List.length ids | _ => True end) -> Unambiguous (namesIn pa) ids ->
  (forall P, Forall2 (fun id i => i < List.length body /\ Matches (namesIn pa) id i) ids P -> ~ NoDup P) ->
  loadCsv isInt isFloat raw pnArg fnArg ign (Some ids) keepF eim = Err InvalidArgumentValue.
Proof.
  intros isInt isFloat raw pnArg fnArg pn fn ign ids keepF eim pa fa rows body n F EX.
  rewrite (Explicit_load isInt isFloat _ _ _ _ _ _ _ _ _ EX). apply refuse_points.
Qed.
Print Assumptions C26_csv_unknown_points.
Example C26_unknown_points_case :
  (forall P, Forall2 (fun id i => i < 2 /\ Matches [Some "a"; Some "b"] id i) [KStr "b"; KInt 1] P -> ~ NoDup P) /\
  loadCsv exInt exFloat [["id"; "x"]; ["a"; "1"]; ["b"; "2"]] (NmBool true) (NmBool true) false (Some [KStr "b"; KInt 1]) None true = Err InvalidArgumentValue /\
  loadCsv exInt exFloat [["id"; "x"]; ["a"; "1"]; ["b"; "2"]] (NmBool true) (NmBool true) false (Some [KInt 2]) None true = Err InvalidArgumentValue.
Proof.
  split; [|split; reflexivity]. intros P H. inversion H as [|? p ? P1 [L1 M1] H1]; subst. inversion H1 as [|? q ? P2 [L2 M2] H2]; subst. inversion H2; subst.
  cbn in M1, M2. assert (q = 1) by lia. subst q. destruct p as [|[|p]]; [discriminate| |lia]. intros ND. inversion ND as [|? ? NI _]; subst. apply NI. left. reflexivity.
Qed.
Theorem C26_csv_duplicate_points : forall isInt isFloat raw pnArg fnArg pn fn ign ids keepF eim fa rows n F,
  Explicit raw pnArg fnArg pn fn -> ReadsFts pn fn raw fa rows -> 0 < n -> Fits fa n -> Kept n fa keepF F -> FeatOk fa n keepF F -> ~ NoDup ids ->
  loadCsv isInt isFloat raw pnArg fnArg ign (Some ids) keepF eim = Err InvalidArgumentValue.
Proof.
  intros isInt isFloat raw pnArg fnArg pn fn ign ids keepF eim fa rows n F EX.
  rewrite (Explicit_load isInt isFloat _ _ _ _ _ _ _ _ _ EX). apply refuse_points_dup.
Qed.
Print Assumptions C26_csv_duplicate_points.
(** identifiers that do not denote distinct features of a named file *)
Theorem C26_csv_unknown_features : forall isInt isFloat raw pnArg fnArg pn fn ign keepP ids eim fa rows n l,
  Explicit raw pnArg fnArg pn fn -> ReadsFts pn fn raw fa rows -> 0 < n -> Fits fa n -> (fa = AFile l \/ (fa = AGiven l /\ List.length ids <> n)) ->
  (forall F, Forall2 (fun id k => k < n /\ Matches l id k) ids F -> ~ NoDup F) ->
  loadCsv isInt isFloat raw pnArg fnArg ign keepP (Some ids) eim = Err InvalidArgumentValue.
Proof.
  intros isInt isFloat raw pnArg fnArg pn fn ign keepP ids eim fa rows n l EX.
  rewrite (Explicit_load isInt isFloat _ _ _ _ _ _ _ _ _ EX). apply refuse_features.
Qed.
Print Assumptions C26_csv_unknown_features.
Theorem C26_csv_unnamed_features : forall isInt isFloat raw pnArg fnArg pn fn ign keepP ids eim fa rows n,
  Explicit raw pnArg fnArg pn fn -> ReadsFts pn fn raw fa rows -> Fits fa n -> (fa = ANone \/ exists l, fa = AKept l /\ List.length l = List.length ids) ->
  ((exists s, In (KStr s) ids) \/ (exists z, In (KInt z) ids /\ (z < 0)%Z) \/ ~ NoDup ids) ->
  loadCsv isInt isFloat raw pnArg fnArg ign keepP (Some ids) eim = Err InvalidArgumentValue.
Proof.
  intros isInt isFloat raw pnArg fnArg pn fn ign keepP ids eim fa rows n EX.
  rewrite (Explicit_load isInt isFloat _ _ _ _ _ _ _ _ _ EX). apply refuse_features_named.
Qed.
Print Assumptions C26_csv_unnamed_features.
Example C26_unknown_features_case :
  loadCsv exInt exFloat [["x"; "y"]; ["1"; "2"]] (NmBool false) (NmBool true) false None (Some [KStr "w"]) true = Err InvalidArgumentValue /\
  loadCsv exInt exFloat [["x"; "y"]; ["1"; "2"]] (NmBool false) (NmBool true) false None (Some [KStr "x"; KInt 0]) true = Err InvalidArgumentValue /\
  loadCsv exInt exFloat [["1"; "2"]; ["3"; "4"]] (NmBool false) (NmBool false) false None (Some [KInt (-1)]) true = Err InvalidArgumentValue.
Proof. repeat split; reflexivity. Qed.
(** as many kept points as points and a list of names as long: which one the
    list names is ambiguous and refused *)
Theorem C26_csv_ambiguous_names : forall isInt isFloat raw pnArg fnArg pn fn ign ids keepF eim l fa rows body n F P,
  Explicit raw pnArg fnArg pn fn -> ReadsFts pn fn raw fa rows -> pn = NL l -> l <> [] -> rows = body -> (forall r, In r body -> List.length r = n) -> 0 < n ->
  Fits fa n -> Kept n fa keepF F -> FeatOk fa n keepF F ->
  List.length l = List.length body -> List.length ids = List.length body -> Forall2 (Denotes l (List.length body)) ids P -> NoDup P ->
  loadCsv isInt isFloat raw pnArg fnArg ign (Some ids) keepF eim = Err InvalidArgumentValue.
Proof.
  intros isInt isFloat raw pnArg fnArg pn fn ign ids keepF eim l fa rows body n F P EX.
  rewrite (Explicit_load isInt isFloat _ _ _ _ _ _ _ _ _ EX). apply refuse_ambiguous.
Qed.
Print Assumptions C26_csv_ambiguous_names.
Example C26_ambiguous_case : loadCsv exInt exFloat [["1"]; ["2"]] (NmList [Some "a"; Some "b"]) NmNone false (Some [KInt 1; KInt 0]) None true = Err InvalidArgumentValue.
Proof. reflexivity. Qed.

(** requests that are not honoured: (1) with possible point names that repeat,
    the last feature stays text; (2) an index one beyond the features of an
    unnamed file gives IndexError; (3) all features of an unnamed file in
    another order, (4) two unnamed features of a file with a header, by index,
    are refused; (5) a point name that occurs twice together with an unknown
    one gives TypeError; (6) a point name found by the automatic names is
    refused, its index gives the name *)
Theorem C26_csv_keep_refuted :
  let lc := loadCsv exInt exFloat in
  lc [[""; "x"; "y"]; ["1"; "2"; "3"]; ["4"; "5"; "6"]; ["1"; "5"; "7"]] NmAuto NmAuto false None None true =
    Ok ([[LInt "1"; LInt "2"; LStr "3"]; [LInt "4"; LInt "5"; LStr "6"]; [LInt "1"; LInt "5"; LStr "7"]], NFalse, NL [None; Some "x"; Some "y"]) /\
  lc [["1"; "2"]; ["3"; "4"]] (NmBool false) (NmBool false) false None (Some [KInt 2]) true = Err IndexErr /\
  lc [["1"; "2"]; ["3"; "4"]] (NmBool false) (NmBool false) false None (Some [KInt 1; KInt 0]) true = Err InvalidArgumentValue /\
  lc [["x"; ""; ""]; ["1"; "2"; "3"]] (NmBool false) (NmBool true) false None (Some [KInt 1; KInt 2]) true = Err InvalidArgumentValue /\
  lc [["x"; "y"]; ["a"; "1"]; ["a"; "2"]; ["b"; "3"]] (NmBool true) (NmBool true) false (Some [KStr "a"; KStr "c"]) None true = Err TypeErr /\
  lc [[""; "x"]; ["a"; "1"]; ["b"; "2"]] NmAuto NmAuto false (Some [KStr "b"]) None true = Err InvalidArgumentValue /\
  lc [[""; "x"]; ["a"; "1"]; ["b"; "2"]] NmAuto NmAuto false (Some [KInt 1]) None true = Ok ([[LInt "2"]], NL [Some "b"], NL [Some "x"]).
Proof. cbv zeta. repeat split; reflexivity. Qed.
Print Assumptions C26_csv_keep_refuted.

(** ** C27: types *)
(** a feature whose first kept entry is filled has the type its entries have:
    bool, int, float when all filled entries are such, text otherwise *)
Theorem C27_csv_types_partial : forall isInt isFloat, ParseOracle isInt isFloat ->
  forall raw pnArg fnArg pn fn keepP keepF eim pa fa rows body n P F b j v,
  Explicit raw pnArg fnArg pn fn -> ReadsFts pn fn raw fa rows -> ReadsPts pn rows pa body -> (forall r, In r body -> List.length r = n) -> 0 < n ->
  Fits fa n -> Fits pa (List.length body) -> Kept (List.length body) pa keepP P -> ~ Ambiguous pa (List.length body) keepP ->
  Kept n fa keepF F -> FeatOk fa n keepF F -> keepF <> None \/ ~ Trailing eim body P fa n ->
  nth_error F b = Some j -> nth_error (columnOf (keptRows body P) j) 0 = Some v -> v <> "" ->
  exists data pnm fnm t, loadCsv isInt isFloat raw pnArg fnArg false keepP keepF eim = Ok (data, pnm, fnm) /\
    ColKind isInt isFloat (columnOf (keptRows body P) j) t /\
    forall a i, nth_error P a = Some i -> nth_error (nth a data []) b = Some (loadedAs t (nth j (nth i body []) "")).
Proof.
  intros isInt isFloat O raw pnArg fnArg pn fn keepP keepF eim pa fa rows body n P F b j v EX RF RP HB Np FF FP KP NA KF FO H FB V NV.
  destruct (C26_csv_keep_partial isInt isFloat O _ _ _ _ _ _ _ _ _ _ _ _ _ _ _ EX RF RP HB Np FF FP KP NA KF FO H) as [data [E [_ [_ D]]]].
  destruct (D b j FB) as [t [C X]]. exists data, (keptNames pa P), (keptNames fa F), t. split; [exact E|]. split; [|exact X].
  destruct C as [w t W NW K|EM|w W IN NW]; [exact K| |].
  - exfalso. apply NV, EM. eapply nth_error_In. exact V.
  - exfalso. rewrite W in V. injection V as V. exact (NV (eq_sym V)).
Qed.
Print Assumptions C27_csv_types_partial.
(** each kind excludes the others *)
Theorem C27_kind_unique : forall isInt isFloat, ParseOracle isInt isFloat -> forall col t u, ColKind isInt isFloat col t -> ColKind isInt isFloat col u -> t = u.
Proof. exact ColKind_fun. Qed.
Print Assumptions C27_kind_unique.
(** the order of the lines does not matter as long as the first line is filled:
    loading the reordered file gives the reordered data and names *)
Theorem C27_csv_row_order_partial : forall isInt isFloat, ParseOracle isInt isFloat ->
  forall pnArg fnArg pn fn raw raw' pa fa rows body n p eim,
  Explicit raw pnArg fnArg pn fn -> Explicit raw' pnArg fnArg pn fn ->
  pn = NFalse \/ pn = NTrue -> ReadsFts pn fn raw fa rows -> ReadsFts pn fn raw' fa (reorder rows p []) -> ReadsPts pn rows pa body ->
  (forall r, In r body -> List.length r = n) -> 0 < n -> Fits fa n -> (match fa with AKept _ => False | _ => True end) ->
  Permutation p (seq 0 (List.length body)) -> FirstFilled body -> FirstFilled (reorder body p []) ->
  exists data names fnames,
    loadCsv isInt isFloat raw pnArg fnArg false None None eim = Ok (data, names, fnames) /\
    loadCsv isInt isFloat raw' pnArg fnArg false None None eim = Ok (reorder data p [], reorderNm names p, fnames).
Proof.
  intros isInt isFloat O pnArg fnArg pn fn raw raw' pa fa rows body n p eim EX EX'.
  rewrite (Explicit_load isInt isFloat _ _ _ _ _ _ _ _ _ EX), (Explicit_load isInt isFloat _ _ _ _ _ _ _ _ _ EX'). apply row_order. exact O.
Qed.
Print Assumptions C27_csv_row_order_partial.
Example C27_row_order_case :
  loadCsv exInt exFloat [["id"; "x"; "y"]; ["a"; "1"; "t"]; ["b"; ""; "2"]; ["c"; "2.5"; "3"]] (NmBool true) (NmBool true) false None None true =
    Ok ([[LFloat "1"; LStr "t"]; [LNaN; LStr "2"]; [LFloat "2.5"; LStr "3"]], NL [Some "a"; Some "b"; Some "c"], NL [Some "x"; Some "y"]) /\
  loadCsv exInt exFloat [["id"; "x"; "y"]; ["c"; "2.5"; "3"]; ["a"; "1"; "t"]; ["b"; ""; "2"]] (NmBool true) (NmBool true) false None None true =
    Ok ([[LFloat "2.5"; LStr "3"]; [LFloat "1"; LStr "t"]; [LNaN; LStr "2"]], NL [Some "c"; Some "a"; Some "b"], NL [Some "x"; Some "y"]) /\
  Permutation [2; 0; 1] (seq 0 3).
Proof. split; [reflexivity|]. split; [reflexivity|]. cbn. apply perm_trans with [0; 2; 1]; [apply perm_swap|apply perm_skip, perm_swap]. Qed.
(** with a blank entry first a numeric feature stays text: the types depend on
    the order of the lines *)
Theorem C27_csv_row_order_refuted :
  loadCsv exInt exFloat [["x"; "y"]; ["1"; "1"]; [""; "2"]] (NmBool false) (NmBool true) false None None true =
    Ok ([[LInt "1"; LInt "1"]; [LNaN; LInt "2"]], NFalse, NL [Some "x"; Some "y"]) /\
  loadCsv exInt exFloat [["x"; "y"]; [""; "2"]; ["1"; "1"]] (NmBool false) (NmBool true) false None None true =
    Ok ([[LStr ""; LInt "2"]; [LStr "1"; LInt "1"]], NFalse, NL [Some "x"; Some "y"]).
Proof. split; reflexivity. Qed.
Print Assumptions C27_csv_row_order_refuted.
