(** C61: nimble.data(source, returnType='List') for lists, lists of lists, dicts
    and lists of dicts.  Definitions used in the statements: RawSpec.v. *)
From Verif Require Import Base NamesModel NamesSpec TableModel TableSpec TableOps PrepSpec MatchModel MatchSpec CsvModel RawModel RawSpec RawProofs RawDictProofs RawKeepProofs RawConvProofs RawTypesProofs.
From Coq Require Import QArith Permutation Lia.
Open Scope string_scope.
Open Scope list_scope.
Open Scope nat_scope.

(** *** A list of lists.  Names given as a list, not at all, asked for (True) or
    looked for ('automatic'); at least one element remains. Missing for the full
    statement: names given as a dict, and data without elements, for which the
    statement is false (C61_no_data_refuted). *)
Theorem C61_rows_partial :
  forall strOf T (ET : EqDec T) conv junk m pn fn treat repl hp hf,
  notDict pn -> notDict fn -> Out (FirstColumnIsNames pn fn m) hp -> Out (FirstRowIsNames pn fn m) hf -> valueAt m hf hp <> None ->
  let n := List.length m - hf in let k := width m - hp in
  let ps := namesFrom strOf pn hp (fun i => valueAt m (i + hf) 0) n in
  let fs := namesFrom strOf fn hf (fun j => valueAt m 0 (j + hp)) k in
  let good := (forall x, In x m -> List.length x = width m) /\ NamesFit ps n /\ NamesFit fs k in
  match initData strOf T ET conv junk (RRows m) pn fn CNone None None treat repl true with
  | Ok (r, lo) => lo = [] /\ good /\ Made treat repl n k ps fs (fun i j => valueAt m (i + hf) (j + hp)) r
  | Err e => ~ good /\ (e = InvalidArgumentValue \/ (e = IndexErr /\ hp = 1 /\ In [] m))
  end.
Proof. exact rows_main. Qed.
Print Assumptions C61_rows_partial.
(** *** A flat list is one point. Names of features are never looked for in it,
    and asking for them fails (C61_flat_names_refuted). *)
Theorem C61_flat_partial :
  forall strOf T (ET : EqDec T) conv junk l pn fn treat repl hp,
  notDict pn -> notDict fn -> fn <> NmBool true -> Out (pn = NmBool true) hp -> hp < List.length l ->
  let k := List.length l - hp in
  let ps := namesFrom strOf pn hp (fun _ => nth_error l 0) 1 in
  let fs := explicitNames fn k in
  let good := NamesFit ps 1 /\ NamesFit fs k in
  match initData strOf T ET conv junk (RFlat l) pn fn CNone None None treat repl true with
  | Ok (r, lo) => lo = [] /\ good /\ Made treat repl 1 k ps fs (fun _ j => nth_error l (j + hp)) r
  | Err e => ~ good /\ e = InvalidArgumentValue
  end.
Proof. exact flat_main. Qed.
Print Assumptions C61_flat_partial.
(** *** A dict of lists: a point for each key, in the order of the given names.
    Missing: feature names looked for in rows of text (C61_dict_header_refuted),
    names given as a dict. *)
Theorem C61_dict_rows_partial :
  forall strOf T (ET : EqDec T) conv junk d pn fn treat repl w,
  d <> [] -> NoDup (map fst d) -> notDict pn -> notDict fn -> NoHeaderRow fn (map snd d) -> 0 < w ->
  (exists s vs, In (s, vs) d /\ List.length vs = w) -> (forall s vs, In (s, vs) d -> vs <> []) ->
  let keys := map fst d in let n := List.length d in
  let good := KeysFit pn keys /\ (forall s vs, In (s, vs) d -> List.length vs = w) /\ NamesFit (explicitNames fn w) w in
  match initData strOf T ET conv junk (RDictRows d) pn fn CNone None None treat repl true with
  | Ok (r, lo) => lo = [] /\ good /\ exists order, UsedInOrder pn keys order /\
      Made treat repl n w (keyNames pn keys) (explicitNames fn w)
        (fun i j => match nth_error order i with Some a => valueAt (map snd d) a j | None => None end) r
  | Err e => ~ good /\ (e = InvalidArgumentValue \/ (e = TypeErr /\ exists l, pn = NmList l /\ In None l))
  end.
Proof. exact dict_rows_main. Qed.
Print Assumptions C61_dict_rows_partial.
(** *** A dict of values: a point with one element for each key. The names given
    for the features are not used (C61_dict_values_refuted). *)
Theorem C61_dict_values_partial :
  forall strOf T (ET : EqDec T) conv junk d pn fn treat repl,
  d <> [] -> NoDup (map fst d) -> notDict pn ->
  let keys := map fst d in let n := List.length d in
  match initData strOf T ET conv junk (RDictVals d) pn fn CNone None None treat repl true with
  | Ok (r, lo) => lo = [] /\ KeysFit pn keys /\ exists order, UsedInOrder pn keys order /\
      Made treat repl n 1 (keyNames pn keys) [None] (fun i _ => match nth_error order i with Some a => nth_error (map snd d) a | None => None end) r
  | Err e => ~ KeysFit pn keys /\ (e = InvalidArgumentValue \/ (e = TypeErr /\ exists l, pn = NmList l /\ In None l))
  end.
Proof. exact dict_vals_main. Qed.
Print Assumptions C61_dict_values_partial.
(** *** A list of dicts: a point for each dict, a feature for each key of the
    first one, in the order of the given names; all dicts must have the same
    keys. Missing: names given as a dict, a first dict without keys. *)
Theorem C61_list_of_dicts_partial :
  forall strOf T (ET : EqDec T) conv junk first rest pn fn treat repl,
  map fst first <> [] -> NoDup (map fst first) -> notDict pn -> notDict fn -> pn <> NmBool true ->
  let keys := map fst first in let n := S (List.length rest) in let k := List.length keys in
  let good := KeysFit fn keys /\ (forall row, In row rest -> forall s, In s (map fst row) <-> In s keys) /\ NamesFit (explicitNames pn n) n in
  match initData strOf T ET conv junk (RDicts (first :: rest)) pn fn CNone None None treat repl true with
  | Ok (r, lo) => lo = [] /\ good /\ exists ks, Permutation ks keys /\ (match fn with NmList l => map Some ks = l | _ => ks = keys end) /\
      Made treat repl n k (explicitNames pn n) (keyNames fn keys)
        (fun i j => match nth_error (first :: rest) i, nth_error ks j with Some row, Some s => dget s row | _, _ => None end) r
  | Err e => ~ good /\ (e = InvalidArgumentValue \/ (e = TypeErr /\ exists l, fn = NmList l /\ In None l))
  end.
Proof. exact dicts_main. Qed.
Print Assumptions C61_list_of_dicts_partial.
(** *** keepPoints and keepFeatures, whatever the source: the points and features
    of the object made without them that the identifiers mean, in the order of the
    identifiers; and identifiers counted from the start that mean different points
    are accepted, unless they list every point and the names were not taken out of
    the data (C61_keep_all_refuted). *)
Theorem C61_keep :
  forall strOf T (ET : EqDec T) conv junk src pn fn keepP keepF treat repl t lo,
  initData strOf T ET conv junk src pn fn CNone None None treat repl true = Ok (t, lo) -> wf t ->
  (forall r lo', initData strOf T ET conv junk src pn fn CNone keepP keepF treat repl true = Ok (r, lo') ->
     lo' = [] /\ exists P F, KeptAre (tp t) keepP P /\ KeptAre (tf t) keepF F /\ NoDup P /\ NoDup F /\ subTable t P F r) /\
  (forall P F, KeptAre (tp t) keepP P -> KeptAre (tf t) keepF F -> NoDup P -> NoDup F -> KeepClear pn (tp t) keepP -> KeepClear fn (tf t) keepF ->
     exists r, initData strOf T ET conv junk src pn fn CNone keepP keepF treat repl true = Ok (r, [])).
Proof. exact keep_main. Qed.
Print Assumptions C61_keep.
(** *** convertToType: each element of the object made without it is converted to
    the one type asked for its feature; or an element cannot be converted, or the
    list is of the wrong length, or two types are asked for a feature, or the dict
    has something that is no feature. *)
Theorem C61_convert :
  forall strOf T (ET : EqDec T) conv junk src pn fn c keepP treat repl t lo,
  initData strOf T ET conv junk src pn fn CNone keepP None treat repl true = Ok (t, lo) -> wf t -> okDict c ->
  match initData strOf T ET conv junk src pn fn c keepP None treat repl true with
  | Ok (r, _) => Converted conv c t r
  | Err e => CannotConvert conv t c e
  end.
Proof. exact convert_main. Qed.
Print Assumptions C61_convert.
(** *** convertToType with keepFeatures: the types are those of the kept features
    (a list for all features is limited to them); an index in the dict is refused. *)
Theorem C61_convert_kept :
  forall strOf T (ET : EqDec T) conv junk src pn fn c keepP kf treat repl t0 lo0 t lo,
  initData strOf T ET conv junk src pn fn CNone None None treat repl true = Ok (t0, lo0) -> wf t0 ->
  initData strOf T ET conv junk src pn fn CNone keepP (Some kf) treat repl true = Ok (t, lo) -> okDict c ->
  exists F, KeptAre (tf t0) (Some kf) F /\
  match initData strOf T ET conv junk src pn fn c keepP (Some kf) treat repl true with
  | Ok (r, _) => Converted conv (keptTypes (alen (tf t0)) F c) t r /\ ~ HasIndexKey c
  | Err e => CannotConvert conv t (keptTypes (alen (tf t0)) F c) e \/ (HasIndexKey c /\ e = InvalidArgumentTypeCombination)
  end.
Proof. exact convert_kept. Qed.
Print Assumptions C61_convert_kept.
(** *** A dict with a key that is no name, or an index past the end, is refused
    (for negative indices see C61_negative_key_refuted). *)
Theorem C61_convert_keys :
  forall strOf T (ET : EqDec T) conv junk src pn fn d keepP keepF treat repl t0 lo0 r lo,
  initData strOf T ET conv junk src pn fn CNone None None treat repl true = Ok (t0, lo0) -> wf t0 -> notDict fn ->
  initData strOf T ET conv junk src pn fn (CDict d) keepP keepF treat repl true = Ok (r, lo) ->
  forall k x, In (k, x) d -> match k with KInt z => (z < Z.of_nat (alen (tf t0)))%Z | KStr s => In (Some s) (getNames (tf t0)) end.
Proof. exact convert_keys. Qed.
Print Assumptions C61_convert_keys.
(** *** rowsArePoints=False is the transpose of the object made with the two
    arguments for names swapped. *)
Theorem C61_rows_as_features :
  forall strOf T (ET : EqDec T) conv junk src pn fn treat repl,
  initData strOf T ET conv junk src pn fn CNone None None treat repl false =
  match initData strOf T ET conv junk src fn pn CNone None None treat repl true with Ok (r, d) => Ok (transpose r, d) | Err e => Err e end.
Proof. exact turned. Qed.
Print Assumptions C61_rows_as_features.

(** *** Examples. The types are float and str. *)
Inductive exType := ExFloat | ExStr.
Global Instance exType_eqdec : EqDec exType. Proof. intros a b. decide equality. Defined.
Definition exConv (c : exType) (v : pval) : result pval :=
  match c, v with ExFloat, PInt z => Ok (PFloat (inject_Z z)) | ExFloat, PStr _ => Err ValueErr | ExStr, PInt _ => Ok (PStr "i") | _, _ => Ok v end.
Definition exStr (v : pval) : string := match v with PStr s => s | _ => "?" end.
Definition exJunk (x : pval) (i j : nat) : pval := x.
Definition exMake (src : raw) (pn fn : nmArg) (c : convArg exType) kp kf (turn : bool) :=
  initData exStr exType exType_eqdec exConv (exJunk PNone) src pn fn c kp kf (Some [PNaN; PStr ""]) PNaN turn.
(** the rows and the names of the result *)
Definition view (r : result (table pval * list (kid * exType))) :=
  match r with Ok (t, _) => Ok (rows t, getNames (tp t), getNames (tf t)) | Err e => Err e end.
Definition exRows := RRows [[PStr "pointNames"; PStr "a"; PStr "b"]; [PStr "x"; PInt 1; PStr ""]; [PStr "y"; PInt 2; PInt 3]].
Example C61_rows_witness : view (exMake exRows NmAuto NmAuto CNone None None true) = Ok ([[PInt 1; PNaN]; [PInt 2; PInt 3]], [Some "x"; Some "y"], [Some "a"; Some "b"]).
Proof. vm_compute. reflexivity. Qed.
Example C61_rows_hyp : exists m hp hf, Out (FirstColumnIsNames NmAuto NmAuto m) hp /\ Out (FirstRowIsNames NmAuto NmAuto m) hf /\ valueAt m hf hp <> None /\ hf = 0 /\ hp = 0.
Proof.
  exists [[PInt 1; PInt 2]], 0, 0. assert (F : ~ FirstRowIsNames NmAuto NmAuto [[PInt 1; PInt 2]]).
  { intros [H|[_ [[_ H] _]]]; [discriminate|]. apply H. reflexivity. }
  repeat split; auto; try (right; split; auto; fail). - right. split; auto. intros [H|[_ [H _]]]; [discriminate|]. auto. - discriminate.
Qed.
Example C61_dict_witness : view (exMake (RDictRows [("a", [PInt 1; PInt 2]); ("b", [PInt 3; PInt 4])]) (NmList [Some "b"; Some "a"]) (NmList [Some "f"; Some "g"]) CNone None None true)
  = Ok ([[PInt 3; PInt 4]; [PInt 1; PInt 2]], [Some "b"; Some "a"], [Some "f"; Some "g"]).
Proof. vm_compute. reflexivity. Qed.
Example C61_dicts_witness : view (exMake (RDicts [[("a", PInt 1); ("b", PInt 2)]; [("b", PInt 4); ("a", PInt 3)]]) NmAuto (NmList [Some "b"; Some "a"]) CNone None None true)
  = Ok ([[PInt 2; PInt 1]; [PInt 4; PInt 3]], [None; None], [Some "b"; Some "a"]).
Proof. vm_compute. reflexivity. Qed.
Example C61_keep_witness : view (exMake exRows NmAuto NmAuto CNone (Some [KStr "y"]) (Some [KInt 1]) true) = Ok ([[PInt 3]], [Some "y"], [Some "b"]).
Proof. vm_compute. reflexivity. Qed.
Example C61_convert_kept_witness : view (exMake exRows NmAuto NmAuto (CList [Some ExStr; Some ExFloat]) None (Some [KInt 1]) true)
  = view (exMake exRows NmAuto NmAuto (CList [Some ExFloat]) None (Some [KStr "b"]) true) /\
  view (exMake exRows NmAuto NmAuto (CList [Some ExStr; Some ExFloat; None]) None (Some [KInt 1]) true) = Err InvalidArgumentValue.
Proof. split; vm_compute; reflexivity. Qed.
Example C61_convert_witness : view (exMake exRows NmAuto NmAuto (CDict [(KStr "b", ExFloat); (KInt 0, ExStr)]) None None true)
  = Ok ([[PStr "i"; PNaN]; [PStr "i"; PFloat (inject_Z 3)]], [Some "x"; Some "y"], [Some "a"; Some "b"]).
Proof. vm_compute. reflexivity. Qed.

(** *** What a user may expect and does not hold. *)
(** Data without elements, but with names: the elements are whatever np.empty
    finds in memory. *)
Theorem C61_no_data_refuted :
  forall strOf T (ET : EqDec T) conv junk,
  exists r, initData strOf T ET conv junk (RFlat []) (NmList [Some "a"]) (NmList [Some "b"]) CNone None None None PNaN true = Ok (r, []) /\ rows r = [[junk 0 0]].
Proof. intros. eexists. split; reflexivity. Qed.
Print Assumptions C61_no_data_refuted.
Theorem C61_only_header_refuted :
  forall junk, exists r,
  initData exStr exType exType_eqdec exConv junk (RRows [[PStr "a"; PStr "b"]]) (NmList [Some "x"]) (NmBool true) CNone None None None PNaN true = Ok (r, []) /\
  rows r = [[junk 0 0; junk 0 1]].
Proof. intros. eexists. split; reflexivity. Qed.
Print Assumptions C61_only_header_refuted.
Theorem C61_empty_rows_refuted :
  forall strOf T (ET : EqDec T) conv junk, exists r,
  initData strOf T ET conv junk (RRows [[]; []]) NmNone (NmList [Some "x"]) CNone None None None PNaN true = Ok (r, []) /\
  rows r = [[junk 0 0]; [junk 1 0]].
Proof. intros. eexists. split; reflexivity. Qed.
Print Assumptions C61_empty_rows_refuted.
(** A dict of lists whose first list is text: with featureNames left automatic
    that list becomes the names of the features, and the key has no row. *)
Theorem C61_dict_header_refuted :
  exists d, NoDup (map fst d) /\ view (exMake (RDictRows d) NmNone NmAuto CNone None None true) = Ok ([[PInt 1; PInt 2]], [None], [Some "x"; Some "y"]) /\
    view (exMake (RDictRows d) NmAuto NmAuto CNone None None true) = Err InvalidArgumentValue /\ List.length d = 2.
Proof.
  exists [("a", [PStr "x"; PStr "y"]); ("b", [PInt 1; PInt 2])]. split; [|repeat split; vm_compute; reflexivity].
  repeat constructor; cbn; intuition discriminate.
Qed.
Print Assumptions C61_dict_header_refuted.
(** A dict of values: names given for the features are dropped, even too many. *)
Theorem C61_dict_values_refuted :
  view (exMake (RDictVals [("a", PInt 1)]) NmAuto (NmList [Some "f"]) CNone None None true) = Ok ([[PInt 1]], [Some "a"], [None]) /\
  view (exMake (RDictVals [("a", PInt 1)]) NmAuto (NmList [Some "f"; Some "g"]) CNone None None true) = Ok ([[PInt 1]], [Some "a"], [None]).
Proof. split; vm_compute; reflexivity. Qed.
Print Assumptions C61_dict_values_refuted.
(** An empty dict drops the names given. *)
Theorem C61_empty_dict_refuted :
  view (exMake (RDictRows []) (NmList [Some "a"]) (NmList [Some "f"]) CNone None None true) = Ok ([], [], []).
Proof. vm_compute; reflexivity. Qed.
Print Assumptions C61_empty_dict_refuted.
(** featureNames=True with a flat list: an IndexError, for every list. *)
Theorem C61_flat_names_refuted :
  forall strOf T (ET : EqDec T) conv junk pn l treat repl,
  initData strOf T ET conv junk (RFlat l) pn (NmBool true) CNone None None treat repl true = Err IndexErr.
Proof. exact flat_header. Qed.
Print Assumptions C61_flat_names_refuted.
(** keepPoints naming every point, to reorder them, is refused, if the names were
    given and not found in the data. *)
Theorem C61_keep_all_refuted :
  forall strOf T (ET : EqDec T) conv junk src pn fn ids treat repl t lo,
  initData strOf T ET conv junk src pn fn CNone None None treat repl true = Ok (t, lo) ->
  pn <> NmBool true -> List.length ids = alen (tp t) ->
  exists e, initData strOf T ET conv junk src pn fn CNone (Some ids) None treat repl true = Err e.
Proof. exact keep_all_refused. Qed.
Print Assumptions C61_keep_all_refuted.
(** keepPoints with rowsArePoints=False keeps features. *)
Theorem C61_keep_turned_refuted :
  let src := RRows [[PInt 1; PInt 2]; [PInt 3; PInt 4]] in
  view (exMake src NmNone NmNone CNone None None false) = Ok ([[PInt 1; PInt 3]; [PInt 2; PInt 4]], [None; None], [None; None]) /\
  view (exMake src NmNone NmNone CNone (Some [KInt 0]) None false) = Ok ([[PInt 1]; [PInt 2]], [None; None], [None]).
Proof. split; vm_compute; reflexivity. Qed.
Print Assumptions C61_keep_turned_refuted.
(** The caller's dict for convertToType comes back without the items used. *)
Theorem C61_callers_dict_refuted :
  exists r, exMake (RRows [[PInt 1; PInt 2]]) NmNone (NmList [Some "a"; Some "b"]) (CDict [(KStr "a", ExFloat); (KInt 1, ExStr)]) None None true = Ok (r, []).
Proof. eexists. vm_compute. reflexivity. Qed.
Print Assumptions C61_callers_dict_refuted.
(** A negative index in that dict is accepted and converts nothing. *)
Theorem C61_negative_key_refuted :
  view (exMake (RRows [[PInt 1; PInt 2]]) NmNone (NmList [Some "a"; Some "b"]) (CDict [(KInt (-1), ExFloat)]) None None true) = Ok ([[PInt 1; PInt 2]], [None], [Some "a"; Some "b"]) /\
  ~ IsFeature (mkAxis 2 None) (KInt (-1)).
Proof. split; [vm_compute; reflexivity|]. cbn. lia. Qed.
Print Assumptions C61_negative_key_refuted.
