(** C70: saving to and loading from Matrix Market files. Definitions used in the
    statements: MtxSpec.v, RawSpec.v. *)
From Coq Require Import QArith.
From Coq Require Import Ascii String.
From Verif Require Import Base NamesModel NamesSpec TableModel TableSpec MatchModel CsvModel RawModel RawSpec PrepSpec CsvTextModel MtxModel MtxSpec MtxProofs MtxSaveProofs.
From Coq Require Import List Lia.
Import ListNotations.
Open Scope string_scope.
Open Scope list_scope.
Open Scope nat_scope.

(** *** The names in the comments of a file: exactly those described by
    [FileNames], for every file. *)
Theorem C70_names_read : forall file p f,
  FileNames file p f <-> readNames (linesOf file) false None None = (p, f).
Proof. exact fileNames_spec. Qed.
Print Assumptions C70_names_read.

(** *** A dense file with at least one row is read as the matrix whose columns
    its numbers list, and only if there are exactly as many as its size says. *)
Theorem C70_dense_read : forall floatOf mmOther nr nc cs bs rest data, 0 < nr -> Forall CommentLine cs -> Forall BlankLine bs ->
  (mmread floatOf mmOther (denseHead ++ concat cs ++ concat bs ++ sizeLine nr nc ++ rest) = Ok data <->
   exists vs, Values floatOf (linesOf rest) vs /\ List.length vs = nr * nc /\ ByColumns nr nc vs data).
Proof. exact mmread_dense_blank. Qed.
Print Assumptions C70_dense_read.

(** *** A List object saved to a file and loaded again has the same size, names
    and (as numbers) elements. Missing for the full statement: names with commas
    or line ends, a last name that ends in white space and a single empty name,
    for which it is false (C70_comma_refuted, C70_white_refuted,
    C70_newline_refuted, C70_empty_refuted); elements that are not numbers
    (C70_bool_refuted). *)
Theorem C70_list_round_trip_partial :
  forall strOf floatOf mmOther T (ET : EqDec T) conv junk o ps fs vs pn fn treat repl,
  Rectangle o -> AxisIs (mP o) (mNP o) ps -> AxisIs (mF o) (mNF o) fs -> Storable ps -> Storable fs ->
  Elementwise (ReadsAs strOf floatOf) (mRows o) vs ->
  plainArg pn -> plainArg fn -> addsNone ps pn (mNP o) -> addsNone fs fn (mNF o) ->
  exists t r, saveList strOf o true = (t, Ok tt) /\
    loadMtx strOf floatOf mmOther T ET conv junk t pn fn None None treat repl true = Ok r /\
    Made treat repl (mNP o) (mNF o) (Shows ps (mNP o)) (Shows fs (mNF o)) (valueAt vs) r.
Proof. exact list_round. Qed.
Print Assumptions C70_list_round_trip_partial.
(** saved with includeNames=False it comes back without names, whatever they are *)
Theorem C70_list_no_names_partial :
  forall strOf floatOf mmOther T (ET : EqDec T) conv junk o vs pn fn treat repl,
  Rectangle o -> Elementwise (ReadsAs strOf floatOf) (mRows o) vs ->
  plainArg pn -> plainArg fn -> addsNone None pn (mNP o) -> addsNone None fn (mNF o) ->
  exists t r, saveList strOf o false = (t, Ok tt) /\
    loadMtx strOf floatOf mmOther T ET conv junk t pn fn None None treat repl true = Ok r /\
    Made treat repl (mNP o) (mNF o) (repeat None (mNP o)) (repeat None (mNF o)) (valueAt vs) r.
Proof. exact list_round_false. Qed.
Print Assumptions C70_list_no_names_partial.
(** *** Matrix, Sparse and DataFrame objects, which scipy writes, whenever scipy
    reads back this matrix. *)
Theorem C70_scipy_round_trip_partial :
  forall strOf floatOf mmOther T (ET : EqDec T) conv junk asFloat mmHead mmBody st o ps fs vs pn fn treat repl,
  Rectangle o -> AxisIs (mP o) (mNP o) ps -> AxisIs (mF o) (mNF o) fs -> Storable ps -> Storable fs ->
  Elementwise (fun v w => asFloat v = Ok w) (mRows o) vs -> ScipyAgrees (mmread floatOf mmOther) mmHead mmBody vs ->
  plainArg pn -> plainArg fn -> addsNone ps pn (mNP o) -> addsNone fs fn (mNF o) ->
  exists t r, saveScipy asFloat mmHead mmBody st o true = Ok t /\
    loadMtx strOf floatOf mmOther T ET conv junk t pn fn None None treat repl true = Ok r /\
    Made treat repl (mNP o) (mNF o) (Shows ps (mNP o)) (Shows fs (mNF o)) (valueAt vs) r.
Proof. exact scipy_round. Qed.
Print Assumptions C70_scipy_round_trip_partial.
Theorem C70_scipy_no_names_partial :
  forall strOf floatOf mmOther T (ET : EqDec T) conv junk asFloat mmHead mmBody st o vs pn fn treat repl,
  Rectangle o -> Elementwise (fun v w => asFloat v = Ok w) (mRows o) vs -> ScipyAgrees (mmread floatOf mmOther) mmHead mmBody vs ->
  plainArg pn -> plainArg fn -> addsNone None pn (mNP o) -> addsNone None fn (mNF o) ->
  exists t r, saveScipy asFloat mmHead mmBody st o false = Ok t /\
    loadMtx strOf floatOf mmOther T ET conv junk t pn fn None None treat repl true = Ok r /\
    Made treat repl (mNP o) (mNF o) (repeat None (mNP o)) (repeat None (mNF o)) (valueAt vs) r.
Proof. exact scipy_round_false. Qed.
Print Assumptions C70_scipy_no_names_partial.

(** *** Loading: the names of the file, otherwise those of the caller; refused
    exactly if they do not fit. Missing for the full statement: names asked for in
    the data as well (C70_both_refuted), and names given as a dict. *)
Theorem C70_load_partial :
  forall strOf floatOf mmOther T (ET : EqDec T) conv junk t p f data pn fn treat repl k,
  FileNames t p f -> mmread floatOf mmOther t = Ok data -> data <> [] -> 0 < k -> (forall r, In r data -> List.length r = k) ->
  plainArg pn -> plainArg fn ->
  let n := List.length data in let ps := UsedNames p pn n in let fs := UsedNames f fn k in
  match loadMtx strOf floatOf mmOther T ET conv junk t pn fn None None treat repl true with
  | Ok r => NamesFit ps n /\ NamesFit fs k /\ Made treat repl n k ps fs (valueAt data) r
  | Err e => ~ (NamesFit ps n /\ NamesFit fs k) /\ e = InvalidArgumentValue
  end.
Proof. exact load_spec. Qed.
Print Assumptions C70_load_partial.
(** Names in the comments are the names of the object, whatever the caller asks
    for (here with two rows and columns, so that something is left if names are
    also taken out of the data). *)
Theorem C70_comment_names :
  forall strOf floatOf mmOther T (ET : EqDec T) conv junk t ps fs data pn fn treat repl k r,
  FileNames t (Some ps) (Some fs) -> mmread floatOf mmOther t = Ok data -> 2 <= List.length data -> 2 <= k -> (forall r, In r data -> List.length r = k) ->
  loadMtx strOf floatOf mmOther T ET conv junk t pn fn None None treat repl true = Ok r ->
  getNames (tp r) = map Some ps /\ getNames (tf r) = map Some fs.
Proof. exact load_comment. Qed.
Print Assumptions C70_comment_names.
(** keepPoints and keepFeatures keep what they name of what is loaded without
    them *)
Theorem C70_keep_partial :
  forall strOf floatOf mmOther T (ET : EqDec T) conv junk t pn fn keepP keepF treat repl r0, plainArg pn -> plainArg fn ->
  loadMtx strOf floatOf mmOther T ET conv junk t pn fn None None treat repl true = Ok r0 -> wf r0 ->
  (forall r, loadMtx strOf floatOf mmOther T ET conv junk t pn fn keepP keepF treat repl true = Ok r ->
     exists P F, KeptAre (tp r0) keepP P /\ KeptAre (tf r0) keepF F /\ NoDup P /\ NoDup F /\ subTable r0 P F r) /\
  (forall P F, KeptAre (tp r0) keepP P -> KeptAre (tf r0) keepF F -> NoDup P -> NoDup F -> KeepClear pn (tp r0) keepP -> KeepClear fn (tf r0) keepF ->
     exists r, loadMtx strOf floatOf mmOther T ET conv junk t pn fn keepP keepF treat repl true = Ok r).
Proof. exact keep_spec. Qed.
Print Assumptions C70_keep_partial.

(** *** Saving is refused with a TypeError exactly if names are to be written and
    an axis has names for some and none for others. *)
Theorem C70_list_refused : forall strOf o wanted,
  (exists t, saveList strOf o wanted = (t, Err TypeErr)) <-> wanted = true /\ (PartlyNamed (mP o) \/ PartlyNamed (mF o)).
Proof. exact (fun s => list_refused s (fun _ => None) (fun _ => Err ValueErr)). Qed.
Print Assumptions C70_list_refused.
Theorem C70_scipy_refused : forall asFloat mmHead mmBody st o,
  PartlyNamed (mP o) \/ PartlyNamed (mF o) -> saveScipy asFloat mmHead mmBody st o true = Err TypeErr.
Proof. intros. apply scipy_refused; auto; intros; exact None || exact (Err ValueErr). Qed.
Print Assumptions C70_scipy_refused.

(** *** Formats: a path that ends in .csv or .mtx, in any case, is saved and
    loaded in that format, and the reader gets text for csv and bytes for mtx
    unless the content belongs to the other format. *)
Theorem C70_format_csv : forall path ext, PathIs path ext -> AnyCase ext "csv" ->
  saveFormat path None = Ok FCsv /\
  forall content, loadFormat path content = FCsv /\ (streamFits path content = true <-> forall r, content <> chars "%%MatrixMarket" ++ r).
Proof. exact format_csv. Qed.
Print Assumptions C70_format_csv.
Theorem C70_format_mtx : forall path ext, PathIs path ext -> AnyCase ext "mtx" ->
  saveFormat path None = Ok FMtx /\
  forall content, loadFormat path content = FMtx /\ (streamFits path content = true <-> exists r, content = chars "%%MatrixMarket" ++ r).
Proof. exact format_mtx. Qed.
Print Assumptions C70_format_mtx.

(** ** Examples *)
Definition str70 (v : pval) : string :=
  match v with PFloat q => if Qeq_bool q 1 then "1.0" else "2.0" | PBool true => "True" | PStr s => s | _ => "nan" end.
Definition float70 (t : text) : option pval :=
  if sameText t (chars "1.0" ++ [nl]) then Some (PFloat 1)
  else if sameText t (chars "2.0" ++ [nl]) then Some (PFloat 2)
  else if sameText t (chars "nan" ++ [nl]) then Some PNaN else None.
Definition other70 (t : text) : result (list (list pval)) := Err ValueErr.
Definition load70 (t : text) (pn fn : nmArg) := loadMtx str70 float70 other70 nat _ (fun _ v => Ok v) (fun _ _ => PNone) t pn fn None None None PNaN.
Definition one := PFloat 1.
Definition two := PFloat 2.
Definition obj70 ps fs rows : mobj :=
  {| mP := option_map (map Some) ps; mF := option_map (map Some) fs; mRows := rows; mNP := List.length rows; mNF := width rows |}.
Definition good70 : mobj := obj70 (Some ["a"; "b c"]) (Some ["x"; ""; "z"]) [[one; two; PNaN]; [two; two; one]].

Ltac reads := repeat (match goal with
  | |- Forall2 _ _ _ => constructor
  | |- ReadsAs _ _ _ _ => eexists; eexists; split; [reflexivity|split; [discriminate|split; [vm_compute; intuition discriminate|split; [|reflexivity]]]];
       eexists; split; [left; reflexivity|vm_compute; intuition discriminate]
  end).
Lemma no_white s c a : (forall u d, chars s = u ++ [d] -> ~ White d) -> chars s = a ++ [c] -> White c -> False.
Proof. intros H E W. exact (H a c E W). Qed.

(** a 2 x 3 object with names of which one is empty and one has a space inside
    meets the hypotheses; so does a point list of the caller with two Nones *)
Example C70_list_example :
  Rectangle good70 /\ AxisIs (mP good70) (mNP good70) (Some ["a"; "b c"]) /\ AxisIs (mF good70) (mNF good70) (Some ["x"; ""; "z"]) /\
  Storable (Some ["a"; "b c"]) /\ Storable (Some ["x"; ""; "z"]) /\
  Elementwise (ReadsAs str70 float70) (mRows good70) [[one; two; PNaN]; [two; two; one]] /\ plainArg NmAuto /\ addsNone (Some ["a"; "b c"]) NmAuto 2.
Proof.
  split; [|split; [|split; [|split; [|split; [|split; [|split]]]]]].
  - split; [cbn; lia|]. split; [cbn; lia|]. split; [reflexivity|]. intros r [<-|[<-|[]]]; reflexivity.
  - cbn. split; [reflexivity|]. split; [reflexivity|]. do 2 (constructor; [cbn; intuition discriminate|]). constructor.
  - cbn. split; [reflexivity|]. split; [reflexivity|]. do 3 (constructor; [cbn; intuition discriminate|]). constructor.
  - split; [intros s [<-|[<-|[]]]; vm_compute; intuition discriminate|]. split; [discriminate|].
    intros a s E (u & c & E2 & W). destruct a as [|? [|? [|]]]; cbn in E; try discriminate. injection E as _ <-.
    change (chars "b c") with (["b"; " "]%char ++ ["c"%char]) in E2. apply app_inj_tail in E2 as [_ <-]. vm_compute in W. intuition discriminate.
  - split; [intros s [<-|[<-|[<-|[]]]]; vm_compute; intuition discriminate|]. split; [discriminate|].
    intros a s E (u & c & E2 & W). destruct a as [|? [|? [|? [|]]]]; cbn in E; try discriminate. injection E as _ _ <-.
    change (chars "z") with ([] ++ ["z"%char]) in E2. apply app_inj_tail in E2 as [_ <-]. vm_compute in W. intuition discriminate.
  - unfold Elementwise. reads.
  - split; [exact Logic.I|discriminate].
  - intros H. discriminate.
Qed.
(** what this file looks like, and what is loaded from it *)
Example C70_list_file : exists t r, saveList str70 good70 true = (t, Ok tt) /\
  str t = "%%MatrixMarket matrix array real general
%#a,b c
%#x,,z
2 3
1.0
2.0
2.0
2.0
nan
1.0
" /\ load70 t NmAuto NmAuto true = Ok r /\ getNames (tf r) = [Some "x"; Some ""; Some "z"] /\ cell r 1 2 = Some one.
Proof. eexists. eexists. split; [reflexivity|]. split; [vm_compute; reflexivity|]. split; [vm_compute; reflexivity|]. split; vm_compute; reflexivity. Qed.
(** scipy agrees on a matrix in a format where it reads back what it wrote *)
Example C70_scipy_example : exists mmOther,
  ScipyAgrees (mmread float70 mmOther) (fun _ => chars "%%MatrixMarket matrix coordinate real general" ++ [nl]) (fun _ => chars "1 1 1
1 1 1.0
") [[one]].
Proof.
  exists (fun _ => Ok [[one]]). split; [|split].
  - exists (skipn 2 (chars "%%MatrixMarket matrix coordinate real general")). split; [reflexivity|].
    intros H. vm_compute in H. repeat (destruct H as [H|H]; [discriminate|]). destruct H.
  - eexists. eexists. split; [reflexivity|]. discriminate.
  - intros cs _. unfold mmread.
    assert (E : exists ls, linesOf ((chars "%%MatrixMarket matrix coordinate real general" ++ [nl]) ++ concat cs ++ chars "1 1 1
1 1 1.0
") = (chars "%%MatrixMarket matrix coordinate real general" ++ [nl]) :: ls).
    { rewrite <- app_assoc. cbn [app]. rewrite linesOf_line; [eauto|]. intros H. vm_compute in H. repeat (destruct H as [H|H]; [discriminate|]). destruct H. }
    destruct E as (ls & ->). reflexivity.
Qed.
Example C70_path_example : PathIs (chars "/tmp/x.y/data.v2.MtX") (chars "MtX") /\ AnyCase (chars "MtX") "mtx".
Proof.
  split.
  - exists (chars "/tmp/x.y/"), (chars "data.v2"). split; [reflexivity|]. split; [right; exists (chars "/tmp/x.y"); reflexivity|].
    split; [vm_compute; intuition discriminate|]. split; [exists "d"%char; split; [left; reflexivity|discriminate]|]. split; vm_compute; intuition discriminate.
  - vm_compute. repeat constructor; try (right; split; [split|reflexivity]; repeat constructor); left; reflexivity.
Qed.

(** ** Where the full statement is false *)
(** A name with a comma is written as two names: the file cannot be loaded. *)
Theorem C70_comma_refuted : exists t,
  saveList str70 (obj70 None (Some ["a,b"; "c"]) [[one; two]]) true = (t, Ok tt) /\
  load70 t NmNone NmNone true = Err InvalidArgumentValue.
Proof. eexists. split; [reflexivity|]. vm_compute. reflexivity. Qed.
Print Assumptions C70_comma_refuted.
(** White space at the end of the last name is lost. *)
Theorem C70_white_refuted : exists t r,
  saveList str70 (obj70 None (Some ["a "; "b "]) [[one; two]]) true = (t, Ok tt) /\
  load70 t NmNone NmNone true = Ok r /\ getNames (tf r) = [Some "a "; Some "b"].
Proof. eexists. eexists. split; [reflexivity|]. split; [vm_compute; reflexivity|]. vm_compute. reflexivity. Qed.
Print Assumptions C70_white_refuted.
(** A single empty name is lost. *)
Theorem C70_empty_refuted : exists t r,
  saveList str70 (obj70 None (Some [""]) [[one]]) true = (t, Ok tt) /\
  load70 t NmNone NmNone true = Ok r /\ getNames (tf r) = [None].
Proof. eexists. eexists. split; [reflexivity|]. split; [vm_compute; reflexivity|]. vm_compute. reflexivity. Qed.
Print Assumptions C70_empty_refuted.
(** A name with a line end ends the comments: the file cannot be loaded. *)
Theorem C70_newline_refuted : exists t,
  saveList str70 (obj70 None (Some [str ("a"%char :: nl :: ["b"%char])]) [[one]]) true = (t, Ok tt) /\
  load70 t NmNone NmNone true = Err ValueErr.
Proof. eexists. split; [reflexivity|]. vm_compute. reflexivity. Qed.
Print Assumptions C70_newline_refuted.
(** Booleans and text are written, although the first line promises real numbers:
    the file cannot be loaded. *)
Theorem C70_bool_refuted : exists t u,
  saveList str70 (obj70 None None [[PBool true]]) true = (t, Ok tt) /\ load70 t NmNone NmNone true = Err ValueErr /\
  saveList str70 (obj70 None None [[PStr "word"]]) true = (u, Ok tt) /\ load70 u NmNone NmNone true = Err ValueErr.
Proof. eexists. eexists. split; [reflexivity|]. split; [vm_compute; reflexivity|]. split; [reflexivity|]. vm_compute. reflexivity. Qed.
Print Assumptions C70_bool_refuted.
(** A save that is refused should leave the file alone: a List object has already
    overwritten it with an unfinished file. *)
Theorem C70_truncated_refuted : exists o t,
  saveList str70 o true = (t, Err TypeErr) /\ str t = "%%MatrixMarket matrix array real general
%#a," /\ load70 t NmNone NmNone true = Err OutOfFuel.
Proof.
  exists {| mP := Some [Some "a"; None]; mF := None; mRows := [[one]; [two]]; mNP := 2; mNF := 1 |}.
  eexists. split; [reflexivity|]. split; [vm_compute; reflexivity|]. vm_compute. reflexivity.
Qed.
Print Assumptions C70_truncated_refuted.
(** The names the caller gives should be used: a file with names overrides them,
    without a word. *)
Theorem C70_given_refuted : exists t r,
  saveList str70 good70 true = (t, Ok tt) /\ load70 t (NmList [Some "p"; Some "q"]) NmNone true = Ok r /\
  getNames (tp r) = [Some "a"; Some "b c"].
Proof. eexists. eexists. split; [reflexivity|]. split; [vm_compute; reflexivity|]. vm_compute. reflexivity. Qed.
Print Assumptions C70_given_refuted.
(** pointNames=True on a file that has names of points: the first column is taken
    out of the data and thrown away. *)
Theorem C70_both_refuted : exists t r,
  saveList str70 (obj70 (Some ["p"]) None [[one; two]]) true = (t, Ok tt) /\
  load70 t (NmBool true) NmNone true = Ok r /\ getNames (tp r) = [Some "p"] /\ alen (tf r) = 1 /\ cell r 0 0 = Some two.
Proof. eexists. eexists. split; [reflexivity|]. split; [vm_compute; reflexivity|]. split; [vm_compute; reflexivity|]. split; vm_compute; reflexivity. Qed.
Print Assumptions C70_both_refuted.
(** rowsArePoints=False should load the transposed object with its names: the
    names stay on their axes, so that a file that is not square is refused, and in
    a square one they name the wrong things. *)
Theorem C70_columns_refuted : exists t u r,
  saveList str70 (obj70 (Some ["a"; "b"]) None [[one]; [two]]) true = (t, Ok tt) /\
  load70 t NmNone NmNone false = Err InvalidArgumentValue /\
  saveList str70 (obj70 (Some ["a"; "b"]) None [[one; one]; [two; two]]) true = (u, Ok tt) /\
  load70 u NmNone NmNone false = Ok r /\ getNames (tp r) = [Some "a"; Some "b"] /\
  cell r 0 0 = Some one /\ cell r 0 1 = Some two.
Proof. do 3 eexists. split; [reflexivity|]. split; [vm_compute; reflexivity|]. split; [reflexivity|]. split; [vm_compute; reflexivity|]. repeat split; vm_compute; reflexivity. Qed.
Print Assumptions C70_columns_refuted.
(** A format given by the caller is used for saving, the extension for loading:
    a Matrix Market file in x.csv is handed to the csv reader as bytes, a csv file
    in x.mtx to the Matrix Market reader as text. *)
Theorem C70_format_refuted : exists t,
  saveList str70 good70 true = (t, Ok tt) /\
  saveFormat (chars "x.csv") (Some (chars "mtx")) = Ok FMtx /\ loadFormat (chars "x.csv") t = FCsv /\ streamFits (chars "x.csv") t = false /\
  saveFormat (chars "x.mtx") (Some (chars "csv")) = Ok FCsv /\ loadFormat (chars "x.mtx") (chars "1,2") = FMtx /\ streamFits (chars "x.mtx") (chars "1,2") = false.
Proof. eexists. split; [reflexivity|]. repeat split; vm_compute; reflexivity. Qed.
Print Assumptions C70_format_refuted.
(** A file called .mtx is saved as csv and loaded as Matrix Market. *)
Theorem C70_dot_refuted :
  saveFormat (chars ".mtx") None = Ok FCsv /\ loadFormat (chars ".mtx") (chars "1,2") = FMtx.
Proof. split; reflexivity. Qed.
Print Assumptions C70_dot_refuted.
(** C70_comment_names on a file whose names the caller asks for in the data *)
Example C70_comment_case : exists t r, saveList str70 (obj70 (Some ["a"; "b c"]) (Some ["x"; "z"]) [[one; two; PNaN]; [two; two; one]]) true = (t, Ok tt) /\
  load70 t (NmBool true) NmNone true = Ok r /\ getNames (tp r) = [Some "a"; Some "b c"] /\ getNames (tf r) = [Some "x"; Some "z"].
Proof. eexists. eexists. split; [reflexivity|]. split; [vm_compute; reflexivity|]. split; vm_compute; reflexivity. Qed.
