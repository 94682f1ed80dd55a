(** Specification of loading a CSV file (C25, C26, C27). *)
From Verif Require Import Base CsvModel.
Open Scope string_scope.
Open Scope list_scope.
Open Scope nat_scope.

(** ** Column types *)
Section Kinds.
Variables (isInt isFloat : string -> bool).
(** what is assumed of Python's int() and float() *)
Definition ParseOracle : Prop :=
  (forall s, isInt s = true -> isFloat s = true) /\
  isFloat "" = false /\ isFloat "True" = false /\ isFloat "False" = false.
Definition IsNum (s : string) : Prop := isFloat s = true.
Definition IsBoolWord (s : string) : Prop := s = "True" \/ s = "False".
(** all non-empty entries *)
Definition Entries (P : string -> Prop) (col : list string) : Prop := forall v, In v col -> v <> "" -> P v.
(** the type of a column with at least one non-empty entry *)
Inductive ColKind (col : list string) : ctype -> Prop :=
| kind_bool : Entries IsBoolWord col -> (exists v, In v col /\ v <> "") -> ColKind col TBool
| kind_int : Entries (fun s => isInt s = true) col -> (exists v, In v col /\ v <> "") -> ColKind col TInt
| kind_float : Entries IsNum col -> (exists v, In v col /\ v <> "" /\ isInt v = false) -> ColKind col TFloat
| kind_str : ~ Entries IsNum col -> ~ Entries IsBoolWord col -> ColKind col TStr.
End Kinds.
(** the element loaded for an entry of a column of the type *)
Definition loadedAs (t : ctype) (s : string) : lval :=
  match t with
  | TStr => LStr s
  | _ => if String.eqb s "" then LNaN
         else match t with TBool => LBool (String.eqb s "True") | TInt => LInt s | _ => LFloat s end
  end.
(** column j of rows *)
Definition columnOf (rs : list (list string)) (j : nat) : list string := map (fun r => nth j r "") rs.
(** the type given to a column: by its entries if the first is not empty; an
    empty one is missing (nan) everywhere or text; otherwise it is text *)
Inductive ColLoaded (isInt isFloat : string -> bool) (emptyIsMissing : bool) (col : list string) : ctype -> Prop :=
| cl_typed v t : nth_error col 0 = Some v -> v <> "" -> ColKind isInt isFloat col t -> ColLoaded isInt isFloat emptyIsMissing col t
| cl_empty : (forall v, In v col -> v = "") -> ColLoaded isInt isFloat emptyIsMissing col (if emptyIsMissing then TFloat else TStr)
| cl_late v : nth_error col 0 = Some "" -> In v col -> v <> "" -> ColLoaded isInt isFloat emptyIsMissing col TStr.

(** ** Which points and features are loaded (C26) *)
(** how the vectors of an axis are named: not, by the file, by a list with a
    name for each of them, or by a list with a name for each kept one *)
Inductive axisNames := ANone | AFile (l : list (option string)) | AGiven (l : list (option string)) | AKept (l : list (option string)).
Definition namesIn (a : axisNames) : list (option string) := match a with AFile l | AGiven l => l | _ => [] end.
(** a file without header lines: [rows] are the lines, [body] the data *)
Inductive ReadsPts : nm -> list (list string) -> axisNames -> list (list string) -> Prop :=
| rp_none rows : ReadsPts NFalse rows ANone rows
| rp_file rows names body : rows = map (fun p => fst p :: snd p) (combine names body) -> List.length names = List.length body ->
    ReadsPts NTrue rows (AFile (map Some names)) body
| rp_given l rows : l <> [] -> ReadsPts (NL l) rows (AGiven l) rows
| rp_kept l rows : l <> [] -> ReadsPts (NL l) rows (AKept l) rows.
(** the name in a cell of the header *)
Definition headName (s : string) : option string := if String.eqb s "" then None else Some s.
(** a file: its feature names and the lines after the header; when the points
    are named by the file the first cell of the header is not a feature name *)
Inductive ReadsFts (pn : nm) : nm -> list (list string) -> axisNames -> list (list string) -> Prop :=
| rf_none rows : ReadsFts pn NFalse rows ANone rows
| rf_file h rows : pn <> NTrue -> ReadsFts pn NTrue (h :: rows) (AFile (map headName h)) rows
| rf_file_pts c h rows : pn = NTrue -> ReadsFts pn NTrue ((c :: h) :: rows) (AFile (map headName h)) rows
| rf_given l rows : l <> [] -> ReadsFts pn (NL l) rows (AGiven l) rows
| rf_kept l rows : l <> [] -> ReadsFts pn (NL l) rows (AKept l) rows.
(** the vector an identifier denotes *)
Definition Denotes (names : list (option string)) (n : nat) (id : kid) (k : nat) : Prop :=
  k < n /\
  match id with
  | KInt z => z = Z.of_nat k
  | KStr s => nth_error names k = Some (Some s) /\ forall k', nth_error names k' = Some (Some s) -> k' = k
  end.
(** the names of the kept vectors *)
Definition keptNames (a : axisNames) (idx : list nat) : nm :=
  match a with
  | ANone => NFalse
  | AFile l | AGiven l => NL (map (fun i => nth i l None) idx)
  | AKept l => NL l
  end.
(** the names fit the axis *)
Definition Fits (a : axisNames) (n : nat) : Prop := match a with AFile l | AGiven l => List.length l = n | _ => True end.
(** the kept vectors of an axis of n *)
Inductive Kept (n : nat) (a : axisNames) : option (list kid) -> list nat -> Prop :=
| kept_all : (match a with AKept _ => False | _ => True end) -> Kept n a None (seq 0 n)
| kept_ids ids idx : Forall2 (Denotes (namesIn a) n) ids idx -> NoDup idx ->
    (match a with AKept l => List.length l = List.length ids | _ => True end) -> Kept n a (Some ids) idx.
(** a list of names of every vector is ambiguous when every vector is kept *)
Definition Ambiguous (a : axisNames) (n : nat) (keep : option (list kid)) : Prop :=
  match keep, a with Some ids, (AGiven _ | AKept _) => List.length ids = n | _, _ => False end.
(** the lines of the kept points, in the order of the file *)
Definition keptRows (body : list (list string)) (P : list nat) : list (list string) :=
  map (fun i => nth i body []) (filter (fun i => existsb (Nat.eqb i) P) (seq 0 (List.length body))).
(** points P and features F, in these orders, each feature converted to the
    type of its entries in the kept points *)
Definition DataIs (isInt isFloat : string -> bool) (emptyIsMissing : bool) (body : list (list string)) (P F : list nat) (data : list (list lval)) : Prop :=
  List.length data = List.length P /\ (forall r, In r data -> List.length r = List.length F) /\
  forall b j, nth_error F b = Some j ->
    exists t, ColLoaded isInt isFloat emptyIsMissing (columnOf (keptRows body P) j) t /\
      forall a i, nth_error P a = Some i -> nth_error (nth a data []) b = Some (loadedAs t (nth j (nth i body []) "")).
(** the last feature is only the end of lines that end with the separator *)
Definition Trailing (emptyIsMissing : bool) (body : list (list string)) (P : list nat) (fa : axisNames) (n : nat) : Prop :=
  emptyIsMissing = true /\ 0 < n /\ keptRows body P <> [] /\
  (forall v, In v (columnOf (keptRows body P) (n - 1)) -> v = "") /\
  match fa with ANone => True | AFile l => nth (n - 1) l None = None | _ => False end.
(** conditions on a list of features: a list of names of every feature is
    ambiguous when all are kept, two kept features of a named file have
    different names, and (see the counterexamples) an unnamed file needs a
    feature that is not kept *)
Definition FeatOk (fa : axisNames) (n : nat) (keepF : option (list kid)) (F : list nat) : Prop :=
  match keepF with
  | None => True
  | Some ids =>
      match fa with
      | AFile l => NoDup (map (fun k => nth k l None) F)
      | AGiven l => NoDup (map (fun k => nth k l None) F) /\ List.length ids <> n
      | _ => List.length ids <> n
      end
  end.
(** the names after the last feature is cut off *)
Definition cutNames (fa : axisNames) (n : nat) : nm := match fa with AFile l => NL (firstn (n - 1) l) | _ => NFalse end.
(** which of the loaded features F are not text *)
Definition NotText (isInt isFloat : string -> bool) (emptyIsMissing : bool) (body : list (list string)) (P F : list nat) (keep : nat -> bool) : Prop :=
  forall b j, nth_error F b = Some j -> exists t, ColLoaded isInt isFloat emptyIsMissing (columnOf (keptRows body P) j) t /\ (keep b = true <-> t <> TStr).
Definition chosen {A} (keep : nat -> bool) (l : list A) (d : A) : list A := map (fun b => nth b l d) (filter keep (seq 0 (List.length l))).
Definition chosenNames (keep : nat -> bool) (n : nm) : nm := match n with NL l => NL (chosen keep l None) | x => x end.
(** an identifier matches a point *)
Definition Matches (names : list (option string)) (id : kid) (i : nat) : Prop :=
  match id with KInt z => z = Z.of_nat i | KStr s => nth_error names i = Some (Some s) end.
(** the names the identifiers use occur at most once *)
Definition Unambiguous (names : list (option string)) (ids : list kid) : Prop :=
  forall s i i', In (KStr s) ids -> nth_error names i = Some (Some s) -> nth_error names i' = Some (Some s) -> i = i'.

(** ** The names arguments (C25) *)
(** the value of a names argument that is not 'automatic' and not a dict *)
Definition argNames (n : nmArg) (v : nm) : Prop :=
  match n with NmNone | NmBool false => v = NFalse | NmBool true => v = NTrue | NmList l => v = NL l | _ => False end.
(** the first cell does not suggest point names: it is blank only if the cell
    below is blank as well *)
Definition NoPossible (a b : list string) : Prop :=
  exists a0 b0, nth_error a 0 = Some a0 /\ nth_error b 0 = Some b0 /\ (a0 = "" -> b0 = "").
(** the first row looks like names: text with a number below *)
Definition HeaderLike (isFloat : string -> bool) (c0 : string) (cs : list string) (d0 : string) (ds : list string) : Prop :=
  (forall c, In c cs -> isFloat c = false) /\ NoDup cs /\
  ((c0 = "pointNames" /\ exists d, In d ds /\ isFloat d = true) \/
   (c0 <> "pointNames" /\ isFloat c0 = false /\ exists d, In d (d0 :: ds) /\ isFloat d = true)).
(** names arguments given explicitly for a file with at least two lines *)
Definition Explicit (raw : list (list string)) (pnArg fnArg : nmArg) (pn fn : nm) : Prop :=
  exists a b rest, raw = a :: b :: rest /\ NoPossible a b /\ argNames pnArg pn /\ argNames fnArg fn /\
    (fnArg <> NmBool false \/ exists bb, pnArg = NmBool bb).
(** the list of names a dict {name: position} describes *)
Definition DictList (d : list (string * Z)) (l : list (option string)) : Prop :=
  List.length l = List.length d /\ forall k z, In (k, z) d -> (0 <= z)%Z /\ nth_error l (Z.to_nat z) = Some (Some k).

(** ** The order of the lines (C27) *)
Definition reorder {A} (l : list A) (p : list nat) (d : A) : list A := map (fun i => nth i l d) p.
Definition reorderNm (n : nm) (p : list nat) : nm := match n with NL l => NL (reorder l p None) | x => x end.
(** every cell of the first line is filled *)
Definition FirstFilled (body : list (list string)) : Prop := forall r v, nth_error body 0 = Some r -> In v r -> v <> "".
