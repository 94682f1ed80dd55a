(** Vocabulary of C72: what an object holds, what a copy of it shows. *)
From Verif Require Import Base NamesModel NamesSpec TableModel TableSpec MatchModel MatchSpec GetSpec IdentModel SparseModel SparseSpec CsvTextModel CopyModel.
From Coq Require Import List Ascii String. Import ListNotations.
Open Scope string_scope. Open Scope list_scope. Open Scope nat_scope.

(** ** The object *)
Definition OfDt (d : dt) (v : pval) : Prop :=
  match d with
  | DBool => exists b, v = PBool b
  | DInt => exists z, v = PInt z
  | DFloat => match v with PFloat _ | PPosInf | PNegInf | PNaN => True | _ => False end
  | DObj => True
  end.
(** The two-dimensional object has the names and the elements of the table [t];
    whatever its type, its storage is consistent. *)
Definition Stands (o : obj) (t : table pval) : Prop :=
  wf t /\ oP o = tp t /\ oF o = tf t /\ oDims o = [alen (tp t); alen (tf t)] /\
  match oSt o with
  | SList m => m = rows t
  | SMat d m => m = rows t /\ forall v, isCell t v -> OfDt d v
  | SFrame ds m => m = rows t /\ List.length ds = alen (tf t) /\
      forall i j v d, cell t i j = Some v -> nth_error ds j = Some d -> OfDt d v
  | SCoo d s => entsOK (zeroOf d) s /\ represents (zeroOf d) s t /\ forall v, isCell t v -> OfDt d v
  end.

(** ** The argument [to] *)
Definition rawName (f : format) : option string :=
  match f with
  | FNimble _ => None
  | FPyList => Some "pythonlist" | FNpArray => Some "numpyarray" | FNpMatrix => Some "numpymatrix"
  | FScipy Csr => Some "scipycsr" | FScipy Csc => Some "scipycsc" | FScipy Coo => Some "scipycoo"
  | FPandas => Some "pandasdataframe" | FListOfDict => Some "listofdict" | FDictOfList => Some "dictoflist"
  end.
Definition typeName (k : kind) : string :=
  match k with IdentModel.KList => "List" | KMatrix => "Matrix" | KDataFrame => "DataFrame" | KSparse => "Sparse" end.
Definition Blank (c : ascii) : Prop := In (nat_of_ascii c) [9; 10; 11; 12; 13; 28; 29; 30; 31; 32].
(** the text is the name, up to upper case and up to spaces and dots anywhere *)
Inductive Spells : text -> text -> Prop :=
| sp_end : Spells [] []
| sp_skip c s n : c = " "%char \/ c = "."%char -> Spells s n -> Spells (c :: s) n
| sp_same c s n : Spells s n -> Spells (c :: s) (c :: n)
| sp_upper c d s n : 65 <= nat_of_ascii c <= 90 -> nat_of_ascii d = nat_of_ascii c + 32 ->
    Spells s n -> Spells (c :: s) (d :: n).
(** [to] asks for the format: None for the own type, the exact name of a nimble
    type, or any spelling of a raw format with white space around it. *)
Definition Asks (o : obj) (to : toArg) (f : format) : Prop :=
  match to with
  | ToNone => f = FNimble (kindOf o)
  | ToOther => False
  | ToText s =>
      match rawName f, f with
      | Some n, _ => exists a core b, s = a ++ core ++ b /\ (forall c, In c (a ++ b) -> Blank c) /\ Spells core (chars n)
      | None, FNimble k => s = chars (typeName k)
      | None, _ => False
      end
  end.

(** ** The copy *)
(** the result is of the type asked for *)
Definition IsA (f : format) (c : copied) : Prop :=
  match f, c with
  | FNimble k, CNimble o => kindOf o = k
  | FPyList, CList _ => True
  | FNpArray, CArray false _ _ _ => True
  | FNpMatrix, CArray true _ _ _ => True
  | FScipy s, CScipy s' _ _ _ => s' = s
  | FPandas, CFrame _ _ _ _ _ => True
  | FListOfDict, CDicts _ => True
  | FDictOfList, CDictOf _ => True
  | _, _ => False
  end.
Definition Rectangle (m : list (list pval)) (p f : nat) : Prop :=
  List.length m = p /\ forall r, In r m -> List.length r = f.
Definition at_ (m : list (list pval)) (i j : nat) (v : pval) : Prop :=
  exists r, nth_error m i = Some r /\ nth_error r j = Some v.
Definition HasShape (c : copied) (p f : nat) : Prop :=
  match c with
  | CList l => Rectangle l p f
  | CArray _ p' f' m => p' = p /\ f' = f /\ Rectangle m p f
  | CFrame _ _ p' f' m => p' = p /\ f' = f /\ Rectangle m p f
  | CScipy _ p' f' es => p' = p /\ f' = f /\ NoDup (map pos es) /\
      forall e, In e es -> er e < p /\ ec e < f
  | _ => False
  end.
(** the element in row [i] and column [j] *)
Definition CellIs (c : copied) (i j : nat) (v : pval) : Prop :=
  match c with
  | CList m | CArray _ _ _ m | CFrame _ _ _ _ m => at_ m i j v
  | CScipy _ p f es => i < p /\ j < f /\
      (In (mkE i j v) es \/ (v = PInt 0 /\ forall w, ~ In (mkE i j w) es))
  | _ => False
  end.
(** The copy shows the elements of the table, related by [R]; its rows are the points,
    or the features. *)
Definition ShowsBy (R : pval -> pval -> Prop) (t : table pval) (rowsArePoints : bool) (c : copied) : Prop :=
  let p := alen (tp t) in let f := alen (tf t) in
  HasShape c (if rowsArePoints then p else f) (if rowsArePoints then f else p) /\
  forall i j v, cell t i j = Some v ->
    exists w, (if rowsArePoints then CellIs c i j w else CellIs c j i w) /\ R v w.
(** equal in Python, or both NaN *)
Notation Shows := (ShowsBy SameElement).
(** the value as a float: None becomes NaN, the text of a number that number *)
Definition AsFloat (floatOf : string -> option pval) (v w : pval) : Prop :=
  match v with PNone => w = PNaN | PStr s => exists x, floatOf s = Some x /\ SameElement x w | _ => SameElement v w end.
(** in a Sparse object None is NaN *)
Definition NoneIsNan (v w : pval) : Prop := match v with PNone => w = PNaN | _ => SameElement v w end.

(** no text beside other values: only texts, or none, or some None (which makes numpy
    keep Python objects) *)
Definition Uniform (t : table pval) : Prop :=
  (forall v, isCell t v -> forall s, v <> PStr s) \/ (forall v, isCell t v -> exists s, v = PStr s) \/ isCell t PNone.
(** neither None nor the empty text *)
Definition Solid (t : table pval) : Prop := ~ isCell t PNone /\ ~ isCell t (PStr "").
(** only booleans, or none *)
Definition Unmixed (t : table pval) : Prop :=
  (forall v, isCell t v -> exists b, v = PBool b) \/ (forall v, isCell t v -> forall b, v <> PBool b).
(** every text is the text of a number *)
Definition NumberTexts (floatOf : string -> option pval) (t : table pval) : Prop :=
  forall s, isCell t (PStr s) -> floatOf s <> None.
(** float(s) is a float *)
Definition FloatOf (floatOf : string -> option pval) : Prop := forall s w, floatOf s = Some w -> OfDt DFloat w.
(** the element in row [i] and column [j] when rows are points, or features *)
Definition turned (t : table pval) (rowsArePoints : bool) (i j : nat) : option pval :=
  if rowsArePoints then cell t i j else cell t j i.
(** the elements of a copy of type [k]: the same, except that Sparse has no None *)
Definition Relate (k : kind) (o : obj) : pval -> pval -> Prop :=
  match k, kindOf o with KSparse, KSparse => SameElement | KSparse, _ => NoneIsNan | _, _ => SameElement end.
(** the names of the columns *)
Definition columnNames (t : table pval) (rowsArePoints : bool) : list (option string) :=
  getNames (if rowsArePoints then tf t else tp t).
