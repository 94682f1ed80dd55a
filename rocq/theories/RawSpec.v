(** Specification vocabulary for objects made from Python data (C61). *)
From Verif Require Import Base NamesModel TableModel TableSpec MatchModel MatchSpec CsvModel RawModel.
From Coq Require Import QArith Permutation.
Open Scope string_scope.
Open Scope list_scope.
Open Scope nat_scope.

(** the value in row i, column j of a list of lists *)
Definition valueAt (m : list (list pval)) (i j : nat) : option pval := match nth_error m i with Some r => nth_error r j | None => None end.

(** the length of the first row *)
Definition width (m : list (list pval)) : nat := match m with [] => 0 | r :: _ => List.length r end.

(** ** Where the names are *)
Definition Text (v : pval) : Prop := exists s, v = PStr s.
Definition Number (v : pval) : Prop := match v with PStr _ | PNone => False | _ => True end.
(** names of points may be looked for in the data *)
Definition MayHold (a : nmArg) : Prop := a = NmBool true \/ a = NmAuto.
Definition Marked (m : list (list pval)) : Prop := valueAt m 0 0 = Some (PStr "pointNames").
(** two rows with something in them *)
Definition TwoRows (m : list (list pval)) : Prop := valueAt m 0 0 <> None /\ valueAt m 1 0 <> None.
(** the first row reads as names: text, without repeats after the first cell,
    above a row with a number; the first column is left out if its first cell is
    'pointNames' and names of points are looked for *)
Definition ReadsAsNames (pn : nmArg) (m : list (list pval)) : Prop :=
  TwoRows m /\
  exists h, ((MayHold pn /\ Marked m /\ h = 1) \/ (~ (MayHold pn /\ Marked m) /\ h = 0)) /\
    (forall j v, h <= j -> valueAt m 0 j = Some v -> Text v) /\
    (forall j k v, 1 <= j -> 1 <= k -> valueAt m 0 j = Some v -> valueAt m 0 k = Some v -> j = k) /\
    (exists j v, h <= j /\ valueAt m 1 j = Some v /\ Number v).
(** the first row holds the names of the features; the first column those of the
    points *)
Definition FirstRowIsNames (pn fn : nmArg) (m : list (list pval)) : Prop := fn = NmBool true \/ (fn = NmAuto /\ ReadsAsNames pn m).
Definition FirstColumnIsNames (pn fn : nmArg) (m : list (list pval)) : Prop :=
  pn = NmBool true \/ (pn = NmAuto /\ FirstRowIsNames pn fn m /\ TwoRows m /\ Marked m).
(** the number of rows (columns) taken out *)
Definition Out (P : Prop) (h : nat) : Prop := (P /\ h = 1) \/ (~ P /\ h = 0).
Definition notDict (a : nmArg) : Prop := match a with NmDict _ => False | _ => True end.

(** ** The names *)
Definition DistinctNames (l : list (option string)) : Prop :=
  forall i j s, nth_error l i = Some (Some s) -> nth_error l j = Some (Some s) -> i = j.
(** given names, or the strings of header cells, or none *)
Definition namesFrom (strOf : pval -> string) (a : nmArg) (taken : nat) (header : nat -> option pval) (n : nat) : list (option string) :=
  match a with
  | NmList l => l
  | _ => if taken =? 1 then map (fun i => option_map strOf (header i)) (seq 0 n) else repeat None n
  end.

(** ** Missing values: equal to one of those asked for, or NaN if NaN is *)
Definition CountsAsMissing (treat : option (list pval)) (v : pval) : Prop :=
  exists l u, treat = Some l /\ In u l /\ (Same v u \/ (v = PNaN /\ u = PNaN)).
Definition Element (treat : option (list pval)) (repl v w : pval) : Prop :=
  (CountsAsMissing treat v /\ w = repl) \/ (~ CountsAsMissing treat v /\ w = v).

(** ** The object: its size, its names and where each element comes from *)
Definition Made (treat : option (list pval)) (repl : pval) (n k : nat) (ps fs : list (option string)) (at_ : nat -> nat -> option pval) (r : table pval) : Prop :=
  wf r /\ alen (tp r) = n /\ alen (tf r) = k /\ getNames (tp r) = ps /\ getNames (tf r) = fs /\
  forall i j, i < n -> j < k -> exists v w, at_ i j = Some v /\ cell r i j = Some w /\ Element treat repl v w.
(** the names fit the size *)
Definition NamesFit (l : list (option string)) (n : nat) : Prop := List.length l = n /\ DistinctNames l.

(** the value of a names argument that does not ask for names, or gives a list *)
Definition explicitNames (a : nmArg) (n : nat) : list (option string) := match a with NmList l => l | _ => repeat None n end.
Definition noHeader (a : nmArg) : Prop := match a with NmNone | NmBool false | NmList _ => True | _ => False end.

(** ** The point (feature) an identifier means, its index counted from the end if
    negative *)
Definition Means (a : axis) (id : kid) (i : nat) : Prop :=
  i < alen a /\
  match id with
  | KInt z => z = Z.of_nat i \/ z = (Z.of_nat i - Z.of_nat (alen a))%Z
  | KStr s => nth_error (getNames a) i = Some (Some s)
  end.

(** ** Dicts *)
(** the items of a dict in the order in which they are used: the order of the
    given names, otherwise that of the dict *)
Definition UsedInOrder (a : nmArg) (keys : list string) (order : list nat) : Prop :=
  Permutation order (seq 0 (List.length keys)) /\
  match a with NmList l => map (nth_error keys) order = l | _ => order = seq 0 (List.length keys) end.
(** the names of an axis whose names are the keys of a dict *)
Definition keyNames (a : nmArg) (keys : list string) : list (option string) :=
  match a with NmList l => l | NmNone | NmBool false => repeat None (List.length keys) | _ => map Some keys end.
(** a list of names for the keys of a dict must be a reordering of the keys *)
Definition KeysFit (a : nmArg) (keys : list string) : Prop := match a with NmList l => Permutation l (map Some keys) | _ => True end.
(** no row is taken for a header: no names, a list of names, or 'automatic' with
    something else than text in each row *)
Definition NoHeaderRow (fn : nmArg) (m : list (list pval)) : Prop :=
  noHeader fn \/ (fn = NmAuto /\ forall r, In r m -> exists v, In v r /\ ~ Text v).

(** ** The points (features) kept: all, or those the identifiers mean, in their
    order *)
Definition KeptAre (a : axis) (keep : option (list kid)) (idx : list nat) : Prop :=
  match keep with None => idx = seq 0 (alen a) | Some ids => Forall2 (Means a) ids idx end.
(** identifiers counted from the start; all of them only if the names were taken
    out of the data *)
Definition KeepClear (names : nmArg) (a : axis) (keep : option (list kid)) : Prop :=
  match keep with
  | None => True
  | Some ids => (forall z, In (KInt z) ids -> (0 <= z)%Z) /\ (List.length ids <> alen a \/ (names = NmBool true /\ ~ In None (getNames a)))
  end.

(** ** The type asked for a feature: one for all, by position, or by name or
    index *)
Inductive TypeAt {T} (a : axis) : convArg T -> nat -> option T -> Prop :=
| ty_none j : TypeAt a CNone j None
| ty_one c j : TypeAt a (COne c) j (Some c)
| ty_list l j c : nth_error l j = Some c -> TypeAt a (CList l) j c
| ty_index d j c : In (KInt (Z.of_nat j), c) d -> TypeAt a (CDict d) j (Some c)
| ty_name d j s c : nth_error (getNames a) j = Some (Some s) -> In (KStr s, c) d -> TypeAt a (CDict d) j (Some c)
| ty_not d j : ~ In (KInt (Z.of_nat j)) (map fst d) -> (forall s, nth_error (getNames a) j = Some (Some s) -> ~ In (KStr s) (map fst d)) -> TypeAt a (CDict d) j None.
(** the element after the conversion *)
Definition ConvertedBy {T} (conv : T -> pval -> result pval) (c : option T) (v w : pval) : Prop :=
  match c with None => w = v | Some c => conv c v = Ok w end.
(** an identifier that is the name or the index of a feature *)
Definition IsFeature (a : axis) (k : kid) : Prop :=
  match k with KInt z => (0 <= z < Z.of_nat (alen a))%Z | KStr s => In (Some s) (getNames a) end.
Definition okDict {T} (c : convArg T) : Prop := match c with CDict d => NoDup (map fst d) | _ => True end.
(** why a conversion is refused *)
Inductive CannotConvert {T} (conv : T -> pval -> result pval) (t : table pval) (c : convArg T) : exc -> Prop :=
| cc_value i j v ty e : cell t i j = Some v -> TypeAt (tf t) c j (Some ty) -> conv ty v = Err e ->
    CannotConvert conv t c (match e with ValueErr | TypeErr => InvalidArgumentValue | _ => e end)
| cc_length l : c = CList l -> List.length l <> alen (tf t) -> CannotConvert conv t c InvalidArgumentValue
| cc_two j a b : TypeAt (tf t) c j (Some a) -> TypeAt (tf t) c j (Some b) -> a <> b -> CannotConvert conv t c InvalidArgumentValue
| cc_unknown d k x : c = CDict d -> In (k, x) d -> ~ IsFeature (tf t) k -> CannotConvert conv t c InvalidArgumentValue.
(** [r] is [t] with each element converted to the one type asked for its feature *)
Definition Converted {T} (conv : T -> pval -> result pval) (c : convArg T) (t r : table pval) : Prop :=
  wf r /\ alen (tp r) = alen (tp t) /\ alen (tf r) = alen (tf t) /\ getNames (tp r) = getNames (tp t) /\ getNames (tf r) = getNames (tf t) /\
  (forall l, c = CList l -> List.length l = alen (tf t)) /\
  forall i j v, cell t i j = Some v -> exists ty w, TypeAt (tf t) c j ty /\ (forall ty', TypeAt (tf t) c j ty' -> ty' = ty) /\ cell r i j = Some w /\ ConvertedBy conv ty v w.

(** the types for the kept features: a list for all features is limited to those
    kept *)
Definition keptTypes {T} (all : nat) (F : list nat) (c : convArg T) : convArg T :=
  match c with CList l => if List.length l =? all then CList (selected F l) else CList l | _ => c end.
(** an index in a dict of types together with keepFeatures *)
Definition HasIndexKey {T} (c : convArg T) : Prop := exists d z x, c = CDict d /\ In (KInt z, x) d.
