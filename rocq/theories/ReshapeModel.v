(** Model of features.splitByParsing, points.splitByCollapsingFeatures and
    points.combineByExpandingFeatures for List objects (C49).
    Sources: /repo/nimble/core/data/features.py:2143-2199, points.py:1975-2008,
    2126-2210; listAxis.py:211-239, 305-321; _dataHelpers.py:335-378;
    sparseAxis.py:391-424 (collapsing a Sparse object).
    Elements are [pval] (MatchModel.v).  [strOf v] is str(v) and numpy's
    conversion of a number to text.  Identifiers are names and indices (floats
    are refused by getIndex).  Where a Python float nan is compared inside a
    tuple or a list it counts as different from every other (true of different
    objects; the theorems exclude nan in those positions). *)
From Coq Require Import DecimalString.
From Verif Require Import Base NamesModel TableModel TableOps MatchModel MergeModel.
Open Scope string_scope. Open Scope list_scope. Open Scope nat_scope.

(** ** Python strings *)
(** the position a slice bound stands for: negative counts from the end,
    everything is clipped to the string *)
Definition bound (n : nat) (z : Z) : nat :=
  if (z <? 0)%Z then Z.to_nat (Z.of_nat n + z) else Nat.min (Z.to_nat z) n.
(** [s[a:b]] *)
Definition slice (s : string) (a b : Z) : string :=
  let n := String.length s in String.substring (bound n a) (bound n b - bound n a) s.
(** [s[a:]] *)
Definition sliceFrom (s : string) (a : Z) : string := slice s a (Z.of_nat (String.length s)).
(** [s.split(sep)]: left to right; [skip] counts the characters of a separator
    still to be passed over *)
Fixpoint splitOn (sep acc : string) (skip : nat) (s : string) : list string :=
  match s with
  | EmptyString => [acc]
  | String c r =>
      match skip with
      | S k => splitOn sep acc k r
      | 0 => if String.prefix sep s then acc :: splitOn sep "" (String.length sep - 1) r
             else splitOn sep (acc ++ String c "") 0 r
      end
  end.
Definition pySplit (sep s : string) : result (list string) :=
  if String.eqb sep "" then Err ValueErr else Ok (splitOn sep "" 0 s).

(** ** splitByParsing *)
Inductive item := ItStr (s : string) | ItInt (z : Z) | ItOther.
Inductive rule := RStr (s : string) | RInt (z : Z) | RList (l : list item) | RFun (f : pval -> result (list pval)) | ROther.
(** features.py:2159-2179: a list of positions and separators; [start] is
    startIdx *)
Fixpoint listSplit (v : string) (start : Z) (l : list item) : result (list string) :=
  match l with
  | [] => Ok [sliceFrom v start]
  | ItStr sep :: t =>
      ps <- pySplit sep (sliceFrom v start) ;;
      match String.index 0 sep (sliceFrom v start) with
      | None => Err ValueErr
      | Some k =>
          more <- listSplit v (Z.of_nat (k + bound (String.length v) start + 1)) t ;;
          Ok (hd "" ps :: more)
      end
  | ItInt z :: t => more <- listSplit v z t ;; Ok (slice v start z :: more)
  | ItOther :: _ => Err InvalidArgumentType
  end.
(** features.py:2153-2181: the parts of one value *)
Definition pieces (r : rule) (v : pval) : result (list pval) :=
  match r, v with
  | RStr sep, PStr s => rmap (map PStr) (pySplit sep s)
  | RStr _, _ => Err AttributeErr
  | RInt z, PStr s => Ok [PStr (slice s 0 z); PStr (sliceFrom s z)]
  | RInt _, _ => Err TypeErr
  | RList l, PStr s => rmap (map PStr) (listSplit s 0 l)
  | RList (ItOther :: _), _ => Err InvalidArgumentType
  | RList _, _ => Err TypeErr
  | RFun f, _ => f v
  | ROther, _ => Err InvalidArgumentType
  end.
(** features.py:2152-2186: the loop over the values *)
Fixpoint splitLoop (r : rule) (k : nat) (vals : list pval) : result (list (list pval)) :=
  match vals with
  | [] => Ok []
  | v :: t =>
      ps <- pieces r v ;;
      if List.length ps =? k then rest <- splitLoop r k t ;; Ok (ps :: rest)
      else Err InvalidArgumentValueCombination
  end.
(** features.py:2143-2199, listAxis.py:305-321.  The names are set after the
    data and the number of features have changed.  An object without points
    has rows of the wrong shape for numpy unless its only feature is split. *)
Definition splitByParsing (t : table pval) (feature : ident) (r : rule) (names : list (option string)) : table pval * result unit :=
  match r with
  | ROther => (t, Err InvalidArgumentType)
  | _ =>
    match getIndex (tf t) feature false with
    | Err e => (t, Err e)
    | Ok z =>
      let i := Z.to_nat z in
      match splitLoop r (List.length names) (column t i) with
      | Err e => (t, Err e)
      | Ok parts =>
          if (alen (tp t) =? 0) && negb (alen (tf t) =? 1) then (t, Err ValueErr)
          else
            let data := map (fun p : list pval * list pval => firstn i (fst p) ++ snd p ++ skipn (S i) (fst p)) (combine (rows t) parts) in
            let (a, res) := setList (tf t) (alen (tf t) - 1 + List.length names)
                                    (firstn i (getNames (tf t)) ++ names ++ skipn (S i) (getNames (tf t))) in
            (mkTable (tp t) a data, res)
      end
    end
  end.

(** ** numpy arrays made from nested lists *)
Section Reshape.
Variable strOf : pval -> string.
(** bool < int < float < text < Python object *)
Definition npKind (v : pval) : nat :=
  match v with PBool _ => 0 | PInt _ => 1 | PFloat _ | PPosInf | PNegInf | PNaN => 2 | PStr _ => 3 | PNone => 4 end.
Definition npCast (k : nat) (v : pval) : pval :=
  match k with
  | 0 => v
  | 1 => match v with PBool b => PInt (if b then 1 else 0) | _ => v end
  | 2 => match v with PBool b => PFloat (if b then 1 else 0)%Q | PInt z => PFloat (inject_Z z) | _ => v end
  | 3 => match v with PStr _ => v | _ => PStr (strOf v) end
  | _ => v
  end.
(** np.array of a nested list: all elements get one type *)
Definition npArray (m : list (list pval)) : list (list pval) :=
  map (map (npCast (list_max (map npKind (List.concat m))))) m.

(** ** splitByCollapsingFeatures *)
(** f"{name}_{i}" *)
Definition decStr (n : nat) : string := NilEmpty.string_of_uint (Nat.to_uint n).
Definition pointName (name : option string) (i : nat) : string :=
  ((match name with Some s => s | None => "None" end) ++ "_" ++ decStr i)%string.
(** points.py:1982-1988: the name of a collapsed feature or its index *)
Definition nameOrIndex (a : axis) (i : nat) : pval :=
  match nth i (getNames a) None with Some s => PStr s | None => PInt (Z.of_nat i) end.
(** _dataHelpers.py:335-353 [fillArrayWithCollapsedFeatures] *)
Definition fillCollapsed (names : list pval) (retain collapse : list (list pval)) : list (list pval) :=
  let nm := List.concat (npArray [names]) in
  flat_map (fun p : list pval * list pval =>
              map (fun q : pval * pval => fst p ++ [fst q; snd q]) (combine nm (snd p)))
           (combine (npArray retain) (npArray collapse)).
(** points.py:1975-2008, listAxis.py:211-231.  A repeated feature always ends in
    some exception of numpy or of setNames: simplified to ValueError before any
    change. *)
Definition collapseFeatures (t : table pval) (ids : list ident) (nameFt valueFt : option string) : table pval * result unit :=
  match constructIndices (tf t) ids with
  | Err e => (t, Err e)
  | Ok idx =>
      let retain := filter (fun i => negb (mem i idx)) (seq 0 (alen (tf t))) in
      let k := List.length idx in
      if negb (nodupb idx) then (t, Err ValueErr)
      else if (alen (tp t) =? 0) && negb (List.length retain =? 0) then (t, Err ValueErr)
      else
        let cells l := map (fun r : list pval => map (fun i => nth i r PNaN) l) (rows t) in
        let data := fillCollapsed (map (nameOrIndex (tf t)) idx) (cells retain) (cells idx) in
        let np := alen (tp t) * k in
        let nf := alen (tf t) - k + 2 in
        let (a, res) := setList (tf t) nf (map (fun i => nth i (getNames (tf t)) None) retain ++ [nameFt; valueFt]) in
        match res with
        | Err e => (mkTable (mkAxis np (astate (tp t))) a data, Err e)
        | Ok _ =>
            if namesCreated (tp t) then
              let (b, res) := setList (tp t) np (flat_map (fun n => map (fun i => Some (pointName n i)) (seq 0 k)) (getNames (tp t))) in
              (mkTable b a data, res)
            else (mkTable (mkAxis np None) a data, Ok tt)
        end
  end.

(** ** combineByExpandingFeatures *)
(** one entry of [unique]: the uncombined values, and name -> values *)
Definition group := (list pval * list (pval * list pval))%type.
(** equality of tuples *)
Fixpoint tupEq (a b : list pval) : bool :=
  match a, b with
  | [], [] => true
  | x :: a', y :: b' => pyEq x y && tupEq a' b'
  | _, _ => false
  end.
(** points.py:2138-2160: one iteration for the point's (uncombined, name,
    values); the bool tells whether the group is new *)
Fixpoint addPoint (key : list pval) (name : pval) (vals : list pval) (gs : list group) : result (list group * bool) :=
  match gs with
  | [] => Ok ([(key, [(name, vals)])], true)
  | (key', d) :: t =>
      if tupEq key key' then
        if existsb (fun p => pyEq name (fst p)) d then Err ImproperObjectAction
        else Ok ((key', d ++ [(name, vals)]) :: t, false)
      else r <- addPoint key name vals t ;; Ok ((key', d) :: fst r, snd r)
  end.
Fixpoint groupLoop (ni : nat) (ui vi : list nat) (rs : list (list pval)) (pns : list (option string))
  (gs : list group) (names : list pval) (kept : list (option string)) : result (list group * list pval * list (option string)) :=
  match rs with
  | [] => Ok (gs, names, kept)
  | r :: t =>
      let name := nth ni r PNaN in
      g <- addPoint (map (fun i => nth i r PNaN) ui) name (map (fun i => nth i r PNaN) vi) gs ;;
      groupLoop ni ui vi t (tl pns) (fst g) (if inList name names then names else names ++ [name])
                (if snd g then kept ++ [hd None pns] else kept)
  end.
(** numpy [row[start:stop] = src]: the lengths agree or src has one element *)
Definition assignSlice (row : list pval) (start stop : nat) (src : list pval) : result (list pval) :=
  let s := Nat.min start (List.length row) in
  let w := Nat.min stop (List.length row) - s in
  if List.length src =? w then Ok (firstn s row ++ src ++ skipn (s + w) row)
  else match src with [x] => Ok (firstn s row ++ repeat x w ++ skipn (s + w) row) | _ => Err ValueErr end.
(** _dataHelpers.py:355-378 [fillArrayWithExpandedFeatures], one row *)
Fixpoint fillNames (ni ne j : nat) (names : list pval) (d : list (pval * list pval)) (row : list pval) : result (list pval) :=
  match names with
  | [] => Ok row
  | n :: t =>
      r <- assignSlice row (ni + j * ne) (ni + j * ne + ne)
             (match find (fun p => pyEq n (fst p)) d with Some p => snd p | None => repeat PNaN ne end) ;;
      fillNames ni ne (S j) t d r
  end.
Definition fillExpanded (ni ne nf : nat) (names : list pval) (g : group) : result (list pval) :=
  r <- assignSlice (repeat PNone nf) 0 ni (firstn ni (fst g)) ;;
  r <- fillNames ni ne 0 names (snd g) r ;;
  assignSlice r (ni + List.length names * ne) nf (skipn ni (fst g)).
(** type(v).__name__ *)
Definition typeName (v : pval) : string :=
  match v with PBool _ => "bool" | PInt _ => "int" | PStr _ => "str" | PNone => "NoneType" | _ => "float" end.
Definition countStr (s : string) (l : list string) : nat := List.length (filter (String.eqb s) l).
(** points.py:2165-2182: the prefixes of the new feature names *)
Definition prefixesOf (modify : bool) (names : list pval) : result (list string) :=
  let ps := map strOf names in
  if nodupb ps then Ok ps
  else if modify then Ok (map (fun n => if 1 <? countStr (strOf n) ps then (strOf n ++ "(" ++ typeName n ++ ")")%string else strOf n) names)
  else Err ImproperObjectAction.
(** points.py:2189-2203: the new feature names; the suffix is looked up after
    the shape has changed but in the old names, None + str is a TypeError *)
Definition suffixOf (a : axis) (id : ident) : result string :=
  match id with
  | IdStr s => Ok s
  | IdInt z => if namesCreated a then n <- getName a z ;; match n with Some s => Ok s | None => Err TypeErr end
               else Ok (strOf (PInt z))
  | _ => Err TypeErr
  end.
Definition newNames (a : axis) (vids : list ident) (ps : list string) : result (list string) :=
  if 1 <? List.length vids then
    rmap (@List.concat _) (rmapM (fun p => rmapM (fun id => rmap (fun s => (p ++ "_" ++ s)%string) (suffixOf a id)) vids) ps)
  else Ok ps.
(** points.py:2210-2212: unnamed features get the new names one by one *)
Fixpoint nameOneByOne (a : axis) (i : nat) (l : list string) : axis * result unit :=
  match l with
  | [] => (a, Ok tt)
  | s :: t => match setNames a (AStr s) (OOne (IdInt (Z.of_nat i))) with
              | (a', Ok _) => nameOneByOne a' (S i) t
              | (a', Err e) => (a', Err e)
              end
  end.
(** points.py:2126-2214.  Simplifications: a failing numpy assignment leaves
    the object as it was (the new array is built first); naming a value feature
    twice, or the feature of names among the values, is not modelled
    (ValueError). *)
Definition expandFeatures (t : table pval) (nameId : ident) (vids : list ident) (modify : bool) : table pval * result unit :=
  let fa := getIndex_state (tf t) nameId in
  match getIndex (tf t) nameId false, constructIndices (tf t) vids with
  | Err e, _ | _, Err e => (t, Err e)
  | Ok z, Ok vi =>
      let ni := Z.to_nat z in
      let fa := fold_left getIndex_state vids fa in
      let ui := filter (fun i => negb (mem i (ni :: vi))) (seq 0 (alen (tf t))) in
      if negb (nodupb (ni :: vi)) then (t, Err ValueErr)
      else
      match groupLoop ni ui vi (rows t) (if namesCreated (tp t) then getNames (tp t) else []) [] [] [] with
      | Err e => (t, Err e)
      | Ok (gs, names, kept) =>
          let ne := List.length vids in
          let nf := alen (tf t) + List.length names * ne - (1 + ne) in
          match prefixesOf modify names with
          | Err e => (t, Err e)
          | Ok ps =>
              match rmapM (fillExpanded ni ne nf names) gs with
              | Err e => (t, Err e)
              | Ok data =>
                  let out pa a res := (mkTable pa a data, res) in
                  let pa := mkAxis (List.length gs) (astate (tp t)) in
                  match newNames fa vids ps with
                  | Err e => out pa (mkAxis nf (astate fa)) (Err e)
                  | Ok nn =>
                      let keptFts := map (fun i => nth i (getNames fa) None) ui in
                      let (a, res) :=
                        if namesCreated fa then setList fa nf (firstn ni keptFts ++ map Some nn ++ skipn ni keptFts)
                        else nameOneByOne (mkAxis nf (astate fa)) ni nn in
                      match res with
                      | Err e => out pa a (Err e)
                      | Ok _ => if namesCreated (tp t) then let (b, res) := setList (tp t) (List.length gs) kept in out b a res
                                else out pa a (Ok tt)
                      end
                  end
              end
          end
      end
  end.
End Reshape.
