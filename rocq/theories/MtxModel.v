(** Model of saving to and loading from Matrix Market files
    (/repo/nimble/core/data/base.py 1850-1914 save; data/list.py 226-258,
    matrix.py 153-179, sparse.py 326-351, dataframe.py 177-193
    _saveMTX_implementation; core/_createHelpers.py 1727-1747
    _autoFileTypeChecker, 2243-2306 the dispatch of createDataFromFile,
    2660-2722 _loadmtxForAuto). A file is its list of bytes. *)
From Coq Require Import QArith.
From Coq Require Import Ascii String Decimal DecimalString.
From Verif Require Import Base NamesModel TableModel MatchModel CsvModel RawModel CsvTextModel LogModel.
From Coq Require Import List.
Import ListNotations.
Open Scope string_scope.
Open Scope list_scope.
Open Scope nat_scope.

Definition pct : ascii := "%"%char.

(** ** Bytes *)
Definition sameText (a b : text) : bool := String.eqb (str a) (str b).
(** bytes.strip and split: the ASCII white space *)
Definition isSpace (c : ascii) : bool :=
  let n := nat_of_ascii c in (n =? 32) || ((9 <=? n) && (n <=? 13)).
Fixpoint lstrip (t : text) : text :=
  match t with c :: r => if isSpace c then lstrip r else t | [] => [] end.
Definition rstrip (t : text) : text := rev (lstrip (rev t)).
(** line.split() *)
Fixpoint tokens (t : text) : list text :=
  match t with
  | [] => []
  | c :: r => if isSpace c then tokens r
              else match r with
                   | d :: _ => if isSpace d then [c] :: tokens r
                               else match tokens r with x :: xs => (c :: x) :: xs | [] => [[c]] end
                   | [] => [[c]]
                   end
  end.
(** line.split(b',') *)
Fixpoint splitComma (t : text) : list text :=
  match t with
  | [] => [[]]
  | c :: r => if Ascii.eqb c comma then [] :: splitComma r
              else match splitComma r with x :: xs => (c :: x) :: xs | [] => [[c]] end
  end.
(** str(n) and int(s) of a count; int() is simplified to plain digits *)
Definition showNat (n : nat) : text := chars (NilEmpty.string_of_uint (Nat.to_uint n)).
Definition readNat (t : text) : option nat :=
  match t with [] => None | _ => option_map Nat.of_uint (NilEmpty.uint_of_string (str t)) end.

(** ** An object: what its axes hold (no names created, or one entry per point),
    its elements by points, and its shape *)
Record mobj := { mP : option (list (option string)); mF : option (list (option string));
                 mRows : list (list pval); mNP : nat; mNF : nat }.

(** base.py 1882-1899: names are written if the user wants them and one exists *)
Definition include (wanted : bool) (o : option (list (option string))) : bool := wanted && anyName o.
Definition namesFor (o : option (list (option string))) (n : nat) : list (option string) :=
  match o with Some l => l | None => repeat None n end.

Section Mtx.
(** str(value) *)
Variable strOf : pval -> string.
(** float(line) of Python: None when it raises ValueError *)
Variable floatOf : text -> option pval.
(** self._data.astype(np.float64) of one element *)
Variable asFloat : pval -> result pval.
(** scipy.io.mmwrite of a matrix of floats: its first line, and what follows the
    comments; scipy.io.mmread of any other file than one written by List *)
Variables (mmHead mmBody : list (list pval) -> text).
Variable mmOther : text -> result (list (list pval)).

(** ** Writing *)
(** list.py 235-242 writeNames: what is in the file, and whether it raised *)
Fixpoint writeNames (first : bool) (l : list (option string)) (out : text) : text * result unit :=
  match l with
  | [] => (out ++ [nl], Ok tt)
  | n :: r =>
      let out := out ++ (if first then [pct; hash] else [comma]) in
      match n with
      | Some s => writeNames false r (out ++ chars s)
      | None => (out, Err TypeErr)
      end
  end.
Definition listHead : text := chars "%%MatrixMarket matrix array real general" ++ [nl].
(** list.py 244-251 *)
Definition writeAxis (inc : bool) (names : list (option string)) (out : text) : text * result unit :=
  if inc then writeNames true names out else (out ++ [pct; hash; nl], Ok tt).
(** list.py 255-258: column by column *)
Definition listValues (o : mobj) : text :=
  flat_map (fun j => flat_map (fun r => chars (strOf (nth j r PNone)) ++ [nl]) (mRows o)) (seq 0 (mNF o)).
(** list.py 226-258: the file is opened for writing before anything else *)
Definition saveList (o : mobj) (wanted : bool) : text * result unit :=
  match writeAxis (include wanted (mP o)) (namesFor (mP o) (mNP o)) listHead with
  | (out, Err e) => (out, Err e)
  | (out, Ok _) =>
      match writeAxis (include wanted (mF o)) (namesFor (mF o) (mNF o)) out with
      | (out, Err e) => (out, Err e)
      | (out, Ok _) => (out ++ showNat (mNP o) ++ [" "%char] ++ showNat (mNF o) ++ [nl] ++ listValues o, Ok tt)
      end
  end.

(** ','.join(names): None raises TypeError *)
Definition joinNames (l : list (option string)) : result text :=
  ss <- rmapM (fun n => match n with Some s => Ok (chars s) | None => Err TypeErr end) l ;;
  Ok (joinCells ss).
(** the comment of matrix.py 167-176, sparse.py 336-348, dataframe.py 187-191 *)
Inductive store := StMatrix | StSparse | StFrame.
Definition comment (st : store) (o : mobj) (wanted : bool) : result text :=
  let ip := include wanted (mP o) in
  let fp := include wanted (mF o) in
  p <- (if ip then joinNames (namesFor (mP o) (mNP o)) else Ok []) ;;
  f <- (if fp then joinNames (namesFor (mF o) (mNF o)) else Ok []) ;;
  Ok match st with
     | StMatrix => hash :: p ++ [nl] ++ hash :: f ++ (if fp then [] else [nl])
     | StSparse => hash :: p ++ [nl] ++ hash :: f ++ [nl]
     | StFrame => hash :: p ++ (if fp then [nl] ++ hash :: f else [])
     end.
(** mmwrite: one comment line for each part of comment.split('\n') *)
Fixpoint splitNl (t : text) : list text :=
  match t with
  | [] => [[]]
  | c :: r => if Ascii.eqb c nl then [] :: splitNl r
              else match splitNl r with x :: xs => (c :: x) :: xs | [] => [[c]] end
  end.
(** the comment is made and the data converted before the file is opened, so a
    failure leaves an earlier file alone *)
Definition saveScipy (st : store) (o : mobj) (wanted : bool) : result text :=
  c <- comment st o wanted ;;
  vs <- rmapM (rmapM asFloat) (mRows o) ;;
  Ok (mmHead vs ++ flat_map (fun l => pct :: l ++ [nl]) (splitNl c) ++ mmBody vs).

(** ** Reading *)
(** _createHelpers.py 2675-2695: the names in the comments *)
Definition nameLine (l : text) : option (list string) :=
  let names := map str (splitComma (rstrip (skipn 2 l))) in
  if eqbd names [""] then None else Some names.
Fixpoint readNames (ls : list text) (seen : bool) (p f : option (list string)) : option (list string) * option (list string) :=
  match ls with
  | (c :: l) :: r =>
      if Ascii.eqb c pct then
        match l with
        | d :: _ =>
            if Ascii.eqb d hash
            then if seen then readNames r true p (nameLine (c :: l)) else readNames r true (nameLine (c :: l)) f
            else readNames r seen p f
        | [] => readNames r seen p f
        end
      else (p, f)
  | _ => (p, f)
  end.

(** scipy.io.mmread on a dense real general file (scipy/io/_mmio.py): comments and
    blank lines are skipped; without a line for the shape it reads for ever *)
Fixpoint skipComments (ls : list text) : list text :=
  match ls with
  | l :: r => match lstrip l with c :: _ => if Ascii.eqb c pct then skipComments r else ls | [] => ls end
  | [] => []
  end.
Fixpoint skipBlank (ls : list text) : result (text * list text) :=
  match ls with
  | l :: r => match lstrip l with [] => skipBlank r | _ => Ok (l, r) end
  | [] => Err OutOfFuel
  end.
Definition setCell (a : list (list pval)) (i j : nat) (v : pval) : result (list (list pval)) :=
  match nth_error a i with
  | Some r => if j <? List.length r then Ok (upd a i (upd r j v)) else Err IndexErr
  | None => Err IndexErr
  end.
(** the values, down the columns *)
Fixpoint readValues (nr nc : nat) (ls : list text) (i j : nat) (a : list (list pval)) : result (list (list pval)) :=
  match ls with
  | [] => if ((i =? 0) || (i =? j)) && (j =? nc) then Ok a else Err ValueErr
  | l :: r =>
      match l with
      | [] => readValues nr nc r i j a
      | c :: _ =>
          if Ascii.eqb c pct then readValues nr nc r i j a
          else match lstrip l with
          | [] => readValues nr nc r i j a
          | _ =>
              match floatOf l with
              | None => Err ValueErr
              | Some v =>
                  a' <- setCell a i j v ;;
                  (if i <? nr - 1 then readValues nr nc r (S i) j a' else readValues nr nc r 0 (S j) a')
              end
          end
      end
  end.
Definition readArray (ls : list text) : result (list (list pval)) :=
  q <- skipBlank (skipComments ls) ;;
  match tokens (fst q) with
  | [a; b] =>
      match readNat a, readNat b with
      | Some nr, Some nc => readValues nr nc (snd q) 0 0 (repeat (repeat (PFloat 0) nc) nr)
      | _, _ => Err ValueErr
      end
  | _ => Err ValueErr
  end.
Definition mmread (t : text) : result (list (list pval)) :=
  match linesOf t with
  | h :: r => if sameText h listHead then readArray r else mmOther t
  | [] => mmOther t
  end.

(** _createHelpers.py 2697-2722 and 2296-2306: names taken out of the data when
    asked for (True), names in the comments first, then those found in the data,
    then a list or dict the caller gave *)
Definition chooseNames (found : option (list string)) (taken : option (list string)) (a : nmArg) : nmArg :=
  match (match found with Some l => Some l | None => taken end), a with
  | Some l, _ => NmList (map Some l)
  | None, NmList l => NmList l
  | None, NmDict d => NmDict d
  | None, _ => NmNone
  end.
Section Load.
Variable T : Type.
Variable ET : EqDec T.
Variable conv : T -> pval -> result pval.
Variable junk : nat -> nat -> pval.
(** _loadmtxForAuto and initDataObject. Simplified: for data without elements
    initDataObject is the one for Python lists; the flags that names were taken
    out of the data (True together with keepPoints or keepFeatures naming every
    point) are not passed on. *)
Definition loadMtx (t : text) (pn fn : nmArg) (keepP keepF : option (list kid)) (treat : option (list pval)) (repl : pval) (rowsArePoints : bool)
  : result (table pval) :=
  let '(p, f) := readNames (linesOf t) false None None in
  data <- mmread t ;;
  q <- (if isTrue pn || isTrue fn then extractRows strOf pn fn data else Ok (data, None, None)) ;;
  let '(d, tp', tf') := q in
  rmap fst (initData strOf T ET conv junk (RRows d) (chooseNames p tp' pn) (chooseNames f tf' fn)
    CNone keepP keepF treat repl rowsArePoints).
End Load.
End Mtx.

(** ** Which format *)
Inductive format := FCsv | FMtx | FHdf | FPickle.
Definition lowerText (t : text) : text := map lower t.
Definition formatOf (s : text) : option format :=
  if sameText s (chars "csv") then Some FCsv
  else if sameText s (chars "mtx") then Some FMtx
  else if sameText s (chars "hdf5") || sameText s (chars "h5") then Some FHdf
  else if sameText s (chars "pickle") || sameText s (chars "p") || sameText s (chars "pkl") then Some FPickle
  else None.
(** path.rsplit('.', 1): what stands before and after the last dot *)
Fixpoint lastDot (t : text) : option (text * text) :=
  match t with
  | [] => None
  | c :: r => match lastDot r with
              | Some (b, e) => Some (c :: b, e)
              | None => if Ascii.eqb c "."%char then Some ([], r) else None
              end
  end.
(** what stands after the last slash *)
Fixpoint baseName (t : text) : text :=
  match t with
  | [] => []
  | c :: r => if existsb (Ascii.eqb "/"%char) (c :: r)
              then baseName r else c :: r
  end.
(** os.path.splitext(path)[1] without its dot; None: no extension. The dots at
    the start of a file name do not count *)
Definition extension (path : text) : option text :=
  match lastDot path with
  | Some (b, e) =>
      if existsb (Ascii.eqb "/"%char) e then None
      else if forallb (Ascii.eqb "."%char) (baseName b) then None
      else Some e
  | None => None
  end.
(** base.py 1855-1870 *)
Definition saveFormat (path : text) (given : option text) : result format :=
  let s := match given with
           | Some s => s
           | None => match extension path with Some e => lowerText e | None => chars "csv" end
           end in
  match formatOf s with Some f => Ok f | None => Err InvalidArgumentValue end.
(** _autoFileTypeChecker (1727-1747), simplified: hdf5 files are not looked for *)
Definition startsWithMM (content : text) : bool := sameText (firstn 14 content) (chars "%%MatrixMarket").
(** 2243-2258: csv content is decoded to text, other content stays bytes; then
    the extension of the path decides *)
Definition loadFormat (path content : text) : format :=
  let auto := if startsWithMM content then FMtx else FCsv in
  match lastDot path with
  | Some (_, e) => match formatOf (lowerText e) with
                   | Some FCsv => FCsv | Some FMtx => FMtx | Some FHdf => FHdf | _ => auto end
  | None => auto
  end.
(** the reader gets the kind of stream it works on: csv needs text, the others
    bytes *)
Definition streamFits (path content : text) : bool :=
  match loadFormat path content with
  | FCsv => negb (startsWithMM content)
  | _ => startsWithMM content
  end.
