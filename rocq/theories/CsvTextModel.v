(** Model of writing a List object to a CSV file and of reading the text of a
    CSV file (C28).  Sources: /repo/nimble/core/data/base.py:1850-1923 (save,
    _writeFeatureNamesToCSV), data/_dataHelpers.py:769-777 (csvCommaFormat),
    data/list.py:202-224 (_saveCSV_implementation),
    core/_createHelpers.py:2248 (StringIO with newline=None), 2437-2483
    (_checkCSVForNames), 2485-2503 (_advancePastComments), 2857-2867 (the lines
    given to csv.reader); csv.reader itself is CPython's Modules/_csv.c with the
    dialect excel (comma, the double quote, doublequote, not strict).
    Simplifications: inputSeparator=',' is given (no csv.Sniffer); a cell is the
    string that str() gives for it; the limit on the length of a field is not
    modelled. *)
From Coq Require Import Ascii.
From Verif Require Import Base CsvModel.
Open Scope string_scope.
Open Scope list_scope.
Open Scope nat_scope.

Definition text := list ascii.
Definition nl : ascii := ascii_of_nat 10.
Definition cr : ascii := ascii_of_nat 13.
Definition dq : ascii := ascii_of_nat 34.
Definition comma : ascii := ","%char.
Definition hash : ascii := "#"%char.
Definition chars (s : string) : text := list_ascii_of_string s.
Definition str (t : text) : string := string_of_list_ascii t.

(** ** Writing *)
(** _dataHelpers.py:769-777 *)
Definition commaFormat (t : text) : text :=
  if existsb (Ascii.eqb comma) t then dq :: flat_map (fun c => if Ascii.eqb c dq then [dq; dq] else [c]) t ++ [dq] else t.
(** ','.join *)
Fixpoint joinCells (l : list text) : text :=
  match l with [] => [] | [x] => x | x :: t => x ++ comma :: joinCells t end.
(** list.py:211-224: one line *)
Definition writeLine (row : list string) : text := joinCells (map (fun s => commaFormat (chars s)) row) ++ [nl].
(** a List object: the names (None: not created), the cells *)
Record saved := mkSaved { sdP : option (list (option string)); sdF : option (list (option string)); sdCells : list (list string) }.
Definition anyName (o : option (list (option string))) : bool :=
  match o with Some l => existsb (fun n => match n with Some _ => true | None => false end) l | None => false end.
(** writing None or joining it with strings raises TypeError *)
Definition strNames (o : option (list (option string))) : result (list string) :=
  match o with
  | Some l => rmapM (fun n => match n with Some s => Ok s | None => Err TypeErr end) l
  | None => Err TypeErr
  end.
(** base.py:1850-1909, 1915-1923 and list.py:202-224; [nf] is len(self.features) *)
Definition saveCsv (o : saved) (nf : nat) (includeNames : bool) : result text :=
  if (List.length (sdCells o) =? 0) || (nf =? 0) then Err ImproperObjectAction
  else
    let incP := includeNames && anyName (sdP o) in
    let incF := includeNames && anyName (sdF o) in
    head <- (if incF then fs <- strNames (sdF o) ;; Ok (writeLine (if incP then "pointNames" :: fs else fs)) else Ok []) ;;
    rows <- (if incP then ps <- strNames (sdP o) ;; Ok (map (fun p => fst p :: snd p) (combine ps (sdCells o))) else Ok (sdCells o)) ;;
    Ok (head ++ flat_map writeLine rows).

(** ** Reading *)
(** StringIO(newline=None): CR LF and CR become LF *)
Fixpoint universal (t : text) : text :=
  match t with
  | [] => []
  | c :: r => if Ascii.eqb c cr then nl :: match r with d :: r' => if Ascii.eqb d nl then universal r' else universal r | [] => [] end
              else c :: universal r
  end.
(** the lines of a file, each with its line end *)
Fixpoint linesOf (t : text) : list text :=
  match t with
  | [] => []
  | c :: r => if Ascii.eqb c nl then [nl] :: linesOf r
              else match linesOf r with [] => [[c]] | l :: ls => (c :: l) :: ls end
  end.
(** 2485-2503 *)
Fixpoint pastComments (l : list text) : result (list text) :=
  match l with
  | [] => Err FileFormatErr
  | [] :: t => Err IndexErr
  | (c :: r) :: t => if Ascii.eqb c hash || Ascii.eqb c nl then pastComments t else Ok ((c :: r) :: t)
  end.
(** 2865 *)
Definition notBlank (l : text) : bool := match l with c :: _ => negb (Ascii.eqb c nl) | [] => true end.

(** csv.reader: the states of _csv.c *)
Inductive rstate := StartRecord | StartField | InField | InQuoted | QuoteInQuoted | EatEnd.
(** state, the field so far, the fields so far *)
Record reader := mkR { rSt : rstate; rField : text; rFields : list string }.
Definition rInit : reader := mkR StartRecord [] [].
Definition saveField (r : reader) (s : rstate) : reader := mkR s [] (rFields r ++ [str (rField r)]).
Definition addChar (r : reader) (c : ascii) (s : rstate) : reader := mkR s (rField r ++ [c]) (rFields r).
Definition isEnd (c : ascii) : bool := Ascii.eqb c nl || Ascii.eqb c cr.
(** parse_process_char, START_FIELD *)
Definition startField (r : reader) (c : ascii) : reader :=
  if isEnd c then saveField r EatEnd
  else if Ascii.eqb c dq then mkR InQuoted (rField r) (rFields r)
  else if Ascii.eqb c comma then saveField r StartField
  else addChar r c InField.
(** parse_process_char; a character after the end of a line cannot occur here,
    since every line is given with its own end *)
Definition rChar (r : reader) (c : ascii) : reader :=
  match rSt r with
  | StartRecord => if isEnd c then mkR EatEnd (rField r) (rFields r) else startField r c
  | StartField => startField r c
  | InField =>
      if isEnd c then saveField r EatEnd
      else if Ascii.eqb c comma then saveField r StartField
      else addChar r c InField
  | InQuoted => if Ascii.eqb c dq then mkR QuoteInQuoted (rField r) (rFields r) else addChar r c InQuoted
  | QuoteInQuoted =>
      if Ascii.eqb c dq then addChar r dq InQuoted
      else if Ascii.eqb c comma then saveField r StartField
      else if isEnd c then saveField r EatEnd
      else addChar r c InField
  | EatEnd => r
  end.
(** parse_process_char with the end of the line *)
Definition rEol (r : reader) : reader :=
  match rSt r with
  | StartRecord => r
  | StartField | InField | QuoteInQuoted => saveField r StartRecord
  | InQuoted => r
  | EatEnd => mkR StartRecord (rField r) (rFields r)
  end.
Definition rLine (r : reader) (l : text) : reader := rEol (fold_left rChar l r).
Definition atStart (r : reader) : bool := match rSt r with StartRecord => true | _ => false end.
(** Reader_iternext until the end *)
Fixpoint records (r : reader) (ls : list text) : list (list string) :=
  match ls with
  | [] => match rField r, rSt r with
          | _ :: _, _ | _, InQuoted => [rFields (saveField r StartRecord)]
          | _, _ => []
          end
  | l :: t => let r' := rLine r l in if atStart r' then rFields r' :: records rInit t else records r' t
  end.
Definition nonEmpty (r : list string) : bool := match r with [] => false | _ => true end.

Section Load.
Variables (isInt isFloat : string -> bool).
(** 2437-2483 and 2857-3104: the names are looked for in the lines with blank
    ones, the data is read from the lines without blank ones *)
Definition loadText (t : text) (pnArg fnArg : nmArg) (ignoreNonNumeric : bool) (keepP keepF : option (list kid)) (emptyIsMissing : bool)
  : result (list (list lval) * nm * nm) :=
  ls <- pastComments (linesOf (universal t)) ;;
  let '(pnA, fnA, trackA) := checkNames isInt isFloat (filter nonEmpty (records rInit ls)) pnArg fnArg in
  pn <- namesDictToList pnA ;;
  fn <- namesDictToList fnA ;;
  track <- namesDictToList trackA ;;
  loadWith isInt isFloat (records rInit (filter notBlank ls)) pn fn track ignoreNonNumeric keepP keepF emptyIsMissing.
End Load.
