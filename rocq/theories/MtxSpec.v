(** What saving to and loading from Matrix Market files should do (C70). *)
From Coq Require Import QArith.
From Coq Require Import Ascii String Decimal DecimalString.
From Verif Require Import Base NamesModel TableModel TableSpec MatchModel CsvModel RawModel RawSpec CsvTextModel MtxModel.
From Coq Require Import List.
Import ListNotations.
Open Scope string_scope.
Open Scope list_scope.
Open Scope nat_scope.

(** The axis of an object of [n] points: it has no names, or each has one. *)
Definition AxisIs (o : option (list (option string))) (n : nat) (names : option (list string)) : Prop :=
  match names with
  | None => o = None \/ o = Some (repeat None n)
  | Some l => o = Some (map Some l) /\ List.length l = n /\ NoDup l
  end.
(** Some have a name, some do not. *)
Definition PartlyNamed (o : option (list (option string))) : Prop :=
  exists l s, o = Some l /\ In (Some s) l /\ In None l.
(** The object has as many rows and columns as it says, at least one each. *)
Definition Rectangle (o : mobj) : Prop :=
  0 < mNP o /\ 0 < mNF o /\ List.length (mRows o) = mNP o /\ (forall r, In r (mRows o) -> List.length r = mNF o).
(** the names an object shows *)
Definition Shows (names : option (list string)) (n : nat) : list (option string) :=
  match names with Some l => map Some l | None => repeat None n end.

(** Characters that survive: names without commas and line ends, the last one
    without white space at its end, and not a single empty name. *)
Definition White (c : ascii) : Prop := In (nat_of_ascii c) [9; 10; 11; 12; 13; 32].
Definition EndsWhite (s : string) : Prop := exists a c, chars s = a ++ [c] /\ White c.
Definition Storable (names : option (list string)) : Prop :=
  match names with
  | None => True
  | Some l => (forall s, In s l -> ~ In comma (chars s) /\ ~ In nl (chars s)) /\
              l <> [""] /\ (forall a s, l = a ++ [s] -> ~ EndsWhite s)
  end.

(** The text of an element is a number that reads back as [w]. *)
Definition ReadsAs (strOf : pval -> string) (floatOf : text -> option pval) (v w : pval) : Prop :=
  exists c r, chars (strOf v) = c :: r /\ c <> pct /\ ~ In nl (c :: r) /\ (exists d, In d (c :: r) /\ ~ White d) /\
    floatOf (c :: r ++ [nl]) = Some w.

(** The names used for an axis: those of the file; if it has none, those the
    caller gives as a list; otherwise none. *)
Definition UsedNames (file : option (list string)) (a : nmArg) (n : nat) : list (option string) :=
  match file with Some l => map Some l | None => explicitNames a n end.

(** The comment lines of a file: the lines before the first that does not start
    with a percent sign, each with its line end. *)
Inductive Comments : list text -> list text -> Prop :=
| cm_end : Comments [] []
| cm_stop l r : (forall u, l <> pct :: u) -> Comments (l :: r) []
| cm_line u r cs : Comments r cs -> Comments ((pct :: u) :: r) ((pct :: u) :: cs).
(** the ones with names start with a percent and a number sign *)
Definition NameLines (cs : list text) : list text :=
  filter (fun l => match l with _ :: d :: _ => Ascii.eqb d hash | _ => false end) cs.
(** the names on such a line: separated by commas, without the white space at the
    end; nothing at all means no names *)
Definition Names (line : text) (names : option (list string)) : Prop :=
  exists body white parts, line = pct :: hash :: body ++ white /\ (forall c, In c white -> White c) /\
    (forall a c, body = a ++ [c] -> ~ White c) /\
    body = joinCells (map chars parts) /\ parts <> [] /\ (forall s, In s parts -> ~ In comma (chars s)) /\
    names = (if list_eq_dec string_dec parts [""] then None else Some parts).
(** the first such line has the names of the points, the last of the others those
    of the features *)
Definition FileNames (file : text) (p f : option (list string)) : Prop :=
  exists cs, Comments (linesOf file) cs /\
    match NameLines cs with
    | [] => p = None /\ f = None
    | [x] => Names x p /\ f = None
    | x :: more => Names x p /\ exists y, List.last more [] = y /\ Names y f
    end.

(** ** The body of a dense file *)
(** a line that holds no value: blank, or a comment *)
Definition Skipped (l : text) : Prop := (forall c, In c l -> White c) \/ exists r, l = pct :: r.
(** the lines with values and the numbers they hold *)
Inductive Values (floatOf : text -> option pval) : list text -> list pval -> Prop :=
| v_end : Values floatOf [] []
| v_skip l r vs : Skipped l -> Values floatOf r vs -> Values floatOf (l :: r) vs
| v_value l r v vs : ~ Skipped l -> floatOf l = Some v -> Values floatOf r vs -> Values floatOf (l :: r) (v :: vs).
(** column by column *)
Definition ByColumns (nr nc : nat) (vs : list pval) (data : list (list pval)) : Prop :=
  List.length data = nr /\ (forall r, In r data -> List.length r = nc) /\
  forall i j, i < nr -> j < nc -> valueAt data i j = nth_error vs (j * nr + i).

(** ** scipy: what mmwrite writes, mmread returns, whatever comments it was
    given *)
Definition CommentLine (l : text) : Prop := exists u, l = pct :: u ++ [nl] /\ ~ In nl u.
(** a line of white space *)
Definition BlankLine (l : text) : Prop := exists u, l = u ++ [nl] /\ ~ In nl u /\ forall c, In c u -> White c.
Definition ScipyAgrees (mmread : text -> result (list (list pval))) (mmHead mmBody : list (list pval) -> text) (vs : list (list pval)) : Prop :=
  (exists u, mmHead vs = pct :: pct :: u ++ [nl] /\ ~ In nl u) /\
  (exists c u, mmBody vs = c :: u /\ c <> pct) /\
  forall cs, Forall CommentLine cs -> mmread (mmHead vs ++ concat cs ++ mmBody vs) = Ok vs.

(** the rows [vs] hold the elements of [rows], related one by one *)
Definition Elementwise (R : pval -> pval -> Prop) (rows vs : list (list pval)) : Prop := Forall2 (Forall2 R) rows vs.

(** the first line of a dense file, and the line with its size *)
Definition denseHead : text := chars "%%MatrixMarket matrix array real general" ++ [nl].
Definition decimal (n : nat) : text := chars (NilEmpty.string_of_uint (Nat.to_uint n)).
Definition sizeLine (nr nc : nat) : text := decimal nr ++ [" "%char] ++ decimal nc ++ [nl].

(** the names argument of nimble.data does not ask for names in the data, and is
    not a dict *)
Definition plainArg (a : nmArg) : Prop := notDict a /\ a <> NmBool true.
(** it names nothing where the file has no names *)
Definition addsNone (file : option (list string)) (a : nmArg) (n : nat) : Prop :=
  file = None -> explicitNames a n = repeat None n.

(** ** Paths: directories, a name that is not only dots, and an extension *)
Definition PathIs (path ext : text) : Prop :=
  exists dir stem, path = dir ++ stem ++ "."%char :: ext /\
    (dir = [] \/ exists d, dir = d ++ ["/"%char]) /\ ~ In "/"%char stem /\ (exists c, In c stem /\ c <> "."%char) /\
    ~ In "."%char ext /\ ~ In "/"%char ext.
(** an extension in any mix of cases *)
Definition AnyCase (ext : text) (s : string) : Prop :=
  Forall2 (fun c d => c = d \/ (65 <= nat_of_ascii c <= 90 /\ nat_of_ascii d = nat_of_ascii c + 32)) ext (chars s).
