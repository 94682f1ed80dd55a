(** Model of the session log.
    Source: /repo/nimble/core/logger/session_logger.py:96-182 (showLog checks),
    215-262 (setup), 275-309 (log), 706-782 (showLog), 901-954 (the query),
    1280-1330 (output).  The database is the list of rows of the table [logger]
    in insertion order; SQLite's INSERT/SELECT/ORDER BY/LIMIT/LIKE are modelled
    directly.  Timestamps are numbers (the text format sorts chronologically);
    parsing of dates and the layout of the text are not modelled. *)
From Verif Require Import Base NamesModel TableModel TableOps.
From Coq Require Import Ascii.
Open Scope string_scope.
Open Scope list_scope.
Open Scope nat_scope.

Record row := mkRow { rId : nat; rTime : nat; rSess : Z; rType : string; rInfo : string }.
Definition db := list row.
(** one running nimble process: [sessionNumber], None until [setup] *)
Definition proc := option Z.

(** SELECT MAX(sessionNumber) FROM logger *)
Definition maxSession (d : db) : option Z :=
  fold_left (fun m r => match m with None => Some (rSess r) | Some z => Some (Z.max z (rSess r)) end) d None.
(** 247-259 [setup] *)
Definition setup (d : db) : Z := match maxSession d with Some z => (z + 1)%Z | None => 0%Z end.
Definition ensure (d : db) (p : proc) : Z := match p with Some n => n | None => setup d end.
(** AUTOINCREMENT *)
Definition nextId (d : db) : nat := S (fold_left (fun m r => Nat.max m (rId r)) d 0).
(** 297-309 [log] *)
Definition logRow (d : db) (p : proc) (time : nat) (type info : string) : db * proc :=
  let n := ensure d p in
  (d ++ [mkRow (nextId d) time n type info], Some n).

(** SQLite LIKE: case-insensitive for ASCII letters; '%' any text, '_' any one
    character *)
Definition lower (c : ascii) : ascii :=
  let n := nat_of_ascii c in if (65 <=? n) && (n <=? 90) then ascii_of_nat (n + 32) else c.
Fixpoint like (p s : string) : bool :=
  match p with
  | EmptyString => match s with EmptyString => true | _ => false end
  | String c p' =>
      if Ascii.eqb c "%"%char then
        (fix anySuffix (s : string) : bool :=
           like p' s || match s with EmptyString => false | String _ s' => anySuffix s' end) s
      else match s with
           | EmptyString => false
           | String x s' => (Ascii.eqb c "_"%char || Ascii.eqb (lower c) (lower x)) && like p' s'
           end
  end.

Record query := mkQ { qLeast : option Z; qMost : option Z; qStart : option nat; qEnd : option nat;
  qText : option string; qMax : option Z }.
(** 901-940: the WHERE clause (searchForText without regex) *)
Definition whereOf (q : query) (d : db) (r : row) : bool :=
  let m := maxSession d in
  match qLeast q, m with Some l, Some z => (rSess r <=? z - l)%Z | Some _, None => false | None, _ => true end &&
  match qMost q, m with Some l, Some z => (rSess r >? z - l)%Z | Some _, None => false | None, _ => true end &&
  match qStart q with Some t => t <=? rTime r | None => true end &&
  match qEnd q with Some t => rTime r <=? t | None => true end &&
  match qText q with
  | Some t => let pat := ("%" ++ t ++ "%")%string in like pat (rType r) || like pat (rInfo r)
  | None => true end.
(** ORDER BY entry DESC LIMIT n (a negative n is no limit), then ORDER BY entry ASC *)
Definition limit {A} (n : option Z) (l : list A) : list A :=
  match n with None => l | Some z => if (z <? 0)%Z then l else firstn (Z.to_nat z) l end.
Definition select (q : query) (d : db) : list row :=
  let matching := filter (whereOf q d) d in
  let inner := match qMax q with
               | None => matching
               | Some _ => limit (qMax q) (stableSort (fun a b => rId b <=? rId a) matching)
               end in
  stableSort (fun a b => rId a <=? rId b) inner.
(** 160-178: the checks of nimble.showLog *)
Definition checkArgs (level : Z) (q : query) : result unit :=
  if (level <? 1)%Z || (3 <? level)%Z then Err InvalidArgumentValue
  else if match qStart q, qEnd q with Some a, Some b => b <? a | _, _ => false end then Err InvalidArgumentValueCombination
  else match qLeast q with
       | Some l => if (l <? 0)%Z then Err InvalidArgumentValue
                   else match qMost q with
                        | Some m => if (m <? l)%Z then Err InvalidArgumentValueCombination else Ok tt
                        | None => Ok tt end
       | None => Ok tt
       end.
(** 1280-1287 [logBuilders]: the level of detail of the known types *)
Definition levelOf (t : string) : Z :=
  if string_dec t "prep" then 2 else if string_dec t "run" then 2 else if string_dec t "deepRun" then 3
  else if string_dec t "tuning" then 2 else 1.
Inductive line := LSession (n : Z) | LEntry (r : row).
(** 1289-1330 [_showLogOutputString] *)
Fixpoint output (level : Z) (prev : option Z) (rows : list row) : list line :=
  match rows with
  | [] => []
  | r :: t =>
      (match prev with Some p => if (p =? rSess r)%Z then [] else [LSession (rSess r)] | None => [LSession (rSess r)] end) ++
      (if (levelOf (rType r) <=? level)%Z then [LEntry r] else []) ++
      output level (Some (rSess r)) t
  end.
(** nimble.showLog: it sets the process up; the process then has a session
    number *)
Definition showLog (d : db) (p : proc) (level : Z) (q : query) : proc * result (list line) :=
  match checkArgs level q with
  | Err e => (p, Err e)
  | Ok _ => (Some (ensure d p), Ok (output level None (select q d)))
  end.

(** ** histories of several nimble sessions (processes) using one log; a
    session is identified by a number and begins with its first operation *)
Inductive lop :=
| LLog (who : nat) (time : nat) (type info : string)
| LShow (who : nat).
Definition who (x : lop) : nat := match x with LLog k _ _ _ => k | LShow k => k end.
Record world := mkW { wdb : db; wprocs : nat -> proc; wlog : list nat (* who wrote each row *) }.
Definition setP (f : nat -> proc) (k : nat) (v : proc) : nat -> proc := fun j => if j =? k then v else f j.
Definition lstep (w : world) (x : lop) : world :=
  match x with
  | LLog k time type info =>
      let '(d, p) := logRow (wdb w) (wprocs w k) time type info in mkW d (setP (wprocs w) k p) (wlog w ++ [k])
  | LShow k => mkW (wdb w) (setP (wprocs w) k (Some (ensure (wdb w) (wprocs w k)))) (wlog w)
  end.
Definition lrun (l : list lop) : world := fold_left lstep l (mkW [] (fun _ => None) []).
