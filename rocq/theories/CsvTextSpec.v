(** Specification of the round trip through a CSV file (C28). *)
From Coq Require Import Ascii.
From Verif Require Import Base CsvModel CsvSpec CsvTextModel.
Open Scope string_scope.
Open Scope list_scope.
Open Scope nat_scope.

Definition lf : ascii := ascii_of_nat 10.
Definition has (c : ascii) (s : string) : Prop := In c (list_ascii_of_string s).
Definition startsWith (c : ascii) (s : string) : Prop := exists t, s = String c t.
(** two line ends in a row: an empty line *)
Definition BlankInside (s : string) : Prop := exists a b, list_ascii_of_string s = a ++ lf :: lf :: b.
(** a cell survives: no carriage return; a cell with a comma is quoted and
    may have line ends, but no empty line; any other has no line end and does
    not start with a double quote *)
Definition SafeCell (s : string) : Prop :=
  ~ has (ascii_of_nat 13) s /\
  ((has ","%char s /\ ~ BlankInside s) \/ (~ has ","%char s /\ ~ has lf s /\ ~ startsWith (ascii_of_nat 34) s)).
(** a line that is not empty *)
Definition SafeRow (r : list string) : Prop := r <> [] /\ r <> [""] /\ Forall SafeCell r.
(** the first line of the file is not taken for a comment *)
Definition NotComment (rows : list (list string)) : Prop :=
  forall s t rest, rows = (s :: t) :: rest -> has ","%char s \/ ~ startsWith "#"%char s.
(** the lines of the file: header, then the points with their names *)
Definition fileRows (ps fs : option (list string)) (cells : list (list string)) : list (list string) :=
  (match fs with Some l => [match ps with Some _ => "pointNames" :: l | None => l end] | None => [] end) ++
  (match ps with Some l => map (fun p => fst p :: snd p) (combine l cells) | None => cells end).
(** names of an object: all or none *)
Definition namesOpt (o : option (list string)) : option (list (option string)) := option_map (map Some) o.
Definition someNames (o : option (list string)) : Prop := match o with Some l => l <> [] /\ ~ In "" l | None => True end.
Definition nmOpt (o : option (list string)) : nm := match o with Some l => NL (map Some l) | None => NFalse end.
Definition argOpt (o : option (list string)) : nmArg := NmBool (match o with Some _ => true | None => false end).
