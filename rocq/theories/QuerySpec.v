(** Specification vocabulary for query strings (C29). *)
From Coq Require Import QArith.
From Verif Require Import Base NamesModel NamesSpec TableModel TableSpec TableOps MatchModel MatchSpec QueryModel.
Open Scope nat_scope.
Open Scope string_scope.

(** [w] occurs in [s] *)
Definition occurs (w s : string) : Prop := exists a b, s = a ++ w ++ b.
Definition noNewline (s : string) : Prop := ~ occurs (String newline EmptyString) s.
(** the only space-padded operator in [s] is [o], right after [id] *)
Definition onlyOperator (s id : string) (o : cop) : Prop :=
  forall a o' b, s = a ++ padded o' ++ b -> a = id /\ o' = o.
Definition isWord (negated : bool) : string := if negated then "is not " else "is ".

(** [q] is a reading of the text [s]: "id op value", "op value", "id is [not]
    name" or "is [not] name".  In the readings without identifier text after a
    newline is ignored. *)
Definition ignored (rest : string) : Prop := rest = "" \/ exists r, rest = String newline r.
Definition Reading (floatOf : string -> option pval) (accepted : string -> bool) (s : string) (q : query) : Prop :=
  match qIdent q, qFun q with
  | Some id, QCmp o v => exists text, s = id ++ padded o ++ text /\ v = toFilter floatOf text /\ onlyOperator s id o
  | None, QCmp o v => exists sp text rest, s = opStr o ++ sp ++ text ++ rest /\
      (sp = " " \/ sp = "" /\ forall r, text <> " " ++ r) /\ noNewline text /\ ignored rest /\ v = toFilter floatOf text /\
      (forall o' t, s = opStr o' ++ t -> String.length (opStr o') <= String.length (opStr o))
  | Some id, QIs f neg => s = id ++ " " ++ isWord neg ++ f /\ accepted f = true
  | None, QIs f neg => exists rest, s = isWord neg ++ f ++ rest /\ noNewline f /\ ignored rest /\ accepted f = true
  end.
(** " is " does not occur, or occurs once, before the operator, and the value
    does not contain "is " *)
Definition isHarmless (s text : string) : Prop :=
  ~ occurs " is " s \/
  (~ occurs "is " text /\ forall a b a' b', s = a ++ " is " ++ b -> s = a' ++ " is " ++ b' -> a = a').
(** the element of vector [i] at position [k] of the other axis *)
Definition elementOf {V} (sd : side) (t : table V) (i k : nat) : option V :=
  match sd with Pts => cell t i k | Fts => cell t k i end.
(** names of acceptable "is" functions contain no space *)
Definition spaceless (f : string) : Prop := ~ occurs " " f.
(** no operator that [s] starts with is longer than [o] *)
Definition longest (s : string) (o : cop) : Prop :=
  forall o' t, s = opStr o' ++ t -> String.length (opStr o') <= String.length (opStr o).

(** What "is name" says about an element. *)
Definition meanings : list (string * (pval -> Prop)) :=
  [("missing", fun v => v = PNone \/ v = PNaN);
   ("nonMissing", fun v => v <> PNone /\ v <> PNaN);
   ("numeric", fun v => (exists z, v = PInt z) \/ (exists q, v = PFloat q) \/ v = PPosInf \/ v = PNegInf \/ v = PNaN);
   ("nonNumeric", fun v => (exists s, v = PStr s) \/ v = PNone \/ exists b, v = PBool b);
   ("zero", fun v => Same v (PInt 0));
   ("nonZero", fun v => ~ Same v (PInt 0));
   ("positive", fun v => v = PPosInf \/ exists q, IsNumber v q /\ (0 < q)%Q);
   ("negative", fun v => v = PNegInf \/ exists q, IsNumber v q /\ (q < 0)%Q);
   ("infinity", fun v => v = PPosInf \/ v = PNegInf);
   ("boolean", fun v => exists b, v = PBool b);
   ("integer", fun v => (exists z, v = PInt z) \/ exists b, v = PBool b);
   ("floating", fun v => (exists q, v = PFloat q) \/ v = PPosInf \/ v = PNegInf \/ v = PNaN);
   ("true", fun v => v = PBool true);
   ("false", fun v => v = PBool false);
   ("True", fun v => v = PBool true);
   ("False", fun v => v = PBool false);
   ("None", fun v => v = PNone)].
(** the fourteen elementwise functions and their any/all versions *)
Definition elementNames : list string :=
  ["missing"; "nonMissing"; "numeric"; "nonNumeric"; "zero"; "nonZero"; "positive"; "negative"; "infinity"; "boolean";
   "integer"; "floating"; "true"; "false"].
Definition capitalised (s : string) : string :=
  match s with String c r => String (Ascii.ascii_of_nat (Ascii.nat_of_ascii c - 32)) r | EmptyString => EmptyString end.
Definition acceptedNames : list string :=
  (elementNames ++ List.map (fun n => ("any" ++ capitalised n)%string) elementNames ++ List.map (fun n => ("all" ++ capitalised n)%string) elementNames ++
  ["anyValues"; "allValues"; "anyAllValuesBackend"; "True"; "False"; "None"])%list.
