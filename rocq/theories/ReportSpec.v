(** Vocabulary of C85: features.report. *)
From Verif Require Import Base NamesModel TableModel TableSpec NormModel NormSpec ReportModel.
From Coq Require Import DecimalString. From Coq Require Import String Ascii. From Coq Require Import List. Import ListNotations.
Open Scope nat_scope.

(** how often [s] is in the list *)
Definition times (s : string) (l : list string) : nat := List.length (filter (String.eqb s) l).
Definition decimal (n : nat) : string := NilEmpty.string_of_uint (Nat.to_uint n).
(** the label of column [p], when the columns are to be called [l]: that name, and if
    there are more columns called so, also how many of them come before *)
Definition LabelAt (l : list string) (p : nat) (label : string) : Prop :=
  exists v, nth_error l p = Some v /\
    ((times v l <= 1 /\ label = v) \/ (1 < times v l /\ label = (v ++ " (" ++ decimal (times v (firstn p l)) ++ ")")%string)).
(** the ten statistics there are *)
Definition ten : list string :=
  ["mean"; "mode"; "minimum"; "Q1"; "median"; "Q3"; "maximum"; "uniqueCount"; "count"; "standardDeviation"]%string.
(** the statistics asked for by the parameter basicStatistics *)
Definition Chosen (b : basics) (stats : list string) : Prop :=
  match b with BTrue => stats = ten | BFalse => stats = [] | BList l => stats = l /\ forall s, In s l -> In s ten end.
(** an exception that counts as ValueError *)
Definition ValueError (e : exc) : Prop := e = ValueErr \/ e = InvalidArgumentValue \/ e = InvalidArgumentValueCombination \/ e = FileFormatErr.
(** a name without an opening parenthesis *)
Definition NoParen (s : string) : Prop := ~ In "("%char (list_ascii_of_string s).

Section R.
Variables V W : Type.
Variable ofIndex : nat -> W.
Variable nan : W.
Variable calc : string -> list V -> result W.
Variable quartiles : list V -> result (W * W * W).
(** what a basic statistic is computed by *)
Definition computed (s : string) (w : list V) : result W :=
  if String.eqb s "Q1" then match quartiles w with Ok (a, _, _) => Ok a | Err e => Err e end
  else if String.eqb s "median" then match quartiles w with Ok (_, b, _) => Ok b | Err e => Err e end
  else if String.eqb s "Q3" then match quartiles w with Ok (_, _, c) => Ok c | Err e => Err e end
  else calc s w.
(** the statistic of a feature is [x]: what was computed, or nan for a ValueError *)
Definition Statistic (s : string) (w : list V) (x : W) : Prop :=
  computed s w = Ok x \/ (exists e, computed s w = Err e /\ ValueError e /\ x = nan).
(** [r] is a report of [t]: a point per feature, of that name, in order; first its index,
    then the statistics asked for, then what the extra functions give *)
Definition IsReport (basic : basics) (extras : list (string * (list V -> result W))) (t : table V) (r : table W) : Prop :=
  exists stats, Chosen basic stats /\ wf r /\
    alen (tp r) = alen (tf t) /\ getNames (tp r) = getNames (tf t) /\ alen (tf r) = S (List.length stats + List.length extras) /\
    (forall p, p < alen (tf r) -> exists label, nth_error (getNames (tf r)) p = Some (Some label) /\ LabelAt ("index"%string :: stats ++ map fst extras) p label) /\
    forall i w, FeatureIs t i w ->
      cell r i 0 = Some (ofIndex i) /\
      (forall k s, nth_error stats k = Some s -> exists x, cell r i (1 + k) = Some x /\ Statistic s w x) /\
      (forall k s f, nth_error extras k = Some (s, f) -> exists x, cell r i (1 + List.length stats + k) = Some x /\ f w = Ok x).
End R.
Arguments Statistic {V W}. Arguments computed {V W}.
Arguments IsReport {V W}.
