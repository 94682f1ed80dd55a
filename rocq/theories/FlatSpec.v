(** Specification vocabulary for flatten / unflatten (C12). *)
From Verif Require Import Base NamesModel NamesSpec TableModel TableSpec TableOpsProofs.
Open Scope string_scope.
Open Scope list_scope.
Open Scope nat_scope.

(** Where element (i, j) of a p x f object lands in the flattened vector. *)
Definition flatPos (order : side) (p f i j : nat) : nat :=
  match order with Pts => i * f + j | Fts => j * p + i end.

(** The delimiter " | " occurs in s. *)
Definition containsSep (s : string) : Prop := exists a b, s = (a ++ " | " ++ b)%string.

(** The names of an axis survive the trip: either no name at all, or every
    point/feature is named by a string that does not look like a generated
    placeholder and in which - also once the joining delimiter is appended, for
    a point - the delimiter cannot be found. *)
Definition flattenable (sd : side) (names : list (option string)) : Prop :=
  (forall o, In o names -> o = None) \/
  (forall o, In o names -> exists s, o = Some s /\
     String.prefix (match sd with Pts => "_PT#" | Fts => "_FT#" end) s = false /\
     ~ containsSep (match sd with Pts => s ++ " |" | Fts => s end)%string).
