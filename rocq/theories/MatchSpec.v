(** Specification vocabulary for matching (C30). *)
From Verif Require Import Base NamesModel TableModel TableSpec TableOps MatchModel.
From Coq Require Import QArith.
Open Scope nat_scope.

(** [v] stands for the number [q] *)
Inductive IsNumber : pval -> Q -> Prop :=
| num_bool b : IsNumber (PBool b) (if b then 1 else 0)%Q
| num_int z : IsNumber (PInt z) (inject_Z z)
| num_float q : IsNumber (PFloat q) q.
(** Equality of elements: the same number, the same infinity, the same string
    or both None; NaN equals nothing, not even itself. *)
Inductive Same : pval -> pval -> Prop :=
| same_num a b p q : IsNumber a p -> IsNumber b q -> (p == q)%Q -> Same a b
| same_pinf : Same PPosInf PPosInf
| same_ninf : Same PNegInf PNegInf
| same_str s : Same (PStr s) (PStr s)
| same_none : Same PNone PNone.
Definition isCell {V} (t : table V) (v : V) : Prop := exists i j, cell t i j = Some v.
