(** Specification vocabulary for objects made from scipy sparse matrices (C77).
    [SparseSpec.val], [entsOK] say what a matrix of entries stands for and that it
    has one nonzero entry at most for each position; [namesFrom], [NamesFit],
    [Made] and the rules for header rows are those of lists (RawSpec.v). *)
From Verif Require Import Base NamesModel TableModel TableSpec TableOps MatchModel MatchSpec GetSpec CsvModel RawModel RawSpec SparseModel SparseSpec.
From Coq Require Import QArith List. Import ListNotations.
Open Scope nat_scope.

(** the nested list [m] shows the matrix [s] *)
Definition Shows (m : list (list pval)) (s : sparse pval) : Prop :=
  List.length m = snp s /\ (forall r, In r m -> List.length r = snf s) /\
  forall i j, i < snp s -> j < snf s -> valueAt m i j = Some (SparseSpec.val (PInt 0) s i j).
(** no stored value is zero *)
Definition NoZeros (l : list (entry pval)) : Prop := forall e, In e l -> ~ Same (ev e) (PInt 0).
Definition InRange (n k : nat) (l : list (entry pval)) : Prop := forall e, In e l -> er e < n /\ ec e < k.

(** ** Several entries for one position *)
Definition cellsAt (l : list (entry pval)) (i j : nat) : list pval :=
  map (fun e => ev e) (filter (fun e => (er e =? i) && (ec e =? j)) l).
Definition total (qs : list Q) : Q := fold_right Qplus 0%Q qs.
(** what a position with the entries [vs] holds *)
Inductive Holds1 : list pval -> pval -> Prop :=
| holds_none : Holds1 [] (PInt 0)
| holds_zero v : Same v (PInt 0) -> Holds1 [v] (PInt 0)
| holds_one v w : SameElement v w -> Holds1 [v] w
| holds_sum vs qs w q : 2 <= List.length vs -> Forall2 IsNumber vs qs -> IsNumber w q -> (q == total qs)%Q -> Holds1 vs w.
(** positions with more than one entry hold numbers only *)
Definition Summable (l : list (entry pval)) : Prop :=
  forall i j, List.length (cellsAt l i j) <= 1 \/ forall v, In v (cellsAt l i j) -> exists q, IsNumber v q.
(** neither a number nor text float() reads *)
Definition NotNumeric (floatOf : string -> option pval) (v : pval) : Prop :=
  v = PNone \/ exists s, v = PStr s /\ floatOf s = None.

(** ** Names in the data *)
(** the header cells that are not zero differ as names *)
Definition HeaderDistinct (strOf : pval -> string) (k : nat) (header : nat -> option pval) : Prop :=
  forall j j' v v', j < k -> j' < k -> header j = Some v -> header j' = Some v' -> v <> PInt 0 -> v' <> PInt 0 -> strOf v = strOf v' -> j = j'.
(** no header cell is zero *)
Definition HeaderNonzero (k : nat) (header : nat -> option pval) : Prop := forall i, i < k -> header i <> Some (PInt 0).

(** ** Conversions *)
(** the types asked leave zero as it is *)
Definition KeepsZero {T} (conv : T -> pval -> result pval) (a : axis) (c : convArg T) : Prop :=
  forall j ty, TypeAt a c j (Some ty) -> conv ty (PInt 0) = Ok (PInt 0).
(** each element is converted to the one type asked for its feature *)
Definition ConvertedEach {T} (conv : T -> pval -> result pval) (a : axis) (c : convArg T) (s s' : sparse pval) : Prop :=
  snp s' = snp s /\ snf s' = snf s /\
  forall i j, i < snp s -> j < snf s -> exists ty, TypeAt a c j ty /\ (forall ty', TypeAt a c j ty' -> ty' = ty) /\
    ConvertedBy conv ty (SparseSpec.val (PInt 0) s i j) (SparseSpec.val (PInt 0) s' i j).
