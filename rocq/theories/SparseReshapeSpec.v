(** Vocabulary of C71: a Sparse object and the table it stands for. *)
From Verif Require Import Base NamesModel NamesSpec TableModel TableSpec MatchModel SparseModel SparseSpec SparseReshapeModel.
From Coq Require Import List. Import ListNotations.
Open Scope nat_scope.

(** the object has these names and these values *)
Definition Holds (o : sobj) (t : table pval) : Prop :=
  oPts o = tp t /\ oFts o = tf t /\ represents (PInt 0) (oMat o) t.
(** every position is stored at most once and lies inside the matrix *)
Definition Placed (s : sparse pval) : Prop :=
  NoDup (map pos (ents s)) /\ forall e, In e (ents s) -> er e < snp s /\ ec e < snf s.
Definition IsFloat (v : pval) : Prop := match v with PFloat _ | PPosInf | PNegInf | PNaN => True | _ => False end.

(** how many elements of the list are smaller *)
Definition rank (l : list nat) (i : nat) : nat := List.length (filter (fun x => x <? i) l).
(** an order that undoes itself: the feature listed at the place that is the rank
    of feature number q has rank q.  (Increasing and decreasing orders do;
    any order in which features change places in pairs.) *)
Definition SelfInverse (l : list nat) : Prop :=
  forall q i, nth_error l q = Some i -> exists j, nth_error l (rank l i) = Some j /\ rank l j = q.
(** zeros only after everything that is not zero *)
Definition ZerosLast (l : list pval) : Prop :=
  forall a b, a < b -> b < List.length l -> nth b l (PInt 0) <> PInt 0 -> nth a l (PInt 0) <> PInt 0.
Definition isZero (v : pval) : bool := match v with PInt 0 => true | _ => false end.
(** what is left without the zeros *)
Definition nonzeros (l : list pval) : list pval := filter (fun v => negb (isZero v)) l.
