(** Vocabulary of C49: splitting text, one point per value, one point per
    group. *)
From Verif Require Import Base NamesModel NamesSpec TableModel TableSpec MatchModel MatchSpec ReshapeModel.
Open Scope string_scope. Open Scope list_scope. Open Scope nat_scope.

(** ** Text *)
Definition OccursAt (sep s : string) (k : nat) : Prop := exists a b, s = (a ++ sep ++ b)%string /\ String.length a = k.
Definition FirstAt (sep s : string) (k : nat) : Prop := OccursAt sep s k /\ forall j, j < k -> ~ OccursAt sep s j.
(** cut at every occurrence of the separator, from the left *)
Inductive Splits (sep : string) : string -> list string -> Prop :=
| sp_last s : (forall k, ~ OccursAt sep s k) -> Splits sep s [s]
| sp_cut a r ps : FirstAt sep (a ++ sep ++ r)%string (String.length a) -> Splits sep r ps -> Splits sep (a ++ sep ++ r)%string (a :: ps).
(** a list of positions and separators: [done] is the text already passed over,
    [s] what is left; a position cuts the whole value, a separator is removed at
    its first occurrence in what is left *)
Inductive Parses : string -> string -> list item -> list string -> Prop :=
| pa_end done s : Parses done s [] [s]
| pa_sep done a sep r l ps : sep <> "" -> FirstAt sep (a ++ sep ++ r)%string (String.length a) ->
    Parses (done ++ a ++ sep)%string r l ps -> Parses done (a ++ sep ++ r)%string (ItStr sep :: l) (a :: ps)
| pa_pos done a r l ps z : z = Z.of_nat (String.length done + String.length a) ->
    Parses (done ++ a)%string r l ps -> Parses done (a ++ r)%string (ItInt z :: l) (a :: ps).
Definition OneCharacter (l : list item) : Prop := forall sep, In (ItStr sep) l -> String.length sep = 1.
(** the separators put back between the pieces *)
Fixpoint rebuild (l : list item) (ps : list string) : string :=
  match l, ps with
  | ItStr sep :: l', p :: ps' => (p ++ sep ++ rebuild l' ps')%string
  | ItInt _ :: l', p :: ps' => (p ++ rebuild l' ps')%string
  | _, p :: _ => p
  | _, [] => ""
  end.
(** what a rule makes of a value *)
Inductive Pieces : rule -> pval -> list pval -> Prop :=
| pc_str sep s ps : sep <> "" -> Splits sep s ps -> Pieces (RStr sep) (PStr s) (map PStr ps)
| pc_pos z a b : (0 <= z)%Z -> String.length a = Nat.min (Z.to_nat z) (String.length (a ++ b)%string) ->
    Pieces (RInt z) (PStr (a ++ b)) [PStr a; PStr b]
| pc_neg z a b : (z < 0)%Z -> String.length b = Nat.min (Z.to_nat (- z)) (String.length (a ++ b)%string) ->
    Pieces (RInt z) (PStr (a ++ b)) [PStr a; PStr b]
| pc_list l s ps : OneCharacter l -> Parses "" s l ps -> Pieces (RList l) (PStr s) (map PStr ps)
| pc_fun f v ps : f v = Ok ps -> Pieces (RFun f) v ps.
(** the position of the split feature is taken by the pieces *)
Definition replaced {A} (i : nat) (new : list A) (l : list A) : list A := firstn i l ++ new ++ skipn (S i) l.
Definition DistinctNames (l : list (option string)) : Prop :=
  forall i j s, nth_error l i = Some (Some s) -> nth_error l j = Some (Some s) -> i = j.
(** an identifier of a feature or point: a name or an index, also from the end *)
Definition Refers (a : axis) (id : ident) (i : nat) : Prop :=
  i < alen a /\
  match id with
  | IdInt z => z = Z.of_nat i \/ z = (Z.of_nat i - Z.of_nat (alen a))%Z
  | IdStr s => nth_error (getNames a) i = Some (Some s)
  | _ => False
  end.

(** ** Collapsing *)
(** the features that are not collapsed, in order *)
Definition others (idx : list nat) (n : nat) : list nat := filter (fun i => negb (mem i idx)) (seq 0 n).
Definition pick (r : list pval) (idx : list nat) : list pval := map (fun i => nth i r PNaN) idx.
(** elements that one numpy array holds unchanged: one type, or some None *)
Definition OneType (l : list pval) : Prop :=
  In PNone l \/ (forall v, In v l -> exists b, v = PBool b) \/ (forall v, In v l -> exists z, v = PInt z) \/
  (forall v, In v l -> match v with PFloat _ | PPosInf | PNegInf | PNaN => True | _ => False end) \/
  (forall v, In v l -> exists s, v = PStr s).
Definition FullyNamed (a : axis) : Prop := forall i, i < alen a -> exists s, nth_error (getNames a) i = Some (Some s).

(** what a point says about the collapsed feature its value is from: the name, or
    the index if it has none *)
Definition nameCell (names : list (option string)) (i : nat) : pval :=
  match nth_error names i with Some (Some s) => PStr s | _ => PInt (Z.of_nat i) end.

(** ** Expanding *)
Definition SameValues (a b : list pval) : Prop := Forall2 Same a b.
(** first occurrences, up to [R], of the elements of [l] are those at the
    increasing positions [ps] *)
Definition Firsts {A} (R : A -> A -> Prop) (l : list A) (ps : list nat) : Prop :=
  (forall g p, nth_error ps g = Some p -> exists x, nth_error l p = Some x /\ forall q y, q < p -> nth_error l q = Some y -> ~ R x y) /\
  (forall g h p q, g < h -> nth_error ps g = Some p -> nth_error ps h = Some q -> p < q) /\
  (forall q y, nth_error l q = Some y -> exists g p x, nth_error ps g = Some p /\ nth_error l p = Some x /\ R y x).
(** the text of a name, with its type if another name has the same text *)
Definition PrefixOf (strOf : pval -> string) (names : list pval) (j : nat) (s : string) : Prop :=
  exists n, nth_error names j = Some n /\
    ((forall k m, nth_error names k = Some m -> strOf m = strOf n -> k = j) /\ s = strOf n \/
     (exists k m, nth_error names k = Some m /\ strOf m = strOf n /\ k <> j) /\ s = (strOf n ++ "(" ++ typeName n ++ ")")%string).
(** the name of a value feature; without names the index as it was given *)
Definition SuffixOf (strOf : pval -> string) (a : axis) (id : ident) (i : nat) (s : string) : Prop :=
  nth_error (getNames a) i = Some (Some s) \/ (astate a = None /\ exists z, id = IdInt z /\ s = strOf (PInt z)).
(** the names of the new features: every name, or with several value features
    every name with every value feature *)
Definition expandedNames (prefixes suffixes : list string) : list string :=
  match suffixes with
  | [_] => prefixes
  | _ => flat_map (fun p => map (fun s => (p ++ "_" ++ s)%string) suffixes) prefixes
  end.
