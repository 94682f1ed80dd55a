(** Specification for C51, the printed form of an object; of the model only the
    type of a request (target) is used. *)
From Verif Require Import Base DisplayModel.
Open Scope string_scope. Open Scope list_scope. Open Scope nat_scope.

(** Of the [total] indices start, start+1, ... the first ones ([f]) and the last
    ones ([b]) are chosen, [shown] in all, the head having as many as the tail or
    one more. *)
Definition HeadTail (start total shown : nat) (f b : list nat) : Prop :=
  f = seq start (List.length f) /\ b = seq (start + total - List.length b) (List.length b) /\
  List.length f + List.length b = shown /\ List.length b <= List.length f <= S (List.length b).
(** What is printed along an axis with [total] indices: a None stands for the
    placeholder between head and tail, present exactly if something is left
    out. *)
Definition Slots (total : nat) (f b : list nat) : list (option nat) :=
  map Some f ++ (if List.length f + List.length b <? total then [None] else []) ++ map Some b.
(** The text in row [r] and column [c] *)
Definition entry (rowHold colHold : string) (text : nat -> nat -> string) (r c : option nat) : string :=
  match c, r with None, _ => colHold | Some _, None => rowHold | Some c, Some r => text r c end.
(** The width of a column: of the longest of its name and its texts *)
Definition width (text : nat -> nat -> string) (name : nat -> string) (rows : list nat) (c : nat) : nat :=
  list_max (String.length (name c) :: map (fun r => String.length (text r c)) rows).
(** The characters taken by the columns [cs] with two between two of them, and two
    for a placeholder if there is one *)
Definition lineLength (w : nat -> nat) (cs : list (option nat)) : Z :=
  (Z.of_nat (list_sum (map (fun c => match c with Some c => w c | None => 2%nat end) cs)) + 2 * Z.of_nat (List.length cs - 1))%Z.
Definition Fits (limit : option Z) (z : Z) : Prop := match limit with Some m => (z <= m)%Z | None => True end.
(** [long] begins with [short] *)
Definition Begins (short long : string) : Prop := exists rest, long = (short ++ rest)%string.
(** [padded] is [s] with spaces around it *)
Fixpoint blanks (n : nat) : string := match n with 0 => "" | S k => (" " ++ blanks k)%string end.
Definition Padded (s padded : string) : Prop := exists a b, padded = (blanks a ++ s ++ blanks b)%string.
(** How many rows a limit on the number of lines leaves for the points *)
Definition rowsAllowed (lineLimit : option nat) (wanted : nat) : nat :=
  match lineLimit with None => wanted | Some l => Nat.min (l - 2) wanted end.
(** A table laid out in rows [rows] and columns [cols]: its texts, the names above
    the columns, and the widths of the name and of the longest text in each
    column *)
Record LaidOut (rowHold colHold : string) (text : nat -> nat -> string) (name : nat -> string) (shownRows : list nat)
  (rows cols : list (option nat)) (table : list (list string)) (names : list string) (widths : list (list nat)) : Prop := {
  laid_names : names = map (fun c => match c with Some c => name c | None => colHold end) cols;
  laid_table : table = map (fun r => map (entry rowHold colHold text r) cols) rows;
  laid_widths : widths = map (fun c => match c with
                                       | Some c => [String.length (name c); list_max (map (fun r => String.length (text r c)) shownRows)]
                                       | None => [String.length colHold] end) cols }.
(** [t] is [s] cut down to [limit] characters, the last of them a mark *)
Definition Cut (mark : string) (limit : Z) (s t : string) : Prop :=
  ((Z.of_nat (String.length s) <= limit)%Z -> t = s) /\
  ((limit < Z.of_nat (String.length s))%Z ->
     exists p, Begins p s /\ t = (p ++ mark)%string /\ Z.of_nat (String.length t) = limit).
(** The texts [cells], row by row, are those of [table], padded so that those in
    column [j] all have length [ws j] *)
Definition PaddedTable (table cells : list (list string)) (ws : nat -> nat) : Prop :=
  List.length cells = List.length table /\
  forall i row, nth_error table i = Some row ->
    exists row', nth_error cells i = Some row' /\ List.length row' = List.length row /\
      forall j s, nth_error row j = Some s -> exists t, nth_error row' j = Some t /\ Padded s t /\ String.length t = ws j.
(** what a request for points means in an object with [nP]: at most how many, and out
    of which *)
Inductive Wanted (nP : nat) : target -> nat -> nat -> nat -> Prop :=
| WNone : Wanted nP TNone nP 0 nP
| WInt : forall k, Wanted nP (TInt k) (Nat.min k nP) 0 nP
| WRange : forall a len, a + len <= nP -> Wanted nP (TRange (Z.of_nat a) (Z.of_nat (a + len))) len a len.
(** and one for features: the first how many from which on *)
Inductive Wanted' (nF : nat) : target -> nat -> nat -> Prop :=
| VNone : Wanted' nF TNone 0 nF
| VInt : forall k, Wanted' nF (TInt k) 0 k
| VRange : forall a len, a + len <= nF -> Wanted' nF (TRange (Z.of_nat a) (Z.of_nat (a + len))) a len.
(** The text beside a row *)
Definition rowName (hold : string) (name : nat -> string) (r : option nat) : string :=
  match r with None => hold | Some i => name i end.
