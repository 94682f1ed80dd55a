(** Model of the counting statistics of /repo/nimble/calculate/statistic.py:
    mode (252-305) and uniqueCount (403-416).  Elements are of any type with a
    zero; missing is [None]; [sorted] uses the order of the elements. *)
From Verif Require Import Base TableModel TableSpec LearnModel.
Open Scope list_scope.
Open Scope nat_scope.
Section Stat.
Context {V : Type} {EV : EqDec V}.
Variable zero : V.
Variable leb : V -> V -> bool.
Definition present (l : list (option V)) : list V :=
  flat_map (fun x => match x with Some v => [v] | None => [] end) l.
Definition presentNonZero (l : list (option V)) : list V :=
  filter (fun v => negb (eqbd v zero)) (present l).
(** 296-304: Counter.most_common is a stable sort by decreasing count *)
Definition byCount (p q : V * nat) : bool := snd q <=? snd p.
Definition modeOf (counter : list (V * nat)) : result V :=
  match stableSort byCount counter with
  | [] => Err InvalidArgumentValue
  | (first, c) :: rest =>
      let fix take (l : list (V * nat)) : list V :=
        match l with
        | [] => []
        | (v, cnt) :: t => if cnt =? c then v :: take t else []
        end in
      let modes := first :: take rest in
      let n := List.length modes in
      if n =? 1 then Ok first
      else
        let center := if n mod 2 =? 0 then n / 2 - 1 else n / 2 in
        match nth_error (stableSort leb modes) center with Some v => Ok v | None => Err IndexErr end
  end.
Definition modeDense (l : list (option V)) : result V := modeOf (countVotes (present l)).
(** 283-288; [len] the length, [stored] the stored values *)
Definition modeSparse (len : nat) (stored : list (option V)) : result V :=
  let counter := countVotes (presentNonZero stored) in
  let numZero := len - List.length stored in
  modeOf (if numZero =? 0 then counter
          else match dget zero counter with
               | Some c => dset zero (c + numZero) counter
               | None => dset zero numZero counter end).
Definition uniqueCountDense (l : list (option V)) : nat := List.length (nodup eq_dec (present l)).
Definition uniqueCountSparse (len : nat) (stored : list (option V)) : nat :=
  let s := nodup eq_dec (presentNonZero stored) in
  List.length (if List.length stored <? len then (if mem zero s then s else s ++ [zero]) else s).
End Stat.
