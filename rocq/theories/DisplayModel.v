(** Model of how an object is laid out as text (C51).
    Sources: /repo/nimble/core/data/_dataHelpers.py:161-192 (indicesSplit),
    802-829 (arrangeFinalTable); base.py:2560-2690 (toString, padding of the
    cells and _validateAndTruncatePrintTarget), 2718-2750 (_show),
    5689-5738 (_arrangePointNames), 5740-5933 (_arrangeDataWithLimits);
    /repo/nimble/_utility.py:500-590 (tableString).
    The box-drawing characters are replaced by ASCII characters of the same
    length: the column placeholder by two dashes, the row placeholder by a bar,
    the mark of a cut text by one dash.  [cellText r c] stands for
    formatIfNeeded(self[r, c], sigDigits); [fnameOf c] for the feature name, None
    if it is None, all names are default or names are not included. *)
From Coq Require Import DecimalString.
From Verif Require Import Base ReshapeModel.
Open Scope string_scope. Open Scope list_scope. Open Scope nat_scope.

(** ** Which points *)
(** _dataHelpers.py:161-192; the range is start .. start+total-1.  Its callers pass
    a limit of at most [total] (base.py:2596, 5789), or 1 for one point. *)
Definition indicesSplit (numAllow start total : nat) : result (list nat * list nat) :=
  let a := if numAllow <? total then numAllow - 1 else numAllow in
  if (a =? 1) || (total =? 1) then Ok ([0], [])
  else
    let forward := (a + 1) / 2 in
    let backward := a / 2 in
    let f := seq 0 forward in
    let b := map (fun i => total - backward + i) (seq 0 backward) in
    match forward, b with
    | 0, _ | _, [] => Err IndexErr
    | S l, b0 :: bs =>
        Ok (map (fun x => start + x) f, map (fun x => start + x) (if l =? b0 then bs else b))
    end.
(** base.py:2661-2679: the bounds are a tuple, assigning to one is a TypeError; the
    step is not checked *)
Definition truncateTarget (start stop : Z) (len : nat) : result (nat * nat) :=
  if (start <? 0)%Z || (Z.of_nat len <? stop)%Z then Err TypeErr else Ok (Z.to_nat start, Z.to_nat stop - Z.to_nat start).

(** ** Cutting texts *)
Definition slen := String.length.
(** base.py:5716-5730, 5839-5847 *)
Definition cutName (limit : Z) (quote : bool) (s : string) : string :=
  if quote then
    ("'" ++ (if (Z.of_nat (slen s) <=? limit - 2)%Z then s else slice s 0 (limit - 1 - 2) ++ "-") ++ "'")%string
  else if (Z.of_nat (slen s) <=? limit)%Z then s else (slice s 0 (limit - 1) ++ "-")%string.
(** 5863-5867 *)
Definition cutCell (limit : Z) (s : string) : string :=
  if (Z.of_nat (slen s) <=? limit)%Z then s else (slice s 0 (limit - 1) ++ "-")%string.
Definition colHold : string := "--".
Definition rowHold : string := "|".
Definition shownName (limit : Z) (quote : bool) (name : nat -> option string) (i : nat) : string :=
  match name i with None => decStr i | Some s => cutName limit quote s end.

(** ** Point names *)
(** 5689-5738: the names to print and their width *)
Definition arrangePointNames (numPoints maxRows start total : nat) (limit : Z) (quote : bool) (pname : nat -> option string)
  : result (list string * Z) :=
  if numPoints =? 0 then Ok ([], 0%Z)
  else
    tb <- indicesSplit maxRows start total ;;
    let top := map (shownName limit quote pname) (fst tb) in
    let bottom := map (shownName limit quote pname) (snd tb) in
    Ok (top ++ (if List.length top + List.length bottom <? total then [rowHold] else []) ++ bottom,
        Z.min limit (Z.of_nat (list_max (map slen (top ++ bottom))))).

(** ** The columns *)
(** 5793-5802: the points shown, the position of the placeholder row *)
Definition rowIds (numPts maxRows start total : nat) : result (list nat * option nat) :=
  tb <- (if 0 <? numPts then indicesSplit maxRows start total else Ok ([], [])) ;;
  Ok (fst tb ++ snd tb, if List.length (fst tb ++ snd tb) <? numPts then Some (List.length (fst tb)) else None).
Section Arrange.
Variables (cellText : nat -> nat -> string) (fnameOf : nat -> option string) (limit : Z) (quote : bool).
Variables (ids : list nat) (holder : option nat).
(** 5857-5884: the texts of a column and its widths *)
Definition columnTexts (c : nat) : list string := map (fun r => cutCell limit (cellText r c)) ids.
Definition withHolder (l : list string) : list string :=
  match holder with Some h => firstn h l ++ [rowHold] ++ skipn h l | None => l end.
Definition widthsOf (c : nat) : nat * nat := (slen (shownName limit quote fnameOf c), list_max (map slen (columnTexts c))).
Definition widthOf (c : nat) : nat := Nat.max (fst (widthsOf c)) (snd (widthsOf c)).
(** 5889-5895: [for i, val in enumerate(currCol)] *)
Fixpoint addCells (n i : nat) (col : list string) (table : list (list string)) : list (list string) :=
  match col with
  | [] => table
  | v :: t => addCells n (S i) t (if List.length table =? n then upd table i (nth i table [] ++ [v]) else table ++ [[v]])
  end.
Definition addColumn (col : list string) (table : list (list string)) : list (list string) := addCells (List.length col) 0 col table.
(** 5804-5836: the variables of the loop; [total] may become less than it was *)
Record st := mkSt { lT : list (list string); rT : list (list string); lN : list string; rN : list string;
                    lW : list (nat * nat); rW : list (nat * nat); totalW : Z; curr : Z; added : nat }.
Definition start_ : st := mkSt [] [] [] [] [] [] 4 0 0.
Variables (fOffset numFts : nat) (maxWidth : option Z).
Definition below (z : Z) : bool := match maxWidth with Some m => (z <? m)%Z | None => true end.
Definition within (z : Z) : bool := match maxWidth with Some m => (z <=? m)%Z | None => true end.
Definition endIndex : Z := let h := Z.of_nat (numFts / 2) in if Nat.odd numFts then (- h - 1)%Z else h.
Definition accessIndex (c : Z) : nat := Z.to_nat (Z.of_nat fOffset + (if (c <? 0)%Z then Z.of_nat numFts + c else c)).
(** 5838-5912: one iteration; the column separator has two characters *)
Definition step (s : st) : st :=
  let c := accessIndex (curr s) in
  let col := withHolder (columnTexts c) in
  let w := widthsOf c in
  let tot := (totalW s + Z.of_nat (widthOf c))%Z in
  let s' :=
    if within tot then
      if (curr s <? 0)%Z then
        mkSt (lT s) (addColumn col (rT s)) (lN s) (rN s ++ [shownName limit quote fnameOf c]) (lW s) (rW s ++ [w]) tot (Z.abs (curr s)) (S (added s))
      else
        mkSt (addColumn col (lT s)) (rT s) (lN s ++ [shownName limit quote fnameOf c]) (rN s) (lW s ++ [w]) (rW s) tot (- curr s - 1) (S (added s))
    else mkSt (lT s) (rT s) (lN s) (rN s) (lW s) (rW s) tot (curr s) (added s) in
  let tot' := if added s' =? numFts - 1 then (totalW s' - 4)%Z else totalW s' in
  mkSt (lT s') (rT s') (lN s') (rN s') (lW s') (rW s') (tot' + 2)%Z (curr s') (added s').
(** the [while]: OutOfFuel stands for not having ended after so many iterations *)
Fixpoint loop (fuel : nat) (s : st) : result st :=
  if below (totalW s) && negb (curr s =? endIndex)%Z then
    match fuel with 0 => Err OutOfFuel | S f => loop f (step s) end
  else Ok s.
(** 5914-5933: joining the two halves; a width is a pair, or one number for the
    placeholder column *)
Record arranged := mkArr { aTable : list (list string); aNames : list string; aWidths : list (list nat) }.
Definition joinHalves (s : st) : arranged :=
  let all := added s =? numFts in
  let hold {A} (x : A) : list A := if all then [] else [x] in
  let pairs l := map (fun p : nat * nat => [fst p; snd p]) l in
  let right r := match rT s with [] => [] | _ => rev (nth r (rT s) []) end in
  mkArr (map (fun p => snd p ++ hold colHold ++ right (fst p)) (combine (seq 0 (List.length (lT s))) (lT s)))
        (lN s ++ hold colHold ++ rev (rN s))
        (pairs (lW s) ++ hold [2] ++ pairs (rev (rW s))).
End Arrange.
(** 5740-5933 for an object with [numPoints] points *)
Definition arrangeData (fuel numPoints : nat) (cellText : nat -> nat -> string) (fnameOf : nat -> option string)
  (limit : Z) (quote : bool) (numPts start total fOffset numFts : nat) (maxWidth : option Z) (maxHeight : nat) : result arranged :=
  if (maxHeight <? 2) && negb (maxHeight =? numPoints) then Err InvalidArgumentValue
  else
    let maxRows := Nat.min maxHeight numPts in
    if numFts =? 0 then Ok (mkArr (repeat [] maxRows) [] [])
    else
      ri <- rowIds numPts maxRows start total ;;
      s <- loop cellText fnameOf limit quote (fst ri) (snd ri) fOffset numFts maxWidth fuel start_ ;;
      Ok (joinHalves numFts s).
(** base.py:2570-2618: what toString prints; [points] a number, a range or None;
    [features] likewise (an int is taken as the number of features, from the
    first) *)
Inductive target := TNone | TInt (n : nat) | TRange (a b : Z).
Definition layout (fuel : nat) (nP nF : nat) (cellText : nat -> nat -> string) (pname fnameOf : nat -> option string)
  (points features : target) (lineLimit : option nat) (lineWidth : option Z) (limit : Z) (quote : bool) (indent : nat)
  : result (list string * Z * arranged) :=
  pr <- match points with
        | TRange a b => t <- truncateTarget a b nP ;; Ok (snd t, fst t, snd t)
        | TInt n => Ok (Nat.min n nP, 0, nP)
        | TNone => Ok (nP, 0, nP)
        end ;;
  let '(numPts, start, total) := pr in
  fr <- match features with
        | TRange a b => t <- truncateTarget a b nF ;; Ok t
        | TInt n => Ok (0, n)
        | TNone => Ok (0, nF)
        end ;;
  maxRows <- match lineLimit with
             | None => Ok numPts
             | Some l =>
                 let m := Z.min (Z.of_nat l - 2) (Z.of_nat numPts) in
                 if (m <=? 1)%Z && (m <? Z.of_nat numPts)%Z then Err InvalidArgumentValue else Ok (Z.to_nat m)
             end ;;
  pn <- arrangePointNames nP maxRows start total limit quote pname ;;
  let maxWidth := option_map (fun w => (w - Z.of_nat indent - (snd pn + 3))%Z) lineWidth in
  d <- arrangeData fuel nP cellText fnameOf limit quote numPts start total (fst fr) (snd fr) maxWidth maxRows ;;
  Ok (fst pn, snd pn, d).
(** 2744-2757: the limit for the width of a column that _show computes when the
    width of the line is limited; [log10up n] is math.ceil(math.log(n, 10)) *)
Definition columnLimit (log10up : nat -> nat) (nP nF : nat) (named : bool) (lineWidth : nat) : result nat :=
  if named then Ok (Nat.max 8 (lineWidth / (nF + 1) + 7))
  else if nP =? 0 then Err ValueErr
  else if nF =? 0 then Err ZeroDiv
  else Ok (Nat.max 8 ((lineWidth - log10up nP) / nF + 7)).

(** ** Padding *)
Definition spaces (n : nat) : string := String.concat "" (repeat " " n).
Definition rjust (s : string) (w : nat) : string := (spaces (w - slen s) ++ s)%string.
Definition ljust (s : string) (w : nat) : string := (s ++ spaces (w - slen s))%string.
(** CPython's str.center: the odd space goes left if the width is odd *)
Definition center (s : string) (w : nat) : string :=
  let pad := w - slen s in
  let left := pad / 2 + (if Nat.odd pad && Nat.odd w then 1 else 0) in
  (spaces left ++ s ++ spaces (pad - left))%string.
(** base.py:2625-2668: one cell of a data column; [above] and [below] are the
    texts of the neighbours of a placeholder ([above] without its padding) *)
Definition padCell (ws : list nat) (above below val : string) : result string :=
  let w := list_max ws in
  if String.eqb val rowHold then
    match nth_error ws 1 with
    | None => Err IndexErr
    | Some v =>
        let m := Nat.max (slen above) (slen below) in
        Ok (center (rjust (center val (if m =? 0 then w else m)) v) w)
    end
  else if String.eqb val colHold then Ok (center val w)
  else match nth_error ws 1 with None => Err IndexErr | Some v => Ok (center (rjust val v) w) end.

(** ** tableString *)
(** _utility.py:500-590 for cells given as the texts str() makes of them.  The
    second component is the list of headers afterwards: it is put into the table
    as it is, and its entries are overwritten with the padded ones. *)
Inductive just := JCenter | JLeft | JRight.
Definition justify (j : just) (s : string) (w : nat) : string :=
  match j with JCenter => center s w | JLeft => ljust s w | JRight => rjust s w end.
Definition cellOr (row : list string) (j : nat) : string := nth j row "".
Definition tableWidths (table : list (list string)) : list nat :=
  map (fun j => list_max (1 :: map (fun row => slen (cellOr row j)) table)) (seq 0 (list_max (map (@List.length string) table))).
(** 541-545 *)
Fixpoint headWidths (heads : list string) (ws : list nat) : result (list nat) :=
  match heads, ws with
  | [], _ => Ok ws
  | _ :: _, [] => Err IndexErr
  | h :: hs, w :: t => r <- headWidths hs t ;; Ok (Nat.max w (slen h) :: r)
  end.
(** 551-566: [ceil(len/2 - del/2)] is [ceil((len - del)/2)] *)
Definition snip (maxRows : option nat) (snipIndex : option nat) (table : list (list string)) : result (list (list string)) :=
  match maxRows with
  | Some m =>
      let del := List.length table - m in
      if 0 <? del then
        let first := (List.length table - del + 1) / 2 in
        let table := firstn first table in
        match nth_error table first with
        | None => Err IndexErr
        | Some row => let table := table ++ [repeat "..." (List.length row)] in Ok (table ++ skipn (first + del) table)
        end
      else Ok table
  | None =>
      match snipIndex with
      | Some (S k) =>
          let table := firstn (S k) table in
          match table with
          | [] => Err IndexErr
          | row :: _ => let table := table ++ [repeat "..." (List.length row)] in Ok (table ++ skipn (S (S k)) table)
          end
      | _ => Ok table
      end
  end.
(** 568-581: the text of cell (i, j) *)
Definition padEntry (rowHeader colHeader : bool) (rowJ headJ valJ : just) (ws : list nat) (sep : string) (i j last : nat) (val : string) : string :=
  let w := nth j ws 0 in
  let p := if (0 <? i) && (0 <? j) then justify valJ val w
           else if (i =? 0) && colHeader then justify headJ val w
           else if (j =? 0) && rowHeader then justify rowJ val w
           else justify valJ val w in
  if j =? last then p else (p ++ sep)%string.
Definition padRow (rowHeader colHeader : bool) (rowJ headJ valJ : just) (ws : list nat) (sep : string) (i : nat) (row : list string) : list string :=
  map (fun p => padEntry rowHeader colHeader rowJ headJ valJ ws sep i (fst p) (List.length row - 1) (snd p)) (combine (seq 0 (List.length row)) row).
Definition newline : string := String (Ascii.ascii_of_nat 10) "".
Definition tableString (rowHeader : bool) (colHeaders : option (list string)) (sep : string) (maxRows snipIndex : option nat) (trailing : bool)
  (rowJ headJ valJ : just) (table : list (list string)) : result (string * option (list string)) :=
  match table with
  | [] => Ok ("", colHeaders)
  | _ =>
      let ws := tableWidths table in
      ws <- match colHeaders with Some h => headWidths h ws | None => Ok ws end ;;
      let table := match colHeaders with Some h => h :: table | None => table end in
      let colHeader := match colHeaders with Some _ => true | None => false end in
      table <- snip maxRows snipIndex table ;;
      let padded := map (fun p => padRow rowHeader colHeader rowJ headJ valJ ws sep (fst p) (snd p)) (combine (seq 0 (List.length table)) table) in
      Ok ((String.concat newline (map (String.concat "") padded) ++ (if trailing then newline else ""))%string,
          match colHeaders, padded with Some _, h :: _ => Some h | _, _ => colHeaders end)
  end.
