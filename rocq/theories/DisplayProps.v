(** C51: the printed form of an object shows a head and a tail in order. *)
From Verif Require Import Base ReshapeModel DisplayModel DisplaySpec DisplayProofs DisplayMainProofs DisplayLayoutProofs DisplayTextProofs.
Open Scope string_scope. Open Scope list_scope. Open Scope nat_scope.

(** What toString lays out (base.py:2570-2618): the points shown are the first and
    the last ones of those asked for, as many as the limit on the number of lines
    allows (one row then being the placeholder); the features shown likewise; the
    name beside a row and the texts in it are those of its point, the name above a
    column is that of its feature; the columns shown fit into the width left; with
    the next column they would not; and all columns are shown if they fit.
    Partial: a range of points that does not begin at 0 must leave room for at
    least two points and a placeholder (see C51_range_refuted), and the last
    column added (the middle one) must be at least two wide for the last claim
    (see C51_fits_but_hidden_refuted). *)
Theorem C51_layout_partial :
  forall fuel nP nF cellText pname fnameOf points features lineLimit lineWidth limit quote indent
         names pw d numPts start total fo fn,
  (0 <= limit)%Z -> Wanted nP points numPts start total -> Wanted' nF features fo fn -> 1 <= fn ->
  let maxRows := rowsAllowed lineLimit numPts in
  let text := fun r c => cutCell limit (cellText r c) in
  let name := shownName limit quote fnameOf in
  start = 0 \/ (2 <= total /\ (3 <= maxRows \/ maxRows = total)) ->
  layout fuel nP nF cellText pname fnameOf points features lineLimit lineWidth limit quote indent = Ok (names, pw, d) ->
  exists f b L R,
    HeadTail start total (if maxRows <? total then maxRows - 1 else total) f b /\
    HeadTail fo fn (List.length L + List.length R) L R /\ List.length L + List.length R <= fn /\
    names = map (rowName rowHold (shownName limit quote pname)) (Slots total f b) /\
    pw = Z.min limit (Z.of_nat (list_max (map (fun i => String.length (shownName limit quote pname i)) (f ++ b)))) /\
    LaidOut rowHold colHold text name (f ++ b) (match L with [] => [] | _ => Slots total f b end) (Slots fn L R)
            (aTable d) (aNames d) (aWidths d) /\
    let w := width text name (f ++ b) in
    let room := option_map (fun lw => (lw - Z.of_nat indent - (pw + 3))%Z) lineWidth in
    (L <> [] -> Fits room (lineLength w (Slots fn L R))) /\
    (2 <= fn -> (forall c, fo <= c < fo + fn -> 0 < w c) -> List.length L + List.length R < fn ->
       forall L' R', HeadTail fo fn (S (List.length L + List.length R)) L' R' -> ~ Fits room (lineLength w (Slots fn L' R'))) /\
    (2 <= fn -> (forall c, fo <= c < fo + fn -> 0 < w c) -> 2 <= w (fo + fn / 2) ->
       Fits room (lineLength w (map Some (seq fo fn))) -> L ++ R = seq fo fn) /\
    (fn = 1 -> 0 < w fo -> Fits room (Z.of_nat (w fo) + 4) -> L = [fo]).
Proof. exact layout_ok. Qed.

(** It ends with a result for every request that leaves room for two rows (or all
    the points).  Partial: not for one feature of width two, see
    C51_never_ends_refuted. *)
Theorem C51_ends_partial :
  forall fuel nP nF cellText pname fnameOf points features lineLimit lineWidth limit quote indent numPts start total fo fn,
  Wanted nP points numPts start total -> Wanted' nF features fo fn ->
  let maxRows := rowsAllowed lineLimit numPts in
  start = 0 \/ (2 <= total /\ (3 <= maxRows \/ maxRows = total)) ->
  2 <= maxRows \/ maxRows = nP -> (forall l, lineLimit = Some l -> 2 <= l) ->
  fn <> 1 \/ lineWidth = None \/ (forall rows, width (fun r c => cutCell limit (cellText r c)) (shownName limit quote fnameOf) rows fo <> 2) ->
  fn + 2 <= fuel ->
  exists r, layout fuel nP nF cellText pname fnameOf points features lineLimit lineWidth limit quote indent = Ok r.
Proof. exact layout_ends. Qed.

(** The points chosen, for a range of points of any size *)
Theorem C51_points_partial : forall numAllow start total,
  numAllow <= total -> 2 <= numAllow \/ (total = 1 /\ numAllow = 1) ->
  start = 0 \/ (2 <= total /\ (3 <= numAllow \/ numAllow = total)) ->
  exists f b, indicesSplit numAllow start total = Ok (f, b) /\
    HeadTail start total (if numAllow <? total then numAllow - 1 else total) f b.
Proof. exact indicesSplit_ok. Qed.

(** Texts are shown as they are if they are not longer than the limit, and else
    cut, with a mark, to exactly the limit *)
Theorem C51_cut : forall limit s, (1 <= limit)%Z -> Cut "-" limit s (cutCell limit s) /\ Cut "-" limit s (cutName limit false s).
Proof. intros limit s H. split; exact (cutCell_ok limit s H). Qed.
Theorem C51_cut_quoted : forall limit s, (3 <= limit)%Z ->
  exists t, cutName limit true s = ("'" ++ t ++ "'")%string /\ Cut "-" (limit - 2) s t.
Proof. exact cutName_quote. Qed.
Theorem C51_unnamed : forall limit quote name i, name i = None -> shownName limit quote name i = decStr i.
Proof. intros limit quote name i H. unfold shownName. rewrite H. reflexivity. Qed.

(** Every text of a column is padded with spaces to the width of the column *)
Theorem C51_padding : forall nw vw above below val,
  String.length val <= Nat.max nw vw -> String.length above <= vw -> String.length below <= vw ->
  exists t, padCell [nw; vw] above below val = Ok t /\ Padded val t /\ String.length t = Nat.max nw vw.
Proof. exact padCell_ok. Qed.
(** and centering leaves at most one space more on one side *)
Theorem C51_center : forall s w, exists l r, center s w = (blanks l ++ s ++ blanks r)%string /\
  l + r = w - String.length s /\ l <= S r /\ r <= S l.
Proof. exact center_widths. Qed.

(** tableString without a limit on the rows: every row is printed, its cells in
    order with the separator between them, each padded to the width of the longest
    text in its column, the header included.  Partial: see
    C51_table_limit_refuted. *)
Theorem C51_tableString_partial : forall rowHeader colHeaders sep trailing rowJ headJ valJ table,
  table <> [] ->
  (forall h, colHeaders = Some h -> List.length h <= list_max (map (@List.length string) table)) ->
  let all := match colHeaders with Some h => [h] | None => [] end ++ table in
  exists cells heads',
    tableString rowHeader colHeaders sep None None trailing rowJ headJ valJ table =
      Ok ((String.concat newline (map (String.concat sep) cells) ++ (if trailing then newline else ""))%string, heads') /\
    PaddedTable all cells (fun j => list_max (1 :: map (fun row => String.length (nth j row "")) all)).
Proof. exact tableString_ok. Qed.

(** ** Cases *)
Definition cellEx (r c : nat) : string := (decStr r ++ "." ++ decStr c)%string.
Definition namesEx (i : nat) : option string := match i with 1 => Some "a longer name" | 5 => Some "e" | _ => None end.
(** 7 points and 6 features in 7 lines, 36 characters wide *)
Example C51_layout_case :
  layout 8 7 6 cellEx namesEx namesEx TNone TNone (Some 7) (Some 36%Z) 9 false 0 =
  Ok (["0"; "a longer-"; "|"; "e"; "6"], 9%Z,
      mkArr [["0.0"; "0.1"; "--"; "0.5"]; ["1.0"; "1.1"; "--"; "1.5"]; ["|"; "|"; "--"; "|"];
             ["5.0"; "5.1"; "--"; "5.5"]; ["6.0"; "6.1"; "--"; "6.5"]]
            ["0"; "a longer-"; "--"; "e"] [[1; 3]; [9; 3]; [2]; [1; 3]]).
Proof. reflexivity. Qed.
Example C51_layout_hyps : (0 <= 9)%Z /\ Wanted 7 TNone 7 0 7 /\ Wanted' 6 TNone 0 6 /\ 2 <= rowsAllowed (Some 7) 7 /\ 6 + 2 <= 8.
Proof. repeat split; try constructor; try lia; cbn; lia. Qed.
(** points 1 to 5 and features 1 to 4 of the same object in 6 lines *)
Example C51_layout_range_case :
  layout 8 7 6 cellEx namesEx namesEx (TRange 1 6) (TRange 1 5) (Some 6) (Some 50%Z) 9 true 0 =
  Ok (["'a long-'"; "2"; "|"; "'e'"], 9%Z,
      mkArr [["1.1"; "1.2"; "1.3"; "1.4"]; ["2.1"; "2.2"; "2.3"; "2.4"]; ["|"; "|"; "|"; "|"]; ["5.1"; "5.2"; "5.3"; "5.4"]]
            ["'a long-'"; "2"; "3"; "4"] [[9; 3]; [1; 3]; [1; 3]; [1; 3]]).
Proof. reflexivity. Qed.
Example C51_layout_range_hyps : Wanted 7 (TRange 1 6) 5 1 5 /\ Wanted' 6 (TRange 1 5) 1 4 /\ 3 <= rowsAllowed (Some 6) 5.
Proof. split; [apply (WRange 7 1 5); lia|]. split; [apply (VRange 6 1 4); lia|]. cbn. lia. Qed.
Example C51_tableString_case :
  tableString true (Some ["x"; "yyyy"; "z"]) " | " None None true JRight JCenter JLeft [["a"; "b"; "c"]; ["dd"; "e"]] =
  Ok (("x  | yyyy | z" ++ newline ++ " a | b    | c" ++ newline ++ "dd | e   " ++ newline)%string, Some ["x  | "; "yyyy | "; "z"]).
Proof. reflexivity. Qed.
Example C51_padding_case : padCell [6; 3] "1.5" "22" "|" = Ok "  |   " /\ padCell [6; 3] "" "" "22" = Ok "  22  ".
Proof. split; reflexivity. Qed.

(** ** Where the claim fails *)
(** One feature, two characters wide, and two characters too few: the loop does not
    end (base.py:5838: at the only column the four characters kept for a
    placeholder are given back at every turn) *)
Theorem C51_never_ends_refuted : exists cellText lineWidth, forall fuel,
  layout fuel 1 1 cellText (fun _ => None) (fun _ => None) TNone TNone None (Some lineWidth) 19 false 0 = Err OutOfFuel.
Proof.
  exists (fun _ _ => "10"), 9%Z. intros fuel.
  assert (H := loop_stuck (fun _ _ => "10") (fun _ => None) 19 false [0] None 0 1 (Some 5%Z) ltac:(lia) ltac:(repeat split) fuel).
  unfold layout. cbn [rbind]. unfold arrangePointNames. cbn -[loop arrangeData].
  unfold arrangeData. cbn -[loop start_]. rewrite H. reflexivity.
Qed.
(** Two columns of one digit need four characters; with room for four neither is
    shown *)
Theorem C51_fits_but_hidden_refuted :
  layout 9 1 2 (fun _ _ => "7") (fun _ => None) (fun _ => None) TNone TNone None (Some 8%Z) 19 false 0 =
    Ok (["0"], 1%Z, mkArr [] ["--"] [[2]]) /\
  Fits (Some (8 - 0 - (1 + 3))%Z) (lineLength (fun _ => 1) (map Some (seq 0 2))).
Proof. split; [reflexivity|vm_compute; discriminate]. Qed.
(** A range of points that does not begin at 0: point 0 is shown, which was not
    asked for, and none of the others *)
Theorem C51_range_refuted :
  layout 9 4 1 (fun r _ => decStr r) (fun _ => None) (fun _ => None) (TRange 1 4) TNone (Some 4) None 19 false 0 =
    Ok (["0"; "|"], 1%Z, mkArr [["0"]; ["|"]] ["0"] [[1; 1]]).
Proof. reflexivity. Qed.
(** One point of several, an empty range, a range past the end *)
Theorem C51_requests_refused_refuted : forall nP (cellText : nat -> nat -> string), 2 <= nP ->
  layout 9 nP 1 cellText (fun _ => None) (fun _ => None) (TInt 1) TNone None None 19 false 0 = Err IndexErr /\
  layout 9 nP 1 cellText (fun _ => None) (fun _ => None) (TRange 1 1) TNone None None 19 false 0 = Err IndexErr /\
  layout 9 nP 1 cellText (fun _ => None) (fun _ => None) (TRange 0 (Z.of_nat nP + 1)) TNone None None 19 false 0 = Err TypeErr.
Proof.
  intros nP cellText H. destruct nP as [|[|nP]]; [lia|lia|]. split; [reflexivity|]. split.
  - unfold layout. change (truncateTarget 1 1 (S (S nP))) with (truncateTarget (Z.of_nat 1) (Z.of_nat (1 + 0)) (S (S nP))).
    rewrite truncate_ok by lia. reflexivity.
  - unfold layout, truncateTarget. rewrite (proj2 (Z.ltb_lt (Z.of_nat (S (S nP))) (Z.of_nat (S (S nP)) + 1)) ltac:(lia)). reflexivity.
Qed.
(** A number of features: the first ones are shown, without a placeholder, not a
    head and a tail *)
Theorem C51_features_number_refuted :
  layout 9 2 3 cellEx (fun _ => None) (fun _ => None) TNone (TInt 2) None None 19 false 0 =
    Ok (["0"; "1"], 1%Z, mkArr [["0.0"; "0.1"]; ["1.0"; "1.1"]] ["0"; "1"] [[1; 3]; [1; 3]]).
Proof. reflexivity. Qed.
(** str() of an object without points, or without features *)
Theorem C51_empty_refuted : forall log10up nF nP lineWidth,
  columnLimit log10up 0 nF false lineWidth = Err ValueErr /\ columnLimit log10up (S nP) 0 false lineWidth = Err ZeroDiv.
Proof. intros. split; reflexivity. Qed.
(** tableString: whenever rows have to be dropped to meet the limit it raises
    instead *)
Theorem C51_table_limit_refuted : forall rowHeader sep m snipIndex trailing rowJ headJ valJ table,
  m < List.length table ->
  tableString rowHeader None sep (Some m) snipIndex trailing rowJ headJ valJ table = Err IndexErr.
Proof.
  intros rowHeader sep m snipIndex trailing rowJ headJ valJ table H. unfold tableString.
  destruct table as [|r0 rs]; [cbn in H; lia|]. generalize dependent (r0 :: rs). intros table H. cbn [rbind]. unfold snip.
  replace (0 <? List.length table - m) with true by (symmetry; apply Nat.ltb_lt; lia).
  assert (E : nth_error (firstn ((List.length table - (List.length table - m) + 1) / 2) table)
                        ((List.length table - (List.length table - m) + 1) / 2) = None).
  { apply nth_error_None. rewrite firstn_length. lia. }
  rewrite E. reflexivity.
Qed.
(** and the place of the mark for left out rows cuts off all rows behind it *)
Theorem C51_snip_refuted :
  tableString true None " " None (Some 1) true JRight JCenter JLeft [["a"; "b"]; ["dd"; "e"]; ["f"; "g"]] =
    Ok ((" a b" ++ newline ++ "... ..." ++ newline)%string, None).
Proof. reflexivity. Qed.
(** The list of headers given by the caller has its entries replaced by the padded
    ones *)
Theorem C51_headers_overwritten_refuted :
  tableString true (Some ["x"; "y"]) " " None None true JRight JCenter JLeft [["aaa"; "b"]] =
    Ok ((" x  y" ++ newline ++ "aaa b" ++ newline)%string, Some [" x  "; "y"]).
Proof. reflexivity. Qed.

Print Assumptions C51_layout_partial.
Print Assumptions C51_ends_partial.
Print Assumptions C51_points_partial.
Print Assumptions C51_cut.
Print Assumptions C51_cut_quoted.
Print Assumptions C51_unnamed.
Print Assumptions C51_padding.
Print Assumptions C51_center.
Print Assumptions C51_tableString_partial.
Print Assumptions C51_never_ends_refuted.
Print Assumptions C51_fits_but_hidden_refuted.
Print Assumptions C51_range_refuted.
Print Assumptions C51_requests_refused_refuted.
Print Assumptions C51_features_number_refuted.
Print Assumptions C51_empty_refuted.
Print Assumptions C51_table_limit_refuted.
Print Assumptions C51_snip_refuted.
Print Assumptions C51_headers_overwritten_refuted.
