(** C28: the round trip of names and cells through a CSV file. *)
From Coq Require Import Ascii.
From Verif Require Import Base CsvModel CsvSpec CsvTextModel CsvTextSpec CsvTextProofs CsvTextMoreProofs CsvProps.
Open Scope string_scope.
Open Scope list_scope.
Open Scope nat_scope.

(** reading the written lines is loading the cells *)
Theorem C28_text_read_back : forall isInt isFloat rows pnArg fnArg ign keepP keepF eim,
  rows <> [] -> Forall SafeRow rows -> NotComment rows ->
  loadText isInt isFloat (flat_map writeLine rows) pnArg fnArg ign keepP keepF eim = loadCsv isInt isFloat rows pnArg fnArg ign keepP keepF eim.
Proof. exact text_load. Qed.
Print Assumptions C28_text_read_back.
Example C28_read_back_case : Forall SafeRow [["a,""b"; "c""d"]; [""; "x"]] /\ flat_map writeLine [["a,""b"; "c""d"]; [""; "x"]] = list_ascii_of_string """a,""""b"",c""d
,x
".
Proof.
  split; [|reflexivity]. repeat apply Forall_cons; try apply Forall_nil; (split; [discriminate|split; [discriminate|]]); repeat apply Forall_cons; try apply Forall_nil; apply safeb_sound; reflexivity.
Qed.
(** saving an object whose points and features are named or not named, and
    loading it again: the same names, the same cells *)
Theorem C28_save_load_partial : forall isInt isFloat, ParseOracle isInt isFloat ->
  forall ps fs cells n eim, someNames ps -> someNames fs -> cells <> [] -> 0 < n -> (forall r, In r cells -> List.length r = n) ->
  (forall l, ps = Some l -> List.length l = List.length cells) -> (forall l, fs = Some l -> List.length l = n) ->
  Forall SafeRow (fileRows ps fs cells) -> NotComment (fileRows ps fs cells) ->
  (fs = None -> eim = true -> exists r, In r cells /\ nth (n - 1) r "" <> "") ->
  exists t data, saveCsv (mkSaved (namesOpt ps) (namesOpt fs) cells) n true = Ok t /\
    loadText isInt isFloat t (argOpt ps) (argOpt fs) false None None eim = Ok (data, nmOpt ps, nmOpt fs) /\
    DataIs isInt isFloat eim cells (seq 0 (List.length cells)) (seq 0 n) data.
Proof. exact save_load. Qed.
Print Assumptions C28_save_load_partial.
Definition roundTrip (ps fs : option (list (option string))) (cells : list (list string)) (n : nat) (pnArg fnArg : nmArg) : result (list (list lval) * nm * nm) :=
  t <- saveCsv (mkSaved ps fs cells) n true ;; loadText exInt exFloat t pnArg fnArg false None None true.
Example C28_save_load_case :
  roundTrip (Some [Some "p,1"; Some "q"]) (Some [Some "x"; Some "a ""b"""]) [["1"; "u,v"]; ["2"; ""]] 2 (NmBool true) (NmBool true) =
    Ok ([[LInt "1"; LStr "u,v"]; [LInt "2"; LStr ""]], NL [Some "p,1"; Some "q"], NL [Some "x"; Some "a ""b"""]) /\
  roundTrip (Some [Some "p,1"; Some "q"]) (Some [Some "x"; Some "y"]) [["1"; "u,v"]; ["2"; ""]] 2 NmAuto NmAuto =
    Ok ([[LInt "1"; LStr "u,v"]; [LInt "2"; LStr ""]], NL [Some "p,1"; Some "q"], NL [Some "x"; Some "y"]).
Proof. split; vm_compute; reflexivity. Qed.
(** objects that do not come back: (1) a cell that starts with a double quote
    swallows the rest of the file; (2) a cell with a line end is split into two
    points, or (3) the file cannot be loaded; (4) an empty line inside a quoted
    cell disappears; (5) some names missing: the file cannot be written
    (TypeError); (6) a first name that starts with # makes the header a comment
    and the first point the header; (7) a point whose only cell is empty
    disappears; (8) an unnamed last feature of empty cells disappears *)
Theorem C28_save_load_refuted :
  roundTrip None None [["1"; """x"]; ["3"; "4"]] 2 (NmBool false) (NmBool false) = Ok ([[LInt "1"; LStr (String.append ("x" ++ String lf "3,4") (String lf ""))]], NFalse, NFalse) /\
  roundTrip None None [[("b" ++ String lf "c")%string]; ["e"]] 1 (NmBool false) (NmBool false) = Ok ([[LStr "b"]; [LStr "c"]; [LStr "e"]], NFalse, NFalse) /\
  roundTrip None None [["a"; ("b" ++ String lf "c")%string]; ["d"; "e"]] 2 (NmBool false) (NmBool false) = Err FileFormatErr /\
  roundTrip None None [[("b," ++ String lf (String lf "c"))%string]; ["e"]] 1 (NmBool false) (NmBool false) = Ok ([[LStr ("b," ++ String lf "c")%string]; [LStr "e"]], NFalse, NFalse) /\
  roundTrip None (Some [Some "x"; None]) [["1"; "2"]] 2 NmAuto NmAuto = Err TypeErr /\
  roundTrip None (Some [Some "#x"; Some "y"]) [["1"; "2"]; ["3"; "4"]] 2 (NmBool false) (NmBool true) = Ok ([[LInt "3"; LInt "4"]], NFalse, NL [Some "1"; Some "2"]) /\
  roundTrip None None [["a"]; [""]; ["b"]] 1 (NmBool false) (NmBool false) = Ok ([[LStr "a"]; [LStr "b"]], NFalse, NFalse) /\
  roundTrip None None [["1"; ""]; ["2"; ""]] 2 (NmBool false) (NmBool false) = Ok ([[LInt "1"]; [LInt "2"]], NFalse, NFalse).
Proof. repeat split; vm_compute; reflexivity. Qed.
Print Assumptions C28_save_load_refuted.
(** an object without points or without features is not written *)
Theorem C28_empty_refused : forall o n inc, sdCells o = [] \/ n = 0 -> saveCsv o n inc = Err ImproperObjectAction.
Proof. intros o n inc [E|E]; unfold saveCsv; [rewrite E; reflexivity|subst n; rewrite orb_true_r; reflexivity]. Qed.
Print Assumptions C28_empty_refused.
(** some names present and some missing: the file cannot be written *)
Theorem C28_missing_names_refused : forall o n l a b, sdCells o <> [] -> 0 < n -> sdF o = Some l -> In (Some a) l -> In None l -> b = true ->
  saveCsv o n b = Err TypeErr.
Proof.
  intros o n l a b NC Np E IS IN ->. unfold saveCsv. rewrite E. destruct (Nat.eqb_spec (List.length (sdCells o)) 0) as [Z|_]; [destruct (sdCells o); [congruence|discriminate]|].
  destruct (Nat.eqb_spec n 0) as [Z|_]; [lia|]. cbn [orb andb anyName].
  assert (X : existsb (fun n0 : option string => match n0 with Some _ => true | None => false end) l = true) by (apply existsb_exists; exists (Some a); auto). rewrite X.
  assert (Y : strNames (Some l) = Err TypeErr).
  { clear -IN. unfold strNames. induction l as [|x l IH]; [destruct IN|]. cbn [rmapM]. destruct x as [s|]; [|reflexivity]. destruct IN as [D|D]; [discriminate|]. rewrite (IH D). reflexivity. }
  rewrite Y. reflexivity.
Qed.
Print Assumptions C28_missing_names_refused.
(** without the names (includeNames=False) exactly the cells are written, whatever
    names the object has, and reading them gives the cells *)
Theorem C28_save_without_names : forall isInt isFloat o n pnArg fnArg ign keepP keepF eim, sdCells o <> [] -> 0 < n ->
  Forall SafeRow (sdCells o) -> NotComment (sdCells o) ->
  exists t, saveCsv o n false = Ok t /\
    loadText isInt isFloat t pnArg fnArg ign keepP keepF eim = loadCsv isInt isFloat (sdCells o) pnArg fnArg ign keepP keepF eim.
Proof.
  intros isInt isFloat o n pnArg fnArg ign keepP keepF eim HC Hn HS HN. exists (flat_map writeLine (sdCells o)).
  split; [exact (save_without_names o n HC Hn)|exact (text_load isInt isFloat (sdCells o) pnArg fnArg ign keepP keepF eim HC HS HN)].
Qed.
Print Assumptions C28_save_without_names.
(** a text with CR, or CR LF, instead of every LF is read as the one with LF *)
Theorem C28_line_ends : forall isInt isFloat e t pnArg fnArg ign keepP keepF eim,
  e = [ascii_of_nat 13] \/ e = [ascii_of_nat 13; ascii_of_nat 10] -> ~ In (ascii_of_nat 13) t ->
  loadText isInt isFloat (flat_map (fun c => if Ascii.eqb c (ascii_of_nat 10) then e else [c]) t) pnArg fnArg ign keepP keepF eim =
  loadText isInt isFloat t pnArg fnArg ign keepP keepF eim.
Proof. exact load_ends. Qed.
Print Assumptions C28_line_ends.
(** the end of the last line may be missing *)
Theorem C28_last_line_end : forall isInt isFloat rows pnArg fnArg ign keepP keepF eim,
  rows <> [] -> Forall SafeRow rows -> NotComment rows ->
  loadText isInt isFloat (removelast (flat_map writeLine rows)) pnArg fnArg ign keepP keepF eim =
  loadCsv isInt isFloat rows pnArg fnArg ign keepP keepF eim.
Proof. exact load_no_last_end. Qed.
Print Assumptions C28_last_line_end.
Example C28_last_line_case : removelast (flat_map writeLine [["1"; "u,v"]]) = list_ascii_of_string "1,""u,v""" /\
  loadText exInt exFloat (list_ascii_of_string "1,""u,v""") (NmBool false) (NmBool false) false None None true = Ok ([[LInt "1"; LStr "u,v"]], NFalse, NFalse).
Proof. split; vm_compute; reflexivity. Qed.
