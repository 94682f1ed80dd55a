(** Property C31: filling.  Definitions used in the statements: FillSpec.v
    (isPrev, isNext, FilledBy, OnLine, FillOutcome, ...), TableSpec.v. *)
From Verif Require Import Base NamesModel NamesSpec NamesProofs TableModel TableSpec TableProofs TableOps TableOps3Proofs
  FillModel FillSpec FillProofs FillMatchProofs.
From Coq Require Import QArith Sorted.
Open Scope string_scope.
Open Scope list_scope.
Open Scope nat_scope.

(** Constant: every matched value becomes the constant, no other value changes. *)
Theorem C31_constant :
  forall V (c : V) vs toFill, List.length toFill = List.length vs ->
  exists out, fillConstant c vs toFill = Ok out /\ FilledBy (fun _ x => x = c) vs toFill out.
Proof. exact fillConstant_spec. Qed.
Print Assumptions C31_constant.

(** Forward: every matched value becomes the nearest earlier unmatched value; a
    matched first value is refused. *)
Theorem C31_forward :
  forall V (vs : list V) toFill, List.length toFill = List.length vs ->
  match nth_error toFill 0 with
  | Some false => exists out, forwardFill vs toFill = Ok out /\
      FilledBy (fun i x => exists k, isPrev toFill i k /\ nth_error vs k = Some x) vs toFill out
  | Some true => forwardFill vs toFill = Err InvalidArgumentValue
  | None => True
  end.
Proof. exact forwardFill_spec. Qed.
Print Assumptions C31_forward.

(** Backward: the nearest later unmatched value; a matched last value is
    refused. *)
Theorem C31_backward :
  forall V (vs : list V) toFill, List.length toFill = List.length vs ->
  match nth_error toFill (List.length toFill - 1) with
  | Some false => exists out, backwardFill vs toFill = Ok out /\
      FilledBy (fun i x => exists k, isNext toFill i k /\ nth_error vs k = Some x) vs toFill out
  | Some true => backwardFill vs toFill = Err InvalidArgumentValue
  | None => True
  end.
Proof. exact backwardFill_spec. Qed.
Print Assumptions C31_backward.

(** Statistics (mean, median, mode, ...): every matched value becomes the
    statistic of the unmatched values; a vector of matched values only is
    refused, and so is a statistic that is not a number. *)
Theorem C31_statistic :
  forall V (stat : list V -> option V) (vs : list V) toFill, List.length toFill = List.length vs ->
  (forall out, fillStat stat vs toFill = Ok out ->
     FilledBy (fun _ x => stat (map fst (filter (fun p => negb (snd p)) (combine vs toFill))) = Some x) vs toFill out) /\
  (vs <> [] -> (forall i, i < List.length toFill -> nth_error toFill i = Some true) -> fillStat stat vs toFill = Err InvalidArgumentValue) /\
  (forall s, (exists v, In v vs) -> (exists i, nth_error toFill i = Some false) ->
     stat (map fst (filter (fun p => negb (snd p)) (combine vs toFill))) = Some s -> exists out, fillStat stat vs toFill = Ok out).
Proof.
  intros V stat vs m L. split; [intros out E; exact (fillStat_spec V stat vs m out L E)|]. split.
  - intros Hne Hall. exact (fillStat_none V stat vs m L Hne Hall).
  - intros s [v Hv] [i Hi] Hs. unfold fillStat. fold (unmatchedOf V vs m) in *. destruct (_ =? _); [eauto|].
    destruct (unmatchedOf V vs m) as [|u us] eqn:E.
    + exfalso. pose proof (nth_error_lt _ _ Hi) as Hl. rewrite L in Hl. destruct (nth_error_is_some _ Hl) as [w Hw].
      assert (C : In w (unmatchedOf V vs m)).
      { unfold unmatchedOf. apply in_map_iff. exists (w, false). split; [reflexivity|]. apply filter_In. split; [|reflexivity].
        apply (nth_error_In _ i). rewrite nth_combine, Hw, Hi. reflexivity. }
      rewrite E in C. exact C.
    + rewrite Hs. unfold fillConstant. eauto.
Qed.
Print Assumptions C31_statistic.

(** Interpolation (over exact rationals): every matched value becomes the point
    on the line through the neighbouring unmatched values (beyond the outermost
    unmatched value, that value); nothing else changes; all-matched is refused. *)
Theorem C31_interpolate :
  forall vs toFill, List.length toFill = List.length vs ->
  match find negb toFill with
  | Some _ => exists out, interpolate vs toFill = Ok out /\ FilledBy (OnLine vs toFill) vs toFill out
  | None => interpolate vs toFill = Err ValueErr
  end.
Proof. exact interpolate_spec. Qed.
Print Assumptions C31_interpolate.

(** fillMatching with a match function, on points or features, any [limitTo]:
    each chosen vector is replaced by the fill function applied to it and its
    match, every other vector is unchanged, names are unchanged.  If the fill
    function refuses a vector, that error is raised and the vectors before it
    have been filled. *)
Theorem C31_fillMatching_function :
  forall V sd (ff : list V -> list bool -> result (list V)) f lim idx (t : table V),
  wf t -> 0 < alen (tp t) -> 0 < alen (tf t) -> limitDenotes (ax sd t) (limitIds lim) idx ->
  FillOutcome sd ff (MFun f) idx t (fillMatching sd ff (MFun f) lim t).
Proof. exact fillMatching_fun_spec. Qed.
Print Assumptions C31_fillMatching_function.

(** The same with a boolean object, provided the chosen vectors are listed in
    ascending order and [limitTo] is not a single string (see the refutations
    below). *)
Theorem C31_fillMatching_matrix_partial :
  forall V sd (ff : list V -> list bool -> result (list V)) mt lim idx (t : table V),
  wf t -> sameShape (MMatrix mt) t -> 0 < alen (tp t) -> 0 < alen (tf t) -> aligned sd t mt lim idx ->
  FillOutcome sd ff (MMatrix mt) idx t (fillMatching sd ff (MMatrix mt) lim t).
Proof. exact fillMatching_matrix_spec. Qed.
Print Assumptions C31_fillMatching_matrix_partial.

(** Whatever happens, a cell that does not match or is not in a chosen vector
    keeps its value - for every fill function that leaves unmatched values of
    a vector alone, and nimble's fill functions do. *)
Theorem C31_untouched :
  forall V sd (ff : list V -> list bool -> result (list V)) m idx (t : table V) res,
  wf t -> sameShape m t -> Conservative ff -> FillOutcome sd ff m idx t res ->
  forall i j, ~ (cellMatches m t i j /\ chosen idx (match sd with Pts => i | Fts => j end)) -> cell (fst res) i j = cell t i j.
Proof.
  intros V sd ff m idx t res W HS HC HO. unfold FillOutcome in HO. destruct (snd res).
  - exact (fillMatching_cells V sd ff m idx _ t (fst res) W HS HC HO).
  - destruct HO as [k [v [mk [H _]]]]. exact (fillMatching_cells V sd ff m idx _ t (fst res) W HS HC H).
Qed.
Print Assumptions C31_untouched.
Theorem C31_fills_conservative :
  (forall V (c : V), Conservative (fillConstant c)) /\ (forall V, Conservative (forwardFill (V:=V))) /\
  (forall V, Conservative (backwardFill (V:=V))) /\ (forall V (stat : list V -> option V), Conservative (fillStat stat)) /\ Conservative interpolate.
Proof.
  split; [exact fillConstant_cons|]. split; [exact forwardFill_cons|]. split; [exact backwardFill_cons|]. split; [exact fillStat_cons|].
  exact interpolate_cons.
Qed.
Print Assumptions C31_fills_conservative.

(** Refutation: with a boolean object and the vectors listed out of order, the
    wrong mask is used: an unmatched cell changes and a matched cell does not. *)
Theorem C31_limitTo_order_refuted :
  exists (t : table nat) (mt : table bool) t', wf t /\ sameShape (MMatrix mt) t /\
    limitDenotes (tf t) (Some [IdInt 1; IdInt 0]) (Some [1; 0]) /\
    fillMatching Fts (fillConstant 9) (MMatrix mt) (LList [IdInt 1; IdInt 0]) t = (t', Ok tt) /\
    cell mt 0 0 = Some true /\ cell t' 0 0 = cell t 0 0 /\ cell mt 0 1 = Some false /\ cell t' 0 1 <> cell t 0 1.
Proof.
  exists (mkTable (fresh 1) (fresh 2) [[1; 2]]), (mkTable (fresh 1) (fresh 2) [[true; false]]). eexists.
  assert (W : forall A (r : list A), List.length r = 2 -> wf (mkTable (fresh 1) (fresh 2) [r])).
  { intros A r L. split; [reflexivity|]. split; [intros x [<-|[]]; exact L|]. split; apply fresh_Inv. }
  split; [apply W; reflexivity|]. split; [split; [apply W; reflexivity|split; reflexivity]|].
  split; [simpl; repeat constructor; simpl; lia|]. split; [vm_compute; reflexivity|]. vm_compute. repeat split; congruence.
Qed.
Print Assumptions C31_limitTo_order_refuted.

(** Refutation: one feature named in [limitTo], with a boolean object that
    carries the same names, is rejected (the name is taken apart into
    characters). *)
Definition exNames (l : list string) : axis :=
  fst (setNames (mkAxis (List.length l) None) (AList (map NStr l)) ONone).
Theorem C31_limitTo_name_refuted :
  exists (t : table nat) (mt : table bool), tf mt = tf t /\ alen (tp mt) = alen (tp t) /\ Denotes (tf t) false (IdStr "ft") 0%Z /\
    fillMatchingNamed Fts (fillConstant 9) mt "ft" t = (t, Err KeyErr).
Proof.
  exists (mkTable (fresh 1) (exNames ["ft"]) [[1]]), (mkTable (fresh 1) (exNames ["ft"]) [[true]]).
  split; [reflexivity|]. split; [reflexivity|]. split; [exists 0; split; reflexivity|]. vm_compute. reflexivity.
Qed.
Print Assumptions C31_limitTo_name_refuted.

(** Non-vacuity. *)
Example C31_example :
  forwardFill [1; 2; 3; 4; 5] [false; true; true; false; true] = Ok [1; 1; 1; 4; 4] /\
  backwardFill [1; 2; 3; 4; 5] [true; true; false; true; false] = Ok [3; 3; 3; 5; 5] /\
  forwardFill [1; 2] [true; false] = Err InvalidArgumentValue /\
  (exists q, interpolate [1#1; 0#1; 0#1; 7#1; 0#1] [false; true; true; false; true] = Ok q /\ Forall2 Qeq q [1#1; 3#1; 5#1; 7#1; 7#1]%Q) /\
  let t := mkTable (fresh 2) (exNames ["a"; "b"]) [[1; 0]; [0; 0]] in
  wf t /\ limitDenotes (tf t) (limitIds (LSingle (IdStr "b"))) (Some [1]) /\
  rows (fst (fillMatching Fts (fillConstant 9) (MFun (Nat.eqb 0)) (LSingle (IdStr "b")) t)) = [[1; 9]; [0; 9]] /\
  let mt := mkTable (fresh 2) (exNames ["a"; "b"]) [[true; false]; [false; true]] in
  sameShape (MMatrix mt) t /\ aligned Pts t mt (LList [IdInt 0; IdInt (-1)]) (Some [0; 1]) /\
  rows (fst (fillMatching Pts (fillConstant 9) (MMatrix mt) (LList [IdInt 0; IdInt (-1)]) t)) = [[9; 0]; [0; 9]].
Proof.
  split; [reflexivity|]. split; [reflexivity|]. split; [reflexivity|]. split.
  { eexists. split; [vm_compute; reflexivity|]. repeat (apply Forall2_cons; [reflexivity|]). apply Forall2_nil. }
  cbv zeta. assert (W : forall A (l : list (list A)), List.length l = 2 -> (forall r, In r l -> List.length r = 2) -> wf (mkTable (fresh 2) (exNames ["a"; "b"]) l)).
  { intros A l H1 H2. split; [exact H1|]. split; [exact H2|]. split; [apply fresh_Inv|].
    unfold exNames. apply (setNames_list_Inv (mkAxis 2 None)). apply fresh_Inv. }
  split; [apply W; [reflexivity|]; intros r [<-|[<-|[]]]; reflexivity|].
  split; [simpl; repeat constructor; exists 1; split; reflexivity|]. split; [reflexivity|].
  split; [split; [apply W; [reflexivity|]; intros r [<-|[<-|[]]]; reflexivity|split; reflexivity]|].
  split; [|reflexivity]. split; [simpl; repeat constructor; simpl; lia|]. split; [simpl; repeat constructor; simpl; lia|].
  repeat constructor.
Qed.
