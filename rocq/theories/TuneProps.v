(** Properties C33 (brute force), C34 (consecutive, iterative), C35 (Tune). *)
From Verif Require Import Base TableModel TuneModel FoldSpec TuneSpec TuneProofs TuneIterProofs.
From Coq Require Import QArith.
Open Scope string_scope.
Open Scope list_scope.
Open Scope nat_scope.

(** C33: exhausting the brute-force selector validates exactly the list of all
    combinations of allowed values; each appears (once if no Tune repeats a
    value), and the selector is ready to be run again. *)
Theorem C33_bruteforce_all_combinations :
  forall (V : Type) (sp : spec V), exists combos n,
  (forall fuel, n < fuel -> bruteRun sp fuel 0 [] = (0, Ok combos)) /\
  (forall c, In c combos <-> isCombination sp c) /\
  ((forall k l, In (k, ATune l) sp -> NoDup l) -> NoDup combos).
Proof.
  intros V sp. exists (combinationsList sp), (List.length (combinationsList sp)). split; [apply bruteRun_all|].
  split; [apply combinations_In|apply combinations_NoDup].
Qed.
Print Assumptions C33_bruteforce_all_combinations.
Example C33_bruteforce_example :
  bruteRun [("a", ATune [1; 2]); ("b", AVal 7); ("c", ATune [3; 4])] 10 0 [] =
  (0, Ok [[("a", 1); ("b", 7); ("c", 3)]; [("a", 1); ("b", 7); ("c", 4)];
          [("a", 2); ("b", 7); ("c", 3)]; [("a", 2); ("b", 7); ("c", 4)]]).
Proof. reflexivity. Qed.

(** C34: with one loop, Consecutive tests exactly the greedy search (TuneSpec):
    it starts from the first candidates and tests every other candidate of each
    argument in turn with the best set found so far; it terminates and its best
    is the first of the best of what was tested.  [order] is the user's order
    or the order of the arguments.  Partial: every tuned argument but the first
    must have at least two candidates, candidates are distinct, loops = 1. *)
Theorem C34_consecutive_greedy_partial :
  forall (V : Type) (EV : EqDec V) (P : Type) (isBest : P -> P -> bool), betterOrder isBest ->
  forall (perf : nat -> args V -> P) (sp : spec V) order tuned inner, NoDup (map fst sp) ->
  (order = None /\ tuned = tunedArgs sp \/ order = Some (map fst tuned) /\ Permutation tuned (tunedArgs sp)) ->
  (forall k l, In (k, l) tuned -> l <> [] /\ NoDup l) ->
  (forall k l, In (k, l) (tl tuned) -> 2 <= List.length l) ->
  exists start n s, startsWith sp start /\
    (forall fuel, n < fuel -> consRun isBest perf sp 1 (S inner) fuel (cinit order) = Ok s) /\
    greedy isBest tuned [(perf 0 start, start)] (cRec s) /\
    exists b, cBest s = Some b /\ firstBest isBest (cRec s) b.
Proof. exact @consecutive_greedy. Qed.
Print Assumptions C34_consecutive_greedy_partial.

(** a run: a in 1,2,3 and b in 10,20; better = smaller |a-2| + b *)
Definition exPerf (_ : nat) (c : args nat) : nat :=
  match dget "a" c, dget "b" c with Some a, Some b => (a - 2) + (2 - a) + b | _, _ => 0 end.
Definition exSpec : spec nat := [("a", ATune [1; 2; 3]); ("x", AVal 0); ("b", ATune [20; 10])].
Example C34_consecutive_example :
  rmap (fun s => map snd (cRec s)) (consRun Nat.ltb exPerf exSpec 1 1 10 (cinit None)) =
  Ok [[("a", 1); ("x", 0); ("b", 20)]; [("a", 2); ("x", 0); ("b", 20)]; [("a", 3); ("x", 0); ("b", 20)];
      [("a", 2); ("x", 0); ("b", 10)]].
Proof. reflexivity. Qed.

(** Refuted without the length guard: a Tune with a single value ends the whole
    search; the candidates of the later argument "c" are never tested. *)
Theorem C34_single_value_ends_search_refuted :
  exists (sp : spec nat) (s : cstate nat nat), tunedArgs sp = [("a", [1; 2]); ("b", [5]); ("c", [7; 8])] /\
    consRun Nat.ltb (fun _ _ => 0) sp 1 1 5 (cinit None) = Ok s /\
    (forall c p, In (p, c) (cRec s) -> dget "c" c = Some 7).
Proof.
  exists [("a", ATune [1; 2]); ("b", ATune [5]); ("c", ATune [7; 8])]. eexists. split; [reflexivity|].
  split; [vm_compute; reflexivity|]. cbn. intros c p [[= <- <-]|[[= <- <-]|[]]]; reflexivity.
Qed.
Print Assumptions C34_single_value_ends_search_refuted.

(** Refuted for a second loop: the candidates of an argument are compared with
    the current value of the *last* argument, so a candidate of "a" that equals
    the value of "b" is never tested with the best "b".  Here every value of a
    is worth testing again with b = 2, but {a: 2, b: 2}, the best of all nine
    sets, is skipped. *)
Definition lbPerf (_ : nat) (c : args nat) : nat :=
  match dget "a" c, dget "b" c with
  | Some 1, Some 1 => 5 | Some 2, Some 1 => 6 | Some 3, Some 1 => 7
  | Some 1, Some 2 => 4 | Some 2, Some 2 => 0 | Some 3, Some 2 => 3 | _, _ => 9 end.
Theorem C34_second_loop_skips_candidate_refuted :
  exists (sp : spec nat) (s : cstate nat nat), tunedArgs sp = [("a", [1; 2; 3]); ("b", [1; 2; 3])] /\
    consRun Nat.ltb lbPerf sp 2 9 20 (cinit None) = Ok s /\
    cLoop s = 2 /\ (forall p, ~ In (p, [("a", 2); ("b", 2)]) (cRec s)) /\
    In (4, [("a", 1); ("b", 2)]) (cRec s) /\ In (3, [("a", 3); ("b", 2)]) (cRec s) /\
    option_map snd (cBest s) = Some [("a", 3); ("b", 2)].
Proof.
  exists [("a", ATune [1; 2; 3]); ("b", ATune [1; 2; 3])]. eexists. split; [reflexivity|].
  split; [vm_compute; reflexivity|]. cbn. split; [reflexivity|]. split; [|tauto].
  intros p H. repeat (destruct H as [H|H]; [discriminate|]). exact H.
Qed.
Print Assumptions C34_second_loop_skips_candidate_refuted.

(** C34: the iterative search climbs: when one argument is tuned and the
    performance along its sorted candidates improves up to position [m] and
    worsens afterwards, the search ends at the candidate at [m]. *)
Theorem C34_iterative_climbs_partial :
  forall (V P : Type) (isBest : P -> P -> bool), betterOrder isBest ->
  forall (perf : args V -> P) (leb : V -> V -> bool) (sp : spec V) k vals, NoDup (map fst sp) ->
  tunedArgs sp = [(k, vals)] ->
  forall m, unimodal isBest (fun v => perf (argsAt sp v)) (stableSort leb vals) m ->
  forall n, List.length vals <= n ->
  exists y, nth_error (stableSort leb vals) m = Some y /\
    iBestArgs (iterRun isBest perf n (iinit perf leb sp)) = argsAt sp y /\
    iCurr (iterRun isBest perf n (iinit perf leb sp)) = argsAt sp y.
Proof. exact @iterative_peak. Qed.
Print Assumptions C34_iterative_climbs_partial.
Definition upPerf (c : args nat) : nat := match dget "a" c with Some v => (v - 4) + (4 - v) | None => 9 end.
Example C34_iterative_example :
  unimodal Nat.ltb (fun v => upPerf (argsAt [("a", ATune [3; 1; 4; 2; 0]); ("b", AVal 7)] v)) (stableSort Nat.leb [3; 1; 4; 2; 0]) 4 /\
  iBestArgs (iterRun Nat.ltb upPerf 5 (iinit upPerf Nat.leb [("a", ATune [3; 1; 4; 2; 0]); ("b", AVal 7)])) = [("a", 4); ("b", 7)].
Proof.
  split; [|reflexivity]. split; [cbn; lia|]. split.
  - intros i x y Hi Hx Hy. do 4 (destruct i as [|i]; [injection Hx as <-; injection Hy as <-; reflexivity|]). lia.
  - intros i x y Hi Hx Hy. do 5 (destruct i as [|i]; [try discriminate; lia|]). destruct i; discriminate.
Qed.

(** Refuted: when both neighbours are better than the current value, the worse
    of the two is chosen, and the remembered position is that of the other. *)
Definition dipPerf (c : args nat) : nat := match dget "a" c with Some 0 => 5 | Some 1 => 9 | Some 2 => 1 | _ => 9 end.
Theorem C34_iterative_picks_worse_refuted :
  exists sp : spec nat, tunedArgs sp = [("a", [0; 1; 2])] /\
    let s := fst (iterStep Nat.ltb dipPerf (iinit dipPerf Nat.leb sp)) in
    (* value 2 has performance 1, value 0 has performance 5; smaller is better *)
    iBestArgs s = [("a", 0)] /\ iIdx s = [("a", 2)].
Proof. exists [("a", ATune [0; 1; 2])]. split; [reflexivity|]. split; reflexivity. Qed.
Print Assumptions C34_iterative_picks_worse_refuted.
(** Refuted: when moving two arguments at once turns out worse, the best set
    stays but the positions have moved, so the next iteration does not start
    at the best values: the neighbour 1 of the best value 2 is never tried. *)
Definition joinPerf (c : args nat) : nat :=
  match dget "a" c, dget "b" c with
  | Some 2, Some 2 => 5 | Some 3, Some 2 => 4 | Some 2, Some 3 => 4 | Some 3, Some 3 => 9 | _, _ => 7 end.
Theorem C34_iterative_position_lost_refuted :
  exists sp : spec nat, tunedArgs sp = [("a", [0; 1; 2; 3; 4]); ("b", [0; 1; 2; 3; 4])] /\
    let s := fst (iterStep Nat.ltb joinPerf (iinit joinPerf Nat.leb sp)) in
    iBestArgs s = [("a", 2); ("b", 2)] /\ iIdx s = [("a", 3); ("b", 3)].
Proof. exists [("a", ATune [0; 1; 2; 3; 4]); ("b", ATune [0; 1; 2; 3; 4])]. split; [reflexivity|]. split; reflexivity. Qed.
Print Assumptions C34_iterative_position_lost_refuted.

(** ** C35 *)
(** integer 'add' ranges, both directions: the j-th value is start + j*change,
    and all of those not beyond end are present *)
Theorem C35_add_increasing :
  forall start stop change, (start < stop)%Z -> (0 < change)%Z ->
  exists n l, (forall fuel, n < fuel -> tuneAdd fuel start stop change = Ok l) /\
    forall j v, nth_error l j = Some v <-> (v = start + Z.of_nat j * change /\ v <= stop)%Z.
Proof.
  intros start stop change Hs Hc.
  assert (T : forall fuel, tuneAdd fuel start stop change = rangeLoop (fun c => (c <=? stop)%Z) (fun c => (c + change)%Z) fuel start).
  { intros. unfold tuneAdd. apply Z.ltb_lt in Hs. rewrite Hs. apply Z.leb_gt in Hc. rewrite Hc. auto. }
  exists (Z.to_nat (stop - start + 1)).
  destruct (rangeLoop_up stop change Hc (S (Z.to_nat (stop - start + 1))) start ltac:(lia)) as (l & El & Hl).
  exists l. split; auto. intros fuel Hf. rewrite T.
  destruct (rangeLoop_up stop change Hc fuel start Hf) as (l' & El' & Hl'). rewrite El'. f_equal. apply nth_error_ext.
  intros j. destruct (nth_error l j) eqn:E; [apply Hl', Hl; auto|]. destruct (nth_error l' j) eqn:E'; auto. apply Hl', Hl in E'. congruence.
Qed.
Print Assumptions C35_add_increasing.
Theorem C35_add_decreasing :
  forall start stop change, (stop < start)%Z -> (change < 0)%Z ->
  exists n l, (forall fuel, n < fuel -> tuneAdd fuel start stop change = Ok l) /\
    forall j v, nth_error l j = Some v <-> (v = start + Z.of_nat j * change /\ stop <= v)%Z.
Proof.
  intros start stop change Hs Hc.
  assert (T : forall fuel, tuneAdd fuel start stop change = rangeLoop (fun c => (stop <=? c)%Z) (fun c => (c + change)%Z) fuel start).
  { intros. unfold tuneAdd. assert (E : (start <? stop)%Z = false) by (apply Z.ltb_ge; lia). rewrite E.
    apply Z.ltb_lt in Hs. rewrite Hs. apply Z.leb_gt in Hc. rewrite Hc. auto. }
  exists (Z.to_nat (start - stop + 1)).
  destruct (rangeLoop_down stop change Hc (S (Z.to_nat (start - stop + 1))) start ltac:(lia)) as (l & El & Hl).
  exists l. split; auto. intros fuel Hf. rewrite T.
  destruct (rangeLoop_down stop change Hc fuel start Hf) as (l' & El' & Hl'). rewrite El'. f_equal. apply nth_error_ext.
  intros j. destruct (nth_error l j) eqn:E; [apply Hl', Hl; auto|]. destruct (nth_error l' j) eqn:E'; auto. apply Hl', Hl in E'. congruence.
Qed.
Print Assumptions C35_add_decreasing.
(** a change in the wrong direction is rejected *)
Theorem C35_add_wrong_direction :
  forall fuel start stop change, (start < stop /\ change <= 0 \/ stop < start /\ 0 <= change)%Z ->
  tuneAdd fuel start stop change = Err InvalidArgumentValue.
Proof.
  intros fuel start stop change [[H1 H2]|[H1 H2]]; unfold tuneAdd.
  - apply Z.ltb_lt in H1. apply Z.leb_le in H2. rewrite H1, H2. auto.
  - assert (E : (start <? stop)%Z = false) by (apply Z.ltb_ge; lia). rewrite E.
    apply Z.ltb_lt in H1. apply Z.leb_le in H2. rewrite H1, H2. auto.
Qed.
Print Assumptions C35_add_wrong_direction.
(** 'multiply' ranges over the positive rationals, both directions *)
Theorem C35_multiply_increasing_partial :
  forall start stop change : Q, (0 < start)%Q -> (start < stop)%Q -> (1 < change)%Q ->
  exists n l, (forall fuel, n < fuel -> tuneMul fuel start stop change = Ok l) /\
    (forall j v, nth_error l j = Some v -> (v == start * change ^ Z.of_nat j /\ v <= stop)%Q) /\
    (forall j, (start * change ^ Z.of_nat j <= stop)%Q -> j < List.length l).
Proof. exact tuneMul_up. Qed.
Print Assumptions C35_multiply_increasing_partial.
Theorem C35_multiply_decreasing_partial :
  forall start stop change : Q, (0 < stop)%Q -> (stop < start)%Q -> (0 < change)%Q -> (change < 1)%Q ->
  exists n l, (forall fuel, n < fuel -> tuneMul fuel start stop change = Ok l) /\
    (forall j v, nth_error l j = Some v -> (v == start * change ^ Z.of_nat j /\ stop <= v)%Q) /\
    (forall j, (stop <= start * change ^ Z.of_nat j)%Q -> j < List.length l).
Proof. exact tuneMul_down. Qed.
Print Assumptions C35_multiply_decreasing_partial.
Example C35_examples :
  tuneAdd 20 1 10 3 = Ok [1; 4; 7; 10]%Z /\ tuneAdd 20 5 (-4) (-4) = Ok [5; 1; -3]%Z /\
  rmap (@List.length Q) (tuneMul 20 1 100 10) = Ok 3 /\ rmap (@List.length Q) (tuneMul 20 8 1 (1 # 2)) = Ok 4.
Proof. repeat split; reflexivity. Qed.
(** Refuted: for the accepted arguments below construction never ends -- in
    particular for the default start 0 *)
Theorem C35_multiply_diverges_refuted :
  forall start stop change fuel,
  (start < stop /\ 1 <= change /\ (start <= 0 \/ change == 1) \/ 0 < start /\ stop <= 0 /\ 0 < change /\ change < 1)%Q ->
  tuneMul fuel start stop change = Err OutOfFuel.
Proof. exact tuneMul_diverges. Qed.
Print Assumptions C35_multiply_diverges_refuted.
Example C35_diverges_example : (0 < 10 /\ 1 <= 2 /\ (0 <= 0 \/ 2 == 1))%Q.
Proof. repeat split; try discriminate. left. discriminate. Qed.
(** Refuted: start = end is not a one-element range but an UnboundLocalError *)
Theorem C35_equal_bounds_refuted : forall fuel x change, tuneAdd fuel x x change = Err UnboundErr.
Proof. intros. unfold tuneAdd. rewrite Z.ltb_irrefl. auto. Qed.
Print Assumptions C35_equal_bounds_refuted.
(** Tune(range(a, b, step)) with step > 0 and more than one number below b is
    that range ... *)
Theorem C35_range_partial :
  forall a b step, (0 < step)%Z -> (a + 1 < b)%Z ->
  exists n l, (forall fuel, n < fuel -> tuneRange fuel a b step = Ok l) /\
    forall j v, nth_error l j = Some v <-> (v = a + Z.of_nat j * step /\ v < b)%Z.
Proof.
  intros a b step Hs Hb. destruct (C35_add_increasing a (b - 1) step ltac:(lia) Hs) as (n & l & E & Hl).
  exists n, l. split; auto. intros j v. rewrite Hl. intuition lia.
Qed.
Print Assumptions C35_range_partial.
(** ... but a descending range gets two extra values below its stop *)
Theorem C35_descending_range_refuted :
  tuneRange 20 4 0 (-1) = Ok [4; 3; 2; 1; 0; -1]%Z. (* list(range(4, 0, -1)) = [4, 3, 2, 1] *)
Proof. reflexivity. Qed.
Print Assumptions C35_descending_range_refuted.
