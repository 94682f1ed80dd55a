(** Property C39 (the log).  Definitions used in the statements: LogSpec.v. *)
From Verif Require Import Base LogModel LogSpec LogProofs.
From Coq Require Import Ascii Sorted.
Open Scope string_scope.
Open Scope list_scope.
Open Scope nat_scope.

(** C39: after every history of sessions using the log, showLog shows, in the
    order they were logged, the last [maximumEntries] of the entries that are
    wanted (sessions from [leastSessionsAgo] up to but excluding
    [mostSessionsAgo] before the latest in the log), leaving out those above the
    level of detail, each below the heading of its own session. *)
Theorem C39_showLog_partial :
  forall l p level q, (forall t, qText q = Some t -> noWildcard t) -> checkArgs level q = Ok tt ->
  let d := wdb (lrun l) in
  exists matching shown out,
    sublist (wanted q d) d matching /\ lastOf (qMax q) matching shown /\
    snd (showLog d p level q) = Ok out /\
    entriesOf out = filter (fun r => (levelOf (rType r) <=? level)%Z) shown /\
    forall h r, In (h, r) (headed None out) -> h = Some (rSess r).
Proof.
  intros l p level q Hw Hc d. exists (filter (whereOf q d) d), (select q d), (output level None (select q d)).
  split; [apply filter_sublist; intros x Hx; apply whereOf_spec; auto|].
  split; [apply select_spec, li_ids, lrun_LInv|].
  unfold showLog. rewrite Hc. split; [reflexivity|]. split; [apply output_entries|]. intros h r. apply output_headed.
Qed.
Print Assumptions C39_showLog_partial.
(** C39: all entries of one session carry the same number, however many
    sessions use the log at the same time *)
Theorem C39_session_constant :
  forall l i j k r r', nth_error (written l) i = Some (k, r) -> nth_error (written l) j = Some (k, r') -> rSess r = rSess r'.
Proof. exact written_same. Qed.
Print Assumptions C39_session_constant.
(** C39: when sessions use the log one after the other, entries of different
    sessions have different numbers, larger for later sessions *)
Theorem C39_session_numbers_partial :
  forall l i j k k' r r', oneAtATime l -> nth_error (written l) i = Some (k, r) -> nth_error (written l) j = Some (k', r') ->
  (rSess r = rSess r' <-> k = k') /\ (k < k' -> (rSess r < rSess r')%Z).
Proof. exact sequential_order. Qed.
Print Assumptions C39_session_numbers_partial.
(** C39: bad argument combinations are rejected before anything is shown *)
Theorem C39_rejects :
  forall d p level q,
  (level < 1)%Z \/ (3 < level)%Z \/ (exists l, qLeast q = Some l /\ (l < 0)%Z) \/
  (exists l m, qLeast q = Some l /\ qMost q = Some m /\ (m < l)%Z) \/
  (exists a b, qStart q = Some a /\ qEnd q = Some b /\ b < a) ->
  exists e, showLog d p level q = (p, Err e).
Proof.
  intros d p level q H. unfold showLog. destruct (checkArgs level q) eqn:E; [exfalso|eauto].
  unfold checkArgs in E. destruct ((level <? 1)%Z || (3 <? level)%Z) eqn:E1; [discriminate|].
  apply orb_false_iff in E1. destruct E1 as [E1 E1']. apply Z.ltb_ge in E1, E1'.
  destruct (match qStart q with Some a => match qEnd q with Some b => b <? a | None => false end | None => false end) eqn:E2; [discriminate|].
  destruct H as [H|[H|[(l & H1 & H2)|[(l & m & H1 & H2 & H3)|(x & b & H1 & H2 & H3)]]]]; try lia.
  - rewrite H1 in E. rewrite (proj2 (Z.ltb_lt l 0)) in E by auto. discriminate.
  - rewrite H1, H2 in E. rewrite (proj2 (Z.ltb_lt m l)) in E by auto. destruct (l <? 0)%Z; discriminate.
  - rewrite H1, H2 in E2. apply Nat.ltb_ge in E2. lia.
Qed.
Print Assumptions C39_rejects.

Definition exLog : list lop :=
  [LLog 0 10 "load" "a"; LLog 0 11 "prep" "b"; LShow 1; LLog 1 20 "load" "Cde"; LLog 2 30 "run" "d"; LLog 2 31 "load" "e"].
Example C39_example :
  oneAtATime exLog /\
  map rSess (wdb (lrun exLog)) = [0; 0; 1; 2; 2]%Z /\
  checkArgs 1 (mkQ (Some 0%Z) (Some 2%Z) None None None (Some 2%Z)) = Ok tt /\
  option_map (map (fun x => match x with LSession n => (n, "") | LEntry r => (rSess r, rInfo r) end))
    (match snd (showLog (wdb (lrun exLog)) None 1 (mkQ (Some 0%Z) (Some 2%Z) None None None (Some 2%Z))) with Ok o => Some o | Err _ => None end) =
    Some [(2%Z, ""); (2%Z, "e")] /\
  contains "CD" "Cde".
Proof.
  split; [repeat constructor|]. split; [reflexivity|]. split; [reflexivity|]. split; [reflexivity|].
  exists "", "Cd", "e". split; reflexivity.
Qed.
(** C39 refuted: mostSessionsAgo is documented as included, but is excluded:
    entries from exactly that many sessions ago are not shown, and
    leastSessionsAgo = mostSessionsAgo, which is accepted, shows nothing. *)
Theorem C39_most_inclusive_refuted :
  exists l level q r, checkArgs level q = Ok tt /\ qLeast q = Some 1%Z /\ qMost q = Some 1%Z /\ qMax q = None /\
    let d := wdb (lrun l) in
    latestSession d 2 /\ In r d /\ rSess r = 1%Z /\ snd (showLog d None level q) = Ok [].
Proof.
  exists exLog, 3%Z, (mkQ (Some 1%Z) (Some 1%Z) None None None None), (mkRow 3 20 1 "load" "Cde").
  split; [reflexivity|]. split; [reflexivity|]. split; [reflexivity|]. split; [reflexivity|].
  split; [split|split; [|split]].
  - exists (mkRow 5 31 2 "load" "e"). split; [|reflexivity]. vm_compute. auto 10.
  - intros r H. vm_compute in H. repeat (destruct H as [<-|H]; [simpl; lia|]). destruct H.
  - vm_compute. auto 10.
  - reflexivity.
  - reflexivity.
Qed.
Print Assumptions C39_most_inclusive_refuted.
(** C39 refuted: two sessions open at the same time get the same number. *)
Theorem C39_concurrent_sessions_refuted :
  exists l i j k k' r r', nth_error (written l) i = Some (k, r) /\ nth_error (written l) j = Some (k', r') /\
    k <> k' /\ rSess r = rSess r'.
Proof.
  exists [LShow 0; LShow 1; LLog 0 1 "load" "a"; LLog 1 2 "load" "b"], 0, 1, 0, 1, (mkRow 1 1 0 "load" "a"), (mkRow 2 2 0 "load" "b").
  repeat split; auto.
Qed.
Print Assumptions C39_concurrent_sessions_refuted.
(** C39 refuted: a session that only reads the log gives its number to the
    next one; and before it has logged anything, "0 sessions ago" is the
    session before it. *)
Theorem C39_number_reused_refuted :
  exists l k k' n, oneAtATime l /\ k <> k' /\ wprocs (lrun l) k = Some n /\ wprocs (lrun l) k' = Some n.
Proof. exists [LShow 0; LShow 1], 0, 1, 0%Z. split; [repeat constructor|]. repeat split; auto. Qed.
Print Assumptions C39_number_reused_refuted.
Theorem C39_current_session_refuted :
  exists l k q r out, let d := wdb (lrun l) in
    wprocs (lrun l) k = Some 1%Z /\ qLeast q = Some 0%Z /\ qMost q = Some 1%Z /\
    snd (showLog d (wprocs (lrun l) k) 3 q) = Ok out /\ In r (entriesOf out) /\ rSess r = 0%Z.
Proof.
  exists [LLog 0 1 "load" "a"; LShow 1], 1, (mkQ (Some 0%Z) (Some 1%Z) None None None None), (mkRow 1 1 0 "load" "a"),
    [LSession 0; LEntry (mkRow 1 1 0 "load" "a")].
  repeat split; auto. left; auto.
Qed.
Print Assumptions C39_current_session_refuted.
(** C39 refuted without [noWildcard]: searchForText "a_b" also finds "axb". *)
Theorem C39_search_refuted :
  exists t s, like ("%" ++ t ++ "%") s = true /\ ~ contains t s.
Proof.
  exists "a_b", "axb". split; [reflexivity|]. intros (x & m & b & E & H).
  destruct m as [|c1 [|c2 [|c3 [|c4 m]]]]; try discriminate.
  assert (L : String.length x = 0 /\ b = "").
  { assert (Q := f_equal String.length E).
    assert (A : forall u v, String.length (u ++ v) = String.length u + String.length v) by (induction u; simpl; intros; auto).
    rewrite A in Q. simpl in Q. destruct b; [|simpl in Q; lia]. split; auto. simpl in Q. lia. }
  destruct L as [L ->]. destruct x; [|discriminate]. cbn [append] in E. injection E as <- <- <-. discriminate.
Qed.
Print Assumptions C39_search_refuted.
