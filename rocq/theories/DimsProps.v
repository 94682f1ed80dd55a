(** C69: data objects are independent of each other. *)
From Coq Require Import QArith.
From Coq Require Import Ascii String.
From Verif Require Import Base HighModel HighSpec HighProofs HighOpsProofs DimsModel DimsSpec DimsProofs.
From Coq Require Import List.
Import ListNotations.
Open Scope string_scope.
Open Scope list_scope.
Open Scope nat_scope.

(** For every program over any number of objects: what is seen of all the
    objects at the end is what statements on independent values would give,
    provided no left operand or result of an operator is resized in place
    before it was replaced. *)
Theorem C69_independent_partial : forall p,
  SafeFrom [] [] p -> seen (runAll empty p) = effects [] p.
Proof. exact independent. Qed.
Print Assumptions C69_independent_partial.

(** Without operators that return a new object, the condition is not needed. *)
Theorem C69_no_operator : forall p,
  Forall (fun s => ~ isOperator s) p -> seen (runAll empty p) = effects [] p.
Proof. exact independent_no_operator. Qed.
Print Assumptions C69_no_operator.

(** Every object of a safe program reports the dimensions its data has. *)
Theorem C69_consistent_partial : forall p,
  SafeFrom [] [] p -> (forall o, In (SNew o) p -> Consistent o) ->
  Forall Consistent (seen (runAll empty p)).
Proof. exact consistent_safe. Qed.
Print Assumptions C69_consistent_partial.

(** Reporting the dimensions of the data is the same as holding a regular
    nested list. *)
Theorem C69_consistent_holds : forall o, Consistent o <-> exists t, Holds o t.
Proof. exact consistent_holds. Qed.
Print Assumptions C69_consistent_holds.

(** In every program, safe or not, a statement never touches the data of an
    object it is not called on. *)
Theorem C69_private_data : forall p s x before,
  receiver s <> Some x -> nth_error (seen (runAll empty p)) x = Some before ->
  exists after, nth_error (seen (runAll empty (p ++ [s]))) x = Some after /\ hrows after = hrows before.
Proof. exact private_seen. Qed.
Print Assumptions C69_private_data.

(** After any program: extracting points from the result of an operator makes
    the left operand report as many points fewer, with all its data in place. *)
Theorem C69_linked : forall p op x y w1 is w2 d,
  let w := runAll empty p in
  step w (SOperator op x y) = Ok w1 -> nth_error (objs w) x = Some d ->
  step w1 (SExtract (length (objs w)) is) = Ok w2 ->
  exists before after, nth_error (seen w) x = Some before /\ nth_error (seen w2) x = Some after /\
    hrows after = hrows before /\
    hd 0 (hdims after) = hd 0 (hdims before) - length is /\ tl (hdims after) = tl (hdims before).
Proof. exact linked_reach. Qed.
Print Assumptions C69_linked.

(** A computation that treats an object as two-dimensional sees the same data
    with points and features only, and leaves every object as it was, whether
    it returns or raises. *)
Theorem C69_treat_as_2D : forall p x o A (ask : hobj -> result A),
  let w := runAll empty p in nth_error (seen w) x = Some o ->
  exists w' o2, treatAs2D w x (fun w1 => (w1, e <- get w1 x ;; ask (look w1 e))) = Ok (w', ask o2) /\
    seen w' = seen w /\ hrows o2 = hrows o /\
    (if 2 <? length (hdims o) then hdims o2 = [hd 0 (hdims o); size (tl (hdims o))] else hdims o2 = hdims o).
Proof. intros p x o A ask. exact (treat_reach p x o ask). Qed.
Print Assumptions C69_treat_as_2D.

(** Examples. *)
Definition a69 : hobj := {| hrows := [[LInt 1; LInt 2]; [LInt 3; LInt 4]]%Z; hdims := [2; 2] |}.
Definition h69 : hobj := {| hrows := [[LInt 1; LInt 2; LInt 3; LInt 4]; [LInt 5; LInt 6; LInt 7; LInt 8]]%Z; hdims := [2; 2; 2] |}.
Definition add69 (a b : leaf) : leaf := match a, b with LInt x, LInt y => LInt (x + y) | _, _ => LNone end.

Lemma a69_ok : Consistent a69.
Proof. split; [cbn; lia|]. split; [reflexivity|]. repeat constructor. Qed.
Lemma h69_ok : Consistent h69.
Proof. split; [cbn; lia|]. split; [reflexivity|]. repeat constructor. Qed.

(** A safe program with an operator: the result is flattened before it is
    resized, and another object is extracted from. *)
Definition prog69 : list stmt :=
  [SNew h69; SNew h69; SOperator add69 0 1; SExtract 1 [0]; STranspose 0; SFlatten 2 false; SFeaturesDelete 2 [0]; SCopy 9].
Example prog69_safe : SafeFrom [] [] prog69.
Proof.
  unfold prog69.
  do 4 (eapply safe_works; [reflexivity|cbn; intros x [= <-]; reflexivity || (intros x; discriminate)|]; cbn [marksAfter upd app]).
  eapply safe_raises; [reflexivity|].
  do 2 (eapply safe_works; [reflexivity|cbn; intros x [= <-]; reflexivity || (intros x; discriminate)|]; cbn [marksAfter upd app]).
  eapply safe_raises; [reflexivity|]. apply safe_end.
Qed.
Example prog69_seen : map hdims (seen (runAll empty prog69)) = [[2; 2; 2]; [1; 2; 2]; [1; 7]; [1; 2; 2]].
Proof. reflexivity. Qed.
Example prog69_new : forall o, In (SNew o) prog69 -> Consistent o.
Proof. intros o H. cbn in H. repeat (destruct H as [H|H]; [try discriminate; injection H as <-; exact h69_ok|]). destruct H. Qed.

(** An operation should change only the object it is called on. After
    c = a + b, extracting a point from c makes a report one point fewer: a's
    reported dimensions are no longer those of its data. *)
Theorem C69_alias_refuted : exists p,
  (forall o, In (SNew o) p -> Consistent o) /\
  (exists op is, p = [SNew a69; SNew a69; SOperator op 0 1; SExtract 2 is]) /\
  nth_error (effects [] p) 0 = Some a69 /\
  exists a, nth_error (seen (runAll empty p)) 0 = Some a /\ hrows a = hrows a69 /\ hdims a = [1; 2] /\ ~ Consistent a.
Proof.
  exists [SNew a69; SNew a69; SOperator add69 0 1; SExtract 2 [0]]. split.
  { intros o H. cbn in H. repeat (destruct H as [H|H]; [try discriminate; injection H as <-; exact a69_ok|]). destruct H. }
  split; [eauto|]. split; [reflexivity|]. eexists. split; [reflexivity|]. split; [reflexivity|]. split; [reflexivity|].
  intros (_ & H & _). discriminate H.
Qed.
Print Assumptions C69_alias_refuted.
