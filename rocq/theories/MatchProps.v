(** Property C30: matching functions.  Definitions used in the statements:
    MatchSpec.v (IsNumber, Same, isCell). *)
From Verif Require Import Base NamesModel NamesSpec NamesProofs TableModel TableSpec TableProofs TableOps TableOps3Proofs MatchModel MatchSpec MatchProofs.
From Coq Require Import QArith.
Open Scope string_scope.
Open Scope list_scope.
Open Scope nat_scope.

(** anyX is true exactly when some element satisfies X, allX exactly when all
    do - whatever the shape of the object, empty ones included. *)
Theorem C30_any :
  forall V (p : V -> bool) (t : table V), wf t ->
  exists b, anyAllValues QAny (fun v => Ok (p v)) t = Ok b /\ (b = true <-> exists v, isCell t v /\ p v = true).
Proof.
  intros V p t W. pose proof (anyAll_spec V QAny (fun v => Ok (p v)) t W) as H. destruct (anyAllValues QAny (fun v => Ok (p v)) t) as [b|e].
  - exists b. split; [reflexivity|]. destruct b; simpl in H; (split; intros G; [|reflexivity || (exfalso; revert G)]); try discriminate.
    + destruct H as [v [Hv Hp]]. exists v. split; [apply concat_rows_cell; exact Hv|congruence].
    + intros [v [Hv Hp]]. apply concat_rows_cell in Hv. specialize (H v Hv). congruence.
  - destruct H as [v [_ C]]. discriminate.
Qed.
Print Assumptions C30_any.
Theorem C30_all :
  forall V (p : V -> bool) (t : table V), wf t ->
  exists b, anyAllValues QAll (fun v => Ok (p v)) t = Ok b /\ (b = true <-> forall v, isCell t v -> p v = true).
Proof.
  intros V p t W. pose proof (anyAll_spec V QAll (fun v => Ok (p v)) t W) as H. destruct (anyAllValues QAll (fun v => Ok (p v)) t) as [b|e].
  - exists b. split; [reflexivity|]. destruct b; simpl in H; (split; intros G; [|reflexivity || (exfalso; revert G)]); try discriminate.
    + intros v Hv. apply concat_rows_cell in Hv. specialize (H v Hv). congruence.
    + intros G. destruct H as [v [Hv Hp]]. apply concat_rows_cell in Hv. specialize (G v Hv). congruence.
  - destruct H as [v [_ C]]. discriminate.
Qed.
Print Assumptions C30_all.

(** With a function that may raise: an answer is still right, and an error is
    one the function raised on some element. *)
Theorem C30_raising :
  forall V q (m : V -> result bool) (t : table V), wf t ->
  match anyAllValues q m t with
  | Ok true => match q with QAny => exists v, isCell t v /\ m v = Ok true | QAll => forall v, isCell t v -> m v = Ok true end
  | Ok false => match q with QAny => forall v, isCell t v -> m v = Ok false | QAll => exists v, isCell t v /\ m v = Ok false end
  | Err e => exists v, isCell t v /\ m v = Err e
  end.
Proof.
  intros V q m t W. pose proof (anyAll_spec V q m t W) as H. destruct (anyAllValues q m t) as [[]|e]; [| |exact H]; destruct q; simpl in H.
  - destruct H as [v [Hv Hm]]. exists v. split; [apply concat_rows_cell|]; assumption.
  - intros v Hv. apply H. apply concat_rows_cell. exact Hv.
  - intros v Hv. apply H. apply concat_rows_cell. exact Hv.
  - destruct H as [v [Hv Hm]]. exists v. split; [apply concat_rows_cell|]; assumption.
Qed.
Print Assumptions C30_raising.

(** A value matches itself only (NaN matches NaN, None matches None), a list
    matches its members, a function is applied. *)
Theorem C30_match_value :
  forall v x, exists b, convertMatch (AValue v) x = Ok b /\ (b = true <-> Same x v \/ (x = PNaN /\ v = PNaN)).
Proof. exact convertMatch_value. Qed.
Print Assumptions C30_match_value.
Theorem C30_match_list :
  forall l x, exists b, convertMatch (AValues l) x = Ok b /\
  (b = true <-> (exists y, In y l /\ Same x y) \/ (x = PNaN /\ In PNaN l)).
Proof. exact convertMatch_values. Qed.
Print Assumptions C30_match_list.
Theorem C30_match_function : forall f x, convertMatch (AFun f) x = f x.
Proof. reflexivity. Qed.
Print Assumptions C30_match_function.

(** The elementwise functions. *)
Theorem C30_missing : forall v, missing v = true <-> v = PNone \/ v = PNaN.
Proof. exact missing_spec. Qed.
Print Assumptions C30_missing.
Theorem C30_signs :
  forall v,
  (zero v = true <-> exists q, IsNumber v q /\ (q == 0)%Q) /\
  (isPositive v = true <-> v = PPosInf \/ exists q, IsNumber v q /\ (0 < q)%Q) /\
  (isNegative v = true <-> v = PNegInf \/ exists q, IsNumber v q /\ (q < 0)%Q) /\
  (infinity v = true <-> v = PPosInf \/ v = PNegInf).
Proof.
  intros v. split; [apply zero_spec|]. split; [apply isPositive_spec|]. split; [apply isNegative_spec|].
  destruct v; simpl; split; auto; try discriminate; intros [C|C]; discriminate.
Qed.
Print Assumptions C30_signs.
(** Every number is exactly one of zero, positive, negative; nothing else is any. *)
Theorem C30_trichotomy :
  forall v,
  ((numeric v = true \/ boolean v = true) /\ v <> PNaN <-> zero v = true \/ isPositive v = true \/ isNegative v = true) /\
  ~ (zero v = true /\ isPositive v = true) /\ ~ (zero v = true /\ isNegative v = true) /\ ~ (isPositive v = true /\ isNegative v = true).
Proof.
  intros v. destruct (C30_signs v) as [Z [P [N _]]]. rewrite Z, P, N.
  assert (U : forall p q, IsNumber v p -> IsNumber v q -> p = q) by (intros p q A B; destruct A; inversion B; reflexivity).
  split; [|split; [|split]].
  - split.
    + intros [HN Hn].
      assert (D : forall q, IsNumber v q -> (exists q, IsNumber v q /\ (q == 0)%Q) \/ (v = PPosInf \/ exists q, IsNumber v q /\ (0 < q)%Q) \/ (v = PNegInf \/ exists q, IsNumber v q /\ (q < 0)%Q)).
      { intros q Hq. destruct (Qlt_le_dec q 0) as [H|H]; [right; right; right; eauto|]. destruct (Qle_lt_or_eq _ _ H) as [H'|H'].
        - right; left; right; eauto.
        - left. exists q. split; [exact Hq|]. symmetry. exact H'. }
      destruct v; try (eapply D; constructor); auto; try contradiction; destruct HN; discriminate.
    + intros [[q [H _]]|[[->|[q [H _]]]|[->|[q [H _]]]]]; try (split; [left; reflexivity|discriminate]); destruct H; split; auto; discriminate.
  - intros [[q [H1 H2]] [->|[p [H3 H4]]]]; [inversion H1|]. rewrite (U _ _ H1 H3) in H2. rewrite H2 in H4. exact (Qlt_irrefl _ H4).
  - intros [[q [H1 H2]] [->|[p [H3 H4]]]]; [inversion H1|]. rewrite (U _ _ H1 H3) in H2. rewrite H2 in H4. exact (Qlt_irrefl _ H4).
  - intros [[->|[q [H1 H2]]] [E|[p [H3 H4]]]]; try discriminate; try (inversion H3; fail); [subst; inversion H1|].
    rewrite (U _ _ H1 H3) in H2. exact (Qlt_irrefl _ (Qlt_trans _ _ _ H2 H4)).
Qed.
Print Assumptions C30_trichotomy.
(** nonX is the complement of X; the type tests partition the values. *)
Theorem C30_complements :
  forall v, nonMissing v = negb (missing v) /\ nonNumeric v = negb (numeric v) /\ nonZero v = negb (zero v) /\
  (numeric v = true <-> (integer v = true \/ floating v = true) /\ boolean v = false) /\
  (boolean v = true <-> true_ v = true \/ false_ v = true) /\ ~ (true_ v = true /\ false_ v = true) /\
  ~ (integer v = true /\ floating v = true).
Proof.
  intros v. split; [reflexivity|]. split; [reflexivity|]. split; [reflexivity|].
  destruct v; try destruct b; cbn; intuition (try discriminate).
Qed.
Print Assumptions C30_complements.

(** The type tests. *)
Theorem C30_types :
  forall v,
  (boolean v = true <-> exists b, v = PBool b) /\
  (integer v = true <-> (exists z, v = PInt z) \/ exists b, v = PBool b) /\
  (floating v = true <-> (exists q, v = PFloat q) \/ v = PPosInf \/ v = PNegInf \/ v = PNaN) /\
  (numeric v = true <-> (exists z, v = PInt z) \/ (exists q, v = PFloat q) \/ v = PPosInf \/ v = PNegInf \/ v = PNaN) /\
  (true_ v = true <-> v = PBool true) /\ (false_ v = true <-> v = PBool false).
Proof.
  intros v. split; [|split; [|split; [|split; [|split]]]].
  - destruct v; cbn; (split; [intros G; try discriminate G|intros G; try reflexivity]); eauto 6; destruct G as [? G]; discriminate.
  - destruct v; cbn; (split; [intros G; try discriminate G|intros G; try reflexivity]); eauto 6; destruct G as [[? G]|[? G]]; discriminate.
  - destruct v; cbn; (split; [intros G; try discriminate G|intros G; try reflexivity]); eauto 6; destruct G as [[? G]|[G|[G|G]]]; discriminate.
  - destruct v; cbn; (split; [intros G; try discriminate G|intros G; try reflexivity]); eauto 6; destruct G as [[? G]|[[? G]|[G|[G|G]]]]; discriminate.
  - destruct v as [[]| | | | | | |]; cbn; split; congruence.
  - destruct v as [[]| | | | | | |]; cbn; split; congruence.
Qed.
Print Assumptions C30_types.

(** Non-vacuity. *)
Example C30_example :
  let t := mkTable (fresh 2) (fresh 2) [[PInt 1; PStr "a"]; [PNaN; PFloat (-1#2)]] in
  wf t /\ anyAllValues QAny (fun v => Ok (missing v)) t = Ok true /\ anyAllValues QAll (fun v => Ok (numeric v)) t = Ok false /\
  anyAllValues QAny (fun v => Ok (zero v)) t = Ok false /\
  anyAllValues QAll (convertMatch (AValues [PStr "a"; PBool true; PNaN; PFloat (-2#4)])) t = Ok true /\
  anyAllValues QAny (fun v => pyLt (PInt 0) v) (mkTable (fresh 1) (fresh 2) [[PInt 1; PStr "a"]]) = Ok true /\
  anyAllValues QAll (fun v => Ok (missing v)) (mkTable (fresh 0) (fresh 3) []) = Ok true.
Proof.
  cbv zeta. split; [|repeat split].
  split; [reflexivity|]. split; [intros r [<-|[<-|[]]]; reflexivity|]. split; apply fresh_Inv.
Qed.
