From Verif Require Import Base TableModel TableSpec TableSortProofs LearnModel LearnSpec LearnProofs LearnMultiProofs CalcModel CalcSpec CalcProofs.
From Coq Require Import QArith Qabs Lqa Sorted.
Open Scope list_scope.
Open Scope nat_scope.

(** ** confusion matrix with a list of labels, binary metrics *)
Lemma indices_length n : List.length (indices n) = n.
Proof. unfold indices. rewrite map_length, seq_length. auto. Qed.
Lemma indices_nth n i : i < n -> nth_error (indices n) i = Some (Z.of_nat i).
Proof. intros H. unfold indices. rewrite nth_error_map_eq, nth_error_seq. apply Nat.ltb_lt in H. rewrite H. reflexivity. Qed.
Lemma indices_In n z : In z (indices n) <-> (0 <= z < Z.of_nat n)%Z.
Proof.
  unfold indices. rewrite in_map_iff. split.
  - intros (i & <- & Hi). apply in_seq in Hi. lia.
  - intros H. exists (Z.to_nat z). split; [lia|]. apply in_seq. lia.
Qed.
Lemma indices_NoDup n : NoDup (indices n).
Proof. unfold indices. apply FinFun.Injective_map_NoDup; [intros a b; lia|apply seq_NoDup]. Qed.
Lemma validIndex_is n : idxIs (validIndex n) (indices n).
Proof.
  intros z i. unfold validIndex. destruct (_ && _)%bool eqn:E; [|discriminate]. intros [= <-].
  apply andb_true_iff in E as [E1 E2]. apply Z.leb_le in E1. apply Z.ltb_lt in E2.
  rewrite indices_nth by lia. f_equal; lia.
Qed.
Lemma validIndex_ok n z : In z (indices n) -> is_ok (validIndex n z) = true.
Proof.
  rewrite indices_In. intros H. unfold validIndex.
  replace (0 <=? z)%Z with true by (symmetry; apply Z.leb_le; lia).
  replace (z <? Z.of_nat n)%Z with true by (symmetry; apply Z.ltb_lt; lia). reflexivity.
Qed.
Lemma validIndex_bad n z : ~ In z (indices n) -> validIndex n z = Err IndexErr.
Proof.
  rewrite indices_In. intros H. unfold validIndex. destruct (_ && _)%bool eqn:E; auto.
  apply andb_true_iff in E as [E1 E2]. apply Z.leb_le in E1. apply Z.ltb_lt in E2. lia.
Qed.
Lemma confusionList_spec n known pred : (forall x, In x known \/ In x pred -> In x (indices n)) ->
  exists m, confusionListLabels n known pred = Ok m /\ isConfusion (indices n) known pred m.
Proof.
  intros Hin. unfold confusionListLabels.
  assert (Hacc : forall q, In q (combine known pred) -> is_ok (validIndex n (fst q)) = true /\ is_ok (validIndex n (snd q)) = true).
  { intros [a b] Hq. split; apply validIndex_ok, Hin; simpl; [left; eapply in_combine_l|right; eapply in_combine_r]; eauto. }
  destruct (countLoop_accepts _ _ Hacc (zeros n)) as [m Hm]. exists m. split; auto.
  apply (countLoop_spec _ _ (indices_NoDup n) (validIndex_is n)) in Hm as ([H1 H2] & _ & H3);
    [|rewrite indices_length; apply zeros_shaped].
  split; auto. split; auto. intros p k lp lk Hp Hk. specialize (H3 p k lp lk Hp Hk). rewrite zeros_cell in H3. exact H3.
Qed.
Lemma countLoop_index_err n pairs m : (exists q, In q pairs /\ ~ (In (fst q) (indices n) /\ In (snd q) (indices n))) ->
  countLoop (validIndex n) pairs m = Err IndexErr.
Proof.
  revert m; induction pairs as [|[a b] t IH]; intros m (q & Hq & Hno); [destruct Hq|]. simpl.
  destruct (in_dec Z.eq_dec a (indices n)) as [Ha|Ha]; [|rewrite validIndex_bad; auto].
  apply validIndex_ok in Ha as Ha'. destruct (validIndex n a); [|discriminate]. simpl.
  destruct (in_dec Z.eq_dec b (indices n)) as [Hb|Hb]; [|rewrite validIndex_bad; auto].
  apply validIndex_ok in Hb as Hb'. destruct (validIndex n b); [|discriminate]. simpl.
  apply IH. destruct Hq as [<-|Hq]; [simpl in Hno; tauto|]. eauto.
Qed.
Lemma binary_spec known pred : pred <> [] -> List.length known = List.length pred ->
  (forall x, In x known \/ In x pred -> x = 0%Z \/ x = 1%Z) ->
  truePositive known pred = Ok (countBoth known pred 1 1) /\ trueNegative known pred = Ok (countBoth known pred 0 0) /\
  falsePositive known pred = Ok (countBoth known pred 0 1) /\ falseNegative known pred = Ok (countBoth known pred 1 0) /\
  countBoth known pred 1 1 + countBoth known pred 0 0 + countBoth known pred 0 1 + countBoth known pred 1 0 = List.length pred.
Proof.
  intros Hne Hlen Hbin. unfold truePositive, trueNegative, falsePositive, falseNegative. rewrite !perf_ok by auto.
  unfold binaryMatrix.
  assert (Hin : forall x, In x known \/ In x pred -> In x (indices 2)).
  { intros x Hx. apply indices_In. destruct (Hbin x Hx); lia. }
  destruct (confusionList_spec 2 known pred Hin) as (m & Hm & Hc). rewrite Hm. simpl.
  destruct (confusion_sums _ _ _ _ (indices_NoDup 2) Hlen Hin Hc) as [Ht _].
  destruct Hc as (H1 & H2 & H3). rewrite indices_length in H1, H2.
  pose proof (H3 1 1 1%Z 1%Z eq_refl eq_refl) as E11. pose proof (H3 0 0 0%Z 0%Z eq_refl eq_refl) as E00.
  pose proof (H3 1 0 1%Z 0%Z eq_refl eq_refl) as E10. pose proof (H3 0 1 0%Z 1%Z eq_refl eq_refl) as E01.
  unfold getCell. rewrite E11, E00, E10, E01. fold (countBoth known pred 1 1) (countBoth known pred 0 0) (countBoth known pred 0 1) (countBoth known pred 1 0).
  repeat split; auto.
  destruct m as [|r0 [|r1 [|]]]; try discriminate.
  assert (L0 := H2 r0 (or_introl eq_refl)). assert (L1 := H2 r1 (or_intror (or_introl eq_refl))).
  destruct r0 as [|a [|b [|]]]; try discriminate. destruct r1 as [|c [|d [|]]]; try discriminate.
  unfold countBoth. simpl in E11, E00, E10, E01. unfold total in Ht. simpl in Ht. simpl. lia.
Qed.
Lemma binary_reject known pred : pred <> [] -> List.length known = List.length pred ->
  (exists x, (In x known \/ In x pred) /\ x <> 0%Z /\ x <> 1%Z) ->
  truePositive known pred = Err InvalidArgumentValue /\ trueNegative known pred = Err InvalidArgumentValue /\
  falsePositive known pred = Err InvalidArgumentValue /\ falseNegative known pred = Err InvalidArgumentValue.
Proof.
  intros Hne Hlen (x & Hx & H0 & H1). unfold truePositive, trueNegative, falsePositive, falseNegative. rewrite !perf_ok by auto.
  unfold binaryMatrix, confusionListLabels. rewrite countLoop_index_err; [repeat split; reflexivity|].
  assert (Hbad : ~ In x (indices 2)) by (rewrite indices_In; lia).
  assert (Hc : forall i, i < List.length pred -> In (nth i known 0%Z, nth i pred 0%Z) (combine known pred)).
  { intros i Hi. rewrite <- (combine_nth known pred i 0%Z 0%Z Hlen). apply nth_In. rewrite combine_length. lia. }
  destruct Hx as [Hx|Hx]; apply (In_nth _ _ 0%Z) in Hx as (i & Hi & Ei).
  - exists (nth i known 0%Z, nth i pred 0%Z). split; [apply Hc; lia|]. cbn [fst snd]. rewrite Ei. intros [Ha Hb]; apply Hbad; assumption.
  - exists (nth i known 0%Z, nth i pred 0%Z). split; [apply Hc; lia|]. cbn [fst snd]. rewrite Ei. intros [Ha Hb]; apply Hbad; assumption.
Qed.
Lemma qdiv_range a b q : qdiv a (b + a) = Ok q -> (0 <= q <= 1)%Q.
Proof.
  unfold qdiv. destruct (b + a =? 0) eqn:E; [discriminate|]. intros [= <-]. apply Nat.eqb_neq in E.
  pose proof (qnat_pos (b + a) ltac:(lia)). pose proof (qnat_nonneg a). pose proof (qnat_le a (b + a) ltac:(lia)).
  split; [apply Qle_shift_div_l|apply Qle_shift_div_r]; lra.
Qed.

(** ** C43 *)
Lemma Qle_bool_false a b : Qle_bool a b = false <-> (b < a)%Q.
Proof.
  split; intros H.
  - apply Qnot_le_lt. intros C. apply Qle_bool_iff in C. congruence.
  - destruct (Qle_bool a b) eqn:E; auto. apply Qle_bool_iff in E. lra.
Qed.
Lemma maxLoop_spec wrong correct : forall l prev, maxLoop wrong correct prev l = true <->
  (forall s, In s l -> (wrong <= s <= correct)%Q) /\ Sorted (fun a b => (b <= a)%Q) (prev :: l).
Proof.
  induction l as [|s t IH]; intros prev; simpl.
  - split; auto. intros _. split; [intros s []|]. repeat constructor.
  - destruct (Qle_bool wrong s) eqn:E1; simpl; [|split; [discriminate|]; intros [H _]; specialize (H s (or_introl eq_refl)); apply Qle_bool_false in E1; lra].
    destruct (Qle_bool s correct) eqn:E2; simpl; [|split; [discriminate|]; intros [H _]; specialize (H s (or_introl eq_refl)); apply Qle_bool_false in E2; lra].
    destruct (Qle_bool s prev) eqn:E3; simpl.
    + apply Qle_bool_iff in E1, E2, E3. rewrite IH. split.
      * intros [H1 H2]. split; [intros x [<-|Hx]; auto|]. constructor; auto.
      * intros [H1 H2]. split; auto. inversion H2; auto.
    + split; [discriminate|]. intros [_ H]. apply Qle_bool_false in E3. inversion H as [|? ? _ Hh]; subst. inversion Hh; subst. lra.
Qed.
Lemma minLoop_spec wrong correct : forall l prev, minLoop wrong correct prev l = true <->
  (forall s, In s l -> (correct <= s <= wrong)%Q) /\ Sorted (fun a b => (a <= b)%Q) (prev :: l).
Proof.
  induction l as [|s t IH]; intros prev; simpl.
  - split; auto. intros _. split; [intros s []|]. repeat constructor.
  - destruct (Qle_bool s wrong) eqn:E1; simpl; [|split; [discriminate|]; intros [H _]; specialize (H s (or_introl eq_refl)); apply Qle_bool_false in E1; lra].
    destruct (Qle_bool correct s) eqn:E2; simpl; [|split; [discriminate|]; intros [H _]; specialize (H s (or_introl eq_refl)); apply Qle_bool_false in E2; lra].
    destruct (Qle_bool prev s) eqn:E3; simpl.
    + apply Qle_bool_iff in E1, E2, E3. rewrite IH. split.
      * intros [H1 H2]. split; [intros x [<-|Hx]; auto|]. constructor; auto.
      * intros [H1 H2]. split; auto. inversion H2; auto.
    + split; [discriminate|]. intros [_ H]. apply Qle_bool_false in E3. inversion H as [|? ? _ Hh]; subst. inversion Hh; subst. lra.
Qed.
Lemma sorted_nonincreasing l : Sorted (fun a b => (b <= a)%Q) l <-> nonincreasing l.
Proof.
  split.
  - intros H. apply Sorted_StronglySorted in H; [|intros a b c H1 H2; lra].
    intros i j x y Hij Hi Hj. destruct (Nat.eq_dec i j) as [->|Hne]; [rewrite Hi in Hj; injection Hj as ->; lra|].
    eapply (StronglySorted_nth_lt _ _ H i j); eauto; lia.
  - induction l as [|a l IH]; intros H; constructor.
    + apply IH. intros i j x y Hij Hi Hj. apply (H (S i) (S j) x y); auto; lia.
    + destruct l as [|b l]; constructor. apply (H 0 1 a b); auto.
Qed.
Lemma sorted_nondecreasing l : Sorted (fun a b => (a <= b)%Q) l <-> nondecreasing l.
Proof.
  split.
  - intros H. apply Sorted_StronglySorted in H; [|intros a b c H1 H2; lra].
    intros i j x y Hij Hi Hj. destruct (Nat.eq_dec i j) as [->|Hne]; [rewrite Hi in Hj; injection Hj as ->; lra|].
    eapply (StronglySorted_nth_lt _ _ H i j); eauto; lia.
  - induction l as [|a l IH]; intros H; constructor.
    + apply IH. intros i j x y Hij Hi Hj. apply (H (S i) (S j) x y); auto; lia.
    + destruct l as [|b l]; constructor. apply (H 0 1 a b); auto.
Qed.
Lemma last_nth_error {A} (l : list A) d : l <> [] -> nth_error l (List.length l - 1) = Some (last l d).
Proof.
  intros H. destruct (exists_last H) as (l' & a & ->). rewrite last_last, app_length. simpl.
  rewrite nth_error_app2 by lia. replace (List.length l' + 1 - 1 - List.length l') with 0 by lia. reflexivity.
Qed.
Lemma runTrial_spec s l : let scores := s :: l in let f := s in let e := last scores 0%Q in
  (runTrial scores = TBest BMax <-> nonincreasing scores /\ (e < f)%Q) /\
  (runTrial scores = TBest BMin <-> nondecreasing scores /\ (f < e)%Q) /\
  (runTrial scores = TNoDifference <-> (f == e)%Q).
Proof.
  intros scores f e. unfold runTrial. change (hd 0%Q scores) with f. fold e.
  assert (Hf : nth_error scores 0 = Some f) by reflexivity.
  assert (He : nth_error scores (List.length scores - 1) = Some e) by (apply last_nth_error; discriminate).
  assert (Hb : forall x i, nth_error scores i = Some x -> i <= List.length scores - 1).
  { intros x i Hi. apply nth_error_lt in Hi. lia. }
  destruct (Qle_bool f e) eqn:E1; cbn [negb].
  - apply Qle_bool_iff in E1. destruct (Qle_bool e f) eqn:E2; cbn [negb].
    + apply Qle_bool_iff in E2. assert (Heq : (f == e)%Q) by lra.
      split; [split|split; split]; intros H; try discriminate; auto; exfalso; destruct H as [_ H]; clear - H Heq; lra.
    + apply Qle_bool_false in E2. assert (Hiff : minLoop e f (f - 1) scores = true <-> nondecreasing scores).
      { rewrite minLoop_spec. split.
        - intros [_ HS]. inversion HS; subst. apply sorted_nondecreasing; auto.
        - intros H. split.
          + intros x Hx. apply In_nth_error in Hx as [i Hi]. split; [apply (H 0 i f x); auto; lia|].
            apply (H i (List.length scores - 1) x e); eauto.
          + constructor; [apply sorted_nondecreasing; auto|]. constructor. unfold f; lra. }
      destruct (minLoop e f (f - 1) scores) eqn:Em.
      * split; [split|split; split]; intros H; try discriminate; auto; try (split; [apply Hiff; reflexivity|assumption]).
        -- exfalso. destruct H as [_ H]; clear - H E2; lra.
        -- exfalso. clear - H E2; lra.
      * split; [split|split; split]; intros H; try discriminate.
        -- exfalso. destruct H as [_ H]; clear - H E2; lra.
        -- destruct H as [H _]. apply Hiff in H. discriminate.
        -- exfalso. clear - H E2; lra.
  - apply Qle_bool_false in E1. assert (Hiff : maxLoop e f (f + 1) scores = true <-> nonincreasing scores).
    { rewrite maxLoop_spec. split.
      - intros [_ HS]. inversion HS; subst. apply sorted_nonincreasing; auto.
      - intros H. split.
        + intros x Hx. apply In_nth_error in Hx as [i Hi]. split; [apply (H i (List.length scores - 1) x e); eauto|].
          apply (H 0 i f x); auto; lia.
        + constructor; [apply sorted_nonincreasing; auto|]. constructor. unfold f; lra. }
    destruct (maxLoop e f (f + 1) scores) eqn:Em.
    + split; [split|split; split]; intros H; try discriminate; auto; try (split; [apply Hiff; reflexivity|assumption]).
      * exfalso. destruct H as [_ H]; clear - H E1; lra.
      * exfalso. clear - H E1; lra.
    + split; [split|split; split]; intros H; try discriminate.
      * destruct H as [H _]. apply Hiff in H. discriminate.
      * exfalso. destruct H as [_ H]; clear - H E1; lra.
      * exfalso. clear - H E1; lra.
Qed.

(** ** C41: rangeNormalize *)
Lemma qmin_spec l m : qmin l = Some m -> In m l /\ forall x, In x l -> (m <= x)%Q.
Proof.
  destruct l as [|a t]; [discriminate|]. simpl. intros [= <-].
  assert (G : forall t a, let r := fold_left (fun a b => if Qle_bool a b then a else b) t a in
     In r (a :: t) /\ forall x, In x (a :: t) -> (r <= x)%Q).
  { clear. induction t as [|b t IH]; intros a r; simpl in r; unfold r.
    - split; [left; auto|]. intros x [<-|[]]; lra.
    - destruct (Qle_bool a b) eqn:E.
      + apply Qle_bool_iff in E. destruct (IH a) as [I1 I2]. split.
        * destruct I1 as [I1|I1]; [left; exact I1|right; right; exact I1].
        * intros x [<-|[<-|Hx]]; [apply I2; left; auto| |apply I2; right; auto].
          specialize (I2 a (or_introl eq_refl)). cbv zeta in I2. lra.
      + apply Qle_bool_false in E. destruct (IH b) as [I1 I2]. split; [right; exact I1|].
        intros x [<-|Hx]; [|apply I2; auto]. specialize (I2 b (or_introl eq_refl)). cbv zeta in I2. lra. }
  apply G.
Qed.
Lemma qmax_spec l m : qmax l = Some m -> In m l /\ forall x, In x l -> (x <= m)%Q.
Proof.
  destruct l as [|a t]; [discriminate|]. simpl. intros [= <-].
  assert (G : forall t a, let r := fold_left (fun a b => if Qle_bool b a then a else b) t a in
     In r (a :: t) /\ forall x, In x (a :: t) -> (x <= r)%Q).
  { clear. induction t as [|b t IH]; intros a r; simpl in r; unfold r.
    - split; [left; auto|]. intros x [<-|[]]; lra.
    - destruct (Qle_bool b a) eqn:E.
      + apply Qle_bool_iff in E. destruct (IH a) as [I1 I2]. split.
        * destruct I1 as [I1|I1]; [left; exact I1|right; right; exact I1].
        * intros x [<-|[<-|Hx]]; [apply I2; left; auto| |apply I2; right; auto].
          specialize (I2 a (or_introl eq_refl)). cbv zeta in I2. lra.
      + apply Qle_bool_false in E. destruct (IH b) as [I1 I2]. split; [right; exact I1|].
        intros x [<-|Hx]; [|apply I2; auto]. specialize (I2 b (or_introl eq_refl)). cbv zeta in I2. lra. }
  apply G.
Qed.
Lemma qmin_some l : l <> [] -> exists m, qmin l = Some m.
Proof. destruct l; [congruence|]. simpl; eauto. Qed.
Lemma qmax_some l : l <> [] -> exists m, qmax l = Some m.
Proof. destruct l; [congruence|]. simpl; eauto. Qed.
Lemma rangeVal_spread mn mx start fin v : (mn < mx)%Q ->
  (rangeVal mn (mx - mn) start fin v == start + (fin - start) * ((v - mn) / (mx - mn)))%Q.
Proof.
  intros H. unfold rangeVal. replace (Qeq_bool (mx - mn) 0) with false.
  - field. lra.
  - symmetry. destruct (Qeq_bool (mx - mn) 0) eqn:E; auto. apply Qeq_bool_eq in E. lra.
Qed.
Lemma rangeNormalize_spec v1 v2 start fin : v1 <> [] -> (start <= fin)%Q ->
  exists mn mx f, In mn v1 /\ In mx v1 /\ (forall x, In x v1 -> (mn <= x <= mx)%Q) /\
    rangeNormalize v1 v2 start fin = Some (map f v1, map f v2) /\
    (f mn == start)%Q /\ ((mn < mx)%Q -> (f mx == fin)%Q) /\
    (forall x, In x v1 -> (start <= f x <= fin)%Q) /\
    (forall x y, (x <= y)%Q -> (f x <= f y)%Q).
Proof.
  intros Hne Hsf. destruct (qmin_some v1 Hne) as [mn Hmn]. destruct (qmax_some v1 Hne) as [mx Hmx].
  destruct (qmin_spec _ _ Hmn) as [I1 B1]. destruct (qmax_spec _ _ Hmx) as [I2 B2].
  unfold rangeNormalize. rewrite Hmn, Hmx.
  exists mn, mx, (rangeVal mn (mx - mn) start fin). split; auto. split; auto. split; [split; auto|]. split; auto.
  pose proof (B1 mx I2) as Hle.
  destruct (Qlt_le_dec mn mx) as [Hlt|Hge].
  - pose proof (fun v => rangeVal_spread mn mx start fin v Hlt) as E. split; [|split; [|split]].
    + rewrite E. field. lra.
    + intros _. rewrite E. field. lra.
    + intros x Hx. rewrite E. specialize (B1 x Hx). specialize (B2 x Hx).
      assert (H0 : (0 <= (x - mn) / (mx - mn) <= 1)%Q) by (split; [apply Qle_shift_div_l|apply Qle_shift_div_r]; lra).
      revert H0. generalize ((x - mn) / (mx - mn))%Q. intros q [Hq1 Hq2]. nra.
    + intros x y Hxy. rewrite !E.
      assert (H0 : ((x - mn) / (mx - mn) <= (y - mn) / (mx - mn))%Q).
      { apply Qle_shift_div_l; [lra|]. assert (Ef : ((x - mn) / (mx - mn) * (mx - mn) == x - mn)%Q) by (field; lra). rewrite Ef. lra. }
      revert H0. generalize ((x - mn) / (mx - mn))%Q ((y - mn) / (mx - mn))%Q. intros a b Hab. nra.
  - assert (Heq : (mn == mx)%Q) by lra.
    assert (E : forall v, (rangeVal mn (mx - mn) start fin v == start + (fin - start) * (v - mn))%Q).
    { intros v. unfold rangeVal. replace (Qeq_bool (mx - mn) 0) with true by (symmetry; apply Qeq_eq_bool; lra). ring. }
    split; [|split; [|split]].
    + rewrite E. ring.
    + intros C; lra.
    + intros x Hx. rewrite E. specialize (B1 x Hx). specialize (B2 x Hx). assert (Ex : (x == mn)%Q) by lra. rewrite Ex. nra.
    + intros x y Hxy. rewrite !E. nra.
Qed.
