From Verif Require Import Base TableModel TableSpec TableSortProofs LearnModel LearnSpec LearnProofs LearnMultiProofs CalcModel CalcSpec.
From Coq Require Import QArith Qabs Lqa Sorted.
Open Scope list_scope.
Open Scope nat_scope.

(** ** sums *)
Lemma qsum_acc l a : (fold_left Qplus l a == a + qsum l)%Q.
Proof.
  unfold qsum. revert a; induction l as [|x l IH]; intros a; simpl; [ring|].
  rewrite IH. rewrite (IH (0 + x)%Q). ring.
Qed.
Lemma qsum_cons x l : (qsum (x :: l) == x + qsum l)%Q.
Proof. unfold qsum at 1. simpl. rewrite qsum_acc. ring. Qed.
Lemma qsum_app l l' : (qsum (l ++ l') == qsum l + qsum l')%Q.
Proof. induction l as [|x l IH]; [unfold qsum at 2; simpl; ring|]. simpl app. rewrite !qsum_cons, IH. ring. Qed.
Lemma qsum_perm l l' : Permutation l l' -> (qsum l == qsum l')%Q.
Proof.
  induction 1; try reflexivity.
  - rewrite !qsum_cons, IHPermutation. reflexivity.
  - rewrite !qsum_cons. ring.
  - etransitivity; eauto.
Qed.
Lemma qnat_S n : (qnat (S n) == qnat n + 1)%Q.
Proof. unfold qnat. rewrite Nat2Z.inj_succ. unfold Z.succ. rewrite inject_Z_plus. reflexivity. Qed.
Lemma qnat_plus a b : (qnat (a + b) == qnat a + qnat b)%Q.
Proof. unfold qnat. rewrite Nat2Z.inj_add, inject_Z_plus. reflexivity. Qed.
Lemma qnat_nonneg n : (0 <= qnat n)%Q.
Proof. unfold qnat. change 0%Q with (inject_Z 0). rewrite <- Zle_Qle. lia. Qed.
Lemma qnat_pos n : 0 < n -> (0 < qnat n)%Q.
Proof. intros. unfold qnat. change 0%Q with (inject_Z 0). rewrite <- Zlt_Qlt. lia. Qed.
Lemma qnat_le a b : a <= b -> (qnat a <= qnat b)%Q.
Proof. intros. unfold qnat. rewrite <- Zle_Qle. lia. Qed.
Lemma qnat_lt a b : a < b -> (qnat a < qnat b)%Q.
Proof. intros. unfold qnat. rewrite <- Zlt_Qlt. lia. Qed.

(** ** C40: errors *)
Lemma errLoop_fold {A} (loop : A -> A -> Q -> Q) (known pred : list A) : List.length known = List.length pred ->
  forall t, errLoop loop known pred 0 t = Ok (fold_left (fun z p => loop (fst p) (snd p) z) (combine known pred) t).
Proof.
  intros Hlen.
  assert (G : forall pred pre k2 t, List.length k2 = List.length pred ->
    errLoop loop (pre ++ k2) pred (List.length pre) t = Ok (fold_left (fun z p => loop (fst p) (snd p) z) (combine k2 pred) t)).
  { clear. induction pred as [|p pred IH]; intros pre k2 t H.
    - destruct k2; [|discriminate]. reflexivity.
    - destruct k2 as [|k k2]; [discriminate|]. simpl. rewrite nth_error_app2, Nat.sub_diag by lia. simpl.
      replace (pre ++ k :: k2) with ((pre ++ [k]) ++ k2) by (rewrite <- app_assoc; reflexivity).
      replace (S (List.length pre)) with (List.length (pre ++ [k])) by (rewrite app_length; simpl; lia).
      apply IH. simpl in H; lia. }
  intros t. apply (G pred [] known t Hlen).
Qed.
Lemma perf_ok {A B} (f : list A -> list A -> result B) known pred : pred <> [] -> List.length known = List.length pred ->
  performanceFunction f known pred = f known pred.
Proof.
  intros Hne Hlen. unfold performanceFunction. rewrite Hlen, Nat.eqb_refl.
  destruct pred; [congruence|]. reflexivity.
Qed.
Lemma perf_bad {A B} (f : list A -> list A -> result B) known pred : List.length known <> List.length pred \/ pred = [] ->
  exists e, performanceFunction f known pred = Err e.
Proof.
  intros H. unfold performanceFunction. destruct (_ || _)%bool eqn:E; eauto.
  destruct (negb _) eqn:E2; eauto. exfalso. apply negb_false_iff, Nat.eqb_eq in E2. apply orb_false_iff in E as [E3 E4].
  apply Nat.eqb_neq in E4. destruct H as [H| ->]; [congruence|]. simpl in E4; congruence.
Qed.
Section Labels.
Context {L : Type} {EL : EqDec L}.
Lemma wrong_fold (l : list (L * L)) z :
  (fold_left (fun z p => if eqbd (fst p) (snd p) then z else z + 1) l z ==
   z + qnat (List.length (filter (fun p => negb (eqbd (fst p) (snd p))) l)))%Q.
Proof.
  revert z; induction l as [|[a b] l IH]; intros z; simpl; [unfold qnat; simpl; ring|].
  rewrite IH. destruct (eqbd a b); simpl; [reflexivity|]. rewrite qnat_S. ring.
Qed.
Lemma correct_wrong (known pred : list L) : List.length known = List.length pred ->
  numCorrect known pred + numWrong known pred = List.length pred.
Proof.
  unfold numCorrect, numWrong. revert pred; induction known as [|k known IH]; intros [|p pred] H; simpl in *; try discriminate; auto.
  specialize (IH pred ltac:(lia)). destruct (eqbd k p); simpl; lia.
Qed.
Lemma fraction_spec (known pred : list L) : pred <> [] -> List.length known = List.length pred ->
  exists q, fractionIncorrect known pred = Ok q /\ (q == qnat (numWrong known pred) / qnat (List.length pred))%Q /\
    fractionCorrect known pred = Ok (1 - q)%Q /\ (1 - q == qnat (numCorrect known pred) / qnat (List.length pred))%Q /\
    (0 <= q <= 1)%Q.
Proof.
  intros Hne Hlen. unfold fractionCorrect, fractionIncorrect. rewrite perf_ok by auto. unfold computeError.
  rewrite errLoop_fold by auto. simpl rbind.
  assert (Hp : 0 < List.length pred) by (destruct pred; [congruence|simpl; lia]).
  replace (0 <? List.length pred) with true by (symmetry; apply Nat.ltb_lt; auto).
  eexists. split; [reflexivity|]. pose proof (qnat_pos _ Hp) as Hq.
  pose proof (correct_wrong known pred Hlen) as Hcw.
  assert (Hsum : (qnat (numCorrect known pred) + qnat (numWrong known pred) == qnat (List.length pred))%Q).
  { rewrite <- qnat_plus, Hcw. reflexivity. }
  assert (E : (fold_left (fun (z : Q) (p : L * L) => if eqbd (fst p) (snd p) then z else (z + 1)%Q) (combine known pred) 0 / qnat (List.length pred) ==
               qnat (numWrong known pred) / qnat (List.length pred))%Q).
  { rewrite wrong_fold. fold (numWrong known pred). field. intros HH; rewrite HH in Hq; lra. }
  split; [exact E|]. split; [reflexivity|]. rewrite E.
  pose proof (qnat_nonneg (numCorrect known pred)). pose proof (qnat_nonneg (numWrong known pred)).
  split; [|split].
  - rewrite <- Hsum. field. rewrite Hsum. lra.
  - apply Qle_shift_div_l; lra.
  - apply Qle_shift_div_r; lra.
Qed.
End Labels.

Lemma sq_fold l z : (fold_left (fun z (p : Q * Q) => z + (snd p - fst p) * (snd p - fst p)) l z == z + sqs l)%Q.
Proof.
  unfold sqs. revert z; induction l as [|p l IH]; intros z; [unfold qsum; simpl; ring|].
  cbn [fold_left map]. rewrite IH, qsum_cons. ring.
Qed.
Lemma abs_fold l z : (fold_left (fun z (p : Q * Q) => z + Qabs (snd p - fst p)) l z == z + abss l)%Q.
Proof.
  unfold abss. revert z; induction l as [|p l IH]; intros z; [unfold qsum; simpl; ring|].
  cbn [fold_left map]. rewrite IH, qsum_cons. ring.
Qed.
Lemma sq_nonneg (x : Q) : (0 <= x * x)%Q.
Proof. nra. Qed.
Lemma abs_sq (x : Q) : (Qabs x * Qabs x == x * x)%Q.
Proof. rewrite <- Qabs_Qmult. apply Qabs_pos, sq_nonneg. Qed.
Lemma sqs_nonneg l : (0 <= sqs l)%Q.
Proof. unfold sqs. induction l as [|p l IH]; [apply Qle_refl|]. cbn [map]. rewrite qsum_cons. pose proof (sq_nonneg (snd p - fst p)). lra. Qed.
Lemma abss_nonneg l : (0 <= abss l)%Q.
Proof. unfold abss. induction l as [|p l IH]; [apply Qle_refl|]. cbn [map]. rewrite qsum_cons. pose proof (Qabs_nonneg (snd p - fst p)). lra. Qed.
Lemma sqs_zero l : (sqs l == 0)%Q <-> forall p, In p l -> (fst p == snd p)%Q.
Proof.
  unfold sqs. induction l as [|p l IH]; [split; [intros _ p []|intros _; reflexivity]|].
  cbn [map]. rewrite qsum_cons. pose proof (sq_nonneg (snd p - fst p)). pose proof (sqs_nonneg l) as Hn. unfold sqs in Hn.
  split.
  - intros H0 q [<-|Hq].
    + assert (Hz : ((snd p - fst p) * (snd p - fst p) == 0)%Q) by lra. apply Qmult_integral in Hz. destruct Hz; lra.
    + apply IH; auto. lra.
  - intros Hall. assert (Hp : (fst p == snd p)%Q) by (apply Hall; left; auto).
    assert (Hl : (qsum (map (fun p => (snd p - fst p) * (snd p - fst p)) l) == 0)%Q) by (apply IH; intros; apply Hall; right; auto).
    rewrite Hl, Hp. ring.
Qed.
Lemma abss_zero l : (abss l == 0)%Q <-> forall p, In p l -> (fst p == snd p)%Q.
Proof.
  unfold abss. induction l as [|p l IH]; [split; [intros _ p []|intros _; reflexivity]|].
  cbn [map]. rewrite qsum_cons. pose proof (Qabs_nonneg (snd p - fst p)). pose proof (abss_nonneg l) as Hn. unfold abss in Hn.
  split.
  - intros H0 q [<-|Hq].
    + assert (Hz : (Qabs (snd p - fst p) == 0)%Q) by lra.
      pose proof (Qle_Qabs (snd p - fst p)). pose proof (Qle_Qabs (- (snd p - fst p))) as Hm. rewrite Qabs_opp in Hm. lra.
    + apply IH; auto. lra.
  - intros Hall. assert (Hp : (fst p == snd p)%Q) by (apply Hall; left; auto).
    assert (Hl : (qsum (map (fun p => Qabs (snd p - fst p)) l) == 0)%Q) by (apply IH; intros; apply Hall; right; auto).
    rewrite Hl, Hp. assert (E : (snd p - snd p == 0)%Q) by ring. rewrite E. reflexivity.
Qed.
(** (sum |d|)^2 <= n * sum d^2 *)
Lemma cauchy l : (abss l * abss l <= qnat (List.length l) * sqs l)%Q.
Proof.
  assert (Hcross : forall a l, (2 * (Qabs a * abss l) <= qnat (List.length l) * (a * a) + sqs l)%Q).
  { intros a. unfold abss, sqs. induction l0 as [|p l0 IH]; [apply Qle_lteq; right; cbn [map List.length]; change (qsum []) with 0%Q; change (qnat 0) with 0%Q; ring|].
    cbn [map List.length]. rewrite !qsum_cons, qnat_S.
    pose proof (sq_nonneg (Qabs a - Qabs (snd p - fst p))). pose proof (abs_sq a). pose proof (abs_sq (snd p - fst p)).
    set (d := (snd p - fst p)%Q) in *. set (A := qsum (map (fun p => Qabs (snd p - fst p)) l0)) in *.
    set (B := qsum (map (fun p => ((snd p - fst p) * (snd p - fst p))%Q) l0)) in *.
    clearbody A B d. revert IH H H0 H1. generalize (Qabs a) (Qabs d) (qnat (List.length l0)). intros; nra. }
  induction l as [|p l IH]; [apply Qle_lteq; right; change (abss []) with 0%Q; change (sqs []) with 0%Q; change (qnat (List.length (@nil (Q*Q)))) with 0%Q; ring|].
  assert (Ea : (abss (p :: l) == Qabs (snd p - fst p) + abss l)%Q) by (unfold abss; cbn [map]; rewrite qsum_cons; reflexivity).
  assert (Es : (sqs (p :: l) == (snd p - fst p) * (snd p - fst p) + sqs l)%Q) by (unfold sqs; cbn [map]; rewrite qsum_cons; reflexivity).
  cbn [List.length]. rewrite Ea, Es, qnat_S.
  pose proof (Hcross (snd p - fst p) l)%Q. pose proof (abs_sq (snd p - fst p)).
  set (d := (snd p - fst p)%Q) in *. clearbody d. revert IH H H0. generalize (Qabs d) (abss l) (sqs l) (qnat (List.length l)). intros; nra.
Qed.
Lemma errors_spec (known pred : list Q) : pred <> [] -> List.length known = List.length pred ->
  exists mse mae, meanSquareError known pred = Ok mse /\ meanAbsoluteError known pred = Ok mae /\
    (0 <= mse)%Q /\ (0 <= mae)%Q /\ (mae * mae <= mse)%Q /\
    ((mse == 0)%Q <-> forall i k p, nth_error known i = Some k -> nth_error pred i = Some p -> (k == p)%Q) /\
    ((mae == 0)%Q <-> forall i k p, nth_error known i = Some k -> nth_error pred i = Some p -> (k == p)%Q) /\
    (mse == sqs (combine known pred) / qnat (List.length pred))%Q /\
    (mae == abss (combine known pred) / qnat (List.length pred))%Q.
Proof.
  intros Hne Hlen. unfold meanSquareError, meanAbsoluteError. rewrite !perf_ok by auto. unfold computeError.
  rewrite !errLoop_fold by auto. simpl rbind.
  assert (Hp : 0 < List.length pred) by (destruct pred; [congruence|simpl; lia]).
  replace (0 <? List.length pred) with true by (symmetry; apply Nat.ltb_lt; auto).
  do 2 eexists. split; [reflexivity|]. split; [reflexivity|].
  pose proof (qnat_pos _ Hp) as Hq. rewrite sq_fold, abs_fold.
  set (l := combine known pred).
  assert (Hl : List.length l = List.length pred) by (unfold l; rewrite combine_length; lia).
  pose proof (sqs_nonneg l). pose proof (abss_nonneg l). pose proof (cauchy l) as Hc. rewrite Hl in Hc.
  assert (Hin : forall P : Q -> Q -> Prop, (forall p, In p l -> P (fst p) (snd p)) <->
      (forall i k p, nth_error known i = Some k -> nth_error pred i = Some p -> P k p)).
  { intros P. unfold l. clear - Hlen. revert pred Hlen. induction known as [|k known IH]; intros [|p pred] Hlen; simpl in *; try discriminate.
    - split; [intros _ [|i]; discriminate|intros _ p []].
    - destruct (IH pred ltac:(lia)) as [I1 I2]. split.
      + intros Hall [|i] k' p' H1 H2; simpl in *.
        * injection H1 as <-. injection H2 as <-. apply (Hall (k, p)). auto.
        * apply (I1 (fun q Hq => Hall q (or_intror Hq)) i); auto.
      + intros Hall q [<-|Hq]; [apply (Hall 0); auto|]. apply I2; auto. intros i k' p' H1 H2. apply (Hall (S i)); auto. }
  assert (Z : forall a, (0 <= a)%Q -> ((0 + a) / qnat (List.length pred) == 0 <-> a == 0)%Q).
  { intros a Ha. split; intros E.
    - assert (E2 : (a == ((0 + a) / qnat (List.length pred)) * qnat (List.length pred))%Q) by (field; lra). rewrite E in E2. lra.
    - rewrite E. field. lra. }
  split; [apply Qle_shift_div_l; lra|]. split; [apply Qle_shift_div_l; lra|]. split.
  - apply Qle_trans with ((qnat (List.length pred) * sqs l) / (qnat (List.length pred) * qnat (List.length pred)))%Q.
    + apply Qle_shift_div_l; [nra|].
      assert (E : ((0 + abss l) / qnat (List.length pred) * ((0 + abss l) / qnat (List.length pred)) * (qnat (List.length pred) * qnat (List.length pred)) == abss l * abss l)%Q) by (field; lra).
      rewrite E. exact Hc.
    + apply Qle_lteq. right. field. lra.
  - split; [|split; [|split]].
    + rewrite Z by auto. rewrite sqs_zero. apply (Hin (fun a b => (a == b)%Q)).
    + rewrite Z by auto. rewrite abss_zero. apply (Hin (fun a b => (a == b)%Q)).
    + field; lra.
    + field; lra.
Qed.

(** ** C40: confusion matrices *)
Section Confusion.
Context {L : Type} {EL : EqDec L}.
Definition shaped (n : nat) (m : matrix) : Prop := List.length m = n /\ forall r, In r m -> List.length r = n.
Lemma zeros_shaped n : shaped n (zeros n).
Proof.
  unfold zeros. split; [apply repeat_length|]. intros r Hr. apply repeat_spec in Hr. subst. apply repeat_length.
Qed.
Lemma shaped_nth n m p : shaped n m -> p < n -> List.length (nth p m []) = n.
Proof. intros [H1 H2] Hp. apply H2. apply nth_In. lia. Qed.
Lemma nth_upd {A} (l : list A) i j x d : i < List.length l -> nth j (upd l i x) d = if j =? i then x else nth j l d.
Proof.
  intros Hi. destruct (j =? i) eqn:E.
  - apply Nat.eqb_eq in E. subst. apply nth_error_nth. apply nth_error_upd_same; auto.
  - apply Nat.eqb_neq in E. destruct (nth_error l j) eqn:E2.
    + rewrite (nth_error_nth _ _ d E2). apply nth_error_nth. rewrite <- E2. rewrite nth_error_upd_other; auto.
    + rewrite !nth_overflow; auto; [apply nth_error_None in E2; auto|]. rewrite upd_length. apply nth_error_None in E2; auto.
Qed.
Lemma setCell_shaped n m p k v : shaped n m -> p < n -> k < n -> shaped n (setCell m p k v).
Proof.
  intros Hm Hp Hk. pose proof Hm as [H1 H2]. unfold setCell. split; [rewrite upd_length; auto|].
  intros r Hr. apply In_nth_error in Hr as [i Hi]. 
  assert (Hlt : i < List.length m) by (apply nth_error_lt in Hi; rewrite upd_length in Hi; auto).
  destruct (Nat.eq_dec i p) as [->|Hne].
  - rewrite nth_error_upd_same in Hi by lia. injection Hi as <-. rewrite upd_length. apply shaped_nth; auto.
  - rewrite nth_error_upd_other in Hi by auto. apply H2. eapply nth_error_In; eauto.
Qed.
Lemma getCell_setCell n m p k v p' k' : shaped n m -> p < n -> k < n ->
  getCell (setCell m p k v) p' k' = if (p' =? p) && (k' =? k) then v else getCell m p' k'.
Proof.
  intros Hm Hp Hk. unfold getCell, setCell. pose proof Hm as [H1 _]. rewrite nth_upd by lia.
  destruct (p' =? p) eqn:E; simpl; auto. apply Nat.eqb_eq in E; subst p'.
  rewrite nth_upd by (rewrite (shaped_nth n); auto). reflexivity.
Qed.
Lemma zeros_cell n p k : getCell (zeros n) p k = 0.
Proof.
  unfold getCell, zeros. destruct (Nat.lt_ge_cases p n) as [H|H].
  - rewrite (nth_indep _ [] (repeat 0 n)) by (rewrite repeat_length; auto). rewrite nth_repeat. apply nth_repeat.
  - rewrite (nth_overflow (repeat _ n)) by (rewrite repeat_length; auto). destruct k; reflexivity.
Qed.
Definition idxIs (idx : L -> result nat) (labels : list L) : Prop :=
  forall l i, idx l = Ok i -> nth_error labels i = Some l.
Lemma countLoop_spec idx labels : NoDup labels -> idxIs idx labels ->
  forall pairs m m', shaped (List.length labels) m -> countLoop idx pairs m = Ok m' ->
  shaped (List.length labels) m' /\
  (forall q, In q pairs -> In (fst q) labels /\ In (snd q) labels) /\
  forall p k lp lk, nth_error labels p = Some lp -> nth_error labels k = Some lk ->
    getCell m' p k = getCell m p k + List.length (filter (fun q => eqbd (fst q) lk && eqbd (snd q) lp) pairs).
Proof.
  intros Hn Hidx. induction pairs as [|[kv pv] t IH]; intros m m' Hm H; simpl in H.
  - injection H as <-. split; auto. split; [intros q []|]. intros; simpl; lia.
  - destruct (idx kv) as [ki|] eqn:Ek; [|discriminate]. simpl in H. destruct (idx pv) as [pi|] eqn:Ep; [|discriminate]. simpl in H.
    apply Hidx in Ek, Ep. pose proof (nth_error_lt _ _ Ek) as Lk. pose proof (nth_error_lt _ _ Ep) as Lp.
    apply IH in H as (H1 & H2 & H3); [|apply setCell_shaped; auto]. split; auto. split.
    + intros q [<-|Hq]; auto. simpl. split; eapply nth_error_In; eauto.
    + intros p k lp lk Hp Hk. rewrite (H3 p k lp lk Hp Hk). rewrite (getCell_setCell _ _ _ _ _ _ _ Hm Lp Lk).
      simpl. destruct (eq_dec kv lk) as [->|Nk], (eq_dec pv lp) as [->|Np].
      * assert (p = pi) by (exact (NoDup_nth_error_inj _ _ Hn Hp Ep)). assert (k = ki) by (exact (NoDup_nth_error_inj _ _ Hn Hk Ek)). subst p k.
        rewrite !Nat.eqb_refl, !eqbd_refl. simpl. lia.
      * assert (p <> pi) by congruence. apply Nat.eqb_neq in H. rewrite H. apply eqbd_neq in Np. rewrite Np, andb_false_r. reflexivity.
      * assert (k <> ki) by congruence. apply Nat.eqb_neq in H. rewrite H, andb_false_r. apply eqbd_neq in Nk. rewrite Nk. reflexivity.
      * assert (k <> ki) by congruence. apply Nat.eqb_neq in H. rewrite H, andb_false_r. apply eqbd_neq in Nk. rewrite Nk. reflexivity.
Qed.
Lemma countLoop_accepts (idx : L -> result nat) pairs : (forall q, In q pairs -> is_ok (idx (fst q)) = true /\ is_ok (idx (snd q)) = true) ->
  forall m, exists m', countLoop idx pairs m = Ok m'.
Proof.
  induction pairs as [|[kv pv] t IH]; intros H m; simpl; eauto.
  destruct (H _ (or_introl eq_refl)) as [H1 H2]. simpl in *.
  destruct (idx kv); [|discriminate]. destruct (idx pv); [|discriminate]. simpl. apply IH. intros; apply H; auto.
Qed.
Lemma indexIn_is e (ls : list L) : idxIs (indexIn e ls) ls.
Proof.
  assert (G : forall (ls : list L) l i, indexOf l ls = Some i -> nth_error ls i = Some l).
  { clear. induction ls as [|x ls IH]; intros l i; simpl; [discriminate|].
    destruct (eq_dec l x) as [->|]; [intros [= <-]; auto|].
    destruct (indexOf l ls) eqn:E; [|discriminate]. simpl. intros [= <-]. simpl. auto. }
  unfold idxIs, indexIn. intros l i. destruct (indexOf l ls) eqn:E; [|discriminate]. intros [= <-]. auto.
Qed.
Lemma indexIn_ok e (ls : list L) l : In l ls -> is_ok (indexIn e ls l) = true.
Proof.
  unfold indexIn. intros H. destruct (indexOf l ls) eqn:E; auto. exfalso.
  induction ls as [|x ls IH]; [destruct H|]. simpl in E. destruct (eq_dec l x); [discriminate|].
  destruct H as [->|H]; [congruence|]. destruct (indexOf l ls); [discriminate|]. auto.
Qed.
(** the dict form *)
Lemma confusionDict_spec leb (keys known pred : list L) : NoDup keys ->
  (forall x, In x known \/ In x pred -> In x keys) ->
  exists m, confusionDictLabels leb keys known pred = Ok (m, stableSort leb keys) /\
    isConfusion (stableSort leb keys) known pred m.
Proof.
  intros Hn Hin. unfold confusionDictLabels.
  pose proof (stableSort_perm leb keys) as HP. set (s := stableSort leb keys) in *.
  assert (Hs : NoDup s) by (eapply Permutation_NoDup; [symmetry; exact HP|auto]).
  assert (Hl : List.length keys = List.length s) by (symmetry; apply Permutation_length; auto).
  assert (Hacc : forall q, In q (combine known pred) -> is_ok (indexIn KeyErr s (fst q)) = true /\ is_ok (indexIn KeyErr s (snd q)) = true).
  { intros [a b] Hq. split; apply indexIn_ok; (eapply Permutation_in; [symmetry; exact HP|]); apply Hin; simpl.
    - left. eapply in_combine_l; eauto.
    - right. eapply in_combine_r; eauto. }
  destruct (countLoop_accepts _ _ Hacc (zeros (List.length keys))) as [m Hm]. rewrite Hm. simpl. exists m. split; auto.
  rewrite Hl in Hm. apply (countLoop_spec _ _ Hs (indexIn_is _ _)) in Hm as ([H1 H2] & _ & H3); [|apply zeros_shaped].
  split; auto. split; auto. intros p k lp lk Hp Hk. specialize (H3 p k lp lk Hp Hk). rewrite zeros_cell in H3. exact H3.
Qed.
Lemma confusionDict_reject leb (keys known pred : list L) q : NoDup keys -> In q (combine known pred) ->
  ~ (In (fst q) keys /\ In (snd q) keys) -> exists e, confusionDictLabels leb keys known pred = Err e.
Proof.
  intros Hn Hq Hno. unfold confusionDictLabels.
  pose proof (stableSort_perm leb keys) as HP. set (s := stableSort leb keys) in *.
  destruct (countLoop _ _ _) as [m|e] eqn:E; [|simpl; eauto]. exfalso.
  assert (Hs : NoDup s) by (eapply Permutation_NoDup; [symmetry; exact HP|auto]).
  replace (List.length keys) with (List.length s) in E by (apply Permutation_length; auto).
  apply (countLoop_spec _ _ Hs (indexIn_is _ _)) in E as (_ & H & _); [|apply zeros_shaped].
  apply Hno. destruct (H q Hq). split; (eapply Permutation_in; [exact HP|]); auto.
Qed.
(** the form without labels *)
Lemma fillLoop_spec (labels : list L) : NoDup labels -> forall cd m m', NoDup (map fst cd) -> shaped (List.length labels) m ->
  fillLoop labels cd m = Ok m' -> shaped (List.length labels) m' /\
  (forall q, In q cd -> In (fst (fst q)) labels /\ In (snd (fst q)) labels) /\
  forall p k lp lk, nth_error labels p = Some lp -> nth_error labels k = Some lk ->
    getCell m' p k = match dget (lk, lp) cd with Some c => c | None => getCell m p k end.
Proof.
  intros Hn. induction cd as [|[[kv pv] c] t IH]; intros m m' Hd Hm H; simpl in H.
  - injection H as <-. split; auto. split; [intros q []|]. intros; reflexivity.
  - destruct (indexIn ValueErr labels kv) as [ki|] eqn:Ek; [|discriminate]. simpl in H.
    destruct (indexIn ValueErr labels pv) as [pi|] eqn:Ep; [|discriminate]. simpl in H.
    apply indexIn_is in Ek, Ep. pose proof (nth_error_lt _ _ Ek) as Lk. pose proof (nth_error_lt _ _ Ep) as Lp.
    simpl in Hd. inversion Hd as [|? ? Hnot Hd']; subst.
    apply IH in H as (H1 & H2 & H3); auto; [|apply setCell_shaped; auto]. split; auto. split.
    + intros q [<-|Hq]; auto. simpl. split; eapply nth_error_In; eauto.
    + intros p k lp lk Hp Hk. rewrite (H3 p k lp lk Hp Hk). rewrite (getCell_setCell _ _ _ _ _ _ _ Hm Lp Lk).
      simpl. destruct (eq_dec (lk, lp) (kv, pv)) as [[= -> ->]|Nq].
      * assert (p = pi) by (exact (NoDup_nth_error_inj _ _ Hn Hp Ep)). assert (k = ki) by (exact (NoDup_nth_error_inj _ _ Hn Hk Ek)). subst p k.
        rewrite !Nat.eqb_refl. simpl. assert (Hg : dget (kv, pv) t = None) by (apply dget_None; auto). rewrite Hg. auto.
      * destruct (dget (lk, lp) t); auto.
        assert (Hne : (p =? pi) && (k =? ki) = false).
        { apply andb_false_iff. destruct (Nat.eq_dec p pi) as [->|]; [|left; apply Nat.eqb_neq; auto].
          right. apply Nat.eqb_neq. intros ->. apply Nq. congruence. }
        rewrite Hne. auto.
Qed.
Lemma fillLoop_accepts (labels : list L) cd : (forall q, In q cd -> In (fst (fst q)) labels /\ In (snd (fst q)) labels) ->
  forall m, exists m', fillLoop labels cd m = Ok m'.
Proof.
  induction cd as [|[[kv pv] c] t IH]; intros H m; simpl; eauto.
  destruct (H _ (or_introl eq_refl)) as [H1 H2]. simpl in *.
  apply (indexIn_ok ValueErr) in H1, H2.
  destruct (indexIn ValueErr labels kv); [|discriminate]. destruct (indexIn ValueErr labels pv); [|discriminate]. simpl. apply IH. intros; apply H; auto.
Qed.
Lemma count_filter (l : list (L * L)) a b : count_occ eq_dec l (a, b) = List.length (filter (fun q => eqbd (fst q) a && eqbd (snd q) b) l).
Proof.
  induction l as [|[x y] l IH]; auto. simpl. destruct (eq_dec (x, y) (a, b)) as [[= -> ->]|N].
  - rewrite !eqbd_refl. simpl. auto.
  - destruct (eqbd x a) eqn:E1, (eqbd y b) eqn:E2; simpl; auto. apply eqbd_true in E1, E2. congruence.
Qed.
Lemma confusionNoLabels_spec leb (known pred : list L) :
  (forall x y, leb x y = true \/ leb y x = true) -> (forall x y z, leb x y = true -> leb y z = true -> leb x z = true) ->
  List.length known = List.length pred -> (forall x, In x pred -> In x known) ->
  exists m, confusionNoLabels leb known pred = Ok (m, npUnique leb known) /\
    isConfusion (npUnique leb known) known pred m.
Proof.
  intros Ht Htr Hlen Hin. unfold confusionNoLabels.
  destruct (npUnique_spec leb Ht Htr known) as (Hn & HI & _). set (ls := npUnique leb known) in *.
  assert (Hacc : forall q, In q (countVotes (combine known pred)) -> In (fst (fst q)) ls /\ In (snd (fst q)) ls).
  { intros [[a b] c] Hq. apply countVotes_In in Hq as [Hq _]. simpl. rewrite !HI. split.
    - eapply in_combine_l; eauto.
    - apply Hin. eapply in_combine_r; eauto. }
  destruct (fillLoop_accepts _ _ Hacc (zeros (List.length ls))) as [m Hm]. rewrite Hm. simpl. exists m. split; auto.
  destruct (countVotes_spec (combine known pred)) as [Hw Hg].
  apply (fillLoop_spec _ Hn) in Hm as ([H1 H2] & _ & H3); [|exact Hw|apply zeros_shaped].
  split; auto. split; auto. intros p k lp lk Hp Hk. specialize (H3 p k lp lk Hp Hk).
  change (nth k (nth p m []) 0) with (getCell m p k). rewrite H3, zeros_cell, Hg.
  rewrite count_filter. destruct (_ =? 0) eqn:E; auto. apply Nat.eqb_eq in E. auto.
Qed.
Lemma confusionNoLabels_reject leb (known pred : list L) :
  (forall x y, leb x y = true \/ leb y x = true) -> (forall x y z, leb x y = true -> leb y z = true -> leb x z = true) ->
  List.length known = List.length pred -> (exists x, In x pred /\ ~ In x known) ->
  exists e, confusionNoLabels leb known pred = Err e.
Proof.
  intros Ht Htr Hlen (x & Hx & Hnx). unfold confusionNoLabels.
  destruct (npUnique_spec leb Ht Htr known) as (Hn & HI & _). set (ls := npUnique leb known) in *.
  destruct (fillLoop _ _ _) as [m|e] eqn:E; [|simpl; eauto]. exfalso.
  destruct (countVotes_spec (combine known pred)) as [Hw Hg].
  apply (fillLoop_spec _ Hn) in E as (_ & H & _); [|exact Hw|apply zeros_shaped].
  apply In_nth_error in Hx as [i Hi].
  destruct (nth_error known i) as [k|] eqn:Ek; [|apply nth_error_None in Ek; apply nth_error_lt in Hi; lia].
  assert (Hc : In (k, x) (combine known pred)).
  { clear - Ek Hi. revert i pred Ek Hi. induction known as [|a known IH]; intros [|i] [|b pred] Ek Hi; simpl in *; try discriminate.
    - left; congruence.
    - right. eapply IH; eauto. }
  specialize (H ((k, x), count_occ eq_dec (combine known pred) (k, x))).
  destruct H as [_ H]; [apply countVotes_In; auto|]. simpl in H. apply HI in H. auto.
Qed.
(** sums of a confusion matrix *)
Lemma list_sum_map_add {A} (f g : A -> nat) l : list_sum (map (fun x => f x + g x) l) = list_sum (map f l) + list_sum (map g l).
Proof. induction l as [|x l IH]; simpl; lia. Qed.
Lemma list_sum_ind (labels : list L) x : NoDup labels -> In x labels ->
  list_sum (map (fun l => if eqbd x l then 1 else 0) labels) = 1.
Proof.
  induction 1 as [|y l Hy Hn IH]; [intros []|intros [->|Hx]].
  - simpl. rewrite eqbd_refl. assert (E : map (fun l => if eqbd x l then 1 else 0) l = map (fun _ => 0) l).
    { apply map_ext_in. intros z Hz. destruct (eqbd x z) eqn:E; auto. apply eqbd_true in E; congruence. }
    rewrite E. clear. induction l; simpl in *; auto.
  - simpl. rewrite IH by auto. destruct (eqbd x y) eqn:E; auto. apply eqbd_true in E; congruence.
Qed.
Lemma list_sum_count (labels : list L) (l : list (L * L)) (g : L -> L * L -> bool) (h : L * L -> L) :
  NoDup labels -> (forall q, In q l -> In (h q) labels) -> (forall x q, g x q = eqbd (h q) x) ->
  list_sum (map (fun x => List.length (filter (g x) l)) labels) = List.length l.
Proof.
  intros Hn Hin Hg. induction l as [|q l IH].
  - simpl. clear. induction labels; simpl; auto.
  - assert (E : map (fun x => List.length (filter (g x) (q :: l))) labels =
                map (fun x => (if eqbd (h q) x then 1 else 0) + List.length (filter (g x) l)) labels).
    { apply map_ext. intros x. simpl. rewrite Hg. destruct (eqbd (h q) x); auto. }
    rewrite E, list_sum_map_add, IH by (intros; apply Hin; right; auto).
    rewrite list_sum_ind; auto. apply Hin; left; auto.
Qed.
Lemma nth_map_seq (l : list nat) : l = map (fun i => nth i l 0) (seq 0 (List.length l)).
Proof.
  apply nth_error_ext. intros i. rewrite nth_error_map_eq, nth_error_seq.
  destruct (i <? List.length l) eqn:E; simpl.
  - apply Nat.ltb_lt in E. rewrite (nth_error_nth' l 0 E). reflexivity.
  - apply Nat.ltb_ge in E. apply nth_error_None. auto.
Qed.
Lemma map_seq_labels {B} (labels : list L) (f : nat -> B) (g : L -> B) :
  (forall i l, nth_error labels i = Some l -> f i = g l) -> map f (seq 0 (List.length labels)) = map g labels.
Proof.
  intros H. apply nth_error_ext. intros i. rewrite !nth_error_map_eq, nth_error_seq.
  destruct (i <? List.length labels) eqn:E; simpl.
  - apply Nat.ltb_lt in E. destruct (nth_error labels i) eqn:E2; [|apply nth_error_None in E2; lia]. simpl. f_equal; auto.
  - apply Nat.ltb_ge in E. apply nth_error_None in E. rewrite E. reflexivity.
Qed.
Lemma confusion_sums (labels known pred : list L) m : NoDup labels -> List.length known = List.length pred ->
  (forall x, In x known \/ In x pred -> In x labels) -> isConfusion labels known pred m ->
  total m = List.length pred /\ trace m = numCorrect known pred.
Proof.
  intros Hn Hlen Hin (H1 & H2 & H3). set (pairs := combine known pred) in *.
  assert (Hpl : List.length pairs = List.length pred) by (unfold pairs; rewrite combine_length; lia).
  assert (HinL : forall q, In q pairs -> In (fst q) labels /\ In (snd q) labels).
  { intros [a b] Hq. split; apply Hin; [left; eapply in_combine_l|right; eapply in_combine_r]; eauto. }
  split.
  - unfold total.
    assert (Er : map (@list_sum) m = map (fun lp => List.length (filter (fun q => eqbd (snd q) lp) pairs)) labels).
    { rewrite <- (map_seq_labels labels (fun p => list_sum (nth p m []))).
      - rewrite <- H1. apply nth_error_ext. intros i. rewrite !nth_error_map_eq, nth_error_seq.
        destruct (i <? List.length m) eqn:E; simpl.
        + apply Nat.ltb_lt in E. rewrite (nth_error_nth' m [] E). reflexivity.
        + apply Nat.ltb_ge in E. apply nth_error_None in E. rewrite E. reflexivity.
      - intros p lp Hp. pose proof (nth_error_lt _ _ Hp) as Lp.
        rewrite (nth_map_seq (nth p m [])). rewrite (H2 (nth p m [])) by (apply nth_In; lia).
        rewrite (map_seq_labels labels _ (fun lk => List.length (filter (fun q => eqbd (fst q) lk && eqbd (snd q) lp) pairs))).
        + set (sub := filter (fun q => eqbd (snd q) lp) pairs).
          assert (Es : map (fun lk => List.length (filter (fun q => eqbd (fst q) lk && eqbd (snd q) lp) pairs)) labels =
                       map (fun lk => List.length (filter (fun q => eqbd (fst q) lk) sub)) labels).
          { apply map_ext. intros lk. unfold sub. f_equal. clear. induction pairs as [|q l IH]; simpl; auto.
            destruct (eqbd (snd q) lp) eqn:E1; simpl; destruct (eqbd (fst q) lk); simpl; rewrite ?IH; auto. }
          rewrite Es. apply (list_sum_count labels sub (fun lk q => eqbd (fst q) lk) fst); auto.
          intros q Hq. unfold sub in Hq. apply filter_In in Hq as [Hq _]. apply HinL; auto.
        + intros k lk Hk. apply H3; auto. }
    rewrite Er. rewrite <- Hpl. apply (list_sum_count labels pairs (fun lp q => eqbd (snd q) lp) snd); auto.
    intros q Hq; apply HinL; auto.
  - unfold trace, numCorrect. fold pairs. rewrite H1.
    rewrite (map_seq_labels labels _ (fun l => List.length (filter (fun q => eqbd (fst q) l && eqbd (snd q) l) pairs)))
      by (intros i l Hl; apply H3; auto).
    set (sub := filter (fun q => eqbd (fst q) (snd q)) pairs).
    assert (Es : map (fun l => List.length (filter (fun q => eqbd (fst q) l && eqbd (snd q) l) pairs)) labels =
                 map (fun l => List.length (filter (fun q => eqbd (fst q) l) sub)) labels).
    { apply map_ext. intros l. unfold sub. f_equal. clear. induction pairs as [|q t IH]; simpl; auto.
      destruct (eqbd (fst q) (snd q)) eqn:E1; simpl.
      - apply eqbd_true in E1. rewrite <- E1. destruct (eqbd (fst q) l); simpl; rewrite ?IH; auto.
      - destruct (eqbd (fst q) l) eqn:E2; simpl; auto. apply eqbd_true in E2. subst l.
        apply eqbd_false in E1. destruct (eqbd (snd q) (fst q)) eqn:E3; auto. apply eqbd_true in E3. congruence. }
    rewrite Es. apply (list_sum_count labels sub (fun l q => eqbd (fst q) l) fst); auto.
    intros q Hq. unfold sub in Hq. apply filter_In in Hq as [Hq _]. apply HinL; auto.
Qed.
End Confusion.
