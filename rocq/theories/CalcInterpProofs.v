From Verif Require Import Base TableModel TableSpec TableSortProofs LearnModel LearnSpec LearnProofs LearnMultiProofs CalcModel CalcSpec CalcProofs CalcNormProofs CalcPercProofs.
From Coq Require Import QArith Qabs Lqa Sorted.
Open Scope list_scope.
Open Scope nat_scope.

Ltac halves := try lra; unfold Qdiv; change (/ 2)%Q with (1 # 2)%Q; lra.
Lemma filter_count_le {A} (p q : A -> bool) l : (forall x, In x l -> p x = true -> q x = true) ->
  List.length (filter p l) <= List.length (filter q l).
Proof.
  induction l as [|a t IH]; intros H; simpl; auto. assert (IH' := IH (fun x Hx => H x (or_intror Hx))).
  specialize (H a (or_introl eq_refl)). destruct (p a), (q a); simpl; try lia; specialize (H eq_refl); discriminate.
Qed.
Lemma missing_present arr : numMissing arr + numPresent arr = List.length arr.
Proof. unfold numMissing, numPresent. induction arr as [|[x|] t IH]; simpl; auto; unfold isNan in *; simpl in *; lia. Qed.
Lemma less_eq_present v arr : numLess v arr + numEq v arr <= numPresent arr.
Proof. rewrite <- count_leP. apply filter_count_le. intros [x|] _; simpl; auto. Qed.
Lemma less_eq_less a b arr : (a < b)%Q -> numLess a arr + numEq a arr <= numLess b arr.
Proof.
  intros H. rewrite <- count_leP. apply filter_count_le. intros [x|] _; simpl; auto. intros E. apply Qle_bool_iff in E.
  apply negb_true_iff, Qle_bool_false. lra.
Qed.
Lemma numEq_present v arr : In (Some v) arr -> 1 <= numEq v arr.
Proof.
  intros H. unfold numEq. induction arr as [|x t IH]; [destruct H|]. simpl. destruct H as [->|H].
  - rewrite Qeq_bool_refl. simpl. lia.
  - specialize (IH H). destruct x as [y|]; simpl; auto. destruct (Qeq_bool y v); simpl; lia.
Qed.
Lemma percentiles_spec arr order : isArgsort arr order -> numMissing arr <= 1 -> 2 <= numPresent arr ->
  exists P, percentiles arr order = Some P /\ List.length P = List.length arr /\
   (forall i, nth_error arr i = Some None -> nth_error P i = Some None) /\
   (forall i x, nth_error arr i = Some (Some x) -> exists q, nth_error P i = Some (Some q) /\ (q == percentileOf arr x)%Q).
Proof.
  intros Hs Hm Hp. pose proof (missing_present arr) as Hmp.
  assert (He : exists eps, epsilonOf arr = Some eps /\ (eps == 1 / (qnat (numPresent arr) - 1))%Q).
  { unfold epsilonOf.
    assert (Ed : (if existsb isNan arr then Z.of_nat (List.length arr) - 2 else Z.of_nat (List.length arr) - 1)%Z = (Z.of_nat (numPresent arr) - 1)%Z).
    { destruct (existsb isNan arr) eqn:E.
      - assert (1 <= numMissing arr); [|lia]. apply existsb_exists in E as (x & Hx & E). unfold numMissing.
        assert (In x (filter isNan arr)) by (apply filter_In; auto). destruct (filter isNan arr); [contradiction|simpl; lia].
      - assert (numMissing arr = 0); [|lia]. unfold numMissing. destruct (filter isNan arr) as [|x l] eqn:Ef; auto.
        assert (In x (filter isNan arr)) by (rewrite Ef; left; auto). apply filter_In in H as [Hx Hn].
        assert (existsb isNan arr = true) by (apply existsb_exists; eauto). congruence. }
    rewrite Ed. replace (Z.of_nat (numPresent arr) - 1 =? 0)%Z with false by (symmetry; apply Z.eqb_neq; lia).
    eexists. split; [reflexivity|]. unfold qnat. unfold Z.sub. rewrite inject_Z_plus. change (inject_Z (-(1))) with (-(1))%Q. reflexivity. }
  destruct He as (eps & He & Ee). destruct (percentiles_general arr order eps Hs He) as (P & H1 & H2 & H3 & H4).
  exists P. repeat (split; auto). intros i x Hi. destruct (H4 i x Hi) as (q & Hq & Eq). exists q. split; auto.
  rewrite Eq. unfold meanRank, percentileOf. rewrite Ee. pose proof (qnat_lt 1 (numPresent arr) ltac:(lia)) as H0. change (qnat 1) with 1%Q in H0.
  field. lra.
Qed.
Lemma percentile_range arr v : In (Some v) arr -> 2 <= numPresent arr -> (0 <= percentileOf arr v <= 1)%Q.
Proof.
  intros Hv Hp. unfold percentileOf. pose proof (qnat_lt 1 _ ltac:(apply Hp)) as H0. change (qnat 1) with 1%Q in H0.
  pose proof (qnat_le _ _ (numEq_present v arr Hv)) as H1. change (qnat 1) with 1%Q in H1. pose proof (qnat_nonneg (numLess v arr)).
  pose proof (qnat_le _ _ (less_eq_present v arr)) as H2. rewrite qnat_plus in H2.
  split; [apply Qle_shift_div_l|apply Qle_shift_div_r]; halves.
Qed.
Lemma percentile_lt arr a b : In (Some a) arr -> In (Some b) arr -> 2 <= numPresent arr -> (a < b)%Q -> (percentileOf arr a < percentileOf arr b)%Q.
Proof.
  intros Ha Hb Hp Hab. unfold percentileOf. pose proof (qnat_lt 1 _ ltac:(apply Hp)) as H0. change (qnat 1) with 1%Q in H0.
  pose proof (qnat_le _ _ (numEq_present a arr Ha)) as H1. change (qnat 1) with 1%Q in H1.
  pose proof (qnat_le _ _ (numEq_present b arr Hb)) as H1'. change (qnat 1) with 1%Q in H1'.
  pose proof (qnat_le _ _ (less_eq_less a b arr Hab)) as H2. rewrite qnat_plus in H2.
  apply Qmult_lt_r; [|halves]. apply Qinv_lt_0_compat. lra.
Qed.
Lemma percentile_eq arr a b : (a == b)%Q -> (percentileOf arr a == percentileOf arr b)%Q.
Proof. intros E. unfold percentileOf. rewrite (numLess_eq a b), (numEq_eq a b) by auto. reflexivity. Qed.
Lemma percentile_le arr a b : In (Some a) arr -> In (Some b) arr -> 2 <= numPresent arr -> (a <= b)%Q -> (percentileOf arr a <= percentileOf arr b)%Q.
Proof.
  intros Ha Hb Hp Hab. destruct (Qlt_le_dec a b) as [H|H]; [apply Qlt_le_weak, percentile_lt; auto|].
  rewrite (percentile_eq arr a b) by lra. lra.
Qed.
Lemma percentile_min arr v : In (Some v) arr -> 2 <= numPresent arr -> (forall x, In (Some x) arr -> (v <= x)%Q) ->
  numEq v arr = 1 -> (percentileOf arr v == 0)%Q.
Proof.
  intros Hv Hp Hmin H1. unfold percentileOf. assert (H0 : numLess v arr = 0).
  { unfold numLess. apply length_zero_iff_nil. destruct (filter _ arr) as [|x l] eqn:E; auto.
    assert (Hx : In x (x :: l)) by (left; auto). rewrite <- E in Hx. apply filter_In in Hx as [Hx Hb]. destruct x as [x|]; [|discriminate].
    apply negb_true_iff, Qle_bool_false in Hb. specialize (Hmin x Hx). lra. }
  rewrite H0, H1. pose proof (qnat_lt 1 _ ltac:(apply Hp)) as H2. change (qnat 1) with 1%Q in *. change (qnat 0) with 0%Q. field. lra.
Qed.
Lemma percentile_max arr v : In (Some v) arr -> 2 <= numPresent arr -> (forall x, In (Some x) arr -> (x <= v)%Q) ->
  numEq v arr = 1 -> (percentileOf arr v == 1)%Q.
Proof.
  intros Hv Hp Hmax H1. unfold percentileOf. assert (H0 : numLess v arr + numEq v arr = numPresent arr).
  { rewrite <- count_leP. unfold numPresent. f_equal. apply filter_ext_in. intros [x|] Hx; simpl; auto. apply Qle_bool_iff. auto. }
  rewrite H1 in H0 |- *. rewrite <- H0, qnat_plus. pose proof (qnat_lt 1 _ ltac:(apply Hp)) as H2. rewrite <- H0, qnat_plus in H2. change (qnat 1) with 1%Q in *. field. lra.
Qed.

(** ** elements of values2 *)
Section Interp.
Variable vals : list Q.
Variable order : list nat.
Let arr := map (@Some Q) vals.
Hypothesis Hsort : isArgsort arr order.
Hypothesis Hlen : 2 <= List.length vals.
Let S := map (fun i => nth i vals 0%Q) order.
Let pO := percentileOf arr.
Lemma numPresent_all : numPresent arr = List.length vals.
Proof. unfold arr. clear. unfold numPresent. induction vals; simpl; auto. Qed.
Lemma numMissing_all : numMissing arr = 0.
Proof. unfold arr. clear. unfold numMissing. induction vals; simpl; auto. Qed.
Lemma In_arr x : In x vals -> In (Some x) arr.
Proof. intros H. unfold arr. apply in_map. auto. Qed.
Lemma arr_In x : In (Some x) arr -> In x vals.
Proof. unfold arr. intros H. apply in_map_iff in H as (y & [= ->] & H). auto. Qed.
Lemma pO_le a b : In a vals -> In b vals -> (a <= b)%Q -> (pO a <= pO b)%Q.
Proof. intros Ha Hb. apply percentile_le; try (apply In_arr; auto). rewrite numPresent_all; auto. Qed.
Lemma pO_eq a b : (a == b)%Q -> (pO a == pO b)%Q.
Proof. apply percentile_eq. Qed.
Lemma pO_range a : In a vals -> (0 <= pO a <= 1)%Q.
Proof. intros Ha. apply percentile_range; [apply In_arr; auto|rewrite numPresent_all; auto]. Qed.
Lemma S_In x : In x S <-> In x vals.
Proof.
  assert (HP : Permutation S vals).
  { unfold S. eapply Permutation_trans; [apply Permutation_map, (proj1 Hsort)|]. unfold arr. rewrite map_length.
    assert (E : forall (l : list Q), map (fun i => nth i l 0%Q) (seq 0 (List.length l)) = l).
    { induction l as [|a l IH]; auto. simpl. f_equal. rewrite <- seq_shift, map_map. exact IH. }
    rewrite E. apply Permutation_refl. }
  split; apply Permutation_in; auto. apply Permutation_sym; auto.
Qed.
Lemma S_sorted : StronglySorted Qle S.
Proof.
  apply pairwise_sorted. intros a b x y Hab Ha Hb. unfold S in *. rewrite nth_error_map_eq in Ha, Hb.
  destruct (nth_error order a) as [i|] eqn:Ei; [|discriminate]. destruct (nth_error order b) as [j|] eqn:Ej; [|discriminate].
  injection Ha as <-. injection Hb as <-.
  pose proof (order_lt _ _ Hsort _ _ Ei) as Li. pose proof (order_lt _ _ Hsort _ _ Ej) as Lj.
  unfold arr in Li, Lj. rewrite map_length in Li, Lj.
  apply (proj2 Hsort a b i j (Some (nth i vals 0%Q)) (Some (nth j vals 0%Q)) Hab Ei Ej); unfold arr;
    rewrite nth_error_map_eq; [rewrite (nth_error_nth' vals 0%Q Li)|rewrite (nth_error_nth' vals 0%Q Lj)]; reflexivity.
Qed.
Variable P : list (option Q).
Hypothesis HP : forall i x, nth_error arr i = Some (Some x) -> exists q, nth_error P i = Some (Some q) /\ (q == pO x)%Q.
Let SP := map (fun i => match nth_error P i with Some (Some q) => q | _ => 0%Q end) order.
Lemma SP_nth k x : nth_error S k = Some x -> exists q, nth_error SP k = Some q /\ (q == pO x)%Q.
Proof.
  unfold S, SP. rewrite !nth_error_map_eq. destruct (nth_error order k) as [i|] eqn:Ei; [|discriminate]. simpl. intros [= <-].
  pose proof (order_lt _ _ Hsort _ _ Ei) as Li. unfold arr in Li. rewrite map_length in Li.
  destruct (HP i (nth i vals 0%Q)) as (q & Hq & E).
  { unfold arr. rewrite nth_error_map_eq. rewrite (nth_error_nth' vals 0%Q Li). reflexivity. }
  rewrite Hq. eauto.
Qed.
Variable mn mx : Q.
Hypothesis Hmn : In mn vals /\ forall x, In x vals -> (mn <= x)%Q.
Hypothesis Hmx : In mx vals /\ forall x, In x vals -> (x <= mx)%Q.
(** the two neighbours found by the binary search *)
Lemma interp_inside v : (mn < v)%Q -> (v < mx)%Q -> exists a b q,
  In a vals /\ In b vals /\ (a < v)%Q /\ (v <= b)%Q /\ (forall x, In x vals -> (x <= a)%Q \/ (b <= x)%Q) /\
  interpPercentile mn mx S SP v = Some q /\
  (((v == b)%Q /\ (q == pO b)%Q) \/ ((v < b)%Q /\ (q == pO a + (pO b - pO a) * ((v - a) / (b - a)))%Q)).
Proof.
  intros H1 H2. unfold interpPercentile.
  replace (Qeq_bool v mn) with false by (symmetry; apply Qeq_bool_false; lra).
  replace (Qle_bool v mn) with false by (symmetry; apply Qle_bool_false; lra).
  replace (Qle_bool mx v) with false by (symmetry; apply Qle_bool_false; lra). cbn [andb].
  assert (D : forall a b, (a <= b)%Q -> negb (Qle_bool v b) = true -> negb (Qle_bool v a) = true).
  { intros a b Hab Hb. apply negb_true_iff, Qle_bool_false in Hb. apply negb_true_iff, Qle_bool_false. lra. }
  pose proof (fun k x => down_count Qle (fun x => negb (Qle_bool v x)) S D S_sorted k x) as Hd. cbv beta in Hd.
  fold (searchsorted S v) in Hd. set (idx := searchsorted S v) in *.
  assert (Hd' : forall k x, nth_error S k = Some x -> (x < v)%Q <-> k < idx).
  { intros k x Hk. rewrite <- (Hd k x Hk). rewrite negb_true_iff, Qle_bool_false. reflexivity. }
  assert (Hi0 : 1 <= idx).
  { destruct Hmn as [I _]. apply S_In, In_nth_error in I as [k Hk]. apply (Hd' k mn Hk) in H1. lia. }
  assert (Hin : idx < List.length S).
  { destruct Hmx as [I _]. apply S_In, In_nth_error in I as [k Hk]. pose proof (nth_error_lt _ _ Hk).
    destruct (Nat.lt_ge_cases k idx) as [C|C]; [|lia]. apply (Hd' k mx Hk) in C. lra. }
  destruct (nth_error S (idx - 1)) as [a|] eqn:Ea; [|apply nth_error_None in Ea; lia].
  destruct (nth_error S idx) as [b|] eqn:Eb; [|apply nth_error_None in Eb; lia].
  destruct (SP_nth _ _ Ea) as (lp & Elp & Qlp). destruct (SP_nth _ _ Eb) as (rp & Erp & Qrp). rewrite Elp, Erp.
  assert (Hav : (a < v)%Q) by (apply (Hd' _ _ Ea); lia).
  assert (Hvb : (v <= b)%Q) by (apply Qnot_lt_le; intros C; apply (Hd' _ _ Eb) in C; lia).
  assert (Hgap : forall x, In x vals -> (x <= a)%Q \/ (b <= x)%Q).
  { intros x Hx. apply S_In, In_nth_error in Hx as [k Hk]. destruct (Nat.lt_ge_cases k idx) as [C|C].
    - left. destruct (Nat.eq_dec k (idx - 1)) as [->|Hne]; [rewrite Ea in Hk; injection Hk as ->; lra|].
      eapply (StronglySorted_nth_lt _ _ S_sorted k (idx - 1)); eauto; lia.
    - right. destruct (Nat.eq_dec k idx) as [->|Hne]; [rewrite Eb in Hk; injection Hk as ->; lra|].
      eapply (StronglySorted_nth_lt _ _ S_sorted idx k); eauto; lia. }
  apply nth_error_In in Ea as Ia. apply nth_error_In in Eb as Ib. apply S_In in Ia, Ib.
  destruct (Qeq_bool v b) eqn:Evb.
  - apply Qeq_bool_eq in Evb. exists a, b, rp. repeat (split; auto).
  - apply Qeq_bool_false in Evb. exists a, b. eexists. do 5 (split; auto). split; [reflexivity|]. right. split; [lra|].
    rewrite Qlp, Qrp. reflexivity.
Qed.
Lemma interp_value v w : In w vals -> (w == v)%Q -> (mn < v)%Q -> (v < mx)%Q ->
  exists q, interpPercentile mn mx S SP v = Some q /\ (q == pO v)%Q.
Proof.
  intros Hw E H1 H2. destruct (interp_inside v H1 H2) as (a & b & q & Ia & Ib & Hav & Hvb & Hgap & Hq & Hc). exists q. split; auto.
  destruct (Hgap w Hw) as [C|C]; [lra|]. destruct Hc as [[E1 E2]|[E1 _]]; [|lra]. rewrite E2. apply pO_eq. lra.
Qed.
Lemma interp_between v a b : In a vals -> In b vals -> (a < v)%Q -> (v < b)%Q ->
  (forall x, In x vals -> (x <= a)%Q \/ (b <= x)%Q) ->
  exists q, interpPercentile mn mx S SP v = Some q /\ (q == pO a + (pO b - pO a) * ((v - a) / (b - a)))%Q.
Proof.
  intros Ia Ib Hav Hvb Hgap. pose proof (proj2 Hmn a Ia). pose proof (proj2 Hmx b Ib).
  destruct (interp_inside v) as (a' & b' & q & Ia' & Ib' & Hav' & Hvb' & Hgap' & Hq & Hc); try lra. exists q. split; auto.
  assert (Ea : (a == a')%Q) by (destruct (Hgap a' Ia'), (Hgap' a Ia); lra).
  assert (Eb : (b == b')%Q) by (destruct (Hgap b' Ib'), (Hgap' b Ib); lra).
  destruct Hc as [[E1 _]|[_ E]]; [lra|]. rewrite E, (pO_eq a a' Ea), (pO_eq b b' Eb), Ea, Eb. reflexivity.
Qed.
Lemma frac_range a b v : (a < v)%Q -> (v < b)%Q -> (0 <= (v - a) / (b - a) <= 1)%Q.
Proof. intros H1 H2. split; [apply Qle_shift_div_l|apply Qle_shift_div_r]; lra. Qed.
Lemma interp_bounds v q : (mn < v)%Q -> (v < mx)%Q -> interpPercentile mn mx S SP v = Some q ->
  (forall x, In x vals -> (x <= v)%Q -> (pO x <= q)%Q) /\ (forall x, In x vals -> (v <= x)%Q -> (q <= pO x)%Q) /\ (0 <= q <= 1)%Q.
Proof.
  intros H1 H2 Hq. destruct (interp_inside v H1 H2) as (a & b & q' & Ia & Ib & Hav & Hvb & Hgap & Hq' & Hc).
  rewrite Hq in Hq'; injection Hq' as <-. pose proof (pO_range a Ia) as Ra. pose proof (pO_range b Ib) as Rb.
  assert (Hab : (pO a <= q <= pO b)%Q).
  { assert (Hm : (pO a <= pO b)%Q) by (apply pO_le; auto; lra). destruct Hc as [[_ E]|[Hlt E]]; [rewrite E; lra|].
    rewrite E. destruct (frac_range a b v Hav Hlt) as [F1 F2]. revert F1 F2. generalize ((v - a) / (b - a))%Q. intros f F1 F2.
    revert Hm. generalize (pO a) (pO b). intros pa pb Hm. nra. }
  split; [|split; [|lra]].
  - intros x Hx Hxv. destruct (Hgap x Hx) as [C|C].
    + pose proof (pO_le x a Hx Ia C). lra.
    + destruct Hc as [[Ev E]|[Hlt E]]; [|lra]. pose proof (pO_le x b Hx Ib). assert ((x <= b)%Q) by lra. rewrite E. auto.
  - intros x Hx Hxv. destruct (Hgap x Hx) as [C|C]; [lra|]. pose proof (pO_le b x Ib Hx C). lra.
Qed.
Lemma interp_total v : exists q, interpPercentile mn mx S SP v = Some q /\ (0 <= q <= 1)%Q /\
  ((v < mn)%Q -> q = 0%Q) /\ ((mx < v)%Q -> q = 1%Q).
Proof.
  assert (Hle : (mn <= mx)%Q) by (apply Hmx, Hmn).
  destruct (Qlt_le_dec mn v) as [H1|H1].
  - destruct (Qlt_le_dec v mx) as [H2|H2].
    + destruct (interp_inside v H1 H2) as (a & b & q & _ & _ & _ & _ & _ & Hq & _). exists q.
      destruct (interp_bounds v q H1 H2 Hq) as (_ & _ & R). split; auto. split; auto. split; intros C; exfalso; lra.
    + exists 1%Q. unfold interpPercentile. replace (Qeq_bool v mn) with false by (symmetry; apply Qeq_bool_false; lra).
      replace (Qle_bool v mn) with false by (symmetry; apply Qle_bool_false; lra).
      apply Qle_bool_iff in H2. rewrite H2. simpl. split; auto. split; [lra|]. split; auto. intros C; exfalso; lra.
  - unfold interpPercentile. destruct (Qeq_bool v mn && Qeq_bool mn mx)%bool eqn:E.
    + apply andb_true_iff in E as [E1 E2]. apply Qeq_bool_eq in E1, E2. exists (1 # 2)%Q. split; auto. split; [lra|]. split; intros C; exfalso; lra.
    + replace (Qle_bool v mn) with true by (symmetry; apply Qle_bool_iff; auto). exists 0%Q. split; auto. split; [lra|]. split; auto. intros C; exfalso; lra.
Qed.
Lemma interp_mono v w qv qw : (v <= w)%Q -> interpPercentile mn mx S SP v = Some qv -> interpPercentile mn mx S SP w = Some qw -> (qv <= qw)%Q.
Proof.
  intros Hvw Hv Hw. assert (Hle : (mn <= mx)%Q) by (apply Hmx, Hmn).
  destruct (interp_total v) as (qv' & Ev & Rv & V0 & V1). rewrite Hv in Ev; injection Ev as <-.
  destruct (interp_total w) as (qw' & Ew & Rw & W0 & W1). rewrite Hw in Ew; injection Ew as <-.
  destruct (Qlt_le_dec mn v) as [H1|H1].
  - destruct (Qlt_le_dec w mx) as [H2|H2].
    + destruct (interp_inside v) as (a & b & q & Ia & Ib & Hav & Hvb & Hgap & Hq & Hc); try lra.
      rewrite Hv in Hq; injection Hq as <-.
      destruct (Qlt_le_dec w b) as [H3|H3].
      * destruct Hc as [[E _]|[Hlt E]]; [lra|]. assert (Haw : (a < w)%Q) by lra.
        destruct (interp_between w a b Ia Ib Haw H3 Hgap) as (q & Hq & E'). rewrite Hw in Hq; injection Hq as <-.
        rewrite E, E'. assert (Hm : (pO a <= pO b)%Q) by (apply pO_le; auto; lra).
        assert (F : ((v - a) / (b - a) <= (w - a) / (b - a))%Q).
        { apply Qmult_le_compat_r; [lra|]. apply Qlt_le_weak, Qinv_lt_0_compat. lra. }
        revert F. generalize ((v - a) / (b - a))%Q ((w - a) / (b - a))%Q. revert Hm. generalize (pO a) (pO b). intros pa pb Hm f g F. nra.
      * destruct (interp_bounds v qv) as (_ & X1 & _); auto; [lra|]. specialize (X1 b Ib Hvb).
        destruct (interp_bounds w qw) as (X2 & _ & _); auto; [lra|]. specialize (X2 b Ib H3). lra.
    + (* w above everything *)
      assert (Ew1 : qw = 1%Q); [|rewrite Ew1; lra]. unfold interpPercentile in Hw.
      replace (Qeq_bool w mn) with false in Hw by (symmetry; apply Qeq_bool_false; lra).
      replace (Qle_bool w mn) with false in Hw by (symmetry; apply Qle_bool_false; lra).
      apply Qle_bool_iff in H2. rewrite H2 in Hw. simpl in Hw. congruence.
  - unfold interpPercentile in Hv. destruct (Qeq_bool v mn && Qeq_bool mn mx)%bool eqn:E.
    + apply andb_true_iff in E as [E1 E2]. apply Qeq_bool_eq in E1, E2. injection Hv as <-.
      unfold interpPercentile in Hw. destruct (Qeq_bool w mn && Qeq_bool mn mx)%bool eqn:E'; [injection Hw as <-; lra|].
      apply Qeq_eq_bool in E2 as E2'. rewrite E2', andb_true_r in E'. apply Qeq_bool_false in E'.
      replace (Qle_bool w mn) with false in Hw by (symmetry; apply Qle_bool_false; apply Qnot_le_lt; intros C; apply E'; lra).
      replace (Qle_bool mx w) with true in Hw by (symmetry; apply Qle_bool_iff; lra). injection Hw as <-. lra.
    + apply Qle_bool_iff in H1. rewrite H1 in Hv. injection Hv as <-. lra.
Qed.
End Interp.
Lemma percentile2_spec vals order : isArgsort (map Some vals) order -> 2 <= List.length vals ->
  exists mn mx f, In mn vals /\ In mx vals /\ (forall x, In x vals -> (mn <= x <= mx)%Q) /\
   (forall v, percentile2 vals order v = Some (f v)) /\
   (forall v, (0 <= f v <= 1)%Q) /\ (forall v w, (v <= w)%Q -> (f v <= f w)%Q) /\
   (forall v, (v < mn)%Q -> f v = 0%Q) /\ (forall v, (mx < v)%Q -> f v = 1%Q) /\
   (forall v, In v vals -> (mn < v < mx)%Q -> (f v == percentileOf (map Some vals) v)%Q) /\
   (forall v a b, In a vals -> In b vals -> (a < v < b)%Q -> (forall x, In x vals -> (x <= a)%Q \/ (b <= x)%Q) ->
     (f v == percentileOf (map Some vals) a +
             (percentileOf (map Some vals) b - percentileOf (map Some vals) a) * ((v - a) / (b - a)))%Q).
Proof.
  intros Hs Hl. destruct (qmin_some vals) as [mn Hmn]; [destruct vals; [simpl in Hl; lia|discriminate]|].
  destruct (qmax_some vals) as [mx Hmx]; [destruct vals; [simpl in Hl; lia|discriminate]|].
  destruct (qmin_spec _ _ Hmn) as [I1 B1]. destruct (qmax_spec _ _ Hmx) as [I2 B2].
  destruct (percentiles_spec (map Some vals) order Hs) as (P & HP & _ & _ & HP').
  { rewrite numMissing_all; lia. } { rewrite numPresent_all; lia. }
  pose proof (interp_total vals order Hs Hl P HP' mn mx (conj I1 B1) (conj I2 B2)) as HT.
  set (g := interpPercentile mn mx (map (fun i => nth i vals 0%Q) order) (map (fun i => match nth_error P i with Some (Some q) => q | _ => 0%Q end) order)) in *.
  assert (Hg : forall v, percentile2 vals order v = g v).
  { intros v. unfold percentile2. rewrite HP, Hmn, Hmx. reflexivity. }
  exists mn, mx, (fun v => match g v with Some q => q | None => 0%Q end).
  split; auto. split; auto. split; [split; auto|]. split; [intros v; rewrite Hg; destruct (HT v) as (q & -> & _); reflexivity|].
  split; [intros v; destruct (HT v) as (q & -> & R & _); exact R|].
  split. { intros v w Hvw. destruct (HT v) as (q & Ev & _). destruct (HT w) as (q' & Ew & _). rewrite Ev, Ew.
    eapply (interp_mono vals order Hs Hl P HP' mn mx (conj I1 B1) (conj I2 B2)); eauto. }
  split; [intros v Hv; destruct (HT v) as (q & -> & _ & H & _); auto|].
  split; [intros v Hv; destruct (HT v) as (q & -> & _ & _ & H); auto|].
  split.
  - intros v Hv [H1 H2]. destruct (interp_value vals order Hs Hl P HP' mn mx (conj I1 B1) (conj I2 B2) v v Hv) as (q & Hq & E); auto; [reflexivity|].
    fold g in Hq. rewrite Hq. exact E.
  - intros v a b Ia Ib [H1 H2] Hgap. destruct (interp_between vals order Hs Hl P HP' mn mx (conj I1 B1) (conj I2 B2) v a b) as (q & Hq & E); auto.
    fold g in Hq. rewrite Hq. exact E.
Qed.
