From Verif Require Import Base TableModel TableSpec TableSortProofs LearnModel LearnSpec LearnProofs LearnMultiProofs CalcModel CalcSpec CalcProofs CalcNormProofs.
From Coq Require Import QArith Qabs Lqa Sorted.
Open Scope list_scope.
Open Scope nat_scope.

Lemma NoDup_map_inj {A B} (f : A -> B) l : (forall a b, In a l -> In b l -> f a = f b -> a = b) -> NoDup l -> NoDup (map f l).
Proof.
  intros Hi Hn. induction Hn as [|x l Hx Hn IH]; simpl; constructor.
  - intros C. apply in_map_iff in C as (y & E & Hy). apply Hx. rewrite (Hi x y); simpl; auto.
  - apply IH. intros a b Ha Hb. apply Hi; simpl; auto.
Qed.
Lemma filter_len_le {A} (p : A -> bool) l : List.length (filter p l) <= List.length l.
Proof. induction l; simpl; auto. destruct (p a); simpl; lia. Qed.
Lemma map_snd_comb {A B} (l : list A) (l' : list B) : List.length l = List.length l' -> map snd (combine l l') = l'.
Proof. revert l'; induction l; destruct l'; simpl; intros; try discriminate; auto. f_equal; auto. Qed.
Lemma down_count {A} (R : A -> A -> Prop) (p : A -> bool) (s : list A) :
  (forall a b, R a b -> p b = true -> p a = true) -> StronglySorted R s ->
  forall k x, nth_error s k = Some x -> (p x = true <-> k < List.length (filter p s)).
Proof.
  intros Hd. induction s as [|a t IH]; intros HS k x Hk; [destruct k; discriminate|].
  inversion HS as [|? ? HS' Hall]; subst. simpl. destruct (p a) eqn:Ea.
  - destruct k as [|k]; simpl in Hk |- *; [injection Hk as <-; split; auto; lia|].
    rewrite (IH HS' k x Hk). lia.
  - assert (Hno : forall y, In y t -> p y = false).
    { intros y Hy. destruct (p y) eqn:Ey; auto. rewrite Forall_forall in Hall. rewrite (Hd a y (Hall y Hy) Ey) in Ea. discriminate. }
    assert (Hf : filter p t = []).
    { clear - Hno. induction t as [|b t IH]; simpl; auto. rewrite (Hno b (or_introl eq_refl)). apply IH. intros y Hy; apply Hno; right; auto. }
    rewrite Hf. simpl. destruct k as [|k]; simpl in Hk.
    + injection Hk as <-. rewrite Ea. split; [discriminate|lia].
    + rewrite (Hno x); [split; [discriminate|lia]|]. eapply nth_error_In; eauto.
Qed.
Lemma pairwise_sorted {A} (R : A -> A -> Prop) (s : list A) :
  (forall a b x y, a < b -> nth_error s a = Some x -> nth_error s b = Some y -> R x y) -> StronglySorted R s.
Proof.
  induction s as [|a t IH]; intros H; constructor.
  - apply IH. intros i j x y Hij Hi Hj. apply (H (S i) (S j)); auto; lia.
  - apply Forall_forall. intros y Hy. apply In_nth_error in Hy as [j Hj]. apply (H 0 (S j)); auto; lia.
Qed.
Definition lessP (v : Q) (x : option Q) : bool := match x with Some y => negb (Qle_bool v y) | None => false end.
Definition leP (v : Q) (x : option Q) : bool := match x with Some y => Qle_bool y v | None => false end.
Lemma Qeq_bool_false a b : Qeq_bool a b = false <-> ~ (a == b)%Q.
Proof.
  split; intros H.
  - intros C. apply Qeq_eq_bool in C. congruence.
  - destruct (Qeq_bool a b) eqn:E; auto. apply Qeq_bool_eq in E. contradiction.
Qed.
Lemma leP_split v x : leP v x = (lessP v x || sameAs v x)%bool.
Proof.
  destruct x as [y|]; simpl; auto. destruct (Qle_bool y v) eqn:E1; destruct (Qle_bool v y) eqn:E2; destruct (Qeq_bool y v) eqn:E3; simpl; auto;
    try apply Qle_bool_iff in E1; try apply Qle_bool_iff in E2; try apply Qle_bool_false in E1; try apply Qle_bool_false in E2;
    try apply Qeq_bool_eq in E3; try apply Qeq_bool_false in E3; try (exfalso; lra); exfalso; apply E3; lra.
Qed.
Lemma less_same_excl v x : lessP v x = true -> sameAs v x = false.
Proof.
  destruct x as [y|]; simpl; auto. intros H. apply negb_true_iff, Qle_bool_false in H. apply Qeq_bool_false. lra.
Qed.
Lemma count_leP v arr : List.length (filter (leP v) arr) = numLess v arr + numEq v arr.
Proof.
  unfold numLess, numEq. induction arr as [|x t IH]; auto. cbn [filter]. rewrite leP_split.
  fold (lessP v x). change (match x with Some y => Qeq_bool y v | None => false end) with (sameAs v x).
  destruct (lessP v x) eqn:E1.
  - rewrite (less_same_excl _ _ E1). simpl. rewrite IH. reflexivity.
  - destruct (sameAs v x); simpl; rewrite IH; unfold lessP; lia.
Qed.
Lemma sorted_positions v s k x : StronglySorted leOpt s -> nth_error s k = Some x ->
  (sameAs v x = true <-> numLess v s <= k < numLess v s + numEq v s).
Proof.
  intros HS Hk. rewrite <- count_leP.
  assert (D1 : forall a b, leOpt a b -> lessP v b = true -> lessP v a = true).
  { intros [a|] [b|]; simpl; intros Hab Hb; try discriminate; try contradiction.
    apply negb_true_iff, Qle_bool_false in Hb. apply negb_true_iff, Qle_bool_false. lra. }
  assert (D2 : forall a b, leOpt a b -> leP v b = true -> leP v a = true).
  { intros [a|] [b|]; simpl; intros Hab Hb; try discriminate; try contradiction.
    apply Qle_bool_iff in Hb. apply Qle_bool_iff. lra. }
  pose proof (down_count leOpt (lessP v) s D1 HS k x Hk) as H1.
  pose proof (down_count leOpt (leP v) s D2 HS k x Hk) as H2.
  change (List.length (filter (lessP v) s)) with (numLess v s) in H1.
  rewrite leP_split in H2. pose proof (less_same_excl v x) as Hex.
  destruct (lessP v x), (sameAs v x); simpl in H2; split; intros H; try discriminate; auto; try (split; [apply Nat.nlt_ge; intros C; apply H1 in C; congruence|apply H2; auto]).
  - specialize (Hex eq_refl). discriminate.
  - destruct H as [H _]. assert (k < numLess v s) by (apply H1; auto). lia.
  - destruct H as [_ H]. apply H2 in H. discriminate.
Qed.
Lemma perm_filter_len {A} (p : A -> bool) l l' : Permutation l l' -> List.length (filter p l) = List.length (filter p l').
Proof. intros H. apply Permutation_length, filter_perm, H. Qed.
Section Perc.
Variable arr : list (option Q).
Variable order : list nat.
Hypothesis Hsort : isArgsort arr order.
Definition sortedArr := map (fun i => nth i arr None) order.
Lemma order_lt k i : nth_error order k = Some i -> i < List.length arr.
Proof.
  intros H. apply nth_error_In in H. eapply Permutation_in in H; [|apply Hsort]. apply in_seq in H. lia.
Qed.
Lemma order_nodup : NoDup order.
Proof. eapply Permutation_NoDup; [apply Permutation_sym, Hsort|apply seq_NoDup]. Qed.
Lemma order_len : List.length order = List.length arr.
Proof. rewrite (Permutation_length (proj1 Hsort)), seq_length. auto. Qed.
Lemma sortedArr_sorted : StronglySorted leOpt sortedArr.
Proof.
  apply pairwise_sorted. intros a b x y Hab Ha Hb. unfold sortedArr in *. rewrite nth_error_map_eq in Ha, Hb.
  destruct (nth_error order a) as [i|] eqn:Ei; [|discriminate]. destruct (nth_error order b) as [j|] eqn:Ej; [|discriminate].
  injection Ha as <-. injection Hb as <-.
  apply (proj2 Hsort a b i j); auto; apply nth_error_nth'; eapply order_lt; eauto.
Qed.
Lemma sortedArr_perm : Permutation sortedArr arr.
Proof.
  unfold sortedArr. eapply Permutation_trans; [apply Permutation_map, (proj1 Hsort)|].
  assert (E : forall (l : list (option Q)), map (fun i => nth i l None) (seq 0 (List.length l)) = l).
  { induction l as [|a l IH]; auto. simpl. f_equal. rewrite <- seq_shift, map_map. exact IH. }
  rewrite E. apply Permutation_refl.
Qed.
Lemma sorted_counts v : numLess v sortedArr = numLess v arr /\ numEq v sortedArr = numEq v arr.
Proof. split; apply perm_filter_len, sortedArr_perm. Qed.
Lemma rank_same v k i x : nth_error order k = Some i -> nth_error arr i = Some x ->
  (sameAs v x = true <-> numLess v arr <= k < numLess v arr + numEq v arr).
Proof.
  intros Hk Hi. destruct (sorted_counts v) as [<- <-]. apply sorted_positions; [apply sortedArr_sorted|].
  unfold sortedArr. rewrite nth_error_map_eq, Hk. simpl. f_equal. apply nth_error_nth. auto.
Qed.
Definition rk (i : nat) : nat := match indexOf i order with Some k => k | None => 0 end.
Lemma rk_nth k i : nth_error order k = Some i -> rk i = k.
Proof. intros H. unfold rk. rewrite (indexOf_nth _ _ _ order_nodup H). auto. Qed.
Lemma nth_rk i : i < List.length arr -> nth_error order (rk i) = Some i.
Proof.
  intros Hi. assert (H : In i order).
  { eapply Permutation_in; [apply Permutation_sym, Hsort|]. apply in_seq. lia. }
  apply In_nth_error in H as [k Hk]. rewrite (rk_nth _ _ Hk). auto.
Qed.
Lemma positionsOf_In v i : In i (positionsOf v arr) <-> exists x, nth_error arr i = Some x /\ sameAs v x = true.
Proof.
  unfold positionsOf. rewrite filter_In, in_seq. split.
  - intros [_ H]. destruct (nth_error arr i) as [x|]; [eauto|discriminate].
  - intros (x & Hx & Hs). rewrite Hx. split; auto. apply nth_error_lt in Hx. lia.
Qed.
Lemma positionsOf_NoDup v : NoDup (positionsOf v arr).
Proof. apply NoDup_filter, seq_NoDup. Qed.
Lemma ranks_of_value v : Permutation (map rk (positionsOf v arr)) (seq (numLess v arr) (numEq v arr)).
Proof.
  apply NoDup_Permutation.
  - apply NoDup_map_inj; [|apply positionsOf_NoDup].
    intros i j Hi Hj E. apply positionsOf_In in Hi as (x & Hx & _), Hj as (y & Hy & _).
    apply nth_error_lt in Hx, Hy. pose proof (nth_rk i Hx) as E1. pose proof (nth_rk j Hy) as E2. congruence.
  - apply seq_NoDup.
  - intros k. rewrite in_map_iff, in_seq. split.
    + intros (i & <- & Hi). apply positionsOf_In in Hi as (x & Hx & Hs).
      eapply rank_same; eauto. apply nth_rk. eapply nth_error_lt; eauto.
    + intros Hk. assert (Hlt : k < List.length order).
      { rewrite order_len. rewrite <- (proj1 (sorted_counts v)), <- (proj2 (sorted_counts v)), <- count_leP in Hk.
        rewrite <- (Permutation_length sortedArr_perm). eapply Nat.lt_le_trans; [apply Hk|]. apply filter_len_le. }
      destruct (nth_error order k) as [i|] eqn:Ei; [|apply nth_error_None in Ei; lia].
      exists i. split; [apply rk_nth; auto|]. apply positionsOf_In.
      pose proof (order_lt _ _ Ei) as Hi. destruct (nth_error arr i) as [x|] eqn:Ex; [|apply nth_error_None in Ex; lia].
      exists x. split; auto. eapply rank_same; eauto.
Qed.
Lemma positionsOf_len v : List.length (positionsOf v arr) = numEq v arr.
Proof. rewrite <- (map_length rk), (Permutation_length (ranks_of_value v)), seq_length. auto. Qed.
Variable eps : Q.
(** the first loop *)
Definition rankStep (percs : list (option Q)) (p : nat * nat) :=
  match nth_error percs (snd p) with
  | Some (Some _) => upd percs (snd p) (Some (qnat (fst p) * eps)%Q)
  | _ => percs
  end.
Lemma rankStep_other percs p j : j <> snd p -> nth_error (rankStep percs p) j = nth_error percs j.
Proof.
  intros Hj. unfold rankStep. destruct (nth_error percs (snd p)) as [[x|]|]; auto. rewrite nth_error_upd_other; auto.
Qed.
Lemma rankLoop_other l : forall percs j, ~ In j (map snd l) -> nth_error (fold_left rankStep l percs) j = nth_error percs j.
Proof.
  induction l as [|p t IH]; intros percs j Hj; simpl; auto. simpl in Hj. rewrite IH by tauto. apply rankStep_other. intros ->. tauto.
Qed.
Lemma rankLoop_spec l : NoDup (map snd l) -> forall percs k i, In (k, i) l ->
  nth_error (fold_left rankStep l percs) i =
  match nth_error percs i with Some (Some _) => Some (Some (qnat k * eps)%Q) | r => r end.
Proof.
  induction l as [|p t IH]; intros Hn percs k i Hin; [destruct Hin|]. simpl in Hn. inversion Hn as [|? ? Hni Hn']; subst.
  simpl. destruct Hin as [->|Hin].
  - cbn [snd] in Hni. rewrite rankLoop_other by auto. unfold rankStep. cbn [fst snd].
    destruct (nth_error percs i) as [[x|]|] eqn:E; auto. rewrite nth_error_upd_same; auto. eapply nth_error_lt; eauto.
  - rewrite (IH Hn' _ k i Hin). rewrite rankStep_other; auto. intros ->. apply Hni. apply (in_map snd) in Hin. auto.
Qed.
Lemma ranks_spec i : i < List.length arr -> nth_error (ranks eps arr order) i =
  match nth_error arr i with Some (Some _) => Some (Some (qnat (rk i) * eps)%Q) | r => r end.
Proof.
  intros Hi. unfold ranks. apply (rankLoop_spec (combine (seq 0 (List.length order)) order)).
  - rewrite map_snd_comb by (rewrite seq_length; auto). apply order_nodup.
  - apply combine_seq_In. apply nth_rk; auto.
Qed.
Lemma ranks_len : List.length (ranks eps arr order) = List.length arr.
Proof.
  unfold ranks. change (fold_left _ ?l arr) with (fold_left rankStep l arr). generalize (combine (seq 0 (List.length order)) order) as l.
  intros l. generalize arr. induction l as [|p t IH]; intros a; simpl; auto. rewrite IH. unfold rankStep.
  destruct (nth_error a (snd p)) as [[x|]|]; auto. apply upd_length.
Qed.
Lemma setAll_spec m pos : forall percs j, nth_error (fold_left (fun p i => upd p i (Some m : option Q)) pos percs) j =
  if in_dec Nat.eq_dec j pos then (if j <? List.length percs then Some (Some m) else None) else nth_error percs j.
Proof.
  induction pos as [|i t IH]; intros percs j; auto. cbn [fold_left]. rewrite IH, upd_length.
  destruct (in_dec Nat.eq_dec j t) as [H|H]; destruct (in_dec Nat.eq_dec j (i :: t)) as [H'|H']; try (exfalso; simpl in H'; tauto); auto.
  - destruct H' as [->|]; [|contradiction]. rewrite nth_error_upd. destruct (Nat.eq_dec j j); [auto|congruence].
  - apply nth_error_upd_other. simpl in H'; tauto.
Qed.
Definition meanRank (v : Q) : Q := ((qnat (numLess v arr) + (qnat (numEq v arr) - 1) / 2) * eps)%Q.
Lemma qsum_seq m : forall a, (qsum (map (fun k => qnat k * eps) (seq a m)) == (qnat m * qnat a + qnat m * (qnat m - 1) / 2) * eps)%Q.
Proof.
  induction m as [|m IH]; intros a.
  - change (qsum (map (fun k => qnat k * eps)%Q (seq a 0))) with 0%Q. change (qnat 0) with 0%Q. field.
  - cbn [seq map]. rewrite qsum_cons, IH, !qnat_S. field.
Qed.
Lemma numEq_pos v : (exists x, In (Some x) arr /\ (x == v)%Q) -> 0 < numEq v arr.
Proof.
  intros (x & Hx & E). rewrite <- positionsOf_len. apply In_nth_error in Hx as [i Hi].
  assert (H : In i (positionsOf v arr)) by (apply positionsOf_In; exists (Some x); split; auto; apply Qeq_eq_bool; auto).
  destruct (positionsOf v arr); [destruct H|simpl; lia].
Qed.
(** one step of the second loop *)
Lemma averageTies_spec percs v : List.length percs = List.length arr ->
  (forall i, In i (positionsOf v arr) -> nth_error percs i = nth_error (ranks eps arr order) i) ->
  0 < numEq v arr ->
  List.length (averageTies arr percs v) = List.length arr /\
  (forall i, ~ In i (positionsOf v arr) -> nth_error (averageTies arr percs v) i = nth_error percs i) /\
  (forall i, In i (positionsOf v arr) -> exists q, nth_error (averageTies arr percs v) i = Some (Some q) /\ (q == meanRank v)%Q).
Proof.
  intros Hlen Hrk Hpos. unfold averageTies.
  assert (Hval : forall i, In i (positionsOf v arr) -> nth_error percs i = Some (Some (qnat (rk i) * eps)%Q)).
  { intros i Hi. rewrite (Hrk i Hi). apply positionsOf_In in Hi as (x & Hx & Hs).
    rewrite ranks_spec by (eapply nth_error_lt; eauto). rewrite Hx. destruct x; [auto|discriminate]. }
  assert (Hsame : flat_map (fun i => match nth_error percs i with Some (Some q) => [q] | _ => [] end) (positionsOf v arr)
                  = map (fun k => qnat k * eps)%Q (map rk (positionsOf v arr))).
  { clear - Hval. induction (positionsOf v arr) as [|i t IH]; auto. simpl. rewrite (Hval i (or_introl eq_refl)). simpl. f_equal.
    apply IH. intros j Hj; apply Hval; right; auto. }
  rewrite Hsame. rewrite map_length, map_length, positionsOf_len.
  assert (Hsum : (qsum (map (fun k => qnat k * eps) (map rk (positionsOf v arr))) == qnat (numEq v arr) * meanRank v)%Q).
  { rewrite (qsum_perm _ _ (Permutation_map _ (ranks_of_value v))), qsum_seq. unfold meanRank. field. }
  destruct (1 <? numEq v arr) eqn:E1.
  - split; [|split].
    + match goal with |- context [Some (?q / ?r)%Q] => generalize (q / r)%Q end. intros q0.
      generalize (positionsOf v arr) as pos. intros pos. rewrite <- Hlen. generalize percs. induction pos as [|i t IH]; intros p; simpl; auto.
      rewrite IH. apply upd_length.
    + intros i Hi. rewrite setAll_spec. destruct (in_dec Nat.eq_dec i (positionsOf v arr)); [contradiction|auto].
    + intros i Hi. rewrite setAll_spec. destruct (in_dec Nat.eq_dec i (positionsOf v arr)); [|contradiction].
      pose proof (Hval i Hi) as Hv. apply nth_error_lt in Hv. apply Nat.ltb_lt in Hv. rewrite Hv. eexists; split; [reflexivity|].
      rewrite Hsum. pose proof (qnat_pos _ Hpos). field. lra.
  - split; [auto|]. split; auto. intros i Hi. rewrite (Hval i Hi). eexists; split; [reflexivity|].
    apply Nat.ltb_ge in E1. assert (En : numEq v arr = 1) by lia.
    pose proof (positionsOf_len v) as Hl. rewrite En in Hl. destruct (positionsOf v arr) as [|i' [|]] eqn:Ep; try discriminate.
    destruct Hi as [->|[]]. pose proof (ranks_of_value v) as Hp. rewrite Ep, En in Hp. simpl in Hp. apply Permutation_length_1 in Hp.
    rewrite Hp. unfold meanRank. rewrite En. change (qnat 1) with 1%Q. field.
Qed.
Definition sepQ (l : list Q) : Prop := ForallOrdPairs (fun a b => ~ (a == b)%Q) l.
Lemma qunique_In l v : In v (qunique l) -> In (Some v) l.
Proof.
  revert v; induction l as [|[x|] t IH]; intros v; simpl; auto.
  - intros [<-|H]; auto. apply filter_In in H as [H _]. auto.
Qed.
Lemma qunique_all l x : In (Some x) l -> exists v, In v (qunique l) /\ (v == x)%Q.
Proof.
  induction l as [|[y|] t IH]; simpl; intros H; [destruct H| |].
  - destruct (Qeq_dec y x) as [E|E]; [exists y; split; auto|].
    destruct H as [[= <-]|H]; [exfalso; apply E; reflexivity|].
    destruct (IH H) as (v & Hv & Ev). exists v. split; auto. right. apply filter_In. split; auto.
    apply negb_true_iff, Qeq_bool_false. intros C. apply E. rewrite <- C. auto.
  - destruct H as [|H]; [discriminate|]. auto.
Qed.
Lemma FOP_filter {A} (R : A -> A -> Prop) p l : ForallOrdPairs R l -> ForallOrdPairs R (filter p l).
Proof.
  induction 1 as [|a l Ha Hl IH]; simpl; [constructor|]. destruct (p a); auto. constructor; auto.
  rewrite Forall_forall in *. intros x Hx. apply filter_In in Hx as [Hx _]. auto.
Qed.
Lemma qunique_sep l : sepQ (qunique l).
Proof.
  induction l as [|[x|] t IH]; simpl; [constructor| |auto]. constructor; [|apply FOP_filter; auto].
  apply Forall_forall. intros y Hy. apply filter_In in Hy as [_ Hy]. apply negb_true_iff, Qeq_bool_false in Hy. intros C; apply Hy; lra.
Qed.
Lemma positions_disjoint v w i : ~ (v == w)%Q -> In i (positionsOf v arr) -> ~ In i (positionsOf w arr).
Proof.
  intros Hne Hv Hw. apply positionsOf_In in Hv as (x & Hx & E1), Hw as (y & Hy & E2). rewrite Hx in Hy; injection Hy as <-.
  destruct x as [x|]; [|discriminate]. simpl in E1, E2. apply Qeq_bool_eq in E1, E2. apply Hne. lra.
Qed.
Lemma ties_loop vs : sepQ vs -> (forall v, In v vs -> In (Some v) arr) -> forall percs,
  List.length percs = List.length arr ->
  (forall v i, In v vs -> In i (positionsOf v arr) -> nth_error percs i = nth_error (ranks eps arr order) i) ->
  let R := fold_left (averageTies arr) vs percs in
  List.length R = List.length arr /\
  (forall i, (forall v, In v vs -> ~ In i (positionsOf v arr)) -> nth_error R i = nth_error percs i) /\
  (forall v i, In v vs -> In i (positionsOf v arr) -> exists q, nth_error R i = Some (Some q) /\ (q == meanRank v)%Q).
Proof.
  induction vs as [|v t IH]; intros Hsep Hin percs Hlen Hrk; simpl.
  - split; auto. split; auto. intros v i [].
  - inversion Hsep as [|? ? Hv Ht]; subst. rewrite Forall_forall in Hv.
    destruct (averageTies_spec percs v Hlen) as (A1 & A2 & A3).
    { intros i Hi. apply (Hrk v); simpl; auto. }
    { apply numEq_pos. exists v. split; [apply Hin; left; auto|reflexivity]. }
    destruct (IH Ht (fun w Hw => Hin w (or_intror Hw)) (averageTies arr percs v) A1) as (B1 & B2 & B3).
    { intros w i Hw Hi. rewrite A2; [apply (Hrk w); simpl; auto|].
      apply (positions_disjoint w v); auto. intros C. apply (Hv w Hw). lra. }
    split; auto. split.
    + intros i Hi. rewrite B2; [apply A2; auto|]. intros w Hw; apply Hi; auto.
    + intros w i [<-|Hw] Hi; [|apply (B3 w i Hw Hi)].
      rewrite B2; [apply A3; auto|]. intros w Hw. apply (positions_disjoint v w); auto.
Qed.
End Perc.
Lemma numLess_eq a b arr : (a == b)%Q -> numLess a arr = numLess b arr.
Proof.
  intros E. unfold numLess. f_equal. apply filter_ext. intros [y|]; auto. f_equal.
  destruct (Qle_bool a y) eqn:E1; destruct (Qle_bool b y) eqn:E2; auto;
    try apply Qle_bool_iff in E1; try apply Qle_bool_iff in E2; try apply Qle_bool_false in E1; try apply Qle_bool_false in E2; exfalso; lra.
Qed.
Lemma numEq_eq a b arr : (a == b)%Q -> numEq a arr = numEq b arr.
Proof.
  intros E. unfold numEq. f_equal. apply filter_ext. intros [y|]; auto.
  destruct (Qeq_bool y a) eqn:E1; destruct (Qeq_bool y b) eqn:E2; auto;
    try apply Qeq_bool_eq in E1; try apply Qeq_bool_eq in E2; try apply Qeq_bool_false in E1; try apply Qeq_bool_false in E2; exfalso; (apply E1 || apply E2); lra.
Qed.
Lemma percentiles_general arr order eps : isArgsort arr order -> epsilonOf arr = Some eps ->
  exists P, percentiles arr order = Some P /\ List.length P = List.length arr /\
   (forall i, nth_error arr i = Some None -> nth_error P i = Some None) /\
   (forall i x, nth_error arr i = Some (Some x) -> exists q, nth_error P i = Some (Some q) /\ (q == meanRank arr eps x)%Q).
Proof.
  intros Hs He. unfold percentiles. rewrite He. eexists. split; [reflexivity|].
  destruct (ties_loop arr order Hs eps (qunique arr) (qunique_sep arr) (qunique_In arr) (ranks eps arr order)) as (B1 & B2 & B3); auto.
  { apply ranks_len. }
  split; auto. split.
  - intros i Hi. rewrite B2.
    + rewrite ranks_spec; auto; [rewrite Hi; auto|eapply nth_error_lt; eauto].
    + intros v _ C. apply positionsOf_In in C as (x & Hx & Hsx). rewrite Hi in Hx. injection Hx as <-. discriminate.
  - intros i x Hi. destruct (qunique_all arr x (nth_error_In _ _ Hi)) as (v & Hv & E).
    destruct (B3 v i Hv) as (q & Hq & Eq).
    { apply positionsOf_In. exists (Some x). split; auto. apply Qeq_eq_bool. lra. }
    exists q. split; auto. rewrite Eq. unfold meanRank. rewrite (numLess_eq v x), (numEq_eq v x) by auto. reflexivity.
Qed.
