(** The points of a merge of Sparse objects are those of the union merge of
    Matrix objects, cut to the features of the result (C75). *)
From Verif Require Import Base NamesModel NamesSpec NamesProofs TableModel TableSpec TableProofs TableOps MatchModel MatchSpec MatchProofs
  MergeModel MergeSpec MergeLoopProofs MergeColsProofs MergeMatModel MergeMatSpec SparseModel SparseSpec SparseReshapeModel SparseReshapeSpec SparseReshapeProofs CopyModel MergeSparseModel MergeSparseSpec.
From Verif Require MergeMatProofs SparseReshapeCollapse.
From Coq Require Import List. Import ListNotations.
Open Scope nat_scope.
Notation kval := MergeMatProofs.kval.

(** the row without some of the zeros at its end *)
Definition shownAs (pt full : list pval) : Prop := exists z, full = pt ++ repeat (PInt 0) z /\ (z = 0 \/ pt <> []).
Lemma shown_same l : shownAs l l.
Proof. exists 0. cbn. rewrite app_nil_r. auto. Qed.
Lemma Forall2_shown_same ls : Forall2 shownAs ls ls.
Proof. induction ls; constructor; auto using shown_same. Qed.
Lemma zerosLast_tail v l : ZerosLast (v :: l) -> ZerosLast l.
Proof. intros H a b AB B N. apply (H (S a) (S b)); cbn [List.length nth]; auto; lia. Qed.
Lemma zerosLast_shown l : ZerosLast l -> exists z, l = nonzeros l ++ repeat (PInt 0) z.
Proof.
  induction l as [|v l IH]; intros H; [exists 0; reflexivity|]. destruct (IH (zerosLast_tail _ _ H)) as [z E]. cbn [nonzeros filter]. destruct (isZero v) eqn:Z; cbn [negb].
  - apply isZero_spec in Z. subst v. assert (A : forall x, In x l -> x = PInt 0).
    { intros x X. destruct (In_nth _ _ (PInt 0) X) as [k [K <-]]. destruct (isZero_dec (nth k l (PInt 0))) as [Q|Q]; [exact Q|]. exfalso. apply (H 0 (S k)); cbn [nth List.length]; [lia|lia|exact Q|reflexivity]. }
    exists (S (List.length l)). fold (nonzeros l). assert (N : nonzeros l = []).
    { unfold nonzeros. clear -A. induction l as [|x l IH]; [reflexivity|]. cbn [filter]. rewrite (A x (or_introl eq_refl)). cbn [isZero negb]. apply IH. intros y Y. apply A. right. exact Y. }
    rewrite N. cbn [app repeat]. f_equal. clear -A. induction l as [|x l IH]; [reflexivity|]. cbn [List.length repeat]. rewrite (A x (or_introl eq_refl)). f_equal. apply IH. intros y Y. apply A. right. exact Y.
  - exists z. fold (nonzeros l). cbn [app]. rewrite <- E. reflexivity.
Qed.

Section Points.
Variables (p : sprep) (point feature : how) (names : bool) (LR RR : list (list pval)).
Hypothesis HLen : List.length (spL p) = List.length (spR p).
Hypothesis NDL : NoDup (spL p).
Hypothesis NDR : NoDup (spR p).
Hypothesis BL : forall x, In x (spL p) -> x < nL p.
Hypothesis BR : forall x, In x (spR p) -> x < nR p.
Hypothesis HWL : forall l, In l LR -> List.length l = nL p.
Hypothesis HWR : forall r, In r RR -> List.length r = nR p.
Hypothesis RL : forall i l, nth_error LR i = Some l -> rowAt (nL p) (sL p) i = l.
Hypothesis RRr : forall k r, nth_error RR k = Some r -> rowAt (nR p) (sR p) k = r.
Hypothesis KL : keysOf (sOnL p) (sL p) = map (fun l => at_ l (sOnL p)) LR.
Hypothesis KR : keysOf (sOnR p) (sR p) = map (fun r => at_ r (sOnR p)) RR.
Hypothesis HS : forall k r, nth_error RR k = Some r ->
  map ev (filter (fun e => (er e =? k) && negb (mem (ec e) (spR p))) (sR p)) = nonzeros (unmatched (spR p) r).
Hypothesis HZ : point = Union -> feature = Union -> forall r, In r RR -> existsb (fun l => pyEq (at_ r (sOnR p)) (at_ l (sOnL p))) LR = false ->
  ZerosLast (unmatched (spR p) r).
Hypothesis NM : (if names then 1 else 0) < nL p.
Notation cols := (pcols (spL p) (spR p) (nL p) (nR p)).
Notation ms := (matchesOf (sOnL p) (sOnR p) RR).
Notation cut := (trim p feature names).

(** positions and rows *)
Lemma filter_rows (f : pval -> bool) :
  map (rowAt (nR p) (sR p)) (filter (fun k => f (nth k (map (fun r => at_ r (sOnR p)) RR) PNaN)) (seq 0 (List.length RR))) = filter (fun r => f (at_ r (sOnR p))) RR.
Proof.
  assert (G : forall l a, (forall k r, nth_error l k = Some r -> rowAt (nR p) (sR p) (a + k) = r) ->
    (forall k r, nth_error l k = Some r -> nth (a + k) (map (fun r => at_ r (sOnR p)) RR) PNaN = at_ r (sOnR p)) ->
    map (rowAt (nR p) (sR p)) (filter (fun k => f (nth k (map (fun r => at_ r (sOnR p)) RR) PNaN)) (seq a (List.length l))) = filter (fun r => f (at_ r (sOnR p))) l).
  { induction l as [|r l IH]; intros a A B; [reflexivity|]. cbn [List.length seq filter]. pose proof (A 0 r eq_refl) as A0. pose proof (B 0 r eq_refl) as B0. rewrite Nat.add_0_r in A0, B0. rewrite B0.
    assert (R : map (rowAt (nR p) (sR p)) (filter (fun k => f (nth k (map (fun r => at_ r (sOnR p)) RR) PNaN)) (seq (S a) (List.length l))) = filter (fun r => f (at_ r (sOnR p))) l).
    { apply IH; intros k r' K; replace (S a + k) with (a + S k) by lia; [apply (A (S k))|apply (B (S k))]; exact K. }
    destruct (f (at_ r (sOnR p))); cbn [map]; rewrite R, ?A0; reflexivity. }
  apply G; intros k r K; cbn [Nat.add]; [apply RRr; exact K|]. apply nth_error_nth. rewrite nth_error_map, K. reflexivity.
Qed.
Lemma matches_spec l ks : List.length l = nL p -> (forall k, In k ks -> List.length (rowAt (nR p) (sR p) k) = nR p) ->
  sparseMatches p feature names l ks =
  if forallb (acceptable (spL p) (spR p) l) (map (rowAt (nR p) (sR p)) ks) then Ok (map (fun r => cut (map (kval (Some l, Some r)) cols)) (map (rowAt (nR p) (sR p)) ks)) else Err InvalidArgumentValue.
Proof.
  intros E. induction ks as [|k ks IH]; intros HK; cbn [sparseMatches map forallb]; [reflexivity|]. destruct (acceptable (spL p) (spR p) l (rowAt (nR p) (sR p) k)); cbn [andb]; [|reflexivity].
  rewrite (IH (fun x X => HK x (or_intror X))). destruct (forallb _ _); cbn [rmap]; [|reflexivity].
  rewrite (MergeMatProofs.kboth (spL p) (spR p) (nL p) (nR p) l _ E (HK k (or_introl eq_refl))). reflexivity.
Qed.
Definition matchedKeys (left : list (list pval)) : list pval := flat_map (fun l => map (fun _ => at_ l (sOnL p)) (ms l)) left.
Lemma loop_spec : forall left i, (forall l, In l left -> List.length l = nL p) -> (forall k l, nth_error left k = Some l -> rowAt (nL p) (sL p) (i + k) = l) ->
  sparseLoop p point feature names i (map (fun l => at_ l (sOnL p)) left) =
  if forallb (ok1 (spL p) (spR p) (sOnL p) (sOnR p) RR) left then
    Ok (map cut (map (fun rw => map (kval rw) cols) (flat_map (leftPart (sOnL p) (sOnR p) RR point) left)), matchedKeys left)
  else Err InvalidArgumentValue.
Proof.
  induction left as [|l left IH]; intros i HW HP; [reflexivity|]. cbn [map sparseLoop forallb flat_map]. cbv zeta.
  pose proof (HW l (or_introl eq_refl)) as El. pose proof (HP 0 l eq_refl) as E0. rewrite Nat.add_0_r in E0. rewrite E0.
  assert (IH' := IH (S i) (fun x X => HW x (or_intror X)) (fun k x K => eq_trans (f_equal (rowAt (nL p) (sL p)) (eq_sym (Nat.add_succ_r i k))) (HP (S k) x K))). clear IH.
  replace (S i) with (S i) in IH' by reflexivity. rewrite IH'. clear IH'.
  assert (MS : map (rowAt (nR p) (sR p)) (filter (fun k => pyEq (nth k (keysOf (sOnR p) (sR p)) PNaN) (at_ l (sOnL p))) (seq 0 (List.length (keysOf (sOnR p) (sR p))))) = ms l).
  { rewrite KR, map_length. apply (filter_rows (fun v => pyEq v (at_ l (sOnL p)))). }
  assert (LN : List.length (ms l) = List.length (filter (fun k => pyEq (nth k (keysOf (sOnR p) (sR p)) PNaN) (at_ l (sOnL p))) (seq 0 (List.length (keysOf (sOnR p) (sR p)))))) by (rewrite <- MS, map_length; reflexivity).
  assert (HM : forall k, In k (filter (fun k => pyEq (nth k (keysOf (sOnR p) (sR p)) PNaN) (at_ l (sOnL p))) (seq 0 (List.length (keysOf (sOnR p) (sR p))))) -> List.length (rowAt (nR p) (sR p) k) = nR p).
  { intros k _. unfold rowAt. rewrite map_length, seq_length. reflexivity. }
  assert (OE : ok1 (spL p) (spR p) (sOnL p) (sOnR p) RR l = forallb (acceptable (spL p) (spR p) l) (ms l)) by reflexivity.
  assert (LE : leftPart (sOnL p) (sOnR p) RR point l = match ms l, point with [], Intersection => [] | [], _ => [(Some l, None)] | x, _ => map (fun r => (Some l, Some r)) x end) by reflexivity.
  assert (ME : matchedKeys (l :: left) = map (fun _ => at_ l (sOnL p)) (ms l) ++ matchedKeys left) by reflexivity.
  rewrite OE, LE, ME. clear OE LE ME. destruct (filter (fun k => pyEq _ _) _) as [|k0 ks] eqn:EF.
  - rewrite <- MS. cbn [map forallb andb app]. destruct (forallb (ok1 _ _ _ _ RR) left); cbn [rbind]; [|reflexivity]. cbn [fst snd]. rewrite map_app, map_app. destruct point; cbn [map app]; try reflexivity.
    + rewrite (MergeMatProofs.kleft (spL p) (spR p) (nL p) (nR p) HLen NDR BR l El). reflexivity.
    + rewrite (MergeMatProofs.kleft (spL p) (spR p) (nL p) (nR p) HLen NDR BR l El). reflexivity.
  - rewrite (matches_spec l (k0 :: ks) El HM), MS. destruct (ms l) as [|r0 rs] eqn:EM; [discriminate LN|]. destruct (forallb (acceptable _ _ l) (r0 :: rs)); cbn [andb rbind]; [|reflexivity].
    destruct (forallb (ok1 _ _ _ _ RR) left); cbn [rbind]; [|reflexivity]. cbn [fst snd]. rewrite map_app, map_app, !map_map.
    assert (CE : map (fun _ : nat => at_ l (sOnL p)) (k0 :: ks) = map (fun _ : list pval => at_ l (sOnL p)) (r0 :: rs)).
    { clear -LN. revert LN. generalize (k0 :: ks) (r0 :: rs). intros a. induction a as [|x a IH]; intros [|y b] H; try discriminate H; [reflexivity|]. cbn [map]. f_equal. apply IH. injection H as H. exact H. }
    change (at_ l (sOnL p) :: map (fun _ : nat => at_ l (sOnL p)) ks) with (map (fun _ : nat => at_ l (sOnL p)) (k0 :: ks)). rewrite CE. destruct point; reflexivity.
Qed.
Lemma inList_matched r : In r RR -> inList (at_ r (sOnR p)) (matchedKeys LR) = existsb (fun l => pyEq (at_ r (sOnR p)) (at_ l (sOnL p))) LR.
Proof.
  intros Hr. apply eq_true_iff_eq. unfold inList. rewrite !existsb_exists. split.
  - intros [x [Hx Hx']]. unfold matchedKeys in Hx. apply in_flat_map in Hx. destruct Hx as [l [Hl Hm]]. apply in_map_iff in Hm. destruct Hm as [r0 [<- Hm]]. exists l. split; [exact Hl|].
    apply orb_prop in Hx'. destruct Hx' as [Hx'|Hx']; [|exact Hx']. destruct (ms l) as [|r1 rs] eqn:E; [destruct Hm|]. pose proof (matchesOf_NaN (sOnL p) (sOnR p) RR l r1 rs E) as NN.
    unfold identical in Hx'. destruct (at_ r (sOnR p)); try discriminate Hx'; destruct (at_ l (sOnL p)); try discriminate Hx'; try congruence; reflexivity.
  - intros [l [Hl H]]. exists (at_ l (sOnL p)). rewrite H, orb_true_r. split; [|reflexivity]. unfold matchedKeys. apply in_flat_map. exists l. split; [exact Hl|]. apply in_map_iff. exists r. split; [reflexivity|].
    unfold matchesOf. apply filter_In. auto.
Qed.
(** cutting to the features of self does not see what comes after *)
Lemma firstn_left {A} (x y : list A) n : List.length x = n -> firstn n (x ++ y) = x.
Proof. intros <-. rewrite firstn_app, firstn_all, Nat.sub_diag. cbn. apply app_nil_r. Qed.
Lemma pick_left x y : List.length x = nL p -> pick (spL p) (x ++ y) = pick (spL p) x.
Proof. intros E. unfold pick. apply map_ext_in. intros j J. unfold at_. apply app_nth1. rewrite E. apply BL. exact J. Qed.
Lemma cut_shown x y z : List.length x = nL p -> (feature = Union -> exists k, y = z ++ repeat (PInt 0) k) -> shownAs (cut (x ++ z)) (cut (x ++ y)).
Proof.
  clear HZ. intros E H. unfold trim. destruct feature eqn:F.
  - rewrite !(pick_left x _ E). apply shown_same.
  - destruct (H eq_refl) as [k ->]. exists k. rewrite <- E in NM. destruct names.
    + destruct x as [|v [|v' x]]; [cbn in NM; lia..|]. cbn [app skipn]. rewrite app_assoc. split; [reflexivity|right; discriminate].
    + destruct x as [|v x]; [cbn in NM; lia|]. cbn [app]. rewrite app_assoc. split; [reflexivity|right; discriminate].
  - rewrite !(firstn_left x _ _ E). apply shown_same.
Qed.
Lemma fold_upd_length (l : list (nat * nat)) (g : nat * nat -> pval) : forall a, List.length (fold_left (fun acc q => upd acc (fst q) (g q)) l a) = List.length a.
Proof. induction l as [|q l IH]; intros a; [reflexivity|]. cbn [fold_left]. rewrite IH. apply upd_length. Qed.
Lemma rest_spec : Forall2 shownAs (sparseRest p point feature names (matchedKeys LR))
  (map cut (map (fun rw => map (kval rw) cols)
    (match point with Union => map (fun r => (None, Some r)) (filter (fun r => negb (existsb (fun l => pyEq (at_ r (sOnR p)) (at_ l (sOnL p))) LR)) RR) | _ => [] end))).
Proof.
  unfold sparseRest. destruct point eqn:P; [constructor| |constructor]. cbv zeta. rewrite KR, map_length.
  assert (G : forall l a, (forall k r, nth_error l k = Some r -> nth_error RR (a + k) = Some r) ->
    Forall2 shownAs (map (sparseRight p feature names) (filter (fun k => negb (inList (nth k (map (fun r => at_ r (sOnR p)) RR) PNaN) (matchedKeys LR))) (seq a (List.length l))))
      (map cut (map (fun rw => map (kval rw) cols) (map (fun r => (None, Some r)) (filter (fun r => negb (existsb (fun l => pyEq (at_ r (sOnR p)) (at_ l (sOnL p))) LR)) l))))).
  { induction l as [|r l IH]; intros a A; [constructor|]. cbn [List.length seq filter]. pose proof (A 0 r eq_refl) as A0. rewrite Nat.add_0_r in A0.
    assert (KN : nth a (map (fun r => at_ r (sOnR p)) RR) PNaN = at_ r (sOnR p)) by (apply nth_error_nth; rewrite nth_error_map, A0; reflexivity).
    rewrite KN. pose proof (nth_error_In _ _ A0) as IR. rewrite (inList_matched r IR).
    specialize (IH (S a) (fun k x K => eq_trans (f_equal (nth_error RR) (eq_sym (Nat.add_succ_r a k))) (A (S k) x K))).
    destruct (existsb _ LR) eqn:X; cbn [negb]; [exact IH|]. cbn [map]. constructor; [|exact IH].
    assert (RV := right_val (spL p) (spR p) (nL p) (nR p) HLen NDL r (HWR r IR)). unfold rightRow in RV.
    assert (KV : map (kval (None, Some r)) cols = map (MergeLoopProofs.val (None, Some r)) cols) by (apply map_ext; intros [x y]; unfold MergeLoopProofs.val, kval; cbn [fst snd]; destruct y; reflexivity).
    rewrite KV, <- RV. unfold sparseRight. rewrite (RRr a r A0), (HS a r A0). apply cut_shown.
    - rewrite fold_upd_length. apply repeat_length.
    - intros F. apply zerosLast_shown. exact (HZ eq_refl F r IR X). }
  apply G. intros k r K. exact K.
Qed.
Lemma points_spec :
  let out := map (fun rw => map (kval rw) cols) (rowJoin point (sOnL p) (sOnR p) LR RR) in
  if forallb (ok1 (spL p) (spR p) (sOnL p) (sOnR p) RR) LR then
    exists l m, sparseLoop p point feature names 0 (keysOf (sOnL p) (sL p)) = Ok (l, m) /\ Forall2 shownAs (l ++ sparseRest p point feature names m) (map cut out)
  else sparseLoop p point feature names 0 (keysOf (sOnL p) (sL p)) = Err InvalidArgumentValue.
Proof.
  cbv zeta. rewrite KL, (loop_spec LR 0 HWL RL). destruct (forallb _ LR); [|reflexivity]. eexists _, _. split; [reflexivity|]. unfold rowJoin. rewrite map_app, map_app. apply Forall2_app; [apply Forall2_shown_same|]. apply rest_spec.
Qed.
End Points.
