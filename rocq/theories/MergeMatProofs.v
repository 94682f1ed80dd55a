(** The rows of a merge of Matrix objects are the join that keeps the values of
    self (C74). *)
From Verif Require Import Base NamesModel NamesSpec NamesProofs TableModel TableSpec TableProofs TableOps MatchModel MatchSpec MatchProofs ElementsProofs ElementsCalcProofs
  BinOpModel BinOpSpec BinOpProofs MergeModel MergeSpec MergeLoopProofs MergeColsProofs MergeMatModel MergeMatSpec.
From Verif Require Import MergeJoinProofs.
From Coq Require Import Sorted.
Open Scope nat_scope.

Definition kval (r : option (list pval) * option (list pval)) (c : option nat * option nat) : pval :=
  match fst r, fst c with
  | Some l, Some p => at_ l p
  | _, _ => match snd r, snd c with Some w, Some p => at_ w p | _, _ => PNaN end
  end.
Section Rows.
Variables (pL pR : list nat) (onL onR : nat) (right : list (list pval)) (wl wr : nat).
Hypothesis HL : List.length pL = List.length pR.
Hypothesis NDR : NoDup pR.
Hypothesis BR : forall x, In x pR -> x < wr.
Hypothesis HR : forall r, In r right -> List.length r = wr.
Notation pcols := (pcols pL pR wl wr).
Lemma kboth l r : List.length l = wl -> List.length r = wr -> l ++ unmatched pR r = map (kval (Some l, Some r)) pcols.
Proof.
  intros A B. unfold MergeLoopProofs.pcols. rewrite map_app, !map_map, (unmatched_val pR wr None r B). f_equal. rewrite <- A. symmetry. apply map_at_seq.
Qed.
Lemma kleft l : List.length l = wl -> l ++ repeat PNaN (wr - List.length pR) = map (kval (Some l, None)) pcols.
Proof. intros A. rewrite (left_val pL pR wl wr HL NDR BR l A). apply map_ext. intros [x y]. unfold val, kval. cbn [fst snd]. destruct x as [x|]; [|destruct y; reflexivity]. destruct y; destruct (at_ l x); reflexivity. Qed.
Lemma kmatches ms : forall l, List.length l = wl -> (forall r, In r ms -> List.length r = wr) ->
  matMatches pL pR l ms = if forallb (acceptable pL pR l) ms then Ok (map (fun r => map (kval (Some l, Some r)) pcols) ms) else Err InvalidArgumentValue.
Proof.
  induction ms as [|r ms IH]; intros l E HM; cbn [matMatches forallb map]; [reflexivity|]. destruct (acceptable pL pR l r); cbn [andb]; [|reflexivity].
  rewrite (IH l E (fun x X => HM x (or_intror X))). destruct (forallb _ ms); cbn [rmap]; [|reflexivity]. rewrite (kboth l r E (HM r (or_introl eq_refl))). reflexivity.
Qed.
Lemma kloop point mapper left : (forall l, In l left -> List.length l = wl) ->
  (forall l, In l left -> mapperGet (at_ l onL) mapper = match matchesOf onL onR right l with [] => None | ms => Some ms end) ->
  matLoop pL pR onL point (wr - List.length pR) mapper left =
  if forallb (ok1 pL pR onL onR right) left then
    Ok (map (fun rw => map (kval rw) pcols) (flat_map (leftPart onL onR right point) left),
        map (fun l => at_ l onL) (filter (fun l => match matchesOf onL onR right l with [] => false | _ => true end) left))
  else Err InvalidArgumentValue.
Proof.
  induction left as [|l left IH]; intros HW HM; cbn [matLoop forallb flat_map filter map]; [reflexivity|].
  pose proof (HW l (or_introl eq_refl)) as El. rewrite (HM l (or_introl eq_refl)).
  rewrite (IH (fun x Hx => HW x (or_intror Hx)) (fun x Hx => HM x (or_intror Hx))). clear IH.
  assert (HMr : forall r, In r (matchesOf onL onR right l) -> List.length r = wr) by (intros r Hr; apply HR; unfold matchesOf in Hr; apply filter_In in Hr; apply Hr).
  assert (OE : ok1 pL pR onL onR right l = forallb (acceptable pL pR l) (matchesOf onL onR right l)) by reflexivity.
  assert (LE : leftPart onL onR right point l = match matchesOf onL onR right l, point with [], Intersection => [] | [], _ => [(Some l, None)] | ms, _ => map (fun r => (Some l, Some r)) ms end) by reflexivity.
  rewrite OE, LE. clear OE LE. destruct (matchesOf onL onR right l) as [|r ms] eqn:EM.
  - cbn [forallb andb]. destruct (forallb (ok1 pL pR onL onR right) left); cbn [rbind]; [|reflexivity]. cbn [fst snd]. rewrite map_app. destruct point; cbn [map]; rewrite <- ?(kleft l El); reflexivity.
  - rewrite (kmatches (r :: ms) l El HMr). destruct (forallb (acceptable pL pR l) (r :: ms)); cbn [andb rbind]; [|reflexivity].
    destruct (forallb (ok1 pL pR onL onR right) left); cbn [rbind]; [|reflexivity]. cbn [fst snd]. rewrite map_app, map_map. destruct point; reflexivity.
Qed.
End Rows.
Lemma matRows_spec point names q :
  let p := mp q in
  List.length (pL p) = List.length (pR p) -> NoDup (pL p) -> NoDup (pR p) -> (forall x, In x (pL p) -> x < mwl q) -> (forall x, In x (pR p) -> x < mwr q) ->
  (forall r, In r (pRight p) -> List.length r = mwr q) -> (forall l, In l (pLeft p) -> List.length l = mwl q) ->
  let cols := pcols (pL p) (pR p) (mwl q) (mwr q) in
  let out := map (fun rw => map (kval rw) cols) (rowJoin point (onL p) (onR p) (pLeft p) (pRight p)) in
  if forallb (ok1 (pL p) (pR p) (onL p) (onR p) (pRight p)) (pLeft p) then
    matRows point names q = (if names then map (skipn 1) out else out, Ok (if names then List.length cols - 1 else List.length cols))
  else exists l', matRows point names q = (l', Err InvalidArgumentValue).
Proof.
  intros p HL NDL NDR BL BR HR HLw cols out. unfold matRows. fold p.
  rewrite (kloop (pL p) (pR p) (onL p) (onR p) (pRight p) (mwl q) (mwr q) HL NDR BR HR point (buildMapper (onL p) (onR p) (pRight p) (pLeft p)) (pLeft p) HLw
    (fun l Hl => buildMapper_spec (onL p) (onR p) (pRight p) (pLeft p) l Hl)).
  destruct (forallb _ (pLeft p)); [|eexists; reflexivity].
  rewrite (rightLoop_spec (pL p) (pR p) (onL p) (onR p) (pRight p) (mwl q) (mwr q) HL NDL HR).
  assert (KR : forall l, map (fun rw => map (val rw) cols) (map (fun r : list pval => (None, Some r)) l) = map (fun rw => map (kval rw) cols) (map (fun r => (None, Some r)) l)).
  { intros l. rewrite !map_map. apply map_ext. intros r. apply map_ext. intros [x y]. unfold val, kval. cbn [fst snd]. destruct y; reflexivity. }
  assert (LC : List.length cols = mwl q + (mwr q - List.length (pR p))) by (unfold cols, pcols; rewrite app_length, !map_length, seq_length, (restR_length (pL p)); auto).
  fold cols. rewrite LC.
  match goal with |- context [?x ++ map (fun rw => map (val rw) cols) ?y] => assert (ALL : x ++ map (fun rw => map (val rw) cols) y = out) end.
  { unfold out, rowJoin. rewrite map_app. f_equal. destruct point; [reflexivity|apply KR|reflexivity]. }
  rewrite ALL. destruct names; reflexivity.
Qed.

Section Join.
Variables (t o : table pval).
Hypothesis WT : wf t.
Hypothesis WO : wf o.
Let np := alen (tp t).
Let nq := alen (tp o).
Let ln := getNames (tf t).
Let rn := getNames (tf o).
Variables (q : matPrep) (phiL phiR : list src) (m : nat -> nat -> bool) (names : bool) (point feature : how).
Notation p := (mp q).
Hypothesis HWL : mwl q = List.length phiL.
Hypothesis HWR : mwr q = List.length phiR.
Let readL := reads 0 t.
Let readR := reads np o.
Let Lrow i := map (readL i) phiL.
Let Rrow k := map (readR k) phiR.
Let wl := List.length phiL.
Let wr := List.length phiR.
Hypothesis HPL : pLeft p = map Lrow (seq 0 np).
Hypothesis HPR : pRight p = map Rrow (seq 0 nq).
Hypothesis Hlen : List.length (pL p) = List.length (pR p).
Hypothesis NDL : NoDup (pL p).
Hypothesis NDR : NoDup (pR p).
Hypothesis BL : forall x, In x (pL p) -> x < wl.
Hypothesis BR : forall x, In x (pR p) -> x < wr.
Hypothesis OL : onL p < wl.
Hypothesis OR : onR p < wr.
Hypothesis Key : forall i k, i < np -> k < nq -> pyEq (readR k (srcAt phiR (onR p))) (readL i (srcAt phiL (onL p))) = m i k.
Hypothesis Pairs1 : forall x y, In (x, y) (combine (pL p) (pR p)) ->
  (srcAt phiL x = SKey /\ srcAt phiR y = SKey /\ forall i k, i < np -> k < nq -> m i k = true -> pyEq (readL i SKey) (readR k SKey) = true) \/
  exists j j', srcAt phiL x = SCol j /\ srcAt phiR y = SCol j' /\ partner ln rn j = Some j'.
Hypothesis Pairs2 : forall j j', partner ln rn j = Some j' -> exists x y, In (x, y) (combine (pL p) (pR p)) /\ srcAt phiL x = SCol j /\ srcAt phiR y = SCol j'.
Hypothesis Cols : map (srcCol phiL phiR) (pcols (pL p) (pR p) wl wr) = (if names then cons (Some SKey, Some SKey) else fun l => l) (map asSrc (joinCols feature ln rn)).

Definition rowsOf (r : option nat * option nat) : option (list pval) * option (list pval) := (option_map Lrow (fst r), option_map Rrow (snd r)).
Lemma at_L i x : x < wl -> at_ (Lrow i) x = readL i (srcAt phiL x).
Proof. intros H. apply at_map_src. exact H. Qed.
Lemma at_R i x : x < wr -> at_ (Rrow i) x = readR i (srcAt phiR x).
Proof. intros H. apply at_map_src. exact H. Qed.
Lemma matches_index i : i < np -> matchesOf (onL p) (onR p) (pRight p) (Lrow i) = map Rrow (filter (m i) (seq 0 nq)).
Proof.
  intros Hi. unfold matchesOf. rewrite HPR, filter_map_eq. f_equal. apply filter_ext_in. intros k Hk. apply in_seq in Hk. rewrite (at_L i _ OL), (at_R k _ OR). apply Key; lia.
Qed.
Lemma rowJoin_index : rowJoin point (onL p) (onR p) (pLeft p) (pRight p) = map rowsOf (joinRows point np nq m).
Proof.
  unfold rowJoin, joinRows. rewrite map_app. f_equal.
  - rewrite HPL, flat_map_map, map_flat_map. apply flat_map_ext_in. intros i Hi. apply in_seq in Hi. unfold leftPart. rewrite matches_index by lia.
    destruct (filter (m i) (seq 0 nq)) as [|k ks]; cbn [map]; [destruct point; reflexivity|]. destruct point; cbn [map]; rewrite !map_map; reflexivity.
  - destruct point; try reflexivity. rewrite HPR, filter_map_eq, !map_map. rewrite (filter_ext_in _ (fun k => negb (existsb (fun i => m i k) (seq 0 np)))); [reflexivity|].
    intros k Hk. apply in_seq in Hk. f_equal. rewrite HPL. apply eq_true_iff_eq. rewrite !existsb_exists. split.
    + intros [l [Hl E]]. apply in_map_iff in Hl. destruct Hl as [i [<- Hi]]. exists i. split; [exact Hi|]. apply in_seq in Hi. rewrite (at_L i _ OL), (at_R k _ OR), Key in E by lia. exact E.
    + intros [i [Hi E]]. exists (Lrow i). split; [apply in_map; exact Hi|]. apply in_seq in Hi. rewrite (at_L i _ OL), (at_R k _ OR), Key by lia. exact E.
Qed.
Definition sval (r : option nat * option nat) (c : option src * option src) : pval :=
  match fst r, fst c with
  | Some i, Some s => readL i s
  | _, _ => match snd r, snd c with Some k, Some s => readR k s | _, _ => PNaN end
  end.
Lemma val_sval r c : In c (pcols (pL p) (pR p) wl wr) -> kval (rowsOf r) c = sval r (srcCol phiL phiR c).
Proof.
  intros H. destruct (pcols_bound _ _ _ _ c BL BR Hlen H) as [B1 B2]. destruct r as [a b]. destruct c as [x y]. cbn [fst snd] in *. unfold kval, sval, rowsOf, srcCol. cbn [fst snd].
  destruct a as [i|], x as [x|]; cbn [option_map]; rewrite ?(at_L i x) by auto; destruct b as [k|], y as [y|]; cbn [option_map]; rewrite ?(at_R k y) by auto; reflexivity.
Qed.
Lemma joinCols_bound h c : In c (joinCols h ln rn) -> (forall j, fst c = Some j -> j < alen (tf t)) /\ (forall j, snd c = Some j -> j < alen (tf o)).
Proof.
  destruct WT as [_ [_ [_ IT]]]. destruct WO as [_ [_ [_ IO]]]. pose proof (getNames_length _ IT) as LT. pose proof (getNames_length _ IO) as LO. fold ln in LT. fold rn in LO.
  pose proof (names_Distinct _ IO) as DO. fold rn in DO.
  assert (G : forall l, (forall j, In j l -> j < List.length ln) -> In c (map (fun j => (Some j, partner ln rn j)) l) -> (forall j, fst c = Some j -> j < alen (tf t)) /\ (forall j, snd c = Some j -> j < alen (tf o))).
  { intros l B H. apply in_map_iff in H. destruct H as [x [<- H]]. cbn [fst snd]. split; [intros j E; injection E as <-; specialize (B x H); lia|]. intros j E. apply (partner_iff ln rn x j DO) in E. destruct E as [s [_ E]]. apply nth_error_lt in E. lia. }
  intros H. destruct h; cbn [joinCols] in H.
  - revert H. apply G. intros j Hj. apply filter_In in Hj. destruct Hj as [Hj _]. apply in_seq in Hj. lia.
  - apply in_app_or in H. destruct H as [H|H]; [revert H; apply G; intros j Hj; apply in_seq in Hj; lia|]. apply in_map_iff in H. destruct H as [x [<- H]]. apply filter_In in H. destruct H as [H _]. apply in_seq in H. cbn. split; [discriminate|]. intros j E. injection E as <-. lia.
  - revert H. apply G. intros j Hj. apply in_seq in Hj. lia.
Qed.
Lemma sval_cell r c : In r (joinRows point np nq m) -> In c (joinCols feature ln rn) -> sval r (asSrc c) = keptCell t o r c.
Proof.
  intros Hr Hc. destruct (joinRows_bound _ _ _ _ _ Hr) as [R1 R2]. destruct (joinCols_bound _ _ Hc) as [C1 C2]. destruct r as [a b]. destruct c as [x y]. cbn [fst snd] in *. unfold sval, keptCell, valueAt, asSrc. cbn [fst snd].
  destruct a as [i|], x as [x|]; cbn [option_map]; destruct b as [k|], y as [y|]; cbn [option_map]; rewrite ?(cell_cv t i x), ?(cell_cv o k y) by auto; unfold readL, readR, reads; try reflexivity; reflexivity.
Qed.
Lemma acceptable_iff i k : i < np -> k < nq -> m i k = true ->
  (acceptable (pL p) (pR p) (Lrow i) (Rrow k) = true <->
   forall j j', partner ln rn j = Some j' -> cv t i j = PNaN \/ cv o k j' = PNaN \/ Same (cv t i j) (cv o k j')).
Proof.
  intros Hi Hk HM. unfold acceptable. rewrite forallb_forall. split.
  - intros H j j' P. destruct (Pairs2 j j' P) as [x [y [I [X Y]]]]. specialize (H (x, y) I). cbn [fst snd] in H. pose proof (in_combine_l _ _ _ _ I) as I1. pose proof (in_combine_r _ _ _ _ I) as I2.
    rewrite (at_L i x (BL x I1)), (at_R k y (BR y I2)), X, Y in H. cbn in H. apply orb_prop in H. destruct H as [H|H]; [apply orb_prop in H; destruct H as [H|H]|].
    + right. right. apply pyEq_spec. exact H.
    + left. apply isNaN_spec. exact H.
    + right. left. apply isNaN_spec. exact H.
  - intros H [x y] I. cbn [fst snd]. pose proof (in_combine_l _ _ _ _ I) as I1. pose proof (in_combine_r _ _ _ _ I) as I2. rewrite (at_L i x (BL x I1)), (at_R k y (BR y I2)).
    destruct (Pairs1 x y I) as [[X [Y Q]]|[j [j' [X [Y P]]]]]; rewrite X, Y.
    + rewrite (Q i k Hi Hk HM). reflexivity.
    + cbn. destruct (H j j' P) as [E|[E|E]].
      * apply isNaN_spec in E. rewrite E. destruct (pyEq _ _); reflexivity.
      * apply isNaN_spec in E. rewrite E. rewrite orb_true_r. reflexivity.
      * apply pyEq_spec in E. rewrite E. reflexivity.
Qed.
Lemma partner_range j j' : partner ln rn j = Some j' -> j < alen (tf t) /\ j' < alen (tf o).
Proof.
  destruct WT as [_ [_ [_ IT]]]. destruct WO as [_ [_ [_ IO]]]. intros H. apply (partner_iff ln rn j j' (names_Distinct _ IO)) in H. destruct H as [s [A B]]. apply nth_error_lt in A. apply nth_error_lt in B.
  rewrite <- (getNames_length _ IT), <- (getNames_length _ IO). auto.
Qed.
Lemma prepared_join :
  (~ Conflict t o m /\ matRows point names q = (map (fun rw => map (keptCell t o rw) (joinCols feature ln rn)) (joinRows point np nq m), Ok (List.length (joinCols feature ln rn)))) \/
  (Conflict t o m /\ exists l', matRows point names q = (l', Err InvalidArgumentValue)).
Proof.
  assert (A1 : forall r, In r (pRight p) -> List.length r = wr) by (rewrite HPR; intros r Hr; apply in_map_iff in Hr; destruct Hr as [k [<- _]]; unfold Rrow; rewrite map_length; reflexivity).
  assert (A2 : forall r, In r (pLeft p) -> List.length r = wl) by (rewrite HPL; intros r Hr; apply in_map_iff in Hr; destruct Hr as [k [<- _]]; unfold Lrow; rewrite map_length; reflexivity).
  pose proof (matRows_spec point names q Hlen NDL NDR) as H. rewrite HWL, HWR in H. fold wl in H. fold wr in H. specialize (H BL BR A1 A2). cbv zeta in H. destruct (forallb _ (pLeft p)) eqn:OK.
  - left. split.
    + intros [i [k [j [j' [v [w [HM [P [V [W [NV [NW NS]]]]]]]]]]]]. destruct (cell_cv' t i j v WT V) as [-> [Hi _]]. destruct (cell_cv' o k j' w WO W) as [-> [Hk _]].
      rewrite forallb_forall in OK. assert (I : In (Lrow i) (pLeft p)) by (rewrite HPL; apply in_map, in_seq; fold np in Hi; lia). specialize (OK _ I). unfold ok1 in OK. rewrite matches_index in OK by exact Hi. rewrite forallb_forall in OK.
      assert (I2 : In (Rrow k) (map Rrow (filter (m i) (seq 0 nq)))) by (apply in_map, filter_In; split; [apply in_seq; fold nq in Hk; lia|exact HM]). specialize (OK _ I2).
      destruct (proj1 (acceptable_iff i k Hi Hk HM) OK j j' P) as [E|[E|E]]; auto.
    + rewrite H. rewrite rowJoin_index.
      assert (LC : List.length (pcols (pL p) (pR p) wl wr) = (if names then 1 else 0) + List.length (joinCols feature ln rn)).
      { rewrite <- (map_length (srcCol phiL phiR)), Cols. destruct names; cbn; rewrite map_length; reflexivity. }
      assert (RW : forall r, In r (joinRows point np nq m) -> (if names then skipn 1 else fun l => l) (map (kval (rowsOf r)) (pcols (pL p) (pR p) wl wr)) = map (keptCell t o r) (joinCols feature ln rn)).
      { intros r Hr. assert (X : map (kval (rowsOf r)) (pcols (pL p) (pR p) wl wr) = map (sval r) (map (srcCol phiL phiR) (pcols (pL p) (pR p) wl wr))).
        { rewrite map_map. apply map_ext_in. intros c Hc. apply val_sval. exact Hc. }
        rewrite X, Cols. destruct names; cbn [map skipn]; rewrite map_map; apply map_ext_in; intros c Hc; apply sval_cell; assumption. }
      f_equal.
      * destruct names; rewrite !map_map; apply map_ext_in; exact RW.
      * f_equal. rewrite LC. destruct names; cbn; lia.
  - right. split; [|exact H]. assert (E : exists l, In l (pLeft p) /\ ok1 (pL p) (pR p) (onL p) (onR p) (pRight p) l = false).
    { clear - OK. induction (pLeft p) as [|l ls IH]; [discriminate|]. cbn in OK. destruct (ok1 _ _ _ _ _ l) eqn:E; [destruct (IH OK) as [x [X Y]]; exists x; split; [right; exact X|exact Y]|exists l; split; [left; reflexivity|exact E]]. }
    destruct E as [l [Hl E]]. rewrite HPL in Hl. apply in_map_iff in Hl. destruct Hl as [i [<- Hi]]. apply in_seq in Hi. assert (Hi' : i < np) by lia. unfold ok1 in E. rewrite (matches_index i Hi') in E.
    assert (E2 : exists k, In k (filter (m i) (seq 0 nq)) /\ acceptable (pL p) (pR p) (Lrow i) (Rrow k) = false).
    { clear - E. induction (filter (m i) (seq 0 nq)) as [|k ks IH]; [discriminate|]. cbn in E. destruct (acceptable _ _ _ (Rrow k)) eqn:A; [destruct (IH E) as [x [X Y]]; exists x; split; [right; exact X|exact Y]|exists k; split; [left; reflexivity|exact A]]. }
    destruct E2 as [k [Hk A]]. apply filter_In in Hk. destruct Hk as [Hk HM]. apply in_seq in Hk. assert (Hk' : k < nq) by lia.
    (* some shared feature is refused *)
    assert (N : exists xy, In xy (combine (pL p) (pR p)) /\ pyEq (at_ (Lrow i) (fst xy)) (at_ (Rrow k) (snd xy)) || isNaN (at_ (Lrow i) (fst xy)) || isNaN (at_ (Rrow k) (snd xy)) = false).
    { unfold acceptable in A. clear - A. induction (combine (pL p) (pR p)) as [|c cs IH]; [discriminate|]. cbn in A. destruct (pyEq (at_ (Lrow i) (fst c)) (at_ (Rrow k) (snd c)) || isNaN (at_ (Lrow i) (fst c)) || isNaN (at_ (Rrow k) (snd c))) eqn:X.
      - destruct (IH A) as [y [Y Z]]. exists y. split; [right; exact Y|exact Z].
      - exists c. split; [left; reflexivity|exact X]. }
    destruct N as [[x y] [I N]]. cbn [fst snd] in N. pose proof (in_combine_l _ _ _ _ I) as I1. pose proof (in_combine_r _ _ _ _ I) as I2. rewrite (at_L i x (BL x I1)), (at_R k y (BR y I2)) in N.
    destruct (Pairs1 x y I) as [[X [Y Q]]|[j [j' [X [Y P]]]]]; rewrite X, Y in N; [rewrite (Q i k Hi' Hk' HM) in N; discriminate|]. cbn in N.
    apply orb_false_elim in N. destruct N as [N N3]. apply orb_false_elim in N. destruct N as [N1 N2]. destruct (partner_range j j' P) as [RJ RJ'].
    exists i, k, j, j', (cv t i j), (cv o k j'). split; [exact HM|]. split; [exact P|]. split; [apply cell_cv; assumption|]. split; [apply cell_cv; assumption|]. split; [|split].
    + intros Z. apply isNaN_spec in Z. congruence.
    + intros Z. apply isNaN_spec in Z. congruence.
    + intros Z. apply pyEq_spec in Z. congruence.
Qed.
End Join.
