(** The rows of a merge are the join (C16). *)
From Verif Require Import Base NamesModel NamesSpec NamesProofs TableModel TableSpec TableProofs TableOps MatchModel MatchSpec MatchProofs ElementsProofs ElementsCalcProofs
  BinOpModel BinOpSpec BinOpProofs MergeModel MergeSpec MergeLoopProofs MergeColsProofs.
From Coq Require Import Sorted.
Open Scope nat_scope.

Definition cv (t : table pval) (i j : nat) : pval := at_ (nth i (rows t) []) j.
Lemma cell_cv t i j : wf t -> i < alen (tp t) -> j < alen (tf t) -> cell t i j = Some (cv t i j).
Proof. intros W A B. destruct (cell_some t i j W A B) as [v [X Y]]. rewrite X. f_equal. symmetry. apply at_nth. exact Y. Qed.
Lemma cell_cv' t i j v : wf t -> cell t i j = Some v -> v = cv t i j /\ i < alen (tp t) /\ j < alen (tf t).
Proof. intros W H. destruct (cell_range t i j v W H) as [A B]. rewrite (cell_cv t i j W A B) in H. split; [congruence|auto]. Qed.
Definition reads (add : nat) (t : table pval) (i : nat) (s : src) : pval := match s with SKey => ptKey (tp t) add i | SCol j => cv t i j end.
Lemma at_map_src (f : src -> pval) phi p : p < List.length phi -> at_ (map f phi) p = f (srcAt phi p).
Proof. intros H. unfold at_, srcAt. rewrite (nth_indep _ PNaN (f SKey)) by (rewrite map_length; exact H). apply map_nth. Qed.
Lemma pcols_bound pL pR wl wr c : (forall x, In x pL -> x < wl) -> (forall x, In x pR -> x < wr) -> List.length pL = List.length pR -> In c (pcols pL pR wl wr) ->
  (forall p, fst c = Some p -> p < wl) /\ (forall q, snd c = Some q -> q < wr).
Proof.
  intros BL BR HL H. unfold pcols in H. apply in_app_or in H. destruct H as [H|H]; apply in_map_iff in H; destruct H as [x [<- H]]; cbn [fst snd].
  - apply in_seq in H. split; [intros p E; injection E as <-; lia|]. intros q E. unfold lookup in E. destruct (indexOf x pL) as [k|] eqn:I; [|discriminate]. cbn in E. injection E as <-. apply BR, nth_In. rewrite <- HL. apply indexOf_some, nth_error_lt in I. exact I.
  - apply filter_In in H. destruct H as [H _]. apply in_seq in H. split; [discriminate|]. intros q E. injection E as <-. lia.
Qed.
Lemma joinRows_bound point nl nr m r : In r (joinRows point nl nr m) -> (forall i, fst r = Some i -> i < nl) /\ (forall k, snd r = Some k -> k < nr).
Proof.
  unfold joinRows. intros H. apply in_app_or in H. destruct H as [H|H].
  - apply in_flat_map in H. destruct H as [i [Hi H]]. apply in_seq in Hi. destruct (filter (m i) (seq 0 nr)) as [|k0 ks] eqn:E.
    + destruct point; cbn in H; try contradiction; destruct H as [<-|[]]; cbn; (split; [intros x X; injection X as <-; lia|discriminate]).
    + assert (H' : In r (map (fun k => (Some i, Some k)) (k0 :: ks))) by (destruct point; exact H). apply in_map_iff in H'. destruct H' as [k [<- Hk]]. rewrite <- E in Hk. apply filter_In in Hk. destruct Hk as [Hk _]. apply in_seq in Hk. cbn. split; intros x X; injection X as <-; lia.
  - destruct point; try contradiction. apply in_map_iff in H. destruct H as [k [<- Hk]]. apply filter_In in Hk. destruct Hk as [Hk _]. apply in_seq in Hk. cbn. split; [discriminate|]. intros x X. injection X as <-. lia.
Qed.
Lemma flat_map_map {A B C} (f : A -> B) (g : B -> list C) l : flat_map g (map f l) = flat_map (fun x => g (f x)) l.
Proof. induction l as [|x l IH]; cbn; [reflexivity|]. rewrite IH. reflexivity. Qed.
Lemma map_flat_map {A B C} (f : A -> list B) (g : B -> C) l : map g (flat_map f l) = flat_map (fun x => map g (f x)) l.
Proof. induction l as [|x l IH]; cbn; [reflexivity|]. rewrite map_app, IH. reflexivity. Qed.
Lemma flat_map_ext_in {A B} (f g : A -> list B) l : (forall x, In x l -> f x = g x) -> flat_map f l = flat_map g l.
Proof. induction l as [|x l IH]; cbn; intros H; [reflexivity|]. rewrite (H x (or_introl eq_refl)), IH by (intros; apply H; right; assumption). reflexivity. Qed.

Section Join.
Variables (t o : table pval).
Hypothesis WT : wf t.
Hypothesis WO : wf o.
Let np := alen (tp t).
Let nq := alen (tp o).
Let ln := getNames (tf t).
Let rn := getNames (tf o).
Variables (p : prepared) (phiL phiR : list src) (m : nat -> nat -> bool) (names : bool) (point feature : how).
Let readL := reads 0 t.
Let readR := reads np o.
Let Lrow i := map (readL i) phiL.
Let Rrow k := map (readR k) phiR.
Let wl := List.length phiL.
Let wr := List.length phiR.
Hypothesis HPL : pLeft p = map Lrow (seq 0 np).
Hypothesis HPR : pRight p = map Rrow (seq 0 nq).
Hypothesis Hlen : List.length (pL p) = List.length (pR p).
Hypothesis NDL : NoDup (pL p).
Hypothesis NDR : NoDup (pR p).
Hypothesis BL : forall x, In x (pL p) -> x < wl.
Hypothesis BR : forall x, In x (pR p) -> x < wr.
Hypothesis OL : onL p < wl.
Hypothesis OR : onR p < wr.
Hypothesis Key : forall i k, i < np -> k < nq -> pyEq (readR k (srcAt phiR (onR p))) (readL i (srcAt phiL (onL p))) = m i k.
Hypothesis Pairs1 : forall x y, In (x, y) (combine (pL p) (pR p)) ->
  (srcAt phiL x = SKey /\ srcAt phiR y = SKey /\ forall i k, i < np -> k < nq -> m i k = true -> pyEq (readL i SKey) (readR k SKey) = true) \/
  exists j j', srcAt phiL x = SCol j /\ srcAt phiR y = SCol j' /\ partner ln rn j = Some j'.
Hypothesis Pairs2 : forall j j', partner ln rn j = Some j' -> exists x y, In (x, y) (combine (pL p) (pR p)) /\ srcAt phiL x = SCol j /\ srcAt phiR y = SCol j'.
Hypothesis Cols : map (srcCol phiL phiR) (pcols (pL p) (pR p) wl wr) = (if names then cons (Some SKey, Some SKey) else fun l => l) (map asSrc (joinCols feature ln rn)).
Hypothesis NR : NoRefill t o m.
Hypothesis P0 : 0 < np.
Hypothesis Q0 : 0 < nq.

Definition rowsOf (r : option nat * option nat) : option (list pval) * option (list pval) := (option_map Lrow (fst r), option_map Rrow (snd r)).
Lemma at_L i x : x < wl -> at_ (Lrow i) x = readL i (srcAt phiL x).
Proof. intros H. apply at_map_src. exact H. Qed.
Lemma at_R i x : x < wr -> at_ (Rrow i) x = readR i (srcAt phiR x).
Proof. intros H. apply at_map_src. exact H. Qed.
Lemma matches_index i : i < np -> matchesOf (onL p) (onR p) (pRight p) (Lrow i) = map Rrow (filter (m i) (seq 0 nq)).
Proof.
  intros Hi. unfold matchesOf. rewrite HPR, filter_map_eq. f_equal. apply filter_ext_in. intros k Hk. apply in_seq in Hk. rewrite (at_L i _ OL), (at_R k _ OR). apply Key; lia.
Qed.
Lemma rowJoin_index : rowJoin point (onL p) (onR p) (pLeft p) (pRight p) = map rowsOf (joinRows point np nq m).
Proof.
  unfold rowJoin, joinRows. rewrite map_app. f_equal.
  - rewrite HPL, flat_map_map, map_flat_map. apply flat_map_ext_in. intros i Hi. apply in_seq in Hi. unfold leftPart. rewrite matches_index by lia.
    destruct (filter (m i) (seq 0 nq)) as [|k ks]; cbn [map]; [destruct point; reflexivity|]. destruct point; cbn [map]; rewrite !map_map; reflexivity.
  - destruct point; try reflexivity. rewrite HPR, filter_map_eq, !map_map. rewrite (filter_ext_in _ (fun k => negb (existsb (fun i => m i k) (seq 0 np)))); [reflexivity|].
    intros k Hk. apply in_seq in Hk. f_equal. rewrite HPL. apply eq_true_iff_eq. rewrite !existsb_exists. split.
    + intros [l [Hl E]]. apply in_map_iff in Hl. destruct Hl as [i [<- Hi]]. exists i. split; [exact Hi|]. apply in_seq in Hi. rewrite (at_L i _ OL), (at_R k _ OR), Key in E by lia. exact E.
    + intros [i [Hi E]]. exists (Lrow i). split; [apply in_map; exact Hi|]. apply in_seq in Hi. rewrite (at_L i _ OL), (at_R k _ OR), Key by lia. exact E.
Qed.
Definition sval (r : option nat * option nat) (c : option src * option src) : pval :=
  match (match fst r, fst c with Some i, Some s => Some (readL i s) | _, _ => None end),
        (match snd r, snd c with Some k, Some s => Some (readR k s) | _, _ => None end) with
  | Some PNaN, Some w => w
  | Some v, _ => v
  | None, Some w => w
  | None, None => PNaN
  end.
Lemma val_sval r c : In c (pcols (pL p) (pR p) wl wr) -> val (rowsOf r) c = sval r (srcCol phiL phiR c).
Proof.
  intros H. destruct (pcols_bound _ _ _ _ c BL BR Hlen H) as [B1 B2]. destruct r as [a b]. destruct c as [x y]. cbn [fst snd] in *. unfold val, sval, rowsOf, srcCol. cbn [fst snd].
  destruct a as [i|], x as [x|]; cbn [option_map]; rewrite ?(at_L i x) by auto; destruct b as [k|], y as [y|]; cbn [option_map]; rewrite ?(at_R k y) by auto; reflexivity.
Qed.
Lemma joinCols_bound h c : In c (joinCols h ln rn) -> (forall j, fst c = Some j -> j < alen (tf t)) /\ (forall j, snd c = Some j -> j < alen (tf o)).
Proof.
  destruct WT as [_ [_ [_ IT]]]. destruct WO as [_ [_ [_ IO]]]. pose proof (getNames_length _ IT) as LT. pose proof (getNames_length _ IO) as LO. fold ln in LT. fold rn in LO.
  pose proof (names_Distinct _ IO) as DO. fold rn in DO.
  assert (G : forall l, (forall j, In j l -> j < List.length ln) -> In c (map (fun j => (Some j, partner ln rn j)) l) -> (forall j, fst c = Some j -> j < alen (tf t)) /\ (forall j, snd c = Some j -> j < alen (tf o))).
  { intros l B H. apply in_map_iff in H. destruct H as [x [<- H]]. cbn [fst snd]. split; [intros j E; injection E as <-; specialize (B x H); lia|]. intros j E. apply (partner_iff ln rn x j DO) in E. destruct E as [s [_ E]]. apply nth_error_lt in E. lia. }
  intros H. destruct h; cbn [joinCols] in H.
  - revert H. apply G. intros j Hj. apply filter_In in Hj. destruct Hj as [Hj _]. apply in_seq in Hj. lia.
  - apply in_app_or in H. destruct H as [H|H]; [revert H; apply G; intros j Hj; apply in_seq in Hj; lia|]. apply in_map_iff in H. destruct H as [x [<- H]]. apply filter_In in H. destruct H as [H _]. apply in_seq in H. cbn. split; [discriminate|]. intros j E. injection E as <-. lia.
  - revert H. apply G. intros j Hj. apply in_seq in Hj. lia.
Qed.
Lemma sval_cell r c : In r (joinRows point np nq m) -> In c (joinCols feature ln rn) -> sval r (asSrc c) = joinCell t o r c.
Proof.
  intros Hr Hc. destruct (joinRows_bound _ _ _ _ _ Hr) as [R1 R2]. destruct (joinCols_bound _ _ Hc) as [C1 C2]. destruct r as [a b]. destruct c as [x y]. cbn [fst snd] in *. unfold sval, joinCell, valueAt, asSrc. cbn [fst snd].
  destruct a as [i|], x as [x|]; cbn [option_map]; destruct b as [k|], y as [y|]; cbn [option_map]; rewrite ?(cell_cv t i x), ?(cell_cv o k y) by auto; unfold readL, readR, reads; try reflexivity; destruct (cv t i x); reflexivity.
Qed.
Lemma acceptable_iff i k : i < np -> k < nq -> m i k = true ->
  (acceptable (pL p) (pR p) (Lrow i) (Rrow k) = true <->
   forall j j', partner ln rn j = Some j' -> cv t i j = PNaN \/ cv o k j' = PNaN \/ Same (cv t i j) (cv o k j')).
Proof.
  intros Hi Hk HM. unfold acceptable. rewrite forallb_forall. split.
  - intros H j j' P. destruct (Pairs2 j j' P) as [x [y [I [X Y]]]]. specialize (H (x, y) I). cbn [fst snd] in H. pose proof (in_combine_l _ _ _ _ I) as I1. pose proof (in_combine_r _ _ _ _ I) as I2.
    rewrite (at_L i x (BL x I1)), (at_R k y (BR y I2)), X, Y in H. cbn in H. apply orb_prop in H. destruct H as [H|H]; [apply orb_prop in H; destruct H as [H|H]|].
    + right. right. apply pyEq_spec. exact H.
    + left. apply isNaN_spec. exact H.
    + right. left. apply isNaN_spec. exact H.
  - intros H [x y] I. cbn [fst snd]. pose proof (in_combine_l _ _ _ _ I) as I1. pose proof (in_combine_r _ _ _ _ I) as I2. rewrite (at_L i x (BL x I1)), (at_R k y (BR y I2)).
    destruct (Pairs1 x y I) as [[X [Y Q]]|[j [j' [X [Y P]]]]]; rewrite X, Y.
    + rewrite (Q i k Hi Hk HM). reflexivity.
    + cbn. destruct (H j j' P) as [E|[E|E]].
      * apply isNaN_spec in E. rewrite E. destruct (pyEq _ _); reflexivity.
      * apply isNaN_spec in E. rewrite E. rewrite orb_true_r. reflexivity.
      * apply pyEq_spec in E. rewrite E. reflexivity.
Qed.
Lemma partner_range j j' : partner ln rn j = Some j' -> j < alen (tf t) /\ j' < alen (tf o).
Proof.
  destruct WT as [_ [_ [_ IT]]]. destruct WO as [_ [_ [_ IO]]]. intros H. apply (partner_iff ln rn j j' (names_Distinct _ IO)) in H. destruct H as [s [A B]]. apply nth_error_lt in A. apply nth_error_lt in B.
  rewrite <- (getNames_length _ IT), <- (getNames_length _ IO). auto.
Qed.
Lemma fill_ok i : i < np -> List.length (matchesOf (onL p) (onR p) (pRight p) (Lrow i)) <= 1 \/ noNaN (pL p) (Lrow i).
Proof.
  intros Hi. rewrite matches_index by exact Hi. rewrite map_length. destruct (filter (m i) (seq 0 nq)) as [|k [|k' ks]] eqn:E; [left; cbn; lia|left; cbn; lia|right].
  intros x Hx. destruct (In_nth_error _ _ Hx) as [n Hn]. assert (L : n < List.length (pR p)) by (rewrite <- Hlen; eapply nth_error_lt; exact Hn). destruct (nth_error_is_some (pR p) L) as [y Hy].
  assert (I : In (x, y) (combine (pL p) (pR p))). { apply nth_error_In with n. rewrite nth_error_combine, Hn, Hy. reflexivity. }
  rewrite (at_L i x (BL x Hx)). destruct (Pairs1 x y I) as [[X _]|[j [j' [X [_ P]]]]]; rewrite X; cbn.
  - unfold ptKey. destruct (nth i (getNames (tp t)) None); discriminate.
  - intros N. assert (K1 : In k (filter (m i) (seq 0 nq))) by (rewrite E; left; reflexivity). assert (K2 : In k' (filter (m i) (seq 0 nq))) by (rewrite E; right; left; reflexivity).
    assert (ND : NoDup (filter (m i) (seq 0 nq))) by (apply NoDup_filter, seq_NoDup). rewrite E in ND. inversion ND as [|? ? ND1 _]; subst. apply filter_In in K1. apply filter_In in K2. destruct K1 as [K1 M1]. destruct K2 as [K2 M2]. apply in_seq in K1. apply in_seq in K2.
    destruct (partner_range j j' P) as [RJ _]. assert (HP : hasPartner ln rn j = true) by (apply hasPartner_iff; eauto).
    assert (k = k') by (apply (NR i k k' j M1 M2); try (unfold nq in *; lia); [exact HP|rewrite (cell_cv t i j WT Hi RJ), N; reflexivity]). subst k'. apply ND1. left. reflexivity.
Qed.
Lemma prepared_join :
  (~ Conflict t o m /\ mergeRows point names p = (map (fun rw => map (joinCell t o rw) (joinCols feature ln rn)) (joinRows point np nq m), Ok (List.length (joinCols feature ln rn)))) \/
  (Conflict t o m /\ exists l', mergeRows point names p = (l', Err InvalidArgumentValue)).
Proof.
  assert (A1 : forall r, In r (pRight p) -> List.length r = wr) by (rewrite HPR; intros r Hr; apply in_map_iff in Hr; destruct Hr as [k [<- _]]; unfold Rrow; rewrite map_length; reflexivity).
  assert (A2 : forall r, In r (pLeft p) -> List.length r = wl) by (rewrite HPL; intros r Hr; apply in_map_iff in Hr; destruct Hr as [k [<- _]]; unfold Lrow; rewrite map_length; reflexivity).
  assert (A3 : pRight p <> []) by (rewrite HPR; destruct nq; [lia|discriminate]). assert (A4 : pLeft p <> []) by (rewrite HPL; destruct np; [lia|discriminate]).
  assert (A5 : forall l, In l (pLeft p) -> List.length (matchesOf (onL p) (onR p) (pRight p) l) <= 1 \/ noNaN (pL p) l).
  { intros l Hl. rewrite HPL in Hl. apply in_map_iff in Hl. destruct Hl as [i [<- Hi]]. apply in_seq in Hi. apply fill_ok. lia. }
  pose proof (mergeRows_spec point names p wl wr Hlen NDL NDR BL BR A1 A2 A3 A4 A5) as H. cbv zeta in H. destruct (forallb _ (pLeft p)) eqn:OK.
  - left. split.
    + intros [i [k [j [j' [v [w [HM [P [V [W [NV [NW NS]]]]]]]]]]]]. destruct (cell_cv' t i j v WT V) as [-> [Hi _]]. destruct (cell_cv' o k j' w WO W) as [-> [Hk _]].
      rewrite forallb_forall in OK. assert (I : In (Lrow i) (pLeft p)) by (rewrite HPL; apply in_map, in_seq; fold np in Hi; lia). specialize (OK _ I). unfold ok1 in OK. rewrite matches_index in OK by exact Hi. rewrite forallb_forall in OK.
      assert (I2 : In (Rrow k) (map Rrow (filter (m i) (seq 0 nq)))) by (apply in_map, filter_In; split; [apply in_seq; fold nq in Hk; lia|exact HM]). specialize (OK _ I2).
      destruct (proj1 (acceptable_iff i k Hi Hk HM) OK j j' P) as [E|[E|E]]; auto.
    + rewrite H. rewrite rowJoin_index.
      assert (LC : List.length (pcols (pL p) (pR p) wl wr) = (if names then 1 else 0) + List.length (joinCols feature ln rn)).
      { rewrite <- (map_length (srcCol phiL phiR)), Cols. destruct names; cbn; rewrite map_length; reflexivity. }
      assert (RW : forall r, In r (joinRows point np nq m) -> (if names then skipn 1 else fun l => l) (map (val (rowsOf r)) (pcols (pL p) (pR p) wl wr)) = map (joinCell t o r) (joinCols feature ln rn)).
      { intros r Hr. assert (X : map (val (rowsOf r)) (pcols (pL p) (pR p) wl wr) = map (sval r) (map (srcCol phiL phiR) (pcols (pL p) (pR p) wl wr))).
        { rewrite map_map. apply map_ext_in. intros c Hc. apply val_sval. exact Hc. }
        rewrite X, Cols. destruct names; cbn [map skipn]; rewrite map_map; apply map_ext_in; intros c Hc; apply sval_cell; assumption. }
      f_equal.
      * destruct names; rewrite !map_map; apply map_ext_in; exact RW.
      * f_equal. rewrite LC. destruct names; cbn; lia.
  - right. split; [|exact H]. assert (E : exists l, In l (pLeft p) /\ ok1 (pL p) (pR p) (onL p) (onR p) (pRight p) l = false).
    { clear - OK. induction (pLeft p) as [|l ls IH]; [discriminate|]. cbn in OK. destruct (ok1 _ _ _ _ _ l) eqn:E; [destruct (IH OK) as [x [X Y]]; exists x; split; [right; exact X|exact Y]|exists l; split; [left; reflexivity|exact E]]. }
    destruct E as [l [Hl E]]. rewrite HPL in Hl. apply in_map_iff in Hl. destruct Hl as [i [<- Hi]]. apply in_seq in Hi. assert (Hi' : i < np) by lia. unfold ok1 in E. rewrite (matches_index i Hi') in E.
    assert (E2 : exists k, In k (filter (m i) (seq 0 nq)) /\ acceptable (pL p) (pR p) (Lrow i) (Rrow k) = false).
    { clear - E. induction (filter (m i) (seq 0 nq)) as [|k ks IH]; [discriminate|]. cbn in E. destruct (acceptable _ _ _ (Rrow k)) eqn:A; [destruct (IH E) as [x [X Y]]; exists x; split; [right; exact X|exact Y]|exists k; split; [left; reflexivity|exact A]]. }
    destruct E2 as [k [Hk A]]. apply filter_In in Hk. destruct Hk as [Hk HM]. apply in_seq in Hk. assert (Hk' : k < nq) by lia.
    (* some shared feature is refused *)
    assert (N : exists xy, In xy (combine (pL p) (pR p)) /\ pyEq (at_ (Lrow i) (fst xy)) (at_ (Rrow k) (snd xy)) || isNaN (at_ (Lrow i) (fst xy)) || isNaN (at_ (Rrow k) (snd xy)) = false).
    { unfold acceptable in A. clear - A. induction (combine (pL p) (pR p)) as [|c cs IH]; [discriminate|]. cbn in A. destruct (pyEq (at_ (Lrow i) (fst c)) (at_ (Rrow k) (snd c)) || isNaN (at_ (Lrow i) (fst c)) || isNaN (at_ (Rrow k) (snd c))) eqn:X.
      - destruct (IH A) as [y [Y Z]]. exists y. split; [right; exact Y|exact Z].
      - exists c. split; [left; reflexivity|exact X]. }
    destruct N as [[x y] [I N]]. cbn [fst snd] in N. pose proof (in_combine_l _ _ _ _ I) as I1. pose proof (in_combine_r _ _ _ _ I) as I2. rewrite (at_L i x (BL x I1)), (at_R k y (BR y I2)) in N.
    destruct (Pairs1 x y I) as [[X [Y Q]]|[j [j' [X [Y P]]]]]; rewrite X, Y in N; [rewrite (Q i k Hi' Hk' HM) in N; discriminate|]. cbn in N.
    apply orb_false_elim in N. destruct N as [N N3]. apply orb_false_elim in N. destruct N as [N1 N2]. destruct (partner_range j j' P) as [RJ RJ'].
    exists i, k, j, j', (cv t i j), (cv o k j'). split; [exact HM|]. split; [exact P|]. split; [apply cell_cv; assumption|]. split; [apply cell_cv; assumption|]. split; [|split].
    + intros Z. apply isNaN_spec in Z. congruence.
    + intros Z. apply isNaN_spec in Z. congruence.
    + intros Z. apply pyEq_spec in Z. congruence.
Qed.
End Join.
