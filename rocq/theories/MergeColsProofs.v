(** Proofs about the features of a merge: matching features and columns (C16). *)
From Verif Require Import Base NamesModel NamesSpec NamesProofs TableModel TableSpec TableProofs TableOps MatchModel MatchSpec MatchProofs ElementsCalcProofs
  FillMatchProofs BinOpModel BinOpSpec BinOpProofs MergeModel MergeSpec MergeLoopProofs CalcModeProofs.
From Coq Require Import Sorted.
Open Scope nat_scope.

(** ** names *)
Lemma posName_some s l j : posName s l = Some j -> nth_error l j = Some (Some s).
Proof.
  revert j. induction l as [|o l IH]; cbn; intros j H; [discriminate|]. destruct o as [s'|].
  - destruct (String.eqb_spec s s') as [->|]; [injection H as <-; reflexivity|]. destruct (posName s l) as [k|]; [|discriminate]. injection H as <-. apply IH. reflexivity.
  - destruct (posName s l) as [k|]; [|discriminate]. injection H as <-. apply IH. reflexivity.
Qed.
Lemma posName_none s l : posName s l = None <-> ~ In (Some s) l.
Proof.
  induction l as [|o l IH]; cbn; [tauto|]. destruct o as [s'|].
  - destruct (String.eqb_spec s s') as [->|N]; [split; [discriminate|tauto]|]. destruct (posName s l); cbn; split; try discriminate; try tauto.
    + intros H. exfalso. apply H. right. destruct IH as [_ IH]. destruct (in_dec eq_dec (Some s) l) as [I|I]; [exact I|discriminate (IH I)].
    + intros _ [E|I]; [congruence|]. apply (proj1 IH eq_refl I).
  - destruct (posName s l); cbn; split; try discriminate; try tauto.
    + intros H. exfalso. apply H. right. destruct IH as [_ IH]. destruct (in_dec eq_dec (Some s) l) as [I|I]; [exact I|discriminate (IH I)].
    + intros _ [E|I]; [discriminate|]. apply (proj1 IH eq_refl I).
Qed.
Lemma posName_iff s l j : Distinct l -> (posName s l = Some j <-> nth_error l j = Some (Some s)).
Proof.
  intros D. split; [apply posName_some|]. intros H. destruct (posName s l) as [k|] eqn:E.
  - apply posName_some in E. f_equal. apply (D _ _ _ E H).
  - exfalso. apply (proj1 (posName_none s l) E). eapply nth_error_In. exact H.
Qed.
Lemma partner_iff ln rn j j' : Distinct rn -> (partner ln rn j = Some j' <-> exists s, nth_error ln j = Some (Some s) /\ nth_error rn j' = Some (Some s)).
Proof.
  intros D. unfold partner. split.
  - destruct (nth j ln None) as [s|] eqn:E; [|discriminate]. intros H. exists s. split; [|apply posName_some; exact H].
    destruct (nth_error ln j) as [o|] eqn:E'; [rewrite (nth_error_nth _ _ _ E') in E; congruence|]. apply nth_error_None in E'. rewrite nth_overflow in E by exact E'. discriminate.
  - intros [s [A B]]. rewrite (nth_error_nth _ _ _ A). apply posName_iff; assumption.
Qed.
Lemma partner_sym ln rn j j' : Distinct ln -> Distinct rn -> (partner ln rn j = Some j' <-> partner rn ln j' = Some j).
Proof. intros A B. rewrite (partner_iff ln rn j j' B), (partner_iff rn ln j' j A). split; intros [s [X Y]]; exists s; tauto. Qed.
Lemma hasPartner_iff ln rn j : hasPartner ln rn j = true <-> exists j', partner ln rn j = Some j'.
Proof. unfold hasPartner. destruct (partner ln rn j); split; intros H; eauto; try discriminate. destruct H; discriminate. Qed.

(** ** matching features *)
Definition found (a : axis) (s : string) : nat := match dget s (names_dict a) with Some i => i | None => 0 end.
Lemma dmem_dget {V} s (d : dict string V) : dmem s d = true <-> exists v, dget s d = Some v.
Proof.
  unfold dmem, dkeys. induction d as [|[k v] d IH]; cbn [map fst mem dget]; [split; [discriminate|intros [v H]; discriminate]|].
  destruct (eq_dec s k) as [->|N]; [split; [eauto|reflexivity]|]. exact IH.
Qed.
Lemma matchingNames_eq a b : Inv a -> Inv b -> matchingNames a b = filter (fun s => dmem s (names_dict b)) (dkeys (names_dict a)).
Proof.
  intros IA IB. unfold matchingNames. destruct (nodupb (getNames a ++ getNames b)) eqn:E; [|reflexivity].
  destruct (filter _ _) as [|s l] eqn:F; [reflexivity|exfalso]. assert (I : In s (filter (fun s => dmem s (names_dict b)) (dkeys (names_dict a)))) by (rewrite F; left; reflexivity).
  apply filter_In in I. destruct I as [I1 I2]. assert (I3 : dmem s (names_dict a) = true) by (apply mem_In; exact I1).
  apply dmem_dget in I2. apply dmem_dget in I3. destruct I2 as [j J]. destruct I3 as [i H].
  destruct (Inv_facts a IA) as [_ [_ FA]]. destruct (Inv_facts b IB) as [_ [_ FB]]. apply FA in H. apply FB in J. apply nth_error_In in H. apply nth_error_In in J.
  assert (ND : NoDup (getNames a ++ getNames b)).
  { clear - E. induction (getNames a ++ getNames b) as [|x l IH]; [constructor|]. cbn in E. apply andb_prop in E. destruct E as [E1 E2]. constructor; [|auto]. apply mem_not_In. destruct (mem x l); [discriminate|reflexivity]. }
  apply in_split in H. destruct H as [l1 [l2 H]]. unfold getNames in ND. rewrite !names_inv_ensure, H in ND. rewrite <- app_assoc in ND. cbn in ND. apply NoDup_remove_2 in ND. apply ND.
  rewrite !in_app_iff. auto.
Qed.
Lemma getIndexByName_found a s : dmem s (names_dict a) = true -> getIndexByName a s = Ok (found a s).
Proof. intros H. unfold getIndexByName, found. rewrite names_dict_ensure. apply dmem_dget in H. destruct H as [v ->]. reflexivity. Qed.
Lemma rmapM_all {A B} (f : A -> result B) (g : A -> B) l : (forall x, In x l -> f x = Ok (g x)) -> rmapM f l = Ok (map g l).
Proof. induction l as [|x l IH]; cbn; intros H; [reflexivity|]. rewrite (H x (or_introl eq_refl)). cbn. rewrite IH by (intros; apply H; right; assumption). reflexivity. Qed.
Record Matching (a b : axis) (mL mR : list nat) : Prop := mkMatching {
  mt_len : List.length mL = List.length mR;
  mt_ndl : NoDup mL; mt_ndr : NoDup mR;
  mt_bl : forall x, In x mL -> x < alen a; mt_br : forall x, In x mR -> x < alen b;
  mt_pairs : forall j j', (exists k, nth_error mL k = Some j /\ nth_error mR k = Some j') <-> partner (getNames a) (getNames b) j = Some j';
  mt_sorted : InOrder a -> StronglySorted lt mL }.
Lemma found_spec a s : Inv a -> dmem s (names_dict a) = true -> nth_error (getNames a) (found a s) = Some (Some s).
Proof. intros IA H. apply dmem_dget in H. destruct H as [i H]. unfold found. rewrite H. destruct (Inv_facts a IA) as [_ [_ FA]]. unfold getNames. rewrite names_inv_ensure. apply FA. exact H. Qed.
Lemma matchingIdx_spec a b : Inv a -> Inv b -> exists mL mR, matchingIdx a b = Ok (mL, mR) /\ Matching a b mL mR.
Proof.
  intros IA IB. unfold matchingIdx. rewrite (matchingNames_eq a b IA IB). set (ns := filter (fun s => dmem s (names_dict b)) (dkeys (names_dict a))).
  assert (HN : forall s, In s ns <-> dmem s (names_dict a) = true /\ dmem s (names_dict b) = true) by (intros s; unfold ns; rewrite filter_In, <- mem_In; tauto).
  rewrite (rmapM_all _ (found a)) by (intros s Hs; apply getIndexByName_found; apply HN; exact Hs). rewrite (rmapM_all _ (found b)) by (intros s Hs; apply getIndexByName_found; apply HN; exact Hs).
  cbn [rbind]. exists (map (found a) ns), (map (found b) ns). split; [reflexivity|].
  destruct (Inv_facts a IA) as [LA [WA FA]]. destruct (Inv_facts b IB) as [LB [WB FB]]. pose proof (names_Distinct a IA) as DA. pose proof (names_Distinct b IB) as DB.
  assert (NDn : NoDup ns) by (apply NoDup_filter; exact WA).
  assert (FSa : forall s, In s ns -> nth_error (getNames a) (found a s) = Some (Some s)) by (intros s Hs; apply found_spec; [exact IA|apply HN; exact Hs]).
  assert (FSb : forall s, In s ns -> nth_error (getNames b) (found b s) = Some (Some s)) by (intros s Hs; apply found_spec; [exact IB|apply HN; exact Hs]).
  assert (LNa : List.length (getNames a) = alen a) by (apply getNames_length; exact IA). assert (LNb : List.length (getNames b) = alen b) by (apply getNames_length; exact IB).
  constructor.
  - rewrite !map_length. reflexivity.
  - clear NDn. assert (NDn : NoDup ns) by (apply NoDup_filter; exact WA). revert FSa NDn. generalize ns. induction ns0 as [|s l IH]; intros F ND; [constructor|]. inversion ND; subst. cbn. constructor; [|apply IH; auto; intros; apply F; right; assumption].
    intros I. apply in_map_iff in I. destruct I as [s' [E I]]. pose proof (F s (or_introl eq_refl)) as X. pose proof (F s' (or_intror I)) as Y. rewrite E in Y. rewrite X in Y. injection Y as <-. contradiction.
  - revert FSb NDn. generalize ns. induction ns0 as [|s l IH]; intros F ND; [constructor|]. inversion ND; subst. cbn. constructor; [|apply IH; auto; intros; apply F; right; assumption].
    intros I. apply in_map_iff in I. destruct I as [s' [E I]]. pose proof (F s (or_introl eq_refl)) as X. pose proof (F s' (or_intror I)) as Y. rewrite E in Y. rewrite X in Y. injection Y as <-. contradiction.
  - intros x Hx. apply in_map_iff in Hx. destruct Hx as [s [<- Hs]]. specialize (FSa s Hs). apply nth_error_lt in FSa. lia.
  - intros x Hx. apply in_map_iff in Hx. destruct Hx as [s [<- Hs]]. specialize (FSb s Hs). apply nth_error_lt in FSb. lia.
  - intros j j'. rewrite (partner_iff _ _ j j' DB). split.
    + intros [k [X Y]]. rewrite nth_error_map_eq in X, Y. destruct (nth_error ns k) as [s|] eqn:E; [|discriminate]. injection X as <-. injection Y as <-. apply nth_error_In in E. exists s. auto.
    + intros [s [X Y]]. unfold getNames in X, Y. rewrite names_inv_ensure in X, Y. apply FA in X. apply FB in Y. assert (I : In s ns) by (apply HN; rewrite !dmem_dget; eauto). apply In_nth_error in I. destruct I as [k I]. exists k. rewrite !nth_error_map_eq, I. cbn. unfold found. rewrite X, Y. auto.
  - intros O. unfold InOrder in O. unfold ns, dkeys. unfold wfdict in WA.
    assert (E : map (found a) (filter (fun s => dmem s (names_dict b)) (map fst (names_dict a))) = map snd (filter (fun p => dmem (fst p) (names_dict b)) (names_dict a))).
    { rewrite filter_map_eq, map_map. apply map_ext_in. intros [s i] Hp. apply filter_In in Hp. destruct Hp as [Hp _]. unfold found. cbn. erewrite In_dget; [reflexivity|exact WA|exact Hp]. }
    rewrite E. clear - O. induction (names_dict a) as [|p d IH]; cbn in *; [constructor|]. inversion O; subst. destruct (dmem (fst p) (names_dict b)); cbn; [|auto]. constructor; [auto|].
    rewrite Forall_forall in *. intros x Hx. apply H2. apply in_map_iff in Hx. destruct Hx as [q [<- Hq]]. apply filter_In in Hq. apply in_map. apply Hq.
Qed.
Lemma Matching_in_order a b mL mR : Inv a -> Matching a b mL mR -> InOrder a -> mL = filter (hasPartner (getNames a) (getNames b)) (seq 0 (List.length (getNames a))).
Proof.
  intros IA M O. rewrite (getNames_length a IA). rewrite <- (filter_seq_sorted mL (alen a) (mt_sorted _ _ _ _ M O) (mt_bl _ _ _ _ M)) at 1. apply filter_ext. intros j. apply eq_true_iff_eq. rewrite mem_In, hasPartner_iff. split.
  - intros I. apply In_nth_error in I. destruct I as [k I]. assert (L : k < List.length mR) by (rewrite <- (mt_len _ _ _ _ M); eapply nth_error_lt; exact I). destruct (nth_error_is_some mR L) as [j' J]. exists j'. apply (mt_pairs _ _ _ _ M). eauto.
  - intros [j' H]. apply (mt_pairs _ _ _ _ M) in H. destruct H as [k [H _]]. eapply nth_error_In. exact H.
Qed.

(** ** columns *)
(** where a prepared position comes from: the key made of the point name, or a
    feature *)
Inductive src := SKey | SCol (j : nat).
Definition srcAt (phi : list src) (p : nat) : src := nth p phi SKey.
Definition srcCol (phiL phiR : list src) (c : option nat * option nat) : option src * option src :=
  (option_map (srcAt phiL) (fst c), option_map (srcAt phiR) (snd c)).
Definition asSrc (c : option nat * option nat) : option src * option src := (option_map SCol (fst c), option_map SCol (snd c)).
Lemma srcAt_map l p : p < List.length l -> srcAt (map SCol l) p = SCol (nth p l 0).
Proof. intros H. unfold srcAt. rewrite (nth_indep _ SKey (SCol 0)) by (rewrite map_length; exact H). apply map_nth. Qed.
Lemma srcAt_seq n p : p < n -> srcAt (map SCol (seq 0 n)) p = SCol p.
Proof. intros H. rewrite srcAt_map by (rewrite seq_length; exact H). rewrite seq_nth by exact H. reflexivity. Qed.
Lemma indexOf_seq p : forall n a, a <= p < a + n -> indexOf p (seq a n) = Some (p - a).
Proof.
  intros n a H. assert (E : nth_error (seq a n) (p - a) = Some p) by (rewrite nth_error_seq; destruct (Nat.ltb_spec (p - a) n); [f_equal; lia|lia]).
  apply indexOf_nth; [apply seq_NoDup|exact E].
Qed.
Section Cols.
Variables (a b : axis) (mL mR : list nat).
Hypothesis IA : Inv a.
Hypothesis IB : Inv b.
Hypothesis M : Matching a b mL mR.
Let ln := getNames a.
Let rn := getNames b.
Let nl := alen a.
Let nr := alen b.
Lemma lookup_partner p : lookup mL mR p = partner ln rn p.
Proof.
  unfold lookup. destruct (indexOf p mL) as [k|] eqn:E; cbn.
  - apply indexOf_some in E. symmetry. apply (mt_pairs _ _ _ _ M). exists k. split; [exact E|]. assert (L : k < List.length mR) by (rewrite <- (mt_len _ _ _ _ M); eapply nth_error_lt; exact E). destruct (nth_error_is_some mR L) as [x X]. rewrite (nth_error_nth _ _ _ X). exact X.
  - destruct (partner ln rn p) as [j'|] eqn:P; [|reflexivity]. apply (mt_pairs _ _ _ _ M) in P. destruct P as [k [P _]]. apply indexOf_none in E. exfalso. apply E. eapply nth_error_In. exact P.
Qed.
Lemma mR_partner q : mem q mR = hasPartner rn ln q.
Proof.
  apply eq_true_iff_eq. rewrite mem_In, hasPartner_iff. pose proof (names_Distinct a IA) as DA. pose proof (names_Distinct b IB) as DB. split.
  - intros I. apply In_nth_error in I. destruct I as [k I]. assert (L : k < List.length mL) by (rewrite (mt_len _ _ _ _ M); eapply nth_error_lt; exact I). destruct (nth_error_is_some mL L) as [j J]. exists j. apply partner_sym; [exact DB|exact DA|]. apply (mt_pairs _ _ _ _ M). eauto.
  - intros [j H]. apply (proj1 (partner_sym rn ln q j DB DA)) in H. apply (mt_pairs _ _ _ _ M) in H. destruct H as [k [_ H]]. eapply nth_error_In. exact H.
Qed.
Lemma partner_bound p j : partner ln rn p = Some j -> j < nr /\ p < nl.
Proof.
  intros H. apply (mt_pairs _ _ _ _ M) in H. destruct H as [k [A B]]. split; [apply (mt_br _ _ _ _ M)|apply (mt_bl _ _ _ _ M)]; eapply nth_error_In; eassumption.
Qed.
Lemma cols_union : map (srcCol (map SCol (seq 0 nl)) (map SCol (seq 0 nr))) (pcols mL mR nl nr) = map asSrc (joinCols Union ln rn).
Proof.
  unfold pcols, joinCols. rewrite !map_app, !map_map. unfold ln at 2, rn at 3. rewrite (getNames_length a IA), (getNames_length b IB). fold nl nr. f_equal.
  - apply map_ext_in. intros p Hp. apply in_seq in Hp. unfold srcCol, asSrc. cbn [fst snd option_map]. rewrite lookup_partner, srcAt_seq by lia. f_equal. destruct (partner ln rn p) as [j|] eqn:P; cbn; [|reflexivity]. rewrite srcAt_seq; [reflexivity|]. apply (partner_bound p j P).
  - unfold restR. rewrite (filter_ext _ (fun j => negb (hasPartner rn ln j))) by (intros q; rewrite mR_partner; reflexivity). apply map_ext_in. intros q Hq. apply filter_In in Hq. destruct Hq as [Hq _]. apply in_seq in Hq. unfold srcCol, asSrc. cbn. rewrite srcAt_seq by lia. reflexivity.
Qed.
Lemma lookup_seq p n : lookup mL (seq 0 n) p = match indexOf p mL with Some k => if k <? n then Some k else Some 0 | None => None end.
Proof. unfold lookup. destruct (indexOf p mL) as [k|]; cbn [option_map]; [|reflexivity]. destruct (Nat.ltb_spec k n); [rewrite seq_nth by assumption; reflexivity|rewrite nth_overflow by (rewrite seq_length; assumption); reflexivity]. Qed.
Lemma restR_seq n : restR (seq 0 n) n = [].
Proof.
  unfold restR. destruct (filter _ _) as [|x l] eqn:E; [reflexivity|]. assert (I : In x (filter (fun i => negb (mem i (seq 0 n))) (seq 0 n))) by (rewrite E; left; reflexivity). apply filter_In in I. destruct I as [I J]. apply mem_In in I. rewrite I in J. discriminate.
Qed.
Lemma cols_left : map (srcCol (map SCol (seq 0 nl)) (map SCol mR)) (pcols mL (seq 0 (List.length mR)) nl (List.length mR)) = map asSrc (joinCols LeftOnly ln rn).
Proof.
  unfold pcols, joinCols. rewrite restR_seq. cbn [map]. rewrite app_nil_r, !map_map. unfold ln at 2. rewrite (getNames_length a IA). fold nl.
  apply map_ext_in. intros p Hp. apply in_seq in Hp. unfold srcCol, asSrc. cbn [fst snd option_map]. rewrite srcAt_seq by lia. f_equal. rewrite <- lookup_partner, lookup_seq. unfold lookup.
  destruct (indexOf p mL) as [k|] eqn:E; cbn [option_map]; [|reflexivity]. apply indexOf_some, nth_error_lt in E. rewrite (mt_len _ _ _ _ M) in E. destruct (Nat.ltb_spec k (List.length mR)); [|lia]. cbn. rewrite srcAt_map by exact E. reflexivity.
Qed.
Lemma cols_inter : InOrder a -> map (srcCol (map SCol mL) (map SCol mR)) (pcols (seq 0 (List.length mL)) (seq 0 (List.length mL)) (List.length mL) (List.length mL)) = map asSrc (joinCols Intersection ln rn).
Proof.
  intros O. unfold pcols, joinCols. rewrite restR_seq. cbn [map]. rewrite app_nil_r, !map_map. unfold ln, rn. rewrite <- (Matching_in_order a b mL mR IA M O). fold ln rn.
  assert (E : forall (F : nat -> option src * option src) l, map F l = map (fun k => F (nth k l 0)) (seq 0 (List.length l))).
  { intros F l. rewrite <- (map_map (fun k => nth k l 0) F). f_equal. apply (nth_map_seq _ _ _ 0); auto. }
  rewrite (E _ mL). apply map_ext_in. intros k Hk. apply in_seq in Hk. unfold srcCol, asSrc. cbn [fst snd option_map]. rewrite srcAt_map by lia. f_equal.
  unfold lookup. rewrite indexOf_seq by lia. cbn. rewrite Nat.sub_0_r, seq_nth by lia. cbn. rewrite srcAt_map by (rewrite <- (mt_len _ _ _ _ M); lia).
  destruct (nth_error_is_some mL (i := k)) as [j J]; [lia|]. destruct (nth_error_is_some mR (i := k)) as [j' J']; [rewrite <- (mt_len _ _ _ _ M); lia|]. rewrite (nth_error_nth _ _ _ J), (nth_error_nth _ _ _ J').
  assert (P : partner ln rn j = Some j') by (apply (mt_pairs _ _ _ _ M); eauto). rewrite P. reflexivity.
Qed.
End Cols.
(** ** with the key in front *)
Definition shiftCol (c : option nat * option nat) : option nat * option nat := (option_map S (fst c), option_map S (snd c)).
Lemma indexOf_map_S p l : indexOf (S p) (map S l) = indexOf p l.
Proof. induction l as [|x l IH]; cbn; [reflexivity|]. rewrite IH. destruct (p =? x); reflexivity. Qed.
Lemma pcols_shift pL pR wl wr : List.length pL = List.length pR ->
  pcols (0 :: map S pL) (0 :: map S pR) (S wl) (S wr) = (Some 0, Some 0) :: map shiftCol (pcols pL pR wl wr).
Proof.
  intros HL. unfold pcols. cbn [seq map app]. f_equal. rewrite map_app, !map_map. f_equal.
  - rewrite <- seq_shift, map_map. apply map_ext. intros p. unfold shiftCol. cbn [fst snd option_map]. f_equal. unfold lookup. cbn [indexOf]. change (S p =? 0) with false. cbn [option_map]. rewrite indexOf_map_S.
    destruct (indexOf p pL) as [k|] eqn:E; cbn; [|reflexivity]. f_equal. apply indexOf_some, nth_error_lt in E. rewrite (nth_indep _ 0 (S 0)) by (rewrite map_length; lia). apply map_nth.
  - unfold restR. cbn [seq filter]. replace (mem 0 (0 :: map S pR)) with true by (symmetry; apply mem_In; left; reflexivity). cbn [negb]. rewrite <- seq_shift, filter_map_eq, map_map.
    rewrite (filter_ext (fun x => negb (mem (S x) (0 :: map S pR))) (fun x => negb (mem x pR))); [reflexivity|]. intros x. f_equal. apply eq_true_iff_eq. rewrite !mem_In. cbn. rewrite in_map_iff. split.
    + intros [E|[y [E I]]]; [discriminate|]. injection E as ->. exact I.
    + intros I. right. eauto.
Qed.
Lemma srcCol_shift phiL phiR c : srcCol (SKey :: phiL) (SKey :: phiR) (shiftCol c) = srcCol phiL phiR c.
Proof. destruct c as [[p|] [q|]]; reflexivity. Qed.
