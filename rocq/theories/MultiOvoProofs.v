(** Proofs for C67, continued: votes, OneVsOne results, training, raw scores. *)
From Verif Require Import Base NamesModel NamesSpec NamesProofs TableModel TableSpec TableProofs TablePermProofs TableOps TableOps3Proofs TableSortProofs MatchModel MatchSpec MatchProofs ElementsModel ElementsSpec ElementsProofs ElementsCalcProofs LearnModel LearnSpec LearnProofs LearnMultiProofs GetModel GetSpec GetCountProofs GetProofs GetIterProofs ImputeKnnProofs EncodeProofs MergeLoopProofs MultiModel MultiSpec MultiProofs.
From Coq Require Import QArith Lqa Sorted Permutation Lia.
Open Scope string_scope. Open Scope list_scope. Open Scope nat_scope.

Lemma F2_impl {X Y} (R R' : X -> Y -> Prop) a b : (forall x y, R x y -> R' x y) -> Forall2 R a b -> Forall2 R' a b.
Proof. intros H. induction 1; constructor; auto. Qed.
(** ** Votes *)
Section Order.
Variable L : list ovalue.
Hypothesis HO : OneNaN L.
Definition firstAt (l : list ovalue) (p : nat) (kn : ovalue * nat) : Prop :=
  nth_error l p = Some (fst kn) /\ forall q x, q < p -> nth_error l q = Some x -> ~ seE (fst kn) x.
Lemma firstAt_snoc l v p kn : firstAt l p kn -> firstAt (l ++ [v]) p kn.
Proof.
  intros [A B]. assert (p < List.length l) by (eapply nth_error_lt; eauto). split; [rewrite nth_error_app1; auto|].
  intros q x Hq Hx. rewrite nth_error_app1 in Hx by lia. eauto.
Qed.
Lemma SS_snoc (l : list nat) x : StronglySorted lt l -> (forall y, In y l -> y < x) -> StronglySorted lt (l ++ [x]).
Proof.
  induction 1 as [|y l S IH H]; intros HX; cbn; [repeat constructor|]. constructor; [apply IH; intros; apply HX; right; auto|].
  apply Forall_app. split; auto. constructor; auto. apply HX; left; auto.
Qed.
Lemma order_ok l : (forall x, In x l -> In x L) -> exists poss, Forall2 (firstAt l) poss (fold_left (fun d v => bump v d) l []) /\
  StronglySorted lt poss /\ forall p, In p poss -> p < List.length l.
Proof.
  induction l as [|v l IH] using rev_ind; intros HL; [exists []; cbn; split; [constructor|split; [constructor|intros ? []]]|].
  destruct IH as [poss [F [S R]]]; [intros; apply HL, in_or_app; auto|]. rewrite fold_left_app. cbn [fold_left].
  pose proof (fold_bump_ok L HO l) as [A [B _]]; [intros; apply HL, in_or_app; auto|].
  set (d := fold_left (fun d v => bump v d) l []) in *. clearbody d.
  destruct (bump_spec L HO v d) as [[N E]|[i [k [n [Ei [Hk E]]]]]]; [intros k n Hk; apply HL, in_or_app; left; apply (B k n Hk)|apply HL, in_or_app; right; left; auto| |]; rewrite E.
  - exists (poss ++ [List.length l]). split; [|split; [apply SS_snoc; auto|]].
    + apply Forall2_app.
      * eapply F2_impl; [|exact F]. intros; apply firstAt_snoc; auto.
      * constructor; [|constructor]. split; cbn [fst]; [rewrite nth_error_app2, Nat.sub_diag; auto|].
        intros q x Hq Hx. rewrite nth_error_app1 in Hx by auto. intros C. destruct (A x (nth_error_In _ _ Hx)) as [k [n [Y Z]]].
        apply (N k n Y). eapply SameElement_trans; [exact Z|]. apply SameElement_sym. exact C.
    + intros p Hp. rewrite app_length; cbn. apply in_app_or in Hp. destruct Hp as [Hp|[<-|[]]]; [apply R in Hp; lia|lia].
  - exists poss. split; [|split; auto; intros p Hp; rewrite app_length; apply R in Hp; lia].
    assert (F' : Forall2 (firstAt (l ++ [v])) poss d) by (eapply F2_impl; [|exact F]; intros; apply firstAt_snoc; auto).
    clear -F' Ei. revert i Ei. induction F' as [|p kn ps ds H F IH]; intros [|i] Ei; cbn in Ei; try discriminate; cbn [upd].
    + injection Ei as ->. constructor; auto.
    + constructor; auto.
Qed.
End Order.
Lemma fold_max_spec (r : list (pval * nat)) : forall p, let b := fold_left (fun b q => if snd b <? snd q then q else b) r p in
  (b = p /\ forall q, In q r -> snd q <= snd p) \/
  exists i, nth_error r i = Some b /\ snd p < snd b /\ (forall q, In q r -> snd q <= snd b) /\ forall j q, j < i -> nth_error r j = Some q -> snd q < snd b.
Proof.
  induction r as [|q r IH]; intros p; cbn [fold_left]; [left; split; auto; intros ? []|].
  destruct (snd p <? snd q) eqn:E.
  - apply Nat.ltb_lt in E. right. destruct (IH q) as [[A B]|[i [A [B [C D]]]]].
    + exists 0. cbn zeta in A. rewrite A. split; auto. split; auto. split; [|intros; lia]. intros x [<-|Hx]; auto.
    + exists (S i). split; auto. split; [lia|]. split; [intros x [<-|Hx]; auto; lia|]. intros [|j] x Hj Hx; cbn in Hx; [injection Hx as <-; auto|]. apply (D j); auto; lia.
  - apply Nat.ltb_ge in E. destruct (IH p) as [[A B]|[i [A [B [C D]]]]].
    + left. split; auto. intros x [<-|Hx]; auto.
    + right. exists (S i). split; auto. split; auto. split; [intros x [<-|Hx]; auto; lia|]. intros [|j] x Hj Hx; cbn in Hx; [injection Hx as <-; lia|]. apply (D j); auto; lia.
Qed.
Lemma maxKey_first (d : list (pval * nat)) : d <> [] -> exists i l c, maxKey d = Some l /\ nth_error d i = Some (l, c) /\
  (forall q, In q d -> snd q <= c) /\ forall j q, j < i -> nth_error d j = Some q -> snd q < c.
Proof.
  intros H. destruct d as [|p r]; [congruence|]. cbn [maxKey]. destruct (fold_max_spec r p) as [[A B]|[i [A [B [C D]]]]].
  - cbn zeta in A. rewrite A. exists 0, (fst p), (snd p). split; auto. split; [destruct p; auto|]. split; [intros q [<-|Hq]; auto|intros; lia].
  - set (b := fold_left (fun b q => if snd b <? snd q then q else b) r p) in *. exists (S i), (fst b), (snd b). split; auto. split; [destruct b; auto|].
    split; [intros q [<-|Hq]; auto; lia|]. intros [|j] q Hj Hq; cbn in Hq; [injection Hq as <-; auto|]. apply (D j); auto; lia.
Qed.
Lemma Votes_NumberOf l row n : Votes l row n <-> NumberOf (Same l) row n.
Proof. split; induction 1; (constructor; assumption) || (apply no_no; assumption) || (apply v_no; assumption). Qed.
Definition zeroId (row : list pval) : list ovalue := map (fun v => (v, 0)) row.
Lemma zeroId_one row : OneNaN (zeroId row).
Proof. intros n m A B. unfold zeroId in *. apply in_map_iff in A, B. destruct A as [? [[= _ <-] _]], B as [? [[= _ <-] _]]. reflexivity. Qed.
Lemma noNaN_Same row a b : ~ In PNaN row -> In a row -> SameElement a b -> Same a b.
Proof. intros H Ha [S|[-> _]]; auto. contradiction. Qed.
Lemma countWins_spec row : ~ In PNaN row ->
  (forall v, In v row -> exists k n, In (k, n) (countWins row) /\ Same k v) /\
  (forall k n, In (k, n) (countWins row) -> In k row /\ Votes k row n) /\
  (forall i j k n k' n', nth_error (countWins row) i = Some (k, n) -> nth_error (countWins row) j = Some (k', n') -> Same k k' -> i = j) /\
  (forall i j k n k' n', nth_error (countWins row) i = Some (k, n) -> nth_error (countWins row) j = Some (k', n') -> i < j ->
     exists p, nth_error row p = Some k /\ forall q x, q <= p -> nth_error row q = Some x -> ~ Same k' x) /\
  (forall i k n, nth_error (countWins row) i = Some (k, n) -> exists p, nth_error row p = Some k /\ forall q x, q < p -> nth_error row q = Some x -> ~ Same k x).
Proof.
  intros HN. pose proof (fold_bump_ok (zeroId row) (zeroId_one row) (zeroId row) (fun _ H => H)) as [A [B C]].
  destruct (order_ok (zeroId row) (zeroId_one row) (zeroId row) (fun _ H => H)) as [poss [F [S R]]].
  unfold countWins. fold (zeroId row). set (d := fold_left (fun d v => bump v d) (zeroId row) []) in *. clearbody d.
  assert (MZ : map fst (zeroId row) = row) by (unfold zeroId; rewrite map_map; apply map_id).
  assert (NZ : forall i x, nth_error row i = Some x <-> nth_error (zeroId row) i = Some (x, 0)).
  { intros i x. unfold zeroId. rewrite nth_error_map. destruct (nth_error row i); cbn; split; congruence. }
  assert (ND : forall i k n, nth_error (map (fun p : ovalue * nat => (fst (fst p), snd p)) d) i = Some (k, n) -> exists z, nth_error d i = Some ((k, z), n)).
  { intros i k n H. rewrite nth_error_map in H. destruct (nth_error d i) as [[[a z] m]|]; [|discriminate]. cbn in H. injection H as <- <-. eauto. }
  assert (IK : forall k z n, In ((k, z), n) d -> In k row).
  { intros k z n H. apply B in H. destruct H as [H _]. rewrite <- MZ. change k with (fst (k, z)). apply in_map; auto. }
  assert (FN : forall i kn, nth_error d i = Some kn -> exists p, nth_error poss i = Some p /\ firstAt (zeroId row) p kn).
  { clear -F. induction F as [|p kn ps ds H F IH]; intros i kn' E; [destruct i; discriminate|]. destruct i as [|i]; cbn in E; [injection E as <-; exists p; auto|]. destruct (IH i kn' E) as [p' [E' H']]. exists p'. auto. }
  split; [|split; [|split; [|split]]].
  - intros v Hv. destruct (A (v, 0)) as [[k z] [n [Hk HS]]]; [unfold zeroId; apply in_map_iff; eauto|]. exists k, n. split.
    + apply in_map_iff. exists ((k, z), n). auto.
    + apply (noNaN_Same row); eauto.
  - intros k n H. apply In_nth_error in H. destruct H as [i H]. apply ND in H. destruct H as [z H]. apply nth_error_In in H. pose proof (IK _ _ _ H) as Hk. split; auto.
    apply Votes_NumberOf. destruct (B _ _ H) as [_ NB]. rewrite <- MZ. apply (proj1 (NumberOf_map fst (Same k) (zeroId row) n)).
    eapply NumberOf_ext; [|exact NB]. intros x Hx. unfold seE; cbn [fst]. split; [intros HS; apply (noNaN_Same row); auto|intros HS; left; auto].
  - intros i j k n k' n' Hi Hj HS. apply ND in Hi, Hj. destruct Hi as [z Hi], Hj as [z' Hj]. eapply C; eauto. left; auto.
  - intros i j k n k' n' Hi Hj Hlt. apply ND in Hi, Hj. destruct Hi as [z Hi], Hj as [z' Hj].
    destruct (FN i _ Hi) as [p [Ep [Fp _]]]. destruct (FN j _ Hj) as [p' [Ep' [Fp' Gp']]]. cbn [fst] in *.
    assert (p < p') by (eapply StronglySorted_nth_lt; eauto). exists p. split.
    + unfold zeroId in Fp. rewrite nth_error_map in Fp. destruct (nth_error row p); [|discriminate]. cbn in Fp. congruence.
    + intros q x Hq Hx HS. apply (Gp' q (x, 0)); [lia|apply NZ; auto|]. left; auto.
  - intros i k n Hi. apply ND in Hi. destruct Hi as [z Hi]. destruct (FN i _ Hi) as [p [Ep [Fp Gp]]]. cbn [fst] in *. exists p. split.
    + unfold zeroId in Fp. rewrite nth_error_map in Fp. destruct (nth_error row p); [|discriminate]. cbn in Fp. congruence.
    + intros q x Hq Hx HS. apply (Gp q (x, 0)); [lia|apply NZ; auto|]. left; auto.
Qed.
Lemma Votes_fun l row n m : Votes l row n -> Votes l row m -> n = m.
Proof. rewrite !Votes_NumberOf. apply NumberOf_fun. Qed.
Lemma Votes_Same l l' row n : Same l l' -> Votes l row n -> Votes l' row n.
Proof.
  rewrite !Votes_NumberOf. intros HS. apply NumberOf_ext. intros x _. split; intros H; eapply Same_trans; eauto. apply Same_sym; auto.
Qed.
Lemma wins_most row i l c : ~ In PNaN row -> nth_error (countWins row) i = Some (l, c) ->
  (forall q, In q (countWins row) -> snd q <= c) -> (forall j q, j < i -> nth_error (countWins row) j = Some q -> snd q < c) -> MostVoted row l c.
Proof.
  intros HN Ei HM HE. destruct (countWins_spec row HN) as [A [B [C [D E]]]].
  split; [apply B; eapply nth_error_In; eauto|]. split.
  - intros x m Hx HV. destruct (A x Hx) as [k [n [Hk HS]]]. destruct (B k n Hk) as [_ HV']. apply (Votes_Same k x) in HV'; auto.
    rewrite (Votes_fun _ _ _ _ HV HV'). apply (HM (k, n) Hk).
  - destruct (E i l c Ei) as [p [Ep Fp]]. exists p. split; auto. intros j x Hj Hx HV.
    destruct (A x (nth_error_In _ _ Hx)) as [k [n [Hk HS]]]. destruct (B k n Hk) as [_ HV']. apply (Votes_Same k x) in HV'; auto.
    pose proof (Votes_fun _ _ _ _ HV HV') as En. subst n. apply In_nth_error in Hk. destruct Hk as [i' Hk].
    destruct (lt_eq_lt_dec i' i) as [[Hlt|Heq]|Hgt].
    + pose proof (HE i' (k, c) Hlt Hk) as X. cbn in X. lia.
    + subst i'. rewrite Ei in Hk. injection Hk as <-. apply (Fp j x Hj Hx HS).
    + destruct (D i i' l c k c Ei Hk Hgt) as [p' [Ep' Fp']].
      assert (p <= p').
      { destruct (le_lt_dec p p') as [|Hl]; auto. exfalso. apply (Fp p' l Hl Ep'). apply pyEq_spec, pyEq_self. intros ->. apply HN. eapply nth_error_In; eauto. }
      apply (Fp' j x); auto. lia.
Qed.
Lemma mostWins_spec row : row <> [] -> ~ In PNaN row -> exists l c, maxKey (countWins row) = Some l /\ MostVoted row l c /\
  find (fun p => pyEq (fst p) l || (isNaN (fst p) && isNaN l)) (countWins row) = Some (l, c).
Proof.
  intros HR HN. destruct (countWins_spec row HN) as [A [B [C [D E]]]].
  assert (HE : countWins row <> []).
  { destruct row as [|v row']; [congruence|]. destruct (A v (or_introl eq_refl)) as [k [n [Hk _]]]. intros Z. rewrite Z in Hk. destruct Hk. }
  destruct (maxKey_first _ HE) as [i [l [c [E1 [E2 [E3 E4]]]]]]. exists l, c. split; auto. split; [eapply wins_most; eauto|].
  assert (HL : In l row) by (apply (B l c); eapply nth_error_In; eauto).
  assert (HLN : isNaN l = false) by (destruct l; auto; contradiction).
  rewrite HLN. clear -E2 C HLN. revert i E2 C. induction (countWins row) as [|[k n] d IH]; intros i E2 C; [destruct i; discriminate|]. cbn [find fst]. rewrite andb_false_r, orb_false_r.
  destruct (pyEq k l) eqn:P.
  - apply pyEq_spec in P. assert (0 = i) by (eapply (C 0 i k n l c); [reflexivity|auto|auto]). subst i. cbn in E2. congruence.
  - destruct i as [|i]; cbn in E2.
    + injection E2 as <- <-. assert (Z : pyEq k k = true) by (apply pyEq_self; intros ->; discriminate). congruence.
    + cbn [fst]. rewrite (IH i); auto. intros a b k1 n1 k2 n2 Ha Hb HS. assert (S a = S b) by (eapply (C (S a) (S b)); eauto). lia.
Qed.

(** ** OneVsOne results *)
Section Ovo.
Variable sleb : string -> string -> bool.
Variable norm : pval -> pval.
Variable predictionName : nat -> string.
Variable floatStr : pval -> result string.
Variable test : table pval.
Variable n : nat.
Variable pn : list (option string).
Variable ls : list applier.
Variable rs : list (table pval).
Variable labelSet : list pval.
Hypothesis HL : ls <> [].
Hypothesis HF : Forall2 (fun (m : applier) r => m test = Ok r /\ OneColumn n pn r) ls rs.
Hypothesis HI : forall a b, predictionName a = predictionName b -> a = b.
Hypothesis HP : forall r s j, In r rs -> In (Some s) (getNames (tf r)) -> s <> predictionName (S j).
Hypothesis HN : forall r i, In r rs -> cell r i 0 <> Some PNaN.
Lemma ovo_in (raw : table pval) : wf raw -> alen (tp raw) = n ->
  (forall i, i < n -> exists row, AnswersFor rs i row /\ nth_error (rows raw) i = Some row) ->
  (forall i row, nth_error (rows raw) i = Some row -> AnswersFor rs i row) /\
  forall row, In row (rows raw) -> ~ In PNaN row /\ row <> [].
Proof.
  intros W L H. assert (G : forall i row, nth_error (rows raw) i = Some row -> AnswersFor rs i row).
  { intros i row Hr. destruct (H i) as [row' [A B]]; [destruct W as [W _]; rewrite <- L, <- W; eapply nth_error_lt; eauto|]. congruence. }
  split; auto. intros row Hr. apply In_nth_error in Hr. destruct Hr as [i Hi]. pose proof (G i row Hi) as A. split.
  - clear -A HN. induction A as [|r v rs row Hv F IH]; [intros []|]. intros [->|C]; [apply (HN r i (or_introl eq_refl)); auto|].
    apply IH; auto. intros r' i' Hr'. apply HN. right; auto.
  - intros ->. inversion A. subst. inversion HF. subst. congruence.
Qed.
Lemma ovoPredict_spec : exists r, ovoApply sleb norm predictionName floatStr labelSet ls test None = Ok r /\
  wf r /\ alen (tp r) = n /\ getNames (tp r) = pn /\ getNames (tf r) = [Some "winningLabel"] /\
  forall i row, nth_error (rows r) i = Some row -> exists answers l c, AnswersFor rs i answers /\ MostVoted answers l c /\ row = [norm l].
Proof.
  destruct (collectOvo_spec test n pn predictionName ls rs HL HF HI HP) as [raw [E [W [L [PN R]]]]]. unfold ovoApply. rewrite E; cbn [rbind]. unfold ovoPredict.
  destruct (ovo_in raw W L R) as [G NN].
  destruct (rmapM_F2 (fun row => l <- mostWins row ;; Ok [l]) (fun row y => exists l c, MostVoted row l c /\ y = [l]) (rows raw)) as [ys [E1 F1]].
  { intros row Hr. destruct (NN row Hr) as [A B]. destruct (mostWins_spec row B A) as [l [c [M1 [M2 _]]]]. exists [l]. unfold mostWins. rewrite M1. split; eauto. }
  rewrite E1; cbn [rbind]. pose proof W as [W1 [W2 [W3 W4]]].
  replace (List.length ys) with (alen (tp raw)) by (rewrite <- W1; symmetry; apply (F2_len _ _ _ F1) || (symmetry; apply (F2_len _ _ _ F1))).
  destruct (copyAxis_ok (tp raw) W3) as [a [Ea [La [Ia Na]]]]. rewrite Ea; cbn [rbind].
  destruct (nameFirst_spec (mkTable a (mkAxis 1 None) (map (map norm) ys)) "winningLabel") as [r [Er [Wr [Tr [Rr [_ Nr]]]]]].
  { unfold wf; cbn. split; [rewrite map_length, La, <- W1; symmetry; apply (F2_len _ _ _ F1)|]. split; [|split; [auto|exact Logic.I]].
    intros q Hq. apply in_map_iff in Hq. destruct Hq as [x [<- Hx]]. rewrite map_length. clear -F1 Hx. induction F1 as [|p y ps ys0 [l [c [_ ->]]] F IH]; [destruct Hx|]. destruct Hx as [<-|Hx]; auto. }
  { reflexivity. }
  exists r. split; auto. split; auto. cbn [tp] in Tr. split; [rewrite Tr; congruence|]. split; [rewrite Tr; congruence|]. split; auto.
  intros i row Hr. rewrite Rr in Hr. cbn [rows] in Hr. rewrite nth_error_map in Hr. destruct (nth_error ys i) as [y|] eqn:Ey; [|discriminate]. cbn in Hr. injection Hr as <-.
  assert (Q : exists x, nth_error (rows raw) i = Some x /\ exists l c, MostVoted x l c /\ y = [l]).
  { clear -F1 Ey. revert i Ey. induction F1 as [|p z ps zs H F IH]; intros i Ey; [destruct i; discriminate|]. destruct i as [|i]; cbn in Ey; [injection Ey as <-; exists p; auto|apply (IH i Ey)]. }
  destruct Q as [x [Hx [l [c [M ->]]]]]. exists x, l, c. split; [apply G; auto|]. split; auto.
Qed.
Lemma ovoBest_spec : exists r, ovoApply sleb norm predictionName floatStr labelSet ls test (Some MBest) = Ok r /\
  NewTable r n ["PredictedClassLabel"; "LabelScore"] (fun i row => exists answers l c, AnswersFor rs i answers /\ MostVoted answers l c /\ row = [norm l; norm (PInt (Z.of_nat c))]).
Proof.
  destruct (collectOvo_spec test n pn predictionName ls rs HL HF HI HP) as [raw [E [W [L [PN R]]]]]. unfold ovoApply. rewrite E; cbn [rbind]. unfold ovoBest.
  destruct (ovo_in raw W L R) as [G NN].
  match goal with |- context [rmapM ?g (rows raw)] => set (f := g) end.
  destruct (rmapM_F2 f (fun row y => exists l c, MostVoted row l c /\ y = [l; PInt (Z.of_nat c)]) (rows raw)) as [ys [E1 F1]].
  { intros row Hr. destruct (NN row Hr) as [A B]. destruct (mostWins_spec row B A) as [l [c [M1 [M2 M3]]]]. exists [l; PInt (Z.of_nat c)]. unfold f. rewrite M1, M3. split; eauto. }
  rewrite E1; cbn [rbind].
  destruct (newData_rows norm (rows raw) ys ["PredictedClassLabel"; "LabelScore"] _ ltac:(repeat constructor; cbn; intuition discriminate) F1) as [r [Er [N1 [N2 [N3 N4]]]]].
  { intros x y [l [c [_ ->]]]. reflexivity. }
  exists r. split; auto. split; auto. split; [rewrite N2; f_equal; destruct W as [W1 _]; lia|]. split; auto.
  intros i row Hr. destruct (N4 i row Hr) as [x [y [Hx [[l [c [P1 ->]]] ->]]]]. exists x, l, c. split; [apply G; auto|]. auto.
Qed.
(** every answer is one of the labels, and the names of the labels are distinct *)
Variable hs : list string.
Hypothesis HS : Forall2 (fun l s => floatStr l = Ok s) labelSet hs.
Hypothesis HD : NoDup hs.
Hypothesis HA : forall r i v, In r rs -> cell r i 0 = Some v -> exists l, In l labelSet /\ Same l v.
Hypothesis HSame : forall a b, Same a b -> floatStr a = floatStr b.
Lemma place_votes (heads : list string) (d : list (pval * nat)) : NoDup heads ->
  (forall k m, In (k, m) d -> exists s, floatStr k = Ok s /\ In s heads) ->
  (forall i j k m k' m' s, nth_error d i = Some (k, m) -> nth_error d j = Some (k', m') -> floatStr k = Ok s -> floatStr k' = Ok s -> i = j) ->
  forall acc, List.length acc = List.length heads ->
  exists out, fold_left (fun (acc : result (list pval)) p =>
            r <- acc ;; s <- floatStr (fst p) ;;
            match dget s (fold_left (fun d p => dset (snd p) (fst p) d) (combine (seq 0 (List.length heads)) heads) []) with
            | None => Err KeyErr
            | Some i => Ok (upd r i (PInt (Z.of_nat (snd p))))
            end) d (Ok acc) = Ok out /\ List.length out = List.length heads /\
    (forall k m s j, In (k, m) d -> floatStr k = Ok s -> nth_error heads j = Some s -> nth_error out j = Some (PInt (Z.of_nat m))) /\
    (forall j s, nth_error heads j = Some s -> (forall k m, In (k, m) d -> floatStr k <> Ok s) -> nth_error out j = nth_error acc j).
Proof.
  intros NH. induction d as [|[k m] d IH]; intros Hd HU acc LA.
  - exists acc. cbn. split; auto. split; auto. split; [intros ? ? ? ? []|auto].
  - cbn [fold_left fst snd]. destruct (Hd k m (or_introl eq_refl)) as [s [Es Hs]]. cbn [rbind]. rewrite Es; cbn [rbind].
    apply In_nth_error in Hs. destruct Hs as [i Hi]. rewrite (dget_enum heads i s NH Hi).
    destruct (IH) with (acc := upd acc i (PInt (Z.of_nat m))) as [out [E [LO [A B]]]].
    { intros k' m' Hk. apply (Hd k' m'). right; auto. }
    { intros a b k1 m1 k2 m2 s' H1 H2 S1 S2. assert (S a = S b) by (eapply (HU (S a) (S b)); eauto). lia. }
    { rewrite upd_length; auto. }
    exists out. split; auto. split; auto.
    assert (Fresh : forall k' m', In (k', m') d -> floatStr k' <> Ok s).
    { intros k' m' Hk C. apply In_nth_error in Hk. destruct Hk as [q Hq]. assert (0 = S q) by (apply (HU 0 (S q) k m k' m' s); auto). lia. }
    assert (Li : i < List.length acc) by (rewrite LA; eapply nth_error_lt; eauto).
    split.
    + intros k' m' s' j [[= <- <-]|Hk] Es' Hj; [|eauto]. rewrite Es in Es'. injection Es' as <-.
      assert (j = i) by (apply (proj1 (NoDup_nth_error heads) NH); [eapply nth_error_lt; eauto|congruence]). subst j.
      rewrite (B i s Hi Fresh). apply nth_error_upd_same; auto.
    + intros j s' Hj Hn. rewrite (B j s' Hj) by (intros k' m' Hk; apply (Hn k' m'); right; auto).
      apply nth_error_upd_other. intros ->. rewrite Hi in Hj. injection Hj as <-. apply (Hn k m (or_introl eq_refl)). auto.
Qed.
Lemma ovoAll_spec : exists r, ovoApply sleb norm predictionName floatStr labelSet ls test (Some MAll) = Ok r /\
  NewTable r n (stableSort sleb hs) (fun i row => exists answers, AnswersFor rs i answers /\
    forall k l s j c, nth_error labelSet k = Some l -> nth_error hs k = Some s -> nth_error (stableSort sleb hs) j = Some s ->
      Votes l answers c -> nth_error row j = Some (norm (PInt (Z.of_nat c)))).
Proof.
  destruct (collectOvo_spec test n pn predictionName ls rs HL HF HI HP) as [raw [E [W [L [PN R]]]]]. unfold ovoApply. rewrite E; cbn [rbind]. unfold ovoAll.
  destruct (ovo_in raw W L R) as [G NN].
  assert (EH : rmapM floatStr labelSet = Ok hs).
  { clear -HS. induction HS as [|l s ls ss H F IH]; [reflexivity|]. cbn [rmapM]. rewrite H; cbn [rbind]. rewrite IH; [reflexivity|auto]. }
  rewrite EH; cbn [rbind]. set (heads := stableSort sleb hs).
  assert (PM : Permutation heads hs) by apply stableSort_perm.
  assert (NDH : NoDup heads) by (eapply Permutation_NoDup; [apply Permutation_sym; exact PM|auto]).
  match goal with |- context [rmapM ?g (rows raw)] => set (f := g) end.
  assert (NS : forall k l, nth_error labelSet k = Some l -> exists s, nth_error hs k = Some s /\ floatStr l = Ok s).
  { clear -HS. induction HS as [|l s ls ss H F IH]; intros k x Hk; [destruct k; discriminate|]. destruct k as [|k]; cbn in Hk; [injection Hk as <-; exists s; auto|apply IH; auto]. }
  destruct (rmapM_F2 f (fun row y => List.length y = List.length heads /\ forall k l s j c, nth_error labelSet k = Some l -> nth_error hs k = Some s -> nth_error heads j = Some s ->
      Votes l row c -> nth_error y j = Some (PInt (Z.of_nat c))) (rows raw)) as [ys [E1 F1]].
  { intros row Hr. destruct (NN row Hr) as [A B]. destruct (countWins_spec row A) as [C1 [C2 [C3 _]]].
    assert (Hlab : forall v, In v row -> exists k l s, nth_error labelSet k = Some l /\ Same l v /\ floatStr v = Ok s /\ nth_error hs k = Some s).
    { intros v Hv. apply In_nth_error in Hr. destruct Hr as [i Hi]. pose proof (G i row Hi) as AF.
      assert (X : exists r, In r rs /\ cell r i 0 = Some v).
      { clear -AF Hv. induction AF as [|r w rs row Hw F IH]; [destruct Hv|]. destruct Hv as [<-|Hv]; [exists r; split; [left; auto|auto]|]. destruct (IH Hv) as [r' [I1 I2]]. exists r'. split; [right; auto|auto]. }
      destruct X as [r [Hin Hc]]. destruct (HA r i v Hin Hc) as [l [Hl SL]]. pose proof (HSame l v SL) as FS. apply In_nth_error in Hl. destruct Hl as [k Hk].
      destruct (NS k l Hk) as [s [Hs Fl]]. exists k, l, s. split; auto. split; auto. split; [congruence|auto]. }
    assert (Huniq : forall v v' s, In v row -> In v' row -> floatStr v = Ok s -> floatStr v' = Ok s -> Same v v').
    { intros v v' s Hv Hv' F1 F2. destruct (Hlab v Hv) as [k [l [s1 [K1 [K2 [K3 K4]]]]]]. destruct (Hlab v' Hv') as [k' [l' [s2 [J1 [J2 [J3 J4]]]]]].
      assert (k = k'). { apply (proj1 (NoDup_nth_error hs) HD); [eapply nth_error_lt; eauto|congruence]. }
      subst k'. assert (l = l') by congruence. subst l'. eapply Same_trans; [apply Same_sym; exact K2|exact J2]. }
    destruct (place_votes heads (countWins row) NDH) with (acc := repeat (PInt 0) (List.length heads)) as [y [Ey [LY [A1 A2]]]].
    { intros k m Hk. destruct (C2 k m Hk) as [Hk' _]. destruct (Hlab k Hk') as [q [l [s [_ [_ [K3 K4]]]]]]. exists s. split; auto.
      eapply Permutation_in; [apply Permutation_sym; exact PM|]. eapply nth_error_In; eauto. }
    { intros i j k m k' m' s Hi Hj F1 F2. apply (C3 i j k m k' m' Hi Hj). apply (Huniq k k' s); auto; [apply (C2 k m)|apply (C2 k' m')]; eapply nth_error_In; eauto. }
    { apply repeat_length. }
    exists y. split; [exact Ey|]. split; auto.
    intros k l s j c Hk Hs Hj HV. destruct (NS k l Hk) as [s' [Hs' Fl]]. rewrite Hs in Hs'. injection Hs' as <-.
    destruct c as [|c].
    - assert (NV : forall v, In v row -> ~ Same l v).
      { clear -HV. remember 0 as z. induction HV as [|x row0 z H V IH|x row0 z H V IH]; intros v Hv; [destruct Hv|discriminate|]. destruct Hv as [<-|Hv]; auto. }
      rewrite (A2 j s Hj).
      + rewrite (nth_error_nth' _ (PInt 0)); [|rewrite repeat_length; eapply nth_error_lt; eauto]. rewrite nth_repeat. reflexivity.
      + intros k' m Hk' C. destruct (C2 k' m Hk') as [I' _]. destruct (Hlab k' I') as [q [l' [s1 [K1 [K2 [K3 K4]]]]]].
        assert (q = k). { apply (proj1 (NoDup_nth_error hs) HD); [eapply nth_error_lt; eauto|congruence]. }
        subst q. assert (l' = l) by congruence. subst l'. apply (NV k'); auto.
    - assert (EV : exists v, In v row /\ Same l v).
      { clear -HV. remember (S c) as z. revert c Heqz. induction HV as [|x row0 z H V IH|x row0 z H V IH]; intros c Ez; [discriminate|exists x; split; [left; auto|auto]|].
        destruct (IH c Ez) as [v [I1 I2]]. exists v. split; [right; auto|auto]. }
      destruct EV as [v [Hv SV]]. destruct (C1 v Hv) as [k' [m [Hk' SK]]]. destruct (C2 k' m Hk') as [Ik Vk].
      assert (SL : Same k' l) by (eapply Same_trans; [exact SK|apply Same_sym; auto]).
      assert (m = S c). { apply (Votes_Same k' l) in Vk; auto. eapply Votes_fun; eauto. } subst m.
      assert (Fk : floatStr k' = Ok s) by (rewrite (HSame k' l SL); exact Fl).
      apply (A1 k' (S c) s j); auto. }
  rewrite E1; cbn [rbind].
  destruct (newData_rows norm (rows raw) ys heads _ NDH F1) as [r [Er [N1 [N2 [N3 N4]]]]].
  { intros x y [LY _]. exact LY. }
  exists r. split; auto. split; auto. split; [rewrite N2; f_equal; destruct W as [W1 _]; lia|]. split; auto.
  intros i row Hr. destruct (N4 i row Hr) as [x [y [Hx [[LY P] ->]]]]. exists x. split; [apply G; auto|].
  intros k l s j c Hk Hs Hj HV. rewrite nth_error_map, (P k l s j c Hk Hs Hj HV). reflexivity.
Qed.
End Ovo.
