(** merge computes the join (C16). *)
From Verif Require Import Base NamesModel NamesSpec NamesProofs TableModel TableSpec TableProofs TableOps MatchModel MatchSpec MatchProofs ElementsProofs ElementsCalcProofs
  FillMatchProofs BinOpModel BinOpSpec BinOpProofs MergeModel MergeSpec MergeLoopProofs MergeColsProofs MergeJoinProofs.
From Coq Require Import Sorted QArith.
Open Scope nat_scope.

Lemma row_cv t i : wf t -> i < alen (tp t) -> nth i (rows t) [] = map (cv t i) (seq 0 (alen (tf t))).
Proof.
  intros [H1 [H2 _]] Hi. assert (L : List.length (nth i (rows t) []) = alen (tf t)) by (apply H2, nth_In; lia). unfold cv. rewrite <- L. symmetry. apply map_at_seq.
Qed.
Lemma rows_cv t : wf t -> rows t = map (fun i => map (cv t i) (seq 0 (alen (tf t)))) (seq 0 (alen (tp t))).
Proof. intros W. apply (nth_map_seq _ _ _ []); [apply W|]. intros i Hi. apply row_cv; assumption. Qed.
Lemma mapi_rows {B} (f : nat -> list pval -> B) t : wf t -> mapi f (rows t) = map (fun i => f i (map (cv t i) (seq 0 (alen (tf t))))) (seq 0 (alen (tp t))).
Proof.
  intros W. rewrite (mapi_seq f []). rewrite (proj1 W). apply map_ext_in. intros i Hi. apply in_seq in Hi. rewrite row_cv by (auto; lia). reflexivity.
Qed.
Lemma at_cv t i n j : j < n -> at_ (map (cv t i) (seq 0 n)) j = cv t i j.
Proof. intros H. unfold at_. rewrite (nth_indep _ PNaN (cv t i 0)) by (rewrite map_length, seq_length; exact H). rewrite map_nth, seq_nth by exact H. reflexivity. Qed.
Lemma pick_cv t i n idx : (forall j, In j idx -> j < n) -> pick idx (map (cv t i) (seq 0 n)) = map (cv t i) idx.
Proof. intros H. unfold pick. apply map_ext_in. intros j Hj. apply at_cv. apply H. exact Hj. Qed.
Lemma filter_positions (f : nat -> bool) (l : list pval) : map snd (filter (fun q => f (fst q)) (combine (seq 0 (List.length l)) l)) = pick (filter f (seq 0 (List.length l))) l.
Proof.
  assert (E : combine (seq 0 (List.length l)) l = map (fun i => (i, at_ l i)) (seq 0 (List.length l))).
  { pose proof (mapi_seq (fun (i : nat) (v : pval) => (i, v)) PNaN l) as H. unfold mapi in H. unfold at_. etransitivity; [|exact H]. symmetry. erewrite map_ext; [apply map_id|]. intros []; reflexivity. }
  rewrite E, filter_map_eq, map_map. cbn [fst snd]. unfold pick. reflexivity.
Qed.

Record ColBase (t o : table pval) (feature : how) (pL pR : list nat) (phiL phiR : list src) : Prop := mkColBase {
  cb_len : List.length pL = List.length pR; cb_ndl : NoDup pL; cb_ndr : NoDup pR;
  cb_bl : forall x, In x pL -> x < List.length phiL; cb_br : forall x, In x pR -> x < List.length phiR;
  cb_pairs1 : forall x y, In (x, y) (combine pL pR) -> exists j j', srcAt phiL x = SCol j /\ srcAt phiR y = SCol j' /\ partner (getNames (tf t)) (getNames (tf o)) j = Some j';
  cb_pairs2 : forall j j', partner (getNames (tf t)) (getNames (tf o)) j = Some j' -> exists x y, In (x, y) (combine pL pR) /\ srcAt phiL x = SCol j /\ srcAt phiR y = SCol j';
  cb_cols : map (srcCol phiL phiR) (pcols pL pR (List.length phiL) (List.length phiR)) = map asSrc (joinCols feature (getNames (tf t)) (getNames (tf o))) }.
Section Bases.
Variables (t o : table pval) (mL mR : list nat).
Hypothesis WT : wf t.
Hypothesis WO : wf o.
Hypothesis M : Matching (tf t) (tf o) mL mR.
Let IT : Inv (tf t). Proof. apply WT. Qed.
Let IO : Inv (tf o). Proof. apply WO. Qed.
Lemma in_combine_nth {A B} (l : list A) (l' : list B) x y : In (x, y) (combine l l') <-> exists k, nth_error l k = Some x /\ nth_error l' k = Some y.
Proof.
  split.
  - intros H. apply In_nth_error in H. destruct H as [k H]. rewrite nth_error_combine in H. exists k. destruct (nth_error l k); [|discriminate]. destruct (nth_error l' k); [|discriminate]. injection H as -> ->. auto.
  - intros [k [A1 B1]]. apply nth_error_In with k. rewrite nth_error_combine, A1, B1. reflexivity.
Qed.
Lemma base_union : ColBase t o Union mL mR (map SCol (seq 0 (alen (tf t)))) (map SCol (seq 0 (alen (tf o)))).
Proof.
  constructor; rewrite ?map_length, ?seq_length; try apply M.
  - intros x y H. apply in_combine_nth in H. exists x, y. split; [apply srcAt_seq; apply M; destruct H as [k [H _]]; eapply nth_error_In; exact H|]. split; [apply srcAt_seq; apply M; destruct H as [k [_ H]]; eapply nth_error_In; exact H|]. apply (mt_pairs _ _ _ _ M). exact H.
  - intros j j' P. apply (mt_pairs _ _ _ _ M) in P. exists j, j'. split; [apply in_combine_nth; exact P|]. destruct P as [k [P1 P2]]. split; apply srcAt_seq; apply M; eapply nth_error_In; eassumption.
  - apply (cols_union (tf t) (tf o)); assumption.
Qed.
Lemma base_left : ColBase t o LeftOnly mL (seq 0 (List.length mR)) (map SCol (seq 0 (alen (tf t)))) (map SCol mR).
Proof.
  constructor; rewrite ?map_length, ?seq_length; try apply M; try apply seq_NoDup.
  - intros x Hx. apply in_seq in Hx. lia.
  - intros x y H. apply in_combine_nth in H. destruct H as [k [H1 H2]]. rewrite nth_error_seq in H2. destruct (Nat.ltb_spec k (List.length mR)) as [L|]; [|discriminate]. injection H2 as <-. exists x, (nth k mR 0).
    split; [apply srcAt_seq; apply M; eapply nth_error_In; exact H1|]. split; [apply srcAt_map; exact L|]. apply (mt_pairs _ _ _ _ M). exists k. split; [exact H1|]. apply nth_error_nth'. exact L.
  - intros j j' P. apply (mt_pairs _ _ _ _ M) in P. destruct P as [k [P1 P2]]. assert (L : k < List.length mR) by (eapply nth_error_lt; exact P2). exists j, k. split; [apply in_combine_nth; exists k; split; [exact P1|rewrite nth_error_seq; destruct (Nat.ltb_spec k (List.length mR)); [reflexivity|lia]]|].
    split; [apply srcAt_seq; apply M; eapply nth_error_In; exact P1|]. rewrite srcAt_map by exact L. rewrite (nth_error_nth _ _ _ P2). reflexivity.
  - apply (cols_left (tf t) (tf o)); assumption.
Qed.
Lemma base_inter : InOrder (tf t) -> ColBase t o Intersection (seq 0 (List.length mL)) (seq 0 (List.length mL)) (map SCol mL) (map SCol mR).
Proof.
  intros O. constructor; rewrite ?map_length, ?seq_length; try reflexivity; try apply seq_NoDup.
  - intros x Hx. apply in_seq in Hx. lia.
  - intros x Hx. apply in_seq in Hx. rewrite <- (mt_len _ _ _ _ M). lia.
  - intros x y H. apply in_combine_nth in H. destruct H as [k [H1 H2]]. rewrite nth_error_seq in H1, H2. destruct (Nat.ltb_spec k (List.length mL)) as [L|]; [|discriminate]. injection H1 as <-. injection H2 as <-. exists (nth k mL 0), (nth k mR 0).
    split; [apply srcAt_map; exact L|]. assert (L' : k < List.length mR) by (rewrite <- (mt_len _ _ _ _ M); exact L). split; [apply srcAt_map; exact L'|]. apply (mt_pairs _ _ _ _ M). exists k. split; apply nth_error_nth'; assumption.
  - intros j j' P. apply (mt_pairs _ _ _ _ M) in P. destruct P as [k [P1 P2]]. assert (L : k < List.length mL) by (eapply nth_error_lt; exact P1). assert (L' : k < List.length mR) by (eapply nth_error_lt; exact P2). exists k, k.
    split; [apply in_combine_nth; exists k; rewrite nth_error_seq; destruct (Nat.ltb_spec k (List.length mL)); [auto|lia]|]. rewrite !srcAt_map by assumption. rewrite (nth_error_nth _ _ _ P1), (nth_error_nth _ _ _ P2). auto.
  - rewrite <- (mt_len _ _ _ _ M). apply (cols_inter (tf t) (tf o)); assumption.
Qed.
End Bases.

Section Final.
Variables (t o : table pval) (point feature : how) (pL0 pR0 : list nat) (phiL phiR : list src).
Hypothesis WT : wf t.
Hypothesis WO : wf o.
Hypothesis CB : ColBase t o feature pL0 pR0 phiL phiR.
Hypothesis P0 : 0 < alen (tp t).
Hypothesis Q0 : 0 < alen (tp o).
Let ln := getNames (tf t).
Let rn := getNames (tf o).
Definition Outcome (m : nat -> nat -> bool) (names : bool) (p : prepared) : Prop :=
  (~ Conflict t o m /\ mergeRows point names p = (map (fun rw => map (joinCell t o rw) (joinCols feature ln rn)) (joinRows point (alen (tp t)) (alen (tp o)) m), Ok (List.length (joinCols feature ln rn)))) \/
  (Conflict t o m /\ exists l', mergeRows point names p = (l', Err InvalidArgumentValue)).
Lemma on_outcome j j' oL oR p : NoRefill t o (sameValue t o j j') -> j < alen (tf t) -> j' < alen (tf o) ->
  pLeft p = map (fun i => map (reads 0 t i) phiL) (seq 0 (alen (tp t))) -> pRight p = map (fun k => map (reads (alen (tp t)) o k) phiR) (seq 0 (alen (tp o))) ->
  pL p = pL0 -> pR p = pR0 -> onL p = oL -> onR p = oR ->
  oL < List.length phiL -> oR < List.length phiR -> srcAt phiL oL = SCol j -> srcAt phiR oR = SCol j' -> Outcome (sameValue t o j j') false p.
Proof.
  intros NR Hj Hj' EL ER E1 E2 E3 E4 OL OR SL SR. subst pL0 pR0 oL oR. apply (prepared_join t o WT WO p phiL phiR); auto; try apply CB.
  - intros i k Hi Hk. rewrite SL, SR. cbn [reads]. unfold sameValue. rewrite (cell_cv t i j WT Hi Hj), (cell_cv o k j' WO Hk Hj'). apply pyEq_sym.
  - intros x y H. right. apply (cb_pairs1 _ _ _ _ _ _ _ CB). exact H.
Qed.
Lemma key_pyEq i k : i < alen (tp t) -> pyEq (ptKey (tp o) (alen (tp t)) k) (ptKey (tp t) 0 i) = sameName t o i k.
Proof.
  intros Hi. unfold ptKey, sameName. destruct (nth k (getNames (tp o)) None) as [b|], (nth i (getNames (tp t)) None) as [a|]; try reflexivity.
  - unfold pyEq. cbn. apply String.eqb_sym.
  - apply not_true_is_false. rewrite pyEq_spec. intros H. inversion H as [x y p q X Y E| | | |]; subst. inversion X; subst. inversion Y; subst. unfold Qeq in E. cbn in E. lia.
Qed.
Lemma shift_pairs x y : In (x, y) (combine (0 :: map S pL0) (0 :: map S pR0)) <-> (x = 0 /\ y = 0) \/ exists x' y', x = S x' /\ y = S y' /\ In (x', y') (combine pL0 pR0).
Proof.
  cbn [combine]. split.
  - intros [E|H]; [injection E as <- <-; auto|]. right. apply in_combine_nth in H. destruct H as [k [A B]]. rewrite nth_error_map_eq in A, B. destruct (nth_error pL0 k) as [x'|] eqn:X; [|discriminate]. destruct (nth_error pR0 k) as [y'|] eqn:Y; [|discriminate].
    injection A as <-. injection B as <-. exists x', y'. split; [reflexivity|]. split; [reflexivity|]. apply in_combine_nth. eauto.
  - intros [[-> ->]|[x' [y' [-> [-> H]]]]]; [left; reflexivity|]. right. apply in_combine_nth in H. destruct H as [k [A B]]. apply in_combine_nth. exists k. rewrite !nth_error_map_eq, A, B. auto.
Qed.
Lemma shift_NoDup l : NoDup l -> NoDup (0 :: map S l).
Proof.
  intros H. constructor; [intros I; apply in_map_iff in I; destruct I as [x [E _]]; discriminate|]. induction H; cbn; constructor; auto. intros I. apply in_map_iff in I. destruct I as [y [E I]]. injection E as ->. contradiction.
Qed.
Lemma names_outcome p : NoRefill t o (sameName t o) ->
  pLeft p = map (fun i => ptKey (tp t) 0 i :: map (reads 0 t i) phiL) (seq 0 (alen (tp t))) ->
  pRight p = map (fun k => ptKey (tp o) (alen (tp t)) k :: map (reads (alen (tp t)) o k) phiR) (seq 0 (alen (tp o))) ->
  pL p = 0 :: map S pL0 -> pR p = 0 :: map S pR0 -> onL p = 0 -> onR p = 0 -> Outcome (sameName t o) true p.
Proof.
  intros NR EL ER E1 E2 E3 E4. apply (prepared_join t o WT WO p (SKey :: phiL) (SKey :: phiR)); rewrite ?E1, ?E2, ?E3, ?E4; auto.
  - cbn. rewrite !map_length. f_equal. apply CB.
  - apply shift_NoDup, CB.
  - apply shift_NoDup, CB.
  - intros x [<-|Hx]; cbn; [lia|]. apply in_map_iff in Hx. destruct Hx as [y [<- Hy]]. apply (cb_bl _ _ _ _ _ _ _ CB) in Hy. lia.
  - intros x [<-|Hx]; cbn; [lia|]. apply in_map_iff in Hx. destruct Hx as [y [<- Hy]]. apply (cb_br _ _ _ _ _ _ _ CB) in Hy. lia.
  - cbn. lia.
  - cbn. lia.
  - intros i k Hi Hk. cbn [srcAt nth reads]. apply key_pyEq. exact Hi.
  - intros x y H. apply shift_pairs in H. destruct H as [[-> ->]|[x' [y' [-> [-> H]]]]].
    + left. split; [reflexivity|]. split; [reflexivity|]. intros i k Hi Hk HM. cbn [reads]. rewrite pyEq_sym, key_pyEq by exact Hi. exact HM.
    + right. cbn [srcAt nth]. apply (cb_pairs1 _ _ _ _ _ _ _ CB). exact H.
  - intros j j' P. destruct (cb_pairs2 _ _ _ _ _ _ _ CB j j' P) as [x [y [H [X Y]]]]. exists (S x), (S y). split; [apply shift_pairs; right; eauto|]. cbn [srcAt nth]. auto.
  - cbn [List.length]. rewrite pcols_shift by apply CB. cbn [map]. f_equal. rewrite map_map. rewrite (map_ext _ (srcCol phiL phiR)) by (intros c; apply srcCol_shift). apply CB.
Qed.
End Final.
