(** Proofs about transformElements (C53). *)
From Verif Require Import Base NamesModel NamesSpec NamesProofs TableModel TableSpec TableProofs TablePermProofs TableOps TableOps3Proofs MatchModel MatchSpec MatchProofs
  QueryModel ElementsModel ElementsSpec.
From Coq Require Import QArith Sorted.
Open Scope nat_scope.

Lemma setCell_wf {V} (t : table V) i j v : wf t -> wf (setCell t i j v).
Proof.
  intros [H1 [H2 [H3 H4]]]. unfold setCell. split; [cbn; rewrite upd_length; exact H1|]. split; [|split; assumption].
  cbn. intros r Hr. apply In_nth_error in Hr. destruct Hr as [k Hk]. rewrite nth_error_upd in Hk. destruct (Nat.eq_dec i k) as [->|_].
  - destruct (k <? List.length (rows t)) eqn:E; [|discriminate]. injection Hk as <-. rewrite upd_length. apply Nat.ltb_lt in E.
    apply H2. apply nth_In. exact E.
  - apply nth_error_In in Hk. auto.
Qed.
Lemma setCell_cell {V} (t : table V) i j v a b : wf t -> i < alen (tp t) -> j < alen (tf t) ->
  cell (setCell t i j v) a b = if Nat.eq_dec i a then if Nat.eq_dec j b then Some v else cell t a b else cell t a b.
Proof.
  intros [H1 [H2 _]] Hi Hj. unfold cell, setCell. cbn [rows]. rewrite nth_error_upd. destruct (Nat.eq_dec i a) as [<-|Hn]; [|reflexivity].
  rewrite H1. replace (i <? alen (tp t)) with true by (symmetry; apply Nat.ltb_lt; exact Hi).
  rewrite nth_error_upd. assert (Hl : i < List.length (rows t)) by lia. rewrite (nth_error_nth' (rows t) [] Hl).
  destruct (Nat.eq_dec j b) as [<-|_]; [|reflexivity]. rewrite (H2 _ (nth_In (rows t) [] Hl)).
  replace (j <? alen (tf t)) with true by (symmetry; apply Nat.ltb_lt; exact Hj). reflexivity.
Qed.
Lemma cell_some {V} (t : table V) i j : wf t -> i < alen (tp t) -> j < alen (tf t) -> exists v, cell t i j = Some v /\ nth_error (nth i (rows t) []) j = Some v.
Proof.
  intros [H1 [H2 _]] Hi Hj. assert (Hl : i < List.length (rows t)) by lia.
  assert (Hr : j < List.length (nth i (rows t) [])) by (rewrite (H2 _ (nth_In (rows t) [] Hl)); exact Hj).
  destruct (nth_error_is_some _ Hr) as [v Hv]. exists v. split; [|exact Hv]. unfold cell. rewrite (nth_error_nth' (rows t) [] Hl). exact Hv.
Qed.
Lemma cell_range {V} (t : table V) i j v : wf t -> cell t i j = Some v -> i < alen (tp t) /\ j < alen (tf t).
Proof.
  intros [H1 [H2 _]] H. unfold cell in H. destruct (nth_error (rows t) i) as [r|] eqn:E; [|discriminate].
  pose proof (nth_error_lt _ _ E). apply nth_error_lt in H. rewrite (H2 r (nth_error_In _ _ E)) in H. lia.
Qed.
Lemma outside_chosen lim i : (outside lim i = false <-> chosen lim i) /\ (outside lim i = true <-> ~ chosen lim i).
Proof.
  unfold outside, chosen. destruct lim as [l|]; [|split; split; auto; try discriminate; intros H; exfalso; apply H; exact I].
  rewrite Bool.negb_false_iff, Bool.negb_true_iff, mem_In, mem_not_In. tauto.
Qed.

(** cells [ids] are done, the others as before *)
Definition DoneOn (g : pval -> nat -> nat -> result pval) (ps fs : option (list nat)) (ids : list (nat * nat)) (t t' : table pval) : Prop :=
  forall i j,
  (In (i, j) ids -> addressed ps fs i j -> exists v w, cell t i j = Some v /\ g v i j = Ok w /\ cell t' i j = Some w) /\
  (~ (In (i, j) ids /\ addressed ps fs i j) -> cell t' i j = cell t i j).
Lemma elementLoop_spec g ps fs ids : forall t, wf t -> NoDup ids ->
  (forall p, In p ids -> fst p < alen (tp t) /\ snd p < alen (tf t)) ->
  let res := elementLoop g ps fs ids t in
  tp (fst res) = tp t /\ tf (fst res) = tf t /\ wf (fst res) /\
  match snd res with
  | Ok _ => DoneOn g ps fs ids t (fst res)
  | Err e => exists pre a b post v, ids = pre ++ (a, b) :: post /\ DoneOn g ps fs pre t (fst res) /\ addressed ps fs a b /\
      cell t a b = Some v /\ g v a b = Err e
  end.
Proof.
  induction ids as [|[i j] ids IH]; intros t W ND HR; cbn [elementLoop].
  - cbn [fst snd]. split; [reflexivity|]. split; [reflexivity|]. split; [exact W|]. intros i j. split; [intros []|reflexivity].
  - inversion ND as [|x l HNI ND']; subst. assert (HR' : forall p, In p ids -> fst p < alen (tp t) /\ snd p < alen (tf t)) by (intros p Hp; apply HR; right; exact Hp).
    destruct (HR (i, j) (or_introl eq_refl)) as [Hi Hj]. cbn in Hi, Hj. destruct (cell_some t i j W Hi Hj) as [v [Hc Hv]]. rewrite Hv.
    assert (Skip : ~ addressed ps fs i j -> let res := elementLoop g ps fs ids t in
      tp (fst res) = tp t /\ tf (fst res) = tf t /\ wf (fst res) /\
      match snd res with
      | Ok _ => DoneOn g ps fs ((i, j) :: ids) t (fst res)
      | Err e => exists pre a b post v, (i, j) :: ids = pre ++ (a, b) :: post /\ DoneOn g ps fs pre t (fst res) /\ addressed ps fs a b /\
          cell t a b = Some v /\ g v a b = Err e
      end).
    { intros HN. specialize (IH t W ND' HR'). cbn zeta in IH |- *. destruct IH as [P1 [P2 [P3 P4]]]. split; [exact P1|]. split; [exact P2|]. split; [exact P3|].
      destruct (snd (elementLoop g ps fs ids t)) as [u|e].
      - intros a b. destruct (P4 a b) as [Q1 Q2]. split.
        + intros [E|H] HA; [injection E as <- <-; contradiction|auto].
        + intros H. apply Q2. intros [H1 H2]. apply H. split; [right|]; assumption.
      - destruct P4 as [pre [a [b [post [v' [E [D [A [C G]]]]]]]]]. exists ((i, j) :: pre), a, b, post, v'. split; [rewrite E; reflexivity|]. split; [|auto].
        intros x y. destruct (D x y) as [Q1 Q2]. split.
        + intros [E'|H] HA; [injection E' as <- <-; contradiction|auto].
        + intros H. apply Q2. intros [H1 H2]. apply H. split; [right|]; assumption. }
    destruct (outside ps i) eqn:EP; [apply Skip; intros [A _]; apply outside_chosen in EP; contradiction|].
    destruct (outside fs j) eqn:EF; [apply Skip; intros [_ A]; apply outside_chosen in EF; contradiction|].
    assert (AD : addressed ps fs i j) by (split; apply outside_chosen; assumption). clear Skip.
    destruct (g v i j) as [w|e] eqn:EG.
    + specialize (IH (setCell t i j w) (setCell_wf t i j w W) ND'). cbn [tp tf setCell] in IH. specialize (IH HR'). cbn zeta in IH |- *.
      fold (setCell t i j w) in IH. destruct IH as [P1 [P2 [P3 P4]]]. split; [exact P1|]. split; [exact P2|]. split; [exact P3|].
      assert (CS : forall a b, (a, b) <> (i, j) -> cell (setCell t i j w) a b = cell t a b).
      { intros a b Hab. rewrite (setCell_cell t i j w a b W Hi Hj). destruct (Nat.eq_dec i a) as [->|]; [|reflexivity]. destruct (Nat.eq_dec j b) as [->|]; [|reflexivity]. contradiction. }
      assert (CI : cell (setCell t i j w) i j = Some w).
      { rewrite (setCell_cell t i j w i j W Hi Hj). destruct (Nat.eq_dec i i); [|lia]. destruct (Nat.eq_dec j j); [|lia]. reflexivity. }
      assert (Lift : forall pre t', ~ In (i, j) pre -> DoneOn g ps fs pre (setCell t i j w) t' -> DoneOn g ps fs ((i, j) :: pre) t t').
      { intros pre t' HN D a b. destruct (D a b) as [Q1 Q2]. split.
        - intros HI HA. destruct (in_dec (EqDec_prod Nat.eq_dec Nat.eq_dec) (a, b) pre) as [HP|HP] || destruct (Nat.eq_dec a i) as [->|Ha].
          all: try (destruct (Q1 HP HA) as [v' [w' [C1 [C2 C3]]]]; assert (Hne : (a, b) <> (i, j)) by (intros E; injection E as -> ->; contradiction); rewrite (CS a b Hne) in C1; eauto).
          all: destruct HI as [E|HI]; try contradiction.
          all: try (injection E as -> ->). 
          all: try (exists v, w; split; [exact Hc|]; split; [exact EG|]; rewrite Q2; [exact CI|tauto]).
        - intros H. rewrite Q2; [|intros [H1 H2]; apply H; split; [right|]; assumption]. apply CS. intros E; injection E as -> ->. apply H. split; [left; reflexivity|exact AD]. }
      destruct (snd (elementLoop g ps fs ids (setCell t i j w))) as [u|e].
      * apply Lift; assumption.
      * destruct P4 as [pre [a [b [post [v' [E [D [A [C G]]]]]]]]]. exists ((i, j) :: pre), a, b, post, v'. split; [rewrite E; reflexivity|].
        assert (HN : ~ In (i, j) pre) by (intros H; apply HNI; rewrite E; apply in_or_app; left; exact H).
        split; [apply Lift; assumption|]. split; [exact A|]. split; [|exact G]. rewrite <- CS; [exact C|]. intros E'; injection E' as -> ->. apply HNI. rewrite E. apply in_or_app. right; left; reflexivity.
    + cbn [fst snd]. split; [reflexivity|]. split; [reflexivity|]. split; [exact W|]. exists [], i, j, ids, v. split; [reflexivity|]. split; [|auto].
      intros a b. split; [intros []|reflexivity].
Qed.

Lemma sorted_app {A} (R : A -> A -> Prop) l l' : StronglySorted R l -> StronglySorted R l' -> (forall x y, In x l -> In y l' -> R x y) -> StronglySorted R (l ++ l').
Proof.
  induction 1 as [|x l S1 IH F]; intros S2 H; [exact S2|]. cbn. constructor.
  - apply IH; [exact S2|]. intros a b Ha Hb. apply H; [right|]; assumption.
  - apply Forall_app. split; [exact F|]. apply Forall_forall. intros b Hb. apply H; [left; reflexivity|exact Hb].
Qed.
Lemma seq_sorted' n : forall a, StronglySorted lt (seq a n).
Proof. induction n as [|n IH]; intros a; cbn; constructor; [apply IH|]. apply Forall_forall. intros x Hx. apply in_seq in Hx. lia. Qed.
Lemma map_pair_sorted i l : StronglySorted lt l -> StronglySorted before (map (fun y => (i, y)) l).
Proof.
  induction 1 as [|x l S IH F]; cbn; constructor; [exact IH|]. apply Forall_forall. intros p Hp. apply in_map_iff in Hp. destruct Hp as [y [<- Hy]].
  right. split; [reflexivity|]. cbn. rewrite Forall_forall in F. auto.
Qed.
Lemma list_prod_sorted l l' : StronglySorted lt l -> StronglySorted lt l' -> StronglySorted before (list_prod l l').
Proof.
  intros S1 S2. induction S1 as [|x l S IH F]; cbn; [constructor|]. apply sorted_app; [apply map_pair_sorted; exact S2|exact IH|].
  intros p q Hp Hq. apply in_map_iff in Hp. destruct Hp as [y [<- _]]. destruct q as [a b]. apply in_prod_iff in Hq. left. cbn. rewrite Forall_forall in F. apply F. tauto.
Qed.
Lemma before_irrefl p : ~ before p p.
Proof. intros [H|[_ H]]; lia. Qed.
Lemma before_trans p q r : before p q -> before q r -> before p r.
Proof. intros [H|[H1 H2]] [G|[G1 G2]]; [left|left|left|right]; lia. Qed.
Lemma sorted_NoDup l : StronglySorted before l -> NoDup l.
Proof. induction 1 as [|x l S IH F]; constructor; [|exact IH]. intros H. rewrite Forall_forall in F. exact (before_irrefl _ (F _ H)). Qed.
Lemma sorted_prefix pre p post q : StronglySorted before (pre ++ p :: post) -> In q (pre ++ p :: post) -> (In q pre <-> before q p).
Proof.
  induction pre as [|x pre IH]; cbn; intros S HI.
  - split; [intros []|]. intros B. inversion S as [|? ? S' F]; subst. destruct HI as [->|HI]; [exact (before_irrefl _ B)|]. rewrite Forall_forall in F. exact (before_irrefl _ (before_trans _ _ _ B (F _ HI))).
  - inversion S as [|? ? S' F]; subst. rewrite Forall_forall in F. destruct HI as [->|HI].
    + split; [intros _; apply F; apply in_or_app; right; left; reflexivity|intros _; left; reflexivity].
    + specialize (IH S' HI). rewrite <- IH. split; [|tauto]. intros [->|H]; [|exact H]. exfalso. exact (before_irrefl _ (F _ HI)).
Qed.
Lemma resolve_denotes a o l : Inv a -> limitDenotes a o l -> resolve a o = Ok l.
Proof.
  intros I H. unfold resolve. destruct o as [ids|], l as [l|]; cbn in H; try contradiction; [|reflexivity].
  apply (constructIndices_Denotes _ _ _ I) in H. rewrite H. reflexivity.
Qed.

Lemma zeroPreserving_spec pz f : zeroPreserving pz f = true -> pz = true \/ exists g r, f = F1 g /\ g (PInt 0) = Ok r /\ Same r (PInt 0).
Proof.
  unfold zeroPreserving. intros H. apply Bool.orb_true_iff in H. destruct H as [H|H]; [left; exact H|]. right. destruct f as [g|g]; [|discriminate].
  destruct (g (PInt 0)) as [r|] eqn:E; [|discriminate]. exists g, r. split; [reflexivity|]. split; [exact E|]. apply pyEq_spec. exact H.
Qed.
Lemma Same_zero_float v : Same v (PInt 0) -> Same (PFloat 0) v.
Proof.
  intros H. inversion H as [a b p q Ha Hb Hpq E1 E2| | | | ]; subst. apply (same_num _ _ 0%Q p); [constructor|exact Ha|]. inversion Hb; subst. symmetry. exact Hpq.
Qed.
Lemma orSkip_zero skip v r : Same r (PInt 0) -> orSkip skip v r = r.
Proof. intros H. destruct r; try reflexivity. inversion H; subst. inversion H0. Qed.
Lemma validated_becomes pz skip f v i j w : ZeroUniform f -> validated pz skip f v i j = Ok w -> Becomes pz skip f v i j w.
Proof.
  intros Z H. unfold validated in H. destruct (zeroPreserving pz f && pyEq v (PInt 0)) eqn:E.
  - apply Bool.andb_true_iff in E. destruct E as [E1 E2]. injection H as <-. apply pyEq_spec in E2.
    destruct pz; [left; split; [reflexivity|]; split; [exact E2|]; apply (same_num _ _ 0%Q 0%Q); [constructor|exact (num_int 0)|reflexivity]|]. apply zeroPreserving_spec in E1. destruct E1 as [C|[g [r [-> [G S]]]]]; [discriminate|].
    right. split; [left; reflexivity|]. exists r. cbn [callF]. split; [rewrite (Z v E2); exact G|]. right. rewrite (orSkip_zero skip v r S). apply Same_zero_float. exact S.
  - destruct (callF f v i j) as [r|] eqn:C; [|discriminate]. cbn [rbind] in H. right. split.
    + destruct pz; [|left; reflexivity]. right. intros S. apply pyEq_spec in S. rewrite S in E. cbn in E. discriminate.
    + exists r. split; [exact C|]. left. injection H as <-. reflexivity.
Qed.
Lemma validated_err pz skip f v i j e : validated pz skip f v i j = Err e -> callF f v i j = Err e.
Proof.
  unfold validated. destruct (zeroPreserving pz f && pyEq v (PInt 0)); [discriminate|]. destruct (callF f v i j); cbn [rbind]; congruence.
Qed.

Lemma transformElements_spec t f points features ps fs pz skip : wf t -> limitDenotes (tp t) points ps -> limitDenotes (tf t) features fs -> ZeroUniform f ->
  let res := transformElements t f points features pz skip in
  tp (fst res) = tp t /\ tf (fst res) = tf t /\ wf (fst res) /\
  match snd res with
  | Ok _ => forall i j v, cell t i j = Some v -> exists w, cell (fst res) i j = Some w /\
      (addressed ps fs i j -> Becomes pz skip f v i j w) /\ (~ addressed ps fs i j -> w = v)
  | Err e => exists a b u, cell t a b = Some u /\ addressed ps fs a b /\ callF f u a b = Err e /\
      forall i j v, cell t i j = Some v -> exists w, cell (fst res) i j = Some w /\
      (addressed ps fs i j -> before (i, j) (a, b) -> Becomes pz skip f v i j w) /\
      (~ addressed ps fs i j \/ ~ before (i, j) (a, b) -> w = v)
  end.
Proof.
  intros W HP HF Z. pose proof W as [W1 [W2 [W3 W4]]]. unfold transformElements. rewrite (resolve_denotes _ _ _ W3 HP), (resolve_denotes _ _ _ W4 HF).
  set (ids := list_prod (seq 0 (alen (tp t))) (seq 0 (alen (tf t)))).
  assert (SS : StronglySorted before ids) by (apply list_prod_sorted; apply seq_sorted').
  assert (IN : forall i j, In (i, j) ids <-> i < alen (tp t) /\ j < alen (tf t)) by (intros i j; unfold ids; rewrite in_prod_iff, !in_seq; lia).
  pose proof (elementLoop_spec (validated pz skip f) ps fs ids t W (sorted_NoDup _ SS)) as H. cbn zeta in H |- *.
  specialize (H (fun p => match p with (i, j) => fun Hp => proj1 (IN i j) Hp end)). destruct H as [P1 [P2 [P3 P4]]].
  split; [exact P1|]. split; [exact P2|]. split; [exact P3|].
  assert (Dec : forall i j, addressed ps fs i j \/ ~ addressed ps fs i j).
  { intros i j. unfold addressed. destruct (outside ps i) eqn:A; destruct (outside fs j) eqn:B; apply outside_chosen in A, B; tauto. }
  destruct (snd (elementLoop (validated pz skip f) ps fs ids t)) as [u|e].
  - intros i j v Hc. pose proof (cell_range t i j v W Hc) as HR. apply IN in HR. destruct (P4 i j) as [D1 D2]. destruct (Dec i j) as [A|A].
    + destruct (D1 HR A) as [v' [w [C1 [C2 C3]]]]. exists w. split; [exact C3|]. split; [|contradiction]. intros _. replace v with v' by congruence. apply validated_becomes; assumption.
    + exists v. split; [rewrite D2; [exact Hc|tauto]|]. split; [contradiction|reflexivity].
  - destruct P4 as [pre [a [b [post [u [E [D [A [C G]]]]]]]]]. exists a, b, u. split; [exact C|]. split; [exact A|]. split; [exact (validated_err _ _ _ _ _ _ _ G)|].
    intros i j v Hc. pose proof (cell_range t i j v W Hc) as HR. apply IN in HR. rewrite E in SS, HR. pose proof (sorted_prefix pre (a, b) post (i, j) SS HR) as PX.
    destruct (D i j) as [D1 D2]. destruct (Dec i j) as [A'|A'].
    + destruct (in_dec (EqDec_prod Nat.eq_dec Nat.eq_dec) (i, j) pre) as [HI|HI].
      * destruct (D1 HI A') as [v' [w [C1 [C2 C3]]]]. exists w. split; [exact C3|]. split; [|intros [N|N]; [contradiction|exfalso; apply N, PX; exact HI]].
        intros _ _. replace v with v' by congruence. apply validated_becomes; assumption.
      * exists v. split; [rewrite D2; [exact Hc|tauto]|]. split; [|reflexivity]. intros _ B. exfalso. apply HI, PX. exact B.
    + exists v. split; [rewrite D2; [exact Hc|tauto]|]. split; [contradiction|reflexivity].
Qed.
