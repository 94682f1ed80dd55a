From Verif Require Import Base NamesModel NamesSpec NamesProofs NamesIndexProofs
  TableModel TableSpec TableProofs TablePermProofs TableOps TableSortProofs TableInsertProofs TableOpsProofs.
From Coq Require Import Sorted.

Section R.
Variable V : Type.
Implicit Types t : table V.

Lemma repSourceCopy_inj vv total n i j : 0 < total -> 0 < n ->
  repSource vv total n i = repSource vv total n j -> repCopy vv total n i = repCopy vv total n j -> i = j.
Proof.
  unfold repSource, repCopy; intros Ht Hn; destruct vv; intros A B.
  - rewrite (Nat.div_mod_eq i total), (Nat.div_mod_eq j total). congruence.
  - rewrite (Nat.div_mod_eq i n), (Nat.div_mod_eq j n). congruence.
Qed.
Lemma repSource_lt vv total n j : j < total * n -> repSource vv total n j < n.
Proof.
  unfold repSource; intros H; destruct vv; [apply Nat.div_lt_upper_bound; lia|apply Nat.mod_upper_bound; lia].
Qed.

Lemma repeat_vectors sd t total vv a : wf t -> 0 < total -> alen a = total * alen (ax sd t) -> Inv a ->
  let t' := match sd with
        | Pts => mkTable a (tf t) (repeatVec total vv (rows t))
        | Fts => mkTable (tp t) a (map (repeatVec total vv) (rows t)) end in
  wf t' /\ vectors sd t' = repeatVec total vv (vectors sd t).
Proof.
  intros Hwf Ht La Ia. pose proof Hwf as [H1 [H2 [H3 H4]]]. destruct sd; cbn [ax] in *; cbv zeta.
  - split; [|reflexivity]. unfold wf; cbn [tp tf rows]. split; [rewrite repeatVec_length, H1; auto|]. split; [|auto].
    intros r Hr. apply In_nth_error in Hr; destruct Hr as [j Hj]. rewrite repeatVec_nth in Hj by auto.
    destruct (j <? _); [|discriminate]. apply H2. eapply nth_error_In; eauto.
  - assert (W : wf (mkTable (tp t) a (map (repeatVec total vv) (rows t)))).
    { unfold wf; cbn [tp tf rows]. split; [rewrite map_length; auto|]. split; [|auto].
      intros r Hr. apply in_map_iff in Hr; destruct Hr as [r0 [<- Hr]]. rewrite repeatVec_length, (H2 r0); auto. }
    split; auto. apply nth_error_ext; intros j. rewrite vectors_Fts_nth; cbn [tf]. rewrite La.
    rewrite repeatVec_nth by auto. rewrite (vectors_length V Fts t Hwf); cbn [ax].
    destruct (Nat.ltb_spec j (total * alen (tf t))) as [Hj|Hj]; auto.
    pose proof (repSource_lt vv _ _ _ Hj) as Hs.
    rewrite vectors_Fts_nth, (proj2 (Nat.ltb_lt _ _) Hs). f_equal.
    apply nth_error_ext; intros i. rewrite !column_nth_wf by (cbn [tf]; auto; lia).
    unfold cell; cbn [rows]. rewrite nth_error_map_eq. destruct (nth_error (rows t) i) as [r|] eqn:E; simpl; auto.
    rewrite repeatVec_nth by auto. rewrite (H2 r) by (eapply nth_error_In; eauto).
    rewrite (proj2 (Nat.ltb_lt _ _) Hj). auto.
Qed.

Lemma existsb_none_full a : Inv a -> fullyNamed a ->
  existsb (fun o : option string => match o with None => true | _ => false end) (getNames a) = false.
Proof.
  intros Ha H. apply not_true_is_false. intros E. apply existsb_exists in E. destruct E as [x [Hx E]].
  destruct x; [discriminate|]. apply In_nth_error in Hx; destruct Hx as [i Hi].
  destruct (H i) as [s Hs]; [|congruence]. apply nth_error_lt in Hi. rewrite getNames_length in Hi; auto.
Qed.

Lemma tableRepeat_spec sd t total vv : wf t -> 0 < total ->
  (namesCreated (ax sd t) = true -> fullyNamed (ax sd t)) ->
  exists t', tableRepeat dec10 sd t total vv = Ok t' /\ wf t' /\ offax sd t' = offax sd t /\
    alen (ax sd t') = total * alen (ax sd t) /\
    (forall j, j < total * alen (ax sd t) ->
       nth_error (vectors sd t') j = nth_error (vectors sd t) (repSource vv total (alen (ax sd t)) j) /\
       nth_error (getNames (ax sd t')) j =
         option_map (fun o => if total =? 1 then o else repNm o (repCopy vv total (alen (ax sd t)) j))
           (nth_error (getNames (ax sd t)) (repSource vv total (alen (ax sd t)) j))).
Proof.
  intros Hwf Ht Hn. pose proof (wf_Inv V sd t Hwf) as Ia. unfold tableRepeat.
  destruct (Nat.eqb_spec total 0); [lia|]. destruct (Nat.eqb_spec total 1) as [->|H1].
  - exists t. repeat split; auto; try apply Hwf; try lia; f_equal; unfold repSource;
    rewrite Nat.mul_1_l in *; destruct vv; rewrite ?Nat.div_1_r, ?Nat.mod_small; auto.
    + destruct (nth_error _ j); auto.
    + destruct (nth_error _ j); auto.
  - unfold getNamesNoGeneration. destruct (namesCreated (ax sd t)) eqn:Ec.
    + assert (HR : exists l, repNames dec10 total vv (getNames (ax sd t)) = Ok l).
      { unfold repNames. rewrite existsb_none_full; auto. eauto. }
      destruct HR as [l Hl]. rewrite Hl. cbn [rmap rbind].
      assert (Hlen := getNames_length _ Ia).
      assert (HN : forall j, nth_error l j = if j <? total * alen (ax sd t) then
         option_map (fun o => repNm o (repCopy vv total (alen (ax sd t)) j))
           (nth_error (getNames (ax sd t)) (repSource vv total (alen (ax sd t)) j)) else None).
      { intros j. rewrite (repNames_nth _ _ _ _ j Ht Hl), Hlen. auto. }
      destruct (initAxis_ok (total * alen (ax sd t)) l) as [a [Ea [La [Ia' Na]]]].
      * apply nth_error_length_eq. intros j. rewrite HN.
        destruct (Nat.ltb_spec j (total * alen (ax sd t))) as [Hj|Hj]; [|split; auto].
        pose proof (repSource_lt vv _ _ _ Hj) as Hs. rewrite <- Hlen in Hs.
        destruct (nth_error_is_some _ Hs) as [x Hx]. rewrite Hlen in Hx. rewrite Hx; simpl. split; [discriminate|lia].
      * intros i j s Hi Hj. rewrite HN in Hi, Hj.
        destruct (Nat.ltb_spec i (total * alen (ax sd t))) as [Hi'|]; [|discriminate].
        destruct (Nat.ltb_spec j (total * alen (ax sd t))) as [Hj'|]; [|discriminate].
        destruct (nth_error (getNames (ax sd t)) (repSource vv total (alen (ax sd t)) i)) as [[s1|]|] eqn:E1; simpl in Hi; try discriminate.
        destruct (nth_error (getNames (ax sd t)) (repSource vv total (alen (ax sd t)) j)) as [[s2|]|] eqn:E2; simpl in Hj; try discriminate.
        assert (E : repName dec10 s1 (repCopy vv total (alen (ax sd t)) i) = repName dec10 s2 (repCopy vv total (alen (ax sd t)) j)) by congruence.
        apply repName_inj in E. destruct E as [-> E].
        eapply repSourceCopy_inj; [exact Ht| |eapply Inv_names_distinct; [exact Ia| |]; eauto|exact E]. nia.
      * rewrite Ea. cbn [rbind].
        destruct (repeat_vectors sd t total vv a Hwf Ht La Ia') as [W HV].
        eexists; split; [reflexivity|]. split; [exact W|]. split; [destruct sd; auto|].
        assert (EA : ax sd match sd with
           | Pts => mkTable a (tf t) (repeatVec total vv (rows t))
           | Fts => mkTable (tp t) a (map (repeatVec total vv) (rows t)) end = a) by (destruct sd; auto).
        rewrite EA. split; auto. intros j Hj. split.
        -- cbv zeta in HV. rewrite HV, repeatVec_nth, vectors_length by auto.
           rewrite (proj2 (Nat.ltb_lt _ _) Hj); auto.
        -- rewrite Na, HN, (proj2 (Nat.ltb_lt _ _) Hj). auto.
    + cbn [rbind]. rewrite initAxis_None. cbn [rbind].
      set (a := mkAxis (total * alen (ax sd t)) None).
      destruct (repeat_vectors sd t total vv a Hwf Ht eq_refl I) as [W HV].
      eexists; split; [reflexivity|]. split; [exact W|]. split; [destruct sd; auto|].
      assert (EA : ax sd match sd with
           | Pts => mkTable a (tf t) (repeatVec total vv (rows t))
           | Fts => mkTable (tp t) a (map (repeatVec total vv) (rows t)) end = a) by (destruct sd; auto).
      rewrite EA. split; auto. intros j Hj. split.
      * cbv zeta in HV. rewrite HV, repeatVec_nth, vectors_length by auto.
        rewrite (proj2 (Nat.ltb_lt _ _) Hj); auto.
      * unfold a; rewrite getNames_fresh. rewrite (names_all_default (ax sd t)) by auto.
        rewrite !nth_error_repeat; auto. apply repSource_lt; auto.
Qed.

(** a partially named axis cannot be repeated *)
Lemma tableRepeat_partial_names sd t total vv i : wf t -> 1 < total -> namesCreated (ax sd t) = true ->
  nth_error (getNames (ax sd t)) i = Some None ->
  tableRepeat dec10 sd t total vv = Err TypeErr.
Proof.
  intros Hwf Ht Hc Hi. unfold tableRepeat. destruct (Nat.eqb_spec total 0); [lia|].
  destruct (Nat.eqb_spec total 1); [lia|]. unfold getNamesNoGeneration; rewrite Hc.
  unfold repNames. rewrite (proj2 (existsb_exists _ _)); [reflexivity|].
  exists None; split; auto. eapply nth_error_In; eauto.
Qed.
End R.

(** ** unique *)
Section U.
Variable V : Type.
Context {E : EqDec V}.
Implicit Types t : table V.

Lemma uniqueIndices_spec (vs : list (list V)) : forall i seen,
  StronglySorted lt (uniqueIndices i seen vs) /\
  (forall k, In k (uniqueIndices i seen vs) <->
     exists m v, k = i + m /\ nth_error vs m = Some v /\ ~ In v seen /\
        forall m' v', m' < m -> nth_error vs m' = Some v' -> v' <> v).
Proof.
  induction vs as [|v vs IH]; intros i seen; simpl.
  - split; [constructor|]. intros k; split; [tauto|]. intros [m [v [_ [H _]]]]. destruct m; discriminate.
  - destruct (mem v seen) eqn:Em.
    + destruct (IH (S i) seen) as [A B]. split; auto. intros k; rewrite B. apply mem_In in Em. split.
      * intros [m [w [-> [Hm [Hs Hf]]]]]. exists (S m), w. repeat split; auto; try lia.
        intros [|m'] v' Hlt Hv'; simpl in Hv'; [injection Hv' as <-; congruence|]. apply (Hf m'); auto; lia.
      * intros [[|m] [w [-> [Hm [Hs Hf]]]]]; simpl in Hm; [injection Hm as <-; tauto|].
        exists m, w. repeat split; auto; try lia. intros m' v' Hlt Hv'. apply (Hf (S m')); auto; lia.
    + apply mem_not_In in Em. destruct (IH (S i) (v :: seen)) as [A B]. split.
      * constructor; auto. apply Forall_forall. intros k Hk. apply B in Hk. destruct Hk as [m [w [-> _]]]. lia.
      * intros k; split.
        -- intros [<-|Hk].
           ++ exists 0, v. repeat split; auto; try lia. 
           ++ apply B in Hk. destruct Hk as [m [w [-> [Hm [Hs Hf]]]]]. exists (S m), w. repeat split; auto; try lia.
              ** intros Hin; apply Hs; simpl; auto.
              ** intros [|m'] v' Hlt Hv'; simpl in Hv'; [injection Hv' as <-; intros ->; apply Hs; simpl; auto|].
                 apply (Hf m'); auto; lia.
        -- intros [[|m] [w [-> [Hm [Hs Hf]]]]]; simpl in Hm.
           ++ left; lia.
           ++ right. apply B. exists m, w. repeat split; auto; try lia.
              ** intros [->|Hin]; [apply (Hf 0 w); simpl; auto; lia|auto].
              ** intros m' v' Hlt Hv'. apply (Hf (S m')); auto; lia.
Qed.

(** first occurrences, in order *)
Definition firstOccurrences (vs : list (list V)) (idx : list nat) : Prop :=
  StronglySorted lt idx /\
  forall k, In k idx <-> exists v, nth_error vs k = Some v /\
     forall m v', m < k -> nth_error vs m = Some v' -> v' <> v.
Lemma uniqueIndices_first vs : firstOccurrences vs (uniqueIndices 0 [] vs).
Proof.
  destruct (uniqueIndices_spec vs 0 []) as [A B]. split; auto. intros k; rewrite B. split.
  - intros [m [v [-> [Hm [_ Hf]]]]]. simpl. eauto.
  - intros [v [Hv Hf]]. exists k, v. repeat split; auto.
Qed.
Lemma StronglySorted_lt_NoDup l : StronglySorted lt l -> NoDup l.
Proof.
  induction 1 as [|x l HS IH HF]; constructor; auto. intros Hin. rewrite Forall_forall in HF.
  apply HF in Hin; lia.
Qed.
Lemma sorted_lt_full l n : StronglySorted lt l -> (forall i, In i l -> i < n) -> List.length l = n -> l = seq 0 n.
Proof.
  intros HS Hr Hl.
  assert (G : forall l a, StronglySorted lt l -> (forall i, In i l -> a <= i < a + List.length l) -> l = seq a (List.length l)).
  { clear. induction l as [|x l IH]; intros a HS Hr; simpl; auto.
    inversion HS as [|? ? HS' HF]; subst. rewrite Forall_forall in HF.
    assert (Hge : forall i, In i l -> S a <= i).
    { intros i Hi. apply HF in Hi. pose proof (Hr x (or_introl eq_refl)). lia. }
    assert (Hin : forall i, In i l -> S a <= i < S a + List.length l).
    { intros i Hi. pose proof (Hge i Hi). pose proof (Hr i (or_intror Hi)). simpl in H0. lia. }
    assert (x = a).
    { destruct l as [|y l].
      - pose proof (Hr x (or_introl eq_refl)). simpl in H; lia.
      - specialize (IH (S a) HS' Hin). simpl in IH. injection IH as Hy _.
        pose proof (HF y (or_introl eq_refl)). pose proof (Hr x (or_introl eq_refl)). lia. }
    subst x. f_equal. apply IH; auto. }
  rewrite <- Hl. apply G; auto. intros i Hi. rewrite Hl. apply Hr in Hi; lia.
Qed.

Lemma selRows_same sd t idx : wf t -> 0 < alen (offax sd t) ->
  (forall i, In i idx -> i < alen (ax sd t)) -> StronglySorted lt idx ->
  rows t = selRows V sd t idx -> idx = seq 0 (alen (ax sd t)).
Proof.
  intros Hwf Ho Hr HS H. pose proof Hwf as [H1 [H2 _]]. apply sorted_lt_full; auto. destruct sd; simpl in *.
  - rewrite <- (selected_length idx (rows t)) by (intros; rewrite H1; auto). rewrite <- H; auto.
  - destruct (rows t) as [|r rs] eqn:Er; simpl in *; [lia|]. injection H as H _.
    assert (Hr' : forall i, In i idx -> i < List.length r) by (intros; rewrite (H2 r); auto).
    apply (f_equal (@List.length V)) in H. rewrite (selected_length idx r Hr') in H.
    rewrite <- H. apply H2; auto.
Qed.

Lemma tableUnique_spec norm sd t : wf t -> 0 < alen (offax sd t) ->
  (forall r v, In r (rows t) -> In v r -> norm v = v) ->
  exists t' idx, tableUnique norm sd t = Ok t' /\ firstOccurrences (vectors sd t) idx /\
    wf t' /\ sameOff sd t t' /\ items sd t' = selected idx (items sd t).
Proof.
  intros Hwf Ho Hnorm. unfold tableUnique. set (idx := uniqueIndices 0 [] (vectors sd t)).
  pose proof (uniqueIndices_first (vectors sd t)) as HF. fold idx in HF. pose proof HF as [HS HI].
  assert (Hr : forall i, In i idx -> i < alen (ax sd t)).
  { intros i Hi. apply HI in Hi. destruct Hi as [v [Hv _]]. apply nth_error_lt in Hv.
    rewrite vectors_length in Hv; auto. }
  assert (Hd := StronglySorted_lt_NoDup _ HS).
  rewrite permuteRows_sel by auto. cbn [rbind].
  destruct (eqbd (rows t) (selRows V sd t idx)) eqn:Eq.
  - apply eqbd_true in Eq. pose proof (selRows_same sd t idx Hwf Ho Hr HS Eq) as Hi.
    exists t, idx. split; auto. split; auto. split; auto. split; [split; auto|].
    rewrite Hi, <- (items_length V sd t Hwf), selected_all. auto.
  - destruct (structuralAxis_ok (ax sd t) idx) as [a [Ea [La [Ia Na]]]]; auto using wf_Inv.
    destruct (structuralNames (ax sd t) idx) as [nl|]; cbn [rbind] in Ea |- *; [|discriminate].
    rewrite Ea; cbn [rbind].
    destruct (copyAxis_ok (offax sd t)) as [o [Eo [Lo [Io No]]]]; [apply wf_InvOff; auto|].
    rewrite Eo; cbn [rbind].
    assert (Hm : map (map norm) (selRows V sd t idx) = selRows V sd t idx).
    { rewrite <- (map_id (selRows V sd t idx)) at 2. apply map_ext_in. intros r Hin.
      rewrite <- (map_id r) at 2. apply map_ext_in. intros v Hv.
      destruct sd; simpl in Hin.
      - unfold selected in Hin. apply in_flat_map in Hin. destruct Hin as [i [_ Hin]].
        destruct (nth_error (rows t) i) as [r0|] eqn:Er; [|destruct Hin]. destruct Hin as [<-|[]].
        eapply Hnorm; [eapply nth_error_In; eauto|auto].
      - apply in_map_iff in Hin. destruct Hin as [r0 [<- Hin]]. unfold selected in Hv. apply in_flat_map in Hv.
        destruct Hv as [i [_ Hv]]. destruct (nth_error r0 i) eqn:En; [|destruct Hv]. destruct Hv as [<-|[]].
        eapply Hnorm; [eauto|eapply nth_error_In; eauto]. }
    rewrite Hm. exists (mkSide V sd a o (selRows V sd t idx)), idx.
    split; [destruct sd; auto|]. split; auto.
    split; [apply selRows_wf; auto|]. split; [destruct sd; split; simpl in *; auto|].
    apply selRows_items; auto.
Qed.
End U.
