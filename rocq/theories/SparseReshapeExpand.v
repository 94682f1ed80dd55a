(** Proofs for C71: combineByExpandingFeatures of a Sparse object. *)
From Verif Require Import Base NamesModel NamesSpec NamesProofs NamesIndexProofs TableModel TableSpec TableProofs TableOpsProofs FlatProofs MatchModel MatchSpec MatchProofs
  SparseModel SparseSpec SparseProofs SparseEqProofs MergeModel BinOpProofs MergeLoopProofs MergeNamesProofs ReshapeModel ReshapeSpec ReshapeTextProofs ReshapeSplitProofs ReshapeCollapseProofs ReshapeExpandProofs ReshapeFillProofs ReshapeExpandMain
  SparseReshapeModel SparseReshapeSpec SparseReshapeProofs.
From Coq Require Import List. Import ListNotations.
Open Scope string_scope. Open Scope list_scope. Open Scope nat_scope.
Notation val := (SparseSpec.val (PInt 0)).

(** ** the matrix made *)
Section Matrix.
Variables (ni ne nf : nat) (names : list pval) (gs : list group).
Hypothesis LG : forall g, In g gs -> List.length (expandPoint ni ne names g) = nf.
Definition groupEntries (x : nat * group) : list (entry pval) :=
  map (fun c : nat * pval => mkE (fst x) (fst c) (snd c)) (combine (seq 0 nf) (expandPoint ni ne names (snd x))).
Lemma sExpand_In e : In e (ents (sExpand ni ne nf names gs)) <-> exists g, nth_error gs (er e) = Some g /\ nth_error (expandPoint ni ne names g) (ec e) = Some (ev e).
Proof.
  cbn [sExpand ents]. fold groupEntries. rewrite in_flat_map. split.
  - intros [[r g] [I J]]. apply In_nth_error in I. destruct I as [n I]. rewrite nth_error_combine, nth_error_seq in I. destruct (n <? List.length gs); [|discriminate].
    destruct (nth_error gs n) as [g'|] eqn:G; [|discriminate]. injection I as <- <-. unfold groupEntries in J. apply in_map_iff in J. destruct J as [[c v] [<- J]]. cbn [fst snd er ec ev] in *.
    exists g'. split; [exact G|]. apply In_nth_error in J. destruct J as [m J]. rewrite nth_error_combine, nth_error_seq in J. destruct (m <? nf); [|discriminate].
    destruct (nth_error (expandPoint ni ne names g') m) eqn:M; [|discriminate]. injection J as <- <-. exact M.
  - intros [g [G V]]. exists (er e, g). pose proof (nlt _ _ _ G) as L. split.
    + apply nth_error_In with (n := er e). rewrite nth_error_combine, nth_error_seq, G. destruct (Nat.ltb_spec (er e) (List.length gs)); [reflexivity|lia].
    + unfold groupEntries. apply in_map_iff. exists (ec e, ev e). cbn [fst snd]. split; [destruct e; reflexivity|]. pose proof (nlt _ _ _ V) as M. rewrite (LG g) in M by (eapply nth_error_In; exact G).
      apply nth_error_In with (n := ec e). rewrite nth_error_combine, nth_error_seq, V. destruct (Nat.ltb_spec (ec e) nf); [reflexivity|lia].
Qed.
Lemma sExpand_Placed : Placed (sExpand ni ne nf names gs).
Proof.
  split.
  - cbn [sExpand ents]. fold groupEntries. apply SparseOpsProofs.NoDup_flat_map.
    + pose proof (combine_seq_NoDup gs 0 (List.length gs)) as N. apply NoDup_map_inv in N. exact N.
    + intros [r g] _. unfold groupEntries. rewrite map_map. unfold pos. cbn [er ec fst snd]. rewrite <- (map_map fst (fun c => (r, c))).
      apply FinFun.Injective_map_NoDup; [intros a b H; congruence|]. apply combine_seq_NoDup.
    + intros [r g] [r' g'] b b' I I' B B' X. unfold groupEntries in B, B'. apply in_map_iff in B, B'. destruct B as [c [<- _]], B' as [c' [<- _]]. unfold pos in X. cbn in X. injection X as X _. subst r'.
      f_equal. apply In_nth_error in I, I'. destruct I as [n I], I' as [n' I']. rewrite nth_error_combine, nth_error_seq in I, I'.
      destruct (n <? List.length gs); [|discriminate]. destruct (n' <? List.length gs); [|discriminate].
      destruct (nth_error gs n) eqn:G; [|discriminate]. destruct (nth_error gs n') eqn:G'; [|discriminate]. injection I as I1 I2. injection I' as I1' I2'. cbn in I1, I1'. subst n n'. congruence.
  - intros e I. apply sExpand_In in I. destruct I as [g [G V]]. cbn [sExpand snp snf]. split; [apply (nlt _ _ _ G)|]. apply nlt in V. rewrite (LG g) in V; [exact V|]. eapply nth_error_In; exact G.
Qed.
Lemma sExpand_val r g c v : nth_error gs r = Some g -> nth_error (expandPoint ni ne names g) c = Some v -> val (sExpand ni ne nf names gs) r c = v.
Proof.
  intros G V. apply val_is.
  - intros w I. apply sExpand_In in I. cbn [er ec ev] in I. destruct I as [g' [G' V']]. congruence.
  - left. apply sExpand_In. cbn [er ec ev]. eauto.
Qed.
End Matrix.

Section Expand.
Variable strOf : pval -> string.
Variables (o : sobj) (t : table pval).
Hypothesis W : wf t.
Hypothesis H : Holds o t.
Hypothesis SE : entsOK (PInt 0) (oMat o).
Variables (nameId : ident) (ni : nat) (vids : list ident) (vi : list nat) (modify : bool).
Hypothesis RN : Refers (tf t) nameId ni.
Hypothesis RV : Forall2 (Refers (tf t)) vids vi.
Hypothesis ND : NoDup (ni :: vi).
Let rest := others (ni :: vi) (alen (tf t)).
Let key (r : list pval) := pick r rest.
Let name (r : list pval) := nth ni r PNaN.
Hypothesis NN : forall r, In r (rows t) -> ~ In PNaN (key r) /\ name r <> PNaN.
Let W1 := proj1 W.
Let Ip := proj1 (proj2 (proj2 W)).
Let If_ := proj2 (proj2 (proj2 W)).

(** the same refusals as for the other types *)
Lemma same_refusal e : (forall pns, groupLoop ni rest vi (rows t) pns [] [] [] = Err e) \/
  (exists gs names, (forall pns, exists kept, groupLoop ni rest vi (rows t) pns [] [] [] = Ok (gs, names, kept)) /\ prefixesOf strOf modify names = Err e) ->
  expandFeaturesS strOf o nameId vids modify = (o, Err e).
Proof.
  intros C. destruct H as [HP [HF _]]. unfold expandFeaturesS. rewrite HF, HP, <- (Holds_rows o t W H SE).
  rewrite (Refers_getIndex _ _ _ If_ RN), (Refers_indices _ If_ _ _ RV), Nat2Z.id, (proj2 (nodupb_NoDup _) ND). cbn [negb].
  fold (others (ni :: vi) (alen (tf t))). fold rest. destruct C as [C|[gs [names [C E]]]].
  - rewrite C. reflexivity.
  - destruct (C (if namesCreated (tp t) then getNames (tp t) else [])) as [kept C']. rewrite C', E. reflexivity.
Qed.
Theorem expand_clashS : (exists i j a b, i < j /\ nth_error (rows t) i = Some a /\ nth_error (rows t) j = Some b /\ SameValues (key a) (key b) /\ Same (name a) (name b)) ->
  expandFeaturesS strOf o nameId vids modify = (o, Err ImproperObjectAction).
Proof.
  intros [i [j [a [b [L [A [B [K N]]]]]]]]. apply same_refusal. left. intros pns.
  pose proof (start_eq t ni vi pns) as ST. fold rest in ST. rewrite ST, groupLoop_err; [reflexivity|exact NN| |].
  - intros i' j' a' b' _ X. destruct i'; discriminate.
  - intros NC. apply (NC i j a b L A B). split; [exact K|exact N].
Qed.

Variables pos npos : list nat.
Hypothesis FP : Firsts SameValues (map key (rows t)) pos.
Hypothesis FN : Firsts Same (map name (rows t)) npos.
Hypothesis NC : forall i j a b, i < j -> nth_error (rows t) i = Some a -> nth_error (rows t) j = Some b -> ~ (SameValues (key a) (key b) /\ Same (name a) (name b)).
Let names := map (fun q => name (nth q (rows t) [])) npos.
Let keys := map (fun p => key (nth p (rows t) [])) pos.
Let loop_is := loop_eq t ni vi NN pos npos FP FN NC.
Theorem expand_same_textS : ~ NoDup (map strOf names) -> modify = false -> expandFeaturesS strOf o nameId vids modify = (o, Err ImproperObjectAction).
Proof.
  intros D M. apply same_refusal. right. eexists. exists names. split; [intros pns; eexists; exact (loop_is pns)|]. rewrite M. apply prefixesOf_err. exact D.
Qed.

Variables prefixes suffixes : list string.
Hypothesis LV : 0 < List.length vids.
Hypothesis AL : ni <= List.length rest \/ astate (tf t) <> None.
Hypothesis LP : List.length prefixes = List.length npos.
Hypothesis PF : forall j s, nth_error prefixes j = Some s -> PrefixOf strOf names j s.
Hypothesis MD : modify = true \/ NoDup (map strOf names).
Hypothesis LS : List.length suffixes = List.length vids.
Hypothesis SF : 1 < List.length vids -> forall j id i s, nth_error vids j = Some id -> nth_error vi j = Some i -> nth_error suffixes j = Some s -> SuffixOf strOf (tf t) id i s.
Let kept := map (fun i => nth i (getNames (tf t)) None) rest.
Let names' := firstn ni kept ++ map Some (expandedNames prefixes suffixes) ++ skipn ni kept.
Hypothesis DN : DistinctNames names'.
Let vl := vi_len t vids vi RV.
Lemma expandedNames_lengthS : List.length (expandedNames prefixes suffixes) = List.length npos * List.length vids.
Proof.
  unfold expandedNames. destruct suffixes as [|s [|s' l]]; cbn [List.length] in LS; [lia|rewrite <- LS; lia|].
  rewrite (flat_map_const_length _ _ (List.length vids)); [lia|]. intros x _. rewrite map_length. exact LS.
Qed.
Let row' (r : list pval) : list pval := firstn ni (key r) ++ flat_map (lookupVals (List.length vids) (dictOf ni rest vi (rows t) (key r))) names ++ skipn ni (key r).
Lemma row'_lengthS r : List.length (row' r) = List.length rest + List.length npos * List.length vids.
Proof.
  unfold row'. rewrite !app_length, firstn_length, skipn_length. unfold key, pick. rewrite !map_length.
  rewrite (flat_map_const_length _ _ (List.length vids)). unfold names. rewrite map_length. lia.
  intros x _. apply lookupVals_length. intros p I. rewrite vl. exact (dict_lengths _ _ _ _ _ p I).
Qed.
Lemma nf_eqS : alen (tf t) + List.length names * List.length vids - (1 + List.length vids) = List.length rest + List.length npos * List.length vids.
Proof. pose proof (rest_length t nameId ni vids vi RN RV ND) as R. fold rest in R. rewrite R. pose proof (used_le t W nameId ni vids vi RN RV ND). pose proof vl. unfold names. rewrite map_length. lia. Qed.

Let gs : list group := map (fun k => (k, dictOf ni rest vi (rows t) k)) keys.
Let nf := List.length rest + List.length npos * List.length vids.
Let made := sExpand ni (List.length vids) nf names gs.
Lemma gs_at g p : nth_error pos g = Some p -> exists x, nth_error gs g = Some x /\ expandPoint ni (List.length vids) names x = row' (nth p (rows t) []).
Proof.
  intros G. eexists. unfold gs, keys. rewrite !nth_error_map, G. cbn [option_map]. split; [reflexivity|]. reflexivity.
Qed.
Lemma gs_len : List.length gs = List.length pos. Proof. unfold gs, keys. rewrite !map_length. reflexivity. Qed.
Lemma gs_nf : forall x, In x gs -> List.length (expandPoint ni (List.length vids) names x) = nf.
Proof.
  intros x I. apply In_nth_error in I. destruct I as [g G]. pose proof (nlt _ _ _ G) as L. rewrite gs_len in L.
  destruct (gs_at g _ (nth_error_nth' pos 0 L)) as [x' [X E]]. rewrite G in X. injection X as <-. rewrite E. apply row'_lengthS.
Qed.
Lemma made_represents pa a : alen pa = List.length pos -> alen a = nf -> represents (PInt 0) made (mkTable pa a (map (fun p => row' (nth p (rows t) [])) pos)).
Proof.
  intros LA LB. split; [change (snp made) with (List.length gs); rewrite gs_len; symmetry; exact LA|]. split; [symmetry; exact LB|]. cbn [tp tf rows]. intros g c G C.
  rewrite LA in G. rewrite LB in C. rewrite nth_error_map. pose proof (nth_error_nth' pos 0 G) as P. rewrite P. cbn [option_map].
  destruct (gs_at g _ P) as [x [X E]]. rewrite (nth_error_nth' (row' (nth (nth g pos 0) (rows t) [])) PNaN) by (rewrite row'_lengthS; exact C). f_equal. symmetry.
  apply (sExpand_val ni (List.length vids) nf names gs gs_nf g x c _ X). rewrite E. apply nth_error_nth'. rewrite row'_lengthS. exact C.
Qed.

Theorem expand_okS : exists o' t', expandFeaturesS strOf o nameId vids modify = (o', Ok tt) /\ Holds o' t' /\ wf t' /\ Placed (oMat o') /\
  alen (tp t') = List.length pos /\ getNames (tf t') = names' /\
  (forall g p r, nth_error pos g = Some p -> nth_error (rows t) p = Some r -> exists cells,
     nth_error (rows t') g = Some (firstn ni (key r) ++ List.concat cells ++ skipn ni (key r)) /\ List.length cells = List.length npos /\
     forall j q nr, nth_error npos j = Some q -> nth_error (rows t) q = Some nr ->
       (forall v, In v (rows t) -> SameValues (key v) (key r) -> Same (name v) (name nr) -> nth_error cells j = Some (pick v vi)) /\
       ((forall v, In v (rows t) -> ~ (SameValues (key v) (key r) /\ Same (name v) (name nr))) -> nth_error cells j = Some (repeat PNaN (List.length vi)))) /\
  (forall g p, nth_error pos g = Some p -> nth_error (getNames (tp t')) g = nth_error (getNames (tp t)) p).
Proof.
  pose proof (used_le t W nameId ni vids vi RN RV ND) as UL. pose proof (rest_length t nameId ni vids vi RN RV ND) as RL. fold rest in RL. pose proof vl as VL. pose proof expandedNames_lengthS as EL.
  assert (LKept : List.length kept = List.length rest) by (unfold kept; apply map_length).
  assert (LN : List.length names' = nf).
  { unfold names', nf. rewrite !app_length, firstn_length, skipn_length, map_length, EL, LKept. lia. }
  destruct H as [HP [HF _]]. unfold expandFeaturesS. rewrite HF, HP, <- (Holds_rows o t W H SE).
  rewrite (Refers_getIndex _ _ _ If_ RN), (Refers_indices _ If_ _ _ RV), Nat2Z.id, (proj2 (nodupb_NoDup _) ND). cbn [negb].
  fold (others (ni :: vi) (alen (tf t))). assert (LE : forall pns, groupLoop ni rest vi (rows t) pns [] [] [] = Ok (gs, names, map (fun i => nth i pns None) pos)) by exact loop_is. fold rest. rewrite LE. clear LE.
  rewrite (prefixesOf_ok strOf modify names prefixes MD) by (auto; unfold names; rewrite map_length; exact LP).
  rewrite nf_eqS. fold nf. rewrite (Refers_state _ _ _ RN), (Refers_states _ _ _ RV).
  fold made.
  rewrite gs_len.
  rewrite (newNames_ok strOf (tf t) vids vi suffixes prefixes If_ RV LV LS SF). cbn [fst snd]. fold kept. fold names'.
  assert (FA : exists a, (if namesCreated (tf t) then setList (tf t) nf names'
      else nameOneByOne (mkAxis nf (astate (tf t))) ni (expandedNames prefixes suffixes)) = (a, Ok tt) /\
      Inv a /\ alen a = nf /\ getNames a = names').
  { unfold namesCreated. destruct (astate (tf t)) as [st|] eqn:E.
    - exact (setList_ok (tf t) _ names' LN DN).
    - destruct AL as [AL'|AL']; [|congruence].
      assert (KN : kept = repeat None (List.length rest)).
      { unfold kept. apply nth_error_ext_len; [rewrite map_length, repeat_length; reflexivity|]. intros i. rewrite nth_error_map.
        destruct (nth_error rest i) as [x|] eqn:X.
        - cbn. assert (i < List.length rest) by (apply nth_error_Some; congruence). rewrite (nth_error_nth' _ None) by (rewrite repeat_length; auto).
          rewrite nth_repeat. unfold getNames. rewrite names_inv_ensure. unfold names_inv. rewrite E. rewrite nth_repeat. reflexivity.
        - cbn. symmetry. apply nth_error_None. rewrite repeat_length. apply nth_error_None. exact X. }
      assert (N1 : names' = repeat None ni ++ map Some (expandedNames prefixes suffixes) ++ repeat None (List.length rest - ni)).
      { unfold names'. rewrite KN. replace (List.length rest) with (ni + (List.length rest - ni)) at 1 2 by lia. rewrite repeat_app.
        rewrite firstn_app, skipn_app, repeat_length, Nat.sub_diag. cbn [firstn skipn]. rewrite app_nil_r.
        rewrite firstn_all2, (skipn_all2 (repeat None ni)) by (rewrite repeat_length; lia). reflexivity. }
      rewrite N1.
      destruct (nameOneByOne_ok (expandedNames prefixes suffixes) (mkAxis nf None) (repeat None ni) (List.length rest - ni)) as [b [B [Ib [Lb Gb]]]].
      + exact Logic.I.
      + unfold getNames. rewrite names_inv_ensure. unfold names_inv. cbn [astate alen]. rewrite <- repeat_app. f_equal. unfold nf. lia.
      + rewrite <- N1. exact DN.
      + rewrite repeat_length in B. exists b. auto. }
  destruct FA as [a [FA [Ia [La Na]]]]. rewrite FA.
  assert (WR : forall r, In r (map (fun p => row' (nth p (rows t) [])) pos) -> List.length r = alen a).
  { intros r I. apply in_map_iff in I. destruct I as [p [<- _]]. rewrite row'_lengthS. auto. }
  assert (LR : List.length (map (fun p => row' (nth p (rows t) [])) pos) = List.length pos) by apply map_length.
  assert (Cells : forall g p r, nth_error pos g = Some p -> nth_error (rows t) p = Some r -> exists cells,
     nth_error (map (fun p => row' (nth p (rows t) [])) pos) g = Some (firstn ni (key r) ++ List.concat cells ++ skipn ni (key r)) /\ List.length cells = List.length npos /\
     forall j q nr, nth_error npos j = Some q -> nth_error (rows t) q = Some nr ->
       (forall v, In v (rows t) -> SameValues (key v) (key r) -> Same (name v) (name nr) -> nth_error cells j = Some (pick v vi)) /\
       ((forall v, In v (rows t) -> ~ (SameValues (key v) (key r) /\ Same (name v) (name nr))) -> nth_error cells j = Some (repeat PNaN (List.length vi)))).
  { intros g p r G R. exists (map (lookupVals (List.length vids) (dictOf ni rest vi (rows t) (key r))) names).
    split; [|split].
    - rewrite nth_error_map, G. cbn [option_map]. rewrite (nth_error_nth _ _ _ R). unfold row'. rewrite flat_map_concat_map. reflexivity.
    - unfold names. rewrite !map_length. reflexivity.
    - intros j q nr J Q. unfold names. rewrite !nth_error_map, J. cbn [option_map]. rewrite (nth_error_nth _ _ _ Q). split.
      + intros v V K N. f_equal. rewrite VL. exact (lookup_found ni rest vi (rows t) (key r) (name nr) v NC V K N).
      + intros N. f_equal. rewrite VL. exact (lookup_none ni rest vi (rows t) (key r) (name nr) N). }
  pose proof (sExpand_Placed ni (List.length vids) nf names gs gs_nf) as PL. fold made in PL.
  unfold namesCreated. destruct (astate (tp t)) as [st|] eqn:E.
  - set (kp := map (fun i => nth i (getNames (tp t)) None) pos).
    assert (LK : List.length kp = List.length pos) by apply map_length.
    assert (KN : forall g p, nth_error pos g = Some p -> nth_error kp g = nth_error (getNames (tp t)) p).
    { intros g p G. unfold kp. rewrite nth_error_map, G. cbn. symmetry. apply nth_error_nth'. rewrite (getNames_length _ Ip), <- W1. exact (pos_lt t ni vi pos FP g p G). }
    assert (DK : DistinctNames kp).
    { intros i j s X Y. destruct (nth_error pos i) as [p|] eqn:P; [|apply nth_error_None in P; assert (i < List.length kp) by (apply nth_error_Some; congruence); lia].
      destruct (nth_error pos j) as [q|] eqn:Q; [|apply nth_error_None in Q; assert (j < List.length kp) by (apply nth_error_Some; congruence); lia].
      rewrite (KN _ _ P) in X. rewrite (KN _ _ Q) in Y. pose proof (Inv_names_distinct _ Ip _ _ _ X Y). subst q.
      destruct (Nat.lt_trichotomy i j) as [L|[L|L]]; [|exact L|].
      - pose proof (proj1 (proj2 FP) i j p p L P Q). lia.
      - pose proof (proj1 (proj2 FP) j i p p L Q P). lia. }
    destruct (setList_ok (tp t) (List.length pos) kp LK DK) as [b [B [Ib [Lb Gb]]]]. rewrite B.
    exists (mkSO b a made 4), (mkTable b a (map (fun p => row' (nth p (rows t) [])) pos)). split; [reflexivity|].
    split; [split; [reflexivity|split; [reflexivity|apply made_represents; assumption]]|]. cbn [tp tf rows oMat].
    split; [split; [cbn [rows tp]; lia|split; [exact WR|split; [exact Ib|exact Ia]]]|]. split; [exact PL|].
    split; [exact Lb|]. split; [exact Na|]. split; [exact Cells|]. intros g p G. rewrite Gb. exact (KN g p G).
  - exists (mkSO (mkAxis (List.length pos) None) a made 4), (mkTable (mkAxis (List.length pos) None) a (map (fun p => row' (nth p (rows t) [])) pos)). split; [reflexivity|].
    split; [split; [reflexivity|split; [reflexivity|apply made_represents; [reflexivity|assumption]]]|]. cbn [tp tf rows alen oMat].
    split; [split; [cbn [rows tp alen]; lia|split; [exact WR|split; [exact Logic.I|exact Ia]]]|]. split; [exact PL|].
    split; [reflexivity|]. split; [exact Na|]. split; [exact Cells|]. intros g p G. unfold getNames. rewrite !names_inv_ensure. unfold names_inv. cbn [astate alen]. rewrite E.
    rewrite !(nth_error_nth' (repeat None _) None), !nth_repeat; [reflexivity| |]; rewrite repeat_length; [rewrite <- W1; exact (pos_lt t ni vi pos FP g p G)|apply (nlt _ _ _ G)].
Qed.
End Expand.
