(** Proofs for C49: combineByExpandingFeatures as a whole. *)
From Verif Require Import Base NamesModel NamesSpec NamesProofs NamesIndexProofs TableModel TableSpec TableProofs TableOpsProofs FlatProofs MatchModel MatchSpec MatchProofs
  MergeModel BinOpProofs MergeLoopProofs MergeNamesProofs ReshapeModel ReshapeSpec ReshapeTextProofs ReshapeSplitProofs ReshapeCollapseProofs ReshapeExpandProofs ReshapeFillProofs.
Open Scope string_scope. Open Scope list_scope. Open Scope nat_scope.

Lemma first_true (P : nat -> bool) n : {i | i < n /\ P i = true} + {forall i, i < n -> P i = false}.
Proof.
  induction n as [|n [[i [L E]]|IH]]; [right; lia|left; exists i; split; [lia|exact E]|].
  destruct (P n) eqn:E; [left; exists n; split; [lia|exact E]|]. right. intros i L. destruct (Nat.eq_dec i n) as [->|D]; [exact E|apply IH; lia].
Qed.
Lemma Forall2_dec_clash (t : table pval) ni rest :
  (exists i j a b, i < j /\ nth_error (rows t) i = Some a /\ nth_error (rows t) j = Some b /\ SameValues (pick a rest) (pick b rest) /\ Same (nth ni a PNaN) (nth ni b PNaN)) \/
  (forall i j a b, i < j -> nth_error (rows t) i = Some a -> nth_error (rows t) j = Some b -> ~ (SameValues (pick a rest) (pick b rest) /\ Same (nth ni a PNaN) (nth ni b PNaN))).
Proof.
  set (test := fun i j => match nth_error (rows t) i, nth_error (rows t) j with
    | Some a, Some b => tupEq (pick a rest) (pick b rest) && pyEq (nth ni a PNaN) (nth ni b PNaN) | _, _ => false end).
  set (n := List.length (rows t)).
  destruct (first_true (fun j => existsb (fun i => test i j) (seq 0 j)) n) as [[j [L E]]|N].
  - left. apply existsb_exists in E. destruct E as [i [I E]]. apply in_seq in I. unfold test in E.
    destruct (nth_error (rows t) i) as [a|] eqn:A; [|discriminate]. destruct (nth_error (rows t) j) as [b|] eqn:B; [|discriminate].
    apply andb_true_iff in E. destruct E as [E F]. exists i, j, a, b. split; [lia|]. split; [exact A|]. split; [exact B|]. split; [apply tupEq_spec; exact E|apply pyEq_spec; exact F].
  - right. intros i j a b L A B [E F]. assert (LJ : j < n) by (apply nth_error_Some; congruence). specialize (N j LJ). cbn in N.
    assert (existsb (fun i => test i j) (seq 0 j) = true); [|congruence]. apply existsb_exists. exists i. split; [apply in_seq; lia|].
    unfold test. rewrite A, B. apply andb_true_iff. split; [apply tupEq_spec; exact E|apply pyEq_spec; exact F].
Qed.
Section Expand.
Variable strOf : pval -> string.
Variable t : table pval.
Hypothesis W : wf t.
Variables (nameId : ident) (ni : nat) (vids : list ident) (vi : list nat) (modify : bool).
Hypothesis RN : Refers (tf t) nameId ni.
Hypothesis RV : Forall2 (Refers (tf t)) vids vi.
Hypothesis ND : NoDup (ni :: vi).
Let rest := others (ni :: vi) (alen (tf t)).
Let key (r : list pval) := pick r rest.
Let name (r : list pval) := nth ni r PNaN.
Hypothesis NN : forall r, In r (rows t) -> ~ In PNaN (key r) /\ name r <> PNaN.
Let W1 := proj1 W.
Let W2 := proj1 (proj2 W).
Let Ip := proj1 (proj2 (proj2 W)).
Let If_ := proj2 (proj2 (proj2 W)).

Lemma rest_length : List.length rest = alen (tf t) - S (List.length vi).
Proof.
  unfold rest. rewrite others_length; [reflexivity|exact ND|]. intros i [<-|I]; [exact (proj1 RN)|]. exact (Refers_lt _ _ _ RV i I).
Qed.
Lemma used_le : S (List.length vi) <= alen (tf t).
Proof.
  change (S (List.length vi)) with (List.length (ni :: vi)). rewrite <- (seq_length (alen (tf t)) 0). apply NoDup_incl_length; [exact ND|].
  intros i I. apply in_seq. assert (i < alen (tf t)); [|lia]. destruct I as [<-|I]; [exact (proj1 RN)|]. exact (Refers_lt _ _ _ RV i I).
Qed.
Lemma NN' : NoNaN ni rest (rows t).
Proof. intros r I. exact (NN r I). Qed.
Lemma keysFirsts : Firsts SameValues (map key (rows t)) (posOf rest (rows t)).
Proof.
  unfold posOf. apply (firstsPos_Firsts [] tupEq tupEq_trans); [exact tupEq_spec|]. exact (keys_refl ni rest (rows t) NN').
Qed.
Lemma namesFirsts : Firsts Same (map name (rows t)) (nposOf ni (rows t)).
Proof.
  unfold nposOf. apply (firstsPos_Firsts PNaN pyEq pyEq_trans); [exact pyEq_spec|].
  intros y I. apply in_map_iff in I. destruct I as [a [<- A]]. apply pyEq_self. exact (proj2 (NN a A)).
Qed.
Lemma start_eq pns : groupLoop ni rest vi (rows t) pns [] [] [] =
  groupLoop ni rest vi (rows t) (skipn (List.length (@nil (list pval))) pns) (groupsOf ni rest vi []) (namesOf ni []) (keptOf rest pns []).
Proof. reflexivity. Qed.

(** ** points of one group with one name *)
Theorem expand_clash : (exists i j a b, i < j /\ nth_error (rows t) i = Some a /\ nth_error (rows t) j = Some b /\ SameValues (key a) (key b) /\ Same (name a) (name b)) ->
  expandFeatures strOf t nameId vids modify = (t, Err ImproperObjectAction).
Proof.
  intros [i [j [a [b [L [A [B [K N]]]]]]]]. unfold expandFeatures.
  rewrite (Refers_getIndex _ _ _ If_ RN), (Refers_indices _ If_ _ _ RV), Nat2Z.id, (proj2 (nodupb_NoDup _) ND). cbn [negb].
  fold (others (ni :: vi) (alen (tf t))). fold rest. rewrite start_eq, groupLoop_err; [reflexivity|exact NN'| |].
  - intros i' j' a' b' _ X. destruct i'; discriminate.
  - intros NC. apply (NC i j a b L A B). split; [exact K|exact N].
Qed.

Variables pos npos : list nat.
Hypothesis FP : Firsts SameValues (map key (rows t)) pos.
Hypothesis FN : Firsts Same (map name (rows t)) npos.
Hypothesis NC : forall i j a b, i < j -> nth_error (rows t) i = Some a -> nth_error (rows t) j = Some b -> ~ (SameValues (key a) (key b) /\ Same (name a) (name b)).
Let names := map (fun q => name (nth q (rows t) [])) npos.
Lemma NC' : NoClash ni rest (rows t).
Proof. exact NC. Qed.
Lemma pos_eq : posOf rest (rows t) = pos.
Proof. exact (Firsts_unique SameValues _ _ _ SameValues_sym keysFirsts FP). Qed.
Lemma npos_eq : nposOf ni (rows t) = npos.
Proof. exact (Firsts_unique Same _ _ _ Same_sym namesFirsts FN). Qed.
Lemma pos_lt g p : nth_error pos g = Some p -> p < List.length (rows t).
Proof. intros G. destruct (proj1 FP g p G) as [x [X _]]. rewrite <- (map_length key). apply nth_error_Some. congruence. Qed.
Lemma npos_lt g p : nth_error npos g = Some p -> p < List.length (rows t).
Proof. intros G. destruct (proj1 FN g p G) as [x [X _]]. rewrite <- (map_length name). apply nth_error_Some. congruence. Qed.
Lemma names_eq : namesOf ni (rows t) = names.
Proof.
  unfold namesOf, names. rewrite npos_eq. apply map_ext_in. intros q Q. apply In_nth_error in Q. destruct Q as [g G]. pose proof (npos_lt g q G) as L.
  rewrite (nth_indep _ PNaN (nameOf ni [])) by (rewrite map_length; exact L). rewrite map_nth. reflexivity.
Qed.
Let keys := map (fun p => key (nth p (rows t) [])) pos.
Lemma keys_eq : keysOf rest (rows t) = keys.
Proof.
  unfold keysOf, keys. rewrite pos_eq. apply map_ext_in. intros q Q. apply In_nth_error in Q. destruct Q as [g G]. pose proof (pos_lt g q G) as L.
  rewrite (nth_indep _ [] (keyOf' rest [])) by (rewrite map_length; exact L). rewrite map_nth. reflexivity.
Qed.
Lemma loop_eq pns : groupLoop ni rest vi (rows t) pns [] [] [] =
  Ok (map (fun k => (k, dictOf ni rest vi (rows t) k)) keys, names, map (fun i => nth i pns None) pos).
Proof.
  rewrite start_eq, groupLoop_ok; [|exact NN'|exact NC']. cbn [app]. unfold groupsOf, keptOf. rewrite keys_eq, names_eq, pos_eq. reflexivity.
Qed.

(** ** names of the same text *)
Theorem expand_same_text : ~ NoDup (map strOf names) -> modify = false -> expandFeatures strOf t nameId vids modify = (t, Err ImproperObjectAction).
Proof.
  intros D ->. unfold expandFeatures.
  rewrite (Refers_getIndex _ _ _ If_ RN), (Refers_indices _ If_ _ _ RV), Nat2Z.id, (proj2 (nodupb_NoDup _) ND). cbn [negb].
  fold (others (ni :: vi) (alen (tf t))). fold rest. rewrite loop_eq. cbn [fst snd]. rewrite (prefixesOf_err strOf names D). reflexivity.
Qed.

Variables prefixes suffixes : list string.
Hypothesis LV : 0 < List.length vids.
Hypothesis AL : ni <= List.length rest.
Hypothesis LP : List.length prefixes = List.length npos.
Hypothesis PF : forall j s, nth_error prefixes j = Some s -> PrefixOf strOf names j s.
Hypothesis MD : modify = true \/ NoDup (map strOf names).
Hypothesis LS : List.length suffixes = List.length vids.
Hypothesis SF : 1 < List.length vids -> forall j id i s, nth_error vids j = Some id -> nth_error vi j = Some i -> nth_error suffixes j = Some s -> SuffixOf strOf (tf t) id i s.
Let kept := map (fun i => nth i (getNames (tf t)) None) rest.
Let names' := firstn ni kept ++ map Some (expandedNames prefixes suffixes) ++ skipn ni kept.
Hypothesis DN : DistinctNames names'.

Lemma vi_len : List.length vids = List.length vi.
Proof. clear - RV. induction RV; cbn; auto. Qed.
Lemma expandedNames_length : List.length (expandedNames prefixes suffixes) = List.length npos * List.length vids.
Proof.
  unfold expandedNames. destruct suffixes as [|s [|s' l]]; cbn [List.length] in LS; [lia|rewrite <- LS; lia|].
  rewrite (flat_map_const_length _ _ (List.length vids)); [lia|]. intros x _. rewrite map_length. exact LS.
Qed.
Let row' (r : list pval) : list pval := firstn ni (key r) ++ flat_map (lookupVals (List.length vids) (dictOf ni rest vi (rows t) (key r))) names ++ skipn ni (key r).
Lemma row'_length r : List.length (row' r) = List.length rest + List.length npos * List.length vids.
Proof.
  unfold row'. rewrite !app_length, firstn_length, skipn_length. unfold key, pick. rewrite !map_length.
  rewrite (flat_map_const_length _ _ (List.length vids)). unfold names. rewrite map_length. lia.
  intros x _. apply lookupVals_length. intros p I. rewrite vi_len. exact (dict_lengths _ _ _ _ _ p I).
Qed.
Lemma nf_eq : alen (tf t) + List.length names * List.length vids - (1 + List.length vids) = List.length rest + List.length npos * List.length vids.
Proof. rewrite rest_length. pose proof used_le. pose proof vi_len. unfold names. rewrite map_length. lia. Qed.

Theorem expand_ok : exists t', expandFeatures strOf t nameId vids modify = (t', Ok tt) /\ wf t' /\
  alen (tp t') = List.length pos /\ getNames (tf t') = names' /\
  (forall g p r, nth_error pos g = Some p -> nth_error (rows t) p = Some r -> exists cells,
     nth_error (rows t') g = Some (firstn ni (key r) ++ List.concat cells ++ skipn ni (key r)) /\ List.length cells = List.length npos /\
     forall j q nr, nth_error npos j = Some q -> nth_error (rows t) q = Some nr ->
       (forall v, In v (rows t) -> SameValues (key v) (key r) -> Same (name v) (name nr) -> nth_error cells j = Some (pick v vi)) /\
       ((forall v, In v (rows t) -> ~ (SameValues (key v) (key r) /\ Same (name v) (name nr))) -> nth_error cells j = Some (repeat PNaN (List.length vi)))) /\
  (forall g p, nth_error pos g = Some p -> nth_error (getNames (tp t')) g = nth_error (getNames (tp t)) p).
Proof.
  pose proof used_le as UL. pose proof rest_length as RL. pose proof vi_len as VL. pose proof expandedNames_length as EL.
  assert (LKept : List.length kept = List.length rest) by (unfold kept; apply map_length).
  assert (LN : List.length names' = List.length rest + List.length npos * List.length vids).
  { unfold names'. rewrite !app_length, firstn_length, skipn_length, map_length, EL, LKept. lia. }
  unfold expandFeatures.
  rewrite (Refers_getIndex _ _ _ If_ RN), (Refers_indices _ If_ _ _ RV), Nat2Z.id, (proj2 (nodupb_NoDup _) ND). cbn [negb].
  fold (others (ni :: vi) (alen (tf t))). fold rest. rewrite loop_eq. cbn [fst snd].
  rewrite (prefixesOf_ok strOf modify names prefixes MD) by (auto; unfold names; rewrite map_length; exact LP).
  rewrite nf_eq. rewrite (Refers_state _ _ _ RN), (Refers_states _ _ _ RV). rewrite map_length.
  assert (LR : List.length (map (fun p => row' (nth p (rows t) [])) pos) = List.length pos) by apply map_length.
  rewrite (rmapM_nth _ _ (map (fun p => row' (nth p (rows t) [])) pos)).
  2: { unfold keys. rewrite !map_length. reflexivity. }
  2: { intros j x y J Y. unfold keys in J. rewrite !nth_error_map in J. rewrite nth_error_map in Y. destruct (nth_error pos j) as [p|]; [|discriminate].
       injection J as <-. injection Y as <-. unfold row'. apply fillExpanded_ok.
       - intros d D. rewrite VL. exact (dict_lengths _ _ _ _ _ d D).
       - unfold key, pick. rewrite map_length. exact AL.
       - unfold key, pick, names. rewrite !map_length. reflexivity. }
  rewrite (newNames_ok strOf (tf t) vids vi suffixes prefixes If_ RV LV LS SF). cbn [fst snd]. fold kept. fold names'.
  assert (Hk : List.length keys = List.length pos) by (unfold keys; apply map_length). rewrite !Hk.
  assert (FA : exists a, (if namesCreated (tf t) then setList (tf t) (List.length rest + List.length npos * List.length vids) names'
      else nameOneByOne (mkAxis (List.length rest + List.length npos * List.length vids) (astate (tf t))) ni (expandedNames prefixes suffixes)) = (a, Ok tt) /\
      Inv a /\ alen a = List.length rest + List.length npos * List.length vids /\ getNames a = names').
  { unfold namesCreated. destruct (astate (tf t)) as [st|] eqn:E.
    - exact (setList_ok (tf t) _ names' LN DN).
    - assert (KN : kept = repeat None (List.length rest)).
      { unfold kept. apply nth_error_ext_len; [rewrite map_length, repeat_length; reflexivity|]. intros i. rewrite nth_error_map.
        destruct (nth_error rest i) as [x|] eqn:X.
        - cbn. assert (i < List.length rest) by (apply nth_error_Some; congruence). rewrite (nth_error_nth' _ None) by (rewrite repeat_length; auto).
          rewrite nth_repeat. unfold getNames. rewrite names_inv_ensure. unfold names_inv. rewrite E. rewrite nth_repeat. reflexivity.
        - cbn. symmetry. apply nth_error_None. rewrite repeat_length. apply nth_error_None. exact X. }
      assert (N1 : names' = repeat None ni ++ map Some (expandedNames prefixes suffixes) ++ repeat None (List.length rest - ni)).
      { unfold names'. rewrite KN. replace (List.length rest) with (ni + (List.length rest - ni)) at 1 2 by lia. rewrite repeat_app.
        rewrite firstn_app, skipn_app, repeat_length, Nat.sub_diag. cbn [firstn skipn]. rewrite app_nil_r.
        rewrite firstn_all2, (skipn_all2 (repeat None ni)) by (rewrite repeat_length; lia). reflexivity. }
      rewrite N1. set (nf := List.length rest + List.length npos * List.length vids) in *.
      destruct (nameOneByOne_ok (expandedNames prefixes suffixes) (mkAxis nf None) (repeat None ni) (List.length rest - ni)) as [b [B [Ib [Lb Gb]]]].
      + exact I.
      + unfold getNames. rewrite names_inv_ensure. unfold names_inv. cbn [astate alen]. rewrite <- repeat_app. f_equal. unfold nf. lia.
      + rewrite <- N1. exact DN.
      + rewrite repeat_length in B. exists b. auto. }
  destruct FA as [a [FA [Ia [La Na]]]]. rewrite FA.
  assert (WR : forall r, In r (map (fun p => row' (nth p (rows t) [])) pos) -> List.length r = alen a).
  { intros r I. apply in_map_iff in I. destruct I as [p [<- _]]. rewrite row'_length. auto. }
  assert (Cells : forall g p r, nth_error pos g = Some p -> nth_error (rows t) p = Some r -> exists cells,
     nth_error (map (fun p => row' (nth p (rows t) [])) pos) g = Some (firstn ni (key r) ++ List.concat cells ++ skipn ni (key r)) /\ List.length cells = List.length npos /\
     forall j q nr, nth_error npos j = Some q -> nth_error (rows t) q = Some nr ->
       (forall v, In v (rows t) -> SameValues (key v) (key r) -> Same (name v) (name nr) -> nth_error cells j = Some (pick v vi)) /\
       ((forall v, In v (rows t) -> ~ (SameValues (key v) (key r) /\ Same (name v) (name nr))) -> nth_error cells j = Some (repeat PNaN (List.length vi)))).
  { intros g p r G R. exists (map (lookupVals (List.length vids) (dictOf ni rest vi (rows t) (key r))) names).
    split; [|split].
    - rewrite nth_error_map, G. cbn [option_map]. rewrite (nth_error_nth _ _ _ R). unfold row'. rewrite flat_map_concat_map. reflexivity.
    - unfold names. rewrite !map_length. reflexivity.
    - intros j q nr J Q. unfold names. rewrite !nth_error_map, J. cbn [option_map]. rewrite (nth_error_nth _ _ _ Q). split.
      + intros v V K N. f_equal. rewrite VL. exact (lookup_found ni rest vi (rows t) (key r) (name nr) v NC' V K N).
      + intros N. f_equal. rewrite VL. exact (lookup_none ni rest vi (rows t) (key r) (name nr) N). }
  unfold namesCreated. destruct (astate (tp t)) as [st|] eqn:E.
  - set (kp := map (fun i => nth i (getNames (tp t)) None) pos).
    assert (LK : List.length kp = List.length pos) by apply map_length.
    assert (KN : forall g p, nth_error pos g = Some p -> nth_error kp g = nth_error (getNames (tp t)) p).
    { intros g p G. unfold kp. rewrite nth_error_map, G. cbn. symmetry. apply nth_error_nth'. rewrite (getNames_length _ Ip), <- W1. exact (pos_lt g p G). }
    assert (DK : DistinctNames kp).
    { intros i j s X Y. destruct (nth_error pos i) as [p|] eqn:P; [|apply nth_error_None in P; assert (i < List.length kp) by (apply nth_error_Some; congruence); lia].
      destruct (nth_error pos j) as [q|] eqn:Q; [|apply nth_error_None in Q; assert (j < List.length kp) by (apply nth_error_Some; congruence); lia].
      rewrite (KN _ _ P) in X. rewrite (KN _ _ Q) in Y. pose proof (Inv_names_distinct _ Ip _ _ _ X Y). subst q.
      destruct (Nat.lt_trichotomy i j) as [L|[L|L]]; [|exact L|].
      - pose proof (proj1 (proj2 FP) i j p p L P Q). lia.
      - pose proof (proj1 (proj2 FP) j i p p L Q P). lia. }
    destruct (setList_ok (tp t) (List.length pos) kp LK DK) as [b [B [Ib [Lb Gb]]]]. rewrite B.
    eexists. split; [reflexivity|]. cbn [tp tf rows]. split; [split; [cbn [rows tp]; lia|split; [exact WR|split; [exact Ib|exact Ia]]]|].
    split; [exact Lb|]. split; [exact Na|]. split; [exact Cells|]. intros g p G. rewrite Gb. exact (KN g p G).
  - eexists. split; [reflexivity|]. cbn [tp tf rows alen]. split; [split; [cbn [rows tp alen]; lia|split; [exact WR|split; [exact I|exact Ia]]]|].
    split; [reflexivity|]. split; [exact Na|]. split; [exact Cells|]. intros g p G. unfold getNames. rewrite !names_inv_ensure. unfold names_inv. cbn [astate alen]. rewrite E.
    rewrite !(nth_error_nth' (repeat None _) None), !nth_repeat; [reflexivity| |]; rewrite repeat_length; [rewrite <- W1; exact (pos_lt g p G)|apply nth_error_Some; congruence].
Qed.
End Expand.
