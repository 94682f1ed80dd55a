(** Proofs about keepPoints, keepFeatures and convertToType for Python data (C61). *)
From Verif Require Import Base NamesModel NamesSpec NamesProofs NamesIndexProofs TableModel TableSpec TableOps TableProofs TableOpsProofs TablePermProofs PrepSpec PrepProofs FlatProofs MatchModel MatchSpec MatchProofs CsvModel RawModel RawSpec RawProofs.
From Coq Require Import QArith Lia Permutation.
Open Scope string_scope.
Open Scope list_scope.
Open Scope nat_scope.

Lemma setAll_len a asg : alen (fst (setNames_all a asg)) = alen a.
Proof. unfold setNames_all. destruct (negb _); auto. destruct (alen a =? 0); auto. destruct (rbind _ _); auto. Qed.
Lemma giveNames_len a g b : giveNames a g = Ok b -> alen b = alen a.
Proof.
  unfold giveNames. destruct (setNames a (namesOf g) ONone) as [x [u|e]] eqn:S1; [|discriminate]. intros E. injection E as <-.
  destruct g; cbn [namesOf setNames] in S1; [injection S1 as <- _; reflexivity| |]; apply (f_equal fst) in S1; cbn [fst] in S1; rewrite <- S1; apply setAll_len.
Qed.
Lemma newAxis_len n g a : newAxis n g = Ok a -> alen a = n.
Proof.
  unfold newAxis. destruct g; [intros E; injection E as <-; reflexivity| |]; (destruct (negb _); [discriminate|]; intros E; apply giveNames_len in E; exact E).
Qed.
(** *** identifiers *)
Lemma means_index a k i : Inv a -> (Means a k i <-> getIndex a (asIdent k) false = Ok (Z.of_nat i)).
Proof.
  intros Ia. rewrite getIndex_Denotes by (auto; destruct k; exact Logic.I). unfold Means, Denotes. destruct k as [s|z]; cbn [asIdent].
  - split.
    + intros [L E]. exists i; auto.
    + intros [j [E N]]. assert (j = i) by lia. subst j. split; auto. apply nth_error_lt in N. rewrite getNames_length in N; auto.
  - split; [intros [L H]; lia|]. intros H. split; lia.
Qed.
Lemma getIndex_nat a k z : Inv a -> getIndex a (asIdent k) false = Ok z -> exists i, z = Z.of_nat i /\ Means a k i.
Proof.
  intros Ia E. pose proof E as E'. apply getIndex_Denotes in E; auto; [|destruct k; exact Logic.I].
  assert (Hz : (0 <= z)%Z). { unfold Denotes in E. destruct k; cbn [asIdent] in E; [destruct E as [j [-> _]]; lia|lia]. }
  exists (Z.to_nat z). rewrite Z2Nat.id by auto. split; auto. apply means_index; auto. rewrite Z2Nat.id by auto. auto.
Qed.
Lemma means_fun a k i j : Inv a -> Means a k i -> Means a k j -> i = j.
Proof. intros Ia A B. apply means_index in A; auto. apply means_index in B; auto. rewrite A in B. injection B as B. lia. Qed.
Lemma means_lt a k i : Means a k i -> i < alen a.
Proof. intros [L _]; auto. Qed.
Lemma keepIndexes_sound a : Inv a -> forall ids cl0 cl, keepIndexes a ids cl0 = Ok cl -> NoDup cl0 ->
  exists l, cl = cl0 ++ l /\ Forall2 (Means a) ids l /\ NoDup cl.
Proof.
  intros Ia. induction ids as [|k ids IH]; intros cl0 cl E N; cbn [keepIndexes] in E.
  - injection E as <-. exists []. rewrite app_nil_r. auto.
  - destruct (getIndex a (asIdent k) false) as [z|] eqn:G; [|discriminate]. cbn [rbind] in E. destruct (getIndex_nat a k z Ia G) as [i [-> M]]. rewrite Nat2Z.id in E.
    destruct (mem i cl0) eqn:Mm; [discriminate|]. apply mem_not_In in Mm. destruct (IH _ _ E) as [l [-> [F D]]].
    + apply (Permutation_NoDup (Permutation_cons_append cl0 i)). constructor; auto.
    + exists (i :: l). rewrite <- app_assoc in *. cbn [app] in *. auto.
Qed.
Lemma keepIndexes_accept a : Inv a -> forall ids l cl0, Forall2 (Means a) ids l -> NoDup (cl0 ++ l) -> keepIndexes a ids cl0 = Ok (cl0 ++ l).
Proof.
  intros Ia. induction ids as [|k ids IH]; intros l cl0 F N; inversion F; subst; cbn [keepIndexes]; [rewrite app_nil_r; reflexivity|].
  rewrite (proj1 (means_index a k y Ia)) by auto. cbn [rbind]. rewrite Nat2Z.id.
  assert (Ni : ~ In y cl0). { intros C. apply NoDup_remove_2 in N. apply N, in_or_app; auto. }
  apply mem_not_In in Ni. rewrite Ni. change (y :: l') with ([y] ++ l') in *. rewrite app_assoc in *. apply IH; auto.
Qed.
Lemma means_distinct a ids l : Inv a -> Forall2 (Means a) ids l -> NoDup l -> NoDup ids.
Proof.
  intros Ia F N. induction F as [|k i ids l M F IH]; [constructor|]. inversion N; subst. constructor; auto.
  intros C. apply In_nth_error in C as [j J]. assert (Q : exists i', nth_error l j = Some i' /\ Means a k i').
  { clear - F J. revert j J. induction F; intros j J; destruct j; cbn in *; try discriminate; [injection J as ->; eauto|auto]. }
  destruct Q as [i' [E M']]. pose proof (means_fun a k i i' Ia M M'). subst i'. apply H1. eapply nth_error_In; eauto.
Qed.
Lemma checkDup_spec l : match checkDuplicates l with Ok _ => NoDup l | Err _ => ~ NoDup l end.
Proof. unfold checkDuplicates. destruct (nodupb l) eqn:E; [apply nodupb_NoDup; auto|]. intros C. apply nodupb_NoDup in C. congruence. Qed.

(** *** keeping *)
Lemma withAxis_ax sd t a : ax sd (withAxis sd t a) = a.
Proof. destruct sd; reflexivity. Qed.
Lemma withAxis_off sd t a : offax sd (withAxis sd t a) = offax sd t.
Proof. destruct sd; reflexivity. Qed.
Lemma withAxis_id sd t : withAxis sd t (ax sd t) = t.
Proof. destruct sd, t; reflexivity. Qed.
Lemma withAxis_wf sd t a : wf t -> Inv a -> alen a = alen (ax sd t) -> wf (withAxis sd t a).
Proof. intros [A [B [C D]]] Ia L. destruct sd; cbn [ax withAxis] in *; split; [|split; [|split]| |split; [|split]]; cbn [rows tp tf]; auto; try congruence. intros r I. rewrite L. auto. Qed.
Lemma vectors_withAxis sd t a : alen a = alen (ax sd t) -> vectors sd (withAxis sd t a) = vectors sd t.
Proof. intros L. destruct sd; cbn [vectors withAxis rows tf]; auto. cbn [ax] in L. rewrite L. reflexivity. Qed.
Lemma limit_ok sd t0 n g a ids ext :
  wf t0 -> ax sd t0 = mkAxis n None -> newAxis n g = Ok a -> Inv a ->
  let t1 := withAxis sd t0 a in
  (forall r cl, limit sd t0 ids g ext = Ok (r, cl) ->
     Forall2 (Means a) ids cl /\ NoDup cl /\ wf r /\ sameOff sd t1 r /\ (astate (offax sd t0) = None -> astate (offax sd r) = None) /\
     items sd r = selected cl (items sd t1) /\ (ext = true \/ List.length ids <> n)) /\
  (forall l, Forall2 (Means a) ids l -> NoDup l -> (forall z, In (KInt z) ids -> (0 <= z)%Z) ->
     List.length ids <> n \/ (ext = true /\ ~ In None (getNames a)) -> exists r, limit sd t0 ids g ext = Ok (r, l)).
Proof.
  intros W0 A0 NA Ia t1.
  assert (La : alen a = n) by (eapply newAxis_len; eauto).
  assert (L0 : alen a = alen (ax sd t0)) by (rewrite A0; auto).
  assert (W1 : wf t1) by (apply withAxis_wf; auto).
  set (full := match g with GNone => false | _ => givenLen g =? n end).
  assert (Lim : limit sd t0 ids g ext =
    if negb ext && (List.length ids =? n) then Err InvalidArgumentValue
    else _ <- (if full then Ok tt else keepIndexValidation ids) ;;
         cl <- keepIndexes a ids [] ;;
         t2 <- (if List.length cl =? n then reorder sd t1 cl else taken sd t1 cl) ;;
         Ok (if full then t2 else withAxis sd t2 (mkAxis (alen (ax sd t2)) None), cl)).
  { unfold limit. rewrite A0. cbn [alen]. destruct (negb ext && (List.length ids =? n)); [reflexivity|]. fold full.
    destruct full eqn:Fu.
    - assert (GN : giveNames (mkAxis n None) g = Ok a).
      { unfold newAxis in NA. unfold full in Fu. destruct g; [discriminate| |]; rewrite Fu in NA; exact NA. }
      rewrite GN. cbn [rbind]. fold t1. unfold t1 at 1. rewrite withAxis_ax. reflexivity.
    - assert (Eg : g = GNone).
      { unfold full in Fu. unfold newAxis in NA. destruct g; auto; rewrite Fu in NA; discriminate. }
      subst g. cbn in NA. injection NA as <-. assert (E1 : t1 = t0) by (unfold t1; rewrite <- A0; apply withAxis_id). rewrite E1.
      destruct (keepIndexValidation ids); [|reflexivity]. cbn [rbind]. rewrite A0. destruct (keepIndexes _ ids []); [|reflexivity]. cbn [rbind].
      destruct (if _ =? n then _ else _); reflexivity. }
  rewrite Lim. clear Lim.
  (* the kept object *)
  assert (Core : forall cl, NoDup cl -> (forall i, In i cl -> i < n) -> (List.length cl = n -> 2 <= n -> ~ In None (getNames a)) ->
    exists t2, (if List.length cl =? n then reorder sd t1 cl else taken sd t1 cl) = Ok t2 /\ wf t2 /\ sameOff sd t1 t2 /\ (astate (offax sd t0) = None -> astate (offax sd t2) = None) /\ items sd t2 = selected cl (items sd t1)).
  { intros cl Nc Rc Hn. destruct (Nat.eqb_spec (List.length cl) n) as [E|E].
    - assert (P : Permutation cl (seq 0 (alen (ax sd t1)))) by (unfold t1; rewrite withAxis_ax, La; apply nodup_range_perm; auto).
      unfold reorder. destruct (Nat.leb_spec (alen (ax sd t1)) 1) as [L1|L1].
      + exists t1. split; auto. split; auto. split; [split; auto|]. split; [unfold t1; rewrite withAxis_off; auto|]. apply items_one; auto.
      + unfold t1 in L1 at 1. rewrite withAxis_ax, La in L1. assert (Mn : mem None (getNames (ax sd t1)) = false) by (apply mem_not_In; unfold t1; rewrite withAxis_ax; apply Hn; auto; lia).
        rewrite Mn. destruct (permute_spec _ sd t1 cl W1 P) as [t2 [E2 [W2 [O2 [L2 I2]]]]]. exists t2. split; auto. split; auto. split; [split; rewrite O2; auto|]. split; auto. rewrite O2. unfold t1. rewrite withAxis_off. auto.
    - destruct (taken_spec _ sd t1 cl W1 Nc) as [t2 [E2 [W2 [S2 [L2 I2]]]]].
      { intros i I. unfold t1. rewrite withAxis_ax, La. auto. }
      exists t2. split; auto. split; auto. split; auto. split; auto. intros No.
      unfold taken in E2. destruct (structuralNames (ax sd t1) cl); [|discriminate]. cbn [rbind] in E2. destruct (initAxis (List.length cl) _); [|discriminate]. cbn [rbind] in E2.
      unfold getNamesNoGeneration, namesCreated in E2. unfold t1 in E2 at 2 3. rewrite withAxis_off, No in E2. cbn [initAxis rbind] in E2.
      destruct sd; [destruct (gather _ _)|destruct (rmapM _ _)]; try discriminate; cbn [rbind] in E2; injection E2 as <-; reflexivity. }
  assert (Final : forall cl t2, NoDup cl -> (forall i, In i cl -> i < n) -> wf t2 -> sameOff sd t1 t2 -> (astate (offax sd t0) = None -> astate (offax sd t2) = None) -> items sd t2 = selected cl (items sd t1) ->
    let r := if full then t2 else withAxis sd t2 (mkAxis (alen (ax sd t2)) None) in
    wf r /\ sameOff sd t1 r /\ (astate (offax sd t0) = None -> astate (offax sd r) = None) /\ items sd r = selected cl (items sd t1)).
  { intros cl t2 Nc Rc W2 S2 O2 I2 r. unfold r. destruct full eqn:Fu; auto.
    assert (Ea : a = mkAxis n None).
    { unfold full in Fu. unfold newAxis in NA. destruct g; [injection NA as <-; auto| |]; rewrite Fu in NA; discriminate. }
    split; [apply withAxis_wf; auto; exact Logic.I|]. unfold sameOff. rewrite withAxis_off. split; auto. split; auto.
    rewrite <- I2. unfold items. rewrite withAxis_ax, vectors_withAxis by reflexivity. f_equal.
    destruct (items_split _ sd t1 t2 cl W1 W2) as [N2 [_ L2]]; auto; [unfold t1; rewrite withAxis_ax, La; auto|].
    rewrite N2, L2. unfold t1. rewrite withAxis_ax, Ea, !getNames_fresh. rewrite selected_repeat; auto. }
  split.
  - intros r cl. destruct (negb ext && (List.length ids =? n)) eqn:Ex; [discriminate|]. destruct (if full then Ok tt else keepIndexValidation ids); [|discriminate]. cbn [rbind].
    destruct (keepIndexes a ids []) as [cl'|] eqn:K; [|discriminate]. cbn [rbind].
    destruct (keepIndexes_sound a Ia _ _ _ K (NoDup_nil _)) as [l [El [F N]]]. cbn [app] in El. subst l.
    assert (Rc : forall i, In i cl' -> i < n).
    { intros i I. rewrite <- La. clear - F I. induction F; [destruct I|]. destruct I as [<-|I]; auto. eapply means_lt; eauto. }
    destruct (if _ =? n then _ else _) as [t2|] eqn:E2; [|discriminate]. cbn [rbind]. intros E. injection E as <- <-.
    assert (Named : List.length cl' = n -> 2 <= n -> ~ In None (getNames a)).
    { intros Lc L2 C. rewrite Lc, Nat.eqb_refl in E2. unfold reorder in E2. rewrite (withAxis_ax sd t0 a : ax sd t1 = a), La in E2.
      rewrite (proj2 (Nat.leb_gt n 1)) in E2 by lia. apply mem_In in C. rewrite C in E2. discriminate. }
    destruct (Core cl' N Rc Named) as [t2' [E2' [W2 [S2 [O2 I2]]]]]. rewrite E2 in E2'. injection E2' as <-.
    destruct (Final cl' t2 N Rc W2 S2 O2 I2) as [Q1 [Q2 [Q3 Q4]]]. repeat (split; auto).
    apply Bool.andb_false_iff in Ex. destruct Ex as [Ex|Ex]; [left; destruct ext; auto|right; apply Nat.eqb_neq; auto].
  - intros l F N Pos Am.
    assert (Ll : List.length l = List.length ids) by (clear - F; induction F; cbn; auto).
    assert (Ex : negb ext && (List.length ids =? n) = false).
    { destruct Am as [Am|[-> _]]; [rewrite (proj2 (Nat.eqb_neq _ _)) by auto; apply Bool.andb_false_r|reflexivity]. }
    rewrite Ex. assert (V : (if full then Ok tt else keepIndexValidation ids) = Ok tt).
    { destruct full eqn:Fu; auto.
      assert (Ea : a = mkAxis n None). { unfold full in Fu. unfold newAxis in NA. destruct g; [injection NA as <-; auto| |]; rewrite Fu in NA; discriminate. }
      clear - F Pos Ea. induction F as [|k i ids l M F IH]; [reflexivity|]. cbn [keepIndexValidation]. destruct k as [s|z].
      - destruct M as [_ M]. subst a. rewrite getNames_fresh in M. apply nth_error_In, repeat_spec in M. discriminate.
      - rewrite (proj2 (Z.ltb_ge z 0)) by (apply Pos; left; auto). apply IH. intros; apply Pos; right; auto. }
    rewrite V. cbn [rbind]. rewrite (keepIndexes_accept a Ia ids l []) by auto. cbn [rbind app].
    destruct (Core l N) as [t2 [-> _]]; [| |cbn [rbind]; eauto].
    + intros i I. rewrite <- La. clear - F I. induction F; [destruct I|]. destruct I as [<-|I]; auto. eapply means_lt; eauto.
    + intros Lc L2. destruct Am as [Am|[_ Am]]; auto. congruence.
Qed.

Lemma selected_of_seq F k : (forall i, In i F -> i < k) -> selected F (seq 0 k) = F.
Proof.
  intros H. apply nth_error_ext. intros i. rewrite selected_nth by (intros; rewrite seq_length; auto).
  destruct (nth_error F i) as [a|] eqn:E; auto. rewrite nth_error_seq. rewrite (proj2 (Nat.ltb_lt a k)) by (apply H; eapply nth_error_In; eauto). reflexivity.
Qed.
Lemma forall2_lt a ids l : Forall2 (Means a) ids l -> forall i, In i l -> i < alen a.
Proof. intros F i I. induction F; [destruct I|]. destruct I as [<-|I]; auto. eapply means_lt; eauto. Qed.
Lemma items_withF t a : items Pts (withAxis Fts t a) = items Pts t.
Proof. reflexivity. Qed.

Section Raw.
Variable strOf : pval -> string.
Variable T : Type.
Variable ET : EqDec T.
Variable conv : T -> pval -> result pval.
Variable junk : nat -> nat -> pval.
Notation initData := (initData strOf T ET conv junk).

Lemma keep_main src pn fn keepP keepF treat repl t lo :
  initData src pn fn CNone None None treat repl true = Ok (t, lo) -> wf t ->
  (forall r lo', initData src pn fn CNone keepP keepF treat repl true = Ok (r, lo') ->
     lo' = [] /\ exists P F, KeptAre (tp t) keepP P /\ KeptAre (tf t) keepF F /\ NoDup P /\ NoDup F /\ subTable t P F r) /\
  (forall P F, KeptAre (tp t) keepP P -> KeptAre (tf t) keepF F -> NoDup P -> NoDup F -> KeepClear pn (tp t) keepP -> KeepClear fn (tf t) keepF ->
     exists r, initData src pn fn CNone keepP keepF treat repl true = Ok (r, [])).
Proof.
  intros Full W. unfold RawModel.initData in *. cbn [rbind] in Full.
  destruct (extractNames strOf pn fn src) as [[[s0 p] f]|] eqn:Ex; [|discriminate]. cbn [rbind] in *.
  destruct (analyze (replaceMissing treat repl s0)) as [u|] eqn:An; [|discriminate]. cbn [rbind] in *.
  destruct (layout junk p f (replaceMissing treat repl s0)) as [[n k] m] eqn:La.
  destruct (newAxis n p) as [pa|] eqn:Np; [|discriminate]. cbn [rbind] in *.
  destruct (newAxis k f) as [fa|] eqn:Nf; [|discriminate]. cbn [rbind fst snd convert] in *. injection Full as <- _.
  pose proof (newAxis_len _ _ _ Np) as Lp. pose proof (newAxis_len _ _ _ Nf) as Lf.
  destruct W as [W1 [W2 [Ip If]]]. cbn [tp tf rows] in *.
  set (t := mkTable pa fa m).
  assert (Wt : wf t) by (repeat split; auto).
  set (pa' := match keepP with None => pa | Some _ => mkAxis n None end).
  set (fa' := match keepF with None => fa | Some _ => mkAxis k None end).
  set (t0 := mkTable pa' fa' m).
  assert (Ep : newAxis n (match keepP with None => p | Some _ => GNone end) = Ok pa') by (unfold pa'; destruct keepP; auto).
  assert (Ef : newAxis k (match keepF with None => f | Some _ => GNone end) = Ok fa') by (unfold fa'; destruct keepF; auto).
  rewrite Ep, Ef. cbn [rbind]. fold t0.
  assert (Iq : Inv pa' /\ alen pa' = n /\ Inv fa' /\ alen fa' = k) by (unfold pa', fa'; destruct keepP, keepF; repeat split; auto).
  destruct Iq as [Ip' [Lp' [If' Lf']]].
  assert (W0 : wf t0). { unfold t0. repeat split; cbn [rows tp tf]; auto; [congruence|intros r I; rewrite Lf'; rewrite <- Lf; auto]. }
  (* points *)
  assert (StageP : 
    (forall t1, match keepP with Some kp => rmap fst (limit Pts t0 kp p (isTrue pn)) | None => Ok t0 end = Ok t1 ->
       exists P, KeptAre pa keepP P /\ NoDup P /\ wf t1 /\ subTable t P (seq 0 k) (withAxis Fts t1 fa) /\ alen (tf t1) = k /\ (keepF <> None -> tf t1 = mkAxis k None) /\ (keepF = None -> getNames (tf t1) = getNames fa)) /\
    (forall P, KeptAre pa keepP P -> NoDup P -> KeepClear pn pa keepP -> exists t1, match keepP with Some kp => rmap fst (limit Pts t0 kp p (isTrue pn)) | None => Ok t0 end = Ok t1)).
  { destruct keepP as [kp|].
    - destruct (limit_ok Pts t0 n p pa kp (isTrue pn) W0 eq_refl Np Ip) as [So Ac]. cbv zeta in So. split.
      + intros t1 E. destruct (limit Pts t0 kp p (isTrue pn)) as [[r cl]|] eqn:Li; [|discriminate]. cbn [rmap fst] in E. injection E as <-.
        destruct (So r cl eq_refl) as [F [N [Wr [So1 [Oo [It _]]]]]]. exists cl. split; auto. split; auto. split; auto.
        destruct So1 as [Lo No]. cbn [offax withAxis tf] in Lo, No, Oo. unfold t0 in Lo, No, Oo. cbn [tf] in Lo, No, Oo.
        assert (Lo' : alen (tf r) = k) by congruence.
        split; [|split; [exact Lo'|split]].
        * assert (Lkk : alen (tf t) = k) by exact Lf. rewrite <- Lkk. apply items_subTable_P; auto.
          -- apply withAxis_wf; auto. cbn [ax]. congruence.
          -- cbn [tp t]. eapply forall2_lt; eauto.
          -- split; reflexivity.
        * intros Nk. assert (A : astate (tf r) = None) by (apply Oo; unfold fa'; destruct keepF; [reflexivity|congruence]).
          clear - A Lo'. destruct (tf r) as [x y]. cbn in A, Lo'. rewrite A, Lo'. reflexivity.
        * intros ->. rewrite No. reflexivity.
      + intros P KP NP KC. cbn in KP, KC. destruct KC as [Pos Am]. destruct (Ac P KP NP Pos) as [r ->]; [|cbn [rmap fst]; eauto].
        rewrite Lp in Am. destruct Am as [Am|[-> Am]]; [left; auto|right; auto].
    - split; [|intros; eauto]. intros t1 E. injection E as <-. exists (seq 0 (alen pa)). split; [reflexivity|]. split; [apply seq_NoDup|]. split; auto. split; [|split; [exact Lf'|split]].
      + assert (E : withAxis Fts t0 fa = t) by reflexivity. rewrite E. assert (Lkk : alen (tf t) = k) by exact Lf. rewrite <- Lkk. assert (Lpp : alen (tp t) = alen pa) by reflexivity. rewrite <- Lpp.
        apply items_subTable_P; auto; [intros i I; apply in_seq in I; lia| |split; reflexivity].
        rewrite selected_seq; auto. rewrite items_length by auto. reflexivity.
      + intros Nk. unfold t0, fa'. cbn [tf]. destruct keepF; [reflexivity|congruence].
      + intros ->. reflexivity. }
  destruct StageP as [SoP AcP].
  assert (Glue : forall P t1 F r, (forall i, In i P -> i < alen pa) -> (forall i, In i F -> i < k) -> subTable t P (seq 0 k) t1 -> subTable t1 (seq 0 (alen (tp t1))) F r -> subTable t P F r).
  { intros P t1 F r RP RF S1 S2. assert (LP : alen (tp t1) = List.length P) by apply S1. rewrite LP in S2.
    pose proof (subTable_trans _ t t1 r P (seq 0 k) (seq 0 (List.length P)) F) as Q. rewrite selected_seq, selected_of_seq in Q by auto. apply Q; auto.
    - cbn. rewrite Lf. intros i I; apply in_seq in I; lia.
    - intros i I; apply in_seq in I; lia.
    - rewrite seq_length. auto. }
  assert (RP : forall P, KeptAre pa keepP P -> forall i, In i P -> i < alen pa).
  { intros P KP i I. destruct keepP; cbn in KP; [eapply forall2_lt; eauto|subst P; apply in_seq in I; lia]. }
  (* features *)
  split.
  - intros r lo' H.
    destruct (match keepP with Some k0 => checkDuplicates k0 | None => Ok tt end); [|discriminate]. cbn [rbind] in H.
    destruct (match keepF with Some k0 => checkDuplicates k0 | None => Ok tt end); [|discriminate]. cbn [rbind] in H.
    assert (D3 : (match keepF with Some _ => Ok tt | None => Ok tt end : result unit) = Ok tt) by (destruct keepF; auto). rewrite D3 in H. cbn [rbind] in H. clear D3.
    destruct (match keepP with Some kp => rmap fst (limit Pts t0 kp p (isTrue pn)) | None => Ok t0 end) as [t1|] eqn:E1; [|discriminate]. cbn [rbind] in H.
    destruct (SoP t1 eq_refl) as [P [KP [NP [Wt1 [S1 [Lk [Un Nm]]]]]]].
    destruct keepF as [kf|].
    + destruct (limit Fts t1 kf f (isTrue fn)) as [[t2 cl]|] eqn:Li; [|discriminate]. cbn [rbind fst snd convert] in H. injection H as <- <-. split; auto.
      specialize (Un ltac:(discriminate)).
      destruct (limit_ok Fts t1 k f fa kf (isTrue fn) Wt1 Un Nf If) as [So _]. cbv zeta in So.
      destruct (So t2 cl Li) as [F [N [Wr [So1 [_ [It _]]]]]]. exists P, cl. split; auto. split; auto. split; auto. split; auto.
      assert (RF : forall i, In i cl -> i < k) by (intros i I; rewrite <- Lf; eapply forall2_lt; eauto).
      apply (Glue P (withAxis Fts t1 fa) cl t2); auto; [apply RP; auto|].
      apply items_subTable_F; auto.
      * apply withAxis_wf; auto. cbn [ax]. rewrite Un. exact Lf.
      * cbn [withAxis tf]. intros i I. rewrite Lf. auto.
    + cbn [rbind fst snd convert] in H. injection H as <- <-. split; auto. exists P, (seq 0 k). split; auto. split; [cbn; rewrite Lf; reflexivity|]. split; auto. split; [apply seq_NoDup|].
      destruct S1 as [Q1 [Q2 [Q3 [Q4 [Q5 Q6]]]]]. split; auto. split; [exact Q2|]. split; [rewrite seq_length; auto|]. split; [exact Q4|]. split; [rewrite Nm by auto; exact Q5|]. intros i j. rewrite <- Q6. reflexivity.
  - intros P F KP KF NP NF CP CF.
    assert (D1 : match keepP with Some k0 => checkDuplicates k0 | None => Ok tt end = Ok tt).
    { destruct keepP as [kp|]; auto. cbn in KP. pose proof (means_distinct pa kp P Ip KP NP) as ND. unfold checkDuplicates. rewrite (proj2 (nodupb_NoDup kp) ND). reflexivity. }
    assert (D2 : match keepF with Some k0 => checkDuplicates k0 | None => Ok tt end = Ok tt).
    { destruct keepF as [kf|]; auto. cbn in KF. pose proof (means_distinct fa kf F If KF NF) as ND. unfold checkDuplicates. rewrite (proj2 (nodupb_NoDup kf) ND). reflexivity. }
    rewrite D1, D2. cbn [rbind].
    assert (D3 : (match keepF with Some _ => Ok tt | None => Ok tt end : result unit) = Ok tt) by (destruct keepF; auto). rewrite D3. cbn [rbind].
    destruct (AcP P KP NP CP) as [t1 E1]. rewrite E1. cbn [rbind]. destruct (SoP t1 E1) as [P' [_ [_ [Wt1 [_ [Lk [Un _]]]]]]].
    destruct keepF as [kf|]; [|cbn; eauto].
    specialize (Un ltac:(discriminate)).
    destruct (limit_ok Fts t1 k f fa kf (isTrue fn) Wt1 Un Nf If) as [_ Ac]. cbn in KF, CF. destruct CF as [Pos Am].
    destruct (Ac F KF NF Pos) as [r ->]; [|cbn; eauto].
    rewrite Lf in Am. destruct Am as [Am|[-> Am]]; [left; auto|right; auto].
Qed.
End Raw.

(** *** convertToType *)
Section Conv.
Variable T : Type.
Variable ET : EqDec T.
Variable conv : T -> pval -> result pval.

Lemma dropKey_in k d (p : kid * T) : In p (dropKey T k d) <-> In p d /\ fst p <> k.
Proof.
  induction d as [|q d IH]; cbn [dropKey]; [tauto|]. destruct (eq_dec (fst q) k) as [E|N].
  - rewrite IH. split; [intros [A B]; split; auto; right; auto|]. intros [[->|A] B]; [contradiction|auto].
  - cbn [In]. rewrite IH. split; [intros [->|[A B]]; auto|]. intros [[->|A] B]; auto.
Qed.
Lemma dropKey_get k k' d : dget k' (dropKey T k d) = if eq_dec k' k then None else dget k' d.
Proof.
  induction d as [|[q v] d IH]; cbn [dropKey dget fst]; [destruct (eq_dec k' k); auto|]. destruct (eq_dec q k) as [->|N].
  - rewrite IH. destruct (eq_dec k' k) as [->|N']; [auto|]. reflexivity.
  - cbn [dget]. destruct (eq_dec k' q) as [->|N']; [destruct (eq_dec q k); congruence|]. exact IH.
Qed.
Lemma dropKey_absent k d : dget k d = None -> dropKey T k d = d.
Proof.
  induction d as [|[q v] d IH]; cbn [dropKey dget fst]; auto. destruct (eq_dec k q) as [->|N]; [discriminate|]. intros H.
  destruct (eq_dec q k); [congruence|]. rewrite IH; auto.
Qed.
Definition nameKey (i : nat) (n : option string) : kid := match n with Some s => KStr s | None => KInt (Z.of_nat i) end.
Definition lk (d : list (kid * T)) (i : nat) (n : option string) : result (option T) :=
  match dget (KInt (Z.of_nat i)) d, (match n with Some s => dget (KStr s) d | None => None end) with
  | Some a, Some b => if eq_dec a b then Ok (Some a) else Err InvalidArgumentValue
  | Some a, None => Ok (Some a)
  | None, Some b => Ok (Some b)
  | None, None => Ok None
  end.
Definition dropBoth (d : list (kid * T)) (i : nat) (n : option string) := dropKey T (nameKey i n) (dropKey T (KInt (Z.of_nat i)) d).
Lemma typeLoop_step i n ns d acc : typeLoop T ET i (n :: ns) d acc = (c <- lk d i n ;; typeLoop T ET (S i) ns (dropBoth d i n) (acc ++ [c])).
Proof.
  cbn [typeLoop]. unfold lk, dropBoth, nameKey. set (ki := KInt (Z.of_nat i)).
  destruct (dget ki d) as [a|] eqn:A; destruct n as [s|]; cbv iota; try (destruct (dget (KStr s) d) as [b|] eqn:B).
  - destruct (eq_dec a b); reflexivity.
  - cbn [rbind]. rewrite (dropKey_absent (KStr s)); [reflexivity|]. rewrite dropKey_get. destruct (eq_dec (KStr s) ki); auto.
  - cbn [rbind]. rewrite (dropKey_absent ki (dropKey T ki d)); [reflexivity|]. rewrite dropKey_get. destruct (eq_dec ki ki); congruence.
  - cbn [rbind]. rewrite (dropKey_absent ki d) by auto. reflexivity.
  - cbn [rbind]. rewrite (dropKey_absent ki d) by auto. rewrite dropKey_absent by auto. reflexivity.
  - cbn [rbind]. rewrite (dropKey_absent ki d) by auto. rewrite dropKey_absent by auto. reflexivity.
Qed.
Lemma typeLoop_ok : forall ns i d0 d acc, 
  (forall j s, nth_error ns j = Some (Some s) -> forall j', nth_error ns j' = Some (Some s) -> j' = j) ->
  (forall j n, nth_error ns j = Some n -> lk d (i + j) n = lk d0 (i + j) n) ->
  match typeLoop T ET i ns d acc with
  | Ok (cs, d') => exists l, cs = acc ++ l /\ List.length l = List.length ns /\
      (forall j n, nth_error ns j = Some n -> exists c, nth_error l j = Some c /\ lk d0 (i + j) n = Ok c) /\
      (forall p, In p d' <-> In p d /\ forall j n, nth_error ns j = Some n -> fst p <> KInt (Z.of_nat (i + j)) /\ fst p <> nameKey (i + j) n)
  | Err e => e = InvalidArgumentValue /\ exists j n, nth_error ns j = Some n /\ lk d0 (i + j) n = Err InvalidArgumentValue
  end.
Proof.
  induction ns as [|n ns IH]; intros i d0 d acc Di Ag.
  - cbn [typeLoop]. exists []. rewrite app_nil_r. split; auto. split; auto. split; [intros [|] ?; discriminate|]. intros p. split; [intros H; split; auto; intros [|] ?; discriminate|tauto].
  - rewrite typeLoop_step. pose proof (Ag 0 n eq_refl) as A0. rewrite Nat.add_0_r in A0. rewrite A0.
    destruct (lk d0 i n) as [c|e] eqn:L0; cbn [rbind].
    2:{ assert (e = InvalidArgumentValue). { unfold lk in L0. destruct (dget _ d0); destruct (match n with Some s => _ | None => _ end); try discriminate. destruct (eq_dec t t0); congruence. }
        subst e. split; auto. exists 0, n. rewrite Nat.add_0_r. auto. }
    assert (Dn : forall j s, nth_error ns j = Some (Some s) -> n <> Some s).
    { intros j s E C. subst n. pose proof (Di 0 s eq_refl (S j) E). discriminate. }
    specialize (IH (S i) d0 (dropBoth d i n) (acc ++ [c])).
    assert (Q : forall j n0, nth_error ns j = Some n0 -> lk (dropBoth d i n) (S i + j) n0 = lk d0 (S i + j) n0).
    { intros j n0 E. specialize (Ag (S j) n0 E). rewrite Nat.add_succ_r in Ag. cbn [plus]. rewrite <- Ag. unfold lk, dropBoth.
      assert (Z1 : KInt (Z.of_nat (S (i + j))) <> KInt (Z.of_nat i)) by (intros C; injection C as C; lia).
      assert (Z2 : KInt (Z.of_nat (S (i + j))) <> nameKey i n) by (unfold nameKey; destruct n; [discriminate|exact Z1]).
      rewrite !dropKey_get. destruct (eq_dec (KInt (Z.of_nat (S (i + j)))) (nameKey i n)); [contradiction|].
      destruct (eq_dec (KInt (Z.of_nat (S (i + j)))) (KInt (Z.of_nat i))); [contradiction|].
      destruct n0 as [s|]; [|reflexivity].
      assert (Y : KStr s <> nameKey i n). { unfold nameKey. destruct n as [s'|]; [|discriminate]. intros C. injection C as C. subst s'. apply (Dn j s E). reflexivity. }
      rewrite !dropKey_get. destruct (eq_dec (KStr s) (nameKey i n)); [contradiction|]. destruct (eq_dec (KStr s) (KInt (Z.of_nat i))); [discriminate|]. reflexivity. }
    specialize (IH ltac:(intros j s E j' E'; specialize (Di (S j) s E (S j') E'); lia) Q).
    destruct (typeLoop T ET (S i) ns (dropBoth d i n) (acc ++ [c])) as [[cs d']|e].
    + destruct IH as [l [-> [Ll [Rl Rd]]]]. exists (c :: l). rewrite <- app_assoc. split; auto. split; [cbn; auto|]. split.
      * intros [|j] n0 E; cbn [nth_error] in *; [injection E as <-; rewrite Nat.add_0_r; eauto|]. destruct (Rl j n0 E) as [c' [E1 E2]]. rewrite Nat.add_succ_r. eauto.
      * intros p. rewrite Rd. unfold dropBoth. rewrite !dropKey_in. split.
        -- intros [[[I N1] N2] H]. split; auto. intros [|j] n0 E; cbn [nth_error] in E; [injection E as <-; rewrite Nat.add_0_r; auto|]. rewrite Nat.add_succ_r. apply (H j n0 E).
        -- intros [I H]. destruct (H 0 n eq_refl) as [H1 H2]. rewrite Nat.add_0_r in H1, H2. split; auto. intros j n0 E. specialize (H (S j) n0 E). rewrite Nat.add_succ_r in H. exact H.
    + destruct IH as [-> [j [n0 [E1 E2]]]]. split; auto. exists (S j), n0. rewrite Nat.add_succ_r. auto.
Qed.
Lemma convertRows_ok cs m k : List.length cs = k -> (forall r, In r m -> List.length r = k) -> 
  match convertRows T conv cs m with
  | Ok m' => List.length m' = List.length m /\ (forall r, In r m' -> List.length r = k) /\
      forall i j v c, valueAt m i j = Some v -> nth_error cs j = Some c -> exists w, valueAt m' i j = Some w /\ ConvertedBy conv c v w
  | Err e => exists i j v c e0, valueAt m i j = Some v /\ nth_error cs j = Some (Some c) /\ conv c v = Err e0 /\ e = match e0 with ValueErr | TypeErr => InvalidArgumentValue | _ => e0 end
  end.
Proof.
  intros Lc Lm. unfold convertRows.
  assert (Row : forall r, List.length r = k -> match rmapM (fun p : pval * option T => convertOne T conv (snd p) (fst p)) (combine r cs) with
     | Ok r' => List.length r' = k /\ forall j v c, nth_error r j = Some v -> nth_error cs j = Some c -> exists w, nth_error r' j = Some w /\ ConvertedBy conv c v w
     | Err e => exists j v c e0, nth_error r j = Some v /\ nth_error cs j = Some (Some c) /\ conv c v = Err e0 /\ e = match e0 with ValueErr | TypeErr => InvalidArgumentValue | _ => e0 end end).
  { clear Lm m. revert cs k Lc. intros cs0 k0 Lc0 r. revert cs0 k0 Lc0. induction r as [|v r IH]; intros cs0 k0 Lc0 Lr.
    - cbn [combine rmapM]. split; [auto|]. intros [|] ? ?; discriminate.
    - destruct k0; [discriminate|]. destruct cs0 as [|c cs0]; [discriminate|]. cbn in Lc0, Lr. injection Lc0 as Lc0. injection Lr as Lr. cbn [combine rmapM fst snd].
      destruct (convertOne T conv c v) as [w|e] eqn:C1; cbn [rbind].
      + specialize (IH cs0 k0 Lc0 Lr). destruct (rmapM _ (combine r cs0)) as [r'|e]; cbn [rbind].
        * destruct IH as [L R]. split; [cbn; auto|]. intros [|j] v0 c0 E1 E2; cbn [nth_error] in *; [|apply R; auto]. injection E1 as <-. injection E2 as <-. exists w. split; auto.
          unfold convertOne in C1. destruct c as [c|]; cbn; [|congruence]. destruct (conv c v) as [w'|e']; [congruence|destruct e'; discriminate].
        * destruct IH as [j [v0 [c0 [e0 [E1 [E2 E3]]]]]]. exists (S j), v0, c0, e0. auto.
      + unfold convertOne in C1. destruct c as [c|]; [|discriminate]. exists 0, v, c. destruct (conv c v) as [w'|e'] eqn:Cv; [discriminate|]. exists e'. repeat split; auto. destruct e'; congruence. }
  induction m as [|r m IH].
  - cbn [rmapM]. split; auto. split; [intros ? []|]. intros i j v c E. unfold valueAt in E. destruct i; discriminate.
  - cbn [rmapM]. specialize (Row r (Lm r (or_introl eq_refl))). specialize (IH ltac:(intros; apply Lm; right; auto)).
    destruct (rmapM _ (combine r cs)) as [r'|e]; cbn [rbind].
    + destruct (rmapM _ m) as [m'|e]; cbn [rbind].
      * destruct Row as [L R]. destruct IH as [L2 [L3 R2]]. split; [cbn; auto|]. split; [intros x [<-|I]; auto|]. intros [|i] j v c E1 E2; [apply (R j v c); auto|apply (R2 i j v c); auto].
      * destruct IH as [i [j [v [c [e0 [E1 E2]]]]]]. exists (S i), j, v, c, e0. auto.
    + destruct Row as [j [v [c [e0 [E1 E2]]]]]. exists 0, j, v, c, e0. auto.
Qed.
End Conv.
