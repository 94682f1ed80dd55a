(** convertToType with keepFeatures, and the keys of its dict (C61). *)
From Verif Require Import Base NamesModel NamesSpec NamesProofs TableModel TableSpec TableOps TableProofs TableOpsProofs TableSortProofs MatchModel CsvModel RawModel RawSpec RawProofs RawKeepProofs RawConvProofs.
From Coq Require Import QArith Lia.
Open Scope string_scope.
Open Scope list_scope.
Open Scope nat_scope.

Lemma gather_selected {A} (l : list A) idx : (forall i, In i idx -> i < List.length l) -> gather l idx = Ok (selected idx l).
Proof.
  induction idx as [|i idx IH]; intros H; [reflexivity|]. unfold gather in *. cbn [rmapM].
  destruct (nth_error_is_some l (H i (or_introl eq_refl))) as [x E]. rewrite E. cbn [rbind]. rewrite IH by (intros; apply H; cbn; auto). cbn [rbind]. unfold selected. cbn [flat_map]. rewrite E. reflexivity.
Qed.

Section Types.
Variable strOf : pval -> string.
Variable T : Type.
Variable ET : EqDec T.
Variable conv : T -> pval -> result pval.
Variable junk : nat -> nat -> pval.
Notation initData := (initData strOf T ET conv junk).

Lemma extract_listed pn fn src s p f : extractNames strOf pn fn src = Ok (s, p, f) -> notDict fn -> listed f.
Proof.
  intros E N. assert (St : forall o, listed (settle fn o)) by (intros o; destruct fn as [| |[|]|l|d]; try contradiction; cbn; auto; destruct o; cbn; auto).
  assert (Sa : forall p0 s0, settleAll strOf p0 fn s0 = Ok (s, p, f) -> listed f).
  { intros p0 s0 H. destruct s0 as [l|[|r m]|]; cbn [settleAll] in H.
    - destruct (extractFlat strOf p0 fn l) as [[[? ?] ?]|]; [|discriminate]. cbn [rbind] in H. injection H as _ _ <-. apply St.
    - destruct (extractFlat strOf p0 fn []) as [[[? ?] ?]|]; [|discriminate]. cbn [rbind] in H. injection H as _ _ <-. apply St.
    - destruct (extractRows strOf p0 fn (r :: m)) as [[[? ?] ?]|]; [|discriminate]. cbn [rbind] in H. injection H as _ _ <-. apply St.
    - injection H as _ _ <-. apply St. }
  destruct src as [l|m|d|d|[|r m]]; cbn [extractNames] in E; eauto.
  - destruct d as [|x d]; cbn [extractDictRows] in E; [destruct (isTrue pn); [discriminate|injection E as _ _ <-; exact Logic.I]|].
    destruct (dictNames pn _ _) as [[? ?]|]; [|discriminate]. cbn [rbind] in E. destruct (isTrue fn); [discriminate|]. eauto.
  - destruct d as [|x d]; cbn [extractDictVals] in E; [destruct (isTrue pn); [discriminate|injection E as _ _ <-; exact Logic.I]|].
    destruct (dictNames pn _ _) as [[? ?]|]; [|discriminate]. cbn [rbind] in E. injection E as _ _ <-. exact Logic.I.
  - unfold extractDicts in E. destruct (isTrue pn); [discriminate|]. destruct (_ && isTrue fn); [discriminate|].
    set (fn1 := if _ && isAuto fn then NmNone else fn) in E.
    destruct (dictNames fn1 _ _) as [[g fp]|] eqn:D; [|discriminate]. cbn [rbind] in E. destruct (rmapM _ m); [|discriminate]. cbn [rbind] in E. injection E as _ _ <-.
    assert (N1 : notDict fn1) by (unfold fn1; destruct (_ && _); [exact Logic.I|exact N]).
    unfold dictNames in D. destruct fn1 as [| |[|]|l|d]; try contradiction; try (injection D as <- _; exact Logic.I).
    destruct (eq_dec l _); [injection D as <- _; exact Logic.I|]. destruct (_ && _); [discriminate|]. destruct (negb _); [discriminate|].
    destruct (rmapM _ l); [|discriminate]. cbn [rbind] in D. destruct (gather _ _); [|discriminate]. cbn [rbind] in D. injection D as <- _. exact Logic.I.
Qed.

(** what is known after the names are taken out and the points limited *)
Lemma stage src pn fn (keepP keepF : option (list kid)) treat repl t lo :
  initData src pn fn CNone None None treat repl true = Ok (t, lo) -> wf t ->
  exists s0 p f n k m pa fa, extractNames strOf pn fn src = Ok (s0, p, f) /\ analyze (replaceMissing treat repl s0) = Ok tt /\
    layout junk p f (replaceMissing treat repl s0) = (n, k, m) /\ newAxis n p = Ok pa /\ newAxis k f = Ok fa /\ t = mkTable pa fa m /\ alen fa = k /\ Inv fa /\
    newAxis n (match keepP with None => p | Some _ => GNone end) = Ok (match keepP with None => pa | Some _ => mkAxis n None end) /\
    newAxis k (match keepF with None => f | Some _ => GNone end) = Ok (match keepF with None => fa | Some _ => mkAxis k None end) /\
    forall t1, match keepP with Some kp => rmap fst (limit Pts (mkTable (match keepP with None => pa | Some _ => mkAxis n None end) (match keepF with None => fa | Some _ => mkAxis k None end) m) kp p (isTrue pn))
                         | None => Ok (mkTable (match keepP with None => pa | Some _ => mkAxis n None end) (match keepF with None => fa | Some _ => mkAxis k None end) m) end = Ok t1 ->
      wf t1 /\ getNames (tf t1) = getNames (match keepF with None => fa | Some _ => mkAxis k None end) /\ (keepF <> None -> tf t1 = mkAxis k None).
Proof.
  intros Full W. unfold RawModel.initData in Full. cbn [rbind] in Full.
  destruct (extractNames strOf pn fn src) as [[[s0 p] f]|] eqn:Ex; [|discriminate]. cbn [rbind] in *.
  destruct (analyze (replaceMissing treat repl s0)) as [[]|] eqn:An; [|discriminate]. cbn [rbind] in *.
  destruct (layout junk p f (replaceMissing treat repl s0)) as [[n k] m] eqn:La.
  destruct (newAxis n p) as [pa|] eqn:Np; [|discriminate]. cbn [rbind] in *.
  destruct (newAxis k f) as [fa|] eqn:Nf; [|discriminate]. cbn [rbind fst snd convert] in *. injection Full as <- _.
  pose proof (newAxis_len _ _ _ Np) as Lp. pose proof (newAxis_len _ _ _ Nf) as Lf.
  destruct W as [W1 [W2 [Ip If]]]. cbn [tp tf rows] in *.
  exists s0, p, f, n, k, m, pa, fa. do 8 (split; auto). split; [destruct keepP; auto|]. split; [destruct keepF; auto|].
  set (pa' := match keepP with None => pa | Some _ => mkAxis n None end).
  set (fa' := match keepF with None => fa | Some _ => mkAxis k None end).
  set (t0 := mkTable pa' fa' m).
  assert (Iq : Inv pa' /\ alen pa' = n /\ Inv fa' /\ alen fa' = k) by (unfold pa', fa'; destruct keepP, keepF; repeat split; auto).
  destruct Iq as [Ip' [Lp' [If' Lf']]].
  assert (W0 : wf t0). { unfold t0. repeat split; cbn [rows tp tf]; auto; [congruence|intros r I; rewrite Lf'; rewrite <- Lf; auto]. }
  intros t1 E. destruct keepP as [kp|].
  - destruct (limit_ok Pts t0 n p pa kp (isTrue pn) W0 eq_refl Np Ip) as [So _]. cbv zeta in So.
    destruct (limit Pts t0 kp p (isTrue pn)) as [[r cl]|] eqn:Li; [|discriminate]. cbn [rmap fst] in E. injection E as <-.
    destruct (So r cl eq_refl) as [F [N [Wr [So1 [Oo _]]]]]. split; auto. destruct So1 as [Lo No]. cbn [offax withAxis tf] in Lo, No, Oo. unfold t0 in Lo, No, Oo. cbn [tf] in Lo, No, Oo. split; [exact No|].
    intros Nk. assert (A : astate (tf r) = None) by (apply Oo; unfold fa'; destruct keepF; [reflexivity|congruence]).
    assert (Lo' : alen (tf r) = k) by congruence. clear - A Lo'. destruct (tf r) as [x y]. cbn in A, Lo'. rewrite A, Lo'. reflexivity.
  - injection E as <-. split; auto. split; auto. intros Nk. unfold t0, fa'. cbn [tf]. destruct keepF; [reflexivity|congruence].
Qed.

Lemma convert_kept src pn fn c keepP kf treat repl t0 lo0 t lo :
  initData src pn fn CNone None None treat repl true = Ok (t0, lo0) -> wf t0 ->
  initData src pn fn CNone keepP (Some kf) treat repl true = Ok (t, lo) -> okDict c ->
  exists F, KeptAre (tf t0) (Some kf) F /\
  match initData src pn fn c keepP (Some kf) treat repl true with
  | Ok (r, _) => Converted conv (keptTypes (alen (tf t0)) F c) t r /\ ~ HasIndexKey c
  | Err e => CannotConvert conv t (keptTypes (alen (tf t0)) F c) e \/ (HasIndexKey c /\ e = InvalidArgumentTypeCombination)
  end.
Proof.
  intros Full W Kept Od.
  destruct (stage src pn fn keepP (Some kf) treat repl t0 lo0 Full W) as [s0 [p [f [n [k [m [pa [fa [Ex [An [La [Np [Nf [-> [Lf [If [Ep [Ef St]]]]]]]]]]]]]]]]]].
  cbn [tf]. unfold RawModel.initData in *.
  destruct (match keepP with Some k0 => checkDuplicates k0 | None => Ok tt end); [|discriminate]. cbn [rbind] in *.
  destruct (checkDuplicates kf); [|discriminate]. cbn [rbind] in *.
  rewrite Ex in *. cbn [rbind] in *. rewrite An in *. cbn [rbind] in *. rewrite La in *. rewrite Ep in *. cbn [rbind] in *. rewrite Ef in *. cbn [rbind] in *.
  destruct (match keepP with Some kp => rmap fst (limit Pts _ kp p (isTrue pn)) | None => _ end) as [t1|] eqn:E1; [|discriminate]. cbn [rbind] in *.
  destruct (St t1 eq_refl) as [W1 [_ A1]]. specialize (A1 ltac:(discriminate)).
  destruct (limit Fts t1 kf f (isTrue fn)) as [[t2 cl]|] eqn:Li; [|discriminate]. cbn [rbind fst snd convert] in Kept. injection Kept as <- _.
  destruct (limit_ok Fts t1 k f fa kf (isTrue fn) W1 A1 Nf If) as [So _]. cbv zeta in So. destruct (So t2 cl Li) as [F [N [W2 [_ [_ [It _]]]]]].
  assert (Rg : forall i, In i cl -> i < k) by (intros i I; rewrite <- Lf; eapply forall2_lt; eauto).
  assert (L2 : alen (tf t2) = List.length cl).
  { apply (f_equal (@List.length _)) in It. rewrite items_length in It by auto. cbn [ax] in It. rewrite It. apply selected_length. intros i I. rewrite items_length by (apply withAxis_wf; auto; cbn [ax]; rewrite A1; auto). cbn [withAxis ax tf]. rewrite Lf. auto. }
  exists cl. split; [exact F|]. rewrite Lf.
  assert (Fin : forall c', okDict c' -> match rbind (convert T ET conv c' f t2) (fun r => Ok (fst r, snd r)) with Ok (r, _) => Converted conv c' t2 r | Err e => CannotConvert conv t2 c' e end).
  { intros c' Oc. pose proof (convert_ok T ET conv c' f t2 W2 Oc) as C. destruct (convert T ET conv c' f t2) as [[r d]|e]; exact C. }
  assert (NI : forall c', (forall d, c' <> CDict d) -> ~ HasIndexKey (T:=T) c') by (intros c' H [d [z [x [E _]]]]; exact (H d E)).
  destruct c as [|x|l|d].
  - specialize (Fin CNone Od). cbn [keptTypes rbind fst snd] in *. split; [exact Fin|]. apply NI. discriminate.
  - specialize (Fin (COne x) Od). cbn [keptTypes rbind fst snd] in *. destruct (convert T ET conv (COne x) f t2) as [[r d]|e]; cbn [rbind fst snd] in *; [split; [exact Fin|apply NI; discriminate]|left; exact Fin].
  - cbn [keptTypes rbind fst snd] in *. destruct (Nat.eqb_spec (List.length l) k) as [E|Ne].
    + rewrite gather_selected by (intros i I; rewrite E; auto). cbn [rbind fst snd]. specialize (Fin (CList (selected cl l)) Logic.I).
      destruct (convert T ET conv (CList (selected cl l)) f t2) as [[r d]|e]; cbn [rbind fst snd] in *; [split; [exact Fin|apply NI; discriminate]|left; exact Fin].
    + destruct (Nat.eqb_spec (List.length l) (List.length cl)) as [E|Ne2]; cbn [rbind fst snd].
      * specialize (Fin (CList l) Logic.I). destruct (convert T ET conv (CList l) f t2) as [[r d]|e]; cbn [rbind fst snd] in *; [split; [exact Fin|apply NI; discriminate]|left; exact Fin].
      * left. eapply cc_length; [reflexivity|]. rewrite L2. auto.
  - cbn [keptTypes rbind fst snd] in *. destruct (forallb (fun q : kid * T => isStrKey (fst q)) d) eqn:K; cbn [rbind fst snd].
    + assert (NK : ~ HasIndexKey (CDict d)). { intros [d0 [z [x [E I]]]]. injection E as <-. rewrite forallb_forall in K. specialize (K _ I). discriminate. }
      specialize (Fin (CDict d) Od). destruct (convert T ET conv (CDict d) f t2) as [[r d']|e]; cbn [rbind fst snd] in *; [split; [exact Fin|exact NK]|left; exact Fin].
    + right. split; auto. assert (Ex2 : exists q, In q d /\ isStrKey (fst q) = false).
      { clear - K. induction d as [|q d IH]; [discriminate|]. cbn [forallb] in K. destruct (isStrKey (fst q)) eqn:E; [destruct (IH K) as [q' [I H]]; exists q'; cbn; auto|exists q; cbn; auto]. }
      destruct Ex2 as [[[s|z] x] [I H]]; [discriminate|]. exists d, z, x. auto.
Qed.

Lemma convert_keys src pn fn d keepP keepF treat repl t0 lo0 r lo :
  initData src pn fn CNone None None treat repl true = Ok (t0, lo0) -> wf t0 -> notDict fn ->
  initData src pn fn (CDict d) keepP keepF treat repl true = Ok (r, lo) ->
  forall k x, In (k, x) d -> match k with KInt z => (z < Z.of_nat (alen (tf t0)))%Z | KStr s => In (Some s) (getNames (tf t0)) end.
Proof.
  intros Full W Nd H.
  destruct (stage src pn fn keepP keepF treat repl t0 lo0 Full W) as [s0 [p [f [n [k [m [pa [fa [Ex [An [La [Np [Nf [-> [Lf [If [Ep [Ef St]]]]]]]]]]]]]]]]]].
  cbn [tf]. pose proof (extract_listed _ _ _ _ _ _ Ex Nd) as Ld. pose proof (newAxis_spec k f Ld) as NS. rewrite Nf in NS. destruct NS as [_ [_ [_ NS]]].
  unfold RawModel.initData in *.
  destruct (match keepP with Some k0 => checkDuplicates k0 | None => Ok tt end); [|discriminate]. cbn [rbind] in *.
  destruct (match keepF with Some k0 => checkDuplicates k0 | None => Ok tt end); [|discriminate]. cbn [rbind] in *.
  destruct (match keepF with Some _ => _ | None => Ok tt end) as [[]|] eqn:Kq; [|discriminate]. cbn [rbind] in *.
  rewrite Ex in *. cbn [rbind] in *. rewrite An in *. cbn [rbind] in *. rewrite La in *. rewrite Ep in *. cbn [rbind] in *. rewrite Ef in *. cbn [rbind] in *.
  destruct (match keepP with Some kp => rmap fst (limit Pts _ kp p (isTrue pn)) | None => _ end) as [t1|] eqn:E1; [|discriminate]. cbn [rbind] in *.
  destruct (St t1 eq_refl) as [W1 [N1 A1]].
  (* the object converted and its names *)
  assert (Co : exists t2 y, convert T ET conv (CDict d) f t2 = Ok y /\ wf t2 /\ (forall s, In (Some s) (getNames (tf t2)) -> In (Some s) (getNames fa)) /\ alen (tf t2) <= k).
  { destruct keepF as [kf|].
    - destruct (limit Fts t1 kf f (isTrue fn)) as [[t2 cl]|] eqn:Li; [|discriminate]. cbn [rbind fst snd] in H.
      destruct (convert T ET conv (CDict d) f t2) as [y|] eqn:C; [|discriminate]. exists t2, y. split; auto. specialize (A1 ltac:(discriminate)).
      destruct (limit_ok Fts t1 k f fa kf (isTrue fn) W1 A1 Nf If) as [So _]. cbv zeta in So. destruct (So t2 cl Li) as [F [N [W2 [_ [_ [It _]]]]]]. split; auto.
      assert (Wa : wf (withAxis Fts t1 fa)) by (apply withAxis_wf; auto; cbn [ax]; rewrite A1; auto).
      assert (Rg : forall i, In i cl -> i < k) by (intros i I; rewrite <- Lf; eapply forall2_lt; eauto).
      split.
      + intros s I. apply In_nth_error in I as [j J]. apply (f_equal (map fst)) in It. 
        assert (M1 : map fst (items Fts t2) = getNames (tf t2)) by (apply items_names; auto).
        assert (I2 : In (Some s) (map fst (items Fts t2))) by (rewrite M1; eapply nth_error_In; eauto).
        rewrite It in I2. apply in_map_iff in I2 as [q [Q1 Q2]]. unfold selected in Q2. apply in_flat_map in Q2 as [i [_ Q2]]. destruct (nth_error (items Fts (withAxis Fts t1 fa)) i) eqn:Q; [|destruct Q2].
        destruct Q2 as [->|[]]. apply nth_error_In in Q. apply (in_map fst) in Q. rewrite items_names in Q by auto. cbn [ax withAxis tf] in Q. rewrite <- Q1. exact Q.
      + apply (f_equal (@List.length _)) in It. rewrite items_length in It by auto. cbn [ax] in It. rewrite It, selected_length.
        * rewrite <- (seq_length k 0). apply NoDup_incl_length; auto. intros i I. apply in_seq. specialize (Rg i I). lia.
        * intros i I. rewrite items_length by auto. cbn [withAxis ax tf]. rewrite Lf. auto.
    - cbn [rbind fst snd] in H. destruct (convert T ET conv (CDict d) f t1) as [y|] eqn:C; [|discriminate]. exists t1, y. split; auto. split; auto. rewrite N1. split; auto.
      assert (L : alen (tf t1) = List.length (getNames (tf t1))) by (rewrite getNames_length by apply W1; auto). rewrite L, N1, getNames_length by auto. lia. }
  destruct Co as [t2 [y [C [W2 [Sub Le]]]]]. cbn [convert] in C. unfold typesFor in C.
  destruct W2 as [_ [_ [_ I2]]].
  pose proof (typeLoop_ok T ET conv (getNames (tf t2)) 0 d d []) as TL.
  specialize (TL ltac:(intros j s E j' E'; eapply Inv_names_distinct; eauto) ltac:(auto)).
  destruct (typeLoop T ET 0 (getNames (tf t2)) d []) as [[cs d']|]; [|discriminate]. cbn [rbind fst snd] in C.
  destruct (leftoverFine T f d') eqn:LF; [|discriminate]. destruct TL as [_ [_ [_ [_ Rd]]]].
  intros key x I.
  assert (Dec : In (key, x) d' \/ IsFeature (tf t2) key).
  { destruct (mem key (map fst d')) eqn:M.
    - apply mem_In, in_map_iff in M as [[key' x'] [E M]]. cbn in E. subst key'. left. apply Rd. split; auto. apply Rd in M as [_ M]. exact M.
    - right. apply mem_not_In in M. destruct key as [s|z]; cbn [IsFeature].
      + destruct (in_dec (fun a b : option string => eq_dec a b) (Some s) (getNames (tf t2))) as [Y|Nn]; auto. destruct M. apply in_map_iff. exists (KStr s, x). split; auto. apply Rd. split; auto.
        intros j nn En. cbn [fst]. split; [discriminate|]. unfold nameKey. destruct nn as [s'|]; [|discriminate]. intros E. injection E as <-. apply Nn. eapply nth_error_In; eauto.
      + destruct (Z_lt_dec z 0) as [Lt|Ge]; [|destruct (Z_lt_dec z (Z.of_nat (alen (tf t2)))) as [Lt|Ge2]; [lia|]].
        * destruct M. apply in_map_iff. exists (KInt z, x). split; auto. apply Rd. split; auto. intros j nn En. cbn [fst plus]. split; [intros E; injection E; lia|]. unfold nameKey. destruct nn as [s'|]; [discriminate|intros E; injection E; lia].
        * destruct M. apply in_map_iff. exists (KInt z, x). split; auto. apply Rd. split; auto. intros j nn En. assert (Lj : j < alen (tf t2)) by (rewrite <- getNames_length by auto; eapply nth_error_lt; eauto).
          cbn [fst plus]. split; [intros E; injection E; lia|]. unfold nameKey. destruct nn as [s'|]; [discriminate|intros E; injection E; lia]. }
  destruct Dec as [I'|Ft].
  - destruct d' as [|q d']; [destruct I'|]. unfold leftoverFine in LF. destruct f as [|lf|df]; [discriminate| |contradiction].
    rewrite forallb_forall in LF. specialize (LF _ I'). cbn [fst givenLen] in LF. cbn [shown] in NS. destruct key as [s|z].
    + apply mem_In in LF. rewrite NS. exact LF.
    + rewrite Z.ltb_lt in LF. rewrite <- (getNames_length fa If), NS. exact LF.
  - destruct key as [s|z]; cbn [IsFeature] in Ft; [auto|lia].
Qed.
End Types.
