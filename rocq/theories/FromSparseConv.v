(** Conversions of the stored values (C77). *)
From Verif Require Import Base NamesModel NamesSpec NamesProofs TableModel TableSpec TableOps TableProofs MatchModel CsvModel RawModel RawSpec RawProofs RawKeepProofs RawConvProofs SparseModel SparseSpec SparseProofs ReshapeModel SparseReshapeModel SparseReshapeProofs FromSparseModel FromSparseSpec FromSparseDup FromSparseNames FromSparseMain.
From Coq Require Import QArith List. Import ListNotations.
Open Scope nat_scope.
Local Notation val := (SparseSpec.val (PInt 0)).

Section Conv.
Variable T : Type.
Variable ET : EqDec T.
Variable conv : T -> pval -> result pval.

Lemma convertOne_ok c v w : convertOne T conv c v = Ok w -> ConvertedBy conv c v w.
Proof. unfold convertOne, ConvertedBy. destruct c as [c|]; [|congruence]. destruct (conv c v) as [w'|e]; [congruence|destruct e; discriminate]. Qed.
Lemma convertOne_err c v e : convertOne T conv c v = Err e -> exists ty e0, c = Some ty /\ conv ty v = Err e0 /\ e = match e0 with ValueErr | TypeErr => InvalidArgumentValue | _ => e0 end.
Proof. unfold convertOne. destruct c as [c|]; [|discriminate]. destruct (conv c v) as [w'|e'] eqn:E; [discriminate|]. intros H. exists c, e'. repeat split; auto. destruct e'; congruence. Qed.

Lemma stored_ok cs : forall l l', convertStored T conv cs l = Ok l' ->
  map pos l' = map pos l /\ forall i j, match cellsAt l i j, cellsAt l' i j with
    | [], [] => True | v :: _, w :: _ => ConvertedBy conv (nth j cs None) v w | _, _ => False end.
Proof.
  unfold convertStored. induction l as [|e l IH]; intros l' E; cbn [rmapM] in E; [injection E as <-; split; [reflexivity|intros; exact Logic.I]|].
  destruct (convertOne T conv (nth (ec e) cs None) (ev e)) as [w|] eqn:C; [|discriminate]. cbn [rmap rbind] in E.
  destruct (rmapM _ l) as [r|] eqn:R; [|discriminate]. cbn [rbind] in E. injection E as <-. destruct (IH r eq_refl) as [A B]. split; [cbn [map]; rewrite A; reflexivity|].
  intros i j. rewrite !cells_cons. cbn [er ec ev]. destruct ((er e =? i) && (ec e =? j)) eqn:Q; [|apply B].
  apply andb_true_iff in Q. destruct Q as [_ Q]. apply Nat.eqb_eq in Q. subst j. apply convertOne_ok. exact C.
Qed.
Lemma stored_err cs l e : convertStored T conv cs l = Err e -> exists x, In x l /\ convertOne T conv (nth (ec x) cs None) (ev x) = Err e.
Proof.
  unfold convertStored. induction l as [|x l IH]; cbn [rmapM]; [discriminate|]. destruct (convertOne T conv (nth (ec x) cs None) (ev x)) as [w|e'] eqn:C; cbn [rmap rbind].
  - destruct (rmapM _ l) as [r|e'] eqn:R; cbn [rbind]; [discriminate|]. intros E. destruct (IH E) as [y [Y1 Y2]]. exists y. split; [right; exact Y1|exact Y2].
  - intros E. exists x. split; [left; reflexivity|]. rewrite C. congruence.
Qed.

Variable o : sobj.
Hypothesis Ip : Inv (oPts o).
Hypothesis If_ : Inv (oFts o).
Hypothesis EO : entsOK (PInt 0) (oMat o).
Hypothesis Ln : snp (oMat o) = alen (oPts o).
Hypothesis Lk : snf (oMat o) = alen (oFts o).

Lemma convertSparse_spec c f : okDict c -> KeepsZero conv (oFts o) c ->
  match convertSparse T ET conv c f o with
  | Ok o' => oPts o' = oPts o /\ oFts o' = oFts o /\ (forall l, c = CList l -> List.length l = alen (oFts o)) /\ ConvertedEach conv (oFts o) c (oMat o) (oMat o')
  | Err e => CannotConvert conv (seen o) c e
  end.
Proof.
  intros Okd KZ. destruct EO as [ND R]. destruct (seen_wf o Ip If_ EO Ln Lk) as [W [_ [_ RP]]].
  assert (Main : forall cs, List.length cs = alen (oFts o) -> (forall l, c = CList l -> List.length l = alen (oFts o)) ->
     (forall j x, nth_error cs j = Some x -> TypeAt (oFts o) c j x /\ forall ty', TypeAt (oFts o) c j ty' -> ty' = x) ->
     match rmap (fun l => mkSO (oPts o) (oFts o) (mkSp (snp (oMat o)) (snf (oMat o)) l None None) 4) (convertStored T conv cs (ents (oMat o))) with
     | Ok o' => oPts o' = oPts o /\ oFts o' = oFts o /\ (forall l, c = CList l -> List.length l = alen (oFts o)) /\ ConvertedEach conv (oFts o) c (oMat o) (oMat o')
     | Err e => CannotConvert conv (seen o) c e end).
  { intros cs Lc Hl Hc. destruct (convertStored T conv cs (ents (oMat o))) as [l'|e] eqn:E; cbn [rmap].
    - destruct (stored_ok cs _ _ E) as [A B]. split; auto. split; auto. split; auto. split; auto. split; auto. cbn [oMat].
      intros i j I J. destruct (nth_error_is_some cs (i := j)) as [x Ex]; [lia|]. destruct (Hc j x Ex) as [T1 T2]. exists x. split; auto. split; auto.
      assert (Vs : val (oMat o) i j = match cellsAt (ents (oMat o)) i j with [] => PInt 0 | v :: _ => v end) by (rewrite <- (val_cells (snp (oMat o)) (snf (oMat o))); reflexivity).
      rewrite Vs, val_cells. specialize (B i j). destruct (cellsAt (ents (oMat o)) i j) as [|v t], (cellsAt l' i j) as [|w t']; try contradiction.
      + destruct x as [ty|]; cbn [ConvertedBy]; [|reflexivity]. apply (KZ j ty T1).
      + rewrite (nth_error_nth _ _ _ Ex) in B. exact B.
    - destruct (stored_err cs _ _ E) as [x [I C]]. destruct (convertOne_err _ _ _ C) as [ty [e0 [Ty [Cv ->]]]]. destruct (R x I) as [R1 [R2 _]].
      destruct (nth_error_is_some cs (i := ec x)) as [y Ey]; [lia|]. rewrite (nth_error_nth _ _ _ Ey) in Ty. subst y.
      apply (cc_value conv (seen o) c (er x) (ec x) (ev x) ty e0); [|exact (proj1 (Hc _ _ Ey))|exact Cv].
      unfold cell. cbn [seen tp tf] in RP. rewrite (RP (er x) (ec x)) by lia. rewrite <- (ents_val (oMat o) x ND I). reflexivity. }
  destruct c as [|x|l|d]; cbn [convertSparse].
  - split; auto. split; auto. split; [discriminate|]. split; auto. split; auto. intros i j _ _. exists None. split; [constructor|]. split; [intros ty' H; inversion H; auto|reflexivity].
  - apply (Main (repeat (Some x) (snf (oMat o)))); [rewrite repeat_length; exact Lk|discriminate|]. intros j y Ey. apply nth_error_In, repeat_spec in Ey. subst y. split; [constructor|intros ty' H; inversion H; auto].
  - destruct (Nat.eqb_spec (List.length l) (alen (oFts o))) as [E|N]; cbn [negb]; [|eapply cc_length; eauto].
    apply (Main l E); [congruence|]. intros j y Ey. split; [constructor; auto|intros ty' H; inversion H; congruence].
  - cbn in Okd. unfold typesFor.
    pose proof (typeLoop_ok T ET conv (getNames (oFts o)) 0 d d []) as TL.
    specialize (TL ltac:(intros j s E j' E'; eapply Inv_names_distinct; eauto) ltac:(auto)).
    destruct (typeLoop T ET 0 (getNames (oFts o)) d []) as [[cs d']|e]; cbn [rbind snd fst].
    + destruct TL as [l [El [Ll [Rl Rd]]]]. cbn [app] in El. subst cs. rewrite getNames_length in Ll by auto.
      destruct (leftoverFine T f d') eqn:LF; cbn [rbind fst snd].
      * apply (Main l Ll ltac:(discriminate)). intros j y Ey. destruct (nth_error_is_some (getNames (oFts o)) (i:=j)) as [nn En]; [rewrite getNames_length by auto; rewrite <- Ll; eapply nth_error_lt; eauto|].
        destruct (Rl j nn En) as [c' [E1 E2]]. assert (c' = y) by congruence. subst c'. pose proof (lk_types T ET (oFts o) d j nn Okd En) as LT. cbn [plus] in E2. rewrite E2 in LT. exact LT.
      * assert (Un : forall p, In p d' -> In p d /\ ~ IsFeature (oFts o) (fst p)).
        { intros p I. apply Rd in I as [I H]. split; auto. intros C. destruct p as [[s|z] v]; cbn [fst IsFeature] in C.
          - apply In_nth_error in C as [j J]. destruct (H j _ J) as [_ H2]. apply H2. reflexivity.
          - destruct (nth_error_is_some (getNames (oFts o)) (i:=Z.to_nat z)) as [nn En]; [rewrite getNames_length by auto; lia|].
            destruct (H _ _ En) as [H1 _]. apply H1. cbn [fst plus]. rewrite Z2Nat.id by lia. reflexivity. }
        destruct d' as [|[k v] d']; [destruct f; discriminate|]. destruct (Un (k, v) (or_introl eq_refl)) as [I1 I2]. eapply cc_unknown; eauto.
    + destruct TL as [-> [j [nn [En E2]]]]. pose proof (lk_types T ET (oFts o) d j nn Okd En) as LT. cbn [plus] in E2. rewrite E2 in LT. destruct LT as [x [y [A [B C]]]]. exact (cc_two conv (seen o) (CDict d) j x y A B C).
Qed.
End Conv.
