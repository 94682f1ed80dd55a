(** Proofs about the learning functions (C78): training, applying, testing. *)
From Verif Require Import Base NamesModel NamesSpec NamesProofs NamesIndexProofs TableModel TableSpec TableProofs TablePermProofs
  MatchModel BinOpModel BinOpSpec BinOpProofs RawSpec WorkModel WorkSpec WorkProofs.
From Verif Require MatchProofs.
From Coq Require Import List Lia Ascii String Arith. Import ListNotations.
Open Scope string_scope. Open Scope list_scope. Open Scope nat_scope.
Local Notation get := WorkModel.get.

Section Work.
Variable M : Type.
Variable fit : table pval -> option (table pval) -> result M.
Variable pred : M -> table pval -> result dobj.
Variable scored : string -> M -> table pval -> result dobj.
Variable order : M -> list string.
Variable predicts : bool.
Variable R : Type.
Variable perf : table pval -> table pval -> result R.
Variable perfMode : option string.
Variable multi : string -> nat -> darg -> prog (tlearner M).
Hypothesis good : GoodLearner M pred scored.
Notation trainOn := (trainOn M fit).
Notation interfaceTrain := (interfaceTrain M fit multi).
Notation train := (train M fit multi).
Notation apply := (apply M pred scored order predicts).
Notation test := (test M pred scored order predicts R perf perfMode).
Notation TrainedOn := (TrainedOn M fit).
Notation Predicted := (Predicted M fit pred scored order predicts).
Notation NoPrediction := (NoPrediction M fit pred scored order predicts).
Notation Performance := (Performance M fit pred scored order predicts R perf).
Notation NoPerformance := (NoPerformance M fit pred scored order predicts R perf).

(** ** data and labels *)
Inductive Parts (s : store) : darg -> darg -> table pval -> option (table pval) -> Prop :=
| pt_none r o : nth_error s r = Some o -> Parts s (DRef r) DNone (dT o) None
| pt_obj r o q oq : nth_error s r = Some o -> nth_error s q = Some oq -> Parts s (DRef r) (DRef q) (dT o) (Some (dT oq))
| pt_id r o i xs ys : nth_error s r = Some o -> TextOrInt i -> cut (dT o) i = Some (xs, ys) -> Parts s (DRef r) (DId i) xs (Some ys).
Lemma Parts_Data s x y xs ys : WfStore s -> Parts s x y xs ys -> DataAndLabels s x y xs ys.
Proof.
  intros W H. destruct H; [apply dl_none; assumption|apply dl_obj; assumption|eapply dl_id; [eassumption|]].
  apply cut_some; [eapply WfStore_nth; eauto|assumption|assumption].
Qed.
Lemma Parts_wf s x y xs ys : WfStore s -> Parts s x y xs ys -> wf xs /\ forall t, ys = Some t -> wf t.
Proof.
  intros W H. pose proof (Parts_Data _ _ _ _ _ W H) as D. inversion D; subst.
  - split; [eapply WfStore_nth; eauto|discriminate].
  - split; [eapply WfStore_nth; eauto|]. intros t [= <-]. eapply WfStore_nth; eauto.
  - destruct H1 as (j & _ & W1 & W2 & _). split; [exact W1|]. intros t [= <-]. exact W2.
Qed.
Lemma Parts_mono s s' x y xs ys : Unchanged s s' -> Parts s x y xs ys -> Parts s' x y xs ys.
Proof. intros U H. destruct H; [apply pt_none|apply pt_obj|eapply pt_id]; eauto. Qed.
Lemma Parts_back s s' x y xs ys : Unchanged s s' -> Present s x -> Present s y -> Parts s' x y xs ys -> Parts s x y xs ys.
Proof.
  assert (G : forall r o, Unchanged s s' -> Present s (DRef r) -> nth_error s' r = Some o -> nth_error s r = Some o).
  { intros r o U P E. destruct (Present_nth _ _ P) as [q Eq]. pose proof (U _ _ Eq). congruence. }
  intros U Px Py H. destruct H; [apply pt_none|apply pt_obj|eapply pt_id]; eauto.
Qed.
Lemma Parts_det s x y a b c d : Parts s x y a b -> Parts s x y c d -> a = c /\ b = d.
Proof.
  intros H K. destruct H; inversion K; subst; try (split; congruence).
Qed.
Definition Fine (y : darg) : Prop := match y with DBad => False | DId i => TextOrInt i | _ => True end.
Lemma cutStore s o xs ys i : WfStore s -> wf (dT o) -> TextOrInt i -> cut (dT o) i = Some (xs, ys) -> WfStore (s ++ [mkD xs (dK o); mkD ys (dK o)]).
Proof.
  intros W Wo T C. apply WfStore_app; [exact W|]. destruct (cut_some _ _ _ _ Wo T C) as [(j & _ & W1 & W2 & _) _]. intros q [<-|[<-|[]]]; assumption.
Qed.
(** *** copy and extract in one step *)
Lemma copyExtract_spec s r o i : WfStore s -> nth_error s r = Some o -> TextOrInt i ->
  (exists xs ys, Parts s (DRef r) (DId i) xs (Some ys) /\ WfStore (s ++ [mkD xs (dK o); mkD ys (dK o)]) /\
     forall A (f : nat -> nat -> prog A), (c <~ copyObj r ;;; ry <~ extractFt c i ;;; f c ry) s = f (List.length s) (S (List.length s)) (s ++ [mkD xs (dK o); mkD ys (dK o)])) \/
  (exists e, NoFeature s (DRef r) (DId i) e /\ WfStore (s ++ [o]) /\ forall A (f : nat -> nat -> prog A), (c <~ copyObj r ;;; ry <~ extractFt c i ;;; f c ry) s = (s ++ [o], Err e)).
Proof.
  intros W E T. pose proof (WfStore_nth _ _ _ W E) as Wo. destruct (cut (dT o) i) as [[xs ys]|] eqn:C.
  - left. exists xs, ys. split; [eapply pt_id; eauto|]. split; [eapply cutStore; eauto|].
    intros A f. rewrite (bind_ok _ _ _ _ _ (copy_ok _ _ _ E)). destruct (cut_some _ _ _ _ Wo T C) as [_ X]. destruct (X o s eq_refl) as [X1 _].
    rewrite (bind_ok _ _ _ _ _ X1). reflexivity.
  - right. destruct (cut_none _ _ Wo T C) as (e & X & N & K). exists e. split; [exists r, o, i; auto 6|]. split; [apply WfStore_app; [exact W|]; intros q [<-|[]]; exact Wo|].
    intros A f. rewrite (bind_ok _ _ _ _ _ (copy_ok _ _ _ E)). rewrite (bind_err _ _ _ _ _ (K o s eq_refl)). reflexivity.
Qed.
Lemma copyDelete_spec s r o i xs ys : WfStore s -> nth_error s r = Some o -> TextOrInt i -> Parts s (DRef r) (DId i) xs (Some ys) ->
  WfStore (s ++ [mkD xs (dK o)]) /\ forall A (f : nat -> prog A), (c <~ copyObj r ;;; _ <~ deleteFt c i ;;; f c) s = f (List.length s) (s ++ [mkD xs (dK o)]).
Proof.
  intros W E T P. pose proof (WfStore_nth _ _ _ W E) as Wo. inversion P; subst. assert (o0 = o) by congruence. subst o0.
  destruct (cut_some _ _ _ _ Wo T H5) as [(j & _ & W1 & _) X]. destruct (X o s eq_refl) as [_ X1].
  split; [apply WfStore_app; [exact W|]; intros q [<-|[]]; exact W1|]. intros A f. rewrite (bind_ok _ _ _ _ _ (copy_ok _ _ _ E)). rewrite (bind_ok _ _ _ _ _ X1). reflexivity.
Qed.

Lemma separate_spec s r o y : WfStore s -> nth_error s r = Some o -> Present s y -> Fine y ->
  (exists s' rx ry ox xs ys, separate r y s = (s', Ok (rx, ry)) /\ Unchanged s s' /\ WfStore s' /\ Parts s (DRef r) y xs ys /\
     nth_error s' rx = Some ox /\ dT ox = xs /\ match ry with None => ys = None | Some q => exists oq, nth_error s' q = Some oq /\ ys = Some (dT oq) end) \/
  (exists s' e, separate r y s = (s', Err e) /\ Unchanged s s' /\ WfStore s' /\ NoFeature s (DRef r) y e).
Proof.
  intros W E Py F. destruct y as [|q|i|]; cbn [separate].
  - left. exists s, r, None, o, (dT o), None. split; [reflexivity|]. split; [apply Unchanged_refl|]. split; [exact W|]. split; [apply pt_none, E|]. auto.
  - left. destruct (Present_nth _ _ Py) as [oq Eq]. exists s, r, (Some q), o, (dT o), (Some (dT oq)). split; [reflexivity|]. split; [apply Unchanged_refl|]. split; [exact W|].
    split; [apply pt_obj; assumption|]. split; [exact E|]. split; [reflexivity|]. exists oq. auto.
  - destruct (copyExtract_spec s r o i W E F) as [(xs & ys & P & W' & K)|(e & N & W' & K)].
    + left. exists (s ++ [mkD xs (dK o); mkD ys (dK o)]), (List.length s), (Some (S (List.length s))), (mkD xs (dK o)), xs, (Some ys). rewrite (K _ (fun c ry => pret (c, Some ry))).
      split; [reflexivity|]. split; [apply Unchanged_app|]. split; [exact W'|]. split; [exact P|]. destruct (nth_last2 s (mkD xs (dK o)) (mkD ys (dK o))) as [N1 N2].
      split; [exact N1|]. split; [reflexivity|]. exists (mkD ys (dK o)). auto.
    + right. exists (s ++ [o]), e. rewrite (K _ (fun c ry => pret (c, Some ry))). split; [reflexivity|]. split; [apply Unchanged_app|]. auto.
  - contradiction.
Qed.

(** ** training *)
Lemma trainOn_spec s rx ry ox ys : nth_error s rx = Some ox -> match ry with None => ys = None | Some q => exists oq, nth_error s q = Some oq /\ ys = Some (dT oq) end ->
  exists res, trainOn rx ry s = (s, res) /\ match res with Ok t => TrainedOn (dT ox) ys t | Err e => fit (dT ox) ys = Err e end.
Proof.
  intros Ex Ey. unfold WorkModel.trainOn. rewrite (bind_ok _ _ _ _ _ (get_ok _ _ _ Ex)).
  assert (Q : exists oy, (match ry with None => pret None | Some r => o <~ get r ;;; pret (Some o) end) s = (s, Ok oy) /\ ys = option_map dT oy).
  { destruct ry as [q|]; [|exists None; auto]. destruct Ey as [oq [Eq ->]]. exists (Some oq). rewrite (bind_ok _ _ _ _ _ (get_ok _ _ _ Eq)). auto. }
  destruct Q as [oy [Q ->]]. rewrite (bind_ok _ _ _ _ _ Q). cbv beta. destruct (fit (dT ox) (option_map dT oy)) as [m|e] eqn:Fm.
  - eexists. rewrite (bind_ok _ _ s s m) by reflexivity. split; [reflexivity|]. cbn [rbind]. unfold WorkSpec.TrainedOn. cbn [tlM tlShape tlY tl2d].
    split; [exact Fm|]. split; [reflexivity|]. split; [destruct oy; reflexivity|]. rewrite Nat.ltb_lt. destruct oy; reflexivity.
  - exists (Err e). rewrite (bind_err _ _ s s e) by reflexivity. auto.
Qed.
(** what training gives, after validation *)
Definition AfterTraining (s : store) (x y : darg) (res : result (tlearner M)) : Prop :=
  match res with
  | Ok t => exists xs ys, Parts s x y xs ys /\ TrainedOn xs ys t
  | Err e => NoFeature s x y e \/ exists xs ys, Parts s x y xs ys /\ fit xs ys = Err e
  end.
Lemma separateTrain_spec s r o y : WfStore s -> nth_error s r = Some o -> Present s y -> Fine y ->
  exists s' res, (p <~ separate r y ;;; trainOn (fst p) (snd p)) s = (s', res) /\ Unchanged s s' /\ WfStore s' /\ AfterTraining s (DRef r) y res.
Proof.
  intros W E Py F. destruct (separate_spec s r o y W E Py F) as [(s' & rx & ry & ox & xs & ys & K & U & W' & P & Ex & Dx & Ey)|(s' & e & K & U & W' & N)].
  - rewrite (bind_ok _ _ _ _ _ K). cbn [fst snd]. destruct (trainOn_spec s' rx ry ox ys Ex Ey) as [res [T H]]. exists s', res. rewrite T. split; [reflexivity|].
    split; [exact U|]. split; [exact W'|]. subst xs. destruct res as [t|e]; cbn; [|right]; exists (dT ox), ys; auto.
  - exists s', (Err e). rewrite (bind_err _ _ _ _ _ K). split; [reflexivity|]. split; [exact U|]. split; [exact W'|]. left. exact N.
Qed.
Lemma trainCore_spec s r o y d strat : WfStore s -> nth_error s r = Some o -> Present s y -> Fine y -> Plain strat ->
  exists s' res, train false (DRef r) y d strat s = (s', res) /\ Unchanged s s' /\ WfStore s' /\ AfterTraining s (DRef r) y res.
Proof.
  intros W E Py F [P1 P2]. unfold WorkModel.train. rewrite (bind_ok _ _ s s tt) by reflexivity. unfold WorkModel.interfaceTrain.
  destruct strat as [w|]; [|apply (separateTrain_spec s r o); assumption].
  assert (X : existsb (String.eqb w) ["OneVsAll"; "OneVsOne"] = false).
  { cbn. destruct (String.eqb_spec w "OneVsAll"); [congruence|]. destruct (String.eqb_spec w "OneVsOne"); [congruence|reflexivity]. }
  rewrite X. apply (separateTrain_spec s r o); assumption.
Qed.

(** ** applying *)
Definition AfterApplying (s : store) (xs : table pval) (ys : option (table pval)) (mode : option string) (t : table pval) (s' : store) (res : result nat) : Prop :=
  match res with
  | Ok p => p = List.length s /\ exists o, s' = s ++ [o] /\ Predicted mode xs ys t o
  | Err e => s' = s /\ NoPrediction mode xs ys t e
  end.
Lemma validShape_spec shape o : (validShape shape o = Ok tt /\ (alen (tf (dT o)) = snd shape \/ (fst shape = snd shape /\ alen (tp (dT o)) = alen (tf (dT o))))) \/
  (validShape shape o = Err InvalidArgumentValueCombination /\ ~ (alen (tf (dT o)) = snd shape \/ (fst shape = snd shape /\ alen (tp (dT o)) = alen (tf (dT o))))).
Proof.
  unfold validShape, pts, fts. destruct (Nat.eqb_spec (snd shape) (alen (tf (dT o)))) as [E|E]; [left; auto|].
  destruct (Nat.eqb_spec (fst shape) (snd shape)) as [E2|E2]; cbn [andb]; [|right; split; [reflexivity|]; intuition congruence].
  destruct (Nat.eqb_spec (alen (tp (dT o))) (alen (tf (dT o)))) as [E3|E3]; [left; auto|right; split; [reflexivity|]; intuition congruence].
Qed.
Definition sameButFt (o o' : dobj) : Prop := dK o' = dK o /\ rows (dT o') = rows (dT o) /\ tp (dT o') = tp (dT o) /\ alen (tf (dT o')) = alen (tf (dT o)) /\ (wf (dT o) -> wf (dT o')).
Lemma sameButFt_wf o o' : sameButFt o o' -> wf (dT o) -> wf (dT o'). Proof. intros (_ & _ & _ & _ & H). exact H. Qed.
Lemma sameButFt_refl o : sameButFt o o. Proof. unfold sameButFt. auto. Qed.
Lemma wf_tf p a b (r : list (list pval)) : wf (mkTable p a r) -> alen b = alen a -> Inv b -> wf (mkTable p b r).
Proof. intros (H1 & H2 & H3 & _) E H. unfold wf in *. cbn in *. rewrite E. auto. Qed.
Lemma wf_tp p a b (r : list (list pval)) : wf (mkTable a p r) -> alen b = alen a -> Inv b -> wf (mkTable b p r).
Proof. intros (H1 & H2 & _ & H4) E H. unfold wf in *. cbn in *. rewrite E. auto. Qed.
Lemma eta_tab (t : table pval) : mkTable (tp t) (tf t) (rows t) = t. Proof. destruct t; reflexivity. Qed.
Lemma setFt_spec o l : match setFtNames o (Some l) with
  | Ok o' => sameButFt o o' /\ getNames (tf (dT o')) = l
  | Err e => e = InvalidArgumentValue /\ ~ NamesFit l (alen (tf (dT o)))
  end.
Proof.
  unfold setFtNames. pose proof (setAll_list (tf (dT o)) l) as H. destruct (setAll _ _) as [a|e]; cbn [rbind]; [|tauto].
  destruct H as (_ & L & Ia & G). unfold sameButFt. cbn [dT dK tp tf rows]. split; [|exact G]. do 4 (split; [auto|]). intros W. rewrite <- (eta_tab (dT o)) in W. eapply wf_tf; eauto.
Qed.
Lemma setFt_None o : exists o', setFtNames o None = Ok o' /\ sameButFt o o' /\ NoNames (tf (dT o')).
Proof.
  unfold setFtNames. rewrite setAll_None. cbn [rbind]. eexists. split; [reflexivity|]. unfold sameButFt. cbn [dT dK tp tf rows]. split; [|apply fresh_NoNames].
  do 4 (split; [auto|]). intros W. rewrite <- (eta_tab (dT o)) in W. eapply wf_tf; eauto. exact Logic.I.
Qed.
Lemma setPt_spec o a : Inv a -> alen a = alen (tp (dT o)) -> wf (dT o) -> exists o', setPtNames o (getNamesNoGeneration a) = Ok o' /\ dK o' = dK o /\ rows (dT o') = rows (dT o) /\
  tf (dT o') = tf (dT o) /\ alen (tp (dT o')) = alen (tp (dT o)) /\ wf (dT o') /\ getNames (tp (dT o')) = getNames a.
Proof.
  intros Ia L W. unfold setPtNames. destruct (setAll_same (tp (dT o)) a Ia (eq_sym L)) as (b & E & Lb & Ib & G). rewrite E. cbn [rbind]. eexists. split; [reflexivity|]. cbn [dT dK tp tf rows].
  do 4 (split; [auto|]). split; [|exact G]. rewrite <- (eta_tab (dT o)) in W. eapply wf_tp; eauto.
Qed.
(** the named answer before the points *)
Definition namedAnswer (t : tlearner M) (mode : option string) (x : table pval) : result dobj :=
  match mode with
  | None => o <- pred (tlM t) x ;; if predicts then setFtNames o (tlY t) else Ok o
  | Some m =>
      if String.eqb m "bestScore" then
        o <- scored m (tlM t) x ;;
        match (if predicts then tlY t else None) with Some l => setFtNames o (Some (l ++ [Some "bestScore"])) | None => Ok o end
      else if String.eqb m "allScores" then
        o <- scored m (tlM t) x ;; if predicts then setFtNames o (Some (map Some (order (tlM t)))) else Ok o
      else Err InvalidArgumentValue
  end.
Notation Output := (Output M pred scored).
Notation FtNames := (FtNames M order predicts).
Lemma namedAnswer_spec t mode x xs ys : wf x -> TrainedOn xs ys t -> (forall y, ys = Some y -> wf y) -> ShapeFits xs x ->
  match namedAnswer t mode x with
  | Ok o' => exists o, Output mode (tlM t) x (Ok o) /\ sameButFt o o' /\ wf (dT o') /\ FtNames (tlM t) ys mode (tf (dT o)) (tf (dT o'))
  | Err e => NoPrediction mode xs ys x e
  end.
Proof.
  intros Wx (Fm & _ & Ty & _) Wy Sh. destruct good as [G1 G2].
  assert (Tnone : tlY t = None -> forall y, ys = Some y -> NoNames (tf y)).
  { intros E y ->. rewrite Ty in E. apply noNames_None, E. }
  assert (Tsome : forall l, tlY t = Some l -> exists y, ys = Some y /\ getNames (tf y) = l).
  { intros l E. rewrite Ty in E. destruct ys as [y|]; [|discriminate]. exists y. split; [reflexivity|]. apply named_names, E. }
  unfold namedAnswer. destruct mode as [w|].
  - destruct (String.eqb_spec w "bestScore") as [->|Nb].
    + destruct (scored "bestScore" (tlM t) x) as [o|e] eqn:E; cbn [rbind].
      2:{ eapply np_out; [exact Fm|]. cbn. auto. }
      pose proof (G2 _ _ _ _ Wx E) as Wo.
      destruct predicts eqn:Pr.
      * destruct (tlY t) as [l|] eqn:El.
        -- destruct (Tsome l eq_refl) as [y [-> Gy]]. pose proof (setFt_spec o (l ++ [Some "bestScore"])) as H. destruct (setFtNames _ _) as [o'|e].
           ++ destruct H as [H K]. exists o. split; [cbn; auto|]. split; [exact H|]. split; [exact (sameButFt_wf _ _ H Wo)|]. eapply fn_best; [reflexivity|reflexivity|rewrite Gy; exact K].
           ++ destruct H as [-> H]. eapply np_names; [exact Fm|cbn; eauto|reflexivity|apply in_best; reflexivity|]. rewrite Gy. exact H.
        -- exists o. split; [cbn; auto|]. split; [apply sameButFt_refl|]. split; [exact Wo|]. apply fn_best_unnamed; auto.
      * exists o. split; [cbn; auto|]. split; [apply sameButFt_refl|]. split; [exact Wo|]. apply fn_keep; auto.
    + destruct (String.eqb_spec w "allScores") as [->|Na].
      2:{ eapply np_word; [reflexivity|exact Nb|exact Na]. }
      destruct (scored "allScores" (tlM t) x) as [o|e] eqn:E; cbn [rbind].
      2:{ eapply np_out; [exact Fm|]. cbn. auto. }
      pose proof (G2 _ _ _ _ Wx E) as Wo.
      destruct predicts eqn:Pr.
      * pose proof (setFt_spec o (map Some (order (tlM t)))) as H. destruct (setFtNames _ _) as [o'|e].
        -- destruct H as [H K]. exists o. split; [cbn; auto|]. split; [exact H|]. split; [exact (sameButFt_wf _ _ H Wo)|]. apply fn_all; auto.
        -- destruct H as [-> H]. eapply np_names; [exact Fm|cbn; eauto|reflexivity|apply in_all|exact H].
      * exists o. split; [cbn; auto|]. split; [apply sameButFt_refl|]. split; [exact Wo|]. apply fn_keep; auto.
  - destruct (pred (tlM t) x) as [o|e] eqn:E; cbn [rbind].
    2:{ eapply np_out; [exact Fm|]. cbn. auto. }
    pose proof (G1 _ _ _ Wx E) as Wo. destruct predicts eqn:Pr.
    + destruct (tlY t) as [l|] eqn:El.
      * destruct (Tsome l eq_refl) as [y [-> Gy]]. pose proof (setFt_spec o l) as H. destruct (setFtNames _ _) as [o'|e].
        -- destruct H as [H K]. exists o. split; [cbn; auto|]. split; [exact H|]. split; [exact (sameButFt_wf _ _ H Wo)|]. eapply fn_labels; [reflexivity|reflexivity|rewrite Gy; exact K].
        -- destruct H as [-> H]. eapply np_names; [exact Fm|cbn; eauto|reflexivity|apply in_labels; reflexivity|]. rewrite Gy. exact H.
      * destruct (setFt_None o) as [o' [Eo [H K]]]. rewrite Eo. exists o. split; [cbn; auto|]. split; [exact H|]. split; [exact (sameButFt_wf _ _ H Wo)|]. apply fn_unnamed; auto.
    + exists o. split; [cbn; auto|]. split; [apply sameButFt_refl|]. split; [exact Wo|]. apply fn_keep; auto.
Qed.
Lemma applyCore_spec s r ox t d mode xs ys : WfStore s -> nth_error s r = Some ox -> TrainedOn xs ys t -> (forall y, ys = Some y -> wf y) ->
  exists s' res, apply false t (DRef r) d mode s = (s', res) /\ Unchanged s s' /\ WfStore s' /\ AfterApplying s xs ys mode (dT ox) s' res.
Proof.
  intros W E T Wy. pose proof (WfStore_nth _ _ _ W E) as Wx. unfold WorkModel.apply. rewrite (bind_ok _ _ s s tt) by reflexivity.
  rewrite (bind_ok _ _ _ _ _ (get_ok _ _ _ E)).
  assert (Fail : forall e, NoPrediction mode xs ys (dT ox) e -> exists s' res, (s, Err e) = (s', res) /\ Unchanged s s' /\ WfStore s' /\ AfterApplying s xs ys mode (dT ox) s' res).
  { intros e N. exists s, (Err e). split; [reflexivity|]. split; [apply Unchanged_refl|]. split; [exact W|]. split; [reflexivity|exact N]. }
  pose proof T as (Fm & Sh & _). destruct (validShape_spec (tlShape t) ox) as [[V H]|[V H]]; rewrite Sh in V, H; cbn [fst snd] in H.
  2:{ rewrite Sh. rewrite (bind_err _ _ s s InvalidArgumentValueCombination) by (rewrite lift_run, V; reflexivity). apply Fail, np_shape. exact H. }
  rewrite Sh. rewrite (bind_ok _ _ s s tt) by (rewrite lift_run, V; reflexivity).
  pose proof (namedAnswer_spec t mode (dT ox) xs ys Wx T Wy H) as Na. fold (namedAnswer t mode (dT ox)).
  destruct (namedAnswer t mode (dT ox)) as [o1|e] eqn:EA.
  2:{ rewrite (bind_err _ _ s s e) by reflexivity. apply Fail, Na. }
  rewrite (bind_ok _ _ s s o1) by reflexivity. destruct Na as (o & Out & (S1 & S2 & S3 & S4 & _) & W1 & FN).
  assert (Q : exists o', (if pts ox =? pts o1 then setPtNames o1 (getNamesNoGeneration (tp (dT ox))) else Ok o1) = Ok o' /\ Predicted mode xs ys (dT ox) o' ).
  { unfold pts. destruct (Nat.eqb_spec (alen (tp (dT ox))) (alen (tp (dT o1)))) as [L|L].
    - destruct Wx as (_ & _ & Ix & _). destruct (setPt_spec o1 (tp (dT ox)) Ix L W1) as (o' & Eo & K1 & K2 & K3 & K4 & K5 & K6). exists o'. split; [exact Eo|].
      exists (tlM t), o. split; [exact Fm|]. split; [exact H|]. split; [exact Out|]. split; [congruence|]. split; [congruence|]. split; [exact K5|].
      split; [congruence|]. split; [congruence|]. split; [intros _; exact K6|]. split; [intros N; exfalso; congruence|]. rewrite K3. exact FN.
    - exists o1. split; [reflexivity|]. exists (tlM t), o. split; [exact Fm|]. split; [exact H|]. split; [exact Out|]. split; [exact S1|]. split; [exact S2|]. split; [exact W1|].
      split; [congruence|]. split; [exact S4|]. split; [intros N; exfalso; congruence|]. split; [intros _; congruence|]. exact FN. }
  destruct Q as [o' [Eo P]]. rewrite Eo. rewrite (bind_ok _ _ s s o') by reflexivity. exists (s ++ [o']), (Ok (List.length s)). split; [reflexivity|]. split; [apply Unchanged_app|].
  split; [apply WfStore_app; [exact W|]; intros q [<-|[]]; destruct P as (m & p & _ & _ & _ & _ & _ & Wo & _); exact Wo|].
  split; [reflexivity|]. exists o'. auto.
Qed.
Lemma apply_entry s t x d mode : apply true t x d mode s = (_ <~ validateTesting x DNone d (tl2d t) mode ;;; apply false t x d mode) s.
Proof.
  unfold WorkModel.apply, pbind. destruct (validateTesting x DNone d (tl2d t) mode s) as [s' [u|e]]; reflexivity.
Qed.

(** ** the user's calls *)
Lemma TextOrInt_dec i : TextOrInt i \/ ~ TextOrInt i. Proof. destruct i; cbn; tauto. Qed.
Lemma notBadTrain s x y : (forall e, ~ BadTrain s x y e) -> (exists r, x = DRef r) /\ Fine y.
Proof.
  intros N. destruct x as [|r|i|]; try (exfalso; eapply N; apply bt_x; discriminate). split; [exists r; reflexivity|].
  destruct y as [|q|i|]; cbn; auto.
  - destruct (TextOrInt_dec i) as [T|T]; [exact T|]. exfalso. eapply N. apply bt_id, T.
  - eapply N. apply bt_y.
Qed.
Lemma notBadTest s x y : (forall e, ~ BadTest s x y e) -> (x = DNone \/ exists r, x = DRef r) /\ Fine y /\ (x = DNone -> forall q, y <> DRef q).
Proof.
  intros N. split; [|split].
  - destruct x as [|r|i|]; [auto|right; exists r; reflexivity|exfalso; eapply N; apply be_x; discriminate|exfalso; eapply N; apply be_x; discriminate].
  - destruct y as [|q|i|]; cbn; auto.
    + destruct (TextOrInt_dec i) as [T|T]; [exact T|]. exfalso. eapply N. apply be_id, T.
    + eapply N. apply be_y.
  - intros -> q ->. eapply N. apply be_alone.
Qed.
Lemma Present_None s : Present s DNone. Proof. intros r [=]. Qed.
Definition TrainResult (s : store) (x y : darg) (d : bool) (strat : option string) (res : result (tlearner M)) : Prop :=
  match res with
  | Ok t => (forall e, ~ BadCall s x y DNone DNone d strat None e) /\ exists xs ys, DataAndLabels s x y xs ys /\ TrainedOn xs ys t
  | Err e => BadCall s x y DNone DNone d strat None e \/ NoFeature s x y e \/ exists xs ys, DataAndLabels s x y xs ys /\ fit xs ys = Err e
  end.
Lemma train_spec s x y d strat : WfStore s -> Present s x -> Present s y -> Plain strat ->
  exists s' res, train true x y d strat s = (s', res) /\ Unchanged s s' /\ WfStore s' /\ TrainResult s x y d strat res.
Proof.
  intros W Px Py Pl. assert (E : train true x y d strat s = (_ <~ validateLearning x y DNone DNone d strat None ;;; train false x y d strat) s) by reflexivity.
  rewrite E. clear E. destruct (validateLearning_spec s x y DNone DNone d strat None Px Py (Present_None s) (Present_None s)) as [[V N]|[e [V B]]].
  - rewrite (bind_ok _ _ _ _ _ V). destruct (notBadTrain s x y) as [[r ->] F]; [intros e B; eapply N; apply bc_train; exact B|].
    destruct (Present_nth _ _ Px) as [o Eo]. destruct (trainCore_spec s r o y d strat W Eo Py F Pl) as (s' & res & T & U & W' & A).
    exists s', res. split; [exact T|]. split; [exact U|]. split; [exact W'|]. destruct res as [t|e]; cbn in *.
    + split; [exact N|]. destruct A as (xs & ys & P & Tr). exists xs, ys. split; [apply Parts_Data; assumption|exact Tr].
    + right. destruct A as [A|(xs & ys & P & Tr)]; [left; exact A|right]. exists xs, ys. split; [apply Parts_Data; assumption|exact Tr].
  - rewrite (bind_err _ _ _ _ _ V). exists s, (Err e). split; [reflexivity|]. split; [apply Unchanged_refl|]. split; [exact W|]. left. exact B.
Qed.

Lemma apply_spec s x t d mode xs ys : WfStore s -> Present s x -> TrainedOn xs ys t -> (forall y, ys = Some y -> wf y) ->
  exists s' res, apply true t x d mode s = (s', res) /\ Unchanged s s' /\ WfStore s' /\
    match res with
    | Ok p => (forall e, ~ BadTesting s x DNone d (tl2d t) mode e) /\ p = List.length s /\ exists r o o', x = DRef r /\ nth_error s r = Some o /\ s' = s ++ [o'] /\ Predicted mode xs ys (dT o) o'
    | Err e => s' = s /\ (BadTesting s x DNone d (tl2d t) mode e \/ (x = DNone /\ e = AttributeErr) \/ exists r o, x = DRef r /\ nth_error s r = Some o /\ NoPrediction mode xs ys (dT o) e)
    end.
Proof.
  intros W Px T Wy. rewrite apply_entry. destruct (validateTesting_spec s x DNone d (tl2d t) mode Px (Present_None s)) as [[V N]|[e [V B]]].
  - rewrite (bind_ok _ _ _ _ _ V). destruct (notBadTest s x DNone) as [X _]; [intros e B; eapply N; apply bg_test; exact B|].
    destruct X as [->|[r ->]].
    + exists s, (Err AttributeErr). split; [reflexivity|]. split; [apply Unchanged_refl|]. split; [exact W|]. split; [reflexivity|]. right. left. auto.
    + destruct (Present_nth _ _ Px) as [o Eo]. destruct (applyCore_spec s r o t d mode xs ys W Eo T Wy) as (s' & res & A & U & W' & H).
      exists s', res. split; [exact A|]. split; [exact U|]. split; [exact W'|]. destruct res as [p|e]; cbn in H.
      * destruct H as [-> [o' [-> P]]]. split; [exact N|]. split; [reflexivity|]. exists r, o, o'. auto.
      * destruct H as [-> P]. split; [reflexivity|]. right. right. exists r, o. auto.
  - rewrite (bind_err _ _ _ _ _ V). exists s, (Err e). split; [reflexivity|]. split; [apply Unchanged_refl|]. split; [exact W|]. split; [reflexivity|]. left. exact B.
Qed.

(** *** testing *)
Definition AfterTesting (s : store) (xs : table pval) (ys : option (table pval)) (x y : darg) (res : result R) : Prop :=
  match res with
  | Ok p => exists t lab, Parts s x y t lab /\ Performance perfMode xs ys t (labelsOr t lab) p
  | Err e => NoFeature s x y e \/ exists t lab, Parts s x y t lab /\ NoPerformance perfMode xs ys t (labelsOr t lab) e
  end.
Lemma compare_spec s r q ox oq t d xs ys : WfStore s -> nth_error s r = Some ox -> nth_error s q = Some oq -> TrainedOn xs ys t -> (forall y, ys = Some y -> wf y) ->
  exists s' res, (p <~ apply false t (DRef r) d perfMode ;;; op <~ get p ;;; oy <~ get q ;;; lift (perf (dT oy) (dT op))) s = (s', res) /\ Unchanged s s' /\ WfStore s' /\
    match res with Ok p => Performance perfMode xs ys (dT ox) (dT oq) p | Err e => NoPerformance perfMode xs ys (dT ox) (dT oq) e end.
Proof.
  intros W E Eq T Wy. destruct (applyCore_spec s r ox t d perfMode xs ys W E T Wy) as (s' & res & A & U & W' & H). destruct res as [p|e]; cbn in H.
  - destruct H as [-> [o' [-> P]]]. rewrite (bind_ok _ _ _ _ _ A). rewrite (bind_ok _ _ _ _ _ (get_ok _ _ _ (nth_last s o'))).
    rewrite (bind_ok _ _ _ _ _ (get_ok _ _ _ (U _ _ Eq))). exists (s ++ [o']), (perf (dT oq) (dT o')). split; [reflexivity|]. split; [exact U|]. split; [exact W'|].
    destruct (perf (dT oq) (dT o')) eqn:Pf; [|right]; exists o'; auto.
  - destruct H as [-> P]. rewrite (bind_err _ _ _ _ _ A). exists s, (Err e). split; [reflexivity|]. split; [exact U|]. split; [exact W'|]. left. exact P.
Qed.
Lemma testCore_spec s r o y t d xs ys : WfStore s -> nth_error s r = Some o -> Present s y -> Fine y -> TrainedOn xs ys t -> (forall y, ys = Some y -> wf y) ->
  exists s' res, test false t (DRef r) y d s = (s', res) /\ Unchanged s s' /\ WfStore s' /\ AfterTesting s xs ys (DRef r) y res.
Proof.
  intros W E Py F T Wy. unfold WorkModel.test. rewrite (bind_ok _ _ s s tt) by reflexivity. destruct y as [|q|i|].
  - rewrite (bind_ok _ _ s s (DRef r, DRef r)) by reflexivity. cbn [fst snd].
    destruct (compare_spec s r r o o t d xs ys W E E T Wy) as (s' & res & A & U & W' & H). exists s', res. split; [exact A|]. split; [exact U|]. split; [exact W'|].
    destruct res as [p|e]; cbn; [|right]; exists (dT o), None; (split; [apply pt_none, E|exact H]).
  - destruct (Present_nth _ _ Py) as [oq Eq]. rewrite (bind_ok _ _ s s (DRef r, DRef q)) by reflexivity. cbn [fst snd].
    destruct (compare_spec s r q o oq t d xs ys W E Eq T Wy) as (s' & res & A & U & W' & H). exists s', res. split; [exact A|]. split; [exact U|]. split; [exact W'|].
    destruct res as [p|e]; cbn; [|right]; exists (dT o), (Some (dT oq)); (split; [apply pt_obj; assumption|exact H]).
  - destruct (copyExtract_spec s r o i W E F) as [(a & b & P & W1 & K)|(e & N & W1 & K)].
    + rewrite (bind_ok _ _ s (s ++ [mkD a (dK o); mkD b (dK o)]) (DRef (List.length s), DRef (S (List.length s)))) by (rewrite (K _ (fun c ry => pret (DRef c, DRef ry))); reflexivity).
      cbn [fst snd]. destruct (nth_last2 s (mkD a (dK o)) (mkD b (dK o))) as [N1 N2].
      destruct (compare_spec _ _ _ _ _ t d xs ys W1 N1 N2 T Wy) as (s' & res & A & U & W' & H). exists s', res. split; [exact A|].
      split; [eapply Unchanged_trans; [apply Unchanged_app|exact U]|]. split; [exact W'|].
      destruct res as [p|e]; cbn; [|right]; exists a, (Some b); (split; [exact P|exact H]).
    + rewrite (bind_err _ _ s (s ++ [o]) e) by (rewrite (K _ (fun c ry => pret (DRef c, DRef ry))); reflexivity).
      exists (s ++ [o]), (Err e). split; [reflexivity|]. split; [apply Unchanged_app|]. split; [exact W1|]. left. exact N.
  - contradiction.
Qed.
Lemma test_entry s t x y d : test true t x y d s = (_ <~ validateTesting x y d (tl2d t) None ;;; test false t x y d) s.
Proof.
  unfold WorkModel.test, pbind. destruct (validateTesting x y d (tl2d t) None s) as [s' [u|e]]; reflexivity.
Qed.
Lemma test_nothing s t y d : Fine y -> (forall q, y <> DRef q) -> test false t DNone y d s = (s, Err AttributeErr).
Proof. intros F N. destruct y as [|q|i|]; [reflexivity|exfalso; exact (N q eq_refl)|reflexivity|contradiction]. Qed.
Lemma AfterTesting_back s0 s xs ys x y res : Unchanged s0 s -> Present s0 x -> Present s0 y -> AfterTesting s xs ys x y res -> AfterTesting s0 xs ys x y res.
Proof.
  intros U Px Py H. destruct res as [p|e]; cbn in *.
  - destruct H as (t & lab & P & Q). exists t, lab. split; [eapply Parts_back; eauto|exact Q].
  - destruct H as [N|(t & lab & P & Q)].
    + left. destruct N as (r & o & i & -> & E & Ey & N). exists r, o, i. split; [reflexivity|]. split; [|auto].
      destruct (Present_nth _ _ Px) as [q Eq]. pose proof (U _ _ Eq). congruence.
    + right. exists t, lab. split; [eapply Parts_back; eauto|exact Q].
Qed.
(** the entry point, on any arguments *)
Definition TestResult (s : store) (xs : table pval) (ys : option (table pval)) (x y : darg) (d two : bool) (res : result R) : Prop :=
  match res with
  | Ok p => (forall e, ~ BadTesting s x y d two None e) /\ exists t lab, DataAndLabels s x y t lab /\ Performance perfMode xs ys t (labelsOr t lab) p
  | Err e => BadTesting s x y d two None e \/ (x = DNone /\ e = AttributeErr) \/ NoFeature s x y e \/
             exists t lab, DataAndLabels s x y t lab /\ NoPerformance perfMode xs ys t (labelsOr t lab) e
  end.
Lemma test_spec s x y t d xs ys : WfStore s -> Present s x -> Present s y -> TrainedOn xs ys t -> (forall y, ys = Some y -> wf y) ->
  exists s' res, test true t x y d s = (s', res) /\ Unchanged s s' /\ WfStore s' /\ TestResult s xs ys x y d (tl2d t) res.
Proof.
  intros W Px Py T Wy. rewrite test_entry. destruct (validateTesting_spec s x y d (tl2d t) None Px Py) as [[V N]|[e [V B]]].
  - rewrite (bind_ok _ _ _ _ _ V). destruct (notBadTest s x y) as (X & F & Nq); [intros e B; eapply N; apply bg_test; exact B|].
    destruct X as [->|[r ->]].
    + rewrite (test_nothing s t y d F (Nq eq_refl)). exists s, (Err AttributeErr). split; [reflexivity|]. split; [apply Unchanged_refl|]. split; [exact W|]. right. left. auto.
    + destruct (Present_nth _ _ Px) as [o Eo]. destruct (testCore_spec s r o y t d xs ys W Eo Py F T Wy) as (s' & res & A & U & W' & H).
      exists s', res. split; [exact A|]. split; [exact U|]. split; [exact W'|]. destruct res as [p|e]; cbn in *.
      * split; [exact N|]. destruct H as (u & lab & P & Q). exists u, lab. split; [apply Parts_Data; assumption|exact Q].
      * right. right. destruct H as [H|(u & lab & P & Q)]; [left; exact H|right]. exists u, lab. split; [apply Parts_Data; assumption|exact Q].
  - rewrite (bind_err _ _ _ _ _ V). exists s, (Err e). split; [reflexivity|]. split; [apply Unchanged_refl|]. split; [exact W|]. left. exact B.
Qed.

(** *** training and applying at once *)
Notation trainAndApply := (trainAndApply M fit pred scored order predicts multi).
Notation backend := (backend M fit pred scored order predicts R perf perfMode multi).
Notation trainAndTest := (trainAndTest M fit pred scored order predicts R perf perfMode multi).
Lemma tl2d_wide s x y xs ys t : WfStore s -> Parts s x y xs ys -> TrainedOn xs ys t -> tl2d t = true -> Wide s x y.
Proof.
  intros W P (_ & _ & _ & H) E. apply H in E. clear H. destruct P as [r o Eo|r o q oq Eo Eq|r o i a b Eo T C].
  - exists r, o. auto.
  - exists q, oq. auto.
  - exfalso. destruct (cut_some _ _ _ _ (WfStore_nth _ _ _ W Eo) T C) as [(j & _ & _ & Wb & _ & _ & I & _) _].
    pose proof (items_length _ Fts b Wb) as L. cbn [ax] in L. rewrite <- L, I in E. cbn in E. destruct (nth_error (items Fts (dT o)) j); cbn in E; lia.
Qed.
Definition Target (s : store) (tx : darg) (xs t : table pval) : Prop :=
  (tx = DNone /\ t = xs) \/ exists r o, tx = DRef r /\ nth_error s r = Some o /\ t = dT o.
Definition TrainApplyResult (s s' : store) (x y tx : darg) (d : bool) (strat mode : option string) (res : result nat) : Prop :=
  match res with
  | Ok p => (forall e, ~ BadCall s x y tx DNone d strat mode e) /\ List.length s <= p /\
            exists xs ys t o, DataAndLabels s x y xs ys /\ Target s tx xs t /\ nth_error s' p = Some o /\ Predicted mode xs ys t o
  | Err e => BadCall s x y tx DNone d strat mode e \/ NoFeature s x y e \/
             exists xs ys t, DataAndLabels s x y xs ys /\ Target s tx xs t /\ NoPrediction mode xs ys t e
  end.
Lemma trainAndApply_spec s x y tx d strat mode : WfStore s -> Present s x -> Present s y -> Present s tx -> Plain strat ->
  exists s' res, trainAndApply x y tx d strat mode s = (s', res) /\ Unchanged s s' /\ WfStore s' /\ TrainApplyResult s s' x y tx d strat mode res.
Proof.
  intros W Px Py Ptx Pl. unfold WorkModel.trainAndApply.
  destruct (validateLearning_spec s x y tx DNone d strat mode Px Py Ptx (Present_None s)) as [[V N]|[e [V B]]].
  2:{ rewrite (bind_err _ _ _ _ _ V). exists s, (Err e). split; [reflexivity|]. split; [apply Unchanged_refl|]. split; [exact W|]. left. exact B. }
  rewrite (bind_ok _ _ _ _ _ V). destruct (notBadTrain s x y) as [[r ->] F]; [intros e B; eapply N; apply bc_train; exact B|].
  destruct (notBadTest s tx DNone) as (Xt & _); [intros e B; eapply N; apply bc_test; exact B|].
  destruct (Present_nth _ _ Px) as [o Eo]. destruct (trainCore_spec s r o y d strat W Eo Py F Pl) as (s1 & res & T & U & W1 & A).
  destruct res as [t|e].
  2:{ rewrite (bind_err _ _ _ _ _ T). exists s1, (Err e). split; [reflexivity|]. split; [exact U|]. split; [exact W1|]. right.
      destruct A as [A|(xs & ys & P & Tr)]; [left; exact A|right]. exists xs, ys.
      destruct Xt as [->|[rt ->]].
      - exists xs. split; [apply Parts_Data; assumption|]. split; [left; auto|]. apply np_fit, Tr.
      - destruct (Present_nth _ _ Ptx) as [ot Et]. exists (dT ot). split; [apply Parts_Data; assumption|]. split; [right; exists rt, ot; auto|]. apply np_fit, Tr. }
  rewrite (bind_ok _ _ _ _ _ T). destruct A as (xs & ys & P & Tr). destruct (Parts_wf _ _ _ _ _ W P) as [_ Wy].
  (* the end: applying to an object that holds [u] *)
  assert (Fin : forall s2 q oq, Unchanged s1 s2 -> WfStore s2 -> nth_error s2 q = Some oq -> Target s tx xs (dT oq) ->
    exists s' res, apply true t (DRef q) true mode s2 = (s', res) /\ Unchanged s s' /\ WfStore s' /\ TrainApplyResult s s' (DRef r) y tx d strat mode res).
  { intros s2 q oq U2 W2 Eq Tg. destruct (apply_spec s2 (DRef q) t true mode xs ys W2 (Present_some _ _ _ Eq) Tr Wy) as (s' & res & K & U' & W' & H).
    exists s', res. split; [exact K|]. split; [eapply Unchanged_trans; [exact U|eapply Unchanged_trans; eauto]|]. split; [exact W'|]. destruct res as [p|e]; cbn.
    - destruct H as (_ & -> & r' & o1 & o' & [= <-] & E1 & -> & Pr). assert (o1 = oq) by congruence. subst o1. split; [exact N|].
      split; [pose proof (Unchanged_len _ _ U); pose proof (Unchanged_len _ _ U2); lia|]. exists xs, ys, (dT oq), o'. split; [apply Parts_Data; assumption|]. split; [exact Tg|]. split; [apply nth_last|exact Pr].
    - destruct H as (_ & [B|[[B _]|(r' & o1 & [= <-] & E1 & Pr)]]).
      + exfalso. inversion B as [e0 Bt|Bd|m Em Bm|Bw Bm]; subst.
        * inversion Bt; subst; nope.
        * discriminate.
        * eapply N. eapply bc_mode; [reflexivity|exact Bm].
        * eapply N. eapply bc_wide; [eapply tl2d_wide; eauto|left; exact Bm].
      + discriminate.
      + assert (o1 = oq) by congruence. subst o1. right. right. exists xs, ys, (dT oq). split; [apply Parts_Data; assumption|]. split; [exact Tg|exact Pr]. }
  destruct Xt as [->|[rt ->]].
  - destruct y as [|q|i|].
    + rewrite (bind_ok _ _ s1 s1 (DRef r)) by reflexivity. apply (Fin s1 r o); [apply Unchanged_refl|exact W1|apply U, Eo|]. left. split; [reflexivity|]. inversion P; subst. congruence.
    + rewrite (bind_ok _ _ s1 s1 (DRef r)) by reflexivity. apply (Fin s1 r o); [apply Unchanged_refl|exact W1|apply U, Eo|]. left. split; [reflexivity|]. inversion P; subst. congruence.
    + inversion P; subst. assert (o0 = o) by congruence. subst o0. destruct (copyDelete_spec s1 r o i xs ys0 W1 (U _ _ Eo) F) as [W2 K]; [eapply Parts_mono; [exact U|]; exact P|].
      rewrite (bind_ok _ _ s1 (s1 ++ [mkD xs (dK o)]) (DRef (List.length s1))) by (rewrite (K _ (fun c => pret (DRef c))); reflexivity).
      apply (Fin _ _ (mkD xs (dK o))); [apply Unchanged_app|exact W2|apply nth_last|]. left. auto.
    + contradiction.
  - destruct (Present_nth _ _ Ptx) as [ot Et]. rewrite (bind_ok _ _ s1 s1 (DRef rt)) by reflexivity.
    apply (Fin s1 rt ot); [apply Unchanged_refl|exact W1|apply U, Et|]. right. exists rt, ot. auto.
Qed.

(** *** training and testing at once *)
Definition BothResult (s : store) (x y tx ty : darg) (res : result R) : Prop :=
  match res with
  | Ok p => exists xs ys t lab, DataAndLabels s x y xs ys /\ DataAndLabels s (orElse tx x) (orElse ty y) t lab /\ Performance perfMode xs ys t (labelsOr t lab) p
  | Err e => NoFeature s x y e \/ (exists xs ys, DataAndLabels s x y xs ys /\ fit xs ys = Err e) \/
             BadTest s (orElse tx x) (orElse ty y) e \/ NoFeature s (orElse tx x) (orElse ty y) e \/
             exists xs ys t lab, DataAndLabels s x y xs ys /\ DataAndLabels s (orElse tx x) (orElse ty y) t lab /\ NoPerformance perfMode xs ys t (labelsOr t lab) e
  end.
Lemma BadTest_back s s' r y e : Unchanged s s' -> Present s (DRef r) -> Present s y -> BadTest s' (DRef r) y e -> BadTest s (DRef r) y e.
Proof.
  intros U Px Py B. inversion B; subst; try (constructor; assumption).
  destruct (Present_nth _ _ Px) as [a Ea]. destruct (Present_nth _ _ Py) as [b Eb]. pose proof (U _ _ Ea). pose proof (U _ _ Eb). eapply be_points; [exact Ea|exact Eb|]. congruence.
Qed.
Lemma backend_spec s r y tx ty d strat : WfStore s -> Present s (DRef r) -> Present s y -> Present s tx -> Present s ty -> Plain strat ->
  Fine y -> Fine ty -> (tx = DNone \/ exists q, tx = DRef q) ->
  exists s' res, backend (DRef r) y tx ty d strat s = (s', res) /\ Unchanged s s' /\ WfStore s' /\
    BothResult s (DRef r) y tx ty (match res with Ok q => Ok (fst q) | Err e => Err e end).
Proof.
  intros W Px Py Ptx Pty Pl F Ft Xt. unfold WorkModel.backend.
  destruct (Present_nth _ _ Px) as [o Eo]. destruct (trainCore_spec s r o y d strat W Eo Py F Pl) as (s1 & res & T & U & W1 & A).
  destruct res as [t|e].
  2:{ rewrite (bind_err _ _ _ _ _ T). exists s1, (Err e). split; [reflexivity|]. split; [exact U|]. split; [exact W1|].
      destruct A as [A|(xs & ys & P & Tr)]; [left; exact A|right; left]. exists xs, ys. split; [apply Parts_Data; assumption|exact Tr]. }
  rewrite (bind_ok _ _ _ _ _ T). destruct A as (xs & ys & P & Tr). destruct (Parts_wf _ _ _ _ _ W P) as [_ Wy].
  assert (X : exists q, match tx with DNone => DRef r | _ => tx end = DRef q /\ orElse tx (DRef r) = DRef q /\ Present s (DRef q)).
  { destruct Xt as [->|[q ->]]; [exists r|exists q]; auto. }
  destruct X as (q & Eq & Eor & Pq). cbv zeta. rewrite Eq. destruct (Present_nth _ _ Pq) as [oq Eoq].
  set (lab := match ty with DNone => y | _ => ty end).
  assert (Fin : forall s2 c z, Unchanged s1 s2 -> WfStore s2 -> Present s2 (DRef c) -> Present s2 z ->
    (forall u l, DataAndLabels s2 (DRef c) z u l -> DataAndLabels s (orElse tx (DRef r)) (orElse ty y) u l) ->
    (forall e, NoFeature s2 (DRef c) z e -> NoFeature s (orElse tx (DRef r)) (orElse ty y) e) ->
    (forall e, BadTest s2 (DRef c) z e -> BadTest s (orElse tx (DRef r)) (orElse ty y) e) ->
    exists s' res, (p <~ test true t (DRef c) z true ;;; pret (p, t)) s2 = (s', res) /\ Unchanged s s' /\ WfStore s' /\
      BothResult s (DRef r) y tx ty (match res with Ok q => Ok (fst q) | Err e => Err e end)).
  { intros s2 c z U2 W2 Pc Pz HD HN HB. destruct (test_spec s2 (DRef c) z t true xs ys W2 Pc Pz Tr Wy) as (s' & res & K & U' & W' & H).
    assert (US : Unchanged s s') by (eapply Unchanged_trans; [exact U|eapply Unchanged_trans; eauto]). destruct res as [p|e].
    - rewrite (bind_ok _ _ _ _ _ K). exists s', (Ok (p, t)). split; [reflexivity|]. split; [exact US|]. split; [exact W'|]. cbn [fst].
      destruct H as (_ & u & l & D & Pf). exists xs, ys, u, l. split; [apply Parts_Data; assumption|]. split; [apply HD, D|exact Pf].
    - rewrite (bind_err _ _ _ _ _ K). exists s', (Err e). split; [reflexivity|]. split; [exact US|]. split; [exact W'|]. right. right.
      destruct H as [B|[[B _]|[B|(u & l & D & Pf)]]].
      + left. inversion B as [e0 Bt|Bd|m Em Bm|Bw Bm]; subst; [apply HB, Bt|discriminate|discriminate|congruence].
      + discriminate.
      + right. left. apply HN, B.
      + right. right. exists xs, ys, u, l. split; [apply Parts_Data; assumption|]. split; [apply HD, D|exact Pf]. }
  assert (Back : forall z, Present s z ->
    (forall u l, DataAndLabels s1 (DRef q) z u l -> DataAndLabels s (DRef q) z u l) /\ (forall e, NoFeature s1 (DRef q) z e -> NoFeature s (DRef q) z e) /\ (forall e, BadTest s1 (DRef q) z e -> BadTest s (DRef q) z e)).
  { intros z Pz. pose proof (U _ _ Eoq) as Eo1. split; [|split].
    - intros u l D. inversion D; subst; try (assert (o0 = oq) by congruence; subst o0).
      + apply dl_none, Eoq. + destruct (Present_nth _ _ Pz) as [oz Ez]. pose proof (U _ _ Ez). assert (oq0 = oz) by congruence. subst. apply dl_obj; assumption. + eapply dl_id; eauto.
    - intros e (a & b & i & [= <-] & E & Ez & H). assert (b = oq) by congruence. subst b. exists q, oq, i. auto.
    - intros e B. eapply BadTest_back; eauto. }
  rewrite Eor in *. destruct ty as [|rl|i|].
  - rewrite (bind_ok _ _ s1 s1 (DRef q, y)) by reflexivity. cbn [fst snd orElse] in *. destruct (Back y Py) as (B1 & B2 & B3).
    apply Fin; auto; [apply Unchanged_refl|eapply Present_mono; eauto|eapply Present_mono; eauto].
  - rewrite (bind_ok _ _ s1 s1 (DRef q, DRef rl)) by reflexivity. cbn [fst snd orElse] in *. destruct (Back (DRef rl) Pty) as (B1 & B2 & B3).
    apply Fin; auto; [apply Unchanged_refl|eapply Present_mono; eauto|eapply Present_mono; eauto].
  - cbn [orElse] in *. destruct (copyExtract_spec s1 q oq i W1 (U _ _ Eoq) Ft) as [(a & b & Pt & W2 & K)|(e & N & W2 & K)].
    + rewrite (bind_ok _ _ s1 (s1 ++ [mkD a (dK oq); mkD b (dK oq)]) (DRef (List.length s1), DRef (S (List.length s1)))) by (rewrite (K _ (fun c ry => pret (DRef c, DRef ry))); reflexivity).
      cbn [fst snd]. destruct (nth_last2 s1 (mkD a (dK oq)) (mkD b (dK oq))) as [N1 N2].
      apply Fin; [apply Unchanged_app|exact W2|eapply Present_some, N1|eapply Present_some, N2| | |].
      * intros u l D. inversion D; subst. destruct (Back (DId i)) as (B1 & _); [intros ? [=]|]. apply B1.
        assert (o0 = mkD a (dK oq)) by congruence. assert (oq0 = mkD b (dK oq)) by congruence. subst o0 oq0. cbn [dT]. apply Parts_Data; [exact W1|exact Pt].
      * intros e (? & ? & ? & _ & _ & [=] & _).
      * intros e B. exfalso. inversion B; subst; try nope.
        assert (o0 = mkD a (dK oq)) by congruence. assert (oq0 = mkD b (dK oq)) by congruence. subst o0 oq0. cbn [dT] in *.
        inversion Pt; subst. assert (o0 = oq) by (pose proof (U _ _ Eoq); congruence). subst o0.
        match goal with C : cut _ _ = _ |- _ => destruct (cut_some _ _ _ _ (WfStore_nth _ _ _ W1 (U _ _ Eoq)) Ft C) as [(j & _ & _ & _ & [La _] & [Lb _] & _) _] end.
        cbn [offax] in *. congruence.
    + rewrite (bind_err _ _ s1 (s1 ++ [oq]) e) by (rewrite (K _ (fun c ry => pret (DRef c, DRef ry))); reflexivity).
      exists (s1 ++ [oq]), (Err e). split; [reflexivity|]. split; [eapply Unchanged_trans; [exact U|apply Unchanged_app]|]. split; [exact W2|].
      right. right. right. left. rewrite Eor. destruct (Back (DId i)) as (_ & B2 & _); [intros ? [=]|]. apply B2. exact N.
  - contradiction.
Qed.
Definition TrainTestResult (s : store) (x y tx ty : darg) (d : bool) (strat : option string) (res : result R) : Prop :=
  match res with
  | Ok p => (forall e, ~ BadCall s x y tx ty d strat None e) /\ BothResult s x y tx ty (Ok p)
  | Err e => BadCall s x y tx ty d strat None e \/ BothResult s x y tx ty (Err e)
  end.
Lemma trainAndTest_spec s x y tx ty d strat : WfStore s -> Present s x -> Present s y -> Present s tx -> Present s ty -> Plain strat ->
  exists s' res, trainAndTest x y tx ty d strat s = (s', res) /\ Unchanged s s' /\ WfStore s' /\ TrainTestResult s x y tx ty d strat res.
Proof.
  intros W Px Py Ptx Pty Pl. unfold WorkModel.trainAndTest.
  destruct (validateLearning_spec s x y tx ty d strat None Px Py Ptx Pty) as [[V N]|[e [V B]]].
  2:{ rewrite (bind_err _ _ _ _ _ V). exists s, (Err e). split; [reflexivity|]. split; [apply Unchanged_refl|]. split; [exact W|]. left. exact B. }
  rewrite (bind_ok _ _ _ _ _ V). destruct (notBadTrain s x y) as [[r ->] F]; [intros e B; eapply N; apply bc_train; exact B|].
  destruct (notBadTest s tx ty) as (Xt & Ft & _); [intros e B; eapply N; apply bc_test; exact B|].
  destruct (backend_spec s r y tx ty d strat W Px Py Ptx Pty Pl F Ft Xt) as (s' & res & K & U & W' & H). destruct res as [q|e].
  - rewrite (bind_ok _ _ _ _ _ K). exists s', (Ok (fst q)). split; [reflexivity|]. split; [exact U|]. split; [exact W'|]. split; [exact N|exact H].
  - rewrite (bind_err _ _ _ _ _ K). exists s', (Err e). split; [reflexivity|]. split; [exact U|]. split; [exact W'|]. right. exact H.
Qed.

Lemma trainOnTraining_same x y d strat s :
  trainAndTestOnTrainingData M fit pred scored order predicts R perf perfMode multi x y d strat s =
  (_ <~ validateLearning x y DNone DNone d strat None ;;; q <~ backend x y x y d strat ;;; pret (fst q)) s.
Proof. reflexivity. Qed.
(** here the training data is also the data the learner is tested on *)
Lemma trainingData_spec s x y d strat : WfStore s -> Present s x -> Present s y -> Plain strat ->
  exists s' res, trainAndTestOnTrainingData M fit pred scored order predicts R perf perfMode multi x y d strat s = (s', res) /\ Unchanged s s' /\ WfStore s' /\
    match res with
    | Ok p => (forall e, ~ BadCall s x y DNone DNone d strat None e) /\ exists xs ys, DataAndLabels s x y xs ys /\ Performance perfMode xs ys xs (labelsOr xs ys) p
    | Err e => BadCall s x y DNone DNone d strat None e \/ NoFeature s x y e \/ exists xs ys, DataAndLabels s x y xs ys /\ NoPerformance perfMode xs ys xs (labelsOr xs ys) e
    end.
Proof.
  intros W Px Py Pl. rewrite trainOnTraining_same.
  destruct (validateLearning_spec s x y DNone DNone d strat None Px Py (Present_None s) (Present_None s)) as [[V N]|[e [V B]]].
  2:{ rewrite (bind_err _ _ _ _ _ V). exists s, (Err e). split; [reflexivity|]. split; [apply Unchanged_refl|]. split; [exact W|]. left. exact B. }
  rewrite (bind_ok _ _ _ _ _ V). destruct (notBadTrain s x y) as [[r ->] F]; [intros e B; eapply N; apply bc_train; exact B|].
  destruct (Present_nth _ _ Px) as [o Eo]. unfold WorkModel.backend.
  destruct (trainCore_spec s r o y d strat W Eo Py F Pl) as (s1 & res & T & U & W1 & A).
  destruct res as [t|e].
  2:{ assert (E0 : forall A (f : A -> prog R) (g : tlearner M -> prog A), pbind (pbind (train false (DRef r) y d strat) g) f s = (s1, Err e)) by (intros; unfold pbind; rewrite T; reflexivity).
      rewrite E0. exists s1, (Err e). split; [reflexivity|]. split; [exact U|]. split; [exact W1|]. right.
      destruct A as [A|(xs & ys & P & Tr)]; [left; exact A|right]. exists xs, ys. split; [apply Parts_Data; assumption|]. left. apply np_fit, Tr. }
  destruct A as (xs & ys & P & Tr). destruct (Parts_wf _ _ _ _ _ W P) as [_ Wy].
  (* the same data is separated again *)
  assert (Fin : exists s' res, (q <~ backend (DRef r) y (DRef r) y d strat ;;; pret (fst q)) s = (s', res) /\ Unchanged s s' /\ WfStore s' /\
     match res with Ok p => Performance perfMode xs ys xs (labelsOr xs ys) p | Err e => NoPerformance perfMode xs ys xs (labelsOr xs ys) e end).
  { unfold WorkModel.backend.
    assert (Go : forall s2 c z a b, Unchanged s1 s2 -> WfStore s2 -> Present s2 (DRef c) -> Present s2 z -> (forall e, ~ BadTest s2 (DRef c) z e) -> (forall i, z <> DId i) ->
      Parts s2 (DRef c) z a b -> a = xs -> b = ys ->
      exists s' res, (p <~ test true t (DRef c) z true ;;; pret p) s2 = (s', res) /\ Unchanged s s' /\ WfStore s' /\
        match res with Ok p => Performance perfMode xs ys xs (labelsOr xs ys) p | Err e => NoPerformance perfMode xs ys xs (labelsOr xs ys) e end).
    { intros s2 c z a b U2 W2 Pc Pz NB Nz Pp -> ->. rename Pp into Pab. rewrite (fun f => eq_refl : pbind (test true t (DRef c) z true) f s2 = match test true t (DRef c) z true s2 with (s', Ok v) => f v s' | (s', Err e) => (s', Err e) end).
      rewrite test_entry. destruct (validateTesting_spec s2 (DRef c) z true (tl2d t) None Pc Pz) as [[V2 N2]|[e [V2 B]]].
      2:{ exfalso. inversion B as [e0 Bt|Bd|m Em Bm|Bw Bm]; subst; [eapply NB, Bt|discriminate|discriminate|congruence]. }
      rewrite (bind_ok _ _ _ _ _ V2). destruct (Present_nth _ _ Pc) as [oc Ec].
      assert (Fz : Fine z) by (destruct z as [|q|i|]; cbn; auto; [exfalso; exact (Nz i eq_refl)|eapply NB; apply be_y]).
      destruct (testCore_spec s2 c oc z t true xs ys W2 Ec Pz Fz Tr Wy) as (s' & res & K & U' & W' & H). rewrite K.
      exists s', res. split; [destruct res; reflexivity|]. split; [eapply Unchanged_trans; [exact U|eapply Unchanged_trans; eauto]|]. split; [exact W'|].
      destruct res as [p|e]; cbn in H.
      - destruct H as (u & l & Q & Pf). destruct (Parts_det _ _ _ _ _ _ _ Pab Q) as [<- <-]. exact Pf.
      - destruct H as [(? & ? & i & _ & _ & -> & _)|(u & l & Q & Pf)]; [exfalso; exact (Nz i eq_refl)|]. destruct (Parts_det _ _ _ _ _ _ _ Pab Q) as [<- <-]. exact Pf. }
    destruct y as [|q|i|].
    - destruct (Go s1 r DNone xs ys) as (s' & res & K & H); auto using Unchanged_refl.
      { eapply Present_mono; eauto. } { apply Present_None. } { intros e B. inversion B; subst; nope. } { discriminate. } { eapply Parts_mono; eauto. }
      exists s', res. split; [|exact H]. unfold pbind. rewrite T. unfold pbind in K. cbn [fst snd pret]. destruct (test true t (DRef r) DNone true s1) as [s3 [v|e]]; exact K.
    - destruct (Go s1 r (DRef q) xs ys) as (s' & res & K & H); auto using Unchanged_refl.
      { eapply Present_mono; eauto. } { eapply Present_mono; eauto. }
      { intros e B. eapply BadTest_back in B; [|exact U|exact Px|exact Py]. inversion B; subst; try nope. eapply N. apply bc_train. eapply bt_points; eauto. }
      { discriminate. } { eapply Parts_mono; eauto. }
      exists s', res. split; [|exact H]. unfold pbind. rewrite T. unfold pbind in K. cbn [fst snd pret]. destruct (test true t (DRef r) (DRef q) true s1) as [s3 [v|e]]; exact K.
    - destruct (copyExtract_spec s1 r o i W1 (U _ _ Eo) F) as [(a & b & Pt & W2 & K2)|(e & Nf & W2 & K2)].
      2:{ exfalso. destruct Nf as (r' & o' & i' & [= <-] & E' & [= <-] & Nd & _). pose proof (U _ _ Eo). assert (o' = o) by congruence. subst o'.
          pose proof (Parts_Data _ _ _ _ _ W P) as D. inversion D; subst. match goal with S : Split _ _ _ _ |- _ => destruct S as (j & Dj & _) end. assert (o0 = o) by congruence. subst o0. exact (Nd _ Dj). }
      destruct (Parts_det _ _ _ _ _ _ _ Pt (Parts_mono _ _ _ _ _ _ U P)) as [-> <-]. destruct (nth_last2 s1 (mkD xs (dK o)) (mkD b (dK o))) as [N1 N2].
      destruct (Go (s1 ++ [mkD xs (dK o); mkD b (dK o)]) (List.length s1) (DRef (S (List.length s1))) xs (Some b)) as (s' & res & K & H); auto.
      { apply Unchanged_app. } { eapply Present_some, N1. } { eapply Present_some, N2. }
      { intros e B. inversion B; subst; try nope.
        assert (o0 = mkD xs (dK o)) by congruence. assert (oq = mkD b (dK o)) by congruence. subst o0 oq. cbn [dT] in *.
        pose proof (Parts_Data _ _ _ _ _ W P) as D. inversion D; subst.
        match goal with S : Split _ _ _ _ |- _ => destruct S as (j & _ & _ & _ & [La _] & [Lb _] & _) end. cbn [offax] in *. congruence. }
      { discriminate. }
      { pose proof (pt_obj _ _ _ _ _ N1 N2) as Q. exact Q. }
      exists s', res. split; [|exact H]. 
      assert (E1 : backend (DRef r) (DId i) (DRef r) (DId i) d strat s = (p <~ test true t (DRef (List.length s1)) (DRef (S (List.length s1))) true ;;; pret (p, t)) (s1 ++ [mkD xs (dK o); mkD b (dK o)])).
      { unfold WorkModel.backend. rewrite (bind_ok _ _ _ _ _ T). cbv zeta.
        rewrite (bind_ok _ _ s1 (s1 ++ [mkD xs (dK o); mkD b (dK o)]) (DRef (List.length s1), DRef (S (List.length s1)))) by (rewrite (K2 _ (fun c ry => pret (DRef c, DRef ry))); reflexivity). reflexivity. }
      unfold pbind at 1. change (WorkModel.backend M fit pred scored order predicts R perf perfMode multi (DRef r) (DId i) (DRef r) (DId i) d strat s) with (backend (DRef r) (DId i) (DRef r) (DId i) d strat s).
      fold (backend (DRef r) (DId i) (DRef r) (DId i) d strat). rewrite E1. unfold pbind in *. destruct (test true t (DRef (List.length s1)) (DRef (S (List.length s1))) true (s1 ++ [mkD xs (dK o); mkD b (dK o)])) as [s3 [v|e]]; exact K.
    - contradiction. }
  destruct Fin as (s' & res & K & U' & W' & H). unfold WorkModel.backend in K. exists s', res. split; [exact K|]. split; [exact U'|]. split; [exact W'|].
  destruct res as [p|e].
  - split; [exact N|]. exists xs, ys. split; [apply Parts_Data; assumption|exact H].
  - right. right. exists xs, ys. split; [apply Parts_Data; assumption|exact H].
Qed.

(** *** normalizing *)
Notation normalizeOne := (normalizeOne M pred scored order predicts).
Notation normalizeData := (normalizeData M fit pred scored order predicts multi).
Notation Normalized := (Normalized M fit pred scored order predicts).
Lemma upd_new s (a b : dobj) r : r = List.length s -> upd (s ++ [a]) r b = s ++ [b]. Proof. intros ->. apply upd_last. Qed.
Lemma normalizeOne_spec s r o t xs ys : WfStore s -> nth_error s r = Some o -> TrainedOn xs ys t -> (forall y, ys = Some y -> wf y) ->
  exists s' res, normalizeOne t r s = (s', res) /\ Unchanged s s' /\ WfStore s' /\
    match res with
    | Ok n => List.length s <= n /\ exists ra, nth_error s' n = Some ra /\ Normalized xs ys o ra
    | Err e => NoPrediction None xs ys (dT o) e
    end.
Proof.
  intros W Eo T Wy. unfold WorkModel.normalizeOne.
  destruct (apply_spec s (DRef r) t true None xs ys W (Present_some _ _ _ Eo) T Wy) as (s1 & res & A & U & W1 & H). destruct res as [p|e].
  2:{ rewrite (bind_err _ _ _ _ _ A). exists s1, (Err e). split; [reflexivity|]. split; [exact U|]. split; [exact W1|].
      destruct H as (_ & [B|[[B _]|(r' & o1 & [= <-] & E1 & Pr)]]).
      - exfalso. inversion B as [e0 Bt|Bd|m Em Bm|Bw Bm]; subst; [|discriminate|discriminate|congruence]. inversion Bt; subst; nope.
      - discriminate.
      - assert (o1 = o) by congruence. subst o1. exact Pr. }
  destruct H as (_ & -> & r' & o1 & o' & [= <-] & E1 & -> & Pr). assert (o1 = o) by congruence. subst o1. clear E1.
  rewrite (bind_ok _ _ _ _ _ A). rewrite (bind_ok _ _ _ _ _ (get_ok _ _ _ (nth_last s o'))). rewrite (bind_ok _ _ _ _ _ (get_ok _ _ _ (U _ _ Eo))).
  (* a store that ends in an object like [o'], of the kind of [o] *)
  assert (Wo' : wf (dT o')) by (destruct Pr as (m & q & _ & _ & _ & _ & _ & Wq & _); exact Wq).
  assert (K : exists s2 n on, (if dK o' =? dK o then pret (List.length s) else alloc (mkD (dT o') (dK o))) (s ++ [o']) = (s2 ++ [on], Ok n) /\ n = List.length s2 /\
     Unchanged s s2 /\ WfStore s2 /\ dT on = dT o' /\ dK on = dK o).
  { destruct (Nat.eqb_spec (dK o') (dK o)) as [Ek|Ek].
    - exists s, (List.length s), o'. split; [reflexivity|]. split; [reflexivity|]. split; [apply Unchanged_refl|]. auto.
    - exists (s ++ [o']), (List.length (s ++ [o'])), (mkD (dT o') (dK o)). split; [reflexivity|]. split; [reflexivity|]. split; [exact U|]. auto. }
  destruct K as (s2 & n & on & K & -> & U2 & W2 & T2 & K2). rewrite (bind_ok _ _ _ _ _ K). rewrite (bind_ok _ _ _ _ _ (get_ok _ _ _ (nth_last s2 on))).
  assert (L2 : List.length s <= List.length s2) by (apply Unchanged_len, U2).
  assert (We : forall q, wf (dT q) -> WfStore (s2 ++ [q])) by (intros q Wq; apply WfStore_app; [exact W2|]; intros z [<-|[]]; exact Wq).
  pose proof (WfStore_nth _ _ _ W Eo) as Wo.
  unfold fts. destruct (Nat.eqb_spec (alen (tf (dT on))) (alen (tf (dT o)))) as [Ef|Ef].
  - destruct Wo as (_ & _ & _ & If). destruct (setAll_same (tf (dT on)) (tf (dT o)) If Ef) as (a & Ea & La & Ia & Ga).
    unfold setFtNames. rewrite Ea. cbn [rbind].
    set (nn := mkD (mkTable (tp (dT on)) a (rows (dT on))) (dK on)).
    rewrite (bind_ok _ _ (s2 ++ [on]) (s2 ++ [on]) nn) by reflexivity.
    rewrite (bind_ok _ _ (s2 ++ [on]) (s2 ++ [nn]) tt) by (unfold put; rewrite upd_last; reflexivity).
    exists (s2 ++ [nn]), (Ok (List.length s2)). split; [reflexivity|]. split; [eapply Unchanged_trans; [exact U2|apply Unchanged_app]|].
    assert (Wn : wf (dT nn)). { unfold nn. cbn [dT]. rewrite T2 in *. rewrite <- (eta_tab (dT o')) in Wo'. eapply wf_tf; eauto. }
    split; [apply We, Wn|]. split; [exact L2|]. exists nn. split; [apply nth_last|]. exists o'. split; [exact Pr|]. unfold nn in *. cbn [dT dK tp tf rows] in *. rewrite T2 in *.
    split; [exact K2|]. split; [reflexivity|]. split; [exact Wn|]. split; [exact La|]. split; [reflexivity|]. split; [intros _; exact Ga|intros X; congruence].
  - exists (s2 ++ [on]), (Ok (List.length s2)). split; [reflexivity|]. split; [eapply Unchanged_trans; [exact U2|apply Unchanged_app]|].
    rewrite T2 in *. split; [apply We; rewrite T2; exact Wo'|]. split; [exact L2|]. exists on. split; [apply nth_last|]. exists o'. split; [exact Pr|]. rewrite T2.
    split; [exact K2|]. split; [reflexivity|]. split; [exact Wo'|]. split; [reflexivity|]. split; [reflexivity|]. split; [intros X; congruence|reflexivity].
Qed.
Definition NormalizeResult (s s' : store) (x y tx : darg) (res : result (nat * option nat)) : Prop :=
  match res with
  | Ok (a, b) => (forall e, ~ BadCall s x y tx DNone true None None e) /\ exists xs ys, DataAndLabels s x y xs ys /\
      (exists r o ra, x = DRef r /\ nth_error s r = Some o /\ nth_error s' a = Some ra /\ List.length s <= a /\ Normalized xs ys o ra) /\
      match b with
      | None => tx = DNone
      | Some b => exists r o rb, tx = DRef r /\ nth_error s r = Some o /\ nth_error s' b = Some rb /\ List.length s <= b /\ b <> a /\ Normalized xs ys o rb
      end
  | Err e => BadCall s x y tx DNone true None None e \/ NoFeature s x y e \/
      exists xs ys r o, DataAndLabels s x y xs ys /\ (DRef r = x \/ DRef r = tx) /\ nth_error s r = Some o /\ NoPrediction None xs ys (dT o) e
  end.
Lemma normalizeData_spec s x y tx : WfStore s -> Present s x -> Present s y -> Present s tx ->
  exists s' res, normalizeData x y tx s = (s', res) /\ Unchanged s s' /\ WfStore s' /\ NormalizeResult s s' x y tx res.
Proof.
  intros W Px Py Ptx. unfold WorkModel.normalizeData.
  destruct (validateLearning_spec s x y tx DNone true None None Px Py Ptx (Present_None s)) as [[V N]|[e [V B]]].
  2:{ rewrite (bind_err _ _ _ _ _ V). exists s, (Err e). split; [reflexivity|]. split; [apply Unchanged_refl|]. split; [exact W|]. left. exact B. }
  rewrite (bind_ok _ _ _ _ _ V). destruct (notBadTrain s x y) as [[r ->] F]; [intros e B; eapply N; apply bc_train; exact B|].
  destruct (notBadTest s tx DNone) as (Xt & _); [intros e B; eapply N; apply bc_test; exact B|].
  destruct (Present_nth _ _ Px) as [o Eo]. destruct (trainCore_spec s r o y true None W Eo Py F) as (s1 & res & T & U & W1 & A); [split; discriminate|].
  destruct res as [t|e].
  2:{ rewrite (bind_err _ _ _ _ _ T). exists s1, (Err e). split; [reflexivity|]. split; [exact U|]. split; [exact W1|]. right.
      destruct A as [A|(xs & ys & P & Tr)]; [left; exact A|right]. exists xs, ys, r, o. split; [apply Parts_Data; assumption|]. split; [auto|]. split; [exact Eo|]. apply np_fit, Tr. }
  rewrite (bind_ok _ _ _ _ _ T). destruct A as (xs & ys & P & Tr). destruct (Parts_wf _ _ _ _ _ W P) as [_ Wy].
  destruct (normalizeOne_spec s1 r o t xs ys W1 (U _ _ Eo) Tr Wy) as (s2 & res & K & U2 & W2 & H). destruct res as [a|e].
  2:{ rewrite (bind_err _ _ _ _ _ K). exists s2, (Err e). split; [reflexivity|]. split; [eapply Unchanged_trans; eauto|]. split; [exact W2|]. right. right.
      exists xs, ys, r, o. split; [apply Parts_Data; assumption|]. auto. }
  rewrite (bind_ok _ _ _ _ _ K). destruct H as [La (ra & Ea & Na)]. pose proof (Unchanged_len _ _ U) as L1. assert (La2 : a < List.length s2) by (apply nth_error_Some; congruence).
  destruct Xt as [->|[rt ->]].
  - exists s2, (Ok (a, None)). split; [reflexivity|]. split; [eapply Unchanged_trans; eauto|]. split; [exact W2|]. split; [exact N|].
    exists xs, ys. split; [apply Parts_Data; assumption|]. split; [|reflexivity]. exists r, o, ra. do 3 (split; [auto|]). split; [lia|exact Na].
  - destruct (Present_nth _ _ Ptx) as [ot Et]. destruct (normalizeOne_spec s2 rt ot t xs ys W2 (U2 _ _ (U _ _ Et)) Tr Wy) as (s3 & res & K3 & U3 & W3 & H). destruct res as [b|e].
    + rewrite (bind_ok _ _ _ _ _ K3). destruct H as [Lb (rb & Eb & Nb)]. exists s3, (Ok (a, Some b)). split; [reflexivity|].
      split; [eapply Unchanged_trans; [exact U|eapply Unchanged_trans; eauto]|]. split; [exact W3|]. split; [exact N|].
      exists xs, ys. split; [apply Parts_Data; assumption|]. split.
      * exists r, o, ra. do 2 (split; [auto|]). split; [apply U3, Ea|]. split; [lia|exact Na].
      * exists rt, ot, rb. do 3 (split; [auto|]). split; [lia|]. split; [lia|exact Nb].
    + rewrite (bind_err _ _ _ _ _ K3). exists s3, (Err e). split; [reflexivity|]. split; [eapply Unchanged_trans; [exact U|eapply Unchanged_trans; eauto]|]. split; [exact W3|]. right. right.
      exists xs, ys, rt, ot. split; [apply Parts_Data; assumption|]. auto.
Qed.
(** labels named by an identifier are never accepted here *)
Lemma normalizeData_id s x i tx : WfStore s -> Present s x -> Present s tx ->
  exists s' e, normalizeData x (DId i) tx s = (s', Err e).
Proof.
  intros W Px Ptx. assert (Py : Present s (DId i)) by (intros ? [=]).
  destruct (normalizeData_spec s x (DId i) tx W Px Py Ptx) as (s' & res & K & _ & _ & H). destruct res as [[a b]|e]; [exfalso|eauto].
  destruct H as (N & xs & ys & D & (r & o & ra & -> & Eo & _ & _ & o' & Pr & _) & _).
  assert (Ti : TextOrInt i) by (destruct (notBadTrain s (DRef r) (DId i)) as [_ F]; [intros e B; eapply N; apply bc_train; exact B|exact F]). inversion D; subst.
  match goal with S : Split _ _ _ _ |- _ => destruct S as (j & Dj & W1 & W2 & [L _] & _ & _ & I) end.
  assert (o0 = o) by congruence. subst o0. cbn [offax] in L. pose proof (WfStore_nth _ _ _ W Eo) as Wo. pose proof Wo as (_ & _ & _ & If).
  assert (Lt : List.length (items Fts xs) = alen (tf xs)) by (apply (items_length _ Fts xs W1)). rewrite I in Lt.
  assert (Lo : List.length (items Fts (dT o)) = alen (tf (dT o))) by (apply (items_length _ Fts (dT o) Wo)).
  assert (Lj : j < alen (tf (dT o))).
  { destruct Pr as (m & q & _ & Sh & _). destruct (cut (dT o) i) as [[a1 b1]|] eqn:C.
    - unfold cut in C. destruct (idx_case _ _ If Ti) as [(j' & Cj & Lj & D')|(e & Ce & _ & Nz)]; [|rewrite Ce in C; discriminate].
      assert (X : constructIndices (tf (dT o)) [i] = Ok [j]) by (apply constructIndices_Denotes; auto). congruence.
    - destruct (cut_none _ _ Wo Ti C) as (e & _ & Nz & _). exfalso. exact (Nz _ Dj). }
  rewrite survivors_length in Lt; [|repeat constructor; intros []|intros k [<-|[]]; lia]. cbn [List.length] in Lt.
  destruct Pr as (m & q & _ & Sh & _). destruct Sh as [Sh|[Sh1 Sh2]]; lia.
Qed.

(** *** training again *)
Notation retrain := (retrain M fit).
Definition RetrainResult (s : store) (x y : darg) (d : bool) (t : tlearner M) (res : result (tlearner M)) : Prop :=
  match res with
  | Ok t' => (forall e, ~ BadCall s x y DNone DNone d None None e) /\ exists xs ys, DataAndLabels s x y xs ys /\
       fit xs ys = Ok (tlM t') /\ tlShape t' = (alen (tp xs), alen (tf xs)) /\ tlY t' = tlY t /\ (tl2d t' = true <-> Wide s x y)
  | Err e => BadCall s x y DNone DNone d None None e \/ NoFeature s x y e \/ exists xs ys, DataAndLabels s x y xs ys /\ fit xs ys = Err e
  end.
Lemma retrain_spec s t x y d : WfStore s -> Present s x -> Present s y ->
  exists s' res, retrain t x y d s = (s', res) /\ Unchanged s s' /\ WfStore s' /\ RetrainResult s x y d t res.
Proof.
  intros W Px Py. unfold WorkModel.retrain.
  destruct (validateLearning_spec s x y DNone DNone d None None Px Py (Present_None s) (Present_None s)) as [[V N]|[e [V B]]].
  2:{ rewrite (bind_err _ _ _ _ _ V). exists s, (Err e). split; [reflexivity|]. split; [apply Unchanged_refl|]. split; [exact W|]. left. exact B. }
  rewrite (bind_ok _ _ _ _ _ V). destruct (notBadTrain s x y) as [[r ->] F]; [intros e B; eapply N; apply bc_train; exact B|].
  destruct (is2d_spec s (DRef r) y Px Py) as [b [Eb Hb]]. rewrite (bind_ok _ _ _ _ _ Eb). destruct (Present_nth _ _ Px) as [o Eo].
  destruct (separateTrain_spec s r o y W Eo Py F) as (s' & res & K & U & W' & A). unfold pbind in K.
  destruct (separate r y s) as [s1 [q|e]] eqn:Es.
  - rewrite (bind_ok _ _ _ _ _ Es). destruct res as [n|e].
    + rewrite (bind_ok _ _ _ _ _ K). exists s', (Ok (mkTL (tlM n) (tlShape n) (tlY t) b)). split; [reflexivity|]. split; [exact U|]. split; [exact W'|]. split; [exact N|].
      destruct A as (xs & ys & P & Fm & Sh & _ & _). exists xs, ys. split; [apply Parts_Data; assumption|]. cbn [tlM tlShape tlY tl2d]. auto.
    + rewrite (bind_err _ _ _ _ _ K). exists s', (Err e). split; [reflexivity|]. split; [exact U|]. split; [exact W'|]. right.
      destruct A as [A|(xs & ys & P & Fm)]; [left; exact A|right]. exists xs, ys. split; [apply Parts_Data; assumption|exact Fm].
  - injection K as <- <-. rewrite (bind_err _ _ _ _ _ Es). exists s1, (Err e). split; [reflexivity|]. split; [exact U|]. split; [exact W'|]. right.
    destruct A as [A|(xs & ys & P & Fm)]; [left; exact A|right]. exists xs, ys. split; [apply Parts_Data; assumption|exact Fm].
Qed.
End Work.

(** ** what the performance functions check *)
Section Perf.
Variable R : Type.
Variable func : table pval -> table pval -> result R.
Lemma anyMissing_spec t : anyMissing t = true <-> exists r v, In r (rows t) /\ In v r /\ (v = PNone \/ v = PNaN).
Proof.
  unfold anyMissing. rewrite existsb_exists. split.
  - intros [r [Hr H]]. apply existsb_exists in H. destruct H as [v [Hv H]]. apply MatchProofs.missing_spec in H. exists r, v. auto.
  - intros (r & v & Hr & Hv & H). exists r. split; [exact Hr|]. apply existsb_exists. exists v. split; [exact Hv|]. apply MatchProofs.missing_spec, H.
Qed.
End Perf.
