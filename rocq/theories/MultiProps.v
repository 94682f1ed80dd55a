(** Property C67: multiclass strategies.  Definitions used in the statements:
    MultiSpec.v (LabelSet, Relabelled, FirstBest, OneColumn, NumberCells,
    AnswersFor, NewTable, Votes, MostVoted, PairScores, Beats), TableSpec.v
    (cell, items, selected, survivors), NamesSpec.v (Denotes), GetSpec.v
    (NumberOf), MatchSpec.v (Same, IsNumber). *)
From Verif Require Import Base NamesModel NamesSpec NamesProofs TableModel TableSpec TableProofs TableOps MatchModel MatchSpec MatchProofs ElementsModel
  BinOpProps StretchProps LearnModel GetSpec MultiModel MultiSpec MultiProofs MultiOvoProofs MultiTrainProofs.
From Coq Require Import QArith Sorted Lia Ascii String List.
Open Scope char_scope. Open Scope string_scope. Open Scope list_scope. Open Scope nat_scope.

(** OneVsAll training: one learner per distinct label, in the order of the set,
    each trained on the same data with its label turned into 1 and every other
    label into 0.  It fails only for data without points or when training one
    of these learners fails. *)
Theorem C67_ova_train : forall intOf floatOf strOf setOrder fit (x y : table pval), wf y -> 0 < alen (tf y) -> (forall l, LabelSet l (setOrder l)) ->
  match ovaTrain intOf floatOf strOf setOrder fit x (YObj y) with
  | Ok ls => ls <> [] /\ (exists labels, (forall i, nth_error labels i = cell y i 0) /\ LabelSet labels (map fst ls)) /\
      forall l m, In (l, m) ls -> exists y', Relabelled y l y' /\ fit x y' = Ok m
  | Err e => (alen (tp y) = 0 /\ e = IndexErr) \/ exists i l y', cell y i 0 = Some l /\ Relabelled y l y' /\ fit x y' = Err e
  end.
Proof. exact ovaTrain_obj. Qed.
Print Assumptions C67_ova_train.
(** Labels named as a feature of the data: that feature is taken out. *)
Theorem C67_ova_train_feature : forall intOf floatOf strOf setOrder fit (x : table pval) id j, wf x -> Denotes (tf x) false id (Z.of_nat j) ->
  exists xs ys, wf xs /\ wf ys /\ sameOff Fts x xs /\ sameOff Fts x ys /\ items Fts ys = selected [j] (items Fts x) /\ items Fts xs = survivors [j] (items Fts x) /\
    ovaTrain intOf floatOf strOf setOrder fit x (YId id) = ovaTrain intOf floatOf strOf setOrder fit xs (YObj ys).
Proof. exact ovaTrain_id. Qed.
Print Assumptions C67_ova_train_feature.

(** OneVsAll results: each point gets the label of the first learner with the
    highest answer.  [norm] is what nimble.data does to a value. *)
Theorem C67_ova_predict_partial : forall strLabel sleb norm test n pn ls rs, ls <> [] ->
  Forall2 (fun (p : pval * applier) r => snd p test = Ok r /\ OneColumn n pn r) ls rs ->
  NoDup (map (fun p => strLabel (fst p)) ls) -> (forall r, In r rs -> NumberCells r) ->
  exists r, ovaApply strLabel sleb norm ls test None = Ok r /\
  NewTable r n ["winningLabel"] (fun i row => exists answers k l, AnswersFor rs i answers /\ FirstBest answers k /\
    nth_error (map fst ls) k = Some l /\ row = [norm l]).
Proof. exact ovaPredict_spec. Qed.
Print Assumptions C67_ova_predict_partial.
Theorem C67_ova_best_partial : forall strLabel sleb norm test n pn ls rs, ls <> [] ->
  Forall2 (fun (p : pval * applier) r => snd p test = Ok r /\ OneColumn n pn r) ls rs ->
  NoDup (map (fun p => strLabel (fst p)) ls) -> (forall r, In r rs -> NumberCells r) ->
  exists r, ovaApply strLabel sleb norm ls test (Some MBest) = Ok r /\
  NewTable r n ["PredictedClassLabel"; "LabelScore"] (fun i row => exists answers k l score, AnswersFor rs i answers /\ FirstBest answers k /\
    nth_error (map fst ls) k = Some l /\ nth_error answers k = Some score /\ row = [norm (PStr (strLabel l)); norm score]).
Proof. exact ovaBest_spec. Qed.
Print Assumptions C67_ova_best_partial.
(** All scores: one feature per label, named by the label, in string order. *)
Theorem C67_ova_all_partial : forall strLabel sleb norm test n pn ls rs, ls <> [] ->
  Forall2 (fun (p : pval * applier) r => snd p test = Ok r /\ OneColumn n pn r) ls rs ->
  NoDup (map (fun p => strLabel (fst p)) ls) -> (forall r, In r rs -> NumberCells r) ->
  exists r headers, ovaApply strLabel sleb norm ls test (Some MAll) = Ok r /\
  headers = stableSort sleb (map (fun p => strLabel (fst p)) ls) /\
  NewTable r n headers (fun i row => exists answers, AnswersFor rs i answers /\
    forall k l score j, nth_error (map fst ls) k = Some l -> nth_error answers k = Some score ->
      nth_error headers j = Some (strLabel l) -> nth_error row j = Some (norm score)).
Proof. exact ovaAll_spec. Qed.
Print Assumptions C67_ova_all_partial.
Theorem C67_ova_other_mode : forall strLabel sleb norm test n pn ls rs, ls <> [] ->
  Forall2 (fun (p : pval * applier) r => snd p test = Ok r /\ OneColumn n pn r) ls rs ->
  NoDup (map (fun p => strLabel (fst p)) ls) -> ovaApply strLabel sleb norm ls test (Some MOther) = Err InvalidArgumentValue.
Proof. exact ovaOther_spec. Qed.
Print Assumptions C67_ova_other_mode.

(** OneVsOne results: each point gets the label with the most votes; of several,
    the one voted for first.  The points keep their names. *)
Theorem C67_ovo_predict : forall sleb norm predictionName floatStr test n pn ls rs labelSet, ls <> [] ->
  Forall2 (fun (m : applier) r => m test = Ok r /\ OneColumn n pn r) ls rs ->
  (forall a b, predictionName a = predictionName b -> a = b) ->
  (forall r s j, In r rs -> In (Some s) (getNames (tf r)) -> s <> predictionName (S j)) ->
  (forall r i, In r rs -> cell r i 0 <> Some PNaN) ->
  exists r, ovoApply sleb norm predictionName floatStr labelSet ls test None = Ok r /\
  wf r /\ alen (tp r) = n /\ getNames (tp r) = pn /\ getNames (tf r) = [Some "winningLabel"] /\
  forall i row, nth_error (rows r) i = Some row -> exists answers l c, AnswersFor rs i answers /\ MostVoted answers l c /\ row = [norm l].
Proof. exact ovoPredict_spec. Qed.
Print Assumptions C67_ovo_predict.
Theorem C67_ovo_best : forall sleb norm predictionName floatStr test n pn ls rs labelSet, ls <> [] ->
  Forall2 (fun (m : applier) r => m test = Ok r /\ OneColumn n pn r) ls rs ->
  (forall a b, predictionName a = predictionName b -> a = b) ->
  (forall r s j, In r rs -> In (Some s) (getNames (tf r)) -> s <> predictionName (S j)) ->
  (forall r i, In r rs -> cell r i 0 <> Some PNaN) ->
  exists r, ovoApply sleb norm predictionName floatStr labelSet ls test (Some MBest) = Ok r /\
  NewTable r n ["PredictedClassLabel"; "LabelScore"] (fun i row => exists answers l c, AnswersFor rs i answers /\ MostVoted answers l c /\ row = [norm l; norm (PInt (Z.of_nat c))]).
Proof. exact ovoBest_spec. Qed.
Print Assumptions C67_ovo_best.
(** All scores: for every label the number of its votes.  [floatStr l] is
    [str(float(l))]. *)
Theorem C67_ovo_all_partial : forall sleb norm predictionName floatStr test n pn ls rs labelSet, ls <> [] ->
  Forall2 (fun (m : applier) r => m test = Ok r /\ OneColumn n pn r) ls rs ->
  (forall a b, predictionName a = predictionName b -> a = b) ->
  (forall r s j, In r rs -> In (Some s) (getNames (tf r)) -> s <> predictionName (S j)) ->
  (forall r i, In r rs -> cell r i 0 <> Some PNaN) ->
  forall hs, Forall2 (fun l s => floatStr l = Ok s) labelSet hs -> NoDup hs ->
  (forall r i v, In r rs -> cell r i 0 = Some v -> exists l, In l labelSet /\ Same l v) ->
  (forall a b, Same a b -> floatStr a = floatStr b) ->
  exists r, ovoApply sleb norm predictionName floatStr labelSet ls test (Some MAll) = Ok r /\
  NewTable r n (stableSort sleb hs) (fun i row => exists answers, AnswersFor rs i answers /\
    forall k l s j c, nth_error labelSet k = Some l -> nth_error hs k = Some s -> nth_error (stableSort sleb hs) j = Some s ->
      Votes l answers c -> nth_error row j = Some (norm (PInt (Z.of_nat c)))).
Proof. exact ovoAll_spec. Qed.
Print Assumptions C67_ovo_all_partial.

(** Raw scores to one score per label: two labels with a single score [s] give
    -s and s; OneVsAll scores stay as they are (the trial with four labels sees
    four scores); OneVsOne scores (the trial sees six) give each label the part
    of its n - 1 comparisons it wins. *)
Theorem C67_format_binary : forall raw, (forall r, In r raw -> List.length r = 1) -> forall trial vote,
  exists out, formatScores 2 1 trial vote raw = Ok out /\ Forall2 (fun r o => exists s, r = [s] /\ o = [inject_Z (- s); inject_Z s]) raw out.
Proof. exact format_binary. Qed.
Print Assumptions C67_format_binary.
Theorem C67_format_ova : forall n raw vote, 2 <= n -> formatScores n n 4 vote raw = Ok (map (map inject_Z) raw).
Proof. exact format_ova. Qed.
Print Assumptions C67_format_ova.
Theorem C67_format_ovo : forall n width raw vote, 3 <= n -> width * 2 = n * (n - 1) -> (forall r, In r raw -> exists score, PairScores n r score) ->
  exists out, formatScores n width 6 vote raw = Ok out /\
    Forall2 (fun r o => exists score, PairScores n r score /\ List.length o = n /\ forall k, k < n -> exists w, NumberOf (Beats score k) (seq 0 n) w /\
      nth_error o k = Some (inject_Z (Z.of_nat w) / inject_Z (Z.of_nat (n - 1)))%Q) raw out.
Proof. exact format_ovo. Qed.
Print Assumptions C67_format_ovo.

(** Test data is accepted exactly when it has as many features as the training
    data, or both are square. *)
Theorem C67_test_data : forall shape points features, validTestData shape points features = Ok tt <->
  match shape with None => True | Some (np, nf) => features = nf \/ (np = nf /\ points = features) end.
Proof. exact validTestData_spec. Qed.
Print Assumptions C67_test_data.

(** *** Concrete cases *)
Definition exStr (v : pval) : string := match v with PInt 0 => "0" | PInt 1 => "1" | PInt 2 => "2" | PStr s => s | _ => "?" end.
Definition exLe (a b : string) : bool := match String.compare a b with Gt => false | _ => true end.
Definition exTest : table pval := tab57 [Some "p"; Some "q"] [Some "a"] [[PInt 5]; [PInt 6]].
Definition answers (l : list pval) : applier := fun t => Ok (mkTable (tp t) (mkAxis 1 None) (map (fun v => [v]) l)).
Definition exOva : list (pval * applier) := [(PInt 2, answers [PInt 0; PInt 1]); (PInt 0, answers [PFloat (1 # 2); PInt 1]); (PInt 1, answers [PFloat (1 # 2); PInt 0])].
Definition colT (l : list pval) : table pval := mkTable (tp exTest) (mkAxis 1 None) (map (fun v => [v]) l).
Lemma colT_ok a b : OneColumn 2 [Some "p"; Some "q"] (colT [a; b]).
Proof.
  assert (W : wf exTest) by (apply tab57_wf; [reflexivity|cbn; intros r Hr; repeat (destruct Hr as [<-|Hr]; [reflexivity|]); destruct Hr]).
  destruct W as [W1 [_ [W3 _]]]. split; [|split; [reflexivity|split; reflexivity]]. split; [reflexivity|]. split; [|split; [exact W3|exact Logic.I]].
  intros r [<-|[<-|[]]]; reflexivity.
Qed.
Lemma colT_num a b p q : IsNumber a p -> IsNumber b q -> NumberCells (colT [a; b]).
Proof.
  intros HA HB i j v H. destruct i as [|[|i]]; destruct j as [|j]; cbn in H; try (destruct j; discriminate); try (destruct i; discriminate); try (injection H as <-; eauto).
Qed.
Example ex_ova_hyps : Forall2 (fun (p : pval * applier) r => snd p exTest = Ok r /\ OneColumn 2 [Some "p"; Some "q"] r) exOva
    [colT [PInt 0; PInt 1]; colT [PFloat (1 # 2); PInt 1]; colT [PFloat (1 # 2); PInt 0]] /\
  NoDup (map (fun p => exStr (fst p)) exOva) /\
  (forall r, In r [colT [PInt 0; PInt 1]; colT [PFloat (1 # 2); PInt 1]; colT [PFloat (1 # 2); PInt 0]] -> NumberCells r).
Proof.
  split; [do 3 (constructor; [split; [reflexivity|apply colT_ok]|]); constructor|]. split; [cbn; do 3 (constructor; [cbn; intuition discriminate|]); constructor|].
  intros r [<-|[<-|[<-|[]]]]; eapply colT_num; constructor.
Qed.
Definition rowsOf (r : result (table pval)) : option (list (list pval)) := match r with Ok t => Some (rows t) | Err _ => None end.
Example ex_ova_run : rowsOf (ovaApply exStr exLe (fun v => v) exOva exTest None) = Some [[PInt 0]; [PInt 2]] /\
  rowsOf (ovaApply exStr exLe (fun v => v) exOva exTest (Some MBest)) = Some [[PStr "0"; PFloat (1 # 2)]; [PStr "2"; PInt 1]] /\
  rowsOf (ovaApply exStr exLe (fun v => v) exOva exTest (Some MAll)) = Some [[PFloat (1 # 2); PFloat (1 # 2); PInt 0]; [PInt 1; PInt 0; PInt 1]].
Proof. repeat split; vm_compute; reflexivity. Qed.
Fixpoint exPred (k : nat) : string := match k with O => "predictions-" | S k => String "x"%char (exPred k) end.
Lemma exPred_inj : forall a b, exPred a = exPred b -> a = b.
Proof. induction a as [|a IH]; intros [|b] H; cbn in H; try discriminate; auto. injection H as H. f_equal; auto. Qed.
Definition exFloat (v : pval) : result string := match v with PInt 0 | PFloat (0 # 1) => Ok "0.0" | PInt 1 => Ok "1.0" | PInt 2 => Ok "2.0" | _ => Err ValueErr end.
Definition exOvo : list applier := [answers [PInt 0; PInt 1]; answers [PInt 2; PInt 0]; answers [PInt 2; PInt 2]].
Definition exOvoR : list (table pval) := [colT [PInt 0; PInt 1]; colT [PInt 2; PInt 0]; colT [PInt 2; PInt 2]].
Example ex_ovo_hyps : Forall2 (fun (m : applier) r => m exTest = Ok r /\ OneColumn 2 [Some "p"; Some "q"] r) exOvo exOvoR /\
  (forall r s j, In r exOvoR -> In (Some s) (getNames (tf r)) -> s <> exPred (S j)) /\ (forall r i, In r exOvoR -> cell r i 0 <> Some PNaN) /\
  (forall r i v, In r exOvoR -> cell r i 0 = Some v -> exists l, In l [PInt 0; PInt 1; PInt 2] /\ Same l v).
Proof.
  split; [do 3 (constructor; [split; [reflexivity|apply colT_ok]|]); constructor|]. split; [intros r s j [<-|[<-|[<-|[]]]] [C|[]]; discriminate|].
  split; [intros r i [<-|[<-|[<-|[]]]]; destruct i as [|[|[|i]]]; cbn; discriminate|].
  assert (S0 : forall z, Same (PInt z) (PInt z)) by (intros z; apply pyEq_spec, pyEq_self; discriminate).
  intros r i v [<-|[<-|[<-|[]]]]; destruct i as [|[|[|i]]]; cbn; intros H; try discriminate; injection H as <-; eexists; (split; [|apply S0]); cbn; auto.
Qed.
Example ex_ovo_run : rowsOf (ovoApply exLe (fun v => v) exPred exFloat [PInt 0; PInt 1; PInt 2] exOvo exTest None) = Some [[PInt 2]; [PInt 1]] /\
  rowsOf (ovoApply exLe (fun v => v) exPred exFloat [PInt 0; PInt 1; PInt 2] exOvo exTest (Some MBest)) = Some [[PInt 2; PInt 2]; [PInt 1; PInt 1]] /\
  rowsOf (ovoApply exLe (fun v => v) exPred exFloat [PInt 0; PInt 1; PInt 2] exOvo exTest (Some MAll)) = Some [[PInt 1; PInt 0; PInt 2]; [PInt 1; PInt 1; PInt 1]].
Proof. repeat split; vm_compute; reflexivity. Qed.
Example ex_pair_scores : PairScores 3 [4; -1; 2]%Z (fun a b => match a, b with 0, 1 => 4%Z | 0, 2 => (-1)%Z | 1, 2 => 2%Z | _, _ => 0%Z end) /\
  formatScores 3 3 6 (Ok None) [[4; -1; 2]%Z] = Ok [[1 # 2; 1 # 2; 1 # 2]]%Q.
Proof.
  split; [|vm_compute; reflexivity]. exists [(0, 1); (0, 2); (1, 2)]. split; [reflexivity|]. split; [|split].
  - intros [|[|[|k]]] a b H; cbn in H; try (destruct k; discriminate); injection H as <- <-; split; (lia || reflexivity).
  - intros a b H. destruct a as [|[|[|a]]], b as [|[|[|b]]]; try lia; [exists 0|exists 1|exists 2]; reflexivity.
  - repeat constructor; cbn; lia.
Qed.
(** Training: a learner that remembers its labels. *)
Definition exFit (x y : table pval) : result applier := Ok (fun t => Ok (mkTable (tp t) (mkAxis 1 None) (rows y))).
Definition exY : table pval := tab57 [Some "p"; Some "q"] [Some "y"] [[PInt 1]; [PInt 0]].
Definition exOrder (l : list pval) : list pval := match l with [a; b] => if pyEq a b then [a] else [a; b] | _ => l end.
Example ex_train_run : match ovaTrain (fun _ => None) (fun _ => None) exStr exOrder exFit exTest (YObj exY) with
  | Ok ls => map fst ls = [PInt 1; PInt 0] /\ map (fun p => rowsOf (snd p exTest)) ls = [Some [[PInt 1]; [PInt 0]]; Some [[PInt 0]; [PInt 1]]] /\
      rowsOf (ovaApply exStr exLe (fun v => v) ls exTest None) = Some [[PInt 1]; [PInt 0]]
  | Err _ => False end.
Proof. vm_compute. repeat split. Qed.

(** *** Where the code falls short *)
(** OneVsAll predictions have lost the names of the points, which OneVsOne
    keeps. *)
Theorem C67_ova_point_names_refuted : exists ls test r, getNames (tp test) = [Some "p"; Some "q"] /\
  Forall (fun p : pval * applier => exists r, snd p test = Ok r /\ getNames (tp r) = getNames (tp test)) ls /\
  ovaApply exStr exLe (fun v => v) ls test None = Ok r /\ getNames (tp r) = [None; None].
Proof.
  exists exOva, exTest. eexists. split; [reflexivity|]. split; [repeat constructor; eexists; split; reflexivity|]. split; [vm_compute; reflexivity|reflexivity].
Qed.
Print Assumptions C67_ova_point_names_refuted.
(** Labels that differ but read the same (1 and "1") train, and then every
    prediction fails. *)
Theorem C67_label_text_refuted : exists ls test, ~ Same (PInt 1) (PStr "1") /\ map fst ls = [PInt 1; PStr "1"] /\
  Forall (fun p : pval * applier => exists r, snd p test = Ok r) ls /\
  forall norm mode, ovaApply exStr exLe norm ls test mode = Err InvalidArgumentValue.
Proof.
  exists [(PInt 1, answers [PInt 0; PInt 1]); (PStr "1", answers [PInt 1; PInt 0])], exTest. split; [intros C; apply pyEq_spec in C; discriminate|].
  split; [reflexivity|]. split; [repeat constructor; eexists; reflexivity|]. intros norm mode. vm_compute. reflexivity.
Qed.
Print Assumptions C67_label_text_refuted.
(** With equal scores the prediction depends on the order of the set of labels,
    which for strings changes from run to run. *)
Theorem C67_set_order_refuted : exists x y test fit (o o' : list pval -> list pval),
  LabelSet (column y 0) (o (column y 0)) /\ LabelSet (column y 0) (o' (column y 0)) /\
  exists ls ls', ovaTrain (fun _ => None) (fun _ => None) exStr o fit x (YObj y) = Ok ls /\ ovaTrain (fun _ => None) (fun _ => None) exStr o' fit x (YObj y) = Ok ls' /\
    rowsOf (ovaApply exStr exLe (fun v => v) ls test None) = Some [[PStr "a"]; [PStr "a"]] /\
    rowsOf (ovaApply exStr exLe (fun v => v) ls' test None) = Some [[PStr "b"]; [PStr "b"]].
Proof.
  exists exTest, (tab57 [None; None] [Some "y"] [[PStr "a"]; [PStr "b"]]), exTest, (fun _ _ => Ok (answers [PInt 1; PInt 1])), (fun l => l), (@rev pval).
  assert (N : ~ Same (PStr "a") (PStr "b")) by (intros C; apply pyEq_spec in C; discriminate).
  assert (N' : ~ Same (PStr "b") (PStr "a")) by (intros C; apply pyEq_spec in C; discriminate).
  split; [|split].
  - split; [auto|]. split; [intros v Hv; exists v; split; auto; apply pyEq_spec, pyEq_self; intros ->; destruct Hv as [C|[C|[]]]; discriminate|].
    intros [|[|i]] [|[|j]] v w; cbn; intros Hi Hj HS; auto; try (destruct i; discriminate); try (destruct j; discriminate); injection Hi as <-; injection Hj as <-; contradiction.
  - split; [cbn; tauto|]. split; [intros v Hv; exists v; split; [cbn in *; tauto|]; apply pyEq_spec, pyEq_self; intros ->; destruct Hv as [C|[C|[]]]; discriminate|].
    intros [|[|i]] [|[|j]] v w; cbn; intros Hi Hj HS; auto; try (destruct i; discriminate); try (destruct j; discriminate); injection Hi as <-; injection Hj as <-; contradiction.
  - eexists. eexists. split; [vm_compute; reflexivity|]. split; [vm_compute; reflexivity|]. split; vm_compute; reflexivity.
Qed.
Print Assumptions C67_set_order_refuted.
(** bestScore reports the text of the label where the prediction has the label
    itself. *)
Theorem C67_best_label_text_refuted : exists ls test, rowsOf (ovaApply exStr exLe (fun v => v) ls test None) = Some [[PInt 0]; [PInt 2]] /\
  rowsOf (ovaApply exStr exLe (fun v => v) ls test (Some MBest)) = Some [[PStr "0"; PFloat (1 # 2)]; [PStr "2"; PInt 1]].
Proof. exists exOva, exTest. split; vm_compute; reflexivity. Qed.
Print Assumptions C67_best_label_text_refuted.
(** A label nimble.data takes for a missing value ("NA") is predicted as nan. *)
Theorem C67_missing_label_refuted : exists ls test, In (PStr "NA") (map fst ls) /\
  rowsOf (ovaApply exStr exLe (fun v => match v with PStr "NA" => PNaN | _ => v end) ls test None) = Some [[PNaN]; [PStr "b"]].
Proof. exists [(PStr "NA", answers [PInt 1; PInt 0]); (PStr "b", answers [PInt 0; PInt 1])], exTest. split; [left; reflexivity|vm_compute; reflexivity]. Qed.
Print Assumptions C67_missing_label_refuted.
(** OneVsOne allScores needs numbers as labels, although predicting works. *)
Theorem C67_ovo_string_labels_refuted : exists ls test labels, rowsOf (ovoApply exLe (fun v => v) exPred exFloat labels ls test None) = Some [[PStr "a"]; [PStr "b"]] /\
  ovoApply exLe (fun v => v) exPred exFloat labels ls test (Some MAll) = Err ValueErr.
Proof. exists [answers [PStr "a"; PStr "b"]], exTest, [PStr "a"; PStr "b"]. split; vm_compute; reflexivity. Qed.
Print Assumptions C67_ovo_string_labels_refuted.
