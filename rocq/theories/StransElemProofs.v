(** Proofs for C81: transformElements of Sparse objects with a function that keeps zeros. *)
From Verif Require Import Base NamesModel NamesSpec NamesProofs TableModel TableSpec TableProofs TableOps TableOpsProofs TableOps3Proofs SparseModel SparseSpec MatchModel MatchSpec MatchProofs GetSpec GetCountProofs
  ElementsModel ElementsSpec ElementsProofs ElementsCalcProofs CopyModel CopySpec CopyProofs TypedModel TypedSpec TypedProofs TypedTransformProofs StransModel StransSpec StransProofs.
From Coq Require Import List String QArith Lia. Import ListNotations.
Open Scope nat_scope.
Notation len := List.length.
Lemma isDBool d : d = DBool \/ d <> DBool.
Proof. destruct d; auto; right; discriminate. Qed.
Lemma dmax_fold l : forall a v, v = a \/ In v l -> Below v (fold_left dmax l a).
Proof.
  induction l as [|b l IH]; intros a v H; cbn.
  - destruct H as [->|[]]. apply Below_refl.
  - destruct H as [->|[->|H]]; [|apply (Below_trans v (dmax a v)); [apply dmax_r|]; apply IH; auto|apply IH; auto].
    apply (Below_trans a (dmax a b)); [apply dmax_l|apply IH; auto].
Qed.
Lemma zero_same0 : Same (PInt 0) (PInt 0).
Proof. apply (same_num _ _ (inject_Z 0) (inject_Z 0)); [constructor|constructor|reflexivity]. Qed.
Lemma same_el v : SameElement v v.
Proof. apply same_refl. Qed.
Section S.
Variable floatOf : string -> option pval.
Variable intOf : string -> option Z.
Notation modifyArray := (StransModel.modifyArray floatOf intOf).
Notation storedLoop := (StransModel.storedLoop floatOf intOf).
Notation renumber := (StransModel.renumber floatOf intOf).
Lemma castL_up a b l : Below a b -> Forall (OfDt a) l -> exists l', rmapM (TypedModel.castTo floatOf intOf b) l = Ok l' /\ SameList l l' /\ Forall (OfDt b) l'.
Proof. intros B F. apply castList_fits. intros v I. rewrite Forall_forall in F. eapply OfDt_up; [apply F; exact I|exact B]. Qed.
Lemma modify_spec d data k w : d <> DBool -> Forall (OfDt d) data -> k < len data ->
  exists d' data', modifyArray d data k w = Ok (d', data') /\ d' <> DBool /\ Forall (OfDt d') data' /\ len data' = len data /\
    (forall j v, j <> k -> nth_error data j = Some v -> exists u, nth_error data' j = Some u /\ SameElement v u) /\
    exists u, nth_error data' k = Some u /\ Returned w u.
Proof.
  intros ND FD Hk. unfold StransModel.modifyArray. cbn zeta.
  set (d' := match d with DObj => DObj | _ => _ end).
  assert (B : Below d d' /\ Below (valueDt w) d' /\ d' <> DBool).
  { destruct d; [contradiction| | |]; destruct w; cbn; repeat split; try exact Logic.I; discriminate. }
  clearbody d'. destruct B as (B1 & B2 & B3).
  destruct (castL_up d d' data B1 FD) as (l & E & SL & OL). rewrite E. cbn [rbind].
  destruct (cast_returned floatOf intOf d' w B2) as (u & C & OU & RU). rewrite C. cbn [rbind].
  pose proof (F2len _ _ _ SL) as LL. exists d', (upd l k u). split; [reflexivity|]. split; [exact B3|]. split; [apply Forall_upd; auto|]. split; [rewrite upd_length; auto|]. split.
  - intros j v NJ H. rewrite nth_error_upd_other by auto. destruct (F2nth _ _ _ _ _ SL H) as (u' & A & S'). eauto.
  - exists u. split; [apply nth_error_upd_same; rewrite <- LL; exact Hk|exact RU].
Qed.
Section Loop.
Variables (g : pval -> nat -> nat -> result pval) (ps fs : option (list nat)) (es : list (entry pval)).
Definition within (e : entry pval) : bool := negb (outside ps (er e) || outside fs (ec e)).
Definition Rel (done : bool) (e : entry pval) (u : pval) : Prop :=
  if done && within e then exists w, g (ev e) (er e) (ec e) = Ok w /\ Returned w u else SameElement (ev e) u.
Definition Upto (stop : nat) (data : list pval) : Prop :=
  forall j e, nth_error es j = Some e -> exists u, nth_error data j = Some u /\ Rel (j <? stop) e u.
Lemma storedLoop_spec : forall todo k d data, (exists pre, es = pre ++ todo /\ len pre = k) -> d <> DBool -> Forall (OfDt d) data -> len data = len es -> Upto k data ->
  exists d' data' r stop, storedLoop g ps fs k todo d data = ((d', data'), r) /\ d' <> DBool /\ Forall (OfDt d') data' /\ len data' = len es /\ Upto stop data' /\
    match r with
    | Ok _ => stop = len es
    | Err x => exists e, nth_error es stop = Some e /\ within e = true /\ g (ev e) (er e) (ec e) = Err x
    end.
Proof.
  induction todo as [|e todo IH]; intros k d data (pre & EE & LP) ND FD LD U.
  - exists d, data, (Ok tt), k. cbn. split; [reflexivity|]. split; [exact ND|]. split; [exact FD|]. split; [exact LD|]. split; [exact U|]. rewrite app_nil_r in EE. rewrite EE. symmetry. exact LP.
  - assert (HK : nth_error es k = Some e). { rewrite EE, nth_error_app2 by lia. rewrite LP, Nat.sub_diag. reflexivity. }
    assert (PRE : exists pre', es = pre' ++ todo /\ len pre' = S k). { exists (pre ++ [e]). rewrite <- app_assoc. split; [exact EE|]. rewrite app_length. cbn. lia. }
    cbn [StransModel.storedLoop]. destruct (outside ps (er e) || outside fs (ec e)) eqn:O.
    + apply IH; auto. intros j e' H. destruct (U j e' H) as (u & A & R). exists u. split; auto. destruct (Nat.eq_dec j k) as [->|NJ].
      * assert (e' = e) by congruence. subst e'. unfold Rel in *. unfold within in *. rewrite O in *. cbn [negb] in *. rewrite andb_false_r in *. exact R.
      * replace (j <? S k) with (j <? k); auto. destruct (j <? k) eqn:A1, (j <? S k) eqn:A2; auto; rewrite ?Nat.ltb_lt, ?Nat.ltb_ge in *; lia.
    + destruct (g (ev e) (er e) (ec e)) as [w|x] eqn:G.
      * assert (Hk : k < len data) by (rewrite LD; exact (nth_error_lt _ _ HK)).
        destruct (modify_spec d data k w ND FD Hk) as (d' & data' & -> & ND' & FD' & LD' & OTH & (u & HU & RU)).
        apply IH; auto; [congruence|]. intros j e' H. destruct (Nat.eq_dec j k) as [->|NJ].
        -- assert (e' = e) by congruence. subst e'. exists u. split; auto. unfold Rel, within. rewrite O. replace (k <? S k) with true by (symmetry; apply Nat.ltb_lt; lia). cbn. eauto.
        -- destruct (U j e' H) as (u' & A & R). destruct (OTH j u' NJ A) as (u2 & A2 & S2). exists u2. split; auto.
           replace (j <? S k) with (j <? k) by (destruct (j <? k) eqn:A1, (j <? S k) eqn:A3; auto; rewrite ?Nat.ltb_lt, ?Nat.ltb_ge in *; lia).
           unfold Rel in *. destruct ((j <? k) && within e'); [|eapply SameElement_trans; eauto]. destruct R as (w' & G' & R). exists w'. split; auto. eapply Returned_same; eauto.
      * exists d, data, (Err x), k. split; [reflexivity|]. split; auto. split; auto. split; auto. split; auto. exists e. split; auto. split; auto. unfold within. rewrite O. reflexivity.
Qed.
End Loop.
Lemma renumber_spec d data : d <> DBool -> Forall (OfDt d) data -> exists d' data', renumber d data = Ok (d', data') /\ SameList data data' /\ Forall (OfDt d') data'.
Proof.
  intros ND FD. unfold StransModel.renumber. destruct (allNumbers d data) eqn:A; [|exists d, data; split; [reflexivity|]; split; [apply SameList_refl|exact FD]].
  cbn zeta. set (d' := match map valueDt data with [] => _ | _ => _ end).
  assert (B : forall v, In v data -> Below (valueDt v) d').
  { intros v I. unfold d'. destruct (map valueDt data) as [|a l] eqn:E; [destruct data; [destruct I|discriminate]|]. apply dmax_fold. assert (J : In (valueDt v) (a :: l)) by (rewrite <- E; apply in_map; exact I). destruct J as [->|J]; auto. }
  destruct (castList_fits floatOf intOf d' data) as (l & E & SL & OL).
  { intros v I. apply (OfDt_up (valueDt v)); [|apply B; exact I]. assert (AV : match v with PStr _ | PNone => false | _ => true end = true).
    { unfold allNumbers in A. destruct d; [contradiction| | |]; rewrite forallb_forall in A; apply (A v I). }
    destruct v; try discriminate; cbn; eauto. }
  rewrite E. cbn. eauto.
Qed.
Lemma withData_in es data i j w : len data = len es -> (In (mkE i j w) (withData es data) <-> exists k e, nth_error es k = Some e /\ er e = i /\ ec e = j /\ nth_error data k = Some w).
Proof.
  unfold withData. revert data. induction es as [|e es IH]; intros [|v data] L; try discriminate.
  - cbn. split; [intros []|]. intros (k & e & H & _). destruct k; discriminate.
  - cbn [combine map In fst snd]. rewrite (IH data) by (cbn in L; lia). split.
    + intros [[= <- <- <-]|(k & e' & A)]; [exists 0, e; auto|exists (S k), e'; exact A].
    + intros ([|k] & e' & A & B & C & D); [left; injection A as ->; injection D as ->; subst; reflexivity|right; exists k, e'; auto].
Qed.
Lemma withData_pos es data : len data = len es -> map (@pos pval) (withData es data) = map (@pos pval) es.
Proof. unfold withData. revert data. induction es as [|e es IH]; intros [|v data] L; try discriminate; [reflexivity|]. cbn. f_equal. apply IH. cbn in L; lia. Qed.
Lemma NoDup_map_filter {A B} (f : A -> B) p l : NoDup (map f l) -> NoDup (map f (filter p l)).
Proof.
  induction l as [|a l IH]; cbn; intros N; auto. inversion N as [|? ? N1 N2]; subst. destruct (p a); cbn; auto. constructor; auto.
  intros I. apply N1. apply in_map_iff in I. destruct I as (y & <- & I). apply filter_In in I. apply in_map. apply I.
Qed.
(** an object with the same positions and other data, possibly without its zeros *)
Lemma data_shows x t d data keep : Shows x t -> len data = len (xEnts x) -> Forall (OfDt d) data -> (forall e, keep e = false -> Same (ev e) (PInt 0)) ->
  let x' := mkS (xTp x) (xTf x) d (filter keep (withData (xEnts x) data)) in
  SOK x' /\ forall i j v, cell t i j = Some v -> exists w, cell (denseOf x') i j = Some w /\
    ((exists k u, nth_error (xEnts x) k = Some (mkE i j v) /\ nth_error data k = Some u /\ SameElement u w) \/ (v = PInt 0 /\ w = PInt 0 /\ forall u, ~ In (mkE i j u) (xEnts x))).
Proof.
  intros W L FD HK x'. pose proof (shows_SOK x t W) as (OP & OF & ON & OR). pose proof W as (WF & EP & EF & _ & _ & WC).
  assert (ND : NoDup (map (@pos pval) (xEnts x'))). { apply NoDup_map_filter. rewrite withData_pos by exact L. exact ON. }
  split.
  { split; [exact OP|]. split; [exact OF|]. split; [exact ND|]. intros [i j w] I. apply filter_In in I. destruct I as [I _]. apply withData_in in I; [|exact L].
    destruct I as (k & e & A & <- & <- & D). destruct (OR e (nth_error_In _ _ A)) as (R1 & R2 & _). cbn. split; auto. split; auto. rewrite Forall_forall in FD. apply FD. eapply nth_error_In; eauto. }
  intros i j v C. pose proof (cell_range t i j v WF C) as [Ri Rj]. exists (readAt (xEnts x') i j). split; [apply dense_cell; cbn; rewrite EP, EF; auto|].
  destruct (WC i j v C) as [I|[-> N]].
  - left. apply In_nth_error in I. destruct I as (k & K). assert (Hu : exists u, nth_error data k = Some u) by (apply nth_error_is_some; rewrite L; exact (nth_error_lt _ _ K)).
    destruct Hu as (u & Hu). exists k, u. split; auto. split; auto. assert (IW : In (mkE i j u) (withData (xEnts x) data)) by (apply withData_in; [exact L|]; exists k, (mkE i j v); auto).
    destruct (keep (mkE i j u)) eqn:KE.
    + rewrite (readAt_in _ i j u ND); [apply same_el|]. apply filter_In. auto.
    + rewrite readAt_out; [left; apply (HK _ KE)|]. intros w I. apply filter_In in I. destruct I as [I KW].
      assert (EQ : w = u). { assert (N2 : NoDup (map (@pos pval) (withData (xEnts x) data))) by (rewrite withData_pos by exact L; exact ON).
        rewrite <- (readAt_in _ i j w N2 I). symmetry. rewrite <- (readAt_in _ i j u N2 IW). reflexivity. }
      congruence.
  - right. split; auto. split; auto. apply readAt_out. intros w I. apply filter_In in I. destruct I as [I _]. apply withData_in in I; [|exact L].
    destruct I as (k & e & A & <- & <- & _). apply (N (ev e)). destruct e; eapply nth_error_In; eauto.
Qed.
Lemma filter_id {A} (l : list A) : filter (fun _ => true) l = l.
Proof. induction l; cbn; congruence. Qed.
Lemma within_addressed ps fs e : (within ps fs e = true <-> addressed ps fs (er e) (ec e)) /\ (within ps fs e = false <-> ~ addressed ps fs (er e) (ec e)).
Proof.
  unfold within, addressed. pose proof (outside_chosen ps (er e)) as [A B]. pose proof (outside_chosen fs (ec e)) as [C D].
  destruct (outside ps (er e)), (outside fs (ec e)); cbn; intuition discriminate.
Qed.
Lemma zero_becomes pz skip f i j : zeroPreserving pz f = true -> exists r, Becomes pz skip f (PInt 0) i j r /\ Returned r (PInt 0).
Proof.
  intros Z. exists (PInt 0). split; [|left; apply same_el]. apply zeroPreserving_spec in Z. destruct pz; [left; split; auto; split; apply zero_same0|].
  destruct Z as [Z|(g & r & -> & G & SZ)]; [discriminate|]. right. split; [left; reflexivity|]. exists r. split; [exact G|]. right.
  rewrite (orSkip_zero skip _ _ SZ). inversion SZ as [p q a b X Y Q1| | | |]; subst; econstructor; eauto; symmetry; exact Q1.
Qed.
Variable strOf : pval -> string.
Lemma stored_spec f points features ps fs pz skip x t : Shows x t -> xDt x <> DBool -> limitDenotes (tp t) points ps -> limitDenotes (tf t) features fs ->
  ZeroUniform f -> zeroPreserving pz f = true ->
  let res := transformElementsSparse floatOf intOf strOf f points features pz skip x in
  exists t', Shows (fst res) t' /\ tp t' = tp t /\ tf t' = tf t /\
  match snd res with
  | Ok _ => NoZeros (fst res) /\ forall i j v, cell t i j = Some v -> exists w, cell t' i j = Some w /\
      (addressed ps fs i j -> exists r, Becomes pz skip f v i j r /\ Returned r w) /\ (~ addressed ps fs i j -> SameElement v w)
  | Err e => (exists a b u, cell t a b = Some u /\ addressed ps fs a b /\ callF f u a b = Err e) /\
      forall i j v, cell t i j = Some v -> exists w, cell t' i j = Some w /\
        (SameElement v w \/ (addressed ps fs i j /\ exists r, Becomes pz skip f v i j r /\ Returned r w))
  end.
Proof.
  intros W ND HP HF HZ Z. pose proof (shows_SOK x t W) as (OP & OF & ON & OR). pose proof W as (WF & EP & EF & _ & _ & WC).
  cbn zeta. unfold transformElementsSparse. rewrite EP, EF. rewrite EP in OP. rewrite EF in OF. rewrite (resolve_denotes _ _ _ OP HP), (resolve_denotes _ _ _ OF HF), Z.
  unfold transformStored. cbn zeta. set (g := validated pz skip f).
  destruct (storedLoop_spec g ps fs (xEnts x) (xEnts x) 0 (xDt x) (map (@ev pval) (xEnts x))) as (d & data & r & stop & E & ND' & FD & LD & U & R).
  { exists []. auto. } { exact ND. } { apply Forall_forall. intros v I. apply in_map_iff in I. destruct I as (e & <- & I). apply (OR e I). } { apply map_length. }
  { intros j e H. exists (ev e). split; [rewrite nth_error_map_eq, H; reflexivity|]. cbn. apply same_el. }
  rewrite E. cbn [fst snd].
  assert (CELLIN : forall k e, nth_error (xEnts x) k = Some e -> cell t (er e) (ec e) = Some (ev e)).
  { intros k e H. pose proof (nth_error_In _ _ H) as I. destruct (OR e I) as (R1 & R2 & _). rewrite EP in R1. rewrite EF in R2. destruct (cell_some t _ _ WF R1 R2) as (v & C & _).
    rewrite C. f_equal. rewrite <- (shows_read x t _ _ _ W C). apply readAt_in; auto. destruct e; exact I. }
  assert (REL : forall k i j v u stop', nth_error (xEnts x) k = Some (mkE i j v) -> Rel g ps fs (k <? stop') (mkE i j v) u ->
     SameElement v u /\ (addressed ps fs i j -> ~ k < stop') \/ (addressed ps fs i j /\ exists r, Becomes pz skip f v i j r /\ Returned r u)).
  { intros k i j v u stop' H RR. unfold Rel in RR. pose proof (within_addressed ps fs (mkE i j v)) as [A1 A2]. cbn [er ec ev] in A1, A2, RR. destruct (k <? stop') eqn:KS; cbn [andb] in RR.
    - destruct (within ps fs (mkE i j v)).
      + destruct RR as (w & G & RW). right. split; [apply A1; reflexivity|]. exists w. split; auto. apply validated_becomes; auto.
      + left. split; auto. intros AD. exfalso. apply A2; auto.
    - left. split; auto. intros _. apply Nat.ltb_ge in KS. lia. }
  destruct r as [u0|e].
  - subst stop. destruct (renumber_spec d data ND' FD) as (d' & data' & -> & SL & FD'). cbn [fst snd].
    assert (LD' : len data' = len (xEnts x)) by (rewrite <- LD; symmetry; exact (F2len _ _ _ SL)).
    destruct (data_shows x t d' data' (fun e => nonzero (ev e)) W LD' FD') as (SK & CS); [intros e0 H0; apply nonzero_false; exact H0|]. cbn zeta in SK, CS.
    rewrite EP, EF in SK, CS |- *. set (x' := mkS (tp t) (tf t) d' _) in *. exists (denseOf x').
    split; [apply SOK_shows; exact SK|]. split; [reflexivity|]. split; [reflexivity|]. split.
    { intros e I. apply filter_In in I. apply nonzero_true. apply I. }
    intros i j v C. destruct (CS i j v C) as (w & CW & [(k & u & A & B & SU)|(-> & -> & N)]).
    + exists w. split; [exact CW|]. destruct (U k _ A) as (u' & A' & RR). destruct (F2nth _ _ _ _ _ SL A') as (u2 & B' & SS). assert (u2 = u) by congruence. subst u2.
      pose proof (nth_error_lt _ _ A) as HK. assert (SUW : SameElement u' w) by (eapply SameElement_trans; eauto).
      destruct (REL _ _ _ _ _ _ A RR) as [[S1 S2]|[S1 (r & S2 & S3)]].
      * split; [intros AD; exfalso; apply (S2 AD); exact HK|]. intros _. eapply SameElement_trans; eauto.
      * split; [intros _; exists r; split; auto; eapply Returned_same; eauto|contradiction].
    + exists (PInt 0). split; [exact CW|]. split; [intros _; apply zero_becomes; exact Z|]. intros _. apply same_el.
  - destruct R as (e0 & K & IN & G). cbn [fst snd].
    destruct (data_shows x t d data (fun _ => true) W LD FD) as (SK & CS); [discriminate|]. cbn zeta in SK, CS. rewrite filter_id in SK, CS.
    rewrite EP, EF in SK, CS |- *. set (x' := mkS (tp t) (tf t) d _) in *. exists (denseOf x').
    split; [apply SOK_shows; exact SK|]. split; [reflexivity|]. split; [reflexivity|]. split.
    + exists (er e0), (ec e0), (ev e0). split; [eapply CELLIN; exact K|]. split; [apply (within_addressed ps fs e0); exact IN|]. apply (validated_err pz skip). exact G.
    + intros i j v C. destruct (CS i j v C) as (w & CW & [(k & u & A & B & SU)|(-> & -> & N)]).
      * exists w. split; [exact CW|]. destruct (U k _ A) as (u' & A' & RR). assert (u' = u) by congruence. subst u'.
        destruct (REL _ _ _ _ _ _ A RR) as [[S1 S2]|[S1 (r & S2 & S3)]]; [left; eapply SameElement_trans; eauto|right]. split; auto. exists r. split; auto. eapply Returned_same; eauto.
      * exists (PInt 0). split; [exact CW|]. left. apply same_el.
Qed.
End S.
