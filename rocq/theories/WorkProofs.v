(** Proofs about the learning functions (C78): the store, names, validation. *)
From Verif Require Import Base NamesModel NamesSpec NamesProofs NamesIndexProofs TableModel TableSpec TableProofs TablePermProofs
  MatchModel BinOpModel BinOpSpec BinOpProofs RawSpec WorkModel WorkSpec.
From Verif Require LogModel RawProofs.
From Coq Require Import List Lia Ascii String Arith. Import ListNotations.
Local Notation get := WorkModel.get.
Local Notation lower := WorkModel.lower.
Open Scope string_scope. Open Scope list_scope. Open Scope nat_scope.

(** ** the store *)
Lemma Unchanged_refl s : Unchanged s s. Proof. intros r o H; exact H. Qed.
Lemma Unchanged_trans a b c : Unchanged a b -> Unchanged b c -> Unchanged a c. Proof. intros H K r o E. apply K, H, E. Qed.
Lemma Unchanged_app s l : Unchanged s (s ++ l).
Proof. intros r o H. rewrite nth_error_app1; [exact H|]. apply nth_error_Some. congruence. Qed.
Lemma Unchanged_len s s' : Unchanged s s' -> List.length s <= List.length s'.
Proof.
  intros H. destruct (Nat.le_gt_cases (List.length s) (List.length s')) as [L|L]; [exact L|exfalso].
  assert (P : List.length s' < List.length s) by lia. apply nth_error_Some in P. destruct (nth_error s (List.length s')) as [o|] eqn:E; [|congruence].
  apply H in E. assert (List.length s' < List.length s') by (apply nth_error_Some; congruence). lia.
Qed.
Lemma Unchanged_upd s s' r o : Unchanged s s' -> List.length s <= r -> Unchanged s (upd s' r o).
Proof.
  intros H L q p E. rewrite nth_error_upd_other; [apply H, E|]. assert (q < List.length s) by (apply nth_error_Some; congruence). lia.
Qed.
Lemma WfStore_app s l : WfStore s -> (forall o, In o l -> wf (dT o)) -> WfStore (s ++ l).
Proof. intros W H o I. apply in_app_or in I. destruct I as [I|I]; [apply W, I|apply H, I]. Qed.
Lemma WfStore_nth s r o : WfStore s -> nth_error s r = Some o -> wf (dT o).
Proof. intros W E. apply W. eapply nth_error_In, E. Qed.
Lemma nth_last s (o : dobj) : nth_error (s ++ [o]) (List.length s) = Some o.
Proof. rewrite nth_error_app2 by lia. rewrite Nat.sub_diag. reflexivity. Qed.
Lemma nth_last2 s (a b : dobj) : nth_error (s ++ [a; b]) (List.length s) = Some a /\ nth_error (s ++ [a; b]) (S (List.length s)) = Some b.
Proof. split; rewrite nth_error_app2 by lia; [rewrite Nat.sub_diag|replace (S (List.length s) - List.length s) with 1 by lia]; reflexivity. Qed.
Lemma upd_last s (a b : dobj) : upd (s ++ [a]) (List.length s) b = s ++ [b].
Proof. induction s as [|x s IH]; cbn; [reflexivity|]. f_equal. exact IH. Qed.
Lemma Present_nth s r : Present s (DRef r) -> exists o, nth_error s r = Some o.
Proof. intros H. specialize (H r eq_refl). apply nth_error_Some in H. destruct (nth_error s r) as [o|]; [exists o; reflexivity|congruence]. Qed.
Lemma Present_mono s s' x : Unchanged s s' -> Present s x -> Present s' x.
Proof. intros U P r E. pose proof (P r E). pose proof (Unchanged_len _ _ U). lia. Qed.
Lemma Present_some s r o : nth_error s r = Some o -> Present s (DRef r).
Proof. intros E q [= <-]. apply nth_error_Some. congruence. Qed.

Lemma bind_ok {A B} (p : prog A) (f : A -> prog B) s s' a : p s = (s', Ok a) -> pbind p f s = f a s'.
Proof. intros E. unfold pbind. rewrite E. reflexivity. Qed.
Lemma bind_err {A B} (p : prog A) (f : A -> prog B) s s' e : p s = (s', Err e) -> pbind p f s = (s', Err e).
Proof. intros E. unfold pbind. rewrite E. reflexivity. Qed.
Lemma get_ok s r o : nth_error s r = Some o -> get r s = (s, Ok o).
Proof. intros E. unfold get. rewrite E. reflexivity. Qed.
Lemma copy_ok s r o : nth_error s r = Some o -> copyObj r s = (s ++ [o], Ok (List.length s)).
Proof. intros E. unfold copyObj. rewrite (bind_ok _ _ _ _ _ (get_ok _ _ _ E)). reflexivity. Qed.

(** ** a feature taken out of the data *)
Lemma getIndex_exc a id e : TextOrInt id -> getIndex a id false = Err e -> e = IndexErr \/ e = KeyErr.
Proof.
  unfold getIndex. intros T. destruct (_ =? 0)%Z; [intros [= <-]; auto|]. destruct id; cbn in T; try contradiction.
  - destruct (_ || _)%bool; [intros [= <-]; auto|discriminate].
  - unfold getIndexByName. destruct (dget _ _); cbn; [discriminate|intros [= <-]; auto].
Qed.
Definition idx1 (a : axis) (i : ident) : result (list nat) := constructIndices a [i].
Lemma idx_case a i : Inv a -> TextOrInt i ->
  (exists j, constructIndices a [i] = Ok [j] /\ j < alen a /\ Denotes a false i (Z.of_nat j)) \/
  (exists e, constructIndices a [i] = Err e /\ (e = IndexErr \/ e = KeyErr) /\ forall z, ~ Denotes a false i z).
Proof.
  intros IA T. destruct (getIndex a i false) as [z|e] eqn:G.
  - left. destruct (getIndex_range _ _ _ IA G) as [L U]. exists (Z.to_nat z).
    assert (F : FloatInRange a i) by (destruct i; cbn in *; tauto).
    split; [unfold constructIndices; cbn; rewrite G; reflexivity|]. split; [lia|]. rewrite Z2Nat.id by lia. apply (getIndex_Denotes a i false z IA F), G.
  - right. exists e. split; [unfold constructIndices; cbn; rewrite G; reflexivity|]. split; [eapply getIndex_exc; eauto|].
    intros z D. assert (F : FloatInRange a i) by (destruct i; cbn in *; tauto). apply (getIndex_Denotes a i false z IA F) in D. congruence.
Qed.
(** copying and then extracting *)
Definition cut (t : table pval) (i : ident) : option (table pval * table pval) :=
  match constructIndices (tf t) [i] with
  | Ok l => match structural SExtract Fts t l with Ok (rest, Some ret) => Some (rest, ret) | _ => None end
  | Err _ => None
  end.
Lemma cut_some t i xs ys : wf t -> TextOrInt i -> cut t i = Some (xs, ys) -> Split t i xs ys /\
  forall o s, dT o = t -> extractFt (List.length s) i (s ++ [o]) = (s ++ [mkD xs (dK o); mkD ys (dK o)], Ok (S (List.length s))) /\
     deleteFt (List.length s) i (s ++ [o]) = (s ++ [mkD xs (dK o)], Ok tt).
Proof.
  intros W T E. pose proof W as (_ & _ & _ & IF). unfold cut in E. destruct (idx_case _ _ IF T) as [(j & C & L & D)|(e & C & X & N)]; rewrite C in E; [|discriminate].
  destruct (structural_spec _ Fts t [j] W) as (ret & rest & _ & E1 & E2 & _ & W1 & W2 & O1 & O2 & I1 & I2 & _).
  { repeat constructor. intros []. } { intros k [<-|[]]. exact L. }
  rewrite E1 in E. injection E as <- <-. split; [exists j; do 5 (split; [assumption|]); split; assumption|].
  intros o s Eo. subst t. split.
  - unfold extractFt. rewrite (bind_ok _ _ _ _ _ (get_ok _ _ _ (nth_last s o))).
    rewrite (bind_ok _ _ (s ++ [o]) (s ++ [o]) [j]) by (unfold lift; rewrite C; reflexivity).
    rewrite (bind_ok _ _ (s ++ [o]) (s ++ [o]) (rest, Some ret)) by (unfold lift; rewrite E1; reflexivity).
    cbv beta iota. rewrite (bind_ok _ _ (s ++ [o]) (s ++ [mkD rest (dK o)]) tt) by (unfold put; rewrite upd_last; reflexivity).
    unfold alloc. rewrite <- app_assoc, app_length. cbn. rewrite Nat.add_1_r. reflexivity.
  - unfold deleteFt. rewrite (bind_ok _ _ _ _ _ (get_ok _ _ _ (nth_last s o))).
    rewrite (bind_ok _ _ (s ++ [o]) (s ++ [o]) [j]) by (unfold lift; rewrite C; reflexivity).
    rewrite (bind_ok _ _ (s ++ [o]) (s ++ [o]) (rest, None)) by (unfold lift; rewrite E2; reflexivity).
    cbv beta iota. unfold put. cbn [fst]. rewrite upd_last. reflexivity.
Qed.
Lemma cut_none t i : wf t -> TextOrInt i -> cut t i = None ->
  exists e, (e = IndexErr \/ e = KeyErr) /\ (forall z, ~ Denotes (tf t) false i z) /\
    forall o s, dT o = t -> extractFt (List.length s) i (s ++ [o]) = (s ++ [o], Err e).
Proof.
  intros W T E. pose proof W as (_ & _ & _ & IF). unfold cut in E. destruct (idx_case _ _ IF T) as [(j & C & L & D)|(e & C & X & N)]; rewrite C in E.
  - destruct (structural_spec _ Fts t [j] W) as (ret & rest & _ & E1 & _).
    { repeat constructor. intros []. } { intros k [<-|[]]. exact L. } rewrite E1 in E. discriminate.
  - exists e. split; [exact X|]. split; [exact N|]. intros o s Eo. subst t.
    unfold extractFt. rewrite (bind_ok _ _ _ _ _ (get_ok _ _ _ (nth_last s o))).
    rewrite (bind_err _ _ (s ++ [o]) (s ++ [o]) e) by (unfold lift; rewrite C; reflexivity). reflexivity.
Qed.

(** ** names *)
Lemma setAll_named a names : setAll a names = namedAxis (alen a) names.
Proof.
  unfold setAll, namedAxis. destruct names as [l|]; cbn [namesArg]; [|reflexivity].
  unfold setNames. unfold setNames_all. cbn [alen]. destruct (negb _); [reflexivity|]. destruct (_ =? 0); [reflexivity|]. destruct (rbind _ _); reflexivity.
Qed.
Lemma setAll_list a l : match setAll a (Some l) with
  | Ok a' => NamesFit l (alen a) /\ alen a' = alen a /\ Inv a' /\ getNames a' = l
  | Err e => ~ NamesFit l (alen a) /\ e = InvalidArgumentValue
  end.
Proof.
  rewrite setAll_named. destruct (namedAxis (alen a) (Some l)) as [a'|e] eqn:E.
  - assert (F : NamesFit l (alen a)).
    { unfold namedAxis in E. destruct (setNames _ _ _) as [b [u|e]] eqn:S; [|discriminate].
      assert (S' : snd (setNames (mkAxis (alen a) None) (AList (map to_newname l)) ONone) = Ok tt) by (destruct u; unfold namesArg in S; rewrite S; reflexivity).
      apply setNames_list_reject in S'. destruct S' as [L [_ D]]. rewrite map_length in L. split; [exact L|].
      intros i j s Hi Hj. apply (D i j s); rewrite nth_error_map; [rewrite Hi|rewrite Hj]; reflexivity. }
    split; [exact F|]. destruct F as [L D]. destruct (namedAxis_list (alen a) l L D) as (b & Eb & H). assert (b = a') by congruence. subst b. exact H.
  - split.
    + intros [L D]. destruct (namedAxis_list (alen a) l L D) as (b & Eb & _). congruence.
    + unfold namedAxis in E. destruct (setNames _ _ _) as [b [u|e']] eqn:S; [discriminate|]. injection E as ->.
      cbn [namesArg setNames] in S. eapply RawProofs.setAll_err. rewrite S. reflexivity.
Qed.
Lemma setAll_None a : setAll a None = Ok (mkAxis (alen a) None). Proof. rewrite setAll_named. apply namedAxis_None. Qed.
Lemma repeat_NoNames n s : ~ In (Some s) (repeat (@None string) n).
Proof. intros H. apply repeat_spec in H. discriminate. Qed.
Lemma noNames_None a : getNamesNoGeneration a = None -> NoNames a.
Proof. intros E s H. rewrite (unnamed_names _ E) in H. exact (repeat_NoNames _ _ H). Qed.
Lemma fresh_NoNames n : NoNames (mkAxis n None). Proof. apply noNames_None. reflexivity. Qed.
Lemma setAll_same a b : Inv b -> alen a = alen b -> exists a', setAll a (getNamesNoGeneration b) = Ok a' /\ alen a' = alen a /\ Inv a' /\ getNames a' = getNames b.
Proof. intros IB L. rewrite setAll_named, L. apply namedAxis_same, IB. Qed.

(** ** words *)
Lemma lower_cons c s : WorkModel.lower (String c s) = String (LogModel.lower c) (lower s). Proof. reflexivity. Qed.
Fixpoint letters (w : string) : Prop := match w with EmptyString => True | String c r => 97 <= nat_of_ascii c <= 122 /\ letters r end.
Lemma lower_letter c d : 97 <= nat_of_ascii d <= 122 -> (LogModel.lower c = d <-> c = d \/ (65 <= nat_of_ascii c <= 90 /\ nat_of_ascii d = nat_of_ascii c + 32)).
Proof.
  intros R. unfold LogModel.lower. destruct (_ && _)%bool eqn:B.
  - apply andb_prop in B. destruct B as [B1 B2]. apply Nat.leb_le in B1, B2. split.
    + intros <-. right. split; [lia|]. rewrite nat_ascii_embedding; lia.
    + intros [->|[_ E]]; [lia|]. rewrite <- E. apply ascii_nat_embedding.
  - split; [intros ->; auto|]. intros [->|[U E]]; [reflexivity|exfalso]. apply Bool.andb_false_iff in B. destruct B as [B|B]; apply Nat.leb_gt in B; lia.
Qed.
Lemma lower_spells s : forall w, letters w -> (lower s = w <-> Spells s w).
Proof.
  induction s as [|c s IH]; intros w L; destruct w as [|d w]; cbn [Spells].
  - split; auto.
  - split; [discriminate|contradiction].
  - split; [rewrite lower_cons; discriminate|contradiction].
  - destruct L as [Ld Lw]. rewrite lower_cons. rewrite <- (lower_letter c d Ld), <- (IH w Lw). split; [intros E; injection E as -> ->; auto|intros [-> ->]; reflexivity].
Qed.
Ltac is_letters := repeat split; vm_compute; lia.
Lemma validMode_spec mode : (validMode mode = Ok tt /\ forall m, mode = Some m -> ModeWord m) \/ (validMode mode = Err InvalidArgumentValue /\ exists m, mode = Some m /\ ~ ModeWord m).
Proof.
  destruct mode as [m|]; [|left; split; [reflexivity|discriminate]]. cbn [validMode].
  assert (Sp : ModeWord m <-> existsb (String.eqb (WorkModel.lower m)) ["bestscore"; "allscores"] = true).
  { cbn [existsb]. rewrite !Bool.orb_true_iff, !String.eqb_eq. unfold ModeWord. rewrite <- !lower_spells by is_letters. intuition discriminate. }
  destruct (existsb _ _) eqn:E; [left|right]; (split; [reflexivity|]).
  - intros q [= <-]. apply Sp. reflexivity.
  - exists m. split; [reflexivity|]. rewrite Sp. discriminate.
Qed.
Lemma validStrategy_spec strat : (validStrategy strat = Ok tt /\ forall m, strat = Some m -> StrategyWord m) \/ (validStrategy strat = Err InvalidArgumentValue /\ exists m, strat = Some m /\ ~ StrategyWord m).
Proof.
  destruct strat as [m|]; [|left; split; [reflexivity|discriminate]]. cbn [validStrategy].
  assert (Sp : StrategyWord m <-> existsb (String.eqb (WorkModel.lower m)) ["default"; "onevsall"; "onevsone"] = true).
  { cbn [existsb]. rewrite !Bool.orb_true_iff, !String.eqb_eq. unfold StrategyWord. rewrite <- !lower_spells by is_letters. intuition discriminate. }
  destruct (existsb _ _) eqn:E; [left|right]; (split; [reflexivity|]).
  - intros q [= <-]. apply Sp. reflexivity.
  - exists m. split; [reflexivity|]. rewrite Sp. discriminate.
Qed.

(** ** validation *)
Lemma idArg_spec i : idArg i = true <-> TextOrInt i. Proof. destruct i; cbn; intuition discriminate. Qed.
Ltac nope := solve [congruence | match goal with H : forall r, _ <> DRef r |- _ => exfalso; eapply H; reflexivity end].
Lemma validTrain_spec s x y : Present s x -> Present s y ->
  (validTrain x y s = (s, Ok tt) /\ forall e, ~ BadTrain s x y e) \/ (exists e, validTrain x y s = (s, Err e) /\ BadTrain s x y e).
Proof.
  intros Px Py. destruct x as [|rx|i|]; try (right; exists InvalidArgumentType; split; [reflexivity|apply bt_x; discriminate]).
  destruct (Present_nth _ _ Px) as [ox Ex]. cbn [validTrain]. rewrite (bind_ok _ _ _ _ _ (get_ok _ _ _ Ex)).
  destruct y as [|ry|i|].
  - left. split; [reflexivity|]. intros e B. inversion B; subst. nope.
  - destruct (Present_nth _ _ Py) as [oy Ey]. rewrite (bind_ok _ _ _ _ _ (get_ok _ _ _ Ey)). unfold pts. destruct (Nat.eqb_spec (alen (tp (dT oy))) (alen (tp (dT ox)))) as [E|E].
    + left. split; [reflexivity|]. intros e B. inversion B; subst; nope.
    + right. eexists. split; [reflexivity|]. eapply bt_points; eauto.
  - destruct (idArg i) eqn:A.
    + left. split; [reflexivity|]. intros e B. inversion B; subst; [nope|]. apply idArg_spec in A. contradiction.
    + right. eexists. split; [reflexivity|]. apply bt_id. rewrite <- idArg_spec, A. discriminate.
  - right. eexists. split; [reflexivity|]. apply bt_y.
Qed.
Lemma validTest_spec s x y : Present s x -> Present s y ->
  (validTest x y s = (s, Ok tt) /\ forall e, ~ BadTest s x y e) \/ (exists e, validTest x y s = (s, Err e) /\ BadTest s x y e).
Proof.
  intros Px Py. unfold validTest.
  assert (X : (x = DNone \/ exists r, x = DRef r) \/ (x <> DNone /\ forall r, x <> DRef r)).
  { destruct x as [|r|i|]; [left; left; reflexivity|left; right; exists r; reflexivity|right; split; discriminate|right; split; discriminate]. }
  destruct X as [X|[X1 X2]].
  2:{ right. exists InvalidArgumentType. split; [|apply be_x; assumption]. destruct x as [|r|i|]; [congruence|exfalso; exact (X2 r eq_refl)|reflexivity|reflexivity]. }
  rewrite (bind_ok _ _ s s tt) by (destruct X as [->|[r ->]]; reflexivity).
  assert (NX : forall e, BadTest s x y e -> y <> DNone).
  { intros e B E. subst y. inversion B; subst. destruct X as [->|[r ->]]; nope. }
  destruct y as [|ry|i|].
  - left. split; [reflexivity|]. intros e B. exact (NX e B eq_refl).
  - destruct X as [->|[r ->]].
    + right. eexists. split; [reflexivity|]. apply be_alone.
    + destruct (Present_nth _ _ Px) as [ox Ex]. destruct (Present_nth _ _ Py) as [oy Ey].
      rewrite (bind_ok _ _ _ _ _ (get_ok _ _ _ Ex)), (bind_ok _ _ _ _ _ (get_ok _ _ _ Ey)). unfold pts.
      destruct (Nat.eqb_spec (alen (tp (dT oy))) (alen (tp (dT ox)))) as [E|E].
      * left. split; [reflexivity|]. intros e B. inversion B; subst; nope.
      * right. eexists. split; [reflexivity|]. eapply be_points; eauto.
  - destruct (idArg i) eqn:A.
    + left. split; [reflexivity|]. intros e B. inversion B; subst; [destruct X as [->|[r ->]]; nope|]. apply idArg_spec in A. contradiction.
    + right. eexists. split; [reflexivity|]. apply be_id. rewrite <- idArg_spec, A. discriminate.
  - right. eexists. split; [reflexivity|]. apply be_y.
Qed.
Lemma is2d_spec s x y : Present s x -> Present s y -> exists b, is2d x y s = (s, Ok b) /\ (b = true <-> Wide s x y).
Proof.
  intros Px Py.
  assert (G : forall r, Present s (DRef r) -> exists b, (o <~ get r ;;; pret (1 <? fts o)) s = (s, Ok b) /\ (b = true <-> exists o, nth_error s r = Some o /\ 1 < alen (tf (dT o)))).
  { intros r P. destruct (Present_nth _ _ P) as [o E]. rewrite (bind_ok _ _ _ _ _ (get_ok _ _ _ E)). eexists. split; [reflexivity|].
    rewrite Nat.ltb_lt. unfold fts. split; [intros H; exists o; auto|intros [q [Eq H]]; congruence]. }
  unfold is2d, Wide. destruct y as [|ry|i|].
  - destruct x as [|rx|i|].
    2:{ destruct (G rx Px) as [b [E H]]. exists b. split; [exact E|]. rewrite H. split.
        - intros [o [Eo L]]. exists rx, o. auto.
        - intros [r [o [[K|[_ K]] [Eo L]]]]; [discriminate|]. injection K as <-. exists o. auto. }
    all: exists false; split; [reflexivity|]; split; [discriminate|]; intros [r [o [[K|[_ K]] _]]]; discriminate.
  - destruct (G ry Py) as [b [E H]]. exists b. split; [exact E|]. rewrite H. split.
    + intros [o [Eo L]]. exists ry, o. auto.
    + intros [r [o [[K|[K _]] [Eo L]]]]; [|discriminate]. injection K as <-. exists o. auto.
  - exists false. split; [reflexivity|]. split; [discriminate|]. intros [r [o [[K|[K _]] _]]]; discriminate.
  - exists false. split; [reflexivity|]. split; [discriminate|]. intros [r [o [[K|[K _]] _]]]; discriminate.
Qed.
Lemma flagCheck_spec two mode strat : (flagCheck two mode strat = Ok tt /\ (two = true -> mode = None /\ strat = None)) \/ (flagCheck two mode strat = Err InvalidArgumentValueCombination /\ two = true /\ (mode <> None \/ strat <> None)).
Proof.
  unfold flagCheck. destruct two; [|left; split; [reflexivity|discriminate]]. destruct mode, strat; cbn; [right|right|right|left];
    (split; [reflexivity|]); auto; split; auto; [left|left|right]; discriminate.
Qed.
Lemma lift_run {A} (r : result A) s : lift r s = (s, r). Proof. reflexivity. Qed.
Lemma validateLearning_spec s x y tx ty d strat mode : Present s x -> Present s y -> Present s tx -> Present s ty ->
  (validateLearning x y tx ty d strat mode s = (s, Ok tt) /\ forall e, ~ BadCall s x y tx ty d strat mode e) \/
  (exists e, validateLearning x y tx ty d strat mode s = (s, Err e) /\ BadCall s x y tx ty d strat mode e).
Proof.
  intros Px Py Ptx Pty. unfold validateLearning.
  destruct (validTrain_spec s x y Px Py) as [[E1 N1]|[e [E1 B]]].
  2:{ right. exists e. rewrite (bind_err _ _ _ _ _ E1). split; [reflexivity|]. apply bc_train, B. }
  rewrite (bind_ok _ _ _ _ _ E1).
  destruct (validTest_spec s tx ty Ptx Pty) as [[E2 N2]|[e [E2 B]]].
  2:{ right. exists e. rewrite (bind_err _ _ _ _ _ E2). split; [reflexivity|]. apply bc_test, B. }
  rewrite (bind_ok _ _ _ _ _ E2).
  destruct d; cbn [validArguments].
  2:{ right. eexists. rewrite (bind_err _ _ s s _ eq_refl). split; [reflexivity|]. apply bc_dict. reflexivity. }
  rewrite (bind_ok _ _ s s _ eq_refl).
  destruct (validMode_spec mode) as [[E3 N3]|[E3 [m [Em B]]]].
  2:{ right. eexists. rewrite E3. rewrite (bind_err _ _ s s _ eq_refl). split; [reflexivity|]. eapply bc_mode; eauto. }
  rewrite E3, (bind_ok _ _ s s _ eq_refl).
  destruct (validStrategy_spec strat) as [[E4 N4]|[E4 [m [Em B]]]].
  2:{ right. eexists. rewrite E4. rewrite (bind_err _ _ s s _ eq_refl). split; [reflexivity|]. eapply bc_strategy; eauto. }
  rewrite E4, (bind_ok _ _ s s _ eq_refl).
  destruct (is2d_spec s x y Px Py) as [b [E5 Hb]]. rewrite (bind_ok _ _ _ _ _ E5).
  destruct (flagCheck_spec b mode strat) as [[E6 N6]|[E6 [Eb B]]].
  - left. rewrite E6. split; [reflexivity|]. intros e B. inversion B; subst.
    + eapply N1; eauto. + eapply N2; eauto. + discriminate. + apply H0, N3. reflexivity. + apply H0, N4. reflexivity.
    + apply Hb in H. destruct (N6 H) as [-> ->]. intuition congruence.
  - right. exists InvalidArgumentValueCombination. rewrite E6. split; [reflexivity|]. apply bc_wide; [apply Hb, Eb|exact B].
Qed.

Lemma validateTesting_spec s tx ty d two mode : Present s tx -> Present s ty ->
  (validateTesting tx ty d two mode s = (s, Ok tt) /\ forall e, ~ BadTesting s tx ty d two mode e) \/
  (exists e, validateTesting tx ty d two mode s = (s, Err e) /\ BadTesting s tx ty d two mode e).
Proof.
  intros Ptx Pty. unfold validateTesting.
  destruct (validTest_spec s tx ty Ptx Pty) as [[E2 N2]|[e [E2 B]]].
  2:{ right. exists e. rewrite (bind_err _ _ _ _ _ E2). split; [reflexivity|]. apply bg_test, B. }
  rewrite (bind_ok _ _ _ _ _ E2).
  destruct d; cbn [validArguments].
  2:{ right. eexists. rewrite (bind_err _ _ s s _ eq_refl). split; [reflexivity|]. apply bg_dict. reflexivity. }
  rewrite (bind_ok _ _ s s _ eq_refl).
  destruct (validMode_spec mode) as [[E3 N3]|[E3 [m [Em B]]]].
  2:{ right. eexists. rewrite E3. rewrite (bind_err _ _ s s _ eq_refl). split; [reflexivity|]. eapply bg_mode; eauto. }
  rewrite E3, (bind_ok _ _ s s _ eq_refl).
  destruct (flagCheck_spec two mode None) as [[E6 N6]|[E6 [Eb B]]].
  - left. rewrite E6. split; [reflexivity|]. intros e B. inversion B; subst.
    + eapply N2; eauto. + discriminate. + apply H0, N3. reflexivity.
    + destruct (N6 eq_refl) as [-> _]. congruence.
  - right. exists InvalidArgumentValueCombination. rewrite E6. split; [reflexivity|]. apply bg_wide; [exact Eb|]. intuition congruence.
Qed.
