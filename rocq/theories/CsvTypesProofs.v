(** Column types of a CSV file (C27). *)
From Verif Require Import Base CsvModel CsvSpec.
Open Scope string_scope.
Open Scope list_scope.
Open Scope nat_scope.

Lemma nodup_app_intro {A} (a b : list A) : NoDup a -> NoDup b -> (forall x, In x a -> ~ In x b) -> NoDup (a ++ b).
Proof.
  induction a as [|x a IH]; intros Na Nb D; [exact Nb|]. inversion Na as [|? ? NI N']; subst. cbn [app]. constructor.
  - rewrite in_app_iff. intros [X|X]; [contradiction|]. exact (D x (or_introl eq_refl) X).
  - apply IH; auto. intros y Y. apply D. right. exact Y.
Qed.
Section T.
Variables (isInt isFloat : string -> bool).
Local Notation colType := (colType isInt isFloat).
Inductive cstate := CConv (t : ctype) | CEmpty | CText.
Definition firstCol (v : string) : cstate := match colType v with None => CEmpty | Some TStr => CText | Some t => CConv t end.
Definition stepCol (c : cstate) (v : string) : cstate :=
  match c with
  | CText => CText
  | CEmpty => if String.eqb v "" then CEmpty else CText
  | CConv cur =>
      match colType v with
      | None => c
      | Some ct =>
          if eqbd ct cur then c
          else if rank cur <? rank ct then if eqbd cur TBool || eqbd ct TStr then CText else CConv ct
          else if eqbd ct TBool then CText else c
      end
  end.
Record TInv (n : nat) (f : nat -> cstate) (ts : tstate) : Prop := mkTInv {
  ti_wf : wfdict (tConv ts); ti_nd : NoDup (tEmpty ts);
  ti_conv : forall j t, dget j (tConv ts) = Some t <-> j < n /\ f j = CConv t;
  ti_empty : forall j, In j (tEmpty ts) <-> j < n /\ f j = CEmpty;
  ti_non : forall j, In j (tNon ts) <-> j < n /\ (f j = CEmpty \/ f j = CText) }.
Lemma at_row_nth row j : j < List.length row -> at_row row j = Ok (nth j row "").
Proof. intros H. unfold at_row. rewrite (nth_error_nth' _ "") by exact H. reflexivity. Qed.
Lemma trackConv_spec row conv : wfdict conv -> (forall j t, In (j, t) conv -> j < List.length row) ->
  exists conv' dels, trackConv isInt isFloat row conv = Ok (conv', dels) /\ dkeys conv' = dkeys conv /\ NoDup dels /\
    (forall j, In j dels -> In j (dkeys conv)) /\
    (forall j t, dget j conv = Some t -> (In j dels <-> stepCol (CConv t) (nth j row "") = CText)) /\
    (forall j t, dget j conv = Some t -> forall t', stepCol (CConv t) (nth j row "") = CConv t' -> dget j conv' = Some t').
Proof.
  induction conv as [|[k cur] conv IH]; intros W B.
  - exists [], []. repeat split; try constructor; cbn; try tauto; discriminate.
  - unfold wfdict in W. cbn [dkeys map fst] in W. inversion W as [|? ? NI W']; subst.
    destruct (IH W') as [conv' [dels [E [K [ND [S1 [S2 S3]]]]]]]; [intros j t H; apply (B j t); right; exact H|].
    cbn [trackConv]. rewrite (at_row_nth row k) by (apply (B k cur); left; reflexivity). cbn [rbind]. rewrite E. cbn [rbind fst snd].
    assert (NK : ~ In k dels) by (intros X; apply NI, S1, X).
    assert (G : forall t (dl : bool),
      (stepCol (CConv cur) (nth k row "") = if dl then CText else CConv t) ->
      exists c' d', Ok ((k, t) :: conv', if dl then k :: dels else dels) = Ok (c', d') /\ dkeys c' = k :: dkeys conv /\ NoDup d' /\
        (forall j, In j d' -> In j (k :: dkeys conv)) /\
        (forall j u, dget j ((k, cur) :: conv) = Some u -> (In j d' <-> stepCol (CConv u) (nth j row "") = CText)) /\
        (forall j u, dget j ((k, cur) :: conv) = Some u -> forall t', stepCol (CConv u) (nth j row "") = CConv t' -> dget j c' = Some t')).
    { intros t dl Hs. eexists. eexists. split; [reflexivity|]. split; [cbn; rewrite <- K; reflexivity|]. split; [destruct dl; [constructor; assumption|assumption]|].
      split; [intros j Hj; destruct dl; [destruct Hj as [<-|Hj]; [left; reflexivity|right; auto]|right; auto]|]. split.
      - intros j u Hu. cbn [dget] in Hu. destruct (eq_dec j k) as [->|Hn].
        + injection Hu as ->. rewrite Hs. destruct dl; [split; [reflexivity|left; reflexivity]|]. split; [contradiction|discriminate].
        + rewrite <- (S2 j u Hu). destruct dl; [|reflexivity]. split; [intros [X|X]; [congruence|exact X]|right; assumption].
      - intros j u Hu t' Ht. cbn [dget] in Hu |- *. destruct (eq_dec j k) as [->|Hn].
        + injection Hu as ->. rewrite Hs in Ht. destruct dl; [discriminate|]. congruence.
        + eapply S3; eassumption. }
    unfold stepCol in G at 1. destruct (colType (nth k row "")) as [ct|]; [|exact (G cur false eq_refl)].
    destruct (eqbd ct cur); [exact (G cur false eq_refl)|]. destruct (rank cur <? rank ct).
    + destruct (eqbd cur TBool || eqbd ct TStr); [exact (G cur true eq_refl)|exact (G ct false eq_refl)].
    + destruct (eqbd ct TBool); [exact (G cur true eq_refl)|exact (G cur false eq_refl)].
Qed.
Lemma trackEmpty_spec row l : NoDup l -> (forall j, In j l -> j < List.length row) ->
  exists e, trackEmpty row l = Ok e /\ NoDup e /\ forall j, In j e <-> In j l /\ nth j row "" <> "".
Proof.
  induction l as [|k l IH]; intros ND B; cbn [trackEmpty].
  - exists []. repeat split; try constructor; cbn in *; tauto.
  - inversion ND as [|? ? NI ND']; subst. destruct (IH ND') as [e [E [N H]]]; [intros; apply B; right; assumption|].
    rewrite at_row_nth by (apply B; left; reflexivity). cbn [rbind]. rewrite E. cbn [rbind]. destruct (String.eqb_spec (nth k row "") "") as [X|X]; eexists; (split; [reflexivity|]).
    + split; [exact N|]. intros j. rewrite H. cbn. split; [tauto|]. intros [[<-|I] Y]; [contradiction|auto].
    + split; [constructor; [rewrite H; tauto|exact N]|]. intros j. cbn. rewrite H. split; [intros [<-|?]; tauto|]. tauto.
Qed.
Lemma addTo_In x y l : In x (addTo y l) <-> x = y \/ In x l.
Proof.
  unfold addTo. destruct (mem y l) eqn:M.
  - apply mem_In in M. split; [auto|]. intros [->|]; auto.
  - rewrite in_app_iff. cbn. split; [intros [|[<-|[]]]; auto|]. intros [->|]; auto.
Qed.
Lemma removeFrom_In x y l : In x (removeFrom y l) <-> x <> y /\ In x l.
Proof. unfold removeFrom. rewrite filter_In, Bool.negb_true_iff, Nat.eqb_neq. split; intros []; split; auto. Qed.
Lemma dropKeys_spec keys : forall st, NoDup keys -> wfdict (tConv st) -> NoDup (tEmpty st) ->
  (forall j, In j (tEmpty st) -> ~ In j (dkeys (tConv st))) -> (forall k, In k keys -> In k (dkeys (tConv st)) \/ In k (tEmpty st)) ->
  exists st', dropKeys keys st = Ok st' /\ wfdict (tConv st') /\ NoDup (tEmpty st') /\
    (forall j, dget j (tConv st') = if mem j keys then None else dget j (tConv st)) /\
    (forall j, In j (tEmpty st') <-> In j (tEmpty st) /\ ~ In j keys) /\
    (forall j, In j (tNon st') <-> In j (tNon st) \/ (In j keys /\ In j (dkeys (tConv st)))).
Proof.
  induction keys as [|k keys IH]; intros st ND W NE DJ IN; cbn [dropKeys].
  - exists st. split; [reflexivity|]. split; [exact W|]. split; [exact NE|]. split; [reflexivity|]. split; intros j; cbn; tauto.
  - inversion ND as [|? ? NK ND']; subst.
    assert (DK : forall j, In j (dkeys (ddel k (tConv st))) <-> j <> k /\ In j (dkeys (tConv st))).
    { intros j. assert (X : forall d : list (nat * ctype), In j (dkeys d) <-> dget j d <> None) by (intros d; rewrite dget_None; destruct (in_dec Nat.eq_dec j (dkeys d)); tauto).
      rewrite !X, (dget_ddel j k W). destruct (eq_dec j k); tauto. }
    destruct (dmem k (tConv st)) eqn:DM.
    + apply mem_In in DM.
      destruct (IH (mkT (ddel k (tConv st)) (addTo k (tNon st)) (tEmpty st)) ND' (wfdict_ddel k W) NE) as [st' [E [A [B [C [D F]]]]]]; cbn [tConv tNon tEmpty] in *.
      { intros j J J'. apply DK in J'. exact (DJ j J (proj2 J')). }
      { intros x X. rewrite DK. destruct (IN x (or_intror X)); [left|right; assumption]. split; [congruence|assumption]. }
      exists st'. split; [exact E|]. split; [exact A|]. split; [exact B|]. split; [|split].
      * intros j. rewrite C, (dget_ddel j k W). cbn [mem]. destruct (eq_dec j k); [destruct (mem j keys); reflexivity|reflexivity].
      * intros j. rewrite D. cbn. split; [|tauto]. intros [X Y]. split; [exact X|]. intros [<-|Z]; [|tauto]. exact (DJ _ X DM).
      * intros j. rewrite F, addTo_In, DK. cbn. destruct (Nat.eq_dec j k) as [->|]; [tauto|]. split; [tauto|]. intros [?|[[?|?] ?]]; [tauto|congruence|tauto].
    + apply mem_not_In in DM. destruct (IN k (or_introl eq_refl)) as [X|X]; [contradiction|]. apply mem_In in X. rewrite X. apply mem_In in X.
      destruct (IH (mkT (tConv st) (tNon st) (removeFrom k (tEmpty st))) ND' W) as [st' [E [A [B [C [D F]]]]]]; cbn [tConv tNon tEmpty] in *.
      { apply NoDup_filter. exact NE. }
      { intros j J. apply removeFrom_In in J. exact (DJ j (proj2 J)). }
      { intros x Y. rewrite removeFrom_In. destruct (IN x (or_intror Y)); [left; assumption|right]. split; [congruence|assumption]. }
      exists st'. split; [exact E|]. split; [exact A|]. split; [exact B|]. split; [|split].
      * intros j. rewrite C. cbn [mem]. destruct (eq_dec j k) as [->|]; [|reflexivity]. assert (N : dget k (tConv st) = None) by (apply dget_None; exact DM). rewrite N. destruct (mem k keys); reflexivity.
      * intros j. rewrite D, removeFrom_In. cbn. split; [intros [[? ?] ?]; split; [assumption|intros [?|?]; [congruence|tauto]]|]. intros [? ?]. split; [split; [intros ->|]|]; tauto.
      * intros j. rewrite F. cbn. destruct (Nat.eq_dec j k) as [->|]; [tauto|]. split; [tauto|]. intros [?|[[?|?] ?]]; [tauto|congruence|tauto].
Qed.
Lemma in_dkeys j (d : list (nat * ctype)) : In j (dkeys d) <-> exists t, dget j d = Some t.
Proof. destruct (dget j d) as [t|] eqn:E. - split; [eauto|]. intros _. apply dget_In in E. apply (in_map fst) in E. exact E. - apply dget_None in E. split; [contradiction|]. intros [t X]. discriminate. Qed.
Lemma tracking_spec n f ts row : TInv n f ts -> List.length row = n ->
  exists ts', tracking isInt isFloat row ts = Ok ts' /\ TInv n (fun j => stepCol (f j) (nth j row "")) ts'.
Proof.
  intros [W ND C E N] L. unfold tracking.
  destruct (trackConv_spec row (tConv ts) W) as [conv' [dels [-> [K [NDd [S1 [S2 S3]]]]]]].
  { intros j t H. apply (In_dget _ _ W) in H. apply C in H. lia. }
  destruct (trackEmpty_spec row (tEmpty ts) ND) as [e [-> [NDe He]]]; [intros j H; apply E in H; lia|]. cbn [rbind fst snd].
  assert (DJ : forall j, In j (tEmpty ts) -> ~ In j (dkeys (tConv ts))).
  { intros j J J'. apply E in J. apply in_dkeys in J'. destruct J' as [t J']. apply C in J'. destruct J, J'. congruence. }
  destruct (dropKeys_spec (dels ++ e) (mkT conv' (tNon ts) (tEmpty ts))) as [ts' [-> [A [B [D [F G]]]]]]; cbn [tConv tNon tEmpty] in *.
  - apply nodup_app_intro; auto. intros j X Y. apply S1 in X. apply He in Y. exact (DJ j (proj1 Y) X).
  - unfold wfdict. rewrite K. exact W.
  - exact ND.
  - rewrite K. exact DJ.
  - intros k X. apply in_app_or in X. rewrite K. destruct X as [X|X]; [left; auto|right; apply He in X; tauto].
  - exists ts'. split; [reflexivity|]. split; auto.
    + intros j t. rewrite D. destruct (mem j (dels ++ e)) eqn:M.
      * split; [discriminate|]. intros [J H]. exfalso. apply mem_In, in_app_or in M. destruct M as [M|M].
        -- assert (X := S1 j M). apply in_dkeys in X. destruct X as [u X]. apply (S2 j u X) in M. apply C in X. destruct X as [_ X]. rewrite X in H. congruence.
        -- apply He in M. destruct M as [M V]. apply E in M. destruct M as [_ M]. rewrite M in H. cbn [stepCol] in H. destruct (nth j row "" =? "")%string eqn:Q; discriminate.
      * apply mem_not_In in M. split.
        -- intros X. assert (I : In j (dkeys (tConv ts))) by (rewrite <- K; apply in_dkeys; eauto). apply in_dkeys in I. destruct I as [u I]. pose proof (proj1 (C j u) I) as [J FJ]. split; [exact J|]. rewrite FJ.
           destruct (stepCol (CConv u) (nth j row "")) as [t'| |] eqn:SC; [|exfalso|].
           ++ rewrite (S3 j u I t' SC) in X. congruence.
           ++ cbn [stepCol] in SC. destruct (colType (nth j row "")) as [ct|]; [|discriminate]. destruct (eqbd ct u); [discriminate|]. destruct (rank u <? rank ct); [destruct (eqbd u TBool || eqbd ct TStr); discriminate|destruct (eqbd ct TBool); discriminate].
           ++ exfalso. apply M, in_or_app. left. apply (S2 j u I). exact SC.
        -- intros [J X]. destruct (f j) as [u| |] eqn:FJ.
           ++ assert (I : dget j (tConv ts) = Some u) by (apply C; auto). exact (S3 j u I t X).
           ++ cbn in X. destruct (nth j row "" =? "")%string; discriminate.
           ++ discriminate.
    + intros j. rewrite F, E. split.
      * intros [[J FJ] M]. split; [exact J|]. rewrite FJ. cbn [stepCol]. destruct (String.eqb_spec (nth j row "") ""); [reflexivity|]. exfalso. apply M, in_or_app. right. apply He. split; [apply E; auto|assumption].
      * intros [J X]. destruct (f j) as [u| |] eqn:FJ; [exfalso| |discriminate].
        -- cbn [stepCol] in X. destruct (colType (nth j row "")) as [ct|]; [|discriminate]. destruct (eqbd ct u); [discriminate|]. destruct (rank u <? rank ct); [destruct (eqbd u TBool || eqbd ct TStr); discriminate|destruct (eqbd ct TBool); discriminate].
        -- split; [auto|]. intros M. apply in_app_or in M. destruct M as [M|M].
           ++ apply S1 in M. apply in_dkeys in M. destruct M as [u M]. apply C in M. destruct M. congruence.
           ++ apply He in M. cbn in X. destruct (String.eqb_spec (nth j row "") ""); [tauto|discriminate].
    + intros j. rewrite G, N, K. split.
      * intros [[J [FJ|FJ]]|[M I]].
        -- split; [exact J|]. rewrite FJ. cbn. destruct (nth j row "" =? "")%string; auto.
        -- split; [exact J|]. rewrite FJ. auto.
        -- apply in_dkeys in I. destruct I as [u I]. pose proof (proj1 (C j u) I) as [J FJ]. split; [exact J|]. right. rewrite FJ. apply (S2 j u I). apply in_app_or in M. destruct M as [M|M]; [exact M|]. apply He in M. destruct M as [M _]. apply E in M. destruct M. congruence.
      * intros [J X]. destruct (f j) as [u| |] eqn:FJ; [right|left; auto|left; auto]. assert (I : dget j (tConv ts) = Some u) by (apply C; auto). split; [|apply in_dkeys; eauto].
        apply in_or_app. left. apply (S2 j u I). destruct X as [X|X]; [exfalso|exact X].
        cbn [stepCol] in X. destruct (colType (nth j row "")) as [ct|]; [|discriminate]. destruct (eqbd ct u); [discriminate|]. destruct (rank u <? rank ct); [destruct (eqbd u TBool || eqbd ct TStr); discriminate|destruct (eqbd ct TBool); discriminate].
Qed.

Lemma firstTypes_spec row : TInv (List.length row) (fun j => firstCol (nth j row "")) (firstTypes isInt isFloat row).
Proof.
  unfold firstTypes.
  set (step := fun st p => match colType (snd p) with
    | Some TStr => mkT (tConv st) (addTo (fst p) (tNon st)) (tEmpty st)
    | None => mkT (tConv st) (addTo (fst p) (tNon st)) (addTo (fst p) (tEmpty st))
    | Some t => mkT (dset (fst p) t (tConv st)) (tNon st) (tEmpty st)
    end).
  assert (G : forall l k st f, (forall j, j < List.length l -> f (k + j) = firstCol (nth j l "")) -> TInv k f st ->
    TInv (k + List.length l) f (fold_left step (combine (seq k (List.length l)) l) st)).
  { induction l as [|v l IH]; intros k st f Hf I; cbn [List.length seq combine fold_left].
    - rewrite Nat.add_0_r. exact I.
    - rewrite <- Nat.add_succ_comm. apply IH.
      + intros j J. rewrite Nat.add_succ_comm. rewrite Hf by (cbn; lia). reflexivity.
      + assert (F := Hf 0 ltac:(cbn; lia)). rewrite Nat.add_0_r in F. cbn [nth] in F. destruct I as [W ND C E N].
        assert (EX : forall j c, f j = c -> forall c', f k = c' -> c <> c' -> (j < S k <-> j < k)) by (intros j c Hc c' Hc' D; split; [|lia]; intros; destruct (Nat.eq_dec j k); [congruence|lia]).
        unfold step. cbn [fst snd]. unfold firstCol in F.
        assert (NEW : ~ In k (tEmpty st)) by (intros X; apply E in X; lia).
        assert (CONV : forall t, f k = CConv t -> TInv (S k) f (mkT (dset k t (tConv st)) (tNon st) (tEmpty st))).
        { intros t Ft. constructor; cbn [tConv tNon tEmpty]; auto.
          - apply wfdict_dset. exact W.
          - intros j u. rewrite dget_dset. destruct (eq_dec j k) as [->|D].
            + split; [intros X; injection X as <-; split; [lia|exact Ft]|]. intros [_ X]. congruence.
            + rewrite C. split; intros [? ?]; (split; [lia|assumption]).
          - intros j. rewrite E. split; intros [? Y]; (split; [|exact Y]); [lia|]. apply (EX _ _ Y _ Ft); [discriminate|assumption].
          - intros j. rewrite N. split; intros [? Y]; (split; [|exact Y]); [lia|]. destruct Y as [Y|Y]; apply (EX _ _ Y _ Ft); try discriminate; assumption. }
        destruct (colType v) as [[]|]; [apply CONV, F|apply CONV, F|apply CONV, F| |].
        * constructor; cbn [tConv tNon tEmpty]; auto.
          -- intros j u. rewrite C. split; intros [? Y]; (split; [|exact Y]); [lia|]. apply (EX _ _ Y _ F); [discriminate|assumption].
          -- intros j. rewrite E. split; intros [? Y]; (split; [|exact Y]); [lia|]. apply (EX _ _ Y _ F); [discriminate|assumption].
          -- intros j. rewrite addTo_In, N. split.
             ++ intros [->|[? ?]]; (split; [lia|auto]).
             ++ intros [? Y]. destruct (Nat.eq_dec j k); [auto|right]. split; [lia|exact Y].
        * constructor; cbn [tConv tNon tEmpty]; auto.
          -- unfold addTo. apply mem_not_In in NEW. rewrite NEW. apply mem_not_In in NEW. apply nodup_app_intro; auto. { constructor; [easy|constructor]. } intros x X [<-|[]]. contradiction.
          -- intros j u. rewrite C. split; intros [? Y]; (split; [|exact Y]); [lia|]. apply (EX _ _ Y _ F); [discriminate|assumption].
          -- intros j. rewrite addTo_In, E. split.
             ++ intros [->|[? ?]]; (split; [lia|auto]).
             ++ intros [? Y]. destruct (Nat.eq_dec j k); [auto|right]. split; [lia|exact Y].
          -- intros j. rewrite addTo_In, N. split.
             ++ intros [->|[? ?]]; (split; [lia|auto]).
             ++ intros [? Y]. destruct (Nat.eq_dec j k); [auto|right]. split; [lia|exact Y]. }
  apply (G row 0); [reflexivity|]. constructor; cbn; try constructor; intros; try tauto; try lia; try discriminate.
Qed.
(** the state of every column after the rows *)
Definition colState (rs : list (list string)) (j : nat) : cstate :=
  match columnOf rs j with [] => CText | v :: vs => fold_left stepCol vs (firstCol v) end.
(** the types after the rows *)
Definition typesOf (acc : option tstate) (r : list string) : result tstate :=
  match acc with None => Ok (firstTypes isInt isFloat r) | Some ts => tracking isInt isFloat r ts end.
Definition TState (n : nat) (rs : list (list string)) (acc : option tstate) : Prop :=
  match rs with [] => acc = None | _ => exists ts, acc = Some ts /\ TInv n (colState rs) ts end.
Lemma TInv_ext n f g ts : (forall j, j < n -> f j = g j) -> TInv n f ts -> TInv n g ts.
Proof.
  intros H [W ND C E N]. constructor; auto.
  - intros j t. rewrite C. split; intros [J X]; (split; [exact J|]); rewrite <- X; [symmetry|]; apply H, J.
  - intros j. rewrite E. split; intros [J X]; (split; [exact J|]); rewrite <- X; [symmetry|]; apply H, J.
  - intros j. rewrite N. split; intros [J X]; (split; [exact J|]); [rewrite <- (H j J)|rewrite (H j J)]; exact X.
Qed.
Lemma typesOf_spec n rs acc r : TState n rs acc -> List.length r = n -> exists ts, typesOf acc r = Ok ts /\ TState n (rs ++ [r]) (Some ts).
Proof.
  intros H L. destruct rs as [|r0 rs]; cbn [TState] in H.
  - subst acc. eexists. split; [reflexivity|]. cbn [app TState]. eexists. split; [reflexivity|]. rewrite <- L. exact (firstTypes_spec r).
  - destruct H as [ts [-> I]]. destruct (tracking_spec n _ ts r I L) as [ts' [E I']]. exists ts'. split; [exact E|]. cbn [app TState].
    eexists. split; [reflexivity|]. eapply TInv_ext; [|exact I']. intros j J. cbn beta.
    unfold colState, columnOf. cbn [map app]. rewrite map_app, fold_left_app. reflexivity.
Qed.

(** the type finally used *)
Definition finalOf (eim : bool) (c : cstate) : option ctype :=
  match c with CConv t => Some t | CEmpty => if eim then Some TFloat else None | CText => None end.
Lemma emptyTypes_spec n f ts eim : TInv n f ts ->
  wfdict (tConv (emptyTypes eim ts)) /\ tEmpty (emptyTypes eim ts) = tEmpty ts /\
  (forall j t, dget j (tConv (emptyTypes eim ts)) = Some t <-> j < n /\ finalOf eim (f j) = Some t) /\
  (forall j, In j (tNon (emptyTypes eim ts)) <-> j < n /\ finalOf eim (f j) = None).
Proof.
  intros [W ND C E N]. unfold emptyTypes. destruct eim.
  - assert (G : forall l st, wfdict (tConv st) ->
      let st' := fold_left (fun st idx => mkT (dset idx TFloat (tConv st)) (removeFrom idx (tNon st)) (tEmpty st)) l st in
      wfdict (tConv st') /\ tEmpty st' = tEmpty st /\ (forall j, dget j (tConv st') = if mem j l then Some TFloat else dget j (tConv st)) /\
      (forall j, In j (tNon st') <-> In j (tNon st) /\ ~ In j l)).
    { induction l as [|x l IH]; intros st Ws st'; cbn [fold_left] in st'.
      - repeat split; auto; cbn; tauto.
      - destruct (IH (mkT (dset x TFloat (tConv st)) (removeFrom x (tNon st)) (tEmpty st))) as [A [B [D F]]]; [apply wfdict_dset; exact Ws|].
        split; [exact A|]. split; [exact B|]. cbn [tConv tNon tEmpty] in *. split.
        + intros j. unfold st'. rewrite D. rewrite dget_dset. cbn [mem]. destruct (eq_dec j x) as [->|].
          * destruct (mem x l); reflexivity.
          * reflexivity.
        + intros j. unfold st'. rewrite F, removeFrom_In. cbn. split; [intros [[? ?] ?]; split; [assumption|intros [?|?]; [congruence|tauto]]|]. intros [? ?]. split; [split; [intros ->|]|]; tauto. }
    destruct (G (tEmpty ts) ts W) as [A [B [D F]]]. split; [exact A|]. split; [exact B|]. split.
    + intros j t. rewrite D. destruct (mem j (tEmpty ts)) eqn:M.
      * apply mem_In, E in M. destruct M as [J ->]. cbn [finalOf]. split; [auto|]. tauto.
      * apply mem_not_In in M. rewrite C. split; intros [J X]; (split; [exact J|]).
        -- rewrite X. reflexivity.
        -- destruct (f j) eqn:FJ; cbn in X; [congruence| |discriminate]. exfalso. apply M, E. auto.
    + intros j. rewrite F, N, E. destruct (f j); cbn [finalOf]; split; intros X; repeat split; try tauto; try (destruct X as [? Y]; intuition discriminate).
  - split; [exact W|]. split; [reflexivity|]. split.
    + intros j t. rewrite C. destruct (f j); cbn [finalOf]; split; intros [? X]; (split; [assumption|]); congruence.
    + intros j. rewrite N. destruct (f j); cbn [finalOf]; split; intros [? X]; (split; [assumption|]); auto; try discriminate; destruct X; discriminate.
Qed.

(** conversion *)
Lemma convertRow_spec row : forall conv out, wfdict conv -> List.length out = List.length row ->
  (forall j t, dget j conv = Some t -> j < List.length row /\ exists x, castTo isInt isFloat t (nth j row "") = Ok x) ->
  exists out', convertRow isInt isFloat conv row out = Ok out' /\ List.length out' = List.length row /\
    forall j, j < List.length row ->
      match dget j conv with
      | Some t => exists x, castTo isInt isFloat t (nth j row "") = Ok x /\ nth_error out' j = Some x
      | None => nth_error out' j = nth_error out j
      end.
Proof.
  induction conv as [|[k t] conv IH]; intros out W L H; cbn [convertRow].
  - exists out. repeat split; auto.
  - unfold wfdict in W. cbn [dkeys map fst] in W. inversion W as [|? ? NI W']; subst.
    destruct (H k t) as [K [x X]]; [cbn; destruct (eq_dec k k); [reflexivity|congruence]|]. rewrite (at_row_nth row k K). cbn [rbind]. rewrite X. cbn [rbind].
    destruct (IH (upd out k x) W') as [out' [E [L' S]]].
    + rewrite upd_length. exact L.
    + intros j u U. apply H. cbn [dget]. destruct (eq_dec j k) as [->|]; [|exact U]. exfalso. apply NI. apply in_dkeys. eauto.
    + exists out'. split; [exact E|]. split; [exact L'|]. intros j J. specialize (S j J). cbn [dget]. destruct (eq_dec j k) as [->|D].
      * assert (Z : dget k conv = None) by (apply dget_None; exact NI). rewrite Z in S. exists x. split; [exact X|]. rewrite S. apply nth_error_upd_same. lia.
      * destruct (dget j conv); [exact S|]. rewrite S. apply nth_error_upd_other. congruence.
Qed.

(** ** the state of a column against the kind of its entries *)
Hypothesis O : ParseOracle isInt isFloat.
Lemma colType_int v : colType v = Some TInt -> isInt v = true /\ v <> "".
Proof. unfold CsvModel.colType. destruct (String.eqb_spec v ""); [discriminate|]. destruct (isInt v); [auto|]. destruct (isFloat v); [discriminate|]. destruct (_ || _)%bool; discriminate. Qed.
Lemma colType_float v : colType v = Some TFloat -> isInt v = false /\ isFloat v = true /\ v <> "".
Proof. unfold CsvModel.colType. destruct (String.eqb_spec v ""); [discriminate|]. destruct (isInt v); [discriminate|]. destruct (isFloat v); [auto|]. destruct (_ || _)%bool; discriminate. Qed.
Lemma colType_bool v : colType v = Some TBool -> isFloat v = false /\ v <> "" /\ IsBoolWord v.
Proof. unfold CsvModel.colType. destruct (String.eqb_spec v ""); [discriminate|]. destruct (isInt v); [discriminate|]. destruct (isFloat v); [discriminate|]. destruct (String.eqb_spec v "True"); [unfold IsBoolWord; auto|]. destruct (String.eqb_spec v "False"); [unfold IsBoolWord; auto|discriminate]. Qed.
Lemma colType_str v : colType v = Some TStr -> isFloat v = false /\ v <> "" /\ ~ IsBoolWord v.
Proof. unfold CsvModel.colType. destruct (String.eqb_spec v ""); [discriminate|]. destruct (isInt v); [discriminate|]. destruct (isFloat v); [discriminate|]. destruct (String.eqb_spec v "True"); [discriminate|]. destruct (String.eqb_spec v "False"); [discriminate|]. unfold IsBoolWord. tauto. Qed.
Lemma colType_none v : colType v = None -> v = "".
Proof. unfold CsvModel.colType. destruct (String.eqb_spec v ""); [auto|]. destruct (isInt v); [discriminate|]. destruct (isFloat v); [discriminate|]. destruct (_ || _)%bool; discriminate. Qed.
(** what the state says of the entries so far *)
Definition CMean (col : list string) (c : cstate) : Prop :=
  match c with
  | CConv t => t <> TStr /\ ColKind isInt isFloat col t
  | CEmpty => forall v, In v col -> v = ""
  | CText => True
  end.
Lemma ColKind_nonempty_ext (col : list string) t : ColKind isInt isFloat col t -> ColKind isInt isFloat (col ++ [""]) t.
Proof.
  assert (Q : forall P, Entries P col -> Entries P (col ++ [""])) by (intros P H v V NV; apply in_app_or in V; destruct V as [V|[<-|[]]]; [auto|congruence]).
  assert (Q' : forall P, Entries P (col ++ [""]) -> Entries P col) by (intros P H v V NV; apply H; [apply in_or_app; auto|exact NV]).
  intros [A [v [B1 B2]]|A [v [B1 B2]]|A [v [B1 B2]]|A B]; [apply kind_bool|apply kind_int|apply kind_float|apply kind_str]; auto; try (exists v; split; [apply in_or_app; auto|exact B2]).
Qed.
Lemma boolword_nofloat v : IsBoolWord v -> isFloat v = false.
Proof. destruct O as [_ [_ [A B]]]. intros [->| ->]; auto. Qed.
Lemma boolword_noint v : IsBoolWord v -> isInt v = false.
Proof. intros H. destruct (isInt v) eqn:E; [|reflexivity]. apply (proj1 O) in E. rewrite (boolword_nofloat v H) in E. discriminate. Qed.
Lemma colType_empty : colType "" = None. Proof. reflexivity. Qed.
Lemma colType_spec v : v <> "" ->
  match colType v with
  | None => False
  | Some TBool => IsBoolWord v
  | Some TInt => isInt v = true /\ isFloat v = true
  | Some TFloat => isInt v = false /\ isFloat v = true
  | Some TStr => isFloat v = false /\ ~ IsBoolWord v
  end.
Proof.
  intros N. destruct (colType v) as [[]|] eqn:E.
  - apply colType_bool in E. tauto.
  - apply colType_int in E. split; [tauto|]. apply (proj1 O). tauto.
  - apply colType_float in E. tauto.
  - apply colType_str in E. tauto.
  - apply colType_none in E. contradiction.
Qed.
Lemma entries_snoc P (col : list string) v : v <> "" -> (Entries P (col ++ [v]) <-> Entries P col /\ P v).
Proof.
  intros N. split.
  - intros H. split; [intros w W; apply H, in_or_app; auto|apply H; [apply in_or_app; right; left; reflexivity|exact N]].
  - intros [H Hv] w W NW. apply in_app_or in W. destruct W as [W|[<-|[]]]; auto.
Qed.
(** CText with a non-empty first entry means mixed *)
Definition Mixed (col : list string) : Prop := ~ Entries (IsNum isFloat) col /\ ~ Entries IsBoolWord col.
Lemma mixed_snoc col v : Mixed col -> Mixed (col ++ [v]).
Proof. intros [A B]. split; intros H; [apply A|apply B]; intros w W; apply H, in_or_app; auto. Qed.
Definition CGood (col : list string) (c : cstate) : Prop :=
  match c with
  | CConv t => t <> TStr /\ ColKind isInt isFloat col t
  | CEmpty => forall v, In v col -> v = ""
  | CText => (nth_error col 0 = Some "" /\ exists v, In v col /\ v <> "") \/ Mixed col
  end.
Lemma firstCol_good v : CGood [v] (firstCol v).
Proof.
  unfold firstCol. destruct (String.eqb_spec v "") as [->|N].
  - rewrite colType_empty. intros w [<-|[]]. reflexivity.
  - assert (H := colType_spec v N). assert (Q : forall P : string -> Prop, P v -> Entries P [v]) by (intros P Pv w [<-|[]] _; exact Pv).
    assert (X : exists w, In w [v] /\ w <> "") by (exists v; split; [left; reflexivity|exact N]).
    destruct (colType v) as [[]|]; cbn [CGood]; [split; [discriminate|]..| |contradiction].
    + apply kind_bool; auto.
    + apply kind_int; auto. apply Q. tauto.
    + apply kind_float; [apply Q; unfold IsNum; tauto|]. exists v. split; [left; reflexivity|]. tauto.
    + right. split; intros E; specialize (E v (or_introl eq_refl) N); [unfold IsNum in E; destruct H; congruence|tauto].
Qed.
Lemma kind_witness col t : ColKind isInt isFloat col t -> t <> TStr -> exists v, In v col /\ v <> "".
Proof. intros [A B|A B|A [v [B1 [B2 _]]]|A B] N; eauto. congruence. Qed.
Lemma stepCol_good col c v : col <> [] -> CGood col c -> CGood (col ++ [v]) (stepCol c v).
Proof.
  intros NE G. destruct c as [t| |]; cbn [stepCol].
  - destruct G as [NT K]. destruct (kind_witness col t K NT) as [w [Iw Nw]].
    destruct (String.eqb_spec v "") as [->|N].
    + rewrite colType_empty. split; [exact NT|]. apply ColKind_nonempty_ext, K.
    + assert (H := colType_spec v N).
      assert (X : exists w, In w (col ++ [v]) /\ w <> "") by (exists w; split; [apply in_or_app; auto|exact Nw]).
      destruct K as [A B|A B|A [u [B1 [B2 B3]]]|A B]; [| | |congruence].
      * (* bool so far *)
        assert (MX : ~ IsBoolWord v -> Mixed (col ++ [v])).
        { intros M. split; intros E; apply (entries_snoc _ _ _ N) in E; destruct E as [E Ev]; [|tauto]. specialize (E w Iw Nw). unfold IsNum in E. rewrite (boolword_nofloat w (A w Iw Nw)) in E. discriminate. }
        destruct (colType v) as [[]|]; cbn; try contradiction.
        -- split; [discriminate|]. apply kind_bool; [apply entries_snoc; auto|exact X].
        -- right. apply MX. intros M. rewrite (boolword_noint v M) in H. destruct H; discriminate.
        -- right. apply MX. intros M. rewrite (boolword_nofloat v M) in H. destruct H; discriminate.
        -- right. apply MX. tauto.
      * (* int so far *)
        assert (AN : Entries (IsNum isFloat) col) by (intros x Hx Nx; apply (proj1 O), A; auto).
        assert (MX : isFloat v = false -> Mixed (col ++ [v])).
        { intros M. split; intros E; apply (entries_snoc _ _ _ N) in E; destruct E as [E Ev]; [unfold IsNum in Ev; congruence|]. specialize (E w Iw Nw). apply boolword_noint in E. rewrite (A w Iw Nw) in E. discriminate. }
        destruct (colType v) as [[]|]; cbn; try contradiction.
        -- right. apply MX, boolword_nofloat, H.
        -- split; [discriminate|]. apply kind_int; [apply entries_snoc; tauto|exact X].
        -- split; [discriminate|]. apply kind_float; [apply entries_snoc; unfold IsNum in *; tauto|]. exists v. split; [apply in_or_app; right; left; reflexivity|]. tauto.
        -- right. apply MX. tauto.
      * (* float so far *)
        assert (MX : isFloat v = false -> Mixed (col ++ [v])).
        { intros M. split; intros E; apply (entries_snoc _ _ _ N) in E; destruct E as [E Ev]; [unfold IsNum in Ev; congruence|]. specialize (E w Iw Nw). apply boolword_nofloat in E. specialize (A w Iw Nw). unfold IsNum in A. congruence. }
        assert (FX : isFloat v = true -> ColKind isInt isFloat (col ++ [v]) TFloat).
        { intros M. apply kind_float; [apply entries_snoc; unfold IsNum in *; tauto|]. exists u. split; [apply in_or_app; auto|tauto]. }
        destruct (colType v) as [[]|]; cbn; try contradiction.
        -- right. apply MX, boolword_nofloat, H.
        -- split; [discriminate|]. apply FX. tauto.
        -- split; [discriminate|]. apply FX. tauto.
        -- right. apply MX. tauto.
  - destruct (String.eqb_spec v "") as [->|N].
    + intros w W. apply in_app_or in W. destruct W as [W|[<-|[]]]; auto.
    + left. split.
      * destruct col as [|a col]; [congruence|]. cbn. rewrite (G a (or_introl eq_refl)). reflexivity.
      * exists v. split; [apply in_or_app; right; left; reflexivity|exact N].
  - destruct G as [[A [w [B C]]]|M]; [left|right; apply mixed_snoc, M]. split.
    + destruct col as [|a col]; [congruence|]. exact A.
    + exists w. split; [apply in_or_app; auto|exact C].
Qed.
Lemma fold_good col : forall c vs, col <> [] -> CGood col c -> CGood (col ++ vs) (fold_left stepCol vs c).
Proof.
  intros c vs. revert col c. induction vs as [|v vs IH]; intros col c NE G; cbn [fold_left]; [rewrite app_nil_r; exact G|].
  replace (col ++ v :: vs) with ((col ++ [v]) ++ vs) by (rewrite <- app_assoc; reflexivity).
  apply IH; [destruct col; discriminate|]. apply stepCol_good; assumption.
Qed.
Lemma colState_good rs j : rs <> [] -> CGood (columnOf rs j) (colState rs j).
Proof.
  intros NE. unfold colState. destruct rs as [|r rs]; [congruence|]. cbn [columnOf map].
  apply (fold_good [nth j r ""]); [discriminate|]. apply firstCol_good.
Qed.
(** the type used is that of the specification, and every entry can be cast *)
Definition typeOr (o : option ctype) : ctype := match o with Some t => t | None => TStr end.
Lemma colState_loaded rs j eim : rs <> [] -> ColLoaded isInt isFloat eim (columnOf rs j) (typeOr (finalOf eim (colState rs j))).
Proof.
  intros NE. assert (G := colState_good rs j NE). destruct (columnOf rs j) as [|v vs] eqn:EC; [destruct rs; [congruence|discriminate]|].
  destruct (String.eqb_spec v "") as [->|N].
  - destruct (colState rs j) as [t| |] eqn:CS; cbn [finalOf typeOr CGood] in *.
    + exfalso. destruct G as [NT K]. unfold colState in CS. rewrite EC in CS. unfold firstCol in CS. rewrite colType_empty in CS.
      assert (X : forall l c, c = CEmpty \/ c = CText -> fold_left stepCol l c = CEmpty \/ fold_left stepCol l c = CText).
      { induction l as [|x l IH]; intros c H; cbn [fold_left]; [exact H|]. apply IH. destruct H as [->| ->]; cbn; [destruct (x =? "")%string|]; auto. }
      destruct (X vs CEmpty (or_introl eq_refl)); congruence.
    + replace (typeOr (if eim then Some TFloat else None)) with (if eim then TFloat else TStr) by (destruct eim; reflexivity). apply cl_empty. exact G.
    + destruct G as [[_ [w [B C]]]|[A B]]; [eapply cl_late; [reflexivity|exact B|exact C]|].
      destruct (List.Exists_dec (fun x => x <> "") ("" :: vs)) as [X|X]; [intros x; destruct (string_dec x ""); tauto| |].
      * apply Exists_exists in X. destruct X as [w [B' C]]. eapply cl_late; [reflexivity|exact B'|exact C].
      * exfalso. apply A. intros x Hx Nx. exfalso. apply X. apply Exists_exists. eauto.
  - eapply cl_typed; [reflexivity|exact N|]. destruct (colState rs j) as [t| |]; cbn [finalOf typeOr CGood] in *.
    + tauto.
    + exfalso. apply N, G. left. reflexivity.
    + destruct G as [[A _]|[A B]]; [cbn in A; congruence|]. apply kind_str; auto.
Qed.
Lemma castTo_loaded rs j eim t v : rs <> [] -> finalOf eim (colState rs j) = Some t -> In v (columnOf rs j) ->
  castTo isInt isFloat t v = Ok (loadedAs t v).
Proof.
  intros NE F V. assert (G := colState_good rs j NE). unfold castTo. destruct (colState rs j) as [u| |] eqn:CS; cbn [finalOf CGood] in *; [| |discriminate].
  - injection F as <-. destruct G as [NT K]. destruct (String.eqb_spec v "") as [->|N].
    + destruct u; try reflexivity. congruence.
    + unfold loadedAs. destruct K as [A B|A B|A B|A B]; [| | |congruence].
      * rewrite (proj2 (String.eqb_neq _ _) N). specialize (A v V N). destruct A as [->| ->]; reflexivity.
      * rewrite (proj2 (String.eqb_neq _ _) N), (A v V N). reflexivity.
      * rewrite (proj2 (String.eqb_neq _ _) N). specialize (A v V N). unfold IsNum in A. rewrite A. reflexivity.
  - rewrite (G v V). cbn. destruct eim; [|discriminate]. injection F as <-. reflexivity.
Qed.
(** the kind is a function of the set of entries *)
Lemma ColKind_fun col t u : ColKind isInt isFloat col t -> ColKind isInt isFloat col u -> t = u.
Proof.
  assert (IB : forall v, In v col -> v <> "" -> Entries IsBoolWord col -> Entries (IsNum isFloat) col -> False).
  { intros v V N A B. specialize (A v V N). specialize (B v V N). unfold IsNum in B. rewrite (boolword_nofloat v A) in B. discriminate. }
  assert (IN : Entries (fun s => isInt s = true) col -> Entries (IsNum isFloat) col) by (intros A v V N; apply (proj1 O), A; auto).
  intros [A [v [V N]]|A [v [V N]]|A [v [V [N N']]]|A B] [A' B'|A' B'|A' B'|A' B']; try reflexivity; exfalso.
  - exact (IB v V N A (IN A')).
  - exact (IB v V N A A').
  - exact (B' A).
  - exact (IB v V N A' (IN A)).
  - destruct B' as [w [W [NW NI]]]. specialize (A w W NW). cbn in A. congruence.
  - exact (A' (IN A)).
  - exact (IB v V N A' A).
  - specialize (A' v V N). cbn in A'. congruence.
  - exact (A' A).
  - exact (B A').
  - exact (A (IN A')).
  - exact (A A').
Qed.
Lemma ColKind_set col col' t : (forall v, In v col <-> In v col') -> ColKind isInt isFloat col t -> ColKind isInt isFloat col' t.
Proof.
  intros H. assert (Q : forall P, Entries P col <-> Entries P col') by (intros P; unfold Entries; split; intros X v V; apply X, H, V).
  intros [A [v [V N]]|A [v [V N]]|A [v [V N]]|A B].
  - apply kind_bool; [apply Q, A|]. exists v. split; [apply H, V|exact N].
  - apply kind_int; [apply Q, A|]. exists v. split; [apply H, V|exact N].
  - apply kind_float; [apply Q, A|]. exists v. split; [apply H, V|exact N].
  - apply kind_str; rewrite <- Q; assumption.
Qed.
Lemma ColLoaded_fun eim col t u : ColLoaded isInt isFloat eim col t -> ColLoaded isInt isFloat eim col u -> t = u.
Proof.
  intros [v t' A B C|A|v A B C] [v' t'' A' B' C'|A'|v' A' B' C']; try reflexivity.
  - eapply ColKind_fun; eassumption.
  - exfalso. apply B, A'. eapply nth_error_In, A.
  - congruence.
  - exfalso. apply B', A. eapply nth_error_In, A'.
  - exfalso. exact (C' (A _ B')).
  - congruence.
  - exfalso. exact (C (A' _ B)).
Qed.
End T.
