From Verif Require Import Base NamesModel NamesSpec NamesProofs TableModel TableSpec TableProofs TableOps MatchModel MatchSpec MatchProofs QueryModel QuerySpec QueryProofs.
From Coq Require Import Ascii.
Open Scope string_scope.

Lemma firstOp_in os s o t : firstOp os s = Some (o, t) -> s = opStr o ++ t.
Proof.
  induction os as [|x os IH]; cbn [firstOp]; [discriminate|]. destruct (stripPrefix (opStr x) s) as [r|] eqn:E; [|exact IH].
  intros H. injection H as <- <-. apply stripPrefix_spec. exact E.
Qed.
Lemma firstOp_spec s o t : firstOp ops s = Some (o, t) <-> s = opStr o ++ t /\ longest s o.
Proof.
  split.
  - intros H. pose proof (firstOp_in _ _ _ _ H) as Hs. split; [exact Hs|]. intros o' t' Hs'.
    destruct o; try (destruct o'; simpl; lia).
    + destruct o'; simpl; try lia; try (subst s; discriminate Hs').
      exfalso. subst s. rewrite Hs' in H. discriminate.
    + destruct o'; simpl; try lia; try (subst s; discriminate Hs').
      exfalso. subst s. rewrite Hs' in H. discriminate.
  - intros [-> HL]. destruct o; try reflexivity.
    + assert (E : stripPrefix (opStr CGe) (opStr CGt ++ t) = None).
      { apply stripPrefix_none. intros r C. specialize (HL CGe r C). simpl in HL. lia. }
      unfold ops. cbn [firstOp]. rewrite E. reflexivity.
    + assert (E : stripPrefix (opStr CLe) (opStr CLt ++ t) = None).
      { apply stripPrefix_none. intros r C. specialize (HL CLe r C). simpl in HL. lia. }
      unfold ops. cbn [firstOp]. rewrite E. reflexivity.
Qed.
Lemma startsOp_spec s o v : startsOp s = Some (o, v) -> exists sp rest, s = opStr o ++ sp ++ v ++ rest /\
  (sp = " " \/ sp = "" /\ forall r, v <> " " ++ r) /\ noNewline v /\ ignored rest /\ longest s o.
Proof.
  unfold startsOp. destruct (firstOp ops s) as [[o' t]|] eqn:E; [|discriminate]. intros H.
  apply firstOp_spec in E. destruct E as [Hs HL]. destruct (stripPrefix " " t) as [t'|] eqn:Et; injection H as -> Hv.
  - apply stripPrefix_spec in Et. destruct (dotStar_spec t') as [rest [H1 [H2 H3]]]. rewrite Hv in H1, H2. exists " ", rest.
    split; [rewrite Hs, Et, H1; reflexivity|]. split; [left; reflexivity|]. auto.
  - destruct (dotStar_spec t) as [rest [H1 [H2 H3]]]. rewrite Hv in H1, H2. exists "", rest.
    split; [rewrite Hs, H1; reflexivity|]. split; [|auto]. right. split; [reflexivity|]. intros r C. rewrite stripPrefix_none in Et.
    apply (Et (r ++ rest)). rewrite H1, C. reflexivity.
Qed.
Lemma startsIs_spec s neg f : startsIs s = Some (neg, f) -> exists rest, s = isWord neg ++ f ++ rest /\ noNewline f /\ ignored rest.
Proof.
  unfold startsIs. destruct (stripPrefix "is not " s) as [r|] eqn:E.
  - intros H. injection H as <- <-. apply stripPrefix_spec in E. destruct (dotStar_spec r) as [rest [H1 [H2 H3]]]. exists rest.
    split; [rewrite E, H1 at 1; reflexivity|auto].
  - destruct (stripPrefix "is " s) as [r|] eqn:E2; [|discriminate]. intros H. injection H as <- <-. apply stripPrefix_spec in E2.
    destruct (dotStar_spec r) as [rest [H1 [H2 H3]]]. exists rest. split; [rewrite E2, H1 at 1; reflexivity|auto].
Qed.
Lemma startsIs_none s : startsIs s = None <-> forall t, s <> "is " ++ t.
Proof.
  unfold startsIs. split.
  - intros H t ->. destruct (stripPrefix "is not " ("is " ++ t)); [discriminate|].
    rewrite (proj2 (stripPrefix_spec "is " _ t) eq_refl) in H. discriminate.
  - intros H. destruct (stripPrefix "is not " s) as [r|] eqn:E.
    + apply stripPrefix_spec in E. exfalso. exact (H _ E).
    + rewrite (proj2 (stripPrefix_none _ _)); [reflexivity|exact H].
Qed.
Lemma startsOp_notIs s o v : startsOp s = Some (o, v) -> startsIs s = None.
Proof.
  intros H. apply startsOp_spec in H. destruct H as [sp [rest [-> _]]]. apply startsIs_none. intros t C. destruct o; discriminate.
Qed.

Section Q.
Variable floatOf : string -> option pval.
Variable accepted : string -> bool.
Notation Reading := (Reading floatOf accepted).

Lemma parseCore_sound s eq q : parseCore floatOf accepted s eq = Some q -> Reading s q.
Proof.
  unfold parseCore.
  assert (AX : forall q, (if (List.length (containsOp s) =? 1)%nat then
      match splitOpOnce s with Some (n, o', v') => Some (mkQuery (Some n) (QCmp o' (toFilter floatOf v'))) | None => None end else None) = Some q -> Reading s q).
  { intros q0 H. destruct (List.length (containsOp s) =? 1)%nat eqn:E; [|discriminate]. apply containsOp_len1 in E. destruct E as [o E].
    apply containsOp_one in E. destruct E as [id [text [Hs HO]]]. rewrite (splitOpOnce_unique s id o text Hs HO) in H. injection H as <-.
    exists text. auto. }
  destruct (_ || isAsAxisName s).
  - destruct (startsOp s) as [[o v]|] eqn:Eo; [|apply AX].
    destruct (_ || _).
    + intros H. injection H as <-. apply startsOp_spec in Eo. destruct Eo as [sp [rest [H1 [H2 [H3 [H4 H5]]]]]].
      exists sp, v, rest. auto 10.
    + destruct (List.length (containsOp s) =? 1)%nat eqn:E; [|discriminate]. cbn [andb].
      destruct (match eq with Some false => true | _ => false end); [|discriminate]. exact (AX q).
  - assert (IS : (match rev (containsIs s) with
        | [] => None
        | lastIs :: _ => match splitLast lastIs s with
            | None => None
            | Some (n, f) => if accepted f then Some (mkQuery (Some n) (QIs f (String.eqb lastIs " is not "))) else None
            end end) = Some q -> Reading s q).
    { destruct (rev (containsIs s)) as [|x l] eqn:E; [discriminate|].
      assert (Hin : In x (containsIs s)) by (apply in_rev; rewrite E; left; reflexivity).
      unfold containsIs in Hin. apply scan_In in Hin. destruct Hin as [a [b [_ Hb]]]. apply isAt_spec in Hb. destruct Hb as [neg [t [-> _]]].
      pose proof (splitLast_spec (" " ++ isWord neg) s) as H. destruct (splitLast (" " ++ isWord neg) s) as [[n f]|]; [|discriminate].
      destruct (accepted f) eqn:Ea; [|discriminate]. 
      assert (EN : String.eqb (" " ++ isWord neg) " is not " = neg) by (destruct neg; reflexivity). rewrite EN.
      intros HQ. injection HQ as <-.
      split; [|exact Ea]. rewrite H, app_assoc_s. reflexivity. }
    destruct (startsIs s) as [[neg f]|] eqn:Es; [|exact IS]. destruct (containsIs s) as [|i l]; [|exact IS].
    destruct (containsOp s); [|exact IS]. destruct (accepted f) eqn:Ea; [|discriminate]. intros H. injection H as <-.
    apply startsIs_spec in Es. destruct Es as [rest [H1 [H2 H3]]]. exists rest. auto.
Qed.
Lemma parse_sound s eq q : parse floatOf accepted s eq = Ok q -> Reading s q /\
  (eq = Some false -> qIdent q <> None) /\ (eq = Some true -> qIdent q = None).
Proof.
  unfold parse. destruct (parseCore floatOf accepted s eq) as [q'|] eqn:E; [|discriminate]. apply parseCore_sound in E.
  destruct eq as [[]|]; destruct (qIdent q') eqn:Ei; intros H; try discriminate; injection H as <-; (split; [exact E|]); split; intros C; congruence.
Qed.

(** completeness: operators *)
Lemma isAsAxisName_harmless s id o text : s = id ++ padded o ++ text -> onlyOperator s id o -> isHarmless s text ->
  (match containsIs s, startsIs s with [], None => true | _, _ => false end) || isAsAxisName s = true.
Proof.
  intros Hs HO HI. assert (Hc : containsOp s = [o]) by (apply containsOp_one; eauto).
  destruct HI as [HN|[HT HU]].
  - rewrite (proj2 (containsIs_nil s) HN). unfold isAsAxisName. rewrite (proj2 (containsIs_nil s) HN), Hc. destruct (startsIs s); reflexivity.
  - destruct (containsIs s) as [|x l] eqn:E.
    + unfold isAsAxisName. rewrite E, Hc. destruct (startsIs s); reflexivity.
    + assert (Hl : containsIs s = [x]).
      { assert (Hin : In x (containsIs s)) by (rewrite E; left; reflexivity). unfold containsIs in Hin. apply scan_In in Hin. destruct Hin as [a [b [Hab Hb]]].
        rewrite Hab. apply scan_unique_intro; [exact Hb|]. intros a' b' H' Hn. apply isAt_spec in Hb. destruct Hb as [neg [t [_ Hb]]].
        destruct (isAt b') as [x'|] eqn:Ex; [|contradiction]. apply isAt_spec in Ex. destruct Ex as [neg' [t' [_ Hb']]].
        assert (G : forall n u, exists w, " " ++ isWord n ++ u = " is " ++ w) by (intros [] u; [exists ("not " ++ u)|exists u]; reflexivity).
        destruct (G neg t) as [w Hw]. destruct (G neg' t') as [w' Hw']. apply (HU a' w' a w); congruence. }
      unfold isAsAxisName. rewrite Hl, Hc, (split1_unique s id o text Hs HO).
      assert (F : searchIs text = false) by (destruct (searchIs text) eqn:Es; [apply searchIs_spec in Es; contradiction|reflexivity]).
      rewrite F, Bool.orb_true_r. apply Bool.orb_true_r.
Qed.
Lemma parse_axis_complete id o text : let s := id ++ padded o ++ text in onlyOperator s id o -> isHarmless s text ->
  parse floatOf accepted s (Some false) = Ok (mkQuery (Some id) (QCmp o (toFilter floatOf text))).
Proof.
  intros s HO HI. unfold parse, parseCore. rewrite (isAsAxisName_harmless s id o text eq_refl HO HI).
  assert (Hc : containsOp s = [o]) by (apply containsOp_one; exists id, text; split; [reflexivity|exact HO]). rewrite Hc.
  rewrite (splitOpOnce_unique s id o text eq_refl HO). destruct (startsOp s) as [[o' v']|]; reflexivity.
Qed.
Lemma parse_element_complete o sp text eq : let s := opStr o ++ sp ++ text in
  (sp = " " \/ sp = "" /\ forall r, text <> " " ++ r) -> longest s o -> noNewline text -> ~ occurs " is " s ->
  (eq = Some true \/ eq = None /\ forall o', ~ occurs (padded o') s) ->
  parse floatOf accepted s eq = Ok (mkQuery None (QCmp o (toFilter floatOf text))).
Proof.
  intros s Hsp HL HNL HI Heq. unfold parse, parseCore.
  assert (Hso : startsOp s = Some (o, text)).
  { unfold startsOp. rewrite (proj2 (firstOp_spec s o (sp ++ text)) (conj eq_refl HL)).
    destruct Hsp as [->|[-> Hsp]].
    - rewrite (proj2 (stripPrefix_spec " " (" " ++ text) text) eq_refl), (dotStar_id text HNL). reflexivity.
    - change ("" ++ text) with text. rewrite (proj2 (stripPrefix_none " " text) Hsp). rewrite (dotStar_id text HNL). reflexivity. }
  rewrite (startsOp_notIs _ _ _ Hso), (proj2 (containsIs_nil s) HI), Hso. cbn [orb].
  destruct Heq as [->|[-> HN]].
  - rewrite Bool.orb_true_r. reflexivity.
  - rewrite (proj2 (containsOp_nil s) HN). reflexivity.
Qed.

(** completeness: is *)
Lemma space_occurs a b : occurs " " (a ++ " " ++ b).
Proof. exists a, b. reflexivity. Qed.
Lemma spaceless_no w a b f : spaceless f -> f = a ++ (String " "%char w) ++ b -> False.
Proof. intros H E. apply H. exists a, (w ++ b). exact E. Qed.
Lemma app_split a : forall b c d, a ++ b = c ++ d -> (exists w, a = c ++ w /\ d = w ++ b) \/ (exists w, c = a ++ w /\ b = w ++ d).
Proof.
  induction a as [|x a IH]; intros b c d H.
  - right. exists c. auto.
  - destruct c as [|y c].
    + left. exists (String x a). auto.
    + cbn [String.append] in H. injection H as <- H. destruct (IH b c d H) as [[w [-> ->]]|[w [-> ->]]]; [left|right]; exists w; auto.
Qed.
Lemma padded_isTail neg f a o b : spaceless f -> isWord neg ++ f = a ++ padded o ++ b -> False.
Proof.
  intros HS H.
    assert (P : forall x, exists y, padded o ++ x = y ++ " " ++ x) by (intros x; exists (" " ++ opStr o); unfold padded; rewrite !app_assoc_s; reflexivity).
    assert (K : forall x, f = x ++ padded o ++ b -> False) by (intros x E; apply HS; exists x, (opStr o ++ " " ++ b); rewrite E; unfold padded; rewrite !app_assoc_s; reflexivity).
    assert (K2 : f = opStr o ++ " " ++ b -> False) by (intros E; apply HS; exists (opStr o), b; exact E).
    destruct neg.
    - destruct a as [|c1 [|c2 [|c3 [|c4 [|c5 [|c6 [|c7 a]]]]]]]; try (destruct o; discriminate H).
      + apply K2. change (isWord true ++ f) with ("is not" ++ " " ++ f) in H.
        change (String c1 (String c2 (String c3 (String c4 (String c5 (String c6 ""))))) ++ padded o ++ b)
          with (String c1 (String c2 (String c3 (String c4 (String c5 (String c6 "")))))  ++ (" " ++ opStr o ++ " ") ++ b) in H.
        rewrite !app_assoc_s in H. cbn [String.append] in H. injection H as _ _ _ _ _ _ H. exact H.
      + apply (K a). cbn [isWord String.append] in H. injection H as _ _ _ _ _ _ _ H. exact H.
    - destruct a as [|c1 [|c2 [|c3 a]]]; try (destruct o; discriminate H).
      + apply K2. unfold padded in H. rewrite !app_assoc_s in H. cbn [isWord String.append] in H. injection H as _ _ H. exact H.
      + apply (K a). cbn [isWord String.append] in H. injection H as _ _ _ H. exact H.
Qed.
Lemma is_after_op n : forall neg f a o b, spaceless f -> n ++ " " ++ isWord neg ++ f = a ++ padded o ++ b -> occurs "is " b.
Proof.
  assert (OC : forall x neg f, occurs "is " (x ++ isWord neg ++ f)).
  { intros x neg f. destruct neg; [exists x, ("not " ++ f)|exists x, f]; reflexivity. }
  induction n as [|c n IH]; intros neg f a o b HS H.
  - destruct a as [|x a]; [exfalso; destruct neg, o; discriminate H|]. exfalso. cbn [String.append] in H. injection H as _ H. exact (padded_isTail neg f a o b HS H).
  - destruct a as [|x a]; [|cbn [String.append] in H; injection H as _ H; exact (IH neg f a o b HS H)].
    clear IH. unfold padded in H. rewrite !app_assoc_s in H. cbn [String.append] in H. injection H as _ H.
    destruct (app_split _ _ _ _ H) as [[w [-> E]]|[w [E1 E2]]].
    + destruct w as [|y w]; cbn [String.append] in E; [injection E as E|injection E as _ E]; subst b; [exact (OC "" neg f)|].
      destruct (OC (w ++ " ") neg f) as [p [q G]]. rewrite app_assoc_s in G. exists p, q. exact G.
    + destruct w as [|y w].
      * cbn [String.append] in E2. injection E2 as E2. subst b. exact (OC "" neg f).
      * exfalso. destruct o, n as [|n1 [|n2 [|n3 n]]], w as [|w1 [|w2 w]]; try discriminate E1; try discriminate E2; cbn in E1; injection E1; intros; subst; discriminate E2.
Qed.
(** no " is " begins inside the tail of " is [not] f" *)
Lemma scan_spaceless f : spaceless f -> scan isAt f = [] /\ isAt (" " ++ f) = None.
Proof.
  intros HS. split.
  - apply scan_nil. intros a b ->. apply isAt_none. intros t ->. apply HS. exists a, ("is " ++ t). reflexivity.
  - apply isAt_none. intros t E. cbn [String.append] in E. injection E as E. apply HS. exists "is", t. exact E.
Qed.
Lemma scan_isTail neg f : spaceless f -> scan isAt (isWord neg ++ f) = [].
Proof.
  intros HS. destruct (scan_spaceless f HS) as [H1 H2]. apply scan_nil. intros a b E. apply isAt_none. intros t ->.
  assert (N : forall x y, f = x ++ " " ++ y -> False) by (intros x y ->; apply HS; apply space_occurs).
  destruct neg.
  - destruct a as [|c1 [|c2 [|c3 [|c4 [|c5 [|c6 [|c7 a]]]]]]]; try discriminate E.
    + cbn [isWord String.append] in E. injection E as _ _ _ _ _ _ E. exact (N "is" t E).
    + cbn [isWord String.append] in E. injection E as _ _ _ _ _ _ _ E. exact (N a ("is " ++ t) E).
  - destruct a as [|c1 [|c2 [|c3 a]]]; try discriminate E.
    + cbn [isWord String.append] in E. injection E as _ _ E. exact (N "is" t E).
    + cbn [isWord String.append] in E. injection E as _ _ _ E. exact (N a ("is " ++ t) E).
Qed.
Lemma rev_last {A} (l : list A) x : rev (app l [x]) = x :: rev l.
Proof. rewrite rev_app_distr. reflexivity. Qed.
Lemma not_prefix f t : spaceless f -> " is not " ++ t = " is " ++ f -> False.
Proof. intros HS E. cbn [String.append] in E. injection E as E. apply HS. exists "not", t. symmetry. exact E. Qed.
Lemma containsIs_last n neg f : spaceless f -> exists l, containsIs (n ++ " " ++ isWord neg ++ f) = app l [" " ++ isWord neg].
Proof.
  intros HS. unfold containsIs. destruct (scan_app _ isAt n (" " ++ isWord neg ++ f)) as [l E]. rewrite E. exists l. f_equal.
  change (" " ++ isWord neg ++ f) with (String " " (isWord neg ++ f)). cbn [scan]. rewrite (scan_isTail neg f HS), app_nil_r.
  destruct neg.
  - unfold isAt. rewrite (proj2 (stripPrefix_spec " is not " (String " " (isWord true ++ f)) f) eq_refl). reflexivity.
  - unfold isAt. rewrite (proj2 (stripPrefix_none " is not " (String " " (isWord false ++ f)))).
    + rewrite (proj2 (stripPrefix_spec " is " (String " " (isWord false ++ f)) f) eq_refl). reflexivity.
    + intros r C. apply (not_prefix f r HS). symmetry. exact C.
Qed.
Lemma splitLast_is n neg f : spaceless f -> splitLast (" " ++ isWord neg) (n ++ " " ++ isWord neg ++ f) = Some (n, f).
Proof.
  intros HS. change (" " ++ isWord neg ++ f) with (String " " (isWord neg ++ f)). apply splitLast_app; [reflexivity|].
  intros [a [b E]]. pose proof (scan_isTail neg f HS) as H. rewrite scan_nil in H. specialize (H a _ E). rewrite isAt_none in H.
  destruct neg; [apply (H ("not " ++ b))|apply (H b)]; reflexivity.
Qed.
Lemma parse_is_complete n neg f eq : spaceless f -> accepted f = true -> eq <> Some true ->
  parse floatOf accepted (n ++ " " ++ isWord neg ++ f) eq = Ok (mkQuery (Some n) (QIs f neg)).
Proof.
  intros HS HA Heq. set (s := n ++ " " ++ isWord neg ++ f). unfold parse, parseCore.
  destruct (containsIs_last n neg f HS) as [l Hl]. fold s in Hl.
  assert (Hax : isAsAxisName s = false).
  { unfold isAsAxisName. destruct (containsIs s) as [|i0 l0] eqn:Ei; [destruct l; discriminate|].
    replace (match startsIs s with Some _ => match containsOp s with _ :: _ => false | [] => false end | None => false end) with false
      by (destruct (startsIs s); [destruct (containsOp s)|]; reflexivity).
    cbn [orb]. destruct l0; [|reflexivity]. destruct (containsOp s) as [|o [|o' ?]] eqn:Eo; try reflexivity.
    apply containsOp_one in Eo. destruct Eo as [id [text [Hs HO]]]. rewrite (split1_unique s id o text Hs HO).
    rewrite (proj2 (searchIs_spec text)); [reflexivity|]. exact (is_after_op n neg f id o text HS Hs). }
  rewrite Hax. rewrite Hl. rewrite rev_last.
  assert (HL : splitLast (" " ++ isWord neg) s = Some (n, f)) by (exact (splitLast_is n neg f HS)).
  assert (EN : String.eqb (" " ++ isWord neg) " is not " = neg) by (destruct neg; reflexivity).
  replace (match app l [" " ++ isWord neg] with [] => match startsIs s with None => true | Some _ => false end | _ :: _ => false end) with false by (destruct l; reflexivity).
  cbn [orb]. rewrite HL, HA, EN.
  assert (G : match startsIs s with
     | Some (neg0, f0) => match app l [" " ++ isWord neg] with
         | [] => match containsOp s with [] => if accepted f0 then Some (mkQuery None (QIs f0 neg0)) else None | _ :: _ => Some (mkQuery (Some n) (QIs f neg)) end
         | _ :: _ => Some (mkQuery (Some n) (QIs f neg)) end
     | None => Some (mkQuery (Some n) (QIs f neg)) end = Some (mkQuery (Some n) (QIs f neg))).
  { destruct (startsIs s) as [[? ?]|]; [|reflexivity]. destruct l; reflexivity. }
  rewrite G. cbn [qIdent]. destruct eq as [[]|]; [contradiction|reflexivity|reflexivity].
Qed.
Lemma parse_isElement_complete neg f eq : spaceless f -> noNewline f -> accepted f = true -> eq <> Some false ->
  parse floatOf accepted (isWord neg ++ f) eq = Ok (mkQuery None (QIs f neg)).
Proof.
  intros HS HNL HA Heq. set (s := isWord neg ++ f). unfold parse, parseCore.
  assert (Hi : containsIs s = []) by (exact (scan_isTail neg f HS)).
  assert (Hsi : startsIs s = Some (neg, f)).
  { unfold startsIs, s. destruct neg.
    - rewrite (proj2 (stripPrefix_spec "is not " (isWord true ++ f) f) eq_refl), (dotStar_id f HNL). reflexivity.
    - rewrite (proj2 (stripPrefix_none "is not " (isWord false ++ f))).
      + rewrite (proj2 (stripPrefix_spec "is " (isWord false ++ f) f) eq_refl), (dotStar_id f HNL). reflexivity.
      + intros r C. apply (not_prefix f r HS). cbn [isWord String.append] in *. congruence. }
  assert (Ho : containsOp s = []).
  { apply containsOp_nil. intros o [a [b E]]. exact (padded_isTail neg f a o b HS E). }
  rewrite Hi, Hsi, Ho. unfold isAsAxisName. rewrite Hi, Hsi, Ho. cbn [orb]. rewrite HA. cbn [qIdent].
  destruct eq as [[]|]; [reflexivity|contradiction|reflexivity].
Qed.
End Q.
