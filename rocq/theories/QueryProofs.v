From Verif Require Import Base NamesModel NamesSpec NamesProofs TableModel TableSpec TableProofs TableOps MatchModel MatchSpec MatchProofs QueryModel QuerySpec.
Open Scope string_scope.

Lemma app_assoc_s a b c : (a ++ b) ++ c = a ++ b ++ c.
Proof. induction a as [|x a IH]; [reflexivity|]. simpl. rewrite IH. reflexivity. Qed.
Lemma app_nil_s a : a ++ "" = a.
Proof. induction a as [|x a IH]; [reflexivity|]. simpl. rewrite IH. reflexivity. Qed.
Lemma app_inv_s a b c : a ++ b = a ++ c -> b = c.
Proof. induction a as [|x a IH]; intros H; [exact H|]. simpl in H. injection H as H. auto. Qed.
Lemma app_len a b : String.length (a ++ b) = (String.length a + String.length b)%nat.
Proof. induction a as [|x a IH]; [reflexivity|]. simpl. rewrite IH. reflexivity. Qed.

Lemma stripPrefix_spec p s r : stripPrefix p s = Some r <-> s = p ++ r.
Proof.
  revert s. induction p as [|a p IH]; intros s; simpl.
  - split; intros H; congruence.
  - destruct s as [|b s]; [split; discriminate|]. destruct (Ascii.eqb a b) eqn:E.
    + apply Ascii.eqb_eq in E. subst. rewrite IH. split; intros H; congruence.
    + apply Ascii.eqb_neq in E. split; [discriminate|]. intros H. congruence.
Qed.
Lemma stripPrefix_none p s : stripPrefix p s = None <-> forall r, s <> p ++ r.
Proof.
  split.
  - intros H r C. apply stripPrefix_spec in C. congruence.
  - intros H. destruct (stripPrefix p s) as [r|] eqn:E; [|reflexivity]. apply stripPrefix_spec in E. exfalso. exact (H r E).
Qed.
Lemma dotStar_spec s : exists rest, s = dotStar s ++ rest /\ noNewline (dotStar s) /\ ignored rest.
Proof.
  induction s as [|c s IH]; simpl.
  - exists "". split; [reflexivity|]. split; [|left; reflexivity]. intros [a [b H]]. destruct a; discriminate.
  - destruct (Ascii.eqb c newline) eqn:E.
    + apply Ascii.eqb_eq in E. subst. exists (String newline s). split; [reflexivity|]. split; [|right; eauto].
      intros [a [b H]]. destruct a; discriminate.
    + destruct IH as [rest [H1 [H2 H3]]]. exists rest. split; [simpl; f_equal; exact H1|]. split; [|exact H3].
      intros [a [b H]]. destruct a as [|x a]; simpl in H.
      * injection H as H _. apply Ascii.eqb_neq in E. contradiction.
      * injection H as _ H. apply H2. exists a, b. exact H.
Qed.
Lemma dotStar_id s : noNewline s -> dotStar s = s.
Proof.
  induction s as [|c s IH]; intros H; simpl; [reflexivity|]. destruct (Ascii.eqb c newline) eqn:E.
  - exfalso. apply Ascii.eqb_eq in E. subst. apply H. exists "", s. reflexivity.
  - rewrite IH; [reflexivity|]. intros [a [b ->]]. apply H. exists (String c a), b. reflexivity.
Qed.

(** scanning *)
Section Scan.
Variable A : Type.
Variable f : string -> option A.
Lemma scan_In s x : In x (scan f s) <-> exists a b, s = a ++ b /\ f b = Some x.
Proof.
  induction s as [|c s IH].
  - simpl. rewrite app_nil_r. split.
    + destruct (f "") eqn:E; intros H; [|contradiction]. destruct H as [<-|[]]. exists "", "". auto.
    + intros [a [b [H Hb]]]. destruct a; [|discriminate]. simpl in H. subst b. rewrite Hb. left. reflexivity.
  - cbn [scan]. rewrite in_app_iff, IH. split.
    + intros [H|[a [b [-> Hb]]]].
      * destruct (f (String c s)) eqn:E; [|contradiction]. destruct H as [<-|[]]. exists "", (String c s). auto.
      * exists (String c a), b. auto.
    + intros [a [b [H Hb]]]. destruct a as [|c' a]; simpl in H.
      * subst b. left. rewrite Hb. left. reflexivity.
      * injection H as <- ->. right. eauto.
Qed.
Lemma scan_nil s : scan f s = [] <-> forall a b, s = a ++ b -> f b = None.
Proof.
  split.
  - intros H a b ->. destruct (f b) eqn:E; [|reflexivity]. exfalso.
    assert (C : In a0 (scan f (a ++ b))) by (apply scan_In; eauto). rewrite H in C. exact C.
  - intros H. destruct (scan f s) as [|x l] eqn:E; [reflexivity|]. exfalso.
    assert (C : In x (scan f s)) by (rewrite E; left; reflexivity). apply scan_In in C. destruct C as [a [b [H1 H2]]].
    rewrite (H a b H1) in H2. discriminate.
Qed.
Lemma scan_app a b : exists l, scan f (a ++ b) = app l (scan f b).
Proof.
  induction a as [|c a [l IH]]; [exists []; reflexivity|]. cbn [scan String.append]. rewrite IH. eexists. rewrite app_assoc. reflexivity.
Qed.
(** exactly one match *)
Lemma scan_unique s x : scan f s = [x] -> exists a b, s = a ++ b /\ f b = Some x /\ (forall a' b', s = a' ++ b' -> f b' <> None -> a' = a /\ b' = b).
Proof.
  induction s as [|c s IH]; intros H.
  - simpl in H. rewrite app_nil_r in H. destruct (f "") as [y|] eqn:E; [|discriminate]. injection H as ->. exists "", "".
    split; [reflexivity|]. split; [exact E|]. intros a' b' H _. destruct a'; [|discriminate]. auto.
  - cbn [scan] in H. destruct (f (String c s)) as [y|] eqn:E; simpl in H.
    + injection H as -> H. exists "", (String c s). split; [reflexivity|]. split; [exact E|]. intros a' b' Hs Hn.
      destruct a' as [|c' a']; [simpl in Hs; auto|]. exfalso. simpl in Hs. injection Hs as _ Hs. rewrite scan_nil in H. apply Hn. exact (H a' b' Hs).
    + destruct (IH H) as [a [b [H1 [H2 H3]]]]. exists (String c a), b. split; [simpl; congruence|]. split; [exact H2|].
      intros a' b' Hs Hn. destruct a' as [|c' a']; simpl in Hs.
      * subst b'. congruence.
      * injection Hs as <- Hs. destruct (H3 a' b' Hs Hn) as [-> ->]. auto.
Qed.
Lemma scan_unique_intro a b x : f b = Some x -> (forall a' b', a ++ b = a' ++ b' -> f b' <> None -> a' = a) -> scan f (a ++ b) = [x].
Proof.
  revert b. induction a as [|c a IH]; intros b Hb Hu.
  - simpl. assert (T : match b with "" => [] | String _ r => scan f r end = []).
    { destruct b as [|c b']; [reflexivity|]. apply scan_nil. intros a' b2 Hs. destruct (f b2) eqn:E; [|reflexivity].
      specialize (Hu (String c a') b2). simpl in Hu. rewrite Hs in Hu. assert (G : String c a' = "") by (apply Hu; [reflexivity|congruence]). discriminate. }
    destruct b; cbn [scan]; rewrite Hb; simpl; [reflexivity|]. rewrite T. reflexivity.
  - cbn [scan String.append]. destruct (f (String c (a ++ b))) eqn:E.
    + exfalso. specialize (Hu "" (String c (a ++ b)) eq_refl). assert (G : "" = String c a) by (apply Hu; congruence). discriminate.
    + simpl. apply IH; [exact Hb|]. intros a' b' Hs Hn. specialize (Hu (String c a') b'). simpl in Hu. rewrite Hs in Hu.
      specialize (Hu eq_refl Hn). congruence.
Qed.
End Scan.

(** operators *)
Lemma firstPadded_in os s o t : firstPadded os s = Some (o, t) -> In o os /\ s = padded o ++ t.
Proof.
  induction os as [|x os IH]; cbn [firstPadded]; [discriminate|]. destruct (stripPrefix (padded x) s) as [r|] eqn:E.
  - intros H. injection H as <- <-. split; [left; reflexivity|]. apply stripPrefix_spec. exact E.
  - intros H. destruct (IH H). split; [right; assumption|assumption].
Qed.
Lemma firstPadded_ops o t : firstPadded ops (padded o ++ t) = Some (o, t).
Proof. destruct o; reflexivity. Qed.
Lemma firstPadded_spec s o t : firstPadded ops s = Some (o, t) <-> s = padded o ++ t.
Proof. split; [intros H; apply (firstPadded_in ops); exact H|intros ->; apply firstPadded_ops]. Qed.
Lemma opAt_spec s o : opAt s = Some o <-> exists t, s = padded o ++ t.
Proof.
  unfold opAt. split.
  - destruct (firstPadded ops s) as [[o' t]|] eqn:E; [|discriminate]. intros H. injection H as ->. exists t. apply firstPadded_spec. exact E.
  - intros [t ->]. rewrite firstPadded_ops. reflexivity.
Qed.
Lemma opAt_none s : opAt s = None -> forall o t, s <> padded o ++ t.
Proof. intros H o t ->. rewrite (proj2 (opAt_spec _ o)) in H; [discriminate|eauto]. Qed.
Lemma padded_inj o o' t t' : padded o ++ t = padded o' ++ t' -> o = o' /\ t = t'.
Proof. intros H. pose proof (firstPadded_ops o t) as E. rewrite H, firstPadded_ops in E. injection E as -> ->. auto. Qed.

(** containsOp = [o] exactly when one padded operator *)
Lemma containsOp_one s o : containsOp s = [o] <-> exists id text, s = id ++ padded o ++ text /\ onlyOperator s id o.
Proof.
  unfold containsOp. split.
  - intros H. destruct (scan_unique _ _ _ _ H) as [a [b [H1 [H2 H3]]]]. apply opAt_spec in H2. destruct H2 as [t ->].
    exists a, t. split; [exact H1|]. intros a' o' b' Hs. assert (N : opAt (padded o' ++ b') <> None) by (rewrite (proj2 (opAt_spec _ o')); [discriminate|eauto]).
    destruct (H3 a' _ Hs N) as [-> E]. apply padded_inj in E. tauto.
  - intros [id [text [-> HO]]]. apply scan_unique_intro; [apply opAt_spec; eauto|].
    intros a' b' Hs Hn. destruct (opAt b') as [o'|] eqn:E; [|contradiction]. apply opAt_spec in E. destruct E as [t ->].
    exact (proj1 (HO a' o' t Hs)).
Qed.
Lemma containsOp_nil s : containsOp s = [] <-> forall o, ~ occurs (padded o) s.
Proof.
  unfold containsOp. rewrite scan_nil. split.
  - intros H o [a [b Hs]]. pose proof (H a _ Hs) as C. exact (opAt_none _ C o b eq_refl).
  - intros H a b Hs. destruct (opAt b) as [o|] eqn:E; [|reflexivity]. apply opAt_spec in E. destruct E as [t ->]. exfalso. apply (H o). exists a, t. exact Hs.
Qed.
Lemma containsOp_len1 s : (List.length (containsOp s) =? 1)%nat = true <-> exists o, containsOp s = [o].
Proof.
  rewrite Nat.eqb_eq. split.
  - destruct (containsOp s) as [|o [|o' l]]; try discriminate. eauto.
  - intros [o ->]. reflexivity.
Qed.
Lemma splitOp_spec s : match splitOp s with
  | Some (a, o, b) => s = a ++ padded o ++ b
  | None => forall o, ~ occurs (padded o) s
  end.
Proof.
  assert (G : forall c t, firstPadded ops (String c t) = None -> (forall o, ~ occurs (padded o) t) -> forall o, ~ occurs (padded o) (String c t)).
  { intros c t E H o [a [b Hs]]. destruct a as [|x a].
    - simpl in Hs. assert (C : firstPadded ops (String c t) = Some (o, b)) by (apply firstPadded_spec; exact Hs). congruence.
    - simpl in Hs. injection Hs as _ Hs. apply (H o). exists a, b. exact Hs. }
  induction s as [|c s IH]; cbn [splitOp].
  - destruct (firstPadded ops "") as [[o r]|] eqn:E; [apply firstPadded_spec in E; exact E|].
    intros o [a [b Hs]]. destruct a; [|discriminate]. destruct o; discriminate.
  - destruct (firstPadded ops (String c s)) as [[o r]|] eqn:E; [apply firstPadded_spec in E; exact E|].
    destruct (splitOp s) as [[[a o] b]|]; [change (String c s = String c (a ++ padded o ++ b)); congruence|]. apply G; assumption.
Qed.
Lemma splitOpOnce_unique s id o text : s = id ++ padded o ++ text -> onlyOperator s id o -> splitOpOnce s = Some (id, o, text).
Proof.
  intros Hs HO. unfold splitOpOnce. pose proof (splitOp_spec s) as H. destruct (splitOp s) as [[[a o'] b]|].
  - destruct (HO a o' b H) as [-> ->]. assert (b = text).
    { rewrite H in Hs. apply app_inv_s in Hs. apply app_inv_s in Hs. exact Hs. } subst b.
    pose proof (splitOp_spec text) as H2. destruct (splitOp text) as [[[a2 o2] b2]|]; [|reflexivity]. exfalso.
    assert (E : s = (id ++ padded o ++ a2) ++ padded o2 ++ b2) by (rewrite Hs, H2, !app_assoc_s; reflexivity).
    destruct (HO _ _ _ E) as [C _]. assert (L : String.length (id ++ padded o ++ a2) = String.length id) by (rewrite C; reflexivity).
    rewrite !app_len in L. destruct o; simpl in L; lia.
  - exfalso. apply (H o). exists id, text. exact Hs.
Qed.
Lemma splitOpOnce_sound s id o text : splitOpOnce s = Some (id, o, text) -> s = id ++ padded o ++ text.
Proof.
  unfold splitOpOnce. pose proof (splitOp_spec s) as H. destruct (splitOp s) as [[[a o'] b]|]; [|discriminate].
  destruct (splitOp b); [discriminate|]. intros E. injection E as <- <- <-. exact H.
Qed.

(** is *)
Lemma isAt_spec s x : isAt s = Some x -> exists neg t, x = " " ++ isWord neg /\ s = " " ++ isWord neg ++ t.
Proof.
  unfold isAt. destruct (stripPrefix " is not " s) as [r|] eqn:E.
  - intros H. injection H as <-. apply stripPrefix_spec in E. exists true, r. auto.
  - destruct (stripPrefix " is " s) as [r|] eqn:E2; [|discriminate]. intros H. injection H as <-. apply stripPrefix_spec in E2.
    exists false, r. auto.
Qed.
Lemma isAt_none s : isAt s = None <-> forall t, s <> " is " ++ t.
Proof.
  unfold isAt. split.
  - intros H t ->. destruct (stripPrefix " is not " (" is " ++ t)) eqn:E; [discriminate|]. 
    rewrite (proj2 (stripPrefix_spec " is " _ t) eq_refl) in H. discriminate.
  - intros H. destruct (stripPrefix " is not " s) as [r|] eqn:E.
    + apply stripPrefix_spec in E. exfalso. exact (H _ E).
    + rewrite (proj2 (stripPrefix_none _ _)); [reflexivity|exact H].
Qed.
Lemma containsIs_nil s : containsIs s = [] <-> ~ occurs " is " s.
Proof.
  unfold containsIs. rewrite scan_nil. split.
  - intros H [a [b Hs]]. pose proof (H a _ Hs) as C. rewrite isAt_none in C. exact (C b eq_refl).
  - intros H a b Hs. apply isAt_none. intros t ->. apply H. exists a, t. exact Hs.
Qed.
Lemma searchIs_spec s : searchIs s = true <-> occurs "is " s.
Proof.
  unfold searchIs. rewrite Bool.negb_true_iff, Nat.eqb_neq. split.
  - intros H. destruct (scan (fun t => stripPrefix "is " t) s) as [|x l] eqn:E; [simpl in H; contradiction|].
    assert (C : In x (scan (fun t => stripPrefix "is " t) s)) by (rewrite E; left; reflexivity).
    apply scan_In in C. destruct C as [a [b [-> Hb]]]. apply stripPrefix_spec in Hb. subst. exists a, x. reflexivity.
  - intros [a [b ->]]. assert (C : In b (scan (fun t => stripPrefix "is " t) (a ++ "is " ++ b))).
    { apply scan_In. exists a, ("is " ++ b). split; [reflexivity|]. apply stripPrefix_spec. reflexivity. }
    destruct (scan _ _); [contradiction|]. discriminate.
Qed.
Lemma splitFirst_spec sep s : match splitFirst sep s with
  | Some (a, b) => s = a ++ sep ++ b
  | None => ~ occurs sep s
  end.
Proof.
  induction s as [|c s IH]; cbn [splitFirst].
  - destruct (stripPrefix sep "") as [r|] eqn:E; [apply stripPrefix_spec in E; exact E|].
    intros [a [b Hs]]. destruct a; [|discriminate]. rewrite stripPrefix_none in E. exact (E b Hs).
  - destruct (stripPrefix sep (String c s)) as [r|] eqn:E; [apply stripPrefix_spec in E; exact E|].
    destruct (splitFirst sep s) as [[a b]|]; [simpl; congruence|]. intros [a [b Hs]]. destruct a as [|x a].
    + rewrite stripPrefix_none in E. exact (E b Hs).
    + simpl in Hs. injection Hs as _ Hs. apply IH. exists a, b. exact Hs.
Qed.
Lemma splitLast_spec sep s : match splitLast sep s with
  | Some (a, b) => s = a ++ sep ++ b
  | None => ~ occurs sep s
  end.
Proof.
  induction s as [|c s IH]; cbn [splitLast].
  - destruct (stripPrefix sep "") as [r|] eqn:E; [apply stripPrefix_spec in E; exact E|].
    intros [a [b Hs]]. destruct a; [|discriminate]. rewrite stripPrefix_none in E. exact (E b Hs).
  - destruct (splitLast sep s) as [[a b]|]; [simpl; congruence|].
    destruct (stripPrefix sep (String c s)) as [r|] eqn:E; [apply stripPrefix_spec in E; exact E|].
    intros [a [b Hs]]. destruct a as [|x a].
    + rewrite stripPrefix_none in E. exact (E b Hs).
    + simpl in Hs. injection Hs as _ Hs. apply IH. exists a, b. exact Hs.
Qed.
Lemma splitLast_app sep a c t r : String c t = sep ++ r -> ~ occurs sep t -> splitLast sep (a ++ String c t) = Some (a, r).
Proof.
  intros E N. induction a as [|x a IH].
  - cbn [String.append splitLast]. pose proof (splitLast_spec sep t) as H. destruct (splitLast sep t) as [[p q]|].
    + exfalso. apply N. exists p, q. exact H.
    + rewrite (proj2 (stripPrefix_spec sep _ r) E). reflexivity.
  - cbn [String.append splitLast]. rewrite IH. reflexivity.
Qed.
Lemma split1_unique s id o text : s = id ++ padded o ++ text -> onlyOperator s id o -> split1 (padded o) s = Some text.
Proof.
  intros Hs HO. unfold split1. pose proof (splitFirst_spec (padded o) s) as H. destruct (splitFirst (padded o) s) as [[a b]|].
  - destruct (HO a o b H) as [-> _]. assert (b = text).
    { rewrite H in Hs. apply app_inv_s in Hs. apply app_inv_s in Hs. exact Hs. } subst b.
    pose proof (splitFirst_spec (padded o) text) as H2. destruct (splitFirst (padded o) text) as [[a2 b2]|]; [|reflexivity]. exfalso.
    assert (E : s = (id ++ padded o ++ a2) ++ padded o ++ b2) by (rewrite Hs, H2, !app_assoc_s; reflexivity).
    destruct (HO _ _ _ E) as [C _]. assert (L : String.length (id ++ padded o ++ a2) = String.length id) by (rewrite C; reflexivity).
    rewrite !app_len in L. destruct o; simpl in L; lia.
  - exfalso. apply H. exists id, text. exact Hs.
Qed.
