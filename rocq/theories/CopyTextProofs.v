(** Proofs for C72: which texts ask for which format. *)
From Verif Require Import Base NamesModel TableModel MatchModel IdentModel CsvTextModel CsvTextProofs CopyModel CopySpec.
From Verif Require LogModel.
From Coq Require Import List Ascii String. Import ListNotations.
Open Scope string_scope. Open Scope list_scope. Open Scope nat_scope.

Definition squash (t : text) : text := without "."%char (without " "%char t).
Definition low (t : text) : text := map LogModel.lower t.
Lemma str_inj (a b : text) : str a = str b -> a = b.
Proof. unfold str. intros H. rewrite <- (list_ascii_of_string_of_list_ascii a), H. apply list_ascii_of_string_of_list_ascii. Qed.
Lemma str_eqb (a b : text) : String.eqb (str a) (str b) = true <-> a = b.
Proof. rewrite String.eqb_eq. split; [apply str_inj|congruence]. Qed.

Lemma char_table (P : ascii -> bool) : forallb P (map ascii_of_nat (seq 0 256)) = true -> forall c, P c = true.
Proof.
  intros H c. rewrite forallb_forall in H. apply H. apply in_map_iff. exists (nat_of_ascii c). rewrite ascii_nat_embedding. split; auto.
  apply in_seq. pose proof (nat_ascii_bounded c). lia.
Qed.
Lemma blank_Blank c : blank c = true <-> Blank c.
Proof.
  unfold blank, Blank. cbn [In]. rewrite !orb_true_iff, !andb_true_iff, Nat.eqb_eq, !Nat.leb_le. lia.
Qed.
Lemma blank_lower c : blank (LogModel.lower c) = blank c.
Proof.
  apply eqb_prop. revert c. apply (char_table (fun c => Bool.eqb (blank (LogModel.lower c)) (blank c))). vm_compute. reflexivity.
Qed.
Lemma lower_sep c : (LogModel.lower c = " "%char -> c = " "%char) /\ (LogModel.lower c = "."%char -> c = "."%char).
Proof.
  assert (H : forall c, (if Ascii.eqb (LogModel.lower c) " " then Ascii.eqb c " " else true) && (if Ascii.eqb (LogModel.lower c) "." then Ascii.eqb c "." else true) = true)
    by (apply char_table; vm_compute; reflexivity).
  specialize (H c). apply andb_prop in H. destruct H as [A B]. split; intros E; rewrite E in *.
  - rewrite Ascii.eqb_refl in A. apply Ascii.eqb_eq. exact A.
  - rewrite Ascii.eqb_refl in B. apply Ascii.eqb_eq. exact B.
Qed.
Lemma lower_cases c : LogModel.lower c = c \/ (65 <= nat_of_ascii c <= 90 /\ nat_of_ascii (LogModel.lower c) = nat_of_ascii c + 32).
Proof.
  unfold LogModel.lower. destruct ((65 <=? nat_of_ascii c) && (nat_of_ascii c <=? 90)) eqn:E; [right|left; auto].
  apply andb_prop in E. rewrite !Nat.leb_le in E. split; [lia|]. apply nat_ascii_embedding. lia.
Qed.

(** the names of the formats: lower case letters *)
Definition plain (n : text) : Prop := forall c, In c n -> LogModel.lower c = c /\ blank c = false /\ c <> "."%char /\ c <> " "%char.
Lemma plain_table : forall f n, rawName f = Some n -> plain (chars n).
Proof.
  intros f n E. assert (H : forallb (fun c => Ascii.eqb (LogModel.lower c) c && negb (blank c) && negb (Ascii.eqb c ".") && negb (Ascii.eqb c " ")) (chars n) = true).
  { destruct f as [k| | | |[]| | |]; injection E as <- || discriminate; vm_compute; reflexivity. }
  intros c I. pose proof (proj1 (forallb_forall _ _) H c I) as X. rewrite !andb_true_iff, !negb_true_iff, Ascii.eqb_eq in X.
  destruct X as (((A & B) & C) & D). split; auto. split; auto. split; intros ->; discriminate.
Qed.

Lemma squash_cons c t : squash (c :: t) = if Ascii.eqb c " " || Ascii.eqb c "." then squash t else c :: squash t.
Proof.
  unfold squash, without. cbn [filter]. destruct (Ascii.eqb c " ") eqn:A; cbn [negb orb]; auto. cbn [filter].
  destruct (Ascii.eqb c "."); reflexivity.
Qed.
Lemma Spells_squash core n : plain n -> Spells core n <-> squash (low core) = n.
Proof.
  intros P. split.
  - intros H. induction H as [|c s n E H IH|c s n H IH|c d s n A B H IH]; [reflexivity| | |]; unfold low in *; cbn [map].
    + rewrite squash_cons. assert (L : LogModel.lower c = c) by (destruct E as [-> | ->]; reflexivity). rewrite L.
      replace (Ascii.eqb c " " || Ascii.eqb c ".") with true; auto. destruct E as [-> | ->]; reflexivity.
    + destruct (P c) as (L & _ & D1 & D2); [left; auto|]. rewrite squash_cons, L.
      rewrite (proj2 (Ascii.eqb_neq c " ") D2), (proj2 (Ascii.eqb_neq c ".") D1). cbn [orb]. rewrite IH; auto. intros x X. apply P. right; auto.
    + destruct (P d) as (L & _ & D1 & D2); [left; auto|].
      assert (E : LogModel.lower c = d).
      { unfold LogModel.lower. replace ((65 <=? nat_of_ascii c) && (nat_of_ascii c <=? 90)) with true.
        - rewrite <- B. apply ascii_nat_embedding.
        - symmetry. rewrite andb_true_iff, !Nat.leb_le. lia. }
      rewrite squash_cons, E. rewrite (proj2 (Ascii.eqb_neq d " ") D2), (proj2 (Ascii.eqb_neq d ".") D1). cbn [orb]. rewrite IH; auto. intros x X. apply P. right; auto.
  - revert n P. induction core as [|c core IH]; intros n P E.
    + cbn in E. subst. constructor.
    + unfold low in E. cbn [map] in E. rewrite squash_cons in E. destruct (lower_sep c) as [S1 S2].
      destruct (Ascii.eqb (LogModel.lower c) " ") eqn:A.
      * apply Ascii.eqb_eq in A. apply sp_skip; [left; auto|]. apply IH; auto.
      * destruct (Ascii.eqb (LogModel.lower c) ".") eqn:B.
        -- apply Ascii.eqb_eq in B. apply sp_skip; [right; auto|]. apply IH; auto.
        -- cbn [orb] in E. subst n. assert (P' : plain (squash (low core))) by (intros x X; apply P; right; auto).
           destruct (lower_cases c) as [L|[L1 L2]].
           ++ rewrite L. apply sp_same. apply IH; auto.
           ++ apply sp_upper; auto.
Qed.

Lemma dropBlanks_app a t : (forall c, In c a -> blank c = true) -> dropBlanks (a ++ t) = dropBlanks t.
Proof. induction a as [|c a IH]; intros H; auto. cbn [app dropBlanks]. rewrite (H c) by (left; auto). apply IH. intros x X. apply H. right; auto. Qed.
Lemma dropBlanks_split t : exists a, t = a ++ dropBlanks t /\ forall c, In c a -> blank c = true.
Proof.
  induction t as [|c t (a & E & H)]; [exists []; split; [reflexivity|intros c []]|]. cbn [dropBlanks]. destruct (blank c) eqn:B.
  - exists (c :: a). split; [cbn [app]; congruence|]. intros x [<-|X]; auto.
  - exists []. split; [reflexivity|intros x []].
Qed.
Lemma dropBlanks_nil_or t b : dropBlanks (t ++ b) = dropBlanks t ++ b \/ (dropBlanks t = [] /\ dropBlanks (t ++ b) = dropBlanks b).
Proof. induction t as [|c t IH]; [right; auto|]. cbn [app dropBlanks]. destruct (blank c); [exact IH|left; reflexivity]. Qed.
Lemma strip_around a t b : (forall c, In c a -> blank c = true) -> (forall c, In c b -> blank c = true) -> strip (a ++ t ++ b) = strip t.
Proof.
  intros A B. unfold strip. rewrite dropBlanks_app by auto. destruct (dropBlanks_nil_or t b) as [E|[E1 E2]].
  - rewrite E, rev_app_distr, dropBlanks_app; auto. intros c X. apply B. apply in_rev. exact X.
  - rewrite E2, E1. replace (dropBlanks b) with ([] : text); auto. clear - B. induction b as [|c b IH]; auto. cbn [dropBlanks]. rewrite (B c) by (left; auto). apply IH. intros x X; apply B; right; auto.
Qed.
Lemma strip_split t : exists a b, t = a ++ strip t ++ b /\ (forall c, In c a -> blank c = true) /\ (forall c, In c b -> blank c = true).
Proof.
  destruct (dropBlanks_split t) as (a & E & A). destruct (dropBlanks_split (rev (dropBlanks t))) as (b & F & B).
  exists a, (rev b). split; [|split; auto].
  - rewrite E at 1. f_equal. unfold strip. rewrite <- rev_app_distr, <- F, rev_involutive. reflexivity.
  - intros c X. apply B. apply in_rev. exact X.
Qed.
Lemma squash_app a b : squash (a ++ b) = squash a ++ squash b.
Proof. unfold squash, without. rewrite !filter_app. reflexivity. Qed.
Lemma squash_spaces a : (forall c, In c a -> c = " "%char) -> squash a = [].
Proof. induction a as [|c a IH]; intros H; auto. rewrite squash_cons, (H c) by (left; auto). cbn. apply IH. intros x X; apply H; right; auto. Qed.
Lemma squash_strip t : (forall c, In c t -> blank c = true -> c = " "%char) -> squash (strip t) = squash t.
Proof.
  intros H. destruct (strip_split t) as (a & b & E & A & B).
  rewrite E at 2. rewrite !squash_app, (squash_spaces a), (squash_spaces b); [rewrite app_nil_r; reflexivity| |].
  - intros c X. apply H; [|auto]. rewrite E. apply in_or_app. right. apply in_or_app. auto.
  - intros c X. apply H; [|auto]. rewrite E. apply in_or_app. auto.
Qed.
Lemma squash_In c t : In c t -> c = " "%char \/ c = "."%char \/ In c (squash t).
Proof.
  intros I. destruct (Ascii.eqb c " ") eqn:A; [left; apply Ascii.eqb_eq; auto|]. destruct (Ascii.eqb c ".") eqn:B; [right; left; apply Ascii.eqb_eq; auto|].
  right; right. unfold squash, without. apply filter_In. split; [|rewrite B; auto]. apply filter_In. rewrite A. auto.
Qed.
Lemma low_split s a core b : low s = a ++ core ++ b -> exists a0 c0 b0, s = a0 ++ c0 ++ b0 /\ low a0 = a /\ low c0 = core /\ low b0 = b.
Proof.
  intros E. exists (firstn (List.length a) s), (firstn (List.length core) (skipn (List.length a) s)), (skipn (List.length core) (skipn (List.length a) s)).
  split; [rewrite !firstn_skipn; reflexivity|]. unfold low in *. rewrite <- !firstn_map, <- !skipn_map, E.
  rewrite firstn_app, Nat.sub_diag, firstn_all, skipn_app, Nat.sub_diag, skipn_all. cbn [firstn skipn app]. rewrite app_nil_r.
  rewrite firstn_app, Nat.sub_diag, firstn_all, skipn_app, Nat.sub_diag, skipn_all. cbn [firstn skipn app]. rewrite app_nil_r. auto.
Qed.

Lemma normal_spec s n : plain n ->
  squash (strip (low s)) = n <->
  exists a core b, s = a ++ core ++ b /\ (forall c, In c (a ++ b) -> Blank c) /\ Spells core n.
Proof.
  intros P. split.
  - intros E. destruct (strip_split (low s)) as (a & b & F & A & B). destruct (low_split s a (strip (low s)) b F) as (a0 & c0 & b0 & -> & L1 & L2 & L3).
    exists a0, c0, b0. split; auto. split.
    + intros c X. apply blank_Blank. rewrite <- blank_lower. apply in_app_or in X. destruct X as [X|X].
      * apply A. rewrite <- L1. apply in_map. auto.
      * apply B. rewrite <- L3. apply in_map. auto.
    + apply Spells_squash; auto. rewrite L2. exact E.
  - intros (a & core & b & -> & B & S). apply Spells_squash in S; auto. unfold low. rewrite !map_app.
    assert (BL : forall l c, (forall x, In x l -> Blank x) -> In c (map LogModel.lower l) -> blank c = true).
    { intros l c H X. apply in_map_iff in X. destruct X as (x & <- & X). rewrite blank_lower. apply blank_Blank. auto. }
    rewrite strip_around.
    + fold (low core). rewrite squash_strip; auto. intros c X Y. destruct (squash_In c (low core) X) as [Z|[Z|Z]]; auto.
      * subst c. discriminate.
      * rewrite S in Z. destruct (P c Z) as (_ & Q & _). congruence.
    + intros c. apply BL. intros x X. apply B. apply in_or_app. auto.
    + intros c. apply BL. intros x X. apply B. apply in_or_app. auto.
Qed.

Lemma lookFormat_In t l f : lookFormat t l = Some f -> In (t, f) l.
Proof.
  induction l as [|[n g] l IH]; cbn [lookFormat]; [discriminate|]. destruct (String.eqb (str t) (str n)) eqn:E.
  - apply str_eqb in E. subst. intros [= ->]. left; auto.
  - intros H. right. auto.
Qed.
Lemma formats_spec t f : lookFormat t formats = Some f <-> exists n, rawName f = Some n /\ t = chars n.
Proof.
  split.
  - intros H. apply lookFormat_In in H. cbn [In formats] in H.
    repeat match goal with H : _ \/ _ |- _ => destruct H as [H|H] end; try (injection H as <- <-; eexists; split; reflexivity). destruct H.
  - intros (n & E & ->). destruct f as [k| | | |[]| | |]; injection E as <- || discriminate; vm_compute; reflexivity.
Qed.
Lemma nimble_spec t f : lookFormat t nimbleTypes = Some f <-> exists k, f = FNimble k /\ t = chars (typeName k).
Proof.
  split.
  - intros H. apply lookFormat_In in H. cbn [In nimbleTypes] in H.
    repeat match goal with H : _ \/ _ |- _ => destruct H as [H|H] end; try (injection H as <- <-; eexists; split; [reflexivity|reflexivity]). destruct H.
  - intros (k & -> & ->). destruct k; vm_compute; reflexivity.
Qed.
Lemma Asks_raw o s f n : rawName f = Some n ->
  Asks o (ToText s) f <-> squash (strip (low s)) = chars n.
Proof. intros E. unfold Asks. rewrite E. rewrite normal_spec; [reflexivity|eapply plain_table; eauto]. Qed.
Lemma resolve_spec o to f : resolve (kindOf o) to = Ok f <-> Asks o to f.
Proof.
  destruct to as [|s|]; [cbn; split; congruence| |cbn; split; [discriminate|tauto]].
  unfold resolve. fold (low s). change (without "." (without " " (strip (low s)))) with (squash (strip (low s))).
  destruct (lookFormat s nimbleTypes) as [g|] eqn:N.
  - pose proof (proj1 (nimble_spec s g) N) as (k & -> & ->). split.
    + intros [= <-]. cbn. reflexivity.
    + destruct f as [k'| | | | | | |]; [cbn; destruct k, k'; cbn; intros; try reflexivity; discriminate| | | | | | |];
        intros A; exfalso;
        try match goal with s : spfmt |- _ => destruct s end;
        (erewrite Asks_raw in A; [|reflexivity]); destruct k; vm_compute in A; discriminate A.
  - destruct (lookFormat (squash (strip (low s))) formats) as [g|] eqn:F.
    + pose proof (proj1 (formats_spec _ g) F) as (n & E & X). split.
      * intros [= <-]. eapply Asks_raw; eauto.
      * intros A. destruct (rawName f) as [n'|] eqn:E'.
        -- apply (Asks_raw o s f n' E') in A. assert (lookFormat (squash (strip (low s))) formats = Some f) by (apply formats_spec; exists n'; auto). congruence.
        -- destruct f as [k| | | |[]| | |]; try discriminate. cbn in A. assert (lookFormat s nimbleTypes = Some (FNimble k)) by (apply nimble_spec; exists k; auto). congruence.
    + split; [discriminate|]. intros A. destruct (rawName f) as [n'|] eqn:E'.
      * apply (Asks_raw o s f n' E') in A. assert (lookFormat (squash (strip (low s))) formats = Some f) by (apply formats_spec; exists n'; auto). congruence.
      * destruct f as [k| | | |[]| | |]; try discriminate. cbn in A. assert (lookFormat s nimbleTypes = Some (FNimble k)) by (apply nimble_spec; exists k; auto). congruence.
Qed.
Lemma resolve_err o to e : resolve (kindOf o) to = Err e -> e = match to with ToOther => InvalidArgumentType | _ => InvalidArgumentValue end.
Proof.
  destruct to as [|s|]; unfold resolve; try congruence. destruct (lookFormat s nimbleTypes); [intros H; discriminate H|]. destruct (lookFormat _ formats); congruence.
Qed.
