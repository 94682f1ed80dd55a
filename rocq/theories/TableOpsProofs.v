From Verif Require Import Base NamesModel NamesSpec NamesProofs NamesIndexProofs
  TableModel TableSpec TableProofs TablePermProofs TableOps TableSortProofs TableInsertProofs.
From Coq Require DecimalNat.
From Coq Require Import DecimalString Ascii Sorted.

(** ** transpose *)
Lemma setNames_list_accept_Inv a l :
  List.length l = alen a -> snd (setNames a (AList l) ONone) = Ok tt ->
  Inv (fst (setNames a (AList l) ONone)).
Proof.
  intros Hl. simpl. unfold setNames_all.
  destruct (negb _) eqn:En; [discriminate|].
  destruct (alen a =? 0) eqn:E0; simpl.
  { intros _. apply Nat.eqb_eq in E0. unfold Inv; simpl. rewrite E0; repeat split; try constructor; simpl; try discriminate.
    destruct i; discriminate. }
  destruct (listToDict 0 _ []) as [its|] eqn:E; simpl; [|discriminate].
  destruct (buildReverse _ _ _ _) eqn:E'; simpl; [|discriminate]. intros _.
  assert (Hit : wfdict its /\ NoDup (map snd its)).
  { apply (listToDict_inv _ _ _ _ E); [constructor|constructor|simpl; tauto]. }
  eapply buildReverse_Inv; eauto; apply Hit.
Qed.

Lemma transferAxis n junk src : Inv src -> alen src = n ->
  let a := fst (setNames (mkAxis n junk) (namesArg (getNamesNoGeneration src)) ONone) in
  Inv a /\ alen a = n /\ getNames a = getNames src.
Proof.
  intros Hs Hn. unfold getNamesNoGeneration. destruct (namesCreated src) eqn:E; cbn [namesArg].
  - destruct (setNames_list_accept (mkAxis n junk) (map to_newname (getNames src))) as [A B].
    { rewrite map_length, getNames_length; auto. }
    { apply list_acceptable_names, Inv_names_distinct; auto. }
    split; [|split].
    + apply setNames_list_accept_Inv; auto. rewrite map_length, getNames_length; auto.
    + apply setNames_list_len.
    + rewrite B, newname_opt_to; auto.
  - rewrite (names_all_default src Hs E), Hn.
    simpl. unfold setNames_all. simpl. unfold Inv; simpl.
    destruct (n =? 0) eqn:E0; simpl.
    + apply Nat.eqb_eq in E0; subst n; rewrite E0; simpl; repeat split; auto.
    + repeat split; auto.
Qed.

Section Tr.
Variable V : Type.
Implicit Types t : table V.

Lemma appendEach_nth : forall (cols : list (list V)) row j, List.length row = List.length cols ->
  nth_error (appendEach cols row) j =
  match nth_error cols j, nth_error row j with Some c, Some v => Some (c ++ [v]) | _, _ => None end.
Proof.
  induction cols as [|c cols IH]; intros [|v row] j H; simpl in *; try discriminate.
  - destruct j; auto.
  - destruct j; simpl; auto.
Qed.
Lemma appendEach_length : forall (cols : list (list V)) row, List.length (appendEach cols row) = List.length cols.
Proof. induction cols as [|c cols IH]; intros [|v row]; simpl; auto. Qed.

Lemma transposeRows_gen (rs : list (list V)) : forall cols,
  (forall r, In r rs -> List.length r = List.length cols) ->
  List.length (fold_left appendEach rs cols) = List.length cols /\
  forall j c, nth_error cols j = Some c ->
    nth_error (fold_left appendEach rs cols) j =
    Some (c ++ flat_map (fun r => match nth_error r j with Some v => [v] | None => [] end) rs).
Proof.
  induction rs as [|r rs IH]; intros cols H; simpl.
  - split; auto. intros j c Hj; rewrite app_nil_r; auto.
  - destruct (IH (appendEach cols r)) as [A B].
    { intros r' Hr'. rewrite appendEach_length. apply H; simpl; auto. }
    rewrite appendEach_length in A. split; auto.
    intros j c Hj. assert (Hr : List.length r = List.length cols) by (apply H; simpl; auto).
    destruct (nth_error_is_some r (i := j)) as [v Hv].
    { rewrite Hr. eapply nth_error_lt; eauto. }
    rewrite (B j (c ++ [v])).
    + rewrite Hv, <- app_assoc; auto.
    + rewrite appendEach_nth, Hj, Hv; auto.
Qed.
Lemma transposeRows_nth t j : wf t ->
  nth_error (transposeRows (alen (tf t)) (rows t)) j = if j <? alen (tf t) then Some (column t j) else None.
Proof.
  intros [_ [H2 _]]. unfold transposeRows.
  destruct (transposeRows_gen (rows t) (repeat [] (alen (tf t)))) as [A B].
  { intros r Hr; rewrite repeat_length; auto. }
  rewrite repeat_length in A.
  destruct (Nat.ltb_spec j (alen (tf t))) as [Hj|Hj].
  - rewrite (B j []); [reflexivity|apply nth_error_repeat; auto].
  - apply nth_error_None. rewrite A; auto.
Qed.

Lemma transpose_spec t : wf t ->
  wf (transpose t) /\
  (forall i j, cell (transpose t) j i = cell t i j) /\
  alen (tp (transpose t)) = alen (tf t) /\ alen (tf (transpose t)) = alen (tp t) /\
  getNames (tp (transpose t)) = getNames (tf t) /\ getNames (tf (transpose t)) = getNames (tp t).
Proof.
  intros Hwf. pose proof Hwf as [H1 [H2 [H3 H4]]].
  destruct (transferAxis (alen (tf t)) (astate (tp t)) (tf t) H4 eq_refl) as [A1 [A2 A3]].
  destruct (transferAxis (alen (tp t)) (astate (tf t)) (tp t) H3 eq_refl) as [B1 [B2 B3]].
  assert (HL : List.length (transposeRows (alen (tf t)) (rows t)) = alen (tf t)).
  { apply nth_error_length_eq. intros i. rewrite transposeRows_nth by auto.
    destruct (Nat.ltb_spec i (alen (tf t))); split; intros; auto; try discriminate; lia. }
  assert (W : wf (transpose t)).
  { unfold wf, transpose; cbn [rows tp tf]. rewrite A2, B2. split; [auto|]. split; [|auto].
    intros r Hr. apply In_nth_error in Hr; destruct Hr as [j Hj]. rewrite transposeRows_nth in Hj by auto.
    destruct (Nat.ltb_spec j (alen (tf t))) as [Hlt|]; [|discriminate]. injection Hj as <-.
    apply (sortData_length V Pts t j Hwf Hlt). }
  split; [auto|]. split; [|unfold transpose; cbn [tp tf]; auto].
  intros i j. unfold cell at 1. unfold transpose; cbn [rows].
  rewrite transposeRows_nth by auto. destruct (Nat.ltb_spec j (alen (tf t))) as [Hj|Hj].
  - apply column_nth_wf; auto.
  - unfold cell. destruct (nth_error (rows t) i) as [r|] eqn:E; auto.
    symmetry; apply nth_error_None. rewrite (H2 r); auto. eapply nth_error_In; eauto.
Qed.

Lemma cells_rows t t' : wf t -> wf t' -> alen (tp t) = alen (tp t') -> alen (tf t) = alen (tf t') ->
  (forall i j, cell t i j = cell t' i j) -> rows t = rows t'.
Proof.
  intros [A1 [A2 _]] [B1 [B2 _]] Hp Hf HC. apply nth_error_ext_len; [congruence|].
  intros i Hi. destruct (nth_error_is_some _ Hi) as [r Hr].
  destruct (nth_error_is_some (rows t') (i := i)) as [r' Hr']; [rewrite B1, <- Hp, <- A1; auto|].
  rewrite Hr, Hr'. f_equal. apply nth_error_ext; intros j. specialize (HC i j). unfold cell in HC.
  rewrite Hr, Hr' in HC; auto.
Qed.

Lemma transpose_involutive t : wf t ->
  rows (transpose (transpose t)) = rows t /\
  alen (tp (transpose (transpose t))) = alen (tp t) /\ alen (tf (transpose (transpose t))) = alen (tf t) /\
  getNames (tp (transpose (transpose t))) = getNames (tp t) /\
  getNames (tf (transpose (transpose t))) = getNames (tf t).
Proof.
  intros Hwf. destruct (transpose_spec t Hwf) as [W [C [L1 [L2 [N1 N2]]]]].
  destruct (transpose_spec (transpose t) W) as [W' [C' [L1' [L2' [N1' N2']]]]].
  split; [|repeat split; congruence].
  apply cells_rows; auto; try congruence.
Qed.
End Tr.

(** ** repeat *)
Definition dec10 (n : nat) : string := NilEmpty.string_of_uint (Nat.to_uint n).
Lemma dec10_inj m n : dec10 m = dec10 n -> m = n.
Proof.
  unfold dec10; intros H. apply (f_equal NilEmpty.uint_of_string) in H.
  rewrite !NilEmpty.usu in H. injection H as H. apply DecimalNat.Unsigned.to_uint_inj; auto.
Qed.
Fixpoint noUnderscore (s : string) : Prop :=
  match s with EmptyString => True | String c s' => c <> "_"%char /\ noUnderscore s' end.
Lemma dec10_noUnderscore n : noUnderscore (dec10 n).
Proof.
  unfold dec10. induction (Nat.to_uint n); simpl; auto; split; auto; discriminate.
Qed.
Lemma split_underscore : forall a b x y,
  noUnderscore x -> noUnderscore y -> (a ++ "_" ++ x = b ++ "_" ++ y)%string -> a = b /\ x = y.
Proof.
  assert (G : forall a x y, noUnderscore y -> (y = a ++ "_" ++ x)%string -> False).
  { induction a as [|c a IH]; intros x y Hy E; subst y; simpl in Hy; destruct Hy as [Hc Hy]; [congruence|].
    apply (IH x _ Hy); reflexivity. }
  induction a as [|c a IH]; intros [|d b] x y Hx Hy H; simpl in H.
  - injection H as ->; auto.
  - injection H as <- H. exfalso. eapply G; [exact Hx|exact H].
  - injection H as -> H. exfalso. eapply (G a x y); auto.
  - injection H as <- H. destruct (IH b x y Hx Hy H) as [-> ->]; auto.
Qed.
Lemma repName_inj s1 s2 i1 i2 : repName dec10 s1 i1 = repName dec10 s2 i2 -> s1 = s2 /\ i1 = i2.
Proof.
  unfold repName; intros H. apply split_underscore in H; try apply dec10_noUnderscore.
  destruct H as [-> H]. apply dec10_inj in H. split; auto. 
Qed.

Lemma flat_map_const_nth {A B} (f : A -> list B) (l : list A) m i :
  (forall x, In x l -> List.length (f x) = m) -> 0 < m ->
  nth_error (flat_map f l) i =
  match nth_error l (i / m) with Some x => nth_error (f x) (i mod m) | None => None end.
Proof.
  intros H Hm. revert i; induction l as [|x xs IH]; intros i; simpl.
  - destruct i; destruct (_ / _); auto.
  - rewrite nth_error_app, (H x) by (simpl; auto).
    destruct (Nat.ltb_spec i m) as [Hi|Hi].
    + rewrite Nat.div_small, Nat.mod_small by auto. simpl; auto.
    + rewrite IH by (intros; apply H; simpl; auto).
      assert (Ed : i / m = S ((i - m) / m)).
      { replace i with ((i - m) + 1 * m) at 1 by lia. rewrite Nat.div_add by lia. lia. }
      assert (Em : i mod m = (i - m) mod m).
      { replace i with ((i - m) + 1 * m) at 1 by lia. rewrite Nat.mod_add by lia. auto. }
      rewrite Ed, Em. reflexivity.
Qed.
Lemma flat_map_const_length {A B} (f : A -> list B) (l : list A) m :
  (forall x, In x l -> List.length (f x) = m) -> List.length (flat_map f l) = m * List.length l.
Proof.
  induction l as [|x xs IH]; simpl; intros H; [lia|].
  rewrite app_length, H, IH; auto. lia.
Qed.

(** Source position of entry j of a repeated axis. *)
Definition repSource (vv : bool) (total n j : nat) : nat := if vv then j / total else j mod n.
Definition repCopy (vv : bool) (total n j : nat) : nat := if vv then j mod total else j / n.

Lemma repeatVec_nth {A} total vv (l : list A) j : 0 < total ->
  nth_error (repeatVec total vv l) j =
  if j <? total * List.length l then nth_error l (repSource vv total (List.length l) j) else None.
Proof.
  intros Ht. unfold repeatVec, repSource. destruct vv.
  - rewrite flat_map_const_nth with (m := total); auto; [|intros; apply repeat_length].
    destruct (Nat.ltb_spec j (total * List.length l)) as [Hj|Hj].
    + assert (j / total < List.length l) by (apply Nat.div_lt_upper_bound; lia).
      destruct (nth_error_is_some l H) as [x Hx]. rewrite Hx.
      apply nth_error_repeat. apply Nat.mod_upper_bound; lia.
    + rewrite (proj2 (nth_error_None l (j / total))); auto. apply Nat.div_le_lower_bound; lia.
  - destruct l as [|x xs].
    + simpl. rewrite Nat.mul_0_r. replace (flat_map (fun _ => []) (seq 0 total)) with (@nil A).
      * destruct j; auto.
      * induction (seq 0 total); simpl; auto.
    + remember (x :: xs) as l. assert (0 < List.length l) by (subst; simpl; lia).
      rewrite flat_map_const_nth with (m := List.length l); auto. rewrite nth_error_seq.
      destruct (Nat.ltb_spec j (total * List.length l)) as [Hj|Hj].
      * assert (j / List.length l < total) by (apply Nat.div_lt_upper_bound; lia).
        rewrite (proj2 (Nat.ltb_lt _ _)); auto.
      * assert (total <= j / List.length l) by (apply Nat.div_le_lower_bound; lia).
        rewrite (proj2 (Nat.ltb_ge _ _)); auto.
Qed.
Lemma repeatVec_length {A} total vv (l : list A) : List.length (repeatVec total vv l) = total * List.length l.
Proof.
  unfold repeatVec; destruct vv.
  - rewrite flat_map_const_length with (m := total); auto. intros; apply repeat_length.
  - rewrite flat_map_const_length with (m := List.length l); auto. rewrite seq_length; lia.
Qed.

Definition repNm (o : option string) (i : nat) : option string :=
  match o with Some s => Some (repName dec10 s i) | None => None end.

Lemma repNames_nth total vv names l j : 0 < total -> repNames dec10 total vv names = Ok l ->
  nth_error l j = if j <? total * List.length names then
     option_map (fun o => repNm o (repCopy vv total (List.length names) j))
       (nth_error names (repSource vv total (List.length names) j)) else None.
Proof.
  intros Ht. unfold repNames. destruct (existsb _ names); [discriminate|].
  intros [= <-]. unfold repSource, repCopy.
  destruct vv.
  - rewrite flat_map_const_nth with (m := total); auto; [|intros; rewrite map_length, seq_length; auto].
    destruct (Nat.ltb_spec j (total * List.length names)) as [Hj|Hj].
    + assert (j / total < List.length names) by (apply Nat.div_lt_upper_bound; lia).
      destruct (nth_error_is_some names H) as [x Hx]. rewrite Hx; simpl.
      rewrite nth_error_map_eq, nth_error_seq.
      rewrite (proj2 (Nat.ltb_lt _ _)) by (apply Nat.mod_upper_bound; lia). reflexivity.
    + rewrite (proj2 (nth_error_None names (j / total))); auto. apply Nat.div_le_lower_bound; lia.
  - destruct names as [|x xs].
    + simpl. rewrite Nat.mul_0_r. replace (flat_map (fun _ : nat => []) (seq 0 total)) with (@nil (option string)).
      * destruct j; auto.
      * induction (seq 0 total); simpl; auto.
    + remember (x :: xs) as names. assert (0 < List.length names) by (subst; simpl; lia).
      rewrite flat_map_const_nth with (m := List.length names); auto; [|intros; apply map_length].
      rewrite nth_error_seq.
      destruct (Nat.ltb_spec j (total * List.length names)) as [Hj|Hj].
      * assert (j / List.length names < total) by (apply Nat.div_lt_upper_bound; lia).
        rewrite (proj2 (Nat.ltb_lt _ _)), nth_error_map_eq by auto. simpl.
        destruct (nth_error names (j mod List.length names)); auto.
      * assert (total <= j / List.length names) by (apply Nat.div_le_lower_bound; lia).
        rewrite (proj2 (Nat.ltb_ge _ _)); auto.
Qed.
