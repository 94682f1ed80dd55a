From Verif Require Import Base NamesModel NamesSpec.

Lemma ensure_len a : alen (ensure a) = alen a.
Proof. unfold ensure; destruct (namesCreated a); auto. Qed.
Lemma ensure_created a : exists d inv, astate (ensure a) = Some (d, inv).
Proof.
  unfold ensure, namesCreated; destruct (astate a) as [[d inv]|] eqn:E; simpl; eauto.
Qed.
Lemma ensure_Inv a : Inv a -> Inv (ensure a).
Proof.
  unfold ensure, Inv, namesCreated.
  destruct (astate a) as [[d inv]|] eqn:E; simpl.
  - rewrite E; auto.
  - intros _; rewrite repeat_length; repeat split; try constructor.
    + simpl; discriminate.
    + intros H; apply nth_error_In, repeat_spec in H; discriminate.
Qed.
Lemma names_inv_ensure a : names_inv (ensure a) = names_inv a.
Proof.
  unfold ensure, names_inv, namesCreated. destruct (astate a) as [[d l]|] eqn:E; simpl; rewrite ?E; auto.
Qed.
Lemma names_dict_ensure a : names_dict (ensure a) = names_dict a.
Proof.
  unfold ensure, names_dict, namesCreated. destruct (astate a) as [[d l]|] eqn:E; simpl; rewrite ?E; auto.
Qed.
Lemma ensure_same a : SameNames (ensure a) a.
Proof.
  unfold SameNames. rewrite ensure_len.
  assert (H : ensure (ensure a) = ensure a).
  { unfold ensure at 1, namesCreated. destruct (ensure_created a) as [d [i ->]]; auto. }
  repeat split.
  - unfold getNames; rewrite H; auto.
  - intros id fl; unfold getIndex, getIndexByName; rewrite ensure_len, H; auto.
  - intros z; unfold getName; rewrite H; auto.
Qed.
Lemma SameNames_refl a : SameNames a a.
Proof. repeat split. Qed.

Lemma Inv_facts a : Inv a ->
  List.length (names_inv a) = alen a /\ wfdict (names_dict a) /\
  forall s i, dget s (names_dict a) = Some i <-> nth_error (names_inv a) i = Some (Some s).
Proof.
  intros H; apply ensure_Inv in H. unfold Inv in H.
  destruct (ensure_created a) as [d [inv E]]. rewrite E in H.
  rewrite <- names_inv_ensure, <- names_dict_ensure, <- (ensure_len a).
  unfold names_inv, names_dict; rewrite E; auto.
Qed.

Lemma getName_nat a i : getName a (Z.of_nat i) =
  match nth_error (getNames a) i with Some x => Ok x | None => Err IndexErr end.
Proof.
  unfold getName, getNames.
  destruct (Z.ltb_spec (Z.of_nat i) 0); [lia|].
  destruct (Z.ltb_spec (Z.of_nat i) 0); [lia|].
  rewrite Nat2Z.id; auto.
Qed.

Lemma Inv_Consistent a : Inv a -> Consistent a.
Proof.
  intros H; destruct (Inv_facts a H) as [Hl [Hw Hb]].
  assert (Hg : getNames a = names_inv a) by (unfold getNames; apply names_inv_ensure).
  unfold Consistent; rewrite Hg; split; [exact Hl|split; [|split]].
  - intros i Hi. rewrite getName_nat, Hg.
    destruct (nth_error_is_some (names_inv a) (i := i)) as [x Hx]; [lia|].
    rewrite Hx; eauto.
  - intros s i. rewrite getName_nat, Hg.
    unfold getIndex, getIndexByName; rewrite names_dict_ensure.
    split.
    + destruct (Z.eqb_spec (Z.of_nat (alen a)) 0); [discriminate|].
      destruct (dget s (names_dict a)) as [j|] eqn:E; simpl; [|discriminate].
      intros [= Hj]; apply Nat2Z.inj in Hj; subst j.
      apply Hb in E. rewrite E; split; auto. apply nth_error_lt in E; lia.
    + intros [Hi Hn].
      destruct (Z.eqb_spec (Z.of_nat (alen a)) 0); [lia|].
      destruct (nth_error (names_inv a) i) as [o|] eqn:E; [|discriminate].
      injection Hn as ->. apply Hb in E; rewrite E; auto.
  - intros i j s Hi Hj. apply Hb in Hi, Hj. congruence.
Qed.

(** ** The all-names path *)

(** Loop invariant of [buildReverse]. *)
Lemma buildReverse_inv count items : forall rev out st,
  buildReverse count items rev out = Ok st ->
  wfdict items -> NoDup (map snd items) ->
  List.length rev = count -> wfdict out ->
  (forall s, In (NStr s) (dkeys items) -> ~ In s (dkeys out)) ->
  (forall i, In (DInt (Z.of_nat i)) (map snd items) -> ~ In i (map snd out)) ->
  (forall s i, dget s out = Some i <-> nth_error rev i = Some (Some s)) ->
  Inv (mkAxis count (Some st)).
Proof.
  induction items as [|[name value] t IH]; simpl; intros rev out st H Hw Hv Hl Ho Hk Hi Hb.
  - injection H as <-; unfold Inv; simpl; auto.
  - destruct name as [s| |]; try discriminate.
    destruct value as [z|]; try discriminate.
    destruct (Z.ltb_spec z 0); simpl in H; [discriminate|].
    destruct (Z.leb_spec (Z.of_nat count) z); simpl in H; [discriminate|].
    unfold wfdict in Hw; simpl in Hw. inversion Hw as [|? ? Hw1 Hw2]; subst.
    inversion Hv as [|? ? Hv1 Hv2]; subst.
    assert (Hso : ~ In s (dkeys out)) by (apply Hk; auto).
    assert (Hzo : ~ In (Z.to_nat z) (map snd out)).
    { apply Hi. left. rewrite Z2Nat.id; auto. }
    revert H; rewrite <- dset_new by auto; intros H.
    eapply IH in H; auto.
    + apply upd_length.
    + apply wfdict_dset; auto.
    + intros s' Hs'. rewrite dkeys_dset.
      rewrite (proj2 (mem_not_In _ _) Hso).
      rewrite in_app_iff; simpl; intros [Hin|[->|[]]].
      * eapply Hk; eauto.
      * apply Hw1; auto.
    + intros i Hin. rewrite dset_new by auto. rewrite map_app, in_app_iff; simpl.
      intros [Hin'|[E|[]]].
      * eapply Hi; eauto.
      * apply Hv1. subst i. rewrite Z2Nat.id in Hin; auto.
    + intros s' i. rewrite dget_dset, nth_error_upd.
      destruct (Nat.eq_dec (Z.to_nat z) i) as [E|E].
      * subst i. destruct (Nat.ltb_spec (Z.to_nat z) (List.length rev)); [|lia].
        destruct (eq_dec s' s) as [->|]; [split; auto|].
        split; [|intros [= E]; congruence].
        intros Hg; exfalso; apply Hzo. apply dget_In in Hg.
        apply in_map_iff; exists (s', Z.to_nat z); auto.
      * destruct (eq_dec s' s) as [->|]; [|apply Hb].
        split; [intros [= E']; congruence|].
        intros Hn; apply Hb in Hn. exfalso; apply Hso.
        apply dget_In in Hn. unfold dkeys; apply in_map_iff; exists (s, i); auto.
Qed.

Lemma buildReverse_Inv count items st :
  buildReverse count items (repeat None count) [] = Ok st ->
  wfdict items -> NoDup (map snd items) -> Inv (mkAxis count (Some st)).
Proof.
  intros H Hw Hv. eapply buildReverse_inv; eauto.
  - apply repeat_length.
  - constructor.
  - simpl; intros s i; split; [discriminate|].
    intros Hn; apply nth_error_In, repeat_spec in Hn; discriminate.
Qed.

Lemma listToDict_inv l : forall i names names',
  listToDict i l names = Ok names' -> wfdict names -> NoDup (map snd names) ->
  (forall v, In v (map snd names) -> exists j, j < i /\ v = DInt (Z.of_nat j)) ->
  wfdict names' /\ NoDup (map snd names').
Proof.
  induction l as [|name t IH]; simpl; intros i names names' H Hw Hv Hlt.
  - injection H as <-; auto.
  - destruct (dmem name names) eqn:Hm; [discriminate|].
    assert (Hn : ~ In name (dkeys names)) by (apply mem_not_In; auto).
    assert (Hcase : (name = NNone /\ listToDict (S i) t names = Ok names') \/
              listToDict (S i) t (dset name (DInt (Z.of_nat i)) names) = Ok names')
      by (destruct name; auto).
    clear H. destruct Hcase as [[_ H]|H].
    + eapply IH; eauto. intros v Hin; destruct (Hlt v Hin) as [j [? ?]]; exists j; auto.
    + eapply IH in H; eauto.
      * apply wfdict_dset; auto.
      * rewrite dset_new by auto. rewrite map_app; simpl.
        apply Permutation_NoDup with (DInt (Z.of_nat i) :: map snd names).
        { apply Permutation_cons_append. }
        constructor; auto. intros Hin; destruct (Hlt _ Hin) as [j [? E]].
        injection E as E; lia.
      * rewrite dset_new by auto. intros v; rewrite map_app, in_app_iff; simpl.
        intros [Hin|[<-|[]]].
        { destruct (Hlt v Hin) as [j [? ?]]; exists j; auto. }
        { exists i; auto. }
Qed.

Lemma setNames_all_Inv a asg :
  Inv a -> NonColliding a asg ONone -> Inv (fst (setNames_all a asg)).
Proof.
  intros Ha Hc; unfold setNames_all.
  destruct (assignments_len asg =? alen a) eqn:El; simpl; auto.
  destruct (alen a =? 0) eqn:E0; simpl.
  { apply Nat.eqb_eq in E0; rewrite E0. unfold Inv; simpl; repeat split; try constructor; simpl.
    - discriminate.
    - intros H; destruct i; discriminate. }
  match goal with |- context[rbind ?x _] => destruct x as [items|] eqn:E; simpl; auto end.
  destruct (buildReverse _ _ _ _) eqn:E'; simpl; auto.
  assert (Hitems : wfdict items /\ NoDup (map snd items)).
  { destruct asg as [|s| |l|d];
      try (apply (listToDict_inv _ _ _ _ E); [constructor|constructor|simpl; tauto]).
    injection E as <-. destruct Hc; split; auto. apply wfdict_ddel; auto. }
  eapply buildReverse_Inv; eauto; apply Hitems.
Qed.

(** What an accepted list assignment does, and when it is accepted. *)
Definition list_acceptable (l : list newname) : Prop :=
  (forall n, In n l -> match n with NOther _ => False | _ => True end) /\
  (forall i j s, nth_error l i = Some (NStr s) -> nth_error l j = Some (NStr s) -> i = j).

Fixpoint enum_pairs (i : nat) (l : list newname) : list (string * nat) :=
  match l with
  | [] => []
  | NStr s :: t => (s, i) :: enum_pairs (S i) t
  | _ :: t => enum_pairs (S i) t
  end.

Definition emb (p : string * nat) : newname * dval := (NStr (fst p), DInt (Z.of_nat (snd p))).

Lemma dkeys_emb ps : dkeys (map emb ps) = map NStr (map fst ps).
Proof. unfold dkeys; rewrite !map_map; auto. Qed.

Lemma listToDict_accept l : forall i ps,
  (forall n, In n l -> match n with NOther _ => False | _ => True end) ->
  NoDup (map fst ps ++ map fst (enum_pairs i l)) ->
  listToDict i l (map emb ps) = Ok (map emb (ps ++ enum_pairs i l)).
Proof.
  induction l as [|name t IH]; simpl; intros i ps Hs Hd.
  - rewrite app_nil_r; auto.
  - destruct name as [s| |g].
    + simpl in Hd. assert (Hm : dmem (NStr s) (map emb ps) = false).
      { apply mem_not_In. rewrite dkeys_emb. intros Hin.
        apply in_map_iff in Hin; destruct Hin as [s' [[= ->] Hin]].
        apply NoDup_remove_2 in Hd. apply Hd, in_app_iff; auto. }
      rewrite Hm. rewrite dset_new by (apply mem_not_In; auto).
      change [(NStr s, DInt (Z.of_nat i))] with (map emb [(s, i)]).
      rewrite <- map_app, IH.
      * rewrite <- app_assoc; auto.
      * intros n Hn; apply Hs; auto.
      * rewrite map_app, <- app_assoc; auto.
    + assert (Hm : dmem NNone (map emb ps) = false).
      { apply mem_not_In. rewrite dkeys_emb. intros Hin.
        apply in_map_iff in Hin; destruct Hin as [s' [E _]]; discriminate. }
      rewrite Hm. apply IH; auto; intros n Hn; apply Hs; auto.
    + exfalso; apply (Hs (NOther g)); auto.
Qed.

Lemma buildReverse_accept count ps : forall rev out,
  (forall p, In p ps -> snd p < count) ->
  buildReverse count (map emb ps) rev out =
  Ok (out ++ ps, fold_left (fun r p => upd r (snd p) (Some (fst p))) ps rev).
Proof.
  induction ps as [|[s i] t IH]; simpl; intros rev out H.
  - rewrite app_nil_r; auto.
  - assert (Hi : i < count) by (apply (H (s, i)); auto).
    destruct (Z.ltb_spec (Z.of_nat i) 0); [lia|].
    destruct (Z.leb_spec (Z.of_nat count) (Z.of_nat i)); [lia|]. simpl.
    rewrite Nat2Z.id, IH by (intros; apply H; auto).
    rewrite <- app_assoc; auto.
Qed.

Lemma fold_upd_enum l : forall i rev,
  (forall n, In n l -> match n with NOther _ => False | _ => True end) ->
  skipn i rev = repeat None (List.length l) ->
  fold_left (fun r p => upd r (snd p) (Some (fst p))) (enum_pairs i l) rev
  = firstn i rev ++ map newname_opt l.
Proof.
  induction l as [|name t IH]; simpl; intros i rev Hs Hr.
  - rewrite app_nil_r. rewrite <- (firstn_skipn i rev) at 1. rewrite Hr, app_nil_r; auto.
  - assert (Hlen : List.length rev = i + S (List.length t)).
    { assert (Hq := f_equal (@List.length _) Hr). rewrite skipn_length in Hq.
      simpl in Hq. rewrite repeat_length in Hq. lia. }
    assert (Hni : nth_error rev i = Some None).
    { rewrite <- (Nat.add_0_r i), <- nth_error_skipn, Hr; auto. }
    assert (Hsk : forall x, skipn (S i) (upd rev i x) = repeat None (List.length t)).
    { intros x. apply nth_error_ext; intros k. rewrite nth_error_skipn.
      rewrite nth_error_upd_other by lia.
      replace (S i + k) with (i + S k) by lia. rewrite <- nth_error_skipn, Hr; auto. }
    assert (Hf : forall x, firstn (S i) (upd rev i x) = firstn i rev ++ [x]).
    { intros x; apply nth_error_ext; intros k.
      rewrite nth_error_firstn, nth_error_app, firstn_length, Nat.min_l, nth_error_firstn by lia.
      destruct (Nat.ltb_spec k (S i)), (Nat.ltb_spec k i); try lia.
      - rewrite nth_error_upd_other by lia; auto.
      - assert (k = i) as -> by lia. rewrite nth_error_upd_same, Nat.sub_diag by lia; auto.
      - symmetry; apply nth_error_None; simpl; lia. }
    destruct name as [s| |g]; simpl.
    + rewrite IH; [|intros; apply Hs; auto|apply Hsk].
      rewrite Hf, <- app_assoc; auto.
    + rewrite IH; [|intros; apply Hs; auto|].
      * assert (firstn (S i) rev = firstn i rev ++ [None]) as ->.
        { rewrite <- (Hf None). f_equal. apply nth_error_ext; intros k.
          destruct (Nat.eq_dec i k) as [<-|]; [rewrite nth_error_upd_same by lia; auto|].
          rewrite nth_error_upd_other; auto. }
        rewrite <- app_assoc; auto.
      * rewrite <- (Hsk None). f_equal. apply nth_error_ext; intros k.
        destruct (Nat.eq_dec i k) as [<-|]; [rewrite nth_error_upd_same by lia; auto|].
        rewrite nth_error_upd_other; auto.
    + exfalso; apply (Hs (NOther g)); auto.
Qed.

Lemma enum_pairs_spec l : forall i s j,
  In (s, j) (enum_pairs i l) <-> i <= j /\ nth_error l (j - i) = Some (NStr s).
Proof.
  induction l as [|name t IH]; intros i s j; simpl.
  - split; [tauto|]. intros [_ H]; destruct (j - i); discriminate.
  - assert (Hgen : In (s, j) (enum_pairs (S i) t) <-> i < j /\ nth_error (name :: t) (j - i) = Some (NStr s)).
    { rewrite IH. split; intros [H1 H2].
      - split; [lia|]. replace (j - i) with (S (j - S i)) by lia; auto.
      - split; [lia|]. replace (j - i) with (S (j - S i)) in H2 by lia; auto. }
    destruct name as [s'| |g]; simpl; rewrite Hgen; simpl.
    + split.
      * intros [[= -> ->]|[H1 H2]]; [rewrite Nat.sub_diag; auto|split; [lia|auto]].
      * intros [H1 H2]. destruct (Nat.eq_dec i j) as [->|]; [left; rewrite Nat.sub_diag in H2; simpl in H2; congruence|].
        right; split; [lia|auto].
    + split; intros [H1 H2]; [split; [lia|auto]|].
      destruct (Nat.eq_dec i j) as [->|]; [rewrite Nat.sub_diag in H2; discriminate|].
      split; [lia|auto].
    + split; intros [H1 H2]; [split; [lia|auto]|].
      destruct (Nat.eq_dec i j) as [->|]; [rewrite Nat.sub_diag in H2; discriminate|].
      split; [lia|auto].
Qed.

Lemma enum_pairs_nodup l : forall i,
  (forall j k s, nth_error l j = Some (NStr s) -> nth_error l k = Some (NStr s) -> j = k) ->
  NoDup (map fst (enum_pairs i l)).
Proof.
  induction l as [|name t IH]; intros i H; simpl; [constructor|].
  assert (IH' : NoDup (map fst (enum_pairs (S i) t))).
  { apply IH. intros j k s Hj Hk. specialize (H (S j) (S k) s Hj Hk); lia. }
  destruct name as [s| |g]; simpl; auto. constructor; auto.
  intros Hin. apply in_map_iff in Hin; destruct Hin as [[s' j] [E Hin]]; simpl in E; subst s'.
  apply enum_pairs_spec in Hin. destruct Hin as [_ Hin].
  specialize (H 0 (S (j - S i)) s eq_refl Hin); lia.
Qed.

Lemma setNames_list_accept a l :
  List.length l = alen a -> list_acceptable l ->
  snd (setNames a (AList l) ONone) = Ok tt /\
  getNames (fst (setNames a (AList l) ONone)) = map newname_opt l.
Proof.
  intros Hl [Hs Hd]; simpl; unfold setNames_all; simpl.
  rewrite Hl, Nat.eqb_refl; simpl.
  destruct (alen a =? 0) eqn:E0; simpl.
  { apply Nat.eqb_eq in E0. destruct l; simpl in *; [auto|lia]. }
  assert (HND := enum_pairs_nodup l 0 Hd).
  assert (E := @listToDict_accept l 0 [] Hs HND); simpl in E; rewrite E; simpl.
  rewrite buildReverse_accept.
  - simpl. split; auto. unfold getNames; simpl.
    rewrite fold_upd_enum; auto; simpl. rewrite Hl; auto.
  - intros [s j] Hin; simpl. apply enum_pairs_spec in Hin. destruct Hin as [_ Hin].
    rewrite Nat.sub_0_r in Hin. apply nth_error_lt in Hin; lia.
Qed.

Lemma listToDict_dup l : forall i names names',
  listToDict i l names = Ok names' ->
  (forall k n, nth_error l k = Some n -> n <> NNone -> In n (dkeys names')) /\
  (forall n, In n (dkeys names) -> In n (dkeys names')) /\
  (forall j k n, n <> NNone -> nth_error l j = Some n -> nth_error l k = Some n -> j = k) /\
  (forall k n, nth_error l k = Some n -> ~ In n (dkeys names)).
Proof.
  induction l as [|name t IH]; simpl; intros i names names' H.
  - injection H as <-. repeat split; intros; try (destruct k; discriminate); auto.
  - destruct (dmem name names) eqn:Hm; [discriminate|].
    apply mem_not_In in Hm.
    assert (Hcase : exists names1, listToDict (S i) t names1 = Ok names' /\
       (forall n, In n (dkeys names1) <-> In n (dkeys names) \/ (n = name /\ name <> NNone))).
    { destruct name as [s| |g].
      - eexists; split; [exact H|]. intros n; rewrite dset_new by auto; unfold dkeys; rewrite map_app, in_app_iff; simpl.
        intuition congruence.
      - eexists; split; [exact H|]. intuition congruence.
      - eexists; split; [exact H|]. intros n; rewrite dset_new by auto; unfold dkeys; rewrite map_app, in_app_iff; simpl.
        intuition congruence. }
    destruct Hcase as [names1 [H1 Hk]].
    destruct (IH _ _ _ H1) as [A [B [C D]]]. repeat split.
    + intros [|k] n Hn Hne; simpl in Hn.
      * injection Hn as <-. apply B, Hk; auto.
      * eapply A; eauto.
    + intros n Hn; apply B, Hk; auto.
    + intros [|j] [|k] n Hne Hj Hk'; auto; simpl in *.
      * injection Hj as <-. exfalso; eapply D; eauto. apply Hk; auto.
      * injection Hk' as <-. exfalso; eapply D; eauto. apply Hk; auto.
      * f_equal; eapply C; eauto.
    + intros [|k] n Hn; simpl in Hn.
      * injection Hn as <-; auto.
      * intros Hin; eapply D; eauto; apply Hk; auto.
Qed.

Lemma buildReverse_keys count items : forall rev out st,
  buildReverse count items rev out = Ok st ->
  forall n, In n (dkeys items) -> exists s, n = NStr s.
Proof.
  induction items as [|[name value] t IH]; simpl; intros rev out st H n Hn; [tauto|].
  destruct name as [s| |]; try discriminate. destruct value as [z|]; try discriminate.
  destruct (_ || _); try discriminate.
  destruct Hn as [<-|Hn]; eauto.
Qed.

Lemma setNames_list_reject a l :
  snd (setNames a (AList l) ONone) = Ok tt ->
  List.length l = alen a /\ list_acceptable l.
Proof.
  simpl; unfold setNames_all; simpl.
  destruct (Nat.eqb_spec (List.length l) (alen a)) as [Hl|]; simpl; [|discriminate].
  destruct (Nat.eqb_spec (alen a) 0) as [E0|E0]; simpl.
  { intros _; split; auto. destruct l; simpl in *; [|lia].
    split; simpl; [tauto|]. intros i; destruct i; discriminate. }
  destruct (listToDict 0 l []) as [items|] eqn:E; simpl; [|discriminate].
  destruct (buildReverse _ _ _ _) as [st|] eqn:E'; simpl; [|discriminate].
  intros _; split; auto. destruct (listToDict_dup _ _ _ _ E) as [A [B [C D]]]. split.
  - intros n Hn. destruct n as [| |g]; auto.
    apply In_nth_error in Hn; destruct Hn as [k Hk].
    apply A in Hk; [|discriminate].
    eapply buildReverse_keys in E'; eauto. destruct E'; discriminate.
  - intros i j s; apply C; discriminate.
Qed.

(** ** The oldIdentifiers path *)
Lemma resolveOld_spec a : forall ids olds, resolveOld a ids = Ok olds ->
  List.length olds = List.length ids /\
  forall k id, nth_error ids k = Some id ->
    exists o i, nth_error olds k = Some (o, Z.to_nat i) /\ getIndex a id false = Ok i /\
      o = match id with
         | IdStr s => if dmem s (names_dict a) then Some s
                      else nth (Z.to_nat i) (names_inv a) None
         | _ => nth (Z.to_nat i) (names_inv a) None
         end.
Proof.
  induction ids as [|id t IH]; simpl; intros olds H.
  - injection H as <-; split; auto. intros [|k]; discriminate.
  - destruct (getIndex a id false) as [z|] eqn:Hg; simpl in H; [|discriminate].
    destruct (resolveOld a t) as [rest|]; simpl in H; [|discriminate].
    injection H as <-. destruct (IH rest eq_refl) as [Hl Hn].
    split; [simpl; auto|]. intros [|k] id' Hk; simpl in *.
    + injection Hk as <-. eauto.
    + eauto.
Qed.

Lemma getIndex_range a id z : Inv a -> getIndex a id false = Ok z ->
  (0 <= z < Z.of_nat (alen a))%Z.
Proof.
  intros Ha. destruct (Inv_facts a Ha) as [Hl [Hw Hb]]. unfold getIndex.
  destruct (Z.eqb_spec (Z.of_nat (alen a)) 0); [discriminate|].
  destruct id as [i|s|q|]; try discriminate.
  - set (i' := if (i <? 0)%Z then _ else _).
    destruct (Z.ltb_spec i' 0), (Z.leb_spec (Z.of_nat (alen a)) i'); simpl; try discriminate.
    intros [= <-]; lia.
  - unfold getIndexByName; rewrite names_dict_ensure.
    destruct (dget s (names_dict a)) as [j|] eqn:E; simpl; [|discriminate].
    intros [= <-]. apply Hb, nth_error_lt in E. lia.
Qed.

(** every resolved pair is (current name of the index, index) *)
Lemma resolveOld_pairs a ids olds : Inv a -> resolveOld a ids = Ok olds ->
  forall o i, In (o, i) olds -> i < alen a /\ nth_error (names_inv a) i = Some o.
Proof.
  intros Ha H o i Hin. destruct (Inv_facts a Ha) as [Hl [Hw Hb]].
  destruct (resolveOld_spec _ _ _ H) as [Hlen Hs].
  apply In_nth_error in Hin; destruct Hin as [k Hk].
  destruct (nth_error_is_some ids (i := k)) as [id Hid].
  { rewrite <- Hlen; eapply nth_error_lt; eauto. }
  destruct (Hs k id Hid) as [o' [z [Hk' [Hg Ho]]]].
  rewrite Hk in Hk'; injection Hk' as -> ->.
  pose proof (getIndex_range a id z Ha Hg) as Hr.
  split; [lia|].
  assert (Hd : nth_error (names_inv a) (Z.to_nat z) = Some (nth (Z.to_nat z) (names_inv a) None)).
  { apply nth_error_nth'. lia. }
  destruct id as [i|s|q|]; subst o'; auto.
  destruct (dmem s (names_dict a)) eqn:Hm; auto.
  unfold getIndex in Hg. destruct (Z.eqb_spec (Z.of_nat (alen a)) 0); [lia|].
  unfold getIndexByName in Hg; rewrite names_dict_ensure in Hg.
  destruct (dget s (names_dict a)) as [j|] eqn:E; simpl in Hg; [|discriminate].
  injection Hg as <-. rewrite Nat2Z.id. apply Hb; auto.
Qed.

Lemma deleteOld_spec (old : dict (option string) nat) : forall names,
  wfdict names -> wfdict old ->
  (forall s i, In (Some s, i) old -> In s (dkeys names)) ->
  exists names', deleteOld names old = (names', Ok tt) /\ wfdict names' /\
   forall s, dget s names' = if mem (Some s) (dkeys old) then None else dget s names.
Proof.
  induction old as [|[o i] t IH]; simpl; intros names Hw Ho Hin.
  - exists names; auto.
  - unfold wfdict in Ho; simpl in Ho; inversion Ho as [|? ? Hn Hd]; subst.
    destruct o as [s|].
    + assert (Hs : In s (dkeys names)) by (eapply Hin; eauto).
      unfold dmem at 1. rewrite (proj2 (mem_In _ _) Hs).
      destruct (IH (ddel s names)) as [names' [E [Hw' Hg]]]; auto.
      * apply wfdict_ddel; auto.
      * intros s' i' Hi'. assert (Hne : s' <> s).
        { intros ->; apply Hn. unfold dkeys; apply in_map_iff; exists (Some s, i'); auto. }
        assert (Hk : In s' (dkeys names)) by (eapply Hin; eauto).
        destruct (in_dec eq_dec s' (dkeys (ddel s names))) as [|Hnot]; auto.
        apply dget_None in Hnot. rewrite dget_ddel in Hnot by auto.
        destruct (eq_dec s' s); [tauto|]. apply dget_None in Hnot; tauto.
      * exists names'; split; auto. split; auto. intros s'.
        rewrite Hg, dget_ddel by auto.
        destruct (eq_dec (Some s') (Some s)) as [E'|E'].
        { injection E' as ->. destruct (eq_dec s s); [|tauto]. destruct (mem _ _); auto. }
        { destruct (eq_dec s' s); [congruence|auto]. }
    + destruct (IH names) as [names' [E [Hw' Hg]]]; eauto.
Qed.

Lemma writeNew_spec (items : dict newname nat) : forall names inv,
  wfdict names -> wfdict items -> NoDup (map snd items) ->
  (forall n, In n (dkeys items) -> match n with NOther _ => False | _ => True end) ->
  (forall i, In i (map snd items) -> i < List.length inv) ->
  (* names and inv agree outside the indices about to be written *)
  (forall s i, dget s names = Some i <->
               ~ In i (map snd items) /\ nth_error inv i = Some (Some s)) ->
  (forall s, In (NStr s) (dkeys items) -> dget s names = None) ->
  let st := writeNew names inv items in
  wfdict (fst st) /\ List.length (snd st) = List.length inv /\
  (forall s i, dget s (fst st) = Some i <-> nth_error (snd st) i = Some (Some s)).
Proof.
  induction items as [|[name index] t IH]; simpl; intros names inv Hw Hi Hv Hs Hr Hb Hn.
  - split; auto. split; auto. intros s i; rewrite Hb; tauto.
  - unfold wfdict in Hi; simpl in Hi; inversion Hi as [|? ? Hi1 Hi2]; subst.
    inversion Hv as [|? ? Hv1 Hv2]; subst.
    assert (Hidx : index < List.length inv) by (apply Hr; auto).
    destruct name as [s| |g]; simpl.
    + destruct (IH (dset s index names) (upd inv index (Some s))) as [A [B C]]; auto.
      * apply wfdict_dset; auto.
      * intros n Hnn; apply Hs; auto.
      * intros i Hi'; rewrite upd_length; apply Hr; auto.
      * intros s' i. rewrite dget_dset. destruct (eq_dec s' s) as [->|Hne].
        { split.
          - intros [= <-]. rewrite nth_error_upd_same; auto.
          - intros [H1 H2]. rewrite nth_error_upd in H2.
            destruct (Nat.eq_dec index i) as [->|]; auto.
            exfalso. assert (Hx : dget s names = None) by (apply Hn; auto).
            assert (Hy : dget s names = Some i); [|congruence].
            apply Hb; split; auto. intros [|]; auto. }
        { rewrite Hb, nth_error_upd. destruct (Nat.eq_dec index i) as [->|].
          - split; [intros [H1 _]; tauto|]. intros [_ H2].
            destruct (_ <? _); [congruence|discriminate].
          - intuition. }
      * intros s' Hs'. rewrite dget_dset. destruct (eq_dec s' s) as [->|]; [|apply Hn; auto].
        exfalso; apply Hi1; auto.
      * rewrite upd_length in B; auto.
    + destruct (IH names (upd inv index None)) as [A [B C]]; auto.
      * intros n Hnn; apply Hs; auto.
      * intros i Hi'; rewrite upd_length; apply Hr; auto.
      * intros s' i. rewrite Hb, nth_error_upd. destruct (Nat.eq_dec index i) as [->|].
        { split; [intros [H1 _]; tauto|]. intros [_ H2].
          destruct (_ <? _); discriminate. }
        { intuition. }
      * rewrite upd_length in B; auto.
    + exfalso; apply (Hs (NOther g)); auto.
Qed.

Lemma checkNew_spec a items : checkNew a items = Ok tt ->
  forall n i, In (n, i) items ->
    match n with
    | NOther _ => False
    | NNone => True
    | NStr s => dget s (names_dict a) = None \/ nth i (names_inv a) None = Some s
    end.
Proof.
  induction items as [|[name index] t IH]; simpl; intros H n i Hin; [tauto|].
  assert (Ht : checkNew a t = Ok tt).
  { destruct name; try discriminate; auto.
    destruct (dmem s (names_dict a)); auto. destruct (eqbd _ _); auto; discriminate. }
  destruct Hin as [[= -> ->]|Hin]; [|eapply IH; eauto].
  destruct n as [s| |]; auto; [|discriminate].
  destruct (dmem s (names_dict a)) eqn:Hm.
  - destruct (eqbd _ _) eqn:He; [|discriminate]. apply eqbd_true in He; right; exact He.
  - left. apply dget_None, mem_not_In; auto.
Qed.

Lemma map_fst_combine {A B} (l : list A) (l' : list B) :
  List.length l = List.length l' -> map fst (combine l l') = l.
Proof. revert l'; induction l; destruct l'; simpl; intros H; auto; try lia. f_equal; auto. Qed.
Lemma map_snd_combine {A B} (l : list A) (l' : list B) :
  List.length l = List.length l' -> map snd (combine l l') = l'.
Proof. revert l'; induction l; destruct l'; simpl; intros H; auto; try lia. f_equal; auto. Qed.

Lemma fold_dset_In {K V} {E : EqDec K} (ps : list (K * V)) : forall d p,
  In p (fold_left (fun d p => dset (fst p) (snd p) d) ps d) -> In p d \/ In p ps.
Proof.
  induction ps as [|[k v] t IH]; simpl; intros d p H; auto.
  apply IH in H. destruct H as [H|H]; auto.
  apply In_dset in H; destruct H; auto.
Qed.
Lemma fold_dset_keys {K V} {E : EqDec K} (ps : list (K * V)) : forall d k,
  In k (dkeys d) \/ In k (map fst ps) ->
  In k (dkeys (fold_left (fun d p => dset (fst p) (snd p) d) ps d)).
Proof.
  induction ps as [|[k' v] t IH]; simpl; intros d k H; [tauto|].
  apply IH. rewrite dkeys_dset.
  destruct (mem k' (dkeys d)) eqn:Hm.
  - apply mem_In in Hm. intuition; subst; auto.
  - rewrite in_app_iff; simpl; tauto.
Qed.

Lemma assignments_iter_len asg : asg <> ANumber ->
  List.length (assignments_iter asg) = assignments_len asg.
Proof. destruct asg; simpl; auto; unfold dkeys; rewrite ?map_length; auto. Qed.


Lemma setNames_core a asg ids olds :
  Inv a -> List.length (assignments_iter asg) = List.length ids ->
  NoDup (assignments_iter asg) ->
  resolveOld a ids = Ok olds -> NoDup (map snd olds) ->
  let ad := dict_of (combine (assignments_iter asg) (map snd olds)) in
  checkNew a ad = Ok tt ->
  exists names1, deleteOld (names_dict a) (dict_of olds) = (names1, Ok tt) /\
    Inv (mkAxis (alen a) (Some (writeNew names1 (names_inv a) ad))).
Proof.
  intros Ha Hlen HND Hr HNDi ad Hck.
  destruct (Inv_facts a Ha) as [Hl [Hw Hb]].
  destruct (resolveOld_spec _ _ _ Hr) as [Hlo _].
  pose proof (resolveOld_pairs _ _ _ Ha Hr) as Hp.
  assert (Had : ad = combine (assignments_iter asg) (map snd olds)).
  { apply dict_of_nodup. rewrite map_fst_combine; auto. rewrite map_length; lia. }
  assert (Hvals : map snd ad = map snd olds).
  { rewrite Had, map_snd_combine; auto. rewrite map_length; lia. }
  assert (Hkeys : dkeys ad = assignments_iter asg).
  { unfold dkeys; rewrite Had, map_fst_combine; auto. rewrite map_length; lia. }
  destruct (@deleteOld_spec (dict_of olds) (names_dict a)) as [names1 [Hdel [Hw1 Hg1]]]; auto.
  { apply wfdict_dict_of. }
  { intros s i Hin. apply fold_dset_In in Hin; destruct Hin as [[]|Hin].
    apply Hp in Hin. destruct Hin as [_ Hin]. apply Hb in Hin.
    destruct (in_dec eq_dec s (dkeys (names_dict a))); auto. apply dget_None in n; congruence. }
  exists names1; split; auto.
  assert (Hdeleted : forall s, In (Some s) (dkeys (dict_of olds)) <->
            exists i, In i (map snd olds) /\ dget s (names_dict a) = Some i).
  { intros s; split.
    - intros Hin. unfold dkeys in Hin; apply in_map_iff in Hin.
      destruct Hin as [[o i] [E Hin]]; simpl in E; subst o.
      apply fold_dset_In in Hin; destruct Hin as [[]|Hin].
      exists i; split; [apply in_map_iff; exists (Some s, i); auto|].
      apply Hb; apply Hp in Hin; tauto.
    - intros [i [Hi Hg]]. apply in_map_iff in Hi; destruct Hi as [[o j] [E Hin]]; simpl in E; subst j.
      apply fold_dset_keys; right. apply in_map_iff. exists (o, i); split; auto.
      apply Hp in Hin. apply Hb in Hg. simpl; destruct Hin; congruence. }
  destruct (@writeNew_spec ad names1 (names_inv a)) as [A [B C]]; auto.
  - unfold wfdict; rewrite Hkeys; auto.
  - rewrite Hvals; auto.
  - intros n Hn. unfold dkeys in Hn; apply in_map_iff in Hn.
    destruct Hn as [[n' i] [E Hin]]; simpl in E; subst n'.
    pose proof (checkNew_spec a ad Hck n i Hin). destruct n; auto.
  - intros i Hi. rewrite Hvals in Hi. apply in_map_iff in Hi; destruct Hi as [[o j] [E Hin]].
    simpl in E; subst j. apply Hp in Hin; lia.
  - intros s i. rewrite Hvals, Hg1.
    destruct (mem (Some s) (dkeys (dict_of olds))) eqn:Hm.
    + apply mem_In, Hdeleted in Hm. destruct Hm as [j [Hj Hg]].
      split; [discriminate|]. intros [H1 H2]. apply Hb in H2. congruence.
    + rewrite Hb. split; [|tauto]. intros H; split; auto. intros Hi.
      apply mem_not_In in Hm. apply Hm, Hdeleted. exists i; split; auto. apply Hb; auto.
  - intros s Hs. rewrite Hg1.
    destruct (mem (Some s) (dkeys (dict_of olds))) eqn:Hm; auto.
    unfold dkeys in Hs; apply in_map_iff in Hs; destruct Hs as [[n i] [E Hin]]; simpl in E; subst n.
    pose proof (checkNew_spec a ad Hck _ _ Hin) as Hc; simpl in Hc.
    destruct Hc as [Hc|Hc]; auto.
    exfalso. apply mem_not_In in Hm. apply Hm, Hdeleted. exists i.
    assert (Hiv : In i (map snd olds)) by (rewrite <- Hvals; apply in_map_iff; exists (NStr s, i); auto).
    split; auto. apply Hb.
    rewrite <- Hc. apply nth_error_nth'.
    apply in_map_iff in Hiv; destruct Hiv as [[o j] [E Hin']]; simpl in E; subst j. apply Hp in Hin'; lia.
  - destruct (writeNew names1 (names_inv a) ad) as [d inv]; simpl in *.
    unfold Inv; simpl. split; [congruence|]. split; auto.
Qed.

Lemma resolveOld_nodup a ids olds : Inv a ->
  resolveOld a ids = Ok olds ->
  (forall i j x y z, nth_error ids i = Some x -> nth_error ids j = Some y ->
        getIndex a x false = Ok z -> getIndex a y false = Ok z -> i = j) ->
  NoDup (map snd olds).
Proof.
  intros Ha Hr Hd. destruct (resolveOld_spec _ _ _ Hr) as [Hlo Hs].
  apply NoDup_nth_error. intros i j Hi E. rewrite map_length in Hi.
  rewrite !nth_error_map_eq in E.
  destruct (nth_error_is_some ids (i := i)) as [x Hx]; [lia|].
  destruct (Hs i x Hx) as [o [z [Ho [Hg _]]]]. rewrite Ho in E; simpl in E.
  destruct (nth_error olds j) as [[o' j']|] eqn:Hj; [|discriminate].
  simpl in E. injection E as E.
  destruct (nth_error_is_some ids (i := j)) as [y Hy].
  { apply nth_error_lt in Hj; lia. }
  destruct (Hs j y Hy) as [o2 [z2 [Ho2 [Hg2 _]]]].
  rewrite Hj in Ho2. injection Ho2 as -> ->.
  pose proof (getIndex_range _ _ _ Ha Hg). pose proof (getIndex_range _ _ _ Ha Hg2).
  eapply Hd; eauto. rewrite Hg2; f_equal; lia.
Qed.

Lemma getIndex_ensure a id fl : getIndex (ensure a) id fl = getIndex a id fl.
Proof. apply ensure_same. Qed.

Definition old_list (old : oldids) : list ident :=
  match old with OOne i => [i] | OList l => l | _ => [] end.

(** Everything about the oldIdentifiers path at once: either the call is
    rejected and leaves the (defaulted) axis, or it is accepted and, if the
    new names do not collide, yields a consistent axis. *)
Lemma setNames_some_cases a asg old :
  asg <> ANumber -> Inv a -> old <> ONone ->
  (exists e, snd (setNames_some a asg old) = Err e /\
     (fst (setNames_some a asg old) = a \/ fst (setNames_some a asg old) = ensure a)) \/
  (exists olds ad names1,
     List.length (assignments_iter asg) = List.length (old_list old) /\
     resolveOld (ensure a) (old_list old) = Ok olds /\
     ad = dict_of (combine (assignments_iter asg) (map snd olds)) /\
     checkNew (ensure a) ad = Ok tt /\
     deleteOld (names_dict (ensure a)) (dict_of olds) = (names1, Ok tt) /\
     setNames_some a asg old =
       (mkAxis (alen a) (Some (writeNew names1 (names_inv (ensure a)) ad)), Ok tt)).
Proof.
  intros HA Ha Hno. unfold setNames_some.
  assert (Hold : old = OBad \/ old <> OBad) by (destruct old; auto; right; discriminate).
  destruct Hold as [->|Hob]; [left; simpl; eauto|].
  replace (match old with OBad => _ | _ => _ end) with
    (if alen a =? 0 then (a, Err ImproperObjectAction)
    else if (assignments_len asg <=? alen a) && (assignments_len asg =? List.length (old_list old)) then
      match resolveOld (ensure a) (old_list old) with
      | Err e => (ensure a, Err e)
      | Ok olds =>
          match checkNew (ensure a) (dict_of (combine (assignments_iter asg) (map snd olds))) with
          | Err e => (ensure a, Err e)
          | Ok _ =>
              let (names1, r) := deleteOld (names_dict (ensure a)) (dict_of olds) in
              match r with
              | Err e => (mkAxis (alen (ensure a)) (Some (names1, names_inv (ensure a))), @Err unit e)
              | Ok _ => (mkAxis (alen (ensure a)) (Some (writeNew names1 (names_inv (ensure a)) (dict_of (combine (assignments_iter asg) (map snd olds))))),
                         Ok tt)
              end
          end
      end
    else (a, Err InvalidArgumentValue)) by (destruct old; tauto || reflexivity).
  destruct (alen a =? 0); [left; simpl; eauto|].
  destruct (assignments_len asg <=? alen a); simpl; [|left; simpl; eauto].
  destruct (Nat.eqb_spec (assignments_len asg) (List.length (old_list old))) as [Hlen|]; simpl; [|left; simpl; eauto].
  destruct (resolveOld (ensure a) (old_list old)) as [olds|e] eqn:Hr; [|left; simpl; eauto].
  destruct (checkNew _ _) as [[]|e] eqn:Hck; [|left; simpl; eauto].
  pose proof (ensure_Inv a Ha) as Hea.
  pose proof (Inv_facts _ Hea) as [Hl [Hw Hb]].
  pose proof (resolveOld_pairs _ _ _ Hea Hr) as Hp.
  destruct (@deleteOld_spec (dict_of olds) (names_dict (ensure a))) as [names1 [Hdel [Hw1 Hg1]]]; auto.
  { apply wfdict_dict_of. }
  { intros s i Hin. apply fold_dset_In in Hin; destruct Hin as [[]|Hin].
    apply Hp in Hin. destruct Hin as [_ Hin]. apply Hb in Hin.
    destruct (in_dec eq_dec s (dkeys (names_dict (ensure a)))); auto. apply dget_None in n; congruence. }
  right. exists olds, (dict_of (combine (assignments_iter asg) (map snd olds))), names1.
  rewrite assignments_iter_len by auto.
  repeat split; auto. rewrite Hdel, ensure_len; auto.
Qed.

Lemma setNames_some_Inv a asg old :
  asg <> ANumber -> Inv a -> old <> ONone -> NonColliding a asg old ->
  Inv (fst (setNames_some a asg old)).
Proof.
  intros HA Ha Hno Hc. pose proof (ensure_Inv a Ha) as Hea.
  destruct (setNames_some_cases a asg old HA Ha Hno) as
    [[e [_ [->| ->]]]|[olds [ad [names1 [Hlen [Hr [-> [Hck [Hdel ->]]]]]]]]]; auto.
  simpl.
  assert (HND : NoDup (assignments_iter asg)).
  { destruct old; simpl in *; try tauto.
    - destruct (assignments_iter asg) as [|x [|]]; try discriminate; repeat constructor; simpl; tauto.
    - destruct (assignments_iter asg); [constructor|discriminate]. }
  assert (HNDi : NoDup (map snd olds)).
  { eapply resolveOld_nodup; eauto. destruct old as [|id|l|]; simpl in *; try tauto.
    - intros [|i] [|j] x y z Hx Hy; auto; simpl in *; try (destruct i; discriminate); destruct j; discriminate.
    - intros i j x y z. rewrite !getIndex_ensure. apply Hc.
    - intros [|i]; discriminate. }
  destruct (@setNames_core (ensure a) asg (old_list old) olds Hea Hlen HND Hr HNDi Hck) as [names2 [Hd2 HI]].
  rewrite Hdel in Hd2; injection Hd2 as <-. rewrite ensure_len in HI; auto.
Qed.

Lemma setNames_Inv a asg old : Inv a -> NonColliding a asg old ->
  Inv (fst (setNames a asg old)).
Proof.
  intros Ha Hc. unfold setNames.
  assert (Hn : asg = ANumber \/ asg <> ANumber) by (destruct asg; auto; right; discriminate).
  destruct Hn as [->|Hn]; [destruct old; auto|].
  destruct old as [|id|l|].
  - destruct asg; simpl; try (apply setNames_all_Inv; auto); auto.
  - replace (match asg with ANone => _ | _ => _ end) with (setNames_some a asg (OOne id)) by (destruct asg; tauto || reflexivity).
    apply setNames_some_Inv; auto; discriminate.
  - replace (match asg with ANone => _ | _ => _ end) with (setNames_some a asg (OList l)) by (destruct asg; tauto || reflexivity).
    apply setNames_some_Inv; auto; discriminate.
  - replace (match asg with ANone => _ | _ => _ end) with (setNames_some a asg OBad) by (destruct asg; tauto || reflexivity).
    apply setNames_some_Inv; auto; discriminate.
Qed.

(** ** Rejection changes nothing *)
Lemma setNames_reject a asg old e : Inv a ->
  snd (setNames a asg old) = Err e -> SameNames (fst (setNames a asg old)) a.
Proof.
  intros Ha H. unfold setNames in *.
  assert (Hn : asg = ANumber \/ asg <> ANumber) by (destruct asg; auto; right; discriminate).
  destruct Hn as [->|Hn]; [destruct old; apply SameNames_refl|].
  assert (Hs : forall o, o <> ONone -> snd (setNames_some a asg o) = Err e ->
             SameNames (fst (setNames_some a asg o)) a).
  { intros o Ho Hq.
    destruct (setNames_some_cases a asg o Hn Ha Ho) as
      [[e' [_ [->| ->]]]|[olds [ad [names1 [_ [_ [_ [_ [_ E]]]]]]]]].
    - apply SameNames_refl.
    - apply ensure_same.
    - rewrite E in Hq; discriminate. }
  assert (Hall : snd (setNames_all a asg) = Err e -> SameNames (fst (setNames_all a asg)) a).
  { unfold setNames_all. destruct (negb _); [intros _; apply SameNames_refl|].
    destruct (alen a =? 0); [discriminate|].
    destruct (rbind _ _); [discriminate|intros _; apply SameNames_refl]. }
  destruct old as [|id|l|]; destruct asg; try tauto; try discriminate;
    try (apply Hall; exact H); try (apply Hs; [discriminate|exact H]).
Qed.

(** ** permute / delete / insert *)
Lemma list_acceptable_names (l : list (option string)) :
  (forall i j s, nth_error l i = Some (Some s) -> nth_error l j = Some (Some s) -> i = j) ->
  list_acceptable (map to_newname l).
Proof.
  intros H; split.
  - intros n Hn; apply in_map_iff in Hn; destruct Hn as [[s|] [<- _]]; simpl; auto.
  - intros i j s. rewrite !nth_error_map_eq.
    destruct (nth_error l i) as [[s1|]|] eqn:E1; simpl; try discriminate.
    destruct (nth_error l j) as [[s2|]|] eqn:E2; simpl; try discriminate.
    intros [= ->] [= ->]; eauto.
Qed.
Lemma newname_opt_to l : map newname_opt (map to_newname l) = l.
Proof. rewrite map_map; rewrite <- (map_id l) at 2; apply map_ext; intros [|]; auto. Qed.

Lemma Inv_names_distinct a : Inv a -> forall i j s,
  nth_error (getNames a) i = Some (Some s) -> nth_error (getNames a) j = Some (Some s) -> i = j.
Proof. intros H; apply Inv_Consistent in H; apply H. Qed.

Lemma setNames_list_Inv a l : Inv a -> Inv (fst (setNames a (AList l) ONone)).
Proof. intros H; apply setNames_Inv; simpl; auto. Qed.

Lemma permuteNames_spec a order : Inv a -> Permutation order (seq 0 (alen a)) ->
  Inv (fst (permuteNames a order)) /\ snd (permuteNames a order) = Ok tt /\
  alen (fst (permuteNames a order)) = alen a /\
  forall i k, nth_error order i = Some k ->
    nth_error (getNames (fst (permuteNames a order))) i = nth_error (getNames a) k.
Proof.
  intros Ha Hp.
  assert (Hlo : List.length order = alen a) by (apply Permutation_length in Hp; rewrite seq_length in Hp; auto).
  assert (Hr : forall i, In i order -> i < alen a).
  { intros i Hi. eapply Permutation_in in Hi; eauto. apply in_seq in Hi; lia. }
  assert (HNo : NoDup order) by (eapply Permutation_NoDup; [apply Permutation_sym; eauto|apply seq_NoDup]).
  destruct (Inv_Consistent a Ha) as [Hgl [_ [_ Hdist]]].
  unfold permuteNames. destruct (Nat.leb_spec (alen a) 1) as [H1|H1]; simpl.
  - split; auto. split; auto. split; auto. intros i k Hik.
    assert (k < alen a) by (apply Hr; eapply nth_error_In; eauto).
    apply nth_error_lt in Hik. f_equal; lia.
  - unfold namesCreated. destruct (astate a) as [[d inv]|] eqn:Ea; simpl.
    + destruct (@gather_ok _ (getNames a) order) as [ys [Hy [Hyl Hyn]]].
      { intros i Hi; rewrite Hgl; auto. }
      rewrite Hy. fold to_newname.
      change (map (fun o : option string => match o with Some s => NStr s | None => NNone end) ys)
        with (map to_newname ys).
      assert (Hacc : list_acceptable (map to_newname ys)).
      { apply list_acceptable_names. intros i j s Hi Hj. rewrite Hyn in Hi, Hj.
        destruct (nth_error order i) as [p|] eqn:Ep; [|discriminate].
        destruct (nth_error order j) as [q|] eqn:Eq; [|discriminate].
        assert (p = q) by (eapply Hdist; eauto). subst q.
        eapply NoDup_nth_error_inj; eauto. }
      destruct (@setNames_list_accept a (map to_newname ys)) as [A B]; auto.
      { rewrite map_length; lia. }
      split; [apply setNames_list_Inv; auto|]. split; auto.
      split.
      { simpl; unfold setNames_all. destruct (negb _); auto. destruct (_ =? 0); auto.
        destruct (rbind _ _); auto. }
      intros i k Hik. change (setNames_all a (AList (map to_newname ys))) with (setNames a (AList (map to_newname ys)) ONone); rewrite B, newname_opt_to, Hyn, Hik; auto.
    + split; auto. split; auto. split; auto. intros i k Hik.
      unfold getNames; rewrite names_inv_ensure; unfold names_inv; rewrite Ea.
      assert (k < alen a) by (apply Hr; eapply nth_error_In; eauto).
      apply nth_error_lt in Hik.
      rewrite !nth_error_repeat; auto; lia.
Qed.

Lemma reindex_spec targets inv : forall idx names out,
  wfdict names ->
  (forall s i, dget s names = Some i <-> nth_error out i = Some (Some s)) ->
  (forall i j s, nth_error (out ++ inv) i = Some (Some s) -> nth_error (out ++ inv) j = Some (Some s) -> i = j) ->
  let st := reindex idx targets inv names out in
  wfdict (fst st) /\
  (forall s i, dget s (fst st) = Some i <-> nth_error (snd st) i = Some (Some s)) /\
  snd st = out ++ map snd (filter (fun p => negb (mem (fst p) targets)) (combine (seq idx (List.length inv)) inv)).
Proof.
  induction inv as [|v t IH]; simpl; intros idx names out Hw Hb Hd.
  - rewrite app_nil_r; auto.
  - destruct (mem idx targets) eqn:Hm; simpl.
    + apply IH; auto. intros i j s Hi Hj.
      rewrite nth_error_app in Hi, Hj.
      assert (Hsh : forall k, nth_error (if k <? List.length out then out else t)
                 (if k <? List.length out then k else k - List.length out) = Some (Some s) ->
              nth_error (out ++ v :: t) (if k <? List.length out then k else S k) = Some (Some s)).
      { intros k Hk. rewrite nth_error_app. destruct (Nat.ltb_spec k (List.length out)).
        - destruct (Nat.ltb_spec k (List.length out)); [auto|lia].
        - destruct (Nat.ltb_spec (S k) (List.length out)); [lia|].
          replace (S k - List.length out) with (S (k - List.length out)) by lia; auto. }
      assert (Hi' := Hsh i). assert (Hj' := Hsh j).
      destruct (Nat.ltb_spec i (List.length out)), (Nat.ltb_spec j (List.length out));
        specialize (Hi' Hi); specialize (Hj' Hj); specialize (Hd _ _ _ Hi' Hj'); lia.
    + assert (Happ : (out ++ [v]) ++ t = out ++ v :: t) by (rewrite <- app_assoc; auto).
      destruct (IH (S idx) (match v with Some s => dset s (List.length out) names | None => names end) (out ++ [v])) as [A [B C]].
      * destruct v; auto; apply wfdict_dset; auto.
      * intros s i. rewrite nth_error_app.
        destruct v as [s'|].
        { rewrite dget_dset. destruct (eq_dec s s') as [->|Hne].
          - split.
            + intros [= <-]. rewrite Nat.ltb_irrefl, Nat.sub_diag; auto.
            + intros Hn. f_equal. apply (Hd (List.length out) i s').
              * rewrite nth_error_app, Nat.ltb_irrefl, Nat.sub_diag; auto.
              * rewrite nth_error_app. destruct (Nat.ltb_spec i (List.length out)); auto.
                destruct (i - List.length out) as [|[|]]; auto; discriminate.
          - rewrite Hb. destruct (Nat.ltb_spec i (List.length out)); [tauto|].
            split; [intros Hn; apply nth_error_lt in Hn; lia|].
            destruct (i - List.length out) as [|[|]]; simpl; congruence. }
        { rewrite Hb. destruct (Nat.ltb_spec i (List.length out)); [tauto|].
          split; [intros Hn; apply nth_error_lt in Hn; lia|].
          destruct (i - List.length out) as [|[|]]; simpl; congruence. }
      * rewrite Happ; auto.
      * split; auto. split; auto. rewrite C, <- app_assoc; auto.
Qed.

Lemma filter_count_targets (targets : list nat) : forall n a,
  NoDup targets -> (forall i, In i targets -> a <= i < a + n) ->
  List.length (filter (fun i => negb (mem i targets)) (seq a n)) = n - List.length targets.
Proof.
  intros n a Hd Hr.
  assert (Hc : List.length (filter (fun i => mem i targets) (seq a n)) = List.length targets).
  { apply Permutation_length, NoDup_Permutation; auto.
    - apply NoDup_filter, seq_NoDup.
    - intros x; rewrite filter_In, mem_In, in_seq. split; [tauto|]. intros Hx; split; auto. }
  assert (Hs := filter_length_split (fun i => mem i targets) (seq a n)).
  rewrite seq_length in Hs. lia.
Qed.

Lemma survivors_length_gen {A} (targets : list nat) (l : list A) : forall idx,
  List.length (map snd (filter (fun p => negb (mem (fst p) targets)) (combine (seq idx (List.length l)) l)))
  = List.length (filter (fun i => negb (mem i targets)) (seq idx (List.length l))).
Proof.
  induction l as [|x xs IH]; simpl; intros idx; auto.
  destruct (negb (mem idx targets)); simpl; auto.
Qed.
Lemma survivors_length {A} targets (l : list A) :
  NoDup targets -> (forall i, In i targets -> i < List.length l) ->
  List.length (survivors targets l) = List.length l - List.length targets.
Proof.
  intros Hd Hr; unfold survivors; rewrite survivors_length_gen, filter_count_targets; auto.
  intros i Hi; apply Hr in Hi; lia.
Qed.

Lemma removeNames_spec a targets : Inv a ->
  NoDup targets -> (forall i, In i targets -> i < alen a) ->
  Inv (removeNames a targets) /\
  alen (removeNames a targets) = alen a - List.length targets /\
  getNames (removeNames a targets) = survivors targets (getNames a).
Proof.
  intros Ha Hd Hr. destruct (Inv_Consistent a Ha) as [Hgl [_ [_ Hdist]]].
  assert (HS := survivors_length targets (getNames a) Hd); rewrite Hgl in HS; specialize (HS Hr).
  unfold removeNames. unfold Inv in Ha.
  destruct (astate a) as [[d inv]|] eqn:Ea; simpl.
  - destruct Ha as [Hl [Hw Hb]].
    assert (Hg : getNames a = inv).
    { unfold getNames; rewrite names_inv_ensure; unfold names_inv; rewrite Ea; auto. }
    rewrite Hg in *.
    destruct (@reindex_spec targets inv 0 [] []) as [A [B C]]; auto.
    + constructor.
    + simpl; intros s i; split; [discriminate|destruct i; discriminate].
    + simpl in C. fold (survivors targets inv) in C.
      destruct (reindex 0 targets inv [] []) as [d' inv'] eqn:E; simpl in *.
      split; [|split; auto].
      unfold Inv; simpl. split; [congruence|]. split; auto.
  - repeat split; auto. unfold getNames at 1; rewrite names_inv_ensure; unfold names_inv; simpl.
    apply nth_error_ext_len.
    + rewrite repeat_length; auto.
    + rewrite repeat_length; intros i Hi. rewrite nth_error_repeat by auto.
      destruct (nth_error_is_some (survivors targets (getNames a)) (i := i)) as [x Hx]; [lia|].
      rewrite Hx. f_equal. apply nth_error_In in Hx. unfold survivors in Hx.
      apply in_map_iff in Hx; destruct Hx as [[j y] [E Hin]]; simpl in E; subst y.
      apply filter_In in Hin; destruct Hin as [Hin _]. apply in_combine_r in Hin.
      revert Hin. unfold getNames; rewrite names_inv_ensure; unfold names_inv; rewrite Ea; simpl.
      intros Hin; apply repeat_spec in Hin; auto.
Qed.

Lemma insertNames_spec a b before : Inv a -> Inv b -> before <= alen a ->
  Inv (fst (insertNames a b before)) /\
  match snd (insertNames a b before) with
  | Ok _ => alen (fst (insertNames a b before)) = alen a + alen b /\
            getNames (fst (insertNames a b before)) =
              firstn before (getNames a) ++ getNames b ++ skipn before (getNames a)
  | Err _ => fst (insertNames a b before) = a /\
             exists s i j, nth_error (getNames a) i = Some (Some s) /\ nth_error (getNames b) j = Some (Some s)
  end.
Proof.
  intros Ha Hb Hbef.
  destruct (Inv_facts a Ha) as [Hla [Hwa Hba]]. destruct (Inv_facts b Hb) as [Hlb [Hwb Hbb]].
  assert (Hga : getNames a = names_inv a) by (unfold getNames; apply names_inv_ensure).
  assert (Hgb : getNames b = names_inv b) by (unfold getNames; apply names_inv_ensure).
  unfold insertNames.
  destruct (namesCreated a && namesCreated b && existsb _ _) eqn:Eint; simpl.
  - split; auto. split; auto.
    apply andb_true_iff in Eint; destruct Eint as [_ Eint].
    apply existsb_exists in Eint; destruct Eint as [s [Hs1 Hs2]].
    apply mem_In in Hs2.
    destruct (dget s (names_dict a)) as [i|] eqn:E1; [|apply dget_None in E1; tauto].
    destruct (dget s (names_dict b)) as [j|] eqn:E2; [|apply dget_None in E2; tauto].
    exists s, i, j. rewrite Hga, Hgb; split; [apply Hba|apply Hbb]; auto.
  - destruct (namesCreated a || namesCreated b) eqn:Ecr; simpl.
    + set (newNames := firstn before (getNames a) ++ getNames b ++ skipn before (getNames a)).
      set (a' := mkAxis (alen a + alen b) _).
      assert (HlenN : List.length newNames = alen a').
      { unfold newNames; simpl. rewrite !app_length, firstn_length, skipn_length, Hga, Hgb. lia. }
      assert (Hdisj : forall s i j, nth_error (getNames a) i = Some (Some s) ->
                       nth_error (getNames b) j = Some (Some s) -> False).
      { intros s i j Hi Hj. rewrite Hga in Hi; rewrite Hgb in Hj.
        assert (Hca : namesCreated a = true).
        { unfold namesCreated, names_inv in *; destruct (astate a); auto.
          apply nth_error_In, repeat_spec in Hi; discriminate. }
        assert (Hcb : namesCreated b = true).
        { unfold namesCreated, names_inv in *; destruct (astate b); auto.
          apply nth_error_In, repeat_spec in Hj; discriminate. }
        rewrite Hca, Hcb in Eint; simpl in Eint.
        apply Hba in Hi; apply Hbb in Hj.
        assert (Hx : existsb (fun s => mem s (dkeys (names_dict b))) (dkeys (names_dict a)) = true); [|congruence].
        apply existsb_exists; exists s; split.
        - unfold dkeys; apply in_map_iff; exists (s, i); split; auto; apply dget_In; auto.
        - apply mem_In. unfold dkeys; apply in_map_iff; exists (s, j); split; auto; apply dget_In; auto. }
      assert (Hacc : list_acceptable (map to_newname newNames)).
      { apply list_acceptable_names. intros i j s Hi Hj.
        pose proof (Inv_names_distinct a Ha) as Da. pose proof (Inv_names_distinct b Hb) as Db.
        unfold newNames in Hi, Hj. rewrite !nth_error_app, firstn_length, Nat.min_l in Hi, Hj by (rewrite Hga; lia).
        rewrite nth_error_firstn, nth_error_skipn in Hi, Hj.
        destruct (Nat.ltb_spec i before), (Nat.ltb_spec j before).
        - eapply Da; eauto.
        - destruct (Nat.ltb_spec (j - before) (List.length (getNames b))).
          + exfalso; eapply Hdisj; eauto.
          + specialize (Da _ _ _ Hi Hj); lia.
        - destruct (Nat.ltb_spec (i - before) (List.length (getNames b))).
          + exfalso; eapply Hdisj; eauto.
          + specialize (Da _ _ _ Hi Hj); lia.
        - destruct (Nat.ltb_spec (i - before) (List.length (getNames b))), (Nat.ltb_spec (j - before) (List.length (getNames b))).
          + specialize (Db _ _ _ Hi Hj); lia.
          + exfalso; eapply Hdisj; eauto.
          + exfalso; eapply Hdisj; eauto.
          + specialize (Da _ _ _ Hi Hj); lia. }
      destruct (@setNames_list_accept a' (map to_newname newNames)) as [A B]; auto.
      { rewrite map_length; auto. }
      change (setNames_all a' (AList (map to_newname newNames))) with (setNames a' (AList (map to_newname newNames)) ONone).
      split.
      * (* Inv from acceptance, whatever the junk dict in a' *)
        revert A. simpl. unfold setNames_all.
        destruct (negb _) eqn:En; [discriminate|].
        destruct (alen a' =? 0) eqn:E0; simpl.
        { intros _. apply Nat.eqb_eq in E0. simpl in E0; rewrite E0. simpl; repeat split; try constructor; simpl; try discriminate.
          destruct i; discriminate. }
        destruct (listToDict 0 _ []) as [items|] eqn:E; simpl; [|discriminate].
        destruct (buildReverse _ _ _ _) eqn:E'; simpl; [|discriminate]. intros _.
        assert (Hit : wfdict items /\ NoDup (map snd items)).
        { apply (listToDict_inv _ _ _ _ E); [constructor|constructor|simpl; tauto]. }
        eapply buildReverse_Inv; eauto; apply Hit.
      * rewrite A. split.
        { simpl. unfold setNames_all. destruct (negb _); auto. destruct (_ =? 0); auto. destruct (rbind _ _); auto. }
        { rewrite B, newname_opt_to; auto. }
    + split; [exact I|]. split; auto.
      apply orb_false_iff in Ecr; destruct Ecr as [Ca Cb].
      assert (Hna : names_inv a = repeat None (alen a)).
      { unfold namesCreated, names_inv in *; destruct (astate a) as [[]|]; auto; discriminate. }
      assert (Hnb : names_inv b = repeat None (alen b)).
      { unfold namesCreated, names_inv in *; destruct (astate b) as [[]|]; auto; discriminate. }
      rewrite Hga, Hgb, Hna, Hnb. unfold getNames; rewrite names_inv_ensure; unfold names_inv; simpl.
      apply nth_error_ext_len.
      { rewrite !app_length, firstn_length, skipn_length, !repeat_length; lia. }
      rewrite repeat_length; intros i Hi. rewrite nth_error_repeat by auto.
      symmetry. rewrite !nth_error_app, firstn_length, !repeat_length, Nat.min_l, nth_error_firstn, nth_error_skipn by lia.
      destruct (Nat.ltb_spec i before); [rewrite nth_error_repeat; auto; lia|].
      destruct (Nat.ltb_spec (i - before) (alen b)); rewrite nth_error_repeat; auto; lia.
Qed.

Lemma step_Inv a o : Inv a -> op_ok a o -> Inv (step a o).
Proof.
  intros Ha Ho. destruct o as [asg old|order|targets|b before]; simpl in *.
  - apply setNames_Inv; auto.
  - apply permuteNames_spec; auto.
  - apply removeNames_spec; tauto.
  - apply insertNames_spec; tauto.
Qed.

Lemma run_Inv ops : forall a, Inv a -> ops_ok a ops -> Inv (run a ops).
Proof.
  induction ops as [|o t IH]; simpl; auto. intros a Ha [H1 H2].
  apply IH; auto. apply step_Inv; auto.
Qed.

Lemma fresh_Inv n : Inv (fresh n).
Proof. exact I. Qed.

Lemma run_fresh_Consistent n ops : ops_ok (fresh n) ops -> Consistent (run (fresh n) ops).
Proof. intros H; apply Inv_Consistent, run_Inv; auto using fresh_Inv. Qed.
