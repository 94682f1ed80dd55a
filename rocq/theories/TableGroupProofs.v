(** groupByFeature, mapReduce, sort by names, replace (C13, C50, C07, C53). *)
From Verif Require Import Base NamesModel NamesSpec NamesProofs NamesIndexProofs
  TableModel TableSpec TableProofs TablePermProofs TableOps TableSortProofs TableInsertProofs TableOpsProofs
  TableOps3Proofs.
From Coq Require Import Sorted.

(** ** specification: distinct elements in order of first appearance *)
Section D.
Context {K : Type} {EK : EqDec K}.
Fixpoint dedup (l : list K) : list K :=
  match l with
  | [] => []
  | x :: t => x :: filter (fun y => negb (eqbd y x)) (dedup t)
  end.
Lemma dedup_In x l : In x (dedup l) <-> In x l.
Proof.
  induction l as [|y l IH]; simpl; [tauto|]. rewrite filter_In, IH.
  split; [intros [A|[A _]]; auto|]. intros [A|A]; auto.
  destruct (eqbd x y) eqn:E; [left; symmetry; apply eqbd_true; auto|auto].
Qed.
Lemma dedup_NoDup l : NoDup (dedup l).
Proof.
  induction l as [|y l IH]; simpl; constructor.
  - rewrite filter_In. intros [_ H]. rewrite eqbd_refl in H. discriminate.
  - apply NoDup_filter; auto.
Qed.
Lemma filter_true_all {A} (f : A -> bool) l : (forall x, In x l -> f x = true) -> filter f l = l.
Proof. induction l as [|x l IH]; simpl; intros H; auto. rewrite H by auto. f_equal; auto. Qed.
Lemma dedup_snoc x l : dedup (l ++ [x]) = if mem x l then dedup l else dedup l ++ [x].
Proof.
  induction l as [|y l IH]; [reflexivity|].
  cbn [app dedup]. rewrite IH. cbn [mem].
  destruct (eq_dec x y) as [->|Hn].
  - destruct (mem y l) eqn:Em; auto. f_equal. rewrite filter_app. simpl. rewrite eqbd_refl. simpl.
    apply app_nil_r.
  - destruct (mem x l) eqn:Em; auto.
    rewrite filter_app. simpl. rewrite (proj2 (eqbd_neq x y) Hn). reflexivity.
Qed.

Lemma partition_by_key {A} (key : A -> K) (l : list A) :
  Permutation (flat_map (fun k => filter (fun x => eqbd (key x) k) l) (dedup (map key l))) l.
Proof.
  assert (G : forall ks, NoDup ks -> (forall x, In x l -> In (key x) ks) ->
     Permutation (flat_map (fun k => filter (fun x => eqbd (key x) k) l) ks) l).
  { induction l as [|x l IH]; intros ks Hnd Hin.
    - simpl. clear. induction ks; simpl; auto.
    - assert (Hx : In (key x) ks) by (apply Hin; simpl; auto).
      apply in_split in Hx. destruct Hx as [k1 [k2 ->]].
      assert (N1 : ~ In (key x) k1 /\ ~ In (key x) k2).
      { apply NoDup_remove_2 in Hnd. rewrite in_app_iff in Hnd. tauto. }
      assert (S1 : forall k, ~ In (key x) k ->
          flat_map (fun k => filter (fun x => eqbd (key x) k) (x :: l)) k =
          flat_map (fun k => filter (fun x => eqbd (key x) k) l) k).
      { clear. induction k as [|k0 k IH]; intros Hn; auto. cbn [flat_map filter].
        rewrite (proj2 (eqbd_neq (key x) k0)) by (intros E; apply Hn; simpl; auto).
        f_equal. apply IH. intros H; apply Hn; simpl; auto. }
      rewrite flat_map_app. cbn [flat_map]. rewrite !S1 by tauto.
      cbn [filter]. rewrite eqbd_refl.
      specialize (IH (k1 ++ key x :: k2) Hnd). rewrite flat_map_app in IH. cbn [flat_map] in IH.
      rewrite <- app_comm_cons. rewrite <- Permutation_middle. constructor. apply IH.
      intros y Hy. apply Hin; simpl; auto. }
  apply G; [apply dedup_NoDup|]. intros x Hx. apply dedup_In. apply in_map; auto.
Qed.
End D.

Section MR.
Context {K : Type} {EK : EqDec K}.
Variables V W R : Type.
Variable mapper : list V -> list (K * W).

(** all values emitted for a key, in emission order *)
Definition valuesFor (em : list (K * W)) (k : K) : list W :=
  map snd (filter (fun p => eqbd (fst p) k) em).

Lemma emitAll_app (d : dict K (list W)) a b : emitAll d (a ++ b) = emitAll (emitAll d a) b.
Proof. unfold emitAll. apply fold_left_app. Qed.

Lemma dget_map_keys {B} (f : K -> B) ks k : dget k (map (fun k => (k, f k)) ks) = if mem k ks then Some (f k) else None.
Proof.
  induction ks as [|x ks IH]; simpl; auto. destruct (eq_dec k x) as [->|]; auto.
Qed.
Lemma dkeys_map_keys {B} (f : K -> B) ks : dkeys (map (fun k => (k, f k)) ks) = ks.
Proof. unfold dkeys. rewrite map_map. simpl. apply map_id. Qed.
Lemma dset_map_keys {B} (f : K -> B) ks k v : NoDup ks -> In k ks ->
  dset k v (map (fun k => (k, f k)) ks) = map (fun x => (x, if eq_dec x k then v else f x)) ks.
Proof.
  induction ks as [|x ks IH]; simpl; [tauto|]. intros Hnd [->|Hin].
  - inversion Hnd; subst. destruct (eq_dec k k); [|congruence]. f_equal. apply map_ext_in. intros a Ha.
    destruct (eq_dec a k); [subst; contradiction|auto].
  - inversion Hnd; subst. destruct (eq_dec k x) as [->|Hn]; [contradiction|].
    destruct (eq_dec x k); [congruence|]. f_equal. auto.
Qed.

Lemma emitAll_spec em : emitAll [] em = map (fun k => (k, valuesFor em k)) (dedup (map fst em)).
Proof.
  induction em as [|p em IH] using rev_ind; [reflexivity|].
  rewrite emitAll_app, IH. destruct p as [k w].
  rewrite map_app. cbn [map]. rewrite dedup_snoc.
  assert (Hv : forall x, valuesFor (em ++ [(k, w)]) x =
     if eq_dec x k then valuesFor em x ++ [w] else valuesFor em x).
  { intros x. unfold valuesFor. rewrite filter_app, map_app. simpl. unfold eqbd.
    destruct (eq_dec k x), (eq_dec x k); try congruence; simpl; auto. apply app_nil_r. }
  unfold emitAll; cbn [fold_left fst snd].
  unfold dmem. rewrite dkeys_map_keys.
  replace (mem k (dedup (map fst em))) with (mem k (map fst em)).
  2:{ destruct (mem k (map fst em)) eqn:E1, (mem k (dedup (map fst em))) eqn:E2; auto.
      - apply mem_In in E1. apply mem_not_In in E2. exfalso; apply E2. apply dedup_In; auto.
      - apply mem_In in E2. apply mem_not_In in E1. exfalso; apply E1. apply (dedup_In k (map fst em)); auto. }
  destruct (mem k (map fst em)) eqn:Em.
  - apply mem_In in Em. rewrite dget_map_keys.
    assert (In k (dedup (map fst em))) by (apply dedup_In; auto).
    rewrite (proj2 (mem_In k _)) by auto.
    rewrite dset_map_keys by (auto using dedup_NoDup). apply map_ext. intros x. rewrite Hv.
    destruct (eq_dec x k); subst; auto.
  - apply mem_not_In in Em.
    assert (Hn : ~ In k (dedup (map fst em))) by (intros H; apply Em; apply dedup_In; auto).
    rewrite dset_new by (rewrite dkeys_map_keys; auto).
    set (l := map (fun k0 => (k0, valuesFor em k0)) (dedup (map fst em))).
    assert (Hd : dget k (l ++ [(k, [])]) = Some []).
    { assert (G : forall l : dict K (list W), ~ In k (dkeys l) -> dget k (l ++ [(k, [])]) = Some []).
      { clear. induction l as [|[x v] l IH]; simpl; intros H.
        - destruct (eq_dec k k); congruence.
        - destruct (eq_dec k x); [subst; exfalso; apply H; auto|]. apply IH; auto. }
      apply G. unfold l. rewrite dkeys_map_keys; auto. }
    rewrite Hd.
    assert (Hs : dset k ([] ++ [w]) (l ++ [(k, [])]) = l ++ [(k, [w])]).
    { assert (G : forall l : dict K (list W), ~ In k (dkeys l) -> dset k [w] (l ++ [(k, [])]) = l ++ [(k, [w])]).
      { clear. induction l as [|[x v] l IH]; simpl; intros H.
        - destruct (eq_dec k k); congruence.
        - destruct (eq_dec k x); [subst; exfalso; apply H; auto|]. f_equal. apply IH; auto. }
      apply G. unfold l. rewrite dkeys_map_keys; auto. }
    rewrite Hs. rewrite map_app. cbn [map]. f_equal.
    + unfold l. apply map_ext_in. intros x Hx. rewrite Hv. destruct (eq_dec x k); [subst; contradiction|auto].
    + rewrite Hv. destruct (eq_dec k k); [|congruence].
      assert (valuesFor em k = []) as ->.
      { unfold valuesFor. replace (filter (fun p => eqbd (fst p) k) em) with (@nil (K * W)); auto.
        symmetry. clear -Em. induction em as [|[x v] em IH]; auto. simpl in *.
        rewrite (proj2 (eqbd_neq x k)) by tauto. apply IH; tauto. }
      auto.
Qed.

Lemma mapResults_emitAll (vs : list (list V)) : mapResults mapper vs = emitAll [] (flat_map mapper vs).
Proof.
  unfold mapResults. change (@nil (K * list W)) with (@nil (K * list W)).
  generalize (@nil (K * list W)) as d.
  induction vs as [|v vs IH]; intros d; simpl; auto. rewrite emitAll_app. apply IH.
Qed.

Lemma mapReduce_spec (reducer : K -> list W -> option R) sd (t : table V) : 0 < alen (offax sd t) ->
  let em := flat_map mapper (vectors sd t) in
  mapReduce mapper reducer sd t =
  Ok (flat_map (fun k => match reducer k (valuesFor em k) with Some r => [r] | None => [] end)
        (dedup (map fst em))).
Proof.
  intros H em. unfold mapReduce. replace (alen (offax sd t) =? 0) with false by (symmetry; apply Nat.eqb_neq; lia).
  rewrite mapResults_emitAll, emitAll_spec. fold em. f_equal. clearbody em. rewrite (flat_map_concat_map _ (map _ _)), (flat_map_concat_map _ (dedup _)), map_map. reflexivity.
Qed.
End MR.
Arguments valuesFor {K EK W} _ _.

Section G.
Variable V : Type.
Context {K : Type} {EK : EqDec K}.
Variable key : list V -> K.
Implicit Types t : table V.

Lemma groupCounts_spec t :
  groupCounts key t =
  map (fun k => (k, List.length (filter (fun r => eqbd (key r) k) (rows t)))) (dedup (map key (rows t))).
Proof.
  unfold groupCounts. generalize (rows t) as l. induction l as [|r l IH] using rev_ind; auto.
  rewrite fold_left_app. cbn [fold_left]. rewrite IH. clear IH. rewrite map_app. cbn [map]. rewrite dedup_snoc.
  rewrite dget_map_keys.
  assert (Hv : forall x, List.length (filter (fun r => eqbd (key r) x) (l ++ [r])) =
     if eq_dec x (key r) then S (List.length (filter (fun r => eqbd (key r) x) l))
     else List.length (filter (fun r => eqbd (key r) x) l)).
  { intros x. rewrite filter_app, app_length. simpl. unfold eqbd. destruct (eq_dec (key r) x), (eq_dec x (key r)); simpl; try congruence; lia. }
  destruct (mem (key r) (map key l)) eqn:Em.
  - apply mem_In in Em. assert (Hin : In (key r) (dedup (map key l))) by (apply dedup_In; auto).
    rewrite (proj2 (mem_In (key r) _)) by auto.
    rewrite dset_map_keys by auto using dedup_NoDup. apply map_ext. intros x. rewrite Hv. destruct (eq_dec x (key r)); subst; auto.
  - apply mem_not_In in Em. assert (Hin : ~ In (key r) (dedup (map key l))) by (rewrite dedup_In; auto).
    rewrite (proj2 (mem_not_In (key r) _)) by auto.
    rewrite dset_new by (rewrite dkeys_map_keys; auto). rewrite map_app. cbn [map]. f_equal.
    + apply map_ext_in. intros x Hx. rewrite Hv. destruct (eq_dec x (key r)); [subst; contradiction|auto].
    + rewrite Hv. destruct (eq_dec (key r) (key r)); [|congruence].
      replace (filter (fun r0 => eqbd (key r0) (key r)) l) with (@nil (list V)); auto.
      symmetry. clear -Em. induction l as [|y l IH]; auto. simpl in *.
      rewrite (proj2 (eqbd_neq (key y) (key r))) by tauto. apply IH; tauto.
Qed.

Lemma items_nth sd t i : wf t -> nth_error (items sd t) i =
  match nth_error (getNames (ax sd t)) i, nth_error (vectors sd t) i with Some a, Some b => Some (a, b) | _, _ => None end.
Proof. intros _. unfold items. apply nth_error_combine. Qed.

Definition ofKey (k : K) (l : list (option string * list V)) := filter (fun p => eqbd (key (snd p)) k) l.

Lemma ofKey_none k l : ~ In k (map (fun p => key (snd p)) l) -> ofKey k l = [].
Proof.
  unfold ofKey. induction l as [|y l IH]; auto. simpl. intros H.
  rewrite (proj2 (eqbd_neq (key (snd y)) k)) by tauto. apply IH; tauto.
Qed.

Lemma firstn_S_snoc {A} (l : list A) m x : nth_error l m = Some x -> firstn (S m) l = firstn m l ++ [x].
Proof.
  revert m; induction l as [|y l IH]; intros [|m] H; simpl in *; try discriminate; [injection H as ->; auto|].
  f_equal. apply IH; auto.
Qed.

Definition groupInv t (m : nat) (res : dict K (table V)) : Prop :=
  dkeys res = dedup (map key (firstn m (rows t))) /\
  forall k g, dget k res = Some g ->
    wf g /\ sameOff Pts t g /\ items Pts g = ofKey k (firstn m (items Pts t)).

Lemma named_item_pos t i s v : wf t -> nth_error (items Pts t) i = Some (Some s, v) ->
  dget s (names_dict (tp t)) = Some i.
Proof.
  intros Hwf H. rewrite items_nth in H by auto. apply names_in_dict; [apply (wf_Inv V Pts); auto|].
  cbn [ax] in H. destruct (nth_error (getNames (tp t)) i), (nth_error (vectors Pts t) i); congruence.
Qed.

Lemma groupLoop_spec t : wf t -> forall n a res, a + n = alen (tp t) -> groupInv t a res ->
  exists res', groupLoop key t (seq a n) res = Ok res' /\ groupInv t (alen (tp t)) res'.
Proof.
  intros Hwf. induction n as [|n IH]; intros a res Hn Hinv.
  - rewrite Nat.add_0_r in Hn; subst. simpl. eauto.
  - cbn [seq groupLoop].
    destruct (taken_spec V Pts t [a] Hwf) as [pt [Et [Wpt [Spt [Apt Ipt]]]]].
    { constructor; [simpl; tauto|constructor]. } { cbn [ax]. intros i [<-|[]]; lia. }
    rewrite Et; cbn [rbind].
    pose proof Hwf as [HR _].
    destruct (nth_error_is_some (rows t) (i:=a)) as [r Er]; [lia|].
    rewrite (nth_error_nth (rows t) a [] Er).
    destruct (nth_error_is_some (items Pts t) (i:=a)) as [it Eit]; [rewrite items_length; auto; cbn [ax]; lia|].
    assert (Hit : snd it = r).
    { rewrite items_nth in Eit by auto. cbn [vectors ax] in Eit. rewrite Er in Eit.
      destruct (nth_error (getNames (tp t)) a); [injection Eit as <-; auto|discriminate]. }
    assert (Hpt : items Pts pt = [it]).
    { rewrite Ipt. simpl. rewrite Eit. auto. }
    destruct Hinv as [Hk Hg].
    assert (Hk' : map key (firstn (S a) (rows t)) = map key (firstn a (rows t)) ++ [key r]).
    { rewrite (firstn_S_snoc _ _ _ Er), map_app. auto. }
    assert (Hof : forall k, ofKey k (firstn (S a) (items Pts t)) =
       ofKey k (firstn a (items Pts t)) ++ (if eqbd (key r) k then [it] else [])).
    { intros k. rewrite (firstn_S_snoc _ _ _ Eit). unfold ofKey. rewrite filter_app. simpl. rewrite Hit. auto. }
    assert (Hrow : map key (firstn a (rows t)) = map (fun p => key (snd p)) (firstn a (items Pts t))).
    { rewrite <- (map_map snd key). f_equal. rewrite <- firstn_map. f_equal.
      pose proof (items_vectors V Pts t Hwf) as E. symmetry. exact E. }
    destruct (dget (key r) res) as [g|] eqn:Eg.
    + destruct (Hg _ _ Eg) as [Wg [Sg Ig]].
      destruct (insert_accept V Pts g pt Wg Wpt) as [g' [Ei [Wg' [Og' Ig']]]].
      { destruct Sg as [-> _], Spt as [-> _]; auto. }
      { destruct Sg as [_ ->], Spt as [_ ->]; auto. }
      { intros s i j Hi Hj.
        assert (Lg := items_length V Pts g Wg).
        assert (Gi : exists v, nth_error (items Pts g) i = Some (Some s, v)).
        { pose proof (nth_error_lt _ _ Hi) as Hlt. rewrite getNames_length in Hlt by (apply wf_Inv; auto).
          destruct (nth_error_is_some (vectors Pts g) (i:=i)) as [v Hv]; [rewrite vectors_length; auto|].
          exists v. rewrite items_nth by auto. rewrite Hi, Hv; auto. }
        assert (Gj : exists v, nth_error (items Pts pt) j = Some (Some s, v)).
        { pose proof (nth_error_lt _ _ Hj) as Hlt. rewrite getNames_length in Hlt by (apply wf_Inv; auto).
          destruct (nth_error_is_some (vectors Pts pt) (i:=j)) as [v Hv]; [rewrite vectors_length; auto|].
          exists v. rewrite items_nth by auto. rewrite Hj, Hv; auto. }
        destruct Gi as [v Gi], Gj as [w Gj]. rewrite Hpt in Gj. destruct j; simpl in Gj; [|destruct j; discriminate].
        injection Gj as ->. apply nth_error_In in Gi. rewrite Ig in Gi. unfold ofKey in Gi. apply filter_In in Gi.
        destruct Gi as [Gi _]. apply In_nth_error in Gi. destruct Gi as [p Gp]. rewrite nth_error_firstn in Gp.
        destruct (p <? a) eqn:Ep; [|discriminate]. apply Nat.ltb_lt in Ep.
        apply named_item_pos in Gp; auto. apply named_item_pos in Eit; auto. assert (p = a) by congruence. lia. }
      rewrite Ei; cbn [rbind]. apply (IH (S a)); [lia|]. split.
      * rewrite dkeys_dset, Hk', dedup_snoc, <- Hk.
        assert (Hm : In (key r) (dkeys res)) by (apply dget_In in Eg; apply in_map_iff; exists (key r, g); auto).
        rewrite (proj2 (mem_In _ _) Hm). rewrite Hk in Hm. rewrite (proj2 (mem_In (key r) (map key (firstn a (rows t))))); auto.
        apply (dedup_In (key r)); auto.
      * intros k g0. rewrite dget_dset, Hof. destruct (eq_dec k (key r)) as [->|Hne].
        -- intros [= <-]. rewrite eqbd_refl. split; auto. split; [|rewrite Ig', Ig, Hpt; auto].
           destruct Sg as [A B]. split; rewrite Og'; auto.
        -- intros Hd. rewrite (proj2 (eqbd_neq (key r) k)) by auto. rewrite app_nil_r. apply Hg; auto.
    + apply (IH (S a)); [lia|].
      apply dget_None in Eg.
      assert (Em : mem (key r) (map key (firstn a (rows t))) = false).
      { apply mem_not_In. intros H; apply Eg. rewrite Hk. apply dedup_In; auto. }
      split.
      * rewrite dkeys_dset, Hk', dedup_snoc, Em, (proj2 (mem_not_In _ _) Eg), Hk. auto.
      * intros k g0. rewrite dget_dset, Hof. destruct (eq_dec k (key r)) as [->|Hne].
        -- intros [= <-]. rewrite eqbd_refl. split; auto. split; auto. rewrite Hpt.
           apply mem_not_In in Em. rewrite Hrow in Em.
           replace (ofKey (key r) (firstn a (items Pts t))) with (@nil (option string * list V)); auto.
           symmetry. apply ofKey_none; auto.
        -- intros Hd. rewrite (proj2 (eqbd_neq (key r) k)) by auto. rewrite app_nil_r. apply Hg; auto.
Qed.

Lemma survivors_map {A B} (f : A -> B) tg l : survivors tg (map f l) = map f (survivors tg l).
Proof. rewrite !survivors_keep, map_length. rewrite <- map_selected. auto. Qed.

Lemma remaining_Fts_items t by_ g' : wf t -> NoDup by_ -> (forall i, In i by_ -> i < alen (tf t)) ->
  remaining Fts t by_ = Ok g' ->
  wf g' /\ tp g' = tp t /\ getNames (tf g') = survivors by_ (getNames (tf t)) /\
  items Pts g' = map (fun p => (fst p, survivors by_ (snd p))) (items Pts t).
Proof.
  intros Hwf Hd Hr E. destruct (remaining_spec V Fts t by_ Hwf Hd Hr) as [r [E' [W [O [L I]]]]].
  assert (r = g') by congruence. subst r. cbn [offax] in O. split; auto. split; auto.
  pose proof Hwf as [H1 [H2 [H3 H4]]].
  split.
  - rewrite <- (items_names V Fts g' W : _ = getNames (tf g')). rewrite I.
    rewrite <- survivors_map. f_equal. apply (items_names V Fts); auto.
  - unfold items at 1. cbn [ax vectors]. rewrite O.
    assert (Er : rows g' = map (survivors by_) (rows t)).
    { unfold remaining in E. rewrite (rmapM_map_ok _ (survivors by_)) in E.
      - cbn [rbind] in E. injection E as <-. auto.
      - intros x Hx. rewrite survivors_keep, (H2 x Hx). apply gather_selected. cbn [ax]. intros i Hi.
        apply keepIdx_range in Hi. rewrite (H2 x Hx). auto. }
    rewrite Er. unfold items; cbn [ax vectors].
    generalize (getNames (tp t)) as ns. generalize (rows t) as rs. clear.
    induction rs as [|x rs IH]; intros [|n ns]; simpl; auto. f_equal. auto.
Qed.

Lemma groupByFeature_spec t by_ : wf t -> NoDup by_ -> (forall i, In i by_ -> i < alen (tf t)) ->
  exists res, groupByFeature key t by_ = Ok res /\
    map fst res = dedup (map key (rows t)) /\
    (forall k g, In (k, g) res -> wf g /\
       getNames (tf g) = survivors by_ (getNames (tf t)) /\
       items Pts g = map (fun p => (fst p, survivors by_ (snd p))) (ofKey k (items Pts t))) /\
    Permutation (flat_map (fun kg => items Pts (snd kg)) res)
                (map (fun p => (fst p, survivors by_ (snd p))) (items Pts t)).
Proof.
  intros Hwf Hd Hr. unfold groupByFeature.
  destruct (groupLoop_spec t Hwf (alen (tp t)) 0 []) as [res0 [E0 [Hk Hg]]]; auto.
  { split; auto. intros k g H; discriminate. }
  rewrite E0; cbn [rbind].
  assert (HR : firstn (alen (tp t)) (rows t) = rows t) by (apply firstn_all2; destruct Hwf as [-> _]; lia).
  assert (HIt : firstn (alen (tp t)) (items Pts t) = items Pts t) by (apply firstn_all2; rewrite items_length; auto).
  rewrite HR in Hk. rewrite HIt in Hg.
  assert (Hgr : forall k g, In (k, g) res0 -> wf g /\ sameOff Pts t g /\ items Pts g = ofKey k (items Pts t)).
  { intros k g Hin. apply Hg. apply In_dget; auto. unfold wfdict. rewrite Hk. apply dedup_NoDup. }
  assert (Hrem : forall kg, In kg res0 -> exists g', remaining Fts (snd kg) by_ = Ok g').
  { intros [k g] Hin. destruct (Hgr k g Hin) as [Wg [[Sg1 Sg2] Ig]]. cbn [snd].
    destruct (remaining_spec V Fts g by_ Wg Hd) as [r [E' _]]; eauto. cbn [ax offax] in *. rewrite Sg1; auto. }
  assert (HM : exists res, rmapM (fun kg => rmap (fun g => (fst kg, g)) (remaining Fts (snd kg) by_)) res0 = Ok res /\
     Forall2 (fun kg kg' => fst kg' = fst kg /\ remaining Fts (snd kg) by_ = Ok (snd kg')) res0 res).
  { clear -Hrem. induction res0 as [|kg l IH].
    - exists []. split; auto.
    - destruct (Hrem kg (or_introl eq_refl)) as [g' Eg]. destruct IH as [res [E F]].
      { intros; apply Hrem; simpl; auto. }
      exists ((fst kg, g') :: res). cbn [rmapM]. rewrite Eg. cbn [rmap rbind]. rewrite E. cbn [rbind]. split; auto. }
  destruct HM as [res [EM FM]]. exists res. split; auto.
  assert (Hfst : map fst res = map fst res0).
  { clear -FM. induction FM as [|x y l l' [A B] F IH]; simpl; congruence. }
  split; [rewrite Hfst; exact Hk|].
  assert (Hspec : forall k g, In (k, g) res -> wf g /\
       getNames (tf g) = survivors by_ (getNames (tf t)) /\
       items Pts g = map (fun p => (fst p, survivors by_ (snd p))) (ofKey k (items Pts t))).
  { intros k g' Hin. assert (Hex : exists g, In (k, g) res0 /\ remaining Fts g by_ = Ok g').
    { clear -FM Hin. induction FM as [|[x gx] [y gy] l l' [A B] F IH]; simpl in *; [tauto|].
      destruct Hin as [[= <- <-]|Hin]; [subst; exists gx; auto|]. destruct IH as [g [Hi Hg]]; auto. exists g; auto. }
    destruct Hex as [g [Hin0 Erem]]. destruct (Hgr k g Hin0) as [Wg [[Sg1 Sg2] Ig]]. cbn [offax] in *.
    destruct (remaining_Fts_items g by_ g' Wg Hd) as [W [T [N I]]]; auto. { rewrite Sg1; auto. }
    split; auto. split; [rewrite N, Sg2; auto|]. rewrite I, Ig; auto. }
  split; auto.
  assert (Hflat : flat_map (fun kg => items Pts (snd kg)) res =
     map (fun p => (fst p, survivors by_ (snd p))) (flat_map (fun k => ofKey k (items Pts t)) (map fst res))).
  { clear -Hspec. induction res as [|[k g] res IH]; auto. cbn [flat_map map fst snd]. rewrite map_app. f_equal.
    - apply (Hspec k g); simpl; auto.
    - apply IH. intros; apply Hspec; simpl; auto. }
  rewrite Hflat. apply Permutation_map. rewrite Hfst. change (map fst res0) with (dkeys res0). rewrite Hk.
  rewrite <- (items_vectors V Pts t Hwf : _ = rows t). rewrite map_map.
  apply (partition_by_key (fun p => key (snd p))).
Qed.
End G.
