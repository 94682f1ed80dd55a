From Verif Require Import Base NamesModel NamesSpec TableModel TableSpec TableProofs TableOps TableSortProofs SparseModel SparseSpec.
From Coq Require Import Sorted.

(** ** binary search *)
Definition nondecr (l : list nat) : Prop :=
  forall i j x y, i < j -> nth_error l i = Some x -> nth_error l j = Some y -> x <= y.

Lemma bsearch_spec l key : nondecr l -> forall fuel lo hi,
  hi - lo < fuel -> lo <= hi -> hi <= List.length l ->
  (forall k x, nth_error l k = Some x -> k < lo -> x < key) ->
  (forall k x, nth_error l k = Some x -> hi <= k -> key <= x) ->
  isSplit l key (bsearch fuel l key lo hi).
Proof.
  intros Hs. induction fuel as [|f IH]; intros lo hi Hf Hle Hlen Hlo Hhi; [lia|].
  cbn [bsearch]. destruct (Nat.ltb_spec lo hi) as [Hlt|Hge].
  - set (mid := lo + (hi - lo) / 2).
    assert (Hd : (hi - lo) / 2 < hi - lo) by (apply Nat.div_lt; lia).
    assert (Hm : lo <= mid < hi) by (unfold mid; lia).
    destruct (nth_error_is_some l (i:=mid)) as [m Em]; [lia|].
    rewrite (nth_error_nth l mid 0 Em).
    destruct (Nat.ltb_spec m key).
    + apply IH; try lia.
      * intros k x Hk Hlt'. destruct (Nat.eq_dec k mid); [subst; congruence|].
        assert (x <= m) by (apply (Hs k mid x m); auto; lia). lia.
      * auto.
    + apply IH; try lia; auto.
      intros k x Hk Hge. destruct (Nat.eq_dec k mid); [subst; congruence|].
      assert (m <= x) by (apply (Hs mid k m x); auto; lia). lia.
  - assert (lo = hi) by lia. subst hi. split; [lia|]. intros k x Hk. split.
    + intros; eauto.
    + intros Hx. destruct (Nat.lt_ge_cases k lo); auto. apply (Hhi k x) in Hk; auto. lia.
Qed.
Lemma searchsorted_spec l key : nondecr l -> isSplit l key (searchsorted l key).
Proof.
  intros Hs. apply bsearch_spec; auto; try lia. intros k x Hk Hge. apply nth_error_lt in Hk. lia.
Qed.

Lemma NoDup_app_one {A} (l : list A) x : NoDup l -> ~ In x l -> NoDup (l ++ [x]).
Proof.
  intros Hn Hx. eapply Permutation_NoDup; [apply Permutation_cons_append|]. constructor; auto.
Qed.

Section P.
Variable V : Type.
Variable zero : V.
Implicit Types s : sparse V.
Implicit Types l : list (entry V).

Notation val := (val zero).

Lemma find_In l i j e : NoDup (map pos l) -> In e l -> pos e = (i, j) ->
  find (fun e => (er e =? i) && (ec e =? j)) l = Some e.
Proof.
  induction l as [|a l IH]; simpl; [tauto|]. intros Hn Hin Hp. inversion Hn; subst.
  destruct ((er a =? i) && (ec a =? j)) eqn:E.
  - apply andb_true_iff in E. destruct E as [E1 E2]. apply Nat.eqb_eq in E1, E2.
    destruct Hin as [->|Hin]; auto. exfalso. apply H1. apply in_map_iff. exists e. split; auto.
    rewrite Hp. unfold pos. congruence.
  - destruct Hin as [->|Hin]; auto. unfold pos in Hp. injection Hp as <- <-. rewrite !Nat.eqb_refl in E. discriminate.
Qed.
Lemma val_In s i j v : NoDup (map pos (ents s)) -> In (mkE i j v) (ents s) -> val s i j = v.
Proof. intros Hn Hin. unfold SparseSpec.val. rewrite (find_In _ i j (mkE i j v)); auto. Qed.
Lemma val_nonzero s i j v : val s i j = v -> v <> zero -> In (mkE i j v) (ents s).
Proof.
  unfold SparseSpec.val. intros Hv Hnz. destruct (find _ (ents s)) as [e|] eqn:E; [|congruence].
  apply find_some in E. destruct E as [Hin E]. apply andb_true_iff in E. destruct E as [E1 E2].
  apply Nat.eqb_eq in E1, E2. destruct e as [a b w]; simpl in *. subst. auto.
Qed.
(** the workhorse: equal memberships give equal matrices *)
Lemma val_eq s s' i j i' j' : entsOK zero s -> entsOK zero s' ->
  (forall v, v <> zero -> (In (mkE i j v) (ents s) <-> In (mkE i' j' v) (ents s'))) ->
  val s i j = val s' i' j'.
Proof.
  intros [N1 R1] [N2 R2] H.
  destruct (find (fun e => (er e =? i) && (ec e =? j)) (ents s)) as [e|] eqn:E1.
  - assert (Hin : In (mkE i j (ev e)) (ents s)).
    { apply find_some in E1. destruct E1 as [Hin E]. apply andb_true_iff in E. destruct E as [A B].
      apply Nat.eqb_eq in A, B. destruct e; simpl in *; subst; auto. }
    assert (Hz : ev e <> zero) by (apply (R1 _ Hin)).
    rewrite (val_In s i j (ev e)) by auto. symmetry. apply val_In; auto. apply H; auto.
  - unfold SparseSpec.val at 1. rewrite E1.
    destruct (find (fun e => (er e =? i') && (ec e =? j')) (ents s')) as [e|] eqn:E2.
    + exfalso. assert (Hin : In (mkE i' j' (ev e)) (ents s')).
      { apply find_some in E2. destruct E2 as [Hin E]. apply andb_true_iff in E. destruct E as [A B].
        apply Nat.eqb_eq in A, B. destruct e; simpl in *; subst; auto. }
      apply H in Hin; [|apply (R2 _ Hin)]. apply find_none with (x := mkE i j (ev e)) in E1; auto.
      simpl in E1. rewrite !Nat.eqb_refl in E1. discriminate.
    + unfold SparseSpec.val. rewrite E2. auto.
Qed.

(** ** lexsort *)
Lemma lexle_total sd (a b : entry V) : lexle sd a b = true \/ lexle sd b a = true.
Proof.
  unfold lexle. destruct (Nat.ltb_spec (prim sd a) (prim sd b)); auto.
  destruct (Nat.ltb_spec (prim sd b) (prim sd a)); auto. simpl.
  assert (prim sd a = prim sd b) by lia. rewrite H1, Nat.eqb_refl. simpl.
  destruct (Nat.le_ge_cases (offp sd a) (offp sd b)); [left|right]; apply Nat.leb_le; auto.
Qed.
Lemma lexle_iff sd (a b : entry V) : lexle sd a b = true <->
  prim sd a < prim sd b \/ (prim sd a = prim sd b /\ offp sd a <= offp sd b).
Proof.
  unfold lexle. rewrite orb_true_iff, andb_true_iff, Nat.ltb_lt, Nat.eqb_eq, Nat.leb_le. tauto.
Qed.
Lemma lexle_trans sd (a b c : entry V) : lexle sd a b = true -> lexle sd b c = true -> lexle sd a c = true.
Proof. rewrite !lexle_iff. lia. Qed.
Lemma pos_sd sd (a b : entry V) : prim sd a = prim sd b -> offp sd a = offp sd b -> pos a = pos b.
Proof. destruct sd; simpl; unfold pos; congruence. Qed.
Lemma lexsort_perm sd l : Permutation (lexsort sd l) l.
Proof. apply stableSort_perm. Qed.
Lemma StronglySorted_strict sd l : NoDup (map pos l) ->
  StronglySorted (fun a b => lexle sd a b = true) l -> StronglySorted (lexlt sd) l.
Proof.
  intros Hn HS. induction HS as [|a l HS IH HF]; [constructor|]. inversion Hn; subst. constructor; auto.
  rewrite Forall_forall in *. intros b Hb. specialize (HF b Hb). apply lexle_iff in HF.
  destruct HF as [|[A B]]; [left; auto|]. right. split; auto.
  destruct (Nat.eq_dec (offp sd a) (offp sd b)); [|lia]. exfalso. apply H1. apply in_map_iff. exists b. split; auto.
  symmetry; eapply pos_sd; eauto.
Qed.
Lemma lexsort_sorted sd l : NoDup (map pos l) -> StronglySorted (lexlt sd) (lexsort sd l).
Proof.
  intros Hn. apply StronglySorted_strict.
  - eapply Permutation_NoDup; [apply Permutation_map, Permutation_sym, lexsort_perm|auto].
  - assert (HS : StronglySorted (lexR (lexle sd) (fun _ _ => True)) (lexsort sd l)).
    { apply stableSort_sorted.
      - apply lexle_total.
      - apply lexle_trans.
      - clear. induction l; constructor; auto. apply Forall_forall; auto. }
    eapply StronglySorted_ext_in; [|exact HS]. intros x y _ _. apply lexR_le.
Qed.

Lemma sorted_prim_nondecr sd l : StronglySorted (lexlt sd) l -> nondecr (map (prim sd) l).
Proof.
  intros HS i j x y Hij Hi Hj. rewrite nth_error_map_eq in Hi, Hj.
  destruct (nth_error l i) as [a|] eqn:Ea; [|discriminate]. destruct (nth_error l j) as [b|] eqn:Eb; [|discriminate].
  injection Hi as <-. injection Hj as <-. pose proof (StronglySorted_nth _ _ HS i j a b Hij Ea Eb) as [H|[H _]]; lia.
Qed.

Lemma calcIndices_ok sd s l : StronglySorted (lexlt sd) l ->
  List.length (calcIndices sd s l) = S (axLen sd s) /\
  forall i c, nth_error (calcIndices sd s l) i = Some c -> isSplit (map (prim sd) l) i c.
Proof.
  intros HS. unfold calcIndices. split; [rewrite map_length, seq_length; auto|].
  intros i c. rewrite nth_error_map_eq, nth_error_seq. destruct (i <? S (axLen sd s)); [|discriminate].
  intros [= <-]. apply searchsorted_spec. apply sorted_prim_nondecr; auto.
Qed.

Lemma sameMatrix_refl s : sameMatrix zero s s.
Proof. repeat split. Qed.
Lemma sameMatrix_trans s1 s2 s3 : sameMatrix zero s1 s2 -> sameMatrix zero s2 s3 -> sameMatrix zero s1 s3.
Proof. intros [A1 [A2 A3]] [B1 [B2 B3]]. repeat split; intros; congruence. Qed.

Lemma perm_entsOK s l a i : entsOK zero s -> Permutation l (ents s) -> entsOK zero (mkSp (snp s) (snf s) l a i).
Proof.
  intros [N R] HP. split; cbn [ents snp snf].
  - eapply Permutation_NoDup; [apply Permutation_map, Permutation_sym, HP|auto].
  - intros e He. apply R. eapply Permutation_in; eauto.
Qed.
Lemma perm_sameMatrix s l a i : entsOK zero s -> Permutation l (ents s) ->
  sameMatrix zero s (mkSp (snp s) (snf s) l a i).
Proof.
  intros HE HP. split; auto. split; auto. intros x y. apply val_eq; auto.
  - apply perm_entsOK; auto.
  - intros v _. cbn [ents]. split; apply Permutation_in; auto using Permutation_sym.
Qed.

Lemma sortInternal_spec s sd setI force : entsOK zero s -> (force = true \/ cacheOK s) ->
  let s' := sortInternal s sd setI force in
  sinv zero s' /\ sameMatrix zero s s' /\ sAxis s' = Some sd /\
  Permutation (ents s') (ents s) /\ (setI = true -> exists idx, sIdx s' = Some idx).
Proof.
  intros HE HC. cbv zeta. unfold sortInternal.
  destruct (eqbd (sAxis s) (Some sd) && negb force) eqn:E.
  - apply andb_true_iff in E. destruct E as [E1 E2]. apply eqbd_true in E1. apply negb_true_iff in E2. subst force.
    destruct HC as [HC|HC]; [discriminate|]. pose proof HC as HC'. unfold cacheOK in HC'. rewrite E1 in HC'.
    destruct HC' as [HS HI].
    destruct (sIdx s) as [idx|] eqn:Ei.
    + rewrite orb_true_r. split; [split; auto|]. split; [apply sameMatrix_refl|]. split; auto. split; auto. rewrite Ei; eauto.
    + rewrite orb_false_r. destruct setI; cbn [negb].
      * split; [split|].
        -- apply perm_entsOK; auto.
        -- unfold cacheOK; cbn [sAxis sIdx ents]. rewrite E1. split; auto.
           destruct (calcIndices_ok sd s (ents s) HS) as [A B]; split; [destruct sd; exact A|exact B].
        -- split; [apply perm_sameMatrix; auto|]. cbn [sAxis ents sIdx]. split; auto. split; auto. eauto.
      * split; [split; auto|]. split; [apply sameMatrix_refl|]. split; auto. split; auto. discriminate.
  - pose proof (lexsort_perm sd (ents s)) as HP. pose proof HE as [N R].
    assert (HS := lexsort_sorted sd (ents s) N).
    split; [split|].
    + apply perm_entsOK; auto.
    + unfold cacheOK; cbn [sAxis sIdx ents]. split; auto. destruct setI; auto.
      destruct (calcIndices_ok sd s _ HS) as [A B]; split; [destruct sd; exact A|exact B].
    + split; [apply perm_sameMatrix; auto|]. cbn [sAxis ents sIdx]. split; auto. split; auto.
      intros ->; eauto.
Qed.

(** ** element access *)
Lemma slice_nth {A} (l : list A) a b k : nth_error (slice l a b) k = if k <? b - a then nth_error l (a + k) else None.
Proof. unfold slice. rewrite nth_error_firstn, nth_error_skipn. auto. Qed.

Definition at_side (sd : side) (x y : nat) : nat * nat := match sd with Pts => (x, y) | Fts => (y, x) end.

Lemma locate_spec s sd idx x y : sinv zero s -> sAxis s = Some sd -> sIdx s = Some idx -> x < snp s -> y < snf s ->
  (exists k e, locate s x y = Ok (Some k) /\ nth_error (ents s) k = Some e /\ er e = x /\ ec e = y) \/
  (locate s x y = Ok None /\ forall e, In e (ents s) -> er e = x -> ec e = y -> False).
Proof.
  intros [HE HC] Ha Hi Hx Hy. unfold cacheOK in HC. rewrite Ha, Hi in HC. destruct HC as [HS [HL HI]].
  unfold locate, sortSide. rewrite Ha, Hi.
  set (a := match sd with Pts => x | Fts => y end). set (o := match sd with Pts => y | Fts => x end).
  assert (Hal : a < axLen sd s) by (unfold a; destruct sd; auto).
  destruct (nth_error_is_some idx (i:=a)) as [start Es]; [lia|].
  destruct (nth_error_is_some idx (i:=S a)) as [stop Ee]; [lia|].
  rewrite Es, Ee. pose proof (HI _ _ Es) as [Ls Ss]. pose proof (HI _ _ Ee) as [Le Se].
  rewrite map_length in Ls, Le.
  assert (Hrange : forall k e, nth_error (ents s) k = Some e -> (start <= k < stop <-> prim sd e = a)).
  { intros k e Hk. assert (Hp : nth_error (map (prim sd) (ents s)) k = Some (prim sd e)) by (rewrite nth_error_map_eq, Hk; auto).
    specialize (Ss _ _ Hp). specialize (Se _ _ Hp). lia. }
  assert (Hmatch : forall e : entry V, prim sd e = a -> offp sd e = o -> er e = x /\ ec e = y).
  { intros e; unfold a, o; destruct sd; simpl; auto. }
  assert (Hmatch2 : forall e : entry V, er e = x -> ec e = y -> prim sd e = a /\ offp sd e = o).
  { intros e; unfold a, o; destruct sd; simpl; auto. }
  destruct (Nat.eqb_spec start stop) as [->|Hne].
  - right. split; auto. intros e He Hex Hey. apply In_nth_error in He. destruct He as [k Hk].
    destruct (Hmatch2 e Hex Hey) as [Hp _]. apply (Hrange k e Hk) in Hp. lia.
  - set (offs := map (offp sd) (ents s)).
    assert (Hnd : nondecr (slice offs start stop)).
    { intros i j u v Hij Hu Hv. rewrite slice_nth in Hu, Hv.
      destruct (Nat.ltb_spec i (stop - start)); [|discriminate]. destruct (Nat.ltb_spec j (stop - start)); [|discriminate].
      unfold offs in Hu, Hv. rewrite nth_error_map_eq in Hu, Hv.
      destruct (nth_error (ents s) (start + i)) as [e1|] eqn:E1; [|discriminate].
      destruct (nth_error (ents s) (start + j)) as [e2|] eqn:E2; [|discriminate].
      injection Hu as <-. injection Hv as <-.
      assert (P1 : prim sd e1 = a) by (apply (Hrange (start + i)); auto; lia).
      assert (P2 : prim sd e2 = a) by (apply (Hrange (start + j)); auto; lia).
      pose proof (StronglySorted_nth _ _ HS (start + i) (start + j) e1 e2 ltac:(lia) E1 E2) as [H1|[_ H1]]; lia. }
    destruct (searchsorted_spec (slice offs start stop) o Hnd) as [Lk Sk].
    set (p := searchsorted (slice offs start stop) o) in *.
    assert (Hin : forall k e, nth_error (ents s) k = Some e -> start <= k < stop -> (k < p + start <-> offp sd e < o)).
    { intros k e Hk Hr. assert (Hs : nth_error (slice offs start stop) (k - start) = Some (offp sd e)).
      { rewrite slice_nth. replace (k - start <? stop - start) with true by (symmetry; apply Nat.ltb_lt; lia).
        replace (start + (k - start)) with k by lia. unfold offs. rewrite nth_error_map_eq, Hk. auto. }
      specialize (Sk _ _ Hs). lia. }
    assert (Hnone : (forall e, nth_error (ents s) (p + start) = Some e -> p + start < stop -> offp sd e <> o) ->
        forall e, In e (ents s) -> er e = x -> ec e = y -> False).
    { intros Hno e He Hex Hey. apply In_nth_error in He. destruct He as [k Hk].
      destruct (Hmatch2 e Hex Hey) as [Hp Ho]. apply (Hrange k e Hk) in Hp.
      pose proof (Hin k e Hk Hp) as Hk1.
      assert (Hge : p + start <= k) by lia.
      destruct (Nat.eq_dec k (p + start)) as [->|Hn]; [apply (Hno e); auto; lia|].
      destruct (nth_error_is_some (ents s) (i:=p + start)) as [e' He']; [apply nth_error_lt in Hk; lia|].
      assert (Hr : start <= p + start < stop) by lia.
      pose proof (Hin _ _ He' Hr). assert (offp sd e' >= o) by lia.
      pose proof (StronglySorted_nth _ _ HS (p + start) k e' e ltac:(lia) He' Hk) as [H2|[_ H2]].
      - apply (Hrange _ _ He') in Hr. apply (Hrange _ _ Hk) in Hp. lia.
      - lia. }
    destruct (Nat.ltb_spec (p + start) stop) as [Hlt|Hge].
    + destruct (nth_error_is_some (ents s) (i:=p + start)) as [e He]; [lia|].
      assert (Ho : nth_error offs (p + start) = Some (offp sd e)) by (unfold offs; rewrite nth_error_map_eq, He; auto).
      rewrite Ho. destruct (Nat.eqb_spec (offp sd e) o) as [Heq|Hneq].
      * left. exists (p + start), e. split; auto. split; auto. apply Hmatch; auto.
        apply (Hrange (p + start)); auto. lia.
      * right. split; auto. apply Hnone. intros e' He'. congruence.
    + right. split; auto. apply Hnone. intros; lia.
Qed.

Lemma sortSide_self s : cacheOK s -> sAxis s <> None -> sAxis s = Some (sortSide s).
Proof. intros _ H. unfold sortSide. destruct (sAxis s); congruence. Qed.

Lemma getitem_spec s x y : sinv zero s -> x < snp s -> y < snf s ->
  let r := getitem zero s x y in
  snd r = Ok (val s x y) /\ sinv zero (fst r) /\ sameMatrix zero s (fst r).
Proof.
  intros HI Hx Hy. cbv zeta. unfold getitem. cbn [fst snd].
  destruct (sortInternal_spec s (sortSide s) true false) as [HI' [HM [HA [HP HX]]]]; [apply HI|right; apply HI|].
  set (s' := sortInternal s (sortSide s) true false) in *.
  destruct (HX eq_refl) as [idx Hidx]. pose proof HM as [M1 [M2 M3]].
  split; [|split; auto].
  destruct (locate_spec s' (sortSide s) idx x y) as [[k [e [El [En [Ex Ey]]]]]|[El Hno]]; auto; try congruence.
  - rewrite El; cbn [rbind]. rewrite En. f_equal. rewrite <- M3. symmetry. apply val_In; [apply HI'|].
    apply nth_error_In in En. destruct e; simpl in *; subst; auto.
  - rewrite El; cbn [rbind]. f_equal. rewrite <- M3. unfold SparseSpec.val.
    destruct (find _ (ents s')) as [e|] eqn:E; auto. apply find_some in E. destruct E as [Hin E].
    apply andb_true_iff in E. destruct E as [A B]. apply Nat.eqb_eq in A, B. exfalso; eauto.
Qed.

Lemma NoDup_map_upd_same {A B} (f : A -> B) (l : list A) k a b :
  nth_error l k = Some a -> f b = f a -> map f (upd l k b) = map f l.
Proof.
  intros Hk Hf. apply nth_error_ext. intros i. rewrite !nth_error_map_eq, nth_error_upd.
  destruct (Nat.eq_dec k i); auto. subst. apply nth_error_lt in Hk as Hl. apply Nat.ltb_lt in Hl. rewrite Hl, Hk. simpl. congruence.
Qed.
Lemma In_upd {A} (l : list A) k a b x : nth_error l k = Some a -> NoDup l ->
  (In x (upd l k b) <-> x = b \/ (In x l /\ x <> a)).
Proof.
  intros Hk Hn. split.
  - intros Hin. apply In_nth_error in Hin. destruct Hin as [i Hi]. rewrite nth_error_upd in Hi.
    destruct (Nat.eq_dec k i) as [->|Hne].
    + destruct (i <? List.length l); [left; congruence|discriminate].
    + right. split; [eapply nth_error_In; eauto|]. intros ->. apply Hne. eapply NoDup_nth_error_inj with (l := l); eauto.
  - intros [->|[Hin Hne]].
    + apply nth_error_In with (n := k). apply nth_error_upd_same. eapply nth_error_lt; eauto.
    + apply In_nth_error in Hin. destruct Hin as [i Hi]. apply nth_error_In with (n := i).
      rewrite nth_error_upd_other; auto. intros ->; congruence.
Qed.
Lemma deleteAt_perm {A} (l : list A) k a : nth_error l k = Some a -> Permutation (a :: deleteAt l k) l.
Proof.
  revert k; induction l as [|x l IH]; intros [|k] H; simpl in *; try discriminate.
  - injection H as ->. unfold deleteAt; simpl. auto.
  - unfold deleteAt. simpl. apply perm_trans with (x :: a :: deleteAt l k); [apply perm_swap|]. constructor. apply IH; auto.
Qed.

Lemma NoDup_of_map {A B} (f : A -> B) (l : list A) : NoDup (map f l) -> NoDup l.
Proof. apply NoDup_map_inv. Qed.

Lemma entsOK_cases s : entsOK zero s -> forall e e', In e (ents s) -> In e' (ents s) -> er e = er e' -> ec e = ec e' -> e = e'.
Proof.
  intros [N R] e e' H1 H2 A B. apply In_nth_error in H1, H2. destruct H1 as [i Hi], H2 as [j Hj].
  assert (i = j).
  { apply (@NoDup_nth_error_inj _ (map pos (ents s)) i j (pos e)); auto;
      rewrite nth_error_map_eq; [rewrite Hi|rewrite Hj]; simpl; unfold pos; congruence. }
  congruence.
Qed.

Lemma StronglySorted_map_pos sd l l' : map pos l = map pos l' -> StronglySorted (lexlt sd) l -> StronglySorted (lexlt sd) l'.
Proof.
  revert l'. induction l as [|a l IH]; intros [|b l'] Hm HS; simpl in Hm; try discriminate; [constructor|].
  injection Hm as H1 H2 H3. inversion HS as [|? ? HS' HF]; subst. constructor; auto.
  rewrite Forall_forall in *. intros c Hc.
  assert (Hex : exists d, In d l /\ pos d = pos c).
  { assert (Hi : In (pos c) (map pos l)) by (rewrite H3; apply in_map; auto).
    apply in_map_iff in Hi. destruct Hi as [d [A B]]. eauto. }
  destruct Hex as [d [Hd Hp]]. specialize (HF d Hd). unfold pos in Hp. injection Hp as P1 P2.
  unfold lexlt, prim, offp in *. destruct sd; simpl in *; lia.
Qed.
Lemma prim_map_pos sd l l' : map pos l = map pos l' -> map (prim sd) l = map (prim sd) l'.
Proof.
  intros H. destruct sd; simpl.
  - change (map er l = map er l'). rewrite <- (map_map pos fst l), <- (map_map pos fst l') at 1.
    rewrite H. auto.
  - change (map ec l = map ec l'). rewrite <- (map_map pos snd l), <- (map_map pos snd l') at 1.
    rewrite H. auto.
Qed.

Context {EV : EqDec V}.
Lemma setitem_spec s x y v : sinv zero s -> x < snp s -> y < snf s ->
  let r := setitem zero s x y v in
  snd r = Ok tt /\ sinv zero (fst r) /\ snp (fst r) = snp s /\ snf (fst r) = snf s /\
  forall i j, val (fst r) i j = if (i =? x) && (j =? y) then v else val s i j.
Proof.
  intros HI Hx Hy. cbv zeta. unfold setitem.
  destruct (sortInternal_spec s (sortSide s) true false) as [HI' [HM [HA [HP HX]]]]; [apply HI|right; apply HI|].
  set (s' := sortInternal s (sortSide s) true false) in *.
  destruct (HX eq_refl) as [idx Hidx]. pose proof HM as [M1 [M2 M3]].
  pose proof HI' as [HE' HC']. pose proof HE' as [N' R'].
  destruct (locate_spec s' (sortSide s) idx x y) as [[k [e [El [En [Ex Ey]]]]]|[El Hno]]; auto; try congruence; rewrite El.
  - pose proof (nth_error_In _ _ En) as Hein.
    destruct (eqbd v zero) eqn:Ez.
    + apply eqbd_true in Ez. subst v.
      pose proof (deleteAt_perm _ _ _ En) as HD.
      assert (HE1 : entsOK zero (withEnts s' (deleteAt (ents s') k))).
      { split; cbn [ents withEnts snp snf].
        - assert (Hn : NoDup (map pos (e :: deleteAt (ents s') k))).
          { eapply Permutation_NoDup; [apply Permutation_map, Permutation_sym, HD|auto]. }
          inversion Hn; auto.
        - intros e0 He0. apply R'. eapply Permutation_in; [exact HD|]. simpl; auto. }
      destruct (sortInternal_spec (withEnts s' (deleteAt (ents s') k)) (sortSide s') true true) as [HI2 [HM2 _]]; auto.
      cbn [fst snd]. split; auto. split; auto. destruct HM2 as [Q1 [Q2 Q3]]. cbn [withEnts snp snf] in Q1, Q2.
      split; [congruence|]. split; [congruence|]. intros i j. rewrite Q3.
      destruct ((i =? x) && (j =? y)) eqn:Eij.
      * apply andb_true_iff in Eij. destruct Eij as [A B]. apply Nat.eqb_eq in A, B. subst i j.
        unfold SparseSpec.val. destruct (find _ _) as [e0|] eqn:Ef; auto. exfalso.
        apply find_some in Ef. destruct Ef as [Hin Ef]. apply andb_true_iff in Ef. destruct Ef as [A B].
        apply Nat.eqb_eq in A, B. cbn [withEnts ents] in Hin.
        assert (Hn : NoDup (map pos (e :: deleteAt (ents s') k))).
        { eapply Permutation_NoDup; [apply Permutation_map, Permutation_sym, HD|auto]. }
        inversion Hn; subst. apply H1. apply in_map_iff. exists e0. split; auto. unfold pos. congruence.
      * rewrite <- M3. apply val_eq; auto. intros w Hw. cbn [withEnts ents]. split; intros Hin.
        -- eapply Permutation_in; [exact HD|]. simpl; auto.
        -- apply (Permutation_in _ (Permutation_sym HD)) in Hin. destruct Hin as [->|Hin]; auto.
           simpl in *. subst. rewrite !Nat.eqb_refl in Eij. discriminate.
    + apply eqbd_false in Ez. rewrite En. cbn [fst snd]. split; auto.
      assert (Hm : map pos (upd (ents s') k (mkE (er e) (ec e) v)) = map pos (ents s')).
      { eapply NoDup_map_upd_same; eauto. }
      assert (HE1 : entsOK zero (withEnts s' (upd (ents s') k (mkE (er e) (ec e) v)))).
      { split; cbn [ents withEnts snp snf]; [rewrite Hm; auto|]. intros e0 He0.
        apply (In_upd _ _ _ _ _ En) in He0; [|eapply NoDup_of_map; eauto].
        destruct He0 as [->|[He0 _]]; [|auto]. simpl. destruct (R' e Hein) as [A [B C]]. auto. }
      split; [split; auto|].
      { unfold cacheOK in *. cbn [withEnts sAxis sIdx ents]. rewrite HA, Hidx in *. destruct HC' as [HS [HL HI2]].
        split; [eapply StronglySorted_map_pos; [symmetry; eauto|auto]|].
        split; [destruct (sortSide s); auto|].
        rewrite (prim_map_pos (sortSide s) _ _ Hm). auto. }
      cbn [withEnts snp snf]. split; auto. split; auto. intros i j.
      destruct ((i =? x) && (j =? y)) eqn:Eij.
      * apply andb_true_iff in Eij. destruct Eij as [A B]. apply Nat.eqb_eq in A, B. subst i j.
        apply val_In; [apply HE1|]. cbn [withEnts ents]. apply (In_upd _ _ _ _ _ En); [eapply NoDup_of_map; eauto|].
        left; congruence.
      * rewrite <- M3. apply val_eq; auto. intros w Hw. cbn [withEnts ents].
        rewrite (In_upd _ _ _ _ _ En) by (eapply NoDup_of_map; eauto).
        split.
        -- intros [Heq|[H _]]; auto. injection Heq as -> -> ->. rewrite Ex, Ey, !Nat.eqb_refl in Eij. discriminate.
        -- intros H. right. split; auto. intros <-. simpl in *; subst. rewrite !Nat.eqb_refl in Eij. discriminate.
  - destruct (eqbd v zero) eqn:Ez.
    + apply eqbd_true in Ez. subst v. cbn [fst snd]. split; auto. split; auto. split; auto. split; auto.
      intros i j. rewrite M3. destruct ((i =? x) && (j =? y)) eqn:Eij; auto.
      apply andb_true_iff in Eij. destruct Eij as [A B]. apply Nat.eqb_eq in A, B. subst i j.
      destruct (eq_dec (val s x y) zero) as [->|Hnz]; auto. exfalso.
      rewrite <- M3 in Hnz. apply (Hno (mkE x y (val s' x y))); auto. apply val_nonzero; auto.
    + apply eqbd_false in Ez.
      assert (HE1 : entsOK zero (withEnts s' (ents s' ++ [mkE x y v]))).
      { split; cbn [ents withEnts snp snf].
        - rewrite map_app. simpl. apply NoDup_app_one; auto. intros Hin. apply in_map_iff in Hin.
          destruct Hin as [e [He Hin]]. unfold pos in He; simpl in He. injection He as A B. eauto.
        - intros e He. apply in_app_iff in He. destruct He as [He|[<-|[]]]; auto. simpl. rewrite M1, M2. auto. }
      destruct (sortInternal_spec (withEnts s' (ents s' ++ [mkE x y v])) (sortSide s') true true) as [HI2 [HM2 _]]; auto.
      cbn [fst snd]. split; auto. split; auto. destruct HM2 as [Q1 [Q2 Q3]]. cbn [withEnts snp snf] in Q1, Q2.
      split; [congruence|]. split; [congruence|]. intros i j. rewrite Q3.
      destruct ((i =? x) && (j =? y)) eqn:Eij.
      * apply andb_true_iff in Eij. destruct Eij as [A B]. apply Nat.eqb_eq in A, B. subst i j.
        apply val_In; [apply HE1|]. cbn [withEnts ents]. apply in_app_iff; simpl; auto.
      * rewrite <- M3. apply val_eq; auto. intros w Hw. cbn [withEnts ents]. rewrite in_app_iff. simpl.
        split; [|auto]. intros [H|[H|[]]]; auto. injection H as -> -> ->. rewrite !Nat.eqb_refl in Eij. discriminate.
Qed.
End P.
