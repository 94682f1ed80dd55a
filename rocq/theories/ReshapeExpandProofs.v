(** Proofs for C49: combineByExpandingFeatures. *)
From Verif Require Import Base NamesModel NamesSpec NamesProofs NamesIndexProofs TableModel TableSpec TableProofs TableOpsProofs FlatProofs MatchModel MatchSpec MatchProofs
  MergeModel BinOpProofs MergeLoopProofs MergeNamesProofs ReshapeModel ReshapeSpec ReshapeTextProofs ReshapeSplitProofs ReshapeCollapseProofs.
Open Scope string_scope. Open Scope list_scope. Open Scope nat_scope.

Lemma existsb_false_In {A} (f : A -> bool) l : existsb f l = false -> forall x, In x l -> f x = false.
Proof. intros E x I. destruct (f x) eqn:F; [|reflexivity]. assert (existsb f l = true) by (apply existsb_exists; eauto). congruence. Qed.
Lemma filter_none {A} (f : A -> bool) l : (forall x, In x l -> f x = false) -> filter f l = [].
Proof. induction l as [|x l IH]; intros H; [reflexivity|]. cbn. rewrite (H x (or_introl eq_refl)). apply IH. intros y I. apply H. right. exact I. Qed.
Lemma existsb_first {A} (f : A -> bool) l : existsb f l = true -> exists l1 x l2, l = l1 ++ x :: l2 /\ f x = true /\ existsb f l1 = false.
Proof.
  induction l as [|x l IH]; intros E; [discriminate|]. cbn in E. destruct (f x) eqn:F; [exists [], x, l; auto|].
  destruct (IH E) as [l1 [y [l2 [-> [Y N]]]]]. exists (x :: l1), y, l2. cbn. rewrite F. auto.
Qed.
(** ** equality of tuples *)
Lemma tupEq_spec a b : tupEq a b = true <-> SameValues a b.
Proof.
  revert b. induction a as [|x a IH]; intros [|y b]; cbn; split; intros H; try discriminate; try constructor; try (inversion H; fail).
  - apply andb_true_iff in H. destruct H as [H _]. apply pyEq_spec. exact H.
  - apply andb_true_iff in H. destruct H as [_ H]. apply IH. exact H.
  - inversion H; subst. apply andb_true_iff. split; [apply pyEq_spec; assumption|apply IH; assumption].
Qed.
Lemma tupEq_sym a b : tupEq a b = tupEq b a.
Proof. revert b. induction a as [|x a IH]; intros [|y b]; cbn; auto. rewrite (pyEq_sym x y), (IH b). reflexivity. Qed.
Lemma tupEq_trans a b c : tupEq a b = true -> tupEq b c = true -> tupEq a c = true.
Proof.
  revert b c. induction a as [|x a IH]; intros [|y b] [|z c]; cbn; try discriminate; auto. rewrite !andb_true_iff.
  intros [A B] [C D]. split; [exact (pyEq_trans _ _ _ A C)|exact (IH _ _ B D)].
Qed.
Lemma tupEq_refl a : ~ In PNaN a -> tupEq a a = true.
Proof.
  induction a as [|x a IH]; intros N; [reflexivity|]. cbn. rewrite (proj2 (pyEq_self x)), IH; [reflexivity| |]; intros E; apply N; [right; exact E|left; exact E].
Qed.

(** ** positions of first occurrences *)
Section Firsts.
Context {A : Type} (d : A) (eq : A -> A -> bool).
Definition firstsPos (l : list A) : list nat :=
  filter (fun i => negb (existsb (eq (nth i l d)) (firstn i l))) (seq 0 (List.length l)).
Lemma firstsPos_snoc l x : firstsPos (l ++ [x]) = firstsPos l ++ (if existsb (eq x) l then [] else [List.length l]).
Proof.
  unfold firstsPos. rewrite app_length, Nat.add_1_r, seq_S, filter_app. f_equal.
  - apply filter_ext_in. intros i I. apply in_seq in I. rewrite app_nth1, firstn_app by lia.
    replace (i - List.length l) with 0 by lia. cbn [firstn]. rewrite app_nil_r. reflexivity.
  - cbn [filter Nat.add]. rewrite app_nth2, Nat.sub_diag by lia. cbn [nth]. rewrite firstn_app, firstn_all, Nat.sub_diag. cbn [firstn]. rewrite app_nil_r.
    destruct (existsb (eq x) l); reflexivity.
Qed.
Lemma firstsPos_lt l i : In i (firstsPos l) -> i < List.length l.
Proof. intros I. apply filter_In in I. destruct I as [I _]. apply in_seq in I. lia. Qed.
Hypothesis sym : forall a b, eq a b = eq b a.
Hypothesis trans : forall a b c, eq a b = true -> eq b c = true -> eq a c = true.
(** every element is equal to a first occurrence *)
Lemma firstsPos_cover l : (forall x, In x l -> eq x x = true) -> forall x, In x l -> exists i, In i (firstsPos l) /\ eq x (nth i l d) = true.
Proof.
  intros R x I. apply In_nth_error in I. destruct I as [p P]. revert x P. induction p as [p IH] using lt_wf_ind. intros x P.
  assert (L : p < List.length l) by (apply nth_error_Some; congruence).
  destruct (existsb (eq x) (firstn p l)) eqn:E.
  - apply existsb_exists in E. destruct E as [y [Y XY]]. apply In_nth_error in Y. destruct Y as [q Q].
    assert (LQ : q < p). { assert (q < List.length (firstn p l)) by (apply nth_error_Some; congruence). rewrite firstn_length in H. lia. }
    assert (Q' : nth_error l q = Some y). { rewrite <- (firstn_skipn p l). rewrite nth_error_app1 by (apply nth_error_Some; congruence). exact Q. }
    destruct (IH q LQ y Q') as [i [I YI]]. exists i. split; [exact I|exact (trans _ _ _ XY YI)].
  - exists p. rewrite (nth_error_nth l p d P). split; [|apply R; eapply nth_error_In; exact P].
    apply filter_In. split; [apply in_seq; lia|]. rewrite (nth_error_nth l p d P), E. reflexivity.
Qed.
Lemma firsts_existsb l x : (forall y, In y l -> eq y y = true) -> existsb (eq x) (map (fun i => nth i l d) (firstsPos l)) = existsb (eq x) l.
Proof.
  intros R. apply eq_true_iff_eq. rewrite !existsb_exists. split.
  - intros [y [Y E]]. apply in_map_iff in Y. destruct Y as [i [<- I]]. exists (nth i l d). split; [apply nth_In; apply firstsPos_lt; exact I|exact E].
  - intros [y [Y E]]. destruct (firstsPos_cover l R y Y) as [i [I YI]]. exists (nth i l d). split; [apply in_map_iff; eauto|exact (trans _ _ _ E YI)].
Qed.
Lemma firstsPos_distinct l g h i j : g < h -> nth_error (firstsPos l) g = Some i -> nth_error (firstsPos l) h = Some j -> i < j.
Proof.
  unfold firstsPos. generalize (fun i0 => negb (existsb (eq (nth i0 l d)) (firstn i0 l))) as f. intros f.
  generalize (List.length l) as n. generalize 0 as s. intros s n. revert s g h.
  induction n as [|n IH]; intros s g h L G H; cbn [seq filter] in *; [destruct g; discriminate|].
  destruct (f s); [|eapply IH; eauto]. destruct g as [|g], h as [|h]; try lia; cbn in G, H.
  - injection G as <-. apply nth_error_In, filter_In in H. destruct H as [H _]. apply in_seq in H. lia.
  - apply (IH (S s) g h); auto. lia.
Qed.
Lemma firstsPos_new l i q : In i (firstsPos l) -> q < i -> eq (nth i l d) (nth q l d) = false.
Proof.
  intros I L. pose proof (firstsPos_lt l i I) as LL. apply filter_In in I. destruct I as [_ E]. apply negb_true_iff in E.
  destruct (eq (nth i l d) (nth q l d)) eqn:X; [|reflexivity]. exfalso.
  assert (existsb (eq (nth i l d)) (firstn i l) = true); [|congruence]. apply existsb_exists. exists (nth q l d). split; [|exact X].
  apply nth_error_In with (n := q). rewrite <- (firstn_skipn i l) at 2. rewrite app_nth1 by (rewrite firstn_length; lia).
  apply nth_error_nth'. rewrite firstn_length. lia.
Qed.
(** unique representative *)
Lemma firstsPos_unique l i j : In i (firstsPos l) -> In j (firstsPos l) -> eq (nth i l d) (nth j l d) = true -> i = j.
Proof.
  intros I J E. destruct (Nat.lt_trichotomy i j) as [L|[X|L]]; [|exact X|].
  - rewrite sym, (firstsPos_new l j i J L) in E. discriminate.
  - rewrite (firstsPos_new l i j I L) in E. discriminate.
Qed.
Lemma firstsPos_Firsts (R : A -> A -> Prop) l : (forall x y, eq x y = true <-> R x y) -> (forall x, In x l -> eq x x = true) -> Firsts R l (firstsPos l).
Proof.
  intros RS RF. split; [|split].
  - intros g p G. pose proof (nth_error_In _ _ G) as I. pose proof (firstsPos_lt l p I) as L. exists (nth p l d). split; [apply nth_error_nth'; exact L|].
    intros q y Q Y H. apply RS in H. rewrite <- (nth_error_nth l q d Y) in H. rewrite (firstsPos_new l p q I Q) in H. discriminate.
  - intros g h p q L G H. exact (firstsPos_distinct l g h p q L G H).
  - intros q y Y. destruct (firstsPos_cover l RF y (nth_error_In _ _ Y)) as [i [I E]]. destruct (In_nth_error _ _ I) as [g G].
    exists g, i, (nth i l d). split; [exact G|]. split; [apply nth_error_nth', firstsPos_lt; exact I|apply RS; exact E].
Qed.
End Firsts.

(** ** the loop over the points *)
Section Loop.
Variables (ni : nat) (ui vi : list nat).
Definition keyOf' (r : list pval) : list pval := pick r ui.
Definition nameOf (r : list pval) : pval := nth ni r PNaN.
Definition valsOf (r : list pval) : list pval := pick r vi.
Definition dictOf (done : list (list pval)) (key : list pval) : list (pval * list pval) :=
  map (fun r => (nameOf r, valsOf r)) (filter (fun r => tupEq (keyOf' r) key) done).
Definition posOf (done : list (list pval)) : list nat := firstsPos [] tupEq (map keyOf' done).
Definition keysOf (done : list (list pval)) : list (list pval) := map (fun i => nth i (map keyOf' done) []) (posOf done).
Definition groupsOf (done : list (list pval)) : list group := map (fun k => (k, dictOf done k)) (keysOf done).
Definition nposOf (done : list (list pval)) : list nat := firstsPos PNaN pyEq (map nameOf done).
Definition namesOf (done : list (list pval)) : list pval := map (fun i => nth i (map nameOf done) PNaN) (nposOf done).
Definition keptOf (pns : list (option string)) (done : list (list pval)) : list (option string) := map (fun i => nth i pns None) (posOf done).
Definition NoNaN (rs : list (list pval)) : Prop := forall r, In r rs -> ~ In PNaN (keyOf' r) /\ nameOf r <> PNaN.
Definition Clash (a b : list pval) : Prop := SameValues (keyOf' a) (keyOf' b) /\ Same (nameOf a) (nameOf b).

Lemma addPoint_new key name vals (f : list pval -> list (pval * list pval)) : forall K, existsb (tupEq key) K = false ->
  addPoint key name vals (map (fun k => (k, f k)) K) = Ok (map (fun k => (k, f k)) K ++ [(key, [(name, vals)])], true).
Proof.
  induction K as [|k K IH]; intros E; [reflexivity|]. cbn in E. apply orb_false_iff in E. destruct E as [E1 E2].
  cbn [map addPoint]. rewrite E1, (IH E2). reflexivity.
Qed.
Lemma addPoint_old key name vals (f : list pval -> list (pval * list pval)) : forall K1 k K2, existsb (tupEq key) K1 = false -> tupEq key k = true ->
  addPoint key name vals (map (fun k => (k, f k)) (K1 ++ k :: K2)) =
  if existsb (fun p => pyEq name (fst p)) (f k) then Err ImproperObjectAction
  else Ok (map (fun k => (k, f k)) K1 ++ (k, f k ++ [(name, vals)]) :: map (fun k => (k, f k)) K2, false).
Proof.
  induction K1 as [|k1 K1 IH]; intros k K2 E T; cbn [app map addPoint].
  - rewrite T. reflexivity.
  - cbn in E. apply orb_false_iff in E. destruct E as [E1 E2]. rewrite E1, (IH _ _ E2 T).
    destruct (existsb _ (f k)); reflexivity.
Qed.
Lemma dictOf_snoc done r key : dictOf (done ++ [r]) key = dictOf done key ++ (if tupEq (keyOf' r) key then [(nameOf r, valsOf r)] else []).
Proof. unfold dictOf. rewrite filter_app, map_app. cbn. destruct (tupEq (keyOf' r) key); reflexivity. Qed.
Lemma keys_refl done : NoNaN done -> forall x, In x (map keyOf' done) -> tupEq x x = true.
Proof. intros N x I. apply in_map_iff in I. destruct I as [r [<- R]]. apply tupEq_refl. apply N. exact R. Qed.
Lemma keysOf_snoc done r : NoNaN done -> keysOf (done ++ [r]) = keysOf done ++ (if existsb (tupEq (keyOf' r)) (keysOf done) then [] else [keyOf' r]).
Proof.
  intros N. unfold keysOf, posOf. rewrite map_app. cbn [map]. rewrite firstsPos_snoc, map_app.
  rewrite (firsts_existsb [] tupEq tupEq_trans (map keyOf' done) (keyOf' r) (keys_refl done N)).
  f_equal.
  - apply map_ext_in. intros i I. rewrite app_nth1; [reflexivity|]. exact (firstsPos_lt _ _ _ _ I).
  - destruct (existsb _ _); [reflexivity|]. cbn. rewrite app_nth2, Nat.sub_diag by lia. reflexivity.
Qed.
Lemma groupsOf_new done r : NoNaN (done ++ [r]) -> existsb (tupEq (keyOf' r)) (keysOf done) = false ->
  groupsOf (done ++ [r]) = groupsOf done ++ [(keyOf' r, [(nameOf r, valsOf r)])].
Proof.
  intros N E. assert (Nd : NoNaN done) by (intros x I; apply N, in_or_app; auto).
  unfold groupsOf. rewrite keysOf_snoc, E, map_app by exact Nd. f_equal.
  - apply map_ext_in. intros k I. f_equal. rewrite dictOf_snoc. rewrite (existsb_false_In _ _ E k I). apply app_nil_r.
  - cbn [map]. f_equal. f_equal. rewrite dictOf_snoc, tupEq_refl by (apply (N r), in_or_app; right; left; reflexivity).
    unfold dictOf. rewrite filter_none; [reflexivity|]. intros x I.
    destruct (tupEq (keyOf' x) (keyOf' r)) eqn:X; [|reflexivity]. exfalso.
    assert (existsb (tupEq (keyOf' r)) (keysOf done) = true); [|congruence].
    unfold keysOf, posOf. rewrite (firsts_existsb [] tupEq tupEq_trans _ _ (keys_refl done Nd)).
    apply existsb_exists. exists (keyOf' x). split; [apply in_map; exact I|rewrite tupEq_sym; exact X].
Qed.
Lemma keysOf_nth done g k : nth_error (keysOf done) g = Some k -> exists i, nth_error (posOf done) g = Some i /\ k = nth i (map keyOf' done) [].
Proof. unfold keysOf. rewrite nth_error_map. destruct (nth_error (posOf done) g) as [i|]; [|discriminate]. intros E. injection E as <-. eauto. Qed.
Lemma keysOf_distinct done g h k k' : nth_error (keysOf done) g = Some k -> nth_error (keysOf done) h = Some k' -> tupEq k k' = true -> g = h.
Proof.
  intros G H E. destruct (keysOf_nth _ _ _ G) as [i [I ->]]. destruct (keysOf_nth _ _ _ H) as [j [J ->]].
  pose proof (firstsPos_unique [] tupEq tupEq_sym _ _ _ (nth_error_In _ _ I) (nth_error_In _ _ J) E) as X. subst j.
  destruct (Nat.lt_trichotomy g h) as [L|[X|L]]; [|exact X|].
  - pose proof (firstsPos_distinct _ _ _ _ _ _ _ L I J). lia.
  - pose proof (firstsPos_distinct _ _ _ _ _ _ _ L J I). lia.
Qed.
Lemma groupsOf_old done r K1 k K2 : NoNaN done -> keysOf done = K1 ++ k :: K2 -> existsb (tupEq (keyOf' r)) K1 = false -> tupEq (keyOf' r) k = true ->
  groupsOf (done ++ [r]) = map (fun k => (k, dictOf done k)) K1 ++ (k, dictOf done k ++ [(nameOf r, valsOf r)]) :: map (fun k => (k, dictOf done k)) K2.
Proof.
  intros N K E T. unfold groupsOf. rewrite keysOf_snoc by exact N.
  assert (X : existsb (tupEq (keyOf' r)) (keysOf done) = true) by (rewrite K, existsb_app; cbn; rewrite T, orb_true_r; reflexivity).
  rewrite X, app_nil_r, K, map_app. cbn [map]. f_equal; [|f_equal].
  - apply map_ext_in. intros k1 I. f_equal. rewrite dictOf_snoc, (existsb_false_In _ _ E k1 I). apply app_nil_r.
  - f_equal. rewrite dictOf_snoc, T. reflexivity.
  - apply map_ext_in. intros k2 I. f_equal. rewrite dictOf_snoc.
    destruct (tupEq (keyOf' r) k2) eqn:T2; [|apply app_nil_r]. exfalso. apply In_nth_error in I. destruct I as [m M].
    assert (Q : tupEq k k2 = true) by (rewrite tupEq_sym in T; exact (tupEq_trans _ _ _ T T2)).
    assert (A1 : nth_error (keysOf done) (List.length K1) = Some k) by (rewrite K, nth_error_app2, Nat.sub_diag by lia; reflexivity).
    assert (A2 : nth_error (keysOf done) (S (List.length K1) + m) = Some k2).
    { rewrite K, nth_error_app2 by lia. replace (S (List.length K1) + m - List.length K1) with (S m) by lia. exact M. }
    pose proof (keysOf_distinct _ _ _ _ _ A1 A2 Q). lia.
Qed.
Lemma dict_clash done r k : tupEq (keyOf' r) k = true ->
  (existsb (fun p => pyEq (nameOf r) (fst p)) (dictOf done k) = true <-> exists a, In a done /\ Clash a r).
Proof.
  intros T. rewrite existsb_exists. unfold dictOf. split.
  - intros [p [I E]]. apply in_map_iff in I. destruct I as [a [<- I]]. apply filter_In in I. destruct I as [I A]. cbn in E.
    exists a. split; [exact I|]. split; [|rewrite pyEq_sym in E; apply pyEq_spec; exact E].
    apply tupEq_spec. rewrite tupEq_sym in T. exact (tupEq_trans _ _ _ A T).
  - intros [a [I [A B]]]. exists (nameOf a, valsOf a). apply tupEq_spec in A. apply pyEq_spec in B. split; [|cbn; rewrite pyEq_sym; exact B].
    apply in_map_iff. exists a. split; [reflexivity|]. apply filter_In. split; [exact I|exact (tupEq_trans _ _ _ A T)].
Qed.
Lemma namesOf_snoc done r : NoNaN done ->
  namesOf (done ++ [r]) = (if inList (nameOf r) (namesOf done) then namesOf done else namesOf done ++ [nameOf r]).
Proof.
  intros N. unfold namesOf, nposOf. rewrite map_app. cbn [map]. rewrite firstsPos_snoc, map_app.
  assert (RF : forall y, In y (map nameOf done) -> pyEq y y = true) by (intros y I; apply in_map_iff in I; destruct I as [a [<- A]]; apply pyEq_self; apply N; exact A).
  assert (E : inList (nameOf r) (map (fun i => nth i (map nameOf done) PNaN) (firstsPos PNaN pyEq (map nameOf done))) = existsb (pyEq (nameOf r)) (map nameOf done)).
  { rewrite <- (firsts_existsb PNaN pyEq pyEq_trans (map nameOf done) (nameOf r) RF). apply eq_true_iff_eq. rewrite inList_spec, existsb_exists.
    split; intros [y [Y S]]; exists y; (split; [exact Y|apply pyEq_spec; exact S]). }
  rewrite E.
  assert (M : map (fun i => nth i (map nameOf done ++ [nameOf r]) PNaN) (firstsPos PNaN pyEq (map nameOf done)) = map (fun i => nth i (map nameOf done) PNaN) (firstsPos PNaN pyEq (map nameOf done))).
  { apply map_ext_in. intros i I. rewrite app_nth1; [reflexivity|]. exact (firstsPos_lt _ _ _ _ I). }
  rewrite M. destruct (existsb _ _); cbn [map]; [apply app_nil_r|]. f_equal. rewrite app_nth2, Nat.sub_diag by lia. reflexivity.
Qed.
Lemma keptOf_snoc pns done r : NoNaN done ->
  keptOf pns (done ++ [r]) = (if existsb (tupEq (keyOf' r)) (keysOf done) then keptOf pns done else keptOf pns done ++ [nth (List.length done) pns None]).
Proof.
  intros N. unfold keptOf, posOf. rewrite map_app. cbn [map]. rewrite firstsPos_snoc, map_app.
  unfold keysOf, posOf. rewrite (firsts_existsb [] tupEq tupEq_trans _ _ (keys_refl done N)).
  destruct (existsb _ _); cbn [map]; [apply app_nil_r|]. rewrite map_length. reflexivity.
Qed.
Definition NoClash (l : list (list pval)) : Prop := forall i j a b, i < j -> nth_error l i = Some a -> nth_error l j = Some b -> ~ Clash a b.
Lemma NoClash_snoc l r : NoClash l -> ~ (exists a, In a l /\ Clash a r) -> NoClash (l ++ [r]).
Proof.
  intros N H i j a b L A B C. assert (LJ : j < List.length (l ++ [r])) by (apply nth_error_Some; congruence). rewrite app_length in LJ. cbn in LJ.
  rewrite nth_error_app1 in A by lia. destruct (Nat.eq_dec j (List.length l)) as [->|D].
  - rewrite nth_error_app2, Nat.sub_diag in B by lia. injection B as <-. apply H. exists a. split; [eapply nth_error_In; exact A|exact C].
  - rewrite nth_error_app1 in B by lia. exact (N i j a b L A B C).
Qed.
(** one point *)
Lemma addPoint_step done r : NoNaN (done ++ [r]) ->
  (exists a, In a done /\ Clash a r) /\ addPoint (keyOf' r) (nameOf r) (valsOf r) (groupsOf done) = Err ImproperObjectAction \/
  ~ (exists a, In a done /\ Clash a r) /\
    addPoint (keyOf' r) (nameOf r) (valsOf r) (groupsOf done) = Ok (groupsOf (done ++ [r]), negb (existsb (tupEq (keyOf' r)) (keysOf done))).
Proof.
  intros N. assert (Nd : NoNaN done) by (intros x I; apply N, in_or_app; auto).
  destruct (existsb (tupEq (keyOf' r)) (keysOf done)) eqn:E.
  - destruct (existsb_first _ _ E) as [K1 [k [K2 [K [T E1]]]]].
    rewrite (groupsOf_old done r K1 k K2 Nd K E1 T). unfold groupsOf at 1 2. rewrite K, (addPoint_old _ _ _ _ _ _ _ E1 T).
    destruct (existsb (fun p => pyEq (nameOf r) (fst p)) (dictOf done k)) eqn:X; [left|right]; (split; [|reflexivity]).
    + apply (dict_clash done r k T). exact X.
    + intros H. apply (dict_clash done r k T) in H. congruence.
  - right. split.
    + intros [a [I [C _]]]. apply tupEq_spec in C. unfold keysOf, posOf in E. rewrite (firsts_existsb [] tupEq tupEq_trans _ _ (keys_refl done Nd)) in E.
      pose proof (existsb_false_In _ _ E (keyOf' a) (in_map keyOf' done a I)) as X. cbn in X. rewrite tupEq_sym in X. congruence.
    + rewrite (groupsOf_new done r N E). unfold groupsOf. rewrite (addPoint_new _ _ _ _ _ E). reflexivity.
Qed.
Lemma tl_skipn {A} n (l : list A) : tl (skipn n l) = skipn (S n) l.
Proof. revert l. induction n as [|n IH]; intros [|x l]; auto. change (tl (skipn n l) = skipn (S n) l). apply IH. Qed.
Lemma hd_skipn {A} (d : A) n (l : list A) : hd d (skipn n l) = nth n l d.
Proof. revert l. induction n as [|n IH]; intros [|x l]; auto. change (hd d (skipn n l) = nth n l d). apply IH. Qed.
Lemma groupLoop_step r rs pns done : NoNaN (done ++ [r]) -> ~ (exists a, In a done /\ Clash a r) ->
  groupLoop ni ui vi (r :: rs) (skipn (List.length done) pns) (groupsOf done) (namesOf done) (keptOf pns done) =
  groupLoop ni ui vi rs (skipn (List.length (done ++ [r])) pns) (groupsOf (done ++ [r])) (namesOf (done ++ [r])) (keptOf pns (done ++ [r])).
Proof.
  intros N H. assert (Nd : NoNaN done) by (intros x I; apply N, in_or_app; auto).
  destruct (addPoint_step done r N) as [[X _]|[_ E]]; [contradiction|].
  cbn [groupLoop]. change (map (fun i => nth i r PNaN) ui) with (keyOf' r). change (map (fun i => nth i r PNaN) vi) with (valsOf r). change (nth ni r PNaN) with (nameOf r).
  rewrite E. cbn [rbind fst snd]. rewrite tl_skipn, hd_skipn, app_length, Nat.add_1_r, (namesOf_snoc done r Nd), (keptOf_snoc pns done r Nd).
  destruct (existsb (tupEq (keyOf' r)) (keysOf done)); reflexivity.
Qed.
Lemma groupLoop_ok pns : forall rs done, NoNaN (done ++ rs) -> NoClash (done ++ rs) ->
  groupLoop ni ui vi rs (skipn (List.length done) pns) (groupsOf done) (namesOf done) (keptOf pns done) =
  Ok (groupsOf (done ++ rs), namesOf (done ++ rs), keptOf pns (done ++ rs)).
Proof.
  induction rs as [|r rs IH]; intros done N C; [rewrite app_nil_r; reflexivity|].
  assert (Q : done ++ r :: rs = (done ++ [r]) ++ rs) by (rewrite <- app_assoc; reflexivity).
  rewrite groupLoop_step.
  - rewrite Q in *. apply IH; auto.
  - intros x I. apply N. rewrite Q. apply in_or_app. auto.
  - intros [a [I X]]. apply In_nth_error in I. destruct I as [i I]. assert (L : i < List.length done) by (apply nth_error_Some; congruence).
    apply (C i (List.length done) a r); auto; [rewrite nth_error_app1 by lia; exact I|rewrite nth_error_app2, Nat.sub_diag by lia; reflexivity].
Qed.
Lemma Clash_dec a b : {Clash a b} + {~ Clash a b}.
Proof.
  destruct (tupEq (keyOf' a) (keyOf' b)) eqn:E, (pyEq (nameOf a) (nameOf b)) eqn:F.
  - left. split; [apply tupEq_spec; exact E|apply pyEq_spec; exact F].
  - right. intros [_ H]. apply pyEq_spec in H. congruence.
  - right. intros [H _]. apply tupEq_spec in H. congruence.
  - right. intros [H _]. apply tupEq_spec in H. congruence.
Qed.
Lemma groupLoop_err pns : forall rs done, NoNaN (done ++ rs) -> NoClash done -> ~ NoClash (done ++ rs) ->
  groupLoop ni ui vi rs (skipn (List.length done) pns) (groupsOf done) (namesOf done) (keptOf pns done) = Err ImproperObjectAction.
Proof.
  induction rs as [|r rs IH]; intros done N C X; [rewrite app_nil_r in X; contradiction|].
  assert (Q : done ++ r :: rs = (done ++ [r]) ++ rs) by (rewrite <- app_assoc; reflexivity).
  assert (Nr : NoNaN (done ++ [r])) by (intros x I; apply N; rewrite Q; apply in_or_app; auto).
  destruct (addPoint_step done r Nr) as [[_ E]|[H _]].
  - cbn [groupLoop]. change (map (fun i => nth i r PNaN) ui) with (keyOf' r). change (map (fun i => nth i r PNaN) vi) with (valsOf r). change (nth ni r PNaN) with (nameOf r).
    rewrite E. reflexivity.
  - rewrite groupLoop_step by assumption. rewrite Q in N, X. apply IH; auto. apply NoClash_snoc; auto.
Qed.
End Loop.
