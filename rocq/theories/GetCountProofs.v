(** Proofs about countUniqueElements (C66). *)
From Verif Require Import Base NamesModel NamesSpec TableModel TableSpec TableProofs TableOps TableSortProofs SparseModel SparseSpec SparseProofs ViewModel MatchModel MatchSpec MatchProofs ElementsCalcProofs MergeLoopProofs GetModel GetSpec GetIterProofs.
From Coq Require Import Sorted QArith.
Open Scope nat_scope.

(** ** counting *)
Lemma NumberOf_ext {A} (P Q : A -> Prop) l n : (forall x, In x l -> (P x <-> Q x)) -> NumberOf P l n -> NumberOf Q l n.
Proof.
  intros H HN. induction HN as [|x l n Hx HN IH|x l n Hx HN IH].
  - constructor.
  - constructor; [apply H; [left; auto|auto]|apply IH; intros; apply H; right; auto].
  - apply no_no; [rewrite <- H; [auto|left; auto]|apply IH; intros; apply H; right; auto].
Qed.
Lemma NumberOf_app {A} (P : A -> Prop) l n l' n' : NumberOf P l n -> NumberOf P l' n' -> NumberOf P (l ++ l') (n + n').
Proof. induction 1; intros H'; cbn; auto; constructor; auto. Qed.
Lemma NumberOf_filter {A} (P : A -> Prop) (f : A -> bool) l : (forall x, In x l -> (P x <-> f x = true)) -> NumberOf P l (List.length (filter f l)).
Proof.
  induction l as [|x l IH]; intros H; cbn; [constructor|]. specialize (IH (fun y Hy => H y (or_intror Hy))).
  destruct (f x) eqn:E; cbn.
  - constructor; auto. apply H; [left|]; auto.
  - apply no_no; auto. rewrite (H x (or_introl eq_refl)). congruence.
Qed.
Lemma NumberOf_fun {A} (P : A -> Prop) l n n' : NumberOf P l n -> NumberOf P l n' -> n = n'.
Proof. intros H. revert n'. induction H; intros n' H'; inversion H'; subst; auto; try contradiction. Qed.
Lemma NumberOf_perm {A} (P : A -> Prop) l l' n : Permutation l l' -> NumberOf P l n -> NumberOf P l' n.
Proof.
  intros HP. revert n. induction HP; intros n H; auto.
  - inversion H; subst; constructor; auto.
  - inversion H as [|? ? ? ? H1|? ? ? ? H1]; subst; inversion H1; subst;
      (repeat first [apply no_yes; [assumption|]|apply no_no; [assumption|]]); assumption.
Qed.
Lemma NumberOf_map {A B} (g : A -> B) (P : B -> Prop) l n : NumberOf (fun x => P (g x)) l n <-> NumberOf P (map g l) n.
Proof.
  split.
  - induction 1; cbn; constructor; auto.
  - revert n. induction l as [|x l IH]; intros n H; inversion H; subst; constructor; auto.
Qed.
Lemma NumberOf_none {A} (P : A -> Prop) l : (forall x, In x l -> ~ P x) -> NumberOf P l 0.
Proof. induction l; intros H; [constructor|]. apply no_no; [apply H; left; auto|apply IHl; intros; apply H; right; auto]. Qed.
Lemma NumberOf_all {A} (P : A -> Prop) l : (forall x, In x l -> P x) -> NumberOf P l (List.length l).
Proof. induction l; intros H; cbn; constructor; [apply H; left; auto|apply IHl; intros; apply H; right; auto]. Qed.
Lemma CountsOf_perm l l' d : Permutation l l' -> CountsOf l d -> CountsOf l' d.
Proof.
  intros HP [A [B C]]. split; [|split; auto].
  - intros v Hv. apply A. eapply Permutation_in; [symmetry; eauto|auto].
  - intros k n Hk. destruct (B k n Hk) as [X Y]. split; [eapply Permutation_in; eauto|eapply NumberOf_perm; eauto].
Qed.

(** ** equality of elements *)
Lemma Same_NaN_l v : ~ Same PNaN v.
Proof. intros H. inversion H as [a b p q X| | | |]; subst. inversion X. Qed.
Lemma Same_NaN_r v : ~ Same v PNaN.
Proof. intros H. apply Same_sym in H. apply Same_NaN_l in H. auto. Qed.
Lemma SameElement_sym a b : SameElement a b -> SameElement b a.
Proof. intros [H|[-> ->]]; [left; apply Same_sym; auto|right; auto]. Qed.
Lemma SameElement_trans a b c : SameElement a b -> SameElement b c -> SameElement a c.
Proof.
  intros [H|[-> ->]] [H'|[E ->]].
  - left. eapply Same_trans; eauto.
  - subst. apply Same_NaN_r in H. destruct H.
  - apply Same_NaN_l in H'. destruct H'.
  - right; auto.
Qed.
Lemma SameElement_refl a : SameElement a a.
Proof. destruct (isNaN a) eqn:E; [destruct a; try discriminate; right; auto|]. left. apply pyEq_spec, pyEq_self. intros ->. discriminate. Qed.
Lemma sameKey_spec l a b : OneNaN l -> In a l -> In b l -> (sameKey a b = true <-> SameElement (fst a) (fst b)).
Proof.
  intros HO Ha Hb. destruct a as [a n], b as [b m]. unfold sameKey. cbn [fst snd]. rewrite orb_true_iff, pyEq_spec. split.
  - intros [H|H]; [|left; auto]. apply andb_true_iff in H. destruct H as [H _]. apply andb_true_iff in H. destruct H as [H1 H2].
    destruct a; try discriminate. destruct b; try discriminate. right; auto.
  - intros [H|[-> ->]]; [right; auto|]. left. rewrite (HO n m Ha Hb). cbn. apply Nat.eqb_refl.
Qed.

(** ** data of no numeric type *)
Section Obj.
Variable L : list ovalue.
Hypothesis HO : OneNaN L.
Definition seE (a b : ovalue) : Prop := SameElement (fst a) (fst b).
Definition okCounts (l : list ovalue) (d : list (ovalue * nat)) : Prop :=
  (forall v, In v l -> exists k n, In (k, n) d /\ seE k v) /\
  (forall k n, In (k, n) d -> In k l /\ NumberOf (seE k) l n) /\
  (forall i j k n k' n', nth_error d i = Some (k, n) -> nth_error d j = Some (k', n') -> seE k k' -> i = j).
Lemma bump_spec v d : (forall k n, In (k, n) d -> In k L) -> In v L ->
  (forall k n, In (k, n) d -> ~ seE k v) /\ bump v d = d ++ [(v, 1)] \/
  exists i k n, nth_error d i = Some (k, n) /\ seE k v /\ bump v d = upd d i (k, S n).
Proof.
  intros Hd Hv. induction d as [|[k n] d IH]; cbn [bump].
  - left. split; [intros ? ? []|auto].
  - destruct (sameKey k v) eqn:E.
    + right. exists 0, k, n. split; auto. split; auto. apply (sameKey_spec L k v HO) in E; auto. apply (Hd k n). left; auto.
    + destruct IH as [[A B]|[i [k' [n' [A [B C]]]]]]; [intros; eapply Hd; right; eauto| |].
      * left. split; [|rewrite B; reflexivity]. intros k' n' [[= <- <-]|Hin]; [|eauto]. intros X.
        apply (sameKey_spec L k v HO) in X; auto; [congruence|apply (Hd k n); left; auto].
      * right. exists (S i), k', n'. split; auto. split; auto. cbn. rewrite C. reflexivity.
Qed.
Lemma bump_ok l v d : (forall x, In x (l ++ [v]) -> In x L) -> okCounts l d -> okCounts (l ++ [v]) (bump v d).
Proof.
  intros HL [A [B C]]. assert (Hv : In v L) by (apply HL, in_or_app; right; left; auto).
  assert (Hd : forall k n, In (k, n) d -> In k L) by (intros k n Hk; apply HL, in_or_app; left; apply (B k n Hk)).
  destruct (bump_spec v d Hd Hv) as [[N E]|[i [k [n [Ei [Hk E]]]]]]; rewrite E.
  - split; [|split].
    + intros w Hw. apply in_app_or in Hw. destruct Hw as [Hw|[<-|[]]].
      * destruct (A w Hw) as [k [n [X Y]]]. exists k, n. split; auto. apply in_or_app; auto.
      * exists v, 1. split; [apply in_or_app; right; left; auto|apply SameElement_refl].
    + intros k n Hin. apply in_app_or in Hin. destruct Hin as [Hin|[[= <- <-]|[]]].
      * destruct (B k n Hin) as [X Y]. split; [apply in_or_app; auto|]. replace n with (n + 0) by lia. apply NumberOf_app; auto.
        apply no_no; [apply (N k n Hin)|constructor].
      * split; [apply in_or_app; right; left; auto|]. change 1 with (0 + 1). apply NumberOf_app.
        -- apply NumberOf_none. intros w Hw X. destruct (A w Hw) as [k [n [Y Z]]]. apply (N k n Y). eapply SameElement_trans; [exact Z|apply SameElement_sym; exact X].
        -- constructor; [apply SameElement_refl|constructor].
    + intros p q k n k' n' Hp Hq HS.
      destruct (Nat.lt_ge_cases p (List.length d)) as [P1|P1], (Nat.lt_ge_cases q (List.length d)) as [Q1|Q1].
      * rewrite nth_error_app1 in Hp, Hq by auto. eapply C; eauto.
      * rewrite nth_error_app1 in Hp by auto. rewrite nth_error_app2 in Hq by auto. destruct (q - List.length d) as [|[|?]]; try discriminate.
        injection Hq as <- <-. exfalso. apply (N k n (nth_error_In _ _ Hp)). auto.
      * rewrite nth_error_app2 in Hp by auto. rewrite nth_error_app1 in Hq by auto. destruct (p - List.length d) as [|[|?]]; try discriminate.
        injection Hp as <- <-. exfalso. apply (N k' n' (nth_error_In _ _ Hq)). apply SameElement_sym. auto.
      * rewrite nth_error_app2 in Hp, Hq by auto. destruct (p - List.length d) as [|[|?]] eqn:Ep; try discriminate. destruct (q - List.length d) as [|[|?]] eqn:Eq; try discriminate. lia.
  - assert (Hi : i < List.length d) by (eapply nth_error_lt; eauto).
    assert (X : forall p q m, nth_error (upd d i (k, S n)) p = Some (q, m) -> (p = i /\ q = k /\ m = S n) \/ (p <> i /\ nth_error d p = Some (q, m))).
    { intros p q m Hp. destruct (Nat.eq_dec p i) as [-> |Hne].
      - rewrite nth_error_upd_same in Hp by auto. injection Hp as <- <-. left; auto.
      - rewrite nth_error_upd_other in Hp by auto. right; auto. }
    split; [|split].
    + intros w Hw. apply in_app_or in Hw. destruct Hw as [Hw|[<-|[]]].
      * destruct (A w Hw) as [k' [n' [Y Z]]]. apply In_nth_error in Y. destruct Y as [p Hp]. destruct (Nat.eq_dec p i) as [-> |Hne].
        -- rewrite Ei in Hp. injection Hp as <- <-. exists k, (S n). split; auto. apply (nth_error_In _ i). rewrite nth_error_upd_same; auto.
        -- exists k', n'. split; auto. apply (nth_error_In _ p). rewrite nth_error_upd_other; auto.
      * exists k, (S n). split; auto. apply (nth_error_In _ i). rewrite nth_error_upd_same; auto.
    + intros k' n' Hin. apply In_nth_error in Hin. destruct Hin as [p Hp]. destruct (X p k' n' Hp) as [[-> [-> ->]]|[Hne Hp']].
      * destruct (B k n (nth_error_In _ _ Ei)) as [Y Z]. split; [apply in_or_app; auto|]. replace (S n) with (n + 1) by lia. apply NumberOf_app; auto. constructor; [auto|constructor].
      * destruct (B k' n' (nth_error_In _ _ Hp')) as [Y Z]. split; [apply in_or_app; auto|]. replace n' with (n' + 0) by lia. apply NumberOf_app; auto.
        apply no_no; [|constructor]. intros W. apply Hne. eapply C; [exact Hp'|exact Ei|]. eapply SameElement_trans; [exact W|apply SameElement_sym; exact Hk].
    + intros p q k1 n1 k2 n2 Hp Hq HS. destruct (X p k1 n1 Hp) as [[-> [-> ->]]|[Hne Hp']], (X q k2 n2 Hq) as [[-> [-> ->]]|[Hne' Hq']]; auto.
      * eapply C; eauto.
      * eapply C; eauto.
      * eapply C; eauto.
Qed.
Lemma fold_bump_ok l : (forall x, In x l -> In x L) -> okCounts l (fold_left (fun d v => bump v d) l []).
Proof.
  induction l as [|v l IH] using rev_ind; intros H.
  - cbn. split; [intros v []|]. split; [intros k n []|]. intros i j k n k' n' Hi. destruct i; discriminate.
  - rewrite fold_left_app. cbn [fold_left]. apply bump_ok; auto. apply IH. intros; apply H, in_or_app; auto.
Qed.
End Obj.
Lemma objectCounts_spec l : OneNaN l -> l <> [] -> exists d, objectCounts l = Ok d /\ CountsOf (map fst l) d.
Proof.
  intros HO Hl. destruct (fold_bump_ok l HO l (fun x H => H)) as [A [B C]].
  exists (map (fun p => (fst (fst p), snd p)) (fold_left (fun d v => bump v d) l [])).
  split; [destruct l; [congruence|reflexivity]|]. set (d := fold_left (fun d v => bump v d) l []) in *. clearbody d. split; [|split].
  - intros v Hv. apply in_map_iff in Hv. destruct Hv as [w [<- Hw]]. destruct (A w Hw) as [k [n [X Y]]]. exists (fst k), n. split; auto.
    apply in_map_iff. exists (k, n). auto.
  - intros k n Hin. apply in_map_iff in Hin. destruct Hin as [[k' n'] [[= <- <-] Hin]]. destruct (B k' n' Hin) as [X Y]. split; [apply in_map; auto|].
    apply (NumberOf_map fst (SameElement (fst k'))). exact Y.
  - intros i j k n k' n' Hi Hj HS. rewrite nth_error_map in Hi, Hj. destruct (@nth_error (pval * nat * nat) d i) as [[p pn]|] eqn:Ei; [|discriminate Hi].
    destruct (@nth_error (pval * nat * nat) d j) as [[q qn]|] eqn:Ej; [|discriminate Hj]. injection Hi as <- <-. injection Hj as <- <-. eapply C; eauto.
Qed.

(** ** numeric data *)
Lemma extLe_total a b : (extLtb a b || extEqb a b = true) \/ (extLtb b a || extEqb b a = true).
Proof.
  destruct a, b; cbn; auto. destruct (Qlt_le_dec q q0) as [H|H].
  - left. apply orb_true_iff. left. apply negb_true_iff. destruct (Qle_bool q0 q) eqn:E; auto. apply Qle_bool_iff in E. apply Qlt_not_le in H. contradiction.
  - right. destruct (Qeq_dec q0 q) as [E|E]; [apply orb_true_iff; right; apply Qeq_bool_iff; auto|]. apply orb_true_iff. left. apply negb_true_iff.
    destruct (Qle_bool q q0) eqn:E'; auto. apply Qle_bool_iff in E'. exfalso. apply E. apply Qle_antisym; auto.
Qed.
Lemma extLe_Q p q : (extLtb (Fin p) (Fin q) || extEqb (Fin p) (Fin q) = true) <-> (p <= q)%Q.
Proof.
  cbn. rewrite orb_true_iff, negb_true_iff. split.
  - intros [H|H]; [|apply Qeq_bool_iff in H; rewrite H; apply Qle_refl]. destruct (Qlt_le_dec p q) as [X|X]; [apply Qlt_le_weak; auto|].
    apply Qle_bool_iff in X. congruence.
  - intros H. destruct (Qle_bool q p) eqn:E; auto. right. apply Qle_bool_iff in E. apply Qeq_bool_iff. apply Qle_antisym; auto.
Qed.
Lemma extLe_trans a b c : extLtb a b || extEqb a b = true -> extLtb b c || extEqb b c = true -> extLtb a c || extEqb a c = true.
Proof.
  destruct a as [|p|], b as [|q|], c as [|r|]; try (cbn; intros; first [reflexivity|discriminate]). intros H1 H2. apply extLe_Q in H1, H2. apply extLe_Q. eapply Qle_trans; eauto.
Qed.
Lemma extLe_antisym a b : extLtb a b || extEqb a b = true -> extLtb b a || extEqb b a = true -> extEqb a b = true.
Proof.
  destruct a as [|p|], b as [|q|]; try (cbn; intros; first [reflexivity|discriminate]). intros H1 H2. apply extLe_Q in H1, H2. cbn. apply Qeq_bool_iff. apply Qle_antisym; auto.
Qed.
Lemma extEq_le a b : extEqb a b = true -> extLtb a b || extEqb a b = true.
Proof. intros ->. apply orb_true_r. Qed.
Lemma numLe_total a b : numLe a b = true \/ numLe b a = true.
Proof. unfold numLe. destruct (numOf a), (numOf b); auto. apply extLe_total. Qed.
Lemma numLe_trans a b c : numLe a b = true -> numLe b c = true -> numLe a c = true.
Proof. unfold numLe. destruct (numOf a), (numOf b), (numOf c); auto; try discriminate. apply extLe_trans. Qed.
Lemma Numeric_cases v : Numeric v -> v = PNaN \/ exists x, numOf v = Some x.
Proof. destruct v; cbn; intros []; eauto. Qed.
Lemma pyEq_num a b x y : numOf a = Some x -> numOf b = Some y -> pyEq a b = extEqb x y.
Proof. intros A B. unfold pyEq. rewrite A, B. auto. Qed.
Lemma numLe_antisym a b : Numeric a -> Numeric b -> numLe a b = true -> numLe b a = true -> a <> PNaN -> pyEq a b = true.
Proof.
  intros Ha Hb H1 H2 Hn. destruct (Numeric_cases a Ha) as [?|[x Ex]]; [contradiction|]. destruct (Numeric_cases b Hb) as [-> |[y Ey]].
  - unfold numLe in H2. cbn in H2. rewrite Ex in H2. discriminate.
  - unfold numLe in H1, H2. rewrite Ex, Ey in H1, H2. rewrite (pyEq_num a b x y); auto. apply extLe_antisym; auto.
Qed.
Lemma pyEq_numLe a b : Numeric a -> Numeric b -> pyEq a b = true -> numLe a b = true.
Proof.
  intros Ha Hb H. destruct (Numeric_cases a Ha) as [-> |[x Ex]]; [apply pyEq_spec in H; apply Same_NaN_l in H; destruct H|].
  destruct (Numeric_cases b Hb) as [-> |[y Ey]]; [apply pyEq_spec in H; apply Same_NaN_r in H; destruct H|].
  rewrite (pyEq_num a b x y) in H; auto. unfold numLe. rewrite Ex, Ey. apply extEq_le. auto.
Qed.
Lemma pyEq_false a b : pyEq a b = false -> ~ Same a b.
Proof. intros H X. apply pyEq_spec in X. congruence. Qed.

Definition nanGroups (d : list (pval * nat)) : nat := List.length (filter (fun p => isNaN (fst p)) d).
Lemma runs_spec l : (forall v, In v l -> Numeric v) -> StronglySorted (fun a b => numLe a b = true) l ->
  (forall v, In v l -> v <> PNaN -> exists k n, In (k, n) (runs l) /\ Same k v) /\
  (forall k n, In (k, n) (runs l) -> In k l) /\
  (forall k n, In (k, n) (runs l) -> k <> PNaN -> NumberOf (Same k) l n) /\
  (forall n, In (PNaN, n) (runs l) -> n = 1) /\
  NumberOf (fun v => v = PNaN) l (nanGroups (runs l)) /\
  (forall i j k n k' n', nth_error (runs l) i = Some (k, n) -> nth_error (runs l) j = Some (k', n') -> Same k k' -> i = j) /\
  (match l, runs l with [], [] => True | v :: _, (w, _) :: _ => v = w | _, _ => False end).
Proof.
  intros HN HS. induction HS as [|v l HS IH HF].
  - cbn. split; [intros v []|]. split; [intros ? ? []|]. split; [intros ? ? []|]. split; [intros ? []|]. split; [constructor|]. split; [|auto]. intros i j k n k' n' Hi. destruct i; discriminate.
  - destruct IH as [A [B [C [D [E [F G]]]]]]; [intros; apply HN; right; auto|]. rewrite Forall_forall in HF.
    assert (Hv : Numeric v) by (apply HN; left; auto).
    cbn [runs]. destruct (runs l) as [|[w n] more] eqn:ER.
    + destruct l as [|u0 l]; [|exfalso; rewrite ER in G; exact G]. split; [intros u [<-|[]] Hu; exists v, 1; split; [left; auto|apply pyEq_spec, pyEq_self; auto]|].
      split; [intros k n [[= <- <-]|[]]; left; auto|]. split; [intros k n [[= <- <-]|[]] Hk; constructor; [apply pyEq_spec, pyEq_self; auto|constructor]|].
      split; [intros n [[= -> <-]|[]]; auto|]. split.
      * unfold nanGroups. cbn. destruct (isNaN v) eqn:Ev; cbn; [constructor; [destruct v; try discriminate; auto|constructor]|apply no_no; [intros ->; discriminate|constructor]].
      * split; auto. intros i j k n k' n' Hi Hj _. destruct i as [|[|?]], j as [|[|?]]; try discriminate; auto.
    + destruct l as [|u l]; [discriminate ER|]. rewrite ER in G. subst u. set (R := (w, n) :: more) in *.
      assert (Hw : Numeric w) by (apply HN; right; left; auto).
      destruct (pyEq v w) eqn:Evw.
      * assert (Hvn : v <> PNaN) by (intros ->; apply pyEq_spec in Evw; apply Same_NaN_l in Evw; auto).
        assert (Hwn : w <> PNaN) by (intros ->; apply pyEq_spec in Evw; apply Same_NaN_r in Evw; auto).
        apply pyEq_spec in Evw.
        split; [|split; [|split; [|split; [|split; [|split]]]]].
        -- intros u [<-|Hu] Hun; [exists v, (S n); split; [left; auto|apply pyEq_spec, pyEq_self; auto]|].
           destruct (A u Hu Hun) as [k [m [[[= <- <-]|X] Y]]]; [exists v, (S n); split; [left; auto|eapply Same_trans; eauto]|exists k, m; split; [right; auto|auto]].
        -- intros k m [[= <- <-]|X]; [left; auto|right; apply (B k m); right; auto].
        -- intros k m [[= <- <-]|X] Hk.
           ++ constructor; [apply pyEq_spec, pyEq_self; auto|]. apply (NumberOf_ext (Same w)); [|apply (C w n); [left; auto|auto]].
              intros x _. split; intros Y; [eapply Same_trans; eauto|eapply Same_trans; [apply Same_sym; exact Evw|auto]].
           ++ apply no_no; [|apply (C k m); [right; auto|auto]]. intros Y. apply In_nth_error in X. destruct X as [p Hp].
              assert (S p = 0); [|discriminate]. apply (F (S p) 0 k m w n); auto. eapply Same_trans; eauto.
        -- intros m [[= X _]|X]; [congruence|apply D; right; auto].
        -- assert (Enan : isNaN v = isNaN w) by (destruct v, w; try reflexivity; congruence).
           apply no_no; [auto|]. unfold nanGroups, R in E |- *. cbn [filter fst] in E |- *. rewrite Enan. destruct (isNaN w); exact E.
        -- assert (Q : forall p k m, nth_error ((v, S n) :: more) p = Some (k, m) -> exists k0 m0, nth_error R p = Some (k0, m0) /\ (Same k k0 \/ k = k0)).
           { intros [|p] k m Hp; [injection Hp as <- <-; exists w, n; split; auto|exists k, m; split; auto]. }
           intros i j k m k' m' Hi Hj HSk. destruct (Q i k m Hi) as [k0 [m0 [X1 Y1]]]. destruct (Q j k' m' Hj) as [k1 [m1 [X2 Y2]]].
           apply (F i j k0 m0 k1 m1); auto. assert (Z : Same k0 k') by (destruct Y1 as [Y1| ->]; [eapply Same_trans; [apply Same_sym; exact Y1|auto]|auto]).
           destruct Y2 as [Y2| ->]; [eapply Same_trans; eauto|auto].
        -- reflexivity.
      * (* v starts a new group: no element of the rest equals it *)
        assert (Hno : forall x, In x (w :: l) -> ~ Same v x).
        { intros x Hx HSx. assert (Hvn : v <> PNaN) by (intros ->; apply Same_NaN_l in HSx; auto).
          assert (Hxn : Numeric x) by (apply HN; right; auto).
          assert (Hwx : numLe w x = true).
          { destruct Hx as [<-|Hx]; [destruct (numLe_total w w); auto|]. inversion HS as [|? ? HS1 HS2]; subst. rewrite Forall_forall in HS2. auto. }
          assert (Hxv : numLe x v = true) by (apply pyEq_numLe; auto; apply pyEq_spec, Same_sym; auto).
          assert (pyEq v w = true); [|congruence]. apply numLe_antisym; auto; [apply HF; left; auto|eapply numLe_trans; eauto]. }
        split; [|split; [|split; [|split; [|split; [|split]]]]].
        -- intros u [<-|Hu] Hun; [exists v, 1; split; [left; auto|apply pyEq_spec, pyEq_self; auto]|].
           destruct (A u Hu Hun) as [k [m [X Y]]]. exists k, m. split; [right; auto|auto].
        -- intros k m [[= <- <-]|X]; [left; auto|right; apply (B k m); auto].
        -- intros k m [[= <- <-]|X] Hk.
           ++ constructor; [apply pyEq_spec, pyEq_self; auto|]. apply NumberOf_none. auto.
           ++ apply no_no; [|apply (C k m); auto]. intros Y. apply (Hno k); [apply (B k m); auto|apply Same_sym; auto].
        -- intros m [[= _ <-]|X]; [auto|apply D; auto].
        -- unfold nanGroups in *. cbn [filter fst] in *. destruct (isNaN v) eqn:Ev; cbn [List.length]; [constructor; [destruct v; try discriminate; auto|exact E]|apply no_no; [intros ->; discriminate|exact E]].
        -- intros [|i] [|j] k m k' m' Hi Hj HSk; auto.
           ++ injection Hi as <- <-. exfalso. apply (Hno k'); auto. apply (B k' m'). eapply nth_error_In; eauto.
           ++ injection Hj as <- <-. exfalso. apply (Hno k); [|apply Same_sym; auto]. apply (B k m). eapply nth_error_In; eauto.
           ++ f_equal. eapply F; eauto.
        -- reflexivity.
Qed.

Definition stepN (d : list (pval * nat)) (p : pval * nat) := if isNaN (fst p) then addNaN (snd p) d else putCount (fst p) (snd p) d.
Lemma putCount_new v n d : (forall k m, In (k, m) d -> ~ Same k v) -> putCount v n d = d ++ [(v, n)].
Proof.
  induction d as [|[k m] d IH]; intros H; cbn; auto. destruct (pyEq k v) eqn:E; [apply pyEq_spec in E; exfalso; apply (H k m); [left; auto|auto]|].
  rewrite IH; auto. intros; apply (H k0 m0); right; auto.
Qed.
Lemma addNaN_new n d : (forall k m, In (k, m) d -> k <> PNaN) -> addNaN n d = d ++ [(PNaN, n)].
Proof.
  induction d as [|[k m] d IH]; intros H; cbn; auto. destruct (isNaN k) eqn:E; [exfalso; apply (H k m); [left; auto|destruct k; try discriminate; auto]|].
  rewrite IH; auto. intros; apply (H k0 m0); right; auto.
Qed.
(** the dictionary after a prefix [R] of the groups *)
Definition okDict (R d : list (pval * nat)) : Prop :=
  (forall k n, k <> PNaN -> (In (k, n) d <-> In (k, n) R)) /\
  (forall n, In (PNaN, n) d <-> n = nanGroups R /\ 0 < n) /\
  (forall i j k n k' n', nth_error d i = Some (k, n) -> nth_error d j = Some (k', n') -> SameElement k k' -> i = j).
Lemma nanGroups_app a b : nanGroups (a ++ b) = nanGroups a + nanGroups b.
Proof. unfold nanGroups. rewrite filter_app, app_length. auto. Qed.
Lemma app_distinct d k n : (forall i j k n k' n', nth_error d i = Some (k, n) -> nth_error d j = Some (k', n') -> SameElement k k' -> i = j) ->
  (forall k' m, In (k', m) d -> ~ SameElement k' k) ->
  forall i j k1 n1 k' n', nth_error (d ++ [(k, n : nat)]) i = Some (k1, n1) -> nth_error (d ++ [(k, n)]) j = Some (k', n') -> SameElement k1 k' -> i = j.
Proof.
  intros HD Hno i j k1 n1 k2 n2 Hi Hj HS.
  destruct (Nat.lt_ge_cases i (List.length d)) as [P|P], (Nat.lt_ge_cases j (List.length d)) as [Q|Q].
  - rewrite nth_error_app1 in Hi, Hj by auto. eapply HD; eauto.
  - rewrite nth_error_app1 in Hi by auto. rewrite nth_error_app2 in Hj by auto. destruct (j - List.length d) as [|[|?]]; try discriminate.
    injection Hj as <- <-. exfalso. apply (Hno k1 n1); [eapply nth_error_In; eauto|auto].
  - rewrite nth_error_app2 in Hi by auto. rewrite nth_error_app1 in Hj by auto. destruct (i - List.length d) as [|[|?]]; try discriminate.
    injection Hi as <- <-. exfalso. apply (Hno k2 n2); [eapply nth_error_In; eauto|apply SameElement_sym; auto].
  - rewrite nth_error_app2 in Hi, Hj by auto. destruct (i - List.length d) as [|[|?]] eqn:E1; try discriminate. destruct (j - List.length d) as [|[|?]] eqn:E2; try discriminate. lia.
Qed.
Lemma addNaN_upd n d : (exists m, In (PNaN, m) d) -> exists i m, nth_error d i = Some (PNaN, m) /\ addNaN n d = upd d i (PNaN, m + n).
Proof.
  induction d as [|[k m] d IH]; intros [m0 H]; [destruct H|]. cbn. destruct (isNaN k) eqn:E.
  - destruct k; try discriminate. exists 0, m. auto.
  - destruct H as [[= -> _]|H]; [discriminate|]. destruct IH as [i [m1 [A B]]]; [eauto|]. exists (S i), m1. split; auto. rewrite B. auto.
Qed.
Lemma stepN_ok R d k n : okDict R d -> (forall k' m, k <> PNaN -> In (k', m) R -> ~ Same k' k) -> (k = PNaN -> n = 1) -> okDict (R ++ [(k, n)]) (stepN d (k, n)).
Proof.
  intros [A [B C]] Hno Hone. unfold stepN. cbn [fst snd]. destruct (isNaN k) eqn:E.
  - destruct k; try discriminate. rewrite (Hone eq_refl) in *. clear Hno.
    assert (HG : nanGroups (R ++ [(PNaN, 1)]) = S (nanGroups R)) by (rewrite nanGroups_app; cbn; lia).
    destruct (nanGroups R) as [|g] eqn:EG.
    + assert (X : forall k m, In (k, m) d -> k <> PNaN) by (intros k m Hin ->; apply B in Hin; lia).
      rewrite addNaN_new by auto. split; [|split].
      * intros k m Hk. rewrite !in_app_iff. rewrite (A k m Hk). split; (intros [H|[[= H1 H2]|[]]]; [left; auto|congruence]).
      * intros m. rewrite HG. rewrite in_app_iff. split.
        -- intros [H|[[= <-]|[]]]; [exfalso; apply (X PNaN m); auto|lia].
        -- intros [-> _]. right. left. auto.
      * apply app_distinct; auto. intros k' m Hin [H|[-> _]]; [apply Same_NaN_r in H; auto|]. apply (X PNaN m); auto.
    + assert (Hex : exists m, In (PNaN, m) d) by (exists (S g); apply B; lia).
      destruct (addNaN_upd 1 d Hex) as [i [m [Hi ->]]]. assert (Hm : m = S g) by (apply nth_error_In, B in Hi; lia). subst m.
      assert (Hlt : i < List.length d) by (eapply nth_error_lt; eauto).
      assert (X : forall p q w, nth_error (upd d i (PNaN, S g + 1)) p = Some (q, w) -> (p = i /\ q = PNaN /\ w = S g + 1) \/ (p <> i /\ nth_error d p = Some (q, w))).
      { intros p q w Hp. destruct (Nat.eq_dec p i) as [-> |Hne]; [rewrite nth_error_upd_same in Hp by auto; injection Hp as <- <-; left; auto|rewrite nth_error_upd_other in Hp by auto; right; auto]. }
      split; [|split].
      * intros k m Hk. rewrite in_app_iff, <- (A k m Hk). split.
        -- intros H. apply In_nth_error in H. destruct H as [p Hp]. destruct (X p k m Hp) as [[_ [-> _]]|[_ H]]; [congruence|]. left. eapply nth_error_In; eauto.
        -- intros [H|[[= H1 H2]|[]]]; [|congruence]. apply In_nth_error in H. destruct H as [p Hp]. apply (nth_error_In _ p). rewrite nth_error_upd_other; auto.
           intros ->. congruence.
      * intros m. rewrite HG. split.
        -- intros H. apply In_nth_error in H. destruct H as [p Hp]. destruct (X p PNaN m Hp) as [[_ [_ ->]]|[Hne H]]; [lia|]. exfalso. apply Hne. eapply C; [exact H|exact Hi|right; auto].
        -- intros [-> _]. apply (nth_error_In _ i). rewrite nth_error_upd_same by auto. f_equal. f_equal. lia.
      * intros p q k1 n1 k2 n2 Hp Hq HS. destruct (X p k1 n1 Hp) as [[-> [-> ->]]|[Hne Hp']], (X q k2 n2 Hq) as [[-> [-> ->]]|[Hne' Hq']]; auto; eapply C; eauto.
  - assert (Hk : k <> PNaN) by (intros ->; discriminate).
    assert (Hnew : forall k' m, In (k', m) d -> ~ Same k' k).
    { intros k' m Hin HS. destruct (isNaN k') eqn:E'; [destruct k'; try discriminate; apply Same_NaN_l in HS; auto|]. apply (Hno k' m Hk); auto. apply A; auto. intros ->; discriminate. }
    rewrite putCount_new by auto. split; [|split].
    + intros k' m Hk'. rewrite !in_app_iff, (A k' m Hk'). tauto.
    + intros m. rewrite in_app_iff, B, nanGroups_app. assert (EZ : nanGroups [(k, n)] = 0) by (unfold nanGroups; cbn [filter fst]; rewrite E; reflexivity). rewrite EZ, Nat.add_0_r. split.
      * intros [H|[[= H1 H2]|[]]]; [auto|congruence].
      * auto.
    + apply app_distinct; auto. intros k' m Hin [H|[_ H]]; [apply (Hnew k' m); auto|congruence].
Qed.
Lemma fold_stepN R : (forall i j k n k' n', nth_error R i = Some (k, n) -> nth_error R j = Some (k', n') -> Same k k' -> i = j) ->
  (forall n, In (PNaN, n) R -> n = 1) -> okDict R (fold_left stepN R []).
Proof.
  induction R as [|[k n] R IH] using rev_ind; intros HD H1.
  - cbn. split; [tauto|]. split; [|intros i j k n k' n' Hi; destruct i; discriminate]. intros n. cbn. split; [intros []|unfold nanGroups; cbn; lia].
  - rewrite fold_left_app. cbn [fold_left]. apply stepN_ok.
    + apply IH.
      * intros i j k1 n1 k2 n2 Hi Hj HS. apply (HD i j k1 n1 k2 n2); auto; rewrite nth_error_app1; auto; eapply nth_error_lt; eauto.
      * intros m Hm. apply H1, in_or_app; auto.
    + intros k' m Hk Hin HS. apply In_nth_error in Hin. destruct Hin as [p Hp]. pose proof (nth_error_lt _ _ Hp) as Hlt.
      assert (p = List.length R); [|lia]. apply (HD p (List.length R) k' m k n); auto.
      * rewrite nth_error_app1; auto.
      * rewrite nth_error_app2, Nat.sub_diag; auto.
    + intros ->. apply H1, in_or_app. right. left. auto.
Qed.
Lemma numericCounts_spec l : (forall v, In v l -> Numeric v) -> CountsOf l (numericCounts l).
Proof.
  intros HN. pose proof (stableSort_perm numLe l) as HP.
  assert (HS : StronglySorted (fun a b => numLe a b = true) (stableSort numLe l)).
  { pose proof (stableSort_sorted numLe numLe_total numLe_trans (fun _ _ => True) l) as X.
    assert (Y : StronglySorted (fun _ _ : pval => True) l) by (clear; induction l; constructor; auto; apply Forall_forall; auto).
    specialize (X Y). clear Y; revert X; generalize (stableSort numLe l); clear; intros l0 X; induction X as [|x l1 HS IH HF]; constructor; auto. eapply Forall_impl; [|exact HF]. intros y Hy. eapply lexR_le; eauto. }
  assert (HN' : forall v, In v (stableSort numLe l) -> Numeric v) by (intros v Hv; apply HN; eapply Permutation_in; eauto).
  apply (CountsOf_perm _ _ _ HP).
  destruct (runs_spec _ HN' HS) as [A [B [C [D [E [F _]]]]]]. destruct (fold_stepN (runs (stableSort numLe l)) F D) as [X [Y Z]].
  unfold numericCounts. change (fun d p => if isNaN (fst p) then addNaN (snd p) d else putCount (fst p) (snd p) d) with stepN.
  set (L := stableSort numLe l) in *. clearbody L. set (G := fold_left stepN (runs L) []) in *. clearbody G. split; [|split; auto].
  - intros v Hv. destruct (isNaN v) eqn:Ev.
    + destruct v; try discriminate. exists PNaN, (nanGroups (runs L)). split; [|right; auto]. apply Y. split; auto.
      assert (Hpos : forall n, NumberOf (fun v => v = PNaN) L n -> 0 < n).
      { clear - Hv. intros n H. induction H as [|x l n Hx H IH|x l n Hx H IH]; [destruct Hv|lia|]. destruct Hv as [->|Hv]; [congruence|auto]. }
      apply Hpos; auto.
    + destruct (A v Hv) as [k [n [P Q]]]; [intros ->; discriminate|]. exists k, n. split; [|left; auto]. apply X; auto. intros ->. apply Same_NaN_l in Q. auto.
  - intros k n Hin. destruct (isNaN k) eqn:Ek.
    + destruct k; try discriminate. pose proof (proj1 (Y n) Hin) as [-> Hpos]. split.
      * unfold nanGroups in Hpos. destruct (filter (fun p => isNaN (fst p)) (runs L)) as [|[k m] r] eqn:Ef; [cbn in Hpos; lia|].
        assert (Hin' : In (k, m) (filter (fun p => isNaN (fst p)) (runs L))) by (rewrite Ef; left; auto). apply filter_In in Hin'. destruct Hin' as [I1 I2]. cbn in I2. destruct k; try discriminate. apply (B PNaN m); auto.
      * apply (NumberOf_ext (fun v => v = PNaN)); auto. intros x _. split; [intros ->; right; auto|intros [H|[_ ->]]; auto]. apply Same_NaN_l in H. destruct H.
    + assert (Hk : k <> PNaN) by (intros ->; discriminate). apply X in Hin; auto. split; [eapply B; eauto|].
      apply (NumberOf_ext (Same k)); [|apply (C k n); auto]. intros x _. split; [left; auto|intros [H|[H _]]; [auto|congruence]].
Qed.

Lemma countArray_spec numeric l : (numeric = true -> forall v, In v l -> Numeric (fst v)) ->
  (numeric = false -> OneNaN l /\ l <> []) -> exists d, countArray numeric l = Ok d /\ CountsOf (map fst l) d.
Proof.
  intros H1 H2. unfold countArray. destruct numeric.
  - eexists. split; [reflexivity|]. apply numericCounts_spec. intros v Hv. apply in_map_iff in Hv. destruct Hv as [w [<- Hw]]. auto.
  - destruct (H2 eq_refl). apply objectCounts_spec; auto.
Qed.

(** ** Sparse *)
Lemma CountsOf_zeros l d n : CountsOf l d -> (forall v, In v l -> ~ Same v (PInt 0)) -> 0 < n ->
  CountsOf (l ++ repeat (PInt 0) n) (putCount (PInt 0) n d).
Proof.
  intros [A [B C]] Hz Hn.
  assert (Hk : forall k m, In (k, m) d -> ~ SameElement k (PInt 0)).
  { intros k m Hin [H|[_ H]]; [|discriminate]. apply (Hz k); [apply (B k m); auto|auto]. }
  rewrite putCount_new by (intros k m Hin H; apply (Hk k m Hin); left; auto).
  split; [|split].
  - intros v Hv. apply in_app_or in Hv. destruct Hv as [Hv|Hv].
    + destruct (A v Hv) as [k [m [X Y]]]. exists k, m. split; auto. apply in_or_app; auto.
    + apply repeat_spec in Hv. subst. exists (PInt 0), n. split; [apply in_or_app; right; left; auto|apply SameElement_refl].
  - intros k m Hin. apply in_app_or in Hin. destruct Hin as [Hin|[[= <- <-]|[]]].
    + destruct (B k m Hin) as [X Y]. split; [apply in_or_app; auto|]. replace m with (m + 0) by lia. apply NumberOf_app; auto.
      apply NumberOf_none. intros x Hx. apply repeat_spec in Hx. subst. eapply Hk; eauto.
    + split; [apply in_or_app; right; destruct n; [lia|left; auto]|]. change n with (0 + n) at 2. apply NumberOf_app.
      * apply NumberOf_none. intros x Hx [H|[H _]]; [|discriminate]. apply (Hz x Hx). apply Same_sym; auto.
      * rewrite <- (repeat_length (PInt 0) n) at 2. apply NumberOf_all. intros x Hx. apply repeat_spec in Hx. subst. apply SameElement_refl.
  - apply app_distinct; auto.
Qed.
Lemma val_perm {V} (zero : V) (s : sparse V) : NoDup (map pos (ents s)) -> (forall e, In e (ents s) -> er e < snp s /\ ec e < snf s) ->
  Permutation (map (fun p => SparseSpec.val zero s (fst p) (snd p)) (positions Pts (snp s) (snf s)))
              (map (@ev V) (ents s) ++ repeat zero (snp s * snf s - List.length (ents s))).
Proof.
  intros HN HR. set (P := positions Pts (snp s) (snf s)).
  assert (HP : NoDup P).
  { pose proof (positions_sorted Pts (snp s) (snf s)) as HS. fold P in HS. clear - HS. induction HS as [|x l HS IH HF]; constructor; auto.
    intros Hin. rewrite Forall_forall in HF. apply (posBefore_irrefl Pts x). auto. }
  set (inE := fun p => existsb (fun q => (fst q =? fst p) && (snd q =? snd p)) (map pos (ents s))).
  assert (HinE : forall p, inE p = true <-> In p (map pos (ents s))).
  { intros [a b]. unfold inE. rewrite existsb_exists. split.
    - intros [[c e] [Hc E]]. apply andb_true_iff in E. destruct E as [E1 E2]. apply Nat.eqb_eq in E1, E2. cbn in *. subst. auto.
    - intros H. exists (a, b). split; auto. cbn. rewrite !Nat.eqb_refl. auto. }
  assert (H1 : Permutation (filter inE P) (map pos (ents s))).
  { apply NoDup_Permutation; auto; [apply NoDup_filter; auto|]. intros p. rewrite filter_In, HinE. split; [tauto|]. intros H. split; auto.
    apply in_map_iff in H. destruct H as [e [<- He]]. unfold pos, P. apply positions_In. auto. }
  assert (H2 : Permutation (filter inE P ++ filter (fun p => negb (inE p)) P) P) by apply filter_partition_perm.
  rewrite <- H2 at 1. rewrite map_app. apply Permutation_app.
  - rewrite H1. rewrite map_map. rewrite (map_ext_in _ (@ev V)); auto. intros e He. cbn. apply val_In; auto. destruct e; auto.
  - assert (HL : List.length P = snp s * snf s).
    { unfold P, positions. clear. generalize (snp s). intros n. assert (G : forall k, List.length (flat_map (fun i => map (fun j => (i, j)) (seq 0 (snf s))) (seq k n)) = n * snf s).
      { induction n; intros k; cbn; auto. rewrite app_length, map_length, seq_length, IHn. auto. } apply G. }
    assert (HL2 : List.length (filter (fun p => negb (inE p)) P) = snp s * snf s - List.length (ents s)).
    { apply Permutation_length in H1, H2. rewrite app_length in H2. rewrite map_length in H1. lia. }
    rewrite <- HL2. assert (X : forall p, In p (filter (fun p => negb (inE p)) P) -> SparseSpec.val zero s (fst p) (snd p) = zero).
    { intros [a b] Hp. apply filter_In in Hp. destruct Hp as [_ Hp]. apply negb_true_iff in Hp. cbn. unfold SparseSpec.val.
      destruct (find (fun e => (er e =? a) && (ec e =? b)) (ents s)) as [e|] eqn:E; auto. apply find_some in E. destruct E as [He E].
      apply andb_true_iff in E. destruct E as [E1 E2]. apply Nat.eqb_eq in E1, E2. subst.
      assert (inE (er e, ec e) = true) by (apply HinE; apply in_map_iff; exists e; auto). congruence. }
    revert X. generalize (filter (fun p => negb (inE p)) P). intros Q X. induction Q as [|q Q IH]; cbn; auto. rewrite X by (left; auto). constructor. apply IH. intros; apply X; right; auto.
Qed.
Lemma sparseCount_spec numeric (s : sparse ovalue) z : NoDup (map pos (ents s)) ->
  (forall e, In e (ents s) -> er e < snp s /\ ec e < snf s /\ ~ Same (fst (ev e)) (PInt 0)) ->
  (numeric = true -> forall e, In e (ents s) -> Numeric (fst (ev e))) ->
  (numeric = false -> OneNaN (map (@ev ovalue) (ents s)) /\ ents s <> []) ->
  exists d, sparseCount numeric s = Ok d /\
    CountsOf (map (fun p => fst (SparseSpec.val (PInt 0, z) s (fst p) (snd p))) (positions Pts (snp s) (snf s))) d.
Proof.
  intros HN HR H1 H2. destruct (countArray_spec numeric (map (@ev ovalue) (ents s))) as [d [E C]].
  - intros Hn v Hv. apply in_map_iff in Hv. destruct Hv as [e [<- He]]. auto.
  - intros Hn. destruct (H2 Hn) as [X Y]. split; auto. destruct (ents s); [congruence|discriminate].
  - unfold sparseCount. rewrite E. cbn [rbind]. set (n := snp s * snf s - List.length (ents s)).
    pose proof (val_perm (PInt 0, z) s HN (fun e He => conj (proj1 (HR e He)) (proj1 (proj2 (HR e He))))) as HP. fold n in HP.
    apply (Permutation_map fst) in HP. rewrite map_map, map_app in HP.
    assert (ER : forall n, map fst (@repeat ovalue (PInt 0, z) n) = repeat (PInt 0) n) by (clear; induction n; cbn; congruence). rewrite ER in HP.
    eexists. split; [reflexivity|]. apply (CountsOf_perm _ _ _ (Permutation_sym HP)). destruct (Nat.ltb_spec 0 n).
    + apply CountsOf_zeros; auto. intros v Hv. apply in_map_iff in Hv. destruct Hv as [w [<- Hw]]. apply in_map_iff in Hw. destruct Hw as [e [<- He]]. apply (HR e He).
    + match goal with |- context[repeat _ ?m] => change m with n end. replace n with 0 by lia. cbn [repeat]. rewrite app_nil_r. exact C.
Qed.
