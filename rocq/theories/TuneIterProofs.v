(** Proofs about Iterative and Tune (C34, C35). *)
From Verif Require Import Base TableModel TuneModel FoldSpec TuneSpec TuneProofs TableSortProofs.
From Coq Require Import QArith Qround Qpower.
Open Scope list_scope.
Open Scope nat_scope.

Section Iter.
Variable V : Type.
Context {EV : EqDec V}.
Variable P : Type.
Variable isBest : P -> P -> bool.
Hypothesis BO : betterOrder isBest.
Variable perf : args V -> P.
Variable leb : V -> V -> bool.
Variable sp : spec V.
Variable k : string.
Variable vals : list V.
Hypothesis Nsp : NoDup (map fst sp).
Hypothesis One : tunedArgs sp = [(k, vals)].
Let vs := stableSort leb vals.

Lemma one_split : exists a b, sp = a ++ (k, ATune vals) :: b /\ tunedArgs a = [] /\ tunedArgs b = [].
Proof.
  clear Nsp. revert One. generalize sp. induction sp0 as [|[k' a'] sp0 IH]; cbn; [discriminate|].
  destruct a' as [w|l]; cbn.
  - intros H. destruct (IH H) as (a & b & -> & Ha & Hb). exists ((k', AVal w) :: a), b. auto.
  - intros [= -> -> H]. exists [], sp0. auto.
Qed.
Lemma plain_only (a : spec V) v w : tunedArgs a = [] -> argsAt a v = argsAt a w.
Proof. induction a as [|[k' [x|l]] a IH]; [auto| |discriminate]. intros H. cbn. f_equal. apply IH; auto. Qed.
Lemma argsAt_keys (a : spec V) v : map fst (argsAt a v) = map fst a.
Proof. unfold argsAt. rewrite map_map. auto. Qed.
Lemma dset_app_not (x : string) (v : V) a b : ~ In x (map fst a) -> dset x v (a ++ b) = a ++ dset x v b.
Proof.
  induction a as [|[y w] a IH]; cbn; auto. intros H. destruct (eq_dec x y); [subst; tauto|]. rewrite IH; tauto.
Qed.
Lemma argsAt_dset v w : dset k v (argsAt sp w) = argsAt sp v.
Proof.
  destruct one_split as (a & b & E & Ha & Hb). unfold argsAt. rewrite E, !map_app. cbn [map fst snd].
  fold (argsAt a w) (argsAt a v) (argsAt b w) (argsAt b v). rewrite dset_app_not.
  - cbn [dset]. destruct (eq_dec k k); [|tauto]. rewrite (plain_only a v w), (plain_only b v w); auto.
  - rewrite argsAt_keys. rewrite E, map_app in Nsp. cbn in Nsp. apply NoDup_remove_2 in Nsp.
    intros H. apply Nsp, in_or_app; auto.
Qed.
Definition at_ (i : nat) (v : V) : istate V P := mkI [(k, i)] [(k, vs)] (argsAt sp v) (perf (argsAt sp v)) (argsAt sp v).
Lemma iinit_at v : nth_error vs (List.length vs / 2) = Some v -> iinit perf leb sp = at_ (List.length vs / 2) v.
Proof.
  intros H. unfold iinit, at_.
  assert (E1 : flat_map (fun p : string * argval V => match snd p with ATune vals => [(fst p, stableSort leb vals)] | AVal _ => [] end) sp = [(k, vs)]).
  { destruct one_split as (a & b & E & Ha & Hb). rewrite E, flat_map_app. cbn [flat_map snd fst app].
    assert (G : forall a : spec V, tunedArgs a = [] -> flat_map (fun p : string * argval V => match snd p with ATune vals => [(fst p, stableSort leb vals)] | AVal _ => [] end) a = []).
    { clear. induction a as [|[k' [x|l]] a IH]; cbn; auto; discriminate. }
    rewrite (G a), (G b) by auto. auto. }
  rewrite E1. cbn [map fst snd].
  assert (E2 : flat_map (fun p : string * argval V => match snd p with
                       | AVal v => [(fst p, v)]
                       | ATune vals => match nth_error (stableSort leb vals) (List.length (stableSort leb vals) / 2) with
                                       | Some v => [(fst p, v)] | None => [] end
                       end) sp = argsAt sp v).
  { destruct one_split as (a & b & E & Ha & Hb). rewrite E, flat_map_app. cbn [flat_map snd fst app]. fold vs. rewrite H.
    unfold argsAt at 1. rewrite map_app. cbn [map fst snd].
    assert (G : forall a : spec V, tunedArgs a = [] -> flat_map (fun p : string * argval V => match snd p with
                       | AVal v => [(fst p, v)]
                       | ATune vals => match nth_error (stableSort leb vals) (List.length (stableSort leb vals) / 2) with
                                       | Some v => [(fst p, v)] | None => [] end
                       end) a = argsAt a v).
    { clear. induction a as [|[k' [x|l]] a IH]; [auto| |discriminate]. intros HH. cbn. f_equal. apply IH; auto. }
    rewrite (G a), (G b) by auto. auto. }
  rewrite E2. auto.
Qed.
Variable m : nat.
Let f (v : V) := perf (argsAt sp v).
Hypothesis U : unimodal isBest f vs m.
Lemma worse x y : isBest x y = true -> isBest y x = false.
Proof.
  intros H. destruct BO as (Irr & Tr & _). destruct (isBest y x) eqn:E; auto. rewrite <- (Irr x). symmetry. eauto.
Qed.
Lemma step_up i x y : i < m -> nth_error vs i = Some x -> nth_error vs (S i) = Some y ->
  iterStep isBest perf (at_ i x) = (at_ (S i) y, Ok (argsAt sp y)).
Proof.
  intros Hi Hx Hy. destruct U as (_ & U1 & _). pose proof (U1 i x y Hi Hx Hy) as B.
  unfold iterStep, at_. cbn [iIdx map fst snd].
  assert (Pr : probe isBest perf (at_ i x) k i = (Some y, S i)).
  { unfold probe, at_. cbn [iVals iBestArgs iBestPerf dget]. destruct (eq_dec k k); [|tauto]. rewrite Hy.
    rewrite argsAt_dset. fold (f y) (f x). rewrite B. destruct i as [|i]; auto.
    assert (exists w, nth_error vs i = Some w) as (w & Hw) by (apply nth_error_is_some; apply nth_error_lt in Hx; lia).
    rewrite Hw, !argsAt_dset. fold (f w) (f y) (f x).
    assert (isBest (f w) (f x) = false) as -> by (apply worse, (U1 i w x); auto; lia). auto. }
  unfold at_ in Pr. rewrite Pr. cbn [flat_map map fst snd app fold_left iCurr iBestPerf iVals].
  rewrite argsAt_dset. fold (f y) (f x). rewrite B. auto.
Qed.
Lemma step_down i x y : m <= i -> nth_error vs (S i) = Some x -> nth_error vs i = Some y ->
  iterStep isBest perf (at_ (S i) x) = (at_ i y, Ok (argsAt sp y)).
Proof.
  intros Hi Hx Hy. destruct U as (_ & _ & U1). pose proof (U1 i y x Hi Hy Hx) as B.
  unfold iterStep, at_. cbn [iIdx map fst snd].
  assert (Pr : probe isBest perf (at_ (S i) x) k (S i) = (Some y, i)).
  { unfold probe, at_. cbn [iVals iBestArgs iBestPerf dget]. destruct (eq_dec k k); [|tauto]. rewrite Hy.
    rewrite !argsAt_dset. fold (f y) (f x). rewrite B.
    replace (S i - 1) with i by lia.
    destruct (nth_error vs (S (S i))) as [w|] eqn:Hw; auto.
    rewrite argsAt_dset. fold (f w).
    assert (isBest (f w) (f x) = false) as -> by (apply worse, (U1 (S i) x w); auto; lia). auto. }
  unfold at_ in Pr. rewrite Pr. cbn [flat_map map fst snd app fold_left iCurr iBestPerf iVals].
  rewrite argsAt_dset. fold (f y) (f x). rewrite B. auto.
Qed.
Lemma step_stop x : nth_error vs m = Some x -> iterStep isBest perf (at_ m x) = (at_ m x, Err StopIter).
Proof.
  intros Hx. destruct U as (_ & U1 & U2).
  assert (Pr : probe isBest perf (at_ m x) k m = (None, m)).
  { unfold probe, at_. cbn [iVals iBestArgs iBestPerf dget]. destruct (eq_dec k k); [|tauto].
    assert (Hh : forall w, nth_error vs (S m) = Some w -> isBest (f w) (f x) = false) by (intros w Hw; apply worse, (U2 m x w); auto).
    assert (Hl : forall i w, m = S i -> nth_error vs i = Some w -> isBest (f w) (f x) = false) by (intros i w Hm Hw; apply worse, (U1 i w x); [lia|auto|rewrite <- Hm; auto]).
    destruct m as [|i].
    - destruct (nth_error vs 1) as [w|] eqn:Hw; auto. rewrite argsAt_dset. fold (f w) (f x). rewrite (Hh w eq_refl). auto.
    - destruct (nth_error_is_some vs (i := i)) as [l Hlw]; [apply nth_error_lt in Hx; lia|]. rewrite Hlw.
      rewrite argsAt_dset. fold (f l) (f x). rewrite (Hl i l eq_refl Hlw). cbn [andb].
      destruct (nth_error vs (S (S i))) as [w|] eqn:Hw; auto. rewrite argsAt_dset. fold (f w). rewrite (Hh w eq_refl). auto. }
  unfold iterStep. cbn [iIdx map fst snd at_]. fold (at_ m x). rewrite Pr. reflexivity.
Qed.
Lemma iterRun_peak : forall d i x n, d <= n -> nth_error vs i = Some x -> (i + d = m \/ i = m + d) ->
  exists y, nth_error vs m = Some y /\ iterRun isBest perf n (at_ i x) = at_ m y.
Proof.
  induction d as [|d IH]; intros i x n Hn Hx Hd.
  - assert (i = m) by lia. subst i. exists x. split; auto. destruct n; auto. cbn [iterRun]. rewrite step_stop; auto.
  - destruct n as [|n]; [lia|]. cbn [iterRun]. assert (Lm : m < List.length vs) by apply U. destruct Hd as [Hd|Hd].
    + destruct (nth_error_is_some vs (i := S i)) as [y Hy]; [lia|]. rewrite (step_up i x y); auto; [|lia]. apply IH; auto; lia.
    + destruct i as [|i]; [lia|]. destruct (nth_error_is_some vs (i := i)) as [y Hy]; [apply nth_error_lt in Hx; lia|].
      rewrite (step_down i x y); auto; [|lia]. apply IH; auto; lia.
Qed.
Lemma iterative_peak n : List.length vals <= n ->
  exists y, nth_error vs m = Some y /\ iBestArgs (iterRun isBest perf n (iinit perf leb sp)) = argsAt sp y /\
    iCurr (iterRun isBest perf n (iinit perf leb sp)) = argsAt sp y.
Proof.
  intros Hn. assert (Lm : m < List.length vs) by apply U.
  assert (Lv : List.length vs = List.length vals) by (unfold vs; apply Permutation_length, stableSort_perm).
  assert (Hh : List.length vs / 2 < List.length vs) by (apply Nat.div_lt; lia).
  destruct (nth_error_is_some vs (i := List.length vs / 2)) as [x Hx]; [lia|].
  rewrite (iinit_at x Hx).
  destruct (Nat.le_ge_cases (List.length vs / 2) m) as [L|L].
  - destruct (iterRun_peak (m - List.length vs / 2) _ x n ltac:(lia) Hx ltac:(lia)) as (y & Hy & E). exists y. rewrite E. auto.
  - destruct (iterRun_peak (List.length vs / 2 - m) _ x n ltac:(lia) Hx ltac:(lia)) as (y & Hy & E). exists y. rewrite E. auto.
Qed.
End Iter.

(** ** Tune *)
Lemma rangeLoop_up stop change : (0 < change)%Z -> forall fuel start, (Z.to_nat (stop - start + 1) < fuel)%nat ->
  exists l, rangeLoop (fun c => (c <=? stop)%Z) (fun c => (c + change)%Z) fuel start = Ok l /\
    (forall j v, nth_error l j = Some v <-> (v = start + Z.of_nat j * change /\ v <= stop)%Z).
Proof.
  intros Hc. induction fuel as [|fuel IH]; intros start Hf; [lia|]. cbn [rangeLoop].
  destruct (start <=? stop)%Z eqn:E.
  - apply Z.leb_le in E. destruct (IH (start + change)%Z) as (l & El & Hl); [lia|]. rewrite El. exists (start :: l).
    split; auto. intros [|j] v; cbn [nth_error].
    + split; [intros [= <-]; split; lia|intros [-> _]; f_equal; lia].
    + rewrite Hl. split; intros [-> H]; split; lia.
  - apply Z.leb_gt in E. exists []. split; auto. intros j v. split; [destruct j; discriminate|]. intros [-> H]. nia.
Qed.
Lemma rangeLoop_down stop change : (change < 0)%Z -> forall fuel start, (Z.to_nat (start - stop + 1) < fuel)%nat ->
  exists l, rangeLoop (fun c => (stop <=? c)%Z) (fun c => (c + change)%Z) fuel start = Ok l /\
    (forall j v, nth_error l j = Some v <-> (v = start + Z.of_nat j * change /\ stop <= v)%Z).
Proof.
  intros Hc. induction fuel as [|fuel IH]; intros start Hf; [lia|]. cbn [rangeLoop].
  destruct (stop <=? start)%Z eqn:E.
  - apply Z.leb_le in E. destruct (IH (start + change)%Z) as (l & El & Hl); [lia|]. rewrite El. exists (start :: l).
    split; auto. intros [|j] v; cbn [nth_error].
    + split; [intros [= <-]; split; lia|intros [-> _]; f_equal; lia].
    + rewrite Hl. split; intros [-> H]; split; lia.
  - apply Z.leb_gt in E. exists []. split; auto. intros j v. split; [destruct j; discriminate|]. intros [-> H]. nia.
Qed.

Section Generic.
Variable A : Type.
Variables (comp : A -> bool) (op : A -> A).
Lemma rangeLoop_term : forall n start fuel, comp (Nat.iter n op start) = false -> n < fuel ->
  exists l, rangeLoop comp op fuel start = Ok l /\
    forall j v, nth_error l j = Some v <-> (v = Nat.iter j op start /\ forall i, i <= j -> comp (Nat.iter i op start) = true).
Proof.
  assert (SI : forall n (x : A), Nat.iter (S n) op x = Nat.iter n op (op x)).
  { induction n as [|n IH]; intros x; auto. cbn [Nat.iter nat_rect] in *. unfold Nat.iter in *. cbn. rewrite <- IH. auto. }
  induction n as [|n IH]; intros start fuel Hn Hf; (destruct fuel as [|fuel]; [lia|]); cbn [rangeLoop].
  - cbn in Hn. rewrite Hn. exists []. split; auto. intros j v. split; [destruct j; discriminate|]. intros [_ H].
    specialize (H 0 ltac:(lia)). cbn in H. congruence.
  - destruct (comp start) eqn:E.
    + rewrite SI in Hn. destruct (IH (op start) fuel Hn ltac:(lia)) as (l & El & Hl). rewrite El. exists (start :: l). split; auto.
      intros [|j] v; cbn [nth_error].
      * split; [intros [= <-]; split; auto; intros [|i] Hi; [auto|lia]|intros [-> _]; auto].
      * rewrite Hl. rewrite SI. split; intros [-> H]; split; auto.
        -- intros [|i] Hi; auto. rewrite SI. apply H. lia.
        -- intros i Hi. rewrite <- SI. apply H. lia.
    + exists []. split; auto. intros j v. split; [destruct j; discriminate|]. intros [_ H].
      specialize (H 0 ltac:(lia)). cbn in H. congruence.
Qed.
Lemma rangeLoop_div : forall fuel start, (forall n, comp (Nat.iter n op start) = true) -> rangeLoop comp op fuel start = Err OutOfFuel.
Proof.
  assert (SI : forall n (x : A), Nat.iter (S n) op x = Nat.iter n op (op x)).
  { induction n as [|n IH]; intros x; auto. unfold Nat.iter in *. cbn in *. rewrite <- IH. auto. }
  induction fuel as [|fuel IH]; intros start H; auto. cbn [rangeLoop]. pose proof (H 0) as H0. cbn in H0. rewrite H0.
  rewrite IH; auto. intros n. rewrite <- SI. apply H.
Qed.
End Generic.

Open Scope Q_scope.
Definition mulIter (change start : Q) (n : nat) : Q := Nat.iter n (fun c => c * change) start.
Lemma mulIter_pow change start n : ~ change == 0 -> mulIter change start n == start * change ^ (Z.of_nat n).
Proof.
  intros Hc. induction n as [|n IH]; [cbn; ring|]. change (mulIter change start (S n)) with (mulIter change start n * change).
  rewrite IH, Nat2Z.inj_succ. unfold Z.succ. rewrite Qpower_plus by auto. cbn. ring.
Qed.
Lemma mulIter_pos change start n : 0 < start -> 0 < change -> 0 < mulIter change start n.
Proof.
  intros Hs Hc. induction n as [|n IH]; auto. change (mulIter change start (S n)) with (mulIter change start n * change).
  apply Qmult_lt_0_compat; auto.
Qed.
Definition Qn (n : nat) : Q := inject_Z (Z.of_nat n).
Lemma Qn_S n : Qn (S n) == Qn n + 1.
Proof. unfold Qn. rewrite Nat2Z.inj_succ. unfold Z.succ. rewrite inject_Z_plus. reflexivity. Qed.
Lemma Qn_pos n : 0 <= Qn n.
Proof. unfold Qn. change 0 with (inject_Z 0). rewrite <- Zle_Qle. lia. Qed.
Lemma archimed (a b : Q) : 0 < b -> exists n, a < b * Qn n.
Proof.
  intros Hb. exists (Z.to_nat (Qceiling (a / b) + 1)).
  destruct (Qlt_le_dec a 0) as [Ha|Ha].
  - eapply Qlt_le_trans; [exact Ha|]. apply Qmult_le_0_compat; [apply Qlt_le_weak; auto|apply Qn_pos].
  - assert (H : a / b <= inject_Z (Qceiling (a / b))) by apply Qle_ceiling.
    assert (H0 : 0 <= a / b) by (apply Qle_shift_div_l; auto; rewrite Qmult_0_l; auto).
    assert (H1 : (0 <= Qceiling (a / b))%Z).
    { rewrite Zle_Qle. eapply Qle_trans; [exact H0|exact H]. }
    unfold Qn. rewrite Z2Nat.id by lia. rewrite inject_Z_plus.
    assert (H2 : a == b * (a / b)) by (field; intros E; rewrite E in Hb; apply Qlt_irrefl in Hb; auto).
    rewrite H2 at 1. apply Qmult_lt_l; auto. eapply Qle_lt_trans; [exact H|]. rewrite <- (Qplus_0_r (inject_Z _)) at 1.
    apply Qplus_lt_r. reflexivity.
Qed.
Lemma grow change start n : 0 < start -> 1 <= change -> start * (1 + Qn n * (change - 1)) <= mulIter change start n.
Proof.
  intros Hs Hc. induction n as [|n IH].
  - cbn. unfold Qn. cbn. ring_simplify. apply Qle_refl.
  - change (mulIter change start (S n)) with (mulIter change start n * change).
    eapply Qle_trans; [|apply Qmult_le_compat_r; [exact IH|eapply Qle_trans; [|exact Hc]; discriminate]].
    rewrite Qn_S. assert (X : 0 <= start * (Qn n * ((change - 1) * (change - 1)))).
    { assert (0 <= change - 1) by (apply -> Qle_minus_iff; auto).
      apply Qmult_le_0_compat; [apply Qlt_le_weak; auto|]. apply Qmult_le_0_compat; [apply Qn_pos|]. apply Qmult_le_0_compat; auto. }
    assert (E : start * (1 + Qn n * (change - 1)) * change == start * (1 + (Qn n + 1) * (change - 1)) + start * (Qn n * ((change - 1) * (change - 1)))) by ring.
    rewrite E. rewrite <- (Qplus_0_r (start * (1 + (Qn n + 1) * (change - 1)))) at 1. apply Qplus_le_r. auto.
Qed.
Lemma shrink change start y n : 0 < start -> 0 < change -> 0 < y -> change * (1 + y) == 1 ->
  mulIter change start n * (1 + Qn n * y) <= start.
Proof.
  intros Hs Hc Hy Hcy. induction n as [|n IH].
  - cbn. unfold Qn. cbn. ring_simplify. apply Qle_refl.
  - change (mulIter change start (S n)) with (mulIter change start n * change).
    eapply Qle_trans; [|exact IH]. rewrite Qn_S.
    assert (Hm : 0 < mulIter change start n) by (apply mulIter_pos; auto).
    assert (E : mulIter change start n * (1 + Qn n * y) == mulIter change start n * change * (1 + (Qn n + 1) * y) + mulIter change start n * (change * (Qn n * (y * y)))).
    { setoid_replace (mulIter change start n * (1 + Qn n * y)) with (mulIter change start n * (1 + Qn n * y) * (change * (1 + y))) by (rewrite Hcy; ring). ring. }
    rewrite E. rewrite <- (Qplus_0_r (mulIter change start n * change * (1 + (Qn n + 1) * y))) at 1. apply Qplus_le_r.
    apply Qmult_le_0_compat; [apply Qlt_le_weak; auto|]. apply Qmult_le_0_compat; [apply Qlt_le_weak; auto|].
    apply Qmult_le_0_compat; [apply Qn_pos|]. apply Qlt_le_weak, Qmult_lt_0_compat; auto.
Qed.
Lemma Qle_bool_false a b : Qle_bool a b = false <-> b < a.
Proof.
  split; intros H.
  - apply Qnot_le_lt. intros L. apply Qle_bool_iff in L. congruence.
  - destruct (Qle_bool a b) eqn:E; auto. apply Qle_bool_iff in E. exfalso. eapply Qlt_not_le; eauto.
Qed.
Lemma mulIter_up_mono change start i j : 0 < start -> 1 < change -> (i <= j)%nat -> mulIter change start i <= mulIter change start j.
Proof.
  intros Hs Hc Hij. induction Hij as [|j Hij IH]; [apply Qle_refl|]. eapply Qle_trans; [exact IH|].
  change (mulIter change start (S j)) with (mulIter change start j * change).
  assert (0 < change) by (eapply Qlt_trans; [|exact Hc]; reflexivity).
  rewrite <- (Qmult_1_r (mulIter change start j)) at 1. apply Qlt_le_weak. apply Qmult_lt_l; auto. apply mulIter_pos; auto.
Qed.
Lemma mulIter_down_mono change start i j : 0 < start -> 0 < change -> change < 1 -> (i <= j)%nat -> mulIter change start j <= mulIter change start i.
Proof.
  intros Hs Hc Hc1 Hij. induction Hij as [|j Hij IH]; [apply Qle_refl|]. eapply Qle_trans; [|exact IH].
  change (mulIter change start (S j)) with (mulIter change start j * change).
  rewrite <- (Qmult_1_r (mulIter change start j)) at 2. apply Qlt_le_weak. apply Qmult_lt_l; auto. apply mulIter_pos; auto.
Qed.
Lemma tuneMul_up start stop change : 0 < start -> start < stop -> 1 < change ->
  exists n l, (forall fuel, (n < fuel)%nat -> tuneMul fuel start stop change = Ok l) /\
    (forall j v, nth_error l j = Some v -> v == start * change ^ Z.of_nat j /\ v <= stop) /\
    (forall j, start * change ^ Z.of_nat j <= stop -> (j < List.length l)%nat).
Proof.
  intros Hs Hst Hc. assert (C0 : 0 < change) by (eapply Qlt_trans; [|exact Hc]; reflexivity).
  assert (Cn : ~ change == 0) by (intros E; rewrite E in C0; apply Qlt_irrefl in C0; auto).
  assert (X : 0 < start * (change - 1)) by (apply Qmult_lt_0_compat; auto; apply -> Qlt_minus_iff; auto).
  destruct (archimed stop _ X) as (n & Hn).
  assert (Bn : Qle_bool (mulIter change start n) stop = false).
  { apply Qle_bool_false. eapply Qlt_le_trans; [exact Hn|]. eapply Qle_trans; [|apply grow; auto; apply Qlt_le_weak; auto].
    assert (E : start * (1 + Qn n * (change - 1)) == start * (change - 1) * Qn n + start) by ring.
    rewrite E. rewrite <- (Qplus_0_r (start * (change - 1) * Qn n)) at 1. apply Qplus_le_r, Qlt_le_weak; auto. }
  destruct (rangeLoop_term Q (fun c => Qle_bool c stop) (fun c => c * change) n start (S n) Bn ltac:(lia)) as (l & El & Hl).
  exists n, l. split; [|split].
  - intros fuel Hf. unfold tuneMul. apply Qle_bool_false in Hst. rewrite Hst. cbn [negb].
    assert (E1 : Qle_bool 1 change = true) by (apply Qle_bool_iff, Qlt_le_weak; auto). rewrite E1. cbn [negb].
    destruct (rangeLoop_term Q (fun c => Qle_bool c stop) (fun c => c * change) n start fuel Bn Hf) as (l' & El' & Hl').
    rewrite El'. f_equal. apply nth_error_ext. intros j. destruct (nth_error l j) as [v|] eqn:E.
    + apply Hl'. apply Hl; auto.
    + destruct (nth_error l' j) as [v|] eqn:E'; auto. apply Hl' in E'. apply Hl in E'. congruence.
  - intros j v Hv. apply Hl in Hv as [-> H]. fold (mulIter change start j) in *. split; [apply mulIter_pow; auto|].
    apply Qle_bool_iff. apply (H j). lia.
  - intros j Hj. assert (exists v, nth_error l j = Some v) as (v & Hv).
    { exists (mulIter change start j). apply Hl. split; auto. intros i Hi. apply Qle_bool_iff.
      fold (mulIter change start i). eapply Qle_trans; [apply (mulIter_up_mono change start i j); auto|]. rewrite mulIter_pow by auto. auto. }
    eapply nth_error_lt; eauto.
Qed.
Lemma tuneMul_down start stop change : 0 < stop -> stop < start -> 0 < change -> change < 1 ->
  exists n l, (forall fuel, (n < fuel)%nat -> tuneMul fuel start stop change = Ok l) /\
    (forall j v, nth_error l j = Some v -> v == start * change ^ Z.of_nat j /\ stop <= v) /\
    (forall j, stop <= start * change ^ Z.of_nat j -> (j < List.length l)%nat).
Proof.
  intros Hs Hst C0 Hc. assert (S0 : 0 < start) by (apply (Qlt_trans 0 stop start); auto).
  assert (Cn : ~ change == 0) by (intros E; rewrite E in C0; apply Qlt_irrefl in C0; auto).
  set (y := 1 / change - 1).
  assert (Ey : change * (1 + y) == 1) by (unfold y; field; auto).
  assert (Hy : 0 < y).
  { unfold y. apply (proj1 (Qlt_minus_iff 1 (1 / change))). apply Qlt_shift_div_l; auto. rewrite Qmult_1_l. auto. }
  assert (X : 0 < stop * y) by (apply Qmult_lt_0_compat; auto).
  destruct (archimed start _ X) as (n & Hn).
  assert (Bn : Qle_bool stop (mulIter change start n) = false).
  { apply Qle_bool_false. apply Qnot_le_lt. intros L.
    pose proof (shrink change start y n S0 C0 Hy Ey) as Sh.
    assert (L2 : stop * (1 + Qn n * y) <= start).
    { eapply Qle_trans; [|exact Sh]. apply Qmult_le_compat_r; auto.
      assert (0 <= Qn n * y) by (apply Qmult_le_0_compat; [apply Qn_pos|apply Qlt_le_weak; auto]).
      apply (Qle_trans 0 (Qn n * y)); auto. rewrite <- (Qplus_0_l (Qn n * y)) at 1. apply Qplus_le_l. discriminate. }
    assert (E : stop * (1 + Qn n * y) == stop * y * Qn n + stop) by ring. rewrite E in L2.
    apply (Qlt_irrefl start). eapply Qlt_le_trans; [exact Hn|]. eapply Qle_trans; [|exact L2].
    rewrite <- (Qplus_0_r (stop * y * Qn n)) at 1. apply Qplus_le_r, Qlt_le_weak; auto. }
  destruct (rangeLoop_term Q (fun c => Qle_bool stop c) (fun c => c * change) n start (S n) Bn ltac:(lia)) as (l & El & Hl).
  exists n, l. split; [|split].
  - intros fuel Hf. unfold tuneMul.
    assert (E0 : Qle_bool stop start = true) by (apply Qle_bool_iff, Qlt_le_weak; auto). rewrite E0. cbn [negb].
    apply Qle_bool_false in Hst. rewrite Hst. cbn [negb].
    apply Qle_bool_false in Hc, C0. rewrite Hc, C0. cbn [orb].
    destruct (rangeLoop_term Q (fun c => Qle_bool stop c) (fun c => c * change) n start fuel Bn Hf) as (l' & El' & Hl').
    rewrite El'. f_equal. apply nth_error_ext. intros j. destruct (nth_error l j) as [v|] eqn:E.
    + apply Hl'. apply Hl; auto.
    + destruct (nth_error l' j) as [v|] eqn:E'; auto. apply Hl' in E'. apply Hl in E'. congruence.
  - intros j v Hv. apply Hl in Hv as [-> H]. fold (mulIter change start j) in *. split; [apply mulIter_pow; auto|].
    apply Qle_bool_iff. apply (H j). lia.
  - intros j Hj. assert (exists v, nth_error l j = Some v) as (v & Hv).
    { exists (mulIter change start j). apply Hl. split; auto. intros i Hi. apply Qle_bool_iff.
      fold (mulIter change start i). eapply Qle_trans; [|apply (mulIter_down_mono change start i j); auto]. rewrite mulIter_pow by auto. auto. }
    eapply nth_error_lt; eauto.
Qed.

Lemma tuneMul_diverges start stop change fuel :
  start < stop /\ 1 <= change /\ (start <= 0 \/ change == 1) \/ 0 < start /\ stop <= 0 /\ 0 < change /\ change < 1 ->
  tuneMul fuel start stop change = Err OutOfFuel.
Proof.
  intros [(Hst & Hc & H)|(Hs & Hst & C0 & Hc)]; unfold tuneMul.
  - pose proof Hst as Hst'. apply Qle_bool_false in Hst. rewrite Hst. cbn [negb].
    pose proof Hc as Hc'. apply Qle_bool_iff in Hc. rewrite Hc. cbn [negb].
    apply rangeLoop_div. intros n. fold (mulIter change start n). apply Qle_bool_iff.
    apply Qle_trans with start; [|apply Qlt_le_weak; auto].
    destruct H as [H|H].
    + induction n as [|n IH]; [apply Qle_refl|]. change (mulIter change start (S n)) with (mulIter change start n * change).
      assert (Hm : mulIter change start n <= 0) by (eapply Qle_trans; eauto).
      eapply Qle_trans; [|exact IH].
      assert (X : 0 <= - mulIter change start n * (change - 1)).
      { apply Qmult_le_0_compat; [|apply -> Qle_minus_iff; auto]. rewrite <- (Qopp_involutive 0). apply Qopp_le_compat. auto. }
      apply Qle_minus_iff. setoid_replace (mulIter change start n + - (mulIter change start n * change)) with (- mulIter change start n * (change - 1)) by ring. auto.
    + assert (E : mulIter change start n == start).
      { induction n as [|n IH]; [reflexivity|]. change (mulIter change start (S n)) with (mulIter change start n * change). rewrite IH, H. ring. }
      rewrite E. apply Qle_refl.
  - assert (H : stop < start) by (eapply Qle_lt_trans; eauto).
    assert (E0 : Qle_bool stop start = true) by (apply Qle_bool_iff, Qlt_le_weak; auto). rewrite E0. cbn [negb].
    apply Qle_bool_false in H. rewrite H. cbn [negb]. pose proof C0 as C0'. apply Qle_bool_false in Hc, C0. rewrite Hc, C0. cbn [orb].
    apply rangeLoop_div. intros n. fold (mulIter change start n). apply Qle_bool_iff.
    eapply Qle_trans; [exact Hst|]. apply Qlt_le_weak, mulIter_pos; auto.
Qed.
