(** Entries for one position, added up (C77). *)
From Verif Require Import Base NamesModel TableModel TableSpec TableOps MatchModel MatchSpec MatchProofs GetSpec CsvModel RawModel RawSpec SparseModel SparseSpec ReshapeModel SparseReshapeModel FromSparseModel FromSparseSpec.
From Verif Require CopyModel.
From Coq Require Import QArith List. Import ListNotations.
Open Scope nat_scope.

Section Dup.
Variable strOf : pval -> string.
Variable floatOf : string -> option pval.
Let addTo := addTo floatOf.
Let addSeen := addSeen floatOf.
Let addAll := addAll floatOf.

(** the values of one position added in their order *)
Fixpoint sums (a : pval) (l : list pval) : result pval :=
  match l with [] => Ok a | v :: t => w <- addTo a v ;; sums w t end.
Definition sumCells (l : list pval) : result (list pval) :=
  match l with [] => Ok [] | a :: t => rmap (fun w => [w]) (sums a t) end.

Lemma cells_app l l' i j : cellsAt (l ++ l') i j = cellsAt l i j ++ cellsAt l' i j.
Proof. unfold cellsAt. rewrite filter_app, map_app. reflexivity. Qed.
Lemma cells_cons e l i j : cellsAt (e :: l) i j = if (er e =? i) && (ec e =? j) then ev e :: cellsAt l i j else cellsAt l i j.
Proof. unfold cellsAt. cbn [filter]. destruct ((er e =? i) && (ec e =? j)); reflexivity. Qed.

Lemma cells_nil l i j : cellsAt l i j = [] <-> ~ In (i, j) (map pos l).
Proof.
  induction l as [|e l IH]; [cbn; tauto|]. rewrite cells_cons. cbn [map]. unfold pos at 1. cbn [In]. destruct (Nat.eqb_spec (er e) i) as [->|N], (Nat.eqb_spec (ec e) j) as [->|M]; cbn [andb].
  - split; [discriminate|]. intros H. exfalso. apply H. left. reflexivity.
  - rewrite IH. split; [intros H [X|X]; [congruence|auto]|auto].
  - rewrite IH. split; [intros H [X|X]; [congruence|auto]|auto].
  - rewrite IH. split; [intros H [X|X]; [congruence|auto]|auto].
Qed.
Lemma cells_nodup l i j : NoDup (map pos l) -> List.length (cellsAt l i j) <= 1.
Proof.
  induction l as [|e l IH]; intros N; [cbn; lia|]. cbn [map] in N. apply NoDup_cons_iff in N. destruct N as [N1 N2]. rewrite cells_cons.
  destruct (Nat.eqb_spec (er e) i) as [Ei|], (Nat.eqb_spec (ec e) j) as [Ej|]; cbn [andb]; auto.
  rewrite (proj2 (cells_nil l i j)); [cbn; lia|]. rewrite <- Ei, <- Ej. exact N1.
Qed.

(** ** one entry *)
Lemma addSeen_ok e : forall seen s d, addSeen e seen = Ok (s, d) -> NoDup (map pos seen) ->
  NoDup (map pos s) /\ (forall p, In p (map pos s) <-> In p (map pos seen) \/ p = pos e) /\ (d = true <-> In (pos e) (map pos seen)) /\
  (forall i j, (er e =? i) && (ec e =? j) = false -> cellsAt s i j = cellsAt seen i j) /\
  sumCells (cellsAt seen (er e) (ec e) ++ [ev e]) = Ok (cellsAt s (er e) (ec e)).
Proof.
  induction seen as [|x seen IH]; intros s d E N.
  - injection E as <- <-. cbn [map]. split; [constructor; [intros []|constructor]|]. split; [cbn; intuition congruence|].
    split; [cbn; split; [discriminate|intros []]|]. split; [intros i j H; rewrite cells_cons, H; reflexivity|].
    rewrite cells_cons, !Nat.eqb_refl. reflexivity.
  - cbn [map] in N. apply NoDup_cons_iff in N. destruct N as [N1 N2]. unfold addSeen in E. cbn [FromSparseModel.addSeen] in E. fold addSeen in E.
    destruct ((er x =? er e) && (ec x =? ec e)) eqn:Q.
    + apply andb_true_iff in Q. destruct Q as [Q1 Q2]. apply Nat.eqb_eq in Q1, Q2. assert (P : pos x = pos e) by (unfold pos; congruence).
      fold addTo in E. destruct (addTo (ev x) (ev e)) as [w|er'] eqn:A; [|discriminate]. cbn [rbind] in E. injection E as <- <-.
      cbn [map]. change (pos (mkE (er x) (ec x) w)) with (pos x). split; [constructor; auto|]. split; [intros p; cbn [In]; rewrite P; split; [auto|intros [X|X]; auto]|].
      split; [split; [rewrite P; left; reflexivity|auto]|]. split.
      * intros i j H. rewrite !cells_cons. cbn [er ec ev]. rewrite Q1, Q2, H. reflexivity.
      * rewrite !cells_cons. cbn [er ec ev]. rewrite Q1, Q2, !Nat.eqb_refl. cbn [andb].
        rewrite (proj2 (cells_nil seen (er e) (ec e))) by (rewrite <- Q1, <- Q2; exact N1). cbn [app sumCells sums]. rewrite A. reflexivity.
    + destruct (addSeen e seen) as [[s' d']|er'] eqn:A; [|discriminate]. cbn [rbind fst snd] in E. injection E as <- <-.
      destruct (IH s' d' eq_refl N2) as [H1 [H2 [H3 [H4 H5]]]].
      assert (P : pos x <> pos e) by (intros P; unfold pos in P; injection P as P1 P2; rewrite P1, P2, !Nat.eqb_refl in Q; discriminate).
      cbn [map]. split; [constructor; auto; rewrite H2; intuition congruence|].
      split; [intros p; cbn [In]; rewrite H2; tauto|]. split; [rewrite H3; cbn [In]; intuition congruence|]. split.
      * intros i j H. rewrite !cells_cons, (H4 i j H). reflexivity.
      * rewrite !cells_cons, Q. exact H5.
Qed.
Lemma addSeen_total e : forall seen, NoDup (map pos seen) -> (exists c, sumCells (cellsAt seen (er e) (ec e) ++ [ev e]) = Ok c) -> exists q, addSeen e seen = Ok q.
Proof.
  induction seen as [|x seen IH]; intros N [c C]; [eexists; reflexivity|].
  cbn [map] in N. apply NoDup_cons_iff in N. destruct N as [N1 N2]. rewrite cells_cons in C. unfold addSeen. cbn [FromSparseModel.addSeen]. fold addSeen.
  destruct ((er x =? er e) && (ec x =? ec e)) eqn:Q.
  - apply andb_true_iff in Q. destruct Q as [Q1 Q2]. apply Nat.eqb_eq in Q1, Q2.
    rewrite (proj2 (cells_nil seen (er e) (ec e))) in C by (rewrite <- Q1, <- Q2; exact N1). cbn [app sumCells sums] in C. fold addTo.
    destruct (addTo (ev x) (ev e)) as [w|]; [|discriminate]. cbn [rbind]. eexists; reflexivity.
  - destruct (IH N2 (ex_intro _ c C)) as [q Eq]. rewrite Eq. cbn [rbind]. eexists; reflexivity.
Qed.

Lemma sums_app a l l' : sums a (l ++ l') = (w <- sums a l ;; sums w l').
Proof. revert a. induction l as [|v l IH]; intros a; [reflexivity|]. cbn [app sums]. destruct (addTo a v); [apply IH|reflexivity]. Qed.
Lemma sumCells_app l l' : sumCells (l ++ l') = (c <- sumCells l ;; sumCells (c ++ l')).
Proof. destruct l as [|a l]; [reflexivity|]. cbn [app sumCells]. rewrite sums_app. destruct (sums a l) as [w|]; reflexivity. Qed.

Lemma addAll_ok : forall l seen d0 s d, addAll l seen d0 = Ok (s, d) -> NoDup (map pos seen) ->
  NoDup (map pos s) /\ (forall p, In p (map pos s) <-> In p (map pos seen) \/ In p (map pos l)) /\
  (forall i j, sumCells (cellsAt seen i j ++ cellsAt l i j) = Ok (cellsAt s i j)) /\
  (d = false -> d0 = false /\ NoDup (map pos l) /\ forall p, In p (map pos l) -> ~ In p (map pos seen)).
Proof.
  induction l as [|e l IH]; intros seen d0 s d E N.
  - injection E as <- <-. split; auto. split; [intros p; cbn; tauto|]. split.
    + intros i j. rewrite app_nil_r. pose proof (cells_nodup seen i j N) as L. destruct (cellsAt seen i j) as [|a [|b t]]; [reflexivity|reflexivity|cbn in L; lia].
    + intros ->. split; auto. split; [constructor|intros p []].
  - unfold addAll in E. cbn [FromSparseModel.addAll] in E. fold addSeen addAll in E. destruct (addSeen e seen) as [[s1 d1]|] eqn:A; [|discriminate]. cbn [rbind fst snd] in E.
    destruct (addSeen_ok e seen s1 d1 A N) as [H1 [H2 [H3 [H4 H5]]]]. destruct (IH s1 (d0 || d1) s d E H1) as [G1 [G2 [G3 G4]]].
    split; auto. split; [intros p; rewrite G2, H2; cbn [map In]; intuition congruence|]. split.
    + intros i j. rewrite cells_cons. destruct ((er e =? i) && (ec e =? j)) eqn:Q.
      * pose proof Q as Q'. apply andb_true_iff in Q'. destruct Q' as [Q1 Q2]. apply Nat.eqb_eq in Q1, Q2. subst i j.
        change (ev e :: cellsAt l (er e) (ec e)) with ([ev e] ++ cellsAt l (er e) (ec e)). rewrite app_assoc, sumCells_app, H5. cbn [rbind]. apply G3.
      * rewrite <- (H4 i j Q). apply G3.
    + intros D. destruct (G4 D) as [K1 [K2 K3]]. apply orb_false_iff in K1. destruct K1 as [K0 K1]. split; auto.
      assert (Ne : ~ In (pos e) (map pos seen)) by (intros X; apply H3 in X; congruence). cbn [map]. split.
      * constructor; auto. intros X. apply (K3 _ X). apply H2. right. reflexivity.
      * intros p [<-|X]; auto. intros Y. apply (K3 p X). apply H2. left. exact Y.
Qed.
Lemma addAll_total : forall l seen d0, NoDup (map pos seen) -> (forall i j, exists c, sumCells (cellsAt seen i j ++ cellsAt l i j) = Ok c) -> exists q, addAll l seen d0 = Ok q.
Proof.
  induction l as [|e l IH]; intros seen d0 N H; [eexists; reflexivity|].
  destruct (addSeen_total e seen N) as [[s1 d1] A].
  { destruct (H (er e) (ec e)) as [c C]. rewrite cells_cons, !Nat.eqb_refl in C. cbn [andb] in C.
    change (ev e :: cellsAt l (er e) (ec e)) with ([ev e] ++ cellsAt l (er e) (ec e)) in C. rewrite app_assoc, sumCells_app in C.
    destruct (sumCells (cellsAt seen (er e) (ec e) ++ [ev e])) as [c'|]; [eexists; reflexivity|discriminate]. }
  unfold addAll. cbn [FromSparseModel.addAll]. fold addSeen addAll. rewrite A. cbn [rbind fst snd].
  destruct (addSeen_ok e seen s1 d1 A N) as [H1 [H2 [H3 [H4 H5]]]]. apply IH; auto.
  intros i j. destruct (H i j) as [c C]. rewrite cells_cons in C. destruct ((er e =? i) && (ec e =? j)) eqn:Q.
  - pose proof Q as Q'. apply andb_true_iff in Q'. destruct Q' as [Q1 Q2]. apply Nat.eqb_eq in Q1, Q2. subst i j.
    change (ev e :: cellsAt l (er e) (ec e)) with ([ev e] ++ cellsAt l (er e) (ec e)) in C. rewrite app_assoc, sumCells_app, H5 in C. cbn [rbind] in C. eauto.
  - rewrite (H4 i j Q). eauto.
Qed.

(** ** sums of numbers *)
Lemma toFloat_number v q : IsNumber v q -> CopyModel.toFloat v = PFloat q.
Proof. intros []; reflexivity. Qed.
Lemma addTo_number a v p q : IsNumber a p -> IsNumber v q -> addTo a v = Ok (PFloat (p + q)).
Proof.
  intros A V. unfold addTo, FromSparseModel.addTo, pyFloat. pose proof (toFloat_number _ _ A) as Ta. pose proof (toFloat_number _ _ V) as Tv.
  destruct V; rewrite Tv; cbn [rbind]; destruct A; unfold addFloats; rewrite Ta; reflexivity.
Qed.
Lemma sums_number : forall l a p qs, IsNumber a p -> Forall2 IsNumber l qs -> exists w q, sums a l = Ok w /\ IsNumber w q /\ (q == p + total qs)%Q.
Proof.
  induction l as [|v l IH]; intros a p qs A F; inversion F as [|? q0 ? qs' V F']; subst.
  - exists a, p. split; [reflexivity|]. split; auto. unfold total. cbn [fold_right]. rewrite Qplus_0_r. reflexivity.
  - cbn [sums]. rewrite (addTo_number a v p q0 A V). cbn [rbind]. destruct (IH (PFloat (p + q0)) (p + q0)%Q qs' (num_float _) F') as [w [q [E [W Q]]]].
    exists w, q. split; auto. split; auto. rewrite Q. unfold total. cbn [fold_right]. rewrite Qplus_assoc. reflexivity.
Qed.
Lemma Summable_cells l : Summable l -> forall i j, exists c, sumCells (cellsAt l i j) = Ok c /\
  (c = [] /\ cellsAt l i j = [] \/ (exists v, c = [v] /\ cellsAt l i j = [v]) \/
   exists w q qs, c = [w] /\ IsNumber w q /\ Forall2 IsNumber (cellsAt l i j) qs /\ (q == total qs)%Q /\ 2 <= List.length (cellsAt l i j)).
Proof.
  intros S i j. destruct (cellsAt l i j) as [|a [|b t]] eqn:C.
  - exists []. split; auto.
  - exists [a]. split; [reflexivity|]. right. left. eauto.
  - destruct (S i j) as [L|L]; [rewrite C in L; cbn in L; lia|]. rewrite C in L.
    assert (F : exists qs, Forall2 IsNumber (a :: b :: t) qs).
    { clear C. induction (a :: b :: t) as [|v r IH]; [exists []; constructor|]. destruct (L v (or_introl eq_refl)) as [q V].
      destruct IH as [qs F]; [intros u U; apply L; right; exact U|]. exists (q :: qs). constructor; auto. }
    destruct F as [qs F]. inversion F as [|? p ? qs' A F']; subst. destruct (sums_number (b :: t) a p qs' A F') as [w [q [E [W Q]]]].
    exists [w]. split; [cbn [sumCells]; rewrite E; reflexivity|]. right. right. exists w, q, (p :: qs'). split; auto. split; auto. split; auto. split; [exact Q|cbn; lia].
Qed.

(** ** zeros and the type of the array *)
Lemma zeroV_spec v : zeroV v = true <-> Same v (PInt 0).
Proof. unfold zeroV. apply pyEq_spec. Qed.
Lemma zero_same : Same (PInt 0) (PInt 0).
Proof. apply (same_num _ _ (inject_Z 0) (inject_Z 0)); constructor. Qed.
Lemma cast_same k v : k <= 2 -> npKind v <= k -> SameElement v (npCast strOf k v).
Proof.
  intros K L. destruct k as [|[|[|k]]]; [| | |lia]; destruct v as [b|z|q| | | |s|]; cbn in L |- *; try lia;
    try (left; econstructor; (constructor || reflexivity)); try (left; constructor); try (right; split; reflexivity).
  - left. destruct b; econstructor; try (constructor || reflexivity).
Qed.
Lemma self_same v : SameElement v v.
Proof. destruct v as [b|z|q| | | |s|]; try (left; econstructor; (constructor || reflexivity)); try (left; constructor); right; split; reflexivity. Qed.
Lemma arrayCast_cells l : exists f, arrayCast strOf l = map (fun e => mkE (er e) (ec e) (f (ev e))) l /\ forall e, In e l -> SameElement (ev e) (f (ev e)).
Proof.
  unfold arrayCast. set (k := list_max (map (fun e => npKind (ev e)) l)). exists (npCast strOf (if k =? 3 then 4 else k)). split; auto.
  intros e I. assert (L : npKind (ev e) <= k).
  { assert (X : Forall (fun x => x <= k) (map (fun e => npKind (ev e)) l)) by (apply list_max_le; unfold k; lia). rewrite Forall_forall in X. apply X. apply in_map_iff. exists e. auto. }
  destruct (Nat.eqb_spec k 3) as [->|N]; [apply self_same|]. destruct (Nat.le_gt_cases k 2) as [K|K]; [apply cast_same; auto|].
  destruct k as [|[|[|[|k']]]]; try lia. apply self_same.
Qed.
Lemma cells_map (f : pval -> pval) (l : list (entry pval)) i j : cellsAt (map (fun e => mkE (er e) (ec e) (f (ev e))) l) i j = map f (cellsAt l i j).
Proof. induction l as [|e l IH]; [reflexivity|]. cbn [map]. rewrite !cells_cons. cbn [er ec ev]. destruct ((er e =? i) && (ec e =? j)); cbn [map]; rewrite IH; reflexivity. Qed.
Lemma cells_filter (l : list (entry pval)) i j : cellsAt (filter (fun e => negb (zeroV (ev e))) l) i j = filter (fun v => negb (zeroV v)) (cellsAt l i j).
Proof.
  induction l as [|e l IH]; [reflexivity|]. cbn [filter]. destruct (zeroV (ev e)) eqn:Z; cbn [negb]; rewrite ?cells_cons; destruct ((er e =? i) && (ec e =? j)); cbn [filter]; rewrite ?Z; cbn [negb]; rewrite IH; reflexivity.
Qed.
Lemma val_cells n k l i j : SparseSpec.val (PInt 0) (mkSp n k l None None) i j = match cellsAt l i j with [] => PInt 0 | v :: _ => v end.
Proof.
  unfold SparseSpec.val. cbn [ents]. induction l as [|e l IH]; [reflexivity|]. cbn [find]. rewrite cells_cons. destruct ((er e =? i) && (ec e =? j)); auto.
Qed.
Lemma pos_map (f : pval -> pval) (l : list (entry pval)) : map pos (map (fun e => mkE (er e) (ec e) (f (ev e))) l) = map pos l.
Proof. rewrite map_map. reflexivity. Qed.
Lemma NoDup_filter_map (P : entry pval -> bool) l : NoDup (map pos l) -> NoDup (map pos (filter P l)).
Proof.
  induction l as [|e l IH]; intros N; [constructor|]. cbn [map] in N. apply NoDup_cons_iff in N. destruct N as [N1 N2]. cbn [filter]. destruct (P e); auto.
  cbn [map]. constructor; auto. intros X. apply N1. apply in_map_iff in X. destruct X as [y [E I]]. apply filter_In in I. apply in_map_iff. exists y. tauto.
Qed.
Lemma SameElement_zero v w : SameElement v w -> ~ Same v (PInt 0) -> ~ Same w (PInt 0).
Proof.
  intros [E|[-> ->]] N X; [|inversion X as [a b p q A B C| | | |]; inversion A]. apply N.
  inversion X as [a b p q A B C| | | |]; subst. inversion E as [a' b' p' q' A' B' C'| | | |]; subst; [|inversion A|inversion A|inversion A|inversion A].
  econstructor; [exact A'|exact B|]. rewrite C'. assert (q' = p) as -> by (destruct B'; inversion A; reflexivity). exact C.
Qed.

Lemma duplicates_summed n k l : InRange n k l -> Summable l ->
  exists l', removeDup strOf floatOf l = Ok l' /\ entsOK (PInt 0) (mkSp n k l' None None) /\ NoZeros l' /\
    forall i j, Holds1 (cellsAt l i j) (SparseSpec.val (PInt 0) (mkSp n k l' None None) i j).
Proof.
  intros R S. destruct (addAll_total l [] false) as [[s d] A]; [constructor| |].
  { intros i j. destruct (Summable_cells l S i j) as [c [C _]]. cbn [app]. eauto. }
  destruct (addAll_ok l [] false s d A (NoDup_nil _)) as [H1 [H2 [H3 H4]]]. unfold removeDup. fold addAll. rewrite A. cbn [rbind fst snd].
  assert (Nz : forall v, Same v (PInt 0) \/ ~ Same v (PInt 0)) by (intros v; rewrite <- zeroV_spec; destruct (zeroV v); [left; reflexivity|right; discriminate]).
  destruct d; cbn [negb andb].
  2: destruct (existsb (fun e => zeroV (ev e)) l) eqn:Z; cbn [negb andb].
  2: clear H4.
  3: { destruct (H4 eq_refl) as [_ [ND _]]. exists l. split; auto.
    assert (NZ : NoZeros l) by (intros e I X; apply zeroV_spec in X; assert (Y : existsb (fun e => zeroV (ev e)) l = true) by (apply existsb_exists; eauto); congruence).
    split; [split; auto; cbn [ents snp snf]; intros e I; destruct (R e I); repeat split; auto; intros X; apply (NZ e I); rewrite X; exact zero_same|].
    split; auto. intros i j. rewrite val_cells. pose proof (cells_nodup l i j ND) as L. destruct (cellsAt l i j) as [|v [|w t]]; [constructor|apply holds_one, self_same|cbn in L; lia]. }
  all: set (kept := filter (fun e => negb (zeroV (ev e))) s); destruct (arrayCast_cells kept) as [f [F1 F2]]; exists (arrayCast strOf kept); (split; [reflexivity|]); rewrite F1;
    assert (Kz : forall e, In e kept -> ~ Same (ev e) (PInt 0)) by (intros e I X; apply filter_In in I; destruct I as [_ I]; apply zeroV_spec in X; rewrite X in I; discriminate);
    assert (NZ : NoZeros (map (fun e => mkE (er e) (ec e) (f (ev e))) kept))
      by (intros e I; apply in_map_iff in I; destruct I as [x [<- I]]; cbn [ev]; apply (SameElement_zero _ _ (F2 x I) (Kz x I)));
    (split; [split; cbn [ents snp snf]; [rewrite pos_map; apply NoDup_filter_map; exact H1|];
      intros e I; pose proof (NZ e I) as Ze; apply in_map_iff in I; destruct I as [x [<- I]]; cbn [er ec ev] in *; apply filter_In in I; destruct I as [I _];
      assert (X : In (pos x) (map pos l)) by (assert (Y : In (pos x) (map pos s)) by (apply in_map; exact I); apply H2 in Y; destruct Y as [[]|Y]; exact Y);
      apply in_map_iff in X; destruct X as [y [Ey Iy]]; destruct (R y Iy) as [Ra Rb]; unfold pos in Ey; injection Ey as Ea Eb; rewrite Ea in Ra; rewrite Eb in Rb;
      repeat split; auto; intros X; apply Ze; rewrite X; exact zero_same|]); (split; [exact NZ|]);
    intros i j; rewrite val_cells, cells_map;
    assert (Fv : forall v, In v (cellsAt kept i j) -> SameElement v (f v))
      by (intros v I; unfold cellsAt in I; apply in_map_iff in I; destruct I as [e [<- I]]; apply filter_In in I; apply F2; tauto);
    unfold kept in Fv |- *; rewrite cells_filter in Fv |- *; pose proof (H3 i j) as C; change (cellsAt [] i j) with (@nil pval) in C; cbn [app] in C; destruct (Summable_cells l S i j) as [c [C' D]]; rewrite C in C'; injection C' as C'; rewrite C' in Fv |- *;
    destruct D as [[-> E]|[[v [-> E]]|[w [q [qs [-> [W [Fq [Q L]]]]]]]]];
    [rewrite E; constructor
    |rewrite E; cbn [filter] in Fv |- *; destruct (zeroV v) eqn:Zv; cbn [negb map] in Fv |- *; [apply holds_zero, zeroV_spec; exact Zv|apply holds_one, Fv; left; reflexivity]
    |cbn [filter] in Fv |- *; destruct (zeroV w) eqn:Zw; cbn [negb map] in Fv |- *;
      [apply zeroV_spec in Zw; inversion Zw as [a b p p' Wa Wb We| | | |]; subst; apply (holds_sum _ qs _ (inject_Z 0)); auto; [constructor|]; rewrite <- Q;
        assert (p = q) as -> by (destruct W; inversion Wa; reflexivity); inversion Wb; subst; symmetry; exact We
      |destruct (Fv w (or_introl eq_refl)) as [Sw|[-> _]]; [|inversion W]; inversion Sw as [a b p p' Wa Wb We| | | |]; subst; try (inversion W; fail);
        apply (holds_sum _ qs _ p'); auto; rewrite <- Q; assert (p = q) as <- by (destruct W; inversion Wa; reflexivity); symmetry; exact We]].
Qed.

(** ** what cannot be added *)
Lemma pyFloat_bad v : NotNumeric floatOf v -> exists e, pyFloat floatOf v = Err e.
Proof. intros [->|[s [-> E]]]; cbn [pyFloat]; [|rewrite E]; eauto. Qed.
Lemma sums_bad : forall l a w, sums a l = Ok w -> (forall v, In v l -> ~ NotNumeric floatOf v) /\ (l <> [] -> ~ NotNumeric floatOf a).
Proof.
  induction l as [|v l IH]; intros a w E; [split; [intros v []|congruence]|]. cbn [sums] in E. destruct (addTo a v) as [b|] eqn:A; [|discriminate]. cbn [rbind] in E.
  unfold addTo, FromSparseModel.addTo in A. destruct (pyFloat floatOf v) as [x|] eqn:P; [|discriminate]. cbn [rbind] in A. split.
  - intros u [<-|I]; [intros B; apply pyFloat_bad in B; destruct B; congruence|]. apply (IH b w E). exact I.
  - intros _ [->|[s [-> _]]]; discriminate.
Qed.
Lemma duplicates_text_refused l i j v : 2 <= List.length (cellsAt l i j) -> In v (cellsAt l i j) -> NotNumeric floatOf v -> exists e, removeDup strOf floatOf l = Err e.
Proof.
  intros L I B. unfold removeDup. fold addAll. destruct (addAll l [] false) as [[s d]|e] eqn:A; [|eexists; reflexivity]. exfalso.
  destruct (addAll_ok l [] false s d A (NoDup_nil _)) as [_ [_ [H _]]]. specialize (H i j). change (cellsAt [] i j) with (@nil pval) in H. cbn [app] in H.
  destruct (cellsAt l i j) as [|a t]; [destruct I|]. cbn [sumCells] in H. destruct (sums a t) as [w|] eqn:E; [|discriminate]. destruct (sums_bad t a w E) as [S1 S2].
  destruct I as [->|I]; [apply S2; auto; intros ->; cbn in L; lia|exact (S1 v I B)].
Qed.
End Dup.
