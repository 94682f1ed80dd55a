(** Proofs about objects made from Python data (C61). *)
From Verif Require Import Base NamesModel NamesSpec NamesProofs TableModel TableSpec TableOps TableProofs TableOpsProofs FlatProofs MatchModel MatchSpec MatchProofs CsvModel RawModel RawSpec.
From Coq Require Import QArith Lia Permutation.
Open Scope string_scope.
Open Scope list_scope.
Open Scope nat_scope.

(** *** where the names are *)
Definition rowKinds (m : list (list pval)) (k : nat) : option (list pv) := option_map (map kindOfValue) (nth_error m k).
Lemma kind_text v : isText (kindOfValue v) = true <-> Text v.
Proof. unfold Text. destruct v; cbn; split; try discriminate; try (intros [s E]; discriminate); eauto. Qed.
Lemma kind_num v : isNumber (kindOfValue v) = true <-> Number v.
Proof. destruct v; cbn; split; auto; try discriminate; tauto. Qed.
Lemma all_text l : forallb isText (map kindOfValue l) = true <-> forall v, In v l -> Text v.
Proof.
  rewrite forallb_forall. split.
  - intros H v I. apply kind_text. apply H. apply in_map; auto.
  - intros H x I. apply in_map_iff in I as [v [<- I]]. apply kind_text; auto.
Qed.
Lemma any_num l : existsb isNumber (map kindOfValue l) = true <-> exists v, In v l /\ Number v.
Proof.
  rewrite existsb_exists. split.
  - intros [x [I N]]. apply in_map_iff in I as [v [<- I]]. exists v; split; auto. apply kind_num; auto.
  - intros [v [I N]]. exists (kindOfValue v). split; [apply in_map; auto|apply kind_num; auto].
Qed.
Lemma texts_of l : (forall v, In v l -> Text v) -> exists ss, l = map PStr ss /\ texts (map kindOfValue l) = ss.
Proof.
  induction l as [|v l IH]; intros H; [exists []; auto|].
  destruct (H v (or_introl eq_refl)) as [s ->]. destruct IH as [ss [-> E]]; [intros; apply H; right; auto|].
  exists (s :: ss). split; [reflexivity|]. unfold texts in *. cbn [map kindOfValue flat_map app]. f_equal; auto.
Qed.
Lemma tl_at {A} (a : A) l j : 1 <= j -> nth_error (a :: l) j = nth_error l (j - 1).
Proof. destruct j; [lia|]. intros _. cbn. rewrite Nat.sub_0_r. reflexivity. Qed.
Lemma nodup_text l : (forall v, In v l -> Text v) ->
  (nodupb (texts (map kindOfValue l)) = true <-> forall j k v, nth_error l j = Some v -> nth_error l k = Some v -> j = k).
Proof.
  intros H. destruct (texts_of l H) as [ss [E ->]]. rewrite nodupb_NoDup. split.
  - intros N j k v A B. rewrite E in A, B. rewrite nth_error_map_eq in A. rewrite nth_error_map_eq in B.
    destruct (nth_error ss j) eqn:X; [|discriminate]. destruct (nth_error ss k) eqn:Y; [|discriminate]. cbn in A, B. injection A as <-. injection B as ->.
    eapply NoDup_nth_error_inj; eauto.
  - intros D. apply NoDup_nth_error. intros i j L Q. destruct (nth_error_is_some ss L) as [s S1]. rewrite S1 in Q. symmetry in Q.
    apply (D i j (PStr s)); rewrite E, nth_error_map_eq; [rewrite S1|rewrite Q]; reflexivity.
Qed.
Lemma isTrue_spec a : isTrue a = true <-> a = NmBool true.
Proof. destruct a as [| | [|] | |]; cbn; split; intros; try discriminate; auto. Qed.
Lemma isAuto_spec a : isAuto a = true <-> a = NmAuto.
Proof. destruct a as [| | [|] | |]; cbn; split; intros; try discriminate; auto. Qed.
Lemma mayHold_spec a : (isTrue a || isAuto a)%bool = true <-> MayHold a.
Proof. unfold MayHold. rewrite Bool.orb_true_iff, isTrue_spec, isAuto_spec. tauto. Qed.
Lemma bool_iff (b : bool) P : (b = true <-> P) -> (b = false <-> ~ P).
Proof. intros H. rewrite <- H. destruct b; intuition congruence. Qed.

Lemma reads_spec pn a0 a b0 b rest :
  let m := (a0 :: a) :: (b0 :: b) :: rest in
  let marked := match kindOfValue a0 with PvText s => String.eqb s "pointNames" | _ => false end in
  (marked = true <-> Marked m) /\
  ((if (isTrue pn || isAuto pn) && marked then forallb isText (map kindOfValue a) && nodupb (texts (map kindOfValue a)) else forallb isText (map kindOfValue (a0 :: a)) && nodupb (texts (map kindOfValue a)))
   && (if (isTrue pn || isAuto pn) && marked then existsb isNumber (map kindOfValue b) else existsb isNumber (map kindOfValue (b0 :: b))) = true
   <-> ReadsAsNames pn m).
Proof.
  intros m marked. assert (K : marked = true <-> Marked m).
  { unfold marked, Marked, m, valueAt. cbn. destruct a0; cbn; split; intros H; try discriminate.
    - apply String.eqb_eq in H. subst; auto.
    - injection H as ->. apply String.eqb_refl. }
  split; [exact K|].
  assert (TR : TwoRows m) by (split; cbn; discriminate).
  assert (AB : (isTrue pn || isAuto pn)%bool && marked = true <-> MayHold pn /\ Marked m) by (rewrite Bool.andb_true_iff, mayHold_spec, K; tauto).
  destruct ((isTrue pn || isAuto pn)%bool && marked) eqn:Q.
  - apply proj1 in AB. specialize (AB eq_refl). rewrite !Bool.andb_true_iff, all_text, any_num. split.
    + intros [[A D] [v [I N]]]. split; [exact TR|]. exists 1. split; [left; tauto|].
      assert (A' : forall v0, In v0 a -> Text v0) by auto. pose proof (proj1 (nodup_text a A') D) as D'. split; [|split].
      * intros j v0 L E. unfold valueAt, m in E. cbn [nth_error] in E. rewrite tl_at in E by auto. apply A. eapply nth_error_In; eauto.
      * intros j k v0 L1 L2 E1 E2. unfold valueAt, m in E1, E2. cbn [nth_error] in E1, E2. rewrite tl_at in E1, E2 by auto.
        assert (j - 1 = k - 1) by (eapply D'; eauto). lia.
      * apply In_nth_error in I as [j E]. exists (S j), v. split; [lia|]. split; auto.
    + intros [_ [h [[[_ [_ ->]]|[C _]] [A [D [j [v [L [E N]]]]]]]]]; [|contradiction].
      assert (A' : forall v0, In v0 a -> Text v0).
      { intros w I. apply In_nth_error in I as [k Ek]. apply (A (S k) w); [lia|exact Ek]. }
      split; [split; [exact A'|]|].
      * apply nodup_text; auto. intros i k w E1 E2. enough (S i = S k) by lia. apply (D (S i) (S k) w); auto; lia.
      * unfold valueAt, m in E. cbn [nth_error] in E. rewrite tl_at in E by auto. exists v. split; auto. eapply nth_error_In; eauto.
  - apply bool_iff in AB. apply proj1 in AB. specialize (AB eq_refl). rewrite !Bool.andb_true_iff, all_text, any_num. split.
    + intros [[A D] [v [I N]]]. split; [exact TR|]. exists 0. split; [right; tauto|].
      assert (A' : forall v0, In v0 a -> Text v0) by (intros; apply A; right; auto). pose proof (proj1 (nodup_text a A') D) as D'. split; [|split].
      * intros j v0 L E. unfold valueAt, m in E. cbn [nth_error] in E. apply A. eapply nth_error_In; eauto.
      * intros j k v0 L1 L2 E1 E2. unfold valueAt, m in E1, E2. cbn [nth_error] in E1, E2. rewrite tl_at in E1, E2 by auto.
        assert (j - 1 = k - 1) by (eapply D'; eauto). lia.
      * apply In_nth_error in I as [j E]. exists j, v. split; [lia|]. split; auto.
    + intros [_ [h [[[X [Y _]]|[_ ->]] [A [D [j [v [L [E N]]]]]]]]]; [tauto|].
      assert (A' : forall v0, In v0 (a0 :: a) -> Text v0).
      { intros w I. apply In_nth_error in I as [k Ek]. apply (A k w); [lia|exact Ek]. }
      split; [split; [exact A'|]|].
      * apply nodup_text; [intros; apply A'; right; auto|]. intros i k w E1 E2. enough (S i = S k) by lia. apply (D (S i) (S k) w); auto; lia.
      * exists v. split; auto. unfold valueAt, m in E. cbn [nth_error] in E. eapply nth_error_In; eauto.
Qed.

Lemma autoDetect_spec pn fn m : let '(p, f) := autoDetect pn fn (rowKinds m 0) (rowKinds m 1) in
  (isTrue p = true <-> FirstColumnIsNames pn fn m) /\ (isTrue f = true <-> FirstRowIsNames pn fn m).
Proof.
  assert (Bad : ~ TwoRows m -> (isTrue (NmBool (isTrue pn)) = true <-> FirstColumnIsNames pn fn m) /\ (isTrue (NmBool (isTrue fn)) = true <-> FirstRowIsNames pn fn m)).
  { intros N. cbn [isTrue]. unfold FirstColumnIsNames, FirstRowIsNames, ReadsAsNames. rewrite !isTrue_spec. tauto. }
  unfold autoDetect, rowKinds. destruct m as [|[|a0 a] [|[|b0 b] rest]]; try (cbn; apply Bad; unfold TwoRows; cbn; intros [X Y]; congruence).
  cbn [nth_error option_map map]. 
  pose proof (reads_spec pn a0 a b0 b rest) as [K R]. cbv zeta in K, R.
  set (marked := match kindOfValue a0 with PvText s => String.eqb s "pointNames" | _ => false end) in *.
  set (m := (a0 :: a) :: (b0 :: b) :: rest) in *. cbn [map] in R.
  assert (TR : TwoRows m) by (split; cbn; discriminate).
  assert (NN : forall x, fn = x -> x <> NmBool false -> x <> NmNone -> True) by auto.
  unfold FirstColumnIsNames, FirstRowIsNames.
  destruct fn as [| |[|]|l|d]; cbn [isAuto isTrue].
  - destruct (isAuto pn) eqn:P.
    + apply isAuto_spec in P. subst pn. cbn [isTrue isAuto] in *. rewrite Bool.andb_true_iff, R, K. split; [|split; [auto|intros [C|[_ C]]; [discriminate|auto]]]. split.
      * intros [X Y]. right. repeat split; auto; try apply X.
      * intros [C|[_ [[C|[_ X]] [_ Y]]]]; [discriminate|discriminate|]. split; auto.
    + rewrite isTrue_spec, R. rewrite <- isAuto_spec, P. intuition discriminate.
  - destruct (isAuto pn) eqn:P.
    + apply isAuto_spec in P. subst pn. cbn [isTrue andb]. intuition discriminate.
    + rewrite isTrue_spec. rewrite <- isAuto_spec, P. intuition discriminate.
  - destruct (isAuto pn) eqn:P.
    + apply isAuto_spec in P. subst pn. cbn [isTrue andb]. rewrite K. split; [|tauto]. split; [right; tauto|intros [C|C]; [discriminate|tauto]].
    + rewrite isTrue_spec. rewrite <- isAuto_spec, P. intuition discriminate.
  - rewrite isTrue_spec. intuition discriminate.
  - destruct (isAuto pn) eqn:P.
    + apply isAuto_spec in P. subst pn. cbn [isTrue andb]. intuition discriminate.
    + rewrite isTrue_spec. rewrite <- isAuto_spec, P. intuition discriminate.
  - destruct (isAuto pn) eqn:P.
    + apply isAuto_spec in P. subst pn. cbn [isTrue andb]. intuition discriminate.
    + rewrite isTrue_spec. rewrite <- isAuto_spec, P. intuition discriminate.
Qed.

(** *** the axes *)
Lemma listToDict_err l : forall i d e, listToDict i l d = Err e -> e = InvalidArgumentValue.
Proof.
  induction l as [|n l IH]; intros i d e; cbn [listToDict]; [discriminate|].
  destruct (dmem n d); [congruence|]. destruct n; apply IH.
Qed.
Lemma buildReverse_err n : forall l r o e, buildReverse n l r o = Err e -> e = InvalidArgumentValue.
Proof.
  induction l as [|[x v] l IH]; intros r o e; cbn [buildReverse]; [discriminate|].
  destruct x; try congruence. destruct v; try congruence. destruct (_ || _)%bool; [congruence|apply IH].
Qed.
Lemma setAll_err a asg e : snd (setNames_all a asg) = Err e -> e = InvalidArgumentValue.
Proof.
  unfold setNames_all. destruct (negb _); [cbn; congruence|]. destruct (_ =? 0); [discriminate|].
  destruct (rbind _ _) eqn:B; [discriminate|]. cbn. intros E. injection E as ->.
  unfold rbind in B. destruct asg; try (destruct (listToDict _ _ _) eqn:L; [apply buildReverse_err in B; auto|injection B as ->; apply listToDict_err in L; auto]).
  apply buildReverse_err in B; auto.
Qed.
Definition listed (g : given) : Prop := match g with GDict _ => False | _ => True end.
Definition shown (g : given) (n : nat) : list (option string) := match g with GList l => l | _ => repeat None n end.
Lemma repeat_None_distinct n : DistinctNames (repeat None n).
Proof. intros i j s E. apply nth_error_In, repeat_spec in E. discriminate. Qed.
Lemma newAxis_spec n g : listed g ->
  match newAxis n g with
  | Ok a => NamesFit (shown g n) n /\ Inv a /\ alen a = n /\ getNames a = shown g n
  | Err e => ~ NamesFit (shown g n) n /\ e = InvalidArgumentValue
  end.
Proof.
  intros Lg. destruct g as [|l|d]; [| |contradiction]; cbn [shown newAxis givenLen].
  - split; [split; [apply repeat_length|apply repeat_None_distinct]|]. repeat split.
  - unfold giveNames, namesOf. destruct (Nat.eqb_spec (List.length l) n) as [E|N]; cbn [negb]; [|split; auto; intros [C _]; auto].
    destruct (setNames (mkAxis n None) (AList (map to_newname l)) ONone) as [a [u|e]] eqn:S1.
    + destruct u.
      assert (Q : snd (setNames (mkAxis n None) (AList (map to_newname l)) ONone) = Ok tt) by (rewrite S1; reflexivity).
      pose proof (setNames_list_reject _ _ Q) as [Q1 Q2].
      pose proof (setNames_list_accept _ _ Q1 Q2) as [_ Q3]. rewrite newname_opt_to in Q3.
      pose proof (setNames_list_Inv (mkAxis n None) (map to_newname l) Logic.I) as Q4.
      assert (D : DistinctNames l) by (intros i j s; rewrite <- Q3; apply Inv_names_distinct; exact Q4).
      destruct (setOpt n None (Some l)) as [a' [S2 [I [L [G _]]]]]; [split; auto|]. cbn [namesArg] in S2. rewrite S2 in S1. injection S1 as <-.
      split; [split; auto|]. auto.
    + split.
      * intros [_ D]. destruct (setOpt n None (Some l)) as [a' [S2 _]]; [split; auto|]. cbn [namesArg] in S2. congruence.
      * apply (setAll_err (mkAxis n None) (AList (map to_newname l))). change (snd (setNames (mkAxis n None) (AList (map to_newname l)) ONone) = Err e). rewrite S1. reflexivity.
Qed.

(** *** elements *)
Lemma isNaN_spec v : isNaN v = true <-> v = PNaN.
Proof.
  unfold isNaN, pyNe. rewrite Bool.negb_true_iff. pose proof (pyEq_self v) as P. destruct (pyEq v v); split; intros H; auto; try discriminate.
  - subst. destruct (proj1 P eq_refl eq_refl).
  - destruct v; auto; discriminate (proj2 P ltac:(discriminate)).
Qed.
Lemma missingIn_spec l v : missingIn l v = true <-> CountsAsMissing (Some l) v.
Proof.
  unfold missingIn, CountsAsMissing. rewrite Bool.orb_true_iff, Bool.andb_true_iff, !existsb_exists. split.
  - intros [[u [I E]]|[[u [I E]] N]].
    + exists l, u. repeat split; auto. left. apply pyEq_spec; auto.
    + exists l, u. repeat split; auto. right. split; apply isNaN_spec; auto.
  - intros [l' [u [E [I [H|[-> ->]]]]]]; injection E as <-.
    + left. exists u. split; auto. apply pyEq_spec; auto.
    + right. split; [exists PNaN; split; auto; apply isNaN_spec; auto|apply isNaN_spec; auto].
Qed.
Lemma replaced_spec treat repl v : Element treat repl v (replaced treat repl v).
Proof.
  unfold Element, replaced. destruct treat as [l|].
  - destruct (missingIn l v) eqn:M; [left|right]; split; auto.
    + apply missingIn_spec; auto.
    + rewrite <- missingIn_spec. congruence.
  - right. split; auto. intros [l [u [E _]]]. discriminate.
Qed.
Lemma rectangular_spec {A} (m : list (list A)) r m' : m = r :: m' -> (rectangular m = true <-> forall x, In x m -> List.length x = List.length r).
Proof.
  intros ->. cbn [rectangular]. rewrite forallb_forall. split.
  - intros H x [<-|I]; auto. apply Nat.eqb_eq; auto.
  - intros H x I. apply Nat.eqb_eq. apply H. right; auto.
Qed.

Section Raw.
Variable strOf : pval -> string.
Variable T : Type.
Variable ET : EqDec T.
Variable conv : T -> pval -> result pval.
Variable junk : nat -> nat -> pval.
Notation initData := (initData strOf T ET conv junk).

Definition build (treat : option (list pval)) (repl : pval) (q : shaped * given * given) : result (table pval) :=
  let '(s0, p, f) := q in
  let s := replaceMissing treat repl s0 in
  _ <- analyze s ;;
  let '(n, k, m) := layout junk p f s in
  pa <- newAxis n p ;; fa <- newAxis k f ;; Ok (mkTable pa fa m).
Lemma initData_plain src pn fn treat repl :
  initData src pn fn CNone None None treat repl true = (q <- extractNames strOf pn fn src ;; rmap (fun t => (t, [])) (build treat repl q)).
Proof.
  unfold RawModel.initData. cbn [rbind]. destruct (extractNames _ _ _ _) as [[[s0 p] f]|e]; [|reflexivity]. cbn [rbind]. unfold build.
  destruct (analyze _); [|reflexivity]. cbn [rbind]. destruct (layout _ _ _ _) as [[n k] m]. destruct (newAxis n p); [|reflexivity]. cbn [rbind].
  destruct (newAxis k f); [|reflexivity]. reflexivity.
Qed.
Lemma build_rows treat repl m p f r0 m' : m = r0 :: m' -> r0 <> [] -> listed p -> listed f ->
  let n := List.length m in let k := List.length r0 in
  let good := (forall x, In x m -> List.length x = k) /\ NamesFit (shown p n) n /\ NamesFit (shown f k) k in
  match build treat repl (SRows m, p, f) with
  | Ok r => good /\ Made treat repl n k (shown p n) (shown f k) (valueAt m) r
  | Err e => ~ good /\ e = InvalidArgumentValue
  end.
Proof.
  intros Em N0 Lp Lf n k good.
  destruct (rectangular m) eqn:R.
  - pose proof (proj1 (rectangular_spec m r0 m' Em) R) as R'.
    assert (B : build treat repl (SRows m, p, f) = (pa <- newAxis n p ;; fa <- newAxis k f ;; Ok (mkTable pa fa (map (map (replaced treat repl)) m)))).
    { unfold build. cbn [replaceMissing]. rewrite R. cbn [analyze].
      assert (R2 : rectangular (map (map (replaced treat repl)) m) = true).
      { apply (rectangular_spec _ (map (replaced treat repl) r0) (map (map (replaced treat repl)) m')); [rewrite Em; reflexivity|].
        intros x I. apply in_map_iff in I as [y [<- I]]. rewrite !map_length. auto. }
      rewrite R2. cbn [rbind]. unfold n, k. rewrite Em. destruct r0 as [|v0 r0]; [congruence|]. cbn [map layout List.length]. rewrite !map_length. reflexivity. }
    rewrite B. pose proof (newAxis_spec n p Lp) as P1. pose proof (newAxis_spec k f Lf) as F1.
    destruct (newAxis n p) as [pa|e]; cbn [rbind]; [|destruct P1; split; auto; unfold good; tauto].
    destruct (newAxis k f) as [fa|e]; cbn [rbind]; [|destruct F1; split; auto; unfold good; tauto].
    destruct P1 as [Gp [Ip [Ap Np]]]. destruct F1 as [Gf [If [Af Nf]]]. split; [unfold good; auto|].
    split; [split; [|split; [|split]]|]; cbn [tp tf rows]; auto.
    + rewrite map_length. auto.
    + intros x I. apply in_map_iff in I as [y [<- I]]. rewrite map_length. rewrite Af. apply R'. auto.
    + split; [auto|]. split; [auto|]. split; [auto|]. split; [auto|]. intros i j Hi Hj. unfold valueAt, cell. cbn [rows]. rewrite nth_error_map_eq.
      destruct (nth_error_is_some m (i:=i)) as [x Ex]; [exact Hi|]. rewrite Ex. cbn [option_map]. rewrite nth_error_map_eq.
      destruct (nth_error_is_some x (i:=j)) as [v Ev]; [rewrite (R' x (nth_error_In _ _ Ex)); exact Hj|]. rewrite Ev. cbn [option_map].
      exists v, (replaced treat repl v). repeat split; auto. apply replaced_spec.
  - unfold build. cbn [replaceMissing]. rewrite R. cbn [analyze]. rewrite R. cbn [rbind]. split; auto.
    intros [G _]. apply (rectangular_spec m r0 m' Em) in G. congruence.
Qed.

(** *** the names in a list of lists *)
Definition drop1 (h : nat) (m : list (list pval)) := map (skipn h) m.
Lemma popAll m : (forall x, In x m -> x <> []) -> rmapM popFirst m = Ok (map (fun x => (hd PNone x, tl x)) m).
Proof. intros H. apply rmapM_map_ok. intros x I. destruct x; [destruct (H [] I eq_refl)|reflexivity]. Qed.
Lemma popAll_err m : (exists x, In x m /\ x = []) -> rmapM popFirst m = Err IndexErr.
Proof.
  induction m as [|x m IH]; intros [y [I E]]; [destruct I|]. cbn [rmapM]. destruct x as [|v x]; [reflexivity|]. cbn [popFirst rbind].
  rewrite IH; [reflexivity|]. destruct I as [<-|I]; [discriminate|eauto].
Qed.
Lemma out_bool b P h : (b = true <-> P) -> Out P h -> h = if b then 1 else 0.
Proof. intros E [[p ->]|[np ->]]; destruct b; auto; exfalso; [apply E in p; discriminate|apply np, E; auto]. Qed.
Lemma emptyIn (m : list (list pval)) : (exists x, In x m /\ x = []) \/ (forall x, In x m -> x <> []).
Proof.
  induction m as [|x m IH]; [right; intros ? []|]. destruct x; [left; exists []; split; auto; left; auto|].
  destruct IH as [[y [I E]]|H]; [left; exists y; split; auto; right; auto|]. right. intros y [<-|I]; [discriminate|auto].
Qed.
Lemma extractRows_spec pn fn m hp hf : m <> [] -> Out (FirstColumnIsNames pn fn m) hp -> Out (FirstRowIsNames pn fn m) hf ->
  (hp = 1 /\ (exists x, In x m /\ x = []) /\ extractRows strOf pn fn m = Err IndexErr) \/
  ((hp = 1 -> forall x, In x m -> x <> []) /\
   extractRows strOf pn fn m = Ok (drop1 hp (skipn hf m),
     (if hp =? 1 then Some (map (fun x => strOf (hd PNone x)) (skipn hf m)) else None),
     (if hf =? 1 then Some (map strOf (skipn hp (hd [] m))) else None))).
Proof.
  intros Nm Op Of. unfold extractRows. fold (rowKinds m 0). fold (rowKinds m 1). pose proof (autoDetect_spec pn fn m) as A.
  destruct (autoDetect pn fn (rowKinds m 0) (rowKinds m 1)) as [p f]. destruct A as [Ap Af].
  rewrite (out_bool _ _ _ Ap Op), (out_bool _ _ _ Af Of). clear Ap Af Op Of. destruct (isTrue p) eqn:P.
  - destruct (emptyIn m) as [E|E].
    + left. split; auto. split; auto. rewrite popAll_err by auto. reflexivity.
    + right. split; auto. rewrite popAll by auto. cbn [rbind]. rewrite !map_map. cbn [fst snd Nat.eqb].
      destruct m as [|r m]; [congruence|]. destruct (isTrue f); cbn [map tl rbind skipn hd drop1 Nat.eqb]; repeat f_equal.
  - right. split; [discriminate|]. cbn [rbind Nat.eqb]. destruct m as [|r m]; [congruence|].
    assert (Id : forall l, drop1 0 l = l) by (intros l; unfold drop1; rewrite (map_ext _ (fun x => x)) by reflexivity; apply map_id).
    destruct (isTrue f); cbn [rbind skipn hd Nat.eqb]; rewrite Id; reflexivity.
Qed.

Lemma nmcases a P h : Out P h -> (a = NmBool true -> P) -> (P -> MayHold a) -> notDict a ->
  (h = 1 /\ MayHold a) \/ (h = 0 /\ a <> NmBool true).
Proof. intros [[p ->]|[np ->]] A B _; [left|right]; split; auto. Qed.
Lemma firstRow_may pn fn m : FirstRowIsNames pn fn m -> MayHold fn.
Proof. intros [->|[-> _]]; [left|right]; reflexivity. Qed.
Lemma firstCol_may pn fn m : FirstColumnIsNames pn fn m -> MayHold pn.
Proof. intros [->|[-> _]]; [left|right]; reflexivity. Qed.
Lemma settle_shown a h found header n : notDict a -> (h = 1 /\ MayHold a) \/ (h = 0 /\ a <> NmBool true) ->
  (h = 1 -> exists l, found = Some l /\ map Some l = map (fun i => option_map strOf (header i)) (seq 0 n)) -> (h = 0 -> found = None) ->
  listed (settle a found) /\ shown (settle a found) n = namesFrom strOf a h header n.
Proof.
  intros Nd [[-> M]|[-> M]] F1 F0.
  - destruct (F1 eq_refl) as [l [-> E]]. destruct M as [->| ->]; cbn [settle listed shown namesFrom Nat.eqb]; auto.
  - rewrite (F0 eq_refl). destruct a as [| |[|]|l|d]; cbn [settle listed shown namesFrom Nat.eqb]; auto; try congruence; contradiction.
Qed.
Lemma drop1_at h m i j : valueAt (drop1 h m) i j = valueAt m i (h + j).
Proof. unfold valueAt, drop1. rewrite nth_error_map_eq. destruct (nth_error m i); cbn; auto. apply nth_error_skipn. Qed.
Lemma skip_at h m i j : valueAt (skipn h m) i j = valueAt m (h + i) j.
Proof. unfold valueAt. rewrite nth_error_skipn. reflexivity. Qed.
Lemma map_seq_nth {A B} (f : A -> B) (g : nat -> option B) l : (forall i x, nth_error l i = Some x -> g i = Some (f x)) ->
  map (fun i => g i) (seq 0 (List.length l)) = map Some (map f l).
Proof.
  intros H. apply nth_error_ext. intros i. rewrite nth_error_map_eq, nth_error_seq, !nth_error_map_eq.
  destruct (Nat.ltb_spec i (List.length l)) as [L|L].
  - destruct (nth_error_is_some l L) as [x E]. rewrite E. cbn. rewrite (H i x E). reflexivity.
  - rewrite (proj2 (nth_error_None l i)) by lia. reflexivity.
Qed.
Lemma rows_main m pn fn treat repl hp hf :
  notDict pn -> notDict fn -> Out (FirstColumnIsNames pn fn m) hp -> Out (FirstRowIsNames pn fn m) hf -> valueAt m hf hp <> None ->
  let n := List.length m - hf in let k := width m - hp in
  let ps := namesFrom strOf pn hp (fun i => valueAt m (i + hf) 0) n in
  let fs := namesFrom strOf fn hf (fun j => valueAt m 0 (j + hp)) k in
  let good := (forall x, In x m -> List.length x = width m) /\ NamesFit ps n /\ NamesFit fs k in
  match initData (RRows m) pn fn CNone None None treat repl true with
  | Ok (r, lo) => lo = [] /\ good /\ Made treat repl n k ps fs (fun i j => valueAt m (i + hf) (j + hp)) r
  | Err e => ~ good /\ (e = InvalidArgumentValue \/ (e = IndexErr /\ hp = 1 /\ In [] m))
  end.
Proof.
  intros Np Nf Op Of Some0 n k ps fs good.
  assert (Nm : m <> []) by (intros ->; apply Some0; unfold valueAt; destruct hf; reflexivity).
  pose proof (nmcases pn _ hp Op (fun e => or_introl e) (firstCol_may pn fn m) Np) as Cp.
  pose proof (nmcases fn _ hf Of (fun e => or_introl e) (firstRow_may pn fn m) Nf) as Cf.
  assert (X : extractNames strOf pn fn (RRows m) = (q <- extractRows strOf pn fn m ;; let '(m', p, f) := q in Ok (SRows m', settle pn p, settle fn f))) by (destruct m; [congruence|reflexivity]).
  assert (Em0 : exists r0 m0, m = r0 :: m0) by (destruct m; [congruence|eauto]). destruct Em0 as [r0 [m0 Em]].
  rewrite initData_plain, X. clear X.
  destruct (extractRows_spec pn fn m hp hf Nm Op Of) as [[-> [[x [I ->]] E]]|[Ne E]].
  { rewrite E. cbn [rbind]. split; [|right; auto]. intros [G _]. pose proof (G [] I) as G0. cbn in G0.
    apply Some0. unfold valueAt. destruct (nth_error m hf) as [y|] eqn:Y; auto. apply nth_error_In in Y. apply G in Y. rewrite <- G0 in Y. destruct y; [reflexivity|discriminate]. }
  rewrite E. clear E. cbn [rbind].
  set (pf := if hp =? 1 then Some (map (fun x => strOf (hd PNone x)) (skipn hf m)) else None).
  set (ff := if hf =? 1 then Some (map strOf (skipn hp (hd [] m))) else None).
  assert (Hp : hp <= 1) by lia. assert (Hf : hf <= 1) by lia.
  destruct (nth_error m hf) as [rh|] eqn:Rh; [|unfold valueAt in Some0; rewrite Rh in Some0; congruence].
  assert (Lh : hp < List.length rh). { unfold valueAt in Some0. rewrite Rh in Some0. apply nth_error_Some; auto. }
  assert (Esk : exists rest, skipn hf m = rh :: rest).
  { pose proof (nth_error_skipn m hf 0) as Q. rewrite Nat.add_0_r, Rh in Q. destruct (skipn hf m); [discriminate|]. injection Q as ->. eauto. }
  destruct Esk as [rest Esk].
  assert (Sp : listed (settle pn pf) /\ shown (settle pn pf) n = ps).
  { apply settle_shown; auto.
    - intros ->. unfold pf. cbn [Nat.eqb]. eexists; split; [reflexivity|]. symmetry. unfold n. rewrite <- skipn_length.
      apply (map_seq_nth (fun x => strOf (hd PNone x)) (fun i => option_map strOf (valueAt m (i + hf) 0))). intros i x Ex.
      rewrite nth_error_skipn in Ex. unfold valueAt. rewrite Nat.add_comm, Ex. pose proof (Ne eq_refl x (nth_error_In _ _ Ex)). destruct x; [congruence|reflexivity].
    - intros ->. reflexivity. }
  assert (Hd : hd [] m = r0) by (rewrite Em; reflexivity).
  assert (W : width m = List.length r0) by (rewrite Em; reflexivity).
  assert (Sf : listed (settle fn ff) /\ shown (settle fn ff) k = fs).
  { apply settle_shown; auto.
    - intros ->. unfold ff. cbn [Nat.eqb]. eexists; split; [reflexivity|]. symmetry. rewrite Hd. unfold k. rewrite W, <- skipn_length.
      apply (map_seq_nth strOf (fun j => option_map strOf (valueAt m 0 (j + hp)))). intros j x Ex.
      rewrite nth_error_skipn in Ex. unfold valueAt. rewrite Em. cbn [nth_error]. rewrite Nat.add_comm, Ex. reflexivity.
    - intros ->. reflexivity. }
  destruct Sp as [Lp Sp]. destruct Sf as [Lf Sf].
  pose proof (build_rows treat repl (drop1 hp (skipn hf m)) (settle pn pf) (settle fn ff) (skipn hp rh) (drop1 hp rest)) as B.
  specialize (B ltac:(rewrite Esk; reflexivity)).
  assert (N0 : skipn hp rh <> []) by (intros C; apply (f_equal (@List.length pval)) in C; rewrite skipn_length in C; cbn in C; lia).
  specialize (B N0 Lp Lf). cbv zeta in B.
  assert (Ln : List.length (drop1 hp (skipn hf m)) = n) by (unfold drop1; rewrite map_length, skipn_length; reflexivity).
  assert (Lk : List.length (skipn hp rh) = List.length rh - hp) by apply skipn_length.
  rewrite Ln, Lk, Sp in B.
  (* the first row, if taken, has the width of the data *)
  assert (Keq : hf = 0 -> List.length rh = width m). { intros ->. rewrite Em in Rh. cbn in Rh. injection Rh as <-. auto. }
  assert (Wp : hp <= width m). { destruct Cp as [[-> _]|[-> _]]; [|lia]. rewrite W. pose proof (Ne eq_refl r0) as Q. destruct r0; [destruct Q; [rewrite Em; left|]; reflexivity|cbn; lia]. }
  assert (All : (forall x, In x m -> List.length x = width m) -> List.length rh = width m) by (intros H; apply H; eapply nth_error_In; eauto).
  assert (Shk : forall k', k' = k -> shown (settle fn ff) k' = fs) by (intros k' ->; exact Sf).
  assert (Shl : hf = 1 -> List.length (shown (settle fn ff) (List.length rh - hp)) = width m - hp).
  { intros H1. destruct Cf as [[_ [->| ->]]|[C _]]; [| |lia]; unfold ff; rewrite H1; cbn [Nat.eqb settle shown]; rewrite !map_length, skipn_length, Hd, W; reflexivity. }
  assert (Iff : ((forall x, In x (drop1 hp (skipn hf m)) -> List.length x = List.length rh - hp) /\ NamesFit ps n /\ NamesFit (shown (settle fn ff) (List.length rh - hp)) (List.length rh - hp)) <-> good).
  { unfold good. split.
    - intros [A [P F]].
      assert (Ek : List.length rh - hp = k). { destruct Cf as [[H1 _]|[H0 _]]; [|rewrite (Keq H0); reflexivity]. destruct F as [F _]. rewrite (Shl H1) in F. unfold k. lia. }
      split; [|split; auto; rewrite Ek, Sf in F; exact F].
      intros x Ix. unfold k in Ek. assert (Ew : List.length rh = width m) by lia.
      destruct (In_nth_error _ _ Ix) as [ix Hx]. destruct (Nat.ltb_spec ix hf) as [L|L].
      + assert (ix = 0) by lia. subst ix. rewrite Em in Hx. cbn in Hx. injection Hx as <-. auto.
      + assert (Ix' : In (skipn hp x) (drop1 hp (skipn hf m))).
        { unfold drop1. apply in_map. apply (nth_error_In _ (ix - hf)). rewrite nth_error_skipn. replace (hf + (ix - hf)) with ix by lia. exact Hx. }
        apply A in Ix'. rewrite skipn_length in Ix'. assert (hp <= List.length x). { destruct Cp as [[-> _]|[-> _]]; [|lia]. pose proof (Ne eq_refl x Ix). destruct x; [congruence|cbn; lia]. } lia.
    - intros [A [P F]]. pose proof (All A) as Ew. split; [|split; auto; rewrite Ew, (Shk (width m - hp) eq_refl); exact F].
      intros x Ix. unfold drop1 in Ix. apply in_map_iff in Ix as [y [<- Iy]]. rewrite skipn_length. rewrite Ew. f_equal. apply A. rewrite <- (firstn_skipn hf m). apply in_or_app; auto. }
  destruct (build treat repl _) as [r|e]; cbn [rmap rbind].
  - destruct B as [G Md]. apply Iff in G. split; auto. split; auto. destruct G as [A _]. pose proof (All A) as Ew. rewrite Ew, (Shk (width m - hp) eq_refl) in Md.
    destruct Md as [M1 [M2 [M3 [M4 [M5 M6]]]]]. repeat (split; auto). intros i j Hi Hj. destruct (M6 i j Hi Hj) as [v [w [V R]]].
    exists v, w. split; auto. rewrite drop1_at, skip_at in V. rewrite (Nat.add_comm i hf), (Nat.add_comm j hp). exact V.
  - destruct B as [Ng ->]. split; auto. intros G. apply Ng, Iff, G.
Qed.
End Raw.
