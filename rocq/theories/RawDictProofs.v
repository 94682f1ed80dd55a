(** Proofs about objects made from flat lists and dicts (C61). *)
From Verif Require Import Base NamesModel NamesSpec NamesProofs TableModel TableSpec TableOps TableProofs TableOpsProofs FlatProofs MatchModel MatchSpec MatchProofs CsvModel RawModel RawSpec RawProofs.
From Coq Require Import QArith Lia Permutation.
Open Scope string_scope.
Open Scope list_scope.
Open Scope nat_scope.

Lemma countIn_occ {A} {E : EqDec A} (x : A) l : countIn x l = count_occ eq_dec l x.
Proof.
  unfold countIn. induction l as [|y l IH]; cbn [filter count_occ]; [reflexivity|].
  destruct (eq_dec x y) as [E1|N]; destruct (eq_dec y x) as [E2|N2]; try congruence; cbn; auto.
Qed.
Lemma sameItems_spec {A} {E : EqDec A} (a b : list A) : sameItems a b = true <-> Permutation a b.
Proof.
  unfold sameItems. rewrite forallb_forall, (Permutation_count_occ eq_dec). split.
  - intros H x. destruct (in_dec eq_dec x (a ++ b)) as [I|N].
    + apply H, Nat.eqb_eq in I. rewrite !countIn_occ in I. exact I.
    + assert (Na : ~ In x a) by (intros C; apply N, in_or_app; auto). assert (Nb : ~ In x b) by (intros C; apply N, in_or_app; auto).
      apply (count_occ_not_In eq_dec) in Na. apply (count_occ_not_In eq_dec) in Nb. congruence.
  - intros H x _. apply Nat.eqb_eq. rewrite !countIn_occ. apply H.
Qed.
Lemma indexIn_spec {A} {E : EqDec A} (x : A) l : match indexIn x l with Some i => nth_error l i = Some x | None => ~ In x l end.
Proof.
  induction l as [|y l IH]; cbn [indexIn]; [intros []|]. destruct (eq_dec x y) as [->|N]; [reflexivity|].
  destruct (indexIn x l); cbn; [exact IH|]. intros [C|C]; auto.
Qed.
(** [g] names the items taken in [order] *)
Definition settled (names : nmArg) (found : list string) (g : given) : Prop :=
  match names with
  | NmList l => g = GList l
  | NmNone | NmBool false => g = GNone
  | _ => g = GList (map Some found)
  end.
Lemma dictNames_spec {A} names found (data : list A) : notDict names -> NoDup found -> List.length data = List.length found ->
  match dictNames names found data with
  | Ok (g, ds) => KeysFit names found /\ settled names found g /\ exists order, UsedInOrder names found order /\ List.length ds = List.length data /\
      forall i, nth_error ds i = match nth_error order i with Some a => nth_error data a | None => None end
  | Err e => ~ KeysFit names found /\ (e = InvalidArgumentValue \/ (e = TypeErr /\ exists l, names = NmList l /\ In None l))
  end.
Proof.
  intros Nd Nf Ln.
  assert (Plain : exists order, order = seq 0 (List.length found) /\ Permutation order (seq 0 (List.length found)) /\ List.length data = List.length data /\ forall i, nth_error data i = match nth_error order i with Some a => nth_error data a | None => None end).
  { exists (seq 0 (List.length found)). split; auto. split; auto. split; auto. intros i. rewrite nth_error_seq. destruct (Nat.ltb_spec i (List.length found)); [reflexivity|]. apply nth_error_None. lia. }
  destruct names as [| |[|]|l|d]; try contradiction; cbn [dictNames KeysFit settled].
  1-4: split; auto; split; auto; destruct Plain as [o [-> [P [L R]]]]; exists (seq 0 (List.length found)); repeat split; auto.
  destruct (eq_dec l (map Some found)) as [->|N].
  { split; [apply Permutation_refl|]. split; auto. destruct Plain as [o [Eo [P [L R]]]]. exists o. split; [split; auto|auto].
    rewrite Eo. apply nth_error_ext. intros i. rewrite nth_error_map_eq, nth_error_seq, nth_error_map_eq. destruct (Nat.ltb_spec i (List.length found)) as [H|H]; cbn.
    - destruct (nth_error_is_some found H) as [x ->]. reflexivity.
    - rewrite (proj2 (nth_error_None found i)); [reflexivity|auto]. }
  destruct ((2 <=? List.length l) && mem None l) eqn:Q.
  { apply Bool.andb_true_iff in Q as [_ M]. apply mem_In in M. split; [|right; split; auto; exists l; auto].
    intros P. apply (Permutation_in _ P) in M. apply in_map_iff in M as [x [C _]]. discriminate. }
  destruct (sameItems l (map Some found)) eqn:S1; cbn [negb].
  2:{ split; auto. intros P. apply sameItems_spec in P. congruence. }
  apply sameItems_spec in S1.
  assert (G : forall l', (forall x, In x l' -> In x (map Some found)) -> exists idx, rmapM (fun s => match indexIn s (map Some found) with Some i => Ok i | None => Err ValueErr end) l' = Ok idx /\ map (nth_error found) idx = l').
  { induction l' as [|x l' IH]; intros H; [exists []; auto|]. destruct IH as [idx [E1 E2]]; [intros; apply H; right; auto|].
    pose proof (indexIn_spec x (map Some found)) as I. cbn [rmapM]. destruct (indexIn x (map Some found)) as [i|]; [|exfalso; apply I, H; left; auto].
    cbn [rbind]. rewrite E1. cbn [rbind]. exists (i :: idx). split; auto. cbn [map]. rewrite E2. f_equal.
    rewrite nth_error_map_eq in I. destruct (nth_error found i); cbn in I; congruence. }
  destruct (G l) as [idx [E1 E2]]; [intros x I; eapply Permutation_in; eauto|]. rewrite E1. cbn [rbind].
  assert (R : forall a, In a idx -> a < List.length found).
  { intros a I. assert (J : In (nth_error found a) l) by (rewrite <- E2; apply in_map; auto). apply (Permutation_in _ S1) in J. apply in_map_iff in J as [x [Ex _]]. apply nth_error_Some. congruence. }
  destruct (gather_ok data idx) as [ys [E3 [L3 R3]]]; [intros a I; rewrite Ln; auto|]. rewrite E3. cbn [rbind].
  assert (Li : List.length idx = List.length found) by (rewrite <- (map_length (nth_error found)), E2, (Permutation_length S1), map_length; reflexivity).
  split; auto. split; auto. exists idx. split; [split|]; auto.
  - apply NoDup_Permutation_bis; [|rewrite seq_length; lia|intros a I; apply in_seq; split; [lia|]; apply R; auto].
    assert (NL : NoDup l) by (apply (Permutation_NoDup (Permutation_sym S1)); apply FinFun.Injective_map_NoDup; auto; intros x y C; congruence).
    rewrite <- E2 in NL. apply NoDup_map_inv in NL. exact NL.
  - split; [rewrite L3; lia|]. exact R3.
Qed.

Section Raw.
Variable strOf : pval -> string.
Variable T : Type.
Variable ET : EqDec T.
Variable conv : T -> pval -> result pval.
Variable junk : nat -> nat -> pval.
Notation initData := (initData strOf T ET conv junk).

(** *** flat lists *)
Lemma build_flat treat repl l p f : l <> [] -> listed p -> listed f ->
  let k := List.length l in
  let good := NamesFit (shown p 1) 1 /\ NamesFit (shown f k) k in
  match build junk treat repl (SFlat l, p, f) with
  | Ok r => good /\ Made treat repl 1 k (shown p 1) (shown f k) (valueAt [l]) r
  | Err e => ~ good /\ e = InvalidArgumentValue
  end.
Proof.
  intros Nl Lp Lf k good. pose proof (build_rows strOf junk treat repl [l] p f l [] eq_refl Nl Lp Lf) as B. cbv zeta in B.
  assert (E : build junk treat repl (SRows [l], p, f) = build junk treat repl (SFlat l, p, f)).
  { unfold build. cbn [replaceMissing rectangular forallb map analyze rbind]. destruct l; [congruence|reflexivity]. }
  rewrite E in B. destruct (build junk treat repl (SFlat l, p, f)).
  - destruct B as [[_ G] M]. split; [exact G|exact M].
  - destruct B as [Ng ->]. split; auto. intros G. apply Ng. split; [|exact G]. intros x [<-|[]]. reflexivity.
Qed.
Lemma flat_FirstRow pn fn l : FirstRowIsNames pn fn [l] <-> fn = NmBool true.
Proof. unfold FirstRowIsNames, ReadsAsNames, TwoRows. split; [intros [H|[_ [[_ C] _]]]; auto; destruct C; reflexivity|auto]. Qed.
Lemma flat_FirstCol pn fn l : FirstColumnIsNames pn fn [l] <-> pn = NmBool true.
Proof. unfold FirstColumnIsNames, TwoRows. split; [intros [H|[_ [_ [[_ C] _]]]]; auto; destruct C; reflexivity|auto]. Qed.
Lemma flat_header pn l treat repl : initData (RFlat l) pn (NmBool true) CNone None None treat repl true = Err IndexErr.
Proof.
  rewrite initData_plain. cbn [extractNames settleAll]. unfold extractFlat.
  assert (Of : Out (FirstRowIsNames pn (NmBool true) [l]) 1) by (left; split; auto; apply flat_FirstRow; auto).
  assert (Op : exists hp, Out (FirstColumnIsNames pn (NmBool true) [l]) hp).
  { destruct (isTrue pn) eqn:P; [exists 1; left|exists 0; right]; split; auto; rewrite flat_FirstCol; rewrite <- isTrue_spec; congruence. }
  destruct Op as [hp Op]. destruct (extractRows_spec strOf pn (NmBool true) [l] hp 1 ltac:(discriminate) Op Of) as [[_ [_ ->]]|[_ ->]]; reflexivity.
Qed.
Lemma flat_main l pn fn treat repl hp :
  notDict pn -> notDict fn -> fn <> NmBool true -> Out (pn = NmBool true) hp -> hp < List.length l ->
  let k := List.length l - hp in
  let ps := namesFrom strOf pn hp (fun _ => nth_error l 0) 1 in
  let fs := explicitNames fn k in
  let good := NamesFit ps 1 /\ NamesFit fs k in
  match initData (RFlat l) pn fn CNone None None treat repl true with
  | Ok (r, lo) => lo = [] /\ good /\ Made treat repl 1 k ps fs (fun _ j => nth_error l (j + hp)) r
  | Err e => ~ good /\ e = InvalidArgumentValue
  end.
Proof.
  intros Np Nf F1 Op Ll k ps fs good. rewrite initData_plain. cbn [extractNames settleAll]. unfold extractFlat.
  assert (Op' : Out (FirstColumnIsNames pn fn [l]) hp) by (unfold Out in *; rewrite flat_FirstCol; exact Op).
  assert (Of' : Out (FirstRowIsNames pn fn [l]) 0) by (right; rewrite flat_FirstRow; auto).
  destruct (extractRows_spec strOf pn fn [l] hp 0 ltac:(discriminate) Op' Of') as [[-> [[x [[<-|[]] ->]] _]]|[_ ->]]; [cbn in Ll; lia|].
  cbn [rbind skipn drop1 map Nat.eqb].
  set (pf := if hp =? 1 then Some [strOf (hd PNone l)] else None).
  assert (Sp : listed (settle pn pf) /\ shown (settle pn pf) 1 = ps).
  { destruct Op as [[-> ->]|[N ->]]; unfold pf, ps; cbn [Nat.eqb settle listed shown namesFrom].
    - split; auto. destruct l; [cbn in Ll; lia|reflexivity].
    - destruct pn as [| |[|]|lp|d]; cbn; auto; try congruence; contradiction. }
  assert (Sf : listed (settle fn None) /\ shown (settle fn None) k = fs).
  { unfold fs. destruct fn as [| |[|]|lp|d]; cbn; auto; try congruence; contradiction. }
  destruct Sp as [Lp Sp]. destruct Sf as [Lf Sf].
  assert (Nl : skipn hp l <> []) by (intros C; apply (f_equal (@List.length pval)) in C; rewrite skipn_length in C; cbn in C; lia).
  pose proof (build_flat treat repl (skipn hp l) (settle pn pf) (settle fn None) Nl Lp Lf) as B. cbv zeta in B.
  rewrite skipn_length in B. fold k in B. rewrite Sp, Sf in B.
  destruct (build junk treat repl _) as [r|e]; cbn [rmap rbind].
  - destruct B as [G [M1 [M2 [M3 [M4 [M5 M6]]]]]]. split; auto. split; auto. split; auto. split; auto. split; auto. split; auto. split; auto.
    intros i j Hi Hj. destruct (M6 i j Hi Hj) as [v [w [V R]]]. exists v, w. split; auto. assert (i = 0) by lia. subst i. unfold valueAt in V. cbn [nth_error] in V. rewrite nth_error_skipn in V. rewrite Nat.add_comm. exact V.
  - exact B.
Qed.

(** *** dicts of lists and of values *)
Lemma settled_shown names found g : notDict names -> settled names found g -> listed g /\ shown g (List.length found) = keyNames names found.
Proof. intros Nd H. destruct names as [| |[|]|l|d]; try contradiction; cbn in H; subst g; cbn; auto. Qed.
Lemma settle_id g : listed g -> settle (asArg g) None = g.
Proof. destruct g; cbn; tauto. Qed.
Lemma asArg_not g : ~ MayHold (asArg g).
Proof. unfold MayHold. destruct g; cbn; intuition discriminate. Qed.
Lemma noHeader_rows g fn m : NoHeaderRow fn m -> ~ FirstRowIsNames (asArg g) fn m.
Proof.
  intros [H|[-> H]] C.
  - destruct C as [->|[-> _]]; exact H.
  - destruct C as [C|[_ [[Z _] [h [[[C _]|[_ ->]] [A _]]]]]]; [discriminate|destruct (asArg_not g C)|].
    unfold valueAt in Z. destruct (nth_error m 0) as [r|] eqn:E; [|congruence]. destruct (H r (nth_error_In _ _ E)) as [v [I Nv]].
    apply In_nth_error in I as [j J]. apply Nv, (A j); [lia|]. unfold valueAt. rewrite E. exact J.
Qed.
Lemma noHeader_col g fn m : ~ FirstColumnIsNames (asArg g) fn m.
Proof. intros C. apply firstCol_may in C. apply asArg_not in C. auto. Qed.
Lemma settle_noHeader fn m k : notDict fn -> NoHeaderRow fn m -> listed (settle fn None) /\ shown (settle fn None) k = explicitNames fn k.
Proof. intros Nd [H|[-> _]]; [|cbn; auto]. destruct fn as [| |[|]|l|d]; cbn; auto; contradiction. Qed.
Lemma noHeader_true fn m : NoHeaderRow fn m -> isTrue fn = false.
Proof. intros [H|[-> _]]; [|reflexivity]. destruct fn as [| |[|]|l|d]; cbn; auto; contradiction. Qed.
Lemma noHeader_incl fn m m' : (forall r, In r m' -> In r m) -> NoHeaderRow fn m -> NoHeaderRow fn m'.
Proof. intros I [H|[E H]]; [left; auto|right]. split; auto. Qed.
Lemma settle_rows g fn m : m <> [] -> NoHeaderRow fn m -> listed g -> settleAll strOf (asArg g) fn (SRows m) = Ok (SRows m, g, settle fn None).
Proof.
  intros Nm NH L. destruct m as [|r m]; [congruence|]. cbn [settleAll].
  destruct (extractRows_spec strOf (asArg g) fn (r :: m) 0 0 ltac:(discriminate)) as [[C _]|[_ ->]].
  - right. split; auto. apply noHeader_col.
  - right. split; auto. apply noHeader_rows; auto.
  - discriminate.
  - cbn [rbind Nat.eqb skipn]. rewrite settle_id by auto. unfold drop1. rewrite (map_ext _ (fun x => x)) by reflexivity. rewrite map_id. reflexivity.
Qed.
Lemma used_all names keys order i : UsedInOrder names keys order -> i < List.length keys -> exists a, nth_error order i = Some a /\ a < List.length keys.
Proof.
  intros [P _] L. pose proof (Permutation_length P) as Lo. rewrite seq_length in Lo. destruct (nth_error_is_some order (i:=i)) as [a E]; [lia|]. exists a. split; auto.
  apply nth_error_In in E. apply (Permutation_in _ P) in E. apply in_seq in E. lia.
Qed.
Lemma used_incl {A} names keys order (data ds : list A) : UsedInOrder names keys order -> List.length data = List.length keys ->
  (forall i, nth_error ds i = match nth_error order i with Some a => nth_error data a | None => None end) ->
  forall x, In x ds <-> In x data.
Proof.
  intros [P _] L R x. split; intros I; apply In_nth_error in I as [i E].
  - rewrite R in E. destruct (nth_error order i); [|discriminate]. eapply nth_error_In; eauto.
  - assert (I : In i order). { apply (Permutation_in _ (Permutation_sym P)). apply in_seq. apply nth_error_lt in E. lia. }
    apply In_nth_error in I as [k K]. apply (nth_error_In _ k). rewrite R, K. exact E.
Qed.
Lemma dict_rows_main d pn fn treat repl w :
  d <> [] -> NoDup (map fst d) -> notDict pn -> notDict fn -> NoHeaderRow fn (map snd d) -> 0 < w ->
  (exists s vs, In (s, vs) d /\ List.length vs = w) -> (forall s vs, In (s, vs) d -> vs <> []) ->
  let keys := map fst d in let n := List.length d in
  let good := KeysFit pn keys /\ (forall s vs, In (s, vs) d -> List.length vs = w) /\ NamesFit (explicitNames fn w) w in
  match initData (RDictRows d) pn fn CNone None None treat repl true with
  | Ok (r, lo) => lo = [] /\ good /\ exists order, UsedInOrder pn keys order /\
      Made treat repl n w (keyNames pn keys) (explicitNames fn w)
        (fun i j => match nth_error order i with Some a => valueAt (map snd d) a j | None => None end) r
  | Err e => ~ good /\ (e = InvalidArgumentValue \/ (e = TypeErr /\ exists l, pn = NmList l /\ In None l))
  end.
Proof.
  intros Nd ND Dp Df NH W0 [s0 [vs0 [I0 L0]]] Ne keys n good. rewrite initData_plain. cbn [extractNames].
  assert (E : extractDictRows strOf pn fn d = (q <- dictNames pn keys (map snd d) ;; let '(p, m) := q in if isTrue fn then Err InvalidArgumentValue else settleAll strOf (asArg p) fn (SRows m))) by (destruct d; [congruence|reflexivity]).
  rewrite E. clear E. rewrite (noHeader_true fn _ NH).
  pose proof (dictNames_spec pn keys (map snd d) Dp ND) as DN. specialize (DN ltac:(unfold keys; rewrite !map_length; reflexivity)).
  destruct (dictNames pn keys (map snd d)) as [[g ds]|e]; cbn [rbind].
  2:{ destruct DN as [Nk He]. split; auto. intros [C _]. auto. }
  destruct DN as [KF [Sg [order [UO [Ld Rd]]]]].
  assert (Lk : List.length keys = n) by (unfold keys, n; apply map_length).
  destruct (settled_shown pn keys g Dp Sg) as [Lg Shg]. rewrite Lk in Shg.
  assert (In_ds : forall x, In x ds <-> In x (map snd d)) by (eapply used_incl; eauto; rewrite map_length; lia).
  rewrite map_length in Ld. fold n in Ld.
  assert (Nds : ds <> []). { intros C. assert (H : In vs0 ds) by (apply In_ds; apply (in_map snd) in I0; exact I0). rewrite C in H. destruct H. }
  assert (NH' : NoHeaderRow fn ds) by (eapply noHeader_incl; [|exact NH]; intros; apply In_ds; auto).
  rewrite (settle_rows g fn ds Nds NH' Lg). cbn [rbind].
  destruct ds as [|r0 m0] eqn:Eds; [congruence|]. rewrite <- Eds in *.
  assert (R0 : r0 <> []). { assert (H : In r0 (map snd d)) by (apply In_ds; rewrite Eds; left; auto). apply in_map_iff in H as [[s vs] [<- H]]. eapply Ne; eauto. }
  destruct (settle_noHeader fn (map snd d) w Df NH) as [Lf Shf].
  pose proof (build_rows strOf junk treat repl ds g (settle fn None) r0 m0 Eds R0 Lg Lf) as B. cbv zeta in B.
  assert (Iff : (forall x, In x ds -> List.length x = List.length r0) <-> (forall s vs, In (s, vs) d -> List.length vs = w)).
  { split.
    - intros H s vs I. assert (H1 : In vs ds) by (apply In_ds; apply (in_map snd) in I; exact I). assert (H2 : In vs0 ds) by (apply In_ds; apply (in_map snd) in I0; exact I0).
      rewrite (H vs H1), <- (H vs0 H2). exact L0.
    - intros H. assert (H' : forall x, In x ds -> List.length x = w) by (intros x I; apply In_ds in I; apply in_map_iff in I as [[s vs] [<- I]]; eapply H; eauto).
      intros x I. rewrite (H' x I), (H' r0); auto. rewrite Eds; left; auto. }
  assert (R0w : (forall s vs, In (s, vs) d -> List.length vs = w) -> List.length r0 = w).
  { intros H. assert (J : In r0 (map snd d)) by (apply In_ds; rewrite Eds; left; auto). apply in_map_iff in J as [[s vs] [<- J]]. eapply H; eauto. }
  rewrite Ld, Shg in B.
  assert (KNfit : NamesFit (keyNames pn keys) n).
  { split; [|].
    - unfold keyNames. destruct pn as [| |[|]|l|dd]; try (rewrite ?map_length, ?repeat_length; auto). cbn in KF. apply Permutation_length in KF. rewrite map_length in KF. lia.
    - intros i j s. assert (NS : NoDup (map Some keys)) by (apply FinFun.Injective_map_NoDup; auto; intros x y C; congruence).
      unfold keyNames. destruct pn as [| |[|]|l|dd]; try (intros A B0; eapply NoDup_nth_error_inj; eauto; fail); try (intros A; apply nth_error_In, repeat_spec in A; discriminate).
      intros A B0. cbn in KF. apply Permutation_sym in KF. apply (Permutation_NoDup KF) in NS. eapply NoDup_nth_error_inj; eauto. }
  destruct (build junk treat repl _) as [r|e]; cbn [rmap rbind].
  - destruct B as [[G0 [G2 G3]] M]. pose proof (proj1 Iff G0) as G1. rewrite (R0w G1), Shf in *. split; auto. split; [split; auto|]. exists order. split; auto.
    destruct M as [M1 [M2 [M3 [M4 [M5 M6]]]]]. repeat (split; auto). intros i j Hi Hj. destruct (M6 i j Hi Hj) as [v [x [V R]]]. exists v, x. split; auto.
    unfold valueAt in *. rewrite Rd in V. destruct (nth_error order i); auto.
  - destruct B as [Ng ->]. split; auto. intros [_ [G1 G3]]. apply Ng. rewrite (R0w G1), Shf. split; [|split]; auto. rewrite <- (R0w G1). apply (proj2 Iff); auto.
Qed.
Lemma dict_vals_main d pn fn treat repl :
  d <> [] -> NoDup (map fst d) -> notDict pn ->
  let keys := map fst d in let n := List.length d in
  match initData (RDictVals d) pn fn CNone None None treat repl true with
  | Ok (r, lo) => lo = [] /\ KeysFit pn keys /\ exists order, UsedInOrder pn keys order /\
      Made treat repl n 1 (keyNames pn keys) [None] (fun i _ => match nth_error order i with Some a => nth_error (map snd d) a | None => None end) r
  | Err e => ~ KeysFit pn keys /\ (e = InvalidArgumentValue \/ (e = TypeErr /\ exists l, pn = NmList l /\ In None l))
  end.
Proof.
  intros Nd ND Dp keys n. rewrite initData_plain. cbn [extractNames].
  assert (E : extractDictVals pn fn d = (q <- dictNames pn keys (map snd d) ;; let '(p, l) := q in Ok (SRows (map (fun v => [v]) l), p, GNone))) by (destruct d; [congruence|reflexivity]).
  rewrite E. clear E.
  pose proof (dictNames_spec pn keys (map snd d) Dp ND) as DN. specialize (DN ltac:(unfold keys; rewrite !map_length; reflexivity)).
  destruct (dictNames pn keys (map snd d)) as [[g ds]|e]; cbn [rbind]; [|exact DN].
  destruct DN as [KF [Sg [order [UO [Ld Rd]]]]].
  assert (Lk : List.length keys = n) by (unfold keys, n; apply map_length).
  destruct (settled_shown pn keys g Dp Sg) as [Lg Shg]. rewrite Lk in Shg. rewrite map_length in Ld. fold n in Ld.
  destruct ds as [|v0 ds'] eqn:Eds. { exfalso. cbn in Ld. destruct d; [congruence|discriminate]. }
  rewrite <- Eds in *.
  pose proof (build_rows strOf junk treat repl (map (fun v => [v]) ds) g GNone [v0] (map (fun v => [v]) ds')) as B.
  specialize (B ltac:(rewrite Eds; reflexivity) ltac:(discriminate) Lg Logic.I). cbv zeta in B. rewrite map_length, Ld, Shg in B. cbn [List.length shown repeat] in B.
  assert (KNfit : NamesFit (keyNames pn keys) n).
  { split; [|].
    - unfold keyNames. destruct pn as [| |[|]|l|dd]; try (rewrite ?map_length, ?repeat_length; auto). cbn in KF. apply Permutation_length in KF. rewrite map_length in KF. lia.
    - intros i j s. assert (NS : NoDup (map Some keys)) by (apply FinFun.Injective_map_NoDup; auto; intros x y C; congruence).
      unfold keyNames. destruct pn as [| |[|]|l|dd]; try (intros A B0; eapply NoDup_nth_error_inj; eauto; fail); try (intros A; apply nth_error_In, repeat_spec in A; discriminate).
      intros A B0. cbn in KF. apply Permutation_sym in KF. apply (Permutation_NoDup KF) in NS. eapply NoDup_nth_error_inj; eauto. }
  destruct (build junk treat repl _) as [r|e]; cbn [rmap rbind].
  - destruct B as [_ [M1 [M2 [M3 [M4 [M5 M6]]]]]]. split; auto. split; auto. exists order. split; auto. repeat (split; auto).
    intros i j Hi Hj. destruct (M6 i j Hi Hj) as [v [x [V R]]]. exists v, x. split; auto. unfold valueAt in V. rewrite nth_error_map_eq, Rd in V.
    destruct (nth_error order i); [|discriminate]. destruct (nth_error (map snd d) n0); [|discriminate]. cbn in V. assert (j = 0) by lia. subst j. exact V.
  - destruct B as [Ng _]. exfalso. apply Ng. split; [|split; auto].
    + intros x I. apply in_map_iff in I as [y [<- _]]. reflexivity.
    + split; auto. apply (repeat_None_distinct 1).
Qed.

(** *** lists of dicts *)
Lemma keyNames_fit names keys : NoDup keys -> KeysFit names keys -> NamesFit (keyNames names keys) (List.length keys).
Proof.
  intros ND KF. split.
  - unfold keyNames. destruct names as [| |[|]|l|dd]; try (rewrite ?map_length, ?repeat_length; auto). cbn in KF. apply Permutation_length in KF. rewrite map_length in KF. lia.
  - intros i j s. assert (NS : NoDup (map Some keys)) by (apply FinFun.Injective_map_NoDup; auto; intros x y C; congruence).
    unfold keyNames. destruct names as [| |[|]|l|dd]; try (intros A B0; eapply NoDup_nth_error_inj; eauto; fail); try (intros A; apply nth_error_In, repeat_spec in A; discriminate).
    intros A B0. cbn in KF. apply Permutation_sym in KF. apply (Permutation_NoDup KF) in NS. eapply NoDup_nth_error_inj; eauto.
Qed.
Lemma sameKeys_spec a b : sameKeys a b = true <-> forall s, In s a <-> In s b.
Proof.
  unfold sameKeys. rewrite Bool.andb_true_iff, !forallb_forall. split.
  - intros [A B] s. split; intros I; apply mem_In; auto.
  - intros H. split; intros x I; apply mem_In; apply H; auto.
Qed.
Lemma ordered_keys names keys order : UsedInOrder names keys order -> exists ks,
  map Some ks = map (nth_error keys) order /\ Permutation ks keys /\ (match names with NmList l => map Some ks = l | _ => ks = keys end).
Proof.
  intros [P H]. exists (map (fun a => nth a keys "") order).
  assert (E : map Some (map (fun a => nth a keys "") order) = map (nth_error keys) order).
  { rewrite map_map. apply map_ext_in. intros a I. apply (Permutation_in _ P) in I. apply in_seq in I. symmetry. apply nth_error_nth'. lia. }
  assert (K : map (fun a => nth a keys "") (seq 0 (List.length keys)) = keys).
  { apply nth_error_ext. intros i. rewrite nth_error_map_eq, nth_error_seq. destruct (Nat.ltb_spec i (List.length keys)); cbn.
    - symmetry. apply nth_error_nth'. lia.
    - symmetry. apply nth_error_None. lia. }
  split; auto. split.
  - apply (Permutation_trans (Permutation_map (fun a => nth a keys "") P)). rewrite K. apply Permutation_refl.
  - destruct names as [| |[|]|l|dd]; try (rewrite H; exact K). rewrite E. exact H.
Qed.
Definition under (ks : list string) (row : list (string * pval)) : list pval := map (fun s => match dget s row with Some v => v | None => PNone end) ks.
Lemma dicts_main first rest pn fn treat repl :
  map fst first <> [] -> NoDup (map fst first) -> notDict pn -> notDict fn -> pn <> NmBool true ->
  let keys := map fst first in let n := S (List.length rest) in let k := List.length keys in
  let good := KeysFit fn keys /\ (forall row, In row rest -> forall s, In s (map fst row) <-> In s keys) /\ NamesFit (explicitNames pn n) n in
  match initData (RDicts (first :: rest)) pn fn CNone None None treat repl true with
  | Ok (r, lo) => lo = [] /\ good /\ exists ks, Permutation ks keys /\ (match fn with NmList l => map Some ks = l | _ => ks = keys end) /\
      Made treat repl n k (explicitNames pn n) (keyNames fn keys)
        (fun i j => match nth_error (first :: rest) i, nth_error ks j with Some row, Some s => dget s row | _, _ => None end) r
  | Err e => ~ good /\ (e = InvalidArgumentValue \/ (e = TypeErr /\ exists l, fn = NmList l /\ In None l))
  end.
Proof.
  intros Nk ND Dp Df P1 keys n k good. rewrite initData_plain. cbn [extractNames]. unfold extractDicts.
  assert (Pt : isTrue pn = false) by (destruct pn as [| |[|]|l|d]; auto; congruence). rewrite Pt. fold keys.
  assert (Ek : exists k0 ks0, keys = k0 :: ks0) by (unfold keys; destruct (map fst first); [congruence|eauto]). destruct Ek as [k0 [ks0 Ek]].
  assert (NoK : (match keys with [] => true | _ => false end) = false) by (rewrite Ek; reflexivity). cbv zeta. rewrite NoK. cbn [andb]. clear NoK.
  pose proof (dictNames_spec fn keys (map snd first) Df) as DN. specialize (DN ND ltac:(unfold keys; rewrite !map_length; reflexivity)).
  destruct (dictNames fn keys (map snd first)) as [[g ds]|e]; cbn [rbind].
  2:{ destruct DN as [NK He]. split; auto. intros [C _]. auto. }
  destruct DN as [KF [Sg [order [UO [Ld Rd]]]]]. destruct (ordered_keys _ _ _ UO) as [ks [Eks [Pks Hks]]].
  assert (Eft : (match g with GList l => l | _ => map Some keys end) = map Some ks).
  { destruct fn as [| |[|]|l|d]; try contradiction; cbn in Sg; subst g; rewrite ?Hks; auto. }
  rewrite Eft. clear Eft.
  assert (Lks : List.length ks = k) by (unfold k; apply Permutation_length; auto).
  assert (Efirst : ds = under ks first).
  { apply nth_error_ext. intros i. rewrite Rd. unfold under. rewrite nth_error_map_eq.
    pose proof (f_equal (fun l => nth_error l i) Eks) as Q. cbn beta in Q. rewrite !nth_error_map_eq in Q.
    destruct (nth_error order i) as [a|]; cbn [option_map] in Q; [|destruct (nth_error ks i); [discriminate|reflexivity]].
    destruct (nth_error ks i) as [s|]; [|discriminate]. cbn [option_map] in *. injection Q as Q. symmetry in Q. unfold keys in Q. rewrite nth_error_map_eq in Q.
    destruct (nth_error first a) as [[s' v]|] eqn:F; [|discriminate]. cbn in Q. injection Q as ->. rewrite nth_error_map_eq, F. cbn.
    rewrite (In_dget s v (d:=first) ND (nth_error_In _ _ F)). reflexivity. }
  set (step := fun row : list (string * pval) => if negb (sameKeys (map fst row) keys) then Err InvalidArgumentValue else rmapM (fun n0 : option string => match n0 with Some s => match dget s row with Some v => Ok v | None => Err KeyErr end | None => Err KeyErr end) (map Some ks)).
  assert (Step : forall row, (forall s, In s (map fst row) <-> In s keys) -> step row = Ok (under ks row) /\ forall s, In s ks -> exists v, dget s row = Some v).
  { intros row H. assert (D : forall s, In s ks -> exists v, dget s row = Some v).
    { intros s I. apply (Permutation_in _ Pks), H in I. destruct (dget s row) eqn:G; eauto. apply dget_None in G. contradiction. }
    split; auto. unfold step. rewrite (proj2 (sameKeys_spec _ _) H). cbn [negb]. unfold under.
    clear - D. induction ks as [|s ks IH]; [reflexivity|]. cbn [map rmapM]. destruct (D s (or_introl eq_refl)) as [v ->]. cbn [rbind]. rewrite IH by (intros; apply D; right; auto). reflexivity. }
  assert (Bad : forall row, ~ (forall s, In s (map fst row) <-> In s keys) -> step row = Err InvalidArgumentValue).
  { intros row H. unfold step. destruct (sameKeys (map fst row) keys) eqn:S1; [|reflexivity]. destruct (H (proj1 (sameKeys_spec _ _) S1)). }
  assert (Dec : forall rs, ((forall row, In row rs -> forall s, In s (map fst row) <-> In s keys) /\ rmapM step rs = Ok (map (under ks) rs)) \/
                (~ (forall row, In row rs -> forall s, In s (map fst row) <-> In s keys) /\ rmapM step rs = Err InvalidArgumentValue)).
  { induction rs as [|row rs IH]; [left; split; [intros ? []|reflexivity]|]. cbn [rmapM].
    destruct (sameKeys (map fst row) keys) eqn:S1.
    - pose proof (proj1 (sameKeys_spec _ _) S1) as S2. destruct (Step row S2) as [-> _]. cbn [rbind]. destruct IH as [[A ->]|[A ->]]; cbn [rbind].
      + left. split; auto. intros x [<-|I]; auto.
      + right. split; auto. intros C. apply A. intros x I. apply C. right; auto.
    - right. assert (NS : ~ (forall s, In s (map fst row) <-> In s keys)) by (intros C; pose proof (proj2 (sameKeys_spec _ _) C); congruence).
      rewrite (Bad row NS). split; auto. intros C. apply NS. apply C. left; auto. }
  destruct (Dec rest) as [[A Er]|[A Er]]; rewrite Er; cbn [rbind].
  2:{ split; auto. intros [_ [C _]]. auto. }
  set (p := match pn with NmList l => GList l | NmDict d => GDict d | _ => GNone end).
  assert (Sp : listed p /\ shown p n = explicitNames pn n) by (unfold p; destruct pn as [| |[|]|l|d]; try contradiction; cbn; auto).
  destruct Sp as [Lp Sp].
  destruct (settled_shown fn keys g Df Sg) as [Lg Shg]. fold k in Shg.
  assert (Nds : ds <> []). { rewrite Efirst. unfold under. destruct ks; [|discriminate]. cbn in Lks. unfold k in Lks. rewrite Ek in Lks. discriminate. }
  pose proof (build_rows strOf junk treat repl (ds :: map (under ks) rest) p g ds (map (under ks) rest) eq_refl Nds Lp Lg) as B. cbv zeta in B.
  cbn [List.length] in B. rewrite map_length in B. fold n in B. rewrite Ld in B. replace (List.length (map snd first)) with k in B by (unfold k, keys; rewrite !map_length; reflexivity).
  rewrite Sp, Shg in B.
  assert (Rect : forall x, In x (ds :: map (under ks) rest) -> List.length x = k).
  { intros x [<-|I]; [rewrite Efirst; unfold under; rewrite map_length; auto|]. apply in_map_iff in I as [row [<- _]]. unfold under. rewrite map_length. auto. }
  destruct (build junk treat repl _) as [r|e]; cbn [rmap rbind].
  - destruct B as [[G1 [G2 G3]] [M1 [M2 [M3 [M4 [M5 M6]]]]]]. split; auto. split; [split; auto|]. exists ks. split; auto. split; auto. repeat (split; auto).
    intros i j Hi Hj. destruct (M6 i j Hi Hj) as [v [x [V R]]]. exists v, x. split; auto.
    assert (Er0 : nth_error (ds :: map (under ks) rest) i = option_map (under ks) (nth_error (first :: rest) i)) by (rewrite Efirst; destruct i; [reflexivity|]; cbn [nth_error]; apply nth_error_map_eq).
    unfold valueAt in V. rewrite Er0 in V. destruct (nth_error (first :: rest) i) as [row|] eqn:Row; [|discriminate]. cbn [option_map] in V. unfold under in V. rewrite nth_error_map_eq in V.
    destruct (nth_error ks j) as [s|] eqn:Ks; [|discriminate]. cbn in V.
    assert (D : exists v, dget s row = Some v).
    { assert (Ir : row = first \/ In row rest) by (apply nth_error_In in Row; destruct Row; auto). 
      assert (Kr : forall s, In s (map fst row) <-> In s keys) by (destruct Ir as [->|Ir]; [intros; reflexivity|apply A; auto]). apply (proj2 (Step row Kr)). eapply nth_error_In; eauto. }
    destruct D as [v' D]. rewrite D in *. exact V.
  - destruct B as [Ng ->]. split; auto. intros [_ [_ G]]. apply Ng. split; [exact Rect|]. split; auto. apply keyNames_fit; auto.
Qed.
End Raw.
