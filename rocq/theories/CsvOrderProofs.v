(** Proofs: the types of the columns and the order of the lines (C27). *)
From Coq Require Import Permutation.
From Verif Require Import Base CsvModel CsvSpec CsvTypesProofs CsvLoadProofs CsvMainProofs CsvRefuseProofs CsvNamesProofs.
Open Scope string_scope.
Open Scope list_scope.
Open Scope nat_scope.

Lemma filter_all {A} (f : A -> bool) l : (forall x, In x l -> f x = true) -> filter f l = l.
Proof. induction l as [|a l IH]; intros H; [reflexivity|]. cbn [filter]. rewrite (H a (or_introl eq_refl)), IH; [reflexivity|intros; apply H; right; assumption]. Qed.
Lemma keptRows_all body : keptRows body (seq 0 (List.length body)) = body.
Proof.
  unfold keptRows. rewrite filter_all; [apply map_nth_seq|].
  intros x X. apply existsb_exists. exists x. split; [exact X|apply Nat.eqb_refl].
Qed.
Lemma nth_error_reorder {A} (l : list A) p d a : nth_error (reorder l p d) a = option_map (fun i => nth i l d) (nth_error p a).
Proof. unfold reorder. apply nth_error_map. Qed.
Section O.
Variables (isInt isFloat : string -> bool).
Hypothesis O : ParseOracle isInt isFloat.
Lemma filled_kind eim body n j t : (forall r, In r body -> List.length r = n) -> j < n -> body <> [] -> FirstFilled body -> ColLoaded isInt isFloat eim (columnOf body j) t -> ColKind isInt isFloat (columnOf body j) t.
Proof.
  intros HB J NE FFd C. destruct body as [|r0 body]; [congruence|]. assert (V : nth j r0 "" <> "").
  { apply (FFd r0 _ eq_refl). apply nth_In. rewrite (HB r0 (or_introl eq_refl)). exact J. }
  destruct C as [v t H1 H2 K|H|v H1 H2 H3]; [exact K| |].
  - exfalso. apply V. apply H. left. reflexivity.
  - exfalso. cbn in H1. injection H1 as E. exact (V E).
Qed.
Lemma not_trailing eim body n P fa : (forall r, In r body -> List.length r = n) -> FirstFilled body -> P = seq 0 (List.length body) -> ~ Trailing eim body P fa n.
Proof.
  intros HB FFd -> [_ [Np [NE [H _]]]]. rewrite keptRows_all in *. destruct body as [|r0 body]; [congruence|].
  apply (FFd r0 (nth (n - 1) r0 "") eq_refl); [apply nth_In; rewrite (HB r0 (or_introl eq_refl)); lia|]. apply H. left. reflexivity.
Qed.
Lemma DataIs_reorder eim body n p data data' : 0 < n -> (forall r, In r body -> List.length r = n) -> Permutation p (seq 0 (List.length body)) ->
  FirstFilled body -> FirstFilled (reorder body p []) ->
  DataIs isInt isFloat eim body (seq 0 (List.length body)) (seq 0 n) data ->
  DataIs isInt isFloat eim (reorder body p []) (seq 0 (List.length p)) (seq 0 n) data' ->
  data' = reorder data p [].
Proof.
  intros Np HB PP F1 F2 [L1 [W1 D1]] [L2 [W2 D2]]. set (body' := reorder body p []) in *.
  assert (LB : List.length body' = List.length p) by (unfold body', reorder; apply map_length).
  assert (LP : List.length p = List.length body) by (rewrite (Permutation_length PP), seq_length; reflexivity).
  assert (PR : forall i, In i p -> i < List.length body) by (intros i I; apply (Permutation_in _ PP), in_seq in I; lia).
  assert (IB : forall r, In r body' -> In r body).
  { intros r R. apply in_map_iff in R. destruct R as [i [<- I]]. apply nth_In. auto. }
  assert (BI : forall r, In r body -> In r body').
  { intros r R. apply In_nth with (d := []) in R. destruct R as [i [Li <-]]. unfold body', reorder. apply in_map_iff. exists i. split; [reflexivity|].
    apply (Permutation_in _ (Permutation_sym PP)), in_seq. lia. }
  rewrite seq_length in L1, L2.
  apply nth_ext with (d := []) (d' := []); [unfold reorder; rewrite map_length; exact L2|]. intros a A. rewrite L2 in A.
  destruct (nth_error p a) as [i|] eqn:PA; [|apply nth_error_None in PA; lia].
  assert (I : In i p) by (eapply nth_error_In; exact PA).
  rewrite (nth_nth_error (reorder data p []) a [] (nth i data [])) by (rewrite nth_error_reorder, PA; reflexivity).
  assert (Ld : i < List.length data) by (rewrite L1; auto).
  assert (WA : List.length (nth a data' []) = n) by (rewrite (W2 (nth a data' [])), seq_length; [reflexivity|apply nth_In; lia]).
  assert (WB : List.length (nth i data []) = n) by (rewrite (W1 (nth i data [])), seq_length; [reflexivity|apply nth_In; lia]).
  apply nth_ext with (d := LNaN) (d' := LNaN); [congruence|]. intros b B. rewrite WA in B.
  assert (Sb : nth_error (seq 0 n) b = Some b) by (rewrite nth_error_nth' with (d := 0) by (rewrite seq_length; exact B); rewrite seq_nth by exact B; reflexivity).
  destruct (D1 b b Sb) as [t [C1 E1]]. destruct (D2 b b Sb) as [t' [C2 E2]]. rewrite keptRows_all in C1. rewrite <- LB in C2. rewrite keptRows_all in C2.
  assert (K1 : ColKind isInt isFloat (columnOf body b) t).
  { apply (filled_kind eim body n b t HB B); [|exact F1|exact C1]. intros X. rewrite X in LP. cbn in LP. lia. }
  assert (K2 : ColKind isInt isFloat (columnOf body' b) t').
  { apply (filled_kind eim body' n b t'); [intros r R; apply HB, IB, R|exact B| |exact F2|exact C2]. intros X. rewrite X in LB. cbn in LB. lia. }
  assert (t' = t) as ->.
  { apply (ColKind_fun isInt isFloat O (columnOf body b)); [|exact K1]. apply (ColKind_set isInt isFloat (columnOf body' b)); [|exact K2].
    intros v. unfold columnOf. rewrite !in_map_iff. split; intros [r [E R]]; exists r; auto. }
  assert (X2 := E2 a a ltac:(rewrite nth_error_nth' with (d := 0) by (rewrite seq_length; exact A); rewrite seq_nth by exact A; reflexivity)).
  assert (Li : i < List.length body) by auto.
  assert (X1 := E1 i i ltac:(rewrite nth_error_nth' with (d := 0) by (rewrite seq_length; exact Li); rewrite seq_nth by exact Li; reflexivity)).
  rewrite (nth_nth_error _ _ LNaN _ X2), (nth_nth_error _ _ LNaN _ X1). unfold body'.
  rewrite (nth_nth_error (reorder body p []) a [] (nth i body [])) by (rewrite nth_error_reorder, PA; reflexivity). reflexivity.
Qed.
Lemma kept_all_ok n a : (match a with AKept _ => False | _ => True end) -> Kept n a None (seq 0 n).
Proof. apply kept_all. Qed.
Lemma row_order pn fn raw raw' pa fa rows body n p eim :
  pn = NFalse \/ pn = NTrue -> ReadsFts pn fn raw fa rows -> ReadsFts pn fn raw' fa (reorder rows p []) -> ReadsPts pn rows pa body ->
  (forall r, In r body -> List.length r = n) -> 0 < n -> Fits fa n -> (match fa with AKept _ => False | _ => True end) ->
  Permutation p (seq 0 (List.length body)) -> FirstFilled body -> FirstFilled (reorder body p []) ->
  exists data names fnames,
    loadWith isInt isFloat raw pn fn NFalse false None None eim = Ok (data, names, fnames) /\
    loadWith isInt isFloat raw' pn fn NFalse false None None eim = Ok (reorder data p [], reorderNm names p, fnames).
Proof.
  intros PN RF RF' RP HB Np FF FK PP F1 F2.
  assert (LP : List.length p = List.length body) by (rewrite (Permutation_length PP), seq_length; reflexivity).
  assert (PR : forall i, In i p -> i < List.length body) by (intros i I; apply (Permutation_in _ PP), in_seq in I; lia).
  assert (HB' : forall r, In r (reorder body p []) -> List.length r = n).
  { intros r R. apply in_map_iff in R. destruct R as [i [<- I]]. apply HB, nth_In. auto. }
  assert (KPa : match pa with AKept _ => False | AGiven _ => False | _ => True end).
  { destruct RP; try exact I; destruct PN; discriminate. }
  assert (FP : Fits pa (List.length body)).
  { destruct RP as [|rows names body E L| |]; cbn; try exact I; [rewrite map_length; exact L|destruct KPa]. }
  set (pa' := match pa with AFile l => AFile (reorder l p None) | x => x end).
  assert (RP' : ReadsPts pn (reorder rows p []) pa' (reorder body p [])).
  { destruct RP as [rows|rows names body E L|l rows NE|l rows NE]; [constructor| |destruct KPa|destruct KPa]. subst pa'. cbn [namesIn].
    replace (reorder (map Some names) p None) with (map Some (reorder names p "")).
    2:{ unfold reorder. rewrite map_map. apply map_ext_in. intros i I. assert (Q := nth_map_in Some names i "" None). rewrite Q; [reflexivity|]. rewrite L. auto. }
    constructor; [|unfold reorder; rewrite !map_length; reflexivity]. subst rows. unfold reorder.
    assert (H : forall q, (forall i, In i q -> i < List.length body) -> map (fun i => nth i (map (fun c => fst c :: snd c) (combine names body)) []) q =
              map (fun c => fst c :: snd c) (combine (map (fun i => nth i names "") q) (map (fun i => nth i body []) q))).
    { induction q as [|i q IH]; intros Q; [reflexivity|]. cbn [map combine fst snd]. rewrite IH by (intros; apply Q; right; assumption). f_equal.
      rewrite nth_map_in with (d := ("", [])) by (rewrite combine_length, L, Nat.min_id; apply Q; left; reflexivity). rewrite combine_nth by exact L. reflexivity. }
    apply H. exact PR. }
  assert (KA : Kept (List.length body) pa None (seq 0 (List.length body))) by (constructor; destruct pa; auto).
  assert (FP' : Fits pa' (List.length (reorder body p []))).
  { subst pa'. destruct pa; cbn in *; try exact I; [unfold reorder; rewrite !map_length; reflexivity|destruct KPa]. }
  assert (KA' : Kept (List.length (reorder body p [])) pa' None (seq 0 (List.length (reorder body p [])))) by (constructor; subst pa'; destruct pa; auto).
  assert (KF : Kept n fa None (seq 0 n)) by (constructor; exact FK).
  destruct (load_selects isInt isFloat O raw pn fn None None eim pa fa rows body n _ _ RF RP HB Np FF FP KA (fun x => x) KF I) as [data [E1 D1]].
  { right. apply not_trailing; auto. }
  destruct (load_selects isInt isFloat O raw' pn fn None None eim pa' fa (reorder rows p []) (reorder body p []) n _ _ RF' RP' HB' Np FF FP' KA' (fun x => x) KF I) as [data' [E2 D2]].
  { right. apply not_trailing; auto. }
  exists data, (keptNames pa (seq 0 (List.length body))), (keptNames fa (seq 0 n)). split; [exact E1|]. rewrite E2.
  assert (LR : List.length (reorder body p []) = List.length p) by (unfold reorder; apply map_length).
  rewrite LR in *. rewrite (DataIs_reorder eim body n p data data' Np HB PP F1 F2 D1 D2).
  replace (keptNames pa' (seq 0 (List.length p))) with (reorderNm (keptNames pa (seq 0 (List.length body))) p); [reflexivity|].
  subst pa'. destruct pa as [|l|l|l]; cbn [keptNames reorderNm]; try reflexivity; [|destruct KPa|destruct KPa]. f_equal.
  cbn in FP. rewrite <- FP at 1. rewrite map_nth_seq. replace (List.length p) with (List.length (reorder l p None)) by (unfold reorder; apply map_length). rewrite map_nth_seq. reflexivity.
Qed.
(** with the names arguments of the user *)
Lemma Explicit_load raw pnArg fnArg pn fn ign keepP keepF eim : Explicit raw pnArg fnArg pn fn ->
  loadCsv isInt isFloat raw pnArg fnArg ign keepP keepF eim = loadWith isInt isFloat raw pn fn NFalse ign keepP keepF eim.
Proof.
  intros [a [b [rest [-> [NP [A [B C]]]]]]]. apply csv_explicit; try assumption; try (apply argNames_list; assumption).
  - intros ->. exact A.
  - intros ->. exact B.
Qed.
Lemma dict_as_list raw d l other ign keepP keepF eim : (forall k z, In (k, z) d -> (0 <= z < Z.of_nat (List.length d))%Z) -> NoDup (map snd d) -> DictList d l ->
  loadCsv isInt isFloat raw (NmDict d) other ign keepP keepF eim = loadCsv isInt isFloat raw (NmList l) other ign keepP keepF eim /\
  loadCsv isInt isFloat raw other (NmDict d) ign keepP keepF eim = loadCsv isInt isFloat raw other (NmList l) ign keepP keepF eim.
Proof.
  intros R ND [L G]. destruct (dict_names d R ND) as [l' [E [L' G']]]. assert (l' = l) as ->.
  { assert (PM : forall i, i < List.length d -> exists k, In (k, Z.of_nat i) d).
    { intros i Li. assert (IN : incl (map Z.of_nat (seq 0 (List.length d))) (map snd d)).
      { apply NoDup_length_incl; [exact ND|rewrite !map_length, seq_length; lia|]. intros z Z. apply in_map_iff in Z. destruct Z as [[k z'] [<- Z]]. cbn [snd].
        apply in_map_iff. exists (Z.to_nat z'). specialize (R k z' Z). split; [lia|apply in_seq; lia]. }
      assert (X : In (Z.of_nat i) (map snd d)) by (apply IN, in_map, in_seq; lia). apply in_map_iff in X. destruct X as [[k z] [E1 E2]]. cbn in E1. subst z. eauto. }
    apply nth_ext with (d := None) (d' := None); [congruence|]. intros i Li. rewrite L' in Li. destruct (PM i Li) as [k K].
    assert (Q1 := G' k _ K). destruct (G k _ K) as [_ Q2]. rewrite Nat2Z.id in *. rewrite (nth_nth_error _ _ None _ Q1), (nth_nth_error _ _ None _ Q2). reflexivity. }
  unfold loadCsv, checkNames. split.
  - destruct raw as [|a [|b raw]]; try (cbn [autoDetect]; reflexivity). destruct (zipFirst isInt isFloat 0 a b) as [[f s] poss].
    unfold autoDetect. destruct f as [|f0 ft]; [reflexivity|]. destruct s as [|s0 st]; [reflexivity|]. destruct other as [| | [|] | |]; cbn [isTrue isAuto orb andb]; try reflexivity; rewrite E; reflexivity.
  - destruct raw as [|a [|b raw]]; try (cbn [autoDetect]; reflexivity). destruct (zipFirst isInt isFloat 0 a b) as [[f s] poss].
    unfold autoDetect. destruct f as [|f0 ft]; [reflexivity|]. destruct s as [|s0 st]; [reflexivity|]. cbn [isTrue isAuto andb].
    destruct (if isAuto other then _ else _); destruct poss; cbn [rbind]; rewrite ?E; reflexivity.
Qed.
Lemma dict_refused raw d other ign keepP keepF eim : (forall k z, In (k, z) d -> (0 <= z < Z.of_nat (List.length d))%Z) -> ~ NoDup (map snd d) ->
  (exists a b rest, raw = a :: b :: rest /\ NoPossible a b) -> other <> NmBool false ->
  (forall d', other <> NmDict d') ->
  loadCsv isInt isFloat raw (NmDict d) other ign keepP keepF eim = Err InvalidArgumentValue /\
  loadCsv isInt isFloat raw other (NmDict d) ign keepP keepF eim = Err InvalidArgumentValue.
Proof.
  intros R ND [a [b [rest [-> NP]]]] OB OD. assert (E : namesDictToList (NmDict d) = Err InvalidArgumentValue).
  { cbn [namesDictToList]. rewrite (namesFill_dup (List.length d)); [reflexivity|apply repeat_length|exact R|left; exact ND]. }
  destruct (zip_first isInt isFloat a b NP) as [f0 [ft [s0 [st Z]]]]. unfold loadCsv, checkNames. rewrite Z. unfold autoDetect. split.
  - destruct other as [| | [|] | |]; cbn [isTrue isAuto orb andb]; try congruence; rewrite E; reflexivity.
  - cbn [namesDictToList] in E. cbn [isTrue isAuto andb]. destruct other as [| | [|] | |]; cbn [isTrue isAuto orb andb namesDictToList rbind]; try congruence; rewrite E; try reflexivity.
Qed.
(** ** ragged files *)
Definition lead (pn : nm) : nat := if isNTrue pn then 1 else 0.
Lemma step_width kF st i r st' : sTrack st = NFalse -> stepRow isInt isFloat None kF st i r = Ok st' ->
  exists w, List.length r = lead (sPn st) + w /\ sFirst st' = Some w /\ (sFirst st = None \/ sFirst st = Some w) /\ sPn st' = sPn st /\ sTrack st' = NFalse.
Proof.
  intros T. unfold stepRow. destruct (splitName None st i r) as [[name row]|] eqn:SN; cbn [rbind fst snd]; [|discriminate].
  assert (L : List.length r = lead (sPn st) + List.length row).
  { revert SN. unfold splitName, lead. rewrite T. cbn [truthyNm]. rewrite orb_false_r. destruct (sPn st) as [| |[|x l]]; cbn [isNTrue].
    - intros E; injection E as _ <-; reflexivity.
    - destruct r as [|c r]; [discriminate|]. intros E; injection E as _ <-. reflexivity.
    - intros E; injection E as _ <-; reflexivity.
    - destruct (kpLen None <? _); [destruct (nth_error _ i); [|discriminate]|]; intros E; injection E as _ <-; reflexivity. }
  unfold trackStep. rewrite T. cbn [truthyNm rbind fst snd]. destruct (rangeCheck kF st row); cbn [rbind]; [|discriminate].
  cbn [keptIdx andb]. destruct (negb _) eqn:NE; [discriminate|]. apply negb_false_iff, Nat.eqb_eq in NE.
  destruct (if sValid st then _ else _); cbn [rbind]; [|discriminate]. destruct (match kF with Some _ => _ | None => _ end); cbn [rbind]; [|discriminate].
  destruct (match sTypes st with Some _ => _ | None => _ end); cbn [rbind]; [|discriminate]. intros E; injection E as <-. cbn [sFirst sPn sTrack].
  exists (List.length row). split; [exact L|]. split; [rewrite NE; reflexivity|]. split; [|auto]. destruct (sFirst st); [right; congruence|left; reflexivity].
Qed.
Lemma loop_width kF : forall rows i st st', sTrack st = NFalse -> loadRows isInt isFloat None kF i rows st = Ok st' ->
  exists w, (forall r, In r rows -> List.length r = lead (sPn st) + w) /\ (rows = [] \/ sFirst st = None \/ sFirst st = Some w).
Proof.
  induction rows as [|r rows IH]; intros i st st' T; cbn [loadRows]; [intros _; exists 0; split; [intros r []|left; reflexivity]|].
  destruct (stepRow isInt isFloat None kF st i r) as [st1|] eqn:SR; cbn [rbind]; [|discriminate]. intros LR.
  destruct (step_width kF st i r st1 T SR) as [w [L [F1 [F0 [P1 T1]]]]]. destruct (IH (S i) st1 st' T1 LR) as [w' [A B]]. exists w. split; [|right; exact F0].
  intros x [<-|X]; [exact L|]. destruct B as [->|[B|B]]; [destruct X|congruence|]. assert (w' = w) by congruence. subst w'. rewrite <- P1. apply A, X.
Qed.
Lemma ragged raw pnArg fnArg pn fn ign keepF eim res : Explicit raw pnArg fnArg pn fn -> loadCsv isInt isFloat raw pnArg fnArg ign None keepF eim = Ok res ->
  forall r r', In r raw -> In r' raw -> List.length r = List.length r'.
Proof.
  intros EX. rewrite (Explicit_load _ _ _ _ _ _ _ _ _ EX). destruct EX as [a [b [rest [-> [[a0 [_ [A0 _]]] _]]]]].
  assert (NA : a <> []) by (destruct a; [discriminate|congruence]). unfold loadWith, headStep. destruct (isNTrue fn); cbn [rbind].
  - cbn [truthyNm]. rewrite orb_false_r. destruct (featStep _ _ _) as [[[kF fn1] valid]|]; cbn [rbind]; [|discriminate]. cbn [pointStep rbind]. cbv zeta.
    destruct (loadRows isInt isFloat None kF 0 (b :: rest) _) as [st|] eqn:LR; cbn [rbind]; [|discriminate]. intros _.
    apply loop_width in LR; [|reflexivity]; destruct LR as [w [A B]]. cbn [sPn sFirst] in A, B. destruct B as [B|[B|B]]; try discriminate.
    assert (LA : List.length a = lead pn + w).
    { injection B as B. unfold lead. clear -B NA. revert B. destruct (isNTrue pn); intros B; [|rewrite <- B, map_length; reflexivity]. destruct a as [|c a]; [congruence|]. cbn [map tl] in B. rewrite map_length in B. cbn. lia. }
    intros r r' R R'. assert (X : forall x, In x (a :: b :: rest) -> List.length x = lead pn + w) by (intros x [<-|X]; [exact LA|apply A, X]). rewrite !X by assumption. reflexivity.
  - destruct (featStep _ _ _) as [[[kF fn1] valid]|]; cbn [rbind]; [|discriminate]. cbn [pointStep rbind]. cbv zeta.
    destruct (loadRows isInt isFloat None kF 0 (a :: b :: rest) _) as [st|] eqn:LR; cbn [rbind]; [|discriminate]. intros _.
    apply loop_width in LR; [|reflexivity]; destruct LR as [w [A _]]. intros r r' R R'. rewrite (A r R), (A r' R'). reflexivity.
Qed.
End O.
