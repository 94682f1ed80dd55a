(** The names arguments (C25) and tracked point names (C26). *)
From Verif Require Import Base CsvModel CsvSpec CsvTypesProofs CsvLoadProofs CsvMainProofs CsvRefuseProofs.
Open Scope string_scope.
Open Scope list_scope.
Open Scope nat_scope.

(** ** a dict of names *)
Lemma namesFill_ok n : forall d ret, List.length ret = n -> (forall k z, In (k, z) d -> (0 <= z < Z.of_nat n)%Z) -> NoDup (map snd d) ->
  (forall k z, In (k, z) d -> nth_error ret (Z.to_nat z) = Some None) ->
  exists l, namesFill d ret = Ok l /\ List.length l = n /\ (forall k z, In (k, z) d -> nth_error l (Z.to_nat z) = Some (Some k)) /\
    (forall i, (forall k z, In (k, z) d -> Z.to_nat z <> i) -> nth_error l i = nth_error ret i).
Proof.
  induction d as [|[k z] d IH]; intros ret L B ND FR; cbn [namesFill].
  - exists ret. split; [reflexivity|]. split; [exact L|]. split; [intros k z []|reflexivity].
  - cbn [map snd] in ND. inversion ND as [|? ? NI ND']; subst. assert (Bz := B k z (or_introl eq_refl)). rewrite (proj2 (Z.ltb_ge z 0)) by lia. rewrite (proj2 (Z.ltb_ge z 0)) by lia.
    replace ((Z.of_nat (List.length ret) <=? z)%Z) with false by (symmetry; apply Z.leb_gt; lia). cbn [orb].
    rewrite (nth_nth_error _ _ None _ (FR k z (or_introl eq_refl))).
    assert (OTH : forall k' z', In (k', z') d -> Z.to_nat z <> Z.to_nat z').
    { intros k' z' I E. apply NI. assert (Bz' := B k' z' (or_intror I)). assert (z = z') by lia. subst z'. apply (in_map snd) in I. exact I. }
    destruct (IH (upd ret (Z.to_nat z) (Some k))) as [l [E [LL [S1 S2]]]].
    + apply upd_length.
    + intros k' z' I. apply (B k' z'). right. exact I.
    + exact ND'.
    + intros k' z' I. rewrite nth_error_upd_other by (eapply OTH; exact I). apply (FR k' z'). right. exact I.
    + exists l. split; [exact E|]. split; [exact LL|]. split.
      * intros k' z' [I|I]; [|apply S1, I]. injection I as <- <-. rewrite S2; [apply nth_error_upd_same; lia|]. intros k' z' I. apply not_eq_sym. eapply OTH, I.
      * intros i H. rewrite S2 by (intros k' z' I; apply (H k' z'); right; exact I). apply nth_error_upd_other. apply (H k z). left. reflexivity.
Qed.
Lemma dict_names d : (forall k z, In (k, z) d -> (0 <= z < Z.of_nat (List.length d))%Z) -> NoDup (map snd d) ->
  exists l, namesDictToList (NmDict d) = Ok (NL l) /\ List.length l = List.length d /\ forall k z, In (k, z) d -> nth_error l (Z.to_nat z) = Some (Some k).
Proof.
  intros B ND. cbn [namesDictToList]. destruct (namesFill_ok (List.length d) d (repeat None (List.length d))) as [l [E [L [S _]]]]; auto.
  - apply repeat_length.
  - intros k z I. apply nth_error_repeat. specialize (B k z I). lia.
  - exists l. rewrite E. auto.
Qed.
Lemma namesFill_dup n : forall d ret, List.length ret = n -> (forall k z, In (k, z) d -> (0 <= z < Z.of_nat n)%Z) ->
  (~ NoDup (map snd d) \/ exists k z s, In (k, z) d /\ nth_error ret (Z.to_nat z) = Some (Some s)) -> namesFill d ret = Err InvalidArgumentValue.
Proof.
  induction d as [|[k z] d IH]; intros ret L B H; cbn [namesFill].
  - exfalso. destruct H as [H|[k [z [s [[] _]]]]]. apply H. constructor.
  - assert (Bz := B k z (or_introl eq_refl)). rewrite (proj2 (Z.ltb_ge z 0)) by lia. rewrite (proj2 (Z.ltb_ge z 0)) by lia.
    replace ((Z.of_nat (List.length ret) <=? z)%Z) with false by (symmetry; apply Z.leb_gt; lia). cbn [orb].
    destruct (nth (Z.to_nat z) ret None) as [s|] eqn:N; [reflexivity|].
    assert (NN : nth_error ret (Z.to_nat z) = Some None) by (rewrite <- N; apply nth_error_nth'; lia).
    apply IH; [rewrite upd_length; exact L|intros k' z' I; apply (B k' z'); right; exact I|].
    destruct (in_dec Z.eq_dec z (map snd d)) as [I|I].
    + right. apply in_map_iff in I. destruct I as [[k' z'] [E I]]. cbn in E. subst z'. exists k', z, k. split; [exact I|]. apply nth_error_upd_same. lia.
    + destruct H as [H|[k' [z' [s [[X|X] Y]]]]].
      * left. intros ND. apply H. cbn [map snd]. constructor; assumption.
      * injection X as <- <-. congruence.
      * right. exists k', z', s. split; [exact X|]. rewrite nth_error_upd_other; [exact Y|]. intros E. assert (Bz' := B k' z' (or_intror X)). assert (z = z') by lia. subst z'. apply I. apply (in_map snd) in X. exact X.
Qed.

Section N.
Variables (isInt isFloat : string -> bool).
(** ** arguments that are not automatic *)
Lemma zip_first a b : NoPossible a b -> exists f0 ft s0 st, zipFirst isInt isFloat 0 a b = (f0 :: ft, s0 :: st, false).
Proof.
  intros [a0 [b0 [A [B H]]]]. destruct a as [|x a]; [discriminate|]. destruct b as [|y b]; [discriminate|]. cbn in A, B. injection A as ->. injection B as ->.
  assert (G : forall l1 l2 i, 0 < i -> exists f s, zipFirst isInt isFloat i l1 l2 = (f, s, false)).
  { induction l1 as [|u a' IH]; intros [|v b'] i Hi; cbn [zipFirst]; eauto. destruct (IH b' (S i) ltac:(lia)) as [f [s ->]].
    destruct (Nat.eqb_spec i 0); [lia|]. destruct (pvOf isInt isFloat u), (pvOf isInt isFloat v); cbn [orb]; eauto. }
  destruct (G a b 1 ltac:(lia)) as [f [s E]]. cbn [zipFirst]. rewrite E. unfold pvOf at 1. destruct (String.eqb_spec a0 "") as [->|NE].
  - rewrite (H eq_refl). cbn. eauto 6.
  - destruct (isInt a0 || isFloat a0); eauto 6.
Qed.
Lemma argNames_list n v : argNames n v -> namesDictToList n = Ok v.
Proof. destruct n as [| |[]| |]; cbn; intros H; try contradiction; subst; reflexivity. Qed.
Lemma csv_explicit a b rest pnArg fnArg pn fn ign keepP keepF eim :
  NoPossible a b -> pnArg <> NmAuto -> fnArg <> NmAuto -> namesDictToList pnArg = Ok pn -> namesDictToList fnArg = Ok fn ->
  (fnArg <> NmBool false \/ exists bb, pnArg = NmBool bb) ->
  loadCsv isInt isFloat (a :: b :: rest) pnArg fnArg ign keepP keepF eim = loadWith isInt isFloat (a :: b :: rest) pn fn NFalse ign keepP keepF eim.
Proof.
  intros NP A1 A2 Ep Ef C. destruct (zip_first a b NP) as [f0 [ft [s0 [st Z]]]]. unfold loadCsv, checkNames. rewrite Z.
  assert (D : exists pn' fn', autoDetect pnArg fnArg (Some (f0 :: ft)) (Some (s0 :: st)) = (pn', fn') /\ namesDictToList pn' = Ok pn /\ namesDictToList fn' = Ok fn).
  { unfold autoDetect. destruct fnArg as [| |[]|l|d]; try congruence.
    - exists pnArg, NmNone. destruct pnArg; try congruence; auto.
    - exists pnArg, (NmBool true). destruct pnArg; try congruence; auto.
    - destruct C as [C|[bb ->]]; [congruence|]. exists (NmBool bb), (NmBool false). cbn. destruct bb; auto.
    - exists pnArg, (NmList l). destruct pnArg; try congruence; auto.
    - exists pnArg, (NmDict d). destruct pnArg; try congruence; auto. }
  destruct D as [pn' [fn' [-> [E1 E2]]]]. rewrite E1. cbn [rbind]. rewrite E2. reflexivity.
Qed.
(** ** automatic names *)
Lemma zip_all : forall a b i, List.length a = List.length b -> (forall c, In c a -> c <> "") ->
  zipFirst isInt isFloat i a b = (map (pvOf isInt isFloat) a, map (pvOf isInt isFloat) b, false).
Proof.
  induction a as [|u a IH]; intros [|v b] i L H; cbn in L; try lia; [reflexivity|]. cbn [zipFirst map]. rewrite (IH b (S i)) by (auto; intros; apply H; right; assumption).
  assert (U : u <> "") by (apply H; left; reflexivity). unfold pvOf at 1 3. rewrite (proj2 (String.eqb_neq _ _) U). destruct (isInt u || isFloat u); reflexivity.
Qed.
Hypothesis O : ParseOracle isInt isFloat.
Lemma numeric_eq s : (isInt s || isFloat s)%bool = isFloat s.
Proof. destruct (isInt s) eqn:E; [|reflexivity]. apply (proj1 O) in E. rewrite E. reflexivity. Qed.
Lemma pvOf_text s : s <> "" -> isFloat s = false -> pvOf isInt isFloat s = PvText s.
Proof. intros N F. unfold pvOf. rewrite (proj2 (String.eqb_neq _ _) N), numeric_eq, F. reflexivity. Qed.
Lemma pvOf_num s : isFloat s = true -> pvOf isInt isFloat s = PvNum.
Proof. intros F. unfold pvOf. destruct (String.eqb_spec s "") as [->|N]; [destruct O as [_ [X _]]; congruence|]. rewrite numeric_eq, F. reflexivity. Qed.
Lemma isNumber_spec s : isNumber (pvOf isInt isFloat s) = true <-> isFloat s = true.
Proof. split; [|intros F; rewrite (pvOf_num s F); reflexivity]. unfold pvOf. destruct (s =? "")%string; [discriminate|]. rewrite numeric_eq. destruct (isFloat s); [reflexivity|discriminate]. Qed.
Lemma anyNum_spec l : existsb isNumber (map (pvOf isInt isFloat) l) = true <-> exists d, In d l /\ isFloat d = true.
Proof.
  rewrite existsb_exists. split.
  - intros [v [V N]]. apply in_map_iff in V. destruct V as [d [<- D]]. exists d. split; [exact D|]. apply isNumber_spec, N.
  - intros [d [D F]]. exists (pvOf isInt isFloat d). split; [apply in_map, D|apply isNumber_spec, F].
Qed.
Lemma allText_spec l : (forall c, In c l -> c <> "") ->
  (forallb isText (map (pvOf isInt isFloat) l) = true <-> forall c, In c l -> isFloat c = false).
Proof.
  intros NB. rewrite forallb_forall. split.
  - intros H c C. destruct (isFloat c) eqn:F; [|reflexivity]. specialize (H _ (in_map (pvOf isInt isFloat) _ _ C)). rewrite (pvOf_num c F) in H. discriminate.
  - intros H v V. apply in_map_iff in V. destruct V as [c [<- C]]. rewrite (pvOf_text c (NB c C) (H c C)). reflexivity.
Qed.
Lemma texts_all l : (forall c, In c l -> c <> "") -> (forall c, In c l -> isFloat c = false) -> texts (map (pvOf isInt isFloat) l) = l.
Proof.
  induction l as [|c l IH]; intros NB H; [reflexivity|]. unfold texts in *. cbn [map flat_map]. rewrite (pvOf_text c (NB c (or_introl eq_refl)) (H c (or_introl eq_refl))). cbn [app]. f_equal. apply IH; intros; [apply NB|apply H]; right; assumption.
Qed.
Lemma marked_spec c0 : c0 <> "" -> (match pvOf isInt isFloat c0 with PvText s => String.eqb s "pointNames" | _ => false end) = true <-> c0 = "pointNames" /\ isFloat c0 = false.
Proof.
  intros N. destruct (isFloat c0) eqn:F; [rewrite (pvOf_num _ F); split; [discriminate|intros [_ X]; discriminate]|].
  rewrite (pvOf_text _ N F). rewrite String.eqb_eq. tauto.
Qed.
Lemma csv_auto c0 cs d0 ds rest ign keepP keepF eim : isFloat "pointNames" = false -> List.length cs = List.length ds -> (forall c, In c (c0 :: cs) -> c <> "") ->
  let raw := (c0 :: cs) :: (d0 :: ds) :: rest in
  (HeaderLike isFloat c0 cs d0 ds -> loadCsv isInt isFloat raw NmAuto NmAuto ign keepP keepF eim =
     loadWith isInt isFloat raw (if string_dec c0 "pointNames" then NTrue else NFalse) NTrue NFalse ign keepP keepF eim) /\
  (~ HeaderLike isFloat c0 cs d0 ds -> loadCsv isInt isFloat raw NmAuto NmAuto ign keepP keepF eim = loadWith isInt isFloat raw NFalse NFalse NFalse ign keepP keepF eim).
Proof.
  intros FP L NB raw. unfold loadCsv, checkNames, raw. rewrite (zip_all (c0 :: cs) (d0 :: ds) 0) by (cbn; auto). cbn [map].
  assert (NC : c0 <> "") by (apply NB; left; reflexivity). assert (NBs : forall c, In c cs -> c <> "") by (intros; apply NB; right; assumption).
  assert (D : exists pn' fn', autoDetect NmAuto NmAuto (Some (pvOf isInt isFloat c0 :: map (pvOf isInt isFloat) cs)) (Some (pvOf isInt isFloat d0 :: map (pvOf isInt isFloat) ds)) = (NmBool pn', NmBool fn') /\
    (fn' = true <-> HeaderLike isFloat c0 cs d0 ds) /\ pn' = (fn' && if string_dec c0 "pointNames" then true else false)%bool).
  { unfold autoDetect. cbn [isTrue isAuto orb andb]. set (marked := match pvOf isInt isFloat c0 with PvText s => String.eqb s "pointNames" | _ => false end).
    assert (M := marked_spec c0 NC). fold marked in M. eexists. eexists. split; [reflexivity|].
    assert (ME : marked = if string_dec c0 "pointNames" then true else false).
    { destruct (string_dec c0 "pointNames") as [->|NE]; [apply M; auto|]. destruct marked; [|reflexivity]. destruct (proj1 M eq_refl). contradiction. }
    split; [|rewrite ME; reflexivity]. cbn [isTrue]. rewrite andb_true_iff. change (pvOf isInt isFloat c0 :: map (pvOf isInt isFloat) cs) with (map (pvOf isInt isFloat) (c0 :: cs)). change (pvOf isInt isFloat d0 :: map (pvOf isInt isFloat) ds) with (map (pvOf isInt isFloat) (d0 :: ds)).
    unfold HeaderLike. destruct marked.
    - assert (C0 := proj1 M eq_refl). rewrite andb_true_iff, (allText_spec cs NBs), anyNum_spec. split.
      + intros [[A B] C]. rewrite (texts_all cs NBs A) in B. apply nodupb_NoDup in B. split; [exact A|]. split; [exact B|]. left. tauto.
      + intros [A [B C]]. rewrite (texts_all cs NBs A). split; [split; [exact A|apply nodupb_NoDup, B]|]. destruct C as [[_ C]|[C _]]; [exact C|]. destruct C0. contradiction.
    - assert (C0 : c0 <> "pointNames") by (intros ->; destruct M as [_ M]; specialize (M (conj eq_refl FP)); discriminate).
      rewrite andb_true_iff, (allText_spec (c0 :: cs) NB), anyNum_spec. split.
      + intros [[A B] C]. assert (A' : forall c, In c cs -> isFloat c = false) by (intros; apply A; right; assumption). rewrite (texts_all cs NBs A') in B. apply nodupb_NoDup in B. split; [exact A'|]. split; [exact B|]. right. split; [exact C0|]. split; [apply A; left; reflexivity|exact C].
      + intros [A [B C]]. rewrite (texts_all cs NBs A). destruct C as [[C _]|[_ [C C']]]; [contradiction|]. split; [split; [|apply nodupb_NoDup, B]|exact C']. intros c [<-|H]; auto. }
  destruct D as [pn' [fn' [-> [HF HP]]]]. split; intros H.
  - apply HF in H. subst fn'. subst pn'. cbn [andb]. destruct (string_dec c0 "pointNames"); reflexivity.
  - assert (fn' = false) by (destruct fn'; [exfalso; apply H, HF; reflexivity|reflexivity]). subst fn' pn'. reflexivity.
Qed.

(** ** tracked point names *)
Definition untrack (st : lstate) : lstate := mkLS NTrue NFalse (sFn st) (sFirst st) [] (sValid st) (sExtr st) (sData st) (sLoc st) (sTypes st).
Lemma track_step keepP kF st i c row : sTrack st = NTrue -> mem c (sPoss st) = false ->
  match stepRow isInt isFloat keepP kF st i (c :: row) with
  | Ok st' => sTrack st' = NTrue /\ sPoss st' = c :: sPoss st /\ stepRow isInt isFloat keepP kF (untrack st) i (c :: row) = Ok (untrack st')
  | Err e => stepRow isInt isFloat keepP kF (untrack st) i (c :: row) = Err e
  end.
Proof.
  intros T M. unfold stepRow, splitName, trackStep. rewrite T. unfold untrack. cbn [sPn sTrack sFn sFirst sPoss sValid sExtr sData sLoc sTypes isNTrue truthyNm orb]. rewrite orb_true_r. cbn [rbind fst snd]. rewrite M. cbn [rbind fst snd].
  unfold rangeCheck. cbn [sPn sTrack sFn sFirst sPoss sValid sExtr sData sLoc sTypes].
  match goal with |- context [if sValid st then Ok tt else ?x] => destruct (if sValid st then Ok tt else x); cbn [rbind]; [|reflexivity] end.
  destruct (_ && _)%bool; [reflexivity|]. destruct (match keepP with Some _ => _ | None => _ end) eqn:Q.
  2:{ cbn [sTrack sPoss sFn sFirst sValid sExtr sData sLoc sTypes]. auto. }
  destruct (negb _); [reflexivity|]. match goal with |- context [_ <- (if sValid st then Ok tt else ?x) ;; _] => destruct (if sValid st then Ok tt else x); cbn [rbind]; [|reflexivity] end.
  destruct (match kF with Some _ => _ | None => _ end); cbn [rbind]; [|reflexivity].
  destruct (match sTypes st with Some _ => _ | None => _ end); cbn [rbind]; [|reflexivity]. rewrite orb_true_r. destruct keepP as [l|]; [|cbn; auto].
  destruct (indexIn _ l); [|reflexivity]. cbn. auto.
Qed.
Lemma track_loop keepP kF : forall rows i st, sTrack st = NTrue -> (forall r, In r rows -> r <> []) -> NoDup (map (hd "") rows) -> (forall r, In r rows -> ~ In (hd "" r) (sPoss st)) ->
  match loadRows isInt isFloat keepP kF i rows st with
  | Ok st' => sTrack st' = NTrue /\ loadRows isInt isFloat keepP kF i rows (untrack st) = Ok (untrack st')
  | Err e => loadRows isInt isFloat keepP kF i rows (untrack st) = Err e
  end.
Proof.
  induction rows as [|r rows IH]; intros i st T NE ND NP; cbn [loadRows]; [auto|]. destruct r as [|c row]; [exfalso; apply (NE []); [left; reflexivity|reflexivity]|].
  cbn [map hd] in ND. inversion ND as [|? ? NI ND']; subst.
  assert (M : mem c (sPoss st) = false) by (apply mem_not_In; exact (NP (c :: row) (or_introl eq_refl))).
  assert (H := track_step keepP kF st i c row T M). destruct (stepRow isInt isFloat keepP kF st i (c :: row)) as [st1|e].
  - destruct H as [T1 [P1 ->]]. cbn [rbind]. apply IH; [exact T1|intros; apply NE; right; assumption|exact ND'|].
    intros r R. rewrite P1. intros [X|X]; [|exact (NP r (or_intror R) X)]. apply NI. rewrite X. apply in_map with (f := hd "") in R. exact R.
  - rewrite H. reflexivity.
Qed.
Lemma track_as_names h rows pn ign keepP keepF eim : h <> [] -> (forall r, In r rows -> r <> []) -> NoDup (map (hd "") rows) -> pointStep pn keepP = Ok tt ->
  loadWith isInt isFloat (h :: rows) pn NTrue NTrue ign keepP keepF eim = loadWith isInt isFloat (h :: rows) NTrue NTrue NFalse ign keepP keepF eim.
Proof.
  intros NH NE ND PS. unfold loadWith. cbn [headStep isNTrue truthyNm orb rbind]. rewrite orb_true_r. destruct (featStep NTrue _ keepF) as [[[kF fn1] valid]|]; cbn [rbind]; [|reflexivity].
  rewrite PS. assert (PS' : pointStep NTrue keepP = Ok tt).
  { destruct keepP as [l|]; [|reflexivity]. cbn [pointStep] in *. destruct (checkDuplicates l) as [[]|]; [reflexivity|discriminate]. }
  rewrite PS'. cbn [rbind]. cbv zeta.
  match goal with |- context [loadRows _ _ _ _ 0 rows ?s] => assert (H := track_loop keepP kF rows 0 s eq_refl NE ND (fun r _ X => X)); set (st0 := s) in * end.
  destruct (loadRows isInt isFloat keepP kF 0 rows st0) as [st|e].
  - destruct H as [T H]. change (untrack st0) with (mkLS NTrue NFalse fn1 (sFirst st0) [] valid (sExtr st0) (sData st0) [] None) in H. cbn [st0 sFirst sExtr sData] in H. rewrite H. cbn [rbind].
    unfold finish. rewrite T. reflexivity.
  - change (untrack st0) with (mkLS NTrue NFalse fn1 (sFirst st0) [] valid (sExtr st0) (sData st0) [] None) in H. cbn [st0 sFirst sExtr sData] in H. rewrite H. reflexivity.
Qed.
End N.
