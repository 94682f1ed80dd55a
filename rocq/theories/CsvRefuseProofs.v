(** Refused keepPoints and keepFeatures, and tracked point names (C26). *)
From Verif Require Import Base CsvModel CsvSpec CsvTypesProofs CsvLoadProofs CsvMainProofs.
Open Scope string_scope.
Open Scope list_scope.
Open Scope nat_scope.

Section R.
Variables (isInt isFloat : string -> bool).
Section Loop.
Variables (ids : list kid) (kF : option (list nat)) (F : list nat) (n m : nat) (pn fn : nm)
  (names : nat -> option string) (body rows : list (list string)).
Hypothesis HF : (kF = None /\ F = seq 0 n) \/ kF = Some F.
Hypothesis BF : forall j, In j F -> j < n.
Hypothesis HB : forall r, In r body -> List.length r = n.
Hypothesis HM : List.length body = m.
Hypothesis HR : List.length rows = m.
Hypothesis SPL : forall st i r, sPn st = pn -> sTrack st = NFalse -> nth_error rows i = Some r -> splitName (Some ids) st i r = Ok (names i, nth i body []).
Definition isKept (i : nat) : bool := keptIdx (Some ids) i || keptName (Some ids) (names i).
Definition bothKept (i : nat) : bool := keptIdx (Some ids) i && keptName (Some ids) (names i).
Definition keptTo (k : nat) : list nat := filter isKept (seq 0 k).
Definition locOf (i : nat) : kid := match names i with Some s => if mem (KStr s) ids then KStr s else KInt (Z.of_nat i) | None => KInt (Z.of_nat i) end.
Lemma locOf_In i : isKept i = true -> In (locOf i) ids.
Proof.
  unfold isKept, locOf, keptIdx, keptName. destruct (names i) as [s|].
  - destruct (mem (KStr s) ids) eqn:M; [intros _; apply mem_In, M|]. rewrite orb_false_r. apply mem_In.
  - rewrite orb_false_r. apply mem_In.
Qed.
Record RInv (k : nat) (st : lstate) : Prop := mkRInv {
  r_pn : sPn st = pn; r_track : sTrack st = NFalse;
  r_first : sFirst st = None \/ sFirst st = Some n;
  r_valid : sValid st = true \/ List.length F <> n;
  r_types : TState isInt isFloat (List.length F) (map (picked F body) (keptTo k)) (sTypes st);
  r_loc : List.length (sLoc st) = List.length (keptTo k) }.
Lemma keptTo_S k : keptTo (S k) = keptTo k ++ if isKept k then [k] else [].
Proof. unfold keptTo. rewrite seq_S, filter_app. cbn. destruct (isKept k); reflexivity. Qed.
Lemma indexIn_some_of {K} {E : EqDec K} (x : K) l : In x l -> exists a, indexIn x l = Some a.
Proof. intros H. destruct (indexIn x l) eqn:X; [eauto|]. exfalso. exact (indexIn_none _ _ X H). Qed.
Lemma rstep k st r : k < m -> nth_error rows k = Some r -> RInv k st ->
  (bothKept k = true /\ stepRow isInt isFloat (Some ids) kF st k r = Err InvalidArgumentValue) \/
  (bothKept k = false /\ exists st', stepRow isInt isFloat (Some ids) kF st k r = Ok st' /\ RInv (S k) st').
Proof.
  intros Hk Hr I. destruct I as [Ipn Itr If1 Iv It Il]. unfold stepRow. rewrite (SPL st k r Ipn Itr Hr). cbn [rbind fst snd].
  unfold trackStep. rewrite Itr. cbn [truthyNm]. cbn [rbind fst snd]. rewrite (rangeCheck_ok kF F n m body rows HF BF HB HM HR st k Hk). cbn [rbind].
  fold (bothKept k). destruct (bothKept k); [left; split; reflexivity|right]. split; [reflexivity|].
  assert (LB : List.length (nth k body []) = n) by (apply HB, nth_In; lia).
  assert (LF : List.length (picked F body k) = List.length F) by (unfold picked, pickF; apply map_length).
  assert (W : (match sFirst st with None => List.length (nth k body []) | Some w => w end) = n) by (destruct If1 as [->| ->]; [exact LB|reflexivity]).
  assert (PICK : (match kF with Some l => pickRow (nth k body []) l | None => Ok (nth k body []) end) = Ok (picked F body k)).
  { unfold picked. destruct HF as [[-> ->]| ->].
    - f_equal. rewrite <- LB. symmetry. apply pickF_seq.
    - apply pickRow_ok. intros j J. rewrite LB. auto. }
  assert (LEN : (if sValid st then Ok tt else match kF with Some l => if List.length l =? n then Err InvalidArgumentValue else Ok tt | None => Ok tt end) = Ok tt).
  { destruct Iv as [->|Iv]; [reflexivity|]. destruct (sValid st); [reflexivity|]. destruct HF as [[-> _]| ->]; [reflexivity|]. rewrite (proj2 (Nat.eqb_neq _ _) Iv). reflexivity. }
  destruct (typesOf_spec isInt isFloat (List.length F) (map (picked F body) (keptTo k)) (sTypes st) (picked F body k) It LF) as [ty [TY TI]]. unfold typesOf in TY.
  replace (map (picked F body) (keptTo k) ++ [picked F body k]) with (map (picked F body) (keptTo k ++ [k])) in TI by (rewrite map_app; reflexivity).
  fold (isKept k). destruct (isKept k) eqn:EX.
  - rewrite W, LB, Nat.eqb_refl. cbn [negb]. rewrite LEN. cbn [rbind]. rewrite PICK. cbn [rbind]. rewrite TY. cbn [rbind]. fold (locOf k).
    destruct (indexIn_some_of (locOf k) ids (locOf_In k EX)) as [a ->]. eexists. split; [reflexivity|]. constructor; cbn [sPn sTrack sFn sFirst sValid sTypes sData sExtr sLoc]; auto.
    + rewrite keptTo_S, EX. exact TI.
    + rewrite keptTo_S, EX, !app_length. cbn. lia.
  - exists st. split; [reflexivity|]. constructor; auto; rewrite keptTo_S, EX, app_nil_r; assumption.
Qed.
Lemma rloop : forall j k st, k + j = m -> RInv k st ->
  loadRows isInt isFloat (Some ids) kF k (skipn k rows) st = Err InvalidArgumentValue \/
  ((forall i, k <= i < m -> bothKept i = false) /\ exists st', loadRows isInt isFloat (Some ids) kF k (skipn k rows) st = Ok st' /\ RInv m st').
Proof.
  induction j as [|j IH]; intros k st E I.
  - assert (k = m) by lia. subst k. rewrite skipn_all2 by lia. right. split; [intros; lia|]. exists st. split; [reflexivity|exact I].
  - destruct (nth_error_is_some rows (i := k) ltac:(lia)) as [r Hr].
    assert (X : skipn k rows = r :: skipn (S k) rows).
    { clear -Hr. revert rows Hr. induction k as [|k IHk]; intros [|x l] H; cbn in *; try discriminate; [injection H as ->; reflexivity|]. exact (IHk l H). }
    rewrite X. cbn [loadRows]. destruct (rstep k st r ltac:(lia) Hr I) as [[_ ->]|[BK [st1 [-> I1]]]]; [left; reflexivity|]. cbn [rbind].
    destruct (IH (S k) st1 ltac:(lia) I1) as [H|[H1 H2]]; [left; exact H|right]. split; [|exact H2]. intros i Hi. destruct (Nat.eq_dec i k) as [->|]; [exact BK|]. apply H1. lia.
Qed.
End Loop.

Lemma pointStep_err pn keepP e : pointStep pn keepP = Err e -> e = InvalidArgumentValue.
Proof.
  destruct keepP as [ids|]; cbn [pointStep]; [|discriminate]. unfold checkDuplicates. destruct (nodupb ids); cbn [rbind]; [|congruence].
  destruct (_ || _)%bool; [|discriminate]. induction ids as [|[s|z] ids IH]; cbn [keepIndexValidation]; [discriminate|congruence|]. destruct (z <? 0)%Z; [congruence|exact IH].
Qed.
Lemma finish_mismatch fn ign ids keepF eim total st : List.length ids <> List.length (sLoc st) ->
  finish isInt isFloat fn ign (Some ids) keepF eim total st = Err InvalidArgumentValue.
Proof. intros H. unfold finish. destruct (lengthConflict _ _ _ _); [reflexivity|]. rewrite (proj2 (Nat.eqb_neq _ _) H). reflexivity. Qed.
(** points that the identifiers do not denote *)
Lemma refuse_points raw pn fn ign ids keepF eim pa fa rows body n F :
  ReadsFts pn fn raw fa rows -> ReadsPts pn rows pa body -> (forall r, In r body -> List.length r = n) -> 0 < n ->
  Fits fa n -> Fits pa (List.length body) -> Kept n fa keepF F -> FeatOk fa n keepF F ->
  (match pa with AKept l => List.length l = List.length ids | _ => True end) -> Unambiguous (namesIn pa) ids ->
  (forall P, Forall2 (fun id i => i < List.length body /\ Matches (namesIn pa) id i) ids P -> ~ NoDup P) ->
  loadWith isInt isFloat raw pn fn NFalse ign (Some ids) keepF eim = Err InvalidArgumentValue.
Proof.
  intros RF RP HB Np FF FP KF FO AK UA NM.
  destruct (headStep_ok pn fn raw fa rows n RF FF) as [HS ISF].
  destruct (featStep_ok fn fa n keepF F Np FF KF FO ISF) as [kF [valid [FS [HF [HV [BF _]]]]]].
  assert (SPL := split_ok pn rows pa body (Some ids) RP FP). specialize (SPL ltac:(destruct pa; eauto)).
  assert (HR : List.length rows = List.length body) by (destruct RP as [|rows names body E LN| |]; try reflexivity; subst rows; rewrite map_length, combine_length; lia).
  unfold loadWith. rewrite HS. cbn [rbind]. rewrite FS. cbn [rbind]. destruct (pointStep pn (Some ids)) as [[]|e] eqn:PS; [|cbn [rbind]; apply pointStep_err in PS; congruence]. cbn [rbind]. cbv zeta.
  match goal with |- context [loadRows _ _ _ _ _ _ ?s] => set (st0 := s) end.
  set (names := ptName (Some ids) pa) in *. set (m := List.length body) in *.
  assert (I0 : RInv ids F n pn names body 0 st0) by (unfold st0; constructor; cbn [sPn sTrack sFn sFirst sValid sTypes sData sExtr sLoc]; auto; try reflexivity; destruct (isNTrue fn); auto).
  destruct (rloop ids kF F n m pn names body rows HF BF HB eq_refl HR SPL m 0 st0 eq_refl I0) as [E|[NB [st [E I]]]]; cbn [skipn] in E; rewrite E; cbn [rbind]; [reflexivity|].
  apply finish_mismatch. rewrite (r_loc _ _ _ _ _ _ _ _ I). intros LE.
  set (K := keptTo ids names m) in *.
  assert (NDI : NoDup ids) by (cbn [pointStep] in PS; unfold checkDuplicates in PS; destruct (nodupb ids) eqn:X; [apply nodupb_NoDup, X|discriminate]).
  assert (PTN : forall i s, names i = Some s -> nth_error (namesIn pa) i = Some (Some s)).
  { intros i s H. unfold names, ptName in H. destruct pa as [|l|l|l]; cbn [namesIn]; try discriminate.
    - destruct (nth_error l i) eqn:X; [rewrite (nth_nth_error _ _ None _ X) in H; congruence|]. rewrite nth_overflow in H by (apply nth_error_None, X). discriminate.
    - destruct (_ <? _); [|discriminate]. destruct (nth_error l i) eqn:X; [rewrite (nth_nth_error _ _ None _ X) in H; congruence|]. rewrite nth_overflow in H by (apply nth_error_None, X). discriminate. }
  assert (KS : forall i, In i K -> i < m /\ isKept ids names i = true) by (intros i H; apply filter_In in H; destruct H as [H H']; apply in_seq in H; split; [lia|exact H']).
  set (g := locOf ids names).
  assert (MT : forall i, In i K -> Matches (namesIn pa) (g i) i).
  { intros i H. unfold g, locOf. destruct (names i) as [s|] eqn:N; [|reflexivity]. destruct (mem (KStr s) ids); [|reflexivity]. cbn. apply PTN, N. }
  assert (INJ : NoDup (map g K)).
  { assert (NK : NoDup K) by (apply NoDup_filter, seq_NoDup). assert (H : forall i j, In i K -> In j K -> g i = g j -> i = j).
    { intros i j Hi Hj Q. assert (A := MT i Hi). assert (B := MT j Hj). rewrite Q in A. destruct (g j) as [s|z] eqn:G; cbn in A, B; [|lia].
      apply (UA s); [|exact A|exact B]. rewrite <- G. apply locOf_In, KS, Hj. }
    clear -NK H. induction K as [|x K IH]; cbn; constructor; inversion NK; subst.
    - intros X. apply in_map_iff in X. destruct X as [y [E Y]]. assert (y = x) by (apply H; [right; exact Y|left; reflexivity|exact E]). subst y. contradiction.
    - apply IH; auto. intros i j Hi Hj. apply H; right; assumption. }
  assert (PERM : Permutation ids (map g K)).
  { symmetry. apply NoDup_Permutation_bis; [exact INJ|rewrite map_length; lia|]. intros x X. apply in_map_iff in X. destruct X as [i [<- X]]. apply locOf_In, KS, X. }
  apply Permutation_map_inv in PERM. destruct PERM as [K' [EI PK]]. apply (NM K').
  - assert (KIN : forall i, In i K' -> In i K) by (intros i H; eapply Permutation_in; [symmetry; exact PK|exact H]). rewrite EI. clear -KIN KS MT. induction K' as [|i K' IH]; cbn [map]; constructor.
    + split; [apply KS|apply MT]; apply KIN; left; reflexivity.
    + apply IH. intros j J. apply KIN. right. exact J.
  - eapply Permutation_NoDup; [exact PK|]. apply NoDup_filter, seq_NoDup.
Qed.

(** features *)
Lemma limitToKept_inv names ids : forall acc accn r, accn = map (fun k => nth k names None) acc -> NoDup acc ->
  match limitToKept ids names acc accn with
  | Err e => e = InvalidArgumentValue
  | Ok q => q = r -> exists idx, fst r = acc ++ idx /\ NoDup (acc ++ idx) /\ Forall2 (fun id k => k < List.length names /\ Matches names id k) ids idx
  end.
Proof.
  induction ids as [|id ids IH]; intros acc accn r EA ND; cbn [limitToKept].
  - intros <-. exists []. rewrite app_nil_r. auto.
  - assert (STEP : forall k, k < List.length names -> Matches names id k -> ~ In k acc ->
      match limitToKept ids names (acc ++ [k]) (accn ++ [nth k names None]) with
      | Err e => e = InvalidArgumentValue
      | Ok q => q = r -> exists idx, fst r = acc ++ idx /\ NoDup (acc ++ idx) /\ Forall2 (fun id k => k < List.length names /\ Matches names id k) (id :: ids) idx
      end).
    { intros k Bk M NI. specialize (IH (acc ++ [k]) (accn ++ [nth k names None]) r). assert (E1 : accn ++ [nth k names None] = map (fun k => nth k names None) (acc ++ [k])) by (rewrite map_app, EA; reflexivity).
      assert (N1 : NoDup (acc ++ [k])) by (apply nodup_app_intro; [exact ND|constructor; [easy|constructor]|intros x X [<-|[]]; contradiction]).
      specialize (IH E1 N1). destruct (limitToKept ids names _ _) as [q|e]; [|exact IH]. intros Q. destruct (IH Q) as [idx [A [B C]]]. exists (k :: idx). rewrite <- app_assoc in A, B. cbn [app] in A, B. auto. }
    destruct id as [s|z].
    + destruct (indexIn (Some s) names) as [k|] eqn:X; [|reflexivity]. apply indexIn_some in X. destruct (mem k acc) eqn:M; [reflexivity|]. apply mem_not_In in M.
      specialize (STEP k (nth_error_lt _ _ X) X M). rewrite (nth_nth_error _ _ None _ X) in STEP. exact STEP.
    + destruct (Z.ltb_spec z 0); [reflexivity|]. destruct (nth_error names (Z.to_nat z)) as [nm0|] eqn:X; [|reflexivity]. destruct (mem nm0 accn) eqn:M; [reflexivity|]. apply mem_not_In in M.
      specialize (STEP (Z.to_nat z) (nth_error_lt _ _ X)). rewrite (nth_nth_error _ _ None _ X) in STEP. apply STEP; [cbn; lia|]. intros I. apply M. rewrite EA. apply in_map with (f := fun k => nth k names None) in I. rewrite (nth_nth_error _ _ None _ X) in I. exact I.
Qed.
Lemma refuse_features raw pn fn ign keepP ids eim fa rows n l :
  ReadsFts pn fn raw fa rows -> 0 < n -> Fits fa n -> (fa = AFile l \/ (fa = AGiven l /\ List.length ids <> n)) ->
  (forall F, Forall2 (fun id k => k < n /\ Matches l id k) ids F -> ~ NoDup F) ->
  loadWith isInt isFloat raw pn fn NFalse ign keepP (Some ids) eim = Err InvalidArgumentValue.
Proof.
  intros RF Np FF FA NM. destruct (headStep_ok pn fn raw fa rows n RF FF) as [HS ISF]. unfold loadWith. rewrite HS. cbn [rbind].
  assert (FE : featStep fn (AxisOf fa) (Some ids) = Err InvalidArgumentValue); [|rewrite FE; reflexivity].
  unfold featStep. unfold checkDuplicates. destruct (nodupb ids) eqn:ND; [|reflexivity]. cbn [rbind].
  assert (LN : List.length l = n) by (destruct FA as [->|[-> _]]; exact FF).
  assert (L : limitToKept ids l [] [] = Err InvalidArgumentValue).
  { assert (X := fun r => limitToKept_inv l ids [] [] r eq_refl (NoDup_nil _)). destruct (limitToKept ids l [] []) as [q|e]; [|specialize (X ([], [])); cbn in X; congruence].
    destruct (X q eq_refl) as [idx [_ [A B]]]. exfalso. rewrite LN in B. exact (NM idx B A). }
  assert (TR : truthyNm (AxisOf fa) && (negb (nmLen (AxisOf fa) =? List.length ids) || isNTrue fn) = true).
  { destruct FA as [->|[-> NE]]; cbn [AxisOf nmLen]; destruct l as [|x l']; try (cbn in LN; lia); cbn [truthyNm andb].
    - rewrite (proj2 ISF) by eauto. apply orb_true_r.
    - rewrite LN. rewrite (proj2 (Nat.eqb_neq _ _)) by auto. reflexivity. }
  rewrite TR. destruct FA as [->|[-> _]]; cbn [AxisOf]; rewrite L; reflexivity.
Qed.
Lemma refuse_features_named raw pn fn ign keepP ids eim fa rows n :
  ReadsFts pn fn raw fa rows -> Fits fa n -> (fa = ANone \/ exists l, fa = AKept l /\ List.length l = List.length ids) ->
  ((exists s, In (KStr s) ids) \/ (exists z, In (KInt z) ids /\ (z < 0)%Z) \/ ~ NoDup ids) ->
  loadWith isInt isFloat raw pn fn NFalse ign keepP (Some ids) eim = Err InvalidArgumentValue.
Proof.
  intros RF FF FA BAD. destruct (headStep_ok pn fn raw fa rows n RF FF) as [HS ISF]. unfold loadWith. rewrite HS. cbn [rbind].
  assert (FE : featStep fn (AxisOf fa) (Some ids) = Err InvalidArgumentValue); [|rewrite FE; reflexivity].
  unfold featStep, checkDuplicates. destruct (nodupb ids) eqn:ND; [|reflexivity]. cbn [rbind]. apply nodupb_NoDup in ND.
  assert (TR : truthyNm (AxisOf fa) && (negb (nmLen (AxisOf fa) =? List.length ids) || isNTrue fn) = false).
  { destruct FA as [->|[l [-> NE]]]; cbn [AxisOf nmLen]; [reflexivity|]. rewrite NE, Nat.eqb_refl. cbn [negb orb]. destruct (isNTrue fn); [destruct (proj1 ISF eq_refl); discriminate|]. apply andb_false_r. }
  rewrite TR. assert (V : keepIndexValidation ids = Err InvalidArgumentValue); [|rewrite V; reflexivity].
  clear -BAD ND. induction ids as [|[s|z] ids IH]; cbn [keepIndexValidation]; [|reflexivity|].
  - exfalso. destruct BAD as [[s []]|[[z [[] _]]|H]]. contradiction.
  - destruct (Z.ltb_spec z 0); [reflexivity|]. inversion ND; subst. apply IH; [|assumption]. destruct BAD as [[s [X|X]]|[[z' [[X|X] Y]]|X]]; [discriminate|left; eauto|injection X as <-; lia|right; left; eauto|contradiction].
Qed.
Lemma refuse_points_dup raw pn fn ign ids keepF eim fa rows n F :
  ReadsFts pn fn raw fa rows -> 0 < n -> Fits fa n -> Kept n fa keepF F -> FeatOk fa n keepF F -> ~ NoDup ids ->
  loadWith isInt isFloat raw pn fn NFalse ign (Some ids) keepF eim = Err InvalidArgumentValue.
Proof.
  intros RF Np FF KF FO ND. destruct (headStep_ok pn fn raw fa rows n RF FF) as [HS ISF].
  destruct (featStep_ok fn fa n keepF F Np FF KF FO ISF) as [kF [valid [FS _]]]. unfold loadWith. rewrite HS. cbn [rbind]. rewrite FS. cbn [rbind pointStep]. unfold checkDuplicates.
  destruct (nodupb ids) eqn:X; [apply nodupb_NoDup in X; contradiction|]. reflexivity.
Qed.
(** a list of names that is ambiguous *)
Lemma refuse_ambiguous raw pn fn ign ids keepF eim l fa rows body n F P :
  ReadsFts pn fn raw fa rows -> pn = NL l -> l <> [] -> rows = body -> (forall r, In r body -> List.length r = n) -> 0 < n -> Fits fa n -> Kept n fa keepF F -> FeatOk fa n keepF F ->
  List.length l = List.length body -> List.length ids = List.length body -> Forall2 (Denotes l (List.length body)) ids P -> NoDup P ->
  loadWith isInt isFloat raw pn fn NFalse ign (Some ids) keepF eim = Err InvalidArgumentValue.
Proof.
  intros RF -> NE -> HB Np FF KF FO LL LI D ND. destruct (headStep_ok (NL l) fn raw fa body n RF FF) as [HS ISF].
  destruct (featStep_ok fn fa n keepF F Np FF KF FO ISF) as [kF [valid [FS [HF [HV [BF _]]]]]].
  unfold loadWith. rewrite HS. cbn [rbind]. rewrite FS. cbn [rbind]. destruct (pointStep (NL l) (Some ids)) as [[]|e] eqn:PS; [|cbn [rbind]; apply pointStep_err in PS; congruence]. cbn [rbind]. cbv zeta.
  match goal with |- context [loadRows _ _ _ _ _ _ ?s] => set (st0 := s) end.
  set (m := List.length body) in *.
  assert (SPL : forall st i r, sPn st = NL l -> sTrack st = NFalse -> nth_error body i = Some r -> splitName (Some ids) st i r = Ok ((fun _ => None) i, nth i body [])).
  { intros st i r Ep Et Hr. unfold splitName. rewrite Ep, Et. cbn [isNTrue truthyNm orb kpLen]. destruct l; [congruence|]. rewrite LL, LI, (proj2 (Nat.ltb_ge _ _)) by lia. rewrite (nth_nth_error _ _ [] _ Hr). reflexivity. }
  assert (I0 : RInv ids F n (NL l) (fun _ => None) body 0 st0) by (unfold st0; constructor; cbn [sPn sTrack sFn sFirst sValid sTypes sData sExtr sLoc]; auto; try reflexivity; destruct (isNTrue fn); auto).
  destruct (rloop ids kF F n m (NL l) (fun _ => None) body body HF BF HB eq_refl eq_refl SPL m 0 st0 eq_refl I0) as [E|[NB [st [E I]]]]; cbn [skipn] in E; rewrite E; cbn [rbind]; [reflexivity|].
  unfold finish. rewrite (r_track _ _ _ _ _ _ _ _ I), (r_pn _ _ _ _ _ _ _ _ I). cbn [truthyNm].
  assert (LD : List.length (sData st) = List.length ids).
  { assert (G : forall rs k s s', loadRows isInt isFloat (Some ids) kF k rs s = Ok s' -> sTrack s = NFalse -> List.length (sData s') = List.length (sData s)).
    { induction rs as [|r rs IH]; intros k s s' H T; cbn [loadRows] in H; [congruence|]. destruct (stepRow isInt isFloat (Some ids) kF s k r) as [s1|] eqn:SR; [|discriminate]. cbn [rbind] in H.
      assert (X : List.length (sData s1) = List.length (sData s) /\ sTrack s1 = NFalse).
      { unfold stepRow in SR. destruct (splitName (Some ids) s k r) as [[nm0 row]|]; [|discriminate]. cbn [rbind fst snd] in SR. unfold trackStep in SR. rewrite T in SR. cbn [truthyNm] in SR. cbn [rbind fst snd] in SR.
        destruct (rangeCheck kF s row); [|discriminate]. cbn [rbind] in SR. destruct (_ && _)%bool; [discriminate|]. destruct (_ || _)%bool; [|injection SR as <-; auto].
        destruct (negb _); [discriminate|]. destruct (if sValid s then _ else _); [|discriminate]. cbn [rbind] in SR. destruct (match kF with Some _ => _ | None => _ end); [|discriminate]. cbn [rbind] in SR.
        destruct (match sTypes s with Some _ => _ | None => _ end); [|discriminate]. cbn [rbind] in SR. destruct (indexIn _ ids); [|discriminate]. injection SR as <-. cbn [sData sTrack]. rewrite upd_length. auto. }
      destruct X as [X1 X2]. rewrite (IH _ _ _ H X2). exact X1. }
    rewrite (G body 0 st0 st E eq_refl). unfold st0. cbn. apply repeat_length. }
  unfold lengthConflict. destruct l; [congruence|]. cbn [truthyNm isNTrue negb andb]. rewrite LD. fold m. rewrite LI, Nat.eqb_refl. reflexivity.
Qed.
End R.
