(** Loading a CSV file (C26): the whole function. *)
From Verif Require Import Base CsvModel CsvSpec CsvTypesProofs CsvLoadProofs.
Open Scope string_scope.
Open Scope list_scope.
Open Scope nat_scope.

Lemma nth_map_in {A B} (f : A -> B) (l : list A) b (d : A) (e : B) : b < List.length l -> nth b (map f l) e = f (nth b l d).
Proof. intros H. rewrite (nth_indep _ e (f d)) by (rewrite map_length; exact H). apply map_nth. Qed.
Lemma nth_nth_error {A} (l : list A) i d x : nth_error l i = Some x -> nth i l d = x.
Proof. revert i. induction l as [|y l IH]; intros [|i] H; cbn in *; try discriminate; [congruence|auto]. Qed.
Lemma map_nth_seq {A} (l : list A) d : map (fun i => nth i l d) (seq 0 (List.length l)) = l.
Proof.
  apply nth_error_ext_len; [rewrite map_length, seq_length; reflexivity|]. intros i. rewrite map_length, seq_length. intros I.
  rewrite nth_error_map_eq, nth_error_seq. destruct (Nat.ltb_spec i (List.length l)); [|lia]. cbn. symmetry. apply nth_error_nth'. exact I.
Qed.
Lemma rmapM_over {A B C} (g : B -> result C) (h : A -> B) (cv : A -> C) l : (forall i, In i l -> g (h i) = Ok (cv i)) -> rmapM g (map h l) = Ok (map cv l).
Proof. induction l as [|i l IH]; intros H; [reflexivity|]. cbn [map rmapM]. rewrite (H i (or_introl eq_refl)). cbn [rbind]. rewrite IH by (intros; apply H; right; assumption). reflexivity. Qed.
Lemma filter_count P m : NoDup P -> (forall i, In i P -> i < m) -> List.length (filter (fun i => existsb (Nat.eqb i) P) (seq 0 m)) = List.length P.
Proof.
  intros ND B. apply Permutation_length, NoDup_Permutation; [apply NoDup_filter, seq_NoDup|exact ND|].
  intros i. rewrite filter_In, existsb_In, in_seq. split; [tauto|]. intros H. split; [specialize (B i H); lia|exact H].
Qed.
Lemma Denotes_int n id k : Denotes [] n id k -> exists z, id = KInt z /\ z = Z.of_nat k.
Proof. intros [_ H]. destruct id as [s|z]; [|eauto]. destruct H as [H _]. destruct k; discriminate. Qed.
Lemma validation_ok n ids idx : Forall2 (Denotes [] n) ids idx -> keepIndexValidation ids = Ok tt /\ map kidIndex ids = idx.
Proof.
  induction 1 as [|id k ids idx D _ [IH1 IH2]]; [split; reflexivity|]. apply Denotes_int in D. destruct D as [z [-> ->]].
  cbn [keepIndexValidation map kidIndex]. rewrite (proj2 (Z.ltb_ge _ _)) by lia. split; [exact IH1|]. rewrite Nat2Z.id, IH2. reflexivity.
Qed.
Lemma Denotes_fun names n id k k' : Denotes names n id k -> Denotes names n id k' -> k = k'.
Proof. intros [_ A] [_ B]. destruct id as [s|z]; [|lia]. symmetry. apply (proj2 A). apply B. Qed.
Lemma Forall2_nth {A B} (R : A -> B -> Prop) l l' : Forall2 R l l' -> forall i x y, nth_error l i = Some x -> nth_error l' i = Some y -> R x y.
Proof. induction 1 as [|a b l l' H _ IH]; intros [|i] x y X Y; cbn in *; try discriminate; [congruence|]. eapply IH; eassumption. Qed.
Lemma Forall2_len {A B} (R : A -> B -> Prop) l l' : Forall2 R l l' -> List.length l = List.length l'.
Proof. induction 1; cbn; congruence. Qed.
Lemma Forall2_range names n ids idx : Forall2 (Denotes names n) ids idx -> forall k, In k idx -> k < n.
Proof. induction 1 as [|id k ids idx D _ IH]; intros x []; [subst; apply D|auto]. Qed.
Lemma ids_NoDup names n ids idx : Forall2 (Denotes names n) ids idx -> NoDup idx -> NoDup ids.
Proof.
  induction 1 as [|id k ids idx D F IH]; intros ND; constructor; inversion ND as [|? ? NI ND']; subst; auto.
  intros X. apply In_nth_error in X. destruct X as [a Xa]. assert (L := Forall2_len _ _ _ F). assert (La := nth_error_lt _ _ Xa).
  destruct (nth_error_is_some idx (i := a) ltac:(lia)) as [k' Ka]. assert (D' := Forall2_nth _ _ _ F a _ _ Xa Ka). assert (k = k') by (eapply Denotes_fun; eassumption). subst k'. apply NI. eapply nth_error_In, Ka.
Qed.
Lemma indexIn_none {K} {E : EqDec K} (x : K) l : indexIn x l = None -> ~ In x l.
Proof.
  induction l as [|y l IH]; intros H; [easy|]. cbn [indexIn] in H. destruct (eq_dec x y) as [e|ne]; [discriminate|]. intros [D|D]; [congruence|].
  destruct (indexIn x l); [discriminate|]. exact (IH eq_refl D).
Qed.
Lemma limitToKept_ok names n ids : forall idx acc accn, List.length names = n -> Forall2 (Denotes names n) ids idx -> NoDup idx ->
  NoDup (map (fun k => nth k names None) idx) -> (forall k, In k idx -> ~ In k acc) -> (forall k, In k idx -> ~ In (nth k names None) accn) ->
  limitToKept ids names acc accn = Ok (acc ++ idx, accn ++ map (fun k => nth k names None) idx).
Proof.
  induction ids as [|id ids IH]; intros idx acc accn LN F ND NN DA DN; inversion F as [|? k ? idx' D F']; subst; cbn [limitToKept map].
  - rewrite !app_nil_r. reflexivity.
  - inversion ND as [|? ? NI ND']; subst. cbn [map] in NN. inversion NN as [|? ? NNI NN']; subst.
    assert (STEP : limitToKept ids names (acc ++ [k]) (accn ++ [nth k names None]) = Ok (acc ++ k :: idx', accn ++ nth k names None :: map (fun k0 => nth k0 names None) idx')).
    { rewrite (IH idx'); auto.
      - rewrite <- !app_assoc. reflexivity.
      - intros x X Y. apply in_app_or in Y. destruct Y as [Y|[<-|[]]]; [|contradiction]. exact (DA x (or_intror X) Y).
      - intros x X Y. apply in_app_or in Y. destruct Y as [Y|[Y|[]]]; [exact (DN x (or_intror X) Y)|]. apply NNI. rewrite Y. apply in_map with (f := fun k0 => nth k0 names None) in X. exact X. }
    destruct D as [Dk D]. destruct id as [s|z].
    + destruct D as [D U]. assert (E : indexIn (Some s) names = Some k).
      { destruct (indexIn (Some s) names) as [a|] eqn:E; [apply indexIn_some in E; f_equal; apply U, E|]. exfalso. apply nth_error_In in D.
        exact (indexIn_none _ _ E D). }
      rewrite E. assert (M : mem k acc = false) by (apply mem_not_In, DA; left; reflexivity). rewrite M.
      rewrite (nth_nth_error names k None _ D) in STEP. rewrite (nth_nth_error names k None _ D). exact STEP.
    + subst z. rewrite (proj2 (Z.ltb_ge _ _)) by lia. rewrite Nat2Z.id. rewrite (nth_error_nth' _ None Dk).
      assert (M : mem (nth k names None) accn = false) by (apply mem_not_In, DN; left; reflexivity). rewrite M. exact STEP.
Qed.

Section Main.
Variables (isInt isFloat : string -> bool).
Hypothesis O : ParseOracle isInt isFloat.
Definition AxisOf (a : axisNames) : nm := match a with ANone => NFalse | AFile l | AGiven l | AKept l => NL l end.
Lemma headStep_ok pn fn raw fa rows n : ReadsFts pn fn raw fa rows -> Fits fa n ->
  headStep pn fn NFalse raw = Ok (AxisOf fa, if isNTrue fn then Some n else None, rows) /\ (isNTrue fn = true <-> exists l, fa = AFile l).
Proof.
  intros H FT. unfold headStep. change (truthyNm NFalse) with false. rewrite orb_false_r.
  destruct H as [rows|h rows N|c h rows N|l rows N|l rows N]; cbn [isNTrue AxisOf]; cbn [Fits] in FT.
  - split; [reflexivity|]. split; [discriminate|]. intros [l L]; discriminate.
  - destruct pn; [|congruence|]; cbn [isNTrue]; (split; [|split; eauto]); unfold headName in *; rewrite map_length in FT; rewrite map_length, FT; reflexivity.
  - subst pn. cbn [isNTrue map tl]. split; [|split; eauto]. unfold headName in *. rewrite map_length in FT. rewrite map_length, FT. reflexivity.
  - split; [reflexivity|]. split; [discriminate|]. intros [l' L]; discriminate.
  - split; [reflexivity|]. split; [discriminate|]. intros [l' L]; discriminate.
Qed.
Lemma featStep_ok fn fa n keepF F : 0 < n -> Fits fa n -> Kept n fa keepF F -> FeatOk fa n keepF F -> (isNTrue fn = true <-> exists l, fa = AFile l) ->
  exists kF valid, featStep fn (AxisOf fa) keepF = Ok (kF, keptNames fa F, valid) /\ ((kF = None /\ F = seq 0 n) \/ kF = Some F) /\ (valid = true \/ List.length F <> n) /\
    (forall j, In j F -> j < n) /\ (kF = None <-> keepF = None).
Proof.
  intros Np FT K FO ISF. destruct K as [NK|ids idx D ND LK].
  - exists None, true. cbn [featStep]. split; [|split; [auto|split; [auto|split; [|split; reflexivity]]]].
    + f_equal. f_equal. f_equal. destruct fa; cbn [AxisOf keptNames Fits] in *; try contradiction; [reflexivity| |]; rewrite <- FT, map_nth_seq; reflexivity.
    + intros j J. apply in_seq in J. lia.
  - assert (R := Forall2_range _ _ _ _ D). assert (L := Forall2_len _ _ _ D). cbn [featStep].
    assert (NI := ids_NoDup _ _ _ _ D ND). unfold checkDuplicates. rewrite (proj2 (nodupb_NoDup ids) NI). cbn [rbind].
    assert (VAL : (fa = ANone \/ exists l, fa = AKept l) -> List.length idx <> n ->
      (_ <- keepIndexValidation ids;; Ok (Some (map kidIndex ids), AxisOf fa, false)) = Ok (Some idx, AxisOf fa, false)).
    { intros FA _. assert (D' : Forall2 (Denotes [] n) ids idx) by (destruct FA as [->|[l ->]]; exact D). destruct (validation_ok _ _ _ D') as [-> ->]. reflexivity. }
    destruct fa as [|l|l|l]; cbn [AxisOf truthyNm andb nmLen namesIn keptNames Fits FeatOk] in *.
    + exists (Some idx), false. rewrite (VAL (or_introl eq_refl)) by lia. repeat split; auto; try (right; lia); discriminate.
    + assert (IT : isNTrue fn = true) by (apply ISF; eauto). destruct l as [|x l]; [cbn in FT; lia|]. rewrite IT, orb_true_r. cbn [andb truthyNm].
      rewrite (limitToKept_ok (x :: l) n ids idx [] []) by auto. cbn [rbind fst snd app]. exists (Some idx), true. repeat split; auto; discriminate.
    + destruct FO as [FO1 FO2]. destruct l as [|x l]; [cbn in FT; lia|]. rewrite (proj2 (Nat.eqb_neq _ _)) by lia. cbn [negb orb truthyNm andb].
      rewrite (limitToKept_ok (x :: l) n ids idx [] []) by auto. cbn [rbind fst snd app]. exists (Some idx), true. repeat split; auto; discriminate.
    + rewrite LK, Nat.eqb_refl. cbn [negb orb]. assert (IT : isNTrue fn = false) by (destruct (isNTrue fn); [destruct (proj1 ISF eq_refl); discriminate|reflexivity]). rewrite IT, andb_false_r.
      exists (Some idx), false. rewrite (VAL (or_intror (ex_intro _ l eq_refl))) by lia. repeat split; auto; try (right; lia); discriminate.
Qed.

(** the points *)
Definition ptName (keepP : option (list kid)) (pa : axisNames) (i : nat) : option string :=
  match pa with
  | AFile l => nth i l None
  | AGiven l => if kpLen keepP <? List.length l then nth i l None else None
  | _ => None
  end.
Lemma split_ok pn rows pa body keepP : ReadsPts pn rows pa body -> Fits pa (List.length body) -> (match pa with AKept l => exists ids, keepP = Some ids /\ List.length l = List.length ids | _ => True end) ->
  forall st i r, sPn st = pn -> sTrack st = NFalse -> nth_error rows i = Some r -> splitName keepP st i r = Ok (ptName keepP pa i, nth i body []).
Proof.
  intros R FT K st i r Ep Et Hr. unfold splitName. rewrite Ep, Et. cbn [truthyNm]. rewrite orb_false_r.
  destruct R as [rows|rows names body E LN|l rows NE|l rows NE]; cbn [isNTrue ptName].
  - rewrite (nth_nth_error _ _ [] _ Hr). reflexivity.
  - subst rows. rewrite nth_error_map_eq in Hr. destruct (nth_error (combine names body) i) as [[a b]|] eqn:C; [|discriminate]. injection Hr as <-. cbn [fst snd].
    assert (G : forall (l1 : list string) (l2 : list (list string)) j x y, nth_error (combine l1 l2) j = Some (x, y) -> nth_error l1 j = Some x /\ nth_error l2 j = Some y).
    { induction l1 as [|u l1 IH]; intros [|v l2] [|j] x y H; cbn in *; try discriminate; [injection H as -> ->; auto|auto]. }
    destruct (G _ _ _ _ _ C) as [A B]. rewrite (nth_nth_error _ _ [] _ B). rewrite (nth_nth_error (map Some names) i None (Some a)) by (rewrite nth_error_map_eq, A; reflexivity). reflexivity.
  - destruct l as [|x l]; [congruence|]. rewrite (nth_nth_error _ _ [] _ Hr). cbn [Fits] in FT. destruct (kpLen keepP <? List.length (x :: l)); [|reflexivity].
    rewrite (nth_error_nth' (x :: l) None) by (rewrite FT; apply (nth_error_lt _ _ Hr)). reflexivity.
  - destruct l as [|x l]; [congruence|]. rewrite (nth_nth_error _ _ [] _ Hr). destruct K as [ids [-> LK]]. cbn [kpLen].
    rewrite LK. rewrite (proj2 (Nat.ltb_ge _ _)) by lia. reflexivity.
Qed.
Lemma range_length idx n : NoDup idx -> (forall k, In k idx -> k < n) -> List.length idx <= n.
Proof. intros ND B. rewrite <- (seq_length n 0). apply NoDup_incl_length; [exact ND|]. intros k K. apply in_seq. specialize (B k K). lia. Qed.
Lemma points_ok pn rows pa body keepP P : ReadsPts pn rows pa body -> Fits pa (List.length body) -> Kept (List.length body) pa keepP P -> ~ Ambiguous pa (List.length body) keepP ->
  (match keepP with None => P = seq 0 (List.length body) | Some ids => DenP (List.length body) (ptName keepP pa) P ids end) /\
  pointStep pn keepP = Ok tt.
Proof.
  intros R FT K NA. destruct K as [NK|ids idx D ND LK]; [split; reflexivity|].
  assert (L := Forall2_len _ _ _ D). assert (RG := Forall2_range _ _ _ _ D). assert (RL := range_length idx (List.length body) ND RG). split.
  - split; [exact L|]. split; [exact ND|]. split; [exact RG|]. intros a id i Ia Pa. assert (X := Forall2_nth _ _ _ D a _ _ Ia Pa). destruct X as [Bi X]. destruct id as [s|z]; [|exact X].
    assert (Q : forall k, ptName (Some ids) pa k = nth k (namesIn pa) None).
    { intros k. destruct pa as [|l|l|l]; cbn [ptName namesIn]; try (destruct k; reflexivity). cbn [kpLen]. cbn [Fits Ambiguous] in *. destruct (Nat.ltb_spec (List.length ids) (List.length l)) as [_|H']; [reflexivity|exfalso; apply NA; lia]. }
    rewrite !Q. destruct X as [X U]. split; [apply nth_nth_error, X|]. intros i' Bi' N. apply U. rewrite Q in N.
    destruct (nth_error (namesIn pa) i') as [o|] eqn:E; [rewrite (nth_nth_error _ _ None _ E) in N; congruence|]. rewrite nth_overflow in N by (apply nth_error_None, E). discriminate.
  - cbn [pointStep]. unfold checkDuplicates. assert (NI := ids_NoDup _ _ _ _ D ND). rewrite (proj2 (nodupb_NoDup ids) NI). cbn [rbind].
    destruct R as [rows|rows names body E LN|l rows NE|l rows NE]; cbn [truthyNm isNTrue negb orb andb nmLen namesIn Fits Ambiguous] in *.
    + destruct (validation_ok _ _ _ D) as [-> _]. reflexivity.
    + reflexivity.
    + destruct l as [|x l]; [congruence|]. cbn [negb orb]. rewrite (proj2 (Nat.eqb_neq _ _)) by lia. reflexivity.
    + destruct (validation_ok _ _ _ D) as [-> _]. destruct l; [congruence|]. cbn [negb orb]. destruct (_ =? _); reflexivity.
Qed.

(** ** conversion of the kept rows *)
Definition colT (eim : bool) (body : list (list string)) (F P : list nat) (b : nat) : option ctype :=
  finalOf eim (colState isInt isFloat (map (fun i => pickF F (nth i body [])) (filter (fun i => existsb (Nat.eqb i) P) (seq 0 (List.length body)))) b).
Lemma columnOf_picked body F K b : b < List.length F -> columnOf (map (fun i => pickF F (nth i body [])) K) b = columnOf (map (fun i => nth i body []) K) (nth b F 0).
Proof. intros B. unfold columnOf. rewrite !map_map. apply map_ext. intros i. unfold pickF. apply (nth_map_in (fun j => nth j (nth i body []) "")). exact B. Qed.
Lemma convert_ok eim body F c P conv : let Fc := firstn c F in
  (forall i, In i P -> i < List.length body) -> wfdict conv ->
  (P <> [] -> forall j t, dget j conv = Some t <-> j < List.length Fc /\ colT eim body F P j = Some t) ->
  exists out, rmapM (conversion isInt isFloat conv) (map (fun i => pickF Fc (nth i body [])) P) = Ok out /\ DataIs isInt isFloat eim body P Fc out.
Proof.
  intros Fc BP W C.
  set (K := filter (fun i => existsb (Nat.eqb i) P) (seq 0 (List.length body))).
  set (T := fun b => typeOr (colT eim body F P b)).
  set (cv := fun i => map (fun b => loadedAs (T b) (nth (nth b Fc 0) (nth i body []) "")) (seq 0 (List.length Fc))).
  assert (FF : forall b, b < List.length Fc -> nth b Fc 0 = nth b F 0 /\ b < List.length F).
  { intros b B. unfold Fc in *. rewrite firstn_length in B. split; [|lia]. assert (X : nth_error (firstn c F) b = nth_error F b) by (rewrite nth_error_firstn; destruct (Nat.ltb_spec b c); [reflexivity|lia]).
    destruct (nth_error_is_some F (i := b) ltac:(lia)) as [x Hx]. rewrite Hx in X. rewrite (nth_nth_error _ _ 0 _ X), (nth_nth_error _ _ 0 _ Hx). reflexivity. }
  assert (KIN : forall i, In i P -> In i K) by (intros i I; apply filter_In; split; [apply in_seq; specialize (BP i I); lia|apply existsb_In, I]).
  assert (COL : forall b, b < List.length Fc -> columnOf (map (fun i => pickF F (nth i body [])) K) b = columnOf (keptRows body P) (nth b Fc 0)).
  { intros b B. destruct (FF b B) as [-> B']. apply (columnOf_picked body F K b B'). }
  assert (ROW : forall i, In i P -> conversion isInt isFloat conv (pickF Fc (nth i body [])) = Ok (cv i)).
  { intros i I. assert (NP : P <> []) by (intros ->; destruct I). specialize (C NP). assert (NK : K <> []) by (intros X; specialize (KIN i I); rewrite X in KIN; destruct KIN).
    set (row := pickF Fc (nth i body [])). assert (LR : List.length row = List.length Fc) by apply map_length.
    assert (NR : forall b, b < List.length Fc -> nth b row "" = nth (nth b Fc 0) (nth i body []) "") by (intros b B; unfold row, pickF; apply (nth_map_in (fun j => nth j (nth i body []) "")); exact B).
    assert (INC : forall b, b < List.length Fc -> In (nth b row "") (columnOf (map (fun i => pickF F (nth i body [])) K) b)).
    { intros b B. rewrite (COL b B), (NR b B). unfold columnOf, keptRows. rewrite map_map. apply in_map_iff. exists i. split; [reflexivity|]. apply (KIN i I). }
    assert (NM : map (fun i => pickF F (nth i body [])) K <> []) by (destruct K; [congruence|discriminate]).
    assert (CAST : forall b t, dget b conv = Some t -> b < List.length row /\ castTo isInt isFloat t (nth b row "") = Ok (loadedAs t (nth b row ""))).
    { intros b t G. apply C in G. destruct G as [B G]. split; [lia|]. apply (castTo_loaded isInt isFloat O (map (fun i => pickF F (nth i body [])) K) b eim t (nth b row "")); auto. }
    destruct (convertRow_spec isInt isFloat row conv (map LStr row) W) as [out [E [L S]]]; [apply map_length|intros b t G; destruct (CAST b t G); eauto|].
    unfold conversion. rewrite E. f_equal. apply nth_error_ext_len; [unfold cv; rewrite map_length, seq_length; lia|].
    intros b. rewrite L, LR. intros B. specialize (S b ltac:(lia)). unfold cv. rewrite nth_error_map_eq, nth_error_seq. destruct (Nat.ltb_spec b (List.length Fc)); [|lia]. cbn [option_map Nat.add].
    rewrite <- (NR b B). unfold T. destruct (dget b conv) as [t|] eqn:G.
    - destruct S as [x [X Y]]. rewrite Y. destruct (CAST b t G) as [_ X']. apply C in G. destruct G as [_ G]. rewrite G. cbn [typeOr]. congruence.
    - rewrite S. rewrite nth_error_map_eq, (nth_error_nth' row "") by lia. cbn [option_map].
      destruct (colT eim body F P b) as [t|] eqn:G'; [|reflexivity]. exfalso. assert (X : dget b conv = Some t) by (apply C; auto). congruence. }
  exists (map cv P). split.
  - apply rmapM_over. exact ROW.
  - split; [apply map_length|]. split; [intros r R; apply in_map_iff in R; destruct R as [i [<- _]]; unfold cv; rewrite map_length, seq_length; reflexivity|].
    intros b j Hb. assert (B := nth_error_lt _ _ Hb). assert (J := nth_nth_error _ _ 0 _ Hb).
    destruct P as [|p0 P0] eqn:EP.
    + assert (KR : keptRows body [] = []) by (unfold keptRows; cbn [existsb]; clear; induction (seq 0 (List.length body)); [reflexivity|exact IHl]).
      rewrite KR. eexists. split; [apply cl_empty; intros v []|]. intros a i Ha. destruct a; discriminate.
    + rewrite <- EP in *. exists (T b). split.
      * rewrite <- J, <- (COL b B). apply (colState_loaded isInt isFloat O).
        assert (IP : In p0 P) by (rewrite EP; left; reflexivity). apply KIN in IP. destruct K; [destruct IP|discriminate].
      * intros a i Ha. rewrite (nth_nth_error (map cv P) a [] (cv i)) by (rewrite nth_error_map_eq, Ha; reflexivity).
        unfold cv. rewrite nth_error_map_eq, nth_error_seq. destruct (Nat.ltb_spec b (List.length Fc)); [|lia]. cbn. rewrite J. reflexivity.
Qed.

Lemma allRows_ok {I} (f : I -> list string) l : allRows (map (fun i => Some (f i)) l) = Ok (map f l).
Proof. unfold allRows. apply rmapM_over. reflexivity. Qed.
Lemma dropLast_pick body i n : 0 < n -> List.length (nth i body []) = n -> dropLast (pickF (seq 0 n) (nth i body [])) = pickF (firstn (n - 1) (seq 0 n)) (nth i body []).
Proof.
  intros Np L. unfold dropLast, pickF. destruct n as [|n]; [lia|]. rewrite seq_S, map_app. cbn [map]. rewrite removelast_last. replace (S n - 1) with n by lia.
  rewrite firstn_app, seq_length, Nat.sub_diag, firstn_O, app_nil_r, firstn_all2 by (rewrite seq_length; lia). reflexivity.
Qed.
Definition cutOf (keepF : option (list kid)) (eim : bool) (fn fn1 : nm) (first : option nat) (ts : tstate) : bool :=
  lastRemovable (match keepF with Some _ => true | None => false end) eim first ts && noLastName (isNTrue fn) fn1 first.
Lemma load_core raw pn fn ign keepP keepF eim pa fa rows body n P F :
  ReadsFts pn fn raw fa rows -> ReadsPts pn rows pa body -> (forall r, In r body -> List.length r = n) -> 0 < n ->
  Fits fa n -> Fits pa (List.length body) -> Kept (List.length body) pa keepP P -> ~ Ambiguous pa (List.length body) keepP ->
  Kept n fa keepF F -> FeatOk fa n keepF F ->
  exists ts first out,
    (P = [] -> tEmpty ts = [] /\ tNon ts = []) /\ (P <> [] -> first = Some n) /\
    (P <> [] -> (forall j, In j (tEmpty ts) <-> j < List.length F /\
        colState isInt isFloat (map (fun i => pickF F (nth i body [])) (filter (fun i => existsb (Nat.eqb i) P) (seq 0 (List.length body)))) j = CEmpty) /\
      (forall j, In j (tNon ts) <-> j < List.length F /\ colT eim body F P j = None)) /\
    let cut := cutOf keepF eim fn (keptNames fa F) first ts in
    DataIs isInt isFloat eim body P (if cut then firstn (n - 1) F else F) out /\
    loadWith isInt isFloat raw pn fn NFalse ign keepP keepF eim =
      Ok (if ign then map (numericOnly ts) out else out, keptNames pa P,
          let fn' := if cut && isNTrue fn then match keptNames fa F with NL l => NL (dropLast l) | x => x end else keptNames fa F in
          if ign then match fn' with NL (x :: l) => NL (numericOnly ts (x :: l)) | y => y end else fn').
Proof.
  intros RF RP HB Np FF FP KP NA KF FO.
  destruct (headStep_ok pn fn raw fa rows n RF FF) as [HS ISF].
  destruct (featStep_ok fn fa n keepF F Np FF KF FO ISF) as [kF [valid [FS [HF [HV [BF KN]]]]]].
  destruct (points_ok pn rows pa body keepP P RP FP KP NA) as [HP PS].
  assert (AK : match pa with AKept l => exists ids, keepP = Some ids /\ List.length l = List.length ids | _ => True end).
  { destruct pa; auto. destruct KP as [[]|ids idx D ND LK]. eauto. }
  assert (SPL := split_ok pn rows pa body keepP RP FP AK).
  assert (HR : List.length rows = List.length body) by (destruct RP as [|rows names body E LN| |]; try reflexivity; subst rows; rewrite map_length, combine_length; lia).
  assert (BP : forall i, In i P -> i < List.length body) by (destruct KP as [|ids idx D ND LK]; [intros i I; apply in_seq in I; lia|exact (Forall2_range _ _ _ _ D)]).
  assert (NDP : NoDup P) by (destruct KP; [apply seq_NoDup|assumption]).
  unfold loadWith. rewrite HS. cbn [rbind]. rewrite FS. cbn [rbind]. rewrite PS. cbn [rbind]. cbv zeta.
  match goal with |- context [loadRows _ _ _ _ _ _ ?s] => set (st0 := s) end.
  set (m := List.length body) in *.
  assert (I0 : LInv isInt isFloat keepP F n pn (keptNames fa F) (ptName keepP pa) body P 0 st0).
  { unfold st0. constructor; cbn [sPn sTrack sFn sFirst sValid sTypes sData sExtr sLoc]; auto.
    - destruct (isNTrue fn); auto.
    - cbn. intros X. congruence.
    - cbn. reflexivity.
    - destruct keepP as [ids|]; [|split; reflexivity]. rewrite repeat_length. split; [reflexivity|]. split; [apply repeat_length|]. split; [reflexivity|].
      intros a i Pa. destruct HP as [L _]. assert (LA := nth_error_lt _ _ Pa). cbn [Nat.ltb Nat.leb].
      assert (X : forall A, nth_error (repeat (@None A) (List.length ids)) a = Some None) by (intros A; apply nth_error_repeat; lia). split; [apply X|intros _; apply X]. }
  destruct (loop_all isInt isFloat keepP kF F n m pn (keptNames fa F) (ptName keepP pa) body rows P HF BF HB eq_refl HR SPL HP st0 I0) as [st [-> I]].
  cbn [rbind]. destruct I as [Ipn Itr Ifn If1 If2 Iv It Id].
  set (K := keptUpTo P m) in *.
  assert (KIN : forall i, In i P <-> In i K) by (intros i; unfold K, keptUpTo; rewrite filter_In, existsb_In, in_seq; split; [intros X; specialize (BP i X); split; [lia|exact X]|tauto]).
  assert (KL : List.length K = List.length P) by (apply filter_count; assumption).
  set (ts := emptyTypes eim (match sTypes st with Some ts => ts | None => mkT [] [] [] end)).
  (* the types *)
  assert (TS : (P = [] /\ tEmpty ts = [] /\ tNon ts = [] /\ tConv ts = []) \/
    (P <> [] /\ wfdict (tConv ts) /\ (forall j, In j (tEmpty ts) <-> j < List.length F /\ colState isInt isFloat (map (fun i => pickF F (nth i body [])) K) j = CEmpty) /\
     (forall j t, dget j (tConv ts) = Some t <-> j < List.length F /\ colT eim body F P j = Some t) /\ (forall j, In j (tNon ts) <-> j < List.length F /\ colT eim body F P j = None))).
  { unfold ts. assert (PC : P = [] \/ P <> []) by (destruct P; [left; reflexivity|right; discriminate]). destruct PC as [EP|NP].
    - left. split; [exact EP|]. rewrite EP in KL. assert (KE : K = []) by (destruct K; [reflexivity|cbn in KL; lia]). rewrite KE in It. cbn [map TState] in It. rewrite It. destruct eim; cbn; auto.
    - right. split; [exact NP|]. assert (NK : K <> []) by (intros X; rewrite X in KL; destruct P; [congruence|discriminate]).
      assert (It' : exists ts, sTypes st = Some ts /\ TInv (List.length F) (colState isInt isFloat (map (picked F body) K)) ts) by (destruct K; [congruence|exact It]). destruct It' as [ts0 [-> TI]].
      destruct (emptyTypes_spec _ _ ts0 eim TI) as [A [B [C D]]]. split; [exact A|]. rewrite B. split; [exact (ti_empty _ _ _ TI)|].
      unfold colT. fold m. change (filter (fun i => existsb (Nat.eqb i) P) (seq 0 m)) with (keptUpTo P m). fold K. split; [exact C|exact D]. }
  assert (FIRST : P <> [] -> sFirst st = Some n) by (intros NP; apply If2; intros KE; apply NP; destruct P as [|p0 P0]; [reflexivity|rewrite KE in KL; cbn in KL; lia]).
  unfold finish. fold ts. rewrite Itr. cbn [truthyNm]. rewrite Ipn, Ifn.
  (* the rows *)
  assert (DATA : sData st = map (fun i => Some (pickF F (nth i body []))) P).
  { destruct keepP as [ids|].
    - destruct Id as [D1 [_ [_ D4]]]. apply nth_error_ext_len; [rewrite map_length; destruct HP as [L _]; lia|]. intros a Ha. destruct HP as [L _].
      destruct (nth_error_is_some P (i := a) ltac:(lia)) as [i Pa]. destruct (D4 a i Pa) as [-> _]. rewrite nth_error_map_eq, Pa. destruct (Nat.ltb_spec i m) as [|X]; [reflexivity|]. specialize (BP i (nth_error_In _ _ Pa)). lia.
    - destruct Id as [-> _]. rewrite HP. reflexivity. }
  assert (LC : lengthConflict keepP pn (List.length (sData st)) (List.length rows) = false).
  { unfold lengthConflict. destruct keepP as [ids|] eqn:EKP; [|reflexivity]. destruct HP as [L _]. rewrite DATA, map_length, HR.
    destruct RP as [|rows names body E LN|l rows NE|l rows NE]; cbn [truthyNm isNTrue negb andb]; try reflexivity; try (rewrite andb_false_r; reflexivity).
    - cbn [Ambiguous] in NA. destruct l; [congruence|]. cbn [andb]. destruct (Nat.eqb_spec (List.length P) m); [|reflexivity]. exfalso. apply NA. congruence.
    - cbn [Ambiguous] in NA. destruct l; [congruence|]. cbn [andb]. destruct (Nat.eqb_spec (List.length P) m); [|reflexivity]. exfalso. apply NA. congruence. }
  rewrite LC.
  assert (LOC : (match keepP with Some l => negb (List.length l =? List.length (sLoc st)) | None => false end) = false).
  { destruct keepP as [ids|]; [|reflexivity]. destruct Id as [_ [_ [-> _]]]. destruct HP as [L _]. fold K. rewrite KL, L, Nat.eqb_refl. reflexivity. }
  rewrite LOC, DATA, allRows_ok. cbn [rbind].
  fold (cutOf keepF eim fn (keptNames fa F) (sFirst st) ts).
  exists ts, (sFirst st).
  assert (PNM : forall k, k = List.length P -> finalPNames keepP pn (sExtr st) k = Ok (keptNames pa P)).
  { intros k ->. unfold finalPNames. clear TS FIRST DATA LC LOC. destruct KP as [NK|ids idx D ND LK].
    - destruct Id as [_ EX]. destruct RP as [|rows names body E LN|l rows NE|l rows NE]; cbn [keptNames].
      + reflexivity.
      + rewrite (EX eq_refl). reflexivity.
      + destruct l; [congruence|]. cbn [Fits] in FP. rewrite seq_length. fold m. rewrite <- FP, Nat.eqb_refl, map_nth_seq. reflexivity.
      + contradiction.
    - destruct Id as [D1 [D2 [D3 D4]]]. destruct HP as [L _]. destruct RP as [|rows names body E LN|l rows NE|l rows NE]; cbn [keptNames].
      + reflexivity.
      + f_equal. f_equal. apply nth_error_ext_len; [rewrite map_length; lia|]. intros a Ha. destruct (nth_error_is_some idx (i := a) ltac:(lia)) as [i Pa].
        destruct (D4 a i Pa) as [_ X]. rewrite (X eq_refl), nth_error_map_eq, Pa. destruct (Nat.ltb_spec i m) as [|Y]; [reflexivity|]. specialize (BP i (nth_error_In _ _ Pa)). lia.
      + destruct l as [|x l]; [congruence|]. cbn [Fits Ambiguous namesIn] in *. rewrite (proj2 (Nat.eqb_neq _ _)) by lia. cbn [rmap].
        assert (G : rmapM (fun k => match k with KStr s => Ok (Some s) | KInt z => match nth_error (x :: l) (Z.to_nat z) with Some n0 => Ok n0 | None => Err IndexErr end end) ids = Ok (map (fun i => nth i (x :: l) None) idx)).
        { clear -D FP. induction D as [|id k ids idx [Dk D] _ IH]; [reflexivity|]. cbn [rmapM map]. rewrite IH. destruct id as [s|z].
          - cbn [rbind]. rewrite (nth_nth_error _ _ None _ (proj1 D)). reflexivity.
          - subst z. rewrite Nat2Z.id, (nth_error_nth' _ None) by lia. reflexivity. }
        rewrite G. reflexivity.
      + destruct l as [|x l]; [congruence|]. rewrite LK, L, Nat.eqb_refl. reflexivity. }
  destruct (cutOf keepF eim fn (keptNames fa F) (sFirst st) ts) eqn:CUT; cbn [andb].
  - (* the last column goes *)
    unfold cutOf, lastRemovable in CUT. rewrite !andb_true_iff in CUT. destruct CUT as [[[CK EIM] CE] _].
    destruct KF as [NKF|]; [|discriminate]. subst eim.
    assert (NP : P <> []). { intros ->. destruct TS as [[_ [X _]]|[X _]]; [|congruence]. rewrite X in CE. destruct (sFirst st) as [[|w]|]; discriminate. }
    destruct TS as [[X _]|[_ [WF [TE [TC TN]]]]]; [congruence|]. rewrite (FIRST NP) in *.
    set (Fc := firstn (n - 1) (seq 0 n)).
    assert (LFc : List.length Fc = n - 1) by (unfold Fc; rewrite firstn_length, seq_length; lia).
    destruct (convert_ok true body (seq 0 n) (n - 1) P (ddel (n - 1) (tConv ts)) BP (wfdict_ddel _ WF)) as [out [E DI]].
    { intros _ j t. rewrite (dget_ddel _ _ WF), firstn_length, seq_length. destruct (eq_dec j (n - 1)) as [->|NJ]; [split; [discriminate|lia]|]. rewrite TC, seq_length. split; intros [? ?]; (split; [lia|assumption]). }
    assert (DR : map dropLast (map (fun i => pickF (seq 0 n) (nth i body [])) P) = map (fun i => pickF (firstn (n - 1) (seq 0 n)) (nth i body [])) P).
    { rewrite map_map. apply map_ext_in. intros i Hi. apply dropLast_pick; [exact Np|]. apply HB, nth_In, BP, Hi. }
    exists out. split; [intros ->; congruence|]. split; [auto|]. split; [intros _; split; assumption|]. split; [exact DI|].
    rewrite DR, E. cbn [rbind]. rewrite PNM; [reflexivity|]. destruct DI as [LO _]. destruct ign; [rewrite map_length|]; exact LO.
  - destruct (convert_ok eim body F (List.length F) P (tConv ts) BP) as [out [E DI]].
    { destruct TS as [[_ [_ [_ X]]]|[_ [X _]]]; [rewrite X; constructor|exact X]. }
    { intros NP. destruct TS as [[X _]|[_ [_ [_ [TC _]]]]]; [congruence|]. rewrite firstn_all. exact TC. }
    rewrite firstn_all in E, DI. exists out. split; [intros ->; destruct TS as [[_ [X [Y _]]]|[X _]]; [auto|congruence]|]. split; [exact FIRST|].
    split; [intros NP; destruct TS as [[X _]|[_ [_ [TE [_ TN]]]]]; [congruence|split; assumption]|]. split; [exact DI|].
    rewrite E. cbn [rbind]. rewrite PNM; [reflexivity|]. destruct DI as [LO _]. destruct ign; [rewrite map_length|]; exact LO.
Qed.

Lemma colState_empty rs j : rs <> [] -> (colState isInt isFloat rs j = CEmpty <-> forall v, In v (columnOf rs j) -> v = "").
Proof.
  intros NE. assert (G := colState_good isInt isFloat O rs j NE). destruct (colState isInt isFloat rs j) as [t| |]; cbn [CGood] in G; split; try tauto; try discriminate; intros H; exfalso.
  - destruct G as [NT K]. destruct (kind_witness isInt isFloat _ _ K NT) as [v [V N]]. exact (N (H v V)).
  - destruct G as [[_ [v [V N]]]|[A _]]; [exact (N (H v V))|]. apply A. intros v V N. exfalso. exact (N (H v V)).
Qed.
Lemma cut_Trailing keepF eim fn fa n F body P ts first :
  0 < n -> Fits fa n -> Kept n fa keepF F -> (isNTrue fn = true <-> exists l, fa = AFile l) -> (forall i, In i P -> i < List.length body) ->
  (P = [] -> tEmpty ts = [] /\ tNon ts = []) -> (P <> [] -> first = Some n) ->
  (P <> [] -> forall j, In j (tEmpty ts) <-> j < List.length F /\
     colState isInt isFloat (map (fun i => pickF F (nth i body [])) (filter (fun i => existsb (Nat.eqb i) P) (seq 0 (List.length body)))) j = CEmpty) ->
  (cutOf keepF eim fn (keptNames fa F) first ts = true <-> keepF = None /\ Trailing eim body P fa n).
Proof.
  intros Np FT K ISF BP T0 F1 T1. unfold cutOf, lastRemovable.
  destruct K as [NK|ids idx D ND LK]; [|cbn [negb andb]; split; [discriminate|intros [X _]; discriminate]].
  cbn [negb andb]. destruct eim; [|cbn [andb]; split; [discriminate|intros [_ [X _]]; discriminate]]. cbn [andb].
  assert (KR : keptRows body P <> [] <-> P <> []).
  { unfold keptRows. split.
    - intros H ->. apply H. cbn [existsb]. clear. induction (seq 0 (List.length body)); [reflexivity|exact IHl].
    - intros H E. destruct P as [|p P0]; [congruence|]. assert (I : In p (filter (fun i => existsb (Nat.eqb i) (p :: P0)) (seq 0 (List.length body)))).
      { apply filter_In. split; [apply in_seq; specialize (BP p (or_introl eq_refl)); lia|apply existsb_In; left; reflexivity]. }
      apply map_eq_nil in E. rewrite E in I. destruct I. }
  assert (PC : P = [] \/ P <> []) by (destruct P; [left; reflexivity|right; discriminate]). destruct PC as [E|NP].
  - destruct (T0 E) as [-> _]. split.
    + destruct first as [[|w]|]; cbn; discriminate.
    + intros [_ [_ [_ [X _]]]]. apply KR in X. congruence.
  - rewrite (F1 NP). destruct n as [|w]; [lia|].
    assert (EM : mem w (tEmpty ts) = true <-> forall v, In v (columnOf (keptRows body P) (S w - 1)) -> v = "").
    { rewrite mem_In, (T1 NP w), seq_length. rewrite colState_empty by (intros X; apply map_eq_nil in X; apply KR in NP; apply NP; unfold keptRows; rewrite X; reflexivity).
      rewrite columnOf_picked by (rewrite seq_length; lia). rewrite seq_nth by lia. replace (S w - 1) with w by lia. cbn [Nat.add]. unfold keptRows. split; [tauto|]. intros H. split; [lia|exact H]. }
    rewrite andb_true_iff, EM.
    assert (NL' : noLastName (isNTrue fn) (keptNames fa (seq 0 (S w))) (Some (S w)) = true <-> match fa with ANone => True | AFile l => nth (S w - 1) l None = None | _ => False end).
    { unfold noLastName. destruct fa as [|l|l|l]; cbn [keptNames Fits] in *; [cbn; tauto| | |contradiction].
      - assert (IT : isNTrue fn = true) by (apply ISF; eauto). rewrite IT. assert (ME : map (fun i => nth i l None) (seq 0 (S w)) = l) by (rewrite <- FT; apply map_nth_seq). rewrite ME. cbn [nmLen]. rewrite FT.
        destruct l as [|x l]; [discriminate|]. cbn [truthyNm negb orb andb]. rewrite (proj2 (Nat.eqb_neq _ _)) by lia. cbn [orb]. rewrite eqbd_eq.
        replace (S w - 1) with (List.length (x :: l) - 1) by lia. assert (LL : forall (l0 : list (option string)) d, l0 <> [] -> last l0 d = nth (List.length l0 - 1) l0 d).
        { clear. induction l0 as [|a l0 IH]; intros d NE; [congruence|]. destruct l0 as [|b l0]; [reflexivity|]. change (last (a :: b :: l0) d) with (last (b :: l0) d). rewrite IH by discriminate. cbn [List.length Nat.sub]. rewrite !Nat.sub_0_r. reflexivity. }
        rewrite LL by discriminate. reflexivity.
      - assert (IT : isNTrue fn = false) by (destruct (isNTrue fn); [destruct (proj1 ISF eq_refl); discriminate|reflexivity]). rewrite IT. assert (ME : map (fun i => nth i l None) (seq 0 (S w)) = l) by (rewrite <- FT; apply map_nth_seq). rewrite ME. cbn [nmLen]. rewrite FT.
        destruct l as [|x l]; [discriminate|]. cbn [truthyNm negb orb andb]. rewrite (proj2 (Nat.eqb_neq _ _)) by lia. split; [discriminate|contradiction]. }
    rewrite NL'. unfold Trailing. rewrite KR. split; [intros [A B]; repeat split; auto; lia|]. intros [_ [_ [_ [_ [A B]]]]]. auto.
Qed.

Section Load.
Variables (raw : list (list string)) (pn fn : nm) (keepP keepF : option (list kid)) (eim : bool) (pa fa : axisNames) (rows body : list (list string)) (n : nat) (P F : list nat).
Hypotheses (RF : ReadsFts pn fn raw fa rows) (RP : ReadsPts pn rows pa body) (HB : forall r, In r body -> List.length r = n) (Np : 0 < n)
  (FF : Fits fa n) (FP : Fits pa (List.length body)) (KP : Kept (List.length body) pa keepP P) (NA : ~ Ambiguous pa (List.length body) keepP)
  (KF : Kept n fa keepF F) (FO : FeatOk fa n keepF F).
Lemma bound_P : forall i, In i P -> i < List.length body.
Proof. destruct KP as [|ids idx D ND LK]; [intros i I; apply in_seq in I; lia|exact (Forall2_range _ _ _ _ D)]. Qed.
Lemma load_selects : (keepF <> None \/ ~ Trailing eim body P fa n) ->
  exists data, loadWith isInt isFloat raw pn fn NFalse false keepP keepF eim = Ok (data, keptNames pa P, keptNames fa F) /\ DataIs isInt isFloat eim body P F data.
Proof.
  intros NT. destruct (load_core raw pn fn false keepP keepF eim pa fa rows body n P F RF RP HB Np FF FP KP NA KF FO) as [ts [first [out [T0 [F1 [T1 [DI E]]]]]]].
  assert (C := cut_Trailing keepF eim fn fa n F body P ts first Np FF KF (proj2 (headStep_ok pn fn raw fa rows n RF FF)) bound_P T0 F1 (fun NP => proj1 (T1 NP))).
  cbv zeta in DI, E. destruct (cutOf keepF eim fn (keptNames fa F) first ts); [destruct (proj1 C eq_refl); tauto|]. cbn [andb] in E. exists out. split; assumption.
Qed.
Lemma load_trailing : keepF = None -> Trailing eim body P fa n ->
  exists data, loadWith isInt isFloat raw pn fn NFalse false keepP keepF eim = Ok (data, keptNames pa P, cutNames fa n) /\ DataIs isInt isFloat eim body P (seq 0 (n - 1)) data.
Proof.
  intros EK TR. destruct (load_core raw pn fn false keepP keepF eim pa fa rows body n P F RF RP HB Np FF FP KP NA KF FO) as [ts [first [out [T0 [F1 [T1 [DI E]]]]]]].
  assert (ISF := proj2 (headStep_ok pn fn raw fa rows n RF FF)).
  assert (C := cut_Trailing keepF eim fn fa n F body P ts first Np FF KF ISF bound_P T0 F1 (fun NP => proj1 (T1 NP))).
  cbv zeta in DI, E. rewrite (proj2 C (conj EK TR)) in DI, E. cbn [andb] in E. exists out.
  clear C T0 F1 T1. destruct KF as [NK|]; [|discriminate].
  assert (FS : firstn (n - 1) (seq 0 n) = seq 0 (n - 1)).
  { destruct n as [|w]; [lia|]. replace (S w - 1) with w by lia. rewrite seq_S, firstn_app, seq_length, Nat.sub_diag, firstn_O, app_nil_r, firstn_all2 by (rewrite seq_length; lia). reflexivity. }
  rewrite FS in DI. split; [|exact DI]. rewrite E. f_equal. f_equal. clear -TR FF ISF Np. destruct TR as [_ [_ [_ [_ TR]]]].
  destruct fa as [|l|l|l]; try contradiction; cbn [keptNames cutNames Fits] in *.
  - destruct (isNTrue fn); reflexivity.
  - rewrite (proj2 ISF) by eauto. rewrite <- FF at 1. rewrite map_nth_seq. unfold dropLast. rewrite <- FF. rewrite Nat.sub_1_r. f_equal. apply removelast_firstn_len.
Qed.
Lemma numericOnly_chosen {A} ts (l : list A) d : numericOnly ts l = chosen (fun b => negb (mem b (tNon ts))) l d.
Proof.
  unfold numericOnly, chosen. set (g := fun b => negb (mem b (tNon ts))).
  assert (G : forall (l' : list A) a, map snd (filter (fun p => g (fst p)) (combine (seq a (List.length l')) l')) = map (fun b => nth (b - a) l' d) (filter g (seq a (List.length l')))).
  { induction l' as [|x l' IH]; intros a; [reflexivity|]. cbn [List.length seq combine filter fst]. specialize (IH (S a)).
    assert (Q : map (fun b => nth (b - S a) l' d) (filter g (seq (S a) (List.length l'))) = map (fun b => nth (b - a) (x :: l') d) (filter g (seq (S a) (List.length l')))).
    { apply map_ext_in. intros b B. apply filter_In in B. destruct B as [B _]. apply in_seq in B. replace (b - a) with (S (b - S a)) by lia. reflexivity. }
    destruct (g a); cbn [map snd]; rewrite IH, Q; [rewrite Nat.sub_diag|]; reflexivity. }
  transitivity (map (fun b => nth (b - 0) l d) (filter g (seq 0 (List.length l)))); [exact (G l 0)|]. apply map_ext. intros b. rewrite Nat.sub_0_r. reflexivity.
Qed.
Lemma load_numeric : P <> [] -> (keepF <> None \/ ~ Trailing eim body P fa n) ->
  exists data keep, loadWith isInt isFloat raw pn fn NFalse true keepP keepF eim = Ok (data, keptNames pa P, chosenNames keep (keptNames fa F)) /\
    NotText isInt isFloat eim body P F keep /\ DataIs isInt isFloat eim body P (chosen keep F 0) data.
Proof.
  intros NP NT. destruct (load_core raw pn fn true keepP keepF eim pa fa rows body n P F RF RP HB Np FF FP KP NA KF FO) as [ts [first [out [T0 [F1 [T1 [DI E]]]]]]].
  assert (C := cut_Trailing keepF eim fn fa n F body P ts first Np FF KF (proj2 (headStep_ok pn fn raw fa rows n RF FF)) bound_P T0 F1 (fun NP => proj1 (T1 NP))).
  cbv zeta in DI, E. destruct (cutOf keepF eim fn (keptNames fa F) first ts); [destruct (proj1 C eq_refl); tauto|]. cbn [andb] in E.
  destruct (T1 NP) as [_ TN]. set (keep := fun b => negb (mem b (tNon ts))).
  exists (map (numericOnly ts) out), keep. split; [|split].
  - rewrite E. f_equal. f_equal. destruct (keptNames fa F) as [| |[|x l]] eqn:KE; cbn [chosenNames]; try reflexivity. rewrite (numericOnly_chosen ts _ None). reflexivity.
  - intros b j Hb. assert (B := nth_error_lt _ _ Hb). exists (typeOr (colT eim body F P b)). split.
    + unfold colT. rewrite <- (nth_nth_error _ _ 0 _ Hb). unfold keptRows. rewrite <- (columnOf_picked body F _ b B). apply (colState_loaded isInt isFloat O).
      intros X. apply map_eq_nil in X. assert (EP : exists p, In p P) by (revert NP; clear; destruct P as [|p P0]; [congruence|intros _; exists p; left; reflexivity]). destruct EP as [p IP].
      assert (I : In p (filter (fun i => existsb (Nat.eqb i) P) (seq 0 (List.length body)))).
      { apply filter_In. split; [apply in_seq; assert (Z := bound_P p IP); lia|apply existsb_In; exact IP]. } rewrite X in I. destruct I.
    + unfold keep. rewrite negb_true_iff, mem_not_In, TN.
      assert (NS : colT eim body F P b = Some TStr -> False).
      { unfold colT. intros X. destruct (colState isInt isFloat _ b) as [t| |] eqn:CS in X; cbn in X; [|destruct eim; discriminate|discriminate]. injection X as ->.
        assert (G := colState_good isInt isFloat O (map (fun i => pickF F (nth i body [])) (filter (fun i => existsb (Nat.eqb i) P) (seq 0 (List.length body)))) b). rewrite CS in G. cbn [CGood] in G.
        apply G; [|reflexivity]. intros Y. rewrite Y in CS. unfold colState in CS. cbn in CS. discriminate. }
      destruct (colT eim body F P b) as [[]|]; cbn [typeOr]; split; intros H; try discriminate; try tauto; try (intros [_ X]; discriminate); exfalso; try (apply NS; reflexivity); auto.
  - destruct DI as [D1 [D2 D3]]. split; [rewrite map_length; exact D1|].
    assert (CL : forall r, In r out -> List.length (numericOnly ts r) = List.length (chosen keep F 0)).
    { intros r R. rewrite (numericOnly_chosen ts r LNaN). unfold chosen. rewrite !map_length. rewrite (D2 r R). reflexivity. }
    split; [intros r R; apply in_map_iff in R; destruct R as [r0 [<- R]]; auto|].
    intros b j Hb. unfold chosen in Hb. rewrite nth_error_map_eq in Hb. destruct (nth_error (filter keep (seq 0 (List.length F))) b) as [c|] eqn:EC; [|discriminate]. injection Hb as Hb.
    assert (BC : c < List.length F) by (assert (X := nth_error_In _ _ EC); apply filter_In in X; destruct X as [X _]; apply in_seq in X; lia).
    assert (HC : nth_error F c = Some j) by (rewrite <- Hb; apply nth_error_nth'; exact BC).
    destruct (D3 c j HC) as [t [T1' T2']]. exists t. split; [exact T1'|]. intros a i Ha. specialize (T2' a i Ha).
    assert (LA := nth_error_lt _ _ Ha). destruct (nth_error_is_some out (i := a) ltac:(lia)) as [r Hr]. rewrite (nth_nth_error _ _ [] _ Hr) in T2'.
    rewrite (nth_nth_error (map (numericOnly ts) out) a [] (numericOnly ts r)) by (rewrite nth_error_map_eq, Hr; reflexivity).
    rewrite (numericOnly_chosen ts r LNaN). unfold chosen. fold keep. rewrite (D2 r (nth_error_In _ _ Hr)). rewrite nth_error_map_eq, EC. cbn. rewrite <- T2'. symmetry. apply nth_error_nth'. rewrite (D2 r (nth_error_In _ _ Hr)). exact BC.
Qed.
End Load.
End Main.
