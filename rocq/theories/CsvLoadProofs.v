(** The rows of a CSV file (C26): what the loop leaves behind. *)
From Verif Require Import Base CsvModel CsvSpec CsvTypesProofs.
Open Scope string_scope.
Open Scope list_scope.
Open Scope nat_scope.

Definition pickF (F : list nat) (row : list string) : list string := map (fun j => nth j row "") F.
Lemma pickRow_ok row F : (forall j, In j F -> j < List.length row) -> pickRow row F = Ok (pickF F row).
Proof.
  induction F as [|j F IH]; intros H; cbn [pickRow pickF map]; [reflexivity|].
  rewrite (at_row_nth row j) by (apply H; left; reflexivity). cbn [rbind]. rewrite IH by (intros; apply H; right; assumption). reflexivity.
Qed.
Lemma pickF_seq row : pickF (seq 0 (List.length row)) row = row.
Proof.
  unfold pickF. apply nth_error_ext_len; [rewrite map_length, seq_length; reflexivity|].
  intros i. rewrite map_length, seq_length. intros I. rewrite nth_error_map_eq, nth_error_seq. destruct (Nat.ltb_spec i (List.length row)); [|lia]. cbn. symmetry. apply nth_error_nth'. exact I.
Qed.
Lemma indexIn_nth {K} {E : EqDec K} (x : K) l a : NoDup l -> nth_error l a = Some x -> indexIn x l = Some a.
Proof.
  revert a. induction l as [|y l IH]; intros [|a] ND H; cbn in *; try discriminate.
  - injection H as ->. destruct (eq_dec x x); [reflexivity|congruence].
  - inversion ND as [|? ? NI ND']; subst. destruct (eq_dec x y) as [->|]; [exfalso; apply NI; eapply nth_error_In; exact H|]. rewrite (IH a ND' H). reflexivity.
Qed.
Lemma indexIn_some {K} {E : EqDec K} (x : K) l a : indexIn x l = Some a -> nth_error l a = Some x.
Proof.
  revert a. induction l as [|y l IH]; intros a H; cbn in *; [discriminate|]. destruct (eq_dec x y) as [->|]; [injection H as <-; reflexivity|].
  destruct (indexIn x l) as [b|]; [|discriminate]. injection H as <-. cbn. apply IH. reflexivity.
Qed.

Lemma option_case {A} (o : option A) : (exists x, o = Some x) \/ o = None.
Proof. destruct o; eauto. Qed.

Section Loop.
Variables (isInt isFloat : string -> bool).
Variables (keepP : option (list kid)) (kF : option (list nat)) (F : list nat) (n m : nat) (pn fn : nm)
  (names : nat -> option string) (body rows : list (list string)) (P : list nat).
Hypothesis HF : (kF = None /\ F = seq 0 n) \/ kF = Some F.
Hypothesis BF : forall j, In j F -> j < n.
Hypothesis HB : forall r, In r body -> List.length r = n.
Hypothesis HM : List.length body = m.
Hypothesis HR : List.length rows = m.
Hypothesis SPL : forall st i r, sPn st = pn -> sTrack st = NFalse -> nth_error rows i = Some r -> splitName keepP st i r = Ok (names i, nth i body []).
Definition DenP (ids : list kid) : Prop :=
  List.length ids = List.length P /\ NoDup P /\ (forall i, In i P -> i < m) /\
  forall a id i, nth_error ids a = Some id -> nth_error P a = Some i ->
    match id with KInt z => z = Z.of_nat i | KStr s => names i = Some s /\ forall i', i' < m -> names i' = Some s -> i' = i end.
Hypothesis HP : match keepP with None => P = seq 0 m | Some ids => DenP ids end.

Definition picked (i : nat) : list string := pickF F (nth i body []).
Definition keptUpTo (k : nat) : list nat := filter (fun i => existsb (Nat.eqb i) P) (seq 0 k).
Record LInv (k : nat) (st : lstate) : Prop := mkLInv {
  l_pn : sPn st = pn; l_track : sTrack st = NFalse; l_fn : sFn st = fn;
  l_first : sFirst st = None \/ sFirst st = Some n;
  l_first2 : keptUpTo k <> [] -> sFirst st = Some n;
  l_valid : sValid st = true \/ List.length F <> n;
  l_types : TState isInt isFloat (List.length F) (map picked (keptUpTo k)) (sTypes st);
  l_data : match keepP with
           | None => sData st = map (fun i => Some (picked i)) (seq 0 k) /\ (isNTrue pn = true -> sExtr st = map names (seq 0 k))
           | Some ids =>
               List.length (sData st) = List.length ids /\ List.length (sExtr st) = List.length ids /\ List.length (sLoc st) = List.length (keptUpTo k) /\
               forall a i, nth_error P a = Some i ->
                 nth_error (sData st) a = Some (if i <? k then Some (picked i) else None) /\
                 (isNTrue pn = true -> nth_error (sExtr st) a = Some (if i <? k then names i else None))
           end }.
Lemma existsb_In i l : existsb (Nat.eqb i) l = true <-> In i l.
Proof. rewrite existsb_exists. split; [intros [x [X E]]; apply Nat.eqb_eq in E; subst; exact X|]. intros H. exists i. split; [exact H|apply Nat.eqb_refl]. Qed.
Lemma keptUpTo_S k : keptUpTo (S k) = keptUpTo k ++ if existsb (Nat.eqb k) P then [k] else [].
Proof. unfold keptUpTo. rewrite seq_S, filter_app. cbn. destruct (existsb (Nat.eqb k) P); reflexivity. Qed.
Lemma DenP_NoDup ids : DenP ids -> NoDup ids.
Proof.
  intros [L [ND [B D]]]. apply NoDup_nth_error. intros a b Ha E. assert (HA : a < List.length P) by lia.
  destruct (nth_error_is_some ids (i := a) Ha) as [id Ea]. rewrite Ea in E. symmetry in E. assert (HB' := nth_error_lt _ _ E).
  destruct (nth_error_is_some P (i := a) HA) as [i Pa]. destruct (nth_error_is_some P (i := b) ltac:(lia)) as [i' Pb].
  assert (X := D a id i Ea Pa). assert (Y := D b id i' E Pb).
  assert (i = i').
  { destruct id as [s|z]; [|lia]. apply (proj2 Y); [apply B; eapply nth_error_In; exact Pa|apply X]. }
  subst i'. rewrite NoDup_nth_error in ND. apply ND; congruence.
Qed.
Lemma keptIdx_spec ids i : keepP = Some ids -> i < m -> keptIdx keepP i = true -> exists a, nth_error ids a = Some (KInt (Z.of_nat i)) /\ nth_error P a = Some i.
Proof.
  intros K Hi H. rewrite K in *. destruct HP as [L [ND [B D]]]. cbn in H. apply mem_In in H. apply In_nth_error in H. destruct H as [a Ha].
  assert (LA := nth_error_lt _ _ Ha). destruct (nth_error_is_some P (i := a) ltac:(lia)) as [i' Pa]. assert (X := D a _ i' Ha Pa). cbn in X. assert (i = i') by lia. subst i'. eauto.
Qed.
Lemma keptName_spec ids i : keepP = Some ids -> i < m -> keptName keepP (names i) = true -> exists a s, names i = Some s /\ nth_error ids a = Some (KStr s) /\ nth_error P a = Some i.
Proof.
  intros K Hi H. rewrite K in *. destruct HP as [L [ND [B D]]]. cbn in H. destruct (names i) as [s|] eqn:N; [|discriminate]. apply mem_In in H. apply In_nth_error in H. destruct H as [a Ha].
  assert (LA := nth_error_lt _ _ Ha). destruct (nth_error_is_some P (i := a) ltac:(lia)) as [i' Pa]. destruct (D a _ i' Ha Pa) as [_ X]. assert (i = i') by (apply X; assumption). subst i'. eauto 6.
Qed.
Lemma kept_iff ids i : keepP = Some ids -> i < m -> (keptIdx keepP i || keptName keepP (names i))%bool = existsb (Nat.eqb i) P.
Proof.
  intros K Hi. apply eq_true_iff_eq. rewrite orb_true_iff, existsb_In. split.
  - intros [H|H].
    + destruct (keptIdx_spec ids i K Hi H) as [a [_ X]]. eapply nth_error_In, X.
    + destruct (keptName_spec ids i K Hi H) as [a [s [_ [_ X]]]]. eapply nth_error_In, X.
  - intros H. apply In_nth_error in H. destruct H as [a Pa]. rewrite K in *. destruct HP as [L [ND [B D]]]. assert (LA := nth_error_lt _ _ Pa).
    destruct (nth_error_is_some ids (i := a) ltac:(lia)) as [id Ia]. assert (X := D a id i Ia Pa). destruct id as [s|z].
    + right. destruct X as [-> _]. cbn. apply mem_In. eapply nth_error_In, Ia.
    + left. cbn. apply mem_In. subst z. eapply nth_error_In, Ia.
Qed.
Lemma rangeCheck_ok st i : i < m -> rangeCheck kF st (nth i body []) = Ok tt.
Proof.
  intros Hi. unfold rangeCheck. destruct (sValid st); [reflexivity|]. destruct HF as [[-> _]| ->]; [reflexivity|].
  destruct (existsb _ F) eqn:E; [|reflexivity]. apply existsb_exists in E. destruct E as [j [J E]]. apply Nat.ltb_lt in E. apply BF in J.
  rewrite (HB (nth i body [])) in E by (apply nth_In; lia). lia.
Qed.
Lemma step_spec k st r : k < m -> nth_error rows k = Some r -> LInv k st -> exists st', stepRow isInt isFloat keepP kF st k r = Ok st' /\ LInv (S k) st'.
Proof.
  intros Hk Hr I. destruct I as [Ipn Itr Ifn If1 If2 Iv It Id]. unfold stepRow. rewrite (SPL st k r Ipn Itr Hr). cbn [rbind fst snd].
  unfold trackStep. rewrite Itr. cbn [truthyNm]. cbn [rbind fst snd]. rewrite (rangeCheck_ok st k Hk). cbn [rbind].
  assert (LB : List.length (nth k body []) = n) by (apply HB, nth_In; lia).
  assert (LF : List.length (picked k) = List.length F) by (unfold picked, pickF; apply map_length).
  (* the width, the picked row and its types *)
  assert (W : (match sFirst st with None => List.length (nth k body []) | Some w => w end) = n) by (destruct If1 as [->| ->]; [exact LB|reflexivity]).
  assert (PICK : (match kF with Some l => pickRow (nth k body []) l | None => Ok (nth k body []) end) = Ok (picked k)).
  { unfold picked. destruct HF as [[-> ->]| ->].
    - f_equal. rewrite <- LB. symmetry. apply pickF_seq.
    - apply pickRow_ok. intros j J. rewrite LB. auto. }
  assert (LEN : (if sValid st then Ok tt else match kF with Some l => if List.length l =? n then Err InvalidArgumentValue else Ok tt | None => Ok tt end) = Ok tt).
  { destruct Iv as [->|Iv]; [reflexivity|]. destruct (sValid st); [reflexivity|]. destruct HF as [[-> _]| ->]; [reflexivity|]. rewrite (proj2 (Nat.eqb_neq _ _) Iv). reflexivity. }
  destruct (typesOf_spec isInt isFloat (List.length F) (map picked (keptUpTo k)) (sTypes st) (picked k) It LF) as [ty [TY TI]]. unfold typesOf in TY.
  replace (map picked (keptUpTo k) ++ [picked k]) with (map picked (keptUpTo k ++ [k])) in TI by (rewrite map_app; reflexivity).
  destruct (option_case keepP) as [[ids KP]|KP]; rewrite KP in Id |- *.
  - (* a list of points *)
    assert (HP0 := HP). rewrite KP in HP0. pose proof (DenP_NoDup ids HP0) as NDI. destruct HP0 as [L [ND [B D]]].
    destruct Id as [D1 [D2 [D3 D4]]].
    assert (CONF : (keptIdx (Some ids) k && keptName (Some ids) (names k))%bool = false).
    { destruct (keptIdx (Some ids) k) eqn:KI; [|reflexivity]. destruct (keptName (Some ids) (names k)) eqn:KN; [exfalso|reflexivity].
      rewrite <- KP in KI, KN. destruct (keptIdx_spec ids k KP Hk KI) as [a [Ha Pa]]. destruct (keptName_spec ids k KP Hk KN) as [b [s [_ [Hb Pb]]]].
      assert (a = b) by (rewrite NoDup_nth_error in ND; apply ND; [apply (nth_error_lt _ _ Pa)|congruence]). subst b. congruence. }
    rewrite CONF. assert (KI := kept_iff ids k KP Hk). rewrite KP in KI. rewrite KI. destruct (existsb (Nat.eqb k) P) eqn:EX.
    + rewrite W. rewrite LB, Nat.eqb_refl. cbn [negb]. rewrite LEN. cbn [rbind]. rewrite PICK. cbn [rbind]. rewrite TY. cbn [rbind]. rewrite Ipn. rewrite Itr. cbn [truthyNm]. rewrite orb_false_r.
      apply existsb_In in EX. apply In_nth_error in EX. destruct EX as [a Pa].
      assert (LOC : exists loc, loc = (match names k with Some s => if mem (KStr s) ids then KStr s else KInt (Z.of_nat k) | None => KInt (Z.of_nat k) end) /\ nth_error ids a = Some loc).
      { eexists. split; [reflexivity|]. assert (LA := nth_error_lt _ _ Pa). destruct (nth_error_is_some ids (i := a) ltac:(lia)) as [id Ia]. rewrite Ia. f_equal.
        destruct (names k) as [s|] eqn:NK.
        - destruct (mem (KStr s) ids) eqn:M.
          + destruct (keptName_spec ids k KP Hk) as [b [s' [Hs [Hb Pb]]]]; [rewrite KP, NK; exact M|].
            assert (a = b) by (rewrite NoDup_nth_error in ND; apply ND; [apply (nth_error_lt _ _ Pa)|congruence]). subst b. congruence.
          + assert (X := D a id k Ia Pa). destruct id as [s'|z]; [|subst z; reflexivity]. exfalso. destruct X as [X _]. rewrite NK in X. injection X as ->. apply mem_not_In in M. apply M. eapply nth_error_In, Ia.
        - assert (X := D a id k Ia Pa). destruct id as [s'|z]; [|subst z; reflexivity]. destruct X as [X _]. rewrite NK in X. discriminate. }
      destruct LOC as [loc [<- Ia]]. rewrite (indexIn_nth loc ids a NDI Ia). eexists. split; [reflexivity|].
      assert (KE : keptUpTo (S k) = keptUpTo k ++ [k]) by (rewrite keptUpTo_S; rewrite (proj2 (existsb_In k P) (nth_error_In _ _ Pa)); reflexivity).
      assert (LA := nth_error_lt _ _ Pa).
      constructor; cbn [sPn sTrack sFn sFirst sValid sTypes sData sExtr sLoc]; auto.
      * rewrite KE. exact TI.
      * rewrite KP. rewrite KE, app_length, app_length, upd_length. cbn [List.length].
        split; [exact D1|]. split; [destruct (isNTrue pn); [rewrite upd_length; exact D2|exact D2]|]. split; [lia|].
        intros b i Pb. destruct (D4 b i Pb) as [E1 E2]. destruct (Nat.eq_dec a b) as [<-|Hne].
        -- assert (i = k) by congruence. subst i. destruct (Nat.ltb_spec k (S k)); [|lia]. split; [apply nth_error_upd_same; lia|]. intros NT. rewrite NT. apply nth_error_upd_same. lia.
        -- assert (i <> k) by (intros ->; apply Hne; rewrite NoDup_nth_error in ND; apply ND; [exact LA|congruence]).
           assert (Q : (i <? S k) = (i <? k)) by (destruct (Nat.ltb_spec i (S k)), (Nat.ltb_spec i k); try reflexivity; lia). rewrite Q. split; [rewrite nth_error_upd_other by exact Hne; exact E1|].
           intros NT. rewrite NT. rewrite nth_error_upd_other by exact Hne. auto.
    + exists st. split; [reflexivity|]. assert (KE : keptUpTo (S k) = keptUpTo k) by (rewrite keptUpTo_S, EX, app_nil_r; reflexivity).
      constructor; auto; try (rewrite KE; assumption). rewrite KP, KE. split; [exact D1|]. split; [exact D2|]. split; [exact D3|].
      intros b i Pb. assert (i <> k). { intros ->. assert (X : existsb (Nat.eqb k) P = true) by (apply existsb_In; eapply nth_error_In, Pb). congruence. }
      assert (Q : (i <? S k) = (i <? k)) by (destruct (Nat.ltb_spec i (S k)), (Nat.ltb_spec i k); try reflexivity; lia). rewrite Q. apply D4, Pb.
  - (* all points *)
    assert (HP0 := HP). rewrite KP in HP0. cbn [keptIdx andb]. rewrite W, LB, Nat.eqb_refl. cbn [negb]. rewrite LEN. cbn [rbind]. rewrite PICK. cbn [rbind]. rewrite TY. cbn [rbind]. rewrite Ipn. rewrite Itr. cbn [truthyNm]. rewrite orb_false_r.
    eexists. split; [reflexivity|]. assert (EX : existsb (Nat.eqb k) P = true) by (rewrite HP0; apply existsb_In, in_seq; lia).
    assert (KE : keptUpTo (S k) = keptUpTo k ++ [k]) by (rewrite keptUpTo_S, EX; reflexivity).
    destruct Id as [D1 D2]. constructor; cbn [sPn sTrack sFn sFirst sValid sTypes sData sExtr sLoc]; auto.
    + rewrite KE. exact TI.
    + rewrite KP. rewrite seq_S, !map_app, D1. split; [reflexivity|]. intros NT. rewrite NT, (D2 NT). reflexivity.
Qed.
Lemma loop_spec : forall j k st, k + j = m -> LInv k st -> exists st', loadRows isInt isFloat keepP kF k (skipn k rows) st = Ok st' /\ LInv m st'.
Proof.
  induction j as [|j IH]; intros k st E I.
  - assert (k = m) by lia. subst k. rewrite skipn_all2 by lia. exists st. split; [reflexivity|exact I].
  - destruct (nth_error_is_some rows (i := k) ltac:(lia)) as [r Hr].
    assert (X : skipn k rows = r :: skipn (S k) rows).
    { clear -Hr. revert rows Hr. induction k as [|k IHk]; intros [|x l] H; cbn in *; try discriminate; [injection H as ->; reflexivity|]. exact (IHk l H). }
    rewrite X. cbn [loadRows]. destruct (step_spec k st r ltac:(lia) Hr I) as [st1 [-> I1]]. cbn [rbind]. apply IH; [lia|exact I1].
Qed.
Lemma loop_all st : LInv 0 st -> exists st', loadRows isInt isFloat keepP kF 0 rows st = Ok st' /\ LInv m st'.
Proof. apply (loop_spec m 0 st). lia. Qed.
End Loop.
