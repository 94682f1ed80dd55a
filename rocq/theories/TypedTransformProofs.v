(** Proofs for C73: points.transform and features.transform of Matrix objects. *)
From Verif Require Import Base TableModel TableProofs TableOpsProofs MatchModel MatchSpec MatchProofs LogicModel GetSpec GetCountProofs
  ElementsCalcProofs CopyModel CopySpec CopyProofs CopyNimbleProofs CopyRawProofs TypedModel TypedSpec TypedProofs TypedTakeProofs TypedWriteProofs.
From Coq Require Import List String Sorted QArith Lia ZifyNat. Import ListNotations.
Open Scope nat_scope.

Section T.
Variable floatOf : string -> option pval.
Variable intOf : string -> option Z.
Notation castTo := (TypedModel.castTo floatOf intOf).
Notation castRows := (TypedModel.castRows floatOf intOf).
Notation len := List.length.

Lemma convertBase_max b r : convertBase b r = dmax b r.
Proof. destruct b, r; reflexivity. Qed.
Lemma Returned_same v w u : Returned v w -> SameElement w u -> Returned v u.
Proof.
  intros [S|[-> ->]] E; [left; eapply SameElement_trans; eauto|]. destruct E as [E|[_ ->]]; [|right; auto].
  inversion E as [x y p q X Y Z| | | |]; subst. inversion X.
Qed.
(** the type that holds every value returned so far *)
Lemma update_spec : forall l c, exists d, fold_left updateType l c = d /\
  (forall v, In v l -> exists e, d = Some e /\ Below (valueDt v) e) /\ (forall e0, c = Some e0 -> exists e, d = Some e /\ Below e0 e).
Proof.
  induction l as [|v l IH]; intros c; cbn [fold_left].
  - exists c. split; auto. split; [intros v []|]. intros e0 ->. exists e0. split; auto. apply Below_refl.
  - destruct (IH (updateType c v)) as (d & E & A & B). exists d. split; auto.
    assert (U : exists e1, updateType c v = Some e1 /\ Below (valueDt v) e1 /\ forall e0, c = Some e0 -> Below e0 e1).
    { destruct c as [e|]; cbn; eexists; (split; [reflexivity|]); split; try apply dmax_r; try apply Below_refl; intros e0 [=]; subst. apply dmax_l. }
    destruct U as (e1 & U1 & U2 & U3). destruct (B e1 U1) as (e & -> & BE). split.
    + intros u [<-|I]; [exists e; split; auto; eapply Below_trans; eauto|]. apply A. exact I.
    + intros e0 C. exists e. split; auto. eapply Below_trans; [exact (U3 _ C)|exact BE].
Qed.
Lemma cast_returned d v : Below (valueDt v) d -> exists w, castTo d v = Ok w /\ OfDt d w /\ Returned v w.
Proof.
  intros B. assert (H : isNumberV v = true \/ d = DObj \/ v = PNone /\ d = DFloat).
  { destruct v as [b|z|q| | | |s|]; cbn in B; auto; destruct d; cbn in B; try tauto; auto. }
  destruct H as [H|[->|[-> ->]]].
  - assert (F : Fits d v). { eapply OfDt_up; [|exact B]. destruct v; try discriminate; cbn; eauto. }
    destruct (cast_fits floatOf intOf d v F) as (w & C & O & S). exists w. split; auto. split; auto. left. exact S.
  - exists v. split; [reflexivity|]. split; [exact I|]. left. apply same_refl.
  - exists PNaN. split; [reflexivity|]. split; [exact I|]. right. auto.
Qed.
Lemma castList_fits d l : (forall v, In v l -> Fits d v) -> exists l', rmapM (castTo d) l = Ok l' /\ SameList l l' /\ Forall (OfDt d) l'.
Proof.
  induction l as [|v l IH]; intros H; [exists []; repeat split; constructor|]. destruct (IH (fun u I => H u (or_intror I))) as (l' & E & S & O).
  destruct (cast_fits floatOf intOf d v (H v (or_introl eq_refl))) as (w & C & OW & SW). exists (w :: l'). cbn. rewrite C. cbn. rewrite E. cbn. repeat split; constructor; auto.
Qed.
Lemma castList_returned d l : (forall v, In v l -> Below (valueDt v) d) -> exists l', rmapM (castTo d) l = Ok l' /\ Forall2 Returned l l' /\ Forall (OfDt d) l'.
Proof.
  induction l as [|v l IH]; intros H; [exists []; repeat split; constructor|]. destruct (IH (fun u I => H u (or_intror I))) as (l' & E & S & O).
  destruct (cast_returned d v (H v (or_introl eq_refl))) as (w & C & OW & SW). exists (w :: l'). cbn. rewrite C. cbn. rewrite E. cbn. repeat split; constructor; auto.
Qed.
Lemma castVectors d vs : Forall (Forall (Fits d)) vs -> exists vs', castRows d vs = Ok vs' /\ Forall2 SameList vs vs' /\ Forall (Forall (OfDt d)) vs'.
Proof.
  unfold TypedModel.castRows. induction 1 as [|r vs H _ IH]; [exists []; repeat split; constructor|]. destruct IH as (vs' & E & S & O). rewrite Forall_forall in H.
  destruct (castList_fits d r H) as (r' & E' & S' & O'). exists (r' :: vs'). cbn. rewrite E'. cbn. rewrite E. cbn. repeat split; constructor; auto.
Qed.
Lemma SameList_refl l : SameList l l.
Proof. induction l; constructor; auto. apply same_refl. Qed.
Lemma SameList_trans a b c : SameList a b -> SameList b c -> SameList a c.
Proof.
  intros H. revert c. induction H as [|x y a b E H IH]; intros c H2; inversion H2; subst; constructor; [eapply SameElement_trans; eauto|]. apply IH. assumption.
Qed.
Lemma Returned_list a b c : Forall2 Returned a b -> SameList b c -> Forall2 Returned a c.
Proof.
  intros H. revert c. induction H as [|x y a b E H IH]; intros c H2; inversion H2; subst; constructor; [eapply Returned_same; eauto|]. apply IH. assumption.
Qed.
Lemma SameList_fits d a b : SameList a b -> Forall (Fits d) a -> Forall (Fits d) b.
Proof.
  induction 1 as [|x y a b E H IH]; intros F; [constructor|]. inversion F; subst. constructor; [|auto]. eapply Fits_same; [apply SameElement_sym; exact E|]. assumption.
Qed.
Lemma F2nth {A B} (R : A -> B -> Prop) l l' i x : Forall2 R l l' -> nth_error l i = Some x -> exists y, nth_error l' i = Some y /\ R x y.
Proof. intros H. revert i. induction H as [|a b l l' E H IH]; intros [|i] X; cbn in *; try discriminate; [injection X as <-; eauto|auto]. Qed.
Lemma F2len {A B} (R : A -> B -> Prop) l l' : Forall2 R l l' -> len l = len l'.
Proof. induction 1; cbn; auto. Qed.
Lemma Forall_nth {A} (P : A -> Prop) l i x : Forall P l -> nth_error l i = Some x -> P x.
Proof. intros H E. rewrite Forall_forall in H. apply H. eapply nth_error_In; eauto. Qed.
Lemma Forall_upd {A} (P : A -> Prop) l i x : Forall P l -> P x -> Forall P (upd l i x).
Proof.
  intros H X. apply Forall_forall. intros y I. apply In_nth_error in I. destruct I as [j J]. rewrite nth_error_upd in J. destruct (Nat.eq_dec i j) as [->|N].
  - destruct (j <? len l); [injection J as <-; exact X|discriminate].
  - eapply Forall_nth; eauto.
Qed.
Lemma OfDt_Fits d v : OfDt d v -> Fits d v.
Proof. intros O. exists v. split; auto. apply same_refl. Qed.
Lemma Forall_Fits_up a b l : Below a b -> Forall (OfDt a) l -> Forall (Fits b) l.
Proof. intros B. apply Forall_impl. intros v O. eapply OfDt_up; eauto. Qed.

Variable F : list pval -> result (list pval).
Variable only : option (list nat).
Variable k : nat.
Hypothesis Fok : forall r ret, F r = Ok ret -> len ret = len r.
Hypothesis kpos : 0 < k.
Definition sel (i : nat) : bool := match only with Some l => if in_dec Nat.eq_dec i l then true else false | None => true end.
Lemma sel_mem i : (match only with Some l => negb (mem i l) | None => false end) = negb (sel i).
Proof.
  unfold sel. destruct only as [l|]; auto. destruct (in_dec Nat.eq_dec i l) as [I|N]; cbn [negb].
  - rewrite (proj2 (mem_In _ _) I). reflexivity.
  - rewrite (proj2 (mem_not_In _ _) N). reflexivity.
Qed.
Definition typeOf (c : option dt) : dt := match c with Some e => e | None => DBool end.
(** the state when the vectors before [s] have been visited *)
Definition Inv73 (orig vs : list (list pval)) (d : dt) (c : option dt) (s : nat) : Prop :=
  len vs = len orig /\ Forall (fun r => len r = k) vs /\ Forall (Forall (OfDt d)) vs /\
  forall i r, nth_error orig i = Some r ->
    exists v, nth_error vs i = Some v /\
    (if sel i && (i <? s) then (exists r' ret, SameList r r' /\ F r' = Ok ret /\ Forall2 Returned ret v) /\ Forall (Fits (typeOf c)) v /\ c <> None
     else SameList r v).
Lemma Inv_skip orig vs d c s : Inv73 orig vs d c s -> sel s = false -> Inv73 orig vs d c (S s).
Proof.
  intros (A & B & C & D) N. refine (conj A (conj B (conj C _))). intros i r E. destruct (D i r E) as (v & V & X). exists v. split; auto.
  replace (sel i && (i <? S s)) with (sel i && (i <? s)); auto. destruct (sel i) eqn:SI; auto. cbn [andb]. destruct (Nat.ltb_spec i s), (Nat.ltb_spec i (S s)); auto; try lia.
  assert (i = s) by lia. congruence.
Qed.
Lemma loop_spec orig : Forall (fun r => len r = k) orig -> forall n s d c vs, s + n = len orig -> Inv73 orig vs d c s ->
  exists d' vs' c' r stop, transformLoop floatOf intOf F only (seq s n) d c vs = ((d', vs', c'), r) /\ s <= stop <= s + n /\ Inv73 orig vs' d' c' stop /\ Below d d' /\
    match r with
    | Ok _ => stop = s + n
    | Err e => stop < s + n /\ sel stop = true /\ exists r0 r', nth_error orig stop = Some r0 /\ SameList r0 r' /\ F r' = Err e
    end.
Proof.
  intros KO. induction n as [|n IH]; intros s d c vs L INV.
  - exists d, vs, c, (Ok tt), s. cbn [seq transformLoop]. refine (conj eq_refl (conj _ (conj INV (conj (Below_refl d) _)))); lia.
  - cbn [seq transformLoop]. rewrite sel_mem. destruct (sel s) eqn:SS; cbn [negb].
    2: { destruct (IH (S s) d c vs ltac:(lia) (Inv_skip _ _ _ _ _ INV SS)) as (d' & vs' & c' & r & stop & E & H1 & H2 & H3 & H4). exists d', vs', c', r, stop. rewrite E.
         refine (conj eq_refl (conj _ (conj H2 (conj H3 _)))); [lia|]. destruct r; [lia|]. destruct H4 as (? & ? & ?). split; [lia|]. auto. }
    pose proof INV as (LV & KV & OV & IV). destruct (nth_error_is_some orig (i := s)) as [r0 E0]; [lia|]. destruct (IV s r0 E0) as (v0 & V0 & S0).
    rewrite SS, Nat.ltb_irrefl in S0. cbn [andb] in S0. rewrite (nth_error_nth _ _ [] V0).
    destruct (F v0) as [ret|e] eqn:EF.
    2: { exists d, vs, c, (Err e), s. refine (conj eq_refl (conj _ (conj INV (conj (Below_refl d) (conj _ (conj SS _)))))); [lia|lia|]. exists r0, v0. auto. }
    destruct (update_spec ret c) as (c1 & E1 & A1 & B1). rewrite E1. pose proof (Fok _ _ EF) as LR. assert (LV0 : len v0 = k) by (eapply (Forall_nth (fun r => len r = k)); eauto).
    destruct ret as [|u0 ret0]; [cbn in LR; lia|]. set (ret := u0 :: ret0) in *. destruct (A1 u0 (or_introl eq_refl)) as (c' & -> & _).
    assert (A2 : forall v, In v ret -> Below (valueDt v) c') by (intros v I; destruct (A1 v I) as (e & [= ->] & Q); exact Q).
    assert (B2 : forall e0, c = Some e0 -> Below e0 c') by (intros e0 Q; destruct (B1 e0 Q) as (e & [= ->] & Q2); exact Q2).
    destruct (castList_returned c' ret A2) as (arr & EA & RA & OA). rewrite EA. rewrite convertBase_max. set (d1 := dmax d c').
    destruct (castVectors d1 vs) as (vs1 & EV & SV & OV1).
    { eapply Forall_impl; [|exact OV]. intros r. apply Forall_Fits_up. apply dmax_l. }
    destruct (castList_fits d1 arr) as (new & EN & SN & ON).
    { intros v I. eapply OfDt_up; [|apply (dmax_r d c')]. rewrite Forall_forall in OA. auto. }
    rewrite EV, EN. cbv zeta.
    assert (LNEW : len new = k) by (rewrite <- (F2len _ _ _ SN), <- (F2len _ _ _ RA), LR; exact LV0).
    assert (LVS1 : len vs1 = len orig) by (rewrite <- (F2len _ _ _ SV); exact LV).
    assert (INV1 : Inv73 orig (upd vs1 s new) d1 (Some c') (S s)).
    { refine (conj _ (conj _ (conj _ _))).
      - rewrite upd_length. exact LVS1.
      - apply Forall_upd; [|exact LNEW]. apply Forall_forall. intros r I. apply In_nth_error in I. destruct I as [i I].
        destruct (nth_error_is_some vs (i := i)) as [r1 E2]; [rewrite (F2len _ _ _ SV); eapply nth_error_lt; eauto|]. destruct (F2nth _ _ _ _ _ SV E2) as (r2 & E3 & SR).
        rewrite I in E3. injection E3 as <-. rewrite <- (F2len _ _ _ SR). eapply (Forall_nth (fun r => len r = k)); eauto.
      - apply Forall_upd; auto.
      - intros i r E. destruct (IV i r E) as (v & V & X). destruct (Nat.eq_dec s i) as [<-|N].
        + exists new. split; [apply nth_error_upd_same; lia|]. rewrite SS, (proj2 (Nat.ltb_lt s (S s))) by lia. cbn [andb]. rewrite E0 in E. injection E as <-. split; [|split; [|discriminate]].
          * exists v0, ret. split; auto. split; auto. eapply Returned_list; eauto.
          * cbn [typeOf]. eapply SameList_fits; [exact SN|]. eapply Forall_impl; [|exact OA]. intros w. apply OfDt_Fits.
        + destruct (F2nth _ _ _ _ _ SV V) as (v1 & V1 & S1). exists v1. rewrite nth_error_upd_other by auto. split; [exact V1|].
          replace (sel i && (i <? S s)) with (sel i && (i <? s)) by (f_equal; destruct (Nat.ltb_spec i s), (Nat.ltb_spec i (S s)); auto; lia).
          destruct (sel i && (i <? s)).
          * destruct X as ((r' & rt & X1 & X2 & X3) & X4 & X5). split; [|split; [|discriminate]].
            -- exists r', rt. split; auto. split; auto. eapply Returned_list; eauto.
            -- eapply SameList_fits; [exact S1|]. destruct c as [e|]; [|congruence]. cbn [typeOf] in *. eapply Forall_impl; [|exact X4]. intros w (y & OY & SY).
               eapply Fits_same; [exact SY|]. eapply OfDt_up; [exact OY|apply B2; reflexivity].
          * eapply SameList_trans; eauto. }
    destruct (IH (S s) d1 (Some c') (upd vs1 s new) ltac:(lia) INV1) as (d' & vs' & c2 & r & stop & E & H1 & H2 & H3 & H4). exists d', vs', c2, r, stop. rewrite E.
    refine (conj eq_refl (conj _ (conj H2 (conj _ _)))); [lia|eapply Below_trans; [apply dmax_l|exact H3]|]. destruct r; [lia|]. destruct H4 as (? & ? & ?). split; [lia|]. auto.
Qed.
Lemma vectors_spec d orig : Forall (fun r => len r = k) orig -> Forall (Forall (OfDt d)) orig ->
  exists d' vs' r stop, transformVectors floatOf intOf F only d orig = ((d', vs'), r) /\ stop <= len orig /\
    (len vs' = len orig /\ Forall (fun r => len r = k) vs' /\ Forall (Forall (OfDt d')) vs' /\
     forall i r, nth_error orig i = Some r -> exists v, nth_error vs' i = Some v /\
       (if sel i && (i <? stop) then exists r' ret, SameList r r' /\ F r' = Ok ret /\ Forall2 Returned ret v else SameList r v)) /\
    match r with
    | Ok _ => stop = len orig
    | Err e => stop < len orig /\ sel stop = true /\ exists r0 r', nth_error orig stop = Some r0 /\ SameList r0 r' /\ F r' = Err e
    end.
Proof.
  intros KO OO. unfold transformVectors.
  destruct (loop_spec orig KO (len orig) 0 d None orig) as (d' & vs' & c & r & stop & E & H1 & INV & HB & H4); [lia| |].
  { refine (conj eq_refl (conj KO (conj OO _))). intros i r E. exists r. split; auto. replace (i <? 0) with false by reflexivity. rewrite Bool.andb_false_r. apply SameList_refl. }
  rewrite E. cbn [Nat.add] in *.
  assert (BASE : len vs' = len orig /\ Forall (fun r => len r = k) vs' /\ Forall (Forall (OfDt d')) vs' /\
     forall i r, nth_error orig i = Some r -> exists v, nth_error vs' i = Some v /\
       (if sel i && (i <? stop) then exists r' ret, SameList r r' /\ F r' = Ok ret /\ Forall2 Returned ret v else SameList r v)).
  { destruct INV as (A & B & C & D). refine (conj A (conj B (conj C _))). intros i r0 E0. destruct (D i r0 E0) as (v & V & X). exists v. split; auto. destruct (sel i && (i <? stop)); tauto. }
  destruct r as [u|e]; [|exists d', vs', (Err e), stop; refine (conj eq_refl (conj _ (conj BASE H4))); lia].
  assert (KEEP : exists d1 vs1 r stop, ((d', vs'), Ok tt) = ((d1, vs1), r) /\ stop <= len orig /\
    (len vs1 = len orig /\ Forall (fun r => len r = k) vs1 /\ Forall (Forall (OfDt d1)) vs1 /\
     forall i r, nth_error orig i = Some r -> exists v, nth_error vs1 i = Some v /\
       (if sel i && (i <? stop) then exists r' ret, SameList r r' /\ F r' = Ok ret /\ Forall2 Returned ret v else SameList r v)) /\
    match r : result unit with
    | Ok _ => stop = len orig
    | Err e => stop < len orig /\ sel stop = true /\ exists r0 r', nth_error orig stop = Some r0 /\ SameList r0 r' /\ F r' = Err e
    end) by (exists d', vs', (Ok tt), stop; refine (conj eq_refl (conj _ (conj BASE H4))); lia).
  destruct only as [l|] eqn:EO; [exact KEEP|]. destruct c as [c'|]; [|exact KEEP]. destruct (isDObj d' && negb (isDObj c')); [|exact KEEP]. clear KEEP.
  destruct INV as (A & B & C & D). subst stop.
  destruct (castVectors c' vs') as (vs2 & E2 & S2 & O2).
  { apply Forall_forall. intros v I. apply In_nth_error in I. destruct I as [i I]. destruct (nth_error_is_some orig (i := i)) as [r0 E0]; [rewrite <- A; eapply nth_error_lt; eauto|].
    destruct (D i r0 E0) as (v' & V & X). rewrite I in V. injection V as <-. unfold sel in X. rewrite EO in X. rewrite (proj2 (Nat.ltb_lt i (len orig))) in X by (eapply nth_error_lt; eauto).
    cbn [andb typeOf] in X. tauto. }
  rewrite E2. exists c', vs2, (Ok tt), (len orig). refine (conj eq_refl (conj _ (conj _ eq_refl))); [lia|]. refine (conj _ (conj _ (conj O2 _))).
  - rewrite <- (F2len _ _ _ S2). exact A.
  - apply Forall_forall. intros r I. apply In_nth_error in I. destruct I as [i I]. destruct (nth_error_is_some vs' (i := i)) as [r1 E3]; [rewrite (F2len _ _ _ S2); eapply nth_error_lt; eauto|].
    destruct (F2nth _ _ _ _ _ S2 E3) as (r2 & E4 & SR). rewrite I in E4. injection E4 as <-. rewrite <- (F2len _ _ _ SR). eapply (Forall_nth (fun r => len r = k)); eauto.
  - intros i r E0. destruct (proj2 (proj2 (proj2 BASE)) i r E0) as (v & V & X). destruct (F2nth _ _ _ _ _ S2 V) as (v2 & V2 & SV). exists v2. split; auto.
    destruct (sel i && (i <? len orig)).
    + destruct X as (r' & ret & X1 & X2 & X3). exists r', ret. split; auto. split; auto. eapply Returned_list; eauto.
    + eapply SameList_trans; eauto.
Qed.
End T.
