(** Proofs about obj[...] (C66). *)
From Verif Require Import Base NamesModel NamesSpec NamesProofs NamesIndexProofs TableModel TableSpec TableProofs TableOps TableOps3Proofs PrepProofs IdentModel IdentProofs ElementsProofs ViewModel MatchModel MatchSpec SparseModel SparseRefine GetModel GetSpec.
From Coq Require Import Sorted.

Definition selRes (a : axis) (r : sres) : list Z := match r with ROne z => [z] | RMany o => selection a o end.

Lemma map_of_nat_single z l : [z] = map Z.of_nat l -> exists i, l = [i] /\ z = Z.of_nat i.
Proof. destruct l as [|i [|? ?]]; try discriminate. intros [= ->]. eauto. Qed.
Lemma map_of_nat_inj l l' : map Z.of_nat l = map Z.of_nat l' -> l = l'.
Proof. revert l'. induction l as [|x l IH]; intros [|y l'] H; try discriminate; auto. injection H as E H. f_equal; [lia|auto]. Qed.
Lemma Denotes_range a id z : Inv a -> FloatInRange a id -> Denotes a true id z -> (0 <= z < Z.of_nat (alen a))%Z.
Proof. intros Hi Hf H. apply (getIndex_Denotes _ _ true z Hi Hf) in H. exact (getIndex_ok_range _ _ _ _ Hi Hf H). Qed.
Lemma slice_float a (o : option ident) d : (forall i, o = Some i -> FloatInRange a i) -> FloatInRange a (slice_default o d).
Proof. intros H. destruct o; cbn [slice_default]; [auto|]. exact Logic.I. Qed.

Lemma processMultiple_slice_ok a st sp se s e : Inv a -> 0 < alen a ->
  (forall i, st = Some i -> FloatInRange a i) -> (forall i, sp = Some i -> FloatInRange a i) ->
  Denotes a true (slice_default st 0) s -> Denotes a true (slice_default sp (Z.of_nat (alen a) - 1)) e ->
  slice_step se <> 0%Z -> exists r, processMultiple a (KSlice st sp se) = Ok r.
Proof.
  intros Hi Hl F1 F2 D1 D2 Hs.
  assert (G1 : getIndex a (slice_default st 0) true = Ok s) by (apply getIndex_Denotes; auto; apply slice_float; auto).
  assert (G2 : getIndex a (slice_default sp (Z.of_nat (alen a) - 1)) true = Ok e) by (apply getIndex_Denotes; auto; apply slice_float; auto).
  unfold processMultiple. unfold slice_default in G1, G2. unfold slice_step in Hs.
  assert (P : forall x, exists r, rmap Some (pyrange s x match se with Some z => z | None => 1%Z end) = Ok r).
  { intros x. unfold pyrange. apply Z.eqb_neq in Hs. rewrite Hs. cbn [rmap]. eauto. }
  destruct st as [i|], sp as [j|], se as [z|]; try (rewrite G1; cbn [rbind]; rewrite G2; cbn [rbind];
    match goal with |- context [if ?c then Ok None else _] => destruct c end; eauto); eauto.
Qed.

Lemma Selects_nonneg_slice s e step x m : (0 <= s)%Z -> (0 <= e)%Z -> x = (s + Z.of_nat m * step)%Z ->
  ((0 < step /\ x <= e)%Z \/ (step < 0 /\ e <= x)%Z) -> (0 <= x)%Z.
Proof. intros. destruct H2 as [[A B]|[A B]]; nia. Qed.

Lemma sorted_lt_nth (l : list nat) : (forall i j x y, i < j -> nth_error l i = Some x -> nth_error l j = Some y -> x < y) -> StronglySorted lt l.
Proof.
  induction l as [|x l IH]; intros H; [constructor|]. constructor.
  - apply IH. intros i j u v Hij Hu Hv. apply (H (Datatypes.S i) (Datatypes.S j)); auto; lia.
  - apply Forall_forall. intros y Hy. apply In_nth_error in Hy. destruct Hy as [k Hk]. apply (H 0 (Datatypes.S k)); auto; lia.
Qed.
Lemma StronglySorted_lt_nth (l : list nat) : StronglySorted lt l -> forall i j x y, i < j -> nth_error l i = Some x -> nth_error l j = Some y -> x < y.
Proof.
  induction 1 as [|x l HS IH HF]; intros i j u v Hij Hu Hv; [destruct i; discriminate|].
  destruct j; [lia|]. destruct i.
  - injection Hu as <-. rewrite Forall_forall in HF. apply HF. eapply nth_error_In; eauto.
  - apply (IH i j); auto; lia.
Qed.

Lemma resolve_Selects a k l : Inv a -> 0 < alen a -> PlainKey a k ->
  ((exists r, resolveKey a k = Ok r /\ selRes a r = map Z.of_nat l) <-> Selects a k l).
Proof.
  intros Hi Hl HP. split.
  - intros [r [E S]]. destruct k as [id|[st sp se|kl]]; cbn [resolveKey PlainKey] in *.
    + destruct (getIndex a id true) as [z|] eqn:G; [|discriminate]. injection E as <-. cbn [selRes] in S.
      destruct (map_of_nat_single _ _ S) as [i [-> ->]]. constructor. apply getIndex_Denotes; auto.
    + destruct HP as [F1 F2]. destruct (processMultiple a (KSlice st sp se)) as [o|] eqn:G; [|discriminate]. injection E as <-.
      destruct (processMultiple_slice a st sp se o Hi Hl F1 F2 G) as [s [e [D1 [D2 [Hs HN]]]]].
      cbn [selRes] in S. rewrite S in HN. econstructor; eauto. intros m x. rewrite <- (HN m (Z.of_nat x)).
      rewrite nth_error_map. split; [intros ->; auto|]. destruct (nth_error l m); cbn; [|discriminate]. intros [= H]. f_equal. lia.
    + destruct HP as [[mask ->]|[ids [-> HF]]].
      * destruct (Nat.eq_dec (List.length mask) (alen a)) as [Hm|Hm].
        -- destruct (processMultiple_mask a mask Hm) as [sel [G [M1 M2]]]. rewrite G in E. injection E as <-. cbn in S. subst sel.
           apply sel_mask; auto.
           ++ intros i. specialize (M1 (Z.of_nat i)). split.
              ** intros H. apply (in_map Z.of_nat) in H. apply M1 in H. destruct H as [i' [E H]]. apply Nat2Z.inj in E. subst; auto.
              ** intros H. assert (In (Z.of_nat i) (map Z.of_nat l)) as X by (apply M1; eauto). apply in_map_iff in X.
                 destruct X as [y [E X]]. apply Nat2Z.inj in E. subst; auto.
           ++ apply sorted_lt_nth. intros i j x y Hij Hx Hy. specialize (M2 i j (Z.of_nat x) (Z.of_nat y) Hij).
              rewrite !nth_error_map, Hx, Hy in M2. specialize (M2 eq_refl eq_refl). lia.
        -- destruct mask as [|b mask].
           ++ apply (sel_ids a [] l); [|].
              ** pose proof (proj1 (processMultiple_ids a [] (map Z.of_nat l) Hi Hl (fun i H => match H with end))) as X.
                 destruct (processMultiple a (NamesModel.KList (map KBool []))) as [o|] eqn:G; [|discriminate]. injection E as <-.
                 destruct X as [X _]; [exists o; auto|]. destruct l; [constructor|inversion X].
              ** pose proof (proj1 (processMultiple_ids a [] (map Z.of_nat l) Hi Hl (fun i H => match H with end))) as X.
                 destruct (processMultiple a (NamesModel.KList (map KBool []))) as [o|] eqn:G; [|discriminate]. injection E as <-.
                 destruct X as [X _]; [exists o; auto|]. destruct l; [constructor|inversion X].
           ++ rewrite (processMultiple_mask_wrong a (b :: mask) Hm) in E by discriminate. discriminate.
      * destruct (processMultiple a (NamesModel.KList (map KId ids))) as [o|] eqn:G; [|discriminate]. injection E as <-.
        destruct (proj1 (processMultiple_ids a ids (map Z.of_nat l) Hi Hl HF)) as [X1 X2]; [exists o; auto|].
        apply sel_ids; [|apply NoDup_map_inv in X2; auto].
        clear - X1. revert l X1. induction ids; intros [|x l] H; inversion H; subst; constructor; auto.
  - intros HS. destruct HS as [id i D|st sp se s e l D1 D2 Hs HN|mask l Hm HI HSo|ids l HF HN]; cbn [resolveKey PlainKey] in *.
    + rewrite (proj2 (getIndex_Denotes a id true (Z.of_nat i) Hi HP) D). exists (ROne (Z.of_nat i)). auto.
    + destruct HP as [F1 F2]. destruct (processMultiple_slice_ok a st sp se s e Hi Hl F1 F2 D1 D2 Hs) as [r G].
      rewrite G. exists (RMany r). split; auto. cbn [selRes].
      destruct (processMultiple_slice a st sp se r Hi Hl F1 F2 G) as [s' [e' [D1' [D2' [_ HN']]]]].
      assert (s' = s).
      { pose proof (proj2 (getIndex_Denotes a _ true _ Hi (slice_float a st 0 F1)) D1). pose proof (proj2 (getIndex_Denotes a _ true _ Hi (slice_float a st 0 F1)) D1'). congruence. }
      assert (e' = e).
      { pose proof (proj2 (getIndex_Denotes a _ true _ Hi (slice_float a sp (Z.of_nat (alen a) - 1) F2)) D2). pose proof (proj2 (getIndex_Denotes a _ true _ Hi (slice_float a sp (Z.of_nat (alen a) - 1) F2)) D2'). congruence. }
      subst s' e'. pose proof (Denotes_range a _ _ Hi (slice_float a st 0 F1) D1). pose proof (Denotes_range a _ _ Hi (slice_float a sp (Z.of_nat (alen a) - 1) F2) D2).
      apply nth_error_ext. intros m. rewrite nth_error_map. destruct (nth_error (selection a r) m) as [x|] eqn:Ex.
      * apply HN' in Ex. destruct Ex as [E1 E2]. assert (0 <= x)%Z by (eapply Selects_nonneg_slice; [| |exact E1|exact E2]; lia).
        assert (X : nth_error l m = Some (Z.to_nat x)) by (apply HN; rewrite Z2Nat.id by lia; auto).
        rewrite X. cbn. rewrite Z2Nat.id by lia. auto.
      * destruct (nth_error l m) as [x|] eqn:El; auto. apply HN in El. apply HN' in El. congruence.
    + destruct (processMultiple_mask a mask Hm) as [sel [G [M1 M2]]]. rewrite G. exists (RMany (Some sel)). split; auto. cbn [selRes selection].
      (* both sorted with the same members *)
      assert (Hn : forall z, In z sel -> (0 <= z)%Z) by (intros z Hz; apply M1 in Hz; destruct Hz as [i [-> _]]; lia).
      assert (E : map Z.to_nat sel = l).
      { apply (sorted_lt_ext).
        - apply sorted_lt_nth. intros i j x y Hij Hx Hy. rewrite nth_error_map in Hx, Hy.
          destruct (nth_error sel i) as [u|] eqn:Eu; [|discriminate]. destruct (nth_error sel j) as [v|] eqn:Ev; [|discriminate].
          injection Hx as <-. injection Hy as <-. pose proof (M2 i j u v Hij Eu Ev). pose proof (Hn u (nth_error_In _ _ Eu)). lia.
        - exact HSo.
        - intros i. rewrite HI. split.
          + intros H. apply in_map_iff in H. destruct H as [z [<- H]]. apply M1 in H. destruct H as [i' [-> H]]. rewrite Nat2Z.id. auto.
          + intros H. apply in_map_iff. exists (Z.of_nat i). rewrite Nat2Z.id. split; auto. apply M1. eauto. }
      rewrite <- E. rewrite map_map. rewrite <- (map_id sel) at 1. apply map_ext_in. intros z Hz. rewrite Z2Nat.id; auto.
    + destruct HP as [[mask E]|[ids' [E HF']]].
      * destruct ids as [|id ids]; [|destruct mask; discriminate]. inversion HF; subst.
        destruct (proj2 (processMultiple_ids a [] [] Hi Hl (fun i H => match H with end))) as [r [G1 G2]]; [split; constructor|].
        rewrite G1. exists (RMany r). auto.
      * assert (ids' = ids) as -> by (clear - E; revert ids' E; induction ids; intros [|? ?] H; try discriminate; auto; injection H as -> H; f_equal; auto).
        destruct (proj2 (processMultiple_ids a ids (map Z.of_nat l) Hi Hl HF')) as [r [G1 G2]].
        { split; [|apply FinFun.Injective_map_NoDup; auto; intros x y; lia]. clear - HF. induction HF; constructor; auto. }
        rewrite G1. exists (RMany r). auto.
Qed.

Lemma Selects_fun a k l l' : Inv a -> 0 < alen a -> PlainKey a k -> Selects a k l -> Selects a k l' -> l = l'.
Proof.
  intros Hi Hl HP S1 S2. apply resolve_Selects in S1, S2; auto. destruct S1 as [r [E1 X1]]. destruct S2 as [r' [E2 X2]].
  apply map_of_nat_inj. congruence.
Qed.
Lemma Selects_range a k l : Inv a -> 0 < alen a -> PlainKey a k -> Selects a k l -> NoDup l /\ forall i, In i l -> i < alen a.
Proof.
  intros Hi Hl HP S. destruct S as [id i D|st sp se s e l D1 D2 Hs HN|mask l Hm HI HSo|ids l HF HN]; cbn [PlainKey] in *.
  - split; [repeat constructor; intros []|]. intros x [<-|[]]. pose proof (Denotes_range _ _ _ Hi HP D). lia.
  - destruct HP as [F1 F2]. pose proof (Denotes_range a _ _ Hi (slice_float a st 0 F1) D1). pose proof (Denotes_range a _ _ Hi (slice_float a sp (Z.of_nat (alen a) - 1) F2) D2).
    split.
    + apply NoDup_nth_error. intros i j Hij E. destruct (nth_error l i) as [x|] eqn:Ei.
      * symmetry in E. apply HN in Ei, E. destruct Ei as [E1 _]. destruct E as [E2 _]. rewrite E1 in E2. nia.
      * apply nth_error_None in Ei. lia.
    + intros i Hin. apply In_nth_error in Hin. destruct Hin as [m Hm]. apply HN in Hm. destruct Hm as [E [[A B]|[A B]]]; nia.
  - split.
    + clear - HSo. induction HSo as [|x l HSo IH HF]; constructor; auto. intros Hin. rewrite Forall_forall in HF. apply HF in Hin. lia.
    + intros i Hin. apply HI in Hin. apply nth_error_lt in Hin. lia.
  - split; auto. destruct HP as [[mask E]|[ids' [E HF']]].
    + destruct ids; [|destruct mask; discriminate]. inversion HF; subst. intros i [].
    + assert (ids' = ids) as -> by (clear - E; revert ids' E; induction ids; intros [|? ?] H; try discriminate; auto; injection H as -> H; f_equal; auto).
      intros i Hin. clear E HN. induction HF as [|id x ids l D HF IH]; [destruct Hin|]. destruct Hin as [<-|Hin].
      * pose proof (Denotes_range a id _ Hi (HF' id (or_introl eq_refl)) D). lia.
      * apply IH; auto. intros; apply HF'; right; auto.
Qed.

Section T.
Variable V : Type.
Implicit Types t : table V.

Lemma pyIndex_of_nat n i : i < n -> pyIndex n (Z.of_nat i) = Some i.
Proof.
  intros H. unfold pyIndex. destruct (Z.ltb_spec (Z.of_nat i) 0); [lia|].
  destruct (Z.ltb_spec (Z.of_nat i) 0); [lia|]. destruct (Z.leb_spec (Z.of_nat n) (Z.of_nat i)); [lia|]. cbn. rewrite Nat2Z.id; auto.
Qed.
Lemma takenZ_nat sd t l : (forall i, In i l -> i < alen (ax sd t)) -> takenZ sd t (map Z.of_nat l) = taken sd t l.
Proof.
  intros H. unfold takenZ.
  assert (E : rmapM (fun z => match pyIndex (alen (ax sd t)) z with Some i => Ok i | None => Err IndexErr end) (map Z.of_nat l) = Ok l).
  { induction l as [|i l IH]; [reflexivity|]. cbn [map rmapM]. rewrite pyIndex_of_nat by (apply H; left; auto). cbn [rbind].
    rewrite IH by (intros; apply H; right; auto). reflexivity. }
  rewrite E. reflexivity.
Qed.
Lemma taken_Window sd t l : wf t -> NoDup l -> (forall i, In i l -> i < alen (ax sd t)) ->
  exists r, taken sd t l = Ok r /\
    Window t r (match sd with Pts => l | Fts => seq 0 (alen (tp t)) end) (match sd with Pts => seq 0 (alen (tf t)) | Fts => l end).
Proof.
  intros Hw HN HR. destruct (taken_spec V sd t l Hw HN HR) as [r [E [Hr [[O1 O2] [HL HI]]]]]. exists r. split; auto.
  destruct (items_split V sd t r l Hw Hr HR HI) as [N1 [N2 N3]].
  assert (HG : List.length (getNames (ax sd t)) = alen (ax sd t)) by (apply getNames_length, wf_Inv; auto).
  assert (HV : List.length (vectors sd t) = alen (ax sd t)) by (apply vectors_length; auto).
  assert (C : forall i x j, nth_error l i = Some x -> match sd with Pts => cell r i j = cell t x j | Fts => cell r j i = cell t j x end).
  { intros i x j Hx. assert (Hxr : x < alen (ax sd t)) by (apply HR; eapply nth_error_In; eauto).
    pose proof (vec_nth V sd t x Hw Hxr) as E1.
    assert (E2 : nth_error (vectors sd r) i = Some (vec sd t x)).
    { rewrite N2, selected_nth by (intros; rewrite HV; auto). rewrite Hx. auto. }
    pose proof (vectors_cell V sd t x _ j Hw E1) as C1. pose proof (vectors_cell V sd r i _ j Hr E2) as C2.
    destruct sd; congruence. }
  assert (M : forall i x, nth_error l i = Some x -> nth_error (getNames (ax sd r)) i = nth_error (getNames (ax sd t)) x).
  { intros i x Hx. rewrite N1, selected_nth by (intros; rewrite HG; auto). rewrite Hx. auto. }
  unfold Window. destruct sd; cbn [ax offax] in *; rewrite ?seq_length.
  - do 3 (split; auto). split; [|split; auto].
    + intros i x j y Hx Hy. rewrite nth_error_seq in Hy. destruct (j <? alen (tf t)); [|discriminate]. injection Hy as <-. apply C; auto.
    + intros j y Hy. rewrite nth_error_seq in Hy. destruct (j <? alen (tf t)); [|discriminate]. injection Hy as <-. rewrite O2; auto.
  - do 3 (split; auto). split; [|split; auto].
    + intros i x j y Hx Hy. rewrite nth_error_seq in Hx. destruct (i <? alen (tp t)); [|discriminate]. injection Hx as <-. apply C; auto.
    + intros j y Hy. rewrite nth_error_seq in Hy. destruct (j <? alen (tp t)); [|discriminate]. injection Hy as <-. rewrite O2; auto.
Qed.
Lemma Window_copy t : wf t -> exists c, copyTable t = Ok c /\ Window t c (seq 0 (alen (tp t))) (seq 0 (alen (tf t))).
Proof.
  intros Hw. destruct (copyTable_spec V t Hw) as [c [E [W [R [A [B [C D]]]]]]]. exists c. split; auto. unfold Window. rewrite !seq_length.
  do 3 (split; auto). split; [|split].
  - intros i x j y Hx Hy. rewrite nth_error_seq in Hx, Hy. destruct (i <? alen (tp t)); [|discriminate]. destruct (j <? alen (tf t)); [|discriminate].
    injection Hx as <-. injection Hy as <-. unfold cell. rewrite R. auto.
  - intros i x Hx. rewrite nth_error_seq in Hx. destruct (i <? alen (tp t)); [|discriminate]. injection Hx as <-. rewrite C; auto.
  - intros i x Hx. rewrite nth_error_seq in Hx. destruct (i <? alen (tf t)); [|discriminate]. injection Hx as <-. rewrite D; auto.
Qed.
Lemma Window_compose t r r' xs ys : Window t r xs (seq 0 (alen (tf t))) -> (forall y, In y ys -> y < alen (tf t)) ->
  Window r r' (seq 0 (List.length xs)) ys -> Window t r' xs ys.
Proof.
  intros [W1 [P1 [F1 [C1 [N1 M1]]]]] HY [W2 [P2 [F2 [C2 [N2 M2]]]]]. rewrite seq_length in *. unfold Window.
  assert (Q : forall i (x : nat), nth_error xs i = Some x -> nth_error (seq 0 (List.length xs)) i = Some i).
  { intros i x Hx. apply nth_error_lt in Hx. rewrite nth_error_seq. apply Nat.ltb_lt in Hx. rewrite Hx. auto. }
  assert (R : forall j y, nth_error ys j = Some y -> nth_error (seq 0 (alen (tf t))) y = Some y).
  { intros j y Hy. apply nth_error_In, HY in Hy. rewrite nth_error_seq. apply Nat.ltb_lt in Hy. rewrite Hy. auto. }
  do 3 (split; auto). split; [|split].
  - intros i x j y Hx Hy. rewrite (C2 i i j y (Q i x Hx) Hy). apply C1; eauto.
  - intros i x Hx. rewrite (N2 i i (Q i x Hx)). auto.
  - intros j y Hy. rewrite (M2 j y Hy). apply M1. eauto.
Qed.

Lemma selRes_all a o l : selRes a (RMany o) = map Z.of_nat l -> o = None -> l = seq 0 (alen a).
Proof. intros H ->. cbn in H. apply map_of_nat_inj. auto. Qed.

Lemma getItem_spec t kx ky xs ys : wf t -> 0 < alen (tp t) -> 0 < alen (tf t) ->
  PlainKey (tp t) kx -> PlainKey (tf t) ky -> Selects (tp t) kx xs -> Selects (tf t) ky ys ->
  if isSingle kx && isSingle ky
  then exists v x y, getItem t (GPair kx ky) = Ok (GElem v) /\ xs = [x] /\ ys = [y] /\ cell t x y = Some v
  else exists t', getItem t (GPair kx ky) = Ok (GObj t') /\ Window t t' xs ys.
Proof.
  intros Hw Hp Hf PX PY SX SY. pose proof Hw as [A1 [A2 [A3 A4]]].
  destruct (Selects_range _ _ _ A3 Hp PX SX) as [NX RX]. destruct (Selects_range _ _ _ A4 Hf PY SY) as [NY RY].
  pose proof (proj2 (resolve_Selects _ _ _ A3 Hp PX) SX) as [rx [EX ZX]]. pose proof (proj2 (resolve_Selects _ _ _ A4 Hf PY) SY) as [ry [EY ZY]].
  unfold getItem. cbn [splitKey rbind fst snd]. rewrite EX; cbn [rbind]. rewrite EY; cbn [rbind].
  assert (KX : isSingle kx = match rx with ROne _ => true | _ => false end).
  { destruct kx as [id|k]; cbn [resolveKey] in EX; [destruct (getIndex (tp t) id true)|destruct (processMultiple (tp t) k)]; cbn in EX; inversion EX; auto. }
  assert (KY : isSingle ky = match ry with ROne _ => true | _ => false end).
  { destruct ky as [id|k]; cbn [resolveKey] in EY; [destruct (getIndex (tf t) id true)|destruct (processMultiple (tf t) k)]; cbn in EY; inversion EY; auto. }
  assert (G : exists t', match asList rx, asList ry with
        | None, None => copyTable t
        | Some xs, None => takenZ Pts t xs
        | None, Some ys => takenZ Fts t ys
        | Some xs, Some ys => r <- takenZ Pts t xs ;; takenZ Fts r ys
        end = Ok t' /\ Window t t' xs ys).
  { assert (LX : asList rx = Some (map Z.of_nat xs) \/ (asList rx = None /\ xs = seq 0 (alen (tp t)))).
    { destruct rx as [z|[l|]]; cbn in *; [left; congruence|left; congruence|right]. split; auto. apply map_of_nat_inj. auto. }
    assert (LY : asList ry = Some (map Z.of_nat ys) \/ (asList ry = None /\ ys = seq 0 (alen (tf t)))).
    { destruct ry as [z|[l|]]; cbn in *; [left; congruence|left; congruence|right]. split; auto. apply map_of_nat_inj. auto. }
    destruct LX as [-> |[-> ->]], LY as [-> |[-> ->]].
    - rewrite (takenZ_nat Pts t xs RX). destruct (taken_Window Pts t xs Hw NX RX) as [r [E W]]. rewrite E; cbn [rbind].
      pose proof W as [W1 [W2 [W3 _]]]. rewrite seq_length in W3.
      assert (RY' : forall i, In i ys -> i < alen (ax Fts r)) by (intros; cbn [ax]; rewrite W3; auto).
      rewrite (takenZ_nat Fts r ys RY'). destruct (taken_Window Fts r ys W1 NY RY') as [r' [E' W']]. exists r'. split; auto.
      apply (Window_compose t r r'); auto. rewrite W2 in W'. exact W'.
    - rewrite (takenZ_nat Pts t xs RX). apply (taken_Window Pts t xs Hw NX RX).
    - rewrite (takenZ_nat Fts t ys RY). apply (taken_Window Fts t ys Hw NY RY).
    - apply Window_copy; auto. }
  destruct rx as [x|o], ry as [y|o']; rewrite KX, KY; cbn [andb].
  - cbn [selRes] in ZX, ZY. destruct (map_of_nat_single _ _ ZX) as [i [-> ->]]. destruct (map_of_nat_single _ _ ZY) as [j [-> ->]].
    assert (Hi : i < alen (tp t)) by (apply RX; left; auto). assert (Hj : j < alen (tf t)) by (apply RY; left; auto).
    destruct (cell_some t i j Hw Hi Hj) as [v [C _]]. exists v, i, j. split; auto.
    unfold getOne. rewrite A1, pyIndex_of_nat by auto. unfold cell in C. destruct (nth_error (rows t) i) as [r|] eqn:Er; [|discriminate].
    rewrite (A2 r (nth_error_In _ _ Er)), pyIndex_of_nat by auto. rewrite C. reflexivity.
  - destruct G as [t' [E W]]. exists t'. rewrite E. auto.
  - destruct G as [t' [E W]]. exists t'. rewrite E. auto.
  - destruct G as [t' [E W]]. exists t'. rewrite E. auto.
Qed.

Lemma resolve_in_range a k r : Inv a -> 0 < alen a -> PlainKey a k -> resolveKey a k = Ok r -> exists l, selRes a r = map Z.of_nat l.
Proof.
  intros Hi Hl HP E.
  assert (X : forall l : list Z, (forall z, In z l -> (0 <= z)%Z) -> exists l', l = map Z.of_nat l').
  { intros l H. exists (map Z.to_nat l). rewrite map_map. rewrite <- (map_id l) at 1. apply map_ext_in. intros z Hz. rewrite Z2Nat.id; auto. }
  destruct k as [id|[st sp se|kl]]; cbn [resolveKey PlainKey] in *.
  - destruct (getIndex a id true) as [z|] eqn:G; [|discriminate]. injection E as <-. apply X. cbn. intros ? [<-|[]].
    pose proof (getIndex_ok_range _ _ _ _ Hi HP G). lia.
  - destruct HP as [F1 F2]. destruct (processMultiple a (KSlice st sp se)) as [o|] eqn:G; [|discriminate]. injection E as <-.
    destruct (processMultiple_slice a st sp se o Hi Hl F1 F2 G) as [s [e [D1 [D2 [Hs HN]]]]]. cbn [selRes]. apply X.
    intros z Hz. apply In_nth_error in Hz. destruct Hz as [m Hm]. apply HN in Hm. destruct Hm as [E1 E2].
    pose proof (Denotes_range a _ _ Hi (slice_float a st 0 F1) D1). pose proof (Denotes_range a _ _ Hi (slice_float a sp (Z.of_nat (alen a) - 1) F2) D2).
    eapply Selects_nonneg_slice; [| |exact E1|exact E2]; lia.
  - destruct (processMultiple a (NamesModel.KList kl)) as [o|] eqn:G; [|discriminate]. injection E as <-. cbn [selRes]. apply X.
    destruct HP as [[mask ->]|[ids [-> HF]]].
    + destruct (Nat.eq_dec (List.length mask) (alen a)) as [Hm|Hm].
      * destruct (processMultiple_mask a mask Hm) as [sel [G' [M1 M2]]]. rewrite G' in G. injection G as <-. cbn. intros z Hz. apply M1 in Hz. destruct Hz as [i [-> _]]. lia.
      * destruct mask as [|b mask]; [|rewrite (processMultiple_mask_wrong a (b :: mask) Hm) in G by discriminate; discriminate].
        destruct (proj1 (processMultiple_ids a [] (selection a o) Hi Hl (fun i H => match H with end))) as [X1 _]; [exists o; auto|]. inversion X1. intros z [].
    + destruct (proj1 (processMultiple_ids a ids (selection a o) Hi Hl HF)) as [X1 _]; [exists o; auto|].
      clear G. remember (selection a o) as l. clear Heql. induction X1 as [|id z ids l D X1 IH]; intros z' Hz; [destruct Hz|]. destruct Hz as [<-|Hz].
      * pose proof (Denotes_range a id _ Hi (HF id (or_introl eq_refl)) D). lia.
      * apply IH; auto. intros; apply HF; right; auto.
Qed.

Lemma getItem_complete t kx ky g : wf t -> 0 < alen (tp t) -> 0 < alen (tf t) ->
  PlainKey (tp t) kx -> PlainKey (tf t) ky -> getItem t (GPair kx ky) = Ok g ->
  exists xs ys, Selects (tp t) kx xs /\ Selects (tf t) ky ys.
Proof.
  intros Hw Hp Hf PX PY E. pose proof Hw as [A1 [A2 [A3 A4]]]. unfold getItem in E. cbn [splitKey rbind fst snd] in E.
  destruct (resolveKey (tp t) kx) as [rx|] eqn:EX; [|discriminate]. cbn [rbind] in E.
  destruct (resolveKey (tf t) ky) as [ry|] eqn:EY; [|discriminate].
  destruct (resolve_in_range _ _ _ A3 Hp PX EX) as [xs HX]. destruct (resolve_in_range _ _ _ A4 Hf PY EY) as [ys HY].
  exists xs, ys. split; apply resolve_Selects; eauto.
Qed.
Lemma axisItem_spec sd t k l : wf t -> 0 < alen (ax sd t) -> PlainKey (ax sd t) k ->
  (Selects (ax sd t) k l -> exists t', axisItem sd t k = Ok t' /\
     Window t t' (match sd with Pts => l | Fts => seq 0 (alen (tp t)) end) (match sd with Pts => seq 0 (alen (tf t)) | Fts => l end)).
Proof.
  intros Hw Hl HP S. assert (Hi : Inv (ax sd t)) by (apply wf_Inv; auto).
  destruct (Selects_range _ _ _ Hi Hl HP S) as [N R]. pose proof (proj2 (resolve_Selects _ _ _ Hi Hl HP) S) as [r [E Z]].
  unfold axisItem. rewrite E; cbn [rbind].
  assert (LX : asList r = Some (map Z.of_nat l) \/ (asList r = None /\ l = seq 0 (alen (ax sd t)))).
  { destruct r as [z|[l'|]]; cbn in *; [left; congruence|left; congruence|right]. split; auto. apply map_of_nat_inj. auto. }
  destruct LX as [-> |[-> ->]].
  - rewrite takenZ_nat by auto. apply taken_Window; auto.
  - destruct (Window_copy t Hw) as [c [Ec W]]. exists c. split; auto. destruct sd; exact W.
Qed.
End T.
