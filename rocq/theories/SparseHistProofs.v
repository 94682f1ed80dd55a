From Verif Require Import Base NamesModel NamesSpec TableModel TableSpec TableProofs TableOps TableSortProofs SparseModel SparseSpec SparseProofs SparseOpsProofs.
From Coq Require Import Sorted.

Section P.
Variable V : Type.
Context {EV : EqDec V}.
Variable zero : V.
Implicit Types s : sparse V.
Notation val := (val zero).
Notation valS := (valS zero).

Lemma StronglySorted_filter {A} (R : A -> A -> Prop) f l : StronglySorted R l -> StronglySorted R (filter f l).
Proof.
  induction 1 as [|a l HS IH HF]; simpl; [constructor|]. destruct (f a); auto. constructor; auto.
  rewrite Forall_forall in *. intros x Hx. apply filter_In in Hx. apply HF; tauto.
Qed.
Lemma NoDup_map_filter {A B} (g : A -> B) f l : NoDup (map g l) -> NoDup (map g (filter f l)).
Proof.
  induction l as [|a l IH]; simpl; [auto|]. intros Hn. inversion Hn; subst. destruct (f a); simpl; auto.
  constructor; auto. intros Hin. apply H1. apply in_map_iff in Hin. destruct Hin as [b [E Hb]]. apply filter_In in Hb.
  apply in_map_iff. exists b. tauto.
Qed.

(** ** zero preserving in-place maps *)
Lemma mapNonzero_ents s f : entsOK zero s ->
  entsOK zero (mapNonzero zero s f) /\
  forall i j, val (mapNonzero zero s f) i j = if eqbd (val s i j) zero then zero else f i j (val s i j).
Proof.
  intros HE. pose proof HE as [N R].
  set (g := fun e : entry V => mkE (er e) (ec e) (f (er e) (ec e) (ev e))).
  assert (HE' : entsOK zero (mapNonzero zero s f)).
  { split; cbn [mapNonzero withEnts ents snp snf]; fold g.
    - apply NoDup_map_filter. rewrite map_map. exact N.
    - intros e He. apply filter_In in He. destruct He as [He Hz]. apply in_map_iff in He. destruct He as [x [<- Hx]].
      simpl. destruct (R x Hx) as [A [B C]]. split; auto. split; auto. apply negb_true_iff in Hz. apply eqbd_false in Hz. auto. }
  split; auto. intros i j.
  assert (Hin : forall v, In (mkE i j v) (ents (mapNonzero zero s f)) <-> exists w, In (mkE i j w) (ents s) /\ v = f i j w /\ v <> zero).
  { intros v. cbn [mapNonzero withEnts ents]. fold g. rewrite filter_In. rewrite in_map_iff, negb_true_iff.
    unfold eqbd. split.
    - intros [[e [E He]] Hz]. unfold g in E. injection E as A B C. subst. exists (ev e). destruct e; simpl in *.
      destruct (eq_dec (f er ec ev) zero); [discriminate|]. auto.
    - intros [w [Hw [-> Hz]]]. split; [exists (mkE i j w); auto|]. simpl. destruct (eq_dec (f i j w) zero); tauto. }
  destruct (eq_dec (val s i j) zero) as [Hz|Hz].
  - unfold eqbd; destruct (eq_dec (val s i j) zero); [|tauto].
    destruct (eq_dec (val (mapNonzero zero s f) i j) zero) as [|Hnz]; auto. exfalso.
    pose proof (val_nonzero V zero _ _ _ _ eq_refl Hnz) as Hi. apply Hin in Hi. destruct Hi as [w [Hw [_ _]]].
    pose proof (val_In V zero s i j w N Hw). apply R in Hw. simpl in Hw. destruct Hw as [_ [_ Hw]]. congruence.
  - unfold eqbd; destruct (eq_dec (val s i j) zero); [tauto|].
    pose proof (val_nonzero V zero _ _ _ _ eq_refl Hz) as Hi.
    destruct (eq_dec (f i j (val s i j)) zero) as [Hfz|Hfz].
    + destruct (eq_dec (val (mapNonzero zero s f) i j) zero) as [|Hnz]; [congruence|]. exfalso.
      pose proof (val_nonzero V zero _ _ _ _ eq_refl Hnz) as Hj. apply Hin in Hj. destruct Hj as [w [Hw [Ew _]]].
      pose proof (val_In V zero s i j w N Hw) as E0. rewrite <- E0 in Ew. congruence.
    + apply val_In; [apply HE'|]. apply Hin. eauto.
Qed.
Lemma mapNonzero_keepcache s f : sinv zero s -> (forall i j v, v <> zero -> f i j v <> zero) ->
  sinv zero (mapNonzero zero s f).
Proof.
  intros [HE HC] Hf. pose proof HE as [N R]. destruct (mapNonzero_ents s f HE) as [HE' _]. split; auto.
  assert (Hm : map pos (ents (mapNonzero zero s f)) = map pos (ents s)).
  { cbn [mapNonzero withEnts ents]. clear HC N HE HE'. induction (ents s) as [|a l IH]; simpl; auto.
    assert (Hz : eqbd (f (er a) (ec a) (ev a)) zero = false).
    { apply eqbd_neq. apply Hf. apply R; simpl; auto. }
    rewrite Hz. simpl. f_equal. apply IH. intros e He; apply R; simpl; auto. }
  unfold cacheOK in *. cbn [mapNonzero withEnts sAxis sIdx snp snf] in *.
  change (filter _ _) with (ents (mapNonzero zero s f)) in *.
  destruct (sAxis s) as [sd|]; auto. destruct HC as [HS HI]. split.
  - eapply StronglySorted_map_pos; [symmetry; exact Hm|auto].
  - destruct (sIdx s) as [idx|]; auto. destruct HI as [HL HI]. split; [destruct sd; auto|].
    rewrite (prim_map_pos V sd _ _ Hm). auto.
Qed.
Lemma mapNonzero_nocache s f : sinv zero s -> sIdx s = None -> sinv zero (mapNonzero zero s f).
Proof.
  intros [HE HC] Hi. destruct (mapNonzero_ents s f HE) as [HE' _]. split; auto.
  unfold cacheOK in *. cbn [mapNonzero withEnts sAxis sIdx]. rewrite Hi in *. destruct (sAxis s) as [sd|]; auto.
  destruct HC as [HS _]. split; auto.
  change (StronglySorted (lexlt sd) (ents (mapNonzero zero s f))). cbn [mapNonzero withEnts ents].
  apply StronglySorted_filter. eapply StronglySorted_map_pos; [|exact HS]. rewrite map_map. reflexivity.
Qed.

(** ** zeroing a rectangle *)
Definition inRect (ps fs pe fe i j : nat) : bool := (ps <=? i) && (i <=? pe) && (fs <=? j) && (j <=? fe).
Lemma zeroRectangle_ents s ps fs pe fe : entsOK zero s ->
  entsOK zero (zeroRectangle s ps fs pe fe) /\
  forall i j, val (zeroRectangle s ps fs pe fe) i j = if inRect ps fs pe fe i j then zero else val s i j.
Proof.
  intros HE. pose proof HE as [N R].
  assert (HE' : entsOK zero (zeroRectangle s ps fs pe fe)).
  { split; cbn [zeroRectangle withEnts ents snp snf]; [apply NoDup_map_filter; auto|].
    intros e He. apply filter_In in He. apply R; tauto. }
  split; auto. intros i j. destruct (inRect ps fs pe fe i j) eqn:E.
  - destruct (eq_dec (val (zeroRectangle s ps fs pe fe) i j) zero) as [|Hnz]; auto. exfalso.
    pose proof (val_nonzero V zero _ _ _ _ eq_refl Hnz) as Hi. cbn [zeroRectangle withEnts ents] in Hi.
    apply filter_In in Hi. destruct Hi as [_ Hi]. simpl in Hi. unfold inRect in E. rewrite E in Hi. discriminate.
  - apply val_eq; auto. intros v _. cbn [zeroRectangle withEnts ents]. rewrite filter_In. simpl.
    unfold inRect in E. rewrite E. simpl. tauto.
Qed.
Lemma zeroRectangle_nocache s ps fs pe fe : sinv zero s -> sIdx s = None -> sinv zero (zeroRectangle s ps fs pe fe).
Proof.
  intros [HE HC] Hi. destruct (zeroRectangle_ents s ps fs pe fe HE) as [HE' _]. split; auto.
  unfold cacheOK in *. cbn [zeroRectangle withEnts sAxis sIdx ents]. rewrite Hi in *. destruct (sAxis s) as [sd|]; auto.
  destruct HC as [HS _]. split; auto. apply StronglySorted_filter; auto.
Qed.

(** ** histories *)
Definition sameM (s : sparse V) (m : amat V) : Prop :=
  snp s = mn m /\ snf s = mf m /\ forall i j, i < mn m -> j < mf m -> val s i j = mv m i j.
Lemma sameM_sd sd s m : sameM s m <-> axLen sd s = mlen sd m /\ offLen sd s = moff sd m /\
  forall p o, p < mlen sd m -> o < moff sd m -> valS sd s p o = mvec sd m p o.
Proof.
  unfold sameM. destruct sd; cbn [axLen offLen mlen moff SparseSpec.valS mvec]; [tauto|].
  split; intros [A [B C]]; repeat split; auto.
Qed.
Lemma sameM_build sd s n off f : axLen sd s = n -> offLen sd s = off ->
  (forall p o, p < n -> o < off -> valS sd s p o = f p o) -> sameM s (mbuild sd n off f).
Proof.
  intros A B C. apply (sameM_sd sd). destruct sd; cbn [mbuild mlen moff mn mf mvec mv]; auto.
Qed.

Lemma sstep_ok s m o : sinv zero s -> sameM s m -> mvalid zero m o ->
  sinv zero (sstep zero s o) /\ sameM (sstep zero s o) (mstep zero m o).
Proof.
  intros HI HM Hv. destruct o; cbn [sstep mstep mvalid] in *.
  - destruct HM as [A [B C]]. destruct Hv as [Hx Hy].
    destruct (getitem_spec V zero s x y HI) as [H1 [H2 H3]]; try lia.
    split; auto. destruct H3 as [Q1 [Q2 Q3]]. split; [congruence|]. split; [congruence|]. intros; rewrite Q3; auto.
  - destruct HM as [A [B C]]. destruct Hv as [Hx Hy].
    destruct (setitem_spec V zero s x y v HI) as [H1 [H2 [H3 [H4 H5]]]]; try lia.
    split; auto. split; [cbn [mn]; congruence|]. split; [cbn [mf]; congruence|]. cbn [mn mf mv]. intros i j Hi Hj. rewrite H5.
    destruct ((i =? x) && (j =? y)); auto.
  - destruct HM as [A [B C]]. destruct (sTranspose_spec V zero s HI) as [H1 [H2 [H3 H4]]]. split; auto.
    split; [cbn [mn]; congruence|]. split; [cbn [mf]; congruence|]. cbn [mn mf mv]. intros. rewrite H4; auto.
  - apply (sameM_sd sd) in HM. destruct HM as [A [B C]]. rewrite <- A in Hv.
    destruct (sPermute_spec V zero sd s order HI Hv) as [H1 [H2 [H3 H4]]]. split; auto.
    apply sameM_build; [destruct sd; simpl in *; congruence|destruct sd; simpl in *; congruence|].
    intros p q Hp Hq. assert (Hl : List.length order = mlen sd m) by (rewrite (Permutation_length Hv), seq_length; auto).
    destruct (nth_error_is_some order (i:=p)) as [i Ei]; [lia|].
    rewrite (H4 p i q Ei), (nth_error_nth order p 0 Ei). apply C; auto.
    apply nth_error_In in Ei. apply (Permutation_in _ Hv) in Ei. apply in_seq in Ei. lia.
  - apply (sameM_sd sd) in HM. destruct HM as [A [B C]]. destruct Hv as [Ht [Ho Hb]].
    destruct (sInsert_spec V zero sd s other before HI Ht) as [H1 [H2 [H3 H4]]]; try lia. split; auto.
    apply sameM_build; [lia|lia|]. intros p q Hp Hq. rewrite H4.
    destruct (Nat.ltb_spec p before); [apply C; lia|]. destruct (Nat.ltb_spec p (before + axLen sd other)); auto. apply C; lia.
  - apply (sameM_sd sd) in HM. destruct HM as [A [B C]].
    destruct (sRepeat_spec V zero sd s total vectorByVector HI Hv) as [H1 [H2 [H3 H4]]]. split; auto.
    apply sameM_build; [lia|lia|]. intros p q Hp Hq. rewrite H4 by lia. rewrite A. apply C; auto.
    destruct vectorByVector; [apply Nat.div_lt_upper_bound; lia|apply Nat.mod_upper_bound; nia].
  - apply (sameM_sd sd) in HM. destruct HM as [A [B C]].
    destruct (sTaken_spec V zero fast sd s targets HI) as [H1 [H2 [H3 H4]]]. split; auto.
    apply sameM_build; [lia|lia|]. intros p q Hp Hq.
    destruct (nth_error_is_some targets (i:=p)) as [i Ei]; [lia|].
    rewrite (H4 p i q Ei), (nth_error_nth targets p 0 Ei). apply C; auto. apply Hv. eapply nth_error_In; eauto.
  - apply (sameM_sd sd) in HM. destruct HM as [A [B C]].
    destruct (sRemaining_spec V zero fast sd s targets HI) as [H1 [H2 [H3 H4]]]. split; auto.
    unfold keepIdx in *. rewrite A in *.
    apply sameM_build; [lia|lia|]. intros p q Hp Hq.
    match type of H4 with forall k p o, nth_error ?K k = _ -> _ => set (keep := K) in * end.
    destruct (nth_error_is_some keep (i:=p)) as [i Ei]; [lia|].
    rewrite (H4 p i q Ei), (nth_error_nth keep p 0 Ei). apply C; auto.
    apply nth_error_In in Ei. apply filter_In in Ei. destruct Ei as [Ei _]. apply in_seq in Ei. lia.
  - destruct HM as [A [B C]]. split; [apply mapNonzero_keepcache; auto|].
    destruct (mapNonzero_ents s f) as [_ H]; [apply HI|]. split; auto. split; auto. cbn [mn mf mv].
    intros i j Hi Hj. rewrite H, C; auto.
Qed.
Lemma history_ok h : forall s m, sinv zero s -> sameM s m -> validHistory zero m h ->
  sinv zero (fold_left (sstep zero) h s) /\ sameM (fold_left (sstep zero) h s) (fold_left (mstep zero) h m).
Proof.
  induction h as [|o h IH]; intros s m HI HM Hv; simpl in *; auto. destruct Hv as [Hv Hh].
  destruct (sstep_ok s m o HI HM Hv) as [A B]. apply IH; auto.
Qed.
Lemma history_get s h x y : sinv zero s -> validHistory zero (matrixOf zero s) h ->
  let m := fold_left (mstep zero) h (matrixOf zero s) in
  x < mn m -> y < mf m -> snd (getitem zero (fold_left (sstep zero) h s) x y) = Ok (mv m x y).
Proof.
  intros HI Hv m Hx Hy. destruct (history_ok h s (matrixOf zero s) HI) as [A [B [C D]]]; auto; [repeat split; auto|].
  fold m in B, C, D. destruct (getitem_spec V zero (fold_left (sstep zero) h s) x y A) as [E _]; try lia.
  rewrite E, D; auto.
Qed.
End P.
