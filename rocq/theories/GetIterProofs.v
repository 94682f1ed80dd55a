(** Proofs about iterateElements (C66). *)
From Verif Require Import Base NamesModel NamesSpec TableModel TableSpec TableProofs TableOps SparseModel SparseSpec SparseProofs SparseEqProofs ViewModel GetModel GetSpec.
From Coq Require Import Sorted.

Definition positions (order : side) (np nf : nat) : list (nat * nat) :=
  match order with
  | Pts => flat_map (fun i => map (fun j => (i, j)) (seq 0 nf)) (seq 0 np)
  | Fts => flat_map (fun j => map (fun i => (i, j)) (seq 0 np)) (seq 0 nf)
  end.
Lemma positions_In order np nf i j : In (i, j) (positions order np nf) <-> i < np /\ j < nf.
Proof.
  destruct order; unfold positions; rewrite in_flat_map; split.
  - intros [x [Hx H]]. apply in_map_iff in H. destruct H as [y [E Hy]]. injection E as <- <-. apply in_seq in Hx, Hy. lia.
  - intros [A B]. exists i. split; [apply in_seq; lia|]. apply in_map_iff. exists j. split; auto. apply in_seq; lia.
  - intros [x [Hx H]]. apply in_map_iff in H. destruct H as [y [E Hy]]. injection E as <- <-. apply in_seq in Hx, Hy. lia.
  - intros [A B]. exists j. split; [apply in_seq; lia|]. apply in_map_iff. exists i. split; auto. apply in_seq; lia.
Qed.
Lemma sorted_app {A} (R : A -> A -> Prop) l l' : StronglySorted R l -> StronglySorted R l' ->
  (forall x y, In x l -> In y l' -> R x y) -> StronglySorted R (l ++ l').
Proof.
  induction 1 as [|x l HS IH HF]; intros H' HR; cbn; auto. constructor.
  - apply IH; auto. intros; apply HR; auto. right; auto.
  - apply Forall_forall. intros y Hy. apply in_app_or in Hy. destruct Hy as [Hy|Hy].
    + rewrite Forall_forall in HF. auto.
    + apply HR; auto. left; auto.
Qed.
Lemma sorted_map {A B} (R : A -> A -> Prop) (R' : B -> B -> Prop) (f : A -> B) l :
  (forall x y, In x l -> In y l -> R x y -> R' (f x) (f y)) -> StronglySorted R l -> StronglySorted R' (map f l).
Proof.
  intros HR H. induction H as [|x l HS IH HF]; cbn; constructor.
  - apply IH. intros; apply HR; auto; right; auto.
  - apply Forall_forall. intros y Hy. apply in_map_iff in Hy. destruct Hy as [z [<- Hz]]. rewrite Forall_forall in HF.
    apply HR; [left; auto|right; auto|auto].
Qed.
Lemma sorted_filter {A} (R : A -> A -> Prop) (f : A -> bool) l : StronglySorted R l -> StronglySorted R (filter f l).
Proof.
  induction 1 as [|x l HS IH HF]; cbn; [constructor|]. destruct (f x); auto. constructor; auto.
  apply Forall_forall. intros y Hy. apply filter_In in Hy. rewrite Forall_forall in HF. apply HF, Hy.
Qed.
Lemma seq_sorted n : forall s, StronglySorted lt (seq s n).
Proof. induction n; intros s; cbn; constructor; auto. apply Forall_forall. intros y Hy. apply in_seq in Hy. lia. Qed.
Lemma sorted_flat_map {B} (R : B -> B -> Prop) (g : nat -> list B) l : StronglySorted lt l ->
  (forall i, In i l -> StronglySorted R (g i)) ->
  (forall i j x y, i < j -> In x (g i) -> In y (g j) -> R x y) -> StronglySorted R (flat_map g l).
Proof.
  intros HS HG HR. induction HS as [|x l HS IH HF]; cbn; [constructor|]. apply sorted_app; auto.
  - apply HG; left; auto.
  - apply IH. intros; apply HG; right; auto.
  - intros u v Hu Hv. apply in_flat_map in Hv. destruct Hv as [k [Hk Hv]]. rewrite Forall_forall in HF. apply (HR x k); auto.
Qed.
Lemma positions_sorted order np nf : StronglySorted (posBefore order) (positions order np nf).
Proof.
  destruct order; unfold positions; apply sorted_flat_map; try apply seq_sorted.
  - intros i _. apply (sorted_map lt); [|apply seq_sorted]. intros x y _ _ H. cbn. auto.
  - intros i j x y Hij Hx Hy. apply in_map_iff in Hx, Hy. destruct Hx as [a [<- _]]. destruct Hy as [b [<- _]]. cbn. auto.
  - intros i _. apply (sorted_map lt); [|apply seq_sorted]. intros x y _ _ H. cbn. auto.
  - intros i j x y Hij Hx Hy. apply in_map_iff in Hx, Hy. destruct Hx as [a [<- _]]. destruct Hy as [b [<- _]]. cbn. auto.
Qed.
Lemma posBefore_irrefl order p : ~ posBefore order p p.
Proof. destruct order; cbn; lia. Qed.
Lemma posBefore_trans order p q r : posBefore order p q -> posBefore order q r -> posBefore order p r.
Proof. destruct order; cbn; lia. Qed.
Lemma sorted_ext {A} (R : A -> A -> Prop) : (forall x, ~ R x x) -> (forall x y z, R x y -> R y z -> R x z) ->
  forall l l', StronglySorted R l -> StronglySorted R l' -> (forall x, In x l <-> In x l') -> l = l'.
Proof.
  intros Hirr Htr l. induction l as [|x l IH]; intros l' HS HS' HI.
  - destruct l' as [|y l']; auto. exfalso. apply (HI y). left; auto.
  - destruct l' as [|y l']; [exfalso; apply (HI x); left; auto|].
    inversion HS as [|? ? S1 F1]; subst. inversion HS' as [|? ? S2 F2]; subst. rewrite Forall_forall in F1, F2.
    assert (E : x = y).
    { destruct (proj1 (HI x) (or_introl eq_refl)) as [E|Hx]; auto. destruct (proj2 (HI y) (or_introl eq_refl)) as [E|Hy]; auto.
      exfalso. apply (Hirr x). eapply Htr; eauto. }
    subst y. f_equal. apply IH; auto. intros z. split; intros Hz.
    + destruct (proj1 (HI z) (or_intror Hz)) as [E|H]; auto. subst z. exfalso. apply (Hirr x). auto.
    + destruct (proj2 (HI z) (or_intror Hz)) as [E|H]; auto. subst z. exfalso. apply (Hirr x). auto.
Qed.

Section I.
Variable V : Type.

Definition colOf (m : list (list V)) (j : nat) : list V := flat_map (fun r => match nth_error r j with Some v => [v] | None => [] end) m.
Lemma Forall2_app_all {A B} (R : A -> B -> Prop) l1 l2 m1 m2 : Forall2 R l1 m1 -> Forall2 R l2 m2 -> Forall2 R (l1 ++ l2) (m1 ++ m2).
Proof. intros. apply Forall2_app; auto. Qed.
Lemma row_F2 (at_ : nat -> nat -> option V) i (r : list V) : (forall j v, nth_error r j = Some v -> at_ i j = Some v) ->
  Forall2 (fun p v => at_ (fst p) (snd p) = Some v) (map (fun j => (i, j)) (seq 0 (List.length r))) r.
Proof.
  intros H. assert (G : forall s, (forall j v, nth_error r j = Some v -> at_ i (s + j) = Some v) ->
    Forall2 (fun p v => at_ (fst p) (snd p) = Some v) (map (fun j => (i, j)) (seq s (List.length r))) r).
  { clear H. induction r as [|x r IH]; intros s H; cbn; constructor.
    - cbn. specialize (H 0 x eq_refl). rewrite Nat.add_0_r in H. auto.
    - apply IH. intros j v Hj. specialize (H (Datatypes.S j) v Hj). rewrite Nat.add_succ_r in H. exact H. }
  apply G. exact H.
Qed.
Lemma rows_F2 (at_ : nat -> nat -> option V) (m : list (list V)) nf : (forall r, In r m -> List.length r = nf) -> (forall i r j v, nth_error m i = Some r -> nth_error r j = Some v -> at_ i j = Some v) ->
  Forall2 (fun p v => at_ (fst p) (snd p) = Some v) (positions Pts (List.length m) nf) (List.concat m).
Proof.
  intros HL H. unfold positions.
  assert (G : forall s, (forall i r j v, nth_error m i = Some r -> nth_error r j = Some v -> at_ (s + i) j = Some v) ->
    Forall2 (fun p v => at_ (fst p) (snd p) = Some v) (flat_map (fun i => map (fun j => (i, j)) (seq 0 nf)) (seq s (List.length m))) (List.concat m)).
  { clear H. induction m as [|r m IH]; intros s H; cbn; [constructor|]. apply Forall2_app_all.
    - rewrite <- (HL r (or_introl eq_refl)). apply row_F2. intros j v Hj. specialize (H 0 r j v eq_refl Hj). rewrite Nat.add_0_r in H. auto.
    - apply IH; [intros; apply HL; right; auto|]. intros i r' j v Hi Hj. specialize (H (Datatypes.S i) r' j v Hi Hj). rewrite Nat.add_succ_r in H. exact H. }
  apply G. exact H.
Qed.
Lemma col_F2 (at_ : nat -> nat -> option V) (m : list (list V)) nf j : j < nf -> (forall r, In r m -> List.length r = nf) -> (forall i r v, nth_error m i = Some r -> nth_error r j = Some v -> at_ i j = Some v) ->
  Forall2 (fun p v => at_ (fst p) (snd p) = Some v) (map (fun i => (i, j)) (seq 0 (List.length m))) (colOf m j).
Proof.
  intros Hj HL H.
  assert (G : forall s, (forall i r v, nth_error m i = Some r -> nth_error r j = Some v -> at_ (s + i) j = Some v) ->
    Forall2 (fun p v => at_ (fst p) (snd p) = Some v) (map (fun i => (i, j)) (seq s (List.length m))) (colOf m j)).
  { clear H. unfold colOf. induction m as [|r m IH]; intros s H; [constructor|]. cbn [flat_map List.length seq map].
    destruct (nth_error r j) as [v|] eqn:E.
    - cbn [app]. constructor; [cbn; specialize (H 0 r v eq_refl E); rewrite Nat.add_0_r in H; auto|].
      apply IH; [intros; apply HL; right; auto|]. intros i r' v' Hi Hv. specialize (H (Datatypes.S i) r' v' Hi Hv). rewrite Nat.add_succ_r in H. exact H.
    - apply nth_error_None in E. rewrite (HL r (or_introl eq_refl)) in E. lia. }
  apply G. exact H.
Qed.
Lemma cols_F2 (at_ : nat -> nat -> option V) (m : list (list V)) nf : (forall r, In r m -> List.length r = nf) -> (forall i r j v, nth_error m i = Some r -> nth_error r j = Some v -> at_ i j = Some v) ->
  Forall2 (fun p v => at_ (fst p) (snd p) = Some v) (positions Fts (List.length m) nf) (List.concat (map (colOf m) (seq 0 nf))).
Proof.
  intros HL H. unfold positions. rewrite <- flat_map_concat_map.
  assert (G : forall l, (forall j, In j l -> j < nf) ->
    Forall2 (fun p v => at_ (fst p) (snd p) = Some v) (flat_map (fun j => map (fun i => (i, j)) (seq 0 (List.length m))) l) (flat_map (colOf m) l)).
  { induction l as [|j l IH]; intros Hl; cbn; [constructor|]. apply Forall2_app_all.
    - apply (col_F2 at_ m nf); auto. apply Hl; left; auto. intros; eapply H; eauto.
    - apply IH. intros; apply Hl; right; auto. }
  apply G. intros j Hj. apply in_seq in Hj. lia.
Qed.

Lemma keepOnly_filter f (l r : list V) : keepOnly f l = Ok r -> r = filter (fun v => match f v with Ok b => b | _ => false end) l /\ forall v, In v l -> exists b, f v = Ok b.
Proof.
  revert r. induction l as [|x l IH]; intros r H; cbn in H.
  - injection H as <-. split; auto. intros v [].
  - destruct (f x) as [b|] eqn:Ex; [|discriminate]. cbn [rbind] in H. destruct (keepOnly f l) as [r'|] eqn:E; [|discriminate].
    injection H as <-. destruct (IH r' eq_refl) as [-> A]. split.
    + cbn. rewrite Ex. destruct b; auto.
    + intros v [<-|Hv]; eauto.
Qed.
Lemma keepOnly_err f (l : list V) e : keepOnly f l = Err e -> exists v, In v l /\ f v = Err e.
Proof.
  induction l as [|x l IH]; intros H; cbn in H; [discriminate|].
  destruct (f x) as [b|] eqn:Ex; cbn [rbind] in H.
  - destruct (keepOnly f l) as [r'|]; [discriminate|]. cbn [rbind] in H. destruct (IH H) as [v [A B]]. exists v. split; [right|]; auto.
  - injection H as <-. exists x. split; [left|]; auto.
Qed.
Lemma F2_In {A B} (R : A -> B -> Prop) l m y : Forall2 R l m -> In y m -> exists x, In x l /\ R x y.
Proof. induction 1; intros HI; [destruct HI|]. destruct HI as [<-|HI]; [eexists; split; [left; eauto|]; auto|]. destruct (IHForall2 HI) as [z [A1 B1]]. exists z. split; [right|]; auto. Qed.
Lemma F2_In_l {A B} (R : A -> B -> Prop) l m x : Forall2 R l m -> In x l -> exists y, In y m /\ R x y.
Proof. induction 1; intros HI; [destruct HI|]. destruct HI as [<-|HI]; [eexists; split; [left; eauto|]; auto|]. destruct (IHForall2 HI) as [z [A1 B1]]. exists z. split; [right|]; auto. Qed.
Lemma F2_filter (at_ : nat -> nat -> option V) (f : V -> bool) ps l : Forall2 (fun p v => at_ (fst p) (snd p) = Some v) ps l ->
  Forall2 (fun p v => at_ (fst p) (snd p) = Some v) (filter (fun p => match at_ (fst p) (snd p) with Some v => f v | None => false end) ps) (filter f l).
Proof. induction 1 as [|p v ps l H HF IH]; cbn; [constructor|]. rewrite H. destruct (f v); auto. Qed.

Lemma drained_Visits (at_ : nat -> nat -> option V) np nf order only (l r : list V) :
  Forall2 (fun p v => at_ (fst p) (snd p) = Some v) (positions order np nf) l -> drained only l = Ok r ->
  Visits np nf at_ order (keeps only) r.
Proof.
  intros HF HD. destruct only as [f|]; cbn [drained] in HD.
  - destruct (keepOnly_filter f l r HD) as [-> HT]. eexists. split; [|split; [|apply (F2_filter at_); exact HF]].
    + apply sorted_filter, positions_sorted.
    + intros i j. rewrite filter_In, positions_In. cbn [fst snd keeps]. split.
      * intros [[A B] C]. do 2 (split; auto). destruct (at_ i j) as [v|]; [|discriminate]. exists v. split; auto. destruct (f v); [|discriminate]. subst; auto.
      * intros [A [B [v [C D]]]]. split; auto. rewrite C, D. auto.
  - injection HD as <-. exists (positions order np nf). split; [apply positions_sorted|]. split; auto.
    intros i j. rewrite positions_In. split.
    + intros [A B]. do 2 (split; auto). destruct (F2_In_l _ _ _ (i, j) HF) as [v [_ E]]; [apply positions_In; auto|]. exists v. split; auto. exact Logic.I.
    + tauto.
Qed.
Lemma drained_ok only (l : list V) : (forall f v, only = Some f -> In v l -> exists b, f v = Ok b) -> exists r, drained only l = Ok r.
Proof.
  intros H. destruct only as [f|]; cbn; eauto. destruct (keepOnly f l) as [r|e] eqn:E; eauto.
  destruct (keepOnly_err f l e E) as [v [A B]]. destruct (H f v eq_refl A) as [b Hb]. congruence.
Qed.

Lemma table_F2 order (t : table V) : wf t ->
  Forall2 (fun p v => cell t (fst p) (snd p) = Some v) (positions order (alen (tp t)) (alen (tf t)))
    (List.concat match order with Pts => rows t | Fts => eachColumn t end).
Proof.
  intros Hw. pose proof Hw as [A1 [A2 _]]. rewrite <- A1. destruct order.
  - apply rows_F2; auto. intros i r j v Hi Hj. unfold cell. rewrite Hi. auto.
  - assert (E : eachColumn t = map (colOf (rows t)) (seq 0 (alen (tf t)))).
    { unfold eachColumn. apply map_ext_in. intros j Hj. apply in_seq in Hj. unfold column, colOf. reflexivity. }
    rewrite E. apply cols_F2; auto. intros i r j v Hi Hj. unfold cell. rewrite Hi. auto.
Qed.
Lemma iterate_spec (t : table V) order only l : wf t -> iterateElements t order only = Ok l ->
  Visits (alen (tp t)) (alen (tf t)) (cell t) order (keeps only) l.
Proof. intros Hw H. eapply drained_Visits; [apply table_F2; auto|exact H]. Qed.
Lemma iterate_ok (t : table V) order only : wf t ->
  (forall f i j v, only = Some f -> cell t i j = Some v -> exists b, f v = Ok b) -> exists l, iterateElements t order only = Ok l.
Proof.
  intros Hw H. apply drained_ok. intros f v Hf Hv. destruct (F2_In _ _ _ v (table_F2 order t Hw) Hv) as [p [_ E]]. eauto.
Qed.

Lemma Visits_fun np nf (at_ : nat -> nat -> option V) order (keep : V -> Prop) l l' : Visits np nf at_ order keep l -> Visits np nf at_ order keep l' -> l = l'.
Proof.
  intros [ps [S1 [I1 F1]]] [ps' [S2 [I2 F2]]].
  assert (ps = ps') as <-.
  { apply (sorted_ext (posBefore order)); auto; [apply posBefore_irrefl|apply posBefore_trans|]. intros [i j]. rewrite I1, I2. tauto. }
  clear - F1 F2. revert l' F2. induction F1 as [|p v qs vs Hp F1 IH]; intros l2 H2; inversion H2; subst; auto. f_equal; [congruence|auto].
Qed.
Lemma Visits_ext np nf (at_ at' : nat -> nat -> option V) order (keep : V -> Prop) l : (forall i j, i < np -> j < nf -> at_ i j = at' i j) -> Visits np nf at_ order keep l -> Visits np nf at' order keep l.
Proof.
  intros HE [ps [S1 [I1 F1]]]. exists ps. split; auto. split.
  - intros i j. rewrite I1. split; intros [A [B C]]; rewrite (HE i j A B) in *; auto. 
  - assert (HI : forall p, In p ps -> fst p < np /\ snd p < nf) by (intros [i j] Hp; apply I1 in Hp; cbn; tauto).
    clear - F1 HE HI. induction F1 as [|p v ps l H F IH]; constructor.
    + destruct (HI p (or_introl eq_refl)). rewrite <- HE; auto.
    + apply IH. intros; apply HI; right; auto.
Qed.
End I.
Arguments keeps {V} _ _.

Section Sp.
Variable V : Type.
Context {EV : EqDec V}.
Variable zero : V.

Lemma dense_F2 order (s : sparse V) : entsOK zero s ->
  Forall2 (fun p v => Some (val zero s (fst p) (snd p)) = Some v) (positions order (snp s) (snf s))
    (List.concat match order with Pts => toDense zero s | Fts => map (colOf V (toDense zero s)) (seq 0 (snf s)) end).
Proof.
  intros HE. destruct (toDense_spec V zero s HE) as [[L1 L2] HC].
  assert (X : forall i r j v, nth_error (toDense zero s) i = Some r -> nth_error r j = Some v -> Some (val zero s i j) = Some v).
  { intros i r j v Hi Hj. pose proof (nth_error_lt _ _ Hi) as A. pose proof (nth_error_lt _ _ Hj) as B.
    rewrite (L2 r (nth_error_In _ _ Hi)) in B. rewrite L1 in A. rewrite <- (HC i j A B). unfold cellOf. rewrite Hi. auto. }
  rewrite <- L1. destruct order.
  - apply (rows_F2 V (fun i j => Some (val zero s i j))); auto.
  - apply (cols_F2 V (fun i j => Some (val zero s i j))); auto.
Qed.
Lemma sparseIterate_spec (s : sparse V) order only l : sinv zero s ->
  snd (sparseIterate zero s order only) = Ok l ->
  Visits (snp s) (snf s) (fun i j => Some (val zero s i j)) order (keeps only) l /\
  sinv zero (fst (sparseIterate zero s order only)) /\ sameMatrix zero s (fst (sparseIterate zero s order only)).
Proof.
  intros Hs H. pose proof Hs as [HE HC].
  assert (D : forall l, drained only (List.concat match order with Pts => toDense zero s | Fts => map (colOf V (toDense zero s)) (seq 0 (snf s)) end) = Ok l ->
    Visits (snp s) (snf s) (fun i j => Some (val zero s i j)) order (keeps only) l).
  { intros l' H'. eapply drained_Visits; [apply (dense_F2 order s HE)|exact H']. }
  unfold sparseIterate in *. destruct only as [f|]; [|cbn [fst snd] in *; split; [apply D; exact H|split; auto; apply sameMatrix_refl]].
  destruct (f zero) as [[]|e] eqn:Ez; cbn [fst snd] in *; [split; [apply D; exact H|split; auto; apply sameMatrix_refl]| |discriminate].
  destruct (sortInternal_spec V zero s order false false HE (or_intror HC)) as [I' [M' [A' [P' _]]]].
  set (s' := sortInternal s order false false) in *. clearbody s'. split; [|auto].
  destruct (keepOnly_filter V f _ l H) as [-> HT]. destruct I' as [[HN HR] HC']. unfold cacheOK in HC'. rewrite A' in HC'. destruct HC' as [HS _].
  destruct M' as [M1 [M2 M3]].
  exists (map (@pos V) (filter (fun e => match f (ev e) with Ok b => b | _ => false end) (ents s'))). split; [|split].
  - apply (sorted_map (lexlt order)); [|apply sorted_filter; exact HS]. intros x y _ _ Hxy. unfold lexlt in Hxy. destruct order; cbn in *; auto.
  - intros i j. rewrite in_map_iff. cbn [keeps]. split.
    + intros [e [E Hin]]. apply filter_In in Hin. destruct Hin as [Hin Hf]. unfold pos in E. injection E as <- <-.
      destruct (HR e Hin) as [R1 [R2 R3]]. rewrite M1 in R1. rewrite M2 in R2. do 2 (split; auto). exists (val zero s (er e) (ec e)). split; auto.
      rewrite <- M3. rewrite (val_In V zero s' (er e) (ec e) (ev e) HN) by (destruct e; auto). destruct (f (ev e)); [subst; auto|discriminate].
    + intros [A [B [v [E Hv]]]]. injection E as E. assert (Hnz : v <> zero) by (intros ->; congruence).
      rewrite <- M3 in E. pose proof (val_nonzero V zero s' i j v E Hnz) as Hin. exists (mkE i j v). split; auto.
      apply filter_In. split; auto. cbn. rewrite Hv. auto.
  - clear - HN M3. assert (X : forall e, In e (ents s') -> Some (val zero s (er e) (ec e)) = Some (ev e)).
    { intros e He. rewrite <- M3. f_equal. apply val_In; auto. destruct e; auto. }
    revert X. generalize (ents s'). intros es X. induction es as [|e es IH]; cbn; [constructor|].
    destruct (f (ev e)) as [[]|]; cbn; try constructor; try (apply IH; intros; apply X; right; auto).
    cbn. apply X. left; auto.
Qed.
Lemma sparseIterate_ok (s : sparse V) order only : sinv zero s ->
  (forall f, only = Some f -> (exists b, f zero = Ok b) /\ forall i j, i < snp s -> j < snf s -> exists b, f (val zero s i j) = Ok b) ->
  exists l, snd (sparseIterate zero s order only) = Ok l.
Proof.
  intros Hs H. pose proof Hs as [HE HC].
  assert (D : exists l, drained only (List.concat match order with Pts => toDense zero s | Fts => map (colOf V (toDense zero s)) (seq 0 (snf s)) end) = Ok l).
  { apply drained_ok. intros f v Hf Hv. destruct (F2_In _ _ _ v (dense_F2 order s HE) Hv) as [[i j] [A E]]. apply positions_In in A. injection E as <-.
    apply (H f Hf); apply A. }
  unfold sparseIterate. destruct only as [f|]; [|exact D]. destruct (H f eq_refl) as [[b Hz] HT]. rewrite Hz. destruct b; [exact D|]. cbn [snd].
  destruct (sortInternal_spec V zero s order false false HE (or_intror HC)) as [I' [M' [A' [P' _]]]].
  set (s' := sortInternal s order false false) in *. clearbody s'. destruct I' as [[HN HR] _]. destruct M' as [M1 [M2 M3]].
  destruct (drained_ok V (Some f) (map (@ev V) (ents s'))) as [r Hr]; [|exists r; exact Hr].
  intros g v [= <-] Hv. apply in_map_iff in Hv. destruct Hv as [e [<- He]]. destruct (HR e He) as [R1 [R2 _]].
  rewrite <- (val_In V zero s' (er e) (ec e) (ev e) HN) by (destruct e; auto). rewrite M3. apply HT; congruence.
Qed.
End Sp.
