(** Single keys and the front end of countUniqueElements (C66). *)
From Verif Require Import Base NamesModel NamesSpec NamesProofs NamesIndexProofs TableModel TableSpec TableProofs TableOps SparseModel SparseSpec ViewModel IdentModel MatchModel MatchSpec GetModel GetSpec GetProofs GetIterProofs GetCountProofs.
From Coq Require Import Sorted.
Open Scope nat_scope.

Lemma isNameOf_spec a k : isNameOf a k = true <-> NamesOne a k.
Proof.
  unfold NamesOne, isNameOf. destruct k as [[z|s|q|]|m]; (split; [|intros [s' [E H]]; try discriminate E]); try discriminate.
  - intros H. apply andb_true_iff in H. destruct H as [_ H]. apply mem_In in H. exists s. auto.
  - injection E as <-. apply andb_true_iff. split; [|apply mem_In; auto].
    unfold namesCreated. unfold getNames, ensure, namesCreated in H. destruct (astate a) eqn:EA; auto. exfalso.
    unfold setAllDefault, names_inv in H. cbn in H. apply repeat_spec in H. discriminate.
Qed.
Lemma isNameOf_false a k : isNameOf a k = false <-> ~ NamesOne a k.
Proof. rewrite <- isNameOf_spec. destruct (isNameOf a k); split; congruence. Qed.
Lemma single_key {V} (t : table V) k :
  (alen (tp t) = 1 -> getItem t (GOne k) = getItem t (GPair (SOne (IdInt 0)) k)) /\
  (alen (tp t) <> 1 -> alen (tf t) = 1 -> getItem t (GOne k) = getItem t (GPair k (SOne (IdInt 0)))) /\
  (alen (tp t) <> 1 -> alen (tf t) <> 1 ->
     (NamesOne (tp t) k -> ~ NamesOne (tf t) k -> getItem t (GOne k) = getItem t (GPair k fullSlice)) /\
     (NamesOne (tf t) k -> ~ NamesOne (tp t) k -> getItem t (GOne k) = getItem t (GPair fullSlice k)) /\
     ((NamesOne (tp t) k <-> NamesOne (tf t) k) -> getItem t (GOne k) = Err InvalidArgumentType)).
Proof.
  unfold getItem, splitKey. rewrite <- !isNameOf_spec. split; [|split].
  - intros ->. rewrite Nat.eqb_refl. auto.
  - intros H1 H2. apply Nat.eqb_neq in H1. rewrite H1, H2. cbn [Nat.eqb]. auto.
  - intros H1 H2. apply Nat.eqb_neq in H1, H2. rewrite H1, H2. destruct (isNameOf (tp t) k), (isNameOf (tf t) k); cbn [andb negb rbind fst snd]; (split; [|split]); intros A; try intros B; try congruence; auto; exfalso; destruct A as [A1 A2]; try (specialize (A1 eq_refl)); try (specialize (A2 eq_refl)); congruence.
Qed.

Lemma Selects_full a : Inv a -> 0 < alen a -> Selects a fullSlice (seq 0 (alen a)).
Proof.
  intros HI Hn. apply resolve_Selects; auto.
  - cbn. split; intros i; discriminate.
  - exists (RMany None). split; [|reflexivity]. cbn. unfold processMultiple. destruct (alen a =? 0) eqn:E; [apply Nat.eqb_eq in E; lia|]. reflexivity.
Qed.
Lemma PlainFull a : PlainKey a fullSlice.
Proof. cbn. split; intros i; discriminate. Qed.

Lemma positions_prod np nf : positions Pts np nf = list_prod (seq 0 np) (seq 0 nf).
Proof.
  unfold positions. generalize (seq 0 np). intros xs. induction xs as [|x xs IH]; cbn [flat_map list_prod]; [auto|]. rewrite IH. auto.
Qed.
(** the elements of a window *)
Lemma Window_elements {V} (t t' : table V) xs ys : Window t t' xs ys ->
  Forall2 (fun p v => cell t (fst p) (snd p) = Some v) (list_prod xs ys) (List.concat (rows t')).
Proof.
  intros [Hw [Hp [Hf [Hc _]]]]. pose proof (table_F2 _ Pts t' Hw) as H. cbn [fst snd] in H. rewrite positions_prod, Hp, Hf in H.
  assert (G : forall is_ xs0 js ys0 l,
     Forall2 (fun i x => nth_error xs i = Some x) is_ xs0 -> Forall2 (fun j y => nth_error ys j = Some y) js ys0 ->
     Forall2 (fun p v => cell t' (fst p) (snd p) = Some v) (list_prod is_ js) l ->
     Forall2 (fun p v => cell t (fst p) (snd p) = Some v) (list_prod xs0 ys0) l).
  { intros is_ xs0 js ys0 l HX HY. revert l. induction HX as [|i x is_ xs0 Hi HX IH]; intros l HL; [cbn in *; inversion HL; subst; constructor|].
    cbn [list_prod] in *. apply Forall2_app_inv_l in HL. destruct HL as [l1 [l2 [H1 [H2 ->]]]]. apply Forall2_app; [|apply IH; auto].
    clear IH H2 HX. revert l1 H1. induction HY as [|j y js ys0 Hj HY IH]; intros l1 H1; cbn in *; inversion H1; subst; constructor; auto.
    cbn in *. rewrite <- H3. symmetry. apply Hc; auto. }
  assert (S0 : forall (l : list nat), Forall2 (fun i x => nth_error l i = Some x) (seq 0 (List.length l)) l).
  { clear. intros l. assert (Y : forall l pre : list nat, Forall2 (fun i x => nth_error (pre ++ l) i = Some x) (seq (List.length pre) (List.length l)) l).
    { intros l0. induction l0 as [|x l0 IH]; intros pre; cbn; constructor.
      - rewrite nth_error_app2, Nat.sub_diag; auto.
      - specialize (IH (pre ++ [x])). rewrite app_length in IH. cbn in IH. rewrite Nat.add_1_r, <- app_assoc in IH. exact IH. }
    apply (Y l []). }
  apply (G _ _ _ _ _ (S0 xs) (S0 ys) H).
Qed.
Lemma F2_cells {V} (t : table V) ps l v : Forall2 (fun p v => cell t (fst p) (snd p) = Some v) ps l -> In v l -> exists p, In p ps /\ cell t (fst p) (snd p) = Some v.
Proof. intros H Hv. destruct (@F2_In _ _ _ _ _ _ H Hv) as [p [A B]]. eauto. Qed.
Lemma countUnique_spec numeric (t : table ovalue) points features xs ys : wf t -> 0 < alen (tp t) -> 0 < alen (tf t) ->
  (forall k, points = Some k -> PlainKey (tp t) k) -> (forall k, features = Some k -> PlainKey (tf t) k) ->
  Chosen (tp t) points xs -> Chosen (tf t) features ys ->
  ~ (exists x y, points = Some (SOne x) /\ features = Some (SOne y)) ->
  (numeric = true -> forall i j v, cell t i j = Some v -> Numeric (fst v)) ->
  (numeric = false -> xs <> [] /\ ys <> [] /\
     forall i j i' j' n m, cell t i j = Some (PNaN, n) -> cell t i' j' = Some (PNaN, m) -> n = m) ->
  exists d l, countUnique numeric t points features = Ok d /\
    Forall2 (fun p v => cell t (fst p) (snd p) = Some v) (list_prod xs ys) l /\ CountsOf (map fst l) d.
Proof.
  intros Hw Hp Hf PX PY CX CY Hnot HN HO.
  assert (K : forall l, Forall2 (fun p v => cell t (fst p) (snd p) = Some v) (list_prod xs ys) l -> exists d, countArray numeric l = Ok d /\ CountsOf (map fst l) d).
  { intros l HL. apply countArray_spec.
    - intros E v Hv. destruct (F2_cells t _ _ v HL Hv) as [p [_ Hc]]. eapply HN; eauto.
    - intros E. destruct (HO E) as [A [B C]]. split.
      + intros n m H1 H2. destruct (F2_cells t _ _ _ HL H1) as [p [_ Hc]]. destruct (F2_cells t _ _ _ HL H2) as [q [_ Hd]]. eapply C; eauto.
      + intros ->. destruct xs as [|x xs]; [congruence|]. destruct ys as [|y ys]; [congruence|]. inversion HL. }
  pose proof Hw as [_ [_ [IP IF]]].
  assert (SX : Selects (tp t) (orFull points) xs) by (destruct points; cbn in *; auto; subst; apply Selects_full; auto).
  assert (SY : Selects (tf t) (orFull features) ys) by (destruct features; cbn in *; auto; subst; apply Selects_full; auto).
  assert (PX' : PlainKey (tp t) (orFull points)) by (destruct points; cbn [orFull]; auto; apply PlainFull).
  assert (PY' : PlainKey (tf t) (orFull features)) by (destruct features; cbn [orFull]; auto; apply PlainFull).
  assert (Main : exists d l, (g <- getItem t (GPair (orFull points) (orFull features)) ;;
      match g with GElem _ => Err AttributeErr | GObj o => countArray numeric (List.concat (rows o)) end) = Ok d /\
      Forall2 (fun p v => cell t (fst p) (snd p) = Some v) (list_prod xs ys) l /\ CountsOf (map fst l) d).
  { pose proof (getItem_spec _ t _ _ xs ys Hw Hp Hf PX' PY' SX SY) as HG.
    assert (ES : isSingle (orFull points) && isSingle (orFull features) = false).
    { destruct points as [[x|]|], features as [[y|]|]; try reflexivity. exfalso. apply Hnot. eauto. }
    rewrite ES in HG. destruct HG as [t' [-> HW]]. cbn [rbind]. pose proof (Window_elements _ _ _ _ HW) as HL. destruct (K _ HL) as [d [E C]]. eauto. }
  unfold countUnique. destruct points, features; try exact Main.
  clear Main. cbn in CX, CY. subst. pose proof (table_F2 _ Pts t Hw) as HL. cbn in HL. rewrite <- positions_prod in *. cbn in K. destruct (K _ HL) as [d [E C]]. eauto.
Qed.
Lemma sparse_dense_iterate {V} (zero : V) (s : sparse V) (t : table V) order only l l' : sinv zero s -> wf t ->
  alen (tp t) = snp s -> alen (tf t) = snf s -> (forall i j, i < snp s -> j < snf s -> cell t i j = Some (SparseSpec.val zero s i j)) ->
  snd (sparseIterate zero s order only) = Ok l -> iterateElements t order only = Ok l' -> l = l'.
Proof.
  intros HS Hw Hp Hf HC H1 H2. apply sparseIterate_spec in H1; auto. destruct H1 as [H1 _]. apply iterate_spec in H2; auto. rewrite Hp, Hf in H2.
  eapply Visits_fun; [exact H1|]. eapply Visits_ext; [|exact H2]. intros i j Hi Hj. apply HC; auto.
Qed.
