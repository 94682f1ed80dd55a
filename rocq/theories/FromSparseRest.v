(** Objects made from scipy sparse matrices (C77): the main theorem. *)
From Verif Require Import Base NamesModel NamesSpec NamesProofs TableModel TableSpec TableOps MatchModel MatchSpec MatchProofs GetSpec CsvModel RawModel RawSpec RawProofs SparseModel SparseSpec SparseProofs ReshapeModel SparseReshapeModel SparseReshapeProofs FromSparseModel FromSparseSpec FromSparseDup FromSparseNames FromSparseMain.
From Verif Require ImputeKnnProofs ElementsProofs.
From Coq Require Import QArith List. Import ListNotations.
Open Scope nat_scope.
Local Notation val := (SparseSpec.val (PInt 0)).

Section Rest.
Variable strOf : pval -> string.
Hypothesis zero_name : strOf (PInt 0) = "0"%string.

(** ** rows and columns taken out *)
Definition cut (sd : side) (h : nat) (l : list (entry pval)) : list (entry pval) :=
  if h =? 1 then
    match sd with
    | Pts => map (fun e => mkE (er e - 1) (ec e) (ev e)) (filter (fun e => negb (er e =? 0)) l)
    | Fts => map (fun e => mkE (er e) (ec e - 1) (ev e)) (filter (fun e => negb (ec e =? 0)) l)
    end
  else l.
Lemma cut_In sd h l i j v : h <= 1 -> (In (mkE i j v) (cut sd h l) <-> In (match sd with Pts => mkE (h + i) j v | Fts => mkE i (h + j) v end) l).
Proof.
  intros H. unfold cut. destruct h as [|[|h]]; [| |lia]; cbn [Nat.eqb Nat.add]; [destruct sd; reflexivity|].
  destruct sd; rewrite in_map_iff; split.
  - intros [e [E I]]. apply filter_In in I. destruct I as [I O]. apply negb_true_iff, Nat.eqb_neq in O. injection E as E1 E2 E3. destruct e as [a b x]. cbn in *. subst. replace (S (a - 1)) with a by lia. exact I.
  - intros I. exists (mkE (S i) j v). split; [cbn; rewrite Nat.sub_0_r; reflexivity|]. apply filter_In. auto.
  - intros [e [E I]]. apply filter_In in I. destruct I as [I O]. apply negb_true_iff, Nat.eqb_neq in O. injection E as E1 E2 E3. destruct e as [a b x]. cbn in *. subst. replace (S (b - 1)) with b by lia. exact I.
  - intros I. exists (mkE i (S j) v). split; [cbn; rewrite Nat.sub_0_r; reflexivity|]. apply filter_In. auto.
Qed.
Lemma cut_nodup sd h l : NoDup (map pos l) -> NoDup (map pos (cut sd h l)).
Proof.
  intros N. unfold cut. destruct (h =? 1); auto.
  assert (G : forall (P : entry pval -> bool) (f : entry pval -> entry pval), (forall a b, P a = true -> P b = true -> pos (f a) = pos (f b) -> pos a = pos b) -> NoDup (map pos (map f (filter P l)))).
  { intros P f Inj. induction l as [|e t IH]; [constructor|]. cbn [map] in N. apply NoDup_cons_iff in N. destruct N as [N1 N2]. cbn [filter]. destruct (P e) eqn:Pe; auto.
    cbn [map]. constructor; auto. intros X. apply N1. apply in_map_iff in X. destruct X as [y [E I]]. apply in_map_iff in I. destruct I as [z [<- I]]. apply filter_In in I. destruct I as [I Pz].
    apply in_map_iff. exists z. split; auto. }
  destruct sd; apply G; intros a b A B E; apply negb_true_iff, Nat.eqb_neq in A, B; unfold pos in *; cbn [er ec] in E; injection E as E1 E2; f_equal; lia.
Qed.
Lemma val_agree s s' i j i' j' : NoDup (map pos (ents s)) -> NoDup (map pos (ents s')) ->
  (forall v, In (mkE i j v) (ents s) <-> In (mkE i' j' v) (ents s')) -> val s i j = val s' i' j'.
Proof.
  intros N N' H. destruct (isZero_dec (val s i j)) as [Z|Z].
  - destruct (isZero_dec (val s' i' j')) as [Z'|Z']; [congruence|]. apply val_stored in Z'. apply H in Z'. symmetry. exact (ents_val s _ N Z').
  - apply val_stored in Z. apply H in Z. exact (ents_val s' _ N' Z).
Qed.

(** ** what an axis is named *)
Lemma header_axis a h found n (hv : nat -> pval) header ps :
  notDict a -> (h = 1 /\ MayHold a) \/ (h = 0 /\ a <> NmBool true) -> (forall i, i < n -> header i = Some (hv i)) ->
  (h = 1 -> found = Some (fill ps) /\ Names strOf n hv ps) -> (h = 0 -> found = None) ->
  let L := namesFrom strOf a h header n in
  match newAxis n (settleDict a found) with
  | Ok x => NamesFit L n /\ Inv x /\ alen x = n /\ getNames x = L
  | Err e => ~ NamesFit L n /\ e = InvalidArgumentValue
  end.
Proof.
  intros Nd [[-> M]|[-> M]] Hh F1 F0 L.
  - destruct (F1 eq_refl) as [-> Nm]. destruct M as [-> | ->]; unfold L; cbn [settleDict namesFrom Nat.eqb]; exact (dict_axis_spec strOf n hv ps header Nm Hh).
  - rewrite (F0 eq_refl). assert (G : listed (settleDict a None) /\ shown (settleDict a None) n = L).
    { unfold L. destruct a as [| |[|]|l|d]; cbn [settleDict listed shown namesFrom Nat.eqb]; auto; try congruence; contradiction. }
    destruct G as [G1 G2]. pose proof (newAxis_spec n _ G1) as X. rewrite G2 in X. exact X.
Qed.

(** ** missing values *)
Lemma val_map (f : pval -> pval) n k l i j : val (mkSp n k (map (fun e => mkE (er e) (ec e) (f (ev e))) l) None None) i j = match cellsAt l i j with [] => PInt 0 | v :: _ => f v end.
Proof. rewrite val_cells, cells_map. destruct (cellsAt l i j); reflexivity. Qed.
Lemma Element_zero treat repl : ~ CountsAsMissing treat (PInt 0) -> Element treat repl (PInt 0) (PInt 0).
Proof. intros H. right. auto. Qed.

Definition goodArg (a : nmArg) (h n : nat) (header : nat -> option pval) : Prop := NamesFit (namesFrom strOf a h header n) n.

Lemma dataSparse_spec m s pn fn treat repl hp hf :
  Shows m s -> entsOK (PInt 0) s -> notDict pn -> notDict fn ->
  Out (FirstColumnIsNames pn fn m) hp -> Out (FirstRowIsNames pn fn m) hf -> hf < snp s -> hp < snf s ->
  (snp s <> 1 \/ (pn <> NmAuto /\ fn <> NmAuto)) ->
  (hf = 1 -> HeaderDistinct strOf (snf s - hp) (fun j => valueAt m 0 (j + hp))) ->
  (hp = 1 -> hf = 1 -> HeaderNonzero (snp s - 1) (fun i => valueAt m (i + 1) 0)) ->
  ~ CountsAsMissing treat (PInt 0) -> ~ Same repl (PInt 0) ->
  let n := snp s - hf in let k := snf s - hp in
  let ps := namesFrom strOf pn hp (fun i => valueAt m (i + hf) 0) n in
  let fs := namesFrom strOf fn hf (fun j => valueAt m 0 (j + hp)) k in
  match dataSparse strOf pn fn treat repl s with
  | Ok o => NamesFit ps n /\ NamesFit fs k /\ Made treat repl n k ps fs (fun i j => valueAt m (i + hf) (j + hp)) (seen o) /\
            entsOK (PInt 0) (oMat o) /\ (NoZeros (ents s) -> NoZeros (ents (oMat o)))
  | Err e => ~ (NamesFit ps n /\ NamesFit fs k) /\ e = InvalidArgumentValue
  end.
Proof.
  intros Sm E Np Nf Op Of Hn Hk Ga Gf Gp Gz Gr n k ps fs.
  pose proof (nmcases pn _ hp Op (fun e => or_introl e) (firstCol_may pn fn m) Np) as Cp.
  pose proof (nmcases fn _ hf Of (fun e => or_introl e) (firstRow_may pn fn m) Nf) as Cf.
  assert (Hp1 : hp <= 1) by (destruct Cp as [[-> _]|[-> _]]; lia). assert (Hf1 : hf <= 1) by (destruct Cf as [[-> _]|[-> _]]; lia).
  destruct E as [ND R]. pose proof (conj ND R : entsOK (PInt 0) s) as E.
  assert (Vm : forall i j, i < snp s -> j < snf s -> valueAt m i j = Some (val s i j)) by apply Sm.
  set (l1 := cut Fts hp (ents s)). set (l2 := cut Pts hf l1).
  assert (I1 : forall i j v, In (mkE i j v) l1 <-> In (mkE i (hp + j) v) (ents s)) by (intros; apply (cut_In Fts); exact Hp1).
  assert (I2 : forall i j v, In (mkE i j v) l2 <-> In (mkE (hf + i) (hp + j) v) (ents s)) by (intros; unfold l2; rewrite (cut_In Pts) by exact Hf1; apply I1).
  assert (N1 : NoDup (map pos l1)) by (apply cut_nodup; exact ND). assert (N2 : NoDup (map pos l2)) by (apply cut_nodup; exact N1).
  assert (R1 : forall e, In e l1 -> er e < snp s /\ ec e < k) by (intros [a b x] I; apply I1 in I; apply R in I; cbn [er ec] in *; unfold k; lia).
  assert (R2 : forall e, In e l2 -> er e < n /\ ec e < k /\ ev e <> PInt 0) by (intros [a b x] I; apply I2 in I; apply R in I; cbn [er ec ev] in *; unfold k, n; split; [lia|split; [lia|tauto]]).
  assert (V2 : forall i j, val (mkSp n k l2 None None) i j = val s (i + hf) (j + hp)) by (intros i j; apply val_agree; auto; intros v; rewrite (Nat.add_comm i), (Nat.add_comm j); apply I2).
  set (hvp := fun i => val s (i + hf) 0). set (hvf := fun j => val s 0 (j + hp)).
  assert (HhP : forall i, i < n -> valueAt m (i + hf) 0 = Some (hvp i)) by (intros i I; apply Vm; unfold n in I; lia).
  assert (HhF : forall j, j < k -> valueAt m 0 (j + hp) = Some (hvf j)) by (intros j J; apply Vm; unfold k in J; lia).
  (* the two dicts *)
  assert (DP : hp = 1 -> match pointDict strOf s (hf =? 1) with Ok d => exists q, d = fill q /\ Names strOf n hvp q | Err e => e = InvalidArgumentValue /\ twoZeros n hvp end).
  { intros P1. destruct s as [sn sk sl sa si]. cbn [ents snp snf] in *. assert (Same_s : forall i j, val (mkSp sn sk sl None None) i j = val (mkSp sn sk sl sa si) i j) by reflexivity.
    destruct Cf as [[F1 _]|[F0 _]].
    - rewrite F1. cbn [Nat.eqb]. destruct (points_both strOf sl sn sk ND (fun e I => conj (proj1 (R e I)) (proj1 (proj2 (R e I))))) as [q [Q1 Q2]]; [|lia|].
      + intros i I1' I2' X. specialize (Gp P1 F1). apply (Gp (i - 1)); [lia|]. replace (i - 1 + 1) with i by lia. rewrite Vm by lia. f_equal. exact X.
      + change (pointDict strOf (mkSp sn sk sl sa si) true) with (pointDict strOf (mkSp sn sk sl None None) true). rewrite Q1. exists q. split; auto.
        unfold n. rewrite F1. destruct Q2 as [A [B C]]. split; auto. split; auto. intros p I. destruct (C p I) as [C1 C2]. split; auto. rewrite C2. unfold hvp. rewrite F1, Nat.add_1_r. reflexivity.
    - rewrite F0. cbn [Nat.eqb]. pose proof (points_only strOf zero_name sl sn sk ND (fun e I => conj (proj1 (R e I)) (proj1 (proj2 (R e I))))) as Q.
      change (pointDict strOf (mkSp sn sk sl sa si) false) with (pointDict strOf (mkSp sn sk sl None None) false).
      destruct (pointDict strOf (mkSp sn sk sl None None) false) as [d|e].
      + destruct Q as [q [-> [A [B C]]]]. exists q. split; auto. unfold n. rewrite F0, Nat.sub_0_r. split; auto. split; auto. intros p I. destruct (C p I) as [C1 C2]. split; auto. rewrite C2. unfold hvp. rewrite F0, Nat.add_0_r. reflexivity.
      + destruct Q as [-> [i [i' [A [B [C [D F]]]]]]]. split; auto. exists i, i'. unfold n, hvp. rewrite F0, Nat.sub_0_r, !Nat.add_0_r. repeat split; auto. }
  assert (DF : hf = 1 -> match featureDict strOf l1 (Z.of_nat k) with Ok d => exists q, d = fill q /\ Names strOf k hvf q | Err e => e = InvalidArgumentValue /\ twoZeros k hvf end).
  { intros F1. assert (Vl : forall j, cellOn l1 (snp s) k Fts j = hvf j).
    { intros j. unfold cellOn, hvf. apply val_agree; auto. intros v. cbn [ents]. rewrite (Nat.add_comm j). apply I1. }
    pose proof (features_dict strOf zero_name l1 (snp s) k N1 R1) as Q.
    assert (HD : HeaderDistinct strOf k (fun j => Some (cellOn l1 (snp s) k Fts j))).
    { intros j j' v v' J J' Ev Ev'. assert (E1 : cellOn l1 (snp s) k Fts j = v) by congruence. assert (E2 : cellOn l1 (snp s) k Fts j' = v') by congruence. rewrite Vl in E1, E2. apply (Gf F1 j j' v v' J J'); cbv beta; rewrite HhF by assumption; congruence. }
    specialize (Q HD). assert (NZ : forall e, In e l1 -> ev e <> PInt 0) by (intros [a b x] I; apply I1 in I; apply R in I; cbn [ev]; tauto). specialize (Q NZ).
    destruct (featureDict strOf l1 (Z.of_nat k)) as [d|e].
    - destruct Q as [q [-> [A [B C]]]]. exists q. split; auto. split; auto. split; auto. intros p I. destruct (C p I) as [C1 C2]. split; auto. rewrite C2, Vl. reflexivity.
    - destruct Q as [-> [i [i' [A [B [C [D F]]]]]]]. split; auto. exists i, i'. rewrite !Vl in *. repeat split; auto. }
  (* the extraction *)
  pose proof (detect m s pn fn Sm E ltac:(lia) Ga) as Dt.
  assert (X : match extractSparse strOf pn fn s with
    | Ok (s1, pd, fd) => snp s1 = n /\ snf s1 = k /\ ents s1 = l2 /\
        (exists qp, (hp = 1 -> pd = Some (fill qp) /\ Names strOf n hvp qp)) /\ (hp = 0 -> pd = None) /\
        (exists qf, (hf = 1 -> fd = Some (fill qf) /\ Names strOf k hvf qf)) /\ (hf = 0 -> fd = None)
    | Err e => e = InvalidArgumentValue /\ ((hp = 1 /\ twoZeros n hvp) \/ (hf = 1 /\ twoZeros k hvf))
    end).
  { unfold extractSparse. destruct (if isAuto fn || isAuto pn then _ else _) as [p f]. destruct Dt as [Dp Df].
    assert (Ep : isTrue p = (hp =? 1)) by (rewrite (out_bool _ _ _ Dp Op); destruct (isTrue p); reflexivity).
    assert (Ef : isTrue f = (hf =? 1)) by (rewrite (out_bool _ _ _ Df Of); destruct (isTrue f); reflexivity).
    rewrite Ep, Ef. clear Dp Df Ep Ef p f.
    change (if hp =? 1 then map (fun e => mkE (er e) (ec e - 1) (ev e)) (filter (fun e : entry pval => negb (ec e =? 0)) (ents s)) else ents s) with l1.
    change (if hf =? 1 then map (fun e => mkE (er e - 1) (ec e) (ev e)) (filter (fun e : entry pval => negb (er e =? 0)) l1) else l1) with l2.
    destruct (negb (hp =? 1) && negb (hf =? 1)) eqn:Q.
    - assert (hp = 0 /\ hf = 0) as [P0 F0] by (destruct Cp as [[P0 _]|[P0 _]], Cf as [[F0 _]|[F0 _]]; rewrite P0, F0 in Q; try discriminate; auto).
      unfold n, k, l2, l1. rewrite P0, F0, !Nat.sub_0_r. repeat split; try congruence; try (exists []; intros; congruence).
    - replace (Z.of_nat (snf s) - (if Nat.eqb hp 1%nat then 1 else 0))%Z with (Z.of_nat k) by (unfold k; destruct Cp as [[P0 _]|[P0 _]]; rewrite P0 in *; cbn [Nat.eqb]; lia).
      replace (Z.of_nat (snp s) - (if Nat.eqb hf 1%nat then 1 else 0))%Z with (Z.of_nat n) by (unfold n; destruct Cf as [[P0 _]|[P0 _]]; rewrite P0 in *; cbn [Nat.eqb]; lia).
      assert (Zn : ((Z.of_nat n <? 0) || (Z.of_nat k <? 0))%Z = false) by (apply orb_false_iff; split; apply Z.ltb_ge; lia). rewrite Zn. clear Zn.
      assert (PP : match (if hp =? 1 then rmap Some (pointDict strOf s (hf =? 1)) else Ok None) with
        | Ok pd => (exists qp, (hp = 1 -> pd = Some (fill qp) /\ Names strOf n hvp qp)) /\ (hp = 0 -> pd = None)
        | Err e => e = InvalidArgumentValue /\ hp = 1 /\ twoZeros n hvp end).
      { destruct Cp as [[P1 _]|[P0 _]].
        - specialize (DP P1). rewrite P1. cbn [Nat.eqb]. destruct (pointDict strOf s (hf =? 1)) as [d|e]; cbn [rmap].
          + destruct DP as [q [-> Q1]]. split; [exists q; auto|discriminate].
          + destruct DP as [-> Q1]. auto.
        - rewrite P0. cbn [Nat.eqb]. split; [exists []; discriminate|auto]. }
      assert (FF : match (if hf =? 1 then rmap Some (featureDict strOf l1 (Z.of_nat k)) else Ok None) with
        | Ok pd => (exists qp, (hf = 1 -> pd = Some (fill qp) /\ Names strOf k hvf qp)) /\ (hf = 0 -> pd = None)
        | Err e => e = InvalidArgumentValue /\ hf = 1 /\ twoZeros k hvf end).
      { destruct Cf as [[P1 _]|[P0 _]].
        - specialize (DF P1). rewrite P1. cbn [Nat.eqb]. destruct (featureDict strOf l1 (Z.of_nat k)) as [d|e]; cbn [rmap].
          + destruct DF as [q [-> Q1]]. split; [exists q; auto|discriminate].
          + destruct DF as [-> Q1]. auto.
        - rewrite P0. cbn [Nat.eqb]. split; [exists []; discriminate|auto]. }
      destruct (if hp =? 1 then rmap Some (pointDict strOf s (hf =? 1)) else Ok None) as [pd|e]; cbn [rbind]; [|destruct PP as [-> PP]; auto].
      destruct (if hf =? 1 then rmap Some (featureDict strOf l1 (Z.of_nat k)) else Ok None) as [fd|e]; cbn [rbind]; [|destruct FF as [-> FF]; auto].
      cbn [snp snf ents]. rewrite !Nat2Z.id. split; auto. split; auto. split; auto. split; [apply PP|]. split; [apply PP|]. exact FF. }
  unfold dataSparse. destruct (extractSparse strOf pn fn s) as [[[s1 pd] fd]|e]; cbn [rbind].
  2: { destruct X as [-> X]. split; auto. intros [A B]. destruct X as [[P1 X]|[P1 X]].
    - unfold ps in A. destruct Cp as [[_ M]|[P0 _]]; [|lia]. rewrite P1 in A. assert (Y : namesFrom strOf pn 1 (fun i => valueAt m (i + hf) 0) n = map (fun i => option_map strOf (valueAt m (i + hf) 0)) (seq 0 n)) by (destruct M as [-> | ->]; reflexivity).
      rewrite Y in A. exact (twoZeros_unfit strOf n hvp (fun i => valueAt m (i + hf) 0) X HhP A).
    - unfold fs in B. destruct Cf as [[_ M]|[P0 _]]; [|lia]. rewrite P1 in B. assert (Y : namesFrom strOf fn 1 (fun j => valueAt m 0 (j + hp)) k = map (fun j => option_map strOf (valueAt m 0 (j + hp))) (seq 0 k)) by (destruct M as [-> | ->]; reflexivity).
      rewrite Y in B. exact (twoZeros_unfit strOf k hvf (fun j => valueAt m 0 (j + hp)) X HhF B). }
  destruct X as [X1 [X2 [X3 [[qp Xp] [Xp0 [[qf Xf] Xf0]]]]]]. rewrite X1, X2, X3.
  pose proof (header_axis pn hp pd n hvp (fun i => valueAt m (i + hf) 0) qp Np Cp HhP Xp Xp0) as AP. cbn zeta in AP. fold ps in AP.
  pose proof (header_axis fn hf fd k hvf (fun j => valueAt m 0 (j + hp)) qf Nf Cf HhF Xf Xf0) as AF. cbn zeta in AF. fold fs in AF.
  destruct (newAxis n (settleDict pn pd)) as [pa|e]; cbn [rbind]; [|destruct AP as [AP ->]; split; [tauto|reflexivity]].
  destruct (newAxis k (settleDict fn fd)) as [fa|e]; cbn [rbind]; [|destruct AF as [AF ->]; split; [tauto|reflexivity]].
  destruct AP as [P1 [P2 [P3 P4]]]. destruct AF as [F1 [F2 [F3 F4]]]. cbn [oMat].
  assert (Rz : forall v, ~ Same v (PInt 0) -> ~ Same (replaced treat repl v) (PInt 0)).
  { intros v V. destruct (replaced_spec treat repl v) as [[_ ->]|[_ ->]]; auto. }
  assert (EO : entsOK (PInt 0) (mkSp n k (replaceStored treat repl l2) None None)).
  { split; cbn [ents snp snf]; [unfold replaceStored; rewrite pos_map; exact N2|]. intros e I. unfold replaceStored in I. apply in_map_iff in I. destruct I as [x [<- I]]. destruct (R2 x I) as [A [B C]]. cbn [er ec ev].
    split; auto. split; auto. destruct (replaced_spec treat repl (ev x)) as [[_ ->]|[_ ->]]; auto. intros Y. apply Gr. rewrite Y. exact zero_same. }
  destruct (seen_wf (mkSO pa fa (mkSp n k (replaceStored treat repl l2) None None) 4) P2 F2 EO (eq_sym P3) (eq_sym F3)) as [W [_ [_ RP]]].
  split; auto. split; auto. split; [|split; [exact EO|]].
  - split; auto. split; [exact P3|]. split; [exact F3|]. split; [exact P4|]. split; [exact F4|].
    intros i j I J. exists (val s (i + hf) (j + hp)). rewrite Vm by (unfold n, k in *; lia).
    specialize (RP i j). cbn [seen rows tp tf oPts oFts oMat] in RP. rewrite P3, F3 in RP. specialize (RP I J).
    eexists. split; [reflexivity|]. split; [exact RP|]. unfold replaceStored. rewrite val_map. rewrite <- V2, val_cells.
    destruct (cellsAt l2 i j) as [|v t]; [apply Element_zero; exact Gz|apply replaced_spec].
  - cbn [ents]. intros Nz e I. unfold replaceStored in I. apply in_map_iff in I. destruct I as [[a b x] [<- I]]. cbn [ev]. apply Rz. apply I2 in I. apply (Nz _ I).
Qed.
End Rest.
