(** Proofs for C73: casts, selections, insertions. *)
From Verif Require Import Base TableModel TableProofs TableOpsProofs TableSortProofs MatchModel MatchSpec MatchProofs LogicModel GetSpec GetCountProofs SparseRefine SparseReshapeCollapse
  ElementsCalcProofs CopyModel CopySpec CopyProofs CopyNimbleProofs CopyRawProofs TypedModel TypedSpec.
From Coq Require Import List String Sorted QArith Lqa Lia ZifyNat. Import ListNotations.
Open Scope nat_scope.

(** ** dtypes *)
Lemma Below_level a b : Below a b <-> level a <= level b.
Proof. destruct a, b; cbn; split; intros; try lia; auto. Qed.
Lemma dmax_l a b : Below a (dmax a b).
Proof. destruct a, b; cbn; auto. Qed.
Lemma dmax_r a b : Below b (dmax a b).
Proof. destruct a, b; cbn; auto. Qed.
Lemma Below_trans a b c : Below a b -> Below b c -> Below a c.
Proof. destruct a, b, c; cbn; auto. Qed.
Lemma Below_refl a : Below a a.
Proof. destruct a; cbn; auto. Qed.
Lemma OfDt_up a b v : OfDt a v -> Below a b -> Fits b v.
Proof.
  intros O B. destruct a, b; cbn in B; try (destruct B; fail); try (exists v; split; [exact O|apply same_refl]; fail); try (exists v; split; [exact I|apply same_refl]; fail).
  - destruct O as [x ->]. exists (PInt (if x then 1 else 0)). split; [eexists; reflexivity|]. left. destruct x; (eapply same_num; [constructor|constructor|reflexivity]).
  - destruct O as [x ->]. exists (toFloat (PBool x)). split; [exact I|apply toFloat_same].
  - destruct O as [x ->]. exists (toFloat (PInt x)). split; [exact I|apply toFloat_same].
Qed.
Lemma Fits_same d v w : SameElement v w -> Fits d w -> Fits d v.
Proof. intros S (u & O & E). exists u. split; auto. eapply SameElement_trans; eauto. Qed.
Lemma Fits_obj v : Fits DObj v.
Proof. exists v. split; [exact I|apply same_refl]. Qed.
Lemma promote_l a b v : OfDt a v -> Fits (framePromote a b) v.
Proof.
  intros O. unfold framePromote. destruct (Nat.eqb_spec (level a) (level b)) as [E|E]; [exists v; split; auto; apply same_refl|].
  destruct a, b; try apply Fits_obj; (eapply OfDt_up; [exact O|exact I]).
Qed.
Lemma promote_r a b v : OfDt b v -> Fits (framePromote a b) v.
Proof.
  intros O. unfold framePromote. destruct (Nat.eqb_spec (level a) (level b)) as [E|E].
  - assert (a = b) by (destruct a, b; cbn in E; auto; discriminate). subst. exists v. split; auto. apply same_refl.
  - destruct a, b; try apply Fits_obj; (eapply OfDt_up; [exact O|exact I]).
Qed.

Section P.
Variable floatOf : string -> option pval.
Variable intOf : string -> option Z.
Variable junk : Z.
Notation castTo := (TypedModel.castTo floatOf intOf).
Notation castRows := (TypedModel.castRows floatOf intOf).
Notation castCols := (TypedModel.castCols floatOf intOf).

Lemma trunc_int q z : (q == inject_Z z)%Q -> truncQ q = z.
Proof.
  unfold Qeq, truncQ. destruct q as [n d]. cbn. intros H. rewrite Z.mul_1_r in H. subst n. apply Z.quot_mul. discriminate.
Qed.
Lemma cast_id d v : OfDt d v -> castTo d v = Ok v.
Proof. destruct d; cbn; [intros [b ->]|intros [z ->]| |]; auto. destruct v; try tauto; reflexivity. Qed.
Lemma cast_fits d v : Fits d v -> exists w, castTo d v = Ok w /\ OfDt d w /\ SameElement v w.
Proof.
  intros (w & O & S). destruct d; cbn in O.
  - destruct O as [b ->]. exists (PBool (pyTruth v)). split; [reflexivity|]. split; [eexists; reflexivity|].
    assert (pyTruth v = b) as ->; auto. destruct S as [S|[_ S]]; [|discriminate]. inversion S as [x y p q X Y E| | | |]; subst. inversion Y; subst.
    inversion X; subst; cbn.
    + destruct b, b0; auto; exfalso; vm_compute in E; discriminate.
    + destruct b; [|apply negb_false_iff, Z.eqb_eq; apply (inject_Z_injective z 0); rewrite E; reflexivity].
      apply negb_true_iff, Z.eqb_neq. intros ->. vm_compute in E. discriminate.
    + destruct b; [apply negb_true_iff; apply not_true_is_false; intros Z; apply Qeq_bool_eq in Z; rewrite Z in E; vm_compute in E; discriminate|].
      apply negb_false_iff, Qeq_bool_iff. exact E.
  - destruct O as [z ->]. destruct S as [S|[_ S]]; [|discriminate]. inversion S as [x y p q X Y E| | | |]; subst. inversion Y; subst.
    inversion X; subst; cbn.
    + exists (PInt (if b then 1 else 0)). split; auto. split; [eexists; reflexivity|]. left. eapply same_num; [constructor|constructor|]. destruct b; reflexivity.
    + exists (PInt z0). split; auto. split; [eexists; reflexivity|apply same_refl].
    + exists (PInt (truncQ p)). split; auto. split; [eexists; reflexivity|]. rewrite (trunc_int p z E). left. eapply same_num; [constructor|constructor|exact E].
  - assert (N : isNumberV v = true).
    { destruct v as [b|z|q| | | |s|]; auto; exfalso; destruct S as [S|[S _]]; try discriminate; inversion S; subst;
        try (match goal with H : IsNumber (PStr _) _ |- _ => inversion H | H : IsNumber PNone _ |- _ => inversion H end); exact O. }
    exists (toFloat v). split; [destruct v; try discriminate; reflexivity|]. split; [apply toFloat_float; auto|apply toFloat_same].
  - exists v. split; auto. split; [exact I|apply same_refl].
Qed.
Lemma cast_only d v w : FloatOf floatOf -> castTo d v = Ok w -> OfDt d w.
Proof.
  intros F. destruct d; cbn.
  - intros [= <-]. eexists; reflexivity.
  - destruct v as [b|z|q| | | |s|]; try discriminate; try (intros [= <-]; eexists; reflexivity). destruct (intOf s); [|discriminate]. intros [= <-]. eexists; reflexivity.
  - destruct v as [b|z|q| | | |s|]; cbn; try (intros [= <-]; exact I). destruct (floatOf s) eqn:E; [|discriminate]. intros [= <-]. eapply F; eauto.
  - auto.
Qed.

(** ** casting rows *)
Lemma castRows_gen d m p f : Rectangle m p f -> (forall i j v, at_ m i j v -> exists w, castTo d v = Ok w) ->
  exists m', castRows d m = Ok m' /\ Rectangle m' p f /\ forall i j v w, at_ m i j v -> castTo d v = Ok w -> at_ m' i j w.
Proof.
  intros [L R] H. destruct (rmapM_total (rmapM (castTo d)) m) as [m' E].
  { intros r I. apply In_nth_error in I. destruct I as [i I]. apply rmapM_total. intros v Iv. apply In_nth_error in Iv. destruct Iv as [j Iv]. apply (H i j). exists r. auto. }
  exists m'. split; auto. split.
  - split; [rewrite (rmapM_ok_length _ _ E); auto|]. intros r' I. apply In_nth_error in I. destruct I as [i I].
    assert (HI : i < List.length m) by (rewrite <- (rmapM_ok_length _ _ E); eapply nth_error_lt; eauto). destruct (nth_error_is_some m (i := i) HI) as [r Er].
    destruct (rmapM_ok_nth _ _ E _ Er) as (r2 & A & B). rewrite I in A. injection A as <-. rewrite (rmapM_ok_length _ _ B). apply R. eapply nth_error_In; eauto.
  - intros i j v w (r & A & B) F. destruct (rmapM_ok_nth _ _ E _ A) as (r2 & A2 & B2). destruct (rmapM_ok_nth _ _ B2 _ B) as (w2 & A3 & B3). rewrite F in B3. injection B3 as <-. exists r2. auto.
Qed.
Lemma castRows_ok d m p f : Rectangle m p f -> (forall i j v, at_ m i j v -> Fits d v) ->
  exists m', castRows d m = Ok m' /\ MatOK (d, m') p f /\ SameData m m'.
Proof.
  intros R H. destruct (castRows_gen d m p f R) as (m' & E & R' & C).
  { intros i j v A. destruct (cast_fits d v (H _ _ _ A)) as (w & X & _). eauto. }
  exists m'. split; auto. split.
  - split; auto. cbn [fst snd]. intros i j w A. destruct (at_range _ _ _ _ _ _ R' A) as [Hi Hj]. destruct (at_total m p f i j R Hi Hj) as [v V].
    destruct (cast_fits d v (H _ _ _ V)) as (w' & X & O & _). rewrite (at_fun _ _ _ _ _ A (C _ _ _ _ V X)). exact O.
  - intros i j v V. destruct (cast_fits d v (H _ _ _ V)) as (w & X & _ & S). eauto.
Qed.
Lemma castCols_gen ds m p : Rectangle m p (List.length ds) -> (forall i j v d, at_ m i j v -> nth_error ds j = Some d -> exists w, castTo d v = Ok w) ->
  exists m', castCols ds m = Ok m' /\ Rectangle m' p (List.length ds) /\
    forall i j v d w, at_ m i j v -> nth_error ds j = Some d -> castTo d v = Ok w -> at_ m' i j w.
Proof.
  intros [L R] H. unfold TypedModel.castCols. set (g := fun p : dt * pval => castTo (fst p) (snd p)).
  destruct (rmapM_total (fun r => rmapM g (combine ds r)) m) as [m' E].
  { intros r I. apply In_nth_error in I. destruct I as [i I]. apply rmapM_total. intros [d v] Iv. apply In_nth_error in Iv. destruct Iv as [j Iv].
    rewrite nth_error_combine in Iv. destruct (nth_error ds j) as [d'|] eqn:Ed; [|discriminate]. destruct (nth_error r j) as [v'|] eqn:Ev; [|discriminate]. injection Iv as <- <-.
    apply (H i j v' d'); auto. exists r. auto. }
  exists m'. split; auto. split.
  - split; [rewrite (rmapM_ok_length _ _ E); auto|]. intros r' I. apply In_nth_error in I. destruct I as [i I].
    assert (HI : i < List.length m) by (rewrite <- (rmapM_ok_length _ _ E); eapply nth_error_lt; eauto). destruct (nth_error_is_some m (i := i) HI) as [r Er].
    destruct (rmapM_ok_nth _ _ E _ Er) as (r2 & A & B). rewrite I in A. injection A as <-. rewrite (rmapM_ok_length _ _ B), combine_length.
    rewrite (R r) by (eapply nth_error_In; eauto). lia.
  - intros i j v d w (r & A & B) D F. destruct (rmapM_ok_nth _ _ E _ A) as (r2 & A2 & B2).
    assert (X : nth_error (combine ds r) j = Some (d, v)) by (rewrite nth_error_combine, D, B; reflexivity).
    destruct (rmapM_ok_nth _ _ B2 _ X) as (w2 & A3 & B3). unfold g in B3. cbn [fst snd] in B3. rewrite F in B3. injection B3 as <-. exists r2. auto.
Qed.
Lemma castCols_ok ds m p : Rectangle m p (List.length ds) -> (forall i j v d, at_ m i j v -> nth_error ds j = Some d -> Fits d v) ->
  exists m', castCols ds m = Ok m' /\ FrameOK (ds, m') p (List.length ds) /\ SameData m m'.
Proof.
  intros R H. destruct (castCols_gen ds m p R) as (m' & E & R' & C).
  { intros i j v d A D. destruct (cast_fits d v (H _ _ _ _ A D)) as (w & X & _). eauto. }
  exists m'. split; auto. assert (TOT : forall i j v, at_ m i j v -> exists d, nth_error ds j = Some d).
  { intros i j v A. destruct (at_range _ _ _ _ _ _ R A) as [_ Hj]. destruct (nth_error_is_some ds (i := j)) as [d D]; eauto. }
  split.
  - split; auto. split; auto. cbn [fst snd]. intros i j w d A D. destruct (at_range _ _ _ _ _ _ R' A) as [Hi Hj]. destruct (at_total m p _ i j R Hi Hj) as [v V].
    destruct (cast_fits d v (H _ _ _ _ V D)) as (w' & X & O & _). rewrite (at_fun _ _ _ _ _ A (C _ _ _ _ _ V D X)). exact O.
  - intros i j v V. destruct (TOT _ _ _ V) as [d D]. destruct (cast_fits d v (H _ _ _ _ V D)) as (w & X & _ & S). eauto.
Qed.

(** ** selections *)
Lemma takeL_len {A} (x : A) idx l : List.length (takeL x idx l) = List.length idx.
Proof. apply map_length. Qed.
Lemma takeL_nth {A} (x : A) idx l a i y : nth_error idx a = Some i -> nth_error l i = Some y -> nth_error (takeL x idx l) a = Some y.
Proof. intros I Y. unfold takeL. rewrite nth_error_map, I. cbn [option_map]. rewrite (nth_error_nth _ _ x Y). reflexivity. Qed.
Lemma takeM_Picks points idx m n k : Vectors points m n k -> (forall i, In i idx -> i < n) -> Picks points idx k m (takeM points idx m).
Proof.
  intros V H. destruct points; cbn [Vectors takeM] in *; destruct V as [L R].
  - split.
    + split; [apply takeL_len|]. intros r I. apply in_map_iff in I. destruct I as (i & <- & I). apply R. apply nth_In. rewrite L. auto.
    + intros a i j v I (r & A & B). exists r. split; auto. eapply takeL_nth; eauto.
  - split.
    + split; [rewrite map_length; auto|]. intros r I. apply in_map_iff in I. destruct I as (r' & <- & I). apply takeL_len.
    + intros a i j v I (r & A & B). exists (takeL PNone idx r). split; [rewrite nth_error_map, A; reflexivity|]. eapply takeL_nth; eauto.
Qed.
Lemma Picks_inv points idx k m n m' a j w : Vectors points m n k -> (forall i, In i idx -> i < n) -> Picks points idx k m m' -> inVector points m' a j w ->
  exists i, nth_error idx a = Some i /\ inVector points m i j w.
Proof.
  intros V H [V' P] A. assert (B : a < List.length idx /\ j < k).
  { destruct points; cbn in *; destruct (at_range _ _ _ _ _ _ V' A); auto. }
  destruct B as [Ha Hj]. destruct (nth_error_is_some idx (i := a) Ha) as [i I]. exists i. split; auto.
  assert (Hi : i < n) by (apply H; eapply nth_error_In; eauto).
  assert (T : exists v, inVector points m i j v) by (destruct points; cbn in *; [exact (at_total m n k i j V Hi Hj)|exact (at_total m k n j i V Hj Hi)]).
  destruct T as [v T]. pose proof (P _ _ _ _ I T) as Q. assert (w = v) as -> by (destruct points; cbn in *; eapply at_fun; eauto). exact T.
Qed.
Definition rest (idx : list nat) (n : nat) : list nat := filter (fun i => negb (mem i idx)) (seq 0 n).
Lemma rest_Others idx n : Others idx n (rest idx n).
Proof.
  split; [apply SparseReshapeCollapse.StronglySorted_filter, SparseReshapeCollapse.StronglySorted_seq|]. intros i. unfold rest. rewrite filter_In, in_seq. split.
  - intros [A B]. split; [lia|]. apply negb_true_iff in B. apply mem_not_In. exact B.
  - intros [A B]. split; [lia|]. apply negb_true_iff. apply mem_not_In. exact B.
Qed.
Lemma Others_rest idx n l : Others idx n l -> l = rest idx n.
Proof. intros [A B]. destruct (rest_Others idx n) as [C D]. apply sorted_lt_ext; auto. intros i. rewrite B, D. reflexivity. Qed.
Lemma dropL_gen {A} (x : A) (idx : list nat) (l : list A) : forall s pre, List.length pre = s ->
  map snd (filter (fun p : nat * A => negb (mem (fst p) idx)) (combine (seq s (List.length l)) l))
  = map (fun i => nth i (pre ++ l) x) (filter (fun i => negb (mem i idx)) (seq s (List.length l))).
Proof.
  induction l as [|y l IH]; intros s pre LP; [reflexivity|]. cbn [List.length seq combine filter fst].
  assert (E : map snd (filter (fun p : nat * A => negb (mem (fst p) idx)) (combine (seq (S s) (List.length l)) l))
    = map (fun i => nth i (pre ++ y :: l) x) (filter (fun i => negb (mem i idx)) (seq (S s) (List.length l)))).
  { rewrite (IH (S s) (pre ++ [y])) by (rewrite app_length; cbn; lia). rewrite <- app_assoc. reflexivity. }
  destruct (negb (mem s idx)); [|exact E]. cbn [map snd]. rewrite E. f_equal. rewrite app_nth2 by lia. rewrite LP, Nat.sub_diag. reflexivity.
Qed.
Lemma dropL_take {A} (x : A) idx (l : list A) : dropL idx l = takeL x (rest idx (List.length l)) l.
Proof. unfold dropL, takeL, rest. exact (dropL_gen x idx l 0 [] eq_refl). Qed.
Lemma dropM_take points idx m n k : Vectors points m n k -> dropM points idx m = takeM points (rest idx n) m.
Proof.
  intros V. destruct points; cbn [dropM takeM Vectors] in *; destruct V as [L R].
  - rewrite (dropL_take [] idx m), L. reflexivity.
  - apply map_ext_in. intros r I. rewrite (dropL_take PNone idx r), (R r I). reflexivity.
Qed.
(** the index from which a repeated vector comes *)
Definition source (n c : nat) (each : bool) : list nat := map (fun k => if each then k / n else k mod c) (seq 0 (c * n)).
Lemma nth_rep {A} (x : A) n k : k < n -> nth_error (repeat x n) k = Some x.
Proof. revert k. induction n as [|n IH]; intros [|k] H; cbn; try lia; auto. apply IH. lia. Qed.
Lemma concat_id {A} (l : list (list A)) : List.concat l = flat_map (fun y => y) l.
Proof. induction l; cbn; congruence. Qed.
Lemma concat_nil {A} n : List.concat (repeat (@nil A) n) = [].
Proof. induction n; cbn; auto. Qed.
Lemma repeatL_nth {A} (x : A) n each (l : list A) : 0 < n -> repeatL n each l = takeL x (source n (List.length l) each) l.
Proof.
  intros Hn. unfold repeatL, takeL, source. rewrite map_map. apply nth_error_ext. intros a. rewrite nth_error_map, nth_error_seq.
  destruct each.
  - assert (FL : forall y, In y l -> List.length (repeat y n) = n) by (intros; apply repeat_length).
    rewrite (flat_map_const_nth (fun y => repeat y n) l n a FL Hn). destruct (Nat.ltb_spec a (List.length l * n)) as [H|H].
    + cbn [option_map]. rewrite Nat.add_0_l. assert (Q : a / n < List.length l) by (apply Nat.div_lt_upper_bound; lia).
      destruct (nth_error_is_some l (i := a / n) Q) as [y Y]. rewrite Y. rewrite (nth_error_nth _ _ x Y). apply nth_rep. apply Nat.mod_upper_bound. lia.
    + cbn [option_map]. assert (Q : List.length l <= a / n) by (apply Nat.div_le_lower_bound; lia). rewrite (proj2 (nth_error_None l (a / n)) Q). reflexivity.
  - rewrite concat_id. destruct (Nat.eq_dec (List.length l) 0) as [Z|Z].
    + destruct l; [|discriminate]. rewrite <- concat_id, concat_nil. destruct a; reflexivity.
    + assert (FL : forall y, In y (repeat l n) -> List.length y = List.length l) by (intros y I; apply repeat_spec in I; subst; auto).
      rewrite (flat_map_const_nth (fun y => y) (repeat l n) (List.length l) a FL) by lia. destruct (Nat.ltb_spec a (List.length l * n)) as [H|H].
      * cbn [option_map]. rewrite Nat.add_0_l. assert (Q : a / List.length l < n) by (apply Nat.div_lt_upper_bound; lia).
        rewrite nth_rep by auto. rewrite (nth_error_nth' _ x); [reflexivity|]. apply Nat.mod_upper_bound. lia.
      * cbn [option_map]. assert (Q : n <= a / List.length l) by (apply Nat.div_le_lower_bound; lia).
        rewrite (proj2 (nth_error_None (repeat l n) _)) by (rewrite repeat_length; auto). reflexivity.
Qed.
End P.
