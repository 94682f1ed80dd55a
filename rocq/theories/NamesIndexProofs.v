From Verif Require Import Base NamesModel NamesSpec NamesProofs.

Lemma q_integral_spec q z : (q_integral q = true /\ q_to_int q = z) <-> (q == inject_Z z)%Q.
Proof.
  unfold q_integral, q_to_int, Qeq, inject_Z; simpl.
  destruct q as [n d]; simpl. rewrite Z.eqb_eq. split.
  - intros [H1 <-]. rewrite Z.mul_1_r.
    apply Z.mod_divide in H1; [|lia]. destruct H1 as [k ->].
    rewrite Z.quot_mul by lia. reflexivity.
  - rewrite Z.mul_1_r. intros ->. split.
    + apply Z.mod_mul; lia.
    + apply Z.quot_mul; lia.
Qed.

Lemma getIndex_Denotes a id fl z : Inv a -> FloatInRange a id ->
  (getIndex a id fl = Ok z <-> Denotes a fl id z).
Proof.
  intros Ha Hf. destruct (Inv_facts a Ha) as [Hl [Hw Hb]].
  assert (Hg : getNames a = names_inv a) by (unfold getNames; apply names_inv_ensure).
  unfold getIndex, Denotes.
  destruct (Z.eqb_spec (Z.of_nat (alen a)) 0) as [E|E].
  - split; [discriminate|]. destruct id as [i|s|q|]; try tauto.
    + lia.
    + intros [i [_ H]]. rewrite Hg in H; apply nth_error_lt in H; lia.
    + lia.
  - destruct id as [i|s|q|].
    + destruct (Z.ltb_spec i 0).
      * destruct (Z.ltb_spec (Z.of_nat (alen a) + i) 0), (Z.leb_spec (Z.of_nat (alen a)) (Z.of_nat (alen a) + i)); simpl;
          split; try discriminate; try lia; [intros [= <-]; lia|intros; f_equal; lia].
      * destruct (Z.ltb_spec i 0), (Z.leb_spec (Z.of_nat (alen a)) i); simpl;
          split; try discriminate; try lia; [intros [= <-]; lia|intros; f_equal; lia].
    + unfold getIndexByName; rewrite names_dict_ensure, Hg. split.
      * destruct (dget s (names_dict a)) as [j|] eqn:Ej; simpl; [|discriminate].
        intros [= <-]. exists j; split; auto. apply Hb; auto.
      * intros [i [-> Hi]]. apply Hb in Hi; rewrite Hi; auto.
    + destruct fl.
      * split.
        { destruct (q_integral q) eqn:Eq; [|discriminate]. intros [= H].
          split; auto. assert (Hq : (q == inject_Z z)%Q) by (apply q_integral_spec; auto).
          split; auto. simpl in Hf. rewrite Hq in Hf. destruct Hf as [H1 H2].
          change 0%Q with (inject_Z 0) in H1. rewrite <- Zle_Qle in H1, H2. lia. }
        { intros [_ [Hq _]]. apply q_integral_spec in Hq. destruct Hq as [-> ->]; auto. }
      * split; [discriminate|intros [? _]; discriminate].
    + split; [discriminate|tauto].
Qed.

Lemma getIndex_ok_range a id fl z : Inv a -> FloatInRange a id ->
  getIndex a id fl = Ok z -> (0 <= z < Z.of_nat (alen a))%Z.
Proof.
  intros Ha Hf H. apply getIndex_Denotes in H; auto. unfold Denotes in H.
  destruct id as [i|s|q|]; try tauto; try lia.
  destruct H as [i [-> H]]. apply nth_error_lt in H.
  destruct (Inv_Consistent a Ha) as [Hl _]. lia.
Qed.

(** [range] *)
Lemma pyrange_spec start stop step l : pyrange start stop step = Ok l ->
  forall m x, nth_error l m = Some x <->
    x = (start + Z.of_nat m * step)%Z /\
    ((0 < step /\ x < stop)%Z \/ (step < 0 /\ stop < x)%Z).
Proof.
  unfold pyrange. destruct (Z.eqb_spec step 0) as [|Hz]; [discriminate|].
  intros [= <-] m x. rewrite nth_error_map_eq, nth_error_seq.
  set (cnt := if (0 <? step)%Z then _ else _).
  assert (Hc : (Z.of_nat m < cnt)%Z <->
     ((0 < step /\ start + Z.of_nat m * step < stop)%Z \/ (step < 0 /\ stop < start + Z.of_nat m * step)%Z)).
  { unfold cnt. destruct (Z.ltb_spec 0 step) as [Hs|Hs].
    - pose proof (Z.div_mod (stop - start + step - 1) step ltac:(lia)) as Hd.
      pose proof (Z.mod_pos_bound (stop - start + step - 1) step Hs) as Hm.
      set (k := ((stop - start + step - 1) / step)%Z) in *. split.
      + intros H. left. split; auto. nia.
      + intros [[_ H]|[H _]]; [|lia]. nia.
    - assert (Hs' : (0 < - step)%Z) by lia.
      pose proof (Z.div_mod (start - stop - step - 1) (- step) ltac:(lia)) as Hd.
      pose proof (Z.mod_pos_bound (start - stop - step - 1) (- step) Hs') as Hm.
      set (k := ((start - stop - step - 1) / - step)%Z) in *. split.
      + intros H. right. split; [lia|]. nia.
      + intros [[H _]|[_ H]]; [lia|]. nia. }
  destruct (Nat.ltb_spec m (Z.to_nat cnt)) as [H|H]; simpl.
  - assert (Z.of_nat m < cnt)%Z by lia. split.
    + intros [= <-]. split; auto. apply Hc; auto.
    + intros [-> _]; auto.
  - split; [discriminate|]. intros [-> Hq]. apply Hc in Hq. lia.
Qed.

Lemma nth_error_allIndices n m x :
  nth_error (allIndices n) m = Some x <-> m < n /\ x = Z.of_nat m.
Proof.
  unfold allIndices. rewrite nth_error_map_eq, nth_error_seq.
  destruct (Nat.ltb_spec m n); simpl; split; try discriminate; try lia.
  - intros [= <-]; auto.
  - intros [_ ->]; auto.
Qed.


Lemma processMultiple_slice a st sp se r :
  Inv a -> 0 < alen a ->
  (forall i, st = Some i -> FloatInRange a i) -> (forall i, sp = Some i -> FloatInRange a i) ->
  processMultiple a (KSlice st sp se) = Ok r ->
  exists s e,
    Denotes a true (slice_default st 0) s /\
    Denotes a true (slice_default sp (Z.of_nat (alen a) - 1)) e /\
    slice_step se <> 0%Z /\
    forall m x, nth_error (selection a r) m = Some x <->
      x = (s + Z.of_nat m * slice_step se)%Z /\
      ((0 < slice_step se /\ x <= e)%Z \/ (slice_step se < 0 /\ e <= x)%Z).
Proof.
  intros Ha Hn Hfs Hfe H.
  assert (Hfull : forall m x, nth_error (allIndices (alen a)) m = Some x <->
      x = (0 + Z.of_nat m * 1)%Z /\ ((0 < 1 /\ x <= Z.of_nat (alen a) - 1)%Z \/ (1 < 0 /\ Z.of_nat (alen a) - 1 <= x)%Z)).
  { intros m x; rewrite nth_error_allIndices. lia. }
  assert (Hgen : (r = None /\ st = None /\ sp = None /\ se = None) \/
     exists s e, getIndex a (slice_default st 0) true = Ok s /\
       getIndex a (slice_default sp (Z.of_nat (alen a) - 1)) true = Ok e /\
       (if (s =? 0)%Z && (e =? Z.of_nat (alen a) - 1)%Z && (slice_step se =? 1)%Z then r = None
        else exists l, r = Some l /\ pyrange s (if (0 <? slice_step se)%Z then (e + 1)%Z else (e - 1)%Z) (slice_step se) = Ok l)).
  { assert (Hb : (st = None /\ sp = None /\ se = None) \/
       (s <- getIndex a (slice_default st 0) true ;;
        e <- getIndex a (slice_default sp (Z.of_nat (alen a) - 1)) true ;;
        if (s =? 0)%Z && (e =? Z.of_nat (alen a) - 1)%Z && (slice_step se =? 1)%Z then Ok None
        else rmap Some (pyrange s (if (0 <? slice_step se)%Z then (e + 1)%Z else (e - 1)%Z) (slice_step se))) = Ok r).
    { destruct st, sp, se; auto. }
    destruct Hb as [[-> [-> ->]]|Hb]; [left; simpl in H; injection H as <-; auto|right].
    destruct (getIndex a (slice_default st 0) true) as [s|]; simpl in Hb; [|discriminate].
    destruct (getIndex a (slice_default sp _) true) as [e|]; simpl in Hb; [|discriminate].
    exists s, e; split; auto; split; auto.
    destruct (_ && _); [congruence|].
    destruct (pyrange _ _ _) as [l|]; simpl in Hb; [|discriminate].
    exists l; split; congruence. }
  destruct Hgen as [[-> [-> [-> ->]]]|[s [e [Hs [He Hr]]]]].
  - exists 0%Z, (Z.of_nat (alen a) - 1)%Z. simpl. split; [lia|]. split; [lia|]. split; [lia|]. exact Hfull.
  - exists s, e.
    split; [apply getIndex_Denotes; auto; destruct st; simpl; auto|].
    split; [apply getIndex_Denotes; auto; destruct sp; simpl; auto|].
    destruct (Z.eqb_spec s 0) as [->|]; [destruct (Z.eqb_spec e (Z.of_nat (alen a) - 1)) as [->|];
      [destruct (Z.eqb_spec (slice_step se) 1) as [E1|]|]|]; simpl in Hr.
    + subst r. rewrite E1. split; [lia|exact Hfull].
    + all: destruct Hr as [l [-> Hr]].
      all: assert (slice_step se <> 0%Z) by (intros E; rewrite E in Hr; discriminate).
      split; auto. intros m x. simpl. rewrite (pyrange_spec _ _ _ _ Hr).
      destruct (Z.ltb_spec 0 (slice_step se)); lia.
    + all: destruct Hr as [l [-> Hr]].
      assert (slice_step se <> 0%Z) by (intros E; rewrite E in Hr; discriminate).
      split; auto. intros m x. simpl. rewrite (pyrange_spec _ _ _ _ Hr).
      destruct (Z.ltb_spec 0 (slice_step se)); lia.
    + all: destruct Hr as [l [-> Hr]].
      assert (slice_step se <> 0%Z) by (intros E; rewrite E in Hr; discriminate).
      split; auto. intros m x. simpl. rewrite (pyrange_spec _ _ _ _ Hr).
      destruct (Z.ltb_spec 0 (slice_step se)); lia.
Qed.

Lemma filter_isBool_map l : filter isBool (map KBool l) = map KBool l.
Proof. induction l; simpl; congruence. Qed.

Lemma truePositions_bool mask : forall off,
  (forall z, In z (truePositions off (map KBool mask)) <->
     exists i, z = Z.of_nat (off + i) /\ nth_error mask i = Some true) /\
  (forall i j x y, i < j -> nth_error (truePositions off (map KBool mask)) i = Some x ->
     nth_error (truePositions off (map KBool mask)) j = Some y -> (x < y)%Z).
Proof.
  induction mask as [|b t IH]; intros off; simpl.
  - split.
    + intros z; split; [tauto|]. intros [i [_ H]]; destruct i; discriminate.
    + intros i j x y _ H; destruct i; discriminate.
  - destruct (IH (S off)) as [A B].
    assert (Hin : forall z, (exists i, z = Z.of_nat (off + i) /\ nth_error (b :: t) i = Some true) <->
       (b = true /\ z = Z.of_nat off) \/ In z (truePositions (S off) (map KBool t))).
    { intros z; rewrite A. split.
      - intros [[|i] [-> Hi]]; simpl in Hi.
        + left; split; [congruence|f_equal; lia].
        + right; exists i; split; [f_equal; lia|auto].
      - intros [[-> ->]|[i [-> Hi]]].
        + exists 0; split; [f_equal; lia|auto].
        + exists (S i); split; [f_equal; lia|auto]. }
    destruct b; simpl; split.
    + intros z; rewrite Hin; simpl. intuition.
    + intros [|i] [|j] x y Hij Hx Hy; try lia; simpl in *.
      * injection Hx as <-. apply nth_error_In, A in Hy. destruct Hy as [i [-> _]]; lia.
      * eapply B; [|eauto|eauto]; lia.
    + intros z; rewrite Hin. intuition congruence.
    + exact B.
Qed.

Lemma processMultiple_mask a (mask : list bool) :
  List.length mask = alen a ->
  exists sel, processMultiple a (KList (map KBool mask)) = Ok (Some sel) /\
    (forall z, In z sel <-> exists i, z = Z.of_nat i /\ nth_error mask i = Some true) /\
    (forall i j x y, i < j -> nth_error sel i = Some x -> nth_error sel j = Some y -> (x < y)%Z).
Proof.
  intros Hl. unfold processMultiple. rewrite filter_isBool_map, map_length, Hl, Nat.eqb_refl.
  eexists; split; [reflexivity|]. apply (truePositions_bool mask 0).
Qed.

Lemma processMultiple_mask_wrong a (mask : list bool) :
  List.length mask <> alen a -> mask <> [] ->
  processMultiple a (KList (map KBool mask)) = Err KeyErr.
Proof.
  intros Hl Hne. unfold processMultiple. rewrite filter_isBool_map, map_length.
  destruct (Nat.eqb_spec (List.length mask) (alen a)); [tauto|].
  destruct mask; [tauto|reflexivity].
Qed.

Lemma filter_isBool_ids ids : filter isBool (map KId ids) = [].
Proof. induction ids; simpl; auto. Qed.

Lemma rmapM_ids a ids : rmapM (fun e => getIndex a (keyIdent e) true) (map KId ids)
  = rmapM (fun i => getIndex a i true) ids.
Proof. induction ids as [|i t IH]; simpl; auto. rewrite IH; auto. Qed.

Lemma rmapM_Forall2 {A B} (f : A -> result B) (P : A -> B -> Prop) l ys :
  (forall x y, In x l -> (f x = Ok y <-> P x y)) ->
  (rmapM f l = Ok ys <-> Forall2 P l ys).
Proof.
  revert ys; induction l as [|x xs IH]; intros ys H; simpl.
  - split; [intros [= <-]; constructor|inversion 1; auto].
  - split.
    + destruct (f x) as [y|] eqn:Hf; simpl; [|discriminate].
      destruct (rmapM f xs) as [ys'|] eqn:Hr; simpl; [|discriminate].
      intros [= <-]. constructor; [apply H; simpl; auto|].
      apply IH; auto. intros; apply H; simpl; auto.
    + inversion 1 as [|? y ? ys' Hp Hps]; subst.
      apply H in Hp; simpl; auto. rewrite Hp; simpl.
      apply IH in Hps; [|intros; apply H; simpl; auto]. rewrite Hps; auto.
Qed.

Lemma allIndices_NoDup n : NoDup (allIndices n).
Proof. apply FinFun.Injective_map_NoDup; [intros x y; lia|apply seq_NoDup]. Qed.

Lemma processMultiple_ids a ids sel :
  Inv a -> 0 < alen a -> (forall i, In i ids -> FloatInRange a i) ->
  ((exists r, processMultiple a (KList (map KId ids)) = Ok r /\ selection a r = sel)
   <-> Forall2 (Denotes a true) ids sel /\ NoDup sel).
Proof.
  intros Ha Hn Hf. unfold processMultiple. rewrite filter_isBool_ids; cbn [List.length].
  destruct (Nat.eqb_spec 0 (alen a)); [lia|]. change (0 <? 0) with false; cbv iota.
  rewrite rmapM_ids.
  assert (HF : forall ys, rmapM (fun i => getIndex a i true) ids = Ok ys <-> Forall2 (Denotes a true) ids ys).
  { intros ys; apply rmapM_Forall2. intros; apply getIndex_Denotes; auto. }
  split.
  - intros [r [H Hs]].
    destruct (rmapM (fun i => getIndex a i true) ids) as [ys|] eqn:E; simpl in H; [|discriminate].
    destruct (eqbd ys (allIndices (alen a))) eqn:Eq.
    + apply eqbd_true in Eq. injection H as <-. simpl in Hs; subst.
      split; [apply HF; auto|apply allIndices_NoDup].
    + destruct (nodupb ys) eqn:Ed; [|discriminate]. injection H as <-; simpl in Hs; subst.
      split; [apply HF; auto|apply nodupb_NoDup; auto].
  - intros [H1 H2]. apply HF in H1. rewrite H1; simpl.
    destruct (eqbd sel (allIndices (alen a))) eqn:Eq.
    + apply eqbd_true in Eq. exists None; split; auto.
    + rewrite (proj2 (nodupb_NoDup sel) H2). exists (Some sel); auto.
Qed.

Lemma getName_Denotes a z o : Inv a ->
  (getName a z = Ok o <-> exists i, Denotes a false (IdInt z) (Z.of_nat i) /\ nth_error (getNames a) i = Some o).
Proof.
  intros Ha. destruct (Inv_facts a Ha) as [Hl _].
  assert (Hn : List.length (names_inv (ensure a)) = alen a) by (rewrite names_inv_ensure; exact Hl).
  unfold getName, getNames, Denotes. cbv zeta. rewrite Hn. set (l := names_inv (ensure a)) in *.
  destruct (Z.ltb_spec z 0) as [Hz|Hz].
  - destruct (Z.ltb_spec (z + Z.of_nat (alen a)) 0) as [Hy|Hy].
    + split; [discriminate|]. intros (i & [H|H] & _); lia.
    + split.
      * destruct (nth_error l _) as [x|] eqn:E; [|discriminate]. intros [= ->].
        exists (Z.to_nat (z + Z.of_nat (alen a))). split; auto. lia.
      * intros (i & H & E). replace (Z.to_nat _) with i by lia. rewrite E. auto.
  - destruct (Z.ltb_spec z 0); [lia|]. split.
    + destruct (nth_error l _) as [x|] eqn:E; [|discriminate]. intros [= ->].
      exists (Z.to_nat z). split; auto. apply nth_error_lt in E. lia.
    + intros (i & H1 & E). replace (Z.to_nat z) with i by lia. rewrite E. auto.
Qed.
