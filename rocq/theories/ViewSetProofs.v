From Verif Require Import Base NamesModel NamesSpec NamesProofs NamesIndexProofs TableModel TableSpec TableProofs TableOps
  PrepModel PrepSpec PrepProofs SparseModel SparseSpec SparseProofs ViewModel ViewSpec ViewProofs.
Open Scope nat_scope.

Section P.
Variable V : Type.
Implicit Types t : table V.

Lemma pyIndex_nat n i : i < n -> pyIndex n (Z.of_nat i) = Some i.
Proof.
  intros H. unfold pyIndex. destruct (Z.of_nat i <? 0)%Z eqn:E; [apply Z.ltb_lt in E; lia|].
  rewrite E. destruct (Z.of_nat n <=? Z.of_nat i)%Z eqn:E2; [apply Z.leb_le in E2; lia|]. simpl. rewrite Nat2Z.id. reflexivity.
Qed.
Lemma row_of t i : wf t -> i < alen (tp t) -> exists r, nth_error (rows t) i = Some r /\ List.length r = alen (tf t) /\ nth i (rows t) [] = r.
Proof.
  intros [WL [WR _]] H. assert (Hl : i < List.length (rows t)) by lia. destruct (nth_error_is_some _ Hl) as [r Hr]. exists r. split; [exact Hr|].
  split; [apply WR; eapply nth_error_In; exact Hr|apply nth_error_nth; exact Hr].
Qed.
Lemma setOne_spec t x y c : wf t -> x < alen (tp t) -> y < alen (tf t) ->
  exists t', setOne t (Z.of_nat x) (Z.of_nat y) c = (t', Ok tt) /\
    Becomes t t' (fun i j => if (i =? x) && (j =? y) then Some c else cell t i j).
Proof.
  intros W Hx Hy. destruct (row_of t x W Hx) as [r [Hr [Lr Nr]]]. pose proof W as [WL [WR [IP IF]]].
  unfold setOne. rewrite pyIndex_nat by lia. rewrite Nr, pyIndex_nat by lia. eexists. split; [reflexivity|].
  split; [split; [reflexivity|split; [reflexivity|]]|].
  - split; [cbn [rows tp]; rewrite upd_length; exact WL|]. split; [|split; [exact IP|exact IF]].
    cbn [rows tf]. intros q Hq. apply In_nth_error in Hq. destruct Hq as [k Hk]. rewrite nth_error_upd in Hk.
    destruct (Nat.eq_dec x k) as [->|].
    + destruct (k <? List.length (rows t)); [|discriminate]. injection Hk as <-. rewrite upd_length. exact Lr.
    + apply WR. eapply nth_error_In; exact Hk.
  - intros i j Hi Hj. unfold cell. cbn [rows]. rewrite nth_error_upd. destruct (Nat.eq_dec x i) as [->|Hn].
    + rewrite Nat.eqb_refl. assert (E : i <? List.length (rows t) = true) by (apply Nat.ltb_lt; lia). rewrite E.
      rewrite nth_error_upd, Lr. destruct (Nat.eq_dec y j) as [->|Hm].
      * rewrite Nat.eqb_refl. assert (E2 : j <? alen (tf t) = true) by (apply Nat.ltb_lt; lia). rewrite E2. reflexivity.
      * assert (E2 : j =? y = false) by (apply Nat.eqb_neq; auto). rewrite E2, Hr. reflexivity.
    + assert (E : i =? x = false) by (apply Nat.eqb_neq; auto). rewrite E. reflexivity.
Qed.

Lemma setAll_spec c ps : forall t, wf t ->
  (forall x y, In (x, y) ps -> (0 <= x < Z.of_nat (alen (tp t)))%Z /\ (0 <= y < Z.of_nat (alen (tf t)))%Z) ->
  exists t', setAll t ps c = (t', Ok tt) /\
    Becomes t t' (fun i j => if mem (Z.of_nat i, Z.of_nat j) ps then Some c else cell t i j).
Proof.
  induction ps as [|[x y] rest IH]; intros t W HB.
  - exists t. split; [reflexivity|]. split; [split; [reflexivity|split; [reflexivity|exact W]]|]. reflexivity.
  - destruct (HB x y (or_introl eq_refl)) as [Hx Hy].
    assert (Ex : x = Z.of_nat (Z.to_nat x)) by lia. assert (Ey : y = Z.of_nat (Z.to_nat y)) by lia.
    set (a := Z.to_nat x) in *. set (b := Z.to_nat y) in *. clearbody a b. subst x y.
    destruct (setOne_spec t a b c W) as [t1 [E1 [[TP [TF W1]] C1]]]; [lia|lia|].
    destruct (IH t1 W1) as [t2 [E2 [[TP2 [TF2 W2]] C2]]].
    { intros x y Hin. rewrite TP, TF. apply HB. right. exact Hin. }
    exists t2. cbn [setAll]. rewrite E1. split; [exact E2|].
    split; [split; [congruence|split; [congruence|exact W2]]|].
    intros i j Hi Hj. rewrite C2 by (rewrite ?TP, ?TF; lia). cbn [mem].
    destruct (mem (Z.of_nat i, Z.of_nat j) rest) eqn:Em.
    + destruct (eq_dec (Z.of_nat i, Z.of_nat j) (Z.of_nat a, Z.of_nat b)); reflexivity.
    + rewrite C1 by auto. destruct (eq_dec (Z.of_nat i, Z.of_nat j) (Z.of_nat a, Z.of_nat b)) as [E|N].
      * injection E as Ei Ej. apply Nat2Z.inj in Ei. apply Nat2Z.inj in Ej. subst. rewrite !Nat.eqb_refl. reflexivity.
      * destruct ((i =? a) && (j =? b)) eqn:Eb; [|reflexivity]. apply andb_true_iff in Eb. destruct Eb as [Ea Eb].
        apply Nat.eqb_eq in Ea. apply Nat.eqb_eq in Eb. subst. tauto.
Qed.

Lemma setItem_single t ix iy x y c : wf t -> FloatInRange (tp t) ix -> FloatInRange (tf t) iy ->
  Denotes (tp t) true ix (Z.of_nat x) -> Denotes (tf t) true iy (Z.of_nat y) ->
  exists t', setItem t (SOne ix) (SOne iy) c = (t', Ok tt) /\
    Becomes t t' (fun i j => if (i =? x) && (j =? y) then Some c else cell t i j).
Proof.
  intros W FX FY DX DY. pose proof W as [_ [_ [IP IF]]].
  apply getIndex_Denotes in DX; auto. apply getIndex_Denotes in DY; auto.
  pose proof (getIndex_ok_range _ _ _ _ IP FX DX). pose proof (getIndex_ok_range _ _ _ _ IF FY DY).
  unfold setItem, resolveKey. rewrite DX, DY. cbn [rmap]. apply setOne_spec; auto; lia.
Qed.
Lemma setItem_many t kx ky xs ys c : wf t ->
  processMultiple (tp t) kx = Ok (Some xs) -> processMultiple (tf t) ky = Ok (Some ys) ->
  (forall x, In x xs -> (0 <= x < Z.of_nat (alen (tp t)))%Z) -> (forall y, In y ys -> (0 <= y < Z.of_nat (alen (tf t)))%Z) ->
  exists t', setItem t (SMany kx) (SMany ky) c = (t', Ok tt) /\
    Becomes t t' (fun i j => if mem (Z.of_nat i) xs && mem (Z.of_nat j) ys then Some c else cell t i j).
Proof.
  intros W EX EY BX BY. unfold setItem, resolveKey. rewrite EX, EY. cbn [rmap].
  destruct (setAll_spec c (list_prod xs ys) t W) as [t' [E [S C]]].
  { intros x y Hin. apply in_prod_iff in Hin. destruct Hin; auto. }
  exists t'. split; [destruct xs; exact E|]. split; [exact S|]. intros i j Hi Hj. rewrite C by auto.
  destruct (mem (Z.of_nat i, Z.of_nat j) (list_prod xs ys)) eqn:Em.
  - apply mem_In, in_prod_iff in Em. destruct Em as [A B]. apply mem_In in A. apply mem_In in B. rewrite A, B. reflexivity.
  - apply mem_not_In in Em. destruct (mem (Z.of_nat i) xs && mem (Z.of_nat j) ys) eqn:Eb; [|reflexivity].
    apply andb_true_iff in Eb. destruct Eb as [A B]. apply mem_In in A. apply mem_In in B. exfalso. apply Em, in_prod_iff. auto.
Qed.
Lemma Forall2_In_r {A B} (P : A -> B -> Prop) l l' : Forall2 P l l' -> forall y, In y l' -> exists x, In x l /\ P x y.
Proof. induction 1; simpl; [tauto|]. intros z [<-|Hz]; eauto. destruct (IHForall2 z Hz) as [w [Hw Pw]]. eauto. Qed.
Lemma setItem_ids t ids jds xs ys c : wf t -> 0 < alen (tp t) -> 0 < alen (tf t) ->
  (forall i, In i ids -> FloatInRange (tp t) i) -> (forall i, In i jds -> FloatInRange (tf t) i) ->
  Forall2 (Denotes (tp t) true) ids xs -> NoDup xs -> xs <> map Z.of_nat (seq 0 (alen (tp t))) ->
  Forall2 (Denotes (tf t) true) jds ys -> NoDup ys -> ys <> map Z.of_nat (seq 0 (alen (tf t))) ->
  exists t', setItem t (SMany (KList (map KId ids))) (SMany (KList (map KId jds))) c = (t', Ok tt) /\
    Becomes t t' (fun i j => if mem (Z.of_nat i) xs && mem (Z.of_nat j) ys then Some c else cell t i j).
Proof.
  intros W LP LF FX FY DX NX AX DY NY AY. pose proof W as [_ [_ [IP IF]]].
  assert (EX : processMultiple (tp t) (KList (map KId ids)) = Ok (Some xs)).
  { destruct (proj2 (processMultiple_ids (tp t) ids xs IP LP FX) (conj DX NX)) as [r [E S]]. destruct r as [l|]; simpl in S; [congruence|].
    exfalso. apply AX. symmetry. exact S. }
  assert (EY : processMultiple (tf t) (KList (map KId jds)) = Ok (Some ys)).
  { destruct (proj2 (processMultiple_ids (tf t) jds ys IF LF FY) (conj DY NY)) as [r [E S]]. destruct r as [l|]; simpl in S; [congruence|].
    exfalso. apply AY. symmetry. exact S. }
  apply setItem_many; auto.
  - intros x Hx. destruct (Forall2_In_r _ _ _ DX x Hx) as [i [Hi Di]]. apply getIndex_Denotes in Di; auto.
    eapply getIndex_ok_range; [exact IP|apply FX; exact Hi|exact Di].
  - intros x Hx. destruct (Forall2_In_r _ _ _ DY x Hx) as [i [Hi Di]]. apply getIndex_Denotes in Di; auto.
    eapply getIndex_ok_range; [exact IF|apply FY; exact Hi|exact Di].
Qed.
(** the documented mixed selections always fail *)
Lemma setItem_mixed t ix k c x ys : getIndex (tp t) ix true = Ok x -> processMultiple (tf t) k = Ok ys ->
  setItem t (SOne ix) (SMany k) c = (t, Err TypeErr).
Proof. intros E1 E2. unfold setItem, resolveKey. rewrite E1, E2. reflexivity. Qed.
Lemma setItem_full t ky c r : resolveKey (tf t) ky = Ok r ->
  setItem t (SMany (KSlice None None None)) ky c = (t, Err TypeErr).
Proof. intros E. unfold setItem. cbn [resolveKey processMultiple rmap]. rewrite E. reflexivity. Qed.

(** ** replaceRectangle, List *)
Lemma sliceAssign_nth {A} (row : list A) a b w j : a <= b -> b <= List.length row -> List.length w = b - a ->
  nth_error (sliceAssign row a b w) j = if (a <=? j) && (j <? b) then nth_error w (j - a) else nth_error row j.
Proof.
  intros H1 H2 H3. unfold sliceAssign. rewrite Nat.max_r by lia. rewrite !nth_error_app, firstn_length, H3.
  rewrite Nat.min_l by lia. rewrite nth_error_firstn, nth_error_skipn.
  destruct (j <? a) eqn:E1.
  - apply Nat.ltb_lt in E1. assert (E2 : a <=? j = false) by (apply Nat.leb_gt; lia). rewrite E2. reflexivity.
  - apply Nat.ltb_ge in E1. assert (E2 : a <=? j = true) by (apply Nat.leb_le; lia). rewrite E2. cbn [andb].
    destruct (j <? b) eqn:E3.
    + apply Nat.ltb_lt in E3. assert (E4 : j - a <? b - a = true) by (apply Nat.ltb_lt; lia). rewrite E4. reflexivity.
    + apply Nat.ltb_ge in E3. assert (E4 : j - a <? b - a = false) by (apply Nat.ltb_ge; lia). rewrite E4. f_equal. lia.
Qed.
Lemma sliceAssign_length {A} (row : list A) a b w : a <= b -> b <= List.length row -> List.length w = b - a ->
  List.length (sliceAssign row a b w) = List.length row.
Proof. intros. unfold sliceAssign. rewrite !app_length, firstn_length, skipn_length. lia. Qed.

Lemma rectRows_spec fill a b w ps : forall rs : list (list V), NoDup ps ->
  (forall p, In p ps -> p < List.length rs /\ fill p = Some (w p)) ->
  exists rs', rectRows rs fill a b ps = (rs', Ok tt) /\ List.length rs' = List.length rs /\
    forall i, nth_error rs' i = if mem i ps then option_map (fun r => sliceAssign r a b (w i)) (nth_error rs i) else nth_error rs i.
Proof.
  induction ps as [|p ps IH]; intros rs ND HB.
  - exists rs. split; [reflexivity|]. split; [reflexivity|]. reflexivity.
  - inversion ND as [|? ? Hni ND']; subst. destruct (HB p (or_introl eq_refl)) as [Hp Hf].
    destruct (nth_error_is_some _ Hp) as [row Hrow].
    destruct (IH (upd rs p (sliceAssign row a b (w p))) ND') as [rs' [E [L N]]].
    { intros q Hq. rewrite upd_length. apply HB. right. exact Hq. }
    exists rs'. cbn [rectRows]. rewrite Hf, Hrow. split; [exact E|]. split; [rewrite L; apply upd_length|].
    intros i. rewrite N, nth_error_upd. cbn [mem]. destruct (eq_dec i p) as [->|Hn].
    + assert (Em : mem p ps = false) by (apply mem_not_In; exact Hni). rewrite Em.
      destruct (Nat.eq_dec p p); [|tauto]. assert (E2 : p <? List.length rs = true) by (apply Nat.ltb_lt; lia). rewrite E2, Hrow. reflexivity.
    + destruct (Nat.eq_dec p i) as [->|]; [tauto|]. reflexivity.
Qed.
Lemma rectList_spec t fill w p p' f f' : wf t -> p <= p' -> p' <= alen (tp t) -> f <= f' -> f' <= alen (tf t) ->
  (forall i, p <= i < p' -> fill i = Some (w i) /\ List.length (w i) = f' - f) ->
  exists t', rectList t fill (p, p', f, f') = (t', Ok tt) /\
    Becomes t t' (fun i j => if inRectangle p p' f f' i j then nth_error (w i) (j - f) else cell t i j).
Proof.
  intros W H1 H2 H3 H4 HF. pose proof W as [WL [WR [IP IF]]]. unfold rectList.
  destruct (rectRows_spec fill f f' w (seq p (p' - p)) (rows t) (seq_NoDup _ _)) as [rs [E [L N]]].
  { intros q Hq. apply in_seq in Hq. split; [lia|]. apply HF. lia. }
  rewrite E. eexists. split; [reflexivity|].
  assert (Hmem : forall i, mem i (seq p (p' - p)) = (p <=? i) && (i <? p')).
  { intros i. destruct ((p <=? i) && (i <? p')) eqn:Eb.
    - apply mem_In, in_seq. apply andb_true_iff in Eb. destruct Eb as [A B]. apply Nat.leb_le in A. apply Nat.ltb_lt in B. lia.
    - apply mem_not_In. rewrite in_seq. intros Hc. apply andb_false_iff in Eb. destruct Eb as [A|A]; [apply Nat.leb_gt in A|apply Nat.ltb_ge in A]; lia. }
  split; [split; [reflexivity|split; [reflexivity|]]|].
  - split; [cbn [rows tp]; lia|]. split; [|split; [exact IP|exact IF]]. cbn [rows tf]. intros r Hr. apply In_nth_error in Hr.
    destruct Hr as [k Hk]. rewrite N, Hmem in Hk. destruct ((p <=? k) && (k <? p')) eqn:Eb.
    + apply andb_true_iff in Eb. destruct Eb as [A B]. apply Nat.leb_le in A. apply Nat.ltb_lt in B.
      destruct (nth_error (rows t) k) as [r0|] eqn:Er; [|discriminate]. simpl in Hk. injection Hk as <-.
      pose proof (WR _ (nth_error_In _ _ Er)). destruct (HF k) as [_ Lw]; [lia|]. rewrite sliceAssign_length; lia.
    + apply WR. eapply nth_error_In; exact Hk.
  - intros i j Hi Hj. unfold cell at 1. cbn [rows]. rewrite N, Hmem. unfold inRectangle.
    destruct ((p <=? i) && (i <? p')) eqn:Eb.
    + apply andb_true_iff in Eb. destruct Eb as [A B]. apply Nat.leb_le in A. apply Nat.ltb_lt in B.
      destruct (row_of t i W Hi) as [r [Hr [Lr _]]]. rewrite Hr. cbn [option_map].
      destruct (HF i) as [_ Lw]; [lia|]. rewrite sliceAssign_nth by lia. cbn [andb]. unfold cell. rewrite Hr. reflexivity.
    + cbn [andb]. reflexivity.
Qed.

Lemma rectObj_spec ap af n m ps fs pe fe p f : Inv ap -> Inv af -> 
  Denotes ap false ps (Z.of_nat p) -> Denotes af false fs (Z.of_nat f) ->
  RectEnd ap p n pe -> RectEnd af f m fe -> (fe = None -> n = m) ->
  rectObj ap af n m ps fs pe fe = Ok (p, p + n, f, f + m).
Proof.
  intros IP IF DP DF EP EF Hsq. unfold rectObj.
  apply getIndex_nofloat in DP; auto. apply getIndex_nofloat in DF; auto. rewrite DP, DF. cbn [rbind].
  assert (A : match pe with
        | None => Ok (Z.of_nat p + Z.of_nat n)%Z
        | Some i => e <- getIndex ap i false ;;
                    if (Z.of_nat n =? e - Z.of_nat p + 1)%Z then Ok (e + 1)%Z else Err InvalidArgumentValueCombination
        end = Ok (Z.of_nat (p + n))).
  { destruct pe as [i|]; [|f_equal; lia]. destruct EP as [e [De He]]. apply getIndex_nofloat in De; auto. rewrite De. cbn [rbind].
    destruct (Z.of_nat n =? Z.of_nat e - Z.of_nat p + 1)%Z eqn:E; [f_equal; lia|]. apply Z.eqb_neq in E. lia. }
  rewrite A. cbn [rbind].
  assert (B : match fe with
        | None => Ok (Z.of_nat f + Z.of_nat n)%Z
        | Some i => e <- getIndex af i false ;;
                    if (Z.of_nat m =? e - Z.of_nat f + 1)%Z then Ok (e + 1)%Z else Err InvalidArgumentValueCombination
        end = Ok (Z.of_nat (f + m))).
  { destruct fe as [i|]; [|rewrite (Hsq eq_refl); f_equal; lia]. destruct EF as [e [De He]]. apply getIndex_nofloat in De; auto. rewrite De. cbn [rbind].
    destruct (Z.of_nat m =? Z.of_nat e - Z.of_nat f + 1)%Z eqn:E; [f_equal; lia|]. apply Z.eqb_neq in E. lia. }
  rewrite B. cbn [rbind]. rewrite !Nat2Z.id. reflexivity.
Qed.
Lemma replaceObj_spec t o ps fs pe fe p f : wf t -> wf o ->
  Denotes (tp t) false ps (Z.of_nat p) -> Denotes (tf t) false fs (Z.of_nat f) ->
  RectEnd (tp t) p (alen (tp o)) pe -> RectEnd (tf t) f (alen (tf o)) fe ->
  p + alen (tp o) <= alen (tp t) -> f + alen (tf o) <= alen (tf t) ->
  (fe = None -> alen (tp o) = alen (tf o)) ->
  exists t', replaceRectangleObj t o ps fs pe fe = (t', Ok tt) /\
    Becomes t t' (fun i j => if inRectangle p (p + alen (tp o)) f (f + alen (tf o)) i j
                             then cell o (i - p) (j - f) else cell t i j).
Proof.
  intros W Wo DP DF EP EF HP HF Hsq. pose proof W as [_ [_ [IP IF]]]. pose proof Wo as [OL [OR _]].
  unfold replaceRectangleObj. rewrite (rectObj_spec (tp t) (tf t) _ _ ps fs pe fe p f IP IF DP DF EP EF Hsq).
  destruct (rectList_spec t (fun i => nth_error (rows o) (i - p)) (fun i => nth (i - p) (rows o) []) p (p + alen (tp o)) f (f + alen (tf o)) W)
    as [t' [E [S C]]]; try lia.
  { intros i Hi. destruct (row_of o (i - p) Wo) as [r [Hr [Lr Nr]]]; [lia|]. rewrite Nr, Hr. split; [reflexivity|lia]. }
  exists t'. split; [exact E|]. split; [exact S|]. intros i j Hi Hj. rewrite C by auto.
  destruct (inRectangle p (p + alen (tp o)) f (f + alen (tf o)) i j) eqn:ER; [|reflexivity].
  unfold inRectangle in ER. apply andb_true_iff in ER. destruct ER as [ER _]. apply andb_true_iff in ER. destruct ER as [ER _].
  apply andb_true_iff in ER. destruct ER as [A B]. apply Nat.leb_le in A. apply Nat.ltb_lt in B.
  destruct (row_of o (i - p) Wo) as [r [Hr [Lr Nr]]]; [lia|]. unfold cell. rewrite Nr, Hr. reflexivity.
Qed.
Lemma replaceObj_mismatch t o ps fs i fe p f e : wf t ->
  Denotes (tp t) false ps (Z.of_nat p) -> Denotes (tf t) false fs (Z.of_nat f) -> Denotes (tp t) false i (Z.of_nat e) ->
  S e <> p + alen (tp o) ->
  replaceRectangleObj t o ps fs (Some i) fe = (t, Err InvalidArgumentValueCombination).
Proof.
  intros W DP DF DE HN. pose proof W as [_ [_ [IP IF]]]. unfold replaceRectangleObj, rectObj.
  apply getIndex_nofloat in DP; auto. apply getIndex_nofloat in DF; auto. apply getIndex_nofloat in DE; auto.
  rewrite DP, DF, DE. cbn [rbind]. destruct (Z.of_nat (alen (tp o)) =? Z.of_nat e - Z.of_nat p + 1)%Z eqn:E; [|reflexivity].
  apply Z.eqb_eq in E. lia.
Qed.
Lemma replaceConst_spec t c ps fs pe fe p f p' f' : wf t ->
  Denotes (tp t) false ps (Z.of_nat p) -> Denotes (tf t) false fs (Z.of_nat f) ->
  Denotes (tp t) false pe (Z.of_nat p') -> Denotes (tf t) false fe (Z.of_nat f') ->
  if (p <=? p') && (f <=? f')
  then exists t', replaceRectangleConst t c ps fs (Some pe) (Some fe) = (t', Ok tt) /\
    Becomes t t' (fun i j => if inRectangle p (S p') f (S f') i j then Some c else cell t i j)
  else replaceRectangleConst t c ps fs (Some pe) (Some fe) = (t, Err InvalidArgumentValueCombination).
Proof.
  intros W DP DF DP' DF'. pose proof W as [_ [_ [IP IF]]].
  pose proof (Denotes_range _ _ _ IP DP') as RP. pose proof (Denotes_range _ _ _ IF DF') as RF.
  unfold replaceRectangleConst, rectConst.
  apply getIndex_nofloat in DP; auto. apply getIndex_nofloat in DF; auto. apply getIndex_nofloat in DP'; auto. apply getIndex_nofloat in DF'; auto.
  rewrite DP, DF, DP', DF'. cbn [rbind].
  destruct (Z.of_nat p' <? Z.of_nat p)%Z eqn:E1.
  { apply Z.ltb_lt in E1. assert (E : p <=? p' = false) by (apply Nat.leb_gt; lia). rewrite E. reflexivity. }
  apply Z.ltb_ge in E1. assert (E : p <=? p' = true) by (apply Nat.leb_le; lia). rewrite E. cbn [andb].
  destruct (Z.of_nat f' <? Z.of_nat f)%Z eqn:E2.
  { apply Z.ltb_lt in E2. assert (E3 : f <=? f' = false) by (apply Nat.leb_gt; lia). rewrite E3. reflexivity. }
  apply Z.ltb_ge in E2. assert (E3 : f <=? f' = true) by (apply Nat.leb_le; lia). rewrite E3. rewrite !Nat2Z.id.
  destruct (rectList_spec t (fun _ => Some (repeat c (S f' - f))) (fun _ => repeat c (S f' - f)) p (S p') f (S f') W) as [t' [Et [S C]]]; try lia.
  { intros i Hi. split; [reflexivity|]. apply repeat_length. }
  exists t'. split; [exact Et|]. split; [exact S|]. intros i j Hi Hj. rewrite C by auto.
  destruct (inRectangle p (Datatypes.S p') f (Datatypes.S f') i j) eqn:ER; [|reflexivity].
  unfold inRectangle in ER. apply andb_true_iff in ER. destruct ER as [ER D]. apply andb_true_iff in ER. destruct ER as [ER A].
  apply Nat.leb_le in A. apply Nat.ltb_lt in D. apply nth_error_repeat. lia.
Qed.

(** ** Views are read-only (List) *)
Lemma viewSetItem_list t v kx ky c : fst (viewSetItem VList t v kx ky c) = t.
Proof.
  unfold viewSetItem. destruct (resolveKey (vpa v) kx) as [[x|o]|]; try reflexivity.
  - destruct (resolveKey (vfa v) ky) as [[y|o]|]; try reflexivity.
    unfold viewSetOne. destruct ((x <? 0)%Z || (Z.of_nat (vpe v - vps v) <=? x)%Z); reflexivity.
  - destruct (resolveKey (vfa v) ky) as [[y|o']|]; [| |reflexivity].
    + destruct o as [l|]; [destruct l|]; reflexivity.
    + destruct o as [l|]; [|reflexivity]. destruct o' as [l'|]; [|destruct l; reflexivity].
      assert (H : fst (viewSetAll VList t v (list_prod l l') c) = t); [|destruct l; exact H].
      induction (list_prod l l') as [|[x y] q IH]; [reflexivity|]. cbn [viewSetAll viewSetOne].
      destruct ((x <? 0)%Z || (Z.of_nat (vpe v - vps v) <=? x)%Z); reflexivity.
Qed.
Lemma viewCall_method k t v m : realMethod m -> isSetItem m = false -> viewCall k t v m = (t, Err ImproperObjectAction).
Proof.
  intros R S. unfold viewCall. assert (O : overridden m = true); [|rewrite O; reflexivity].
  destruct m; try reflexivity; [|discriminate]. apply mem_In. exact R.
Qed.
Lemma viewCalls_list t v h : Forall realMethod h -> fst (viewCalls VList t v h) = t.
Proof.
  induction h as [|m h IH]; intros R; [reflexivity|]. inversion R as [|? ? Rm Rh]; subst. cbn [viewCalls].
  assert (E : fst (viewCall VList t v m) = t).
  { destruct (isSetItem m) eqn:S; [destruct m; try discriminate; apply viewSetItem_list|rewrite viewCall_method; auto]. }
  destruct (viewCall VList t v m) as [t1 r]. cbn [fst] in E. subst t1.
  specialize (IH Rh). destruct (viewCalls VList t v h) as [t2 rs]. cbn [fst] in *. exact IH.
Qed.
Lemma viewCalls_methods k t v h : Forall realMethod h -> Forall (fun m => isSetItem m = false) h ->
  viewCalls k t v h = (t, map (fun _ => Err ImproperObjectAction) h).
Proof.
  induction h as [|m h IH]; intros R S; [reflexivity|]. inversion R; inversion S; subst. cbn [viewCalls map].
  rewrite viewCall_method by auto. rewrite IH by auto. reflexivity.
Qed.
End P.
