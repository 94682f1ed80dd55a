(** Proofs about matrix multiplication and powers (C58). *)
From Verif Require Import Base NamesModel NamesSpec NamesProofs TableModel TableSpec TableProofs TableOps TableOpsProofs MatchModel MatchSpec MatchProofs
  ElementsModel ElementsSpec ElementsCalcProofs BinOpModel BinOpSpec BinOpProofs MatMulModel MatMulSpec.
Open Scope nat_scope.

(** ** integer matrices *)
Lemma zsum_ext n f g : (forall k, k < n -> f k = g k) -> zsum n f = zsum n g.
Proof. induction n as [|n IH]; intros H; cbn; [reflexivity|]. rewrite IH by (intros; apply H; lia). rewrite H by lia. reflexivity. Qed.
Lemma zsum_add n f g : zsum n (fun k => f k + g k)%Z = (zsum n f + zsum n g)%Z.
Proof. induction n as [|n IH]; cbn; [reflexivity|]. rewrite IH. lia. Qed.
Lemma zsum_mul_l n c f : zsum n (fun k => c * f k)%Z = (c * zsum n f)%Z.
Proof. induction n as [|n IH]; cbn; [lia|]. rewrite IH. lia. Qed.
Lemma zsum_mul_r n c f : zsum n (fun k => f k * c)%Z = (zsum n f * c)%Z.
Proof. induction n as [|n IH]; cbn; [lia|]. rewrite IH. lia. Qed.
Lemma zsum_zero n f : (forall k, k < n -> f k = 0%Z) -> zsum n f = 0%Z.
Proof. induction n as [|n IH]; intros H; cbn; [reflexivity|]. rewrite IH by (intros; apply H; lia). rewrite H by lia. reflexivity. Qed.
Lemma zsum_swap n m (f : nat -> nat -> Z) : zsum n (fun i => zsum m (f i)) = zsum m (fun j => zsum n (fun i => f i j)).
Proof.
  induction n as [|n IH]; cbn; [symmetry; apply zsum_zero; reflexivity|]. rewrite IH, <- zsum_add. reflexivity.
Qed.
Lemma product_assoc n m A B C i j : product m (product n A B) C i j = product n A (product m B C) i j.
Proof.
  unfold product. rewrite (zsum_ext m _ (fun k => zsum n (fun l => (A i l * B l k) * C k j)%Z)) by (intros; symmetry; apply zsum_mul_r).
  rewrite zsum_swap. apply zsum_ext. intros l _. rewrite <- zsum_mul_l. apply zsum_ext. intros k _. lia.
Qed.
Lemma product_ext n A A' B B' i j : (forall k, k < n -> A i k = A' i k) -> (forall k, k < n -> B k j = B' k j) -> product n A B i j = product n A' B' i j.
Proof. intros H1 H2. apply zsum_ext. intros k Hk. rewrite H1, H2 by exact Hk. reflexivity. Qed.
Lemma zsum_unit n f j : j < n -> zsum n (fun k => f k * unit k j)%Z = f j.
Proof.
  unfold unit. induction n as [|n IH]; intros Hj; [lia|]. cbn [zsum]. destruct (Nat.eq_dec j n) as [->|e].
  - rewrite zsum_zero; [rewrite Nat.eqb_refl; lia|]. intros k Hk. destruct (k =? n) eqn:E; [apply Nat.eqb_eq in E|]; lia.
  - rewrite IH by lia. destruct (n =? j) eqn:E; [apply Nat.eqb_eq in E|]; lia.
Qed.
Lemma product_unit_r n A i j : j < n -> product n A unit i j = A i j.
Proof. intros H. apply (zsum_unit n (fun k => A i k) j H). Qed.
Lemma product_unit_l n A i j : i < n -> product n unit A i j = A i j.
Proof.
  intros H. unfold product. rewrite <- (zsum_unit n (fun k => A k j) i H). apply zsum_ext. intros k _. unfold unit. rewrite (Nat.eqb_sym i k). lia.
Qed.
Lemma mpower_1 n A i j : i < n -> mpower n A 1 i j = A i j.
Proof. apply product_unit_l. Qed.
Lemma mpower_add n A p q i j : i < n -> j < n -> product n (mpower n A p) (mpower n A q) i j = mpower n A (p + q) i j.
Proof.
  revert i j. induction q as [|q IH]; intros i j Hi Hj; cbn [mpower].
  - rewrite Nat.add_0_r. apply product_unit_r. exact Hj.
  - rewrite <- product_assoc. rewrite Nat.add_succ_r. cbn [mpower]. apply product_ext; [|reflexivity]. intros k Hk. apply IH; assumption.
Qed.

(** ** one element of a product *)
Lemma column_wf (t : table pval) i j : wf t -> i < alen (tp t) -> j < alen (tf t) -> nth_error (column t j) i = cell t i j.
Proof.
  intros W Hi Hj. assert (W' := W). destruct W' as (W1 & W2 & _). unfold column, cell. rewrite (column_nth_wf _ _ _ W Hj) || idtac.
  revert i Hi. rewrite <- W1. clear W1 W. revert W2. induction (rows t) as [|r rs IH]; intros W2 i Hi; [cbn in Hi; lia|].
  cbn [flat_map]. assert (Hr : List.length r = alen (tf t)) by (apply W2; left; reflexivity).
  destruct (nth_error r j) as [v|] eqn:E; [|apply nth_error_None in E; lia]. destruct i as [|i]; cbn; [symmetry; exact E|].
  apply IH; [intros r' Hr'; apply W2; right; exact Hr'|cbn in Hi; lia].
Qed.

Section S.
Variable floatOf : string -> option pval.
Variables pyMul pyAdd : pval -> pval -> result pval.
Variable scipyInv : list (list pval) -> result (list (list pval)).

Lemma runTotal_spec (p f : list pval) : forall m k t, TotalIs pyMul pyAdd (nth_error p) (nth_error f) k t -> List.length p = k + m -> List.length f = k + m ->
  match runTotal pyMul pyAdd (seq k m) p f t with
  | Ok v => TotalIs pyMul pyAdd (nth_error p) (nth_error f) (k + m) v
  | Err e => TotalFails pyMul pyAdd (nth_error p) (nth_error f) (k + m) e
  end.
Proof.
  induction m as [|m IH]; intros k t Ht Hp Hf; cbn [seq runTotal]; [rewrite Nat.add_0_r; exact Ht|].
  destruct (nth_error p k) as [a|] eqn:Ea; [|apply nth_error_None in Ea; lia]. destruct (nth_error f k) as [b|] eqn:Eb; [|apply nth_error_None in Eb; lia].
  destruct (pyMul a b) as [x|e] eqn:Em; cbn [rbind].
  - destruct (pyAdd t x) as [t'|e] eqn:Et; cbn [rbind].
    + specialize (IH (S k) t'). rewrite Nat.add_succ_r. apply IH; [exact (total_S _ _ _ _ _ _ _ _ _ _ Ht Ea Eb Em Et)|lia|lia].
    + exists k, t, a, b. split; [lia|]. split; [exact Ht|]. split; [exact Ea|]. split; [exact Eb|]. right. exists x. auto.
  - exists k, t, a, b. split; [lia|]. split; [exact Ht|]. split; [exact Ea|]. split; [exact Eb|]. left. exact Em.
Qed.
Lemma TotalIs_ext x y x' y' n v : (forall k, k < n -> x k = x' k) -> (forall k, k < n -> y k = y' k) -> TotalIs pyMul pyAdd x y n v -> TotalIs pyMul pyAdd x' y' n v.
Proof.
  intros Hx Hy H. induction H as [|n t a b m t' H IH Ha Hb Hm Ht]; [constructor|].
  apply (total_S _ _ _ _ n t a b m); auto; rewrite <- ?Hx, <- ?Hy by lia; auto.
Qed.

Lemma matmulImpl_spec a b : wf a -> wf b -> alen (tf a) = alen (tp b) ->
  match matmulImpl pyMul pyAdd a b with
  | Ok m => shape m (alen (tp a)) (alen (tf b)) /\
      forall i j, i < alen (tp a) -> j < alen (tf b) -> exists v, mcell m i j = Some v /\ TotalIs pyMul pyAdd (cell a i) (fun k => cell b k j) (alen (tf a)) v
  | Err e => exists i j, i < alen (tp a) /\ j < alen (tf b) /\ TotalFails pyMul pyAdd (cell a i) (fun k => cell b k j) (alen (tf a)) e
  end.
Proof.
  intros Wa Wb HL. unfold matmulImpl. assert (Wa' := Wa). destruct Wa' as (A1 & A2 & _).
  assert (VL : List.length (vectors Fts b) = alen (tf b)) by (apply vectors_length; exact Wb).
  assert (One : forall i j p f, nth_error (rows a) i = Some p -> nth_error (vectors Fts b) j = Some f -> j < alen (tf b) ->
     match runTotal pyMul pyAdd (seq 0 (alen (tp b))) p f (PInt 0) with
     | Ok v => TotalIs pyMul pyAdd (cell a i) (fun k => cell b k j) (alen (tf a)) v
     | Err e => TotalFails pyMul pyAdd (cell a i) (fun k => cell b k j) (alen (tf a)) e end).
  { intros i j p f Hp Hf Hj. rewrite HL.
    assert (Lp : List.length p = alen (tp b)) by (rewrite <- HL; apply A2; exact (nth_error_In _ _ Hp)).
    assert (Ef : f = column b j).
    { cbn [vectors] in Hf. rewrite nth_error_map in Hf. rewrite (nth_error_nth' (seq 0 (alen (tf b))) 0) in Hf by (rewrite seq_length; exact Hj). rewrite seq_nth in Hf by exact Hj.
      cbn in Hf. congruence. }
    assert (Lf : List.length f = alen (tp b)).
    { subst f. clear - Wb Hj. destruct Wb as (B1 & B2 & _). rewrite <- B1. unfold column. revert B2. clear B1. induction (rows b) as [|r rs IH]; intros B2; [reflexivity|].
      cbn [flat_map]. assert (Hr : List.length r = alen (tf b)) by (apply B2; left; reflexivity). destruct (nth_error r j) eqn:E; [|apply nth_error_None in E; lia].
      cbn. f_equal. apply IH. intros r' Hr'. apply B2. right. exact Hr'. }
    assert (Xp : forall k, k < alen (tp b) -> nth_error p k = cell a i k) by (intros k _; unfold cell; rewrite Hp; reflexivity).
    assert (Xf : forall k, k < alen (tp b) -> nth_error f k = cell b k j) by (intros k Hk; subst f; apply column_wf; assumption).
    pose proof (runTotal_spec p f (alen (tp b)) 0 (PInt 0) (total_0 _ _ _ _) Lp Lf) as R. cbn [Nat.add] in R.
    destruct (runTotal _ _ _ _ _ _) as [v|e].
    - exact (TotalIs_ext _ _ _ _ _ _ Xp Xf R).
    - destruct R as (k & t & x & y & Hk & Ht & Hx & Hy & Hm). exists k, t, x, y. split; [exact Hk|].
      split; [apply (TotalIs_ext (nth_error p) (nth_error f)); [intros; apply Xp; lia|intros; apply Xf; lia|exact Ht]|].
      rewrite <- Xp, <- Xf by exact Hk. auto. }
  destruct (rmapM _ (rows a)) as [m|e] eqn:E.
  - pose proof (rmapM_ok_length _ _ E) as L. split.
    + split; [congruence|]. intros r Hr. apply In_nth_error in Hr as [i Hi]. pose proof (nth_error_lt _ _ Hi) as Hlt. rewrite L in Hlt.
      destruct (nth_error_is_some _ Hlt) as [p Hp]. destruct (rmapM_ok_nth _ _ E _ Hp) as (y & Hy & Hg). replace r with y by congruence.
      rewrite (rmapM_ok_length _ _ Hg). exact VL.
    + intros i j Hi Hj. rewrite <- A1 in Hi. destruct (nth_error_is_some _ Hi) as [p Hp]. destruct (rmapM_ok_nth _ _ E _ Hp) as (y & Hy & Hg).
      assert (Hj' := Hj). rewrite <- VL in Hj'. destruct (nth_error_is_some _ Hj') as [f Hf]. destruct (rmapM_ok_nth _ _ Hg _ Hf) as (v & Hv & Hr).
      exists v. split; [unfold mcell; rewrite Hy; exact Hv|]. pose proof (One i j p f Hp Hf Hj) as O. rewrite Hr in O. exact O.
  - apply rmapM_fail in E as (p & Hp & E). apply rmapM_fail in E as (f & Hf & E). apply In_nth_error in Hp as [i Hp]. apply In_nth_error in Hf as [j Hf].
    assert (Hj : j < alen (tf b)) by (rewrite <- VL; exact (nth_error_lt _ _ Hf)). assert (Hi : i < alen (tp a)) by (rewrite <- A1; exact (nth_error_lt _ _ Hp)).
    exists i, j. split; [exact Hi|]. split; [exact Hj|]. pose proof (One i j p f Hp Hf Hj) as O. rewrite E in O. exact O.
Qed.

(** ** the operator *)
Lemma toNumeric_same v v' : toNumeric floatOf false v = Ok v' -> match v with PStr s => floatOf s = Some v' | _ => v' = v end.
Proof. destruct v; cbn; try (intros H; injection H as <-; reflexivity); try discriminate. destruct (floatOf s); [|discriminate]. intros H. injection H as ->. reflexivity. Qed.
Lemma numeric_strings e t : wf t ->
  (exists m, numericRows floatOf false e (rows t) = Ok m /\ AllNumeric floatOf t /\ StringsToNumbers floatOf t (withRows t m)) \/
  (numericRows floatOf false e (rows t) = Err e /\ ~ AllNumeric floatOf t).
Proof.
  intros W. destruct (numericRows_spec floatOf false e t W) as [(m & H1 & H2 & H3 & H4)|H]; [left|right; exact H].
  exists m. split; [exact H1|]. split; [exact H2|]. split; [reflexivity|]. split; [reflexivity|]. split; [exact H3|].
  intros i j v Hv. destruct (H4 i j v Hv) as (v' & Hc & Hn). exists v'. split; [exact Hc|]. apply toNumeric_same. exact Hn.
Qed.
Lemma named_spec a : Inv a -> exists x, named a (alen a) = Ok x /\ alen x = alen a /\ Inv x /\ getNames x = getNames a.
Proof.
  intros HI. unfold named. destruct (namesCreated a) eqn:E.
  - destruct (namedAxis_list (alen a) (getNames a)) as (x & H1 & H2 & H3 & H4).
    { destruct a as [n [[d l]|]]; [apply HI|discriminate]. } { apply names_Distinct. exact HI. } exists x. auto.
  - exists (mkAxis (alen a) None). split; [reflexivity|]. split; [reflexivity|]. split; [exact I|]. destruct a as [n [[d l]|]]; [discriminate|reflexivity].
Qed.
(** [s1], [b1]: the operands after the call; [l], [r]: the left and the right one *)
Lemma matMul_spec refl s b : wf s -> wf b -> 0 < alen (tp s) -> 0 < alen (tf s) -> 0 < alen (tp b) -> 0 < alen (tf b) -> AllNumeric floatOf s -> AllNumeric floatOf b ->
  exists s1 b1 res, matMul floatOf pyMul pyAdd refl s (MBase b) = (s1, MBase b1, res) /\ StringsToNumbers floatOf s s1 /\ StringsToNumbers floatOf b b1 /\
  let l := if refl then b1 else s1 in
  let r := if refl then s1 else b1 in
  let Compatible := alen (tf l) = alen (tp r) /\ NamesConsistent (getNames (tf l)) (getNames (tp r)) in
  match res with
  | Ok c => Compatible /\ wf c /\ alen (tp c) = alen (tp l) /\ alen (tf c) = alen (tf r) /\ getNames (tp c) = getNames (tp l) /\ getNames (tf c) = getNames (tf r) /\
      forall i j, i < alen (tp c) -> j < alen (tf c) -> exists v, cell c i j = Some v /\ TotalIs pyMul pyAdd (cell l i) (fun k => cell r k j) (alen (tf l)) v
  | Err e => (e = InvalidArgumentValue /\ ~ Compatible) \/
      (Compatible /\ exists i j, i < alen (tp l) /\ j < alen (tf r) /\ TotalFails pyMul pyAdd (cell l i) (fun k => cell r k j) (alen (tf l)) e)
  end.
Proof.
  intros W W' P1 P2 P3 P4 N N'. unfold matMul.
  assert (isEmpty s = false) as -> by (unfold isEmpty; destruct (alen (tp s)); [lia|]; destruct (alen (tf s)); [lia|reflexivity]).
  assert (isEmpty b = false) as -> by (unfold isEmpty; destruct (alen (tp b)); [lia|]; destruct (alen (tf b)); [lia|reflexivity]).
  destruct (numeric_strings ImproperObjectAction s W) as [(ms & -> & _ & C)|[_ H]]; [|contradiction].
  destruct (numeric_strings InvalidArgumentValue b W') as [(mb & -> & _ & C')|[_ H]]; [|contradiction].
  do 3 eexists. split; [reflexivity|]. split; [exact C|]. split; [exact C'|]. cbv zeta.
  set (l := if refl then withRows b mb else withRows s ms). set (r := if refl then withRows s ms else withRows b mb).
  assert (Wl : wf l) by (destruct C as (_ & _ & C & _); destruct C' as (_ & _ & C' & _); destruct refl; assumption).
  assert (Wr : wf r) by (destruct C as (_ & _ & C & _); destruct C' as (_ & _ & C' & _); destruct refl; assumption).
  clearbody l r. destruct (alen (tf l) =? alen (tp r)) eqn:E; cbn [negb].
  2:{ apply Nat.eqb_neq in E. left. split; [reflexivity|]. intros [H _]. contradiction. }
  apply Nat.eqb_eq in E. destruct (validateEqualNames_spec (tf l) (tp r)) as [[-> NC]|[-> NC]]; [apply Wl|apply Wr|exact E| |]; cbn [rbind].
  2:{ left. split; [reflexivity|]. intros [_ H]. contradiction. }
  pose proof (matmulImpl_spec l r Wl Wr E) as M. destruct (matmulImpl _ _ l r) as [m|e]; cbn [rbind]; [|right; split; [split; assumption|exact M]].
  destruct (named_spec (tp l)) as (pa & -> & A1 & A2 & A3); [apply Wl|]. cbn [rbind]. destruct (named_spec (tf r)) as (fa & -> & B1 & B2 & B3); [apply Wr|]. cbn [rbind].
  destruct M as [[M1 M2] M3]. split; [split; assumption|]. cbn [tp tf]. split; [split; [cbn; congruence|split; [cbn; intros x Hx; rewrite (M2 x Hx); congruence|split; assumption]]|].
  split; [exact A1|]. split; [exact B1|]. split; [exact A3|]. split; [exact B3|]. intros i j Hi Hj. rewrite A1 in Hi. rewrite B1 in Hj. exact (M3 i j Hi Hj).
Qed.
Lemma matMul_empty refl s b : alen (tp s) = 0 \/ alen (tf s) = 0 \/ alen (tp b) = 0 \/ alen (tf b) = 0 ->
  matMul floatOf pyMul pyAdd refl s (MBase b) = (s, MBase b, Err ImproperObjectAction).
Proof.
  intros H. unfold matMul. destruct (isEmpty s) eqn:E1; [reflexivity|]. destruct (isEmpty b) eqn:E2; [reflexivity|]. unfold isEmpty in *.
  apply orb_false_iff in E1 as [H1 H2]. apply orb_false_iff in E2 as [H3 H4]. apply Nat.eqb_neq in H1, H2, H3, H4. lia.
Qed.
Lemma matMul_nonnumeric refl s b : wf s -> wf b -> 0 < alen (tp s) -> 0 < alen (tf s) -> 0 < alen (tp b) -> 0 < alen (tf b) ->
  (~ AllNumeric floatOf s -> matMul floatOf pyMul pyAdd refl s (MBase b) = (s, MBase b, Err ImproperObjectAction)) /\
  (AllNumeric floatOf s -> ~ AllNumeric floatOf b -> exists s1, matMul floatOf pyMul pyAdd refl s (MBase b) = (s1, MBase b, Err InvalidArgumentValue) /\ StringsToNumbers floatOf s s1).
Proof.
  intros W W' P1 P2 P3 P4. unfold matMul.
  assert (isEmpty s = false) as -> by (unfold isEmpty; destruct (alen (tp s)); [lia|]; destruct (alen (tf s)); [lia|reflexivity]).
  assert (isEmpty b = false) as -> by (unfold isEmpty; destruct (alen (tp b)); [lia|]; destruct (alen (tf b)); [lia|reflexivity]).
  destruct (numeric_strings ImproperObjectAction s W) as [(ms & -> & A & C)|[-> A]]; (split; [intros H|intros H H']); try contradiction; [|reflexivity].
  destruct (numeric_strings InvalidArgumentValue b W') as [(mb & _ & B & _)|[-> B]]; [contradiction|]. eexists. split; [reflexivity|exact C].
Qed.

(** ** integer matrices *)
Hypothesis IA : IntArith pyMul pyAdd.
Lemma TotalIs_int x y n v A B : (forall k, k < n -> x k = Some (PInt (A k))) -> (forall k, k < n -> y k = Some (PInt (B k))) ->
  TotalIs pyMul pyAdd x y n v -> v = PInt (zsum n (fun k => (A k * B k)%Z)).
Proof.
  intros Hx Hy H. induction H as [|n t a b m t' H IH Ha Hb Hm Ht]; [reflexivity|].
  rewrite (Hx n) in Ha by lia. rewrite (Hy n) in Hb by lia. injection Ha as <-. injection Hb as <-. rewrite (proj1 IA) in Hm. injection Hm as <-.
  rewrite IH in Ht by (intros; auto). rewrite (proj2 IA) in Ht. injection Ht as <-. reflexivity.
Qed.
Lemma TotalFails_int x y n e A B : (forall k, k < n -> x k = Some (PInt (A k))) -> (forall k, k < n -> y k = Some (PInt (B k))) ->
  TotalFails pyMul pyAdd x y n e -> False.
Proof.
  intros Hx Hy (k & t & a & b & Hk & Ht & Ha & Hb & H). rewrite (Hx k Hk) in Ha. rewrite (Hy k Hk) in Hb. injection Ha as <-. injection Hb as <-.
  rewrite (TotalIs_int x y k t A B (fun i Hi => Hx i (Nat.lt_trans _ _ _ Hi Hk)) (fun i Hi => Hy i (Nat.lt_trans _ _ _ Hi Hk)) Ht) in H. rewrite (proj1 IA) in H.
  destruct H as [H|(m & H & H')]; [discriminate|]. injection H as <-. rewrite (proj2 IA) in H'. discriminate.
Qed.
Lemma IsMatrix_numeric t n k A : IsMatrix t n k A -> AllNumeric floatOf t.
Proof.
  intros (W & E1 & E2 & H) i j v Hv. destruct (mcell_range (rows t) _ _ i j v (shapeOf t W) Hv) as [Hi Hj].
  rewrite H in Hv by lia. injection Hv as <-. eexists. apply asn_same. reflexivity.
Qed.
Lemma IsMatrix_same t t' n k A : IsMatrix t n k A -> StringsToNumbers floatOf t t' -> IsMatrix t' n k A.
Proof.
  intros (W & E1 & E2 & H) (T1 & T2 & W' & T). split; [exact W'|]. rewrite T1, T2. split; [exact E1|]. split; [exact E2|].
  intros i j Hi Hj. destruct (T i j _ (H i j Hi Hj)) as (v' & Hv' & ->). exact Hv'.
Qed.
Lemma matMul_int a b n k m A B : IsMatrix a n k A -> IsMatrix b k m B -> 0 < n -> 0 < k -> 0 < m -> NamesConsistent (getNames (tf a)) (getNames (tp b)) ->
  exists a1 b1 c, matMul floatOf pyMul pyAdd false a (MBase b) = (a1, MBase b1, Ok c) /\ IsMatrix a1 n k A /\ IsMatrix b1 k m B /\ IsMatrix c n m (product k A B) /\
    getNames (tp c) = getNames (tp a) /\ getNames (tf c) = getNames (tf b) /\ tp a1 = tp a /\ tf a1 = tf a /\ tp b1 = tp b /\ tf b1 = tf b.
Proof.
  intros IA1 IB1 Hn Hk Hm NC. assert (Ia := IA1). assert (Ib := IB1). destruct Ia as (W & E1 & E2 & H). destruct Ib as (W' & F1 & F2 & H').
  destruct (matMul_spec false a b W W') as (a1 & b1 & res & -> & S1 & S2 & R); try lia; [exact (IsMatrix_numeric _ _ _ _ IA1)|exact (IsMatrix_numeric _ _ _ _ IB1)|].
  pose proof (IsMatrix_same _ _ _ _ _ IA1 S1) as J1. pose proof (IsMatrix_same _ _ _ _ _ IB1 S2) as J2. cbv zeta in R.
  assert (T1 := J1). assert (T2 := J2). destruct T1 as (V & G1 & G2 & Q). destruct T2 as (V' & K1 & K2 & Q'). destruct S1 as (X1 & X2 & _). destruct S2 as (Y1 & Y2 & _).
  destruct res as [c|e].
  - destruct R as (_ & Wc & L1 & L2 & N1 & N2 & R). exists a1, b1, c. split; [reflexivity|]. split; [exact J1|]. split; [exact J2|].
    split; [|rewrite N1, N2, X1, Y2; repeat split; assumption]. split; [exact Wc|]. split; [lia|]. split; [lia|]. intros i j Hi Hj.
    destruct (R i j) as (v & Hv & Ht); [lia|lia|]. rewrite Hv. f_equal. rewrite G2 in Ht. apply (TotalIs_int _ _ _ _ (A i) (fun k => B k j)) in Ht; [exact Ht| |].
    + intros q Hq. apply Q; assumption.
    + intros q Hq. cbn. apply Q'; assumption.
  - exfalso. destruct R as [[_ R]|(_ & i & j & Hi & Hj & R)].
    + apply R. rewrite X2, Y1. split; [lia|exact NC].
    + rewrite G2 in R. apply (TotalFails_int _ _ _ _ (A i) (fun k => B k j)) in R; [exact R| |]; intros q Hq; cbn; [apply Q|apply Q']; lia.
Qed.
Lemma powerLoop_int n A : 0 < n -> forall c p ret operand, IsMatrix ret n n (mpower n A p) -> IsMatrix operand n n A -> getNames (tp operand) = repeat None n ->
  exists r, powerLoop floatOf pyMul pyAdd c ret operand = Ok r /\ IsMatrix r n n (mpower n A (p + c)).
Proof.
  intros Hn. induction c as [|c IH]; intros p ret operand H H' HN; cbn [powerLoop].
  - exists ret. rewrite Nat.add_0_r. auto.
  - destruct (matMul_int ret operand n n n _ _ H H' Hn Hn Hn) as (a1 & b1 & r & -> & _ & J2 & J3 & _ & _ & _ & _ & Y1 & _).
    { rewrite HN. apply repeat_None_consistent. }
    rewrite Nat.add_succ_r, <- Nat.add_succ_l. apply IH; [exact J3|exact J2|]. rewrite Y1. exact HN.
Qed.
Lemma renamed_spec x a : Inv a -> alen x = alen a -> exists y, renamed x (getNamesNoGeneration a) = Ok y /\ alen y = alen a /\ Inv y /\ getNames y = getNames a.
Proof.
  intros HI L. unfold renamed, getNamesNoGeneration. destruct (namesCreated a) eqn:E.
  - destruct (namedAxis_list (alen x) (getNames a)) as (y & H1 & H2 & H3 & H4).
    { destruct a as [n [[d l]|]]; [rewrite L; apply HI|discriminate]. } { apply names_Distinct. exact HI. }
    exists y. unfold namedAxis in H1. cbn [namesArg] in *. rewrite <- L. split; [|auto].
    unfold setNames in *. cbn [alen] in *. unfold setNames_all in *. cbn [alen] in *.
    destruct (negb _); [discriminate|]. destruct (alen x =? 0); [exact H1|]. destruct (rbind _ _); [exact H1|discriminate].
  - cbn [namesArg]. assert (Na : getNames a = repeat None (alen a)) by (destruct a as [n [[d l]|]]; [discriminate|reflexivity]).
    destruct x as [n st]. cbn in *. eexists. split; [reflexivity|]. cbn. rewrite Na, L. repeat split.
Qed.
Lemma identity_matrix n : 0 < n -> exists t, identity n = Ok t /\ IsMatrix t n n unit.
Proof.
  intros H. unfold identity. destruct (n =? 0) eqn:E; [apply Nat.eqb_eq in E; lia|]. eexists. split; [reflexivity|]. split.
  - split; [cbn; rewrite map_length, seq_length; reflexivity|]. split; [|split; exact I]. intros r Hr. cbn in Hr. apply in_map_iff in Hr as (i & <- & _). rewrite map_length, seq_length. reflexivity.
  - split; [reflexivity|]. split; [reflexivity|]. intros i j Hi Hj. unfold cell. cbn [rows]. rewrite nth_error_map, (nth_error_nth' (seq 0 n) 0) by (rewrite seq_length; exact Hi).
    rewrite seq_nth by exact Hi. cbn [option_map]. rewrite nth_error_map, (nth_error_nth' (seq 0 n) 0) by (rewrite seq_length; exact Hj). rewrite seq_nth by exact Hj. reflexivity.
Qed.
Lemma matrixPower_int t n A p : IsMatrix t n n A -> 0 < n ->
  exists r, matrixPower floatOf pyMul pyAdd scipyInv t (Z.of_nat p) = Ok r /\ IsMatrix r n n (mpower n A p) /\ getNames (tp r) = getNames (tp t) /\ getNames (tf r) = getNames (tf t).
Proof.
  intros IT Hn. assert (I0 := IT). destruct I0 as (W & E1 & E2 & H). unfold matrixPower. rewrite E1, E2, Nat.eqb_refl. cbn [negb].
  assert (Step : exists ret, (operand <- (if (Z.of_nat p =? 0)%Z then identity n
                else if (0 <? Z.of_nat p)%Z then Ok (mkTable (mkAxis n None) (mkAxis n None) (rows t)) else inverse scipyInv t) ;;
     powerLoop floatOf pyMul pyAdd (Z.to_nat (Z.abs (Z.of_nat p) - 1)) operand operand) = Ok ret /\ IsMatrix ret n n (mpower n A p)).
  { destruct p as [|p].
    - cbn [Z.of_nat Z.eqb]. destruct (identity_matrix n Hn) as (u & -> & Hu). cbn [rbind]. exists u. split; [reflexivity|exact Hu].
    - destruct (Z.of_nat (S p) =? 0)%Z eqn:Z0; [apply Z.eqb_eq in Z0; lia|]. destruct (0 <? Z.of_nat (S p))%Z eqn:Z1; [|apply Z.ltb_ge in Z1; lia]. cbn [rbind].
      assert (IO : IsMatrix (mkTable (mkAxis n None) (mkAxis n None) (rows t)) n n A).
      { split; [split; [cbn; destruct W as (W1 & _); congruence|split; [cbn; destruct W as (_ & W2 & _); intros r Hr; rewrite (W2 r Hr); exact E2|split; exact I]]|].
        split; [reflexivity|]. split; [reflexivity|exact H]. }
      assert (I1 : IsMatrix (mkTable (mkAxis n None) (mkAxis n None) (rows t)) n n (mpower n A 1)).
      { destruct IO as (V1 & V2 & V3 & V4). split; [exact V1|]. split; [exact V2|]. split; [exact V3|]. intros i j Hi Hj. rewrite V4 by assumption. rewrite mpower_1 by exact Hi. reflexivity. }
      destruct (powerLoop_int n A Hn (Z.to_nat (Z.abs (Z.of_nat (S p)) - 1)) 1 _ _ I1 IO eq_refl) as (r & Hr & Ir).
      exists r. split; [exact Hr|]. replace (S p) with (1 + Z.to_nat (Z.abs (Z.of_nat (S p)) - 1)) at 1 by lia. exact Ir. }
  destruct Step as (ret & ES & IR). revert ES.
  destruct (if (Z.of_nat p =? 0)%Z then _ else _) as [operand|e]; cbn [rbind]; [|discriminate]. intros ->. cbn [rbind].
  destruct IR as (V1 & V2 & V3 & V4). destruct (renamed_spec (tp ret) (tp t)) as (pa & -> & A1 & A2 & A3); [apply W|congruence|]. cbn [rbind].
  destruct (renamed_spec (tf ret) (tf t)) as (fa & -> & B1 & B2 & B3); [apply W|congruence|]. cbn [rbind].
  eexists. split; [reflexivity|]. split; [|split; [exact A3|exact B3]]. destruct V1 as (U1 & U2 & _).
  split; [split; [cbn; congruence|split; [cbn; intros r Hr; rewrite (U2 r Hr); congruence|split; assumption]]|]. split; [cbn; congruence|]. split; [cbn; congruence|]. exact V4.
Qed.
Lemma powerLoop_len c : forall ret operand r, powerLoop floatOf pyMul pyAdd c ret operand = Ok r -> wf ret -> wf operand -> alen (tp operand) = alen (tf operand) ->
  alen (tf ret) = alen (tp operand) -> wf r /\ alen (tp r) = alen (tp ret) /\ alen (tf r) = alen (tf ret).
Proof.
  induction c as [|c IH]; intros ret operand r H W W' Sq L; cbn [powerLoop] in H.
  - injection H as <-. auto.
  - destruct (Nat.eq_dec (alen (tp ret)) 0) as [e1|e1]; [rewrite matMul_empty in H by auto; discriminate|].
    destruct (Nat.eq_dec (alen (tf ret)) 0) as [e2|e2]; [rewrite matMul_empty in H by auto; discriminate|].
    destruct (Nat.eq_dec (alen (tp operand)) 0) as [e3|e3]; [lia|]. destruct (Nat.eq_dec (alen (tf operand)) 0) as [e4|e4]; [lia|].
    destruct (numeric_strings ImproperObjectAction ret W) as [(_ & _ & N & _)|[_ N]].
    2:{ destruct (matMul_nonnumeric false ret operand W W') as [X _]; try lia. rewrite (X N) in H. discriminate. }
    destruct (numeric_strings InvalidArgumentValue operand W') as [(_ & _ & N' & _)|[_ N']].
    2:{ destruct (matMul_nonnumeric false ret operand W W') as [_ X]; try lia. destruct (X N N') as (s1 & E & _). rewrite E in H. discriminate. }
    destruct (matMul_spec false ret operand W W') as (s1 & b1 & res & E & S1 & S2 & R); try lia; try assumption. rewrite E in H.
    destruct res as [x|e]; [|discriminate]. cbv zeta in R. destruct R as (_ & Wx & L1 & L2 & _). destruct S1 as (T1 & T2 & _). destruct S2 as (U1 & U2 & WU & _).
    destruct (IH x b1 r H Wx WU) as (Wr & Z1 & Z2); [congruence| |].
    { rewrite L2, U1, U2. congruence. } rewrite U2 in L2. rewrite T1 in L1. split; [exact Wr|]. split; [congruence|]. rewrite Z2. congruence.
Qed.
(** a negative power is the positive power of the inverse *)
Lemma matrixPower_negative t p m : wf t -> alen (tp t) = alen (tf t) -> 0 < alen (tp t) -> (0 < p)%Z -> scipyInv (rows t) = Ok m -> shape m (alen (tp t)) (alen (tp t)) ->
  let inv := mkTable (mkAxis (alen (tp t)) None) (mkAxis (alen (tf t)) None) m in
  match matrixPower floatOf pyMul pyAdd scipyInv inv p with
  | Ok r' => exists r, matrixPower floatOf pyMul pyAdd scipyInv t (- p) = Ok r /\ wf r /\ rows r = rows r' /\ getNames (tp r) = getNames (tp t) /\ getNames (tf r) = getNames (tf t)
  | Err e => matrixPower floatOf pyMul pyAdd scipyInv t (- p) = Err e
  end.
Proof.
  intros W Sq Hn Hp Hm [Hs1 Hs2] inv. unfold matrixPower. cbn [tp tf alen inv]. rewrite <- Sq, Nat.eqb_refl. cbn [negb].
  destruct (p =? 0)%Z eqn:Z0; [apply Z.eqb_eq in Z0; lia|]. destruct (0 <? p)%Z eqn:Z1; [|apply Z.ltb_ge in Z1; lia].
  destruct (- p =? 0)%Z eqn:Z2; [apply Z.eqb_eq in Z2; lia|]. destruct (0 <? - p)%Z eqn:Z3; [apply Z.ltb_lt in Z3; lia|]. rewrite Z.abs_opp. cbn [rbind rows].
  unfold inverse. destruct (alen (tp t) =? 0) eqn:Z4; [apply Nat.eqb_eq in Z4; lia|]. rewrite Hm. cbn [rbind]. try rewrite <- Sq.
  replace (mkTable (mkAxis (alen (tp t)) None) (mkAxis (alen (tp t)) None) m) with inv by (unfold inv; rewrite <- Sq; reflexivity).
  change (rows inv) with m.
  replace (mkTable (mkAxis (alen (tp t)) None) (mkAxis (alen (tp t)) None) m) with inv by (unfold inv; rewrite <- Sq; reflexivity).
  destruct (powerLoop floatOf pyMul pyAdd (Z.to_nat (Z.abs p - 1)) inv inv) as [ret|e] eqn:E; cbn [rbind]; [|reflexivity].
  assert (Wi : wf inv) by (split; [exact Hs1|split; [intros r Hr; cbn; rewrite (Hs2 r Hr); exact Sq|split; exact I]]).
  destruct (powerLoop_len _ _ _ _ E Wi Wi) as (Wr & L1 & L2); [exact Sq|symmetry; exact Sq|]. cbn [tp tf alen inv] in L1, L2.
  destruct (renamed_spec (tp ret) (mkAxis (alen (tp t)) None) I L1) as (pa & R1 & _). destruct (renamed_spec (tf ret) (mkAxis (alen (tf t)) None) I L2) as (fa & R2 & _).
  rewrite R1. cbn [rbind]. rewrite <- Sq in R2. rewrite R2. cbn [rbind rows].
  destruct (renamed_spec (tp ret) (tp t)) as (pa' & -> & A1 & A2 & A3); [apply W|exact L1|]. cbn [rbind].
  destruct (renamed_spec (tf ret) (tf t)) as (fa' & -> & B1 & B2 & B3); [apply W|exact L2|]. cbn [rbind].
  eexists. split; [reflexivity|]. split; [|split; [reflexivity|split; [exact A3|exact B3]]]. destruct Wr as (V1 & V2 & _).
  split; [cbn; congruence|]. split; [cbn; intros r Hr; rewrite (V2 r Hr); congruence|split; assumption].
Qed.
Lemma matrixPower_square t p : alen (tp t) <> alen (tf t) -> matrixPower floatOf pyMul pyAdd scipyInv t p = Err ImproperObjectAction.
Proof. intros H. unfold matrixPower. apply Nat.eqb_neq in H. rewrite H. reflexivity. Qed.
End S.
