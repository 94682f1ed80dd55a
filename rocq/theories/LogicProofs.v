(** Proofs about the logical operators (C60). *)
From Verif Require Import Base NamesModel NamesSpec NamesProofs TableModel TableSpec TableProofs TableOps MatchModel MatchSpec MatchProofs ElementsModel ElementsSpec ElementsProofs ElementsCalcProofs
  BinOpModel BinOpSpec BinOpProofs BinOpMainProofs FlatProofs StretchModel StretchSpec LogicModel LogicSpec.
From Coq Require Import QArith.
Open Scope nat_scope.

Lemma TruthOf_fun v p q : TruthOf v p -> TruthOf v q -> p = q.
Proof.
  unfold TruthOf. intros H1 H2. inversion H1 as [a b x y A1 A2 A3 E1 E2| | | |]; subst. inversion H2 as [a' b' x' y' B1 B2 B3 E1 E2| | | |]; subst.
  assert (x == x')%Q by (destruct A1; inversion B1; subst; reflexivity).
  destruct p, q; try reflexivity; exfalso; inversion A2; inversion B2; subst; cbn in *;
    match goal with H : (?a == 1)%Q, H' : (?b == 0)%Q |- _ => idtac end || idtac; unfold Qeq in *; cbn in *; nia.
Qed.
Lemma TruthOf_pyTruth v p : TruthOf v p -> pyTruth v = p.
Proof.
  unfold TruthOf. intros H. inversion H as [a b x y A1 A2 A3 E1 E2| | | |]; subst. inversion A2 as [|z E|]; subst. destruct A1 as [b|z|q]; cbn.
  - destruct b, p; try reflexivity; exfalso; unfold Qeq in A3; cbn in A3; lia.
  - destruct p; unfold Qeq in A3; cbn in A3.
    + destruct (Z.eqb_spec z 0); [lia|reflexivity].
    + destruct (Z.eqb_spec z 0); [reflexivity|lia].
  - destruct p.
    + destruct (Qeq_bool q 0) eqn:E; [|reflexivity]. apply Qeq_bool_eq in E. rewrite E in A3. discriminate A3.
    + destruct (Qeq_bool q 0) eqn:E; [reflexivity|]. apply Qeq_bool_neq in E. contradiction.
Qed.
Lemma bool_not_two x p : Same (PBool x) (PInt (if p : bool then 1 else 0)) -> x = p.
Proof. intros H. apply (TruthOf_pyTruth (PBool x) p H). Qed.
Lemma TruthOf_bool b : TruthOf (PBool b) b.
Proof. apply (same_num _ _ _ _ (num_bool b) (num_int _)). destruct b; reflexivity. Qed.
Lemma truthList v : (exists y, In y [PBool true; PBool false; PInt 0; PInt 1] /\ Same v y) <-> exists b, TruthOf v b.
Proof.
  split.
  - intros (y & Hy & S0). cbn in Hy. destruct Hy as [<-|[<-|[<-|[<-|[]]]]].
    + exists true. inversion S0 as [a b x z A1 A2 A3 E1 E2| | | |]; subst. inversion A2; subst. eapply same_num; [exact A1|constructor|]. cbn in A3. rewrite A3. reflexivity.
    + exists false. inversion S0 as [a b x z A1 A2 A3 E1 E2| | | |]; subst. inversion A2; subst. eapply same_num; [exact A1|constructor|]. cbn in A3. rewrite A3. reflexivity.
    + exists false. exact S0.
    + exists true. exact S0.
  - intros [[] H]; [exists (PInt 1)|exists (PInt 0)]; (split; [cbn; tauto|exact H]).
Qed.
Lemma onlyTruths_spec t : wf t -> exists b, onlyTruths t = Ok b /\ (b = true <-> AllTruths t).
Proof.
  intros W. unfold onlyTruths. set (m := convertMatch _).
  pose proof (anyAll_spec _ QAll m t W) as H. assert (M : forall v, exists b, m v = Ok b /\ (b = true <-> exists p, TruthOf v p)).
  { intros v. destruct (convertMatch_values [PBool true; PBool false; PInt 0; PInt 1] v) as (b & E & B). exists b. split; [exact E|]. rewrite B, truthList. split; [intros [K|[_ [K|[K|[K|[K|[]]]]]]]; [exact K|discriminate K..]|auto]. }
  destruct (anyAllValues QAll m t) as [b|e].
  - exists b. split; [reflexivity|]. unfold AllTruths. destruct b; cbn [verdict] in H.
    + split; [intros _ i j v Hc|reflexivity]. destruct (M v) as (x & E & B). apply B. specialize (H v). rewrite H in E; [congruence|]. apply in_concat. unfold cell in Hc. destruct (nth_error (rows t) i) as [r|] eqn:Er; [|discriminate].
      exists r. split; [exact (nth_error_In _ _ Er)|exact (nth_error_In _ _ Hc)].
    + split; [discriminate|]. intros A. destruct H as (v & Hv & Hm). apply in_concat in Hv. destruct Hv as (r & Hr & Hv). destruct (In_nth_error _ _ Hr) as [i Ei]. destruct (In_nth_error _ _ Hv) as [j Ej].
      destruct (M v) as (x & E & B). destruct (A i j v) as [p Hp]; [unfold cell; rewrite Ei; exact Ej|]. rewrite Hm in E. injection E as <-. apply B. eauto.
  - exfalso. destruct H as (v & _ & Hv). destruct (M v) as (b & E & _). congruence.
Qed.
Lemma setTo_same a src : Inv src -> alen a = alen src -> exists x, setTo a (getNamesNoGeneration src) = Ok x /\ alen x = alen src /\ Inv x /\ getNames x = getNames src.
Proof.
  intros I E. unfold setTo. destruct a as [n st]. cbn in E. subst n.
  destruct (setOpt (alen src) st (getNamesNoGeneration src)) as (x & Ex & Ix & Lx & Nx & _).
  - destruct (getNamesNoGeneration src) as [l|] eqn:G; [|exact Logic.I]. apply named_names in G. subst l. split; [apply getNames_length; exact I|]. exact (names_Distinct src I).
  - rewrite Ex. exists x. repeat split; auto. destruct (getNamesNoGeneration src) as [l|] eqn:G; [rewrite (named_names _ _ G); exact Nx|rewrite (unnamed_names _ G); exact Nx].
Qed.

Section Logic.
Variables intOf floatOf : string -> option pval.
Variable strOf : pval -> string.
Lemma matchAndName_spec f t src : wf t -> wf src -> alen (tp t) = alen (tp src) -> alen (tf t) = alen (tf src) ->
  exists r, matchAndName intOf floatOf strOf f t src = Ok r /\ wf r /\ alen (tp r) = alen (tp src) /\ alen (tf r) = alen (tf src) /\
    getNames (tp r) = getNames (tp src) /\ getNames (tf r) = getNames (tf src) /\ forall i j v, cell t i j = Some v -> cell r i j = Some (PBool (f v)).
Proof.
  intros W WS E1 E2. unfold matchAndName.
  pose proof (matchingElements_spec intOf floatOf strOf t (F1 (fun v => Ok (PBool (f v)))) None None None None W Logic.I Logic.I ltac:(discriminate) ltac:(discriminate)) as H.
  cbn zeta in H. cbn [positionsOf] in H. specialize (H (seq_NoDup _ _) (seq_NoDup _ _)).
  destruct (matchingElements intOf floatOf strOf t (F1 (fun v => Ok (PBool (f v)))) None None) as [r|e].
  - destruct H as (Wr & L1 & L2 & _ & _ & C). rewrite seq_length in L1, L2. cbn [rbind].
    destruct WS as (_ & _ & I1 & I2).
    destruct (setTo_same (tp r) (tp src) I1) as (pa & -> & A1 & A2 & A3); [congruence|]. cbn [rbind].
    destruct (setTo_same (tf r) (tf src) I2) as (fa & -> & B1 & B2 & B3); [congruence|]. cbn [rbind].
    eexists. split; [reflexivity|]. cbn [tp tf]. destruct Wr as (R1 & R2 & _ & _).
    split. { split; [cbn; congruence|]. split; [cbn; intros x Hx; rewrite (R2 x Hx); congruence|]. split; assumption. }
    do 4 (split; [assumption|]). intros i j v Hc.
    destruct (cell_range t i j v W Hc) as [Hi Hj]. destruct (C i j i j v) as (x & Ex & Hx); [rewrite nth_error_seq; destruct (Nat.ltb_spec i (alen (tp t))); [reflexivity|lia]|rewrite nth_error_seq; destruct (Nat.ltb_spec j (alen (tf t))); [reflexivity|lia]|exact Hc|].
    cbn in Ex. injection Ex as <-. change (cell (mkTable pa fa (rows r)) i j) with (cell r i j).
    destruct Hx as [[S1 S2]|[S1 S2]]; rewrite S2; [rewrite (bool_not_two _ true S1)|rewrite (bool_not_two _ false S1)]; reflexivity.
  - exfalso. destruct H as (i & j & v & _ & _ & [K|(_ & x & K & N1 & N0)]); [discriminate K|]. cbn in K. injection K as <-. destruct (f v); [apply N1; exact (TruthOf_bool true)|apply N0; exact (TruthOf_bool false)].
Qed.
Lemma logicalConversion_spec t : wf t ->
  (AllTruths t /\ exists r, logicalConversion intOf floatOf strOf t = Ok r /\ wf r /\ alen (tp r) = alen (tp t) /\ alen (tf r) = alen (tf t) /\
     getNames (tp r) = getNames (tp t) /\ getNames (tf r) = getNames (tf t) /\ TruthsMapped (fun b => b) t r) \/
  (~ AllTruths t /\ logicalConversion intOf floatOf strOf t = Err ImproperObjectAction).
Proof.
  intros W. unfold logicalConversion. destruct (onlyTruths_spec t W) as (b & -> & B). cbn [rbind]. destruct b.
  - left. assert (A : AllTruths t) by (apply B; reflexivity). split; [exact A|].
    destruct (matchAndName_spec pyTruth t t W W eq_refl eq_refl) as (r & -> & H1 & H2 & H3 & H4 & H5 & H6). exists r. split; [reflexivity|]. do 5 (split; [assumption|]).
    intros i j v Hc. destruct (A i j v Hc) as [p Hp]. exists p. split; [exact Hp|]. rewrite (H6 i j v Hc), (TruthOf_pyTruth v p Hp). reflexivity.
  - right. split; [intros A; apply B in A; discriminate|reflexivity].
Qed.
Lemma invertObj_spec t : wf t ->
  (AllTruths t /\ exists r, invertObj intOf floatOf strOf t = Ok r /\ wf r /\ alen (tp r) = alen (tp t) /\ alen (tf r) = alen (tf t) /\
     getNames (tp r) = getNames (tp t) /\ getNames (tf r) = getNames (tf t) /\ TruthsMapped negb t r) \/
  (~ AllTruths t /\ invertObj intOf floatOf strOf t = Err ImproperObjectAction).
Proof.
  intros W. unfold invertObj. destruct (logicalConversion_spec t W) as [(A & b & -> & Wb & L1 & L2 & _ & _ & M)|(A & ->)]; [left|right; split; [exact A|reflexivity]].
  split; [exact A|]. cbn [rbind]. destruct (matchAndName_spec (fun v => negb (pyTruth v)) b t Wb W L1 L2) as (r & -> & H1 & H2 & H3 & H4 & H5 & H6).
  exists r. split; [reflexivity|]. do 5 (split; [assumption|]). intros i j v Hc. destruct (M i j v Hc) as (p & Hp & Hb). exists p. split; [exact Hp|]. exact (H6 i j _ Hb).
Qed.
Lemma mapped_bools t r g : wf t -> wf r -> alen (tp r) = alen (tp t) -> alen (tf r) = alen (tf t) -> TruthsMapped g t r -> forall i j v, cell r i j = Some v -> exists b, v = PBool b.
Proof.
  intros W Wr E1 E2 M i j v Hc. destruct (cell_range r i j v Wr Hc) as [Hi Hj]. rewrite E1 in Hi. rewrite E2 in Hj. destruct (cell_some t i j W Hi Hj) as (x & Hx & _).
  destruct (M i j x Hx) as (p & _ & Hp). rewrite Hc in Hp. injection Hp as ->. eauto.
Qed.
Lemma bools_numeric t : (forall i j v, cell t i j = Some v -> exists b, v = PBool b) -> AllNumeric floatOf t.
Proof. intros H i j v Hc. destruct (H i j v Hc) as [b ->]. exists (PBool b). constructor. reflexivity. Qed.
Lemma bool_AsNumber b x : AsNumber floatOf (PBool b) x -> pyTruth x = b.
Proof.
  intros H. inversion H as [v E|v q q' N E|]; subst; [reflexivity|]. inversion N; subst. apply (TruthOf_pyTruth (PFloat q') b). unfold TruthOf. eapply same_num; [constructor|constructor|].
  rewrite <- E. destruct b; reflexivity.
Qed.

Lemma sizeValidation_cases a b :
  (alen (tp a) = alen (tp b) /\ alen (tf a) = alen (tf b) /\ 0 < alen (tp a) /\ 0 < alen (tf a) /\ sizeValidation a b = Ok tt) \/
  ((alen (tp a) <> alen (tp b) \/ alen (tf a) <> alen (tf b)) /\ sizeValidation a b = Err InvalidArgumentValue) \/
  (alen (tp a) = alen (tp b) /\ alen (tf a) = alen (tf b) /\ (alen (tp a) = 0 \/ alen (tf a) = 0) /\ sizeValidation a b = Err ImproperObjectAction).
Proof.
  unfold sizeValidation. destruct (Nat.eqb_spec (alen (tp a)) (alen (tp b))), (Nat.eqb_spec (alen (tf a)) (alen (tf b))); cbn [andb negb]; auto.
  destruct (Nat.eqb_spec (alen (tp a)) 0), (Nat.eqb_spec (alen (tf a)) 0); cbn [orb]; auto; [right; right; auto..|]. left. repeat split; auto; lia.
Qed.
Lemma logicOp_connective o x y : logicOp o x y = connective o x y.
Proof. destruct o, x, y; reflexivity. Qed.
Definition sameNames (a a' : table pval) : Prop := alen (tp a') = alen (tp a) /\ alen (tf a') = alen (tf a) /\ getNames (tp a') = getNames (tp a) /\ getNames (tf a') = getNames (tf a).
Lemma logicalBinary_spec (FO : FloatOracle floatOf) o a b : wf a -> wf b ->
  match logicalBinary intOf floatOf strOf o a (OBase b) with
  | Ok r => alen (tp a) = alen (tp b) /\ alen (tf a) = alen (tf b) /\ 0 < alen (tp a) /\ 0 < alen (tf a) /\ AllTruths a /\ AllTruths b /\ NamesAccepted Plain a b /\
      wf r /\ alen (tp r) = alen (tp a) /\ alen (tf r) = alen (tf a) /\
      ResultNames (getNames (tp a)) (getNames (tp b)) (getNames (tp r)) /\ ResultNames (getNames (tf a)) (getNames (tf b)) (getNames (tf r)) /\
      forall i j x y, cell a i j = Some x -> cell b i j = Some y -> exists p q, TruthOf x p /\ TruthOf y q /\ cell r i j = Some (PBool (connective o p q))
  | Err e => ((alen (tp a) <> alen (tp b) \/ alen (tf a) <> alen (tf b)) /\ e = InvalidArgumentValue) \/
      (alen (tp a) = alen (tp b) /\ alen (tf a) = alen (tf b) /\
        (((alen (tp a) = 0 \/ alen (tf a) = 0) /\ e = ImproperObjectAction) \/
         (0 < alen (tp a) /\ 0 < alen (tf a) /\
           (((~ AllTruths a \/ ~ AllTruths b) /\ e = ImproperObjectAction) \/
            (AllTruths a /\ AllTruths b /\ ~ NamesAccepted Plain a b /\ e = InvalidArgumentValue)))))
  end.
Proof.
  intros Wa Wb. unfold logicalBinary.
  destruct (sizeValidation_cases a b) as [(E1 & E2 & P1 & P2 & ->)|[(E & ->)|(E1 & E2 & E & ->)]]; cbn [rbind]; [|left; auto|right; auto 6].
  destruct (logicalConversion_spec a Wa) as [(Ta & l & -> & Wl & La1 & La2 & Na1 & Na2 & Ma)|(Ta & ->)]; cbn [rbind]; [|right; auto 10].
  destruct (logicalConversion_spec b Wb) as [(Tb & r & -> & Wr & Lb1 & Lb2 & Nb1 & Nb2 & Mb)|(Tb & ->)]; cbn [rbind]; [|right; auto 10].
  set (np := fun _ _ _ _ _ _ => _).
  pose proof (binaryOp_spec floatOf FO np Plain Add l r Wl Wr ltac:(congruence) ltac:(congruence) ltac:(lia) ltac:(lia)) as H.
  specialize (H (bools_numeric l (mapped_bools a l _ Wa Wl La1 La2 Ma)) (bools_numeric r (mapped_bools b r _ Wb Wr Lb1 Lb2 Mb))).
  assert (NA : NamesAccepted Plain l r <-> NamesAccepted Plain a b) by (unfold NamesAccepted; rewrite Na1, Na2, Nb1, Nb2; reflexivity).
  destruct (binaryOp floatOf np Plain Add l (OBase r)) as [l' [c|e]]; cbn [snd].
  - destruct H as (H1 & _ & H3 & H4 & H5 & H6 & H7 & (da & db & _ & _ & V) & _). rewrite Na1, Nb1 in H6. rewrite Na2, Nb2 in H7.
    do 6 (split; [assumption|]). split; [apply NA; exact H1|]. split; [exact H3|]. split; [congruence|]. split; [congruence|]. do 2 (split; [assumption|]).
    intros i j x y Hx Hy. destruct (Ma i j x Hx) as (p & Hp & Hl). destruct (Mb i j y Hy) as (q & Hq & Hr). exists p, q. split; [exact Hp|]. split; [exact Hq|].
    destruct (V i j _ _ Hl Hr) as (x' & y' & w & Ax & Ay & Hn & Hw). unfold np in Hn. injection Hn as <-. rewrite Hw, (bool_AsNumber _ _ Ax), (bool_AsNumber _ _ Ay), logicOp_connective. reflexivity.
  - right. do 2 (split; [assumption|]). right. do 2 (split; [assumption|]). right. destruct H as (_ & [(_ & K & _)|[(-> & K)|(K & (da & db & i & j & x & y & x' & y' & _ & _ & _ & _ & _ & _ & Hn))]]); [discriminate K| |discriminate Hn].
    do 2 (split; [assumption|]). split; [intros C; apply K, NA, C|reflexivity].
Qed.

(** ** laws *)
Lemma cell_same (a b : table pval) : wf a -> wf b -> alen (tp a) = alen (tp b) -> alen (tf a) = alen (tf b) ->
  (forall i j x y, cell a i j = Some x -> cell b i j = Some y -> x = y) -> forall i j, cell a i j = cell b i j.
Proof.
  intros Wa Wb E1 E2 H i j. destruct (cell a i j) as [x|] eqn:A; destruct (cell b i j) as [y|] eqn:B; [f_equal; eapply H; eassumption| | |reflexivity]; exfalso.
  - destruct (cell_range a i j x Wa A) as [Hi Hj]. rewrite E1 in Hi. rewrite E2 in Hj. destruct (cell_some b i j Wb Hi Hj) as (z & Hz & _). congruence.
  - destruct (cell_range b i j y Wb B) as [Hi Hj]. rewrite <- E1 in Hi. rewrite <- E2 in Hj. destruct (cell_some a i j Wa Hi Hj) as (z & Hz & _). congruence.
Qed.
Lemma combined_sym l r : List.length l = List.length r -> NamesConsistent l r -> combined l r = combined r l.
Proof.
  intros L [C _]. apply nth_error_ext. intros i. rewrite !combined_nth by congruence. destruct (nth_error l i) as [[s|]|] eqn:A, (nth_error r i) as [[s'|]|] eqn:B; try reflexivity.
  - rewrite (C i s s' A B). reflexivity.
  - apply nth_error_None in B. assert (i < List.length l) by (apply nth_error_Some; congruence). lia.
  - apply nth_error_None in A. assert (i < List.length r) by (apply nth_error_Some; congruence). lia.
Qed.
Lemma consistent_dec (a b : axis) : Inv a -> Inv b -> alen a = alen b -> NamesConsistent (getNames a) (getNames b) \/ ~ NamesConsistent (getNames a) (getNames b).
Proof. intros A B E. destruct (validateEqualNames_spec a b A B E) as [[_ H]|[_ H]]; auto. Qed.
Lemma ResultNames_fun a b l r res res' : Inv a -> Inv b -> alen a = alen b -> l = getNames a -> r = getNames b -> ResultNames l r res -> ResultNames l r res' -> res = res'.
Proof. intros A B E -> -> [H1 H2] [H3 H4]. destruct (consistent_dec a b A B E) as [C|C]; [rewrite (H1 C), (H3 C)|rewrite (H2 C), (H4 C)]; reflexivity. Qed.
Lemma ResultNames_sym a b res : Inv a -> Inv b -> alen a = alen b -> ResultNames (getNames a) (getNames b) res -> ResultNames (getNames b) (getNames a) res.
Proof.
  intros A B E [H1 H2]. assert (L : List.length (getNames a) = List.length (getNames b)) by (rewrite !getNames_length by assumption; exact E). split; intros C.
  - rewrite <- (combined_sym (getNames a) (getNames b) L) by (apply NamesConsistent_sym; exact C). apply H1, NamesConsistent_sym, C.
  - rewrite <- L. apply H2. intros D. apply C, NamesConsistent_sym, D.
Qed.
Lemma NamesAccepted_sym a b : NamesAccepted Plain a b -> NamesAccepted Plain b a.
Proof.
  assert (D : forall l r, NamesDisjoint l r -> NamesDisjoint r l) by (intros l r H s X Y; exact (H s Y X)).
  unfold NamesAccepted. intros [[H1 H2]|[[H1 H2]|[H1 H2]]]; [left|right; left|right; right]; split; auto using NamesConsistent_sym.
Qed.
Lemma connective_sym o p q : connective o p q = connective o q p.
Proof. destruct o, p, q; reflexivity. Qed.
Lemma logical_commutes (FO : FloatOracle floatOf) o a b : wf a -> wf b ->
  match logicalBinary intOf floatOf strOf o a (OBase b), logicalBinary intOf floatOf strOf o b (OBase a) with
  | Ok r, Ok r' => SameObject r r'
  | Err e, Err e' => e = e'
  | _, _ => False
  end.
Proof.
  intros Wa Wb. pose proof (logicalBinary_spec FO o a b Wa Wb) as H. pose proof (logicalBinary_spec FO o b a Wb Wa) as H'.
  destruct (logicalBinary intOf floatOf strOf o a (OBase b)) as [r|e], (logicalBinary intOf floatOf strOf o b (OBase a)) as [r'|e'].
  - destruct H as (E1 & E2 & P1 & P2 & Ta & Tb & NA & Wr & L1 & L2 & N1 & N2 & V). destruct H' as (_ & _ & _ & _ & _ & _ & _ & Wr' & L1' & L2' & N1' & N2' & V').
    destruct Wa as (Ra & Ra' & Ia1 & Ia2) eqn:EW. pose proof Wb as (_ & _ & Ib1 & Ib2).
    split; [congruence|]. split; [congruence|].
    split; [eapply (ResultNames_fun (tp a) (tp b)); eauto; apply ResultNames_sym; auto|]. split; [eapply (ResultNames_fun (tf a) (tf b)); eauto; apply ResultNames_sym; auto|].
    apply cell_same; auto; try congruence. intros i j x y Hx Hy. destruct (cell_range r i j x Wr Hx) as [Hi Hj].
    destruct (cell_some a i j) as (u & Hu & _); [exact Wa|lia|lia|]. destruct (cell_some b i j) as (v & Hv & _); [exact Wb|lia|lia|].
    destruct (V i j u v Hu Hv) as (p & q & Tp & Tq & Hr). destruct (V' i j v u Hv Hu) as (q' & p' & Tq' & Tp' & Hr').
    rewrite (TruthOf_fun _ _ _ Tq' Tq), (TruthOf_fun _ _ _ Tp' Tp), connective_sym in Hr'. congruence.
  - destruct H as (E1 & E2 & P1 & P2 & Ta & Tb & NA & _). exfalso. destruct H' as [([K|K] & _)|(_ & _ & [([K|K] & _)|(_ & _ & [([K|K] & _)|(_ & _ & K & _)])])]; try contradiction; try congruence; try lia. apply K, NamesAccepted_sym, NA.
  - destruct H' as (E1 & E2 & P1 & P2 & Ta & Tb & NA & _). exfalso. destruct H as [([K|K] & _)|(_ & _ & [([K|K] & _)|(_ & _ & [([K|K] & _)|(_ & _ & K & _)])])]; try contradiction; try congruence; try lia. apply K, NamesAccepted_sym, NA.
  - destruct H as [(K & ->)|(E1 & E2 & H)]; destruct H' as [(K' & ->)|(E1' & E2' & H')]; try reflexivity; try (exfalso; destruct K; congruence); try (exfalso; destruct K'; congruence).
    destruct H as [(K & ->)|(P1 & P2 & H)]; destruct H' as [(K' & ->)|(P1' & P2' & H')]; try reflexivity; try (exfalso; destruct K; lia); try (exfalso; destruct K'; lia).
    destruct H as [(K & ->)|(T1 & T2 & K & ->)]; destruct H' as [(K' & ->)|(T1' & T2' & K' & ->)]; try reflexivity; exfalso; tauto.
Qed.
(** the result of a connective applied to the negations *)
Definition dual (o : logic) : logic := match o with LAnd => LOr | LOr => LAnd | LXor => LXor end.
Lemma mapped_truths g t r : wf t -> wf r -> alen (tp r) = alen (tp t) -> alen (tf r) = alen (tf t) -> TruthsMapped g t r -> AllTruths r.
Proof. intros W Wr E1 E2 M i j v Hc. destruct (mapped_bools t r g W Wr E1 E2 M i j v Hc) as [b ->]. exists b. apply TruthOf_bool. Qed.
Lemma logical_ok (FO : FloatOracle floatOf) o a b : wf a -> wf b -> alen (tp a) = alen (tp b) -> alen (tf a) = alen (tf b) -> 0 < alen (tp a) -> 0 < alen (tf a) ->
  AllTruths a -> AllTruths b -> NamesAccepted Plain a b -> exists r, logicalBinary intOf floatOf strOf o a (OBase b) = Ok r.
Proof.
  intros Wa Wb E1 E2 P1 P2 Ta Tb NA. pose proof (logicalBinary_spec FO o a b Wa Wb) as H. destruct (logicalBinary intOf floatOf strOf o a (OBase b)) as [r|e]; [eauto|]. exfalso.
  destruct H as [([K|K] & _)|(_ & _ & [([K|K] & _)|(_ & _ & [([K|K] & _)|(_ & _ & K & _)])])]; try contradiction; try congruence; lia.
Qed.
Lemma de_morgan (FO : FloatOracle floatOf) a b : wf a -> wf b -> forall (conj : bool) r,
  logicalBinary intOf floatOf strOf (if conj then LAnd else LOr) a (OBase b) = Ok r ->
  exists x na nb y, invertObj intOf floatOf strOf r = Ok x /\ invertObj intOf floatOf strOf a = Ok na /\ invertObj intOf floatOf strOf b = Ok nb /\
    logicalBinary intOf floatOf strOf (if conj then LOr else LAnd) na (OBase nb) = Ok y /\ SameObject x y.
Proof.
  intros Wa Wb conj r Hr. pose proof (logicalBinary_spec FO (if conj then LAnd else LOr) a b Wa Wb) as H. rewrite Hr in H.
  destruct H as (E1 & E2 & P1 & P2 & Ta & Tb & NA & Wr & L1 & L2 & N1 & N2 & V).
  assert (Bs : forall i j v, cell r i j = Some v -> exists b, v = PBool b).
  { intros i j v Hc. destruct (cell_range r i j v Wr Hc) as [Hi Hj]. destruct (cell_some a i j) as (u & Hu & _); [exact Wa|lia|lia|]. destruct (cell_some b i j) as (w & Hw & _); [exact Wb|lia|lia|].
    destruct (V i j u w Hu Hw) as (p & q & _ & _ & K). rewrite Hc in K. injection K as ->. eauto. }
  assert (Tr : AllTruths r) by (intros i j v Hc; destruct (Bs i j v Hc) as [c ->]; exists c; apply TruthOf_bool).
  destruct (invertObj_spec r Wr) as [(_ & x & Hx & Wx & Lx1 & Lx2 & Nx1 & Nx2 & Mx)|(K & _)]; [|contradiction].
  destruct (invertObj_spec a Wa) as [(_ & na & Hna & Wna & La1 & La2 & Na1 & Na2 & Ma)|(K & _)]; [|contradiction].
  destruct (invertObj_spec b Wb) as [(_ & nb & Hnb & Wnb & Lb1 & Lb2 & Nb1 & Nb2 & Mb)|(K & _)]; [|contradiction].
  destruct (logical_ok FO (if conj then LOr else LAnd) na nb Wna Wnb) as [y Hy]; try congruence; try lia; [exact (mapped_truths negb a na Wa Wna La1 La2 Ma)|exact (mapped_truths negb b nb Wb Wnb Lb1 Lb2 Mb)|unfold NamesAccepted in *; rewrite Na1, Na2, Nb1, Nb2; exact NA|].
  exists x, na, nb, y. do 4 (split; [assumption|]). pose proof (logicalBinary_spec FO (if conj then LOr else LAnd) na nb Wna Wnb) as H. rewrite Hy in H.
  destruct H as (_ & _ & _ & _ & _ & _ & _ & Wy & M1 & M2 & O1 & O2 & U). rewrite Na1, Nb1 in O1. rewrite Na2, Nb2 in O2. rewrite <- Nx1 in N1. rewrite <- Nx2 in N2.
  pose proof Wa as (_ & _ & Ia1 & Ia2). pose proof Wb as (_ & _ & Ib1 & Ib2).
  split; [congruence|]. split; [congruence|]. split; [exact (ResultNames_fun (tp a) (tp b) _ _ _ _ Ia1 Ib1 E1 eq_refl eq_refl N1 O1)|]. split; [exact (ResultNames_fun (tf a) (tf b) _ _ _ _ Ia2 Ib2 E2 eq_refl eq_refl N2 O2)|].
  apply cell_same; auto; try congruence. intros i j u v Hu Hv. destruct (cell_range x i j u Wx Hu) as [Hi Hj].
  destruct (cell_some a i j) as (s & Hs & _); [exact Wa|lia|lia|]. destruct (cell_some b i j) as (t & Ht & _); [exact Wb|lia|lia|].
  destruct (V i j s t Hs Ht) as (p & q & Tp & Tq & K). destruct (Mx i j _ K) as (c & Tc & K2). rewrite (TruthOf_fun _ _ _ Tc (TruthOf_bool _)) in K2.
  destruct (Ma i j s Hs) as (p' & Tp' & Ka). destruct (Mb i j t Ht) as (q' & Tq' & Kb). rewrite (TruthOf_fun _ _ _ Tp' Tp) in Ka. rewrite (TruthOf_fun _ _ _ Tq' Tq) in Kb.
  destruct (U i j _ _ Ka Kb) as (p2 & q2 & Tp2 & Tq2 & K3). rewrite (TruthOf_fun _ _ _ Tp2 (TruthOf_bool _)), (TruthOf_fun _ _ _ Tq2 (TruthOf_bool _)) in K3.
  rewrite Hu in K2. rewrite Hv in K3. injection K2 as ->. injection K3 as ->. destruct conj, p, q; reflexivity.
Qed.
Lemma double_negation a r : wf a -> invertObj intOf floatOf strOf a = Ok r ->
  exists x, invertObj intOf floatOf strOf r = Ok x /\ wf x /\ alen (tp x) = alen (tp a) /\ alen (tf x) = alen (tf a) /\ getNames (tp x) = getNames (tp a) /\ getNames (tf x) = getNames (tf a) /\ TruthsMapped (fun b => b) a x.
Proof.
  intros Wa Hr. destruct (invertObj_spec a Wa) as [(_ & r0 & H0 & Wr & L1 & L2 & N1 & N2 & M)|(_ & K)]; [|congruence]. rewrite Hr in H0. injection H0 as <-.
  destruct (invertObj_spec r Wr) as [(_ & x & Hx & Wx & Lx1 & Lx2 & Nx1 & Nx2 & Mx)|(K & _)]; [|exfalso; apply K; exact (mapped_truths negb a r Wa Wr L1 L2 M)].
  exists x. split; [exact Hx|]. split; [exact Wx|]. do 4 (split; [congruence|]). intros i j v Hv. destruct (M i j v Hv) as (p & Tp & K). exists p. split; [exact Tp|].
  destruct (Mx i j _ K) as (c & Tc & K2). rewrite (TruthOf_fun _ _ _ Tc (TruthOf_bool _)) in K2. rewrite Bool.negb_involutive in K2. exact K2.
Qed.
Lemma consistent_refl a : Inv a -> NamesConsistent (getNames a) (getNames a).
Proof. intros I. split; [intros i s s' H1 H2; congruence|]. intros i j s H1 H2. exact (names_Distinct a I i j s H1 H2). Qed.
Lemma combined_self l : combined l l = l.
Proof. apply nth_error_ext. intros i. rewrite combined_nth by reflexivity. destruct (nth_error l i) as [[s|]|] eqn:E; congruence. Qed.
Lemma logical_self (FO : FloatOracle floatOf) o a : wf a -> 0 < alen (tp a) -> 0 < alen (tf a) -> AllTruths a ->
  exists r, logicalBinary intOf floatOf strOf o a (OBase a) = Ok r /\ getNames (tp r) = getNames (tp a) /\ getNames (tf r) = getNames (tf a) /\
    TruthsMapped (fun b => match o with LXor => false | _ => b end) a r.
Proof.
  intros Wa P1 P2 Ta. pose proof Wa as (_ & _ & I1 & I2). destruct (logical_ok FO o a a Wa Wa eq_refl eq_refl P1 P2 Ta Ta) as [r Hr]; [left; split; apply consistent_refl; assumption|].
  exists r. split; [exact Hr|]. pose proof (logicalBinary_spec FO o a a Wa Wa) as H. rewrite Hr in H. destruct H as (_ & _ & _ & _ & _ & _ & _ & Wr & L1 & L2 & [N1 _] & [N2 _] & V).
  split; [rewrite (N1 (consistent_refl _ I1)); apply combined_self|]. split; [rewrite (N2 (consistent_refl _ I2)); apply combined_self|].
  intros i j v Hv. destruct (V i j v v Hv Hv) as (p & q & Tp & Tq & K). rewrite (TruthOf_fun _ _ _ Tq Tp) in K. exists p. split; [exact Tp|]. rewrite K. destruct o, p; reflexivity.
Qed.
End Logic.
