(** Proofs about calculateOnElements, matchingElements and countElements (C53, C56). *)
From Verif Require Import Base NamesModel NamesSpec NamesProofs TableModel TableSpec TableProofs TablePermProofs TableOps TableOps3Proofs MatchModel MatchSpec MatchProofs
  QueryModel ElementsModel ElementsSpec ElementsProofs FillMatchProofs.
From Coq Require Import QArith.
Open Scope nat_scope.

Definition mcell {V} (m : list (list V)) (a b : nat) : option V :=
  match nth_error m a with Some r => nth_error r b | None => None end.
Definition shape {V} (m : list (list V)) (n k : nat) : Prop := List.length m = n /\ forall r, In r m -> List.length r = k.
Lemma mcell_some {V} (m : list (list V)) n k a b : shape m n k -> a < n -> b < k -> exists v, mcell m a b = Some v.
Proof.
  intros [H1 H2] Ha Hb. unfold mcell. rewrite <- H1 in Ha. destruct (nth_error_is_some _ Ha) as [r Hr]. rewrite Hr.
  rewrite <- (H2 r (nth_error_In _ _ Hr)) in Hb. exact (nth_error_is_some _ Hb).
Qed.
Lemma mcell_range {V} (m : list (list V)) n k a b v : shape m n k -> mcell m a b = Some v -> a < n /\ b < k.
Proof.
  intros [H1 H2] H. unfold mcell in H. destruct (nth_error m a) as [r|] eqn:E; [|discriminate]. pose proof (nth_error_lt _ _ E). apply nth_error_lt in H.
  rewrite (H2 r (nth_error_In _ _ E)) in H. lia.
Qed.
Lemma rmapM_fail {A B} (g : A -> result B) l e : rmapM g l = Err e -> exists v, In v l /\ g v = Err e.
Proof.
  induction l as [|v l IH]; intros H; cbn [rmapM] in H; [discriminate|].
  destruct (g v) as [b|e'] eqn:E; cbn [rbind] in H.
  - destruct (rmapM g l) as [bs'|e2]; [discriminate|]. cbn [rbind] in H. destruct (IH H) as [w [Hw Hm]]. exists w. split; [right|]; auto.
  - injection H as ->. exists v. split; [left|]; auto.
Qed.
Lemma rmapM2_ok {V W} (g : V -> result W) (m : list (list V)) n k : shape m n k ->
  match rmapM (rmapM g) m with
  | Ok c => shape c n k /\ forall a b v, mcell m a b = Some v -> exists w, mcell c a b = Some w /\ g v = Ok w
  | Err e => exists a b v, mcell m a b = Some v /\ g v = Err e
  end.
Proof.
  intros [H1 H2]. destruct (rmapM (rmapM g) m) as [c|e] eqn:E.
  - split.
    + split; [rewrite (rmapM_ok_length _ _ E); exact H1|]. intros r Hr. apply In_nth_error in Hr. destruct Hr as [a Ha].
      pose proof (rmapM_ok_length _ _ E) as L. pose proof (nth_error_lt _ _ Ha) as Hlt. rewrite L in Hlt. destruct (nth_error_is_some _ Hlt) as [x Hx].
      destruct (rmapM_ok_nth _ _ E _ Hx) as [y [Hy Hg]]. replace r with y by congruence. rewrite (rmapM_ok_length _ _ Hg). apply H2. exact (nth_error_In _ _ Hx).
    + intros a b v Hv. unfold mcell in *. destruct (nth_error m a) as [x|] eqn:Hx; [|discriminate]. destruct (rmapM_ok_nth _ _ E _ Hx) as [y [Hy Hg]]. rewrite Hy.
      exact (rmapM_ok_nth _ _ Hg _ Hv).
  - apply rmapM_fail in E. destruct E as [r [Hr E]]. apply rmapM_fail in E. destruct E as [v [Hv E]]. apply In_nth_error in Hr. destruct Hr as [a Ha].
    apply In_nth_error in Hv. destruct Hv as [b Hb]. exists a, b, v. split; [|exact E]. unfold mcell. rewrite Ha. exact Hb.
Qed.

Lemma submatrix_ok (t : table pval) pl fl : wf t -> (forall i, In i pl -> i < alen (tp t)) -> (forall j, In j fl -> j < alen (tf t)) ->
  exists m, submatrix t pl fl = Ok m /\ shape m (List.length pl) (List.length fl) /\
  forall a b, mcell m a b = match nth_error pl a, nth_error fl b with Some i, Some j => cell t i j | _, _ => None end.
Proof.
  intros [W1 [W2 _]] HP HF. unfold submatrix. assert (HP' : forall i, In i pl -> i < List.length (rows t)) by (rewrite W1; exact HP).
  destruct (gather_ok _ _ HP') as [rs [E [L N]]]. rewrite E. cbn [rbind].
  assert (IN : forall r, In r rs -> List.length r = alen (tf t)).
  { intros r Hr. apply In_nth_error in Hr. destruct Hr as [a Ha]. rewrite N in Ha. destruct (nth_error pl a); [|discriminate]. apply W2. exact (nth_error_In _ _ Ha). }
  destruct (rmapM (fun r => gather r fl) rs) as [m|e] eqn:EM.
  - exists m. split; [reflexivity|]. split.
    + split; [rewrite (rmapM_ok_length _ _ EM); exact L|]. intros r Hr. apply In_nth_error in Hr. destruct Hr as [a Ha].
      pose proof (nth_error_lt _ _ Ha) as Hlt. rewrite (rmapM_ok_length _ _ EM) in Hlt. destruct (nth_error_is_some _ Hlt) as [x Hx].
      destruct (rmapM_ok_nth _ _ EM _ Hx) as [y [Hy Hg]]. replace r with y by congruence.
      assert (HF' : forall j, In j fl -> j < List.length x) by (rewrite (IN x (nth_error_In _ _ Hx)); exact HF).
      destruct (gather_ok _ _ HF') as [z [Ez [Lz _]]]. congruence.
    + intros a b. unfold mcell. destruct (nth_error rs a) as [x|] eqn:Hx.
      * destruct (rmapM_ok_nth _ _ EM _ Hx) as [y [Hy Hg]]. rewrite Hy. assert (HF' : forall j, In j fl -> j < List.length x) by (rewrite (IN x (nth_error_In _ _ Hx)); exact HF).
        destruct (gather_ok _ _ HF') as [z [Ez [Lz Nz]]]. replace y with z by congruence. rewrite Nz. rewrite N in Hx. destruct (nth_error pl a) as [i|]; [|discriminate].
        unfold cell. rewrite Hx. reflexivity.
      * assert (nth_error m a = None) as ->. { apply nth_error_None. rewrite (rmapM_ok_length _ _ EM). apply nth_error_None. exact Hx. }
        apply nth_error_None in Hx. destruct (nth_error pl a) as [i|] eqn:Hi; [|reflexivity]. apply nth_error_lt in Hi. lia.
  - apply rmapM_fail in EM. destruct EM as [r [Hr C]]. assert (HF' : forall j, In j fl -> j < List.length r) by (rewrite (IN r Hr); exact HF).
    destruct (gather_ok _ _ HF') as [z [Ez _]]. congruence.
Qed.

Section Cast.
Variables intOf floatOf : string -> option pval.
Variable strOf : pval -> string.
Notation castLike := (castLike intOf floatOf strOf).
Lemma vectorized_ok g m n k : shape m n k ->
  match vectorized intOf floatOf strOf g m with
  | Ok c => shape c n k /\ forall a b v, mcell m a b = Some v -> exists r w, g v = Ok r /\ mcell c a b = Some w /\
      (w = r \/ exists a0 b0 v0 first, mcell m a0 b0 = Some v0 /\ g v0 = Ok first /\ castLike first r = Ok w)
  | Err e => exists a b v, mcell m a b = Some v /\ g v = Err e
  end.
Proof.
  intros S. unfold vectorized. pose proof (rmapM2_ok g m n k S) as H. destruct (rmapM (rmapM g) m) as [vals|e] eqn:E; cbn [rbind]; [|exact H].
  destruct H as [Sv Hv].
  assert (Plain : shape vals n k /\ forall a b v, mcell m a b = Some v -> exists r w, g v = Ok r /\ mcell vals a b = Some w /\
      (w = r \/ exists a0 b0 v0 first, mcell m a0 b0 = Some v0 /\ g v0 = Ok first /\ castLike first r = Ok w)).
  { split; [exact Sv|]. intros a b v Hm. destruct (Hv a b v Hm) as [w [H1 H2]]. exists w, w. auto. }
  destruct (List.concat vals) as [|first rest] eqn:EC; [exact Plain|].
  pose proof (rmapM2_ok (castLike first) vals n k Sv) as H. destruct (rmapM (rmapM (castLike first)) vals) as [c|e]; [|exact Plain].
  destruct H as [Sc Hc]. split; [exact Sc|]. intros a b v Hm. destruct (Hv a b v Hm) as [r [H1 H2]]. destruct (Hc a b r H1) as [w [H3 H4]].
  exists r, w. split; [exact H2|]. split; [exact H3|]. right.
  assert (HI : In first (List.concat vals)) by (rewrite EC; left; reflexivity). apply in_concat in HI. destruct HI as [row [HR HI]].
  apply In_nth_error in HR. destruct HR as [a0 Ha0]. apply In_nth_error in HI. destruct HI as [b0 Hb0].
  assert (HM : mcell vals a0 b0 = Some first) by (unfold mcell; rewrite Ha0; exact Hb0).
  destruct (mcell_range _ _ _ _ _ _ Sv HM) as [R1 R2]. destruct (mcell_some _ _ _ _ _ S R1 R2) as [v0 Hv0].
  destruct (Hv _ _ _ Hv0) as [f' [F1 F2]]. exists a0, b0, v0, first. split; [exact Hv0|]. split; [congruence|exact H4].
Qed.
Lemma storeRow_spec l : forall o, List.length (fst (storeRow o l)) = List.length l /\
  forall b v, nth_error l b = Some v -> exists w, nth_error (fst (storeRow o l)) b = Some w /\ (w = v \/ (nonNumeric v = false \/ v = PNone) /\ w = storeFloat v).
Proof.
  induction l as [|v l IH]; intros o; cbn [storeRow].
  - split; [reflexivity|]. intros [|b] v H; discriminate.
  - set (o' := o || match v with PNone => false | _ => nonNumeric v end). destruct (IH o') as [L N]. destruct (storeRow o' l) as [r' o2]. cbn [fst] in *.
    split; [cbn; rewrite L; reflexivity|]. intros [|b] u H; cbn in H |- *; [|apply N; exact H]. injection H as <-. eexists. split; [reflexivity|].
    destruct o' eqn:E; [left; reflexivity|right]. unfold o' in E. apply Bool.orb_false_iff in E. split; [|reflexivity]. destruct v; try (left; exact (proj2 E)). right; reflexivity.
Qed.
Lemma storeRows_spec m n k : forall o, shape m n k -> shape (storeRows o m) n k /\
  forall a b v, mcell m a b = Some v -> exists w, mcell (storeRows o m) a b = Some w /\ (w = v \/ (nonNumeric v = false \/ v = PNone) /\ w = storeFloat v).
Proof.
  revert n. induction m as [|r m IH]; intros n o [S1 S2]; cbn [storeRows].
  - split; [split; auto|]. intros [|a] b v H; discriminate.
  - pose proof (storeRow_spec r o) as [L N]. destruct (storeRow o r) as [r' o'] eqn:E. cbn [fst] in *. cbn in S1.
    destruct (IH (List.length m) o') as [[T1 T2] IH2]; [split; [reflexivity|intros x Hx; apply S2; right; exact Hx]|].
    split; [split; [cbn; rewrite T1; exact S1|]|].
    + intros x [<-|Hx]; [rewrite L; apply S2; left; reflexivity|apply T2; exact Hx].
    + intros [|a] b v H; unfold mcell in H |- *; cbn in H |- *; [apply N; exact H|exact (IH2 a b v H)].
Qed.
Lemma positioned_ok g (ps fs : list nat) m : shape m (List.length ps) (List.length fs) ->
  match positioned g ps fs m with
  | Ok c => shape c (List.length ps) (List.length fs) /\ forall a b i j v, mcell m a b = Some v -> nth_error ps a = Some i -> nth_error fs b = Some j ->
      exists r w, g v i j = Ok r /\ mcell c a b = Some w /\ (w = r \/ (nonNumeric r = false \/ r = PNone) /\ w = storeFloat r)
  | Err e => exists a b i j v, mcell m a b = Some v /\ nth_error ps a = Some i /\ nth_error fs b = Some j /\ g v i j = Err e
  end.
Proof.
  intros [S1 S2]. unfold positioned. set (G := fun pr : nat * list pval => rmapM (fun fv : nat * pval => g (snd fv) (fst pr) (fst fv)) (combine fs (snd pr))).
  destruct (rmapM G (combine ps m)) as [c|e] eqn:E; cbn [rmap].
  - pose proof (rmapM_ok_length _ _ E) as L. rewrite combine_length, S1, Nat.min_id in L.
    assert (Row : forall a i r, nth_error ps a = Some i -> nth_error m a = Some r -> exists y, nth_error c a = Some y /\ G (i, r) = Ok y).
    { intros a i r Hi Hr. assert (Hc : nth_error (combine ps m) a = Some (i, r)) by (rewrite nth_error_combine, Hi, Hr; reflexivity).
      exact (rmapM_ok_nth _ _ E _ Hc). }
    assert (Sc : shape c (List.length ps) (List.length fs)).
    { split; [exact L|]. intros y Hy. apply In_nth_error in Hy. destruct Hy as [a Ha]. pose proof (nth_error_lt _ _ Ha) as Hlt. rewrite L in Hlt.
      destruct (nth_error_is_some _ Hlt) as [i Hi]. assert (Hlm : a < List.length m) by lia. destruct (nth_error_is_some _ Hlm) as [r Hr].
      destruct (Row a i r Hi Hr) as [y' [Hy' Hg]]. replace y with y' by congruence. unfold G in Hg. rewrite (rmapM_ok_length _ _ Hg), combine_length. cbn [snd]. rewrite (S2 r (nth_error_In _ _ Hr)). apply Nat.min_id. }
    destruct (storeRows_spec c _ _ false Sc) as [T1 T2]. split; [exact T1|].
    intros a b i j v Hm Hi Hj. unfold mcell in Hm. destruct (nth_error m a) as [r|] eqn:Hr; [|discriminate]. destruct (Row a i r Hi Hr) as [y [Hy Hg]]. unfold G in Hg. cbn [fst snd] in Hg.
    assert (Hc : nth_error (combine fs r) b = Some (j, v)) by (rewrite nth_error_combine, Hj, Hm; reflexivity).
    destruct (rmapM_ok_nth _ _ Hg _ Hc) as [x [Hx Gx]]. cbn [fst snd] in Gx. assert (Hmc : mcell c a b = Some x) by (unfold mcell; rewrite Hy; exact Hx).
    destruct (T2 a b x Hmc) as [w [Hw Hor]]. exists x, w. auto.
  - apply rmapM_fail in E. destruct E as [[i r] [HI E]]. unfold G in E. cbn [fst snd] in E. apply rmapM_fail in E. destruct E as [[j v] [HJ E]]. cbn [fst snd] in E.
    apply In_nth_error in HI. destruct HI as [a Ha]. apply In_nth_error in HJ. destruct HJ as [b Hb]. rewrite nth_error_combine in Ha. rewrite nth_error_combine in Hb.
    destruct (nth_error ps a) as [i'|] eqn:Hi; [|discriminate]. destruct (nth_error m a) as [r'|] eqn:Hr; [|discriminate]. injection Ha as -> ->.
    destruct (nth_error fs b) as [j'|] eqn:Hj; [|discriminate]. destruct (nth_error r b) as [v'|] eqn:Hv; [|discriminate]. injection Hb as -> ->.
    exists a, b, i, j, v. unfold mcell. rewrite Hr. auto.
Qed.
End Cast.

(** ** calculateOnElements *)
Lemma IsNumber_unique v p q : IsNumber v p -> IsNumber v q -> p = q.
Proof. intros A B. apply IsNumber_numOf in A, B. congruence. Qed.
Lemma Same_trans a b c : Same a b -> Same b c -> Same a c.
Proof.
  intros H G. destruct H as [a b p q HA HB HQ| | | |]; try (inversion G as [x y p' q' X Y Z| | | |]; subst; try constructor; inversion X).
  inversion G as [x y p' q' X Y Z E1 E2| | | |]; subst; try (inversion HB; fail).
  apply (same_num a c p q'); [exact HA|exact Y|]. rewrite HQ, (IsNumber_unique _ _ _ HB X). exact Z.
Qed.
Lemma Same_None v : ~ Same PNone v \/ v = PNone.
Proof. destruct v; try (left; intros H; inversion H; subst; inversion H0; fail). right; reflexivity. Qed.
Lemma orAll_positions n o : o <> Some [] -> orAll n o = positionsOf n o.
Proof. destruct o as [[|i l]|]; try reflexivity. contradiction. Qed.
Lemma positions_range a o l : Inv a -> limitDenotes a o l -> forall i, In i (positionsOf (alen a) l) -> i < alen a.
Proof.
  intros I H i Hi. destruct o as [ids|], l as [l|]; cbn in H; try contradiction; cbn in Hi.
  - induction H as [|id k ids l Hd H IH]; [destruct Hi|]. destruct Hi as [<-|Hi]; [exact (denotes_lt _ _ _ _ I Hd)|auto].
  - apply in_seq in Hi. lia.
Qed.
Lemma positions_chosen n o i : i < n -> (In i (positionsOf n o) <-> chosen o i).
Proof. intros H. destruct o; cbn; [tauto|]. rewrite in_seq. split; [auto|lia]. Qed.

Lemma cast_lossless intOf floatOf strOf k first r w :
  (kindOf first = k \/ first = PFloat 0) -> (kindOf r = k \/ r = PFloat 0) -> (k = KStr -> kindOf first = KStr /\ kindOf r = KStr) ->
  castLike intOf floatOf strOf first r = Ok w -> w = r \/ Same w r \/ (r = PNone /\ w = PNaN).
Proof.
  assert (NF : forall z, Same (PFloat (inject_Z z)) (PInt z)) by (intros z; apply (same_num _ _ (inject_Z z) (inject_Z z)); [constructor|constructor|reflexivity]).
  assert (BF : forall b : bool, Same (PFloat (if b then 1 else 0)) (PBool b)) by (intros b; eapply same_num; [apply num_float|apply num_bool|reflexivity]).
  intros HF HR HS H.
  assert (Z1 : Same (PBool false) (PFloat 0)) by (eapply same_num; [exact (num_bool false)|apply num_float|reflexivity]).
  assert (Z2 : Same (PInt 0) (PFloat 0)) by (eapply same_num; [exact (num_int 0)|apply num_float|reflexivity]).
  destruct k.
  1-3,5: clear HS; destruct HF as [HF| ->]; [destruct first; try discriminate HF|]; (destruct HR as [HR| ->]; [destruct r; try discriminate HR|]); cbn in H; injection H as <-; auto.
  destruct (HS eq_refl) as [A B]. destruct first; try discriminate A. destruct r; try discriminate B. cbn in H. injection H as <-. auto.
Qed.

Lemma validated_kind pz skip f v i j r k : ZeroUniform f -> (pz = true -> k <> KStr) ->
  (forall x, (pz = false \/ ~ Same v (PInt 0)) -> callF f v i j = Ok x -> kindOf (orSkip skip v x) = k) ->
  validated pz skip f v i j = Ok r -> (kindOf r = k \/ r = PFloat 0) /\ (k = KStr -> kindOf r = KStr).
Proof.
  intros Z HK HU H. unfold validated in H. destruct (zeroPreserving pz f && pyEq v (PInt 0)) eqn:E.
  - injection H as <-. split; [right; reflexivity|]. intros ->. apply Bool.andb_true_iff in E. destruct E as [E1 E2]. apply pyEq_spec in E2.
    apply zeroPreserving_spec in E1. destruct E1 as [E1|[g [x [-> [G S]]]]]; [exfalso; exact (HK E1 eq_refl)|].
    destruct pz; [exfalso; exact (HK eq_refl eq_refl)|]. exfalso. cbn in HU, Z. specialize (HU x (or_introl eq_refl)). rewrite (Z v E2) in HU. specialize (HU G).
    rewrite (orSkip_zero _ _ _ S) in HU. destruct x; try discriminate HU. inversion S as [? ? ? ? X| | | |]; subst. inversion X.
  - destruct (callF f v i j) as [x|] eqn:C; [|discriminate]. cbn [rbind] in H. injection H as <-.
    assert (HZ : pz = false \/ ~ Same v (PInt 0)).
    { destruct pz; [|left; reflexivity]. right. intros S. apply pyEq_spec in S. rewrite S in E. discriminate E. }
    specialize (HU x HZ eq_refl). fold (orSkip skip v x). split; [left; exact HU|]. congruence.
Qed.
Lemma Becomes_same pz skip f v i j u w : Becomes pz skip f v i j u -> Same w u -> Becomes pz skip f v i j w.
Proof.
  intros [[A [B C]]|[A [r [B C]]]] S; [left; split; [exact A|]; split; [exact B|exact (Same_trans _ _ _ S C)]|].
  right. split; [exact A|]. exists r. split; [exact B|]. right. destruct C as [->|C]; [exact S|exact (Same_trans _ _ _ S C)].
Qed.
Lemma BecomesNew_intro pz skip f v i j r w : Becomes pz skip f v i j r -> (w = r \/ Same w r \/ (r = PNone /\ w = PNaN)) -> BecomesNew pz skip f v i j (noneToNan w).
Proof.
  intros B [->|[S|[-> ->]]].
  - destruct r; try (left; exact B). right. split; [reflexivity|exact B].
  - assert (B' := Becomes_same _ _ _ _ _ _ _ _ B S). destruct w; try (left; exact B'). right. split; [reflexivity|exact B'].
  - right. split; [reflexivity|exact B].
Qed.
Lemma mcell_map {V} (h : V -> V) m a b : mcell (map (map h) m) a b = option_map h (mcell m a b).
Proof. unfold mcell. rewrite nth_error_map_eq. destruct (nth_error m a); cbn; [apply nth_error_map_eq|reflexivity]. Qed.
Lemma shape_map {V} (h : V -> V) m n k : shape m n k -> shape (map (map h) m) n k.
Proof. intros [A B]. split; [rewrite map_length; exact A|]. intros r Hr. apply in_map_iff in Hr. destruct Hr as [x [<- Hx]]. rewrite map_length. auto. Qed.
Lemma shape_wf {V} (m : list (list V)) n k : shape m n k -> wf (mkTable (mkAxis n None) (mkAxis k None) m).
Proof. intros [A B]. split; [exact A|]. split; [exact B|]. split; exact I. Qed.

Section Calc.
Variables intOf floatOf : string -> option pval.
Variable strOf : pval -> string.
(** what the back end does, for any wrapped function *)
(** the object before nimble.data looks for names *)
Definition plainBackend (t : table pval) (oneArg : bool) (g : pval -> nat -> nat -> result pval) (points features : option (list ident)) : result (table pval) :=
  x <- calculateValues intOf floatOf strOf t oneArg g points features ;;
  Ok (mkTable (mkAxis (fst (fst x)) None) (mkAxis (snd (fst x)) None) (map (map noneToNan) (snd x))).
Lemma allTexts_all l : forall ss, allTexts l = Some ss -> forall b w, nth_error l b = Some w -> exists s, w = PStr s.
Proof.
  induction l as [|v l IH]; intros ss E b w H; [destruct b; discriminate|]. cbn [allTexts] in E.
  destruct (textOf v) as [s|] eqn:Ev; [|discriminate]. destruct (allTexts l) as [t|]; [|discriminate].
  destruct b as [|b]; cbn in H; [injection H as <-; destruct v; try discriminate; eauto|exact (IH t eq_refl b w H)].
Qed.
Lemma header_cells m h : headerOf m = Some h -> exists r0 r1 rest, m = r0 :: r1 :: rest /\ r0 <> [] /\
  (forall b w, nth_error r0 b = Some w -> exists s, w = PStr s) /\ exists b w, nth_error r1 b = Some w /\ isNumber w = true.
Proof.
  intros H. destruct m as [|r0 [|r1 rest]]; try discriminate. exists r0, r1, rest. split; [reflexivity|]. unfold headerOf in H.
  destruct (allTexts r0) as [[|a names]|] eqn:E; try discriminate. split; [intros ->; discriminate|]. split; [intros b w; exact (allTexts_all _ _ E b w)|].
  destruct (nodupb names && _) eqn:B in H; [|discriminate]. apply andb_true_iff in B. destruct B as [_ B]. apply existsb_exists in B. destruct B as [w [Hw N]].
  assert (IN : In w r1) by (destruct (String.eqb a "pointNames"); [destruct r1; [destruct Hw|right; exact Hw]|exact Hw]).
  apply In_nth_error in IN. destruct IN as [b Hb]. eauto.
Qed.
Lemma two_first {A} (l : list A) a b : nth_error l 0 = Some a -> nth_error l 1 = Some b -> exists r, l = a :: b :: r.
Proof. intros H1 H2. destruct l as [|x [|y r]]; try discriminate. exists r. cbn in H1, H2. congruence. Qed.
Lemma backend_cases t oneArg g points features :
  calculateBackend intOf floatOf strOf t oneArg g points features = plainBackend t oneArg g points features \/
  exists r, plainBackend t oneArg g points features = Ok r /\ (exists w, cell r 0 0 = Some w) /\
    (forall b w, cell r 0 b = Some w -> exists s, w = PStr s) /\ exists b w, cell r 1 b = Some w /\ forall s, w <> PStr s.
Proof.
  unfold calculateBackend, plainBackend. destruct (calculateValues _ _ _ t oneArg g points features) as [[[p f] m]|e]; cbn [rbind fst snd]; [|left; reflexivity].
  unfold newObject. destruct (headerOf m) as [h|] eqn:E; [right|left; reflexivity]. eexists. split; [reflexivity|].
  destruct (header_cells m h E) as [r0 [r1 [rest [-> [N [T [b [w [Hb NB]]]]]]]]]. unfold cell. cbn [rows map nth_error]. split; [|split].
  - destruct r0; [congruence|]. eexists. reflexivity.
  - intros c u Hc. rewrite nth_error_map in Hc. destruct (nth_error r0 c) as [x|] eqn:Ex; [|discriminate]. destruct (T c x Ex) as [s ->]. injection Hc as <-. exists s. reflexivity.
  - exists b, (noneToNan w). rewrite nth_error_map, Hb. split; [reflexivity|]. intros s. destruct w; try discriminate NB; discriminate.
Qed.
Lemma backend_spec t oneArg g points features ps fs : wf t -> limitDenotes (tp t) points ps -> limitDenotes (tf t) features fs ->
  ps <> Some [] -> fs <> Some [] ->
  let pl := positionsOf (alen (tp t)) ps in let fl := positionsOf (alen (tf t)) fs in
  match plainBackend t oneArg g points features with
  | Ok r => wf r /\ tp r = mkAxis (List.length pl) None /\ tf r = mkAxis (List.length fl) None /\
      forall a b i j v, nth_error pl a = Some i -> nth_error fl b = Some j -> cell t i j = Some v ->
      exists x w, (if oneArg then g v 0 0 else g v i j) = Ok x /\ cell r a b = Some (noneToNan w) /\
        (w = x \/ (oneArg = false /\ (nonNumeric x = false \/ x = PNone) /\ w = storeFloat x) \/
         exists i0 j0 v0 first, addressed ps fs i0 j0 /\ cell t i0 j0 = Some v0 /\ g v0 0 0 = Ok first /\ oneArg = true /\ castLike intOf floatOf strOf first x = Ok w)
  | Err e => exists i j v, addressed ps fs i j /\ cell t i j = Some v /\ (if oneArg then g v 0 0 else g v i j) = Err e
  end.
Proof.
  intros W HP HF NP NF pl fl. pose proof W as [W1 [W2 [W3 W4]]]. unfold plainBackend, calculateValues.
  rewrite (resolve_denotes _ _ _ W3 HP), (resolve_denotes _ _ _ W4 HF). cbn [rbind]. rewrite (orAll_positions _ _ NP), (orAll_positions _ _ NF).
  fold pl fl. pose proof (positions_range _ _ _ W3 HP) as RP. pose proof (positions_range _ _ _ W4 HF) as RF. fold pl in RP. fold fl in RF.
  destruct (submatrix_ok t pl fl W RP RF) as [m [EM [SM CM]]]. rewrite EM. cbn [rbind].
  assert (AD : forall a b i j, nth_error pl a = Some i -> nth_error fl b = Some j -> addressed ps fs i j).
  { intros a b i j Ha Hb. pose proof (nth_error_In _ _ Ha) as HI. pose proof (nth_error_In _ _ Hb) as HJ. split; [apply (positions_chosen (alen (tp t)))|apply (positions_chosen (alen (tf t)))]; auto. }
  assert (Back : forall a b v, mcell m a b = Some v -> exists i j, nth_error pl a = Some i /\ nth_error fl b = Some j /\ cell t i j = Some v).
  { intros a b v H. rewrite CM in H. destruct (nth_error pl a) as [i|]; [|discriminate]. destruct (nth_error fl b) as [j|]; [|discriminate]. eauto. }
  destruct oneArg.
  - pose proof (vectorized_ok intOf floatOf strOf (fun v => g v 0 0) m _ _ SM) as H.
    destruct (vectorized intOf floatOf strOf (fun v => g v 0 0) m) as [c|e]; cbn [rbind].
    + destruct H as [Sc Hc]. split; [apply shape_wf, shape_map; exact Sc|]. split; [reflexivity|]. split; [reflexivity|].
      intros a b i j v Ha Hb Hv. assert (Hm : mcell m a b = Some v) by (rewrite CM, Ha, Hb; exact Hv). destruct (Hc a b v Hm) as [x [w [G [Hw Hor]]]].
      exists x, w. split; [exact G|]. split.
      { change (mcell (map (map noneToNan) c) a b = Some (noneToNan w)). rewrite mcell_map, Hw. reflexivity. }
      destruct Hor as [->|[a0 [b0 [v0 [first [H1 [H2 H3]]]]]]]; [left; reflexivity|]. right. right. destruct (Back a0 b0 v0 H1) as [i0 [j0 [Q1 [Q2 Q3]]]].
      exists i0, j0, v0, first. split; [eapply AD; eauto|]. auto.
    + destruct H as [a [b [v [H1 H2]]]]. destruct (Back a b v H1) as [i [j [Q1 [Q2 Q3]]]]. exists i, j, v. split; [eapply AD; eauto|]. auto.
  - pose proof (positioned_ok g pl fl m SM) as H. destruct (positioned g pl fl m) as [c|e]; cbn [rbind].
    + destruct H as [Sc Hc]. split; [apply shape_wf, shape_map; exact Sc|]. split; [reflexivity|]. split; [reflexivity|].
      intros a b i j v Ha Hb Hv. assert (Hm : mcell m a b = Some v) by (rewrite CM, Ha, Hb; exact Hv). destruct (Hc a b i j v Hm Ha Hb) as [x [w [G [Hw Hor]]]].
      exists x, w. split; [exact G|]. split.
      { change (mcell (map (map noneToNan) c) a b = Some (noneToNan w)). rewrite mcell_map, Hw. reflexivity. }
      destruct Hor as [->|Hor]; [left; reflexivity|]. right; left. destruct Hor. auto.
    + destruct H as [a [b [i [j [v [H1 [H2 [H3 H4]]]]]]]]. exists i, j, v. split; [eapply AD; eauto|]. split; [|exact H4]. rewrite CM, H2, H3 in H1. exact H1.
Qed.

Lemma calculateOnElements_spec t f points features ps fs pz skip : wf t -> limitDenotes (tp t) points ps -> limitDenotes (tf t) features fs ->
  ps <> Some [] -> fs <> Some [] -> ZeroUniform f -> (isOneArg f = true -> OneKind pz skip f ps fs t) ->
  let pl := positionsOf (alen (tp t)) ps in let fl := positionsOf (alen (tf t)) fs in
  (isOneArg f = false -> ~ LikeHeader pz skip f pl fl t) ->
  match calculateOnElements intOf floatOf strOf t f points features pz skip with
  | Ok r => wf r /\ tp r = mkAxis (List.length pl) None /\ tf r = mkAxis (List.length fl) None /\
      forall a b i j v, nth_error pl a = Some i -> nth_error fl b = Some j -> cell t i j = Some v ->
      exists w, cell r a b = Some w /\ BecomesNew pz skip f v i j w
  | Err e => exists i j v, addressed ps fs i j /\ cell t i j = Some v /\ callF f v i j = Err e
  end.
Proof.
  intros W HP HF NP NF Z OK pl fl NH. pose proof W as [_ [_ [W3 W4]]]. unfold calculateOnElements.
  pose proof (backend_spec t (isOneArg f) (validated pz skip f) points features ps fs W HP HF NP NF) as H. cbn zeta in H. fold pl fl in H.
  assert (One : forall v i j, isOneArg f = true -> validated pz skip f v i j = validated pz skip f v 0 0) by (intros v i j E; destruct f; [reflexivity|discriminate]).
  replace (calculateBackend intOf floatOf strOf t (isOneArg f) (validated pz skip f) points features) with (plainBackend t (isOneArg f) (validated pz skip f) points features).
  2:{ symmetry. destruct (backend_cases t (isOneArg f) (validated pz skip f) points features) as [E|[r [E [[w0 C0] [T [b1 [w1 [C1 N1]]]]]]]]; [exact E|exfalso].
    rewrite E in H. destruct H as [P1 [P2 [P3 P4]]]. pose proof P1 as [Q1 [Q2 _]]. rewrite P2 in Q1. rewrite P3 in Q2. cbn [alen] in Q1, Q2.
    assert (RG : forall a b w, cell r a b = Some w -> a < List.length pl /\ b < List.length fl) by (intros a b w HC; destruct (cell_range r a b w P1 HC) as [R1 R2]; rewrite P2 in R1; rewrite P3 in R2; auto).
    assert (AT : forall a b i j, nth_error pl a = Some i -> nth_error fl b = Some j -> addressed ps fs i j /\ exists v, cell t i j = Some v).
    { intros a b i j Ha Hb. pose proof (positions_range _ _ _ W3 HP i (nth_error_In _ _ Ha)) as R1. pose proof (positions_range _ _ _ W4 HF j (nth_error_In _ _ Hb)) as R2.
      split; [|destruct (cell_some t i j W R1 R2) as [v [Hv _]]; eauto]. split; [apply (positions_chosen (alen (tp t)) ps i R1)|apply (positions_chosen (alen (tf t)) fs j R2)]; eapply nth_error_In; eauto. }
    destruct (RG _ _ _ C0) as [A0 B0]. destruct (RG _ _ _ C1) as [A1 B1].
    destruct (nth_error_is_some _ A0) as [i0 Hi0]. destruct (nth_error_is_some _ A1) as [i1 Hi1]. destruct (nth_error_is_some _ B0) as [j0 Hj0]. destruct (nth_error_is_some _ B1) as [j1 Hj1].
    destruct (AT _ _ _ _ Hi0 Hj0) as [AD0 [v0 V0]]. destruct (AT _ _ _ _ Hi1 Hj1) as [AD1 [v1 V1]].
    destruct (isOneArg f) eqn:EO.
    - destruct (OK eq_refl) as [k [HK HU]].
      assert (KK : forall i j v x, addressed ps fs i j -> cell t i j = Some v -> validated pz skip f v 0 0 = Ok x -> (kindOf x = k \/ x = PFloat 0) /\ (k = KStr -> kindOf x = KStr)).
      { intros i j v x AD Hv G. rewrite <- (One v i j eq_refl) in G. exact (validated_kind pz skip f v i j x k Z HK (fun y => HU i j v y Hv AD) G). }
      destruct (P4 0 0 i0 j0 v0 Hi0 Hj0 V0) as [x0 [u0 [G0 [D0 O0]]]]. destruct (P4 1 b1 i1 j1 v1 Hi1 Hj1 V1) as [x1 [u1 [G1 [D1 O1]]]].
      assert (CL : forall x u, (kindOf x = k \/ x = PFloat 0) -> (k = KStr -> kindOf x = KStr) ->
        (u = x \/ (true = false /\ (nonNumeric x = false \/ x = PNone) /\ u = storeFloat x) \/
         exists i0 j0 v0 first, addressed ps fs i0 j0 /\ cell t i0 j0 = Some v0 /\ validated pz skip f v0 0 0 = Ok first /\ true = true /\ castLike intOf floatOf strOf first x = Ok u) ->
        u = x \/ Same u x \/ (x = PNone /\ u = PNaN)).
      { intros x u X1 X2 [->|[[C _]|[i2 [j2 [v2 [first [A2 [C2 [G2 [_ K]]]]]]]]]]; [left; reflexivity|discriminate|].
        destruct (KK _ _ _ _ A2 C2 G2) as [Y1 Y2]. apply (cast_lossless intOf floatOf strOf k first x u Y1 X1); [auto|exact K]. }
      destruct (KK _ _ _ _ AD0 V0 G0) as [X1 X2]. destruct (KK _ _ _ _ AD1 V1 G1) as [Z1 Z2].
      specialize (CL x0 u0 X1 X2 O0) as L0. specialize (CL x1 u1 Z1 Z2 O1) as L1.
      destruct (T 0 w0 C0) as [s ->]. rewrite C0 in D0. assert (u0 = PStr s) as -> by (destruct u0; cbn in D0; congruence).
      assert (X : exists s', x0 = PStr s'). { destruct L0 as [<-|[L0|[_ L0]]]; [eauto| |discriminate]. inversion L0 as [? ? ? ? X| | | |]; subst; [inversion X|eauto]. }
      destruct X as [s' ->]. assert (KS : k = KStr) by (destruct X1 as [<-|C]; [reflexivity|discriminate]). specialize (Z2 KS). destruct x1; try discriminate Z2.
      rewrite C1 in D1. destruct L1 as [->|[L1|[L1 _]]]; [cbn in D1; injection D1 as ->; exact (N1 _ eq_refl)| |discriminate].
      inversion L1 as [? ? ? ? X Y| | | |]; subst; [inversion Y|cbn in D1; injection D1 as ->; exact (N1 _ eq_refl)].
    - apply (NH eq_refl). destruct (two_first pl i0 i1 Hi0 Hi1) as [rest EP]. exists i0, i1, rest. split; [exact EP|]. split.
      + intros j v Hj Hv. apply In_nth_error in Hj. destruct Hj as [b Hb]. destruct (P4 0 b i0 j v Hi0 Hb Hv) as [x [u [G [D O]]]].
        destruct (T b _ D) as [s E1]. exists s. assert (u = PStr s) as -> by (destruct u; cbn in E1; congruence).
        assert (x = PStr s) as -> by (destruct O as [O|[[_ [_ O]]|[? [? [? [? [_ [_ [_ [O _]]]]]]]]]]; [auto|destruct x; cbn in O; congruence|discriminate]).
        apply (validated_becomes pz skip f v i0 j); assumption.
      + destruct (P4 1 b1 i1 j1 v1 Hi1 Hj1 V1) as [x [u [G [D O]]]]. exists j1, v1, x. split; [eapply nth_error_In; exact Hj1|]. split; [exact V1|]. split; [apply validated_becomes; assumption|].
        intros s ->. rewrite C1 in D. destruct O as [->|[[_ [_ ->]]|[? [? [? [? [_ [_ [_ [O _]]]]]]]]]]; [|cbn in D|discriminate]; injection D as ->; exact (N1 _ eq_refl). }
  destruct (plainBackend t (isOneArg f) (validated pz skip f) points features) as [r|e].
  - destruct H as [P1 [P2 [P3 P4]]]. split; [exact P1|]. split; [exact P2|]. split; [exact P3|]. intros a b i j v Ha Hb Hv.
    destruct (P4 a b i j v Ha Hb Hv) as [x [w [G [Hw Hor]]]]. exists (noneToNan w). split; [exact Hw|].
    assert (G' : validated pz skip f v i j = Ok x) by (destruct (isOneArg f); [rewrite (One v i j eq_refl)|]; exact G).
    apply (BecomesNew_intro _ _ _ _ _ _ x w); [apply validated_becomes; assumption|].
    destruct Hor as [->|[[_ [Hn ->]]|[i0 [j0 [v0 [first [A0 [C0 [G0 [E0 K]]]]]]]]]].
    + left; reflexivity.
    + destruct x; cbn; auto. right; left. apply (same_num _ _ (inject_Z z) (inject_Z z)); [constructor|constructor|reflexivity].
    + destruct (OK E0) as [k [HK HU]].
      assert (AD : addressed ps fs i j).
      { pose proof (cell_range t i j v W Hv) as [R1 R2]. split; [apply (positions_chosen (alen (tp t)) ps i R1)|apply (positions_chosen (alen (tf t)) fs j R2)]; eapply nth_error_In; eauto. }
      rewrite <- (One v0 i0 j0 E0) in G0.
      destruct (validated_kind pz skip f v i j x k Z HK (fun y => HU i j v y Hv AD) G') as [X1 X2].
      destruct (validated_kind pz skip f v0 i0 j0 first k Z HK (fun y => HU i0 j0 v0 y C0 A0) G0) as [Y1 Y2].
      apply (cast_lossless intOf floatOf strOf k first x w Y1 X1); [auto|exact K].
  - destruct H as [i [j [v [A [C G]]]]]. exists i, j, v. split; [exact A|]. split; [exact C|]. apply (validated_err pz skip).
    destruct (isOneArg f); [rewrite (One v i j eq_refl)|]; exact G.
Qed.

(** ** matchingElements *)
Lemma boolResult_spec x : match boolResult x with
  | Ok w => (Same x (PInt 1) /\ w = PBool true) \/ (Same x (PInt 0) /\ w = PBool false)
  | Err e => e = InvalidArgumentValue /\ ~ Same x (PInt 1) /\ ~ Same x (PInt 0)
  end.
Proof.
  unfold boolResult. destruct (pyEq x (PInt 1)) eqn:E1; [left; split; [apply pyEq_spec; exact E1|reflexivity]|].
  destruct (pyEq x (PInt 0)) eqn:E2; [right; split; [apply pyEq_spec; exact E2|reflexivity]|].
  split; [reflexivity|]. split; intros C; apply pyEq_spec in C; congruence.
Qed.
Lemma withNames_ok a o l n : Inv a -> limitDenotes a o l -> NoDup (positionsOf (alen a) l) -> n = List.length (positionsOf (alen a) l) ->
  exists names a', axisNamesFor a o = Ok names /\ withNames (mkAxis n None) names = Ok a' /\
    alen a' = n /\ Inv a' /\ getNames a' = selected (positionsOf (alen a) l) (getNames a).
Proof.
  intros IA H ND ->. set (pl := positionsOf (alen a) l) in *. pose proof (positions_range a o l IA H) as HR. fold pl in HR.
  assert (Hl : List.length (getNames a) = alen a) by (apply getNames_length; auto).
  destruct (structuralAxis_ok a pl IA ND HR) as [a' [E [L [IA' G]]]].
  unfold structuralNames in E. unfold axisNamesFor, getNamesNoGeneration. destruct (namesCreated a) eqn:EN.
  - rewrite gather_selected in E by (rewrite Hl; exact HR). cbn [rmap rbind] in E.
    assert (EA : (match o with Some ids => idx <- constructIndices a ids ;; rmap Some (gather (getNames a) idx) | None => Ok (Some (getNames a)) end) = Ok (Some (selected pl (getNames a)))).
    { destruct o as [ids|], l as [l|]; cbn in H; try contradiction; cbn in pl.
      - apply (constructIndices_Denotes _ _ _ IA) in H. rewrite H. cbn [rbind]. rewrite gather_selected by (rewrite Hl; exact HR). reflexivity.
      - f_equal. f_equal. apply nth_error_ext. intros k. unfold pl. rewrite selected_nth by (rewrite Hl; exact HR). rewrite nth_error_seq. destruct (Nat.ltb_spec k (alen a)); [reflexivity|].
        apply nth_error_None. lia. }
    exists (Some (selected pl (getNames a))), a'. split; [destruct o; exact EA|]. split; [|auto]. unfold initAxis in E. rewrite selected_length in E by (rewrite Hl; exact HR).
    rewrite Nat.eqb_refl in E. cbn [negb] in E. unfold withNames. exact E.
  - cbn in E. injection E as <-. exists None, (mkAxis (List.length pl) None). split; [destruct o; reflexivity|]. split; [reflexivity|]. auto.
Qed.
Lemma matchingElements_spec t f points features ps fs : wf t -> limitDenotes (tp t) points ps -> limitDenotes (tf t) features fs ->
  ps <> Some [] -> fs <> Some [] ->
  let pl := positionsOf (alen (tp t)) ps in let fl := positionsOf (alen (tf t)) fs in
  NoDup pl -> NoDup fl ->
  match matchingElements intOf floatOf strOf t f points features with
  | Ok r => wf r /\ alen (tp r) = List.length pl /\ alen (tf r) = List.length fl /\
      getNames (tp r) = selected pl (getNames (tp t)) /\ getNames (tf r) = selected fl (getNames (tf t)) /\
      forall a b i j v, nth_error pl a = Some i -> nth_error fl b = Some j -> cell t i j = Some v ->
      exists x, callF f v i j = Ok x /\ ((Same x (PInt 1) /\ cell r a b = Some (PBool true)) \/ (Same x (PInt 0) /\ cell r a b = Some (PBool false)))
  | Err e => exists i j v, addressed ps fs i j /\ cell t i j = Some v /\
      (callF f v i j = Err e \/ (e = InvalidArgumentValue /\ exists x, callF f v i j = Ok x /\ ~ Same x (PInt 1) /\ ~ Same x (PInt 0)))
  end.
Proof.
  intros W HP HF NP NF pl fl NDP NDF. pose proof W as [_ [_ [W3 W4]]]. unfold matchingElements.
  pose proof (backend_spec t (isOneArg f) (wrapMatch f) points features ps fs W HP HF NP NF) as H. cbn zeta in H. fold pl fl in H.
  assert (One : forall v i j, isOneArg f = true -> wrapMatch f v i j = wrapMatch f v 0 0) by (intros v i j E; destruct f; [reflexivity|discriminate]).
  assert (Wb : forall v i j x, wrapMatch f v i j = Ok x -> exists y, callF f v i j = Ok y /\ ((Same y (PInt 1) /\ x = PBool true) \/ (Same y (PInt 0) /\ x = PBool false))).
  { intros v i j x Hx. unfold wrapMatch in Hx. destruct (callF f v i j) as [y|]; [|discriminate]. cbn [rbind] in Hx. pose proof (boolResult_spec y) as B. rewrite Hx in B. eauto. }
  replace (calculateBackend intOf floatOf strOf t (isOneArg f) (wrapMatch f) points features) with (plainBackend t (isOneArg f) (wrapMatch f) points features).
  2:{ symmetry. destruct (backend_cases t (isOneArg f) (wrapMatch f) points features) as [E|[r [E [[w0 C0] [T _]]]]]; [exact E|exfalso].
    rewrite E in H. destruct H as [P1 [P2 [P3 P4]]]. destruct (cell_range r 0 0 w0 P1 C0) as [A0 B0]. rewrite P2 in A0. rewrite P3 in B0. cbn [alen] in A0, B0.
    destruct (nth_error_is_some _ A0) as [i0 Hi0]. destruct (nth_error_is_some _ B0) as [j0 Hj0].
    pose proof (positions_range _ _ _ W3 HP i0 (nth_error_In _ _ Hi0)) as R1. pose proof (positions_range _ _ _ W4 HF j0 (nth_error_In _ _ Hj0)) as R2.
    destruct (cell_some t i0 j0 W R1 R2) as [v0 [V0 _]]. destruct (P4 0 0 i0 j0 v0 Hi0 Hj0 V0) as [x [u [G [D O]]]]. rewrite C0 in D. destruct (T 0 w0 C0) as [s ->].
    assert (u = PStr s) as -> by (destruct u; cbn in D; congruence).
    assert (WB : forall v i j y, (if isOneArg f then wrapMatch f v 0 0 else wrapMatch f v i j) = Ok y -> exists b, y = PBool b).
    { intros v i j y Hy. destruct (isOneArg f); [destruct (Wb v 0 0 y Hy) as [? [_ [[_ ->]|[_ ->]]]]|destruct (Wb v i j y Hy) as [? [_ [[_ ->]|[_ ->]]]]]; eauto. }
    destruct (WB _ _ _ _ G) as [b ->]. destruct O as [O|[[_ [_ O]]|[i1 [j1 [v1 [first [_ [_ [G1 [_ O]]]]]]]]]]; [discriminate O|discriminate O|].
    destruct (Wb v1 0 0 first G1) as [? [_ [[_ ->]|[_ ->]]]]; cbn in O; congruence. }
  destruct (plainBackend t (isOneArg f) (wrapMatch f) points features) as [r|e]; cbn [rbind].
  - destruct H as [P1 [P2 [P3 P4]]].
    destruct (withNames_ok (tp t) points ps _ W3 HP NDP eq_refl) as [pn [pa [E1 [E2 [L1 [I1 G1]]]]]].
    destruct (withNames_ok (tf t) features fs _ W4 HF NDF eq_refl) as [fn [fa [E3 [E4 [L2 [I2 G2]]]]]].
    rewrite E1, E3. cbn [rbind]. rewrite P2, P3. fold pl in E2. fold fl in E4. rewrite E2, E4. cbn [rbind].
    destruct P1 as [Q1 [Q2 _]]. rewrite P2 in Q1. rewrite P3 in Q2. cbn in Q1, Q2.
    split; [split; [cbn; rewrite L1; exact Q1|]; split; [cbn; rewrite L2; exact Q2|]; split; assumption|].
    split; [exact L1|]. split; [exact L2|]. split; [exact G1|]. split; [exact G2|].
    intros a b i j v Ha Hb Hv. destruct (P4 a b i j v Ha Hb Hv) as [x [w [G [Hw Hor]]]].
    assert (G' : wrapMatch f v i j = Ok x) by (destruct (isOneArg f); [rewrite (One v i j eq_refl)|]; exact G).
    destruct (Wb _ _ _ _ G') as [y [Hy HB]]. exists y. split; [exact Hy|].
    change (cell {| tp := pa; tf := fa; rows := rows r |} a b) with (cell r a b).
    assert (x = w) as <-.
    { destruct Hor as [->|[[_ [[N|N] _]]|[i0 [j0 [v0 [first [A0 [C0 [G0 [E0 K]]]]]]]]]]; [reflexivity| | |].
      - destruct HB as [[_ ->]|[_ ->]]; discriminate N.
      - destruct HB as [[_ ->]|[_ ->]]; discriminate N.
      - destruct (Wb _ _ _ _ G0) as [y0 [_ B0]]. destruct B0 as [[_ ->]|[_ ->]]; destruct HB as [[_ ->]|[_ ->]]; cbn in K; congruence. }
    destruct HB as [[S ->]|[S ->]]; [left|right]; split; assumption.
  - destruct H as [i [j [v [A [C G]]]]]. exists i, j, v. split; [exact A|]. split; [exact C|].
    assert (G' : wrapMatch f v i j = Err e) by (destruct (isOneArg f); [rewrite (One v i j eq_refl)|]; exact G).
    unfold wrapMatch in G'. destruct (callF f v i j) as [y|e'] eqn:EC; cbn [rbind] in G'; [|left; congruence].
    pose proof (boolResult_spec y) as B. rewrite G' in B. destruct B as [-> B]. right. split; [reflexivity|]. exists y. auto.
Qed.
End Calc.

(** ** countElements *)
Lemma grid_Forall2 {V W} (R : V -> W -> Prop) : forall (m : list (list V)) (m' : list (list W)) n k, shape m n k -> shape m' n k ->
  (forall a b v, mcell m a b = Some v -> exists w, mcell m' a b = Some w /\ R v w) -> Forall2 R (List.concat m) (List.concat m').
Proof.
  induction m as [|r m IH]; intros [|r' m'] n k [A1 A2] [B1 B2] H; cbn in A1, B1; try lia; [constructor|].
  cbn [List.concat]. apply Forall2_app.
  - assert (L : List.length r = List.length r') by (rewrite (A2 r (or_introl eq_refl)), (B2 r' (or_introl eq_refl)); reflexivity).
    assert (C : forall b v, nth_error r b = Some v -> exists w, nth_error r' b = Some w /\ R v w) by (intros b v Hb; exact (H 0 b v Hb)).
    clear -L C. revert r' L C. induction r as [|v r IHr]; intros [|w r'] L C; try discriminate L; constructor.
    + destruct (C 0 v eq_refl) as [w' [E HR]]. cbn in E. injection E as ->. exact HR.
    + apply IHr; [cbn in L; lia|]. intros b x Hx. exact (C (S b) x Hx).
  - apply (IH m' (List.length m) k); [split; [reflexivity|intros x Hx; apply A2; right; exact Hx]|split; [lia|intros x Hx; apply B2; right; exact Hx]|].
    intros a b v Hv. exact (H (S a) b v Hv).
Qed.
Lemma truncQ_int q z : (q == inject_Z z)%Q -> truncQ q = z.
Proof. unfold Qeq, truncQ. destruct q as [n d]. cbn. intros H. rewrite Z.mul_1_r in H. rewrite H. apply Z.quot_mul. discriminate. Qed.
Lemma Same_numValue w b : Same w (PBool b) -> (numValue w == if b then 1 else 0)%Q.
Proof.
  intros H. inversion H as [x y p q X Y E E1 E2| | | |]; subst. rewrite <- (IsNumber_unique _ _ _ Y (num_bool b)). destruct X; cbn; exact E.
Qed.
Lemma inject_S z : (inject_Z (Z.of_nat (S z)) == 1 + inject_Z (Z.of_nat z))%Q.
Proof. rewrite Nat2Z.inj_succ, <- Z.add_1_l, inject_Z_plus. reflexivity. Qed.
Section Count.
Variables intOf floatOf : string -> option pval.
Variable strOf : pval -> string.
Lemma countElements_spec t g : wf t -> (forall v, Same v (PInt 0) -> g v = g (PInt 0)) ->
  match countElements intOf floatOf strOf t (F1 (fun v => rmap PBool (g v))) with
  | Ok n => n = Z.of_nat (countTrue g (List.concat (rows t))) /\ forall v, isCell t v -> exists b, g v = Ok b
  | Err e => exists v, isCell t v /\ g v = Err e
  end.
Proof.
  intros W HZ. set (f := F1 (fun v => rmap PBool (g v))). unfold countElements.
  assert (Z : ZeroUniform f) by (intros v S; cbn; rewrite (HZ v S); reflexivity).
  assert (OK : OneKind false false f None None t).
  { exists KBool. split; [discriminate|]. intros i j v r _ _ _ H. cbn in H. destruct (g v) as [b|]; [|discriminate]. cbn in H. injection H as <-. reflexivity. }
  pose proof (calculateOnElements_spec intOf floatOf strOf t f None None None None false false W I I (fun C => ltac:(discriminate C)) (fun C => ltac:(discriminate C)) Z (fun _ => OK) ltac:(discriminate)) as H.
  cbn zeta in H. destruct (calculateOnElements intOf floatOf strOf t f None None false false) as [r|e]; cbn [rbind].
  - destruct H as [P1 [P2 [P3 P4]]]. cbn in P2, P3. rewrite seq_length in P2, P3.
    assert (R : Forall2 (fun v w => exists b, g v = Ok b /\ (numValue w == if b then 1 else 0)%Q) (List.concat (rows t)) (List.concat (rows r))).
    { pose proof W as [W1 [W2 _]]. destruct P1 as [Q1 [Q2 _]]. rewrite P2 in Q1. rewrite P3 in Q2. cbn in Q1, Q2.
      apply (grid_Forall2 _ _ _ (alen (tp t)) (alen (tf t))); [split; assumption|split; assumption|].
      intros a b v Hv. change (cell t a b = Some v) in Hv. destruct (cell_range t a b v W Hv) as [R1 R2].
      destruct (P4 a b a b v) as [w [Hw HB]]; [cbn; rewrite nth_error_seq; apply Nat.ltb_lt in R1; rewrite R1; reflexivity|cbn; rewrite nth_error_seq; apply Nat.ltb_lt in R2; rewrite R2; reflexivity|exact Hv|].
      exists w. split; [exact Hw|]. destruct HB as [HB|[_ HB]].
      - destruct HB as [[C _]|[_ [x [Hx Hor]]]]; [discriminate|]. cbn in Hx. destruct (g v) as [b'|]; [|discriminate]. cbn in Hx. injection Hx as <-. exists b'. split; [reflexivity|].
        cbn in Hor. destruct Hor as [->|S]; [cbn; reflexivity|apply Same_numValue; exact S].
      - destruct HB as [[C _]|[_ [x [Hx Hor]]]]; [discriminate|]. cbn in Hx. destruct (g v) as [b'|]; [|discriminate]. cbn in Hx. injection Hx as <-. cbn in Hor.
        destruct Hor as [C|C]; [discriminate|]. inversion C as [? ? ? ? X| | | |]. inversion X. }
    split.
    + apply truncQ_int. clear -R. induction R as [|v w l l' [b [G N]] R IH]; [reflexivity|]. unfold countTrue in *. cbn [sumQ fold_right filter]. fold (sumQ l'). rewrite N, IH, G.
      destruct b; cbn [List.length]; [rewrite inject_S; reflexivity|]. rewrite Qplus_0_l. reflexivity.
    + intros v Hv. apply concat_rows_cell in Hv. clear -R Hv. induction R as [|x w l l' [b [G N]] R IH]; [destruct Hv|]. destruct Hv as [->|Hv]; [eauto|auto].
  - destruct H as [i [j [v [_ [C G]]]]]. exists v. split; [exists i, j; exact C|]. cbn in G. destruct (g v); cbn in G; congruence.
Qed.
End Count.
Lemma compareOp_uniform o w v : Same v (PInt 0) -> compareOp o v w = compareOp o (PInt 0) w.
Proof.
  intros H. inversion H as [x y p q X Y E E1 E2| | | |]; subst. inversion Y; subst.
  assert (HN : exists q, numOf v = Some (Fin q) /\ (q == 0)%Q) by (apply IsNumber_numOf in X; eauto). destruct HN as [q [HN HQ]].
  assert (QE1 : forall x, Qeq_bool q x = Qeq_bool 0 x) by (intros x; rewrite HQ; reflexivity).
  assert (QE2 : forall x, Qeq_bool x q = Qeq_bool x 0) by (intros x; rewrite HQ; reflexivity).
  assert (QL1 : forall x, Qle_bool q x = Qle_bool 0 x) by (intros x; rewrite HQ; reflexivity).
  assert (QL2 : forall x, Qle_bool x q = Qle_bool x 0) by (intros x; rewrite HQ; reflexivity).
  assert (EQ1 : pyEq v w = pyEq (PInt 0) w).
  { unfold pyEq. rewrite HN. cbn [numOf]. change (inject_Z 0) with 0%Q. destruct (numOf w) as [[]|]; cbn; auto. }
  assert (EQ2 : pyEq w v = pyEq w (PInt 0)).
  { unfold pyEq. rewrite HN. cbn [numOf]. change (inject_Z 0) with 0%Q. destruct (numOf w) as [[]|]; cbn; auto. }
  assert (NL : numberLike v = true /\ forall s, v <> PStr s) by (destruct X; split; try reflexivity; discriminate). destruct NL as [NL NS].
  assert (LT1 : pyLt v w = pyLt (PInt 0) w).
  { unfold pyLt. cbn [numberLike]. rewrite NL, HN. cbn [numOf]. change (inject_Z 0) with 0%Q. destruct v; try (exfalso; eapply NS; reflexivity); destruct w; cbn; rewrite ?QL2, ?QL1; reflexivity. }
  assert (LT2 : pyLt w v = pyLt w (PInt 0)).
  { unfold pyLt. cbn [numberLike]. rewrite NL, HN. cbn [numOf]. change (inject_Z 0) with 0%Q. destruct w; destruct v; try (exfalso; eapply NS; reflexivity); cbn; rewrite ?QL2, ?QL1; reflexivity. }
  destruct o; cbn [compareOp]; unfold pyNe, pyLe; rewrite ?EQ1, ?EQ2, ?LT1, ?LT2; reflexivity.
Qed.
