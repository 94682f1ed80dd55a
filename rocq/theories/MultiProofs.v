(** Proofs for C67: multiclass strategies. *)
From Verif Require Import Base NamesModel NamesSpec NamesProofs TableModel TableSpec TableProofs TableOps TableOps3Proofs TableInsertProofs TableSortProofs MatchModel MatchSpec MatchProofs ElementsModel ElementsSpec ElementsProofs ElementsCalcProofs LearnModel LearnSpec LearnProofs LearnMultiProofs GetModel GetSpec GetCountProofs GetProofs GetIterProofs ImputeKnnProofs EncodeProofs MergeLoopProofs MultiModel MultiSpec.
From Coq Require Import QArith Lqa Sorted Permutation Lia.
Open Scope string_scope. Open Scope list_scope. Open Scope nat_scope.

Lemma F2_len {X Y} (R : X -> Y -> Prop) a b : Forall2 R a b -> List.length a = List.length b.
Proof. induction 1; cbn; auto. Qed.
(** ** The first best score of a row *)
Definition allNumbers (l : list pval) : Prop := forall v, In v l -> exists q, IsNumber v q.
Lemma IsNumber_beats v p q : IsNumber v p -> beats v (Fin q) = Ok (negb (Qle_bool p q)) /\ beats v NegInf = Ok true /\ numOf v = Some (Fin p).
Proof. intros H; destruct H; cbn; auto. Qed.
Lemma FirstBest_cons v p l i : IsNumber v p -> FirstBest l i ->
  (forall w q, nth_error l i = Some w -> IsNumber w q -> (p < q)%Q) -> FirstBest (v :: l) (S i).
Proof.
  intros Hv [w [q [Hw [Hq [A B]]]]] H. exists w, q. split; [exact Hw|]. split; auto. pose proof (H w q Hw Hq) as L. split.
  - intros [|j] x r Hx Hr; cbn in Hx; [|eauto]. injection Hx as <-. rewrite (IsNumber_unique _ _ _ Hr Hv). apply Qlt_le_weak; auto.
  - intros [|j] x r Hj Hx Hr; cbn in Hx; [injection Hx as <-; rewrite (IsNumber_unique _ _ _ Hr Hv); auto|]. apply (B j x r); auto; lia.
Qed.
Lemma FirstBest_head v p l : IsNumber v p -> (forall w q, In w l -> IsNumber w q -> (q <= p)%Q) -> FirstBest (v :: l) 0.
Proof.
  intros Hv H. exists v, p. split; [reflexivity|]. split; auto. split; [|intros; lia].
  intros [|j] x r Hx Hr; cbn in Hx; [injection Hx as <-; rewrite (IsNumber_unique _ _ _ Hr Hv); apply Qle_refl|].
  eapply H; eauto. eapply nth_error_In; eauto.
Qed.
Lemma bestFrom_fin l : forall k q b, allNumbers l ->
  (bestFrom k l (Fin q) b = Ok b /\ (forall w p, In w l -> IsNumber w p -> (p <= q)%Q)) \/
  exists i, bestFrom k l (Fin q) b = Ok (Some (k + i)) /\ FirstBest l i /\ forall v p, nth_error l i = Some v -> IsNumber v p -> (q < p)%Q.
Proof.
  induction l as [|v l IH]; intros k q b HN.
  - left. split; [reflexivity|intros ? ? []].
  - destruct (HN v (or_introl eq_refl)) as [p Hp]. destruct (IsNumber_beats v p q Hp) as [E [_ EN]].
    assert (HN' : allNumbers l) by (intros w Hw; apply HN; right; auto).
    cbn [bestFrom]. rewrite E; cbn [rbind]. destruct (Qle_bool p q) eqn:L; cbn [negb].
    + apply Qle_bool_iff in L. destruct (IH (S k) q b HN') as [[A B]|[i [A [B C]]]].
      * left. split; auto. intros w r [<-|Hw] Hr; [rewrite (IsNumber_unique _ _ _ Hr Hp); auto|eauto].
      * right. exists (S i). rewrite A. split; [f_equal; f_equal; lia|]. split; [|exact C].
        apply (FirstBest_cons v p); auto. intros w r Hw Hr. pose proof (C w r Hw Hr). lra.
    + assert (L' : (q < p)%Q) by (apply Qnot_le_lt; intros C; apply Qle_bool_iff in C; congruence).
      rewrite EN. destruct (IH (S k) p (Some k) HN') as [[A B]|[i [A [B C]]]].
      * right. exists 0. rewrite A. split; [f_equal; f_equal; lia|]. split; [apply (FirstBest_head v p); auto|].
        intros w r Hw Hr. cbn in Hw. injection Hw as <-. rewrite (IsNumber_unique _ _ _ Hr Hp); auto.
      * right. exists (S i). rewrite A. split; [f_equal; f_equal; lia|]. split.
        -- apply (FirstBest_cons v p); auto.
        -- intros w r Hw Hr. cbn in Hw. pose proof (C w r Hw Hr). lra.
Qed.
Lemma winnerIndex_spec l : l <> [] -> allNumbers l -> exists i, winnerIndex l = Ok (Some i) /\ FirstBest l i.
Proof.
  intros HL HN. destruct l as [|v l]; [congruence|]. destruct (HN v (or_introl eq_refl)) as [p Hp].
  destruct (IsNumber_beats v p p Hp) as [_ [E EN]]. unfold winnerIndex. cbn [bestFrom]. rewrite E; cbn [rbind]. rewrite EN.
  assert (HN' : allNumbers l) by (intros w Hw; apply HN; right; auto).
  destruct (bestFrom_fin l 1 p (Some 0) HN') as [[A B]|[i [A [B C]]]].
  - exists 0. split; auto. apply (FirstBest_head v p); auto.
  - exists (S i). split; auto. apply (FirstBest_cons v p); auto.
Qed.
(** the same walk, keeping the pair *)
Lemma bestPair_fin l : forall q b, allNumbers (map snd l) ->
  (bestPair l (Fin q) b = Ok b /\ (forall w p, In w (map snd l) -> IsNumber w p -> (p <= q)%Q)) \/
  exists i x, bestPair l (Fin q) b = Ok x /\ nth_error l i = Some x /\ FirstBest (map snd l) i /\ forall p, IsNumber (snd x) p -> (q < p)%Q.
Proof.
  induction l as [|[s v] l IH]; intros q b HN.
  - left. split; [reflexivity|intros ? ? []].
  - destruct (HN v (or_introl eq_refl)) as [p Hp]. destruct (IsNumber_beats v p q Hp) as [E [_ EN]].
    assert (HN' : allNumbers (map snd l)) by (intros w Hw; apply HN; right; auto).
    cbn [bestPair map snd]. rewrite E; cbn [rbind]. destruct (Qle_bool p q) eqn:L; cbn [negb].
    + apply Qle_bool_iff in L. destruct (IH q b HN') as [[A B]|[i [x [A [X [B C]]]]]].
      * left. split; auto. intros w r [<-|Hw] Hr; [cbn in Hr; rewrite (IsNumber_unique _ _ _ Hr Hp); auto|eauto].
      * right. exists (S i), x. split; auto. split; auto. split; [|exact C].
        apply (FirstBest_cons v p); auto. intros w r Hw Hr. rewrite nth_error_map, X in Hw. cbn in Hw. injection Hw as <-. pose proof (C r Hr). lra.
    + assert (L' : (q < p)%Q) by (apply Qnot_le_lt; intros C; apply Qle_bool_iff in C; congruence).
      rewrite EN. destruct (IH p (s, v) HN') as [[A B]|[i [x [A [X [B C]]]]]].
      * right. exists 0, (s, v). split; auto. split; auto. split; [apply (FirstBest_head v p); auto|].
        intros r Hr. cbn in Hr. rewrite (IsNumber_unique _ _ _ Hr Hp); auto.
      * right. exists (S i), x. split; auto. split; auto. split.
        -- apply (FirstBest_cons v p); auto. intros w r Hw Hr. rewrite nth_error_map, X in Hw. cbn in Hw. injection Hw as <-. eauto.
        -- intros r Hr. pose proof (C r Hr). lra.
Qed.
Lemma bestPair_spec l b : l <> [] -> allNumbers (map snd l) ->
  exists i x, bestPair l NegInf b = Ok x /\ nth_error l i = Some x /\ FirstBest (map snd l) i.
Proof.
  intros HL HN. destruct l as [|[s v] l]; [congruence|]. destruct (HN v (or_introl eq_refl)) as [p Hp].
  destruct (IsNumber_beats v p p Hp) as [_ [E EN]]. cbn [bestPair]. rewrite E; cbn [rbind]. rewrite EN.
  assert (HN' : allNumbers (map snd l)) by (intros w Hw; apply HN; right; auto).
  destruct (bestPair_fin l p (s, v) HN') as [[A B]|[i [x [A [X [B C]]]]]].
  - exists 0, (s, v). split; auto. split; auto. apply (FirstBest_head v p); auto.
  - exists (S i), x. split; auto. split; auto. apply (FirstBest_cons v p); auto.
    intros w r Hw Hr. change (nth_error (map snd l) i = Some w) in Hw. rewrite nth_error_map, X in Hw. cbn in Hw. injection Hw as <-. eauto.
Qed.

(** ** Naming the only feature *)
Lemma setNames_one a s : Inv a -> alen a = 1 ->
  exists a', setNames a (AStr s) (OOne (IdInt 0)) = (a', Ok tt) /\ Inv a' /\ alen a' = 1 /\ getNames a' = [Some s].
Proof.
  intros HI HL. pose proof (setNames_some_cases a (AStr s) (OOne (IdInt 0)) ltac:(discriminate) HI ltac:(discriminate)) as H.
  assert (HIv : Inv (fst (setNames_some a (AStr s) (OOne (IdInt 0))))).
  { apply setNames_some_Inv; auto; try discriminate. exact Logic.I. }
  destruct a as [n st]. cbn in HL. subst n. change (setNames (mkAxis 1 st) (AStr s) (OOne (IdInt 0))) with (setNames_some (mkAxis 1 st) (AStr s) (OOne (IdInt 0))).
  assert (HR : resolveOld (ensure (mkAxis 1 st)) [IdInt 0] = Ok [(nth 0 (names_inv (ensure (mkAxis 1 st))) None, 0)]).
  { destruct st as [[d inv]|]; reflexivity. }
  assert (HC : checkNew (ensure (mkAxis 1 st)) (dict_of (combine [NStr s] [0])) = Ok tt).
  { pose proof (Inv_facts _ (ensure_Inv _ HI)) as [L [W B]]. cbn. destruct (dmem s (names_dict (ensure (mkAxis 1 st)))) eqn:D; auto.
    apply dmem_dget in D. destruct D as [i G]. apply B in G.
    assert (Hi : i = 0) by (apply nth_error_lt in G; rewrite L in G; destruct st as [[? ?]|]; cbn in G; lia). subst i.
    rewrite (nth_error_nth _ _ _ G), eqbd_refl. reflexivity. }
  destruct H as [[e [E _]]|[olds [ad [names1 [E1 [E2 [-> [E4 [E5 E6]]]]]]]]].
  - exfalso. unfold setNames_some in E. cbn [old_list alen assignments_len Nat.eqb Nat.leb List.length andb] in E. rewrite HR in E. cbn [map snd assignments_iter] in E. rewrite HC in E.
    pose proof (Inv_facts _ (ensure_Inv _ HI)) as [L [W B]].
    set (m := ensure (mkAxis 1 st)) in *. assert (LM : alen m = 1) by (destruct st as [[? ?]|]; reflexivity). clearbody m. rewrite LM in L.
    destruct (names_inv m) as [|[x|] [|? ?]] eqn:EI; try discriminate; cbn [nth dict_of fold_left dset] in E.
    + cbn [deleteOld] in E. assert (D : dmem x (names_dict m) = true).
      { apply dmem_dget. exists 0. apply B; reflexivity. }
      cbn in E. rewrite D in E. cbn in E. discriminate.
  - rewrite E6 in HIv |- *. cbn [fst] in HIv. cbn [old_list] in E2. rewrite HR in E2. injection E2 as <-. eexists. split; [reflexivity|]. split; [exact HIv|]. split; [reflexivity|].
    unfold getNames. cbn [namesCreated astate]. cbn.
    pose proof (Inv_facts _ (ensure_Inv _ HI)) as [L _].
    destruct (names_inv (ensure (mkAxis 1 st))) as [|o [|? ?]] eqn:EI; destruct st as [[? ?]|]; cbn in L, EI |- *; try discriminate; subst; try reflexivity.
Qed.
Lemma nameFirst_spec (r : table pval) s : wf r -> alen (tf r) = 1 ->
  exists r', nameFirst r s = Ok r' /\ wf r' /\ tp r' = tp r /\ rows r' = rows r /\ alen (tf r') = 1 /\ getNames (tf r') = [Some s].
Proof.
  intros W L. pose proof W as [W1 [W2 [W3 W4]]]. destruct (setNames_one (tf r) s W4 L) as [a [E [HI [HL HG]]]].
  unfold nameFirst. rewrite E. eexists. split; [reflexivity|]. cbn. split; [|auto].
  unfold wf; cbn. split; auto. split; [|auto]. intros q Hq. rewrite HL, <- L. auto.
Qed.

(** ** One more column *)
Lemma items_parts (t : table pval) sd : wf t -> map fst (items sd t) = getNames (ax sd t) /\ map snd (items sd t) = vectors sd t.
Proof.
  intros W. assert (L : List.length (getNames (ax sd t)) = List.length (vectors sd t)).
  { rewrite getNames_length by (apply wf_Inv; auto). rewrite vectors_length by auto. reflexivity. }
  unfold items. split; [apply map_fst_combine|apply map_snd_combine]; auto.
Qed.
Lemma rows_at (t : table pval) i : wf t -> i < alen (tp t) -> exists row, nth_error (rows t) i = Some row /\ List.length row = alen (tf t) /\ forall j, nth_error row j = cell t i j.
Proof.
  intros [W1 [W2 _]] H. destruct (nth_error (rows t) i) as [row|] eqn:E; [|apply nth_error_None in E; lia].
  exists row. split; auto. split; [apply W2; eapply nth_error_In; eauto|]. intros j. unfold cell. rewrite E. reflexivity.
Qed.
Lemma append_column (t r : table pval) s : wf t -> wf r -> alen (tp r) = alen (tp t) -> getNames (tp r) = getNames (tp t) ->
  alen (tf r) = 1 -> getNames (tf r) = [Some s] -> ~ In (Some s) (getNames (tf t)) ->
  exists t', insertTable Fts t None r = Ok t' /\ wf t' /\ tp t' = tp t /\ getNames (tf t') = getNames (tf t) ++ [Some s] /\
    forall i row, nth_error (rows t) i = Some row -> exists v, cell r i 0 = Some v /\ nth_error (rows t') i = Some (row ++ [v]).
Proof.
  intros W Wr L N L1 N1 HS.
  destruct (insert_accept pval Fts t r W Wr) as [t' [E [W' [O I]]]]; [auto|cbn; auto| |].
  { intros s' i j Hi Hj. cbn [ax] in Hi, Hj. rewrite N1 in Hj. destruct j as [|[|j]]; cbn in Hj; try discriminate. injection Hj as <-. apply HS. eapply nth_error_In; eauto. }
  exists t'. split; auto. split; auto. cbn in O. split; auto.
  destruct (items_parts t Fts W) as [A1 A2]. destruct (items_parts r Fts Wr) as [B1 B2]. destruct (items_parts t' Fts W') as [C1 C2].
  assert (GN : getNames (tf t') = getNames (tf t) ++ [Some s]).
  { cbn [ax] in *. rewrite <- C1, I, map_app, A1, B1, N1. reflexivity. }
  assert (GV : vectors Fts t' = vectors Fts t ++ vectors Fts r) by (rewrite <- C2, I, map_app, A2, B2; reflexivity).
  split; auto. intros i row Hrow.
  assert (Hi : i < alen (tp t)) by (destruct W as [W1 _]; rewrite <- W1; eapply nth_error_lt; eauto).
  destruct (cell_some r i 0 Wr) as [v [Cv _]]; [lia|lia|]. exists v. split; auto.
  destruct (rows_at t i W Hi) as [row0 [Hr0 [Lr Cr]]]. rewrite Hrow in Hr0. injection Hr0 as <-.
  destruct (rows_at t' i W') as [row' [Hr' [Lr' Cr']]]; [rewrite O; auto|]. rewrite Hr'. f_equal.
  assert (LT : alen (tf t') = S (alen (tf t))).
  { rewrite <- (getNames_length (tf t')) by (destruct W' as [_ [_ [_ ?]]]; auto). rewrite GN, app_length, (getNames_length (tf t)) by (destruct W as [_ [_ [_ ?]]]; auto). cbn; lia. }
  assert (LV : List.length (vectors Fts t) = alen (tf t)) by (rewrite vectors_length by auto; reflexivity).
  assert (LVr : List.length (vectors Fts r) = 1) by (rewrite vectors_length by auto; exact L1).
  apply nth_error_ext. intros j. destruct (lt_eq_lt_dec j (alen (tf t))) as [[Hj|Hj]|Hj].
  - rewrite nth_error_app1 by lia. rewrite Cr, Cr'.
    destruct (nth_error (vectors Fts t) j) as [c|] eqn:Ec; [|apply nth_error_None in Ec; lia].
    assert (Ec' : nth_error (vectors Fts t') j = Some c) by (rewrite GV, nth_error_app1; auto; lia).
    rewrite <- (vectors_cell pval Fts t j c i W Ec), <- (vectors_cell pval Fts t' j c i W' Ec'). reflexivity.
  - subst j. rewrite nth_error_app2 by lia. rewrite Lr, Nat.sub_diag, Cr'. cbn [nth_error].
    destruct (nth_error (vectors Fts r) 0) as [c|] eqn:Ec; [|apply nth_error_None in Ec; lia].
    assert (Ec' : nth_error (vectors Fts t') (alen (tf t)) = Some c) by (rewrite GV, nth_error_app2; rewrite LV; [rewrite Nat.sub_diag; auto|lia]).
    rewrite <- Cv, <- (vectors_cell pval Fts r 0 c i Wr Ec), <- (vectors_cell pval Fts t' _ c i W' Ec'). reflexivity.
  - rewrite (proj2 (nth_error_None row' j)) by lia. symmetry. apply nth_error_None. rewrite app_length; cbn; lia.
Qed.

Section Collect.
Variable strLabel : pval -> string.
Variable test : table pval.
Variable n : nat.
Variable pn : list (option string).
Lemma collectOva_acc ls : forall (t : table pval) rs, wf t -> alen (tp t) = n -> getNames (tp t) = pn ->
  Forall2 (fun (p : pval * applier) r => snd p test = Ok r /\ OneColumn n pn r) ls rs ->
  NoDup (map (fun p => strLabel (fst p)) ls) ->
  (forall s, In (Some s) (getNames (tf t)) -> ~ In s (map (fun p => strLabel (fst p)) ls)) ->
  exists t', collectOva strLabel (Some t) ls test = Ok t' /\ wf t' /\ alen (tp t') = n /\ getNames (tp t') = pn /\
    getNames (tf t') = getNames (tf t) ++ map (fun p => Some (strLabel (fst p))) ls /\
    forall i row, nth_error (rows t) i = Some row -> exists row', AnswersFor rs i row' /\ nth_error (rows t') i = Some (row ++ row').
Proof.
  induction ls as [|[l m] ls IH]; intros t rs W L N F ND HD.
  - inversion F; subst rs. exists t. cbn. split; auto. split; auto. split; auto. split; auto. rewrite app_nil_r. split; auto.
    intros i row H. exists []. rewrite app_nil_r. split; auto. constructor.
  - inversion F as [|? r ? rs' [E [Wr [Lr [L1 Nr]]]] F']; subst rs. cbn [snd] in E. cbn [collectOva]. rewrite E; cbn [rbind].
    destruct (nameFirst_spec r (strLabel l) Wr L1) as [r' [E' [W' [T' [R' [L' N']]]]]]. rewrite E'; cbn [rbind].
    cbn [map fst] in ND, HD. apply NoDup_cons_iff in ND; destruct ND as [ND1 ND2].
    destruct (append_column t r' (strLabel l) W W') as [t1 [E1 [W1 [T1 [N1 C1]]]]]; auto; try (rewrite T'; congruence).
    { intros C. apply (HD _ C). left; auto. }
    rewrite E1; cbn [rbind].
    destruct (IH t1 rs') as [t2 [E2 [W2 [L2 [P2 [N2 C2]]]]]]; auto; try congruence.
    { intros s Hs C. rewrite N1 in Hs. apply in_app_or in Hs. destruct Hs as [Hs|[Hs|[]]]; [apply (HD s Hs); right; auto|]. injection Hs as <-. auto. }
    exists t2. split; auto. split; auto. split; auto. split; auto. split; [rewrite N2, N1, <- app_assoc; reflexivity|].
    intros i row Hr. destruct (C1 i row Hr) as [v [Cv Hv]]. destruct (C2 i _ Hv) as [row' [A B]]. exists (v :: row').
    split; [constructor; auto; unfold cell in *; rewrite <- R'; auto|]. rewrite B, <- app_assoc. reflexivity.
Qed.
Lemma one_column_row (r : table pval) i : OneColumn n pn r -> i < n -> exists v, cell r i 0 = Some v /\ nth_error (rows r) i = Some [v].
Proof.
  intros [W [L [L1 N]]] Hi. destruct (rows_at r i W) as [row [E [LL C]]]; [lia|]. rewrite L1 in LL. destruct row as [|v [|? ?]]; try discriminate.
  exists v. rewrite <- C. auto.
Qed.
Lemma collectOva_spec ls rs : ls <> [] -> Forall2 (fun (p : pval * applier) r => snd p test = Ok r /\ OneColumn n pn r) ls rs ->
  NoDup (map (fun p => strLabel (fst p)) ls) ->
  exists t', collectOva strLabel None ls test = Ok t' /\ wf t' /\ alen (tp t') = n /\ getNames (tp t') = pn /\
    getNames (tf t') = map (fun p => Some (strLabel (fst p))) ls /\
    forall i, i < n -> exists row, AnswersFor rs i row /\ nth_error (rows t') i = Some row.
Proof.
  intros HL F ND. destruct ls as [|[l m] ls]; [congruence|]. inversion F as [|? r ? rs' [E O] F']; subst rs. cbn [snd] in E. cbn [collectOva]. rewrite E; cbn [rbind].
  pose proof O as [Wr [Lr [L1 Nr]]].
  destruct (nameFirst_spec r (strLabel l) Wr L1) as [r' [E' [W' [T' [R' [L' N']]]]]]. rewrite E'; cbn [rbind].
  cbn [map fst] in ND. apply NoDup_cons_iff in ND; destruct ND as [ND1 ND2].
  destruct (collectOva_acc ls r' rs') as [t2 [E2 [W2 [L2 [P2 [N2 C2]]]]]]; auto; try (rewrite T'; auto).
  { intros s Hs C. rewrite N' in Hs. destruct Hs as [Hs|[]]. injection Hs as <-. auto. }
  exists t2. split; auto. split; auto. split; [exact L2|]. split; auto. split; [rewrite N2, N'; reflexivity|].
  intros i Hi. destruct (one_column_row r i O Hi) as [v [Cv Hv]]. rewrite <- R' in Hv. destruct (C2 i _ Hv) as [row' [A B]]. exists (v :: row').
  split; [constructor; auto|]. exact B.
Qed.
Variable predictionName : nat -> string.
Lemma collectOvo_acc ls : forall k (t : table pval) rs, wf t -> alen (tp t) = n -> getNames (tp t) = pn ->
  Forall2 (fun (m : applier) r => m test = Ok r /\ OneColumn n pn r) ls rs ->
  (forall a b, predictionName a = predictionName b -> a = b) ->
  (forall s, In (Some s) (getNames (tf t)) -> forall j, k <= j -> s <> predictionName j) ->
  exists t', collectOvo predictionName k (Some t) ls test = Ok t' /\ wf t' /\ alen (tp t') = n /\ tp t' = tp t /\
    forall i row, nth_error (rows t) i = Some row -> exists row', AnswersFor rs i row' /\ nth_error (rows t') i = Some (row ++ row').
Proof.
  induction ls as [|m ls IH]; intros k t rs W L N F INJ HD.
  - inversion F; subst rs. exists t. cbn. split; auto. split; auto. split; auto. split; auto.
    intros i row H. exists []. rewrite app_nil_r. split; auto. constructor.
  - inversion F as [|? r ? rs' [E [Wr [Lr [L1 Nr]]]] F']; subst rs. cbn [collectOvo]. rewrite E; cbn [rbind].
    destruct (nameFirst_spec r (predictionName k) Wr L1) as [r' [E' [W' [T' [R' [L' N']]]]]]. rewrite E'; cbn [rbind].
    destruct (append_column t r' (predictionName k) W W') as [t1 [E1 [W1 [T1 [N1 C1]]]]]; auto; try (rewrite T'; congruence).
    { intros C. apply (HD _ C k); auto. }
    rewrite E1; cbn [rbind].
    destruct (IH (S k) t1 rs') as [t2 [E2 [W2 [L2 [P2 C2]]]]]; auto; try congruence.
    { intros s Hs j Hj. rewrite N1 in Hs. apply in_app_or in Hs. destruct Hs as [Hs|[Hs|[]]]; [apply (HD s Hs); lia|]. injection Hs as <-. intros C. apply INJ in C. lia. }
    exists t2. split; auto. split; auto. split; auto. split; [congruence|].
    intros i row Hr. destruct (C1 i row Hr) as [v [Cv Hv]]. destruct (C2 i _ Hv) as [row' [A B]]. exists (v :: row').
    split; [constructor; auto; unfold cell in *; rewrite <- R'; auto|]. rewrite B, <- app_assoc. reflexivity.
Qed.
Lemma collectOvo_spec ls rs : ls <> [] -> Forall2 (fun (m : applier) r => m test = Ok r /\ OneColumn n pn r) ls rs ->
  (forall a b, predictionName a = predictionName b -> a = b) ->
  (forall r s j, In r rs -> In (Some s) (getNames (tf r)) -> s <> predictionName (S j)) ->
  exists t', collectOvo predictionName 0 None ls test = Ok t' /\ wf t' /\ alen (tp t') = n /\ getNames (tp t') = pn /\
    forall i, i < n -> exists row, AnswersFor rs i row /\ nth_error (rows t') i = Some row.
Proof.
  intros HL F INJ HD. destruct ls as [|m ls]; [congruence|]. inversion F as [|? r ? rs' [E O] F']; subst rs. cbn [collectOvo]. rewrite E; cbn [rbind].
  pose proof O as [Wr [Lr [L1 Nr]]].
  destruct (collectOvo_acc ls 1 r rs') as [t2 [E2 [W2 [L2 [P2 C2]]]]]; auto.
  { intros s Hs [|j] Hj; [lia|]. eapply HD; eauto. left; auto. }
  exists t2. split; auto. split; auto. split; [exact L2|]. split; [congruence|].
  intros i Hi. destruct (one_column_row r i O Hi) as [v [Cv Hv]]. destruct (C2 i _ Hv) as [row' [A B]]. exists (v :: row').
  split; [constructor; auto|]. exact B.
Qed.
End Collect.

(** ** Results *)
Section Results.
Variable strLabel : pval -> string.
Variable sleb : string -> string -> bool.
Variable norm : pval -> pval.
Lemma newData_spec (m : list (list pval)) names : NoDup names -> (forall r, In r m -> List.length r = List.length names) ->
  exists r, newData norm m names = Ok r /\ wf r /\ tp r = fresh (List.length m) /\ getNames (tf r) = map Some names /\ rows r = map (map norm) m.
Proof.
  intros ND HL. destruct (initAxis_ok (List.length names) (map Some names)) as [a [E [LA [IA NA]]]]; [apply map_length| |].
  { intros i j s Hi Hj. rewrite nth_error_map in Hi, Hj.
    destruct (nth_error names i) as [x|] eqn:Ei; [|discriminate]. destruct (nth_error names j) as [y|] eqn:Ej; [|discriminate]. cbn in Hi, Hj.
    assert (x = y) by congruence. subst y. apply (proj1 (NoDup_nth_error names) ND); [eapply nth_error_lt; eauto|congruence]. }
  unfold newData. rewrite E; cbn [rbind]. eexists. split; [reflexivity|]. split; [|auto].
  unfold wf; cbn. split; [rewrite map_length; auto|]. split; [|auto]. intros r Hr. apply in_map_iff in Hr. destruct Hr as [x [<- Hx]]. rewrite map_length, LA. auto.
Qed.
Lemma newData_rows (rs m : list (list pval)) names (P : list pval -> list pval -> Prop) : NoDup names -> Forall2 P rs m ->
  (forall x y, P x y -> List.length y = List.length names) ->
  exists r, newData norm m names = Ok r /\ NewTable r (List.length rs) names (fun i row => exists x y, nth_error rs i = Some x /\ P x y /\ row = map norm y).
Proof.
  intros ND F HL. destruct (newData_spec m names ND) as [r [E [W [T [N R]]]]].
  { intros y Hy. clear -F HL Hy. induction F as [|x z l l' Hp F IH]; [destruct Hy|]. destruct Hy as [<-|Hy]; eauto. }
  exists r. split; auto. split; auto. split; [rewrite T; f_equal; symmetry; eapply F2_len; eauto|]. split; auto.
  intros i row Hrow. rewrite R, nth_error_map in Hrow. destruct (nth_error m i) as [y|] eqn:Ey; [|discriminate]. cbn in Hrow. injection Hrow as <-.
  revert i Ey. clear -F. induction F as [|x z l l' Hp F IH]; intros [|i] Ey; cbn in Ey; try discriminate.
  - injection Ey as <-. exists x, z. auto.
  - apply IH; auto.
Qed.
Lemma AnswersFor_numbers rs i row : AnswersFor rs i row -> (forall r, In r rs -> NumberCells r) -> allNumbers row.
Proof.
  intros F H. induction F as [|r v rs row Hv F IH]; intros w Hw; [destruct Hw|]. destruct Hw as [<-|Hw]; [apply (H r (or_introl eq_refl) i 0); auto|].
  apply IH; auto. intros; apply H; right; auto.
Qed.
Variable test : table pval.
Variable n : nat.
Variable pn : list (option string).
Variable ls : list (pval * applier).
Variable rs : list (table pval).
Hypothesis HL : ls <> [].
Hypothesis HF : Forall2 (fun (p : pval * applier) r => snd p test = Ok r /\ OneColumn n pn r) ls rs.
Hypothesis HD : NoDup (map (fun p => strLabel (fst p)) ls).
Hypothesis HN : forall r, In r rs -> NumberCells r.
Lemma answers_length i row : AnswersFor rs i row -> List.length row = List.length ls.
Proof. intros A. rewrite <- (F2_len _ _ _ A), <- (F2_len _ _ _ HF). reflexivity. Qed.
Lemma raw_rows (raw : table pval) : wf raw -> alen (tp raw) = n ->
  (forall i, i < n -> exists row, AnswersFor rs i row /\ nth_error (rows raw) i = Some row) ->
  forall i row, nth_error (rows raw) i = Some row -> AnswersFor rs i row.
Proof.
  intros [W _] L H i row Hr. destruct (H i) as [row' [A B]]; [rewrite <- L, <- W; eapply nth_error_lt; eauto|]. congruence.
Qed.
Lemma in_raw (raw : table pval) : wf raw -> alen (tp raw) = n ->
  (forall i, i < n -> exists row, AnswersFor rs i row /\ nth_error (rows raw) i = Some row) ->
  forall row, In row (rows raw) -> allNumbers row /\ List.length row = List.length ls /\ row <> [].
Proof.
  intros W L H row Hr. apply In_nth_error in Hr. destruct Hr as [i Hi]. pose proof (raw_rows raw W L H i row Hi) as A.
  pose proof (answers_length i row A) as LL. split; [eapply AnswersFor_numbers; eauto|]. split; auto.
  intros ->. destruct ls; [congruence|discriminate].
Qed.
Lemma ovaPredict_spec : exists r, ovaApply strLabel sleb norm ls test None = Ok r /\
  NewTable r n ["winningLabel"] (fun i row => exists answers k l, AnswersFor rs i answers /\ FirstBest answers k /\
    nth_error (map fst ls) k = Some l /\ row = [norm l]).
Proof.
  destruct (collectOva_spec strLabel test n pn ls rs HL HF HD) as [raw [E [W [L [_ [_ R]]]]]]. unfold ovaApply. rewrite E; cbn [rbind]. unfold ovaPredict.
  destruct (rmapM_F2 winnerIndex (fun row o => exists k, o = Some k /\ FirstBest row k) (rows raw)) as [idx [E1 F1]].
  { intros row Hr. destruct (in_raw raw W L R row Hr) as [A [B C]]. destruct (winnerIndex_spec row C A) as [k [Ek Fk]]. exists (Some k). split; auto. eauto. }
  rewrite E1; cbn [rbind].
  set (g := fun o : option nat => match o with None => Err TypeErr | Some i => match nth_error (map fst ls) i with Some l => Ok [l] | None => Err IndexErr end end).
  assert (Q : exists ys, rmapM g idx = Ok ys /\ Forall2 (fun row y => exists k l, FirstBest row k /\ nth_error (map fst ls) k = Some l /\ y = [l]) (rows raw) ys).
  { assert (B : forall row, In row (rows raw) -> List.length row = List.length ls) by (intros row Hr; apply (in_raw raw W L R row Hr)).
    clear -F1 B. induction F1 as [|row o l l' [k [-> Fk]] F IH]; [exists []; split; [reflexivity|constructor]|].
    destruct IH as [ys [E' F']]; [intros; apply B; right; auto|]. pose proof (B row (or_introl eq_refl)) as LB.
    destruct (nth_error (map fst ls) k) as [x|] eqn:Ex.
    - exists ([x] :: ys). cbn [rmapM g]. rewrite Ex; cbn [rbind]. rewrite E'; cbn [rbind]. split; [reflexivity|]. constructor; eauto.
    - exfalso. destruct Fk as [v [q [Hv _]]]. apply nth_error_lt in Hv. apply nth_error_None in Ex. rewrite map_length in Ex. lia. }
  destruct Q as [ys [EQ FQ]]. rewrite EQ; cbn [rbind].
  destruct (newData_rows (rows raw) ys ["winningLabel"] _ ltac:(repeat constructor; cbn; intuition discriminate) FQ) as [r [Er [N1 [N2 [N3 N4]]]]].
  { intros x y [k [l [_ [_ ->]]]]. reflexivity. }
  exists r. split; auto. split; auto. split; [rewrite N2; f_equal; destruct W as [W1 _]; lia|]. split; auto.
  intros i row Hr. destruct (N4 i row Hr) as [x [y [Hx [[k [l [P1 [P2 ->]]]] ->]]]]. exists x, k, l. split; [exact (raw_rows raw W L R i x Hx)|]. auto.
Qed.

Lemma fold_dset_fresh {K V} {E : EqDec K} (l : list (K * V)) : forall d : @dict K V, NoDup (map fst l) -> (forall k, In k (map fst l) -> ~ In k (dkeys d)) ->
  fold_left (fun d p => dset (fst p) (snd p) d) l d = d ++ l.
Proof.
  induction l as [|[k v] l IH]; intros d ND H; cbn [fold_left]; [rewrite app_nil_r; auto|].
  cbn [map fst] in ND, H. apply NoDup_cons_iff in ND. destruct ND as [N1 N2]. cbn [fst snd].
  assert (Ed : dset k v d = d ++ [(k, v)]).
  { assert (Hk : ~ In k (dkeys d)) by (apply H; left; auto). clear -Hk. induction d as [|[a b] d IH]; [reflexivity|]. cbn [dset]. destruct (eq_dec k a) as [->|Hne]; [exfalso; apply Hk; left; auto|]. cbn. f_equal. apply IH. intros C. apply Hk. right; auto. }
  rewrite Ed. rewrite IH; auto.
  - rewrite <- app_assoc. reflexivity.
  - intros x Hx C. unfold dkeys in C. rewrite map_app in C. apply in_app_or in C. destruct C as [C|[C|[]]]; [apply (H x); [right; auto|auto]|]. cbn in C. subst. auto.
Qed.
Lemma confidence_spec names (row : list pval) : row <> [] -> NoDup names -> List.length names = List.length row ->
  confidence names row = Ok (combine names row).
Proof.
  intros H ND L. unfold confidence. destruct row as [|v row]; [congruence|]. rewrite fold_dset_fresh; [reflexivity|rewrite map_fst_combine; auto|intros ? ? []].
Qed.
Lemma names_NoDup : NoDup (map (fun p : pval * applier => Some (strLabel (fst p))) ls).
Proof. rewrite <- (map_map (fun p : pval * applier => strLabel (fst p)) Some). apply FinFun.Injective_map_NoDup; auto. intros a b C; congruence. Qed.
Lemma ovaBest_spec : exists r, ovaApply strLabel sleb norm ls test (Some MBest) = Ok r /\
  NewTable r n ["PredictedClassLabel"; "LabelScore"] (fun i row => exists answers k l score, AnswersFor rs i answers /\ FirstBest answers k /\
    nth_error (map fst ls) k = Some l /\ nth_error answers k = Some score /\ row = [norm (PStr (strLabel l)); norm score]).
Proof.
  destruct (collectOva_spec strLabel test n pn ls rs HL HF HD) as [raw [E [W [L [_ [NM R]]]]]]. unfold ovaApply. rewrite E; cbn [rbind]. unfold ovaBest.
  match goal with |- context [rmapM ?g (rows raw)] => set (f := g) end.
  destruct (rmapM_F2 f (fun row y => exists k l score, FirstBest row k /\ nth_error (map fst ls) k = Some l /\ nth_error row k = Some score /\ y = [PStr (strLabel l); score]) (rows raw)) as [ys [E1 F1]].
  { intros row Hr. destruct (in_raw raw W L R row Hr) as [A [B C]]. unfold f. rewrite NM.
    rewrite confidence_spec; auto using names_NoDup; [|rewrite map_length; auto]. cbn [rbind].
    assert (MS : map snd (combine (map (fun p : pval * applier => Some (strLabel (fst p))) ls) row) = row) by (apply map_snd_combine; rewrite map_length; auto).
    destruct (bestPair_spec (combine (map (fun p : pval * applier => Some (strLabel (fst p))) ls) row) (None, PNegInf)) as [k [x [Ek [Hk Fk]]]].
    { intros Z. rewrite Z in MS. cbn in MS. congruence. }
    { rewrite MS; auto. }
    rewrite Ek; cbn [rbind]. rewrite MS in Fk. rewrite nth_error_combine in Hk. rewrite nth_error_map in Hk.
    destruct (nth_error ls k) as [p|] eqn:Ep; [|discriminate]. cbn [option_map] in Hk. destruct (nth_error row k) as [sc|] eqn:Es; [|discriminate]. injection Hk as <-. cbn.
    eexists. split; [reflexivity|]. exists k, (fst p), sc. split; auto. split; [rewrite nth_error_map, Ep; reflexivity|]. auto. }
  rewrite E1; cbn [rbind].
  destruct (newData_rows (rows raw) ys ["PredictedClassLabel"; "LabelScore"] _ ltac:(repeat constructor; cbn; intuition discriminate) F1) as [r [Er [N1 [N2 [N3 N4]]]]].
  { intros x y [k [l [sc [_ [_ [_ ->]]]]]]. reflexivity. }
  exists r. split; auto. split; auto. split; [rewrite N2; f_equal; destruct W as [W1 _]; lia|]. split; auto.
  intros i row Hr. destruct (N4 i row Hr) as [x [y [Hx [[k [l [sc [P1 [P2 [P3 ->]]]]]] ->]]]]. exists x, k, l, sc. split; [exact (raw_rows raw W L R i x Hx)|]. auto.
Qed.
Lemma ovaAll_spec : exists r headers, ovaApply strLabel sleb norm ls test (Some MAll) = Ok r /\
  headers = stableSort sleb (map (fun p => strLabel (fst p)) ls) /\
  NewTable r n headers (fun i row => exists answers, AnswersFor rs i answers /\
    forall k l score j, nth_error (map fst ls) k = Some l -> nth_error answers k = Some score ->
      nth_error headers j = Some (strLabel l) -> nth_error row j = Some (norm score)).
Proof.
  destruct (collectOva_spec strLabel test n pn ls rs HL HF HD) as [raw [E [W [L [_ [NM R]]]]]]. unfold ovaApply. rewrite E; cbn [rbind]. unfold ovaAll.
  set (hs := stableSort sleb (map (fun p : pval * applier => strLabel (fst p)) ls)).
  assert (PM : Permutation hs (map (fun p : pval * applier => strLabel (fst p)) ls)) by (apply stableSort_perm).
  assert (NDH : NoDup hs) by (eapply Permutation_NoDup; [apply Permutation_sym; exact PM|auto]).
  assert (LH : List.length hs = List.length ls) by (rewrite (Permutation_length PM), map_length; auto).
  match goal with |- context [rmapM ?g (rows raw)] => set (f := g) end.
  destruct (rmapM_F2 f (fun row y => List.length y = List.length hs /\ forall k l score j, nth_error (map fst ls) k = Some l -> nth_error row k = Some score ->
      nth_error hs j = Some (strLabel l) -> nth_error y j = Some score) (rows raw)) as [ys [E1 F1]].
  { intros row Hr. destruct (in_raw raw W L R row Hr) as [A [B C]].
    destruct (placeScores_spec (PInt 0) (map Some hs) (getNames (tf raw)) row) as [y [Ey [Ly Hy]]].
    { apply FinFun.Injective_map_NoDup; auto. intros a b X; congruence. }
    { rewrite NM, <- (map_map (fun p : pval * applier => strLabel (fst p)) Some). apply Permutation_map, Permutation_sym; auto. }
    { rewrite NM, map_length; auto. }
    exists y. split; [unfold f; destruct row; [congruence|exact Ey]|]. split; [rewrite Ly, map_length; auto|].
    intros k l sc j Hk Hs Hj. apply (Hy k j (Some (strLabel l)) sc); auto.
    - rewrite NM. rewrite nth_error_map in Hk |- *. destruct (nth_error ls k); [|discriminate]. cbn in Hk |- *. congruence.
    - rewrite nth_error_map, Hj. reflexivity. }
  rewrite E1; cbn [rbind].
  destruct (newData_rows (rows raw) ys hs _ NDH F1) as [r [Er [N1 [N2 [N3 N4]]]]].
  { intros x y [LY _]. exact LY. }
  exists r, hs. split; auto. split; auto. split; auto. split; [rewrite N2; f_equal; destruct W as [W1 _]; lia|]. split; auto.
  intros i row Hr. destruct (N4 i row Hr) as [x [y [Hx [[LY P] ->]]]]. exists x. split; [exact (raw_rows raw W L R i x Hx)|].
  intros k l sc j Hk Hs Hj. rewrite nth_error_map, (P k l sc j Hk Hs Hj). reflexivity.
Qed.
Lemma ovaOther_spec : ovaApply strLabel sleb norm ls test (Some MOther) = Err InvalidArgumentValue.
Proof. destruct (collectOva_spec strLabel test n pn ls rs HL HF HD) as [raw [E _]]. unfold ovaApply. rewrite E. reflexivity. Qed.
End Results.
