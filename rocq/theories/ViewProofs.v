From Verif Require Import Base NamesModel NamesSpec NamesProofs NamesIndexProofs TableModel TableSpec TableProofs TableOps
  PrepModel PrepSpec PrepProofs SparseModel SparseSpec SparseProofs ViewModel ViewSpec.
Open Scope nat_scope.

(** ** Windows *)
Lemma getIndex_nofloat a id z : Inv a -> getIndex a id false = Ok z <-> Denotes a false id z.
Proof.
  intros H. destruct id as [i|s|q|]; try (apply getIndex_Denotes; simpl; auto; fail).
  split; [|intros [E _]; discriminate]. unfold getIndex. destruct (Z.of_nat (alen a) =? 0)%Z; discriminate.
Qed.
Lemma Denotes_range a id z : Inv a -> Denotes a false id z -> (0 <= z < Z.of_nat (alen a))%Z.
Proof.
  intros H D. destruct id as [i|s|q|].
  - simpl in D. lia.
  - destruct D as [k [-> Hk]]. pose proof (nth_error_lt _ _ Hk). rewrite (getNames_length a H) in *. lia.
  - destruct D as [E _]; discriminate.
  - destruct D.
Qed.
Lemma viewRange_spec a st sp lo hi : Inv a -> (viewRange a st sp = Ok (lo, hi) <-> Window a st sp lo hi).
Proof.
  intros HI. unfold viewRange, Window. split.
  - destruct st as [i|].
    + destruct (getIndex a i false) as [s|] eqn:Es; [|discriminate]. apply getIndex_nofloat in Es; auto.
      pose proof (Denotes_range _ _ _ HI Es) as Rs. cbn [rbind].
      destruct sp as [k|].
      * destruct (getIndex a k false) as [e|] eqn:Ee; [|discriminate]. apply getIndex_nofloat in Ee; auto.
        pose proof (Denotes_range _ _ _ HI Ee) as Re. cbn [rbind].
        destruct (e <? s)%Z eqn:El; [discriminate|]. apply Z.ltb_ge in El. intros [= <- <-].
        rewrite Z2Nat.id by lia. split; [exact Es|]. exists (Z.to_nat e); rewrite Z2Nat.id by lia. split; [exact Ee|lia].
      * intros [= <- <-]. rewrite Z2Nat.id by lia. split; [exact Es|]. reflexivity.
    + cbn [rbind]. destruct sp as [k|].
      * destruct (getIndex a k false) as [e|] eqn:Ee; [|discriminate]. apply getIndex_nofloat in Ee; auto.
        pose proof (Denotes_range _ _ _ HI Ee) as Re. cbn [rbind].
        destruct (e <? 0)%Z eqn:El; [discriminate|]. intros [= <- <-]. split; [reflexivity|].
        exists (Z.to_nat e); rewrite Z2Nat.id by lia. split; [exact Ee|]. change (Z.to_nat 0) with 0. lia.
      * intros [= <- <-]. split; reflexivity.
  - intros [Hs He].
    assert (Es : match st with None => Ok 0%Z | Some i => getIndex a i false end = Ok (Z.of_nat lo)).
    { destruct st; [apply getIndex_nofloat; auto|subst; reflexivity]. }
    rewrite Es. cbn [rbind]. destruct sp as [k|].
    + destruct He as [e [De [Hle ->]]]. apply getIndex_nofloat in De; auto. rewrite De. cbn [rbind].
      destruct (Z.of_nat e <? Z.of_nat lo)%Z eqn:El; [apply Z.ltb_lt in El; lia|]. rewrite !Nat2Z.id. reflexivity.
    + subst hi. rewrite Nat2Z.id. reflexivity.
Qed.
Lemma Window_bounds a st sp lo hi : Inv a -> Window a st sp lo hi -> lo <= hi /\ hi <= alen a /\ (alen a <> 0 -> lo < hi).
Proof.
  intros HI [Hs He].
  assert (Hlo : lo <= alen a /\ (alen a <> 0 -> lo < alen a)).
  { destruct st as [i|]; [pose proof (Denotes_range _ _ _ HI Hs)|]; lia. }
  destruct sp as [k|]; [|lia]. destruct He as [e [De [Hle ->]]]. pose proof (Denotes_range _ _ _ HI De). lia.
Qed.

(** slices are selections *)
Lemma slice_length {A} (l : list A) lo hi : lo <= hi -> hi <= List.length l -> List.length (slice l lo hi) = hi - lo.
Proof. intros H1 H2. unfold slice. rewrite firstn_length, skipn_length. lia. Qed.
Lemma span_range lo hi i : In i (span lo hi) <-> lo <= i < hi.
Proof. unfold span. rewrite in_seq. lia. Qed.
Lemma span_NoDup lo hi : NoDup (span lo hi).
Proof. apply seq_NoDup. Qed.
Lemma span_nth lo hi k : nth_error (span lo hi) k = if k <? hi - lo then Some (lo + k) else None.
Proof. apply nth_error_seq. Qed.
Lemma slice_selected {A} (l : list A) lo hi : hi <= List.length l -> slice l lo hi = selected (span lo hi) l.
Proof.
  intros H. apply nth_error_ext. intros k. rewrite slice_nth.
  rewrite selected_nth by (intros i Hi; apply span_range in Hi; lia). rewrite span_nth.
  destruct (k <? hi - lo); reflexivity.
Qed.

Lemma windowAxis_ok a lo hi : Inv a -> lo <= hi -> hi <= alen a ->
  exists a', windowAxis a lo hi = Ok a' /\ alen a' = hi - lo /\ Inv a' /\
    getNames a' = selected (span lo hi) (getNames a).
Proof.
  intros HI H1 H2. unfold windowAxis.
  assert (HB : forall i, In i (span lo hi) -> i < List.length (getNames a)).
  { intros i Hi. apply span_range in Hi. rewrite (getNames_length a HI). lia. }
  destruct (astate a) as [[d inv]|] eqn:Ea.
  - assert (Hinv : inv = getNames a).
    { unfold getNames. rewrite names_inv_ensure. unfold names_inv. rewrite Ea. reflexivity. }
    rewrite Hinv, slice_selected by (rewrite (getNames_length a HI); lia).
    destruct (initAxis_ok (hi - lo) (selected (span lo hi) (getNames a))) as [a' [E [L [I G]]]].
    + rewrite selected_length by exact HB. unfold span. apply seq_length.
    + apply selected_distinct; [apply span_NoDup|exact HB|].
      destruct (Inv_facts a HI) as [_ [_ F]]. intros i j s Hi Hj.
      unfold getNames in Hi, Hj. rewrite names_inv_ensure in Hi, Hj. apply F in Hi. apply F in Hj. congruence.
    + exists a'. split; [exact E|]. split; [exact L|]. split; [exact I|exact G].
  - rewrite initAxis_None. exists (mkAxis (hi - lo) None). split; [reflexivity|]. split; [reflexivity|].
    split; [exact I|]. rewrite getNames_fresh. unfold getNames. rewrite names_inv_ensure. unfold names_inv. rewrite Ea.
    rewrite selected_repeat; [unfold span; rewrite seq_length; reflexivity|].
    intros i Hi. apply span_range in Hi. lia.
Qed.

Section P.
Variable V : Type.
Implicit Types t : table V.

Lemma viewOf_spec t ps pe fs fe v : wf t -> viewOf t ps pe fs fe = Ok v ->
  Window (tp t) ps pe (vps v) (vpe v) /\ Window (tf t) fs fe (vfs v) (vfe v) /\
  windowAxis (tp t) (vps v) (vpe v) = Ok (vpa v) /\ windowAxis (tf t) (vfs v) (vfe v) = Ok (vfa v).
Proof.
  intros W. pose proof (wf_Inv V Pts t W) as IP. pose proof (wf_Inv V Fts t W) as IF. simpl in IP, IF.
  unfold viewOf. destruct (viewRange (tp t) ps pe) as [[p p']|] eqn:EP; [|discriminate].
  destruct (viewRange (tf t) fs fe) as [[f f']|] eqn:EF; [|discriminate]. cbn [rbind fst snd].
  apply viewRange_spec in EP; auto. apply viewRange_spec in EF; auto.
  destruct (windowAxis (tp t) p p') as [pa|] eqn:EA; [|discriminate]. cbn [rbind].
  destruct (windowAxis (tf t) f f') as [fa|] eqn:EB; [|discriminate]. cbn [rbind].
  intros [= <-]. simpl. auto.
Qed.
Lemma viewOf_ok t ps pe fs fe p p' f f' : wf t ->
  Window (tp t) ps pe p p' -> Window (tf t) fs fe f f' ->
  exists v, viewOf t ps pe fs fe = Ok v /\ vps v = p /\ vpe v = p' /\ vfs v = f /\ vfe v = f'.
Proof.
  intros W HP HF. pose proof (wf_Inv V Pts t W) as IP. pose proof (wf_Inv V Fts t W) as IF. simpl in IP, IF.
  unfold viewOf. destruct (Window_bounds _ _ _ _ _ IP HP) as [P1 [P2 _]]. destruct (Window_bounds _ _ _ _ _ IF HF) as [F1 [F2 _]].
  apply viewRange_spec in HP; auto. apply viewRange_spec in HF; auto. rewrite HP, HF. cbn [rbind fst snd].
  destruct (windowAxis_ok (tp t) p p' IP P1 P2) as [pa [-> _]]. destruct (windowAxis_ok (tf t) f f' IF F1 F2) as [fa [-> _]].
  cbn [rbind]. eexists. split; [reflexivity|]. simpl. auto.
Qed.

(** a view built from its own window *)
Definition viewOK t v : Prop :=
  vps v <= vpe v /\ vpe v <= alen (tp t) /\ vfs v <= vfe v /\ vfe v <= alen (tf t) /\
  (alen (tp t) <> 0 -> vps v < vpe v) /\ (alen (tf t) <> 0 -> vfs v < vfe v) /\
  windowAxis (tp t) (vps v) (vpe v) = Ok (vpa v) /\ windowAxis (tf t) (vfs v) (vfe v) = Ok (vfa v).
Lemma viewOf_viewOK t ps pe fs fe v : wf t -> viewOf t ps pe fs fe = Ok v -> viewOK t v.
Proof.
  intros W E. destruct (viewOf_spec _ _ _ _ _ _ W E) as [HP [HF [AP AF]]].
  destruct (Window_bounds _ _ _ _ _ (wf_Inv V Pts t W) HP) as [P1 [P2 P3]].
  destruct (Window_bounds _ _ _ _ _ (wf_Inv V Fts t W) HF) as [F1 [F2 F3]]. simpl in *.
  unfold viewOK. repeat split; auto.
Qed.
Lemma viewObj_sub t v : wf t -> viewOK t v ->
  subTable t (span (vps v) (vpe v)) (span (vfs v) (vfe v)) (viewObj t v).
Proof.
  intros W [P1 [P2 [F1 [F2 [_ [_ [AP AF]]]]]]].
  destruct (windowAxis_ok (tp t) _ _ (wf_Inv V Pts t W) P1 P2) as [pa [EP [LP [IP GP]]]]. rewrite AP in EP. injection EP as <-.
  destruct (windowAxis_ok (tf t) _ _ (wf_Inv V Fts t W) F1 F2) as [fa [EF [LF [IF GF]]]]. rewrite AF in EF. injection EF as <-.
  destruct W as [WL [WR [WP WF]]].
  assert (HL : List.length (slice (rows t) (vps v) (vpe v)) = vpe v - vps v) by (apply slice_length; lia).
  assert (HC : forall i j, cell (viewObj t v) i j =
    match nth_error (span (vps v) (vpe v)) i, nth_error (span (vfs v) (vfe v)) j with Some a, Some b => cell t a b | _, _ => None end).
  { intros i j. unfold cell, viewObj. cbn [rows]. rewrite nth_error_map_eq, slice_nth, !span_nth.
    destruct (i <? vpe v - vps v); [|reflexivity]. destruct (nth_error (rows t) (vps v + i)) as [r|] eqn:Er; cbn [option_map].
    - rewrite slice_nth. destruct (j <? vfe v - vfs v); reflexivity.
    - destruct (j <? vfe v - vfs v); reflexivity. }
  assert (HW : wf (viewObj t v)).
  { split; [|split; [|split]]; cbn [viewObj rows tp tf].
    - rewrite map_length. lia.
    - intros r Hr. apply in_map_iff in Hr. destruct Hr as [r0 [<- H0]]. unfold slice in H0. apply In_firstn, In_skipn in H0.
      rewrite slice_length; [lia|lia|]. rewrite (WR _ H0). lia.
    - exact IP.
    - exact IF. }
  split; [exact HW|]. cbn [viewObj tp tf]. unfold span at 1 2. rewrite !seq_length.
  split; [exact LP|]. split; [exact LF|]. split; [exact GP|]. split; [exact GF|]. exact HC.
Qed.

Lemma viewGet_cell t v x y : wf t -> viewOK t v ->
  viewGet t v x y =
  if (0 <=? x)%Z && (0 <=? y)%Z then
    match cell (viewObj t v) (Z.to_nat x) (Z.to_nat y) with Some c => Ok c | None => Err IndexErr end
  else Err IndexErr.
Proof.
  intros W OK. destruct (viewObj_sub t v W OK) as [_ [_ [_ [_ [_ HC]]]]]. rewrite HC, !span_nth. unfold viewGet.
  destruct (x <? 0)%Z eqn:X0; [apply Z.ltb_lt in X0; destruct (0 <=? x)%Z eqn:E; [apply Z.leb_le in E; lia|reflexivity]|].
  apply Z.ltb_ge in X0. assert (E : (0 <=? x)%Z = true) by (apply Z.leb_le; lia). rewrite E. cbn [andb orb].
  destruct (Z.of_nat (vpe v - vps v) <=? x)%Z eqn:X1.
  { apply Z.leb_le in X1. assert (E2 : Z.to_nat x <? vpe v - vps v = false) by (apply Nat.ltb_ge; lia). rewrite E2.
    destruct (0 <=? y)%Z; reflexivity. }
  apply Z.leb_gt in X1. assert (E2 : Z.to_nat x <? vpe v - vps v = true) by (apply Nat.ltb_lt; lia). rewrite E2.
  destruct (y <? 0)%Z eqn:Y0; [apply Z.ltb_lt in Y0; destruct (0 <=? y)%Z eqn:E3; [apply Z.leb_le in E3; lia|reflexivity]|].
  apply Z.ltb_ge in Y0. assert (E3 : (0 <=? y)%Z = true) by (apply Z.leb_le; lia). rewrite E3. cbn [orb].
  destruct (Z.of_nat (vfe v - vfs v) <=? y)%Z eqn:Y1.
  { apply Z.leb_le in Y1. assert (E4 : Z.to_nat y <? vfe v - vfs v = false) by (apply Nat.ltb_ge; lia). rewrite E4. reflexivity. }
  apply Z.leb_gt in Y1. assert (E4 : Z.to_nat y <? vfe v - vfs v = true) by (apply Nat.ltb_lt; lia). rewrite E4.
  unfold cell. rewrite (Nat.add_comm (Z.to_nat x)), (Nat.add_comm (Z.to_nat y)).
  destruct (nth_error (rows t) (vps v + Z.to_nat x)); reflexivity.
Qed.

(** ** Views of views *)
Lemma adj_window a lo hi st sp st' sp' : Inv a -> lo <= hi -> hi <= alen a -> (alen a <> 0 -> lo < hi) ->
  Inside (hi - lo) st -> Inside (hi - lo) sp ->
  adjStart a lo st = Ok st' -> adjStop a lo hi sp = Ok sp' ->
  forall b x y, alen b = hi - lo -> Window b st sp x y -> Window a st' sp' (lo + x) (lo + y).
Proof.
  intros HI H1 H2 H3 IS IP ES EP b x y Hb [WS WP].
  destruct (Nat.eq_dec (alen a) 0) as [Z0|Z0].
  - assert (Hn : hi - lo = 0) by lia.
    destruct st as [i|]; [destruct i; simpl in IS; lia|]. destruct sp as [i|]; [destruct i; simpl in IP; lia|].
    unfold adjStart, adjStop in *. rewrite Z0 in ES, EP. simpl in ES, EP. injection ES as <-. injection EP as <-.
    subst. split; lia.
  - assert (Hlt : lo < hi) by auto. assert (Hz : (alen a =? 0) = false) by (apply Nat.eqb_neq; auto).
    assert (DS : match st' with Some i => Denotes a false i (Z.of_nat (lo + x)) | None => False end).
    { unfold adjStart in ES. rewrite Hz in ES. destruct st as [i|].
      - destruct i as [z| | |]; simpl in IS; try tauto. simpl in WS.
        destruct (getIndex a (IdInt z) false) as [z'|] eqn:E; [|discriminate]. cbn [rbind] in ES. injection ES as <-.
        apply getIndex_nofloat in E; auto. simpl in E |- *. lia.
      - injection ES as <-. simpl. subst x. lia. }
    assert (DP : match sp' with Some i => Denotes a false i (Z.of_nat (lo + y - 1)) | None => False end /\ x < y).
    { unfold adjStop in EP. rewrite Hz in EP. destruct sp as [i|].
      - destruct i as [z| | |]; simpl in IP; try tauto. destruct WP as [e [De [Hle ->]]]. simpl in De.
        destruct (getIndex a (IdInt z) false) as [z'|] eqn:E; [|discriminate]. cbn [rbind] in EP. injection EP as <-.
        apply getIndex_nofloat in E; auto. simpl in E |- *. split; [lia|lia].
      - injection EP as <-. simpl. subst y. split; [lia|]. destruct st as [i|]; [|lia]. destruct i; simpl in IS; try tauto. simpl in WS. lia. }
    destruct DP as [DP Hxy]. destruct st' as [i|]; [|tauto]. destruct sp' as [k|]; [|tauto].
    split; [exact DS|]. exists (lo + y - 1). split; [exact DP|]. lia.
Qed.
Lemma adjStart_ok a lo n st : Inv a -> n <= alen a -> Inside n st -> exists st', adjStart a lo st = Ok st'.
Proof.
  intros HI Hn IS. unfold adjStart. destruct st as [i|]; [|eauto]. destruct i as [z| | |]; simpl in IS; try tauto.
  assert (E : getIndex a (IdInt z) false = Ok z) by (apply getIndex_nofloat; auto; simpl; lia). rewrite E. simpl. eauto.
Qed.
Lemma adjStop_ok a lo hi n st : Inv a -> n <= alen a -> Inside n st -> exists st', adjStop a lo hi st = Ok st'.
Proof.
  intros HI Hn IS. unfold adjStop. destruct st as [i|]; [|eauto]. destruct i as [z| | |]; simpl in IS; try tauto.
  assert (E : getIndex a (IdInt z) false = Ok z) by (apply getIndex_nofloat; auto; simpl; lia). rewrite E. simpl. eauto.
Qed.

Lemma span_span lo hi x y : y <= hi - lo -> selected (span x y) (span lo hi) = span (lo + x) (lo + y).
Proof.
  intros H. apply nth_error_ext. intros k.
  rewrite selected_nth by (intros i Hi; apply span_range in Hi; unfold span; rewrite seq_length; lia).
  rewrite !span_nth. replace (lo + y - (lo + x)) with (y - x) by lia.
  destruct (k <? y - x) eqn:E; [|reflexivity]. apply Nat.ltb_lt in E. rewrite span_nth.
  assert (E2 : x + k <? hi - lo = true) by (apply Nat.ltb_lt; lia). rewrite E2. f_equal. lia.
Qed.
Lemma viewObj_axes t v : viewOK t v -> wf t -> alen (vpa v) = vpe v - vps v /\ alen (vfa v) = vfe v - vfs v /\ Inv (vpa v) /\ Inv (vfa v).
Proof.
  intros [P1 [P2 [F1 [F2 [_ [_ [AP AF]]]]]]] W.
  destruct (windowAxis_ok (tp t) _ _ (wf_Inv V Pts t W) P1 P2) as [pa [EP [LP [IP GP]]]]. rewrite AP in EP. injection EP as <-.
  destruct (windowAxis_ok (tf t) _ _ (wf_Inv V Fts t W) F1 F2) as [fa [EF [LF [IF GF]]]]. rewrite AF in EF. injection EF as <-.
  auto.
Qed.

Lemma viewOfView_windows t v ps pe fs fe x x' y y' : wf t -> viewOK t v ->
  Inside (vpe v - vps v) ps -> Inside (vpe v - vps v) pe -> Inside (vfe v - vfs v) fs -> Inside (vfe v - vfs v) fe ->
  Window (vpa v) ps pe x x' -> Window (vfa v) fs fe y y' ->
  exists w, viewOfView t v ps pe fs fe = Ok w /\ viewOK t w /\
    vps w = vps v + x /\ vpe w = vps v + x' /\ vfs w = vfs v + y /\ vfe w = vfs v + y'.
Proof.
  intros W OK I1 I2 I3 I4 WP WF. pose proof OK as [P1 [P2 [F1 [F2 [P3 [F3 [AP AF]]]]]]].
  destruct (viewObj_axes t v OK W) as [LP [LF [IP IF]]].
  pose proof (wf_Inv V Pts t W) as IPt. pose proof (wf_Inv V Fts t W) as IFt. simpl in IPt, IFt.
  assert (N1 : vpe v - vps v <= alen (tp t)) by lia. assert (N2 : vfe v - vfs v <= alen (tf t)) by lia.
  destruct (adjStart_ok (tp t) (vps v) _ ps IPt N1 I1) as [ps' E1]. destruct (adjStop_ok (tp t) (vps v) (vpe v) _ pe IPt N1 I2) as [pe' E2].
  destruct (adjStart_ok (tf t) (vfs v) _ fs IFt N2 I3) as [fs' E3]. destruct (adjStop_ok (tf t) (vfs v) (vfe v) _ fe IFt N2 I4) as [fe' E4].
  pose proof (adj_window (tp t) (vps v) (vpe v) ps pe ps' pe' IPt P1 P2 P3 I1 I2 E1 E2 (vpa v) x x' LP WP) as WA.
  pose proof (adj_window (tf t) (vfs v) (vfe v) fs fe fs' fe' IFt F1 F2 F3 I3 I4 E3 E4 (vfa v) y y' LF WF) as WB.
  destruct (viewOf_ok t _ _ _ _ _ _ _ _ W WA WB) as [w [Ew [A [B [C D]]]]].
  exists w. unfold viewOfView. rewrite E1, E2, E3, E4. cbn [rbind]. split; [exact Ew|].
  split; [apply (viewOf_viewOK _ _ _ _ _ _ W Ew)|auto].
Qed.

Lemma subTable_rows t pi fi u u' : subTable t pi fi u -> subTable t pi fi u' ->
  rows u = rows u' /\ getNames (tp u) = getNames (tp u') /\ getNames (tf u) = getNames (tf u').
Proof.
  intros [W3 [L3 [M3 [GP3 [GF3 C3]]]]] [W4 [L4 [M4 [GP4 [GF4 C4]]]]]. split; [|split; congruence].
  apply nth_error_ext. intros i. destruct W3 as [WL3 [WR3 _]]. destruct W4 as [WL4 [WR4 _]].
  destruct (nth_error (rows u) i) as [r|] eqn:Er.
  - destruct (nth_error (rows u') i) as [r'|] eqn:Er'.
    + f_equal. apply nth_error_ext. intros j. pose proof (C3 i j) as X. pose proof (C4 i j) as Y. unfold cell in X, Y. rewrite Er in X. rewrite Er' in Y. congruence.
    + apply nth_error_None in Er'. pose proof (nth_error_lt _ _ Er). lia.
  - apply nth_error_None in Er. symmetry. apply nth_error_None. lia.
Qed.
Lemma Window_len a b st sp x y n : alen a = n -> alen b = n -> Inside n st -> Inside n sp -> Window a st sp x y -> Window b st sp x y.
Proof.
  intros La Lb I1 I2 [A B]. split.
  - destruct st as [[z|s|q|]|]; try contradiction; [|exact A]. simpl in *. rewrite La in A. rewrite Lb. exact A.
  - destruct sp as [[z|s|q|]|]; try contradiction; [|congruence]. simpl in *. rewrite La in B. rewrite Lb. exact B.
Qed.
(** [u] shows the same as the view [v] of [t] *)
Lemma view_step t v u ps pe fs fe w' : wf t -> viewOK t v ->
  subTable t (span (vps v) (vpe v)) (span (vfs v) (vfe v)) u ->
  Inside (alen (tp u)) ps -> Inside (alen (tp u)) pe -> Inside (alen (tf u)) fs -> Inside (alen (tf u)) fe ->
  viewOf u ps pe fs fe = Ok w' ->
  exists w, viewOfView t v ps pe fs fe = Ok w /\ viewOK t w /\
    subTable t (span (vps w) (vpe w)) (span (vfs w) (vfe w)) (viewObj u w').
Proof.
  intros W OK S1 I1 I2 I3 I4 E. pose proof S1 as [W1 [LU [MU _]]]. unfold span in LU, MU. rewrite seq_length in LU, MU. rewrite LU in I1, I2. rewrite MU in I3, I4.
  destruct (viewOf_spec _ _ _ _ _ _ W1 E) as [WP [WF _]].
  pose proof (viewOf_viewOK _ _ _ _ _ _ W1 E) as OK1. destruct (viewObj_axes t v OK W) as [LP [LF _]].
  pose proof (Window_len _ (vpa v) _ _ _ _ _ LU LP I1 I2 WP) as WP'. pose proof (Window_len _ (vfa v) _ _ _ _ _ MU LF I3 I4 WF) as WF'.
  destruct (viewOfView_windows t v ps pe fs fe _ _ _ _ W OK I1 I2 I3 I4 WP' WF') as [w [Ew [OKw [A [B [C D]]]]]].
  exists w. split; [exact Ew|]. split; [exact OKw|].
  pose proof (viewObj_sub u w' W1 OK1) as S2.
  pose proof OK as [P1 [P2 [F1 [F2 _]]]]. pose proof OK1 as [Q1 [Q2 [Q3 [Q4 _]]]]. rewrite LU in Q2. rewrite MU in Q4.
  assert (S4 : subTable t (selected (span (vps w') (vpe w')) (span (vps v) (vpe v))) (selected (span (vfs w') (vfe w')) (span (vfs v) (vfe v)))
                 (viewObj u w')).
  { eapply subTable_trans; [| | | |exact W|exact S1|exact S2]; intros i Hi; apply span_range in Hi; unfold span; rewrite ?seq_length; lia. }
  rewrite !span_span in S4 by lia. rewrite A, B, C, D. exact S4.
Qed.
Lemma view_chain l : forall t v u u', wf t -> viewOK t v ->
  subTable t (span (vps v) (vpe v)) (span (vfs v) (vfe v)) u -> insideChain u l -> windowChain u l = Ok u' ->
  exists w, viewChain t v l = Ok w /\ rows (viewObj t w) = rows u' /\
    getNames (vpa w) = getNames (tp u') /\ getNames (vfa w) = getNames (tf u').
Proof.
  induction l as [|[[[a b] c] d] l IH]; intros t v u u' W OK S Hin E.
  - simpl in E. injection E as <-. exists v. split; [reflexivity|].
    apply (subTable_rows t _ _ (viewObj t v) u (viewObj_sub t v W OK) S).
  - cbn [windowChain insideChain viewChain] in *. destruct Hin as [I1 [I2 [I3 [I4 Hn]]]].
    destruct (viewOf u a b c d) as [w'|] eqn:Ew; [|discriminate]. cbn [rbind] in E.
    destruct (view_step t v u a b c d w' W OK S I1 I2 I3 I4 Ew) as [w [Ew2 [OKw Sw]]]. rewrite Ew2. cbn [rbind].
    apply (IH t w (viewObj u w') u' W OKw Sw (Hn w' eq_refl) E).
Qed.
Lemma pointView_window t v id : wf t -> viewOK t v -> forall i, Denotes (vpa v) false id (Z.of_nat i) ->
  exists w, pointViewOfView t v id = Ok w /\
    subTable (viewObj t v) [i] (seq 0 (alen (vfa v))) (viewObj t w).
Proof.
  intros W OK i D. destruct (viewObj_axes t v OK W) as [LP [LF [IP IF]]].
  pose proof (Denotes_range _ _ _ IP D) as R. unfold pointViewOfView.
  assert (Hz : alen (vpa v) =? 0 = false) by (apply Nat.eqb_neq; lia). rewrite Hz.
  apply getIndex_nofloat in D; auto. rewrite D. cbn [rbind].
  assert (HI : Inside (vpe v - vps v) (Some (IdInt (Z.of_nat i)))) by (simpl; lia).
  assert (HW : Window (vpa v) (Some (IdInt (Z.of_nat i))) (Some (IdInt (Z.of_nat i))) i (S i)).
  { split; [simpl; lia|]. exists i. simpl. split; [lia|]. auto. }
  assert (HF : Window (vfa v) None None 0 (alen (vfa v))) by (split; reflexivity).
  destruct (viewOfView_windows t v _ _ None None _ _ _ _ W OK HI HI I I HW HF) as [w [Ew [OKw [A [B [C E]]]]]].
  exists w. split; [exact Ew|].
  pose proof (viewObj_sub t v W OK) as [W1 [L1 [M1 [GP1 [GF1 C1]]]]]. pose proof (viewObj_sub t w W OKw) as [W2 [L2 [M2 [GP2 [GF2 C2]]]]].
  pose proof OK as [P1 [P2 [F1 [F2 _]]]].
  rewrite A, B, C, E in *. cbn [viewObj tp tf] in *.
  assert (SP : span (vps v + i) (vps v + S i) = selected [i] (span (vps v) (vpe v))).
  { change [i] with (seq i 1). change (seq i 1) with (span i (i + 1)) at 1 || idtac.
    apply nth_error_ext. intros k. rewrite selected_nth by (intros a [<-|[]]; unfold span; rewrite seq_length; lia).
    rewrite span_nth. replace (vps v + S i - (vps v + i)) with 1 by lia. destruct k as [|k]; simpl.
    - rewrite span_nth. assert (X : i <? vpe v - vps v = true) by (apply Nat.ltb_lt; lia). rewrite X. f_equal; lia.
    - destruct k; reflexivity. }
  assert (SF : span (vfs v + 0) (vfs v + alen (vfa v)) = span (vfs v) (vfe v)).
  { unfold span. f_equal; lia. }
  rewrite SP, SF in *.
  split; [exact W2|]. cbn [viewObj tp tf]. rewrite L2, M2.
  assert (LS : List.length (selected [i] (span (vps v) (vpe v))) = 1).
  { rewrite selected_length; [reflexivity|]. intros a [<-|[]]. unfold span; rewrite seq_length; lia. }
  rewrite LS. split; [reflexivity|]. unfold span at 1. rewrite !seq_length. split; [lia|].
  split.
  { rewrite GP2, GP1. apply nth_error_ext. intros k.
    assert (B1 : forall b, In b (selected [i] (span (vps v) (vpe v))) -> b < List.length (getNames (tp t))).
    { intros b Hb. apply selected_bounds in Hb. apply span_range in Hb. pose proof (getNames_length _ (wf_Inv V Pts t W)) as GL; simpl in GL; lia. }
    assert (B2 : forall b, In b (span (vps v) (vpe v)) -> b < List.length (getNames (tp t))).
    { intros b Hb. apply span_range in Hb. pose proof (getNames_length _ (wf_Inv V Pts t W)) as GL; simpl in GL; lia. }
    assert (B3 : forall b, In b [i] -> b < List.length (selected (span (vps v) (vpe v)) (getNames (tp t)))).
    { intros b [<-|[]]. rewrite selected_length by exact B2. unfold span; rewrite seq_length; lia. }
    rewrite (selected_nth _ _ k B1), (selected_nth _ _ k B3).
    assert (X : i <? vpe v - vps v = true) by (apply Nat.ltb_lt; lia).
    assert (B4 : forall b, In b [i] -> b < List.length (span (vps v) (vpe v))).
    { intros b [<-|[]]. unfold span; rewrite seq_length; lia. }
    rewrite (selected_nth _ _ k B4). destruct k as [|k]; [|destruct k; reflexivity]. simpl.
    rewrite (selected_nth _ _ i B2), span_nth, X. reflexivity. }
  split.
  { rewrite selected_seq; [congruence|]. rewrite (getNames_length _ IF). reflexivity. }
  intros a b. rewrite C2, nth_error_seq. destruct a as [|a].
  - rewrite selected_nth by (intros c [<-|[]]; unfold span; rewrite seq_length; lia). cbn [nth_error].
    rewrite span_nth. assert (X : i <? vpe v - vps v = true) by (apply Nat.ltb_lt; lia). rewrite X.
    rewrite span_nth. rewrite LF. destruct (b <? vfe v - vfs v) eqn:Eb; [|reflexivity].
    change (0 + b) with b. rewrite C1, !span_nth, X, Eb. reflexivity.
  - assert (N : nth_error (selected [i] (span (vps v) (vpe v))) (S a) = None) by (apply nth_error_None; lia).
    rewrite N. cbn [nth_error]. destruct a; reflexivity.
Qed.
Lemma subTable_same t pi fi u u' : subTable t pi fi u -> wf u' -> rows u = rows u' ->
  getNames (tp u) = getNames (tp u') -> getNames (tf u) = getNames (tf u') -> subTable t pi fi u'.
Proof.
  intros [W3 [L3 [M3 [GP3 [GF3 C3]]]]] W' HR HP HF. split; [exact W'|].
  pose proof (getNames_length _ (wf_Inv V Pts u W3)) as A1. pose proof (getNames_length _ (wf_Inv V Fts u W3)) as A2.
  pose proof (getNames_length _ (wf_Inv V Pts u' W')) as A3. pose proof (getNames_length _ (wf_Inv V Fts u' W')) as A4. cbn [ax] in *.
  split; [congruence|]. split; [congruence|]. split; [congruence|]. split; [congruence|].
  intros i j. unfold cell. rewrite <- HR. apply C3.
Qed.
Lemma featureView_window t v id : wf t -> viewOK t v -> forall i, Denotes (vfa v) false id (Z.of_nat i) ->
  exists w, featureViewOfView t v id = Ok w /\
    subTable (viewObj t v) (seq 0 (alen (vpa v))) [i] (viewObj t w).
Proof.
  intros W OK i D. destruct (viewObj_axes t v OK W) as [LP [LF [IP IF]]].
  pose proof (Denotes_range _ _ _ IF D) as R. unfold featureViewOfView.
  assert (Hz : alen (vfa v) =? 0 = false) by (apply Nat.eqb_neq; lia). rewrite Hz.
  apply getIndex_nofloat in D; auto. rewrite D. cbn [rbind].
  assert (HI : Inside (alen (vfa v)) (Some (IdInt (Z.of_nat i)))) by (simpl; lia).
  assert (HW : Window (vfa v) (Some (IdInt (Z.of_nat i))) (Some (IdInt (Z.of_nat i))) i (S i)).
  { split; [simpl; lia|]. exists i. simpl. split; [lia|]. auto. }
  assert (HP : Window (vpa v) None None 0 (alen (vpa v))) by (split; reflexivity).
  pose proof (viewObj_sub t v W OK) as S1. pose proof S1 as [W1 _].
  destruct (viewOf_ok (viewObj t v) None None _ _ _ _ _ _ W1 HP HW) as [w' [Ew' [A [B [C E]]]]].
  destruct (view_step t v (viewObj t v) None None (Some (IdInt (Z.of_nat i))) (Some (IdInt (Z.of_nat i))) w' W OK S1 I I HI HI Ew')
    as [w [Ew [OKw Sw]]].
  exists w. split; [exact Ew|].
  pose proof (viewObj_sub _ _ W1 (viewOf_viewOK _ _ _ _ _ _ W1 Ew')) as S2. rewrite A, B, C, E in S2.
  pose proof (viewObj_sub t w W OKw) as S3.
  destruct (subTable_rows t _ _ _ _ Sw S3) as [R1 [R2 R3]].
  apply (subTable_same _ _ _ (viewObj (viewObj t v) w')); auto; [|apply S3].
  unfold span in S2. rewrite Nat.sub_0_r in S2. replace (S i - i) with 1 in S2 by lia. exact S2.
Qed.
Lemma viewOK_same t t' v : wf t -> viewOK t v -> tp t' = tp t -> tf t' = tf t -> viewOK t' v.
Proof. intros _ H E F. unfold viewOK in *. rewrite E, F. exact H. Qed.
End P.
