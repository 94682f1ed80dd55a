(** Proofs for C82: calculateOnElements of Sparse objects. *)
From Verif Require Import Base NamesModel NamesSpec NamesProofs TableModel TableSpec TableProofs TableOps TableOpsProofs TableOps3Proofs MatchModel MatchSpec MatchProofs GetSpec GetCountProofs
  QueryModel ElementsModel ElementsSpec ElementsProofs ElementsCalcProofs CopyModel CopySpec TypedModel TypedSpec SparseModel SparseSpec CsvModel RawModel RawSpec ReshapeModel SparseReshapeModel FromSparseModel FromSparseSpec FromSparseDup FromSparseNames
  StransModel StransSpec StransProofs StransElemProofs CalcSparseModel.
From Verif Require SparseEqProofs MergeLoopProofs.
From Coq Require Import List String QArith Lia. Import ListNotations.
Open Scope nat_scope.
Notation len := List.length.
Notation noneToNan := ElementsModel.noneToNan.
Notation kindOf := ElementsSpec.kindOf. Notation KStr := ElementsSpec.KStr.
Notation val := (SparseSpec.val (PInt 0)).
Lemma dense_same x t : StransSpec.Shows x t -> denseOf x = t.
Proof.
  intros W. pose proof W as ((W1 & W2 & _) & EP & EF & _). pose proof (proj1 W) as WF.
  destruct t as [a b m]. cbn [tp tf rows] in *. unfold denseOf. rewrite EP, EF. f_equal.
  apply nth_error_ext_len; [rewrite map_length, seq_length; symmetry; exact W1|]. intros i Hi. rewrite map_length, seq_length in Hi.
  rewrite nth_error_map_eq, nth_error_seq. pose proof Hi as Hi'. apply Nat.ltb_lt in Hi'. rewrite Hi'. cbn [option_map].
  destruct (nth_error m i) as [r|] eqn:R; [|apply nth_error_None in R; lia]. f_equal.
  assert (LR : len r = alen b) by (apply W2; eapply nth_error_In; eauto).
  apply nth_error_ext_len; [rewrite map_length, seq_length; symmetry; exact LR|]. intros j Hj. rewrite map_length, seq_length in Hj.
  rewrite nth_error_map_eq, nth_error_seq. pose proof Hj as Hj'. apply Nat.ltb_lt in Hj'. rewrite Hj'. cbn [option_map].
  destruct (nth_error r j) as [v|] eqn:V; [|apply nth_error_None in V; lia]. f_equal. apply (shows_read x _ i j v W). unfold cell. cbn [rows]. rewrite R. exact V.
Qed.
Section S.
Variables intOf floatOf : string -> option pval.
Variable strOf : pval -> string.
Notation newSparse := (CalcSparseModel.newSparse floatOf strOf).
Notation calcStored := (CalcSparseModel.calcStored intOf floatOf strOf).
Lemma detect_none v0 r0 second : (forall s, v0 <> PStr s) -> autoDetect NmAuto NmAuto (Some (map kindOfValue (v0 :: r0))) (Some second) = (NmBool false, NmBool false).
Proof. intros H. cbn [map]. destruct second as [|s0 st]; [reflexivity|]. destruct v0; try reflexivity. exfalso. apply (H s). reflexivity. Qed.
Definition elem (v : pval) : pval := RawModel.replaced (Some [PNone]) PNaN v.
Lemma elem_eq v : elem v = noneToNan v.
Proof. destruct v; reflexivity. Qed.
(** nothing is taken for names unless the first element is a text *)
Lemma data_plain s : entsOK (PInt 0) s -> (forall u, val s 0 0 <> PStr u) ->
  exists o, dataSparse strOf NmAuto NmAuto (Some [PNone]) PNaN s = Ok o /\ wf (seen o) /\ tp (seen o) = mkAxis (snp s) None /\ tf (seen o) = mkAxis (snf s) None /\
    forall i j, i < snp s -> j < snf s -> cell (seen o) i j = Some (elem (val s i j)).
Proof.
  intros E N. unfold dataSparse, extractSparse. cbn [isAuto orb].
  assert (D : autoDetect NmAuto NmAuto (Some (map kindOfValue (rowValues s 0))) (Some (map kindOfValue (rowValues s 1))) = (NmBool false, NmBool false)).
  { destruct (rowValues s 0) as [|v0 r0] eqn:R; [reflexivity|]. apply detect_none. intros u ->.
    assert (0 < snf s) by (rewrite <- (rowValues_length s 0), R; cbn; lia). pose proof (rowValues_nth s 0 0 E H) as V. rewrite R in V. cbn in V. injection V as V. exact (N u (eq_sym V)). }
  rewrite D. cbn [isTrue negb andb rbind settleDict newAxis]. eexists. split; [reflexivity|].
  set (s' := mkSp (snp s) (snf s) (replaceStored (Some [PNone]) PNaN (ents s)) None None).
  assert (E' : entsOK (PInt 0) s').
  { destruct E as [E1 E2]. split; [cbn [ents s']; unfold replaceStored; rewrite (pos_map elem); exact E1|]. intros e I. cbn [ents s'] in I. unfold replaceStored in I. apply in_map_iff in I.
    destruct I as (e0 & <- & I). destruct (E2 e0 I) as (A & B & C). cbn [er ec ev]. split; auto. split; auto. fold (elem (ev e0)). rewrite elem_eq. destruct (ev e0); cbn; congruence. }
  destruct (@SparseEqProofs.toDense_spec pval (PInt 0) s' E') as [[S1 S2] C].
  assert (V : forall i j, val s' i j = elem (val s i j)).
  { intros i j. unfold s'. rewrite val_cells. unfold replaceStored. rewrite (cells_map elem). destruct s as [n k l a b]. cbn [ents snp snf]. 
    replace (val (mkSp n k l a b) i j) with (val (mkSp n k l None None) i j) by reflexivity. rewrite val_cells. destruct (cellsAt l i j); reflexivity. }
  split; [|split; [reflexivity|split; [reflexivity|]]].
  - split; [exact S1|]. split; [exact S2|]. split; exact I.
  - intros i j Hi Hj. specialize (C i j Hi Hj). rewrite V in C. exact C.
Qed.
Lemma cells_in (l : list (entry pval)) i j v : NoDup (map pos l) -> In (mkE i j v) l -> cellsAt l i j = [v].
Proof.
  intros N I. pose proof (cells_nodup l i j N) as L. assert (J : In v (cellsAt l i j)).
  { unfold cellsAt. apply in_map_iff. exists (mkE i j v). split; auto. apply filter_In. split; auto. cbn. rewrite !Nat.eqb_refl. reflexivity. }
  destruct (cellsAt l i j) as [|a [|b r]]; [destruct J|destruct J as [->|[]]; reflexivity|cbn in L; lia].
Qed.
Lemma same_text v w u : SameElement v w -> w = PStr u -> exists s, v = PStr s.
Proof. intros [S|[_ S]] ->; [|discriminate]. inversion S as [? ? ? ? A B| | | |]; subst; [inversion B|eauto]. Qed.
Lemma new_spec n k l : FromSparseSpec.InRange n k l -> NoDup (map pos l) -> (forall e s, In e l -> ev e <> PStr s) ->
  exists r, newSparse n k l = Ok r /\ wf r /\ tp r = mkAxis n None /\ tf r = mkAxis k None /\
    forall i j, i < n -> j < k -> exists w, cell r i j = Some (noneToNan w) /\
      (forall v, In (mkE i j v) l -> SameElement v w \/ (Same v (PInt 0) /\ w = PInt 0)) /\ ((forall v, ~ In (mkE i j v) l) -> w = PInt 0).
Proof.
  intros R N T. destruct (duplicates_summed strOf floatOf n k l R) as (l' & E & EO & NZ & H).
  { intros i j. left. apply cells_nodup. exact N. }
  assert (HV : forall i j v, In (mkE i j v) l -> SameElement v (val (mkSp n k l' None None) i j) \/ (Same v (PInt 0) /\ val (mkSp n k l' None None) i j = PInt 0)).
  { intros i j v I. specialize (H i j). rewrite (cells_in l i j v N I) in H. inversion H as [|v0 Z|v0 w0 Z|vs qs w0 q L]; subst; auto. cbn in L. lia. }
  assert (H0 : forall i j, (forall v, ~ In (mkE i j v) l) -> val (mkSp n k l' None None) i j = PInt 0).
  { intros i j I. specialize (H i j). assert (CE : cellsAt l i j = []). { apply cells_nil. intros J. apply in_map_iff in J. destruct J as ([a b v] & P & J). cbn in P. injection P as -> ->. exact (I v J). }
    rewrite CE in H. inversion H as [|v0 Z|v0 w0 Z|vs qs w0 q L]; subst; auto. cbn in L. lia. }
  assert (TX : forall u, val (mkSp n k l' None None) 0 0 <> PStr u).
  { intros u U. destruct (readAt_cases l 0 0) as [I|[_ I]].
    - destruct (HV _ _ _ I) as [S|[_ S]]; [|congruence]. destruct (same_text _ _ _ S U) as (s & E1). exact (T _ _ I E1).
    - rewrite (H0 _ _ I) in U. discriminate. }
  destruct (data_plain (mkSp n k l' None None) EO TX) as (o & D & WF & TP & TF & C). cbn [snp snf] in *.
  exists (seen o). unfold CalcSparseModel.newSparse, fromCoo. rewrite E. cbn [rbind]. rewrite D. split; [reflexivity|]. split; [exact WF|]. split; [exact TP|]. split; [exact TF|].
  intros i j Hi Hj. exists (val (mkSp n k l' None None) i j). split; [rewrite (C i j Hi Hj), elem_eq; reflexivity|]. split; auto.
Qed.
Lemma zeroFloat : Same (PInt 0) (PFloat 0).
Proof. apply (same_num _ _ (inject_Z 0) 0%Q); [constructor|constructor|reflexivity]. Qed.
Lemma stored_calc h skip x t : StransSpec.Shows x t -> ZeroUniform (F1 h) -> OneKind true skip (F1 h) None None t ->
  match calcStored (fun v => validated true skip (F1 h) v 0 0) x with
  | Ok r => wf r /\ tp r = mkAxis (alen (tp t)) None /\ tf r = mkAxis (alen (tf t)) None /\
      forall i j v, cell t i j = Some v -> exists w, cell r i j = Some w /\ BecomesNew true skip (F1 h) v i j w
  | Err e => exists i j v, cell t i j = Some v /\ h v = Err e
  end.
Proof.
  intros W Z (k & HK & HU). pose proof (shows_SOK x t W) as (OP & OF & ON & OR). pose proof W as (WF & EP & EF & _ & _ & WC).
  assert (CELLIN : forall e, In e (xEnts x) -> cell t (er e) (ec e) = Some (ev e)).
  { intros e I. destruct (OR e I) as (R1 & R2 & _). rewrite EP in R1. rewrite EF in R2. destruct (cell_some t _ _ WF R1 R2) as (v & C & _).
    rewrite C. f_equal. rewrite <- (shows_read x t _ _ _ W C). apply readAt_in; auto. destruct e; exact I. }
  unfold CalcSparseModel.calcStored. set (g := fun v => validated true skip (F1 h) v 0 0). set (vs := map (@ev pval) (xEnts x)).
  pose proof (vectorized_ok intOf floatOf strOf g [vs] 1 (len vs)) as V.
  assert (SH : shape [vs] 1 (len vs)) by (split; [reflexivity|intros r [<-|[]]; reflexivity]). specialize (V SH).
  assert (MC : forall (c : list pval) a b w, mcell [c] a b = Some w <-> a = 0 /\ nth_error c b = Some w).
  { intros c a b w. unfold mcell. destruct a as [|a]; cbn; [intuition|]. destruct a; cbn; split; [discriminate|intros [? _]; discriminate|discriminate|intros [? _]; discriminate]. }
  assert (VIN : forall a b v, mcell [vs] a b = Some v -> exists e, nth_error (xEnts x) b = Some e /\ ev e = v).
  { intros a b v M. apply MC in M. destruct M as [_ M]. unfold vs in M. rewrite nth_error_map_eq in M. destruct (nth_error (xEnts x) b) as [e|]; [|discriminate]. injection M as <-. eauto. }
  assert (ANY : forall i j v, validated true skip (F1 h) v i j = g v) by reflexivity.
  assert (KK : forall e r, In e (xEnts x) -> g (ev e) = Ok r -> (kindOf r = k \/ r = PFloat 0) /\ (k = KStr -> kindOf r = KStr)).
  { intros e r I G. apply (validated_kind true skip (F1 h) (ev e) (er e) (ec e) r k Z HK); [|exact G]. intros y. apply HU; [apply CELLIN; exact I|]. split; exact Logic.I. }
  destruct (vectorized intOf floatOf strOf g [vs]) as [c|e]; cbn [rbind].
  2:{ destruct V as (a & b & v & M & G). destruct (VIN _ _ _ M) as (e0 & N & <-). exists (er e0), (ec e0), (ev e0). split; [apply CELLIN; eapply nth_error_In; eauto|].
      exact (validated_err true skip (F1 h) (ev e0) 0 0 e G). }
  destruct V as [[L1 L2] V]. destruct c as [|data [|? ?]]; try discriminate L1. assert (LD : len data = len (xEnts x)). { rewrite (L2 data) by (left; reflexivity). apply map_length. }
  cbn [List.concat]. rewrite app_nil_r.
  assert (VAL : forall b e u, nth_error (xEnts x) b = Some e -> nth_error data b = Some u -> exists r, g (ev e) = Ok r /\ (u = r \/ Same u r \/ (r = PNone /\ u = PNaN)) /\ forall s, u <> PStr s).
  { intros b e u N U. destruct (V 0 b (ev e)) as (r & w & G & M & D). { apply MC. split; auto. unfold vs. rewrite nth_error_map_eq, N. reflexivity. }
    apply MC in M. destruct M as [_ M]. assert (w = u) by congruence. subst w. exists r. split; auto. destruct (KK e r (nth_error_In _ _ N) G) as [K1 K2].
    assert (RR : u = r \/ Same u r \/ (r = PNone /\ u = PNaN)).
    { destruct D as [->|(a0 & b0 & v0 & first & M0 & G0 & C)]; [auto|]. destruct (VIN _ _ _ M0) as (e0 & N0 & <-). destruct (KK e0 first (nth_error_In _ _ N0) G0) as [J1 J2].
      apply (cast_lossless intOf floatOf strOf k first r u J1 K1); auto. }
    split; [exact RR|]. intros s ->. assert (X : exists s', r = PStr s').
    { destruct RR as [<-|[RR|[_ RR]]]; [eauto| |discriminate]. inversion RR as [? ? ? ? A| | | |]; subst; [inversion A|eauto]. }
    destruct X as (s' & ->). destruct K1 as [K1|K1]; [|discriminate]. exact (HK eq_refl (eq_sym K1)). }
  destruct (new_spec (alen (xTp x)) (alen (xTf x)) (withData (xEnts x) data)) as (r & -> & WR & TP & TF & C).
  { intros e I. destruct e as [i j w]. apply withData_in in I; [|exact LD]. destruct I as (b & e & N & <- & <- & _). apply nth_error_In in N. destruct (OR e N) as (R1 & R2 & _). cbn. auto. }
  { rewrite withData_pos by exact LD. exact ON. }
  { intros e s I. destruct e as [i j w]. apply withData_in in I; [|exact LD]. destruct I as (b & e & N & <- & <- & U). destruct (VAL b e w N U) as (_ & _ & _ & T). apply T. }
  split; [exact WR|]. rewrite EP, EF in *. split; [exact TP|]. split; [exact TF|]. intros i j v CV. destruct (cell_range t i j v WF CV) as [Ri Rj].
  destruct (C i j Ri Rj) as (w & CW & S1 & S2). exists (noneToNan w). split; [exact CW|].
  destruct (WC i j v CV) as [I|[-> NI]].
  - apply In_nth_error in I. destruct I as (b & N). destruct (nth_error_is_some data (i := b)) as (u & U); [rewrite LD; exact (nth_error_lt _ _ N)|].
    destruct (VAL b _ u N U) as (r0 & G & RR & _). cbn [ev] in G. assert (B : Becomes true skip (F1 h) v i j r0) by (apply validated_becomes; [exact Z|rewrite ANY; exact G]).
    assert (IW : In (mkE i j u) (withData (xEnts x) data)). { apply withData_in; [exact LD|]. exists b, (mkE i j v). auto. }
    destruct (S1 u IW) as [SU|[SZ ->]].
    + eapply BecomesNew_intro; [exact B|]. destruct SU as [SU|[-> ->]].
      * assert (SS : Same w u) by (apply MergeLoopProofs.Same_sym; exact SU).
        destruct RR as [->|[RR|[-> ->]]]; [right; left; exact SS|right; left; exact (Same_trans _ _ _ SS RR)|]. inversion SS as [? ? ? ? ? Q| | | |]; subst; inversion Q.
      * destruct RR as [<-|[RR|[-> _]]]; [left; reflexivity| |right; right; auto]. inversion RR as [? ? ? ? Q| | | |]; subst. inversion Q.
    + assert (S0 : Same (PInt 0) u) by (apply MergeLoopProofs.Same_sym; exact SZ).
      eapply BecomesNew_intro; [exact B|]. destruct RR as [<-|[RR|[_ ->]]]; [right; left; exact S0|right; left; exact (Same_trans _ _ _ S0 RR)|]. inversion S0 as [? ? ? ? ? Q| | | |]; subst; inversion Q.
  - rewrite S2; [|intros u I; apply withData_in in I; [|exact LD]; destruct I as (b & e & N & E1 & E2 & _); apply nth_error_In in N; apply (NI (ev e)); destruct e; cbn in *; subst; exact N].
    cbn [noneToNan]. left. left. split; [reflexivity|]. split; apply zero_same0.
Qed.
Lemma all_spec h skip x t : StransSpec.Shows x t -> ZeroUniform (F1 h) -> OneKind true skip (F1 h) None None t ->
  match calculateSparse intOf floatOf strOf (F1 h) None None true skip x with
  | Ok r => wf r /\ tp r = mkAxis (alen (tp t)) None /\ tf r = mkAxis (alen (tf t)) None /\
      forall i j v, cell t i j = Some v -> exists w, cell r i j = Some w /\ BecomesNew true skip (F1 h) v i j w
  | Err e => exists i j v, cell t i j = Some v /\ h v = Err e
  end.
Proof. intros W Z K. exact (stored_calc h skip x t W Z K). Qed.
Lemma rest_spec f points features ps fs pz skip x t : StransSpec.Shows x t -> isOneArg f && pz = false -> limitDenotes (tp t) points ps -> limitDenotes (tf t) features fs ->
  ps <> Some [] -> fs <> Some [] -> ZeroUniform f -> (isOneArg f = true -> OneKind pz skip f ps fs t) ->
  let pl := positionsOf (alen (tp t)) ps in let fl := positionsOf (alen (tf t)) fs in
  (isOneArg f = false -> ~ LikeHeader pz skip f pl fl t) ->
  match calculateSparse intOf floatOf strOf f points features pz skip x with
  | Ok r => wf r /\ tp r = mkAxis (List.length pl) None /\ tf r = mkAxis (List.length fl) None /\
      forall a b i j v, nth_error pl a = Some i -> nth_error fl b = Some j -> cell t i j = Some v ->
      exists w, cell r a b = Some w /\ BecomesNew pz skip f v i j w
  | Err e => exists i j v, addressed ps fs i j /\ cell t i j = Some v /\ callF f v i j = Err e
  end.
Proof.
  intros W E HP HF NP NF Z OK pl fl NH. unfold calculateSparse. rewrite E, (dense_same x t W).
  exact (calculateOnElements_spec intOf floatOf strOf t f points features ps fs pz skip (proj1 W) HP HF NP NF Z OK NH).
Qed.
End S.
Section R.
Variables intOf floatOf : string -> option pval.
Variable strOf : pval -> string.
(** points without features, or the other way round *)
Lemma select_type ps fs : forall l, (ps = None \/ fs = None) -> (exists e, In e l /\ (ps = None \/ (fs = None /\ outside ps (er e) = false))) -> selectStored ps fs l = Err TypeErr.
Proof.
  induction l as [|e l IH]; intros H (e0 & I & C); [destruct I|]. cbn [selectStored]. destruct ps as [ps|]; cbn [inSelection rbind]; [|reflexivity].
  destruct H as [H| ->]; [discriminate|]. destruct C as [C|[_ C]]; [discriminate|]. destruct (mem (er e) ps) eqn:M; cbn [inSelection rbind]; [reflexivity|].
  rewrite IH; [reflexivity|auto|]. destruct I as [->|I]; [|exists e0; auto]. unfold outside in C. rewrite M in C. discriminate.
Qed.
Lemma one_axis h points features ps fs skip x t i j v : StransSpec.Shows x t -> limitDenotes (tp t) points ps -> limitDenotes (tf t) features fs ->
  (ps = None /\ fs <> None \/ fs = None /\ ps <> None) -> cell t i j = Some v -> ~ Same v (PInt 0) -> chosen ps i ->
  calculateSparse intOf floatOf strOf (F1 h) points features true skip x = Err TypeErr.
Proof.
  intros W HP HF H C NZ CH. pose proof (shows_SOK x t W) as (OP & OF & _ & _). pose proof W as (WF & EP & EF & _ & _ & WC).
  unfold calculateSparse. cbn [isOneArg andb]. rewrite EP, EF. rewrite EP in OP. rewrite EF in OF. rewrite (resolve_denotes _ _ _ OP HP), (resolve_denotes _ _ _ OF HF). cbn [rbind].
  assert (I : In (mkE i j v) (xEnts x)). { destruct (WC i j v C) as [I|[-> _]]; [exact I|]. exfalso. apply NZ. apply zero_same0. }
  assert (E : selectStored ps fs (xEnts x) = Err TypeErr).
  { apply select_type; [tauto|]. exists (mkE i j v). split; [exact I|]. destruct H as [[-> _]|[-> _]]; auto. right. split; auto. cbn [er]. apply (proj2 (proj1 (outside_chosen ps i))). exact CH. }
  unfold calcSelected. rewrite E. destruct ps, fs; try reflexivity. destruct H as [[H1 H2]|[H1 H2]]; congruence.
Qed.
(** points and features *)
Lemma select_both ps fs : forall l, selectStored (Some ps) (Some fs) l = Ok (filter (within (Some ps) (Some fs)) l).
Proof.
  induction l as [|e l IH]; cbn [selectStored inSelection rbind filter]; [reflexivity|]. rewrite IH. unfold within at 2, outside.
  destruct (mem (er e) ps); cbn [rbind inSelection negb orb]; [|reflexivity]. destruct (mem (ec e) fs); reflexivity.
Qed.
Lemma cast_total k first r : (kindOf first = k \/ first = PFloat 0) -> (kindOf r = k \/ r = PFloat 0) -> k <> KStr ->
  exists w, castLike intOf floatOf strOf first r = Ok w.
Proof.
  intros HF HR HS. destruct k; [| | |congruence|]; (destruct HF as [HF| ->]; [destruct first; try discriminate HF|]); (destruct HR as [HR| ->]; [destruct r; try discriminate HR|]); cbn; eauto.
Qed.
Lemma rmapM_all {A B} (g : A -> result B) l : (forall a, In a l -> exists b, g a = Ok b) -> exists l', rmapM g l = Ok l'.
Proof.
  induction l as [|a l IH]; intros H; [exists []; reflexivity|]. destruct (H a (or_introl eq_refl)) as (b & E). destruct IH as (l' & E'); [intros; apply H; right; auto|].
  exists (b :: l'). cbn. rewrite E. cbn. rewrite E'. reflexivity.
Qed.
Lemma rmapM_ok {A B} (g : A -> result B) : forall l l', rmapM g l = Ok l' -> len l' = len l /\ forall k a, nth_error l k = Some a -> exists b, nth_error l' k = Some b /\ g a = Ok b.
Proof.
  induction l as [|a l IH]; intros l' E; cbn in E; [injection E as <-; split; [reflexivity|]; intros [|k] x H; discriminate|].
  destruct (g a) as [b|] eqn:G; cbn in E; [|discriminate]. destruct (rmapM g l) as [l1|] eqn:E1; cbn in E; [|discriminate]. injection E as <-. destruct (IH l1 eq_refl) as (L & N).
  split; [cbn; rewrite L; reflexivity|]. intros [|k] x H; cbn in H |- *; [injection H as <-; eauto|apply N; exact H].
Qed.
Lemma rmapM_err {A B} (g : A -> result B) : forall l e, rmapM g l = Err e -> exists a, In a l /\ g a = Err e.
Proof.
  induction l as [|a l IH]; intros e E; cbn in E; [discriminate|]. destruct (g a) as [b|] eqn:G; cbn in E; [|injection E as <-; exists a; split; [left|]; auto].
  destruct (rmapM g l) as [l1|] eqn:E1; cbn in E; [discriminate|]. injection E as <-. destruct (IH _ eq_refl) as (y & I & Y). exists y. split; [right|]; auto.
Qed.
Lemma max_in l i : In i l -> i < S (list_max l).
Proof. intros I. pose proof (proj1 (list_max_le l (list_max l)) (Nat.le_refl _)) as F. rewrite Forall_forall in F. specialize (F i I). lia. Qed.
Lemma max_bound l n : l <> [] -> (forall i, In i l -> i < n) -> S (list_max l) <= n.
Proof.
  intros N H. assert (P : 0 < n) by (destruct l as [|a l]; [congruence|]; specialize (H a (or_introl eq_refl)); lia).
  assert (Q : list_max l <= n - 1) by (apply list_max_le; apply Forall_forall; intros i I; specialize (H i I); lia). lia.
Qed.
Lemma subset_spec h points features ps fs skip x t : StransSpec.Shows x t -> limitDenotes (tp t) points (Some ps) -> limitDenotes (tf t) features (Some fs) ->
  ZeroUniform (F1 h) -> OneKind true skip (F1 h) (Some ps) (Some fs) t ->
  match calculateSparse intOf floatOf strOf (F1 h) points features true skip x with
  | Ok r => wf r /\ tp r = mkAxis (alen (tp r)) None /\ tf r = mkAxis (alen (tf r)) None /\ alen (tp r) <= alen (tp t) /\ alen (tf r) <= alen (tf t) /\
      (forall i j v, cell t i j = Some v -> addressed (Some ps) (Some fs) i j -> ~ Same v (PInt 0) -> i < alen (tp r) /\ j < alen (tf r)) /\
      forall i j w, cell r i j = Some w -> exists v, cell t i j = Some v /\
        (addressed (Some ps) (Some fs) i j -> BecomesNew true skip (F1 h) v i j w) /\ (~ addressed (Some ps) (Some fs) i j -> w = PInt 0)
  | Err e => (e = ValueErr /\ forall i j v, cell t i j = Some v -> addressed (Some ps) (Some fs) i j -> Same v (PInt 0)) \/
      exists i j v, cell t i j = Some v /\ addressed (Some ps) (Some fs) i j /\ h v = Err e
  end.
Proof.
  intros W HP HF Z (k & HK & HU). pose proof (shows_SOK x t W) as (OP & OF & ON & OR). pose proof W as (WF & EP & EF & _ & _ & WC).
  assert (CELLIN : forall e, In e (xEnts x) -> cell t (er e) (ec e) = Some (ev e)).
  { intros e I. destruct (OR e I) as (R1 & R2 & _). rewrite EP in R1. rewrite EF in R2. destruct (cell_some t _ _ WF R1 R2) as (v & C & _).
    rewrite C. f_equal. rewrite <- (shows_read x t _ _ _ W C). apply readAt_in; auto. destruct e; exact I. }
  unfold calculateSparse. cbn [isOneArg andb]. rewrite EP, EF. rewrite EP in OP. rewrite EF in OF. rewrite (resolve_denotes _ _ _ OP HP), (resolve_denotes _ _ _ OF HF). cbn [rbind].
  set (g := fun v => validated true skip (F1 h) v 0 0). unfold calcSelected. rewrite select_both. cbn [rbind]. set (l := filter _ (xEnts x)).
  assert (LIN : forall e, In e l <-> In e (xEnts x) /\ addressed (Some ps) (Some fs) (er e) (ec e)).
  { intros e. unfold l. rewrite filter_In. pose proof (within_addressed (Some ps) (Some fs) e) as [A _]. rewrite A. reflexivity. }
  assert (NDL : NoDup (map pos l)) by (apply NoDup_map_filter; exact ON).
  assert (KK : forall e r, In e l -> g (ev e) = Ok r -> kindOf r = k \/ r = PFloat 0).
  { intros e r I G. apply LIN in I. destruct I as [I A]. apply (validated_kind true skip (F1 h) (ev e) (er e) (ec e) r k Z HK); [|exact G]. intros y. apply HU; [apply CELLIN; exact I|exact A]. }
  assert (INL : forall i j v, cell t i j = Some v -> addressed (Some ps) (Some fs) i j -> ~ Same v (PInt 0) -> In (mkE i j v) l).
  { intros i j v C A NZ. apply LIN. split; [|exact A]. destruct (WC i j v C) as [I|[-> _]]; [exact I|]. exfalso. apply NZ. apply zero_same0. }
  unfold vectorizedOnce. destruct (rmapM g (map ev l)) as [vals|e] eqn:EV; cbn [rbind].
  2:{ right. destruct (rmapM_err _ _ _ EV) as (v & I & G). apply in_map_iff in I. destruct I as (e0 & <- & I). apply LIN in I. destruct I as [I A].
      exists (er e0), (ec e0), (ev e0). split; [apply CELLIN; exact I|]. split; [exact A|]. exact (validated_err true skip (F1 h) (ev e0) 0 0 e G). }
  destruct (rmapM_ok _ _ _ EV) as (LV & NV). rewrite map_length in LV.
  destruct vals as [|first vals'] eqn:EVs.
  { left. split; [reflexivity|]. intros i j v C A. destruct (pyEq v (PInt 0)) eqn:Q; [apply pyEq_spec; exact Q|]. exfalso.
    assert (I : In (mkE i j v) l) by (apply INL; auto; intros S; apply pyEq_spec in S; congruence). destruct l; [destruct I|discriminate LV]. }
  rewrite <- EVs in *. assert (E0 : exists e0, nth_error l 0 = Some e0) by (apply nth_error_is_some; rewrite <- LV, EVs; cbn; lia). destruct E0 as (e0 & E0).
  assert (F0 : g (ev e0) = Ok first). { destruct (NV 0 (ev e0)) as (b & B & G); [rewrite nth_error_map_eq, E0; reflexivity|]. rewrite EVs in B. cbn in B. congruence. }
  destruct (rmapM_all (castLike intOf floatOf strOf first) vals) as (data & ED).
  { intros a I. apply In_nth_error in I. destruct I as (b & B). destruct (nth_error_is_some l (i := b)) as (e & E); [rewrite <- LV; exact (nth_error_lt _ _ B)|].
    destruct (NV b (ev e)) as (a' & B' & G); [rewrite nth_error_map_eq, E; reflexivity|]. assert (a' = a) by congruence. subst a'.
    apply (cast_total k); [exact (KK _ _ (nth_error_In _ _ E0) F0)|exact (KK _ _ (nth_error_In _ _ E) G)|exact (HK eq_refl)]. }
  rewrite ED. cbn [rbind]. destruct (rmapM_ok _ _ _ ED) as (LD & ND). rewrite LV in LD.
  assert (VAL : forall b e u, nth_error l b = Some e -> nth_error data b = Some u -> exists r, g (ev e) = Ok r /\ (u = r \/ Same u r \/ (r = PNone /\ u = PNaN)) /\ forall s, u <> PStr s).
  { intros b e u N U. destruct (NV b (ev e)) as (r & B & G); [rewrite nth_error_map_eq, N; reflexivity|]. destruct (ND b r B) as (u' & U' & C). assert (u' = u) by congruence. subst u'.
    exists r. split; [exact G|]. pose proof (KK _ _ (nth_error_In _ _ N) G) as K1. pose proof (KK _ _ (nth_error_In _ _ E0) F0) as J1.
    assert (RR : u = r \/ Same u r \/ (r = PNone /\ u = PNaN)) by (apply (cast_lossless intOf floatOf strOf k first r u J1 K1); [intros KS; exfalso; exact (HK eq_refl KS)|exact C]).
    split; [exact RR|]. intros s ->. assert (X : exists s', r = PStr s').
    { destruct RR as [<-|[RR|[_ RR]]]; [eauto| |discriminate]. inversion RR as [? ? ? ? A| | | |]; subst; [inversion A|eauto]. }
    destruct X as (s' & ->). destruct K1 as [K1|K1]; [|discriminate]. exact (HK eq_refl (eq_sym K1)). }
  assert (WI : forall i j w, In (mkE i j w) (withData l data) <-> exists b e, nth_error l b = Some e /\ er e = i /\ ec e = j /\ nth_error data b = Some w) by (intros; apply withData_in; exact LD).
  set (N := S (list_max (map er l))). set (K := S (list_max (map ec l))).
  assert (LNE : l <> []) by (intros E; rewrite E in E0; discriminate).
  assert (BN : forall e, In e l -> er e < N /\ ec e < K) by (intros e I; split; apply max_in; apply in_map; exact I).
  assert (BT : N <= alen (tp t) /\ K <= alen (tf t)).
  { split; apply max_bound; try (intros E; apply LNE; destruct l; [reflexivity|discriminate]); intros i I; apply in_map_iff in I; destruct I as (e & <- & I); apply LIN in I; destruct I as (I & _);
      destruct (OR e I) as (R1 & R2 & _); rewrite EP in R1; rewrite EF in R2; assumption. }
  destruct (new_spec intOf floatOf strOf N K (withData l data)) as (r & -> & WR & TP & TF & C).
  { intros e I. destruct e as [i j w]. apply WI in I. destruct I as (b & e & E & <- & <- & _). cbn [er ec]. apply (BN e). eapply nth_error_In; eauto. }
  { rewrite withData_pos by exact LD. exact NDL. }
  { intros e s I. destruct e as [i j w]. apply WI in I. destruct I as (b & e & E & <- & <- & U). destruct (VAL b e w E U) as (_ & _ & _ & T). apply T. }
  rewrite TP, TF. cbn [alen]. split; [exact WR|]. split; [reflexivity|]. split; [reflexivity|]. split; [apply BT|]. split; [apply BT|]. split; [intros i j v CV A NZ; apply (BN (mkE i j v)); apply INL; auto|].
  intros i j w0 CW0. destruct (cell_range r i j w0 WR CW0) as [Ri Rj]. rewrite TP in Ri. rewrite TF in Rj. cbn [alen] in Ri, Rj.
  destruct (C i j Ri Rj) as (w & CW & S1 & S2). assert (w0 = noneToNan w) by congruence. subst w0. destruct BT as [BT1 BT2].
  destruct (cell_some t i j WF (Nat.lt_le_trans _ _ _ Ri BT1) (Nat.lt_le_trans _ _ _ Rj BT2)) as (v & CV & _). exists v. split; [exact CV|].
  assert (OUT : (forall u, ~ In (mkE i j u) l) -> noneToNan w = PInt 0).
  { intros NI. rewrite S2; [reflexivity|]. intros u I. apply WI in I. destruct I as (b & e & E & E1 & E2 & _). apply nth_error_In in E. apply (NI (ev e)). destruct e. cbn in *. subst. exact E. }
  split; [|intros NA; apply OUT; intros u I; apply LIN in I; apply NA; apply I].
  intros A. destruct (WC i j v CV) as [I|[-> NI]].
  - assert (IL : In (mkE i j v) l) by (apply LIN; auto). apply In_nth_error in IL. destruct IL as (b & E). destruct (nth_error_is_some data (i := b)) as (u & U); [rewrite LD; exact (nth_error_lt _ _ E)|].
    destruct (VAL b _ u E U) as (r0 & G & RR & _). cbn [ev] in G. assert (B : Becomes true skip (F1 h) v i j r0) by (apply validated_becomes; [exact Z|exact G]).
    assert (IW : In (mkE i j u) (withData l data)) by (apply WI; exists b, (mkE i j v); auto).
    destruct (S1 u IW) as [SU|[SZ ->]].
    + eapply BecomesNew_intro; [exact B|]. destruct SU as [SU|[-> ->]].
      * assert (SS : Same w u) by (apply MergeLoopProofs.Same_sym; exact SU).
        destruct RR as [->|[RR|[-> ->]]]; [right; left; exact SS|right; left; exact (Same_trans _ _ _ SS RR)|]. inversion SS as [? ? ? ? ? Q| | | |]; subst; inversion Q.
      * destruct RR as [<-|[RR|[-> _]]]; [left; reflexivity| |right; right; auto]. inversion RR as [? ? ? ? Q| | | |]; subst. inversion Q.
    + assert (S0 : Same (PInt 0) u) by (apply MergeLoopProofs.Same_sym; exact SZ).
      eapply BecomesNew_intro; [exact B|]. destruct RR as [<-|[RR|[_ ->]]]; [right; left; exact S0|right; left; exact (Same_trans _ _ _ S0 RR)|]. inversion S0 as [? ? ? ? ? Q| | | |]; subst; inversion Q.
  - rewrite OUT; [|intros u I; apply LIN in I; exact (NI u (proj1 I))]. left. left. split; [reflexivity|]. split; apply zero_same0.
Qed.
End R.
