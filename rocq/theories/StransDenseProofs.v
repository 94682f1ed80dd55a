(** Proofs for C81: transformElements of Sparse objects with other functions. *)
From Verif Require Import Base NamesModel NamesSpec NamesProofs TableModel TableSpec TableProofs TableOps TableOpsProofs TableOps3Proofs SparseModel SparseSpec MatchModel MatchSpec MatchProofs GetSpec GetCountProofs
  ElementsModel ElementsSpec ElementsProofs ElementsCalcProofs BinOpModel BinOpProofs CopyModel CopySpec CopyProofs TypedModel TypedSpec TypedProofs TypedTransformProofs StransModel StransSpec StransProofs StransElemProofs.
From Coq Require Import List String QArith Lia. Import ListNotations.
Open Scope nat_scope.
Notation len := List.length.
Lemma out_addressed ps fs i j : (outside ps i || outside fs j = false <-> addressed ps fs i j) /\ (outside ps i || outside fs j = true <-> ~ addressed ps fs i j).
Proof.
  unfold addressed. pose proof (outside_chosen ps i) as [A B]. pose proof (outside_chosen fs j) as [C D].
  destruct (outside ps i), (outside fs j); cbn; intuition discriminate.
Qed.
Section S.
Variable floatOf : string -> option pval.
Variable intOf : string -> option Z.
Variable strOf : pval -> string.
Section D.
Variables (skip : bool) (f : efun) (ps fs : option (list nat)) (t : table pval).
Hypothesis NZ : zeroPreserving false f = false.
Hypothesis OKS : skip = true \/ NeverNone f ps fs t.
Notation h := (wrapperF (validated false skip f) ps fs).
Lemma validated_call v i j r : validated false skip f v i j = Ok r -> exists r0, callF f v i j = Ok r0 /\ r = orSkip skip v r0.
Proof. unfold validated. rewrite NZ. cbn [andb]. destruct (callF f v i j) as [r0|]; cbn; [|discriminate]. intros [= <-]. exists r0. split; auto. Qed.
Lemma wrapper_after v i j r : cell t i j = Some v -> callF h v i j = Ok r -> After skip f ps fs v i j (orSkip true v r).
Proof.
  intros C. cbn [callF wrapperF]. pose proof (out_addressed ps fs i j) as [A B]. destruct (outside ps i || outside fs j) eqn:O.
  - intros [= <-]. split; [intros AD; apply B in AD; [destruct AD|reflexivity]|]. intros _. cbn. apply same_el.
  - intros V. destruct (validated_call _ _ _ _ V) as (r0 & C0 & ->). assert (AD : addressed ps fs i j) by (apply A; reflexivity).
    split; [|contradiction]. intros _. right. split; [left; reflexivity|]. exists r0. split; [exact C0|]. left.
    destruct r0; try reflexivity. cbn. destruct skip eqn:SK; [destruct v; reflexivity|]. destruct OKS as [E|E]; [discriminate|]. exfalso. exact (E i j v C AD C0).
Qed.
Lemma After_same v i j r w : After skip f ps fs v i j r -> Same w r -> After skip f ps fs v i j w.
Proof.
  intros (A & B) SW. split.
  - intros AD. destruct (A AD) as [[C _]|[Z (r0 & C & H)]]; [discriminate|]. right. split; auto. exists r0. split; auto. right.
    destruct H as [->|H]; [exact SW|]. eapply Same_trans; eauto.
  - intros N. eapply SameElement_trans; [exact (B N)|]. left. inversion SW as [p q a b X Y Q1| | | |]; subst; try constructor. econstructor; eauto. symmetry. exact Q1.
Qed.
Lemma becomes_after v i j w : cell t i j = Some v -> Becomes false true h v i j w -> After skip f ps fs v i j w.
Proof.
  intros C [[E _]|[_ (r & E & H)]]; [discriminate|]. pose proof (wrapper_after v i j r C E) as A. destruct H as [->|H]; auto. eapply After_same; eauto.
Qed.
Lemma header_like p q : LikeHeader false true h (seq 0 p) (seq 0 q) t -> wf t -> alen (tf t) = q -> HeaderLike skip f ps fs t.
Proof.
  intros (i0 & i1 & rest & E & A & (j & v & w & IJ & C & B & N)) W L.
  assert (i0 = 0 /\ i1 = 1) as [-> ->]. { destruct p as [|[|p]]; try discriminate E. cbn in E. injection E as <- <- _. auto. }
  split.
  - intros j' v' C'. destruct (A j' v') as (s & B'); [apply in_seq; pose proof (cell_range t 0 j' v' W C'); lia|exact C'|]. exists s. apply becomes_after; auto.
  - exists j, v, w. split; auto. split; auto. apply becomes_after; auto.
Qed.
End D.
Lemma withNames_named n o : withNames (mkAxis n None) o = namedAxis n o.
Proof. destruct o; reflexivity. Qed.
Lemma dense_spec f points features ps fs pz skip x t : Shows x t -> limitDenotes (tp t) points ps -> limitDenotes (tf t) features fs ->
  zeroPreserving pz f = false -> (skip = true \/ NeverNone f ps fs t) -> ~ HeaderLike skip f ps fs t ->
  let res := transformElementsSparse floatOf intOf strOf f points features pz skip x in
  match snd res with
  | Ok _ => exists t', Shows (fst res) t' /\ NoZeros (fst res) /\ alen (tp t') = alen (tp t) /\ alen (tf t') = alen (tf t) /\
      getNames (tp t') = getNames (tp t) /\ getNames (tf t') = getNames (tf t) /\
      forall i j v, cell t i j = Some v -> exists w, cell t' i j = Some w /\
      exists r, After skip f ps fs v i j r /\ Returned r w
  | Err e => fst res = x /\ exists a b u, cell t a b = Some u /\ addressed ps fs a b /\ callF f u a b = Err e
  end.
Proof.
  intros W HP HF Z OKS NH. pose proof (shows_SOK x t W) as SK. pose proof SK as (OP & OF & ON & OR). pose proof W as (WF & EP & EF & _ & _ & WC).
  assert (PZ : pz = false) by (unfold zeroPreserving in Z; destruct pz; [discriminate|reflexivity]). subst pz.
  cbn zeta. unfold transformElementsSparse. rewrite EP, EF. pose proof OP as OP'. pose proof OF as OF'. rewrite EP in OP'. rewrite EF in OF'. rewrite (resolve_denotes _ _ _ OP' HP), (resolve_denotes _ _ _ OF' HF), Z.
  assert (CD : forall i j v, cell t i j = Some v <-> cell (denseOf x) i j = Some v).
  { intros i j v. split; intros C.
    - pose proof (cell_range t i j v WF C) as [R1 R2]. apply dense_cell. rewrite EP, EF. split; auto. split; auto. symmetry. apply (shows_read x t); auto.
    - apply dense_cell in C. destruct C as (R1 & R2 & ->). rewrite EP in R1. rewrite EF in R2. destruct (cell_some t i j WF R1 R2) as (v & C & _). rewrite C. f_equal. symmetry. apply (shows_read x t); auto. }
  destruct (SOK_shows x SK) as (WD & _).
  assert (OKD : skip = true \/ NeverNone f ps fs (denseOf x)). { destruct OKS as [E|E]; [left; exact E|right]. intros i j v C. apply E. apply CD. exact C. }
  set (h := wrapperF (validated false skip f) ps fs).
  pose proof (calculateOnElements_spec (fun s => option_map PInt (intOf s)) floatOf strOf (denseOf x) h None None None None false true WD Logic.I Logic.I
    ltac:(discriminate) ltac:(discriminate) Logic.I ltac:(discriminate)) as CS.
  cbn zeta in CS. unfold transformDense. fold h.
  assert (NL : isOneArg h = false -> ~ LikeHeader false true h (positionsOf (alen (tp (denseOf x))) None) (positionsOf (alen (tf (denseOf x))) None) (denseOf x)).
  { intros _ LH. apply NH. cbn [positionsOf] in LH. apply (header_like skip f ps fs (denseOf x) Z OKD _ _) in LH; auto. destruct LH as (A & (j & v & w & C & B & N)). split.
    - intros j' v' C'. apply (A j' v'). apply CD. exact C'.
    - exists j, v, w. split; [apply CD; exact C|]. auto. }
  specialize (CS NL). destruct (calculateOnElements _ floatOf strOf (denseOf x) h None None false true) as [r|e]; cbn [fst snd].
  2:{ destruct CS as (i & j & v & _ & C & E). cbn [fst snd]. split; auto. exists i, j, v. split; [apply CD; exact C|].
      unfold h in E. cbn [callF wrapperF] in E. pose proof (out_addressed ps fs i j) as [A _]. destruct (outside ps i || outside fs j); [discriminate|]. split; [apply A; reflexivity|].
      eapply validated_err. exact E. }
  destruct CS as (WR & TP & TF & CC). cbn [positionsOf] in *. rewrite seq_length in TP, TF. cbn [denseOf tp tf] in TP, TF.
  rewrite !withNames_named, TP, TF. cbn [alen]. destruct (namedAxis_same (xTp x) OP) as (a & -> & A1 & A2 & A3). destruct (namedAxis_same (xTf x) OF) as (b & -> & B1 & B2 & B3). cbn [fst snd].
  set (x' := mkS a b DObj (newEntries Pts 0 (rows r))).
  assert (CR : forall i j v, nth_error (rows r) i = Some v -> forall w, nth_error v j = Some w -> cell r i j = Some w).
  { intros i j v H w H'. unfold cell. rewrite H. exact H'. }
  assert (SK' : SOK x').
  { split; [exact A2|]. split; [exact B2|]. split; [apply new_nodup|]. intros e I. apply new_in in I. destruct I as (i & j & v & l & -> & H1 & H2 & _).
    pose proof (cell_range r i j v WR (CR _ _ _ H1 _ H2)) as [R1 R2]. rewrite TP in R1. rewrite TF in R2. cbn in R1, R2 |- *. rewrite A1, B1. auto. }
  exists (denseOf x'). split; [apply SOK_shows; exact SK'|]. split.
  { intros e I. apply new_in in I. destruct I as (i & j & v & l & -> & _ & _ & H). exact H. }
  cbn [denseOf x' tp tf xTp xTf]. rewrite A1, B1, A3, B3, EP, EF. repeat (split; [reflexivity|]).
  intros i j v C. pose proof (cell_range t i j v WF C) as [R1 R2]. pose proof (proj1 (CD i j v) C) as C0.
  destruct (CC i j i j v) as (w & CW & BN); auto.
  { cbn [denseOf tp]. rewrite EP, nth_error_seq. apply Nat.ltb_lt in R1. rewrite R1. reflexivity. }
  { cbn [denseOf tf]. rewrite EF, nth_error_seq. apply Nat.ltb_lt in R2. rewrite R2. reflexivity. }
  exists (readAt (xEnts x') i j). split; [apply dense_cell; cbn; rewrite A1, B1, EP, EF; auto|].
  assert (RD : SameElement w (readAt (xEnts x') i j)).
  { unfold cell in CW. destruct (nth_error (rows r) i) as [l|] eqn:H1; [|discriminate]. destruct (nonzero w) eqn:NZ.
    - rewrite (readAt_in _ i j w); [apply same_el|apply new_nodup|]. apply new_in. exists i, j, w, l. apply nonzero_true in NZ. auto.
    - apply nonzero_false in NZ. rewrite readAt_out; [left; exact NZ|]. intros u I. apply new_in in I. destruct I as (i' & j' & v' & l' & E & H2 & H3 & N).
      cbn in E. injection E as <- <- ->. assert (l' = l) by congruence. subst l'. congruence. }
  assert (AF : forall u, Becomes false true h v i j u -> After skip f ps fs v i j u) by (intros u; apply (becomes_after skip f ps fs (denseOf x) Z OKD v i j u C0)).
  destruct BN as [B|[-> B]].
  - exists w. split; [apply AF; exact B|]. left. exact RD.
  - exists PNone. split; [apply AF; exact B|]. eapply Returned_same; [right; auto|exact RD].
Qed.
End S.
