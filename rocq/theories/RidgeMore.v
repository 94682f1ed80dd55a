(** The learner for several outputs, the order of the points, solve and inverse
    (C76). *)
From Coq Require Import QArith Lqa Permutation.
From Verif Require Import Base NamesModel NamesSpec NamesProofs TableModel TableSpec TableProofs MatchModel MatchSpec ElementsProofs BinOpModel BinOpProofs CopyRawProofs RidgeModel RidgeSpec RidgeAlgebra RidgeProofs.
From Coq Require Import List. Import ListNotations.
Open Scope nat_scope.

(** ** several outputs *)
Lemma oneFeature_real t n k A c : IsReal t n k A -> c < k -> IsReal (oneFeature t c) n 1 (fun i _ => A i c).
Proof.
  intros (W & N & K & E) C. destruct W as (L & R & IP & IF). unfold oneFeature. split; [|split; [exact N|split; [reflexivity|]]].
  - split; [cbn; rewrite map_length; exact L|]. split; [|split; apply fresh_Inv]. intros r X. cbn [rows] in X. apply in_map_iff in X. destruct X as (x & <- & _). reflexivity.
  - intros i j I J. destruct (E i c I C) as (v & q & Cv & Nv & Qv). exists v, q. split; [|split; assumption].
    unfold cell in *. cbn [rows]. rewrite nth_error_map. destruct (nth_error (rows t) i) as [r|] eqn:Er; [|discriminate]. cbn [option_map].
    assert (j = 0) by lia. subst j. cbn [nth_error]. f_equal. apply nth_error_nth. exact Cv.
Qed.
Section Append.
Variables (n : nat).
Definition okT (t : table pval) (k : nat) : Prop := List.length (rows t) = n /\ (forall r, In r (rows t) -> List.length r = k) /\ alen (tp t) = n /\ Inv (tp t) /\ alen (tf t) = k /\ Inv (tf t).
Lemma appendFts_ok a b k l : okT a k -> okT b l -> okT (appendFts a b) (k + l) /\
  forall i j, i < n -> cell (appendFts a b) i j = if j <? k then cell a i j else cell b i (j - k).
Proof.
  intros (La & Ra & Pa & Ia & Fa & Ja) (Lb & Rb & Pb & Ib & Fb & Jb). split.
  - split; [cbn; rewrite map_length, combine_length; lia|]. split; [|split; [exact Pa|split; [exact Ia|split; [cbn; lia|apply fresh_Inv]]]].
    intros r X. cbn [appendFts rows] in X. apply in_map_iff in X. destruct X as ((x & y) & <- & X). cbn [fst snd]. rewrite app_length. rewrite (Ra x) by (eapply in_combine_l; exact X). rewrite (Rb y) by (eapply in_combine_r; exact X). reflexivity.
  - intros i j I. unfold cell. cbn [appendFts rows]. rewrite nth_error_map, nth_error_combine.
    destruct (nth_error (rows a) i) as [x|] eqn:Ex; [|apply nth_error_None in Ex; lia]. destruct (nth_error (rows b) i) as [y|] eqn:Ey; [|apply nth_error_None in Ey; lia].
    cbn [option_map fst snd]. pose proof (Ra x (nth_error_In _ _ Ex)) as Lx. destruct (j <? k) eqn:E.
    + apply Nat.ltb_lt in E. apply nth_error_app1. lia.
    + apply Nat.ltb_ge in E. rewrite nth_error_app2 by lia. rewrite Lx. reflexivity.
Qed.
Lemma appendAll : forall (rs : list (table pval)) acc k, okT acc k -> (forall r, In r rs -> okT r 1) ->
  okT (fold_left appendFts rs acc) (k + List.length rs) /\
  (forall i j, i < n -> j < k -> cell (fold_left appendFts rs acc) i j = cell acc i j) /\
  (forall i c r, i < n -> nth_error rs c = Some r -> cell (fold_left appendFts rs acc) i (k + c) = cell r i 0).
Proof.
  induction rs as [|r rs IH]; intros acc k A R.
  - cbn [fold_left List.length]. rewrite Nat.add_0_r. split; [exact A|]. split; [reflexivity|]. intros i c r I E. destruct c; discriminate.
  - cbn [fold_left List.length]. destruct (appendFts_ok acc r k 1 A (R r (or_introl eq_refl))) as [O C].
    destruct (IH (appendFts acc r) (k + 1) O) as (O' & C1 & C2); [intros x X; apply R; right; exact X|].
    split; [replace (k + S (List.length rs)) with (k + 1 + List.length rs) by lia; exact O'|]. split.
    + intros i j I J. rewrite C1, C by lia. replace (j <? k) with true by (symmetry; apply Nat.ltb_lt; lia). reflexivity.
    + intros i c x I E. destruct c as [|c].
      * cbn in E. injection E as <-. rewrite C1, C by lia. replace (k + 0 <? k) with false by (symmetry; apply Nat.ltb_ge; lia). f_equal. lia.
      * cbn [nth_error] in E. replace (k + S c) with (k + 1 + c) by lia. exact (C2 i c x I E).
Qed.
End Append.

Section Multi.
Variable floatOf : string -> option pval.
Variable inv : list (list Q) -> result (list (list Q)).
Hypothesis GI : Inverts inv.
Lemma multi_each tX tY n f k X Y lamb ws : IsReal tX n f X -> IsReal tY n k Y -> NotBooleans tX -> multiTrain floatOf inv lamb tX tY = Ok ws ->
  List.length ws = k /\ forall c w, nth_error ws c = Some w -> c < k /\ IsReal (oneFeature tY c) n 1 (fun i _ => Y i c) /\ ridgeTrain floatOf inv lamb tX (oneFeature tY c) = Ok w.
Proof.
  intros HX HY NB E. unfold multiTrain in E. assert (K : alen (tf tY) = k) by apply HY. rewrite K in E.
  pose proof (rmapM_ok_length _ _ E) as L. rewrite seq_length in L. split; [exact L|]. intros c w W. pose proof (nth_error_lt _ _ W) as C. rewrite L in C.
  split; [exact C|]. split; [apply (oneFeature_real tY n k); assumption|].
  assert (S' : nth_error (seq 0 k) c = Some c) by (rewrite nth_error_seq; apply Nat.ltb_lt in C; rewrite C; reflexivity).
  destruct (rmapM_ok_nth _ _ E _ S') as (w' & W' & H). congruence.
Qed.
Lemma multi_predicts tX tY T n f k m X Y Z lamb ws : IsReal tX n f X -> IsReal tY n k Y -> NotBooleans tX -> IsReal T m f Z -> (0 <= lamb)%Q -> 0 < k ->
  multiTrain floatOf inv lamb tX tY = Ok ws ->
  exists r, multiApply floatOf ws T = Ok r /\ wf r /\ alen (tp r) = m /\ alen (tf r) = k /\
    forall c, c < k -> exists w : nat -> Q, (forall v, (loss n f X (fun i => Y i c) lamb w <= loss n f X (fun i => Y i c) lamb v)%Q) /\
      forall i, i < m -> exists q, cell r i c = Some (PFloat q) /\ (q == predicted f (Z i) w)%Q.
Proof.
  intros HX HY NB HT L0 K0 E. destruct (multi_each _ _ _ _ _ _ _ _ _ HX HY NB E) as [LW EW].
  destruct (rmapM_total (fun w => ridgeApply floatOf w T) ws) as [rs Er].
  { intros w W. apply In_nth_error in W. destruct W as [c W]. destruct (EW c w W) as (C & HO & TR).
    destruct (ridge_Normal floatOf inv GI tX (oneFeature tY c) n f 1 X (fun i _ => Y i c) lamb w HX HO NB TR) as (Aw & Bw & _).
    destruct (ridgeApply_spec floatOf w T m f 1 _ Z Aw Bw HT) as (r & H & _). exists r. exact H. }
  assert (RS : forall c r, nth_error rs c = Some r -> c < k /\ okT m r 1 /\ exists w : nat -> Q, (forall v, (loss n f X (fun i => Y i c) lamb w <= loss n f X (fun i => Y i c) lamb v)%Q) /\
      forall i, i < m -> exists q, cell r i 0 = Some (PFloat q) /\ (q == predicted f (Z i) w)%Q).
  { intros c r R. pose proof (nth_error_lt _ _ R) as C. rewrite (rmapM_ok_length _ _ Er) in C.
    destruct (nth_error ws c) as [w|] eqn:W; [|apply nth_error_None in W; lia]. destruct (rmapM_ok_nth _ _ Er _ W) as (r' & R' & H). rewrite R in R'. injection R' as <-.
    destruct (EW c w W) as (Ck & HO & TR). split; [exact Ck|].
    destruct (ridge_Normal floatOf inv GI tX (oneFeature tY c) n f 1 X (fun i _ => Y i c) lamb w HX HO NB TR) as (Aw & Bw & N & NV & NN).
    destruct (ridgeApply_spec floatOf w T m f 1 _ Z Aw Bw HT) as (r2 & H2 & Wr & Pr & Fr & Cr). rewrite H in H2. injection H2 as <-. destruct Wr as (W1 & W2 & W3 & W4). split.
    - split; [lia|]. split; [intros x Hx; rewrite (W2 x Hx); exact Fr|]. repeat (split; [assumption|]). assumption.
    - exists (fun j => qat (av w) j 0). split; [exact (minimal n f X (fun i => Y i c) lamb L0 _ (NN 0 ltac:(lia)))|]. intros i I. exact (Cr i 0 I ltac:(lia)). }
  unfold multiApply. rewrite Er. cbn [rbind]. pose proof (rmapM_ok_length _ _ Er) as LR. destruct rs as [|r rest]; [cbn in LR; lia|].
  assert (O1 : okT m r 1) by apply (RS 0 r eq_refl).
  destruct (appendAll m rest r 1 O1) as (O & C1 & C2).
  { intros x Hx. apply In_nth_error in Hx. destruct Hx as [c Hx]. apply (RS (S c) x Hx). }
  eexists. split; [reflexivity|]. destruct O as (P1 & P2 & P3 & P4 & P5 & P6). cbn [List.length] in LR.
  split; [split; [lia|]; split; [intros x Hx; rewrite (P2 x Hx); lia|split; assumption]|]. split; [exact P3|]. split; [lia|].
  intros c C. destruct c as [|c].
  - destruct (RS 0 r eq_refl) as (_ & _ & w & MW & CW). exists w. split; [exact MW|]. intros i I. rewrite (C1 i 0 I ltac:(lia)). exact (CW i I).
  - destruct (nth_error rest c) as [x|] eqn:Ex; [|apply nth_error_None in Ex; lia]. destruct (RS (S c) x Ex) as (_ & _ & w & MW & CW). exists w. split; [exact MW|].
    intros i I. change (S c) with (1 + c). rewrite (C2 i c x I Ex). exact (CW i I).
Qed.
(** the two learners agree *)
Lemma multi_same tX tY T n f k m X Y Z lamb w : IsReal tX n f X -> IsReal tY n k Y -> NotBooleans tX -> IsReal T m f Z -> (0 <= lamb)%Q -> 0 < k ->
  ridgeTrain floatOf inv lamb tX tY = Ok w ->
  exists ws r r', multiTrain floatOf inv lamb tX tY = Ok ws /\ multiApply floatOf ws T = Ok r /\ ridgeApply floatOf w T = Ok r' /\
    alen (tp r) = m /\ alen (tp r') = m /\ alen (tf r) = k /\ alen (tf r') = k /\
    forall i c, i < m -> c < k -> exists q q', cell r i c = Some (PFloat q) /\ cell r' i c = Some (PFloat q') /\ (q == q')%Q.
Proof.
  intros HX HY NB HT L0 K0 E. destruct (ridge_Normal floatOf inv GI _ _ _ _ _ _ _ _ _ HX HY NB E) as (Aw & Bw & N & NV & NN).
  assert (MT : exists ws, multiTrain floatOf inv lamb tX tY = Ok ws).
  { unfold multiTrain. apply rmapM_total. intros c C. apply in_seq in C. assert (K : alen (tf tY) = k) by apply HY.
    pose proof (oneFeature_real tY n k Y c HY ltac:(lia)) as HO. pose proof (ridgeTrain_spec floatOf inv GI tX _ n f 1 X _ lamb HX HO NB) as TS.
    destruct (ridgeTrain floatOf inv lamb tX (oneFeature tY c)) as [wc|e]; [exists wc; reflexivity|]. exfalso.
    destruct TS as (v & (j & J & NZ) & KK). apply NZ. rewrite <- (sum_unit_l f v j J).
    transitivity (sum f (fun k => mm f N (gram n X lamb) j k * v k))%Q; [apply sum_ext; intros l Ll; destruct (NV j l J Ll) as [_ R]; unfold mm; rewrite R; reflexivity|].
    rewrite mv_assoc. apply sum_zero. intros l Ll. rewrite (KK l Ll). ring. }
  destruct MT as [ws MT]. destruct (multi_predicts tX tY T n f k m X Y Z lamb ws HX HY NB HT L0 K0 MT) as (r & Er & Wr & Pr & Fr & Cr).
  destruct (ridgeApply_spec floatOf w T m f k _ Z Aw Bw HT) as (r' & Er' & Wr' & Pr' & Fr' & Cr').
  exists ws, r, r'. repeat (split; [assumption|]). intros i c I C. destruct (Cr c C) as (wc & MC & CC). destruct (CC i I) as (q & Cq & Qq). destruct (Cr' i c I C) as (q' & Cq' & Qq').
  exists q, q'. split; [exact Cq|]. split; [exact Cq'|]. rewrite Qq, Qq'. apply sum_ext. intros j J.
  assert (U : (wc j == qat (av w) j c)%Q) by (exact (unique n f X (fun i => Y i c) lamb L0 N _ NV (NN c C) wc (MC _) j J)). rewrite U. reflexivity.
Qed.
(** ** the order of the training points does not matter *)
Lemma sum_list n f : (sum n f == fold_right Qplus 0 (map f (seq 0 n)))%Q.
Proof.
  induction n as [|n IH]; [reflexivity|]. rewrite seq_S, map_app, fold_right_app. cbn [sum map fold_right plus]. rewrite IH. clear IH.
  assert (H : forall l x, (fold_right Qplus 0 l + x == fold_right Qplus x l)%Q).
  { induction l as [|y l IHl]; intros x; cbn [fold_right]; [ring|]. rewrite <- (IHl x). ring. }
  rewrite H. assert (F : forall l x x', (x == x')%Q -> (fold_right Qplus x l == fold_right Qplus x' l)%Q) by (induction l as [|y l IHl]; intros x x' Hx; cbn [fold_right]; [exact Hx|rewrite (IHl _ _ Hx); reflexivity]).
  apply F. ring.
Qed.
Lemma fold_perm l l' : Permutation l l' -> (fold_right Qplus 0 l == fold_right Qplus 0 l')%Q.
Proof. induction 1; cbn [fold_right]; [reflexivity|rewrite IHPermutation; reflexivity|ring|etransitivity; eassumption]. Qed.
Lemma sum_perm n f p : Permutation (map p (seq 0 n)) (seq 0 n) -> (sum n (fun i => f (p i)) == sum n f)%Q.
Proof. intros P. rewrite !sum_list. apply fold_perm. rewrite <- map_map. apply Permutation_map. exact P. Qed.
Lemma ridge_order tX tY tX' tY' n f k X Y p lamb w w' : IsReal tX n f X -> IsReal tY n k Y -> NotBooleans tX -> NotBooleans tX' -> (0 <= lamb)%Q ->
  Permutation (map p (seq 0 n)) (seq 0 n) -> IsReal tX' n f (fun i => X (p i)) -> IsReal tY' n k (fun i => Y (p i)) ->
  ridgeTrain floatOf inv lamb tX tY = Ok w -> ridgeTrain floatOf inv lamb tX' tY' = Ok w' ->
  forall j c, j < f -> c < k -> (element (av w) j c == element (av w') j c)%Q.
Proof.
  intros HX HY NB NB' L0 P HX' HY' E E' j c J C.
  pose proof (ridge_minimises floatOf inv GI _ _ _ _ _ _ _ _ _ HX HY NB L0 E c C) as M. pose proof (ridge_minimises floatOf inv GI _ _ _ _ _ _ _ _ _ HX' HY' NB' L0 E' c C) as M'.
  assert (LE : forall v, (loss n f (fun i => X (p i)) (fun i => Y (p i) c) lamb v == loss n f X (fun i => Y i c) lamb v)%Q).
  { intros v. unfold loss. apply Qplus_comp; [|reflexivity]. exact (sum_perm n (fun i => (Y i c - predicted f (X i) v) * (Y i c - predicted f (X i) v))%Q p P). }
  symmetry. destruct (M (fun j => element (av w') j c)) as [_ U]. apply U; [|exact J]. destruct (M' (fun j => element (av w) j c)) as [G _]. rewrite !LE in G. exact G.
Qed.
Lemma ridge_order_total tX tY tX' tY' n f k X Y p lamb : IsReal tX n f X -> IsReal tY n k Y -> NotBooleans tX -> NotBooleans tX' ->
  Permutation (map p (seq 0 n)) (seq 0 n) -> IsReal tX' n f (fun i => X (p i)) -> IsReal tY' n k (fun i => Y (p i)) ->
  (exists w, ridgeTrain floatOf inv lamb tX tY = Ok w) -> exists w', ridgeTrain floatOf inv lamb tX' tY' = Ok w'.
Proof.
  intros HX HY NB NB' P HX' HY' (w & E). pose proof (ridgeTrain_spec floatOf inv GI tX' tY' n f k _ _ lamb HX' HY' NB') as TS.
  destruct (ridgeTrain floatOf inv lamb tX' tY') as [w'|e]; [exists w'; reflexivity|]. exfalso.
  destruct (ridge_Normal floatOf inv GI _ _ _ _ _ _ _ _ _ HX HY NB E) as (_ & _ & N & NV & _). destruct TS as (v & (j & J & NZ) & KK). apply NZ. rewrite <- (sum_unit_l f v j J).
  transitivity (sum f (fun k => mm f N (gram n X lamb) j k * v k))%Q; [apply sum_ext; intros l Ll; destruct (NV j l J Ll) as [_ R]; unfold mm; rewrite R; reflexivity|].
  rewrite mv_assoc. apply sum_zero. intros l Ll.
  assert (G0 : (sum f (fun l' => gram n X lamb l l' * v l') == 0)%Q).
  { rewrite <- (KK l Ll). apply sum_ext. intros l' Ll'. apply Qmult_comp; [|reflexivity]. unfold gram. apply Qplus_comp; [|reflexivity]. symmetry. exact (sum_perm n (fun i => X i l * X i l')%Q p P). }
  rewrite G0. ring.
Qed.
End Multi.

(** ** solve, leastSquaresSolution, inverse *)
Section Solve.
Variable floatOf : string -> option pval.
Lemma solverCheck_vector square a b n k A y : IsReal a n k A -> IsVector b n y -> 0 < n -> (square = true -> n = k) ->
  exists b', solverCheck square a b = Ok b' /\ IsReal b' n 1 (fun i _ => y i).
Proof.
  intros (Wa & Na & Ka & _) V N0 SQ. unfold solverCheck. rewrite Na, Ka.
  assert (S0 : square && negb (n =? k) = false) by (destruct square; [rewrite (SQ eq_refl), Nat.eqb_refl; reflexivity|reflexivity]). rewrite S0.
  destruct V as [(Wb & Nb & Kb & E)|(Wb & Nb & Kb & E)]; rewrite Nb, Kb.
  - cbn [Nat.eqb negb andb]. destruct (1 <? n) eqn:L.
    + rewrite Nat.eqb_refl. cbn [negb]. eexists. split; [reflexivity|]. destruct Wb as (L1 & R1 & IP & IF). split; [|split; [exact Kb|split; [exact Nb|]]].
      * split; [cbn; rewrite map_length, seq_length, Kb; reflexivity|]. split; [|split; assumption]. intros r X. cbn [rows] in X. apply in_map_iff in X. destruct X as (j & <- & _). cbn [tf]. rewrite map_length. exact L1.
      * intros i j I J. destruct (E 0 i ltac:(lia) I) as (v & q & C & Hv & Hq). exists v, q. split; [|split; assumption]. unfold cell in *. cbn [rows].
        rewrite nth_error_map, nth_error_seq. apply Nat.ltb_lt in I. rewrite I. cbn [option_map plus].
        destruct (rows b) as [|r l]; [discriminate|]. cbn [nth_error] in C. assert (j = 0) by lia. subst j. cbn [map nth_error]. f_equal. apply nth_error_nth. exact C.
    + apply Nat.ltb_ge in L. destruct n as [|[|n]]; [lia| |lia]. cbn [Nat.ltb Nat.leb andb]. exists b. split; [reflexivity|].
      split; [exact Wb|]. split; [exact Nb|]. split; [exact Kb|]. intros i j I J. destruct i; [|lia]. destruct j; [|lia]. exact (E 0 0 ltac:(lia) ltac:(lia)).
  - cbn [Nat.eqb negb andb]. rewrite andb_false_r. change (1 <? 1) with false. rewrite andb_false_r. exists b. split.
    + rewrite Nat.eqb_refl. cbn [negb]. destruct (1 <? n); reflexivity.
    + split; [exact Wb|]. split; [exact Nb|]. split; [exact Kb|]. exact E.
Qed.
Variable solver : list (list Q) -> list (list Q) -> result (list Q).
Definition Sizes : Prop := forall n k m b s, 0 < n -> Shape m n k -> Shape b n 1 -> solver m b = Ok s -> List.length s = k.
Lemma solve_spec square a b n k A y : Sizes -> IsReal a n k A -> IsVector b n y -> 0 < n -> (square = true -> n = k) ->
  exists m m', Shape m n k /\ Shape m' n 1 /\ (forall i j, i < n -> j < k -> (element m i j == A i j)%Q) /\ (forall i, i < n -> (element m' i 0%nat == y i)%Q) /\
  match solver m m' with
  | Err e => solve floatOf solver square a b = Err e
  | Ok s => exists r, solve floatOf solver square a b = Ok r /\ wf r /\ alen (tp r) = 1 /\ alen (tf r) = k /\ getNames (tf r) = getNames (tf a) /\ forall j, j < k -> cell r 0 j = Some (PFloat (nth j s 0%Q))
  end.
Proof.
  intros SZ HA V N0 SQ. destruct (solverCheck_vector square a b n k A y HA V N0 SQ) as (b' & Eb & HB).
  destruct (raw_spec floatOf a n k A HA) as (x & Ex & Ax & _). destruct (raw_spec floatOf b' n 1 _ HB) as (z & Ez & Az & _).
  destruct Ax as (Hx & Wx & Sx & Cx). destruct Az as (Hz & Wz & Sz & Cz).
  exists (av x), (av z). split; [exact Sx|]. split; [exact Sz|]. split; [exact Cx|]. split; [intros i I; exact (Cz i 0 I ltac:(lia))|].
  unfold solve. rewrite Eb. cbn [rbind]. rewrite Ex, Ez. cbn [rbind]. rewrite Hx, Hz, Nat.eqb_refl. cbn [negb].
  destruct (solver (av x) (av z)) as [s|e] eqn:Es; cbn [rbind]; [|reflexivity]. pose proof (SZ n k _ _ _ N0 Sx Sz Es) as Ls. rewrite Ls.
  destruct HA as (Wa & Na & Ka & _). destruct Wa as (_ & _ & _ & IF).
  destruct (namedAxis_list k (getNames (tf a))) as (fa & Ef & Lf & If & Gf); [rewrite <- Ka; apply getNames_length; exact IF|apply names_Distinct; exact IF|].
  rewrite Ef. cbn [rbind]. eexists. split; [reflexivity|]. split; [|split; [reflexivity|split; [exact Lf|split; [exact Gf|]]]].
  - split; [reflexivity|]. split; [|split; [apply fresh_Inv|exact If]]. intros r [<-|[]]. cbn [tf]. rewrite map_length, Lf. exact Ls.
  - intros j J. unfold cell. cbn [rows nth_error]. rewrite nth_error_map. destruct (nth_error s j) as [q|] eqn:Eq; [|apply nth_error_None in Eq; lia]. cbn. do 2 f_equal. symmetry. apply nth_error_nth. exact Eq.
Qed.
Lemma solve_solves a b n A y : Solves solver -> IsReal a n n A -> IsVector b n y -> 0 < n -> forall r, solve floatOf solver true a b = Ok r ->
  alen (tp r) = 1 /\ getNames (tf r) = getNames (tf a) /\ exists x : nat -> Q, IsReal r 1 n (fun _ j => x j) /\ forall i, i < n -> (sum n (fun j => A i j * x j) == y i)%Q.
Proof.
  intros SO HA V N0 r E. assert (SZ : Sizes) by (intros n' k m b' s N' Sm Sb Es; apply (SO n' k m b' s N' Sm Sb Es)).
  destruct (solve_spec true a b n n A y SZ HA V N0 (fun _ => eq_refl)) as (m & m' & Sm & Sm' & Cm & Cm' & H). destruct (solver m m') as [s|e] eqn:Es; [|congruence].
  destruct H as (r' & Er & Wr & Pr & Fr & Gr & Cr). rewrite E in Er. injection Er as <-. split; [exact Pr|]. split; [exact Gr|]. exists (fun j => nth j s 0%Q). split.
  - split; [exact Wr|]. split; [exact Pr|]. split; [exact Fr|]. intros i j I J. assert (i = 0) by lia. subst i. exists (PFloat (nth j s 0%Q)), (nth j s 0%Q). split; [exact (Cr j J)|]. split; [constructor|reflexivity].
  - intros i I. destruct (SO n n m m' s N0 Sm Sm' Es) as [_ H]. rewrite <- (Cm' i I), <- (H i I). apply sum_ext. intros j J. rewrite (Cm i j I J). reflexivity.
Qed.
Lemma residual_ext n k A A' b b' x x' : (forall i j, i < n -> j < k -> (A i j == A' i j)%Q) -> (forall i, i < n -> (b i == b' i)%Q) -> (forall j, j < k -> (x j == x' j)%Q) ->
  (residual n k A b x == residual n k A' b' x')%Q.
Proof.
  intros HA HB HX. apply sum_ext. intros i I. assert (P : (sum k (fun j => A i j * x j) == sum k (fun j => A' i j * x' j))%Q) by (apply sum_ext; intros j J; rewrite (HA i j I J), (HX j J); reflexivity).
  rewrite P, (HB i I). reflexivity.
Qed.
Lemma solve_least a b n k A y : LeastSquares solver -> IsReal a n k A -> IsVector b n y -> 0 < n -> forall r, solve floatOf solver false a b = Ok r ->
  alen (tp r) = 1 /\ getNames (tf r) = getNames (tf a) /\ exists x : nat -> Q, IsReal r 1 k (fun _ j => x j) /\ forall v, (residual n k A y x <= residual n k A y v)%Q.
Proof.
  intros SO HA V N0 r E. assert (SZ : Sizes) by (intros n' k' m b' s N' Sm Sb Es; apply (SO n' k' m b' s N' Sm Sb Es)).
  destruct (solve_spec false a b n k A y SZ HA V N0) as (m & m' & Sm & Sm' & Cm & Cm' & H); [discriminate|]. destruct (solver m m') as [s|e] eqn:Es; [|congruence].
  destruct H as (r' & Er & Wr & Pr & Fr & Gr & Cr). rewrite E in Er. injection Er as <-. split; [exact Pr|]. split; [exact Gr|]. exists (fun j => nth j s 0%Q). split.
  - split; [exact Wr|]. split; [exact Pr|]. split; [exact Fr|]. intros i j I J. assert (i = 0) by lia. subst i. exists (PFloat (nth j s 0%Q)), (nth j s 0%Q). split; [exact (Cr j J)|]. split; [constructor|reflexivity].
  - intros v. destruct (SO n k m m' s N0 Sm Sm' Es) as [_ H].
    rewrite <- (residual_ext n k (element m) A (fun i => element m' i 0%nat) y (fun j => nth j s 0%Q) _ Cm Cm' (fun _ _ => Qeq_refl _)).
    rewrite <- (residual_ext n k (element m) A (fun i => element m' i 0%nat) y v _ Cm Cm' (fun _ _ => Qeq_refl _)). apply H.
Qed.
Lemma solve_not_square a b : alen (tp a) <> alen (tf a) -> solve floatOf solver true a b = Err InvalidArgumentValue.
Proof. intros H. unfold solve, solverCheck. apply Nat.eqb_neq in H. rewrite H. reflexivity. Qed.
Lemma solve_not_vector square a b : alen (tp b) <> 1 -> alen (tf b) <> 1 -> solve floatOf solver square a b = Err InvalidArgumentValue.
Proof.
  intros P F. unfold solve, solverCheck. apply Nat.eqb_neq in P. apply Nat.eqb_neq in F. rewrite P, F. cbn [negb andb]. destruct (square && negb (alen (tp a) =? alen (tf a))); reflexivity.
Qed.
Lemma solve_incompatible square a b : (square = true -> alen (tp a) = alen (tf a)) ->
  (alen (tp b) = 1 /\ 1 < alen (tf b) /\ alen (tp a) <> alen (tf b)) \/ (alen (tf b) = 1 /\ 1 < alen (tp b) /\ alen (tp a) <> alen (tp b)) ->
  solve floatOf solver square a b = Err InvalidArgumentValueCombination.
Proof.
  intros SQ H. unfold solve, solverCheck. assert (S0 : square && negb (alen (tp a) =? alen (tf a)) = false) by (destruct square; [rewrite (SQ eq_refl), Nat.eqb_refl; reflexivity|reflexivity]). rewrite S0.
  destruct H as [(P & F & N)|(F & P & N)]; apply Nat.eqb_neq in N.
  - rewrite P, N. cbn [Nat.eqb negb andb]. apply Nat.ltb_lt in F. rewrite F. reflexivity.
  - rewrite F, N. cbn [Nat.eqb negb]. rewrite andb_false_r. change (1 <? 1) with false. rewrite andb_false_r. apply Nat.ltb_lt in P. rewrite P. reflexivity.
Qed.
End Solve.
Section Inverse.
Variable floatOf : string -> option pval.
Variable inv : list (list Q) -> result (list (list Q)).
Lemma inverse_inverts a n A : Inverts inv -> IsReal a n n A -> 0 < n ->
  match inverse floatOf inv a with
  | Ok r => exists B, IsReal r n n B /\ RidgeSpec.Inverse n A B
  | Err _ => Singular n A
  end.
Proof.
  intros GI HA N0. destruct (raw_spec floatOf a n n A HA) as (x & Ex & Ax & _). destruct HA as (W & N & K & E). unfold inverse. rewrite N, K, Nat.eqb_refl.
  assert (n =? 0 = false) as -> by (apply Nat.eqb_neq; lia). cbn [andb negb]. rewrite Ex. cbn [rbind]. destruct Ax as (Hx & Wx & Sx & Cx). pose proof (GI n _ Sx) as G.
  destruct (inv (av x)) as [m|e]; cbn [rbind].
  - destruct G as [Sm Im]. assert (Am : IsArr (mkArr (ah x) (aw x) false m) n n (element m)) by (split; [exact Hx|split; [exact Wx|split; [exact Sm|intros; reflexivity]]]).
    destruct (tableOf_spec _ _ _ _ Am) as (Wt & Pt & Ft & Ct). exists (element m). split; [|exact (Inverse_ext n _ _ _ Cx Im)].
    split; [exact Wt|]. split; [exact Pt|]. split; [exact Ft|]. intros i j I J. destruct (Ct i j I J) as (q & C & Q). exists (PFloat q), q. split; [exact C|]. split; [constructor|exact Q].
  - exact (Singular_ext n _ _ Cx G).
Qed.
Lemma inverse_not_square a : alen (tp a) <> alen (tf a) -> inverse floatOf inv a = Err InvalidArgumentValue.
Proof.
  intros H. unfold inverse. assert ((alen (tp a) =? 0) && (alen (tf a) =? 0) = false) as ->.
  { apply andb_false_iff. destruct (alen (tp a) =? 0) eqn:E; [|left; reflexivity]. right. apply Nat.eqb_eq in E. apply Nat.eqb_neq. lia. }
  apply Nat.eqb_neq in H. rewrite H. reflexivity.
Qed.
End Inverse.
