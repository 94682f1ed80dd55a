(** Proofs for C80, similarities. *)
From Coq Require Import Lia Lqa.
From Verif Require Import Base NamesModel NamesSpec NamesProofs TableModel TableSpec TableOps TableProofs TableOpsProofs TableOps3Proofs.
From Verif Require Import MatchModel MatchSpec BinOpModel CalcModel CopyModel MatMulModel SimStatModel SimStatSpec SimStatAlgebra SimStatProofs.
From Verif Require LogModel.
From Coq Require Import List Arith ZArith QArith Ascii String. Import ListNotations.
Open Scope string_scope. Open Scope list_scope. Open Scope nat_scope.

(** ** the elements *)
Section Read.
Variable floatOf : string -> option pval.
Lemma finite_plain v : (forall s, v <> PStr s) -> Plain v (finite (toFloat v)).
Proof.
  intros N. destruct v; cbn [toFloat finite Plain]; try (intros q H; inversion H; fail); try constructor.
Qed.
Lemma finite_any w : Plain w (finite w).
Proof. destruct w; cbn [finite Plain]; try (intros q H; inversion H; fail); constructor. Qed.
Lemma Plain_fun v o o' : Plain v o -> Plain v o' -> o = o'.
Proof.
  destruct o as [q|], o' as [q'|]; cbn [Plain]; intros A B; [|exfalso; exact (B _ A)|exfalso; exact (A _ B)|reflexivity].
  inversion A; subst; inversion B; subst; reflexivity.
Qed.
Lemma read_spec v o : rmap finite (asFloat floatOf v) = Ok o <-> Reads floatOf v o.
Proof.
  destruct v as [b|z|q| | | |s|]; cbn [asFloat rmap Reads].
  7: { destruct (floatOf s) as [w|] eqn:E; cbn [rmap].
       - split; [intros [= <-]; exists w; split; [reflexivity|apply finite_any]|]. intros (w' & [= <-] & P). f_equal. exact (Plain_fun _ _ _ (finite_any w) P).
       - split; [discriminate|]. intros (w & H & _). discriminate. }
  all: split; [intros [= <-]; cbn [toFloat finite]; try constructor; intros q' H; inversion H|intros P; f_equal].
  all: match type of P with Plain ?v _ => pose proof (finite_any v) as P'; cbn [finite] in P' end; cbn [toFloat finite]; try exact (Plain_fun _ _ _ P' P).
Qed.
Lemma read_fails v e : rmap finite (asFloat floatOf v) = Err e -> e = ValueErr /\ forall o, ~ Reads floatOf v o.
Proof.
  intros H. split.
  - destruct v as [| | | | | |s|]; cbn in H; try discriminate. destruct (floatOf s); [discriminate|]. injection H as <-. reflexivity.
  - intros o R. apply read_spec in R. congruence.
Qed.
Lemma rmapM_rel {A B} (g : A -> result B) (R : A -> B -> Prop) : (forall a b, g a = Ok b <-> R a b) -> forall l r, rmapM g l = Ok r <-> Forall2 R l r.
Proof.
  intros S. induction l as [|a l IH]; intros r; cbn [rmapM].
  - split; [intros [= <-]; constructor|intros H; inversion H; reflexivity].
  - destruct (g a) as [b|e] eqn:E; cbn [rbind].
    + destruct (rmapM g l) as [bs|e] eqn:E'; cbn [rbind].
      * split; [intros [= <-]; constructor; [apply S; exact E|apply IH; reflexivity]|]. intros H. inversion H as [|a' b' l' r' R1 R2]; subst. apply S in R1. apply IH in R2. congruence.
      * split; [discriminate|]. intros H. inversion H as [|a' b' l' r' R1 R2]; subst. apply IH in R2. discriminate.
    + split; [discriminate|]. intros H. inversion H as [|a' b' l' r' R1 R2]; subst. apply S in R1. congruence.
Qed.
Lemma masked_spec m X : masked floatOf m = Ok X <-> Forall2 (Forall2 (Reads floatOf)) m X.
Proof. unfold masked. apply rmapM_rel. apply rmapM_rel. apply read_spec. Qed.
Lemma rmapM_exc {A B} (g : A -> result B) (x : exc) : (forall a e, g a = Err e -> e = x) -> forall l e, rmapM g l = Err e -> e = x.
Proof.
  intros S. induction l as [|a l IH]; intros e; cbn [rmapM]; [discriminate|]. destruct (g a) as [b|e'] eqn:E; cbn [rbind].
  - destruct (rmapM g l) as [bs|e']; cbn [rbind]; [discriminate|]. intros [= <-]. apply IH. reflexivity.
  - intros [= <-]. exact (S _ _ E).
Qed.
Lemma masked_fails m e : masked floatOf m = Err e -> e = ValueErr.
Proof. unfold masked. apply rmapM_exc. apply rmapM_exc. intros a e' H. exact (proj1 (read_fails a e' H)). Qed.
End Read.

(** ** pairs of values *)
Lemma bothPresent_spec x : forall y, List.length x = List.length y -> Shared x y (bothPresent x y).
Proof.
  unfold bothPresent. induction x as [|a x IH]; intros [|b y] L; try discriminate; [constructor|]. cbn [combine flat_map].
  destruct a as [a|]; [destruct b as [b|]|].
  - apply sh_both. apply IH. cbn in L. lia.
  - apply sh_skip; [right; reflexivity|]. apply IH. cbn in L. lia.
  - apply sh_skip; [left; reflexivity|]. apply IH. cbn in L. lia.
Qed.
Lemma shared_fun x y s s' : Shared x y s -> Shared x y s' -> s = s'.
Proof.
  intros A. revert s'. induction A as [|x y u v s A IH|x y u v s D A IH]; intros s' B; inversion B; subst; try reflexivity.
  - f_equal. apply IH. assumption.
  - match goal with H : _ \/ _ |- _ => destruct H; discriminate end.
  - destruct D; discriminate.
  - apply IH. assumption.
Qed.
Lemma shared_swap x y s : Shared x y s -> Shared y x (map (fun p => (snd p, fst p)) s).
Proof. intros A. induction A as [|x y u v s A IH|x y u v s D A IH]; cbn [map fst snd]; constructor; try assumption. tauto. Qed.
Lemma shared_present (x y : list Q) : List.length x = List.length y -> bothPresent (map Some x) (map Some y) = combine x y.
Proof.
  revert y. unfold bothPresent. induction x as [|a x IH]; intros [|b y] L; try discriminate; [reflexivity|]. cbn [map combine flat_map app].
  f_equal. apply IH. cbn in L. lia.
Qed.
Lemma shared_self x : Shared x x (map (fun q => (q, q)) (nonMissing x)).
Proof.
  induction x as [|[q|] x IH]; [constructor| |].
  - apply sh_both. exact IH.
  - apply sh_skip; [left; reflexivity|]. exact IH.
Qed.
Lemma all_present x : forallb isPresent x = true -> x = map Some (nonMissing x).
Proof.
  induction x as [|[q|] x IH]; cbn [forallb isPresent andb]; intros H; [reflexivity| |discriminate]. cbn [nonMissing flat_map app map]. f_equal. apply IH. exact H.
Qed.

(** ** one cell *)
Section Cell.
Variable std : list Q -> Q.
Definition cellOk (sample corr : bool) (ps : list (Q * Q)) (c : option Q) : Prop :=
  if corr then Correlation std ps c else Covariance (if sample then 1 else 0) ps c.
Lemma Qeq_bool_false a b : Qeq_bool a b = false -> ~ (a == b)%Q.
Proof. intros H E. apply Qeq_bool_iff in E. congruence. Qed.
Lemma inject_pos n : 0 < n -> ~ (inject_Z (Z.of_nat n) == 0)%Q.
Proof. intros H E. unfold inject_Z, Qeq in E. cbn in E. lia. Qed.
Lemma count_nz {A} (l : list A) : l <> [] -> ~ (count l == 0)%Q.
Proof. intros H E. pose proof (count_pos l H) as P. rewrite E in P. lra. Qed.

(** the division by the number of values less [ddof], with [ps] not empty *)
Lemma cov_div (sample : bool) ps d : ps <> [] -> (d == coSum ps)%Q ->
  Covariance (if sample then 1 else 0) ps
    (let den := Z.of_nat (if sample then List.length ps - 1 else List.length ps) in if (den =? 0)%Z then None else Some (d / inject_Z den)%Q).
Proof.
  intros N E. cbv zeta. assert (P : 0 < List.length ps) by (destruct ps; [contradiction|cbn; lia]).
  destruct (Z.eqb_spec (Z.of_nat (if sample then List.length ps - 1 else List.length ps)) 0) as [Z|Z]; cbn [Covariance].
  - destruct sample; lia.
  - split; [destruct sample; lia|].
    replace (Z.of_nat (List.length ps) - Z.of_nat (if sample then 1%nat else 0%nat))%Z with (Z.of_nat (if sample then List.length ps - 1 else List.length ps)) by (destruct sample; lia).
    rewrite E. set (z := inject_Z _). assert (X : ~ (z == 0)%Q). { unfold z. intros Y. unfold inject_Z, Qeq in Y. cbn in Y. lia. }
    clearbody z. field. exact X.
Qed.
Lemma pairCell_spec (sample corr : bool) x y ps : List.length x = List.length y -> Shared x y ps -> sample && corr = false -> cellOk sample corr ps (pairCell std sample corr x y).
Proof.
  intros L S SC. assert (EP : bothPresent x y = ps) by (eapply shared_fun; [apply bothPresent_spec; exact L|exact S]).
  unfold pairCell, cellOk. rewrite EP. destruct ps as [|p ps0] eqn:EPS.
  { destruct corr; [left; reflexivity|]. cbn. lia. }
  rewrite <- EPS in *. assert (N : ps <> []) by (rewrite EPS; discriminate). clear p ps0 EPS.
  cbv zeta. rewrite map_length. pose proof (dot_coSum ps) as D. set (d := dot _ _) in *. clearbody d.
  pose proof (cov_div sample ps d N D) as C. cbv zeta in C. destruct corr; [|exact C].
  destruct sample; [discriminate|]. clear SC. set (c := if (_ =? 0)%Z then None else _) in *.
  destruct (Qeq_bool (std (map fst ps) * std (map snd ps)) 0) eqn:Q0; cbn [Correlation]; [right; apply Qeq_bool_iff; exact Q0|].
  destruct c as [q|]; cbn [optDiv].
  - unfold npDiv. rewrite Q0. cbn [Correlation Covariance] in *. destruct C as [C1 C2]. apply Qeq_bool_false in Q0. split; [exact N|]. split; [exact Q0|].
    rewrite Z.sub_0_r in C2. fold (count ps) in C2. rewrite <- C2.
    set (u := std (map fst ps)) in *. set (v := std (map snd ps)) in *. set (n := count ps). clearbody u v n. field. split; intros Z; apply Q0; rewrite Z; ring.
  - cbn [Covariance] in C. destruct ps; [contradiction|cbn in C; lia].
Qed.
Lemma wholeCell_spec (sample corr : bool) x y : List.length x = List.length y -> 0 < List.length x -> sample && corr = false ->
  cellOk sample corr (combine x y) (wholeCell std sample corr x y).
Proof.
  intros L P SC. set (ps := combine x y). assert (LP : List.length ps = List.length x) by (unfold ps; rewrite combine_length; lia).
  assert (N : ps <> []) by (destruct ps; [cbn in LP; lia|discriminate]).
  assert (EX : map fst ps = x) by (apply combine_fst; exact L). assert (EY : map snd ps = y) by (apply combine_snd; exact L).
  unfold wholeCell, cellOk. cbv zeta. pose proof (dot_coSum ps) as D. rewrite EX, EY in D. set (d := dot _ _) in *. clearbody d.
  pose proof (cov_div sample ps d N D) as C. cbv zeta in C. rewrite LP in C.
  assert (EC : npDiv d (inject_Z (if sample then Z.of_nat (List.length x) - 1 else Z.of_nat (List.length x))) =
    (if (Z.of_nat (if sample then List.length x - 1 else List.length x) =? 0)%Z then None
     else Some (d / inject_Z (Z.of_nat (if sample then List.length x - 1 else List.length x)))%Q)).
  { replace (if sample then (Z.of_nat (List.length x) - 1)%Z else Z.of_nat (List.length x)) with (Z.of_nat (if sample then List.length x - 1 else List.length x)) by (destruct sample; lia).
    unfold npDiv. set (z := Z.of_nat _). destruct (Z.eqb_spec z 0) as [->|Z]; [reflexivity|].
    destruct (Qeq_bool (inject_Z z) 0) eqn:Q0; [|reflexivity]. apply Qeq_bool_iff in Q0. unfold inject_Z, Qeq in Q0. cbn in Q0. lia. }
  rewrite EC. destruct corr; [|exact C]. destruct sample; [discriminate|]. clear SC EC. set (c := if (_ =? 0)%Z then None else _) in *.
  rewrite <- EX at 1. rewrite <- EY at 1. clearbody c.
  destruct c as [q|]; cbn [optDiv]; [|cbn [Covariance] in C; lia].
  unfold npDiv. destruct (Qeq_bool (std (map fst ps) * std (map snd ps)) 0) eqn:Q0; cbn [Correlation]; [right; apply Qeq_bool_iff; exact Q0|].
  cbn [Covariance] in C. destruct C as [C1 C2]. apply Qeq_bool_false in Q0. split; [exact N|]. split; [exact Q0|].
  rewrite Z.sub_0_r in C2. fold (count ps) in C2. rewrite <- C2.
  set (u := std (map fst ps)) in *. set (v := std (map snd ps)) in *. set (n := count ps). clearbody u v n. field. split; intros Z; apply Q0; rewrite Z; ring.
Qed.
Lemma std_swap_ok a b : (a * b == b * a)%Q. Proof. ring. Qed.
Lemma cellOk_swap sample corr ps c : cellOk sample corr ps c -> cellOk sample corr (map (fun p => (snd p, fst p)) ps) c.
Proof.
  unfold cellOk. destruct corr.
  - unfold Correlation. cbv zeta. rewrite !map_map. cbn [fst snd]. replace (map (fun x => snd x) ps) with (map snd ps) by (apply map_ext; reflexivity).
    replace (map (fun x => fst x) ps) with (map fst ps) by (apply map_ext; reflexivity).
    destruct c as [r|].
    + intros (N & D & E). split; [destruct ps; [contradiction|discriminate]|]. split; [intros Z; apply D; rewrite <- Z; ring|].
      rewrite count_map, coSum_swap, <- E. ring.
    + intros [->|D]; [left; reflexivity|right]. rewrite <- D. ring.
  - unfold Covariance. rewrite map_length. destruct c as [q|]; [|auto]. intros [A B]. split; [exact A|]. rewrite coSum_swap. exact B.
Qed.
Lemma cellOk_fun sample corr ps c c' : cellOk sample corr ps c -> cellOk sample corr ps c' -> SameCell c c'.
Proof.
  unfold cellOk. destruct corr.
  - unfold Correlation. destruct c as [r|], c' as [r'|]; cbn [SameCell]; auto.
    + intros (N & D & E) (_ & _ & E'). rewrite <- E' in E. set (d := (std (map fst ps) * std (map snd ps))%Q) in *. pose proof (count_nz ps N) as P. set (n := count ps) in *. clearbody d n.
      assert (X : ((r - r') * (d * n) == 0)%Q) by lra. apply Qmult_integral in X. destruct X as [X|X]; [lra|]. apply Qmult_integral in X. tauto.
    + intros (N & D & _) [E|E]; contradiction.
    + intros [E|E] (N & D & _); contradiction.
  - unfold Covariance. destruct c as [q|], c' as [q'|]; cbn [SameCell]; auto; try lia.
    intros [L E] [_ E']. rewrite <- E' in E. set (z := (Z.of_nat (List.length ps) - Z.of_nat (if sample then 1 else 0))%Z) in *.
    assert (Z : ~ (inject_Z z == 0)%Q). { intros Y. unfold inject_Z, Qeq in Y. cbn in Y. unfold z in Y. lia. }
    set (k := inject_Z z) in *. clearbody k. assert (X : ((q - q') * k == 0)%Q) by lra. apply Qmult_integral in X. destruct X as [X|X]; [lra|contradiction].
Qed.

(** ** all cells *)
Lemma writeBoth_final {A} (cellAt : nat -> nat -> A) l f a b : (forall i j, In (i, j) l -> i <= j) ->
  In (Nat.min a b, Nat.max a b) l -> fold_left (writeBoth cellAt) l f a b = cellAt (Nat.min a b) (Nat.max a b).
Proof.
  revert f. induction l as [|[i j] l IH] using rev_ind; intros f W H; [contradiction|].
  rewrite fold_left_app. cbn [fold_left]. unfold writeBoth at 1. cbn [fst snd].
  destruct ((a =? i) && (b =? j) || (a =? j) && (b =? i)) eqn:E.
  - assert (X : (a = i /\ b = j) \/ (a = j /\ b = i)).
    { apply Bool.orb_true_iff in E. rewrite !Bool.andb_true_iff, !Nat.eqb_eq in E. exact E. }
    pose proof (W i j ltac:(apply in_or_app; right; left; reflexivity)) as Le.
    replace (Nat.min a b) with i by lia. replace (Nat.max a b) with j by lia. reflexivity.
  - apply IH; [intros i' j' Hin; apply W; apply in_or_app; left; exact Hin|].
    apply in_app_or in H. destruct H as [H|[H|[]]]; [exact H|]. exfalso. injection H as -> ->.
    apply Bool.orb_false_iff in E. destruct E as [E1 E2]. apply Bool.andb_false_iff in E1, E2. rewrite !Nat.eqb_neq in E1, E2. lia.
Qed.
Lemma loopPairs_spec n i j : In (i, j) (loopPairs n) <-> i <= j < n.
Proof.
  unfold loopPairs. rewrite in_flat_map. split.
  - intros (k & Hk & H). apply in_map_iff in H. destruct H as (m & [= <- <-] & Hm). apply in_seq in Hk, Hm. lia.
  - intros H. exists i. split; [apply in_seq; lia|]. apply in_map_iff. exists j. split; [reflexivity|]. apply in_seq. lia.
Qed.
Lemma map_seq_nth {A} (f : nat -> A) n i : i < n -> nth_error (map f (seq 0 n)) i = Some (f i).
Proof. intros H. rewrite nth_error_map, nth_error_seq. destruct (Nat.ltb_spec i n); [reflexivity|lia]. Qed.

Definition allCells (sample corr : bool) (X : list (list (option Q))) : list (list (option Q)) :=
  if forallb (forallb isPresent) X
  then map (fun x => map (fun y => wholeCell std sample corr (valuesIn x) (valuesIn y)) X) X
  else pairResults std sample corr X.
Lemma allCells_square sample corr X : Square (List.length X) (allCells sample corr X).
Proof.
  unfold allCells, Square. destruct (forallb _ X).
  - rewrite map_length. split; [reflexivity|]. intros r H. apply in_map_iff in H. destruct H as (x & <- & _). apply map_length.
  - unfold pairResults. cbv zeta. rewrite map_length, seq_length. split; [reflexivity|]. intros r H. apply in_map_iff in H. destruct H as (i & <- & _). rewrite map_length, seq_length. reflexivity.
Qed.
Lemma allCells_spec (sample corr : bool) X m i j x y ps : sample && corr = false -> 0 < m -> (forall r, In r X -> List.length r = m) ->
  nth_error X i = Some x -> nth_error X j = Some y -> Shared x y ps ->
  exists c, at_ (allCells sample corr X) i j = Some c /\ cellOk sample corr ps c.
Proof.
  intros SC P W Hi Hj S. unfold allCells. pose proof (W x (nth_error_In _ _ Hi)) as LX. pose proof (W y (nth_error_In _ _ Hj)) as LY.
  destruct (forallb (forallb isPresent) X) eqn:A.
  - unfold at_. rewrite nth_error_map, Hi. cbn [option_map]. rewrite nth_error_map, Hj. cbn [option_map]. eexists. split; [reflexivity|].
    rewrite forallb_forall in A. pose proof (all_present x (A x (nth_error_In _ _ Hi))) as EX. pose proof (all_present y (A y (nth_error_In _ _ Hj))) as EY.
    fold (valuesIn x) in EX. fold (valuesIn y) in EY.
    assert (L1 : List.length (valuesIn x) = m) by (rewrite <- (map_length Some), <- EX; exact LX).
    assert (L2 : List.length (valuesIn y) = m) by (rewrite <- (map_length Some), <- EY; exact LY).
    assert (EP : ps = combine (valuesIn x) (valuesIn y)).
    { eapply shared_fun; [exact S|]. rewrite EX at 1. rewrite EY at 1. rewrite <- shared_present by congruence. apply bothPresent_spec. rewrite !map_length. congruence. }
    rewrite EP. apply wholeCell_spec; [congruence|lia|exact SC].
  - clear A. unfold pairResults. cbv zeta. pose proof (nth_error_lt _ _ Hi) as Li. pose proof (nth_error_lt _ _ Hj) as Lj. set (n := List.length X) in *.
    unfold at_. rewrite map_seq_nth by exact Li. rewrite map_seq_nth by exact Lj. eexists. split; [reflexivity|].
    rewrite writeBoth_final; [|intros a b H; apply loopPairs_spec in H; lia|apply loopPairs_spec; lia].
    destruct (Nat.le_ge_cases i j) as [Le|Ge].
    + replace (Nat.min i j) with i by lia. replace (Nat.max i j) with j by lia.
      rewrite (nth_error_nth _ _ [] Hi), (nth_error_nth _ _ [] Hj). apply pairCell_spec; [congruence|exact S|exact SC].
    + replace (Nat.min i j) with j by lia. replace (Nat.max i j) with i by lia.
      rewrite (nth_error_nth _ _ [] Hi), (nth_error_nth _ _ [] Hj).
      replace ps with (map (fun p : Q * Q => (snd p, fst p)) (map (fun p : Q * Q => (snd p, fst p)) ps)) by (rewrite map_map; rewrite <- (map_id ps) at 2; apply map_ext; intros [a b]; reflexivity).
      apply cellOk_swap. apply pairCell_spec; [congruence|apply shared_swap; exact S|exact SC].
Qed.
End Cell.

(** ** the calls *)
Lemma accepted_similar w : In w (map clean acceptedSimilarities) <-> Accepted w.
Proof. vm_compute (map clean acceptedSimilarities). unfold Accepted, NumberSimilarity. cbn [In]. intuition. Qed.
Section Calls.
Variable floatOf : string -> option pval.
Variable std : list Q -> Q.
Variables pyMul pyAdd : pval -> pval -> result pval.
Notation similarities := (similarities floatOf std pyMul pyAdd).

Lemma F2_length {A B} (R : A -> B -> Prop) l l' : Forall2 R l l' -> List.length l = List.length l'.
Proof. induction 1; [reflexivity|]. cbn. congruence. Qed.
Lemma F2_nth {A B} (R : A -> B -> Prop) l l' i b : Forall2 R l l' -> nth_error l' i = Some b -> exists a, nth_error l i = Some a /\ R a b.
Proof.
  intros F. revert i. induction F as [|x y l l' H F IH]; intros i E; [destruct i; discriminate|]. destruct i as [|i]; cbn [nth_error] in *.
  - injection E as <-. exists x. auto.
  - apply IH. exact E.
Qed.

Lemma nanCovCorr_spec sample corr sd t X : wf t -> Forall2 (Forall2 (Reads floatOf)) (vectors sd t) X ->
  exists p f, nanCovCorr floatOf std sample corr (ax sd t) (vectors sd t) = Ok (p, f, allCells std sample corr X) /\
    alen p = alen (ax sd t) /\ alen f = alen (ax sd t) /\ Inv p /\ Inv f /\ getNames p = getNames (ax sd t) /\ getNames f = getNames (ax sd t).
Proof.
  intros W F. assert (IA : Inv (ax sd t)) by (apply (wf_Inv _ sd t W)).
  destruct (copyAxis_ok (ax sd t) IA) as (p & EP & LP & IP & NP).
  unfold nanCovCorr. apply masked_spec in F. rewrite F. cbn [rbind]. apply masked_spec in F. cbv zeta.
  rewrite <- (F2_length _ _ _ F), (vectors_length _ sd t W), EP. cbn [rbind]. exists p, p. split; [reflexivity|]. auto 10.
Qed.
Lemma numbers_call sd t w q : SpelledAs q w -> NumberSimilarity w -> wf t ->
  exists sample corr, sample && corr = false /\
    similarities sd t (Some q) = (t, rmap (fun r => let '(p, f, c) := r in Cells p f c) (nanCovCorr floatOf std sample corr (ax sd t) (vectors sd t))) /\
    forall ps c, cellOk std sample corr ps c <-> SimilarityIs std w ps c.
Proof.
  intros Sp N W. apply clean_spells in Sp. unfold SimStatModel.similarities, validateInput. rewrite Sp. unfold NumberSimilarity in N.
  cbn [In] in N. destruct N as [<-|[<-|[<-|[<-|[]]]]].
  - exists false, true. split; [reflexivity|]. split; [reflexivity|]. intros ps c. split; [apply si_corr|intros H; inversion H; assumption].
  - exists true, false. split; [reflexivity|]. split; [reflexivity|]. intros ps c. split; [apply si_cov|intros H; inversion H; assumption].
  - exists true, false. split; [reflexivity|]. split; [reflexivity|]. intros ps c. split; [apply si_sample|intros H; inversion H; assumption].
  - exists false, false. split; [reflexivity|]. split; [reflexivity|]. intros ps c. split; [apply si_pop|intros H; inversion H; assumption].
Qed.
Lemma similarities_spec sd t q w X : wf t -> SpelledAs q w -> NumberSimilarity w -> 0 < alen (offax sd t) ->
  Forall2 (Forall2 (Reads floatOf)) (vectors sd t) X ->
  exists p f cells, similarities sd t (Some q) = (t, Ok (Cells p f cells)) /\
    alen p = alen (ax sd t) /\ alen f = alen (ax sd t) /\ Inv p /\ Inv f /\ getNames p = getNames (ax sd t) /\ getNames f = getNames (ax sd t) /\
    Square (alen (ax sd t)) cells /\
    forall i j x y ps, nth_error X i = Some x -> nth_error X j = Some y -> Shared x y ps ->
      exists c, at_ cells i j = Some c /\ SimilarityIs std w ps c.
Proof.
  intros W Sp N P F. destruct (numbers_call sd t w q Sp N W) as (sample & corr & SC & E & K).
  destruct (nanCovCorr_spec sample corr sd t X W F) as (p & f & EN & A1 & A2 & A3 & A4 & A5 & A6). rewrite E, EN. cbn [rmap].
  exists p, f, (allCells std sample corr X). split; [reflexivity|]. repeat (split; [assumption|]).
  assert (LX : List.length X = alen (ax sd t)) by (rewrite <- (F2_length _ _ _ F); apply vectors_length; exact W).
  split; [rewrite <- LX; apply allCells_square|].
  intros i j x y ps Hi Hj S.
  destruct (allCells_spec std sample corr X (alen (offax sd t)) i j x y ps SC P) as (c & EC & Ok_); [|exact Hi|exact Hj|exact S|].
  - intros r Hr. apply In_nth_error in Hr. destruct Hr as [k Hk]. destruct (F2_nth _ _ _ _ _ F Hk) as (v & Hv & R). rewrite <- (F2_length _ _ _ R).
    exact (vector_len _ sd t k v W Hv).
  - exists c. split; [exact EC|]. apply K. exact Ok_.
Qed.
Lemma similarities_unreadable sd t q w : wf t -> SpelledAs q w -> NumberSimilarity w ->
  (~ exists X, Forall2 (Forall2 (Reads floatOf)) (vectors sd t) X) -> similarities sd t (Some q) = (t, Err ValueErr).
Proof.
  intros W Sp N H. destruct (numbers_call sd t w q Sp N W) as (sample & corr & SC & E & K). rewrite E. unfold nanCovCorr.
  destruct (masked floatOf (vectors sd t)) as [X|e] eqn:M; cbn [rbind rmap].
  - exfalso. apply H. exists X. apply masked_spec. exact M.
  - rewrite (masked_fails floatOf _ _ M). reflexivity.
Qed.
Lemma similarities_refused sd t arg : (arg = None \/ exists q, arg = Some q /\ forall w, SpelledAs q w -> ~ Accepted w) ->
  similarities sd t arg = (t, Err (match arg with None => InvalidArgumentType | Some _ => InvalidArgumentValue end)).
Proof.
  intros H. unfold SimStatModel.similarities. pose proof (valid_spec acceptedSimilarities arg) as V. destruct (validateInput acceptedSimilarities arg) as [w|e].
  - destruct V as [(q & -> & Sp) Hin]. exfalso. destruct H as [H|(q' & [= <-] & N)]; [discriminate|]. apply (N w Sp). apply accepted_similar. exact Hin.
  - destruct arg as [q|]; [destruct V as [-> _]|rewrite V]; reflexivity.
Qed.
Lemma dot_call sd t q : SpelledAs q "dotproduct" ->
  similarities sd t (Some q) =
    match sd with
    | Pts => match matMul floatOf pyMul pyAdd false t (MBase (transpose t)) with (s, _, r) => (s, rmap Product r) end
    | Fts => match matMul floatOf pyMul pyAdd false (transpose t) (MBase t) with (_, MBase b, r) => (b, rmap Product r) | (_, _, r) => (t, rmap Product r) end
    end.
Proof. intros Sp. apply clean_spells in Sp. unfold SimStatModel.similarities, validateInput. rewrite Sp. destruct sd; reflexivity. Qed.
End Calls.

(** ** consequences *)
Section Consequences.
Variable floatOf : string -> option pval.
Variable std : list Q -> Q.
Variables pyMul pyAdd : pval -> pval -> result pval.
Notation similarities := (similarities floatOf std pyMul pyAdd).

Lemma cells_inv sd t arg t' p f cells : wf t -> similarities sd t arg = (t', Ok (Cells p f cells)) ->
  exists q w X, arg = Some q /\ SpelledAs q w /\ NumberSimilarity w /\ Forall2 (Forall2 (Reads floatOf)) (vectors sd t) X.
Proof.
  intros W E. pose proof (valid_spec acceptedSimilarities arg) as V. destruct (validateInput acceptedSimilarities arg) as [w|e] eqn:EV.
  - destruct V as [(q & -> & Sp) Hin]. apply accepted_similar in Hin. destruct Hin as [N| ->].
    + destruct (numbers_call floatOf std pyMul pyAdd sd t w q Sp N W) as (sample & corr & _ & E' & _). rewrite E' in E. unfold nanCovCorr in E.
      destruct (masked floatOf (vectors sd t)) as [X|e] eqn:M; [|discriminate]. exists q, w, X. repeat (split; [auto; fail|]). apply masked_spec. exact M.
    + rewrite (dot_call floatOf std pyMul pyAdd sd t q Sp) in E.
      destruct sd.
      * destruct (matMul _ _ _ _ _ _) as [[s o] [r|e]]; cbn [rmap] in E; congruence.
      * destruct (matMul _ _ _ _ _ _) as [[s o] r]. destruct o as [b|], r as [r|e]; cbn [rmap] in E; congruence.
  - unfold SimStatModel.similarities in E. rewrite EV in E. discriminate.
Qed.
Lemma at_range cells n i j c : Square n cells -> at_ cells i j = Some c -> i < n /\ j < n.
Proof.
  intros [L R] E. unfold at_ in E. destruct (nth_error cells i) as [r|] eqn:Er; [|discriminate].
  split; [rewrite <- L; exact (nth_error_lt _ _ Er)|]. rewrite <- (R r (nth_error_In _ _ Er)). exact (nth_error_lt _ _ E).
Qed.
Lemma cell_is sd t arg t' p f cells X : wf t -> 0 < alen (offax sd t) -> similarities sd t arg = (t', Ok (Cells p f cells)) ->
  Forall2 (Forall2 (Reads floatOf)) (vectors sd t) X ->
  exists q w, arg = Some q /\ SpelledAs q w /\ Square (alen (ax sd t)) cells /\ forall i j c x y ps, at_ cells i j = Some c -> nth_error X i = Some x -> nth_error X j = Some y -> Shared x y ps -> SimilarityIs std w ps c.
Proof.
  intros W P E F. destruct (cells_inv sd t arg t' p f cells W E) as (q & w & X' & -> & Sp & N & _).
  destruct (similarities_spec floatOf std pyMul pyAdd sd t q w X W Sp N P F) as (p' & f' & cells' & E' & _ & _ & _ & _ & _ & _ & Sq & C).
  assert (EC : cells' = cells) by congruence. rewrite EC in *. exists q, w. split; [reflexivity|]. split; [exact Sp|]. split; [exact Sq|].
  intros i j c x y ps Ec Hx Hy S. destruct (C i j x y ps Hx Hy S) as (c' & Ec' & Si). congruence.
Qed.
Lemma spelled_fun q w w' : SpelledAs q w -> SpelledAs q w' -> w = w'.
Proof. intros A B. apply clean_spells in A. apply clean_spells in B. congruence. Qed.
Lemma readX sd t X i : wf t -> Forall2 (Forall2 (Reads floatOf)) (vectors sd t) X -> i < alen (ax sd t) -> exists x, nth_error X i = Some x /\ List.length x = alen (offax sd t).
Proof.
  intros W F H. destruct (nth_error X i) as [x|] eqn:E.
  - exists x. split; [reflexivity|]. destruct (F2_nth _ _ _ _ _ F E) as (v & Hv & R). rewrite <- (F2_length _ _ _ R). exact (vector_len _ sd t i v W Hv).
  - apply nth_error_None in E. rewrite <- (F2_length _ _ _ F), (vectors_length _ sd t W) in E. lia.
Qed.
Lemma sim_symmetric sd t arg t' p f cells i j c c' : wf t -> 0 < alen (offax sd t) -> similarities sd t arg = (t', Ok (Cells p f cells)) ->
  at_ cells i j = Some c -> at_ cells j i = Some c' -> SameCell c c'.
Proof.
  intros W P E A B. destruct (cells_inv sd t arg t' p f cells W E) as (q & w & X & _ & _ & _ & F).
  destruct (cell_is sd t arg t' p f cells X W P E F) as (q' & w' & -> & Sp & Sq & C).
  destruct (at_range _ _ _ _ _ Sq A) as [Hi Hj]. destruct (readX sd t X i W F Hi) as (x & Hx & Lx). destruct (readX sd t X j W F Hj) as (y & Hy & Ly).
  assert (S : Shared x y (bothPresent x y)) by (apply bothPresent_spec; congruence).
  pose proof (C i j c x y _ A Hx Hy S) as C1. pose proof (C j i c' y x _ B Hy Hx (shared_swap _ _ _ S)) as C2.
  assert (K : exists sample corr, forall ps d, SimilarityIs std w' ps d -> cellOk std sample corr ps d).
  { inversion C1; subst; [exists true, false|exists true, false|exists false, false|exists false, true]; intros ps0 d0 H0; inversion H0; subst; assumption. }
  destruct K as (sample & corr & K). apply K in C1, C2. eapply cellOk_fun; [exact C1|].
  apply cellOk_swap in C2. rewrite map_map in C2. cbn [fst snd] in C2. erewrite map_ext in C2; [rewrite map_id in C2; exact C2|]. intros [a b]. reflexivity.
Qed.
Lemma correlation_bounds sd t q t' p f cells X i j x y ps r : wf t -> 0 < alen (offax sd t) -> SpelledAs q "correlation" ->
  similarities sd t (Some q) = (t', Ok (Cells p f cells)) -> Forall2 (Forall2 (Reads floatOf)) (vectors sd t) X ->
  nth_error X i = Some x -> nth_error X j = Some y -> Shared x y ps ->
  StdOf (map fst ps) (std (map fst ps)) -> StdOf (map snd ps) (std (map snd ps)) -> at_ cells i j = Some (Some r) ->
  (-(1) <= r <= 1)%Q /\ (i = j -> (r == 1)%Q).
Proof.
  intros W P Sp E F Hx Hy S A B Er. destruct (cell_is sd t _ t' p f cells X W P E F) as (q' & w & [= <-] & Sp' & _ & C).
  rewrite <- (spelled_fun _ _ _ Sp Sp') in C. pose proof (C i j _ x y ps Er Hx Hy S) as H. inversion H; subst.
  split; [apply (corr_bound std ps r); assumption|]. intros <-. assert (y = x) by congruence. subst y.
  assert (EP : ps = map (fun q => (q, q)) (nonMissing x)) by (exact (shared_fun _ _ _ _ S (shared_self x))). rewrite EP in *.
  apply (corr_self std (nonMissing x) r); [|assumption]. rewrite map_map in A. cbn [fst] in A. rewrite map_id in A. exact A.
Qed.
Lemma variance_cov ddof x : ddof <= 1 -> Covariance ddof (map (fun q => (q, q)) (nonMissing x)) (varianceDense ddof x).
Proof.
  intros D. unfold varianceDense, meanDense. set (v := nonMissing x). destruct (List.length v =? 0) eqn:E0.
  { apply Nat.eqb_eq in E0. cbn [Covariance]. rewrite map_length. lia. }
  apply Nat.eqb_neq in E0. destruct (Z.eqb_spec (Z.of_nat (List.length v) - Z.of_nat ddof) 0) as [Z|Z]; cbn [Covariance]; rewrite map_length; [lia|].
  split; [lia|]. set (z := (Z.of_nat (List.length v) - Z.of_nat ddof)%Z) in *.
  assert (NZ : ~ (inject_Z z == 0)%Q). { intros Y. unfold inject_Z, Qeq in Y. cbn in Y. lia. }
  assert (DE : (sqdev (qsum v / qnat (List.length v)) v == coSum (map (fun q => (q, q)) v))%Q).
  { rewrite <- dot_coSum, !map_map. cbn [fst snd]. rewrite !map_id. unfold sqdev, dot, deviations. rewrite combine_map2, map_map. cbn [fst snd].
    assert (EC : combine v v = map (fun q => (q, q)) v) by (clear; induction v as [|a v IH]; [reflexivity|]; cbn; rewrite IH; reflexivity).
    rewrite EC, map_map. reflexivity. }
  rewrite DE. set (k := inject_Z z) in *. clearbody k. field. exact NZ.
Qed.
Lemma diagonal sd t q w ddof t' p f cells X i x c : wf t -> 0 < alen (offax sd t) -> SpelledAs q w ->
  ((w = "covariance" \/ w = "samplecovariance") /\ ddof = 1 \/ w = "populationcovariance" /\ ddof = 0) ->
  similarities sd t (Some q) = (t', Ok (Cells p f cells)) -> Forall2 (Forall2 (Reads floatOf)) (vectors sd t) X ->
  nth_error X i = Some x -> at_ cells i i = Some c -> SameCell c (varianceDense ddof x).
Proof.
  intros W P Sp K E F Hx Ec. destruct (cell_is sd t _ t' p f cells X W P E F) as (q' & w' & [= <-] & Sp' & _ & C).
  rewrite <- (spelled_fun _ _ _ Sp Sp') in C. pose proof (C i i c x x _ Ec Hx Hx (shared_self x)) as H.
  assert (D : ddof <= 1) by (destruct K as [[_ ->]|[_ ->]]; lia). pose proof (variance_cov ddof x D) as V.
  assert (HC : Covariance ddof (map (fun q => (q, q)) (nonMissing x)) c) by (destruct K as [[[->| ->] ->]|[-> ->]]; inversion H; assumption).
  destruct K as [[_ ->]|[_ ->]]; [exact (cellOk_fun std true false _ _ _ HC V)|exact (cellOk_fun std false false _ _ _ HC V)].
Qed.
Lemma nothing_over_zero ps : (List.length ps <= 1 \/ (StdOf (map fst ps) (std (map fst ps)) /\ StdOf (map snd ps) (std (map snd ps)) /\ (std (map fst ps) * std (map snd ps) == 0)%Q)) ->
  (dot (deviations (map fst ps)) (deviations (map snd ps)) == 0)%Q.
Proof.
  intros H. rewrite dot_coSum. destruct H as [H|(A & B & D)].
  - destruct ps as [|a [|b ps]]; [vm_compute; reflexivity|apply coSum_one|cbn in H; lia].
  - pose proof (std_product std ps A B) as C. set (d := (std (map fst ps) * std (map snd ps))%Q) in *. assert (Z : (d * count ps == 0)%Q) by (rewrite D; ring).
    set (k := (d * count ps)%Q) in *. clearbody k. set (c := coSum ps) in *. clearbody c. rewrite Z in C. destruct (Qlt_le_dec c 0); [|destruct (Qlt_le_dec 0 c)]; nra.
Qed.
End Consequences.
