(** C80: similarities and statistics of points and features. *)
From Coq Require Import Lia.
From Verif Require Import Base NamesModel NamesSpec NamesProofs TableModel TableSpec TableOps TableProofs.
From Verif Require Import MatchModel MatchSpec BinOpModel BinOpSpec CalcModel CopyModel MatMulModel MatMulSpec SimStatModel SimStatSpec SimStatAlgebra SimStatProofs SimStatMain SimStatDot StretchProps.
From Coq Require Import List Arith ZArith QArith Ascii String. Import ListNotations.
Open Scope string_scope. Open Scope list_scope. Open Scope nat_scope.

(** ** statistics *)
(** A table is returned exactly if the string spells a statistic and the object is
    not empty: one line per vector with the names of the object, the other axis
    labelled; every other outcome is as said ("count" is in the list of accepted
    names but is not a statistic). *)
Theorem C80_statistics : forall V (one : stat -> list V -> V) (three : list V -> V * V * V) sd (t : table V) arg, wf t ->
  match statistics one three sd t arg with
  | Ok r => exists q w s, arg = Some q /\ SpelledAs q w /\ NameOfStat w s /\ 0 < alen (tp t) /\ 0 < alen (tf t) /\ StatTable one three sd t w s r
  | Err e => match arg with
             | None => e = InvalidArgumentType
             | Some q => (SpelledAs q "count" /\ e = ValueErr) \/
                         ((forall w s, SpelledAs q w -> ~ NameOfStat w s) /\ ~ SpelledAs q "count" /\ e = InvalidArgumentValue) \/
                         ((exists w s, SpelledAs q w /\ NameOfStat w s) /\ (alen (tp t) = 0 \/ alen (tf t) = 0) /\ e = ImproperObjectAction)
             end
  end.
Proof. exact @stat_spec. Qed.
Print Assumptions C80_statistics.

(** Grouped by features, there is one table for each key of a point, of the points
    with that key, without the features grouped by. *)
Theorem C80_grouped : forall V (one : stat -> list V -> V) (three : list V -> V * V * V) K (EK : EqDec K) (key : list V -> K) (t : table V) by_ q w s,
  wf t -> NoDup by_ -> (forall i, In i by_ -> i < alen (tf t)) -> List.length by_ < alen (tf t) -> SpelledAs q w -> NameOfStat w s ->
  exists res, groupedStatistics one three key t by_ (Some q) = Ok res /\ NoDup (map fst res) /\
    (forall k, In k (map fst res) <-> exists p, In p (rows t) /\ key p = k) /\
    forall k r, In (k, r) res -> exists g, wf g /\ getNames (tf g) = survivors by_ (getNames (tf t)) /\
      items Pts g = map (fun p => (fst p, survivors by_ (snd p))) (filter (fun p => eqbd (key (snd p)) k) (items Pts t)) /\
      StatTable one three Fts g w s r.
Proof. exact @grouped_spec. Qed.
Print Assumptions C80_grouped.

(** ** similarities *)
(** Covariances and correlations: an n by n table with the names of the axis on both
    axes; each cell is calculated from the positions where both vectors have a
    number.  Guarded: there must be an element in each vector. *)
Theorem C80_similarities_partial : forall floatOf std pyMul pyAdd sd t q w X, wf t -> SpelledAs q w -> NumberSimilarity w -> 0 < alen (offax sd t) ->
  Forall2 (Forall2 (Reads floatOf)) (vectors sd t) X ->
  exists p f cells, similarities floatOf std pyMul pyAdd sd t (Some q) = (t, Ok (Cells p f cells)) /\
    alen p = alen (ax sd t) /\ alen f = alen (ax sd t) /\ Inv p /\ Inv f /\ getNames p = getNames (ax sd t) /\ getNames f = getNames (ax sd t) /\
    Square (alen (ax sd t)) cells /\
    forall i j x y ps, nth_error X i = Some x -> nth_error X j = Some y -> Shared x y ps ->
      exists c, at_ cells i j = Some c /\ SimilarityIs std w ps c.
Proof. exact similarities_spec. Qed.
Print Assumptions C80_similarities_partial.

Theorem C80_unreadable : forall floatOf std pyMul pyAdd sd t q w, wf t -> SpelledAs q w -> NumberSimilarity w ->
  (~ exists X, Forall2 (Forall2 (Reads floatOf)) (vectors sd t) X) -> similarities floatOf std pyMul pyAdd sd t (Some q) = (t, Err ValueErr).
Proof. exact similarities_unreadable. Qed.
Print Assumptions C80_unreadable.

Theorem C80_refused : forall floatOf std pyMul pyAdd sd t arg, (arg = None \/ exists q, arg = Some q /\ forall w, SpelledAs q w -> ~ Accepted w) ->
  similarities floatOf std pyMul pyAdd sd t arg = (t, Err (match arg with None => InvalidArgumentType | Some _ => InvalidArgumentValue end)).
Proof. exact similarities_refused. Qed.
Print Assumptions C80_refused.

(** The tables are symmetric. *)
Theorem C80_symmetric : forall floatOf std pyMul pyAdd sd t arg t' p f cells i j c c', wf t -> 0 < alen (offax sd t) ->
  similarities floatOf std pyMul pyAdd sd t arg = (t', Ok (Cells p f cells)) ->
  at_ cells i j = Some c -> at_ cells j i = Some c' -> SameCell c c'.
Proof. exact sim_symmetric. Qed.
Print Assumptions C80_symmetric.

(** The diagonal of the covariances is what the variance of each vector is. *)
Theorem C80_diagonal : forall floatOf std pyMul pyAdd sd t q w ddof t' p f cells X i x c, wf t -> 0 < alen (offax sd t) -> SpelledAs q w ->
  ((w = "covariance" \/ w = "samplecovariance") /\ ddof = 1 \/ w = "populationcovariance" /\ ddof = 0) ->
  similarities floatOf std pyMul pyAdd sd t (Some q) = (t', Ok (Cells p f cells)) -> Forall2 (Forall2 (Reads floatOf)) (vectors sd t) X ->
  nth_error X i = Some x -> at_ cells i i = Some c -> SameCell c (varianceDense ddof x).
Proof. exact diagonal. Qed.
Print Assumptions C80_diagonal.

(** Correlations lie between -1 and 1, and are 1 on the diagonal (Cauchy-Schwarz),
    where the standard deviations are exact. *)
Theorem C80_correlation_bounds : forall floatOf std pyMul pyAdd sd t q t' p f cells X i j x y ps r, wf t -> 0 < alen (offax sd t) -> SpelledAs q "correlation" ->
  similarities floatOf std pyMul pyAdd sd t (Some q) = (t', Ok (Cells p f cells)) -> Forall2 (Forall2 (Reads floatOf)) (vectors sd t) X ->
  nth_error X i = Some x -> nth_error X j = Some y -> Shared x y ps ->
  StdOf (map fst ps) (std (map fst ps)) -> StdOf (map snd ps) (std (map snd ps)) -> at_ cells i j = Some (Some r) ->
  (-(1) <= r <= 1)%Q /\ (i = j -> (r == 1)%Q).
Proof. exact correlation_bounds. Qed.
Print Assumptions C80_correlation_bounds.

(** Where a divisor is 0 the sum divided is 0 too: nan, never an infinity. *)
Theorem C80_nothing_over_zero : forall std ps,
  (List.length ps <= 1 \/ (StdOf (map fst ps) (std (map fst ps)) /\ StdOf (map snd ps) (std (map snd ps)) /\ (std (map fst ps) * std (map snd ps) == 0)%Q)) ->
  (dot (deviations (map fst ps)) (deviations (map snd ps)) == 0)%Q.
Proof. exact nothing_over_zero. Qed.
Print Assumptions C80_nothing_over_zero.

(** Dot products: each cell is the total of the products of the elements of two
    vectors, added in order; the strings of the object become numbers. *)
Theorem C80_dot_product : forall floatOf std pyMul pyAdd sd t q, wf t -> SpelledAs q "dotproduct" -> 0 < alen (tp t) -> 0 < alen (tf t) -> AllNumeric floatOf t ->
  exists t1 res, similarities floatOf std pyMul pyAdd sd t (Some q) = (t1, res) /\ StringsToNumbers floatOf t t1 /\
  let n := alen (ax sd t) in
  match res with
  | Ok (Product c) => wf c /\ alen (tp c) = n /\ alen (tf c) = n /\ getNames (tp c) = getNames (ax sd t) /\ getNames (tf c) = getNames (ax sd t) /\
      forall i j, i < n -> j < n -> exists v, cell c i j = Some v /\ TotalIs pyMul pyAdd (cellAlong sd t1 i) (cellAlong sd t1 j) (alen (offax sd t)) v
  | Ok (Cells _ _ _) => False
  | Err e => exists i j, i < n /\ j < n /\ TotalFails pyMul pyAdd (cellAlong sd t1 i) (cellAlong sd t1 j) (alen (offax sd t)) e
  end.
Proof. exact dot_spec. Qed.
Print Assumptions C80_dot_product.

(** ** what does not hold *)
(** "count" is listed as an accepted statistic and raises an undocumented exception. *)
Theorem C80_count_refuted : forall V (one : stat -> list V -> V) (three : list V -> V * V * V) sd (t : table V),
  In "count" acceptedStats /\ statistics one three sd t (Some "count") = Err ValueErr.
Proof. intros. split; [cbn; tauto|reflexivity]. Qed.
Print Assumptions C80_count_refuted.

(** The covariances of vectors without elements are 0, not missing. *)
Theorem C80_no_elements_refuted : exists t p f cells, wf t /\ alen (tp t) = 1 /\ alen (tf t) = 0 /\
  (forall floatOf std pyMul pyAdd, similarities floatOf std pyMul pyAdd Pts t (Some "covariance") = (t, Ok (Cells p f cells))) /\
  exists c, at_ cells 0 0 = Some c /\ ~ Covariance 1 [] c.
Proof.
  exists (tab57 [None] [] [[]]). eexists. eexists. eexists. split; [apply tab57_wf; [reflexivity|intros r [<-|[]]; reflexivity]|].
  split; [reflexivity|]. split; [reflexivity|]. split; [intros; vm_compute; reflexivity|].
  eexists. split; [reflexivity|]. intros [H _]. cbn in H. lia.
Qed.
Print Assumptions C80_no_elements_refuted.

Definition float80 (s : string) : option pval := if String.eqb s "1" then Some (PFloat 1) else None.
Definition int80 (f : Z -> Z -> Z) (a b : pval) : result pval :=
  match a, b with PInt x, PInt y => Ok (PInt (f x y)) | _, _ => Ok (PFloat 1) end.
(** Asking for dot products changes the object: its strings become numbers. *)
Theorem C80_dot_changes_refuted : exists t t' r, wf t /\
  similarities float80 (fun _ => 1%Q) (int80 Z.mul) (int80 Z.add) Pts t (Some "dot product") = (t', Ok r) /\ rows t' <> rows t.
Proof.
  exists (tab57 [None] [None] [[PStr "1"]]). eexists. eexists. split; [apply tab57_wf; [reflexivity|intros r [<-|[]]; reflexivity]|].
  split; [vm_compute; reflexivity|]. cbn. discriminate.
Qed.
Print Assumptions C80_dot_changes_refuted.

(** ** examples *)
Definition t80 := tab57 [None; None] [Some "a"; Some "b"] [[PInt 0; PInt 1]; [PFloat 2; PStr "1"]].
Definition std80 (l : list Q) : Q := match l with x :: _ => if Qeq_bool x 0 then 1%Q else 2%Q | [] => 0%Q end.
Definition u80 := tab57 [None; None; None] [Some "a"; Some "b"] [[PInt 0; PInt 1]; [PFloat 2; PFloat 5]; [PNone; PInt 7]].
Example C80_wf : wf t80 /\ wf u80.
Proof. split; apply tab57_wf; try reflexivity; intros r H; cbn in H; repeat (destruct H as [<-|H]; [reflexivity|]); contradiction. Qed.
(** spelling *)
Example C80_spelled : SpelledAs "Sample  STD" "samplestd" /\ NameOfStat "samplestd" SSample /\ SpelledAs " Correlation" "correlation".
Proof. split; [apply clean_spells; reflexivity|]. split; [constructor|apply clean_spells; reflexivity]. Qed.
Example C80_stat_ex : exists r, statistics (fun _ l => PInt (Z.of_nat (List.length l))) (fun l => (PInt 1, PInt 2, PInt 3)) Fts t80 (Some "Quartiles") = Ok r /\
  getNames (tp r) = [Some "quartile1"; Some "quartile2"; Some "quartile3"] /\ getNames (tf r) = [Some "a"; Some "b"] /\
  rows r = [[PInt 1; PInt 1]; [PInt 2; PInt 2]; [PInt 3; PInt 3]].
Proof. eexists. split; [vm_compute; reflexivity|]. repeat split. Qed.
(** the correlation of two features, with a value missing in one of the points *)
Example C80_corr_ex : exists p f cells, similarities float80 std80 (int80 Z.mul) (int80 Z.add) Fts u80 (Some "correlation") = (u80, Ok (Cells p f cells)) /\
  exists r, at_ cells 0 1 = Some (Some r) /\ (r == 1)%Q /\ getNames p = [Some "a"; Some "b"].
Proof. eexists. eexists. eexists. split; [vm_compute; reflexivity|]. eexists. split; [reflexivity|]. split; reflexivity. Qed.
Example C80_std_ex : StdOf [0; 2]%Q (std80 [0; 2]%Q) /\ StdOf [1; 5]%Q (std80 [1; 5]%Q) /\
  Shared [Some 0; Some 2; None]%Q [Some 1; Some 5; Some 7]%Q [(0, 1); (2, 5)]%Q.
Proof. split; [split; vm_compute; [discriminate|reflexivity]|]. split; [split; vm_compute; [discriminate|reflexivity]|]. repeat constructor; left; reflexivity. Qed.
Example C80_reads_ex : Forall2 (Forall2 (Reads float80)) (vectors Fts u80) [[Some (inject_Z 0); Some 2%Q; None]; [Some (inject_Z 1); Some 5%Q; Some (inject_Z 7)]].
Proof.
  change (vectors Fts u80) with [[PInt 0; PFloat 2; PNone]; [PInt 1; PFloat 5; PInt 7]].
  repeat (constructor; try (cbn; constructor; fail)). all: cbn; try constructor. intros q H. inversion H.
Qed.
(** a string that is no number *)
Example C80_unreadable_ex : ~ exists X, Forall2 (Forall2 (Reads float80)) (vectors Pts (tab57 [None] [None] [[PStr "x"]])) X.
Proof.
  intros [X H]. change (vectors Pts (tab57 [None] [None] [[PStr "x"]])) with [[PStr "x"]] in H. inversion H as [|v o l l' A B]; subst. inversion A as [|v' o' l2 l2' C D]; subst.
  destruct C as (w & E & _). discriminate.
Qed.
Example C80_dot_ex : exists t' c, similarities float80 std80 (int80 Z.mul) (int80 Z.add) Pts (tab57 [None; None] [None] [[PInt 2]; [PInt 3]]) (Some "Dot Product") = (t', Ok (Product c)) /\
  rows c = [[PInt 4; PInt 6]; [PInt 6; PInt 9]].
Proof. eexists. eexists. split; [vm_compute; reflexivity|reflexivity]. Qed.
