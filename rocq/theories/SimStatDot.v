(** Proofs for C80, dot products of the points or features of an object. *)
From Coq Require Import Lia.
From Verif Require Import Base NamesModel NamesSpec NamesProofs TableModel TableSpec TableOps TableProofs TableOpsProofs TableOps3Proofs.
From Verif Require Import MatchModel MatchSpec BinOpModel BinOpSpec CalcModel CopyModel MatMulModel MatMulSpec MatMulProofs SimStatModel SimStatSpec SimStatProofs SimStatMain.
From Verif Require LogicProofs.
From Coq Require Import List Arith ZArith QArith Ascii String. Import ListNotations.
Open Scope string_scope. Open Scope list_scope. Open Scope nat_scope.

Section Dot.
Variable floatOf : string -> option pval.
Variable std : list Q -> Q.
Variables pyMul pyAdd : pval -> pval -> result pval.
Notation similarities := (similarities floatOf std pyMul pyAdd).

Lemma total_ext x x' y y' n v : (forall k, k < n -> x k = x' k) -> (forall k, k < n -> y k = y' k) -> TotalIs pyMul pyAdd x y n v -> TotalIs pyMul pyAdd x' y' n v.
Proof.
  intros X Y H. induction H as [|n t a b m t' H IH Ha Hb Hm Ht]; [constructor|].
  apply (total_S _ _ _ _ n t a b m t'); [apply IH; intros k Hk; [apply X|apply Y]; lia| | |exact Hm|exact Ht].
  - rewrite <- X by lia. exact Ha.
  - rewrite <- Y by lia. exact Hb.
Qed.
Lemma fails_ext x x' y y' n e : (forall k, k < n -> x k = x' k) -> (forall k, k < n -> y k = y' k) -> TotalFails pyMul pyAdd x y n e -> TotalFails pyMul pyAdd x' y' n e.
Proof.
  intros X Y (k & t & a & b & Lt & T & Ha & Hb & F). exists k, t, a, b. split; [exact Lt|]. split; [apply (total_ext x _ y); [intros; apply X; lia|intros; apply Y; lia|exact T]|].
  split; [rewrite <- X by lia; exact Ha|]. split; [rewrite <- Y by lia; exact Hb|exact F].
Qed.
(** the transpose of the converted object is the converted transpose *)
Lemma converted_cells t t1 b1 : wf t -> StringsToNumbers floatOf t t1 -> StringsToNumbers floatOf (transpose t) b1 ->
  forall i j, i < alen (tp t) -> j < alen (tf t) -> cell b1 j i = cell t1 i j.
Proof.
  intros W (_ & _ & _ & A) (_ & _ & _ & B) i j Hi Hj. destruct (transpose_spec _ t W) as (_ & C & _).
  destruct (cell t i j) as [v|] eqn:E.
  - destruct (A i j v E) as (v1 & E1 & S1). destruct (B j i v ltac:(rewrite C; exact E)) as (v2 & E2 & S2). rewrite E1, E2. f_equal.
    destruct v; congruence.
  - exfalso. destruct W as (L & R & _). unfold cell in E. destruct (nth_error (rows t) i) as [r|] eqn:Er.
    + apply nth_error_None in E. rewrite (R r (nth_error_In _ _ Er)) in E. lia.
    + apply nth_error_None in Er. lia.
Qed.
Lemma numeric_transpose t : wf t -> AllNumeric floatOf t -> AllNumeric floatOf (transpose t).
Proof. intros W N i j v H. destruct (transpose_spec _ t W) as (_ & C & _). rewrite C in H. exact (N _ _ _ H). Qed.

Lemma dot_spec sd t q : wf t -> SpelledAs q "dotproduct" -> 0 < alen (tp t) -> 0 < alen (tf t) -> AllNumeric floatOf t ->
  exists t1 res, similarities sd t (Some q) = (t1, res) /\ StringsToNumbers floatOf t t1 /\
  let n := alen (ax sd t) in
  match res with
  | Ok (Product c) => wf c /\ alen (tp c) = n /\ alen (tf c) = n /\ getNames (tp c) = getNames (ax sd t) /\ getNames (tf c) = getNames (ax sd t) /\
      forall i j, i < n -> j < n -> exists v, cell c i j = Some v /\ TotalIs pyMul pyAdd (cellAlong sd t1 i) (cellAlong sd t1 j) (alen (offax sd t)) v
  | Ok (Cells _ _ _) => False
  | Err e => exists i j, i < n /\ j < n /\ TotalFails pyMul pyAdd (cellAlong sd t1 i) (cellAlong sd t1 j) (alen (offax sd t)) e
  end.
Proof.
  intros W Sp P F N. rewrite (dot_call floatOf std pyMul pyAdd sd t q Sp).
  destruct (transpose_spec _ t W) as (WT & CT & LP & LF & NP & NF). pose proof (numeric_transpose t W N) as NT.
  pose proof W as (_ & _ & IP & IF). destruct sd; cbn [ax offax].
  - destruct (matMul_spec floatOf pyMul pyAdd false t (transpose t)) as (t1 & b1 & res & E & S1 & S2 & R); try assumption; try lia.
    rewrite E. cbv zeta in R. exists t1, (rmap Product res). split; [reflexivity|]. split; [exact S1|].
    pose proof (converted_cells t t1 b1 W S1 S2) as CC. destruct S1 as (A1 & A2 & _), S2 as (B1 & B2 & _). rewrite A1, A2, B1, B2, NP, NF, LP, LF in R.
    destruct res as [c|e]; cbn [rmap].
    + destruct R as (_ & Wc & L1 & L2 & N1 & N2 & C). repeat (split; [assumption|]).
      intros i j Hi Hj. destruct (C i j ltac:(lia) ltac:(lia)) as (v & Ev & T). exists v. split; [exact Ev|].
      eapply total_ext; [|  |exact T]; cbn [cellAlong]; [reflexivity|]. intros k Hk. apply CC; lia.
    + destruct R as [[_ R]|(_ & i & j & Hi & Hj & T)].
      * exfalso. apply R. split; [reflexivity|]. apply LogicProofs.consistent_refl. exact IF.
      * exists i, j. split; [exact Hi|]. split; [exact Hj|]. eapply fails_ext; [| |exact T]; cbn [cellAlong]; [reflexivity|]. intros k Hk. apply CC; lia.
  - destruct (matMul_spec floatOf pyMul pyAdd false (transpose t) t) as (b1 & t1 & res & E & S2 & S1 & R); try assumption; try lia.
    rewrite E. cbv zeta in R. exists t1, (rmap Product res). split; [reflexivity|]. split; [exact S1|].
    pose proof (converted_cells t t1 b1 W S1 S2) as CC. destruct S1 as (A1 & A2 & _), S2 as (B1 & B2 & _). rewrite A1, A2, B1, B2, NP, NF, LP, LF in R.
    destruct res as [c|e]; cbn [rmap].
    + destruct R as (_ & Wc & L1 & L2 & N1 & N2 & C). repeat (split; [assumption|]).
      intros i j Hi Hj. destruct (C i j ltac:(lia) ltac:(lia)) as (v & Ev & T). exists v. split; [exact Ev|].
      eapply total_ext; [|  |exact T]; cbn [cellAlong]; [|reflexivity]. intros k Hk. apply CC; lia.
    + destruct R as [[_ R]|(_ & i & j & Hi & Hj & T)].
      * exfalso. apply R. split; [reflexivity|]. apply LogicProofs.consistent_refl. exact IP.
      * exists i, j. split; [exact Hi|]. split; [exact Hj|]. eapply fails_ext; [| |exact T]; cbn [cellAlong]; [|reflexivity]. intros k Hk. apply CC; lia.
Qed.
End Dot.
