(** Proofs about the regression learners (C76). *)
From Coq Require Import QArith Lqa.
From Verif Require Import Base NamesModel NamesSpec NamesProofs TableModel TableSpec TableProofs MatchModel MatchSpec ElementsProofs BinOpModel CopyRawProofs RidgeModel RidgeSpec RidgeAlgebra.
From Coq Require Import List. Import ListNotations.
Open Scope nat_scope.

Definition IsArr (a : arr) (n k : nat) (A : nat -> nat -> Q) : Prop :=
  ah a = n /\ aw a = k /\ Shape (av a) n k /\ forall i j, i < n -> j < k -> (qat (av a) i j == A i j)%Q.

Lemma sum_front n f : (sum (S n) f == f 0%nat + sum n (fun k => f (S k)))%Q.
Proof. induction n as [|n IH]; [cbn [sum]; ring|]. change (sum (S (S n)) f) with (sum (S n) f + f (S n))%Q. rewrite IH. cbn [sum]. ring. Qed.
Lemma qdot_sum : forall u v n, List.length u = n -> List.length v = n -> (qdot u v == sum n (fun k => nth k u 0 * nth k v 0))%Q.
Proof.
  induction u as [|x u IH]; intros v n U V.
  - cbn in U. subst n. reflexivity.
  - destruct n as [|n]; [discriminate|]. destruct v as [|y v]; [discriminate|]. rewrite sum_front. cbn [qdot nth]. rewrite (IH v n) by (cbn in U, V; lia). reflexivity.
Qed.
Lemma nth_map_lt {A B} (g : A -> B) l i (d : B) (e : A) : i < List.length l -> nth i (map g l) d = g (nth i l e).
Proof. intros H. rewrite (nth_indep _ d (g e)) by (rewrite map_length; exact H). apply map_nth. Qed.
Lemma nth_map_seq0 {B} (g : nat -> B) n i d : i < n -> nth i (map g (seq 0 n)) d = g i.
Proof. intros H. rewrite (nth_map_lt g (seq 0 n) i d 0) by (rewrite seq_length; exact H). rewrite seq_nth by exact H. reflexivity. Qed.
Lemma qat_build (g : nat -> nat -> Q) n k i j : i < n -> j < k -> qat (map (fun i => map (g i) (seq 0 k)) (seq 0 n)) i j = g i j.
Proof. intros I J. unfold qat. rewrite (nth_map_seq0 (fun i => map (g i) (seq 0 k))) by exact I. apply nth_map_seq0. exact J. Qed.
Lemma Shape_build (g : nat -> nat -> Q) n k : Shape (map (fun i => map (g i) (seq 0 k)) (seq 0 n)) n k.
Proof.
  split; [rewrite map_length, seq_length; reflexivity|]. intros r R. apply in_map_iff in R. destruct R as (i & <- & _). rewrite map_length, seq_length. reflexivity.
Qed.
Lemma Shape_row m n k i : Shape m n k -> i < n -> List.length (nth i m []) = k.
Proof. intros [L R] I. apply R. apply nth_In. lia. Qed.
Lemma qcol_nth m n k i j : Shape m n k -> i < n -> nth i (qcol m j) 0%Q = qat m i j.
Proof. intros [L R] I. unfold qcol. rewrite (nth_map_lt _ m i 0%Q []) by lia. reflexivity. Qed.
Lemma qcol_length m j : List.length (qcol m j) = List.length m.
Proof. apply map_length. Qed.

Lemma tr_spec a n k A : IsArr a n k A -> IsArr (tr a) k n (fun i j => A j i) /\ ab (tr a) = ab a.
Proof.
  intros (H & W & S & E). split; [|reflexivity]. unfold tr. rewrite H, W. split; [reflexivity|]. split; [reflexivity|]. cbn [av]. split.
  - split; [rewrite map_length, seq_length; reflexivity|]. intros r R. apply in_map_iff in R. destruct R as (j & <- & _). rewrite qcol_length. apply S.
  - intros i j I J. unfold qat at 1. rewrite (nth_map_seq0 (qcol (av a))) by exact I. rewrite (qcol_nth _ _ _ _ _ S J). apply E; assumption.
Qed.
Lemma matmul_spec a b n k m A B : IsArr a n k A -> IsArr b k m B -> ab a && ab b = false ->
  exists c, matmul a b = Ok c /\ IsArr c n m (mm k A B) /\ ab c = false.
Proof.
  intros (Ha & Wa & Sa & Ea) (Hb & Wb & Sb & Eb) NB. unfold matmul. rewrite Wa, Hb, Nat.eqb_refl, NB. eexists. split; [reflexivity|]. split; [|reflexivity].
  split; [exact Ha|]. split; [exact Wb|]. cbn [av]. rewrite Wb. split.
  - split; [rewrite map_length; apply Sa|]. intros r R. apply in_map_iff in R. destruct R as (x & <- & _). rewrite map_length, seq_length. reflexivity.
  - intros i j I J. unfold qat at 1. rewrite (nth_map_lt _ (av a) i [] []) by (destruct Sa; lia). rewrite nth_map_seq0 by exact J.
    rewrite (qdot_sum _ _ k) by (try apply (Shape_row _ n); try assumption; rewrite qcol_length; apply Sb).
    apply sum_ext. intros l L. rewrite (qcol_nth _ _ _ _ _ Sb L). rewrite (Eb l j L J). apply Qmult_comp; [apply (Ea i l I L)|reflexivity].
Qed.
Lemma addA_spec a b n k A B : IsArr a n k A -> IsArr b n k B -> IsArr (addA a b) n k (fun i j => A i j + B i j)%Q.
Proof.
  intros (Ha & Wa & Sa & Ea) (Hb & Wb & Sb & Eb). unfold addA. rewrite Ha, Wa. split; [reflexivity|]. split; [reflexivity|]. cbn [av]. split; [apply Shape_build|].
  intros i j I J. rewrite (qat_build (fun i j => qat (av a) i j + qat (av b) i j)%Q) by assumption. rewrite (Ea i j I J), (Eb i j I J). reflexivity.
Qed.
Lemma eye_spec l n : IsArr (eye l n) n n (fun i j => l * unit i j)%Q.
Proof.
  split; [reflexivity|]. split; [reflexivity|]. cbn [eye av]. split; [apply Shape_build|]. intros i j I J.
  rewrite (qat_build (fun i j => l * if i =? j then 1 else 0)%Q) by assumption. reflexivity.
Qed.
Lemma IsArr_ext a n k A B : (forall i j, i < n -> j < k -> (A i j == B i j)%Q) -> IsArr a n k A -> IsArr a n k B.
Proof. intros X (H & W & S & E). repeat (split; [assumption|]). intros i j I J. rewrite (E i j I J). apply X; assumption. Qed.

Section Raw.
Variable floatOf : string -> option pval.
Lemma num_number v q : IsNumber v q -> num floatOf v = Ok q.
Proof. intros []; reflexivity. Qed.
Lemma raw_spec t n k A : IsReal t n k A -> exists a, raw floatOf t = Ok a /\ IsArr a n k A /\ (NotBooleans t -> ab a = false).
Proof.
  intros (W & N & K & E). destruct W as (L & R & IP & IF).
  assert (CN : forall i j r v, nth_error (rows t) i = Some r -> nth_error r j = Some v -> exists q, num floatOf v = Ok q /\ (q == A i j)%Q).
  { intros i j r v X Y. pose proof (nth_error_lt _ _ X) as Li. pose proof (nth_error_lt _ _ Y) as Lj. rewrite (R r (nth_error_In _ _ X)) in Lj.
    destruct (E i j ltac:(lia) ltac:(lia)) as (v' & q & C & I & Q). unfold cell in C. rewrite X, Y in C. injection C as <-. exists q. split; [apply num_number; exact I|exact Q]. }
  destruct (rmapM_total (rmapM (num floatOf)) (rows t)) as [m Em].
  { intros r X. apply In_nth_error in X. destruct X as [i X]. apply rmapM_total. intros v Y. apply In_nth_error in Y. destruct Y as [j Y].
    destruct (CN i j r v X Y) as (q & H & _). exists q. exact H. }
  unfold raw. rewrite Em. cbn [rbind]. eexists. split; [reflexivity|]. split.
  - split; [exact N|]. split; [exact K|]. cbn [av]. split.
    + split; [rewrite (rmapM_ok_length _ _ Em); lia|]. intros r' X. apply In_nth_error in X. destruct X as [i X].
      pose proof (nth_error_lt _ _ X) as Li. rewrite (rmapM_ok_length _ _ Em) in Li. destruct (nth_error (rows t) i) as [r|] eqn:Er; [|apply nth_error_None in Er; lia].
      destruct (rmapM_ok_nth _ _ Em _ Er) as (y & Y & H). rewrite X in Y. injection Y as <-. rewrite (rmapM_ok_length _ _ H). rewrite (R r (nth_error_In _ _ Er)). exact K.
    + intros i j I J. destruct (nth_error (rows t) i) as [r|] eqn:Er; [|apply nth_error_None in Er; lia].
      destruct (rmapM_ok_nth _ _ Em _ Er) as (y & Y & H). destruct (nth_error r j) as [v|] eqn:Ev; [|apply nth_error_None in Ev; rewrite (R r (nth_error_In _ _ Er)) in Ev; lia].
      destruct (rmapM_ok_nth _ _ H _ Ev) as (q & Yq & Hq). destruct (CN i j r v Er Ev) as (q' & H' & Q). unfold qat.
      rewrite (nth_error_nth _ _ _ Y), (nth_error_nth _ _ _ Yq). congruence || (rewrite Hq in H'; injection H' as ->; exact Q).
  - intros [Z|[Z|(i & j & v & C & NB)]]; cbn [ab]; [rewrite Z; reflexivity|rewrite Z, andb_false_r; reflexivity|].
    apply andb_false_iff. right. apply not_true_is_false. intros F. rewrite forallb_forall in F. unfold cell in C. destruct (nth_error (rows t) i) as [r|] eqn:Er; [|discriminate].
    specialize (F r (nth_error_In _ _ Er)). rewrite forallb_forall in F. specialize (F v (nth_error_In _ _ C)). destruct v; try discriminate F. apply (NB b). reflexivity.
Qed.
End Raw.

Section Train.
Variable floatOf : string -> option pval.
Variable inv : list (list Q) -> result (list (list Q)).
Hypothesis GI : Inverts inv.
Notation train := (ridgeTrain floatOf inv).

(** the matrix inverted has the elements of gram *)
Lemma Inverse_ext n M M' N : (forall i j, i < n -> j < n -> (M i j == M' i j)%Q) -> Inverse n M N -> Inverse n M' N.
Proof.
  intros X H i j I J. destruct (H i j I J) as [P Q]. split; [rewrite <- P|rewrite <- Q]; apply sum_ext; intros k K; rewrite X by assumption; reflexivity.
Qed.
Lemma Singular_ext n M M' : (forall i j, i < n -> j < n -> (M i j == M' i j)%Q) -> Singular n M -> Singular n M'.
Proof. intros X (v & NZ & H). exists v. split; [exact NZ|]. intros i I. rewrite <- (H i I). apply sum_ext. intros j J. rewrite (X i j I J). reflexivity. Qed.
Lemma ridgeTrain_spec tX tY n f k X Y lamb : IsReal tX n f X -> IsReal tY n k Y -> NotBooleans tX ->
  match train lamb tX tY with
  | Ok w => exists N, Inverse f (gram n X lamb) N /\ ab w = false /\ IsArr w f k (fun j c => mm n (mm f N (fun j i => X i j)) Y j c)
  | Err _ => Singular f (gram n X lamb)
  end.
Proof.
  intros HX HY NB. destruct (raw_spec floatOf tX n f X HX) as (x & Ex & Ax & Bx). destruct (raw_spec floatOf tY n k Y HY) as (y & Ey & Ay & _).
  specialize (Bx NB). unfold ridgeTrain. rewrite Ex, Ey. cbn [rbind]. destruct (tr_spec x n f X Ax) as [At Bt]. rewrite Bx in Bt.
  destruct (matmul_spec (tr x) x f n f _ X At Ax) as (c & Ec & Ac & Bc); [rewrite Bt; reflexivity|]. rewrite Ec. cbn [rbind].
  assert (Wf : alen (tf tX) = f) by apply HX. rewrite Wf.
  assert (G : IsArr (addA c (eye lamb f)) f f (gram n X lamb)) by (exact (addA_spec c (eye lamb f) f f _ _ Ac (eye_spec lamb f))).
  destruct G as (_ & _ & Sg & Eg). pose proof (GI f _ Sg) as IG. destruct (inv (av (addA c (eye lamb f)))) as [i|e]; cbn [rbind].
  - destruct IG as [Si Ii]. assert (Ii' : Inverse f (gram n X lamb) (element i)) by (exact (Inverse_ext f _ _ _ Eg Ii)).
    assert (Ai : IsArr (mkArr (aw x) (aw x) false i) f f (element i)).
    { destruct Ax as (_ & Wx & _). rewrite Wx. split; [reflexivity|]. split; [reflexivity|]. split; [exact Si|]. intros; reflexivity. }
    destruct (matmul_spec _ _ f f n _ _ Ai At) as (a & Ea & Aa & Ba); [reflexivity|]. rewrite Ea. cbn [rbind].
    destruct (matmul_spec a y f n k _ Y Aa Ay) as (w & Ew & Aw & Bw); [rewrite Ba; reflexivity|]. rewrite Ew.
    exists (element i). split; [exact Ii'|]. split; [exact Bw|exact Aw].
  - exact (Singular_ext f _ _ Eg IG).
Qed.
(** the weights solve the normal equations *)
Lemma weights_Normal n f X (y : nat -> Q) lamb N w : Inverse f (gram n X lamb) N ->
  (forall j, j < f -> (w j == sum n (fun i => mm f N (fun j i => X i j) j i * y i))%Q) -> Normal n f X y lamb w.
Proof.
  intros NV W j J.
  transitivity (sum f (fun l => gram n X lamb j l * sum f (fun l' => N l l' * sum n (fun i => X i l' * y i))))%Q.
  - apply sum_ext. intros l L. rewrite (W l L). rewrite (mv_assoc f n N (fun j i => X i j) y l). reflexivity.
  - rewrite <- (mv_assoc f f (gram n X lamb) N). rewrite <- (sum_unit_l f (fun j => sum n (fun i => X i j * y i))%Q j J).
    apply sum_ext. intros l L. destruct (NV j l J L) as [R _]. unfold mm. rewrite R. reflexivity.
Qed.
Lemma ridge_Normal tX tY n f k X Y lamb w : IsReal tX n f X -> IsReal tY n k Y -> NotBooleans tX -> train lamb tX tY = Ok w ->
  IsArr w f k (qat (av w)) /\ ab w = false /\ exists N, Inverse f (gram n X lamb) N /\ forall c, c < k -> Normal n f X (fun i => Y i c) lamb (fun j => qat (av w) j c).
Proof.
  intros HX HY NB E. pose proof (ridgeTrain_spec tX tY n f k X Y lamb HX HY NB) as T. rewrite E in T. destruct T as (N & NV & Bw & Aw).
  destruct Aw as (Hw & Ww & Sw & Ew). split; [split; [exact Hw|]; split; [exact Ww|]; split; [exact Sw|]; intros; reflexivity|]. split; [exact Bw|].
  exists N. split; [exact NV|]. intros c C. apply (weights_Normal n f X (fun i => Y i c) lamb N); [exact NV|]. intros j J. apply (Ew j c J C).
Qed.
Lemma ridge_minimises tX tY n f k X Y lamb w : IsReal tX n f X -> IsReal tY n k Y -> NotBooleans tX -> (0 <= lamb)%Q -> train lamb tX tY = Ok w ->
  forall c, c < k -> forall v,
    (loss n f X (fun i => Y i c) lamb (fun j => element (av w) j c) <= loss n f X (fun i => Y i c) lamb v)%Q /\
    ((loss n f X (fun i => Y i c) lamb v <= loss n f X (fun i => Y i c) lamb (fun j => element (av w) j c))%Q -> forall j, j < f -> (v j == element (av w) j c)%Q).
Proof.
  intros HX HY NB L0 E c C v. destruct (ridge_Normal _ _ _ _ _ _ _ _ _ HX HY NB E) as (_ & _ & N & NV & NN). split.
  - apply minimal; [exact L0|exact (NN c C)].
  - intros LE j J. exact (unique n f X (fun i => Y i c) lamb L0 N _ NV (NN c C) v LE j J).
Qed.
Lemma ridge_trains tX tY n f k X Y lamb : IsReal tX n f X -> IsReal tY n k Y -> NotBooleans tX -> (0 < lamb)%Q -> exists w, train lamb tX tY = Ok w.
Proof.
  intros HX HY NB L0. pose proof (ridgeTrain_spec tX tY n f k X Y lamb HX HY NB) as T. destruct (train lamb tX tY) as [w|e]; [exists w; reflexivity|].
  exfalso. revert T. exact (regular n f X lamb L0).
Qed.
Lemma loss_ext n f X X' y y' lamb w w' : (forall i j, i < n -> j < f -> (X i j == X' i j)%Q) -> (forall i, i < n -> (y i == y' i)%Q) -> (forall j, j < f -> (w j == w' j)%Q) ->
  (loss n f X y lamb w == loss n f X' y' lamb w')%Q.
Proof.
  intros A B C. unfold loss. apply Qplus_comp.
  - apply sum_ext. intros i I. assert (P : (predicted f (X i) w == predicted f (X' i) w')%Q) by (apply sum_ext; intros j J; rewrite (A i j I J), (C j J); reflexivity).
    rewrite P, (B i I). reflexivity.
  - apply Qmult_comp; [reflexivity|]. apply sum_ext. intros j J. rewrite (C j J). reflexivity.
Qed.
(** data on a plane gives the plane *)
Lemma ridge_exact tX tY n f k X Y w w0 : IsReal tX n f X -> IsReal tY n k Y -> NotBooleans tX -> train 0%Q tX tY = Ok w ->
  (forall i c, i < n -> c < k -> (Y i c == predicted f (X i) (fun j => w0 j c))%Q) -> forall j c, j < f -> c < k -> (element (av w) j c == w0 j c)%Q.
Proof.
  intros HX HY NB E PL j c J C. destruct (ridge_minimises tX tY n f k X Y 0%Q w HX HY NB ltac:(lra) E c C (fun j => w0 j c)) as [_ U].
  symmetry. refine (U _ j J). clear U.
  assert (Z : (loss n f X (fun i => Y i c) 0 (fun j => w0 j c) == 0)%Q).
  { unfold loss. rewrite sum_zero; [ring|]. intros i I. rewrite (PL i c I C). ring. }
  rewrite Z. unfold loss. assert (0 <= sum n (fun i => (Y i c - predicted f (X i) (fun j => element (av w) j c)) * (Y i c - predicted f (X i) (fun j => element (av w) j c))))%Q by (apply sum_nonneg; intros; apply square_nonneg).
  nra.
Qed.
End Train.

(** ** prediction *)
Section Apply.
Variable floatOf : string -> option pval.
Lemma tableOf_spec a n k A : IsArr a n k A -> let t := tableOf a in
  wf t /\ alen (tp t) = n /\ alen (tf t) = k /\ forall i j, i < n -> j < k -> exists q, cell t i j = Some (PFloat q) /\ (q == A i j)%Q.
Proof.
  intros (H & W & S & E) t. unfold t, tableOf. cbn [tp tf alen]. split.
  - split; [cbn; rewrite map_length, H; apply S|]. split; [|split; apply fresh_Inv]. cbn [rows tf alen]. intros r R. apply in_map_iff in R. destruct R as (x & <- & X). rewrite map_length, W. apply S. exact X.
  - split; [exact H|]. split; [exact W|]. intros i j I J. exists (qat (av a) i j). split; [|apply E; assumption].
    unfold cell. cbn [rows]. rewrite nth_error_map. destruct S as [L R]. destruct (nth_error (av a) i) as [r|] eqn:Er; [|apply nth_error_None in Er; lia]. cbn [option_map].
    rewrite nth_error_map. pose proof (R r (nth_error_In _ _ Er)) as Lr. destruct (nth_error r j) as [q|] eqn:Eq; [|apply nth_error_None in Eq; lia]. cbn. do 2 f_equal.
    unfold qat. rewrite (nth_error_nth _ _ _ Er). symmetry. apply nth_error_nth. exact Eq.
Qed.
Lemma ridgeApply_spec w t m f k W X : IsArr w f k W -> ab w = false -> IsReal t m f X ->
  exists r, ridgeApply floatOf w t = Ok r /\ wf r /\ alen (tp r) = m /\ alen (tf r) = k /\
    (forall i c, i < m -> c < k -> exists q, cell r i c = Some (PFloat q) /\ (q == predicted f (X i) (fun j => W j c))%Q).
Proof.
  intros Aw Bw HX. destruct (raw_spec floatOf t m f X HX) as (x & Ex & Ax & _). unfold ridgeApply. rewrite Ex. cbn [rbind].
  destruct (tr_spec w f k W Aw) as [Atw Btw]. destruct (tr_spec x m f X Ax) as [Atx _].
  destruct (matmul_spec _ _ k f m _ _ Atw Atx) as (p & Ep & Ap & Bp); [rewrite Btw, Bw; reflexivity|]. rewrite Ep. cbn [rbind].
  destruct (tr_spec p k m _ Ap) as [Atp _]. destruct (tableOf_spec _ _ _ _ Atp) as (W1 & L1 & L2 & C). eexists. split; [reflexivity|].
  split; [exact W1|]. split; [exact L1|]. split; [exact L2|]. intros i c I J. destruct (C i c I J) as (q & Cq & Qq). exists q. split; [exact Cq|].
  rewrite Qq. unfold mm, predicted. apply sum_ext. intros j Jj. ring.
Qed.
End Apply.
