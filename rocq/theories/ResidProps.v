(** C84: nimble.calculate.residuals. *)
From Coq Require Import QArith Lqa.
From Verif Require Import Base NamesModel NamesSpec NamesProofs TableModel TableSpec TableProofs MatchModel MatchSpec RidgeModel RidgeSpec RidgeAlgebra RidgeGauss RidgeProofs ResidModel ResidSpec ResidProofs.
From Coq Require Import String. From Coq Require Import List. Import ListNotations.
Open Scope string_scope. Open Scope list_scope. Open Scope nat_scope.

(** The result is labelled as toPredict; for each feature there are weights for the
    control variables and a constant with the least squared errors, and the elements are
    what they leave of the feature.  An exception comes from the routine. *)
Theorem C84_residuals : forall floatOf solver, LeastSquares solver -> forall tP cV n k f Y X,
  IsReal tP n k Y -> IsReal cV n f X -> 0 < n -> 0 < k -> 0 < f ->
  match residuals floatOf solver tP cV with
  | Ok r => LabelledLike tP r /\ forall c, c < k -> exists b w,
      (forall i, i < n -> NumberAt r i c (Y i c - fitted f X b w i)%Q) /\
      forall b' w', (squaredErrors n f X (fun i => Y i c) b w <= squaredErrors n f X (fun i => Y i c) b' w')%Q
  | Err e => exists m m', Shape m n (S f) /\ Shape m' n 1 /\ solver m m' = Err e
  end.
Proof. exact residuals_spec. Qed.
Print Assumptions C84_residuals.

(** The residuals of every feature sum to zero, and are orthogonal to every control
    variable. *)
Theorem C84_residuals_orthogonal : forall floatOf solver, LeastSquares solver -> forall tP cV n k f Y X r,
  IsReal tP n k Y -> IsReal cV n f X -> 0 < n -> 0 < k -> 0 < f -> residuals floatOf solver tP cV = Ok r ->
  forall c, c < k -> exists R : nat -> Q, (forall i, i < n -> NumberAt r i c (R i)) /\
    (sum n R == 0)%Q /\ forall j, j < f -> (sum n (fun i => R i * X i j) == 0)%Q.
Proof.
  intros fo so LS tP cV n k f Y X r HP HC N0 K0 F0 E c C. pose proof (residuals_spec fo so LS tP cV n k f Y X HP HC N0 K0 F0) as H. rewrite E in H.
  destruct H as [_ H]. destruct (H c C) as (b & w & HR & HM). exists (fun i => Y i c - fitted f X b w i)%Q. split; [exact HR|].
  exact (orthogonal n f X (fun i => Y i c) b w HM).
Qed.
Print Assumptions C84_residuals_orthogonal.

(** A feature that is a linear function of the control variables leaves nothing. *)
Theorem C84_residuals_exact : forall floatOf solver, LeastSquares solver -> forall tP cV n k f Y X r,
  IsReal tP n k Y -> IsReal cV n f X -> 0 < n -> 0 < k -> 0 < f -> residuals floatOf solver tP cV = Ok r ->
  forall c b w, c < k -> (forall i, i < n -> (Y i c == fitted f X b w i)%Q) -> forall i, i < n -> NumberAt r i c 0.
Proof.
  intros fo so LS tP cV n k f Y X r HP HC N0 K0 F0 E c b0 w0 C EX i I. pose proof (residuals_spec fo so LS tP cV n k f Y X HP HC N0 K0 F0) as H. rewrite E in H.
  destruct H as [_ H]. destruct (H c C) as (b & w & HR & HM). destruct (HR i I) as (q & A & B). exists q. split; [exact A|]. rewrite B.
  exact (exact_fit n f X (fun i => Y i c) b w b0 w0 HM EX i I).
Qed.
Print Assumptions C84_residuals_exact.

(** The residuals are determined by the data: any other least squares routine gives the
    same ones, and so does a feature to which a linear function of the control variables
    is added. *)
Theorem C84_residuals_determined : forall floatOf so so', LeastSquares so -> LeastSquares so' ->
  forall tP tP' cV n k f Y Y' X r r' b0 w0,
  IsReal tP n k Y -> IsReal tP' n k Y' -> IsReal cV n f X -> 0 < n -> 0 < k -> 0 < f ->
  residuals floatOf so tP cV = Ok r -> residuals floatOf so' tP' cV = Ok r' ->
  (forall i c, i < n -> c < k -> (Y' i c == Y i c + fitted f X (b0 c) (w0 c) i)%Q) ->
  forall i c, i < n -> c < k -> exists q, NumberAt r i c q /\ NumberAt r' i c q.
Proof.
  intros fo so so' LS LS' tP tP' cV n k f Y Y' X r r' b0 w0 HP HP' HC N0 K0 F0 E E' EY i c I C.
  pose proof (residuals_spec fo so LS tP cV n k f Y X HP HC N0 K0 F0) as H. rewrite E in H. pose proof (residuals_spec fo so' LS' tP' cV n k f Y' X HP' HC N0 K0 F0) as H'. rewrite E' in H'.
  destruct H as [_ H], H' as [_ H']. destruct (H c C) as (b & w & HR & HM). destruct (H' c C) as (b' & w' & HR' & HM').
  exists (Y i c - fitted f X b w i)%Q. split; [exact (HR i I)|]. destruct (HR' i I) as (q & A & B). exists q. split; [exact A|]. rewrite B. symmetry.
  exact (determined n f X (fun i => Y i c) (fun i => Y' i c) b w b' w' (b0 c) (w0 c) HM HM' (fun i I => EY i c I C) i I).
Qed.
Print Assumptions C84_residuals_determined.

(** Numbers are refused only by the routine. *)
Theorem C84_residuals_accepts : forall floatOf solver, LeastSquares solver -> forall tP cV n k f Y X,
  IsReal tP n k Y -> IsReal cV n f X -> 0 < n -> 0 < k -> 0 < f ->
  (forall m m', Shape m n (S f) -> Shape m' n 1 -> exists s, solver m m' = Ok s) -> exists r, residuals floatOf solver tP cV = Ok r.
Proof.
  intros fo so LS tP cV n k f Y X HP HC N0 K0 F0 T. pose proof (residuals_spec fo so LS tP cV n k f Y X HP HC N0 K0 F0) as H.
  destruct (residuals fo so tP cV) as [r|e]; [exists r; reflexivity|]. destruct H as (m & m' & S1 & S2 & E). destruct (T m m' S1 S2) as [s E2]. congruence.
Qed.
Print Assumptions C84_residuals_accepts.

(** Objects that do not fit, or without points or features, are refused. *)
Theorem C84_residuals_refuses : forall floatOf solver tP cV,
  (alen (tp tP) <> alen (tp cV) -> residuals floatOf solver tP cV = Err InvalidArgumentValueCombination) /\
  (alen (tp tP) = alen (tp cV) -> alen (tp tP) = 0 \/ alen (tf tP) = 0 \/ alen (tf cV) = 0 -> residuals floatOf solver tP cV = Err InvalidArgumentValue).
Proof.
  intros fo so tP cV. unfold residuals. split.
  - intros H. apply Nat.eqb_neq in H. rewrite H. reflexivity.
  - intros E H. rewrite <- E, Nat.eqb_refl. cbn [negb]. destruct H as [H|[H|H]]; rewrite H; cbn [Nat.eqb orb]; [reflexivity|rewrite Bool.orb_true_r; reflexivity|].
    rewrite Bool.orb_true_r. destruct ((alen (tp tP) =? 0) || (alen (tf tP) =? 0))%bool; reflexivity.
Qed.
Print Assumptions C84_residuals_refuses.

(** ** a routine as required *)
Definition noFloat (s : string) : option pval := None.
Definition ofQ (m : list (list Q)) : table pval := mkTable (mkAxis (List.length m) None) (mkAxis (List.length (hd [] m)) None) (map (map PFloat) m).
(** the weights of an unpenalised regression, for columns that are independent *)
Definition lsq (m b : list (list Q)) : result (list Q) := w <- ridgeTrain noFloat gauss 0 (ofQ m) (ofQ b) ;; Ok (qcol (av w) 0).
Lemma ofQ_real m n k : 0 < n -> Shape m n k -> IsReal (ofQ m) n k (element m).
Proof.
  intros N0 [L R]. assert (HD : List.length (hd [] m) = k) by (destruct m as [|r m]; [cbn in L; lia|apply R; left; reflexivity]).
  split; [split; [cbn; apply map_length|split; [|split; apply fresh_Inv]]|].
  - cbn [rows ofQ tf alen]. intros r H. apply in_map_iff in H. destruct H as (r0 & <- & H). rewrite map_length, HD. apply R. exact H.
  - split; [exact L|]. split; [exact HD|]. intros i j I J. exists (PFloat (element m i j)), (element m i j). split; [|split; [constructor|reflexivity]].
    unfold cell, ofQ, element. cbn [rows]. rewrite nth_error_map. rewrite (nth_error_nth' m []) by (rewrite L; exact I). cbn [option_map]. rewrite nth_error_map.
    rewrite (nth_error_nth' _ 0%Q) by (rewrite (R (nth i m [])) by (apply nth_In; lia); exact J). reflexivity.
Qed.
Lemma ofQ_not m n k : 0 < n -> 0 < k -> Shape m n k -> NotBooleans (ofQ m).
Proof. intros N0 K0 S. destruct (ofQ_real m n k N0 S) as (_ & _ & _ & C). right. right. destruct (C 0 0 N0 K0) as (v & q & E & _). exists 0, 0, v. split; [exact E|].
  intros b ->. unfold cell, ofQ in E. cbn [rows] in E. rewrite nth_error_map in E. destruct (nth_error m 0) as [r|]; [|discriminate]. destruct r; discriminate. Qed.
Lemma lsq_least : LeastSquares lsq.
Proof.
  intros n k m b s N0 Sm Sb E. unfold lsq in E. destruct (ridgeTrain noFloat gauss 0 (ofQ m) (ofQ b)) as [w|e] eqn:EW; [|discriminate]. cbn [rbind] in E. injection E as <-.
  pose proof (ofQ_real m n k N0 Sm) as Rm. pose proof (ofQ_real b n 1 N0 Sb) as Rb.
  assert (RES : forall x, (residual n k (element m) (fun i => element b i 0) x == loss n k (element m) (fun i => element b i 0) 0 x)%Q).
  { intros x. unfold residual, loss, predicted. rewrite (sum_ext n _ (fun i => (element b i 0 - sum k (fun j => element m i j * x j)) * (element b i 0 - sum k (fun j => element m i j * x j)))%Q) by (intros; ring). ring. }
  destruct k as [|k'].
  { assert (EM : ridgeTrain noFloat gauss 0 (ofQ m) (ofQ b) = Ok w) by exact EW. assert (NB : NotBooleans (ofQ m)) by (right; left; apply Rm).
    destruct (ridge_Normal noFloat gauss gauss_Inverts _ _ _ _ _ _ _ _ _ Rm Rb NB EM) as ((_ & _ & [Lw _] & _) & _ & _). rewrite qcol_length. split; [exact Lw|]. intros x. apply Qle_refl. }
  pose proof (ofQ_not m n (S k') N0 ltac:(lia) Sm) as NB.
  destruct (ridge_Normal noFloat gauss gauss_Inverts _ _ _ _ _ _ _ _ _ Rm Rb NB EW) as ((_ & _ & Sw & _) & _ & _). split; [rewrite qcol_length; apply Sw|].
  intros x. rewrite !RES. destruct (ridge_minimises noFloat gauss gauss_Inverts _ _ _ _ _ _ _ 0%Q w Rm Rb NB (Qle_refl 0) EW 0 ltac:(lia) x) as [H _].
  eapply Qle_trans; [|exact H]. apply Qle_lteq. right. apply loss_ext; try (intros; reflexivity). intros j J. rewrite (qcol_nth _ _ _ _ _ Sw J). reflexivity.
Qed.
(** three points on no line: the residuals 1/12, -1/6, 1/12 *)
Definition toPredict : table pval := mkTable (fst (setNames (fresh 3) (AList [NStr "a"; NStr "b"; NStr "c"]) ONone)) (fst (setNames (fresh 1) (AList [NStr "y"]) ONone)) [[PInt 1]; [PInt 2]; [PFloat (7#2)]].
Definition control : table pval := mkTable (fresh 3) (fresh 1) [[PInt 0]; [PInt 1]; [PInt 2]].
Example residuals_met : IsReal toPredict 3 1 (element [[1]; [2]; [7#2]]%Q) /\ IsReal control 3 1 (element [[0]; [1]; [2]]%Q) /\ LeastSquares lsq.
Proof.
  split; [|split; [|exact lsq_least]].
  - split; [split; [reflexivity|split; [intros r [<-|[<-|[<-|[]]]]; reflexivity|split; apply setNames_list_Inv; exact I]]|]. split; [reflexivity|]. split; [reflexivity|].
    intros [|[|[|i]]] [|j] I J; try lia; do 2 eexists; (split; [reflexivity|split; [constructor|reflexivity]]).
  - split; [split; [reflexivity|split; [intros r [<-|[<-|[<-|[]]]]; reflexivity|split; exact I]]|]. split; [reflexivity|]. split; [reflexivity|].
    intros [|[|[|i]]] [|j] I J; try lia; do 2 eexists; (split; [reflexivity|split; [constructor|reflexivity]]).
Qed.
Example residuals_run : exists r, residuals noFloat lsq toPredict control = Ok r /\
  map (map (fun v => match v with PFloat q => Qred q | _ => 0%Q end)) (rows r) = [[1#12]; [(-1)#6]; [1#12]]%Q /\
  getNames (tp r) = [Some "a"; Some "b"; Some "c"] /\ getNames (tf r) = [Some "y"].
Proof. eexists. split; [vm_compute; reflexivity|]. split; [vm_compute; reflexivity|]. split; vm_compute; reflexivity. Qed.
