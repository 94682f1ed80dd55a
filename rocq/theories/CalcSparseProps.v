(** C82: calculateOnElements of Sparse objects.  Definitions used in the statements:
    StransSpec.v (Shows), ElementsSpec.v (ZeroUniform, OneKind, BecomesNew, addressed,
    LikeHeader, positionsOf). *)
From Verif Require Import Base NamesModel NamesSpec NamesProofs TableModel TableSpec TableProofs TableOps TableOpsProofs TableOps3Proofs MatchModel MatchSpec MatchProofs GetSpec QueryModel
  ElementsModel ElementsSpec CopyModel CopySpec TypedModel TypedSpec SparseModel SparseSpec StransModel StransSpec StransProofs CalcSparseModel CalcSparseProofs.
From Coq Require Import String QArith Lia. From Coq Require Import List. Import ListNotations.
Open Scope string_scope. Open Scope list_scope. Open Scope nat_scope.

(** With preserveZeros the function is given what is stored only; the result has every
    point and feature, no names, zeros where there were zeros and elsewhere what the
    function gives (None as NaN).  Missing: results of more than one kind, and points
    or features given (false, below). *)
Theorem C82_calculateOnElements_zeros_partial : forall intOf floatOf strOf h skip x t,
  Shows x t -> ZeroUniform (F1 h) -> OneKind true skip (F1 h) None None t ->
  match calculateSparse intOf floatOf strOf (F1 h) None None true skip x with
  | Ok r => wf r /\ tp r = mkAxis (alen (tp t)) None /\ tf r = mkAxis (alen (tf t)) None /\
      forall i j v, cell t i j = Some v -> exists w, cell r i j = Some w /\ BecomesNew true skip (F1 h) v i j w
  | Err e => exists i j v, cell t i j = Some v /\ h v = Err e
  end.
Proof. exact all_spec. Qed.
Print Assumptions C82_calculateOnElements_zeros_partial.
(** [0 3; 2 0], zeros kept by a function that does not keep them *)
Definition ex82 : sobj := mkS (mkAxis 2 None) (mkAxis 2 None) DInt [mkE 1 0 (PInt 2); mkE 0 1 (PInt 3)].
Definition tab82 : table pval := mkTable (mkAxis 2 None) (mkAxis 2 None) [[PInt 0; PInt 3]; [PInt 2; PInt 0]].
Definition dec82 (v : pval) : result pval := match v with PInt z => Ok (PInt (z - 2)) | PFloat _ | PBool _ => Ok (PInt (-2)) | _ => Err TypeErr end.
Example C82_ex_shows : Shows ex82 tab82.
Proof.
  split; [split; [reflexivity|split; [intros r [<-|[<-|[]]]; reflexivity|split; exact I]]|]. split; [reflexivity|]. split; [reflexivity|]. split.
  - constructor; [intros [H|[]]; discriminate|]. constructor; [intros []|constructor].
  - split; [intros e [<-|[<-|[]]]; cbn; repeat split; try lia; eexists; reflexivity|].
    intros i j v H. destruct i as [|[|i]]; [| |destruct i; discriminate]; destruct j as [|[|j]]; try (destruct j; discriminate); cbn in H; injection H as <-; cbn; auto.
    + right. split; auto. intros w [H|[H|[]]]; discriminate.
    + right. split; auto. intros w [H|[H|[]]]; discriminate.
Qed.
Example C82_zeros_hyp : ZeroUniform (F1 dec82) /\ OneKind true false (F1 dec82) None None tab82.
Proof.
  split.
  - intros v S. inversion S as [a b p q X Y Q| | | |]; subst. inversion Y; subst. inversion X; subst; try reflexivity. unfold Qeq in Q. cbn in Q. rewrite Z.mul_1_r in Q. subst. reflexivity.
  - exists ElementsSpec.KInt. split; [discriminate|]. intros i j v r _ _ _ H. destruct v; cbn in H; try discriminate H; injection H as <-; reflexivity.
Qed.
Example C82_zeros_ex : calculateSparse (fun _ => None) (fun _ => None) (fun _ => "") (F1 dec82) None None true false ex82 = Ok (mkTable (mkAxis 2 None) (mkAxis 2 None) [[PInt 0; PInt 1]; [PInt 0; PInt 0]]).
Proof. reflexivity. Qed.
(** In all other cases every addressed element is computed, as for the other types of
    objects (C53). *)
Theorem C82_calculateOnElements_partial : forall intOf floatOf strOf f points features ps fs pz skip x t,
  Shows x t -> isOneArg f && pz = false -> limitDenotes (tp t) points ps -> limitDenotes (tf t) features fs ->
  ps <> Some [] -> fs <> Some [] -> ZeroUniform f -> (isOneArg f = true -> OneKind pz skip f ps fs t) ->
  let pl := positionsOf (alen (tp t)) ps in let fl := positionsOf (alen (tf t)) fs in
  (isOneArg f = false -> ~ LikeHeader pz skip f pl fl t) ->
  match calculateSparse intOf floatOf strOf f points features pz skip x with
  | Ok r => wf r /\ tp r = mkAxis (List.length pl) None /\ tf r = mkAxis (List.length fl) None /\
      forall a b i j v, nth_error pl a = Some i -> nth_error fl b = Some j -> cell t i j = Some v ->
      exists w, cell r a b = Some w /\ BecomesNew pz skip f v i j w
  | Err e => exists i j v, addressed ps fs i j /\ cell t i j = Some v /\ callF f v i j = Err e
  end.
Proof. exact rest_spec. Qed.
Print Assumptions C82_calculateOnElements_partial.
Example C82_rest_ex : calculateSparse (fun _ => None) (fun _ => None) (fun _ => "") (F1 dec82) (Some [IdInt (-1); IdInt 0]) (Some [IdInt 1]) false false ex82
  = Ok (mkTable (mkAxis 2 None) (mkAxis 1 None) [[PInt (-2)]; [PInt 1]]).
Proof. reflexivity. Qed.
(** With preserveZeros, giving points but not features, or features but not points, is
    a TypeError as soon as a selected point holds something that is not zero. *)
Theorem C82_calculateOnElements_one_axis : forall intOf floatOf strOf h points features ps fs skip x t i j v,
  Shows x t -> limitDenotes (tp t) points ps -> limitDenotes (tf t) features fs ->
  (ps = None /\ fs <> None \/ fs = None /\ ps <> None) -> cell t i j = Some v -> ~ Same v (PInt 0) -> chosen ps i ->
  calculateSparse intOf floatOf strOf (F1 h) points features true skip x = Err TypeErr.
Proof. exact one_axis. Qed.
Print Assumptions C82_calculateOnElements_one_axis.
Example C82_one_axis_ex : calculateSparse (fun _ => None) (fun _ => None) (fun _ => "") (F1 dec82) (Some [IdInt 1]) None true false ex82 = Err TypeErr.
Proof. reflexivity. Qed.
(** With preserveZeros and both, the elements of the result are right for the positions
    of the original: each element of it, at its position in the original, is what the
    function gives if it is selected and zero otherwise.  The result has all selected
    elements that are not zero and is no larger than the original.  The only error
    besides those of the function is that everything selected is zero.  Missing: the
    shape and the positions of the selection (false, below). *)
Theorem C82_calculateOnElements_subset_partial : forall intOf floatOf strOf h points features ps fs skip x t,
  Shows x t -> limitDenotes (tp t) points (Some ps) -> limitDenotes (tf t) features (Some fs) ->
  ZeroUniform (F1 h) -> OneKind true skip (F1 h) (Some ps) (Some fs) t ->
  match calculateSparse intOf floatOf strOf (F1 h) points features true skip x with
  | Ok r => wf r /\ tp r = mkAxis (alen (tp r)) None /\ tf r = mkAxis (alen (tf r)) None /\ alen (tp r) <= alen (tp t) /\ alen (tf r) <= alen (tf t) /\
      (forall i j v, cell t i j = Some v -> addressed (Some ps) (Some fs) i j -> ~ Same v (PInt 0) -> i < alen (tp r) /\ j < alen (tf r)) /\
      forall i j w, cell r i j = Some w -> exists v, cell t i j = Some v /\
        (addressed (Some ps) (Some fs) i j -> BecomesNew true skip (F1 h) v i j w) /\ (~ addressed (Some ps) (Some fs) i j -> w = PInt 0)
  | Err e => (e = ValueErr /\ forall i j v, cell t i j = Some v -> addressed (Some ps) (Some fs) i j -> Same v (PInt 0)) \/
      exists i j v, cell t i j = Some v /\ addressed (Some ps) (Some fs) i j /\ h v = Err e
  end.
Proof. exact subset_spec. Qed.
Print Assumptions C82_calculateOnElements_subset_partial.
Example C82_subset_ex : calculateSparse (fun _ => None) (fun _ => None) (fun _ => "") (F1 dec82) (Some [IdInt 0]) (Some [IdInt 0; IdInt (-1)]) true false ex82
  = Ok (mkTable (mkAxis 1 None) (mkAxis 2 None) [[PInt 0; PInt 1]]).
Proof. reflexivity. Qed.
(** But the results keep the positions of the original and the
    shape ends at the last of them: a selection of one element gives a 2 x 1
    object whose first point is zero. *)
Theorem C82_calculateOnElements_subset_refuted :
  exists x t h, Shows x t /\ ZeroUniform (F1 h) /\ OneKind true false (F1 h) (Some [1]) (Some [0]) t /\ cell t 1 0 = Some (PInt 2) /\ h (PInt 2) = Ok (PInt 5) /\
    forall intOf floatOf strOf, exists r, calculateSparse intOf floatOf strOf (F1 h) (Some [IdInt 1]) (Some [IdInt 0]) true false x = Ok r /\
      alen (tp r) = 2 /\ alen (tf r) = 1 /\ cell r 0 0 = Some (PInt 0) /\ cell r 1 0 = Some (PInt 5).
Proof.
  exists ex82, tab82, (fun _ => Ok (PInt 5)). split; [exact C82_ex_shows|]. split; [intros v _; reflexivity|].
  split; [exists ElementsSpec.KInt; split; [discriminate|]; intros i j v r _ _ _ H; cbn in H; injection H as <-; reflexivity|].
  split; [reflexivity|]. split; [reflexivity|]. intros. eexists. split; [reflexivity|]. repeat split.
Qed.
Print Assumptions C82_calculateOnElements_subset_refuted.
(** and when everything selected is zero there is nothing to compute with, which is an
    error *)
Theorem C82_calculateOnElements_zero_subset_refuted :
  exists x t h, Shows x t /\ cell t 0 0 = Some (PInt 0) /\ (forall v, exists w, h v = Ok w) /\
    forall intOf floatOf strOf, calculateSparse intOf floatOf strOf (F1 h) (Some [IdInt 0]) (Some [IdInt 0]) true false x = Err ValueErr.
Proof. exists ex82, tab82, (fun v => Ok v). split; [exact C82_ex_shows|]. split; [reflexivity|]. split; [intros v; exists v; reflexivity|]. intros. reflexivity. Qed.
Print Assumptions C82_calculateOnElements_zero_subset_refuted.
(** Results of more than one kind are cast to the kind of the first stored one. *)
Theorem C82_calculateOnElements_truncates_refuted :
  exists x t h, Shows x t /\ ZeroUniform (F1 h) /\ cell t 0 1 = Some (PInt 3) /\ h (PInt 3) = Ok (PFloat (3 # 2)) /\
    forall intOf floatOf strOf, exists r, calculateSparse intOf floatOf strOf (F1 h) None None true false x = Ok r /\ cell r 0 1 = Some (PInt 1).
Proof.
  exists ex82, tab82, (fun v => match v with PInt 2 => Ok (PInt 1) | PInt 3 => Ok (PFloat (3 # 2)) | _ => Ok (PInt 1) end).
  split; [exact C82_ex_shows|]. split.
  { intros v S. inversion S as [a b p q X Y Q| | | |]; subst. inversion Y; subst. inversion X; subst; try reflexivity. unfold Qeq in Q. cbn in Q. rewrite Z.mul_1_r in Q. subst. reflexivity. }
  split; [reflexivity|]. split; [reflexivity|]. intros. eexists. split; [reflexivity|]. vm_compute. reflexivity.
Qed.
Print Assumptions C82_calculateOnElements_truncates_refuted.
