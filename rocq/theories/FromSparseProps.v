(** C77: nimble.data(source, returnType='Sparse') for scipy sparse matrices.
    Definitions used in the statements: FromSparseSpec.v, RawSpec.v. *)
From Verif Require Import Base NamesModel NamesSpec TableModel TableSpec TableOps MatchModel MatchSpec GetSpec CsvModel RawModel RawSpec RawProofs SparseModel SparseSpec ReshapeModel SparseReshapeModel FromSparseModel FromSparseSpec FromSparseDup FromSparseNames FromSparseMain FromSparseRest FromSparseConv.
From Verif Require SparseEqProofs.
From Coq Require Import QArith List Lia. Import ListNotations.
Open Scope string_scope.
Open Scope list_scope.
Open Scope nat_scope.

(** *** Entries for the same position are added up, and zeros are not stored: the
    result holds, at each position, zero if there is no entry for it, the entry
    if there is one, the sum if there are more. Nothing is lost and there are no
    repeated positions. *)
Theorem C77_duplicates_summed :
  forall strOf floatOf n k l, InRange n k l -> Summable l ->
  exists l', removeDup strOf floatOf l = Ok l' /\ entsOK (PInt 0) (mkSp n k l' None None) /\ NoZeros l' /\
    forall i j, Holds1 (cellsAt l i j) (SparseSpec.val (PInt 0) (mkSp n k l' None None) i j).
Proof. exact duplicates_summed. Qed.
Print Assumptions C77_duplicates_summed.
(** *** Entries that are not numbers are not added up *)
Theorem C77_duplicates_text_refused :
  forall strOf floatOf l i j v, 2 <= List.length (cellsAt l i j) -> In v (cellsAt l i j) -> NotNumeric floatOf v ->
  exists e, removeDup strOf floatOf l = Err e.
Proof. exact duplicates_text_refused. Qed.
Print Assumptions C77_duplicates_text_refused.

(** *** The object made from a matrix without repeated positions: its size, its
    names, given, taken from the data or looked for there, and its elements are
    those of the nested list [m] showing the matrix, missing values replaced; or
    the names do not fit and it is refused. Missing for the full statement, and
    false (the theorems _refuted below): a single row with 'automatic' names,
    repeated feature names, zeros among point names if both kinds of names are in
    the data, zero counted as missing, missing values replaced with zero. *)
Theorem C77_sparse_source_partial :
  forall strOf, strOf (PInt 0) = "0" -> forall m s pn fn treat repl hp hf,
  Shows m s -> entsOK (PInt 0) s -> notDict pn -> notDict fn ->
  Out (FirstColumnIsNames pn fn m) hp -> Out (FirstRowIsNames pn fn m) hf -> hf < snp s -> hp < snf s ->
  (snp s <> 1 \/ (pn <> NmAuto /\ fn <> NmAuto)) ->
  (hf = 1 -> HeaderDistinct strOf (snf s - hp) (fun j => valueAt m 0 (j + hp))) ->
  (hp = 1 -> hf = 1 -> HeaderNonzero (snp s - 1) (fun i => valueAt m (i + 1) 0)) ->
  ~ CountsAsMissing treat (PInt 0) -> ~ Same repl (PInt 0) ->
  let n := snp s - hf in let k := snf s - hp in
  let ps := namesFrom strOf pn hp (fun i => valueAt m (i + hf) 0) n in
  let fs := namesFrom strOf fn hf (fun j => valueAt m 0 (j + hp)) k in
  match dataSparse strOf pn fn treat repl s with
  | Ok o => NamesFit ps n /\ NamesFit fs k /\ Made treat repl n k ps fs (fun i j => valueAt m (i + hf) (j + hp)) (seen o) /\
            entsOK (PInt 0) (oMat o) /\ (NoZeros (ents s) -> NoZeros (ents (oMat o)))
  | Err e => ~ (NamesFit ps n /\ NamesFit fs k) /\ e = InvalidArgumentValue
  end.
Proof. exact dataSparse_spec. Qed.
Print Assumptions C77_sparse_source_partial.

Lemma Element_fun treat repl v w w' : Element treat repl v w -> Element treat repl v w' -> w = w'.
Proof. intros [[A B]|[A B]] [[C D]|[C D]]; congruence || contradiction. Qed.

Lemma same_as_list strOf (Z : strOf (PInt 0) = "0") T (ET : EqDec T) conv junk m s pn fn treat repl hp hf :
  Shows m s -> entsOK (PInt 0) s -> notDict pn -> notDict fn ->
  Out (FirstColumnIsNames pn fn m) hp -> Out (FirstRowIsNames pn fn m) hf -> hf < snp s -> hp < snf s ->
  (snp s <> 1 \/ (pn <> NmAuto /\ fn <> NmAuto)) ->
  (hf = 1 -> HeaderDistinct strOf (snf s - hp) (fun j => valueAt m 0 (j + hp))) ->
  (hp = 1 -> hf = 1 -> HeaderNonzero (snp s - 1) (fun i => valueAt m (i + 1) 0)) ->
  ~ CountsAsMissing treat (PInt 0) -> ~ Same repl (PInt 0) ->
  match dataSparse strOf pn fn treat repl s, initData strOf T ET conv junk (RRows m) pn fn CNone None None treat repl true with
  | Ok o, Ok (r, _) =>
      alen (oPts o) = alen (tp r) /\ alen (oFts o) = alen (tf r) /\ getNames (oPts o) = getNames (tp r) /\ getNames (oFts o) = getNames (tf r) /\
      forall i j, i < alen (tp r) -> j < alen (tf r) -> cell r i j = Some (SparseSpec.val (PInt 0) (oMat o) i j)
  | Err e, Err e' => e = e'
  | _, _ => False
  end.
Proof.
  intros Sm E Np Nf Op Of Hn Hk G1 Gf Gp Gz Gr.
  pose proof (dataSparse_spec strOf Z m s pn fn treat repl hp hf Sm E Np Nf Op Of Hn Hk G1 Gf Gp Gz Gr) as A. cbv zeta in A.
  destruct Sm as [Ln [Lr V]].
  assert (Wm : width m = snf s) by (destruct m as [|r0 m0]; [cbn in Ln; lia|apply Lr; left; reflexivity]).
  assert (Some0 : valueAt m hf hp <> None) by (rewrite V by lia; discriminate).
  pose proof (rows_main strOf T ET conv junk m pn fn treat repl hp hf Np Nf Op Of Some0) as B. cbv zeta in B. rewrite Ln, Wm in B.
  destruct (dataSparse strOf pn fn treat repl s) as [o|e], (initData strOf T ET conv junk (RRows m) pn fn CNone None None treat repl true) as [[r lo]|e'].
  - destruct A as [_ [_ [A [Eo _]]]], B as [_ [_ B]]. destruct A as [Wa [A1 [A2 [A3 [A4 A5]]]]], B as [_ [B1 [B2 [B3 [B4 B5]]]]].
    cbn [seen tp tf] in *. split; [congruence|]. split; [congruence|]. split; [congruence|]. split; [congruence|].
    intros i j I J. rewrite B1 in I. rewrite B2 in J. destruct (A5 i j I J) as [v [w [X1 [X2 X3]]]], (B5 i j I J) as [v' [w' [Y1 [Y2 Y3]]]].
    rewrite X1 in Y1. injection Y1 as <-. rewrite Y2, (Element_fun _ _ _ _ _ Y3 X3).
    f_equal. destruct (@SparseEqProofs.toDense_spec pval pzero (oMat o) Eo) as [[S1 S2] C].
    unfold cell in X2. cbn [seen rows] in X2. destruct (nth_error (toDense pzero (oMat o)) i) as [r'|] eqn:R; [|discriminate].
    assert (I' : i < snp (oMat o)) by (rewrite <- S1; apply nth_error_Some; congruence).
    assert (J' : j < snf (oMat o)) by (rewrite <- (S2 r') by (eapply nth_error_In; eauto); apply nth_error_Some; congruence).
    specialize (C i j I' J'). unfold SparseEqProofs.cellOf in C. rewrite R, X2 in C. injection C as ->. reflexivity.
  - destruct A as [A1 [A2 _]], B as [B _]. exact (B (conj Lr (conj A1 A2))).
  - destruct A as [A _], B as [_ [[_ B] _]]. exact (A B).
  - destruct A as [_ ->]. destruct B as [_ [->|[-> [_ X]]]]; auto. apply Lr in X. cbn in X. lia.
Qed.
(** *** The same object as from the nested list: both are refused, with the same
    exception, or both are made, with the same sizes, names and elements. (Same
    guards as above.) *)
Theorem C77_same_as_list_partial :
  forall strOf, strOf (PInt 0) = "0" -> forall T (ET : EqDec T) conv junk m s pn fn treat repl hp hf,
  Shows m s -> entsOK (PInt 0) s -> notDict pn -> notDict fn ->
  Out (FirstColumnIsNames pn fn m) hp -> Out (FirstRowIsNames pn fn m) hf -> hf < snp s -> hp < snf s ->
  (snp s <> 1 \/ (pn <> NmAuto /\ fn <> NmAuto)) ->
  (hf = 1 -> HeaderDistinct strOf (snf s - hp) (fun j => valueAt m 0 (j + hp))) ->
  (hp = 1 -> hf = 1 -> HeaderNonzero (snp s - 1) (fun i => valueAt m (i + 1) 0)) ->
  ~ CountsAsMissing treat (PInt 0) -> ~ Same repl (PInt 0) ->
  match dataSparse strOf pn fn treat repl s, initData strOf T ET conv junk (RRows m) pn fn CNone None None treat repl true with
  | Ok o, Ok (r, _) =>
      alen (oPts o) = alen (tp r) /\ alen (oFts o) = alen (tf r) /\ getNames (oPts o) = getNames (tp r) /\ getNames (oFts o) = getNames (tf r) /\
      forall i j, i < alen (tp r) -> j < alen (tf r) -> cell r i j = Some (SparseSpec.val (PInt 0) (oMat o) i j)
  | Err e, Err e' => e = e'
  | _, _ => False
  end.
Proof. exact same_as_list. Qed.
Print Assumptions C77_same_as_list_partial.

Lemma coo_spec strOf (Z : strOf (PInt 0) = "0") floatOf n k l pn fn treat repl :
  InRange n k l -> Summable l -> notDict pn -> notDict fn -> ~ CountsAsMissing treat (PInt 0) -> ~ Same repl (PInt 0) ->
  exists m, List.length m = n /\ (forall r, In r m -> List.length r = k) /\ (forall i j v, valueAt m i j = Some v -> Holds1 (cellsAt l i j) v) /\
  forall hp hf,
  Out (FirstColumnIsNames pn fn m) hp -> Out (FirstRowIsNames pn fn m) hf -> hf < n -> hp < k ->
  (n <> 1 \/ (pn <> NmAuto /\ fn <> NmAuto)) ->
  (hf = 1 -> HeaderDistinct strOf (k - hp) (fun j => valueAt m 0 (j + hp))) ->
  (hp = 1 -> hf = 1 -> HeaderNonzero (n - 1) (fun i => valueAt m (i + 1) 0)) ->
  let ps := namesFrom strOf pn hp (fun i => valueAt m (i + hf) 0) (n - hf) in
  let fs := namesFrom strOf fn hf (fun j => valueAt m 0 (j + hp)) (k - hp) in
  match fromCoo strOf floatOf n k l pn fn treat repl with
  | Ok o => NamesFit ps (n - hf) /\ NamesFit fs (k - hp) /\ Made treat repl (n - hf) (k - hp) ps fs (fun i j => valueAt m (i + hf) (j + hp)) (seen o) /\
            entsOK (PInt 0) (oMat o) /\ NoZeros (ents (oMat o))
  | Err e => ~ (NamesFit ps (n - hf) /\ NamesFit fs (k - hp)) /\ e = InvalidArgumentValue
  end.
Proof.
  intros R Sm Np Nf Gz Gr. destruct (duplicates_summed strOf floatOf n k l R Sm) as [l' [E1 [E2 [E3 E4]]]].
  set (s := mkSp n k l' None None) in *. set (m := map (fun i => map (fun j => SparseSpec.val (PInt 0) s i j) (seq 0 k)) (seq 0 n)).
  assert (Vm : forall i j, valueAt m i j = if (i <? n) && (j <? k) then Some (SparseSpec.val (PInt 0) s i j) else None).
  { intros i j. unfold valueAt, m. rewrite nth_error_map, nth_error_seq. destruct (Nat.ltb_spec i n); cbn [option_map andb]; [|reflexivity].
    rewrite nth_error_map, nth_error_seq. destruct (Nat.ltb_spec j k); reflexivity. }
  assert (Lm : List.length m = n) by (unfold m; rewrite map_length, seq_length; reflexivity).
  assert (Lr : forall r, In r m -> List.length r = k) by (intros r I; apply in_map_iff in I; destruct I as [i [<- _]]; rewrite map_length, seq_length; reflexivity).
  exists m. split; [exact Lm|]. split; [exact Lr|]. split.
  { intros i j v H. rewrite Vm in H. destruct ((i <? n) && (j <? k)); [|discriminate]. injection H as <-. apply E4. }
  intros hp hf Op Of Hn Hk G1 Gf Gp. assert (Sh : Shows m s).
  { split; [exact Lm|]. split; [exact Lr|]. intros i j I J. rewrite Vm. cbn [s snp snf] in I, J. destruct (Nat.ltb_spec i n); [|lia]. destruct (Nat.ltb_spec j k); [reflexivity|lia]. }
  pose proof (dataSparse_spec strOf Z m s pn fn treat repl hp hf Sh E2 Np Nf Op Of Hn Hk G1 Gf Gp Gz Gr) as A. cbv zeta in A |- *.
  unfold fromCoo. rewrite E1. cbn [rbind]. change (mkSp n k l' None None) with s.
  destruct (dataSparse strOf pn fn treat repl s) as [o|e]; [|exact A].
  destruct A as [A1 [A2 [A3 [A4 A5]]]]. split; [exact A1|]. split; [exact A2|]. split; [exact A3|]. split; [exact A4|]. exact (A5 E3).
Qed.
(** *** Both steps: [m] holds what the entries of the matrix add up to *)
Theorem C77_coo_source_partial :
  forall strOf, strOf (PInt 0) = "0" -> forall floatOf n k l pn fn treat repl,
  InRange n k l -> Summable l -> notDict pn -> notDict fn -> ~ CountsAsMissing treat (PInt 0) -> ~ Same repl (PInt 0) ->
  exists m, List.length m = n /\ (forall r, In r m -> List.length r = k) /\ (forall i j v, valueAt m i j = Some v -> Holds1 (cellsAt l i j) v) /\
  forall hp hf,
  Out (FirstColumnIsNames pn fn m) hp -> Out (FirstRowIsNames pn fn m) hf -> hf < n -> hp < k ->
  (n <> 1 \/ (pn <> NmAuto /\ fn <> NmAuto)) ->
  (hf = 1 -> HeaderDistinct strOf (k - hp) (fun j => valueAt m 0 (j + hp))) ->
  (hp = 1 -> hf = 1 -> HeaderNonzero (n - 1) (fun i => valueAt m (i + 1) 0)) ->
  let ps := namesFrom strOf pn hp (fun i => valueAt m (i + hf) 0) (n - hf) in
  let fs := namesFrom strOf fn hf (fun j => valueAt m 0 (j + hp)) (k - hp) in
  match fromCoo strOf floatOf n k l pn fn treat repl with
  | Ok o => NamesFit ps (n - hf) /\ NamesFit fs (k - hp) /\ Made treat repl (n - hf) (k - hp) ps fs (fun i j => valueAt m (i + hf) (j + hp)) (seen o) /\
            entsOK (PInt 0) (oMat o) /\ NoZeros (ents (oMat o))
  | Err e => ~ (NamesFit ps (n - hf) /\ NamesFit fs (k - hp)) /\ e = InvalidArgumentValue
  end.
Proof. exact coo_spec. Qed.
Print Assumptions C77_coo_source_partial.

(** *** Converting the elements: each one to the type asked for its feature, or it
    cannot be converted. Missing, and false (C77_convert_zeros_refuted): types
    that do not keep zero as it is. *)
Theorem C77_convert_partial :
  forall T (ET : EqDec T) conv o, Inv (oPts o) -> Inv (oFts o) -> entsOK (PInt 0) (oMat o) -> snp (oMat o) = alen (oPts o) -> snf (oMat o) = alen (oFts o) ->
  forall c f, okDict c -> KeepsZero conv (oFts o) c ->
  match convertSparse T ET conv c f o with
  | Ok o' => oPts o' = oPts o /\ oFts o' = oFts o /\ (forall l, c = CList l -> List.length l = alen (oFts o)) /\ ConvertedEach conv (oFts o) c (oMat o) (oMat o')
  | Err e => CannotConvert conv (seen o) c e
  end.
Proof. exact convertSparse_spec. Qed.
Print Assumptions C77_convert_partial.

(** *** Examples *)
Definition ex77Str (v : pval) : string := match v with PStr s => s | PInt 0 => "0" | PInt 1 => "1" | PInt 2 => "2" | PInt 5 => "5" | _ => "?" end.
Definition ex77Float (s : string) : option pval := if String.eqb s "3" then Some (PFloat 3) else None.
Definition view77 (r : result sobj) :=
  match r with Ok o => Ok (toDense pzero (oMat o), getNames (oPts o), getNames (oFts o)) | Err e => Err e end.
Definition ex77 (n k : nat) (l : list (entry pval)) (pn fn : nmArg) := view77 (fromCoo ex77Str ex77Float n k l pn fn (Some [PNaN]) PNaN).
(** a header, an element given twice and a zero stored *)
Definition ex77L := [mkE 0 0 (PStr "a"); mkE 0 1 (PStr "b"); mkE 1 0 (PInt 2); mkE 1 0 (PInt 3); mkE 2 1 (PInt 0)].
Example C77_coo_witness : ex77 3 2 ex77L NmAuto NmAuto = Ok ([[PFloat 5; PInt 0]; [PInt 0; PInt 0]], [None; None], [Some "a"; Some "b"]).
Proof. vm_compute. reflexivity. Qed.
Example C77_coo_hyp : InRange 3 2 ex77L /\ Summable ex77L /\ ~ CountsAsMissing (Some [PNaN]) (PInt 0) /\ ~ Same PNaN (PInt 0) /\ ex77Str (PInt 0) = "0".
Proof.
  split; [intros e I; repeat (destruct I as [<-|I]; [cbn; lia|]); contradiction|].
  split.
  { intros i j. destruct i as [|[|[|i]]], j as [|[|j]]; cbn; auto. right. intros v [<-|[<-|[]]]; eexists; constructor. }
  split; [intros [l [u [E [I [H|[H _]]]]]]; [injection E as <-; destruct I as [<-|[]]; inversion H; subst; match goal with X : IsNumber PNaN _ |- _ => inversion X end|discriminate]|].
  split; [intros H; inversion H; subst; match goal with X : IsNumber PNaN _ |- _ => inversion X end|reflexivity].
Qed.
(** the matrix shown by a nested list, nothing taken for names *)
Example C77_source_hyp : exists m s hp hf, Shows m s /\ entsOK (PInt 0) s /\ Out (FirstColumnIsNames NmAuto NmAuto m) hp /\ Out (FirstRowIsNames NmAuto NmAuto m) hf /\
  hf < snp s /\ hp < snf s /\ snp s <> 1 /\ ents s <> [].
Proof.
  exists [[PInt 0; PInt 2]; [PInt 0; PInt 0]], (mkSp 2 2 [mkE 0 1 (PInt 2)] None None), 0, 0.
  assert (F : ~ FirstRowIsNames NmAuto NmAuto [[PInt 0; PInt 2]; [PInt 0; PInt 0]]).
  { intros [H|[_ [_ [h [H [T _]]]]]]; [discriminate|]. destruct H as [[_ [M _]]|[_ ->]]; [discriminate M|]. destruct (T 0 (PInt 0) (Nat.le_refl 0) eq_refl) as [s X]. discriminate. }
  split; [split; [reflexivity|]; split; [intros r [<-|[<-|[]]]; reflexivity|intros i j I J; cbn in I, J; destruct i as [|[|i]], j as [|[|j]]; try lia; reflexivity]|].
  split; [split; [repeat constructor; intros []|intros e [<-|[]]; cbn; repeat split; try lia; discriminate]|].
  split; [right; split; auto; intros [H|[_ [H _]]]; [discriminate|auto]|]. split; [right; auto|]. cbn. repeat split; try lia; discriminate.
Qed.
Definition ex77Conv (c : nat) (v : pval) : result pval :=
  match c, v with
  | 0, PInt z => Ok (PInt z) | 0, PFloat q => Ok (PInt (Z.quot (Qnum q) (Zpos (Qden q)))) | 0, _ => Err ValueErr
  | _, v => Ok (PStr (ex77Str v))
  end.
Definition ex77Obj (l : list (entry pval)) : sobj := mkSO (mkAxis 2 None) (mkAxis 2 None) (mkSp 2 2 l None None) 4.
Example C77_convert_witness : KeepsZero ex77Conv (oFts (ex77Obj [])) (CList [Some 0; None]) /\
  convertSparse nat Nat.eq_dec ex77Conv (CList [Some 0; None]) GNone (ex77Obj [mkE 0 0 (PFloat 2); mkE 1 1 (PStr "x")]) = Ok (ex77Obj [mkE 0 0 (PInt 2); mkE 1 1 (PStr "x")]) /\
  convertSparse nat Nat.eq_dec ex77Conv (CList [Some 0; Some 0]) GNone (ex77Obj [mkE 0 0 (PFloat 2); mkE 1 1 (PStr "x")]) = Err InvalidArgumentValue.
Proof.
  split; [|split; reflexivity]. intros j ty H. inversion H; subst. destruct j as [|[|j]]; cbn in *; try congruence. injection H1 as <-. reflexivity. destruct j; discriminate.
Qed.

(** *** What a user may expect and does not hold. *)
(** Text before a number at the same position raises TypeError, not the
    exception (ValueError) raised for text after a number. *)
Theorem C77_text_first_refuted :
  removeDup ex77Str ex77Float [mkE 0 0 (PInt 1); mkE 0 0 (PStr "a")] = Err ValueErr /\
  removeDup ex77Str ex77Float [mkE 0 0 (PStr "a"); mkE 0 0 (PInt 1)] = Err TypeErr.
Proof. split; reflexivity. Qed.
Print Assumptions C77_text_first_refuted.
(** Feature names must differ, and a nested list with two equal ones is refused.
    Here one is silently renamed. *)
Theorem C77_repeated_names_refuted :
  let l := [mkE 0 0 (PInt 1); mkE 0 1 (PInt 1); mkE 1 0 (PInt 5); mkE 1 1 (PInt 2)] in
  ex77 2 2 l NmNone (NmBool true) = Ok ([[PInt 5; PInt 2]], [None], [Some "0"; Some "1"]) /\
  forall T (ET : EqDec T) conv junk, initData ex77Str T ET conv junk (RRows [[PInt 1; PInt 1]; [PInt 5; PInt 2]]) NmNone (NmBool true) CNone None None (Some [PNaN]) PNaN true = Err InvalidArgumentValue.
Proof. split; [vm_compute; reflexivity|intros; vm_compute; reflexivity]. Qed.
Print Assumptions C77_repeated_names_refuted.
(** A point may have the name 0 if only the points have names in the data, but
    not if the features have them too. *)
Theorem C77_zero_name_refuted :
  ex77 2 2 [mkE 0 1 (PInt 2); mkE 1 0 (PInt 5); mkE 1 1 (PInt 1)] (NmBool true) NmNone = Ok ([[PInt 2]; [PInt 1]], [Some "0"; Some "5"], [None]) /\
  exists e, ex77 3 2 [mkE 0 1 (PInt 2); mkE 1 1 (PInt 2); mkE 2 0 (PInt 5); mkE 2 1 (PInt 1)] (NmBool true) (NmBool true) = Err e.
Proof. split; [vm_compute; reflexivity|eexists; vm_compute; reflexivity]. Qed.
Print Assumptions C77_zero_name_refuted.
(** A single row of text is data in a nested list (there is no row of numbers
    below it); here it is taken for the names. *)
Theorem C77_single_row_refuted :
  let l := [mkE 0 0 (PStr "a"); mkE 0 1 (PStr "b")] in
  ex77 1 2 l NmNone NmAuto = Ok ([], [], [Some "a"; Some "b"]) /\
  forall T (ET : EqDec T) conv junk, exists r, initData ex77Str T ET conv junk (RRows [[PStr "a"; PStr "b"]]) NmNone NmAuto CNone None None (Some [PNaN]) PNaN true = Ok (r, []) /\
    rows r = [[PStr "a"; PStr "b"]].
Proof. split; [vm_compute; reflexivity|intros; eexists; split; vm_compute; reflexivity]. Qed.
Print Assumptions C77_single_row_refuted.
(** treatAsMissing=[0] leaves the zeros that are not stored. *)
Theorem C77_zero_missing_refuted :
  exists o, fromCoo ex77Str ex77Float 1 2 [mkE 0 0 (PInt 2)] NmNone NmNone (Some [PInt 0]) (PInt 5) = Ok o /\ cell (seen o) 0 1 = Some (PInt 0).
Proof. eexists. split; reflexivity. Qed.
Print Assumptions C77_zero_missing_refuted.
(** replaceMissingWith=0 stores zeros: the matrix is no longer one of entries that
    are not zero. *)
Theorem C77_zero_replacement_refuted :
  exists o, fromCoo ex77Str ex77Float 1 2 [mkE 0 0 PNaN] NmNone NmNone (Some [PNaN]) (PInt 0) = Ok o /\ ~ entsOK (PInt 0) (oMat o).
Proof. eexists. split; [vm_compute; reflexivity|]. intros [_ H]. destruct (H (mkE 0 0 (PInt 0))) as [_ [_ X]]; [left; reflexivity|]. apply X. reflexivity. Qed.
Print Assumptions C77_zero_replacement_refuted.
(** Converting leaves the zeros that are not stored as they are (numbers among
    text), and stores the zeros it makes. *)
Theorem C77_convert_zeros_refuted :
  convertSparse nat Nat.eq_dec ex77Conv (COne 1) GNone (ex77Obj [mkE 0 0 (PInt 2)]) = Ok (ex77Obj [mkE 0 0 (PStr "2")]) /\
  cell (seen (ex77Obj [mkE 0 0 (PStr "2")])) 0 1 = Some (PInt 0) /\ ex77Conv 1 (PInt 0) = Ok (PStr "0") /\
  convertSparse nat Nat.eq_dec ex77Conv (COne 0) GNone (ex77Obj [mkE 0 0 (PFloat (1#2))]) = Ok (ex77Obj [mkE 0 0 (PInt 0)]) /\
  ~ entsOK (PInt 0) (oMat (ex77Obj [mkE 0 0 (PInt 0)])).
Proof.
  split; [reflexivity|]. split; [reflexivity|]. split; [reflexivity|]. split; [reflexivity|].
  intros [_ H]. destruct (H (mkE 0 0 (PInt 0))) as [_ [_ X]]; [left; reflexivity|]. apply X. reflexivity.
Qed.
Print Assumptions C77_convert_zeros_refuted.
