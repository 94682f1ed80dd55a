(** Proofs for C51: cutting, padding, tableString, termination. *)
From Coq Require Import ZifyNat.
From Verif Require Import Base ReshapeModel ReshapeTextProofs DisplayModel DisplaySpec DisplayProofs DisplayMainProofs DisplayLayoutProofs.
Ltac Zify.zify_post_hook ::= Z.to_euclidean_division_equations.
Open Scope string_scope. Open Scope list_scope. Open Scope nat_scope.

Lemma slen_app : forall a b, String.length (a ++ b)%string = String.length a + String.length b.
Proof. induction a; intros; cbn; [reflexivity|]. rewrite IHa. reflexivity. Qed.
Lemma sapp_assoc : forall a b c, ((a ++ b) ++ c)%string = (a ++ b ++ c)%string.
Proof. induction a; intros; cbn; [reflexivity|]. rewrite IHa. reflexivity. Qed.
Lemma sapp_nil : forall a, (a ++ "")%string = a.
Proof. induction a; cbn; [reflexivity|]. rewrite IHa. reflexivity. Qed.
Lemma slice_head : forall s z, (0 <= z <= Z.of_nat (String.length s))%Z ->
  Begins (slice s 0 z) s /\ Z.of_nat (String.length (slice s 0 z)) = z.
Proof.
  intros s z Hz. unfold slice.
  replace (bound (String.length s) 0) with 0 by (symmetry; apply (bound_nat (String.length s) 0); lia).
  replace z with (Z.of_nat (Z.to_nat z)) by lia. rewrite bound_nat by lia. rewrite Nat.sub_0_r.
  destruct (substring_cut 0 (Z.to_nat z) s ltac:(lia)) as [a [b [E1 E2]]].
  destruct a; [|discriminate]. cbn [append] in E1. split.
  - exists b. exact E1.
  - f_equal. apply (f_equal String.length) in E1 as E3. rewrite slen_app in E3.
    pose proof (substring_len_le 0 (Z.to_nat z) s) as H1.
    destruct (Nat.eq_dec (String.length (substring 0 (Z.to_nat z) s)) (Z.to_nat z)) as [|Hne]; [assumption|exfalso].
    clear E2 E3. apply Hne. clear - Hz.
    assert (Hx : Z.to_nat z <= String.length s) by lia. revert Hx. generalize (Z.to_nat z). clear Hz.
    induction s as [|ch s IH]; intros n Hn; destruct n; cbn [String.length substring] in *; try lia.
    rewrite IH by lia. reflexivity.
Qed.
Lemma cutCell_ok : forall limit s, (1 <= limit)%Z -> Cut "-" limit s (cutCell limit s).
Proof.
  intros limit s Hl. unfold cutCell, slen. split; intros H.
  - replace (_ <=? limit)%Z with true by (symmetry; apply Z.leb_le; lia). reflexivity.
  - replace (_ <=? limit)%Z with false by (symmetry; apply Z.leb_gt; lia).
    destruct (slice_head s (limit - 1) ltac:(lia)) as [B L].
    exists (slice s 0 (limit - 1)). split; [exact B|]. split; [reflexivity|]. rewrite slen_app. cbn [String.length]. lia.
Qed.
Lemma cutName_plain : forall limit s, cutName limit false s = cutCell limit s.
Proof. reflexivity. Qed.
Lemma cutName_quote : forall limit s, (3 <= limit)%Z ->
  exists t, cutName limit true s = ("'" ++ t ++ "'")%string /\ Cut "-" (limit - 2) s t.
Proof.
  intros limit s Hl. exists (cutCell (limit - 2) s). split.
  - unfold cutName, cutCell. replace (limit - 2 - 1)%Z with (limit - 1 - 2)%Z by lia. reflexivity.
  - apply cutCell_ok. lia.
Qed.

(** ** Padding *)
Lemma concat_repeat_blank : forall n, String.concat "" (repeat " " n) = blanks n.
Proof.
  induction n as [|n IH]; [reflexivity|]. cbn [repeat blanks]. destruct n; [reflexivity|].
  cbn [repeat] in *. cbn [String.concat]. cbn [String.concat] in IH. rewrite IH. reflexivity.
Qed.
Lemma spaces_blanks : forall n, spaces n = blanks n. Proof. exact concat_repeat_blank. Qed.
Lemma blanks_len : forall n, String.length (blanks n) = n.
Proof. induction n; cbn; congruence. Qed.
Lemma blanks_app : forall a b, (blanks a ++ blanks b)%string = blanks (a + b).
Proof. induction a; intros; cbn; [reflexivity|]. rewrite IHa. reflexivity. Qed.
Lemma Padded_refl : forall s, Padded s s.
Proof. intros s. exists 0, 0. cbn. rewrite sapp_nil. reflexivity. Qed.
Lemma Padded_trans : forall a b c, Padded a b -> Padded b c -> Padded a c.
Proof.
  intros a b c [p [q ->]] [p' [q' ->]]. exists (p' + p), (q + q').
  rewrite <- !blanks_app, !sapp_assoc. reflexivity.
Qed.
Lemma rjust_ok : forall s w, Padded s (rjust s w) /\ String.length (rjust s w) = Nat.max (String.length s) w.
Proof.
  intros s w. unfold rjust, slen. rewrite spaces_blanks. split.
  - exists (w - String.length s), 0. cbn [blanks]. rewrite sapp_nil. reflexivity.
  - rewrite slen_app, blanks_len. lia.
Qed.
Lemma ljust_ok : forall s w, Padded s (ljust s w) /\ String.length (ljust s w) = Nat.max (String.length s) w.
Proof.
  intros s w. unfold ljust, slen. rewrite spaces_blanks. split.
  - exists 0, (w - String.length s). reflexivity.
  - rewrite slen_app, blanks_len. lia.
Qed.
Lemma center_ok : forall s w, Padded s (center s w) /\ String.length (center s w) = Nat.max (String.length s) w.
Proof.
  intros s w. unfold center, slen. rewrite !spaces_blanks. split.
  - eexists; eexists; reflexivity.
  - rewrite !slen_app, !blanks_len. destruct (Nat.odd _ && Nat.odd w) eqn:E; [|lia].
    apply Bool.andb_true_iff in E. destruct E as [E _]. apply Nat.odd_spec in E. destruct E as [m E]. lia.
Qed.
Lemma center_widths : forall s w, let pad := w - String.length s in exists l r, center s w = (blanks l ++ s ++ blanks r)%string /\
  l + r = pad /\ l <= S r /\ r <= S l.
Proof.
  intros s w pad. unfold center, slen. rewrite !spaces_blanks. fold pad. eexists; eexists. split; [reflexivity|].
  destruct (Nat.odd pad && Nat.odd w) eqn:E; [|lia].
  apply Bool.andb_true_iff in E. destruct E as [E _]. apply Nat.odd_spec in E. destruct E as [m E]. lia.
Qed.
Lemma padCell_ok : forall nw vw above below val,
  String.length val <= Nat.max nw vw -> String.length above <= vw -> String.length below <= vw ->
  exists t, padCell [nw; vw] above below val = Ok t /\ Padded val t /\ String.length t = Nat.max nw vw.
Proof.
  intros nw vw above below val H1 H2 H3. unfold padCell. cbn [nth_error]. unfold slen.
  assert (HM : list_max [nw; vw] = Nat.max nw vw) by (cbn; lia). rewrite HM.
  destruct (String.eqb val rowHold).
  - set (m := Nat.max (String.length above) (String.length below)).
    eexists; split; [reflexivity|]. split.
    + eapply Padded_trans; [|apply center_ok]. eapply Padded_trans; [|apply rjust_ok]. apply center_ok.
    + rewrite (proj2 (center_ok _ _)), (proj2 (rjust_ok _ _)), (proj2 (center_ok _ _)).
      destruct (m =? 0); lia.
  - destruct (String.eqb val colHold).
    + eexists; split; [reflexivity|]. split; [apply center_ok|]. rewrite (proj2 (center_ok _ _)). lia.
    + eexists; split; [reflexivity|]. split.
      * eapply Padded_trans; [|apply center_ok]. apply rjust_ok.
      * rewrite (proj2 (center_ok _ _)), (proj2 (rjust_ok _ _)). lia.
Qed.
Lemma justify_ok : forall j s w, Padded s (justify j s w) /\ String.length (justify j s w) = Nat.max (String.length s) w.
Proof. intros [| |] s w; cbn [justify]; [apply center_ok|apply ljust_ok|apply rjust_ok]. Qed.

(** ** tableString *)
Definition idx {A} (l : list A) : list (nat * A) := combine (seq 0 (List.length l)) l.
Lemma idx_nth : forall A (l : list A) off i, nth_error (combine (seq off (List.length l)) l) i = option_map (fun x => (off + i, x)) (nth_error l i).
Proof.
  intros A l. induction l as [|a l IH]; intros off i; destruct i; cbn; try reflexivity.
  - rewrite Nat.add_0_r. reflexivity.
  - rewrite IH. destruct (nth_error l i); cbn; [|reflexivity]. repeat f_equal. lia.
Qed.
Lemma idx_len : forall A (l : list A), List.length (idx l) = List.length l.
Proof. intros. unfold idx. rewrite combine_length, seq_length. lia. Qed.
Definition core (rowHeader colHeader : bool) (rowJ headJ valJ : just) (ws : list nat) (i j : nat) (val : string) : string :=
  let w := nth j ws 0 in
  if (0 <? i) && (0 <? j) then justify valJ val w
  else if (i =? 0) && colHeader then justify headJ val w
  else if (j =? 0) && rowHeader then justify rowJ val w
  else justify valJ val w.
Lemma core_ok : forall rh ch rj hj vj ws i j val,
  Padded val (core rh ch rj hj vj ws i j val) /\
  String.length (core rh ch rj hj vj ws i j val) = Nat.max (String.length val) (nth j ws 0).
Proof. intros. unfold core. destruct (_ && _); [apply justify_ok|]. destruct (_ && _); [apply justify_ok|]. destruct (_ && _); apply justify_ok. Qed.
Lemma concat_sep : forall sep (f : nat -> string -> string) row off last, last = off + List.length row - 1 ->
  String.concat "" (map (fun p => if fst p =? last then f (fst p) (snd p) else (f (fst p) (snd p) ++ sep)%string) (combine (seq off (List.length row)) row)) =
  String.concat sep (map (fun p => f (fst p) (snd p)) (combine (seq off (List.length row)) row)).
Proof.
  intros sep f row. induction row as [|v row IH]; intros off last Hl; [reflexivity|].
  cbn [List.length seq combine map fst snd]. destruct row as [|v2 row].
  - cbn [List.length] in Hl. replace (off =? last) with true by (symmetry; apply Nat.eqb_eq; lia). reflexivity.
  - replace (off =? last) with false by (symmetry; apply Nat.eqb_neq; cbn [List.length] in Hl; lia).
    specialize (IH (S off) last ltac:(cbn [List.length] in *; lia)).
    cbn [List.length seq combine map fst snd] in IH |- *.
    cbn [String.concat] in IH |- *. rewrite IH. cbn [append]. rewrite sapp_assoc. reflexivity.
Qed.
Lemma headWidths_ok : forall heads ws, List.length heads <= List.length ws ->
  exists ws', headWidths heads ws = Ok ws' /\ List.length ws' = List.length ws /\
    forall j, j < List.length ws -> nth j ws' 0 = Nat.max (nth j ws 0) (String.length (nth j heads "")).
Proof.
  induction heads as [|h hs IH]; intros ws Hl.
  - exists ws. split; [reflexivity|]. split; [reflexivity|]. intros j Hj. destruct j; cbn; lia.
  - destruct ws as [|w ws]; [cbn in Hl; lia|]. cbn [List.length] in Hl.
    destruct (IH ws ltac:(lia)) as [ws' [E [L N]]].
    exists (Nat.max w (slen h) :: ws'). cbn [headWidths]. rewrite E. split; [reflexivity|]. split; [cbn; lia|].
    intros [|j] Hj; cbn [nth]; [reflexivity|]. apply N. cbn [List.length] in Hj. lia.
Qed.
Lemma tableWidths_len : forall table, List.length (tableWidths table) = list_max (map (@List.length string) table).
Proof. intros. unfold tableWidths. rewrite map_length, seq_length. reflexivity. Qed.
Lemma tableWidths_nth : forall table j, j < list_max (map (@List.length string) table) ->
  nth j (tableWidths table) 0 = list_max (1 :: map (fun row => String.length (nth j row "")) table).
Proof.
  intros table j Hj. unfold tableWidths. erewrite nth_indep by (rewrite map_length, seq_length; exact Hj).
  rewrite (map_nth (fun j => list_max (1 :: map (fun row => slen (cellOr row j)) table)) (seq 0 _) 0 j).
  rewrite seq_nth by exact Hj. reflexivity.
Qed.
Lemma list_max_ge : forall l x, In x l -> x <= list_max l.
Proof. induction l as [|a l IH]; intros x H; [destruct H|]. cbn. destruct H as [->|H]; [lia|]. specialize (IH x H). unfold list_max in IH. lia. Qed.
Theorem tableString_ok : forall rowHeader colHeaders sep trailing rowJ headJ valJ table,
  table <> [] ->
  (forall h, colHeaders = Some h -> List.length h <= list_max (map (@List.length string) table)) ->
  let all := match colHeaders with Some h => [h] | None => [] end ++ table in
  exists cells heads',
    tableString rowHeader colHeaders sep None None trailing rowJ headJ valJ table =
      Ok ((String.concat newline (map (String.concat sep) cells) ++ (if trailing then newline else ""))%string, heads') /\
    PaddedTable all cells (fun j => list_max (1 :: map (fun row => String.length (nth j row "")) all)).
Proof.
  intros rowHeader colHeaders sep trailing rowJ headJ valJ table Hne Hh all.
  destruct table as [|r0 rs]; [congruence|]. clear Hne.
  unfold tableString. cbn iota. revert all Hh. generalize (r0 :: rs) as table. intros table all Hh.
  assert (HW : exists ws, match colHeaders with Some h => headWidths h (tableWidths table) | None => Ok (tableWidths table) end = Ok ws /\
            forall j, j < list_max (map (@List.length string) table) ->
              nth j ws 0 = list_max (1 :: map (fun row => String.length (nth j row "")) all)).
  { destruct colHeaders as [h|].
    - destruct (headWidths_ok h (tableWidths table)) as [ws [E [L N]]]; [rewrite tableWidths_len; apply Hh; reflexivity|].
      exists ws. split; [exact E|]. intros j Hj. rewrite N by (rewrite tableWidths_len; exact Hj).
      rewrite tableWidths_nth by exact Hj. subst all. cbn [map app list_max fold_right]. lia.
    - exists (tableWidths table). split; [reflexivity|]. intros j Hj. apply tableWidths_nth. exact Hj. }
  destruct HW as [ws [EW NW]]. rewrite EW. cbn [rbind].
  set (ch := match colHeaders with Some _ => true | None => false end).
  assert (HA : match colHeaders with Some h => h :: table | None => table end = all) by (subst all; destruct colHeaders; reflexivity).
  rewrite HA. cbn [snip rbind].
  exists (map (fun p => map (fun q => core rowHeader ch rowJ headJ valJ ws (fst p) (fst q) (snd q)) (idx (snd p))) (idx all)).
  assert (HP : forall i row, padRow rowHeader ch rowJ headJ valJ ws sep i row =
             map (fun p => if fst p =? List.length row - 1 then core rowHeader ch rowJ headJ valJ ws i (fst p) (snd p)
                           else (core rowHeader ch rowJ headJ valJ ws i (fst p) (snd p) ++ sep)%string) (idx row)) by reflexivity.
  eexists. split.
  - f_equal. f_equal. f_equal. f_equal. rewrite !map_map. apply map_ext. intros [i row]. cbn [fst snd].
    rewrite HP. unfold idx. apply (concat_sep sep (core rowHeader ch rowJ headJ valJ ws i)). lia.
  - split; [rewrite map_length, idx_len; reflexivity|].
    intros i row Hi. eexists. split.
    + rewrite nth_error_map. rewrite (idx_nth _ all 0 i : nth_error (idx all) i = _), Hi. cbn [option_map fst snd]. reflexivity.
    + split; [rewrite map_length, idx_len; reflexivity|].
      intros j s Hj. eexists. split.
      * rewrite nth_error_map. rewrite (idx_nth _ row 0 j : nth_error (idx row) j = _), Hj. cbn [option_map fst snd]. reflexivity.
      * split; [apply core_ok|]. rewrite (proj2 (core_ok _ _ _ _ _ _ _ _ _)).
        assert (Hlen : j < List.length row) by (apply nth_error_Some; rewrite Hj; discriminate).
        assert (Hcols : j < list_max (map (@List.length string) table)).
        { apply nth_error_In in Hi. subst all. apply in_app_iff in Hi. destruct Hi as [Hi|Hi].
          - destruct colHeaders as [h|]; [|destruct Hi]. destruct Hi as [->|[]]. specialize (Hh row eq_refl). lia.
          - pose proof (list_max_ge _ _ (in_map (@List.length string) _ _ Hi)). lia. }
        rewrite Nat.add_0_l in *. rewrite NW by exact Hcols.
        assert (HX : String.length s <= list_max (1 :: map (fun row0 => String.length (nth j row0 "")) all)).
        { apply list_max_ge. right. apply in_map_iff. exists row. split; [|eapply nth_error_In; exact Hi].
          rewrite (nth_error_nth _ _ _ Hj). reflexivity. }
        lia.
Qed.

(** ** Ending *)
Section Ends.
Variables (fuel nP nF : nat) (cellText : nat -> nat -> string) (pname fnameOf : nat -> option string).
Variables (points features : target) (lineLimit : option nat) (lineWidth : option Z) (limit : Z) (quote : bool) (indent : nat).
Theorem layout_ends : forall numPts start total fo fn,
  Wanted nP points numPts start total -> Wanted' nF features fo fn ->
  let maxRows := rowsAllowed lineLimit numPts in
  start = 0 \/ (2 <= total /\ (3 <= maxRows \/ maxRows = total)) ->
  2 <= maxRows \/ maxRows = nP -> (forall l, lineLimit = Some l -> 2 <= l) ->
  fn <> 1 \/ lineWidth = None \/ (forall rows, width (fun r c => cutCell limit (cellText r c)) (shownName limit quote fnameOf) rows fo <> 2) ->
  fn + 2 <= fuel ->
  exists r, layout fuel nP nF cellText pname fnameOf points features lineLimit lineWidth limit quote indent = Ok r.
Proof.
  intros numPts start total fo fn HW HV maxRows Hst Hmr Hll Hns Hfuel. unfold layout.
  assert (HPR : (match points with
        | TRange a b => t <- truncateTarget a b nP ;; Ok (snd t, fst t, snd t)
        | TInt n => Ok (Nat.min n nP, 0, nP)
        | TNone => Ok (nP, 0, nP)
        end) = Ok (numPts, start, total)).
  { destruct HW; try reflexivity. rewrite truncate_ok by assumption. reflexivity. }
  rewrite HPR. cbn [rbind].
  assert (HFR : (match features with
        | TRange a b => t <- truncateTarget a b nF ;; Ok t
        | TInt n => Ok (0, n)
        | TNone => Ok (0, nF)
        end) = Ok (fo, fn)).
  { destruct HV; try reflexivity. rewrite truncate_ok by assumption. reflexivity. }
  rewrite HFR. cbn [rbind fst snd].
  assert (Hnum : numPts <= total <= nP /\ (nP = 0 -> start = 0)) by (destruct HW; lia).
  assert (HmR : maxRows <= numPts) by (unfold maxRows, rowsAllowed; destruct lineLimit; lia).
  assert (HM : (match lineLimit with
   | None => Ok numPts
   | Some l => let m := Z.min (Z.of_nat l - 2) (Z.of_nat numPts) in
               if (m <=? 1)%Z && (m <? Z.of_nat numPts)%Z then Err InvalidArgumentValue else Ok (Z.to_nat m)
   end) = Ok maxRows).
  { unfold maxRows, rowsAllowed in *. destruct lineLimit as [l|]; [|reflexivity]. specialize (Hll l eq_refl). cbv zeta.
    replace (_ && _) with false; [f_equal; lia|]. symmetry. apply Bool.andb_false_iff.
    destruct (Z.leb_spec (Z.min (Z.of_nat l - 2) (Z.of_nat numPts)) 1); [right|left; reflexivity].
    apply Z.ltb_ge. lia. }
  cbv zeta in HM. rewrite HM. cbn [rbind].
  assert (HR : exists pn ri, arrangePointNames nP maxRows start total limit quote pname = Ok pn /\ rowIds numPts maxRows start total = Ok ri).
  { unfold arrangePointNames. destruct (Nat.eqb_spec nP 0) as [H0|H0].
    - eexists; eexists. split; [reflexivity|]. unfold rowIds. replace (0 <? numPts) with false by (symmetry; apply Nat.ltb_ge; lia). reflexivity.
    - destruct (rowIds_ok numPts maxRows start total ltac:(lia) HmR ltac:(lia) Hst) as [f [b [h [E1 [_ [E3 _]]]]]].
      rewrite E1. cbn [rbind]. eexists; eexists; split; [reflexivity|exact E3]. }
  destruct HR as [pn [ri [E1 E2]]]. rewrite E1. cbn [rbind]. cbv zeta.
  unfold arrangeData. replace (_ && _) with false.
  2:{ symmetry. apply Bool.andb_false_iff. destruct Hmr as [H|H]; [left; apply Nat.ltb_ge; exact H|right; rewrite H, Nat.eqb_refl; reflexivity]. }
  rewrite Nat.min_l by exact HmR.
  destruct (Nat.eqb_spec fn 0) as [H0|H0]; [eexists; reflexivity|].
  rewrite E2. cbn [rbind].
  destruct (run_total cellText fnameOf limit quote (fst ri) (snd ri) fo fn
             (option_map (fun w => (w - Z.of_nat indent - (snd pn + 3))%Z) lineWidth) ltac:(lia)) with (fuel := fuel) as [s Es].
  - intros [S1 [S2 S3]]. destruct Hns as [Hns|[Hns|Hns]]; [lia|rewrite Hns in S2; discriminate|].
    rewrite width_eq in S3. apply (Hns (fst ri)). rewrite <- S3. f_equal. unfold nextCol. cbn. lia.
  - exact Hfuel.
  - rewrite Es. cbn [rbind]. eexists. reflexivity.
Qed.
End Ends.
