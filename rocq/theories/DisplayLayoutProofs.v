(** Proofs for C51: what toString lays out. *)
From Coq Require Import ZifyNat.
From Verif Require Import Base ReshapeModel DisplayModel DisplaySpec DisplayProofs DisplayMainProofs.
Ltac Zify.zify_post_hook ::= Z.to_euclidean_division_equations.
Open Scope string_scope. Open Scope list_scope. Open Scope nat_scope.

Lemma truncate_ok : forall a len n, a + len <= n -> truncateTarget (Z.of_nat a) (Z.of_nat (a + len)) n = Ok (a, len).
Proof.
  intros a len n H. unfold truncateTarget.
  replace (Z.of_nat a <? 0)%Z with false by (symmetry; apply Z.ltb_ge; lia).
  replace (Z.of_nat n <? Z.of_nat (a + len))%Z with false by (symmetry; apply Z.ltb_ge; lia).
  cbn [orb]. rewrite !Nat2Z.id. f_equal. f_equal. lia.
Qed.
Lemma HeadTail_unique : forall fO n k L R, HeadTail fO n k L R -> L = Lk fO k /\ R = Rk fO n k.
Proof.
  intros fO n k L R [HL [HR [HK HB]]]. unfold Lk, Rk.
  assert (List.length L = (k + 1) / 2) by lia. assert (List.length R = k / 2) by lia.
  split; [rewrite HL|rewrite HR]; f_equal; lia.
Qed.
(** the limit on the number of lines *)
Lemma maxRows_ok : forall lineLimit numPts m,
  (match lineLimit with
   | None => Ok numPts
   | Some l => let m := Z.min (Z.of_nat l - 2) (Z.of_nat numPts) in
               if (m <=? 1)%Z && (m <? Z.of_nat numPts)%Z then Err InvalidArgumentValue else Ok (Z.to_nat m)
   end) = Ok m -> m = rowsAllowed lineLimit numPts.
Proof.
  intros [l|] numPts m H; unfold rowsAllowed; [|inversion H; reflexivity].
  cbv zeta in H. destruct (_ && _) eqn:E in H; [discriminate|]. inversion H; subst. clear H.
  apply Bool.andb_false_iff in E. destruct E as [E|E]; [apply Z.leb_gt in E|apply Z.ltb_ge in E]; lia.
Qed.
Section Layout.
Variables (fuel nP nF : nat) (cellText : nat -> nat -> string) (pname fnameOf : nat -> option string).
Variables (points features : target) (lineLimit : option nat) (lineWidth : option Z) (limit : Z) (quote : bool) (indent : nat).
Notation text := (fun r c => cutCell limit (cellText r c)).
Notation name := (shownName limit quote fnameOf).
Theorem layout_ok : forall names pw d numPts start total fo fn,
  (0 <= limit)%Z -> Wanted nP points numPts start total -> Wanted' nF features fo fn -> 1 <= fn ->
  let maxRows := rowsAllowed lineLimit numPts in
  start = 0 \/ (2 <= total /\ (3 <= maxRows \/ maxRows = total)) ->
  layout fuel nP nF cellText pname fnameOf points features lineLimit lineWidth limit quote indent = Ok (names, pw, d) ->
  exists f b L R,
    HeadTail start total (if maxRows <? total then maxRows - 1 else total) f b /\
    HeadTail fo fn (List.length L + List.length R) L R /\ List.length L + List.length R <= fn /\
    names = map (rowName rowHold (shownName limit quote pname)) (Slots total f b) /\
    pw = Z.min limit (Z.of_nat (list_max (map (fun i => slen (shownName limit quote pname i)) (f ++ b)))) /\
    LaidOut rowHold colHold text name (f ++ b) (match L with [] => [] | _ => Slots total f b end) (Slots fn L R)
            (aTable d) (aNames d) (aWidths d) /\
    let w := width text name (f ++ b) in
    let room := option_map (fun lw => (lw - Z.of_nat indent - (pw + 3))%Z) lineWidth in
    (L <> [] -> Fits room (lineLength w (Slots fn L R))) /\
    (2 <= fn -> (forall c, fo <= c < fo + fn -> 0 < w c) -> List.length L + List.length R < fn ->
       forall L' R', HeadTail fo fn (S (List.length L + List.length R)) L' R' -> ~ Fits room (lineLength w (Slots fn L' R'))) /\
    (2 <= fn -> (forall c, fo <= c < fo + fn -> 0 < w c) -> 2 <= w (fo + fn / 2) ->
       Fits room (lineLength w (map Some (seq fo fn))) -> L ++ R = seq fo fn) /\
    (fn = 1 -> 0 < w fo -> Fits room (Z.of_nat (w fo) + 4) -> L = [fo]).
Proof.
  intros names pw d numPts start total fo fn Hlim HW HV Hfn maxRows Hst H.
  unfold layout in H.
  assert (HPR : (match points with
        | TRange a b => t <- truncateTarget a b nP ;; Ok (snd t, fst t, snd t)
        | TInt n => Ok (Nat.min n nP, 0, nP)
        | TNone => Ok (nP, 0, nP)
        end) = Ok (numPts, start, total)).
  { destruct HW; try reflexivity. rewrite truncate_ok by assumption. reflexivity. }
  rewrite HPR in H. cbn [rbind] in H.
  assert (HFR : (match features with
        | TRange a b => t <- truncateTarget a b nF ;; Ok t
        | TInt n => Ok (0, n)
        | TNone => Ok (0, nF)
        end) = Ok (fo, fn)).
  { destruct HV; try reflexivity. rewrite truncate_ok by assumption. reflexivity. }
  rewrite HFR in H. cbn [rbind fst snd] in H.
  destruct (match lineLimit with None => _ | Some l => _ end) as [m|] eqn:EM in H; [|discriminate].
  apply maxRows_ok in EM. fold maxRows in EM. subst m. cbn [rbind] in H.
  destruct (arrangePointNames nP maxRows start total limit quote pname) as [pn|] eqn:EP; [|discriminate].
  cbn [rbind] in H. cbv zeta in H.
  destruct (arrangeData _ _ _ _ _ _ _ _ _ _ _ _ _) as [d'|] eqn:ED in H; [|discriminate].
  cbn [rbind] in H. apply Ok_inj in H. assert (HN : names = fst pn) by congruence. assert (HP : pw = snd pn) by congruence.
  assert (HD : d' = d) by congruence. clear H. subst d'.
  assert (Hnum : numPts <= total <= nP /\ (nP = 0 -> start = 0)) by (destruct HW; lia).
  assert (HmR : maxRows <= numPts) by (unfold maxRows, rowsAllowed; destruct lineLimit; lia).
  unfold arrangeData in ED. destruct (_ && _) eqn:EH in ED; [discriminate|].
  rewrite Nat.min_l in ED by exact HmR.
  replace (fn =? 0) with false in ED by (symmetry; apply Nat.eqb_neq; lia).
  assert (HH : 2 <= maxRows \/ maxRows = nP).
  { apply Bool.andb_false_iff in EH. destruct EH as [EH|EH].
    - apply Nat.ltb_ge in EH. left; exact EH.
    - apply Bool.negb_false_iff in EH. apply Nat.eqb_eq in EH. right; exact EH. }
  assert (HR : exists f b h, HeadTail start total (if maxRows <? total then maxRows - 1 else total) f b /\
               rowIds numPts maxRows start total = Ok (f ++ b, h) /\ slots (f ++ b) h = Slots total f b /\
               names = map (rowName rowHold (shownName limit quote pname)) (Slots total f b) /\
               pw = Z.min limit (Z.of_nat (list_max (map (fun i => slen (shownName limit quote pname i)) (f ++ b))))).
  { unfold arrangePointNames in EP. destruct (Nat.eqb_spec nP 0) as [H0|H0].
    - exists [], [], None. apply Ok_inj in EP.
      assert (total = 0) by lia. assert (numPts = 0) by lia. assert (start = 0) by lia. subst total numPts start.
      assert (maxRows = 0) by lia. rewrite H. repeat split; cbn; try lia.
      + rewrite HN, <- EP. reflexivity.
      + rewrite HP, <- EP. cbn [snd].
        destruct (Z.le_gt_cases 0 limit); [lia|]. lia.
    - assert (H1 : 1 <= numPts <= total) by (destruct (Nat.eq_dec numPts 0); lia).
      destruct (rowIds_ok numPts maxRows start total H1 HmR ltac:(lia) Hst) as [f [b [h [E1 [E2 [E3 E4]]]]]].
      exists f, b, h. split; [exact E2|]. split; [exact E3|]. split; [exact E4|].
      rewrite E1 in EP. cbn [rbind fst snd] in EP. apply Ok_inj in EP. rewrite HN, HP, <- EP. cbn [fst snd]. split.
      + rewrite !map_length. unfold Slots. rewrite !map_app, !map_map.
        clear EP. destruct (List.length f + List.length b <? total); reflexivity.
      + rewrite <- map_app, map_map. reflexivity. }
  destruct HR as [f [b [h [R1 [R2 [R3 [R4 R5]]]]]]].
  rewrite R2 in ED. cbn [rbind fst snd] in ED.
  rewrite <- HP in ED.
  set (room := option_map (fun lw => (lw - Z.of_nat indent - (pw + 3))%Z) lineWidth) in *.
  destruct (loop _ _ _ _ _ _ _ _ _ _ _) as [s|] eqn:EL in ED; [|discriminate].
  cbn [rbind] in ED. apply Ok_inj in ED.
  destruct (run_spec cellText fnameOf limit quote (f ++ b) h fo fn room Hfn fuel s EL) as [k [T [Hk [-> He]]]].
  destruct (join_ok cellText fnameOf limit quote (f ++ b) h fo fn k T Hk) as [J1 [J2 [J3 J4]]].
  rewrite ED in J1, J2, J3, J4.
  exists f, b, (Lk fo k), (Rk fo fn k).
  rewrite Lk_len.
  split; [exact R1|]. split; [apply LR_HeadTail; exact Hk|]. split; [exact Hk|]. split; [exact R4|]. split; [exact R5|].
  assert (HK0 : Lk fo k = [] <-> k = 0).
  { unfold Lk. split; [|intros ->; reflexivity]. destruct ((k + 1) / 2) eqn:E; [lia|discriminate]. }
  split.
  { constructor; [exact J1| |exact J2].
    destruct (Nat.eq_dec k 0) as [E0|E0].
    - rewrite (proj2 HK0 E0). rewrite (J3 E0). reflexivity.
    - rewrite J4 by lia. rewrite R3. destruct (Lk fo k) eqn:E; [exfalso; apply E0, HK0; reflexivity|reflexivity]. }
  cbv zeta. split; [|split; [|split]].
  - intros HL. apply ended_fits; [exact Hfn|exact He|]. destruct k; [exfalso; apply HL, HK0; reflexivity|lia].
  - intros H2 Hpos Hlt L' R' HLR. destruct (HeadTail_unique _ _ _ _ _ HLR) as [-> ->].
    rewrite <- need_line by lia. apply ended_max; [exact Hfn|exact He|exact Hlt|apply Hpos; apply nextCol_in; exact Hlt].
  - intros H2 Hpos Hmid HF. assert (k = fn) by (eapply ended_all; eassumption). subst k.
    unfold Lk, Rk. replace (fo + fn - fn / 2) with (fo + (fn + 1) / 2) by lia. rewrite <- seq_app. f_equal. lia.
  - intros H1 Hpos HF. subst fn. destruct (Nat.eq_dec k 1) as [->|Hk1].
    { reflexivity. }
    exfalso. assert (k = 0) by lia. subst k.
    assert (HC : nextCol fo 1 0 = fo) by (unfold nextCol; cbn; lia).
    apply (ended_max cellText fnameOf limit quote (f ++ b) fo 1 room Hfn 0 He); [lia|rewrite HC; exact Hpos|].
    unfold need. rewrite base0, HC, width_eq. unfold Fits in *. destruct room; [lia|exact I].
Qed.
End Layout.
