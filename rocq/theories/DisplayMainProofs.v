(** Proofs for C51: the whole layout. *)
From Coq Require Import ZifyNat.
From Verif Require Import Base ReshapeModel DisplayModel DisplaySpec DisplayProofs.
Ltac Zify.zify_post_hook ::= Z.to_euclidean_division_equations.
Open Scope string_scope. Open Scope list_scope. Open Scope nat_scope.

Lemma map_indexed : forall A B C (F : nat -> B -> C) (g : A -> B) (H : A -> C) (l : list A) off,
  (forall i r, nth_error l i = Some r -> F (off + i) (g r) = H r) ->
  map (fun p => F (fst p) (snd p)) (combine (seq off (List.length l)) (map g l)) = map H l.
Proof.
  intros A B C F g H l. induction l as [|a l IH]; intros off Hl; cbn; [reflexivity|]. f_equal.
  - rewrite <- (Hl 0 a eq_refl). rewrite Nat.add_0_r. reflexivity.
  - apply IH. intros i r Hr. rewrite <- (Hl (S i) r Hr). f_equal. lia.
Qed.
Lemma Lk_len : forall fO n k, List.length (Lk fO k) + List.length (Rk fO n k) = k.
Proof. intros fO n k. unfold Lk, Rk. rewrite !seq_length. lia. Qed.
Lemma LR_HeadTail : forall fO n k, k <= n -> HeadTail fO n k (Lk fO k) (Rk fO n k).
Proof. intros fO n k Hk. unfold HeadTail, Lk, Rk. rewrite !seq_length. repeat split; try lia. Qed.
Lemma nextCol_in : forall fO n k, k < n -> fO <= nextCol fO n k < fO + n.
Proof. intros fO n k Hk. unfold nextCol. destruct (even_facts k) as [[E [m ->]]|[E [m ->]]]; rewrite E; lia. Qed.
Lemma nextCol_last : forall fO n, 1 <= n -> nextCol fO n (n - 1) = fO + n / 2.
Proof. intros fO n Hn. unfold nextCol. destruct (even_facts (n - 1)) as [[E [m Hm]]|[E [m Hm]]]; rewrite E; lia. Qed.
Section Join.
Variables (cellText : nat -> nat -> string) (fnameOf : nat -> option string) (limit : Z) (quote : bool).
Variables (ids : list nat) (holder : option nat) (fO n : nat).
Notation text := (fun r c => cutCell limit (cellText r c)).
Notation name := (shownName limit quote fnameOf).
Lemma join_ok : forall k T, k <= n ->
  let cols := Slots n (Lk fO k) (Rk fO n k) in
  let a := joinHalves n (stateK cellText fnameOf limit quote ids holder fO n k T) in
  aNames a = map (fun c => match c with Some c => name c | None => colHold end) cols /\
  aWidths a = map (fun c => match c with
                            | Some c => [slen (name c); list_max (map (fun r => slen (text r c)) ids)]
                            | None => [2] end) cols /\
  (k = 0 -> aTable a = []) /\
  (0 < k -> aTable a = map (fun r => map (entry rowHold colHold text r) cols) (slots ids holder)).
Proof.
  intros k T Hk cols a. subst a. unfold joinHalves, stateK. cbn [lT rT lN rN lW rW added].
  subst cols. unfold Slots. rewrite Lk_len.
  assert (HB : (k =? n) = negb (k <? n)).
  { destruct (Nat.eqb_spec k n), (Nat.ltb_spec k n); try reflexivity; lia. }
  rewrite HB.
  split; [|split; [|split]].
  - cbn [aNames]. rewrite !map_app, map_rev, rev_involutive, !map_map. f_equal. f_equal. destruct (k <? n); reflexivity.
  - cbn [aWidths]. rewrite !map_app, !map_rev, rev_involutive, !map_map.
    assert (HW : forall c, [fst (widthsOf cellText fnameOf limit quote ids c); snd (widthsOf cellText fnameOf limit quote ids c)] =
                           [slen (name c); list_max (map (fun r => slen (text r c)) ids)]).
    { intros c. unfold widthsOf, columnTexts. cbn [fst snd]. rewrite map_map. reflexivity. }
    rewrite (map_ext _ _ HW), (map_ext _ _ HW). f_equal. f_equal. destruct (k <? n); reflexivity.
  - intros ->. reflexivity.
  - intros H0. cbn [aTable].
    assert (HL : Lk fO k <> []) by (unfold Lk; destruct ((k + 1) / 2) eqn:E; [lia|discriminate]).
    assert (HT : tableOf cellText limit ids holder (Lk fO k) =
                 map (fun r => map (fun c => txt cellText limit c r) (Lk fO k)) (slots ids holder))
      by (unfold tableOf; destruct (Lk fO k); [congruence|reflexivity]).
    rewrite HT, map_length.
    apply (map_indexed (option nat) (list string) (list string)
             (fun i row => row ++ (if negb (k <? n) then [] else [colHold]) ++
                match tableOf cellText limit ids holder (rev (Rk fO n k)) with [] => [] | _ :: _ => rev (nth i (tableOf cellText limit ids holder (rev (Rk fO n k))) []) end)).
    intros i r Hr. cbn [Nat.add].
    rewrite !map_app. f_equal; [rewrite map_map; apply map_ext; intros c; destruct r; reflexivity|].
    f_equal; [destruct (k <? n); destruct r; reflexivity|].
    rewrite map_map.
    assert (HR : match tableOf cellText limit ids holder (rev (Rk fO n k)) with [] => [] | _ :: _ => rev (nth i (tableOf cellText limit ids holder (rev (Rk fO n k))) []) end
                 = rev (map (fun c => txt cellText limit c r) (rev (Rk fO n k)))).
    { unfold tableOf. destruct (rev (Rk fO n k)) as [|c0 cs]; [reflexivity|].
      assert (HN : nth i (map (fun r => map (fun c => txt cellText limit c r) (c0 :: cs)) (slots ids holder)) []
                   = map (fun c => txt cellText limit c r) (c0 :: cs)).
      { erewrite nth_indep. 2:{ rewrite map_length. apply nth_error_Some. rewrite Hr. discriminate. }
        rewrite (map_nth (fun r => map (fun c => txt cellText limit c r) (c0 :: cs)) (slots ids holder) r i).
        rewrite (nth_error_nth _ _ _ Hr). reflexivity. }
      rewrite <- HN.
      destruct (map (fun r => map (fun c => txt cellText limit c r) (c0 :: cs)) (slots ids holder)) eqn:EM; [|reflexivity].
      destruct i; reflexivity. }
    rewrite HR, map_rev, rev_involutive. apply map_ext. intros c. destruct r; reflexivity.
Qed.

Lemma width_eq : forall c, widthOf cellText fnameOf limit quote ids c = width text name ids c.
Proof. intros c. unfold widthOf, widthsOf, width, columnTexts. cbn [fst snd list_max fold_right]. rewrite map_map. reflexivity. Qed.
End Join.

Section Run.
Variables (cellText : nat -> nat -> string) (fnameOf : nat -> option string) (limit : Z) (quote : bool).
Variables (ids : list nat) (holder : option nat) (fO n : nat) (M : option Z).
Hypothesis Hn : 1 <= n.
Notation text := (fun r c => cutCell limit (cellText r c)).
Notation name := (shownName limit quote fnameOf).
Notation w := (width text name ids).
Notation stuckN := (stuck cellText fnameOf limit quote ids fO n M).
Notation endedN := (ended cellText fnameOf limit quote ids fO n M 0).
Notation sumN := (sumW cellText fnameOf limit quote ids fO n).
Notation needN := (need cellText fnameOf limit quote ids fO n).
Lemma stuck_dec : stuckN \/ ~ stuckN.
Proof.
  unfold stuck. destruct (Nat.eq_dec n 1) as [H|H]; [|right; tauto].
  destruct (Nat.eq_dec (widthOf cellText fnameOf limit quote ids (nextCol fO n 0)) 2) as [H2|H2]; [|right; tauto].
  destruct M as [m|]; [|right; intros [_ [X _]]; discriminate].
  destruct (Z.eq_dec m 5) as [H3|H3]; [left; subst; auto|right; intros [_ [X _]]; congruence].
Qed.
Lemma run_spec : forall fuel s,
  loop cellText fnameOf limit quote ids holder fO n M fuel start_ = Ok s ->
  exists k T, k <= n /\ s = stateK cellText fnameOf limit quote ids holder fO n k T /\ endedN k.
Proof.
  intros fuel s H. destruct stuck_dec as [Hs|Hs].
  - rewrite loop_stuck in H by (assumption || exact Hs). discriminate.
  - destruct (loop_ends cellText fnameOf limit quote ids holder fO n M Hn (n - 0) 0 fuel eq_refl ltac:(lia) (or_introl eq_refl) Hs)
      as [k [T [_ [H2 H3]]]].
    rewrite (start_state cellText fnameOf limit quote ids holder fO n) in H.
    rewrite (base0 cellText fnameOf limit quote ids fO n) in H2.
    destruct (H2 s H) as [T' ->]. exists k, T'. split; [|split; [reflexivity|exact H3]].
    destruct H3; lia.
Qed.
Lemma run_total : ~ stuckN -> forall fuel, n + 2 <= fuel ->
  exists s, loop cellText fnameOf limit quote ids holder fO n M fuel start_ = Ok s.
Proof.
  intros Hs fuel Hf.
  destruct (loop_ends cellText fnameOf limit quote ids holder fO n M Hn (n - 0) 0 fuel eq_refl ltac:(lia) (or_introl eq_refl) Hs)
      as [k [T [H1 _]]].
  rewrite (start_state cellText fnameOf limit quote ids holder fO n).
  rewrite (base0 cellText fnameOf limit quote ids fO n) in H1.
  eexists. apply H1. lia.
Qed.
Lemma sum_w : forall k, sumN k = list_sum (map w (Lk fO k ++ Rk fO n k)).
Proof. intros k. unfold sumW. f_equal. apply map_ext. intros c. apply width_eq. Qed.
Lemma line_k : forall k, k <= n -> lineLength w (Slots n (Lk fO k) (Rk fO n k)) =
  (Z.of_nat (sumN k) + (if (k <? n)%nat then 2 + 2 * Z.of_nat k else 2 * Z.of_nat (k - 1)))%Z.
Proof.
  intros k Hk. unfold lineLength, Slots. rewrite sum_w, Lk_len.
  rewrite !map_app, !list_sum_app, !app_length, !map_map, !map_length.
  pose proof (Lk_len fO n k) as HL.
  assert (HE : forall l, list_sum (map (fun x : nat => w x) l) = list_sum (map w l)) by reflexivity.
  rewrite (HE (Lk fO k)), (HE (Rk fO n k)).
  destruct (k <? n) eqn:E; cbn [map List.length].
  - apply Nat.ltb_lt in E. change (list_sum [2]) with 2. lia.
  - apply Nat.ltb_ge in E. change (list_sum []) with 0. lia.
Qed.
Lemma ended_fits : forall k, endedN k -> 0 < k -> Fits M (lineLength w (Slots n (Lk fO k) (Rk fO n k))).
Proof.
  intros k He H0.
  assert (Hk : k <= n) by (destruct He; lia).
  assert (HF : Fits M (needN (k - 1))) by (destruct He as [E HA|E HA _]; apply HA; lia).
  rewrite line_k by exact Hk. unfold Fits in *. destruct M as [m|]; [|exact I].
  eapply Z.le_trans; [|exact HF]. unfold need.
  pose proof (sumW_S cellText fnameOf limit quote ids fO n (k - 1) ltac:(lia)) as HS. replace (S (k - 1)) with k in HS by lia.
  unfold base. destruct (Nat.ltb_spec k n).
  - replace (k - 1 =? n - 1) with false by (symmetry; apply Nat.eqb_neq; lia). cbn [andb]. lia.
  - replace (k - 1 =? n - 1) with true by (symmetry; apply Nat.eqb_eq; lia). cbn [andb].
    destruct (0 <? k - 1); lia.
Qed.
Lemma need_line : forall k, k < n -> 2 <= n -> needN k = lineLength w (Slots n (Lk fO (S k)) (Rk fO n (S k))).
Proof.
  intros k Hk H2. rewrite line_k by lia. unfold need, base. rewrite sumW_S by exact Hk.
  destruct (Nat.ltb_spec (S k) n).
  - replace (k =? n - 1) with false by (symmetry; apply Nat.eqb_neq; lia). cbn [andb]. lia.
  - replace (k =? n - 1) with true by (symmetry; apply Nat.eqb_eq; lia).
    replace (0 <? k) with true by (symmetry; apply Nat.ltb_lt; lia). cbn [andb]. lia.
Qed.
Lemma ended_max : forall k, endedN k -> k < n -> 0 < w (nextCol fO n k) -> ~ Fits M (needN k).
Proof.
  intros k He Hk Hw. destruct He as [E HA|E HA Hm]; [lia|].
  unfold Fits. destruct M as [m|]; [|destruct Hm]. unfold need in *. rewrite width_eq in *. lia.
Qed.
Lemma sumW_mono : forall j k, j <= k -> k <= n -> sumN j <= sumN k.
Proof.
  intros j k Hjk. induction Hjk as [|k Hjk IH]; intros Hk; [lia|].
  rewrite sumW_S by lia. specialize (IH ltac:(lia)). lia.
Qed.
Lemma ended_all : forall k, endedN k -> 2 <= n -> (forall c, fO <= c < fO + n -> 0 < w c) -> 2 <= w (fO + n / 2) ->
  Fits M (lineLength w (map Some (seq fO n))) -> k = n.
Proof.
  intros k He H2 Hpos Hmid HF. assert (Hk : k <= n) by (destruct He; lia).
  destruct (Nat.eq_dec k n) as [|Hne]; [assumption|exfalso].
  apply (ended_max k He); [lia|apply Hpos; apply nextCol_in; lia|].
  assert (HS : Slots n (Lk fO n) (Rk fO n n) = map Some (seq fO n)).
  { unfold Slots. rewrite Lk_len, Nat.ltb_irrefl. cbn [app]. rewrite <- map_app. f_equal. unfold Lk, Rk.
    replace (fO + n - n / 2) with (fO + (n + 1) / 2) by lia. rewrite <- seq_app. f_equal. lia. }
  rewrite <- HS in HF. rewrite line_k, Nat.ltb_irrefl in HF by lia.
  unfold Fits in *. destruct M as [m|]; [|exact I]. eapply Z.le_trans; [|exact HF].
  rewrite need_line, line_k by lia.
  destruct (Nat.ltb_spec (S k) n) as [Hl|Hl].
  - pose proof (sumW_mono (S k) (n - 1) ltac:(lia) ltac:(lia)) as H1.
    pose proof (sumW_S cellText fnameOf limit quote ids fO n (n - 1) ltac:(lia)) as H3. replace (S (n - 1)) with n in H3 by lia.
    rewrite nextCol_last, width_eq in H3 by lia. lia.
  - replace (S k) with n by lia. lia.
Qed.
End Run.

(** ** Rows *)
Lemma rowIds_ok : forall numPts maxRows start total,
  1 <= numPts <= total -> maxRows <= numPts -> (2 <= maxRows \/ (total = 1 /\ maxRows = 1)) ->
  start = 0 \/ (2 <= total /\ (3 <= maxRows \/ maxRows = total)) ->
  exists f b h, indicesSplit maxRows start total = Ok (f, b) /\
    HeadTail start total (if maxRows <? total then maxRows - 1 else total) f b /\
    rowIds numPts maxRows start total = Ok (f ++ b, h) /\ slots (f ++ b) h = Slots total f b.
Proof.
  intros numPts maxRows start total H1 H2 H3 H4.
  destruct (indicesSplit_ok maxRows start total ltac:(lia) H3 H4) as [f [b [E HT]]].
  exists f, b. eexists. split; [exact E|]. split; [exact HT|].
  unfold rowIds. replace (0 <? numPts) with true by (symmetry; apply Nat.ltb_lt; lia). rewrite E. cbn [rbind fst snd].
  split; [reflexivity|].
  destruct HT as [_ [_ [HL _]]]. unfold slots, Slots. rewrite app_length.
  assert (HB : (List.length f + List.length b <? numPts) = (List.length f + List.length b <? total)).
  { rewrite HL. destruct (maxRows <? total) eqn:EL; [apply Nat.ltb_lt in EL|apply Nat.ltb_ge in EL];
    match goal with |- (?a <? ?b) = (?a <? ?c) => destruct (Nat.ltb_spec a b), (Nat.ltb_spec a c); auto; lia end. }
  rewrite HB. destruct (List.length f + List.length b <? total).
  - rewrite firstn_app, Nat.sub_diag, firstn_O, app_nil_r, firstn_all.
    rewrite skipn_app, Nat.sub_diag, skipn_O, skipn_all. reflexivity.
  - cbn [app]. apply map_app.
Qed.
