(** Proofs for C51. *)
From Coq Require Import ZifyNat.
From Verif Require Import Base ReshapeModel DisplayModel DisplaySpec.
Ltac Zify.zify_post_hook ::= Z.to_euclidean_division_equations.
Open Scope string_scope. Open Scope list_scope. Open Scope nat_scope.

Lemma Ok_inj : forall A (a b : A), Ok a = Ok b -> a = b.
Proof. intros A a b H. inversion H. reflexivity. Qed.
(** ** indicesSplit *)
Lemma map_add_seq : forall n a b, map (fun x => a + x) (seq b n) = seq (a + b) n.
Proof. induction n; intros; simpl; [reflexivity|]. rewrite IHn. f_equal. f_equal. lia. Qed.
Lemma indicesSplit_ok : forall numAllow start total,
  numAllow <= total -> (2 <= numAllow \/ (total = 1 /\ numAllow = 1)) ->
  start = 0 \/ (2 <= total /\ (3 <= numAllow \/ numAllow = total)) ->
  exists f b, indicesSplit numAllow start total = Ok (f, b) /\
    HeadTail start total (if numAllow <? total then numAllow - 1 else total) f b.
Proof.
  intros a start total Hle Hge Hst. unfold indicesSplit.
  assert (HA : exists shown, shown = (if a <? total then a - 1 else total) /\ (if a <? total then a - 1 else a) = shown).
  { destruct (Nat.ltb_spec a total); eexists; split; reflexivity || lia. }
  destruct HA as [n [Hn ->]]. rewrite <- Hn.
  assert (Hn2 : (n = 1 /\ start = 0) \/ 2 <= n) by (destruct (Nat.ltb_spec a total); lia).
  assert (Hnt : n <= total) by (destruct (Nat.ltb_spec a total); lia).
  destruct ((n =? 1) || (total =? 1)) eqn:E.
  - assert (n = 1 /\ start = 0).
    { destruct Hn2 as [H|H]; [exact H|]. apply Bool.orb_true_iff in E. destruct E as [E|E]; apply Nat.eqb_eq in E; lia. }
    destruct H as [-> ->]. exists [0], []. split; [reflexivity|].
    unfold HeadTail. cbn. repeat split; lia.
  - apply Bool.orb_false_iff in E. destruct E as [E1 E2]. apply Nat.eqb_neq in E1. apply Nat.eqb_neq in E2.
    assert (2 <= n) by lia. clear Hn2.
    destruct ((n + 1) / 2) as [|l] eqn:EF; [lia|].
    destruct (n / 2) as [|k] eqn:EB; [lia|].
    rewrite (map_add_seq (S k) (total - S k) 0).
    change (seq (total - S k + 0) (S k)) with (total - S k + 0 :: seq (S (total - S k + 0)) k).
    cbn iota beta.
    replace (l =? total - S k + 0) with false by (symmetry; apply Nat.eqb_neq; lia).
    change (total - S k + 0 :: seq (S (total - S k + 0)) k) with (seq (total - S k + 0) (S k)).
    rewrite !map_add_seq.
    exists (seq start (S l)), (seq (start + total - S k) (S k)). split.
    + f_equal. f_equal; f_equal; lia.
    + unfold HeadTail. rewrite !seq_length. repeat split; lia.
Qed.

Lemma even_facts : forall k, (Nat.even k = true /\ exists m, k = 2 * m) \/ (Nat.even k = false /\ exists m, k = 2 * m + 1).
Proof.
  intros k. destruct (Nat.even k) eqn:E.
  - left. split; [reflexivity|]. apply Nat.even_spec in E. destruct E as [m E]. exists m. lia.
  - right. split; [reflexivity|]. assert (Nat.odd k = true) by (unfold Nat.odd; rewrite E; reflexivity).
    apply Nat.odd_spec in H. destruct H as [m H]. exists m. lia.
Qed.
(** ** The loop over the columns *)
Section Cols.
Variables (cellText : nat -> nat -> string) (fnameOf : nat -> option string) (limit : Z) (quote : bool).
Variables (ids : list nat) (holder : option nat) (fO n : nat) (M : option Z).
Notation stepN := (step cellText fnameOf limit quote ids holder fO n M).
Notation loopN := (loop cellText fnameOf limit quote ids holder fO n M).
Notation name := (shownName limit quote fnameOf).
Notation wO := (widthOf cellText fnameOf limit quote ids).
Notation wP := (widthsOf cellText fnameOf limit quote ids).
Definition slots : list (option nat) :=
  match holder with Some h => map Some (firstn h ids) ++ [None] ++ map Some (skipn h ids) | None => map Some ids end.
Definition txt (c : nat) (r : option nat) : string := match r with None => rowHold | Some r => cutCell limit (cellText r c) end.
Lemma col_slots : forall c, withHolder holder (columnTexts cellText limit ids c) = map (txt c) slots.
Proof.
  intros c. unfold withHolder, slots, columnTexts. destruct holder as [h|].
  - rewrite !map_app. rewrite !map_map. cbn [map txt]. rewrite <- !firstn_map, <- !skipn_map. reflexivity.
  - rewrite map_map. reflexivity.
Qed.
Definition tableOf (cs : list nat) : list (list string) :=
  match cs with [] => [] | _ => map (fun r => map (fun c => txt c r) cs) slots end.
Lemma addCells_new : forall col m i (t : list (list string)), List.length t = i -> i + List.length col = m ->
  addCells m i col t = t ++ map (fun v => [v]) col.
Proof.
  induction col as [|v col IH]; intros m i t Hi Hm; cbn [addCells map].
  - rewrite app_nil_r. reflexivity.
  - cbn [List.length] in Hm. replace (List.length t =? m) with false by (symmetry; apply Nat.eqb_neq; lia).
    rewrite IH; [rewrite <- app_assoc; reflexivity|rewrite app_length; cbn; lia|lia].
Qed.
Lemma upd_mid : forall A (a : list A) x y b, upd (a ++ x :: b) (List.length a) y = a ++ y :: b.
Proof. induction a; intros; cbn; [reflexivity|]. rewrite IHa. reflexivity. Qed.
Lemma nth_mid : forall A (a : list A) x b d, nth (List.length a) (a ++ x :: b) d = x.
Proof. induction a; intros; cbn; auto. Qed.
Lemma addCells_old : forall (f : option nat -> string) (g : option nat -> list string) sl m (done : list (list string)),
  List.length done + List.length sl = m ->
  addCells m (List.length done) (map f sl) (done ++ map g sl) = done ++ map (fun r => g r ++ [f r]) sl.
Proof.
  intros f g. induction sl as [|r sl IH]; intros m done Hm; cbn [addCells map]; [reflexivity|].
  cbn [List.length] in Hm.
  replace (List.length (done ++ g r :: map g sl) =? m) with true
    by (symmetry; apply Nat.eqb_eq; rewrite app_length; cbn; rewrite map_length; lia).
  rewrite nth_mid, upd_mid.
  replace (done ++ (g r ++ [f r]) :: map g sl) with ((done ++ [g r ++ [f r]]) ++ map g sl) by (rewrite <- app_assoc; reflexivity).
  replace (S (List.length done)) with (List.length (done ++ [g r ++ [f r]])) by (rewrite app_length; cbn; lia).
  rewrite IH by (rewrite app_length; cbn; lia). rewrite <- app_assoc. reflexivity.
Qed.
Lemma addColumn_spec : forall c cs, addColumn (withHolder holder (columnTexts cellText limit ids c)) (tableOf cs) = tableOf (cs ++ [c]).
Proof.
  intros c cs. rewrite col_slots. unfold addColumn. destruct cs as [|c0 cs].
  - cbn [tableOf app]. rewrite addCells_new by (cbn; rewrite ?map_length; reflexivity).
    rewrite map_map. reflexivity.
  - cbn [tableOf]. rewrite map_length.
    refine (eq_trans (addCells_old (txt c) (fun r => map (fun c1 => txt c1 r) (c0 :: cs)) slots (List.length slots) [] eq_refl) _).
    cbn [app]. apply map_ext. intros r. symmetry. apply (map_app (fun c1 => txt c1 r) (c0 :: cs) [c]).
Qed.

(** *** the columns chosen after [k] additions *)
Definition Lk (k : nat) : list nat := seq fO ((k + 1) / 2).
Definition Rk (k : nat) : list nat := seq (fO + n - k / 2) (k / 2).
Definition nextCol (k : nat) : nat := if Nat.even k then fO + k / 2 else fO + n - (k + 1) / 2.
Definition sumW (k : nat) : nat := list_sum (map wO (Lk k ++ Rk k)).
Definition currK (k : nat) : Z := if Nat.even k then Z.of_nat (k / 2) else (- Z.of_nat ((k + 1) / 2))%Z.
Definition base (k : nat) : Z :=
  if (k =? n - 1) && (0 <? k) then (Z.of_nat (sumW k) + 2 * Z.of_nat k)%Z else (4 + Z.of_nat (sumW k) + 2 * Z.of_nat k)%Z.
Definition stateK (k : nat) (T : Z) : st :=
  mkSt (tableOf (Lk k)) (tableOf (rev (Rk k))) (map name (Lk k)) (map name (rev (Rk k)))
       (map wP (Lk k)) (map wP (rev (Rk k))) T (currK k) k.
Ltac par k := let e := fresh "E" in let m := fresh "m" in destruct (even_facts k) as [[e [m ->]]|[e [m ->]]].
Lemma Lk_even : forall k, Nat.even k = true -> Lk (S k) = Lk k ++ [nextCol k] /\ Rk (S k) = Rk k.
Proof.
  intros k E. unfold Lk, Rk, nextCol. rewrite E. par k; [|congruence].
  replace ((S (2 * m) + 1) / 2) with (S m) by lia. replace ((2 * m + 1) / 2) with m by lia.
  replace (S (2 * m) / 2) with m by lia. replace (2 * m / 2) with m by lia.
  rewrite seq_S. split; reflexivity.
Qed.
Lemma Rk_odd : forall k, k < n -> Nat.even k = false -> Lk (S k) = Lk k /\ Rk (S k) = nextCol k :: Rk k.
Proof.
  intros k Hk E. unfold Lk, Rk, nextCol. rewrite E. par k; [congruence|].
  replace ((S (2 * m + 1) + 1) / 2) with (S m) by lia. replace ((2 * m + 1 + 1) / 2) with (S m) by lia.
  replace (S (2 * m + 1) / 2) with (S m) by lia. replace ((2 * m + 1) / 2) with m by lia.
  split; [reflexivity|]. cbn [seq]. f_equal. f_equal. lia.
Qed.
Lemma access_next : forall k, k < n -> accessIndex fO n (currK k) = nextCol k.
Proof.
  intros k Hk. unfold accessIndex, currK, nextCol. par k; rewrite E.
  - replace (Z.of_nat (2 * m / 2) <? 0)%Z with false by (symmetry; apply Z.ltb_ge; lia). lia.
  - replace (- Z.of_nat ((2 * m + 1 + 1) / 2) <? 0)%Z with true by (symmetry; apply Z.ltb_lt; lia). lia.
Qed.
Lemma sumW_S : forall k, k < n -> sumW (S k) = sumW k + wO (nextCol k).
Proof.
  intros k Hk. unfold sumW. destruct (Nat.even k) eqn:E.
  - destruct (Lk_even k E) as [-> ->]. rewrite !map_app, !list_sum_app. cbn. lia.
  - destruct (Rk_odd k Hk E) as [-> ->]. rewrite !map_app, !list_sum_app. cbn. lia.
Qed.
Lemma curr_end : forall k, k <= n -> (currK k =? endIndex n)%Z = (k =? n).
Proof.
  intros k Hk. unfold currK, endIndex. unfold Nat.odd.
  par k; rewrite E; (destruct (even_facts n) as [[e [j Hj]]|[e [j Hj]]]; rewrite e; cbn [negb]);
  rewrite Hj in *; match goal with |- (?a =? ?b)%Z = (?c =? ?d) => destruct (Z.eqb_spec a b), (Nat.eqb_spec c d); auto; exfalso; lia end.
Qed.
Definition bump (k : nat) (z : Z) : Z := ((if (k =? n - 1)%nat then z - 4 else z) + 2)%Z.
Lemma step_add : forall k T, k < n -> within M (T + Z.of_nat (wO (nextCol k))) = true ->
  stepN (stateK k T) = stateK (S k) (bump (S k) (T + Z.of_nat (wO (nextCol k)))).
Proof.
  intros k T Hk Hw. unfold step. cbn [curr totalW stateK]. rewrite access_next by exact Hk. rewrite Hw.
  unfold stateK. destruct (Nat.even k) eqn:E.
  - replace (currK k <? 0)%Z with false.
    2:{ symmetry; apply Z.ltb_ge. unfold currK; rewrite E; lia. }
    cbn [lT rT lN rN lW rW totalW curr added]. rewrite addColumn_spec.
    destruct (Lk_even k E) as [-> ->]. rewrite !map_app. f_equal.
    unfold currK. par k; [|congruence]. rewrite E. rewrite Nat.even_succ. unfold Nat.odd. rewrite E. cbn [negb]. lia.
  - replace (currK k <? 0)%Z with true.
    2:{ symmetry; apply Z.ltb_lt. unfold currK; rewrite E; par k; [congruence|lia]. }
    cbn [lT rT lN rN lW rW totalW curr added]. rewrite addColumn_spec.
    destruct (Rk_odd k Hk E) as [-> ->]. cbn [rev]. rewrite !map_app. f_equal.
    unfold currK. par k; [congruence|]. rewrite E. rewrite Nat.even_succ. unfold Nat.odd. rewrite E. cbn [negb]. lia.
Qed.
Lemma step_skip : forall k T, k < n -> within M (T + Z.of_nat (wO (nextCol k))) = false ->
  stepN (stateK k T) = stateK k (bump k (T + Z.of_nat (wO (nextCol k)))).
Proof.
  intros k T Hk Hw. unfold step. cbn [curr totalW stateK]. rewrite access_next by exact Hk. rewrite Hw.
  cbn [lT rT lN rN lW rW totalW curr added]. reflexivity.
Qed.
Lemma start_state : start_ = stateK 0 4.
Proof. unfold start_, stateK, Lk, Rk, currK. cbn. reflexivity. Qed.
Lemma loop_unfold : forall fuel k T, k <= n ->
  loopN fuel (stateK k T) =
  if below M T && negb (k =? n) then match fuel with 0 => Err OutOfFuel | S f => loopN f (stepN (stateK k T)) end else Ok (stateK k T).
Proof. intros fuel k T Hk. destruct fuel; cbn [loop totalW curr stateK]; rewrite curr_end by exact Hk; reflexivity. Qed.

(** *** the end of the loop *)
(** the total when the (k+1)st column is tried *)
Definition need (k : nat) : Z := (base k + Z.of_nat (wO (nextCol k)))%Z.
Lemma base_S : forall k, k < n -> bump (S k) (need k) = base (S k) \/ S k = n.
Proof.
  intros k Hk. destruct (Nat.eq_dec (S k) n) as [|Hn]; [right; assumption|left].
  unfold need, base, bump. rewrite sumW_S by exact Hk.
  replace (k =? n - 1) with false by (symmetry; apply Nat.eqb_neq; lia). cbn [andb].
  replace (0 <? S k) with true by reflexivity. rewrite Bool.andb_true_r.
  destruct (S k =? n - 1) eqn:E; lia.
Qed.
(** how the loop ends when started regularly *)
Inductive ended (k0 k : nat) : Prop :=
| EndAll : k = n -> (forall j, k0 <= j < n -> Fits M (need j)) -> ended k0 k
| EndCut : k0 <= k < n -> (forall j, k0 <= j < k -> Fits M (need j)) ->
           match M with Some m => (m <= base k)%Z \/ (m < need k)%Z | None => False end -> ended k0 k.
Lemma within_Fits : forall z, within M z = true <-> Fits M z.
Proof. intros z. unfold within, Fits. destruct M; [apply Z.leb_le|split; auto]. Qed.
Hypothesis Hn : 1 <= n.
Lemma ended_step : forall k0 k, k0 < n -> Fits M (need k0) -> ended (S k0) k -> ended k0 k.
Proof.
  intros k0 k H0 HF [He Ha|He Ha Hm].
  - apply EndAll; [exact He|]. intros j Hj. destruct (Nat.eq_dec j k0) as [->|]; [exact HF|apply Ha; lia].
  - apply EndCut; [lia| |exact Hm]. intros j Hj. destruct (Nat.eq_dec j k0) as [->|]; [exact HF|apply Ha; lia].
Qed.
(** the one case in which it does not end *)
Definition stuck : Prop := n = 1 /\ M = Some 5%Z /\ wO (nextCol 0) = 2.
Lemma before_last : forall k, S k = n -> 0 < k -> Fits M (need (k - 1)) -> wO (nextCol k) <= 2 -> Fits M (need k).
Proof.
  intros k Hk H0 HF Hw. unfold Fits in *. destruct M as [m|]; [|exact I]. unfold need, base in *.
  replace (k =? n - 1) with true by (symmetry; apply Nat.eqb_eq; lia).
  replace (0 <? k) with true by (symmetry; apply Nat.ltb_lt; lia). cbn [andb].
  replace (k - 1 =? n - 1) with false in HF by (symmetry; apply Nat.eqb_neq; lia). cbn [andb] in HF.
  pose proof (sumW_S (k - 1) ltac:(lia)) as H1. replace (S (k - 1)) with k in H1 by lia. lia.
Qed.
Lemma base0 : base 0 = 4%Z.
Proof. unfold base. rewrite Bool.andb_false_r. reflexivity. Qed.
Lemma loop_ends : forall j k0 fuel, n - k0 = j -> k0 < n -> (k0 = 0 \/ Fits M (need (k0 - 1))) -> ~ stuck ->
  exists k T, (forall F, n - k0 + 2 <= F -> loopN F (stateK k0 (base k0)) = Ok (stateK k T)) /\
              (forall s, loopN fuel (stateK k0 (base k0)) = Ok s -> exists T', s = stateK k T') /\ ended k0 k.
Proof.
  induction j as [|j IH]; intros k0 fuel Hj Hk Hprev Hst; [lia|].
  destruct (below M (base k0)) eqn:EB.
  2:{ exists k0, (base k0). repeat split.
      - intros F HF. rewrite loop_unfold by lia. rewrite EB. reflexivity.
      - intros s H. rewrite loop_unfold in H by lia. rewrite EB in H. cbn [andb] in H. apply Ok_inj in H. rewrite <- H. eexists; reflexivity.
      - apply EndCut; [lia|intros; lia|]. unfold below in EB. destruct M as [m|]; [|discriminate].
        apply Z.ltb_ge in EB. left; exact EB. }
  assert (Hrun : forall F, loopN (S F) (stateK k0 (base k0)) = loopN F (stepN (stateK k0 (base k0)))).
  { intros F. rewrite loop_unfold by lia. rewrite EB. replace (k0 =? n) with false by (symmetry; apply Nat.eqb_neq; lia). reflexivity. }
  assert (Hzero : forall s, loopN 0 (stateK k0 (base k0)) = Ok s -> False).
  { intros s H. rewrite loop_unfold in H by lia. rewrite EB in H. replace (k0 =? n) with false in H by (symmetry; apply Nat.eqb_neq; lia).
    discriminate. }
  destruct (within M (need k0)) eqn:EW.
  - (* the column is added *)
    pose proof EW as HF. apply within_Fits in HF.
    assert (Hstep : stepN (stateK k0 (base k0)) = stateK (S k0) (bump (S k0) (need k0))) by (apply step_add; [exact Hk|exact EW]).
    rewrite Hstep in Hrun.
    destruct (Nat.eq_dec (S k0) n) as [He|He].
    + (* it was the last *)
      exists (S k0), (bump (S k0) (need k0)). repeat split.
      * intros F HF'. destruct F as [|F]; [lia|]. rewrite Hrun. rewrite loop_unfold by lia.
        replace (S k0 =? n) with true by (symmetry; apply Nat.eqb_eq; exact He). cbn [negb]. rewrite Bool.andb_false_r. reflexivity.
      * intros s H. destruct fuel as [|F]; [destruct (Hzero _ H)|]. rewrite Hrun in H. rewrite loop_unfold in H by lia.
        replace (S k0 =? n) with true in H by (symmetry; apply Nat.eqb_eq; exact He). cbn [negb] in H. rewrite Bool.andb_false_r in H. apply Ok_inj in H. rewrite <- H. eexists; reflexivity.
      * apply EndAll; [exact He|]. intros i Hi. replace i with k0 by lia. exact HF.
    + destruct (base_S k0 Hk) as [Hb|Hb]; [|lia]. rewrite Hb in Hrun.
      destruct (IH (S k0) (pred fuel)) as [k [T [H1 [H2 H3]]]]; [lia|lia|right; cbn; rewrite Nat.sub_0_r; exact HF|exact Hst|].
      exists k, T. repeat split.
      * intros F HF'. destruct F as [|F]; [lia|]. rewrite Hrun. apply H1. lia.
      * intros s H. destruct fuel as [|F]; [destruct (Hzero _ H)|]. rewrite Hrun in H. apply H2 in H. exact H.
      * apply ended_step; assumption.
  - (* it is not *)
    assert (Hstep : stepN (stateK k0 (base k0)) = stateK k0 (bump k0 (need k0))) by (apply step_skip; [exact Hk|exact EW]).
    rewrite Hstep in Hrun.
    assert (HM : exists m, M = Some m) by (unfold within in EW; destruct M as [m|]; [exists m; reflexivity|discriminate]).
    destruct HM as [m EM]. pose proof EB as LB. pose proof EW as LW. unfold below in LB. unfold within in LW. rewrite EM in LB, LW.
    apply Z.ltb_lt in LB. apply Z.leb_gt in LW.
    assert (Hend : ended k0 k0) by (apply EndCut; [lia|intros; lia|rewrite EM; right; exact LW]).
    assert (Hcases : (m <= bump k0 (need k0))%Z \/ (S k0 = n /\ bump k0 (need k0) = (m - 1)%Z /\ 2 < wO (nextCol k0))).
    { unfold bump. destruct (Nat.eqb_spec k0 (n - 1)) as [Hl|Hl]; [|left; lia].
      destruct (Z.le_gt_cases m (need k0 - 4 + 2)) as [H|H]; [left; exact H|right].
      repeat split; [lia|lia|].
      destruct (Nat.le_gt_cases (wO (nextCol k0)) 2) as [Hw|Hw]; [exfalso|lia].
      destruct (Nat.eq_dec k0 0) as [H0|H0].
      - rewrite H0 in LW, LB, H, Hl. unfold need in LW, H. rewrite base0 in LW, LB, H. rewrite H0 in Hw.
        assert (H1 : wO (nextCol 0) = 2 /\ m = 5%Z) by lia. destruct H1 as [H1 H2].
        apply Hst. subst m. repeat split; [lia|exact EM|exact H1].
      - destruct Hprev as [Hp|Hp]; [lia|].
        assert (HB := before_last k0 ltac:(lia) ltac:(lia) Hp Hw). unfold Fits in HB. rewrite EM in HB. lia. }
    assert (Hbelow : forall z, below M z = (z <? m)%Z) by (intros z; unfold below; rewrite EM; reflexivity).
    destruct Hcases as [Hc|[Hc1 [Hc2 Hc3]]].
    + exists k0, (bump k0 (need k0)). repeat split; [| |exact Hend].
      * intros F HF'. destruct F as [|F]; [lia|]. rewrite Hrun. rewrite loop_unfold by lia.
        replace (below M (bump k0 (need k0))) with false by (rewrite Hbelow; symmetry; apply Z.ltb_ge; lia). reflexivity.
      * intros s H. destruct fuel as [|F]; [destruct (Hzero _ H)|]. rewrite Hrun in H.
        rewrite loop_unfold in H by lia.
        replace (below M (bump k0 (need k0))) with false in H by (rewrite Hbelow; symmetry; apply Z.ltb_ge; lia). cbn [andb] in H.
        apply Ok_inj in H. rewrite <- H. eexists; reflexivity.
    + rewrite Hc2 in Hrun.
      assert (Hone : exists T, forall F, loopN (S F) (stateK k0 (m - 1)) = Ok (stateK k0 T)).
      { exists (bump k0 (m - 1 + Z.of_nat (wO (nextCol k0))))%Z. intros F. rewrite loop_unfold by lia.
        replace (below M (m - 1)) with true by (rewrite Hbelow; symmetry; apply Z.ltb_lt; lia).
        replace (k0 =? n) with false by (symmetry; apply Nat.eqb_neq; lia). cbn [andb negb].
        rewrite step_skip; [|lia|unfold within; rewrite EM; apply Z.leb_gt; lia].
        rewrite loop_unfold by lia.
        replace (below M (bump k0 (m - 1 + Z.of_nat (wO (nextCol k0))))) with false; [reflexivity|].
        rewrite Hbelow. symmetry. apply Z.ltb_ge. unfold bump. destruct (k0 =? n - 1); lia. }
      destruct Hone as [T Hone].
      exists k0, T. repeat split; [| |exact Hend].
      * intros F HF'. destruct F as [|[|F]]; [lia|lia|]. rewrite Hrun. apply Hone.
      * intros s H. destruct fuel as [|F]; [destruct (Hzero _ H)|]. rewrite Hrun in H. destruct F as [|F].
        { rewrite loop_unfold in H by lia.
          replace (below M (m - 1)) with true in H by (rewrite Hbelow; symmetry; apply Z.ltb_lt; lia).
          replace (k0 =? n) with false in H by (symmetry; apply Nat.eqb_neq; lia). discriminate. }
        rewrite Hone in H. apply Ok_inj in H. rewrite <- H. eexists; reflexivity.
Qed.
Lemma loop_stuck : stuck -> forall fuel, loopN fuel start_ = Err OutOfFuel.
Proof.
  intros [Hs [HM Hw]] fuel. rewrite start_state. induction fuel as [|F IH]; rewrite loop_unfold by lia;
  rewrite HM; replace (0 =? n) with false by (symmetry; apply Nat.eqb_neq; lia); cbn [below andb negb Z.ltb Z.compare Pos.compare Pos.compare_cont];
  [reflexivity|].
  rewrite <- HM. rewrite step_skip; [|lia|rewrite HM, Hw; reflexivity].
  unfold bump. replace (0 =? n - 1) with true by (symmetry; apply Nat.eqb_eq; lia). rewrite Hw. exact IH.
Qed.
End Cols.
