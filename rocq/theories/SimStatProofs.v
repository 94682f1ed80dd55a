(** Proofs for C80, statistics. *)
From Coq Require Import Lia.
From Verif Require Import Base NamesModel NamesSpec NamesProofs TableModel TableSpec TableOps TableProofs TableOpsProofs TableOps3Proofs RawSpec.
From Verif Require Import MatchModel MatchSpec SimStatModel SimStatSpec.
From Verif Require WorkModel WorkProofs LogModel TableGroupProofs PrepProofs BinOpProofs.
From Coq Require Import List Arith ZArith QArith Ascii String. Import ListNotations.
Open Scope string_scope. Open Scope list_scope. Open Scope nat_scope.

(** ** words *)
Lemma isBlank_spec c : isBlank c = true <-> Blank c.
Proof.
  unfold isBlank, Blank. rewrite Bool.orb_true_iff, !Bool.andb_true_iff, !Nat.leb_le. cbn [In]. split.
  - intros H. assert (D : nat_of_ascii c = 9 \/ nat_of_ascii c = 10 \/ nat_of_ascii c = 11 \/ nat_of_ascii c = 12 \/ nat_of_ascii c = 13 \/
      nat_of_ascii c = 28 \/ nat_of_ascii c = 29 \/ nat_of_ascii c = 30 \/ nat_of_ascii c = 31 \/ nat_of_ascii c = 32) by lia.
    repeat (destruct D as [D|D]; [rewrite D; tauto|]). rewrite D; tauto.
  - intros H. repeat (destruct H as [H|H]; [lia|]). contradiction.
Qed.
Lemma lower_spec c d : LogModel.lower c = d <-> LowerOf c d.
Proof.
  unfold LowerOf. split.
  - intros <-. destruct c as [[|] [|] [|] [|] [|] [|] [|] [|]]; vm_compute; first [left; split; [lia|reflexivity]|right; split; [lia|reflexivity]].
  - intros [[H E]|[H ->]].
    + assert (X : d = ascii_of_nat (nat_of_ascii c + 32)) by (rewrite <- E, ascii_nat_embedding; reflexivity). subst d.
      destruct c as [[|] [|] [|] [|] [|] [|] [|] [|]]; vm_compute in H; first [reflexivity|exfalso; lia].
    + destruct c as [[|] [|] [|] [|] [|] [|] [|] [|]]; vm_compute in H; first [reflexivity|exfalso; lia].
Qed.
Lemma clean_spells s : forall w, clean s = w <-> SpelledAs s w.
Proof.
  induction s as [|c s IH]; intros w; cbn [clean].
  - split; [intros <-; constructor|intros H; inversion H; reflexivity].
  - destruct (isBlank c) eqn:B.
    + rewrite IH. apply isBlank_spec in B. split; [apply sp_blank; exact B|intros H; inversion H; subst; [assumption|contradiction]].
    + assert (NB : ~ Blank c) by (intros X; apply isBlank_spec in X; congruence). split.
      * intros <-. apply sp_char; [exact NB|apply lower_spec; reflexivity|apply IH; reflexivity].
      * intros H. inversion H; subst; [contradiction|]. f_equal; [apply lower_spec; assumption|apply IH; assumption].
Qed.
Lemma valid_spec accepted arg : match validateInput accepted arg with
  | Ok w => (exists s, arg = Some s /\ SpelledAs s w) /\ In w (map clean accepted)
  | Err e => match arg with None => e = InvalidArgumentType | Some s => e = InvalidArgumentValue /\ forall w, SpelledAs s w -> ~ In w (map clean accepted) end
  end.
Proof.
  unfold validateInput. destruct arg as [s|]; [|reflexivity]. destruct (mem (clean s) (map clean accepted)) eqn:M.
  - split; [exists s; split; [reflexivity|apply clean_spells; reflexivity]|apply mem_In; exact M].
  - split; [reflexivity|]. intros w H. apply clean_spells in H. subst w. apply mem_not_In. exact M.
Qed.
Lemma accepted_names w : In w (map clean acceptedStats) <-> w = "count" \/ exists s, NameOfStat w s.
Proof.
  vm_compute (map clean acceptedStats). split.
  - intros H. repeat (destruct H as [<-|H]; [first [left; reflexivity|right; eexists; constructor]|]). contradiction.
  - intros [->|[s H]]; [|inversion H; subst]; cbn [In]; tauto.
Qed.
Lemma statFunction_name w s : NameOfStat w s -> statFunction w = Ok s.
Proof. intros H. inversion H; subst; reflexivity. Qed.
Lemma statFunction_count : statFunction "count" = Err ValueErr. Proof. reflexivity. Qed.
Lemma NameOfStat_fun w s s' : NameOfStat w s -> NameOfStat w s' -> s = s'.
Proof. intros A B. apply statFunction_name in A. apply statFunction_name in B. congruence. Qed.

(** ** labels *)
Lemma label_one w : w <> "quartiles" -> exists a, label (mkAxis 1 None) w = Ok a /\ Inv a /\ alen a = 1 /\ getNames a = [Some w].
Proof.
  intros N. unfold label. replace (String.eqb w "quartiles") with false by (symmetry; apply String.eqb_neq; exact N).
  assert (X : exists a, setNames (mkAxis 1 None) (AStr w) (OOne (IdInt 0)) = (a, Ok tt) /\ alen a = 1 /\ getNames a = [Some w]).
  { eexists. split; [cbv - [String.eqb]; reflexivity|]. split; reflexivity. }
  destruct X as (a & E & L & G).
  assert (IA : Inv a).
  { replace a with (fst (setNames (mkAxis 1 None) (AStr w) (OOne (IdInt 0)))) by (rewrite E; reflexivity).
    change (Inv (fst (setNames_some (mkAxis 1 None) (AStr w) (OOne (IdInt 0))))). apply setNames_some_Inv. all: try discriminate. 
    all: try (exact (fresh_Inv 1)). all: try exact I. }
  rewrite E. exists a. auto.
Qed.
Lemma label_three : exists a, label (mkAxis 3 None) "quartiles" = Ok a /\ Inv a /\ alen a = 3 /\
  getNames a = [Some "quartile1"; Some "quartile2"; Some "quartile3"].
Proof.
  eexists. split; [vm_compute; reflexivity|]. split; [|split; reflexivity].
  match goal with |- Inv ?a => replace a with (fst (setNames_some (mkAxis 3 None) (AList [NStr "quartile1"; NStr "quartile2"; NStr "quartile3"]) (OList [IdInt 0; IdInt 1; IdInt 2]))) by (vm_compute; reflexivity) end.
  apply setNames_some_Inv; try discriminate; [exact (fresh_Inv 3)|].
  cbn [NonColliding]. split; [do 3 (constructor; [cbn; intuition discriminate|]); constructor|]. intros i j x y z Hx Hy.
  destruct i as [|[|[|i]]]; cbn in Hx; try (destruct i; discriminate); injection Hx as <-;
  destruct j as [|[|[|j]]]; cbn in Hy; try (destruct j; discriminate); injection Hy as <-; vm_compute; intros; congruence.
Qed.
Definition widthOf (s : stat) : nat := match s with SQuartiles => 3 | _ => 1 end.
Lemma label_spec w s : NameOfStat w s -> exists a, label (mkAxis (widthOf s) None) w = Ok a /\ Inv a /\ alen a = widthOf s /\
  getNames a = match s with SQuartiles => [Some "quartile1"; Some "quartile2"; Some "quartile3"] | _ => [Some w] end.
Proof.
  intros H. inversion H; subst; cbn [widthOf]; first [exact label_three|apply label_one; discriminate].
Qed.

Section Stats.
Context {V : Type}.
Variable one : stat -> list V -> V.
Variable three : list V -> V * V * V.
Lemma valuesOf_length s v : List.length (valuesOf one three s v) = widthOf s.
Proof. unfold valuesOf. destruct (three v) as [[a b] c]. destruct s; reflexivity. Qed.

Lemma transposed_nth (k : nat) (vs : list (list V)) i j : (forall r, In r vs -> List.length r = k) -> j < k ->
  List.length (transposeRows k vs) = k /\
  (match nth_error (transposeRows k vs) j with Some c => nth_error c i | None => None end) =
  match nth_error vs i with Some r => nth_error r j | None => None end.
Proof.
  intros W J. unfold transposeRows. destruct (transposeRows_gen V vs (repeat [] k)) as [L N]; [intros r Hr; rewrite repeat_length; auto|].
  rewrite repeat_length in L. split; [exact L|]. rewrite (N j []) by (apply nth_error_repeat; exact J). cbn [app].
  clear L N. revert i. induction vs as [|r vs IH]; intros i; cbn [flat_map]; [destruct i; reflexivity|].
  assert (X : j < List.length r) by (rewrite (W r (or_introl eq_refl)); exact J).
  destruct (nth_error r j) as [v|] eqn:E; [|apply nth_error_None in E; lia].
  destruct i as [|i]; cbn [app nth_error]; [symmetry; exact E|]. apply IH. intros r' Hr. apply W. right. exact Hr.
Qed.

Lemma transposed_rows (k : nat) (vs : list (list V)) r : (forall r, In r vs -> List.length r = k) -> In r (transposeRows k vs) -> List.length r = List.length vs.
Proof.
  intros W H. apply In_nth_error in H. destruct H as [j E].
  assert (J : j < k). { pose proof (nth_error_lt _ _ E) as X. unfold transposeRows in X. destruct (transposeRows_gen V vs (repeat [] k)) as [L N]; [intros q Hq; rewrite repeat_length; auto|]. rewrite L, repeat_length in X. exact X. }
  unfold transposeRows in E. destruct (transposeRows_gen V vs (repeat [] k)) as [L N]; [intros q Hq; rewrite repeat_length; auto|].
  rewrite (N j []) in E by (apply nth_error_repeat; exact J). injection E as <-. cbn [app].
  clear N L. induction vs as [|q vs IH]; [reflexivity|]. cbn [flat_map]. rewrite app_length, (IH (fun r Hr => W r (or_intror Hr))).
  destruct (nth_error q j) eqn:X; [reflexivity|]. apply nth_error_None in X. rewrite (W q (or_introl eq_refl)) in X. lia.
Qed.

Lemma setAll_names a b : Inv b -> alen a = alen b -> exists a', WorkModel.setAll a (Some (getNames b)) = Ok a' /\ alen a' = alen a /\ Inv a' /\ getNames a' = getNames b.
Proof.
  intros IB L. pose proof (WorkProofs.setAll_list a (getNames b)) as S. destruct (WorkModel.setAll a (Some (getNames b))) as [a'|e].
  - exists a'. destruct S as (_ & A & B & C). auto.
  - exfalso. apply (proj1 S). split; [rewrite (getNames_length b IB), L; reflexivity|]. apply BinOpProofs.names_Distinct. exact IB.
Qed.

Lemma backend_spec sd t w s : wf t -> 0 < alen (tp t) -> 0 < alen (tf t) -> NameOfStat w s ->
  exists r, statisticsBackend one three sd t w s = Ok r /\ StatTable one three sd t w s r.
Proof.
  intros W P F N.
  destruct (calculate_spec V sd t (valuesOf one three s) None None W P F I) as (a & vs & E & EV & La & Ia & _); [apply seq_NoDup|].
  rewrite seq_length in La.
  assert (VL : List.length (vectors sd t) = alen (ax sd t)) by (apply vectors_length; exact W).
  assert (EV' : vs = map (valuesOf one three s) (vectors sd t)).
  { rewrite EV. f_equal. rewrite <- VL. apply PrepProofs.selected_seq. reflexivity. }
  clear EV.
  assert (NE : 0 < List.length (vectors sd t)) by (rewrite VL; destruct sd; assumption).
  assert (K : match vs with v :: _ => List.length v | [] => 0 end = widthOf s).
  { rewrite EV'. destruct (vectors sd t) as [|v l]; [cbn in NE; lia|]. cbn [map]. apply valuesOf_length. }
  assert (RL : forall r, In r vs -> List.length r = widthOf s).
  { intros r H. rewrite EV' in H. apply in_map_iff in H. destruct H as (v & <- & _). apply valuesOf_length. }
  assert (NV : forall i v, nth_error (vectors sd t) i = Some v -> nth_error vs i = Some (valuesOf one three s v)).
  { intros i v H. rewrite EV'. apply map_nth_error. exact H. }
  assert (LV : List.length vs = alen (ax sd t)) by (rewrite EV', map_length; exact VL).
  destruct (label_spec w s N) as (b & EB & IB & LB & GB).
  assert (IAX : Inv (ax sd t)) by (apply (wf_Inv V sd t W)).
  destruct (setAll_names a (ax sd t) IAX La) as (a' & ES & LA' & IA' & GA').
  unfold statisticsBackend. rewrite E. cbn [rbind]. rewrite K. destruct sd; cbn [ax] in *.
  - rewrite ES. cbn [rbind]. rewrite EB. cbn [rbind]. eexists. split; [reflexivity|].
    split; cbn [ax offax tp tf rows]; try (cbn; congruence).
    + split; [cbn; congruence|]. split; [|split; assumption]. intros r H. cbn [tf]. rewrite LB. apply RL. exact H.
    + intros D i v H. unfold cellAlong, cell. cbn [rows]. rewrite (NV i v H). destruct s; try reflexivity. contradiction.
    + intros -> i v H. unfold cellAlong, cell. cbn [rows]. rewrite (NV i v H). cbn [valuesOf]. destruct (three v) as [[x y] z]. repeat split.
  - rewrite EB. cbn [rbind]. rewrite ES. cbn [rbind]. eexists. split; [reflexivity|].
    assert (C : forall i v k, k < widthOf s -> nth_error (vectors Fts t) i = Some v -> cell (mkTable b a' (transposeRows (widthOf s) vs)) k i = nth_error (valuesOf one three s v) k).
    { intros i v k Hk H. unfold cell. cbn [rows]. rewrite (proj2 (transposed_nth (widthOf s) vs i k RL Hk)). rewrite (NV i v H). reflexivity. }
    split; cbn [ax offax tp tf rows]; try (cbn; congruence).
    + assert (TL : List.length (transposeRows (widthOf s) vs) = widthOf s) by (apply (transposed_nth (widthOf s) vs 0 0 RL); destruct s; cbn; lia).
      split; [cbn; congruence|]. split; [|split; assumption]. intros r H. cbn [tf]. rewrite (transposed_rows _ _ _ RL H), LV. congruence.
    + intros D i v H. unfold cellAlong. rewrite (C i v 0) by (first [exact H|destruct s; cbn; lia]). destruct s; try reflexivity. contradiction.
    + intros -> i v H. unfold cellAlong. rewrite !(C i v) by (first [exact H|cbn; lia]). cbn [valuesOf]. destruct (three v) as [[x y] z]. repeat split.
Qed.
Lemma backend_empty sd t w s : alen (tp t) = 0 \/ alen (tf t) = 0 -> statisticsBackend one three sd t w s = Err ImproperObjectAction.
Proof.
  intros H. unfold statisticsBackend, calculate.
  replace ((alen (tp t) =? 0) || (alen (tf t) =? 0)) with true; [reflexivity|]. symmetry. apply Bool.orb_true_iff. rewrite !Nat.eqb_eq. exact H.
Qed.

Lemma stat_spec sd t arg : wf t ->
  match statistics one three sd t arg with
  | Ok r => exists q w s, arg = Some q /\ SpelledAs q w /\ NameOfStat w s /\ 0 < alen (tp t) /\ 0 < alen (tf t) /\ StatTable one three sd t w s r
  | Err e => match arg with
             | None => e = InvalidArgumentType
             | Some q => (SpelledAs q "count" /\ e = ValueErr) \/
                         ((forall w s, SpelledAs q w -> ~ NameOfStat w s) /\ ~ SpelledAs q "count" /\ e = InvalidArgumentValue) \/
                         ((exists w s, SpelledAs q w /\ NameOfStat w s) /\ (alen (tp t) = 0 \/ alen (tf t) = 0) /\ e = ImproperObjectAction)
             end
  end.
Proof.
  intros W. unfold statistics. pose proof (valid_spec acceptedStats arg) as A. destruct (validateInput acceptedStats arg) as [w|e]; cbn [rbind].
  - destruct A as [(q & -> & Sp) Hin]. apply accepted_names in Hin. destruct Hin as [->|[s N]].
    + rewrite statFunction_count. cbn [rbind]. left. auto.
    + rewrite (statFunction_name _ _ N). cbn [rbind].
      destruct (Nat.eq_dec (alen (tp t)) 0) as [Z|P]; [|destruct (Nat.eq_dec (alen (tf t)) 0) as [Z|F]].
      * rewrite backend_empty by auto. right. right. split; [exists w, s; auto|]. auto.
      * rewrite backend_empty by auto. right. right. split; [exists w, s; auto|]. auto.
      * destruct (backend_spec sd t w s W ltac:(lia) ltac:(lia) N) as (r & E & T). rewrite E. exists q, w, s. repeat (split; [auto; lia|]). exact T.
  - destruct arg as [q|]; [|exact A]. destruct A as [-> H]. right. left. split; [|split; [|reflexivity]].
    + intros w s Sp N. apply (H w Sp). apply accepted_names. right. exists s. exact N.
    + intros Sp. apply (H _ Sp). apply accepted_names. left. reflexivity.
Qed.

Lemma grouped_spec {K : Type} {EK : EqDec K} (key : list V -> K) t by_ q w s : wf t -> NoDup by_ -> (forall i, In i by_ -> i < alen (tf t)) ->
  List.length by_ < alen (tf t) -> SpelledAs q w -> NameOfStat w s ->
  exists res, groupedStatistics one three key t by_ (Some q) = Ok res /\ NoDup (map fst res) /\
    (forall k, In k (map fst res) <-> exists p, In p (rows t) /\ key p = k) /\
    forall k r, In (k, r) res -> exists g, wf g /\ getNames (tf g) = survivors by_ (getNames (tf t)) /\
      items Pts g = map (fun p => (fst p, survivors by_ (snd p))) (filter (fun p => eqbd (key (snd p)) k) (items Pts t)) /\
      StatTable one three Fts g w s r.
Proof.
  intros W ND R FT Sp N. destruct (TableGroupProofs.groupByFeature_spec V key t by_ W ND R) as (groups & EG & KG & PG & _).
  assert (VA : validateInput acceptedStats (Some q) = Ok w).
  { unfold validateInput. apply clean_spells in Sp. rewrite Sp. replace (mem w (map clean acceptedStats)) with true; [reflexivity|].
    symmetry. apply mem_In, accepted_names. right. exists s. exact N. }
  assert (B : forall k g, In (k, g) groups -> exists r, statisticsBackend one three Fts g w s = Ok r /\ StatTable one three Fts g w s r).
  { intros k g H. destruct (PG k g H) as (Wg & NG & IG). apply backend_spec; [exact Wg| | |exact N].
    - assert (X : In k (map fst groups)) by (apply (in_map fst) in H; exact H). rewrite KG in X. rewrite TableGroupProofs.dedup_In in X; apply in_map_iff in X. destruct X as (p & <- & Hp).
      assert (L : 0 < List.length (items Pts g)).
      { rewrite IG, map_length. assert (Y : exists nm, In (nm, p) (items Pts t)).
        { apply In_nth_error in Hp. destruct Hp as [i Hi]. pose proof (nth_error_lt _ _ Hi) as Lt. destruct W as (WL & _ & IP & _).
          assert (X : i < List.length (getNames (tp t))) by (rewrite (getNames_length _ IP); lia); destruct (nth_error (getNames (tp t)) i) as [nm|] eqn:Hn; [|apply nth_error_None in Hn; lia]. exists nm. unfold items. eapply nth_error_In with (n := i). rewrite nth_error_combine. cbn [ax vectors]. rewrite Hn, Hi. reflexivity. }
        destruct Y as [nm Y]. assert (Z : In (nm, p) (TableGroupProofs.ofKey V key (key p) (items Pts t))). { apply filter_In. split; [exact Y|]. cbn. apply eqbd_eq. reflexivity. }
        destruct (TableGroupProofs.ofKey V key (key p) (items Pts t)); [contradiction|cbn; lia]. }
      rewrite (items_length V Pts g Wg) in L. exact L.
    - destruct Wg as (_ & _ & _ & IFg). rewrite <- (getNames_length _ IFg), NG. destruct W as (_ & _ & _ & IFt).
      pose proof (getNames_length _ IFt) as GL. assert (Y : List.length (survivors by_ (getNames (tf t))) = alen (tf t) - List.length by_) by (rewrite <- GL; apply survivors_length; [exact ND|intros; rewrite GL; auto]). lia. }
  unfold groupedStatistics. rewrite VA. cbn [rbind]. rewrite (statFunction_name _ _ N). cbn [rbind]. rewrite EG. cbn [rbind].
  assert (Y : exists res, rmapM (fun kg => rmap (fun r => (fst kg, r)) (statisticsBackend one three Fts (snd kg) w s)) groups = Ok res /\
    map fst res = map fst groups /\ forall k r, In (k, r) res -> exists g, In (k, g) groups /\ StatTable one three Fts g w s r).
  { clear EG KG PG. clear - B. induction groups as [|[k g] gs IH]; cbn [rmapM]; [exists []; split; [reflexivity|]; split; [reflexivity|]; intros k r []|].
    destruct (B k g (or_introl eq_refl)) as (r & Er & Tr). destruct IH as (res & Eres & Kres & Pres); [intros k' g' H; apply (B k' g'); right; exact H|].
    cbn [snd fst]. rewrite Er. cbn [rbind rmap]. rewrite Eres. cbn [rbind]. exists ((k, r) :: res). split; [reflexivity|]. split; [cbn [map fst]; rewrite Kres; reflexivity|].
    intros k' r' [H|H].
    - injection H as <- <-. exists g. split; [left; reflexivity|exact Tr].
    - destruct (Pres k' r' H) as (g' & Hg & Tg). exists g'. split; [right; exact Hg|exact Tg]. }
  destruct Y as (res & E & Kr & Pr). exists res. split; [exact E|]. rewrite Kr, KG.
  split; [apply TableGroupProofs.dedup_NoDup|]. split.
  - intros k. rewrite TableGroupProofs.dedup_In, in_map_iff. split; intros (p & A & B'); exists p; auto.
  - intros k r H. destruct (Pr k r H) as (g & Hg & T). exists g. destruct (PG k g Hg) as (Wg & Ng & Ig). auto.
Qed.
End Stats.
