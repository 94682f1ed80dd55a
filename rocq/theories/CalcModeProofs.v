From Verif Require Import Base TableModel TableSpec TableSortProofs LearnModel LearnSpec LearnProofs LearnMultiProofs CalcModel CalcStatModel CalcSpec CalcProofs CalcNormProofs CalcPercProofs.
From Coq Require Import Sorted.
Open Scope list_scope.
Open Scope nat_scope.
Lemma stableSort_le {A} (le : A -> A -> bool) l : (forall x y, le x y = true \/ le y x = true) ->
  (forall x y z, le x y = true -> le y z = true -> le x z = true) ->
  StronglySorted (fun x y => le x y = true) (stableSort le l).
Proof.
  intros Ht Htr. assert (H : StronglySorted (fun _ _ : A => True) l).
  { induction l; constructor; auto. apply Forall_forall; auto. }
  apply (stableSort_sorted le Ht Htr) in H. induction H as [|x t HS IH HF]; constructor; auto.
  eapply Forall_impl; [|exact HF]. intros y. unfold lexR. tauto.
Qed.
Lemma NoDup_app_intro {A} (a b : list A) : NoDup a -> NoDup b -> (forall x, In x a -> In x b -> False) -> NoDup (a ++ b).
Proof.
  intros Ha Hb Hd. induction Ha as [|x a Hx Ha IH]; simpl; auto. constructor.
  - rewrite in_app_iff. intros [C|C]; [contradiction|]. apply (Hd x); simpl; auto.
  - apply IH. intros y Hy. apply Hd. right; auto.
Qed.
Section Mode.
Context {V : Type} {EV : EqDec V}.
Variable zero : V.
Variable leb : V -> V -> bool.
Hypothesis Htot : forall x y, leb x y = true \/ leb y x = true.
Hypothesis Htr : forall x y z, leb x y = true -> leb y z = true -> leb x z = true.
(** the counter holds each value with its number of occurrences *)
Definition counts (vals : list V) (counter : list (V * nat)) : Prop :=
  NoDup (map fst counter) /\ forall x c, In (x, c) counter <-> In x vals /\ c = count_occ eq_dec vals x.
Definition takeEq (c : nat) := fix take (l : list (V * nat)) : list V :=
        match l with
        | [] => []
        | (v, cnt) :: t => if cnt =? c then v :: take t else []
        end.
Lemma takeEq_spec c l : StronglySorted (fun p q => byCount p q = true) l -> (forall p, In p l -> snd p <= c) ->
  takeEq c l = map fst (filter (fun p => snd p =? c) l).
Proof.
  induction l as [|[v n] t IH]; intros HS Hc; auto. inversion HS as [|? ? HS' Hf]; subst. simpl.
  destruct (n =? c) eqn:E.
  - simpl. f_equal. apply IH; auto. intros p Hp; apply Hc; right; auto.
  - apply Nat.eqb_neq in E. assert (n < c) by (specialize (Hc (v, n) (or_introl eq_refl)); simpl in Hc; lia).
    assert (Hno : filter (fun p => snd p =? c) t = []); [|rewrite Hno; auto].
    rewrite Forall_forall in Hf. clear - Hf H. induction t as [|p t IH]; auto. simpl.
    assert (Hp := Hf p (or_introl eq_refl)). unfold byCount in Hp. simpl in Hp. apply Nat.leb_le in Hp.
    replace (snd p =? c) with false by (symmetry; apply Nat.eqb_neq; lia). apply IH. intros x Hx; apply Hf; right; auto.
Qed.
Lemma NoDup_map_fst_filter {B} (p : V * B -> bool) l : NoDup (map fst l) -> NoDup (map fst (filter p l)).
Proof.
  induction l as [|x t IH]; simpl; intros Hn; auto. inversion Hn as [|? ? Hni Hn']; subst. destruct (p x); simpl; auto.
  constructor; auto. intros C. apply Hni. apply in_map_iff in C as (y & E & Hy). apply filter_In in Hy as [Hy _].
  rewrite <- E. apply in_map; auto.
Qed.
Lemma center_half n : 0 < n -> (if n mod 2 =? 0 then n / 2 - 1 else n / 2) = (n - 1) / 2.
Proof.
  intros Hn. pose proof (Nat.div_mod n 2 ltac:(lia)) as H. pose proof (Nat.mod_upper_bound n 2 ltac:(lia)).
  destruct (n mod 2) as [|[|k]] eqn:E; cbn [Nat.eqb]; [| |lia].
  - apply (Nat.div_unique _ _ _ 1); lia.
  - apply (Nat.div_unique _ _ _ 0); lia.
Qed.
Lemma modeOf_spec vals counter : counts vals counter -> vals <> [] ->
  exists v, modeOf leb counter = Ok v /\ isMode leb vals v.
Proof.
  intros [Hn Hc] Hne. unfold modeOf.
  assert (Hbt : forall x y : V * nat, byCount x y = true \/ byCount y x = true).
  { intros x y. unfold byCount. rewrite !Nat.leb_le. lia. }
  assert (Hbtr : forall x y z : V * nat, byCount x y = true -> byCount y z = true -> byCount x z = true).
  { intros x y z. unfold byCount. rewrite !Nat.leb_le. lia. }
  pose proof (stableSort_le byCount counter Hbt Hbtr) as HS. pose proof (stableSort_perm byCount counter) as HP.
  set (sorted := stableSort byCount counter) in *. clearbody sorted.
  destruct sorted as [|[first c] rest].
  { exfalso. destruct vals as [|x vals]; [congruence|]. apply Permutation_nil in HP. subst counter.
    destruct (proj2 (Hc x (count_occ eq_dec (x :: vals) x))). split; auto. left; auto. }
  change (fix take (l : list (V * nat)) : list V :=
        match l with [] => [] | (v, cnt) :: t => if cnt =? c then v :: take t else [] end) with (takeEq c).
  inversion HS as [|? ? HS' Hf]; subst. rewrite Forall_forall in Hf.
  assert (Hmax : forall p, In p ((first, c) :: rest) -> snd p <= c).
  { intros p [<-|Hp]; auto. specialize (Hf p Hp). unfold byCount in Hf. apply Nat.leb_le in Hf. auto. }
  rewrite takeEq_spec by (auto; intros p Hp; apply Hmax; right; auto).
  set (modes := first :: map fst (filter (fun p => snd p =? c) rest)).
  assert (Em : modes = map fst (filter (fun p => snd p =? c) ((first, c) :: rest))).
  { simpl. rewrite Nat.eqb_refl. reflexivity. }
  assert (Hmem : forall x, In x modes <-> In x vals /\ forall y, count_occ eq_dec vals y <= count_occ eq_dec vals x).
  { intros x. rewrite Em, in_map_iff. split.
    - intros ([x' n] & E & Hin). simpl in E. subst x'. apply filter_In in Hin as [Hin E]. simpl in E. apply Nat.eqb_eq in E. subst n.
      eapply Permutation_in in Hin; [|exact HP]. apply Hc in Hin as [H1 H2]. split; auto. intros y. rewrite <- H2.
      destruct (in_dec eq_dec y vals) as [Hy|Hy].
      + assert (Hy' : In (y, count_occ eq_dec vals y) counter) by (apply Hc; auto).
        eapply Permutation_in in Hy'; [|apply Permutation_sym; exact HP]. apply Hmax in Hy'. auto.
      + apply (count_occ_not_In eq_dec) in Hy. lia.
    - intros [Hx Hge]. exists (x, c). split; auto. apply filter_In. cbn [snd]. rewrite Nat.eqb_refl. split; auto.
      assert (Hx' : In (x, count_occ eq_dec vals x) counter) by (apply Hc; auto).
      assert (Hf' : In (first, c) counter) by (eapply Permutation_in; [exact HP|left; auto]).
      apply Hc in Hf' as [_ Ec]. eapply Permutation_in in Hx'; [|apply Permutation_sym; exact HP].
      pose proof (Hmax _ Hx') as L1. simpl in L1. specialize (Hge first). assert (E : count_occ eq_dec vals x = c) by lia.
      rewrite E in Hx'. auto. }
  assert (Hnd : NoDup modes).
  { rewrite Em. apply NoDup_map_fst_filter. eapply Permutation_NoDup; [apply Permutation_map, Permutation_sym, HP|exact Hn]. }
  pose proof (stableSort_perm leb modes) as HPm. pose proof (stableSort_le leb modes Htot Htr) as HSm.
  set (sm := stableSort leb modes) in *.
  assert (Hlen : List.length sm = List.length modes) by (apply Permutation_length; auto).
  assert (Hpos : 0 < List.length modes) by (unfold modes; simpl; lia).
  assert (Hspec : forall v, nth_error sm ((List.length modes - 1) / 2) = Some v -> isMode leb vals v).
  { intros v Hv. exists sm. split; [eapply Permutation_NoDup; [apply Permutation_sym, HPm|auto]|]. split; [|split; [|rewrite Hlen; auto]].
    - intros x. rewrite <- Hmem. split; apply Permutation_in; auto. apply Permutation_sym; auto.
    - intros a b x y Hab Ha Hb. eapply (StronglySorted_nth_lt _ _ HSm a b); eauto. }
  destruct (List.length modes =? 1) eqn:E1.
  - exists first. split; auto. apply Nat.eqb_eq in E1. apply Hspec. rewrite E1. simpl.
    assert (Es : modes = [first]). { unfold modes in E1 |- *. cbn [List.length] in E1. injection E1 as E1. apply length_zero_iff_nil in E1. rewrite E1. auto. }
    unfold sm. rewrite Es. reflexivity.
  - rewrite center_half by auto. destruct (nth_error sm ((List.length modes - 1) / 2)) as [v|] eqn:Ev.
    + exists v. split; auto.
    + exfalso. apply nth_error_None in Ev. rewrite Hlen in Ev.
      assert ((List.length modes - 1) / 2 <= List.length modes - 1) by (apply Nat.div_le_upper_bound; lia). lia.
Qed.
Lemma count_filter_pos (x : V) vals : count_occ eq_dec vals x = 0 <-> ~ In x vals.
Proof. symmetry. apply count_occ_not_In. Qed.
Lemma countVotes_counts (vals : list V) : counts vals (countVotes vals).
Proof. split; [apply countVotes_spec|]. intros x c. apply countVotes_In. Qed.
Lemma mode_dense l : present l <> [] -> exists v, modeDense leb l = Ok v /\ isMode leb (present l) v.
Proof. intros H. apply modeOf_spec; auto. apply countVotes_counts. Qed.
(** dense / sparse *)
Lemma present_perm (a b : list (option V)) : Permutation a b -> Permutation (present a) (present b).
Proof. apply flat_map_perm. Qed.
Lemma presentNonZero_clean l : (forall x, In x l -> x <> Some zero) -> presentNonZero zero l = present l.
Proof.
  intros H. unfold presentNonZero. induction l as [|[x|] t IH]; auto.
  - simpl. rewrite IH by (intros y Hy; apply H; right; auto). destruct (eqbd x zero) eqn:E; auto.
    apply eqbd_true in E. subst x. exfalso. apply (H (Some zero)); auto. left; auto.
  - simpl. apply IH. intros y Hy; apply H; right; auto.
Qed.
Lemma denseOfV_split len stored l : denseOfV zero len stored l ->
  Permutation (present l) (presentNonZero zero stored ++ repeat zero (len - List.length stored)) /\
  ~ In zero (presentNonZero zero stored) /\ List.length stored <= len.
Proof.
  intros [Hl Hp]. subst len.
  set (g := fun x : option V => eqbd x (Some zero)).
  change (fun x => negb (eqbd x (Some zero))) with (fun x => negb (g x)) in Hp.
  assert (HP : Permutation l (filter (fun x => negb (g x)) l ++ filter g l)) by (apply Permutation_sym, filter_partition).
  assert (Hz : filter g l = repeat (Some zero) (List.length l - List.length stored)).
  { assert (El : List.length l - List.length stored = List.length (filter g l)).
    { rewrite (Permutation_length Hp). pose proof (Permutation_length HP) as E. rewrite app_length in E. lia. }
    rewrite El. clear. induction l as [|x t IH]; simpl; auto. destruct (g x) eqn:E; simpl; auto. unfold g in E. apply eqbd_true in E. subst x. f_equal. auto. }
  assert (Hclean : presentNonZero zero stored = present stored).
  { apply presentNonZero_clean. intros x Hx. eapply Permutation_in in Hx; [|exact Hp]. apply filter_In in Hx as [_ Hx].
    intros ->. unfold g in Hx. rewrite eqbd_refl in Hx. discriminate. }
  split; [|split].
  - eapply Permutation_trans; [apply present_perm, HP|]. rewrite Hz. unfold present. rewrite flat_map_app. fold (present (filter (fun x => negb (g x)) l)).
    rewrite Hclean. apply Permutation_app; [apply present_perm, Permutation_sym, Hp|].
    match goal with |- Permutation (flat_map ?f ?r) _ => assert (E : flat_map f r = repeat zero (List.length l - List.length stored)) end.
    { clear. induction (List.length l - List.length stored); simpl; auto. f_equal. auto. }
    rewrite E. apply Permutation_refl.
  - intros C. unfold presentNonZero in C. apply filter_In in C as [_ C]. rewrite eqbd_refl in C. discriminate.
  - rewrite (Permutation_length Hp). apply filter_len_le.
Qed.
Lemma count_occ_repeat_other (x : V) n : x <> zero -> count_occ eq_dec (repeat zero n) x = 0.
Proof. intros H. apply count_occ_not_In. intros C. apply repeat_spec in C. congruence. Qed.
Lemma count_occ_repeat_same n : count_occ eq_dec (repeat zero n) zero = n.
Proof. induction n; simpl; auto. destruct (eq_dec zero zero); [f_equal; auto|congruence]. Qed.
Lemma count_perm (a b : list V) x : Permutation a b -> count_occ eq_dec a x = count_occ eq_dec b x.
Proof. intros H. revert x. apply (Permutation_count_occ eq_dec); auto. Qed.
Lemma modeSparse_counts len stored l : denseOfV zero len stored l ->
  exists counter, modeSparse zero leb len stored = modeOf leb counter /\ counts (present l) counter.
Proof.
  intros H. destruct (denseOfV_split _ _ _ H) as (HP & Hno & Hle). unfold modeSparse.
  destruct (countVotes_spec (presentNonZero zero stored)) as [Hw Hg].
  assert (Hz : dget zero (countVotes (presentNonZero zero stored)) = None).
  { rewrite Hg. apply (count_occ_not_In eq_dec) in Hno. rewrite Hno. reflexivity. }
  eexists. split; [reflexivity|]. rewrite Hz. destruct (len - List.length stored =? 0) eqn:E.
  - apply Nat.eqb_eq in E. rewrite E in HP. simpl in HP. rewrite app_nil_r in HP. split; [apply Hw|].
    intros x c. rewrite countVotes_In. rewrite (count_perm _ _ x HP). split; intros [H1 H2]; split; auto.
    + eapply Permutation_in; [apply Permutation_sym, HP|auto].
    + eapply Permutation_in; [apply HP|auto].
  - apply Nat.eqb_neq in E. rewrite dset_new by (apply dget_None; auto). split.
    + rewrite map_app. apply NoDup_app_intro; [apply Hw|simpl; constructor; [auto|constructor]|].
      intros x Hx [<-|[]]. apply in_map_iff in Hx as ([y c] & Ey & Hy). simpl in Ey. subst y. apply countVotes_In in Hy as [Hy _]. contradiction.
    + intros x c. rewrite in_app_iff, countVotes_In, (count_perm _ _ x HP), count_occ_app.
      assert (Hin : In x (present l) <-> In x (presentNonZero zero stored) \/ x = zero).
      { split.
        - intros Hx. eapply Permutation_in in Hx; [|exact HP]. apply in_app_iff in Hx as [Hx|Hx]; auto. apply repeat_spec in Hx; auto.
        - intros Hx. eapply Permutation_in; [apply Permutation_sym, HP|]. apply in_app_iff. destruct Hx as [Hx| ->]; auto. right.
          destruct (len - List.length stored); [congruence|left; auto]. }
      rewrite Hin. split.
      * intros [[H1 H2]|[[= <- <-]|[]]].
        -- split; auto. rewrite count_occ_repeat_other by (intros ->; contradiction). lia.
        -- split; auto. rewrite count_occ_repeat_same. apply (count_occ_not_In eq_dec) in Hno. lia.
      * intros [[H1| ->] H2].
        -- left. split; auto. rewrite count_occ_repeat_other in H2 by (intros ->; contradiction). lia.
        -- right. left. rewrite count_occ_repeat_same in H2. apply (count_occ_not_In eq_dec) in Hno. f_equal. lia.
Qed.
Lemma mode_sparse len stored l : denseOfV zero len stored l -> present l <> [] ->
  exists v, modeSparse zero leb len stored = Ok v /\ isMode leb (present l) v.
Proof. intros H Hne. destruct (modeSparse_counts _ _ _ H) as (counter & -> & Hc). apply modeOf_spec; auto. Qed.
Lemma isMode_unique (Hanti : forall x y, leb x y = true -> leb y x = true -> x = y) vals v w : isMode leb vals v -> isMode leb vals w -> v = w.
Proof.
  intros (m1 & N1 & M1 & S1 & E1) (m2 & N2 & M2 & S2 & E2).
  assert (H : m1 = m2); [|subst m2; congruence].
  assert (HP : Permutation m1 m2).
  { apply NoDup_Permutation; auto. intros x. rewrite M1, M2. tauto. }
  apply pairwise_sorted in S1. apply pairwise_sorted in S2. clear - HP S1 S2 Hanti.
  revert m2 HP S2; induction m1 as [|a t IH]; intros m2 HP S2; [symmetry; apply Permutation_nil; auto|].
  destruct m2 as [|b t2]; [apply Permutation_sym, Permutation_nil in HP; discriminate|].
  inversion S1 as [|? ? S1' F1]; subst. inversion S2 as [|? ? S2' F2]; subst. rewrite Forall_forall in F1, F2.
  assert (Eab : a = b).
  { assert (Ha : In a (b :: t2)) by (eapply Permutation_in; [exact HP|left; auto]).
    assert (Hb : In b (a :: t)) by (eapply Permutation_in; [apply Permutation_sym, HP|left; auto]).
    destruct Ha as [->|Ha]; auto. destruct Hb as [->|Hb]; auto. }
  subst b. f_equal. apply IH; auto. eapply Permutation_cons_inv; eauto.
Qed.
(** uniqueCount *)
Lemma nodup_len_ext (a b : list V) : (forall x, In x a <-> In x b) -> List.length (nodup eq_dec a) = List.length (nodup eq_dec b).
Proof.
  intros H. apply Permutation_length, NoDup_Permutation; try apply NoDup_nodup. intros x. rewrite !nodup_In. apply H.
Qed.
Lemma unique_sparse len stored l : denseOfV zero len stored l -> uniqueCountSparse zero len stored = uniqueCountDense l.
Proof.
  intros H. destruct (denseOfV_split _ _ _ H) as (HP & Hno & Hle). unfold uniqueCountSparse, uniqueCountDense.
  assert (Hin : forall x, In x (present l) <-> In x (presentNonZero zero stored ++ repeat zero (len - List.length stored))).
  { intros x; split; apply Permutation_in; auto. apply Permutation_sym; auto. }
  destruct (List.length stored <? len) eqn:E.
  - apply Nat.ltb_lt in E. destruct (mem zero (nodup eq_dec (presentNonZero zero stored))) eqn:Em.
    + apply mem_In, nodup_In in Em. contradiction.
    + assert (Hn : NoDup (nodup eq_dec (presentNonZero zero stored) ++ [zero])).
      { apply NoDup_app_intro; [apply NoDup_nodup|constructor; [auto|constructor]|]. intros x Hx [<-|[]]. apply nodup_In in Hx. contradiction. }
      apply Permutation_length, NoDup_Permutation; auto; [apply NoDup_nodup|]. intros x. rewrite nodup_In, Hin, !in_app_iff, nodup_In.
      split; intros [Hx|Hx]; auto; right.
      * destruct Hx as [<-|[]]. destruct (len - List.length stored) eqn:En; [lia|left; auto].
      * apply repeat_spec in Hx. left; auto.
  - apply Nat.ltb_ge in E. replace (len - List.length stored) with 0 in Hin by lia. simpl in Hin. apply nodup_len_ext. intros x. rewrite Hin, app_nil_r. tauto.
Qed.
End Mode.
