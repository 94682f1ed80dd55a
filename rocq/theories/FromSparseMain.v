(** Objects made from scipy sparse matrices (C77): names and elements. *)
From Verif Require Import Base NamesModel NamesSpec NamesProofs TableModel TableSpec TableOps MatchModel MatchSpec MatchProofs GetSpec CsvModel RawModel RawSpec RawProofs SparseModel SparseSpec SparseProofs ReshapeModel SparseReshapeModel SparseReshapeProofs FromSparseModel FromSparseSpec FromSparseDup FromSparseNames.
From Verif Require TableProofs MultiProofs.
From Coq Require Import QArith List. Import ListNotations.
Open Scope nat_scope.
Local Notation val := (SparseSpec.val (PInt 0)).

(** ** positions without an entry *)
Lemma filter_sum {A} (P : A -> bool) l : List.length (filter P l) + List.length (filter (fun x => negb (P x)) l) = List.length l.
Proof. induction l as [|x l IH]; [reflexivity|]. cbn [filter]. destruct (P x); cbn [negb List.length]; lia. Qed.
Lemma absent_length (l : list nat) n : NoDup l -> (forall i, In i l -> i < n) ->
  List.length (filter (fun i => negb (mem i l)) (seq 0 n)) + List.length l = n.
Proof.
  intros N H. pose proof (filter_sum (fun i => mem i l) (seq 0 n)) as S. rewrite seq_length in S.
  assert (P : Permutation (filter (fun i => mem i l) (seq 0 n)) l).
  { apply NoDup_Permutation; [apply NoDup_filter, seq_NoDup|exact N|]. intros i. rewrite filter_In, mem_In, in_seq. split; [tauto|]. intros I. specialize (H i I). split; [lia|exact I]. }
  apply Permutation_length in P. lia.
Qed.
Lemma absent_In l n i : In i (filter (fun i => negb (mem i l)) (seq 0 n)) <-> i < n /\ ~ In i l.
Proof. rewrite filter_In, in_seq, negb_true_iff, mem_not_In. intuition lia. Qed.

Section Main.
Variable strOf : pval -> string.
Hypothesis zero_name : strOf (PInt 0) = "0"%string.

(** ** the names of a header line *)
(** [ps] gives each position below [n] the name of its cell *)
Definition Names (n : nat) (h : nat -> pval) (ps : list (string * nat)) : Prop :=
  NoDup (map snd ps) /\ List.length ps = n /\ (forall p, In p ps -> snd p < n /\ fst p = strOf (h (snd p))).
Definition Stored (n : nat) (h : nat -> pval) (ps : list (string * nat)) : Prop :=
  NoDup (map snd ps) /\ (forall p, In p ps -> snd p < n /\ fst p = strOf (h (snd p))) /\ forall i, i < n -> ~ In i (map snd ps) -> h i = PInt 0.
Definition twoZeros (n : nat) (h : nat -> pval) : Prop := exists i i', i < n /\ i' < n /\ i <> i' /\ h i = PInt 0 /\ h i' = PInt 0.

Lemma complete n h ps : Stored n h ps ->
  if List.length ps <? n then
    match filter (fun i => negb (mem i (map snd ps))) (seq 0 n) with
    | i :: [] => Names n h (ps ++ [("0"%string, i)])
    | [] => False
    | _ => twoZeros n h
    end
  else Names n h ps.
Proof.
  intros [N [H Z]]. assert (B : forall i, In i (map snd ps) -> i < n) by (intros i I; apply in_map_iff in I; destruct I as [p [<- I]]; apply H; exact I).
  pose proof (absent_length (map snd ps) n N B) as L. rewrite map_length in L. set (missing := filter (fun i => negb (mem i (map snd ps))) (seq 0 n)) in *.
  assert (M : forall i, In i missing <-> i < n /\ ~ In i (map snd ps)) by (intros i; apply absent_In).
  assert (Nm : NoDup missing) by (apply NoDup_filter, seq_NoDup).
  destruct (Nat.ltb_spec (List.length ps) n) as [E|E].
  - destruct missing as [|i [|i' r]]; [cbn in L; lia| |].
    + destruct (proj1 (M i) (or_introl eq_refl)) as [I1 I2]. split; [|split].
      * rewrite map_app. cbn [map snd]. apply Permutation_NoDup with (l := i :: map snd ps); [apply Permutation_cons_append|constructor; auto].
      * rewrite app_length. cbn in L |- *. lia.
      * intros p I. apply in_app_iff in I. destruct I as [I|[<-|[]]]; [apply H; exact I|]. cbn [fst snd]. split; auto. rewrite (Z i I1 I2). symmetry. exact zero_name.
    + destruct (proj1 (M i) (or_introl eq_refl)) as [I1 I2]. destruct (proj1 (M i') (or_intror (or_introl eq_refl))) as [J1 J2].
      exists i, i'. repeat split; auto. intros ->. apply NoDup_cons_iff in Nm. destruct Nm as [Nm _]. apply Nm. left. reflexivity.
  - split; auto. split; [lia|exact H].
Qed.

(** the axis *)
Lemma Names_distinct n h ps header : Names n h ps -> (forall i, i < n -> header i = Some (h i)) ->
  let L := map (fun i => option_map strOf (header i)) (seq 0 n) in
  (NoDup (map fst ps) <-> NamesFit L n) /\ (forall p, In p ps -> nth_error L (snd p) = Some (Some (fst p))).
Proof.
  intros [N [E H]] Hh L.
  assert (Ln : forall i, i < n -> nth_error L i = Some (Some (strOf (h i)))).
  { intros i I. unfold L. rewrite nth_error_map_eq, nth_error_seq. destruct (Nat.ltb_spec i n) as [_|X]; [|lia]. cbn [option_map Nat.add]. rewrite (Hh i I). reflexivity. }
  assert (Lp : forall p, In p ps -> nth_error L (snd p) = Some (Some (fst p))) by (intros p I; destruct (H p I) as [A B]; rewrite (Ln _ A), B; reflexivity).
  assert (Cov : forall i, i < n -> exists p, In p ps /\ snd p = i).
  { intros i I. assert (J : In i (map snd ps)).
    { apply (below_full _ n); auto; [intros x X; apply in_map_iff in X; destruct X as [p [<- X]]; apply H; exact X|rewrite map_length; exact E]. }
    apply in_map_iff in J. destruct J as [p [<- J]]. eauto. }
  assert (LL : List.length L = n) by (unfold L; rewrite map_length, seq_length; reflexivity).
  split; [|exact Lp]. split.
  - intros D. split; [exact LL|]. intros i j x Ei Ej. pose proof (nth_error_lt _ _ Ei) as Li. pose proof (nth_error_lt _ _ Ej) as Lj. rewrite LL in Li, Lj.
    destruct (Cov i Li) as [p [Ip <-]]. destruct (Cov j Lj) as [q [Iq <-]]. rewrite (Lp p Ip) in Ei. rewrite (Lp q Iq) in Ej. injection Ei as Ei. injection Ej as Ej.
    f_equal. apply In_nth_error in Ip, Iq. destruct Ip as [a Ip]. destruct Iq as [b Iq]. assert (a = b).
    { apply (proj1 (NoDup_nth_error (map fst ps)) D); [apply nth_error_lt with (x := fst p); rewrite nth_error_map_eq, Ip; reflexivity|]. rewrite !nth_error_map_eq, Ip, Iq. cbn. congruence. }
    subst b. congruence.
  - intros [_ D]. apply NoDup_nth_error. intros a b La Eab. rewrite map_length in La. destruct (nth_error_is_some ps (i := a) La) as [p P].
    rewrite !nth_error_map_eq, P in Eab. cbn [option_map] in Eab. destruct (nth_error ps b) as [q|] eqn:Q; [|discriminate]. cbn [option_map] in Eab. injection Eab as Eab.
    assert (X : snd p = snd q) by (apply (D _ _ (fst p)); [apply Lp; eapply nth_error_In; eauto|rewrite Eab; apply Lp; eapply nth_error_In; eauto]).
    apply (proj1 (NoDup_nth_error (map snd ps)) N); [rewrite map_length; exact La|]. rewrite !nth_error_map_eq, P, Q. cbn. congruence.
Qed.
Lemma dict_axis_spec n h ps header : Names n h ps -> (forall i, i < n -> header i = Some (h i)) ->
  let L := map (fun i => option_map strOf (header i)) (seq 0 n) in
  match newAxis n (GDict (fill ps)) with
  | Ok a => NamesFit L n /\ Inv a /\ alen a = n /\ getNames a = L
  | Err e => ~ NamesFit L n /\ e = InvalidArgumentValue
  end.
Proof.
  intros Nm Hh L. destruct (Names_distinct n h ps header Nm Hh) as [D G]. fold L in D, G. destruct Nm as [N [E H]].
  pose proof (dict_axis n ps N (fun p I => proj1 (H p I))) as X. destruct (newAxis n (GDict (fill ps))) as [a|e].
  - destruct X as [I [A [_ [Nf Gn]]]]. split; [apply D; exact Nf|]. split; auto. split; auto.
    assert (LL : List.length L = n) by (unfold L; rewrite map_length, seq_length; reflexivity).
    apply nth_error_ext_len; [rewrite TableProofs.getNames_length; auto; lia|]. intros i Li. rewrite TableProofs.getNames_length, A in Li by exact I.
    assert (J : In i (map snd ps)) by (apply (below_full _ n); auto; [intros x Xi; apply in_map_iff in Xi; destruct Xi as [p [<- Xi]]; apply H; exact Xi|rewrite map_length; exact E]).
    apply in_map_iff in J. destruct J as [p [<- J]]. rewrite (Gn p J), (G p J). reflexivity.
  - destruct X as [-> X]. split; auto. intros F. apply X. split; auto. apply D. exact F.
Qed.
Lemma twoZeros_unfit n h header : twoZeros n h -> (forall i, i < n -> header i = Some (h i)) -> ~ NamesFit (map (fun i => option_map strOf (header i)) (seq 0 n)) n.
Proof.
  intros [i [i' [I [I' [N [Z Z']]]]]] Hh [_ D]. apply N. apply (D i i' (strOf (PInt 0))).
  - rewrite nth_error_map_eq, nth_error_seq. destruct (Nat.ltb_spec i n) as [_|X]; [|lia]. cbn [option_map Nat.add]. rewrite (Hh i I), Z. reflexivity.
  - rewrite nth_error_map_eq, nth_error_seq. destruct (Nat.ltb_spec i' n) as [_|X]; [|lia]. cbn [option_map Nat.add]. rewrite (Hh i' I'), Z'. reflexivity.
Qed.

(** ** the dict of the points, of the features *)
Lemma swap_fill (l : list (nat * string)) z : (forall p, In p l -> (z <= Z.of_nat (fst p))%Z) ->
  swapDict l z = fill (map (fun p => (snd p, Z.to_nat (Z.of_nat (fst p) - z))) l).
Proof.
  intros H. unfold swapDict, fill. generalize (@nil (string * Z)) as acc. induction l as [|p l IH]; intros acc; [reflexivity|]. cbn [fold_left map fst snd].
  rewrite Z2Nat.id by (specialize (H p (or_introl eq_refl)); lia). apply IH. intros q Q. apply H. right. exact Q.
Qed.
Lemma fill_app ps s i : fill (ps ++ [(s, i)]) = dset s (Z.of_nat i) (fill ps).
Proof. unfold fill. rewrite fold_left_app. reflexivity. Qed.

Section Header.
Variable l : list (entry pval).
Variables n k : nat.
Hypothesis N : NoDup (map pos l).
Hypothesis R : forall e, In e l -> er e < n /\ ec e < k.
Let s := mkSp n k l None None.

Lemma header_nodup sd : NoDup (map (prim sd) (filter (fun e => offp sd e =? 0) l)).
Proof.
  clear R. induction l as [|e t IH]; [constructor|]. cbn [map] in N. apply NoDup_cons_iff in N. destruct N as [N1 N2]. cbn [filter]. destruct (Nat.eqb_spec (offp sd e) 0) as [E|_]; auto.
  cbn [map]. constructor; auto. intros X. apply N1. apply in_map_iff in X. destruct X as [y [P I]]. apply filter_In in I. destruct I as [I O]. apply Nat.eqb_eq in O.
  apply in_map_iff. exists y. split; auto. unfold pos. destruct sd; cbn in *; congruence.
Qed.
Lemma header_val sd e : In e l -> offp sd e = 0 -> ev e = match sd with Pts => val s (prim sd e) 0 | Fts => val s 0 (prim sd e) end.
Proof. intros I O. pose proof (ents_val s e N I) as V. destruct sd; cbn in O |- *; rewrite V; cbn; rewrite O; reflexivity. Qed.
Lemma header_zero sd i : ~ In i (map (prim sd) (filter (fun e => offp sd e =? 0) l)) -> match sd with Pts => val s i 0 | Fts => val s 0 i end = PInt 0.
Proof.
  intros H. destruct (isZero_dec (match sd with Pts => val s i 0 | Fts => val s 0 i end)) as [E|E]; auto. exfalso. apply H.
  destruct sd; apply val_stored in E; cbn [ents s] in E; apply in_map_iff; eexists; (split; [|apply filter_In; split; [exact E|]]); reflexivity.
Qed.
Definition line (sd : side) : list (string * nat) := map (fun e => (strOf (ev e), prim sd e)) (filter (fun e => offp sd e =? 0) l).
Definition cellOn (sd : side) (i : nat) : pval := match sd with Pts => val s i 0 | Fts => val s 0 i end.
Lemma line_stored sd : Stored (match sd with Pts => n | Fts => k end) (cellOn sd) (line sd).
Proof.
  assert (Ms : map snd (line sd) = map (prim sd) (filter (fun e => offp sd e =? 0) l)) by (unfold line; rewrite map_map; reflexivity).
  split; [rewrite Ms; apply header_nodup|]. split.
  - intros p I. unfold line in I. apply in_map_iff in I. destruct I as [e [<- I]]. apply filter_In in I. destruct I as [I O]. apply Nat.eqb_eq in O. cbn [fst snd]. split.
    + destruct (R e I). destruct sd; assumption.
    + rewrite (header_val sd e I O). reflexivity.
  - intros i _ H. apply header_zero. rewrite <- Ms. exact H.
Qed.
(** both names: the first name is that of the corner *)
Lemma points_only : match pointDict strOf s false with
  | Ok d => exists ps, d = fill ps /\ Names n (cellOn Pts) ps
  | Err e => e = InvalidArgumentValue /\ twoZeros n (cellOn Pts)
  end.
Proof.
  pose proof (line_stored Pts) as S. pose proof (complete _ _ _ S) as C. cbn beta iota in C. unfold pointDict. cbn [negb snp ents s].
  assert (I : fold_left (fun acc e => dset (er e) (strOf (ev e)) acc) (filter (fun e : entry pval => ec e =? 0) l) [] = map (fun e => (er e, strOf (ev e))) (filter (fun e : entry pval => ec e =? 0) l)).
  { transitivity (fold_left (fun (acc : dict nat string) p => dset (fst p) (snd p) acc) (map (fun e => (er e, strOf (ev e))) (filter (fun e : entry pval => ec e =? 0) l)) []).
    - generalize (@nil (nat * string)) as acc. induction (filter (fun e : entry pval => ec e =? 0) l) as [|e t IH]; intros acc; [reflexivity|]. cbn [map fold_left]. apply IH.
    - apply MultiProofs.fold_dset_fresh; [|intros x _ []]. rewrite map_map. exact (header_nodup Pts). }
  rewrite I. set (idx := map (fun e => (er e, strOf (ev e))) (filter (fun e : entry pval => ec e =? 0) l)) in *.
  assert (Li : List.length idx = List.length (line Pts)) by (unfold idx, line; rewrite !map_length; reflexivity).
  assert (Ki : map fst idx = map snd (line Pts)) by (unfold idx, line; rewrite !map_map; reflexivity).
  assert (Si : swapDict idx 0 = fill (line Pts)).
  { rewrite swap_fill by (intros; lia). f_equal. unfold idx, line. rewrite map_map. apply map_ext. intros e. cbn [fst snd]. rewrite Z.sub_0_r, Nat2Z.id. reflexivity. }
  rewrite Li, Ki, Si. destruct (List.length (line Pts) <? n); [|eexists; split; [reflexivity|exact C]].
  destruct (filter (fun i => negb (mem i (map snd (line Pts)))) (seq 0 n)) as [|i [|i' r]]; [contradiction| |split; auto].
  eexists. split; [|exact C]. rewrite fill_app. reflexivity.
Qed.
Lemma points_both : (forall i, i < n -> 1 <= i -> cellOn Pts i <> PInt 0) -> 1 <= n ->
  exists ps, pointDict strOf s true = Ok (fill ps) /\ Names (n - 1) (fun i => cellOn Pts (S i)) ps.
Proof.
  intros Z P. pose proof (line_stored Pts) as [S1 [S2 S3]]. unfold pointDict. cbn [negb snp ents s].
  assert (I : fold_left (fun acc e => dset (er e) (strOf (ev e)) acc) (filter (fun e : entry pval => ec e =? 0) l) [] = map (fun e => (er e, strOf (ev e))) (filter (fun e : entry pval => ec e =? 0) l)).
  { transitivity (fold_left (fun (acc : dict nat string) p => dset (fst p) (snd p) acc) (map (fun e => (er e, strOf (ev e))) (filter (fun e : entry pval => ec e =? 0) l)) []).
    - generalize (@nil (nat * string)) as acc. induction (filter (fun e : entry pval => ec e =? 0) l) as [|e t IH]; intros acc; [reflexivity|]. cbn [map fold_left]. apply IH.
    - apply MultiProofs.fold_dset_fresh; [|intros x _ []]. rewrite map_map. exact (header_nodup Pts). }
  rewrite I. set (idx := map (fun e => (er e, strOf (ev e))) (filter (fun e : entry pval => ec e =? 0) l)) in *.
  assert (Ki : map fst idx = map snd (line Pts)) by (unfold idx, line; rewrite !map_map; reflexivity).
  assert (Sw : forall p, In p idx <-> In (snd p, fst p) (line Pts)).
  { intros [a b]. unfold idx, line. rewrite !in_map_iff. cbn [fst snd]. split; intros [e [E J]]; exists e; (split; [|exact J]); injection E as E1 E2; cbn [prim] in *; congruence. }
  assert (Dl : forall d : list (nat * string), NoDup (map fst d) -> (forall p, In p (ddel 0 d) <-> In p d /\ fst p <> 0) /\ NoDup (map fst (ddel 0 d))).
  { clear. induction d as [|[a b] d IH]; intros N; [split; [intros p; cbn; tauto|constructor]|]. cbn [map fst] in N. apply NoDup_cons_iff in N. destruct N as [N1 N2]. destruct (IH N2) as [A B]. cbn [ddel].
    destruct (eq_dec 0 a) as [<-|Na].
    - split; auto. intros p. cbn [In]. split; [intros J; split; [auto|]|].
      + intros X. apply N1. apply in_map_iff. exists p. auto.
      + intros [[<-|J] X]; [cbn in X; congruence|exact J].
    - split.
      + intros p. cbn [In]. rewrite A. split; [intros [<-|J]; [split; [auto|cbn; congruence]|tauto]|tauto].
      + cbn [map fst]. constructor; auto. intros X. apply N1. apply in_map_iff in X. destruct X as [q [E J]]. apply A in J. apply in_map_iff. exists q. tauto. }
  destruct (Dl idx) as [D1 D2]; [rewrite Ki; exact S1|]. set (kept := ddel 0 idx) in *.
  exists (map (fun p => (snd p, Z.to_nat (Z.of_nat (fst p) - 1))) kept). split; [rewrite swap_fill; [reflexivity|]; intros p J; apply D1 in J; lia|].
  assert (Ms : map snd (map (fun p : nat * string => (snd p, Z.to_nat (Z.of_nat (fst p) - 1))) kept) = map (fun i => i - 1) (map fst kept)).
  { rewrite !map_map. apply map_ext. intros p. cbn [snd]. lia. }
  assert (Ge : forall i, In i (map fst kept) -> 1 <= i /\ i < n).
  { intros i J. apply in_map_iff in J. destruct J as [p [<- J]]. apply D1 in J. destruct J as [J X]. split; [lia|]. apply Sw in J. apply S2 in J. apply J. }
  assert (Nd : NoDup (map (fun i => i - 1) (map fst kept))).
  { clear - D2 Ge. induction (map fst kept) as [|i t IH]; [constructor|]. apply NoDup_cons_iff in D2. destruct D2 as [D1 D2]. cbn [map]. constructor; [|apply IH; auto; intros; apply Ge; right; auto].
    intros X. apply in_map_iff in X. destruct X as [j [E J]]. pose proof (Ge i (or_introl eq_refl)). pose proof (Ge j (or_intror J)). assert (i = j) by lia. subst. auto. }
  split; [rewrite Ms; exact Nd|]. split.
  - rewrite map_length. rewrite <- (map_length fst kept), <- (map_length (fun i => i - 1)).
    apply Nat.le_antisymm.
    + apply below_length; auto. intros i J. apply in_map_iff in J. destruct J as [j [<- J]]. specialize (Ge j J). lia.
    + rewrite <- (seq_length (n - 1) 0). apply NoDup_incl_length; [apply seq_NoDup|]. intros i J. apply in_seq in J. apply in_map_iff. exists (S i). split; [lia|].
      assert (In (S i) (map snd (line Pts))) as K.
      { destruct (in_dec Nat.eq_dec (S i) (map snd (line Pts))) as [K|K]; auto. exfalso. apply (Z (S i)); [lia|lia|]. apply S3; [lia|exact K]. }
      apply in_map_iff in K. destruct K as [[a b] [E K]]. cbn [snd] in E. subst b. apply in_map_iff. exists (S i, a). split; auto. apply D1. split; [apply Sw; exact K|cbn; congruence].
  - intros p J. apply in_map_iff in J. destruct J as [[i x] [<- J]]. cbn [fst snd]. apply D1 in J. destruct J as [J X]. cbn [fst] in X. apply Sw in J. cbn [fst snd] in J. destruct (S2 _ J) as [A B]. cbn [fst snd] in A, B.
    split; [lia|]. replace (S (Z.to_nat (Z.of_nat i - 1))) with i by lia. exact B.
Qed.
Lemma features_dict : HeaderDistinct strOf k (fun j => Some (cellOn Fts j)) -> (forall e, In e l -> ev e <> PInt 0) ->
  match featureDict strOf l (Z.of_nat k) with
  | Ok d => exists ps, d = fill ps /\ Names k (cellOn Fts) ps
  | Err e => e = InvalidArgumentValue /\ twoZeros k (cellOn Fts)
  end.
Proof.
  intros G NZ. pose proof (line_stored Fts) as S. pose proof (complete _ _ _ S) as C. cbn beta iota in C. unfold featureDict.
  assert (F : fold_left (fun acc e => dset (strOf (ev e)) (Z.of_nat (ec e)) acc) (filter (fun e : entry pval => er e =? 0) l) [] = fill (line Fts)).
  { unfold fill, line. cbn [prim offp]. generalize (@nil (string * Z)) as acc. induction (filter (fun e : entry pval => er e =? 0) l) as [|e t IH]; intros acc; [reflexivity|]. cbn [map fold_left]. apply IH. }
  rewrite F. assert (Nf : NoDup (map fst (line Fts))).
  { destruct S as [S1 [S2 S3]]. apply NoDup_nth_error. intros a b La E. rewrite map_length in La. destruct (nth_error_is_some (line Fts) (i := a) La) as [p P].
    rewrite !nth_error_map_eq, P in E. cbn [option_map] in E. destruct (nth_error (line Fts) b) as [q|] eqn:Q; [|discriminate]. cbn [option_map] in E. injection E as E.
    assert (nz : forall x, In x (line Fts) -> cellOn Fts (snd x) <> PInt 0).
    { intros x I X. unfold line in I. apply in_map_iff in I. destruct I as [e [<- I]]. apply filter_In in I. destruct I as [I O]. apply Nat.eqb_eq in O. cbn [snd] in X. apply (NZ e I). rewrite (header_val Fts e I O). exact X. }
    apply nth_error_In in P as Ip. apply nth_error_In in Q as Iq. destruct (S2 p Ip) as [A1 A2]. destruct (S2 q Iq) as [B1 B2].
    assert (X : snd p = snd q) by (apply (G (snd p) (snd q) _ _ A1 B1 eq_refl eq_refl); [apply nz; exact Ip|apply nz; exact Iq|congruence]).
    apply (proj1 (NoDup_nth_error (map snd (line Fts))) S1); [rewrite map_length; exact La|]. rewrite !nth_error_map_eq, P, Q. cbn. congruence. }
  rewrite fill_nodup by exact Nf. rewrite map_length.
  replace (Z.of_nat (List.length (line Fts)) <? Z.of_nat k)%Z with (List.length (line Fts) <? k) by (destruct (Nat.ltb_spec (List.length (line Fts)) k), (Z.ltb_spec (Z.of_nat (List.length (line Fts))) (Z.of_nat k)); lia).
  rewrite Nat2Z.id. destruct (List.length (line Fts) <? k); [|exists (line Fts); split; [symmetry; apply fill_nodup; exact Nf|exact C]].
  assert (M : filter (fun j => negb (mem (Z.of_nat j) (map snd (map zp (line Fts))))) (seq 0 k) = filter (fun i => negb (mem i (map snd (line Fts)))) (seq 0 k)).
  { apply filter_ext. intros j. f_equal. rewrite map_map. cbn [zp snd]. apply eq_true_iff_eq. rewrite !mem_In, !in_map_iff. split; intros [p [E I]]; exists p; (split; [lia|exact I]). }
  rewrite M. destruct (filter (fun i => negb (mem i (map snd (line Fts)))) (seq 0 k)) as [|i [|i' r]]; [contradiction| |split; auto].
  eexists. split; [|exact C]. rewrite fill_app, fill_nodup by exact Nf. reflexivity.
Qed.
End Header.
End Main.
