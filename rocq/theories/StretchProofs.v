(** Proofs about stretched objects (C57): names and broadcasting. *)
From Coq Require Import DecimalString.
From Verif Require Import Base NamesModel NamesSpec NamesProofs TableModel TableSpec TableProofs TableOps TableOpsProofs MatchModel MatchSpec MatchProofs
  ElementsModel ElementsSpec ElementsCalcProofs BinOpModel BinOpSpec BinOpProofs BinOpMainProofs ReshapeModel StretchModel StretchSpec.
Open Scope nat_scope.

Lemma longer_max a b : longer a b = Nat.max (alen a) (alen b).
Proof. unfold longer. destruct (alen a <? alen b) eqn:E; [apply Nat.ltb_lt in E|apply Nat.ltb_ge in E]; lia. Qed.

(** ** names *)
Lemma allDefault_spec a : Inv a -> (allDefaultNames a = true <-> ~ Named (getNames a)).
Proof.
  intros HI. destruct a as [n [[d l]|]]; cbn -[Inv] in *.
  - destruct HI as (HL & Hw & H). split.
    + intros Hd [s Hs]. unfold allDefaultNames, names_dict in Hd. cbn in Hd. destruct d; [|discriminate]. apply In_nth_error in Hs as [i Hi]. apply H in Hi. discriminate.
    + intros HN. unfold allDefaultNames, names_dict. cbn. destruct d as [|[s i] d]; [reflexivity|]. exfalso. apply HN.
      exists s. apply (nth_error_In l i). apply H. cbn [dget]. destruct (eq_dec s s); [reflexivity|contradiction].
  - split; [|reflexivity]. intros _ [s Hs]. cbn in Hs. apply repeat_spec in Hs. discriminate.
Qed.
Lemma getNames_len a : Inv a -> List.length (getNames a) = alen a.
Proof. intros HI. destruct a as [n [[d l]|]]; cbn in *; [apply HI|apply repeat_length]. Qed.
Lemma named_dec l : Named l \/ ~ Named l.
Proof.
  induction l as [|[s|] l IH]; [right; intros [s []]|left; exists s; left; reflexivity|].
  destruct IH as [[s H]|H]; [left; exists s; right; exact H|right]. intros [s [E|Hs]]; [discriminate|]. apply H. exists s. exact Hs.
Qed.
Lemma notNamed_repeat l : ~ Named l -> l = repeat None (List.length l).
Proof.
  induction l as [|[s|] l IH]; intros H; [reflexivity|exfalso; apply H; exists s; left; reflexivity|].
  cbn. f_equal. apply IH. intros [s Hs]. apply H. exists s. right. exact Hs.
Qed.
Lemma named_single l : Named l -> List.length l = 1 -> exists s, l = [Some s].
Proof. destruct l as [|x [|? ?]]; try discriminate. intros [s [H|[]]] _. exists s. f_equal. exact H. Qed.
Lemma noGen_created a : namesCreated a = true -> getNamesNoGeneration a = Some (getNames a).
Proof. unfold getNamesNoGeneration. intros ->. reflexivity. Qed.
Lemma noGen_not a : namesCreated a = false -> getNamesNoGeneration a = None.
Proof. unfold getNamesNoGeneration. intros ->. reflexivity. Qed.
Lemma named_created a : Named (getNames a) -> namesCreated a = true.
Proof. destruct a as [n [[d l]|]]; cbn; [reflexivity|]. intros [s Hs]. apply repeat_spec in Hs. discriminate. Qed.
Lemma notCreated_names a : namesCreated a = false -> getNames a = repeat None (alen a).
Proof. destruct a as [n [[d l]|]]; cbn; [discriminate|reflexivity]. Qed.

Definition numbered (s : string) (n : nat) : list (option string) := map (fun i => Some (s ++ "_" ++ decimal (S i))%string) (seq 0 n).
Lemma sapp_inj_l s : forall a b : string, (s ++ a = s ++ b)%string -> a = b.
Proof. induction s as [|c s IH]; cbn; intros a b H; [exact H|]. injection H as H. exact (IH _ _ H). Qed.
Lemma numbered_distinct s n : Distinct (numbered s n).
Proof.
  intros i j x Hi Hj. unfold numbered in *. rewrite nth_error_map in Hi, Hj.
  destruct (nth_error (seq 0 n) i) as [a|] eqn:Ea; [|discriminate]. destruct (nth_error (seq 0 n) j) as [b|] eqn:Eb; [|discriminate]. cbn in Hi, Hj.
  pose proof (nth_error_lt _ _ Ea) as La. pose proof (nth_error_lt _ _ Eb) as Lb. rewrite seq_length in La, Lb.
  rewrite (nth_error_nth' _ 0) in Ea by (rewrite seq_length; lia). rewrite (nth_error_nth' _ 0) in Eb by (rewrite seq_length; lia). rewrite seq_nth in Ea by lia. rewrite seq_nth in Eb by lia. cbn in Ea, Eb. injection Ea as <-. injection Eb as <-.
  injection Hi as Hi. injection Hj as Hj. rewrite <- Hj in Hi. apply sapp_inj_l in Hi. injection Hi as Hi. apply (dec10_inj (S i) (S j)) in Hi. lia.
Qed.
Lemma numbered_len s n : List.length (numbered s n) = n.
Proof. unfold numbered. rewrite map_length, seq_length. reflexivity. Qed.
Lemma numberedNames_ok s r n : numberedNames (Some (Some s :: r)) n = Ok (numbered s n).
Proof. cbn. f_equal. unfold numbered. apply map_ext. intros i. rewrite Nat.add_1_r. reflexivity. Qed.

Lemma spread_same l : spread (List.length l) l = l.
Proof. unfold spread. rewrite Nat.eqb_refl. reflexivity. Qed.
Lemma repeat_distinct n : Distinct (repeat None n).
Proof. intros i j s Hi. apply nth_error_In, repeat_spec in Hi. discriminate. Qed.

Lemma stretchNames_spec st a b : Inv a -> Inv b -> 0 < alen a -> 0 < alen b ->
  (alen a = alen b \/ alen a = 1 \/ alen b = 1) -> (st = false -> alen b = longer a b) -> NamesReady st a b ->
  (alen a = alen b -> alen a <> 1 -> NamesConsistent (getNames a) (getNames b)) ->
  exists nm x, stretchNames st a b (alen a) (alen b) (Nat.max (alen a) (alen b)) = Ok nm /\
    namedAxis (longer a b) nm = Ok x /\ alen x = longer a b /\ Inv x /\ StretchedNames (longer a b) (getNames a) (getNames b) (getNames x).
Proof.
  intros Ia Ib Pa Pb Hl Hst [R1 R2] HC. pose proof (longer_max a b) as Lm.
  pose proof (getNames_len a Ia) as La. pose proof (getNames_len b Ib) as Lb.
  pose proof (names_Distinct a Ia) as Da. pose proof (names_Distinct b Ib) as Db.
  pose proof (allDefault_spec a Ia) as Sa. pose proof (allDefault_spec b Ib) as Sb.
  assert (K0 : forall nm : option (list (option string)), nm = None \/ (exists l, nm = Some l /\ l = repeat None (longer a b)) ->
     exists x, namedAxis (longer a b) nm = Ok x /\ alen x = longer a b /\ Inv x /\ getNames x = repeat None (longer a b)).
  { intros nm [->|[l [-> ->]]].
    - rewrite namedAxis_None. eexists. split; [reflexivity|]. repeat split.
    - destruct (namedAxis_list (longer a b) (repeat None (longer a b))) as (x & Hx & H); [apply repeat_length|apply repeat_distinct|]. exists x. tauto. }
  assert (K1 : forall l, List.length l = longer a b -> Distinct l -> exists x, namedAxis (longer a b) (Some l) = Ok x /\ alen x = longer a b /\ Inv x /\ getNames x = l).
  { intros l Hn Hd. destruct (namedAxis_list (longer a b) l Hn Hd) as (x & Hx & H). exists x. tauto. }
  unfold stretchNames.
  destruct (eqbd (getNamesNoGeneration a) (getNamesNoGeneration b)) eqn:Eq.
  { apply eqbd_true in Eq. destruct (namesCreated a) eqn:Ca; destruct (namesCreated b) eqn:Cb.
    - rewrite (noGen_created a Ca), (noGen_created b Cb) in Eq. injection Eq as Eq. rewrite (noGen_created a Ca).
      assert (alen a = longer a b) by (rewrite <- Eq in Lb; lia).
      destruct (K1 (getNames a)) as (x & Hx & Ax & Ix & Nx); [lia|exact Da|]. exists (Some (getNames a)), x.
      split; [reflexivity|]. split; [exact Hx|]. split; [exact Ax|]. split; [exact Ix|]. rewrite Nx, <- Eq. split.
      { intros N _. rewrite (notNamed_repeat _ N) at 1. f_equal. lia. }
      split; [intros N N'; contradiction|]. split; [intros N N'; contradiction|]. split; [|intros _ _ N; congruence].
      intros _ _ _. unfold combined. clear. induction (getNames a) as [|[s|] l IH]; cbn; [reflexivity| |]; f_equal; exact IH.
    - rewrite (noGen_created a Ca), (noGen_not b Cb) in Eq. discriminate.
    - rewrite (noGen_not a Ca), (noGen_created b Cb) in Eq. discriminate.
    - rewrite (noGen_not a Ca). destruct (K0 None) as (x & Hx & Ax & Ix & Nx); [left; reflexivity|]. exists None, x.
      split; [reflexivity|]. split; [exact Hx|]. split; [exact Ax|]. split; [exact Ix|]. rewrite Nx.
      assert (~ Named (getNames a)) by (intros N; apply named_created in N; congruence).
      assert (~ Named (getNames b)) by (intros N; apply named_created in N; congruence).
      split; [reflexivity|]. repeat split; intros; contradiction. }
  destruct (allDefaultNames a) eqn:Ed; cbn [andb].
  { assert (NA : ~ Named (getNames a)) by (apply Sa; reflexivity).
    destruct (st && negb (alen b =? Nat.max (alen a) (alen b)) && truthy (getNamesNoGeneration b)) eqn:E1; cbn [andb].
    { apply andb_prop in E1 as [E1 E3]. apply andb_prop in E1 as [-> E2]. apply negb_true_iff, Nat.eqb_neq in E2.
      assert (Cb : namesCreated b = true) by (unfold getNamesNoGeneration in E3; destruct (namesCreated b); [reflexivity|discriminate]).
      assert (NB : Named (getNames b)) by (apply R2; auto; lia).
      destruct (named_single _ NB) as [s Es]; [lia|]. rewrite (noGen_created b Cb), Es, numberedNames_ok. cbn [rmap].
      destruct (K1 (numbered s (Nat.max (alen a) (alen b)))) as (x & Hx & Ax & Ix & Nx); [rewrite numbered_len; lia|apply numbered_distinct|].
      eexists _, x. split; [reflexivity|]. split; [exact Hx|]. split; [exact Ax|]. split; [exact Ix|]. rewrite Nx.
      split; [intros _ N; rewrite <- Es in N; contradiction|]. split; [intros; contradiction|]. split; [|split; intros; contradiction].
      intros _ _. unfold spread. cbn [List.length]. replace (1 =? longer a b) with false by (symmetry; apply Nat.eqb_neq; lia). rewrite Lm. reflexivity. }
    destruct (truthy (getNamesNoGeneration a) && true && negb (truthy (getNamesNoGeneration b))) eqn:E2.
    { rewrite andb_true_r in E2. apply andb_prop in E2 as [E2 E3].
      assert (Ca : namesCreated a = true) by (unfold getNamesNoGeneration in E2; destruct (namesCreated a); [reflexivity|discriminate]).
      assert (Cb : namesCreated b = false).
      { destruct (namesCreated b) eqn:Cb; [|reflexivity]. rewrite (noGen_created b Cb) in E3. destruct (getNames b); [cbn in Lb; lia|discriminate]. }
      assert (La' : alen a = longer a b). { destruct (Nat.eq_dec (alen a) 1) as [e|e]; [|lia]. destruct (Nat.eq_dec (alen b) 1); [lia|]. exfalso. apply NA. apply R1; auto. }
      rewrite (noGen_created a Ca).
      destruct (K0 (Some (getNames a))) as (x & Hx & Ax & Ix & Nx). { right. eexists. split; [reflexivity|]. rewrite (notNamed_repeat _ NA). f_equal. lia. }
      eexists _, x. split; [reflexivity|]. split; [exact Hx|]. split; [exact Ax|]. split; [exact Ix|]. rewrite Nx.
      assert (~ Named (getNames b)) by (intros N; apply named_created in N; congruence).
      split; [reflexivity|]. repeat split; intros; contradiction. }
    (* the other's names *)
    assert (Cb : namesCreated b = true).
    { destruct (namesCreated b) eqn:Cb; [reflexivity|]. exfalso. rewrite (noGen_not b Cb) in *. cbn in E2. rewrite !andb_true_r in E2.
      destruct (namesCreated a) eqn:Ca.
      - rewrite (noGen_created a Ca) in E2. destruct (getNames a); [cbn in La; lia|discriminate].
      - rewrite (noGen_not a Ca), eqbd_refl in Eq. discriminate. }
    assert (Lb' : alen b = longer a b).
    { destruct st; [|auto]. rewrite (noGen_created b Cb) in E1. destruct (Nat.eq_dec (alen b) (longer a b)) as [e|e]; [exact e|]. exfalso.
      rewrite <- Lm in E1. apply Nat.eqb_neq in e. rewrite e in E1. destruct (getNames b); [cbn in Lb; lia|discriminate]. }
    rewrite (noGen_created b Cb). destruct (K1 (getNames b)) as (x & Hx & Ax & Ix & Nx); [lia|exact Db|].
    eexists _, x. split; [reflexivity|]. split; [exact Hx|]. split; [exact Ax|]. split; [exact Ix|]. rewrite Nx.
    split; [intros _ N; rewrite (notNamed_repeat _ N) at 1; f_equal; lia|]. split; [intros; contradiction|]. split; [|split; intros; contradiction].
    intros _ _. rewrite <- Lb', <- Lb. symmetry. apply spread_same. }
  assert (NA : Named (getNames a)). { destruct (named_dec (getNames a)) as [N|N]; [exact N|]. apply Sa in N. discriminate. }
  assert (Ca : namesCreated a = true) by (apply named_created; exact NA).
  rewrite !(noGen_created a Ca) in *. rewrite !andb_false_r. cbn [andb].
  destruct (allDefaultNames b) eqn:Edb; cbn [andb].
  { assert (NB : ~ Named (getNames b)) by (apply Sb; reflexivity).
    destruct ((1 <? alen a) || (Nat.max (alen a) (alen b) =? 1)) eqn:E1.
    { assert (La' : alen a = longer a b).
      { apply orb_prop in E1 as [E1|E1]; [apply Nat.ltb_lt in E1|apply Nat.eqb_eq in E1; lia]. destruct Hl as [Hl|[Hl|Hl]]; lia. }
      destruct (K1 (getNames a)) as (x & Hx & Ax & Ix & Nx); [lia|exact Da|].
      eexists _, x. split; [reflexivity|]. split; [exact Hx|]. split; [exact Ax|]. split; [exact Ix|]. rewrite Nx.
      split; [intros N; contradiction|]. split; [|repeat split; intros; contradiction].
      intros _ _. rewrite <- La', <- La. symmetry. apply spread_same. }
    apply orb_false_iff in E1 as [E1 E2]. apply Nat.ltb_ge in E1. apply Nat.eqb_neq in E2. assert (alen a = 1) by lia.
    destruct (named_single _ NA) as [s Es]; [lia|]. rewrite Es, numberedNames_ok. cbn [rmap].
    destruct (K1 (numbered s (Nat.max (alen a) (alen b)))) as (x & Hx & Ax & Ix & Nx); [rewrite numbered_len; lia|apply numbered_distinct|].
    eexists _, x. split; [reflexivity|]. split; [exact Hx|]. split; [exact Ax|]. split; [exact Ix|]. rewrite Nx.
    assert (Named [Some s]) by (exists s; left; reflexivity).
    split; [intros; contradiction|]. split; [|repeat split; intros; contradiction].
    intros _ _. unfold spread. cbn [List.length]. replace (1 =? longer a b) with false by (symmetry; apply Nat.eqb_neq; lia). rewrite Lm. reflexivity. }
  assert (NB : Named (getNames b)). { destruct (named_dec (getNames b)) as [N|N]; [exact N|]. apply Sb in N. discriminate. }
  assert (Cb : namesCreated b = true) by (apply named_created; exact NB). rewrite !(noGen_created b Cb) in *.
  destruct (List.length (getNames a) =? List.length (getNames b)) eqn:E.
  - apply Nat.eqb_eq in E. rewrite mergeNames_combined.
    destruct (K1 (combined (getNames a) (getNames b))) as (x & Hx & Ax & Ix & Nx).
    { rewrite combined_length by exact E. lia. }
    { destruct (Nat.eq_dec (alen a) 1) as [e|e]; [|apply combined_distinct; auto; apply HC; lia].
      intros i j s Hi Hj. apply nth_error_lt in Hi, Hj. rewrite combined_length in Hi, Hj by exact E. lia. }
    eexists _, x. split; [reflexivity|]. split; [exact Hx|]. split; [exact Ax|]. split; [exact Ix|]. rewrite Nx.
    split; [intros; contradiction|]. split; [intros; contradiction|]. split; [intros; contradiction|]. split; [reflexivity|intros; contradiction].
  - apply Nat.eqb_neq in E. destruct (K0 None) as (x & Hx & Ax & Ix & Nx); [left; reflexivity|]. exists None, x.
    split; [reflexivity|]. split; [exact Hx|]. split; [exact Ax|]. split; [exact Ix|]. rewrite Nx.
    split; [intros; contradiction|]. split; [intros; contradiction|]. split; [intros; contradiction|]. split; [intros; contradiction|reflexivity].
Qed.

(** ** broadcasting *)
Lemma widen_len {A} n (l : list A) : (List.length l = n \/ List.length l = 1) -> List.length (widen n l) = n.
Proof.
  unfold widen. intros H. destruct (List.length l =? n) eqn:E; [apply Nat.eqb_eq; exact E|]. apply Nat.eqb_neq in E.
  destruct l as [|x [|? ?]]; cbn in *; try lia. apply repeat_length.
Qed.
Lemma widen_nth {A} n (l : list A) i : (List.length l = n \/ List.length l = 1) -> i < n -> nth_error (widen n l) i = nth_error l (from (List.length l) i).
Proof.
  unfold widen, from. intros H Hi. destruct (List.length l =? n) eqn:E.
  - apply Nat.eqb_eq in E. destruct (List.length l =? 1) eqn:E1; [|reflexivity]. apply Nat.eqb_eq in E1. replace i with 0 by lia. reflexivity.
  - apply Nat.eqb_neq in E. destruct l as [|x [|? ?]]; cbn in *; try lia. apply nth_error_repeat. lia.
Qed.
Lemma widen_In {A} n (l : list A) x : In x (widen n l) -> In x l.
Proof. unfold widen. destruct (_ =? n); [auto|]. destruct l as [|y [|? ?]]; auto. intros H. apply repeat_spec in H. subst. left. reflexivity. Qed.
Lemma broadcastRows_spec {A} (m : list (list A)) n k N K : shape m n k -> (n = N \/ n = 1) -> (k = K \/ k = 1) ->
  shape (broadcastRows N K m) N K /\ forall i j, i < N -> j < K -> mcell (broadcastRows N K m) i j = mcell m (from n i) (from k j).
Proof.
  intros [H1 H2] Hn Hk. unfold broadcastRows.
  assert (HL : List.length (map (widen K) m) = N \/ List.length (map (widen K) m) = 1) by (rewrite map_length; lia). split.
  - split; [apply widen_len; exact HL|]. intros r Hr. apply widen_In in Hr. apply in_map_iff in Hr as [r0 [<- Hr]]. apply widen_len. rewrite (H2 _ Hr). lia.
  - intros i j Hi Hj. unfold mcell. rewrite widen_nth by auto. rewrite map_length, H1, nth_error_map.
    destruct (nth_error m (from n i)) as [r|] eqn:E; [|reflexivity]. cbn. pose proof (H2 _ (nth_error_In _ _ E)) as Hr. rewrite widen_nth by (auto; lia). rewrite Hr. reflexivity.
Qed.
Lemma broadcastLen_spec a b : (a = b \/ a = 1 \/ b = 1) -> 0 < a -> 0 < b -> broadcastLen a b = Ok (Nat.max a b).
Proof.
  intros H Ha Hb. unfold broadcastLen. destruct (a =? b) eqn:E; [apply Nat.eqb_eq in E; f_equal; lia|]. apply Nat.eqb_neq in E.
  destruct (a =? 1) eqn:E1; [apply Nat.eqb_eq in E1; f_equal; lia|]. apply Nat.eqb_neq in E1.
  destruct (b =? 1) eqn:E2; [apply Nat.eqb_eq in E2; f_equal; lia|]. apply Nat.eqb_neq in E2. lia.
Qed.

(** ** validation *)
Lemma Fits_lens st s o : Fits st s o -> 0 < alen (tp s) -> 0 < alen (tf s) -> 0 < alen (tp o) -> 0 < alen (tf o) ->
  (alen (tp s) = alen (tp o) \/ alen (tp s) = 1 \/ alen (tp o) = 1) /\ (alen (tf s) = alen (tf o) \/ alen (tf s) = 1 \/ alen (tf o) = 1) /\
  (st = false -> alen (tp o) = longer (tp s) (tp o) /\ alen (tf o) = longer (tf s) (tf o)) /\
  (st = true -> (alen (tp s) = 1 \/ alen (tp o) = 1) /\ (alen (tf s) = 1 \/ alen (tf o) = 1) \/ True).
Proof. intros H. rewrite !longer_max. destruct st; cbn in H; intros; repeat split; try discriminate; try tauto; lia. Qed.
