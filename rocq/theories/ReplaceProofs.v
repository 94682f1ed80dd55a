From Verif Require Import Base NamesModel NamesSpec NamesProofs NamesIndexProofs TableModel TableSpec TableProofs TableOps TableOpsProofs TableOps3Proofs TablePermProofs ElementsCalcProofs RawSpec BinOpModel BinOpProofs ReplaceModel ReplaceSpec.
From Verif Require WorkModel WorkSpec WorkProofs.
From Coq Require Import List Arith ZArith Lia. Import ListNotations.
Open Scope nat_scope.

Section Proofs.
Context {V : Type}.
Implicit Types t d : table V.

Lemma denotes_float a id : (forall z, ~ Denotes a false id z) \/ FloatInRange a id.
Proof. destruct id; cbn; auto. left. intros z [H _]; discriminate. Qed.
Lemma loc_exc a id e : Inv a -> getIndex a id false = Err e ->
  (forall z, ~ Denotes a false id z) /\ (e = IndexErr \/ e = KeyErr \/ e = InvalidArgumentType).
Proof.
  intros IA G. split.
  - intros z D. destruct (denotes_float a id) as [H|H]; [exact (H z D)|]. apply (getIndex_Denotes a id false z IA H) in D. congruence.
  - revert G. unfold getIndex. destruct (_ =? 0)%Z; [intros [= <-]; auto|]. destruct id; cbn.
    + destruct (_ || _)%bool; [intros [= <-]; auto|discriminate].
    + unfold getIndexByName. destruct (dget _ _); cbn; [discriminate|intros [= <-]; auto].
    + intros [= <-]; auto.
    + intros [= <-]; auto.
Qed.
Lemma cI_exc a ids e : Inv a -> constructIndices a ids = Err e ->
  exists id, In id ids /\ (forall z, ~ Denotes a false id z) /\ (e = IndexErr \/ e = KeyErr \/ e = InvalidArgumentType).
Proof.
  intros IA H. unfold constructIndices in H. apply rmapM_fail in H. destruct H as (id & I & G). exists id. split; [exact I|].
  destruct (getIndex a id false) as [z|e'] eqn:E; cbn in G; [discriminate|]. injection G as ->. apply loc_exc; assumption.
Qed.
Lemma self_index a i : Inv a -> i < alen a -> constructIndices a [IdInt (Z.of_nat i)] = Ok [i].
Proof.
  intros IA L. apply constructIndices_Denotes; [exact IA|]. constructor; [|constructor]. cbn. left. lia.
Qed.

(** one assignment *)
Lemma one sd t i r : wf t -> i < alen (ax sd t) ->
  let res := transform sd (fun _ => Ok r) (Some [IdInt (Z.of_nat i)]) t in
  if (alen (tp t) =? 0) || (alen (tf t) =? 0) then res = (t, Err ImproperObjectAction)
  else if List.length r =? alen (offax sd t) then
    snd res = Ok tt /\ wf (fst res) /\ tp (fst res) = tp t /\ tf (fst res) = tf t /\
    nth_error (vectors sd (fst res)) i = Some r /\
    (forall j, j <> i -> nth_error (vectors sd (fst res)) j = nth_error (vectors sd t) j)
  else res = (t, Err InvalidArgumentValue).
Proof.
  intros W L res. pose proof (wf_Inv V sd t W) as IA. subst res. unfold transform. destruct (_ || _)%bool eqn:Z; [reflexivity|].
  rewrite (self_index _ _ IA L).
  assert (G : forall n a u, a + n <= i -> transformLoop sd (fun _ => Ok r) (Some [i]) (seq a n) u = (u, Ok tt)).
  { induction n as [|n IH]; intros a u H; [reflexivity|]. cbn [seq transformLoop]. replace (negb (mem a [i])) with true; [apply IH; lia|].
    symmetry. apply negb_true_iff. apply mem_not_In. intros [E|[]]. lia. }
  assert (G2 : forall n a u, i < a -> transformLoop sd (fun _ => Ok r) (Some [i]) (seq a n) u = (u, Ok tt)).
  { induction n as [|n IH]; intros a u H; [reflexivity|]. cbn [seq transformLoop]. replace (negb (mem a [i])) with true; [apply IH; lia|].
    symmetry. apply negb_true_iff. apply mem_not_In. intros [E|[]]. lia. }
  assert (K : forall n a u, a <= i < a + n -> transformLoop sd (fun _ => Ok r) (Some [i]) (seq a n) u =
     if List.length r =? alen (offax sd u) then (setVec sd u i r, Ok tt) else (u, Err InvalidArgumentValue)).
  { induction n as [|n IH]; intros a u H; [lia|]. cbn [seq transformLoop]. destruct (Nat.eq_dec a i) as [->|N].
    - replace (negb (mem i [i])) with false. 2:{ symmetry. apply negb_false_iff. apply mem_In. left; reflexivity. }
      destruct (List.length r =? alen (offax sd u)); [apply G2; lia|reflexivity].
    - replace (negb (mem a [i])) with true. 2:{ symmetry. apply negb_true_iff. apply mem_not_In. intros [E|[]]. lia. }
      apply IH. lia. }
  rewrite K by lia. destruct (List.length r =? alen (offax sd t)) eqn:E; [|reflexivity]. apply Nat.eqb_eq in E. cbn [fst snd].
  split; [reflexivity|]. split; [apply setVec_wf; auto|]. split; [destruct sd; reflexivity|]. split; [destruct sd; reflexivity|].
  rewrite (setVec_vectors V sd t i r W L E). split.
  - pose proof (vec_nth V sd t i W L) as X. apply nth_error_upd_same. exact (nth_error_lt _ _ X).
  - intros j N. apply nth_error_upd_other. congruence.
Qed.

Lemma lastAt_cons i0 is i k : LastAt is i k -> LastAt (i0 :: is) i (S k).
Proof. intros [A B]. split; [exact A|]. intros k' H. destruct k'; [lia|]. cbn. apply B. lia. Qed.
Lemma last_exists is (i : nat) : In i is -> exists k, LastAt is i k.
Proof.
  induction is as [|a is IH]; intros H; [destruct H|]. destruct (in_dec Nat.eq_dec i is) as [I|N].
  - destruct (IH I) as (k & K). exists (S k). apply lastAt_cons, K.
  - destruct H as [->|H]; [|contradiction]. exists 0. split; [reflexivity|]. intros k' L. destruct k'; [lia|]. cbn. intros E. apply N. eapply nth_error_In; exact E.
Qed.
(** the loop; [good] data *)
Lemma loop_ok sd : forall locs data t, wf t -> (forall i, In i locs -> i < alen (ax sd t)) -> List.length locs = List.length data ->
  (forall r, In r data -> List.length r = alen (offax sd t)) -> (locs <> [] -> 0 < alen (offax sd t)) ->
  exists t', replaceLoop sd locs data t = (t', Ok tt) /\ wf t' /\ tp t' = tp t /\ tf t' = tf t /\
    (forall i k, LastAt locs i k -> nth_error (vectors sd t') i = nth_error data k) /\
    (forall i, ~ In i locs -> nth_error (vectors sd t') i = nth_error (vectors sd t) i).
Proof.
  induction locs as [|i is IH]; intros data t W R L F P.
  - exists t. split; [reflexivity|]. split; [exact W|]. do 2 (split; [reflexivity|]). split; [|reflexivity]. intros i k [H _]. destruct k; discriminate.
  - destruct data as [|r rs]; [discriminate|]. cbn [replaceLoop].
    pose proof (R i (or_introl eq_refl)) as Li. pose proof (one sd t i r W Li) as O. cbv zeta in O.
    assert (Pz : (alen (tp t) =? 0) || (alen (tf t) =? 0) = false).
    { specialize (P ltac:(discriminate)). apply orb_false_iff. destruct sd; cbn in *; split; apply Nat.eqb_neq; lia. }
    rewrite Pz in O. rewrite (F r (or_introl eq_refl)), Nat.eqb_refl in O.
    destruct (transform sd (fun _ => Ok r) (Some [IdInt (Z.of_nat i)]) t) as [t1 u1]. cbn [fst snd] in O.
    destruct O as (-> & W1 & T1 & T2 & S1 & S2).
    destruct (IH rs t1 W1) as (t' & E & W' & A & B & C & D).
    + intros j J. replace (ax sd t1) with (ax sd t) by (destruct sd; cbn; congruence). apply R. right; exact J.
    + cbn in L. lia.
    + intros r' I. replace (offax sd t1) with (offax sd t) by (destruct sd; cbn; congruence). apply F. right; exact I.
    + intros _. replace (offax sd t1) with (offax sd t) by (destruct sd; cbn; congruence). apply P. discriminate.
    + exists t'. split; [exact E|]. split; [exact W'|]. split; [congruence|]. split; [congruence|]. split.
      * intros j k [K1 K2]. destruct k as [|k].
        -- cbn in K1. injection K1 as <-. cbn. rewrite D.
           ++ exact S1.
           ++ intros H. apply In_nth_error in H. destruct H as (q & Q). exact (K2 (S q) ltac:(lia) Q).
        -- cbn in K1 |- *. apply C. split; [exact K1|]. intros k' L'. exact (K2 (S k') ltac:(lia)).
      * intros j N. rewrite D by (intros H; apply N; right; exact H). apply S2. intros ->. apply N. left; reflexivity.
Qed.
(** bad data: nothing is assigned *)
Lemma loop_bad sd i is r rs t : wf t -> i < alen (ax sd t) ->
  (alen (offax sd t) = 0 -> replaceLoop sd (i :: is) (r :: rs) t = (t, Err ImproperObjectAction)) /\
  (0 < alen (offax sd t) -> List.length r <> alen (offax sd t) -> replaceLoop sd (i :: is) (r :: rs) t = (t, Err InvalidArgumentValue)).
Proof.
  intros W L. pose proof (one sd t i r W L) as O. cbv zeta in O. cbn [replaceLoop]. split.
  - intros Z. replace ((alen (tp t) =? 0) || (alen (tf t) =? 0)) with true in O.
    + rewrite O. reflexivity.
    + symmetry. apply orb_true_iff. destruct sd; cbn in Z; rewrite Z; cbn; auto.
  - intros P N. replace ((alen (tp t) =? 0) || (alen (tf t) =? 0)) with false in O.
    + apply Nat.eqb_neq in N. rewrite N in O. rewrite O. reflexivity.
    + symmetry. apply orb_false_iff. destruct sd; cbn in *; split; apply Nat.eqb_neq; lia.
Qed.

Lemma keyOf_vectors sd t t' i k : wf t -> wf t' -> nth_error (vectors sd t') i = nth_error (vectors sd t) k ->
  i < alen (ax sd t') -> k < alen (ax sd t) -> forall j, keyOf sd t' i j = keyOf sd t k j.
Proof.
  intros W W' H Li Lk j. pose proof (vec_nth V sd t' i W' Li) as A. pose proof (vec_nth V sd t k W Lk) as B.
  pose proof (vectors_cell V sd t' i _ j W' A) as CA. pose proof (vectors_cell V sd t k _ j W B) as CB.
  assert (E : vec sd t' i = vec sd t k) by congruence. rewrite E in CA. destruct sd; cbn [keyOf]; congruence.
Qed.
Lemma keyOf_out sd t i j : wf t -> alen (ax sd t) <= i -> keyOf sd t i j = None.
Proof.
  intros W L. destruct W as (HR & HC & _). destruct sd; cbn in *; unfold cell.
  - replace (nth_error (rows t) i) with (@None (list V)); [reflexivity|]. symmetry. apply nth_error_None. lia.
  - destruct (nth_error (rows t) j) as [r|] eqn:E; [|reflexivity]. apply nth_error_None. rewrite (HC r); [exact L|]. eapply nth_error_In; exact E.
Qed.

Definition SourceWf (src : source V) : Prop :=
  match src with SrcObj d _ => wf d | SrcRaw (Ok d) _ _ => wf d | SrcRaw (Err _) _ _ => True end.
Lemma nameAxis_spec a o : Inv a ->
  match nameAxis a o with
  | Ok a' => alen a' = alen a /\ Inv a' /\ Named o a a'
  | Err e => e = InvalidArgumentValue /\ exists l, o = Some (Some l) /\ ~ NamesFit l (alen a)
  end.
Proof.
  intros IA. destruct o as [[l|]|]; cbn [nameAxis Named].
  - pose proof (WorkProofs.setAll_list a l) as H. destruct (WorkModel.setAll a (Some l)) as [a'|e].
    + destruct H as (A & B & C & D). auto.
    + destruct H as (A & B). split; [exact B|]. exists l. auto.
  - rewrite WorkProofs.setAll_None. split; [reflexivity|]. split; [exact I|]. apply WorkProofs.fresh_NoNames.
  - auto.
Qed.
Lemma orient_spec sd d : wf d -> wf (orient sd d) /\ Oriented sd d (orient sd d).
Proof.
  intros W. unfold orient, Oriented, Lengthwise. destruct (_ && _)%bool eqn:E.
  - apply andb_true_iff in E. destruct E as (E1 & E2). apply Nat.eqb_eq in E1. apply Nat.ltb_lt in E2.
    destruct (transpose_spec V d W) as (W' & C & A & B & N1 & N2). split; [exact W'|]. left. split; [split; assumption|].
    split; [exact W'|]. auto 8.
  - split; [exact W|]. right. split; [|reflexivity]. intros (E1 & E2). apply andb_false_iff in E. destruct E as [E|E]; [apply Nat.eqb_neq in E|apply Nat.ltb_ge in E]; lia.
Qed.
Lemma replacement_spec sd t src locs : SourceWf src ->
  match replacement sd src with
  | Ok d => wf d /\ DataOf sd src d
  | Err e => Refused sd t src locs e
  end.
Proof.
  intros S. destruct src as [d kwds|[d0|e] pn fn]; cbn [replacement].
  - destruct kwds; [apply rf_keywords|]. split; [exact S|constructor].
  - cbn [rbind]. cbn in S. destruct (orient_spec sd d0 S) as (W & O). set (d1 := orient sd d0) in *. clearbody d1.
    pose proof W as (WR & WC & IP & IF). pose proof (nameAxis_spec (tp d1) pn IP) as P. pose proof (nameAxis_spec (tf d1) fn IF) as F.
    destruct (nameAxis (tp d1) pn) as [p|e]; cbn [rbind].
    + destruct (nameAxis (tf d1) fn) as [f|e]; cbn [rbind].
      * destruct P as (P1 & P2 & P3). destruct F as (F1 & F2 & F3).
        assert (W' : wf (mkTable p f (rows d1))). { split; [cbn; congruence|]. split; [|split; assumption]. cbn. intros r I. rewrite F1. apply WC, I. }
        split; [exact W'|]. eapply do_raw; cbn; eauto.
      * destruct F as (-> & l & -> & N). eapply rf_names; [exact O|]. intros (_ & H). exact (N (H l eq_refl)).
    + destruct P as (-> & l & -> & N). eapply rf_names; [exact O|]. intros (H & _). exact (N (H l eq_refl)).
  - cbn [rbind]. constructor.
Qed.
Lemma nameIdents_denote (a : axis) (l : list (option string)) idx :
  Forall2 (fun id i => Denotes a false id (Z.of_nat i)) (map (fun o => match o with Some s => IdStr s | None => IdOther end) l) idx ->
  Forall2 (fun o i => exists s, o = Some s /\ nth_error (getNames a) i = Some (Some s)) l idx.
Proof.
  revert idx. induction l as [|o l IH]; intros idx H; inversion H as [|x i xs is D R E1 E2]; subst; constructor; [|apply IH; assumption].
  destruct o as [s|]; cbn in D; [|contradiction]. destruct D as (j & E & N). apply Nat2Z.inj in E. subst j. exists s. auto.
Qed.
Lemma seq_denote (a : axis) : forall n b, b + n <= alen a ->
  Forall2 (fun id i => Denotes a false id (Z.of_nat i)) (map (fun i => IdInt (Z.of_nat i)) (seq b n)) (seq b n).
Proof. induction n as [|n IH]; intros b H; cbn; constructor; [cbn; left; lia|]. apply IH. lia. Qed.
Lemma created_names a : namesCreated a = false <-> getNamesNoGeneration a = None.
Proof. unfold getNamesNoGeneration. destruct (namesCreated a); split; intros H; congruence. Qed.
Lemma denote_range a ids idx i : Forall2 (fun id i => Denotes a false id (Z.of_nat i)) ids idx -> Inv a -> In i idx -> i < alen a.
Proof.
  intros H IA I. induction H as [|id j ids idx D R IH]; [destruct I|]. destruct I as [->|I]; [|apply IH, I].
  destruct id; cbn in D.
  - lia.
  - destruct D as (k & E & N). apply Nat2Z.inj in E. subst k. assert (X : nth_error (getNames a) i <> None) by congruence.
    apply nth_error_Some in X. rewrite getNames_length in X; assumption.
  - destruct D; discriminate.
  - contradiction.
Qed.

(** what happens once the data and the identifiers are known *)
Lemma placed sd t src d locs ids idx : wf t -> wf d -> DataOf sd src d ->
  Forall2 (fun id i => Denotes (ax sd t) false id (Z.of_nat i)) ids idx -> Places sd t d locs idx ->
  exists t' res, replace sd t ids d = (t', res) /\
  match res with
  | Ok _ => exists d idx, DataOf sd src d /\ Places sd t d locs idx /\ Fit sd t d idx /\ Assigned sd idx d t t'
  | Err e => t' = t /\ Refused sd t src locs e
  end.
Proof.
  intros W Wd D F P. pose proof (wf_Inv V sd t W) as IA.
  pose proof (fun i => denote_range _ _ _ i F IA) as Rng.
  unfold replace. rewrite (proj2 (constructIndices_Denotes _ _ _ IA) F).
  destruct (List.length idx =? alen (ax sd d)) eqn:E; cbn [negb].
  2:{ apply Nat.eqb_neq in E. exists t, (Err InvalidArgumentValue). split; [reflexivity|]. split; [reflexivity|]. eapply rf_count; eassumption. }
  apply Nat.eqb_eq in E. pose proof (vectors_length V sd d Wd) as VL.
  assert (VN : forall r, In r (vectors sd d) -> List.length r = alen (offax sd d)).
  { intros r I. apply In_nth_error in I. destruct I as (j & J). eapply vector_len; [exact Wd|exact J]. }
  destruct idx as [|i is].
  - exists t, (Ok tt). split; [reflexivity|]. exists d, []. split; [exact D|]. split; [exact P|]. split; [split; [exact E|congruence]|].
    split; [exact W|]. do 4 (split; [reflexivity|]). split; [|reflexivity]. intros i k j (H & _). destruct k; discriminate.
  - assert (NE : vectors sd d <> []). { intros X. rewrite X in VL. cbn in *. lia. }
    destruct (vectors sd d) as [|r rs] eqn:VE; [congruence|].
    destruct (Nat.eq_dec (alen (offax sd t)) 0) as [Z|Z].
    { destruct (loop_bad sd i is r rs t W (Rng i (or_introl eq_refl))) as (A & _). exists t, (Err ImproperObjectAction). rewrite (A Z).
      split; [reflexivity|]. split; [reflexivity|]. eapply rf_empty; [exact D|exact P|discriminate|exact Z]. }
    destruct (Nat.eq_dec (alen (offax sd d)) (alen (offax sd t))) as [Q|Q].
    + destruct (loop_ok sd (i :: is) (r :: rs) t W Rng) as (t' & A & W' & T1 & T2 & B & C).
      * rewrite VL. exact E.
      * intros x X. rewrite (VN x X). exact Q.
      * intros _. lia.
      * exists t', (Ok tt). rewrite A. split; [reflexivity|]. exists d, (i :: is). split; [exact D|]. split; [exact P|]. split.
        { split; [exact E|]. intros _. split; [exact Q|lia]. }
        split; [exact W'|]. do 2 (split; [congruence|]). do 2 (split; [congruence|]).
        assert (AX : alen (ax sd t') = alen (ax sd t)) by (destruct sd; cbn; congruence).
        split.
        -- intros x k j L. pose proof (proj1 L) as N. pose proof (nth_error_In _ _ N) as I. apply Rng in I. apply nth_error_lt in N.
           apply keyOf_vectors; [exact Wd|exact W'| |lia|lia]. rewrite VE. apply B, L.
        -- intros x j N. destruct (Nat.lt_ge_cases x (alen (ax sd t))) as [Lx|Lx].
           ++ apply keyOf_vectors; [exact W|exact W'| |lia|exact Lx]. apply C, N.
           ++ rewrite !keyOf_out; [reflexivity|exact W|exact Lx|exact W'|lia].
    + destruct (loop_bad sd i is r rs t W (Rng i (or_introl eq_refl))) as (_ & A). exists t, (Err InvalidArgumentValue).
      rewrite A; [|lia|]. 2:{ rewrite (VN r (or_introl eq_refl)). exact Q. }
      split; [reflexivity|]. split; [reflexivity|]. eapply rf_width; [exact D|exact P|discriminate|lia|exact Q].
Qed.

Lemma replace_main sd t src locs : wf t -> SourceWf src ->
  exists t' res, replaceCall sd t src locs = (t', res) /\
  match res with
  | Ok _ => exists d idx, DataOf sd src d /\ Places sd t d locs idx /\ Fit sd t d idx /\ Assigned sd idx d t t'
  | Err e => t' = t /\ Refused sd t src locs e
  end.
Proof.
  intros W S. pose proof (wf_Inv V sd t W) as IA. pose proof (replacement_spec sd t src locs S) as R. unfold replaceCall.
  destruct (replacement sd src) as [d|e]; cbn [rbind]; [|exists t, (Err e); auto].
  destruct R as (Wd & D). destruct locs as [ids|]; cbn [locations].
  - cbn [rbind]. destruct (constructIndices (ax sd t) ids) as [idx|e] eqn:C.
    + pose proof (proj1 (constructIndices_Denotes _ _ _ IA) C) as F. apply (placed sd t src d (Some ids) ids idx W Wd D F). constructor. exact F.
    + unfold replace. rewrite C. exists t, (Err e). split; [reflexivity|]. split; [reflexivity|].
      apply cI_exc in C; [|exact IA]. destruct C as (id & I & N & X). eapply rf_location; eassumption.
  - destruct (_ && _)%bool eqn:E.
    + cbn [rbind]. apply andb_true_iff in E. destruct E as (E1 & E2). apply Nat.eqb_eq in E1. apply Nat.eqb_eq in E2.
      apply (placed sd t src d None _ (seq 0 (alen (ax sd t))) W Wd D); [apply seq_denote; lia|]. apply pl_all; [split; assumption|reflexivity].
    + assert (NS : ~ SameShape t d). { intros (E1 & E2). rewrite E1, E2, !Nat.eqb_refl in E. discriminate. }
      destruct (namesCreated (ax sd t)) eqn:C1; cbn [negb].
      2:{ exists t, (Err InvalidArgumentValue). split; [reflexivity|]. split; [reflexivity|]. eapply rf_unnamed; [exact D|exact NS|]. left. apply created_names, C1. }
      destruct (namesCreated (ax sd d)) eqn:C2; cbn [negb].
      2:{ exists t, (Err InvalidArgumentValue). split; [reflexivity|]. split; [reflexivity|]. eapply rf_unnamed; [exact D|exact NS|]. right. apply created_names, C2. }
      cbn [rbind]. destruct (constructIndices (ax sd t) (nameIdents (ax sd d))) as [idx|e] eqn:C.
      * pose proof (proj1 (constructIndices_Denotes _ _ _ IA) C) as F. apply (placed sd t src d None _ idx W Wd D F).
        apply pl_names; [exact NS| | |].
        -- intros X. apply created_names in X. congruence.
        -- intros X. apply created_names in X. congruence.
        -- apply nameIdents_denote, F.
      * unfold replace. rewrite C. exists t, (Err e). split; [reflexivity|]. split; [reflexivity|].
        apply cI_exc in C; [|exact IA]. destruct C as (id & I & N & X). unfold nameIdents in I. apply in_map_iff in I. destruct I as (o & <- & I).
        eapply rf_name; [exact D|exact NS|exact I| |exact X].
        intros s -> Is. apply In_nth_error in Is. destruct Is as (q & Q). apply (N (Z.of_nat q)). cbn. exists q. auto.
Qed.

Lemma denote_nameIdents (a : axis) (l : list (option string)) idx :
  Forall2 (fun o i => exists s, o = Some s /\ nth_error (getNames a) i = Some (Some s)) l idx ->
  Forall2 (fun id i => Denotes a false id (Z.of_nat i)) (map (fun o => match o with Some s => IdStr s | None => IdOther end) l) idx.
Proof.
  induction 1 as [|o i l idx (s & -> & N) F IH]; cbn; constructor; [|exact IH]. cbn. exists i. auto.
Qed.
Lemma replace_accepts sd t d locs idx : wf t -> wf d -> Places sd t d locs idx -> Fit sd t d idx ->
  exists t', replaceCall sd t (SrcObj d false) locs = (t', Ok tt) /\ Assigned sd idx d t t'.
Proof.
  intros W Wd P (FL & FW). pose proof (wf_Inv V sd t W) as IA.
  assert (X : exists ids, locations sd t d locs = Ok ids /\ Forall2 (fun id i => Denotes (ax sd t) false id (Z.of_nat i)) ids idx).
  { destruct P as [ids idx F|idx (E1 & E2) ->|idx NS N1 N2 F]; cbn [locations].
    - exists ids. auto.
    - rewrite E1, E2, !Nat.eqb_refl. cbn [andb]. eexists. split; [reflexivity|]. apply seq_denote. lia.
    - replace ((alen (tp t) =? alen (tp d)) && (alen (tf t) =? alen (tf d))) with false.
      2:{ symmetry. apply not_true_iff_false. intros H. apply andb_true_iff in H. destruct H as (H1 & H2). apply Nat.eqb_eq in H1. apply Nat.eqb_eq in H2. apply NS. split; assumption. }
      destruct (namesCreated (ax sd t)) eqn:C1; [|exfalso; apply N1, created_names, C1].
      destruct (namesCreated (ax sd d)) eqn:C2; [|exfalso; apply N2, created_names, C2].
      cbn [negb]. eexists. split; [reflexivity|]. apply denote_nameIdents, F. }
  destruct X as (ids & L & F). pose proof (fun i => denote_range _ _ _ i F IA) as Rng.
  unfold replaceCall. cbn [replacement rbind]. rewrite L. cbn [rbind]. unfold replace. rewrite (proj2 (constructIndices_Denotes _ _ _ IA) F).
  rewrite FL, Nat.eqb_refl. cbn [negb]. pose proof (vectors_length V sd d Wd) as VL.
  destruct (loop_ok sd idx (vectors sd d) t W Rng) as (t' & A & W' & T1 & T2 & B & C).
  - congruence.
  - intros r I. apply In_nth_error in I. destruct I as (j & J). rewrite (vector_len V sd d j r Wd J). destruct idx as [|i0 is0].
    + exfalso. apply nth_error_lt in J. cbn in FL. lia.
    + apply FW. discriminate.
  - intros N. apply FW, N.
  - exists t'. split; [exact A|]. split; [exact W'|]. do 2 (split; [congruence|]). do 2 (split; [congruence|]).
    assert (AX : alen (ax sd t') = alen (ax sd t)) by (destruct sd; cbn; congruence). split.
    + intros x k j Lx. pose proof (proj1 Lx) as N. pose proof (nth_error_In _ _ N) as I. apply Rng in I. apply nth_error_lt in N.
      apply keyOf_vectors; [exact Wd|exact W'| |lia|lia]. apply B, Lx.
    + intros x j N. destruct (Nat.lt_ge_cases x (alen (ax sd t))) as [Lx|Lx].
      * apply keyOf_vectors; [exact W|exact W'| |lia|exact Lx]. apply C, N.
      * rewrite !keyOf_out; [reflexivity|exact W|exact Lx|exact W'|lia].
Qed.
(** data of the shape of the object replaces all of it *)
Lemma replace_everything sd t d : wf t -> wf d -> SameShape t d -> 0 < alen (tp t) -> 0 < alen (tf t) ->
  exists t', replaceCall sd t (SrcObj d false) None = (t', Ok tt) /\ wf t' /\
    getNames (tp t') = getNames (tp t) /\ getNames (tf t') = getNames (tf t) /\ forall i j, cell t' i j = cell d i j.
Proof.
  intros W Wd SS P1 P2. pose proof SS as (E1 & E2).
  assert (EX : alen (ax sd d) = alen (ax sd t)) by (destruct sd; cbn; congruence).
  destruct (replace_accepts sd t d None (seq 0 (alen (ax sd t))) W Wd) as (t' & A & W' & L1 & L2 & N1 & N2 & B & C).
  - apply pl_all; auto.
  - split; [rewrite seq_length; congruence|]. intros _. destruct sd; cbn; split; congruence || lia.
  - exists t'. split; [exact A|]. split; [exact W'|]. split; [exact N1|]. split; [exact N2|].
    assert (K : forall i j, keyOf sd t' i j = keyOf sd d i j).
    { intros i j. destruct (Nat.lt_ge_cases i (alen (ax sd t))) as [L|L].
      - apply B. split; [rewrite nth_error_seq; apply Nat.ltb_lt in L; rewrite L; reflexivity|].
        intros k' Lk. rewrite nth_error_seq. destruct (Nat.ltb_spec k' (alen (ax sd t))); [|discriminate]. cbn. intros [= X]. lia.
      - rewrite !keyOf_out; [reflexivity|exact Wd|lia|exact W'|]. destruct sd; cbn in *; lia. }
    intros i j. destruct sd; [exact (K i j)|exact (K j i)].
Qed.
End Proofs.
