From Verif Require Import Base NamesModel NamesSpec TableModel TableSpec TableProofs TablePermProofs TableOps TableSortProofs
  TableInsertProofs TableOpsProofs TableOps2Proofs TableOps3Proofs SparseModel SparseSpec SparseProofs SparseOpsProofs SparseEqProofs.
From Coq Require Import Sorted.

Section P.
Variable V : Type.
Context {EV : EqDec V}.
Variable zero : V.
Implicit Types s : sparse V.
Implicit Types t : table V.
Notation valS := (valS zero).
Notation represents := (represents zero).

Lemma represents_sd sd s t : wf t ->
  (represents s t <-> axLen sd s = alen (ax sd t) /\ offLen sd s = alen (offax sd t) /\
   forall p v, nth_error (vectors sd t) p = Some v -> forall o, o < alen (offax sd t) -> nth_error v o = Some (valS sd s p o)).
Proof.
  intros Hwf. unfold SparseSpec.represents. split.
  - intros [A [B C]]. split; [destruct sd; auto|]. split; [destruct sd; auto|].
    intros p v Hv o Ho. rewrite (vectors_cell V sd t p v o Hwf Hv).
    assert (Hp : p < alen (ax sd t)) by (apply nth_error_lt in Hv; rewrite vectors_length in Hv; auto).
    destruct sd; simpl in *; apply C; auto.
  - intros [A [B C]].
    assert (D : forall p o, p < alen (ax sd t) -> o < alen (offax sd t) ->
       match sd with Pts => cell t p o | Fts => cell t o p end = Some (valS sd s p o)).
    { intros p o Hp Ho. destruct (nth_error_is_some (vectors sd t) (i:=p)) as [v Hv]; [rewrite vectors_length; auto|].
      rewrite <- (vectors_cell V sd t p v o Hwf Hv). eauto. }
    destruct sd; simpl in *; (split; [auto|]); (split; [auto|]); intros i j Hi Hj; [apply (D i j)|apply (D j i)]; auto.
Qed.

(** both are described by a list of source vectors *)
Lemma represents_selected sd s t idx r t' : wf t -> wf t' -> represents s t ->
  (forall i, In i idx -> i < alen (ax sd t)) ->
  items sd t' = selected idx (items sd t) -> alen (offax sd t') = alen (offax sd t) ->
  axLen sd r = List.length idx -> offLen sd r = offLen sd s ->
  (forall k p o, nth_error idx k = Some p -> valS sd r k o = valS sd s p o) ->
  represents r t'.
Proof.
  intros Hwf Hwf' HR Hidx Hit Hoff Hl Ho Hv. rewrite (represents_sd sd) in * by auto.
  destruct HR as [A [B C]].
  assert (Hvec : vectors sd t' = selected idx (vectors sd t)).
  { rewrite <- (items_vectors V sd t') by auto. rewrite Hit, map_selected, items_vectors by auto. auto. }
  assert (Hrange : forall i, In i idx -> i < List.length (vectors sd t)) by (intros; rewrite vectors_length; auto).
  split; [|split].
  - rewrite <- (vectors_length V sd t') by auto. rewrite Hvec, selected_length by auto. auto.
  - congruence.
  - intros p v Hp o Hlo. rewrite Hvec, selected_nth in Hp by auto. destruct (nth_error idx p) as [i|] eqn:Ei; [|discriminate].
    rewrite (C i v Hp o) by congruence. f_equal. symmetry. auto.
Qed.

Lemma refine_taken fast sd s t targets : wf t -> sinv zero s -> represents s t -> NoDup targets ->
  (forall i, In i targets -> i < alen (ax sd t)) ->
  exists t', taken sd t targets = Ok t' /\ represents (sTaken fast sd s targets) t'.
Proof.
  intros Hwf HI HR Hn Hr. destruct (taken_spec V sd t targets Hwf Hn Hr) as [t' [E [Hw' [Hso [Hl Hit]]]]].
  exists t'. split; auto. destruct (sTaken_spec V zero fast sd s targets HI) as [H1 [H2 [H3 H4]]].
  eapply represents_selected with (idx := targets) (s := s) (t := t); eauto. apply Hso.
Qed.
Lemma refine_remaining fast sd s t targets : wf t -> sinv zero s -> represents s t -> NoDup targets ->
  (forall i, In i targets -> i < alen (ax sd t)) ->
  exists t', remaining sd t targets = Ok t' /\ represents (sRemaining fast sd s targets) t'.
Proof.
  intros Hwf HI HR Hn Hr. destruct (remaining_spec V sd t targets Hwf Hn Hr) as [t' [E [Hw' [Hso [Hl Hit]]]]].
  exists t'. split; auto. destruct (sRemaining_spec V zero fast sd s targets HI) as [H1 [H2 [H3 H4]]].
  pose proof HR as HR'. rewrite (represents_sd sd) in HR' by auto. destruct HR' as [A [B _]].
  rewrite survivors_keep, items_length in Hit by auto. rewrite A in *.
  eapply represents_selected with (s := s) (t := t); [exact Hwf|exact Hw'|exact HR| |exact Hit| | | |]; eauto.
  - intros i Hi. eapply keepIdx_range; eauto.
  - rewrite Hso; auto.
Qed.
Lemma refine_permute sd s t order : wf t -> sinv zero s -> represents s t -> Permutation order (seq 0 (alen (ax sd t))) ->
  exists t', permute sd t order = Ok t' /\ represents (sPermute sd s order) t'.
Proof.
  intros Hwf HI HR HP. destruct (permute_spec V sd t order Hwf HP) as [t' [E [Hw' [Hso [Hl Hit]]]]].
  exists t'. split; auto.
  pose proof HR as HR'. rewrite (represents_sd sd) in HR' by auto. destruct HR' as [A [B _]].
  destruct (sPermute_spec V zero sd s order HI) as [H1 [H2 [H3 H4]]]; [rewrite A; auto|].
  destruct (perm_seq_facts order _ HP) as [_ [Hlen Hr]].
  eapply represents_selected with (idx := order) (s := s) (t := t); eauto.
  all: try (destruct sd; simpl in *; congruence); rewrite Hso; auto.
Qed.
Lemma refine_transpose s t : wf t -> sinv zero s -> represents s t -> represents (sTranspose s) (transpose t).
Proof.
  intros Hwf HI [A [B C]]. destruct (transpose_spec V t Hwf) as [Hw' [Hc [L1 [L2 _]]]].
  destruct (sTranspose_spec V zero s HI) as [H1 [H2 [H3 H4]]]. split; [congruence|]. split; [congruence|].
  intros i j Hi Hj. change (cell (transpose t) i j = Some (val zero (sTranspose s) i j)). rewrite Hc, H4. apply C; congruence.
Qed.
Lemma refine_insert sd s t so o before t' : wf t -> wf o -> sinv zero s -> sinv zero so -> represents s t ->
  alen (offax sd o) = alen (offax sd t) -> insertTable sd t before o = Ok t' ->
  exists b o', InsertPos (ax sd t) before b /\ Aligned V sd t o o' /\
    (represents so o' -> represents (sInsert sd s so b) t').
Proof.
  intros Hwf Hwo HI HIo HR HOL E. destruct (insert_spec V sd t before o t' Hwf Hwo E) as (b & o' & Hb & Hbl & Ha & Hw' & Hoff & Hlen & Hit).
  exists b, o'. split; auto. split; auto. intros HRo.
  assert (Hwo' : wf o' /\ alen (offax sd o') = alen (offax sd t) /\ alen (ax sd o') = alen (ax sd o)).
  { destruct Ha as [Q1 [Q2 [Q3 _]]]. rewrite Q2, Q3. auto. }
  destruct Hwo' as [Hwo' [Hoo Hao]].
  rewrite (represents_sd sd) in HR, HRo by auto. apply (represents_sd sd); auto.
  destruct HR as [A [B C]], HRo as [A' [B' C']].
  destruct (sInsert_spec V zero sd s so b HI HIo) as [H1 [H2 [H3 H4]]]; try lia.
  assert (Hvec : vectors sd t' = firstn b (vectors sd t) ++ vectors sd o' ++ skipn b (vectors sd t)).
  { rewrite <- (items_vectors V sd t') by auto. rewrite Hit, !map_app, <- firstn_map, <- skipn_map, !items_vectors by auto. auto. }
  split; [lia|]. split; [rewrite Hoff; lia|]. rewrite Hoff.
  intros p v Hp q Hq. rewrite H4. rewrite Hvec in Hp.
  rewrite nth_error_app, firstn_length, vectors_length, Nat.min_l in Hp by (auto; lia).
  destruct (Nat.ltb_spec p b).
  - rewrite nth_error_firstn in Hp. destruct (Nat.ltb_spec p b); [|lia]. eapply C; eauto.
  - rewrite nth_error_app, vectors_length in Hp by auto. rewrite A'.
    destruct (Nat.ltb_spec (p - b) (alen (ax sd o'))); destruct (Nat.ltb_spec p (b + alen (ax sd o'))); try lia.
    + apply C'; auto. congruence.
    + rewrite nth_error_skipn in Hp. replace (b + (p - b - alen (ax sd o'))) with (p - alen (ax sd o')) in Hp by lia.
      eapply C; eauto.
Qed.
Lemma refine_repeat sd s t total vv : wf t -> sinv zero s -> represents s t -> 0 < total ->
  (namesCreated (ax sd t) = true -> fullyNamed (ax sd t)) ->
  exists t', tableRepeat dec10 sd t total vv = Ok t' /\ represents (sRepeat sd s total vv) t'.
Proof.
  intros Hwf HI HR Ht Hfull. destruct (tableRepeat_spec V sd t total vv Hwf Ht Hfull) as [t' [E [Hw' [Hoff [Hlen Hv]]]]].
  exists t'. split; auto. rewrite (represents_sd sd) in HR by auto. apply (represents_sd sd); auto.
  destruct HR as [A [B C]]. destruct (sRepeat_spec V zero sd s total vv HI Ht) as [H1 [H2 [H3 H4]]].
  split; [lia|]. split; [rewrite Hoff; lia|]. rewrite Hoff. intros p v Hp o Ho.
  assert (Hpl : p < total * alen (ax sd t)) by (apply nth_error_lt in Hp; rewrite vectors_length in Hp; auto; lia).
  destruct (Hv p Hpl) as [Hv1 _]. rewrite Hv1 in Hp. rewrite H4 by lia. rewrite A.
  replace (if vv then p / total else p mod alen (ax sd t)) with (repSource vv total (alen (ax sd t)) p) by (unfold repSource; destruct vv; auto).
  eapply C; eauto.
Qed.
Lemma sorted_lt_ext l l' : StronglySorted lt l -> StronglySorted lt l' -> (forall i, In i l <-> In i l') -> l = l'.
Proof. intros. apply (sorted_same_members lt); auto; intros; lia. Qed.
Lemma refine_unique sd s t : wf t -> sinv zero s -> represents s t -> 0 < alen (offax sd t) ->
  exists t', tableUnique (fun v => v) sd t = Ok t' /\ represents (snd (sUnique sd s)) t'.
Proof.
  intros Hwf HI HR Hpos.
  destruct (tableUnique_spec V (fun v => v) sd t Hwf Hpos) as (t' & idx & E & [Hs Hf] & Hw' & Hoff & Hit); auto.
  exists t'. split; auto. destruct (sUnique_spec V zero sd s HI) as [_ [_ [H1 [H2 [first [F1 [F2 [F3 F4]]]]]]]].
  pose proof HR as HR'. rewrite (represents_sd sd) in HR' by auto. destruct HR' as [A [B C]].
  assert (Hidx : idx = first).
  { apply sorted_lt_ext; auto. intros i. rewrite F3, Hf, A. split.
    - intros [v [Hv Hd]]. split; [apply nth_error_lt in Hv; rewrite vectors_length in Hv; auto|].
      intros j Hj. destruct (nth_error_is_some (vectors sd t) (i:=j)) as [w Hw]; [apply nth_error_lt in Hv; lia|].
      pose proof (Hd j w Hj Hw) as Hne.
      assert (Hdec : forall n, (exists o, valS sd s j o <> valS sd s i o) \/ (forall o, o < n -> valS sd s j o = valS sd s i o)).
      { induction n as [|n IHn]; [right; intros; lia|]. destruct IHn as [|IHn]; auto.
        destruct (eq_dec (valS sd s j n) (valS sd s i n)) as [E'|E']; [|left; eauto].
        right. intros o Ho. destruct (Nat.eq_dec o n); [subst; auto|apply IHn; lia]. }
      destruct (Hdec (alen (offax sd t))) as [|Hall]; auto. exfalso. apply Hne.
      apply nth_error_ext_len; [rewrite (vector_len V sd t j w), (vector_len V sd t i v); auto|].
      intros o Ho. rewrite (vector_len V sd t j w) in Ho by auto. rewrite (C j w Hw o Ho), (C i v Hv o Ho), Hall; auto.
    - intros [Hi Hd]. destruct (nth_error_is_some (vectors sd t) (i:=i)) as [v Hv]; [rewrite vectors_length; auto|].
      exists v. split; auto. intros j w Hj Hw ->. destruct (Hd j Hj) as [o Ho]. apply Ho.
      destruct (Nat.lt_ge_cases o (alen (offax sd t))) as [Hlt|Hge].
      + pose proof (C j v Hw o Hlt) as Q1. pose proof (C i v Hv o Hlt) as Q2. congruence.
      + rewrite <- B in Hge. transitivity zero; [|symmetry]; destruct sd; simpl in *; apply val_range; auto; apply HI. }
  subst idx. eapply represents_selected with (s := s) (t := t); [exact Hwf|exact Hw'|exact HR| |exact Hit| | | |]; eauto.
  - intros i Hi. apply F3 in Hi. lia.
  - apply Hoff.
Qed.
End P.
