From Verif Require Import Base TableModel TableSpec TableSortProofs LearnModel LearnSpec.
From Coq Require Import Sorted.
Open Scope list_scope.
Open Scope nat_scope.

(** ** C44 *)
Section Merge.
Context {V : Type} {EV : EqDec V}.
Notation args := (@dict string V).
Lemma mergeLoop_spec (sm ret : args) : wfdict ret -> wfdict sm ->
  (mergeLoop ret sm = Err InvalidArgumentValueCombination /\
     exists k v w, dget k ret = Some v /\ dget k sm = Some w /\ v <> w) \/
  (exists m, mergeLoop ret sm = Ok m /\ wfdict m /\
     (forall k, dget k m = match dget k sm with Some v => Some v | None => dget k ret end) /\
     forall k v w, dget k ret = Some v -> dget k sm = Some w -> v = w).
Proof.
  revert ret; induction sm as [|[k0 v0] t IH]; intros ret Hr Hs; simpl.
  - right. exists ret. repeat split; auto. discriminate.
  - unfold wfdict in Hs; simpl in Hs. inversion Hs as [|? ? Hn Hd]; subst.
    assert (Hset : wfdict (dset k0 v0 ret)) by (apply wfdict_dset; auto).
    assert (Ht0 : dget k0 t = None) by (apply dget_None; auto).
    assert (Hstep : dget k0 ret = None \/ dget k0 ret = Some v0 ->
      (mergeLoop (dset k0 v0 ret) t = Err InvalidArgumentValueCombination /\
        (exists k v w, dget k ret = Some v /\ dget k ((k0, v0) :: t) = Some w /\ v <> w)) \/
      (exists m, mergeLoop (dset k0 v0 ret) t = Ok m /\ wfdict m /\
        (forall k, dget k m = match dget k ((k0, v0) :: t) with Some v => Some v | None => dget k ret end) /\
        forall k v w, dget k ret = Some v -> dget k ((k0, v0) :: t) = Some w -> v = w)).
    { intros H0. destruct (IH (dset k0 v0 ret) Hset Hd) as [[He (k & v & w & H1 & H2 & H3)]|(m & Hm & Hw & Hg & Hc)].
      - left. split; auto. rewrite dget_dset in H1. exists k, v, w. simpl.
        destruct (eq_dec k k0) as [->|]; [congruence|auto].
      - right. exists m. split; auto. split; auto. split.
        + intros k. rewrite Hg, dget_dset. simpl. destruct (eq_dec k k0) as [->|]; auto.
          rewrite Ht0; auto.
        + intros k v w H1 H2. simpl in H2. destruct (eq_dec k k0) as [->|Hk].
          * destruct H0; congruence.
          * apply (Hc k); auto. rewrite dget_dset. destruct (eq_dec k k0); congruence. }
    destruct (dget k0 ret) as [v|] eqn:Hk.
    + destruct (eq_dec v v0) as [->|Hne].
      * apply Hstep; auto.
      * left. split; auto. exists k0, v, v0. rewrite Hk. simpl. destruct (eq_dec k0 k0); [auto|congruence].
    + apply Hstep; auto.
Qed.

Lemma mergeArguments_spec (a kw : args) : wfdict a -> wfdict kw ->
  (mergeArguments a kw = Err InvalidArgumentValueCombination /\
     exists k v w, dget k a = Some v /\ dget k kw = Some w /\ v <> w) \/
  (exists m, mergeArguments a kw = Ok m /\ wfdict m /\
     (forall k, dget k m = match dget k a with Some v => Some v | None => dget k kw end) /\
     forall k v w, dget k a = Some v -> dget k kw = Some w -> v = w).
Proof.
  intros Ha Hk. unfold mergeArguments.
  destruct a as [|p a]; [destruct kw|destruct kw as [|q kw]].
  - right. exists []. repeat split; auto; try discriminate.
  - right. eexists. split; [reflexivity|]. repeat split; auto; discriminate.
  - right. eexists. split; [reflexivity|]. split; auto. split; [|discriminate].
    intros k. destruct (dget k (p :: a)); auto.
  - remember (p :: a) as A eqn:EA; remember (q :: kw) as B eqn:EB. clear EA EB.
    assert (HL : forall d : args, wfdict d -> fold_left (fun d p => dset (fst p) (snd p) d) d [] = d).
    { intros d Hd. apply dict_of_nodup. exact Hd. }
    destruct (List.length A <? List.length B); rewrite HL by auto.
    + destruct (mergeLoop_spec A B Hk Ha) as [[He (k & v & w & H1 & H2 & H3)]|(m & Hm & Hw & Hg & Hc)].
      * left. split; auto. exists k, w, v; auto.
      * right. exists m. split; auto. split; auto. split; auto. intros; symmetry; eapply Hc; eauto.
    + destruct (mergeLoop_spec B A Ha Hk) as [[He (k & v & w & H1 & H2 & H3)]|(m & Hm & Hw & Hg & Hc)].
      * left. split; auto. exists k, v, w; auto.
      * right. exists m. split; auto. split; auto. split; auto.
        intros k. rewrite Hg. destruct (dget k B) eqn:E1, (dget k A) eqn:E2; auto.
        f_equal; symmetry; eapply Hc; eauto.
Qed.

(** ** C45 *)
Variable valid : args -> bool.
Variable isTune : V -> bool.
Lemma storeLoop_ok (m a tr : args) : (forall k v, In (k, v) m -> isTune v = false) ->
  storeLoop isTune m a tr = ((fold_left (fun d p => dset (fst p) (snd p) d) m a,
                              fold_left (fun d p => dset (fst p) (snd p) d) m tr), Ok tt).
Proof.
  revert a tr; induction m as [|[k v] t IH]; intros a tr H; simpl; auto.
  rewrite (H k v) by (left; auto). apply IH. intros; eapply H; right; eauto.
Qed.
Lemma fold_dset_get (m d : args) k : wfdict m ->
  dget k (fold_left (fun d p => dset (fst p) (snd p) d) m d) =
  match dget k m with Some v => Some v | None => dget k d end.
Proof.
  unfold wfdict, dkeys; revert d; induction m as [|[k0 v0] t IH]; intros d Hd; simpl; auto.
  simpl in Hd; inversion Hd as [|? ? Hn Hd']; subst. rewrite IH, dget_dset by auto.
  destruct (eq_dec k k0) as [->|]; auto. apply dget_None in Hn. rewrite Hn; auto.
Qed.
Lemma retrain_step s a kw : wfdict a -> wfdict kw -> noTune isTune a -> noTune isTune kw ->
  match mergeArguments a kw with
  | Ok m => if valid m then snd (retrain valid isTune s a kw) = Ok tt /\ wfdict m /\
        exists u, tlUsed (fst (retrain valid isTune s a kw)) = tlUsed s ++ [u] /\
          tlTrans (fst (retrain valid isTune s a kw)) = u /\
          tlArgs (fst (retrain valid isTune s a kw)) = m /\
          (forall k, dget k u = match dget k m with Some v => Some v | None => dget k (tlTrans s) end)
      else fst (retrain valid isTune s a kw) = s /\ exists e, snd (retrain valid isTune s a kw) = Err e
  | Err e => retrain valid isTune s a kw = (s, Err e)
  end.
Proof.
  intros Ha Hk Na Nk. unfold retrain.
  destruct (mergeArguments_spec a kw Ha Hk) as [[He _]|(m & Hm & Hw & Hg & Hc)].
  - rewrite He; auto.
  - rewrite Hm. destruct (valid m) eqn:Ev; simpl; [|eauto].
    rewrite storeLoop_ok; simpl.
    + split; auto. split; auto. eexists; repeat split; auto.
      intros k. apply fold_dset_get; auto.
    + intros k v Hin. apply In_dget in Hin; auto. rewrite Hg in Hin.
      destruct (dget k a) eqn:E1.
      * inversion Hin; subst. apply dget_In in E1. eapply Na; eauto.
      * apply dget_In in Hin. eapply Nk; eauto.
Qed.
Lemma retrainAll_spec a0 h : Forall (goodCall isTune) h ->
  let s := retrainAll valid isTune (trainTL a0) h in
  List.length (tlUsed s) = S (List.length (successes valid h)) /\
  (exists u, last (tlUsed s) [] = u /\ tlTrans s = u /\
     forall k, latest k (a0 :: successes valid h) (dget k u)).
Proof.
  induction h as [|p h IH] using rev_ind; intros H; simpl.
  - split; auto. exists a0. split; auto. split; auto.
    intros k. destruct (dget k a0) eqn:E.
    + apply (@latest_set _ k [] a0 _ E).
    + apply (@latest_skip _ k [] a0 None E); constructor.
  - apply Forall_app in H as [Hh Hp]. inversion Hp as [|? ? Hg _]; subst.
    destruct (IH Hh) as (Hlen & u & Hu & Ht & Hl). destruct Hg as (G1 & G2 & G3 & G4).
    set (s := retrainAll valid isTune (trainTL a0) h) in *.
    assert (Es : retrainAll valid isTune (trainTL a0) (h ++ [p]) = fst (retrain valid isTune s (fst p) (snd p))).
    { unfold retrainAll. rewrite fold_left_app. reflexivity. }
    rewrite Es. unfold successes in *. rewrite flat_map_app. simpl. rewrite app_nil_r.
    pose proof (retrain_step s _ _ G1 G2 G3 G4) as Hst.
    destruct (mergeArguments (fst p) (snd p)) as [m|e] eqn:Em.
    + destruct (valid m).
      * destruct Hst as (_ & Hwm & u' & Hu' & Ht' & Ha' & Hg').
        rewrite Hu'. rewrite !app_length, Hlen; simpl. split; [lia|].
        exists u'. rewrite last_last. repeat split; auto.
        intros k. rewrite Hg'. rewrite app_comm_cons. destruct (dget k m) eqn:Ek.
        -- apply latest_set; auto.
        -- apply latest_skip; auto. rewrite Ht. apply Hl.
      * destruct Hst as (-> & _). rewrite app_nil_r. split; auto. exists u; auto.
    + rewrite Hst. simpl. rewrite app_nil_r. split; auto. exists u; auto.
Qed.
End Merge.

(** ** C52 *)
Lemma runCall_top c : exists e vs, runCall None c = (None, e, callName c :: vs).
Proof.
  destruct c as [n nested r]; simpl.
  match goal with |- context [let '(e, vs) := ?b in _] => destruct b as [e vs] end.
  simpl; eauto.
Qed.
Lemma runCall_reset f c : exists e vs, runCall f c = (None, e, vs).
Proof.
  destruct c as [n nested r]; simpl.
  match goal with |- context [let '(e, vs) := ?b in _] => destruct b as [e vs] end.
  simpl; eauto.
Qed.
Lemma chain_inner c : chain c -> forall b, exists e, runCall (Some b) c = (None, e, []).
Proof.
  induction 1 as [n r|n c r Hc IH]; intros b; simpl.
  - destruct b; eauto.
  - destruct (IH false) as [e He]. destruct b; rewrite He; destruct e; eauto.
Qed.
Lemma chain_top c : chain c -> exists e, runCall None c = (None, e, [callName c]).
Proof.
  intros H; destruct H as [n r|n c r Hc]; simpl; eauto.
  destruct (chain_inner _ Hc true) as [e He]. rewrite He. destruct e; eauto.
Qed.
Lemma runSession_spec cs : snd (runSession cs) = None /\
  List.length (fst (runSession cs)) = List.length cs /\
  forall i c, nth_error cs i = Some c -> exists vs, nth_error (fst (runSession cs)) i = Some (callName c :: vs) /\
    (chain c -> vs = []).
Proof.
  induction cs as [|c cs IH] using rev_ind.
  - simpl. repeat split; auto. intros [|i] c; discriminate.
  - destruct IH as (H1 & H2 & H3). unfold runSession in *. rewrite fold_left_app. simpl.
    destruct (fold_left (fun (acc : list (list nat) * flag) (c : call) => let '(f, _, vs) := runCall (snd acc) c in (fst acc ++ [vs], f)) cs ([], None)) as [l f]; simpl in *. subst f.
    destruct (runCall_top c) as (e & vs & Hc). rewrite Hc. simpl.
    rewrite !app_length; simpl. split; auto. split; [lia|].
    intros i c' Hi. rewrite nth_error_app in Hi. rewrite nth_error_app. rewrite H2.
    destruct (i <? List.length cs) eqn:El; [apply H3; auto|].
    destruct (i - List.length cs) as [|[|]]; simpl in Hi |- *; try discriminate. injection Hi as <-.
    eexists; split; eauto. intros Hch. destruct (chain_top _ Hch) as (e' & He'). congruence.
Qed.

(** ** C48 *)
Lemma dist2_sq a b : List.length a = List.length b -> dist2 a b = sqdist a b.
Proof.
  unfold dist2. revert b; induction a as [|x a IH]; destruct b as [|y b]; intros H; try discriminate; [reflexivity|].
  injection H as H. cbn [dot sqdist]. rewrite <- IH by auto. ring.
Qed.
Definition dle (p q : nat * Z) : bool := (snd p <=? snd q)%Z.
Lemma StronglySorted_nth_lt {A} (R : A -> A -> Prop) l : StronglySorted R l ->
  forall a b x y, a < b -> nth_error l a = Some x -> nth_error l b = Some y -> R x y.
Proof.
  induction 1 as [|z l HS IH HF]; intros a b x y Hab Ha Hb.
  - destruct a; discriminate.
  - destruct b as [|b]; [lia|]. simpl in Hb. destruct a as [|a]; simpl in Ha.
    + inversion Ha; subst. rewrite Forall_forall in HF. apply HF. eapply nth_error_In; eauto.
    + apply (IH a b); auto; lia.
Qed.
Lemma combine_seq_sorted {A} (l : list A) a :
  StronglySorted (fun p q => fst p < fst q) (combine (seq a (List.length l)) l).
Proof.
  revert a; induction l as [|x l IH]; intros a; simpl; constructor; auto.
  apply Forall_forall. intros [i y] Hin. apply in_combine_l in Hin. apply in_seq in Hin. simpl; lia.
Qed.
Lemma combine_seq_In {A} (l : list A) i x : In (i, x) (combine (seq 0 (List.length l)) l) <-> nth_error l i = Some x.
Proof.
  assert (G : forall a, In (i, x) (combine (seq a (List.length l)) l) <-> (a <= i /\ nth_error l (i - a) = Some x)).
  { induction l as [|y l IH]; intros a; simpl.
    - split; [tauto|]. intros [_ H]. destruct (i - a); discriminate.
    - rewrite IH. split.
      + intros [[= <- <-]|[H1 H2]]; [rewrite Nat.sub_diag; auto|].
        split; [lia|]. replace (i - a) with (S (i - S a)) by lia. auto.
      + intros [H1 H2]. destruct (Nat.eq_dec i a) as [->|Hne].
        * rewrite Nat.sub_diag in H2. simpl in H2. left; congruence.
        * right. split; [lia|]. replace (i - a) with (S (i - S a)) in H2 by lia. auto. }
  rewrite G, Nat.sub_0_r. intuition lia.
Qed.
Lemma nearest_spec (k : Z) ds : (0 <= k)%Z -> kNearest (Z.to_nat k) ds (nearestIdx k ds).
Proof.
  intros Hk. unfold nearestIdx, pyPrefix.
  replace (0 <=? k)%Z with true by (symmetry; apply Z.leb_le; auto).
  set (c := combine (seq 0 (List.length ds)) ds).
  change (fun p q : nat * Z => (snd p <=? snd q)%Z) with dle.
  pose proof (stableSort_perm dle c) as HP.
  assert (HS : StronglySorted (lexR dle (fun p q => fst p < fst q)) (stableSort dle c)).
  { apply stableSort_sorted.
    - intros x y. unfold dle. rewrite !Z.leb_le. lia.
    - intros x y z. unfold dle. rewrite !Z.leb_le. lia.
    - apply combine_seq_sorted. }
  set (S0 := stableSort dle c) in *.
  assert (Hlen : List.length S0 = List.length ds).
  { rewrite (Permutation_length HP). unfold c. rewrite combine_length, seq_length. lia. }
  assert (Hin : forall i x, In (i, x) S0 <-> nth_error ds i = Some x).
  { intros i x. rewrite <- combine_seq_In. split; intros H.
    - eapply Permutation_in; [exact HP|exact H].
    - eapply Permutation_in; [symmetry; exact HP|exact H]. }
  assert (Hb : forall p q, In p S0 -> In q S0 -> lexR dle (fun p q => fst p < fst q) p q -> before ds (fst p) (fst q)).
  { intros [i x] [j y] H1 H2 HR. apply Hin in H1, H2. unfold before. simpl.
    rewrite (nth_error_nth _ _ _ H1), (nth_error_nth _ _ _ H2).
    unfold lexR, dle in HR; simpl in HR. rewrite !Z.leb_le, Z.leb_gt in HR. lia. }
  assert (Hpos : forall i, In i (map fst S0) <-> i < List.length ds).
  { intros i. rewrite in_map_iff. split.
    - intros ([i' x] & <- & H). apply Hin in H. apply nth_error_lt in H; auto.
    - intros H. destruct (nth_error ds i) eqn:E; [|apply nth_error_None in E; lia].
      exists (i, z). split; auto. apply Hin; auto. }
  set (n := Z.to_nat k).
  split; [|split; [|split]].
  - rewrite map_length, firstn_length, Hlen. reflexivity.
  - intros a b i j Hab Ha Hbb. rewrite nth_error_map_eq in Ha, Hbb.
    destruct (nth_error (firstn n S0) a) as [p|] eqn:Ea; [|discriminate].
    destruct (nth_error (firstn n S0) b) as [q|] eqn:Eb; [|discriminate].
    simpl in *. injection Ha as <-. injection Hbb as <-.
    rewrite nth_error_firstn in Ea, Eb. destruct (a <? n); [|discriminate]. destruct (b <? n); [|discriminate].
    apply Hb; try (eapply nth_error_In; eauto; fail). eapply StronglySorted_nth_lt; eauto.
  - intros i Hi. apply Hpos. apply in_map_iff in Hi as (p & <- & Hp). apply in_map.
    rewrite <- (firstn_skipn n S0). apply in_or_app; auto.
  - intros i j Hi Hj Hnj. apply in_map_iff in Hi as (p & <- & Hp).
    apply Hpos in Hj. apply in_map_iff in Hj as (q & <- & Hq).
    assert (Hq' : In q (skipn n S0)).
    { rewrite <- (firstn_skipn n S0) in Hq. apply in_app_or in Hq as [Hq|Hq]; auto.
      exfalso; apply Hnj. apply in_map; auto. }
    apply In_nth_error in Hp as [a Ha]. apply In_nth_error in Hq' as [b Hbq].
    rewrite nth_error_firstn in Ha. destruct (a <? n) eqn:El; [|discriminate]. apply Nat.ltb_lt in El.
    rewrite nth_error_skipn in Hbq.
    apply Hb; try (eapply nth_error_In; eauto; fail). eapply StronglySorted_nth_lt; [exact HS| |exact Ha|exact Hbq]. lia.
Qed.

Section Votes.
Context {L : Type} {EL : EqDec L}.
Lemma countVotes_snoc (l : list L) x : countVotes (l ++ [x]) =
  match dget x (countVotes l) with Some c => dset x (c + 1) (countVotes l) | None => dset x 1 (countVotes l) end.
Proof. unfold countVotes. rewrite fold_left_app. reflexivity. Qed.
Lemma countVotes_spec (l : list L) : wfdict (countVotes l) /\
  forall x, dget x (countVotes l) = if count_occ eq_dec l x =? 0 then None else Some (count_occ eq_dec l x).
Proof.
  induction l as [|y l [IH1 IH2]] using rev_ind.
  - split; [constructor|]. intros x; reflexivity.
  - rewrite countVotes_snoc. split.
    + destruct (dget y (countVotes l)); apply wfdict_dset; auto.
    + intros x. rewrite count_occ_app. simpl. pose proof (IH2 y) as Hy. rewrite Hy.
      destruct (count_occ eq_dec l y =? 0) eqn:E0; rewrite dget_dset, IH2.
      * apply Nat.eqb_eq in E0. destruct (eq_dec x y) as [->|Hn].
        -- rewrite E0. destruct (eq_dec y y); [reflexivity|congruence].
        -- destruct (eq_dec y x); [congruence|]. rewrite Nat.add_0_r. reflexivity.
      * apply Nat.eqb_neq in E0. destruct (eq_dec x y) as [->|Hn].
        -- destruct (eq_dec y y); [|congruence]. replace (count_occ eq_dec l y + 1 =? 0) with false; auto.
           symmetry; apply Nat.eqb_neq; lia.
        -- destruct (eq_dec y x); [congruence|]. rewrite Nat.add_0_r. reflexivity.
Qed.
Lemma countVotes_In (l : list L) x c : In (x, c) (countVotes l) <-> (In x l /\ c = count_occ eq_dec l x).
Proof.
  destruct (countVotes_spec l) as [Hw Hg]. rewrite <- (dget_iff_In x c Hw), Hg.
  rewrite (count_occ_In eq_dec). destruct (count_occ eq_dec l x =? 0) eqn:E.
  - apply Nat.eqb_eq in E. split; [discriminate|lia].
  - apply Nat.eqb_neq in E. split; [intros [= <-]; lia|intros [_ ->]; auto].
Qed.
Definition bestStep (acc : list L * nat) (p : L * nat) : list L * nat :=
  if snd acc <? snd p then ([fst p], snd p)
  else if snd p =? snd acc then (fst acc ++ [fst p], snd acc) else acc.
Lemma bestLabels_spec (votes : list (L * nat)) : (forall p, In p votes -> 0 < snd p) ->
  forall l h, fold_left bestStep votes ([], 0) = (l, h) ->
  (forall p, In p votes -> snd p <= h) /\
  (forall x, In x l <-> In (x, h) votes) /\ (votes = [] -> l = [] /\ h = 0) /\ (votes <> [] -> l <> []).
Proof.
  induction votes as [|p votes IH] using rev_ind; intros Hpos l h.
  - simpl. intros [= <- <-]. repeat split; simpl; try tauto.
  - rewrite fold_left_app. simpl. destruct (fold_left bestStep votes ([], 0)) as [l0 h0] eqn:E0.
    destruct (IH (fun q Hq => Hpos q (in_or_app _ _ _ (or_introl Hq))) l0 h0 eq_refl) as (H1 & H2 & H3 & H4).
    unfold bestStep; simpl. destruct (h0 <? snd p) eqn:Elt; [|destruct (snd p =? h0) eqn:Eeq].
    + apply Nat.ltb_lt in Elt. intros [= <- <-]. split; [|split; [|split]].
      * intros q Hq. apply in_app_or in Hq as [Hq|[<-|[]]]; auto. apply H1 in Hq. lia.
      * intros x. split.
        -- intros [<-|[]]. apply in_or_app; right. destruct p; simpl; auto.
        -- intros Hx. apply in_app_or in Hx as [Hx|[->|[]]]; simpl; auto. apply H1 in Hx. simpl in Hx. lia.
      * intros H. destruct votes; discriminate.
      * discriminate.
    + apply Nat.ltb_ge in Elt. apply Nat.eqb_eq in Eeq. intros [= <- <-]. split; [|split; [|split]].
      * intros q Hq. apply in_app_or in Hq as [Hq|[<-|[]]]; auto; lia.
      * intros x. rewrite !in_app_iff, H2. simpl. destruct p as [a b]; simpl in *. subst b.
        split; intros [|[|[]]]; auto; right; left; congruence.
      * intros H. destruct votes; discriminate.
      * intros _ H. apply app_eq_nil in H as [_ H]; discriminate.
    + apply Nat.ltb_ge in Elt. apply Nat.eqb_neq in Eeq. intros [= <- <-]. split; [|split; [|split]].
      * intros q Hq. apply in_app_or in Hq as [Hq|[<-|[]]]; auto.
      * intros x. rewrite in_app_iff, H2. simpl. split; auto. intros [|[->|[]]]; auto. simpl in *; lia.
      * intros H. destruct votes; discriminate.
      * intros _. apply H4. intros ->. destruct (H3 eq_refl) as [_ ->].
        assert (0 < snd p) by (apply Hpos, in_or_app; right; left; auto). lia.
Qed.
Lemma first_split (f : L -> bool) l x : find f l = Some x ->
  exists pre post, l = pre ++ x :: post /\ f x = true /\ forall y, In y pre -> f y = false.
Proof.
  induction l as [|y l IH]; simpl; [discriminate|]. destruct (f y) eqn:E.
  - intros [= <-]. exists [], l. repeat split; auto. intros z [].
  - intros H. destruct (IH H) as (pre & post & -> & Hf & Hn). exists (y :: pre), post.
    repeat split; auto. intros z [<-|Hz]; auto.
Qed.
Lemma bestLabels_modal (ordered : list L) : ordered <> [] ->
  let best := bestLabels (countVotes ordered) in
  best <> [] /\ (forall x, In x best <-> In x ordered /\ forall y, count_occ eq_dec ordered y <= count_occ eq_dec ordered x).
Proof.
  intros Hne. unfold bestLabels.
  change (fold_left _ (countVotes ordered) ([], 0)) with (fold_left bestStep (countVotes ordered) ([], 0)).
  destruct (fold_left bestStep (countVotes ordered) ([], 0)) as [l h] eqn:E. simpl.
  assert (Hpos : forall p, In p (countVotes ordered) -> 0 < snd p).
  { intros [x c] Hp. apply countVotes_In in Hp as [Hx ->]. simpl. apply (count_occ_In eq_dec) in Hx. lia. }
  destruct (bestLabels_spec _ Hpos _ _ E) as (H1 & H2 & _ & H4).
  assert (Hv : countVotes ordered <> []).
  { destruct ordered as [|z t]; [congruence|]. intros Hc.
    assert (In (z, count_occ eq_dec (z :: t) z) (countVotes (z :: t))) by (apply countVotes_In; simpl; auto).
    rewrite Hc in H; destruct H. }
  split; auto. intros x. rewrite H2, countVotes_In.
  assert (Hle : forall y, count_occ eq_dec ordered y <= h).
  { intros y. destruct (in_dec eq_dec y ordered) as [Hy|Hy].
    - apply (H1 (y, count_occ eq_dec ordered y)). apply countVotes_In; auto.
    - apply (count_occ_not_In eq_dec) in Hy. lia. }
  split.
  - intros [Hx ->]. split; auto.
  - intros [Hx Hm]. split; auto. specialize (H4 Hv). destruct l as [|z l]; [congruence|].
    assert (Hz : In z (z :: l)) by (left; auto). apply H2, countVotes_In in Hz as [_ Hz].
    specialize (Hm z). specialize (Hle x). lia.
Qed.
Lemma rmapM_nth (near : list nat) (trainY : list L) : (forall i, In i near -> i < List.length trainY) ->
  rmapM (fun i => match nth_error trainY i with Some l => Ok l | None => Err IndexErr end) near = Ok (selected near trainY).
Proof.
  induction near as [|i near IH]; intros H; auto.
  simpl rmapM. unfold selected. simpl.
  destruct (nth_error trainY i) eqn:E; [|apply nth_error_None in E; specialize (H i (or_introl eq_refl)); lia].
  simpl. rewrite IH by (intros; apply H; right; auto). reflexivity.
Qed.
Lemma knn_spec (k : Z) trainX (trainY : list L) x : (1 <= k)%Z -> trainX <> [] ->
  List.length trainY = List.length trainX -> (forall r, In r trainX -> List.length r = List.length x) ->
  exists near l, kNearest (Z.to_nat k) (map (sqdist x) trainX) near /\
    knnPredict k trainX trainY x = Ok l /\ modalFirst (selected near trainY) l.
Proof.
  intros Hk Hne Hlen Hrec. unfold knnPredict.
  assert (Hm : map (dist2 x) trainX = map (sqdist x) trainX).
  { apply map_ext_in. intros r Hr. apply dist2_sq. symmetry; auto. }
  rewrite Hm. set (near := nearestIdx k (map (sqdist x) trainX)).
  assert (HN : kNearest (Z.to_nat k) (map (sqdist x) trainX) near) by (apply nearest_spec; lia).
  pose proof HN as (N1 & N2 & N3 & N4). rewrite map_length in N1, N3, N4.
  rewrite rmapM_nth by (intros i Hi; rewrite Hlen; auto). simpl.
  set (ordered := selected near trainY).
  assert (Hord : ordered <> []).
  { unfold ordered, selected. destruct near as [|i near'] eqn:En.
    - simpl in N1. destruct trainX; [congruence|]. simpl in N1. lia.
    - specialize (N3 i (or_introl eq_refl)). simpl. rewrite <- Hlen in N3.
      destruct (nth_error trainY i) eqn:E; [simpl; discriminate|]. apply nth_error_None in E; lia. }
  destruct (bestLabels_modal _ Hord) as [Hb1 Hb2]. cbv zeta in Hb1, Hb2.
  set (best := bestLabels (countVotes ordered)) in *.
  assert (Hfind : forall l, find (fun l => mem l best) ordered = Some l -> modalFirst ordered l).
  { intros l Hl. apply first_split in Hl as (pre & post & Ho & Hf & Hpre). apply mem_In in Hf.
    apply Hb2 in Hf as [_ Hmax]. split; auto. exists pre, post. split; auto.
    intros y Hy. specialize (Hpre y Hy). apply mem_not_In in Hpre.
    assert (In y ordered) by (rewrite Ho; apply in_or_app; auto).
    destruct (Nat.lt_ge_cases (count_occ eq_dec ordered y) (count_occ eq_dec ordered l)); auto.
    exfalso; apply Hpre, Hb2. split; auto. intros z. specialize (Hmax z). lia. }
  assert (Hex : exists l, find (fun l => mem l best) ordered = Some l).
  { destruct (find (fun l => mem l best) ordered) eqn:E; eauto. exfalso.
    destruct best as [|b best']; [congruence|].
    assert (Hbin : In b (b :: best')) by (left; auto). pose proof Hbin as Hbin'. apply Hb2 in Hbin as [Hbo _].
    pose proof (find_none _ _ E b Hbo) as Hno. simpl in Hno. destruct (eq_dec b b); congruence. }
  destruct Hex as [l Hl]. exists near.
  destruct (1 <? List.length best) eqn:E1.
  - exists l. rewrite Hl. auto.
  - destruct best as [|b [|b' best']]; [congruence| |simpl in E1; discriminate].
    exists b. split; auto. split; auto.
    pose proof (find_some _ _ Hl) as [Hlo Hlm]. simpl in Hlm. destruct (eq_dec l b); [subst|discriminate]. auto.
Qed.
Lemma knn_k0 trainX (trainY : list L) x : knnPredict 0 trainX trainY x = Err IndexErr.
Proof. reflexivity. Qed.
(** getScores of the learner: the votes *)
Lemma knnScores_spec (k : Z) labelVals trainX (trainY : list L) x : (1 <= k)%Z ->
  List.length trainY = List.length trainX -> (forall r, In r trainX -> List.length r = List.length x) ->
  exists near, kNearest (Z.to_nat k) (map (sqdist x) trainX) near /\
    knnScores k labelVals trainX trainY x = Ok (map (count_occ eq_dec (selected near trainY)) labelVals).
Proof.
  intros Hk Hlen Hrec. unfold knnScores.
  assert (Hm : map (dist2 x) trainX = map (sqdist x) trainX).
  { apply map_ext_in. intros r Hr. apply dist2_sq. symmetry; auto. }
  rewrite Hm. set (near := nearestIdx k (map (sqdist x) trainX)).
  assert (HN : kNearest (Z.to_nat k) (map (sqdist x) trainX) near) by (apply nearest_spec; lia).
  exists near. split; auto. destruct HN as (_ & _ & N3 & _). rewrite map_length in N3.
  rewrite rmapM_nth by (intros i Hi; rewrite Hlen; auto). simpl. f_equal.
  apply map_ext. intros v. destruct (countVotes_spec (selected near trainY)) as [_ Hg]. rewrite Hg.
  destruct (_ =? 0) eqn:E; auto. apply Nat.eqb_eq in E; auto.
Qed.

(** ** C47: pairs and votes *)
Lemma pairsOf_In (items : list L) a b : In (a, b) (pairsOf items) <->
  exists i j, i < j /\ nth_error items i = Some a /\ nth_error items j = Some b.
Proof.
  induction items as [|x r IH]; simpl.
  - split; [tauto|]. intros (i & j & _ & H & _). destruct i; discriminate.
  - rewrite in_app_iff, in_map_iff, IH. split.
    + intros [(y & [= <- <-] & Hy)|(i & j & Hij & Hi & Hj)].
      * apply In_nth_error in Hy as [j Hj]. exists 0, (S j). repeat split; auto; lia.
      * exists (S i), (S j). repeat split; auto; lia.
    + intros (i & j & Hij & Hi & Hj). destruct j as [|j]; [lia|]. simpl in Hj. destruct i as [|i].
      * simpl in Hi. injection Hi as ->. left. exists b. split; auto. eapply nth_error_In; eauto.
      * right. exists i, j. repeat split; auto; lia.
Qed.
Lemma pairsOf_NoDup (items : list L) : NoDup items -> NoDup (pairsOf items).
Proof.
  induction 1 as [|x r Hx Hr IH]; simpl; [constructor|].
  assert (Hd : forall p, In p (map (fun y => (x, y)) r) -> ~ In p (pairsOf r)).
  { intros [a b] Hp Hq. apply in_map_iff in Hp as (y & [= <- <-] & _).
    apply pairsOf_In in Hq as (i & j & _ & Hi & _). apply Hx. eapply nth_error_In; eauto. }
  assert (Hm : NoDup (map (fun y => (x, y)) r)).
  { apply FinFun.Injective_map_NoDup; auto. intros a b [= ->]; auto. }
  revert Hd. induction Hm as [|p l Hp Hl IHl]; simpl; intros Hd; auto.
  constructor; auto. rewrite in_app_iff. intros [|Hin]; [tauto|]. apply (Hd p); auto.
Qed.
Lemma maxKey_spec (votes : list (L * nat)) : votes <> [] ->
  exists l c, maxKey votes = Some l /\ In (l, c) votes /\ forall p, In p votes -> snd p <= c.
Proof.
  destruct votes as [|p r]; [congruence|intros _]. unfold maxKey.
  assert (G : forall r p, let b := fold_left (fun b q : L * nat => if snd b <? snd q then q else b) r p in
     In b (p :: r) /\ forall q, In q (p :: r) -> snd q <= snd b).
  { clear. induction r as [|q r IH]; intros p b; simpl in b; unfold b.
    - simpl. split; auto. intros q [<-|[]]; auto.
    - destruct (snd p <? snd q) eqn:E.
      + destruct (IH q) as [H1 H2]. split; [right; auto|]. intros z [<-|Hz]; auto.
        apply Nat.ltb_lt in E. specialize (H2 q (or_introl eq_refl)). lia.
      + apply Nat.ltb_ge in E. destruct (IH p) as [H1 H2]. split.
        * destruct H1 as [H1|H1]; [left; exact H1|right; right; exact H1].
        * intros z [<-|[<-|Hz]]; auto.
          -- apply H2; left; auto.
          -- specialize (H2 p (or_introl eq_refl)). lia.
          -- apply H2; right; auto. }
  destruct (G r p) as [H1 H2]. cbv zeta in H1, H2.
  set (b := fold_left _ r p) in *. exists (fst b), (snd b). destruct b; simpl in *; auto.
Qed.
Lemma winningLabel_spec (preds : list L) : preds <> [] ->
  exists l, winningLabel preds = Ok l /\ In l preds /\
    forall x, count_occ eq_dec preds x <= count_occ eq_dec preds l.
Proof.
  intros Hne. unfold winningLabel.
  assert (Hv : countVotes preds <> []).
  { destruct preds as [|z t]; [congruence|]. intros Hc.
    assert (In (z, count_occ eq_dec (z :: t) z) (countVotes (z :: t))) by (apply countVotes_In; simpl; auto).
    rewrite Hc in H; destruct H. }
  destruct (maxKey_spec _ Hv) as (l & c & -> & Hin & Hm). apply countVotes_In in Hin as [Hl ->].
  exists l. repeat split; auto. intros x. destruct (in_dec eq_dec x preds) as [Hx|Hx].
  - apply (Hm (x, count_occ eq_dec preds x)). apply countVotes_In; auto.
  - apply (count_occ_not_In eq_dec) in Hx. lia.
Qed.
Lemma winningIndex_spec (row : list Z) : row <> [] -> exists i, winningIndex row = Some i /\ firstMax row i.
Proof.
  intros Hne. unfold winningIndex.
  set (step := fun (acc : nat * (option Z * option nat)) (s : Z) => _).
  assert (G : forall row, let r := fold_left step row (0, (None, None)) in
    fst r = List.length row /\
    match row with [] => snd r = (None, None)
    | _ => exists i s, snd r = (Some s, Some i) /\ firstMax row i /\ nth_error row i = Some s end).
  { clear. induction row as [|x row IH] using rev_ind; [simpl; auto|].
    cbv zeta. rewrite fold_left_app. simpl. destruct (fold_left step row (0, (None, None))) as [n [m b]]. 
    cbv zeta in IH. simpl in IH. destruct IH as [Hn IH]. subst n. rewrite app_length; simpl.
    destruct row as [|y row].
    - injection IH as -> ->. simpl. split; auto. exists 0, x. repeat split; auto.
      exists x. repeat split; auto.
      + intros [|[|j]] z; simpl; try discriminate. intros [= ->]; lia.
      + intros j z Hj; lia.
    - destruct IH as (i & s & Hs & (s' & Hs' & Hmx & Hf) & Hi). injection Hs as -> ->.
      rewrite Hi in Hs'; injection Hs' as <-.
      pose proof (nth_error_lt _ _ Hi) as Hlt.
      set (l := y :: row) in *.
      change ((y :: row) ++ [x]) with (l ++ [x]).
      assert (Hgoal : exists i0 s0, snd (step (List.length l, (Some s, Some i)) x) = (Some s0, Some i0) /\
                 firstMax (l ++ [x]) i0 /\ nth_error (l ++ [x]) i0 = Some s0).
      { unfold step. destruct (s <? x)%Z eqn:E; cbn [snd].
        - apply Z.ltb_lt in E. exists (List.length l), x.
          assert (Hx : nth_error (l ++ [x]) (List.length l) = Some x).
          { rewrite nth_error_app2, Nat.sub_diag by lia. auto. }
          split; auto. split; auto. exists x. split; auto. split.
          + intros j z Hj. rewrite nth_error_app in Hj. destruct (j <? List.length l).
            * apply Hmx in Hj. lia.
            * destruct (j - List.length l) as [|[|]]; simpl in Hj; try discriminate. injection Hj as ->; lia.
          + intros j z Hj Hz. rewrite nth_error_app1 in Hz by lia. apply Hmx in Hz. lia.
        - apply Z.ltb_ge in E. exists i, s.
          assert (Hi2 : nth_error (l ++ [x]) i = Some s) by (rewrite nth_error_app1; auto).
          split; auto. split; auto. exists s. split; auto. split.
          + intros j z Hj. rewrite nth_error_app in Hj. destruct (j <? List.length l).
            * apply Hmx in Hj. lia.
            * destruct (j - List.length l) as [|[|]]; simpl in Hj; try discriminate. injection Hj as ->; lia.
          + intros j z Hj Hz. rewrite nth_error_app1 in Hz by lia. eapply Hf; eauto. }
      split.
      + unfold step. destruct (s <? x)%Z; simpl; lia.
      + simpl. exact Hgoal. }
  specialize (G row). cbv zeta in G. destruct G as [_ G]. destruct row as [|y row]; [congruence|].
  destruct G as (i & s & Hs & Hf & _). exists i. rewrite Hs. auto.
Qed.
Lemma ovaLabel_spec (labelSet : list L) row : row <> [] -> List.length row = List.length labelSet ->
  exists i l, ovaLabel labelSet row = Ok l /\ nth_error labelSet i = Some l /\ firstMax row i.
Proof.
  intros Hne Hlen. unfold ovaLabel. destruct (winningIndex_spec _ Hne) as (i & -> & Hf).
  destruct Hf as (s & Hs & H1 & H2). pose proof (nth_error_lt _ _ Hs) as Hlt. rewrite Hlen in Hlt.
  destruct (nth_error labelSet i) eqn:E; [|apply nth_error_None in E; lia].
  exists i, l. repeat split; auto. exists s; auto.
Qed.
End Votes.
