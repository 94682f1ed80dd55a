(** Proofs about nimble.random (C36, C37, C55). *)
From Verif Require Import Base NamesModel TableModel SparseModel SparseSpec RandModel RandSpec.
From Coq Require Import QArith Qround Lqa.
Open Scope list_scope.
Open Scope nat_scope.

Section Rand.
Context {PS NS O : Type}.
Variable pySeed : option Z -> nat -> result PS.
Variable npSeed : option Z -> nat -> result NS.
Variable pyDraw : PS -> PS * O.
Variable npDraw : NS -> NS * O.
Notation ex := (exec pySeed npSeed pyDraw npDraw).
Implicit Types st : rstate PS NS.

Lemma alt_unfold s body k st : exists st2 os r, sameRandom st st2 /\
  ex (Alt s body (fun _ => Done)) st = (st2, os, r) /\
  ex (Alt s body k) st = if r then let '(st3, os3, r3) := ex (k os) st2 in (st3, os ++ os3, r3) else (st2, os, false).
Proof.
  cbn [exec]. destruct (match reseed pySeed npSeed s false st with
        | (st0, true) => ex body st0
        | (st0, false) => (st0, [], false)
        end) as [[st1 os] r].
  exists (mkR (py st) (npy st) (settable st) (world st1)), os, r. split; [repeat split|].
  destruct r; [rewrite app_nil_r|]; auto.
Qed.
Lemma alt_restores s body st st' os r : ex (Alt s body (fun _ => Done)) st = (st', os, r) -> sameRandom st st'.
Proof.
  intros E. destruct (alt_unfold s body (fun _ => Done) st) as (st2 & os2 & r2 & S & E2 & _). congruence.
Qed.
Lemma reseed_settable s b st : settable (fst (reseed pySeed npSeed s b st)) = if snd (reseed pySeed npSeed s b st) then b else settable st.
Proof. unfold reseed. destruct (pySeed s (world st)); [destruct (npSeed s (world st))|]; reflexivity. Qed.
Lemma exec_settable (p : prog O) : forall st, settable (fst (fst (ex p st))) = settable st.
Proof.
  induction p as [| |k IH|k IH|s k IH|body IHb k IHk|s body IHb k IHk]; intros st; cbn [exec]; auto.
  - destruct (pyDraw (py st)) as [s' o]. specialize (IH o (mkR s' (npy st) (settable st) (world st))).
    destruct (ex (k o) _) as [[? ?] ?]. exact IH.
  - destruct (npDraw (npy st)) as [s' o]. specialize (IH o (mkR (py st) s' (settable st) (world st))).
    destruct (ex (k o) _) as [[? ?] ?]. exact IH.
  - unfold setSeed. destruct (settable st) eqn:E; [|cbn; auto].
    assert (Q := reseed_settable s true st). destruct (reseed pySeed npSeed s true st) as [st' []]; cbn [fst snd] in *.
    + rewrite IH. auto.
    + congruence.
  - specialize (IHb st). destruct (ex body st) as [[st1 os1] r1]. cbn [fst] in IHb.
    specialize (IHk os1 r1 st1). destruct (ex (k os1 r1) st1) as [[st2 os2] r2]. cbn [fst] in *. congruence.
  - destruct (match reseed pySeed npSeed s false st with
        | (st0, true) => ex body st0
        | (st0, false) => (st0, [], false)
        end) as [[st1 os] r].
    destruct r; [|reflexivity].
    specialize (IHk os (mkR (py st) (npy st) (settable st) (world st1))).
    destruct (ex (k os) _) as [[st3 os3] r3]. exact IHk.
Qed.
Hypothesis HP : seedsFixed pySeed.
Hypothesis HN : seedsFixed npSeed.
Lemma reseed_same z b st st' : sameRandom st st' ->
  sameRandom (fst (reseed pySeed npSeed (Some z) b st)) (fst (reseed pySeed npSeed (Some z) b st')) /\
  snd (reseed pySeed npSeed (Some z) b st) = snd (reseed pySeed npSeed (Some z) b st').
Proof.
  intros (H1 & H2 & H3). unfold reseed. rewrite (HP z (world st) (world st')), (HN z (world st) (world st')).
  destruct (pySeed (Some z) (world st')); [destruct (npSeed (Some z) (world st'))|]; repeat split; auto.
Qed.
Lemma exec_same (p : prog O) : noEntropy p -> forall st st', sameRandom st st' ->
  sameRandom (fst (fst (ex p st))) (fst (fst (ex p st'))) /\
  outs (ex p st) = outs (ex p st') /\ snd (ex p st) = snd (ex p st').
Proof.
  induction p as [| |k IH|k IH|s k IH|body IHb k IHk|s body IHb k IHk]; intros Hn st st' HS; cbn [exec]; try (split; [exact HS|split; reflexivity]).
  - destruct HS as (H1 & H2 & H3). rewrite <- H1. destruct (pyDraw (py st)) as [s' o].
    destruct (IH o (Hn o) (mkR s' (npy st) (settable st) (world st)) (mkR s' (npy st') (settable st') (world st'))) as (Q1 & Q2 & Q3); [repeat split; auto|].
    destruct (ex (k o) _) as [[a b] c]. destruct (ex (k o) (mkR s' (npy st') _ _)) as [[a' b'] c'].
    unfold outs in *. cbn [fst snd] in *. subst. auto.
  - destruct HS as (H1 & H2 & H3). rewrite <- H2. destruct (npDraw (npy st)) as [s' o].
    destruct (IH o (Hn o) (mkR (py st) s' (settable st) (world st)) (mkR (py st') s' (settable st') (world st'))) as (Q1 & Q2 & Q3); [repeat split; auto|].
    destruct (ex (k o) _) as [[a b] c]. destruct (ex (k o) (mkR (py st') s' _ _)) as [[a' b'] c'].
    unfold outs in *. cbn [fst snd] in *. subst. auto.
  - destruct Hn as [Hs Hk]. destruct s as [z|]; [|congruence].
    assert (HS' := HS). destruct HS as (H1 & H2 & H3). unfold setSeed. rewrite <- H3.
    destruct (settable st); [|split; [exact HS'|split; reflexivity]].
    destruct (reseed_same z true st st' HS') as [Q1 Q2].
    destruct (reseed pySeed npSeed (Some z) true st) as [a b], (reseed pySeed npSeed (Some z) true st') as [a' b']. cbn [fst snd] in *. subst b'.
    destruct b; [apply IH; auto|]. split; [exact Q1|split; reflexivity].
  - destruct Hn as [Hb Hk]. destruct (IHb Hb _ _ HS) as (Q1 & Q2 & Q3).
    destruct (ex body st) as [[a b] c], (ex body st') as [[a' b'] c']. unfold outs in Q2. cbn [fst snd] in *. subst b' c'.
    destruct (IHk b c (Hk b c) _ _ Q1) as (R1 & R2 & R3).
    destruct (ex (k b c) a) as [[x y] z], (ex (k b c) a') as [[x' y'] z']. unfold outs in *. cbn [fst snd] in *. subst. auto.
  - destruct Hn as [Hs [Hb Hk]]. destruct s as [z|]; [|congruence].
    destruct (reseed_same z false st st' HS) as [Q1 Q2].
    assert (BB : let g := fun st => match reseed pySeed npSeed (Some z) false st with
        | (st0, true) => ex body st0 | (st0, false) => (st0, [], false) end in
        outs (g st) = outs (g st') /\ snd (g st) = snd (g st')).
    { clear IHk. cbv beta zeta. destruct (reseed pySeed npSeed (Some z) false st) as [a b], (reseed pySeed npSeed (Some z) false st') as [a' b']. cbn [fst snd] in *. subst b'.
      destruct b; [|split; reflexivity]. destruct (IHb Hb _ _ Q1) as (R1 & R2 & R3). auto. }
    cbv beta zeta in BB.
    destruct (match reseed pySeed npSeed (Some z) false st with
        | (st0, true) => ex body st0 | (st0, false) => (st0, [], false) end) as [[st1 os] r].
    destruct (match reseed pySeed npSeed (Some z) false st' with
        | (st0, true) => ex body st0 | (st0, false) => (st0, [], false) end) as [[st1' os'] r'].
    unfold outs in BB. cbn [fst snd] in BB. destruct BB as [-> ->].
    assert (SS : sameRandom (mkR (py st) (npy st) (settable st) (world st1)) (mkR (py st') (npy st') (settable st') (world st1'))) by (destruct HS as (? & ? & ?); repeat split; auto).
    destruct r'; [|split; [exact SS|split; reflexivity]].
    destruct (IHk os' (Hk os') _ _ SS) as (R1 & R2 & R3).
    destruct (ex (k os') _) as [[x y] w]. destruct (ex (k os') (mkR (py st') _ _ _)) as [[x' y'] w'].
    unfold outs in *. cbn [fst snd] in *. subst. auto.
Qed.
(** what is drawn inside a block only depends on the seed *)
Lemma alt_reproducible z body : noEntropy body -> forall st st',
  outs (ex (Alt (Some z) body (fun _ => Done)) st) = outs (ex (Alt (Some z) body (fun _ => Done)) st') /\
  snd (ex (Alt (Some z) body (fun _ => Done)) st) = snd (ex (Alt (Some z) body (fun _ => Done)) st').
Proof.
  intros Hb st st'. cbn [exec]. unfold reseed.
  rewrite (HP z (world st) (world st')), (HN z (world st) (world st')).
  destruct (pySeed (Some z) (world st')) as [p|e] eqn:EP; [|split; reflexivity].
  destruct (npSeed (Some z) (world st')) as [n|e] eqn:EN; [|split; reflexivity].
  destruct (exec_same body Hb (mkR p n false (S (world st))) (mkR p n false (S (world st')))) as (Q1 & Q2 & Q3); [repeat split|].
  destruct (ex body _) as [[a b] c]. destruct (ex body (mkR p n false (S (world st')))) as [[a' b'] c'].
  unfold outs in *. cbn [fst snd] in *. subst. destruct c'; split; reflexivity.
Qed.
Lemma seed_reproducible z body : noEntropy body -> forall st st', settable st = true -> settable st' = true ->
  snd (setSeed pySeed npSeed (Some z) st) = true ->
  outs (ex (SetSeed (Some z) body) st) = outs (ex (SetSeed (Some z) body) st') /\
  snd (ex (SetSeed (Some z) body) st) = snd (ex (SetSeed (Some z) body) st').
Proof.
  intros Hb st st' H1 H2. cbn [exec]. unfold setSeed. rewrite H1, H2. unfold reseed.
  rewrite (HP z (world st) (world st')), (HN z (world st) (world st')).
  destruct (pySeed (Some z) (world st')) as [p|e]; [destruct (npSeed (Some z) (world st')) as [n|e]|]; cbn [snd]; try discriminate.
  intros _. destruct (exec_same body Hb (mkR p n true (S (world st))) (mkR p n true (S (world st')))) as (Q1 & Q2 & Q3); [repeat split|]. auto.
Qed.
End Rand.

(** ** random.data *)
Section Data.
Context {V : Type} {EV : EqDec V}.
Variable zero : V.
Definition upd (a : list V) (l : nat) (v : V) := firstn l a ++ v :: skipn (S l) a.
Lemma upd_len a l v : l < List.length a -> List.length (upd a l v) = List.length a.
Proof. intros H. unfold upd. rewrite app_length, firstn_length. cbn [List.length]. rewrite skipn_length. lia. Qed.
Lemma upd_nth a l v i : l < List.length a -> nth_error (upd a l v) i = if i =? l then Some v else nth_error a i.
Proof.
  intros H. unfold upd. destruct (Nat.eqb_spec i l) as [->|N].
  - rewrite nth_error_app2 by (rewrite firstn_length; lia). rewrite firstn_length, Nat.min_l by lia.
    rewrite Nat.sub_diag. reflexivity.
  - assert (H' : List.length (firstn l a) = l) by (rewrite firstn_length; lia).
    destruct (Nat.lt_ge_cases i l).
    + rewrite nth_error_app1 by lia. rewrite <- (firstn_skipn l a) at 2. rewrite nth_error_app1 by lia. auto.
    + rewrite nth_error_app2 by lia. rewrite H'. destruct (i - l) as [|m] eqn:E; [lia|]. cbn [nth_error].
      rewrite <- (firstn_skipn (S l) a) at 2. rewrite nth_error_app2 by (rewrite firstn_length; lia).
      rewrite firstn_length, Nat.min_l by lia. f_equal. lia.
Qed.
Lemma put_spec : forall loc (vec a : list V), NoDup loc -> (forall l, In l loc -> l < List.length a) -> List.length vec = List.length loc ->
  List.length (putFlat loc vec a) = List.length a /\
  (forall q l v, nth_error loc q = Some l -> nth_error vec q = Some v -> nth_error (putFlat loc vec a) l = Some v) /\
  (forall i, ~ In i loc -> nth_error (putFlat loc vec a) i = nth_error a i).
Proof.
  induction loc as [|l loc IH]; intros [|v vec] a Hd Hb HL; try discriminate.
  - repeat split; auto. intros [] l v H; discriminate.
  - inversion Hd as [|? ? Hn Hd']; subst. assert (Hl : l < List.length a) by (apply Hb; left; auto).
    cbn [putFlat]. fold (upd a l v). destruct (IH vec (upd a l v)) as (L & G & K); auto.
    { intros x Hx. rewrite upd_len by auto. apply Hb. right; auto. }
    rewrite upd_len in L by auto. split; auto. split.
    + intros [|q] l' v' H1 H2; cbn [nth_error] in *.
      * injection H1 as <-. injection H2 as <-. rewrite K by auto. rewrite upd_nth by auto. rewrite Nat.eqb_refl. auto.
      * eapply G; eauto.
    + intros i Hi. rewrite K by (intros H; apply Hi; right; auto). rewrite upd_nth by auto.
      destruct (Nat.eqb_spec i l) as [->|]; auto. exfalso. apply Hi. left; auto.
Qed.
Lemma chunks_spec nf : forall n (a : list V), List.length a = n * nf ->
  hasShape n nf (chunks n nf a) /\ List.concat (chunks n nf a) = a /\
  forall i j, i < n -> j < nf -> nth_error (nth i (chunks n nf a) []) j = nth_error a (i * nf + j).
Proof.
  induction n as [|n IH]; intros a HL.
  - destruct a; [|discriminate]. split; [split; [reflexivity|intros r []]|]. split; auto. intros; lia.
  - assert (L1 : List.length (firstn nf a) = nf) by (rewrite firstn_length; nia).
    destruct (IH (skipn nf a)) as ((S1 & S2) & C & G). { rewrite skipn_length. nia. }
    cbn [chunks]. split; [|split].
    + split; [simpl; lia|]. intros r [<-|Hr]; auto.
    + cbn [List.concat]. rewrite C. apply firstn_skipn.
    + intros [|i] j Hi Hj; cbn [nth].
      * rewrite <- (firstn_skipn nf a) at 2. rewrite nth_error_app1 by lia. auto.
      * rewrite G by lia. rewrite <- (firstn_skipn nf a) at 2. rewrite nth_error_app2 by nia.
        f_equal. nia.
Qed.
Lemma filter_count_upd (f : V -> bool) (a : list V) l v x : nth_error a l = Some x -> f x = true -> f v = false ->
  List.length (filter f a) = S (List.length (filter f (upd a l v))).
Proof.
  intros H Hx Hv. unfold upd. assert (E : a = firstn l a ++ x :: skipn (S l) a).
  { revert a H. induction l as [|l IH]; intros [|y a] H; try discriminate.
    - injection H as ->. reflexivity.
    - cbn [firstn skipn app]. f_equal. apply IH. exact H. }
  rewrite E at 1. rewrite !filter_app, !app_length. cbn [filter]. rewrite Hx, Hv. simpl. lia.
Qed.
Lemma put_zeros : forall loc (vec a : list V), NoDup loc -> (forall l, In l loc -> nth_error a l = Some zero) -> List.length vec = List.length loc ->
  (forall v, In v vec -> v <> zero) ->
  List.length (filter (fun v => eqbd v zero) (putFlat loc vec a)) + List.length loc = List.length (filter (fun v => eqbd v zero) a).
Proof.
  induction loc as [|l loc IH]; intros [|v vec] a Hd Hb HL Hv; try discriminate.
  - simpl. lia.
  - inversion Hd as [|? ? Hn Hd']; subst. cbn [putFlat]. fold (upd a l v).
    assert (Hl : l < List.length a). { apply nth_error_Some. rewrite (Hb l) by (left; auto). discriminate. }
    specialize (IH vec (upd a l v) Hd').
    rewrite (filter_count_upd (fun v => eqbd v zero) a l v zero).
    + cbn [List.length]. rewrite Nat.add_succ_r. f_equal. apply IH; [|simpl in HL; lia|intros; apply Hv; right; auto].
      intros l' Hl'. rewrite upd_nth by auto. destruct (Nat.eqb_spec l' l) as [->|]; [tauto|]. apply Hb. right; auto.
    + apply Hb. left; auto.
    + apply eqbd_refl.
    + apply eqbd_neq. apply Hv. left; auto.
Qed.
Lemma filter_repeat n : List.length (filter (fun v => eqbd v zero) (repeat zero n)) = n.
Proof. induction n; simpl; auto. rewrite eqbd_refl. simpl. auto. Qed.
Lemma nth_error_repeat_lt n i : i < n -> nth_error (repeat zero n) i = Some zero.
Proof. revert i. induction n; intros [|i] H; simpl; try lia; auto. apply IHn. lia. Qed.
Lemma find_combine_spec (nf i j : nat) : 0 < nf -> j < nf -> forall loc (vec : list V), NoDup loc -> List.length vec = List.length loc ->
  match find (fun e => (er e =? i) && (ec e =? j)) (map (fun p => mkE (fst p / nf) (fst p mod nf) (snd p)) (combine loc vec)) with
  | Some e => exists q, nth_error loc q = Some (i * nf + j) /\ nth_error vec q = Some (ev e)
  | None => ~ In (i * nf + j) loc
  end.
Proof.
  intros Hf Hj. induction loc as [|l loc IH]; intros [|v vec] Hd HL; try discriminate.
  - intros [].
  - inversion Hd as [|? ? Hn Hd']; subst. cbn [combine map find er ec fst snd].
    destruct ((l / nf =? i) && (l mod nf =? j)) eqn:B.
    + apply andb_true_iff in B. destruct B as [B1 B2]. apply Nat.eqb_eq in B1, B2. exists 0. simpl. split; auto.
      f_equal. subst. rewrite Nat.mul_comm. apply Nat.div_mod. lia.
    + specialize (IH vec Hd' ltac:(simpl in HL; lia)).
      destruct (find _ _) as [e|].
      * destruct IH as (q & H1 & H2). exists (S q). auto.
      * intros [->|H]; [|auto]. apply andb_false_iff in B.
        rewrite Nat.div_add_l, Nat.div_small, Nat.add_0_r in B by lia.
        rewrite Nat.add_comm, Nat.mod_add, Nat.mod_small in B by lia. rewrite !Nat.eqb_refl in B. destruct B; discriminate.
Qed.
Lemma flat_inj nf a b : 0 < nf -> a / nf = b / nf -> a mod nf = b mod nf -> a = b.
Proof. intros H E1 E2. rewrite (Nat.div_mod a nf), (Nat.div_mod b nf) by lia. congruence. Qed.
Lemma data_spec np nf loc (vec : list V) : 0 < nf -> NoDup loc -> (forall l, In l loc -> l < np * nf) -> List.length vec = List.length loc ->
  (forall v, In v vec -> v <> zero) ->
  let rows := denseData zero np nf loc vec in
  let s := sparseData np nf loc vec in
  hasShape np nf rows /\ snp s = np /\ snf s = nf /\ entsOK zero s /\
  (forall i j, i < np -> j < nf -> val zero s i j = at_ zero rows i j) /\
  (forall i j q v, i < np -> j < nf -> nth_error loc q = Some (i * nf + j) -> nth_error vec q = Some v -> at_ zero rows i j = v) /\
  zerosIn zero rows + List.length loc = np * nf.
Proof.
  intros Hf Hd Hb HL Hv rows s.
  destruct (put_spec loc vec (repeat zero (np * nf)) Hd) as (L & G & K); auto.
  { intros l Hl. rewrite repeat_length. auto. }
  rewrite repeat_length in L.
  destruct (chunks_spec nf np _ L) as (S1 & C & N). fold (denseData zero np nf loc vec) in *. fold rows in S1, C, N.
  assert (AT : forall i j x, i < np -> j < nf -> nth_error (putFlat loc vec (repeat zero (np * nf))) (i * nf + j) = Some x -> at_ zero rows i j = x).
  { intros i j x Hi Hj H. unfold at_. apply nth_error_nth. unfold rows, denseData. rewrite N by auto. auto. }
  split; [exact S1|]. split; [reflexivity|]. split; [reflexivity|].
  split; [|split; [|split]].
  - split.
    + unfold s, sparseData. cbn [ents]. rewrite map_map. cbn [pos er ec].
      replace (map (fun x => pos (mkE (fst x / nf) (fst x mod nf) (snd x))) (combine loc vec)) with (map (fun l => (l / nf, l mod nf)) loc).
      * clear -Hd Hf. induction Hd as [|l loc H Hd IH]; simpl; constructor; auto.
        intros Hin. apply in_map_iff in Hin. destruct Hin as (l' & E & Hl'). injection E as E1 E2.
        rewrite (flat_inj nf l l') in H; auto.
      * clear -HL. revert vec HL. induction loc as [|l loc IH]; intros [|v vec] HL; try discriminate; simpl; auto.
        f_equal. apply IH. simpl in HL. lia.
    + intros e He. unfold s, sparseData in He. cbn [ents] in He. apply in_map_iff in He. destruct He as ((l & v) & <- & Hin).
      cbn [er ec ev fst snd]. assert (Hl := in_combine_l _ _ _ _ Hin). assert (Hv' := in_combine_r _ _ _ _ Hin).
      split; [|split].
      * unfold s, sparseData. cbn [snp]. apply Nat.div_lt_upper_bound; [lia|]. rewrite Nat.mul_comm. auto.
      * change (snf s) with nf. apply Nat.mod_upper_bound. lia.
      * auto.
  - intros i j Hi Hj. unfold val, s, sparseData. cbn [ents].
    assert (F := find_combine_spec nf i j Hf Hj loc vec Hd HL).
    destruct (find _ _) as [e|].
    + destruct F as (q & H1 & H2). symmetry. apply AT; auto. eapply G; eauto.
    + symmetry. apply AT; auto. rewrite K by auto. apply nth_error_repeat_lt. nia.
  - intros i j q v Hi Hj H1 H2. apply AT; auto. eapply G; eauto.
  - unfold zerosIn. rewrite C. clear C.
    rewrite put_zeros; auto; [apply filter_repeat|]. intros l Hl. apply nth_error_repeat_lt. auto.
Qed.
Lemma numNonZero_le np nf s : (0 <= s)%Q -> (s <= 1)%Q -> numNonZero np nf s <= np * nf.
Proof.
  intros H H1. unfold numNonZero. set (g := Z.of_nat (np * nf)).
  assert (Hg : (0 <= inject_Z g)%Q) by (unfold g; change 0%Q with (inject_Z 0); rewrite <- Zle_Qle; lia).
  assert (Q : (inject_Z g * (1 - s) <= inject_Z g)%Q) by nra.
  assert (Hf : (Qfloor (inject_Z g * (1 - s)) <= g)%Z).
  { rewrite <- (Qfloor_Z g) at 2. apply Qfloor_resp_le. auto. }
  unfold g in *. lia.
Qed.
End Data.
