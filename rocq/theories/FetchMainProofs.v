(** Proofs about what nimble.fetchFiles stores and returns (C62). *)
From Verif Require Import Base FetchModel FetchSpec FetchProofs.
From Coq Require Import String Lia.
Open Scope string_scope.
Open Scope list_scope.
Open Scope nat_scope.

Section Main.
Variable home : path.
Notation fetch := (fetch home).
Notation localPath := (localPath home).

Lemma notroot f p : Tree f -> f p <> Some Folder -> removelast p <> p.
Proof.
  intros [T _] N E. destruct p as [|s d] using rev_ind; [congruence|]. rewrite removelast_last in E. apply (f_equal (@List.length string)) in E. rewrite app_length in E. cbn in E. lia.
Qed.
Definition finish (p : path) (h : fs) (c : content) (o : bool) : fs * reply :=
  let keep x := match snd x with Paths l => x | _ => (fst x, Paths [p]) end in
  if isArchive c then keep (processArchive h p o c) else match c with Gz i => keep (processGz h p i) | _ => (h, Paths [p]) end.
Lemma store_steps f u c o : Tree f -> slash u = false -> f (localPath u) <> Some Folder ->
  match makeDirs f (removelast (localPath u)) with
  | None => store home f u c o = (f, SystemError) /\ exists q d, Below q (removelast (localPath u)) /\ f q = Some (File d)
  | Some g => exists h, Tree h /\ h (localPath u) = Some (File c) /\ (forall q, q <> localPath u -> Untouched f h (removelast (localPath u)) q) /\
      store home f u c o = finish (localPath u) h c o
  end.
Proof.
  intros T S N. unfold store, finish. rewrite S.
  pose proof (makeDirs_spec f (removelast (localPath u))) as MS. destruct (makeDirs f _) as [g|] eqn:M; [|auto].
  destruct MS as [M1 M2]. pose proof (writeFile_spec g (localPath u) c) as WS. destruct (writeFile g (localPath u) c) as [h|] eqn:W.
  - destruct WS as [W1 [W2 _]]. exists h. split; [eapply writeFile_Tree; [eapply makeDirs_Tree|]; eauto|]. split; auto. split; auto. intros q Nq. unfold Untouched. rewrite W2 by auto. destruct (M1 q); auto.
  - exfalso. destruct WS as [WS|WS]; [|apply WS, M2, Below_refl]. destruct (M1 (localPath u)) as [X|[X1 [X2 X3]]]; [congruence|].
    apply (notroot f (localPath u) T N). apply (Below_antisym _ _ (removelast_below _)). auto.
Qed.

(** *** a call that downloads *)
Notation Downloads := (Downloads home).
Lemma downloads_store f w u o c : slash u = false -> Downloads f w u o c -> fetch f w u o = store home f u c o /\ f (localPath u) <> Some Folder.
Proof.
  intros S [G [[N H]|[-> [d [[b ->] N]]]]]; unfold FetchModel.fetch, lookUp; rewrite N, ?S, ?H, G; cbn [isArchive isGZip negb]; split; auto; congruence.
Qed.
Lemma local_plain f w u b : slash u = false -> f (localPath u) = Some (File (Plain b)) -> fetch f w u false = (f, Paths [localPath u]).
Proof. intros S F. unfold FetchModel.fetch, lookUp. rewrite F, S. reflexivity. Qed.
Lemma no_network f w w' u c : slash u = false -> f (localPath u) = Some (File c) -> fetch f w u false = fetch f w' u false.
Proof.
  intros S F. unfold FetchModel.fetch. destruct (lookUp home f u) as [g l] eqn:L. destruct l as [l| |r]; cbn [negb]; auto. exfalso.
  unfold lookUp in L. rewrite F, S in L. destruct (isArchive c).
  - unfold asFound in L. destruct (snd (processArchive _ _ _ _)); discriminate.
  - destruct (isGZip c); [|discriminate]. destruct (exists_ f _); [discriminate|]. unfold asFound in L. destruct (snd (processGz _ _ _)); discriminate.
Qed.
Lemma plain_main f w u o b : Tree f -> slash u = false -> Downloads f w u o (Plain b) ->
  let p := localPath u in
  match fetch f w u o with
  | (g, Paths ps) => ps = [p] /\ g p = Some (File (Plain b)) /\ forall q, q <> p -> Untouched f g (removelast p) q
  | (g, r) => r = SystemError /\ (forall q, g q = f q) /\ exists q d, Below q (removelast p) /\ f q = Some (File d)
  end.
Proof.
  intros T S D p. destruct (downloads_store f w u o _ S D) as [-> N]. pose proof (store_steps f u (Plain b) o T S N) as SS.
  destruct (makeDirs f _); [|destruct SS as [-> X]; auto]. destruct SS as [h [Th [H1 [H2 ->]]]]. cbn [finish isArchive]. auto.
Qed.
(** an archive with a name outside its directory: stored, not extracted *)
Lemma escapes_main f w u o c es : Tree f -> slash u = false -> Downloads f w u o c -> members c = Some es -> ~ Safe es ->
  let p := localPath u in
  match fetch f w u o with
  | (g, Paths ps) => ps = [p] /\ g p = Some (File c) /\ forall q, q <> p -> Untouched f g (removelast p) q
  | (g, r) => r = SystemError /\ (forall q, g q = f q) /\ exists q d, Below q (removelast p) /\ f q = Some (File d)
  end.
Proof.
  intros T S D M U p. destruct (downloads_store f w u o _ S D) as [-> N]. pose proof (store_steps f u c o T S N) as SS.
  destruct (makeDirs f _); [|destruct SS as [-> X]; auto]. destruct SS as [h [Th [H1 [H2 ->]]]].
  assert (E : existsb (fun e : path * option content => unsafe (fst e)) es = true).
  { destruct (existsb _ es) eqn:E; auto. apply unsafe_safe in E. contradiction. }
  assert (F : finish p h c o = (h, Paths [p])).
  { destruct c as [b|l|l|i]; try discriminate M; injection M as ->; unfold finish; cbn [isArchive processArchive]; unfold processMembers; rewrite E; reflexivity. }
  fold p. rewrite F. auto.
Qed.
Lemma gzip_main f w u o i : Tree f -> slash u = false -> Downloads f w u o (Gz i) -> (forall es, i <> Tar es) -> endsGz (localPath u) = true ->
  let p := localPath u in
  match fetch f w u o with
  | (g, Paths ps) => g p = Some (File (Gz i)) /\ ((ps = [chop p] /\ g (chop p) = Some (File i)) \/ (ps = [p] /\ g (chop p) = Some Folder)) /\
      forall q, q <> p -> q <> chop p -> Untouched f g (removelast p) q
  | (g, r) => r = SystemError /\ (forall q, g q = f q) /\ exists q d, Below q (removelast p) /\ f q = Some (File d)
  end.
Proof.
  intros T S D Nt Eg p. destruct (downloads_store f w u o _ S D) as [-> N]. pose proof (store_steps f u (Gz i) o T S N) as SS.
  destruct (makeDirs f _); [|destruct SS as [-> X]; auto]. destruct SS as [h [Th [H1 [H2 ->]]]]. fold p in H1, H2, Eg, N |- *.
  assert (Ar : isArchive (Gz i) = false) by (destruct i; auto; edestruct Nt; eauto). unfold finish. rewrite Ar. unfold processGz. rewrite Eg.
  assert (Pne : p <> []) by (intros E; apply N; rewrite E; apply T).
  assert (Nc : chop p <> p).
  { unfold chop. unfold endsGz in Eg. apply andb_prop in Eg as [Eg _]. rewrite Eg. apply Nat.leb_le in Eg. destruct p as [|s d] using rev_ind; [congruence|]. rewrite last_last in *. rewrite removelast_last. unfold joinLast, cut.
    destruct (String.eqb (substring 0 (String.length s - 3) s) "") eqn:Q; intros X.
    - apply (f_equal (@List.length string)) in X. rewrite app_length in X. cbn in X. lia.
    - apply app_inv_head in X. injection X as X. apply (f_equal String.length) in X. revert X Eg. clear. intros X Eg.
      assert (Le : forall n (z : string), String.length (substring 0 n z) <= n). { induction n; intros [|a z]; cbn; try lia. specialize (IHn z). lia. }
      specialize (Le (String.length s - 3) s). lia. }
  pose proof (writeFile_spec h (chop p) i) as WS. destruct (writeFile h (chop p) i) as [k|] eqn:W; cbn [snd fst].
  - destruct WS as [W1 [W2 _]]. split; [rewrite W2; auto|]. split; [left; auto|]. intros q Q1 Q2. unfold Untouched. rewrite W2 by auto. apply H2; auto.
  - destruct WS as [WS|WS].
    + split; auto.
    + exfalso. apply WS. destruct (h (chop p)) as [n|] eqn:Hc.
      * destruct (list_eq_dec string_dec (chop p) []) as [E|E]; [rewrite E in *; apply Th|]. eapply Tree_parent; eauto.
      * assert (Pd : h (removelast p) = Some Folder) by (eapply Tree_parent; eauto).
        unfold chop in *. apply andb_prop in Eg as [Eg _]. rewrite Eg in *. unfold joinLast in *. destruct (String.eqb _ ""); [congruence|]. rewrite removelast_last. auto.
Qed.

(** *** archives *)
Lemma targets_eq es p : Safe es -> map (fun e : path * option content => target (removelast p) (fst e)) es = map (goesTo p) es.
Proof. intros Sf. apply map_ext_in. intros [n d] I. cbn [fst]. unfold goesTo. cbn [fst]. eapply target_member; eauto. Qed.
Lemma filter_files (g : fs) es p : Safe es -> (forall name d, In (name, d) es -> g (goesTo p (name, d)) = Some (match d with Some c => File c | None => Folder end)) ->
  filter (isFile g) (map (goesTo p) es) = map (goesTo p) (filter (fun e => match snd e with Some _ => true | None => false end) es).
Proof.
  intros Sf H. induction es as [|[n d] es IH]; [reflexivity|]. cbn [map filter snd]. unfold isFile at 1. rewrite (H n d (or_introl eq_refl)).
  rewrite IH; [destruct d; reflexivity|intros ? ? I; eapply Sf; right; eauto|intros ? ? I; eapply H; right; eauto].
Qed.
Lemma archive_main f w u o c es : Tree f -> slash u = false -> Downloads f w u o c -> members c = Some es -> Safe es ->
  (forall e, In e es -> goesTo (localPath u) e <> localPath u) ->
  let p := localPath u in
  match fetch f w u o with
  | (g, Paths ps) => g p = Some (File c) /\ frame f g (removelast p) /\
      (ps = [p] \/
       ((o = true \/ exists e, In e es /\ goesTo p e <> removelast p /\ f (goesTo p e) = None) -> NoDup (map (goesTo p) es) ->
          (forall name d, In (name, d) es -> g (goesTo p (name, d)) = Some (match d with Some x => File x | None => Folder end)) /\
          ps = map (goesTo p) (filter (fun e => match snd e with Some _ => true | None => false end) es)))
  | (g, r) => r = SystemError /\ (forall q, g q = f q) /\ exists q d, Below q (removelast p) /\ f q = Some (File d)
  end.
Proof.
  intros T S D Mc Sf Np p. pose proof (fetch_frame home f w u o) as [Fr _]. destruct (downloads_store f w u o _ S D) as [E N]. rewrite E in *. pose proof (store_steps f u c o T S N) as SS.
  destruct (makeDirs f _); [|destruct SS as [-> X]; auto]. destruct SS as [h [Th [H1 [H2 E2]]]]. rewrite E2 in *. fold p in H1, H2, Np, N, Fr |- *.
  assert (Ar : isArchive c = true) by (destruct c; auto; discriminate). unfold finish in *. rewrite Ar in *. 
  assert (Pa : processArchive h p o c = processMembers h p o es) by (destruct c; try discriminate; injection Mc as ->; reflexivity). rewrite Pa in *.
  unfold processMembers in *. rewrite (proj2 (unsafe_safe es) Sf) in *. rewrite targets_eq in * by auto.
  pose proof (extractAll_spec (removelast p) es h Sf) as X. 
  destruct (o || negb (forallb (exists_ h) (map (goesTo p) es))) eqn:Ex.
  - destruct (extractAll h (removelast p) es) as [g fine]. destruct X as [X0 [X1 [X2 [X3 [X4 X5]]]]].
    assert (Gp : g p = Some (File c)). { destruct (X2 p c H1) as [Y|[c' [[n [I Eq]] _]]]; auto. destruct (Np _ I). unfold goesTo. cbn [fst]. rewrite <- (target_member es (removelast p) n (Some c')); auto. }
    destruct fine; cbn [snd fst] in *; (split; [auto|split; [exact Fr|]]); [right|left; auto]. intros _ Nd.
    rewrite <- targets_eq in Nd by auto. assert (G : forall name d, In (name, d) es -> g (goesTo p (name, d)) = Some match d with Some x => File x | None => Folder end).
    { intros n d I. specialize (X5 eq_refl Nd n d I). rewrite (target_member es (removelast p) n d) in X5; auto. }
    split; auto. apply filter_files; auto.
  - cbn [snd fst] in *. split; auto. split; [exact Fr|]. right. intros Q Nd. exfalso. apply Bool.orb_false_iff in Ex as [-> Ex]. apply Bool.negb_false_iff in Ex.
    destruct Q as [Q|[e [I [Nl Q]]]]; [discriminate|]. rewrite forallb_forall in Ex. specialize (Ex (goesTo p e) (in_map _ _ _ I)). unfold exists_ in Ex.
    destruct (H2 (goesTo p e) (Np e I)) as [Y|[Y1 [Y2 Y3]]]; [rewrite Y, Q in Ex; discriminate|]. apply Nl. apply (Below_antisym _ _ Y3). unfold goesTo, memberPath. eexists; reflexivity.
Qed.
(** *** fetching again *)
Lemma again_main f w u o c g ps : Tree f -> slash u = false -> Downloads f w u o c -> fetch f w u o = (g, Paths ps) ->
  (IsPlain c \/
   (exists i, c = Gz i /\ (forall es, i <> Tar es) /\ endsGz (localPath u) = true /\ ps = [chop (localPath u)]) \/
   (exists es, members c = Some es /\ (~ Safe es \/ (ps <> [localPath u] /\ forall e, In e es -> goesTo (localPath u) e <> localPath u)))) ->
  forall w', fetch g w' u false = (g, Paths ps).
Proof.
  intros T S D E [[b ->]|[[i [-> [Nt [Eg Ps]]]]|[es [Mc Q]]]] w'.
  - pose proof (plain_main f w u o b T S D) as P. rewrite E in P. destruct P as [-> [P _]]. apply (local_plain g w' u b S P).
  - pose proof (gzip_main f w u o i T S D Nt Eg) as P. rewrite E in P. destruct P as [P [[[_ Q]|[Q _]] _]].
    + unfold FetchModel.fetch, lookUp. rewrite P, S. assert (Ar : isArchive (Gz i) = false) by (destruct i; auto; edestruct Nt; eauto). rewrite Ar. cbn [isGZip]. unfold exists_. rewrite Q. subst ps. reflexivity.
    + exfalso. rewrite Ps in Q. injection Q as Q. unfold chop in Q. unfold endsGz in Eg. apply andb_prop in Eg as [Eg _]. rewrite Eg in Q. apply Nat.leb_le in Eg.
      destruct (localPath u) as [|s d] using rev_ind; [cbn in Eg; lia|]. rewrite last_last, removelast_last in *. unfold joinLast, cut in Q.
      destruct (String.eqb (substring 0 (String.length s - 3) s) "") eqn:Z.
      * apply (f_equal (@List.length string)) in Q. rewrite app_length in Q. cbn in Q. lia.
      * apply app_inv_head in Q. injection Q as X. apply (f_equal String.length) in X.
        assert (Le : forall n (z : string), String.length (substring 0 n z) <= n). { induction n; intros [|a z]; cbn; try lia. specialize (IHn z). lia. }
        specialize (Le (String.length s - 3) s). lia.
  - destruct (downloads_store f w u o _ S D) as [E1 N]. rewrite E1 in E. pose proof (store_steps f u c o T S N) as SS.
    destruct (makeDirs f _); [|destruct SS as [X _]; rewrite X in E; discriminate]. destruct SS as [h [Th [H1 [H2 E2]]]]. rewrite E2 in E. set (p := localPath u) in *.
    assert (Ar : isArchive c = true) by (destruct c; auto; discriminate). unfold finish in E. rewrite Ar in E.
    assert (Pa : forall x y, processArchive x p y c = processMembers x p y es) by (destruct c; try discriminate; injection Mc as ->; reflexivity). rewrite Pa in E.
    assert (Fin : g p = Some (File c) -> asFound (processMembers g p false es) = (g, Local ps) -> fetch g w' u false = (g, Paths ps)).
    { intros Gp As. unfold FetchModel.fetch, lookUp. fold p. rewrite Gp, S, Ar, Pa, As. reflexivity. }
    unfold processMembers in *. destruct (existsb (fun e : path * option content => unsafe (fst e)) es) eqn:U.
    + cbn [snd fst] in E. injection E as <- <-. apply Fin; auto.
    + apply unsafe_safe in U. destruct Q as [Q|[Q Np]]; [contradiction|]. rewrite targets_eq in * by auto.
      assert (Fine : g p = Some (File c) -> forallb (exists_ g) (map (goesTo p) es) = true -> ps = filter (isFile g) (map (goesTo p) es) -> fetch g w' u false = (g, Paths ps)).
      { intros Gp Al ->. apply Fin; auto. rewrite Al. cbn [negb orb]. reflexivity. }
      destruct (o || negb (forallb (exists_ h) (map (goesTo p) es))) eqn:Ex.
      * pose proof (extractAll_spec (removelast p) es h U) as X. destruct (extractAll h (removelast p) es) as [k fine]. destruct X as [X0 [X1 [X2 [X3 [X4 X5]]]]].
        destruct fine; cbn [snd fst] in E; injection E as <- <-; [|congruence]. apply Fine; auto.
        -- destruct (X2 p c H1) as [Y|[c' [[n [I Eq]] _]]]; auto. destruct (Np _ I). unfold goesTo. cbn [fst]. rewrite <- (target_member es (removelast p) n (Some c')); auto.
        -- apply forallb_forall. intros q I. apply in_map_iff in I as [[n d] [<- I]]. unfold exists_. specialize (X4 eq_refl n d I). rewrite (target_member es (removelast p) n d U I) in X4. unfold goesTo. cbn [fst]. destruct (k (memberPath (removelast p) n)) eqn:Z; [reflexivity|contradiction].
      * cbn [snd fst] in E. injection E as <- <-. apply Bool.orb_false_iff in Ex as [_ Ex]. apply Bool.negb_false_iff in Ex. apply Fine; auto.
Qed.
(** *** a call that fails *)
Lemma failed_main f w u o g r : Tree f -> slash u = false -> (forall c, f (localPath u) <> Some (File c)) -> fetch f w u o = (g, r) -> (forall ps, r <> Paths ps) -> forall q, g q = f q.
Proof.
  intros T S N E R q. unfold FetchModel.fetch, lookUp in E. destruct (f (localPath u)) as [[|c]|] eqn:F; [injection E as <- _; auto|edestruct N; eauto|].
  destruct (negb (headOk w u)); [injection E as <- _; auto|]. destruct (getUrl w u) as [c| |]; try (injection E as <- _; auto; fail).
  pose proof (store_steps f u c o T S) as SS. rewrite F in SS. specialize (SS ltac:(discriminate)). destruct (makeDirs f _); [|destruct SS as [X _]; rewrite X in E; injection E as <- _; auto].
  destruct SS as [h [_ [_ [_ X]]]]. rewrite X in E. unfold finish in E. exfalso.
  assert (K : forall x : fs * reply, match snd x with Paths _ => x | _ => (fst x, Paths [localPath u]) end = (g, r) -> False).
  { intros [x y] H. cbn [fst snd] in H. destruct y; injection H as _ <-; eapply R; reflexivity. }
  destruct (isArchive c); [eapply K; eauto|]. destruct c; try (injection E as _ <-; eapply R; reflexivity). eapply K; eauto.
Qed.
(** *** histories with plain files only *)
Lemma step_plain f w u o : Tree f -> AllPlain f -> (forall c, getUrl w u = Got c -> IsPlain c) -> AllPlain (fst (fetch f w u o)) /\
  (forall q c, f q = Some (File c) -> (q = localPath u -> o = false) -> fst (fetch f w u o) q = Some (File c)).
Proof.
  intros T P G. assert (St : forall c, IsPlain c -> (f (localPath u) = None \/ exists d, f (localPath u) = Some (File d)) -> AllPlain (fst (store home f u c o)) /\ (forall q d, f q = Some (File d) -> (slash u = false -> q = localPath u -> f q = None) -> fst (store home f u c o) q = Some (File d))).
  { intros c [b ->] Nf. destruct (slash u) eqn:S.
    - unfold store. rewrite S. pose proof (makeDirs_spec f (localPath u)) as M. destruct (makeDirs f (localPath u)) as [g|]; cbn [fst].
      + destruct M as [M _]. split; [intros q c Gq; destruct (M q) as [X|[_ [X _]]]; [eapply P; rewrite <- X; eauto|congruence]|]. intros q d Fq _. destruct (M q) as [X|[X _]]; congruence.
      + split; auto.
    - assert (N : f (localPath u) <> Some Folder) by (destruct Nf as [X|[d X]]; congruence).
      pose proof (store_steps f u (Plain b) o T S N) as SS. destruct (makeDirs f _); [|destruct SS as [-> _]; cbn [fst]; split; auto].
      destruct SS as [h [_ [H1 [H2 ->]]]]. cbn [finish isArchive fst]. split.
      + intros q c Hq. destruct (list_eq_dec string_dec q (localPath u)) as [->|Nq]; [exists b; congruence|]. destruct (H2 q Nq) as [X|[_ [X _]]]; [eapply P; rewrite <- X; eauto|congruence].
      + intros q d Fq Q. destruct (list_eq_dec string_dec q (localPath u)) as [->|Nq]; [rewrite Q in Fq by auto; discriminate|]. destruct (H2 q Nq) as [X|[X _]]; congruence. }
  unfold FetchModel.fetch, lookUp. destruct (f (localPath u)) as [[|c]|] eqn:F; cbn [fst].
  - split; auto.
  - destruct (P _ _ F) as [b ->]. destruct (slash u) eqn:S; cbn [isArchive isGZip].
    + destruct (negb (headOk w u)); [split; auto|]. destruct (getUrl w u) as [c| |] eqn:Gu; try (split; auto; fail). destruct (St c (G _ eq_refl)) as [A B]; [right; eauto|]. split; auto. intros q d Fq Q. apply B; auto. discriminate.
    + destruct o; cbn [negb].
      * destruct (getUrl w u) as [c| |] eqn:Gu; try (split; auto; fail). destruct (St c (G _ eq_refl)) as [A B]; [right; eauto|]. split; auto. intros q d Fq Q. apply B; auto. intros _ Eq. specialize (Q Eq). discriminate.
      * split; auto.
  - destruct (negb (headOk w u)); [split; auto|]. destruct (getUrl w u) as [c| |] eqn:Gu; try (split; auto; fail). destruct (St c (G _ eq_refl)) as [A B]; [left; auto|]. split; auto. intros q d Fq Q. apply B; auto. intros _ ->. congruence.
Qed.
Lemma fetchAll_plain : forall calls f, Tree f -> AllPlain f -> (forall w u o c, In (w, u, o) calls -> getUrl w u = Got c -> IsPlain c) ->
  Tree (fetchAll home f calls) /\ AllPlain (fetchAll home f calls) /\
  forall q c, f q = Some (File c) -> (forall w u o, In (w, u, o) calls -> localPath u = q -> o = false) -> fetchAll home f calls q = Some (File c).
Proof.
  induction calls as [|[[w u] o] calls IH]; intros f T P G; [split; auto|]. cbn [fetchAll].
  destruct (step_plain f w u o T P ltac:(intros c; eapply G; left; eauto)) as [P1 P2]. destruct (fetch_frame home f w u o) as [_ T1].
  destruct (IH (fst (fetch f w u o)) (T1 T) P1 ltac:(intros; eapply G; eauto; right; eauto)) as [A [B C]]. split; auto. split; auto.
  intros q c F Q. apply C; [|intros; eapply Q; eauto; right; eauto]. apply P2; auto. intros ->. eapply Q; [left; eauto|]. auto.
Qed.
Lemma history_main f0 before after w u o b g ps : Tree f0 -> AllPlain f0 -> slash u = false ->
  (forall w' v o' c, In (w', v, o') (before ++ after) -> getUrl w' v = Got c -> IsPlain c) ->
  Downloads (fetchAll home f0 before) w u o (Plain b) -> fetch (fetchAll home f0 before) w u o = (g, Paths ps) ->
  (forall w' v o', In (w', v, o') after -> localPath v = localPath u -> o' = false) ->
  let h := fetchAll home g after in
  ps = [localPath u] /\ h (localPath u) = Some (File (Plain b)) /\ forall w', fetch h w' u false = (h, Paths ps).
Proof.
  intros T P S G D E Q h. set (f := fetchAll home f0 before) in *.
  destruct (fetchAll_plain before f0 T P ltac:(intros; eapply G; eauto; apply in_or_app; left; eauto)) as [Tf [Pf _]]. fold f in Tf, Pf.
  pose proof (plain_main f w u o b Tf S D) as M. rewrite E in M. destruct M as [-> [M _]].
  assert (Pg : AllPlain g). { destruct (step_plain f w u o Tf Pf) as [X _]; [intros c Gc; destruct D as [D _]; exists b; congruence|]. rewrite E in X. exact X. }
  assert (Tg : Tree g). { destruct (fetch_frame home f w u o) as [_ X]. rewrite E in X. auto. }
  destruct (fetchAll_plain after g Tg Pg ltac:(intros; eapply G; eauto; apply in_or_app; right; eauto)) as [_ [_ C]]. fold h in C.
  pose proof (C (localPath u) _ M Q) as H. split; auto. split; auto. intros w'. eapply local_plain; eauto.
Qed.
End Main.

Lemma substring_app s t : substring (String.length s) (String.length t) (s ++ t)%string = t.
Proof. induction s as [|a s IH]; [|cbn; auto]. cbn. induction t as [|b t IH]; [reflexivity|]. cbn. congruence. Qed.
Lemma substring_front s t : substring 0 (String.length s) (s ++ t)%string = s.
Proof. induction s as [|a s IH]; cbn; [destruct t; reflexivity|congruence]. Qed.
Lemma app_length_str s t : String.length (s ++ t)%string = String.length s + String.length t.
Proof. induction s; cbn; congruence. Qed.
Lemma gz_name d s : s <> "" -> endsGz (d ++ [(s ++ ".gz")%string]) = true /\ chop (d ++ [(s ++ ".gz")%string]) = d ++ [s].
Proof.
  intros N. unfold endsGz, chop, cut. rewrite last_last, removelast_last, app_length_str. cbn [String.length]. replace (String.length s + 3 - 3) with (String.length s) by lia.
  rewrite (proj2 (Nat.leb_le 3 _)) by lia. pose proof (substring_app s ".gz") as Q. cbn [String.length] in Q. rewrite Q, substring_front. split; [reflexivity|]. unfold joinLast. destruct (String.eqb_spec s ""); congruence.
Qed.
Lemma localPath_where home u : Decent u -> localPath home u = memberPath (home ++ ["nimbleData"; bareHost (netloc u)]) (segments u).
Proof.
  intros [[N1 [N2 N3]] N]. rewrite <- bareHost_eq in N1, N2, N3 |- *. unfold localPath. change (follow (home ++ ["nimbleData"]) (stripWww (netloc u) :: segments u)) with (follow (step (home ++ ["nimbleData"]) (stripWww (netloc u))) (segments u)).
  replace (step (home ++ ["nimbleData"]) (stripWww (netloc u))) with (home ++ ["nimbleData"; stripWww (netloc u)]); [apply follow_member; auto|].
  unfold step. destruct (String.eqb_spec (stripWww (netloc u)) ""); [congruence|]. destruct (String.eqb_spec (stripWww (netloc u)) "."); [congruence|]. cbn [orb]. destruct (String.eqb_spec (stripWww (netloc u)) ".."); [congruence|]. rewrite <- app_assoc. reflexivity.
Qed.
