(** Proofs about nimble.fetchFiles (C62). *)
From Verif Require Import Base FetchModel FetchSpec.
From Coq Require Import String Lia.
Open Scope string_scope.
Open Scope list_scope.
Open Scope nat_scope.

Lemma Below_refl p : Below p p. Proof. exists []. rewrite app_nil_r. reflexivity. Qed.
Lemma Below_trans a b c : Below a b -> Below b c -> Below a c.
Proof. intros [r ->] [s ->]. exists (r ++ s). rewrite app_assoc. reflexivity. Qed.
Lemma prefixes_spec q p : In q (prefixes p) <-> Below q p.
Proof.
  unfold prefixes. rewrite in_map_iff. split.
  - intros [k [<- _]]. exists (skipn k p). symmetry. apply firstn_skipn.
  - intros [r ->]. exists (List.length q). split; [rewrite firstn_app, Nat.sub_diag, firstn_all, app_nil_r; reflexivity|]. rewrite in_seq, app_length. lia.
Qed.
Lemma removelast_app1 {A} (l : list A) x : removelast (l ++ [x]) = l. Proof. apply removelast_last. Qed.
Lemma removelast_below (p : path) : Below (removelast p) p.
Proof. destruct p as [|s p] using rev_ind; [exists []; reflexivity|]. rewrite removelast_last. exists [s]. reflexivity. Qed.
Lemma Below_split (q p : path) : Below q p -> q = p \/ Below q (removelast p).
Proof.
  intros [r E]. destruct r as [|s r] using rev_ind; [left; rewrite app_nil_r in E; auto|]. right. rewrite app_assoc in E. subst p. rewrite removelast_last. exists r. reflexivity.
Qed.
Lemma Below_antisym (p q : path) : Below p q -> Below q p -> p = q.
Proof. intros [r ->] [s E]. rewrite <- app_assoc in E. rewrite <- (app_nil_r p) in E at 1. apply app_inv_head in E. symmetry in E. apply app_eq_nil in E as [-> _]. rewrite app_nil_r. reflexivity. Qed.
Lemma Below_chain (a b p : path) : Below a p -> Below b p -> Below a b \/ Below b a.
Proof.
  intros [r ->]. revert b r. induction a as [|x a IH]; intros b r [s E]; [left; exists b; reflexivity|].
  destruct b as [|y b]; [right; exists (x :: a); reflexivity|]. cbn in E. injection E as -> E. destruct (IH b r) as [[t ->]|[t ->]]; [exists s; auto| |]; [left|right]; exists t; reflexivity.
Qed.

(** *** the operating system *)
Lemma makeDirs_spec f p : match makeDirs f p with
  | Some g => (forall q, g q = f q \/ (f q = None /\ g q = Some Folder /\ Below q p)) /\ (forall q, Below q p -> g q = Some Folder)
  | None => exists q c, Below q p /\ f q = Some (File c)
  end.
Proof.
  unfold makeDirs. destruct (existsb (isFile f) (prefixes p)) eqn:E.
  - apply existsb_exists in E as [q [I H]]. unfold isFile in H. destruct (f q) as [[|c]|] eqn:F; try discriminate. exists q, c. split; auto. apply prefixes_spec; auto.
  - assert (N : forall q, Below q p -> isFile f q = false).
    { intros q B. destruct (isFile f q) eqn:H; auto. assert (existsb (isFile f) (prefixes p) = true) by (apply existsb_exists; exists q; split; auto; apply prefixes_spec; auto). congruence. }
    split.
    + intros q. destruct (f q) as [n|] eqn:F; auto. destruct (mem q (prefixes p)) eqn:M; auto. right. split; auto. split; auto. apply prefixes_spec, mem_In; auto.
    + intros q B. pose proof (N q B) as H. unfold isFile in H. destruct (f q) as [[|c]|] eqn:F; auto; [discriminate|]. apply prefixes_spec, mem_In in B. rewrite B. reflexivity.
Qed.
Lemma writeFile_spec f p c : match writeFile f p c with
  | Some g => g p = Some (File c) /\ (forall q, q <> p -> g q = f q) /\ f p <> Some Folder /\ f (removelast p) = Some Folder
  | None => f p = Some Folder \/ f (removelast p) <> Some Folder
  end.
Proof.
  unfold writeFile, openNew.
  assert (G : forall q, setNode (setNode f p (Some (File (Plain "")))) p (Some (File c)) q = if eq_dec q p then Some (File c) else f q).
  { intros q. unfold setNode. destruct (eq_dec q p); auto. }
  destruct (f (removelast p)) as [[|c1]|] eqn:E1; destruct (f p) as [[|c2]|] eqn:E2; auto; try (right; congruence).
  all: split; [rewrite G; destruct (eq_dec p p); congruence|split; [intros q N; rewrite G; destruct (eq_dec q p); congruence|split; congruence]].
Qed.
Lemma Tree_parent f p n : Tree f -> f p = Some n -> p <> [] -> f (removelast p) = Some Folder.
Proof. intros [_ T] E N. destruct p as [|s d] using rev_ind; [congruence|]. rewrite removelast_last. eapply T; eauto. Qed.
Lemma Tree_below f p n q : Tree f -> f p = Some n -> Below q p -> q <> p -> f q = Some Folder.
Proof.
  intros T. revert n q. induction p as [|s d IH] using rev_ind; intros n q E B N; [destruct B as [r B]; symmetry in B; apply app_eq_nil in B as [-> _]; congruence|].
  assert (D : f d = Some Folder) by (eapply T; eauto). apply Below_split in B as [B|B]; [congruence|]. rewrite removelast_last in B. destruct (list_eq_dec string_dec q d) as [->|Nd]; auto. eapply IH; eauto.
Qed.
Lemma makeDirs_Tree f p g : Tree f -> makeDirs f p = Some g -> Tree g.
Proof.
  intros T E. pose proof (makeDirs_spec f p) as M. rewrite E in M. destruct M as [M1 M2]. split; [apply M2; exists p; reflexivity|].
  intros d s n H. destruct (M1 (d ++ [s])) as [F|[F [_ B]]].
  - rewrite F in H. destruct T as [_ T]. apply T in H. destruct (M1 d) as [G|[G _]]; congruence.
  - apply M2. eapply Below_trans; eauto. exists [s]. reflexivity.
Qed.
Lemma writeFile_Tree f p c g : Tree f -> writeFile f p c = Some g -> Tree g.
Proof.
  intros T E. pose proof (writeFile_spec f p c) as M. rewrite E in M. destruct M as [M1 [M2 [M3 M4]]].
  assert (Pn : p <> []) by (intros ->; apply M3, T). destruct T as [T0 T1]. split; [rewrite M2 by congruence; auto|].
  intros d s n H. assert (Fd : f d = Some Folder). { destruct (list_eq_dec string_dec (d ++ [s]) p) as [<-|N]; [rewrite removelast_last in M4; auto|]. rewrite M2 in H by auto. eapply T1; eauto. }
  rewrite M2; auto. intros ->. auto.
Qed.
Lemma Untouched_weaken f g d e q : Below d e -> Untouched f g d q -> Untouched f g e q.
Proof. intros B [H|[H1 [H2 H3]]]; [left; auto|right]. split; auto. split; auto. eapply Below_trans; eauto. Qed.
Lemma Untouched_trans f g h d q : Untouched f g d q -> Untouched g h d q -> Untouched f h d q.
Proof.
  unfold Untouched. intros [H|[H1 [H2 H3]]] [K|[K1 [K2 K3]]].
  - left. congruence.
  - right. rewrite <- H. auto.
  - right. rewrite K. auto.
  - congruence.
Qed.

(** *** following paths *)
Lemma step_append p s : s <> ".." -> Below p (step p s).
Proof.
  intros N. unfold step. destruct (String.eqb s "" || String.eqb s "."); [apply Below_refl|]. destruct (String.eqb_spec s ".."); [congruence|]. exists [s]. reflexivity.
Qed.
Lemma follow_below l : forall p, ~ In ".." l -> Below p (follow p l).
Proof.
  induction l as [|s l IH]; intros p N; [apply Below_refl|]. change (follow p (s :: l)) with (follow (step p s) l). eapply Below_trans; [apply (step_append p s); intros ->; apply N; left; auto|]. apply IH. intros I. apply N. right; auto.
Qed.
Lemma follow_member loc name : ~ In ".." name -> follow loc name = memberPath loc name.
Proof.
  unfold memberPath. revert loc. induction name as [|s l IH]; intros loc N; [rewrite app_nil_r; reflexivity|]. cbn [follow fold_left filter].
  change (fold_left step l (step loc s)) with (follow (step loc s) l). rewrite IH by (intros I; apply N; right; auto). unfold step.
  destruct (String.eqb s "" || String.eqb s "."); cbn [negb]; auto. destruct (String.eqb_spec s ".."); [destruct N; left; auto|]. rewrite <- app_assoc. reflexivity.
Qed.
Lemma dotted_dots : dotted ".." = true. Proof. reflexivity. Qed.
Lemma hasPrefix_dots s : hasPrefix ".." s = true <-> exists b, s = (".." ++ b)%string.
Proof.
  split.
  - intros H. unfold hasPrefix in H. apply String.eqb_eq in H. cbn [String.length] in H. destruct s as [|a [|b s]]; cbn in H; try discriminate. injection H as -> -> _. exists s. reflexivity.
  - intros [b ->]. unfold hasPrefix. cbn. destruct b; reflexivity.
Qed.
Lemma dotted_spec s : dotted s = true <-> exists a b, s = (a ++ ".." ++ b)%string.
Proof.
  induction s as [|c s IH].
  - split; [discriminate|]. intros [[|] [b H]]; discriminate.
  - cbn [dotted]. rewrite orb_true_iff, IH, hasPrefix_dots. split.
    + intros [[b ->]|[a [b ->]]]; [exists "", b; reflexivity|exists (String c a), b; reflexivity].
    + intros [[|x a] [b H]]; [left; exists b; exact H|]. injection H as -> ->. right. exists a, b. reflexivity.
Qed.
Lemma dotted_existsb l : existsb dotted l = true <-> exists a b, In (a ++ ".." ++ b)%string l.
Proof.
  rewrite existsb_exists. split.
  - intros [s [I H]]. apply dotted_spec in H as [a [b ->]]. eauto.
  - intros [a [b I]]. eexists. split; [exact I|]. apply dotted_spec. eauto.
Qed.
Lemma unsafe_spec name : unsafe name = true <-> Escapes name.
Proof.
  unfold Escapes. rewrite <- dotted_existsb. unfold unsafe. destruct name as [|[|c s] [|x l]]; try (split; [auto|intros [[u [v H]]|H]; [discriminate|auto]]).
  split; eauto.
Qed.
Lemma unsafe_not name : unsafe name = false <-> ~ Escapes name.
Proof. rewrite <- unsafe_spec. destruct (unsafe name); split; auto; try discriminate. intros H. destruct H. reflexivity. Qed.
Lemma safe_nodots name : unsafe name = false -> ~ In ".." name.
Proof.
  intros U I. unfold unsafe in U. assert (E : existsb dotted name = true) by (apply existsb_exists; exists ".."; split; auto).
  destruct name as [|s [|t l]]; [destruct I| |].
  - destruct s; congruence.
  - destruct s; [discriminate|congruence].
Qed.
Lemma target_member es loc name d : Safe es -> In (name, d) es -> target loc name = memberPath loc name.
Proof. intros S I. unfold target. apply follow_member, safe_nodots, unsafe_not. eapply S; eauto. Qed.
Lemma substring_all s n : String.length s <= n -> substring 0 n s = s.
Proof. revert n. induction s as [|a s IH]; intros [|n] H; cbn in H |- *; auto; [lia|]. rewrite IH by lia. reflexivity. Qed.
Lemma hasPrefix_spec a s : hasPrefix a s = true <-> exists b, s = (a ++ b)%string.
Proof.
  unfold hasPrefix. rewrite String.eqb_eq. split.
  - revert s. induction a as [|c a IH]; intros s H; [exists s; reflexivity|]. destruct s as [|d s]; [discriminate|]. cbn in H. injection H as -> H. destruct (IH s H) as [b ->]. exists b. reflexivity.
  - intros [b ->]. induction a as [|c a IH]; [destruct b; reflexivity|]. cbn. rewrite IH. reflexivity.
Qed.
Lemma bareHost_eq s : stripWww s = bareHost s.
Proof.
  unfold stripWww. destruct (hasPrefix "www." s) eqn:E.
  - apply hasPrefix_spec in E as [b ->]. change (substring 0 (String.length b - 0) b = b). apply substring_all. lia.
  - assert (N : ~ exists b, s = ("www." ++ b)%string) by (rewrite <- hasPrefix_spec; congruence). unfold bareHost.
    repeat match goal with |- _ = match ?x with _ => _ end => destruct x; auto end; exfalso; apply N; eexists; reflexivity.
Qed.
Lemma localPath_below home u : Decent u -> exists s, Below (home ++ ["nimbleData"; s]) (localPath home u) /\ s = stripWww (netloc u).
Proof.
  intros [[N1 [N2 N3]] N]. rewrite <- bareHost_eq in N1, N2, N3. exists (stripWww (netloc u)). split; auto. unfold localPath. cbn [follow fold_left].
  set (p0 := step _ _). assert (E : p0 = home ++ ["nimbleData"; stripWww (netloc u)]).
  { unfold p0, step. destruct (String.eqb_spec (stripWww (netloc u)) ""); [congruence|]. destruct (String.eqb_spec (stripWww (netloc u)) "."); [congruence|]. cbn [orb]. destruct (String.eqb_spec (stripWww (netloc u)) ".."); [congruence|]. rewrite <- app_assoc. reflexivity. }
  rewrite <- E. apply follow_below; auto.
Qed.
Lemma endsInName_slash u : EndsInName u -> slash u = false.
Proof. intros [l [s [E [N _]]]]. unfold slash. rewrite E, last_last. destruct (String.eqb_spec s ""); congruence. Qed.
Lemma chop_gz p : endsGz p = true -> Below (removelast p) (chop p).
Proof.
  unfold endsGz, chop. intros E. apply andb_prop in E as [E _]. rewrite E. unfold joinLast. destruct (String.eqb _ ""); [apply Below_refl|]. eexists; reflexivity.
Qed.

(** *** extraction *)
Definition mput (loc : path) (es : list (path * option content)) (q : path) (c : content) : Prop := exists name, In (name, Some c) es /\ q = target loc name.
Lemma extractOne_spec f loc name d g : unsafe name = false -> extractOne f loc (name, d) = Some g ->
  let T := target loc name in
  Below loc T /\ (Tree f -> Tree g) /\
  (forall q, g q = f q \/ (f q = None /\ g q = Some Folder /\ Below q T) \/ (q = T /\ f q <> Some Folder /\ exists c, d = Some c /\ g q = Some (File c))) /\
  match d with Some c => g T = Some (File c) | None => g T = Some Folder end.
Proof.
  intros U E T. assert (B : Below loc T) by (apply follow_below, safe_nodots; auto). split; auto. unfold extractOne in E. cbn [fst snd] in E. fold T in E.
  destruct d as [c|].
  - destruct (makeDirs f (removelast T)) as [m|] eqn:M; [|discriminate].
    pose proof (makeDirs_spec f (removelast T)) as MS. rewrite M in MS. destruct MS as [M1 M2].
    pose proof (writeFile_spec m T c) as WS. rewrite E in WS. destruct WS as [W1 [W2 [W3 W4]]].
    split; [intros Tf; eapply writeFile_Tree; [eapply makeDirs_Tree; eauto|eauto]|]. split; auto. intros q.
    destruct (list_eq_dec string_dec q T) as [->|N].
    + right. right. split; auto. split; [|eauto]. intros F. destruct (M1 T) as [X|[X _]]; congruence.
    + rewrite W2 by auto. destruct (M1 q) as [X|[X1 [X2 X3]]]; auto. right. left. split; auto. split; auto. eapply Below_trans; eauto. apply removelast_below.
  - pose proof (makeDirs_spec f T) as MS. rewrite E in MS. destruct MS as [M1 M2]. split; [intros Tf; eapply makeDirs_Tree; eauto|]. split; [|apply M2, Below_refl].
    intros q. destruct (M1 q) as [X|X]; auto.
Qed.
Lemma extractAll_spec loc : forall es f, Safe es -> let '(g, fine) := extractAll f loc es in
  (Tree f -> Tree g) /\
  (forall q, ~ Below loc q -> Untouched f g loc q) /\
  (forall q c, f q = Some (File c) -> g q = Some (File c) \/ exists c', mput loc es q c' /\ g q = Some (File c')) /\
  (forall q, f q = Some Folder -> g q = Some Folder) /\
  (fine = true -> forall name d, In (name, d) es -> g (target loc name) <> None) /\
  (fine = true -> NoDup (map (fun e => target loc (fst e)) es) -> forall name d, In (name, d) es -> g (target loc name) = Some (match d with Some c => File c | None => Folder end)).
Proof.
  induction es as [|[name d] es IH]; intros f Sf.
  - cbn [extractAll]. split; [auto|]. split; [intros q _; left; auto|]. split; [auto|]. split; [auto|]. split; [intros _ ? ? []|intros _ _ ? ? []].
  - assert (Se : Safe es) by (intros n x I; eapply Sf; right; eauto). cbn [extractAll].
    destruct (extractOne f loc (name, d)) as [h|] eqn:E.
    2:{ split; [auto|]. split; [intros q _; left; auto|]. split; [auto|]. split; [auto|]. split; discriminate. }
    destruct (extractOne_spec f loc name d h (proj2 (unsafe_not name) (Sf name d (or_introl eq_refl))) E) as [B [Th [H1 H2]]].
    specialize (IH h Se). destruct (extractAll h loc es) as [g fine]. destruct IH as [G0 [G1 [G2 [G3 [G4 G5]]]]].
    assert (Fo : forall q, h q <> None -> g q <> None).
    { intros q Q. destruct (h q) as [[|c]|] eqn:Hq; [rewrite (G3 q Hq); discriminate| |congruence]. destruct (G2 q c Hq) as [X|[c' [_ X]]]; congruence. }
    split; [auto|]. split; [|split; [|split; [|split]]].
    + intros q N. eapply Untouched_trans; [|apply G1; auto]. destruct (H1 q) as [X|[[X1 [X2 X3]]|[X _]]]; [left; auto| |subst q; contradiction].
      right. split; auto. split; auto. destruct (Below_chain _ _ _ X3 B) as [C|C]; [auto|contradiction].
    + intros q c F. destruct (H1 q) as [X|[[X1 _]|[X [_ [c' [-> X2]]]]]]; [|congruence|].
      * rewrite F in X. destruct (G2 q c X) as [Y|[c' [[n [I Eq]] Y]]]; [left; auto|]. right. exists c'. split; auto. exists n. split; [right|]; auto.
      * destruct (G2 q c' X2) as [Y|[c2 [[n [I Eq]] Y]]]; [right; exists c'; split; auto; exists name; split; [left|]; auto|]. right. exists c2. split; auto. exists n. split; [right|]; auto.
    + intros q F. apply G3. destruct (H1 q) as [X|[[X1 _]|[X [X2 _]]]]; congruence.
    + intros Fi n x [I|I]; [|eapply G4; eauto]. injection I as <- <-. apply Fo. destruct d; congruence.
    + intros Fi Nd n x I. cbn [map fst] in Nd. inversion Nd as [|? ? Ni Nd']; subst. destruct I as [I|I]; [|apply G5; auto]. injection I as <- <-.
      destruct d as [c|]; [|apply G3; auto]. destruct (G2 _ c H2) as [X|[c' [[n' [I' Eq]] _]]]; auto. destruct Ni. rewrite Eq. apply in_map_iff. exists (n', Some c'). auto.
Qed.
Lemma unsafe_safe es : existsb (fun e : path * option content => unsafe (fst e)) es = false <-> Safe es.
Proof.
  split.
  - intros E n d I. apply unsafe_not. destruct (unsafe n) eqn:U; auto. assert (existsb (fun e : path * option content => unsafe (fst e)) es = true) by (apply existsb_exists; exists (n, d); auto). congruence.
  - intros Sf. destruct (existsb _ es) eqn:E; auto. apply existsb_exists in E as [[n d] [I U]]. cbn in U. apply unsafe_spec in U. destruct (Sf n d I U).
Qed.
(** the frame *)
Definition frame (f g : fs) (loc : path) : Prop := forall q, ~ Below loc q -> Untouched f g loc q.
Lemma frame_refl f loc : frame f f loc. Proof. intros q _. left. auto. Qed.
Lemma frame_trans f g h loc : frame f g loc -> frame g h loc -> frame f h loc.
Proof. intros A B q N. eapply Untouched_trans; eauto. Qed.
Lemma write_frame f p c g loc : Below loc p -> writeFile f p c = Some g -> frame f g loc.
Proof. intros B E q N. pose proof (writeFile_spec f p c) as M. rewrite E in M. left. apply M. intros ->. contradiction. Qed.
Lemma processMembers_frame f p x es : frame f (fst (processMembers f p x es)) (removelast p) /\ (Tree f -> Tree (fst (processMembers f p x es))).
Proof.
  unfold processMembers. destruct (existsb _ es) eqn:U; [split; [apply frame_refl|auto]|]. apply unsafe_safe in U.
  destruct (x || _); [|split; [apply frame_refl|auto]]. pose proof (extractAll_spec (removelast p) es f U) as H.
  destruct (extractAll f (removelast p) es) as [g [|]]; cbn [fst]; destruct H as [H1 [H2 _]]; (split; [exact H2|exact H1]).
Qed.
Lemma processArchive_frame f p x c : frame f (fst (processArchive f p x c)) (removelast p) /\ (Tree f -> Tree (fst (processArchive f p x c))).
Proof. destruct c; cbn [processArchive]; try apply processMembers_frame; split; auto; apply frame_refl. Qed.
Lemma processGz_frame f p i : frame f (fst (processGz f p i)) (removelast p) /\ (Tree f -> Tree (fst (processGz f p i))).
Proof.
  unfold processGz. destruct (endsGz p) eqn:E.
  - destruct (writeFile f (chop p) i) as [g|] eqn:W; cbn [fst]; [|split; [apply frame_refl|auto]]. split; [eapply write_frame; eauto; apply chop_gz; auto|intros; eapply writeFile_Tree; eauto].
  - destruct (writeFile f p (Plain "")) as [g|] eqn:W; cbn [fst]; [|split; [apply frame_refl|auto]]. split; [eapply write_frame; eauto; apply removelast_below|intros; eapply writeFile_Tree; eauto].
Qed.
Lemma lookUp_frame home f u : frame f (fst (lookUp home f u)) (removelast (localPath home u)) /\ (Tree f -> Tree (fst (lookUp home f u))).
Proof.
  unfold lookUp. destruct (f (localPath home u)) as [[|c]|]; try (split; [apply frame_refl|auto]; fail). destruct (slash u); [split; [apply frame_refl|auto]|].
  destruct (isArchive c); [apply processArchive_frame|]. destruct (isGZip c); [|split; [apply frame_refl|auto]]. destruct (exists_ f _); [split; [apply frame_refl|auto]|apply processGz_frame].
Qed.
Lemma makeDirs_frame f p loc g : Below p loc -> makeDirs f p = Some g -> frame f g loc.
Proof.
  intros B E q N. pose proof (makeDirs_spec f p) as M. rewrite E in M. destruct M as [M _]. destruct (M q) as [X|[X1 [X2 X3]]]; [left; auto|right]. split; auto. split; auto. eapply Below_trans; eauto.
Qed.
Lemma store_frame home f u c o : frame f (fst (store home f u c o)) (removelast (localPath home u)) /\ (Tree f -> Tree (fst (store home f u c o))).
Proof.
  unfold store. set (p := localPath home u). destruct (slash u).
  - destruct (makeDirs f p) as [g|] eqn:M; cbn [fst]; [|split; [apply frame_refl|auto]]. split; [|intros; eapply makeDirs_Tree; eauto].
    intros q N. pose proof (makeDirs_spec f p) as MS. rewrite M in MS. destruct MS as [MS _]. destruct (MS q) as [X|[X1 [X2 X3]]]; [left; auto|right]. split; auto. split; auto.
    apply Below_split in X3 as [->|X3]; auto. destruct N. apply removelast_below.
  - destruct (makeDirs f (removelast p)) as [g|] eqn:M; cbn [fst]; [|split; [apply frame_refl|auto]].
    pose proof (makeDirs_frame f _ _ g (Below_refl _) M) as F1. destruct (writeFile g p c) as [h|] eqn:W; cbn [fst]; [|split; [auto|intros; eapply makeDirs_Tree; eauto]].
    pose proof (frame_trans _ _ _ _ F1 (write_frame g p c h _ (removelast_below p) W)) as F2.
    assert (Th : Tree f -> Tree h) by (intros; eapply writeFile_Tree; [eapply makeDirs_Tree; eauto|eauto]).
    assert (K : forall x : fs * reply, frame h (fst x) (removelast p) /\ (Tree h -> Tree (fst x)) -> frame f (fst (match snd x with Paths _ => x | _ => (fst x, Paths [p]) end)) (removelast p) /\ (Tree f -> Tree (fst (match snd x with Paths _ => x | _ => (fst x, Paths [p]) end)))).
    { intros x [X1 X2]. assert (frame f (fst x) (removelast p)) by (eapply frame_trans; eauto). destruct (snd x); cbn [fst]; auto. }
    destruct (isArchive c); [apply K, processArchive_frame|]. destruct c; cbn [fst]; auto; apply K, processGz_frame.
Qed.
Lemma fetch_frame home f w u o : frame f (fst (fetch home f w u o)) (removelast (localPath home u)) /\ (Tree f -> Tree (fst (fetch home f w u o))).
Proof.
  unfold fetch. pose proof (lookUp_frame home f u) as [L1 L2]. destruct (lookUp home f u) as [g l]. cbn [fst] in *.
  assert (St : forall c, frame f (fst (store home g u c o)) (removelast (localPath home u)) /\ (Tree f -> Tree (fst (store home g u c o)))).
  { intros c. destruct (store_frame home g u c o) as [S1 S2]. split; auto. eapply frame_trans; eauto. }
  destruct l; cbn [fst]; auto.
  - destruct (negb o); auto. destruct (getUrl w u); cbn [fst]; auto.
  - destruct (negb (headOk w u)); auto. destruct (getUrl w u); cbn [fst]; auto.
Qed.
(** everything stays in the data directory *)
Lemma fetchAll_inside home : forall calls f, (forall w u o, In (w, u, o) calls -> Decent u) ->
  forall q, ~ Below (home ++ ["nimbleData"]) q -> Untouched f (fetchAll home f calls) (home ++ ["nimbleData"]) q.
Proof.
  induction calls as [|[[w u] o] calls IH]; intros f D q N; [left; reflexivity|]. cbn [fetchAll].
  eapply Untouched_trans; [|apply IH; auto; intros; eapply D; right; eauto].
  destruct (localPath_below home u (D w u o (or_introl eq_refl))) as [s [B _]].
  set (nd := home ++ ["nimbleData"]) in *. assert (Bl : Below nd (removelast (localPath home u))).
  { replace (home ++ ["nimbleData"; s]) with (nd ++ [s]) in B by (unfold nd; rewrite <- app_assoc; reflexivity).
    destruct (Below_split _ _ B) as [E|E]; [rewrite <- E, removelast_last; apply Below_refl|]. eapply Below_trans; [|exact E]. eexists; reflexivity. }
  destruct (fetch_frame home f w u o) as [F _]. destruct (F q) as [X|[X1 [X2 X3]]]; [intros C; apply N; eapply Below_trans; eauto|left; auto|right].
  split; auto. split; auto. destruct (Below_chain _ _ _ X3 Bl); [auto|contradiction].
Qed.
(** files elsewhere *)
Lemma fetchAll_elsewhere home : forall calls f q n, f q = Some n ->
  (forall w u o, In (w, u, o) calls -> ~ Below (removelast (localPath home u)) q) -> fetchAll home f calls q = Some n.
Proof.
  induction calls as [|[[w u] o] calls IH]; intros f q n F D; [auto|]. cbn [fetchAll]. apply IH; [|intros; eapply D; right; eauto].
  destruct (fetch_frame home f w u o) as [Fr _]. destruct (Fr q (D w u o (or_introl eq_refl))) as [X|[X _]]; congruence.
Qed.
