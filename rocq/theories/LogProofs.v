(** Proofs about the log (C39). *)
From Verif Require Import Base NamesModel TableModel TableOps TableSortProofs CalcModeProofs LogModel LogSpec.
From Coq Require Import Ascii Sorted.
Open Scope string_scope.
Open Scope list_scope.
Open Scope nat_scope.

(** ** LIKE *)
Lemma like_percent p : forall s, like (String "%" p) s = true <-> exists a b, s = (a ++ b)%string /\ like p b = true.
Proof.
  intros s. cbn [like]. rewrite Ascii.eqb_refl.
  induction s as [|x s IH].
  - rewrite orb_false_r. split.
    + intros H. exists "", "". auto.
    + intros (a & b & E & H). destruct a; [|discriminate]. destruct b; [|discriminate]. auto.
  - rewrite orb_true_iff, IH. split.
    + intros [H|(a & b & -> & H)]; [exists "", (String x s); auto|]. exists (String x a), b. auto.
    + intros (a & b & E & H). destruct a as [|y a]; simpl in E.
      * left. subst. auto.
      * right. injection E as -> ->. eauto.
Qed.
Lemma like_any s : like "%" s = true.
Proof.
  apply like_percent. exists s, "". split; [|reflexivity].
  induction s; simpl; congruence.
Qed.
Lemma like_prefix t : noWildcard t -> forall s, like (t ++ "%") s = true <-> exists m r, s = (m ++ r)%string /\ lowerS m = lowerS t.
Proof.
  induction t as [|c t IH]; intros Hn s.
  - cbn [append]. rewrite like_any. split; auto. intros _. exists "", s. auto.
  - destruct Hn as (H1 & H2 & H3). cbn [append like].
    destruct (Ascii.eqb_spec c "%"%char); [tauto|]. destruct (Ascii.eqb_spec c "_"%char); [tauto|].
    destruct s as [|x s].
    + split; [discriminate|]. intros (m & r & E & H). destruct m; discriminate.
    + cbn [orb]. rewrite andb_true_iff, Ascii.eqb_eq, IH by auto. split.
      * intros [E (m & r & -> & H)]. exists (String x m), r. split; auto. cbn [lowerS]. congruence.
      * intros (m & r & E & H). destruct m as [|y m]; [discriminate|]. cbn [append] in E. injection E as -> ->.
        cbn [lowerS] in H. injection H as Ha Hb. split; [auto|]. eauto.
Qed.
Lemma like_contains t s : noWildcard t -> (like ("%" ++ t ++ "%") s = true <-> contains t s).
Proof.
  intros Hn. cbn [append]. rewrite like_percent. unfold contains. split.
  - intros (a & b & -> & H). apply like_prefix in H; auto. destruct H as (m & r & -> & H). eauto.
  - intros (a & m & b & -> & H). exists a, (m ++ b)%string. split; auto. apply like_prefix; eauto.
Qed.
(** ** sorting by entry *)
Definition byId (a b : row) := rId a < rId b.
Lemma sorted_unique {A} (R : A -> A -> Prop) : (forall x y, R x y -> ~ R y x) -> forall l l',
  StronglySorted R l -> StronglySorted R l' -> Permutation l l' -> l = l'.
Proof.
  intros As. induction l as [|x l IH]; intros l' H1 H2 HP.
  - apply Permutation_nil in HP. auto.
  - destruct l' as [|y l']; [apply Permutation_sym, Permutation_nil in HP; discriminate|].
    inversion H1 as [|? ? S1 F1]; subst. inversion H2 as [|? ? S2 F2]; subst.
    assert (E : x = y).
    { assert (Hx : In x (y :: l')) by (eapply Permutation_in; [exact HP|left; auto]).
      assert (Hy : In y (x :: l)) by (eapply Permutation_in; [symmetry; exact HP|left; auto]).
      destruct Hx as [->|Hx]; auto. destruct Hy as [->|Hy]; auto.
      rewrite Forall_forall in F1, F2. exfalso. apply (As x y); auto. }
    subst y. f_equal. apply IH; auto. eapply Permutation_cons_inv; eauto.
Qed.
Lemma sorted_le_strict (f : row -> nat) l : NoDup (map f l) -> StronglySorted (fun a b => (f a <=? f b) = true) l ->
  StronglySorted (fun a b => f a < f b) l.
Proof.
  intros Hd H. induction H as [|x l H IH F]; constructor.
  - apply IH. inversion Hd; auto.
  - inversion Hd as [|? ? Hn ?]; subst. rewrite Forall_forall in *. intros y Hy. specialize (F y Hy). apply Nat.leb_le in F.
    assert (f x <> f y) by (intros E; apply Hn; rewrite E; apply in_map; auto). lia.
Qed.
Lemma sorted_nodup_ids l : StronglySorted byId l -> NoDup (map rId l).
Proof.
  induction 1 as [|x l H IH F]; simpl; constructor; auto. intros Hin. apply in_map_iff in Hin. destruct Hin as (y & E & Hy).
  rewrite Forall_forall in F. specialize (F y Hy). unfold byId in F. lia.
Qed.
Lemma sort_asc l l' : StronglySorted byId l -> Permutation l' l -> stableSort (fun a b => rId a <=? rId b) l' = l.
Proof.
  intros H HP.
  assert (P1 : Permutation (stableSort (fun a b => rId a <=? rId b) l') l) by (rewrite stableSort_perm; auto).
  apply (sorted_unique byId); auto.
  - unfold byId. intros; lia.
  - apply (sorted_le_strict rId).
    + apply (Permutation_NoDup (l := map rId l)); [|apply sorted_nodup_ids; auto]. apply Permutation_map. symmetry. auto.
    + apply stableSort_le; intros; rewrite ?Nat.leb_le in *; lia.
Qed.
Lemma sorted_app_iff {A} (R : A -> A -> Prop) l l' : StronglySorted R (l ++ l') <->
  StronglySorted R l /\ StronglySorted R l' /\ forall x y, In x l -> In y l' -> R x y.
Proof.
  induction l as [|a l IH]; simpl.
  - split; [intros H; split; [constructor|split; auto; intros x y []]|tauto].
  - split.
    + intros H. inversion H as [|? ? H1 H2]; subst. apply IH in H1. destruct H1 as (A1 & A2 & A3). rewrite Forall_forall in H2.
      split; [|split]; auto.
      * constructor; auto. apply Forall_forall. intros x Hx. apply H2. apply in_or_app; auto.
      * intros x y [<-|Hx] Hy; auto. apply H2. apply in_or_app; auto.
    + intros (A1 & A2 & A3). inversion A1 as [|? ? B1 B2]; subst. constructor.
      * apply IH. split; [|split]; auto.
      * apply Forall_forall. intros x Hx. apply in_app_or in Hx. destruct Hx; [rewrite Forall_forall in B2; auto|auto].
Qed.
Lemma sorted_rev l : StronglySorted byId l -> StronglySorted (fun a b => rId b < rId a) (rev l).
Proof.
  induction 1 as [|x l H IH F]; simpl; [constructor|]. apply sorted_app_iff. split; [|split]; auto.
  - constructor; constructor.
  - intros y z Hy [<-|[]]. apply in_rev in Hy. rewrite Forall_forall in F. apply F in Hy. auto.
Qed.
Lemma sort_desc l : StronglySorted byId l -> stableSort (fun a b => rId b <=? rId a) l = rev l.
Proof.
  intros H. apply (sorted_unique (fun a b => rId b < rId a)).
  - intros; lia.
  - assert (ND := sorted_nodup_ids l H).
    assert (Q : StronglySorted (fun x y => (rId y <=? rId x) = true) (stableSort (fun a b => rId b <=? rId a) l)) by
      (apply stableSort_le; intros; rewrite ?Nat.leb_le in *; lia).
    assert (ND' : NoDup (map rId (stableSort (fun a b => rId b <=? rId a) l))).
    { apply (Permutation_NoDup (l := map rId l)); auto. apply Permutation_map. symmetry. apply stableSort_perm. }
    revert ND'. induction Q as [|x s Q IH F]; intros ND'; constructor.
    + apply IH. inversion ND'; auto.
    + inversion ND' as [|? ? Hn ?]; subst. rewrite Forall_forall in *. intros y Hy. specialize (F y Hy). apply Nat.leb_le in F.
      assert (rId x <> rId y) by (intros E; apply Hn; rewrite E; apply in_map; auto). lia.
  - apply sorted_rev; auto.
  - rewrite stableSort_perm. apply Permutation_rev.
Qed.
Lemma sorted_filter {A} (R : A -> A -> Prop) f l : StronglySorted R l -> StronglySorted R (filter f l).
Proof.
  induction 1 as [|x l H IH F]; simpl; [constructor|]. destruct (f x); auto. constructor; auto.
  apply Forall_forall. intros y Hy. apply filter_In in Hy. rewrite Forall_forall in F. apply F. tauto.
Qed.
(** ** the query *)
Lemma select_spec q d : StronglySorted byId d -> lastOf (qMax q) (filter (whereOf q d) d) (select q d).
Proof.
  intros H. unfold select. assert (HF := sorted_filter byId (whereOf q d) d H).
  set (M := filter (whereOf q d) d) in *. unfold lastOf. destruct (qMax q) as [z|].
  - unfold limit. rewrite sort_desc by auto. destruct (Z.ltb_spec z 0).
    + exists []. split; [|lia]. simpl. symmetry. apply sort_asc; auto. symmetry. apply Permutation_rev.
    + rewrite firstn_rev. exists (firstn (List.length M - Z.to_nat z) M).
      assert (S1 : StronglySorted byId (skipn (List.length M - Z.to_nat z) M)).
      { rewrite <- (firstn_skipn (List.length M - Z.to_nat z) M) in HF. apply sorted_app_iff in HF. tauto. }
      rewrite (sort_asc (skipn (List.length M - Z.to_nat z) M)); auto; [|symmetry; apply Permutation_rev].
      split; [symmetry; apply firstn_skipn|]. intros _. rewrite skipn_length. lia.
  - exists []. split; auto. simpl. symmetry. apply sort_asc; auto.
Qed.
Lemma maxSession_gen d : forall m, 
  match fold_left (fun m r => match m with None => Some (rSess r) | Some z => Some (Z.max z (rSess r)) end) d m with
  | None => m = None /\ d = []
  | Some z => ((exists r, In r d /\ rSess r = z) \/ m = Some z) /\ (forall r, In r d -> (rSess r <= z)%Z) /\ (forall y, m = Some y -> (y <= z)%Z)
  end.
Proof.
  induction d as [|r d IH]; intros m; simpl.
  - destruct m as [z|]; [|auto]. split; [auto|]. split; [intros r []|]. intros y [= <-]. lia.
  - specialize (IH (match m with Some z => Some (Z.max z (rSess r)) | None => Some (rSess r) end)).
    destruct (fold_left _ d _) as [z|]; [|destruct m; destruct IH; discriminate].
    destruct IH as (H1 & H2 & H3). split; [|split].
    + destruct H1 as [(r' & Hr & E)|H1]; [left; eauto|].
      destruct m as [y|].
      * injection H1 as H1. destruct (Z.max_spec y (rSess r)) as [[? E]|[? E]]; rewrite E in H1; [left; eauto|right; congruence].
      * injection H1 as H1. left; eauto.
    + intros r' [<-|Hr]; auto. destruct m as [y|]; [specialize (H3 _ eq_refl); lia|apply H3; auto].
    + intros y ->. specialize (H3 _ eq_refl). lia.
Qed.
Lemma maxSession_spec d : match maxSession d with None => d = [] | Some z => latestSession d z end.
Proof.
  unfold maxSession. assert (H := maxSession_gen d None). destruct (fold_left _ d None) as [z|]; [|tauto].
  destruct H as ([H|H] & H2 & _); [|discriminate]. split; auto.
Qed.
Lemma latest_unique d z z' : latestSession d z -> latestSession d z' -> z = z'.
Proof. intros [(r & H1 & <-) H2] [(r' & H3 & <-) H4]. specialize (H2 _ H3). specialize (H4 _ H1). lia. Qed.
Lemma whereOf_spec q d r : In r d -> (forall t, qText q = Some t -> noWildcard t) -> (whereOf q d r = true <-> wanted q d r).
Proof.
  intros Hin Hw. unfold whereOf, wanted. assert (M := maxSession_spec d).
  destruct (maxSession d) as [z|]; [|subst; destruct Hin].
  rewrite !andb_true_iff.
  assert (A : forall b : bool, (b = true <-> b = true)) by tauto.
  split.
  - intros ((((H1 & H2) & H3) & H4) & H5). split; [|split; [|split]].
    + intros z' Hz'. rewrite <- (latest_unique _ _ _ M Hz'). split.
      * intros l El. rewrite El in H1. apply Z.leb_le in H1. lia.
      * intros l El. rewrite El in H2. apply Z.gtb_lt in H2. lia.
    + intros t Et. rewrite Et in H3. apply Nat.leb_le. auto.
    + intros t Et. rewrite Et in H4. apply Nat.leb_le. auto.
    + intros t Et. rewrite Et in H5. apply orb_true_iff in H5. rewrite !like_contains in H5 by auto. auto.
  - intros (H1 & H3 & H4 & H5). specialize (H1 z M). destruct H1 as [H1 H2].
    split; [split; [split; [split|]|]|].
    + destruct (qLeast q); auto. apply Z.leb_le. specialize (H1 _ eq_refl). lia.
    + destruct (qMost q); auto. apply Z.gtb_lt. specialize (H2 _ eq_refl). lia.
    + destruct (qStart q); auto. apply Nat.leb_le. auto.
    + destruct (qEnd q); auto. apply Nat.leb_le. auto.
    + destruct (qText q) eqn:E; auto. apply orb_true_iff. rewrite !like_contains by auto. auto.
Qed.
Lemma filter_sublist {A} (f : A -> bool) (P : A -> Prop) d : (forall x, In x d -> (f x = true <-> P x)) -> sublist P d (filter f d).
Proof.
  induction d as [|x d IH]; intros H; simpl; [constructor|].
  assert (Hx := H x (or_introl eq_refl)). destruct (f x).
  - apply sub_take; [tauto|]. apply IH. intros; apply H; right; auto.
  - apply sub_skip; [intros C; apply Hx in C; discriminate|]. apply IH. intros; apply H; right; auto.
Qed.
(** ** output *)
Lemma output_entries level : forall rows prev, entriesOf (output level prev rows) = filter (fun r => (levelOf (rType r) <=? level)%Z) rows.
Proof.
  induction rows as [|r rows IH]; intros prev; [reflexivity|]. cbn [output filter].
  unfold entriesOf in *. rewrite !flat_map_app, IH.
  replace (flat_map _ (match prev with Some p => if (p =? rSess r)%Z then [] else [LSession (rSess r)] | None => [LSession (rSess r)] end)) with (@nil row)
    by (destruct prev as [p|]; [destruct (p =? rSess r)%Z|]; reflexivity).
  destruct (levelOf (rType r) <=? level)%Z; reflexivity.
Qed.
Lemma output_headed level : forall rows prev h r, In (h, r) (headed prev (output level prev rows)) -> h = Some (rSess r).
Proof.
  induction rows as [|x rows IH]; intros prev h r; [intros []|]. cbn [output].
  assert (E : headed prev ((match prev with Some p => if (p =? rSess x)%Z then [] else [LSession (rSess x)] | None => [LSession (rSess x)] end) ++
     (if (levelOf (rType x) <=? level)%Z then [LEntry x] else []) ++ output level (Some (rSess x)) rows) =
     headed (Some (rSess x)) ((if (levelOf (rType x) <=? level)%Z then [LEntry x] else []) ++ output level (Some (rSess x)) rows)).
  { destruct prev as [p|]; [|reflexivity]. destruct (Z.eqb_spec p (rSess x)); subst; reflexivity. }
  rewrite E. destruct (levelOf (rType x) <=? level)%Z; cbn [app headed].
  - intros [[= <- <-]|H]; [auto|]. eapply IH; eauto.
  - intros H. eapply IH; eauto.
Qed.
(** ** histories *)
Lemma nextId_gen d : forall m, (m <= fold_left (fun m r => Nat.max m (rId r)) d m) /\ forall r, In r d -> rId r <= fold_left (fun m r => Nat.max m (rId r)) d m.
Proof.
  induction d as [|x d IH]; intros m; simpl; [split; [lia|intros r []]|].
  destruct (IH (Nat.max m (rId x))) as [H1 H2]. split; [lia|]. intros r [<-|H]; auto. lia.
Qed.
Lemma nextId_gt d r : In r d -> rId r < nextId d.
Proof. intros H. unfold nextId. apply nextId_gen with (m := 0) in H. lia. Qed.
Lemma setup_gt d r : In r d -> (rSess r < setup d)%Z.
Proof.
  intros H. unfold setup. assert (M := maxSession_spec d). destruct (maxSession d); [|subst; destruct H].
  destruct M as [_ M]. specialize (M _ H). lia.
Qed.
Record LInv (w : world) : Prop := {
  li_ids : StronglySorted byId (wdb w);
  li_len : List.length (wlog w) = List.length (wdb w);
  li_sess : forall i k r, nth_error (wlog w) i = Some k -> nth_error (wdb w) i = Some r -> wprocs w k = Some (rSess r) }.
Lemma logRow_eq d p t ty inf : logRow d p t ty inf = (d ++ [mkRow (nextId d) t (ensure d p) ty inf], Some (ensure d p)).
Proof. reflexivity. Qed.
Lemma lstep_LInv w x : LInv w -> LInv (lstep w x).
Proof.
  intros [H1 H2 H3]. destruct x as [k t ty inf|k]; cbn [lstep].
  - rewrite logRow_eq. constructor; cbn [wdb wlog wprocs].
    + apply sorted_app_iff. split; [auto|split; [repeat constructor|]]. intros a b Ha [<-|[]]. apply nextId_gt. auto.
    + rewrite !app_length. simpl. lia.
    + intros i k' r Hi Hr. unfold setP.
      destruct (Nat.lt_ge_cases i (List.length (wlog w))) as [L|L].
      * rewrite nth_error_app1 in Hi by auto. rewrite nth_error_app1 in Hr by lia. assert (E := H3 _ _ _ Hi Hr).
        destruct (Nat.eqb_spec k' k) as [->|]; auto. rewrite E. reflexivity.
      * rewrite nth_error_app2 in Hi by auto. rewrite nth_error_app2 in Hr by lia. rewrite H2 in *.
        destruct (i - List.length (wdb w)) as [|m]; [|destruct m; discriminate]. injection Hi as <-. injection Hr as <-.
        rewrite Nat.eqb_refl. reflexivity.
  - constructor; cbn [wdb wlog wprocs]; auto. intros i k' r Hi Hr. unfold setP. assert (E := H3 _ _ _ Hi Hr).
    destruct (Nat.eqb_spec k' k) as [->|]; auto. rewrite E. reflexivity.
Qed.
Lemma lrun_snoc l x : lrun (l ++ [x]) = lstep (lrun l) x.
Proof. unfold lrun. rewrite fold_left_app. reflexivity. Qed.
Lemma lrun_LInv l : LInv (lrun l).
Proof.
  induction l as [|x l IH] using rev_ind.
  - constructor; simpl; [constructor|reflexivity|]. intros [] k r; discriminate.
  - rewrite lrun_snoc. apply lstep_LInv; auto.
Qed.
Lemma written_nth l i k r : nth_error (written l) i = Some (k, r) <-> nth_error (wlog (lrun l)) i = Some k /\ nth_error (wdb (lrun l)) i = Some r.
Proof.
  unfold written. generalize (wlog (lrun l)) as a, (wdb (lrun l)) as b. intros a b. revert i b.
  induction a as [|x a IH]; intros [|i] [|y b]; simpl; try (split; [discriminate|intros []; discriminate]).
  - split; [intros [= -> ->]; auto|intros [[= ->] [= ->]]; auto].
  - apply IH.
Qed.
Lemma written_same l i j k r r' : nth_error (written l) i = Some (k, r) -> nth_error (written l) j = Some (k, r') -> rSess r = rSess r'.
Proof.
  intros H1 H2. apply written_nth in H1, H2. destruct H1 as [A B], H2 as [C D].
  assert (E1 := li_sess _ (lrun_LInv l) _ _ _ A B). assert (E2 := li_sess _ (lrun_LInv l) _ _ _ C D). congruence.
Qed.
(** one session at a time *)
Record SInv (w : world) (bound : nat) : Prop := {
  si_log : forall i k, nth_error (wlog w) i = Some k -> k <= bound;
  si_later : forall k, bound < k -> wprocs w k = None;
  si_top : forall n, wprocs w bound = Some n -> forall i k r, nth_error (wlog w) i = Some k -> nth_error (wdb w) i = Some r -> k < bound -> (rSess r < n)%Z;
  si_order : forall i j k k' r r', nth_error (wlog w) i = Some k -> nth_error (wlog w) j = Some k' ->
     nth_error (wdb w) i = Some r -> nth_error (wdb w) j = Some r' -> k < k' -> (rSess r < rSess r')%Z }.
Lemma SInv_up w b b' : LInv w -> SInv w b -> b <= b' -> SInv w b'.
Proof.
  intros LI [h1 h2 h3 h4] Hb. constructor.
  - intros i k H. specialize (h1 _ _ H). lia.
  - intros k Hk. apply h2. lia.
  - intros n Hn i k r Hi Hr Hk. destruct (Nat.eq_dec b b') as [->|N]; [eapply h3; eauto|].
    rewrite h2 in Hn by lia. discriminate.
  - auto.
Qed.
Lemma SInv_step w b x : LInv w -> SInv w b -> b <= who x -> SInv (lstep w x) (who x).
Proof.
  intros LI HS Hb. apply (SInv_up w b (who x) LI) in HS; auto. clear Hb b.
  destruct HS as [h1 h2 h3 h4]. destruct LI as [l1 l2 l3]. destruct x as [k t ty inf|k]; cbn [who lstep] in *.
  - rewrite logRow_eq. set (n := ensure (wdb w) (wprocs w k)).
    assert (Hn : forall i k' r, nth_error (wlog w) i = Some k' -> nth_error (wdb w) i = Some r -> k' < k -> (rSess r < n)%Z).
    { intros i k' r Hi Hr Hk. unfold n, ensure. destruct (wprocs w k) as [m|] eqn:E; [eapply h3; eauto|].
      apply setup_gt. eapply nth_error_In; eauto. }
    assert (SP : forall i k' r, nth_error (wlog w ++ [k]) i = Some k' -> nth_error (wdb w ++ [mkRow (nextId (wdb w)) t n ty inf]) i = Some r ->
        (nth_error (wlog w) i = Some k' /\ nth_error (wdb w) i = Some r) \/ (k' = k /\ rSess r = n)).
    { intros i k' r Hi Hr. destruct (Nat.lt_ge_cases i (List.length (wlog w))) as [L|L].
      - rewrite nth_error_app1 in Hi by auto. rewrite nth_error_app1 in Hr by lia. auto.
      - rewrite nth_error_app2 in Hi by auto. rewrite nth_error_app2 in Hr by lia. rewrite l2 in *. right.
        destruct (i - List.length (wdb w)) as [|m]; [|destruct m; discriminate]. injection Hi as <-. injection Hr as <-. auto. }
    constructor; cbn [wdb wlog wprocs].
    + intros i k' H. destruct (Nat.lt_ge_cases i (List.length (wlog w))) as [L|L].
      * rewrite nth_error_app1 in H by auto. eauto.
      * rewrite nth_error_app2 in H by auto. destruct (i - List.length (wlog w)) as [|m]; [|destruct m; discriminate]. injection H as <-. auto.
    + intros k' Hk. unfold setP. destruct (Nat.eqb_spec k' k); [lia|]. auto.
    + unfold setP. rewrite Nat.eqb_refl. intros m [= <-] i k' r Hi Hr Hk.
      destruct (SP _ _ _ Hi Hr) as [[A B]|[-> _]]; [|lia]. eauto.
    + intros i j a b r r' Hi Hj Hr Hr' Hab.
      destruct (SP _ _ _ Hi Hr) as [[A B]|[-> E]], (SP _ _ _ Hj Hr') as [[A' B']|[-> E']].
      * eauto.
      * rewrite E'. eauto.
      * specialize (h1 _ _ A'). lia.
      * lia.
  - constructor; cbn [wdb wlog wprocs]; auto.
    + intros k' Hk. unfold setP. destruct (Nat.eqb_spec k' k); [lia|]. auto.
    + unfold setP. rewrite Nat.eqb_refl. intros m [= <-] i k' r Hi Hr Hk. unfold ensure.
      destruct (wprocs w k) as [m|] eqn:E; [eapply h3; eauto|]. apply setup_gt. eapply nth_error_In; eauto.
Qed.
Lemma sorted_last_le l x : StronglySorted le (map who (l ++ [x])) -> StronglySorted le (map who l) /\ forall y, In y l -> who y <= who x.
Proof.
  rewrite map_app. intros H. apply sorted_app_iff in H. destruct H as (A & _ & C). split; auto.
  intros y Hy. apply C; [apply in_map; auto|left; auto].
Qed.
Lemma lrun_SInv l : oneAtATime l -> exists b, SInv (lrun l) b /\ (forall y, In y l -> who y <= b) /\ (l <> [] -> exists y, In y l /\ who y = b).
Proof.
  induction l as [|x l IH] using rev_ind; intros H.
  - exists 0. split; [|split; [intros y []|congruence]]. constructor; simpl; auto.
    + intros [] k; discriminate.
    + intros n; discriminate.
    + intros [] j k; discriminate.
  - apply sorted_last_le in H. destruct H as [Ho Hl]. destruct (IH Ho) as (b & S1 & S2 & S3).
    rewrite lrun_snoc. exists (who x). split; [|split].
    + destruct l as [|y l].
      * (* the empty history satisfies the invariant for every bound *)
        apply (SInv_step _ 0); [apply lrun_LInv| |lia]. constructor; simpl; auto.
        -- intros [] k; discriminate.
        -- intros n; discriminate.
        -- intros [] j k; discriminate.
      * destruct S3 as (y' & Hy & <-); [discriminate|]. apply (SInv_step _ (who y')); auto. apply lrun_LInv.
    + intros y Hy. apply in_app_or in Hy. destruct Hy as [Hy|[<-|[]]]; auto.
    + intros _. exists x. split; auto. apply in_or_app. right; left; auto.
Qed.
Lemma sequential_order l i j k k' r r' : oneAtATime l -> nth_error (written l) i = Some (k, r) -> nth_error (written l) j = Some (k', r') ->
  (rSess r = rSess r' <-> k = k') /\ (k < k' -> (rSess r < rSess r')%Z).
Proof.
  intros Ho H1 H2. destruct (lrun_SInv l Ho) as (b & [h1 h2 h3 h4] & _).
  assert (W1 := proj1 (written_nth l i k r) H1). assert (W2 := proj1 (written_nth l j k' r') H2).
  destruct W1 as [A B], W2 as [C D]. split; [split|].
  - intros E. destruct (Nat.lt_trichotomy k k') as [L|[L|L]]; auto; exfalso.
    + specialize (h4 _ _ _ _ _ _ A C B D L). lia.
    + specialize (h4 _ _ _ _ _ _ C A D B L). lia.
  - intros <-. exact (written_same l i j k r r' H1 H2).
  - intros L. exact (h4 _ _ _ _ _ _ A C B D L).
Qed.
