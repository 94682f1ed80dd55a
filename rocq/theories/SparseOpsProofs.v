From Verif Require Import Base NamesModel NamesSpec TableModel TableSpec TableProofs TableOps TableSortProofs SparseModel SparseSpec SparseProofs.
From Coq Require Import Sorted.

Lemma NoDup_map_of {A B C} (f : A -> B) (g : A -> C) l : NoDup (map f l) ->
  (forall x y, In x l -> In y l -> g x = g y -> f x = f y) -> NoDup (map g l).
Proof.
  induction l as [|a l IH]; simpl; [constructor|]. intros Hn Hinj. inversion Hn; subst. constructor; auto.
  intros Hin. apply in_map_iff in Hin. destruct Hin as [b [E Hb]]. apply H1. apply in_map_iff. exists b.
  split; auto.
Qed.
Lemma NoDup_app_intro {A} (l l' : list A) : NoDup l -> NoDup l' -> (forall x, In x l -> In x l' -> False) -> NoDup (l ++ l').
Proof.
  induction l as [|a l IH]; simpl; auto. intros Hn Hn' Hd. inversion Hn; subst. constructor.
  - rewrite in_app_iff. intros [H|H]; [auto|]. eapply Hd; eauto.
  - apply IH; auto. intros x H H'. eapply Hd; eauto.
Qed.

Lemma reverseMap_length order : forall i acc, List.length (reverseMap i order acc) = List.length acc.
Proof. induction order as [|p t IH]; simpl; auto. intros i acc. rewrite IH, upd_length. auto. Qed.
Lemma reverseMap_other order : forall i acc p, ~ In p order -> nth_error (reverseMap i order acc) p = nth_error acc p.
Proof.
  induction order as [|q t IH]; simpl; auto. intros i acc p Hn. rewrite IH by tauto.
  apply nth_error_upd_other. tauto.
Qed.
Lemma reverseMap_nth order : forall i acc k p, NoDup order -> (forall q, In q order -> q < List.length acc) ->
  nth_error order k = Some p -> nth_error (reverseMap i order acc) p = Some (i + k).
Proof.
  induction order as [|q t IH]; intros i acc k p Hn Hr Hk; [destruct k; discriminate|].
  inversion Hn; subst. destruct k as [|k]; simpl in *.
  - injection Hk as ->. rewrite reverseMap_other by auto. rewrite nth_error_upd_same; [f_equal; lia|]. apply Hr; auto.
  - rewrite (IH (S i) (upd acc q i) k p); auto; [f_equal; lia|]. intros x Hx. rewrite upd_length. auto.
Qed.

Section P.
Variable V : Type.
Variable zero : V.
Implicit Types s : sparse V.
Implicit Types l : list (entry V).
Notation val := (val zero).
Notation valS := (valS zero).

Lemma In_mkOn sd p o v l : In (mkOn sd p o v) l <-> exists e, In e l /\ prim sd e = p /\ offp sd e = o /\ ev e = v.
Proof.
  split.
  - intros H. exists (mkOn sd p o v). destruct sd; auto.
  - intros [[a b c] [H [<- [<- <-]]]]. destruct sd; simpl; auto.
Qed.
Lemma valS_eq sd sd' s s' p o p' o' : entsOK zero s -> entsOK zero s' ->
  (forall v, v <> zero -> (In (mkOn sd p o v) (ents s) <-> In (mkOn sd' p' o' v) (ents s'))) ->
  valS sd s p o = valS sd' s' p' o'.
Proof. intros H1 H2 H. unfold SparseSpec.valS. destruct sd, sd'; apply val_eq; auto. Qed.
Lemma valS_zero sd s p o : (forall v, ~ In (mkOn sd p o v) (ents s)) -> valS sd s p o = zero.
Proof.
  intros H. unfold SparseSpec.valS.
  assert (Hz : forall i j, (forall v, ~ In (mkE i j v) (ents s)) -> val s i j = zero).
  { intros i j Hn. unfold SparseSpec.val. destruct (find _ _) as [e|] eqn:E; auto. exfalso.
    apply find_some in E. destruct E as [Hin E]. apply andb_true_iff in E. destruct E as [A B].
    apply Nat.eqb_eq in A, B. destruct e; simpl in *; subst. eapply Hn; eauto. }
  destruct sd; apply Hz; auto.
Qed.
Lemma entsOK_sd sd s : entsOK zero s -> forall e, In e (ents s) -> prim sd e < axLen sd s /\ offp sd e < offLen sd s /\ ev e <> zero.
Proof. intros [_ R] e He. destruct (R e He) as [A [B C]]. destruct sd; simpl; auto. Qed.
Lemma prim_move sd (e : entry V) p : prim sd (moveTo sd e p) = p.
Proof. destruct sd; auto. Qed.
Lemma offp_move sd (e : entry V) p : offp sd (moveTo sd e p) = offp sd e.
Proof. destruct sd; auto. Qed.
Lemma ev_move sd (e : entry V) p : ev (moveTo sd e p) = ev e.
Proof. destruct sd; auto. Qed.
Lemma axLen_reshape sd s n l : axLen sd (reshape sd s n l) = n.
Proof. destruct sd; auto. Qed.
Lemma offLen_reshape sd s n l : offLen sd (reshape sd s n l) = offLen sd s.
Proof. destruct sd; auto. Qed.
Lemma ents_reshape sd s n l : ents (reshape sd s n l) = l.
Proof. destruct sd; auto. Qed.
Lemma cacheOK_reshape sd s n l : cacheOK (reshape sd s n l).
Proof. destruct sd; reflexivity. Qed.
Lemma pos_inv sd (e e' : entry V) : pos e = pos e' -> prim sd e = prim sd e' /\ offp sd e = offp sd e'.
Proof. unfold pos. intros [= A B]. destruct sd; simpl; auto. Qed.

(** entsOK of a reshaped object, stated on the side *)
Lemma entsOK_reshape sd s n l : NoDup (map pos l) ->
  (forall e, In e l -> prim sd e < n /\ offp sd e < offLen sd s /\ ev e <> zero) ->
  entsOK zero (reshape sd s n l).
Proof.
  intros Hn H. split; [rewrite ents_reshape; auto|]. intros e He. rewrite ents_reshape in He.
  destruct (H e He) as [A [B C]]. destruct sd; simpl in *; auto.
Qed.

(** ** transpose *)
Lemma sTranspose_spec s : sinv zero s ->
  sinv zero (sTranspose s) /\ snp (sTranspose s) = snf s /\ snf (sTranspose s) = snp s /\
  forall i j, val (sTranspose s) i j = val s j i.
Proof.
  intros [HE HC]. pose proof HE as [N R].
  assert (HE' : entsOK zero (sTranspose s)).
  { split; cbn [sTranspose ents snp snf].
    - rewrite map_map. apply (NoDup_map_of pos); auto. intros x y _ _. unfold pos; simpl. congruence.
    - intros e He. apply in_map_iff in He. destruct He as [x [<- Hx]]. simpl. destruct (R x Hx) as [A [B C]]; auto. }
  split; [split; [auto|reflexivity]|]. split; auto. split; auto.
  intros i j. apply val_eq; auto. intros v _. cbn [sTranspose ents]. rewrite in_map_iff. split.
  - intros [e [[= <- <- <-] He]]. destruct e; auto.
  - intros He. exists (mkE j i v). auto.
Qed.

(** ** permute *)
Lemma sPermute_spec sd s order : sinv zero s -> Permutation order (seq 0 (axLen sd s)) ->
  sinv zero (sPermute sd s order) /\ snp (sPermute sd s order) = snp s /\ snf (sPermute sd s order) = snf s /\
  forall k p o, nth_error order k = Some p -> valS sd (sPermute sd s order) k o = valS sd s p o.
Proof.
  intros [HE HC] HP. pose proof HE as [N R].
  set (rv := reverseMap 0 order (repeat 0 (List.length order))).
  assert (Hlen : List.length order = axLen sd s) by (rewrite (Permutation_length HP), seq_length; auto).
  assert (Hn : NoDup order) by (eapply Permutation_NoDup; [apply Permutation_sym, HP|apply seq_NoDup]).
  assert (Hr : forall q, In q order -> q < List.length (repeat 0 (List.length order))).
  { intros q Hq. rewrite repeat_length, Hlen. apply (Permutation_in _ HP) in Hq. apply in_seq in Hq. lia. }
  assert (Hrev : forall k p, nth_error order k = Some p -> nth p rv 0 = k).
  { intros k p Hk. apply nth_error_nth. unfold rv. rewrite (reverseMap_nth order 0 _ k p); auto. }
  assert (Hsurj : forall p, p < axLen sd s -> exists k, nth_error order k = Some p).
  { intros p Hp. apply In_nth_error. apply (Permutation_in _ (Permutation_sym HP)). apply in_seq. lia. }
  assert (HE' : entsOK zero (sPermute sd s order)).
  { split; cbn [sPermute ents snp snf]; fold rv.
    - rewrite map_map. apply (NoDup_map_of pos); auto. intros x y Hx Hy Heq.
      apply (pos_inv sd) in Heq. rewrite !prim_move, !offp_move in Heq. destruct Heq as [A B].
      apply (pos_sd V sd); auto.
      destruct (Hsurj (prim sd x)) as [kx Hkx]; [apply (entsOK_sd sd s HE); auto|].
      destruct (Hsurj (prim sd y)) as [ky Hky]; [apply (entsOK_sd sd s HE); auto|].
      rewrite (Hrev _ _ Hkx), (Hrev _ _ Hky) in A. congruence.
    - intros e He. apply in_map_iff in He. destruct He as [x [<- Hx]]. destruct (R x Hx) as [A [B C]].
      destruct (Hsurj (prim sd x)) as [kx Hkx]; [apply (entsOK_sd sd s HE); auto|].
      rewrite (Hrev _ _ Hkx). apply nth_error_lt in Hkx. rewrite Hlen in Hkx. destruct sd; simpl in *; auto. }
  split; [split; [auto|reflexivity]|]. split; auto. split; auto.
  intros k p o Hk. apply valS_eq; auto. intros v _. cbn [sPermute ents]. fold rv. rewrite !In_mkOn. split.
  - intros [e [He [P1 [P2 P3]]]]. apply in_map_iff in He. destruct He as [x [<- Hx]].
    rewrite prim_move in P1. rewrite offp_move in P2. rewrite ev_move in P3. exists x. split; auto. split; auto.
    destruct (Hsurj (prim sd x)) as [kx Hkx]; [apply (entsOK_sd sd s HE); auto|].
    rewrite (Hrev _ _ Hkx) in P1. congruence.
  - intros [x [Hx [P1 [P2 P3]]]]. exists (moveTo sd x (nth (prim sd x) rv 0)). split; [apply (in_map (fun e => moveTo sd e (nth (prim sd e) rv 0))); auto|].
    rewrite prim_move, offp_move, ev_move. rewrite P1. split; auto.
Qed.

(** ** insert *)
Lemma sInsert_spec sd s t before : sinv zero s -> sinv zero t -> offLen sd t = offLen sd s -> before <= axLen sd s ->
  let r := sInsert sd s t before in
  sinv zero r /\ axLen sd r = axLen sd s + axLen sd t /\ offLen sd r = offLen sd s /\
  forall p o, valS sd r p o =
    if p <? before then valS sd s p o
    else if p <? before + axLen sd t then valS sd t (p - before) o
    else valS sd s (p - axLen sd t) o.
Proof.
  intros [HE HC] [HEt HCt] Hoff Hb. cbv zeta. unfold sInsert. set (n := axLen sd t).
  set (g := fun e : entry V => if before <=? prim sd e then moveTo sd e (prim sd e + n) else e).
  set (h := fun e : entry V => moveTo sd e (prim sd e + before)).
  assert (Gp : forall e, prim sd (g e) = if before <=? prim sd e then prim sd e + n else prim sd e).
  { intros e. unfold g. destruct (before <=? prim sd e); auto. apply prim_move. }
  assert (Go : forall e, offp sd (g e) = offp sd e).
  { intros e. unfold g. destruct (before <=? prim sd e); auto. apply offp_move. }
  assert (Gv : forall e, ev (g e) = ev e).
  { intros e. unfold g. destruct (before <=? prim sd e); auto. apply ev_move. }
  assert (Hp : forall e, prim sd (h e) = prim sd e + before) by (intros; apply prim_move).
  assert (Ho : forall e, offp sd (h e) = offp sd e) by (intros; apply offp_move).
  assert (Hv : forall e, ev (h e) = ev e) by (intros; apply ev_move).
  assert (HE' : entsOK zero (reshape sd s (axLen sd s + n) (map g (ents s) ++ map h (ents t)))).
  { apply entsOK_reshape.
    - rewrite map_app. apply NoDup_app_intro.
      + rewrite map_map. apply (NoDup_map_of pos); [apply HE|]. intros x y _ _ Heq. apply (pos_inv sd) in Heq.
        rewrite !Gp, !Go in Heq. destruct Heq as [A B]. apply (pos_sd V sd); auto.
        destruct (Nat.leb_spec before (prim sd x)), (Nat.leb_spec before (prim sd y)); lia.
      + rewrite map_map. apply (NoDup_map_of pos); [apply HEt|]. intros x y _ _ Heq. apply (pos_inv sd) in Heq.
        rewrite !Hp, !Ho in Heq. destruct Heq as [A B]. apply (pos_sd V sd); auto. lia.
      + intros x Hx Hx'. rewrite map_map in Hx, Hx'. apply in_map_iff in Hx, Hx'. destruct Hx as [a [<- Ha]], Hx' as [b [E Hb']].
        apply (pos_inv sd) in E. rewrite Gp, Hp in E. destruct E as [A _].
        destruct (entsOK_sd sd t HEt b Hb') as [Q _]. fold n in Q.
        destruct (Nat.leb_spec before (prim sd a)); lia.
    - intros e He. apply in_app_iff in He. destruct He as [He|He]; apply in_map_iff in He; destruct He as [x [<- Hx]].
      + rewrite Gp, Go, Gv. destruct (entsOK_sd sd s HE x Hx) as [A [B C]]. split; auto.
        destruct (Nat.leb_spec before (prim sd x)); lia.
      + rewrite Hp, Ho, Hv. destruct (entsOK_sd sd t HEt x Hx) as [A [B C]]. fold n in A. split; [lia|]. split; auto. lia. }
  split; [split; [auto|apply cacheOK_reshape]|].
  split; [apply axLen_reshape|]. split; [apply offLen_reshape|].
  assert (Hmem : forall p o v, In (mkOn sd p o v) (ents (reshape sd s (axLen sd s + n) (map g (ents s) ++ map h (ents t)))) <->
    (exists e, In e (ents s) /\ prim sd (g e) = p /\ offp sd e = o /\ ev e = v) \/
    (exists e, In e (ents t) /\ prim sd e + before = p /\ offp sd e = o /\ ev e = v)).
  { intros p o v. rewrite ents_reshape, In_mkOn. split.
    - intros [e [He [P1 [P2 P3]]]]. apply in_app_iff in He. destruct He as [He|He]; apply in_map_iff in He; destruct He as [x [<- Hx]].
      + left. exists x. rewrite Go in P2. rewrite Gv in P3. auto.
      + right. exists x. rewrite Hp in P1. rewrite Ho in P2. rewrite Hv in P3. auto.
    - intros [[e [He [P1 [P2 P3]]]]|[e [He [P1 [P2 P3]]]]].
      + exists (g e). rewrite in_app_iff. rewrite Go, Gv. auto using in_map.
      + exists (h e). rewrite in_app_iff. rewrite Ho, Hv, Hp. auto using in_map. }
  intros p o.
  destruct (Nat.ltb_spec p before); [|destruct (Nat.ltb_spec p (before + n))].
  - apply valS_eq; auto. intros v _. rewrite Hmem, In_mkOn. split.
    + intros [[e [He [P1 [P2 P3]]]]|[e [He [P1 [P2 P3]]]]]; [|lia]. exists e. rewrite Gp in P1.
      destruct (Nat.leb_spec before (prim sd e)); [lia|auto].
    + intros [e [He [P1 [P2 P3]]]]. left. exists e. rewrite Gp. destruct (Nat.leb_spec before (prim sd e)); [lia|auto].
  - apply valS_eq; auto. intros v _. rewrite Hmem, In_mkOn. split.
    + intros [[e [He [P1 [P2 P3]]]]|[e [He [P1 [P2 P3]]]]].
      * rewrite Gp in P1. destruct (Nat.leb_spec before (prim sd e)); lia.
      * exists e. repeat split; auto. lia.
    + intros [e [He [P1 [P2 P3]]]]. right. exists e. repeat split; auto. lia.
  - apply valS_eq; auto. intros v _. rewrite Hmem, In_mkOn. split.
    + intros [[e [He [P1 [P2 P3]]]]|[e [He [P1 [P2 P3]]]]].
      * rewrite Gp in P1. exists e. destruct (Nat.leb_spec before (prim sd e)); [repeat split; auto; lia|lia].
      * destruct (entsOK_sd sd t HEt e He) as [A _]. fold n in A. lia.
    + intros [e [He [P1 [P2 P3]]]]. left. exists e. rewrite Gp. destruct (Nat.leb_spec before (prim sd e)); [|lia].
      repeat split; auto. lia.
Qed.

(** ** repeat *)
Lemma NoDup_flat_map {A B C} (f : A -> list B) (key : B -> C) (l : list A) : NoDup l ->
  (forall a, In a l -> NoDup (map key (f a))) ->
  (forall a a' b b', In a l -> In a' l -> In b (f a) -> In b' (f a') -> key b = key b' -> a = a') ->
  NoDup (map key (flat_map f l)).
Proof.
  induction l as [|a l IH]; simpl; [constructor|]. intros Hn H1 H2. inversion Hn; subst. rewrite map_app.
  apply NoDup_app_intro; auto.
  - apply IH; auto. intros; eapply H2; eauto.
  - intros x Hx Hx'. apply in_map_iff in Hx, Hx'. destruct Hx as [b [<- Hb]], Hx' as [b' [E Hb']].
    apply in_flat_map in Hb'. destruct Hb' as [a' [Ha' Hb']].
    assert (a = a') by (eapply H2; eauto). subst. auto.
Qed.

Lemma sRepeat_spec sd s total vv : sinv zero s -> 0 < total ->
  let r := sRepeat sd s total vv in
  sinv zero r /\ axLen sd r = axLen sd s * total /\ offLen sd r = offLen sd s /\
  forall p o, p < axLen sd s * total ->
    valS sd r p o = valS sd s (if vv then p / total else p mod axLen sd s) o.
Proof.
  intros [HE HC] Ht. cbv zeta. unfold sRepeat. set (n := axLen sd s).
  destruct vv.
  - set (L := flat_map _ _).
    assert (Hmem : forall e, In e L <-> exists x i, In x (ents s) /\ i < total /\ e = moveTo sd x (i + total * prim sd x)).
    { intros e. unfold L. rewrite in_flat_map. split.
      - intros [x [Hx He]]. apply in_map_iff in He. destruct He as [i [<- Hi]]. apply in_seq in Hi. exists x, i. repeat split; auto. lia.
      - intros [x [i [Hx [Hi ->]]]]. exists x. split; auto. apply in_map_iff. exists i. split; auto. apply in_seq; lia. }
    assert (HE' : entsOK zero (reshape sd s (n * total) L)).
    { apply entsOK_reshape.
      - unfold L. apply NoDup_flat_map.
        + apply NoDup_of_map with (f := pos). apply HE.
        + intros x Hx. rewrite map_map. apply (NoDup_map_of (fun x => x)); [rewrite map_id; apply seq_NoDup|].
          intros i j _ _ E. apply (pos_inv sd) in E. rewrite !prim_move in E. lia.
        + intros x y b b' Hx Hy Hb Hb' E. apply in_map_iff in Hb, Hb'. destruct Hb as [i [<- Hi]], Hb' as [j [<- Hj]].
          apply in_seq in Hi, Hj. apply (pos_inv sd) in E. rewrite !prim_move, !offp_move in E. destruct E as [A B].
          assert (prim sd x = prim sd y) by nia.
          apply (entsOK_cases V zero s); auto; destruct sd; simpl in *; auto.
      - intros e He. apply Hmem in He. destruct He as [x [i [Hx [Hi ->]]]]. rewrite prim_move, offp_move, ev_move.
        destruct (entsOK_sd sd s HE x Hx) as [A [B C]]. fold n in A. split; auto. nia. }
    split; [split; [auto|apply cacheOK_reshape]|]. split; [apply axLen_reshape|]. split; [apply offLen_reshape|].
    intros p o Hp. apply valS_eq; auto. intros v _. rewrite ents_reshape, !In_mkOn. split.
    + intros [e [He [P1 [P2 P3]]]]. apply Hmem in He. destruct He as [x [i [Hx [Hi ->]]]].
      rewrite prim_move in P1. rewrite offp_move in P2. rewrite ev_move in P3. exists x. repeat split; auto.
      subst p. rewrite Nat.mul_comm, Nat.div_add, Nat.div_small by lia. lia.
    + intros [x [Hx [P1 [P2 P3]]]]. exists (moveTo sd x p). rewrite prim_move, offp_move, ev_move. repeat split; auto.
      apply Hmem. exists x, (p mod total). split; auto. split; [apply Nat.mod_upper_bound; lia|]. f_equal.
      rewrite P1. pose proof (Nat.div_mod p total). lia.
  - set (L := flat_map _ _).
    assert (Hmem : forall e, In e L <-> exists x i, In x (ents s) /\ i < total /\ e = moveTo sd x (prim sd x + n * i)).
    { intros e. unfold L. rewrite in_flat_map. split.
      - intros [i [Hi He]]. apply in_map_iff in He. destruct He as [x [<- Hx]]. apply in_seq in Hi. exists x, i. repeat split; auto. lia.
      - intros [x [i [Hx [Hi ->]]]]. exists i. split; [apply in_seq; lia|]. apply in_map_iff. exists x. auto. }
    assert (HE' : entsOK zero (reshape sd s (n * total) L)).
    { apply entsOK_reshape.
      - unfold L. apply NoDup_flat_map.
        + apply seq_NoDup.
        + intros i Hi. rewrite map_map. apply (NoDup_map_of pos); [apply HE|].
          intros x y _ _ E. apply (pos_inv sd) in E. rewrite !prim_move, !offp_move in E. apply (pos_sd V sd); lia.
        + intros i j b b' Hi Hj Hb Hb' E. apply in_map_iff in Hb, Hb'. destruct Hb as [x [<- Hx]], Hb' as [y [<- Hy]].
          apply (pos_inv sd) in E. rewrite !prim_move, !offp_move in E. destruct E as [A B].
          destruct (entsOK_sd sd s HE x Hx) as [Q _]. destruct (entsOK_sd sd s HE y Hy) as [Q' _]. fold n in Q, Q'. nia.
      - intros e He. apply Hmem in He. destruct He as [x [i [Hx [Hi ->]]]]. rewrite prim_move, offp_move, ev_move.
        destruct (entsOK_sd sd s HE x Hx) as [A [B C]]. fold n in A. split; auto. nia. }
    split; [split; [auto|apply cacheOK_reshape]|]. split; [apply axLen_reshape|]. split; [apply offLen_reshape|].
    intros p o Hp. apply valS_eq; auto. intros v _. rewrite ents_reshape, !In_mkOn. split.
    + intros [e [He [P1 [P2 P3]]]]. apply Hmem in He. destruct He as [x [i [Hx [Hi ->]]]].
      rewrite prim_move in P1. rewrite offp_move in P2. rewrite ev_move in P3. exists x. repeat split; auto.
      destruct (entsOK_sd sd s HE x Hx) as [Q _]. fold n in Q.
      subst p. rewrite (Nat.mul_comm n i), Nat.mod_add, Nat.mod_small by lia. auto.
    + intros [x [Hx [P1 [P2 P3]]]]. exists (moveTo sd x p). rewrite prim_move, offp_move, ev_move. repeat split; auto.
      assert (n <> 0) by nia.
      apply Hmem. exists x, (p / n). split; auto. split; [apply Nat.div_lt_upper_bound; lia|]. f_equal.
      rewrite P1. pose proof (Nat.div_mod p n). lia.
Qed.

(** ** gather vectors *)
Lemma In_vecEntries b sd s i e : In e (vecEntries b sd s i) <-> In e (ents s) /\ prim sd e = i.
Proof.
  unfold vecEntries. assert (H : In e (filter (fun e => prim sd e =? i) (ents s)) <-> In e (ents s) /\ prim sd e = i).
  { rewrite filter_In, Nat.eqb_eq. tauto. }
  destruct b; auto. rewrite <- H. split; apply Permutation_in; auto using lexsort_perm, Permutation_sym.
Qed.
Lemma NoDup_vecEntries b sd s i : entsOK zero s -> NoDup (map pos (vecEntries b sd s i)).
Proof.
  intros [N _]. assert (H : NoDup (map pos (filter (fun e => prim sd e =? i) (ents s)))).
  { clear -N. induction (ents s) as [|a l IH]; simpl; [constructor|]. inversion N; subst.
    destruct (prim sd a =? i); simpl; auto. constructor; auto. intros Hin. apply H1.
    apply in_map_iff in Hin. destruct Hin as [b [E Hb]]. apply filter_In in Hb. apply in_map_iff. exists b. tauto. }
  unfold vecEntries. destruct b; auto.
  eapply Permutation_NoDup; [apply Permutation_map, Permutation_sym, lexsort_perm|auto].
Qed.
Lemma In_gatherVecs b sd s targets : forall k e, In e (gatherVecs b sd s k targets) <->
  exists x j i, In x (ents s) /\ nth_error targets j = Some i /\ prim sd x = i /\ e = moveTo sd x (k + j).
Proof.
  induction targets as [|i t IH]; intros k e; simpl.
  - split; [tauto|]. intros (x & j & i & _ & H & _). destruct j; discriminate.
  - rewrite in_app_iff, IH. split.
    + intros [H|(x & j & i' & Hx & Hj & Hp & ->)].
      * apply in_map_iff in H. destruct H as [x [<- Hx]]. apply In_vecEntries in Hx. destruct Hx as [Hx Hp].
        exists x, 0, i. rewrite Nat.add_0_r. auto.
      * exists x, (S j), i'. repeat split; auto. f_equal. lia.
    + intros (x & j & i' & Hx & Hj & Hp & ->). destruct j as [|j]; simpl in Hj.
      * injection Hj as ->. left. rewrite Nat.add_0_r. apply (in_map (fun e => moveTo sd e k)). apply In_vecEntries. auto.
      * right. exists x, j, i'. repeat split; auto. f_equal. lia.
Qed.
Lemma NoDup_gatherVecs b sd s targets : entsOK zero s -> forall k, NoDup (map pos (gatherVecs b sd s k targets)).
Proof.
  intros HE. induction targets as [|i t IH]; intros k; simpl; [constructor|]. rewrite map_app. apply NoDup_app_intro; auto.
  - rewrite map_map. apply (NoDup_map_of pos); [apply NoDup_vecEntries; auto|].
    intros x y Hx Hy E. apply In_vecEntries in Hx, Hy. apply (pos_inv sd) in E. rewrite !offp_move in E.
    apply (pos_sd V sd); destruct Hx, Hy, E; congruence.
  - intros x Hx Hx'. rewrite map_map in Hx. apply in_map_iff in Hx, Hx'. destruct Hx as [a [<- Ha]], Hx' as [c [E Hc]].
    apply In_gatherVecs in Hc. destruct Hc as (y & j & i' & _ & _ & _ & ->).
    apply (pos_inv sd) in E. rewrite !prim_move in E. lia.
Qed.
Lemma gatherVecs_spec b sd s targets : entsOK zero s ->
  let r := reshape sd s (List.length targets) (gatherVecs b sd s 0 targets) in
  sinv zero r /\ axLen sd r = List.length targets /\ offLen sd r = offLen sd s /\
  forall k p o, nth_error targets k = Some p -> valS sd r k o = valS sd s p o.
Proof.
  intros HE. cbv zeta.
  assert (HE' : entsOK zero (reshape sd s (List.length targets) (gatherVecs b sd s 0 targets))).
  { apply entsOK_reshape; [apply NoDup_gatherVecs; auto|].
    intros e He. apply In_gatherVecs in He. destruct He as (x & j & i & Hx & Hj & Hp & ->).
    rewrite prim_move, offp_move, ev_move. destruct (entsOK_sd sd s HE x Hx) as [A [B C]]. apply nth_error_lt in Hj. auto. }
  split; [split; [auto|apply cacheOK_reshape]|]. split; [apply axLen_reshape|]. split; [apply offLen_reshape|].
  intros k p o Hk. apply valS_eq; auto. intros v _. rewrite ents_reshape, !In_mkOn. split.
  - intros [e [He [P1 [P2 P3]]]]. apply In_gatherVecs in He. destruct He as (x & j & i & Hx & Hj & Hp & ->).
    rewrite prim_move in P1. rewrite offp_move in P2. rewrite ev_move in P3. simpl in P1. subst j. exists x. repeat split; auto. congruence.
  - intros [x [Hx [P1 [P2 P3]]]]. exists (moveTo sd x k). rewrite prim_move, offp_move, ev_move. repeat split; auto.
    apply In_gatherVecs. exists x, k, p. auto.
Qed.
Lemma sTaken_spec b sd s targets : sinv zero s ->
  let r := sTaken b sd s targets in
  sinv zero r /\ axLen sd r = List.length targets /\ offLen sd r = offLen sd s /\
  forall k p o, nth_error targets k = Some p -> valS sd r k o = valS sd s p o.
Proof. intros [HE _]. apply gatherVecs_spec; auto. Qed.
Lemma sRemaining_spec b sd s targets : sinv zero s ->
  let r := sRemaining b sd s targets in
  let keep := keepIdx (axLen sd s) targets in
  sinv zero r /\ axLen sd r = List.length keep /\ offLen sd r = offLen sd s /\
  forall k p o, nth_error keep k = Some p -> valS sd r k o = valS sd s p o.
Proof. intros [HE _]. apply gatherVecs_spec; auto. Qed.
End P.
