From Verif Require Import Base NamesModel NamesSpec TableModel TableSpec TableProofs TableOps TableSortProofs
  SparseModel SparseSpec SparseProofs SparseOpsProofs SparseHistProofs ViewModel ViewSpec.
From Coq Require Import Sorted.
Open Scope nat_scope.

Lemma NoDup_map_inj' {A B} (f : A -> B) l : (forall a b, In a l -> In b l -> f a = f b -> a = b) -> NoDup l -> NoDup (map f l).
Proof.
  intros Hi Hn. induction Hn as [|x l Hx Hn IH]; simpl; constructor.
  - intros C. apply in_map_iff in C as (y & E & Hy). apply Hx. rewrite (Hi x y); simpl; auto.
  - apply IH. intros a b Ha Hb. apply Hi; simpl; auto.
Qed.
Lemma In_slice {A} (l : list A) a b x : In x (slice l a b) <-> exists k, a <= k < b /\ nth_error l k = Some x.
Proof.
  split.
  - intros H. apply In_nth_error in H. destruct H as [k Hk]. rewrite slice_nth in Hk.
    destruct (k <? b - a) eqn:E; [|discriminate]. apply Nat.ltb_lt in E. exists (a + k). split; [lia|exact Hk].
  - intros [k [Hk Hn]]. apply (nth_error_In _ (k - a)). rewrite slice_nth.
    assert (E : k - a <? b - a = true) by (apply Nat.ltb_lt; lia). rewrite E. replace (a + (k - a)) with k by lia. exact Hn.
Qed.
Lemma NoDup_slice {A} (l : list A) a b : NoDup l -> NoDup (slice l a b).
Proof.
  intros H. apply NoDup_nth_error. intros i j Hi E. rewrite !slice_nth in E.
  assert (Hi2 : nth_error (slice l a b) i <> None) by (apply nth_error_Some; exact Hi). rewrite slice_nth in Hi2.
  destruct (i <? b - a) eqn:E1; [|tauto]. destruct (j <? b - a) eqn:E2; [|congruence].
  assert (a + i = a + j); [|lia]. rewrite NoDup_nth_error in H. apply H; [|exact E]. apply nth_error_Some. exact Hi2.
Qed.

Section P.
Variable V : Type.
Variable zero : V.
Implicit Types s : sparse V.

Lemma axis_slice s sd idx P : sinv zero s -> sAxis s = Some sd -> sIdx s = Some idx -> P < axLen sd s ->
  exists start stop, nth_error idx P = Some start /\ nth_error idx (S P) = Some stop /\
    (forall k e, nth_error (ents s) k = Some e -> (start <= k < stop <-> prim sd e = P)) /\
    forall lo hi,
      let offs := map (offp sd) (ents s) in
      forall e, In e (slice (ents s) (start + searchsorted (slice offs start stop) lo) (start + searchsorted (slice offs start stop) hi)) <->
        In e (ents s) /\ prim sd e = P /\ lo <= offp sd e < hi.
Proof.
  intros [HE HC] Ha Hi HP. unfold cacheOK in HC. rewrite Ha, Hi in HC. destruct HC as [HS [HL HI]].
  assert (H1 : P < List.length idx) by lia. assert (H2 : S P < List.length idx) by lia.
  destruct (nth_error_is_some _ H1) as [start Es]. destruct (nth_error_is_some _ H2) as [stop Ee].
  exists start, stop. split; [exact Es|]. split; [exact Ee|].
  pose proof (HI _ _ Es) as [Ls Ss]. pose proof (HI _ _ Ee) as [Le Se]. rewrite map_length in Ls, Le.
  assert (Hrange : forall k e, nth_error (ents s) k = Some e -> (start <= k < stop <-> prim sd e = P)).
  { intros k e Hk. assert (Hp : nth_error (map (prim sd) (ents s)) k = Some (prim sd e)) by (rewrite nth_error_map_eq, Hk; auto).
    specialize (Ss _ _ Hp). specialize (Se _ _ Hp). lia. }
  split; [exact Hrange|]. intros lo hi offs.
  assert (Hnd : nondecr (slice offs start stop)).
  { intros i j u v Hij Hu Hv. rewrite slice_nth in Hu, Hv.
    destruct (Nat.ltb_spec i (stop - start)); [|discriminate]. destruct (Nat.ltb_spec j (stop - start)); [|discriminate].
    unfold offs in Hu, Hv. rewrite nth_error_map_eq in Hu, Hv.
    destruct (nth_error (ents s) (start + i)) as [e1|] eqn:E1; [|discriminate].
    destruct (nth_error (ents s) (start + j)) as [e2|] eqn:E2; [|discriminate].
    injection Hu as <-. injection Hv as <-.
    assert (P1 : prim sd e1 = P) by (apply (Hrange (start + i)); auto; lia).
    assert (P2 : prim sd e2 = P) by (apply (Hrange (start + j)); auto; lia).
    pose proof (StronglySorted_nth _ _ HS (start + i) (start + j) e1 e2 ltac:(lia) E1 E2) as [H3|[_ H3]]; lia. }
  assert (Hin : forall key k e, nth_error (ents s) k = Some e -> start <= k < stop ->
     (k < start + searchsorted (slice offs start stop) key <-> offp sd e < key)).
  { intros key k e Hk Hr. destruct (searchsorted_spec (slice offs start stop) key Hnd) as [Lk Sk].
    assert (Hs : nth_error (slice offs start stop) (k - start) = Some (offp sd e)).
    { rewrite slice_nth. replace (k - start <? stop - start) with true by (symmetry; apply Nat.ltb_lt; lia).
      replace (start + (k - start)) with k by lia. unfold offs. rewrite nth_error_map_eq, Hk. auto. }
    specialize (Sk _ _ Hs). lia. }
  assert (Hle : forall key, searchsorted (slice offs start stop) key <= stop - start).
  { intros key. destruct (searchsorted_spec (slice offs start stop) key Hnd) as [Lk _].
    unfold slice in Lk at 2. rewrite firstn_length in Lk. lia. }
  intros e. rewrite In_slice. split.
  - intros [k [Hk Hn]]. pose proof (Hle hi).
    assert (Hr : start <= k < stop).
    { pose proof (nth_error_lt _ _ Hn). lia. }
    split; [eapply nth_error_In; exact Hn|]. split; [apply (Hrange k e Hn); exact Hr|].
    pose proof (Hin lo k e Hn Hr). pose proof (Hin hi k e Hn Hr). lia.
  - intros [He [Hp Ho]]. apply In_nth_error in He. destruct He as [k Hk]. exists k. split; [|exact Hk].
    assert (Hr : start <= k < stop) by (apply (Hrange k e Hk); exact Hp).
    pose proof (Hin lo k e Hk Hr). pose proof (Hin hi k e Hk Hr). lia.
Qed.

Lemma vectorView_spec s ps pe fs fe : sinv zero s -> ps < pe -> pe <= snp s -> fs < fe -> fe <= snf s ->
  pe - ps = 1 \/ fe - fs = 1 ->
  let r := vectorView s ps pe fs fe in
  sinv zero (fst r) /\ sameMatrix zero s (fst r) /\
  exists w, snd r = Ok w /\ sinv zero w /\ snp w = pe - ps /\ snf w = fe - fs /\
    forall i j, i < pe - ps -> j < fe - fs -> val zero w i j = val zero s (ps + i) (fs + j).
Proof.
  intros HI P1 P2 F1 F2 Hsingle. unfold vectorView. cbv beta zeta.
  set (sp := pe - ps =? 1). set (sd := if sp then Pts else Fts).
  destruct (sortInternal_spec V zero s sd true false (proj1 HI) (or_intror (proj2 HI))) as [HI' [HM [HA [HP HX]]]].
  set (s' := sortInternal s sd true false) in *. destruct (HX eq_refl) as [idx Hidx]. clear HX.
  cbn [fst snd]. split; [exact HI'|]. split; [exact HM|].
  destruct HM as [Mn [Mf Mv]].
  set (P := if sp then ps else fs). set (lo := if sp then fs else ps). set (hi := if sp then fe else pe).
  assert (HPb : P < axLen sd s'). { unfold P, sd, axLen, sp. destruct (pe - ps =? 1); lia. }
  rewrite Hidx. destruct (axis_slice s' sd idx P HI' HA Hidx HPb) as [start [stop [Es [Ee [Hr Hs]]]]]. rewrite Es, Ee.
  set (allOther := if sp then (fs =? 0) && (fe =? snf s) else (ps =? 0) && (pe =? snp s)).
  set (ab := if allOther then (start, stop) else
     (start + searchsorted (slice (map (offp sd) (ents s')) start stop) lo, start + searchsorted (slice (map (offp sd) (ents s')) start stop) hi)).
  pose proof HI' as [[ND RG] _].
  assert (Hsel : forall e, In e (slice (ents s') (fst ab) (snd ab)) <-> In e (ents s') /\ prim sd e = P /\ lo <= offp sd e < hi).
  { intros e. unfold ab. destruct allOther eqn:EA; cbn [fst snd]; [|apply Hs].
    rewrite In_slice. split.
    - intros [k [Hk Hn]]. split; [eapply nth_error_In; exact Hn|]. split; [apply (Hr k e Hn); exact Hk|].
      destruct (RG e (nth_error_In _ _ Hn)) as [A [B _]]. unfold allOther, lo, hi, sd in *.
      destruct sp; apply andb_true_iff in EA; destruct EA as [E1 E2]; apply Nat.eqb_eq in E1; apply Nat.eqb_eq in E2; simpl; lia.
    - intros [He [Hp _]]. apply In_nth_error in He. destruct He as [k Hk]. exists k. split; [apply (Hr k e Hk); exact Hp|exact Hk]. }
  destruct ab as [a b]. cbn [fst snd] in Hsel.
  set (g := fun e : entry V => mkOn sd 0 (offp sd e - lo) (ev e)).
  eexists. split; [reflexivity|]. set (w := mkSp (pe - ps) (fe - fs) (map g (slice (ents s') a b)) None None).
  assert (Hother : (sp = true -> pe = ps + 1) /\ (sp = false -> fe = fs + 1)).
  { unfold sp. destruct (Nat.eqb_spec (pe - ps) 1); split; intros; try discriminate; lia. }
  assert (HEw : entsOK zero w).
  { split.
    - unfold w. cbn [ents]. rewrite map_map. apply NoDup_map_inj'.
      + intros x y Hx Hy E. apply Hsel in Hx. apply Hsel in Hy. destruct Hx as [Ix [Px Ox]]. destruct Hy as [Iy [Py Oy]].
        apply (entsOK_cases V zero s' (conj ND RG) x y Ix Iy).
        * unfold g, pos, mkOn, P, sd in *. destruct sp; simpl in *; injection E as E1; lia.
        * unfold g, pos, mkOn, P, sd in *. destruct sp; simpl in *; injection E as E1; lia.
      + apply NoDup_slice. eapply NoDup_of_map. exact ND.
    - intros e He. unfold w in He. cbn [ents] in He. apply in_map_iff in He. destruct He as [x [<- Hx]]. apply Hsel in Hx.
      destruct Hx as [Ix [Px Ox]]. destruct (RG x Ix) as [A [B C]]. unfold w, g, mkOn, lo, hi, sd, P in *. cbn [snp snf].
      destruct Hother as [O1 O2]. destruct sp; simpl in *; [specialize (O1 eq_refl)|specialize (O2 eq_refl)]; split; try lia; split; auto; lia. }
  split; [split; [exact HEw|reflexivity]|]. split; [reflexivity|]. split; [reflexivity|].
  intros i j Hi Hj. rewrite <- Mv. apply val_eq; [exact HEw|exact (conj ND RG)|].
  intros v _. unfold w. cbn [ents]. rewrite in_map_iff.
  destruct Hother as [O1 O2]. split.
  - intros [x [E Hx]]. apply Hsel in Hx. destruct Hx as [Ix [Px Ox]]. unfold g, mkOn, sd, P, lo, hi in *.
    destruct x as [xr xc xv]. destruct sp; simpl in *; injection E as <- <- <-.
    + replace (ps + 0) with xr by lia. replace (fs + (xc - fs)) with xc by lia. exact Ix.
    + replace (ps + (xr - ps)) with xr by lia. replace (fs + 0) with xc by lia. exact Ix.
  - intros Hin. exists (mkE (ps + i) (fs + j) v). split.
    + unfold g, mkOn, sd, lo. destruct sp; simpl; [specialize (O1 eq_refl)|specialize (O2 eq_refl)]; f_equal; lia.
    + apply Hsel. split; [exact Hin|]. unfold sd, P, lo, hi.
      destruct sp; simpl; [specialize (O1 eq_refl)|specialize (O2 eq_refl)]; lia.
Qed.

(** ** replaceRectangle *)
Definition newE (v : rval V) : entry V := mkE (rvrow v) (rvcol v) (rvdat v).
Definition outside (fs fe : nat) (e : entry V) : bool := (ec e <? fs) || (fe <? ec e).
Definition kept (fs fe i0 si : nat) (l : list (entry V)) : list (entry V) :=
  firstn i0 l ++ filter (outside fs fe) (slice l i0 si).

Lemma rectSeek_spec l fs fe pe selfEnd : selfEnd <= List.length l ->
  (forall k e, nth_error l k = Some e -> (k < selfEnd <-> er e <= pe)) ->
  forall fuel i, i < List.length l -> List.length l - i < fuel ->
  exists i0, rectSeek fuel l fs fe pe selfEnd i = Ok i0 /\ i0 <= List.length l /\ (i <= selfEnd -> i <= i0) /\
    forall k e, i <= k < i0 -> nth_error l k = Some e -> outside fs fe e = true.
Proof.
  intros Hse Hrow. induction fuel as [|fuel IH]; intros i Hi Hf; [lia|]. cbn [rectSeek].
  destruct (nth_error_is_some _ Hi) as [e He]. rewrite He. fold (outside fs fe e).
  destruct (outside fs fe e) eqn:Eo.
  - destruct ((pe <? er e) || (i =? List.length l - 1)) eqn:Eb.
    + exists selfEnd. split; [reflexivity|]. split; [exact Hse|]. split; [auto|]. intros k x Hk Hx.
      apply orb_true_iff in Eb. destruct Eb as [Eb|Eb].
      * apply Nat.ltb_lt in Eb. pose proof (Hrow i e He). lia.
      * apply Nat.eqb_eq in Eb. assert (k = i) by (apply nth_error_lt in Hx; lia). subst k. congruence.
    + apply orb_false_iff in Eb. destruct Eb as [E1 E2]. apply Nat.eqb_neq in E2. apply Nat.ltb_ge in E1.
      assert (Hlt : i < selfEnd) by (apply (Hrow i e He); exact E1).
      destruct (IH (S i)) as [i0 [E [L [Hge Hall]]]]; [lia|lia|]. exists i0. split; [exact E|]. split; [exact L|].
      split; [intros; specialize (Hge ltac:(lia)); lia|]. intros k x Hk Hx. destruct (Nat.eq_dec k i) as [->|]; [congruence|]. apply (Hall k); auto. lia.
  - exists i. split; [reflexivity|]. split; [lia|]. split; [auto|]. intros; lia.
Qed.

Lemma firstn_S_nth {A} (l : list A) k x : nth_error l k = Some x -> firstn (S k) l = firstn k l ++ [x].
Proof.
  revert k. induction l as [|a l IH]; intros [|k] H; simpl in *; try discriminate.
  - injection H as ->. reflexivity.
  - f_equal. apply IH. exact H.
Qed.
Lemma firstn_S_upd {A} (l : list A) k x : k < List.length l -> firstn (S k) (upd l k x) = firstn k l ++ [x].
Proof.
  intros H. apply nth_error_ext. intros i. rewrite nth_error_firstn, nth_error_upd, nth_error_app, firstn_length, Nat.min_l, nth_error_firstn by lia.
  destruct (Nat.eq_dec k i) as [->|Hn].
  - assert (E1 : i <? S i = true) by (apply Nat.ltb_lt; lia). assert (E2 : i <? List.length l = true) by (apply Nat.ltb_lt; lia).
    assert (E3 : i <? i = false) by (apply Nat.ltb_ge; lia). rewrite E1, E2, E3, Nat.sub_diag. reflexivity.
  - destruct (i <? S k) eqn:E1; [apply Nat.ltb_lt in E1|apply Nat.ltb_ge in E1].
    + assert (E2 : i <? k = true) by (apply Nat.ltb_lt; lia). rewrite E2. reflexivity.
    + assert (E2 : i <? k = false) by (apply Nat.ltb_ge; lia). rewrite E2. destruct (i - k) eqn:E3; [lia|]. simpl. destruct n; reflexivity.
Qed.
Lemma slice_S {A} (l : list A) a b x : a <= b -> nth_error l b = Some x -> slice l a (S b) = slice l a b ++ [x].
Proof.
  intros H Hx. unfold slice. replace (S b - a) with (S (b - a)) by lia. apply firstn_S_nth. rewrite nth_error_skipn.
  replace (a + (b - a)) with b by lia. exact Hx.
Qed.

Section Loop.
Variables (orig : list (entry V)) (vals : list (rval V)) (fs fe pe selfEnd i0 : nat).
Hypothesis Hend : selfEnd <= List.length orig.
Hypothesis Hi0l : i0 <= List.length orig.
Hypothesis Hvals : forall v, In v vals -> fs <= rvcol v <= fe /\ rvnum v < S pe * rvden v.
Definition rinv (st : rstate V) : Prop :=
  List.length (rarr st) = List.length orig /\ i0 <= rself st /\ rself st <= Nat.max i0 selfEnd /\
  rcopy st <= rself st /\ rvals st <= List.length vals /\
  (forall k, rself st <= k -> nth_error (rarr st) k = nth_error orig k) /\
  Permutation (firstn (rcopy st) (rarr st) ++ radd st)
              (kept fs fe i0 (rself st) orig ++ map newE (firstn (rvals st) vals)).
Lemma rectLoop_spec fuel : forall st, rinv st -> (selfEnd - rself st) + (List.length vals - rvals st) < fuel ->
  exists st', rectLoop zero fuel vals fs fe pe selfEnd st = Ok st' /\ rinv st' /\
    selfEnd <= rself st' /\ rvals st' = List.length vals.
Proof.
  induction fuel as [|fuel IH]; intros st HI Hf; [lia|]. destruct st as [arr si vi ci add].
  pose proof HI as [HL [Hi0 [Hmax [Hci [Hvi [Htail HP]]]]]]. cbn [rarr rself rvals rcopy radd] in *. cbn [rectLoop].
  destruct (si <? selfEnd) eqn:Es.
  - apply Nat.ltb_lt in Es. cbn [orb negb].
    assert (Hlt : si < List.length orig) by lia. destruct (nth_error_is_some _ Hlt) as [e He].
    rewrite Htail by lia. rewrite He. cbn [option_map].
    assert (Hkstep : kept fs fe i0 (S si) orig = kept fs fe i0 si orig ++ (if outside fs fe e then [e] else [])).
    { unfold kept. rewrite (slice_S _ _ _ e) by (auto; lia). rewrite filter_app. cbn [filter].
      rewrite <- app_assoc. destruct (outside fs fe e); reflexivity. }
    assert (HLt : exists st', (if (ec e <? fs) || (fe <? ec e)
        then rectLoop zero fuel vals fs fe pe selfEnd (mkR (upd arr ci e) (S si) vi (S ci) add)
        else rectLoop zero fuel vals fs fe pe selfEnd (mkR arr (S si) vi ci add)) = Ok st' /\ rinv st' /\ selfEnd <= rself st' /\ rvals st' = List.length vals).
    { fold (outside fs fe e). destruct (outside fs fe e) eqn:Eo.
      - apply IH; [|cbn [rself rvals]; lia]. unfold rinv. cbn [rarr rself rvals rcopy radd].
        split; [rewrite upd_length; exact HL|]. split; [lia|]. split; [lia|]. split; [lia|]. split; [lia|].
        split; [intros k Hk; rewrite nth_error_upd_other by lia; apply Htail; lia|].
        rewrite firstn_S_upd by lia. rewrite Hkstep, <- !app_assoc.
        apply Permutation_trans with (e :: firstn ci arr ++ add).
        + apply Permutation_sym. apply (Permutation_middle (firstn ci arr) add e).
        + apply Permutation_trans with (e :: kept fs fe i0 si orig ++ map newE (firstn vi vals)).
          * apply perm_skip. exact HP.
          * apply (Permutation_middle (kept fs fe i0 si orig) (map newE (firstn vi vals)) e).
      - apply IH; [|cbn [rself rvals]; lia]. unfold rinv. cbn [rarr rself rvals rcopy radd].
        split; [exact HL|]. split; [lia|]. split; [lia|]. split; [lia|]. split; [lia|].
        split; [intros k Hk; apply Htail; lia|]. rewrite Hkstep, app_nil_r. exact HP. }
    destruct (nth_error vals vi) as [v|] eqn:Ev; [|exact HLt].
    pose proof (Hvals v (nth_error_In _ _ Ev)) as [Hc _]. pose proof (nth_error_lt _ _ Ev) as Hvl.
    assert (Hvstep : map newE (firstn (S vi) vals) = map newE (firstn vi vals) ++ [newE v]).
    { rewrite (firstn_S_nth _ _ v Ev), map_app. reflexivity. }
    destruct (rectCmp (er e) (ec e) (Some v)) eqn:Ec; [| exact HLt |].
    + assert (Hin : outside fs fe e = false).
      { unfold rectCmp in Ec. destruct (er e * rvden v ?= rvnum v); try discriminate.
        apply Nat.compare_eq in Ec. unfold outside. rewrite Ec. apply orb_false_iff. split; apply Nat.ltb_ge; lia. }
      apply IH; [|cbn [rself rvals]; lia]. unfold rinv. cbn [rarr rself rvals rcopy radd].
      split; [rewrite upd_length; exact HL|]. split; [lia|]. split; [lia|]. split; [lia|]. split; [lia|].
      split; [intros k Hk; rewrite nth_error_upd_other by lia; apply Htail; lia|].
      rewrite firstn_S_upd by lia. rewrite Hkstep, Hin, app_nil_r, Hvstep. fold (newE v).
      rewrite <- app_assoc. apply Permutation_trans with (newE v :: firstn ci arr ++ add).
      * apply Permutation_sym. apply (Permutation_middle (firstn ci arr) add (newE v)).
      * rewrite app_assoc. apply Permutation_cons_append || idtac.
        apply Permutation_trans with (newE v :: kept fs fe i0 si orig ++ map newE (firstn vi vals)); [apply perm_skip; exact HP|].
        apply Permutation_cons_append.
    + destruct (ci <? si) eqn:Eci.
      * apply Nat.ltb_lt in Eci. apply IH; [|cbn [rself rvals]; lia]. unfold rinv. cbn [rarr rself rvals rcopy radd].
        split; [rewrite upd_length; exact HL|]. split; [lia|]. split; [lia|]. split; [lia|]. split; [lia|].
        split; [intros k Hk; rewrite nth_error_upd_other by lia; apply Htail; lia|].
        rewrite firstn_S_upd by lia. rewrite Hvstep. fold (newE v). rewrite <- app_assoc.
        apply Permutation_trans with (newE v :: firstn ci arr ++ add).
        -- apply Permutation_sym. apply (Permutation_middle (firstn ci arr) add (newE v)).
        -- rewrite app_assoc. apply Permutation_trans with (newE v :: kept fs fe i0 si orig ++ map newE (firstn vi vals)); [apply perm_skip; exact HP|].
           apply Permutation_cons_append.
      * apply IH; [|cbn [rself rvals]; lia]. unfold rinv. cbn [rarr rself rvals rcopy radd].
        split; [exact HL|]. split; [lia|]. split; [lia|]. split; [lia|]. split; [lia|].
        split; [exact Htail|]. rewrite Hvstep, !app_assoc. apply Permutation_app_tail. exact HP.
  - apply Nat.ltb_ge in Es. cbn [orb]. destruct (vi <? List.length vals) eqn:Evl; cbn [negb].
    + apply Nat.ltb_lt in Evl. destruct (nth_error_is_some _ Evl) as [v Ev]. rewrite Ev.
      pose proof (Hvals v (nth_error_In _ _ Ev)) as [_ Hr].
      assert (Hvstep : map newE (firstn (S vi) vals) = map newE (firstn vi vals) ++ [newE v]).
      { rewrite (firstn_S_nth _ _ v Ev), map_app. reflexivity. }
      assert (Ec : rectCmp (S pe) (S fe) (Some v) = Gt).
      { unfold rectCmp. assert (X : (S pe * rvden v ?= rvnum v) = Gt) by (apply Nat.compare_gt_iff; exact Hr). rewrite X. reflexivity. }
      rewrite Ec. destruct (ci <? si) eqn:Eci.
      * apply Nat.ltb_lt in Eci. apply IH; [|cbn [rself rvals]; lia]. unfold rinv. cbn [rarr rself rvals rcopy radd].
        assert (Hcl : ci < List.length arr \/ List.length arr <= ci) by lia.
        split; [rewrite upd_length; exact HL|]. split; [lia|]. split; [lia|]. split; [lia|]. split; [lia|].
        split; [intros k Hk; rewrite nth_error_upd_other by lia; apply Htail; lia|].
        destruct Hcl as [Hcl|Hcl].
        -- rewrite firstn_S_upd by lia. rewrite Hvstep. fold (newE v). rewrite <- app_assoc.
           apply Permutation_trans with (newE v :: firstn ci arr ++ add).
           ++ apply Permutation_sym. apply (Permutation_middle (firstn ci arr) add (newE v)).
           ++ rewrite app_assoc. apply Permutation_trans with (newE v :: kept fs fe i0 si orig ++ map newE (firstn vi vals)); [apply perm_skip; exact HP|].
              apply Permutation_cons_append.
        -- exfalso. lia.
      * apply IH; [|cbn [rself rvals]; lia]. unfold rinv. cbn [rarr rself rvals rcopy radd].
        split; [exact HL|]. split; [lia|]. split; [lia|]. split; [lia|]. split; [lia|].
        split; [exact Htail|]. rewrite Hvstep, !app_assoc. apply Permutation_app_tail. exact HP.
    + apply Nat.ltb_ge in Evl. eexists. split; [reflexivity|]. split; [exact HI|]. cbn [rself rvals]. lia.
Qed.
End Loop.

Definition notInRect (ps fs pe fe : nat) (e : entry V) : bool := negb (inRectangle ps (S pe) fs (S fe) (er e) (ec e)).
Lemma inRectangle_iff p p' f f' i j : inRectangle p p' f f' i j = true <-> p <= i < p' /\ f <= j < f'.
Proof. unfold inRectangle. rewrite !andb_true_iff, !Nat.leb_le, !Nat.ltb_lt. lia. Qed.
Lemma filter_all {A} (f : A -> bool) l : (forall x, In x l -> f x = true) -> filter f l = l.
Proof. induction l as [|x l IH]; intros H; simpl; auto. rewrite H by (simpl; auto). f_equal. apply IH. intros; apply H; simpl; auto. Qed.
Lemma split3 {A} (l : list A) a b : a <= b -> l = firstn a l ++ slice l a b ++ skipn b l.
Proof.
  intros H. rewrite <- (firstn_skipn a l) at 1. f_equal. unfold slice.
  rewrite <- (firstn_skipn (b - a) (skipn a l)) at 1. f_equal. apply nth_error_ext. intros k. rewrite !nth_error_skipn. f_equal. lia.
Qed.

Theorem rectSparse_ents s vals ps fs pe fe : sinv zero s -> ps <= pe -> pe < snp s ->
  ents s = [] \/ (exists e, In e (ents s) /\ ps <= er e) ->
  (forall v, In v vals -> fs <= rvcol v <= fe /\ rvnum v < S pe * rvden v) ->
  exists s', rectSparse zero s vals ps fs pe fe = (s', Ok tt) /\ snp s' = snp s /\ snf s' = snf s /\
    sAxis s' = None /\ sIdx s' = None /\
    Permutation (ents s') (filter (notInRect ps fs pe fe) (ents s) ++ map newE vals).
Proof.
  intros HI Hp Hpe Hg Hv. unfold rectSparse. cbv beta zeta.
  destruct (sortInternal_spec V zero s Pts true false (proj1 HI) (or_intror (proj2 HI))) as [HI' [HM [HA [HP HX]]]].
  set (s1 := sortInternal s Pts true false) in *. destruct (HX eq_refl) as [idx Hidx]. clear HX. rewrite Hidx.
  destruct HM as [Mn [Mf Mv]].
  pose proof HI' as [[ND RG] HC]. unfold cacheOK in HC. rewrite HA, Hidx in HC. destruct HC as [HS [HL HX]]. cbn [axLen] in HL.
  assert (H1 : S pe < List.length idx) by lia. assert (H2 : ps < List.length idx) by lia.
  destruct (nth_error_is_some _ H1) as [selfEnd Ee]. destruct (nth_error_is_some _ H2) as [start Es]. rewrite Ee, Es.
  pose proof (HX _ _ Es) as [Ls Ss]. pose proof (HX _ _ Ee) as [Le Se]. rewrite map_length in Ls, Le.
  assert (Rs : forall k e, nth_error (ents s1) k = Some e -> (k < start <-> er e < ps)).
  { intros k e Hk. apply Ss. rewrite nth_error_map_eq, Hk. reflexivity. }
  assert (Re : forall k e, nth_error (ents s1) k = Some e -> (k < selfEnd <-> er e <= pe)).
  { intros k e Hk. rewrite (Se k (er e)); [lia|]. rewrite nth_error_map_eq, Hk. reflexivity. }
  assert (Hseek : exists i0, (if List.length (ents s1) =? 0 then Ok 0 else rectSeek (S (List.length (ents s1))) (ents s1) fs fe pe selfEnd start) = Ok i0 /\
     i0 <= List.length (ents s1) /\ start <= i0 /\
     forall k e, start <= k < i0 -> nth_error (ents s1) k = Some e -> outside fs fe e = true).
  { destruct (List.length (ents s1) =? 0) eqn:El.
    - apply Nat.eqb_eq in El. exists 0. split; [reflexivity|]. split; [lia|]. split; [lia|]. intros; lia.
    - apply Nat.eqb_neq in El.
      assert (Hst : start < List.length (ents s1)).
      { destruct Hg as [Hg|[e [He Hr]]].
        - rewrite Hg in HP. apply Permutation_length in HP. simpl in HP. lia.
        - apply (Permutation_in _ (Permutation_sym HP)) in He. apply In_nth_error in He. destruct He as [k Hk].
          pose proof (nth_error_lt _ _ Hk). pose proof (Rs k e Hk). lia. }
      destruct (rectSeek_spec (ents s1) fs fe pe selfEnd Le Re (S (List.length (ents s1))) start Hst ltac:(lia)) as [i0 [E [L [G Hall]]]].
      exists i0. split; [exact E|]. split; [exact L|]. split; [|exact Hall].
      apply G. destruct (Nat.le_gt_cases start selfEnd) as [|C]; [assumption|]. exfalso.
      destruct (nth_error_is_some (ents s1) (i := selfEnd)) as [e He]; [lia|].
      pose proof (Rs selfEnd e He). pose proof (Re selfEnd e He). lia. }
  destruct Hseek as [i0 [E0 [L0 [G0 O0]]]]. rewrite E0.
  assert (HR : rinv (ents s1) vals fs fe selfEnd i0 (mkR (ents s1) i0 0 i0 [])).
  { unfold rinv. cbn [rarr rself rvals rcopy radd]. split; [reflexivity|]. split; [lia|]. split; [lia|]. split; [lia|]. split; [lia|].
    split; [reflexivity|]. unfold kept, slice. rewrite Nat.sub_diag. simpl. rewrite !app_nil_r. apply Permutation_refl. }
  destruct (rectLoop_spec (ents s1) vals fs fe pe selfEnd i0 Le L0 Hv (S (List.length (ents s1) + List.length vals)) _ HR) as [st [Est [HRs [Hse Hvs]]]].
  { cbn [rself rvals]. lia. }
  rewrite Est. eexists. split; [reflexivity|]. unfold rectFinish. cbn [snp snf sAxis sIdx ents].
  split; [exact Mn|]. split; [exact Mf|]. split; [reflexivity|]. split; [reflexivity|].
  destruct HRs as [HLa [Hi0 [Hmax [Hci [Hvi [Htail HPm]]]]]]. rewrite Hvs, firstn_all in HPm.
  assert (Hl : (if rcopy st =? rself st then rarr st else firstn (rcopy st) (rarr st) ++ skipn (rself st) (rarr st)) =
               firstn (rcopy st) (rarr st) ++ skipn (rself st) (rarr st)).
  { destruct (rcopy st =? rself st) eqn:Eq; [|reflexivity]. apply Nat.eqb_eq in Eq. rewrite Eq, firstn_skipn. reflexivity. }
  rewrite Hl. assert (Hsk : skipn (rself st) (rarr st) = skipn (rself st) (ents s1)).
  { apply nth_error_ext. intros k. rewrite !nth_error_skipn. apply Htail. lia. }
  rewrite Hsk.
  assert (Hf : filter (notInRect ps fs pe fe) (ents s1) = kept fs fe i0 (rself st) (ents s1) ++ skipn (rself st) (ents s1)).
  { rewrite (split3 (ents s1) i0 (rself st) Hi0) at 1. rewrite !filter_app. unfold kept. rewrite <- app_assoc. f_equal; [|f_equal].
    - apply filter_all. intros e He. apply In_nth_error in He. destruct He as [k Hk]. rewrite nth_error_firstn in Hk.
      destruct (k <? i0) eqn:Ek; [|discriminate]. apply Nat.ltb_lt in Ek.
      unfold notInRect. apply negb_true_iff. apply not_true_iff_false. rewrite inRectangle_iff. intros [A B].
      destruct (Nat.lt_ge_cases k start) as [C|C].
      + pose proof (Rs k e Hk). lia.
      + pose proof (O0 k e ltac:(lia) Hk) as O. unfold outside in O. apply orb_true_iff in O. rewrite !Nat.ltb_lt in O. lia.
    - apply filter_ext_in. intros e He. apply In_slice in He. destruct He as [k [Hk Hn]].
      pose proof (Rs k e Hn). pose proof (Re k e Hn). unfold notInRect, outside, inRectangle.
      assert (A1 : ps <=? er e = true) by (apply Nat.leb_le; lia). rewrite A1.
      assert (A2 : er e <? S pe = true) by (apply Nat.ltb_lt; lia). rewrite A2. cbn [andb].
      rewrite negb_andb. f_equal; [rewrite Nat.leb_antisym, negb_involutive; reflexivity|].
      rewrite <- Nat.leb_antisym. destruct (Nat.leb_spec (S fe) (ec e)), (Nat.ltb_spec fe (ec e)); auto; lia.
    - apply filter_all. intros e He. apply In_nth_error in He. destruct He as [k Hk]. rewrite nth_error_skipn in Hk.
      unfold notInRect. apply negb_true_iff. apply not_true_iff_false. rewrite inRectangle_iff. intros [A B].
      pose proof (Re _ e Hk). lia. }
  apply Permutation_trans with (filter (notInRect ps fs pe fe) (ents s1) ++ map newE vals).
  - rewrite Hf, <- !app_assoc. apply Permutation_trans with (skipn (rself st) (ents s1) ++ firstn (rcopy st) (rarr st) ++ radd st).
    + apply Permutation_app_swap_app.
    + apply Permutation_trans with (skipn (rself st) (ents s1) ++ kept fs fe i0 (rself st) (ents s1) ++ map newE vals).
      * apply Permutation_app_head. exact HPm.
      * apply Permutation_app_swap_app.
  - apply Permutation_app_tail. (clear -HP; induction HP; simpl; auto;
      try (destruct (notInRect ps fs pe fe x); auto); try (destruct (notInRect ps fs pe fe y); auto using perm_swap); eauto using Permutation_trans).
Qed.

Theorem rectSparse_spec s vals ps fs pe fe : sinv zero s -> ps <= pe -> pe < snp s -> fs <= fe -> fe < snf s ->
  ents s = [] \/ (exists e, In e (ents s) /\ ps <= er e) ->
  (forall v, In v vals -> fs <= rvcol v <= fe /\ rvnum v < S pe * rvden v /\ ps <= rvrow v <= pe /\ rvdat v <> zero) ->
  NoDup (map pos (map newE vals)) ->
  exists s', rectSparse zero s vals ps fs pe fe = (s', Ok tt) /\ sinv zero s' /\ snp s' = snp s /\ snf s' = snf s /\
    (forall i j, inRectangle ps (S pe) fs (S fe) i j = false -> val zero s' i j = val zero s i j) /\
    forall i j v, inRectangle ps (S pe) fs (S fe) i j = true -> v <> zero -> (val zero s' i j = v <-> In (mkE i j v) (map newE vals)).
Proof.
  intros HI Hp Hpe Hf Hfe Hg Hv Hnd.
  destruct (rectSparse_ents s vals ps fs pe fe HI Hp Hpe Hg) as [s' [E [N [M [A [I P]]]]]].
  { intros v Hin. specialize (Hv v Hin). tauto. }
  exists s'. split; [exact E|]. pose proof HI as [[ND RG] _].
  assert (Hin : forall e, In e (ents s') <-> (In e (ents s) /\ inRectangle ps (S pe) fs (S fe) (er e) (ec e) = false) \/ In e (map newE vals)).
  { intros e. split.
    - intros He. apply (Permutation_in _ P) in He. apply in_app_iff in He. destruct He as [He|He]; [left|right; exact He].
      apply filter_In in He. unfold notInRect in He. rewrite negb_true_iff in He. exact He.
    - intros He. apply (Permutation_in _ (Permutation_sym P)). apply in_app_iff. destruct He as [He|He]; [left|right; exact He].
      apply filter_In. unfold notInRect. rewrite negb_true_iff. exact He. }
  assert (Hnew : forall e, In e (map newE vals) -> inRectangle ps (S pe) fs (S fe) (er e) (ec e) = true /\ ev e <> zero).
  { intros e He. apply in_map_iff in He. destruct He as [v [<- Hin2]]. destruct (Hv v Hin2) as [B1 [B2 [B3 B4]]].
    split; [|exact B4]. apply inRectangle_iff. simpl. lia. }
  assert (HE : entsOK zero s').
  { split.
    - apply (Permutation_NoDup (Permutation_sym (Permutation_map pos P))). rewrite map_app. apply NoDup_app_intro.
      + apply NoDup_map_filter. exact ND.
      + exact Hnd.
      + intros q Q1 Q2. apply in_map_iff in Q1. destruct Q1 as [e1 [<- Q1]]. apply in_map_iff in Q2. destruct Q2 as [e2 [Q2 Q3]].
        apply filter_In in Q1. destruct Q1 as [_ Q1]. unfold notInRect in Q1. apply negb_true_iff in Q1.
        destruct (Hnew e2 Q3) as [Q4 _]. unfold pos in Q2. injection Q2 as E1 E2. rewrite E1, E2 in Q4. congruence.
    - intros e He. apply Hin in He. rewrite N, M. destruct He as [[He _]|He]; [apply RG; exact He|].
      destruct (Hnew e He) as [B1 B2]. apply inRectangle_iff in B1. split; [lia|]. split; [lia|exact B2]. }
  split; [split; [exact HE|unfold cacheOK; rewrite A; exact I]|]. split; [exact N|]. split; [exact M|]. split.
  - intros i j Hr. apply val_eq; [exact HE|exact (conj ND RG)|]. intros v _. rewrite Hin. cbn [er ec]. split.
    + intros [[H _]|H]; [exact H|]. destruct (Hnew _ H) as [B _]. simpl in B. congruence.
    + intros H. left. auto.
  - intros i j v Hr Hnz. split.
    + intros Hval. apply val_nonzero in Hval; [|exact Hnz]. apply Hin in Hval. cbn [er ec] in Hval. destruct Hval as [[_ B]|B]; [congruence|exact B].
    + intros B. apply val_In; [apply HE|]. apply Hin. right. exact B.
Qed.


Lemma objVals_spec (o : sparse V) ps fs : sinv zero o ->
  (forall v, In v (objVals o ps fs) -> fs <= rvcol v /\ rvcol v < fs + snf o /\ rvden v = 1 /\ ps <= rvnum v /\ rvnum v < ps + snp o /\ rvdat v <> zero) /\
  NoDup (map pos (map newE (objVals o ps fs))) /\
  forall i j v, In (mkE (ps + i) (fs + j) v) (map newE (objVals o ps fs)) <-> In (mkE i j v) (ents o).
Proof.
  intros HI. destruct (sortInternal_spec V zero o Pts false false (proj1 HI) (or_intror (proj2 HI))) as [HI' [HM [HA [HP _]]]].
  unfold objVals. set (l := ents (sortInternal o Pts false false)) in *.
  destruct (proj1 HI) as [ND RG]. split; [|split].
  - intros v Hv. apply in_map_iff in Hv. destruct Hv as [e [<- He]]. apply (Permutation_in _ HP) in He. destruct (RG e He) as [A [B C]].
    cbn [rvcol rvden rvnum rvdat]. split; [lia|]. split; [lia|]. split; [reflexivity|]. split; [lia|]. split; [lia|]. exact C.
  - rewrite !map_map. apply (Permutation_NoDup (l := map (fun e => (ps + er e, fs + ec e)) (ents o))).
    + apply Permutation_trans with (map (fun e => (ps + er e, fs + ec e)) l); [apply Permutation_map, Permutation_sym, HP|].
      erewrite map_ext; [apply Permutation_refl|]. intros e. unfold newE, pos, rvrow. cbn [er ec rvnum rvden rvcol]. rewrite Nat.div_1_r. reflexivity.
    + apply NoDup_map_inj'; [|eapply NoDup_of_map; exact ND]. intros a b Ha Hb E. injection E as E1 E2.
      apply (entsOK_cases V zero o (proj1 HI) a b Ha Hb); lia.
  - intros i j v. rewrite map_map, in_map_iff. unfold newE, rvrow. cbn [rvnum rvden rvcol rvdat]. split.
    + intros [e [E He]]. rewrite Nat.div_1_r in E. injection E as E1 E2 E3. apply (Permutation_in _ HP).
      destruct e as [a b c]. simpl in *. replace i with a by lia. replace j with b by lia. subst; exact He.
    + intros He. exists (mkE i j v). split; [cbn [er ec ev]; rewrite Nat.div_1_r; reflexivity|]. apply (Permutation_in _ (Permutation_sym HP)). exact He.
Qed.
Lemma val_zero s i j : (forall v, v <> zero -> ~ In (mkE i j v) (ents s)) -> (forall e, In e (ents s) -> ev e <> zero) -> val zero s i j = zero.
Proof.
  intros H Hz. unfold val. destruct (find _ (ents s)) as [e|] eqn:E; [|reflexivity]. exfalso.
  apply find_some in E. destruct E as [Hi E]. apply andb_true_iff in E. destruct E as [E1 E2]. apply Nat.eqb_eq in E1, E2.
  apply (H (ev e) (Hz e Hi)). destruct e; simpl in *; subst; exact Hi.
Qed.

Theorem sReplaceObj_spec {EV : EqDec V} s o ps fs pe fe : sinv zero s -> sinv zero o ->
  pe < snp s -> fe < snf s -> snp o = S pe - ps -> snf o = S fe - fs -> ps <= pe -> fs <= fe ->
  ents s = [] \/ (exists e, In e (ents s) /\ ps <= er e) ->
  exists s', sReplaceObj zero s o ps fs pe fe = (s', Ok tt) /\ sinv zero s' /\ snp s' = snp s /\ snf s' = snf s /\
    forall i j, val zero s' i j = if inRectangle ps (S pe) fs (S fe) i j then val zero o (i - ps) (j - fs) else val zero s i j.
Proof.
  intros HI HO P1 F1 Pn Fn P2 F2 Hg. unfold sReplaceObj.
  destruct (objVals_spec o ps fs HO) as [Hv [Hnd Hin]].
  destruct (rectSparse_spec s (objVals o ps fs) ps fs pe fe HI P2 P1 F2 F1 Hg) as [s' [E [HS [N [M [Hout HinR]]]]]]; [|exact Hnd|].
  { intros v H. destruct (Hv v H) as [A [B [C [D [G F]]]]]. unfold rvrow. rewrite C, Nat.div_1_r. split; [lia|]. split; [lia|]. split; [lia|exact F]. }
  exists s'. split; [exact E|]. split; [exact HS|]. split; [exact N|]. split; [exact M|].
  intros i j. destruct (inRectangle ps (S pe) fs (S fe) i j) eqn:Er; [|apply Hout; exact Er].
  pose proof (proj1 (inRectangle_iff _ _ _ _ _ _) Er) as Hr.
  assert (Hiff : forall v, v <> zero -> (val zero s' i j = v <-> In (mkE (i - ps) (j - fs) v) (ents o))).
  { intros v Hz. rewrite (HinR i j v Er Hz). rewrite <- Hin. replace (ps + (i - ps)) with i by lia. replace (fs + (j - fs)) with j by lia. reflexivity. }
  destruct (eq_dec (val zero o (i - ps) (j - fs)) zero) as [Hz|Hz].
  - rewrite Hz. destruct (eq_dec (val zero s' i j) zero) as [|C]; [assumption|]. exfalso.
    pose proof (proj1 (Hiff _ C) eq_refl) as C2. apply C. transitivity (val zero o (i - ps) (j - fs)); [symmetry; apply val_In; [apply HO|exact C2]|exact Hz].
  - apply Hiff; [exact Hz|]. apply (val_nonzero V zero); auto.
Qed.

Lemma constVals_spec c ps fs pe fe : ps <= pe -> fs <= fe ->
  (forall v, In v (constVals c ps fs pe fe) -> fs <= rvcol v <= fe /\ rvnum v < S pe * rvden v /\ ps <= rvrow v <= pe /\ rvdat v = c) /\
  NoDup (map pos (map newE (constVals c ps fs pe fe))) /\
  forall i j, ps <= i <= pe -> fs <= j <= fe -> In (mkE i j c) (map newE (constVals c ps fs pe fe)).
Proof.
  intros Hp Hf. unfold constVals. cbv zeta. set (w := fe - fs + 1). assert (Hw : w <> 0) by lia.
  assert (Hrow : forall k, (ps * w + k) / w = ps + k / w) by (intros k; rewrite (Nat.add_comm (ps * w)), Nat.div_add, Nat.add_comm by lia; reflexivity).
  split; [|split].
  - intros v Hv. apply in_map_iff in Hv. destruct Hv as [k [<- Hk]]. apply in_seq in Hk. unfold rvrow. cbn [rvcol rvnum rvden rvdat].
    pose proof (Nat.mod_upper_bound k w Hw). rewrite Hrow.
    assert (k / w < pe - ps + 1) by (apply Nat.div_lt_upper_bound; lia).
    split; [lia|]. split; [|split; [lia|reflexivity]].
    assert (S pe * w = ps * w + (pe - ps + 1) * w) by (rewrite <- Nat.mul_add_distr_r; f_equal; lia). lia.
  - rewrite !map_map. apply NoDup_map_inj'; [|apply seq_NoDup]. intros a b Ha Hb E. unfold pos, newE, rvrow in E. cbn [er ec rvnum rvden rvcol] in E.
    rewrite !Hrow in E. injection E as E1 E2. rewrite (Nat.div_mod a w), (Nat.div_mod b w) by lia. replace (a / w) with (b / w) by lia. lia.
  - intros i j Hi Hj. rewrite map_map, in_map_iff. exists ((i - ps) * w + (j - fs)). unfold newE, rvrow. cbn [rvnum rvden rvcol rvdat]. split.
    + rewrite Hrow. rewrite (Nat.add_comm ((i - ps) * w)), Nat.div_add, Nat.mod_add by lia. rewrite Nat.div_small, Nat.mod_small by lia. f_equal; lia.
    + apply in_seq. split; [apply Nat.le_0_l|]. assert (X : (i - ps) * w + w <= (pe - ps + 1) * w).
      { replace ((i - ps) * w + w) with ((i - ps + 1) * w) by lia. apply Nat.mul_le_mono_r. lia. }
      simpl. generalize dependent ((pe - ps + 1) * w). generalize ((i - ps) * w). intros; lia.
Qed.
Theorem sReplaceConst_spec {EV : EqDec V} s c ps fs pe fe : sinv zero s ->
  pe < snp s -> fe < snf s -> ps <= pe -> fs <= fe -> c <> zero ->
  ents s = [] \/ (exists e, In e (ents s) /\ ps <= er e) ->
  exists s', sReplaceConst zero s c ps fs pe fe = (s', Ok tt) /\ sinv zero s' /\ snp s' = snp s /\ snf s' = snf s /\
    forall i j, val zero s' i j = if inRectangle ps (S pe) fs (S fe) i j then c else val zero s i j.
Proof.
  intros HI P1 F1 P2 F2 Hc Hg. unfold sReplaceConst. destruct (eqbd c zero) eqn:Ez; [apply eqbd_true in Ez; contradiction|].
  destruct (constVals_spec c ps fs pe fe P2 F2) as [Hv [Hnd Hin]].
  destruct (rectSparse_spec s (constVals c ps fs pe fe) ps fs pe fe HI P2 P1 F2 F1 Hg) as [s' [E [HS [N [M [Hout HinR]]]]]]; [|exact Hnd|].
  { intros v H. destruct (Hv v H) as [A [B [C D]]]. rewrite D. auto. }
  exists s'. split; [exact E|]. split; [exact HS|]. split; [exact N|]. split; [exact M|].
  intros i j. destruct (inRectangle ps (S pe) fs (S fe) i j) eqn:Er; [|apply Hout; exact Er].
  pose proof (proj1 (inRectangle_iff _ _ _ _ _ _) Er) as Hr. apply (HinR i j c Er Hc). apply Hin; lia.
Qed.
(** nonzero values, all of them above the rectangle *)
Lemma rectSparse_crash s vals ps fs pe fe : sinv zero s -> ps <= pe -> pe < snp s -> ents s <> [] ->
  (forall e, In e (ents s) -> er e < ps) ->
  snd (rectSparse zero s vals ps fs pe fe) = Err IndexErr.
Proof.
  intros HI Hp Hpe Hne Hall. unfold rectSparse. cbv beta zeta.
  destruct (sortInternal_spec V zero s Pts true false (proj1 HI) (or_intror (proj2 HI))) as [HI' [HM [HA [HP HX]]]].
  set (s1 := sortInternal s Pts true false) in *. destruct (HX eq_refl) as [idx Hidx]. clear HX. rewrite Hidx.
  destruct HM as [Mn [Mf Mv]]. pose proof HI' as [[ND RG] HC]. unfold cacheOK in HC. rewrite HA, Hidx in HC. destruct HC as [HS [HL HX]]. cbn [axLen] in HL.
  assert (H1 : S pe < List.length idx) by lia. assert (H2 : ps < List.length idx) by lia.
  destruct (nth_error_is_some _ H1) as [selfEnd Ee]. destruct (nth_error_is_some _ H2) as [start Es]. rewrite Ee, Es.
  pose proof (HX _ _ Es) as [Ls Ss]. rewrite map_length in Ls.
  assert (Hst : start = List.length (ents s1)).
  { destruct (Nat.lt_ge_cases start (List.length (ents s1))) as [C|C]; [|lia]. exfalso. destruct (nth_error_is_some _ C) as [e He].
    assert (er e < ps) by (apply Hall; apply (Permutation_in _ HP); eapply nth_error_In; exact He).
    assert (X : nth_error (map (prim Pts) (ents s1)) start = Some (er e)) by (rewrite nth_error_map_eq, He; reflexivity).
    apply Ss in X. lia. }
  destruct (List.length (ents s1) =? 0) eqn:El.
  - apply Nat.eqb_eq in El. apply length_zero_iff_nil in El. rewrite El in HP. apply Permutation_nil in HP. contradiction.
  - cbn [rectSeek]. rewrite Hst. rewrite (proj2 (nth_error_None (ents s1) (List.length (ents s1)))) by lia. reflexivity.
Qed.
End P.
