(** Proofs about the argument selectors (C33, C34). *)
From Verif Require Import Base TuneModel FoldSpec TuneSpec FoldProofs.
Open Scope list_scope.
Open Scope nat_scope.

(** ** BruteForce *)
Section Brute.
Variable V : Type.
Implicit Types sp : spec V.
Lemma Forall2_length' {X Y} (R : X -> Y -> Prop) a b : Forall2 R a b -> List.length a = List.length b.
Proof. induction 1; cbn; congruence. Qed.
Lemma product_In (ls : list (list V)) : forall c, In c (product ls) <-> Forall2 (fun v l => In v l) c ls.
Proof.
  induction ls as [|l ls IH]; intros c; cbn [product].
  - split; [intros [<-|[]]; constructor|intros H; inversion H; left; auto].
  - rewrite in_flat_map. split.
    + intros (v & Hv & H). apply in_map_iff in H as (r & <- & Hr). constructor; auto. apply IH; auto.
    + intros H; inversion H as [|v l' r ls' Hv Hr]; subst. exists v. split; auto. apply in_map. apply IH; auto.
Qed.
Lemma product_NoDup (ls : list (list V)) : Forall (@NoDup V) ls -> NoDup (product ls).
Proof.
  induction 1 as [|l ls Hl Hls IH]; cbn [product]; [constructor; [simpl; tauto|constructor]|].
  induction Hl as [|v l Hv Hl IH2]; cbn [flat_map]; [constructor|].
  apply FlatProofs.NoDup_app_intro; auto.
  - apply FinFun.Injective_map_NoDup; auto. intros x y [= ->]; auto.
  - intros c Hc Hc'. apply in_map_iff in Hc as (r & <- & _). apply in_flat_map in Hc' as (w & Hw & Hc').
    apply in_map_iff in Hc' as (r' & [= -> ->] & _). auto.
Qed.
Lemma product_length (ls : list (list V)) : List.length (product ls) = fold_right (fun l n => List.length l * n) 1 ls.
Proof.
  induction ls as [|l ls IH]; cbn [product fold_right]; auto. rewrite <- IH. clear IH.
  induction l as [|v l IHl]; cbn [flat_map List.length Nat.mul]; auto. rewrite app_length, map_length, IHl. auto.
Qed.
Lemma candidates_allows (a : argval V) v : In v (candidates a) <-> allows a v.
Proof. destruct a; cbn; [intuition|tauto]. Qed.
Lemma combinations_In sp c : In c (combinationsList sp) <-> isCombination sp c.
Proof.
  assert (G : In c (map (fun x => combine (map fst sp) x) (product (map (fun p => candidates (snd p)) sp))) <-> isCombination sp c).
  { rewrite in_map_iff. unfold isCombination. split.
    - intros (x & <- & Hx). apply product_In in Hx. revert x Hx.
      induction sp as [|p sp IH]; intros x Hx; inversion Hx; subst; cbn [combine map]; constructor; auto.
      cbn [fst snd]. split; auto. apply candidates_allows; auto.
    - intros H. exists (map snd c). split.
      + induction H as [|kv p c sp [E A] H IH]; cbn [map combine]; auto. rewrite IH, <- E. destruct kv; auto.
      + apply product_In. induction H as [|kv p c sp [E A] H IH]; cbn [map]; constructor; auto. apply candidates_allows; auto. }
  destruct sp as [|p sp]; auto.
Qed.
Lemma combinations_NoDup sp : (forall k l, In (k, ATune l) sp -> NoDup l) -> NoDup (combinationsList sp).
Proof.
  intros H. assert (Hc : Forall (@NoDup V) (map (fun p => candidates (snd p)) sp)).
  { apply Forall_forall. intros l Hl. apply in_map_iff in Hl as ([k a] & <- & Hp). destruct a as [v|l]; cbn; eauto.
    constructor; [simpl; tauto|constructor]. }
  assert (G : NoDup (map (fun x => combine (map fst sp) x) (product (map (fun p => candidates (snd p)) sp)))).
  { pose proof (product_NoDup _ Hc) as N. revert N.
    assert (L : forall x, In x (product (map (fun p => candidates (snd p)) sp)) -> List.length x = List.length sp).
    { intros x Hx. apply product_In in Hx. apply Forall2_length' in Hx. rewrite map_length in Hx. auto. }
    revert L. generalize (product (map (fun p => candidates (snd p)) sp)) as xs.
    induction xs as [|x xs IH]; intros L N; cbn [map]; [constructor|]. inversion N; subst. constructor.
    - intros Hx. apply in_map_iff in Hx as (y & E & Hy). assert (x = y); [|subst; auto].
      assert (map snd (combine (map fst sp) x) = map snd (combine (map fst sp) y)) by congruence.
      rewrite !PrepProofs.map_snd_combine_eq in H0; auto; rewrite map_length; symmetry; apply L; simpl; auto.
    - apply IH; auto. intros; apply L; right; auto. }
  destruct sp; auto.
Qed.
Lemma numCombinations_length sp : numCombinations sp = List.length (combinationsList sp).
Proof.
  destruct sp as [|p0 sp0] eqn:E; auto. rewrite <- E. unfold numCombinations, combinationsList. rewrite E, <- E.
  rewrite map_length, product_length.
  assert (G : forall sp n, fold_left (fun n p => match snd p with ATune vals => n * List.length vals | AVal _ => n end) sp n =
    n * fold_right (fun (l : list V) n => List.length l * n) 1 (map (fun p : string * argval V => candidates (snd p)) sp)).
  { clear. induction sp as [|[k a] sp IH]; intros n; cbn [fold_left map fold_right]; [lia|]. rewrite IH.
    destruct a; cbn [snd candidates List.length]; lia. }
  rewrite G. lia.
Qed.
Lemma bruteRun_S sp f index acc : bruteRun sp (S f) index acc =
  match bruteNext sp index with
  | (i, Ok c) => bruteRun sp f i (acc ++ [c])
  | (i, Err StopIter) => (i, Ok acc)
  | (i, Err e) => (i, Err e)
  end.
Proof. reflexivity. Qed.
Lemma bruteRun_from sp : forall c index acc, index + c = List.length (combinationsList sp) ->
  forall extra, bruteRun sp (S c + extra) index acc = (0, Ok (acc ++ skipn index (combinationsList sp))).
Proof.
  induction c as [|c IH]; intros index acc H extra; change (S ?c + extra) with (S (c + extra)); rewrite bruteRun_S; unfold bruteNext; rewrite numCombinations_length.
  - assert (E : (List.length (combinationsList sp) <=? index) = true) by (apply Nat.leb_le; lia). rewrite E.
    rewrite skipn_all2 by lia. rewrite app_nil_r. auto.
  - assert (E : (List.length (combinationsList sp) <=? index) = false) by (apply Nat.leb_gt; lia). rewrite E.
    destruct (nth_error_is_some (combinationsList sp) (i := index)) as [x Hx]; [lia|]. rewrite Hx.
    rewrite IH by lia. rewrite <- app_assoc. do 3 f_equal.
    clear -Hx. revert index Hx. induction (combinationsList sp) as [|y l IHl]; intros [|i] H; cbn in *; try discriminate; [congruence|].
    apply IHl in H. rewrite <- H. destruct l; reflexivity.
Qed.
Lemma bruteRun_all sp fuel : List.length (combinationsList sp) < fuel ->
  bruteRun sp fuel 0 [] = (0, Ok (combinationsList sp)).
Proof.
  intros H. replace fuel with (S (List.length (combinationsList sp)) + (fuel - S (List.length (combinationsList sp)))) by lia.
  rewrite bruteRun_from; auto.
Qed.
End Brute.

Section DSet.
Context {K : Type} {E : EqDec K} {V : Type}.
Lemma dset_dset (k : K) (v w : V) d : dset k v (dset k w d) = dset k v d.
Proof.
  induction d as [|[k' x] d IH]; cbn.
  - destruct (eq_dec k k); [auto|tauto].
  - destruct (eq_dec k k'); cbn; [destruct (eq_dec k k'); tauto|destruct (eq_dec k k'); [tauto|congruence]].
Qed.
Lemma dset_same (k : K) (v : V) d : dget k d = Some v -> dset k v d = d.
Proof.
  induction d as [|[k' x] d IH]; cbn; [discriminate|]. destruct (eq_dec k k'); [intros [= ->]; auto|intros H; rewrite IH; auto].
Qed.
End DSet.

(** ** Consecutive *)
Section Cons.
Variable V : Type.
Context {EV : EqDec V}.
Variable P : Type.
Variable isBest : P -> P -> bool.
Hypothesis BO : betterOrder isBest.
Variable perf : nat -> args V -> P.
Implicit Types s : cstate V P.
Notation consNext := (consNext isBest perf).
Notation consRun := (consRun isBest perf).

Definition pushed s (curr : args V) : cstate V P :=
  let p := perf (List.length (cRec s)) curr in
  mkC (cLoop s) (cTune s) (cTarget s)
      (match cBest s with None => Some (p, curr) | Some b => if isBest p (fst b) then Some (p, curr) else cBest s end)
      (cCurr s) (cOrder s) (cTried s ++ [curr]) (cRec s ++ [(p, curr)]).
Variable KS : list string.
Record cInv (o pre : list string) (k : string) (rem : list V) (post : list (string * list V)) s (b : P * args V) (curr : args V) : Prop := {
  i_loop : cLoop s = 1; i_order : cOrder s = Some o; i_o : o = pre ++ k :: map fst post;
  i_target : cTarget s = List.length pre; i_curr : cCurr s = Some curr; i_best : cBest s = Some b;
  i_first : firstBest isBest (cRec s) b; i_tried : cTried s = map snd (cRec s);
  i_agree : forall v, dset k v curr = dset k v (snd b);
  i_tune : dget k (cTune s) = Some (rem, None);
  i_post : forall p, In p post -> dget (fst p) (cTune s) = Some (tl (snd p), None);
  i_keys : In k KS;
  i_args : forall a, In a (cTried s) -> dkeys a = KS /\ (forall x, In x rem -> dget k a <> Some x) /\
                     forall p, In p post -> dget (fst p) a = hd_error (snd p);
  i_nd : NoDup rem; i_ndk : NoDup (k :: map fst post);
  i_posts : forall p, In p post -> NoDup (snd p) /\ 2 <= List.length (snd p) /\ In (fst p) KS }.

Lemma push_inv o pre k rem post s b v :
  cInv o pre k (v :: rem) post s b (dset k v (snd b)) ->
  mem (dset k v (snd b)) (cTried s) = false /\
  forall tn, dget k tn = Some (rem, None) ->
    (forall p, In p post -> dget (fst p) tn = Some (tl (snd p), None)) ->
    let s1 := mkC (cLoop s) tn (cTarget s) (cBest s) (Some (dset k v (snd b))) (cOrder s) (cTried s) (cRec s) in
    exists b', cInv o pre k rem post (pushed s1 (dset k v (snd b))) b' (dset k v (snd b)) /\
      (forall w, dset k w (snd b') = dset k w (snd b)) /\
      exists p, cRec (pushed s1 (dset k v (snd b))) = cRec s ++ [(p, dset k v (snd b))].
Proof.
  intros I. destruct I. split.
  - apply mem_not_In. intros H. destruct (i_args0 _ H) as (_ & N & _). apply (N v); [left; auto|].
    rewrite dget_dset. destruct (eq_dec k k); tauto.
  - intros tn Ht Hp s1. assert (Hb : In (snd b) (cTried s)).
    { rewrite i_tried0. apply in_map. destruct i_first0 as (j & Hj & _). eapply nth_error_In; eauto. }
    assert (Kb : dkeys (snd b) = KS) by (apply i_args0; auto).
    set (c := dset k v (snd b)). set (pf := perf (List.length (cRec s)) c).
    exists (if isBest pf (fst b) then (pf, c) else b).
    assert (Kc : dkeys c = KS).
    { unfold c. rewrite dkeys_dset, Kb. apply mem_In in i_keys0. rewrite i_keys0. auto. }
    split; [|split; [|exists pf; reflexivity]].
    + constructor; cbn [cLoop cOrder cTarget cCurr cBest cRec cTried cTune pushed s1]; auto.
      * rewrite i_best0. cbn. fold pf. destruct (isBest pf (fst b)); auto.
      * pose proof (firstBest_add P _ isBest BO (cRec s) b (pf, c) i_first0) as F. cbn [fst] in F. exact F.
      * rewrite map_app, i_tried0. auto.
      * intros w. unfold c. destruct (isBest pf (fst b)); cbn [snd]; rewrite ?dset_dset; auto.
      * intros a Ha. apply in_app_or in Ha as [Ha|[<-|[]]].
        -- destruct (i_args0 a Ha) as (A & B & C). split; auto. split; auto. intros x Hx. apply B. right; auto.
        -- split; auto. split.
           ++ intros x Hx. unfold c. rewrite dget_dset. destruct (eq_dec k k); [|tauto]. intros [= ->].
              inversion i_nd0; auto.
           ++ intros p Hpp. unfold c. rewrite dget_dset. destruct (eq_dec (fst p) k) as [<-|Ne].
              ** inversion i_ndk0. exfalso. apply H1, in_map; auto.
              ** apply (i_args0 _ Hb); auto.
      * inversion i_nd0; auto.
    + intros w. destruct (isBest pf (fst b)); cbn [snd]; unfold c; rewrite ?dset_dset; auto.
Qed.
Variable sp : spec V.
Lemma consRun_ok inner fuel s s' c : consNext sp 1 inner s = (s', Ok c) -> consRun sp 1 inner (S fuel) s = consRun sp 1 inner fuel s'.
Proof. intros H. cbn [TuneModel.consRun]. rewrite H. auto. Qed.

(** one more candidate of the current argument *)
Lemma step_same o pre k v rem post s b curr inner :
  cInv o pre k (v :: rem) post s b curr ->
  exists s' b' curr', consNext sp 1 (S inner) s = (s', Ok curr') /\ cInv o pre k rem post s' b' curr' /\
    (forall w, dset k w (snd b') = dset k w (snd b)) /\
    exists p, cRec s' = cRec s ++ [(p, dset k v (snd b))].
Proof.
  intros I. pose proof I as I0.
  assert (I1 : cInv o pre k (v :: rem) post (mkC (cLoop s) (cTune s) (cTarget s) (cBest s) (Some (dset k v (snd b))) (cOrder s) (cTried s) (cRec s)) b (dset k v (snd b))).
  { destruct I. constructor; cbn; auto. intros w. apply dset_dset. }
  destruct (push_inv _ _ _ _ _ _ _ _ I1) as (M & G). destruct I.
  specialize (G (dset k (rem, None) (cTune s))). cbn [cLoop cTarget cBest cOrder cTried cRec] in G.
  destruct G as (b' & I' & Ag & p & Ep).
  { rewrite dget_dset. destruct (eq_dec k k); tauto. }
  { intros q Hq. rewrite dget_dset. destruct (eq_dec (fst q) k) as [<-|]; auto. inversion i_ndk0. exfalso. apply H1, in_map; auto. }
  eexists _, b', _. split; [|split; [exact I'|split; [exact Ag|exists p; exact Ep]]].
  cbn [TuneModel.consNext]. rewrite i_loop0. cbn [Nat.ltb Nat.leb]. rewrite i_curr0, i_order0, i_target0.
  assert (En : nth_error o (List.length pre) = Some k) by (rewrite i_o0, nth_error_app2, Nat.sub_diag by auto; auto).
  assert (No : exists k0 r, o = k0 :: r) by (rewrite i_o0; destruct pre; cbn; eauto). destruct No as (k0 & r & Eo).
  rewrite Eo in *. rewrite <- Eo in *. rewrite En, i_tune0. unfold iterNext. cbn [fst snd].
  rewrite i_agree0. cbn [cTried] in *. match goal with |- context [@mem ?K ?E ?x ?l] => destruct (@mem K E x l) eqn:Em; [exfalso; apply mem_In in Em; apply mem_not_In in M; exact (M Em)|clear Em] end. unfold pushed. cbn [cLoop cTune cTarget cBest cCurr cOrder cTried cRec].
  rewrite ?i_loop0, ?i_target0, ?i_order0. reflexivity.
Qed.
(** moving on to the next argument *)
Lemma step_next o pre k k2 c2 v rem post s b curr inner :
  cInv o pre k [] ((k2, c2) :: post) s b curr -> tl c2 = v :: rem ->
  exists s' b' curr', consNext sp 1 (S inner) s = (s', Ok curr') /\ cInv o (pre ++ [k]) k2 rem post s' b' curr' /\
    (forall w, dset k2 w (snd b') = dset k2 w (snd b)) /\
    exists p, cRec s' = cRec s ++ [(p, dset k2 v (snd b))].
Proof.
  intros I Ec. destruct I.
  destruct (i_posts0 (k2, c2)) as (Nc & Lc & Kc); [left; auto|]. cbn [fst snd] in *.
  assert (Hb : In (snd b) (cTried s)).
  { rewrite i_tried0. apply in_map. destruct i_first0 as (j & Hj & _). eapply nth_error_In; eauto. }
  destruct (i_args0 _ Hb) as (Kb & _ & _).
  assert (Gk : exists bv, dget k (snd b) = Some bv).
  { rewrite <- Kb in i_keys0. apply in_map_iff in i_keys0 as ([k' x] & E & Hx). cbn in E. subst k'.
    destruct (dget k (snd b)) eqn:D; eauto. exfalso. clear -D Hx. induction (snd b) as [|[k' y] d IH]; [destruct Hx|].
    cbn in D. destruct (eq_dec k k') as [|Ne]; [discriminate|]. destruct Hx as [[= -> ->]|Hx]; auto. }
  destruct Gk as (bv & Gk).
  assert (Ebv : dset k bv curr = snd b) by (rewrite i_agree0; apply dset_same; auto).
  assert (I1 : cInv o (pre ++ [k]) k2 (v :: rem) post (mkC (cLoop s) (dset k2 (v :: rem, None) (cTune s)) (cTarget s + 1) (cBest s) (Some (dset k2 v (snd b))) (cOrder s) (cTried s) (cRec s)) b (dset k2 v (snd b))).
  { constructor; cbn [cLoop cOrder cTarget cCurr cBest cRec cTried cTune]; auto.
    - rewrite i_o0. cbn. rewrite <- app_assoc. auto.
    - rewrite i_target0, app_length. auto.
    - intros w. apply dset_dset.
    - rewrite dget_dset. destruct (eq_dec k2 k2); tauto.
    - intros q Hq. rewrite dget_dset. destruct (eq_dec (fst q) k2) as [E|]; [|apply i_post0; right; auto].
      inversion i_ndk0. inversion H2. exfalso. apply H5. cbn [fst map]. rewrite <- E. apply in_map; auto.
    - intros a Ha. destruct (i_args0 a Ha) as (A & _ & C). split; auto. split.
      + intros x Hx. specialize (C (k2, c2) (or_introl eq_refl)). cbn [fst snd] in C. rewrite C.
        destruct c2 as [|h c2]; [discriminate|]. cbn in Ec. subst c2. cbn. intros [= ->]. inversion Nc. auto.
      + intros p Hp. apply C. right; auto.
    - destruct c2 as [|h c2]; [discriminate|]. cbn in Ec. subst c2. inversion Nc; auto.
    - inversion i_ndk0; auto.
    - intros p Hp. apply i_posts0. right; auto. }
  destruct (push_inv _ _ _ _ _ _ _ _ I1) as (M & G).
  specialize (G (dset k2 (rem, None) (cTune s))). cbn [cLoop cTarget cBest cOrder cTried cRec] in G.
  destruct G as (b' & I' & Ag & p & Ep).
  { rewrite dget_dset. destruct (eq_dec k2 k2); tauto. }
  { intros q Hq. rewrite dget_dset. destruct (eq_dec (fst q) k2) as [E|]; [|apply i_post0; right; auto].
      inversion i_ndk0. inversion H2. exfalso. apply H5. cbn [fst map]. rewrite <- E. apply in_map; auto. }
  eexists _, b', _. split; [|split; [exact I'|split; [exact Ag|exists p; exact Ep]]].
  cbn [TuneModel.consNext]. rewrite i_loop0. cbn [Nat.ltb Nat.leb]. rewrite i_curr0, i_order0, i_target0.
  assert (En : nth_error o (List.length pre) = Some k) by (rewrite i_o0, nth_error_app2, Nat.sub_diag by auto; auto).
  assert (En2 : nth_error o (List.length pre + 1) = Some k2).
  { rewrite i_o0, nth_error_app2 by lia. replace (List.length pre + 1 - List.length pre) with 1 by lia. auto. }
  assert (No : exists k0 r, o = k0 :: r) by (rewrite i_o0; destruct pre; cbn; eauto). destruct No as (k0 & r & Eo).
  rewrite Eo in *. rewrite <- Eo in *. rewrite En, i_tune0. unfold iterNext at 1. cbn [fst snd].
  rewrite En2, i_best0, Gk. specialize (i_post0 (k2, c2) (or_introl eq_refl)). cbn [fst snd] in i_post0.
  rewrite i_post0. unfold iterNext. cbn [fst snd]. rewrite Ec. rewrite Ebv.
  cbn [cTried cBest cRec cLoop cTune cTarget cCurr cOrder] in *. match goal with |- context [@mem ?K ?E ?x ?l] => destruct (@mem K E x l) eqn:Em; [exfalso; apply mem_In in Em; apply mem_not_In in M; exact (M Em)|clear Em] end. unfold pushed. cbn [cLoop cTune cTarget cBest cCurr cOrder cTried cRec].
  rewrite ?i_loop0, ?i_target0, ?i_order0, ?i_best0. reflexivity.
Qed.
Lemma step_done o pre k s b curr inner : cInv o pre k [] [] s b curr -> consNext sp 1 (S inner) s = (s, Err StopIter).
Proof.
  intros I. destruct I. cbn [TuneModel.consNext]. rewrite i_loop0. cbn [Nat.ltb Nat.leb]. rewrite i_curr0, i_order0, i_target0.
  assert (En : nth_error o (List.length pre) = Some k) by (rewrite i_o0, nth_error_app2, Nat.sub_diag by auto; auto).
  assert (En2 : nth_error o (List.length pre + 1) = None).
  { apply nth_error_None. rewrite i_o0, app_length. cbn. lia. }
  assert (No : exists k0 r, o = k0 :: r) by (rewrite i_o0; destruct pre; cbn; eauto). destruct No as (k0 & r & Eo).
  rewrite Eo in *. rewrite <- Eo in *. rewrite En, i_tune0. unfold iterNext at 1. cbn [fst snd]. rewrite En2. reflexivity.
Qed.
Lemma block o pre k post inner : forall rem s b curr, cInv o pre k rem post s b curr ->
  exists s' b' curr' new, cInv o pre k [] post s' b' curr' /\
    (forall fuel, consRun sp 1 (S inner) (List.length rem + fuel) s = consRun sp 1 (S inner) fuel s') /\
    cRec s' = cRec s ++ new /\ map snd new = map (fun v => dset k v (snd b)) rem.
Proof.
  induction rem as [|v rem IH]; intros s b curr I.
  - exists s, b, curr, []. split; auto. split; auto. rewrite app_nil_r. auto.
  - destruct (step_same _ _ _ _ _ _ _ _ _ inner I) as (s1 & b1 & c1 & E & I1 & Ag & p & Ep).
    destruct (IH s1 b1 c1 I1) as (s' & b' & c' & new & I' & R & Er & Em).
    exists s', b', c', ((p, dset k v (snd b)) :: new). split; auto. split.
    + intros fuel. cbn [List.length plus]. rewrite (consRun_ok _ _ _ _ _ E). apply R.
    + rewrite Er, Ep, <- app_assoc. split; auto. cbn [map snd]. rewrite Em. f_equal. apply map_ext. auto.
Qed.
Lemma blocks o inner : forall post pre k s b curr, cInv o pre k [] post s b curr ->
  exists s', (exists n, forall fuel, n < fuel -> consRun sp 1 (S inner) fuel s = Ok s') /\
    greedy isBest post (cRec s) (cRec s') /\ exists b', cBest s' = Some b' /\ firstBest isBest (cRec s') b'.
Proof.
  induction post as [|[k2 c2] post IH]; intros pre k s b curr I.
  - exists s. split.
    + exists 0. intros fuel Hf. destruct fuel; [lia|]. cbn [TuneModel.consRun]. rewrite (step_done _ _ _ _ _ _ inner I). auto.
    + split; [constructor|]. exists b. destruct I. auto.
  - pose proof I as I0. destruct I0. destruct (i_posts0 (k2, c2) (or_introl eq_refl)) as (_ & Lc & _). cbn [snd] in Lc.
    destruct (tl c2) as [|v rem] eqn:Ec; [destruct c2 as [|? [|]]; cbn in *; try lia; discriminate|].
    destruct (step_next _ _ _ _ _ _ _ _ _ _ _ inner I Ec) as (s1 & b1 & c1 & E & I1 & Ag & p & Ep).
    destruct (block _ _ _ _ inner rem s1 b1 c1 I1) as (s2 & b2 & c2' & new & I2 & R & Er & Em).
    destruct (IH _ _ _ _ _ I2) as (s' & (n & Hn) & Gr & Bst). exists s'. split; [|split; auto].
    + exists (S (List.length rem + n)). intros fuel Hf. destruct fuel; [lia|]. rewrite (consRun_ok _ _ _ _ _ E).
      replace fuel with (List.length rem + (fuel - List.length rem)) by lia. rewrite R. apply Hn. lia.
    + econstructor; [exact i_first0| |].
      2: { rewrite Er, Ep, <- app_assoc in Gr. exact Gr. }
      cbn [app map snd]. rewrite Ec. cbn [map]. f_equal. etransitivity; [exact Em|]. apply map_ext. auto.
Qed.
End Cons.

Section ConsTop.
Variable V : Type.
Context {EV : EqDec V}.
Variable P : Type.
Variable isBest : P -> P -> bool.
Hypothesis BO : betterOrder isBest.
Variable perf : nat -> args V -> P.
Lemma tunedArgs_In (sp : spec V) k l : In (k, l) (tunedArgs sp) <-> In (k, ATune l) sp.
Proof.
  unfold tunedArgs. rewrite in_flat_map. split.
  - intros ([k' a] & Hp & H). cbn [fst snd] in H. destruct a; [destruct H|]. destruct H as [[= -> ->]|[]]. auto.
  - intros H. exists (k, ATune l). split; auto. left; auto.
Qed.
Lemma tuneKeys_args (sp : spec V) : tuneKeys sp = map fst (tunedArgs sp).
Proof.
  unfold tuneKeys, tunedArgs. induction sp as [|[k a] sp IH]; [reflexivity|]. cbn [flat_map snd fst].
  destruct a; cbn [app map fst]; rewrite IH; auto.
Qed.
Lemma firstArgs_ok (sp : spec V) : NoDup (map fst sp) -> (forall k l, In (k, ATune l) sp -> l <> []) ->
  exists c tn, firstArgs sp = Ok (c, tn) /\ startsWith sp c /\
    (forall k l, In (k, ATune l) sp -> dget k tn = Some (tl l, None) /\ dget k c = hd_error l).
Proof.
  induction sp as [|[k a] sp IH]; intros N H.
  - exists [], []. split; [reflexivity|]. split; [constructor|]. intros k l [].
  - cbn [map fst] in N. inversion N; subst. destruct IH as (c & tn & E & S & G); auto.
    { intros k' l' Hl. eapply H; right; eauto. }
    assert (Ne : forall k' l, In (k', ATune l) sp -> k' <> k).
    { intros k' l Hl ->. apply H2. apply (in_map fst) in Hl. auto. }
    destruct a as [v|l].
    + cbn [firstArgs]. rewrite E. cbn. exists ((k, v) :: c), tn. split; [reflexivity|]. split; [constructor; [cbn; auto|exact S]|].
      intros k' l' [Hl|Hl]; [discriminate|]. specialize (Ne _ _ Hl). cbn [dget]. destruct (eq_dec k' k); [tauto|]. apply G; auto.
    + destruct l as [|v vs]; [exfalso; eapply H; [left; reflexivity|auto]|].
      cbn [firstArgs]. rewrite E. cbn. exists ((k, v) :: c), ((k, (vs, None)) :: tn). split; [reflexivity|]. split; [constructor; [cbn; auto|exact S]|].
      intros k' l' [[= -> <-]|Hl].
      * cbn. destruct (eq_dec k' k'); [auto|tauto].
      * specialize (Ne _ _ Hl). cbn. destruct (eq_dec k' k); [tauto|]. apply G; auto.
Qed.
Lemma consecutive_greedy (sp : spec V) order tuned inner : NoDup (map fst sp) ->
  (order = None /\ tuned = tunedArgs sp \/ order = Some (map fst tuned) /\ Permutation tuned (tunedArgs sp)) ->
  (forall k l, In (k, l) tuned -> l <> [] /\ NoDup l) ->
  (forall k l, In (k, l) (tl tuned) -> 2 <= List.length l) ->
  exists start n s, startsWith sp start /\
    (forall fuel, n < fuel -> consRun isBest perf sp 1 (S inner) fuel (cinit order) = Ok s) /\
    greedy isBest tuned [(perf 0 start, start)] (cRec s) /\
    exists b, cBest s = Some b /\ firstBest isBest (cRec s) b.
Proof.
  intros N Ho Hl H2.
  assert (PT : Permutation tuned (tunedArgs sp)) by (destruct Ho as [[_ ->]|[_ ?]]; auto).
  assert (HI : forall k l, In (k, l) tuned <-> In (k, ATune l) sp).
  { intros k l. rewrite <- tunedArgs_In. split; apply Permutation_in; auto. symmetry; auto. }
  destruct (firstArgs_ok sp N) as (start & tn & E & S & G).
  { intros k l H. apply HI in H. apply (Hl k l); auto. }
  assert (ND : NoDup (map fst tuned)).
  { eapply Permutation_NoDup; [apply Permutation_map; symmetry; exact PT|]. rewrite <- tuneKeys_args.
    clear -N. induction sp as [|[k a] sp IH]; cbn; [constructor|]. cbn in N. inversion N; subst.
    destruct a; cbn; auto. constructor; auto. intros H. apply H1. clear -H. induction sp as [|[k' a] sp IH]; cbn in *; auto.
    destruct a; cbn in H; [auto|destruct H; auto]. }
  set (o := map fst tuned).
  set (p0 := perf 0 start).
  set (s0 := @mkC V P 1 tn 0 (Some (p0, start)) (Some start) (Some o) [start] [(p0, start)]).
  assert (Step1 : consNext isBest perf sp 1 (Datatypes.S inner) (cinit order) = (s0, Ok start)).
  { cbn [consNext cinit cLoop Nat.ltb Nat.leb cCurr cOrder]. destruct Ho as [[-> Et]|[-> _]].
    - rewrite E. cbn. unfold s0, o. rewrite Et, <- tuneKeys_args. reflexivity.
    - assert (Fb : forallb (fun k => mem k (map fst tuned)) (tuneKeys sp) = true).
      { apply forallb_forall. intros k Hk. apply mem_In. rewrite tuneKeys_args in Hk.
        eapply Permutation_in; [apply Permutation_map; symmetry; exact PT|auto]. }
      rewrite Fb, E. cbn. reflexivity. }
  assert (FB : firstBest isBest [(p0, start)] (p0, start)).
  { exists 0. cbn. split; auto. split; [|lia]. intros [|i] x Hx; [injection Hx as <-; apply BO|destruct i; discriminate]. }
  destruct tuned as [|[k c] post].
  - exists start, 1, s0. split; auto. split; [|split; [constructor|exists (p0, start); auto]].
    intros fuel Hf. destruct fuel as [|[|fuel]]; [lia|lia|]. rewrite (consRun_ok _ _ _ _ _ _ _ _ _ _ Step1). reflexivity.
  - assert (Kst : map fst start = map fst sp) by (clear -S; induction S as [|kv p a b [E _] S IH]; cbn; congruence).
    assert (I : cInv V P isBest (map fst sp) o [] k (tl c) post s0 (p0, start) start).
    { constructor; cbn [cLoop cOrder cTarget cCurr cBest cRec cTried cTune s0]; auto.
      - apply G, HI. left; auto.
      - intros [k' l'] Hp. cbn [fst snd]. apply G, HI. right; auto.
      - apply (in_map fst sp (k, ATune c)). apply HI. left; auto.
      - intros a [<-|[]]. split; auto. split.
        + intros x Hx. destruct (G k c) as [_ Hh]; [apply HI; left; auto|]. rewrite Hh.
          destruct (Hl k c) as [Nc Nd]; [left; auto|]. destruct c as [|h c]; [tauto|]. cbn in *. intros [= ->]. inversion Nd; auto.
        + intros [k' l'] Hp. apply G, HI. right; auto.
      - destruct (Hl k c) as [Nc Nd]; [left; auto|]. destruct c; [constructor|inversion Nd; auto].
      - intros [k' l'] Hp. cbn [fst snd]. destruct (Hl k' l') as [_ Nd]; [right; auto|]. split; auto. split; [eapply H2; eauto|].
        apply (in_map fst sp (k', ATune l')). apply HI. right; auto. }
    destruct (block V P isBest BO perf (map fst sp) sp _ _ _ _ inner _ _ _ _ I) as (s1 & b1 & c1 & new & I1 & R & Er & Em).
    destruct (blocks V P isBest BO perf (map fst sp) sp _ inner _ _ _ _ _ _ I1) as (s' & (n & Hn) & Gr & Bst).
    exists start, (Datatypes.S (List.length (tl c) + n)), s'. split; auto. split; [|split; auto].
    + intros fuel Hf. destruct fuel; [lia|]. rewrite (consRun_ok _ _ _ _ _ _ _ _ _ _ Step1).
      replace fuel with (List.length (tl c) + (fuel - List.length (tl c))) by lia. rewrite R. apply Hn. lia.
    + econstructor; [exact FB| |rewrite Er in Gr; exact Gr]. exact Em.
Qed.
End ConsTop.
