From Verif Require Import Base NamesModel NamesSpec NamesProofs NamesIndexProofs TableModel TableSpec TableProofs TableOps TableOps3Proofs
  FillModel FillSpec.
From Coq Require Import QArith Sorted Lqa.
Open Scope nat_scope.

Lemma nth_combine {A B} (a : list A) (b : list B) i :
  nth_error (combine a b) i = match nth_error a i, nth_error b i with Some x, Some y => Some (x, y) | _, _ => None end.
Proof.
  revert b i. induction a as [|x a IH]; intros [|y b] [|i]; simpl; auto.
  - destruct (nth_error a i); reflexivity.
Qed.
Lemma nth_mask {A} (vs : list A) (m : list bool) i v : List.length m = List.length vs -> nth_error vs i = Some v ->
  exists f, nth_error m i = Some f.
Proof. intros L H. apply nth_error_lt in H. rewrite <- L in H. exact (nth_error_is_some _ H). Qed.

Section P.
Variable V : Type.
Implicit Types vs : list V.

Lemma fillConstant_spec c vs m : List.length m = List.length vs ->
  exists out, fillConstant c vs m = Ok out /\ FilledBy (fun _ x => x = c) vs m out.
Proof.
  intros L. unfold fillConstant. eexists. split; [reflexivity|]. split.
  - rewrite map_length, combine_length. lia.
  - intros i v Hv. destruct (nth_mask vs m i v L Hv) as [f Hf]. rewrite Hf.
    rewrite nth_error_map_eq, nth_combine, Hv, Hf. simpl. destruct f; [exists c|]; auto.
Qed.

Lemma forwardLoop_spec (l : list (V * bool)) : forall prev, (prev = None -> match l with (_, true) :: _ => False | _ => True end) ->
  exists out, forwardLoop prev l = Ok out /\ List.length out = List.length l /\
  forall i v f, nth_error l i = Some (v, f) ->
    if f then
      (exists k w, k < i /\ nth_error l k = Some (w, false) /\ (forall j, k < j < i -> exists u, nth_error l j = Some (u, true)) /\ nth_error out i = Some w) \/
      ((forall j, j < i -> exists u, nth_error l j = Some (u, true)) /\ exists p, prev = Some p /\ nth_error out i = Some p)
    else nth_error out i = Some v.
Proof.
  induction l as [|[v f] l IH]; intros prev Hp.
  - exists []. split; [reflexivity|]. split; [reflexivity|]. intros [|i]; discriminate.
  - cbn [forwardLoop]. destruct f.
    + destruct prev as [p|]; [|specialize (Hp eq_refl); contradiction].
      destruct (IH (Some p)) as [out [E [L Sp]]]; [discriminate|]. rewrite E. cbn [rbind]. exists (p :: out).
      split; [reflexivity|]. split; [simpl; lia|]. intros i v' f' Hi. destruct i as [|i].
      * simpl in Hi. injection Hi as <- <-. right. split; [intros; lia|]. exists p. auto.
      * simpl in Hi. specialize (Sp i v' f' Hi). destruct f'; [|exact Sp]. destruct Sp as [[k [w [Hk [Hw [Hb Ho]]]]]|[Hall [p' [Ep Ho]]]].
        -- left. exists (S k), w. split; [lia|]. split; [exact Hw|]. split; [|exact Ho]. intros j Hj. destruct j; [lia|]. apply Hb. lia.
        -- right. split; [|exists p'; auto]. intros j Hj. destruct j; [simpl; eauto|]. apply Hall. lia.
    + destruct (IH (Some v)) as [out [E [L Sp]]]; [discriminate|]. rewrite E. cbn [rbind]. exists (v :: out).
      split; [reflexivity|]. split; [simpl; lia|]. intros i v' f' Hi. destruct i as [|i].
      * simpl in Hi. injection Hi as <- <-. reflexivity.
      * simpl in Hi. specialize (Sp i v' f' Hi). destruct f'; [|exact Sp]. left. destruct Sp as [[k [w [Hk [Hw [Hb Ho]]]]]|[Hall [p' [Ep Ho]]]].
        -- exists (S k), w. split; [lia|]. split; [exact Hw|]. split; [|exact Ho]. intros j Hj. destruct j; [lia|]. apply Hb. lia.
        -- exists 0, v. injection Ep as <-. split; [lia|]. split; [reflexivity|]. split; [|exact Ho]. intros j Hj. destruct j; [lia|]. apply Hall. lia.
Qed.
Lemma forwardFill_spec vs m : List.length m = List.length vs ->
  match nth_error m 0 with
  | Some false => exists out, forwardFill vs m = Ok out /\
      FilledBy (fun i x => exists k, isPrev m i k /\ nth_error vs k = Some x) vs m out
  | Some true => forwardFill vs m = Err InvalidArgumentValue
  | None => True
  end.
Proof.
  intros L. destruct m as [|[] m]; simpl; auto. destruct vs as [|v0 vs]; [discriminate|].
  destruct (forwardLoop_spec (combine (v0 :: vs) (false :: m)) None) as [out [E [LO Sp]]]; [intros _; exact I|].
  exists out. split; [exact E|]. rewrite combine_length in LO. split; [rewrite LO, <- L; simpl; lia|].
  intros i v Hv. destruct (nth_mask _ (false :: m) i v L Hv) as [f Hf]. rewrite Hf.
  specialize (Sp i v f). rewrite nth_combine, Hv, Hf in Sp. specialize (Sp eq_refl).
  destruct f; [|exact Sp]. destruct Sp as [[k [w [Hk [Hw [Hb Ho]]]]]|[Hall [p [Ep _]]]]; [|discriminate].
  exists w. split; [exact Ho|]. exists k. rewrite nth_combine in Hw. destruct (nth_error (v0 :: vs) k) as [x|] eqn:Ek; [|discriminate].
  destruct (nth_error (false :: m) k) as [fk|] eqn:Em; [|discriminate]. injection Hw as -> ->. split; [|reflexivity].
  split; [exact Hk|]. split; [exact Em|]. intros j Hj. destruct (Hb j Hj) as [u Hu]. rewrite nth_combine in Hu.
  destruct (nth_error (v0 :: vs) j); [|discriminate]. destruct (nth_error (false :: m) j); [|discriminate]. congruence.
Qed.

Lemma backwardLoop_spec (l : list (V * bool)) : (forall v, nth_error l (List.length l - 1) <> Some (v, true)) ->
  exists out, backwardLoop l = Ok out /\ List.length out = List.length l /\
  forall i v f, nth_error l i = Some (v, f) ->
    if f then exists k w, i < k /\ nth_error l k = Some (w, false) /\ (forall j, i < j < k -> exists u, nth_error l j = Some (u, true)) /\ nth_error out i = Some w
    else nth_error out i = Some v.
Proof.
  induction l as [|[v f] l IH]; intros Hlast.
  - exists []. split; [reflexivity|]. split; [reflexivity|]. intros [|i]; discriminate.
  - cbn [backwardLoop].
    assert (Hl : forall u, nth_error l (List.length l - 1) <> Some (u, true)).
    { intros u C. destruct l as [|x l']; [discriminate|]. apply (Hlast u). simpl in *. rewrite Nat.sub_0_r in *. exact C. }
    destruct (IH Hl) as [out [E [L Sp]]]. rewrite E. cbn [rbind].
    assert (Hshift : forall x, (forall i v' f', nth_error ((v, f) :: l) (S i) = Some (v', f') ->
       if f' then exists k w, S i < k /\ nth_error ((v, f) :: l) k = Some (w, false) /\ (forall j, S i < j < k -> exists u, nth_error ((v, f) :: l) j = Some (u, true)) /\ nth_error (x :: out) (S i) = Some w
       else nth_error (x :: out) (S i) = Some v')).
    { intros x i v' f' Hi. simpl in Hi. specialize (Sp i v' f' Hi). destruct f'; [|exact Sp]. destruct Sp as [k [w [Hk [Hw [Hb Ho]]]]].
      exists (S k), w. split; [lia|]. split; [exact Hw|]. split; [|exact Ho]. intros j Hj. destruct j; [lia|]. apply Hb. lia. }
    destruct f.
    + destruct l as [|[v0 f0] l']; [exfalso; apply (Hlast v); reflexivity|]. destruct out as [|x out]; [discriminate|].
      exists (x :: x :: out). split; [reflexivity|]. split; [simpl in *; lia|]. intros i v' f' Hi. destruct i as [|i]; [|apply Hshift; exact Hi].
      simpl in Hi. injection Hi as <- <-. specialize (Sp 0 v0 f0 eq_refl). destruct f0.
      * destruct Sp as [k [w [Hk [Hw [Hb Ho]]]]]. exists (S k), w. split; [lia|]. split; [exact Hw|]. split; [|exact Ho].
        intros j Hj. destruct j as [|[|j]]; [lia|simpl; eauto|]. apply (Hb (S j)). lia.
      * exists 1, v0. split; [lia|]. split; [reflexivity|]. split; [intros; lia|exact Sp].
    + exists (v :: out). split; [reflexivity|]. split; [simpl; lia|]. intros i v' f' Hi. destruct i as [|i]; [|apply Hshift; exact Hi].
      simpl in Hi. injection Hi as <- <-. reflexivity.
Qed.
Lemma rev_head {A} (l : list A) : match rev l with [] => l = [] | x :: _ => nth_error l (List.length l - 1) = Some x end.
Proof.
  destruct (rev l) as [|x r] eqn:E.
  - rewrite <- (rev_involutive l), E. reflexivity.
  - rewrite <- (rev_involutive l), E. simpl. rewrite app_length, nth_error_app2 by (simpl; lia). simpl.
    replace (List.length (rev r) + 1 - 1 - List.length (rev r)) with 0 by lia. reflexivity.
Qed.
Lemma backwardFill_spec vs m : List.length m = List.length vs ->
  match nth_error m (List.length m - 1) with
  | Some false => exists out, backwardFill vs m = Ok out /\
      FilledBy (fun i x => exists k, isNext m i k /\ nth_error vs k = Some x) vs m out
  | Some true => backwardFill vs m = Err InvalidArgumentValue
  | None => True
  end.
Proof.
  intros L. unfold backwardFill. pose proof (rev_head m) as H. destruct (rev m) as [|b r].
  - subst m. exact I.
  - rewrite H. destruct b; [reflexivity|].
    destruct (backwardLoop_spec (combine vs m)) as [out [E [LO Sp]]].
    { intros v C. rewrite combine_length, <- L, Nat.min_id in C. rewrite nth_combine in C. rewrite H in C.
      destruct (nth_error vs (List.length m - 1)); discriminate. }
    exists out. split; [exact E|]. rewrite combine_length in LO. split; [lia|].
    intros i v Hv. destruct (nth_mask _ m i v L Hv) as [f Hf]. rewrite Hf.
    specialize (Sp i v f). rewrite nth_combine, Hv, Hf in Sp. specialize (Sp eq_refl).
    destruct f; [|exact Sp]. destruct Sp as [k [w [Hk [Hw [Hb Ho]]]]].
    exists w. split; [exact Ho|]. exists k. rewrite nth_combine in Hw. destruct (nth_error vs k) as [x|] eqn:Ek; [|discriminate].
    destruct (nth_error m k) as [fk|] eqn:Em; [|discriminate]. injection Hw as -> ->. split; [|reflexivity].
    split; [exact Hk|]. split; [exact Em|]. intros j Hj. destruct (Hb j Hj) as [u Hu]. rewrite nth_combine in Hu.
    destruct (nth_error vs j); [|discriminate]. destruct (nth_error m j); [|discriminate]. congruence.
Qed.

(** statistics *)
Definition unmatchedOf vs (m : list bool) : list V := map fst (filter (fun p : V * bool => negb (snd p)) (combine vs m)).
Lemma filter_all_len {A} (f : A -> bool) l : List.length (filter f l) = List.length l -> forall x, In x l -> f x = true.
Proof.
  induction l as [|a l IH]; simpl; intros H x Hx; [contradiction|].
  assert (List.length (filter f l) <= List.length l) by (clear; induction l as [|a l IH]; simpl; [lia|destruct (f a); simpl; lia]).
  destruct (f a) eqn:E; simpl in H; [|lia]. destruct Hx as [<-|Hx]; auto.
Qed.
Lemma fillStat_spec stat vs m out : List.length m = List.length vs -> fillStat stat vs m = Ok out ->
  FilledBy (fun _ x => stat (unmatchedOf vs m) = Some x) vs m out.
Proof.
  intros L. unfold fillStat. fold (unmatchedOf vs m). destruct (List.length (unmatchedOf vs m) =? List.length vs) eqn:E.
  - apply Nat.eqb_eq in E. intros H. injection H as <-. split; [reflexivity|]. intros i v Hv.
    destruct (nth_mask _ m i v L Hv) as [f Hf]. rewrite Hf. destruct f; [|exact Hv]. exfalso.
    unfold unmatchedOf in E. rewrite map_length in E. 
    assert (E2 : List.length (filter (fun p : V * bool => negb (snd p)) (combine vs m)) = List.length (combine vs m)) by (rewrite combine_length; lia).
    pose proof (filter_all_len _ _ E2 (v, true)) as C. apply (Bool.eq_true_false_abs false); [|reflexivity]. apply C.
    apply (nth_error_In _ i). rewrite nth_combine, Hv, Hf. reflexivity.
  - destruct (unmatchedOf vs m) as [|u us] eqn:Eu; [discriminate|]. destruct (stat (u :: us)) as [s|] eqn:Es; [|discriminate].
    intros H. destruct (fillConstant_spec s vs m L) as [out' [E2 F]]. rewrite E2 in H. injection H as <-.
    destruct F as [F1 F2]. split; [exact F1|]. intros i v Hv. specialize (F2 i v Hv). destruct (nth_error m i) as [[]|]; auto.
    destruct F2 as [x [Hx ->]]. exists s. auto.
Qed.
Lemma fillStat_none stat vs m : List.length m = List.length vs -> vs <> [] -> (forall i, i < List.length m -> nth_error m i = Some true) ->
  fillStat stat vs m = Err InvalidArgumentValue.
Proof.
  intros L Hne Hall. unfold fillStat. fold (unmatchedOf vs m).
  assert (E : unmatchedOf vs m = []).
  { unfold unmatchedOf. assert (F : filter (fun p : V * bool => negb (snd p)) (combine vs m) = []); [|rewrite F; reflexivity].
    destruct (filter (fun p : V * bool => negb (snd p)) (combine vs m)) as [|p l] eqn:EF; [reflexivity|]. exfalso.
    assert (Hin : In p (p :: l)) by (left; reflexivity). rewrite <- EF in Hin. apply filter_In in Hin. destruct Hin as [Hin Hf].
    apply In_nth_error in Hin. destruct Hin as [i Hi]. rewrite nth_combine in Hi.
    destruct (nth_error vs i) as [x|] eqn:Ex; [|discriminate]. pose proof (nth_error_lt _ _ Ex).
    rewrite (Hall i) in Hi by lia. injection Hi as <-. discriminate. }
  rewrite E. simpl. destruct vs; [contradiction|]. reflexivity.
Qed.
End P.

(** interpolation *)
Lemma locations_spec l : forall i0 ms us, locations i0 l = (ms, us) ->
  (forall k, In k ms <-> exists j v, k = i0 + j /\ nth_error l j = Some (v, true)) /\
  (forall k v, In (k, v) us <-> exists j, k = i0 + j /\ nth_error l j = Some (v, false)) /\
  StronglySorted lt ms /\ StronglySorted lt (map fst us).
Proof.
  induction l as [|[v f] l IH]; intros i0 ms us E; cbn [locations] in E.
  - injection E as <- <-. split; [|split; [|split; constructor]].
    + intros k. split; [intros []|]. intros [[|j] [x [_ H]]]; discriminate.
    + intros k x. split; [intros []|]. intros [[|j] [_ H]]; discriminate.
  - destruct (locations (S i0) l) as [ms' us'] eqn:El. destruct (IH _ _ _ El) as [A [B [C D]]].
    assert (HM : forall k, In k ms' -> i0 < k) by (intros k Hk; apply A in Hk; destruct Hk as [j [x [-> _]]]; lia).
    assert (HU : forall k, In k (map fst us') -> i0 < k).
    { intros k Hk. apply in_map_iff in Hk. destruct Hk as [[k' x] [<- Hk]]. apply B in Hk. destruct Hk as [j [-> _]]. simpl. lia. }
    assert (A' : forall k, In k ms' <-> exists j x, k = i0 + S j /\ nth_error l j = Some (x, true)).
    { intros k. rewrite A. split; intros [j [x [-> H]]]; exists j, x; split; auto; lia. }
    assert (B' : forall k x, In (k, x) us' <-> exists j, k = i0 + S j /\ nth_error l j = Some (x, false)).
    { intros k x. rewrite B. split; intros [j [-> H]]; exists j; split; auto; lia. }
    destruct f; injection E as <- <-.
    + split; [|split; [|split]].
      * intros k. simpl. rewrite A'. split.
        -- intros [<-|[j [x [-> H]]]]; [exists 0, v; split; [lia|reflexivity]|exists (S j), x; auto].
        -- intros [[|j] [x [-> H]]]; [left; lia|right; exists j, x; auto].
      * intros k x. rewrite B'. split; [intros [j [-> H]]; exists (S j); auto|].
        intros [[|j] [-> H]]; [discriminate|exists j; auto].
      * constructor; [exact C|]. apply Forall_forall. exact HM.
      * exact D.
    + split; [|split; [|split]].
      * intros k. rewrite A'. split; [intros [j [x [-> H]]]; exists (S j), x; auto|].
        intros [[|j] [x [-> H]]]; [discriminate|exists j, x; auto].
      * intros k x. simpl. rewrite B'. split.
        -- intros [H|[j [-> H]]]; [injection H as <- <-; exists 0; split; [lia|reflexivity]|exists (S j); auto].
        -- intros [[|j] [-> H]]; [left; simpl in H; injection H as ->; f_equal; lia|right; exists j; auto].
      * exact C.
      * simpl. constructor; [exact D|]. apply Forall_forall. exact HU.
Qed.
Definition qn (n : nat) : Q := inject_Z (Z.of_nat n).
Lemma npInterp_spec pts x : pts <> [] -> StronglySorted lt (map fst pts) -> ~ In x (map fst pts) ->
  exists y, npInterp pts x = Some y /\
  ((exists a va b vb, In (a, va) pts /\ In (b, vb) pts /\ a < x < b /\ (forall k, In k (map fst pts) -> k <= a \/ b <= k) /\
      (y == va + (vb - va) * (qn x - qn a) / (qn b - qn a))%Q) \/
   (exists b vb, In (b, vb) pts /\ x < b /\ (forall k, In k (map fst pts) -> b <= k) /\ y = vb) \/
   (exists a va, In (a, va) pts /\ a < x /\ (forall k, In k (map fst pts) -> k <= a) /\ y = va)).
Proof.
  induction pts as [|[a va] pts IH]; intros Hne HS Hx; [contradiction|]. cbn [npInterp]. destruct pts as [|[b vb] r].
  - exists va. split; [reflexivity|]. simpl in Hx. destruct (Nat.lt_trichotomy x a) as [H|[H|H]]; [|exfalso; auto|].
    + right. left. exists a, va. split; [left; reflexivity|]. split; [exact H|]. split; [|reflexivity]. intros k [<-|[]]. simpl. lia.
    + right. right. exists a, va. split; [left; reflexivity|]. split; [exact H|]. split; [|reflexivity]. intros k [<-|[]]. simpl. lia.
  - cbn [map fst] in HS. inversion HS as [|? ? HS' HF]. subst. rewrite Forall_forall in HF.
    inversion HS' as [|? ? _ HF']. subst. rewrite Forall_forall in HF'.
    assert (Hab : a < b) by (apply HF; left; reflexivity).
    destruct (x <? b) eqn:Eb.
    + apply Nat.ltb_lt in Eb. destruct (x <=? a) eqn:Ea.
      * apply Nat.leb_le in Ea. eexists. split; [reflexivity|]. right. left. exists a, va. split; [left; reflexivity|].
        assert (x <> a) by (intros ->; apply Hx; left; reflexivity). split; [lia|]. split; [|reflexivity].
        intros k [<-|Hk]; [simpl; lia|]. specialize (HF k Hk). lia.
      * apply Nat.leb_gt in Ea. eexists. split; [reflexivity|]. left. exists a, va, b, vb. split; [left; reflexivity|].
        split; [right; left; reflexivity|]. split; [lia|]. split.
        -- intros k [<-|[<-|Hk]]; simpl; [lia|lia|]. specialize (HF' k Hk). lia.
        -- fold (qn x) (qn a) (qn b). assert (~ (qn b - qn a == 0)%Q).
           { unfold qn. intros C. assert (inject_Z (Z.of_nat a) < inject_Z (Z.of_nat b))%Q by (rewrite <- Zlt_Qlt; lia). lra. }
           field. exact H.
    + apply Nat.ltb_ge in Eb. destruct IH as [y [E Sp]]; [discriminate|exact HS'|intros C; apply Hx; right; exact C|].
      exists y. split; [exact E|]. destruct Sp as [[a' [va' [b' [vb' [I1 [I2 [H1 [H2 H3]]]]]]]]|[[b' [vb' [I1 [H1 [H2 H3]]]]]|[a' [va' [I1 [H1 [H2 H3]]]]]]].
      * left. exists a', va', b', vb'. split; [right; exact I1|]. split; [right; exact I2|]. split; [exact H1|]. split; [|exact H3].
        intros k [<-|Hk]; [|apply H2; exact Hk]. left. simpl. assert (Ia : In a' (b :: map fst r)) by (apply (in_map fst) in I1; exact I1).
        specialize (HF a' Ia). lia.
      * exfalso. specialize (H2 b (or_introl eq_refl)). assert (x <> b) by (intros ->; apply Hx; right; left; reflexivity). lia.
      * right. right. exists a', va'. split; [right; exact I1|]. split; [exact H1|]. split; [|exact H3].
        intros k [<-|Hk]; [|apply H2; exact Hk]. simpl. specialize (H2 b (or_introl eq_refl)). lia.
Qed.
Lemma allSome_spec {A B} (f : A -> option B) l : (forall x, In x l -> exists y, f x = Some y) ->
  exists out, allSome (map f l) = Some out /\ List.length out = List.length l /\
    forall p x, nth_error l p = Some x -> nth_error out p = f x.
Proof.
  induction l as [|a l IH]; intros H.
  - exists []. split; [reflexivity|]. split; [reflexivity|]. intros [|p]; discriminate.
  - destruct (H a (or_introl eq_refl)) as [y Hy]. destruct IH as [out [E [L Sp]]]; [intros; apply H; right; assumption|].
    simpl. rewrite Hy, E. exists (y :: out). split; [reflexivity|]. split; [simpl; lia|]. intros [|p] x Hp; [|apply Sp; exact Hp].
    simpl in *. congruence.
Qed.
Lemma interpFill_spec vs : forall i ms cur tmp, (forall k, i <= k -> (In k ms <-> In k cur)) -> StronglySorted lt cur ->
  (forall k, In k cur -> i <= k) -> List.length tmp = List.length cur ->
  exists out, interpFill i ms tmp vs = Ok out /\ List.length out = List.length vs /\
  forall j v, nth_error vs j = Some v ->
    (forall p, nth_error cur p = Some (i + j) -> nth_error out j = nth_error tmp p) /\ (~ In (i + j) cur -> nth_error out j = Some v).
Proof.
  induction vs as [|v vs IH]; intros i ms cur tmp HM HS Hge HL.
  - exists []. split; [reflexivity|]. split; [reflexivity|]. intros [|j]; discriminate.
  - cbn [interpFill]. destruct (mem i ms) eqn:Em.
    + apply mem_In in Em. apply HM in Em; [|lia]. destruct cur as [|c cur]; [contradiction|].
      inversion HS as [|? ? HS' HF]. subst. rewrite Forall_forall in HF.
      assert (c = i). { destruct Em as [<-|Hc]; [reflexivity|]. specialize (HF i Hc). specialize (Hge c (or_introl eq_refl)). lia. } subst c.
      destruct tmp as [|x tmp]; [discriminate|]. destruct (IH (S i) ms cur tmp) as [out [E [L Sp]]].
      * intros k Hk. rewrite HM by lia. simpl. split; [intros [|]; [lia|assumption]|auto].
      * exact HS'.
      * intros k Hk. specialize (HF k Hk). lia.
      * simpl in HL. lia.
      * rewrite E. cbn [rbind]. exists (x :: out). split; [reflexivity|]. split; [simpl; lia|]. intros j u Hj. destruct j as [|j].
        -- split.
           ++ intros p Hp. rewrite Nat.add_0_r in Hp. destruct p as [|p]; [reflexivity|]. exfalso. simpl in Hp. apply nth_error_In in Hp. specialize (HF i Hp). lia.
           ++ intros C. exfalso. apply C. left. lia.
        -- simpl in Hj. destruct (Sp j u Hj) as [S1 S2]. rewrite Nat.add_succ_r. split.
           ++ intros p Hp. destruct p as [|p]; [simpl in Hp; injection Hp as Hp; lia|]. simpl in *. apply S1. exact Hp.
           ++ intros C. simpl. apply S2. intros C2. apply C. right. exact C2.
    + assert (Hni : ~ In i cur). { intros C. apply HM in C; [|lia]. apply mem_In in C. congruence. }
      destruct (IH (S i) ms cur tmp) as [out [E [L Sp]]].
      * intros k Hk. apply HM. lia.
      * exact HS.
      * intros k Hk. specialize (Hge k Hk). assert (k <> i) by (intros ->; contradiction). lia.
      * exact HL.
      * rewrite E. cbn [rbind]. exists (v :: out). split; [reflexivity|]. split; [simpl; lia|]. intros j u Hj. destruct j as [|j].
        -- split; [|intros _; exact Hj]. intros p Hp. rewrite Nat.add_0_r in Hp. apply nth_error_In in Hp. contradiction.
        -- simpl in Hj. destruct (Sp j u Hj) as [S1 S2]. rewrite Nat.add_succ_r. split; [exact S1|exact S2].
Qed.
Lemma interpolate_spec vs m : List.length m = List.length vs ->
  match find negb m with
  | Some _ => exists out, interpolate vs m = Ok out /\ FilledBy (OnLine vs m) vs m out
  | None => interpolate vs m = Err ValueErr
  end.
Proof.
  intros L. unfold interpolate. destruct (locations 0 (combine vs m)) as [ms us] eqn:E.
  destruct (locations_spec _ _ _ _ E) as [A [B [C D]]]. simpl in A, B.
  assert (B' : forall k v, In (k, v) us <-> nth_error vs k = Some v /\ nth_error m k = Some false).
  { intros k v. rewrite B. split.
    - intros [j [-> H]]. rewrite nth_combine in H. destruct (nth_error vs j); [|discriminate]. destruct (nth_error m j); [|discriminate]. injection H as -> ->. auto.
    - intros [H1 H2]. exists k. split; [reflexivity|]. rewrite nth_combine, H1, H2. reflexivity. }
  assert (A' : forall k, In k ms <-> nth_error m k = Some true).
  { intros k. rewrite A. split.
    - intros [j [v [-> H]]]. rewrite nth_combine in H. destruct (nth_error vs j); [|discriminate]. destruct (nth_error m j); [|discriminate]. congruence.
    - intros H. pose proof (nth_error_lt _ _ H) as Hl. rewrite L in Hl. destruct (nth_error_is_some _ Hl) as [v Hv].
      exists k, v. split; [reflexivity|]. rewrite nth_combine, Hv, H. reflexivity. }
  assert (K : forall k, In k (map fst us) <-> nth_error m k = Some false).
  { intros k. rewrite in_map_iff. split.
    - intros [[k' v] [<- H]]. apply B' in H. tauto.
    - intros H. pose proof (nth_error_lt _ _ H) as Hl. rewrite L in Hl. destruct (nth_error_is_some _ Hl) as [v Hv].
      exists (k, v). split; [reflexivity|]. apply B'. auto. }
  destruct (find negb m) as [b|] eqn:Ef.
  - apply find_some in Ef. destruct Ef as [Hin Hb]. destruct b; [discriminate|]. apply In_nth_error in Hin. destruct Hin as [k0 Hk0].
    destruct us as [|u us0] eqn:Eu; [exfalso; apply K in Hk0; contradiction|]. rewrite <- Eu in *. clear Eu u us0.
    assert (Hne : us <> []) by (intros ->; apply K in Hk0; contradiction).
    assert (Hint : forall x, In x ms -> exists y, npInterp us x = Some y).
    { intros x Hx. destruct (npInterp_spec us x Hne D) as [y [Ey _]]; [|exists y; exact Ey].
      intros Cx. apply K in Cx. apply A' in Hx. congruence. }
    destruct (allSome_spec _ _ Hint) as [tmp [Et [Lt St]]]. destruct us as [|u us0] eqn:Eu; [contradiction|]. rewrite <- Eu in *. clear Eu u us0. rewrite Et.
    destruct (interpFill_spec vs 0 ms ms tmp) as [out [Eo [Lo So]]]; [tauto|exact C|intros; lia|exact Lt|].
    exists out. split; [exact Eo|]. split; [exact Lo|]. intros i v Hv. destruct (nth_mask _ m i v L Hv) as [f Hf]. rewrite Hf.
    destruct (So i v Hv) as [S1 S2]. simpl in S1, S2. destruct f; [|apply S2; intros Ci; apply A' in Ci; congruence].
    assert (Hi : In i ms) by (apply A'; exact Hf). apply In_nth_error in Hi. destruct Hi as [p Hp]. rewrite (S1 p Hp), (St p i Hp).
    destruct (npInterp_spec us i Hne D) as [y [Ey Sy]]; [intros Cx; apply K in Cx; congruence|]. rewrite Ey. exists y. split; [reflexivity|].
    assert (Hbetween : forall j, j < List.length m -> ~ In j (map fst us) -> nth_error m j = Some true).
    { intros j Hj Hn. destruct (nth_error_is_some _ Hj) as [f Hfj]. destruct f; [exact Hfj|]. exfalso. apply Hn. apply K. exact Hfj. }
    destruct Sy as [[a [va [b [vb [I1 [I2 [H1 [H2 H3]]]]]]]]|[[b [vb [I1 [H1 [H2 H3]]]]]|[a [va [I1 [H1 [H2 H3]]]]]]].
    + apply B' in I1. apply B' in I2. pose proof (nth_error_lt _ _ (proj2 I2)). left. exists a, b, va, vb. split; [|split; [|split; [tauto|split; [tauto|exact H3]]]].
      * split; [lia|]. split; [tauto|]. intros j Hj. apply Hbetween; [lia|]. intros Cj. specialize (H2 j Cj). lia.
      * split; [lia|]. split; [tauto|]. intros j Hj. apply Hbetween; [lia|]. intros Cj. specialize (H2 j Cj). lia.
    + apply B' in I1. pose proof (nth_error_lt _ _ (proj2 I1)). right. left. exists b, vb. split; [|split; [|split; [tauto|exact H3]]].
      * split; [lia|]. split; [tauto|]. intros j Hj. apply Hbetween; [lia|]. intros Cj. specialize (H2 j Cj). lia.
      * intros a [Q1 [Q2 _]]. apply K in Q2. specialize (H2 a Q2). lia.
    + apply B' in I1. right. right. exists a, va. split; [|split; [|split; [tauto|exact H3]]].
      * split; [lia|]. split; [tauto|]. intros j Hj. apply Hbetween; [pose proof (nth_error_lt _ _ Hf); lia|]. intros Cj. specialize (H2 j Cj). lia.
      * intros b [Q1 [Q2 _]]. apply K in Q2. specialize (H2 b Q2). lia.
  - destruct us as [|[k v] us0]; [reflexivity|]. exfalso.
    assert (Hk : nth_error m k = Some false) by (apply (B' k v); left; reflexivity).
    pose proof (find_none _ _ Ef false (nth_error_In _ _ Hk)) as Cn. discriminate.
Qed.
