(** Properties C05-C11, C13, C50, C53: operations on whole points/features. *)
From Verif Require Import Base NamesModel NamesSpec NamesProofs NamesIndexProofs
  TableModel TableSpec TableProofs TablePermProofs TableOps TableSortProofs TableInsertProofs TableOpsProofs
  TableOps2Proofs TableOps3Proofs TableGroupProofs TableNameSortProofs.
From Coq Require Import Sorted.
Open Scope string_scope.
Open Scope list_scope.
Open Scope nat_scope.

(** ** C05 *)
(** What a selection means, independently of how the code computes it. *)
Definition Selects {V} (sd : side) (t : table V) (tg : target V) (start stop : option ident) (l : list nat) : Prop :=
  match tg with
  | TIds ids => Forall2 (fun id i => Denotes (ax sd t) false id (Z.of_nat i)) ids l /\ NoDup l
  | TFun f => StronglySorted lt l /\
      forall i, In i l <-> exists v, nth_error (vectors sd t) i = Some v /\ f v = true
  | TNone => match start, stop with
      | None, None => l = seq 0 (alen (ax sd t))
      | _, _ => exists s e, s <= e /\ l = seq s (e + 1 - s) /\
          match start with None => s = 0 | Some id => Denotes (ax sd t) false id (Z.of_nat s) end /\
          match stop with None => e + 1 = alen (ax sd t) | Some id => Denotes (ax sd t) false id (Z.of_nat e) end
      end
  end.

Lemma positionsWhere_sorted {A} (f : A -> bool) (l : list A) : StronglySorted lt (positionsWhere f l).
Proof.
  unfold positionsWhere. generalize 0 as n. induction l as [|x l IH]; intros n; simpl; [constructor|].
  assert (G : forall m i, In i (map fst (filter (fun p => f (snd p)) (combine (seq m (List.length l)) l))) -> m <= i).
  { clear. induction l as [|x l IH]; intros m i; simpl; [tauto|]. destruct (f x); simpl.
    - intros [<-|H]; auto. apply IH in H. lia.
    - intros H; apply IH in H; lia. }
  destruct (f x); simpl; auto. constructor; auto. apply Forall_forall. intros i Hi. apply G in Hi. lia.
Qed.

Lemma getIndex_nat a id z : Inv a -> getIndex a id false = Ok z ->
  exists i, z = Z.of_nat i /\ Denotes a false id (Z.of_nat i) /\ i < alen a.
Proof.
  intros Ha H.
  assert (HC : constructIndices a [id] = Ok [Z.to_nat z]) by (unfold constructIndices; simpl; rewrite H; auto).
  apply constructIndices_Denotes in HC; auto. inversion HC; subst.
  assert (Hz : (0 <= z < Z.of_nat (alen a))%Z) by (eapply getIndex_range; eauto).
  exists (Z.to_nat z). rewrite Z2Nat.id in * by lia. repeat split; auto; lia.
Qed.

Lemma baseTargets_Selects {V} sd (t : table V) tg st sp l : wf t -> baseTargets sd t tg st sp = Ok l -> Selects sd t tg st sp l.
Proof.
  intros Hwf. pose proof (wf_Inv V sd t Hwf) as Ha. destruct tg as [|ids|f]; unfold baseTargets, Selects.
  - assert (Hgen : forall (rs re : result Z) (P Q : nat -> Prop),
       (forall s, rs = Ok s -> exists i, s = Z.of_nat i /\ P i) ->
       (forall e, re = Ok e -> (0 <= e)%Z -> exists i, e = Z.of_nat i /\ Q i) ->
       (s <- rs ;; e <- re ;;
          if (s <? 0)%Z || (Z.of_nat (alen (ax sd t)) <? s)%Z then Err InvalidArgumentValue
          else if (e <? 0)%Z || (Z.of_nat (alen (ax sd t)) <? e)%Z then Err InvalidArgumentValue
          else if (e <? s)%Z then Err InvalidArgumentValueCombination
          else Ok (seq (Z.to_nat s) (Z.to_nat e + 1 - Z.to_nat s))) = Ok l ->
       exists s e, s <= e /\ l = seq s (e + 1 - s) /\ P s /\ Q e).
    { intros [s|es] [e|ee] P Q Hs He; simpl; try discriminate.
      destruct (Hs s eq_refl) as [i [-> HP]].
      destruct (Z.ltb_spec (Z.of_nat i) 0); simpl; [discriminate|].
      destruct (Z.ltb_spec (Z.of_nat (alen (ax sd t))) (Z.of_nat i)); simpl; [discriminate|].
      destruct (Z.ltb_spec e 0); simpl; [discriminate|].
      destruct (He e eq_refl) as [j [-> HQ]]; auto.
      destruct (Z.ltb_spec (Z.of_nat (alen (ax sd t))) (Z.of_nat j)); simpl; [discriminate|].
      destruct (Z.ltb_spec (Z.of_nat j) (Z.of_nat i)); [discriminate|]. intros [= <-].
      exists i, j. rewrite !Nat2Z.id. repeat split; auto; lia. }
    assert (R : forall id s, getIndex (ax sd t) id false = Ok s ->
        exists i, s = Z.of_nat i /\ Denotes (ax sd t) false id (Z.of_nat i)).
    { intros id s H. destruct (getIndex_nat _ _ _ Ha H) as [i [A [B C]]]; eauto. }
    assert (L : forall e, Ok (Z.of_nat (alen (ax sd t)) - 1)%Z = Ok e -> (0 <= e)%Z ->
        exists i, e = Z.of_nat i /\ i + 1 = alen (ax sd t)).
    { intros e [= <-] He. exists (alen (ax sd t) - 1). lia. }
    assert (F : forall s, Ok 0%Z = Ok s -> exists i, s = Z.of_nat i /\ i = 0).
    { intros s [= <-]. exists 0; auto. }
    destruct st as [st|], sp as [sp|].
    + apply (Hgen _ _ (fun i => Denotes (ax sd t) false st (Z.of_nat i)) (fun i => Denotes (ax sd t) false sp (Z.of_nat i))); eauto.
    + apply (Hgen _ _ (fun i => Denotes (ax sd t) false st (Z.of_nat i)) (fun i => i + 1 = alen (ax sd t))); eauto.
    + apply (Hgen _ _ (fun i => i = 0) (fun i => Denotes (ax sd t) false sp (Z.of_nat i))); eauto.
    + intros [= <-]; auto.
  - destruct (constructIndices (ax sd t) ids) as [idx|] eqn:E; simpl; [|discriminate].
    destruct (nodupb idx) eqn:En; [|discriminate]. intros [= <-].
    split; [apply constructIndices_Denotes; auto|apply nodupb_NoDup; auto].
  - intros [= <-]. split; [apply positionsWhere_sorted|]. apply positionsWhere_spec.
Qed.

Lemma getTargets_Selects {V} sd (t : table V) tg st sp number rnd sampled l : wf t ->
  getTargets sd t tg st sp number rnd sampled = Ok l ->
  exists base, Selects sd t tg st sp base /\
    match number with
    | None => l = base
    | Some n => n <= List.length base /\ (if rnd then l = sampled else l = firstn n base)
    end.
Proof.
  intros Hwf H.
  assert (G : exists base, baseTargets sd t tg st sp = Ok base /\
    match number with
    | None => l = base
    | Some n => n <= List.length base /\ (if rnd then l = sampled else l = firstn n base)
    end).
  { unfold getTargets in H.
    assert (H' : (tl <- baseTargets sd t tg st sp;;
      match number with
      | None => Ok tl
      | Some n => if List.length tl <? n then Err InvalidArgumentValue
                  else if rnd then Ok sampled else Ok (firstn n tl)
      end) = Ok l).
    { destruct tg, st, sp, number as [[|n]|]; try discriminate; cbn [andb orb] in H; revert H; destruct rnd; intros; try discriminate; auto. }
    clear H. destruct (baseTargets sd t tg st sp) as [tl|] eqn:E; simpl in H'; [|discriminate].
    exists tl. split; auto. destruct number as [n|].
    - destruct (Nat.ltb_spec (List.length tl) n); [discriminate|]. split; auto. destruct rnd; congruence.
    - congruence. }
  destruct G as [base [A B]]. exists base. split; auto. apply baseTargets_Selects; auto.
Qed.

(** C05: for every selection the code accepts, the four operations agree,
    partition the points (each with its name) and keep the other axis. *)
Theorem C05_structural_partition :
  forall V sd (t : table V) tg start stop number rnd sampled targets,
    wf t ->
    (* with randomize=True the sampler returns distinct members of the selection *)
    (forall tl n, baseTargets sd t tg start stop = Ok tl -> number = Some n -> rnd = true ->
       n <= List.length tl -> sample_of sampled tl n) ->
    getTargets sd t tg start stop number rnd sampled = Ok targets ->
    (exists base, Selects sd t tg start stop base /\
       match number with
       | None => targets = base
       | Some n => n <= List.length base /\ (if rnd then targets = sampled else targets = firstn n base)
       end) /\
    exists ret rest,
      structural SCopy sd t targets = Ok (t, Some ret) /\
      structural SExtract sd t targets = Ok (rest, Some ret) /\
      structural SDelete sd t targets = Ok (rest, None) /\
      structural SRetain sd t targets = Ok (ret, None) /\
      wf ret /\ wf rest /\ sameOff sd t ret /\ sameOff sd t rest /\
      items sd ret = selected targets (items sd t) /\
      items sd rest = survivors targets (items sd t) /\
      Permutation (items sd ret ++ items sd rest) (items sd t).
Proof.
  intros V sd t tg st sp nb rnd smp tgs Hwf Hs H. split; [eapply getTargets_Selects; eauto|].
  destruct (getTargets_ok V sd t tg st sp nb rnd smp tgs Hwf Hs H) as [A [B _]].
  apply structural_spec; auto.
Qed.
Print Assumptions C05_structural_partition.

(** ** C06 *)
Theorem C06_permute_moves_names_with_data :
  forall V sd (t : table V) ids t', wf t ->
    permuteIds sd t ids = Ok t' ->
    exists order, Forall2 (fun id i => Denotes (ax sd t) false id (Z.of_nat i)) ids order /\
      Permutation order (seq 0 (alen (ax sd t))) /\ wf t' /\ offax sd t' = offax sd t /\
      items sd t' = selected order (items sd t).
Proof. exact permuteIds_iff. Qed.
Print Assumptions C06_permute_moves_names_with_data.
Theorem C06_permute_accepts_every_rearrangement :
  forall V sd (t : table V) ids order, wf t ->
    Forall2 (fun id i => Denotes (ax sd t) false id (Z.of_nat i)) ids order ->
    Permutation order (seq 0 (alen (ax sd t))) ->
    exists t', permuteIds sd t ids = Ok t'.
Proof. exact permuteIds_accept. Qed.
Print Assumptions C06_permute_accepts_every_rearrangement.
Theorem C06_permute_inverse :
  forall V sd (t : table V) order inv t', wf t ->
    Permutation order (seq 0 (alen (ax sd t))) ->
    (forall i k, nth_error order i = Some k -> nth_error inv k = Some i) ->
    List.length inv = alen (ax sd t) ->
    permute sd t order = Ok t' ->
    exists t'', permute sd t' inv = Ok t'' /\ items sd t'' = items sd t /\ sameOff sd t t''.
Proof. exact permute_inverse. Qed.
Print Assumptions C06_permute_inverse.

(** ** C07 *)
Theorem C07_sort_by_keys :
  forall V (leb : V -> V -> bool), TotalOrder leb ->
  forall reverse sd (t : table V) ks, wf t -> (forall k, In k ks -> k < alen (offax sd t)) ->
    exists t' order,
      sortByKeys leb sd t ks reverse = Ok t' /\ wf t' /\
      Permutation order (seq 0 (alen (ax sd t))) /\
      items sd t' = selected order (items sd t) /\ sameOff sd t t' /\
      forall p q i j, p < q -> nth_error order p = Some i -> nth_error order q = Some j ->
        comesBefore (fun x y => if reverse then leb y x else leb x y) (keyOf sd t) ks i j.
Proof. intros V leb HT rv sd t ks Hw Hk. exact (sortByKeys_spec V leb HT rv sd t ks Hw Hk). Qed.
Print Assumptions C07_sort_by_keys.
Theorem C07_sort_by_function :
  forall V K (kleb : K -> K -> bool) sd (t : table V) (key : list V -> K) reverse,
    TotalOrder kleb -> wf t ->
    exists t' order,
      sortByFunction kleb sd t key reverse = Ok t' /\ wf t' /\
      Permutation order (seq 0 (alen (ax sd t))) /\
      items sd t' = selected order (items sd t) /\ sameOff sd t t' /\
      forall p q i j, p < q -> nth_error order p = Some i -> nth_error order q = Some j ->
        comesBefore (fun x y => if reverse then kleb y x else kleb x y)
          (fun i _ => option_map key (nth_error (vectors sd t) i)) [0] i j.
Proof. intros V K kleb sd t key rv. apply (sortByFunction_spec V kleb). Qed.
Print Assumptions C07_sort_by_function.
Theorem C07_sort_by_names :
  forall V (sleb : string -> string -> bool) sd (t : table V) reverse, wf t ->
    TotalOrder sleb -> namesCreated (ax sd t) = true -> fullyNamed (ax sd t) ->
    exists t' order ss, sortByNames sleb sd t reverse = Ok t' /\ wf t' /\
      Permutation order (seq 0 (alen (ax sd t))) /\
      items sd t' = selected order (items sd t) /\ sameOff sd t t' /\
      getNames (ax sd t') = map Some ss /\
      (forall p q x y, p < q -> nth_error ss p = Some x -> nth_error ss q = Some y ->
         (if reverse then sleb y x else sleb x y) = true).
Proof. exact sortByNames_spec. Qed.
Print Assumptions C07_sort_by_names.

(** ** C08 *)
Theorem C08_insert_places_contiguously :
  forall V sd (t : table V) before o t', wf t -> wf o -> insertTable sd t before o = Ok t' ->
    exists b o', InsertPos (ax sd t) before b /\ b <= alen (ax sd t) /\ Aligned V sd t o o' /\
      wf t' /\ offax sd t' = offax sd t /\ alen (ax sd t') = alen (ax sd t) + alen (ax sd o) /\
      items sd t' = firstn b (items sd t) ++ items sd o' ++ skipn b (items sd t).
Proof. exact insert_spec. Qed.
Print Assumptions C08_insert_places_contiguously.
Theorem C08_insert_then_extract :
  forall V sd (t : table V) before o t', wf t -> wf o -> insertTable sd t before o = Ok t' ->
    exists b o' back rest,
      InsertPos (ax sd t) before b /\ Aligned V sd t o o' /\
      structural SExtract sd t' (seq b (alen (ax sd o))) = Ok (rest, Some back) /\
      items sd back = items sd o' /\ items sd rest = items sd t /\
      sameOff sd t back /\ sameOff sd t rest.
Proof. exact insert_extract. Qed.
Print Assumptions C08_insert_then_extract.
Theorem C08_append_accepts :
  forall V sd (t o : table V), wf t -> wf o ->
    alen (offax sd t) = alen (offax sd o) -> getNames (offax sd t) = getNames (offax sd o) ->
    (forall s i j, nth_error (getNames (ax sd t)) i = Some (Some s) ->
                   nth_error (getNames (ax sd o)) j = Some (Some s) -> False) ->
    exists t', insertTable sd t None o = Ok t' /\ wf t' /\ offax sd t' = offax sd t /\
      items sd t' = items sd t ++ items sd o.
Proof. exact insert_accept. Qed.
Print Assumptions C08_append_accepts.
(** an insertion at index 0 of an empty axis is rejected although appending works *)
Theorem C08_insert_into_empty_refuted :
  exists (t o : table nat), wf t /\ wf o /\ insertTable Pts t (Some (IdInt 0)) o = Err IndexErr /\
    is_ok (insertTable Pts t None o) = true.
Proof.
  exists (mkTable (fresh 0) (fresh 1) []), (mkTable (fresh 1) (fresh 1) [[5]]).
  split; [repeat split; simpl; auto; tauto|]. split; [repeat split; simpl; auto; intros r [<-|[]]; auto|].
  vm_compute; auto.
Qed.
Print Assumptions C08_insert_into_empty_refuted.
(** objects whose partially given feature names agree cannot be combined *)
Theorem C08_partial_names_refuted :
  exists (t o : table nat), wf t /\ wf o /\
    namesAgree (getNames (tf t)) (getNames (tf o)) /\
    alen (tf t) = alen (tf o) /\
    insertTable Pts t None o = Err InvalidArgumentType.
Proof.
  exists (mkTable (fresh 1) (fst (setNames (fresh 2) (AList [NStr "a"; NNone]) ONone)) [[1; 2]]),
         (mkTable (fresh 1) (fst (setNames (fresh 2) (AList [NStr "a"; NStr "b"]) ONone)) [[3; 4]]).
  split; [|split; [|split; [|split]]].
  - split; [reflexivity|]. split; [intros r [<-|[]]; reflexivity|]. split; [exact I|apply setNames_list_Inv; exact I].
  - split; [reflexivity|]. split; [intros r [<-|[]]; reflexivity|]. split; [exact I|apply setNames_list_Inv; exact I].
  - intros [|[|j]] s s'; vm_compute; try congruence.
  - reflexivity.
  - vm_compute; auto.
Qed.
Print Assumptions C08_partial_names_refuted.

(** ** C09 *)
Theorem C09_repeat :
  forall V sd (t : table V) total byVector, wf t -> 0 < total ->
    (namesCreated (ax sd t) = true -> fullyNamed (ax sd t)) ->
    let n := alen (ax sd t) in
    exists t', tableRepeat dec10 sd t total byVector = Ok t' /\ wf t' /\ offax sd t' = offax sd t /\
      alen (ax sd t') = total * n /\
      (forall j, j < total * n ->
         let src := if byVector then j / total else j mod n in
         let copy := if byVector then j mod total else j / n in
         nth_error (vectors sd t') j = nth_error (vectors sd t) src /\
         nth_error (getNames (ax sd t')) j =
           option_map (fun o => if total =? 1 then o else
               match o with Some s => Some (s ++ "_" ++ dec10 (S copy))%string | None => None end)
             (nth_error (getNames (ax sd t)) src)).
Proof. exact tableRepeat_spec. Qed.
Print Assumptions C09_repeat.
(** repeat of a partially named axis fails *)
Theorem C09_repeat_partial_names_refuted :
  forall V sd (t : table V) total byVector i, wf t -> 1 < total -> namesCreated (ax sd t) = true ->
    nth_error (getNames (ax sd t)) i = Some None ->
    tableRepeat dec10 sd t total byVector = Err TypeErr.
Proof. exact tableRepeat_partial_names. Qed.
Print Assumptions C09_repeat_partial_names_refuted.

(** ** C10 *)
Theorem C10_transpose_swaps :
  forall V (t : table V), wf t ->
    wf (transpose t) /\
    (forall i j, cell (transpose t) j i = cell t i j) /\
    alen (tp (transpose t)) = alen (tf t) /\ alen (tf (transpose t)) = alen (tp t) /\
    getNames (tp (transpose t)) = getNames (tf t) /\ getNames (tf (transpose t)) = getNames (tp t).
Proof. exact transpose_spec. Qed.
Print Assumptions C10_transpose_swaps.
Theorem C10_transpose_involutive :
  forall V (t : table V), wf t ->
    rows (transpose (transpose t)) = rows t /\
    alen (tp (transpose (transpose t))) = alen (tp t) /\ alen (tf (transpose (transpose t))) = alen (tf t) /\
    getNames (tp (transpose (transpose t))) = getNames (tp t) /\
    getNames (tf (transpose (transpose t))) = getNames (tf t).
Proof. exact transpose_involutive. Qed.
Print Assumptions C10_transpose_involutive.

(** ** C11 *)
(** The result is the first occurrences, in order, with names; [norm] is the
    identity on the stored values (no element is a missing-value marker). *)
Theorem C11_unique_partial :
  forall V (E : EqDec V) (norm : V -> V) sd (t : table V), wf t -> 0 < alen (offax sd t) ->
    (forall r v, In r (rows t) -> In v r -> norm v = v) ->
    exists t' idx, tableUnique norm sd t = Ok t' /\
      StronglySorted lt idx /\
      (forall k, In k idx <-> exists v, nth_error (vectors sd t) k = Some v /\
         forall m v', m < k -> nth_error (vectors sd t) m = Some v' -> v' <> v) /\
      wf t' /\ sameOff sd t t' /\ items sd t' = selected idx (items sd t).
Proof.
  intros V E norm sd t Hwf Ho Hn. destruct (tableUnique_spec V norm sd t Hwf Ho Hn) as [t' [idx [A [[B C] D]]]].
  exists t', idx. split; auto.
Qed.
Print Assumptions C11_unique_partial.

Lemma first_occ_exists {A} (dec : forall x y : A, {x = y} + {x <> y}) (l : list A) v :
  In v l -> exists k, nth_error l k = Some v /\ forall m v', m < k -> nth_error l m = Some v' -> v' <> v.
Proof.
  induction l as [|x l IH]; intros Hin; [destruct Hin|].
  destruct (dec x v) as [->|Hn].
  - exists 0. split; auto. intros; lia.
  - destruct Hin as [->|Hin]; [congruence|]. destruct (IH Hin) as [k [A1 A2]]. exists (S k). split; auto.
    intros [|m] v' Hm Hv'; simpl in Hv'; [congruence|]. eapply A2; eauto. lia.
Qed.

(** hence: same set of vectors, no two equal *)
Theorem C11_unique_set_partial :
  forall V (E : EqDec V) (norm : V -> V) sd (t t' : table V), wf t -> 0 < alen (offax sd t) ->
    (forall r v, In r (rows t) -> In v r -> norm v = v) ->
    tableUnique norm sd t = Ok t' ->
    NoDup (vectors sd t') /\ forall v, In v (vectors sd t') <-> In v (vectors sd t).
Proof.
  intros V E norm sd t t' Hwf Ho Hn Ht.
  destruct (C11_unique_partial V E norm sd t Hwf Ho Hn) as [t2 [idx [A [HS [HI [W [S I]]]]]]].
  assert (t2 = t') by congruence. subst t2.
  assert (Hv : vectors sd t' = selected idx (vectors sd t)).
  { rewrite <- (items_vectors V sd t' W), I, map_selected, items_vectors; auto. }
  assert (Hr : forall i, In i idx -> i < List.length (vectors sd t)).
  { intros i Hi. apply HI in Hi. destruct Hi as [v [Hv' _]]. eapply nth_error_lt; eauto. }
  rewrite Hv. split.
  - apply NoDup_nth_error. intros i j Hi Hij. rewrite selected_length in Hi by auto.
    rewrite !selected_nth in Hij by auto.
    destruct (nth_error_is_some idx (i:=i) Hi) as [a Ea]. rewrite Ea in Hij.
    assert (Ha := HI a). destruct Ha as [Ha _]. destruct Ha as [v [Hva Hfa]]; [eapply nth_error_In; eauto|].
    rewrite Hva in Hij. destruct (nth_error idx j) as [b|] eqn:Eb; [|discriminate].
    assert (Hb := HI b). destruct Hb as [Hb _]. destruct Hb as [w [Hwb Hfb]]; [eapply nth_error_In; eauto|].
    assert (v = w) by congruence. subst w.
    assert (a = b).
    { destruct (lt_eq_lt_dec a b) as [[Hl|Hl]|Hl]; auto; exfalso.
      - apply (Hfb a v); auto. - apply (Hfa b v); auto. }
    subst b. eapply NoDup_nth_error_inj with (l := idx); eauto. apply StronglySorted_lt_NoDup; auto.
  - intros v. split.
    + intros Hin. apply In_nth_error in Hin. destruct Hin as [k Hk]. rewrite selected_nth in Hk by auto.
      destruct (nth_error idx k); [|discriminate]. eapply nth_error_In; eauto.
    + intros Hin. destruct (first_occ_exists (list_eq_dec E) _ _ Hin) as [k [A1 A2]].
      assert (Hk : In k idx) by (apply HI; eauto).
      apply In_nth_error in Hk. destruct Hk as [p Hp]. apply nth_error_In with (n := p).
      rewrite selected_nth, Hp by auto. auto.
Qed.
Print Assumptions C11_unique_set_partial.

(** Missing from C11: (1) with at least one duplicate, stored missing markers
    are rewritten, so the result holds a row the source does not (norm maps
    the marker 0 to 9 here); (2) without elements nothing is deduplicated
    only when the axis has vectors of length zero. *)
Theorem C11_unique_marker_refuted :
  exists (norm : nat -> nat) (t t' : table nat) r, wf t /\ tableUnique norm Pts t = Ok t' /\
    In r (rows t') /\ ~ In r (rows t).
Proof.
  exists (fun n => if n =? 0 then 9 else n), (mkTable (fresh 2) (fresh 1) [[0]; [0]]),
         (mkTable (fresh 1) (fresh 1) [[9]]), [9].
  split; [repeat split; simpl; auto; intros r [<-|[<-|[]]]; auto|].
  split; [vm_compute; reflexivity|]. split; [simpl; auto|].
  simpl. intros [H|[H|[]]]; discriminate.
Qed.
Print Assumptions C11_unique_marker_refuted.
Theorem C11_unique_empty_vectors_refuted :
  exists (t : table nat), wf t /\ tableUnique (fun x => x) Fts t = Ok t /\ ~ NoDup (vectors Fts t).
Proof.
  exists (mkTable (fresh 0) (fresh 2) []). split; [repeat split; simpl; auto; tauto|].
  split; [vm_compute; reflexivity|]. simpl. intros H. inversion H; subst. simpl in *; tauto.
Qed.
Print Assumptions C11_unique_empty_vectors_refuted.

(** ** C13 *)
Theorem C13_groupByFeature_partition :
  forall V K (E : EqDec K) (key : list V -> K) (t : table V) by_,
    wf t -> NoDup by_ -> (forall i, In i by_ -> i < alen (tf t)) ->
    exists res, groupByFeature key t by_ = Ok res /\
      map fst res = dedup (map key (rows t)) /\
      (forall k g, In (k, g) res -> wf g /\
         getNames (tf g) = survivors by_ (getNames (tf t)) /\
         items Pts g = map (fun p => (fst p, survivors by_ (snd p)))
                           (filter (fun p => eqbd (key (snd p)) k) (items Pts t))) /\
      Permutation (flat_map (fun kg => items Pts (snd kg)) res)
                  (map (fun p => (fst p, survivors by_ (snd p))) (items Pts t)).
Proof. intros V K E key. exact (groupByFeature_spec V key). Qed.
Print Assumptions C13_groupByFeature_partition.
Theorem C13_countUniqueValues :
  forall V K (E : EqDec K) (key : list V -> K) (t : table V),
    groupCounts key t =
    map (fun k => (k, List.length (filter (fun r => eqbd (key r) k) (rows t)))) (dedup (map key (rows t))).
Proof. intros V K E key. exact (groupCounts_spec V key). Qed.
Print Assumptions C13_countUniqueValues.

(** ** C50 *)
Theorem C50_mapReduce :
  forall K (E : EqDec K) V W R (mapper : list V -> list (K * W)) (reducer : K -> list W -> option R)
         sd (t : table V), 0 < alen (offax sd t) ->
    let emitted := flat_map mapper (vectors sd t) in
    mapReduce mapper reducer sd t =
    Ok (flat_map (fun k => match reducer k (map snd (filter (fun p => eqbd (fst p) k) emitted)) with
                           | Some r => [r] | None => [] end)
          (dedup (map fst emitted))).
Proof. intros K E V W R mapper reducer sd t. exact (mapReduce_spec V W R mapper reducer sd t). Qed.
Print Assumptions C50_mapReduce.
(** [dedup] is what it should be *)
Theorem C50_dedup_spec :
  forall K (E : EqDec K) (l : list K), NoDup (dedup l) /\ (forall x, In x (dedup l) <-> In x l).
Proof. intros K E l. split; [apply dedup_NoDup|intros; apply dedup_In]. Qed.
Print Assumptions C50_dedup_spec.

(** ** C53 *)
(** After a successful transform exactly the chosen vectors hold the
    function's result; after an exception at vector k, exactly the chosen ones
    before k do (the operation is not atomic); names never change. *)
Theorem C53_transform_frame :
  forall V sd (f : list V -> result (list V)) limit lim (t : table V), wf t ->
    0 < alen (tp t) -> 0 < alen (tf t) -> limitDenotes (ax sd t) limit lim ->
    let res := transform sd f limit t in
    (snd res = Ok tt -> transformedUpTo V sd f lim (alen (ax sd t)) t (fst res)) /\
    (forall e, snd res = Err e ->
       exists k v, k < alen (ax sd t) /\ transformedUpTo V sd f lim k t (fst res) /\
        nth_error (vectors sd t) k = Some v /\ chosen lim k /\
        (f v = Err e \/ (e = InvalidArgumentValue /\ exists w, f v = Ok w /\ List.length w <> alen (offax sd t)))).
Proof. exact transform_spec. Qed.
Print Assumptions C53_transform_frame.
Theorem C53_transform_accepts :
  forall V sd (f : list V -> result (list V)) limit lim (t : table V), wf t ->
    0 < alen (tp t) -> 0 < alen (tf t) -> limitDenotes (ax sd t) limit lim ->
    (forall j v, nth_error (vectors sd t) j = Some v -> chosen lim j ->
       exists w, f v = Ok w /\ List.length w = alen (offax sd t)) ->
    snd (transform sd f limit t) = Ok tt.
Proof. exact transform_accept. Qed.
Print Assumptions C53_transform_accepts.
Theorem C53_calculate_rows_partial :
  forall V sd (t : table V) f limit lim, wf t -> 0 < alen (tp t) -> 0 < alen (tf t) ->
    limitDenotes (ax sd t) limit lim ->
    let idx := match lim with None => seq 0 (alen (ax sd t)) | Some l => l end in
    NoDup idx ->
    exists a vs, calculate sd t f limit = Ok (a, vs) /\
      vs = map f (selected idx (vectors sd t)) /\ alen a = List.length idx /\ Inv a /\
      (idx = seq 0 (alen (ax sd t)) \/ List.length idx < alen (ax sd t) ->
         getNames a = selected idx (getNames (ax sd t))).
Proof. exact calculate_spec. Qed.
Print Assumptions C53_calculate_rows_partial.
(** Missing: selecting all points in another order labels the results with
    the names in their original order. *)
Theorem C53_calculate_names_refuted :
  exists (t : table nat) a vs, wf t /\
    calculate Pts t (fun r => r) (Some [IdInt 1; IdInt 0]) = Ok (a, vs) /\
    nth_error vs 0 = nth_error (rows t) 1 /\
    nth_error (rows t) 0 <> nth_error (rows t) 1 /\
    getNames (tp t) = [Some "a"; Some "b"] /\ getNames a = [Some "a"; Some "b"].
Proof.
  exists (mkTable (fst (setNames (fresh 2) (AList [NStr "a"; NStr "b"]) ONone)) (fresh 1) [[1]; [2]]).
  eexists; eexists. split.
  - split; [reflexivity|]. split; [intros r [<-|[<-|[]]]; reflexivity|]. split; [apply setNames_list_Inv; exact I|exact I].
  - split; [vm_compute; reflexivity|]. split; [reflexivity|]. split; [vm_compute; discriminate|]. split; vm_compute; reflexivity.
Qed.
Print Assumptions C53_calculate_names_refuted.

(** ** Non-vacuity: concrete objects meeting the hypotheses *)
Definition ex_t : table nat :=
  mkTable (fst (setNames (fresh 4) (AList [NStr "a"; NNone; NStr "c"; NStr "d"]) ONone))
          (fst (setNames (fresh 3) (AList [NStr "x"; NStr "y"; NStr "z"]) ONone))
          [[1; 5; 0]; [2; 5; 7]; [1; 3; 7]; [1; 5; 2]].
Example ex_t_wf : wf ex_t.
Proof.
  split; [reflexivity|]. split; [intros r Hr; simpl in Hr; intuition subst; reflexivity|].
  split; apply setNames_list_Inv; exact I.
Qed.
Example ex_leb_total : TotalOrder Nat.leb.
Proof.
  split; intros x y; [destruct (Nat.le_ge_cases x y); [left|right]; apply Nat.leb_le; auto|].
  intros z H1 H2. apply Nat.leb_le in H1, H2. apply Nat.leb_le. lia.
Qed.
Example ex_extract : exists rest ret, structural SExtract Pts ex_t [3; 0] = Ok (rest, Some ret) /\
  items Pts ret = [(Some "d", [1; 5; 2]); (Some "a", [1; 5; 0])] /\
  items Pts rest = [(None, [2; 5; 7]); (Some "c", [1; 3; 7])].
Proof. eexists; eexists; split; [vm_compute; reflexivity|]. split; vm_compute; reflexivity. Qed.
Example ex_range : getTargets Pts ex_t TNone (Some (IdStr "c")) None (Some 1) false [] = Ok [2].
Proof. vm_compute; reflexivity. Qed.
Example ex_sort : exists t', sortByKeys Nat.leb Pts ex_t [0; 1] false = Ok t' /\
  items Pts t' = [(Some "c", [1; 3; 7]); (Some "a", [1; 5; 0]); (Some "d", [1; 5; 2]); (None, [2; 5; 7])].
Proof. eexists; split; vm_compute; reflexivity. Qed.
Example ex_sort_rev : exists t', sortByKeys Nat.leb Pts ex_t [0] true = Ok t' /\
  items Pts t' = [(None, [2; 5; 7]); (Some "a", [1; 5; 0]); (Some "c", [1; 3; 7]); (Some "d", [1; 5; 2])].
Proof. eexists; split; vm_compute; reflexivity. Qed.
Example ex_insert : exists t', insertTable Pts ex_t (Some (IdStr "c"))
   (mkTable (fresh 1) (fst (setNames (fresh 3) (AList [NStr "z"; NStr "x"; NStr "y"]) ONone)) [[10; 20; 30]]) = Ok t' /\
  items Pts t' = [(Some "a", [1; 5; 0]); (None, [2; 5; 7]); (None, [20; 30; 10]); (Some "c", [1; 3; 7]); (Some "d", [1; 5; 2])].
Proof. eexists; split; vm_compute; reflexivity. Qed.
Example ex_repeat : exists t', tableRepeat dec10 Fts ex_t 2 true = Ok t' /\
  getNames (tf t') = [Some "x_1"; Some "x_2"; Some "y_1"; Some "y_2"; Some "z_1"; Some "z_2"] /\
  nth_error (rows t') 1 = Some [2; 2; 5; 5; 7; 7].
Proof. eexists; split; vm_compute; auto. Qed.
Example ex_group : exists r1 r2, groupByFeature (fun r => nth 0 r 0) ex_t [0] = Ok [(1, r1); (2, r2)] /\
  items Pts r1 = [(Some "a", [5; 0]); (Some "c", [3; 7]); (Some "d", [5; 2])] /\ items Pts r2 = [(None, [5; 7])].
Proof. eexists; eexists; split; [vm_compute; reflexivity|]; split; vm_compute; reflexivity. Qed.
Example ex_transform : rows (fst (transform Pts (fun r => Ok (rev r)) (Some [IdStr "c"; IdInt 0]) ex_t))
  = [[0; 5; 1]; [2; 5; 7]; [7; 3; 1]; [1; 5; 2]].
Proof. vm_compute; reflexivity. Qed.
Example ex_mapReduce : mapReduce (fun r => [(nth 0 r 0, nth 1 r 0)]) (fun k vs => Some (k, vs)) Pts ex_t
  = Ok [(1, [5; 3; 5]); (2, [5])].
Proof. vm_compute; reflexivity. Qed.
Example ex_unique : exists t', tableUnique (fun x => x) Fts
   (mkTable (fresh 2) (fst (setNames (fresh 3) (AList [NStr "x"; NStr "y"; NStr "z"]) ONone)) [[1; 2; 1]; [3; 3; 3]]) = Ok t' /\
   items Fts t' = [(Some "x", [1; 3]); (Some "y", [2; 3])].
Proof. eexists; split; vm_compute; reflexivity. Qed.
