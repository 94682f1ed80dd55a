(** Properties C01-C04: axis names and identifier resolution. *)
From Verif Require Import Base NamesModel NamesSpec NamesProofs NamesIndexProofs.
Open Scope string_scope.
Open Scope nat_scope.

(** C01 (partial: guarded).  After any history of naming, permuting, removing
    and inserting calls - accepted or rejected - whose new names do not collide
    with each other, names and indices are a bijection.  Missing: the colliding
    dict / oldIdentifiers calls, which the code accepts and which break it (see
    the [_refuted] theorems). *)
Theorem C01_names_bijection_partial :
  forall n ops, ops_ok (fresh n) ops -> Consistent (run (fresh n) ops).
Proof. exact run_fresh_Consistent. Qed.
Print Assumptions C01_names_bijection_partial.

(** C01: a list of names needs no guard: it is accepted exactly when it has
    the axis' length, holds only strings/None and no string twice; then
    getNames returns it, and the axis is consistent again whatever the input. *)
Theorem C01_set_list_of_names :
  forall a l, Inv a ->
    (snd (setNames a (AList l) ONone) = Ok tt <->
       List.length l = alen a /\
       (forall x, In x l -> match x with NOther _ => False | _ => True end) /\
       (forall i j s, nth_error l i = Some (NStr s) -> nth_error l j = Some (NStr s) -> i = j)) /\
    (snd (setNames a (AList l) ONone) = Ok tt ->
       getNames (fst (setNames a (AList l) ONone)) = map newname_opt l) /\
    Consistent (fst (setNames a (AList l) ONone)).
Proof.
  exact (fun a l Ha =>
   conj (conj (setNames_list_reject a l)
              (fun H => proj1 (setNames_list_accept a l (proj1 H) (proj2 H))))
   (conj (fun H => proj2 (setNames_list_accept a l (proj1 (setNames_list_reject a l H))
                                                  (proj2 (setNames_list_reject a l H))))
         (Inv_Consistent _ (setNames_list_Inv a l Ha)))).
Qed.
Print Assumptions C01_set_list_of_names.

(** C01 is false in full: a dict giving two names to one index is accepted and
    leaves two names that both resolve to index 0. *)
Theorem C01_names_bijection_refuted_dict :
  exists a asg, Inv a /\ snd (setNames a asg ONone) = Ok tt /\
                ~ Consistent (fst (setNames a asg ONone)).
Proof.
  exists (fresh 2), (ADict [(NStr "a", DInt 0); (NStr "b", DInt 0)]).
  split; [exact I|]. split; [reflexivity|].
  intros [_ [_ [H _]]]. specialize (H "a" 0). destruct H as [H _].
  specialize (H eq_refl). destruct H as [_ H]. vm_compute in H. discriminate.
Qed.
Print Assumptions C01_names_bijection_refuted_dict.

(** C01 is false in full: renaming two points to one name is accepted; the
    first point then still reports its old name, which no longer resolves. *)
Theorem C01_names_bijection_refuted_rename :
  exists a asg old, Inv a /\ snd (setNames a asg old) = Ok tt /\
    getName (fst (setNames a asg old)) 0 = Ok (Some "a") /\
    getIndex (fst (setNames a asg old)) (IdStr "a") false = Err KeyErr.
Proof.
  exists (fst (setNames (fresh 2) (AList [NStr "a"; NStr "b"]) ONone)),
         (AList [NStr "x"; NStr "x"]), (OList [IdInt 0; IdInt 1]).
  split; [exact (setNames_list_Inv (fresh 2) _ I)|]. vm_compute; auto.
Qed.
Print Assumptions C01_names_bijection_refuted_rename.

(** C02: a rejected setNames changes no name and no lookup. *)
Theorem C02_rejected_setNames_changes_nothing :
  forall a asg old e, Inv a ->
    snd (setNames a asg old) = Err e -> SameNames (fst (setNames a asg old)) a.
Proof. exact setNames_reject. Qed.
Print Assumptions C02_rejected_setNames_changes_nothing.

(** C03 (partial: floats must lie inside the axis). *)
Theorem C03_getIndex_denotes_partial :
  forall a id fl z, Inv a -> FloatInRange a id ->
    (getIndex a id fl = Ok z <-> Denotes a fl id z).
Proof. exact getIndex_Denotes. Qed.
Print Assumptions C03_getIndex_denotes_partial.
Theorem C03_getIndex_in_range_partial :
  forall a id fl z, Inv a -> FloatInRange a id ->
    getIndex a id fl = Ok z -> (0 <= z < Z.of_nat (alen a))%Z.
Proof. exact getIndex_ok_range. Qed.
Print Assumptions C03_getIndex_in_range_partial.
(** C03: getName, for every integer: in range, counted from the end when
    negative, an error otherwise. *)
Theorem C03_getName_denotes :
  forall a z o, Inv a ->
    (getName a z = Ok o <-> exists i, Denotes a false (IdInt z) (Z.of_nat i) /\ nth_error (getNames a) i = Some o).
Proof. exact getName_Denotes. Qed.
Print Assumptions C03_getName_denotes.
(** C03 is false in full: an integral float beyond the axis is "resolved". *)
Theorem C03_getIndex_float_refuted :
  exists a q z, Inv a /\ getIndex a (IdFloat q) true = Ok z /\ ~ (0 <= z < Z.of_nat (alen a))%Z.
Proof. exists (fresh 2), (inject_Z 5), 5%Z. split; [exact I|]. split; [reflexivity|]. vm_compute. intros [_ H]; discriminate. Qed.
Print Assumptions C03_getIndex_float_refuted.

(** C04: slices are inclusive arithmetic progressions between the denoted
    ends.  (Partial: default ends are 0 and n-1 in both directions, see below;
    float ends must lie inside the axis.) *)
Theorem C04_slice_selection_partial :
  forall a st sp se r, Inv a -> 0 < alen a ->
    (forall i, st = Some i -> FloatInRange a i) -> (forall i, sp = Some i -> FloatInRange a i) ->
    processMultiple a (KSlice st sp se) = Ok r ->
    exists s e,
      Denotes a true (slice_default st 0) s /\
      Denotes a true (slice_default sp (Z.of_nat (alen a) - 1)) e /\
      slice_step se <> 0%Z /\
      forall m x, nth_error (selection a r) m = Some x <->
        x = (s + Z.of_nat m * slice_step se)%Z /\
        ((0 < slice_step se /\ x <= e)%Z \/ (slice_step se < 0 /\ e <= x)%Z).
Proof. exact processMultiple_slice. Qed.
Print Assumptions C04_slice_selection_partial.
(** the reversing slice [::-1] selects nothing on two or more points *)
Theorem C04_reverse_slice_refuted :
  exists a, alen a = 3 /\ processMultiple a (KSlice None None (Some (-1)%Z)) = Ok (Some []).
Proof. exists (fresh 3); vm_compute; auto. Qed.
Print Assumptions C04_reverse_slice_refuted.

Theorem C04_mask_selection :
  forall a mask, List.length mask = alen a ->
    exists sel, processMultiple a (KList (map KBool mask)) = Ok (Some sel) /\
      (forall z, In z sel <-> exists i, z = Z.of_nat i /\ nth_error mask i = Some true) /\
      (forall i j x y, i < j -> nth_error sel i = Some x -> nth_error sel j = Some y -> (x < y)%Z).
Proof. exact processMultiple_mask. Qed.
Print Assumptions C04_mask_selection.
Theorem C04_mask_wrong_length :
  forall a mask, List.length mask <> alen a -> mask <> [] ->
    processMultiple a (KList (map KBool mask)) = Err KeyErr.
Proof. exact processMultiple_mask_wrong. Qed.
Print Assumptions C04_mask_wrong_length.
(** a "mask" with extra non-boolean entries is accepted, and shifts positions *)
Theorem C04_mixed_mask_refuted :
  exists a k, alen a = 2 /\ k = [KId (IdInt 0); KBool true; KBool false] /\
    processMultiple a (KList k) = Ok (Some [1%Z]).
Proof. exists (fresh 2); eexists; vm_compute; auto. Qed.
Print Assumptions C04_mixed_mask_refuted.

Theorem C04_identifier_list_selection :
  forall a ids sel, Inv a -> 0 < alen a -> (forall i, In i ids -> FloatInRange a i) ->
    ((exists r, processMultiple a (KList (map KId ids)) = Ok r /\ selection a r = sel)
     <-> Forall2 (Denotes a true) ids sel /\ NoDup sel).
Proof. exact processMultiple_ids. Qed.
Print Assumptions C04_identifier_list_selection.

(** ** The hypotheses are met by non-trivial cases *)
Definition ex_ops : list axis_op :=
  [ OSet (AList [NStr "a"; NNone; NStr "c"]) ONone;
    OSet (AStr "z") (OOne (IdInt (-1)));
    OSet (ADict [(NStr "q", DInt 2); (NStr "p", DInt 0); (NStr "r", DInt 1)]) ONone;
    OSet (AList [NStr "m"; NNone]) (OList [IdStr "q"; IdInt 0]);
    OPermute [2; 0; 1]; ORemove [1];
    OInsert (fst (setNames (fresh 1) (AStr "new") ONone)) 1 ].
Example ex_ops_ok : ops_ok (fresh 3) ex_ops.
Proof.
  unfold ex_ops. cbn [ops_ok].
  split; [exact I|]. split; [exact I|].
  split; [split; [apply nodupb_NoDup; reflexivity|vm_compute; repeat constructor; simpl; intuition congruence]|].
  split; [split; [apply nodupb_NoDup; reflexivity|]|].
  { intros i j x y z Hi Hj.
    destruct i as [|[|[|i]]], j as [|[|[|j]]]; simpl in Hi, Hj; try discriminate; auto;
      injection Hi as <-; injection Hj as <-; vm_compute; congruence. }
  split; [vm_compute; apply (perm_trans (l' := [0; 2; 1])); [apply perm_swap|apply perm_skip, perm_swap]|].
  split; [split; [apply nodupb_NoDup; reflexivity|intros i [<-|[]]; vm_compute; auto]|].
  split; [split; [apply setNames_Inv; exact I|vm_compute; auto]|exact I].
Qed.
Example ex_ops_result : getNames (run (fresh 3) ex_ops) = [Some "m"; Some "new"; Some "r"].
Proof. vm_compute; reflexivity. Qed.
Example ex_reject : snd (setNames (run (fresh 3) ex_ops) (AStr "r") (OOne (IdInt 0))) = Err InvalidArgumentValue.
Proof. vm_compute; reflexivity. Qed.
Example ex_denotes : FloatInRange (fresh 4) (IdFloat (inject_Z 3)) /\
  getIndex (fresh 4) (IdFloat (inject_Z 3)) true = Ok 3%Z /\
  getIndex (run (fresh 3) ex_ops) (IdStr "new") false = Ok 1%Z /\
  getIndex (run (fresh 3) ex_ops) (IdInt (-3)) false = Ok 0%Z.
Proof. vm_compute; repeat split; congruence. Qed.
Example ex_slice : processMultiple (run (fresh 3) ex_ops) (KSlice (Some (IdStr "r")) (Some (IdStr "new")) (Some (-1)%Z)) = Ok (Some [2%Z; 1%Z]).
Proof. vm_compute; reflexivity. Qed.
Example ex_list : processMultiple (run (fresh 3) ex_ops) (KList (map KId [IdStr "r"; IdInt 0])) = Ok (Some [2%Z; 0%Z]).
Proof. vm_compute; reflexivity. Qed.
