(** Assembling the C14 statements from PrepProofs. *)
From Verif Require Import Base NamesModel NamesSpec NamesProofs TableModel TableSpec TableProofs TableOps
  PrepModel PrepSpec PrepProofs.
Open Scope string_scope.
Open Scope list_scope.
Open Scope nat_scope.

Section S.
Variable V : Type.
Implicit Types t : table V.
Lemma halves t f order : (0 <= f)%Q -> (f <= 1)%Q -> Permutation order (seq 0 (alen (tp t))) ->
  firstn (splitAt V t f) order ++ skipn (splitAt V t f) order = order /\
  nearest (f * inject_Z (Z.of_nat (alen (tp t)))) (Z.of_nat (List.length (skipn (splitAt V t f) order))).
Proof.
  intros H0 H1 Hp. destruct (split_idx V t f order H0 H1 Hp) as (_ & _ & _ & _ & Ha & Hl).
  split; [exact Ha|]. rewrite Hl. apply (testSize_spec f (alen (tp t)) H0 H1).
Qed.
Lemma split_none_full t f order : wf t -> (0 <= f)%Q -> (f <= 1)%Q ->
  Permutation order (seq 0 (alen (tp t))) ->
  exists trainX testX tr te, trainAndTestSets t f LNone order = Ok (Two trainX testX) /\
    tr ++ te = order /\ nearest (f * inject_Z (Z.of_nat (alen (tp t)))) (Z.of_nat (List.length te)) /\
    subTable t tr (seq 0 (alen (tf t))) trainX /\
    subTable t te (seq 0 (alen (tf t))) testX.
Proof.
  intros W H0 H1 Hp. destruct (halves t f order H0 H1 Hp) as [Ha Hn].
  destruct (split_none V t f order W H0 H1 Hp) as (a & b & He & Hx & Hy).
  exists a, b, (firstn (splitAt V t f) order), (skipn (splitAt V t f) order). auto 10.
Qed.
Lemma split_ids_full t f order ids lab :
  wf t -> (0 <= f)%Q -> (f <= 1)%Q -> Permutation order (seq 0 (alen (tp t))) ->
  constructIndices (tf t) ids = Ok lab -> NoDup lab -> testSize f (alen (tp t)) <> 0 ->
  exists trainX trainY testX testY tr te,
    trainAndTestSets t f (LIds ids) order = Ok (Four trainX trainY testX testY) /\
    tr ++ te = order /\ nearest (f * inject_Z (Z.of_nat (alen (tp t)))) (Z.of_nat (List.length te)) /\
    subTable t tr (without (alen (tf t)) lab) trainX /\ subTable t tr lab trainY /\
    subTable t te (without (alen (tf t)) lab) testX /\ subTable t te lab testY.
Proof.
  intros W H0 H1 Hp Hc Hd Hs. destruct (halves t f order H0 H1 Hp) as [Ha Hn].
  destruct (split_ids V t f order ids lab W H0 H1 Hp Hc Hd Hs) as (a & b & c & d & He & Hx).
  exists a, b, c, d, (firstn (splitAt V t f) order), (skipn (splitAt V t f) order). tauto.
Qed.
Lemma split_obj_full t f order (o : table V) :
  wf t -> wf o -> (0 <= f)%Q -> (f <= 1)%Q -> Permutation order (seq 0 (alen (tp t))) ->
  alen (tp o) = alen (tp t) -> getNames (tp o) = getNames (tp t) ->
  exists trainX trainY testX testY tr te drop,
    trainAndTestSets t f (LObj o) order = Ok (Four trainX trainY testX testY) /\
    tr ++ te = order /\ nearest (f * inject_Z (Z.of_nat (alen (tp t)))) (Z.of_nat (List.length te)) /\
    (forall j, In j drop <-> exists s k, nth_error (getNames (tf t)) j = Some (Some s) /\
                                    nth_error (getNames (tf o)) k = Some (Some s)) /\
    subTable t tr (without (alen (tf t)) drop) trainX /\ subTable o tr (seq 0 (alen (tf o))) trainY /\
    subTable t te (without (alen (tf t)) drop) testX /\ subTable o te (seq 0 (alen (tf o))) testY.
Proof.
  intros W Wo H0 H1 Hp Hl Hnm. destruct (halves t f order H0 H1 Hp) as [Ha Hn].
  destruct (split_obj V t f order o W Wo H0 H1 Hp Hl Hnm) as (a & b & c & d & dr & He & Hx).
  exists a, b, c, d, (firstn (splitAt V t f) order), (skipn (splitAt V t f) order), dr. tauto.
Qed.
Lemma split_rejects t f order (lab : labelsArg V) :
  (~ (0 <= f)%Q \/ ~ (f <= 1)%Q -> trainAndTestSets t f lab order = Err InvalidArgumentValue) /\
  (forall o, wf t -> (0 <= f)%Q -> (f <= 1)%Q -> Permutation order (seq 0 (alen (tp t))) ->
     alen (tp o) <> alen (tp t) -> trainAndTestSets t f (LObj o) order = Err InvalidArgumentValue).
Proof.
  split.
  - intros H. unfold trainAndTestSets.
    destruct (Qle_bool 0 f) eqn:E0; destruct (Qle_bool f 1) eqn:E1; try reflexivity.
    apply Qle_bool_iff in E0. apply Qle_bool_iff in E1. tauto.
  - intros o W H0 H1 Hp Hl. unfold trainAndTestSets. rewrite fraction_check by assumption.
    destruct (split_idx V t f order H0 H1 Hp) as (N1 & N2 & R1 & R2 & _ & _). cbv zeta. fold (splitAt V t f).
    destruct (copyIds_P V t _ W N1 R1) as (a & -> & _). destruct (copyIds_P V t _ W N2 R2) as (b & -> & _).
    cbn [rbind]. apply Nat.eqb_neq in Hl. rewrite Hl. reflexivity.
Qed.
End S.
Lemma split_empty_test :
  exists (t : table nat) trainX trainY testX testY,
    wf t /\ trainAndTestSets t 0 (LIds [IdStr "y"]) [0; 1] = Ok (Four trainX trainY testX testY) /\
    getNames (tf trainX) = [Some "x"; Some "y"] /\ alen (tf trainY) = 0.
Proof.
  exists (mkTable (fresh 2) (fst (setNames (fresh 2) (AList [NStr "x"; NStr "y"]) ONone)) [[1; 2]; [3; 4]]).
  do 4 eexists. split; [|split; [vm_compute; reflexivity|split; vm_compute; reflexivity]].
  split; [reflexivity|]. split; [intros r [<-|[<-|[]]]; reflexivity|].
  split; [exact (fresh_Inv _)|apply setNames_list_Inv; exact I].
Qed.
