(** C83: features.normalize. *)
From Verif Require Import Base NamesModel NamesSpec NamesProofs TableModel TableSpec TableOps NormModel NormSpec NormProofs.
From Coq Require Import String. From Coq Require Import List. Import ListNotations.
Open Scope string_scope. Open Scope list_scope. Open Scope nat_scope.

(** Without a second object the features asked for become what the function makes of
    them, in order, and the rest of the object stays; an exception comes from the function
    or from a result of another length, and the features before it are done. *)
Theorem C83_normalize_self : forall V (f : fun1 V) features only t,
  wf t -> 0 < alen (tp t) -> 0 < alen (tf t) -> Stands (tf t) features only ->
  match normalizeOne f features t with
  | (t', Ok _) => Normalized1 f only (alen (tf t)) t t'
  | (t', Err e) => exists k w, k < alen (tf t) /\ Asked only k /\ FeatureIs t k w /\ Normalized1 f only k t t' /\
      (f w = Err e \/ (e = InvalidArgumentValue /\ exists n, f w = Ok n /\ List.length n <> alen (tp t)))
  end.
Proof. exact normalizeOne_spec. Qed.
Print Assumptions C83_normalize_self.

(** It is accepted when the function gives as many elements as it was given. *)
Theorem C83_normalize_self_accepts : forall V (f : fun1 V) features only t,
  wf t -> 0 < alen (tp t) -> 0 < alen (tf t) -> Stands (tf t) features only ->
  (forall j w, Asked only j -> FeatureIs t j w -> exists n, f w = Ok n /\ List.length n = alen (tp t)) ->
  exists t', normalizeOne f features t = (t', Ok tt) /\ Normalized1 f only (alen (tf t)) t t'.
Proof. exact normalizeOne_accepts. Qed.
Print Assumptions C83_normalize_self_accepts.

(** With a second object the function is given feature j of both objects as they were
    before the call, and each object gets its own part of the result; the other features
    and all names stay.  Missing: a single identifier that is not in a list. *)
Theorem C83_normalize_both_partial : forall V (f : fun2 V) features only t1 t2,
  wf t1 -> wf t2 -> 0 < alen (tp t1) -> 0 < alen (tp t2) ->
  alen (tf t1) = alen (tf t2) -> NamesAgree (tf t1) (tf t2) ->
  (forall id, features <> FOne id) -> Stands (tf t1) features only ->
  match normalizeBoth f features t1 t2 with
  | (t1', t2', Ok _) => Normalized2 f only (alen (tf t1)) t1 t2 t1' t2'
  | (t1', t2', Err e) => exists k, k < alen (tf t1) /\ Stopped2 f only k e t1 t2 t1' t2'
  end.
Proof. exact normalizeBoth_spec. Qed.
Print Assumptions C83_normalize_both_partial.

(** It is accepted when both parts of every result fit. *)
Theorem C83_normalize_both_accepts_partial : forall V (f : fun2 V) features only t1 t2,
  wf t1 -> wf t2 -> 0 < alen (tp t1) -> 0 < alen (tp t2) ->
  alen (tf t1) = alen (tf t2) -> NamesAgree (tf t1) (tf t2) ->
  (forall id, features <> FOne id) -> Stands (tf t1) features only ->
  (forall j w1 w2, Asked only j -> FeatureIs t1 j w1 -> FeatureIs t2 j w2 ->
     exists n1 n2, f w1 w2 = Ok (n1, n2) /\ List.length n1 = alen (tp t1) /\ List.length n2 = alen (tp t2)) ->
  exists t1' t2', normalizeBoth f features t1 t2 = (t1', t2', Ok tt) /\ Normalized2 f only (alen (tf t1)) t1 t2 t1' t2'.
Proof. exact normalizeBoth_accepts. Qed.
Print Assumptions C83_normalize_both_accepts_partial.

(** Another number of features, or names that contradict each other, are refused before
    anything is changed, whatever the function and the features asked for. *)
Theorem C83_normalize_refuses : forall V (f : fun2 V) features t1 t2,
  alen (tf t1) <> alen (tf t2) \/ ~ NamesAgree (tf t1) (tf t2) ->
  normalizeBoth f features t1 t2 = (t1, t2, Err InvalidArgumentValue).
Proof. exact normalizeBoth_refuses. Qed.
Print Assumptions C83_normalize_refuses.

(** An identifier that stands for no feature of the calling object: nothing is changed,
    also when the others are right. *)
Theorem C83_normalize_unknown : forall V (f : fun2 V) ids t1 t2,
  wf t1 -> alen (tf t1) = alen (tf t2) -> NamesAgree (tf t1) (tf t2) ->
  (exists id, In id ids /\ forall i, ~ Denotes (tf t1) false id (Z.of_nat i)) ->
  exists e, normalizeBoth f (FMany ids) t1 t2 = (t1, t2, Err e).
Proof. exact normalizeBoth_unknown. Qed.
Print Assumptions C83_normalize_unknown.

(** ** the cases *)
Definition named (l : list string) : axis := fst (setNames (fresh (List.length l)) (AList (map NStr l)) ONone).
(** each object minus the first element of the calling one *)
Definition shift (a b : list nat) : result (list nat * list nat) :=
  match a with [] => Err ValueErr | x :: _ => Ok (map (fun y => y - x) a, map (fun y => y - x) b) end.
Definition train : table nat := mkTable (fresh 2) (named ["a"; "b"; "ab"]) [[1; 2; 3]; [4; 5; 6]].
Definition test : table nat := mkTable (fresh 1) (fresh 3) [[11; 12; 13]].
Lemma train_wf : wf train.
Proof. split; [reflexivity|]. split; [intros r [<-|[<-|[]]]; reflexivity|]. split; [exact I|apply setNames_list_Inv; exact I]. Qed.
Lemma test_wf : wf test.
Proof. split; [reflexivity|]. split; [intros r [<-|[]]; reflexivity|]. split; exact I. Qed.

(** One identifier, documented, raises TypeError with a second object, and is accepted
    without one. *)
Theorem C83_normalize_index_refuted :
  Stands (tf train) (FOne (IdInt 1)) (Some [1]) /\
  normalizeBoth shift (FOne (IdInt 1)) train test = (train, test, Err TypeErr) /\
  snd (normalizeOne (fun l => Ok l) (FOne (IdInt 1)) train) = Ok tt.
Proof. split; [exists 1; split; [reflexivity|left; vm_compute; intuition congruence]|]. split; vm_compute; reflexivity. Qed.
Print Assumptions C83_normalize_index_refuted.

(** One name, documented, is taken letter by letter: asked for the feature "ab", the
    features "a" and "b" are normalized and "ab" is not. *)
Theorem C83_normalize_name_refuted :
  Stands (tf train) (FOne (IdStr "ab")) (Some [2]) /\
  exists t1' t2', normalizeBoth shift (FOne (IdStr "ab")) train test = (t1', t2', Ok tt) /\
    FeatureIs t1' 0 [0; 3] /\ FeatureIs train 0 [1; 4] /\ FeatureIs t1' 2 [3; 6] /\ FeatureIs train 2 [3; 6].
Proof.
  split; [exists 2; split; [reflexivity|exists 2; split; [reflexivity|vm_compute; reflexivity]]|].
  eexists; eexists. split; [vm_compute; reflexivity|].
  repeat split; try (vm_compute; lia); try reflexivity; cbn; intros [|[|i]] H; try reflexivity; vm_compute in H; lia.
Qed.
Print Assumptions C83_normalize_name_refuted.

(** Names that were never given are no contradiction, until some feature of that object
    is looked for by a name (the lookup fails and leaves default names): the same call on
    an object that shows the same is then refused. *)
Theorem C83_normalize_names_refuted :
  let test' := mkTable (tp test) (getIndex_state (tf test) (IdStr "z")) (rows test) in
  getNames (tf test') = getNames (tf test) /\ getIndex (tf test) (IdStr "z") false = Err KeyErr /\
  snd (normalizeBoth shift FNone train test) = Ok tt /\
  normalizeBoth shift FNone train test' = (train, test', Err InvalidArgumentValue).
Proof. split; [vm_compute; reflexivity|]. split; [vm_compute; reflexivity|]. split; vm_compute; reflexivity. Qed.
Print Assumptions C83_normalize_names_refuted.

(** The hypotheses are met. *)
Example normalize_met : NamesAgree (tf train) (tf test) /\ Stands (tf train) (FMany [IdStr "ab"; IdInt (-3)]) (Some [2; 0]) /\
  normalizeBoth shift (FMany [IdStr "ab"; IdInt (-3)]) train test =
    (mkTable (tp train) (tf train) [[0; 2; 0]; [3; 5; 3]], mkTable (tp test) (tf test) [[10; 12; 10]], Ok tt).
Proof.
  split; [intros _ C; discriminate|]. split; [|vm_compute; reflexivity].
  constructor; [exists 2; split; [reflexivity|vm_compute; reflexivity]|]. constructor; [right; vm_compute; intuition congruence|constructor].
Qed.
Example normalize_fits : forall j w1 w2, FeatureIs train j w1 -> FeatureIs test j w2 ->
  exists n1 n2, shift w1 w2 = Ok (n1, n2) /\ List.length n1 = alen (tp train) /\ List.length n2 = alen (tp test).
Proof.
  intros j w1 w2 (_ & L1 & _) (_ & L2 & _). destruct w1 as [|x w1]; [discriminate|]. eexists; eexists. split; [reflexivity|]. rewrite !map_length. auto.
Qed.
(** a result of the wrong length for the second object: the first one has it already *)
Example normalize_stops : normalizeBoth (fun a _ => Ok (map S a, [])) (FMany [IdInt 1]) train test =
  (mkTable (tp train) (tf train) [[1; 3; 3]; [4; 6; 6]], test, Err InvalidArgumentValue).
Proof. vm_compute. reflexivity. Qed.
Example normalize_unknown_met : (exists id, In id [IdInt 0; IdStr "z"] /\ forall i, ~ Denotes (tf train) false id (Z.of_nat i)) /\
  normalizeBoth shift (FMany [IdInt 0; IdStr "z"]) train test = (train, test, Err KeyErr).
Proof.
  split; [|vm_compute; reflexivity]. exists (IdStr "z"). split; [right; left; reflexivity|]. intros i (k & _ & E).
  assert (HN : getNames (tf train) = [Some "a"; Some "b"; Some "ab"]) by (vm_compute; reflexivity). rewrite HN in E.
  destruct k as [|[|[|k]]]; cbn in E; try discriminate. destruct k; discriminate.
Qed.
Example normalize_refuses_met : ~ NamesAgree (tf train) (named ["a"; "b"; "c"]).
Proof. intros H. assert (E : getNames (tf train) = getNames (named ["a"; "b"; "c"])) by (apply H; vm_compute; reflexivity). vm_compute in E. discriminate. Qed.
