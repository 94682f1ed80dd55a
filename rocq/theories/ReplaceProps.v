(** C79: points.replace and features.replace. Definitions used in the statements:
    ReplaceSpec.v (TableSpec.keyOf, NamesSpec.Denotes, RawSpec.NamesFit). *)
From Verif Require Import Base NamesModel NamesSpec TableModel TableSpec MatchModel MatchSpec GetSpec CopyModel CopySpec TypedModel TypedSpec RawSpec TableProofs ReplaceModel ReplaceSpec ReplaceProofs ReplaceMatProofs StretchProps.
From Coq Require Import List Lia Ascii String Arith ZArith. Import ListNotations.
Open Scope string_scope.
Open Scope list_scope.
Open Scope nat_scope.

(** *** Either vector k of the data stands at the k-th location (the last one that was
    given for a place counts), everything else and all names are as before; or the call
    was refused for a reason and nothing has changed at all. Locations are those given,
    or all of them if the data has the shape of the object, or those with the names of
    the data. *)
Theorem C79_replace_partial :
  forall V sd (t : table V) src locs, wf t -> SourceWf src ->
  exists t' res, replaceCall sd t src locs = (t', res) /\
    match res with
    | Ok _ => exists d idx, DataOf sd src d /\ Places sd t d locs idx /\ Fit sd t d idx /\ Assigned sd idx d t t'
    | Err e => t' = t /\ Refused sd t src locs e
    end.
Proof. intros V. exact replace_main. Qed.
Print Assumptions C79_replace_partial.
(** *** A nimble object with as many vectors as there are locations, of the right
    length, is always accepted. *)
Theorem C79_accepts :
  forall V sd (t d : table V) locs idx, wf t -> wf d -> Places sd t d locs idx -> Fit sd t d idx ->
  exists t', replaceCall sd t (SrcObj d false) locs = (t', Ok tt) /\ Assigned sd idx d t t'.
Proof. intros V. exact replace_accepts. Qed.
Print Assumptions C79_accepts.
(** *** Data of the shape of the object replaces all elements; the names stay. *)
Theorem C79_everything :
  forall V sd (t d : table V), wf t -> wf d -> SameShape t d -> 0 < alen (tp t) -> 0 < alen (tf t) ->
  exists t', replaceCall sd t (SrcObj d false) None = (t', Ok tt) /\ wf t' /\
    getNames (tp t') = getNames (tp t) /\ getNames (tf t') = getNames (tf t) /\ forall i j, cell t' i j = cell d i j.
Proof. intros V. exact replace_everything. Qed.
Print Assumptions C79_everything.
(** *** In the array of a Matrix object the same holds up to the conversion of the
    elements to one type (None becomes NaN among numbers), and the assignment never
    fails half-way. *)
Theorem C79_matrix :
  forall floatOf intOf points p f locs data x,
  MatOK x p f -> 0 < along points p f -> (forall i, In i locs -> i < across points p f) -> List.length locs = List.length data ->
  (forall r, In r data -> List.length r = along points p f) ->
  exists x', matReplace floatOf intOf points p f locs data x = (x', Ok tt) /\ MatOK x' p f /\
    (forall i k r j v, LastAt locs i k -> nth_error data k = Some r -> nth_error r j = Some v ->
       exists w, inVector points (snd x') i j w /\ Returned v w) /\
    (forall i j v, i < across points p f -> ~ In i locs -> inVector points (snd x) i j v -> exists w, inVector points (snd x') i j w /\ SameElement v w).
Proof. exact mat_replace. Qed.
Print Assumptions C79_matrix.
(** *** An object with one feature cannot be given its points as a list, array or the
    like (nor one with one point its features): the column is taken for a row. *)
Theorem C79_column_refuted :
  forall V sd (t d0 : table V) pn fn locs, wf t -> wf d0 -> alen (offax sd t) = 1 -> Lengthwise sd d0 ->
  exists e, replaceCall sd t (SrcRaw (Ok d0) pn fn) locs = (t, Err e).
Proof.
  intros V sd t d0 pn fn locs W W0 O L. destruct (replace_main sd t (SrcRaw (Ok d0) pn fn) locs W W0) as (t' & res & E & H).
  destruct res as [u|e]; [exfalso|destruct H as (-> & _); exists e; exact E].
  destruct H as (d & idx & D & _ & (F1 & F2) & _). inversion D as [|d0' d1 d' pn' fn' Or Wd _ X1 X2 _ _]; subst.
  destruct Or as [(_ & _ & A & B & _)|(N & _)]; [|exact (N L)]. destruct L as (L1 & L2).
  assert (I : idx <> []). { intros ->. destruct sd; cbn in *; lia. } destruct (F2 I) as (G & _). destruct sd; cbn in *; lia.
Qed.
Print Assumptions C79_column_refuted.
(** *** Matching names are not followed when the data has as many points as the object. *)
Definition ex79t : table pval := tab57 [Some "a"; Some "b"] [Some "x"] [[PInt 1]; [PInt 2]].
Definition ex79d : table pval := tab57 [Some "b"; Some "a"] [Some "x"] [[PInt 20]; [PInt 10]].
Theorem C79_names_ignored_refuted :
  exists (t d t' : table pval), wf t /\ wf d /\ replaceCall Pts t (SrcObj d false) None = (t', Ok tt) /\
    nth_error (getNames (tp t')) 0 = Some (Some "a") /\ nth_error (getNames (tp d)) 1 = Some (Some "a") /\ cell t' 0 0 <> cell d 1 0.
Proof.
  exists ex79t, ex79d. eexists. split; [apply tab57_wf; [reflexivity|intros r [<-|[<-|[]]]; reflexivity]|].
  split; [apply tab57_wf; [reflexivity|intros r [<-|[<-|[]]]; reflexivity]|].
  split; [vm_compute; reflexivity|]. split; [vm_compute; reflexivity|]. split; [vm_compute; reflexivity|]. vm_compute. discriminate.
Qed.
Print Assumptions C79_names_ignored_refuted.

(** ** Concrete cases *)
Definition ex79o : table pval := tab57 [Some "a"; Some "b"; Some "c"] [Some "x"; Some "y"] [[PInt 1; PInt 2]; [PInt 3; PInt 4]; [PInt 5; PInt 6]].
Definition ex79r : table pval := tab57 [Some "c"; Some "a"] [None; None] [[PStr "s"; PNone]; [PInt 8; PInt 9]].
Example ex79_wf : wf ex79o /\ wf ex79r.
Proof. split; apply tab57_wf; try reflexivity; intros r H; cbn in H; intuition (subst; reflexivity). Qed.
(** by name *)
Example ex79_names : Places Pts ex79o ex79r None [2; 0] /\ Fit Pts ex79o ex79r [2; 0].
Proof.
  split; [|split; [reflexivity|intros _; split; [reflexivity|cbn; lia]]]. apply pl_names.
  - intros (H & _). vm_compute in H. discriminate.
  - vm_compute. discriminate.
  - vm_compute. discriminate.
  - vm_compute. repeat (constructor; [eexists; split; reflexivity|]). constructor.
Qed.
Example ex79_run : rows (fst (replaceCall Pts ex79o (SrcObj ex79r false) None)) = [[PInt 8; PInt 9]; [PInt 3; PInt 4]; [PStr "s"; PNone]].
Proof. vm_compute. reflexivity. Qed.
(** the same place twice: the last one counts *)
Example ex79_twice : rows (fst (replaceCall Pts ex79o (SrcObj ex79r false) (Some [IdInt (-1); IdStr "c"]))) = [[PInt 1; PInt 2]; [PInt 3; PInt 4]; [PInt 8; PInt 9]].
Proof. vm_compute. reflexivity. Qed.
(** a list for a feature is turned into a column and named *)
Example ex79_feature : rows (fst (replaceCall Fts ex79o (SrcRaw (Ok (tab57 [None] [None; None; None] [[PInt 7; PInt 8; PInt 9]])) None (Some (Some [Some "y"]))) None))
  = [[PInt 1; PInt 7]; [PInt 3; PInt 8]; [PInt 5; PInt 9]].
Proof. vm_compute. reflexivity. Qed.
Example ex79_refused : snd (replaceCall Pts ex79o (SrcObj ex79r false) (Some [IdStr "a"])) = Err InvalidArgumentValue.
Proof. vm_compute. reflexivity. Qed.
Example ex79_mat : MatOK (DInt, [[PInt 1; PInt 2]; [PInt 3; PInt 4]]) 2 2 /\
  matReplace (fun _ => None) (fun _ => None) true 2 2 [1] [[PNone; PInt 7]] (DInt, [[PInt 1; PInt 2]; [PInt 3; PInt 4]]) =
    ((DFloat, [[PFloat 1; PFloat 2]; [PNaN; PFloat 7]]), Ok tt).
Proof.
  split; [|vm_compute; reflexivity]. split.
  - split; [reflexivity|]. intros r H; cbn in H; intuition (subst; reflexivity).
  - intros i j v (r & R & H). destruct i as [|[|[|i]]]; cbn in R; try discriminate; injection R as <-; destruct j as [|[|[|j]]]; cbn in H; try discriminate; injection H as <-; exact (ex_intro _ _ eq_refl).
Qed.
