(** Proofs for C72: copy. *)
From Verif Require Import Base NamesModel NamesSpec NamesProofs TableModel TableSpec TableProofs TableOpsProofs MatchModel MatchSpec MatchProofs LogicModel GetSpec GetCountProofs
  IdentModel SparseModel SparseSpec SparseProofs SparseEqProofs ReshapeModel CsvTextModel CopyModel CopySpec CopyProofs CopyTextProofs CopyNimbleProofs.
From Coq Require Import List Ascii String. Import ListNotations.
Open Scope string_scope. Open Scope list_scope. Open Scope nat_scope.

Lemma list_max_In (l : list nat) : l <> [] -> In (list_max l) l.
Proof.
  induction l as [|x l IH]; intros H; [congruence|]. cbn [list_max fold_right]. fold (list_max l). destruct l as [|y l]; [left; cbn; lia|].
  destruct (Nat.max_spec x (list_max (y :: l))) as [[_ ->]|[_ ->]]; [right; apply IH; discriminate|left; auto].
Qed.
Section Main.
Variable strOf : pval -> string.
Variable floatOf : string -> option pval.
Notation copy := (CopyModel.copy strOf floatOf).

Lemma Stands_2D o t : Stands o t -> isHighObj o = false.
Proof. intros (_ & _ & _ & E & _). unfold isHighObj. rewrite E. reflexivity. Qed.
Lemma copy_2D o t to f rap : Stands o t -> Asks o to f ->
  copy o to rap false =
  match f with
  | FPyList => (o, Ok (copyPyList strOf o rap))
  | FListOfDict => (o, Ok (copyNested o true rap))
  | FDictOfList => (o, Ok (copyNested o false rap))
  | _ =>
      match copyImpl floatOf o f with
      | (o', Err e) => (o', Err e)
      | (o', Ok (CNimble c)) =>
          let c1 := if rap then mkObj (oP c) (oF c) (oDims o) (oSt c) None None None else transposeObj c in
          (o', Ok (CNimble (mkObj (oP c1) (oF c1) (oDims c1) (oSt c1) (oName o) (oAbs o) (oRel o))))
      | (o', Ok c) => (o', Ok (if rap then c else transposeRaw c))
      end
  end.
Proof.
  intros S A. apply resolve_spec in A. unfold CopyModel.copy. rewrite A, (Stands_2D o t S). cbn [andb]. reflexivity.
Qed.
Lemma copy_same o to f to' rap d1 : Asks o to f -> Asks o to' f -> copy o to rap d1 = copy o to' rap d1.
Proof. intros A B. apply resolve_spec in A, B. unfold CopyModel.copy. rewrite A, B. reflexivity. Qed.
Lemma copy_unknown o to rap d1 : (forall f, ~ Asks o to f) ->
  copy o to rap d1 = (o, Err (match to with ToOther => InvalidArgumentType | _ => InvalidArgumentValue end)).
Proof.
  intros H. unfold CopyModel.copy. destruct (resolve (kindOf o) to) as [f|e] eqn:E.
  - apply resolve_spec in E. destruct (H f E).
  - rewrite (resolve_err o to e E). reflexivity.
Qed.

(** refusals *)
Lemma copy_high_format o to f rap d1 : Asks o to f -> 2 < List.length (oDims o) ->
  (f = FListOfDict \/ f = FDictOfList \/ f = FScipy Csr \/ f = FScipy Csc \/ d1 = true \/ rap = false) -> copy o to rap d1 = (o, Err ImproperObjectAction).
Proof.
  intros A H C. apply resolve_spec in A. unfold CopyModel.copy. rewrite A. unfold isHighObj. apply Nat.ltb_lt in H. rewrite H. cbn [andb].
  destruct (isNestedOrCompressed f) eqn:E; auto. destruct C as [-> |[-> |[-> |[-> |[-> | ->]]]]]; try discriminate; auto. destruct d1; reflexivity.
Qed.
Lemma copy_1D_format o to f rap : Asks o to f -> List.length (oDims o) <= 2 -> f <> FPyList -> f <> FNpArray ->
  copy o to rap true = (o, Err InvalidArgumentValueCombination).
Proof.
  intros A H N1 N2. apply resolve_spec in A. unfold CopyModel.copy. rewrite A. unfold isHighObj. destruct (Nat.ltb_spec 2 (List.length (oDims o))); [lia|].
  cbn [andb]. destruct f; try reflexivity; congruence.
Qed.
Lemma copy_1D_shape o to f rap : Asks o to f -> List.length (oDims o) <= 2 -> f = FPyList \/ f = FNpArray -> alen (oP o) <> 1 -> alen (oF o) <> 1 ->
  copy o to rap true = (o, Err ImproperObjectAction).
Proof.
  intros A H N P F. apply resolve_spec in A. unfold CopyModel.copy. rewrite A. unfold isHighObj. destruct (Nat.ltb_spec 2 (List.length (oDims o))); [lia|].
  cbn [andb]. unfold nP, nF. rewrite (proj2 (Nat.eqb_neq _ _) P), (proj2 (Nat.eqb_neq _ _) F). destruct N as [-> | ->]; reflexivity.
Qed.
Lemma concat_one_row m f : Rectangle m 1 f -> forall j v, at_ m 0 j v -> nth_error (List.concat m) j = Some v.
Proof.
  intros [L R] j v (r & A & B). destruct m as [|r0 [|]]; try discriminate. cbn in A. injection A as <-. cbn. rewrite app_nil_r. exact B.
Qed.
Lemma concat_one_column m p : Rectangle m p 1 -> List.length (List.concat m) = p /\ forall i v, at_ m i 0 v -> nth_error (List.concat m) i = Some v.
Proof.
  revert p. induction m as [|r m IH]; intros p [L R].
  - split; auto. intros i v (r & A & _). destruct i; discriminate.
  - cbn [List.length] in L. subst p. destruct (IH (List.length m)) as [I1 I2]; [split; auto; intros; apply R; right; auto|].
    assert (Lr : List.length r = 1) by (apply R; left; auto). destruct r as [|x [|]]; try discriminate. cbn [List.concat app]. split; [cbn; lia|].
    intros [|i] v (r & A & B); cbn [nth_error] in *.
    + injection A as <-. exact B.
    + apply I2. exists r. auto.
Qed.
Lemma copy_1D o t to f rap : Stands o t -> Asks o to f -> f = FPyList \/ f = FNpArray -> alen (tp t) = 1 \/ alen (tf t) = 1 ->
  exists b l, copy o to rap true = (o, Ok (CFlat b l)) /\ (b = true <-> f = FNpArray) /\ List.length l = alen (tp t) * alen (tf t) /\
    (alen (tp t) = 1 -> forall j v, cell t 0 j = Some v -> exists w, nth_error l j = Some w /\ SameElement v w) /\
    (alen (tf t) = 1 -> forall i v, cell t i 0 = Some v -> exists w, nth_error l i = Some w /\ SameElement v w).
Proof.
  intros S A F D. set (b := match f with FNpArray => true | _ => false end).
  set (m := if b then snd (arrayOf o) else pyListOf o).
  assert (AR : Array DObj m t).
  { unfold m. destruct b; [|apply pyListOf_spec; auto]. destruct (arrayOf_spec o t S) as [R C]. split; auto. intros i j v X. destruct (C i j v X) as (w & ? & ? & _). exists w. cbn. auto. }
  pose proof S as (W & EP & EF & _ & _).
  assert (E : copy o to rap true = (o, Ok (copy1D o b))).
  { pose proof A as A'. apply resolve_spec in A'. unfold CopyModel.copy. rewrite A', (Stands_2D o t S). cbn [andb]. unfold nP, nF. rewrite EP, EF.
    assert (G : negb (alen (tp t) =? 1) && negb (alen (tf t) =? 1) = false) by (destruct D as [-> | ->]; cbn; [reflexivity|apply andb_false_r]). rewrite G.
    unfold b. destruct F as [-> | ->]; reflexivity. }
  rewrite E. unfold copy1D. destruct AR as [R C].
  exists b. destruct (isEmpty o) eqn:Em.
  - apply isEmpty_spec in Em. unfold nP, nF in Em. rewrite EP, EF in Em. exists []. split; auto. split; [unfold b; destruct F as [-> | ->]; split; congruence|].
    split; [cbn; destruct Em as [-> | ->]; lia|]. split; intros _ k v X; destruct (cell_none_empty t W Em _ _ _ X).
  - exists (List.concat m). split; auto. split; [unfold b; destruct F as [-> | ->]; split; congruence|]. split; [|split].
    + destruct D as [D|D].
      * rewrite D. destruct R as [L R]. rewrite D in L. destruct m as [|r [|]]; try discriminate. cbn. rewrite app_nil_r, (R r) by (left; auto). lia.
      * rewrite D in *. rewrite (proj1 (concat_one_column m _ R)). lia.
    + intros D1 j v X. rewrite D1 in R. destruct (C _ _ _ X) as (w & Y & Z & _). exists w. split; auto. eapply concat_one_row; eauto.
    + intros D1 i v X. rewrite D1 in R. destruct (C _ _ _ X) as (w & Y & Z & _). exists w. split; auto. eapply (proj2 (concat_one_column m _ R)); eauto.
Qed.

(** arrays *)
Lemma Array_Shows d a t b rap : Array d a t ->
  Shows t rap (if rap then CArray b (alen (tp t)) (alen (tf t)) a else transposeRaw (CArray b (alen (tp t)) (alen (tf t)) a)).
Proof.
  intros [R C]. destruct rap; cbn [transposeRaw].
  - split; [split; [reflexivity|split; [reflexivity|exact R]]|]. intros i j v X. destruct (C i j v X) as (w & ? & ? & _). exists w. cbn. auto.
  - destruct (transpose_at a _ _ R) as [R' T]. split; [split; [reflexivity|split; [reflexivity|exact R']]|]. intros i j v X. destruct (C i j v X) as (w & ? & ? & _). exists w. split; auto. cbn. auto.
Qed.
Lemma copy_array o t to f rap : Stands o t -> Asks o to f -> f = FNpArray \/ f = FNpMatrix ->
  exists c, copy o to rap false = (o, Ok c) /\ IsA f c /\ Shows t rap c.
Proof.
  intros S A F. rewrite (copy_2D o t to f rap S A). pose proof (arrayOf_spec o t S) as AR. pose proof S as (_ & EP & EF & _).
  unfold copyImpl. destruct (arrayOf o) as [d a]. cbn [fst snd] in AR. unfold nP, nF. rewrite EP, EF.
  destruct F as [-> | ->].
  - exists (if rap then CArray false (alen (tp t)) (alen (tf t)) a else transposeRaw (CArray false (alen (tp t)) (alen (tf t)) a)).
    split; [destruct rap; reflexivity|]. split; [destruct rap; exact I|]. exact (Array_Shows d a t false rap AR).
  - exists (if rap then CArray true (alen (tp t)) (alen (tf t)) a else transposeRaw (CArray true (alen (tp t)) (alen (tf t)) a)).
    split; [destruct rap; reflexivity|]. split; [destruct rap; exact I|]. exact (Array_Shows d a t true rap AR).
Qed.

(** pandas *)
Lemma copy_pandas o t to rap : Stands o t -> Asks o to FPandas ->
  exists ix cs p f m, copy o to rap false = (o, Ok (CFrame ix cs p f m)) /\ Shows t rap (CFrame ix cs p f m) /\
    (kindOf o <> IdentModel.KList \/ (0 < alen (tp t) /\ 0 < alen (tf t)) ->
     ix = getNamesNoGeneration (if rap then tp t else tf t) /\ cs = getNamesNoGeneration (if rap then tf t else tp t)).
Proof.
  intros S A. rewrite (copy_2D o t to FPandas rap S A). pose proof (arrayOf_spec o t S) as AR. destruct (Stands_StoreOK o t S) as [OK CC]. pose proof S as (W & EP & EF & _ & ST).
  assert (EE : isEmpty o = true <-> alen (tp t) = 0 \/ alen (tf t) = 0) by (rewrite isEmpty_spec; unfold nP, nF; rewrite EP, EF; reflexivity).
  assert (G : exists ns m, pandasOf o = CFrame (fst ns) (snd ns) (alen (tp t)) (alen (tf t)) m /\ Array DObj m t /\
     (kindOf o <> IdentModel.KList \/ (0 < alen (tp t) /\ 0 < alen (tf t)) -> ns = (getNamesNoGeneration (tp t), getNamesNoGeneration (tf t)))).
  { assert (AO : Array DObj (snd (arrayOf o)) t) by (destruct AR as [R C]; split; auto; intros i j v X; destruct (C i j v X) as (w & ? & ? & _); exists w; cbn; auto).
    unfold pandasOf, nP, nF, kindOf. rewrite EP, EF. destruct (oSt o) as [m|d m|ds m|d c] eqn:EO.
    - destruct (isEmpty o) eqn:E.
      + exists (None, None), (emptyRows (alen (tp t)) (alen (tf t))). split; auto. split.
        * split; [apply emptyRows_rect|]. intros i j v X. destruct (cell_none_empty t W (proj1 EE eq_refl) _ _ _ X).
        * intros [X|X]; [congruence|]. pose proof (proj1 EE eq_refl). lia.
      + eexists (_, _), _. split; [reflexivity|]. split; auto.
    - eexists (_, _), _. split; [reflexivity|]. split; auto.
    - eexists (_, _), _. split; [reflexivity|]. split; auto. destruct ST as (-> & _ & _). apply rows_same; auto. intros; exact I.
    - eexists (_, _), _. split; [reflexivity|]. split; auto. }
  destruct G as (ns & m & E & [R C] & N). unfold copyImpl. destruct (arrayOf o) as [d a]. rewrite E. destruct rap; cbn [transposeRaw].
  - exists (fst ns), (snd ns), (alen (tp t)), (alen (tf t)), m. split; auto. split.
    + split; [split; [reflexivity|split; [reflexivity|exact R]]|]. intros i j v X. destruct (C i j v X) as (w & ? & ? & _). exists w. cbn. auto.
    + intros X. rewrite (N X). auto.
  - destruct (transpose_at m _ _ R) as [R' T]. exists (snd ns), (fst ns), (alen (tf t)), (alen (tp t)), (transposeRows (alen (tf t)) m). split; auto. split.
    + split; [split; [reflexivity|split; [reflexivity|exact R']]|]. intros i j v X. destruct (C i j v X) as (w & ? & ? & _). exists w. split; auto. cbn. auto.
    + intros X. rewrite (N X). auto.
Qed.

(** nested lists *)
Lemma copy_list o t to : Stands o t -> Asks o to FPyList ->
  exists l, copy o to true false = (o, Ok (CList l)) /\ Shows t true (CList l) /\
    (kindOf o = IdentModel.KList \/ kindOf o = KMatrix -> l = rows t).
Proof.
  intros S A. rewrite (copy_2D o t to FPyList true S A). pose proof (pyListOf_spec o t S) as [R C]. exists (pyListOf o). split; auto. split.
  - split; [exact R|]. intros i j v X. destruct (C i j v X) as (w & ? & ? & _). exists w. cbn. auto.
  - destruct S as (_ & _ & _ & _ & S). unfold kindOf, pyListOf. destruct (oSt o); intros [H|H]; try discriminate; auto. destruct S; auto.
Qed.
Lemma npArray_keeps m :
  (forall v, In v (List.concat m) -> forall s, v <> PStr s) \/ (forall v, In v (List.concat m) -> exists s, v = PStr s) \/ In PNone (List.concat m) ->
  exists g, npArray strOf m = map (map g) m /\ forall v, In v (List.concat m) -> SameElement v (g v).
Proof.
  intros U. unfold npArray. set (k := list_max _). exists (npCast strOf k). split; auto.
  assert (MX : forall v, In v (List.concat m) -> npKind v <= k).
  { intros v I. unfold k. apply (proj1 (Forall_forall _ _) (proj1 (list_max_le _ _) (le_n _))). apply in_map. exact I. }
  assert (K4 : 4 <= k -> forall v, npCast strOf k v = v) by (intros H v; do 4 (destruct k; [lia|]); reflexivity).
  intros v I. destruct U as [U|[U|U]].
  - assert (KN : k <> 3).
    { intros K. assert (G : exists u, In u (List.concat m) /\ npKind u = k).
      { unfold k. assert (NE : map npKind (List.concat m) <> []) by (intros X; apply map_eq_nil in X; rewrite X in I; destruct I).
        pose proof (list_max_In _ NE) as Y. apply in_map_iff in Y. destruct Y as (u & Y1 & Y2). exists u. auto. }
      destruct G as (u & I' & E). rewrite K in E. destruct u; try discriminate. exact (U _ I' _ eq_refl). }
    specialize (MX v I). destruct v; cbn [npKind] in MX; destruct k as [|[|[|[|k']]]]; try lia; cbn [npCast]; try apply same_refl; try congruence;
      try (left; destruct b; (eapply same_num; [constructor|constructor|reflexivity])); try (left; eapply same_num; [constructor|constructor|reflexivity]).
  - destruct (U v I) as [s ->]. specialize (MX _ I). cbn [npKind] in MX. destruct k as [|[|[|[|k']]]]; try lia; apply same_refl.
  - rewrite K4; [apply same_refl|]. exact (MX _ U).
Qed.
End Main.
