(** C72: copies to other formats. *)
From Verif Require Import Base NamesModel NamesSpec NamesProofs TableModel TableSpec MatchModel MatchSpec GetSpec IdentModel SparseModel SparseSpec CsvTextModel StretchProps
  CopyModel CopySpec CopyProofs CopyTextProofs CopyNimbleProofs CopyMainProofs CopyRawProofs CopyMoreProofs.
From Coq Require Import List Ascii String. Import ListNotations.
Open Scope string_scope. Open Scope list_scope. Open Scope nat_scope.

(** ** The argument [to] *)
(** Two ways to ask for one format give the same copy. *)
Theorem C72_spelling : forall strOf floatOf o to to' f rap d1, Asks o to f -> Asks o to' f ->
  copy strOf floatOf o to rap d1 = copy strOf floatOf o to' rap d1.
Proof. exact (fun strOf floatOf o to to' f rap d1 A B => copy_same strOf floatOf o to f to' rap d1 A B). Qed.
Print Assumptions C72_spelling.
Theorem C72_unknown_format : forall strOf floatOf o to rap d1, (forall f, ~ Asks o to f) ->
  copy strOf floatOf o to rap d1 = (o, Err (match to with ToOther => InvalidArgumentType | _ => InvalidArgumentValue end)).
Proof. exact copy_unknown. Qed.
Print Assumptions C72_unknown_format.
Theorem C72_high_refused : forall strOf floatOf o to f rap d1, Asks o to f -> 2 < List.length (oDims o) ->
  (f = FListOfDict \/ f = FDictOfList \/ f = FScipy Csr \/ f = FScipy Csc \/ d1 = true \/ rap = false) ->
  copy strOf floatOf o to rap d1 = (o, Err ImproperObjectAction).
Proof. exact copy_high_format. Qed.
Print Assumptions C72_high_refused.

(** ** outputAs1D *)
Theorem C72_flat_format : forall strOf floatOf o to f rap, Asks o to f -> List.length (oDims o) <= 2 -> f <> FPyList -> f <> FNpArray ->
  copy strOf floatOf o to rap true = (o, Err InvalidArgumentValueCombination).
Proof. exact copy_1D_format. Qed.
Print Assumptions C72_flat_format.
Theorem C72_flat_shape : forall strOf floatOf o to f rap, Asks o to f -> List.length (oDims o) <= 2 -> f = FPyList \/ f = FNpArray ->
  alen (oP o) <> 1 -> alen (oF o) <> 1 -> copy strOf floatOf o to rap true = (o, Err ImproperObjectAction).
Proof. exact copy_1D_shape. Qed.
Print Assumptions C72_flat_shape.
Theorem C72_flat : forall strOf floatOf o t to f rap, Stands o t -> Asks o to f -> f = FPyList \/ f = FNpArray -> alen (tp t) = 1 \/ alen (tf t) = 1 ->
  exists b l, copy strOf floatOf o to rap true = (o, Ok (CFlat b l)) /\ (b = true <-> f = FNpArray) /\ List.length l = alen (tp t) * alen (tf t) /\
    (alen (tp t) = 1 -> forall j v, cell t 0 j = Some v -> exists w, nth_error l j = Some w /\ SameElement v w) /\
    (alen (tf t) = 1 -> forall i v, cell t i 0 = Some v -> exists w, nth_error l i = Some w /\ SameElement v w).
Proof. exact copy_1D. Qed.
Print Assumptions C72_flat.

(** ** Arrays, pandas, lists *)
Theorem C72_array : forall strOf floatOf o t to f rap, Stands o t -> Asks o to f -> f = FNpArray \/ f = FNpMatrix ->
  exists c, copy strOf floatOf o to rap false = (o, Ok c) /\ IsA f c /\ Shows t rap c.
Proof. exact copy_array. Qed.
Print Assumptions C72_array.
Theorem C72_pandas_partial : forall strOf floatOf o t to rap, Stands o t -> Asks o to FPandas ->
  exists ix cs p f m, copy strOf floatOf o to rap false = (o, Ok (CFrame ix cs p f m)) /\ Shows t rap (CFrame ix cs p f m) /\
    (kindOf o <> IdentModel.KList \/ (0 < alen (tp t) /\ 0 < alen (tf t)) ->
     ix = getNamesNoGeneration (if rap then tp t else tf t) /\ cs = getNamesNoGeneration (if rap then tf t else tp t)).
Proof. exact copy_pandas. Qed.
Print Assumptions C72_pandas_partial.
Theorem C72_list : forall strOf floatOf o t to, Stands o t -> Asks o to FPyList ->
  exists l, copy strOf floatOf o to true false = (o, Ok (CList l)) /\ Shows t true (CList l) /\
    (kindOf o = IdentModel.KList \/ kindOf o = KMatrix -> l = rows t).
Proof. exact copy_list. Qed.
Print Assumptions C72_list.
Theorem C72_list_turned_partial : forall strOf floatOf o t to, Stands o t -> Asks o to FPyList -> Uniform t -> 0 < alen (tp t) ->
  exists l, copy strOf floatOf o to false false = (o, Ok (CList l)) /\ Shows t false (CList l).
Proof. exact copy_list_turned. Qed.
Print Assumptions C72_list_turned_partial.

(** ** scipy *)
Theorem C72_coo_partial : forall strOf floatOf o t to rap, Stands o t -> Asks o to (FScipy Coo) -> (kindOf o = KSparse \/ Solid t) ->
  exists c, copy strOf floatOf o to rap false = (o, Ok c) /\ IsA (FScipy Coo) c /\ Shows t rap c.
Proof. exact copy_coo. Qed.
Print Assumptions C72_coo_partial.
Theorem C72_compressed_partial : forall strOf floatOf o t to sp rap, Stands o t -> Asks o to (FScipy sp) -> sp <> Coo -> FloatOf floatOf -> NumberTexts floatOf t ->
  (kindOf o = IdentModel.KList -> forall v, isCell t v -> v <> PNone /\ forall s, v <> PStr s) ->
  (kindOf o = IdentModel.KList \/ kindOf o = KDataFrame -> Unmixed t) ->
  exists c, copy strOf floatOf o to rap false = (o, Ok c) /\
    IsA (FScipy (if rap then sp else match sp with Csr => Csc | _ => Csr end)) c /\ ShowsBy (AsFloat floatOf) t rap c.
Proof. exact copy_compressed. Qed.
Print Assumptions C72_compressed_partial.
Theorem C72_compressed_text_refused : forall strOf floatOf o t to sp rap s, Stands o t -> Asks o to (FScipy sp) -> sp <> Coo ->
  isCell t (PStr s) -> floatOf s = None -> s <> "" ->
  copy strOf floatOf o to rap false = (o, Err (match kindOf o with IdentModel.KList => TypeErr | _ => ValueErr end)).
Proof.
  intros strOf floatOf o t to sp rap s S A NC IC F NE. destruct (kindOf o) eqn:K.
  - exact (copy_list_refused strOf floatOf o t to sp rap s S A NC K IC NE).
  - apply (copy_text_refused strOf floatOf o t to sp rap s S A NC); auto. congruence.
  - apply (copy_text_refused strOf floatOf o t to sp rap s S A NC); auto. congruence.
  - apply (copy_text_refused strOf floatOf o t to sp rap s S A NC); auto. congruence.
Qed.
Print Assumptions C72_compressed_text_refused.

(** ** Dictionaries *)
Theorem C72_list_of_dict_partial : forall strOf floatOf o t to rap, Stands o t -> Asks o to FListOfDict -> NoDup (columnNames t rap) ->
  exists l, copy strOf floatOf o to rap false = (o, Ok (CDicts l)) /\ List.length l = alen (if rap then tp t else tf t) /\
    forall i d, nth_error l i = Some d -> dkeys d = columnNames t rap /\
      forall j n v, nth_error (columnNames t rap) j = Some n -> turned t rap i j = Some v -> exists w, dget n d = Some w /\ SameElement v w.
Proof. exact copy_dicts. Qed.
Print Assumptions C72_list_of_dict_partial.
Theorem C72_dict_of_list_partial : forall strOf floatOf o t to rap, Stands o t -> Asks o to FDictOfList -> NoDup (columnNames t rap) ->
  exists d, copy strOf floatOf o to rap false = (o, Ok (CDictOf d)) /\ dkeys d = columnNames t rap /\
    forall j n, nth_error (columnNames t rap) j = Some n -> exists col, dget n d = Some col /\ List.length col = alen (if rap then tp t else tf t) /\
      forall i v, turned t rap i j = Some v -> exists w, nth_error col i = Some w /\ SameElement v w.
Proof. exact copy_dict_of. Qed.
Print Assumptions C72_dict_of_list_partial.

(** ** Nimble objects *)
Theorem C72_nimble_partial : forall strOf floatOf o t to k rap, Stands o t -> Asks o to (FNimble k) ->
  (k = KSparse -> kindOf o <> KSparse -> ~ isCell t (PStr "")) ->
  exists c t', snd (copy strOf floatOf o to rap false) = Ok (CNimble c) /\ kindOf c = k /\ Stands c t' /\
    oName c = oName o /\ oAbs c = oAbs o /\ oRel c = oRel o /\
    alen (tp t') = alen (if rap then tp t else tf t) /\ alen (tf t') = alen (if rap then tf t else tp t) /\
    getNames (tp t') = getNames (if rap then tp t else tf t) /\ getNames (tf t') = getNames (if rap then tf t else tp t) /\
    forall i j v, cell t i j = Some v -> exists w, turned t' rap i j = Some w /\ Relate k o v w.
Proof.
  intros strOf floatOf o t to k rap S A N. destruct (copy_nimble strOf floatOf o t to k rap S A N) as (o' & c & t' & E & _ & H). exists c, t'. rewrite E. split; auto.
Qed.
Print Assumptions C72_nimble_partial.
Theorem C72_there_and_back_partial : forall strOf floatOf o t to back k rap, Stands o t -> Asks o to (FNimble k) -> (k = KSparse \/ kindOf o = KSparse -> Solid t) ->
  exists c, snd (copy strOf floatOf o to rap false) = Ok (CNimble c) /\
  (Asks c back (FNimble (kindOf o)) -> exists c' t', snd (copy strOf floatOf c back rap false) = Ok (CNimble c') /\ kindOf c' = kindOf o /\ Stands c' t' /\
    oName c' = oName o /\ oAbs c' = oAbs o /\ oRel c' = oRel o /\
    alen (tp t') = alen (tp t) /\ alen (tf t') = alen (tf t) /\ getNames (tp t') = getNames (tp t) /\ getNames (tf t') = getNames (tf t) /\
    forall i j v, cell t i j = Some v -> exists w, cell t' i j = Some w /\ SameElement v w).
Proof. exact round_trip. Qed.
Print Assumptions C72_there_and_back_partial.

(** ** The object copied *)
Theorem C72_source_partial : forall strOf floatOf o t to f rap d1, Stands o t -> Asks o to f ->
  ~ (kindOf o = KMatrix /\ f = FNimble KSparse /\ isCell t PNone) -> fst (copy strOf floatOf o to rap d1) = o.
Proof. exact copy_source. Qed.
Print Assumptions C72_source_partial.
(** In the case left out None becomes NaN in the object itself and nothing else
    changes. *)
Theorem C72_source_changes : forall strOf floatOf o t to rap, Stands o t -> Asks o to (FNimble KSparse) -> kindOf o = KMatrix ->
  Stands (fst (copy strOf floatOf o to rap false)) (mkTable (tp t) (tf t) (map (map (fun v => match v with PNone => PNaN | _ => v end)) (rows t))).
Proof. exact copy_source_changed. Qed.
Print Assumptions C72_source_changes.

(** ** Concrete objects *)
Definition ex72t : table pval := tab57 [Some "p"; None] [Some "a"; Some "b"] [[PInt 1; PFloat (5 # 2)]; [PInt 0; PFloat 0]].
Definition ex72 (s : store) : obj := mkObj (tp ex72t) (tf ex72t) [2; 2] s (Some "data") None None.
Definition ex72l := ex72 (SList (rows ex72t)).
Definition ex72f := ex72 (SFrame [DInt; DFloat] (rows ex72t)).
Definition ex72w : wf ex72t.
Proof. apply tab57_wf; [reflexivity|intros r [<-|[<-|[]]]; reflexivity]. Qed.
Lemma ex72ls : Stands ex72l ex72t.
Proof. split; [exact ex72w|]. repeat split. Qed.
Lemma ex72fs : Stands ex72f ex72t.
Proof.
  split; [exact ex72w|]. split; [reflexivity|]. split; [reflexivity|]. split; [reflexivity|]. split; [reflexivity|]. split; [reflexivity|].
  intros i j v d X E. destruct i as [|[|[]]]; destruct j as [|[|[]]]; try discriminate; injection X as <-; injection E as <-; cbn; eauto.
Qed.
Definition asked (s : string) : toArg := ToText (chars s).
Lemma asks_of o s f : resolve (kindOf o) (asked s) = Ok f -> Asks o (asked s) f.
Proof. apply resolve_spec. Qed.
Example C72_example_nimble : exists c t', snd (copy (fun _ => "") (fun _ => None) ex72l (asked "Sparse") false false) = Ok (CNimble c) /\ kindOf c = KSparse /\ Stands c t' /\
  getNames (tp t') = [Some "a"; Some "b"].
Proof.
  destruct (C72_nimble_partial (fun _ => "") (fun _ => None) ex72l ex72t (asked "Sparse") KSparse false ex72ls) as (c & t' & A & B & D & _ & _ & _ & _ & _ & N & _).
  - apply asks_of. reflexivity.
  - intros _ _ (i & j & X). destruct i as [|[|[]]]; destruct j as [|[|[]]]; discriminate.
  - exists c, t'. rewrite N. auto.
Qed.
Example C72_example_csr : exists c, copy (fun _ => "") (fun _ => None) ex72f (asked " SciPy. Csr ") true false = (ex72f, Ok c) /\ CellIs c 0 1 (PFloat (5 # 2)) /\ ~ CellIs c 1 0 (PInt 1).
Proof.
  eexists. split; [vm_compute; reflexivity|]. split; [split; [auto|split; [auto|left; cbn; auto]]|]. intros (_ & _ & [X|[X _]]); [|discriminate]. cbn in X. intuition discriminate.
Qed.
Example C72_example_compressed_hyp : FloatOf (fun s => if String.eqb s "7" then Some (PFloat 7) else None) /\ NumberTexts (fun _ => None) ex72t /\ Unmixed ex72t /\ Uniform ex72t /\ Solid ex72t /\
  NoDup (columnNames ex72t true) /\ NoDup (columnNames ex72t false).
Proof.
  split; [intros s w E; destruct (String.eqb s "7"); [injection E as <-; exact I|discriminate]|].
  assert (C : forall v, isCell ex72t v -> v = PInt 1 \/ v = PFloat (5 # 2) \/ v = PInt 0 \/ v = PFloat 0).
  { intros v (i & j & X). destruct i as [|[|[]]]; destruct j as [|[|[]]]; try discriminate; injection X as <-; auto. }
  split; [intros s X; apply C in X; intuition discriminate|]. split; [right; intros v X b ->; apply C in X; intuition discriminate|].
  split; [left; intros v X s ->; apply C in X; intuition discriminate|]. split; [split; intros X; apply C in X; intuition discriminate|].
  split; (do 2 (constructor; [cbn; intuition discriminate|])); constructor.
Qed.
Example C72_example_dicts : snd (copy (fun _ => "") (fun _ => None) ex72l (asked "list of dict") true false) =
  Ok (CDicts [[(Some "a", PFloat 1); (Some "b", PFloat (5 # 2))]; [(Some "a", PFloat 0); (Some "b", PFloat 0)]]).
Proof. reflexivity. Qed.
Example C72_example_unknown : forall f, ~ Asks ex72l (asked "numpy") f.
Proof. intros f A. apply resolve_spec in A. discriminate. Qed.

(** ** Counterexamples *)
Definition ob72 (t : table pval) (s : store) : obj := mkObj (tp t) (tf t) [alen (tp t); alen (tf t)] s None None None.
Ltac tabw72 := apply tab57_wf; [reflexivity|let r := fresh in intros r; cbn; intuition (subst; reflexivity)].
Ltac standsl := split; [tabw72|repeat split].
Lemma standsObj t : wf t -> Stands (ob72 t (SMat DObj (rows t))) t.
Proof. intros W. split; auto. repeat split; auto. Qed.
Lemma standsList t : wf t -> Stands (ob72 t (SList (rows t))) t.
Proof. intros W. split; auto. repeat split; auto. Qed.

(** rowsArePoints=False turns the numbers beside a text into text. *)
Theorem C72_list_turned_text_refuted : forall strOf floatOf, exists o t, Stands o t /\ rows t = [[PInt 1; PStr "x"]] /\
  copy strOf floatOf o (asked "python list") false false = (o, Ok (CList [[PStr (strOf (PInt 1))]; [PStr "x"]])) /\
  copy strOf floatOf o (asked "python list") true false = (o, Ok (CList [[PInt 1; PStr "x"]])).
Proof.
  intros strOf floatOf. exists (ob72 (tab57 [None] [None; None] [[PInt 1; PStr "x"]]) (SList [[PInt 1; PStr "x"]])), (tab57 [None] [None; None] [[PInt 1; PStr "x"]]).
  split; [apply standsList; tabw72|]. repeat split; reflexivity.
Qed.
(** Without points the transposed list has no rows, although there are features. *)
Theorem C72_list_turned_empty_refuted : forall strOf floatOf, exists o t, Stands o t /\ alen (tp t) = 0 /\ alen (tf t) = 2 /\
  copy strOf floatOf o (asked "python list") false false = (o, Ok (CList [])).
Proof.
  intros strOf floatOf. exists (ob72 (tab57 [] [None; None] []) (SList [])), (tab57 [] [None; None] []).
  split; [apply standsList; tabw72|]. repeat split; reflexivity.
Qed.
(** Two unnamed features: one value is lost. *)
Theorem C72_unnamed_lost_refuted : forall strOf floatOf, exists o t, Stands o t /\ rows t = [[PInt 1; PInt 2]] /\
  copy strOf floatOf o (asked "list of dict") true false = (o, Ok (CDicts [[(None, PInt 2)]])) /\
  copy strOf floatOf o (asked "dict of list") true false = (o, Ok (CDictOf [(None, [PInt 2])])).
Proof.
  intros strOf floatOf. exists (ob72 (tab57 [None] [None; None] [[PInt 1; PInt 2]]) (SList [[PInt 1; PInt 2]])), (tab57 [None] [None; None] [[PInt 1; PInt 2]]).
  split; [apply standsList; tabw72|]. repeat split; reflexivity.
Qed.
(** rowsArePoints=False: asked for csr, given csc. *)
Theorem C72_csr_turned_refuted : forall strOf floatOf, exists o t c, Stands o t /\ Asks o (asked "scipy csr") (FScipy Csr) /\
  copy strOf floatOf o (asked "scipy csr") false false = (o, Ok c) /\ IsA (FScipy Csc) c /\ ~ IsA (FScipy Csr) c.
Proof.
  intros strOf floatOf. exists ex72l, ex72t. eexists. split; [exact ex72ls|]. split; [apply asks_of; reflexivity|]. split; [vm_compute; reflexivity|]. split; [reflexivity|discriminate].
Qed.
(** A coo matrix reads 0 where the object has None or an empty text. *)
Theorem C72_coo_none_refuted : forall strOf floatOf, exists o t c, Stands o t /\ rows t = [[PNone; PStr ""; PStr "x"]] /\
  copy strOf floatOf o (asked "scipy coo") true false = (o, Ok c) /\ CellIs c 0 0 (PInt 0) /\ CellIs c 0 1 (PInt 0) /\ CellIs c 0 2 (PStr "x").
Proof.
  intros strOf floatOf. exists (ob72 (tab57 [None] [None; None; None] [[PNone; PStr ""; PStr "x"]]) (SMat DObj [[PNone; PStr ""; PStr "x"]])), (tab57 [None] [None; None; None] [[PNone; PStr ""; PStr "x"]]).
  eexists. split; [apply standsObj; tabw72|]. split; [reflexivity|]. split; [vm_compute; reflexivity|]. cbn. repeat split; auto; right; split; auto; intros w [X|[]]; discriminate.
Qed.
(** Booleans beside numbers: the List object refuses what the Matrix object does. *)
Theorem C72_csr_mixed_refuted : forall strOf floatOf, exists o o' t c, Stands o t /\ Stands o' t /\ rows t = [[PBool true; PInt 2]] /\ kindOf o = IdentModel.KList /\ kindOf o' = KMatrix /\
  copy strOf floatOf o (asked "scipy csr") true false = (o, Err TypeErr) /\ copy strOf floatOf o' (asked "scipy csr") true false = (o', Ok c).
Proof.
  intros strOf floatOf. set (t := tab57 [None] [None; None] [[PBool true; PInt 2]]).
  exists (ob72 t (SList (rows t))), (ob72 t (SMat DObj (rows t))), t. eexists. split; [apply standsList; tabw72|]. split; [apply standsObj; tabw72|].
  repeat split; reflexivity.
Qed.
(** An empty List object loses its names in a pandas DataFrame. *)
Theorem C72_pandas_empty_refuted : forall strOf floatOf, exists o o' t, Stands o t /\ Stands o' t /\ getNames (tf t) = [Some "a"] /\ kindOf o = IdentModel.KList /\ kindOf o' = KMatrix /\
  copy strOf floatOf o (asked "pandas DataFrame") true false = (o, Ok (CFrame None None 0 1 [])) /\
  copy strOf floatOf o' (asked "pandas DataFrame") true false = (o', Ok (CFrame None (Some [Some "a"]) 0 1 [])).
Proof.
  intros strOf floatOf. set (t := mkTable (fresh 0) (tf (tab57 [] [Some "a"] [])) ([] : list (list pval))).
  exists (ob72 t (SList (rows t))), (ob72 t (SMat DObj (rows t))), t.
  assert (W : wf t). { split; [reflexivity|]. split; [intros r []|]. split; [apply fresh_Inv|]. apply (tab57_wf [] [Some "a"] []); [reflexivity|intros r []]. }
  split; [apply standsList; exact W|]. split; [apply standsObj; exact W|]. repeat split; reflexivity.
Qed.
(** Copying a Matrix object to Sparse changes the Matrix object. *)
Theorem C72_source_refuted : forall strOf floatOf, exists o t o' c, Stands o t /\ rows t = [[PNone; PInt 1]] /\
  copy strOf floatOf o (asked "Sparse") true false = (o', Ok c) /\ oSt o = SMat DObj [[PNone; PInt 1]] /\ oSt o' = SMat DObj [[PNaN; PInt 1]].
Proof.
  intros strOf floatOf. set (t := tab57 [None] [None; None] [[PNone; PInt 1]]). exists (ob72 t (SMat DObj (rows t))), t. eexists _, _.
  split; [apply standsObj; tabw72|]. split; [reflexivity|]. split; [vm_compute; reflexivity|]. split; reflexivity.
Qed.
(** A text that is empty reads 0 in a Sparse copy. *)
Theorem C72_sparse_empty_text_refuted : forall strOf floatOf, exists o t c, Stands o t /\ rows t = [[PStr ""; PStr "x"]] /\
  snd (copy strOf floatOf o (asked "Sparse") true false) = Ok (CNimble c) /\ oSt c = SCoo DObj (mkSp 1 2 [mkE 0 1 (PStr "x")] None None).
Proof.
  intros strOf floatOf. set (t := tab57 [None] [None; None] [[PStr ""; PStr "x"]]). exists (ob72 t (SList (rows t))), t. eexists.
  split; [apply standsList; tabw72|]. split; [reflexivity|]. split; [vm_compute; reflexivity|]. reflexivity.
Qed.
Print Assumptions C72_list_turned_text_refuted.
Print Assumptions C72_source_refuted.
