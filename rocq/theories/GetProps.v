(** C66: reading elements: obj[...], points[...] and features[...],
    iterateElements and countUniqueElements. *)
From Verif Require Import Base NamesModel NamesSpec TableModel TableSpec TableOps SparseModel SparseSpec ViewModel IdentModel MatchModel MatchSpec GetModel GetSpec GetProofs GetIterProofs GetCountProofs GetFrontProofs StretchProps.
From Coq Require Import Sorted QArith.
Open Scope string_scope. Open Scope list_scope. Open Scope nat_scope.

(** obj[kx, ky]: two single identifiers give the element at that position;
    anything else gives an object made of the selected points and features,
    in the order of the key, with their names. *)
Theorem C66_getitem : forall V (t : table V) kx ky xs ys, wf t -> 0 < alen (tp t) -> 0 < alen (tf t) ->
  PlainKey (tp t) kx -> PlainKey (tf t) ky -> Selects (tp t) kx xs -> Selects (tf t) ky ys ->
  if isSingle kx && isSingle ky
  then exists v x y, getItem t (GPair kx ky) = Ok (GElem v) /\ xs = [x] /\ ys = [y] /\ cell t x y = Some v
  else exists t', getItem t (GPair kx ky) = Ok (GObj t') /\ Window t t' xs ys.
Proof. exact getItem_spec. Qed.
Print Assumptions C66_getitem.
(** and nothing else is answered: a key that selects no positions raises. *)
Theorem C66_getitem_complete : forall V (t : table V) kx ky g, wf t -> 0 < alen (tp t) -> 0 < alen (tf t) ->
  PlainKey (tp t) kx -> PlainKey (tf t) ky -> getItem t (GPair kx ky) = Ok g ->
  exists xs ys, Selects (tp t) kx xs /\ Selects (tf t) ky ys.
Proof. exact getItem_complete. Qed.
Print Assumptions C66_getitem_complete.
(** A key selects at most one list of positions, all inside the axis and
    without repetition. *)
Theorem C66_selection_unique : forall a k l l', Inv a -> 0 < alen a -> PlainKey a k -> Selects a k l ->
  NoDup l /\ (forall i, In i l -> i < alen a) /\ (Selects a k l' -> l = l').
Proof.
  intros a k l l' HI Hn HP HS. destruct (Selects_range a k l HI Hn HP HS). split; auto. split; auto. intros; eapply Selects_fun; eauto.
Qed.
Print Assumptions C66_selection_unique.
(** obj[k] with one key: the other axis of a one-point (or else one-feature)
    object; otherwise a name that only one axis has; otherwise an error. *)
Theorem C66_single_key : forall V (t : table V) k,
  (alen (tp t) = 1 -> getItem t (GOne k) = getItem t (GPair (SOne (IdInt 0)) k)) /\
  (alen (tp t) <> 1 -> alen (tf t) = 1 -> getItem t (GOne k) = getItem t (GPair k (SOne (IdInt 0)))) /\
  (alen (tp t) <> 1 -> alen (tf t) <> 1 ->
     (NamesOne (tp t) k -> ~ NamesOne (tf t) k -> getItem t (GOne k) = getItem t (GPair k fullSlice)) /\
     (NamesOne (tf t) k -> ~ NamesOne (tp t) k -> getItem t (GOne k) = getItem t (GPair fullSlice k)) /\
     ((NamesOne (tp t) k <-> NamesOne (tf t) k) -> getItem t (GOne k) = Err InvalidArgumentType)).
Proof. exact @single_key. Qed.
Print Assumptions C66_single_key.
(** points[k] and features[k] *)
Theorem C66_axis_item : forall V sd (t : table V) k l, wf t -> 0 < alen (ax sd t) -> PlainKey (ax sd t) k ->
  (Selects (ax sd t) k l -> exists t', axisItem sd t k = Ok t' /\
     Window t t' (match sd with Pts => l | Fts => seq 0 (alen (tp t)) end) (match sd with Pts => seq 0 (alen (tf t)) | Fts => l end)).
Proof. exact axisItem_spec. Qed.
Print Assumptions C66_axis_item.

(** iterateElements yields the elements [only] accepts, each once, in the
    requested order ... *)
Theorem C66_iterate : forall V (t : table V) order only l, wf t -> iterateElements t order only = Ok l ->
  Visits (alen (tp t)) (alen (tf t)) (cell t) order (keeps only) l.
Proof. exact iterate_spec. Qed.
Print Assumptions C66_iterate.
Theorem C66_iterate_total : forall V (t : table V) order only, wf t ->
  (forall f i j v, only = Some f -> cell t i j = Some v -> exists b, f v = Ok b) -> exists l, iterateElements t order only = Ok l.
Proof. exact iterate_ok. Qed.
Print Assumptions C66_iterate_total.
(** ... and there is only one such list. *)
Theorem C66_iterate_determined : forall V np nf (at_ : nat -> nat -> option V) order (keep : V -> Prop) l l',
  Visits np nf at_ order keep l -> Visits np nf at_ order keep l' -> l = l'.
Proof. exact Visits_fun. Qed.
Print Assumptions C66_iterate_determined.
(** The same for Sparse, whose stored entries may be in any order and whose
    zeros may be skipped; the object still denotes the same matrix. *)
Theorem C66_sparse_iterate : forall V (zero : V) (s : sparse V) order only l, sinv zero s ->
  snd (sparseIterate zero s order only) = Ok l ->
  Visits (snp s) (snf s) (fun i j => Some (SparseSpec.val zero s i j)) order (keeps only) l /\
  sinv zero (fst (sparseIterate zero s order only)) /\ sameMatrix zero s (fst (sparseIterate zero s order only)).
Proof. exact @sparseIterate_spec. Qed.
Print Assumptions C66_sparse_iterate.
Theorem C66_sparse_iterate_total : forall V (zero : V) (s : sparse V) order only, sinv zero s ->
  (forall f, only = Some f -> (exists b, f zero = Ok b) /\ forall i j, i < snp s -> j < snf s -> exists b, f (SparseSpec.val zero s i j) = Ok b) ->
  exists l, snd (sparseIterate zero s order only) = Ok l.
Proof. exact @sparseIterate_ok. Qed.
Print Assumptions C66_sparse_iterate_total.
Theorem C66_sparse_dense_agree : forall V (zero : V) (s : sparse V) (t : table V) order only l l', sinv zero s -> wf t ->
  alen (tp t) = snp s -> alen (tf t) = snf s -> (forall i j, i < snp s -> j < snf s -> cell t i j = Some (SparseSpec.val zero s i j)) ->
  snd (sparseIterate zero s order only) = Ok l -> iterateElements t order only = Ok l' -> l = l'.
Proof. exact @sparse_dense_iterate. Qed.
Print Assumptions C66_sparse_dense_agree.
(** Refutation: a Sparse object calls [only] with 0 even if it contains no 0,
    so an [only] that accepts every element may still raise. *)
Theorem C66_sparse_only_zero_refuted : exists (s : sparse Z) f,
  sinv 0%Z s /\ (forall i j, i < snp s -> j < snf s -> f (SparseSpec.val 0%Z s i j) = Ok true) /\
  snd (sparseIterate 0%Z s Pts (Some f)) = Err ZeroDiv.
Proof.
  exists (mkSp 1 1 [mkE 0 0 5%Z] None None), (fun z => if (z =? 0)%Z then Err ZeroDiv else Ok true).
  split; [|split].
  - split; [split|]; cbn.
    + constructor; [auto|constructor].
    + intros e [<-|[]]. cbn. lia.
    + reflexivity.
  - intros [|i] [|j]; cbn; intros; try lia. reflexivity.
  - reflexivity.
Qed.
Print Assumptions C66_sparse_only_zero_refuted.

(** countUniqueElements: every element of the selected window is counted once,
    under one key (equal elements, and all NaNs, share a key).  Missing from
    the full claim: two single identifiers, distinct NaN objects and empty
    selections in data of no numeric type (refuted below). *)
Theorem C66_count_partial : forall numeric (t : table ovalue) points features xs ys, wf t -> 0 < alen (tp t) -> 0 < alen (tf t) ->
  (forall k, points = Some k -> PlainKey (tp t) k) -> (forall k, features = Some k -> PlainKey (tf t) k) ->
  Chosen (tp t) points xs -> Chosen (tf t) features ys ->
  ~ (exists x y, points = Some (SOne x) /\ features = Some (SOne y)) ->
  (numeric = true -> forall i j v, cell t i j = Some v -> Numeric (fst v)) ->
  (numeric = false -> xs <> [] /\ ys <> [] /\
     forall i j i' j' n m, cell t i j = Some (PNaN, n) -> cell t i' j' = Some (PNaN, m) -> n = m) ->
  exists d l, countUnique numeric t points features = Ok d /\
    Forall2 (fun p v => cell t (fst p) (snd p) = Some v) (list_prod xs ys) l /\ CountsOf (map fst l) d.
Proof. exact countUnique_spec. Qed.
Print Assumptions C66_count_partial.
(** Sparse counts the positions without a stored value under 0. *)
Theorem C66_sparse_count_partial : forall numeric (s : sparse ovalue) z, NoDup (map (fun e => (er e, ec e)) (ents s)) ->
  (forall e, In e (ents s) -> er e < snp s /\ ec e < snf s /\ ~ Same (fst (ev e)) (PInt 0)) ->
  (numeric = true -> forall e, In e (ents s) -> Numeric (fst (ev e))) ->
  (numeric = false -> OneNaN (map (@ev ovalue) (ents s)) /\ ents s <> []) ->
  exists d, sparseCount numeric s = Ok d /\
    CountsOf (map (fun p => fst (SparseSpec.val (PInt 0, z) s (fst p) (snd p))) (list_prod (seq 0 (snp s)) (seq 0 (snf s)))) d.
Proof. intros numeric s z A B C D. rewrite <- positions_prod. exact (sparseCount_spec numeric s z A B C D). Qed.
Print Assumptions C66_sparse_count_partial.
(** Refutation: selecting one element is an AttributeError. *)
Theorem C66_count_one_element_refuted : exists t : table ovalue, wf t /\ Chosen (tp t) (Some (SOne (IdInt 0))) [0] /\
  Chosen (tf t) (Some (SOne (IdInt 0))) [0] /\
  countUnique true t (Some (SOne (IdInt 0))) (Some (SOne (IdInt 0))) = Err AttributeErr.
Proof.
  exists (mkTable (fresh 2) (fresh 2) [[(PInt 1, 0); (PInt 2, 0)]; [(PInt 3, 0); (PInt 4, 0)]]).
  split; [split; [reflexivity|]; split; [intros r [<-|[<-|[]]]; reflexivity|split; exact Logic.I]|].
  split; [constructor; cbn; lia|]. split; [constructor; cbn; lia|]. reflexivity.
Qed.
Print Assumptions C66_count_one_element_refuted.
(** Refutation: NaN objects that are not the same object are counted apart in
    data of no numeric type. *)
Theorem C66_count_nan_refuted : exists t : table ovalue, wf t /\
  countUnique false t None None = Ok [(PNaN, 1); (PStr "a", 1); (PNaN, 1)] /\
  forall l d, CountsOf l d -> ~ (exists i j n m, i <> j /\ nth_error d i = Some (PNaN, n) /\ nth_error d j = Some (PNaN, m)).
Proof.
  exists (mkTable (fresh 1) (fresh 3) [[(PNaN, 0); (PStr "a", 1); (PNaN, 2)]]).
  split; [split; [reflexivity|]; split; [intros r [<-|[]]; reflexivity|split; exact Logic.I]|].
  split; [reflexivity|]. intros l d [_ [_ C]] [i [j [n [m [Hne [A B]]]]]]. apply Hne. eapply C; eauto. right; auto.
Qed.
Print Assumptions C66_count_nan_refuted.
(** Refutation: a Sparse object of no numeric type without stored values (for
    instance all False) cannot be counted. *)
Theorem C66_count_sparse_empty_refuted : exists s : sparse ovalue, snp s = 2 /\ snf s = 2 /\ ents s = [] /\ sparseCount false s = Err ValueErr.
Proof. exists (mkSp 2 2 [] None None). repeat split. Qed.
Print Assumptions C66_count_sparse_empty_refuted.
(** Refutation: explicitly stored zeros (here two of them) disappear from the
    counts: only the one position that is not stored is counted. *)
Theorem C66_count_stored_zero_refuted : exists s : sparse ovalue, snp s * snf s = 4 /\
  NoDup (map (fun e => (er e, ec e)) (ents s)) /\ In (mkE 0 0 (PInt 0, 0)) (ents s) /\ In (mkE 0 2 (PInt 0, 0)) (ents s) /\
  sparseCount true s = Ok [(PInt 0, 1); (PInt 7, 1)].
Proof.
  exists (mkSp 1 4 [mkE 0 0 (PInt 0, 0); mkE 0 1 (PInt 7, 0); mkE 0 2 (PInt 0, 0)] None None). split; [reflexivity|]. split.
  - cbn. constructor; [intros [H|[H|[]]]; discriminate|]. constructor; [intros [H|[]]; discriminate|]. constructor; [intros []|constructor].
  - split; [left; reflexivity|]. split; [right; right; left; reflexivity|reflexivity].
Qed.
Print Assumptions C66_count_stored_zero_refuted.

(** Non-vacuity *)
Definition exG : table pval := tab57 [Some "p"; Some "q"; Some "r"] [Some "a"; None; Some "c"] [[PInt 1; PInt 2; PInt 3]; [PInt 4; PInt 5; PInt 6]; [PInt 7; PInt 8; PInt 9]].
Example exG_wf : wf exG.
Proof. apply tab57_wf; [reflexivity|cbn; intros r Hr; repeat (destruct Hr as [<-|Hr]; [reflexivity|]); destruct Hr]. Qed.
Example ex_keys : Selects (tp exG) (SMany (NamesModel.KList [KId (IdStr "r"); KId (IdInt 0)])) [2; 0] /\
  PlainKey (tp exG) (SMany (NamesModel.KList [KId (IdStr "r"); KId (IdInt 0)])) /\
  Selects (tf exG) (SMany (NamesModel.KList (map KBool [true; false; true]))) [0; 2] /\ PlainKey (tf exG) (SMany (NamesModel.KList (map KBool [true; false; true]))).
Proof.
  split; [|split; [|split]].
  - apply (sel_ids _ [IdStr "r"; IdInt 0]).
    + constructor; [cbn; exists 2; split; reflexivity|]. constructor; [cbn; lia|constructor].
    + repeat constructor; cbn; intuition discriminate.
  - right. exists [IdStr "r"; IdInt 0]. split; [reflexivity|]. intros i [<-|[<-|[]]]; exact Logic.I.
  - constructor; [reflexivity| |repeat constructor].
    intros [|[|[|[|i]]]]; cbn; split; intros H; try discriminate; try (destruct H as [H|[H|[]]]; discriminate); auto.
  - left. eauto.
Qed.
Example ex_get : exists t', getItem exG (GPair (SMany (NamesModel.KList [KId (IdStr "r"); KId (IdInt 0)])) (SMany (NamesModel.KList (map KBool [true; false; true])))) = Ok (GObj t') /\
  rows t' = [[PInt 7; PInt 9]; [PInt 1; PInt 3]] /\ getNames (tp t') = [Some "r"; Some "p"] /\ getNames (tf t') = [Some "a"; Some "c"].
Proof. eexists. split; [vm_compute; reflexivity|]. repeat split. Qed.
Example ex_slice : exists t', getItem exG (GPair (SMany (KSlice (Some (IdInt 2)) (Some (IdStr "q")) (Some (-1)%Z))) (SOne (IdInt (-1)))) = Ok (GObj t') /\ rows t' = [[PInt 9]; [PInt 6]].
Proof. eexists. split; [vm_compute; reflexivity|]. reflexivity. Qed.
Example ex_name : NamesOne (tp exG) (SOne (IdStr "q")) /\ ~ NamesOne (tf exG) (SOne (IdStr "q")).
Proof. split; [exists "q"; split; [reflexivity|vm_compute; right; left; reflexivity]|]. intros [s [E H]]. injection E as <-. cbn in H. repeat (destruct H as [H|H]; [discriminate|]). exact H. Qed.
Example ex_iterate : iterateElements exG Fts (Some (fun v => Ok (negb (pyEq v (PInt 5))))) =
  Ok [PInt 1; PInt 4; PInt 7; PInt 2; PInt 8; PInt 3; PInt 6; PInt 9].
Proof. reflexivity. Qed.
Definition exS : sparse Z := mkSp 2 3 [mkE 1 0 4%Z; mkE 0 2 5%Z; mkE 0 0 6%Z] None None.
Example exS_inv : sinv 0%Z exS.
Proof.
  split; [split|]; cbn.
  - repeat constructor; cbn; intuition discriminate.
  - intros e [<-|[<-|[<-|[]]]]; cbn; lia.
  - reflexivity.
Qed.
Example ex_sparse_iterate : snd (sparseIterate 0%Z exS Fts (Some (fun z => Ok (negb (z =? 0)%Z)))) = Ok [6; 4; 5]%Z /\
  snd (sparseIterate 0%Z exS Pts None) = Ok [6; 0; 5; 4; 0; 0]%Z.
Proof. split; vm_compute; reflexivity. Qed.
Example ex_count : countUnique true (mkTable (fresh 2) (fresh 3) [[(PInt 3, 0); (PNaN, 1); (PFloat 3, 2)]; [(PNaN, 3); (PInt (-1), 4); (PInt 2, 5)]]) None (Some (SMany (KSlice None (Some (IdInt 1)) None)))
  = Ok [(PInt (-1), 1); (PInt 3, 1); (PNaN, 2)].
Proof. vm_compute. reflexivity. Qed.
Example ex_count_object : countUnique false (mkTable (fresh 1) (fresh 4) [[(PStr "b", 0); (PInt 1, 1); (PBool true, 2); (PStr "b", 3)]]) None None = Ok [(PStr "b", 2); (PInt 1, 2)].
Proof. vm_compute. reflexivity. Qed.
Example ex_count_sparse : sparseCount true (mkSp 2 2 [mkE 0 1 (PInt 5, 0)] None None) = Ok [(PInt 5, 1); (PInt 0, 3)].
Proof. reflexivity. Qed.
