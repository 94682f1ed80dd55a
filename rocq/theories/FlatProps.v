(** Property C12: flatten / unflatten. *)
From Verif Require Import Base NamesModel NamesSpec NamesProofs TableModel TableSpec TableOps TableOpsProofs
  FlatModel FlatSpec FlatProofs.
Open Scope string_scope.
Open Scope list_scope.
Open Scope nat_scope.

(** C12: flatten puts every element at the documented place of a single point
    (point order: row by row; feature order: column by column) and nothing
    else, for every non-empty object. *)
Theorem C12_flatten_places_every_element :
  forall (V : Type) (order : side) (t : table V), wf t -> 0 < alen (tp t) -> 0 < alen (tf t) ->
  let t' := fst (flatten dec10 order t) in
  alen (tp t') = 1 /\ alen (tf t') = alen (tp t) * alen (tf t) /\
  (exists v, rows t' = [v] /\ List.length v = alen (tp t) * alen (tf t)) /\
  forall i j, i < alen (tp t) -> j < alen (tf t) ->
    cell t' 0 (flatPos order (alen (tp t)) (alen (tf t)) i j) = cell t i j.
Proof. exact flatten_cells. Qed.
Print Assumptions C12_flatten_places_every_element.

(** C12: unflatten of a vector object (one point, or one feature) to any
    np x nf shape with the right number of elements reads element (i, j) from
    the same place. *)
Theorem C12_unflatten_places_every_element :
  forall (V : Type) np nf (order : side) (t : table V), wf t -> 0 < alen (tp t) -> 0 < alen (tf t) ->
  alen (tp t) * alen (tf t) = np * nf ->
  let t' := fst (unflatten np nf order t) in
  alen (tp t) = 1 \/ alen (tf t) = 1 ->
  alen (tp t') = np /\ alen (tf t') = nf /\
  forall i j, i < np -> j < nf ->
   (alen (tp t) = 1 -> cell t' i j = cell t 0 (flatPos order np nf i j)) /\
   (alen (tf t) = 1 -> cell t' i j = cell t (flatPos order np nf i j) 0).
Proof. exact unflatten_cells. Qed.
Print Assumptions C12_unflatten_places_every_element.

(** C12: whenever flatten succeeds, unflatten to the original shape with the
    same order restores the data exactly. *)
Theorem C12_unflatten_inverts_flatten :
  forall (V : Type) (order : side) (t : table V), wf t -> snd (flatten dec10 order t) = Ok tt ->
  wf (fst (flatten dec10 order t)) /\
  rows (fst (unflatten (alen (tp t)) (alen (tf t)) order (fst (flatten dec10 order t)))) = rows t.
Proof.
  exact (fun V order t Hw Hok => conj (flatten_ok_wf V order t Hw Hok) (flatten_unflatten_rows V order t Hw Hok)).
Qed.
Print Assumptions C12_unflatten_inverts_flatten.

(** C12, names (partial): both calls succeed and data and names come back, if
    every axis is either wholly unnamed or wholly named by names in which the
    delimiter cannot be found, and there is more than one element.  The
    conditions cannot be dropped: see the refutations below. *)
Theorem C12_names_round_trip_partial :
  forall (V : Type) (order : side) (t : table V), wf t ->
  0 < alen (tp t) -> 0 < alen (tf t) -> 1 < alen (tp t) * alen (tf t) ->
  flattenable Pts (getNames (tp t)) -> flattenable Fts (getNames (tf t)) ->
  exists t1 t2, flatten dec10 order t = (t1, Ok tt) /\ wf t1 /\
    unflatten (alen (tp t)) (alen (tf t)) order t1 = (t2, Ok tt) /\ wf t2 /\
    rows t2 = rows t /\ getNames (tp t2) = getNames (tp t) /\ getNames (tf t2) = getNames (tf t).
Proof. exact roundtrip_names. Qed.
Print Assumptions C12_names_round_trip_partial.

(** Objects for the examples: created the way nimble creates them. *)
Definition mkObj (pn fn : list (option string)) (rs : list (list nat)) : table nat :=
  mkTable (fst (setNames (mkAxis (List.length pn) None) (AList (map to_newname pn)) ONone))
          (fst (setNames (mkAxis (List.length fn) None) (AList (map to_newname fn)) ONone)) rs.
Definition trip (order : side) (t : table nat) : table nat * result unit :=
  let '(t1, r) := flatten dec10 order t in
  match r with Ok _ => unflatten (alen (tp t)) (alen (tf t)) order t1 | Err e => (t1, Err e) end.

(** A case that meets the hypotheses: named points, unnamed features. *)
Example C12_instance :
  let t := mkObj [Some "a"; Some "b|c"] [None; None] [[1; 2]; [3; 4]] in
  flattenable Pts (getNames (tp t)) /\ flattenable Fts (getNames (tf t)) /\
  getNames (tf (fst (flatten dec10 Fts t))) =
    [Some "a | _FT#0"; Some "b|c | _FT#0"; Some "a | _FT#1"; Some "b|c | _FT#1"] /\
  rows (fst (flatten dec10 Fts t)) = [[1; 3; 2; 4]].
Proof.
  split; [|split; [|split; reflexivity]].
  - right. intros o [<-|[<-|[]]]; eexists; (split; [reflexivity|split; [reflexivity|]]);
      intros (x & y & E); repeat (destruct x as [|? x]; [discriminate E|simpl in E; injection E as _ E]); destruct x; discriminate E.
  - left. intros o [<-|[<-|[]]]; reflexivity.
Qed.

(** C12 is false for names in full.  (1) A point name that does not contain the
    delimiter but ends in " |" is split in the wrong place. *)
Theorem C12_names_round_trip_refuted_bar :
  exists (t : table nat), wf t /\ ~ (exists o s, In o (getNames (tp t)) /\ o = Some s /\ containsSep s) /\
    snd (trip Pts t) = Ok tt /\ getNames (tf (fst (trip Pts t))) <> getNames (tf t).
Proof.
  exists (mkObj [Some "a |"] [Some "x"; Some "y"] [[1; 2]]). split; [|split; [|split; [reflexivity|discriminate]]].
  - split; [reflexivity|]. split; [intros r [<-|[]]; reflexivity|]. split; apply setNames_list_Inv; exact I.
  - intros (o & s & [<-|[]] & [= <-] & (x & y & E)).
    repeat (destruct x as [|? x]; [discriminate E|simpl in E; injection E as _ E]); destruct x; discriminate E.
Qed.
Print Assumptions C12_names_round_trip_refuted_bar.

(** (2) Names of a partly named axis, and of a 1 x 1 object, are lost. *)
Theorem C12_names_round_trip_refuted_lost :
  (let t := mkObj [None; Some "b"] [Some "x"; Some "y"] [[1; 2]; [3; 4]] in
   snd (trip Pts t) = Ok tt /\ getNames (tp t) = [None; Some "b"] /\
   getNames (tp (fst (trip Pts t))) = [None; None]) /\
  (let t := mkObj [Some "a"] [Some "x"] [[1]] in
   snd (trip Pts t) = Ok tt /\ getNames (tp (fst (trip Pts t))) <> getNames (tp t) /\
   getNames (tf (fst (trip Pts t))) = [None]).
Proof.
  split; [repeat split|]. split; [reflexivity|]. split; [vm_compute; discriminate|]. reflexivity.
Qed.
Print Assumptions C12_names_round_trip_refuted_lost.

(** (3) When two joined names coincide flatten raises - after the data has
    already been reshaped, so the object is left inconsistent. *)
Theorem C12_flatten_atomic_refuted :
  let t := mkObj [Some "a"; Some "a | b"] [Some "b | c"; Some "c"] [[1; 2]; [3; 4]] in
  snd (flatten dec10 Pts t) = Err InvalidArgumentValue /\
  rows (fst (flatten dec10 Pts t)) <> rows t /\
  List.length (getNames (tp (fst (flatten dec10 Pts t)))) <> alen (tp (fst (flatten dec10 Pts t))).
Proof. repeat split; vm_compute; discriminate. Qed.
Print Assumptions C12_flatten_atomic_refuted.
