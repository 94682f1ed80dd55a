(** C81: transform and transformElements of Sparse objects. *)
From Verif Require Import Base NamesModel NamesSpec NamesProofs TableModel TableSpec TableProofs TableOps TableOpsProofs TableOps3Proofs SparseModel SparseSpec MatchModel MatchSpec GetSpec
  ElementsModel ElementsSpec CopyModel CopySpec TypedModel TypedSpec StransModel StransSpec StransProofs StransElemProofs StransDenseProofs StransNumProofs.
From Coq Require Import String QArith Lia. From Coq Require Import List. Import ListNotations.
Open Scope string_scope. Open Scope list_scope. Open Scope nat_scope.

(** points.transform and features.transform: the vectors selected hold what the function
    returned for them, the others what they held, no zero is stored and the names stay;
    when the function raises, or returns the wrong number of values, the object is as
    it was (all other types of objects keep the vectors transformed so far). *)
Theorem C81_transform : forall floatOf intOf sd F limitTo only x t,
  Shows x t -> limitDenotes (axisIn sd t) limitTo only -> 0 < alen (tp t) -> 0 < alen (tf t) ->
  let res := transformSparse floatOf intOf sd F limitTo x in
  match snd res with
  | Ok _ => exists t', Shows (fst res) t' /\ NoZeros (fst res) /\ tp t' = tp t /\ tf t' = tf t /\
      forall i r, i < alen (axisIn sd t) -> VectorOf sd t i r -> exists r', VectorOf sd t' i r' /\
        (chosen only i -> exists ret, F r = Ok ret /\ Forall2 Returned ret r') /\ (~ chosen only i -> SameList r r')
  | Err e => fst res = x /\ exists i r, i < alen (axisIn sd t) /\ VectorOf sd t i r /\ chosen only i /\
      (F r = Err e \/ (e = InvalidArgumentValue /\ exists ret, F r = Ok ret /\ length ret <> length r))
  end.
Proof. exact transformSparse_spec. Qed.
Print Assumptions C81_transform.
(** objects without points or features are refused *)
Theorem C81_transform_empty : forall floatOf intOf sd F limitTo x,
  alen (xTp x) = 0 \/ alen (xTf x) = 0 -> transformSparse floatOf intOf sd F limitTo x = (x, Err ImproperObjectAction).
Proof.
  intros. unfold transformSparse. destruct H as [-> | ->]; [reflexivity|]. rewrite Bool.orb_true_r. reflexivity.
Qed.
Print Assumptions C81_transform_empty.
(** [1 0; 0 2] as integers, features.transform of feature 1 only *)
Definition ex81 : sobj := mkS (mkAxis 2 None) (mkAxis 2 None) DInt [mkE 1 1 (PInt 2); mkE 0 0 (PInt 1)].
Definition tab81 : table pval := mkTable (mkAxis 2 None) (mkAxis 2 None) [[PInt 1; PInt 0]; [PInt 0; PInt 2]].
Example C81_ex_shows : Shows ex81 tab81.
Proof.
  split; [split; [reflexivity|split; [intros r [<-|[<-|[]]]; reflexivity|split; exact I]]|]. split; [reflexivity|]. split; [reflexivity|]. split.
  - constructor; [intros [H|[]]; discriminate|]. constructor; [intros []|constructor].
  - split; [intros e [<-|[<-|[]]]; cbn; repeat split; try lia; eexists; reflexivity|].
    intros i j v H. destruct i as [|[|i]]; [| |destruct i; discriminate]; destruct j as [|[|j]]; try (destruct j; discriminate); cbn in H; injection H as <-; cbn; auto.
    + right. split; auto. intros w [H|[H|[]]]; discriminate.
    + right. split; auto. intros w [H|[H|[]]]; discriminate.
Qed.
Example C81_transform_ex : transformSparse (fun _ => None) (fun _ => None) Fts (fun r => Ok [PNone; PInt 0]) (Some [IdInt (-1)]) ex81
  = (mkS (mkAxis 2 None) (mkAxis 2 None) DFloat [mkE 0 0 (PFloat 1); mkE 0 1 PNaN], Ok tt).
Proof. reflexivity. Qed.
Example C81_transform_raise_ex : transformSparse (fun _ => None) (fun _ => None) Pts (fun r => match r with PInt 0 :: _ => Err ZeroDiv | _ => Ok [PStr "a"; PInt 0] end) None ex81
  = (ex81, Err ZeroDiv).
Proof. reflexivity. Qed.

(** ** transformElements *)
(** A function that keeps zeros is given the stored elements only.  The element at
    each addressed position becomes what the function gives for it (None may be
    NaN), the others stay; when the function raises, some of the addressed elements
    have been transformed.  Missing: objects of type bool (below). *)
Theorem C81_transformElements_zeros_partial : forall floatOf intOf strOf f points features ps fs pz skip x t,
  Shows x t -> xDt x <> DBool -> limitDenotes (tp t) points ps -> limitDenotes (tf t) features fs -> ZeroUniform f -> zeroPreserving pz f = true ->
  let res := transformElementsSparse floatOf intOf strOf f points features pz skip x in
  exists t', Shows (fst res) t' /\ tp t' = tp t /\ tf t' = tf t /\
  match snd res with
  | Ok _ => NoZeros (fst res) /\ forall i j v, cell t i j = Some v -> exists w, cell t' i j = Some w /\
      (addressed ps fs i j -> exists r, Becomes pz skip f v i j r /\ Returned r w) /\ (~ addressed ps fs i j -> SameElement v w)
  | Err e => (exists a b u, cell t a b = Some u /\ addressed ps fs a b /\ callF f u a b = Err e) /\
      forall i j v, cell t i j = Some v -> exists w, cell t' i j = Some w /\
        (SameElement v w \/ (addressed ps fs i j /\ exists r, Becomes pz skip f v i j r /\ Returned r w))
  end.
Proof. exact stored_spec. Qed.
Print Assumptions C81_transformElements_zeros_partial.
(** doubling the integers of point 0, one becomes text *)
Example C81_zeros_ex : transformElementsSparse (fun _ => None) (fun _ => None) (fun _ => "") (F1 (fun v => match v with PInt 2 => Ok (PStr "b") | PInt 1 => Ok (PInt 0) | _ => Ok v end)) None None false false ex81
  = (mkS (mkAxis 2 None) (mkAxis 2 None) DObj [mkE 1 1 (PStr "b")], Ok tt).
Proof. reflexivity. Qed.
(** An integer given for an element of an object of type bool is stored as True. *)
Theorem C81_transformElements_bool_refuted :
  exists x t f, Shows x t /\ ZeroUniform f /\ zeroPreserving false f = true /\ cell t 0 0 = Some (PBool true) /\ callF f (PBool true) 0 0 = Ok (PInt 5) /\
    forall floatOf intOf strOf, exists x', transformElementsSparse floatOf intOf strOf f None None false false x = (x', Ok tt) /\
      In (mkE 0 0 (PBool true)) (xEnts x').
Proof.
  exists (mkS (mkAxis 1 None) (mkAxis 1 None) DBool [mkE 0 0 (PBool true)]), (mkTable (mkAxis 1 None) (mkAxis 1 None) [[PBool true]]),
    (F1 (fun v => if pyEq v (PInt 0) then Ok (PInt 0) else Ok (PInt 5))).
  split.
  { split; [split; [reflexivity|split; [intros r [<-|[]]; reflexivity|split; exact I]]|]. split; [reflexivity|]. split; [reflexivity|]. split; [constructor; [intros []|constructor]|].
    split; [intros e [<-|[]]; cbn; repeat split; try lia; eexists; reflexivity|]. intros i j v H. destruct i as [|i]; [|destruct i; discriminate]. destruct j as [|j]; [|destruct j; discriminate]. injection H as <-. left. left. reflexivity. }
  split; [intros v H; assert (E : pyEq v (PInt 0) = true) by (apply MatchProofs.pyEq_spec; exact H); rewrite E; reflexivity|].
  split; [reflexivity|]. split; [reflexivity|]. split; [reflexivity|]. intros. eexists. split; [reflexivity|]. left. reflexivity.
Qed.
Print Assumptions C81_transformElements_bool_refuted.
(** Any other function is given every addressed element, and the data is replaced only
    when all is done: when the function raises, the object is as it was.  None
    becomes NaN.  Missing: functions that give None (below) and results that read as
    names (below). *)
Theorem C81_transformElements_partial : forall floatOf intOf strOf f points features ps fs pz skip x t,
  Shows x t -> limitDenotes (tp t) points ps -> limitDenotes (tf t) features fs -> zeroPreserving pz f = false ->
  (skip = true \/ NeverNone f ps fs t) -> ~ HeaderLike skip f ps fs t ->
  let res := transformElementsSparse floatOf intOf strOf f points features pz skip x in
  match snd res with
  | Ok _ => exists t', Shows (fst res) t' /\ NoZeros (fst res) /\ alen (tp t') = alen (tp t) /\ alen (tf t') = alen (tf t) /\
      getNames (tp t') = getNames (tp t) /\ getNames (tf t') = getNames (tf t) /\
      forall i j v, cell t i j = Some v -> exists w, cell t' i j = Some w /\ exists r, After skip f ps fs v i j r /\ Returned r w
  | Err e => fst res = x /\ exists a b u, cell t a b = Some u /\ addressed ps fs a b /\ callF f u a b = Err e
  end.
Proof. exact dense_spec. Qed.
Print Assumptions C81_transformElements_partial.
(** adding one everywhere but in feature 0 *)
Definition add81 : efun := F1 (fun v => match v with PInt z => Ok (PInt (z + 1)) | _ => Err TypeErr end).
Example C81_dense_ex_hyp : zeroPreserving false add81 = false /\ NeverNone add81 None (Some [1]) tab81 /\ ~ HeaderLike false add81 None (Some [1]) tab81.
Proof.
  split; [reflexivity|]. split; [intros i j v _ _ H; destruct v; discriminate|]. intros (A & _).
  destruct (A 1 (PInt 0) eq_refl) as (s & B & _). destruct (B (conj I (or_introl eq_refl))) as [[C _]|[_ (r & C & [D|D])]]; [discriminate| |].
  - injection C as <-. discriminate.
  - injection C as <-. inversion D as [p q a b X| | | |]; subst. inversion X.
Qed.
Example C81_dense_ex : transformElementsSparse (fun _ => None) (fun _ => None) (fun _ => "") add81 None (Some [IdInt 1]) false false ex81
  = (mkS (mkAxis 2 None) (mkAxis 2 None) DObj [mkE 0 0 (PFloat 1); mkE 0 1 (PFloat 1); mkE 1 1 (PFloat 3)], Ok tt).
Proof. reflexivity. Qed.
(** A function that gives None where zeros are not kept leaves the element as it was,
    although None results are not to be skipped. *)
Theorem C81_transformElements_none_refuted :
  exists x t f, Shows x t /\ zeroPreserving false f = false /\ cell t 0 0 = Some (PInt 1) /\ callF f (PInt 1) 0 0 = Ok PNone /\
    forall floatOf intOf strOf, exists x', transformElementsSparse floatOf intOf strOf f None None false false x = (x', Ok tt) /\
      SameElement (readAt (xEnts x') 0 0) (PInt 1).
Proof.
  exists ex81, tab81, (F1 (fun v => match v with PInt 1 => Ok PNone | _ => Ok (PInt 7) end)).
  split; [exact C81_ex_shows|]. split; [reflexivity|]. split; [reflexivity|]. split; [reflexivity|]. intros. eexists. split; [reflexivity|].
  left. apply (same_num _ _ (inject_Z 1) (inject_Z 1)); constructor || reflexivity.
Qed.
Print Assumptions C81_transformElements_none_refuted.
(** When the results for the first point are texts and those for the second are not, the
    first point is taken for names and is lost. *)
Theorem C81_transformElements_header_refuted :
  exists x t f, Shows x t /\ zeroPreserving false f = false /\ NeverNone f None None t /\ alen (tp t) = 2 /\
    forall floatOf intOf strOf, exists x', transformElementsSparse floatOf intOf strOf f None None false false x = (x', Ok tt) /\ alen (xTp x') = 1.
Proof.
  exists ex81, tab81, (F3 (fun v i j => Ok (match i with 0 => match j with 0 => PStr "a" | _ => PStr "b" end | _ => PInt 7 end))).
  split; [exact C81_ex_shows|]. split; [reflexivity|]. split; [intros i j v _ _ H; destruct i; [destruct j|]; discriminate|]. split; [reflexivity|].
  intros. eexists. split; reflexivity.
Qed.
Print Assumptions C81_transformElements_header_refuted.

(** ** Numbers *)
(** When the data is of numbers and what the function gives for the addressed elements
    are numbers or None, the data of the object is of numbers afterwards, whether or not
    the function raised: no None, and so no text, gets into it. *)
Theorem C81_transform_numbers : forall floatOf intOf sd F limitTo only x t,
  Shows x t -> NumberType (xDt x) -> limitDenotes (axisIn sd t) limitTo only -> 0 < alen (tp t) -> 0 < alen (tf t) ->
  (forall i r ret v, i < alen (axisIn sd t) -> VectorOf sd t i r -> chosen only i -> F r = Ok ret -> In v ret -> Numeral v \/ v = PNone) ->
  let res := transformSparse floatOf intOf sd F limitTo x in
  NumberType (xDt (fst res)) /\ forall e, In e (xEnts (fst res)) -> Numeral (ev e).
Proof. exact (fun fo io => transform_number fo io (fun _ => "")). Qed.
Print Assumptions C81_transform_numbers.
Theorem C81_transformElements_zeros_numbers : forall floatOf intOf strOf f points features ps fs pz skip x t,
  Shows x t -> NumberType (xDt x) -> limitDenotes (tp t) points ps -> limitDenotes (tf t) features fs -> zeroPreserving pz f = true ->
  (forall i j v w, cell t i j = Some v -> addressed ps fs i j -> callF f v i j = Ok w -> Numeral w \/ w = PNone) ->
  let res := transformElementsSparse floatOf intOf strOf f points features pz skip x in
  NumberType (xDt (fst res)) /\ forall e, In e (xEnts (fst res)) -> Numeral (ev e).
Proof. exact stored_number. Qed.
Print Assumptions C81_transformElements_zeros_numbers.
Example C81_numbers_ex : transformElementsSparse (fun _ => None) (fun _ => None) (fun _ => "") (F1 (fun v => match v with PInt 2 => Ok PNone | _ => Ok v end)) None None false false ex81
  = (mkS (mkAxis 2 None) (mkAxis 2 None) DFloat [mkE 1 1 PNaN; mkE 0 0 (PFloat 1)], Ok tt).
Proof. reflexivity. Qed.
