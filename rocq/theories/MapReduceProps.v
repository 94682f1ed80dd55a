(** C50, continued: the object mapReduce returns.  Vocabulary: RawSpec.v. *)
From Verif Require Import Base NamesModel NamesSpec TableModel TableSpec TableProofs TableOps PrepSpec MatchModel MatchSpec CsvModel RawModel RawSpec RawProofs RawKeepProofs RawProps MapReduceModel TableGroupProofs TableProps.
From Coq Require Import List. Import ListNotations.
Open Scope string_scope. Open Scope list_scope. Open Scope nat_scope.

(** The result has a point for every pair the reducer gives, in the order of the
    first emission of its key: its key and its value (those that count as missing
    become NaN), and no names; provided the pairs do not read as a line of names
    above data. *)
Theorem C50_mapReduce_object_partial :
  forall strOf K (EK : EqDec K) W T (ET : EqDec T) conv junk treat (mapper : list pval -> list (K * W)) (reducer : K -> list W -> option (pval * pval))
         sd (t : table pval),
  0 < alen (offax sd t) -> 0 < alen (ax sd t) ->
  let emitted := flat_map mapper (vectors sd t) in
  let pairs := flat_map (fun k => match reducer k (map snd (filter (fun p => eqbd (fst p) k) emitted)) with
                                  | Some r => [r] | None => [] end) (dedup (map fst emitted)) in
  let m := map (fun p => [fst p; snd p]) pairs in
  pairs <> [] -> ~ ReadsAsNames NmAuto m ->
  exists r, mapReduceObject W T strOf conv junk treat mapper reducer sd t = Ok r /\
    Made treat PNaN (length pairs) 2 (repeat None (length pairs)) (repeat None 2) (valueAt m) r.
Proof.
  intros strOf K EK W T ET conv junk treat mapper reducer sd t O A emitted pairs m NE NR. unfold mapReduceObject.
  rewrite (C50_mapReduce K EK pval W (pval * pval) mapper reducer sd t O). cbn [rbind]. cbv zeta. fold emitted. fold pairs.
  destruct (Nat.eqb_spec (alen (ax sd t)) 0) as [Z|_]; [lia|].
  assert (NF : ~ FirstRowIsNames NmAuto NmAuto m) by (intros [C|[_ C]]; [discriminate|contradiction]).
  assert (NC : ~ FirstColumnIsNames NmAuto NmAuto m) by (intros [C|[_ [C _]]]; [discriminate|contradiction]).
  clearbody pairs.
  assert (S0 : match pairs with [] => RFlat [] | _ => RRows (map (fun p => [fst p; snd p]) pairs) end = RRows m) by (unfold m; destruct pairs; [congruence|reflexivity]).
  rewrite S0.
  assert (V0 : valueAt m 0 0 <> None) by (unfold m; destruct pairs; [congruence|discriminate]).
  pose proof (C61_rows_partial strOf T ET conv junk m NmAuto NmAuto treat PNaN 0 0 Logic.I Logic.I (or_intror (conj NC eq_refl)) (or_intror (conj NF eq_refl)) V0) as H.
  cbv zeta in H. rewrite !Nat.sub_0_r in H.
  assert (LM : List.length m = List.length pairs) by (unfold m; apply map_length). assert (WM : width m = 2) by (unfold m; destruct pairs; [congruence|reflexivity]).
  rewrite LM, WM in H. cbn [namesFrom Nat.eqb] in H.
  assert (RN : forall n, NamesFit (repeat None n) n).
  { intros n. split; [apply repeat_length|]. intros i j s Hi _. apply nth_error_In in Hi. apply repeat_spec in Hi. discriminate. }
  assert (G : (forall x, In x m -> List.length x = 2) /\ NamesFit (repeat None (List.length pairs)) (List.length pairs) /\ NamesFit (repeat None 2) 2).
  { split; [|split; apply RN]. intros x Hx. unfold m in Hx. apply in_map_iff in Hx. destruct Hx as [q [<- _]]. reflexivity. }
  destruct (initData strOf T ET conv junk (RRows m) NmAuto NmAuto CNone None None treat PNaN true) as [[r lo]|e]; [|destruct H as [H _]; contradiction].
  destruct H as (_ & _ & M). exists r. split; [reflexivity|]. destruct M as (M1 & M2 & M3 & M4 & M5 & M6).
  split; [exact M1|]. split; [exact M2|]. split; [exact M3|]. split; [exact M4|]. split; [exact M5|].
  intros i j Hi Hj. destruct (M6 i j Hi Hj) as (v & w & E1 & E2 & E3). rewrite !Nat.add_0_r in E1. eauto.
Qed.
Print Assumptions C50_mapReduce_object_partial.

Definition exStats (v : list pval) : list (string * pval) := match v with [PStr k; x] => [(k, x)] | _ => [] end.
Definition exFirst (k : string) (l : list pval) : option (pval * pval) := match l with x :: _ => Some (PStr k, x) | [] => None end.
Definition exMap (rows : list (list pval)) :=
  mapReduceObject (EK := _) pval exType exStr exConv (exJunk PNone) (Some [PNaN]) exStats exFirst Pts (mkTable (fresh (List.length rows)) (fresh 2) rows).
(** Missing: a key and a value that are texts, above a pair with a number, become the
    names of the features. *)
Theorem C50_mapReduce_object_refuted :
  exists r, exMap [[PStr "best"; PStr "north"]; [PStr "count"; PInt 3]] = Ok r /\ alen (tp r) = 1 /\
    getNames (tf r) = [Some "best"; Some "north"] /\ rows r = [[PStr "count"; PInt 3]].
Proof. eexists. split; [vm_compute; reflexivity|]. repeat split; vm_compute; reflexivity. Qed.
Print Assumptions C50_mapReduce_object_refuted.
Example C50_object_case : exMap [[PStr "a"; PInt 1]; [PStr "b"; PInt 2]; [PStr "a"; PInt 4]] =
  Ok (mkTable (fresh 2) (fresh 2) [[PStr "a"; PInt 1]; [PStr "b"; PInt 2]]).
Proof. vm_compute. reflexivity. Qed.
