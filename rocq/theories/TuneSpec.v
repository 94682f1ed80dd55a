(** Specification vocabulary for tuning (C33, C34, C35). *)
From Verif Require Import Base TuneModel FoldSpec.
Open Scope list_scope.
Open Scope nat_scope.

(** [v] is one of the values an argument may take *)
Definition allows {V} (a : argval V) (v : V) : Prop :=
  match a with AVal w => v = w | ATune l => In v l end.
(** an argument set gives every argument one of its allowed values *)
Definition isCombination {V} (sp : spec V) (c : args V) : Prop :=
  Forall2 (fun (kv : string * V) (p : string * argval V) => fst kv = fst p /\ allows (snd p) (snd kv)) c sp.

(** The documented consecutive search: [tuned] are the arguments left to tune,
    with their candidates, in order; [tested] what has been validated so far
    (performance, arguments).  Each argument's remaining candidates are tested
    with everything else as in the best set found so far. *)
Inductive greedy {V P} (isBest : P -> P -> bool) :
  list (string * list V) -> list (P * args V) -> list (P * args V) -> Prop :=
| greedy_done tested : greedy isBest [] tested tested
| greedy_next k c rest tested best new final :
    firstBest isBest tested best ->
    map snd new = map (fun v => dset k v (snd best)) (tl c) ->
    greedy isBest rest (tested ++ new) final ->
    greedy isBest ((k, c) :: rest) tested final.
(** the arguments the search starts with: the first candidate of every Tune *)
Definition startsWith {V} (sp : spec V) (c : args V) : Prop :=
  Forall2 (fun (kv : string * V) (p : string * argval V) =>
             fst kv = fst p /\ match snd p with AVal w => snd kv = w | ATune l => hd_error l = Some (snd kv) end) c sp.
(** the Tune arguments with their candidates, in dict order *)
Definition tunedArgs {V} (sp : spec V) : list (string * list V) :=
  flat_map (fun p : string * argval V => match snd p with ATune l => [(fst p, l)] | AVal _ => [] end) sp.
(** plain arguments at their value, the tuned one at [v] *)
Definition argsAt {V} (sp : spec V) (v : V) : args V :=
  map (fun p : string * argval V => (fst p, match snd p with AVal w => w | ATune _ => v end)) sp.
(** along the candidates [vs] the performance improves up to position [m] and
    worsens after it *)
Definition unimodal {V P} (isBest : P -> P -> bool) (f : V -> P) (vs : list V) (m : nat) : Prop :=
  m < List.length vs /\
  (forall i x y, i < m -> nth_error vs i = Some x -> nth_error vs (S i) = Some y -> isBest (f y) (f x) = true) /\
  (forall i x y, m <= i -> nth_error vs i = Some x -> nth_error vs (S i) = Some y -> isBest (f x) (f y) = true).
