(** Model of flatten and unflatten for two dimensional data.
    Sources: /repo/nimble/core/data/base.py:4005-4297, list.py:345-373 (the
    numpy reshapes of matrix.py:238-245, dataframe.py:294-324 and
    sparse.py:564-574 have the same effect on the values; the dtype bookkeeping
    of DataFrame is not modelled). *)
From Verif Require Import Base NamesModel TableModel TableOps.
From Coq Require Import Ascii.
Open Scope string_scope.
Open Scope list_scope.
Open Scope nat_scope.

Definition sep : string := " | ".
(** Python [str.split(' | ')]: left to right, non overlapping; [skip] counts
    the characters of the separator still to be passed over. *)
Fixpoint splitGo (acc : string) (skip : nat) (s : string) : list string :=
  match s with
  | EmptyString => [acc]
  | String c r =>
      match skip with
      | S k => splitGo acc k r
      | 0 => if String.prefix sep s then acc :: splitGo "" 2 r
             else splitGo (acc ++ String c "") 0 r
      end
  end.
Definition splitSep (s : string) : list string := splitGo "" 0 s.

Section Flat.
Variable V : Type.
Variable dec : nat -> string.   (* str(i) *)

Definition ptLabel (i : nat) (o : option string) : string :=
  match o with Some s => s | None => ("_PT#" ++ dec i)%string end.
Definition ftLabel (j : nat) (o : option string) : string :=
  match o with Some s => s | None => ("_FT#" ++ dec j)%string end.
Definition joined (p f : string) : string := (p ++ sep ++ f)%string.
Fixpoint labels (g : nat -> option string -> string) (i : nat) (l : list (option string)) : list string :=
  match l with [] => [] | o :: t => g i o :: labels g (S i) t end.
(** base.py:4005-4031 [_flattenNames] *)
Definition flattenNames (order : side) (t : table V) : list string :=
  let ps := labels ptLabel 0 (getNames (tp t)) in
  let fs := labels ftLabel 0 (getNames (tf t)) in
  match order with
  | Pts => flat_map (fun p => map (fun f => joined p f) fs) ps
  | Fts => flat_map (fun f => map (fun p => joined p f) ps) fs
  end.

(** list.py:345-356 *)
Definition flattenRows (order : side) (t : table V) : list (list V) :=
  match order with
  | Pts => [List.concat (rows t)]
  | Fts => [flat_map (fun j => column t j) (seq 0 (alen (tf t)))]
  end.

(** base.py:4096-4129 [flatten]: the data is rewritten before the names are
    validated, so the object changes even when an exception is raised. *)
Definition flatten (order : side) (t : table V) : table V * result unit :=
  if alen (tp t) =? 0 then (t, Err ImproperObjectAction)
  else if alen (tf t) =? 0 then (t, Err ImproperObjectAction)
  else
    let asg := if namesCreated (tp t) || namesCreated (tf t)
               then AList (map NStr (flattenNames order t)) else ANone in
    let rs := flattenRows order t in
    let fa := mkAxis (alen (tp t) * alen (tf t)) (astate (tf t)) in
    let pa := mkAxis 1 (astate (tp t)) in
    let '(fa', r) := setNames fa asg ONone in
    match r with
    | Err e => (mkTable pa fa' rs, Err e)
    | Ok _ =>
        let '(pa', r') := setNames pa (AList [NStr "Flattened"]) ONone in
        (mkTable pa' fa' rs, r')
    end.

(** base.py:4132-4180 [_unflattenNames]: the split names, or None *)
Fixpoint splitAll (l : list (option string)) : option (list (string * string)) :=
  match l with
  | [] => Some []
  | None :: _ => None
  | Some n :: t =>
      match splitSep n with
      | [p; f] => match splitAll t with Some r => Some ((p, f) :: r) | None => None end
      | _ => None
      end
  end.
(** base.py:4158-4172: [pName not in pNames] tests against the list that holds
    None for the placeholders *)
Definition addName (pre : string) (acc : list (option string) * bool) (n : string) : list (option string) * bool :=
  if mem (Some n) (fst acc) then acc
  else if String.prefix pre n then (fst acc ++ [None], snd acc)
  else (fst acc ++ [Some n], false).
Definition collectNames (pre : string) (l : list string) : option (list (option string)) :=
  let '(names, allDefault) := fold_left (addName pre) l ([], true) in
  if allDefault then None else Some names.
Definition unflattenNames (t : table V) : option (list (option string)) * option (list (option string)) :=
  let possible :=
    if (1 <? alen (tp t)) && namesCreated (tp t) then getNames (tp t)
    else if (1 <? alen (tf t)) && namesCreated (tf t) then getNames (tf t)
    else [] in
  match possible with
  | [] => (None, None)
  | _ => match splitAll possible with
         | None => (None, None)
         | Some prs => (collectNames "_PT#" (map fst prs), collectNames "_FT#" (map snd prs))
         end
  end.
(** base.py:4286-4291 *)
Definition fitNames (o : option (list (option string))) (n : nat) : option (list (option string)) :=
  match o with
  | Some ((_ :: _) as l) => if List.length l =? n then Some l else None
  | x => x
  end.

(** list.py:358-373 *)
Definition stride (data : list V) (i step : nat) (count : nat) : list V :=
  flat_map (fun k => match nth_error data (i + k * step) with Some v => [v] | None => [] end) (seq 0 count).
Definition unflattenRows (np nf : nat) (order : side) (data : list V) : list (list V) :=
  match order with
  | Pts => map (fun i => firstn nf (skipn (i * nf) data)) (seq 0 np)
  | Fts => map (fun i => stride data i np nf) (seq 0 np)
  end.

(** base.py:4249-4297 [unflatten] with two dimensions *)
Definition unflatten (np nf : nat) (order : side) (t : table V) : table V * result unit :=
  if (alen (tp t) =? 0) || (alen (tf t) =? 0) then (t, Err ImproperObjectAction)
  else if negb (alen (tp t) =? 1) && negb (alen (tf t) =? 1) then (t, Err ImproperObjectAction)
  else if negb (alen (tp t) * alen (tf t) =? np * nf) then (t, Err InvalidArgumentValue)
  else
    let rs := unflattenRows np nf order (List.concat (rows t)) in
    let '(pn, fn) := unflattenNames t in
    let '(pa, r) := setNames (mkAxis np (astate (tp t))) (namesArg (fitNames pn np)) ONone in
    match r with
    | Err e => (mkTable pa (mkAxis nf (astate (tf t))) rs, Err e)
    | Ok _ =>
        let '(fa, r') := setNames (mkAxis nf (astate (tf t))) (namesArg (fitNames fn nf)) ONone in
        (mkTable pa fa rs, r')
    end.
End Flat.
Arguments flatten {V} _ _ _.
Arguments flattenRows {V} _ _.
Arguments flattenNames {V} _ _ _.
Arguments unflatten {V} _ _ _ _.
Arguments unflattenRows {V} _ _ _ _.
Arguments unflattenNames {V} _.
Arguments stride {V} _ _ _ _.
