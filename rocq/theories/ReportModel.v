(** features.report (features.py:2330-2462). *)
From Verif Require Import Base NamesModel TableModel TableOps ReshapeModel.
From Coq Require Import String. From Coq Require Import List. Import ListNotations.
Open Scope nat_scope.

(** the parameter basicStatistics (features.py:2375-2385): True, False, or a list *)
Inductive basics := BTrue | BFalse | BList (l : list string).
(** features.py:2375-2376 *)
Definition allow : list string :=
  ["mean"; "mode"; "minimum"; "Q1"; "median"; "Q3"; "maximum"; "uniqueCount"; "count"; "standardDeviation"]%string.
(** features.py:2377-2387 *)
Definition statNames (b : basics) : result (list string) :=
  match b with
  | BTrue => Ok allow
  | BFalse => Ok []
  | BList l => if forallb (fun s => mem s allow) l then Ok l else Err InvalidArgumentValue
  end.
(** collections.Counter *)
Definition counter (l : list string) (s : string) : nat := List.length (filter (eqbd s) l).
(** features.py:2400-2408; [remaining] is the dict of that name *)
Fixpoint editLoop (l : list string) (remaining : string -> nat) (todo : list string) : list string :=
  match todo with
  | [] => []
  | v :: rest =>
      if 1 <? counter l v
      then (v ++ " (" ++ decStr (counter l v - remaining v) ++ ")")%string ::
           editLoop l (fun x => if eqbd x v then remaining x - 1 else remaining x) rest
      else v :: editLoop l remaining rest
  end.
(** features.py:2389-2409 *)
Definition edited (l : list string) : list string :=
  if List.length (nodup eq_dec l) =? List.length l then l else editLoop l (counter l) l.
(** [except ValueError] also catches these exceptions of nimble (exceptions.py:47-94) *)
Definition isValueError (e : exc) : bool :=
  match e with ValueErr | InvalidArgumentValue | InvalidArgumentValueCombination | FileFormatErr => true | _ => false end.

Section R.
Variables V W : Type.
(** an index and nan as elements; nimble.calculate's functions of those names and its
    quartiles; simplified: they read the elements of the feature only *)
Variable ofIndex : nat -> W.
Variable nan : W.
Variable calc : string -> list V -> result W.
Variable quartiles : list V -> result (W * W * W).
(** features.py:2414 [quartiles] *)
Definition quartileOf (s : string) : option (W * W * W -> W) :=
  if eqbd s "Q1"%string then Some (fun q => fst (fst q)) else if eqbd s "median"%string then Some (fun q => snd (fst q))
  else if eqbd s "Q3"%string then Some (fun q => snd q) else None.
(** features.py:2415-2428: the statistics of one feature; the quartiles are kept *)
Fixpoint statLoop (ft : list V) (cache : option (W * W * W)) (stats : list string) : result (list W) :=
  match stats with
  | [] => Ok []
  | s :: rest =>
      match quartileOf s with
      | Some pick =>
          match cache with
          | Some q => l <- statLoop ft cache rest ;; Ok (pick q :: l)
          | None =>
              match quartiles ft with
              | Ok q => l <- statLoop ft (Some q) rest ;; Ok (pick q :: l)
              | Err e => if isValueError e then l <- statLoop ft None rest ;; Ok (nan :: l) else Err e
              end
          end
      | None =>
          match calc s ft with
          | Ok x => l <- statLoop ft cache rest ;; Ok (x :: l)
          | Err e => if isValueError e then l <- statLoop ft cache rest ;; Ok (nan :: l) else Err e
          end
      end
  end.
(** features.py:2413-2432 *)
Definition rowOf (stats : list string) (extras : list (string * (list V -> result W))) (p : nat * list V) : result (list W) :=
  a <- statLoop (snd p) None stats ;;
  b <- rmapM (fun f => snd f (snd p)) extras ;;
  Ok (ofIndex (fst p) :: a ++ b).
(** features.py:2375-2434.  Simplified: dtypes=False; extra functions are given with
    their names; an object without features is not followed. *)
Definition report (basic : basics) (extras : list (string * (list V -> result W))) (t : table V) : result (table W) :=
  stats <- statNames basic ;;
  let fnames := edited ("index"%string :: stats ++ map fst extras) in
  rs <- rmapM (rowOf stats extras) (combine (seq 0 (alen (tf t))) (vectors Fts t)) ;;
  if alen (tf t) =? 0 then Err OutOfFuel
  else
    pa <- initAxis (alen (tf t)) (getNamesNoGeneration (tf t)) ;;
    fa <- initAxis (List.length fnames) (Some (map (@Some _) fnames)) ;;
    Ok (mkTable pa fa rs).
End R.
Arguments report {V W}. Arguments statLoop {V W}. Arguments rowOf {V W}.
