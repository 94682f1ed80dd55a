(** Model of query strings (C29).
    Sources: /repo/nimble/match/query.py:25-26 (operatorDict), 121-124
    (_accepted), 126-206 (QueryString.__init__), 208-218 (__call__);
    core/data/axis.py:1104-1131 (_axisQueryFunction), 1142-1183 (target
    resolution of _genericStructuralFrontend). *)
From Verif Require Import Base NamesModel TableModel TableOps MatchModel.
Open Scope string_scope.
Open Scope list_scope.
Open Scope nat_scope.

Inductive cop := CEq | CNe | CGe | CGt | CLe | CLt.
Definition opStr (o : cop) : string :=
  match o with CEq => "==" | CNe => "!=" | CGe => ">=" | CGt => ">" | CLe => "<=" | CLt => "<" end.
(** the alternation of the regular expressions, in order *)
Definition ops : list cop := [CEq; CNe; CGe; CGt; CLe; CLt].
Definition padded (o : cop) : string := (" " ++ opStr o ++ " ")%string.

(** *** the regular expressions *)
Fixpoint stripPrefix (p s : string) : option string :=
  match p, s with
  | EmptyString, _ => Some s
  | String a p', String b s' => if Ascii.eqb a b then stripPrefix p' s' else None
  | _, _ => None
  end.
Definition newline : Ascii.ascii := Ascii.ascii_of_nat 10.
(** a dot-star group stops before a newline *)
Fixpoint dotStar (s : string) : string :=
  match s with
  | EmptyString => EmptyString
  | String c r => if Ascii.eqb c newline then EmptyString else String c (dotStar r)
  end.
(** 142: match of 'is', optional ' not', space, dot-star: (is group 2 present,
    group 3) *)
Definition startsIs (s : string) : option (bool * string) :=
  match stripPrefix "is not " s with
  | Some r => Some (true, dotStar r)
  | None => match stripPrefix "is " s with Some r => Some (false, dotStar r) | None => None end
  end.
(** 143: match of an operator, optional space, dot-star: (group 1, group 2) *)
Fixpoint firstOp (os : list cop) (s : string) : option (cop * string) :=
  match os with
  | [] => None
  | o :: r => match stripPrefix (opStr o) s with Some t => Some (o, t) | None => firstOp r s end
  end.
Definition startsOp (s : string) : option (cop * string) :=
  match firstOp ops s with
  | Some (o, t) => Some (o, dotStar (match stripPrefix " " t with Some t' => t' | None => t end))
  | None => None
  end.
(** 146-149: overlapping matches, one attempt at every position *)
Fixpoint scan {A} (f : string -> option A) (s : string) : list A :=
  (match f s with Some x => [x] | None => [] end) ++
  match s with EmptyString => [] | String _ r => scan f r end.
Definition isAt (s : string) : option string :=
  match stripPrefix " is not " s with
  | Some _ => Some " is not "
  | None => match stripPrefix " is " s with Some _ => Some " is " | None => None end
  end.
Fixpoint firstPadded (os : list cop) (s : string) : option (cop * string) :=
  match os with
  | [] => None
  | o :: r => match stripPrefix (padded o) s with Some t => Some (o, t) | None => firstPadded r s end
  end.
Definition opAt (s : string) : option cop := option_map fst (firstPadded ops s).
Definition containsIs (s : string) : list string := scan isAt s.
Definition containsOp (s : string) : list cop := scan opAt s.
(** [re.search('is( not)? ', s)] *)
Definition searchIs (s : string) : bool :=
  negb (List.length (scan (fun t => stripPrefix "is " t) s) =? 0).
(** [s.split(sep)] at the first occurrence; [s.rsplit(sep, 1)] at the last *)
Fixpoint splitFirst (sep s : string) : option (string * string) :=
  match stripPrefix sep s with
  | Some r => Some (EmptyString, r)
  | None => match s with
            | EmptyString => None
            | String c t => match splitFirst sep t with Some (a, b) => Some (String c a, b) | None => None end
            end
  end.
Fixpoint splitLast (sep s : string) : option (string * string) :=
  match s with
  | EmptyString => match stripPrefix sep s with Some r => Some (EmptyString, r) | None => None end
  | String c t =>
      match splitLast sep t with
      | Some (a, b) => Some (String c a, b)
      | None => match stripPrefix sep s with Some r => Some (EmptyString, r) | None => None end
      end
  end.
(** [s.split(sep)[1]] *)
Definition split1 (sep s : string) : option string :=
  match splitFirst sep s with
  | None => None
  | Some (_, r) => Some (match splitFirst sep r with Some (m, _) => m | None => r end)
  end.
(** [re.split(' (==|...) ', s)] unpacked into three parts *)
Fixpoint splitOp (s : string) : option (string * cop * string) :=
  match firstPadded ops s with
  | Some (o, r) => Some (EmptyString, o, r)
  | None => match s with
            | EmptyString => None
            | String c t => match splitOp t with Some (a, o, b) => Some (String c a, o, b) | None => None end
            end
  end.
Definition splitOpOnce (s : string) : option (string * cop * string) :=
  match splitOp s with
  | Some (a, o, b) => match splitOp b with None => Some (a, o, b) | Some _ => None end
  | None => None
  end.

Section Query.
(** Python's [float(text)]: [None] when it raises ValueError *)
Variable floatOf : string -> option pval.
(** membership in [_accepted] *)
Variable accepted : string -> bool.

(** the value compared with: a number if the text converts, else the text *)
Definition toFilter (s : string) : pval := match floatOf s with Some v => v | None => PStr s end.
Inductive qfun := QCmp (o : cop) (v : pval) | QIs (name : string) (negated : bool).
Record query := mkQuery { qIdent : option string; qFun : qfun }.

(** 150-153 *)
Definition isAsAxisName (s : string) : bool :=
  (match startsIs s, containsOp s, containsIs s with Some _, _ :: _, [] => true | _, _, _ => false end) ||
  (match containsIs s, containsOp s with
   | [_], [o] => match split1 (padded o) s with Some t => negb (searchIs t) | None => false end
   | _, _ => false
   end).
(** 155-193; [None] when [self.function] stays None *)
Definition parseCore (s : string) (elementQuery : option bool) : option query :=
  let si := startsIs s in let so := startsOp s in
  let ci := containsIs s in let co := containsOp s in
  if (match ci, si with [], None => true | _, _ => false end) || isAsAxisName s then
    match so with
    | Some (o, v) =>
        if (match co with [] => true | _ => false end) || (match elementQuery with Some true => true | _ => false end)
        then Some (mkQuery None (QCmp o (toFilter v)))
        else if (List.length co =? 1) && (match elementQuery with Some false => true | _ => false end)
        then match splitOpOnce s with Some (n, o', v') => Some (mkQuery (Some n) (QCmp o' (toFilter v'))) | None => None end
        else None
    | None =>
        if List.length co =? 1
        then match splitOpOnce s with Some (n, o', v') => Some (mkQuery (Some n) (QCmp o' (toFilter v'))) | None => None end
        else None
    end
  else
    match si, ci, co with
    | Some (neg, f), [], [] => if accepted f then Some (mkQuery None (QIs f neg)) else None
    | _, _, _ =>
        match rev ci with
        | [] => None   (* unreachable *)
        | lastIs :: _ =>
            match splitLast lastIs s with
            | None => None
            | Some (n, f) => if accepted f then Some (mkQuery (Some n) (QIs f (String.eqb lastIs " is not "))) else None
            end
        end
    end.
(** 126-206: 195-206 the checks at the end *)
Definition parse (s : string) (elementQuery : option bool) : result query :=
  match parseCore s elementQuery with
  | None => Err InvalidArgumentValue
  | Some q =>
      match elementQuery, qIdent q with
      | Some true, Some _ => Err InvalidArgumentValue
      | Some false, None => Err InvalidArgumentValue
      | _, _ => Ok q
      end
  end.

(** *** evaluation (208-218) *)
(** the functions of [_accepted] on one element; the any.../all... functions are
    accepted as well, what they do to one element is a parameter *)
Variable otherFn : string -> pval -> result bool.
Definition elementFn (name : string) (v : pval) : result bool :=
  if String.eqb name "missing" then Ok (missing v)
  else if String.eqb name "nonMissing" then Ok (nonMissing v)
  else if String.eqb name "numeric" then Ok (numeric v)
  else if String.eqb name "nonNumeric" then Ok (nonNumeric v)
  else if String.eqb name "zero" then Ok (zero v)
  else if String.eqb name "nonZero" then Ok (nonZero v)
  else if String.eqb name "positive" then Ok (isPositive v)
  else if String.eqb name "negative" then Ok (isNegative v)
  else if String.eqb name "infinity" then Ok (infinity v)
  else if String.eqb name "boolean" then Ok (boolean v)
  else if String.eqb name "integer" then Ok (integer v)
  else if String.eqb name "floating" then Ok (floating v)
  else if String.eqb name "true" then Ok (true_ v)
  else if String.eqb name "false" then Ok (false_ v)
  else if String.eqb name "True" then Ok (match v with PBool true => true | _ => false end)
  else if String.eqb name "False" then Ok (match v with PBool false => true | _ => false end)
  else if String.eqb name "None" then Ok (match v with PNone => true | _ => false end)
  else otherFn name v.
(** query.py:25-26, the operator module *)
Definition compareOp (o : cop) (a b : pval) : result bool :=
  match o with
  | CEq => Ok (pyEq a b)
  | CNe => Ok (pyNe a b)
  | CGe => pyLe b a
  | CGt => pyLt b a
  | CLe => pyLe a b
  | CLt => pyLt a b
  end.
Definition applyFun (f : qfun) (v : pval) : result bool :=
  match f with
  | QCmp o w => compareOp o v w
  | QIs n neg => rmap (fun b => if neg then negb b else b) (elementFn n v)
  end.

(** *** axis queries *)
(** axis.py:356-361 [_hasName] *)
Definition hasName (a : axis) (n : string) : bool :=
  match getIndex a (IdStr n) false with Ok _ => true | Err _ => false end.
(** axis.py:1104-1131 *)
Definition axisQuery (sd : side) (t : table pval) (s : string) : result query :=
  match parse s (Some false) with
  | Err _ => Err InvalidArgumentValue
  | Ok q => match qIdent q with
            | Some n => if hasName (offax sd t) n then Ok q else Err InvalidArgumentValue
            | None => Err InvalidArgumentValue
            end
  end.
(** [value[self.identifier]] of a point or feature view *)
Definition valueAt (a : axis) (vec : list pval) (n : string) : result pval :=
  z <- getIndex a (IdStr n) true ;;
  match nth_error vec (Z.to_nat z) with Some v => Ok v | None => Err IndexErr end.
Definition applyAxis (a : axis) (q : query) (vec : list pval) : result bool :=
  match qIdent q with
  | None => Err TypeErr   (* not used: axis queries have an identifier *)
  | Some n => v <- valueAt a vec n ;; applyFun (qFun q) v
  end.
Fixpoint whereTrue (i : nat) (f : list pval -> result bool) (l : list (list pval)) : result (list nat) :=
  match l with
  | [] => Ok []
  | v :: r => b <- f v ;; rest <- whereTrue (S i) f r ;; Ok (if b then i :: rest else rest)
  end.
(** axis.py:1142-1183 for a string target, no number or limitTo *)
Definition stringTargets (sd : side) (t : table pval) (s : string) : result (list nat) :=
  if hasName (ax sd t) s then constructIndices (ax sd t) [IdStr s]
  else q <- axisQuery sd t s ;; whereTrue 0 (applyAxis (offax sd t) q) (vectors sd t).

(** *** element queries *)
(** base.py:1051-1062 [matchingElements]: a string that is not a query is a
    value to compare with.  Only the element function is modelled. *)
Definition elementMatcher (s : string) (v : pval) : result bool :=
  match parse s (Some true) with
  | Ok q => applyFun (qFun q) v
  | Err _ => Ok (pyEq v (PStr s))
  end.
End Query.
(** the names _setAll(vars(match)) yields, and 122-124 *)
Definition publicNames : list string :=
  ["missing"; "nonMissing"; "numeric"; "nonNumeric"; "zero"; "nonZero"; "positive"; "negative"; "infinity"; "boolean";
   "integer"; "floating"; "true"; "false"; "anyValues"; "allValues"; "anyMissing"; "allMissing"; "anyNonMissing";
   "allNonMissing"; "anyNumeric"; "allNumeric"; "anyNonNumeric"; "allNonNumeric"; "anyZero"; "allZero"; "anyNonZero";
   "allNonZero"; "anyPositive"; "allPositive"; "anyNegative"; "allNegative"; "anyInfinity"; "allInfinity"; "anyBoolean";
   "allBoolean"; "anyInteger"; "allInteger"; "anyFloating"; "allFloating"; "anyTrue"; "allTrue"; "anyFalse"; "allFalse";
   "anyAllValuesBackend"; "True"; "False"; "None"].
Definition isAccepted (s : string) : bool := existsb (String.eqb s) publicNames.
