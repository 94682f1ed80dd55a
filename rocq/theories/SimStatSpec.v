(** Specification vocabulary for C80: similarities and statistics. *)
From Verif Require Import Base NamesModel TableModel TableSpec MatchModel MatchSpec SimStatModel.
From Coq Require Import List Arith ZArith QArith Ascii String. Import ListNotations.
Open Scope string_scope. Open Scope list_scope. Open Scope nat_scope.

(** ** Names of functions *)
(** a tab, newline, vertical tab, form feed, carriage return, one of the four
    separators or a space *)
Definition Blank (c : ascii) : Prop := In (nat_of_ascii c) [9; 10; 11; 12; 13; 28; 29; 30; 31; 32].
(** [d] is [c], in lower case if it is a capital letter *)
Definition LowerOf (c d : ascii) : Prop :=
  (65 <= nat_of_ascii c <= 90 /\ nat_of_ascii d = nat_of_ascii c + 32) \/
  (~ (65 <= nat_of_ascii c <= 90) /\ d = c).
(** [s] spells the keyword [w]: up to blanks and capitals *)
Inductive SpelledAs : string -> string -> Prop :=
| sp_nil : SpelledAs "" ""
| sp_blank c s w : Blank c -> SpelledAs s w -> SpelledAs (String c s) w
| sp_char c d s w : ~ Blank c -> LowerOf c d -> SpelledAs s w -> SpelledAs (String c s) (String d w).
(** the keywords of the statistics *)
Inductive NameOfStat : string -> stat -> Prop :=
| ns_max : NameOfStat "max" SMax | ns_min : NameOfStat "min" SMin | ns_mean : NameOfStat "mean" SMean
| ns_median : NameOfStat "median" SMedian | ns_mode : NameOfStat "mode" SMode | ns_sum : NameOfStat "sum" SSum
| ns_variance : NameOfStat "variance" SVariance | ns_unique : NameOfStat "uniquecount" SUnique
| ns_missing : NameOfStat "proportionmissing" SMissing | ns_zero : NameOfStat "proportionzero" SZero
| ns_quartiles : NameOfStat "quartiles" SQuartiles | ns_mad : NameOfStat "medianabsolutedeviation" SMad
| ns_std : NameOfStat "std" SSample | ns_sd : NameOfStat "standarddeviation" SSample
| ns_samplestd : NameOfStat "samplestd" SSample | ns_samplesd : NameOfStat "samplestandarddeviation" SSample
| ns_popstd : NameOfStat "populationstd" SPopulation | ns_popsd : NameOfStat "populationstandarddeviation" SPopulation.

(** [r] is the table of a statistic of [t] along the axis [sd]: one line for each of
    the vectors, with the names of [t]; the other axis has the value, named after the
    statistic, or the three quartiles *)
Definition cellAlong {V} (sd : side) (r : table V) (i k : nat) : option V :=
  match sd with Pts => cell r i k | Fts => cell r k i end.
Record StatTable {V} (one : stat -> list V -> V) (three : list V -> V * V * V)
  (sd : side) (t : table V) (name : string) (s : stat) (r : table V) : Prop := {
  st_wf : wf r;
  st_names : getNames (ax sd r) = getNames (ax sd t);
  st_length : alen (ax sd r) = alen (ax sd t);
  st_label : getNames (offax sd r) =
    match s with SQuartiles => [Some "quartile1"; Some "quartile2"; Some "quartile3"] | _ => [Some name] end;
  st_one : s <> SQuartiles -> forall i v, nth_error (vectors sd t) i = Some v -> cellAlong sd r i 0 = Some (one s v);
  st_three : s = SQuartiles -> forall i v, nth_error (vectors sd t) i = Some v ->
    let '(a, b, c) := three v in
    cellAlong sd r i 0 = Some a /\ cellAlong sd r i 1 = Some b /\ cellAlong sd r i 2 = Some c
}.

(** ** Numbers *)
(** an element as a finite number, or missing: None, nan and the infinities are
    missing, a string is what it is the text of *)
Definition Plain (v : pval) (o : option Q) : Prop :=
  match o with Some q => IsNumber v q | None => forall q, ~ IsNumber v q end.
Definition Reads (floatOf : string -> option pval) (v : pval) (o : option Q) : Prop :=
  match v with PStr s => exists w, floatOf s = Some w /\ Plain w o | _ => Plain v o end.
(** the numbers of two vectors at the positions where both have one *)
Inductive Shared : list (option Q) -> list (option Q) -> list (Q * Q) -> Prop :=
| sh_nil : Shared [] [] []
| sh_both x y u v s : Shared u v s -> Shared (Some x :: u) (Some y :: v) ((x, y) :: s)
| sh_skip x y u v s : x = None \/ y = None -> Shared u v s -> Shared (x :: u) (y :: v) s.

Fixpoint total (l : list Q) : Q := match l with [] => 0%Q | x :: t => (x + total t)%Q end.
Definition count {A} (l : list A) : Q := inject_Z (Z.of_nat (List.length l)).
(** the sum of the products of the deviations, as Sxy - Sx Sy / n *)
Definition coSum (ps : list (Q * Q)) : Q :=
  (total (map (fun p => fst p * snd p) ps) - total (map fst ps) * total (map snd ps) / count ps)%Q.
(** covariance with [ddof] degrees of freedom lost; missing if there are no more
    values than that *)
Definition Covariance (ddof : nat) (ps : list (Q * Q)) (c : option Q) : Prop :=
  match c with
  | None => List.length ps <= ddof
  | Some q => ddof < List.length ps /\ (q * inject_Z (Z.of_nat (List.length ps) - Z.of_nat ddof) == coSum ps)%Q
  end.
(** the square root [s] of the population variance of [l] *)
Definition StdOf (l : list Q) (s : Q) : Prop :=
  (0 <= s)%Q /\ (s * s * count l == coSum (map (fun x => (x, x)) l))%Q.
(** Pearson's correlation: covariance over the product of the standard deviations;
    missing if there is no value or that product is 0 *)
Definition Correlation (std : list Q -> Q) (ps : list (Q * Q)) (c : option Q) : Prop :=
  let d := (std (map fst ps) * std (map snd ps))%Q in
  match c with
  | None => ps = [] \/ (d == 0)%Q
  | Some r => ps <> [] /\ ~ (d == 0)%Q /\ (r * d * count ps == coSum ps)%Q
  end.
Definition SameCell (a b : option Q) : Prop :=
  match a, b with Some x, Some y => (x == y)%Q | None, None => True | _, _ => False end.

(** the cells of an n by n table *)
Definition at_ (cells : list (list (option Q))) (i j : nat) : option (option Q) :=
  match nth_error cells i with Some r => nth_error r j | None => None end.
Definition Square {A} (n : nat) (m : list (list A)) : Prop :=
  List.length m = n /\ forall r, In r m -> List.length r = n.
(** what the keywords of the similarities compute *)
Inductive SimilarityIs (std : list Q -> Q) : string -> list (Q * Q) -> option Q -> Prop :=
| si_cov ps c : Covariance 1 ps c -> SimilarityIs std "covariance" ps c
| si_sample ps c : Covariance 1 ps c -> SimilarityIs std "samplecovariance" ps c
| si_pop ps c : Covariance 0 ps c -> SimilarityIs std "populationcovariance" ps c
| si_corr ps c : Correlation std ps c -> SimilarityIs std "correlation" ps c.
Definition NumberSimilarity (w : string) : Prop :=
  In w ["correlation"; "covariance"; "samplecovariance"; "populationcovariance"].
Definition Accepted (w : string) : Prop := NumberSimilarity w \/ w = "dotproduct".
