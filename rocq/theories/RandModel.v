(** Model of nimble's random state.
    Source: /repo/nimble/random/randomness.py:34-58 (sources, setSeed), 60-228
    (data), 230-283 (seeds), 297-347 (alternateControl).
    The two generators are abstract: a state, a seeding function and drawing
    functions.  Seeding with None reads the operating system's randomness, which
    is a value [world] that every seeding moves on.  Logging is not modelled. *)
From Verif Require Import Base NamesModel TableModel SparseModel.
From Coq Require Import QArith Qround.
Open Scope list_scope.
Open Scope nat_scope.

Section Rand.
Variables PS NS O : Type. (* states of pythonRandom and numpyRandom; drawn values *)
Variable pySeed : option Z -> nat -> result PS.
Variable npSeed : option Z -> nat -> result NS.
Variable pyDraw : PS -> PS * O.
Variable npDraw : NS -> NS * O.

Record rstate := mkR { py : PS; npy : NS; settable : bool; world : nat }.

(** programs that use the sources of randomness; what they do next may depend
    on everything drawn so far *)
Inductive prog :=
| Done
| Fail (* an exception is raised *)
| DrawPy (k : O -> prog)
| DrawNp (k : O -> prog)
| SetSeed (s : option Z) (k : prog)
| Try (body : prog) (k : list O -> bool -> prog) (* try: body; except: ...; then k *)
| Alt (s : option Z) (body : prog) (k : list O -> prog) (* with alternateControl(s): body; then k *).

(** [setSeed] (36-55) and lines 323-325 of alternateControl: pythonRandom is
    seeded before numpyRandom *)
Definition reseed (s : option Z) (b : bool) (st : rstate) : rstate * bool :=
  match pySeed s (world st) with
  | Err _ => (mkR (py st) (npy st) (settable st) (S (world st)), false)
  | Ok p =>
      match npSeed s (world st) with
      | Err _ => (mkR p (npy st) (settable st) (S (world st)), false)
      | Ok n => (mkR p n b (S (world st)), true)
      end
  end.
Definition setSeed (s : option Z) (st : rstate) : rstate * bool :=
  if settable st then reseed s (settable st) st else (st, false).
(** the value returned is (state, drawn values, finished without exception) *)
Fixpoint exec (p : prog) (st : rstate) : rstate * list O * bool :=
  match p with
  | Done => (st, [], true)
  | Fail => (st, [], false)
  | DrawPy k =>
      let '(s', o) := pyDraw (py st) in
      let '(st', os, r) := exec (k o) (mkR s' (npy st) (settable st) (world st)) in (st', o :: os, r)
  | DrawNp k =>
      let '(s', o) := npDraw (npy st) in
      let '(st', os, r) := exec (k o) (mkR (py st) s' (settable st) (world st)) in (st', o :: os, r)
  | SetSeed s k =>
      match setSeed s st with
      | (st', true) => exec k st'
      | (st', false) => (st', [], false)
      end
  | Try body k =>
      let '(st1, os1, r1) := exec body st in
      let '(st2, os2, r2) := exec (k os1 r1) st1 in (st2, os1 ++ os2, r2)
  | Alt s body k => (* 319-334: try / yield / finally *)
      let '(st1, os1, r1) :=
        match reseed s false st with
        | (st0, true) => exec body st0
        | (st0, false) => (st0, [], false)
        end in
      let st2 := mkR (py st) (npy st) (settable st) (world st1) in
      if r1 then let '(st3, os3, r3) := exec (k os1) st2 in (st3, os1 ++ os3, r3)
      else (st2, os1, false)
  end.
End Rand.
Arguments mkR {PS NS} _ _ _ _.
Arguments py {PS NS} _.
Arguments npy {PS NS} _.
Arguments settable {PS NS} _.
Arguments world {PS NS} _.
Arguments Done {O}.
Arguments Fail {O}.
Arguments DrawPy {O} _.
Arguments DrawNp {O} _.
Arguments SetSeed {O} _ _.
Arguments Try {O} _ _.
Arguments Alt {O} _ _ _.
Arguments reseed {PS NS} _ _ _ _ _.
Arguments setSeed {PS NS} _ _ _ _.
Arguments exec {PS NS O} _ _ _ _ _ _.

(** 256-268 [_getValidSeed] for an integer or None; [fresh] is the number
    drawn by generateSubsidiarySeed *)
Definition getValidSeed (seed : option Z) (fresh : Z) : result Z :=
  match seed with
  | None => Ok fresh
  | Some z => if (0 <=? z)%Z && (z <=? 2 ^ 32 - 1)%Z then Ok z else Err InvalidArgumentValue
  end.

(** ** random.data (153-218) *)
Section Data.
Variable V : Type.
Variable zero : V.
(** [np.put(a, loc, vec)] on a flat array: later writes win *)
Fixpoint putFlat (loc : list nat) (vec : list V) (a : list V) : list V :=
  match loc, vec with
  | l :: loc', v :: vec' => putFlat loc' vec' (firstn l a ++ v :: skipn (S l) a)
  | _, _ => a
  end.
Fixpoint chunks (n nf : nat) (a : list V) : list (list V) :=
  match n with 0 => [] | S n' => firstn nf a :: chunks n' nf (skipn nf a) end.
(** 176-177: int(gridSize * density).  Exact rational arithmetic on the float's
    value: the rounding of the float product is not modelled. *)
Definition numNonZero (np nf : nat) (sparsity : Q) : nat :=
  Z.to_nat (Qfloor (inject_Z (Z.of_nat (np * nf)) * (1 - sparsity))).
(** 201-203: the dense result *)
Definition denseData (np nf : nat) (loc : list nat) (vec : list V) : list (list V) :=
  chunks np nf (putFlat loc vec (repeat zero (np * nf))).
(** 190-200: the Sparse result *)
Definition sparseData (np nf : nat) (loc : list nat) (vec : list V) : sparse V :=
  mkSp np nf (map (fun p => mkE (fst p / nf) (fst p mod nf) (snd p)) (combine loc vec)) None None.
Inductive generated := GDense (rows : list (list V)) | GSparse (s : sparse V).
(** [choice grid k]: k positions; [values k]: k random values; both as drawn
    after seeding.  153-210 *)
Variable choice : nat -> nat -> list nat.
Variable values : nat -> list V.
Definition randomData (np nf : Z) (sparsity : Q) (wantSparse : bool) : result generated :=
  if (np <? 1)%Z then Err InvalidArgumentValue
  else if (nf <? 1)%Z then Err InvalidArgumentValue
  else if negb (Qle_bool 0 sparsity) || Qle_bool 1 sparsity then Err InvalidArgumentType
  else
    let p := Z.to_nat np in
    let f := Z.to_nat nf in
    if negb (Qle_bool sparsity 0) then
      let k := numNonZero p f sparsity in
      let loc := choice (p * f) k in
      let vec := values k in
      if wantSparse then Ok (GSparse (sparseData p f loc vec)) else Ok (GDense (denseData p f loc vec))
    else
      (* numpyRandom.randint/normal(size=size), row-major; a Sparse object is
         then made of its non-zero entries by the constructor *)
      Ok (GDense (chunks p f (values (p * f)))).
End Data.
Arguments putFlat {V} _ _ _.
Arguments chunks {V} _ _ _.
Arguments denseData {V} _ _ _ _ _.
Arguments sparseData {V} _ _ _ _.
Arguments GDense {V} _.
Arguments GSparse {V} _.
Arguments randomData {V} _ _ _ _ _ _ _.
