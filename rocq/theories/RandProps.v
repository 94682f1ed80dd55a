(** Properties C36, C37, C55 (nimble.random).  Definitions used in the
    statements: RandSpec.v, SparseSpec.v.  The generators are arbitrary: any
    state types, seeding and drawing functions. *)
From Verif Require Import Base NamesModel TableModel SparseModel SparseSpec RandModel RandSpec RandProofs.
From Coq Require Import QArith Qround Lqa.
Open Scope list_scope.
Open Scope nat_scope.

(** C36: whatever the block does (draw, raise, nest, fail to seed), the random
    state and the permission to call setSeed are as before. *)
Theorem C36_block_restores :
  forall (PS NS O : Type) (pySeed : option Z -> nat -> result PS) (npSeed : option Z -> nat -> result NS)
    (pyDraw : PS -> PS * O) (npDraw : NS -> NS * O) seed body st st' os ok,
  exec pySeed npSeed pyDraw npDraw (Alt seed body (fun _ => Done)) st = (st', os, ok) -> sameRandom st st'.
Proof. intros until ok. apply alt_restores. Qed.
Print Assumptions C36_block_restores.
(** C36: a program that runs a block, catching what it may raise, and goes on
    as [k] draws exactly what [k] alone would draw, and ends the same way. *)
Theorem C36_block_transparent :
  forall (PS NS O : Type) (pySeed : option Z -> nat -> result PS) (npSeed : option Z -> nat -> result NS)
    (pyDraw : PS -> PS * O) (npDraw : NS -> NS * O) seed body k st,
  seedsFixed pySeed -> seedsFixed npSeed -> noEntropy k ->
  let ex := exec pySeed npSeed pyDraw npDraw in
  exists inside,
    outs (ex (Try (Alt seed body (fun _ => Done)) (fun _ _ => k)) st) = inside ++ outs (ex k st) /\
    snd (ex (Try (Alt seed body (fun _ => Done)) (fun _ _ => k)) st) = snd (ex k st) /\
    sameRandom (fst (fst (ex (Try (Alt seed body (fun _ => Done)) (fun _ _ => k)) st))) (fst (fst (ex k st))).
Proof.
  intros PS NS O pS nS pD nD seed body k st HP HN Hk ex.
  destruct (alt_unfold pS nS pD nD seed body (fun _ => Done) st) as (st2 & os & r & HS & E & _).
  destruct (exec_same pS nS pD nD HP HN k Hk st st2 HS) as (Q1 & Q2 & Q3).
  exists os. unfold ex. change (exec pS nS pD nD (Try (Alt seed body (fun _ => Done)) (fun _ _ => k)) st) with
    (let '(st1, os1, r1) := exec pS nS pD nD (Alt seed body (fun _ => Done)) st in
     let '(st2, os2, r2) := exec pS nS pD nD k st1 in (st2, os1 ++ os2, r2)).
  rewrite E. destruct (exec pS nS pD nD k st2) as [[a b] c]. destruct (exec pS nS pD nD k st) as [[a' b'] c'].
  unfold outs in *. cbn [fst snd] in *. subst. split; auto. split; auto.
  destruct Q1 as (? & ? & ?). repeat split; auto.
Qed.
Print Assumptions C36_block_transparent.
(** C36: inside a block, at any depth, setSeed raises and changes nothing. *)
Theorem C36_setSeed_refused :
  forall (PS NS O : Type) (pySeed : option Z -> nat -> result PS) (npSeed : option Z -> nat -> result NS)
    (pyDraw : PS -> PS * O) (npDraw : NS -> NS * O) (p : prog O) seed k st,
  settable st = false ->
  let st1 := fst (fst (exec pySeed npSeed pyDraw npDraw p st)) in
  settable st1 = false /\ exec pySeed npSeed pyDraw npDraw (SetSeed seed k) st1 = (st1, [], false).
Proof.
  intros PS NS O pS nS pD nD p seed k st H st1.
  assert (Q : settable st1 = false) by (unfold st1; rewrite exec_settable; auto).
  split; auto. cbn [exec]. unfold setSeed. rewrite Q. reflexivity.
Qed.
Print Assumptions C36_setSeed_refused.
(** C36: what is drawn inside a block opened with an integer seed depends on
    that seed only, not on anything drawn or seeded before. *)
Theorem C36_block_reproducible :
  forall (PS NS O : Type) (pySeed : option Z -> nat -> result PS) (npSeed : option Z -> nat -> result NS)
    (pyDraw : PS -> PS * O) (npDraw : NS -> NS * O),
  seedsFixed pySeed -> seedsFixed npSeed -> forall z body, noEntropy body -> forall st st',
  outs (exec pySeed npSeed pyDraw npDraw (Alt (Some z) body (fun _ => Done)) st) =
  outs (exec pySeed npSeed pyDraw npDraw (Alt (Some z) body (fun _ => Done)) st') /\
  snd (exec pySeed npSeed pyDraw npDraw (Alt (Some z) body (fun _ => Done)) st) =
  snd (exec pySeed npSeed pyDraw npDraw (Alt (Some z) body (fun _ => Done)) st').
Proof. exact @alt_reproducible. Qed.
Print Assumptions C36_block_reproducible.
(** C55: after a successful setSeed(z) everything drawn depends on z only. *)
Theorem C55_setSeed_reproducible :
  forall (PS NS O : Type) (pySeed : option Z -> nat -> result PS) (npSeed : option Z -> nat -> result NS)
    (pyDraw : PS -> PS * O) (npDraw : NS -> NS * O),
  seedsFixed pySeed -> seedsFixed npSeed -> forall z body, noEntropy body -> forall st st',
  settable st = true -> settable st' = true -> snd (setSeed pySeed npSeed (Some z) st) = true ->
  outs (exec pySeed npSeed pyDraw npDraw (SetSeed (Some z) body) st) =
  outs (exec pySeed npSeed pyDraw npDraw (SetSeed (Some z) body) st') /\
  snd (exec pySeed npSeed pyDraw npDraw (SetSeed (Some z) body) st) =
  snd (exec pySeed npSeed pyDraw npDraw (SetSeed (Some z) body) st').
Proof. exact @seed_reproducible. Qed.
Print Assumptions C55_setSeed_reproducible.

(** an example generator: the state is a number; numpy rejects negative seeds,
    Python does not *)
Definition exPy (s : option Z) (w : nat) : result Z := match s with Some z => Ok z | None => Ok (Z.of_nat w) end.
Definition exNp (s : option Z) (w : nat) : result Z :=
  match s with Some z => if (z <? 0)%Z then Err ValueErr else Ok z | None => Ok (Z.of_nat w) end.
Definition exDraw (s : Z) : Z * Z := (s + 1, s)%Z.
Definition exDraw2 (s : Z) : Z * Z := (s + 10, s)%Z.
Example ex_seedsFixed : seedsFixed exPy /\ seedsFixed exNp.
Proof. split; intros z w w'; reflexivity. Qed.
Example C36_example :
  exec exPy exNp exDraw exDraw2
    (DrawPy (fun _ => Try (Alt (Some 100%Z) (DrawPy (fun _ => Try (Alt (Some 5%Z) (DrawNp (fun _ => Fail)) (fun _ => Done))
       (fun _ _ => DrawPy (fun _ => SetSeed (Some 1%Z) Done)))) (fun _ => Done))
       (fun _ _ => DrawPy (fun _ => DrawNp (fun _ => Done))))) (mkR 0 0 true 0)%Z =
  (mkR 2 10 true 2, [0; 100; 5; 101; 1; 0], true)%Z.
Proof. reflexivity. Qed.
(** C55 refuted: a setSeed that raises (a negative seed) has already reseeded
    one of the two sources. *)
Theorem C55_failed_setSeed_refuted :
  exists z st, snd (setSeed exPy exNp (Some z) st) = false /\ ~ sameRandom st (fst (setSeed exPy exNp (Some z) st)).
Proof. exists (-1)%Z, (mkR 7 7 true 0)%Z. split; [reflexivity|]. intros (H & _). discriminate. Qed.
Print Assumptions C55_failed_setSeed_refuted.

(** C37: for 0 < sparsity < 1, and for every choice of distinct positions and
    non-zero values by the generator, the result has the requested shape, is the
    same matrix for the dense and Sparse return types, and has exactly
    points*features - floor(points*features*(1-sparsity)) zeros.  The Sparse
    object satisfies its invariant. *)
Theorem C37_random_data :
  forall (V : Type) (EV : EqDec V) (zero : V) (np nf : nat) (sparsity : Q) choice values,
  0 < np -> 0 < nf -> (0 < sparsity)%Q -> (sparsity < 1)%Q ->
  (forall n k, k <= n -> NoDup (choice n k) /\ List.length (choice n k) = k /\ forall l, In l (choice n k) -> l < n) ->
  (forall k, List.length (values k) = k /\ forall v, In v (values k) -> v <> zero) ->
  exists rows s,
    randomData zero choice values (Z.of_nat np) (Z.of_nat nf) sparsity false = Ok (GDense rows) /\
    randomData zero choice values (Z.of_nat np) (Z.of_nat nf) sparsity true = Ok (GSparse s) /\
    hasShape np nf rows /\ snp s = np /\ snf s = nf /\ entsOK zero s /\
    (forall i j, i < np -> j < nf -> val zero s i j = at_ zero rows i j) /\
    Z.of_nat (zerosIn zero rows) = (Z.of_nat (np * nf) - Qfloor (inject_Z (Z.of_nat (np * nf)) * (1 - sparsity)))%Z.
Proof.
  intros V EV zero np nf sp choice values Hp Hf H0 H1 HC HV.
  set (k := numNonZero np nf sp).
  assert (Hk : k <= np * nf) by (apply numNonZero_le; lra).
  destruct (HC (np * nf) k Hk) as (C1 & C2 & C3). destruct (HV k) as (V1 & V2).
  destruct (data_spec zero np nf (choice (np * nf) k) (values k) Hf C1 C3 ltac:(lia) V2) as (D1 & D2 & D3 & D4 & D5 & _ & D7).
  exists (denseData zero np nf (choice (np * nf) k) (values k)), (sparseData np nf (choice (np * nf) k) (values k)).
  assert (E : forall b, randomData zero choice values (Z.of_nat np) (Z.of_nat nf) sp b =
     if b then Ok (GSparse (sparseData np nf (choice (np * nf) k) (values k))) else Ok (GDense (denseData zero np nf (choice (np * nf) k) (values k)))).
  { intros b. unfold randomData. rewrite (proj2 (Z.ltb_ge _ _)), (proj2 (Z.ltb_ge _ _)) by lia.
    replace (Qle_bool 0 sp) with true by (symmetry; apply Qle_bool_iff; lra).
    replace (Qle_bool 1 sp) with false by (symmetry; apply not_true_iff_false; rewrite Qle_bool_iff; lra).
    replace (Qle_bool sp 0) with false by (symmetry; apply not_true_iff_false; rewrite Qle_bool_iff; lra).
    cbn [negb orb]. rewrite !Nat2Z.id. fold k. reflexivity. }
  rewrite !E. split; [reflexivity|]. split; [reflexivity|].
  split; [exact D1|]. split; [exact D2|]. split; [exact D3|]. split; [exact D4|]. split; [exact D5|].
  rewrite C2 in D7.
  assert (Hz : (0 <= Qfloor (inject_Z (Z.of_nat (np * nf)) * (1 - sp)))%Z).
  { change 0%Z with (Qfloor 0). apply Qfloor_resp_le. apply Qmult_le_0_compat; [|lra].
    change 0%Q with (inject_Z 0). rewrite <- Zle_Qle. lia. }
  assert (Hkz : Z.of_nat k = Qfloor (inject_Z (Z.of_nat (np * nf)) * (1 - sp))) by (unfold k, numNonZero; rewrite Z2Nat.id; auto).
  rewrite <- Hkz. lia.
Qed.
Print Assumptions C37_random_data.
(** C37: with sparsity 0 every cell is a drawn value. *)
Theorem C37_random_full :
  forall (V : Type) (zero : V) (np nf : nat) choice (values : nat -> list V) b,
  0 < np -> 0 < nf -> (forall k, List.length (values k) = k) ->
  exists rows, randomData zero choice values (Z.of_nat np) (Z.of_nat nf) 0 b = Ok (GDense rows) /\
    hasShape np nf rows /\ List.concat rows = values (np * nf).
Proof.
  intros V zero np nf choice values b Hp Hf HV.
  exists (chunks np nf (values (np * nf))). split.
  - unfold randomData. rewrite (proj2 (Z.ltb_ge _ _)), (proj2 (Z.ltb_ge _ _)) by lia. cbn. rewrite !Nat2Z.id. reflexivity.
  - destruct (chunks_spec nf np (values (np * nf)) (HV _)) as (S1 & C & _). auto.
Qed.
Print Assumptions C37_random_full.
(** C37: bad sizes and sparsities are rejected *)
Theorem C37_random_rejects :
  forall (V : Type) (zero : V) np nf sparsity choice values b,
  (np < 1)%Z \/ (nf < 1)%Z \/ (sparsity < 0)%Q \/ (1 <= sparsity)%Q ->
  exists e, randomData zero choice values np nf sparsity b = @Err (generated V) e.
Proof.
  intros V zero np nf sp choice values b H. unfold randomData.
  destruct (np <? 1)%Z eqn:E1; [eauto|]. destruct (nf <? 1)%Z eqn:E2; [eauto|].
  apply Z.ltb_ge in E1, E2.
  destruct (negb (Qle_bool 0 sp) || Qle_bool 1 sp) eqn:E3; [eauto|]. exfalso.
  apply orb_false_iff in E3. destruct E3 as [E3 E4]. apply negb_false_iff, Qle_bool_iff in E3.
  apply not_true_iff_false in E4. rewrite Qle_bool_iff in E4. destruct H as [H|[H|[H|H]]]; [lia|lia|lra|tauto].
Qed.
Print Assumptions C37_random_rejects.
Example C37_example :
  randomData 0 (fun _ _ => [5; 0; 3]) (fun _ => [7; 8; 9]) 2 3 (1 # 2) false = Ok (GDense [[8; 0; 0]; [9; 0; 7]]) /\
  randomData 0 (fun _ _ => [5; 0; 3]) (fun _ => [7; 8; 9]) 2 3 (1 # 2) true =
    Ok (GSparse (mkSp 2 3 [mkE 1 2 7; mkE 0 0 8; mkE 1 0 9] None None)).
Proof. split; reflexivity. Qed.
(** the float written 0.9 is a little larger than 9/10: of 10 cells none, not
    one, is non-zero *)
Example C37_float_example : numNonZero 2 5 (8106479329266893 # 9007199254740992) = 0 /\ numNonZero 2 5 (9 # 10) = 1.
Proof. split; reflexivity. Qed.
