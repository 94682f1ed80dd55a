(** Property C58: matrix multiplication and matrix powers.  Definitions used in
    the statements: MatMulSpec.v (TotalIs, TotalFails, StringsToNumbers, IntArith,
    IsMatrix, product, unit, mpower), BinOpSpec.v (NamesConsistent, AllNumeric),
    TableSpec.v (wf, cell).  In each theorem [floatOf] is the reading of a string
    as a number, [pyMul] and [pyAdd] are Python's operations on two elements and
    [scipyInv] is scipy's inversion. *)
From Verif Require Import Base NamesModel NamesSpec NamesProofs TableModel TableSpec TableProofs TableOps MatchModel MatchSpec MatchProofs
  ElementsModel ElementsSpec ElementsCalcProofs BinOpModel BinOpSpec BinOpProofs BinOpProps StretchProps MatMulModel MatMulSpec MatMulProofs.
From Coq Require Import QArith.
Open Scope string_scope.
Open Scope list_scope.
Open Scope nat_scope.

(** [a @ b] ([refl = false]) or [b @ a] asked of [a] ([refl = true]) for numeric
    objects that are not empty: it succeeds exactly when the inner dimensions
    agree, their names are consistent and no element operation raises; element
    (i, j) is the total of the products along row i and column j; the points are
    those of the left operand, the features those of the right one. *)
Theorem C58_matmul :
  forall floatOf pyMul pyAdd refl s b,
  wf s -> wf b -> 0 < alen (tp s) -> 0 < alen (tf s) -> 0 < alen (tp b) -> 0 < alen (tf b) -> AllNumeric floatOf s -> AllNumeric floatOf b ->
  exists s1 b1 res, matMul floatOf pyMul pyAdd refl s (MBase b) = (s1, MBase b1, res) /\ StringsToNumbers floatOf s s1 /\ StringsToNumbers floatOf b b1 /\
  let l := if refl then b1 else s1 in
  let r := if refl then s1 else b1 in
  let Compatible := alen (tf l) = alen (tp r) /\ NamesConsistent (getNames (tf l)) (getNames (tp r)) in
  match res with
  | Ok c => Compatible /\ wf c /\ alen (tp c) = alen (tp l) /\ alen (tf c) = alen (tf r) /\ getNames (tp c) = getNames (tp l) /\ getNames (tf c) = getNames (tf r) /\
      forall i j, i < alen (tp c) -> j < alen (tf c) -> exists v, cell c i j = Some v /\ TotalIs pyMul pyAdd (cell l i) (fun k => cell r k j) (alen (tf l)) v
  | Err e => (e = InvalidArgumentValue /\ ~ Compatible) \/
      (Compatible /\ exists i j, i < alen (tp l) /\ j < alen (tf r) /\ TotalFails pyMul pyAdd (cell l i) (fun k => cell r k j) (alen (tf l)) e)
  end.
Proof. exact matMul_spec. Qed.
Print Assumptions C58_matmul.
(** What is refused before any multiplication, and that it changes nothing
    (except that the data of the object asked may have become numbers). *)
Theorem C58_empty :
  forall floatOf pyMul pyAdd refl s b, alen (tp s) = 0 \/ alen (tf s) = 0 \/ alen (tp b) = 0 \/ alen (tf b) = 0 ->
  matMul floatOf pyMul pyAdd refl s (MBase b) = (s, MBase b, Err ImproperObjectAction).
Proof. exact matMul_empty. Qed.
Print Assumptions C58_empty.
Theorem C58_not_numeric :
  forall floatOf pyMul pyAdd refl s b, wf s -> wf b -> 0 < alen (tp s) -> 0 < alen (tf s) -> 0 < alen (tp b) -> 0 < alen (tf b) ->
  (~ AllNumeric floatOf s -> matMul floatOf pyMul pyAdd refl s (MBase b) = (s, MBase b, Err ImproperObjectAction)) /\
  (AllNumeric floatOf s -> ~ AllNumeric floatOf b -> exists s1, matMul floatOf pyMul pyAdd refl s (MBase b) = (s1, MBase b, Err InvalidArgumentValue) /\ StringsToNumbers floatOf s s1).
Proof. exact matMul_nonnumeric. Qed.
Print Assumptions C58_not_numeric.
Theorem C58_not_an_object :
  forall floatOf pyMul pyAdd refl s, matMul floatOf pyMul pyAdd refl s MJunk = (s, MJunk, Err TypeErr).
Proof. reflexivity. Qed.
Print Assumptions C58_not_an_object.
(** [a @= b]: the object becomes the product; when refused, it is as [@] leaves it. *)
Theorem C58_in_place :
  forall floatOf pyMul pyAdd s o s' o' res, matMul floatOf pyMul pyAdd false s o = (s', o', res) ->
  imatMul floatOf pyMul pyAdd s o = (match res with Ok c => c | Err _ => s' end, o', res).
Proof. intros floatOf pyMul pyAdd s o s' o' res H. unfold imatMul. rewrite H. destruct res; reflexivity. Qed.
Print Assumptions C58_in_place.

(** ** Integer matrices *)
Theorem C58_integers :
  forall floatOf pyMul pyAdd, IntArith pyMul pyAdd -> forall a b n k m A B,
  IsMatrix a n k A -> IsMatrix b k m B -> 0 < n -> 0 < k -> 0 < m -> NamesConsistent (getNames (tf a)) (getNames (tp b)) ->
  exists a1 b1 c, matMul floatOf pyMul pyAdd false a (MBase b) = (a1, MBase b1, Ok c) /\ IsMatrix a1 n k A /\ IsMatrix b1 k m B /\ IsMatrix c n m (product k A B) /\
    getNames (tp c) = getNames (tp a) /\ getNames (tf c) = getNames (tf b) /\ tp a1 = tp a /\ tf a1 = tf a /\ tp b1 = tp b /\ tf b1 = tf b.
Proof. exact matMul_int. Qed.
Print Assumptions C58_integers.
(** Associativity: (a @ b) @ c and a @ (b @ c) have the same elements and names. *)
Theorem C58_associative :
  forall floatOf pyMul pyAdd, IntArith pyMul pyAdd -> forall a b c n k m l A B C,
  IsMatrix a n k A -> IsMatrix b k m B -> IsMatrix c m l C -> 0 < n -> 0 < k -> 0 < m -> 0 < l ->
  NamesConsistent (getNames (tf a)) (getNames (tp b)) -> NamesConsistent (getNames (tf b)) (getNames (tp c)) ->
  let times x y := snd (matMul floatOf pyMul pyAdd false x (MBase y)) in
  exists ab bc x y, times a b = Ok ab /\ times ab c = Ok x /\ times b c = Ok bc /\ times a bc = Ok y /\
    (forall i j, i < n -> j < l -> cell x i j <> None /\ cell x i j = cell y i j) /\
    getNames (tp x) = getNames (tp y) /\ getNames (tf x) = getNames (tf y).
Proof.
  intros floatOf pyMul pyAdd IA a b c n k m l A B C Ha Hb Hc Hn Hk Hm Hl N1 N2 times.
  destruct (matMul_int floatOf pyMul pyAdd IA a b n k m A B Ha Hb Hn Hk Hm N1) as (a1 & b1 & ab & E1 & _ & _ & I1 & P1 & F1 & _).
  destruct (matMul_int floatOf pyMul pyAdd IA b c k m l B C Hb Hc Hk Hm Hl N2) as (b2 & c2 & bc & E2 & _ & _ & I2 & P2 & F2 & _).
  destruct (matMul_int floatOf pyMul pyAdd IA ab c n m l _ C I1 Hc Hn Hm Hl) as (x1 & x2 & x & E3 & _ & _ & I3 & P3 & F3 & _); [rewrite F1; exact N2|].
  destruct (matMul_int floatOf pyMul pyAdd IA a bc n k l A _ Ha I2 Hn Hk Hl) as (y1 & y2 & y & E4 & _ & _ & I4 & P4 & F4 & _); [rewrite P2; exact N1|].
  exists ab, bc, x, y. unfold times. rewrite E1, E2, E3, E4. do 4 (split; [reflexivity|]). split; [|split; congruence].
  intros i j Hi Hj. destruct I3 as (_ & _ & _ & I3). destruct I4 as (_ & _ & _ & I4). rewrite I3, I4 by assumption.
  split; [discriminate|]. rewrite product_assoc. reflexivity.
Qed.
Print Assumptions C58_associative.
(** A power p >= 0 of a square integer object is the mathematical power, under
    the names of the object. *)
Theorem C58_power :
  forall floatOf pyMul pyAdd scipyInv, IntArith pyMul pyAdd -> forall t n A p, IsMatrix t n n A -> 0 < n ->
  exists r, matrixPower floatOf pyMul pyAdd scipyInv t (Z.of_nat p) = Ok r /\ IsMatrix r n n (mpower n A p) /\ getNames (tp r) = getNames (tp t) /\ getNames (tf r) = getNames (tf t).
Proof. exact matrixPower_int. Qed.
Print Assumptions C58_power.
(** The product of powers p and q is the power p + q. *)
Theorem C58_power_sum :
  forall floatOf pyMul pyAdd scipyInv, IntArith pyMul pyAdd -> forall t n A p q, IsMatrix t n n A -> 0 < n -> NamesConsistent (getNames (tf t)) (getNames (tp t)) ->
  let power e := matrixPower floatOf pyMul pyAdd scipyInv t (Z.of_nat e) in
  exists x y z w, power p = Ok x /\ power q = Ok y /\ power (p + q) = Ok z /\ snd (matMul floatOf pyMul pyAdd false x (MBase y)) = Ok w /\
    (forall i j, i < n -> j < n -> cell w i j <> None /\ cell w i j = cell z i j) /\ getNames (tp w) = getNames (tp z) /\ getNames (tf w) = getNames (tf z).
Proof.
  intros floatOf pyMul pyAdd scipyInv IA t n A p q Ht Hn N power.
  destruct (matrixPower_int floatOf pyMul pyAdd scipyInv IA t n A p Ht Hn) as (x & Ex & Ix & Px & Fx).
  destruct (matrixPower_int floatOf pyMul pyAdd scipyInv IA t n A q Ht Hn) as (y & Ey & Iy & Py & Fy).
  destruct (matrixPower_int floatOf pyMul pyAdd scipyInv IA t n A (p + q) Ht Hn) as (z & Ez & Iz & Pz & Fz).
  destruct (matMul_int floatOf pyMul pyAdd IA x y n n n _ _ Ix Iy Hn Hn Hn) as (x1 & y1 & w & Ew & _ & _ & Iw & Pw & Fw & _); [rewrite Fx, Py; exact N|].
  exists x, y, z, w. unfold power. rewrite Ew. do 4 (split; [assumption || reflexivity|]). split; [|split; congruence].
  intros i j Hi Hj. destruct Iw as (_ & _ & _ & Iw). destruct Iz as (_ & _ & _ & Iz). rewrite Iw, Iz by assumption. split; [discriminate|].
  rewrite mpower_add by assumption. reflexivity.
Qed.
Print Assumptions C58_power_sum.
(** A power -p < 0 is the power p of the inverse, under the names of the object. *)
Theorem C58_negative_power :
  forall floatOf pyMul pyAdd scipyInv t p m, wf t -> alen (tp t) = alen (tf t) -> 0 < alen (tp t) -> (0 < p)%Z -> scipyInv (rows t) = Ok m -> shape m (alen (tp t)) (alen (tp t)) ->
  let inv := mkTable (mkAxis (alen (tp t)) None) (mkAxis (alen (tf t)) None) m in
  match matrixPower floatOf pyMul pyAdd scipyInv inv p with
  | Ok r' => exists r, matrixPower floatOf pyMul pyAdd scipyInv t (- p) = Ok r /\ wf r /\ rows r = rows r' /\ getNames (tp r) = getNames (tp t) /\ getNames (tf r) = getNames (tf t)
  | Err e => matrixPower floatOf pyMul pyAdd scipyInv t (- p) = Err e
  end.
Proof. exact matrixPower_negative. Qed.
Print Assumptions C58_negative_power.
Theorem C58_singular :
  forall floatOf pyMul pyAdd scipyInv t p e, alen (tp t) = alen (tf t) -> 0 < alen (tp t) -> (0 < p)%Z -> scipyInv (rows t) = Err e ->
  matrixPower floatOf pyMul pyAdd scipyInv t (- p) = Err e.
Proof.
  intros floatOf pyMul pyAdd scipyInv t p e Sq Hn Hp H. unfold matrixPower. rewrite <- Sq, Nat.eqb_refl. cbn [negb].
  destruct (- p =? 0)%Z eqn:Z2; [apply Z.eqb_eq in Z2; lia|]. destruct (0 <? - p)%Z eqn:Z3; [apply Z.ltb_lt in Z3; lia|].
  unfold inverse. destruct (alen (tp t) =? 0) eqn:Z4; [apply Nat.eqb_eq in Z4; lia|]. rewrite H. reflexivity.
Qed.
Print Assumptions C58_singular.
Theorem C58_not_square :
  forall floatOf pyMul pyAdd scipyInv t p, alen (tp t) <> alen (tf t) -> matrixPower floatOf pyMul pyAdd scipyInv t p = Err ImproperObjectAction.
Proof. exact matrixPower_square. Qed.
Print Assumptions C58_not_square.

(** ** What does not hold *)
Definition mul58 (a b : pval) : result pval := match a, b with PInt x, PInt y => Ok (PInt (x * y)) | _, _ => Ok (PFloat 0) end.
Definition add58 (a b : pval) : result pval := match a, b with PInt x, PInt y => Ok (PInt (x + y)) | _, _ => Ok (PFloat 0) end.
Definition float58 (s : string) : option pval := if (s =? "7")%string then Some (PFloat 7) else None.
Definition inv58 (m : list (list pval)) : result (list (list pval)) := Ok m.
(** A multiplication that is refused can still have changed the object: its
    numeric strings are floats afterwards. *)
Theorem C58_refused_changes_refuted :
  exists s b s1 e, wf s /\ wf b /\ matMul float58 mul58 add58 false s (MBase b) = (s1, MBase b, Err e) /\ rows s1 <> rows s.
Proof.
  exists (tab57 [None] [None; None] [[PInt 1; PStr "7"]]), (tab57 [None; None] [None] [[PInt 1]; [PStr "x"]]). do 2 eexists.
  split; [apply tab57_wf; [reflexivity|cbn; intros r Hr; repeat destruct Hr as [<-|Hr]; try reflexivity; contradiction]|]. split; [apply tab57_wf; [reflexivity|cbn; intros r Hr; repeat destruct Hr as [<-|Hr]; try reflexivity; contradiction]|]. split; [reflexivity|]. discriminate.
Qed.
Print Assumptions C58_refused_changes_refuted.
(** The power 0 of an object without points and features is refused although
    its power 1 is not. *)
Theorem C58_empty_power_zero_refuted :
  exists t r, wf t /\ alen (tp t) = alen (tf t) /\ matrixPower float58 mul58 add58 inv58 t 1 = Ok r /\ matrixPower float58 mul58 add58 inv58 t 0 = Err InvalidArgumentValue.
Proof.
  exists (tab57 [] [] []). eexists. split; [apply tab57_wf; [reflexivity|cbn; intros r Hr; repeat destruct Hr as [<-|Hr]; try reflexivity; contradiction]|]. split; [reflexivity|]. split; reflexivity.
Qed.
Print Assumptions C58_empty_power_zero_refuted.

(** ** Non-vacuity *)
Example C58_example_arith : IntArith mul58 add58.
Proof. split; reflexivity. Qed.
Definition a58 := mkTable (exAxis [Some "p"; Some "q"]) (exAxis [Some "x"; Some "y"]) [[PInt 1; PInt 2]; [PInt 3; PInt 4]].
Definition b58 := mkTable (mkAxis 2 None) (exAxis [Some "z"]) [[PInt 5]; [PInt 6]].
Example C58_example_product :
  exists c, matMul float58 mul58 add58 false a58 (MBase b58) = (a58, MBase b58, Ok c) /\ rows c = [[PInt 17]; [PInt 39]] /\
    getNames (tp c) = [Some "p"; Some "q"] /\ getNames (tf c) = [Some "z"].
Proof. eexists. split; [vm_compute; reflexivity|]. repeat split; vm_compute; reflexivity. Qed.
Example C58_example_reflected :
  exists c, matMul float58 mul58 add58 true b58 (MBase a58) = (b58, MBase a58, Ok c) /\ rows c = [[PInt 17]; [PInt 39]].
Proof. eexists. split; vm_compute; reflexivity. Qed.
Example C58_example_power :
  exists c, matrixPower float58 mul58 add58 inv58 a58 3 = Ok c /\ rows c = [[PInt 37; PInt 54]; [PInt 81; PInt 118]] /\ getNames (tf c) = [Some "x"; Some "y"].
Proof. eexists. split; [vm_compute; reflexivity|]. split; vm_compute; reflexivity. Qed.
Example C58_example_conflict : (* inner names in different places *)
  snd (matMul float58 mul58 add58 false a58 (MBase (mkTable (exAxis [Some "y"; Some "x"]) (exAxis [Some "z"]) [[PInt 5]; [PInt 6]]))) = Err InvalidArgumentValue.
Proof. vm_compute. reflexivity. Qed.
Example C58_example_matrix : IsMatrix (tab57 [None; None] [None; None] [[PInt 1; PInt 2]; [PInt 3; PInt 4]]) 2 2 (fun i j => Z.of_nat (1 + 2 * i + j)).
Proof.
  split; [apply tab57_wf; [reflexivity|cbn; intros r Hr; repeat destruct Hr as [<-|Hr]; try reflexivity; contradiction]|]. split; [reflexivity|]. split; [reflexivity|].
  intros [|[|i]] [|[|j]] Hi Hj; try lia; reflexivity.
Qed.
