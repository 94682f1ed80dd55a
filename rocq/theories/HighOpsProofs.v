(** Proofs about operations on data with more than two dimensions (C68). *)
From Coq Require Import QArith.
From Coq Require Import Ascii String.
From Verif Require Import Base HighModel HighSpec HighProofs.
From Coq Require Import List.
Import ListNotations.
Open Scope list_scope.
Open Scope nat_scope.

Lemma gather_spec rows is : (forall i, In i is -> i < length rows) ->
  exists out, gatherRows rows is = Ok out /\ ElementsAt rows is out.
Proof.
  unfold gatherRows, ElementsAt. induction is as [|i is IH]; intros H; [exists []; auto|].
  destruct IH as (out & E & HF); [intros j Hj; apply H; cbn; auto|].
  destruct (nth_error rows i) as [r|] eqn:ER.
  - exists (r :: out). cbn [rmapM]. rewrite ER. cbn [rbind]. rewrite E. cbn [rbind]. auto.
  - apply nth_error_None in ER. specialize (H i (or_introl eq_refl)). lia.
Qed.

Lemma elementsAt_fun {A} (l : list A) is : forall a b, ElementsAt l is a -> ElementsAt l is b -> a = b.
Proof.
  induction is as [|i is IH]; intros a b HA HB; inversion HA; inversion HB; subst; [reflexivity|].
  f_equal; [congruence|]. apply IH; assumption.
Qed.

Lemma elementsAt_map {A B} (f : A -> B) l is out : ElementsAt l is out -> ElementsAt (map f l) is (map f out).
Proof. induction 1; constructor; auto. now apply map_nth_error. Qed.

Lemma elementsAt_len {A} (l : list A) is out : ElementsAt l is out -> length is = length out.
Proof. induction 1; cbn; auto. Qed.

Lemma elementsAt_Forall {A} (P : A -> Prop) l is out : ElementsAt l is out -> Forall P l -> Forall P out.
Proof.
  intros H HP. induction H; constructor; auto. rewrite Forall_forall in HP. eapply HP, nth_error_In; eauto.
Qed.

Lemma elementsAt_ok {A} (l : list A) is : (forall i, In i is -> i < length l) -> exists out, ElementsAt l is out.
Proof.
  unfold ElementsAt. induction is as [|i is IH]; intros H; [eauto|].
  destruct IH as [out HO]; [intros; apply H; cbn; auto|].
  destruct (nth_error l i) as [x|] eqn:E; [eauto|]. apply nth_error_None in E.
  specialize (H i (or_introl eq_refl)). lia.
Qed.

Lemma gather_leaves l is out : ElementsAt l is out -> gatherRows (map leaves l) is = Ok (map leaves out).
Proof.
  unfold gatherRows. induction 1 as [|i c is out Hi _ IH]; [reflexivity|]. cbn [rmapM map].
  rewrite (map_nth_error leaves _ _ Hi). cbn [rbind]. rewrite IH. reflexivity.
Qed.

Lemma gather_fail rows is : (exists i, In i is /\ length rows <= i) -> gatherRows rows is = Err IndexErr.
Proof.
  unfold gatherRows. induction is as [|i is IH]; intros (j & Hj & HL); [contradiction|]. cbn [rmapM].
  destruct (nth_error rows i) as [r|] eqn:E; [|reflexivity]. cbn [rbind].
  destruct Hj as [<-|Hj]; [assert (i < length rows) by (apply nth_error_Some; congruence); lia|].
  rewrite IH by eauto. reflexivity.
Qed.

(** Taking points apart from the object's dimensions. *)
Lemma holds_build l d ds rows : length (d :: ds) >= 2 -> length l = d -> Forall (fun c => HasShape c ds) l ->
  rows = map leaves l -> Holds {| hrows := rows; hdims := d :: ds |} (Node l).
Proof.
  intros HL <- HF ->. split; [cbn in *; lia|]. split; [constructor; exact HF|]. eauto.
Qed.

Lemma holds_parts o l : Holds o (Node l) -> exists ds, hdims o = length l :: ds /\ 1 <= length ds /\
  Forall (fun c => HasShape c ds) l /\ hrows o = map leaves l.
Proof.
  intros (HL & HS & l' & [= <-] & E). destruct (hdims o) as [|d ds]; cbn in HL; [lia|].
  apply shape_node in HS as (l' & [= <-] & <- & HF). exists ds. repeat split; auto. lia.
Qed.

Lemma pointsCopy_spec o l is l' : Holds o (Node l) -> ElementsAt l is l' ->
  exists r, pointsCopy o is = Ok r /\ Holds r (Node l') /\ tl (hdims r) = tl (hdims o).
Proof.
  intros H HE. apply holds_parts in H as (ds & ED & HL & HF & ER).
  unfold pointsCopy, backendCopy. rewrite ER, (gather_leaves _ _ _ HE). cbn [rbind hrows hdims firstn app].
  eexists. split; [reflexivity|]. rewrite ED. cbn [tl hdims]. split; [|reflexivity].
  apply holds_build; auto; [cbn; lia|now rewrite (elementsAt_len _ _ _ HE)|].
  eapply elementsAt_Forall; eauto.
Qed.

Lemma dropRows_spec rows is out : Without is 0 rows out -> dropRows rows is = out.
Proof.
  unfold dropRows. generalize 0 at 1 2. intros k H. induction H as [k|k x xs ys Hk _ IH|k x xs ys Hk _ IH]; [reflexivity| |];
  cbn [length seq combine filter fst].
  - rewrite (proj2 (mem_In k is) Hk). cbn [negb]. exact IH.
  - rewrite (proj2 (mem_not_In k is) Hk). cbn [negb map snd]. f_equal. exact IH.
Qed.

Lemma without_map {A B} (f : A -> B) is k l out : Without is k l out -> Without is k (map f l) (map f out).
Proof. induction 1; cbn [map]; [apply wo_nil|apply wo_drop|apply wo_keep]; auto. Qed.

Lemma without_Forall {A} (P : A -> Prop) is k l out : Without is k l out -> Forall P l -> Forall P out.
Proof. induction 1; intros HF; inversion HF; subst; auto. Qed.

Lemma without_ok {A} is (l : list A) : forall k, exists out, Without is k l out.
Proof.
  induction l as [|x xs IH]; intros k; [eexists; constructor|].
  destruct (IH (S k)) as [out HO]. destruct (in_dec Nat.eq_dec k is); eexists; [apply wo_drop|apply wo_keep]; eauto.
Qed.

Lemma without_len {A} (l : list A) : forall is k out, Without is k l out -> NoDup is ->
  (forall i, In i is -> k <= i < k + length l) -> length out + length is = length l.
Proof.
  induction l as [|x xs IH]; intros is k out H HN HR; inversion H; subst.
  - destruct is as [|i is]; [reflexivity|]. specialize (HR i (or_introl eq_refl)). cbn in HR. lia.
  - match goal with HI : In k is |- _ => apply in_split in HI as (a & b & ->) end.
    pose proof (NoDup_remove_1 _ _ _ HN) as HN1. pose proof (NoDup_remove_2 _ _ _ HN) as HN2.
    assert (HW : Without (a ++ b) (S k) xs out).
    { match goal with HW : Without _ (S k) xs out |- _ => rename HW into W end. clear - W.
      assert (G : forall m (ys zs : list A), Without (a ++ k :: b) m ys zs -> k < m -> Without (a ++ b) m ys zs).
      { intros m ys zs HW. induction HW as [|m x' xs' ys' Hm _ IHw|m x' xs' ys' Hm _ IHw]; intros Hkm.
        - apply wo_nil.
        - apply wo_drop; [|apply IHw; lia]. apply in_app_iff in Hm as [Hm|[Hm|Hm]]; [|lia|]; apply in_app_iff; auto.
        - apply wo_keep; [|apply IHw; lia]. intros HX. apply Hm. apply in_app_iff in HX as [HX|HX]; apply in_app_iff; cbn; auto. }
      apply G; [exact W|lia]. }
    specialize (IH _ _ _ HW HN1). rewrite !app_length in *. cbn [length] in *.
    rewrite <- IH; [lia|]. intros i Hi.
    assert (i <> k) by (intros ->; contradiction).
    assert (k <= i < k + S (length xs)) by (apply HR; apply in_app_iff; apply in_app_iff in Hi as [Hi|Hi]; cbn; auto). lia.
  - match goal with HW : Without is (S k) xs ?m |- _ => specialize (IH _ _ _ HW HN) end.
    cbn [length]. rewrite <- IH; [lia|]. intros i Hi. assert (i <> k) by (intros ->; contradiction).
    specialize (HR i Hi). cbn in HR. lia.
Qed.

Lemma pointsExtract_spec o l is : Holds o (Node l) -> NoDup is -> (forall i, In i is -> i < length l) ->
  exists ret rest l1 l2, pointsExtract o is = Ok (ret, rest) /\
    ElementsAt l is l1 /\ Without is 0 l l2 /\ Holds ret (Node l1) /\ Holds rest (Node l2) /\
    tl (hdims ret) = tl (hdims o) /\ tl (hdims rest) = tl (hdims o).
Proof.
  intros H HN HR. destruct (elementsAt_ok l is HR) as [l1 H1]. destruct (without_ok is l 0) as [l2 H2].
  destruct (pointsCopy_spec o l is l1 H H1) as (ret & E & HH & ET).
  unfold pointsExtract. rewrite E. cbn [rbind].
  assert (EL : length (hrows ret) = length is).
  { destruct (shapeOf_holds _ _ HH) as (_ & X & _). now rewrite X, (elementsAt_len _ _ _ H1). }
  pose proof (without_len l is 0 l2 H2 HN) as HLen. cbn [Nat.add] in HLen.
  apply holds_parts in H as (ds & ED & HL & HF & ER). rewrite ED, ER, EL.
  rewrite (dropRows_spec _ _ _ (without_map leaves _ _ _ _ H2)).
  rewrite ED in ET. exists ret. eexists. exists l1, l2. split; [reflexivity|].
  do 3 (split; [assumption|]). split; [|split; [exact ET|reflexivity]].
  apply holds_build; auto; [cbn; lia| |eapply without_Forall; eauto].
  rewrite <- (HLen (fun i Hi => conj (Nat.le_0_l i) (HR i Hi))). lia.
Qed.

Lemma pointsInsert_spec o l before other m : Holds o (Node l) -> Holds other (Node m) ->
  tl (hdims o) = tl (hdims other) ->
  exists r, pointsInsert o before other = Ok r /\ tl (hdims r) = tl (hdims o) /\
    Holds r (Node (firstn before l ++ m ++ skipn before l)).
Proof.
  intros H HO ET. pose proof (shapeOf_holds _ _ H) as (S1 & _ & _). pose proof (shapeOf_holds _ _ HO) as (S2 & _ & _).
  unfold pointsInsert. rewrite S1, S2. cbn [fst snd]. rewrite ET, Nat.eqb_refl. cbn [negb].
  apply holds_parts in H as (ds & ED & HL & HF & ER). apply holds_parts in HO as (es & EE & HL2 & HF2 & ER2).
  rewrite ED in *. rewrite EE in *. cbn [tl] in *. subst es. eexists. split; [reflexivity|]. split; [reflexivity|].
  apply holds_build.
  - cbn; lia.
  - rewrite !app_length. pose proof (firstn_skipn before l) as FS.
    assert (length (firstn before l) + length (skipn before l) = length l) by (rewrite <- app_length, FS; reflexivity). lia.
  - apply Forall_app. split; [|apply Forall_app; split; [exact HF2|]].
    + apply Forall_forall. intros c Hc. rewrite Forall_forall in HF. apply HF.
      rewrite <- (firstn_skipn before l). apply in_app_iff; auto.
    + apply Forall_forall. intros c Hc. rewrite Forall_forall in HF. apply HF.
      rewrite <- (firstn_skipn before l). apply in_app_iff; auto.
  - rewrite ER, ER2, !map_app, firstn_map, skipn_map. reflexivity.
Qed.

Lemma pointsInsert_reject o l before other m : Holds o (Node l) -> Holds other (Node m) ->
  size (tl (hdims o)) <> size (tl (hdims other)) ->
  pointsInsert o before other = Err (if length (hdims o) =? 2 then InvalidArgumentValue else ImproperObjectAction).
Proof.
  intros H HO ET. pose proof (shapeOf_holds _ _ H) as (S1 & _ & _). pose proof (shapeOf_holds _ _ HO) as (S2 & _ & _).
  unfold pointsInsert. rewrite S1, S2. cbn [fst snd]. change size with prodN in ET.
  rewrite (proj2 (Nat.eqb_neq _ _) ET). cbn [negb]. f_equal. unfold isHigh. destruct H as (HL & _).
  destruct (length (hdims o)) as [|[|[|n]]]; try lia; reflexivity.
Qed.

Lemma pointsPermute_spec o l order l' : Holds o (Node l) -> length order = length l -> ElementsAt l order l' ->
  exists r, pointsPermute o order = Ok r /\ Holds r (Node l') /\ hdims r = hdims o.
Proof.
  intros H HLn HE. apply holds_parts in H as (ds & ED & HL & HF & ER).
  unfold pointsPermute. rewrite ER, (gather_leaves _ _ _ HE). cbn [rbind].
  eexists. split; [reflexivity|]. rewrite ED. cbn [hdims]. split; [|reflexivity].
  apply holds_build; auto; [cbn; lia|rewrite <- (elementsAt_len _ _ _ HE); auto|].
  eapply elementsAt_Forall; eauto.
Qed.

(** flatten and unflatten. *)
Lemma shape_flat vs : HasShape (Node [Node (map Leaf vs)]) [1; length vs].
Proof.
  apply (hs_node [Node (map Leaf vs)] [length vs]). constructor; [|constructor].
  rewrite <- (map_length Leaf vs). constructor. apply Forall_map, Forall_forall. intros v _. constructor.
Qed.
Lemma leaves_flat vs : flat_map leaves (map Leaf vs) = vs.
Proof. induction vs; cbn; congruence. Qed.

Lemma flatten_spec o t : Holds o t -> 0 < size (hdims o) ->
  exists r, flattenObj o false = Ok r /\ hdims r = [1; size (hdims o)] /\ Holds r (Node [Node (map Leaf (leaves t))]).
Proof.
  intros H HP. change size with prodN in *. pose proof H as (_ & _ & l & -> & _).
  pose proof (shapeOf_holds _ _ H) as (ES & _ & _). pose proof (holds_concat _ _ H) as EC.
  pose proof H as (HL & HS & _). pose proof (leaves_length _ _ HS) as LL.
  unfold flattenObj. rewrite ES. apply holds_parts in H as (ds & ED & HL1 & HF & ER). rewrite ED in *. cbn [tl] in *.
  cbn [prodN fold_right] in HP, LL. fold (prodN ds) in HP, LL.
  assert (0 < length l /\ 0 < prodN ds) as [P1 P2] by nia.
  rewrite (proj2 (Nat.eqb_neq _ _)) by lia. rewrite (proj2 (Nat.eqb_neq _ _)) by lia. cbn [andb].
  eexists. split; [reflexivity|]. cbn [hdims]. split; [reflexivity|]. rewrite EC.
  split; [cbn; lia|]. cbn [hdims]. split; [rewrite <- LL; apply shape_flat|].
  eexists. split; [reflexivity|]. cbn [hrows map leaves]. now rewrite leaves_flat.
Qed.

Lemma flatten_reject o l byF : Holds o (Node l) ->
  size (hdims o) = 0 \/ (byF = true /\ 3 <= length (hdims o)) -> flattenObj o byF = Err ImproperObjectAction.
Proof.
  intros H HR. change size with prodN in *. pose proof (shapeOf_holds _ _ H) as (ES & _ & _).
  pose proof H as (HL & HS & _). unfold flattenObj. rewrite ES. unfold isHigh.
  apply holds_parts in H as (ds & ED & HL1 & HF & ER). rewrite ED in *. cbn [tl] in *.
  destruct (length l =? 0) eqn:E1; [reflexivity|]. destruct (prodN ds =? 0) eqn:E2; [reflexivity|].
  apply Nat.eqb_neq in E1. apply Nat.eqb_neq in E2. destruct HR as [HR|[-> HR]].
  - cbn [prodN fold_right] in HR. fold (prodN ds) in HR. nia.
  - rewrite (proj2 (Nat.ltb_lt _ _)) by lia. reflexivity.
Qed.

Lemma chunks_spec {A} d n : forall (l : list A), length l = d * n ->
  length (chunks d n l) = d /\ Forall (fun c => length c = n) (chunks d n l) /\ concat (chunks d n l) = l.
Proof.
  induction d as [|d IH]; intros l HL; cbn [chunks].
  - destruct l; [auto|discriminate].
  - cbn [Nat.mul] in HL. destruct (IH (skipn n l)) as (H1 & H2 & H3); [rewrite skipn_length; lia|].
    split; [cbn; lia|]. split; [constructor; [rewrite firstn_length; lia|exact H2]|].
    cbn [concat]. rewrite H3. apply firstn_skipn.
Qed.

Lemma nestOf_spec dims : forall l, length l = prodN dims -> HasShape (nestOf dims l) dims /\ leaves (nestOf dims l) = l.
Proof.
  induction dims as [|d ds IH]; intros l HL.
  - cbn in HL. destruct l as [|v [|]]; try discriminate. split; [constructor|reflexivity].
  - cbn [prodN fold_right] in HL. fold (prodN ds) in HL. destruct (chunks_spec d (prodN ds) l HL) as (H1 & H2 & H3).
    cbn [nestOf]. split.
    + rewrite <- H1 at 2. rewrite <- (map_length (nestOf ds)). constructor. apply Forall_map.
      eapply Forall_impl; [|exact H2]. intros c Hc. apply IH. exact Hc.
    + cbn [leaves]. rewrite flat_map_concat, map_map. rewrite <- H3 at 2. f_equal.
      rewrite <- (map_id (chunks d (prodN ds) l)) at 2. apply map_ext_in. intros c Hc.
      rewrite Forall_forall in H2. apply IH. auto.
Qed.

Lemma shape_leaves_fun dims a b : HasShape a dims -> HasShape b dims -> leaves a = leaves b -> a = b.
Proof.
  intros HA HB E. rewrite <- (nestOf_leaves _ _ HA), <- (nestOf_leaves _ _ HB), E. reflexivity.
Qed.

Lemma unflatten_spec o t dims : Holds o t -> hd 0 (hdims o) = 1 \/ size (tl (hdims o)) = 1 ->
  2 <= length dims -> size dims = size (hdims o) -> 0 < size dims ->
  exists r u, unflattenObj o dims false = Ok r /\ hdims r = dims /\ HasShape u dims /\ leaves u = leaves t /\ Holds r u.
Proof.
  intros H HV HL2 HSz HP. change size with prodN in *. pose proof H as (_ & _ & l & -> & _).
  pose proof (shapeOf_holds _ _ H) as (ES & _ & _). pose proof (holds_concat _ _ H) as EC.
  pose proof H as (HL & HS & _). pose proof (leaves_length _ _ HS) as LL.
  unfold unflattenObj. rewrite ES. apply holds_parts in H as (ds & ED & HL1 & HF & ER). rewrite ED in *. cbn [tl hd] in *.
  assert (EP : prodN (length l :: ds) = length l * prodN ds) by reflexivity. rewrite EP in *.
  assert (0 < length l /\ 0 < prodN ds) as [P1 P2] by nia.
  rewrite (proj2 (Nat.eqb_neq (prodN ds) 0)) by lia. rewrite (proj2 (Nat.eqb_neq (length l) 0)) by lia. cbn [orb].
  assert (EV : negb (length l =? 1) && negb (prodN ds =? 1) = false).
  { destruct HV as [-> | ->]; [reflexivity|]. rewrite Nat.eqb_refl. cbn. apply andb_false_r. }
  rewrite EV. rewrite (proj2 (Nat.ltb_ge _ _)) by exact HL2. rewrite <- HSz, Nat.eqb_refl. cbn [negb]. rewrite andb_false_r.
  destruct dims as [|d ds']; [cbn in HL2; lia|]. rewrite EC.
  exists {| hrows := chunks d (prodN ds') (leaves (Node l)); hdims := d :: ds' |}, (nestOf (d :: ds') (leaves (Node l))).
  assert (LL' : length (leaves (Node l)) = prodN (d :: ds')) by congruence.
  destruct (nestOf_spec (d :: ds') (leaves (Node l)) LL') as [N1 N2].
  split; [reflexivity|]. split; [reflexivity|]. split; [exact N1|]. split; [exact N2|].
  split; [cbn in *; lia|]. split; [exact N1|]. eexists. split; [reflexivity|]. cbn [hrows].
  destruct (chunks_spec d (prodN ds') (leaves (Node l)) LL') as (_ & C2 & _).
  rewrite map_map. rewrite <- (map_id (chunks _ _ _)) at 1. apply map_ext_in. intros c Hc.
  rewrite Forall_forall in C2. symmetry. apply nestOf_spec. auto.
Qed.

Lemma unflatten_reject o l dims byF : Holds o (Node l) ->
  (size (hdims o) = 0 -> unflattenObj o dims byF = Err ImproperObjectAction) /\
  (0 < size (hdims o) -> length l <> 1 -> size (tl (hdims o)) <> 1 -> unflattenObj o dims byF = Err ImproperObjectAction) /\
  (0 < size (hdims o) -> length l = 1 \/ size (tl (hdims o)) = 1 -> length dims < 2 \/ size dims <> size (hdims o) ->
     unflattenObj o dims byF = Err InvalidArgumentValue) /\
  (0 < size (hdims o) -> length l = 1 \/ size (tl (hdims o)) = 1 -> 2 < length dims -> size dims = size (hdims o) ->
     unflattenObj o dims true = Err ImproperObjectAction).
Proof.
  intros H. change size with prodN in *.
  pose proof (shapeOf_holds _ _ H) as (ES & _ & _).
  unfold unflattenObj. rewrite ES. apply holds_parts in H as (ds & ED & HL1 & HF & ER). rewrite ED in *. cbn [tl hd] in *.
  assert (EP : prodN (length l :: ds) = length l * prodN ds) by reflexivity. rewrite EP in *. clear ES.
  assert (Pos : 0 < length l * prodN ds -> (prodN ds =? 0) || (length l =? 0) = false).
  { intros HP. rewrite (proj2 (Nat.eqb_neq (prodN ds) 0)) by nia. rewrite (proj2 (Nat.eqb_neq (length l) 0)) by nia. reflexivity. }
  assert (Vec : length l = 1 \/ prodN ds = 1 -> negb (length l =? 1) && negb (prodN ds =? 1) = false).
  { intros [-> | ->]; [reflexivity|]. rewrite Nat.eqb_refl. cbn. apply andb_false_r. }
  split; [|split; [|split]].
  - intros HZ. assert (prodN ds = 0 \/ length l = 0) as [E|E] by nia; rewrite E; rewrite ?Nat.eqb_refl, ?orb_true_r; reflexivity.
  - intros HP N1 N2. rewrite (Pos HP). rewrite (proj2 (Nat.eqb_neq _ _) N1), (proj2 (Nat.eqb_neq _ _) N2). reflexivity.
  - intros HP HV HD. rewrite (Pos HP), (Vec HV). destruct (length dims <? 2) eqn:EL; [reflexivity|].
    apply Nat.ltb_ge in EL. destruct HD as [HD|HD]; [lia|].
    rewrite (proj2 (Nat.eqb_neq _ _)) by congruence. reflexivity.
  - intros HP HV HD HS. rewrite (Pos HP), (Vec HV). rewrite (proj2 (Nat.ltb_ge _ _)) by lia.
    rewrite HS, Nat.eqb_refl. cbn [negb]. rewrite (proj2 (Nat.ltb_lt _ _)) by exact HD. reflexivity.
Qed.

Lemma flatten_unflatten o t : Holds o t -> 0 < size (hdims o) ->
  exists f r, flattenObj o false = Ok f /\ unflattenObj f (hdims o) false = Ok r /\ hdims r = hdims o /\ hrows r = hrows o.
Proof.
  intros H HP. destruct (flatten_spec o t H HP) as (f & EF & DF & HF).
  pose proof H as (HL & HS & _).
  destruct (unflatten_spec f _ (hdims o) HF) as (r & u & EU & DU & SU & LU & HU); auto.
  - rewrite DF. auto.
  - rewrite DF. cbn. lia.
  - exists f, r. split; [exact EF|]. split; [exact EU|]. split; [exact DU|].
    assert (u = t). { apply (shape_leaves_fun (hdims o)); auto. rewrite LU. cbn. rewrite app_nil_r. apply leaves_flat. }
    subst u. destruct H as (_ & _ & l & -> & ->). destruct HU as (_ & _ & l2 & [= <-] & ->). reflexivity.
Qed.

(** Element by element operations. *)
Section Zip.
Variable op : leaf -> leaf -> leaf.
Definition zipV (a b : list leaf) : list leaf := map (fun ab => op (fst ab) (snd ab)) (combine a b).

Lemma zipV_app a b c d : length a = length b -> zipV (a ++ c) (b ++ d) = zipV a b ++ zipV c d.
Proof.
  revert b. induction a as [|x a IH]; intros [|y b] H; try discriminate; [reflexivity|].
  unfold zipV in *. cbn. f_equal. apply IH. now injection H.
Qed.

Lemma zip_exists dims : forall s t, HasShape s dims -> HasShape t dims ->
  exists u, HasShape u dims /\ Pointwise op s t u /\ leaves u = zipV (leaves s) (leaves t).
Proof.
  induction dims as [|d ds IH]; intros s t HS HT.
  - apply shape_leaf in HS as [a ->]. apply shape_leaf in HT as [b ->].
    exists (Leaf (op a b)). split; [constructor|]. split; [constructor|reflexivity].
  - apply shape_node in HS as (ls & -> & L1 & HS). apply shape_node in HT as (lt & -> & L2 & HT).
    assert (G : exists lu, length lu = length ls /\ Forall (fun c => HasShape c ds) lu /\
      (forall i a b c, nth_error ls i = Some a -> nth_error lt i = Some b -> nth_error lu i = Some c -> Pointwise op a b c) /\
      map leaves lu = map (fun ab => zipV (leaves (fst ab)) (leaves (snd ab))) (combine ls lt) /\
      flat_map leaves lu = zipV (flat_map leaves ls) (flat_map leaves lt)).
    { assert (L : length ls = length lt) by congruence. clear L1 L2. revert lt HT L. induction HS as [|a ls Ha HS IHl]; intros [|b lt] HT L; try discriminate.
      - exists []. repeat split; auto. intros [|i]; discriminate.
      - inversion HT as [|? ? Hb HT']; subst. injection L as L.
        destruct (IHl lt HT' L) as (lu & E1 & E2 & E3 & E4 & E5). destruct (IH _ _ Ha Hb) as (u & U1 & U2 & U3).
        exists (u :: lu). split; [cbn; congruence|]. split; [constructor; auto|]. split; [|split].
        + intros [|i] x y z; cbn; [intros [= <-] [= <-] [= <-]; exact U2|apply E3].
        + cbn [map combine fst snd]. congruence.
        + cbn [flat_map]. rewrite U3, E5. symmetry. apply zipV_app.
          now rewrite (leaves_length _ _ Ha), (leaves_length _ _ Hb). }
    destruct G as (lu & E1 & E2 & E3 & E4 & E5). exists (Node lu). split; [|split].
    + rewrite <- L1, <- E1. constructor. exact E2.
    + constructor; [congruence|congruence|exact E3].
    + exact E5.
Qed.

Lemma binary_spec a s b t : Holds a s -> Holds b t -> hdims a = hdims b -> 0 < size (hdims a) ->
  exists r u, binaryObj op a b = Ok r /\ hdims r = hdims a /\ Pointwise op s t u /\ Holds r u.
Proof.
  intros HA HB ED HP. change size with prodN in *. pose proof HA as (HLa & HSa & ls & -> & Ea).
  pose proof HB as (_ & HSb & lt & -> & Eb). rewrite <- ED in HSb.
  pose proof (shapeOf_holds _ _ HA) as (ES & _ & _).
  unfold binaryObj. rewrite ED, eqbd_refl, ES. cbn [negb].
  apply holds_parts in HA as (ds & EDa & HL1 & HF & _). rewrite EDa in HP. cbn [prodN fold_right] in HP. fold (prodN ds) in HP.
  rewrite EDa. cbn [tl].
  rewrite (proj2 (Nat.eqb_neq (length ls) 0)) by nia. rewrite (proj2 (Nat.eqb_neq (prodN ds) 0)) by nia. cbn [orb].
  rewrite EDa in HSa, HSb. destruct (zip_exists _ _ _ HSa HSb) as (u & U1 & U2 & U3).
  eexists. exists u. split; [reflexivity|]. cbn [hdims]. split; [congruence|]. split; [exact U2|].
  rewrite <- ED, EDa. split; [cbn; lia|]. split; [exact U1|].
  apply shape_node in U1 as (lu & -> & Lu & HFu). exists lu. split; [reflexivity|]. cbn [hrows]. rewrite Ea, Eb.
  apply shape_node in HSb as (lt' & [= <-] & Lt & HFb).
  inversion U2 as [|? ? ? A1 A2 A3]; subst. clear U2 U3 Ea Eb ES HP ED EDa HLa HSa HB.
  revert lt lu Lu HFu Lt HFb A1 A2 A3. induction HF as [|x xs Hx HF IHl]; intros [|y ys] [|z zs] Lu HFu Lt HFb A1 A2 A3; try discriminate; [reflexivity|].
  cbn [map combine fst snd]. inversion HFu; subst. inversion HFb; subst. f_equal.
  - assert (PW : Pointwise op x y z) by (apply (A3 0); reflexivity).
    assert (Gen : forall dims p q w, HasShape p dims -> HasShape q dims -> HasShape w dims -> Pointwise op p q w -> leaves w = zipV (leaves p) (leaves q)).
    { clear. induction dims as [|d ds IH]; intros p q w Hp Hq Hw PW.
      - apply shape_leaf in Hp as [a ->]. apply shape_leaf in Hq as [b ->]. inversion PW; subst. reflexivity.
      - apply shape_node in Hp as (lp & -> & Lp & Hp). apply shape_node in Hq as (lq & -> & Lq & Hq). apply shape_node in Hw as (lw & -> & Lw & Hw).
        inversion PW as [|? ? ? A1 A2 A3]; subst. cbn [leaves]. clear PW Lq Lw. revert lq lw Hq Hw A1 A2 A3.
        induction Hp as [|a la Ha Hp IHl]; intros [|b lb] [|c lc] Hq Hw A1 A2 A3; try discriminate; [reflexivity|].
        inversion Hq; subst. inversion Hw; subst. cbn [flat_map]. rewrite zipV_app.
        + f_equal; [apply IH; auto; apply (A3 0); reflexivity|]. apply IHl; auto.
          intros i. apply (A3 (S i)).
        + rewrite (leaves_length ds a), (leaves_length ds b) by assumption. reflexivity. }
    symmetry. unfold zipV in Gen. eapply Gen; eauto.
  - apply IHl; auto. intros i. apply (A3 (S i)).
Qed.

Lemma binary_reject a b : hdims a <> hdims b -> binaryObj op a b = Err InvalidArgumentValue.
Proof.
  intros H. unfold binaryObj. destruct (eqbd (hdims a) (hdims b)) eqn:E; [|reflexivity].
  apply eqbd_true in E. contradiction.
Qed.
End Zip.

(** order='feature' with two dimensions. *)
Lemma flat_map_len {A B} (f : A -> list B) l n : (forall x, In x l -> length (f x) = n) -> length (flat_map f l) = length l * n.
Proof. induction l as [|x l IH]; intros H; [reflexivity|]. cbn. rewrite app_length, IH, (H x); cbn; auto. intros y Hy. apply H. cbn. auto. Qed.
Lemma flat_map_nth {A B} (f : A -> list B) n : forall l j i x, (forall y, In y l -> length (f y) = n) ->
  nth_error l j = Some x -> i < n -> nth_error (flat_map f l) (j * n + i) = nth_error (f x) i.
Proof.
  induction l as [|y l IH]; intros j i x H Hj Hi; [destruct j; discriminate|].
  cbn [flat_map]. assert (Ly : length (f y) = n) by (apply H; cbn; auto). destruct j as [|j].
  - injection Hj as ->. cbn. apply nth_error_app1. lia.
  - cbn in Hj. rewrite nth_error_app2 by (rewrite Ly; lia). rewrite Ly.
    replace (S j * n + i - n) with (j * n + i) by lia. apply IH; auto. intros; apply H; cbn; auto.
Qed.
Lemma column_spec rows j f : Forall (fun r => length r = f) rows -> j < f ->
  length (column rows j) = length rows /\
  forall i r, nth_error rows i = Some r -> nth_error (column rows j) i = nth_error r j.
Proof.
  intros H Hj. unfold column. induction H as [|r rs Hr _ IH]; [split; [reflexivity|intros [|i]; discriminate]|].
  destruct (nth_error r j) as [v|] eqn:E; [|apply nth_error_None in E; lia].
  cbn [flat_map]. rewrite E. cbn [app length]. destruct IH as [L N]. split; [congruence|].
  intros [|i] r' Hr'; cbn in *; [injection Hr' as <-; auto|auto].
Qed.

Lemma by_feature o l p f : Holds o (Node l) -> hdims o = [p; f] -> 0 < p -> 0 < f ->
  exists r, flattenObj o true = Ok r /\ hdims r = [1; p * f] /\
    (exists flat, hrows r = [flat] /\ length flat = p * f /\
      forall i j row, nth_error (hrows o) i = Some row -> j < f -> nth_error flat (j * p + i) = nth_error row j) /\
    unflattenObj r [p; f] true = Ok o.
Proof.
  intros H ED HP HF. pose proof (shapeOf_holds _ _ H) as (ES & EL & ER). rewrite ED in ER. cbn [tl prodN fold_right] in ER.
  rewrite Nat.mul_1_r in ER.
  assert (Ep : length (hrows o) = p). { apply holds_parts in H as (ds & ED' & _). rewrite EL. congruence. }
  unfold flattenObj, isHigh. rewrite ES, ED. rewrite <- EL, Ep. cbn [tl prodN fold_right length]. rewrite Nat.mul_1_r.
  rewrite (proj2 (Nat.eqb_neq p 0)) by lia. rewrite (proj2 (Nat.eqb_neq f 0)) by lia. cbn [Nat.ltb Nat.leb andb].
  eexists. split; [reflexivity|]. cbn [hdims hrows]. split; [reflexivity|].
  set (flat := flat_map (column (hrows o)) (seq 0 f)).
  assert (HC : forall y, In y (seq 0 f) -> length (column (hrows o) y) = p).
  { intros y Hy. apply in_seq in Hy. rewrite <- Ep. apply (column_spec _ _ f ER). lia. }
  assert (LF : length flat = p * f) by (unfold flat; rewrite (flat_map_len _ _ p HC), seq_length; lia).
  assert (NF : forall i j row, nth_error (hrows o) i = Some row -> j < f -> nth_error flat (j * p + i) = nth_error row j).
  { intros i j row Hi Hj. assert (Hip : i < p) by (rewrite <- Ep; apply nth_error_Some; congruence).
    assert (Hs : nth_error (seq 0 f) j = Some j).
    { rewrite (nth_error_nth' _ 0) by (rewrite seq_length; lia). now rewrite seq_nth. }
    unfold flat. rewrite (flat_map_nth _ p _ j i j HC Hs Hip). now apply (column_spec _ _ f ER). }
  split; [exists flat; auto|].
  unfold unflattenObj, shapeOf. cbn [hdims hrows length concat]. rewrite app_nil_r.
  rewrite (proj2 (Nat.eqb_neq (p * f) 0)) by nia. cbn [orb Nat.eqb negb andb Nat.ltb Nat.leb prodN fold_right].
  rewrite !Nat.mul_1_r, ?Nat.add_0_r, ?Nat.mul_1_l, Nat.eqb_refl. cbn [negb]. f_equal. destruct o as [rows dims]. cbn in *. subst dims. f_equal.
  apply nth_error_ext. intros i. destruct (Nat.ltb_spec i p) as [Hip|Hip].
  - destruct (nth_error rows i) as [row|] eqn:Er; [|apply nth_error_None in Er; lia].
    assert (Hs : nth_error (seq 0 p) i = Some i).
    { rewrite (nth_error_nth' _ 0) by (rewrite seq_length; lia). now rewrite seq_nth. }
    rewrite (map_nth_error _ _ _ Hs). f_equal. apply nth_error_ext. intros j.
    assert (Lr : length row = f) by (rewrite Forall_forall in ER; apply ER; eapply nth_error_In; eauto).
    destruct (Nat.ltb_spec j f) as [Hjf|Hjf].
    + assert (Hs2 : nth_error (seq 0 f) j = Some j).
      { rewrite (nth_error_nth' _ 0) by (rewrite seq_length; lia). now rewrite seq_nth. }
      rewrite (map_nth_error _ _ _ Hs2). rewrite <- (NF i j row Er Hjf).
      symmetry. apply nth_error_nth'. rewrite LF. nia.
    + rewrite (proj2 (nth_error_None row j)) by lia. apply nth_error_None. rewrite map_length, seq_length. lia.
  - rewrite (proj2 (nth_error_None rows i)) by lia. apply nth_error_None. rewrite map_length, seq_length. lia.
Qed.
