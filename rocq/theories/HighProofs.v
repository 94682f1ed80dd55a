(** Proofs about creation, copying and nested points (C68). *)
From Coq Require Import QArith.
From Coq Require Import Ascii String.
From Verif Require Import Base HighModel HighSpec.
From Coq Require Import List.
Import ListNotations.
Open Scope list_scope.
Open Scope nat_scope.

Lemma nest_ind2 (P : nest -> Prop) :
  (forall v, P (Leaf v)) -> (forall l, Forall P l -> P (Node l)) -> forall n, P n.
Proof.
  intros HL HN. fix IH 1. intros [v|l]; [apply HL|]. apply HN.
  induction l as [|c cs IHl]; constructor; [apply IH|exact IHl].
Qed.

Fixpoint goF (l : list nest) (st : fstate) : result fstate :=
  match l with
  | [] => Ok st
  | c :: cs => st' <- flattenOne c st ;; goF cs (stopRecording st')
  end.

Lemma flattenOne_node l st : flattenOne (Node l) st =
  (if forallb isSingle l then Ok (extend (flat_map leafOf l) (recordCount (length l) st))
   else catchType (goF l (recordCount (length l) st))).
Proof.
  cbn [flattenOne]. destruct (forallb isSingle l); reflexivity.
Qed.

Lemma isSingle_iff n : isSingle n = true <-> Single n.
Proof. destruct n; cbn; split; intros H; try discriminate; auto; [eexists; reflexivity|destruct H; discriminate]. Qed.

Lemma allSingle_iff l : forallb isSingle l = true <-> Forall Single l.
Proof.
  rewrite forallb_forall, Forall_forall. split; intros H x Hx; apply isSingle_iff; auto.
Qed.

Lemma leafOf_leaves l : Forall Single l -> flat_map leafOf l = flat_map leaves l.
Proof.
  induction 1 as [|c cs [v ->] _ IH]; [reflexivity|]. cbn. f_equal; exact IH.
Qed.

Lemma letters_spelled s : leaves (spelled s) = letters s.
Proof.
  unfold spelled. cbn [leaves]. induction s as [|c s IH]; [reflexivity|].
  cbn. f_equal. exact IH.
Qed.

Lemma firstPath_single l : Forall Single l -> firstPath (Node l) = [length l].
Proof. destruct 1 as [|c cs [v ->] _]; reflexivity. Qed.

Lemma letters_length s : length (letters s) = length (list_ascii_of_string s).
Proof. induction s; cbn; auto. Qed.

Lemma firstPath_spelled s : firstPath (spelled s) = [length (letters s)].
Proof.
  unfold spelled. rewrite firstPath_single.
  - now rewrite map_length, letters_length.
  - apply Forall_forall. intros x Hx. apply in_map_iff in Hx as (c & <- & _). eexists; reflexivity.
Qed.

Definition after (n' : nest) (st : fstate) (r : bool) : fstate :=
  {| ffill := ffill st ++ leaves n'; frec := r;
     fdims := if frec st then fdims st ++ firstPath n' else fdims st |}.

Definition FlatOK (n : nest) : Prop :=
  forall n', Opened n n' -> forall st, exists r,
    flattenOne n st = Ok (after n' st r) /\ (frec st = false -> r = false).

Lemma goF_false l : Forall FlatOK l -> forall l', Forall2 Opened l l' -> forall st,
  frec st = false ->
  goF l st = Ok {| ffill := ffill st ++ flat_map leaves l'; frec := false; fdims := fdims st |}.
Proof.
  induction 1 as [|c cs Hc _ IH]; intros l' HF st Hst; inversion HF; subst.
  - cbn. rewrite app_nil_r. destruct st; cbn in *; subst; reflexivity.
  - cbn [goF]. destruct (Hc _ H1 st) as (r & E & _). rewrite E. cbn [rbind].
    rewrite (IH _ H3) by reflexivity. unfold stopRecording, after. cbn. rewrite Hst.
    now rewrite <- app_assoc.
Qed.

Lemma flatOK n : FlatOK n.
Proof.
  induction n as [v|l IH] using nest_ind2; intros n' HO st; inversion HO; subst.
  - cbn [flattenOne]. exists (frec st). split; [|auto]. f_equal.
    unfold extend, recordCount, after. cbn [ffill frec fdims].
    now rewrite letters_spelled, firstPath_spelled.
  - rewrite flattenOne_node. rewrite (proj2 (allSingle_iff l)) by assumption.
    exists (frec st). split; [|auto]. f_equal. unfold extend, recordCount, after. cbn [ffill frec fdims leaves].
    now rewrite leafOf_leaves, firstPath_single by assumption.
  - rewrite flattenOne_node. destruct (forallb isSingle l) eqn:E; [apply allSingle_iff in E; contradiction|].
    match goal with HF : Forall2 Opened l ?m |- _ => rename HF into HF2 end.
    exists false. split; [|auto]. inversion HF2; subst; [discriminate|].
    inversion IH; subst. cbn [goF].
    match goal with Hx : FlatOK x |- _ => destruct (Hx y ltac:(assumption) (recordCount (length (x :: l0)) st)) as (r & Er & _) end.
    rewrite Er. cbn [rbind].
    rewrite (goF_false l0) with (l' := l'0) by auto. cbn [catchType]. f_equal.
    unfold after, stopRecording, recordCount. cbn [ffill frec fdims].
    match goal with HF : Forall2 Opened l0 l'0 |- _ => rename HF into HFr end.
    assert (EL : length (x :: l0) = length (y :: l'0)) by (clear - HFr; cbn; f_equal; induction HFr; cbn; auto).
    f_equal.
    + cbn [leaves flat_map]. now rewrite <- app_assoc.
    + destruct (frec st); [|reflexivity]. cbn [firstPath]. rewrite <- app_assoc, EL. reflexivity.
Qed.

Lemma flat_inv n : forall st st', flattenOne n st = Ok st' -> exists n', Opened n n'.
Proof.
  induction n as [v|l IH] using nest_ind2; intros st st' E.
  - destruct v; try discriminate. eexists; constructor.
  - rewrite flattenOne_node in E. destruct (forallb isSingle l) eqn:ES.
    + exists (Node l). constructor. now apply allSingle_iff.
    + assert (exists l', Forall2 Opened l l') as [l' Hl'].
      { assert (E' : exists s, goF l (recordCount (length l) st) = Ok s).
        { destruct (goF l _) as [s|e]; [eauto|]. destruct e; discriminate. }
        clear E. destruct E' as [s E]. clear ES. revert E. generalize (recordCount (length l) st).
        induction IH as [|c cs Hc _ IHl]; intros s0 E; [exists []; constructor|].
        cbn [goF] in E. destruct (flattenOne c s0) as [s1|] eqn:Ec; [|discriminate].
        destruct (Hc _ _ Ec) as [c' Hc']. destruct (IHl _ E) as [l' Hl']. eauto. }
      exists (Node l'). apply op_nested; [|exact Hl'].
      intros HA. apply allSingle_iff in HA. congruence.
Qed.

Lemma flattenToOne_ok n fd :
  flattenToOne n = Ok fd <-> exists n', Opened n n' /\ fd = (leaves n', firstPath n').
Proof.
  unfold flattenToOne. split.
  - intros E. destruct (flattenOne n _) as [st|] eqn:EF; [|discriminate]. cbn [rbind] in E. injection E as <-.
    destruct (flat_inv _ _ _ EF) as [n' Hn']. exists n'. split; [exact Hn'|].
    destruct (flatOK n n' Hn' {| ffill := []; frec := true; fdims := [] |}) as (r & E & _).
    rewrite E in EF. injection EF as <-. reflexivity.
  - intros (n' & Hn' & ->).
    destruct (flatOK n n' Hn' {| ffill := []; frec := true; fdims := [] |}) as (r & E & _).
    rewrite E. reflexivity.
Qed.

(** The row stored for an opened point. *)
Definition RowOf (n : nat) (p : nest) (row : list leaf) : Prop :=
  length row = n /\ (row = leaves p \/ exists v, leaves p = [v] /\ row = repeat v n).

Lemma assignRow_ok n flat row :
  assignRow n flat = Ok row <-> length row = n /\ (row = flat \/ exists v, flat = [v] /\ row = repeat v n).
Proof.
  unfold assignRow. destruct (length flat =? n) eqn:E; [apply Nat.eqb_eq in E|apply Nat.eqb_neq in E].
  - split; [intros [= <-]; auto|]. intros (HL & [->|(v & -> & ->)]); [reflexivity|].
    cbn in E. subst n. reflexivity.
  - split.
    + destruct flat as [|v [|w r]]; try discriminate. intros [= <-]. rewrite repeat_length. split; eauto.
    + intros (HL & [->|(v & -> & ->)]); [congruence|reflexivity].
Qed.

Lemma flattenRest_ok ds n pts : forall rows,
  flattenRest ds n pts = Ok rows <->
  exists ops, Forall2 Opened pts ops /\ Forall (fun p => firstPath p = ds) ops /\ Forall2 (RowOf n) ops rows.
Proof.
  induction pts as [|p ps IH]; intros rows; cbn [flattenRest].
  - split; [intros [= <-]; exists []; auto|]. intros (ops & H1 & _ & H3). inversion H1; subst. inversion H3; reflexivity.
  - split.
    + intros E. destruct (flattenToOne p) as [fd|] eqn:EF; [|discriminate]. cbn [rbind] in E.
      apply flattenToOne_ok in EF as (p' & Hp' & ->). cbn [fst snd] in E.
      destruct (eqbd (firstPath p') ds) eqn:ED; [|discriminate]. apply eqbd_true in ED. cbn [negb] in E.
      destruct (assignRow n (leaves p')) as [row|] eqn:ER; [|discriminate]. cbn [rbind] in E.
      apply assignRow_ok in ER. destruct (flattenRest ds n ps) as [rs|] eqn:ES; [|discriminate].
      cbn [rbind] in E. injection E as <-. destruct (proj1 (IH rs) eq_refl) as (ops & H1 & H2 & H3).
      exists (p' :: ops). split; [constructor; auto|]. split; [constructor; auto|]. constructor; [exact ER|exact H3].
    + intros (ops & H1 & H2 & H3). inversion H1 as [|? p' ? ops' HO HOs]; subst. inversion H2; subst.
      inversion H3 as [|? row ? rs HR HRs]; subst.
      rewrite (proj2 (flattenToOne_ok p (leaves p', firstPath p')) (ex_intro _ p' (conj HO eq_refl))).
      cbn [rbind fst snd]. rewrite eqbd_refl. cbn [negb].
      rewrite (proj2 (assignRow_ok n (leaves p') row)) by exact HR. cbn [rbind].
      rewrite (proj2 (IH rs)) by eauto. reflexivity.
Qed.

Lemma createHigh_exact raw o :
  createHigh raw = Ok (Some o) <->
  (exists c cs more, raw = Node (Node c :: cs) :: more) /\
  exists p ps, Forall2 Opened raw (p :: ps) /\
    Forall (fun q => firstPath q = firstPath p) ps /\
    hdims o = length raw :: firstPath p /\
    Forall2 (fun q row => length row = length (leaves p) /\
               (row = leaves q \/ exists v, leaves q = [v] /\ row = repeat v (length (leaves p))))
            (p :: ps) (hrows o).
Proof.
  unfold createHigh. split.
  - intros E. destruct (isHighData raw) eqn:EH; [|discriminate].
    split. { destruct raw as [|[|[|[|c] cs]] more]; try discriminate. eauto. }
    destruct raw as [|p0 ps0]; [discriminate|]. cbn [flattenHigh] in E.
    destruct (flattenToOne p0) as [fd|] eqn:EF; [|discriminate]. cbn [rbind] in E.
    apply flattenToOne_ok in EF as (p & Hp & ->). cbn [fst snd] in E.
    destruct (flattenRest _ _ ps0) as [rs|] eqn:ER; [|discriminate]. cbn [rbind] in E. injection E as <-.
    apply flattenRest_ok in ER as (ops & H1 & H2 & H3). exists p, ops.
    split; [constructor; auto|]. split; [exact H2|]. split; [reflexivity|]. cbn [hrows]. constructor; [auto|exact H3].
  - intros ((c & cs & more & Er) & p & ps & HO & HP & HD & HR). rewrite Er at 1. cbn [isHighData isSingle negb].
    clear Er c cs more. inversion HO as [|p0 ? ps0 ? Hp Hps]; subst. cbn [flattenHigh].
    rewrite (proj2 (flattenToOne_ok p0 (leaves p, firstPath p)) (ex_intro _ p (conj Hp eq_refl))).
    cbn [rbind fst snd]. inversion HR as [|? row ? rs HR0 HRs E1 E2]; subst.
    rewrite (proj2 (flattenRest_ok (firstPath p) (length (leaves p)) ps0 rs)) by eauto. cbn [rbind].
    do 2 f_equal. destruct o as [rows dims]. cbn in *. subst. f_equal.
    destruct HR0 as (_ & [->|(v & Ev & ->)]); [reflexivity|]. rewrite Ev. reflexivity.
Qed.

(** Regular data. *)
Lemma shape_node t d ds : HasShape t (d :: ds) ->
  exists l, t = Node l /\ length l = d /\ Forall (fun c => HasShape c ds) l.
Proof. inversion 1; subst; eauto. Qed.
Lemma shape_leaf t : HasShape t [] -> Single t.
Proof. inversion 1; eexists; reflexivity. Qed.

Lemma leaves_length dims : forall t, HasShape t dims -> length (leaves t) = prodN dims.
Proof.
  induction dims as [|d ds IH]; intros t H.
  - apply shape_leaf in H as [v ->]. reflexivity.
  - apply shape_node in H as (l & -> & <- & HF). cbn [leaves prodN fold_right].
    induction HF as [|c cs Hc _ IHl]; [reflexivity|]. cbn [flat_map length]. rewrite app_length, IHl, (IH _ Hc).
    unfold prodN. lia.
Qed.

Lemma regular_opened dims : forall t, dims <> [] -> HasShape t dims -> NoGaps dims ->
  Opened t t /\ firstPath t = dims.
Proof.
  induction dims as [|d ds IH]; [congruence|]. intros t _ H HG.
  apply shape_node in H as (l & -> & Hd & HF). destruct ds as [|d' ds].
  - assert (HS : Forall Single l) by (eapply Forall_impl; [|exact HF]; intros; now apply shape_leaf).
    split; [constructor; exact HS|]. rewrite firstPath_single by exact HS. congruence.
  - assert (HG' : 0 < d /\ NoGaps (d' :: ds)).
    { unfold NoGaps in HG. cbn [removelast] in HG. inversion HG; subst; split; auto. }
    assert (HI : Forall (fun c => Opened c c /\ firstPath c = d' :: ds) l).
    { eapply Forall_impl; [|exact HF]. intros c Hc. apply IH; tauto || discriminate. }
    destruct l as [|c cs]; [cbn in Hd; lia|]. split.
    + apply op_nested.
      * intros HS. inversion HS as [|? ? [v ->] _]; subst. inversion HF as [|? ? HX _]; inversion HX.
      * clear - HI. induction HI as [|x xs Hx _ IHx]; constructor; tauto.
    + inversion HI as [|? ? [_ E] _]; subst. cbn [firstPath]. rewrite E. reflexivity.
Qed.

Lemma create_regular raw dims :
  HasShape (Node raw) dims -> 3 <= length dims -> NoGaps dims ->
  exists o, createHigh raw = Ok (Some o) /\ hdims o = dims /\ Holds o (Node raw).
Proof.
  intros H HL HG. exists {| hrows := map leaves raw; hdims := dims |}.
  assert (HH : Holds {| hrows := map leaves raw; hdims := dims |} (Node raw)).
  { split; [cbn; lia|]. split; [exact H|]. exists raw. auto. }
  split; [|split; [reflexivity|exact HH]]. clear HH. apply createHigh_exact. cbn [hdims hrows].
  destruct dims as [|d0 [|d1 [|d2 ds]]]; cbn in HL; try lia.
  assert (HG' : 0 < d0 /\ 0 < d1 /\ NoGaps (d1 :: d2 :: ds)).
  { unfold NoGaps in *. cbn [removelast] in HG. inversion HG as [|? ? ? HG2]; subst. inversion HG2; subst; auto. }
  destruct HG' as (P0 & P1 & HG').
  apply shape_node in H as (l & [= <-] & Hd & HF).
  assert (HI : Forall (fun c => Opened c c /\ firstPath c = d1 :: d2 :: ds) raw).
  { eapply Forall_impl; [|exact HF]. intros c Hc. apply regular_opened; auto; discriminate. }
  destruct raw as [|p ps]; [cbn in Hd; lia|]. split.
  - inversion HF as [|? ? HX _]; subst. apply shape_node in HX as (l & -> & Hl & HF1).
    destruct l as [|c cs]; [cbn in Hl; lia|]. inversion HF1 as [|? ? HX _]; subst.
    apply shape_node in HX as (l & -> & _). eauto.
  - exists p, ps. inversion HI as [|? ? [Hp Ep] HI']; subst. split; [|split; [|split]].
    + clear - HI. induction HI as [|x xs Hx _ IHx]; constructor; tauto.
    + eapply Forall_impl; [|exact HI']. intros a [_ Ea]. congruence.
    + rewrite Ep. reflexivity.
    + assert (HLn : Forall (fun c => length (leaves c) = length (leaves p)) (p :: ps)).
      { apply Forall_forall. intros c Hc. rewrite Forall_forall in HF.
        rewrite (leaves_length _ _ (HF c Hc)), (leaves_length _ _ (HF p (or_introl eq_refl))). reflexivity. }
      clear - HLn. induction HLn as [|x xs Hx _ IHx]; constructor; auto.
Qed.

(** Irregular points with different dimensions are refused. *)
Lemma create_unequal raw :
  (exists c cs more, raw = Node (Node c :: cs) :: more) ->
  Forall (fun p => exists ds, 1 <= length ds /\ HasShape p ds /\ NoGaps ds) raw ->
  (forall ds, ~ Forall (fun p => HasShape p ds) raw) ->
  createHigh raw = Err InvalidArgumentValue.
Proof.
  intros HH HF HN. unfold createHigh.
  assert (E : isHighData raw = true) by (destruct HH as (c & cs & more & ->); reflexivity).
  rewrite E. clear E.
  destruct raw as [|p ps]; [destruct HH as (? & ? & ? & ?); discriminate|]. clear HH.
  inversion HF as [|? ? (ds & Hl & Hp & Hg) HFs]; subst.
  assert (Hne : ds <> []) by (intros ->; cbn in Hl; lia).
  destruct (regular_opened _ _ Hne Hp Hg) as [Ho Ef]. cbn [flattenHigh].
  rewrite (proj2 (flattenToOne_ok p (leaves p, ds))) by (exists p; rewrite Ef; auto). cbn [rbind fst snd].
  assert (HN' : ~ Forall (fun p => HasShape p ds) ps) by (intros X; apply (HN ds); auto).
  assert (E : flattenRest ds (length (leaves p)) ps = Err InvalidArgumentValue).
  { clear HN HF. induction HFs as [|q qs (es & Hel & Hq & Hqg) HFq IH]; [destruct HN'; constructor|].
    cbn [flattenRest]. assert (Hene : es <> []) by (intros ->; cbn in Hel; lia).
    destruct (regular_opened _ _ Hene Hq Hqg) as [Hqo Eqf].
    rewrite (proj2 (flattenToOne_ok q (leaves q, es))) by (exists q; rewrite Eqf; auto). cbn [rbind fst snd].
    destruct (eqbd es ds) eqn:ED; cbn [negb]; [|reflexivity]. apply eqbd_true in ED. rewrite ED in Hq.
    rewrite (proj2 (assignRow_ok (length (leaves p)) (leaves q) (leaves q))).
    2:{ split; [|auto]. now rewrite (leaves_length _ _ Hq), (leaves_length _ _ Hp). }
    cbn [rbind]. rewrite IH; [reflexivity|]. intros X. apply HN'. constructor; auto. }
  rewrite E. reflexivity.
Qed.

(** Row-major reshaping. *)
Lemma chunks_concat {A} size (ls : list (list A)) :
  Forall (fun l => length l = size) ls -> chunks (length ls) size (concat ls) = ls.
Proof.
  induction 1 as [|l ls Hl _ IH]; [reflexivity|]. cbn [length chunks concat].
  rewrite firstn_app, skipn_app, Hl, Nat.sub_diag. subst size.
  rewrite firstn_all, skipn_all. cbn. rewrite app_nil_r. f_equal. exact IH.
Qed.

Lemma flat_map_concat l : flat_map leaves l = concat (map leaves l).
Proof. apply flat_map_concat_map. Qed.

Lemma nestOf_leaves dims : forall t, HasShape t dims -> nestOf dims (leaves t) = t.
Proof.
  induction dims as [|d ds IH]; intros t H.
  - apply shape_leaf in H as [v ->]. reflexivity.
  - apply shape_node in H as (l & -> & <- & HF). cbn [nestOf leaves]. rewrite flat_map_concat.
    replace (length l) with (length (map leaves l)) by apply map_length.
    rewrite chunks_concat.
    + f_equal. rewrite map_map. rewrite <- (map_id l) at 2. apply map_ext_in. intros c Hc.
      rewrite Forall_forall in HF. auto.
    + apply Forall_map. eapply Forall_impl; [|exact HF]. intros c Hc. now apply leaves_length.
Qed.

Lemma holds_concat o t : Holds o t -> concat (hrows o) = leaves t.
Proof. intros (_ & _ & l & -> & ->). cbn [leaves]. now rewrite flat_map_concat. Qed.

Lemma holds_rank2 o t : Holds o t -> isHigh o = false ->
  Node (map (fun r => Node (map Leaf r)) (hrows o)) = t.
Proof.
  intros (HL & HS & l & -> & ->) E. unfold isHigh in E. apply Nat.ltb_ge in E.
  destruct (hdims o) as [|d [|d' [|]]]; cbn in *; try lia.
  apply shape_node in HS as (l' & [= <-] & _ & HF). f_equal. rewrite map_map.
  rewrite <- (map_id l) at 2. apply map_ext_in. intros c Hc. rewrite Forall_forall in HF.
  specialize (HF c Hc). apply shape_node in HF as (m & -> & _ & HM). f_equal. cbn [leaves].
  clear - HM. induction HM as [|x xs Hx _ IH]; [reflexivity|]. apply shape_leaf in Hx as [v ->].
  cbn. f_equal. exact IH.
Qed.

Lemma copyArray_spec o t : Holds o t -> copyArray o = Ok t.
Proof.
  intros H. unfold copyArray. destruct (isHigh o) eqn:E.
  - rewrite (holds_concat _ _ H). destruct H as (_ & HS & _). unfold reshape.
    rewrite (leaves_length _ _ HS), Nat.eqb_refl, nestOf_leaves by exact HS. reflexivity.
  - now rewrite (holds_rank2 _ _ H E).
Qed.

Lemma rank_join a b : rank (joinKind a b) = Nat.max (rank a) (rank b).
Proof. unfold joinKind. destruct (rank a <? rank b) eqn:E; [apply Nat.ltb_lt in E|apply Nat.ltb_ge in E]; lia. Qed.
Lemma rank_inj a b : rank a = rank b -> a = b.
Proof. destruct a, b; cbn; congruence. Qed.
Lemma common_ge l v : In v l -> rank (kindOf v) <= rank (commonKind l).
Proof.
  unfold commonKind. induction l as [|w l IH]; [contradiction|]. cbn [map fold_right]. rewrite rank_join.
  intros [->|H]; [lia|]. specialize (IH H). lia.
Qed.
Lemma common_in l : l = [] \/ commonKind l = NpBool \/ exists v, In v l /\ kindOf v = commonKind l.
Proof.
  unfold commonKind. induction l as [|w l IH]; [auto|]. right. cbn [map fold_right]. unfold joinKind at 1 3.
  destruct (rank (kindOf w) <? _) eqn:E.
  - destruct IH as [->|[->|(v & Hv & Ev)]]; [cbn in E; discriminate|auto|]. right. exists v. cbn; auto.
  - right. exists w. cbn; auto.
Qed.

Lemma uniform_cast pyStr l : Uniform l -> map (castTo pyStr (commonKind l)) l = l.
Proof.
  intros HU. rewrite <- (map_id l) at 3. apply map_ext_in. intros v Hv.
  destruct HU as [HN|HU].
  - pose proof (common_ge _ _ HN) as G. destruct (commonKind l); cbn in G; try lia. reflexivity.
  - destruct (common_in l) as [->|[->|(w & Hw & <-)]]; [contradiction|destruct v; reflexivity|].
    pose proof (HU v w Hv Hw) as SS. destruct v, w; cbn in SS; try contradiction; reflexivity.
Qed.

Lemma copyList_spec pyStr o t : Holds o t -> length (hdims o) = 2 \/ Uniform (leaves t) ->
  copyList pyStr o = Ok t.
Proof.
  intros H HU. unfold copyList. destruct (isHigh o) eqn:E.
  - destruct HU as [HU|HU]; [unfold isHigh in E; rewrite HU in E; discriminate|].
    rewrite (holds_concat _ _ H), uniform_cast by exact HU. destruct H as (_ & HS & _). unfold reshape.
    rewrite (leaves_length _ _ HS), Nat.eqb_refl, nestOf_leaves by exact HS. reflexivity.
  - now rewrite (holds_rank2 _ _ H E).
Qed.

(** Shape. *)
Lemma shapeOf_holds o l : Holds o (Node l) ->
  shapeOf o = (length l, prodN (tl (hdims o))) /\
  length (hrows o) = length l /\
  Forall (fun r => length r = prodN (tl (hdims o))) (hrows o).
Proof.
  intros (HL & HS & l' & [= <-] & E). unfold shapeOf.
  destruct (hdims o) as [|d [|d' ds]] eqn:ED; cbn in HL; try lia.
  apply shape_node in HS as (l' & [= <-] & Hd & HF). subst d. cbn [tl].
  split; [|split].
  - destruct ds; cbn [prodN fold_right]; f_equal; lia.
  - rewrite E. apply map_length.
  - rewrite E. apply Forall_map. eapply Forall_impl; [|exact HF]. intros; now apply leaves_length.
Qed.

(** Nested points. *)
Lemma nested_holds o l i c : Holds o (Node l) -> 3 <= length (hdims o) -> nth_error l i = Some c ->
  exists p, nestedMatrix o i = Ok p /\ nestedList o i = Ok p /\ Holds p c /\ hdims p = tl (hdims o).
Proof.
  intros (HL & HS & l' & [= <-] & E) H3 Hi.
  destruct (hdims o) as [|d [|d1 rest]] eqn:ED; cbn in HL; try lia.
  apply shape_node in HS as (l' & [= <-] & Hd & HF). subst d.
  pose proof (nth_error_In _ _ Hi) as HI. rewrite Forall_forall in HF. specialize (HF c HI).
  apply shape_node in HF as (m & -> & Hm & HM). subst d1.
  exists {| hrows := map leaves m; hdims := length m :: rest |}.
  unfold nestedMatrix, nestedList. rewrite ED, E, (map_nth_error leaves _ _ Hi).
  assert (HLm : Forall (fun r => length r = prodN rest) (map leaves m)).
  { apply Forall_map. eapply Forall_impl; [|exact HM]. intros; now apply leaves_length. }
  assert (HSn : HasShape (Node m) (length m :: rest)) by (constructor; exact HM).
  split; [|split; [|split]].
  - rewrite (leaves_length _ _ HSn). cbn [prodN fold_right]. rewrite Nat.eqb_refl.
    cbn [leaves]. rewrite flat_map_concat. do 2 f_equal.
    rewrite <- (map_length leaves m). now apply chunks_concat.
  - do 2 f_equal. cbn [leaves]. rewrite flat_map_concat. rewrite <- (map_length leaves m).
    clear - HLm. induction HLm as [|r rs Hr _ IH]; [reflexivity|]. cbn [length seq map concat].
    f_equal.
    + cbn [Nat.mul Nat.add skipn]. rewrite Nat.sub_0_r, firstn_app, <- Hr, Nat.sub_diag, firstn_all. cbn. apply app_nil_r.
    + rewrite <- seq_shift, map_map. rewrite <- IH at 2. apply map_ext. intros k. cbn [Nat.mul].
      replace (prodN rest + k * prodN rest + prodN rest - (prodN rest + k * prodN rest)) with (prodN rest) by lia.
      replace (k * prodN rest + prodN rest - k * prodN rest) with (prodN rest) by lia.
      f_equal. rewrite skipn_app. rewrite (skipn_all2 r) by lia. cbn. f_equal. rewrite Hr. lia.
  - split; [cbn in *; lia|]. split; [exact HSn|]. exists m; auto.
  - reflexivity.
Qed.

Lemma nested_range o l i : Holds o (Node l) -> length l <= i -> nestedMatrix o i = Err IndexErr.
Proof.
  intros (_ & _ & l' & [= <-] & E) Hi. unfold nestedMatrix. rewrite E.
  rewrite (proj2 (nth_error_None _ _)) by (rewrite map_length; lia). reflexivity.
Qed.

Lemma nestedSparse_at d d1 rest es i a b v : 0 < prodN rest -> b < prodN rest ->
  (ValueAt (fst (nestedSparse (d :: d1 :: rest) es i)) a b v <-> ValueAt es i (a * prodN rest + b) v).
Proof.
  intros HP Hb. cbn [nestedSparse fst].
  assert (K : forall w, In (a, b, w) (map (fun e : nat * nat * leaf => (snd (fst e) / prodN rest, snd (fst e) mod prodN rest, snd e))
           (filter (fun e => fst (fst e) =? i) es)) <-> In (i, a * prodN rest + b, w) es).
  { intros w. rewrite in_map_iff. split.
    - intros ([[r c] x] & E & HI). cbn in E. apply filter_In in HI as [HI HR]. cbn in HR. apply Nat.eqb_eq in HR.
      injection E as E1 E2 E3. subst. pose proof (Nat.div_mod c (prodN rest)) as DM.
      replace (c / prodN rest * prodN rest + c mod prodN rest) with c by lia. exact HI.
    - intros HI. exists (i, a * prodN rest + b, w). cbn. split.
      + rewrite Nat.div_add_l, Nat.div_small, Nat.add_0_r by lia.
        rewrite Nat.add_comm, Nat.mod_add, Nat.mod_small by lia. reflexivity.
      + apply filter_In. split; [exact HI|]. cbn. apply Nat.eqb_refl. }
  split; intros H; inversion H; subst; try (constructor 1; apply K; assumption);
    constructor 2; intros w Hw; apply K in Hw; eapply H0; eauto.
Qed.
