(** Proofs for C81. *)
From Verif Require Import Base NamesModel NamesSpec NamesProofs TableModel TableSpec TableProofs TableOps TableOpsProofs TableOps3Proofs SparseModel SparseSpec MatchModel MatchSpec MatchProofs GetSpec GetCountProofs
  ElementsModel ElementsSpec ElementsProofs ElementsCalcProofs CopyModel CopySpec CopyProofs TypedModel TypedSpec TypedProofs TypedTransformProofs ImputeKnnProofs StransModel StransSpec.
From Coq Require Import List String QArith Lia. Import ListNotations.
Open Scope nat_scope.
Notation len := List.length.
Lemma find_pos (es : list (entry pval)) i j v : NoDup (map (@pos pval) es) -> In (mkE i j v) es ->
  find (fun e => (er e =? i) && (ec e =? j)) es = Some (mkE i j v).
Proof.
  induction es as [|e es IH]; intros N I; [destruct I|]. cbn [map] in N. inversion N as [|? ? N1 N2]; subst. cbn [find].
  destruct I as [->|I]; [cbn; rewrite !Nat.eqb_refl; reflexivity|].
  destruct ((er e =? i) && (ec e =? j)) eqn:E; [|apply IH; auto]. exfalso. apply andb_true_iff in E. destruct E as [E1 E2].
  apply Nat.eqb_eq in E1, E2. apply N1. apply in_map_iff. exists (mkE i j v). split; auto. unfold pos. cbn. congruence.
Qed.
Lemma readAt_in es i j v : NoDup (map (@pos pval) es) -> In (mkE i j v) es -> readAt es i j = v.
Proof. intros N I. unfold readAt. rewrite (find_pos _ _ _ _ N I). reflexivity. Qed.
Lemma readAt_out es i j : (forall w, ~ In (mkE i j w) es) -> readAt es i j = PInt 0.
Proof.
  intros H. unfold readAt. destruct (find _ es) as [e|] eqn:E; auto. apply find_some in E. destruct E as [I E]. apply andb_true_iff in E.
  destruct E as [E1 E2]. apply Nat.eqb_eq in E1, E2. exfalso. apply (H (ev e)). destruct e; cbn in *; subst; exact I.
Qed.
Lemma readAt_cases es i j : In (mkE i j (readAt es i j)) es \/ (readAt es i j = PInt 0 /\ forall w, ~ In (mkE i j w) es).
Proof.
  unfold readAt. destruct (find _ es) as [e|] eqn:E.
  - left. apply find_some in E. destruct E as [I E]. apply andb_true_iff in E. destruct E as [E1 E2]. apply Nat.eqb_eq in E1, E2. destruct e; cbn in *; subst; exact I.
  - right. split; auto. intros w I. pose proof (find_none _ _ E _ I) as N. cbn in N. rewrite !Nat.eqb_refl in N. discriminate.
Qed.
(** what is well formed shows its own dense table *)
Definition SOK (x : sobj) : Prop := Inv (xTp x) /\ Inv (xTf x) /\ NoDup (map (@pos pval) (xEnts x)) /\
  forall e, In e (xEnts x) -> er e < alen (xTp x) /\ ec e < alen (xTf x) /\ OfDt (xDt x) (ev e).
Lemma nth_map_seq {A} (f : nat -> A) n i : i < n -> nth_error (map f (seq 0 n)) i = Some (f i).
Proof. intros H. rewrite nth_error_map_eq, nth_error_seq. destruct (i <? n) eqn:E; [reflexivity|]. apply Nat.ltb_ge in E. lia. Qed.
Lemma dense_cell x i j v : cell (denseOf x) i j = Some v <-> i < alen (xTp x) /\ j < alen (xTf x) /\ v = readAt (xEnts x) i j.
Proof.
  unfold cell, denseOf. cbn [rows]. split.
  - intros H. rewrite nth_error_map_eq, nth_error_seq in H. destruct (i <? alen (xTp x)) eqn:E; [|discriminate]. cbn in H.
    rewrite nth_error_map_eq, nth_error_seq in H. destruct (j <? alen (xTf x)) eqn:E'; [|discriminate]. cbn in H. injection H as <-.
    apply Nat.ltb_lt in E, E'. auto.
  - intros (A & B & ->). rewrite nth_map_seq by exact A. rewrite nth_map_seq by exact B. reflexivity.
Qed.
Lemma SOK_shows x : SOK x -> Shows x (denseOf x).
Proof.
  intros (A & B & C & D). split; [|split; [reflexivity|split; [reflexivity|split; [exact C|split; [exact D|]]]]].
  - split; [cbn; rewrite map_length, seq_length; reflexivity|]. split; [|split; assumption]. intros r I. cbn in I. apply in_map_iff in I.
    destruct I as (i & <- & _). rewrite map_length, seq_length. reflexivity.
  - intros i j v H. apply dense_cell in H. destruct H as (_ & _ & ->). apply readAt_cases.
Qed.
Lemma shows_SOK x t : Shows x t -> SOK x.
Proof. intros ((_ & _ & IP & IF) & P & F & N & R & _). unfold SOK. rewrite P, F. auto. Qed.
Lemma shows_read x t i j v : Shows x t -> cell t i j = Some v -> readAt (xEnts x) i j = v.
Proof.
  intros (_ & _ & _ & N & _ & C) H. destruct (C i j v H) as [I|[-> I]]; [apply readAt_in; auto|apply readAt_out; auto].
Qed.
Lemma nonzero_true v : nonzero v = true <-> ~ Same v (PInt 0).
Proof. unfold nonzero. rewrite Bool.negb_true_iff. split; [intros H S; apply pyEq_spec in S; congruence|]. intros H. destruct (pyEq v (PInt 0)) eqn:E; auto. apply pyEq_spec in E. contradiction. Qed.
Lemma nonzero_false v : nonzero v = false <-> Same v (PInt 0).
Proof. unfold nonzero. rewrite Bool.negb_false_iff. apply pyEq_spec. Qed.

(** ** the new entries *)
Lemma combine_seq_nth {A} (r : list A) : forall s j v, In (j, v) (combine (seq s (len r)) r) <-> s <= j /\ nth_error r (j - s) = Some v.
Proof.
  induction r as [|a r IH]; intros s j v; cbn [List.length seq combine].
  - split; [intros []|]. intros [_ H]. destruct (j - s); discriminate.
  - cbn [In]. rewrite IH. split.
    + intros [[= -> ->]|[A1 A2]]; [split; [lia|]; rewrite Nat.sub_diag; reflexivity|]. split; [lia|]. replace (j - s) with (S (j - S s)) by lia. exact A2.
    + intros [A1 A2]. destruct (Nat.eq_dec s j) as [->|N]; [left; rewrite Nat.sub_diag in A2; injection A2 as ->; reflexivity|]. right. split; [lia|].
      replace (j - s) with (S (j - S s)) in A2 by lia. exact A2.
Qed.
Lemma line_in sd i r e : In e (lineEntries sd i r) <-> exists j v, e = entAt sd i j v /\ nth_error r j = Some v /\ ~ Same v (PInt 0).
Proof.
  unfold lineEntries. rewrite in_map_iff. split.
  - intros ([j v] & <- & I). apply filter_In in I. destruct I as [I Z]. apply combine_seq_nth in I. destruct I as [_ I]. rewrite Nat.sub_0_r in I.
    exists j, v. split; auto. split; auto. apply nonzero_true. exact Z.
  - intros (j & v & -> & I & Z). exists (j, v). split; auto. apply filter_In. split; [|apply nonzero_true; exact Z].
    apply combine_seq_nth. split; [lia|]. rewrite Nat.sub_0_r. exact I.
Qed.
Lemma new_in sd rs : forall s e, In e (newEntries sd s rs) <-> exists i j v r, e = entAt sd (s + i) j v /\ nth_error rs i = Some r /\ nth_error r j = Some v /\ ~ Same v (PInt 0).
Proof.
  induction rs as [|r rs IH]; intros s e; cbn [newEntries].
  - split; [intros []|]. intros (i & j & v & r & _ & H & _). destruct i; discriminate.
  - rewrite in_app_iff, line_in, IH. split.
    + intros [(j & v & -> & A & B)|(i & j & v & r' & -> & A & B)]; [exists 0, j, v, r; rewrite Nat.add_0_r; auto|].
      exists (S i), j, v, r'. rewrite Nat.add_succ_r. auto.
    + intros (i & j & v & r' & -> & A & B & Z). destruct i as [|i]; [left; injection A as <-; exists j, v; rewrite Nat.add_0_r; auto|].
      right. exists i, j, v, r'. rewrite Nat.add_succ_r. auto.
Qed.
Lemma pos_entAt sd i j v i' j' v' : pos (entAt sd i j v) = pos (entAt sd i' j' v') <-> i = i' /\ j = j'.
Proof. destruct sd; unfold pos; cbn; split; [intros [=]; auto|intros [-> ->]; auto|intros [=]; auto|intros [-> ->]; auto]. Qed.
Lemma NoDup_app_l {A} (a b : list A) : NoDup a -> NoDup b -> (forall x, In x a -> ~ In x b) -> NoDup (a ++ b).
Proof.
  induction 1 as [|x a N _ IH]; intros B D; cbn; auto. constructor; [|apply IH; auto; intros y I; apply D; right; exact I].
  rewrite in_app_iff. intros [I|I]; [auto|exact (D x (or_introl eq_refl) I)].
Qed.
Lemma line_nodup sd i r : NoDup (map (@pos pval) (lineEntries sd i r)).
Proof.
  unfold lineEntries. rewrite map_map.
  assert (G : forall (r : list pval) s, NoDup (map (fun q : nat * pval => pos (entAt sd i (fst q) (snd q))) (filter (fun q => nonzero (snd q)) (combine (seq s (len r)) r)))).
  { clear r. induction r as [|a r IH]; intros s; cbn [List.length seq combine filter map]; [constructor|].
    cbn [snd]. destruct (nonzero a); [|apply IH]. cbn [map]. constructor; [|apply IH]. intros I. apply in_map_iff in I. destruct I as ([j v] & P & I).
    apply filter_In in I. destruct I as [I _]. apply combine_seq_nth in I. cbn [fst snd] in P. apply pos_entAt in P. lia. }
  apply G.
Qed.
Lemma new_nodup sd rs : forall s, NoDup (map (@pos pval) (newEntries sd s rs)).
Proof.
  induction rs as [|r rs IH]; intros s; cbn [newEntries map]; [constructor|]. rewrite map_app. apply NoDup_app_l; [apply line_nodup|apply IH|].
  intros q A B. apply in_map_iff in A, B. destruct A as (e & <- & A), B as (e' & P & B). apply line_in in A. apply new_in in B.
  destruct A as (j & v & -> & _), B as (i' & j' & v' & r' & -> & _). apply pos_entAt in P. lia.
Qed.
(** the cells of vectors *)
Lemma cellIn_dense sd x i j v : cellIn sd (denseOf x) i j = Some v <-> i < alen (axOf sd x) /\ j < alen (offOf sd x) /\ v = readOf sd (xEnts x) i j.
Proof. destruct sd; cbn [cellIn axOf offOf readOf]; rewrite dense_cell; tauto. Qed.

Lemma F2_intro {A B} (R : A -> B -> Prop) : forall l l', len l = len l' -> (forall i x y, nth_error l i = Some x -> nth_error l' i = Some y -> R x y) -> Forall2 R l l'.
Proof.
  induction l as [|a l IH]; intros [|b l'] L H; try discriminate; constructor; [apply (H 0); reflexivity|]. apply IH; [cbn in L; lia|]. intros i x y; apply (H (Datatypes.S i)).
Qed.
Section S.
Variable floatOf : string -> option pval.
Variable intOf : string -> option Z.
Notation castTo := (TypedModel.castTo floatOf intOf).
Notation castEntry := (StransModel.castEntry floatOf intOf).

Lemma castEntries d es : (forall e, In e es -> exists w, castTo d (ev e) = Ok w) ->
  exists es', rmapM (castEntry d) es = Ok es' /\ Forall2 (fun e e' => pos e' = pos e /\ castTo d (ev e) = Ok (ev e')) es es'.
Proof.
  induction es as [|e es IH]; intros H; [exists []; split; [reflexivity|constructor]|]. destruct (IH (fun u I => H u (or_intror I))) as (es' & E & F).
  destruct (H e (or_introl eq_refl)) as (w & C). exists (mkE (er e) (ec e) w :: es'). split.
  - cbn. unfold StransModel.castEntry at 1. rewrite C. cbn. rewrite E. reflexivity.
  - constructor; auto.
Qed.
Lemma F2_pos d es es' : Forall2 (fun e e' : entry pval => pos e' = pos e /\ castTo d (ev e) = Ok (ev e')) es es' -> map (@pos pval) es' = map (@pos pval) es.
Proof. induction 1 as [|e e' es es' [P _] _ IH]; cbn; congruence. Qed.
Lemma F2_in {A B} (R : A -> B -> Prop) l l' y : Forall2 R l l' -> In y l' -> exists x, In x l /\ R x y.
Proof. induction 1 as [|a b l l' H _ IH]; intros I; [destruct I|]. destruct I as [<-|I]; [exists a; cbn; auto|]. destruct (IH I) as (x & A1 & A2). exists x. cbn; auto. Qed.
Lemma F2_in_l {A B} (R : A -> B -> Prop) l l' x : Forall2 R l l' -> In x l -> exists y, In y l' /\ R x y.
Proof. induction 1 as [|a b l l' H _ IH]; intros I; [destruct I|]. destruct I as [<-|I]; [exists b; cbn; auto|]. destruct (IH I) as (y & A1 & A2). exists y. cbn; auto. Qed.
(** the type of the new data *)
Lemma newDt_base base c es : Below base (newDt true base c es).
Proof. destruct base, c as [[]|], es; exact I. Qed.
Lemma newDt_ret lim base c e es : c = Some e -> Below e (newDt lim base c es).
Proof. intros ->. destruct lim, base, e; exact I. Qed.

Section Axis.
Variables (F : list pval -> result (list pval)) (only : option (list nat)) (sd : side) (x : sobj).
Notation k := (alen (offOf sd x)).
Notation checked i := (checkedF F k (vecOf sd x i)).

Lemma axisLoop_spec : forall is c,
  match axisLoop F only sd x is c with
  | Ok (rs, c') => len rs = len is /\ (forall e0, c = Some e0 -> exists e, c' = Some e /\ Below e0 e) /\
      forall a i r, nth_error is a = Some i -> nth_error rs a = Some r ->
        (outside only i = true -> r = vecOf sd x i) /\
        (outside only i = false -> checked i = Ok r /\ forall v, In v r -> exists e, c' = Some e /\ Below (valueDt v) e)
  | Err e => exists i, In i is /\ outside only i = false /\ checked i = Err e
  end.
Proof.
  induction is as [|i is IH]; intros c; cbn [axisLoop].
  - split; auto. split; [intros e0 ->; exists e0; split; auto; apply Below_refl|]. intros [|a] i r H; discriminate.
  - destruct (outside only i) eqn:O.
    + specialize (IH c). destruct (axisLoop F only sd x is c) as [[rs c']|e]; cbn [rbind fst snd].
      * destruct IH as (L & B & H). split; [cbn; congruence|]. split; auto. intros [|a] i' r A1 A2; cbn in A1, A2; [|eapply H; eauto].
        injection A1 as <-. injection A2 as <-. split; auto. congruence.
      * destruct IH as (i' & I & H). exists i'. split; [right; exact I|exact H].
    + destruct (checked i) as [ret|e] eqn:CH; cbn [rbind]; [|exists i; cbn; auto].
      destruct (update_spec ret c) as (d & -> & U1 & U2). specialize (IH d). destruct (axisLoop F only sd x is d) as [[rs c']|e]; cbn [rbind fst snd].
      * destruct IH as (L & B & H). split; [cbn; congruence|]. split.
        -- intros e0 C. destruct (U2 e0 C) as (e1 & D & B1). destruct (B e1 D) as (e2 & D2 & B2). exists e2. split; auto. eapply Below_trans; eauto.
        -- intros [|a] i' r A1 A2; cbn in A1, A2; [|eapply H; eauto]. injection A1 as <-. injection A2 as <-. split; [congruence|]. intros _. split; auto.
           intros v I. destruct (U1 v I) as (e1 & D & B1). destruct (B e1 D) as (e2 & D2 & B2). exists e2. split; auto. eapply Below_trans; eauto.
      * destruct IH as (i' & I & H). exists i'. split; [right; exact I|exact H].
Qed.
Lemma checked_len i r : checked i = Ok r -> len r = k /\ F (vecOf sd x i) = Ok r.
Proof. unfold checkedF. destruct (F (vecOf sd x i)) as [ret|]; cbn; [|discriminate]. destruct (len ret =? k) eqn:E; [|discriminate]. intros [= <-]. apply Nat.eqb_eq in E. auto. Qed.
Lemma checked_err i e : checked i = Err e -> F (vecOf sd x i) = Err e \/ (e = InvalidArgumentValue /\ exists ret, F (vecOf sd x i) = Ok ret /\ len ret <> k).
Proof. unfold checkedF. destruct (F (vecOf sd x i)) as [ret|e']; cbn; [|left; congruence]. destruct (len ret =? k) eqn:E; [discriminate|]. intros [= <-]. apply Nat.eqb_neq in E. right. eauto. Qed.
Lemma vec_len i : len (vecOf sd x i) = k.
Proof. unfold vecOf. rewrite map_length, seq_length. reflexivity. Qed.
Lemma vec_nth i j v : nth_error (vecOf sd x i) j = Some v <-> j < k /\ v = readOf sd (xEnts x) i j.
Proof.
  unfold vecOf. rewrite nth_error_map_eq, nth_error_seq. destruct (j <? k) eqn:E; cbn; [apply Nat.ltb_lt in E|apply Nat.ltb_ge in E].
  - split; [intros [= <-]; auto|intros [_ ->]; reflexivity].
  - split; [discriminate|intros [H _]; lia].
Qed.
End Axis.
Lemma readOf_cases sd es i j : In (entAt sd i j (readOf sd es i j)) es \/ readOf sd es i j = PInt 0.
Proof. destruct sd; cbn; [destruct (readAt_cases es i j) as [H|[H _]]|destruct (readAt_cases es j i) as [H|[H _]]]; auto. Qed.
Lemma readOf_in sd es i j v : NoDup (map (@pos pval) es) -> In (entAt sd i j v) es -> readOf sd es i j = v.
Proof. destruct sd; cbn; apply readAt_in. Qed.
Lemma readOf_out sd es i j : (forall w, ~ In (entAt sd i j w) es) -> readOf sd es i j = PInt 0.
Proof. destruct sd; cbn; apply readAt_out. Qed.
Lemma entry_entAt sd (e : entry pval) : exists i j, e = entAt sd i j (ev e).
Proof. destruct e as [a b v]. destruct sd; [exists a, b|exists b, a]; reflexivity. Qed.
Lemma ev_entAt sd i j v : ev (entAt sd i j v) = v.
Proof. destruct sd; reflexivity. Qed.
Lemma range_entAt sd (x : sobj) i j v : (er (entAt sd i j v) < alen (xTp x) /\ ec (entAt sd i j v) < alen (xTf x)) <-> (i < alen (axOf sd x) /\ j < alen (offOf sd x)).
Proof. destruct sd; cbn; tauto. Qed.
Lemma transformSparse_spec sd F limitTo only x t : Shows x t -> limitDenotes (axisIn sd t) limitTo only -> 0 < alen (tp t) -> 0 < alen (tf t) ->
  let res := transformSparse floatOf intOf sd F limitTo x in
  match snd res with
  | Ok _ => exists t', Shows (fst res) t' /\ NoZeros (fst res) /\ tp t' = tp t /\ tf t' = tf t /\
      forall i r, i < alen (axisIn sd t) -> VectorOf sd t i r -> exists r', VectorOf sd t' i r' /\
        (chosen only i -> exists ret, F r = Ok ret /\ Forall2 Returned ret r') /\ (~ chosen only i -> SameList r r')
  | Err e => fst res = x /\ exists i r, i < alen (axisIn sd t) /\ VectorOf sd t i r /\ chosen only i /\
      (F r = Err e \/ (e = InvalidArgumentValue /\ exists ret, F r = Ok ret /\ len ret <> len r))
  end.
Proof.
  intros W HD PT PF. pose proof (shows_SOK x t W) as (OP & OF & ON & OR). pose proof W as (WF & EP & EF & _ & _ & _).
  assert (AX : axOf sd x = axisIn sd t) by (destruct sd; assumption). assert (OX : offOf sd x = otherIn sd t) by (destruct sd; assumption).
  assert (RD : forall i j v, cellIn sd t i j = Some v -> readOf sd (xEnts x) i j = v) by (intros i j v; destruct sd; cbn; apply (shows_read x t); exact W).
  assert (CE : forall i j, i < alen (axisIn sd t) -> j < alen (otherIn sd t) -> exists v, cellIn sd t i j = Some v).
  { intros i j Hi Hj. destruct sd; cbn in *; [destruct (cell_some t i j WF Hi Hj) as (v & C & _)|destruct (cell_some t j i WF Hj Hi) as (v & C & _)]; exists v; exact C. }
  assert (VV : forall i r, i < alen (axisIn sd t) -> VectorOf sd t i r -> r = vecOf sd x i).
  { intros i r Hi (L & C). apply nth_error_ext_len; [rewrite vec_len, OX; exact L|]. intros j Hj. destruct (nth_error r j) as [v|] eqn:E; [|apply nth_error_None in E; lia].
    symmetry. apply vec_nth. split; [rewrite OX, <- L; exact Hj|]. symmetry. apply RD. apply C. exact E. }
  assert (VO : forall i, i < alen (axisIn sd t) -> VectorOf sd t i (vecOf sd x i)).
  { intros i Hi. split; [rewrite vec_len, OX; reflexivity|]. intros j v H. apply vec_nth in H. destruct H as (H & ->). rewrite OX in H. destruct (CE i j Hi H) as (v & C). rewrite (RD _ _ _ C). exact C. }
  cbn zeta. unfold transformSparse. rewrite EP, EF. destruct (alen (tp t) =? 0) eqn:Z1; [apply Nat.eqb_eq in Z1; lia|]. destruct (alen (tf t) =? 0) eqn:Z2; [apply Nat.eqb_eq in Z2; lia|]. cbn [orb].
  rewrite AX. assert (IA : Inv (axisIn sd t)) by (rewrite <- AX; destruct sd; assumption). rewrite (resolve_denotes _ _ _ IA HD).
  pose proof (axisLoop_spec F only sd x (seq 0 (alen (axisIn sd t))) None) as LS.
  destruct (axisLoop F only sd x (seq 0 (alen (axisIn sd t))) None) as [[rs c]|e].
  2:{ destruct LS as (i & I & O & C). apply in_seq in I. cbn [fst snd]. split; auto. exists i, (vecOf sd x i). split; [lia|]. split; [apply VO; lia|]. split; [apply outside_chosen; exact O|].
      rewrite vec_len. apply checked_err. exact C. }
  destruct LS as (L & _ & LS). rewrite seq_length in L. cbn zeta.
  assert (ROW : forall i r, nth_error rs i = Some r -> i < alen (axisIn sd t) /\ (outside only i = true -> r = vecOf sd x i) /\
      (outside only i = false -> checkedF F (alen (offOf sd x)) (vecOf sd x i) = Ok r /\ forall v, In v r -> exists e, c = Some e /\ Below (valueDt v) e)).
  { intros i r H. pose proof (nth_error_lt _ _ H) as Hi. rewrite L in Hi. split; auto. apply (LS i i r); auto. rewrite nth_error_seq. apply Nat.ltb_lt in Hi. rewrite Hi. reflexivity. }
  assert (RL : forall i r, nth_error rs i = Some r -> len r = alen (offOf sd x)).
  { intros i r H. destruct (ROW i r H) as (_ & A & B). destruct (outside only i); [rewrite (A eq_refl); apply vec_len|]. destruct (B eq_refl) as (C & _). apply checked_len in C. apply C. }
  set (es := newEntries sd 0 rs). set (d := newDt match only with Some _ => true | None => false end (xDt x) c es).
  assert (VAL : forall i j v r, nth_error rs i = Some r -> nth_error r j = Some v -> ~ Same v (PInt 0) ->
     exists w, castTo d v = Ok w /\ OfDt d w /\ Returned v w /\ (outside only i = true -> SameElement v w)).
  { intros i j v r H1 H2 NZ. destruct (ROW i r H1) as (Hi & A & B). destruct (outside only i) eqn:O.
    - assert (LIM : exists l, only = Some l) by (destruct only as [l|]; [eauto|discriminate]). destruct LIM as (l & LIM).
      rewrite (A eq_refl) in H2. apply vec_nth in H2. destruct H2 as (Hj & ->). destruct (readOf_cases sd (xEnts x) i j) as [I|E0].
      2:{ exfalso. apply NZ. rewrite E0. apply (same_num _ _ (inject_Z 0) (inject_Z 0)); [constructor|constructor|reflexivity]. }
      destruct (OR _ I) as (_ & _ & OD). rewrite ev_entAt in OD.
      assert (FT : Fits d (readOf sd (xEnts x) i j)). { eapply OfDt_up; [exact OD|]. unfold d. rewrite LIM. apply newDt_base. }
      destruct (cast_fits floatOf intOf d _ FT) as (w & C & O' & S'). exists w. split; auto. split; auto. split; [left|]; auto.
    - destruct (B eq_refl) as (_ & T). destruct (T v (nth_error_In _ _ H2)) as (e & EC & BE).
      destruct (cast_returned floatOf intOf d v) as (w & C & O' & R'); [eapply Below_trans; [exact BE|]; apply newDt_ret; exact EC|]. exists w. split; auto. split; auto. split; auto. discriminate. }
  assert (EIN : forall e, In e es <-> exists i j v r, e = entAt sd i j v /\ nth_error rs i = Some r /\ nth_error r j = Some v /\ ~ Same v (PInt 0)).
  { intros e. unfold es. rewrite new_in. reflexivity. }
  destruct (castEntries d es) as (es' & E & F2).
  { intros e I. apply EIN in I. destruct I as (i & j & v & r & -> & A & B & NZ). rewrite ev_entAt. destruct (VAL i j v r A B NZ) as (w & C & _). eauto. }
  rewrite E. cbn [fst snd]. set (x' := mkS (tp t) (tf t) d es').
  assert (EQ : forall i j w, In (entAt sd i j w) es' -> exists v r, nth_error rs i = Some r /\ nth_error r j = Some v /\ ~ Same v (PInt 0) /\ castTo d v = Ok w).
  { intros i j w I. destruct (F2_in _ _ _ _ F2 I) as (e & I' & P & C). apply EIN in I'. destruct I' as (i' & j' & v & r & -> & A & B & NZ).
    apply pos_entAt in P. destruct P as [<- <-]. rewrite !ev_entAt in C. eauto 10. }
  assert (SK : SOK x').
  { unfold SOK, x'. cbn [xTp xTf xDt xEnts]. rewrite <- EP at 1. rewrite <- EF at 1. split; [exact OP|]. split; [exact OF|]. split; [rewrite (F2_pos _ _ _ F2); apply new_nodup|].
    intros e I. destruct (entry_entAt sd e) as (i & j & EE). rewrite EE in I |- *. destruct (EQ _ _ _ I) as (v & r & A & B & NZ & C). rewrite ev_entAt.
    destruct (VAL i j v r A B NZ) as (w & C' & O' & _). assert (w = ev e) by congruence. subst w.
    assert (RG : i < alen (axOf sd x') /\ j < alen (offOf sd x')).
    { split; [destruct (ROW _ _ A) as (Hi & _); destruct sd; exact Hi|]. pose proof (nth_error_lt _ _ B) as Hj. rewrite (RL _ _ A), OX in Hj. destruct sd; exact Hj. }
    apply (range_entAt sd x' i j (ev e)) in RG. destruct RG. auto. }
  exists (denseOf x'). replace (mkS (xTp x) (xTf x) d es') with x' by (unfold x'; rewrite <- EP, <- EF; reflexivity).
  split; [apply SOK_shows; exact SK|]. split.
  { intros e I. destruct (entry_entAt sd e) as (i & j & EE). rewrite EE in I. destruct (EQ _ _ _ I) as (v & r & A & B & NZ & C). intros SZ. apply NZ.
    destruct (VAL i j v r A B NZ) as (w & C' & _ & R' & _). assert (w = ev e) by congruence. subst w. destruct R' as [[S'|[-> S']]|[-> S']].
    - eapply Same_trans; eauto.
    - rewrite S' in SZ. inversion SZ as [p q ? ? X| | | |]; subst; inversion X.
    - rewrite S' in SZ. inversion SZ as [p q ? ? X| | | |]; subst; inversion X. }
  split; [reflexivity|]. split; [reflexivity|].
  intros i r Hi HV. rewrite (VV i r Hi HV). clear r HV.
  assert (Hr : exists r0, nth_error rs i = Some r0) by (apply nth_error_is_some; rewrite L; exact Hi). destruct Hr as (r0 & Hr).
  assert (GET : forall j v, nth_error r0 j = Some v -> exists w, readOf sd es' i j = w /\ Returned v w /\ (outside only i = true -> SameElement v w)).
  { intros j v Hv. destruct (nonzero v) eqn:Z; [apply nonzero_true in Z|apply nonzero_false in Z].
    - destruct (VAL i j v r0 Hr Hv Z) as (w & C & _ & R' & S'). exists w. split; auto.
      assert (I : In (entAt sd i j v) es) by (apply EIN; eauto 10). destruct (F2_in_l _ _ _ _ F2 I) as (e' & I' & P & C'). rewrite ev_entAt in C'. assert (EW : ev e' = w) by congruence.
      apply readOf_in; [rewrite (F2_pos _ _ _ F2); apply new_nodup|]. destruct (entry_entAt sd e') as (i' & j' & EE). rewrite EE in P. apply pos_entAt in P. destruct P as [-> ->]. rewrite EE in I'. rewrite EW in I'. exact I'.
    - exists (PInt 0). split; [|split; [left; left; exact Z|intros _; left; exact Z]]. apply readOf_out. intros w I. destruct (EQ _ _ _ I) as (v' & r' & A & B & NZ & _).
      assert (r' = r0) by congruence. subst r'. assert (v' = v) by congruence. subst v'. contradiction. }
  exists (vecOf sd x' i). assert (RLi : len r0 = alen (offOf sd x')). { rewrite (RL _ _ Hr), OX. destruct sd; reflexivity. }
  assert (CI : forall j, j < alen (offOf sd x') -> cellIn sd (denseOf x') i j = Some (readOf sd es' i j)).
  { intros j Hj. apply cellIn_dense. split; [destruct sd; exact Hi|]. split; auto. }
  assert (FF : forall R : pval -> pval -> Prop, (forall j v, nth_error r0 j = Some v -> R v (readOf sd es' i j)) -> Forall2 R r0 (vecOf sd x' i)).
  { intros R H. apply F2_intro; [rewrite vec_len; exact RLi|]. intros j v w A B. apply vec_nth in B. destruct B as (_ & ->). apply H. exact A. }
  split; [|split].
  - split; [rewrite vec_len; destruct sd; reflexivity|]. intros j v H. apply vec_nth in H. destruct H as (Hj & ->). apply CI. exact Hj.
  - intros CH. apply (proj2 (proj1 (outside_chosen only i))) in CH. destruct (ROW i r0 Hr) as (_ & _ & B). destruct (B CH) as (C & _). apply checked_len in C. exists r0. split; [apply C|].
    apply FF. intros j v H. destruct (GET j v H) as (w & -> & R' & _). exact R'.
  - intros CH. apply (proj2 (proj2 (outside_chosen only i))) in CH. destruct (ROW i r0 Hr) as (_ & A & _). rewrite <- (A CH). apply FF. intros j v H. destruct (GET j v H) as (w & -> & _ & S'). exact (S' CH).
Qed.
End S.
