(** Proofs for C81: numbers and None make numbers. *)
From Verif Require Import Base NamesModel NamesSpec NamesProofs TableModel TableSpec TableProofs TableOps TableOpsProofs TableOps3Proofs SparseModel SparseSpec MatchModel MatchSpec MatchProofs GetSpec GetCountProofs
  ElementsModel ElementsSpec ElementsProofs ElementsCalcProofs CopyModel CopySpec CopyProofs TypedModel TypedSpec TypedProofs TypedTransformProofs StransModel StransSpec StransProofs StransElemProofs.
From Coq Require Import List String QArith Lia. Import ListNotations.
Open Scope nat_scope.
Notation len := List.length.
Section S.
Variable floatOf : string -> option pval.
Variable intOf : string -> option Z.
Notation modifyArray := (StransModel.modifyArray floatOf intOf).
Notation storedLoop := (StransModel.storedLoop floatOf intOf).
Notation renumber := (StransModel.renumber floatOf intOf).
Lemma ofdt_numeral d v : NumberType d -> OfDt d v -> Numeral v.
Proof. intros [->| ->]; [intros (z & ->); exact I|]. destruct v; cbn; auto. Qed.
Lemma dmax_number a b : NumberType a -> NumberType b -> NumberType (dmax a b).
Proof. intros [->| ->] [->| ->]; cbv; auto. Qed.
Lemma fold_number l : forall a, NumberType a -> Forall NumberType l -> NumberType (fold_left dmax l a).
Proof. induction l as [|b l IH]; intros a HA HL; cbn; auto. inversion HL; subst. apply IH; auto. apply dmax_number; auto. Qed.
Lemma valueDt_number v : Numeral v \/ v = PNone -> NumberType (valueDt v).
Proof. intros [H| ->]; [|right; reflexivity]. destruct v; cbn in *; try contradiction; [left|right|right|right|right]; reflexivity. Qed.
Lemma modify_number d data k w d' data' : NumberType d -> Numeral w \/ w = PNone -> modifyArray d data k w = Ok (d', data') -> NumberType d'.
Proof.
  intros HD HW. unfold StransModel.modifyArray. cbn zeta. set (D := match d with DObj => _ | _ => _ end).
  assert (ND : NumberType D). { destruct HD as [->| ->], HW as [HW| ->]; try destruct w; cbn in *; try contradiction; first [left; reflexivity|right; reflexivity]. }
  clearbody D. destruct (rmapM _ data) as [a|]; cbn; [|discriminate]. destruct (TypedModel.castTo _ _ D w) as [b|]; cbn; [|discriminate]. intros E. injection E as <- <-. exact ND.
Qed.
Lemma loop_number g ps fs : forall todo k d data, NumberType d ->
  (forall e w, In e todo -> outside ps (er e) = false -> outside fs (ec e) = false -> g (ev e) (er e) (ec e) = Ok w -> Numeral w \/ w = PNone) ->
  NumberType (fst (fst (storedLoop g ps fs k todo d data))).
Proof.
  induction todo as [|e t IH]; intros k d data HD HG; cbn [StransModel.storedLoop]; auto.
  destruct (outside ps (er e) || outside fs (ec e)) eqn:O; [apply IH; auto; intros; eapply HG; eauto; right; auto|].
  apply Bool.orb_false_iff in O. destruct O as [O1 O2].
  destruct (g (ev e) (er e) (ec e)) as [w|x] eqn:G; [|exact HD].
  destruct (modifyArray d data k w) as [[d' data']|x] eqn:M; [|exact HD].
  apply IH; [eapply modify_number; [exact HD| |exact M]; eapply HG; eauto; left; reflexivity|]. intros; eapply HG; eauto; right; auto.
Qed.
Lemma renumber_number d data d' data' : NumberType d -> Forall (OfDt d) data -> renumber d data = Ok (d', data') -> NumberType d'.
Proof.
  intros HD HF. unfold StransModel.renumber. destruct (allNumbers d data).
  2:{ intros E. injection E as <- <-. exact HD. }
  cbn zeta. set (D := match map valueDt data with [] => _ | _ => _ end).
  assert (ND : NumberType D).
  { assert (A : Forall NumberType (map valueDt data)).
    { apply Forall_forall. intros y I. apply in_map_iff in I. destruct I as (v & <- & I). rewrite Forall_forall in HF. apply valueDt_number. left. eapply ofdt_numeral; eauto. }
    unfold D. destruct (map valueDt data) as [|a l]; [right; reflexivity|]. inversion A; subst. apply fold_number; auto. }
  clearbody D. destruct (rmapM _ data) as [a|]; cbn; [|discriminate]. intros E. injection E as <- <-. exact ND.
Qed.
Lemma validated_number pz skip f v i j w : Numeral v -> (forall r, callF f v i j = Ok r -> Numeral r \/ r = PNone) -> validated pz skip f v i j = Ok w -> Numeral w \/ w = PNone.
Proof.
  intros HV HF. unfold validated. destruct (zeroPreserving pz f && pyEq v (PInt 0)); [intros E; injection E as <-; left; exact I|].
  destruct (callF f v i j) as [r|]; cbn; [|discriminate]. intros E. specialize (HF r eq_refl). destruct r; try (injection E as <-; exact HF). destruct skip; injection E as <-; auto.
Qed.
Variable strOf : pval -> string.
Lemma stored_number f points features ps fs pz skip x t : Shows x t -> NumberType (xDt x) -> limitDenotes (tp t) points ps -> limitDenotes (tf t) features fs -> zeroPreserving pz f = true ->
  (forall i j v w, cell t i j = Some v -> addressed ps fs i j -> callF f v i j = Ok w -> Numeral w \/ w = PNone) ->
  let res := transformElementsSparse floatOf intOf strOf f points features pz skip x in
  NumberType (xDt (fst res)) /\ forall e, In e (xEnts (fst res)) -> Numeral (ev e).
Proof.
  intros W HD HP HF Z HN. pose proof (shows_SOK x t W) as (OP & OF & ON & OR). pose proof W as (WF & EP & EF & _ & _ & _).
  cbn zeta. unfold transformElementsSparse. rewrite EP, EF. rewrite EP in OP. rewrite EF in OF. rewrite (resolve_denotes _ _ _ OP HP), (resolve_denotes _ _ _ OF HF), Z.
  unfold transformStored. cbn zeta. set (g := validated pz skip f).
  assert (ND : xDt x <> DBool) by (destruct HD as [->| ->]; discriminate).
  destruct (storedLoop_spec floatOf intOf g ps fs (xEnts x) (xEnts x) 0 (xDt x) (map (@ev pval) (xEnts x))) as (d & data & r & stop & E & ND' & FD & LD & U & R).
  { exists []. auto. } { exact ND. } { apply Forall_forall. intros v I. apply in_map_iff in I. destruct I as (e & <- & I). apply (OR e I). } { apply map_length. }
  { intros j e H. exists (ev e). split; [rewrite nth_error_map_eq, H; reflexivity|]. cbn. apply same_el. }
  assert (NL : NumberType (fst (fst (storedLoop g ps fs 0 (xEnts x) (xDt x) (map (@ev pval) (xEnts x)))))).
  { apply loop_number; [exact HD|]. intros e w I O1 O2 G. destruct (OR e I) as (R1 & R2 & OD). rewrite EP in R1. rewrite EF in R2.
    eapply validated_number; [eapply ofdt_numeral; [exact HD|exact OD]| |exact G]. intros q C. destruct (cell_some t _ _ WF R1 R2) as (v & C' & _).
    assert (v = ev e). { rewrite <- (shows_read x t _ _ _ W C'). apply readAt_in; auto. destruct e; exact I. } subst v.
    eapply HN; [exact C'| |exact C]. apply (within_addressed ps fs e). unfold within. rewrite O1, O2. reflexivity. }
  rewrite E in NL |- *. cbn [fst snd] in NL |- *.
  assert (ALL : forall d0 data0 keep, NumberType d0 -> Forall (OfDt d0) data0 -> forall e, In e (filter keep (withData (xEnts x) data0)) -> Numeral (ev e)).
  { intros d0 data0 keep N0 F0 e I. apply filter_In in I. destruct I as (I & _). unfold withData in I. apply in_map_iff in I. destruct I as ([a b] & <- & I). cbn. apply in_combine_r in I.
    rewrite Forall_forall in F0. eapply ofdt_numeral; eauto. }
  destruct r as [u0|e].
  - destruct (renumber_spec floatOf intOf d data ND' FD) as (d' & data' & E2 & SL & FD'). rewrite E2. cbn [fst snd xDt xEnts].
    assert (N' : NumberType d') by (eapply renumber_number; eauto). split; [exact N'|]. eapply ALL; eauto.
  - cbn [fst snd xDt xEnts]. split; [exact NL|]. intros e0 I. eapply (ALL d data (fun _ => true)); eauto. rewrite filter_id. exact I.
Qed.
Lemma axisLoop_number F only sd x : forall is c rs c', (forall i r v, In i is -> outside only i = false -> F (vecOf sd x i) = Ok r -> In v r -> Numeral v \/ v = PNone) ->
  (forall d, c = Some d -> NumberType d) -> axisLoop F only sd x is c = Ok (rs, c') -> forall d, c' = Some d -> NumberType d.
Proof.
  assert (FU : forall ret c, (forall v, In v ret -> Numeral v \/ v = PNone) -> (forall d, c = Some d -> NumberType d) -> forall d, fold_left updateType ret c = Some d -> NumberType d).
  { induction ret as [|v ret IH]; intros c HR HC d; cbn; auto. apply IH; [intros; apply HR; right; auto|]. intros d0. destruct c as [d1|]; cbn; intros E; injection E as <-.
    - apply dmax_number; [auto|]. apply valueDt_number. apply HR. left; auto.
    - apply valueDt_number. apply HR. left; auto. }
  induction is as [|i is IH]; intros c rs c' HF HC; cbn [axisLoop].
  - intros E. injection E as <- <-. exact HC.
  - destruct (outside only i) eqn:O.
    + destruct (axisLoop F only sd x is c) as [[rs1 c1]|] eqn:A; cbn; [|discriminate]. intros E. injection E as <- <-. eapply IH; [|exact HC|exact A]. intros; eapply HF; eauto; right; auto.
    + unfold checkedF. destruct (F (vecOf sd x i)) as [ret|] eqn:C; cbn; [|discriminate]. destruct (len ret =? _); cbn; [|discriminate].
      destruct (axisLoop F only sd x is (fold_left updateType ret c)) as [[rs1 c1]|] eqn:A; cbn; [|discriminate]. intros E. injection E as <- <-.
      eapply IH; [|apply FU; [|exact HC]|exact A]; [intros; eapply HF; eauto; right; auto|]. intros v I. eapply (HF i ret v); eauto. left; auto.
Qed.
Lemma newDt_number lim base c es : NumberType base -> (forall d, c = Some d -> NumberType d) -> NumberType (newDt lim base c es).
Proof.
  intros HB HC. unfold newDt. destruct (lim && _); [exact HB|]. destruct c as [d|]; [apply HC; reflexivity|]. destruct es; [right; reflexivity|exact HB].
Qed.
Lemma transform_number sd F limitTo only x t : Shows x t -> NumberType (xDt x) -> limitDenotes (axisIn sd t) limitTo only -> 0 < alen (tp t) -> 0 < alen (tf t) ->
  (forall i r ret v, i < alen (axisIn sd t) -> VectorOf sd t i r -> chosen only i -> F r = Ok ret -> In v ret -> Numeral v \/ v = PNone) ->
  let res := transformSparse floatOf intOf sd F limitTo x in
  NumberType (xDt (fst res)) /\ forall e, In e (xEnts (fst res)) -> Numeral (ev e).
Proof.
  intros W HD HL PT PF HN res. pose proof (transformSparse_spec floatOf intOf sd F limitTo only x t W HL PT PF) as SP. cbn zeta in SP. fold res in SP.
  pose proof (shows_SOK x t W) as (OP & OF & ON & OR). pose proof W as (WF & EP & EF & _ & _ & _).
  assert (NT : NumberType (xDt (fst res))).
  { unfold res, transformSparse. rewrite EP, EF. destruct (alen (tp t) =? 0) eqn:Z1; [exact HD|]. destruct (alen (tf t) =? 0) eqn:Z2; [exact HD|]. cbn [orb].
    assert (AX : axOf sd x = axisIn sd t) by (destruct sd; assumption). assert (OX : offOf sd x = otherIn sd t) by (destruct sd; assumption).
    rewrite AX. assert (IA : Inv (axisIn sd t)) by (rewrite <- AX; destruct sd; assumption). rewrite (resolve_denotes _ _ _ IA HL).
    destruct (axisLoop F only sd x (seq 0 (alen (axisIn sd t))) None) as [[rs c]|] eqn:A; [|exact HD].
    cbn zeta. destruct (rmapM _ _) as [es'|]; [|exact HD]. cbn [fst xDt]. apply newDt_number; [exact HD|].
    eapply axisLoop_number; [| |exact A]; [|intros d E; discriminate E]. intros i r v I O C IV. apply in_seq in I. eapply (HN i (vecOf sd x i) r v); eauto; [lia| |apply outside_chosen; exact O].
    split; [rewrite vec_len, OX; reflexivity|]. intros j u H. apply vec_nth in H. destruct H as (H & ->). rewrite OX in H.
    assert (CC : exists v, cellIn sd t i j = Some v).
    { assert (Hi : i < alen (axisIn sd t)) by lia. destruct sd; cbn in *; [destruct (cell_some t i j WF Hi H) as (q & Q & _)|destruct (cell_some t j i WF H Hi) as (q & Q & _)]; exists q; exact Q. }
    destruct CC as (q & Q). rewrite Q. f_equal. destruct sd; cbn in *; symmetry; eapply (shows_read x t); eauto. }
  split; [exact NT|]. intros e I. destruct (snd res) as [u|er].
  - destruct SP as (t' & W' & _). destruct (shows_SOK _ _ W') as (_ & _ & _ & OR'). eapply ofdt_numeral; [exact NT|]. apply (OR' e I).
  - destruct SP as (SP & _). rewrite SP in I. eapply ofdt_numeral; [exact HD|]. apply (OR e I).
Qed.
End S.
