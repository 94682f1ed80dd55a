(** Proofs about shared dimension records (C69). *)
From Coq Require Import QArith.
From Coq Require Import Ascii String.
From Verif Require Import Base HighModel HighSpec HighProofs HighOpsProofs DimsModel DimsSpec.
From Coq Require Import List.
Import ListNotations.
Open Scope list_scope.
Open Scope nat_scope.

Record Inv (w : world) (marks : list bool) : Prop := {
  inv_len : length marks = length (objs w);
  inv_ref : forall i d, nth_error (objs w) i = Some d -> dref d < length (recs w);
  inv_sep : forall i j a b, i <> j -> nth_error (objs w) i = Some a -> nth_error (objs w) j = Some b ->
              dref a = dref b -> nth_error marks i = Some true /\ nth_error marks j = Some true }.

Lemma repeats_spec is : repeats is = negb (nodupb is).
Proof.
  induction is as [|i r IH]; [reflexivity|]. cbn. rewrite IH.
  assert (E : existsb (Nat.eqb i) r = mem i r).
  { destruct (mem i r) eqn:E.
    - apply existsb_exists. exists i. split; [now apply mem_In|apply Nat.eqb_refl].
    - apply Bool.not_true_is_false. intros H. apply existsb_exists in H as (j & H & Hj). apply Nat.eqb_eq in Hj. subst j.
      apply mem_In in H. congruence. }
  rewrite E. now destruct (mem i r), (nodupb r).
Qed.

Lemma distinct_same {A} is (r : result A) : distinctOnly is r = distinct is r.
Proof. unfold distinctOnly, distinct. rewrite repeats_spec. now destruct (nodupb is). Qed.

Lemma seen_nth w x : nth_error (seen w) x = option_map (look w) (nth_error (objs w) x).
Proof. unfold seen. apply nth_error_map. Qed.

Lemma objectAt_get w x : objectAt (seen w) x = rmap (look w) (get w x).
Proof. unfold objectAt, get. rewrite seen_nth. destruct (nth_error (objs w) x); reflexivity. Qed.

Lemma get_some w x d : get w x = Ok d <-> nth_error (objs w) x = Some d.
Proof. unfold get. destruct (nth_error (objs w) x); split; congruence. Qed.

Lemma look_app w more d os : dref d < length (recs w) ->
  look {| recs := recs w ++ more; objs := os |} d = look w d.
Proof. intros H. unfold look. cbn [recs]. now rewrite app_nth1. Qed.

Lemma look_new w o os : look {| recs := recs w ++ [hdims o]; objs := os |} {| dref := length (recs w); drows := hrows o |} = o.
Proof. unfold look. cbn [recs dref drows]. rewrite app_nth2, Nat.sub_diag by lia. destruct o; reflexivity. Qed.

Lemma map_upd {A B} (f : A -> B) l i x : map f (upd l i x) = upd (map f l) i (f x).
Proof. revert i. induction l as [|a l IH]; intros [|i]; cbn; congruence. Qed.

Lemma seen_make w marks o : Inv w marks -> seen (make w o) = seen w ++ [o].
Proof.
  intros I. unfold seen, make. cbn [objs]. rewrite map_app. f_equal.
  - apply map_ext_in. intros d Hd. apply In_nth_error in Hd as [i Hi]. apply look_app. eapply inv_ref; eauto.
  - cbn. f_equal. apply look_new.
Qed.

Lemma inv_make w marks o : Inv w marks -> Inv (make w o) (marks ++ [false]).
Proof.
  intros I. destruct I as [IL IR IS]. constructor.
  - cbn. rewrite !app_length. cbn. lia.
  - unfold make. cbn [objs recs]. intros i d H. rewrite app_length. cbn [length].
    destruct (Nat.ltb_spec i (length (objs w))) as [Hi|Hi].
    + rewrite nth_error_app1 in H by exact Hi. specialize (IR _ _ H). lia.
    + rewrite nth_error_app2 in H by exact Hi. destruct (i - length (objs w)) as [|k]; cbn in H; [|destruct k; discriminate].
      injection H as <-. cbn. lia.
  - unfold make. cbn [objs]. intros i j a b Hij Hi Hj Hab.
    destruct (Nat.ltb_spec i (length (objs w))) as [Li|Li]; destruct (Nat.ltb_spec j (length (objs w))) as [Lj|Lj];
    rewrite ?nth_error_app1 in Hi by exact Li; rewrite ?nth_error_app1 in Hj by exact Lj;
    rewrite ?nth_error_app2 in Hi by exact Li; rewrite ?nth_error_app2 in Hj by exact Lj.
    + rewrite !nth_error_app1 by lia. eapply IS; eauto.
    + destruct (j - length (objs w)) as [|k]; cbn in Hj; [|destruct k; discriminate]. injection Hj as <-.
      cbn in Hab. specialize (IR _ _ Hi). lia.
    + destruct (i - length (objs w)) as [|k]; cbn in Hi; [|destruct k; discriminate]. injection Hi as <-.
      cbn in Hab. specialize (IR _ _ Hj). lia.
    + destruct (i - length (objs w)) as [|k] eqn:Ei; cbn in Hi; [|destruct k; discriminate].
      destruct (j - length (objs w)) as [|k] eqn:Ej; cbn in Hj; [|destruct k; discriminate]. lia.
Qed.

Lemma seen_replace w marks x o : Inv w marks -> seen (replace w x o) = upd (seen w) x o.
Proof.
  intros I. unfold seen, replace. cbn [objs]. rewrite map_upd, look_new. f_equal.
  apply map_ext_in. intros d Hd. apply In_nth_error in Hd as [i Hi]. apply look_app. eapply inv_ref; eauto.
Qed.

Lemma nth_upd_cases {A} (l : list A) x v i d : nth_error (upd l x v) i = Some d ->
  (i = x /\ d = v) \/ (i <> x /\ nth_error l i = Some d).
Proof.
  intros H. destruct (Nat.eq_dec i x) as [->|Hne].
  - left. split; [reflexivity|]. assert (HL : x < length l) by (rewrite <- (upd_length l x v); apply nth_error_Some; congruence).
    rewrite nth_error_upd_same in H by exact HL. congruence.
  - right. rewrite nth_error_upd_other in H by auto. auto.
Qed.

Lemma inv_replace w marks x o : Inv w marks -> Inv (replace w x o) (upd marks x false).
Proof.
  intros [IL IR IS]. constructor.
  - cbn. rewrite !upd_length. exact IL.
  - unfold replace. cbn [objs recs]. intros i d H. rewrite app_length. cbn [length].
    apply nth_upd_cases in H as [[-> ->]|[_ H]]; [cbn; lia|]. specialize (IR _ _ H). lia.
  - unfold replace. cbn [objs]. intros i j a b Hij Hi Hj Hab.
    apply nth_upd_cases in Hi as [[-> ->]|[Ni Hi]]; apply nth_upd_cases in Hj as [[-> ->]|[Nj Hj]]; cbn in Hab.
    + congruence.
    + specialize (IR _ _ Hj). lia.
    + specialize (IR _ _ Hi). lia.
    + rewrite !nth_error_upd_other by auto. eapply IS; eauto.
Qed.

Lemma seen_mutate w marks x d o : Inv w marks -> nth_error (objs w) x = Some d -> nth_error marks x = Some false ->
  seen (mutate w x d o) = upd (seen w) x o.
Proof.
  intros I Hx Hm. apply nth_error_ext. intros i. rewrite seen_nth. unfold mutate at 2. cbn [objs].
  destruct (Nat.eq_dec i x) as [->|Hne].
  - assert (HL : x < length (objs w)) by (apply nth_error_Some; congruence).
    rewrite nth_error_upd_same by exact HL. rewrite nth_error_upd_same by (unfold seen; rewrite map_length; exact HL).
    cbn [option_map]. f_equal. unfold look, mutate. cbn [recs dref drows].
    rewrite (nth_error_nth _ _ [] (@nth_error_upd_same _ (recs w) (dref d) (hdims o) (inv_ref _ _ I _ _ Hx))).
    destruct o; reflexivity.
  - rewrite !nth_error_upd_other by auto. rewrite seen_nth. destruct (nth_error (objs w) i) as [e|] eqn:Ei; [|reflexivity].
    cbn [option_map]. f_equal. unfold look, mutate. cbn [recs]. f_equal.
    assert (Hd : dref d <> dref e).
    { intros E. destruct (inv_sep _ _ I i x e d Hne Ei Hx (eq_sym E)) as [_ C]. congruence. }
    pose proof (inv_ref _ _ I _ _ Ei) as He.
    apply nth_error_nth. rewrite nth_error_upd_other by auto. apply nth_error_nth'. exact He.
Qed.

Lemma inv_rows w marks x d o : Inv w marks -> nth_error (objs w) x = Some d -> forall rs, length rs = length (recs w) ->
  Inv {| recs := rs; objs := upd (objs w) x {| dref := dref d; drows := o |} |} marks.
Proof.
  intros [IL IR IS] Hx rs HL. constructor.
  - cbn. now rewrite upd_length.
  - cbn [objs recs]. intros i e H. rewrite HL. apply nth_upd_cases in H as [[-> ->]|[_ H]]; [cbn|]; eauto.
  - cbn [objs]. intros i j a b Hij Hi Hj Hab.
    apply nth_upd_cases in Hi as [[-> ->]|[Ni Hi]]; apply nth_upd_cases in Hj as [[-> ->]|[Nj Hj]]; cbn in Hab; eauto.
Qed.

Lemma inv_mutate w marks x d o : Inv w marks -> nth_error (objs w) x = Some d -> Inv (mutate w x d o) marks.
Proof. intros I Hx. apply (inv_rows w marks x d (hrows o) I Hx). now rewrite upd_length. Qed.

Lemma seen_shared w marks x d o : Inv w marks -> nth_error (objs w) x = Some d -> hdims o = hdims (look w d) ->
  seen (makeShared w d o) = seen w ++ [o].
Proof.
  intros I Hx E. unfold seen, makeShared. cbn [objs]. rewrite map_app. f_equal. cbn. f_equal.
  unfold look in *. cbn in *. rewrite <- E. destruct o; reflexivity.
Qed.

Lemma inv_shared w marks x d o : Inv w marks -> nth_error (objs w) x = Some d ->
  Inv (makeShared w d o) (upd marks x true ++ [true]).
Proof.
  intros [IL IR IS] Hx. assert (HLx : x < length (objs w)) by (apply nth_error_Some; congruence). constructor.
  - cbn. rewrite !app_length, upd_length. cbn. lia.
  - unfold makeShared. cbn [objs recs]. intros i e H.
    destruct (Nat.ltb_spec i (length (objs w))) as [Hi|Hi].
    + rewrite nth_error_app1 in H by exact Hi. eauto.
    + rewrite nth_error_app2 in H by exact Hi. destruct (i - length (objs w)) as [|k]; cbn in H; [|destruct k; discriminate].
      injection H as <-. cbn. eauto.
  - assert (Mono : forall i, i < length (objs w) -> nth_error marks i = Some true -> nth_error (upd marks x true ++ [true]) i = Some true).
    { intros i Hi Hm. rewrite nth_error_app1 by (rewrite upd_length; lia). destruct (Nat.eq_dec i x) as [->|Hne];
        [apply nth_error_upd_same; lia|]. rewrite nth_error_upd_other by auto. exact Hm. }
    assert (Last : nth_error (upd marks x true ++ [true]) (length (objs w)) = Some true).
    { rewrite nth_error_app2 by (rewrite upd_length; lia). rewrite upd_length, IL, Nat.sub_diag. reflexivity. }
    assert (Atx : nth_error (upd marks x true ++ [true]) x = Some true).
    { rewrite nth_error_app1 by (rewrite upd_length; lia). apply nth_error_upd_same. lia. }
    assert (Old : forall i e, nth_error (objs w) i = Some e -> dref e = dref d -> nth_error (upd marks x true ++ [true]) i = Some true).
    { intros i e Hi He. destruct (Nat.eq_dec i x) as [->|Hne]; [exact Atx|].
      apply Mono; [apply nth_error_Some; congruence|]. apply (IS i x e d Hne Hi Hx He). }
    unfold makeShared. cbn [objs]. intros i j a b Hij Hi Hj Hab.
    destruct (Nat.ltb_spec i (length (objs w))) as [Li|Li]; destruct (Nat.ltb_spec j (length (objs w))) as [Lj|Lj];
    rewrite ?nth_error_app1 in Hi by exact Li; rewrite ?nth_error_app1 in Hj by exact Lj;
    rewrite ?nth_error_app2 in Hi by exact Li; rewrite ?nth_error_app2 in Hj by exact Lj.
    + destruct (IS i j a b Hij Hi Hj Hab) as [Mi Mj]. split; apply Mono; auto.
    + destruct (j - length (objs w)) as [|k] eqn:Ej; cbn in Hj; [|destruct k; discriminate]. injection Hj as <-.
      replace j with (length (objs w)) by lia. split; [eapply Old; eauto|exact Last].
    + destruct (i - length (objs w)) as [|k] eqn:Ei; cbn in Hi; [|destruct k; discriminate]. injection Hi as <-.
      replace i with (length (objs w)) by lia. split; [exact Last|eapply Old; eauto].
    + destruct (i - length (objs w)) as [|k] eqn:Ei; cbn in Hi; [|destruct k; discriminate].
      destruct (j - length (objs w)) as [|k] eqn:Ej; cbn in Hj; [|destruct k; discriminate]. lia.
Qed.

Lemma binaryObj_dims op a b r : binaryObj op a b = Ok r -> hdims r = hdims a.
Proof.
  unfold binaryObj. destruct (negb _); [discriminate|]. destruct (shapeOf a) as [p f].
  destruct ((p =? 0) || (f =? 0)); [discriminate|]. intros [= <-]. reflexivity.
Qed.
Lemma permute_dims a order r : pointsPermute a order = Ok r -> hdims r = hdims a.
Proof. unfold pointsPermute. destruct (gatherRows _ _); [|discriminate]. intros [= <-]. reflexivity. Qed.

Ltac getx w x d Hd := destruct (get w x) as [d|] eqn:Hd; cbn [rmap rbind]; [|first [discriminate|reflexivity]]; apply get_some in Hd.

Lemma sim_err w s : is_ok (effect (seen w) s) = false -> is_ok (step w s) = false.
Proof.
  destruct s; cbn [effect step]; rewrite ?objectAt_get, ?distinct_same; auto;
  repeat match goal with |- context [get w ?x] => destruct (get w x); cbn [rmap rbind]; [|solve [auto]] end;
  rewrite ?distinct_same; unfold distinct;
  repeat match goal with |- context [if ?b then _ else _] => destruct b; [|solve [auto]] || (destruct b; [solve [auto]|]) end;
  repeat match goal with |- context [rbind ?r _] => destruct r; cbn [rbind]; [|solve [auto]] end; auto.
Qed.

Lemma sim_ok w marks s os' : Inv w marks -> effect (seen w) s = Ok os' ->
  (forall x, resizes s = Some x -> nth_error marks x = Some false) ->
  exists w', step w s = Ok w' /\ seen w' = os' /\ Inv w' (marksAfter marks s).
Proof.
  intros I. destruct s; cbn [effect step resizes marksAfter]; rewrite ?objectAt_get; intros E HS.
  - injection E as <-. eexists. split; [reflexivity|]. split; [eapply seen_make; eauto|apply inv_make; auto].
  - revert E. getx w x d Hd. intros [= <-]. eexists. split; [reflexivity|]. split; [eapply seen_make; eauto|apply inv_make; auto].
  - revert E. getx w x d Hd. getx w y e He. destruct (binaryObj op (look w d) (look w e)) as [r|] eqn:EB; [|discriminate].
    cbn [rbind]. intros [= <-]. eexists. split; [reflexivity|]. split; [|apply inv_shared; auto].
    eapply seen_shared; eauto. eapply binaryObj_dims; eauto.
  - revert E. getx w x d Hd. getx w y e He. destruct (binaryObj op (look w d) (look w e)) as [r|] eqn:EB; [|discriminate].
    cbn [rbind]. intros [= <-]. eexists. split; [reflexivity|]. split; [eapply seen_replace; eauto|apply inv_replace; auto].
  - revert E. getx w x d Hd. rewrite distinct_same. unfold distinct. destruct (nodupb is); [|discriminate].
    destruct (pointsCopy (look w d) is) as [r|]; [|discriminate]. cbn [rbind]. intros [= <-].
    eexists. split; [reflexivity|]. split; [eapply seen_make; eauto|apply inv_make; auto].
  - revert E. getx w x d Hd. rewrite distinct_same. unfold distinct. destruct (nodupb is); [|discriminate].
    destruct (pointsExtract (look w d) is) as [[ret rest]|]; [|discriminate]. cbn [rbind fst snd]. intros [= <-].
    pose proof (inv_mutate w marks x d rest I Hd) as I2.
    eexists. split; [reflexivity|]. split; [|apply inv_make; exact I2].
    rewrite (seen_make _ marks) by exact I2. f_equal. eapply seen_mutate; eauto.
  - revert E. getx w x d Hd. rewrite distinct_same. unfold distinct. destruct (nodupb is); [|discriminate].
    destruct (pointsCopy (look w d) is) as [r|]; [|discriminate]. cbn [rbind]. intros [= <-].
    eexists. split; [reflexivity|]. split; [eapply seen_replace; eauto|apply inv_replace; auto].
  - revert E. getx w x d Hd. getx w y e He. destruct (pointsInsert (look w d) before (look w e)) as [r|]; [|discriminate].
    cbn [rbind]. intros [= <-]. eexists. split; [reflexivity|]. split; [eapply seen_mutate; eauto|apply inv_mutate; auto].
  - revert E. getx w x d Hd. rewrite distinct_same. unfold distinct. destruct (nodupb js); [|discriminate].
    destruct (featuresDelete (look w d) js) as [r|]; [|discriminate]. cbn [rbind]. intros [= <-].
    eexists. split; [reflexivity|]. split; [eapply seen_mutate; eauto|apply inv_mutate; auto].
  - revert E. getx w x d Hd. destruct (negb _); [discriminate|]. rewrite distinct_same. unfold distinct. destruct (nodupb order); [|discriminate].
    destruct (pointsPermute (look w d) order) as [r|] eqn:EP; [|discriminate]. cbn [rbind]. intros [= <-].
    eexists. split; [reflexivity|]. split; [|apply inv_rows; auto].
    unfold seen at 1. cbn [objs]. rewrite map_upd. unfold seen. f_equal.
    unfold look at 1. cbn [recs dref drows]. apply permute_dims in EP. unfold look in EP. cbn in EP. rewrite <- EP. destruct r; reflexivity.
  - revert E. getx w x d Hd. destruct (transposeObj (look w d)) as [r|]; [|discriminate]. cbn [rbind]. intros [= <-].
    eexists. split; [reflexivity|]. split; [eapply seen_replace; eauto|apply inv_replace; auto].
  - revert E. getx w x d Hd. destruct (flattenObj (look w d) byFeature) as [r|]; [|discriminate]. cbn [rbind]. intros [= <-].
    eexists. split; [reflexivity|]. split; [eapply seen_replace; eauto|apply inv_replace; auto].
  - revert E. getx w x d Hd. destruct (unflattenObj (look w d) dims byFeature) as [r|]; [|discriminate]. cbn [rbind]. intros [= <-].
    eexists. split; [reflexivity|]. split; [eapply seen_replace; eauto|apply inv_replace; auto].
Qed.

Lemma safe_sim p : forall w marks, Inv w marks -> SafeFrom (seen w) marks p -> seen (runAll w p) = effects (seen w) p.
Proof.
  induction p as [|s p IH]; intros w marks I HS; [reflexivity|]. cbn [runAll effects].
  inversion HS as [|? ? ? ? HE HR|? ? ? os' ? HE HM HR]; subst.
  - pose proof (sim_err w s HE) as SE. destruct (step w s); [discriminate|]. destruct (effect (seen w) s); [discriminate|].
    eapply IH; eauto.
  - destruct (sim_ok w marks s os' I HE HM) as (w' & E1 & E2 & I2). rewrite E1, HE. subst os'. eapply IH; eauto.
Qed.

Lemma inv_empty : Inv empty [].
Proof. constructor; [reflexivity|intros [|i]; discriminate|intros [|i] ? ? ? ?; discriminate]. Qed.

Lemma independent p : SafeFrom [] [] p -> seen (runAll empty p) = effects [] p.
Proof. intros H. exact (safe_sim p empty [] inv_empty H). Qed.

Lemma effect_len os s os' marks : effect os s = Ok os' -> length marks = length os -> length (marksAfter marks s) = length os'.
Proof.
  intros E HL. destruct s; cbn [effect marksAfter] in *; revert E; rewrite ?distinct_same; unfold distinct;
  repeat match goal with |- context [objectAt os ?x] => destruct (objectAt os x); cbn [rbind]; [|discriminate] end;
  rewrite ?distinct_same; unfold distinct;
  repeat match goal with |- context [if ?b then _ else _] => destruct b; try discriminate end;
  repeat match goal with |- context [rbind ?r _] => destruct r; cbn [rbind]; [|discriminate] end;
  intros [= <-]; rewrite ?app_length, ?upd_length; cbn; lia.
Qed.

Lemma no_operator_safe p : forall os marks, length marks = length os -> Forall (fun m => m = false) marks ->
  Forall (fun s => ~ isOperator s) p -> SafeFrom os marks p.
Proof.
  induction p as [|s p IH]; intros os marks HL HM HP; [constructor|]. inversion HP as [|? ? Hs HP']; subst.
  destruct (effect os s) as [os'|] eqn:E.
  - apply safe_works with os'; [exact E| |].
    + intros x Hx. assert (Hlt : x < length marks).
      { rewrite HL. destruct s; try discriminate; cbn in Hx; injection Hx as ->; cbn [effect] in E;
        unfold objectAt in E; destruct (nth_error os x) eqn:EN; try discriminate; apply nth_error_Some; congruence. }
      destruct (nth_error marks x) as [m|] eqn:EM; [|apply nth_error_None in EM; lia].
      rewrite Forall_forall in HM. now rewrite (HM m (nth_error_In _ _ EM)).
    + apply IH; [eapply effect_len; eauto| |exact HP'].
      destruct s; cbn [marksAfter]; try exact HM; try (apply Forall_app; auto);
        try (apply Forall_forall; intros m Hm; apply In_nth_error in Hm as [i Hi];
             apply nth_upd_cases in Hi as [[_ ->]|[_ Hi]]; [reflexivity|];
             rewrite Forall_forall in HM; apply HM; eapply nth_error_In; eauto).
      destruct Hs; exact Logic.I.
  - apply safe_raises; [rewrite E; reflexivity|]. apply IH; auto.
Qed.

Lemma independent_no_operator p : Forall (fun s => ~ isOperator s) p -> seen (runAll empty p) = effects [] p.
Proof. intros H. apply independent. apply no_operator_safe; auto. Qed.

(** The data itself is never shared. *)
Lemma private_rows w s w' i d : step w s = Ok w' -> nth_error (objs w) i = Some d -> receiver s <> Some i ->
  exists d', nth_error (objs w') i = Some d' /\ drows d' = drows d.
Proof.
  intros E Hi HR. assert (Hlt : i < length (objs w)) by (apply nth_error_Some; congruence).
  destruct s; cbn [step receiver] in *; revert E;
  repeat match goal with |- context [get w ?x] => destruct (get w x); cbn [rbind]; [|discriminate] end;
  unfold distinct;
  repeat match goal with |- context [if ?b then _ else _] => destruct b; try discriminate end;
  repeat match goal with |- context [rbind ?r _] => destruct r; cbn [rbind]; [|discriminate] end;
  intros [= <-]; unfold make, replace, mutate, makeShared; cbn [objs];
  rewrite ?nth_error_app1 by (rewrite ?upd_length; exact Hlt);
  rewrite ?nth_error_upd_other by (intros ->; congruence); eauto.
Qed.

(** The result of an operator stays linked to the left operand. *)
Lemma operator_linked w op x y w1 : step w (SOperator op x y) = Ok w1 ->
  exists d z, nth_error (objs w) x = Some d /\ nth_error (objs w1) x = Some d /\
    nth_error (objs w1) (length (objs w)) = Some z /\ dref z = dref d /\ recs w1 = recs w /\ x < length (objs w).
Proof.
  cbn [step]. destruct (get w x) as [d|] eqn:Hd; [|discriminate]. destruct (get w y) as [e|] eqn:He; [|discriminate]. cbn [rbind].
  destruct (binaryObj _ _ _) as [r|]; [|discriminate]. cbn [rbind]. intros [= <-]. apply get_some in Hd.
  assert (Hlt : x < length (objs w)) by (apply nth_error_Some; congruence).
  exists d, {| dref := dref d; drows := hrows r |}. unfold makeShared. cbn [objs recs].
  rewrite nth_error_app1 by exact Hlt. rewrite nth_error_app2, Nat.sub_diag by lia. auto 7.
Qed.

Lemma linked_resize w op x y w1 is w2 d : step w (SOperator op x y) = Ok w1 ->
  nth_error (objs w) x = Some d -> dref d < length (recs w) ->
  step w1 (SExtract (length (objs w)) is) = Ok w2 ->
  exists before after, nth_error (seen w) x = Some before /\ nth_error (seen w2) x = Some after /\
    hrows after = hrows before /\
    hd 0 (hdims after) = hd 0 (hdims before) - length is /\ tl (hdims after) = tl (hdims before).
Proof.
  intros E1 Hx Hr E2. destruct (operator_linked _ _ _ _ _ E1) as (d' & z & H1 & H2 & H3 & H4 & H5 & H6).
  assert (d' = d) by congruence. subst d'. cbn [step] in E2. unfold get in E2. rewrite H3 in E2. cbn [rbind] in E2.
  unfold distinct in E2. destruct (nodupb is); [|discriminate].
  destruct (pointsExtract (look w1 z) is) as [[ret rest]|] eqn:EX; [|discriminate]. cbn [rbind fst snd] in E2. injection E2 as <-.
  exists (look w d). rewrite seen_nth, Hx. cbn [option_map].
  unfold pointsExtract in EX. destruct (pointsCopy (look w1 z) is) as [r|] eqn:EC; [|discriminate]. cbn [rbind] in EX.
  destruct (hdims (look w1 z)) as [|dd ds] eqn:ED; [discriminate|]. injection EX as <- <-.
  assert (EDw : hdims (look w d) = dd :: ds) by (unfold look in *; cbn in *; rewrite <- H4, <- H5; exact ED).
  assert (EL : length (hrows r) = length is).
  { unfold pointsCopy, backendCopy in EC. destruct (gatherRows _ _) as [rows|] eqn:EG; [|discriminate]. cbn in EC. injection EC as <-. cbn.
    unfold gatherRows in EG. exact (rmapM_ok_length _ _ EG). }
  set (rest := {| hrows := dropRows (hrows (look w1 z)) is; hdims := dd - length (hrows r) :: ds |}).
  exists {| hrows := drows d; hdims := hdims rest |}. rewrite EDw. cbn [hrows hdims hd tl rest].
  split; [reflexivity|]. split; [|split; [reflexivity|split; [congruence|reflexivity]]].
  rewrite seen_nth. unfold make, mutate. cbn [objs recs].
  rewrite nth_error_app1 by (rewrite ?upd_length; apply nth_error_Some; congruence).
  rewrite nth_error_upd_other by lia. rewrite H2. cbn [option_map]. f_equal. unfold look. cbn [recs dref drows hrows hdims].
  f_equal. rewrite app_nth1 by (rewrite upd_length, H5; exact Hr). rewrite H4.
  apply nth_error_nth. apply nth_error_upd_same. rewrite H5. exact Hr.
Qed.

(** The two-dimensional block. *)
Lemma treatAs2D_spec {A} w marks x d (r : result A) : Inv w marks -> nth_error (objs w) x = Some d ->
  exists w', treatAs2D w x (fun w1 => (w1, r)) = Ok (w', r) /\ seen w' = seen w /\
    (forall A2 (ask : hobj -> A2), exists q, treatAs2D w x (fun w1 => (w1, rmap (fun e => ask (look w1 e)) (get w1 x))) = Ok (q, Ok (ask
        (if 2 <? length (hdims (look w d)) then {| hrows := drows d; hdims := [fst (shapeOf (look w d)); snd (shapeOf (look w d))] |} else look w d)))).
Proof.
  intros I Hx. assert (Hlt : x < length (objs w)) by (apply nth_error_Some; congruence).
  unfold treatAs2D. unfold get at 1. rewrite Hx. cbn [rbind]. unfold isHigh.
  destruct (2 <? length (hdims (look w d))) eqn:EH.
  - destruct (shapeOf (look w d)) as [p f] eqn:ESh. cbn [fst snd objs recs]. rewrite nth_error_upd_same by exact Hlt.
    eexists. split; [reflexivity|]. split.
    + cbn [dref drows]. apply nth_error_ext. intros i. rewrite !seen_nth. cbn [objs].
      destruct (Nat.eq_dec i x) as [->|Hne].
      * rewrite nth_error_upd_same by (rewrite upd_length; exact Hlt). rewrite Hx. cbn [option_map]. f_equal.
        destruct d as [dr rows]. apply look_app. exact (inv_ref _ _ I _ _ Hx).
      * rewrite !nth_error_upd_other by auto. destruct (nth_error (objs w) i) as [e|] eqn:Ei; [|reflexivity].
        cbn [option_map]. f_equal. apply look_app. exact (inv_ref _ _ I _ _ Ei).
    + intros A2 ask. unfold get. rewrite Hx. cbn [rbind]. rewrite EH, ESh. cbn [objs]. rewrite !nth_error_upd_same by exact Hlt.
      cbn [rmap].
      pose proof (look_new w {| hrows := drows d; hdims := [p; f] |} (upd (objs w) x {| dref := length (recs w); drows := drows d |})) as EQ.
      cbn [hrows hdims] in EQ. rewrite EQ. eexists. reflexivity.
  - eexists. split; [reflexivity|]. split; [reflexivity|]. intros A2 ask. unfold get. rewrite Hx. cbn [rbind]. rewrite EH.
    cbn [rmap]. eexists. reflexivity.
Qed.

(** Reported dimensions stay those of the data. *)
Lemma gather_inv rows is out : gatherRows rows is = Ok out -> ElementsAt rows is out.
Proof.
  unfold gatherRows, ElementsAt. revert out. induction is as [|i is IH]; intros out E; [injection E as <-; constructor|].
  cbn [rmapM] in E. destruct (nth_error rows i) as [r|] eqn:Er; [|discriminate]. cbn [rbind] in E.
  destruct (rmapM _ is) as [o|] eqn:Eo; [|discriminate]. cbn [rbind] in E. injection E as <-. constructor; auto.
Qed.
Lemma elementsAt_lt {A} (l : list A) is out i : ElementsAt l is out -> In i is -> i < length l.
Proof.
  induction 1 as [|j x js xs Hj _ IH]; [contradiction|]. intros [<-|Hi]; [apply nth_error_Some; congruence|auto].
Qed.

Lemma consistent_parts o : Consistent o -> exists d ds, hdims o = d :: ds /\ 1 <= length ds /\ length (hrows o) = d /\
  Forall (fun r => length r = prodN ds) (hrows o) /\ shapeOf o = (d, prodN ds).
Proof.
  intros (H1 & H2 & H3). unfold shapeOf. destruct (hdims o) as [|d [|d' ds]]; cbn in *; try lia.
  exists d, (d' :: ds). split; [reflexivity|]. split; [cbn; lia|]. split; [exact H2|]. split; [exact H3|].
  destruct ds; [|reflexivity]. cbn. f_equal. lia.
Qed.
Lemma consistent_build rows d ds : 1 <= length ds -> length rows = d -> Forall (fun r => length r = prodN ds) rows ->
  Consistent {| hrows := rows; hdims := d :: ds |}.
Proof. intros H1 H2 H3. split; [cbn; lia|]. split; [exact H2|exact H3]. Qed.

Lemma c_copy o is r : Consistent o -> pointsCopy o is = Ok r -> Consistent r /\ length (hrows r) = length is.
Proof.
  intros H E. apply consistent_parts in H as (d & ds & ED & HL & HR & HF & HSh).
  unfold pointsCopy, backendCopy in E. destruct (gatherRows _ _) as [rows|] eqn:EG; [|discriminate]. cbn in E. injection E as <-.
  apply gather_inv in EG. rewrite ED. cbn [tl hrows]. split; [|symmetry; eapply elementsAt_len; eauto].
  apply consistent_build; auto; [symmetry; eapply elementsAt_len; eauto|eapply elementsAt_Forall; eauto].
Qed.

Lemma dropRows_len rows is : NoDup is -> (forall i, In i is -> i < length rows) -> length (dropRows rows is) = length rows - length is.
Proof.
  intros HN HR. destruct (without_ok is rows 0) as [out HO]. rewrite (dropRows_spec _ _ _ HO).
  pose proof (without_len rows is 0 out HO HN (fun i Hi => conj (Nat.le_0_l i) (HR i Hi))). lia.
Qed.
Lemma dropRows_Forall (P : list leaf -> Prop) rows is : Forall P rows -> Forall P (dropRows rows is).
Proof.
  intros H. destruct (without_ok is rows 0) as [out HO]. rewrite (dropRows_spec _ _ _ HO). eapply without_Forall; eauto.
Qed.

Lemma c_extract o is ret rest : Consistent o -> NoDup is -> pointsExtract o is = Ok (ret, rest) -> Consistent ret /\ Consistent rest.
Proof.
  intros H HN E. unfold pointsExtract in E. destruct (pointsCopy o is) as [r|] eqn:EC; [|discriminate]. cbn [rbind] in E.
  destruct (c_copy _ _ _ H EC) as [C1 L1].
  assert (HR : forall i, In i is -> i < length (hrows o)).
  { unfold pointsCopy, backendCopy in EC. destruct (gatherRows _ _) as [rows|] eqn:EG; [|discriminate]. apply gather_inv in EG.
    intros i Hi. eapply elementsAt_lt; eauto. }
  apply consistent_parts in H as (d & ds & ED & HL & HRo & HF & _). rewrite ED in E. injection E as <- <-.
  split; [exact C1|]. apply consistent_build; auto; [|apply dropRows_Forall; exact HF].
  rewrite L1, (dropRows_len _ _ HN HR). lia.
Qed.

Lemma c_insert o before other r : Consistent o -> Consistent other -> pointsInsert o before other = Ok r -> Consistent r.
Proof.
  intros H H2 E. apply consistent_parts in H as (d & ds & ED & HL & HRo & HF & HS).
  apply consistent_parts in H2 as (d2 & ds2 & ED2 & HL2 & HRo2 & HF2 & HS2).
  unfold pointsInsert in E. rewrite HS, HS2, ED in E. cbn [fst snd] in E.
  destruct (prodN ds =? prodN ds2) eqn:EQ; [|discriminate]. apply Nat.eqb_eq in EQ. cbn [negb] in E. injection E as <-.
  apply consistent_build; auto.
  - rewrite !app_length. pose proof (f_equal (@length _) (firstn_skipn before (hrows o))) as FS. rewrite app_length in FS. lia.
  - rewrite <- (firstn_skipn before (hrows o)) in HF. apply Forall_app in HF as [F1 F2].
    apply Forall_app. split; [exact F1|]. apply Forall_app. split; [|exact F2].
    eapply Forall_impl; [|exact HF2]. cbn. intros; congruence.
Qed.

Lemma without_dropAt {A} (l : list A) is : forall k out, Without is k l out ->
  map snd (filter (fun p => negb (mem (fst p) is)) (combine (seq k (length l)) l)) = out.
Proof.
  intros k out H. induction H as [k|k x xs ys Hk _ IH|k x xs ys Hk _ IH]; [reflexivity| |]; cbn [length seq combine filter fst].
  - rewrite (proj2 (mem_In k is) Hk). cbn [negb]. exact IH.
  - rewrite (proj2 (mem_not_In k is) Hk). cbn [negb map snd]. f_equal. exact IH.
Qed.

Lemma c_features o js r : Consistent o -> NoDup js -> featuresDelete o js = Ok r -> Consistent r.
Proof.
  intros H HN E. apply consistent_parts in H as (d & ds & ED & HL & HRo & HF & _).
  unfold featuresDelete, limitedTo2D in E. destruct (isHigh o); [discriminate|]. rewrite ED in E.
  destruct ds as [|f [|]]; try discriminate. destruct (forallb (fun j => j <? f) js) eqn:EJ; [|discriminate]. injection E as <-.
  cbn [prodN fold_right] in HF. rewrite Nat.mul_1_r in HF.
  apply consistent_build; [cbn; lia|now rewrite map_length|]. cbn [prodN fold_right]. rewrite Nat.mul_1_r.
  apply Forall_map. eapply Forall_impl; [|exact HF]. intros row Hrow. cbn in Hrow.
  destruct (without_ok js row 0) as [out HO]. unfold dropAt. rewrite (without_dropAt row js 0 out HO).
  rewrite forallb_forall in EJ.
  assert (G : length out + length js = length row).
  { apply (without_len row js 0 out HO HN). intros i Hi. specialize (EJ i Hi). apply Nat.ltb_lt in EJ. lia. }
  lia.
Qed.

Lemma c_permute o order r : Consistent o -> length order = fst (shapeOf o) -> pointsPermute o order = Ok r -> Consistent r.
Proof.
  intros H HLn E. apply consistent_parts in H as (d & ds & ED & HL & HRo & HF & HS). rewrite HS in HLn. cbn in HLn.
  unfold pointsPermute in E. destruct (gatherRows _ _) as [rows|] eqn:EG; [|discriminate]. cbn [rbind] in E. injection E as <-.
  apply gather_inv in EG. rewrite ED. apply consistent_build; auto; [|eapply elementsAt_Forall; eauto].
  rewrite <- (elementsAt_len _ _ _ EG). exact HLn.
Qed.

Lemma c_transpose o r : Consistent o -> transposeObj o = Ok r -> Consistent r.
Proof.
  intros H E. apply consistent_parts in H as (d & ds & ED & HL & HRo & HF & _).
  unfold transposeObj, limitedTo2D in E. destruct (isHigh o); [discriminate|]. rewrite ED in E.
  destruct ds as [|f [|]]; try discriminate. injection E as <-.
  cbn [prodN fold_right] in HF. rewrite Nat.mul_1_r in HF.
  apply consistent_build; [cbn; lia|now rewrite map_length, seq_length|]. cbn [prodN fold_right]. rewrite Nat.mul_1_r.
  apply Forall_map, Forall_forall. intros j Hj. apply in_seq in Hj. rewrite <- HRo. apply (column_spec _ _ f HF). lia.
Qed.

Lemma concat_len {A} (ls : list (list A)) n : Forall (fun l => length l = n) ls -> length (concat ls) = length ls * n.
Proof. induction 1 as [|l ls Hl _ IH]; [reflexivity|]. cbn. rewrite app_length, IH. lia. Qed.

Lemma c_flatten o byF r : Consistent o -> flattenObj o byF = Ok r -> Consistent r.
Proof.
  intros H E. apply consistent_parts in H as (d & ds & ED & HL & HRo & HF & HS).
  unfold flattenObj in E. rewrite HS in E. destruct (d =? 0); [discriminate|]. destruct (prodN ds =? 0); [discriminate|].
  destruct (byF && isHigh o); [discriminate|]. injection E as <-.
  apply consistent_build; [cbn; lia|reflexivity|]. constructor; [|constructor]. cbn [prodN fold_right]. rewrite Nat.mul_1_r.
  destruct byF.
  - rewrite (flat_map_len _ _ d); [rewrite seq_length; lia|]. intros j Hj. apply in_seq in Hj. rewrite <- HRo.
    apply (column_spec _ _ (prodN ds) HF). lia.
  - rewrite (concat_len _ _ HF). lia.
Qed.

Lemma c_unflatten o dims byF r : Consistent o -> unflattenObj o dims byF = Ok r -> Consistent r.
Proof.
  intros H E. apply consistent_parts in H as (d & ds & ED & HL & HRo & HF & HS).
  unfold unflattenObj in E. rewrite HS in E. destruct ((prodN ds =? 0) || (d =? 0)); [discriminate|].
  destruct (negb (d =? 1) && negb (prodN ds =? 1)); [discriminate|].
  destruct (length dims <? 2) eqn:EL; [discriminate|]. apply Nat.ltb_ge in EL.
  destruct (d * prodN ds =? prodN dims) eqn:EP; [|discriminate]. apply Nat.eqb_eq in EP. cbn [negb] in E.
  destruct ((2 <? length dims) && byF); [discriminate|]. destruct dims as [|d' ds']; [discriminate|]. injection E as <-.
  assert (LC : length (concat (hrows o)) = d' * prodN ds').
  { rewrite (concat_len _ _ HF), HRo, EP. reflexivity. }
  cbn in EL. apply consistent_build; [lia| |].
  - destruct byF; [now rewrite map_length, seq_length|]. apply chunks_spec. exact LC.
  - destruct byF; [|apply chunks_spec; exact LC]. apply Forall_map, Forall_forall. intros i _. now rewrite map_length, seq_length.
Qed.

Lemma c_binary op a b r : Consistent a -> Consistent b -> binaryObj op a b = Ok r -> Consistent r.
Proof.
  intros HA HB E. pose proof (binaryObj_dims _ _ _ _ E) as ED'. unfold binaryObj in E.
  destruct (eqbd (hdims a) (hdims b)) eqn:EQ; [|discriminate]. apply eqbd_true in EQ. cbn [negb] in E.
  destruct (shapeOf a) as [p f]. destruct ((p =? 0) || (f =? 0)); [discriminate|]. injection E as <-.
  apply consistent_parts in HA as (d & ds & ED & HL & HRo & HF & _).
  apply consistent_parts in HB as (d2 & ds2 & ED2 & HL2 & HRo2 & HF2 & _).
  assert (d2 = d /\ ds2 = ds) as [-> ->] by (rewrite ED, ED2 in EQ; injection EQ as -> ->; auto).
  rewrite ED. apply consistent_build; auto.
  - rewrite map_length, combine_length. lia.
  - apply Forall_map, Forall_forall. intros [ra rb] Hin. cbn. rewrite map_length, combine_length.
    rewrite Forall_forall in HF, HF2. rewrite (HF ra) by (eapply in_combine_l; eauto). rewrite (HF2 rb) by (eapply in_combine_r; eauto). lia.
Qed.

Lemma Forall_upd {A} (P : A -> Prop) l i x : Forall P l -> P x -> Forall P (upd l i x).
Proof. intros H Hx. revert i. induction H; intros [|i]; cbn; constructor; auto. Qed.

Lemma objectAt_P (P : hobj -> Prop) os x o : Forall P os -> objectAt os x = Ok o -> P o.
Proof.
  intros H E. unfold objectAt in E. destruct (nth_error os x) eqn:EN; [|discriminate]. injection E as <-.
  rewrite Forall_forall in H. apply H. eapply nth_error_In; eauto.
Qed.

Lemma effect_consistent os s os' : Forall Consistent os -> (forall o, s = SNew o -> Consistent o) ->
  effect os s = Ok os' -> Forall Consistent os'.
Proof.
  intros H HN E. destruct s; cbn [effect] in E.
  - injection E as <-. apply Forall_app. split; [exact H|]. constructor; [apply HN; reflexivity|constructor].
  - destruct (objectAt os x) as [o|] eqn:EO; [|discriminate]. injection E as <-. apply Forall_app. split; [exact H|].
    constructor; [eapply objectAt_P; eauto|constructor].
  - destruct (objectAt os x) as [a|] eqn:EA; [|discriminate]. destruct (objectAt os y) as [b|] eqn:EB; [|discriminate]. cbn [rbind] in E.
    destruct (binaryObj op a b) as [r|] eqn:ER; [|discriminate]. injection E as <-. apply Forall_app. split; [exact H|].
    constructor; [|constructor]. eapply c_binary; [| |exact ER]; eapply objectAt_P; eauto.
  - destruct (objectAt os x) as [a|] eqn:EA; [|discriminate]. destruct (objectAt os y) as [b|] eqn:EB; [|discriminate]. cbn [rbind] in E.
    destruct (binaryObj op a b) as [r|] eqn:ER; [|discriminate]. injection E as <-. apply Forall_upd; [exact H|].
    eapply c_binary; [| |exact ER]; eapply objectAt_P; eauto.
  - destruct (objectAt os x) as [a|] eqn:EA; [|discriminate]. cbn [rbind] in E. rewrite distinct_same in E. unfold distinct in E.
    destruct (nodupb is); [|discriminate]. destruct (pointsCopy a is) as [r|] eqn:ER; [|discriminate]. injection E as <-.
    apply Forall_app. split; [exact H|]. constructor; [|constructor]. eapply c_copy; [eapply objectAt_P; eauto|exact ER].
  - destruct (objectAt os x) as [a|] eqn:EA; [|discriminate]. cbn [rbind] in E. rewrite distinct_same in E. unfold distinct in E.
    destruct (nodupb is) eqn:ND; [|discriminate]. apply nodupb_NoDup in ND.
    destruct (pointsExtract a is) as [[ret rest]|] eqn:ER; [|discriminate]. cbn in E. injection E as <-.
    destruct (c_extract a is ret rest) as [C1 C2]; auto; [eapply objectAt_P; eauto|].
    apply Forall_app. split; [apply Forall_upd; auto|auto].
  - destruct (objectAt os x) as [a|] eqn:EA; [|discriminate]. cbn [rbind] in E. rewrite distinct_same in E. unfold distinct in E.
    destruct (nodupb is); [|discriminate]. destruct (pointsCopy a is) as [r|] eqn:ER; [|discriminate]. injection E as <-.
    apply Forall_upd; [exact H|]. eapply c_copy; [eapply objectAt_P; eauto|exact ER].
  - destruct (objectAt os x) as [a|] eqn:EA; [|discriminate]. destruct (objectAt os y) as [b|] eqn:EB; [|discriminate]. cbn [rbind] in E.
    destruct (pointsInsert a before b) as [r|] eqn:ER; [|discriminate]. injection E as <-. apply Forall_upd; [exact H|].
    eapply c_insert; [| |exact ER]; eapply objectAt_P; eauto.
  - destruct (objectAt os x) as [a|] eqn:EA; [|discriminate]. cbn [rbind] in E. rewrite distinct_same in E. unfold distinct in E.
    destruct (nodupb js) eqn:ND; [|discriminate]. apply nodupb_NoDup in ND.
    destruct (featuresDelete a js) as [r|] eqn:ER; [|discriminate]. injection E as <-.
    apply Forall_upd; [exact H|]. eapply c_features; eauto. eapply objectAt_P; eauto.
  - destruct (objectAt os x) as [a|] eqn:EA; [|discriminate]. cbn [rbind] in E.
    destruct (length order =? fst (shapeOf a)) eqn:EL; [|discriminate]. cbn [negb] in E. apply Nat.eqb_eq in EL.
    rewrite distinct_same in E. unfold distinct in E. destruct (nodupb order); [|discriminate].
    destruct (pointsPermute a order) as [r|] eqn:ER; [|discriminate]. injection E as <-.
    apply Forall_upd; [exact H|]. eapply c_permute; eauto. eapply objectAt_P; eauto.
  - destruct (objectAt os x) as [a|] eqn:EA; [|discriminate]. cbn [rbind] in E.
    destruct (transposeObj a) as [r|] eqn:ER; [|discriminate]. injection E as <-.
    apply Forall_upd; [exact H|]. eapply c_transpose; [eapply objectAt_P; eauto|exact ER].
  - destruct (objectAt os x) as [a|] eqn:EA; [|discriminate]. cbn [rbind] in E.
    destruct (flattenObj a byFeature) as [r|] eqn:ER; [|discriminate]. injection E as <-.
    apply Forall_upd; [exact H|]. eapply c_flatten; [eapply objectAt_P; eauto|exact ER].
  - destruct (objectAt os x) as [a|] eqn:EA; [|discriminate]. cbn [rbind] in E.
    destruct (unflattenObj a dims byFeature) as [r|] eqn:ER; [|discriminate]. injection E as <-.
    apply Forall_upd; [exact H|]. eapply c_unflatten; [eapply objectAt_P; eauto|exact ER].
Qed.

Lemma effects_consistent p : forall os, Forall Consistent os -> (forall o, In (SNew o) p -> Consistent o) ->
  Forall Consistent (effects os p).
Proof.
  induction p as [|s p IH]; intros os H HN; [exact H|]. cbn [effects]. apply IH; [|intros; apply HN; cbn; auto].
  destruct (effect os s) as [os'|] eqn:E; [|exact H]. eapply effect_consistent; eauto. intros o ->. apply HN. cbn. auto.
Qed.

Lemma consistent_safe p : SafeFrom [] [] p -> (forall o, In (SNew o) p -> Consistent o) -> Forall Consistent (seen (runAll empty p)).
Proof. intros HS HN. rewrite (independent p HS). apply effects_consistent; auto. Qed.

Lemma consistent_holds o : Consistent o <-> exists t, Holds o t.
Proof.
  split.
  - intros H. pose proof H as (H2 & _). apply consistent_parts in H as (d & ds & ED & HL & HR & HF & _).
    exists (Node (map (nestOf ds) (hrows o))). split; [exact H2|]. rewrite ED. split.
    + rewrite <- HR, <- (map_length (nestOf ds)). constructor. apply Forall_map. eapply Forall_impl; [|exact HF]. intros r Hr. now apply nestOf_spec.
    + eexists. split; [reflexivity|]. rewrite map_map. rewrite <- (map_id (hrows o)) at 1. apply map_ext_in.
      intros r Hr. rewrite Forall_forall in HF. symmetry. now apply nestOf_spec, HF.
  - intros (t & H). pose proof H as (H2 & _ & l & -> & _). destruct (shapeOf_holds _ _ H) as (_ & H3 & H4).
    apply holds_parts in H as (ds & ED & _). split; [exact H2|]. split; [rewrite ED; exact H3|exact H4].
Qed.

Definition RefsIn (w : world) : Prop := forall i d, nth_error (objs w) i = Some d -> dref d < length (recs w).
Lemma refs_inv w : RefsIn w <-> exists marks, Inv w marks.
Proof.
  split; [|intros [m I]; exact (inv_ref _ _ I)].
  intros R. exists (repeat true (length (objs w))). constructor.
  - apply repeat_length.
  - exact R.
  - intros i j a b _ Hi Hj _. split; apply nth_error_repeat; apply nth_error_Some; congruence.
Qed.

Ltac dostep E := repeat match type of E with
  | rbind ?x _ = Ok _ => let Q := fresh "Q" in destruct x eqn:Q; [cbn [rbind] in E|discriminate]
  | (if ?b then _ else _) = Ok _ => destruct b; try discriminate
  end.
Lemma step_refs w s w' : RefsIn w -> step w s = Ok w' -> RefsIn w'.
Proof.
  intros R E. apply refs_inv in R as [m I]. apply refs_inv.
  destruct s; cbn [step] in E; unfold distinct in E; dostep E;
    repeat match goal with H : get _ _ = Ok _ |- _ => apply get_some in H end; injection E as <-;
    first [ eexists; apply inv_make; exact I
          | eexists; eapply inv_shared; eauto
          | eexists; eapply inv_replace; eauto
          | eexists; eapply inv_make; eapply inv_mutate; eauto
          | eexists; eapply inv_mutate; eauto
          | idtac ].
  eexists. eapply inv_rows; eauto.
Qed.
Lemma run_refs p : forall w, RefsIn w -> RefsIn (runAll w p).
Proof.
  induction p as [|s p IH]; intros w R; [exact R|]. cbn [runAll]. apply IH.
  destruct (step w s) as [w'|] eqn:E; [eapply step_refs; eauto|exact R].
Qed.
Lemma reach_refs p : RefsIn (runAll empty p).
Proof. apply run_refs. intros [|i] d H; discriminate. Qed.

Lemma run_app p q w : runAll w (p ++ q) = runAll (runAll w p) q.
Proof. revert w. induction p; intros w; cbn; auto. Qed.

Lemma linked_reach p op x y w1 is w2 d : let w := runAll empty p in
  step w (SOperator op x y) = Ok w1 -> nth_error (objs w) x = Some d ->
  step w1 (SExtract (length (objs w)) is) = Ok w2 ->
  exists before after, nth_error (seen w) x = Some before /\ nth_error (seen w2) x = Some after /\
    hrows after = hrows before /\
    hd 0 (hdims after) = hd 0 (hdims before) - length is /\ tl (hdims after) = tl (hdims before).
Proof. intros w H1 H2 H3. eapply linked_resize; eauto. exact (reach_refs p _ _ H2). Qed.

Lemma private_seen p s x before : receiver s <> Some x -> nth_error (seen (runAll empty p)) x = Some before ->
  exists after, nth_error (seen (runAll empty (p ++ [s]))) x = Some after /\ hrows after = hrows before.
Proof.
  intros H E. rewrite run_app. cbn [runAll]. destruct (step (runAll empty p) s) as [w'|] eqn:ES; [|eauto].
  rewrite seen_nth in E. destruct (nth_error (objs (runAll empty p)) x) as [d|] eqn:ED; [|discriminate].
  injection E as <-. destruct (private_rows _ _ _ _ _ ES ED H) as (d' & E' & R).
  exists (look w' d'). rewrite seen_nth, E'. split; [reflexivity|exact R].
Qed.

Lemma treat_reach p x o {A} (ask : hobj -> result A) : let w := runAll empty p in nth_error (seen w) x = Some o ->
  exists w' o2, treatAs2D w x (fun w1 => (w1, e <- get w1 x ;; ask (look w1 e))) = Ok (w', ask o2) /\
    seen w' = seen w /\ hrows o2 = hrows o /\
    (if 2 <? length (hdims o) then hdims o2 = [hd 0 (hdims o); prodN (tl (hdims o))] else hdims o2 = hdims o).
Proof.
  intros w E. rewrite seen_nth in E. destruct (nth_error (objs w) x) as [d|] eqn:Hx; [|discriminate]. injection E as <-.
  pose proof (reach_refs p) as R. fold w in R. apply refs_inv in R as [m I].
  assert (Hlt : x < length (objs w)) by (apply nth_error_Some; congruence).
  unfold treatAs2D. unfold get at 1. rewrite Hx. cbn [rbind]. unfold isHigh.
  destruct (2 <? length (hdims (look w d))) eqn:EH.
  - assert (ESh : shapeOf (look w d) = (hd 0 (hdims (look w d)), prodN (tl (hdims (look w d))))).
    { unfold shapeOf, isHigh. destruct (hdims (look w d)) as [|a [|b [|c l]]] eqn:ED; try discriminate. reflexivity. }
    rewrite ESh. unfold get. cbn [objs recs]. rewrite nth_error_upd_same by exact Hlt. cbn [rbind].
    eexists. exists {| hrows := drows d; hdims := [hd 0 (hdims (look w d)); prodN (tl (hdims (look w d)))] |}. split.
    + f_equal. f_equal. f_equal.
      exact (look_new w {| hrows := drows d; hdims := [hd 0 (hdims (look w d)); prodN (tl (hdims (look w d)))] |} _).
    + split; [|split; reflexivity]. cbn [dref drows]. apply nth_error_ext. intros i. rewrite !seen_nth. cbn [objs].
      destruct (Nat.eq_dec i x) as [->|Hne].
      * rewrite ?(nth_error_upd_same (objs w) x Hlt). cbn [drows]. rewrite nth_error_upd_same by (rewrite upd_length; exact Hlt). rewrite Hx. cbn [option_map]. f_equal.
        destruct d as [dr rows]. apply look_app. exact (inv_ref _ _ I _ _ Hx).
      * rewrite !nth_error_upd_other by auto. destruct (nth_error (objs w) i) as [e|] eqn:Ei; [|reflexivity].
        cbn [option_map]. f_equal. apply look_app. exact (inv_ref _ _ I _ _ Ei).
  - unfold get. rewrite Hx. cbn [rbind]. eexists. exists (look w d). split; [reflexivity|]. auto.
Qed.
