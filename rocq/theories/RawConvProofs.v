(** Proofs about convertToType for Python data (C61). *)
From Verif Require Import Base NamesModel NamesSpec NamesProofs TableModel TableSpec TableOps TableProofs TableOpsProofs MatchModel CsvModel RawModel RawSpec RawProofs RawKeepProofs.
From Coq Require Import QArith Lia.
Open Scope string_scope.
Open Scope list_scope.
Open Scope nat_scope.

Section Conv.
Variable T : Type.
Variable ET : EqDec T.
Variable conv : T -> pval -> result pval.

Lemma lk_types a d j n : NoDup (map fst d) -> nth_error (getNames a) j = Some n ->
  match lk T ET d j n with
  | Ok c => TypeAt a (CDict d) j c /\ (forall c', TypeAt a (CDict d) j c' -> c' = c)
  | Err _ => exists x y, TypeAt a (CDict d) j (Some x) /\ TypeAt a (CDict d) j (Some y) /\ x <> y
  end.
Proof.
  intros ND En. unfold lk.
  assert (Gi : forall k v, dget k d = Some v <-> In (k, v) d) by (intros; apply dget_iff_In; exact ND).
  assert (Gn : forall k, dget k d = None <-> ~ In k (map fst d)) by (intros; apply dget_None).
  set (ki := KInt (Z.of_nat j)).
  assert (U : forall c', TypeAt a (CDict d) j c' -> match c' with
     | Some z => dget ki d = Some z \/ exists s, n = Some s /\ dget (KStr s) d = Some z
     | None => dget ki d = None /\ forall s, n = Some s -> dget (KStr s) d = None end).
  { intros c' Tc. inversion Tc; subst.
    - left. apply Gi. auto.
    - right. match goal with H : nth_error (getNames a) j = Some (Some ?s) |- _ => exists s; split; [congruence|] end. apply Gi. auto.
    - split; [apply Gn; auto|]. intros s Es. subst n. apply Gn. auto. }
  destruct (dget ki d) as [x|] eqn:X.
  - destruct (match n with Some s => dget (KStr s) d | None => None end) as [y|] eqn:Y.
    + destruct n as [s|]; [|discriminate]. destruct (eq_dec x y) as [->|Nxy].
      * split; [apply ty_index; apply Gi; auto|]. intros c' Tc. apply U in Tc. destruct c' as [z|].
        -- destruct Tc as [H|[s' [H1 H2]]]; congruence.
        -- destruct Tc; congruence.
      * exists x, y. split; [apply ty_index; apply Gi; auto|]. split; auto. eapply ty_name; eauto. apply Gi; auto.
    + split; [apply ty_index; apply Gi; auto|]. intros c' Tc. apply U in Tc. destruct c' as [z|].
      * destruct Tc as [H|[s' [H1 H2]]]; [congruence|]. subst n. congruence.
      * destruct Tc; congruence.
  - destruct (match n with Some s => dget (KStr s) d | None => None end) as [y|] eqn:Y.
    + destruct n as [s|]; [|discriminate]. split; [eapply ty_name; eauto; apply Gi; auto|]. intros c' Tc. apply U in Tc. destruct c' as [z|].
      * destruct Tc as [H|[s' [H1 H2]]]; congruence.
      * destruct Tc as [_ H]. specialize (H s eq_refl). congruence.
    + split.
      * apply ty_not; [apply Gn; auto|]. intros s Es. rewrite En in Es. injection Es as ->. apply Gn; auto.
      * intros c' Tc. apply U in Tc. destruct c' as [z|]; auto. destruct Tc as [H|[s' [H1 H2]]]; [congruence|]. subst n. congruence.
Qed.
Lemma convert_ok c f t : wf t -> okDict c ->
  match convert T ET conv c f t with
  | Ok (r, _) => Converted conv c t r
  | Err e => CannotConvert conv t c e
  end.
Proof.
  intros W Ok_.
  pose proof W as [W1 [W2 [Ip If]]].
  assert (Main : forall cs, List.length cs = alen (tf t) -> (forall l, c = CList l -> List.length l = alen (tf t)) ->
     (forall j x, nth_error cs j = Some x -> TypeAt (tf t) c j x /\ forall ty', TypeAt (tf t) c j ty' -> ty' = x) ->
     match convertRows T conv cs (rows t) with
     | Ok m => Converted conv c t (mkTable (tp t) (tf t) m)
     | Err e => CannotConvert conv t c e end).
  { intros cs Lc Hl Hc. pose proof (convertRows_ok T conv cs (rows t) (alen (tf t)) Lc W2) as C. destruct (convertRows T conv cs (rows t)) as [m|e].
    - destruct C as [L [R E]]. split; [repeat split; cbn [rows tp tf]; auto; congruence|]. cbn [tp tf]. repeat (split; auto).
      intros i j v Ev. assert (Lj : j < List.length cs).
      { rewrite Lc. unfold cell in Ev. destruct (nth_error (rows t) i) eqn:Er; [|discriminate]. rewrite <- (W2 l (nth_error_In _ _ Er)). eapply nth_error_lt; eauto. }
      destruct (nth_error_is_some cs Lj) as [x Ex]. destruct (Hc j x Ex) as [T1 T2]. destruct (E i j v x) as [w [E1 E2]]; auto. exists x, w. auto.
    - destruct C as [i [j [v [ty [e0 [E1 [E2 [E3 ->]]]]]]]]. destruct (Hc j _ E2) as [T1 _]. exact (cc_value conv t c i j v ty e0 E1 T1 E3). }
  destruct c as [|x|l|d]; cbn [convert].
  - split; auto. do 4 (split; auto). split; [intros; discriminate|]. intros i j v E. exists None, v. split; [constructor|]. split; [intros ty' H; inversion H; auto|]. split; auto. reflexivity.
  - specialize (Main (repeat (Some x) (alen (tf t))) (repeat_length _ _) ltac:(discriminate)).
    destruct (convertRows T conv _ (rows t)) as [m|e]; cbn [rbind]; apply Main; intros j y Ey; apply nth_error_In, repeat_spec in Ey; subst y; (split; [constructor|intros ty' H; inversion H; auto]).
  - destruct (Nat.eqb_spec (List.length l) (alen (tf t))) as [E|N]; cbn [negb].
    2:{ eapply cc_length; eauto. }
    specialize (Main l E ltac:(congruence)). destruct (convertRows T conv _ (rows t)) as [m|e]; cbn [rbind]; apply Main; intros j y Ey; (split; [constructor; auto|intros ty' H; inversion H; congruence]).
  - cbn in Ok_. unfold typesFor.
    pose proof (typeLoop_ok T ET conv (getNames (tf t)) 0 d d []) as TL.
    specialize (TL ltac:(intros j s E j' E'; eapply Inv_names_distinct; eauto) ltac:(auto)).
    destruct (typeLoop T ET 0 (getNames (tf t)) d []) as [[cs d']|e]; cbn [rbind snd fst].
    + destruct TL as [l [El [Ll [Rl Rd]]]]. cbn [app] in El. subst cs. rewrite getNames_length in Ll by auto.
      destruct (leftoverFine T f d') eqn:LF; cbn [rbind fst snd].
      * specialize (Main l Ll ltac:(discriminate)). destruct (convertRows T conv _ (rows t)) as [m|e]; cbn [rbind]; apply Main; intros j y Ey; (destruct (nth_error_is_some (getNames (tf t)) (i:=j)) as [nn En]; [rewrite getNames_length by auto; rewrite <- Ll; eapply nth_error_lt; eauto|]);
          (destruct (Rl j nn En) as [c' [E1 E2]]; assert (c' = y) by congruence; subst c'; pose proof (lk_types (tf t) d j nn Ok_ En) as LT; cbn [plus] in E2; rewrite E2 in LT; exact LT).
      * assert (Un : forall p, In p d' -> In p d /\ ~ IsFeature (tf t) (fst p)).
        { intros p I. apply Rd in I as [I H]. split; auto. intros C. destruct p as [[s|z] v]; cbn [fst IsFeature] in C.
          - apply In_nth_error in C as [j J]. destruct (H j _ J) as [_ H2]. apply H2. reflexivity.
          - destruct (nth_error_is_some (getNames (tf t)) (i:=Z.to_nat z)) as [nn En]; [rewrite getNames_length by auto; lia|].
            destruct (H _ _ En) as [H1 _]. apply H1. cbn [fst plus]. rewrite Z2Nat.id by lia. reflexivity. }
        destruct d' as [|[k v] d']; [destruct f; discriminate|]. destruct (Un (k, v) (or_introl eq_refl)) as [I1 I2]. eapply cc_unknown; eauto.
    + destruct TL as [-> [j [nn [En E2]]]]. pose proof (lk_types (tf t) d j nn Ok_ En) as LT. cbn [plus] in E2. rewrite E2 in LT. destruct LT as [x [y [A [B C]]]]. exact (cc_two conv t (CDict d) j x y A B C).
Qed.
End Conv.

Section Raw.
Variable strOf : pval -> string.
Variable T : Type.
Variable ET : EqDec T.
Variable conv : T -> pval -> result pval.
Variable junk : nat -> nat -> pval.
Notation initData := (initData strOf T ET conv junk).
Lemma limitP_off t0 kp p e t1 cl : limit Pts t0 kp p e = Ok (t1, cl) -> alen (tf t1) = alen (tf t0).
Proof.
  unfold limit. cbn [ax]. destruct (negb e && _); [discriminate|]. set (full := match p with GNone => false | _ => _ end).
  destruct (if full then _ else _) as [ta|] eqn:Ea; [|discriminate]. cbn [rbind].
  assert (La : alen (tf ta) = alen (tf t0)).
  { destruct full; [destruct (giveNames (tp t0) p); [|discriminate]; cbn [rbind withAxis] in Ea; injection Ea as <-; reflexivity|].
    destruct (keepIndexValidation kp); [|discriminate]. cbn [rbind] in Ea. injection Ea as <-. reflexivity. }
  destruct (keepIndexes (tp ta) kp []) as [c|]; [|discriminate]. cbn [rbind].
  destruct (if List.length c =? alen (tp t0) then _ else _) as [tb|] eqn:Eb; [|discriminate]. cbn [rbind].
  assert (Lb : alen (tf tb) = alen (tf ta)).
  { destruct (List.length c =? alen (tp t0)).
    - unfold reorder in Eb. cbn [ax] in Eb. destruct (alen (tp ta) <=? 1); [injection Eb as <-; reflexivity|]. destruct (mem None _); [discriminate|].
      unfold permute in Eb. cbn [ax] in Eb. destruct (negb _); [discriminate|]. destruct (negb _); [discriminate|]. destruct (alen (tp ta) <=? 1); [injection Eb as <-; reflexivity|].
      destruct (permuteRows Pts ta c); [|discriminate]. cbn [rbind] in Eb. destruct (permuteNames (tp ta) c) as [a' [u|]]; [|discriminate]. injection Eb as <-. reflexivity.
    - unfold taken in Eb. cbn [ax offax] in Eb. destruct (structuralNames (tp ta) c); [|discriminate]. cbn [rbind] in Eb. destruct (initAxis (List.length c) _); [|discriminate]. cbn [rbind] in Eb.
      unfold initAxis in Eb. destruct (getNamesNoGeneration (tf ta)) as [l|].
      + destruct (negb _); [discriminate|]. destruct (setNames (mkAxis (alen (tf ta)) None) (AList (map to_newname l)) ONone) as [b [u|]] eqn:S1; [|discriminate]. cbn [rbind] in Eb.
        destruct (gather (rows ta) c); [|discriminate]. cbn [rbind] in Eb. injection Eb as <-. cbn [tf]. apply (f_equal fst) in S1. cbn [fst setNames] in S1. rewrite <- S1. rewrite setAll_len. reflexivity.
      + cbn [rbind] in Eb. destruct (gather (rows ta) c); [|discriminate]. cbn [rbind] in Eb. injection Eb as <-. reflexivity. }
  destruct full.
  - intros E. injection E as <- _. congruence.
  - destruct (giveNames _ p); [|discriminate]. cbn [rbind]. intros E. injection E as <- _. cbn [withAxis tf]. congruence.
Qed.
Lemma convert_main src pn fn c keepP treat repl t lo :
  initData src pn fn CNone keepP None treat repl true = Ok (t, lo) -> wf t -> okDict c ->
  match initData src pn fn c keepP None treat repl true with
  | Ok (r, _) => Converted conv c t r
  | Err e => CannotConvert conv t c e
  end.
Proof.
  intros Full W Od. unfold RawModel.initData in *.
  destruct (match keepP with Some k => checkDuplicates k | None => Ok tt end); [|discriminate]. cbn [rbind] in *.
  destruct (extractNames strOf pn fn src) as [[[s0 p] f]|] eqn:Ex; [|discriminate]. cbn [rbind] in *.
  destruct (analyze (replaceMissing treat repl s0)) as [u|] eqn:An; [|discriminate]. cbn [rbind] in *.
  destruct (layout junk p f (replaceMissing treat repl s0)) as [[n k] m] eqn:La.
  destruct (newAxis n _) as [pa|] eqn:Np; [|discriminate]. cbn [rbind] in *.
  destruct (newAxis k f) as [fa|] eqn:Nf; [|discriminate]. cbn [rbind] in *.
  destruct (match keepP with Some kp => rmap fst (limit Pts (mkTable pa fa m) kp p (isTrue pn)) | None => Ok (mkTable pa fa m) end) as [t1|] eqn:E1; [|discriminate]. cbn [rbind fst snd convert] in *.
  injection Full as -> _.
  pose proof (convert_ok T ET conv c f t W Od) as C.
  destruct (convert T ET conv c f t) as [[r d]|e]; cbn [rbind fst snd]; exact C.
Qed.
(** *** rows as features *)
Lemma turned src pn fn treat repl : 
  initData src pn fn CNone None None treat repl false =
  match initData src fn pn CNone None None treat repl true with Ok (r, d) => Ok (transpose r, d) | Err e => Err e end.
Proof.
  unfold RawModel.initData. cbn [rbind]. destruct (extractNames _ _ _ _) as [[[s0 p] f]|e]; [|reflexivity]. cbn [rbind].
  destruct (analyze _); [|reflexivity]. cbn [rbind]. destruct (layout _ _ _ _) as [[n k] m]. destruct (newAxis n p); [|reflexivity]. cbn [rbind].
  destruct (newAxis k f); [|reflexivity]. reflexivity.
Qed.
Lemma keep_all_refused src pn fn ids treat repl t lo :
  initData src pn fn CNone None None treat repl true = Ok (t, lo) ->
  pn <> NmBool true -> List.length ids = alen (tp t) ->
  exists e, initData src pn fn CNone (Some ids) None treat repl true = Err e.
Proof.
  intros Full Np Li. unfold RawModel.initData in *. cbn [rbind] in *.
  destruct (checkDuplicates ids) as [u|e]; [|exists e; reflexivity]. cbn [rbind].
  destruct (extractNames strOf pn fn src) as [[[s0 p] f]|] eqn:Ex; [|discriminate]. cbn [rbind] in *.
  destruct (analyze (replaceMissing treat repl s0)) as [u'|] eqn:An; [|discriminate]. cbn [rbind] in *.
  destruct (layout junk p f (replaceMissing treat repl s0)) as [[n k] m] eqn:La.
  destruct (newAxis n p) as [pa|] eqn:Ep; [|discriminate]. cbn [rbind newAxis] in *.
  destruct (newAxis k f) as [fa|] eqn:Nf; [|discriminate]. cbn [rbind fst snd convert] in *.
  injection Full as <- _. cbn [tp] in Li. rewrite (newAxis_len _ _ _ Ep) in Li.
  unfold limit. cbn [ax tp alen]. rewrite Li, Nat.eqb_refl. assert (E : isTrue pn = false) by (destruct pn as [| | | |]; cbn; auto; try destruct b; auto; congruence). rewrite E. cbn. exists InvalidArgumentValue. reflexivity.
Qed.
End Raw.
