(** Proofs for the configuration object (C38). *)
From Verif Require Import Base ConfModel ConfSpec.
From Coq Require Import Ascii.
Open Scope string_scope.
Open Scope list_scope.
Open Scope nat_scope.

Definition wf2 {V} (d : dict2 V) : Prop := wfdict d /\ forall s t, dget s d = Some t -> wfdict t.
Lemma wfdict_nil {K V} {E : EqDec K} : wfdict (@nil (K * V)).
Proof. constructor. Qed.
Lemma look_put {V} (d : dict2 V) s o v s' o' :
  look s' o' (put s o v d) = if string_dec s' s then (if string_dec o' o then Some v else look s' o' d) else look s' o' d.
Proof.
  unfold look, put. rewrite dget_dset. unfold eq_dec, EqDec_string. destruct (string_dec s' s) as [->|N]; auto.
  rewrite dget_dset. unfold eq_dec. destruct (string_dec o' o) as [->|N]; auto.
  destruct (dget s d); auto.
Qed.
Lemma wf2_put {V} (d : dict2 V) s o v : wf2 d -> wf2 (put s o v d).
Proof.
  intros [H1 H2]. unfold put. split; [apply wfdict_dset; auto|]. intros s' t.
  rewrite dget_dset. destruct (eq_dec s' s); [|apply H2].
  intros [= <-]. apply wfdict_dset. destruct (dget s d) eqn:E; [eauto|apply wfdict_nil].
Qed.
Lemma look_dropOpt (d : dict2 value) s o s' o' : wf2 d ->
  look s' o' (dropOpt s o d) = if string_dec s' s then (if string_dec o' o then None else look s' o' d) else look s' o' d.
Proof.
  intros [H1 H2]. unfold dropOpt, look. destruct (dget s d) as [t|] eqn:E.
  - assert (Ht := H2 _ _ E). assert (G := dget_ddel o' o Ht).
    destruct (ddel o t) as [|p t'] eqn:Ed.
    + rewrite dget_ddel by auto. unfold eq_dec, EqDec_string in *. destruct (string_dec s' s) as [->|N]; auto.
      rewrite E. destruct (string_dec o' o); auto.
    + rewrite dget_dset. unfold eq_dec, EqDec_string in *. destruct (string_dec s' s) as [->|N]; auto.
      rewrite E. auto.
  - destruct (string_dec s' s) as [->|N]; auto. rewrite E. destruct (string_dec o' o); auto.
Qed.
Definition nonempty2 {V} (d : dict2 V) : Prop := forall s t, dget s d = Some t -> t <> [].
Lemma wf2_dropOpt (d : dict2 value) s o : wf2 d -> nonempty2 d -> wf2 (dropOpt s o d) /\ nonempty2 (dropOpt s o d).
Proof.
  intros [H1 H2] H3. unfold dropOpt. destruct (dget s d) as [t|] eqn:E; [|repeat (split; auto)].
  assert (Wd := wfdict_ddel o (H2 _ _ E)).
  destruct (ddel o t) as [|p t'] eqn:Ed.
  - split; [split|].
    + apply wfdict_ddel; auto.
    + intros s' u. rewrite dget_ddel by auto. destruct (eq_dec s' s); [discriminate|]. apply H2.
    + intros s' u. rewrite dget_ddel by auto. destruct (eq_dec s' s); [discriminate|]. apply H3.
  - split; [split|].
    + apply wfdict_dset; auto.
    + intros s' u. rewrite dget_dset. destruct (eq_dec s' s); [|apply H2]. intros [= <-]. auto.
    + intros s' u. rewrite dget_dset. destruct (eq_dec s' s); [|apply H3]. intros [= <-]. discriminate.
Qed.
Lemma dset_nonnil {K V} {E : EqDec K} (k : K) (v : V) d : dset k v d <> [].
Proof. destruct d as [|[k' v'] d]; simpl; [discriminate|]. destruct (eq_dec k k'); discriminate. Qed.
Lemma nonempty2_put {V} (d : dict2 V) s o v : nonempty2 d -> nonempty2 (put s o v d).
Proof.
  intros H s' t. unfold put. rewrite dget_dset. destruct (eq_dec s' s); [|apply H].
  intros [= <-]. apply dset_nonnil.
Qed.
Lemma interp_plain x : noPercent x -> interp x = Ok x.
Proof.
  induction x as [|c x IH]; intros H; [reflexivity|]. destruct H as [H1 H2]. cbn [interp].
  destruct (Ascii.eqb_spec c percent); [tauto|]. rewrite IH by auto. reflexivity.
Qed.

Record Inv (allowed : string -> string -> bool) (c : conf) (w : view) : Prop := mkInv {
  i_disk : disk c = parser c;
  i_wfp : wf2 (parser c);
  i_wfc : wf2 (changes c);
  i_ne : nonempty2 (changes c);
  i_pp : forall s o x, look s o (parser c) = Some x -> noPercent x;
  i_pc : forall s o v, look s o (changes c) = Some v -> plain v;
  i_al : forall s o v, look s o (changes c) = Some v -> allowed s o = true \/ fileVals (parser c) s o = Some v;
  i_session : forall s o, session w s o = match look s o (changes c) with Some v => Some v | None => fileVals (parser c) s o end;
  i_saved : forall s o, saved w s o = fileVals (parser c) s o }.
Section A.
Variable allowed : string -> string -> bool.

Lemma load_Inv f : goodFile f -> Inv allowed (load f) (mkView (fileVals f) (fileVals f)).
Proof.
  intros (H1 & H2 & H3). constructor; cbn [load parser changes disk session saved]; auto.
  - split; auto.
  - split; [apply wfdict_nil|discriminate].
  - discriminate.
  - discriminate.
  - discriminate.
Qed.
Lemma write_eq m s o v s' o' : write m s o v s' o' = if string_dec s' s then (if string_dec o' o then v else m s' o') else m s' o'.
Proof. reflexivity. Qed.

(** ** set *)
Lemma set_cases c w s o v : Inv allowed c w -> plain v ->
  (exists x, look s o (parser c) = Some x /\ v = VStr x /\ (exists v', look s o (changes c) = Some v') /\
     set allowed c s o v = (mkConf (parser c) (dropOpt s o (changes c)) (hooks c) (disk c) (calls c), Ok tt)) \/
  (~ (fileVals (parser c) s o = Some v /\ exists v', look s o (changes c) = Some v') /\ allowed s o = true /\
     set allowed c s o v = (mkConf (parser c) (put s o v (changes c)) (hooks c) (disk c)
       (calls c ++ match dget (s, o) (hooks c) with Some (Some f) => [(f, v)] | _ => [] end), Ok tt)) \/
  (~ (fileVals (parser c) s o = Some v /\ exists v', look s o (changes c) = Some v') /\ allowed s o = false /\
     set allowed c s o v = (c, Err InvalidArgumentValue)).
Proof.
  intros HI Hv. unfold set, fileVals.
  destruct (look s o (parser c)) as [x|] eqn:E.
  - rewrite (interp_plain x) by (eapply i_pp; eauto).
    destruct (eqbd (VStr x) v && match look s o (changes c) with Some _ => true | None => false end) eqn:B.
    + left. apply andb_true_iff in B. destruct B as [B1 B2]. apply eqbd_true in B1. subst v.
      exists x. split; [|split; [|split]]; auto. destruct (look s o (changes c)); [eauto|discriminate].
    + right. assert (N : ~ (option_map VStr (Some x) = Some v /\ exists v', look s o (changes c) = Some v')).
      { intros [[= <-] (v' & Hv')]. rewrite Hv', eqbd_refl in B. discriminate. }
      destruct (allowed s o) eqn:A; [left|right]; auto.
  - right. assert (N : ~ (option_map VStr (@None string) = Some v /\ exists v', look s o (changes c) = Some v')) by (intros [? ?]; discriminate).
    destruct (allowed s o) eqn:A; [left|right]; auto.
Qed.
Lemma set_Inv c w s o v : Inv allowed c w -> plain v ->
  Inv allowed (fst (set allowed c s o v)) (specStep allowed w (OSet s o v)).
Proof.
  intros HI Hv. cbn [specStep]. destruct (set_cases c w s o v HI Hv) as [(x & E1 & E2 & (v' & E3) & ->)|[(_ & A & ->)|(_ & A & ->)]]; cbn [fst].
  - destruct HI as [h1 h2 h3 h4 h5 h6 ha h7 h8].
    assert (W := wf2_dropOpt _ s o h3 h4). destruct W as [W1 W2].
    assert (HS : forall s0 o0, write (session w) s o (Some v) s0 o0 =
      match look s0 o0 (dropOpt s o (changes c)) with Some v => Some v | None => fileVals (parser c) s0 o0 end).
    { intros s0 o0. rewrite write_eq, look_dropOpt by auto. destruct (string_dec s0 s) as [->|N]; auto.
      destruct (string_dec o0 o) as [->|N]; auto. unfold fileVals. rewrite E1, E2. auto. }
    assert (Q : Inv allowed {| parser := parser c; changes := dropOpt s o (changes c); hooks := hooks c; disk := disk c; calls := calls c |}
        (mkView (write (session w) s o (Some v)) (saved w))).
    { constructor; cbn [parser changes disk session saved]; auto.
      - intros s0 o0 v0. rewrite look_dropOpt by auto.
        destruct (string_dec s0 s); [destruct (string_dec o0 o); [discriminate|]|]; apply h6.
      - intros s0 o0 v0. rewrite look_dropOpt by auto.
        destruct (string_dec s0 s); [destruct (string_dec o0 o); [discriminate|]|]; apply ha. }
    destruct (allowed s o) eqn:A; auto.
    (* not allowed although it is in [changes]: [get()] put the file's value there *)
    destruct (ha _ _ _ E3) as [B|B]; [congruence|].
    destruct Q; constructor; cbn [parser changes disk session saved] in *; auto.
    intros s0 o0. rewrite <- HS. rewrite write_eq. destruct (string_dec s0 s) as [->|N]; auto.
    destruct (string_dec o0 o) as [->|N]; auto. rewrite h7, E3, <- B. unfold fileVals. rewrite E1, E2. auto.
  - destruct HI as [h1 h2 h3 h4 h5 h6 ha h7 h8]. rewrite A.
    constructor; cbn [parser changes disk session saved]; auto.
    + apply wf2_put; auto.
    + apply nonempty2_put; auto.
    + intros s0 o0 v0. rewrite look_put.
      destruct (string_dec s0 s); [destruct (string_dec o0 o); [intros [= <-]; auto|]|]; apply h6.
    + intros s0 o0 v0. rewrite look_put.
      destruct (string_dec s0 s) as [->|]; [destruct (string_dec o0 o) as [->|]; [auto|]|]; apply ha.
    + intros s0 o0. rewrite write_eq, look_put.
      destruct (string_dec s0 s) as [->|]; [destruct (string_dec o0 o) as [->|]; [auto|]|]; apply h7.
  - rewrite A. auto.
Qed.
(** ** saveChanges *)
Lemma look_addSection (p : dict2 string) s s' o' : look s' o' (if dmem s p then p else dset s [] p) = look s' o' p.
Proof.
  destruct (dmem s p) eqn:E; auto. unfold look. rewrite dget_dset. destruct (eq_dec s' s) as [->|]; auto.
  destruct (dget s p) eqn:E2; auto. rewrite (proj2 (dmem_dget s p)) in E by eauto. discriminate.
Qed.
Lemma wf2_addSection (p : dict2 string) s : wf2 p -> wf2 (if dmem s p then p else dset s [] p).
Proof.
  intros [H1 H2]. destruct (dmem s p); [split; auto|]. split; [apply wfdict_dset; auto|].
  intros s' t. rewrite dget_dset. destruct (eq_dec s' s); [intros [= <-]; apply wfdict_nil|apply H2].
Qed.
Lemma saveOpts_ok s : forall opts p, wfdict opts -> wf2 p -> (forall o v, dget o opts = Some v -> plain v) ->
  exists p', saveOpts s opts p = (p', Ok tt) /\ wf2 p' /\
   forall s' o', look s' o' p' = if string_dec s' s then
      match dget o' opts with Some (VStr x) => Some x | _ => look s' o' p end else look s' o' p.
Proof.
  induction opts as [|[o v] opts IH]; intros p Hw Hp Hv.
  - exists p. split; [reflexivity|]. split; auto. intros s' o'. simpl. destruct (string_dec s' s); auto.
  - inversion Hw as [|? ? Hn Hw']; subst.
    assert (Pv := Hv o v). cbn [dget] in Pv. unfold eq_dec in Pv. destruct (EqDec_string o o); [|congruence].
    specialize (Pv eq_refl). destruct v as [x|]; [|destruct Pv]. simpl in Pv.
    destruct (IH (put s o x (if dmem s p then p else dset s [] p))) as (p' & E & W & G); auto.
    + apply wf2_put, wf2_addSection; auto.
    + intros o' v' H. apply (Hv o' v'). cbn [dget]. destruct (eq_dec o' o) as [->|]; auto.
      exfalso. apply dget_In in H. apply Hn. change o with (fst (o, v')). apply in_map. auto.
    + exists p'. cbn [saveOpts]. rewrite interp_plain by auto. split; auto. split; auto.
      intros s' o'. rewrite G. cbn [dget]. rewrite look_put, look_addSection.
      destruct (string_dec s' s) as [->|]; auto. unfold eq_dec, EqDec_string.
      destruct (string_dec o' o) as [->|]; auto.
      rewrite (proj2 (dget_None o opts)) by auto. auto.
Qed.
Lemma saveSections_ok : forall chg p, wf2 chg -> wf2 p -> (forall s o v, look s o chg = Some v -> plain v) ->
  exists p', saveSections chg p = (p', Ok tt) /\ wf2 p' /\
   forall s o, look s o p' = match look s o chg with Some (VStr x) => Some x | _ => look s o p end.
Proof.
  induction chg as [|[s opts] chg IH]; intros p Hc Hp Hv.
  - exists p. split; [reflexivity|]. split; auto.
  - destruct Hc as [Hw Hi]. inversion Hw as [|? ? Hn Hw']; subst.
    assert (G0 : forall s', dget s' ((s, opts) :: chg) = if string_dec s' s then Some opts else dget s' chg) by reflexivity.
    assert (Hg : dget s ((s, opts) :: chg) = Some opts) by (rewrite G0; destruct (string_dec s s); congruence).
    destruct (saveOpts_ok s opts p) as (p1 & E1 & W1 & G1); auto.
    { apply (Hi s). auto. }
    { intros o v H. apply (Hv s o). unfold look. rewrite Hg. auto. }
    assert (Hs : dget s chg = None) by (apply dget_None; auto).
    destruct (IH p1) as (p2 & E2 & W2 & G2); auto.
    { split; auto. intros s' t H. apply (Hi s'). rewrite G0. destruct (string_dec s' s) as [->|]; congruence. }
    { intros s' o v H. apply (Hv s' o). unfold look in *. rewrite G0. destruct (string_dec s' s) as [->|]; auto.
      rewrite Hs in H. discriminate. }
    exists p2. cbn [saveSections]. rewrite E1. split; auto. split; auto.
    intros s' o. rewrite G2, G1. unfold look. rewrite G0. destruct (string_dec s' s) as [->|]; auto.
    rewrite Hs. auto.
Qed.
Lemma fileVals_over (p p' : dict2 string) (g : string -> string -> option value) s o :
  (forall v, g s o = Some v -> plain v) ->
  look s o p' = match g s o with Some (VStr x) => Some x | _ => look s o p end ->
  fileVals p' s o = match g s o with Some v => Some v | None => fileVals p s o end.
Proof.
  intros H E. unfold fileVals. rewrite E. destruct (g s o) as [[x|n]|]; auto. destruct (H _ eq_refl).
Qed.
Lemma Inv_empty c w : Inv allowed c w -> changes c = [] -> forall s o, session w s o = saved w s o.
Proof. intros [h1 h2 h3 h4 h5 h6 ha h7 h8] E s o. rewrite h7, h8, E. reflexivity. Qed.
Lemma Inv_ext c w w' : Inv allowed c w -> (forall s o, session w' s o = session w s o) ->
  (forall s o, saved w' s o = saved w s o) -> Inv allowed c w'.
Proof.
  intros [h1 h2 h3 h4 h5 h6 ha h7 h8] E1 E2. constructor; auto; intros; [rewrite E1|rewrite E2]; auto.
Qed.
Lemma save_Inv c w s o : Inv allowed c w ->
  (snd (saveChanges c s o) = Ok tt <-> ~ (changes c <> [] /\ s = None /\ o <> None)) /\
  Inv allowed (fst (saveChanges c s o)) (specStep allowed w (OSave s o)).
Proof.
  intros HI. unfold saveChanges. destruct (changes c) as [|p0 ch0] eqn:EC.
  - split.
    + split; auto. intros _ [H _]. congruence.
    + cbn [fst]. assert (Q := Inv_empty _ _ HI EC). apply (Inv_ext _ _ _ HI).
      * intros s' o'. destruct s, o; auto.
      * intros s' o'. destruct s as [s|], o as [o|]; cbn [specStep saved]; auto.
        -- rewrite write_eq. destruct (string_dec s' s) as [->|]; auto. destruct (string_dec o' o) as [->|]; auto.
        -- destruct (string_dec s' s); auto.
  - rewrite <- EC. assert (NE : changes c <> []) by congruence. clear EC p0 ch0.
    destruct HI as [h1 h2 h3 h4 h5 h6 ha h7 h8].
    destruct s as [s|], o as [o|].
    + destruct (look s o (changes c)) as [v|] eqn:E.
      * assert (Pv := h6 _ _ _ E).
        destruct (saveOpts_ok s [(o, v)] (parser c)) as (p' & -> & W & G); auto.
        { constructor; [intros []|constructor]. }
        { intros o' v'. simpl. destruct (eq_dec o' o); [intros [= <-]; auto|discriminate]. }
        cbn [saveWith fst snd]. split; [split; auto; intros _ (_ & ? & _); discriminate|].
        assert (F : forall s0 o0, fileVals p' s0 o0 = if string_dec s0 s then (if string_dec o0 o then Some v else fileVals (parser c) s0 o0) else fileVals (parser c) s0 o0).
        { intros s0 o0. unfold fileVals. rewrite G. simpl. unfold eq_dec, EqDec_string.
          destruct (string_dec s0 s); auto. destruct (string_dec o0 o); auto.
          destruct v; [auto|destruct Pv]. }
        destruct (wf2_dropOpt _ s o h3 h4) as [W1 W2].
        constructor; cbn [parser changes disk session saved specStep]; auto.
        -- intros s0 o0 x H. rewrite G in H. simpl in H. unfold eq_dec, EqDec_string in H.
           destruct (string_dec s0 s); [|eauto]. destruct (string_dec o0 o); [|eauto].
           destruct v; [|eauto]. injection H as <-. auto.
        -- intros s0 o0 v0. rewrite look_dropOpt by auto.
           destruct (string_dec s0 s); [destruct (string_dec o0 o); [discriminate|]|]; apply h6.
        -- intros s0 o0 v0. rewrite look_dropOpt, F by auto.
           destruct (string_dec s0 s) as [->|]; [destruct (string_dec o0 o) as [->|]; [discriminate|]|]; apply ha.
        -- intros s0 o0. rewrite look_dropOpt, F, h7 by auto.
           destruct (string_dec s0 s) as [->|]; auto. destruct (string_dec o0 o) as [->|]; auto. rewrite E. auto.
        -- intros s0 o0. rewrite write_eq, F.
           destruct (string_dec s0 s) as [->|]; auto. destruct (string_dec o0 o) as [->|]; auto.
           rewrite h7, E. auto.
      * cbn [saveWith fst snd]. split; [split; auto; intros _ (_ & ? & _); discriminate|].
        constructor; cbn [parser changes disk session saved specStep]; auto.
        intros s0 o0. rewrite write_eq. destruct (string_dec s0 s) as [->|]; auto. destruct (string_dec o0 o) as [->|]; auto.
        rewrite h7, E. auto.
    + destruct (dget s (changes c)) as [opts|] eqn:E.
      * assert (HP : forall o v, dget o opts = Some v -> plain v).
        { intros o v H. apply (h6 s o). unfold look. rewrite E. auto. }
        destruct (saveOpts_ok s opts (parser c)) as (p' & -> & W & G); auto.
        { apply h3 in E. auto. }
        cbn [saveWith fst snd]. split; [split; auto; intros _ (_ & ? & _); discriminate|].
        assert (LD : forall s0 o0, look s0 o0 (ddel s (changes c)) = if string_dec s0 s then None else look s0 o0 (changes c)).
        { intros s0 o0. unfold look. rewrite dget_ddel by apply h3. unfold eq_dec, EqDec_string. destruct (string_dec s0 s); auto. }
        assert (F : forall s0 o0, fileVals p' s0 o0 = if string_dec s0 s then session w s0 o0 else fileVals (parser c) s0 o0).
        { intros s0 o0. unfold fileVals at 1. rewrite G.
          destruct (string_dec s0 s) as [->|]; [|reflexivity]. rewrite h7.
          replace (look s o0 (changes c)) with (dget o0 opts) by (unfold look; rewrite E; auto).
          destruct (dget o0 opts) as [[x|n]|] eqn:E2; auto. destruct (HP _ _ E2). }
        constructor; cbn [parser changes disk session saved specStep]; auto.
        -- split; [apply wfdict_ddel, h3|]. intros s0 t. rewrite dget_ddel by apply h3.
           destruct (eq_dec s0 s); [discriminate|]. apply h3.
        -- intros s0 t. rewrite dget_ddel by apply h3. destruct (eq_dec s0 s); [discriminate|]. apply h4.
        -- intros s0 o0 x H. rewrite G in H. destruct (string_dec s0 s); [|eauto].
           destruct (dget o0 opts) as [[y|n]|] eqn:E2; eauto. injection H as <-. apply (HP _ _ E2).
        -- intros s0 o0 v0. rewrite LD. destruct (string_dec s0 s); [discriminate|]. apply h6.
        -- intros s0 o0 v0. rewrite LD, F. destruct (string_dec s0 s); [discriminate|]. apply ha.
        -- intros s0 o0. rewrite LD, F. destruct (string_dec s0 s); auto.
        -- intros s0 o0. rewrite F. destruct (string_dec s0 s); auto.
      * cbn [saveWith fst snd]. split; [split; auto; intros _ (_ & ? & _); discriminate|].
        constructor; cbn [parser changes disk session saved specStep]; auto.
        intros s0 o0. destruct (string_dec s0 s) as [->|]; auto. rewrite h7. unfold look. rewrite E. auto.
    + cbn [fst snd]. split; [|constructor; auto]. split; [discriminate|]. intros H. exfalso. apply H. repeat (split; auto). discriminate.
    + destruct (saveSections_ok (changes c) (parser c)) as (p' & -> & W & G); auto.
      cbn [saveWith fst snd]. split; [split; auto; intros _ (_ & _ & ?); congruence|].
      assert (F : forall s0 o0, fileVals p' s0 o0 = session w s0 o0).
      { intros s0 o0. rewrite h7. apply (fileVals_over (parser c) p' (fun s o => look s o (changes c))); auto. intros v; apply h6. }
      constructor; cbn [parser changes disk session saved specStep]; auto.
      * split; [apply wfdict_nil|discriminate].
      * discriminate.
      * intros s0 o0 x H. rewrite G in H. destruct (look s0 o0 (changes c)) as [[y|n]|] eqn:E2; eauto.
        injection H as <-. apply (h6 _ _ _ E2).
      * discriminate.
      * discriminate.
      * intros s0 o0. rewrite F. reflexivity.
Qed.
(** ** get() *)
Lemma addMissing_ok : forall opts ret, wfdict opts -> wfdict ret -> (forall o x, dget o opts = Some x -> noPercent x) ->
  exists r, addMissing opts ret = (r, Ok tt) /\ wfdict r /\ (ret <> [] -> r <> []) /\ (opts <> [] -> r <> []) /\
   forall o, dget o r = match dget o ret with Some v => Some v | None => option_map VStr (dget o opts) end.
Proof.
  induction opts as [|[o x] opts IH]; intros ret Hw Hr Hp.
  - exists ret. split; [reflexivity|]. repeat (split; auto). intros o. simpl. destruct (dget o ret); auto.
  - inversion Hw as [|? ? Hn Hw']; subst.
    assert (Px : noPercent x). { apply (Hp o). simpl. destruct (eq_dec o o); congruence. }
    cbn [addMissing]. rewrite interp_plain by auto.
    destruct (IH (if dmem o ret then ret else dset o (VStr x) ret)) as (r & E & W & N1 & N2 & G); auto.
    + destruct (dmem o ret); auto. apply wfdict_dset; auto.
    + intros o' x' H. apply (Hp o'). simpl. destruct (eq_dec o' o) as [->|]; auto.
      exfalso. apply Hn. apply dget_In in H. change o with (fst (o, x')). apply in_map; auto.
    + exists r. split; auto. split; auto.
      assert (NN : (if dmem o ret then ret else dset o (VStr x) ret) <> []).
      { destruct (dmem o ret) eqn:D; [|apply dset_nonnil].
        apply dmem_dget in D. destruct D as (v & D). destruct ret; discriminate. }
      split; [auto|]. split; [auto|]. intros o'. rewrite G. simpl.
      destruct (dmem o ret) eqn:D.
      * apply dmem_dget in D. destruct D as (v & D).
        destruct (eq_dec o' o) as [->|]; auto. rewrite D. auto.
      * rewrite dget_dset. destruct (eq_dec o' o) as [->|]; auto.
        destruct (dget o ret) eqn:D2; auto. rewrite (proj2 (dmem_dget o ret)) in D by eauto. discriminate.
Qed.
Lemma look_dset {V} (d : dict2 V) s t s' o' : look s' o' (dset s t d) = if string_dec s' s then dget o' t else look s' o' d.
Proof. unfold look. rewrite dget_dset. unfold eq_dec, EqDec_string. destruct (string_dec s' s); auto. Qed.
Lemma dmem_get {K V} {E : EqDec K} (k : K) (d : @dict K V) : dmem k d = match dget k d with Some _ => true | None => false end.
Proof.
  destruct (dget k d) eqn:H; [apply dmem_dget; eauto|]. destruct (dmem k d) eqn:D; auto.
  apply dmem_dget in D. destruct D; congruence.
Qed.
Definition over (chg : dict2 value) (p : dict2 string) (s o : string) : option value :=
  match look s o chg with Some v => Some v | None => fileVals p s o end.
(** [chg] and [ret] hold the same inner dicts for the sections of [chg] *)
Lemma getAllLoop_ok : forall secs ret chg, wf2 secs -> (forall s o x, look s o secs = Some x -> noPercent x) ->
  wf2 ret -> wf2 chg -> nonempty2 chg ->
  (forall s t, dget s chg = Some t -> dget s ret = Some t) ->
  exists ret' chg', getAllLoop secs ret chg = (ret', chg', Ok tt) /\ wf2 ret' /\ wf2 chg' /\ nonempty2 chg' /\
    (forall s, dmem s ret' = dmem s ret || dmem s secs) /\
    (forall s o, look s o ret' = over ret secs s o) /\
    (forall s o, look s o chg' = if dmem s chg then over ret secs s o else None).
Proof.
  induction secs as [|[s opts] secs IH]; intros ret chg Hs Hp Hr Hc Hn Hsub.
  - exists ret, chg. split; [reflexivity|]. split; [|split; [|split; [|split; [|split]]]]; auto.
    + intros s. rewrite orb_false_r. auto.
    + intros s o. unfold over, fileVals. simpl. destruct (look s o ret); auto.
    + intros s o. unfold over, fileVals, look. simpl. destruct (dget s chg) as [t|] eqn:E.
      * rewrite (proj2 (dmem_dget s chg)) by eauto. rewrite (Hsub _ _ E). destruct (dget o t); auto.
      * destruct (dmem s chg) eqn:D; auto. apply dmem_dget in D. destruct D; congruence.
  - destruct Hs as [Hw Hi]. inversion Hw as [|? ? Hns Hw']; subst.
    assert (G0 : forall s', dget s' ((s, opts) :: secs) = if string_dec s' s then Some opts else dget s' secs) by reflexivity.
    assert (Hg : dget s ((s, opts) :: secs) = Some opts) by (rewrite G0; destruct (string_dec s s); congruence).
    assert (Hs0 : dget s secs = None) by (apply dget_None; auto).
    set (inner := match dget s ret with Some d => d | None => [] end).
    destruct (addMissing_ok opts inner) as (inner' & Ea & Wa & N1 & N2 & Ga).
    { apply (Hi s); auto. }
    { unfold inner. destruct (dget s ret) eqn:E; [apply Hr in E; auto|apply wfdict_nil]. }
    { intros o x H. apply (Hp s o). unfold look. rewrite Hg. auto. }
    cbn [getAllLoop]. fold inner. rewrite Ea.
    assert (LR : forall s' o', look s' o' (dset s inner' ret) = if string_dec s' s then over ret ((s, opts) :: secs) s o' else look s' o' ret).
    { intros s' o'. rewrite look_dset. destruct (string_dec s' s); auto. rewrite Ga. unfold over, fileVals, look.
      rewrite Hg. unfold inner. destruct (dget s ret); auto. }
    destruct (IH (dset s inner' ret) (if dmem s chg then dset s inner' chg else chg)) as (ret' & chg' & E & W1 & W2 & W3 & D & G1 & G2).
    { split; auto. intros s' t H. apply (Hi s'). rewrite G0. destruct (string_dec s' s) as [->|]; congruence. }
    { intros s' o x H. apply (Hp s' o). unfold look in *. rewrite G0. destruct (string_dec s' s) as [->|]; auto.
      rewrite Hs0 in H. discriminate. }
    { destruct Hr as [R1 R2]. split; [apply wfdict_dset; auto|]. intros s' t. rewrite dget_dset.
      destruct (eq_dec s' s); [intros [= <-]; auto|apply R2]. }
    { destruct (dmem s chg); auto. destruct Hc as [R1 R2]. split; [apply wfdict_dset; auto|]. intros s' t. rewrite dget_dset.
      destruct (eq_dec s' s); [intros [= <-]; auto|apply R2]. }
    { destruct (dmem s chg) eqn:Dm; auto. intros s' t. rewrite dget_dset.
      destruct (eq_dec s' s); [intros [= <-]|apply Hn]. apply N1.
      apply dmem_dget in Dm. destruct Dm as (t & Et). unfold inner. rewrite (Hsub _ _ Et). eauto. }
    { intros s' t. destruct (dmem s chg) eqn:Dm.
      - rewrite !dget_dset. destruct (eq_dec s' s); auto.
      - rewrite dget_dset. destruct (eq_dec s' s) as [->|]; auto. intros Et.
        rewrite (proj2 (dmem_dget s chg)) in Dm by eauto. discriminate. }
    assert (OV : forall s' o', over (dset s inner' ret) secs s' o' = over ret ((s, opts) :: secs) s' o').
    { intros s' o'. unfold over at 1. rewrite LR. destruct (string_dec s' s) as [->|N].
      - destruct (over ret ((s, opts) :: secs) s o') eqn:Eo; auto. unfold fileVals, look. rewrite Hs0. auto.
      - unfold over, fileVals, look. rewrite G0. destruct (string_dec s' s); [congruence|]. auto. }
    exists ret', chg'. split; [exact E|]. split; [|split; [|split; [|split; [|split]]]]; auto.
    + intros s'. rewrite D, !dmem_get, !dget_dset, G0. unfold eq_dec, EqDec_string.
      destruct (string_dec s' s); auto. rewrite orb_true_r. reflexivity.
    + intros s' o'. rewrite G1. apply OV.
    + intros s' o'. rewrite G2, OV.
      replace (dmem s' (if dmem s chg then dset s inner' chg else chg)) with (dmem s' chg); auto.
      destruct (dmem s chg) eqn:Dm; auto. rewrite (dmem_get s' (dset s inner' chg)), dget_dset.
      destruct (eq_dec s' s) as [->|]; [auto|apply dmem_get].
Qed.
Lemma getAll_ok c w : Inv allowed c w -> exists ret, snd (getAll c) = Ok ret /\
  (forall s o, look s o ret = session w s o) /\ Inv allowed (fst (getAll c)) w.
Proof.
  intros [h1 h2 h3 h4 h5 h6 ha h7 h8]. unfold getAll.
  destruct (getAllLoop_ok (parser c) (changes c) (changes c)) as (ret & chg & -> & W1 & W2 & W3 & D & G1 & G2); auto.
  exists ret. cbn [fst snd rmap]. split; auto. split; [intros s o; rewrite G1, h7; auto|].
  assert (G3 : forall s o v, look s o chg = Some v -> look s o (changes c) = Some v \/ fileVals (parser c) s o = Some v).
  { intros s o v. rewrite G2. destruct (dmem s (changes c)); [|discriminate]. unfold over.
    destruct (look s o (changes c)); auto. }
  constructor; cbn [parser changes disk session saved]; auto.
  - intros s o v H. destruct (G3 _ _ _ H) as [H1|H1]; [eauto|]. unfold fileVals in H1.
    destruct (look s o (parser c)) eqn:E; [|discriminate]. injection H1 as <-. simpl. eauto.
  - intros s o v H. destruct (G3 _ _ _ H) as [H1|H1]; eauto.
  - intros s o. rewrite h7, G2. unfold over. destruct (dmem s (changes c)) eqn:E.
    + destruct (look s o (changes c)); auto. destruct (fileVals (parser c) s o); auto.
    + rewrite dmem_get in E. unfold look at 1. destruct (dget s (changes c)); [discriminate|auto].
Qed.
Lemma getOption_ok c w s o : Inv allowed c w ->
  getOption c s o = match session w s o with Some v => Ok v | None => Err KeyErr end.
Proof.
  intros [h1 h2 h3 h4 h5 h6 ha h7 h8]. rewrite h7. unfold getOption, parserGet, fileVals.
  destruct (look s o (changes c)); auto. destruct (look s o (parser c)) eqn:E; auto.
  cbn [option_map]. rewrite interp_plain by eauto. reflexivity.
Qed.
Lemma getSection_ok c w s : Inv allowed c w ->
  (exists d, getSection c s = Ok d /\ wfdict d /\ forall o, dget o d = session w s o) \/
  (getSection c s = Err KeyErr /\ forall o, session w s o = None).
Proof.
  intros [h1 h2 h3 h4 h5 h6 ha h7 h8]. unfold getSection.
  assert (Wr : wfdict (match dget s (changes c) with Some t => t | None => [] end)).
  { destruct (dget s (changes c)) eqn:E; [apply h3 in E; auto|apply wfdict_nil]. }
  destruct (dget s (parser c)) as [opts|] eqn:E.
  - left. destruct (addMissing_ok opts (match dget s (changes c) with Some t => t | None => [] end)) as (r & -> & W & _ & _ & G); auto.
    { apply h2 in E; auto. }
    { intros o x H. apply (h5 s o). unfold look. rewrite E. auto. }
    exists r. split; [reflexivity|]. split; auto. intros o. rewrite G, h7. unfold fileVals, look. rewrite E.
    destruct (dget s (changes c)); auto.
  - destruct (dget s (changes c)) as [t|] eqn:E2.
    + left. destruct t as [|p t]; [exfalso; eapply h4; eauto|]. exists (p :: t). split; auto. split; auto.
      intros o. rewrite h7. unfold look, fileVals, look. rewrite E, E2. destruct (dget o (p :: t)); auto.
    + right. split; auto. intros o. rewrite h7. unfold look, fileVals, look. rewrite E, E2. auto.
Qed.
Lemma set_snd c w s o v : Inv allowed c w -> plain v -> allowed s o = true -> snd (set allowed c s o v) = Ok tt.
Proof.
  intros HI Hv A. destruct (set_cases c w s o v HI Hv) as [(x & _ & _ & _ & ->)|[(_ & _ & ->)|(_ & A' & ->)]]; auto. congruence.
Qed.
(** a refused set changes nothing the user sees *)
Lemma set_err c w s o v e : Inv allowed c w -> plain v -> snd (set allowed c s o v) = Err e ->
  set allowed c s o v = (c, Err InvalidArgumentValue) /\ allowed s o = false.
Proof.
  intros HI Hv A. destruct (set_cases c w s o v HI Hv) as [(x & _ & _ & _ & E)|[(_ & _ & E)|(_ & A' & E)]]; rewrite E in *; try discriminate. auto.
Qed.
Lemma setDefault_Inv c w s o v : Inv allowed c w -> plain v ->
  Inv allowed (fst (setDefault allowed c s o v)) (specStep allowed w (OSetDefault s o v)).
Proof.
  intros HI Hv. unfold setDefault. assert (Q := set_Inv c w s o v HI Hv).
  destruct (set allowed c s o v) as [c' [[]|e]] eqn:E.
  - cbn [fst] in Q. destruct (save_Inv c' _ (Some s) (Some o) Q) as [_ Q2].
    apply (Inv_ext _ _ _ Q2).
    + intros s0 o0. cbn [specStep]. destruct (allowed s o); auto.
    + intros s0 o0. cbn [specStep]. destruct (allowed s o) eqn:A; cbn [session saved].
      * rewrite !write_eq. destruct (string_dec s0 s) as [->|]; auto. destruct (string_dec o0 o) as [->|]; auto.
        destruct (string_dec s s); [|congruence]. destruct (string_dec o o); congruence.
      * rewrite write_eq. destruct (string_dec s0 s) as [->|]; auto. destruct (string_dec o0 o) as [->|]; auto.
        assert (HI' := HI). destruct (set_cases c w s o v HI Hv) as [(x & E1 & E2 & (v' & E3) & E4)|[(_ & A' & _)|(_ & _ & E4)]]; [| |].
        -- rewrite (i_saved _ _ _ HI), (i_session _ _ _ HI), E3. destruct (i_al _ _ _ HI _ _ _ E3) as [B|B]; congruence.
        -- congruence.
        -- rewrite E4 in E. discriminate.
  - assert (R := set_err c w s o v e HI Hv). rewrite E in R. destruct (R eq_refl) as [R1 R2].
    injection R1 as -> _. cbn [fst specStep]. rewrite R2. auto.
Qed.
Lemma step_Inv c w x : Inv allowed c w -> plainOp x -> Inv allowed (fst (step allowed c x)) (specStep allowed w x).
Proof.
  intros HI Hp. destruct x as [s o v|s o v|s o| |s o f|]; cbn [step].
  - apply set_Inv; auto.
  - apply setDefault_Inv; auto.
  - apply save_Inv; auto.
  - destruct (getAll_ok c w HI) as (ret & E & _ & Q). destruct (getAll c) as [c' r]. auto.
  - unfold setHook. destruct HI as [h1 h2 h3 h4 h5 h6 ha h7 h8].
    destruct (dget (s, o) (hooks c)) as [[f'|]|]; constructor; auto.
  - cbn [fst specStep]. destruct HI as [h1 h2 h3 h4 h5 h6 ha h7 h8]. apply (Inv_ext _ (mkView (fileVals (disk c)) (fileVals (disk c)))).
    + apply load_Inv. rewrite h1. destruct h2. split; auto.
    + intros s o. cbn [session]. rewrite h8, h1. auto.
    + intros s o. cbn [saved]. rewrite h8, h1. auto.
Qed.
Lemma run_Inv l : forall c w, Inv allowed c w -> Forall plainOp l -> Inv allowed (run allowed c l) (specRun allowed w l).
Proof.
  induction l as [|x l IH]; intros c w HI Hl; [exact HI|]. inversion Hl; subst.
  apply IH; auto. apply step_Inv; auto.
Qed.
(** ** hooks *)
Lemma set_hooks c s o v : hooks (fst (set allowed c s o v)) = hooks c.
Proof.
  unfold set. destruct (look s o (parser c)) as [x|]; [destruct (interp x)|]; try destruct (_ && _); try destruct (allowed s o); reflexivity.
Qed.
Lemma saveWith_hooks c r chg : hooks (fst (saveWith c r chg)) = hooks c /\ calls (fst (saveWith c r chg)) = calls c.
Proof. unfold saveWith. destruct r as [p []]; auto. Qed.
Lemma save_hooks c s o : hooks (fst (saveChanges c s o)) = hooks c /\ calls (fst (saveChanges c s o)) = calls c.
Proof.
  unfold saveChanges. destruct (changes c) eqn:E; auto. rewrite <- E. destruct s as [s|], o as [o|]; auto using saveWith_hooks.
  - destruct (look s o (changes c)); apply saveWith_hooks.
  - destruct (dget s (changes c)); apply saveWith_hooks.
Qed.
Lemma step_hooks c x s o : dget (s, o) (hooks (fst (step allowed c x))) = hookStep s o (dget (s, o) (hooks c)) x.
Proof.
  destruct x as [s0 o0 v|s0 o0 v|s0 o0| |s0 o0 f|]; cbn [step hookStep].
  - rewrite set_hooks. auto.
  - unfold setDefault. assert (Q := set_hooks c s0 o0 v). destruct (set allowed c s0 o0 v) as [c' [u|e]]; cbn [fst] in Q.
    + rewrite (proj1 (save_hooks c' (Some s0) (Some o0))), Q. auto.
    + cbn [fst]. rewrite Q. auto.
  - rewrite (proj1 (save_hooks c s0 o0)). auto.
  - unfold getAll. destruct (getAllLoop (parser c) (changes c) (changes c)) as [[ret chg] e]. reflexivity.
  - unfold setHook. destruct (string_dec s0 s) as [->|N].
    + destruct (string_dec o0 o) as [->|N].
      * destruct (dget (s, o) (hooks c)) as [[f'|]|] eqn:E; cbn [fst hooks]; auto;
          rewrite dget_dset; destruct (eq_dec (s, o) (s, o)); congruence.
      * destruct (dget (s, o0) (hooks c)) as [[f'|]|]; cbn [fst hooks]; auto;
          rewrite dget_dset; destruct (eq_dec (s, o) (s, o0)); congruence.
    + destruct (dget (s0, o0) (hooks c)) as [[f'|]|]; cbn [fst hooks]; auto;
          rewrite dget_dset; destruct (eq_dec (s, o) (s0, o0)); congruence.
  - reflexivity.
Qed.
Lemma run_hooks l s o : forall c, dget (s, o) (hooks (run allowed c l)) = fold_left (hookStep s o) l (dget (s, o) (hooks c)).
Proof.
  induction l as [|x l IH]; intros c; [reflexivity|]. cbn [run fold_left]. unfold run in IH. rewrite IH, step_hooks. reflexivity.
Qed.
Lemma set_calls c w s o v : Inv allowed c w -> plain v -> allowed s o = true -> saved w s o <> Some v ->
  calls (fst (set allowed c s o v)) = calls c ++ called (dget (s, o) (hooks c)) v.
Proof.
  intros HI Hv A Hs. destruct (set_cases c w s o v HI Hv) as [(x & E1 & E2 & _)|[(_ & _ & ->)|(_ & A' & _)]]; [|reflexivity|congruence].
  exfalso. apply Hs. rewrite (i_saved _ _ _ HI). unfold fileVals. rewrite E1, E2. auto.
Qed.
Lemma setDefault_calls c w s o v : Inv allowed c w -> plain v -> allowed s o = true -> saved w s o <> Some v ->
  calls (fst (setDefault allowed c s o v)) = calls c ++ called (dget (s, o) (hooks c)) v.
Proof.
  intros HI Hv A Hs. assert (Q := set_calls c w s o v HI Hv A Hs). assert (R := set_snd c w s o v HI Hv A).
  unfold setDefault. destruct (set allowed c s o v) as [c' r]. cbn [fst snd] in *. subst r.
  rewrite (proj2 (save_hooks c' _ _)). auto.
Qed.
Lemma step_calls c x : match x with OSet _ _ _ | OSetDefault _ _ _ | ORestart => True
                       | _ => calls (fst (step allowed c x)) = calls c end.
Proof.
  destruct x as [s0 o0 v|s0 o0 v|s0 o0| |s0 o0 f|]; cbn [step]; auto.
  - apply save_hooks.
  - unfold getAll. destruct (getAllLoop (parser c) (changes c) (changes c)) as [[ret chg] e]. reflexivity.
  - unfold setHook. destruct (dget (s0, o0) (hooks c)) as [[f'|]|]; reflexivity.
Qed.
End A.
