(** Proofs for C63: parameter sets, signatures and calls. *)
From Verif Require Import Base LearnModel LearnSpec LearnProofs ArgsModel ArgsSpec.
Open Scope string_scope.
Open Scope list_scope.
Open Scope nat_scope.

Section P.
Context {V : Type} {EV : EqDec V}.
Notation args := (@dict string V).

Lemma dmem_keys k (d : args) : dmem k d = true <-> In k (dkeys d).
Proof. unfold dmem. apply mem_In. Qed.
Lemma dget_key k (d : args) : In k (dkeys d) <-> exists v, dget k d = Some v.
Proof. rewrite <- dmem_keys. apply dmem_dget. Qed.

Lemma validationLoop_spec (defaults : args) : forall needed check, NoDup needed -> wfdict check ->
  ((forall p, In p needed -> dget p defaults = None -> In p (dkeys check)) /\
     exists r, validationLoop needed defaults check = Ok r /\ wfdict r /\
       forall k, dget k r = if mem k needed then None else dget k check) \/
  (validationLoop needed defaults check = Err InvalidArgumentValue /\
     exists p, In p needed /\ dget p defaults = None /\ ~ In p (dkeys check)).
Proof.
  induction needed as [|p t IH]; intros check Hn Hw.
  - left. split; [intros p []|]. exists check. split; [reflexivity|]. split; [exact Hw|reflexivity].
  - inversion Hn as [|? ? Hp Ht]; subst. cbn [validationLoop].
    destruct (dmem p check) eqn:E.
    + destruct (IH (ddel p check) Ht (wfdict_ddel p Hw)) as [[A (r & B & C & D)]|[A (q & B & C & D)]].
      * left. split.
        -- intros q [-> |Hq] Hd; [apply dmem_keys; exact E|]. eapply In_dkeys_ddel, A; eauto.
        -- exists r. split; [exact B|]. split; [exact C|]. intros k. rewrite D.
           cbn [mem]. rewrite dget_ddel by exact Hw.
           destruct (eq_dec k p) as [-> |N]; cbn; [destruct (mem p t); reflexivity|reflexivity].
      * right. split; [exact A|]. exists q. split; [right; exact B|]. split; [exact C|].
        intros Hk. apply D. apply dget_key in Hk. destruct Hk as [v Hv]. apply dget_key. exists v.
        rewrite dget_ddel by exact Hw. destruct (eq_dec q p) as [-> |N]; [contradiction|exact Hv].
    + assert (Np : ~ In p (dkeys check)) by (intros K; apply dmem_keys in K; congruence).
      destruct (dmem p defaults) eqn:E2.
      * destruct (IH check Ht Hw) as [[A (r & B & C & D)]|[A (q & B & C & D)]].
        -- left. split.
           ++ intros q [<- |Hq] Hd; [|eauto]. apply dmem_dget in E2. destruct E2; congruence.
           ++ exists r. split; [exact B|]. split; [exact C|]. intros k. rewrite D. cbn [mem].
              destruct (eq_dec k p) as [-> |N]; cbn; [|reflexivity].
              apply dget_None in Np. rewrite Np. destruct (mem p t); reflexivity.
        -- right. split; [exact A|]. exists q. split; [right; exact B|]. auto.
      * right. split; [reflexivity|]. exists p. split; [left; reflexivity|]. split; [|exact Np].
        destruct (dget p defaults) eqn:G; [|reflexivity].
        assert (dmem p defaults = true) by (apply dmem_dget; eauto). congruence.
Qed.

Lemma argumentValueValidation_spec needed (defaults m : args) : NoDup needed -> wfdict m ->
  (argumentValueValidation needed defaults m = Ok tt /\ SetAccepts (dkeys m) (needed, defaults)) \/
  (argumentValueValidation needed defaults m = Err InvalidArgumentValue /\ ~ SetAccepts (dkeys m) (needed, defaults)).
Proof.
  intros Hn Hw. unfold argumentValueValidation.
  destruct (validationLoop_spec defaults needed m Hn Hw) as [[A (r & B & C & D)]|[A (q & Q1 & Q2 & Q3)]].
  - rewrite B. cbn [rbind]. destruct r as [|[k v] r].
    + left. split; [reflexivity|]. split; [exact A|]. intros k Hk. cbn [fst].
      apply dget_key in Hk. destruct Hk as [v Hv]. specialize (D k). cbn in D.
      destruct (mem k needed) eqn:E; [apply mem_In; exact E|congruence].
    + right. split; [reflexivity|]. intros [_ K]. specialize (D k). cbn in D.
      destruct (eq_dec k k) as [_|]; [|contradiction].
      destruct (mem k needed) eqn:E; [discriminate|].
      assert (In k (dkeys m)) by (apply dget_key; eauto).
      apply K in H. cbn in H. apply mem_In in H. congruence.
  - rewrite A. right. split; [reflexivity|]. intros [K _]. apply Q3. apply (K q); auto.
Qed.

Lemma allIn_spec (m : args) ps : allIn m ps = true <-> Satisfied (dkeys m) ps.
Proof.
  unfold allIn, Satisfied. rewrite forallb_forall. split.
  - intros H p Hp Hd. specialize (H p Hp). apply orb_true_iff in H. destruct H as [H|H].
    + apply dmem_keys; exact H.
    + apply dmem_dget in H. destruct H; congruence.
  - intros H p Hp. apply orb_true_iff. destruct (dget p (snd ps)) eqn:E.
    + right. apply dmem_dget; eauto.
    + left. apply dmem_keys; auto.
Qed.

Lemma chooseLoop_spec (m : args) : forall sets i best,
  (chooseLoop i sets m best = best /\ forall j ps, nth_error sets j = Some ps -> ~ Satisfied (dkeys m) ps) \/
  (exists j ps, chooseLoop i sets m best = Some (i + j) /\ nth_error sets j = Some ps /\ Satisfied (dkeys m) ps /\
     forall j' ps', j < j' -> nth_error sets j' = Some ps' -> ~ Satisfied (dkeys m) ps').
Proof.
  induction sets as [|ps t IH]; intros i best.
  - left. split; [reflexivity|]. intros [|j] ps H; discriminate.
  - cbn [chooseLoop]. rewrite andb_true_r.
    destruct (IH (S i) (if allIn m ps then Some i else best)) as [[A B]|(j & q & A & B & C & D)].
    + rewrite A. destruct (allIn m ps) eqn:E.
      * right. exists 0, ps. rewrite Nat.add_0_r. split; [reflexivity|]. split; [reflexivity|].
        split; [apply allIn_spec; exact E|]. intros [|j'] ps' L H; [lia|]. eapply B; exact H.
      * left. split; [reflexivity|]. intros [|j] q H.
        -- injection H as <-. intros K. apply allIn_spec in K. congruence.
        -- eapply B; exact H.
    + right. exists (S j), q. rewrite A. split; [f_equal; lia|]. split; [exact B|]. split; [exact C|].
      intros [|j'] ps' L H; [lia|]. eapply D; [|exact H]. lia.
Qed.

Lemma validateSets_spec sets (m : args) : Forall (fun ps => NoDup (fst ps)) sets -> wfdict m ->
  (validateSets sets m = Ok tt /\ LastAccepts (dkeys m) sets) \/
  (validateSets sets m = Err InvalidArgumentValue /\ ~ LastAccepts (dkeys m) sets).
Proof.
  intros Hn Hw. unfold validateSets, chooseBestParameterSet.
  destruct (List.length sets =? 1) eqn:E1.
  - apply Nat.eqb_eq in E1. destruct sets as [|[needed defaults] [|? ?]]; try discriminate. cbn [rbind nth_error].
    inversion Hn as [|? ? H1 _]; subst. cbn [fst snd] in *.
    destruct (argumentValueValidation_spec needed defaults m H1 Hw) as [[A B]|[A B]]; [left|right]; (split; [exact A|]).
    + exists 0, (needed, defaults). split; [reflexivity|]. split; [exact B|].
      intros [|[|j]] ps' L H; [lia|discriminate|discriminate].
    + intros (i & ps & H & K & _). destruct i as [|[|i]]; [|discriminate|discriminate].
      injection H as <-. contradiction.
  - destruct (chooseLoop_spec m sets 0 None) as [[A B]|(j & ps & A & B & C & D)]; rewrite A; cbn [rbind].
    + right. split; [reflexivity|]. intros (i & ps & H & [K _] & _). eapply B; eauto.
    + rewrite Nat.add_0_l, B. pose proof (proj1 (Forall_forall _ _) Hn ps (nth_error_In _ _ B)) as N1.
      destruct ps as [needed defaults]. cbn [fst snd] in *.
      destruct (argumentValueValidation_spec needed defaults m N1 Hw) as [[P Q]|[P Q]]; [left|right]; (split; [exact P|]).
      * exists j, (needed, defaults). auto.
      * intros (i & ps & H & [K1 K2] & L). destruct (lt_eq_lt_dec i j) as [[T| ->]|T].
        -- exact (L j _ T B C).
        -- rewrite B in H. injection H as <-. apply Q. split; auto.
        -- exact (D i _ T H K1).
Qed.

(** ** signatures *)
Definition isPos (p : param V) : bool := match pkind p with PositionalOrKeyword => true | KeywordOnly => false end.
Lemma isPos_true p : isPos p = true <-> pkind p = PositionalOrKeyword.
Proof. unfold isPos. destruct (pkind p); split; congruence. Qed.

Definition withDefault (p : param V) : list (string * V) := match pdefault p with Some v => [(pname p, v)] | None => [] end.
Definition trailing (l : list (param V)) : Prop :=
  forall i j p q, i < j -> nth_error l i = Some p -> nth_error l j = Some q -> pdefault p <> None -> pdefault q <> None.
Lemma combine_rev_defaults (l : list (param V)) : trailing l ->
  combine (rev (map pname l)) (rev (flat_map (fun p => match pdefault p with Some v => [v] | None => [] end) l)) =
  rev (flat_map withDefault l).
Proof.
  induction l as [|p l IH] using rev_ind; intros Ht; [reflexivity|].
  rewrite map_app, !flat_map_app, !rev_app_distr. cbn [map flat_map rev app].
  assert (W : rev (withDefault p ++ []) = match pdefault p with Some v => [(pname p, v)] | None => [] end)
    by (unfold withDefault; destruct (pdefault p); reflexivity).
  rewrite W. destruct (pdefault p) as [v|] eqn:E; cbn [app rev].
  - cbn [combine]. f_equal. apply IH. intros i j a b L Ha Hb. apply (Ht i j a b L);
      (rewrite nth_error_app1; [assumption|]); apply nth_error_Some; congruence.
  - assert (N : forall q, In q l -> pdefault q = None).
    { intros q Hq. destruct (pdefault q) eqn:F; [|reflexivity]. exfalso.
      apply In_nth_error in Hq. destruct Hq as [i Hi].
      assert (Li : i < List.length l) by (apply nth_error_Some; congruence).
      apply (Ht i (List.length l) q p Li); [rewrite nth_error_app1; auto| |congruence|exact E].
      rewrite nth_error_app2, Nat.sub_diag; [reflexivity|lia]. }
    assert (A : flat_map (fun p => match pdefault p with Some v => [v] | None => [] end) l = []).
    { clear -N. induction l as [|q l IH]; [reflexivity|]. cbn. rewrite (N q (or_introl eq_refl)). apply IH.
      intros r Hr. apply N. right; exact Hr. }
    assert (B : flat_map withDefault l = []).
    { clear -N. induction l as [|q l IH]; [reflexivity|]. cbn. unfold withDefault at 1.
      rewrite (N q (or_introl eq_refl)). apply IH. intros r Hr. apply N. right; exact Hr. }
    rewrite A, B. reflexivity.
Qed.

Lemma flat_map_default_In l k (v : V) : In (k, v) (flat_map withDefault l) <->
  exists p, In p l /\ pname p = k /\ pdefault p = Some v.
Proof.
  rewrite in_flat_map. split.
  - intros (p & Hp & H). unfold withDefault in H. destruct (pdefault p) as [w|] eqn:E; [|destruct H].
    destruct H as [H|[]]. injection H as <- <-. eauto.
  - intros (p & Hp & <- & E). exists p. split; [exact Hp|]. unfold withDefault. rewrite E. left; reflexivity.
Qed.
Lemma NoDup_flat_default l : NoDup (map (@pname V) l) -> NoDup (map fst (flat_map withDefault l)).
Proof.
  induction l as [|p l IH]; intros H; [constructor|]. inversion H as [|? ? A B]; subst.
  cbn [flat_map]. rewrite map_app. unfold withDefault at 1. destruct (pdefault p); cbn [map fst app]; [|auto].
  constructor; [|auto]. intros K. apply A. apply in_map_iff in K. destruct K as ([k w] & K1 & K2). cbn in K1.
  apply flat_map_default_In in K2. destruct K2 as (q & Q1 & Q2 & _). rewrite <- K1, <- Q2. apply in_map; exact Q1.
Qed.
Lemma NoDup_map_filter {A B} (f : A -> B) g l : NoDup (map f l) -> NoDup (map f (filter g l)).
Proof.
  induction l as [|x l IH]; intros H; [constructor|]. inversion H as [|? ? P Q]; subst. cbn.
  destruct (g x); [|auto]. cbn. constructor; [|auto]. intros K. apply P.
  apply in_map_iff in K. destruct K as (y & <- & Hy). apply in_map. apply filter_In in Hy. apply Hy.
Qed.
Lemma trailing_filter_aux : forall (l : list (param V)),
  (forall i j p q, i < j -> nth_error l i = Some p -> nth_error l j = Some q ->
     pkind p = PositionalOrKeyword -> pkind q = PositionalOrKeyword -> pdefault p <> None -> pdefault q <> None) ->
  trailing (filter isPos l).
Proof.
  induction l as [|x l IH]; intros H; [intros i j p q _ Hp; destruct i; discriminate|].
  assert (Hl : trailing (filter isPos l)).
  { apply IH. intros i j p q L Hp Hq. exact (H (S i) (S j) p q ltac:(lia) Hp Hq). }
  cbn [filter]. destruct (isPos x) eqn:E; [|exact Hl].
  intros i j p q L Hp Hq D. destruct j as [|j]; [lia|]. cbn in Hq. destruct i as [|i].
  - cbn in Hp. injection Hp as <-. apply nth_error_In, filter_In in Hq. destruct Hq as [Hq1 Hq2].
    apply In_nth_error in Hq1. destruct Hq1 as [n Hn].
    apply (H 0 (S n) x q ltac:(lia) eq_refl Hn); [apply isPos_true; exact E|apply isPos_true; exact Hq2|exact D].
  - exact (Hl i j p q ltac:(lia) Hp Hq D).
Qed.

Lemma methodDefaults_spec (s : signature V) : ProperSignature s -> wfdict (methodDefaults s) /\
  forall k, In k (dkeys (methodDefaults s)) <->
    exists p, In p (sparams s) /\ pkind p = PositionalOrKeyword /\ pname p = k /\ pdefault p <> None.
Proof.
  intros [Hn Ht]. unfold methodDefaults, inspectArguments. fold isPos.
  change (filter (fun p => match pkind p with PositionalOrKeyword => true | KeywordOnly => false end) (sparams s))
    with (filter isPos (sparams s)).
  rewrite (combine_rev_defaults _ (trailing_filter_aux _ Ht)).
  assert (N : NoDup (map fst (rev (flat_map withDefault (filter isPos (sparams s)))))).
  { rewrite map_rev. apply NoDup_rev. apply NoDup_flat_default, NoDup_map_filter, Hn. }
  rewrite (dict_of_nodup _ N). split; [exact N|]. intros k. unfold dkeys. rewrite map_rev, <- in_rev. split.
  - intros H. apply in_map_iff in H. destruct H as ([k' v] & <- & H). apply flat_map_default_In in H.
    destruct H as (p & Hp & A & B). apply filter_In in Hp. destruct Hp as [Hp E]. exists p.
    split; [exact Hp|]. split; [apply isPos_true; exact E|]. split; [exact A|congruence].
  - intros (p & Hp & E & <- & D). destruct (pdefault p) as [v|] eqn:F; [|contradiction].
    apply in_map_iff. exists (pname p, v). split; [reflexivity|]. apply flat_map_default_In.
    exists p. split; [|auto]. apply filter_In. split; [exact Hp|apply isPos_true; exact E].
Qed.

Lemma Param_rest n (s : signature V) p : Param n s p <-> In p (rest n s).
Proof.
  unfold Param, rest. split.
  - intros (i & L & H). apply nth_error_In with (n := i - n). rewrite nth_error_skipn.
    replace (n + (i - n)) with i by lia. exact H.
  - intros H. apply In_nth_error in H. destruct H as [i H]. rewrite nth_error_skipn in H.
    exists (n + i). split; [lia|exact H].
Qed.
Lemma NoDup_rest n (s : signature V) : ProperSignature s -> NoDup (map pname (rest n s)).
Proof.
  intros [H _]. unfold rest. rewrite <- (firstn_skipn n (sparams s)), map_app in H.
  induction (map pname (firstn n (sparams s))) as [|x l IH]; [exact H|]. apply IH. cbn in H. inversion H; assumption.
Qed.
Lemma NoDup_app_disj {A} (l l' : list A) x : NoDup (l ++ l') -> In x l -> In x l' -> False.
Proof.
  induction l as [|y l IH]; intros H H1 H2; [destruct H1|]. cbn in H. inversion H as [|? ? P Q]; subst.
  destruct H1 as [-> |H1]; [apply P; apply in_app_iff; right; exact H2|exact (IH Q H1 H2)].
Qed.
Lemma given_rest_disjoint n (s : signature V) k : ProperSignature s -> In k (given n s) -> In k (map pname (rest n s)) -> False.
Proof.
  intros [H _] A B. unfold given, rest in *. rewrite <- (firstn_skipn n (sparams s)), map_app in H.
  exact (NoDup_app_disj _ _ _ H A B).
Qed.
Lemma given_iff n (s : signature V) k : In k (given n s) <-> exists i p, i < n /\ nth_error (sparams s) i = Some p /\ pname p = k.
Proof.
  unfold given. rewrite in_map_iff. split.
  - intros (p & <- & H). apply In_nth_error in H. destruct H as [i H].
    assert (L : i < List.length (firstn n (sparams s))) by (apply nth_error_Some; congruence).
    rewrite firstn_length in L. exists i, p. split; [lia|]. split; [|reflexivity].
    rewrite <- (firstn_skipn n (sparams s)), nth_error_app1; [exact H|rewrite firstn_length; lia].
  - intros (i & p & L & H & <-). exists p. split; [reflexivity|].
    apply nth_error_In with (n := i). rewrite <- (firstn_skipn n (sparams s)) in H.
    assert (i < List.length (sparams s)).
    { rewrite <- (firstn_skipn n (sparams s)). apply nth_error_Some. congruence. }
    rewrite nth_error_app1 in H; [exact H|rewrite firstn_length; lia].
Qed.

Lemma rmapM_err {A B} (f : A -> result B) (e : exc) l : (forall x e', f x = Err e' -> e' = e) ->
  (exists r, rmapM f l = Ok r) \/ (rmapM f l = Err e /\ exists x, In x l /\ f x = Err e).
Proof.
  intros H. induction l as [|x l IH]; [left; exists []; reflexivity|]. cbn [rmapM].
  destruct (f x) as [y|e'] eqn:E.
  - cbn [rbind]. destruct IH as [[r Hr]|[Hr (z & Z1 & Z2)]].
    + rewrite Hr. left. eexists; reflexivity.
    + rewrite Hr. right. split; [reflexivity|]. exists z. split; [right; exact Z1|exact Z2].
  - rewrite (H x e' E) in E |- *. right. split; [reflexivity|]. exists x. split; [left; reflexivity|exact E].
Qed.

Lemma dget_app (a b : args) k : dget k (a ++ b) = match dget k a with Some v => Some v | None => dget k b end.
Proof. induction a as [|[k' v] a IH]; [reflexivity|]. cbn. destruct (eq_dec k k'); [reflexivity|exact IH]. Qed.
Lemma dget_filter (f : string -> bool) (d : args) k : dget k (filter (fun kv => f (fst kv)) d) = if f k then dget k d else None.
Proof.
  induction d as [|[k' v] d IH]; [destruct (f k); reflexivity|]. cbn [filter fst]. destruct (f k') eqn:E; cbn [dget].
  - destruct (eq_dec k k') as [-> |N]; [rewrite E; reflexivity|exact IH].
  - destruct (eq_dec k k') as [-> |N]; [rewrite IH, E; reflexivity|exact IH].
Qed.

Lemma callMethod_spec n (s : signature V) (kw : args) : ProperSignature s -> wfdict kw ->
  (exists env, callMethod n s kw = Ok env /\ Callable n s (fun k => dget k kw) /\ Receives n s (fun k => dget k kw) env) \/
  (callMethod n s kw = Err TypeErr /\ ~ Callable n s (fun k => dget k kw)).
Proof.
  intros Hs Hw. unfold callMethod.
  destruct (existsb (fun k => mem k (given n s)) (dkeys kw)) eqn:E1.
  { right. split; [reflexivity|]. intros [C _]. apply existsb_exists in E1. destruct E1 as (k & K1 & K2).
    apply mem_In in K2. pose proof (proj1 (dget_key k kw) K1) as [v Hv]. destruct (C k v Hv) as [(p & P1 & P2)|[_ P]].
    - apply (given_rest_disjoint n s k Hs K2). rewrite <- P2. apply in_map, Param_rest, P1.
    - apply given_iff in K2. destruct K2 as (i & p & L & H & Hp). exact (P i p L H Hp). }
  destruct (negb (svarkw s) && existsb (fun k => negb (mem k (map pname (rest n s)))) (dkeys kw)) eqn:E2.
  { right. split; [reflexivity|]. intros [C _]. apply andb_true_iff in E2. destruct E2 as [F1 F2].
    apply negb_true_iff in F1. apply existsb_exists in F2. destruct F2 as (k & K1 & K2). apply negb_true_iff in K2.
    pose proof (proj1 (dget_key k kw) K1) as [v Hv]. destruct (C k v Hv) as [(p & P1 & P2)|[P _]]; [|congruence].
    assert (mem k (map pname (rest n s)) = true); [|congruence].
    apply mem_In. rewrite <- P2. apply in_map, Param_rest, P1. }
  assert (G : forall k v, dget k kw = Some v ->
     (exists p, Param n s p /\ pname p = k) \/
     (svarkw s = true /\ forall i p, i < n -> nth_error (sparams s) i = Some p -> pname p <> k)).
  { intros k v Hk. assert (Kin : In k (dkeys kw)) by (apply dget_key; eauto).
    destruct (mem k (map pname (rest n s))) eqn:M.
    - left. apply mem_In in M. apply in_map_iff in M. destruct M as (p & P1 & P2). exists p.
      split; [apply Param_rest; exact P2|exact P1].
    - right. split.
      + destruct (svarkw s) eqn:W; [reflexivity|]. exfalso.
        assert (T : existsb (fun k => negb (mem k (map pname (rest n s)))) (dkeys kw) = true)
          by (apply existsb_exists; exists k; split; [exact Kin|rewrite M; reflexivity]).
        rewrite T in E2. discriminate.
      + intros i p L H Hp. assert (T : existsb (fun k => mem k (given n s)) (dkeys kw) = true); [|congruence].
        apply existsb_exists. exists k. split; [exact Kin|]. apply mem_In, given_iff. exists i, p. auto. }
  set (f := fun p : param V => match dget (pname p) kw with
                           | Some v => Ok (pname p, v)
                           | None => match pdefault p with Some v => Ok (pname p, v) | None => Err TypeErr end
                           end).
  destruct (rmapM_err f TypeErr (rest n s)) as [[r Hr]|[Hr (p & P1 & P2)]].
  { intros p e'. unfold f. destruct (dget (pname p) kw); [discriminate|]. destruct (pdefault p); congruence. }
  - left. rewrite Hr. cbn [rbind]. eexists; split; [reflexivity|].
    assert (Hl := rmapM_ok_length _ _ Hr).
    assert (F : forall i p, nth_error (rest n s) i = Some p -> exists v, nth_error r i = Some (pname p, v) /\
                match dget (pname p) kw with Some v => Some v | None => pdefault p end = Some v).
    { intros i p Hp. destruct (rmapM_ok_nth _ _ Hr i Hp) as (y & P1 & P2).
      unfold f in P2. destruct (dget (pname p) kw) as [v|].
      - injection P2 as <-. exists v. auto.
      - destruct (pdefault p) as [v|]; [|discriminate]. injection P2 as <-. exists v. auto. }
    assert (K : map fst r = map pname (rest n s)).
    { apply nth_error_ext. intros i. rewrite !nth_error_map. destruct (nth_error (rest n s) i) as [p|] eqn:Hp.
      - destruct (F i p Hp) as (v & Hv & _). rewrite Hv. reflexivity.
      - destruct (nth_error r i) eqn:Y; [|reflexivity]. exfalso.
        apply nth_error_None in Hp. assert (i < List.length r) by (apply nth_error_Some; congruence). lia. }
    assert (W : wfdict r) by (unfold wfdict, dkeys; rewrite K; apply NoDup_rest; exact Hs).
    split; [split; [exact G|]|split].
    + intros p Hp D. apply Param_rest, In_nth_error in Hp. destruct Hp as [i Hi].
      destruct (F i p Hi) as (v & _ & Hv). rewrite D in Hv. exists v. destruct (dget (pname p) kw); [exact Hv|discriminate].
    + intros p Hp. apply Param_rest, In_nth_error in Hp. destruct Hp as [i Hi].
      destruct (F i p Hi) as (v & H1 & H2). rewrite dget_app.
      assert (X : dget (pname p) r = Some v) by (apply In_dget; [exact W|apply nth_error_In with (n := i); exact H1]).
      rewrite X, H2. reflexivity.
    + intros k Hk. rewrite dget_app. assert (X : dget k r = None).
      { apply dget_None. unfold dkeys. rewrite K. intros T. apply in_map_iff in T. destruct T as (p & P1 & P2).
        apply (Hk p); [apply Param_rest; exact P2|exact P1]. }
      rewrite X. rewrite (dget_filter (fun k => negb (mem k (map pname (rest n s)))) kw k).
      destruct (mem k (map pname (rest n s))) eqn:M; [|reflexivity]. exfalso.
      apply mem_In, in_map_iff in M. destruct M as (p & P1 & P2). apply (Hk p); [apply Param_rest; exact P2|exact P1].
  - right. rewrite Hr. split; [reflexivity|]. intros [_ C]. unfold f in P2.
    destruct (dget (pname p) kw) eqn:D; [discriminate|]. destruct (pdefault p) eqn:D2; [discriminate|].
    apply Param_rest in P1. destruct (C p P1 D2) as [v Hv]. cbn in Hv. congruence.
Qed.
End P.
