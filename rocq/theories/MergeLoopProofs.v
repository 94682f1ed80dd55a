(** Proofs about the loops of merge (C16). *)
From Verif Require Import Base NamesModel TableModel MatchModel MatchSpec MatchProofs ElementsCalcProofs MergeModel.
Open Scope nat_scope.

(** ** lists *)
Lemma at_nth l i v : nth_error l i = Some v -> at_ l i = v.
Proof. intros H. unfold at_. apply nth_error_nth. exact H. Qed.
Lemma map_combine_seq {A B} (f : nat -> A -> B) (d : A) l : forall a,
  map (fun p => f (fst p) (snd p)) (combine (seq a (List.length l)) l) = map (fun i => f (a + i) (nth i l d)) (seq 0 (List.length l)).
Proof.
  induction l as [|x l IH]; intros a; cbn; [reflexivity|]. rewrite IH, Nat.add_0_r. f_equal. rewrite <- seq_shift, map_map. apply map_ext. intros i. f_equal. lia.
Qed.
Lemma mapi_seq {A B} (f : nat -> A -> B) (d : A) l : mapi f l = map (fun i => f i (nth i l d)) (seq 0 (List.length l)).
Proof. unfold mapi. rewrite (map_combine_seq f d l 0). reflexivity. Qed.
Lemma map_at_seq l : map (at_ l) (seq 0 (List.length l)) = l.
Proof. induction l as [|x l IH]; cbn; [reflexivity|]. rewrite <- seq_shift, map_map. f_equal. exact IH. Qed.
Lemma filter_map_eq {A B} (g : A -> B) (f : B -> bool) l : filter f (map g l) = map g (filter (fun x => f (g x)) l).
Proof. induction l as [|x l IH]; cbn; [reflexivity|]. rewrite IH. destruct (f (g x)); reflexivity. Qed.
Lemma indexOf_some x l k : indexOf x l = Some k -> nth_error l k = Some x.
Proof.
  revert k. induction l as [|y l IH]; cbn; intros k H; [discriminate|]. destruct (Nat.eqb_spec x y) as [->|].
  - injection H as <-. reflexivity.
  - destruct (indexOf x l) as [k'|]; [|discriminate]. injection H as <-. apply IH. reflexivity.
Qed.
Lemma indexOf_none x l : indexOf x l = None <-> ~ In x l.
Proof.
  induction l as [|y l IH]; cbn; [tauto|]. destruct (Nat.eqb_spec x y) as [->|N]; [split; [discriminate|tauto]|].
  destruct (indexOf x l); cbn; split; try discriminate; intros H; try tauto.
  - exfalso. apply H. right. destruct IH as [_ IH]. destruct (in_dec Nat.eq_dec x l) as [I|I]; [exact I|]. specialize (IH I). discriminate.
  - intros [E|I]; [congruence|]. apply (proj1 IH eq_refl I).
Qed.
Lemma indexOf_nth x l k : NoDup l -> nth_error l k = Some x -> indexOf x l = Some k.
Proof.
  intros ND H. destruct (indexOf x l) as [k'|] eqn:E.
  - apply indexOf_some in E. f_equal. apply (proj1 (NoDup_nth_error l) ND); [apply nth_error_lt in E; exact E|congruence].
  - exfalso. apply indexOf_none in E. apply E. eapply nth_error_In. exact H.
Qed.
Lemma isNaN_spec v : isNaN v = true <-> v = PNaN.
Proof.
  unfold isNaN, pyNe. pose proof (pyEq_self v) as H. destruct (pyEq v v); cbn; split; intros E; try discriminate; try reflexivity.
  - subst. destruct H as [H _]. specialize (H eq_refl). congruence.
  - destruct v; try reflexivity; exfalso; assert (false = true) by (apply H; discriminate); discriminate.
Qed.
Lemma Same_sym a b : Same a b -> Same b a.
Proof. intros H; inversion H; subst; try constructor. eapply same_num; eauto. symmetry. assumption. Qed.
Lemma pyEq_sym a b : pyEq a b = pyEq b a.
Proof.
  destruct (pyEq a b) eqn:E; symmetry.
  - apply pyEq_spec, Same_sym, pyEq_spec. exact E.
  - destruct (pyEq b a) eqn:E'; [|reflexivity]. apply pyEq_spec, Same_sym, pyEq_spec in E'. congruence.
Qed.
Lemma pyEq_trans a b c : pyEq a b = true -> pyEq b c = true -> pyEq a c = true.
Proof. rewrite !pyEq_spec. apply Same_trans. Qed.
Lemma pyEq_left a b c : pyEq a b = true -> pyEq a c = pyEq b c.
Proof.
  intros H. destruct (pyEq a c) eqn:E, (pyEq b c) eqn:E'; try reflexivity.
  - rewrite pyEq_sym in H. rewrite (pyEq_trans _ _ _ H E) in E'. discriminate.
  - rewrite (pyEq_trans _ _ _ H E') in E. discriminate.
Qed.

(** ** rows and columns *)
(** value of a column for a pair of optional rows *)
Definition val (r : option (list pval) * option (list pval)) (c : option nat * option nat) : pval :=
  match (match fst r, fst c with Some x, Some p => Some (at_ x p) | _, _ => None end),
        (match snd r, snd c with Some x, Some q => Some (at_ x q) | _, _ => None end) with
  | Some PNaN, Some w => w
  | Some v, _ => v
  | None, Some w => w
  | None, None => PNaN
  end.
Section Loop.
Variables (pL pR : list nat) (onL onR : nat) (right : list (list pval)) (wl wr : nat).
Hypothesis HL : List.length pL = List.length pR.
Hypothesis NDL : NoDup pL.
Hypothesis NDR : NoDup pR.
Hypothesis BL : forall p, In p pL -> p < wl.
Hypothesis BR : forall q, In q pR -> q < wr.
Hypothesis HR : forall r, In r right -> List.length r = wr.

Definition lookup (p : nat) : option nat := option_map (fun k => nth k pR 0) (indexOf p pL).
Definition restR : list nat := filter (fun i => negb (mem i pR)) (seq 0 wr).
Definition pcols : list (option nat * option nat) :=
  map (fun p => (Some p, lookup p)) (seq 0 wl) ++ map (fun q => (None, Some q)) restR.

Lemma fillNaN_val l r : List.length l = wl -> fillNaN pL pR l r = map (fun p => val (Some l, Some r) (Some p, lookup p)) (seq 0 wl).
Proof.
  intros E. unfold fillNaN. rewrite (mapi_seq _ PNaN), E. apply map_ext. intros p. unfold val, lookup. cbn [fst snd]. change (nth p l PNaN) with (at_ l p).
  destruct (at_ l p) eqn:V; try (match goal with |- (if isNaN ?v then _ else _) = _ => replace (isNaN v) with false by (symmetry; apply not_true_is_false; rewrite isNaN_spec; discriminate) end; reflexivity).
  replace (isNaN PNaN) with true by reflexivity. destruct (indexOf p pL); reflexivity.
Qed.
Lemma unmatched_val o r : List.length r = wr -> unmatched pR r = map (fun q => val (o, Some r) (None, Some q)) restR.
Proof. intros E. unfold unmatched, pick, restR. rewrite E. apply map_ext. intros q. unfold val. cbn. destruct o; reflexivity. Qed.
Lemma both_val l r : List.length l = wl -> List.length r = wr -> fillNaN pL pR l r ++ unmatched pR r = map (val (Some l, Some r)) pcols.
Proof. intros A B. unfold pcols. rewrite map_app, !map_map, (fillNaN_val l r A), (unmatched_val (Some l) r B). reflexivity. Qed.
Lemma filter_length_split {A} (f : A -> bool) l : List.length (filter f l) + List.length (filter (fun x => negb (f x)) l) = List.length l.
Proof. induction l as [|x l IH]; cbn; [reflexivity|]. destruct (f x); cbn; lia. Qed.
Lemma restR_length : List.length restR = wr - List.length pR.
Proof.
  pose proof (filter_length_split (fun i => mem i pR) (seq 0 wr)) as H. rewrite seq_length in H. unfold restR.
  enough (List.length (filter (fun i => mem i pR) (seq 0 wr)) = List.length pR) by lia.
  apply Nat.le_antisymm; apply NoDup_incl_length.
  - apply NoDup_filter, seq_NoDup.
  - intros x Hx. apply filter_In in Hx. apply mem_In. apply Hx.
  - exact NDR.
  - intros x Hx. apply filter_In. split; [apply in_seq; specialize (BR x Hx); lia|apply mem_In; exact Hx].
Qed.
Lemma left_val l : List.length l = wl -> l ++ repeat PNaN (wr - List.length pR) = map (val (Some l, None)) pcols.
Proof.
  intros E. unfold pcols. rewrite map_app, !map_map. f_equal.
  - rewrite <- (map_at_seq l) at 1. rewrite E. apply map_ext. intros p. unfold val. cbn [fst snd]. destruct (lookup p); destruct (at_ l p); reflexivity.
  - rewrite <- restR_length. induction restR as [|x xs IH]; cbn; [reflexivity|]. f_equal. exact IH.
Qed.
Lemma fold_upd_length {A B} (f : B -> A) (ps : list (nat * B)) acc :
  List.length (fold_left (fun acc p => upd acc (fst p) (f (snd p))) ps acc) = List.length acc.
Proof. revert acc. induction ps as [|p ps IH]; intros acc; cbn; [reflexivity|]. rewrite IH, upd_length. reflexivity. Qed.
Lemma fold_upd_nth (row : list pval) : forall l r acc p, NoDup l -> List.length l = List.length r -> p < List.length acc ->
  nth p (fold_left (fun acc x => upd acc (fst x) (at_ row (snd x))) (combine l r) acc) PNaN =
  match indexOf p l with Some k => at_ row (nth k r 0) | None => nth p acc PNaN end.
Proof.
  induction l as [|x l IH]; intros [|y r] acc p ND E Hp; try discriminate E; cbn [combine fold_left indexOf]; [reflexivity|]. inversion ND; subst.
  rewrite (IH r _ p); [|assumption|injection E; auto|rewrite upd_length; exact Hp]. cbn [fst snd]. destruct (Nat.eqb_spec p x) as [->|N].
  - assert (Hn : indexOf x l = None) by (apply indexOf_none; assumption). rewrite Hn. cbn. apply nth_error_nth. apply nth_error_upd_same. exact Hp.
  - destruct (indexOf p l); cbn; [reflexivity|]. destruct (nth_error_is_some acc Hp) as [v V]. rewrite (nth_error_nth _ _ _ V). apply nth_error_nth. rewrite nth_error_upd_other; [exact V|congruence].
Qed.
Lemma nth_map_seq {A} (f : nat -> A) n (l : list A) d : List.length l = n -> (forall p, p < n -> nth p l d = f p) -> l = map f (seq 0 n).
Proof.
  intros E H. apply (nth_ext _ _ d d); [rewrite map_length, seq_length; exact E|]. intros p Hp. rewrite E in Hp.
  rewrite (H p Hp), (nth_indep _ d (f 0)) by (rewrite map_length, seq_length; exact Hp). rewrite map_nth, seq_nth by exact Hp. reflexivity.
Qed.
Lemma right_val r : List.length r = wr -> rightRow pL pR wl r = map (val (None, Some r)) pcols.
Proof.
  intros E. unfold rightRow, pcols. rewrite map_app, !map_map. f_equal.
  - apply (nth_map_seq _ _ _ PNaN); [rewrite fold_upd_length, repeat_length; reflexivity|]. intros p Hp.
    rewrite fold_upd_nth; [|exact NDL|exact HL|rewrite repeat_length; exact Hp]. unfold val, lookup. cbn [fst snd]. destruct (indexOf p pL) as [k|]; cbn; [reflexivity|].
    rewrite nth_repeat. reflexivity.
  - rewrite (unmatched_val None r E). reflexivity.
Qed.

(** ** the dict of matches *)
Lemma mapperGet_set k v d k' : mapperGet k' (mapperSet k v d) = if pyEq k k' && (match k with PNaN => false | _ => true end) then Some v else mapperGet k' d.
Proof.
  assert (NK : forall x, pyEq PNaN x = false) by (intros x; apply not_true_is_false; rewrite pyEq_spec; intros H; inversion H; subst; match goal with I : IsNumber PNaN _ |- _ => inversion I end).
  replace (pyEq k k' && _) with (pyEq k k') by (destruct k; rewrite ?andb_true_r; auto; rewrite NK; reflexivity).
  unfold mapperGet. induction d as [|[a b] d IH]; cbn.
  - destruct (pyEq k k'); reflexivity.
  - destruct (pyEq a k) eqn:E; cbn.
    + rewrite (pyEq_left a k k' E). destruct (pyEq k k'); reflexivity.
    + destruct (pyEq a k') eqn:E'; cbn.
      * destruct (pyEq k k') eqn:E''; [|reflexivity]. rewrite pyEq_sym in E''. rewrite (pyEq_trans _ _ _ E' E'') in E. discriminate.
      * exact IH.
Qed.
Lemma matchesOf_key pt pt' : pyEq (at_ pt onL) (at_ pt' onL) = true -> matchesOf onL onR right pt = matchesOf onL onR right pt'.
Proof. intros H. unfold matchesOf. apply filter_ext. intros r. rewrite (pyEq_sym _ (at_ pt onL)), (pyEq_sym _ (at_ pt' onL)). apply pyEq_left. exact H. Qed.
Lemma matchesOf_NaN pt r t : matchesOf onL onR right pt = r :: t -> at_ pt onL <> PNaN.
Proof.
  intros H E. assert (I : In r (matchesOf onL onR right pt)) by (rewrite H; left; reflexivity). unfold matchesOf in I. apply filter_In in I. destruct I as [_ I]. rewrite E in I.
  apply pyEq_spec in I. inversion I; subst; match goal with I : IsNumber PNaN _ |- _ => inversion I end.
Qed.
Lemma buildMapper_spec left pt : In pt left ->
  mapperGet (at_ pt onL) (buildMapper onL onR right left) = match matchesOf onL onR right pt with [] => None | ms => Some ms end.
Proof.
  set (step := fun d q => match matchesOf onL onR right q with [] => d | m => mapperSet (at_ q onL) m d end).
  assert (G : forall l d k, (forall q, In q l -> pyEq (at_ q onL) k = false \/ matchesOf onL onR right q = []) -> mapperGet k (fold_left step l d) = mapperGet k d).
  { induction l as [|q l IH]; intros d k H; cbn; [reflexivity|]. rewrite IH by (intros; apply H; right; assumption). unfold step. destruct (matchesOf onL onR right q) as [|r t] eqn:E; [reflexivity|].
    rewrite mapperGet_set. destruct (H q (or_introl eq_refl)) as [F|F]; [rewrite F; reflexivity|congruence]. }
  assert (K : forall l d ms, In pt l -> matchesOf onL onR right pt = ms -> ms <> [] -> mapperGet (at_ pt onL) (fold_left step l d) = Some ms).
  { induction l as [|q l IH]; intros d ms I E N; [contradiction|]. cbn.
    destruct (existsb (fun x => pyEq (at_ x onL) (at_ pt onL)) l) eqn:X.
    - clear IH I. revert E N. revert X. revert ms. generalize (step d q). clear d q. induction l as [|q l IH]; intros d ms X E N; [discriminate|]. cbn in X |- *.
      destruct (existsb (fun x => pyEq (at_ x onL) (at_ pt onL)) l) eqn:X'.
      + apply IH; auto.
      + rewrite orb_false_r in X. rewrite G.
        * unfold step. rewrite (matchesOf_key q pt X), E. destruct ms as [|r t]; [congruence|]. rewrite mapperGet_set, X. pose proof (matchesOf_NaN pt r t E) as NN.
          assert (NQ : at_ q onL <> PNaN) by (apply (matchesOf_NaN q r t); rewrite (matchesOf_key q pt X); exact E). destruct (at_ q onL); try reflexivity. congruence.
        * intros x Hx. left. destruct (pyEq (at_ x onL) (at_ pt onL)) eqn:Y; [|reflexivity]. rewrite <- X'. symmetry. apply existsb_exists. eauto.
    - assert (NE : forall x, In x l -> pyEq (at_ x onL) (at_ pt onL) = false).
      { intros x Hx. destruct (pyEq (at_ x onL) (at_ pt onL)) eqn:Y; [|reflexivity]. rewrite <- X. symmetry. apply existsb_exists. eauto. }
      rewrite G by (intros x Hx; left; auto). destruct ms as [|r t]; [congruence|]. pose proof (matchesOf_NaN pt r t E) as NN.
      destruct I as [->|I]; [|specialize (NE pt I); apply pyEq_self in NN; congruence].
      unfold step. rewrite E, mapperGet_set. replace (pyEq (at_ pt onL) (at_ pt onL)) with true by (symmetry; apply pyEq_self; exact NN). destruct (at_ pt onL); try reflexivity. congruence. }
  intros I. unfold buildMapper. fold step. destruct (matchesOf onL onR right pt) as [|r t] eqn:E.
  - rewrite G; [reflexivity|]. intros q Hq. destruct (pyEq (at_ q onL) (at_ pt onL)) eqn:Y; [right|left; reflexivity]. rewrite (matchesOf_key q pt Y). exact E.
  - apply K; auto. discriminate.
Qed.

(** ** the matches of one point *)
Definition noNaN (l : list pval) : Prop := forall p, In p pL -> at_ l p <> PNaN.
Lemma fillNaN_same l r : List.length l = wl -> noNaN l -> fillNaN pL pR l r = l.
Proof.
  intros E N. rewrite (fillNaN_val l r E). transitivity (map (at_ l) (seq 0 wl)); [|rewrite <- E; apply map_at_seq]. apply map_ext_in. intros p _. unfold val, lookup. cbn [fst snd].
  destruct (indexOf p pL) as [k|] eqn:I; cbn; [|destruct (at_ l p); reflexivity]. apply indexOf_some, nth_error_In in I. specialize (N p I). destruct (at_ l p); try reflexivity. congruence.
Qed.
Lemma fillNaN_length l r : List.length (fillNaN pL pR l r) = List.length l.
Proof. unfold fillNaN. rewrite (mapi_seq _ PNaN), map_length, seq_length. reflexivity. Qed.
Lemma mergeMatches_spec ms : forall l, List.length l = wl -> (forall r, In r ms -> List.length r = wr) -> (List.length ms <= 1 \/ noNaN l) ->
  let '(l', res) := mergeMatches pL pR l ms in
  List.length l' = wl /\
  res = if forallb (acceptable pL pR l) ms then Ok (map (fun r => map (val (Some l, Some r)) pcols) ms) else Err InvalidArgumentValue.
Proof.
  induction ms as [|r ms IH]; intros l E HM C; cbn [mergeMatches forallb map]; [split; [exact E|reflexivity]|].
  destruct (acceptable pL pR l r) eqn:A; cbn [andb]; [|split; [exact E|reflexivity]].
  assert (Er : List.length r = wr) by (apply HM; left; reflexivity).
  destruct C as [C|C].
  - destruct ms as [|? ?]; [|cbn in C; lia]. cbn. rewrite (both_val l r E Er). split; [rewrite fillNaN_length; exact E|reflexivity].
  - specialize (IH l E (fun x Hx => HM x (or_intror Hx)) (or_intror C)). rewrite <- (both_val l r E Er). rewrite (fillNaN_same l r E C). destruct (mergeMatches pL pR l ms) as [fin res]. destruct IH as [F ->]. split; [exact F|].
    destruct (forallb _ ms); cbn; reflexivity.
Qed.

(** ** all points of self *)
Definition leftPart (point : how) (l : list pval) : list (option (list pval) * option (list pval)) :=
  match matchesOf onL onR right l, point with
  | [], Intersection => []
  | [], _ => [(Some l, None)]
  | ms, _ => map (fun r => (Some l, Some r)) ms
  end.
Definition ok1 (l : list pval) : bool := forallb (acceptable pL pR l) (matchesOf onL onR right l).
Lemma leftLoop_spec point mapper left : (forall l, In l left -> List.length l = wl /\ (List.length (matchesOf onL onR right l) <= 1 \/ noNaN l)) ->
  (forall l, In l left -> mapperGet (at_ l onL) mapper = match matchesOf onL onR right l with [] => None | ms => Some ms end) ->
  let '(l', res) := leftLoop pL pR onL point (wr - List.length pR) mapper left in
  List.length l' = List.length left /\ (forall x, In x l' -> List.length x = wl) /\
  res = if forallb ok1 left then
          Ok (map (fun rw => map (val rw) pcols) (flat_map (leftPart point) left),
              map (fun l => at_ l onL) (filter (fun l => match matchesOf onL onR right l with [] => false | _ => true end) left))
        else Err InvalidArgumentValue.
Proof.
  induction left as [|l left IH]; intros HW HM; cbn [leftLoop forallb flat_map filter map]; [split; [reflexivity|split; [intros x []|reflexivity]]|].
  destruct (HW l (or_introl eq_refl)) as [El Cl]. rewrite (HM l (or_introl eq_refl)).
  assert (IH' := IH (fun x Hx => HW x (or_intror Hx)) (fun x Hx => HM x (or_intror Hx))). clear IH.
  assert (HMr : forall r, In r (matchesOf onL onR right l) -> List.length r = wr) by (intros r Hr; apply HR; unfold matchesOf in Hr; apply filter_In in Hr; apply Hr).
  unfold ok1 at 1, leftPart at 1. destruct (matchesOf onL onR right l) as [|r ms] eqn:EM.
  - cbn [forallb andb]. destruct (leftLoop pL pR onL point (wr - List.length pR) mapper left) as [t' res]. destruct IH' as [A [B ->]].
    split; [cbn; lia|]. split; [intros x [<-|Hx]; auto|]. destruct (forallb ok1 left); cbn [rmap]; [|reflexivity]. cbn [fst snd]. rewrite map_app. destruct point; cbn [map]; rewrite <- ?(left_val l El); reflexivity.
  - pose proof (mergeMatches_spec (r :: ms) l El HMr Cl) as MM. destruct (mergeMatches pL pR l (r :: ms)) as [l2 res2]. destruct MM as [L2 ->].
    destruct (forallb (acceptable pL pR l) (r :: ms)) eqn:AC; cbn [andb].
    + destruct (leftLoop pL pR onL point (wr - List.length pR) mapper left) as [t' res]. destruct IH' as [A [B ->]].
      split; [cbn; lia|]. split; [intros x [<-|Hx]; auto|]. destruct (forallb ok1 left); cbn [rmap]; [|reflexivity]. cbn [fst snd]. rewrite map_app, map_map. destruct point; reflexivity.
    + split; [reflexivity|]. split; [|reflexivity]. intros x [<-|Hx]; [exact L2|]. apply (HW x (or_intror Hx)).
Qed.
Lemma rightLoop_spec point left :
  rightLoop pL pR onR right point wl (map (fun l => at_ l onL) (filter (fun l => match matchesOf onL onR right l with [] => false | _ => true end) left)) =
  map (fun rw => map (val rw) pcols)
    (match point with Union => map (fun r => (None, Some r)) (filter (fun r => negb (existsb (fun l => pyEq (at_ r onR) (at_ l onL)) left)) right) | _ => [] end).
Proof.
  unfold rightLoop. destruct point; try reflexivity. rewrite map_map.
  rewrite (filter_ext_in (fun row => negb (inList (at_ row onR) (map (fun l => at_ l onL) (filter (fun l => match matchesOf onL onR right l with [] => false | _ => true end) left))))
     (fun r => negb (existsb (fun l => pyEq (at_ r onR) (at_ l onL)) left))).
  - apply map_ext_in. intros r Hr. apply right_val. apply HR. apply filter_In in Hr. apply Hr.
  - intros r Hr. f_equal. apply eq_true_iff_eq. unfold inList. rewrite !existsb_exists. split.
    + intros [x [Hx Hx']]. apply in_map_iff in Hx. destruct Hx as [l [<- Hl]]. apply filter_In in Hl. destruct Hl as [Hl Hm]. exists l. split; [exact Hl|].
      apply orb_prop in Hx'. destruct Hx' as [Hx'|Hx']; [|exact Hx']. destruct (matchesOf onL onR right l) as [|r0 ms] eqn:E; [discriminate|]. pose proof (matchesOf_NaN l r0 ms E) as NN.
      unfold identical in Hx'. destruct (at_ r onR); try discriminate Hx'; destruct (at_ l onL); try discriminate Hx'; try congruence; reflexivity.
    + intros [l [Hl H]]. exists (at_ l onL). rewrite H, orb_true_r. split; [|reflexivity]. apply in_map_iff. exists l. split; [reflexivity|]. apply filter_In. split; [exact Hl|].
      destruct (matchesOf onL onR right l) as [|r0 ms] eqn:E; [|reflexivity]. exfalso. assert (I : In r (matchesOf onL onR right l)) by (unfold matchesOf; apply filter_In; auto). rewrite E in I. exact I.
Qed.
End Loop.

(** ** the whole join of the prepared rows *)
Definition rowJoin (point : how) (onL onR : nat) (left right : list (list pval)) : list (option (list pval) * option (list pval)) :=
  flat_map (leftPart onL onR right point) left ++
  match point with Union => map (fun r => (None, Some r)) (filter (fun r => negb (existsb (fun l => pyEq (at_ r onR) (at_ l onL)) left)) right) | _ => [] end.
Lemma mergeRows_spec point names p wl wr :
  List.length (pL p) = List.length (pR p) -> NoDup (pL p) -> NoDup (pR p) -> (forall x, In x (pL p) -> x < wl) -> (forall x, In x (pR p) -> x < wr) ->
  (forall r, In r (pRight p) -> List.length r = wr) -> (forall l, In l (pLeft p) -> List.length l = wl) -> pRight p <> [] -> pLeft p <> [] ->
  (forall l, In l (pLeft p) -> List.length (matchesOf (onL p) (onR p) (pRight p) l) <= 1 \/ noNaN (pL p) l) ->
  let cols := pcols (pL p) (pR p) wl wr in
  let out := map (fun rw => map (val rw) cols) (rowJoin point (onL p) (onR p) (pLeft p) (pRight p)) in
  if forallb (ok1 (pL p) (pR p) (onL p) (onR p) (pRight p)) (pLeft p) then
    mergeRows point names p = (if names then map (skipn 1) out else out, Ok (if names then List.length cols - 1 else List.length cols))
  else exists l', mergeRows point names p = (l', Err InvalidArgumentValue).
Proof.
  intros HL NDL NDR BL BR HR HLw NR NL NF cols out. unfold mergeRows.
  assert (WR : width (pRight p) = Ok wr) by (destruct (pRight p) as [|r ?]; [congruence|]; cbn; rewrite (HR r (or_introl eq_refl)); reflexivity). rewrite WR.
  pose proof (leftLoop_spec (pL p) (pR p) (onL p) (onR p) (pRight p) wl wr HL NDR BR HR point (buildMapper (onL p) (onR p) (pRight p) (pLeft p)) (pLeft p)
    (fun l Hl => conj (HLw l Hl) (NF l Hl)) (fun l Hl => buildMapper_spec (onL p) (onR p) (pRight p) (pLeft p) l Hl)) as LL.
  destruct (leftLoop (pL p) (pR p) (onL p) point (wr - List.length (pR p)) _ (pLeft p)) as [l' res]. destruct LL as [L1 [L2 ->]].
  destruct (forallb _ (pLeft p)); [|eexists; reflexivity].
  assert (WL : width l' = Ok wl).
  { destruct l' as [|x l'']; [destruct (pLeft p); [congruence|discriminate L1]|]. cbn. rewrite (L2 x (or_introl eq_refl)). reflexivity. }
  rewrite WL. rewrite (rightLoop_spec (pL p) (pR p) (onL p) (onR p) (pRight p) wl wr HL NDL HR). rewrite <- map_app. fold (rowJoin point (onL p) (onR p) (pLeft p) (pRight p)). fold cols. fold out.
  assert (LC : List.length cols = wl + (wr - List.length (pR p))) by (unfold cols, pcols; rewrite app_length, !map_length, seq_length, (restR_length (pL p)); auto).
  rewrite LC. destruct names; reflexivity.
Qed.
