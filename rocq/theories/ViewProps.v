(** Properties C19-C21: views, item assignment, replaceRectangle.  Definitions
    used in the statements: ViewSpec.v, PrepSpec.v (subTable), TableSpec.v,
    SparseSpec.v. *)
From Verif Require Import Base NamesModel NamesSpec NamesProofs NamesIndexProofs TableModel TableSpec TableProofs TableOps
  PrepModel PrepSpec PrepProofs SparseModel SparseSpec SparseProofs SparseOpsProofs SparseHistProofs
  ViewModel ViewSpec ViewProofs ViewSetProofs ViewSparseProofs.
Open Scope string_scope.
Open Scope list_scope.
Open Scope nat_scope.

(** ** C19 *)

(** A view exists exactly when the arguments denote a window ... *)
Theorem C19_exists :
  forall V (t : table V) ps pe fs fe, wf t ->
  ((exists v, viewOf t ps pe fs fe = Ok v) <->
   exists p p' f f', Window (tp t) ps pe p p' /\ Window (tf t) fs fe f f').
Proof.
  intros V t ps pe fs fe W. split.
  - intros [v E]. destruct (viewOf_spec V t ps pe fs fe v W E) as [A [B _]]. eauto 8.
  - intros (p & p' & f & f' & A & B). destruct (viewOf_ok V t _ _ _ _ _ _ _ _ W A B) as [v [E _]]. eauto.
Qed.
Print Assumptions C19_exists.
(** ... and then it presents exactly the points and features of that window,
    with their names; reading element (x, y) of it gives the source element
    (p + x, f + y), and an IndexError outside the window. *)
Theorem C19_window :
  forall V (t : table V) ps pe fs fe v, wf t -> viewOf t ps pe fs fe = Ok v ->
  exists p p' f f', Window (tp t) ps pe p p' /\ Window (tf t) fs fe f f' /\
    subTable t (span p p') (span f f') (viewObj t v) /\
    (forall x y, x < p' - p -> y < f' - f -> exists c, cell t (p + x) (f + y) = Some c /\
       viewGet t v (Z.of_nat x) (Z.of_nat y) = Ok c) /\
    (forall x y, (x < 0 \/ Z.of_nat (p' - p) <= x \/ y < 0 \/ Z.of_nat (f' - f) <= y)%Z -> viewGet t v x y = Err IndexErr).
Proof.
  intros V t ps pe fs fe v W E. destruct (viewOf_spec V t ps pe fs fe v W E) as [A [B _]].
  pose proof (viewOf_viewOK V t ps pe fs fe v W E) as OK. pose proof (viewObj_sub V t v W OK) as S.
  pose proof (Window_bounds _ _ _ _ _ (wf_Inv V Pts t W) A) as [P1 [P2 _]]. pose proof (Window_bounds _ _ _ _ _ (wf_Inv V Fts t W) B) as [F1 [F2 _]].
  cbn [ax] in *. exists (vps v), (vpe v), (vfs v), (vfe v). split; [exact A|]. split; [exact B|]. split; [exact S|].
  destruct S as [_ [_ [_ [_ [_ C]]]]]. split.
  - intros x y Hx Hy. rewrite (viewGet_cell V t v _ _ W OK).
    assert (X : ((0 <=? Z.of_nat x) && (0 <=? Z.of_nat y) = true)%Z) by (apply andb_true_iff; split; apply Z.leb_le; lia). rewrite X.
    rewrite !Nat2Z.id, C, !span_nth. assert (X1 : x <? vpe v - vps v = true) by (apply Nat.ltb_lt; lia).
    assert (X2 : y <? vfe v - vfs v = true) by (apply Nat.ltb_lt; lia). rewrite X1, X2.
    destruct (row_of V t (vps v + x) W) as [r [Er [Lr _]]]; [lia|]. unfold cell. rewrite Er.
    destruct (nth_error_is_some r (i := vfs v + y)) as [c Ec]; [lia|]. exists c. rewrite Ec. auto.
  - intros x y Hout. rewrite (viewGet_cell V t v _ _ W OK).
    destruct ((0 <=? x) && (0 <=? y))%Z eqn:Eb; [|reflexivity]. apply andb_true_iff in Eb. rewrite !Z.leb_le in Eb.
    rewrite C, !span_nth. destruct (Z.to_nat x <? vpe v - vps v) eqn:X1; [|reflexivity].
    destruct (Z.to_nat y <? vfe v - vfs v) eqn:X2; [|reflexivity]. apply Nat.ltb_lt in X1, X2. lia.
Qed.
Print Assumptions C19_window.
(** A view stays the same window of its source when the source's elements are
    changed (a List or Matrix view holds no copy). *)
Theorem C19_live_partial :
  forall V (t t' : table V) ps pe fs fe v g, wf t -> viewOf t ps pe fs fe = Ok v -> Becomes t t' g ->
  exists p p' f f', Window (tp t) ps pe p p' /\ Window (tf t) fs fe f f' /\
    subTable t' (span p p') (span f f') (viewObj t' v).
Proof.
  intros V t t' ps pe fs fe v g W E [[EP [EF W']] _]. destruct (viewOf_spec V t ps pe fs fe v W E) as [A [B _]].
  exists (vps v), (vpe v), (vfs v), (vfe v). split; [exact A|]. split; [exact B|]. apply viewObj_sub; [exact W'|].
  apply (viewOK_same V t); auto. eapply viewOf_viewOK; eauto.
Qed.
Print Assumptions C19_live_partial.
(** Nested views, to any depth, with bounds left out or given as non-negative
    indices inside the view: the view of a view (of a view ...) shows what
    cutting the windows out one after the other shows. *)
Theorem C19_nested_partial :
  forall V (t : table V) ps pe fs fe v l u, wf t -> viewOf t ps pe fs fe = Ok v ->
  insideChain (viewObj t v) l -> windowChain (viewObj t v) l = Ok u ->
  exists w, viewChain t v l = Ok w /\ rows (viewObj t w) = rows u /\
    getNames (vpa w) = getNames (tp u) /\ getNames (vfa w) = getNames (tf u).
Proof.
  intros V t ps pe fs fe v l u W E. pose proof (viewOf_viewOK V t ps pe fs fe v W E) as OK.
  apply (view_chain V l t v (viewObj t v) u W OK (viewObj_sub V t v W OK)).
Qed.
Print Assumptions C19_nested_partial.
(** pointView and featureView of a view accept every identifier of the view. *)
Theorem C19_pointView_of_view :
  forall V (t : table V) ps pe fs fe v, wf t -> viewOf t ps pe fs fe = Ok v ->
  (forall id i, Denotes (vpa v) false id (Z.of_nat i) ->
     exists w, pointViewOfView t v id = Ok w /\ subTable (viewObj t v) [i] (seq 0 (alen (vfa v))) (viewObj t w)) /\
  (forall id i, Denotes (vfa v) false id (Z.of_nat i) ->
     exists w, featureViewOfView t v id = Ok w /\ subTable (viewObj t v) (seq 0 (alen (vpa v))) [i] (viewObj t w)).
Proof.
  intros V t ps pe fs fe v W E. pose proof (viewOf_viewOK V t ps pe fs fe v W E) as OK.
  split; intros id i D; [apply pointView_window; auto|apply featureView_window; auto].
Qed.
Print Assumptions C19_pointView_of_view.
(** Sparse: a view of one point or feature holds exactly the elements of the
    window, any other view reads them from the source; the source is
    unchanged. *)
Theorem C19_sparse :
  forall V (EV : EqDec V) (zero : V) (s : sparse V) ps pe fs fe, sinv zero s ->
  ps < pe -> pe <= snp s -> fs < fe -> fe <= snf s ->
  (pe - ps = 1 \/ fe - fs = 1 ->
   let r := vectorView s ps pe fs fe in
   sinv zero (fst r) /\ sameMatrix zero s (fst r) /\
   exists w, snd r = Ok w /\ sinv zero w /\ snp w = pe - ps /\ snf w = fe - fs /\
     forall i j, i < pe - ps -> j < fe - fs -> val zero w i j = val zero s (ps + i) (fs + j)) /\
  (forall i j, i < pe - ps -> j < fe - fs ->
   let r := windowGet zero s ps fs i j in
   sinv zero (fst r) /\ sameMatrix zero s (fst r) /\ snd r = Ok (val zero s (ps + i) (fs + j))).
Proof.
  intros V EV zero s ps pe fs fe HI P1 P2 F1 F2. split.
  - intros H. apply vectorView_spec; auto.
  - intros i j Hi Hj. unfold windowGet. rewrite (Nat.add_comm i), (Nat.add_comm j). cbv zeta.
    destruct (getitem_spec V zero s (ps + i) (fs + j) HI) as [A [B C]]; [lia|lia|]. auto.
Qed.
Print Assumptions C19_sparse.

Definition exV : table nat := mkTable (fst (setNames (fresh 4) (AList [NStr "a"; NStr "b"; NStr "c"; NStr "d"]) ONone))
  (fresh 3) [[1; 2; 3]; [4; 5; 6]; [7; 8; 9]; [10; 11; 12]].
Lemma exV_wf : wf exV.
Proof. split; [reflexivity|]. split; [intros r [<-|[<-|[<-|[<-|[]]]]]; reflexivity|]. split; [apply setNames_list_Inv; exact I|exact (fresh_Inv _)]. Qed.
(** the window from point "b" to the last, features 1 to 2 *)
Definition exReq := (Some (IdStr "b"), @None ident, Some (IdInt (-2)), Some (IdInt 2)).
Definition exView : view :=
  match viewOf exV (Some (IdStr "b")) None (Some (IdInt (-2))) (Some (IdInt 2)) with Ok v => v | Err _ => mkView 0 0 0 0 (fresh 0) (fresh 0) end.
Example C19_example :
  viewOf exV (Some (IdStr "b")) None (Some (IdInt (-2))) (Some (IdInt 2)) = Ok exView /\
  rows (viewObj exV exView) = [[5; 6]; [8; 9]; [11; 12]] /\ getNames (vpa exView) = [Some "b"; Some "c"; Some "d"] /\
  viewGet exV exView 1 0 = Ok 8 /\
  let l := [(Some (IdInt 1), None, None, None); (None, Some (IdInt 0), Some (IdInt 1), None)] : list request in
  insideChain (viewObj exV exView) l /\
  exists u, windowChain (viewObj exV exView) l = Ok u /\ rows u = [[9]].
Proof.
  split; [reflexivity|]. split; [reflexivity|]. split; [reflexivity|]. split; [reflexivity|]. cbv zeta. split.
  - cbn [insideChain]. split; [simpl; lia|]. split; [exact I|]. split; [exact I|]. split; [exact I|].
    intros w Hw. vm_compute in Hw. injection Hw as <-. split; [exact I|]. split; [simpl; lia|]. split; [simpl; lia|]. split; [exact I|].
    intros; exact I.
  - eexists. split; vm_compute; reflexivity.
Qed.
(** The restriction to non-negative in-view indices is needed: a view of a view
    looks identifiers up in the SOURCE and then shifts them. *)
Theorem C19_nested_names_refuted :
  exists (t : table nat) v, wf t /\ viewOf t (Some (IdStr "b")) None None None = Ok v /\
    (* name: v.view("b", "b") shows point "c" *)
    (exists w, viewOfView t v (Some (IdStr "b")) (Some (IdStr "b")) None None = Ok w /\ getNames (vpa w) = [Some "c"]) /\
    (* negative: v.view(-1, None) is rejected although -1 is the last point of v *)
    viewOfView t v (Some (IdInt (-1))) None None None = Err IndexErr /\
    (exists w, viewOf (viewObj t v) (Some (IdInt (-1))) None None None = Ok w).
Proof.
  exists exV. eexists. split; [exact exV_wf|]. split; [vm_compute; reflexivity|].
  split; [eexists; split; [vm_compute; reflexivity|reflexivity]|]. split; [vm_compute; reflexivity|]. eexists. vm_compute. reflexivity.
Qed.
Print Assumptions C19_nested_names_refuted.
(** ... and a view of a view can show what lies outside the first view. *)
Theorem C19_nested_escape_refuted :
  exists (t : table nat) v w, wf t /\ viewOf t (Some (IdInt 1)) (Some (IdInt 1)) None None = Ok v /\
    rows (viewObj t v) = [[4; 5; 6]] /\
    viewOfView t v (Some (IdInt 0)) (Some (IdInt 2)) None None = Ok w /\
    rows (viewObj t w) = [[4; 5; 6]; [7; 8; 9]; [10; 11; 12]].
Proof.
  exists exV. eexists. eexists. split; [exact exV_wf|]. split; [vm_compute; reflexivity|]. split; [reflexivity|].
  split; [vm_compute; reflexivity|]. reflexivity.
Qed.
Print Assumptions C19_nested_escape_refuted.
(** A one-point view of a Sparse object is a copy: it does not follow a change
    of the source. *)
Definition exS : sparse nat := mkSp 3 3 [mkE 2 1 7; mkE 0 2 5; mkE 2 0 6; mkE 1 1 4] None None.
Lemma exS_ok : sinv 0 exS.
Proof.
  split; [split|reflexivity].
  - repeat constructor; simpl; intuition discriminate.
  - simpl. intuition (subst; simpl; auto with arith); discriminate.
Qed.
Theorem C19_sparse_live_refuted :
  exists (s s1 s2 w : sparse nat), sinv 0 s /\ vectorView s 2 3 0 3 = (s1, Ok w) /\
    s2 = fst (setitem 0 s1 2 2 9) /\ val 0 s2 2 2 = 9 /\ val 0 w 0 2 = 0.
Proof. exists exS. eexists. eexists. eexists. split; [exact exS_ok|]. split; [vm_compute; reflexivity|]. split; [reflexivity|]. split; reflexivity. Qed.
Print Assumptions C19_sparse_live_refuted.
Example C19_sparse_example : snd (vectorView exS 0 3 1 2) = Ok (mkSp 3 1 [mkE 1 0 4; mkE 2 0 7] None None).
Proof. reflexivity. Qed.

(** ** C20 *)

(** Every method that modifies an object, called on a view, raises
    ImproperObjectAction and leaves the source alone - item assignment
    excepted, over any history. *)
Theorem C20_methods_partial :
  forall V (k : vkind) (t : table V) v h, Forall realMethod h -> Forall (fun m => isSetItem m = false) h ->
  viewCalls k t v h = (t, map (fun _ => Err ImproperObjectAction) h).
Proof. intros. apply viewCalls_methods; auto. Qed.
Print Assumptions C20_methods_partial.
(** List: no history of calls, item assignments included, changes the source. *)
Theorem C20_list :
  forall V (t : table V) v h, Forall realMethod h -> fst (viewCalls VList t v h) = t.
Proof. intros. apply viewCalls_list; auto. Qed.
Print Assumptions C20_list.
(** Matrix: item assignment through a view changes the source. *)
Theorem C20_matrix_setitem_refuted :
  exists (t : table nat) v t', wf t /\ viewOf t (Some (IdInt 1)) (Some (IdInt 2)) None None = Ok v /\
    viewCall VMatrix t v (MSetItem (SOne (IdInt 0)) (SOne (IdInt 0)) 99) = (t', Ok tt) /\
    cell t 1 0 = Some 4 /\ cell t' 1 0 = Some 99.
Proof.
  exists exV. eexists. eexists. split; [exact exV_wf|]. split; [vm_compute; reflexivity|]. split; [vm_compute; reflexivity|].
  split; reflexivity.
Qed.
Print Assumptions C20_matrix_setitem_refuted.
Example C20_example :
  Forall realMethod [MTranspose; MInPlace "__iadd__"; MAxis Pts AMsort; MSetItem (SOne (IdInt 0)) (SOne (IdInt 0)) 99] /\
  viewCalls VList exV exView [MTranspose; MInPlace "__iadd__"; MAxis Pts AMsort; MSetItem (SOne (IdInt 0)) (SOne (IdInt 0)) 99] =
  (exV, [Err ImproperObjectAction; Err ImproperObjectAction; Err ImproperObjectAction; Err TypeErr]).
Proof. split; [repeat (apply Forall_cons; [simpl; tauto|]); apply Forall_nil|reflexivity]. Qed.

(** ** C21 *)

(** [obj[x, y] = c] with single identifiers sets that element only. *)
Theorem C21_setitem_one :
  forall V (t : table V) ix iy x y c, wf t -> FloatInRange (tp t) ix -> FloatInRange (tf t) iy ->
  Denotes (tp t) true ix (Z.of_nat x) -> Denotes (tf t) true iy (Z.of_nat y) ->
  exists t', setItem t (SOne ix) (SOne iy) c = (t', Ok tt) /\
    Becomes t t' (fun i j => if (i =? x) && (j =? y) then Some c else cell t i j).
Proof. exact setItem_single. Qed.
Print Assumptions C21_setitem_one.
(** Lists of identifiers on both axes, neither of them all points (features)
    in order: exactly the addressed elements change. *)
Theorem C21_setitem_lists_partial :
  forall V (t : table V) ids jds xs ys c, wf t -> 0 < alen (tp t) -> 0 < alen (tf t) ->
  (forall i, In i ids -> FloatInRange (tp t) i) -> (forall i, In i jds -> FloatInRange (tf t) i) ->
  Forall2 (Denotes (tp t) true) ids xs -> NoDup xs -> xs <> map Z.of_nat (seq 0 (alen (tp t))) ->
  Forall2 (Denotes (tf t) true) jds ys -> NoDup ys -> ys <> map Z.of_nat (seq 0 (alen (tf t))) ->
  exists t', setItem t (SMany (KList (map KId ids))) (SMany (KList (map KId jds))) c = (t', Ok tt) /\
    Becomes t t' (fun i j => if mem (Z.of_nat i) xs && mem (Z.of_nat j) ys then Some c else cell t i j).
Proof. exact setItem_ids. Qed.
Print Assumptions C21_setitem_lists_partial.
(** Keys that mix a single identifier with several, or that select a whole
    axis, are documented but raise a TypeError (the object is unchanged). *)
Theorem C21_setitem_keys_refuted :
  (forall V (t : table V) ix k c x ys, getIndex (tp t) ix true = Ok x -> processMultiple (tf t) k = Ok ys ->
     setItem t (SOne ix) (SMany k) c = (t, Err TypeErr)) /\
  (forall V (t : table V) ky c r, resolveKey (tf t) ky = Ok r ->
     setItem t (SMany (KSlice None None None)) ky c = (t, Err TypeErr)) /\
  exists t : table nat, wf t /\
    setItem t (SOne (IdInt 0)) (SMany (KList [KId (IdInt 0); KId (IdInt 2)])) 99 = (t, Err TypeErr) /\
    setItem t (SMany (KSlice None None None)) (SOne (IdInt 0)) 99 = (t, Err TypeErr).
Proof.
  split; [exact setItem_mixed|]. split; [exact setItem_full|]. exists exV. split; [exact exV_wf|]. split; reflexivity.
Qed.
Print Assumptions C21_setitem_keys_refuted.
(** A rejected item assignment may have changed some elements: float
    identifiers are not range checked, so the error comes from the write. *)
Theorem C21_setitem_partial_write_refuted :
  exists (t t' : table nat), wf t /\
    setItem t (SMany (KList [KId (IdInt 0); KId (IdFloat (inject_Z 7))])) (SMany (KList [KId (IdInt 0)])) 99 = (t', Err IndexErr) /\
    cell t 0 0 = Some 1 /\ cell t' 0 0 = Some 99.
Proof. exists exV. eexists. split; [exact exV_wf|]. split; [vm_compute; reflexivity|]. split; reflexivity. Qed.
Print Assumptions C21_setitem_partial_write_refuted.
(** replaceRectangle with a number sets exactly the rectangle from
    (pointStart, featureStart) to (pointEnd, featureEnd), both included, or
    rejects a rectangle with the ends out of order without any change. *)
Theorem C21_rectangle_number :
  forall V (t : table V) c ps fs pe fe p f p' f', wf t ->
  Denotes (tp t) false ps (Z.of_nat p) -> Denotes (tf t) false fs (Z.of_nat f) ->
  Denotes (tp t) false pe (Z.of_nat p') -> Denotes (tf t) false fe (Z.of_nat f') ->
  if (p <=? p') && (f <=? f')
  then exists t', replaceRectangleConst t c ps fs (Some pe) (Some fe) = (t', Ok tt) /\
    Becomes t t' (fun i j => if inRectangle p (S p') f (S f') i j then Some c else cell t i j)
  else replaceRectangleConst t c ps fs (Some pe) (Some fe) = (t, Err InvalidArgumentValueCombination).
Proof. exact replaceConst_spec. Qed.
Print Assumptions C21_rectangle_number.
(** with an object that fits: exactly the rectangle becomes the object.  When
    featureEnd is left out only for square replacements. *)
Theorem C21_rectangle_object_partial :
  forall V (t o : table V) ps fs pe fe p f, wf t -> wf o ->
  Denotes (tp t) false ps (Z.of_nat p) -> Denotes (tf t) false fs (Z.of_nat f) ->
  RectEnd (tp t) p (alen (tp o)) pe -> RectEnd (tf t) f (alen (tf o)) fe ->
  p + alen (tp o) <= alen (tp t) -> f + alen (tf o) <= alen (tf t) ->
  (fe = None -> alen (tp o) = alen (tf o)) ->
  exists t', replaceRectangleObj t o ps fs pe fe = (t', Ok tt) /\
    Becomes t t' (fun i j => if inRectangle p (p + alen (tp o)) f (f + alen (tf o)) i j
                             then cell o (i - p) (j - f) else cell t i j).
Proof. exact replaceObj_spec. Qed.
Print Assumptions C21_rectangle_object_partial.
(** an object that is not as long as the given rectangle is rejected *)
Theorem C21_rectangle_mismatch :
  forall V (t o : table V) ps fs i fe p f e, wf t ->
  Denotes (tp t) false ps (Z.of_nat p) -> Denotes (tf t) false fs (Z.of_nat f) -> Denotes (tp t) false i (Z.of_nat e) ->
  S e <> p + alen (tp o) ->
  replaceRectangleObj t o ps fs (Some i) fe = (t, Err InvalidArgumentValueCombination).
Proof. exact replaceObj_mismatch. Qed.
Print Assumptions C21_rectangle_mismatch.
(** The two restrictions of C21_rectangle_object_partial are needed: with
    featureEnd left out a replacement of one point and two features makes one
    point LONGER; one that sticks out below is accepted, overwrites the points
    it meets and then fails. *)
Theorem C21_rectangle_default_end_refuted :
  exists (t o t' : table nat), wf t /\ wf o /\
    replaceRectangleObj t o (IdInt 0) (IdInt 0) None None = (t', Ok tt) /\
    rows t' = [[70; 71; 2; 3]; [4; 5; 6]; [7; 8; 9]; [10; 11; 12]] /\ ~ wf t'.
Proof.
  exists exV, (mkTable (fresh 1) (fresh 2) [[70; 71]]). eexists. split; [exact exV_wf|].
  split; [split; [reflexivity|]; split; [intros r [<-|[]]; reflexivity|split; exact (fresh_Inv _)]|].
  split; [vm_compute; reflexivity|]. split; [reflexivity|]. intros [_ [H _]]. specialize (H _ (or_introl eq_refl)). discriminate.
Qed.
Print Assumptions C21_rectangle_default_end_refuted.
Theorem C21_rectangle_overflow_refuted :
  exists (t o t' : table nat), wf t /\ wf o /\
    replaceRectangleObj t o (IdInt 3) (IdInt 0) None (Some (IdInt 1)) = (t', Err IndexErr) /\
    cell t 3 0 = Some 10 /\ cell t' 3 0 = Some 70.
Proof.
  exists exV, (mkTable (fresh 2) (fresh 2) [[70; 71]; [72; 73]]). eexists. split; [exact exV_wf|].
  split; [split; [reflexivity|]; split; [intros r [<-|[<-|[]]]; reflexivity|split; exact (fresh_Inv _)]|].
  split; [vm_compute; reflexivity|]. split; reflexivity.
Qed.
Print Assumptions C21_rectangle_overflow_refuted.
(** Sparse, the number zero: the elements are set to zero and nothing else
    changes, no explicit zero is stored; when no index of the points is cached
    the result is consistent (the other case: C22_stale_cache_refuted). *)
Theorem C21_sparse_zero_partial :
  forall V (EV : EqDec V) (zero : V) (s : sparse V) ps fs pe fe, sinv zero s ->
  exists s', sReplaceConst zero s zero ps fs pe fe = (s', Ok tt) /\ entsOK zero s' /\ snp s' = snp s /\ snf s' = snf s /\
    (forall i j, val zero s' i j = if inRectangle ps (S pe) fs (S fe) i j then zero else val zero s i j) /\
    (sIdx s = None -> sinv zero s').
Proof.
  intros V EV zero s ps fs pe fe HI. unfold sReplaceConst.
  assert (E : eqbd zero zero = true) by (apply eqbd_refl). rewrite E.
  destruct (zeroRectangle_ents V zero s ps fs pe fe (proj1 HI)) as [A B].
  eexists. split; [reflexivity|]. split; [exact A|]. split; [reflexivity|]. split; [reflexivity|]. split.
  - intros i j. rewrite B. unfold inRect, inRectangle.
    assert (H : forall a b, (a <? S b) = (a <=? b)) by reflexivity. rewrite !H.
    destruct (ps <=? i), (i <=? pe), (fs <=? j), (j <=? fe); reflexivity.
  - intros; apply zeroRectangle_nocache; auto.
Qed.
Print Assumptions C21_sparse_zero_partial.
(** Sparse: with an object or a nonzero number, provided the object has no
    nonzero element or some at or below pointStart. *)
Theorem C21_sparse_rectangle_partial :
  forall V (EV : EqDec V) (zero : V) (s : sparse V) ps fs pe fe, sinv zero s ->
  ps <= pe -> pe < snp s -> fs <= fe -> fe < snf s ->
  ents s = [] \/ (exists e, In e (ents s) /\ ps <= er e) ->
  (forall o, sinv zero o -> snp o = S pe - ps -> snf o = S fe - fs ->
   exists s', sReplaceObj zero s o ps fs pe fe = (s', Ok tt) /\ sinv zero s' /\ snp s' = snp s /\ snf s' = snf s /\
    forall i j, val zero s' i j = if inRectangle ps (S pe) fs (S fe) i j then val zero o (i - ps) (j - fs) else val zero s i j) /\
  (forall c, c <> zero ->
   exists s', sReplaceConst zero s c ps fs pe fe = (s', Ok tt) /\ sinv zero s' /\ snp s' = snp s /\ snf s' = snf s /\
    forall i j, val zero s' i j = if inRectangle ps (S pe) fs (S fe) i j then c else val zero s i j).
Proof. intros V EV zero s ps fs pe fe HI P1 P2 F1 F2 Hg. split; intros; [apply sReplaceObj_spec|apply sReplaceConst_spec]; auto. Qed.
Print Assumptions C21_sparse_rectangle_partial.
(** When every nonzero element lies above the rectangle the call fails. *)
Theorem C21_sparse_rectangle_refuted :
  (forall V (zero : V) (s : sparse V) vals ps fs pe fe, sinv zero s -> ps <= pe -> pe < snp s -> ents s <> [] ->
   (forall e, In e (ents s) -> er e < ps) -> snd (rectSparse zero s vals ps fs pe fe) = Err IndexErr) /\
  exists s : sparse nat, sinv 0 s /\ snp s = 2 /\ snf s = 2 /\ snd (sReplaceConst 0 s 5 1 0 1 0) = Err IndexErr.
Proof.
  split; [exact rectSparse_crash|]. exists (mkSp 2 2 [mkE 0 0 1] None None). split; [|split; [reflexivity|split; reflexivity]].
  split; [split|reflexivity]; simpl.
  - repeat constructor; simpl; tauto.
  - intros e [<-|[]]; simpl; lia.
Qed.
Print Assumptions C21_sparse_rectangle_refuted.
Example C21_example :
  (exists t', replaceRectangleObj exV (mkTable (fresh 2) (fresh 2) [[70; 71]; [72; 73]]) (IdStr "b") (IdInt 1) None (Some (IdInt (-1))) = (t', Ok tt) /\
     rows t' = [[1; 2; 3]; [4; 70; 71]; [7; 72; 73]; [10; 11; 12]]) /\
  RectEnd (tp exV) 1 2 None /\ RectEnd (tf exV) 1 2 (Some (IdInt (-1))) /\
  (exists s', sReplaceObj 0 exS (mkSp 2 2 [mkE 0 0 8] None None) 1 0 2 1 = (s', Ok tt) /\ toDense 0 s' = [[0; 0; 5]; [8; 0; 0]; [0; 0; 0]]) /\
  exists t', setItem exV (SMany (KList (map KId [IdStr "d"; IdInt 0]))) (SMany (KList (map KId [IdInt (-1)]))) 0 = (t', Ok tt) /\
     rows t' = [[1; 2; 0]; [4; 5; 6]; [7; 8; 9]; [10; 11; 0]].
Proof.
  split; [eexists; split; [vm_compute; reflexivity|reflexivity]|]. split; [exact I|].
  split; [exists 2; split; [simpl; lia|reflexivity]|].
  split; [eexists; split; [vm_compute; reflexivity|reflexivity]|]. eexists; split; [vm_compute; reflexivity|reflexivity].
Qed.
