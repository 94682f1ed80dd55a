(** Saving and loading Matrix Market files (C70). *)
From Coq Require Import QArith.
From Coq Require Import Ascii String.
From Verif Require LogModel.
From Verif Require Import Base NamesModel NamesSpec TableModel TableSpec MatchModel CsvModel RawModel RawSpec RawProofs RawKeepProofs PrepSpec CsvTextModel HighOpsProofs MtxModel MtxSpec MtxProofs.
From Coq Require Import List Lia.
Import ListNotations.
Open Scope string_scope.
Open Scope list_scope.
Open Scope nat_scope.

(** ** The lines of names *)
Definition axisText (names : option (list string)) : text := match names with Some l => joinCells (map chars l) | None => [] end.
Definition axisLine (names : option (list string)) : text := pct :: hash :: axisText names ++ [nl].

Lemma in_join c l : In c (joinCells l) -> c = comma \/ exists w, In w l /\ In c w.
Proof.
  induction l as [|w l IH]; intros H; [destruct H|]. destruct l as [|v l].
  - right. exists w. cbn in *. auto.
  - change (joinCells (w :: v :: l)) with (w ++ comma :: joinCells (v :: l)) in H. apply in_app_iff in H as [H|[H|H]].
    + right. exists w. cbn. auto.
    + auto.
    + destruct (IH H) as [->|(x & Hx & Hc)]; [auto|]. right. exists x. cbn in *. auto.
Qed.
Lemma axisText_nl names : Storable names -> ~ In nl (axisText names).
Proof.
  destruct names as [l|]; [|cbn; tauto]. intros (H & _ & _) I. cbn in I. apply in_join in I as [I|(w & Hw & I)]; [discriminate|].
  apply in_map_iff in Hw as (s & <- & Hs). now apply (H s Hs).
Qed.
Lemma axisLine_comment names : Storable names -> CommentLine (axisLine names).
Proof.
  intros H. exists (hash :: axisText names). split; [reflexivity|]. intros [E|E]; [discriminate|]. exact (axisText_nl _ H E).
Qed.
Lemma join_snoc l s : l <> [] -> joinCells (l ++ [s]) = joinCells l ++ comma :: s.
Proof.
  induction l as [|w l IH]; intros N; [congruence|]. destruct l as [|v l]; [reflexivity|].
  change ((w :: v :: l) ++ [s]) with (w :: (v :: l) ++ [s]). change (joinCells (w :: v :: l)) with (w ++ comma :: joinCells (v :: l)).
  cbn [app] in *. change (joinCells (w :: v :: l ++ [s])) with (w ++ comma :: joinCells (v :: l ++ [s])). rewrite IH by discriminate.
  now rewrite <- app_assoc.
Qed.
Lemma snoc_cases {A} (l : list A) : l = [] \/ exists a x, l = a ++ [x].
Proof. destruct l as [|a l] using rev_ind; [auto|right; eauto]. Qed.
Lemma axisLine_names names : Storable names -> (forall l, names = Some l -> l <> []) -> Names (axisLine names) names.
Proof.
  intros H Ne. unfold axisLine. destruct names as [l|].
  - destruct H as (Hc & N1 & Hw). specialize (Ne l eq_refl).
    exists (axisText (Some l)), [nl], l. split; [reflexivity|]. split; [intros c [<-|[]]; apply white_nl|]. split.
    + intros a c E. cbn [axisText] in E. destruct (snoc_cases l) as [->|(b & s & ->)]; [congruence|].
      specialize (Hw b s eq_refl). destruct (snoc_cases (chars s)) as [Es|(a' & c' & Es)].
      * assert (s = "") as -> by (destruct s; [reflexivity|discriminate]). destruct b as [|x b]; [exfalso; apply N1; reflexivity|].
        rewrite map_app in E. cbn [map] in E. rewrite join_snoc in E by discriminate. cbn [chars list_ascii_of_string] in E.
        apply app_inj_tail in E as [_ <-]. unfold White. cbn. lia.
      * assert (EE : exists z, joinCells (map chars (b ++ [s])) = z ++ [c']).
        { rewrite map_app. cbn [map]. rewrite Es. destruct b as [|x b]; [cbn; eauto|]. rewrite join_snoc by discriminate.
          exists (joinCells (map chars (x :: b)) ++ comma :: a'). now rewrite <- app_assoc. }
        destruct EE as (z & EE). rewrite EE in E. apply app_inj_tail in E as [_ <-]. intros W. apply Hw. exists a', c'. auto.
    + split; [reflexivity|]. split; [exact Ne|]. split; [intros s Hs; apply (Hc s Hs)|].
      destruct (list_eq_dec string_dec l [""]); [contradiction|reflexivity].
  - exists [], [nl], [""]. split; [reflexivity|]. split; [intros c [<-|[]]; apply white_nl|]. split; [intros [|] c; discriminate|].
    split; [reflexivity|]. split; [discriminate|]. split; [intros s [<-|[]] []|reflexivity].
Qed.

Lemma linesOf_first c u : exists l ls, linesOf (c :: u) = (c :: l) :: ls.
Proof.
  cbn [linesOf]. destruct (Ascii.eqb_spec c nl) as [->|]; [eauto|]. destruct (linesOf u); eauto.
Qed.
Lemma comments_lines cs rest : Forall CommentLine cs -> (exists c u, rest = c :: u /\ c <> pct) ->
  Comments (linesOf (concat cs ++ rest)) cs.
Proof.
  intros H (c & u & -> & N). rewrite linesOf_lines by exact H. induction H as [|l cs (v & -> & _) _ IH].
  - destruct (linesOf_first c u) as (l & ls & ->). apply cm_stop. intros w E. congruence.
  - cbn [app]. apply cm_line. exact IH.
Qed.
Lemma fileNames_built h cs rest p f : CommentLine h -> (forall u, h <> pct :: hash :: u) -> Forall CommentLine cs -> (exists c u, rest = c :: u /\ c <> pct) ->
  match NameLines cs with
  | [] => p = None /\ f = None
  | [x] => Names x p /\ f = None
  | x :: more => Names x p /\ exists y, List.last more [] = y /\ Names y f
  end -> FileNames (h ++ concat cs ++ rest) p f.
Proof.
  intros Hh Hn HC HR HM. exists (h :: cs). split.
  - change (h ++ concat cs ++ rest) with (h ++ (concat cs ++ rest)). rewrite app_assoc. change (h ++ concat cs) with (concat (h :: cs)).
    apply comments_lines; [constructor; auto|exact HR].
  - unfold NameLines. cbn [filter]. destruct Hh as (u & -> & _). destruct u as [|d u]; [exact HM|].
    cbn [app]. destruct (Ascii.eqb_spec d hash) as [->|]; [exfalso; eapply Hn; reflexivity|exact HM].
Qed.

(** ** What List writes *)
Lemma join_flat l : forall s, chars s ++ flat_map (fun s => comma :: chars s) l = joinCells (chars s :: map chars l).
Proof.
  induction l as [|v l IH]; intros s; [cbn; now rewrite app_nil_r|].
  cbn [map flat_map]. change (joinCells (chars s :: chars v :: map chars l)) with (chars s ++ comma :: joinCells (chars v :: map chars l)).
  rewrite <- IH. reflexivity.
Qed.
Lemma writeNames_ok l : forall first out, (first = true -> l <> []) ->
  writeNames first (map Some l) out = (out ++ (if first then pct :: hash :: joinCells (map chars l) else flat_map (fun s => comma :: chars s) l) ++ [nl], Ok tt).
Proof.
  induction l as [|s l IH]; intros first out N.
  - destruct first; [exfalso; apply N; reflexivity|]. reflexivity.
  - cbn [map writeNames]. rewrite IH by discriminate. f_equal. rewrite <- !app_assoc. f_equal. destruct first.
    + cbn [app]. f_equal. f_equal. rewrite app_assoc. f_equal. apply join_flat.
    + cbn [flat_map app]. now rewrite <- !app_assoc.
Qed.
Lemma writeNames_partly l : In None l -> forall first out, exists out', writeNames first l out = (out', Err TypeErr).
Proof.
  induction l as [|n l IH]; intros H first out; [destruct H|]. cbn [writeNames]. destruct n as [s|]; [|eauto].
  destruct H as [H|H]; [discriminate|]. apply IH. exact H.
Qed.
Lemma anyName_spec o : anyName o = true <-> exists l s, o = Some l /\ In (Some s) l.
Proof.
  unfold anyName. destruct o as [l|]; [|split; [discriminate|intros (? & ? & ? & _); discriminate]].
  rewrite existsb_exists. split.
  - intros (n & H & E). destruct n; [eauto|discriminate].
  - intros (l' & s & [= <-] & H). exists (Some s). auto.
Qed.
Lemma writeAxis_ok o n names out : AxisIs o n names -> 0 < n -> writeAxis (include true o) (namesFor o n) out = (out ++ axisLine names, Ok tt).
Proof.
  intros H Hn. unfold writeAxis, include. cbn [andb]. destruct names as [l|].
  - destruct H as (-> & L & _). assert (N : l <> []) by (destruct l; [cbn in L; lia|discriminate]).
    assert (A : anyName (Some (map Some l)) = true).
    { apply anyName_spec. destruct l as [|s l]; [congruence|]. exists (map Some (s :: l)), s. cbn. auto. }
    rewrite A. cbn [namesFor]. rewrite writeNames_ok by auto. reflexivity.
  - assert (A : anyName o = false).
    { destruct H as [-> | ->]; [reflexivity|]. apply Bool.not_true_is_false. rewrite anyName_spec. intros (l & s & [= <-] & I).
      apply repeat_spec in I. discriminate. }
    rewrite A. reflexivity.
Qed.
Lemma writeAxis_partly o n out : PartlyNamed o -> exists out', writeAxis (include true o) (namesFor o n) out = (out', Err TypeErr).
Proof.
  intros (l & s & -> & I & N). unfold writeAxis, include. cbn [andb].
  rewrite (proj2 (anyName_spec (Some l))) by eauto. cbn [namesFor]. now apply writeNames_partly.
Qed.

Section Save.
Variable strOf : pval -> string.
Variable floatOf : text -> option pval.
Variable mmOther : text -> result (list (list pval)).
Notation mmread := (mmread floatOf mmOther).

Definition byCols (rows : list (list pval)) (nc : nat) : list pval := flat_map (fun j => map (fun r => nth j r PNone) rows) (seq 0 nc).
Lemma listValues_cols o : listValues strOf o = flat_map (fun v => chars (strOf v) ++ [nl]) (byCols (mRows o) (mNF o)).
Proof.
  unfold listValues, byCols. induction (seq 0 (mNF o)) as [|j js IH]; [reflexivity|]. cbn [flat_map].
  rewrite flat_map_app, IH. f_equal. clear. induction (mRows o) as [|r l IHl]; [reflexivity|]. cbn [map flat_map]. now rewrite IHl.
Qed.
Lemma byCols_spec rows nr nc : List.length rows = nr -> (forall r, In r rows -> List.length r = nc) -> ByColumns nr nc (byCols rows nc) rows.
Proof.
  intros L R. split; [exact L|]. split; [exact R|]. intros i j Hi Hj.
  unfold byCols. rewrite (flat_map_nth _ nr (seq 0 nc) j i j); [| |rewrite nth_error_seq; now rewrite (proj2 (Nat.ltb_lt _ _) Hj)|exact Hi].
  - rewrite nth_error_map. unfold valueAt. destruct (nth_error rows i) as [r|] eqn:E; [|reflexivity]. cbn.
    symmetry. rewrite <- (nth_error_nth' r PNone); [reflexivity|]. rewrite (R r) by (eapply nth_error_In; eauto). exact Hj.
  - intros y _. now rewrite map_length.
Qed.
Lemma byCols_len rows nc : List.length (byCols rows nc) = List.length rows * nc.
Proof. unfold byCols. rewrite (flat_map_len _ _ (List.length rows)); [rewrite seq_length; lia|]. intros; apply map_length. Qed.
Lemma F2_nth {A B} (R : A -> B -> Prop) l m da db : Forall2 R l m -> R da db -> forall j, R (nth j l da) (nth j m db).
Proof. induction 1; intros D [|j]; cbn; auto. Qed.
Lemma F2_nth_lt {A B} (R : A -> B -> Prop) l m da db : Forall2 R l m -> forall j, j < List.length l -> R (nth j l da) (nth j m db).
Proof. induction 1; intros [|j] Hj; cbn in *; auto; try lia. apply IHForall2. lia. Qed.
Lemma byCols_rel R rows vs nc : Elementwise R rows vs -> (forall r, In r rows -> List.length r = nc) -> Forall2 R (byCols rows nc) (byCols vs nc).
Proof.
  intros E L. unfold byCols. assert (H : forall j, In j (seq 0 nc) -> j < nc) by (intros j Hj; apply in_seq in Hj; lia). revert H.
  generalize (seq 0 nc). intros js. induction js as [|j js IH]; intros H; [constructor|]. cbn [flat_map]. apply Forall2_app; [|apply IH; intros; apply H; cbn; auto].
  specialize (H j (or_introl eq_refl)). clear IH. induction E as [|r v rows vs Hr _ IH]; [constructor|]. cbn [map]. constructor.
  - apply F2_nth_lt; [exact Hr|]. rewrite (L r) by (cbn; auto). exact H.
  - apply IH. intros x Hx. apply L. cbn. auto.
Qed.
Lemma values_lines l ws : Forall2 (ReadsAs strOf floatOf) l ws -> Values floatOf (linesOf (flat_map (fun v => chars (strOf v) ++ [nl]) l)) ws.
Proof.
  induction 1 as [|v w l ws (c & r & E & N & Hn & (d & Hd & Wd) & F) _ IH]; [constructor|]. cbn [flat_map].
  rewrite <- app_assoc. cbn [app]. rewrite E, linesOf_line by exact Hn. apply v_value; [|exact F|exact IH].
  intros [S|(x & S)]; [apply Wd, S; apply in_app_iff; left; exact Hd|]. cbn [app] in S. injection S as S _. exact (N S).
Qed.
Lemma elementwise_len R rows vs : Elementwise R rows vs -> List.length vs = List.length rows /\
  (forall nc, (forall r, In r rows -> List.length r = nc) -> forall r, In r vs -> List.length r = nc).
Proof.
  assert (FL : forall A B (Q : A -> B -> Prop) l m, Forall2 Q l m -> List.length m = List.length l) by (induction 1; cbn; auto).
  intros E. split; [eapply FL; exact E|]. induction E as [|a b rows vs H _ IH]; intros nc L r Hr; [destruct Hr|].
  destruct Hr as [<-|Hr]; [rewrite (FL _ _ _ _ _ H); apply L; cbn; auto|]. eapply IH; eauto. intros; apply L; cbn; auto.
Qed.

Lemma saveList_text o ps fs : Rectangle o -> AxisIs (mP o) (mNP o) ps -> AxisIs (mF o) (mNF o) fs ->
  saveList strOf o true = (listHead ++ concat [axisLine ps; axisLine fs] ++ dimsLine (mNP o) (mNF o) ++ listValues strOf o, Ok tt).
Proof.
  intros (Hp & Hf & _) AP AF. unfold saveList. rewrite (writeAxis_ok _ _ ps) by assumption. rewrite (writeAxis_ok _ _ fs) by assumption.
  f_equal. cbn [concat]. unfold dimsLine. rewrite app_nil_r, <- !app_assoc. cbn [app]. rewrite <- ?app_assoc. cbn [app]. reflexivity.
Qed.
Lemma listHead_comment : CommentLine listHead /\ forall u, listHead <> pct :: hash :: u.
Proof.
  split; [|intros u; vm_compute; discriminate]. exists (tl (chars "%%MatrixMarket matrix array real general")). split; [reflexivity|].
  intros H. vm_compute in H. repeat (destruct H as [H|H]; [discriminate|]). destruct H.
Qed.
Lemma axis_ne o n names l : AxisIs o n names -> 0 < n -> names = Some l -> l <> [].
Proof. intros H Hn ->. destruct H as (_ & L & _). destruct l; [cbn in L; lia|discriminate]. Qed.

Lemma list_file o ps fs vs : Rectangle o -> AxisIs (mP o) (mNP o) ps -> AxisIs (mF o) (mNF o) fs -> Storable ps -> Storable fs ->
  Elementwise (ReadsAs strOf floatOf) (mRows o) vs ->
  exists t, saveList strOf o true = (t, Ok tt) /\ FileNames t ps fs /\ mmread t = Ok vs.
Proof.
  intros HR AP AF SP SF HE. eexists. split; [apply saveList_text; eassumption|].
  destruct HR as (Hp & Hf & L & R). destruct listHead_comment as [H1 H2].
  assert (HC : Forall CommentLine [axisLine ps; axisLine fs]) by (repeat constructor; apply axisLine_comment; assumption).
  split.
  - apply fileNames_built; auto.
    + destruct (dims_first (mNP o) (mNF o)) as (c & r & E & N & _). rewrite E. cbn [app]. eauto.
    + cbn [NameLines filter axisLine]. rewrite !Ascii.eqb_refl. split; [apply axisLine_names; [exact SP|intros l; now apply (axis_ne _ _ _ _ AP)]|].
      eexists. split; [reflexivity|]. apply axisLine_names; [exact SF|intros l; now apply (axis_ne _ _ _ _ AF)].
  - apply mmread_dense; [exact Hp|exact HC|]. exists (byCols vs (mNF o)). destruct (elementwise_len _ _ _ HE) as [LV RV].
    split; [|split].
    + rewrite listValues_cols. apply values_lines. apply byCols_rel; assumption.
    + rewrite byCols_len. lia.
    + apply byCols_spec; [lia|]. apply RV. exact R.
Qed.
Lemma list_refused o wanted : (exists t, saveList strOf o wanted = (t, Err TypeErr)) <-> wanted = true /\ (PartlyNamed (mP o) \/ PartlyNamed (mF o)).
Proof.
  assert (ok : forall x n out, exists out' r, writeAxis (include wanted x) (namesFor x n) out = (out', r) /\
    ((r = Ok tt /\ ~ (wanted = true /\ PartlyNamed x)) \/ (r = Err TypeErr /\ wanted = true /\ PartlyNamed x))).
  { intros x n out. unfold writeAxis. destruct (include wanted x) eqn:EI.
    - unfold include in EI. apply andb_prop in EI as [-> EA]. apply anyName_spec in EA as (l & s & -> & I). cbn [namesFor].
      destruct (in_dec (fun a b : option string => ltac:(decide equality; apply string_dec)) None l) as [N|N].
      + destruct (writeNames_partly l N true out) as (out' & ->). exists out', (Err TypeErr). split; [reflexivity|]. right. split; [reflexivity|]. split; [reflexivity|]. exists l, s. auto.
      + assert (exists l', l = map Some l') as (l' & ->).
        { clear I. induction l as [|[a|] l IH]; [exists []; reflexivity| |exfalso; apply N; cbn; auto].
          destruct IH as (l' & ->); [intros X; apply N; cbn; auto|]. exists (a :: l'). reflexivity. }
        rewrite writeNames_ok; [|intros _ ->; destruct I]. eexists. eexists. split; [reflexivity|]. left. split; [reflexivity|].
        intros (_ & l2 & s2 & [= <-] & _ & I2). apply in_map_iff in I2 as (q & Eq & _). discriminate.
    - eexists. eexists. split; [reflexivity|]. left. split; [reflexivity|]. intros (-> & l & s & -> & I & _). unfold include in EI. cbn [andb] in EI.
      rewrite (proj2 (anyName_spec (Some l))) in EI by eauto. discriminate. }
  unfold saveList. destruct (ok (mP o) (mNP o) listHead) as (o1 & r1 & -> & [(-> & N1)|(-> & W & P)]).
  - destruct (ok (mF o) (mNF o) o1) as (o2 & r2 & -> & [(-> & N2)|(-> & W & P)]).
    + split; [intros (t & E); discriminate|]. tauto.
    + split; [tauto|]. eauto.
  - split; [tauto|]. eauto.
Qed.

(** ** What scipy is given *)
Section Scipy.
Variable asFloat : pval -> result pval.
Variables (mmHead mmBody : list (list pval) -> text).
Notation saveScipy := (saveScipy asFloat mmHead mmBody).

Lemma joinNames_ok l : joinNames (map Some l) = Ok (joinCells (map chars l)).
Proof.
  unfold joinNames. assert (E : rmapM (fun n : option string => match n with Some s => Ok (chars s) | None => Err TypeErr end) (map Some l) = Ok (map chars l)).
  { induction l; cbn; [reflexivity|]. now rewrite IHl. }
  now rewrite E.
Qed.
Lemma part_ok o n names : AxisIs o n names -> 0 < n ->
  (if include true o then joinNames (namesFor o n) else Ok []) = Ok (axisText names) /\
  include true o = match names with Some _ => true | None => false end.
Proof.
  intros H Hn. unfold include. cbn [andb]. destruct names as [l|].
  - destruct H as (-> & L & _). assert (N : l <> []) by (destruct l; [cbn in L; lia|discriminate]).
    rewrite (proj2 (anyName_spec (Some (map Some l)))).
    + cbn [namesFor]. split; [apply joinNames_ok|reflexivity].
    + destruct l as [|s l]; [congruence|]. exists (map Some (s :: l)), s. cbn. auto.
  - assert (A : anyName o = false).
    { destruct H as [-> | ->]; [reflexivity|]. apply Bool.not_true_is_false. rewrite anyName_spec. intros (l & s & [= <-] & I).
      apply repeat_spec in I. discriminate. }
    rewrite A. auto.
Qed.
Lemma splitNl_word w : ~ In nl w -> splitNl w = [w].
Proof.
  induction w as [|c w IH]; intros H; [reflexivity|]. cbn in H. cbn [splitNl].
  destruct (Ascii.eqb_spec c nl) as [->|N]; [exfalso; auto|]. rewrite IH by tauto. reflexivity.
Qed.
Lemma splitNl_cons w t : ~ In nl w -> splitNl (w ++ nl :: t) = w :: splitNl t.
Proof.
  induction w as [|c w IH]; intros H; [reflexivity|]. cbn in H. cbn [app splitNl].
  destruct (Ascii.eqb_spec c nl) as [->|N]; [exfalso; auto|]. rewrite IH by tauto. reflexivity.
Qed.
Definition commentLines (t : text) : list text := map (fun l => pct :: l ++ [nl]) (splitNl t).
Lemma flat_map_concat {A B} (f : A -> list B) l : flat_map f l = concat (map f l).
Proof. apply flat_map_concat_map. Qed.

Lemma comment_lines st o ps fs : Rectangle o -> AxisIs (mP o) (mNP o) ps -> AxisIs (mF o) (mNF o) fs -> Storable ps -> Storable fs ->
  exists c, comment st o true = Ok c /\ Forall CommentLine (commentLines c) /\
    (NameLines (commentLines c) = [axisLine ps; axisLine fs] \/ (fs = None /\ NameLines (commentLines c) = [axisLine ps])).
Proof.
  intros (Hp & Hf & _) AP AF SP SF. unfold comment.
  destruct (part_ok _ _ _ AP Hp) as [-> IP]. destruct (part_ok _ _ _ AF Hf) as [-> IF]. cbn [rbind]. rewrite IF.
  pose proof (axisText_nl _ SP) as N1. pose proof (axisText_nl _ SF) as N2.
  assert (H1 : ~ In nl (hash :: axisText ps)) by (intros [E|E]; [discriminate|contradiction]).
  assert (H2 : ~ In nl (hash :: axisText fs)) by (intros [E|E]; [discriminate|contradiction]).
  assert (C1 := axisLine_comment _ SP). assert (C2 := axisLine_comment _ SF).
  assert (C3 : CommentLine [pct; nl]) by (exists []; split; [reflexivity|intros []]).
  eexists. split; [reflexivity|]. destruct st.
  - change (hash :: axisText ps ++ [nl] ++ hash :: axisText fs ++ _) with ((hash :: axisText ps) ++ nl :: ((hash :: axisText fs) ++ match fs with Some _ => [] | None => [nl] end)) || idtac.
    destruct fs as [l|].
    + unfold commentLines. cbn [app]. rewrite app_nil_r. change (hash :: axisText ps ++ nl :: hash :: axisText (Some l)) with ((hash :: axisText ps) ++ nl :: (hash :: axisText (Some l))).
      rewrite splitNl_cons, splitNl_word by assumption. cbn [map]. split; [repeat constructor; assumption|]. left. reflexivity.
    + unfold commentLines. cbn [app axisText]. change (hash :: axisText ps ++ [nl; hash; nl]) with ((hash :: axisText ps) ++ nl :: ([hash] ++ [nl])).
      rewrite splitNl_cons by assumption. cbn [splitNl app]. cbn [Ascii.eqb]. cbn. split; [repeat constructor; assumption|]. left. reflexivity.
  - unfold commentLines. cbn [app]. change (hash :: axisText ps ++ nl :: hash :: axisText fs ++ [nl]) with ((hash :: axisText ps) ++ nl :: ((hash :: axisText fs) ++ nl :: [])).
    rewrite splitNl_cons, splitNl_cons by assumption. cbn [splitNl map]. split; [repeat constructor; assumption|]. left. reflexivity.
  - destruct fs as [l|].
    + unfold commentLines. cbn [app]. change (hash :: axisText ps ++ nl :: hash :: axisText (Some l)) with ((hash :: axisText ps) ++ nl :: (hash :: axisText (Some l))).
      rewrite splitNl_cons, splitNl_word by assumption. cbn [map]. split; [repeat constructor; assumption|]. left. reflexivity.
    + unfold commentLines. rewrite app_nil_r. rewrite splitNl_word by assumption. cbn [map]. split; [repeat constructor; assumption|]. right. split; [reflexivity|].
      reflexivity.
Qed.

Lemma convert_ok rows vs : Elementwise (fun v w => asFloat v = Ok w) rows vs -> rmapM (rmapM asFloat) rows = Ok vs.
Proof.
  induction 1 as [|r v rows vs H _ IH]; [reflexivity|]. cbn. assert (E : rmapM asFloat r = Ok v).
  { induction H; cbn; [reflexivity|]. rewrite H. cbn. now rewrite IHForall2. }
  now rewrite E, IH.
Qed.

Lemma scipy_file st o ps fs vs : Rectangle o -> AxisIs (mP o) (mNP o) ps -> AxisIs (mF o) (mNF o) fs -> Storable ps -> Storable fs ->
  Elementwise (fun v w => asFloat v = Ok w) (mRows o) vs -> ScipyAgrees mmread mmHead mmBody vs ->
  exists t, saveScipy st o true = Ok t /\ FileNames t ps fs /\ mmread t = Ok vs.
Proof.
  intros HR AP AF SP SF HE HS. destruct (comment_lines st o ps fs HR AP AF SP SF) as (c & EC & FC & NC).
  destruct HS as ((u & EH & NH) & HB & HM). unfold MtxModel.saveScipy. rewrite EC, (convert_ok _ _ HE). cbn [rbind].
  eexists. split; [reflexivity|]. rewrite flat_map_concat. fold (commentLines c). split; [|now apply HM].
  apply fileNames_built; auto.
  - exists (pct :: u). split; [exact EH|]. intros [X|X]; [discriminate|contradiction].
  - intros x. rewrite EH. discriminate.
  - assert (A1 : Names (axisLine ps) ps) by (apply axisLine_names; [exact SP|intros l; now apply (axis_ne _ _ _ _ AP), HR]).
    assert (A2 : Names (axisLine fs) fs) by (apply axisLine_names; [exact SF|intros l; now apply (axis_ne _ _ _ _ AF), HR]).
    destruct NC as [->|(-> & ->)]; eauto.
Qed.
Lemma scipy_refused st o wanted : wanted = true /\ (PartlyNamed (mP o) \/ PartlyNamed (mF o)) -> saveScipy st o wanted = Err TypeErr.
Proof.
  intros (-> & H). unfold MtxModel.saveScipy, comment.
  assert (P : forall x n, PartlyNamed x -> (if include true x then joinNames (namesFor x n) else Ok []) = Err TypeErr).
  { intros x n (l & s & -> & I & N). unfold include. cbn [andb]. rewrite (proj2 (anyName_spec (Some l))) by eauto. cbn [namesFor].
    unfold joinNames. assert (E : rmapM (fun n0 : option string => match n0 with Some s0 => Ok (chars s0) | None => Err TypeErr end) l = Err TypeErr).
    { clear I. induction l as [|a l IH]; [destruct N|]. cbn. destruct a as [a|]; [|reflexivity]. cbn. destruct N as [N|N]; [discriminate|]. now rewrite IH. }
    now rewrite E. }
  assert (Q : forall x n, (if include true x then joinNames (namesFor x n) else Ok []) = Err TypeErr \/ exists y, (if include true x then joinNames (namesFor x n) else Ok []) = Ok y).
  { intros x n. destruct (include true x); [|eauto]. unfold joinNames.
    assert (E : forall l, rmapM (fun n0 : option string => match n0 with Some s0 => Ok (chars s0) | None => Err TypeErr end) l = Err TypeErr \/ exists y, rmapM (fun n0 : option string => match n0 with Some s0 => Ok (chars s0) | None => Err TypeErr end) l = Ok y).
    { induction l as [|a l IH]; [cbn; eauto|]. cbn. destruct a; [|auto]. cbn. destruct IH as [->|(y & ->)]; cbn; eauto. }
    destruct (E (namesFor x n)) as [->|(y & ->)]; cbn; eauto. }
  destruct H as [H|H].
  - now rewrite (P _ (mNP o) H).
  - destruct (Q (mP o) (mNP o)) as [->|(y & ->)]; [reflexivity|]. cbn [rbind]. now rewrite (P _ (mNF o) H).
Qed.
End Scipy.

(** ** Loading *)
Section Load.
Variable T : Type.
Variable ET : EqDec T.
Variable conv : T -> pval -> result pval.
Variable junk : nat -> nat -> pval.
Notation loadMtx := (loadMtx strOf floatOf mmOther T ET conv junk).

Lemma choose_spec (p : option (list string)) (a : nmArg) n : plainArg a -> notDict (chooseNames p None a) /\ chooseNames p None a <> NmBool true /\ chooseNames p None a <> NmAuto /\
  namesFrom strOf (chooseNames p None a) 0 (fun _ => None) n = UsedNames p a n.
Proof.
  intros (D & N). unfold chooseNames, UsedNames, explicitNames. destruct p as [l|]; [cbn; repeat split; congruence|].
  destruct a as [| |[]|l|d]; cbn in *; repeat split; try congruence; auto.
Qed.
Lemma isTrue_not a : a <> NmBool true -> isTrue a = false.
Proof. destruct a as [| |[]|l|d]; cbn; congruence. Qed.
Lemma namesFrom0 a h n : namesFrom strOf a 0 h n = namesFrom strOf a 0 (fun _ => None) n.
Proof. destruct a; reflexivity. Qed.

Lemma load_spec t p f data pn fn treat repl k : FileNames t p f -> mmread t = Ok data -> data <> [] -> 0 < k -> (forall r, In r data -> List.length r = k) ->
  plainArg pn -> plainArg fn ->
  let n := List.length data in let ps := UsedNames p pn n in let fs := UsedNames f fn k in
  match loadMtx t pn fn None None treat repl true with
  | Ok r => NamesFit ps n /\ NamesFit fs k /\ Made treat repl n k ps fs (valueAt data) r
  | Err e => ~ (NamesFit ps n /\ NamesFit fs k) /\ e = InvalidArgumentValue
  end.
Proof.
  intros HF HM ND Hk HR PP PF n ps fs. unfold MtxModel.loadMtx. apply fileNames_spec in HF. rewrite HF, HM. cbn [rbind].
  rewrite (isTrue_not pn), (isTrue_not fn) by (apply PP || apply PF). cbn [orb rbind].
  destruct (choose_spec p pn n PP) as (D1 & T1 & A1 & E1). destruct (choose_spec f fn k PF) as (D2 & T2 & A2 & E2).
  assert (W : width data = k) by (destruct data as [|r d]; [congruence|cbn; apply HR; cbn; auto]).
  assert (V : valueAt data 0 0 <> None).
  { destruct data as [|r d]; [congruence|]. cbn. specialize (HR r (or_introl eq_refl)). destruct r; [cbn in HR; lia|discriminate]. }
  assert (O1 : Out (FirstColumnIsNames (chooseNames p None pn) (chooseNames f None fn) data) 0) by (right; split; [intros [X|(X & _)]; congruence|reflexivity]).
  assert (O2 : Out (FirstRowIsNames (chooseNames p None pn) (chooseNames f None fn) data) 0) by (right; split; [intros [X|(X & _)]; congruence|reflexivity]).
  pose proof (rows_main strOf T ET conv junk data _ _ treat repl 0 0 D1 D2 O1 O2 V) as M. cbv zeta in M.
  rewrite !Nat.sub_0_r, W in M. rewrite (namesFrom0 (chooseNames p None pn)), (namesFrom0 (chooseNames f None fn)) in M.
  fold n in M. rewrite E1, E2 in M. fold ps fs in M.
  destruct (initData strOf T ET conv junk (RRows data) (chooseNames p None pn) (chooseNames f None fn) CNone None None treat repl true) as [[r lo]|e]; cbn [rmap fst].
  - destruct M as (_ & (_ & F1 & F2) & Mk). split; [exact F1|]. split; [exact F2|].
    destruct Mk as (w1 & w2 & w3 & w4 & w5 & C). split; [exact w1|]. split; [exact w2|]. split; [exact w3|]. split; [exact w4|]. split; [exact w5|].
    intros i j Hi Hj. destruct (C i j Hi Hj) as (v & w & E & X). rewrite !Nat.add_0_r in E. eauto.
  - destruct M as (N & [->|(-> & X & _)]); [|discriminate]. split; [|reflexivity]. intros (F1 & F2). apply N. auto.
Qed.

Lemma extract_rows_left pn fn data q k : 2 <= List.length data -> 2 <= k -> (forall r, In r data -> List.length r = k) ->
  extractRows strOf pn fn data = Ok q -> valueAt (fst (fst q)) 0 0 <> None.
Proof.
  intros L K R. unfold extractRows. destruct (autoDetect _ _ _ _) as [p f].
  assert (X : forall m1 r' (pns : option (list string)), 2 <= List.length m1 -> (forall r, In r m1 -> 1 <= List.length r) ->
    rbind (if isTrue f then match m1 with [] => Err IndexErr | r :: t => Ok (Some (map strOf r), t) end else Ok (None, m1)) (fun fm => let '(fns, m2) := fm in Ok (m2, pns, fns)) = Ok r' ->
    valueAt (fst (fst r')) 0 0 <> None).
  { intros m1 r' pns L1 R1. destruct m1 as [|x [|y m1]]; cbn in L1; try lia.
    destruct (isTrue f); cbn [rbind]; intros E; injection E as <-; unfold valueAt; cbn [fst snd nth_error].
    - specialize (R1 y (or_intror (or_introl eq_refl))). destruct y; [cbn in R1; lia|discriminate].
    - specialize (R1 x (or_introl eq_refl)). destruct x; [cbn in R1; lia|discriminate]. }
  destruct (isTrue p); cbn [rbind].
  - destruct (rmapM popFirst data) as [l|] eqn:E; [|discriminate]. cbn [rbind]. apply X.
    + rewrite map_length, (rmapM_ok_length popFirst data E). exact L.
    + intros r I. apply in_map_iff in I. destruct I as [y [<- I]]. apply In_nth_error in I. destruct I as [n I].
      destruct (nth_error data n) as [x|] eqn:N.
      * assert (P : popFirst x = Ok y) by (destruct (rmapM_ok_nth popFirst data E n N) as [y' [P Y]]; congruence).
        specialize (R x (nth_error_In _ _ N)). destruct x as [|z x]; [discriminate|]. cbn in P. injection P as <-. cbn in *. lia.
      * apply nth_error_None in N. assert (n < List.length l) by (apply nth_error_Some; congruence). rewrite (rmapM_ok_length popFirst data E) in H. lia.
  - apply X; [exact L|]. intros r I. rewrite (R r I). lia.
Qed.
Lemma load_comment t ps fs data pn fn treat repl k r : FileNames t (Some ps) (Some fs) -> mmread t = Ok data -> 2 <= List.length data -> 2 <= k -> (forall r, In r data -> List.length r = k) ->
  loadMtx t pn fn None None treat repl true = Ok r -> getNames (tp r) = map Some ps /\ getNames (tf r) = map Some fs.
Proof.
  intros HF HM L K R. unfold MtxModel.loadMtx. apply fileNames_spec in HF. rewrite HF, HM. cbn [rbind].
  assert (X : forall d, valueAt d 0 0 <> None -> rmap fst (initData strOf T ET conv junk (RRows d) (NmList (map Some ps)) (NmList (map Some fs)) CNone None None treat repl true) = Ok r ->
    getNames (tp r) = map Some ps /\ getNames (tf r) = map Some fs).
  { intros d V. 
    assert (O1 : Out (FirstColumnIsNames (NmList (map Some ps)) (NmList (map Some fs)) d) 0) by (right; split; [intros [X|(X & _)]; congruence|reflexivity]).
    assert (O2 : Out (FirstRowIsNames (NmList (map Some ps)) (NmList (map Some fs)) d) 0) by (right; split; [intros [X|(X & _)]; congruence|reflexivity]).
    pose proof (rows_main strOf T ET conv junk d (NmList (map Some ps)) (NmList (map Some fs)) treat repl 0 0 I I O1 O2 V) as M. cbv zeta in M.
    destruct (initData strOf T ET conv junk (RRows d) _ _ CNone None None treat repl true) as [[r' lo]|e]; cbn [rmap fst]; [|discriminate].
    intros E. injection E as ->. destruct M as (_ & _ & _ & _ & _ & N1 & N2 & _). auto. }
  destruct (isTrue pn || isTrue fn).
  - destruct (extractRows strOf pn fn data) as [q|] eqn:E; [|discriminate]. cbn [rbind]. pose proof (extract_rows_left pn fn data q k L K R E) as V.
    destruct q as [[d tp'] tf']. cbn [chooseNames]. apply X. exact V.
  - cbn [rbind chooseNames]. apply X. destruct data as [|x data]; [cbn in L; lia|]. specialize (R x (or_introl eq_refl)). destruct x; [cbn in R; lia|discriminate].
Qed.
Lemma fits_shows names n : (match names with Some l => List.length l = n /\ NoDup l | None => True end) -> NamesFit (Shows names n) n.
Proof.
  destruct names as [l|]; cbn [Shows].
  - intros (L & D). split; [now rewrite map_length|]. intros i j s Hi Hj. rewrite nth_error_map in Hi, Hj.
    destruct (nth_error l i) eqn:Ei; [|discriminate]. destruct (nth_error l j) eqn:Ej; [|discriminate]. cbn in *.
    injection Hi as ->. injection Hj as ->. eapply NoDup_nth_error; [exact D|apply nth_error_Some; congruence|congruence].
  - intros _. split; [apply repeat_length|]. apply repeat_None_distinct.
Qed.
Lemma axis_fits o n names : AxisIs o n names -> NamesFit (Shows names n) n.
Proof. intros H. apply fits_shows. destruct names as [l|]; [|exact Logic.I]. destruct H as (_ & L & D). auto. Qed.

Lemma round_trip t o ps fs vs pn fn treat repl R :
  Rectangle o -> AxisIs (mP o) (mNP o) ps -> AxisIs (mF o) (mNF o) fs -> Elementwise R (mRows o) vs ->
  FileNames t ps fs -> mmread t = Ok vs -> plainArg pn -> plainArg fn ->
  (ps = None -> explicitNames pn (mNP o) = repeat None (mNP o)) -> (fs = None -> explicitNames fn (mNF o) = repeat None (mNF o)) ->
  exists r, loadMtx t pn fn None None treat repl true = Ok r /\ Made treat repl (mNP o) (mNF o) (Shows ps (mNP o)) (Shows fs (mNF o)) (valueAt vs) r.
Proof.
  intros (Hp & Hf & L & HR) AP AF HE HF HM PP PF G1 G2. destruct (elementwise_len _ _ _ HE) as [LV RV]. specialize (RV _ HR).
  assert (ND : vs <> []) by (intros ->; cbn in LV; lia).
  pose proof (load_spec t ps fs vs pn fn treat repl (mNF o) HF HM ND Hf RV PP PF) as M. cbv zeta in M. rewrite LV, L in M.
  assert (E1 : UsedNames ps pn (mNP o) = Shows ps (mNP o)) by (destruct ps; cbn [UsedNames Shows]; auto).
  assert (E2 : UsedNames fs fn (mNF o) = Shows fs (mNF o)) by (destruct fs; cbn [UsedNames Shows]; auto).
  rewrite E1, E2 in M. destruct (loadMtx t pn fn None None treat repl true) as [r|e].
  - exists r. split; [reflexivity|]. apply M.
  - destruct M as (N & _). exfalso. apply N. split; [eapply axis_fits; eauto|eapply axis_fits; eauto].
Qed.

Lemma keep_spec t pn fn keepP keepF treat repl r0 : plainArg pn -> plainArg fn ->
  loadMtx t pn fn None None treat repl true = Ok r0 -> wf r0 ->
  (forall r, loadMtx t pn fn keepP keepF treat repl true = Ok r ->
     exists P F, KeptAre (tp r0) keepP P /\ KeptAre (tf r0) keepF F /\ NoDup P /\ NoDup F /\ subTable r0 P F r) /\
  (forall P F, KeptAre (tp r0) keepP P -> KeptAre (tf r0) keepF F -> NoDup P -> NoDup F -> KeepClear pn (tp r0) keepP -> KeepClear fn (tf r0) keepF ->
     exists r, loadMtx t pn fn keepP keepF treat repl true = Ok r).
Proof.
  intros PP PF E W. unfold MtxModel.loadMtx in *. destruct (readNames (linesOf t) false None None) as [p f].
  destruct (mmread t) as [data|]; [|discriminate]. cbn [rbind] in *.
  rewrite (isTrue_not pn), (isTrue_not fn) in * by (apply PP || apply PF). cbn [orb rbind] in *.
  destruct (initData strOf T ET conv junk (RRows data) (chooseNames p None pn) (chooseNames f None fn) CNone None None treat repl true) as [[q lo]|] eqn:EI; [|discriminate].
  cbn [rmap fst] in E. injection E as ->. destruct (keep_main strOf T ET conv junk _ _ _ keepP keepF treat repl r0 lo EI W) as [K1 K2]. split.
  - intros r. destruct (initData strOf T ET conv junk (RRows data) _ _ CNone keepP keepF treat repl true) as [[x lo']|] eqn:EK; [|discriminate].
    cbn [rmap fst]. intros [= <-]. destruct (K1 x lo' eq_refl) as (_ & H). exact H.
  - intros P F KP KF DP DF CP CF. destruct (K2 P F KP KF DP DF) as (r & ->); [| |cbn; eauto].
    + clear - CP PP. destruct keepP as [ids|]; [|exact Logic.I]. cbn in *. destruct CP as [H1 [H2|(H2 & _)]]; [|exfalso; apply PP; exact H2]. auto.
    + clear - CF PF. destruct keepF as [ids|]; [|exact Logic.I]. cbn in *. destruct CF as [H1 [H2|(H2 & _)]]; [|exfalso; apply PF; exact H2]. auto.
Qed.
End Load.
End Save.

(** ** Without names *)
Definition unnamed (o : mobj) : mobj := {| mP := None; mF := None; mRows := mRows o; mNP := mNP o; mNF := mNF o |}.
Lemma saveList_false strOf o : saveList strOf o false = saveList strOf (unnamed o) true.
Proof. reflexivity. Qed.
Lemma saveScipy_false asFloat mmHead mmBody st o : saveScipy asFloat mmHead mmBody st o false = saveScipy asFloat mmHead mmBody st (unnamed o) true.
Proof. reflexivity. Qed.

(** ** Formats *)
Lemma lastDot_none e : ~ In "."%char e -> lastDot e = None.
Proof.
  induction e as [|c e IH]; intros H; [reflexivity|]. cbn in H. cbn [lastDot]. rewrite IH by tauto.
  destruct (Ascii.eqb_spec c "."%char); [exfalso; auto|reflexivity].
Qed.
Lemma lastDot_spec b e : ~ In "."%char e -> lastDot (b ++ "."%char :: e) = Some (b, e).
Proof.
  intros H. induction b as [|c b IH]; cbn [app lastDot]; [now rewrite lastDot_none|]. now rewrite IH.
Qed.
Lemma noSlash t : ~ In "/"%char t -> existsb (Ascii.eqb "/"%char) t = false.
Proof.
  intros H. apply Bool.not_true_is_false. intros E. apply existsb_exists in E as (c & I & E). apply Ascii.eqb_eq in E. subst. auto.
Qed.
Lemma baseName_id t : ~ In "/"%char t -> baseName t = t.
Proof. intros H. destruct t as [|c t]; [reflexivity|]. cbn [baseName]. now rewrite noSlash. Qed.
Lemma baseName_app d t : ~ In "/"%char t -> baseName ((d ++ ["/"%char]) ++ t) = t.
Proof.
  intros H. induction d as [|c d IH]; cbn [app baseName].
  - cbn [existsb]. rewrite Ascii.eqb_refl. cbn [orb]. now apply baseName_id.
  - rewrite (proj2 (existsb_exists _ _)); [exact IH|]. exists "/"%char. split; [|apply Ascii.eqb_refl]. right. rewrite !in_app_iff. cbn. auto.
Qed.
Lemma extension_spec path ext : PathIs path ext -> extension path = Some ext /\ exists b, lastDot path = Some (b, ext).
Proof.
  intros (dir & stem & -> & Hd & Hs & (c & Hc & Nc) & Ne & Nx). unfold extension. rewrite app_assoc, lastDot_spec by exact Ne.
  split; [|eauto]. rewrite noSlash by exact Nx.
  assert (B : baseName (dir ++ stem) = stem) by (destruct Hd as [-> |(d & ->)]; [now apply baseName_id|now apply baseName_app]).
  rewrite B. assert (F : forallb (Ascii.eqb "."%char) stem = false).
  { apply Bool.not_true_is_false. intros E. rewrite forallb_forall in E. specialize (E c Hc). apply Ascii.eqb_eq in E. auto. }
  now rewrite F.
Qed.
Lemma anyCase_lower ext s : AnyCase ext s -> Forall (fun d => ~ (65 <= nat_of_ascii d <= 90)) (chars s) -> lowerText ext = chars s.
Proof.
  unfold AnyCase. induction 1 as [|c d ext l H _ IH]; intros N; [reflexivity|]. inversion N; subst. cbn [lowerText map]. unfold lowerText in IH. rewrite IH by assumption. f_equal.
  unfold LogModel.lower. destruct H as [-> |[H E]].
  - destruct ((65 <=? nat_of_ascii d) && (nat_of_ascii d <=? 90)) eqn:B; [|reflexivity]. apply andb_prop in B as [B1 B2].
    apply Nat.leb_le in B1, B2. exfalso. auto.
  - rewrite (proj2 (Nat.leb_le _ _)), (proj2 (Nat.leb_le _ _)) by lia. cbn [andb]. rewrite <- E. apply ascii_nat_embedding.
Qed.
Lemma format_csv path ext : PathIs path ext -> AnyCase ext "csv" -> saveFormat path None = Ok FCsv /\
  forall content, loadFormat path content = FCsv /\ (streamFits path content = true <-> forall r, content <> chars "%%MatrixMarket" ++ r).
Proof.
  intros P A. destruct (extension_spec _ _ P) as (E & b & L). apply anyCase_lower in A; [|repeat constructor; cbn; lia].
  unfold saveFormat, streamFits, loadFormat. rewrite E, L, A. split; [reflexivity|]. intros content. split; [reflexivity|].
  change (formatOf (chars "csv")) with (Some FCsv). cbn iota.
  unfold startsWithMM. rewrite Bool.negb_true_iff. split.
  - intros H r ->. change (firstn 14 (chars "%%MatrixMarket" ++ r)) with (chars "%%MatrixMarket") in H.
    rewrite (proj2 (sameText_spec _ _) eq_refl) in H. discriminate.
  - intros H. apply Bool.not_true_is_false. rewrite sameText_spec. intros X. apply (H (skipn 14 content)). rewrite <- X. symmetry. apply firstn_skipn.
Qed.
Lemma format_mtx path ext : PathIs path ext -> AnyCase ext "mtx" -> saveFormat path None = Ok FMtx /\
  forall content, loadFormat path content = FMtx /\ (streamFits path content = true <-> exists r, content = chars "%%MatrixMarket" ++ r).
Proof.
  intros P A. destruct (extension_spec _ _ P) as (E & b & L). apply anyCase_lower in A; [|repeat constructor; cbn; lia].
  unfold saveFormat, streamFits, loadFormat. rewrite E, L, A. split; [reflexivity|]. intros content. split; [reflexivity|].
  change (formatOf (chars "mtx")) with (Some FMtx). cbn iota.
  unfold startsWithMM. split.
  - intros H. apply sameText_spec in H. exists (skipn 14 content). rewrite <- H. symmetry. apply firstn_skipn.
  - intros (r & ->). reflexivity.
Qed.
Lemma saveList_head strOf o ps fs : Rectangle o -> AxisIs (mP o) (mNP o) ps -> AxisIs (mF o) (mNF o) fs ->
  exists r, saveList strOf o true = (chars "%%MatrixMarket" ++ r, Ok tt).
Proof. intros. eexists. rewrite (saveList_text strOf o ps fs) by assumption. unfold listHead. reflexivity. Qed.

Section Both.
Variable strOf : pval -> string.
Variable floatOf : text -> option pval.
Variable mmOther : text -> result (list (list pval)).
Variable T : Type.
Variable ET : EqDec T.
Variable conv : T -> pval -> result pval.
Variable junk : nat -> nat -> pval.
Notation loadMtx := (loadMtx strOf floatOf mmOther T ET conv junk).
Lemma list_round o ps fs vs pn fn treat repl :
  Rectangle o -> AxisIs (mP o) (mNP o) ps -> AxisIs (mF o) (mNF o) fs -> Storable ps -> Storable fs ->
  Elementwise (ReadsAs strOf floatOf) (mRows o) vs ->
  plainArg pn -> plainArg fn -> addsNone ps pn (mNP o) -> addsNone fs fn (mNF o) ->
  exists t r, saveList strOf o true = (t, Ok tt) /\ loadMtx t pn fn None None treat repl true = Ok r /\
    Made treat repl (mNP o) (mNF o) (Shows ps (mNP o)) (Shows fs (mNF o)) (valueAt vs) r.
Proof.
  intros HR AP AF SP SF HE PP PF G1 G2. destruct (list_file strOf floatOf mmOther o ps fs vs HR AP AF SP SF HE) as (t & E & HF & HM).
  destruct (round_trip strOf floatOf mmOther T ET conv junk t o ps fs vs pn fn treat repl _ HR AP AF HE HF HM PP PF G1 G2) as (r & L & M). eauto.
Qed.
Lemma scipy_round asFloat mmHead mmBody st o ps fs vs pn fn treat repl :
  Rectangle o -> AxisIs (mP o) (mNP o) ps -> AxisIs (mF o) (mNF o) fs -> Storable ps -> Storable fs ->
  Elementwise (fun v w => asFloat v = Ok w) (mRows o) vs -> ScipyAgrees (mmread floatOf mmOther) mmHead mmBody vs ->
  plainArg pn -> plainArg fn -> addsNone ps pn (mNP o) -> addsNone fs fn (mNF o) ->
  exists t r, saveScipy asFloat mmHead mmBody st o true = Ok t /\ loadMtx t pn fn None None treat repl true = Ok r /\
    Made treat repl (mNP o) (mNF o) (Shows ps (mNP o)) (Shows fs (mNF o)) (valueAt vs) r.
Proof.
  intros HR AP AF SP SF HE HS PP PF G1 G2. destruct (scipy_file floatOf mmOther asFloat mmHead mmBody st o ps fs vs HR AP AF SP SF HE HS) as (t & E & HF & HM).
  destruct (round_trip strOf floatOf mmOther T ET conv junk t o ps fs vs pn fn treat repl _ HR AP AF HE HF HM PP PF G1 G2) as (r & L & M). eauto.
Qed.
Lemma list_round_false o vs pn fn treat repl :
  Rectangle o -> Elementwise (ReadsAs strOf floatOf) (mRows o) vs ->
  plainArg pn -> plainArg fn -> addsNone None pn (mNP o) -> addsNone None fn (mNF o) ->
  exists t r, saveList strOf o false = (t, Ok tt) /\ loadMtx t pn fn None None treat repl true = Ok r /\
    Made treat repl (mNP o) (mNF o) (repeat None (mNP o)) (repeat None (mNF o)) (valueAt vs) r.
Proof.
  intros. rewrite saveList_false. apply (list_round (unnamed o) None None vs pn fn treat repl); cbn; auto.
Qed.
Lemma scipy_round_false asFloat mmHead mmBody st o vs pn fn treat repl :
  Rectangle o -> Elementwise (fun v w => asFloat v = Ok w) (mRows o) vs -> ScipyAgrees (mmread floatOf mmOther) mmHead mmBody vs ->
  plainArg pn -> plainArg fn -> addsNone None pn (mNP o) -> addsNone None fn (mNF o) ->
  exists t r, saveScipy asFloat mmHead mmBody st o false = Ok t /\ loadMtx t pn fn None None treat repl true = Ok r /\
    Made treat repl (mNP o) (mNF o) (repeat None (mNP o)) (repeat None (mNF o)) (valueAt vs) r.
Proof.
  intros. rewrite saveScipy_false. apply (scipy_round asFloat mmHead mmBody st (unnamed o) None None vs pn fn treat repl); cbn; auto.
Qed.
End Both.
