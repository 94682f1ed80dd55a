From Verif Require Import Base NamesModel NamesSpec NamesProofs TableModel TableSpec TableProofs
  TableOps TableOpsProofs FlatModel FlatSpec.
From Coq Require Import Ascii.
Open Scope string_scope.
Open Scope list_scope.
Open Scope nat_scope.

(** ** Strings *)
Lemma str_app_nil_r s : (s ++ "")%string = s.
Proof. induction s; simpl; congruence. Qed.
Lemma str_app_assoc a b c : ((a ++ b) ++ c = a ++ (b ++ c))%string.
Proof. induction a; simpl; congruence. Qed.
Lemma containsSep_cons c s : containsSep s -> containsSep (String c s).
Proof. intros (a & b & ->). exists (String c a), b. reflexivity. Qed.
Lemma prefix_sep s : String.prefix sep s = true -> exists b, s = (" | " ++ b)%string.
Proof.
  unfold sep.
  destruct s as [|c1 s]; cbn [String.prefix]; [discriminate|]. destruct (ascii_dec " " c1) as [E1|]; [|discriminate].
  destruct s as [|c2 s]; cbn [String.prefix]; [discriminate|]. destruct (ascii_dec "|" c2) as [E2|]; [|discriminate].
  destruct s as [|c3 s]; cbn [String.prefix]; [discriminate|]. destruct (ascii_dec " " c3) as [E3|]; [|discriminate].
  subst.
  intros _. exists s. reflexivity.
Qed.
Lemma prefix_sep_false s : ~ containsSep s -> String.prefix sep s = false.
Proof.
  intros H. destruct (String.prefix sep s) eqn:E; auto. apply prefix_sep in E. destruct E as [b ->].
  exfalso; apply H. exists "", b. reflexivity.
Qed.
Lemma splitGo_plain f : forall acc, ~ containsSep f -> splitGo acc 0 f = [(acc ++ f)%string].
Proof.
  induction f as [|c f IH]; intros acc H.
  - simpl. rewrite str_app_nil_r. reflexivity.
  - cbn [splitGo]. rewrite prefix_sep_false by auto.
    rewrite IH. + f_equal. rewrite str_app_assoc. reflexivity.
    + intros H'. apply H, containsSep_cons; auto.
Qed.
Lemma splitGo_join p : forall acc rest, ~ containsSep (p ++ " |")%string ->
  splitGo acc 0 (p ++ sep ++ rest)%string = (acc ++ p)%string :: splitGo "" 0 rest.
Proof.
  induction p as [|c p IH]; intros acc rest H.
  - rewrite str_app_nil_r. destruct rest; reflexivity.
  - change ((String c p ++ sep ++ rest)%string) with (String c (p ++ sep ++ rest)%string).
    cbn [splitGo].
    assert (E : String.prefix sep (String c (p ++ sep ++ rest)%string) = false).
    { destruct (String.prefix sep _) eqn:E; auto. exfalso. apply prefix_sep in E. destruct E as [b E].
      destruct p as [|c1 p].
      - unfold sep in E. simpl in E. injection E as _ E. discriminate.
      - simpl in E. injection E as -> -> E. destruct p as [|c2 p].
        + apply H. exists "", "|". reflexivity.
        + simpl in E. injection E as -> E. apply H. exists "", (p ++ " |")%string. reflexivity. }
    rewrite E. rewrite IH. + f_equal. rewrite str_app_assoc. reflexivity.
    + intros H'. apply H. simpl. apply containsSep_cons; auto.
Qed.
Lemma splitSep_joined p f : ~ containsSep (p ++ " |")%string -> ~ containsSep f ->
  splitSep (joined p f) = [p; f].
Proof.
  intros Hp Hf. unfold splitSep, joined. rewrite splitGo_join by auto. rewrite splitGo_plain by auto. reflexivity.
Qed.

Fixpoint noBar (s : string) : Prop := match s with EmptyString => True | String c r => c <> "|"%char /\ noBar r end.
Lemma noBar_app a b : noBar a -> noBar b -> noBar (a ++ b)%string.
Proof. induction a; simpl; tauto. Qed.
Lemma noBar_contains_bar s : noBar s -> ~ containsSep (s ++ " |")%string.
Proof.
  intros H (a & b & E). revert s H E. induction a as [|c a IH]; intros s H E.
  - destruct s as [|c1 s]; [discriminate|]. simpl in E. injection E as -> E.
    destruct s as [|c2 s]; [discriminate|]. simpl in E. injection E as -> E. simpl in H. tauto.
  - destruct s as [|c1 s].
    + simpl in E. injection E as <- E. destruct a as [|c2 a]; simpl in E; [discriminate|].
      injection E as <- E. destruct a; discriminate.
    + simpl in E. injection E as -> E. simpl in H. apply (IH s); tauto.
Qed.
Lemma noBar_contains s : noBar s -> ~ containsSep s.
Proof.
  intros H (a & b & E). revert s H E. induction a as [|c a IH]; intros s H E; subst; simpl in H.
  - destruct H as (_ & H & _). congruence.
  - apply (IH (a ++ " | " ++ b)%string); tauto.
Qed.
Lemma noBar_dec10 n : noBar (dec10 n).
Proof. unfold dec10. induction (Nat.to_uint n); simpl; auto; split; auto; discriminate. Qed.

(** ** Labels *)
Lemma labels_length g l : forall i, List.length (labels g i l) = List.length l.
Proof. induction l; simpl; auto. Qed.
Lemma labels_nth g l : forall i k, nth_error (labels g i l) k = option_map (g (i + k)) (nth_error l k).
Proof.
  induction l as [|o l IH]; intros i [|k]; simpl; auto.
  - rewrite Nat.add_0_r. reflexivity.
  - rewrite IH. do 2 f_equal. lia.
Qed.
Definition lab (sd : side) := match sd with Pts => ptLabel dec10 | Fts => ftLabel dec10 end.
Definition pre (sd : side) := match sd with Pts => "_PT#" | Fts => "_FT#" end.
Lemma prefix_app a b : String.prefix a (a ++ b)%string = true.
Proof.
  induction a as [|c a IH]; [destruct b; reflexivity|].
  cbn [String.append String.prefix]. destruct (ascii_dec c c) as [_|n]; [exact IH|congruence].
Qed.
Lemma str_app_inv_head a b c : (a ++ b = a ++ c)%string -> b = c.
Proof. induction a; simpl; auto. intros [= H]; auto. Qed.

(** Facts about the labels of a flattenable axis. *)
Lemma labels_facts sd a : Inv a -> flattenable sd (getNames a) ->
  let ls := labels (lab sd) 0 (getNames a) in
  NoDup ls /\
  (forall s, In s ls -> ~ containsSep (match sd with Pts => s ++ " |" | Fts => s end)%string) /\
  (((forall s, In s ls -> String.prefix (pre sd) s = true) /\ getNames a = repeat None (alen a)) \/
   ((forall s, In s ls -> String.prefix (pre sd) s = false) /\ getNames a = map Some ls)).
Proof.
  intros Ha [HN|HS] ls.
  - assert (Hl : forall k s, nth_error ls k = Some s -> s = lab sd k None /\ k < alen a).
    { intros k s H. unfold ls in H. rewrite labels_nth in H. simpl in H.
      destruct (nth_error (getNames a) k) eqn:E; [|discriminate]. simpl in H. injection H as <-.
      rewrite (HN o) by (eapply nth_error_In; eauto). split; auto.
      apply nth_error_lt in E. rewrite getNames_length in E; auto. }
    split; [|split; [|left; split]].
    + apply NoDup_nth_error. intros i j Hi E.
      destruct (nth_error_is_some ls Hi) as [x Hx]. rewrite Hx in E. symmetry in E.
      apply Hl in Hx. apply Hl in E. destruct Hx as [-> _], E as [E _].
      destruct sd; unfold lab, ptLabel, ftLabel in E; apply str_app_inv_head in E; apply dec10_inj; auto.
    + intros s Hs. apply In_nth_error in Hs. destruct Hs as [k Hk]. apply Hl in Hk. destruct Hk as [-> _].
      destruct sd; unfold lab, ptLabel, ftLabel; [apply noBar_contains_bar|apply noBar_contains];
        (apply noBar_app; [simpl; repeat split; discriminate | apply noBar_dec10]).
    + intros s Hs. apply In_nth_error in Hs. destruct Hs as [k Hk]. apply Hl in Hk. destruct Hk as [-> _].
      destruct sd; unfold lab, ptLabel, ftLabel, pre; apply prefix_app.
    + apply nth_error_ext_len.
      * rewrite repeat_length. apply getNames_length; auto.
      * intros i Hi. destruct (nth_error_is_some (getNames a) Hi) as [o Ho]. rewrite Ho.
        rewrite (HN o) by (eapply nth_error_In; eauto).
        rewrite getNames_length in Hi by auto.
        symmetry. rewrite (nth_error_nth' _ None) by (rewrite repeat_length; auto).
        f_equal. apply nth_repeat.
  - assert (Hl : forall k, nth_error (getNames a) k = option_map Some (nth_error ls k)).
    { intros k. unfold ls. rewrite labels_nth. destruct (nth_error (getNames a) k) eqn:E; auto.
      destruct (HS o) as (s & -> & _); [eapply nth_error_In; eauto|]. simpl. destruct sd; reflexivity. }
    assert (Hm : getNames a = map Some ls).
    { apply nth_error_ext; intros k. rewrite Hl, nth_error_map_eq. reflexivity. }
    assert (Hin : forall s, In s ls -> In (Some s) (getNames a)).
    { intros s Hs. rewrite Hm. apply in_map; auto. }
    split; [|split; [|right; split]]; auto.
    + apply NoDup_nth_error. intros i j Hi E.
      destruct (nth_error_is_some ls Hi) as [x Hx].
      eapply (Inv_names_distinct a Ha i j x); rewrite Hl; [rewrite Hx | rewrite <- E, Hx]; reflexivity.
    + intros s Hs. destruct (HS _ (Hin s Hs)) as (s' & [= <-] & _ & H). exact H.
    + intros s Hs. destruct (HS _ (Hin s Hs)) as (s' & [= <-] & H & _). destruct sd; exact H.
Qed.

(** ** collectNames *)
Lemma addName_seen pr l : forall acc, (forall x, In x l -> In (Some x) (fst acc)) ->
  fold_left (addName pr) l acc = acc.
Proof.
  induction l as [|x l IH]; intros acc H; simpl; auto.
  unfold addName at 2. rewrite (proj2 (mem_In _ _)) by (apply H; left; auto). apply IH. intros; apply H; right; auto.
Qed.
Lemma addName_new pr l : forall acc, NoDup l -> (forall x, In x l -> ~ In (Some x) (fst acc)) ->
  (forall x, In x l -> String.prefix pr x = false) ->
  fold_left (addName pr) l acc = (fst acc ++ map Some l, match l with [] => snd acc | _ => false end).
Proof.
  induction l as [|x l IH]; intros acc Hd Hn Hp; simpl.
  - rewrite app_nil_r. destruct acc; auto.
  - inversion Hd; subst. unfold addName at 2.
    rewrite (proj2 (mem_not_In _ _)) by (apply Hn; left; auto). rewrite Hp by (left; auto).
    rewrite IH; auto; simpl.
    + rewrite <- app_assoc. simpl. destruct l; auto.
    + intros y Hy Hc. apply in_app_or in Hc. destruct Hc as [Hc|[Hc|[]]].
      * apply (Hn y); [right; auto|auto].
      * injection Hc as <-. contradiction.
    + intros; apply Hp; right; auto.
Qed.
Lemma addName_default pr l : forall acc, (forall x, In x l -> String.prefix pr x = true) ->
  snd (fold_left (addName pr) l acc) = snd acc.
Proof.
  induction l as [|x l IH]; intros acc H; simpl; auto. rewrite IH by (intros; apply H; right; auto).
  unfold addName. destruct (mem _ _); auto. rewrite H by (left; auto). reflexivity.
Qed.
Lemma collect_default pr l : (forall x, In x l -> String.prefix pr x = true) -> collectNames pr l = None.
Proof.
  intros H. unfold collectNames. pose proof (addName_default pr l ([], true) H).
  destruct (fold_left _ _ _). simpl in *. subst. reflexivity.
Qed.
Lemma fold_blocks {B} pr (ys : list B) xs : ys <> [] -> forall acc, NoDup xs ->
  (forall x, In x xs -> ~ In (Some x) (fst acc)) -> (forall x, In x xs -> String.prefix pr x = false) ->
  fold_left (addName pr) (flat_map (fun x => map (fun _ => x) ys) xs) acc
  = (fst acc ++ map Some xs, match xs with [] => snd acc | _ => false end).
Proof.
  intros Hy. induction xs as [|x xs IH]; intros acc Hd Hn Hp; simpl.
  - rewrite app_nil_r. destruct acc; auto.
  - inversion Hd; subst. rewrite fold_left_app.
    assert (E : fold_left (addName pr) (map (fun _ => x) ys) acc = (fst acc ++ [Some x], false)).
    { destruct ys as [|y ys]; [congruence|]. cbn [map fold_left]. unfold addName at 2.
      rewrite (proj2 (mem_not_In _ _)) by (apply Hn; left; auto). rewrite Hp by (left; auto).
      apply addName_seen. intros z Hz. simpl. apply in_map_iff in Hz. destruct Hz as (_ & <- & _).
      apply in_or_app; right; left; auto. }
    rewrite E, IH; auto; cbn [fst snd].
    + rewrite <- app_assoc. simpl. destruct xs; auto.
    + intros z Hz Hc. apply in_app_or in Hc. destruct Hc as [Hc|[Hc|[]]].
      * apply (Hn z); [right; auto|auto].
      * injection Hc as <-. contradiction.
    + intros; apply Hp; right; auto.
Qed.
Lemma collect_blocks {B} pr (ys : list B) xs : ys <> [] -> xs <> [] -> NoDup xs ->
  (forall x, In x xs -> String.prefix pr x = false) ->
  collectNames pr (flat_map (fun x => map (fun _ => x) ys) xs) = Some (map Some xs).
Proof.
  intros Hy Hx Hd Hp. unfold collectNames. rewrite fold_blocks; auto. simpl.
  destruct xs; [congruence|]; reflexivity.
Qed.
Lemma collect_cycles {B} pr (ys : list B) xs : ys <> [] -> xs <> [] -> NoDup xs ->
  (forall x, In x xs -> String.prefix pr x = false) ->
  collectNames pr (flat_map (fun _ => xs) ys) = Some (map Some xs).
Proof.
  intros Hy Hx Hd Hp. unfold collectNames. destruct ys as [|y ys]; [congruence|]. simpl.
  rewrite fold_left_app, (addName_new pr xs ([], true)); auto; simpl.
  rewrite addName_seen; [destruct xs; [congruence|]; reflexivity|].
  intros x H. simpl. apply in_flat_map in H. destruct H as (_ & _ & H). apply in_map; auto.
Qed.

(** ** Data *)
Section Data.
Variable V : Type.
Implicit Types t : table V.
Definition flatVec (order : side) t : list V := List.concat (flattenRows order t).
Lemma flattenRows_single order t : flattenRows order t = [flatVec order t].
Proof. unfold flatVec. destruct order; simpl; rewrite app_nil_r; reflexivity. Qed.
Lemma flatVec_Pts t : flatVec Pts t = flat_map (fun r => r) (rows t).
Proof. unfold flatVec; simpl. rewrite app_nil_r. rewrite flat_map_concat_map, map_id. reflexivity. Qed.
Lemma flatVec_Fts t : flatVec Fts t = flat_map (fun j => column t j) (seq 0 (alen (tf t))).
Proof. unfold flatVec; simpl. rewrite app_nil_r. reflexivity. Qed.
Lemma column_length_wf t j : wf t -> j < alen (tf t) -> List.length (column t j) = alen (tp t).
Proof.
  intros (H1 & H2 & _) Hj. unfold column. rewrite <- H1. clear H1.
  induction (rows t) as [|r rs IH]; simpl; auto.
  destruct (nth_error_is_some r (i:=j)) as [x Hx]; [rewrite H2 by (left; auto); auto|].
  rewrite Hx. simpl. f_equal. apply IH. intros; apply H2; right; auto.
Qed.
Lemma flatVec_length order t : wf t -> List.length (flatVec order t) = alen (tp t) * alen (tf t).
Proof.
  intros Hw. destruct order.
  - rewrite flatVec_Pts. destruct Hw as (H1 & H2 & _).
    rewrite (flat_map_const_length _ _ (alen (tf t))); auto. lia.
  - rewrite flatVec_Fts. rewrite (flat_map_const_length _ _ (alen (tp t))).
    + rewrite seq_length. lia.
    + intros j Hj. apply in_seq in Hj. apply column_length_wf; auto; lia.
Qed.
Lemma flatVec_nth order t i j : wf t -> i < alen (tp t) -> j < alen (tf t) ->
  nth_error (flatVec order t) (flatPos order (alen (tp t)) (alen (tf t)) i j) = cell t i j.
Proof.
  intros Hw Hi Hj. destruct order; unfold flatPos.
  - rewrite flatVec_Pts. rewrite (flat_map_const_nth _ _ (alen (tf t))); [|apply Hw|lia].
    rewrite Nat.div_add_l, Nat.div_small, Nat.add_0_r by lia.
    rewrite Nat.add_comm, Nat.mod_add, Nat.mod_small by lia. reflexivity.
  - rewrite flatVec_Fts. rewrite (flat_map_const_nth _ _ (alen (tp t))); [| |lia].
    + rewrite Nat.div_add_l, Nat.div_small, Nat.add_0_r by lia.
      rewrite Nat.add_comm, Nat.mod_add, Nat.mod_small by lia.
      rewrite nth_error_seq, (proj2 (Nat.ltb_lt _ _)) by auto. simpl. apply column_nth_wf; auto.
    + intros k Hk. apply in_seq in Hk. apply column_length_wf; auto; lia.
Qed.

Lemma stride_nth (data : list V) i step count : 
  (forall k, k < count -> i + k * step < List.length data) ->
  List.length (stride data i step count) = count /\
  forall k, nth_error (stride data i step count) k = if k <? count then nth_error data (i + k * step) else None.
Proof.
  intros H. unfold stride.
  assert (G : stride data i step count = selected (map (fun k => i + k * step) (seq 0 count)) data).
  { unfold stride, selected. rewrite !flat_map_concat_map, map_map. reflexivity. }
  unfold stride in G. rewrite G.
  assert (R : forall x, In x (map (fun k => i + k * step) (seq 0 count)) -> x < List.length data).
  { intros x Hx. apply in_map_iff in Hx. destruct Hx as (k & <- & Hk). apply in_seq in Hk. apply H; lia. }
  split.
  - rewrite selected_length by auto. rewrite map_length, seq_length. reflexivity.
  - intros k. rewrite selected_nth by auto. rewrite nth_error_map_eq, nth_error_seq.
    destruct (k <? count); reflexivity.
Qed.
Lemma unflattenRows_spec np nf order (data : list V) : List.length data = np * nf ->
  List.length (unflattenRows np nf order data) = np /\
  (forall r, In r (unflattenRows np nf order data) -> List.length r = nf) /\
  forall i j, i < np -> j < nf -> exists r, nth_error (unflattenRows np nf order data) i = Some r /\
    nth_error r j = nth_error data (flatPos order np nf i j).
Proof.
  intros Hl.
  assert (HP : forall i, i < np -> i * nf + nf <= np * nf) by (intros; nia).
  assert (HF : forall i k, i < np -> k < nf -> i + k * np < List.length data) by (intros; rewrite Hl; nia).
  destruct order; unfold unflattenRows, flatPos; (split; [rewrite map_length, seq_length; reflexivity|split]).
  - intros r Hr. apply in_map_iff in Hr. destruct Hr as (i & <- & Hi). apply in_seq in Hi.
    rewrite firstn_length, skipn_length, Hl. specialize (HP i). lia.
  - intros i j Hi Hj. eexists. rewrite nth_error_map_eq, nth_error_seq, (proj2 (Nat.ltb_lt _ _)) by auto.
    split; [reflexivity|]. simpl. rewrite nth_error_firstn, (proj2 (Nat.ltb_lt _ _)), nth_error_skipn by auto. reflexivity.
  - intros r Hr. apply in_map_iff in Hr. destruct Hr as (i & <- & Hi). apply in_seq in Hi.
    apply stride_nth. intros; apply HF; lia.
  - intros i j Hi Hj. eexists. rewrite nth_error_map_eq, nth_error_seq, (proj2 (Nat.ltb_lt _ _)) by auto.
    split; [reflexivity|]. simpl. destruct (stride_nth data i np nf) as [_ E]; [intros; apply HF; auto|].
    rewrite E, (proj2 (Nat.ltb_lt _ _)) by auto. f_equal. lia.
Qed.
Lemma unflatten_flatVec order t : wf t ->
  unflattenRows (alen (tp t)) (alen (tf t)) order (flatVec order t) = rows t.
Proof.
  intros Hw. destruct (unflattenRows_spec (alen (tp t)) (alen (tf t)) order (flatVec order t)) as (H1 & H2 & H3).
  { apply flatVec_length; auto. }
  apply nth_error_ext_len. { rewrite H1. symmetry. apply Hw. }
  intros i Hi. rewrite H1 in Hi.
  destruct (nth_error_is_some (unflattenRows (alen (tp t)) (alen (tf t)) order (flatVec order t)) (i:=i)) as [r Hr]; [lia|].
  destruct (nth_error_is_some (rows t) (i:=i)) as [r' Hr']; [destruct Hw; lia|].
  rewrite Hr, Hr'. f_equal. pose proof (H2 r (nth_error_In _ _ Hr)) as L.
  assert (L' : List.length r' = alen (tf t)) by (apply Hw; eapply nth_error_In; eauto).
  apply nth_error_ext_len; [lia|]. intros j Hj.
  destruct (H3 i j) as (r2 & E1 & E2); try lia. rewrite Hr in E1. injection E1 as <-.
  rewrite E2, flatVec_nth by (auto; lia). unfold cell. rewrite Hr'. reflexivity.
Qed.

Lemma flatten_rows order t : 0 < alen (tp t) -> 0 < alen (tf t) ->
  rows (fst (flatten dec10 order t)) = [flatVec order t] /\
  alen (tp (fst (flatten dec10 order t))) = 1 /\
  alen (tf (fst (flatten dec10 order t))) = alen (tp t) * alen (tf t).
Proof.
  intros Hp Hf. unfold flatten.
  rewrite (proj2 (Nat.eqb_neq (alen (tp t)) 0)), (proj2 (Nat.eqb_neq (alen (tf t)) 0)) by lia.
  rewrite flattenRows_single.
  set (asg := if _ || _ then _ else _).
  assert (Ha : asg = ANone \/ exists l, asg = AList l).
  { unfold asg. destruct (_ || _); eauto. }
  clearbody asg. set (fa := mkAxis (alen (tp t) * alen (tf t)) (astate (tf t))).
  assert (L : alen (fst (setNames fa asg ONone)) = alen (tp t) * alen (tf t)).
  { destruct Ha as [->|[l ->]]; [reflexivity|]. rewrite setNames_list_len. reflexivity. }
  destruct (setNames fa asg ONone) as [fa' r]. simpl in L.
  destruct r; [|simpl; auto].
  pose proof (setNames_list_len (mkAxis 1 (astate (tp t))) [NStr "Flattened"]) as L1.
  destruct (setNames (mkAxis 1 (astate (tp t))) (AList [NStr "Flattened"]) ONone) as [pa' r'].
  simpl in *. auto.
Qed.
End Data.

(** ** Names *)
Lemma setOpt n junk (o : option (list (option string))) :
  match o with
  | Some l => List.length l = n /\
      forall i j s, nth_error l i = Some (Some s) -> nth_error l j = Some (Some s) -> i = j
  | None => True end ->
  exists a, setNames (mkAxis n junk) (namesArg o) ONone = (a, Ok tt) /\ Inv a /\ alen a = n /\
    getNames a = match o with Some l => l | None => repeat None n end /\
    namesCreated a = match o with Some _ => true | None => false end.
Proof.
  destruct o as [l|]; cbn [namesArg].
  - intros [Hl Hd].
    destruct (setNames_list_accept (mkAxis n junk) (map to_newname l)) as [A B].
    { rewrite map_length; auto. } { apply list_acceptable_names; auto. }
    pose proof (setNames_list_accept_Inv (mkAxis n junk) (map to_newname l)) as C.
    rewrite map_length in C. specialize (C Hl A).
    pose proof (setNames_list_len (mkAxis n junk) (map to_newname l)) as D.
    rewrite newname_opt_to in B.
    assert (N : namesCreated (fst (setNames (mkAxis n junk) (AList (map to_newname l)) ONone)) = true).
    { revert A. cbn [setNames]. unfold setNames_all. destruct (negb _); [discriminate|].
      destruct (_ =? 0); [reflexivity|]. destruct (rbind _ _); [reflexivity|discriminate]. }
    destruct (setNames _ _ _) as [a r]. cbn [fst snd] in *. exists a. subst r. auto.
  - intros _. exists (mkAxis n None). repeat split; auto.
Qed.

Lemma NoDup_app_intro {A} (l l' : list A) : NoDup l -> NoDup l' -> (forall x, In x l -> ~ In x l') -> NoDup (l ++ l').
Proof.
  induction l as [|x l IH]; simpl; auto. intros H H' Hd. inversion H; subst. constructor.
  - intros Hc. apply in_app_or in Hc. destruct Hc; [contradiction|]. apply (Hd x); auto.
  - apply IH; auto.
Qed.
Lemma NoDup_flat_map {A B} (f : A -> list B) l : NoDup l -> (forall x, In x l -> NoDup (f x)) ->
  (forall x y b, In x l -> In y l -> In b (f x) -> In b (f y) -> x = y) -> NoDup (flat_map f l).
Proof.
  induction l as [|x l IH]; simpl; intros Hd Hf Hx; [constructor|].
  inversion Hd; subst. apply NoDup_app_intro; auto.
  - apply IH; auto. intros; eapply Hx; eauto.
  - intros b Hb Hc. apply in_flat_map in Hc. destruct Hc as (y & Hy & Hb').
    assert (x = y) by (eapply Hx; eauto). subst; contradiction.
Qed.

Definition prs (order : side) (ps fs : list string) : list (string * string) :=
  match order with
  | Pts => flat_map (fun p => map (fun f => (p, f)) fs) ps
  | Fts => flat_map (fun f => map (fun p => (p, f)) ps) fs
  end.
Lemma map_flat_map {A B C} (g : B -> C) (f : A -> list B) l : map g (flat_map f l) = flat_map (fun x => map g (f x)) l.
Proof. induction l; simpl; auto. rewrite map_app. congruence. Qed.
Lemma In_prs order ps fs x : In x (prs order ps fs) -> In (fst x) ps /\ In (snd x) fs.
Proof.
  destruct order; simpl; intros H; apply in_flat_map in H; destruct H as (a & Ha & H);
  apply in_map_iff in H; destruct H as (b & <- & Hb); auto.
Qed.
Lemma prs_NoDup order ps fs : NoDup ps -> NoDup fs -> NoDup (prs order ps fs).
Proof.
  intros Hp Hf. destruct order; simpl; apply NoDup_flat_map; auto.
  - intros x _. apply FinFun.Injective_map_NoDup; auto. intros a b [= ->]; auto.
  - intros x y b _ _ H1 H2. apply in_map_iff in H1, H2. destruct H1 as (? & <- & _), H2 as (? & E & _). congruence.
  - intros x _. apply FinFun.Injective_map_NoDup; auto. intros a b [= ->]; auto.
  - intros x y b _ _ H1 H2. apply in_map_iff in H1, H2. destruct H1 as (? & <- & _), H2 as (? & E & _). congruence.
Qed.
Lemma prs_length order ps fs : List.length (prs order ps fs) = List.length ps * List.length fs.
Proof.
  destruct order; simpl.
  - rewrite (flat_map_const_length _ _ (List.length fs)); [lia|]. intros; apply map_length.
  - rewrite (flat_map_const_length _ _ (List.length ps)); [lia|]. intros; apply map_length.
Qed.
Lemma splitAll_prs l : (forall x, In x l -> ~ containsSep (fst x ++ " |")%string /\ ~ containsSep (snd x)) ->
  splitAll (map Some (map (fun x => joined (fst x) (snd x)) l)) = Some l.
Proof.
  induction l as [|[p f] l IH]; intros H; [reflexivity|]. cbn [map splitAll fst snd].
  rewrite splitSep_joined by (apply (H (p, f)); left; auto). rewrite IH by (intros; apply H; right; auto). reflexivity.
Qed.
Lemma joined_NoDup l : NoDup l -> (forall x, In x l -> ~ containsSep (fst x ++ " |")%string /\ ~ containsSep (snd x)) ->
  NoDup (map (fun x => joined (fst x) (snd x)) l).
Proof.
  intros Hd H. induction l as [|x l IH]; simpl; [constructor|]. inversion Hd; subst. constructor.
  - intros Hc. apply in_map_iff in Hc. destruct Hc as (y & E & Hy).
    assert (Ex := f_equal splitSep E).
    rewrite !splitSep_joined in Ex by (apply H; simpl; auto). injection Ex as E1 E2.
    destruct x, y; simpl in *; subst; contradiction.
  - apply IH; auto. intros; apply H; right; auto.
Qed.

Section NamesRT.
Variable V : Type.
Implicit Types t : table V.
Lemma flattenNames_prs order t : flattenNames dec10 order t =
  map (fun x => joined (fst x) (snd x))
    (prs order (labels (lab Pts) 0 (getNames (tp t))) (labels (lab Fts) 0 (getNames (tf t)))).
Proof.
  unfold flattenNames, prs, lab. destruct order; rewrite map_flat_map; apply flat_map_ext; intros a;
  rewrite map_map; reflexivity.
Qed.
Lemma nonempty_length {A} (l : list A) : 0 < List.length l -> l <> [].
Proof. destruct l; simpl; [lia|discriminate]. Qed.

Lemma collect_axis order sd t ps fs : Inv (ax sd t) -> flattenable sd (getNames (ax sd t)) ->
  ps <> [] -> fs <> [] ->
  labels (lab sd) 0 (getNames (ax sd t)) = (match sd with Pts => ps | Fts => fs end) ->
  let c := collectNames (pre sd) (map (match sd with Pts => fst | Fts => snd end) (prs order ps fs)) in
  match fitNames c (alen (ax sd t)) with
  | Some l => l = getNames (ax sd t)
  | None => getNames (ax sd t) = repeat None (alen (ax sd t))
  end.
Proof.
  intros Ha Hf Hps Hfs El c.
  destruct (labels_facts sd (ax sd t) Ha Hf) as (Hd & _ & Hc). rewrite El in Hd, Hc.
  assert (Hlen : List.length (match sd with Pts => ps | Fts => fs end) = alen (ax sd t)).
  { rewrite <- El, labels_length. apply getNames_length; auto. }
  assert (Sh : (exists B (ys : list B), ys <> [] /\
      (map (match sd with Pts => fst | Fts => snd end) (prs order ps fs) =
         flat_map (fun x => map (fun _ => x) ys) (match sd with Pts => ps | Fts => fs end) \/
       map (match sd with Pts => fst | Fts => snd end) (prs order ps fs) =
         flat_map (fun _ => match sd with Pts => ps | Fts => fs end) ys))).
  { destruct order, sd; simpl; rewrite map_flat_map.
    - exists string, fs. split; auto. left. apply flat_map_ext; intros a. rewrite map_map. reflexivity.
    - exists string, ps. split; auto. right. apply flat_map_ext; intros a. rewrite map_map, map_id. reflexivity.
    - exists string, fs. split; auto. right. apply flat_map_ext; intros a. rewrite map_map, map_id. reflexivity.
    - exists string, ps. split; auto. left. apply flat_map_ext; intros a. rewrite map_map. reflexivity. }
  assert (Hne : match sd with Pts => ps | Fts => fs end <> []) by (destruct sd; auto).
  destruct Hc as [[Hp En]|[Hp En]].
  - assert (Ec : c = None).
    { apply collect_default. intros x Hx. apply Hp. apply in_map_iff in Hx. destruct Hx as (y & <- & Hy).
      apply In_prs in Hy. destruct sd; tauto. }
    rewrite Ec. simpl. auto.
  - assert (Ec : c = Some (map Some (match sd with Pts => ps | Fts => fs end))).
    { unfold c. destruct Sh as (B & ys & Hy & [->| ->]); [apply collect_blocks|apply collect_cycles]; auto. }
    rewrite Ec. rewrite En. unfold fitNames. rewrite map_length, Hlen, Nat.eqb_refl.
    destruct (match sd with Pts => ps | Fts => fs end); [congruence|]. reflexivity.
Qed.

Lemma roundtrip_names order t : wf t -> 0 < alen (tp t) -> 0 < alen (tf t) -> 1 < alen (tp t) * alen (tf t) ->
  flattenable Pts (getNames (tp t)) -> flattenable Fts (getNames (tf t)) ->
  exists t1 t2, flatten dec10 order t = (t1, Ok tt) /\ wf t1 /\
    unflatten (alen (tp t)) (alen (tf t)) order t1 = (t2, Ok tt) /\ wf t2 /\
    rows t2 = rows t /\ getNames (tp t2) = getNames (tp t) /\ getNames (tf t2) = getNames (tf t).
Proof.
  intros Hw Hp Hf Hpf HP HF.
  pose proof (wf_Inv V Pts t Hw) as IP. pose proof (wf_Inv V Fts t Hw) as IF. cbn [ax] in IP, IF.
  destruct (labels_facts Pts (tp t) IP HP) as (DP & CP & _).
  destruct (labels_facts Fts (tf t) IF HF) as (DF & CF & _).
  set (ps := labels (lab Pts) 0 (getNames (tp t))) in *.
  set (fs := labels (lab Fts) 0 (getNames (tf t))) in *.
  assert (LP : List.length ps = alen (tp t)) by (unfold ps; rewrite labels_length; apply getNames_length; auto).
  assert (LF : List.length fs = alen (tf t)) by (unfold fs; rewrite labels_length; apply getNames_length; auto).
  assert (Hgood : forall x, In x (prs order ps fs) -> ~ containsSep (fst x ++ " |")%string /\ ~ containsSep (snd x)).
  { intros x Hx. apply In_prs in Hx. split; [apply CP|apply CF]; tauto. }
  set (J := map (fun x => joined (fst x) (snd x)) (prs order ps fs)).
  assert (DJ : NoDup J) by (apply joined_NoDup; auto; apply prs_NoDup; auto).
  assert (LJ : List.length J = alen (tp t) * alen (tf t)) by (unfold J; rewrite map_length, prs_length; congruence).
  assert (IA : wf (mkTable (tp t) (tf t) (rows t))) by (destruct t; auto). clear IA.
  assert (E0 : flattenNames dec10 order t = J) by apply flattenNames_prs.
  destruct (flatten_rows V order t Hp Hf) as (R1 & R2 & R3).
  unfold flatten in *.
  rewrite (proj2 (Nat.eqb_neq (alen (tp t)) 0)), (proj2 (Nat.eqb_neq (alen (tf t)) 0)) in * by lia.
  rewrite E0 in *.
  set (created := namesCreated (tp t) || namesCreated (tf t)) in *.
  set (o := if created then Some (map Some J) else None).
  assert (Ho : (if created then AList (map NStr J) else ANone) = namesArg o).
  { unfold o. destruct created; simpl; auto. rewrite map_map. reflexivity. }
  rewrite Ho in *.
  destruct (setOpt (alen (tp t) * alen (tf t)) (astate (tf t)) o) as (fa & Efa & Ifa & Lfa & Nfa & Cfa).
  { unfold o. destruct created; auto. split; [rewrite map_length; auto|].
    intros i j s Hi Hj. rewrite nth_error_map_eq in Hi, Hj.
    destruct (nth_error J i) eqn:Ei; [|discriminate]. destruct (nth_error J j) eqn:Ej; [|discriminate].
    injection Hi as ->. injection Hj as ->. eapply NoDup_nth_error_inj; eauto. }
  destruct (setOpt 1 (astate (tp t)) (Some [Some "Flattened"])) as (pa & Epa & Ipa & Lpa & Npa & Cpa).
  { split; auto. intros [|[]] [|[]]; simpl; intros; try discriminate; auto. }
  cbn [namesArg map to_newname] in Epa.
  rewrite Efa, Epa in *. cbn [fst rows] in R1, R2, R3. rewrite R1.
  exists (mkTable pa fa [flatVec V order t]).
  assert (U : unflatten (alen (tp t)) (alen (tf t)) order (mkTable pa fa [flatVec V order t]) =
     let '(pn, fn) := unflattenNames (mkTable pa fa [flatVec V order t]) in
     let '(pa', r) := setNames (mkAxis (alen (tp t)) (astate pa)) (namesArg (fitNames pn (alen (tp t)))) ONone in
     match r with
     | Err e => (mkTable pa' (mkAxis (alen (tf t)) (astate fa)) (rows t), Err e)
     | Ok _ =>
        let '(fa', r') := setNames (mkAxis (alen (tf t)) (astate fa)) (namesArg (fitNames fn (alen (tf t)))) ONone in
        (mkTable pa' fa' (rows t), r')
     end).
  { unfold unflatten. cbn [tp tf rows]. rewrite Lpa, Lfa.
    rewrite (proj2 (Nat.eqb_neq (alen (tp t) * alen (tf t)) 0)) by lia. cbn [Nat.eqb orb negb andb].
    rewrite Nat.mul_1_l, Nat.eqb_refl. cbn [negb]. cbn [List.concat]. rewrite app_nil_r.
    rewrite unflatten_flatVec by auto. reflexivity. }
  assert (NP : match fitNames (fst (unflattenNames (mkTable pa fa [flatVec V order t]))) (alen (tp t)) with
               | Some l => l = getNames (tp t) | None => getNames (tp t) = repeat None (alen (tp t)) end /\
               match fitNames (snd (unflattenNames (mkTable pa fa [flatVec V order t]))) (alen (tf t)) with
               | Some l => l = getNames (tf t) | None => getNames (tf t) = repeat None (alen (tf t)) end).
  { unfold unflattenNames. cbn [tp tf]. rewrite Lpa, Lfa, Cfa. change (1 <? 1) with false. cbn [andb].
    unfold o. destruct created eqn:Ecr.
    - rewrite (proj2 (Nat.ltb_lt _ _)) by auto. cbn [andb]. rewrite Nfa. unfold o.
      destruct (map Some J) as [|x0 l0] eqn:EJ.
      { apply (f_equal (@List.length _)) in EJ. rewrite map_length in EJ. simpl in EJ. lia. }
      rewrite <- EJ. unfold J. rewrite splitAll_prs by auto. cbn [fst snd]. split.
      + apply (collect_axis order Pts t ps fs); auto; apply nonempty_length; lia.
      + apply (collect_axis order Fts t ps fs); auto; apply nonempty_length; lia.
    - rewrite Bool.andb_false_r. cbn [fst snd fitNames].
      unfold created in Ecr. apply Bool.orb_false_iff in Ecr. destruct Ecr as [C1 C2].
      unfold namesCreated in C1, C2. unfold getNames, ensure, names_inv, setAllDefault, namesCreated.
      destruct (astate (tp t)) eqn:A1; [discriminate|]. destruct (astate (tf t)) eqn:A2; [discriminate|].
      simpl. auto. }
  destruct (unflattenNames (mkTable pa fa [flatVec V order t])) as [pn fn]. cbn [fst snd] in NP. destruct NP as [NP NF].
  destruct (setOpt (alen (tp t)) (astate pa) (fitNames pn (alen (tp t)))) as (pa2 & Epa2 & Ipa2 & Lpa2 & Npa2 & _).
  { destruct (fitNames pn (alen (tp t))); auto. subst. split; [apply getNames_length; auto|apply Inv_names_distinct; auto]. }
  destruct (setOpt (alen (tf t)) (astate fa) (fitNames fn (alen (tf t)))) as (fa2 & Efa2 & Ifa2 & Lfa2 & Nfa2 & _).
  { destruct (fitNames fn (alen (tf t))); auto. subst. split; [apply getNames_length; auto|apply Inv_names_distinct; auto]. }
  rewrite Epa2, Efa2 in U.
  exists (mkTable pa2 fa2 (rows t)). split; [reflexivity|]. split; [|split; [exact U|]].
  - repeat split; cbn [tp tf rows]; auto.
    intros r [<-|[]]. rewrite flatVec_length; auto.
  - repeat split; cbn [tp tf rows]; auto.
    + rewrite Lpa2. apply Hw.
    + intros r Hr. rewrite Lfa2. apply Hw; auto.
    + rewrite Npa2. destruct (fitNames pn (alen (tp t))); auto.
    + rewrite Nfa2. destruct (fitNames fn (alen (tf t))); auto.
Qed.

(** The data comes back whatever the names, as long as both calls succeed. *)
Lemma unflatten_rows np nf order t : wf t -> 0 < alen (tp t) -> 0 < alen (tf t) ->
  alen (tp t) = 1 \/ alen (tf t) = 1 -> alen (tp t) * alen (tf t) = np * nf ->
  let t' := fst (unflatten np nf order t) in
  alen (tp t') = np /\ alen (tf t') = nf /\ List.length (rows t') = np /\
  (forall r, In r (rows t') -> List.length r = nf) /\
  forall i j, i < np -> j < nf ->
    cell t' i j = nth_error (flatVec V Pts t) (flatPos order np nf i j).
Proof.
  intros Hw Hp Hf H1 Hn t'.
  assert (Hlen := flatVec_length V Pts t Hw).
  destruct (unflattenRows_spec V np nf order (flatVec V Pts t)) as (A & B & C); [lia|].
  assert (E : rows t' = unflattenRows np nf order (flatVec V Pts t) /\ alen (tp t') = np /\ alen (tf t') = nf).
  { unfold t', unflatten.
    rewrite (proj2 (Nat.eqb_neq (alen (tp t)) 0)), (proj2 (Nat.eqb_neq (alen (tf t)) 0)) by lia. cbn [orb].
    replace (negb (alen (tp t) =? 1) && negb (alen (tf t) =? 1)) with false.
    2: { destruct H1 as [-> | ->]; simpl; auto. rewrite Bool.andb_false_r; auto. }
    rewrite Hn, Nat.eqb_refl. cbn [negb].
    replace (List.concat (rows t)) with (flatVec V Pts t)
      by (rewrite flatVec_Pts, flat_map_concat_map, map_id; reflexivity).
    destruct (unflattenNames t) as [pn fn].
    assert (L : forall n junk o, alen (fst (setNames (mkAxis n junk) (namesArg o) ONone)) = n).
    { intros n junk [l|]; [cbn [namesArg]; rewrite setNames_list_len|]; reflexivity. }
    pose proof (L np (astate (tp t)) (fitNames pn np)) as L1.
    destruct (setNames (mkAxis np _) _ ONone) as [pa r]. cbn [fst] in L1.
    pose proof (L nf (astate (tf t)) (fitNames fn nf)) as L2.
    destruct (setNames (mkAxis nf _) _ ONone) as [fa r']. cbn [fst] in L2.
    destruct r; cbn; auto. }
  destruct E as (E1 & E2 & E3). rewrite E1. repeat split; auto.
  intros i j Hi Hj. unfold cell. rewrite E1. destruct (C i j Hi Hj) as (r & -> & ->). reflexivity.
Qed.
End NamesRT.

Section RoundData.
Variable V : Type.
Implicit Types t : table V.
Lemma flatten_ok_wf order t : wf t -> snd (flatten dec10 order t) = Ok tt -> wf (fst (flatten dec10 order t)).
Proof.
  intros Hw. unfold flatten.
  destruct (alen (tp t) =? 0) eqn:E1; [discriminate|]. destruct (alen (tf t) =? 0) eqn:E2; [discriminate|].
  rewrite flattenRows_single.
  set (asg := if _ || _ then _ else _).
  assert (Ha : asg = ANone \/ exists l, asg = AList l).
  { unfold asg. destruct (_ || _); eauto. }
  clearbody asg. set (fa := mkAxis (alen (tp t) * alen (tf t)) (astate (tf t))).
  assert (L : snd (setNames fa asg ONone) = Ok tt -> Inv (fst (setNames fa asg ONone)) /\
    alen (fst (setNames fa asg ONone)) = alen (tp t) * alen (tf t)).
  { destruct Ha as [->|[l ->]]; [split; reflexivity|]. intros H. split.
    - apply setNames_list_accept_Inv; auto. apply setNames_list_reject in H. tauto.
    - rewrite setNames_list_len. reflexivity. }
  destruct (setNames fa asg ONone) as [fa' r]. cbn [fst snd] in L.
  destruct r as [[]|]; [|discriminate]. destruct (L eq_refl) as [L1 L2].
  pose proof (setNames_list_len (mkAxis 1 (astate (tp t))) [NStr "Flattened"]) as L3.
  pose proof (setNames_list_accept_Inv (mkAxis 1 (astate (tp t))) [NStr "Flattened"] eq_refl) as L4.
  destruct (setNames (mkAxis 1 (astate (tp t))) (AList [NStr "Flattened"]) ONone) as [pa' r'].
  cbn [fst snd] in *. intros ->. repeat split; cbn [tp tf rows]; auto.
  intros x [<-|[]]. rewrite flatVec_length; auto.
Qed.
Lemma flatten_unflatten_rows order t : wf t -> snd (flatten dec10 order t) = Ok tt ->
  rows (fst (unflatten (alen (tp t)) (alen (tf t)) order (fst (flatten dec10 order t)))) = rows t.
Proof.
  intros Hw Hok. pose proof (flatten_ok_wf order t Hw Hok) as Hw1.
  assert (Hp : 0 < alen (tp t)). { revert Hok; unfold flatten. destruct (Nat.eqb_spec (alen (tp t)) 0); [discriminate|lia]. }
  assert (Hf : 0 < alen (tf t)).
  { revert Hok; unfold flatten. destruct (Nat.eqb_spec (alen (tp t)) 0); [discriminate|].
    destruct (Nat.eqb_spec (alen (tf t)) 0); [discriminate|lia]. }
  destruct (flatten_rows V order t Hp Hf) as (R1 & R2 & R3).
  set (t1 := fst (flatten dec10 order t)) in *.
  destruct (unflatten_rows V (alen (tp t)) (alen (tf t)) order t1 Hw1) as (A & B & C & D & E); try nia.
  assert (Ev : flatVec V Pts t1 = flatVec V order t).
  { rewrite flatVec_Pts, R1. simpl. rewrite app_nil_r. reflexivity. }
  rewrite Ev in E. rewrite <- (unflatten_flatVec V order t Hw).
  set (t2 := fst (unflatten _ _ order t1)) in *.
  destruct (unflattenRows_spec V (alen (tp t)) (alen (tf t)) order (flatVec V order t)) as (A' & B' & C').
  { apply flatVec_length; auto. }
  apply nth_error_ext_len; [lia|]. intros i Hi.
  destruct (nth_error_is_some (rows t2) Hi) as [r Hr].
  destruct (nth_error_is_some (unflattenRows (alen (tp t)) (alen (tf t)) order (flatVec V order t)) (i:=i)) as [r' Hr']; [lia|].
  rewrite Hr, Hr'. f_equal. apply nth_error_ext_len.
  - rewrite (D r), (B' r'); auto; eapply nth_error_In; eauto.
  - intros j Hj. rewrite (D r) in Hj by (eapply nth_error_In; eauto).
    specialize (E i j). unfold cell in E. rewrite Hr in E. rewrite E by lia.
    destruct (C' i j) as (r2 & E1 & E2); try lia. rewrite Hr' in E1. injection E1 as <-. auto.
Qed.
Lemma unflatten_cells np nf order t : wf t -> 0 < alen (tp t) -> 0 < alen (tf t) ->
  alen (tp t) * alen (tf t) = np * nf ->
  let t' := fst (unflatten np nf order t) in
  alen (tp t) = 1 \/ alen (tf t) = 1 ->
  alen (tp t') = np /\ alen (tf t') = nf /\
  forall i j, i < np -> j < nf ->
   (alen (tp t) = 1 -> cell t' i j = cell t 0 (flatPos order np nf i j)) /\
   (alen (tf t) = 1 -> cell t' i j = cell t (flatPos order np nf i j) 0).
Proof.
  intros Hw Hp Hf Hn t' H1.
  destruct (unflatten_rows V np nf order t Hw Hp Hf H1 Hn) as (A & B & _ & _ & E). split; [auto|]. split; [auto|].
  intros i j Hi Hj.
  assert (Hpos : flatPos order np nf i j < np * nf) by (destruct order; unfold flatPos; nia).
  fold t' in E. rewrite E by auto. split; intros H.
  - rewrite <- (flatVec_nth V Pts t 0 (flatPos order np nf i j)) by (auto; nia). f_equal.
  - rewrite <- (flatVec_nth V Pts t (flatPos order np nf i j) 0) by (auto; nia). f_equal.
    unfold flatPos at 2. lia.
Qed.
Lemma flatten_cells order t : wf t -> 0 < alen (tp t) -> 0 < alen (tf t) ->
  let t' := fst (flatten dec10 order t) in
  alen (tp t') = 1 /\ alen (tf t') = alen (tp t) * alen (tf t) /\
  (exists v, rows t' = [v] /\ List.length v = alen (tp t) * alen (tf t)) /\
  forall i j, i < alen (tp t) -> j < alen (tf t) ->
    cell t' 0 (flatPos order (alen (tp t)) (alen (tf t)) i j) = cell t i j.
Proof.
  intros Hw Hp Hf t'. destruct (flatten_rows V order t Hp Hf) as (R1 & R2 & R3).
  split; [auto|]. split; [auto|]. split.
  - exists (flatVec V order t). split; auto. apply flatVec_length; auto.
  - intros i j Hi Hj. unfold cell at 1. unfold t'. rewrite R1. simpl. apply flatVec_nth; auto.
Qed.
End RoundData.
