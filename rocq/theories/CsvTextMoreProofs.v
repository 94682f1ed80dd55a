(** Proofs for C28: line ends, a last line without one, saving without names. *)
From Coq Require Import Ascii.
From Verif Require Import Base CsvModel CsvSpec CsvTextModel CsvTextSpec CsvTextProofs.
Open Scope string_scope.
Open Scope list_scope.
Open Scope nat_scope.

(** ** line ends *)
Lemma nl_cr : Ascii.eqb nl cr = false. Proof. reflexivity. Qed.
Lemma universal_ends : forall e t, e = [cr] \/ e = [cr; nl] -> ~ In cr t ->
  universal (flat_map (fun c => if Ascii.eqb c nl then e else [c]) t) = t.
Proof.
  intros e t He. induction t as [|c t IH]; intros H; [reflexivity|].
  assert (Hc : c <> cr) by (intros ->; apply H; left; reflexivity).
  assert (Ht : ~ In cr t) by (intros X; apply H; right; exact X). specialize (IH Ht).
  cbn [flat_map]. destruct (Ascii.eqb_spec c nl) as [->|Hn].
  - destruct He as [-> | ->].
    + cbn [app universal]. rewrite aeqb_refl. f_equal.
      destruct t as [|d t]; [reflexivity|]. cbn [flat_map] in *. destruct (Ascii.eqb_spec d nl) as [->|Hd].
      * cbn [app] in *. replace (Ascii.eqb cr nl) with false by reflexivity. exact IH.
      * cbn [app] in *. rewrite (aeqb_neq d nl Hd). exact IH.
    + cbn [app universal]. rewrite aeqb_refl, aeqb_refl. f_equal. exact IH.
  - cbn [app universal]. rewrite (aeqb_neq c cr Hc). f_equal. exact IH.
Qed.
Lemma load_ends : forall isInt isFloat e t pnArg fnArg ign keepP keepF eim, e = [cr] \/ e = [cr; nl] -> ~ In cr t ->
  loadText isInt isFloat (flat_map (fun c => if Ascii.eqb c nl then e else [c]) t) pnArg fnArg ign keepP keepF eim =
  loadText isInt isFloat t pnArg fnArg ign keepP keepF eim.
Proof. intros. unfold loadText. rewrite universal_ends by assumption. rewrite universal_id by assumption. reflexivity. Qed.

(** ** the last line *)
Lemma lines_app : forall u v, linesOf (u ++ nl :: v) = linesOf (u ++ [nl]) ++ linesOf v.
Proof.
  induction u as [|c u IH]; intros v; cbn [app linesOf].
  - rewrite aeqb_refl. reflexivity.
  - destruct (Ascii.eqb c nl); [rewrite IH; reflexivity|]. rewrite IH.
    destruct (linesOf (u ++ [nl])) as [|l ls] eqn:E; [|reflexivity].
    apply linesOf_nil in E. destruct u; discriminate.
Qed.
Lemma lines_last : forall u c, c <> nl -> exists ls l, linesOf (u ++ [c]) = ls ++ [l] /\ linesOf (u ++ [c; nl]) = ls ++ [l ++ [nl]] /\ l <> [] /\ ~ In nl l.
Proof.
  intros u c Hc. induction u as [|d u IH]; cbn [app linesOf].
  - rewrite (aeqb_neq c nl Hc), aeqb_refl. exists [], [c]. repeat split; [discriminate|]. intros [X|[]]; congruence.
  - destruct IH as [ls [l [E1 [E2 [E3 E4]]]]]. rewrite E1, E2. destruct (Ascii.eqb_spec d nl) as [->|Hd].
    + exists ([nl] :: ls), l. repeat split; assumption.
    + destruct ls as [|l0 ls]; cbn [app].
      * exists [], (d :: l). repeat split; [discriminate|]. intros [X|X]; [congruence|contradiction].
      * exists ((d :: l0) :: ls), l. repeat split; assumption.
Qed.
(** the records of some lines, and the state afterwards *)
Fixpoint after (r : reader) (ls : list text) : list (list string) * reader :=
  match ls with
  | [] => ([], r)
  | l :: t => let r' := rLine r l in
              if atStart r' then let (a, q) := after rInit t in (rFields r' :: a, q) else after r' t
  end.
Lemma records_app : forall ls r t, records r (ls ++ t) = fst (after r ls) ++ records (snd (after r ls)) t.
Proof.
  induction ls as [|l ls IH]; intros r t; cbn [app after]; [reflexivity|]. cbn [records].
  destruct (atStart (rLine r l)); [|apply IH]. rewrite IH. destruct (after rInit ls). reflexivity.
Qed.
Lemma fold_quoted : forall v r, rSt r = InQuoted -> ~ In dq v -> rSt (fold_left rChar v r) = InQuoted.
Proof.
  induction v as [|c v IH]; intros r Hr Hv; [exact Hr|]. cbn [fold_left]. apply IH.
  - unfold rChar. rewrite Hr. rewrite aeqb_neq; [reflexivity|]. intros ->. apply Hv. left; reflexivity.
  - intros X. apply Hv. right; exact X.
Qed.
Lemma fold_end : forall q, rSt q <> InQuoted -> rSt q <> StartRecord -> rEol (rChar q nl) = rEol q.
Proof. intros [s f fs] H1 H2. cbn [rSt] in *. destruct s; try congruence; reflexivity. Qed.
Lemma fold_not_start : forall l r, l <> [] -> (forall c, In c l -> isEnd c = false) -> rSt (fold_left rChar l r) <> StartRecord.
Proof.
  assert (H : forall r c, isEnd c = false -> rSt (rChar r c) <> StartRecord).
  { intros [s f fs] c Hc. unfold rChar, startField. cbn [rSt]. rewrite Hc.
    destruct s; repeat match goal with |- context [Ascii.eqb ?a ?b] => destruct (Ascii.eqb a b) end; discriminate. }
  intros l r. revert r. induction l as [|c l IH]; intros r Hl He; [congruence|]. cbn [fold_left].
  destruct l as [|d l]; [apply H; apply He; left; reflexivity|].
  apply IH; [discriminate|]. intros x Hx. apply He. right; exact Hx.
Qed.
(** the line given with or without its end *)
Lemma rLine_end : forall r l, l <> [] -> (forall c, In c l -> isEnd c = false) -> rSt (fold_left rChar l r) <> InQuoted ->
  rLine r (l ++ [nl]) = rLine r l.
Proof.
  intros r l Hl He Hq. unfold rLine. rewrite fold_left_app. cbn [fold_left]. apply fold_end; [exact Hq|].
  apply fold_not_start; assumption.
Qed.
Lemma records_last : forall r l, l <> [] -> (forall c, In c l -> isEnd c = false) -> rSt (fold_left rChar l r) <> InQuoted ->
  records r [l ++ [nl]] = records r [l].
Proof. intros r l H1 H2 H3. cbn [records]. rewrite rLine_end by assumption. reflexivity. Qed.
(** at the end of safe rows no quote is open: else a further row would be swallowed *)
Lemma not_open : forall ls l rows, Forall SafeRow rows -> linesOf (flat_map writeLine rows) = ls ++ [l ++ [nl]] ->
  rSt (fold_left rChar l (snd (after rInit ls))) <> InQuoted.
Proof.
  intros ls l rows HS HL Hq.
  assert (H1 : records rInit (ls ++ [l ++ [nl]]) = rows).
  { rewrite <- HL. rewrite scan_spec by apply Ended_rows. apply scan_rows. exact HS. }
  assert (Hx : SafeRow ["x"]).
  { split; [discriminate|]. split; [discriminate|]. constructor; [|constructor]. apply safeb_sound. reflexivity. }
  assert (H2 : records rInit (linesOf (flat_map writeLine (rows ++ [["x"]]))) = rows ++ [["x"]]).
  { rewrite scan_spec by apply Ended_rows. apply scan_rows. apply Forall_app. split; [exact HS|]. constructor; [exact Hx|constructor]. }
  assert (HX : linesOf (flat_map writeLine (rows ++ [["x"]])) = (ls ++ [l ++ [nl]]) ++ [["x"%char; nl]]).
  { rewrite CsvTextProofs.flat_map_app. rewrite <- HL. cbn [flat_map]. rewrite app_nil_r.
    destruct (Ended_rows rows) as [E|[u E]].
    - exfalso. rewrite E in HL. cbn in HL. destruct ls; discriminate.
    - rewrite E. rewrite <- app_assoc. cbn [app]. rewrite lines_app. reflexivity. }
  rewrite HX in H2. rewrite <- app_assoc in H2. rewrite records_app in H1, H2.
  set (r' := snd (after rInit ls)) in *. set (a := fst (after rInit ls)) in *.
  apply (f_equal (@List.length _)) in H1, H2. rewrite app_length in H1, H2. rewrite app_length in H2. cbn [List.length] in H2.
  assert (Q1 : rSt (rLine r' (l ++ [nl])) = InQuoted).
  { unfold rLine. rewrite fold_left_app. cbn [fold_left].
    destruct (fold_left rChar l r') as [s f fs]. cbn [rSt] in Hq. subst s. reflexivity. }
  assert (Q2 : rSt (rLine (rLine r' (l ++ [nl])) ["x"%char; nl]) = InQuoted).
  { unfold rLine at 1. assert (E := fold_quoted ["x"%char; nl] (rLine r' (l ++ [nl])) Q1 ltac:(intros [X|[X|[]]]; discriminate)).
    destruct (fold_left rChar ["x"%char; nl] (rLine r' (l ++ [nl]))) as [s f fs]. cbn [rSt] in E. subst s. reflexivity. }
  assert (L : forall q, rSt q = InQuoted -> List.length (records q []) = 1).
  { intros [s f fs] E. cbn [rSt] in E. subst s. cbn. destruct f; reflexivity. }
  assert (N : forall q, rSt q = InQuoted -> atStart q = false) by (intros [s f fs] E; cbn in *; subst s; reflexivity).
  cbn [app] in H2. 
  change (records r' [l ++ [nl]]) with (if atStart (rLine r' (l ++ [nl])) then rFields (rLine r' (l ++ [nl])) :: records rInit [] else records (rLine r' (l ++ [nl])) []) in H1.
  change (records r' [l ++ [nl]; ["x"%char; nl]]) with (if atStart (rLine r' (l ++ [nl])) then rFields (rLine r' (l ++ [nl])) :: records rInit [["x"%char; nl]] else records (rLine r' (l ++ [nl])) [["x"%char; nl]]) in H2.
  rewrite (N _ Q1) in H1, H2. rewrite (L _ Q1) in H1.
  change (records (rLine r' (l ++ [nl])) [["x"%char; nl]]) with (if atStart (rLine (rLine r' (l ++ [nl])) ["x"%char; nl]) then rFields (rLine (rLine r' (l ++ [nl])) ["x"%char; nl]) :: records rInit [] else records (rLine (rLine r' (l ++ [nl])) ["x"%char; nl]) []) in H2.
  rewrite (N _ Q2), (L _ Q2) in H2. lia.
Qed.
Lemma pastComments_first : forall c l t, c <> hash -> c <> nl -> pastComments ((c :: l) :: t) = Ok ((c :: l) :: t).
Proof. intros c l t H1 H2. cbn [pastComments]. rewrite (aeqb_neq c hash H1), (aeqb_neq c nl H2). reflexivity. Qed.
Lemma filter_le : forall A (f : A -> bool) l, List.length (filter f l) <= List.length l.
Proof. induction l as [|a l IH]; cbn; [lia|]. destruct (f a); cbn; lia. Qed.
Lemma linesOf_In : forall w lx, In lx (linesOf w) -> forall y, In y lx -> In y w.
Proof.
  induction w as [|d w IH]; intros lx Hl y Hy; [destruct Hl|]. cbn [linesOf] in Hl. destruct (Ascii.eqb_spec d nl) as [->|].
  - destruct Hl as [<-|Hl]; [destruct Hy as [->|[]]; left; reflexivity|right; eapply IH; eassumption].
  - destruct (linesOf w) as [|l0 ls0]; [destruct Hl as [<-|[]]; destruct Hy as [->|[]]; left; reflexivity|].
    destruct Hl as [<-|Hl]; [destruct Hy as [->|Hy]; [left; reflexivity|right; eapply IH; [left; reflexivity|exact Hy]]|right; eapply IH; [right; exact Hl|exact Hy]].
Qed.
Lemma load_no_last_end : forall isInt isFloat rows pnArg fnArg ign keepP keepF eim,
  rows <> [] -> Forall SafeRow rows -> NotComment rows ->
  loadText isInt isFloat (removelast (flat_map writeLine rows)) pnArg fnArg ign keepP keepF eim =
  loadCsv isInt isFloat rows pnArg fnArg ign keepP keepF eim.
Proof.
  intros isInt isFloat rows pnArg fnArg ign keepP keepF eim HR HS HN.
  rewrite <- text_load by assumption.
  destruct (Ended_rows rows) as [E|[u E]].
  { destruct rows as [|row rows]; [congruence|]. exfalso. cbn [flat_map] in E. apply app_eq_nil in E. destruct E as [E _].
    unfold writeLine in E. apply app_eq_nil in E. destruct E as [_ E]. discriminate. }
  rewrite E, removelast_last.
  assert (HCR : ~ In cr (u ++ [nl])) by (rewrite <- E; apply no_cr; exact HS).
  assert (HB : filter notBlank (linesOf (u ++ [nl])) = linesOf (u ++ [nl])) by (rewrite <- E; apply okLines_filter; apply ok_rows; exact HS).
  assert (HF : exists c v, u ++ [nl] = c :: v /\ c <> hash /\ c <> nl).
  { rewrite <- E. destruct rows as [|[|s t] rest]; [congruence|inversion HS as [|? ? [X _]]; congruence|].
    apply first_char; [inversion HS; assumption|exact (HN s t rest eq_refl)]. }
  destruct HF as [c0 [v [HF [Hh Hn]]]].
  assert (HU : exists u' c, u = u' ++ [c] /\ c <> nl).
  { destruct u as [|x u0] using rev_ind; [exfalso; apply Hn; cbn [app] in HF; congruence|]. clear IHu0.
    exists u0, x. split; [reflexivity|]. intros ->. rewrite <- app_assoc in HB. cbn [app] in HB. rewrite lines_app in HB.
    replace (linesOf [nl]) with [[nl]] in HB by reflexivity. rewrite filter_app in HB. cbn [filter notBlank] in HB. rewrite aeqb_refl in HB.
    cbn [negb] in HB. rewrite app_nil_r in HB.
    assert (X : List.length (filter notBlank (linesOf (u0 ++ [nl]))) <= List.length (linesOf (u0 ++ [nl]))) by apply filter_le.
    rewrite HB, app_length in X. cbn in X. lia. }
  destruct HU as [u' [c [HU Hc]]]. subst u.
  rewrite <- app_assoc in *. cbn [app] in *.
  destruct (lines_last u' c Hc) as [ls [l [L1 [L2 [L3 L4]]]]].
  unfold loadText. rewrite !universal_id; [|exact HCR|intros X; apply HCR; apply in_app_iff in X; apply in_app_iff; destruct X as [X|[X|[]]]; [left; exact X|right; left; exact X]].
  rewrite L1, L2.
  assert (HQ : rSt (fold_left rChar l (snd (after rInit ls))) <> InQuoted).
  { apply (not_open ls l rows HS). rewrite E. exact L2. }
  assert (HE : forall x, In x l -> isEnd x = false).
  { intros x Hx. unfold isEnd. rewrite aeqb_neq by (intros ->; contradiction). cbn [orb]. apply aeqb_neq. intros ->.
    apply HCR. assert (X : In cr (u' ++ [c])) by (eapply linesOf_In; [rewrite L1; apply in_app_iff; right; left; reflexivity|exact Hx]).
    apply in_app_iff in X. apply in_app_iff. destruct X as [X|[X|[]]]; [left; exact X|right; left; exact X]. }
  assert (HP : forall x, (x = [] \/ x = [nl]) -> pastComments (ls ++ [l ++ x]) = Ok (ls ++ [l ++ x])).
  { intros x Hx. destruct (linesOf_cons c0 v) as [l0 [ls0 L0]]. rewrite <- HF in L0. rewrite L2 in L0.
    destruct ls as [|k ls]; cbn [app] in *.
    - injection L0 as L0 _. destruct l as [|d l]; [congruence|]. cbn [app] in *. injection L0 as -> _. apply pastComments_first; assumption.
    - injection L0 as -> _. apply pastComments_first; assumption. }
  assert (HP0 := HP [] (or_introl eq_refl)). rewrite app_nil_r in HP0. unfold text in *. rewrite HP0, (HP [nl] (or_intror eq_refl)). cbn [rbind].
  assert (R1 : records rInit (ls ++ [l ++ [nl]]) = records rInit (ls ++ [l])).
  { rewrite !records_app. f_equal. apply records_last; assumption. }
  rewrite L2 in HB. rewrite filter_app in HB. 
  assert (HB1 : filter notBlank (ls ++ [l]) = ls ++ [l]).
  { rewrite filter_app. cbn [filter] in *. destruct l as [|d l]; [congruence|]. cbn [app notBlank] in *.
    destruct (negb (Ascii.eqb d nl)).
    - apply app_inj_tail in HB. destruct HB as [-> _]. reflexivity.
    - exfalso. rewrite app_nil_r in HB.
      assert (X : List.length (filter notBlank ls) <= List.length ls) by apply filter_le.
      apply (f_equal (@List.length _)) in HB. rewrite app_length in HB. cbn [List.length] in HB. unfold text in *. lia. }
  rewrite <- filter_app in HB. unfold text in *. rewrite HB, HB1, R1. reflexivity.
Qed.
Lemma save_without_names : forall o n, sdCells o <> [] -> 0 < n -> saveCsv o n false = Ok (flat_map writeLine (sdCells o)).
Proof.
  intros o n HC Hn. unfold saveCsv. destruct (Nat.eqb_spec (List.length (sdCells o)) 0) as [Z|_]; [destruct (sdCells o); [congruence|discriminate]|].
  destruct (Nat.eqb_spec n 0) as [Z|_]; [lia|]. reflexivity.
Qed.
