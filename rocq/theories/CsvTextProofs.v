(** Proofs for the round trip through the text of a CSV file (C28). *)
From Coq Require Import Ascii.
From Verif Require Import Base CsvModel CsvSpec CsvTypesProofs CsvLoadProofs CsvMainProofs CsvRefuseProofs CsvNamesProofs CsvOrderProofs CsvTextModel CsvTextSpec.
Open Scope string_scope.
Open Scope list_scope.
Open Scope nat_scope.

Definition esc (c : ascii) : text := if Ascii.eqb c dq then [dq; dq] else [c].
Lemma aeqb_refl c : Ascii.eqb c c = true. Proof. apply Ascii.eqb_eq. reflexivity. Qed.
Lemma aeqb_neq a b : a <> b -> Ascii.eqb a b = false. Proof. apply Ascii.eqb_neq. Qed.
(** ** the reader on a text that ends with a line end *)
Fixpoint scan (r : reader) (t : text) : list (list string) :=
  match t with
  | [] => records r []
  | c :: t' => let r1 := rChar r c in
               if Ascii.eqb c nl then let r2 := rEol r1 in if atStart r2 then rFields r2 :: scan rInit t' else scan r2 t'
               else scan r1 t'
  end.
Definition Ended (t : text) : Prop := t = [] \/ exists u, t = u ++ [nl].
Lemma Ended_tail c t : Ended (c :: t) -> Ended t.
Proof. intros [H|[u H]]; [discriminate|]. destruct u as [|d u]; cbn in H; injection H as -> ->; [left; reflexivity|right; eauto]. Qed.
Lemma linesOf_nil t : linesOf t = [] -> t = [].
Proof. destruct t as [|c t]; [reflexivity|]. cbn [linesOf]. destruct (Ascii.eqb c nl); [discriminate|]. destruct (linesOf t); discriminate. Qed.
Lemma scan_spec : forall t r, Ended t -> records r (linesOf t) = scan r t.
Proof.
  induction t as [|c t IH]; intros r E; [reflexivity|]. assert (ET := Ended_tail _ _ E). cbn [linesOf scan]. destruct (Ascii.eqb c nl) eqn:C.
  - apply Ascii.eqb_eq in C. subst c. cbn [records]. unfold rLine. cbn [fold_left]. cbv zeta. rewrite !IH by exact ET. reflexivity.
  - rewrite <- IH by exact ET. destruct (linesOf t) as [|l ls] eqn:L.
    + apply linesOf_nil in L. subst t. destruct E as [E|[u E]]; [discriminate|]. destruct u as [|d u]; cbn in E; [inversion E; subst; rewrite aeqb_refl in C; discriminate|]. inversion E. destruct u; discriminate.
    + cbn [records]. unfold rLine. cbn [fold_left]. reflexivity.
Qed.
Lemma scan_quoted fs rest : forall u f, scan (mkR InQuoted f fs) (flat_map esc u ++ dq :: rest) = scan (mkR QuoteInQuoted (f ++ u) fs) rest.
Proof.
  induction u as [|c u IH]; intros f; [cbn; rewrite app_nil_r; reflexivity|]. cbn [flat_map]. rewrite <- app_assoc. unfold esc at 1. destruct (Ascii.eqb c dq) eqn:C.
  - apply Ascii.eqb_eq in C. subst c. change (([dq; dq] ++ flat_map esc u ++ dq :: rest)) with (dq :: dq :: (flat_map esc u ++ dq :: rest)).
    assert (X : scan (mkR InQuoted f fs) (dq :: dq :: flat_map esc u ++ dq :: rest) = scan (mkR InQuoted (f ++ [dq]) fs) (flat_map esc u ++ dq :: rest)) by reflexivity.
    rewrite X, IH, <- app_assoc. reflexivity.
  - cbn [app]. assert (X : scan (mkR InQuoted f fs) (c :: flat_map esc u ++ dq :: rest) = scan (mkR InQuoted (f ++ [c]) fs) (flat_map esc u ++ dq :: rest)).
    { cbn [scan]. unfold rChar. cbn [rSt]. rewrite C. unfold addChar. cbn [rField rFields]. destruct (Ascii.eqb c nl); reflexivity. }
    rewrite X, IH, <- app_assoc. reflexivity.
Qed.
Definition plain (c : ascii) : Prop := c <> comma /\ c <> nl /\ c <> cr.
Lemma scan_plain fs rest : forall u f, (forall c, In c u -> plain c) -> scan (mkR InField f fs) (u ++ rest) = scan (mkR InField (f ++ u) fs) rest.
Proof.
  induction u as [|c u IH]; intros f H; [rewrite app_nil_r; reflexivity|]. destruct (H c (or_introl eq_refl)) as [A [B C]]. cbn [app scan]. unfold rChar. cbn [rSt]. unfold isEnd.
  rewrite (aeqb_neq _ _ A), (aeqb_neq _ _ B), (aeqb_neq _ _ C). cbn [orb]. unfold addChar. cbn [rField rFields]. rewrite IH by (intros; apply H; right; assumption). rewrite <- app_assoc. reflexivity.
Qed.
Lemma str_chars s : str (chars s) = s. Proof. apply string_of_list_ascii_of_string. Qed.
Lemma chars_nil s : chars s = [] -> s = "". Proof. destruct s; [reflexivity|discriminate]. Qed.
Lemma comma_has s : existsb (Ascii.eqb comma) (chars s) = true <-> has comma s.
Proof. unfold has. rewrite existsb_exists. split; [intros [c [C E]]; apply Ascii.eqb_eq in E; subst c; exact C|intros H; exists comma; split; [exact H|apply aeqb_refl]]. Qed.
Lemma scan_close st f fs rest : st = QuoteInQuoted \/ st = InField ->
  scan (mkR st f fs) (comma :: rest) = scan (mkR StartField [] (fs ++ [str f])) rest /\ scan (mkR st f fs) (nl :: rest) = (fs ++ [str f]) :: scan rInit rest.
Proof. intros [->| ->]; split; reflexivity. Qed.
(** a written cell followed by a comma or the line end *)
Lemma scan_cell s st fs d rest : st = StartRecord \/ st = StartField -> SafeCell s -> d = comma \/ (d = nl /\ (st = StartField \/ s <> "")) ->
  scan (mkR st [] fs) (commaFormat (chars s) ++ d :: rest) = if Ascii.eqb d comma then scan (mkR StartField [] (fs ++ [s])) rest else (fs ++ [s]) :: scan rInit rest.
Proof.
  intros ST [NC SC] D. unfold commaFormat. destruct SC as [[HC _]|[HC [NN NQ]]].
  - rewrite (proj2 (comma_has s) HC). change (fun c => if Ascii.eqb c dq then [dq; dq] else [c]) with esc. cbn [app]. rewrite <- app_assoc. cbn [app].
    assert (X : forall t, scan (mkR st [] fs) (dq :: t) = scan (mkR InQuoted [] fs) t) by (intros; destruct ST as [->| ->]; reflexivity).
    rewrite X, scan_quoted. cbn [app]. destruct D as [->|[-> _]].
    + rewrite (proj1 (scan_close QuoteInQuoted _ fs rest (or_introl eq_refl))), str_chars, aeqb_refl. reflexivity.
    + rewrite (proj2 (scan_close QuoteInQuoted _ fs rest (or_introl eq_refl))), str_chars. reflexivity.
  - destruct (existsb (Ascii.eqb comma) (chars s)) eqn:EX; [apply comma_has in EX; contradiction|].
    assert (PL : forall c, In c (chars s) -> plain c) by (intros c C; repeat split; intros ->; auto).
    destruct (chars s) as [|c u] eqn:CS.
    + apply chars_nil in CS. subst s. cbn [app]. destruct D as [->|[-> D]].
      * destruct ST as [->| ->]; reflexivity.
      * destruct D as [->|D]; [reflexivity|congruence].
    + assert (NQ' : c <> dq). { intros ->. apply NQ. destruct s as [|c' s']; [discriminate|]. cbn in CS. injection CS as -> _. exists s'. reflexivity. }
      destruct (PL c (or_introl eq_refl)) as [A [B C]]. cbn [app].
      assert (X : forall t, scan (mkR st [] fs) (c :: t) = scan (mkR InField [c] fs) t).
      { intros t. cbn [scan]. rewrite (aeqb_neq _ _ B). f_equal. destruct ST as [->| ->]; unfold rChar, startField, isEnd; cbn [rSt]; rewrite (aeqb_neq _ _ A), (aeqb_neq _ _ B), (aeqb_neq _ _ C), (aeqb_neq _ _ NQ'); reflexivity. }
      rewrite X, scan_plain by (intros; apply PL; right; assumption). change ([c] ++ u) with (c :: u). rewrite <- CS. destruct D as [->|[-> _]].
      * rewrite (proj1 (scan_close InField _ fs rest (or_intror eq_refl))), str_chars, aeqb_refl. reflexivity.
      * rewrite (proj2 (scan_close InField _ fs rest (or_intror eq_refl))), str_chars. reflexivity.
Qed.
Lemma scan_row rest : forall row st fs, row <> [] -> Forall SafeCell row -> (st = StartField \/ (st = StartRecord /\ row <> [""])) ->
  scan (mkR st [] fs) (writeLine row ++ rest) = (fs ++ row) :: scan rInit rest.
Proof.
  unfold writeLine. induction row as [|s row IH]; intros st fs NE F ST; [congruence|]. inversion F as [|? ? Fs Fr]; subst. cbn [map]. destruct row as [|s2 row].
  - cbn [map joinCells]. rewrite <- app_assoc. cbn [app]. rewrite scan_cell; [|tauto|exact Fs|].
    + change (Ascii.eqb nl comma) with false. cbv iota. reflexivity.
    + right. split; [reflexivity|]. destruct ST as [->|[-> NB]]; [left; reflexivity|right]. intros ->. apply NB. reflexivity.
  - set (tl := map (fun s => commaFormat (chars s)) (s2 :: row)) in *. assert (J : joinCells (commaFormat (chars s) :: tl) = commaFormat (chars s) ++ comma :: joinCells tl) by reflexivity.
    rewrite J, <- !app_assoc. cbn [app]. rewrite scan_cell; [|tauto|exact Fs|left; reflexivity]. rewrite aeqb_refl. change (nl :: rest) with ([nl] ++ rest). rewrite app_assoc. rewrite (IH StartField (fs ++ [s])); [|discriminate|exact Fr|left; reflexivity].
    rewrite <- app_assoc. reflexivity.
Qed.
Lemma scan_rows rows : Forall SafeRow rows -> scan rInit (flat_map writeLine rows) = rows.
Proof.
  induction rows as [|r rows IH]; intros F; [reflexivity|]. inversion F as [|? ? [N1 [N2 N3]] F']; subst. cbn [flat_map]. unfold rInit. rewrite scan_row by auto. rewrite IH by exact F'. reflexivity.
Qed.
(** ** no blank lines *)
Fixpoint okLines (start : bool) (t : text) : Prop :=
  match t with [] => True | c :: r => if Ascii.eqb c nl then start = false /\ okLines true r else okLines false r end.
Lemma okLines_filter : forall t, (okLines true t -> filter notBlank (linesOf t) = linesOf t) /\ (okLines false t -> filter notBlank (tl (linesOf t)) = tl (linesOf t)).
Proof.
  induction t as [|c t [IH1 IH2]]; [split; reflexivity|]. cbn [okLines linesOf]. destruct (Ascii.eqb c nl) eqn:C.
  - split; [intros [H _]; discriminate|]. intros [_ H]. cbn [tl]. apply IH1, H.
  - split; intros H.
    + destruct (linesOf t) as [|l ls]; cbn [filter notBlank]; rewrite C; cbn [negb]; [reflexivity|]. f_equal. apply (IH2 H).
    + destruct (linesOf t) as [|l ls]; [reflexivity|]. cbn [tl]. apply (IH2 H).
Qed.
Lemma ok_plain rest : forall u b, (forall c, In c u -> c <> nl) -> (u = [] -> okLines b rest) -> (u <> [] -> okLines false rest) -> okLines b (u ++ rest).
Proof.
  induction u as [|c u IH]; intros b H A B; [apply A; reflexivity|]. cbn [app okLines]. rewrite (aeqb_neq c nl) by (apply H; left; reflexivity).
  apply IH; [intros; apply H; right; assumption|intros _; apply B; discriminate|intros _; apply B; discriminate].
Qed.
Lemma ok_quoted rest : forall u b, (forall x y, u <> x ++ nl :: nl :: y) -> (b = true -> forall y, u <> nl :: y) -> okLines false rest -> okLines b (flat_map esc u ++ dq :: rest).
Proof.
  induction u as [|c u IH]; intros b H S R; [exact R|]. cbn [flat_map]. rewrite <- app_assoc. assert (H' : forall x y, u <> x ++ nl :: nl :: y) by (intros x y E; apply (H (c :: x) y); cbn; f_equal; exact E).
  unfold esc at 1. destruct (Ascii.eqb c dq) eqn:C.
  - assert (X : okLines false (flat_map esc u ++ dq :: rest)) by (apply IH; [exact H'|discriminate|exact R]). exact X.
  - cbn [app okLines]. destruct (Ascii.eqb c nl) eqn:N.
    + apply Ascii.eqb_eq in N. subst c. split; [destruct b; [exfalso; exact (S eq_refl u eq_refl)|reflexivity]|]. apply IH; [exact H'| |exact R].
      intros _ y E. apply (H [] y). cbn. f_equal. exact E.
    + apply IH; [exact H'|discriminate|exact R].
Qed.
Lemma ok_cell s b d rest : SafeCell s -> d = comma \/ (d = nl /\ (b = false \/ s <> "")) -> okLines (Ascii.eqb d nl) rest -> okLines b (commaFormat (chars s) ++ d :: rest).
Proof.
  intros [NC SC] D R. unfold commaFormat. destruct SC as [[HC NB]|[HC [NN NQ]]].
  - rewrite (proj2 (comma_has s) HC). change (fun c => if Ascii.eqb c dq then [dq; dq] else [c]) with esc. cbn [app]. rewrite <- app_assoc. cbn [app okLines].
    change (Ascii.eqb dq nl) with false. cbv iota. apply ok_quoted; [|discriminate|].
    + intros x y E. apply NB. exists x, y. exact E.
    + destruct D as [->|[-> D]]; [exact R|]. split; [reflexivity|exact R].
  - destruct (existsb (Ascii.eqb comma) (chars s)) eqn:EX; [apply comma_has in EX; contradiction|].
    apply ok_plain; [intros c C ->; exact (NN C)| |].
    + intros E. apply chars_nil in E. destruct D as [->|[-> D]]; [exact R|]. cbn [okLines]. rewrite aeqb_refl. split; [destruct D as [D|D]; [exact D|congruence]|exact R].
    + intros E. destruct D as [->|[-> D]]; [exact R|]. cbn [okLines]. rewrite aeqb_refl. split; [reflexivity|exact R].
Qed.
Lemma ok_row rest : forall row b, row <> [] -> Forall SafeCell row -> (b = false \/ row <> [""]) -> okLines true rest -> okLines b (writeLine row ++ rest).
Proof.
  unfold writeLine. induction row as [|s row IH]; intros b NE F ST R; [congruence|]. inversion F as [|? ? Fs Fr]; subst. cbn [map]. destruct row as [|s2 row].
  - cbn [map joinCells]. rewrite <- app_assoc. cbn [app]. apply ok_cell; [exact Fs| |exact R]. right. split; [reflexivity|]. destruct ST as [->|ST]; [left; reflexivity|right]. intros ->. apply ST. reflexivity.
  - set (tl := map (fun s => commaFormat (chars s)) (s2 :: row)) in *. assert (J : joinCells (commaFormat (chars s) :: tl) = commaFormat (chars s) ++ comma :: joinCells tl) by reflexivity.
    rewrite J, <- !app_assoc. cbn [app]. apply ok_cell; [exact Fs|left; reflexivity|]. change (nl :: rest) with ([nl] ++ rest). rewrite app_assoc. change (Ascii.eqb comma nl) with false. apply IH; [discriminate|exact Fr|left; reflexivity|exact R].
Qed.
Lemma ok_rows rows : Forall SafeRow rows -> okLines true (flat_map writeLine rows).
Proof.
  induction rows as [|r rows IH]; intros F; [exact I|]. inversion F as [|? ? [N1 [N2 N3]] F']; subst. cbn [flat_map]. apply ok_row; auto.
Qed.
(** ** carriage returns, comments *)
Lemma universal_id : forall t, ~ In cr t -> universal t = t.
Proof. induction t as [|c t IH]; intros H; [reflexivity|]. cbn [universal]. rewrite aeqb_neq by (intros ->; apply H; left; reflexivity). rewrite IH by (intros X; apply H; right; exact X). reflexivity. Qed.
Lemma In_join c : forall l, In c (joinCells l) -> c = comma \/ exists x, In x l /\ In c x.
Proof.
  induction l as [|x l IH]; cbn [joinCells]; [intros []|]. destruct l as [|y l]; [intros H; right; exists x; split; [left; reflexivity|exact H]|].
  intros H. apply in_app_iff in H. destruct H as [H|[H|H]]; [right; exists x; split; [left; reflexivity|exact H]|left; congruence|].
  destruct (IH H) as [E|[z [Z1 Z2]]]; [left; exact E|right; exists z; split; [right; exact Z1|exact Z2]].
Qed.
Lemma no_cr rows : Forall SafeRow rows -> ~ In cr (flat_map writeLine rows).
Proof.
  intros F H. apply in_flat_map in H. destruct H as [r [R H]]. rewrite Forall_forall in F. destruct (F r R) as [_ [_ FC]]. unfold writeLine in H. apply in_app_iff in H. destruct H as [H|[H|[]]]; [|discriminate].
  apply In_join in H. destruct H as [H|[x [X H]]]; [discriminate|]. apply in_map_iff in X. destruct X as [s [<- S]]. rewrite Forall_forall in FC. destruct (FC s S) as [NC _]. apply NC. unfold has, commaFormat in *.
  destruct (existsb _ _); [|exact H]. destruct H as [H|H]; [discriminate|]. apply in_app_iff in H. destruct H as [H|[H|[]]]; [|discriminate]. apply in_flat_map in H. destruct H as [d [Hd H]].
  destruct (Ascii.eqb d dq) eqn:D; [destruct H as [H|[H|[]]]; discriminate|]. destruct H as [H|[]]. subst d. exact Hd.
Qed.
Lemma linesOf_cons c t : exists l ls, linesOf (c :: t) = (c :: l) :: ls.
Proof. cbn [linesOf]. destruct (Ascii.eqb c nl) eqn:C; [apply Ascii.eqb_eq in C; subst c; eauto|]. destruct (linesOf t) as [|l ls]; eauto. Qed.
Lemma first_char s t rest : SafeRow (s :: t) -> (has ","%char s \/ ~ startsWith "#"%char s) ->
  exists c u, flat_map writeLine ((s :: t) :: rest) = c :: u /\ c <> hash /\ c <> nl.
Proof.
  intros [N1 [N2 N3]] C. inversion N3 as [|? ? [NC SC] Fr]; subst. cbn [flat_map]. unfold writeLine. cbn [map].
  set (tl := map (fun s => commaFormat (chars s)) t). unfold commaFormat. destruct (existsb (Ascii.eqb comma) (chars s)) eqn:EX.
  - destruct tl; cbn; eexists _, _; (split; [reflexivity|split; discriminate]).
  - assert (HC : ~ has ","%char s) by (intros H; apply comma_has in H; congruence). destruct SC as [[H _]|[_ [NN NQ]]]; [contradiction|]. destruct C as [C|C]; [contradiction|].
    destruct s as [|c s].
    + destruct t as [|s2 t]; [congruence|]. cbn. eexists _, _. split; [reflexivity|split; discriminate].
    + destruct tl; (exists c; eexists; split; [cbn; reflexivity|]; split; [intros ->; apply C; exists s; reflexivity|intros ->; apply NN; left; reflexivity]).
Qed.
Lemma Ended_rows rows : Ended (flat_map writeLine rows).
Proof.
  induction rows as [|r rows IH]; [left; reflexivity|]. right. cbn [flat_map]. destruct IH as [->|[u ->]].
  - rewrite app_nil_r. unfold writeLine. eauto.
  - exists (writeLine r ++ u). rewrite app_assoc. reflexivity.
Qed.
Section L.
Variables (isInt isFloat : string -> bool).
Lemma text_lines rows : rows <> [] -> Forall SafeRow rows -> NotComment rows ->
  exists ls, pastComments (linesOf (universal (flat_map writeLine rows))) = Ok ls /\ records rInit (filter notBlank ls) = rows /\ filter nonEmpty (records rInit ls) = rows.
Proof.
  intros NE F C. rewrite universal_id by (apply no_cr; exact F). assert (OK := proj1 (okLines_filter _) (ok_rows rows F)).
  exists (linesOf (flat_map writeLine rows)). split; [|split].
  - destruct rows as [|[|s t] rows]; [congruence|inversion F as [|? ? [N _] _]; congruence|]. destruct (first_char s t rows (Forall_inv F) (C s t rows eq_refl)) as [c [u [E [A B]]]].
    rewrite E. destruct (linesOf_cons c u) as [l [ls ->]]. cbn [pastComments]. rewrite (aeqb_neq _ _ A), (aeqb_neq _ _ B). reflexivity.
  - rewrite OK, scan_spec by apply Ended_rows. apply scan_rows, F.
  - rewrite scan_spec by apply Ended_rows. rewrite scan_rows by exact F. apply filter_all. intros r R. rewrite Forall_forall in F. destruct (F r R) as [N _]. destruct r; [congruence|reflexivity].
Qed.
Lemma text_load rows pnArg fnArg ign keepP keepF eim : rows <> [] -> Forall SafeRow rows -> NotComment rows ->
  loadText isInt isFloat (flat_map writeLine rows) pnArg fnArg ign keepP keepF eim = loadCsv isInt isFloat rows pnArg fnArg ign keepP keepF eim.
Proof. intros NE F C. destruct (text_lines rows NE F C) as [ls [E1 [E2 E3]]]. unfold loadText, loadCsv. rewrite E1. cbn [rbind]. rewrite E2, E3. reflexivity. Qed.
(** ** an object *)
Lemma csv_false raw b ign keepP keepF eim :
  loadCsv isInt isFloat raw (NmBool b) (NmBool false) ign keepP keepF eim = loadWith isInt isFloat raw (if b then NTrue else NFalse) NFalse NFalse ign keepP keepF eim.
Proof.
  unfold loadCsv, checkNames. assert (A : forall f s, autoDetect (NmBool b) (NmBool false) f s = (NmBool b, NmBool false)) by (intros [[|]|] [[|]|]; reflexivity).
  destruct raw as [|a [|c rest]]; rewrite ?A; try (destruct b; reflexivity). destruct (zipFirst isInt isFloat 0 a c) as [[f s] poss]. rewrite A. destruct b, poss; reflexivity.
Qed.
Lemma strNames_some l : strNames (Some (map Some l)) = Ok l.
Proof. unfold strNames. induction l as [|x l IH]; [reflexivity|]. cbn. rewrite IH. reflexivity. Qed.
Lemma anyName_opt o : someNames o -> anyName (namesOpt o) = match o with Some _ => true | None => false end.
Proof. destruct o as [[|x l]|]; [intros [H _]; congruence|reflexivity|reflexivity]. Qed.
Lemma flat_map_app {A B} (f : A -> list B) a b : flat_map f (a ++ b) = flat_map f a ++ flat_map f b.
Proof. induction a as [|x a IH]; [reflexivity|]. cbn. rewrite IH, app_assoc. reflexivity. Qed.
Lemma save_ok ps fs cells n : someNames ps -> someNames fs -> cells <> [] -> 0 < n ->
  saveCsv (mkSaved (namesOpt ps) (namesOpt fs) cells) n true = Ok (flat_map writeLine (fileRows ps fs cells)).
Proof.
  intros SP SF NC Np. unfold saveCsv. cbn [sdCells sdP sdF]. destruct (Nat.eqb_spec (List.length cells) 0) as [E|_]; [destruct cells; [congruence|discriminate]|].
  destruct (Nat.eqb_spec n 0) as [E|_]; [lia|]. cbn [orb andb]. rewrite !anyName_opt by assumption. unfold fileRows. rewrite flat_map_app.
  destruct fs as [fl|], ps as [pl|]; cbn [namesOpt option_map]; rewrite ?strNames_some; cbn [rbind flat_map]; rewrite ?app_nil_r; reflexivity.
Qed.
Lemma head_names l : ~ In "" l -> map headName l = map Some l.
Proof. intros H. apply map_ext_in. intros s I. unfold headName. destruct (String.eqb_spec s ""); [subst; contradiction|reflexivity]. Qed.
Hypothesis O : ParseOracle isInt isFloat.
Lemma save_load ps fs cells n eim : someNames ps -> someNames fs -> cells <> [] -> 0 < n -> (forall r, In r cells -> List.length r = n) ->
  (forall l, ps = Some l -> List.length l = List.length cells) -> (forall l, fs = Some l -> List.length l = n) ->
  Forall SafeRow (fileRows ps fs cells) -> NotComment (fileRows ps fs cells) ->
  (fs = None -> eim = true -> exists r, In r cells /\ nth (n - 1) r "" <> "") ->
  exists t data, saveCsv (mkSaved (namesOpt ps) (namesOpt fs) cells) n true = Ok t /\
    loadText isInt isFloat t (argOpt ps) (argOpt fs) false None None eim = Ok (data, nmOpt ps, nmOpt fs) /\
    DataIs isInt isFloat eim cells (seq 0 (List.length cells)) (seq 0 n) data.
Proof.
  intros SP SF NC Np HB LP LF SR CM LC. exists (flat_map writeLine (fileRows ps fs cells)).
  assert (NE : fileRows ps fs cells <> []).
  { unfold fileRows. destruct fs; [discriminate|]. cbn [app]. destruct ps as [l|]; [|exact NC]. specialize (LP l eq_refl). destruct l, cells; try discriminate; congruence. }
  set (pn := match ps with Some _ => NTrue | None => NFalse end). set (fn := match fs with Some _ => NTrue | None => NFalse end).
  set (pa := match ps with Some l => AFile (map Some l) | None => ANone end). set (fa := match fs with Some l => AFile (map headName l) | None => ANone end).
  set (rows := match ps with Some l => map (fun p => fst p :: snd p) (combine l cells) | None => cells end).
  assert (RP : ReadsPts pn rows pa cells).
  { subst pn rows pa. destruct ps as [l|]; [|constructor]. apply rp_file; [reflexivity|auto]. }
  assert (RF : ReadsFts pn fn (fileRows ps fs cells) fa rows).
  { subst pn fn rows fa. unfold fileRows. destruct fs as [fl|]; [|constructor]. destruct ps as [pl|]; cbn [app]; [apply rf_file_pts; reflexivity|apply rf_file; discriminate]. }
  assert (FF : Fits fa n) by (subst fa; destruct fs as [l|]; [cbn; rewrite map_length; auto|exact I]).
  assert (FP : Fits pa (List.length cells)) by (subst pa; destruct ps as [l|]; [cbn; rewrite map_length; auto|exact I]).
  assert (KP : Kept (List.length cells) pa None (seq 0 (List.length cells))) by (constructor; subst pa; destruct ps; exact I).
  assert (KF : Kept n fa None (seq 0 n)) by (constructor; subst fa; destruct fs; exact I).
  assert (NT : ~ Trailing eim cells (seq 0 (List.length cells)) fa n).
  { intros [T1 [_ [_ [T2 T3]]]]. rewrite keptRows_all in T2. subst fa. destruct fs as [l|].
    - destruct SF as [S1 S2]. rewrite head_names in T3 by exact S2. specialize (LF l eq_refl). rewrite nth_map_in with (d := "") in T3 by lia. discriminate.
    - destruct (LC eq_refl T1) as [r [R X]]. apply X, T2. unfold columnOf. apply in_map_iff. eauto. }
  destruct (load_selects isInt isFloat O (fileRows ps fs cells) pn fn None None eim pa fa rows cells n _ _ RF RP HB Np FF FP KP (fun x => x) KF I (or_intror NT)) as [data [E D]].
  exists data. split; [apply save_ok; assumption|]. split; [|exact D]. rewrite text_load by assumption.
  assert (EQ : loadCsv isInt isFloat (fileRows ps fs cells) (argOpt ps) (argOpt fs) false None None eim = loadWith isInt isFloat (fileRows ps fs cells) pn fn NFalse false None None eim).
  { subst pn fn. destruct fs as [fl|]; [|unfold argOpt; rewrite csv_false; destruct ps; reflexivity].
    assert (X : exists a b rest, fileRows ps (Some fl) cells = a :: b :: rest /\ NoPossible a b).
    { unfold fileRows in *. destruct SF as [S1 S2]. destruct ps as [pl|]; cbn [app] in *.
      - specialize (LP pl eq_refl). destruct pl as [|p pl], cells as [|c cells]; try discriminate; [congruence|]. cbn [combine map fst snd]. eexists _, _, _. split; [reflexivity|]. exists "pointNames", p. repeat split. discriminate.
      - destruct cells as [|c cells]; [congruence|]. destruct fl as [|f fl]; [congruence|]. destruct c as [|x c]; [specialize (HB [] (or_introl eq_refl)); cbn in HB; lia|].
        eexists _, _, _. split; [reflexivity|]. exists f, x. repeat split. intros ->. exfalso. apply S2. left. reflexivity. }
    destruct X as [a [b [rest [-> NP]]]]. unfold argOpt. apply csv_explicit; try discriminate; auto; [destruct ps; reflexivity|left; discriminate]. }
  rewrite EQ, E. f_equal. f_equal; [f_equal|].
  - subst pa. destruct ps as [l|]; [|reflexivity]. cbn [keptNames nmOpt]. f_equal. specialize (LP l eq_refl). rewrite <- LP, <- (map_length Some l), map_nth_seq. reflexivity.
  - subst fa. destruct fs as [l|]; [|reflexivity]. cbn [keptNames nmOpt]. f_equal. specialize (LF l eq_refl). rewrite <- LF, <- (map_length headName l), map_nth_seq. apply head_names, SF.
Qed.
End L.
(** a check of [SafeCell] for the examples *)
Fixpoint noDouble (t : text) : bool :=
  match t with
  | a :: r => negb (Ascii.eqb a nl && match r with b :: _ => Ascii.eqb b nl | [] => false end) && noDouble r
  | [] => true
  end.
Definition safeb (s : string) : bool :=
  negb (existsb (Ascii.eqb cr) (chars s)) &&
  if existsb (Ascii.eqb comma) (chars s) then noDouble (chars s)
  else negb (existsb (Ascii.eqb nl) (chars s)) && match chars s with c :: _ => negb (Ascii.eqb c dq) | [] => true end.
Lemma noDouble_sound : forall t x y, noDouble t = true -> t <> x ++ nl :: nl :: y.
Proof.
  induction t as [|a t IH]; intros x y H E; [destruct x; discriminate|]. cbn [noDouble] in H. apply andb_true_iff in H. destruct H as [H1 H2]. destruct x as [|d x]; cbn [app] in E; injection E as -> E.
  - subst t. rewrite !aeqb_refl in H1. discriminate.
  - exact (IH x y H2 E).
Qed.
Lemma safeb_sound s : safeb s = true -> SafeCell s.
Proof.
  unfold safeb. intros H. apply andb_true_iff in H. destruct H as [H1 H2].
  assert (N : forall c, existsb (Ascii.eqb c) (chars s) = false -> ~ has c s).
  { intros c E I. assert (X : existsb (Ascii.eqb c) (chars s) = true) by (apply existsb_exists; exists c; split; [exact I|apply aeqb_refl]). congruence. }
  split; [apply N; apply negb_true_iff; exact H1|]. destruct (existsb (Ascii.eqb comma) (chars s)) eqn:C.
  - left. split; [apply comma_has, C|]. intros [a [b E]]. exact (noDouble_sound _ a b H2 E).
  - right. apply andb_true_iff in H2. destruct H2 as [H2 H3]. split; [apply N, C|]. split; [apply N, negb_true_iff, H2|]. intros [t ->]. cbn [chars list_ascii_of_string] in H3. discriminate.
Qed.
