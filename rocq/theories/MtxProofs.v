(** Proofs about Matrix Market files (C70). *)
From Coq Require Import QArith.
From Coq Require Import Ascii String Decimal DecimalString DecimalNat.
From Verif Require Import Base NamesModel TableModel TableSpec MatchModel CsvModel RawModel RawSpec CsvTextModel MtxModel MtxSpec RawProofs.
From Coq Require Import List Lia.
Import ListNotations.
Open Scope string_scope.
Open Scope list_scope.
Open Scope nat_scope.

Lemma str_chars s : str (chars s) = s. Proof. apply string_of_list_ascii_of_string. Qed.
Lemma chars_str t : chars (str t) = t. Proof. apply list_ascii_of_string_of_list_ascii. Qed.
Lemma sameText_spec a b : sameText a b = true <-> a = b.
Proof.
  unfold sameText. rewrite String.eqb_eq. split; [|intros ->; reflexivity].
  intros H. rewrite <- (chars_str a), <- (chars_str b). now rewrite H.
Qed.

Lemma isSpace_spec c : isSpace c = true <-> White c.
Proof.
  unfold isSpace, White. cbn [In]. rewrite Bool.orb_true_iff, Bool.andb_true_iff, Nat.eqb_eq, !Nat.leb_le. lia.
Qed.
Lemma isSpace_not c : isSpace c = false <-> ~ White c.
Proof. rewrite <- isSpace_spec. destruct (isSpace c); intuition congruence. Qed.

(** ** Lines *)
Lemma linesOf_line l rest : ~ In nl l -> linesOf (l ++ nl :: rest) = (l ++ [nl]) :: linesOf rest.
Proof.
  induction l as [|c l IH]; intros H; cbn [app linesOf].
  - reflexivity.
  - cbn in H. destruct (Ascii.eqb_spec c nl) as [->|N]; [exfalso; apply H; auto|].
    rewrite IH by tauto. reflexivity.
Qed.
Lemma linesOf_lines cs rest : Forall CommentLine cs -> linesOf (concat cs ++ rest) = cs ++ linesOf rest.
Proof.
  induction 1 as [|l cs (u & -> & Hu) _ IH]; [reflexivity|]. cbn [concat app].
  rewrite <- !app_assoc. cbn [app]. change (pct :: u ++ nl :: concat cs ++ rest) with ((pct :: u) ++ nl :: concat cs ++ rest).
  rewrite linesOf_line; [|intros [E|E]; [discriminate|contradiction]]. now rewrite IH.
Qed.

(** ** White space *)
Lemma lstrip_white w t : (forall c, In c w -> White c) -> lstrip (w ++ t) = lstrip t.
Proof.
  induction w as [|c w IH]; intros H; [reflexivity|]. cbn [app lstrip].
  rewrite (proj2 (isSpace_spec c)) by (apply H; cbn; auto). apply IH. intros d Hd. apply H. cbn. auto.
Qed.
Lemma lstrip_parts t : exists w, t = w ++ lstrip t /\ (forall c, In c w -> White c) /\
  (lstrip t = [] \/ exists c r, lstrip t = c :: r /\ ~ White c).
Proof.
  induction t as [|c t (w & E & Hw & Hs)].
  - exists []. split; [reflexivity|]. split; [intros ? []|auto].
  - cbn [lstrip]. destruct (isSpace c) eqn:EC.
    + exists (c :: w). split; [cbn; now rewrite <- E|]. split; [|exact Hs]. intros d [<-|Hd]; [now apply isSpace_spec|auto].
    + exists []. split; [reflexivity|]. split; [intros ? []|]. right. exists c, t. split; [reflexivity|]. now apply isSpace_not.
Qed.
Lemma lstrip_stop c t : ~ White c -> lstrip (c :: t) = c :: t.
Proof. intros H. cbn. now rewrite (proj2 (isSpace_not c) H). Qed.
Lemma lstrip_nil t : lstrip t = [] <-> forall c, In c t -> White c.
Proof.
  split.
  - intros E. destruct (lstrip_parts t) as (w & Et & Hw & _). rewrite E, app_nil_r in Et. now subst.
  - intros H. pose proof (lstrip_white t [] H) as E. now rewrite app_nil_r in E.
Qed.
Lemma rstrip_spec body white : (forall c, In c white -> White c) -> (forall a c, body = a ++ [c] -> ~ White c) ->
  rstrip (body ++ white) = body.
Proof.
  intros Hw Hb. unfold rstrip. rewrite rev_app_distr, lstrip_white by (intros c Hc; apply Hw, in_rev, Hc).
  destruct (rev body) as [|c r] eqn:E; [cbn; apply (f_equal (@rev ascii)) in E; rewrite rev_involutive in E; now rewrite E|].
  rewrite lstrip_stop; [rewrite <- E; apply rev_involutive|].
  apply (Hb (rev r)). apply (f_equal (@rev ascii)) in E. rewrite rev_involutive in E. exact E.
Qed.
Lemma rstrip_parts t : exists white, t = rstrip t ++ white /\ (forall c, In c white -> White c) /\
  (forall a c, rstrip t = a ++ [c] -> ~ White c).
Proof.
  unfold rstrip. destruct (lstrip_parts (rev t)) as (w & E & Hw & Hs). exists (rev w).
  split; [|split].
  - rewrite <- rev_app_distr, <- E. symmetry. apply rev_involutive.
  - intros c Hc. apply Hw, in_rev, Hc.
  - intros a c Ea. apply (f_equal (@rev ascii)) in Ea. rewrite rev_involutive, rev_app_distr in Ea. cbn in Ea.
    destruct Hs as [Hs|(d & r & Hs & Hd)]; rewrite Ea in Hs; [discriminate|]. now injection Hs as <- _.
Qed.

(** ** Splitting at commas *)
Lemma splitComma_ne t : splitComma t <> [].
Proof. destruct t as [|c t]; cbn; [discriminate|]. destruct (Ascii.eqb c comma); [discriminate|]. destruct (splitComma t); discriminate. Qed.
Lemma splitComma_word w : ~ In comma w -> splitComma w = [w].
Proof.
  induction w as [|c w IH]; intros H; [reflexivity|]. cbn in H. cbn [splitComma].
  destruct (Ascii.eqb_spec c comma) as [->|N]; [exfalso; auto|]. rewrite IH by tauto. reflexivity.
Qed.
Lemma splitComma_cons w t : ~ In comma w -> splitComma (w ++ comma :: t) = w :: splitComma t.
Proof.
  induction w as [|c w IH]; intros H; [reflexivity|]. cbn in H. cbn [app splitComma].
  destruct (Ascii.eqb_spec c comma) as [->|N]; [exfalso; auto|]. rewrite IH by tauto. reflexivity.
Qed.
Lemma split_join parts : parts <> [] -> (forall w, In w parts -> ~ In comma w) -> splitComma (joinCells parts) = parts.
Proof.
  induction parts as [|w parts IH]; intros N H; [congruence|]. destruct parts as [|v parts].
  - cbn. apply splitComma_word. apply H. cbn. auto.
  - change (joinCells (w :: v :: parts)) with (w ++ comma :: joinCells (v :: parts)).
    rewrite splitComma_cons by (apply H; cbn; auto). f_equal. apply IH; [discriminate|]. intros x Hx. apply H. cbn in *. tauto.
Qed.
Lemma join_split t : joinCells (splitComma t) = t.
Proof.
  induction t as [|c t IH]; [reflexivity|]. cbn [splitComma]. pose proof (splitComma_ne t) as N.
  destruct (Ascii.eqb_spec c comma) as [->|Nc].
  - destruct (splitComma t) as [|x xs]; [congruence|]. change (joinCells ([] :: x :: xs)) with ([] ++ comma :: joinCells (x :: xs)). cbn [app]. now rewrite IH.
  - destruct (splitComma t) as [|x xs]; [congruence|]. destruct xs as [|y ys]; [cbn in *; now rewrite IH|].
    change (joinCells ((c :: x) :: y :: ys)) with (c :: (x ++ comma :: joinCells (y :: ys))).
    change (joinCells (x :: y :: ys)) with (x ++ comma :: joinCells (y :: ys)) in IH. now rewrite IH.
Qed.
Lemma split_clean t w : In w (splitComma t) -> ~ In comma w.
Proof.
  revert w. induction t as [|c t IH]; intros w; cbn [splitComma].
  - intros [<-|[]] [].
  - destruct (Ascii.eqb_spec c comma) as [->|Nc].
    + intros [<-|H]; [intros []|auto].
    + destruct (splitComma t) as [|x xs] eqn:E; [exfalso; exact (splitComma_ne t E)|].
      intros [<-|H]; [|apply IH; cbn; auto]. intros [H|H]; [congruence|]. apply (IH x); cbn; auto.
Qed.

Lemma map_str_chars l : map str (map chars l) = l.
Proof. rewrite map_map. rewrite <- (map_id l) at 2. apply map_ext. exact str_chars. Qed.
Lemma map_chars_str l : map chars (map str l) = l.
Proof. rewrite map_map. rewrite <- (map_id l) at 2. apply map_ext. exact chars_str. Qed.

Lemma eqbd_strings (a b : list string) : eqbd a b = if list_eq_dec string_dec a b then true else false.
Proof.
  destruct (list_eq_dec string_dec a b) as [->|N]; [apply eqbd_refl|].
  destruct (eqbd a b) eqn:E; [apply eqbd_true in E; contradiction|reflexivity].
Qed.

Lemma nameLine_spec u names : Names (pct :: hash :: u) names <-> nameLine (pct :: hash :: u) = names.
Proof.
  unfold nameLine. cbn [skipn]. rewrite eqbd_strings. split.
  - intros (body & white & parts & E & Hw & Hb & Ej & Np & Hc & ->). injection E as ->.
    rewrite rstrip_spec by assumption. rewrite Ej, split_join, map_str_chars.
    + destruct (list_eq_dec string_dec parts [""]); reflexivity.
    + destruct parts; [congruence|discriminate].
    + intros w Hin. apply in_map_iff in Hin as (s & <- & Hs). auto.
  - intros <-. destruct (rstrip_parts u) as (white & E & Hw & Hb).
    exists (rstrip u), white, (map str (splitComma (rstrip u))).
    split; [now rewrite <- E|]. split; [exact Hw|]. split; [exact Hb|].
    split; [now rewrite map_chars_str, join_split|]. split.
    { intros H. apply map_eq_nil in H. exact (splitComma_ne _ H). }
    split.
    { intros s Hs. apply in_map_iff in Hs as (w & <- & Hw'). rewrite chars_str. eapply split_clean; eauto. }
    destruct (list_eq_dec string_dec _ _); reflexivity.
Qed.

(** ** The names in the comments *)
Definition isNameLine (l : text) : bool := match l with _ :: d :: _ => Ascii.eqb d hash | _ => false end.
Fixpoint namesFold (ls : list text) (seen : bool) (p f : option (list string)) : option (list string) * option (list string) :=
  match ls with
  | [] => (p, f)
  | l :: r => if seen then namesFold r true p (nameLine l) else namesFold r true (nameLine l) f
  end.
Lemma readNames_fold ls cs : Comments ls cs -> forall seen p f, readNames ls seen p f = namesFold (NameLines cs) seen p f.
Proof.
  induction 1 as [|l r Hl|u r cs _ IH]; intros seen p f.
  - reflexivity.
  - cbn [readNames NameLines filter namesFold]. destruct l as [|c l]; [reflexivity|].
    destruct (Ascii.eqb_spec c pct) as [->|]; [exfalso; eapply Hl; reflexivity|reflexivity].
  - cbn [readNames]. rewrite Ascii.eqb_refl. unfold NameLines. cbn [filter]. destruct u as [|d u]; [apply IH|].
    destruct (Ascii.eqb d hash); [|apply IH]. cbn [namesFold]. destruct seen; apply IH.
Qed.
Lemma comments_exist ls : exists cs, Comments ls cs.
Proof.
  induction ls as [|l ls (cs & IH)]; [exists []; constructor|].
  destruct l as [|c u]; [exists []; apply cm_stop; discriminate|].
  destruct (Ascii.ascii_dec c pct) as [->|N]; [eexists; apply cm_line; exact IH|].
  exists []. apply cm_stop. intros v E. congruence.
Qed.
Lemma comments_fun ls cs cs' : Comments ls cs -> Comments ls cs' -> cs = cs'.
Proof.
  intros H. revert cs'. induction H as [|l r Hl|u r cs _ IH]; intros cs' H'; inversion H'; subst; auto.
  - exfalso. eapply Hl; reflexivity.
  - match goal with X : forall v, _ <> _ |- _ => exfalso; eapply X; reflexivity end.
  - f_equal. auto.
Qed.
Lemma comments_pct ls cs : Comments ls cs -> Forall (fun l => exists u, l = pct :: u) cs.
Proof. induction 1; constructor; eauto. Qed.
Lemma fold_true ls : forall p f, namesFold ls true p f = (p, match ls with [] => f | _ => nameLine (List.last ls []) end).
Proof.
  induction ls as [|l ls IH]; intros p f; [reflexivity|]. cbn [namesFold]. rewrite IH. destruct ls; reflexivity.
Qed.
Lemma nameLines_form ls cs l : Comments ls cs -> In l (NameLines cs) -> exists u, l = pct :: hash :: u.
Proof.
  intros H I. apply filter_In in I as [I E]. pose proof (comments_pct _ _ H) as F. rewrite Forall_forall in F.
  destruct (F _ I) as (u & ->). destruct u as [|d u]; [discriminate|]. apply Ascii.eqb_eq in E as ->. eauto.
Qed.
Lemma names_iff ls cs l names : Comments ls cs -> In l (NameLines cs) -> (Names l names <-> nameLine l = names).
Proof. intros H I. destruct (nameLines_form _ _ _ H I) as (u & ->). apply nameLine_spec. Qed.

Lemma last_in {A} (l : list A) d : l <> [] -> In (List.last l d) l.
Proof. induction l as [|a [|b l] IH]; [congruence|cbn; auto|]. intros _. right. apply IH. discriminate. Qed.

Lemma fileNames_spec t p f : FileNames t p f <-> readNames (linesOf t) false None None = (p, f).
Proof.
  destruct (comments_exist (linesOf t)) as (cs & HC). rewrite (readNames_fold _ _ HC).
  assert (E : FileNames t p f <-> match NameLines cs with
    | [] => p = None /\ f = None
    | [x] => Names x p /\ f = None
    | x :: more => Names x p /\ exists y, List.last more [] = y /\ Names y f
    end).
  { split; [intros (cs' & HC' & H); rewrite (comments_fun _ _ _ HC HC'); exact H|]. intros H. exists cs. auto. }
  rewrite E. clear E. pose proof (fun l n => names_iff _ _ l n HC) as NI.
  destruct (NameLines cs) as [|x [|y more]]; cbn [namesFold].
  - split; [intros [-> ->]; reflexivity|]. intros [= <- <-]. auto.
  - rewrite (NI x) by (cbn; auto). split; [intros [-> ->]; reflexivity|]. intros [= <- <-]. auto.
  - rewrite (NI x) by (cbn; auto). rewrite fold_true.
    assert (IL : In (List.last (y :: more) []) (x :: y :: more)) by (right; apply last_in; discriminate).
    split.
    + intros (-> & z & Ez & Hz). subst z. rewrite (NI _ _ IL) in Hz.
      change (match more with [] => nameLine y | _ => nameLine (List.last more []) end) with (nameLine (List.last (y::more) [])) || idtac.
      destruct more; cbn in *; now rewrite Hz.
    + intros [= <- E]. split; [reflexivity|]. eexists. split; [reflexivity|]. rewrite (NI _ _ IL). destruct more; exact E.
Qed.

(** ** Counts *)
Lemma uint_chars u c : In c (chars (NilEmpty.string_of_uint u)) -> 48 <= nat_of_ascii c <= 57.
Proof. induction u; cbn; intros H; [destruct H|..]; (destruct H as [<-|H]; [cbn; lia|apply IHu; exact H]). Qed.
Lemma showNat_digit n c : In c (showNat n) -> 48 <= nat_of_ascii c <= 57.
Proof. apply uint_chars. Qed.
Lemma digit_black c : 48 <= nat_of_ascii c <= 57 -> ~ White c.
Proof. unfold White. cbn [In]. lia. Qed.
Lemma digit_pct c : 48 <= nat_of_ascii c <= 57 -> c <> pct.
Proof. intros H ->. cbn in H. lia. Qed.
Lemma digit_nl c : 48 <= nat_of_ascii c <= 57 -> c <> nl.
Proof. intros H ->. cbn in H. lia. Qed.
Lemma to_uint_ne n : Nat.to_uint n <> Nil.
Proof.
  intros H. pose proof (Unsigned.of_to n) as E. rewrite H in E. cbn in E. subst n. discriminate.
Qed.
Lemma showNat_ne n : showNat n <> [].
Proof.
  unfold showNat. pose proof (to_uint_ne n). destruct (Nat.to_uint n); cbn; congruence.
Qed.
Lemma readNat_show n : readNat (showNat n) = Some n.
Proof.
  unfold readNat. pose proof (showNat_ne n) as N. destruct (showNat n) as [|c t] eqn:E; [congruence|]. rewrite <- E.
  unfold showNat. rewrite str_chars, NilEmpty.usu. cbn. now rewrite Unsigned.of_to.
Qed.

Lemma tokens_space w t : (forall c, In c w -> White c) -> tokens (w ++ t) = tokens t.
Proof.
  induction w as [|c w IH]; intros H; [reflexivity|]. cbn [app tokens].
  rewrite (proj2 (isSpace_spec c)) by (apply H; cbn; auto). apply IH. intros; apply H; cbn; auto.
Qed.
Lemma tokens_word w d t : w <> [] -> (forall c, In c w -> ~ White c) -> White d -> tokens (w ++ d :: t) = w :: tokens t.
Proof.
  induction w as [|c w IH]; intros N H Hd; [congruence|]. cbn [app tokens].
  rewrite (proj2 (isSpace_not c)) by (apply H; cbn; auto). destruct w as [|b w].
  - cbn [app]. rewrite (proj2 (isSpace_spec d) Hd). f_equal. cbn [tokens]. now rewrite (proj2 (isSpace_spec d) Hd).
  - cbn [app]. rewrite (proj2 (isSpace_not b)) by (apply H; cbn; auto).
    change (b :: w ++ d :: t) with ((b :: w) ++ d :: t). rewrite IH; [reflexivity|discriminate| |exact Hd].
    intros x Hx. apply H. cbn in *. tauto.
Qed.
Lemma white_space : White " "%char. Proof. cbn. auto 8. Qed.
Lemma white_nl : White nl. Proof. cbn. auto. Qed.
Definition dimsLine (nr nc : nat) : text := showNat nr ++ [" "%char] ++ showNat nc ++ [nl].
Lemma tokens_dims nr nc : tokens (dimsLine nr nc) = [showNat nr; showNat nc].
Proof.
  unfold dimsLine. cbn [app]. rewrite tokens_word; [|apply showNat_ne|intros; eapply digit_black, showNat_digit; eauto|apply white_space].
  f_equal. rewrite tokens_word; [reflexivity|apply showNat_ne|intros; eapply digit_black, showNat_digit; eauto|apply white_nl].
Qed.
Lemma dims_first nr nc : exists c r, dimsLine nr nc = c :: r /\ c <> pct /\ ~ White c.
Proof.
  unfold dimsLine. pose proof (showNat_ne nr) as N. pose proof (showNat_digit nr) as D. destruct (showNat nr) as [|c r]; [congruence|].
  exists c. eexists. split; [reflexivity|]. specialize (D c (or_introl eq_refl)). split; [now apply digit_pct|now apply digit_black].
Qed.
Lemma dims_lines nr nc rest : linesOf (dimsLine nr nc ++ rest) = dimsLine nr nc :: linesOf rest.
Proof.
  unfold dimsLine. rewrite <- !app_assoc. cbn [app].
  assert (H : forall x y, showNat nr ++ " "%char :: showNat nc ++ x :: y = (showNat nr ++ " "%char :: showNat nc) ++ x :: y).
  { intros. now rewrite <- app_assoc. }
  rewrite (H nl rest), linesOf_line; [now rewrite (H nl [])|].
  intros I. apply in_app_iff in I as [I|[I|I]]; [|discriminate|]; apply showNat_digit in I; now apply digit_nl in I.
Qed.

Lemma skipComments_lines cs ls : Forall CommentLine cs -> (forall l r, ls = l :: r -> exists c u, lstrip l = c :: u /\ c <> pct) ->
  skipComments (cs ++ ls) = ls.
Proof.
  induction 1 as [|l cs (u & -> & _) _ IH]; intros H.
  - cbn [app]. destruct ls as [|l r]; [reflexivity|]. destruct (H _ _ eq_refl) as (c & u & E & N). cbn [skipComments]. rewrite E.
    destruct (Ascii.eqb_spec c pct); [contradiction|reflexivity].
  - cbn [app skipComments]. rewrite lstrip_stop by (cbn; unfold White; cbn; lia). rewrite Ascii.eqb_refl. auto.
Qed.

(** ** The values *)
Section Values.
Variable floatOf : text -> option pval.
Notation readValues := (readValues floatOf).

Definition UpTo (nr nc : nat) (pre : list pval) (a : list (list pval)) : Prop :=
  List.length a = nr /\ (forall r, In r a -> List.length r = nc) /\
  forall i j, i < nr -> j < nc -> j * nr + i < List.length pre -> valueAt a i j = nth_error pre (j * nr + i).

Lemma setCell_ok nr nc pre a i j v : UpTo nr nc pre a -> i < nr -> j < nc -> List.length pre = j * nr + i ->
  exists a', setCell a i j v = Ok a' /\ UpTo nr nc (pre ++ [v]) a'.
Proof.
  intros (L & R & C) Hi Hj Lp. unfold setCell.
  destruct (nth_error a i) as [r|] eqn:Er; [|apply nth_error_None in Er; lia].
  pose proof (R r (nth_error_In _ _ Er)) as Lr. rewrite (proj2 (Nat.ltb_lt _ _)) by lia.
  eexists. split; [reflexivity|]. split; [now rewrite upd_length|]. split.
  - intros x Hx. apply In_nth_error in Hx as (k & Hk). destruct (Nat.eq_dec k i) as [->|N].
    + rewrite nth_error_upd_same in Hk by lia. injection Hk as <-. now rewrite upd_length.
    + rewrite nth_error_upd_other in Hk by auto. apply R. eapply nth_error_In; eauto.
  - intros i' j' Hi' Hj' Hlt. rewrite app_length in Hlt. cbn in Hlt. unfold valueAt. destruct (Nat.eq_dec i' i) as [->|N].
    + rewrite nth_error_upd_same by lia. destruct (Nat.eq_dec j' j) as [->|Nj].
      * rewrite nth_error_upd_same by lia. rewrite nth_error_app2 by lia. replace (j * nr + i - List.length pre) with 0 by lia. reflexivity.
      * rewrite nth_error_upd_other by auto. assert (j' * nr + i <> j * nr + i) by nia. rewrite nth_error_app1 by lia.
        specialize (C i j' Hi Hj' ltac:(lia)). unfold valueAt in C. now rewrite Er in C.
    + rewrite nth_error_upd_other by auto. assert (j' * nr + i' <> j * nr + i).
      { intros Q. destruct (Nat.lt_trichotomy j' j) as [O|[O|O]]; [assert (S j' * nr <= j * nr) by (apply Nat.mul_le_mono_r; lia); lia|subst; lia|assert (S j * nr <= j' * nr) by (apply Nat.mul_le_mono_r; lia); lia]. }
      rewrite nth_error_app1 by lia. exact (C i' j' Hi' Hj' ltac:(lia)).
Qed.
Lemma setCell_over nr nc pre a i v : UpTo nr nc pre a -> setCell a i nc v = Err IndexErr.
Proof.
  intros (L & R & C). unfold setCell. destruct (nth_error a i) as [r|] eqn:Er; [|reflexivity].
  rewrite (R r (nth_error_In _ _ Er)), Nat.ltb_irrefl. reflexivity.
Qed.

Definition skipped (l : text) : bool :=
  match l with [] => true | c :: _ => Ascii.eqb c pct || match lstrip l with [] => true | _ => false end end.
Lemma skipped_spec l : skipped l = true <-> Skipped l.
Proof.
  unfold Skipped. rewrite <- lstrip_nil. destruct l as [|c l]; [cbn; tauto|]. unfold skipped.
  rewrite Bool.orb_true_iff, Ascii.eqb_eq. split.
  - intros [->|H]; [right; eauto|left]. destruct (lstrip (c :: l)); [reflexivity|discriminate].
  - intros [->|(r & [= -> ->])]; auto.
Qed.
Lemma readValues_skip nr nc l r i j a : Skipped l -> readValues nr nc (l :: r) i j a = readValues nr nc r i j a.
Proof.
  intros H. apply skipped_spec in H. cbn [MtxModel.readValues]. destruct l as [|c l]; [reflexivity|]. unfold skipped in H.
  destruct (Ascii.eqb c pct); [reflexivity|]. cbn [orb] in H. destruct (lstrip (c :: l)); [reflexivity|discriminate].
Qed.
Lemma readValues_value nr nc l r i j a : ~ Skipped l -> readValues nr nc (l :: r) i j a =
  match floatOf l with
  | None => Err ValueErr
  | Some v => a' <- setCell a i j v ;; (if i <? nr - 1 then readValues nr nc r (S i) j a' else readValues nr nc r 0 (S j) a')
  end.
Proof.
  intros H. rewrite <- skipped_spec in H. cbn [MtxModel.readValues]. destruct l as [|c l]; [exfalso; apply H; reflexivity|].
  unfold skipped in H. destruct (Ascii.eqb c pct); [exfalso; apply H; reflexivity|]. cbn [orb] in H.
  destruct (lstrip (c :: l)); [exfalso; apply H; reflexivity|reflexivity].
Qed.

Lemma readValues_spec nr nc : 0 < nr -> forall ls pre i j a, UpTo nr nc pre a -> i < nr -> j <= nc -> List.length pre = j * nr + i ->
  List.length pre <= nr * nc ->
  forall data, readValues nr nc ls i j a = Ok data -> exists vs, Values floatOf ls vs /\ List.length pre + List.length vs = nr * nc /\ ByColumns nr nc (pre ++ vs) data.
Proof.
  intros Hnr. induction ls as [|l ls IH]; intros pre i j a U Hi Hj Lp Le data E.
  - cbn [MtxModel.readValues] in E. destruct (((i =? 0) || (i =? j)) && (j =? nc)) eqn:EC; [|discriminate]. injection E as <-.
    apply andb_prop in EC as [_ EJ]. apply Nat.eqb_eq in EJ. subst j. exists []. split; [constructor|]. cbn [List.length].
    assert (i = 0) by nia. subst i. split; [nia|]. rewrite app_nil_r. destruct U as (L & R & C). split; [exact L|]. split; [exact R|].
    intros i' j' Hi' Hj'. apply C; auto. nia.
  - destruct (skipped l) eqn:ES.
    + apply skipped_spec in ES. rewrite readValues_skip in E by exact ES. destruct (IH _ _ _ _ U Hi Hj Lp Le _ E) as (vs & V & R).
      exists vs. split; [constructor; auto|exact R].
    + assert (NS : ~ Skipped l) by (rewrite <- skipped_spec; congruence). rewrite readValues_value in E by exact NS.
      destruct (floatOf l) as [v|] eqn:EF; [|discriminate].
      destruct (Nat.eq_dec j nc) as [->|Nj]; [rewrite (setCell_over _ _ _ _ _ _ U) in E; discriminate|].
      destruct (setCell_ok _ _ _ _ i j v U Hi ltac:(lia) Lp) as (a' & Ea & U'). rewrite Ea in E. cbn [rbind] in E.
      assert (Le' : List.length (pre ++ [v]) <= nr * nc) by (rewrite app_length; cbn; nia).
      assert (exists vs, Values floatOf ls vs /\ List.length (pre ++ [v]) + List.length vs = nr * nc /\ ByColumns nr nc ((pre ++ [v]) ++ vs) data) as (vs & V & LV & B).
      { destruct (i <? nr - 1) eqn:EI.
        - apply Nat.ltb_lt in EI. eapply IH; [exact U'| | | | |exact E]; try lia. rewrite app_length. cbn. lia.
        - apply Nat.ltb_ge in EI. eapply IH; [exact U'| | | | |exact E]; try lia. rewrite app_length. cbn. nia. }
      exists (v :: vs). split; [apply v_value; auto|]. rewrite app_length in LV. cbn in LV |- *. split; [lia|].
      rewrite <- app_assoc in B. exact B.
Qed.
Lemma readValues_accept nr nc : 0 < nr -> forall ls vs, Values floatOf ls vs -> forall pre i j a, UpTo nr nc pre a -> i < nr -> j <= nc ->
  List.length pre = j * nr + i -> List.length pre + List.length vs = nr * nc ->
  exists data, readValues nr nc ls i j a = Ok data.
Proof.
  intros Hnr. induction 1 as [|l ls vs Hs _ IH|l ls v vs Hs EF _ IH]; intros pre i j a U Hi Hj Lp LV.
  - cbn in LV. cbn [MtxModel.readValues]. assert (j = nc /\ i = 0) as [-> ->].
    { destruct (Nat.eq_dec j nc) as [->|N]; [split; [reflexivity|nia]|]. exfalso. assert (S j <= nc) by lia. assert (nr * S j <= nr * nc) by (apply Nat.mul_le_mono_l; lia). nia. }
    rewrite !Nat.eqb_refl. cbn. eauto.
  - rewrite readValues_skip by exact Hs. eauto.
  - rewrite readValues_value by exact Hs. rewrite EF. cbn [List.length] in LV.
    assert (Hjl : j < nc). { destruct (Nat.eq_dec j nc) as [->|N]; [exfalso; nia|lia]. }
    destruct (setCell_ok _ _ _ _ i j v U Hi Hjl Lp) as (a' & Ea & U'). rewrite Ea. cbn [rbind].
    destruct (i <? nr - 1) eqn:EI.
    + apply Nat.ltb_lt in EI. eapply IH; [exact U'|lia|lia|rewrite app_length; cbn; lia|rewrite app_length; cbn; lia].
    + apply Nat.ltb_ge in EI. eapply IH; [exact U'|lia|lia|rewrite app_length; cbn; nia|rewrite app_length; cbn; lia].
Qed.
Lemma upTo_start nr nc : UpTo nr nc [] (repeat (repeat (PFloat 0) nc) nr).
Proof.
  split; [apply repeat_length|]. split; [intros r H; apply repeat_spec in H; subst; apply repeat_length|]. cbn. lia.
Qed.
Lemma byColumns_fun nr nc vs a b : ByColumns nr nc vs a -> ByColumns nr nc vs b -> a = b.
Proof.
  intros (La & Ra & Ca) (Lb & Rb & Cb). apply nth_error_ext. intros i.
  destruct (Nat.ltb_spec i nr) as [H|H]; [|rewrite (proj2 (nth_error_None a i)), (proj2 (nth_error_None b i)) by lia; reflexivity].
  destruct (nth_error a i) as [ra|] eqn:Ea; [|apply nth_error_None in Ea; lia].
  destruct (nth_error b i) as [rb|] eqn:Eb; [|apply nth_error_None in Eb; lia]. f_equal.
  pose proof (Ra _ (nth_error_In _ _ Ea)) as L1. pose proof (Rb _ (nth_error_In _ _ Eb)) as L2.
  apply nth_error_ext. intros j. destruct (Nat.ltb_spec j nc) as [Hj|Hj].
  - specialize (Ca i j H Hj). specialize (Cb i j H Hj). unfold valueAt in Ca, Cb. rewrite Ea in Ca. rewrite Eb in Cb. congruence.
  - rewrite (proj2 (nth_error_None ra j)), (proj2 (nth_error_None rb j)) by lia. reflexivity.
Qed.
Lemma values_fun ls vs : Values floatOf ls vs -> forall vs', Values floatOf ls vs' -> vs = vs'.
Proof.
  induction 1; intros vs' H'; inversion H'; subst; auto; try contradiction. f_equal; [congruence|auto].
Qed.

Variable mmOther : text -> result (list (list pval)).
Notation mmread := (mmread floatOf mmOther).
Lemma linesOf_blank bs rest : Forall BlankLine bs -> linesOf (concat bs ++ rest) = bs ++ linesOf rest.
Proof.
  induction 1 as [|l bs (u & -> & Hu & _) _ IH]; [reflexivity|]. cbn [concat app].
  rewrite <- !app_assoc. cbn [app]. rewrite linesOf_line by exact Hu. now rewrite IH.
Qed.
Lemma blank_lstrip l : BlankLine l -> lstrip l = [].
Proof. intros (u & -> & _ & Hu). apply lstrip_nil. intros c I. apply in_app_iff in I as [I|[<-|[]]]; [auto|]. unfold White. cbn. lia. Qed.
Lemma skipComments_stop cs ls : Forall CommentLine cs -> (forall l r, ls = l :: r -> lstrip l = [] \/ exists c u, lstrip l = c :: u /\ c <> pct) ->
  skipComments (cs ++ ls) = ls.
Proof.
  induction 1 as [|l cs (u & -> & _) _ IH]; intros H.
  - cbn [app]. destruct ls as [|l r]; [reflexivity|]. cbn [skipComments]. destruct (H _ _ eq_refl) as [E|(c & u & E & N)]; rewrite E; [reflexivity|].
    destruct (Ascii.eqb_spec c pct); [contradiction|reflexivity].
  - cbn [app skipComments]. rewrite lstrip_stop by (cbn; unfold White; cbn; lia). rewrite Ascii.eqb_refl. auto.
Qed.
Lemma skipBlank_lines bs l r c u : Forall BlankLine bs -> lstrip l = c :: u -> skipBlank (bs ++ l :: r) = Ok (l, r).
Proof. intros F E. induction F as [|b bs B F IH]; cbn [app skipBlank]; [now rewrite E|]. now rewrite (blank_lstrip b B). Qed.
Lemma mmread_dense_blank nr nc cs bs rest data : 0 < nr -> Forall CommentLine cs -> Forall BlankLine bs ->
  (mmread (listHead ++ concat cs ++ concat bs ++ dimsLine nr nc ++ rest) = Ok data <->
   exists vs, Values floatOf (linesOf rest) vs /\ List.length vs = nr * nc /\ ByColumns nr nc vs data).
Proof.
  intros Hnr HC HB. unfold MtxModel.mmread.
  assert (E : linesOf (listHead ++ concat cs ++ concat bs ++ dimsLine nr nc ++ rest) = listHead :: cs ++ bs ++ dimsLine nr nc :: linesOf rest).
  { unfold listHead at 1. rewrite <- app_assoc. cbn [app]. rewrite linesOf_line; [|intros H; vm_compute in H; repeat (destruct H as [H|H]; [discriminate|]); destruct H].
    fold listHead. rewrite linesOf_lines by exact HC. rewrite linesOf_blank by exact HB. now rewrite dims_lines. }
  rewrite E. rewrite (proj2 (sameText_spec listHead listHead) eq_refl). unfold readArray.
  destruct (dims_first nr nc) as (c & r & Ed & Np & Nw).
  assert (EL : lstrip (dimsLine nr nc) = c :: r) by (rewrite Ed; now apply lstrip_stop).
  rewrite skipComments_stop; [|exact HC|].
  2:{ intros l r' El. destruct bs as [|b bs]; cbn [app] in El; injection El as <- _; [right; eauto|left]. inversion HB; subst. now apply blank_lstrip. }
  rewrite (skipBlank_lines bs _ _ _ _ HB EL). cbn [rbind fst snd]. rewrite tokens_dims, !readNat_show.
  split.
  - intros R. destruct (readValues_spec nr nc Hnr _ [] 0 0 _ (upTo_start nr nc) Hnr ltac:(lia) eq_refl ltac:(cbn; lia) _ R) as (vs & V & L & B).
    exists vs. auto.
  - intros (vs & V & L & B).
    destruct (readValues_accept nr nc Hnr _ _ V [] 0 0 _ (upTo_start nr nc) Hnr ltac:(lia) eq_refl L) as (d & R).
    destruct (readValues_spec nr nc Hnr _ [] 0 0 _ (upTo_start nr nc) Hnr ltac:(lia) eq_refl ltac:(cbn; lia) _ R) as (vs' & V' & L' & B').
    rewrite R. f_equal. rewrite (values_fun _ _ V _ V') in B. eapply byColumns_fun; eauto.
Qed.
Lemma mmread_dense nr nc cs rest data : 0 < nr -> Forall CommentLine cs ->
  (mmread (listHead ++ concat cs ++ dimsLine nr nc ++ rest) = Ok data <->
   exists vs, Values floatOf (linesOf rest) vs /\ List.length vs = nr * nc /\ ByColumns nr nc vs data).
Proof. intros N C. exact (mmread_dense_blank nr nc cs [] rest data N C (Forall_nil _)). Qed.
End Values.
