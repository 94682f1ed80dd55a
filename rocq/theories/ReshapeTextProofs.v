(** Proofs for C49: the text side of splitByParsing. *)
From Verif Require Import Base NamesModel TableModel MatchModel MatchSpec ReshapeModel ReshapeSpec.
Open Scope string_scope. Open Scope list_scope. Open Scope nat_scope.

Lemma sapp_nil s : (s ++ "")%string = s.
Proof. induction s as [|c s IH]; [reflexivity|]. cbn. rewrite IH. reflexivity. Qed.
Lemma sapp_assoc a b c : ((a ++ b) ++ c)%string = (a ++ b ++ c)%string.
Proof. induction a as [|x a IH]; [reflexivity|]. cbn. rewrite IH. reflexivity. Qed.
Lemma slen_app a b : String.length (a ++ b)%string = String.length a + String.length b.
Proof. induction a as [|x a IH]; [reflexivity|]. cbn. rewrite IH. reflexivity. Qed.
Lemma sapp_inj : forall a b x y, (a ++ x = b ++ y)%string -> String.length a = String.length b -> a = b /\ x = y.
Proof.
  induction a as [|c a IH]; intros [|d b] x y E L; try discriminate; [auto|].
  cbn in E. injection E as -> E. injection L as L. destruct (IH b x y E L) as [-> ->]. auto.
Qed.
Lemma slen_zero s : String.length s = 0 -> s = "".
Proof. destruct s; [reflexivity|discriminate]. Qed.
Lemma prefix_app : forall sep s, String.prefix sep s = true <-> exists r, s = (sep ++ r)%string.
Proof.
  induction sep as [|c sep IH]; intros s; [cbn; destruct s; split; eauto|].
  destruct s as [|d s]; cbn; [split; [discriminate|intros [r E]; discriminate]|].
  destruct (Ascii.ascii_dec c d) as [->|N]; [rewrite IH; split; intros [r E]; exists r; congruence|].
  split; [discriminate|intros [r E]; congruence].
Qed.
Lemma splitOn_skip sep : forall k pre r acc, String.length pre = k -> splitOn sep acc k (pre ++ r) = splitOn sep acc 0 r.
Proof.
  induction k as [|k IH]; intros pre r acc L; [apply slen_zero in L; subst; reflexivity|].
  destruct pre as [|c pre]; [discriminate|]. cbn [String.append splitOn]. apply IH. injection L as L. exact L.
Qed.
Lemma splitOn_Splits sep : sep <> "" -> forall n s acc, String.length s <= n ->
  (forall j, j < String.length acc -> ~ OccursAt sep (acc ++ s) j) -> Splits sep (acc ++ s) (splitOn sep acc 0 s).
Proof.
  intros NE n. induction n as [|n IH]; intros s acc L H.
  - destruct s as [|c s]; [|cbn in L; lia]. rewrite sapp_nil in *. cbn. constructor. intros k [a [b [E K]]].
    assert (LL : String.length acc = String.length a + (String.length sep + String.length b)) by (rewrite E at 1; rewrite !slen_app; reflexivity).
    apply (H k); [|exists a, b; auto]. destruct sep; [congruence|]. cbn in LL. lia.
  - destruct s as [|c r].
    + rewrite sapp_nil in *. cbn. constructor. intros k [a [b [E K]]].
      assert (LL : String.length acc = String.length a + (String.length sep + String.length b)) by (rewrite E at 1; rewrite !slen_app; reflexivity).
      apply (H k); [|exists a, b; auto]. destruct sep; [congruence|]. cbn in LL. lia.
    + cbn [splitOn]. destruct (String.prefix sep (String c r)) eqn:P.
      * apply prefix_app in P. destruct P as [r' E].
        destruct sep as [|d sep']; [congruence|]. cbn [String.append] in E. injection E as -> ->.
        replace (String.length (String d sep') - 1) with (String.length sep') by (cbn; lia).
        rewrite splitOn_skip by reflexivity. change (String d (sep' ++ r')) with (String d sep' ++ r')%string.
        constructor.
        -- split; [exists acc, r'; auto|]. intros j J. apply H. exact J.
        -- apply (IH r' ""); [|cbn; intros j J; lia]. cbn in L. rewrite slen_app in L. lia.
      * replace (acc ++ String c r)%string with ((acc ++ String c "") ++ r)%string by (rewrite sapp_assoc; reflexivity).
        apply IH; [cbn in L; lia|]. intros j J. rewrite sapp_assoc. cbn [String.append].
        rewrite slen_app in J. cbn in J. destruct (Nat.eq_dec j (String.length acc)) as [->|D]; [|apply H; lia].
        intros [a [b [E K]]]. apply sapp_inj in E; [|congruence]. destruct E as [-> E].
        enough (String.prefix sep (String c r) = true) by congruence. apply prefix_app. eauto.
Qed.
Lemma pySplit_Splits sep s : sep <> "" -> exists ps, pySplit sep s = Ok ps /\ Splits sep s ps.
Proof.
  intros NE. exists (splitOn sep "" 0 s). unfold pySplit. destruct (String.eqb_spec sep ""); [congruence|].
  split; [reflexivity|]. apply (splitOn_Splits sep NE (String.length s) s ""); [lia|]. cbn. intros j J. lia.
Qed.
Lemma FirstAt_unique sep s j k : FirstAt sep s j -> FirstAt sep s k -> j = k.
Proof.
  intros [A B] [C D]. destruct (Nat.lt_trichotomy j k) as [L|[E|L]]; auto; exfalso; [exact (D j L A)|exact (B k L C)].
Qed.
Lemma Splits_fun sep s ps : Splits sep s ps -> forall ps', Splits sep s ps' -> ps = ps'.
Proof.
  induction 1 as [s N|a r ps F S IH]; intros ps' S'.
  - inversion S' as [s' N' E1 E2|a' r' ps2 F' S2 E1 E2]; subst; [reflexivity|].
    exfalso. exact (N _ (proj1 F')).
  - inversion S' as [s' N' E1 E2|a' r' ps2 F' S2 E1 E2].
    + exfalso. exact (N' _ (proj1 F)).
    + assert (La : String.length a = String.length a') by (rewrite E1 in F'; apply (FirstAt_unique _ _ _ _ F F')).
      apply sapp_inj in E1; [|congruence]. destruct E1 as [-> E1]. apply sapp_inj in E1; [|reflexivity]. destruct E1 as [_ ->].
      f_equal. apply IH. exact S2.
Qed.
Lemma Splits_join sep s ps : Splits sep s ps -> String.concat sep ps = s.
Proof.
  induction 1 as [s N|a r ps F S IH]; [reflexivity|].
  cbn [String.concat]. rewrite IH. destruct S; reflexivity.
Qed.
Lemma Splits_free sep s ps : Splits sep s ps -> forall p, In p ps -> forall k, ~ OccursAt sep p k.
Proof.
  induction 1 as [s N|a r ps F S IH]; intros p [<-|I] k O; [exact (N k O)|destruct I| |exact (IH p I k O)].
  destruct F as [_ F]. destruct O as [x [y [E K]]]. destruct (Nat.eq_dec (String.length sep) 0) as [Z|Z].
  - apply slen_zero in Z. subst sep. destruct (Nat.eq_dec (String.length a) 0) as [Za|Za].
    + (* a empty: sep empty and a empty; the cut is at 0 *)
      apply slen_zero in Za. subst a.
      (* an empty separator occurs in every text: r has no finite splitting *)
      exfalso. clear -S. induction S as [s N|a' r' ps' F' S' IH']; [|exact IH']. apply (N 0). exists "", s. auto.
    + exfalso. apply (F 0); [lia|]. exists "", (a ++ "" ++ r)%string. auto.
  - apply (F k).
    + rewrite E, !slen_app. lia.
    + exists x, (y ++ sep ++ r)%string. split; [|exact K]. rewrite E, !sapp_assoc. reflexivity.
Qed.

(** ** slices *)
Lemma substring_skip : forall a n s, String.substring (String.length a) n (a ++ s) = String.substring 0 n s.
Proof. induction a as [|c a IH]; intros n s; [destruct s; reflexivity|]. cbn. apply IH. Qed.
Lemma substring_take : forall b c, String.substring 0 (String.length b) (b ++ c) = b.
Proof. induction b as [|x b IH]; intros c; [destruct c; reflexivity|]. cbn. rewrite IH. reflexivity. Qed.
Lemma substring_mid a b c : String.substring (String.length a) (String.length b) (a ++ b ++ c) = b.
Proof. rewrite substring_skip. apply substring_take. Qed.
Lemma substring_cut : forall p m s, p + m <= String.length s ->
  exists a b, s = (a ++ String.substring p m s ++ b)%string /\ String.length a = p.
Proof.
  induction p as [|p IH]; intros m s L.
  - exists "". revert s L. induction m as [|m IHm]; intros s L; [exists s; destruct s; auto|].
    destruct s as [|c s]; [cbn in L; lia|]. destruct (IHm s) as [b [E _]]; [cbn in *; lia|].
    exists b. cbn in *. split; [congruence|auto].
  - destruct s as [|c s]; [cbn in L; lia|]. destruct (IH m s) as [a [b [E K]]]; [cbn in L; lia|].
    exists (String c a), b. cbn. split; [congruence|lia].
Qed.
Lemma substring_len_le : forall p m s, String.length (String.substring p m s) <= m.
Proof.
  induction p as [|p IH]; intros m s.
  - revert s. induction m as [|m IHm]; intros s; [destruct s; cbn; lia|]. destruct s as [|c s]; cbn; [lia|]. specialize (IHm s). lia.
  - destruct s as [|c s]; cbn; [lia|]. apply IH.
Qed.
Lemma substring_short : forall p m s, String.length (String.substring p m s) = m -> m <> 0 -> p + m <= String.length s.
Proof.
  induction p as [|p IH]; intros m s L Z.
  - revert s L. clear Z. induction m as [|m IHm]; intros s L; [lia|]. destruct s as [|c s]; cbn in *; [lia|]. specialize (IHm s). lia.
  - destruct s as [|c s]; cbn in *; [lia|]. specialize (IH m s L Z). lia.
Qed.
Lemma OccursAt_substring sep s k : sep <> "" -> (OccursAt sep s k <-> String.substring k (String.length sep) s = sep).
Proof.
  intros NE. split.
  - intros [a [b [-> <-]]]. apply substring_mid.
  - intros E. destruct (substring_cut k (String.length sep) s) as [a [b [S L]]].
    + apply substring_short; [rewrite E; reflexivity|]. intros Z. apply slen_zero in Z. congruence.
    + rewrite E in S. exists a, b. auto.
Qed.
Lemma index_FirstAt sep s k : sep <> "" -> FirstAt sep s k -> String.index 0 sep s = Some k.
Proof.
  intros NE F. destruct (String.index 0 sep s) as [m|] eqn:E.
  - f_equal. eapply FirstAt_unique; [|exact F]. split.
    + apply OccursAt_substring; [exact NE|]. exact (index_correct1 _ _ _ _ E).
    + intros j J O. apply OccursAt_substring in O; [|exact NE]. exact (index_correct2 _ _ _ _ E j (Nat.le_0_l _) J O).
  - exfalso. destruct F as [O _]. apply OccursAt_substring in O; [|exact NE].
    exact (index_correct3 0 k sep s E NE (Nat.le_0_l _) O).
Qed.
Lemma bound_nat n k : k <= n -> bound n (Z.of_nat k) = k.
Proof. intros L. unfold bound. destruct (Z.ltb_spec (Z.of_nat k) 0); [lia|]. rewrite Nat2Z.id. lia. Qed.
Lemma sliceFrom_app done s start : bound (String.length (done ++ s)) start = String.length done -> sliceFrom (done ++ s) start = s.
Proof.
  intros B. unfold sliceFrom, slice. rewrite B, bound_nat by lia. rewrite slen_app.
  replace (String.length done + String.length s - String.length done) with (String.length s) by lia.
  rewrite <- (sapp_nil s) at 2. apply substring_mid.
Qed.
Lemma listSplit_Parses : forall l, OneCharacter l -> forall done s ps, Parses done s l ps ->
  forall start, bound (String.length (done ++ s)) start = String.length done -> listSplit (done ++ s) start l = Ok ps.
Proof.
  induction l as [|it l IH]; intros OC done s ps P start B.
  - inversion P; subst. cbn. rewrite sliceFrom_app by exact B. reflexivity.
  - assert (OC' : OneCharacter l) by (intros sep I; apply OC; right; exact I).
    inversion P as [|d a sep r l' ps' NE F P' E1 E2 E3 E4|d a r l' ps' z Z P' E1 E2 E3 E4]; subst; cbn [listSplit].
    + rewrite !sliceFrom_app by exact B. destruct (pySplit_Splits sep (a ++ sep ++ r) NE) as [qs [-> S]]. cbn [rbind].
      rewrite (index_FirstAt _ _ _ NE F). rewrite B.
      assert (O1 : String.length sep = 1) by (apply OC; left; reflexivity).
      replace (done ++ a ++ sep ++ r)%string with ((done ++ a ++ sep) ++ r)%string by (rewrite !sapp_assoc; reflexivity).
      erewrite IH; [|exact OC'|exact P'|rewrite bound_nat; rewrite !slen_app; lia]. cbn [rbind]. f_equal. f_equal.
      inversion S as [s' N' X1 X2|a' r' ps2 F' S2 X1 X2]; subst; [exfalso; exact (N' _ (proj1 F))|].
      cbn. rewrite X1 in F'. pose proof (FirstAt_unique _ _ _ _ F F') as LA. apply sapp_inj in X1; [|congruence]. exact (proj1 X1).
    + replace (done ++ a ++ r)%string with ((done ++ a) ++ r)%string by (rewrite !sapp_assoc; reflexivity).
      erewrite IH; [|exact OC'|exact P'|rewrite <- slen_app, bound_nat; rewrite ?slen_app; lia]. cbn [rbind]. f_equal. f_equal.
      unfold slice. rewrite sapp_assoc. rewrite B. rewrite bound_nat by (rewrite !slen_app; lia).
      replace (String.length done + String.length a - String.length done) with (String.length a) by lia. apply substring_mid.
Qed.
Lemma Parses_rebuild done s l ps : Parses done s l ps -> rebuild l ps = s.
Proof. induction 1 as [| |]; cbn; congruence. Qed.

(** ** the pieces of a value *)
Lemma pieces_complete r v ps : Pieces r v ps -> pieces r v = Ok ps.
Proof.
  destruct 1 as [sep s ps NE S|z a b P L|z a b P L|l s ps OC S|f v ps E]; cbn [pieces]; auto.
  - destruct (pySplit_Splits sep s NE) as [qs [-> S']]. cbn. rewrite (Splits_fun _ _ _ S _ S'). reflexivity.
  - assert (B : bound (String.length (a ++ b)) z = String.length a).
    { unfold bound. destruct (Z.ltb_spec z 0); [lia|]. symmetry. exact L. }
    rewrite sliceFrom_app by exact B. repeat f_equal. unfold slice. rewrite B. change (bound _ 0) with 0.
    rewrite Nat.sub_0_r. apply substring_take.
  - rewrite slen_app in L. assert (B : bound (String.length (a ++ b)) z = String.length a).
    { unfold bound. destruct (Z.ltb_spec z 0); [|lia]. rewrite slen_app. lia. }
    rewrite sliceFrom_app by exact B. repeat f_equal. unfold slice. rewrite B. change (bound _ 0) with 0.
    rewrite Nat.sub_0_r. apply substring_take.
  - assert (X : listSplit s 0 l = Ok ps) by (apply (listSplit_Parses l OC "" s ps S 0%Z); reflexivity). rewrite X. destruct l as [|[]]; reflexivity.
Qed.
Lemma split_at s n : n <= String.length s -> exists a b, s = (a ++ b)%string /\ String.length a = n.
Proof.
  intros L. destruct (substring_cut n 0 s) as [a [b [E K]]]; [lia|]. exists a, (String.substring n 0 s ++ b)%string. auto.
Qed.
Definition NotList (r : rule) : Prop := match r with RList _ => False | _ => True end.
Lemma pieces_sound r v ps : NotList r -> pieces r v = Ok ps -> Pieces r v ps.
Proof.
  intros NL E. destruct r as [sep|z|l|f|]; [| |destruct NL| |discriminate].
  - destruct v; try discriminate. cbn in E. destruct (string_dec sep "") as [->|NE]; [discriminate|].
    destruct (pySplit_Splits sep s NE) as [qs [X S]]. rewrite X in E. injection E as <-. constructor; auto.
  - destruct v; try discriminate. cbn [pieces] in E. injection E as <-.
    destruct (Z.ltb_spec z 0) as [N|P].
    + destruct (split_at s (String.length s - Z.to_nat (- z))) as [a [b [-> L]]]; [lia|].
      rewrite slen_app in L.
      assert (B : bound (String.length (a ++ b)) z = String.length a).
      { unfold bound. destruct (Z.ltb_spec z 0); [|lia]. rewrite slen_app. lia. }
      rewrite sliceFrom_app by exact B. unfold slice. rewrite B. change (bound _ 0) with 0.
      rewrite Nat.sub_0_r, substring_take. apply pc_neg; [exact N|]. rewrite slen_app. lia.
    + destruct (split_at s (Nat.min (Z.to_nat z) (String.length s))) as [a [b [-> L]]]; [lia|].
      assert (B : bound (String.length (a ++ b)) z = String.length a).
      { unfold bound. destruct (Z.ltb_spec z 0); [lia|]. symmetry. exact L. }
      rewrite sliceFrom_app by exact B. unfold slice. rewrite B. change (bound _ 0) with 0.
      rewrite Nat.sub_0_r, substring_take. apply pc_pos; auto.
  - constructor. exact E.
Qed.
