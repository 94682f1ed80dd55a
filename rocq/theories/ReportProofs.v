(** features.report (C85). *)
From Verif Require Import Base NamesModel NamesSpec NamesProofs TableModel TableSpec TableProofs TablePermProofs TableOps TableSortProofs TableInsertProofs TableOpsProofs TableOps3Proofs ReshapeModel EncodeProofs NormModel NormSpec NormProofs ReportModel ReportSpec.
From Coq Require Import DecimalString. From Coq Require Import String Ascii. From Coq Require Import List. Import ListNotations.
Open Scope nat_scope.

(** ** the labels *)
Lemma eqbd_eqb (a b : string) : eqbd a b = String.eqb a b.
Proof. destruct (String.eqb a b) eqn:E; [apply eqbd_eq, String.eqb_eq; exact E|apply eqbd_neq, String.eqb_neq; exact E]. Qed.
Lemma counter_times l s : counter l s = times s l.
Proof. unfold counter, times. f_equal. apply filter_ext. intros a. apply eqbd_eqb. Qed.
Lemma times_cons s a l : times s (a :: l) = (if String.eqb s a then 1 else 0) + times s l.
Proof. unfold times. cbn [filter]. destruct (String.eqb s a); reflexivity. Qed.
Lemma times_app s l1 l2 : times s (l1 ++ l2) = times s l1 + times s l2.
Proof. unfold times. rewrite filter_app, app_length. reflexivity. Qed.
Lemma editLoop_length l : forall todo rem, List.length (editLoop l rem todo) = List.length todo.
Proof. induction todo as [|v todo IH]; intros rem; cbn [editLoop]; [reflexivity|]. destruct (1 <? counter l v); cbn [List.length]; f_equal; apply IH. Qed.
Lemma editLoop_nth l : forall todo pre rem, l = pre ++ todo -> (forall x, 1 < times x l -> rem x = times x todo) ->
  forall k v, nth_error todo k = Some v ->
  nth_error (editLoop l rem todo) k = Some (if 1 <? times v l then (v ++ " (" ++ decStr (times v (pre ++ firstn k todo)) ++ ")")%string else v).
Proof.
  induction todo as [|v todo IH]; intros pre rem El R k w K; [destruct k; discriminate|].
  cbn [editLoop]. rewrite !counter_times. destruct k as [|k].
  - cbn in K. injection K as <-. cbn [firstn]. rewrite app_nil_r. destruct (1 <? times v l) eqn:E; [|reflexivity].
    cbn [nth_error]. apply Nat.ltb_lt in E. rewrite (R v E). replace (times v l) with (times v pre + times v (v :: todo)) by (rewrite El, times_app; reflexivity).
    rewrite Nat.add_sub. reflexivity.
  - cbn [nth_error] in K. assert (El' : l = (pre ++ [v]) ++ todo) by (rewrite <- app_assoc; exact El).
    cbn [firstn]. replace (pre ++ v :: firstn k todo) with ((pre ++ [v]) ++ firstn k todo) by (rewrite <- app_assoc; reflexivity).
    destruct (1 <? times v l) eqn:E; cbn [nth_error]; apply IH; auto.
    + intros x X. rewrite (R x X), times_cons, eqbd_eqb. destruct (String.eqb x v); lia.
    + intros x X. rewrite (R x X), times_cons. destruct (String.eqb x v) eqn:EX; [|lia].
      apply String.eqb_eq in EX. subst x. apply Nat.ltb_ge in E. lia.
Qed.
Lemma NoDup_times l : NoDup l -> forall v, times v l <= 1.
Proof.
  induction 1 as [|a l N ND IH]; intros v; [cbn; lia|]. rewrite times_cons. destruct (String.eqb v a) eqn:E; [|apply IH].
  apply String.eqb_eq in E. subst a. enough (times v l = 0) by lia. unfold times. destruct (filter (String.eqb v) l) as [|x m] eqn:F; [reflexivity|].
  exfalso. assert (I : In x (filter (String.eqb v) l)) by (rewrite F; left; reflexivity). apply filter_In in I. destruct I as [I EX].
  apply String.eqb_eq in EX. subst x. contradiction.
Qed.
Lemma edited_length l : List.length (edited l) = List.length l.
Proof. unfold edited. destruct (_ =? _); [reflexivity|apply editLoop_length]. Qed.
Lemma edited_label l p : p < List.length l -> exists label, nth_error (edited l) p = Some label /\ LabelAt l p label.
Proof.
  intros P. destruct (nth_error l p) as [v|] eqn:E; [|apply nth_error_None in E; lia].
  unfold edited. destruct (_ =? _) eqn:D.
  - exists v. split; [exact E|]. exists v. split; [exact E|]. left. split; [|reflexivity]. apply NoDup_times.
    apply Nat.eqb_eq in D. apply (@NoDup_incl_NoDup string (nodup eq_dec l) l); [apply NoDup_nodup|lia|]. intros x X. apply nodup_In in X. exact X.
  - eexists. split; [apply (editLoop_nth l l [] (counter l)); [reflexivity| |exact E]|].
    + intros x _. apply counter_times.
    + exists v. split; [exact E|]. cbn [app]. destruct (1 <? times v l) eqn:L; [right; apply Nat.ltb_lt in L|left; apply Nat.ltb_ge in L]; split; auto.
Qed.

Lemma times_lt l v : forall p q, p < q -> nth_error l p = Some v -> times v (firstn p l) < times v (firstn q l).
Proof.
  induction l as [|a l IH]; intros p q L E; [destruct p; discriminate|]. destruct q as [|q]; [lia|]. destruct p as [|p]; cbn [firstn].
  - injection E as ->. rewrite times_cons, String.eqb_refl. cbn. lia.
  - rewrite !times_cons. specialize (IH p q ltac:(lia) E). lia.
Qed.
Lemma times_firstn l v p : times v (firstn p l) <= times v l.
Proof. rewrite <- (firstn_skipn p l) at 2. rewrite times_app. lia. Qed.
Lemma times_two l v p q : p < q -> nth_error l p = Some v -> nth_error l q = Some v -> 1 < times v l.
Proof.
  intros L P Q. pose proof (times_lt l v p q L P). pose proof (times_lt l v q (S q) ltac:(lia) Q). pose proof (times_firstn l v (S q)). lia.
Qed.
Lemma tail_inj : forall d d', (d ++ ")")%string = (d' ++ ")")%string -> d = d'.
Proof.
  induction d as [|c d IH]; intros [|c' d'] E; cbn in E; try reflexivity.
  - exfalso. injection E as _ E. destruct d'; discriminate.
  - exfalso. injection E as _ E. destruct d; discriminate.
  - injection E as -> E. f_equal. apply IH. exact E.
Qed.
Lemma noParen_tl c v : NoParen (String c v) -> NoParen v.
Proof. intros N I. apply N. right. exact I. Qed.
Lemma head_inj : forall v v' x x', NoParen v -> NoParen v' -> (v ++ " (" ++ x)%string = (v' ++ " (" ++ x')%string -> v = v' /\ x = x'.
Proof.
  induction v as [|c v IH]; intros [|c' v'] x x' N N' E.
  - cbn in E. injection E as ->. auto.
  - exfalso. cbn in E. injection E as _ E. destruct v' as [|c2 v']; cbn in E; [discriminate|]. injection E as <- _. apply N'. right. left. reflexivity.
  - exfalso. cbn in E. injection E as _ E. destruct v as [|c2 v]; cbn in E; [discriminate|]. injection E as -> _. apply N. right. left. reflexivity.
  - cbn in E. injection E as -> E. destruct (IH v' x x' (noParen_tl _ _ N) (noParen_tl _ _ N') E) as [-> ->]. auto.
Qed.
Lemma has_paren : forall v x, ~ NoParen (v ++ " (" ++ x)%string.
Proof. induction v as [|c v IH]; intros x N; [apply N; right; left; reflexivity|]. apply (IH x). exact (noParen_tl c _ N). Qed.
Lemma labels_distinct l : (forall s, In s l -> NoParen s) -> forall p q label, LabelAt l p label -> LabelAt l q label -> p = q.
Proof.
  intros N p q label (v & P & A) (w & Q & B). pose proof (N v (nth_error_In _ _ P)) as NV. pose proof (N w (nth_error_In _ _ Q)) as NW.
  assert (S : v = w /\ (1 < times v l -> times v (firstn p l) = times v (firstn q l))).
  { destruct A as [[A ->]|[A ->]], B as [[B EB]|[B EB]].
    - split; [exact EB|lia].
    - exfalso. rewrite EB in NV. exact (has_paren _ _ NV).
    - exfalso. rewrite <- EB in NW. exact (has_paren _ _ NW).
    - destruct (head_inj _ _ _ _ NV NW EB) as [-> E]. split; [reflexivity|]. intros _. apply tail_inj in E. exact (dec10_inj _ _ E). }
  destruct S as [<- T]. destruct (Nat.lt_trichotomy p q) as [L|[L|L]]; [|exact L|].
  - specialize (T (times_two l v p q L P Q)). pose proof (times_lt l v p q L P). lia.
  - specialize (T (times_two l v q p L Q P)). pose proof (times_lt l v q p L Q). lia.
Qed.

(** ** the rows *)
Lemma isValueError_spec e : isValueError e = true <-> ValueError e.
Proof. unfold ValueError. destruct e; cbn; split; try (intros; tauto); try discriminate; intros [H|[H|[H|H]]]; discriminate H. Qed.
Section R.
Variables V W : Type.
Variable ofIndex : nat -> W.
Variable nan : W.
Variable calc : string -> list V -> result W.
Variable quartiles : list V -> result (W * W * W).
Definition stat1 (w : list V) (s : string) : result W :=
  match computed calc quartiles s w with Ok x => Ok x | Err e => if isValueError e then Ok nan else Err e end.
Lemma stat1_spec w s x : stat1 w s = Ok x <-> Statistic nan calc quartiles s w x.
Proof.
  unfold stat1, Statistic. destruct (computed calc quartiles s w) as [y|e].
  - split; [left; exact H|]. intros [H|(e & H & _)]; [exact H|discriminate].
  - destruct (isValueError e) eqn:E.
    + apply isValueError_spec in E. split; [intros [= <-]; right; eauto|]. intros [H|(e' & _ & _ & ->)]; [discriminate|reflexivity].
    + split; [discriminate|]. intros [H|(e' & [= <-] & H & _)]; [discriminate|]. apply isValueError_spec in H. congruence.
Qed.
Lemma stat1_err w s e : stat1 w s = Err e <-> computed calc quartiles s w = Err e /\ ~ ValueError e.
Proof.
  unfold stat1. destruct (computed calc quartiles s w) as [y|e']; [split; [discriminate|intros [H _]; discriminate]|].
  destruct (isValueError e') eqn:E.
  - split; [discriminate|]. intros [[= <-] H]. apply isValueError_spec in E. contradiction.
  - split; [intros [= <-]; split; [reflexivity|]|intros [[= <-] _]; reflexivity]. intros H. apply isValueError_spec in H. congruence.
Qed.
Lemma statLoop_spec w : forall stats cache, (forall q, cache = Some q -> quartiles w = Ok q) ->
  statLoop nan calc quartiles w cache stats = rmapM (stat1 w) stats.
Proof.
  induction stats as [|s stats IH]; intros cache C; [reflexivity|]. cbn [statLoop rmapM]. unfold stat1 at 1, computed, quartileOf.
  rewrite !eqbd_eqb.
  assert (Q : forall pick : W * W * W -> W, match cache with
     | Some q => l <- statLoop nan calc quartiles w cache stats ;; Ok (pick q :: l)
     | None => match quartiles w with
         | Ok q => l <- statLoop nan calc quartiles w (Some q) stats ;; Ok (pick q :: l)
         | Err e => if isValueError e then l <- statLoop nan calc quartiles w None stats ;; Ok (nan :: l) else Err e end end =
     (y <- match match quartiles w with Ok q => Ok (pick q) | Err e => Err e end with Ok x => Ok x | Err e => if isValueError e then Ok nan else Err e end ;;
      ys <- rmapM (stat1 w) stats ;; Ok (y :: ys))).
  { intros pick. destruct cache as [q|].
    - rewrite (IH (Some q) C), (C q eq_refl). reflexivity.
    - destruct (quartiles w) as [q|e] eqn:E.
      + rewrite (IH (Some q)) by (intros q' [= <-]; reflexivity). reflexivity.
      + rewrite (IH None) by discriminate. destruct (isValueError e); reflexivity. }
  destruct (String.eqb s "Q1"); [rewrite Q; destruct (quartiles w) as [[[a b] c]|e]; reflexivity|].
  destruct (String.eqb s "median"); [rewrite Q; destruct (quartiles w) as [[[a b] c]|e]; reflexivity|].
  destruct (String.eqb s "Q3"); [rewrite Q; destruct (quartiles w) as [[[a b] c]|e]; reflexivity|].
  rewrite (IH cache C). destruct (calc s w) as [x|e]; [reflexivity|]. destruct (isValueError e); reflexivity.
Qed.
Lemma statNames_spec b : (exists stats, statNames b = Ok stats /\ Chosen b stats) \/ (statNames b = Err InvalidArgumentValue /\ forall stats, ~ Chosen b stats).
Proof.
  destruct b as [| |l]; cbn [statNames Chosen]; [left; eexists; split; reflexivity|left; eexists; split; reflexivity|].
  destruct (forallb (fun s => mem s allow) l) eqn:E.
  - left. exists l. split; [reflexivity|]. split; [reflexivity|]. intros s I. rewrite forallb_forall in E. apply mem_In. exact (E s I).
  - right. split; [reflexivity|]. intros stats [-> H]. enough (forallb (fun s => mem s allow) l = true) by congruence. apply forallb_forall. intros s I. apply mem_In. exact (H s I).
Qed.
Lemma chosen_fun b s s' : Chosen b s -> Chosen b s' -> s = s'.
Proof. destruct b; cbn; [congruence|congruence|]. intros [-> _] [-> _]. reflexivity. Qed.

Definition rowIs (stats : list string) (extras : list (string * (list V -> result W))) (i : nat) (w : list V) (r : list W) : Prop :=
  exists a b, r = ofIndex i :: a ++ b /\ rmapM (stat1 w) stats = Ok a /\ rmapM (fun f : string * (list V -> result W) => snd f w) extras = Ok b.
Lemma rowOf_ok stats extras i w r : rowOf ofIndex nan calc quartiles stats extras (i, w) = Ok r <-> rowIs stats extras i w r.
Proof.
  unfold rowOf, rowIs. cbn [fst snd]. rewrite statLoop_spec by discriminate. split.
  - destruct (rmapM (stat1 w) stats) as [a|e]; [|discriminate]. cbn [rbind]. destruct (rmapM _ extras) as [b|e]; [|discriminate]. cbn [rbind]. intros [= <-]. eauto.
  - intros (a & b & -> & A & B). rewrite A. cbn [rbind]. rewrite B. reflexivity.
Qed.
Lemma rowIs_len stats extras i w r : rowIs stats extras i w r -> List.length r = S (List.length stats + List.length extras).
Proof. intros (a & b & -> & A & B). cbn [List.length]. rewrite app_length, (rmapM_ok_length _ _ A), (rmapM_ok_length _ _ B). reflexivity. Qed.

Lemma pairs_nth (t : table V) i : nth_error (combine (seq 0 (alen (tf t))) (vectors Fts t)) i =
  match nth_error (vectors Fts t) i with Some w => Some (i, w) | None => None end.
Proof.
  assert (L : List.length (vectors Fts t) = alen (tf t)) by (cbn [vectors]; rewrite map_length, seq_length; reflexivity).
  destruct (nth_error (vectors Fts t) i) as [w|] eqn:E.
  - assert (I : i < alen (tf t)) by (rewrite <- L; apply nth_error_Some; congruence).
    assert (G : forall (A B : Type) (l : list A) (m : list B) k a b, nth_error l k = Some a -> nth_error m k = Some b -> nth_error (combine l m) k = Some (a, b)).
    { induction l as [|x l IH]; intros [|y m] [|k] a b; cbn; try discriminate; [intros [= ->] [= ->]; reflexivity|apply IH]. }
    apply G; [|exact E]. rewrite (nth_error_nth' _ 0) by (rewrite seq_length; exact I). f_equal. apply seq_nth. exact I.
  - apply nth_error_None in E. apply nth_error_None. rewrite combine_length, seq_length, L. lia.
Qed.


Lemma report_is basic extras t r : wf t -> report ofIndex nan calc quartiles basic extras t = Ok r -> IsReport ofIndex nan calc quartiles basic extras t r.
Proof.
  intros Wt H. unfold report in H. destruct (statNames_spec basic) as [(stats & E & C)|[E _]]; rewrite E in H; [|discriminate]. cbn [rbind] in H.
  destruct (rmapM (rowOf ofIndex nan calc quartiles stats extras) _) as [rs|e] eqn:R; [|discriminate]. cbn [rbind] in H.
  destruct (alen (tf t) =? 0) eqn:Z; [discriminate|].
  destruct (copyAxis_ok (tf t)) as (pa & Ep & Lp & Ip & Np); [apply Wt|]. rewrite Ep in H. cbn [rbind] in H.
  destruct (initAxis _ (Some _)) as [fa|e] eqn:Ef; [|discriminate]. cbn [rbind] in H. injection H as <-.
  apply initAxis_inv in Ef. destruct Ef as (Lf & If & Nf). rewrite edited_length in Lf. cbn [List.length] in Lf. rewrite app_length, map_length in Lf.
  assert (LR : List.length rs = alen (tf t)).
  { rewrite (rmapM_ok_length _ _ R), combine_length, seq_length. cbn [vectors]. rewrite map_length, seq_length. lia. }
  assert (ROW : forall i rr, nth_error rs i = Some rr -> exists w, FeatureIs t i w /\ rowIs stats extras i w rr).
  { intros i rr Hi. assert (I : i < alen (tf t)) by (rewrite <- LR; apply nth_error_Some; congruence).
    pose proof (vec_nth V Fts t i Wt I) as EV. exists (vec Fts t i). split; [apply featureIs_vec; assumption|].
    pose proof (pairs_nth t i) as PN. rewrite EV in PN. edestruct @rmapM_ok_nth as (y & Y & F); [exact R|exact PN|]. assert (y = rr) by congruence. subst y.
    apply rowOf_ok. exact F. }
  exists stats. split; [exact C|]. cbn [tp tf]. split.
  { split; [cbn; congruence|]. split; [|split; [exact Ip|exact If]]. cbn [rows tf]. intros rr I. apply In_nth_error in I. destruct I as (i & I).
    destruct (ROW i rr I) as (w & _ & RI). rewrite Lf. exact (rowIs_len _ _ _ _ _ RI). }
  split; [exact Lp|]. split; [exact Np|]. split; [exact Lf|]. split.
  - intros p P. rewrite Lf in P. destruct (edited_label ("index"%string :: stats ++ map fst extras) p) as (label & A & B).
    + cbn [List.length]. rewrite app_length, map_length. exact P.
    + exists label. split; [|exact B]. rewrite Nf, nth_error_map, A. reflexivity.
  - intros i w FI. assert (I : i < alen (tf t)) by apply FI. destruct (nth_error rs i) as [rr|] eqn:Ei; [|apply nth_error_None in Ei; lia].
    destruct (ROW i rr Ei) as (w' & FI' & a & b & -> & A & B). pose proof (featureIs_fun V t i w w' Wt FI FI') as <-.
    assert (CL : forall p, cell (mkTable pa fa rs) i p = nth_error (ofIndex i :: a ++ b) p) by (intros p; unfold cell; cbn [rows]; rewrite Ei; reflexivity).
    split; [rewrite CL; reflexivity|]. split.
    + intros k s K. edestruct @rmapM_ok_nth as (x & X & F); [exact A|exact K|]. exists x. split; [|apply stat1_spec; exact F].
      rewrite CL. cbn [Nat.add nth_error]. rewrite nth_error_app1 by (apply nth_error_Some; congruence). exact X.
    + intros k s f K. edestruct @rmapM_ok_nth as (x & X & F); [exact B|exact K|]. exists x. split; [|exact F].
      rewrite CL. cbn [Nat.add nth_error]. pose proof (rmapM_ok_length _ _ A) as LA. rewrite nth_error_app2 by lia. replace (List.length stats + k - List.length a) with k by lia. exact X.
Qed.

Lemma rmapM_total {A B} (f : A -> result B) l : (forall x, In x l -> exists y, f x = Ok y) -> exists ys, rmapM f l = Ok ys.
Proof.
  induction l as [|x l IH]; intros H; [exists []; reflexivity|]. destruct (H x (or_introl eq_refl)) as [y Y]. destruct IH as [ys YS]; [intros; apply H; right; assumption|].
  exists (y :: ys). cbn [rmapM]. rewrite Y. cbn [rbind]. rewrite YS. reflexivity.
Qed.
Lemma ten_noParen s : In s ("index"%string :: ten) -> NoParen s.
Proof. intros I. cbn in I. repeat (destruct I as [<-|I]; [cbv; intuition discriminate|]). contradiction. Qed.
Lemma chosen_ten b stats : Chosen b stats -> forall s, In s stats -> In s ten.
Proof. destruct b; cbn [Chosen]; [intros ->; auto|intros ->; contradiction|intros [-> H]; exact H]. Qed.

Lemma report_accepts basic extras stats t : wf t -> 0 < alen (tf t) -> Chosen basic stats -> (forall s f, In (s, f) extras -> NoParen s) ->
  (forall i w, FeatureIs t i w -> (forall s, In s stats -> exists x, Statistic nan calc quartiles s w x) /\ (forall s f, In (s, f) extras -> exists x, f w = Ok x)) ->
  exists r, report ofIndex nan calc quartiles basic extras t = Ok r.
Proof.
  intros Wt P C N H. unfold report. destruct (statNames_spec basic) as [(stats' & E & C')|[_ E]]; [|destruct (E _ C)].
  rewrite E, (chosen_fun _ _ _ C' C). cbn [rbind]. clear E C' stats'.
  destruct (rmapM_total (rowOf ofIndex nan calc quartiles stats extras) (combine (seq 0 (alen (tf t))) (vectors Fts t))) as [rs R].
  { intros [i w] I. apply In_nth_error in I. destruct I as (k & K). rewrite pairs_nth in K. destruct (nth_error (vectors Fts t) k) as [w'|] eqn:EV; [|discriminate].
    injection K as -> ->. apply featureIs_vec in EV; [|exact Wt]. destruct (H i w EV) as [HS HX].
    destruct (rmapM_total (stat1 w) stats) as [a A]; [intros s I; destruct (HS s I) as [x X]; exists x; apply stat1_spec; exact X|].
    destruct (rmapM_total (fun f : string * (list V -> result W) => snd f w) extras) as [b B]; [intros [s f] I; exact (HX s f I)|].
    eexists. apply rowOf_ok. exists a, b. split; [reflexivity|]. split; assumption. }
  rewrite R. cbn [rbind]. replace (alen (tf t) =? 0) with false by (symmetry; apply Nat.eqb_neq; lia).
  destruct (copyAxis_ok (tf t)) as (pa & Ep & _); [apply Wt|]. rewrite Ep. cbn [rbind].
  set (l := "index"%string :: stats ++ map fst extras).
  destruct (initAxis_ok (List.length (edited l)) (map (@Some _) (edited l))) as (fa & Ef & _); [apply map_length| |rewrite Ef; cbn [rbind]; eauto].
  assert (NL : forall s, In s l -> NoParen s).
  { intros s [<-|I]; [apply ten_noParen; left; reflexivity|]. apply in_app_iff in I. destruct I as [I|I].
    - apply ten_noParen. right. exact (chosen_ten _ _ C s I).
    - apply in_map_iff in I. destruct I as ([s' f] & <- & I). exact (N s' f I). }
  intros i j s A B. rewrite nth_error_map in A, B. destruct (nth_error (edited l) i) as [x|] eqn:X; [|discriminate]. destruct (nth_error (edited l) j) as [y|] eqn:Y; [|discriminate].
  cbn in A, B. injection A as ->. injection B as ->.
  assert (Li : i < List.length l) by (rewrite <- edited_length; apply nth_error_Some; congruence).
  assert (Lj : j < List.length l) by (rewrite <- edited_length; apply nth_error_Some; congruence).
  destruct (edited_label l i Li) as (a & A & LA). destruct (edited_label l j Lj) as (b & B & LB).
  assert (a = s) by congruence. assert (b = s) by congruence. subst a b. exact (labels_distinct l NL i j s LA LB).
Qed.

Lemma rmapM_err {A B} (f : A -> result B) l e : rmapM f l = Err e -> exists x, In x l /\ f x = Err e.
Proof.
  induction l as [|x l IH]; cbn [rmapM]; [discriminate|]. destruct (f x) as [y|e'] eqn:E; cbn [rbind].
  - destruct (rmapM f l) as [ys|e'']; cbn [rbind]; [discriminate|]. intros [= <-]. destruct (IH eq_refl) as (z & I & Z). exists z. split; [right; exact I|exact Z].
  - intros [= <-]. exists x. split; [left; reflexivity|exact E].
Qed.
End R.
