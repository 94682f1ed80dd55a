(** C85: features.report. *)
From Verif Require Import Base NamesModel NamesSpec NamesProofs TableModel TableSpec TableProofs TableOps TableSortProofs NormModel NormSpec NormProofs ReportModel ReportSpec ReportProofs.
From Coq Require Import String Ascii. From Coq Require Import List. Import ListNotations.
Open Scope string_scope. Open Scope list_scope. Open Scope nat_scope.

(** A report has a point for each feature, in order and with its name: the index, the
    statistics asked for (nan where one raised a ValueError), then what the extra functions
    give.  Its features are called index, the statistics and the functions, in that order;
    names that occur more than once are numbered. *)
Theorem C85_report : forall (V W : Type) (ofIndex : nat -> W) nan calc quartiles basic extras (t : table V) r, wf t ->
  report ofIndex nan calc quartiles basic extras t = Ok r -> IsReport ofIndex nan calc quartiles basic extras t r.
Proof. exact report_is. Qed.
Print Assumptions C85_report.

(** There is a report when the statistics asked for exist and raise nothing but ValueError,
    the extra functions raise nothing, and their names have no opening parenthesis. *)
Theorem C85_report_accepts : forall (V W : Type) (ofIndex : nat -> W) nan calc quartiles basic extras stats (t : table V),
  wf t -> 0 < alen (tf t) -> Chosen basic stats -> (forall s f, In (s, f) extras -> NoParen s) ->
  (forall i w, FeatureIs t i w -> (forall s, In s stats -> exists x, Statistic nan calc quartiles s w x) /\ (forall s f, In (s, f) extras -> exists x, f w = Ok x)) ->
  exists r, report ofIndex nan calc quartiles basic extras t = Ok r.
Proof. exact report_accepts. Qed.
Print Assumptions C85_report_accepts.

(** For such names the labels of a report are distinct. *)
Theorem C85_report_labels : forall l, (forall s, In s l -> NoParen s) ->
  forall p q label, LabelAt l p label -> LabelAt l q label -> p = q.
Proof. exact labels_distinct. Qed.
Print Assumptions C85_report_labels.

(** A failure, for such names, comes from a statistic that does not exist, from an
    exception of a statistic that is not a ValueError, or from one of an extra function. *)
Theorem C85_report_refuses : forall (V W : Type) (ofIndex : nat -> W) nan calc quartiles basic extras (t : table V) e, wf t -> 0 < alen (tf t) ->
  report ofIndex nan calc quartiles basic extras t = Err e -> (forall s f, In (s, f) extras -> NoParen s) ->
  ((forall stats, ~ Chosen basic stats) /\ e = InvalidArgumentValue) \/
  (exists stats i w, Chosen basic stats /\ FeatureIs t i w /\
     ((exists s, In s stats /\ computed calc quartiles s w = Err e /\ ~ ValueError e) \/ (exists s f, In (s, f) extras /\ f w = Err e))).
Proof.
  intros V W ofIndex nan calc quartiles basic extras t e Wt P H N. destruct (statNames_spec basic) as [(stats & E & C)|[E NC]].
  2:{ left. split; [exact NC|]. unfold report in H. rewrite E in H. cbn [rbind] in H. congruence. }
  right. assert (H' := H). unfold report in H. rewrite E in H. cbn [rbind] in H.
  destruct (rmapM (rowOf ofIndex nan calc quartiles stats extras) (combine (seq 0 (alen (tf t))) (vectors Fts t))) as [rs|e'] eqn:R.
  - exfalso. destruct (report_accepts V W ofIndex nan calc quartiles basic extras stats t Wt P C N) as [r EQ]; [|congruence].
    intros i w FI. assert (K := pairs_nth V t i). pose proof FI as FV. apply featureIs_vec in FV; [|exact Wt]. rewrite FV in K.
    edestruct @rmapM_ok_nth as (y & _ & F); [exact R|exact K|]. apply rowOf_ok in F. destruct F as (a & b & _ & A & B). split.
    + intros s I. apply In_nth_error in I. destruct I as [k I]. edestruct @rmapM_ok_nth as (x & _ & X); [exact A|exact I|]. exists x. apply stat1_spec. exact X.
    + intros s f I. apply In_nth_error in I. destruct I as [k I]. edestruct @rmapM_ok_nth as (x & _ & X); [exact B|exact I|]. exists x. exact X.
  - cbn [rbind] in H. injection H as ->. apply rmapM_err in R. destruct R as ([i w] & I & R). apply In_nth_error in I. destruct I as [k K].
    rewrite pairs_nth in K. destruct (nth_error (vectors Fts t) k) as [w'|] eqn:EV; [|discriminate]. injection K as -> ->. apply featureIs_vec in EV; [|exact Wt].
    exists stats, i, w. split; [exact C|]. split; [exact EV|]. unfold rowOf in R. cbn [fst snd] in R. rewrite statLoop_spec in R by discriminate.
    destruct (rmapM (stat1 V W nan calc quartiles w) stats) as [a|e'] eqn:A; cbn [rbind] in R.
    + destruct (rmapM (fun f : string * (list V -> result W) => snd f w) extras) as [b|e'] eqn:B; cbn [rbind] in R; [discriminate|]. injection R as ->.
      apply rmapM_err in B. destruct B as ([s f] & I & B). right. exists s, f. split; [exact I|exact B].
    + injection R as ->. apply rmapM_err in A. destruct A as (s & I & A). apply stat1_err in A. left. exists s. split; [exact I|exact A].
Qed.
Print Assumptions C85_report_refuses.

(** ** a report *)
Definition total (l : list nat) : result nat := Ok (fold_right Nat.add 0 l).
Definition some_calc (s : string) (l : list nat) : result nat := if (s =? "mode")%string then Err InvalidArgumentValue else if (s =? "mean")%string then Err TypeErr else total l.
Definition some_quartiles (l : list nat) : result (nat * nat * nat) := Ok (1, 2, 3).
Definition two : table nat := mkTable (fresh 2) (fst (setNames (fresh 2) (AList [NStr "a"; NStr "b"]) ONone)) [[10; 20]; [30; 50]].
Definition asked : basics := BList ["mode"; "Q3"; "count"; "Q1"].
Example report_run : exists r, report (fun n => n) 99 some_calc some_quartiles asked [("count", total); ("f", total)] two = Ok r /\
  rows r = [[0; 99; 3; 40; 1; 40; 40]; [1; 99; 3; 70; 1; 70; 70]] /\ getNames (tp r) = [Some "a"; Some "b"] /\
  getNames (tf r) = map (@Some _) ["index"; "mode"; "Q3"; "count (0)"; "Q1"; "count (1)"; "f"].
Proof. eexists. split; [vm_compute; reflexivity|]. repeat split; vm_compute; reflexivity. Qed.
Example report_met : wf two /\ 0 < alen (tf two) /\ Chosen asked ["mode"; "Q3"; "count"; "Q1"] /\ NoParen "count" /\
  forall w s, In s ["mode"; "Q3"; "count"; "Q1"] -> exists x, Statistic 99 some_calc some_quartiles s w x.
Proof.
  split; [split; [reflexivity|split; [intros r [<-|[<-|[]]]; reflexivity|split; [exact I|apply setNames_list_Inv; exact I]]]|].
  split; [cbn; lia|]. split; [split; [reflexivity|]; intros s H; cbn in H |- *; intuition|]. split; [cbv; intuition discriminate|].
  intros w s [<-|[<-|[<-|[<-|[]]]]]; eexists.
  - right. exists InvalidArgumentValue. split; [reflexivity|]. split; [right; left; reflexivity|reflexivity].
  - left. reflexivity.
  - left. reflexivity.
  - left. reflexivity.
Qed.
(** exceptions that get out *)
Example report_raises : report (fun n => n) 99 some_calc some_quartiles BTrue [] two = Err TypeErr /\
  report (fun n => n) 99 some_calc some_quartiles (BList ["variance"]) [] two = Err InvalidArgumentValue.
Proof. split; vm_compute; reflexivity. Qed.

(** REFUTED without the condition on the names: numbering can make a label that is
    already there, and then there is no report although everything could be computed. *)
Theorem C85_report_names_refuted : exists (extras : list (string * (list nat -> result nat))),
  (forall s f w, In (s, f) extras -> exists x, f w = Ok x) /\
  report (fun n => n) 99 some_calc some_quartiles BFalse extras two = Err InvalidArgumentValue.
Proof.
  exists [("f", total); ("f", total); ("f (0)", total)]. split; [|vm_compute; reflexivity].
  intros s f w [[= _ <-]|[[= _ <-]|[[= _ <-]|[]]]]; unfold total; eauto.
Qed.
Print Assumptions C85_report_names_refuted.
