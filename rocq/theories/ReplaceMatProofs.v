From Verif Require Import Base MatchModel MatchSpec GetSpec CopyModel CopySpec TypedModel TypedSpec TypedTransformProofs ReplaceModel ReplaceSpec ReplaceProofs.
From Verif Require GetCountProofs TypedProps.
From Coq Require Import List Arith Lia. Import ListNotations.
Open Scope nat_scope.

Lemma Returned_trans v w w' : Returned v w -> SameElement w w' -> Returned v w'.
Proof.
  intros [H|[-> ->]] S.
  - left. eapply GetCountProofs.SameElement_trans; eassumption.
  - right. split; [reflexivity|]. destruct S as [S|[_ S]]; [inversion S; subst; match goal with N : IsNumber PNaN _ |- _ => inversion N end|exact S].
Qed.
Lemma mat_replace floatOf intOf points p f : forall locs data x,
  MatOK x p f -> 0 < along points p f -> (forall i, In i locs -> i < across points p f) -> List.length locs = List.length data ->
  (forall r, In r data -> List.length r = along points p f) ->
  exists x', matReplace floatOf intOf points p f locs data x = (x', Ok tt) /\ MatOK x' p f /\
    (forall i k r j v, LastAt locs i k -> nth_error data k = Some r -> nth_error r j = Some v ->
       exists w, inVector points (snd x') i j w /\ Returned v w) /\
    (forall i j v, i < across points p f -> ~ In i locs -> inVector points (snd x) i j v -> exists w, inVector points (snd x') i j w /\ SameElement v w).
Proof.
  induction locs as [|i is IH]; intros data x M P R L F.
  - exists x. split; [reflexivity|]. split; [exact M|]. split; [intros i k r j v (H & _); destruct k; discriminate|].
    intros i j v _ _ H. exists v. split; [exact H|apply GetCountProofs.SameElement_refl].
  - destruct data as [|r rs]; [discriminate|]. cbn [matReplace].
    pose proof (F r (or_introl eq_refl)) as Lr. pose proof (R i (or_introl eq_refl)) as Li.
    set (G := fun v : list pval => if List.length r =? List.length v then Ok r else Err InvalidArgumentValue).
    assert (HG : forall r0 ret, G r0 = Ok ret -> List.length ret = List.length r0).
    { intros r0 ret. unfold G. destruct (Nat.eqb_spec (List.length r) (List.length r0)) as [E|E]; [|discriminate]. intros [= <-]. exact E. }
    destruct (TypedProps.C73_transform_matrix floatOf intOf points G (Some [i]) x p f M P HG) as (x1 & res & stop & E & M1 & Ls & T & Z).
    rewrite E. assert (Q : res = Ok tt /\ stop = across points p f).
    { destruct res as [[]|e]; [auto|]. exfalso. destruct Z as (_ & r0 & r' & (V0 & _) & S & X). unfold G in X.
      rewrite <- (F2len _ _ _ S), V0, Lr, Nat.eqb_refl in X. discriminate. }
    destruct Q as (-> & ->). clear Z.
    assert (A1 : forall j v, nth_error r j = Some v -> exists w, inVector points (snd x1) i j w /\ Returned v w).
    { intros j v J. specialize (T i Li). cbv iota in T. destruct (in_dec Nat.eq_dec i [i]) as [_|N]; [|exfalso; apply N; left; reflexivity].
      apply Nat.ltb_lt in Li. rewrite Li in T. destruct T as (r0 & ret & _ & r' & _ & X & Y). unfold G in X.
      destruct (List.length r =? List.length r'); [|discriminate]. injection X as <-. apply Y, J. }
    assert (A2 : forall i' j v, i' < across points p f -> i' <> i -> inVector points (snd x) i' j v -> exists w, inVector points (snd x1) i' j w /\ SameElement v w).
    { intros i' j v L' N H. specialize (T i' L'). cbv iota in T. destruct (in_dec Nat.eq_dec i' [i]) as [[Y|[]]|_]; [congruence|]. apply T, H. }
    destruct (IH rs x1 M1 P) as (x' & E' & M' & B & C).
    + intros y Y. apply R. right; exact Y.
    + cbn in L. lia.
    + intros y Y. apply F. right; exact Y.
    + exists x'. split; [exact E'|]. split; [exact M'|]. split.
      * intros i' k r' j v (K1 & K2) Kd Kj. destruct k as [|k].
        -- cbn in K1, Kd. injection K1 as <-. injection Kd as <-. destruct (A1 j v Kj) as (w & W1 & W2).
           destruct (C i j w Li) with (2 := W1) as (w' & W3 & W4).
           { intros H. apply In_nth_error in H. destruct H as (q & Q). exact (K2 (S q) ltac:(lia) Q). }
           exists w'. split; [exact W3|]. eapply Returned_trans; eassumption.
        -- cbn in K1, Kd. apply (B i' k r' j v); [|exact Kd|exact Kj]. split; [exact K1|]. intros k' Lk. exact (K2 (S k') ltac:(lia)).
      * intros i' j v L' N H. assert (N1 : i' <> i) by (intros ->; apply N; left; reflexivity).
        destruct (A2 i' j v L' N1 H) as (w & W1 & W2). destruct (C i' j w L') with (2 := W1) as (w' & W3 & W4); [intros Y; apply N; right; exact Y|].
        exists w'. split; [exact W3|]. eapply GetCountProofs.SameElement_trans; eassumption.
Qed.
