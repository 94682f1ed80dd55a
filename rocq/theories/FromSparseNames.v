(** Names given as a dict of positions; the header row and column (C77). *)
From Verif Require Import Base NamesModel NamesSpec NamesProofs TableModel TableSpec TableOps MatchModel MatchSpec MatchProofs GetSpec CsvModel RawModel RawSpec RawProofs SparseModel SparseSpec SparseProofs ReshapeModel SparseReshapeModel FromSparseModel FromSparseSpec FromSparseDup.
From Coq Require Import QArith List. Import ListNotations.
Open Scope nat_scope.

(** ** a dict filled from names and positions *)
Definition fill (ps : list (string * nat)) : list (string * Z) :=
  fold_left (fun acc p => dset (fst p) (Z.of_nat (snd p)) acc) ps [].
Definition zp (p : string * nat) : string * Z := (fst p, Z.of_nat (snd p)).

Lemma fill_gen ps : forall acc : list (string * Z), NoDup (map fst ps) -> (forall s, In s (map fst ps) -> ~ In s (dkeys acc)) ->
  fold_left (fun acc p => dset (fst p) (Z.of_nat (snd p)) acc) ps acc = acc ++ map zp ps.
Proof.
  induction ps as [|p ps IH]; intros acc N H; cbn [fold_left map]; [rewrite app_nil_r; reflexivity|].
  cbn [map] in N, H. apply NoDup_cons_iff in N. destruct N as [N1 N2]. rewrite dset_new by (apply H; left; reflexivity). rewrite IH; auto.
  - rewrite <- app_assoc. reflexivity.
  - intros s I. unfold dkeys. rewrite map_app, in_app_iff. cbn [map fst In]. intros [X|[X|[]]]; [apply (H s); [right; auto|exact X]|]. subst s. auto.
Qed.
Lemma fill_nodup ps : NoDup (map fst ps) -> fill ps = map zp ps.
Proof. intros N. unfold fill. rewrite fill_gen; [reflexivity|auto|intros s _ []]. Qed.
Lemma dset_length {V} k (v : V) (d : list (string * V)) : List.length (dset k v d) = if mem k (map fst d) then List.length d else S (List.length d).
Proof.
  induction d as [|[a b] d IH]; [reflexivity|]. cbn [dset map fst mem]. destruct (eq_dec k a) as [->|N]; [reflexivity|].
  cbn [List.length]. rewrite IH. destruct (mem k (map fst d)); reflexivity.
Qed.
Lemma dset_keys (k : string) (v : Z) d s : In s (map fst (dset k v d)) <-> In s (map fst d) \/ s = k.
Proof.
  induction d as [|[a b] d IH]; cbn [dset map fst In]; [intuition congruence|]. destruct (eq_dec k a) as [->|N]; cbn [map fst In]; [intuition congruence|]. rewrite IH. tauto.
Qed.
Lemma fill_length_gen ps : forall acc : list (string * Z),
  let d := fold_left (fun acc p => dset (fst p) (Z.of_nat (snd p)) acc) ps acc in
  List.length d <= List.length acc + List.length ps /\
  (List.length d = List.length acc + List.length ps -> NoDup (map fst ps) /\ forall s, In s (map fst ps) -> ~ In s (map fst acc)).
Proof.
  induction ps as [|p ps IH]; intros acc; cbn [fold_left].
  - cbn zeta. cbn [List.length map]. split; [lia|]. intros _. split; [constructor|intros s []].
  - specialize (IH (dset (fst p) (Z.of_nat (snd p)) acc)). cbn zeta in IH |- *. destruct IH as [H1 H2]. pose proof (dset_length (fst p) (Z.of_nat (snd p)) acc) as L.
    cbn [List.length]. destruct (mem (fst p) (map fst acc)) eqn:M.
    + split; [lia|]. intros E. lia.
    + split; [lia|]. intros E. destruct H2 as [H2 H3]; [lia|]. apply mem_not_In in M. cbn [map]. split.
      * constructor; auto. intros X. apply (H3 _ X). apply dset_keys. right. reflexivity.
      * intros s [<-|I]; auto. intros X. apply (H3 s I). apply dset_keys. left. exact X.
Qed.
Lemma fill_length ps : List.length (fill ps) <= List.length ps /\ (List.length (fill ps) = List.length ps -> NoDup (map fst ps)).
Proof. destruct (fill_length_gen ps []) as [A B]. split; [exact A|]. intros E. apply B. exact E. Qed.

Lemma below_length (l : list nat) n : NoDup l -> (forall i, In i l -> i < n) -> List.length l <= n.
Proof. intros N H. rewrite <- (seq_length n 0). apply NoDup_incl_length; auto. intros i I. apply in_seq. specialize (H i I). lia. Qed.
Lemma below_full (l : list nat) n i : NoDup l -> (forall i, In i l -> i < n) -> List.length l = n -> i < n -> In i l.
Proof. intros N H L I. apply (NoDup_length_incl N (l' := seq 0 n)); [rewrite seq_length; lia|intros x X; apply in_seq; specialize (H x X); lia|apply in_seq; lia]. Qed.

Lemma updates_nth (ps : list (string * nat)) : forall r, NoDup (map snd ps) -> (forall p, In p ps -> snd p < List.length r) ->
  (forall p, In p ps -> nth_error (fold_left (fun r p => upd r (snd p) (Some (fst p))) ps r) (snd p) = Some (Some (fst p))) /\
  (forall i, ~ In i (map snd ps) -> nth_error (fold_left (fun r p => upd r (snd p) (Some (fst p))) ps r) i = nth_error r i).
Proof.
  induction ps as [|p ps IH]; intros r N H; [split; [intros p []|reflexivity]|]. cbn [map] in N. apply NoDup_cons_iff in N. destruct N as [N1 N2]. cbn [fold_left].
  destruct (IH (upd r (snd p) (Some (fst p))) N2) as [A B]; [intros q Q; rewrite upd_length; apply H; right; exact Q|]. split.
  - intros q [<-|Q]; [|apply A; exact Q]. rewrite B by exact N1. apply nth_error_upd_same. apply H. left. reflexivity.
  - intros i I. cbn [map In] in I. rewrite B by tauto. apply nth_error_upd_other. intros X. apply I. left. exact X.
Qed.
Lemma named_values (ps : list (string * nat)) : map (fun p : string * Z => (NStr (fst p), DInt (snd p))) (map zp ps) = map emb ps.
Proof. rewrite map_map. reflexivity. Qed.

Lemma giveNames_dict n ps : List.length ps = n -> NoDup (map fst ps) -> NoDup (map snd ps) -> (forall p, In p ps -> snd p < n) ->
  exists a, giveNames (mkAxis n None) (GDict (map zp ps)) = Ok a /\ Inv a /\ alen a = n /\ forall p, In p ps -> nth_error (getNames a) (snd p) = Some (Some (fst p)).
Proof.
  intros L Nf Ns H. unfold giveNames. cbn [namesOf]. rewrite named_values.
  assert (E : exists a, setNames (mkAxis n None) (ADict (map emb ps)) ONone = (a, Ok tt) /\ Inv a /\ alen a = n /\ forall p, In p ps -> nth_error (getNames a) (snd p) = Some (Some (fst p))).
  { cbn [setNames]. pose proof (setNames_all_Inv (mkAxis n None) (ADict (map emb ps))) as I. unfold setNames_all in *. cbn [assignments_len alen] in *. rewrite map_length, L, Nat.eqb_refl in *. cbn [negb] in *.
    destruct (Nat.eqb_spec n 0) as [->|Nz].
    - destruct ps; [|discriminate]. eexists. split; [reflexivity|]. split; [|split; [reflexivity|intros p []]]. apply I; [exact Logic.I|split; constructor].
    - assert (Dd : ddel NNone (map emb ps) = map emb ps).
      { clear. induction ps as [|p ps IH]; [reflexivity|]. cbn [map ddel emb]. unfold emb at 1. cbn [fst]. destruct (eq_dec NNone (NStr (fst p))) as [X|_]; [discriminate|]. rewrite IH. reflexivity. }
      rewrite Dd in *. cbn [rbind] in *. rewrite buildReverse_accept in * by exact H. cbn [rbind fst] in *. eexists. split; [reflexivity|]. split.
      + apply I; [exact Logic.I|]. split; [|].
        * unfold wfdict. rewrite dkeys_emb. apply FinFun.Injective_map_NoDup; [intros a b X; injection X as X; exact X|exact Nf].
        * change (NoDup (map snd (ddel NNone (map emb ps)))). rewrite Dd, map_map. cbn [emb snd]. rewrite <- (map_map snd (fun i => DInt (Z.of_nat i))). apply FinFun.Injective_map_NoDup; [intros a b X; injection X as X; lia|exact Ns].
      + split; [reflexivity|]. intros p I'. unfold getNames. cbn [astate names_inv alen].
        apply (updates_nth ps (repeat None n) Ns); [rewrite repeat_length; exact H|exact I']. }
  destruct E as [a [-> [I [A G]]]]. exists a. auto.
Qed.

Lemma dict_axis n ps : NoDup (map snd ps) -> (forall p, In p ps -> snd p < n) ->
  match newAxis n (GDict (fill ps)) with
  | Ok a => Inv a /\ alen a = n /\ List.length ps = n /\ NoDup (map fst ps) /\ forall p, In p ps -> nth_error (getNames a) (snd p) = Some (Some (fst p))
  | Err e => e = InvalidArgumentValue /\ ~ (List.length ps = n /\ NoDup (map fst ps))
  end.
Proof.
  intros Ns H. pose proof (below_length (map snd ps) n Ns) as Lp. rewrite map_length in Lp.
  assert (Lp' : List.length ps <= n) by (apply Lp; intros i I; apply in_map_iff in I; destruct I as [p [<- I]]; auto). clear Lp.
  destruct (fill_length ps) as [F1 F2]. unfold newAxis. cbn [givenLen]. destruct (Nat.eqb_spec (List.length (fill ps)) n) as [E|E]; cbn [negb].
  - assert (L : List.length ps = n) by lia. assert (Nf : NoDup (map fst ps)) by (apply F2; lia). rewrite fill_nodup by exact Nf.
    destruct (giveNames_dict n ps L Nf Ns H) as [a [-> [I [A G]]]]. auto.
  - split; auto. intros [L Nf]. apply E. rewrite fill_nodup by exact Nf. rewrite map_length. exact L.
Qed.

(** ** the first rows *)
Lemma row_fold (l : list (entry pval)) i : forall acc, NoDup (map pos l) -> (forall e, In e l -> ec e < List.length acc) ->
  (forall e, In e l -> er e = i -> nth_error (fold_left (fun acc e => if er e =? i then upd acc (ec e) (ev e) else acc) l acc) (ec e) = Some (ev e)) /\
  (forall j, ~ In (i, j) (map pos l) -> nth_error (fold_left (fun acc e => if er e =? i then upd acc (ec e) (ev e) else acc) l acc) j = nth_error acc j).
Proof.
  induction l as [|x l IH]; intros acc N H; [split; [intros e []|reflexivity]|]. cbn [map] in N. apply NoDup_cons_iff in N. destruct N as [N1 N2]. cbn [fold_left].
  set (acc' := if er x =? i then upd acc (ec x) (ev x) else acc). assert (La : List.length acc' = List.length acc) by (unfold acc'; destruct (er x =? i); [apply upd_length|reflexivity]).
  destruct (IH acc' N2) as [A B]; [intros e I; rewrite La; apply H; right; exact I|]. split.
  - intros e [<-|I] Ei; [|apply A; auto]. rewrite B by (rewrite <- Ei; exact N1). unfold acc'. rewrite Ei, Nat.eqb_refl. apply nth_error_upd_same. apply H. left. reflexivity.
  - intros j I. cbn [map In] in I. rewrite B by tauto. unfold acc'. destruct (Nat.eqb_spec (er x) i) as [E|_]; auto. apply nth_error_upd_other. intros X. apply I. left. unfold pos. congruence.
Qed.
Lemma rowValues_nth s i j : entsOK (PInt 0) s -> j < snf s -> nth_error (rowValues s i) j = Some (SparseSpec.val (PInt 0) s i j).
Proof.
  intros [N R] J. unfold rowValues. destruct (row_fold (ents s) i (repeat pzero (snf s)) N) as [A B]; [intros e I; rewrite repeat_length; apply R; exact I|].
  unfold SparseSpec.val. destruct (find (fun e => (er e =? i) && (ec e =? j)) (ents s)) as [e|] eqn:F.
  - apply find_some in F. destruct F as [I E]. apply andb_true_iff in E. destruct E as [E1 E2]. apply Nat.eqb_eq in E1, E2. subst j. apply A; auto.
  - rewrite B.
    + rewrite nth_error_repeat by exact J. reflexivity.
    + intros X. apply in_map_iff in X. destruct X as [e [E I]]. unfold pos in E. injection E as E1 E2. pose proof (find_none _ _ F e I) as Q. cbv beta in Q. rewrite E1, E2, !Nat.eqb_refl in Q. discriminate.
Qed.
Lemma rowValues_length s i : List.length (rowValues s i) = snf s.
Proof.
  unfold rowValues. assert (G : forall l acc, List.length (fold_left (fun acc (e : entry pval) => if er e =? i then upd acc (ec e) (ev e) else acc) l acc) = List.length acc).
  { induction l as [|e l IH]; intros acc; [reflexivity|]. cbn [fold_left]. rewrite IH. destruct (er e =? i); [apply upd_length|reflexivity]. }
  rewrite G. apply repeat_length.
Qed.
Lemma Shows_row m s i : Shows m s -> entsOK (PInt 0) s -> i < snp s -> nth_error m i = Some (rowValues s i).
Proof.
  intros [M1 [M2 M3]] E I. destruct (nth_error_is_some m (i := i)) as [r Er]; [lia|]. rewrite Er. f_equal.
  assert (L : List.length r = snf s) by (apply M2; eapply nth_error_In; eauto).
  apply nth_error_ext. intros j. destruct (Nat.lt_ge_cases j (snf s)) as [J|J].
  - rewrite rowValues_nth by auto. specialize (M3 i j I J). unfold valueAt in M3. rewrite Er in M3. exact M3.
  - rewrite (proj2 (nth_error_None r j)), (proj2 (nth_error_None (rowValues s i) j)); auto; rewrite ?rowValues_length; lia.
Qed.

(** the choice of the header agrees with that for the nested list *)
Lemma detect m s pn fn : Shows m s -> entsOK (PInt 0) s -> 0 < snp s -> (snp s <> 1 \/ (pn <> NmAuto /\ fn <> NmAuto)) ->
  let '(p, f) := if isAuto fn || isAuto pn
                 then autoDetect pn fn (Some (map kindOfValue (rowValues s 0))) (Some (map kindOfValue (rowValues s 1)))
                 else (pn, fn) in
  (isTrue p = true <-> FirstColumnIsNames pn fn m) /\ (isTrue f = true <-> FirstRowIsNames pn fn m).
Proof.
  intros M E P G. destruct (isAuto fn || isAuto pn) eqn:A.
  - assert (N1 : snp s <> 1).
    { destruct G as [G|[G1 G2]]; auto. apply orb_true_iff in A. rewrite !isAuto_spec in A. tauto. }
    pose proof (autoDetect_spec pn fn m) as D. unfold rowKinds in D. rewrite (Shows_row m s 0 M E), (Shows_row m s 1 M E) in D by lia. exact D.
  - apply orb_false_iff in A. destruct A as [A1 A2]. assert (Af : fn <> NmAuto) by (intros X; apply isAuto_spec in X; congruence). assert (Ap : pn <> NmAuto) by (intros X; apply isAuto_spec in X; congruence).
    unfold FirstColumnIsNames, FirstRowIsNames. rewrite !isTrue_spec. split; split; auto; intros [X|[X _]]; auto; contradiction.
Qed.
