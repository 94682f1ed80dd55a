(** Sums for C80: covariance, correlation, Cauchy-Schwarz. *)
From Coq Require Import Lia Lqa QArith List Arith ZArith. Import ListNotations.
From Verif Require Import Base TableModel MatchModel MatchSpec CalcModel CalcProofs SimStatModel SimStatSpec.
Open Scope list_scope. Open Scope nat_scope.

Lemma qsum_total l : (qsum l == total l)%Q.
Proof. induction l as [|x l IH]; [reflexivity|]. rewrite qsum_cons, IH. reflexivity. Qed.
Lemma count_cons {A} (x : A) l : (count (x :: l) == 1 + count l)%Q.
Proof. unfold count. cbn [List.length]. rewrite Nat2Z.inj_succ, <- Z.add_1_l, inject_Z_plus. reflexivity. Qed.
Lemma count_pos {A} (l : list A) : l <> [] -> (0 < count l)%Q.
Proof. intros N. destruct l as [|x l]; [contradiction|]. unfold count, Qlt, inject_Z. cbn [Qnum Qden List.length]. lia. Qed.
Lemma count_map {A B} (f : A -> B) l : count (map f l) = count l.
Proof. unfold count. rewrite map_length. reflexivity. Qed.
Lemma total_dev a b ps : (total (map (fun p => (fst p - a) * (snd p - b)) ps) ==
  total (map (fun p => fst p * snd p) ps) - a * total (map snd ps) - b * total (map fst ps) + count ps * a * b)%Q.
Proof.
  induction ps as [|[x y] ps IH]; [unfold count; cbn; ring|]. rewrite count_cons. cbn [map total fst snd]. rewrite IH. ring.
Qed.
Lemma mean_total l : (mean l == total l / count l)%Q.
Proof. unfold mean. rewrite qsum_total. reflexivity. Qed.

Lemma combine_split {A B} (ps : list (A * B)) : combine (map fst ps) (map snd ps) = ps.
Proof. induction ps as [|[x y] ps IH]; [reflexivity|]. cbn [map combine fst snd]. rewrite IH. reflexivity. Qed.
Lemma combine_map2 {A B C D} (f : A -> C) (g : B -> D) x y : combine (map f x) (map g y) = map (fun p => (f (fst p), g (snd p))) (combine x y).
Proof. revert y. induction x as [|a x IH]; intros [|b y]; try reflexivity. cbn [map combine fst snd]. rewrite IH. reflexivity. Qed.
Lemma combine_fst {A B} (x : list A) (y : list B) : List.length x = List.length y -> map fst (combine x y) = x.
Proof. revert y. induction x as [|a x IH]; intros [|b y] L; try discriminate; [reflexivity|]. cbn [combine map fst]. rewrite IH; [reflexivity|]. cbn in L. lia. Qed.
Lemma combine_snd {A B} (x : list A) (y : list B) : List.length x = List.length y -> map snd (combine x y) = y.
Proof. revert y. induction x as [|a x IH]; intros [|b y] L; try discriminate; [reflexivity|]. cbn [combine map snd]. rewrite IH; [reflexivity|]. cbn in L. lia. Qed.

(** the sum of products of deviations *)
Lemma dot_total ps a b : (dot (map (fun x => x - a) (map fst ps)) (map (fun y => y - b) (map snd ps)) ==
  total (map (fun p => (fst p - a) * (snd p - b)) ps))%Q.
Proof. unfold dot. rewrite combine_map2, combine_split, map_map. cbn [fst snd]. apply qsum_total. Qed.
Lemma dot_coSum ps : (dot (deviations (map fst ps)) (deviations (map snd ps)) == coSum ps)%Q.
Proof.
  unfold deviations. rewrite dot_total, total_dev. unfold coSum. rewrite !mean_total, !count_map.
  destruct ps as [|p ps]; [unfold count; cbn; reflexivity|]. pose proof (count_pos (p :: ps) ltac:(discriminate)) as P.
  set (n := count (p :: ps)) in *. clearbody n. field. intros E. rewrite E in P. lra.
Qed.

(** ** Cauchy-Schwarz *)
Definition Saa (a : Q) (ps : list (Q * Q)) : Q := total (map (fun p => (fst p - a) * (fst p - a))%Q ps).
Definition Sbb (b : Q) (ps : list (Q * Q)) : Q := total (map (fun p => (snd p - b) * (snd p - b))%Q ps).
Definition Sab (a b : Q) (ps : list (Q * Q)) : Q := total (map (fun p => (fst p - a) * (snd p - b))%Q ps).
Lemma quad a b l m ps : (2 * l * m * Sab a b ps <= l * l * Saa a ps + m * m * Sbb b ps)%Q.
Proof.
  unfold Saa, Sbb, Sab. induction ps as [|[x y] ps IH]; cbn [map total fst snd]; [nra|].
  assert (X : (0 <= (l * (x - a) - m * (y - b)) * (l * (x - a) - m * (y - b)))%Q) by (destruct (Qlt_le_dec (l * (x - a) - m * (y - b)) 0); nra).
  nra.
Qed.
Lemma square_sum (f : Q * Q -> Q) ps : (0 <= total (map (fun p => f p * f p) ps))%Q.
Proof. induction ps as [|p ps IH]; cbn [map total]; [lra|]. assert (0 <= f p * f p)%Q by (destruct (Qlt_le_dec (f p) 0); nra). lra. Qed.
Lemma cauchy a b ps : (Sab a b ps * Sab a b ps <= Saa a ps * Sbb b ps)%Q.
Proof.
  pose proof (square_sum (fun p => fst p - a) ps)%Q as A. change (0 <= Saa a ps)%Q in A.
  pose proof (square_sum (fun p => snd p - b) ps)%Q as B. change (0 <= Sbb b ps)%Q in B.
  pose proof (quad a b (Sbb b ps) (Sab a b ps) ps) as H.
  pose proof (fun l => quad a b l 1 ps) as G. pose proof (fun l => quad a b l (-(1)) ps) as G'.
  set (u := Saa a ps) in *. set (v := Sbb b ps) in *. set (w := Sab a b ps) in *. clearbody u v w.
  destruct (Qlt_le_dec 0 v) as [P|Z].
  - assert (X : (v * (w * w) <= v * (u * v))%Q) by nra. apply Qmult_le_l in X; [exact X|exact P].
  - assert (E : (v == 0)%Q) by lra. assert (W : (w == 0)%Q).
    { destruct (Qlt_le_dec 0 w) as [Pw|Nw].
      - exfalso. destruct (Qlt_le_dec 0 u) as [Pu|Zu].
        + specialize (G (w / u)%Q). assert (U : (w / u * u == w)%Q) by (field; lra). set (l := (w / u)%Q) in *. clearbody l. assert (0 < l)%Q by nra. nra.
        + specialize (G 1%Q). nra.
      - destruct (Qlt_le_dec w 0) as [Nw'|Pw]; [|lra]. exfalso. destruct (Qlt_le_dec 0 u) as [Pu|Zu].
        + specialize (G' (- w / u)%Q). assert (U : (- w / u * u == - w)%Q) by (field; lra). set (l := (- w / u)%Q) in *. clearbody l. assert (0 < l)%Q by nra. nra.
        + specialize (G' 1%Q). nra. }
    rewrite W, E. lra.
Qed.
Definition twice (f : Q * Q -> Q) (ps : list (Q * Q)) : list (Q * Q) := map (fun p => (f p, f p)) ps.
Lemma dev_coSum ps : ps <> [] -> (Sab (total (map fst ps) / count ps) (total (map snd ps) / count ps) ps == coSum ps)%Q.
Proof.
  intros N. unfold Sab. rewrite total_dev. unfold coSum. pose proof (count_pos ps N) as P. set (n := count ps) in *. clearbody n. field. lra.
Qed.
Lemma coSum_twice f ps : ps <> [] ->
  (coSum (twice f ps) == total (map (fun p => (f p - total (map f ps) / count ps) * (f p - total (map f ps) / count ps)) ps))%Q.
Proof.
  intros N. assert (N' : twice f ps <> []) by (destruct ps; [contradiction|discriminate]).
  rewrite <- (dev_coSum (twice f ps) N'). unfold Sab, twice. rewrite !map_map, count_map. cbn [fst snd].
  replace (map (fun x => f x) ps) with (map f ps) by (apply map_ext; reflexivity). reflexivity.
Qed.
Lemma cauchy_coSum ps : (coSum ps * coSum ps <= coSum (twice fst ps) * coSum (twice snd ps))%Q.
Proof.
  destruct ps as [|p ps]; [vm_compute; discriminate|].
  rewrite <- (dev_coSum (p :: ps)), !coSum_twice by discriminate. apply cauchy.
Qed.
Lemma map_twice f ps : map (fun x => (x, x)) (map f ps) = twice f ps.
Proof. unfold twice. rewrite map_map. reflexivity. Qed.

(** [coSum] of the pairs in the other order *)
Lemma coSum_swap ps : (coSum (map (fun p => (snd p, fst p)) ps) == coSum ps)%Q.
Proof.
  unfold coSum. rewrite !map_map, count_map. cbn [fst snd].
  assert (E : forall l : list (Q * Q), (total (map (fun x => snd x * fst x) l) == total (map (fun p => fst p * snd p) l))%Q).
  { induction l as [|[x y] l IH]; [reflexivity|]. cbn [map total fst snd]. rewrite IH. ring. }
  rewrite E. replace (map (fun x => snd x) ps) with (map snd ps) by (apply map_ext; reflexivity).
  replace (map (fun x => fst x) ps) with (map fst ps) by (apply map_ext; reflexivity).
  unfold Qdiv. ring.
Qed.
Lemma coSum_one p : (coSum [p] == 0)%Q.
Proof. destruct p as [x y]. unfold coSum, count. cbn [map total fst snd List.length]. change (inject_Z (Z.of_nat 1)) with 1%Q. field. Qed.

(** ** correlation *)
Lemma std_product std ps : StdOf (map fst ps) (std (map fst ps)) -> StdOf (map snd ps) (std (map snd ps)) ->
  (coSum ps * coSum ps <= (std (map fst ps) * std (map snd ps) * count ps) * (std (map fst ps) * std (map snd ps) * count ps))%Q.
Proof.
  intros [A1 A2] [B1 B2]. rewrite count_map, map_twice in A2, B2. pose proof (cauchy_coSum ps) as C. rewrite <- A2, <- B2 in C.
  set (s := std (map fst ps)) in *. set (u := std (map snd ps)) in *. set (n := count ps) in *. clearbody s u n. eapply Qle_trans; [exact C|]. apply Qle_lteq. right. ring.
Qed.
Lemma corr_bound std ps r : StdOf (map fst ps) (std (map fst ps)) -> StdOf (map snd ps) (std (map snd ps)) ->
  Correlation std ps (Some r) -> (-(1) <= r <= 1)%Q.
Proof.
  intros A B (N & D & E). pose proof (std_product std ps A B) as C. pose proof (count_pos ps N) as P.
  destruct A as [A1 _], B as [B1 _]. rewrite <- E in C.
  set (d := (std (map fst ps) * std (map snd ps))%Q) in *. assert (D1 : (0 <= d)%Q) by (unfold d; nra). clearbody d.
  set (n := count ps) in *. clearbody n. assert (D2 : (0 < d)%Q) by lra. assert (DN : (0 < d * n)%Q) by nra.
  set (k := (d * n)%Q) in *. assert (C' : (r * k * (r * k) <= k * k)%Q) by (unfold k; eapply Qle_trans; [|exact C]; apply Qle_lteq; right; ring). clearbody k.
  assert (K : (0 < k * k)%Q) by nra. assert (R : (r * r <= 1)%Q).
  { apply (Qmult_le_r (r * r) 1 (k * k) K). nra. }
  split; destruct (Qlt_le_dec 1 r), (Qlt_le_dec r (-(1))); nra.
Qed.
Lemma corr_self std l r : StdOf l (std l) -> Correlation std (map (fun x => (x, x)) l) (Some r) -> (r == 1)%Q.
Proof.
  intros [A1 A2] (N & D & E). rewrite !map_map in *. cbn [fst snd] in *. rewrite !map_id in *. rewrite count_map in E. rewrite <- A2 in E.
  assert (P : (0 < count l)%Q) by (apply count_pos; destruct l; [contradiction|discriminate]).
  set (s := std l) in *. set (n := count l) in *. clearbody s n. assert (X : ((r - 1) * (s * s * n) == 0)%Q) by lra.
  apply Qmult_integral in X. destruct X as [X|X]; [lra|]. apply Qmult_integral in X. destruct X as [X|X]; [contradiction|lra].
Qed.
