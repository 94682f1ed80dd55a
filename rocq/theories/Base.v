(** Shared vocabulary of the nimble model: exceptions as values, Python
    dicts as insertion-ordered association lists, and list facts. *)
From Coq Require Export List Arith ZArith Lia Bool String Permutation.
Export ListNotations.
Set Implicit Arguments.

(** The exception classes of /repo/nimble/exceptions.py (and the Python
    builtins) that the modelled code raises. *)
Inductive exc :=
| InvalidArgumentType | InvalidArgumentValue
| InvalidArgumentTypeCombination | InvalidArgumentValueCombination
| ImproperObjectAction | IndexErr | KeyErr | TypeErr | ValueErr
| AttributeErr | StopIter | UnboundErr | ZeroDiv | FileFormatErr | OutOfFuel.

Inductive result (A : Type) := Ok (a : A) | Err (e : exc).
Arguments Ok {A} _.
Arguments Err {A} _.

Definition rbind {A B} (r : result A) (k : A -> result B) : result B :=
  match r with Ok a => k a | Err e => Err e end.
Definition rmap {A B} (f : A -> B) (r : result A) : result B :=
  match r with Ok a => Ok (f a) | Err e => Err e end.
Notation "x <- r ;; k" := (rbind r (fun x => k))
  (at level 60, r at next level, right associativity).
Definition is_ok {A} (r : result A) : bool :=
  match r with Ok _ => true | Err _ => false end.

(** [for x in l: ys.append(f(x))], stopping at the first exception. *)
Fixpoint rmapM {A B} (f : A -> result B) (l : list A) : result (list B) :=
  match l with
  | [] => Ok []
  | x :: xs => y <- f x ;; ys <- rmapM f xs ;; Ok (y :: ys)
  end.

Class EqDec (K : Type) := eq_dec : forall x y : K, {x = y} + {x <> y}.
#[export] Instance EqDec_nat : EqDec nat := Nat.eq_dec.
#[export] Instance EqDec_Z : EqDec Z := Z.eq_dec.
#[export] Instance EqDec_string : EqDec string := string_dec.
#[export] Instance EqDec_bool : EqDec bool := Bool.bool_dec.
#[export] Instance EqDec_option (K : Type) (E : EqDec K) : EqDec (option K).
Proof. unfold EqDec in *; decide equality. Defined.
#[export] Instance EqDec_list (K : Type) (E : EqDec K) : EqDec (list K).
Proof. unfold EqDec in *; decide equality. Defined.
#[export] Instance EqDec_prod (K L : Type) (E : EqDec K) (F : EqDec L) : EqDec (K * L).
Proof. unfold EqDec in *; decide equality. Defined.

Definition eqbd {K} {E : EqDec K} (x y : K) : bool :=
  if eq_dec x y then true else false.

Lemma eqbd_eq {K} {E : EqDec K} (x y : K) : eqbd x y = true <-> x = y.
Proof. unfold eqbd; destruct (eq_dec x y); split; congruence. Qed.
Lemma eqbd_neq {K} {E : EqDec K} (x y : K) : eqbd x y = false <-> x <> y.
Proof. unfold eqbd; destruct (eq_dec x y); split; congruence. Qed.
Lemma eqbd_refl {K} {E : EqDec K} (x : K) : eqbd x x = true.
Proof. apply eqbd_eq; reflexivity. Qed.

Lemma eqbd_true {K} {E : EqDec K} (x y : K) : eqbd x y = true -> x = y.
Proof. apply eqbd_eq. Qed.
Lemma eqbd_false {K} {E : EqDec K} (x y : K) : eqbd x y = false -> x <> y.
Proof. apply eqbd_neq. Qed.

(** Python [x in list]. *)
Fixpoint mem {K} {E : EqDec K} (x : K) (l : list K) : bool :=
  match l with [] => false | y :: ys => if eq_dec x y then true else mem x ys end.
Lemma mem_In {K} {E : EqDec K} (x : K) l : mem x l = true <-> In x l.
Proof.
  induction l as [|y ys IH]; simpl; [split; [discriminate|tauto]|].
  destruct (eq_dec x y) as [->|H]; [tauto|].
  rewrite IH; intuition congruence.
Qed.
Lemma mem_not_In {K} {E : EqDec K} (x : K) l : mem x l = false <-> ~ In x l.
Proof. rewrite <- mem_In; destruct (mem x l); intuition congruence. Qed.

Fixpoint nodupb {K} {E : EqDec K} (l : list K) : bool :=
  match l with [] => true | x :: xs => negb (mem x xs) && nodupb xs end.
Lemma nodupb_NoDup {K} {E : EqDec K} (l : list K) : nodupb l = true <-> NoDup l.
Proof.
  induction l as [|x xs IH]; simpl; [split; [constructor|auto]|].
  rewrite andb_true_iff, negb_true_iff, mem_not_In, IH.
  split; [intros []; constructor; auto|inversion 1; auto].
Qed.

(** ** Python dict: insertion-ordered association list with unique keys *)
Section Dict.
Context {K : Type} {E : EqDec K} {V : Type}.
Definition dict := list (K * V).
Fixpoint dget (k : K) (d : dict) : option V :=
  match d with
  | [] => None
  | (k', v) :: t => if eq_dec k k' then Some v else dget k t
  end.
(** [d[k] = v]: an existing key keeps its position. *)
Fixpoint dset (k : K) (v : V) (d : dict) : dict :=
  match d with
  | [] => [(k, v)]
  | (k', v') :: t => if eq_dec k k' then (k', v) :: t else (k', v') :: dset k v t
  end.
(** [del d[k]] *)
Fixpoint ddel (k : K) (d : dict) : dict :=
  match d with
  | [] => []
  | (k', v') :: t => if eq_dec k k' then t else (k', v') :: ddel k t
  end.
Definition dkeys (d : dict) : list K := map fst d.
Definition dmem (k : K) (d : dict) : bool := mem k (dkeys d).
Definition wfdict (d : dict) : Prop := NoDup (dkeys d).
(** [dict(pairs)] *)
Definition dict_of (ps : list (K * V)) : dict :=
  fold_left (fun d p => dset (fst p) (snd p) d) ps [].

Lemma dkeys_dset k v d :
  dkeys (dset k v d) = if mem k (dkeys d) then dkeys d else dkeys d ++ [k].
Proof.
  induction d as [|[k' v'] t IH]; simpl; auto.
  destruct (eq_dec k k') as [->|H]; simpl; auto.
  unfold dkeys in *; rewrite IH; destruct (mem k (map fst t)); auto.
Qed.
Lemma dget_In k v d : dget k d = Some v -> In (k, v) d.
Proof.
  induction d as [|[k' v'] t IH]; simpl; [discriminate|].
  destruct (eq_dec k k') as [->|H]; [intros [= ->]; auto|auto].
Qed.
Lemma In_dget k v d : wfdict d -> In (k, v) d -> dget k d = Some v.
Proof.
  unfold wfdict, dkeys; induction d as [|[k' v'] t IH]; simpl; [tauto|].
  inversion 1 as [|? ? Hn Hd]; subst; intros [[= -> ->]|Hin].
  - destruct (eq_dec k k); congruence.
  - destruct (eq_dec k k') as [->|]; auto.
    exfalso; apply Hn, in_map_iff; exists (k', v); auto.
Qed.
Lemma dget_iff_In k v d : wfdict d -> (dget k d = Some v <-> In (k, v) d).
Proof. intros H; split; [apply dget_In|apply In_dget; auto]. Qed.
Lemma dget_None k d : dget k d = None <-> ~ In k (dkeys d).
Proof.
  unfold dkeys; induction d as [|[k' v'] t IH]; simpl; [tauto|].
  destruct (eq_dec k k') as [->|H]; [split; [discriminate|tauto]|].
  rewrite IH; intuition congruence.
Qed.
Lemma dmem_dget k d : dmem k d = true <-> exists v, dget k d = Some v.
Proof.
  unfold dmem; rewrite mem_In; split.
  - intros H; destruct (dget k d) eqn:Hg; eauto. apply dget_None in Hg; tauto.
  - intros [v Hv]. destruct (in_dec eq_dec k (dkeys d)); auto.
    apply dget_None in n; congruence.
Qed.
Lemma dget_dset k k' v d :
  dget k (dset k' v d) = if eq_dec k k' then Some v else dget k d.
Proof.
  induction d as [|[a b] t IH]; simpl.
  - destruct (eq_dec k k'); auto.
  - destruct (eq_dec k' a) as [->|H]; simpl.
    + destruct (eq_dec k a); auto.
    + rewrite IH. destruct (eq_dec k a) as [->|]; auto.
      destruct (eq_dec a k'); congruence.
Qed.
Lemma wfdict_dset k v d : wfdict d -> wfdict (dset k v d).
Proof.
  unfold wfdict; rewrite dkeys_dset; destruct (mem k (dkeys d)) eqn:Hm; auto.
  intros H; apply mem_not_In in Hm. apply Permutation_NoDup with (k :: dkeys d).
  - apply Permutation_cons_append.
  - constructor; auto.
Qed.
Lemma dget_ddel k k' d : wfdict d ->
  dget k (ddel k' d) = if eq_dec k k' then None else dget k d.
Proof.
  unfold wfdict, dkeys; induction d as [|[a b] t IH]; simpl; intros H.
  - destruct (eq_dec k k'); auto.
  - inversion H as [|? ? Hn Hd]; subst. destruct (eq_dec k' a) as [->|H1]; simpl.
    + destruct (eq_dec k a) as [->|]; auto. apply dget_None; auto.
    + rewrite IH by auto. destruct (eq_dec k a) as [->|]; auto.
      destruct (eq_dec a k'); congruence.
Qed.
Lemma In_dkeys_ddel x k d : In x (dkeys (ddel k d)) -> In x (dkeys d).
Proof.
  unfold dkeys; induction d as [|[a b] t IH]; simpl; auto.
  destruct (eq_dec k a); simpl; intuition.
Qed.
Lemma wfdict_ddel k d : wfdict d -> wfdict (ddel k d).
Proof.
  unfold wfdict; induction d as [|[a b] t IH]; simpl; auto.
  inversion 1 as [|? ? Hn Hd]; subst. destruct (eq_dec k a); simpl; auto.
  constructor; auto. intros Hin; apply Hn; eapply In_dkeys_ddel; eauto.
Qed.
Lemma In_dset k v d p : In p (dset k v d) -> p = (k, v) \/ In p d.
Proof.
  induction d as [|[a b] t IH]; simpl; [intuition|].
  destruct (eq_dec k a) as [->|]; simpl; intuition.
Qed.
Lemma wfdict_fold_dset ps d : wfdict d ->
  wfdict (fold_left (fun d p => dset (fst p) (snd p) d) ps d).
Proof.
  revert d; induction ps as [|p ps IH]; simpl; auto.
  intros d H; apply IH, wfdict_dset; auto.
Qed.
Lemma wfdict_dict_of ps : wfdict (dict_of ps).
Proof. apply wfdict_fold_dset; constructor. Qed.
Lemma dset_new k v d : ~ In k (dkeys d) -> dset k v d = d ++ [(k, v)].
Proof.
  unfold dkeys; induction d as [|[a b] t IH]; simpl; auto.
  intros H; destruct (eq_dec k a) as [->|]; [tauto|]. f_equal; apply IH; tauto.
Qed.
Lemma fold_dset_nodup ps d : NoDup (dkeys d ++ map fst ps) ->
  fold_left (fun d p => dset (fst p) (snd p) d) ps d = d ++ ps.
Proof.
  revert d; induction ps as [|[k v] ps IH]; simpl; intros d H.
  - rewrite app_nil_r; auto.
  - rewrite IH.
    + rewrite dset_new, <- app_assoc; auto.
      apply NoDup_remove_2 in H; rewrite in_app_iff in H; tauto.
    + rewrite dset_new.
      * unfold dkeys; rewrite map_app, <- app_assoc; simpl; auto.
      * apply NoDup_remove_2 in H; rewrite in_app_iff in H; tauto.
Qed.
Lemma dict_of_nodup ps : NoDup (map fst ps) -> dict_of ps = ps.
Proof. intros H; unfold dict_of; rewrite fold_dset_nodup; auto. Qed.
End Dict.
Arguments dict : clear implicits.

(** ** List facts *)
Lemma nth_error_ext {A} (l l' : list A) :
  (forall i, nth_error l i = nth_error l' i) -> l = l'.
Proof.
  revert l'; induction l as [|x xs IH]; destruct l' as [|y ys]; intros H; auto.
  - specialize (H 0); discriminate.
  - specialize (H 0); discriminate.
  - f_equal; [specialize (H 0); simpl in H; congruence|].
    apply IH; intros i; apply (H (S i)).
Qed.

Lemma nth_error_ext_len {A} (l l' : list A) :
  List.length l = List.length l' ->
  (forall i, i < List.length l -> nth_error l i = nth_error l' i) -> l = l'.
Proof.
  intros Hl H; apply nth_error_ext; intros i.
  destruct (Nat.lt_ge_cases i (List.length l)) as [Hi|Hi]; auto.
  rewrite (proj2 (nth_error_None _ _)), (proj2 (nth_error_None _ _)); auto; lia.
Qed.

(** [l[i] = x] on a Python list (no effect out of range; callers guard). *)
Fixpoint upd {A} (l : list A) (i : nat) (x : A) : list A :=
  match l, i with
  | [], _ => []
  | _ :: t, 0 => x :: t
  | h :: t, S j => h :: upd t j x
  end.
Lemma upd_length {A} (l : list A) i x : List.length (upd l i x) = List.length l.
Proof. revert i; induction l; destruct i; simpl; auto. Qed.
Lemma nth_error_upd {A} (l : list A) i j x :
  nth_error (upd l i x) j =
  if Nat.eq_dec i j then (if i <? List.length l then Some x else None)
  else nth_error l j.
Proof.
  revert i j; induction l as [|h t IH]; intros i j; simpl.
  - destruct i, j; simpl; auto; destruct (Nat.eq_dec _ _); auto.
  - destruct i, j; simpl; auto.
    rewrite IH. destruct (Nat.eq_dec i j), (Nat.eq_dec (S i) (S j)); auto; lia.
Qed.
Lemma nth_error_upd_same {A} (l : list A) i x :
  i < List.length l -> nth_error (upd l i x) i = Some x.
Proof.
  intros H; rewrite nth_error_upd. destruct (Nat.eq_dec i i); [|lia].
  destruct (Nat.ltb_spec i (List.length l)); auto; lia.
Qed.
Lemma nth_error_upd_other {A} (l : list A) i j x :
  i <> j -> nth_error (upd l i x) j = nth_error l j.
Proof. intros H; rewrite nth_error_upd; destruct (Nat.eq_dec i j); tauto. Qed.

Lemma nth_error_lt {A} (l : list A) i x : nth_error l i = Some x -> i < List.length l.
Proof. intros H; apply nth_error_Some; congruence. Qed.
Lemma nth_error_is_some {A} (l : list A) i :
  i < List.length l -> exists x, nth_error l i = Some x.
Proof.
  intros H; destruct (nth_error l i) eqn:E; eauto.
  apply nth_error_None in E; lia.
Qed.

Lemma nth_error_map_eq {A B} (f : A -> B) l i :
  nth_error (map f l) i = option_map f (nth_error l i).
Proof. revert i; induction l; destruct i; simpl; auto. Qed.

Lemma nth_error_seq a n i :
  nth_error (seq a n) i = if i <? n then Some (a + i) else None.
Proof.
  revert a i; induction n as [|n IH]; intros a i; simpl.
  - destruct i; auto.
  - destruct i; simpl; [f_equal; lia|]. rewrite IH.
    change (S i <? S n) with (i <? n).
    destruct (i <? n); auto; f_equal; lia.
Qed.

Lemma nth_error_firstn {A} (l : list A) n i :
  nth_error (firstn n l) i = if i <? n then nth_error l i else None.
Proof.
  revert l i; induction n as [|n IH]; intros l i; simpl.
  - destruct i; auto.
  - destruct l as [|x xs]; simpl.
    + destruct i; simpl; auto. destruct (_ <? _); auto.
    + destruct i; simpl; auto. apply IH.
Qed.
Lemma nth_error_skipn {A} (l : list A) n i :
  nth_error (skipn n l) i = nth_error l (n + i).
Proof.
  revert l; induction n as [|n IH]; intros l; simpl; auto.
  destruct l as [|x xs]; auto. destruct i; auto.
Qed.

Lemma nth_error_app {A} (l l' : list A) i :
  nth_error (l ++ l') i =
  if i <? List.length l then nth_error l i else nth_error l' (i - List.length l).
Proof.
  destruct (Nat.ltb_spec i (List.length l)).
  - apply nth_error_app1; auto.
  - apply nth_error_app2; auto.
Qed.

(** Python [[xs[i] for i in idx]] when every index is in range: out of range
    entries are an IndexError. *)
Definition gather {A} (xs : list A) (idx : list nat) : result (list A) :=
  rmapM (fun i => match nth_error xs i with Some x => Ok x | None => Err IndexErr end) idx.
Lemma gather_ok {A} (xs : list A) idx :
  (forall i, In i idx -> i < List.length xs) ->
  exists ys, gather xs idx = Ok ys /\
    List.length ys = List.length idx /\
    forall k, nth_error ys k =
      match nth_error idx k with Some i => nth_error xs i | None => None end.
Proof.
  induction idx as [|i idx IH]; intros H.
  - exists []; simpl; repeat split; intros [|k]; auto.
  - destruct IH as [ys [Hy [Hl Hn]]]; [intros; apply H; simpl; auto|].
    destruct (nth_error_is_some xs (H i (or_introl eq_refl))) as [x Hx].
    exists (x :: ys). unfold gather in *; simpl; rewrite Hx; simpl; rewrite Hy; simpl.
    repeat split; simpl; auto. intros [|k]; simpl; auto.
Qed.

Lemma rmapM_ok_length {A B} (f : A -> result B) l ys :
  rmapM f l = Ok ys -> List.length ys = List.length l.
Proof.
  revert ys; induction l as [|x xs IH]; simpl; intros ys H.
  - injection H as <-; auto.
  - destruct (f x); simpl in H; [|discriminate].
    destruct (rmapM f xs); simpl in H; [|discriminate].
    injection H as <-; simpl; auto.
Qed.
Lemma rmapM_ok_nth {A B} (f : A -> result B) l ys :
  rmapM f l = Ok ys -> forall k x, nth_error l k = Some x ->
  exists y, nth_error ys k = Some y /\ f x = Ok y.
Proof.
  revert ys; induction l as [|x xs IH]; simpl; intros ys H k z Hk.
  - destruct k; discriminate.
  - destruct (f x) as [y|] eqn:Hf; simpl in H; [|discriminate].
    destruct (rmapM f xs) as [ys'|]; simpl in H; [|discriminate].
    injection H as <-. destruct k; simpl in *.
    + injection Hk as <-; eauto.
    + eapply IH; eauto.
Qed.

Lemma rmapM_ext {A B} (f g : A -> result B) l :
  (forall x, In x l -> f x = g x) -> rmapM f l = rmapM g l.
Proof.
  induction l as [|x xs IH]; simpl; intros H; auto.
  rewrite H, IH; auto.
Qed.

Lemma rmapM_map_ok {A B} (f : A -> result B) (g : A -> B) l :
  (forall x, In x l -> f x = Ok (g x)) -> rmapM f l = Ok (map g l).
Proof.
  induction l as [|x xs IH]; simpl; intros H; auto.
  rewrite H by auto; simpl; rewrite IH by auto; auto.
Qed.

Lemma NoDup_nth_error_inj {A} (l : list A) i j x :
  NoDup l -> nth_error l i = Some x -> nth_error l j = Some x -> i = j.
Proof.
  intros H Hi Hj. apply (proj1 (NoDup_nth_error l) H).
  - eapply nth_error_lt; eauto.
  - congruence.
Qed.

Lemma filter_length_split {A} (f : A -> bool) (l : list A) :
  List.length (filter f l) + List.length (filter (fun x => negb (f x)) l) = List.length l.
Proof. induction l as [|x xs IH]; simpl; auto. destruct (f x); simpl; lia. Qed.
