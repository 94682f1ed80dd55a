(** Property C38 (nimble.settings).  Definitions used in the statements:
    ConfSpec.v.  [allowed section option] says whether nimble accepts the option
    for the section (interfaces only accept their own options); it is arbitrary.
    The theorems are guarded by [goodFile] and [plainOp]: every value is a
    string without '%'.  The refuted theorems at the end show why. *)
From Verif Require Import Base ConfModel ConfSpec ConfProofs.
Open Scope string_scope.
Open Scope list_scope.
Open Scope nat_scope.

(** C38: get(section, option) returns the value set last in this session, or
    else the saved one, after every history of set, setDefault, saveChanges,
    get, hook and restarts; and raises if there is none. *)
Theorem C38_get_partial :
  forall allowed f l s o, goodFile f -> Forall plainOp l ->
  getOption (run allowed (load f) l) s o =
  match session (after allowed f l) s o with Some v => Ok v | None => Err KeyErr end.
Proof. intros. eapply getOption_ok, run_Inv; eauto using load_Inv. Qed.
Print Assumptions C38_get_partial.
(** C38: the file holds exactly the values that were saved: the initial ones,
    overwritten by setDefault and by the saveChanges calls that cover them. *)
Theorem C38_file_partial :
  forall allowed f l s o, goodFile f -> Forall plainOp l ->
  fileVals (disk (run allowed (load f) l)) s o = saved (after allowed f l) s o.
Proof.
  intros al f l s o H1 H2. assert (Q := run_Inv al l _ _ (load_Inv al f H1) H2).
  rewrite (i_disk _ _ _ Q). symmetry. apply (i_saved _ _ _ Q).
Qed.
Print Assumptions C38_file_partial.
(** C38: get(section) and get() agree with get(section, option) *)
Theorem C38_get_section_partial :
  forall allowed f l s, goodFile f -> Forall plainOp l ->
  (exists d, getSection (run allowed (load f) l) s = Ok d /\ wfdict d /\ forall o, dget o d = session (after allowed f l) s o) \/
  (getSection (run allowed (load f) l) s = Err KeyErr /\ forall o, session (after allowed f l) s o = None).
Proof. intros. eapply getSection_ok, run_Inv; eauto using load_Inv. Qed.
Print Assumptions C38_get_section_partial.
Theorem C38_get_all_partial :
  forall allowed f l, goodFile f -> Forall plainOp l ->
  exists d, snd (getAll (run allowed (load f) l)) = Ok d /\ forall s o, look s o d = session (after allowed f l) s o.
Proof.
  intros al f l H1 H2. destruct (getAll_ok al _ _ (run_Inv al l _ _ (load_Inv al f H1) H2)) as (d & E & G & _). eauto.
Qed.
Print Assumptions C38_get_all_partial.
(** C38: set succeeds when the option is accepted; when it fails nothing
    changed; saveChanges fails only for an option without a section. *)
Theorem C38_set_outcome_partial :
  forall allowed f l s o v, goodFile f -> Forall plainOp l -> plain v ->
  let c := run allowed (load f) l in
  (allowed s o = true -> snd (set allowed c s o v) = Ok tt) /\
  (forall e, snd (set allowed c s o v) = Err e -> allowed s o = false /\ fst (set allowed c s o v) = c).
Proof.
  intros al f l s o v H1 H2 H3 c. assert (Q := run_Inv al l _ _ (load_Inv al f H1) H2). fold c in Q. split.
  - intros A. eapply set_snd; eauto.
  - intros e E. destruct (set_err al _ _ _ _ _ e Q H3 E) as [E1 E2]. rewrite E1. auto.
Qed.
Print Assumptions C38_set_outcome_partial.
Theorem C38_save_outcome_partial :
  forall allowed f l s o, goodFile f -> Forall plainOp l -> (s = None -> o = None) ->
  snd (saveChanges (run allowed (load f) l) s o) = Ok tt.
Proof.
  intros al f l s o H1 H2 H3. apply (save_Inv al _ _ s o (run_Inv al l _ _ (load_Inv al f H1) H2)).
  intros (_ & A & B). auto.
Qed.
Print Assumptions C38_save_outcome_partial.
(** C38: an accepted set to a value that differs from the saved one calls the
    hook in force exactly once, with the new value; no other operation calls
    one. *)
Theorem C38_hook_called_partial :
  forall allowed f l s o v, goodFile f -> Forall plainOp l -> plain v -> allowed s o = true ->
  saved (after allowed f l) s o <> Some v ->
  let c := run allowed (load f) l in
  calls (fst (set allowed c s o v)) = calls c ++ called (hookAfter l s o) v /\
  calls (fst (setDefault allowed c s o v)) = calls c ++ called (hookAfter l s o) v.
Proof.
  intros al f l s o v H1 H2 H3 H4 H5 c. assert (Q := run_Inv al l _ _ (load_Inv al f H1) H2). fold c in Q.
  replace (hookAfter l s o) with (dget (s, o) (hooks c)) by (unfold c; rewrite run_hooks; reflexivity).
  split; [eapply set_calls|eapply setDefault_calls]; eauto.
Qed.
Print Assumptions C38_hook_called_partial.
(** C38: registering a hook is refused exactly when None was registered before;
    saving, reading and registering call no hook (for all values). *)
Theorem C38_hook_registration :
  forall allowed f l s o h,
  snd (setHook (run allowed (load f) l) s o h) =
  match hookAfter l s o with Some None => Err ImproperObjectAction | _ => Ok tt end.
Proof.
  intros al f l s o h. unfold setHook. rewrite run_hooks. cbn [load hooks dget]. unfold hookAfter.
  destruct (fold_left (hookStep s o) l None) as [[g|]|]; reflexivity.
Qed.
Print Assumptions C38_hook_registration.
Theorem C38_no_other_calls :
  forall allowed c x, match x with OSet _ _ _ | OSetDefault _ _ _ | ORestart => True
                      | _ => calls (fst (step allowed c x)) = calls c end.
Proof. exact step_calls. Qed.
Print Assumptions C38_no_other_calls.

Definition exFile : dict2 string := [("logger", [("location", "/tmp"); ("name", "log")]); ("fetch", [("location", "/home")])].
Definition all2 : string -> string -> bool := fun _ _ => true.
Example exFile_good : goodFile exFile.
Proof.
  assert (P : percent = Ascii.ascii_of_nat 37) by reflexivity.
  split; [repeat constructor; simpl; intuition discriminate|]. split.
  - intros s t. unfold exFile. simpl. repeat (destruct (eq_dec _ _)); intros E; inversion E; subst; repeat constructor; simpl; intuition discriminate.
  - intros s o x. unfold exFile, look. simpl.
    repeat (destruct (eq_dec _ _)); simpl; repeat (destruct (eq_dec _ _)); intros E; inversion E; subst; simpl; repeat split; discriminate.
Qed.
Example C38_history_example :
  let l := [OSet "logger" "name" (VStr "x"); OSet "new" "a" (VStr "1"); OGetAll; OSave (Some "logger") None; ORestart] in
  Forall plainOp l /\
  getOption (run all2 (load exFile) l) "logger" "name" = Ok (VStr "x") /\
  getOption (run all2 (load exFile) l) "new" "a" = Err KeyErr /\
  getOption (run all2 (load exFile) l) "logger" "location" = Ok (VStr "/tmp").
Proof.
  split; [|vm_compute; auto]. repeat constructor; simpl; repeat split; discriminate.
Qed.
Example C38_hook_example :
  let l := [OHook "logger" "name" (Some 7); OSet "logger" "name" (VStr "x")] in
  calls (run all2 (load exFile) l) = [(7, VStr "x")].
Proof. reflexivity. Qed.

(** C38 refuted, hooks: "called when the value is changed" fails when a changed
    option is set back to the value in the file: the change is silent. *)
Theorem C38_hook_refuted :
  exists f l s o v, goodFile f /\ Forall plainOp l /\
    let c := run all2 (load f) l in
    getOption c s o <> Ok v /\ hookAfter l s o = Some (Some 7) /\
    getOption (fst (set all2 c s o v)) s o = Ok v /\ calls (fst (set all2 c s o v)) = calls c.
Proof.
  exists exFile, [OHook "logger" "name" (Some 7); OSet "logger" "name" (VStr "x")], "logger", "name", (VStr "log").
  split; [exact exFile_good|]. split; [repeat constructor; simpl; repeat split; discriminate|].
  split; [vm_compute; discriminate|]. vm_compute. auto.
Qed.
Print Assumptions C38_hook_refuted.
(** C38 refuted: calling get(), or printing the settings, decides whether a
    later set calls the hook. *)
Theorem C38_get_changes_hooks_refuted :
  exists f l s o v, goodFile f /\ Forall plainOp l /\
    calls (fst (set all2 (run all2 (load f) l) s o v)) <>
    calls (fst (set all2 (run all2 (load f) (l ++ [OGetAll])) s o v)).
Proof.
  exists exFile, [OHook "logger" "name" (Some 7); OSet "logger" "location" (VStr "x")], "logger", "name", (VStr "log").
  split; [exact exFile_good|]. split; [repeat constructor; simpl; repeat split; discriminate|].
  vm_compute. discriminate.
Qed.
Print Assumptions C38_get_changes_hooks_refuted.
(** C38 refuted without [plain]: a value containing '%%' is read back as it was
    set until it is saved, and differently afterwards. *)
Theorem C38_percent_refuted :
  exists f s o v, goodFile f /\
    getOption (run all2 (load f) [OSet s o v]) s o = Ok v /\
    getOption (run all2 (load f) [OSetDefault s o v]) s o <> Ok v.
Proof.
  exists exFile, "logger", "name", (VStr "50%%"). split; [exact exFile_good|]. split; [reflexivity|]. vm_compute. discriminate.
Qed.
Print Assumptions C38_percent_refuted.
(** C38 refuted without [plain]: a saveChanges that raises (here for the value
    "50%") leaves other changes half saved: a later saveChanges(section, option)
    of a third option writes them to the file too. *)
Theorem C38_failed_save_refuted :
  exists f l s o x, goodFile f /\
    look s o (disk (run all2 (load f) l)) <> Some x /\
    (forall s' o', In (OSave (Some s') (Some o')) l -> s' <> s) /\ ~ In (OSave (Some s) None) l /\
    snd (saveChanges (run all2 (load f) l) None None) = Err ValueErr /\
    look s o (disk (run all2 (load f) (l ++ [OSave None None; OSet "other" "c" (VStr "2"); OSave (Some "other") (Some "c")]))) = Some x.
Proof.
  exists exFile, [OSet "a" "b" (VStr "1"); OSet "bad" "p" (VStr "50%")], "a", "b", "1".
  split; [exact exFile_good|]. split; [vm_compute; discriminate|].
  split; [intros s' o' [H|[H|[]]]; discriminate|]. split; [intros [H|[H|[]]]; discriminate|].
  split; reflexivity.
Qed.
Print Assumptions C38_failed_save_refuted.
