(** Independent specification for C38: what the user sees ([session]) and what
    is in the file ([saved]), as functions of section and option. *)
From Verif Require Import Base ConfModel.
Open Scope string_scope.
Open Scope list_scope.
Open Scope nat_scope.
Definition vals := string -> string -> option value.
Definition write (m : vals) (s o : string) (v : option value) : vals :=
  fun s' o' => if string_dec s' s then (if string_dec o' o then v else m s' o') else m s' o'.
Record view := mkView { session : vals; saved : vals }.
Definition specStep (allowed : string -> string -> bool) (w : view) (x : op) : view :=
  match x with
  | OSet s o v => if allowed s o then mkView (write (session w) s o (Some v)) (saved w) else w
  | OSetDefault s o v =>
      if allowed s o then mkView (write (session w) s o (Some v)) (write (saved w) s o (Some v)) else w
  | OSave None None => mkView (session w) (session w)
  | OSave (Some s) None => mkView (session w) (fun s' o' => if string_dec s' s then session w s' o' else saved w s' o')
  | OSave (Some s) (Some o) => mkView (session w) (write (saved w) s o (session w s o))
  | OSave None (Some _) => w
  | OGetAll => w
  | OHook _ _ _ => w
  | ORestart => mkView (saved w) (saved w)
  end.
Definition specRun (allowed : string -> string -> bool) (w : view) (l : list op) : view :=
  fold_left (specStep allowed) l w.
(** the content of a file *)
Definition fileVals (f : dict2 string) : vals := fun s o => option_map VStr (look s o f).
(** a text without '%' *)
Fixpoint noPercent (s : string) : Prop :=
  match s with EmptyString => True | String c r => c <> percent /\ noPercent r end.
Definition plain (v : value) : Prop := match v with VStr s => noPercent s | VObj _ => False end.
Definition plainOp (x : op) : Prop :=
  match x with OSet _ _ v => plain v | OSetDefault _ _ v => plain v | _ => True end.
(** a file as configparser reads it: no repeated section or option *)
Definition goodFile (f : dict2 string) : Prop :=
  wfdict f /\ (forall s t, dget s f = Some t -> wfdict t) /\ forall s o x, look s o f = Some x -> noPercent x.
(** the hook in force for an option: the function registered last, until None is
    registered, which ends hooking for the session *)
Definition hookStep (s o : string) (h : option (option nat)) (x : op) : option (option nat) :=
  match x with
  | OHook s' o' f => if string_dec s' s then if string_dec o' o then
                       match h with Some None => Some None | _ => Some f end else h else h
  | ORestart => None
  | _ => h
  end.
Definition hookAfter (l : list op) (s o : string) : option (option nat) := fold_left (hookStep s o) l None.
(** the calls one set of value [v] makes when hook [h] is in force *)
Definition called (h : option (option nat)) (v : value) : list (nat * value) :=
  match h with Some (Some f) => [(f, v)] | _ => [] end.
(** what the user sees and what is in the file after a history that started
    with file [f] *)
Definition after (allowed : string -> string -> bool) (f : dict2 string) (l : list op) : view :=
  specRun allowed (mkView (fileVals f) (fileVals f)) l.
