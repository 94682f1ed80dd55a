(** Model of nimble.settings.
    Source: /repo/nimble/core/configuration.py:57-330 (SessionConfiguration).
    The parser is configparser.ConfigParser with case-sensitive option names and
    its default interpolation ('%%' stands for '%'; '%(name)s' references and the
    DEFAULT section are not modelled).  The file on disk is the content of the
    parser when it was last written: the text format is not modelled. *)
From Verif Require Import Base.
From Coq Require Import Ascii.
Open Scope string_scope.
Open Scope list_scope.
Open Scope nat_scope.

(** a value given to [set]: a string, or any other object *)
Inductive value := VStr (s : string) | VObj (n : nat).
#[global] Instance EqDec_value : EqDec value.
Proof. intros a b. decide equality; [apply string_dec|apply Nat.eq_dec]. Defined.

(** configparser's BasicInterpolation: reading a stored string *)
Definition percent : ascii := "%"%char.
Fixpoint interp (s : string) : result string :=
  match s with
  | EmptyString => Ok EmptyString
  | String c r =>
      if Ascii.eqb c percent then
        match r with
        | String c2 r2 => if Ascii.eqb c2 percent then rmap (String percent) (interp r2) else Err ValueErr
        | EmptyString => Err ValueErr
        end
      else rmap (String c) (interp r)
  end.
(** two-level dicts *)
Definition dict2 (V : Type) := @dict string (@dict string V).
Definition look {V} (s o : string) (d : dict2 V) : option V :=
  match dget s d with Some t => dget o t | None => None end.
Definition put {V} (s o : string) (v : V) (d : dict2 V) : dict2 V :=
  dset s (dset o v (match dget s d with Some t => t | None => [] end)) d.
Record conf := mkConf {
  parser : dict2 string; changes : dict2 value; hooks : @dict (string * string) (option nat);
  disk : dict2 string; calls : list (nat * value) (* hook functions called so far *) }.

(** 78-97 [__init__] *)
Definition load (file : dict2 string) : conf := mkConf file [] [] file [].
(** [parser.get(section, option)] *)
Definition parserGet (s o : string) (p : dict2 string) : result string :=
  match look s o p with Some x => interp x | None => Err KeyErr end.
(** 128-135 [get(section, option)] *)
Definition getOption (c : conf) (s o : string) : result value :=
  match look s o (changes c) with
  | Some v => Ok v
  | None => rmap VStr (parserGet s o (parser c))
  end.
(** 143-146 and 154-158: add the options of the file that are not there yet *)
Fixpoint addMissing (opts : list (string * string)) (ret : @dict string value) : @dict string value * result unit :=
  match opts with
  | [] => (ret, Ok tt)
  | (o, x) :: t => match interp x with
                   | Err e => (ret, Err e)
                   | Ok y => addMissing t (if dmem o ret then ret else dset o (VStr y) ret)
                   end
  end.
(** 137-151 [get(section)] *)
Definition getSection (c : conf) (s : string) : result (@dict string value) :=
  let ret := match dget s (changes c) with Some t => t | None => [] end in
  match dget s (parser c) with
  | Some opts => let '(r, e) := addMissing opts ret in _ <- e ;; Ok r
  | None => match ret with [] => Err KeyErr | _ => Ok ret end
  end.
(** 153-160 [get()].  [ret = self.changes.copy()] is shallow: the inner dicts
    are those of [self.changes], which the loop therefore updates too. *)
Fixpoint getAllLoop (secs : list (string * @dict string string)) (ret chg : dict2 value)
  : dict2 value * dict2 value * result unit :=
  match secs with
  | [] => (ret, chg, Ok tt)
  | (s, opts) :: t =>
      let inner := match dget s ret with Some d => d | None => [] end in
      let '(inner', e) := addMissing opts inner in
      let ret' := dset s inner' ret in
      let chg' := if dmem s chg then dset s inner' chg else chg in
      match e with Err x => (ret', chg', Err x) | Ok _ => getAllLoop t ret' chg' end
  end.
Definition getAll (c : conf) : conf * result (dict2 value) :=
  let '(ret, chg, e) := getAllLoop (parser c) (changes c) (changes c) in
  (mkConf (parser c) chg (hooks c) (disk c) (calls c), rmap (fun _ => ret) e).
(** 162-190 [hook]; the checks on the callable are not modelled *)
Definition setHook (c : conf) (s o : string) (f : option nat) : conf * result unit :=
  match dget (s, o) (hooks c) with
  | Some None => (c, Err ImproperObjectAction)
  | _ => (mkConf (parser c) (changes c) (dset (s, o) f (hooks c)) (disk c) (calls c), Ok tt)
  end.
Definition dropOpt (s o : string) (d : dict2 value) : dict2 value :=
  match dget s d with
  | None => d
  | Some t => match ddel o t with [] => ddel s d | t' => dset s t' d end
  end.
Section Allowed.
(** 219-252: the section is not an interface, or a configurable one that has
    this option, or an unavailable one and the option is 'location' *)
Variable allowed : string -> string -> bool.
(** 202-262 [set] *)
Definition set (c : conf) (s o : string) (v : value) : conf * result unit :=
  let proceed :=
    if allowed s o then
      let called := match dget (s, o) (hooks c) with Some (Some f) => [(f, v)] | _ => [] end in
      (mkConf (parser c) (put s o v (changes c)) (hooks c) (disk c) (calls c ++ called), Ok tt)
    else (c, Err InvalidArgumentValue) in
  match look s o (parser c) with
  | None => proceed
  | Some x =>
      match interp x with
      | Err e => (c, Err e)
      | Ok inFile =>
          if eqbd (VStr inFile) v && match look s o (changes c) with Some _ => true | None => false end
          then (mkConf (parser c) (dropOpt s o (changes c)) (hooks c) (disk c) (calls c), Ok tt)
          else proceed
      end
  end.
(** 281-284 [changeIndividual] for the options of one section *)
Fixpoint saveOpts (s : string) (opts : list (string * value)) (p : dict2 string) : dict2 string * result unit :=
  match opts with
  | [] => (p, Ok tt)
  | (o, v) :: t =>
      let p1 := if dmem s p then p else dset s [] p in
      match v with
      | VObj _ => (p1, Err TypeErr)
      | VStr x => match interp x with
                  | Err _ => (p1, Err ValueErr)
                  | Ok _ => saveOpts s t (put s o x p1)
                  end
      end
  end.
Fixpoint saveSections (chg : list (string * @dict string value)) (p : dict2 string) : dict2 string * result unit :=
  match chg with
  | [] => (p, Ok tt)
  | (s, opts) :: t => match saveOpts s opts p with
                      | (p', Ok _) => saveSections t p'
                      | (p', Err e) => (p', Err e)
                      end
  end.
(** 264-318 [saveChanges]; an exception leaves the file as it was, but not the
    parser *)
Definition saveWith (c : conf) (r : dict2 string * result unit) (chg : dict2 value) : conf * result unit :=
  match r with
  | (p, Ok _) => (mkConf p chg (hooks c) p (calls c), Ok tt)
  | (p, Err e) => (mkConf p (changes c) (hooks c) (disk c) (calls c), Err e)
  end.
Definition saveChanges (c : conf) (s o : option string) : conf * result unit :=
  match changes c with
  | [] => (c, Ok tt)
  | _ =>
      match s, o with
      | None, Some _ => (c, Err InvalidArgumentValueCombination)
      | None, None => saveWith c (saveSections (changes c) (parser c)) []
      | Some s, None =>
          match dget s (changes c) with
          | Some opts => saveWith c (saveOpts s opts (parser c)) (ddel s (changes c))
          | None => saveWith c (parser c, Ok tt) (changes c)
          end
      | Some s, Some o =>
          match look s o (changes c) with
          | Some v => saveWith c (saveOpts s [(o, v)] (parser c)) (dropOpt s o (changes c))
          | None => saveWith c (parser c, Ok tt) (changes c)
          end
      end
  end.
(** 192-200 [setDefault] *)
Definition setDefault (c : conf) (s o : string) (v : value) : conf * result unit :=
  match set c s o v with
  | (c', Ok _) => saveChanges c' (Some s) (Some o)
  | (c', Err e) => (c', Err e)
  end.
Inductive op :=
| OSet (s o : string) (v : value) | OSetDefault (s o : string) (v : value)
| OSave (s o : option string) | OGetAll | OHook (s o : string) (f : option nat)
| ORestart (* a new session reads the file *).
Definition step (c : conf) (x : op) : conf * result unit :=
  match x with
  | OSet s o v => set c s o v
  | OSetDefault s o v => setDefault c s o v
  | OSave s o => saveChanges c s o
  | OGetAll => let '(c', r) := getAll c in (c', rmap (fun _ => tt) r)
  | OHook s o f => setHook c s o f
  | ORestart => (load (disk c), Ok tt)
  end.
Definition run (c : conf) (l : list op) : conf := fold_left (fun c x => fst (step c x)) l c.
End Allowed.
