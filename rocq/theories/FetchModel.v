(** Model of nimble.fetchFiles / fetchFile for a url of a downloadable file
    (C62).
    Source: /repo/nimble/core/_createHelpers.py: 1748-1764 (_isDownloadable),
    1766-1843 (archives and gzip), 1923-1946 (_getNimbleDataPath,
    _getURLResponse), 1948-2009 (_DirectURLManager), 3106-3130 (fileFetcher);
    core/create.py:550-615.
    Not modelled: the 'uci::' and 'nimble::' sources (1845-1921, 2011-2096),
    bz2 and xz tars, symbolic links, permissions.  Paths are absolute, split at
    '/', and '..' is resolved on the text of the path. *)
From Verif Require Import Base.
From Coq Require Import String.
Open Scope string_scope.
Open Scope list_scope.
Open Scope nat_scope.

Definition path := list string.
(** what a file holds: bytes that are no archive, an archive with its members in
    order (None: a directory), gzip-compressed data *)
Inductive content :=
| Plain (b : string)
| Zip (es : list (path * option content))
| Tar (es : list (path * option content))
| Gz (c : content).
Inductive node := Folder | File (c : content).
Definition fs := path -> option node.
(** urllib.parse.urlparse(source): [segments] is [path.split('/')] *)
Record url := mkUrl { scheme : string; netloc : string; segments : list string; query : string; fragment : string }.
(** requests.get: the content, a status that is not ok, an exception *)
Inductive got := Got (c : content) | BadStatus | Broken.
(** the web at the time of a call: [_isDownloadable] and requests.get *)
Record web := mkWeb { headOk : url -> bool; getUrl : url -> got }.
(** the list returned, InvalidArgumentValue, OSError, tarfile.ReadError, an
    exception of requests *)
Inductive reply := Paths (l : list path) | Refused | SystemError | ArchiveError | NetworkError.

(** *** the operating system *)
Definition setNode (f : fs) (p : path) (n : option node) : fs := fun q => if eq_dec q p then n else f q.
Definition prefixes (p : path) : list path := map (fun k => firstn k p) (seq 0 (S (List.length p))).
Definition isFile (f : fs) (p : path) : bool := match f p with Some (File _) => true | _ => false end.
Definition exists_ (f : fs) (p : path) : bool := match f p with Some _ => true | None => false end.
(** os.makedirs, if needed *)
Definition makeDirs (f : fs) (p : path) : option fs :=
  if existsb (isFile f) (prefixes p) then None
  else Some (fun q => match f q with None => if mem q (prefixes p) then Some Folder else None | n => n end).
(** open(p, 'wb'): the file is there, empty *)
Definition openNew (f : fs) (p : path) : option fs :=
  match f (removelast p), f p with
  | _, Some Folder => None
  | Some Folder, _ => Some (setNode f p (Some (File (Plain ""))))
  | _, _ => None
  end.
Definition writeFile (f : fs) (p : path) (c : content) : option fs :=
  match openNew f p with Some g => Some (setNode g p (Some (File c))) | None => None end.

(** *** where a url is stored (1923-1933) *)
Definition hasPrefix (a s : string) : bool := String.eqb (substring 0 (String.length a) s) a.
Definition stripWww (s : string) : string := if hasPrefix "www." s then substring 4 (String.length s - 4) s else s.
(** one step of following a path *)
Definition step (p : path) (s : string) : path :=
  if String.eqb s "" || String.eqb s "." then p else if String.eqb s ".." then removelast p else p ++ [s].
Definition follow (p : path) (l : list string) : path := fold_left step l p.
Definition localPath (home : path) (u : url) : path := follow (home ++ ["nimbleData"]) (stripWww (netloc u) :: segments u).
(** the path ends in '/' *)
Definition slash (u : url) : bool := String.eqb (last (segments u) "") "".

(** *** archives (1766-1843) *)
Definition isArchive (c : content) : bool := match c with Zip _ | Tar _ | Gz (Tar _) => true | _ => false end.
Definition isGZip (c : content) : bool := match c with Gz _ => true | _ => false end.
(** '..' in name *)
Fixpoint dotted (s : string) : bool := match s with EmptyString => false | String _ t => hasPrefix ".." s || dotted t end.
Definition unsafe (name : path) : bool := match name with "" :: _ :: _ => true | _ => existsb dotted name end.
Definition target (loc name : path) : path := follow loc name.
(** extractall: stops at the first failure *)
Definition extractOne (f : fs) (loc : path) (e : path * option content) : option fs :=
  match snd e with
  | None => makeDirs f (target loc (fst e))
  | Some c => match makeDirs f (removelast (target loc (fst e))) with Some g => writeFile g (target loc (fst e)) c | None => None end
  end.
Fixpoint extractAll (f : fs) (loc : path) (es : list (path * option content)) : fs * bool :=
  match es with
  | [] => (f, true)
  | e :: t => match extractOne f loc e with Some g => extractAll g loc t | None => (f, false) end
  end.
(** 1801-1830; TarFile(filename, 'r') does not read compressed tars *)
Definition processMembers (f : fs) (p : path) (extract : bool) (es : list (path * option content)) : fs * reply :=
  if existsb (fun e : path * option content => unsafe (fst e)) es then (f, Paths [p])
  else
    let loc := removelast p in
    let paths := map (fun e : path * option content => target loc (fst e)) es in
    let '(g, fine) := if extract || negb (forallb (exists_ f) paths) then extractAll f loc es else (f, true) in
    if fine then (g, Paths (filter (isFile g) paths)) else (g, SystemError).
Definition processArchive (f : fs) (p : path) (extract : bool) (c : content) : fs * reply :=
  match c with
  | Zip es | Tar es => processMembers f p extract es
  | _ => (f, ArchiveError)
  end.
(** [filename[:-3]] *)
Definition cut (n : nat) (s : string) : string := substring 0 (String.length s - n) s.
Definition joinLast (p : path) (s : string) : path := if String.eqb s "" then p else p ++ [s].
Definition chop (p : path) : path :=
  let s := last p "" in
  if 3 <=? String.length s then joinLast (removelast p) (cut 3 s)
  else if String.length s =? 2 then removelast p
  else let q := removelast p in joinLast (removelast q) (cut 1 (last q "")).
Definition endsGz (p : path) : bool := let s := last p "" in (3 <=? String.length s) && String.eqb (substring (String.length s - 3) 3 s) ".gz".
(** 1832-1843; without the extension the file is opened for writing while it is
    read: it is emptied, and an empty file decompresses to nothing *)
Definition processGz (f : fs) (p : path) (inner : content) : fs * reply :=
  let '(q, c) := if endsGz p then (chop p, inner) else (p, Plain "") in
  match writeFile f q c with Some g => (g, Paths [q]) | None => (f, SystemError) end.

(** *** _DirectURLManager.__init__ (1956-1981), checkLocal=True: the local files,
    none, or the exception raised *)
Inductive found := Local (l : list path) | NotLocal | Raised (r : reply).
Definition asFound (x : fs * reply) : fs * found := (fst x, match snd x with Paths l => Local l | r => Raised r end).
Definition lookUp (home : path) (f : fs) (u : url) : fs * found :=
  let p := localPath home u in
  match f p with
  | Some Folder => (f, Raised Refused)
  | Some (File c) =>
      if slash u then (f, NotLocal)
      else if isArchive c then asFound (processArchive f p false c)
      else if isGZip c then
        if exists_ f (chop p) then (f, Local [chop p])
        else asFound (processGz f p (match c with Gz i => i | _ => c end))
      else (f, Local [p])
  | None => (f, NotLocal)
  end.
(** *** fetch (1983-2009): the part after the local check *)
Definition store (home : path) (f : fs) (u : url) (c : content) (overwrite : bool) : fs * reply :=
  let p := localPath home u in
  match makeDirs f (if slash u then p else removelast p) with
  | None => (f, SystemError)
  | Some g =>
      if slash u then (g, SystemError)
      else match writeFile g p c with
      | None => (g, SystemError)
      | Some h =>
          (* any exception: return the file *)
          let keep x := match snd x with Paths l => x | _ => (fst x, Paths [p]) end in
          if isArchive c then keep (processArchive h p overwrite c)
          else match c with Gz i => keep (processGz h p i) | _ => (h, Paths [p]) end
      end
  end.
Definition fetch (home : path) (f : fs) (w : web) (u : url) (overwrite : bool) : fs * reply :=
  let '(g, l) := lookUp home f u in
  match l with
  | Raised r => (g, r)
  | NotLocal =>
      if negb (headOk w u) then (g, Refused)
      else match getUrl w u with Got c => store home g u c overwrite | BadStatus => (g, Refused) | Broken => (g, NetworkError) end
  | Local ps =>
      if negb overwrite then (g, Paths ps)
      else match getUrl w u with Got c => store home g u c overwrite | BadStatus => (g, Refused) | Broken => (g, NetworkError) end
  end.
(** a sequence of calls *)
Fixpoint fetchAll (home : path) (f : fs) (calls : list (web * url * bool)) : fs :=
  match calls with [] => f | (w, u, o) :: t => fetchAll home (fst (fetch home f w u o)) t end.
