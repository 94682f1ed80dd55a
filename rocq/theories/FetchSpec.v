(** Specification vocabulary for nimble.fetchFiles (C62). *)
From Verif Require Import Base FetchModel.
From Coq Require Import Ascii String.
Open Scope string_scope.
Open Scope list_scope.
Open Scope nat_scope.

(** the path [p] lies in (or is) the directory [d] *)
Definition Below (d p : path) : Prop := exists r, p = d ++ r.
(** a tree: what exists is in a directory *)
Definition Tree (f : fs) : Prop := f [] = Some Folder /\ forall d s n, f (d ++ [s]) = Some n -> f d = Some Folder.
(** same content at [q], or [q] is a new directory on the way to [d] *)
Definition Untouched (f g : fs) (d q : path) : Prop := g q = f q \/ (f q = None /\ g q = Some Folder /\ Below q d).
(** names that stay in their directory *)
Definition Ordinary (s : string) : Prop := s <> "" /\ s <> "." /\ s <> "..".
(** the host without a leading www. *)
Definition bareHost (s : string) : string := match s with String "w"%char (String "w"%char (String "w"%char (String "."%char t))) => t | _ => s end.
(** a url with a host and without '..' *)
Definition Decent (u : url) : Prop := Ordinary (bareHost (netloc u)) /\ ~ In ".." (segments u).
(** the path of the url ends in a name, not in '/' *)
Definition EndsInName (u : url) : Prop := exists l s, segments u = l ++ [s] /\ Ordinary s.
(** the content is no archive and not compressed *)
Definition IsPlain (c : content) : Prop := exists b, c = Plain b.
(** the name of a member (its segments) is absolute or contains '..' *)
Definition Escapes (name : path) : Prop := (exists s l, name = "" :: s :: l) \/ exists a b, In (a ++ ".." ++ b)%string name.
(** members that stay in the directory of the archive *)
Definition Safe (es : list (path * option content)) : Prop := forall name d, In (name, d) es -> ~ Escapes name.
(** where a member goes: below the directory of the archive *)
Definition memberPath (loc name : path) : path := loc ++ filter (fun s => negb (String.eqb s "" || String.eqb s ".")) name.
(** the members of an archive, and where they go *)
Definition members (c : content) : option (list (path * option content)) := match c with Zip es | Tar es => Some es | _ => None end.
Definition goesTo (p : path) (e : path * option content) : path := memberPath (removelast p) (fst e).
(** a call that downloads [c]: nothing stored and the url has a file, or forced to
    overwrite a plain file *)
Definition Downloads (home : path) (f : fs) (w : web) (u : url) (o : bool) (c : content) : Prop :=
  getUrl w u = Got c /\ ((f (localPath home u) = None /\ headOk w u = true) \/ (o = true /\ exists d, IsPlain d /\ f (localPath home u) = Some (File d))).
Definition AllPlain (f : fs) : Prop := forall q c, f q = Some (File c) -> IsPlain c.
(** a directory on the way to the file exists as a file *)
Definition Blocked (f : fs) (p : path) : Prop := exists q d, Below q (removelast p) /\ f q = Some (File d).
