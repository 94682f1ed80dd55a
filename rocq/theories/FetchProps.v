(** C62: nimble.fetchFiles stores what the web serves, once, in the data
    directory.  Definitions used in the statements: FetchSpec.v. *)
From Verif Require Import Base FetchModel FetchSpec FetchProofs FetchMainProofs.
From Coq Require Import String.
Open Scope string_scope.
Open Scope list_scope.
Open Scope nat_scope.

(** *** Where a url is stored: home/nimbleData/host/path of the url. *)
Theorem C62_where :
  forall home u, Decent u -> localPath home u = memberPath (home ++ ["nimbleData"; bareHost (netloc u)]) (segments u).
Proof. exact localPath_where. Qed.
Print Assumptions C62_where.
(** *** Whatever is served, and after any history of calls, nothing outside
    home/nimbleData changes: archives cannot write elsewhere. *)
Theorem C62_inside :
  forall home calls f, (forall w u o, In (w, u, o) calls -> Decent u) ->
  forall q, ~ Below (home ++ ["nimbleData"]) q -> Untouched f (fetchAll home f calls) (home ++ ["nimbleData"]) q.
Proof. exact fetchAll_inside. Qed.
Print Assumptions C62_inside.
(** *** Nothing outside the directory of the file changes, for any urls and any
    content: what is stored elsewhere stays. *)
Theorem C62_elsewhere :
  forall home calls f q n, f q = Some n ->
  (forall w u o, In (w, u, o) calls -> ~ Below (removelast (localPath home u)) q) -> fetchAll home f calls q = Some n.
Proof. exact fetchAll_elsewhere. Qed.
Print Assumptions C62_elsewhere.
(** *** A file stored is used without the web. *)
Theorem C62_no_network :
  forall home f w w' u c, slash u = false -> f (localPath home u) = Some (File c) -> fetch home f w u false = fetch home f w' u false.
Proof. exact no_network. Qed.
Print Assumptions C62_no_network.
(** *** A download of a plain file: it is stored as served, its path returned,
    and nothing else changes; it fails only if a directory of its path is a file. *)
Theorem C62_plain :
  forall home f w u o b, Tree f -> slash u = false -> Downloads home f w u o (Plain b) ->
  let p := localPath home u in
  match fetch home f w u o with
  | (g, Paths ps) => ps = [p] /\ g p = Some (File (Plain b)) /\ forall q, q <> p -> Untouched f g (removelast p) q
  | (g, r) => r = SystemError /\ (forall q, g q = f q) /\ Blocked f p
  end.
Proof. exact plain_main. Qed.
Print Assumptions C62_plain.
(** *** A gzip file with the extension .gz: the decompressed data is stored beside
    it and its path returned. *)
Theorem C62_gzip :
  forall home f w u o i d s, Tree f -> slash u = false -> Downloads home f w u o (Gz i) -> (forall es, i <> Tar es) ->
  let p := localPath home u in
  p = d ++ [(s ++ ".gz")%string] -> s <> "" ->
  match fetch home f w u o with
  | (g, Paths ps) => g p = Some (File (Gz i)) /\ ((ps = [d ++ [s]] /\ g (d ++ [s]) = Some (File i)) \/ (ps = [p] /\ g (d ++ [s]) = Some Folder)) /\
      forall q, q <> p -> q <> d ++ [s] -> Untouched f g d q
  | (g, r) => r = SystemError /\ (forall q, g q = f q) /\ Blocked f p
  end.
Proof.
  intros home f w u o i d s T S D Nt p Ep Ns. destruct (gz_name d s Ns) as [E1 E2]. rewrite <- Ep in E1, E2.
  pose proof (gzip_main home f w u o i T S D Nt E1) as M. cbv zeta in M. fold p in M. rewrite E2 in M.
  assert (R : removelast p = d) by (rewrite Ep; apply removelast_last). rewrite R in M. unfold Blocked. rewrite R. exact M.
Qed.
Print Assumptions C62_gzip.
(** *** An archive whose members stay in its directory: the members are stored
    with their content and the paths of the files among them returned, if the call
    overwrites or one of them was not there before; otherwise see
    C62_second_archive_refuted. *)
Theorem C62_archive_partial :
  forall home f w u o c es, Tree f -> slash u = false -> Downloads home f w u o c -> members c = Some es -> Safe es ->
  (forall e, In e es -> goesTo (localPath home u) e <> localPath home u) ->
  let p := localPath home u in
  match fetch home f w u o with
  | (g, Paths ps) => g p = Some (File c) /\ (forall q, ~ Below (removelast p) q -> Untouched f g (removelast p) q) /\
      (ps = [p] \/
       ((o = true \/ exists e, In e es /\ goesTo p e <> removelast p /\ f (goesTo p e) = None) -> NoDup (map (goesTo p) es) ->
          (forall name d, In (name, d) es -> g (goesTo p (name, d)) = Some (match d with Some x => File x | None => Folder end)) /\
          ps = map (goesTo p) (filter (fun e => match snd e with Some _ => true | None => false end) es)))
  | (g, r) => r = SystemError /\ (forall q, g q = f q) /\ Blocked f p
  end.
Proof. exact archive_main. Qed.
Print Assumptions C62_archive_partial.
(** *** An archive with a member whose name is absolute or contains '..' is
    stored as served and not extracted: its own path is returned. *)
Theorem C62_escaping_archive :
  forall home f w u o c es, Tree f -> slash u = false -> Downloads home f w u o c -> members c = Some es -> ~ Safe es ->
  let p := localPath home u in
  match fetch home f w u o with
  | (g, Paths ps) => ps = [p] /\ g p = Some (File c) /\ forall q, q <> p -> Untouched f g (removelast p) q
  | (g, r) => r = SystemError /\ (forall q, g q = f q) /\ Blocked f p
  end.
Proof. exact escapes_main. Qed.
Print Assumptions C62_escaping_archive.
(** *** Fetching again returns the same paths and changes nothing, whatever has
    become of the web. Missing: compressed tars, gzip without extension, archives
    whose extraction fails (refuted below). *)
Theorem C62_again_partial :
  forall home f w u o c g ps, Tree f -> slash u = false -> Downloads home f w u o c -> fetch home f w u o = (g, Paths ps) ->
  (IsPlain c \/
   (exists i, c = Gz i /\ (forall es, i <> Tar es) /\ endsGz (localPath home u) = true /\ ps = [chop (localPath home u)]) \/
   (exists es, members c = Some es /\ (~ Safe es \/ (ps <> [localPath home u] /\ forall e, In e es -> goesTo (localPath home u) e <> localPath home u)))) ->
  forall w', fetch home g w' u false = (g, Paths ps).
Proof. exact again_main. Qed.
Print Assumptions C62_again_partial.
(** *** A call that fails leaves the stored files as they were. *)
Theorem C62_failed :
  forall home f w u o g r, Tree f -> slash u = false -> (forall c, f (localPath home u) <> Some (File c)) -> fetch home f w u o = (g, r) -> (forall ps, r <> Paths ps) ->
  forall q, g q = f q.
Proof. exact failed_main. Qed.
Print Assumptions C62_failed.
(** *** Any history with plain files: what a call downloaded is what later calls
    find, until a later call overwrites that path. *)
Theorem C62_history_partial :
  forall home f0 before after w u o b g ps, Tree f0 -> AllPlain f0 -> slash u = false ->
  (forall w' v o' c, In (w', v, o') (before ++ after) -> getUrl w' v = Got c -> IsPlain c) ->
  Downloads home (fetchAll home f0 before) w u o (Plain b) -> fetch home (fetchAll home f0 before) w u o = (g, Paths ps) ->
  (forall w' v o', In (w', v, o') after -> localPath home v = localPath home u -> o' = false) ->
  let h := fetchAll home g after in
  ps = [localPath home u] /\ h (localPath home u) = Some (File (Plain b)) /\ forall w', fetch home h w' u false = (h, Paths ps).
Proof. exact history_main. Qed.
Print Assumptions C62_history_partial.

(** *** Examples: home is /h, the host is x. *)
Definition exHome : path := ["h"].
Definition exUrl (l : list string) : url := mkUrl "https" "www.x" ("" :: l) "" "".
Definition exFs : fs := fun q => match q with [] => Some Folder | ["h"] => Some Folder | _ => None end.
Definition exWeb (c : content) : web := mkWeb (fun _ => true) (fun _ => Got c).
Definition offline : web := mkWeb (fun _ => false) (fun _ => Broken).
Definition inX (l : list string) : path := ["h"; "nimbleData"; "x"] ++ l.
Lemma exFs_tree : Tree exFs.
Proof.
  split; [reflexivity|]. intros d s n H. destruct d as [|a [|b [|c d]]]; auto; [|destruct a as [|[[] [] [] [] [] [] [] []] [|]]; discriminate|destruct a as [|[[] [] [] [] [] [] [] []] [|]]; discriminate].
  cbn in H. destruct a as [|[[] [] [] [] [] [] [] []] [|]]; discriminate.
Qed.
Example C62_plain_witness : let r := fetch exHome exFs (exWeb (Plain "1,2")) (exUrl ["d"; "a.csv"]) false in
  snd r = Paths [inX ["d"; "a.csv"]] /\ fst r (inX ["d"; "a.csv"]) = Some (File (Plain "1,2")) /\ fst r (inX ["d"]) = Some Folder /\
  Downloads exHome exFs (exWeb (Plain "1,2")) (exUrl ["d"; "a.csv"]) false (Plain "1,2") /\ Decent (exUrl ["d"; "a.csv"]).
Proof.
  split; [reflexivity|]. split; [reflexivity|]. split; [reflexivity|]. split; [split; [reflexivity|left; split; reflexivity]|].
  split; [repeat split; discriminate|]. cbn. intros [H|[H|[H|[]]]]; discriminate.
Qed.
Definition exZip : content := Zip [(["m"], None); (["m"; "p.csv"], Some (Plain "p")); (["q.csv"], Some (Plain "q"))].
Example C62_archive_witness : let r := fetch exHome exFs (exWeb exZip) (exUrl ["a.zip"]) false in
  snd r = Paths [inX ["m"; "p.csv"]; inX ["q.csv"]] /\ fst r (inX ["q.csv"]) = Some (File (Plain "q")) /\
  snd (fetch exHome (fst r) offline (exUrl ["a.zip"]) false) = snd r.
Proof. repeat split; reflexivity. Qed.
Example C62_escaping_witness : let c := Zip [(["p.csv"], Some (Plain "p")); ([".."; "q.csv"], Some (Plain "q"))] in
  let r := fetch exHome exFs (exWeb c) (exUrl ["a.zip"]) false in
  ~ Safe [(["p.csv"], Some (Plain "p")); ([".."; "q.csv"], Some (Plain "q"))] /\ snd r = Paths [inX ["a.zip"]] /\ fst r (inX ["p.csv"]) = None.
Proof.
  split; [|split; reflexivity]. intros H. apply (H [".."; "q.csv"] (Some (Plain "q"))); [right; left; reflexivity|]. right. exists "", "". left. reflexivity.
Qed.
Example C62_gzip_witness : let r := fetch exHome exFs (exWeb (Gz (Plain "z"))) (exUrl ["a.csv.gz"]) false in
  snd r = Paths [inX ["a.csv"]] /\ fst r (inX ["a.csv"]) = Some (File (Plain "z")) /\ snd (fetch exHome (fst r) offline (exUrl ["a.csv.gz"]) false) = snd r.
Proof. repeat split; reflexivity. Qed.

(** *** What a user may expect and does not hold. *)
(** Two urls that differ in the query (or scheme, or fragment) are one file: the
    second call returns what the first one fetched. *)
Theorem C62_query_refuted :
  forall home f w u q c1 c2, Tree f -> slash u = false -> IsPlain c1 -> IsPlain c2 -> c1 <> c2 ->
  let v := mkUrl (scheme u) (netloc u) (segments u) q (fragment u) in
  f (localPath home u) = None -> headOk w u = true -> getUrl w u = Got c1 -> getUrl w v = Got c2 ->
  let (g, r) := fetch home f w u false in r = Paths [localPath home u] ->
  fetch home g w v false = (g, Paths [localPath home u]) /\ g (localPath home u) = Some (File c1).
Proof.
  intros home f w u q c1 c2 T S [b1 ->] _ _ v F H G1 G2. assert (D : Downloads home f w u false (Plain b1)) by (split; auto).
  pose proof (plain_main home f w u false b1 T S D) as P. cbv zeta in P. destruct (fetch home f w u false) as [g r]. intros ->. destruct P as [_ [P _]]. split; auto.
  change (localPath home u) with (localPath home v). apply (local_plain home g w v b1); auto.
Qed.
Print Assumptions C62_query_refuted.
Example C62_query_witness : let u := exUrl ["get"] in let v := mkUrl "https" "www.x" ["" ; "get"] "id=2" "" in
  let w := mkWeb (fun _ => true) (fun z => Got (Plain (if String.eqb (query z) "" then "one" else "two"))) in
  let r := fetch exHome exFs w u false in snd r = Paths [inX ["get"]] /\ snd (fetch exHome (fst r) w v false) = Paths [inX ["get"]] /\
  fst (fetch exHome (fst r) w v false) (inX ["get"]) = Some (File (Plain "one")).
Proof. repeat split; reflexivity. Qed.
(** A url with '..' is stored outside the data directory. *)
Theorem C62_dots_refuted :
  exists u b, let r := fetch exHome exFs (exWeb (Plain b)) u false in
  exists q, snd r = Paths [q] /\ ~ Below (exHome ++ ["nimbleData"]) q /\ exFs q = None /\ fst r q = Some (File (Plain b)).
Proof.
  exists (exUrl [".."; ".."; "evil"]), "b". cbv zeta. exists ["h"; "evil"]. split; [reflexivity|]. split; [intros [r H]; discriminate|]. split; reflexivity.
Qed.
Print Assumptions C62_dots_refuted.
(** A second archive in the same place with the same member names: the members of
    the first one are returned for it. *)
Theorem C62_second_archive_refuted :
  let f := fst (fetch exHome exFs (exWeb (Zip [(["d.csv"], Some (Plain "old"))])) (exUrl ["v1.zip"]) false) in
  let r := fetch exHome f (exWeb (Zip [(["d.csv"], Some (Plain "new"))])) (exUrl ["v2.zip"]) false in
  f (inX ["v2.zip"]) = None /\ snd r = Paths [inX ["d.csv"]] /\ fst r (inX ["d.csv"]) = Some (File (Plain "old")).
Proof. repeat split; reflexivity. Qed.
Print Assumptions C62_second_archive_refuted.
(** A member of an archive replaces the file fetched from another url. *)
Theorem C62_member_overwrites_refuted :
  let f := fst (fetch exHome exFs (exWeb (Plain "mine")) (exUrl ["d.csv"]) false) in
  let g := fst (fetch exHome f (exWeb (Zip [(["d.csv"], Some (Plain "other")); (["e.csv"], Some (Plain "e"))])) (exUrl ["v.zip"]) false) in
  f (inX ["d.csv"]) = Some (File (Plain "mine")) /\ snd (fetch exHome g offline (exUrl ["d.csv"]) false) = Paths [inX ["d.csv"]] /\ g (inX ["d.csv"]) = Some (File (Plain "other")).
Proof. repeat split; reflexivity. Qed.
Print Assumptions C62_member_overwrites_refuted.
(** A compressed tar: the first call returns the file, every later call raises. *)
Theorem C62_compressed_tar_refuted :
  forall es w o, let r := fetch exHome exFs (exWeb (Gz (Tar es))) (exUrl ["a.tgz"]) false in
  snd r = Paths [inX ["a.tgz"]] /\ snd (fetch exHome (fst r) w (exUrl ["a.tgz"]) o) = ArchiveError.
Proof. intros. split; reflexivity. Qed.
Print Assumptions C62_compressed_tar_refuted.
(** gzip data without the extension .gz is destroyed. *)
Theorem C62_gzip_name_refuted :
  forall i, (forall es, i <> Tar es) -> let r := fetch exHome exFs (exWeb (Gz i)) (exUrl ["data"]) false in
  snd r = Paths [inX ["data"]] /\ fst r (inX ["data"]) = Some (File (Plain "")).
Proof. intros i N. destruct i; try (split; reflexivity). edestruct N. reflexivity. Qed.
Print Assumptions C62_gzip_name_refuted.
(** A url below another one: whichever comes second fails. *)
Theorem C62_below_refuted :
  let a := exUrl ["a"] in let ab := exUrl ["a"; "b"] in let w := exWeb (Plain "1") in
  snd (fetch exHome (fst (fetch exHome exFs w a false)) w ab false) = SystemError /\
  snd (fetch exHome (fst (fetch exHome exFs w ab false)) w a false) = Refused.
Proof. split; reflexivity. Qed.
Print Assumptions C62_below_refuted.
(** A url that ends in '/' is never fetched: the first call leaves a directory,
    later calls say that nothing can be downloaded. *)
Theorem C62_slash_refuted :
  let u := exUrl ["a"; ""] in let w := exWeb (Plain "1") in let r := fetch exHome exFs w u false in
  snd r = SystemError /\ fst r (inX ["a"]) = Some Folder /\ snd (fetch exHome (fst r) w u false) = Refused.
Proof. repeat split; reflexivity. Qed.
Print Assumptions C62_slash_refuted.
(** A process killed while it writes leaves an empty (or partial) file, which all
    later calls take for the data. *)
Theorem C62_killed_refuted :
  forall home f u g w, slash u = false -> openNew f (localPath home u) = Some g ->
  fetch home g w u false = (g, Paths [localPath home u]) /\ g (localPath home u) = Some (File (Plain "")).
Proof.
  intros home f u g w S O. assert (G : g (localPath home u) = Some (File (Plain ""))).
  { unfold openNew in O. assert (forall x : fs, setNode x (localPath home u) (Some (File (Plain ""))) (localPath home u) = Some (File (Plain ""))) by (intros; unfold setNode; destruct (eq_dec (localPath home u) (localPath home u)); congruence).
    destruct (f (removelast (localPath home u))) as [[|]|]; destruct (f (localPath home u)) as [[|]|]; try discriminate; injection O as <-; auto. }
  split; auto. eapply local_plain; eauto.
Qed.
Print Assumptions C62_killed_refuted.
