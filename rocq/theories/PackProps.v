(** The source archive (C123). *)

From Coq Require Import Ascii String Bool ZArith.
From Coq Require Import List.
From Verif Require Import Str MakeModel VcsModel VcsProofs SetupModel SetupSpec PackModel PackSpec PackProofs.
Import ListNotations.

(** C123. Unpacked, the archive of a successful make has exactly the files that belong to it, with
    the content they have in the working directory, all of it below maike-src. *)
Theorem C123_content : forall build dry_run ls_files t t' ms, (forall u, proper (snd (build u))) ->
  make_source_archive build dry_run ls_files t = (true, t', Some ms) ->
  let names := snd (ls_files t') in
  (forall q c, unpacked ms (lit "maike-src" :: q) = Some (Some c) <-> belongs names q /\ file_at t' q c) /\
  (forall q, unpacked ms (lit "maike-src" :: q) = Some None <-> belongs names q /\ dir_at t' q) /\
  (forall p o, unpacked ms p = Some o -> exists q, p = lit "maike-src" :: q).
Proof. exact archive_unpacked. Qed.
Print Assumptions C123_content.

(** C123. No file that git lists is left out. *)
Theorem C123_complete : forall build dry_run ls_files t t' ms, make_source_archive build dry_run ls_files t = (true, t', Some ms) ->
  forall n, In n (snd (ls_files t')) -> exists u, lookup t' n = Some u.
Proof. exact archive_names. Qed.
Print Assumptions C123_complete.

(** C123. The script in the archive is what a successful dry run has written, after a successful
    build, and nothing but the script has changed since then. While the dry run was at work, the
    script was empty. *)
Theorem C123_script : forall build dry_run ls_files t t' ms, (forall u, proper (snd (build u))) ->
  make_source_archive build dry_run ls_files t = (true, t', Some ms) ->
  exists t1 t2 out, build t = (0, t1) /\ dry_run t2 = (0, out) /\ file_at t2 [lit "__buildcache"; lit "bootstrap.sh"] [] /\
    (forall q, apart [lit "__buildcache"; lit "bootstrap.sh"] q -> lookup t2 q = lookup t1 q /\ lookup t' q = lookup t1 q) /\
    unpacked ms [lit "maike-src"; lit "__buildcache"; lit "bootstrap.sh"] = Some (Some out).
Proof. exact archive_script. Qed.
Print Assumptions C123_script.

(** C123. The description of the version that the build has left (recipes/vcslog.py) is in the
    archive. *)
Theorem C123_version : forall build dry_run ls_files t t' ms t1 c, (forall u, proper (snd (build u))) ->
  make_source_archive build dry_run ls_files t = (true, t', Some ms) ->
  build t = (0, t1) -> file_at t1 [lit "__buildcache"; lit "vcslog.json"] c ->
  unpacked ms [lit "maike-src"; lit "__buildcache"; lit "vcslog.json"] = Some (Some c).
Proof.
  intros build dry_run ls_files t t' ms t1 c W H B F. destruct (archive_script _ _ _ _ _ _ W H) as (t1' & t2 & out & B' & _ & _ & K & _).
  rewrite B in B'. injection B' as <-. apply (archive_unpacked _ _ _ _ _ _ W H). split; [left; now exists [lit "vcslog.json"]|].
  assert (A : apart [lit "__buildcache"; lit "bootstrap.sh"] [lit "__buildcache"; lit "vcslog.json"]) by (split; intros (rest & E); discriminate).
  destruct F as (r & x & L). exists r, x. rewrite (proj2 (K _ A)). exact L.
Qed.
Print Assumptions C123_version.

(** C123. Built without a repository, the unpacked archive gives the version it was made from. *)
Theorem C123_same_version : forall build dry_run ls_files t t' ms t1 (data : Type) dump (load : str -> option data) d,
  (forall u, proper (snd (build u))) -> make_source_archive build dry_run ls_files t = (true, t', Some ms) ->
  build t = (0, t1) -> file_at t1 [lit "__buildcache"; lit "vcslog.json"] (dump d) -> (forall x, load (dump x) = Some x) ->
  forall repository writable can_make cwd source_dir target others F F',
  repository (cwd ++ lit "/.git") = None ->
  unpacked ms [lit "maike-src"; lit "__buildcache"; lit "vcslog.json"] = Some (F (source_dir ++ lit "/__buildcache/vcslog.json")) ->
  vcslog data dump load repository writable can_make cwd source_dir (target :: others) F = (F', 0%Z) ->
  F' target = Some (dump d).
Proof.
  intros build dry_run ls_files t t' ms t1 data dump load d W H B V L repository writable can_make cwd source_dir target others F F' R U E.
  rewrite (C123_version _ _ _ _ _ _ _ _ W H B V) in U. assert (C : F (cache_name source_dir) = Some (dump d)) by (unfold cache_name; congruence).
  exact (proj1 (log_from_cache data dump load L repository writable can_make cwd source_dir target others F F' d R C E)).
Qed.
Print Assumptions C123_same_version.

(** C123. When make succeeds. *)
Theorem C123_succeeds : forall build dry_run ls_files t t1, proper t1 ->
  build t = (0, t1) -> dir_at t1 [lit "__buildcache"] -> ~ dir_at t1 [lit "__buildcache"; lit "bootstrap.sh"] -> dir_at t1 [lit "__targets"] ->
  (forall u, fst (dry_run u) = 0) -> (forall u n, In n (snd (ls_files u)) -> lookup u n <> None) ->
  exists t' ms, make_source_archive build dry_run ls_files t = (true, t', Some ms).
Proof. exact archive_succeeds. Qed.
Print Assumptions C123_succeeds.

(** C123. When it fails. *)
Theorem C123_needs : forall build dry_run ls_files t t' ms, make_source_archive build dry_run ls_files t = (true, t', Some ms) ->
  exists t1, build t = (0, t1) /\ dir_at t1 [lit "__buildcache"] /\ ~ dir_at t1 [lit "__buildcache"; lit "bootstrap.sh"] /\ dir_at t1 [lit "__targets"].
Proof. exact archive_needs. Qed.
Print Assumptions C123_needs.

(** * Examples *)

Definition file (c : string) : tree := FileNode (lit c) true true.
Definition dir (es : list (string * tree)) : tree := DirNode true true (map (fun e => (lit (fst e), snd e)) es).
Definition project : tree :=
  dir [("Makefile", file "all:"); ("lib", dir [("a.cpp", file "A"); ("a.o", file "O")]);
       ("__targets", dir [("maike2", file "M")]);
       ("__buildcache", dir [("vcslog.json", file "{}"); ("bootstrap.sh", file "old"); ("d", dir [("e", file "E")])])]%string.
Definition builds (t : tree) : nat * tree := (0, t).
Definition runs (t : tree) : nat * str := (0, lit "g++").
Definition lists (t : tree) : nat * list place := (0, [[lit "Makefile"]; [lit "lib"; lit "a.cpp"]]).
Definition fails (t : tree) : nat * str := (1, lit "oops").
(** git ls-files where there is no repository *)
Definition no_repository (t : tree) : nat * list place := (128, []).

Definition at_ (l : list string) : place := map lit l.

Example pack_all : make_source_archive builds runs lists project =
  (true,
   dir [("Makefile", file "all:"); ("lib", dir [("a.cpp", file "A"); ("a.o", file "O")]);
        ("__targets", dir [("maike2", file "M")]);
        ("__buildcache", dir [("vcslog.json", file "{}"); ("bootstrap.sh", file "g++"); ("d", dir [("e", file "E")])])]%string,
   Some [(at_ ["maike-src"; "__buildcache"], None); (at_ ["maike-src"; "__buildcache"; "vcslog.json"], Some (lit "{}"));
         (at_ ["maike-src"; "__buildcache"; "bootstrap.sh"], Some (lit "g++")); (at_ ["maike-src"; "__buildcache"; "d"], None);
         (at_ ["maike-src"; "__buildcache"; "d"; "e"], Some (lit "E")); (at_ ["maike-src"; "__buildcache"; "d"], None);
         (at_ ["maike-src"; "__buildcache"; "d"; "e"], Some (lit "E")); (at_ ["maike-src"; "Makefile"], Some (lit "all:"));
         (at_ ["maike-src"; "lib"; "a.cpp"], Some (lit "A"))]%string).
Proof. vm_compute. reflexivity. Qed.

(** The assumptions can be met. *)
Example pack_proper : proper project.
Proof.
  assert (H : forall t : tree, (fix ok t := match t with FileNode _ _ _ => True | DirNode _ _ es =>
    NoDup (map fst es) /\ (fix all es := match es with [] => True | (_, u) :: es' => ok u /\ all es' end) es end) t -> proper t).
  { intro t. induction t as [c r x|r x es IH] using tree_ind'; [constructor|]. intros (N & A). constructor; [exact N|].
    intros n t I. apply (IH n t I). clear N IH. induction es as [|[m u] es IHe]; [destruct I|]. destruct A as (A & As). destruct I as [E|I]; [injection E as -> ->; exact A|].
    exact (IHe As I). }
  apply H. cbn. repeat split; repeat (constructor; [cbn; intuition discriminate|]); constructor.
Qed.

(** A tracked file that has been removed makes tar fail. *)
Example pack_missing : exists t' ms, make_source_archive builds runs (fun _ => (0, [at_ ["gone"; "a"]; at_ ["Makefile"]]%string)) project = (false, t', Some ms) /\
  unpacked ms (at_ ["maike-src"; "Makefile"]%string) = Some (Some (lit "all:")).
Proof. eexists. eexists. split; vm_compute; reflexivity. Qed.

(** Without __buildcache, there is nowhere to write the script to. *)
Example pack_fresh : make_source_archive builds runs lists (dir [("Makefile", file "all:")])%string = (false, dir [("Makefile", file "all:")]%string, None).
Proof. vm_compute. reflexivity. Qed.

(** What is unpacked last stays. *)
Example pack_unpacked : map (unpacked [([lit "a"], Some (lit "1")); ([lit "b"], None); ([lit "a"], Some (lit "2"))]) [[lit "a"]; [lit "b"]; [lit "c"]; []; [lit "a"; lit "b"]] =
  [Some (Some (lit "2")); Some None; None; None; None].
Proof. vm_compute. reflexivity. Qed.

(** * What is not noticed *)

(** C123. Wrong: if make succeeds, git has listed the files. In a pipeline, only tar counts; where
    there is no repository, an archive without sources is made. *)
Theorem C123_git_refuted : ~ forall build dry_run ls_files t t' ms, (forall u, proper (snd (build u))) ->
  make_source_archive build dry_run ls_files t = (true, t', Some ms) -> fst (ls_files t') = 0.
Proof.
  intro H. specialize (H (fun _ => (0, project)) runs no_repository project).
  assert (Q := H _ _ (fun _ => pack_proper) eq_refl). discriminate Q.
Qed.
Print Assumptions C123_git_refuted.

(** C123. Wrong: if make fails, the script is what it was before. If the dry run fails, the script
    is gone. *)
Theorem C123_keeps_refuted : ~ forall build dry_run ls_files t t' o c, (forall u, proper u -> build u = (0, u)) -> proper t ->
  make_source_archive build dry_run ls_files t = (false, t', o) ->
  file_at t [lit "__buildcache"; lit "bootstrap.sh"] c -> file_at t' [lit "__buildcache"; lit "bootstrap.sh"] c.
Proof.
  intro H. assert (Q := H builds fails lists project _ _ (lit "old") (fun u _ => eq_refl) pack_proper eq_refl).
  destruct Q as (r & x & L); [now exists true, true|]. vm_compute in L. discriminate L.
Qed.
Print Assumptions C123_keeps_refuted.
