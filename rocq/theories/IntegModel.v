(** Model of the integration tests, integration_test/*.sh, and of the part of the shell they use. *)

From Coq Require Import Ascii String Bool Arith.
From Coq Require Import List.
From Verif Require Import Str AboutModel.
Import ListNotations.

(** * The shell *)

(** Parts of a word: characters, "$v", and $v without quotes *)
Inductive piece := Text (s : str) | Quoted (v : str) | Bare (v : str).
Definition word := list piece.

(** bash, with set -e at the beginning. [Let]: v=$(first | second | ...), which ends the script if
    the last command of the pipeline fails. [LetIgnored]: export v=$(command), where the status is
    that of export. [Or]: command || exit_status=$?. [Trap]: trap "command" EXIT. *)
Inductive script :=
| End
| Cmd (ws : list word) (k : script)
| Let (v : str) (pipeline : list (list word)) (k : script)
| LetIgnored (v : str) (command : list word) (k : script)
| Is (v : str) (value : word) (k : script)
| Or (ws : list word) (k : script)
| Trap (ws : list word) (k : script)
| IfEqual (a b : str) (yes no : script) (k : script)
| Exit (status : nat) (k : script)
| ExitStatus.

(** A command that has been run: its words, its standard input, its status and standard output, and
    whether the script looks at the status *)
Record event := mk_event { ran : list str; input : str; result : nat; output : str; looked_at : bool }.

Record shell := mk_shell { value_of : str -> str; events : list event; exit_status : nat }.

Definition blank (c : ascii) : bool :=
  match c with " "%char | "009"%char | "010"%char => true | _ => false end.

(** Word splitting. There are no names with *, ? or [. The second component is the word that is
    being read, if there is one. *)
Definition flush (r : list str * option str) : list str * option str :=
  match r with
  | (done, Some w) => (done ++ [w], None)
  | (done, None) => (done, None)
  end.

Definition add (s : str) (r : list str * option str) : list str * option str :=
  match r with
  | (done, Some w) => (done, Some (w ++ s))
  | (done, None) => (done, Some s)
  end.

Definition expand_piece (env : str -> str) (r : list str * option str) (p : piece) : list str * option str :=
  match p with
  | Text s => add s r
  | Quoted v => add (env v) r
  | Bare v => fold_left (fun r c => if blank c then flush r else add [c] r) (env v) r
  end.

Definition expand_word (env : str -> str) (w : word) : list str :=
  fst (flush (fold_left (expand_piece env) w ([], None))).

Definition expand (env : str -> str) (ws : list word) : list str := flat_map (expand_word env) ws.

(** $(...) is without the line breaks at the end. *)
Fixpoint drop_nl (s : str) : str :=
  match s with "010"%char :: s' => drop_nl s' | _ => s end.
Definition substituted (s : str) : str := rev (drop_nl (rev s)).

(** In an assignment, there is no word splitting. *)
Definition assigned (env : str -> str) (w : word) : str :=
  concat (map (fun p => match p with Text s => s | Quoted v | Bare v => env v end) w).

Definition set_value (env : str -> str) (v x : str) : str -> str := fun n => if str_eqb n v then x else env n.

Section Run.
  (** What a command with the given words and standard input does: its status and its standard
      output, depending on what has been run before. cd, wget, make and so on are such commands.
      A redirection is a word of the command. Variables that are passed by export or in front of a
      command are words in front of the command, as with env. *)
  Variable run : list event -> list str -> str -> nat * str.

  Definition run_one (looked : bool) (env : str -> str) (evs : list event) (ws : list word) (stdin : str) : list event * nat * str :=
    let (st, out) := run evs (expand env ws) stdin in
    (evs ++ [mk_event (expand env ws) stdin st out looked], st, out).

  (** The status of a pipeline is that of the last command (there is no pipefail). *)
  Fixpoint run_pipeline (env : str -> str) (evs : list event) (pl : list (list word)) (stdin : str) : list event * nat * str :=
    match pl with
    | [] => (evs, 0, stdin)
    | [ws] => run_one true env evs ws stdin
    | ws :: pl' => let '(evs, _, out) := run_one false env evs ws stdin in run_pipeline env evs pl' out
    end.

  (** [Some]: the script has ended with this status. A script that gets to its end has the status of
      its last command, which is 0, since it would have ended before. *)
  Fixpoint exec (s : script) (sh : shell) : shell * option nat :=
    match s with
    | End => (sh, None)
    | Cmd ws k =>
        let '(evs, st, _) := run_one true (value_of sh) (events sh) ws [] in
        let sh := mk_shell (value_of sh) evs (exit_status sh) in
        if Nat.eqb st 0 then exec k sh else (sh, Some st)
    | Let v pl k =>
        let '(evs, st, out) := run_pipeline (value_of sh) (events sh) pl [] in
        let sh := mk_shell (set_value (value_of sh) v (substituted out)) evs (exit_status sh) in
        if Nat.eqb st 0 then exec k sh else (sh, Some st)
    | LetIgnored v ws k =>
        let '(evs, _, out) := run_one false (value_of sh) (events sh) ws [] in
        exec k (mk_shell (set_value (value_of sh) v (substituted out)) evs (exit_status sh))
    | Is v w k => exec k (mk_shell (set_value (value_of sh) v (assigned (value_of sh) w)) (events sh) (exit_status sh))
    | Or ws k =>
        let '(evs, st, _) := run_one true (value_of sh) (events sh) ws [] in
        exec k (mk_shell (value_of sh) evs (if Nat.eqb st 0 then exit_status sh else st))
    | Trap ws k => exec k sh
    | IfEqual a b yes no k =>
        match exec (if str_eqb (value_of sh a) (value_of sh b) then yes else no) sh with
        | (sh, None) => exec k sh
        | r => r
        end
    | Exit st _ => (sh, Some st)
    | ExitStatus => (sh, Some (exit_status sh))
    end.

  Definition status_of (r : shell * option nat) : nat := match snd r with Some st => st | None => 0 end.

  (** A script, started with the variables [env]. Removing the directories at the end (the commands
      given to trap) does not change the status, and is left out here, see TrapModel.v. *)
  Definition script_run (s : script) (env : str -> str) : shell * option nat := exec s (mk_shell env [] 0).
End Run.

(** * The scripts *)

Local Open Scope string_scope.
Local Open Scope list_scope.

Notation "` s" := [Text (lit s)] (at level 0, s at level 0).
Definition v_install := lit "install_dir".
Definition v_new := lit "install_dir_new".
Definition v_build := lit "build_dir".
Definition v_source := lit "source_dir".
Definition v_version := lit "bootsrap_from_version".
Definition v_tmp := lit "tmp_dir".
Definition v_target := lit "target_dir".
Definition v_extract := lit "extract_dir".

(** | awk 'BEGIN { FS = ":" } ; { print $2 }' | sed 's|[[:space:]]*||' *)
Definition after_colon : list word := [`"awk"; `"BEGIN { FS = "":"" } ; { print $2 }"].
Definition strip : list word := [`"sed"; `"s|[[:space:]]*||"].
Definition id_in_log : list word := [`"grep"; `"#[[:space:]].*Id:"].
Definition id_in_version : list word := [`"grep"; `"Build id"].

(** bootstrap_from_release.sh:1-31 *)
Definition bootstrap_from_release : script :=
  Cmd [`"echo"; [Text (lit "Bootstraping from "); Quoted v_version]]
  (Let v_tmp [[`"mktemp"; `"-d"]]
  (Trap [`"rm"; `"-rf"; [Bare v_tmp]]
  (Cmd [`"cd"; [Bare v_tmp]]
  (Cmd [`"wget"; [Text (lit "https://github.com/milasudril/maike/releases/download/"); Quoted v_version; Text (lit "/maike-src.tar.gz")]]
  (Cmd [`"tar"; `"-xf"; `"maike-src.tar.gz"]
  (Cmd [`"cd"; `"maike-src"]
  (Cmd [`"sh"; `"-x"; `"__buildcache/bootstrap.sh"]
  (Let (lit "build_id_from_bootstrap") [[`"__targets_bootstrap/core/bin/maike2"; `"--target-dir=__targets"]; id_in_log; after_colon; strip]
  (Cmd [`"make"; [Text (lit "PREFIX="); Quoted v_install]; `"install"]
  (Let (lit "build_id") [[[Quoted v_install; Text (lit "/bin/maike2")]; `"--version"]; id_in_version; after_colon; strip]
  (IfEqual (lit "build_id") (lit "build_id_from_bootstrap")
     (Exit 0 End)
     (Cmd [`"echo"; `"BuildId mismatch:"]
     (Cmd [`"echo"; [Bare (lit "build_id")]]
     (Cmd [`"echo"; [Bare (lit "build_id_from_bootstrap")]]
     (Exit 1 End))))
  End))))))))))).

(** build_new_version.sh:1-39. In line 7, __targets* is the pattern, as it is written. *)
Definition build_new_version : script :=
  Cmd [`"echo"; `"Building new version"]
  (Cmd [`"rm"; `"-rf"; `"__targets*"]
  (Let (lit "build_id_expected") [[[Bare v_install; Text (lit "/bin/maike2")]; [Text (lit "--target-dir="); Bare v_target]]; id_in_log; after_colon; strip]
  (Let (lit "version_info") [[`"__targets/core/bin/maike2"; `"--version"]]
  (Let (lit "build_id") [[`"echo"; [Quoted (lit "version_info")]]; id_in_version; after_colon; strip]
  (Let (lit "commit_expected") [[`"git"; `"rev-parse"; `"HEAD"]]
  (Let (lit "commit") [[`"echo"; [Quoted (lit "version_info")]]; [`"grep"; `"# Maike"]; [`"tr"; `")"; `"("]; [`"awk"; `"BEGIN { FS = ""("" } ; { print $2 }"]]
  (IfEqual (lit "build_id") (lit "build_id_expected")
     (Exit 0 End)
     (Cmd [`"echo"; `"BuildId mismatch:"]
     (Cmd [`"echo"; [Bare (lit "build_id")]]
     (Cmd [`"echo"; [Bare (lit "build_id_expected")]]
     (Exit 1 End))))
  (IfEqual (lit "commit") (lit "commit_expected")
     (Exit 0 End)
     (Cmd [`"echo"; `"BuildId mismatch:"]
     (Cmd [`"echo"; [Bare (lit "commit")]]
     (Cmd [`"echo"; [Bare (lit "commit_expected")]]
     (Exit 1 End))))
  End)))))))).

(** can_generate_working_bootstrap_script.sh:1-14 *)
Definition can_generate_working_bootstrap_script : script :=
  Cmd [`"echo"; `"Can generate working boostrap script"]
  (Cmd [`"rm"; `"-rf"; `"__targets_bootstrap"; `"__buildcache"]
  (Cmd [`"mkdir"; `"__buildcache"]
  (Cmd [[Quoted (lit "1")]; `"--target-dir=__targets_bootstrap"; `"--num-workers=1"; `"--force-rebuild"; `"--dry-run";
        `"--log-level=compilation_command"; `"--build-id=0000000000000000000000000000000000000000000000000000000000000000";
        `">"; `"__buildcache/bootstrap.sh"]
  (Cmd [`"sh"; `"-x"; `"__buildcache/bootstrap.sh"]
  (Cmd [`"__targets_bootstrap/core/bin/maike2"; `"--about"] End))))).

(** check_release_tarball.sh:1-18 *)
Definition check_release_tarball : script :=
  Cmd [`"echo"; `"Check release tarball"]
  (Let v_extract [[`"mktemp"; `"-d"]]
  (Trap [`"rm"; `"-rf"; [Bare v_extract]]
  (Cmd [`"make"; `"clean"]
  (Cmd [`"make"; `"source-archive"]
  (Cmd [`"mv"; `"__targets/maike-src.tar.gz"; [Bare v_extract]]
  (Let v_source [[`"pwd"]]
  (Cmd [`"cd"; [Bare v_extract]]
  (Cmd [`"tar"; `"-xf"; `"maike-src.tar.gz"]
  (Cmd [`"cd"; `"maike-src"]
  (Cmd [`"__buildcache/bootstrap.sh"]
  (Cmd [`"__targets_bootstrap/core/bin/maike2"; `"--version"]
  (Cmd [`"cd"; [Bare v_source]] End)))))))))))).

(** make PREFIX="$install_dir_new" install *)
Definition make_install : list word := [`"make"; [Text (lit "PREFIX="); Quoted v_new]; `"install"].
Definition new_maike2 : word := [Bare v_new; Text (lit "/bin/maike2")].

(** install_and_rebuild.sh:1-9 *)
Definition install_and_rebuild : script :=
  Let v_new [[`"mktemp"; `"-d"]]
  (Trap [`"rm"; `"-rf"; [Bare v_new]; `"__targets_2"; `"__targets_3"]
  (Cmd make_install
  (Cmd [new_maike2; `"--target-dir=__targets_2"]
  (Cmd [`"__targets_2/core/bin/maike2"; `"--target-dir=__targets_3"] End)))).

(** install_and_rebuild_out_of_tree.sh:1-15 *)
Definition install_and_rebuild_out_of_tree : script :=
  Cmd [`"echo"; `"Install and rebuild out of tree"]
  (Let v_new [[`"mktemp"; `"-d"]]
  (Let v_build [[`"mktemp"; `"-d"]]
  (Trap [`"rm"; `"-rf"; [Bare v_new]; [Bare v_build]]
  (Cmd make_install
  (Let v_source [[`"pwd"]]
  (Cmd [`"cd"; [Bare v_build]]
  (Cmd [new_maike2; [Text (lit "--source-dir="); Bare v_source]]
  (Cmd [`"maike_targets/core/bin/maike2"; `"--version"]
  (Cmd [`"cd"; [Bare v_source]] End))))))))).

(** install_and_rebuild_out_of_tree_from_subpath.sh:1-17 *)
Definition install_and_rebuild_out_of_tree_from_subpath : script :=
  Cmd [`"echo"; `"Install and rebuild out of tree (subath)"]
  (Let v_new [[`"mktemp"; `"-d"]]
  (Is v_build `"temp_build_dir"
  (Trap [`"rm"; `"-rf"; [Bare v_new]; [Bare v_build]]
  (Cmd make_install
  (Is v_source `".."
  (Cmd [`"mkdir"; [Bare v_build]]
  (Cmd [`"cd"; [Bare v_build]]
  (Cmd [new_maike2; [Text (lit "--source-dir="); Bare v_source]; `"--target-dir=__targets"]
  (Cmd [`"__targets/core/bin/maike2"; `"--version"]
  (Cmd [`"cd"; [Bare v_source]] End)))))))))).

(** install_and_rebuild_out_of_tree_rel_path.sh:1-15. $(basename $(pwd)) is taken apart; the status
    of pwd is ignored. *)
Definition install_and_rebuild_out_of_tree_rel_path : script :=
  Cmd [`"echo"; `"Install and rebuild out of tree (relative path)"]
  (Let v_new [[`"mktemp"; `"-d"]]
  (Is v_build `".."
  (Trap [`"rm"; `"-rf"; [Bare v_new]]
  (Cmd make_install
  (LetIgnored (lit "pwd") [`"pwd"]
  (Let v_source [[`"basename"; [Bare (lit "pwd")]]]
  (Cmd [`"cd"; [Bare v_build]]
  (Cmd [new_maike2; [Text (lit "--source-dir="); Bare v_source]]
  (Cmd [`"maike_targets/core/bin/maike2"; `"--version"]
  (Cmd [`"cd"; [Bare v_source]] End)))))))))).

(** main.sh:1-18 *)
Definition main : script :=
  LetIgnored v_install [`"mktemp"; `"-d"]
  (Trap [`"rm"; `"-rf"; [Bare v_install]]
  (Cmd [`"bootsrap_from_version=2.0.0-beta-11"; `"integration_test/bootstrap_from_release.sh"]
  (Cmd [`"target_dir=__targets"; `"integration_test/build_new_version.sh"]
  (Or [`"integration_test/can_generate_working_bootstrap_script.sh"; `"__targets/core/bin/maike2"]
  (Or [`"integration_test/install_and_rebuild.sh"]
  (Or [`"integration_test/install_and_rebuild_out_of_tree.sh"]
  (Or [`"integration_test/install_and_rebuild_out_of_tree_rel_path.sh"]
  (Or [`"integration_test/install_and_rebuild_out_of_tree_from_subpath.sh"]
  (Or [`"integration_test/check_release_tarball.sh"]
  ExitStatus))))))))).

(** * The tools in pipelines *)

Fixpoint prefix_of (p s : str) : bool :=
  match p, s with
  | [], _ => true
  | a :: p', b :: s' => Ascii.eqb a b && prefix_of p' s'
  | _, [] => false
  end.

Fixpoint occurs (p s : str) : bool :=
  prefix_of p s || match s with [] => false | _ :: s' => occurs p s' end.

(** The lines of a text. A last line that is not ended counts, if there is something in it. *)
Fixpoint lines_from (line : str) (s : str) : list str :=
  match s with
  | [] => match line with [] => [] | _ => [line] end
  | "010"%char :: s' => line :: lines_from [] s'
  | c :: s' => lines_from (line ++ [c]) s'
  end.
Definition lines := lines_from [].

Definition unlines (l : list str) : str := concat (map (fun x => x ++ ["010"%char]) l).

Definition space (c : ascii) : bool :=
  match c with " "%char | "009"%char | "011"%char | "012"%char | "013"%char => true | _ => false end.

(** The regular expression #[[:space:]].*Id: *)
Fixpoint log_line (s : str) : bool :=
  match s with
  | "#"%char :: (c :: s'') as s' => (space c && occurs (lit "Id:") s'') || log_line s'
  | _ :: s' => log_line s'
  | [] => false
  end.

(** The second field, with one character as a separator: what is between the first one and the
    second one *)
Fixpoint until (sep : ascii) (s : str) : str :=
  match s with
  | [] => []
  | c :: s' => if Ascii.eqb c sep then [] else c :: until sep s'
  end.
Fixpoint second_field (sep : ascii) (s : str) : str :=
  match s with
  | [] => []
  | c :: s' => if Ascii.eqb c sep then until sep s' else second_field sep s'
  end.

Fixpoint skip_space (s : str) : str :=
  match s with
  | c :: s' => if space c then skip_space s' else s
  | [] => []
  end.

Definition grep (f : str -> bool) (s : str) : nat * str :=
  match filter f (lines s) with
  | [] => (1, [])
  | l => (0, unlines l)
  end.
Definition awk (sep : ascii) (s : str) : nat * str := (0, unlines (map (second_field sep) (lines s))).
Definition sed (s : str) : nat * str := (0, unlines (map skip_space (lines s))).
Definition tr (s : str) : nat * str := (0, map (fun c => if Ascii.eqb c ")"%char then "("%char else c) s).

Definition tool_words (ws : list word) : list str := expand (fun _ => []) ws.

(** What the tools in pipelines do. [None]: another command *)
Definition tool (ws : list str) (stdin : str) : option (nat * str) :=
  let is x := if list_eq_dec (list_eq_dec ascii_dec) ws (tool_words x) then true else false in
  if is id_in_log then Some (grep log_line stdin)
  else if is id_in_version then Some (grep (occurs (lit "Build id")) stdin)
  else if is [`"grep"; `"# Maike"] then Some (grep (occurs (lit "# Maike")) stdin)
  else if is after_colon then Some (awk ":"%char stdin)
  else if is [`"awk"; `"BEGIN { FS = ""("" } ; { print $2 }"] then Some (awk "("%char stdin)
  else if is strip then Some (sed stdin)
  else if is [`"tr"; `")"; `"("] then Some (tr stdin)
  else match ws with
       | [e; text] => if str_eqb e (lit "echo") then Some (0, text ++ ["010"%char]) else None
       | _ => None
       end.

(** The first lines of the log of a build, maike.cpp:340-352 *)
Definition job_started (workers start id source target : str) : str :=
  lit "# Build job with " ++ workers ++ lit " workers started" ++ nl ++
  lit "#" ++ nl ++
  lit "# Start time: " ++ start ++ nl ++
  lit "#         Id: " ++ id ++ nl ++
  lit "# Source dir: " ++ source ++ nl ++
  lit "# Target dir: " ++ target ++ nl ++
  lit "#" ++ nl.
