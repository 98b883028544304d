(** Properties of printed commands and of the log. *)

From Coq Require Import Ascii String ZArith Bool.
From Coq Require Import List.
From Verif Require Import Str ValueModel BuildModel LogModel LogSpec LogProofs.
Import ListNotations.

(** C38: a printed command reads as the command, word by word, and in no other
    way. *)
Theorem C38_reads : forall cmd ws,
  reads_words (command_to_string cmd) ws <-> ws = executable cmd :: cmd_args cmd.
Proof.
  intros cmd ws. split; [exact (command_reads_only cmd ws)|]. intros ->. exact (command_reads cmd).
Qed.
Print Assumptions C38_reads.

Theorem C38_injective : forall c1 c2, command_to_string c1 = command_to_string c2 -> c1 = c2.
Proof. exact command_injective. Qed.
Print Assumptions C38_injective.

Theorem C38_recover : exists recover : str -> option (list str),
  forall cmd, recover (command_to_string cmd) = Some (executable cmd :: cmd_args cmd).
Proof. exact command_recovered. Qed.
Print Assumptions C38_recover.

(** C53: a command without backslashes and single quotes can be passed to a shell.
    The full statement, for all commands, is refuted below. *)
Theorem C53_shell_partial : forall cmd,
  Forall (fun w => ~ In "\"%char w /\ ~ In "'"%char w) (executable cmd :: cmd_args cmd) ->
  forall ws, shell_words (command_to_string cmd) ws <-> ws = executable cmd :: cmd_args cmd.
Proof.
  intros cmd F ws. split; [intro H; symmetry; exact (shell_words_inj _ _ (command_shell cmd F) ws H)|].
  intros ->. exact (command_shell cmd F).
Qed.
Print Assumptions C53_shell_partial.

(** C40: every line of the output of a tool is appended to the record once, in
    order, with the prefix. *)
Theorem C40_lines : forall record lines last, Forall no_newline lines -> no_newline last ->
  append_log record (text lines last) = record ++ marked_text (lit " ... ") lines last.
Proof. intros record lines last F N. exact (append_log_lines lines last F N record). Qed.
Print Assumptions C40_lines.

(** Every text can be divided into lines. *)
Theorem C40_every_text : forall data, exists lines last,
  Forall no_newline lines /\ no_newline last /\ data = text lines last.
Proof. exact text_exists. Qed.
Print Assumptions C40_every_text.

(** C40: what is written for a task that was run. The full statement, which does
    not exclude NUL characters, is refuted below. *)
Theorem C40_record_partial : forall t status lines last err,
  Forall no_newline lines -> no_newline last ->
  no_nul (task_path t) -> no_nul (text lines last) -> no_nul err ->
  log_result LevelSourceFileInfo t status (text lines last) err =
  (header (decimal (task_id t)) (if failed status then lit "✗" else lit "✓") (task_path t)
     (decimal (task_started t) ++ lit " | " ++ decimal (task_completed t))
     ++ ["010"%char] ++ marked_text (lit " ... ") lines last,
   match err with [] => [] | _ => err ++ ["010"%char] end).
Proof. exact log_result_info. Qed.
Print Assumptions C40_record_partial.

Theorem C40_command : forall t status out err, Forall no_nul (executable (task_cmd t) :: cmd_args (task_cmd t)) ->
  log_result LevelCompilationCommand t status out err =
  (command_to_string (task_cmd t) ++ lit " #" ++ fst (log_result LevelSourceFileInfo t status out err),
   snd (log_result LevelSourceFileInfo t status out err)).
Proof. exact log_result_command. Qed.
Print Assumptions C40_command.

Theorem C40_skipped : forall t, no_nul (task_path t) ->
  log_skipped LevelSourceFileInfo t =
  header (decimal (task_id t)) (lit "✓") (task_path t) (lit "- | - ") ++ ["010"%char].
Proof. exact log_skipped_info. Qed.
Print Assumptions C40_skipped.

(** C54: with the log level "errors", nothing is written about a task that
    succeeded, if the tool was run and did not write anything. The full statement
    is refuted below. *)
Theorem C54_quiet_partial : forall t status, log_result LevelErrors t status [] [] = ([], []).
Proof. reflexivity. Qed.
Print Assumptions C54_quiet_partial.

(** C54: what is written to stderr is, at all levels, what the tool wrote. *)
Theorem C54_stderr : forall level t status out err, no_nul err ->
  snd (log_result level t status out err) = match err with [] => [] | _ => err ++ ["010"%char] end.
Proof.
  intros level t status out err N. unfold log_result. cbn [snd]. apply c_str_same.
  destruct err as [|c err]; [intros []|]. apply no_nul_app. split; [exact N|]. intros [E | []]. discriminate.
Qed.
Print Assumptions C54_stderr.

(** ** Examples and refutations *)

Local Open Scope string_scope.
Local Open Scope list_scope.

Definition a_command : command := mk_command (lit "recipes/it's.py") [lit "compile"; lit "{""a\b"": 1}"; []].

Example a_printed_command : command_to_string a_command = lit "'recipes/it\'s.py' 'compile' '{""a\\b"": 1}' ''".
Proof. vm_compute. reflexivity. Qed.

Example a_plain_command :
  Forall (fun w => ~ In "\"%char w /\ ~ In "'"%char w) [lit "recipes/cxx.py"; lit "{""a b"": 1}"] /\
  shell_words (command_to_string (mk_command (lit "recipes/cxx.py") [lit "{""a b"": 1}"])) [lit "recipes/cxx.py"; lit "{""a b"": 1}"].
Proof.
  assert (F : Forall (fun w => ~ In "\"%char w /\ ~ In "'"%char w) [lit "recipes/cxx.py"; lit "{""a b"": 1}"]).
  { repeat constructor; vm_compute; intro H; repeat (destruct H as [H | H]; [discriminate|]); exact H. }
  split; [exact F|]. now apply (C53_shell_partial (mk_command (lit "recipes/cxx.py") [lit "{""a b"": 1}"]) F).
Qed.

(** C53: a backslash is doubled, but not for the shell. *)
Theorem C53_shell_refuted : exists cmd ws,
  shell_words (command_to_string cmd) ws /\ ws <> executable cmd :: cmd_args cmd.
Proof.
  exists (mk_command (lit "tool") [lit "a\b"]), [lit "tool"; lit "a\\b"]. split; [|discriminate].
  apply (shell_more (lit "tool") (lit "'a\\b'") [lit "a\\b"]).
  - vm_compute. intro H. repeat (destruct H as [H | H]; [discriminate|]). exact H.
  - apply (shell_last (lit "a\\b")). vm_compute. intro H. repeat (destruct H as [H | H]; [discriminate|]). exact H.
Qed.
Print Assumptions C53_shell_refuted.

Definition a_task : task_info := mk_task_info a_command 7 (lit "src/a.cpp") 10 250.

Example a_record : log_result LevelSourceFileInfo a_task (ExitCode 1)
    (text [lit "In file a.cpp:"; []] (lit "  1 | x")) (lit "oops") =
  (text [lit " 7 | ✗ | src/a.cpp | 10 | 250"; lit " ... In file a.cpp:"; lit " ... "] (lit " ...   1 | x"),
   text [lit "oops"] []).
Proof. vm_compute. reflexivity. Qed.

(** C40: text after a NUL is lost. *)
Theorem C40_nul_refuted : exists t status out line, In line [lit "second line"] /\
  out = text [[nul]; line] [] /\
  log_result LevelSourceFileInfo t status out [] = (text [lit " 7 | ✓ | src/a.cpp | 10 | 250"] (lit " ... "), []).
Proof.
  exists a_task, (ExitCode 0), (text [[nul]; lit "second line"] []), (lit "second line").
  split; [now left|]. split; [reflexivity|]. vm_compute. reflexivity.
Qed.
Print Assumptions C40_nul_refuted.

(** C40: a record is not ended if the last line of the output is incomplete, so the
    next record continues on the same line. *)
Theorem C40_continued_refuted : exists t1 t2,
  fst (log_result LevelSourceFileInfo t1 (ExitCode 0) (lit "done") []) ++ log_skipped LevelSourceFileInfo t2 =
  text [lit " 7 | ✓ | src/a.cpp | 10 | 250"; lit " ... done 8 | ✓ | src/b.cpp | - | - "] [].
Proof. exists a_task, (mk_task_info a_command 8 (lit "src/b.cpp") 0 0). vm_compute. reflexivity. Qed.
Print Assumptions C40_continued_refuted.

(** C54: with the log level "errors", there is an empty line for each task that was
    skipped, and the regular output of tools is written. *)
Theorem C54_quiet_refuted : exists t,
  log_skipped LevelErrors t = ["010"%char] /\
  fst (log_result LevelErrors t (ExitCode 0) (lit "hello") []) = lit " ... hello".
Proof. exists a_task. vm_compute. split; reflexivity. Qed.
Print Assumptions C54_quiet_refuted.
