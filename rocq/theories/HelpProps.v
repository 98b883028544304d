(** C90: the help text lists each option, and says how to use it. *)

From Coq Require Import Ascii String ZArith.
From Coq Require Import List Permutation Sorted.
From Verif Require Import Str CmdModel CmdSpec MainModel JobModel ShowSpec HelpModel HelpSpec HelpProofs.
Import ListNotations.

(** C90: for any table of options, the help text consists of sections, one for each
    category; each option is in the section for its category, exactly once; and each type
    is explained exactly once, if it is the type of some option. Sections, options and types are
    in alphabetical order. *)
Theorem C90_structure : forall table, NoDup (map info_name table) ->
  exists sections types, help_form (help_text table) sections types /\
    StronglySorted before (map section_title sections) /\
    (forall s, In s sections -> section_entries s <> [] /\ StronglySorted before (map entry_name (section_entries s))) /\
    Permutation (flat_map (fun s => map (fun e => (section_title s, e)) (section_entries s)) sections)
                (map (fun x => (info_category x, entry_of x)) table) /\
    StronglySorted before (map fst types) /\
    (forall t, In t types -> exists x, In x table /\ info_type x = Some t) /\
    (forall x n d, In x table -> info_type x = Some (n, d) -> In n (map fst types)).
Proof. exact help_structure. Qed.
Print Assumptions C90_structure.

(** C90: the help text of the program has an entry for each option. If the option is
    listed without a value, it is accepted without, and rejected with a value. If it is
    listed with a value, it is rejected without one; otherwise any value is accepted, or
    none. The types of values are explained. *)
Theorem C90_usage : forall summary explain, exists sections types,
  help_form (help_text (help_table summary explain)) sections types /\
  forall o, exists s e, In s sections /\ In e (section_entries s) /\ entry_name e = option_name o /\ entry_summary e = summary o /\
    forall arg text, gives arg (option_name o) text ->
    match entry_usage e with
    | Alone =>
        (text = [] -> forall around, exists j, make_job around [arg] = JobReady j) /\
        (text <> [] -> forall env argv1 argv2, main env job_accepts (argv1 ++ arg :: argv2) = ([], 255%Z))
    | WithValue t => In (t, explain t) types /\
        (text = [] -> forall env argv1 argv2, main env job_accepts (argv1 ++ arg :: argv2) = ([], 255%Z)) /\
        (exists value, forall around, exists j, make_job around [option_name o ++ "="%char :: value] = JobReady j)
    | MaybeWithValue t => In (t, explain t) types /\ forall around, exists j, make_job around [arg] = JobReady j
    end.
Proof. exact help_usage. Qed.
Print Assumptions C90_usage.

(** ** Examples *)

Local Open Scope string_scope.
Local Open Scope list_scope.

Definition w_table : list opt_info :=
  [mk_opt_info (lit "Speed") (lit "--slow") (Some (lit "Number", lit "A number")) (lit "Run slowly") true;
   mk_opt_info (lit "Output") (lit "--quiet") None (lit "Be quiet") false;
   mk_opt_info (lit "Speed") (lit "--fast") (Some (lit "Number", lit "A number")) (lit "Run fast") false].

Example w_names : NoDup (map info_name w_table).
Proof. repeat constructor; cbn; intuition discriminate. Qed.

Example w_text : help_form (help_text w_table)
  [mk_help_section (lit "Output") [mk_help_entry (lit "--quiet") Alone (lit "Be quiet")];
   mk_help_section (lit "Speed") [mk_help_entry (lit "--fast") (MaybeWithValue (lit "Number")) (lit "Run fast");
                                  mk_help_entry (lit "--slow") (WithValue (lit "Number")) (lit "Run slowly")]]
  [(lit "Number", lit "A number")].
Proof. vm_compute. reflexivity. Qed.

(** The types of the program *)
Example w_types : map fst (used_types (help_table (fun _ => []) (fun _ => []))) =
  map lit ["Build id"; "Log level"; "Output format"; "Path"; "Paths"; "Thread count"; "Timestamp"].
Proof. vm_compute. reflexivity. Qed.

(** Arguments as in C90_usage *)
Example w_gives : gives (lit "--dry-run=yes") (option_name DryRun) (lit "yes") /\ gives (lit "--num-workers") (option_name NumWorkers) [].
Proof. split; [now right|now left]. Qed.
