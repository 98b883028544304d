(** Model of the help text: printHelp in core/bin/maike.cpp, and the tables made for it in
    core/cmd_line_parser/command_line.hpp. *)

From Coq Require Import Ascii String Bool.
From Coq Require Import List.
From Verif Require Import Str CmdModel MainModel ShowModel.
Import ListNotations.

(** OptionInfo and TypeInfo, command_line.hpp:141-203 and 345-371, without the description
    of the option, which is not printed. A null pointer is [None]. *)
Record opt_info := mk_opt_info {
  info_category : str;
  info_name : str;
  info_type : option (str * str);      (* typeToString, typeDescription *)
  info_summary : str;
  info_required : bool
}.

(** CompareOptInfoByCategoryAndName, command_line.hpp:303-314 *)
Definition info_less (a b : opt_info) : bool :=
  match str_compare (info_category a) (info_category b) with
  | Lt => true
  | Eq => is_lt (str_compare (info_name a) (info_name b))
  | Gt => false
  end.

(** The order in get_type_info, command_line.hpp:404-406 *)
Definition type_less (a b : str * str) : bool := is_lt (str_compare (fst a) (fst b)).

(** detail::sort, command_line.hpp:84-99, as in CmdModel.v *)
Section Sort.
  Context {T : Type}.
  Variable less : T -> T -> bool.

  Fixpoint place_left (x : T) (l : list T) : list T :=
    match l with
    | [] => [x]
    | y :: l' => if less x y then y :: place_left x l' else x :: l
    end.

  Definition insertion_sort (l : list T) : list T := rev (fold_left (fun sorted x => place_left x sorted) l []).
End Sort.

(** detail::unique, command_line.hpp:123-138: an element is left out if it equals the one
    before it. *)
Fixpoint skip_same (prev : str * str) (l : list (str * str)) : list (str * str) :=
  match l with
  | [] => []
  | y :: l' => if str_eqb (fst prev) (fst y) then skip_same y l' else y :: skip_same y l'
  end.

Definition unique_types (l : list (str * str)) : list (str * str) :=
  match l with
  | [] => []
  | x :: l' => x :: skip_same x l'
  end.

(** get_type_info, command_line.hpp:397-414, without the unused elements of the array,
    which are not printed (maike.cpp:136). *)
Definition used_types (table : list opt_info) : list (str * str) :=
  unique_types (insertion_sort type_less (flat_map (fun x => match info_type x with Some t => [t] | None => [] end) table)).

(** The entry for an option, maike.cpp:112-124 *)
Definition option_entry (x : opt_info) : str :=
  match info_type x with
  | None => info_name x ++ line_end ++ lit ": " ++ info_summary x ++ line_end ++ line_end
  | Some (t, _) =>
      if info_required x
      then info_name x ++ lit "=*" ++ t ++ lit "*" ++ line_end ++ lit ": " ++ info_summary x ++ line_end ++ line_end
      else info_name x ++ lit "[=*" ++ t ++ lit "*]" ++ line_end ++ lit ": " ++ info_summary x ++ line_end ++ line_end
  end.

(** maike.cpp:104-126; [category] is that of the previous option *)
Fixpoint option_entries (category : option str) (l : list opt_info) : str :=
  match l with
  | [] => []
  | x :: l' =>
      (if match category with Some c => str_eqb c (info_category x) | None => false end then []
       else line_end ++ lit "## " ++ info_category x ++ line_end ++ line_end)
      ++ option_entry x ++ option_entries (Some (info_category x)) l'
  end.

(** maike.cpp:135-137 *)
Definition type_entry (t : str * str) : str :=
  line_end ++ lit "### " ++ fst t ++ line_end ++ line_end ++ snd t ++ line_end ++ line_end.

(** printHelp, maike.cpp:96-139, for a table with at least one option *)
Definition help_text (table : list opt_info) : str :=
  line_end ++ lit "Below is a summary of all command line options. For information about how to type arguments, see *Parameter type explanations* below."
  ++ line_end ++ option_entries None (insertion_sort info_less table)
  ++ line_end ++ lit "___" ++ line_end ++ line_end ++ lit "## Parameter type explanations" ++ line_end ++ line_end
  ++ lit "This section contains summaries of different parameter types." ++ line_end ++ line_end
  ++ flat_map type_entry (used_types table).

(** ** The options of the program *)

(** CmdLineOptionTraits::category, bin/cmd_line_options.hpp:51-664 *)
Definition option_category (o : cmd_option) : str :=
  lit match o with
      | Help | Version | About => "Program information"
      | PrintDepGraph | PrintDepGraphInv | DumpDatabase | ListTargets | ListExternalDeps => "Database queries"
      | Targets | SourceDir | TargetDir | BuildId | StartTime => "Job parameters"
      | ConfigFiles | ConfigDump | ConfigDefault => "Configuration"
      | NumWorkers | DryRun | ForceRebuild => "Processing options"
      | LogLevel | LogOutputFormat => "Logging options"
      end%string.

(** typeToString for CmdLineOptionTraits::type: command_line.hpp:20-53, build/id.hpp:57-60,
    utils/system_time_stamp.hpp:44-47, sched/thread_count.hpp:47-50,
    db/compilation_log.hpp:58-61, db/log_format.hpp:26-29 *)
Definition option_type (o : cmd_option) : option str :=
  option_map lit match o with
      | Targets | ConfigFiles => Some "Paths"
      | ConfigDefault | DryRun | ForceRebuild => None
      | BuildId => Some "Build id"
      | StartTime => Some "Timestamp"
      | NumWorkers => Some "Thread count"
      | LogLevel => Some "Log level"
      | LogOutputFormat => Some "Output format"
      | _ => Some "Path"
      end%string.

(** The table, command_line.hpp:316-344, where the summaries of options and the
    descriptions of types are parameters *)
Definition help_table (summary : cmd_option -> str) (explain : str -> str) : list opt_info :=
  map (fun o => mk_opt_info (option_category o) (option_name o) (option_map (fun t => (t, explain t)) (option_type o))
                            (summary o) (option_value_required o)) all_options.
