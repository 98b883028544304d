(** Where the configuration comes from, and what it says: theorems. *)

From Coq Require Import Ascii String Bool ZArith.
From Coq Require Import List.
From Verif Require Import Str Path SMap JsonModel DbModel ValueModel FileListModel LoadModel RecipeModel CfgModel CfgSpec CmdModel CmdSpec.
From Verif Require Import SchedModel MainModel MainSpec MainExample JsonSpec ConfSpec ConfProofs.
Import ListNotations.

(** ** C35. The options of the program are the documented ones. *)

Theorem C35_program_options : forall accepts x, In x (option_table accepts) <->
  exists o name use, In (o, (name, use)) documented /\
    x = mk_opt_item (lit name) (match use with Required => true | _ => false end) (option_convert accepts o).
Proof. exact option_table_documented. Qed.
Print Assumptions C35_program_options.

(** Options that are switches have no value. *)
Theorem C35_switches : forall accepts o name, In (o, (name, Without)) documented ->
  forall s, option_convert accepts o s <> None <-> s = [].
Proof. exact without_value. Qed.
Print Assumptions C35_switches.

(** ** C108. The configuration is read from where it should be, and it is the one in use. *)

(** The files that have been chosen are read, in this order, before anything else; no other
    one is. *)
Theorem C108_files : forall env accepts argv, valid accepts argv ->
  (forall o, In o [Help; Version; About] -> ~ given accepts argv o) ->
  exists l rest, chosen_files accepts argv l /\ fst (main env accepts argv) = map ConfigRead l ++ rest /\
    forall e, In e rest -> ~ is_config_read e.
Proof. exact files_read. Qed.
Print Assumptions C108_files.

(** With --configdump, the configuration is printed. *)
Theorem C108_dump : forall env accepts argv, valid accepts argv ->
  (forall o, In o [Help; Version; About] -> ~ given accepts argv o) -> given accepts argv ConfigDump ->
  exists l c, chosen_files accepts argv l /\ chosen_config accepts argv env c /\
    main env accepts argv = (map ConfigRead l ++ [Shown None (ConfigText (dump_config c))], 0%Z).
Proof. exact dumped. Qed.
Print Assumptions C108_dump.

(** The source directory is scanned with the settings of the configuration. Recipes have been
    looked up (C64). *)
Theorem C108_scan : forall env accepts argv s t fs, In (Scanned s t fs) (fst (main env accepts argv)) ->
  exists c c' loaders, chosen_config accepts argv env c /\
    resolve_recipes (env_resolve env s) (env_configure env) c = Some c' /\ map_loaders c' = Some loaders /\
    snd (env_scan env (tree_loader c') loaders (dir_compiler c') s t) = Some fs.
Proof. exact scan_configured. Qed.
Print Assumptions C108_scan.

(** ** C109. Settings in configuration files mean what they say. *)

(** A text is accepted as a configuration iff there are all settings, and the result is what
    they say. *)
Theorem C109_settings : forall (regex_ok : str -> bool) (j : json) (c : config), valid_json j ->
  (config_of_json regex_ok j = Some c <-> config_says regex_ok j c).
Proof. exact config_iff. Qed.
Print Assumptions C109_settings.

(** Without a configuration file, these are the loaders... *)
Theorem C109_default_loaders : forall e k x, loader_for default_config e (k, x) <->
  exists ext r cfg, In (ext, (k, (r, cfg))) usual /\ e = lit ext /\ x = mk_compiler (parse_path (lit r)) None cfg false.
Proof. exact usual_loaders. Qed.
Print Assumptions C109_default_loaders.

(** ...and names that begin with a dot or with two underscores are left out, as are
    subdirectories. *)
Theorem C109_default_scan :
  input_filter (tree_loader default_config) = map lit ["^\."; "^__"]%string /\
  dir_filter (tree_loader default_config) = map lit ["^\."; "^__"]%string /\
  recursive (tree_loader default_config) = false /\
  dir_compiler default_config = mk_compiler (parse_path (lit "make_directory.py")) None [] false.
Proof. repeat split. Qed.
Print Assumptions C109_default_scan.

(** Two of the kinds of loaders in the documentation (doc/maike.doc.xml:272-278), "cxx" and
    "identity", are not accepted: a configuration with them is not used at all. *)
Theorem C109_documented_refuted : forall regex_ok kind, In kind [lit "cxx"; lit "identity"] ->
  forall o l o' name, member o (lit "source_file_info_loaders") (JObject l) -> member l name (JObject o') ->
    member o' (lit "loader") (JString kind) -> valid_json (JObject o) ->
    config_of_json regex_ok (JObject o) = None /\
    fst (load_configuration regex_ok [Some [(lit "maikeconfig", JObject o)]]) = default_config.
Proof.
  intros regex_ok kind K o l o' name L M N V.
  assert (E : config_of_json regex_ok (JObject o) = None).
  { apply (unknown_loader regex_ok _ o l o' name kind eq_refl L M N V).
    destruct K as [<- | [<- | []]]; cbn; intuition discriminate. }
  split; [exact E|]. unfold load_configuration, merge_files. cbn - [config_of_json]. unfold get. cbn - [config_of_json]. now rewrite E.
Qed.
Print Assumptions C109_documented_refuted.

(** ** Examples *)

Local Open Scope string_scope.
Local Open Scope list_scope.

(** Options *)
Example an_option : forall accepts, In (mk_opt_item (lit "--target-dir") true (option_convert accepts TargetDir)) (option_table accepts).
Proof.
  intro accepts. apply C35_program_options. exists TargetDir, "--target-dir", Required. split; [cbn; tauto|reflexivity].
Qed.

(** Files *)
Definition no_information (argv : list str) : bool :=
  match command_line (option_table any_text) argv with
  | Some a => forallb (fun o => negb (has_option a o)) [Help; Version; About]
  | None => false
  end.

Lemma no_information_test argv : no_information argv = true -> forall o, In o [Help; Version; About] -> ~ given any_text argv o.
Proof.
  unfold no_information. intros H o I. destruct (command_line (option_table any_text) argv) as [a|] eqn:E; [|discriminate].
  rewrite forallb_forall in H. specialize (H o I). apply (MainProofs.has_option_not any_text argv a o E).
  destruct (has_option a o); [discriminate|reflexivity].
Qed.

Example two_files : let argv := [lit "--configfiles=a.json,b/c.json"] in
  let env := tiny_env default_target_dir Succeeds in
  valid any_text argv /\ (forall o, In o [Help; Version; About] -> ~ given any_text argv o) /\
  firstn 2 (fst (main env any_text argv)) = map ConfigRead [mk_path false [lit "a.json"]; mk_path false [lit "b"; lit "c.json"]].
Proof.
  cbv zeta. split; [apply valid_test; vm_compute; reflexivity|]. split; [apply no_information_test; vm_compute; reflexivity|].
  vm_compute. reflexivity.
Qed.

Example usual_file : let argv := [lit "--source-dir=src"] in
  let env := tiny_env default_target_dir Succeeds in
  firstn 1 (fst (main env any_text argv)) = [ConfigRead (mk_path false [lit "src"; lit "maikeconfig.json"])].
Proof. vm_compute. reflexivity. Qed.

Example dump_default : let argv := [lit "--config-default"; lit "--configdump"] in
  let env := tiny_env default_target_dir Succeeds in
  main env any_text argv = ([Shown None (ConfigText (dump_config default_config))], 0%Z).
Proof. vm_compute. reflexivity. Qed.

(** A configuration *)
Definition small_json (kind : string) : json :=
  JObject
    [(lit "source_tree_loader", JObject
        [(lit "recursive", JInteger 1);
         (lit "input_filter", JArray [JString (lit "^\.")]);
         (lit "fullpath_input_filter", JArray []);
         (lit "file_info_loaders", JObject [(lit ".png", JString (lit "convert")); (lit ".c", JString (lit "c"))])]);
     (lit "source_file_info_loaders", JObject
        [(lit "convert", JObject
            [(lit "loader", JString (lit "generic"));
             (lit "config", JObject [(lit "target_filename_ext", JString (lit ".jpg"));
                                     (lit "filename_ext_replacement_mode", JString (lit "replace"))]);
             (lit "compiler", JObject [(lit "recipe", JString (lit "png2jpg.py")); (lit "config", JObject [])])]);
         (lit "c", JObject
            [(lit "loader", JString (lit kind));
             (lit "compiler", JObject [(lit "recipe", JString (lit "cc.py")); (lit "use_get_tags", JInteger 2);
                                       (lit "config", JObject [(lit "std", JString (lit "c99"))])])])]);
     (lit "dir_compiler", JObject [(lit "recipe", JString (lit "mkdir.py")); (lit "config", JObject [])])].

Definition small_config : config :=
  mk_config (mk_tree_config [lit "^\."] [] [(lit ".c", lit "c"); (lit ".png", lit "convert")] true)
    [(lit "c", (KCxx [lit ".*\.gen\.hpp$"], mk_compiler (mk_path false [lit "cc.py"]) None [(lit "std", JString (lit "c99"))] true));
     (lit "convert", (KGeneric (lit ".jpg") Replace, mk_compiler (mk_path false [lit "png2jpg.py"]) None [] false))]
    (mk_compiler (mk_path false [lit "mkdir.py"]) None [] false).

Ltac valid :=
  repeat first
  [ apply valid_string; apply CfgProofs.plain_text; reflexivity
  | apply valid_object; [cbn; repeat constructor; cbn; intuition discriminate|
      let k := fresh in let v := fresh in let I := fresh in
      intros k v I; cbn in I; repeat (destruct I as [I | I]; [injection I as <- <-; split; [apply CfgProofs.plain_text; reflexivity|]|]); try destruct I]
  | apply valid_array; let v := fresh in let I := fresh in intros v I; cbn in I; repeat (destruct I as [<- | I]); try destruct I
  | apply valid_other; [cbn; tauto|discriminate] ].

Example small_valid : forall kind, In kind ["cxx_src_loader"; "cxx"] -> valid_json (small_json kind).
Proof. intros kind [<- | [<- | []]]; unfold small_json; valid. Qed.

Example small_says : config_says (fun _ => true) (small_json "cxx_src_loader") small_config.
Proof. apply C109_settings; [apply small_valid; now left|]. vm_compute. reflexivity. Qed.

(** The same configuration, with a loader as in the documentation *)
Example small_documented : config_of_json (fun _ => true) (small_json "cxx") = None.
Proof. vm_compute. reflexivity. Qed.

(** A file for which there is a loader *)
Example cpp_loader : exists x, loader_for default_config (lit ".cpp") (KCxx [lit ".*\.gen\.hpp$"], x) /\ recipe x = mk_path false [lit "cxx_compiler.py"].
Proof.
  eexists. split; [apply C109_default_loaders; do 3 eexists; split; [right; left; reflexivity|split; reflexivity]|reflexivity].
Qed.
