(** The command line: theorems. *)

From Coq Require Import Ascii String Bool.
From Coq Require Import List.
From Verif Require Import Str ValueModel CmdModel CmdSpec CmdProofs.
Import ListNotations.

(** C34. Decoding always comes to an end. *)
Theorem C34_total : forall s, split_list s <> None.
Proof. intros s H. destruct (split_list_reads s) as (l & E & _). congruence. Qed.
Print Assumptions C34_total.

(** C34. The elements of a list are found, whichever characters are escaped,
    provided that the last element is not empty. *)
Theorem C34_round_trip_partial : forall text l, quoted_list text l -> last l [] <> [] \/ l = [[]] ->
  split_list text = Some l.
Proof. intros text l Q C. apply split_list_iff. now apply quoted_list_reads. Qed.
Print Assumptions C34_round_trip_partial.

(** C34. With a backslash at the end, every list can be passed. *)
Theorem C34_every_list : forall text l, quoted_list text l -> split_list (text ++ ["\"%char]) = Some l.
Proof. intros text l Q. apply split_list_iff. now apply quoted_list_dangling. Qed.
Print Assumptions C34_every_list.

(** C34. Nothing but commas that are not escaped splits the text, and nothing but
    the escape characters is removed, apart from one comma or backslash at the
    end. *)
Theorem C34_nothing_else : forall text l, split_list text = Some l ->
  quoted_list text l \/ exists t, quoted_list t l /\ (text = t ++ ["\"%char] \/ text = t ++ [","%char]).
Proof. intros text l H. apply reads_quoted. now apply split_list_iff. Qed.
Print Assumptions C34_nothing_else.

(** C34. Each element is converted, and one which cannot be converted makes the
    whole list invalid. *)
Theorem C34_elements : forall (T : Type) (convert : str -> option T) s l xs, split_list s = Some l ->
  list_of_string convert s = Some xs <-> Forall2 (fun t x => convert t = Some x) l xs.
Proof. intros T. exact (@list_of_string_iff T). Qed.
Print Assumptions C34_elements.

(** C34. An empty last element is lost. *)
Theorem C34_empty_last_refuted : exists text l, quoted_list text l /\ split_list text <> Some l.
Proof.
  exists (lit "a,"), [lit "a"; []]. split; [|vm_compute; discriminate].
  apply (quoted_cons (lit "a")).
  - apply quoted_plain; [discriminate|discriminate|constructor].
  - constructor. constructor.
Qed.
Print Assumptions C34_empty_last_refuted.

(** C35. If each argument consists of the name of an option and a value that it
    takes, then each option has the value given last, and no other option is
    set. *)
Theorem C35_exact : forall (V : Type) (options : list (opt_item V)) argv choices,
  proper_options options -> Forall2 (selects options) argv choices ->
  exists s, command_line options argv = Some s /\
    forall name value, setting s name = Some value <-> last_choice choices name value.
Proof.
  intros V options argv choices P F. exists (settings_of choices []).
  split; [exact (collect_exact options argv choices P F [])|].
  intros name value. exact (setting_last choices name value).
Qed.
Print Assumptions C35_exact.

(** C35. An argument with the name of an option, and a value that it does not
    take, is an error wherever it occurs. *)
Theorem C35_bad_value : forall (V : Type) (options : list (opt_item V)) argv1 arg argv2 x text,
  proper_options options -> In x options -> gives arg (opt_name x) text ->
  (forall value, ~ takes x text value) ->
  command_line options (argv1 ++ arg :: argv2) = None.
Proof.
  intros V options argv1 arg argv2 x text [N NP] I G T. rewrite Forall_forall in NP.
  destruct (NP x I) as [NN NE].
  apply (collect_reject options argv1 arg argv2 (opt_name x) text []); [exact N|exact G|exact NE| |].
  - destruct G as [[-> _] | ->]; [exact NN|now destruct (opt_name x)].
  - intros y value S. destruct (exact_selected options x N I) as (_ & P & M). destruct S as (IY & PY & MY).
    destruct (M y IY PY) as [-> | B1]; [apply T|].
    destruct (MY x I P) as [-> | B2]; [apply T|]. destruct (before_asym _ _ B1 B2).
Qed.
Print Assumptions C35_bad_value.

(** C35. An argument is an error if no option name begins with the name in it. *)
Theorem C35_unknown_partial : forall (V : Type) (options : list (opt_item V)) argv1 arg argv2 name text,
  proper_options options -> arg <> [] -> gives arg name text -> ~ In "="%char name ->
  (forall x, In x options -> ~ prefix name (opt_name x)) ->
  command_line options (argv1 ++ arg :: argv2) = None.
Proof.
  intros V options argv1 arg argv2 name text [N _] NE G E H.
  apply (collect_reject options argv1 arg argv2 name text []); [exact N|exact G|exact E|exact NE|].
  intros x value (I & P & _). destruct (H x I P).
Qed.
Print Assumptions C35_unknown_partial.

(** C35. Otherwise, it selects the first option in alphabetical order which begins
    with the name. *)
Theorem C35_abbreviation : forall (V : Type) (options : list (opt_item V)) arg name text x value,
  proper_options options -> arg <> [] -> gives arg name text -> ~ In "="%char name ->
  selected options name x -> takes x text value ->
  command_line options [arg] = Some [(opt_name x, value)].
Proof.
  intros V options arg name text x value [N _] NE G E S T.
  exact (collect_single options arg name text x value N G E NE S T).
Qed.
Print Assumptions C35_abbreviation.

(** C35. This is all that can happen: an argument is accepted if it is empty, or selects
    an option which takes the value, ... *)
Theorem C35_accepted : forall (V : Type) (options : list (opt_item V)) argv, proper_options options ->
  command_line options argv <> None <->
  forall arg, In arg argv -> arg = [] \/ exists x text value, picks options arg x text /\ takes x text value.
Proof. intros V options argv [N _]. exact (accepted_iff options argv N). Qed.
Print Assumptions C35_accepted.

(** ... and each option has the value given last. *)
Theorem C35_values : forall (V : Type) (options : list (opt_item V)) argv s x, proper_options options ->
  command_line options argv = Some s -> In x options ->
  forall value, setting s (opt_name x) = Some value <->
    exists argv1 arg text argv2, argv = argv1 ++ arg :: argv2 /\ picks options arg x text /\ takes x text value /\
      forall a t, In a argv2 -> ~ picks options a x t.
Proof. intros V options argv s x [N _]. exact (values_iff options argv s x N). Qed.
Print Assumptions C35_values.

(** The options of the program, with values that are kept as text. *)
Definition text_options : list (opt_item str) := map (fun n => mk_opt_item n false Some) option_names.

(** C35. Arguments without the name of an option are not always rejected, not even
    if there is no name at all. *)
Theorem C35_rejected_refuted :
  exists arg1 arg2 arg3,
    arg1 = lit "--h" /\ command_line text_options [arg1] = Some [(lit "--help", [])] /\
    arg2 = lit "--config=x.json" /\ command_line text_options [arg2] = Some [(lit "--config-default", lit "x.json")] /\
    arg3 = lit "=foo" /\ command_line text_options [arg3] = Some [(lit "--about", lit "foo")].
Proof.
  exists (lit "--h"), (lit "--config=x.json"), (lit "=foo").
  split; [reflexivity|]. split; [vm_compute; reflexivity|].
  split; [reflexivity|]. split; [vm_compute; reflexivity|].
  split; [reflexivity|]. vm_compute. reflexivity.
Qed.
Print Assumptions C35_rejected_refuted.

Local Open Scope string_scope.
Local Open Scope list_scope.

(** Concrete cases. *)
Example text_options_proper : proper_options text_options.
Proof.
  split.
  - repeat (constructor; [cbn; intuition discriminate|]). constructor.
  - repeat (constructor; [split; [discriminate|cbn; intuition discriminate]|]). constructor.
Qed.

(** The name of one option is the beginning of the name of another one. *)
Example graph_options : option_map (fun s => map (setting s) [lit "--print-dep-graph"; lit "--print-dep-graph-inv"; lit "--help"])
    (command_line text_options [lit "--print-dep-graph-inv=x"; lit "--print-dep-graph=y"; lit "--print-dep-graph=z"])
  = Some [Some (lit "z"); Some (lit "x"); None].
Proof. vm_compute. reflexivity. Qed.

Example graph_options_selected :
  Forall2 (selects text_options) [lit "--print-dep-graph-inv=x"; lit "--help"]
    [(mk_opt_item (lit "--print-dep-graph-inv") false Some, lit "x"); (mk_opt_item (lit "--help") false Some, [])].
Proof.
  constructor; [|constructor; [|constructor]].
  - split; [cbn; tauto|]. exists (lit "x"). split; [right; reflexivity|]. split; [left; discriminate|reflexivity].
  - split; [cbn; tauto|]. exists []. split; [left; split; reflexivity|]. split; [right; reflexivity|reflexivity].
Qed.

Example unknown_option : command_line text_options [lit "--help"; lit "--helpme"] = None.
Proof. vm_compute. reflexivity. Qed.

Example bad_count : command_line
    [mk_opt_item (lit "--num-workers") true (fun s => match thread_count_of_string s with Accepted v => Some v | _ => None end)]
    [lit "--num-workers=0"] = None.
Proof. vm_compute. reflexivity. Qed.

Example escaped_comma : split_list (lit "foo\,bar,c\\d,e") = Some [lit "foo,bar"; lit "c\d"; lit "e"].
Proof. vm_compute. reflexivity. Qed.

Example escaped_comma_quoted : quoted_list (lit "foo\,b,c") [lit "foo,b"; lit "c"].
Proof.
  apply (quoted_cons (lit "foo\,b")).
  - repeat (first [apply quoted_plain; [discriminate|discriminate|] | apply quoted_escaped]); constructor.
  - constructor. apply quoted_plain; [discriminate|discriminate|constructor].
Qed.

Example empty_last : split_list (lit "a,\") = Some [lit "a"; []].
Proof. vm_compute. reflexivity. Qed.
