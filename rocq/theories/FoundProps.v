(** Property C79: what a source file says is found. *)

From Coq Require Import Ascii String ZArith NArith Bool Lia.
From Coq Require Import List.
From Verif Require Import Str Path JsonModel DbModel LoadModel LexModel LexSpec LexCheck JLoadModel CfgModel CfgSpec KindModel KindSpec FoundSpec FoundProofs LoadSpec.
From Verif Require JLoadSpec JLoadProofs.
Import ListNotations.

(** C79. [o] is the JSON object at the beginning of the tags in the file [f], in the
    directory [d]. It ends with a curly bracket, and the decoder accepts it. If it
    declares a target, then the target is known, and belongs in the corresponding
    directory. Missing: C++ files that are not tame, unusual control characters, and
    tags after the first object. *)
Theorem C79_targets_partial :
  forall (S : Type) (dec : decoder S json) (size : nat) search print resolve configure script_tags (cfg : config) m
         (s t : path) (d : list str) (f text : str) info k c (p q : str) (o : compound) (x : list str),
    0 < size -> skips_white dec ->
    increasing (file_info_loaders (tree_loader cfg)) -> increasing (info_loaders cfg) -> map_loaders cfg = Some m ->
    directory_ok s -> directory_ok t -> Forall ordinary d -> handled_by cfg f (k, c) ->
    usual_blanks text -> first_tags k text (p ++ "}"%char :: q) -> JLoadSpec.text_of dec (p ++ ["}"%char]) (JObject o) ->
    declares o (spelled x) -> Forall ordinary x -> x <> [] ->
    load_configured search print (append (inside s d) (mk_path false [f])) s t (load_compound dec size) resolve configure script_tags
      (dir_compiler cfg) m (Some text) = Some info ->
    exists ti, In ti (targets info) /\ ti_name ti = inside t (d ++ x).
Proof. intros S dec. exact (declared_found dec). Qed.
Print Assumptions C79_targets_partial.

(** The file depends on what it includes. *)
Theorem C79_includes_partial :
  forall search print parse resolve configure script_tags (cfg : config) m (s t : path) (d : list str) (f : str)
         (l : list item) info ps c i p o,
    increasing (file_info_loaders (tree_loader cfg)) -> increasing (info_loaders cfg) -> map_loaders cfg = Some m ->
    directory_ok s -> directory_ok t -> Forall ordinary d -> handled_by cfg f (KCxx ps, c) ->
    cxx_source l -> tame l -> In i (includes l) ->
    leads_to (fun name => existsb (fun r => search r name) ps) s t d i p o ->
    load_configured search print (append (inside s d) (mk_path false [f])) s t parse resolve configure script_tags
      (dir_compiler cfg) m (Some (render l)) = Some info ->
    In (mk_dependency None p o []) (use_deps info).
Proof. exact includes_found. Qed.
Print Assumptions C79_includes_partial.

(** Tags that are some other JSON value are not ignored: the file can not be loaded. *)
Theorem C79_not_object :
  forall (S : Type) (dec : decoder S json) (size : nat) search print resolve configure script_tags (cfg : config) m
         (s t : path) (d : list str) (f text : str) k c (p : str) (e : ascii) (q : str) (v : json),
    0 < size -> skips_white dec ->
    increasing (file_info_loaders (tree_loader cfg)) -> increasing (info_loaders cfg) -> map_loaders cfg = Some m ->
    handled_by cfg f (k, c) ->
    usual_blanks text -> first_tags k text (p ++ e :: q) -> JLoadSpec.closing e -> JLoadSpec.text_of dec (p ++ [e]) v ->
    (forall o, v <> JObject o) ->
    load_configured search print (append (inside s d) (mk_path false [f])) s t (load_compound dec size) resolve configure script_tags
      (dir_compiler cfg) m (Some text) = None.
Proof. intros S dec. exact (not_object_rejected dec). Qed.
Print Assumptions C79_not_object.

(** ** Examples and refutations *)

Local Open Scope string_scope.
Local Open Scope list_scope.

Definition cxx_compiler : compiler := mk_compiler empty_path None [] false.

Definition cxx_config : config :=
  mk_config (mk_tree_config [] [] [(lit ".cpp", lit "cxx")] true) [(lit "cxx", (KCxx [], cxx_compiler))] no_compiler.

Definition cxx_loaders : list (str * (loader_kind * compiler)) := [(lit ".cpp", (KCxx [], cxx_compiler))].

Example cxx_mapped : map_loaders cxx_config = Some cxx_loaders.
Proof. reflexivity. Qed.

Lemma cxx_handled : handled_by cxx_config (lit "a.cpp") (KCxx [], cxx_compiler).
Proof.
  exists (lit ".cpp"). split; [|split].
  - exists (lit "a"), (lit "cpp"). split; [reflexivity|]. split; [reflexivity|]. split; [discriminate|]. split; [discriminate|].
    intros (X & _). discriminate X.
  - exists (lit "cxx"). split; now left.
  - intros e' l' _ (n & I & _). destruct I as [I|[]]. injection I as <- _. apply le_n.
Qed.

Definition object_a : compound := [(lit "target", JObject [(lit "name", JString (lit "a.o"))])].

(** A decoder for the following examples: it skips white space, and takes a text of the
    given length to be the one of [v]. *)
Definition takes_value (n : nat) (v : json) : decoder nat json :=
  mk_decoder n
    (fun st x =>
       match x with
       | None => Failed
       | Some c =>
           if Nat.eqb st n && existsb (Ascii.eqb c) [" "; "009"; "010"; "013"]%char then Continue st
           else if Ascii.eqb c (ascii_of_nat 12) then Failed
           else match st with
                | S (S k) => Continue (S k)
                | _ => Decoded v
                end
       end).

Definition takes (n : nat) (o : compound) : decoder nat json := takes_value n (JObject o).

Definition a_cpp : list item :=
  [LineComment (lit "@{""target"":"); Newline; LineComment (lit "@  {""name"":""a.o""}}"); Newline;
   Include [] (lit " ") false (lit "./b.hpp"); Newline; Include [] (lit " ") true (lit "vector"); Newline; Code (lit "x"); Newline].

Definition a_tags : list str := [lit "   {""target"":"; lit "     {""name"":""a.o""}}"].

Example a_source : cxx_source a_cpp /\ tame a_cpp.
Proof. split; [apply check_source|apply tameb_ok]; vm_compute; reflexivity. Qed.

Example a_first_tags : first_tags (KCxx []) (render a_cpp) (join_lines a_tags).
Proof.
  apply (tags_of_source [] a_cpp 0 a_tags [None; None; None; None]); [apply a_source|apply a_source|reflexivity|discriminate].
Qed.

Definition a_decoder : decoder nat json := takes (length (join_lines a_tags) - 3) object_a.

Example a_skips : skips_white a_decoder.
Proof. intros c H. repeat (destruct H as [<- | H]; [reflexivity|]). destruct H. Qed.

Definition a_front : str := removelast (join_lines a_tags).

Example a_object : JLoadSpec.text_of a_decoder (a_front ++ ["}"%char]) (JObject object_a).
Proof.
  exists a_front, "}"%char, 1. split; [reflexivity|]. split; [|reflexivity].
  apply JLoadProofs.feed_all_reads. vm_compute. reflexivity.
Qed.

Lemma ordinary_check (c : str) :
  negb (str_eqb c []) && negb (str_eqb c dot) && negb (str_eqb c dotdot) && forallb (fun x => negb (Ascii.eqb x "/")) c = true -> ordinary c.
Proof.
  rewrite !andb_true_iff, !negb_true_iff, forallb_forall. intros (((A & B) & C) & D).
  repeat split; try (intros ->; discriminate). intro I. apply D in I. discriminate I.
Qed.

Lemma usual_check (text : str) :
  forallb (fun c => implb (is_space c) (existsb (Ascii.eqb c) [" "; "009"; "010"; "013"]%char)) text = true -> usual_blanks text.
Proof.
  rewrite forallb_forall. intros F c I B. specialize (F c I). rewrite B in F. cbn [implb] in F.
  apply existsb_exists in F. destruct F as (y & Y & E). apply Ascii.eqb_eq in E. subst y. exact Y.
Qed.

Lemma out_ok : directory_ok (mk_path false [lit "out"]).
Proof.
  right. split; [|right; discriminate]. exists 0, [lit "out"]. repeat split. constructor; [apply ordinary_check; reflexivity|constructor].
Qed.

(** A rule file with the text "[1]" *)
Definition rule_config : config :=
  mk_config (mk_tree_config [] [] [(lit ".rule", lit "rule")] true) [(lit "rule", (KMaikerule, cxx_compiler))] no_compiler.

Example rule_rejected : load_configured (fun _ _ => false) (fun _ => []) (append (inside (mk_path false [dot]) []) (mk_path false [lit "a.rule"]))
    (mk_path false [dot]) (mk_path false [lit "out"])
    (load_compound (takes_value 3 (JArray [JNull])) 16) (fun _ => None) (fun _ _ => None) (fun _ _ => None) (dir_compiler rule_config)
    [(lit ".rule", (KMaikerule, cxx_compiler))] (Some (lit "[1]")) = None.
Proof.
  apply (C79_not_object nat (takes_value 3 (JArray [JNull])) 16 (fun _ _ => false) (fun _ => []) (fun _ => None) (fun _ _ => None) (fun _ _ => None)
             rule_config [(lit ".rule", (KMaikerule, cxx_compiler))] (mk_path false [dot]) (mk_path false [lit "out"]) [] (lit "a.rule") (lit "[1]")
             KMaikerule cxx_compiler (lit "[1") "]"%char [] (JArray [JNull])).
  - lia.
  - intros c H. repeat (destruct H as [<- | H]; [reflexivity|]). destruct H.
  - repeat constructor.
  - repeat constructor.
  - reflexivity.
  - exists (lit ".rule"). split; [|split].
    + exists (lit "a"), (lit "rule"). split; [reflexivity|]. split; [reflexivity|]. split; [discriminate|].
      split; intro X; [discriminate X|destruct X as [X _]; discriminate X].
    + exists (lit "rule"). split; left; reflexivity.
    + intros e' l' _ (n & I & _). destruct I as [I|[]]. injection I as <- _. apply le_n.
  - apply usual_check. reflexivity.
  - apply (tags_of_rules KMaikerule [] (lit "[1]")); [tauto|constructor].
  - right. now left.
  - exists (lit "[1"), "]"%char, 1. split; [reflexivity|]. split; [|reflexivity]. apply JLoadProofs.feed_all_reads. reflexivity.
  - discriminate.
Qed.

(** a.cpp in the directory lib *)
Example a_loaded : exists info,
    load_configured (fun _ _ => false) (fun _ => []) (mk_path false [lit "lib"; lit "a.cpp"]) (mk_path false [dot]) (mk_path false [lit "out"])
      (load_compound a_decoder 16) (fun _ => None) (fun _ _ => None) (fun _ _ => None) no_compiler cxx_loaders (Some (render a_cpp)) = Some info /\
    (exists ti, In ti (targets info) /\ ti_name ti = mk_path false [lit "out"; lit "lib"; lit "a.o"]) /\
    In (mk_dependency None (mk_path false [lit "lib"; lit "b.hpp"]) Project []) (use_deps info) /\
    In (mk_dependency None (mk_path false [lit "vector"]) System []) (use_deps info).
Proof.
  assert (forall x, In x [lit "lib"; lit "a.o"; lit "b.hpp"] -> ordinary x) as O.
  { intros x I. repeat (destruct I as [<- | I]; [apply ordinary_check; reflexivity|]). destruct I. }
  destruct (load_configured (fun _ _ => false) (fun _ => []) (mk_path false [lit "lib"; lit "a.cpp"]) (mk_path false [dot]) (mk_path false [lit "out"])
      (load_compound a_decoder 16) (fun _ => None) (fun _ _ => None) (fun _ _ => None) no_compiler cxx_loaders (Some (render a_cpp)))
    as [info|] eqn:L; [|vm_compute in L; discriminate L].
  exists info. split; [reflexivity|]. split; [|split].
  - apply (C79_targets_partial nat a_decoder 16 (fun _ _ => false) (fun _ => []) (fun _ => None) (fun _ _ => None) (fun _ _ => None)
             cxx_config cxx_loaders (mk_path false [dot]) (mk_path false [lit "out"]) [lit "lib"] (lit "a.cpp") (render a_cpp) info
             (KCxx []) cxx_compiler a_front [] object_a [lit "a.o"]).
    + lia.
    + exact a_skips.
    + repeat constructor.
    + repeat constructor.
    + reflexivity.
    + now left.
    + exact out_ok.
    + repeat constructor; apply O; cbn; tauto.
    + exact cxx_handled.
    + apply usual_check. vm_compute. reflexivity.
    + exact a_first_tags.
    + exact a_object.
    + exists [(lit "name", JString (lit "a.o"))]. split; [reflexivity|left; reflexivity].
    + repeat constructor; apply O; cbn; tauto.
    + discriminate.
    + exact L.
  - apply (C79_includes_partial (fun _ _ => false) (fun _ => []) (load_compound a_decoder 16) (fun _ => None) (fun _ _ => None) (fun _ _ => None)
             cxx_config cxx_loaders (mk_path false [dot]) (mk_path false [lit "out"]) [lit "lib"] (lit "a.cpp") a_cpp info
             [] cxx_compiler (false, lit "./b.hpp")); try apply a_source; try apply out_ok; try exact L.
    + repeat constructor.
    + repeat constructor.
    + reflexivity.
    + now left.
    + repeat constructor; apply O; cbn; tauto.
    + exact cxx_handled.
    + cbn. tauto.
    + apply (to_local (fun _ => existsb (fun _ : str => false) []) (mk_path false [dot]) (mk_path false [lit "out"]) [lit "lib"] [lit "b.hpp"]); [reflexivity|repeat constructor; apply O; cbn; tauto|discriminate].
  - apply (C79_includes_partial (fun _ _ => false) (fun _ => []) (load_compound a_decoder 16) (fun _ => None) (fun _ _ => None) (fun _ _ => None)
             cxx_config cxx_loaders (mk_path false [dot]) (mk_path false [lit "out"]) [lit "lib"] (lit "a.cpp") a_cpp info
             [] cxx_compiler (true, lit "vector")); try apply a_source; try apply out_ok; try exact L.
    + repeat constructor.
    + repeat constructor.
    + reflexivity.
    + now left.
    + repeat constructor; apply O; cbn; tauto.
    + exact cxx_handled.
    + cbn. tauto.
    + apply (to_system (fun _ => existsb (fun _ : str => false) []) (mk_path false [dot]) (mk_path false [lit "out"]) [lit "lib"] (lit "vector")).
Qed.

Definition load_example (parse : str -> option compound) (l : list item) : option source_file_info :=
  load_configured (fun _ _ => false) (fun _ => []) (mk_path false [dot; lit "a.cpp"]) (mk_path false [dot]) (mk_path false [lit "out"])
    parse (fun _ => None) (fun _ _ => None) (fun _ _ => None) no_compiler cxx_loaders (Some (render l)).

(** Two objects with tags. Only the first is used, and nobody is told. *)
Theorem C79_second_object_refuted : exists l first second, cxx_source l /\ tame l /\ usual_blanks (render l) /\
  tag_comments (Some []) l = [Some first; Some second; None] /\
  forall (S : Type) (dec : decoder S json) size, 0 < size -> skips_white dec ->
    JLoadSpec.text_of dec first (JObject object_a) ->
    exists info, load_example (load_compound dec size) l = Some info /\
      targets info = [mk_target_info (mk_path false [lit "out"; lit "a.o"]) []].
Proof.
  exists [LineComment (lit "@{""target"":{""name"":""a.o""}}"); Newline; LineComment (lit "@{""target"":{""name"":""b.o""}}"); Newline],
    (lit "   {""target"":{""name"":""a.o""}}"), (lit "   {""target"":{""name"":""b.o""}}").
  split; [apply check_source; vm_compute; reflexivity|]. split; [apply tameb_ok; vm_compute; reflexivity|].
  split; [apply usual_check; vm_compute; reflexivity|].
  split; [reflexivity|]. intros S dec size Z K T.
  assert (load_compound dec size (lit "   {""target"":{""name"":""a.o""}}" ++ newline :: lit "   {""target"":{""name"":""b.o""}}" ++ [newline]) = Some object_a) as P.
  { change (lit "   {""target"":{""name"":""a.o""}}") with (lit "   {""target"":{""name"":""a.o""}" ++ ["}"%char]) in *.
    rewrite <- app_assoc. apply (decoded dec size []); auto. }
  unfold load_example. rewrite (parsed_once _ _ _ _ _ (load_compound dec size) _ _ _ _ _ _ (KCxx []) cxx_compiler (Some object_a)).
  - vm_compute. eexists. split; reflexivity.
  - reflexivity.
  - rewrite <- P. f_equal.
Qed.
Print Assumptions C79_second_object_refuted.

(** A form feed in front of the tags: they are discarded, and nobody is told. *)
Theorem C79_form_feed_refuted : exists l tags, cxx_source l /\ tame l /\ tag_comments (Some []) l = [None; Some tags; None] /\
  forall (S : Type) (dec : decoder S json) size, 3 <= size -> JLoadSpec.text_of dec tags (JObject object_a) ->
    feed dec (initial dec) (Some (ascii_of_nat 12)) = Failed ->
    exists info, load_example (load_compound dec size) l = Some info /\ targets info = [].
Proof.
  exists [Blank (ascii_of_nat 12); Newline; LineComment (lit "@{""target"":{""name"":""a.o""}}"); Newline], (lit "   {""target"":{""name"":""a.o""}}").
  split; [apply check_source; vm_compute; reflexivity|]. split; [apply tameb_ok; vm_compute; reflexivity|].
  split; [reflexivity|]. intros S dec size Z T F.
  assert (load_compound dec size (ascii_of_nat 12 :: newline :: lit "   {""target"":{""name"":""a.o""}}" ++ [newline]) = Some []) as P.
  { destruct size as [|[|[|size]]]; try lia. unfold load_compound, json_load.
    match goal with |- context [load_loop dec (Datatypes.S ?n) _ _ ?text _] => set (fuel := n); set (rest := text) end. clearbody fuel.
    cbn [load_loop].
    assert (fetch (Datatypes.S (Datatypes.S (Datatypes.S size))) rest = Some ([ascii_of_nat 12; newline; " "%char], lit "  {""target"":{""name"":""a.o""}}" ++ [newline]))
      as -> by reflexivity.
    cbn [feed_all]. rewrite F. reflexivity. }
  unfold load_example. rewrite (parsed_once _ _ _ _ _ (load_compound dec size) _ _ _ _ _ _ (KCxx []) cxx_compiler (Some [])).
  - vm_compute. eexists. split; reflexivity.
  - reflexivity.
  - rewrite <- P. f_equal.
Qed.
Print Assumptions C79_form_feed_refuted.
