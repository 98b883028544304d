(** Property C78: the results of files that are handled by a generic loader. *)

From Coq Require Import Ascii String ZArith NArith Bool Lia.
From Coq Require Import List.
From Verif Require Import Str Path JsonModel DbModel ValueModel LoadModel RecipeSpec RecipeProofs CfgModel CfgSpec KindModel KindSpec KindProofs LoadSpec.
Import ListNotations.

(** C78. The file [f] in the directory [d] has one result, whatever is in the file. It is
    at the same location in the target directory, and its name [n] follows from the
    configuration. Missing: files with a name that is not text. *)
Theorem C78_one_result_partial :
  forall search print parse resolve configure script_tags (cfg : config) m (s t : path) (d : list str) (f text ext : str) mode c n,
    reads_back parse print ->
    increasing (file_info_loaders (tree_loader cfg)) -> increasing (info_loaders cfg) -> map_loaders cfg = Some m ->
    directory_ok s -> directory_ok t -> Forall ordinary d -> ordinary f ->
    handled_by cfg f (KGeneric ext mode, c) -> use_get_tags c = false ->
    result_name f ext mode n -> ordinary n -> is_text n ->
    exists info,
      load_configured search print (append (inside s d) (mk_path false [f])) s t parse resolve configure script_tags
        (dir_compiler cfg) m (Some text) = Some info /\
      targets info = [mk_target_info (inside t (d ++ [n])) []] /\
      compiler_default info = Some c /\ si_compiler info = no_compiler /\
      (forall x, In x (use_deps info) -> dep_name x = inside s d \/ dep_name x = recipe c).
Proof. exact generic_loaded. Qed.
Print Assumptions C78_one_result_partial.

(** A file with a name that is not text makes the project impossible to load. *)
Theorem C78_not_text :
  forall search print parse resolve configure script_tags (cfg : config) m (s t : path) (d : list str) (f text ext : str) mode c n,
    reads_back parse print ->
    increasing (file_info_loaders (tree_loader cfg)) -> increasing (info_loaders cfg) -> map_loaders cfg = Some m ->
    ordinary f -> handled_by cfg f (KGeneric ext mode, c) ->
    result_name f ext mode n -> ordinary n -> ~ is_text n ->
    load_configured search print (append (inside s d) (mk_path false [f])) s t parse resolve configure script_tags
      (dir_compiler cfg) m (Some text) = None.
Proof. exact generic_not_text. Qed.
Print Assumptions C78_not_text.

(** If the extension is appended, different files have different results. *)
Theorem C78_apart : forall (t : path) (d1 d2 : list str) (f1 f2 ext n1 n2 : str),
    Forall ordinary d1 -> Forall ordinary d2 ->
    result_name f1 ext Append n1 -> result_name f2 ext Append n2 -> ordinary n1 -> ordinary n2 ->
    inside t (d1 ++ [n1]) = inside t (d2 ++ [n2]) -> d1 = d2 /\ f1 = f2.
Proof. exact append_apart. Qed.
Print Assumptions C78_apart.

(** What has been configured for a generic loader. The extension is appended, unless
    the configuration says otherwise. *)
Theorem C78_configured : forall regex_ok (o g : compound) (k : loader_kind) (c : compiler),
    loader_of_json regex_ok (JObject o) = Some (k, c) ->
    obj_get (lit "loader") o = Some (JString (lit "generic")) -> obj_get (lit "config") o = Some (JObject g) ->
    exists ext mode, k = KGeneric ext mode /\ obj_get (lit "target_filename_ext") g = Some (JString ext) /\
      (mode = Replace <-> obj_get (lit "filename_ext_replacement_mode") g = Some (JString (lit "replace"))).
Proof. exact generic_configured. Qed.
Print Assumptions C78_configured.

(** ** Examples and refutations *)

Local Open Scope string_scope.
Local Open Scope list_scope.

Definition html_compiler : compiler := mk_compiler (mk_path true [lit "usr"; lit "md2html.py"]) (Some System) [] false.

(** Texts are made to HTML. *)
Definition html_config (mode : ext_mode) : config :=
  mk_config (mk_tree_config [] [] [(lit ".rst", lit "html"); (lit ".txt", lit "html")] true)
    [(lit "html", (KGeneric (lit ".html") mode, html_compiler))] no_compiler.

Definition html_loaders (mode : ext_mode) : list (str * (loader_kind * compiler)) :=
  [(lit ".rst", (KGeneric (lit ".html") mode, html_compiler)); (lit ".txt", (KGeneric (lit ".html") mode, html_compiler))].

Example html_mapped mode : map_loaders (html_config mode) = Some (html_loaders mode).
Proof. reflexivity. Qed.

Lemma html_sorted mode : increasing (file_info_loaders (tree_loader (html_config mode))) /\ increasing (info_loaders (html_config mode)).
Proof. split; repeat constructor. Qed.

Lemma html_handled mode e stem : (e = lit ".rst" \/ e = lit ".txt") -> stem <> [] -> stem <> lit "." ->
  handled_by (html_config mode) (stem ++ e) (KGeneric (lit ".html") mode, html_compiler).
Proof.
  intros E N1 N2. exists e. split; [|split].
  - destruct E as [-> | ->]; [exists stem, (lit "rst")|exists stem, (lit "txt")]; 
      (split; [reflexivity|split; [reflexivity|split; [exact N1|split]]]);
      try (intros (X & _); contradiction); intro X; apply (f_equal (@length ascii)) in X; rewrite app_length in X; cbn in X; lia.
  - exists (lit "html"). split; [|now left]. destruct E as [-> | ->]; [left|right; left]; reflexivity.
  - intros e' l' _ (n & I & _). destruct I as [I|[I|[]]]; injection I as <- _; destruct E as [-> | ->]; apply le_n.
Qed.

Lemma name_ok (s : string) : List.forallb (fun c => negb (Ascii.eqb c "/")) (lit s) = true ->
  lit s <> [] -> lit s <> lit "." -> lit s <> lit ".." -> ordinary (lit s).
Proof.
  intros H A B C. repeat split; auto. intro I. rewrite forallb_forall in H. apply H in I. discriminate I.
Qed.
Ltac name_ok := apply name_ok; [reflexivity|discriminate..].

Lemma text_ok (s : string) vs : List.forallb (fun v => N.ltb v 128) vs = true -> lit s = concat (map utf8_encode vs) -> is_text (lit s).
Proof.
  intros H E. exists vs. split; [|exact E]. rewrite forallb_forall in H. apply Forall_forall. intros v I. left.
  apply H, N.ltb_lt in I. eapply N.lt_trans; [exact I|reflexivity].
Qed.

(** doc/a.txt gives doc/a.txt.html. *)
Example appended : forall search print parse resolve configure script_tags text, reads_back parse print -> exists info,
    load_configured search print (parse_path (lit "doc/a.txt")) (parse_path (lit ".")) (parse_path (lit "out"))
      parse resolve configure script_tags no_compiler (html_loaders Append) (Some text) = Some info /\
    targets info = [mk_target_info (parse_path (lit "out/doc/a.txt.html")) []].
Proof.
  intros search print parse resolve configure script_tags text RB.
  destruct (C78_one_result_partial search print parse resolve configure script_tags (html_config Append) (html_loaders Append)
              (mk_path false [dot]) (mk_path false [lit "out"]) [lit "doc"] (lit "a.txt") text (lit ".html") Append html_compiler
              (lit "a.txt.html")) as (info & L & T & _).
  - exact RB.
  - apply html_sorted.
  - apply html_sorted.
  - reflexivity.
  - left. reflexivity.
  - right. split; [|right; discriminate]. exists 0, [lit "out"]. repeat split. constructor; [name_ok|constructor].
  - constructor; [name_ok|constructor].
  - name_ok.
  - apply (html_handled Append (lit ".txt") (lit "a")); [right; reflexivity|discriminate..].
  - reflexivity.
  - apply (result_appended (lit "a.txt") (lit ".html")).
  - name_ok.
  - apply (text_ok _ [97; 46; 116; 120; 116; 46; 104; 116; 109; 108]%N); reflexivity.
  - exists info. split; [exact L|exact T].
Qed.

(** If the extension is replaced, it may happen that there is one result for several
    files. *)
Theorem C78_apart_refuted : exists cfg m f1 f2, map_loaders cfg = Some m /\ f1 <> f2 /\
  forall search print parse resolve configure script_tags text, reads_back parse print ->
    exists i1 i2,
      load_configured search print (mk_path false [dot; f1]) (mk_path false [dot]) (mk_path false [lit "out"])
        parse resolve configure script_tags (dir_compiler cfg) m (Some text) = Some i1 /\
      load_configured search print (mk_path false [dot; f2]) (mk_path false [dot]) (mk_path false [lit "out"])
        parse resolve configure script_tags (dir_compiler cfg) m (Some text) = Some i2 /\
      targets i1 = [mk_target_info (mk_path false [lit "out"; lit "a.html"]) []] /\ targets i2 = targets i1.
Proof.
  exists (html_config Replace), (html_loaders Replace), (lit "a.rst"), (lit "a.txt").
  split; [reflexivity|]. split; [discriminate|].
  intros search print parse resolve configure script_tags text RB.
  assert (forall e, (e = "rst" \/ e = "txt")%string -> exists i,
    load_configured search print (append (mk_path false [dot]) (mk_path false [lit "a." ++ lit e])) (mk_path false [dot]) (mk_path false [lit "out"])
      parse resolve configure script_tags no_compiler (html_loaders Replace) (Some text) = Some i /\
    targets i = [mk_target_info (mk_path false [lit "out"; lit "a.html"]) []]) as H.
  { intros e E.
    destruct (C78_one_result_partial search print parse resolve configure script_tags (html_config Replace) (html_loaders Replace)
                (mk_path false [dot]) (mk_path false [lit "out"]) [] (lit "a." ++ lit e) text (lit ".html") Replace html_compiler
                (lit "a" ++ lit ".html")) as (info & L & T & _).
    - exact RB.
    - apply html_sorted.
    - apply html_sorted.
    - reflexivity.
    - left. reflexivity.
    - right. split; [|right; discriminate]. exists 0, [lit "out"]. repeat split. constructor; [name_ok|constructor].
    - constructor.
    - destruct E as [-> | ->]; [apply (name_ok "a.rst")|apply (name_ok "a.txt")]; try reflexivity; discriminate.
    - destruct E as [-> | ->]; [apply (html_handled Replace (lit ".rst") (lit "a"))|apply (html_handled Replace (lit ".txt") (lit "a"))];
        [left; reflexivity|discriminate|discriminate|right; reflexivity|discriminate|discriminate].
    - reflexivity.
    - apply result_replaced.
      + exists (lit e). split; [reflexivity|]. split; [discriminate|]. destruct E as [-> | ->]; cbn; intuition discriminate.
      + apply (dotted_already (lit ".html") (lit "html")). reflexivity.
    - apply (name_ok "a.html"); [reflexivity|discriminate..].
    - apply (text_ok "a.html" [97; 46; 104; 116; 109; 108]%N); reflexivity.
    - exists info. split; [exact L|exact T]. }
  destruct (H "rst"%string (or_introl eq_refl)) as (i1 & L1 & T1). destruct (H "txt"%string (or_intror eq_refl)) as (i2 & L2 & T2).
  exists i1, i2. split; [exact L1|]. split; [exact L2|]. split; [exact T1|]. congruence.
Qed.
Print Assumptions C78_apart_refuted.

(** A file with a name in Latin-1, which is not text: the project is not loaded. *)
Theorem C78_one_result_refuted : exists cfg m f, map_loaders cfg = Some m /\ ordinary f /\
  handled_by cfg f (KGeneric (lit ".html") Append, html_compiler) /\
  forall search print parse resolve configure script_tags text, reads_back parse print ->
    load_configured search print (mk_path false [dot; f]) (mk_path false [dot]) (mk_path false [lit "out"])
      parse resolve configure script_tags (dir_compiler cfg) m (Some text) = None.
Proof.
  exists (html_config Append), (html_loaders Append), (ascii_of_nat 233 :: lit ".txt").
  assert (ordinary (ascii_of_nat 233 :: lit ".txt")) as O.
  { repeat split; try discriminate. cbn. intuition discriminate. }
  assert (handled_by (html_config Append) (ascii_of_nat 233 :: lit ".txt") (KGeneric (lit ".html") Append, html_compiler)) as H.
  { apply (html_handled Append (lit ".txt") [ascii_of_nat 233]); [right; reflexivity|discriminate..]. }
  split; [reflexivity|]. split; [exact O|]. split; [exact H|].
  intros search print parse resolve configure script_tags text RB.
  apply (C78_not_text search print parse resolve configure script_tags (html_config Append) (html_loaders Append)
           (mk_path false [dot]) (mk_path false [lit "out"]) [] (ascii_of_nat 233 :: lit ".txt") text (lit ".html") Append html_compiler
           (ascii_of_nat 233 :: lit ".txt.html")).
  - exact RB.
  - apply html_sorted.
  - apply html_sorted.
  - reflexivity.
  - exact O.
  - exact H.
  - apply (result_appended (ascii_of_nat 233 :: lit ".txt") (lit ".html")).
  - repeat split; try discriminate. cbn. intuition discriminate.
  - intro T. apply json_string_text in T. discriminate T.
Qed.
Print Assumptions C78_one_result_refuted.

Example mode_configured : loader_of_json (fun _ => true)
    (JObject [(lit "loader", JString (lit "generic")); (lit "compiler", JObject [(lit "config", JObject [])]);
              (lit "config", JObject [(lit "target_filename_ext", JString (lit ".html"))])]) =
  Some (KGeneric (lit ".html") Append, mk_compiler empty_path None [] false).
Proof. reflexivity. Qed.
