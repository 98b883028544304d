(** C93: what the program says about itself. *)

From Coq Require Import Ascii String ZArith.
From Coq Require Import List.
From Verif Require Import Str ValueModel ValueSpec AboutModel AboutSpec AboutProofs.
Import ListNotations.

(** The generated file can be compiled. Missing in these theorems: texts with
    quotes, backslashes or line breaks. *)
Theorem C93_compiles_partial : forall a, plain_about a -> exists d, defines (about_file a) d.
Proof. exact about_compiles. Qed.
Print Assumptions C93_compiles_partial.

(** [v] holds the texts that have been compiled into the program. *)
Theorem C93_version_partial : forall a d v,
    plain_about a -> defines (about_file a) d ->
    (forall n x, value_in d n = Some x -> v n = x) ->
    exists start, date_text start (start_time a) /\
      Forall (has_line (print_version v))
        [lit "# Maike " ++ tag a ++ lit " (" ++ commit a ++ lit ")"; lit "Build start time: " ++ start;
         lit "Build id: " ++ about_id a; lit "Build host: " ++ build_host a].
Proof. exact version_shown. Qed.
Print Assumptions C93_version_partial.

Theorem C93_about_partial : forall a d v,
    plain_about a -> defines (about_file a) d ->
    (forall n x, value_in d n = Some x -> v n = x) ->
    exists start holders, date_text start (start_time a) /\
      Forall2 (fun h line => presents decimal (years h) (author h) line) (copyright a) holders /\
      Forall (has_line (print_about v))
        (holders ++
         [lit "# Maike " ++ tag a ++ lit " (" ++ commit a ++ lit ")"; description_short a; license_short a;
          lit "Start time: " ++ start; lit "Id: " ++ about_id a; lit "Build host: " ++ build_host a]).
Proof. exact about_shown. Qed.
Print Assumptions C93_about_partial.

(** A description with quotes gives a file that is not C++. *)
Theorem C93_quote_refuted : exists a, forall d, ~ defines (about_file a) d.
Proof. exact quote_refuted. Qed.
Print Assumptions C93_quote_refuted.

(** A description with a backslash gives a program that shows something else. *)
Theorem C93_backslash_refuted : exists a d x,
    defines (about_file a) d /\ value_in d (lit "DescriptionShort") = Some x /\ x <> description_short a.
Proof. exact backslash_refuted. Qed.
Print Assumptions C93_backslash_refuted.

(** * Examples *)

Local Open Scope string_scope.
Local Open Scope list_scope.

Definition maike_itself : about :=
  mk_about (lit "00ff") 1616915109 (lit "host") (lit "1c84c9b") (lit "v2.0-dirty")
    [mk_holder [2021; 2019]%Z (lit "Author A"); mk_holder [2020]%Z (lit "Author B")]
    (lit "Maike is a build tool") (lit "GPL-3.0").

Example itself_plain : plain_about maike_itself.
Proof.
  split; try (apply plain_lit; reflexivity).
  - constructor; [apply plain_lit; reflexivity|]. constructor; [apply plain_lit; reflexivity|constructor].
  - split; discriminate.
Qed.

Example itself_shown : get_copyright (copyright maike_itself) =
  [lit "© 2019, 2021 : Author A"; lit "© 2020 : Author B"] /\
  format_start (start_time maike_itself) = lit "2021-03-28 07:05:09 UTC".
Proof. split; reflexivity. Qed.
