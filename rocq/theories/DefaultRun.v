(** Example projects for the default configuration. *)

From Coq Require Import Ascii String Bool.
From Coq Require Import List.
From Verif Require Import Str Path SMap PathProofs CfgModel ScanModel ScanSpec ScanProofs.
From Verif Require Import DefaultModel DefaultSpec DefaultProofs.
From Verif Require Import LoadSpec.
Import ListNotations.
Local Open Scope string_scope.
Local Open Scope list_scope.

(** regex_search, for the regular expressions of the default configuration *)
Definition prefix_search (r s : str) : bool :=
  if str_eqb r (lit "^\.") then match s with c :: _ => Ascii.eqb c "." | [] => false end
  else if str_eqb r (lit "^__") then match s with c :: d :: _ => Ascii.eqb c "_" && Ascii.eqb d "_" | _ => false end
  else false.

Lemma prefix_search_understands : understands_defaults prefix_search.
Proof.
  split; intro s; unfold prefix_search.
  - change (str_eqb (lit "^\.") (lit "^\.")) with true. cbn iota. split.
    + destruct s as [|c s]; [discriminate|]. intro E. apply Ascii.eqb_eq in E. subst c. now exists s.
    + intros (rest & ->). reflexivity.
  - change (str_eqb (lit "^__") (lit "^\.")) with false. change (str_eqb (lit "^__") (lit "^__")) with true. cbn iota. split.
    + destruct s as [|c [|d s]]; try discriminate. intro E. apply andb_true_iff in E. destruct E as [E F].
      apply Ascii.eqb_eq in E, F. subst c d. now exists s.
    + intros (rest & ->). reflexivity.
Qed.

(** A directory foo with two source files, a subdirectory, a target directory and a hidden file *)
Definition foo_is_directory (p : path) : option bool :=
  let q := path_string (lexically_normal p) in
  Some (str_eqb q (lit "foo") || str_eqb q (lit "foo/lib") || str_eqb q (lit "foo/__targets")).

Definition foo_entries (p : path) : list str * bool :=
  if path_eqb p (parse_path (lit "foo")) then ([lit "main.cpp"; lit "lib"; lit ".git"; lit "__targets"; lit "a.hpp"; lit "__x.cpp"], false)
  else ([], false).

Definition foo_scan (dir : string) (cs : list scan_choice) : option (scan_state nat) :=
  scan_with prefix_search default_config nat foo_is_directory foo_entries (fun p => Some (length (path_string p))) (parse_path (lit dir)) 1 cs.

Definition foo_files (dir : string) (k : nat) : option (scan_main nat) :=
  option_map (@scan_owner nat) (foo_scan dir (repeat (TaskStep 0) k ++ [MainStep])).

Lemma foo_proper : proper_entries foo_entries.
Proof.
  intro dir. unfold foo_entries. destruct (path_eqb dir (parse_path (lit "foo"))); cbn [fst].
  - split; [repeat constructor; try discriminate; simpl; intuition discriminate|repeat constructor; simpl; intuition discriminate].
  - split; constructor.
Qed.

Lemma foo_ok : directory_ok (parse_path (lit "foo")).
Proof.
  right. split; [|right; discriminate]. exists 0, [lit "foo"]. split; [reflexivity|]. split; [|reflexivity]. repeat constructor; try discriminate; simpl; intuition discriminate.
Qed.

Lemma returned (s : option (scan_state nat)) r : option_map (@scan_owner nat) s = Some r ->
  exists st, s = Some st /\ scan_owner st = r.
Proof. destruct s as [st|]; [|discriminate]. intros [= E]. now exists st. Qed.

Lemma foo_dot : option_map (@scan_owner nat)
  (scan_with prefix_search default_config nat foo_is_directory foo_entries (fun p => Some (length (path_string p)))
     (parse_path (lit "./foo")) 1 (repeat (TaskStep 0) 30 ++ [MainStep])) =
  Some (MainReturned [(parse_path (lit "foo"), 5)]).
Proof. vm_compute. reflexivity. Qed.

Lemma dot_hides_files : exists search is_directory entries (loads : path -> option nat) root workers cs st files name,
  understands_defaults search /\ directory_ok (lexically_normal root) /\ proper_entries entries /\
  (forall p q, lexically_normal p = lexically_normal q -> is_directory p = is_directory q) /\ is_directory root = Some true /\
  scan_with search default_config nat is_directory entries loads root workers cs = Some st /\
  scan_owner st = MainReturned files /\
  In name (fst (entries (lexically_normal root))) /\ ~ hidden name /\ is_directory (append root (mk_path false [name])) = Some false /\
  (forall p, In p (map fst files) -> p = lexically_normal root).
Proof.
  destruct (returned _ _ foo_dot) as (st & E & F).
  exists prefix_search, foo_is_directory, foo_entries, (fun p => Some (length (path_string p))), (parse_path (lit "./foo")), 1,
    (repeat (TaskStep 0) 30 ++ [MainStep]), st, [(parse_path (lit "foo"), 5)], (lit "main.cpp").
  split; [exact prefix_search_understands|]. split; [exact foo_ok|]. split; [exact foo_proper|].
  split; [intros p q H; unfold foo_is_directory; now rewrite H|]. split; [reflexivity|]. split; [exact E|].
  split; [exact F|]. split; [left; reflexivity|].
  split; [intros [(r & K)|(r & K)]; discriminate|]. split; [reflexivity|].
  intros p [<- | []]. reflexivity.
Qed.
