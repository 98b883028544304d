(** C125: cleaning up and formatting. *)

From Coq Require Import Ascii String Bool.
From Coq Require Import List.
From Verif Require Import Str PkgModel PkgSpec TidyModel TidySpec TidyProofs.
Import ListNotations.
Local Open Scope string_scope.
Local Open Scope list_scope.

(** Cleaning up removes what is called __targets..., with everything below it, and nothing else. *)
Theorem C125_clean : forall F p, (target_place p -> clean F p = None) /\ (~ target_place p -> clean F p = F p).
Proof. exact clean_exact. Qed.
Print Assumptions C125_clean.

(** Hence a build that changes nothing but such files leaves nothing behind. *)
Theorem C125_restored : forall F G, (forall p, ~ target_place p -> G p = F p) ->
  (forall p, target_place p -> F p = None) -> forall p, clean G p = F p.
Proof. exact restored. Qed.
Print Assumptions C125_restored.

(** Names with other beginnings are not affected, among them the directory of the cache, which is
    found in the Makefile too. *)
Theorem C125_cache : forall F below, clean F (lit "__buildcache" :: below) = F (lit "__buildcache" :: below).
Proof. intros F below. reflexivity. Qed.
Print Assumptions C125_cache.

(** Each JSON file gets the output of jq if jq succeeds, and is as before otherwise. *)
Theorem C125_json : forall jq mode names F, F [lit ".fmt"] <> Some Dir -> found names F -> forall p c m, json_name p -> F p = Some (File c m) ->
  (fst (jq p c) = true -> exists m', format_json jq mode names F p = Some (File (snd (jq p c)) m')) /\
  (fst (jq p c) = false -> format_json jq mode names F p = Some (File c m)).
Proof. exact json_files. Qed.
Print Assumptions C125_json.

(** Its permissions are those of new files, if there has not been a file .fmt. *)
Theorem C125_mode : forall jq mode names F, F [lit ".fmt"] = None -> found names F -> forall p c m, json_name p -> F p = Some (File c m) ->
  fst (jq p c) = true -> format_json jq mode names F p = Some (File (snd (jq p c)) mode).
Proof. exact json_mode. Qed.
Print Assumptions C125_mode.

(** Nothing else is changed, except for the file that is used for the output. *)
Theorem C125_others : forall jq mode names F, found names F -> forall p, p <> [lit ".fmt"] ->
  ~ (json_name p /\ exists c m, F p = Some (File c m)) -> format_json jq mode names F p = F p.
Proof. exact json_others. Qed.
Print Assumptions C125_others.

(** If that is a directory then nothing is done. *)
Theorem C125_blocked : forall jq mode names F, F [lit ".fmt"] = Some Dir -> forall p, format_json jq mode names F p = F p.
Proof. intros jq mode names F D p. now rewrite (blocked jq mode names F D). Qed.
Print Assumptions C125_blocked.

(** The file does not remain if jq succeeds for all files, and there is one. *)
Theorem C125_left : forall jq mode names F, F [lit ".fmt"] <> Some Dir -> found names F -> (exists p, json_name p /\ F p <> None) ->
  (forall p, json_name p -> F p <> None -> exists c m, F p = Some (File c m) /\ fst (jq p c) = true) ->
  format_json jq mode names F [lit ".fmt"] = None.
Proof. exact json_left. Qed.
Print Assumptions C125_left.

(** Formatting twice gives the same contents as formatting once, if jq accepts its own output and
    keeps it. *)
Theorem C125_twice : forall jq mode names F, F [lit ".fmt"] <> Some Dir -> found names F ->
  (forall p c, fst (jq p c) = true -> jq p (snd (jq p c)) = (true, snd (jq p c))) ->
  let G := format_json jq mode names F in
  forall p c m, json_name p -> G p = Some (File c m) -> exists m', format_json jq mode names G p = Some (File c m').
Proof. exact json_twice. Qed.
Print Assumptions C125_twice.

(** The source files that find gives are passed on, in that order. Missing: names with white space,
    see below, and names with quotation marks or backslashes, which are not in the model. *)
Theorem C125_sources_partial : forall names, Forall word names -> formatted_sources names = names.
Proof. exact sources_words. Qed.
Print Assumptions C125_sources_partial.

(** A file whose name has a blank in it is not formatted, and others may be formatted instead. *)
Theorem C125_names_refuted : exists names, NoDup names /\ formatted_sources names <> names /\
  exists n, In n names /\ ~ In n (formatted_sources names).
Proof.
  exists [lit "./a b.cpp"]. repeat split; [constructor; [easy|constructor]|vm_compute; discriminate|].
  exists (lit "./a b.cpp"). split; [now left|]. vm_compute. intros [E|[E|[]]]; discriminate.
Qed.
Print Assumptions C125_names_refuted.

Definition here : files := set [lit "a.json"] (Some (File (lit "{}") 420)) (set [lit "__targets"; lit "x"] (Some (File (lit "o") 420))
  (set [lit "__targets"] (Some Dir) (set [lit "__targets.txt"] (Some (File (lit "t") 420)) (set [] (Some Dir) (fun _ => None))))).

Definition same_jq (p : place) (c : str) : bool * str := (true, c ++ [ascii_of_nat 10]).
Definition no_jq (p : place) (c : str) : bool * str := (false, lit "{").

Lemma here_found F m : (forall p, p <> [lit "a.json"] -> json_name p -> F p = None) -> F [lit "a.json"] = Some (File (lit "{}") m) ->
  found [[lit "a.json"]] F.
Proof.
  intros O E. split; [constructor; [easy|constructor]|]. intro p. split.
  - intros [<-|[]]. split; [now exists [], (lit "a")|now rewrite E].
  - intros (J & N). left. destruct (same [lit "a.json"] p) eqn:S; [now apply same_eq|]. exfalso. apply N, O; [|exact J].
    intros ->. rewrite (proj2 (same_eq _ _) eq_refl) in S. discriminate.
Qed.

(** The mode of a file that is formatted is the one of new files: permissions are not kept. *)
Theorem C125_mode_refuted : exists jq mode names F p c c' m m', F tmp = None /\ found names F /\ json_name p /\
  F p = Some (File c m) /\ format_json jq mode names F p = Some (File c' m') /\ m <> m'.
Proof.
  exists same_jq, 420, [[lit "a.json"]], (set [lit "a.json"] (Some (File (lit "{}") 384)) (fun _ => None)), [lit "a.json"], (lit "{}"), (lit "{}" ++ [ascii_of_nat 10]), 384, 420.
  split; [reflexivity|]. split; [|split; [now exists [], (lit "a")|split; [reflexivity|split; [reflexivity|discriminate]]]].
  eapply here_found; [|reflexivity]. intros p N _. now rewrite set_else.
Qed.
Print Assumptions C125_mode_refuted.

(** The file .fmt remains if jq fails for the last file, and a file of that name that was there
    before is lost. *)
Theorem C125_left_refuted : exists jq mode names F c m, found names F /\ F tmp = Some (File c m) /\
  exists c', format_json jq mode names F tmp = Some (File c' m) /\ c' <> c.
Proof.
  exists no_jq, 420, [[lit "a.json"]], (set tmp (Some (File (lit "mine") 420)) (set [lit "a.json"] (Some (File (lit "{}") 420)) (fun _ => None))), (lit "mine"), 420.
  split; [|split; [reflexivity|exists (lit "{"); split; [reflexivity|discriminate]]].
  eapply here_found; [|reflexivity]. intros p N J. rewrite set_else by now apply json_not_tmp. now rewrite set_else.
Qed.
Print Assumptions C125_left_refuted.

Example tidy_clean : map (clean here) [[lit "a.json"]; [lit "__targets"]; [lit "__targets"; lit "x"]; [lit "__targets.txt"]; [lit "__target"]; [lit "d"; lit "__targets"]; []] =
  [Some (File (lit "{}") 420); None; None; None; None; None; Some Dir].
Proof. vm_compute. reflexivity. Qed.

Example tidy_clean_below : clean (set [lit "d"; lit "__targets"] (Some Dir) here) [lit "d"; lit "__targets"] = Some Dir.
Proof. vm_compute. reflexivity. Qed.

Example tidy_json : map (format_json same_jq 420 [[lit "a.json"]] here) [[lit "a.json"]; tmp; [lit "__targets"; lit "x"]] =
  [Some (File (lit "{}" ++ [ascii_of_nat 10]) 420); None; Some (File (lit "o") 420)].
Proof. vm_compute. reflexivity. Qed.

Example tidy_fails : map (format_json no_jq 420 [[lit "a.json"]] here) [[lit "a.json"]; tmp] = [Some (File (lit "{}") 420); Some (File (lit "{") 420)].
Proof. vm_compute. reflexivity. Qed.

Example tidy_sources : formatted_sources [lit "./a.cpp"; lit "./b c.hpp"] = [lit "./a.cpp"; lit "./b"; lit "c.hpp"].
Proof. vm_compute. reflexivity. Qed.

Example tidy_found : found [[lit "a.json"]] here.
Proof.
  eapply here_found; [|reflexivity]. intros p N (dir & n & E). unfold here. rewrite set_else by exact N.
  assert (L : forall q x y, q = dir ++ [n ++ lit ".json"] -> q = x ++ [y] -> exists z, y = z ++ lit ".json").
  { intros q x y -> H. apply app_inj_tail in H as (_ & H). eauto. }
  assert (K : forall y, (exists z, y = z ++ lit ".json") -> starts (rev (lit ".json")) (rev y) = true).
  { intros y (z & ->). rewrite rev_app_distr. apply starts_spec. eauto. }
  rewrite !set_else; [reflexivity| | | |].
  - intros ->. destruct dir; discriminate.
  - intros ->. specialize (K _ (L _ [] (lit "__targets.txt") E eq_refl)). discriminate.
  - intros ->. specialize (K _ (L _ [] (lit "__targets") E eq_refl)). discriminate.
  - intros ->. specialize (K _ (L _ [lit "__targets"] (lit "x") E eq_refl)). discriminate.
Qed.
