(** Proofs about the integration tests: what the scripts do if they end with status 0. *)

From Coq Require Import Ascii String Bool Arith Lia.
From Coq Require Import List.
From Verif Require Import Str PathProofs AboutModel IntegModel IntegSpec IntegProofs.
Import ListNotations.
Local Open Scope string_scope.
Local Open Scope list_scope.

(** ** Words *)

Lemma expand_cons env x ws : expand env (x :: ws) = expand_word env x ++ expand env ws.
Proof. reflexivity. Qed.

Lemma expand_nil env : expand env [] = [].
Proof. reflexivity. Qed.

Lemma word_text env s : expand_word env [Text s] = [s].
Proof. reflexivity. Qed.

Lemma word_quoted env v : expand_word env [Quoted v] = [env v].
Proof. reflexivity. Qed.

Lemma word_text_quoted env s v : expand_word env [Text s; Quoted v] = [s ++ env v].
Proof. reflexivity. Qed.

Lemma word_quoted_text env s v : expand_word env [Quoted v; Text s] = [env v ++ s].
Proof. reflexivity. Qed.

Lemma word_text_quoted_text env s v s' : expand_word env [Text s; Quoted v; Text s'] = [s ++ env v ++ s'].
Proof. unfold expand_word. cbn. now rewrite <- app_assoc. Qed.

Lemma set_same env v x : set_value env v x v = x.
Proof. unfold set_value. now rewrite str_eqb_refl. Qed.

Lemma set_other env v x n : str_eqb n v = false -> set_value env v x n = env n.
Proof. unfold set_value. now intros ->. Qed.

Ltac sets := repeat (rewrite set_same || rewrite set_other by reflexivity).
Ltac sets_in H := repeat (rewrite set_same in H || rewrite set_other in H by reflexivity).

Lemma one_word_lit s : forallb (fun c => negb (blank c)) s = true -> s <> [] -> one_word s.
Proof.
  intros F N. split; [exact N|]. intros c I. rewrite forallb_forall in F. apply F in I.
  repeat split; intros ->; discriminate.
Qed.

(** The words of a command. [O] are the conditions on variables that are used without quotes. *)
Ltac words :=
  rewrite ?expand_cons, ?expand_nil, ?word_text, ?word_quoted, ?word_text_quoted, ?word_quoted_text, ?word_text_quoted_text;
  repeat first [rewrite bare_then by (sets; assumption) | rewrite bare_word by (sets; assumption) | rewrite then_bare by (sets; assumption)];
  sets; cbn [app].

Ltac step H F :=
  first
  [ apply step_cmd in H; [|exact F]; let o := fresh "o" in let R := fresh "R" in destruct H as (o & R & H)
  | apply step_let1 in H; [|exact F]; let o := fresh "o" in let R := fresh "R" in destruct H as (o & R & H)
  | apply step_ignored in H; let n := fresh "n" in let o := fresh "o" in let R := fresh "R" in destruct H as (n & o & R & H) ];
  cbn [value_of events exit_status app] in H.

Section Did.
Variable run : list event -> list str -> str -> nat * str.

Lemma start s env : status_of (script_run run s env) = 0 -> exists sh r, exec run s (mk_shell env [] 0) = (sh, r) /\ fine r /\ fst (script_run run s env) = sh.
Proof.
  unfold script_run, status_of. destruct (exec run s _) as [sh r]. cbn [fst snd]. intro H. exists sh, r.
  split; [reflexivity|]. split; [|reflexivity]. destruct r; [exact H|exact I].
Qed.

Ltac go s := intros Z; let sh := fresh "sh" in let r := fresh "r" in destruct (start _ _ Z) as (sh & r & H & F0 & ->); clear Z; unfold s in H; assert (F : ok sh r) by (left; exact F0); clear F0;
  repeat (step H F || (cbn [exec value_of events exit_status] in H)).

Theorem did_generate env : status_of (script_run run can_generate_working_bootstrap_script env) = 0 ->
  did (fst (script_run run can_generate_working_bootstrap_script env))
    [w ["echo"; "Can generate working boostrap script"];
     w ["rm"; "-rf"; "__targets_bootstrap"; "__buildcache"];
     w ["mkdir"; "__buildcache"];
     env (lit "1") :: w ["--target-dir=__targets_bootstrap"; "--num-workers=1"; "--force-rebuild"; "--dry-run";
        "--log-level=compilation_command"; "--build-id=0000000000000000000000000000000000000000000000000000000000000000"; ">"; "__buildcache/bootstrap.sh"];
     w ["sh"; "-x"; "__buildcache/bootstrap.sh"];
     w ["__targets_bootstrap/core/bin/maike2"; "--about"]].
Proof.
  go can_generate_working_bootstrap_script. injection H as <- <-. unfold did. cbn [events map ran]. words. reflexivity.
Qed.

Theorem did_install env d : status_of (script_run run install_and_rebuild env) = 0 ->
  value_of (fst (script_run run install_and_rebuild env)) v_new = d -> one_word d ->
  did (fst (script_run run install_and_rebuild env))
    [w ["mktemp"; "-d"];
     [lit "make"; lit "PREFIX=" ++ d; lit "install"];
     [d ++ lit "/bin/maike2"; lit "--target-dir=__targets_2"];
     w ["__targets_2/core/bin/maike2"; "--target-dir=__targets_3"]].
Proof.
  go install_and_rebuild. injection H as <- <-. cbn [value_of]. sets. intros <- O.
  unfold did, make_install, new_maike2. cbn [events map ran]. words. reflexivity.
Qed.

Theorem did_out_of_tree env d b here : status_of (script_run run install_and_rebuild_out_of_tree env) = 0 ->
  let sh := fst (script_run run install_and_rebuild_out_of_tree env) in
  value_of sh v_new = d -> value_of sh v_build = b -> value_of sh v_source = here -> one_word d -> one_word b -> one_word here ->
  did sh
    [w ["echo"; "Install and rebuild out of tree"];
     w ["mktemp"; "-d"];
     w ["mktemp"; "-d"];
     [lit "make"; lit "PREFIX=" ++ d; lit "install"];
     w ["pwd"];
     [lit "cd"; b];
     [d ++ lit "/bin/maike2"; lit "--source-dir=" ++ here];
     w ["maike_targets/core/bin/maike2"; "--version"];
     [lit "cd"; here]].
Proof.
  go install_and_rebuild_out_of_tree. injection H as <- <-. cbn [value_of]. sets. intros <- <- <- O1 O2 O3.
  unfold did, make_install, new_maike2. cbn [events map ran]. words. reflexivity.
Qed.

Lemma assigned_text env s : assigned env [Text s] = s.
Proof. unfold assigned. cbn. apply app_nil_r. Qed.

Theorem did_subpath env d : status_of (script_run run install_and_rebuild_out_of_tree_from_subpath env) = 0 ->
  let sh := fst (script_run run install_and_rebuild_out_of_tree_from_subpath env) in
  value_of sh v_new = d -> one_word d ->
  did sh
    [w ["echo"; "Install and rebuild out of tree (subath)"];
     w ["mktemp"; "-d"];
     [lit "make"; lit "PREFIX=" ++ d; lit "install"];
     w ["mkdir"; "temp_build_dir"];
     w ["cd"; "temp_build_dir"];
     [d ++ lit "/bin/maike2"; lit "--source-dir=.."; lit "--target-dir=__targets"];
     w ["__targets/core/bin/maike2"; "--version"];
     w ["cd"; ".."]].
Proof.
  go install_and_rebuild_out_of_tree_from_subpath. injection H as <- <-. cbn [value_of]. sets. rewrite !assigned_text. intros <- O.
  assert (O1 : one_word (lit "temp_build_dir")) by (apply one_word_lit; [reflexivity|discriminate]).
  assert (O2 : one_word (lit "..")) by (apply one_word_lit; [reflexivity|discriminate]).
  unfold did, make_install, new_maike2. cbn [events map ran]. words. reflexivity.
Qed.

Theorem did_rel_path env d here : status_of (script_run run install_and_rebuild_out_of_tree_rel_path env) = 0 ->
  let sh := fst (script_run run install_and_rebuild_out_of_tree_rel_path env) in
  value_of sh v_new = d -> value_of sh v_source = here -> one_word d -> one_word here -> one_word (value_of sh (lit "pwd")) ->
  did sh
    [w ["echo"; "Install and rebuild out of tree (relative path)"];
     w ["mktemp"; "-d"];
     [lit "make"; lit "PREFIX=" ++ d; lit "install"];
     w ["pwd"];
     [lit "basename"; value_of sh (lit "pwd")];
     w ["cd"; ".."];
     [d ++ lit "/bin/maike2"; lit "--source-dir=" ++ here];
     w ["maike_targets/core/bin/maike2"; "--version"];
     [lit "cd"; here]].
Proof.
  go install_and_rebuild_out_of_tree_rel_path. injection H as <- <-. cbn [value_of]. sets. rewrite !assigned_text. intros <- <- O1 O2 O3.
  assert (O4 : one_word (lit "..")) by (apply one_word_lit; [reflexivity|discriminate]).
  unfold did, make_install, new_maike2. cbn [events map ran]. words. reflexivity.
Qed.

Theorem did_tarball env d here : status_of (script_run run check_release_tarball env) = 0 ->
  let sh := fst (script_run run check_release_tarball env) in
  value_of sh v_extract = d -> value_of sh v_source = here -> one_word d -> one_word here ->
  did sh
    [w ["echo"; "Check release tarball"];
     w ["mktemp"; "-d"];
     w ["make"; "clean"];
     w ["make"; "source-archive"];
     [lit "mv"; lit "__targets/maike-src.tar.gz"; d];
     w ["pwd"];
     [lit "cd"; d];
     w ["tar"; "-xf"; "maike-src.tar.gz"];
     w ["cd"; "maike-src"];
     w ["__buildcache/bootstrap.sh"];
     w ["__targets_bootstrap/core/bin/maike2"; "--version"];
     [lit "cd"; here]].
Proof.
  go check_release_tarball. injection H as <- <-. cbn [value_of]. sets. intros <- <- O1 O2.
  unfold did. cbn [events map ran]. words. reflexivity.
Qed.

(** main.sh *)
Lemma step_or ws k sh : exec run (Or ws k) sh =
  let (st, o) := run (events sh) (expand (value_of sh) ws) [] in
  exec run k (mk_shell (value_of sh) (events sh ++ [mk_event (expand (value_of sh) ws) [] st o true]) (if Nat.eqb st 0 then exit_status sh else st)).
Proof. cbn [exec]. unfold run_one. now destruct (run _ _ _). Qed.

(** What follows the first two parts is run in any case, and the status is not 0 if one fails. *)
Lemma expand_texts env l : expand env (map (fun x => [Text x]) l) = l.
Proof. induction l as [|x l IH]; [reflexivity|]. cbn [map]. now rewrite expand_cons, IH. Qed.

Lemma good_cons e es : good (e :: es) <-> good [e] /\ good es.
Proof. exact (good_app [e] es). Qed.

Lemma good_three a b c es : good (a :: b :: c :: es) <-> good [a] /\ good [b] /\ good [c] /\ good es.
Proof. rewrite (good_cons a (b :: c :: es)), (good_cons b (c :: es)), (good_cons c es). tauto. Qed.

Lemma ors l : forall sh sh' r, exec run (fold_right (fun ws k => Or (map (fun x => [Text x]) ws) k) ExitStatus l) sh = (sh', r) ->
  exists n es, r = Some n /\ events sh' = events sh ++ es /\ map ran es = l /\ Forall (fun e => looked_at e = true) es /\
    (n = 0 <-> exit_status sh = 0 /\ good es).
Proof.
  induction l as [|a l IH]; intros sh sh' r; cbn [fold_right].
  - intros [= <- <-]. exists (exit_status sh), []. rewrite app_nil_r. repeat split; auto; [now intros e []|tauto].
  - rewrite step_or, expand_texts. destruct (run _ _ _) as [st o]. intro H. apply IH in H as (n & es & -> & E & M & L & Z). cbn [events exit_status] in *.
    eexists n, (_ :: es). split; [reflexivity|]. split; [rewrite E, <- app_assoc; reflexivity|]. split; [cbn [map ran]; now rewrite M|].
    split; [constructor; [reflexivity|exact L]|]. rewrite Z, good_cons, good_one. destruct (Nat.eqb_spec st 0) as [->|N].
    + tauto.
    + split; [now intros (A & _)|]. intros (_ & B & _). now elim N; apply B.
Qed.

Definition texts (l : list str) : list word := map (fun x => [Text x]) l.

Lemma main_shape : main =
  LetIgnored v_install (texts (w ["mktemp"; "-d"])) (Trap [`"rm"; `"-rf"; [Bare v_install]]
  (Cmd (texts (nth 0 parts [])) (Cmd (texts (nth 1 parts []))
  (fold_right (fun ws k => Or (map (fun x => [Text x]) ws) k) ExitStatus (skipn 2 parts))))).
Proof. vm_compute. reflexivity. Qed.

Lemma step_trap ws k s : exec run (Trap ws k) s = exec run k s.
Proof. reflexivity. Qed.

Lemma parts_cons : nth 0 parts [] :: nth 1 parts [] :: skipn 2 parts = parts.
Proof. reflexivity. Qed.

Theorem main_runs env : let r := script_run run main env in
  (did (fst r) (w ["mktemp"; "-d"] :: parts) /\ (status_of r = 0 <-> passed (fst r))) \/
  (status_of r <> 0 /\ exists e, In e (firstn 3 (events (fst r))) /\ looked_at e = true /\ result e = status_of r).
Proof.
  cbv zeta. unfold script_run, status_of. destruct (exec run main _) as [sh r] eqn:H. rewrite main_shape in H. cbn [fst snd].
  rewrite <- parts_cons. remember (nth 0 parts []) as p0. remember (nth 1 parts []) as p1. remember (skipn 2 parts) as ps. clear Heqp0 Heqp1 Heqps.
  apply step_ignored in H as (n & o & R & H). cbn [value_of events exit_status app] in H. remember (set_value _ _ _) as env1 eqn:En. clear En R.
  rewrite step_trap in H. unfold texts in H. rewrite expand_texts in H.
  assert (C : forall ws k s s' r', exec run (Cmd ws k) s = (s', r') ->
    (exists m x, m <> 0 /\ events s' = events s ++ [mk_event (expand (value_of s) ws) [] m x true] /\ r' = Some m) \/
    (exists x, exec run k (mk_shell (value_of s) (events s ++ [mk_event (expand (value_of s) ws) [] 0 x true]) (exit_status s)) = (s', r'))).
  { clear. intros ws k s s' r'. cbn [exec]. unfold run_one. destruct (run _ _ _) as [m x]. destruct (Nat.eqb_spec m 0) as [->|N].
    - intro H. right. eauto.
    - intros [= <- <-]. left. exists m, x. auto. }
  apply C in H as [(m & x & N & E & ->)|(x1 & H)]; cbn [value_of events exit_status app] in *; rewrite expand_texts in *.
  { right. split; [exact N|]. rewrite E. eexists. split; [right; now left|]. now split. }
  apply C in H as [(m & x & N & E & ->)|(x2 & H)]; cbn [value_of events exit_status app] in *; rewrite expand_texts in *.
  { right. split; [exact N|]. rewrite E. eexists. split; [right; right; now left|]. now split. }
  clear C. left.
  apply ors in H as (q & es & -> & E & M & L & Z). cbn [events exit_status] in *. split.
  - unfold did. rewrite E. cbn [app map ran]. rewrite M. reflexivity.
  - change (passed sh) with (good (events sh)). rewrite E, Z. cbn [app]. rewrite good_three, !good_one. split; [|tauto].
    intros (_ & G). repeat split; auto. discriminate.
Qed.
End Did.
