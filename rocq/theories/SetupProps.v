(** C117: the script that builds the program. C118: the script that installs it. *)

From Coq Require Import Ascii String Bool ZArith Lia.
From Coq Require Import List.
From Verif Require Import Str Path PathProofs DbModel LoadModel LoadSpec CmdModel MainModel SetupModel SetupSpec SetupProofs SetupProofs2 SetupProofs3.
Import ListNotations.

Local Open Scope string_scope.
Local Open Scope list_scope.

(** * Building *)

Definition first_build : command := [lit "maike2"; lit "--target-dir=__targets_bootstrap"].
Definition bootstrap : command := [lit "sh"; lit "-x"; lit "__buildcache/bootstrap.sh"].
Definition second_build : command := [lit "__targets_bootstrap/core/bin/maike2"; lit "--target-dir=__targets"].

Lemma mod_zero r : (-256 < r < 256)%Z -> (r mod 256 = 0)%Z -> r = 0%Z.
Proof. intros R M. apply Z.mod_divide in M; [|discriminate]. destruct M as (k & ->). lia. Qed.

Lemma history_1 run c : history run [c] [(c, run [] c)].
Proof. apply (history_more run [] [] c). constructor. Qed.
Lemma history_2 run c1 c2 : history run [c1; c2] [(c1, run [] c1); (c2, run [c1] c2)].
Proof. apply (history_more run [c1] [(c1, run [] c1)] c2). apply history_1. Qed.
Lemma history_3 run c1 c2 c3 : history run [c1; c2; c3] [(c1, run [] c1); (c2, run [c1] c2); (c3, run [c1; c2] c3)].
Proof. apply (history_more run [c1; c2] [(c1, run [] c1); (c2, run [c1] c2)] c3). apply history_2. Qed.

(** C117. The script succeeds if and only if the program has been built, by itself or, if it is
    not installed, by the script made for that purpose, and the new program has built itself. *)
Theorem C117_success : forall run argv, (forall cs c r, run cs c = Some r -> (-256 < r < 256)%Z) ->
  (forall a, In a [lit "get_tags"; lit "configure"; lit "compile"] -> hd_error argv <> Some a) ->
  exists l, history run (fst (build run argv)) l /\
    (snd (build run argv) = 0%Z <->
     In l [[(first_build, Some 0%Z); (second_build, Some 0%Z)];
           [(first_build, None); (bootstrap, Some 0%Z); (second_build, Some 0%Z)]]).
Proof.
  intros run argv Range N.
  assert (C : recipe_call argv = false).
  { destruct argv as [|a argv]; [reflexivity|]. unfold recipe_call.
    assert (K : forall b, In b [lit "get_tags"; lit "configure"; lit "compile"] -> str_eqb a b = false).
    { intros b I. apply str_eqb_neq. intros ->. exact (N b I eq_refl). }
    rewrite !K; [reflexivity|right; right; now left|right; now left|now left]. }
  unfold build. rewrite C. clear C N.
  unfold do_initial_build. change with_maike2 with first_build. change with_script with bootstrap. change with_new_maike2 with second_build.
  assert (D1 : first_build <> bootstrap) by discriminate. assert (D2 : second_build <> bootstrap) by discriminate.
  destruct (run [] first_build) as [r|] eqn:E1.
  - destruct (r =? 0)%Z eqn:Z.
    + apply Z.eqb_eq in Z. subst r. cbn [fst snd app]. eexists. split; [apply history_2|]. rewrite E1.
      destruct (run [first_build] second_build) as [r'|] eqn:E2.
      * pose proof (Range _ _ _ E2) as Rg. split.
        -- intro M. rewrite (mod_zero _ Rg M). now left.
        -- intros [I | [I | []]]; [|discriminate]. injection I as <-. reflexivity.
      * split; [discriminate|]. intros [I | [I | []]]; discriminate.
    + apply Z.eqb_neq in Z. cbn [fst snd]. eexists. split; [apply history_1|]. rewrite E1. pose proof (Range _ _ _ E1) as Rg. split.
      * intro M. destruct (Z (mod_zero _ Rg M)).
      * intros [I | [I | []]]; discriminate.
  - destruct (run [first_build] bootstrap) as [r|] eqn:E2.
    + destruct (r =? 0)%Z eqn:Z.
      * apply Z.eqb_eq in Z. subst r. cbn [fst snd app]. eexists. split; [apply history_3|]. rewrite E1, E2.
        destruct (run [first_build; bootstrap] second_build) as [r'|] eqn:E3.
        -- pose proof (Range _ _ _ E3) as Rg. split.
           ++ intro M. rewrite (mod_zero _ Rg M). right. now left.
           ++ intros [I | [I | []]]; [discriminate|]. injection I as <-. reflexivity.
        -- split; [discriminate|]. intros [I | [I | []]]; discriminate.
      * apply Z.eqb_neq in Z. cbn [fst snd]. eexists. split; [apply history_2|]. rewrite E1, E2. pose proof (Range _ _ _ E2) as Rg. split.
        -- intro M. destruct (Z (mod_zero _ Rg M)).
        -- intros [I | [I | []]]; discriminate.
    + cbn [fst snd]. eexists. split; [apply history_2|]. rewrite E1, E2. split; [discriminate|]. intros [I | [I | []]]; discriminate.
Qed.
Print Assumptions C117_success.

(** C117. Nothing is run after something that has failed, except for the script in place of a
    program that is not installed. *)
Theorem C117_stops : forall run argv l before c r after, history run (fst (build run argv)) l ->
  l = before ++ (c, r) :: after -> after <> [] -> r = Some 0%Z \/ (c, r) = (first_build, None) /\ hd_error after = Some (bootstrap, run [first_build] bootstrap).
Proof.
  intros run argv l before c r after H E N.
  assert (U : forall cs l1 l2, history run cs l1 -> history run cs l2 -> l1 = l2).
  { intros cs l1 l2 H1. revert l2. induction H1 as [|cs l1 a H1 IH]; intros l2 H2.
    - inversion H2 as [|cs' l' c' H2' E1 E2]; [reflexivity|]. now apply app_eq_nil in E1 as (_ & E1).
    - inversion H2 as [E1 E2|cs' l' c' H2' E1 E2]; [symmetry in E1; now apply app_eq_nil in E1 as (_ & E1)|].
      apply app_inj_tail in E1 as (-> & ->). now rewrite (IH l' H2'). }
  assert (Short : forall p, l = [p] -> False).
  { intros p ->. destruct before as [|b before]; [injection E; intros; now destruct N|]. destruct before; discriminate. }
  unfold build in H. destruct (recipe_call argv).
  { cbn [fst] in H. rewrite (U _ _ _ H (history_none run)) in E. destruct before; discriminate. }
  unfold do_initial_build in H. change with_maike2 with first_build in H. change with_script with bootstrap in H. change with_new_maike2 with second_build in H.
  destruct (run [] first_build) as [r1|] eqn:E1.
  - destruct (r1 =? 0)%Z eqn:Z; cbn [fst app] in H.
    + apply Z.eqb_eq in Z. subst r1. rewrite (U _ _ _ H (history_2 _ _ _)), E1 in E. left.
      destruct before as [|b before]; [now injection E as -> -> _|]. injection E as _ E.
      destruct before as [|b' before]; [injection E as _ _ E; now destruct N|]. injection E as _ E. destruct before; discriminate.
    + destruct (Short (first_build, run [] first_build)). exact (U _ _ _ H (history_1 _ _)).
  - assert (Two : l = [(first_build, None); (bootstrap, run [first_build] bootstrap)] ->
              r = Some 0%Z \/ (c, r) = (first_build, None) /\ hd_error after = Some (bootstrap, run [first_build] bootstrap)).
    { intros ->. destruct before as [|b before]; [injection E as -> -> <-; right; now split|]. injection E as _ E.
      destruct before as [|b' before]; [injection E as _ _ E; now destruct N|]. injection E as _ E. destruct before; discriminate. }
    destruct (run [first_build] bootstrap) as [r2|] eqn:E2.
    + destruct (r2 =? 0)%Z eqn:Z; cbn [fst app] in H.
      * apply Z.eqb_eq in Z. subst r2. rewrite (U _ _ _ H (history_3 _ _ _ _)), E1, E2 in E.
        destruct before as [|b before]; [injection E as -> -> <-; right; now split|]. injection E as _ E.
        destruct before as [|b' before]; [injection E as -> -> _; now left|]. injection E as _ E.
        destruct before as [|b'' before]; [injection E as _ _ E; now destruct N|]. injection E as _ E. destruct before; discriminate.
      * apply Two. rewrite (U _ _ _ H (history_2 _ _ _)), E1, E2. reflexivity.
    + cbn [fst] in H. apply Two. rewrite (U _ _ _ H (history_2 _ _ _)), E1, E2. reflexivity.
Qed.
Print Assumptions C117_stops.

(** C117. If the script is called as a recipe, which happens since it is a source file as well,
    nothing is run. *)
Theorem C117_recipe : forall run a argv, In a [lit "get_tags"; lit "configure"; lit "compile"] -> build run (a :: argv) = ([], 0%Z).
Proof. intros run a argv [<- | [<- | [<- | []]]]; reflexivity. Qed.
Print Assumptions C117_recipe.

(** C117. The arguments are understood: they give the target directory, and ask for nothing
    else. The program for the second build is the one in the first target directory. *)
Theorem C117_arguments : forall accepts, exists a b,
  command_line (option_table accepts) (tl first_build) = Some a /\ command_line (option_table accepts) (tl second_build) = Some b /\
  (forall o, has_option a o = true <-> o = TargetDir) /\ (forall o, has_option b o = true <-> o = TargetDir) /\
  hd_error second_build = Some (path_string (append (target_directory a) (mk_path false [lit "core"; lit "bin"; lit "maike2"]))) /\
  target_directory b = mk_path false [lit "__targets"].
Proof.
  intro accepts. eexists. eexists. split; [vm_compute; reflexivity|]. split; [vm_compute; reflexivity|].
  split; [intro o; destruct o; vm_compute; split; intro H; (reflexivity || discriminate)|].
  split; [intro o; destruct o; vm_compute; split; intro H; (reflexivity || discriminate)|].
  split; vm_compute; reflexivity.
Qed.
Print Assumptions C117_arguments.

(** C117. Wrong: if the script that takes the place of the program succeeds, so did all of its
    commands. It does not stop at a command that fails. *)
Theorem C117_bootstrap_refuted : ~ forall run argv statuses,
  run [first_build] bootstrap = Some (script_status statuses) -> run [] first_build = None ->
  recipe_call argv = false -> snd (build run argv) = 0%Z -> Forall (fun r => r = 0%Z) statuses.
Proof.
  intro H.
  specialize (H (fun cs _ => match cs with [] => None | _ => Some 0%Z end) [] [1%Z; 0%Z] eq_refl eq_refl eq_refl eq_refl).
  inversion H as [|? ? K _]. discriminate.
Qed.
Print Assumptions C117_bootstrap_refuted.

(** * Installing *)

(** C118. The program that is installed is the one that has been built. *)
Theorem C118_program : forall mask_r mask_x fails here d dir t t', Forall ordinary here -> names_directory here (argument dir) d ->
  install mask_r mask_x fails here dir t = Some t' ->
  exists c, file_at t (here ++ [lit "__targets"; lit "core"; lit "bin"; lit "maike2"]) c /\ file_at t' (program_in d) c.
Proof.
  intros mr mx fails here d dir t t' H N D. destruct (program_installed _ _ _ _ _ _ _ _ H N D) as (c & F & L).
  exists c. split; [exact F|]. now exists true, true.
Qed.
Print Assumptions C118_program.

(** C118. All recipes, with everything in directories, are installed as they are. *)
Theorem C118_recipes : forall mask_r mask_x fails here d dir t t', Forall ordinary here -> names_directory here (argument dir) d ->
  install mask_r mask_x fails here dir t = Some t' -> separate here d -> proper t ->
  forall n rest c, ~ hidden n -> file_at t (here ++ [lit "recipes"] ++ n :: rest) c -> file_at t' (recipes_in d ++ n :: rest) c.
Proof.
  intros mr mx fails here d dir t t' H N D S P n rest c Hn (r & x & L).
  change (n :: rest) with ([n] ++ rest) in L. rewrite !app_assoc, lookup_app in L.
  destruct (lookup t ((here ++ [lit "recipes"]) ++ [n])) as [s|] eqn:Ls; [|discriminate].
  assert (K : forall p t s, proper t -> lookup t p = Some s -> proper s).
  { clear. induction p as [|a p IH]; intros t s P L; [now injection L as <-|]. cbn [lookup] in L. destruct t as [|r x es]; [discriminate|].
    destruct (get a es) as [u|] eqn:G; [|discriminate]. inversion P as [|? ? ? _ Q]; subst. apply (IH u); [|exact L]. apply (Q a). now apply get_in. }
  destruct (recipe_installed _ _ _ _ _ _ _ _ H N D S n rest c s Hn Ls (K _ _ _ P Ls)) as (F & _); [now exists r, x|]. exact F.
Qed.
Print Assumptions C118_recipes.

(** C118. The installed program finds each of the installed recipes, from any directory, unless
    the project has a file with that name. *)
Theorem C118_found : forall mask_r mask_x fails here d dir t t', Forall ordinary here -> names_directory here (argument dir) d ->
  install mask_r mask_x fails here dir t = Some t' -> separate here d -> proper t ->
  forall n rest c cwd project_dir, ~ hidden n -> Forall ordinary (n :: rest) -> file_at t (here ++ [lit "recipes"] ++ n :: rest) c ->
  let name := mk_path false (n :: rest) in
  regular_file t' cwd (append project_dir name) = false ->
  exists place, find_recipe t' (program_in d) cwd project_dir name = Some (mk_path true place, System) /\ file_at t' place c.
Proof.
  intros mr mx fails here d dir t t' H N D S P n rest c cwd project Hn O F name R.
  pose proof (C118_recipes _ _ _ _ _ _ _ _ H N D S P n rest c Hn F) as G.
  exists (recipes_in d ++ n :: rest). split; [|exact G].
  apply (found_at _ _ _ _ _ _ c); [exact (proj2 (named_place _ _ _ H N))|exact O|exact G|exact R].
Qed.
Print Assumptions C118_found.

(** C118. All users can run the program and the recipes, if the umask and the directories that
    there were permit it. *)
Theorem C118_others : forall mask_r fails here d dir t t', Forall ordinary here -> names_directory here (argument dir) d ->
  install mask_r true fails here dir t = Some t' -> open_so_far t (d ++ [lit "bin"]) -> open_so_far t (recipes_in d) ->
  usable t' (program_in d) /\
  forall n c, separate here d -> ~ hidden n -> file_at t (here ++ [lit "recipes"; n]) c -> usable t' (recipes_in d ++ [n]).
Proof.
  intros mr fails here d dir t t' H N D O1 O2. split; [exact (program_usable _ _ _ _ _ _ _ _ H N D eq_refl O1 O2)|].
  intros n c S Hn (r & x & L). change [lit "recipes"; n] with ([lit "recipes"] ++ [n]) in L. rewrite app_assoc in L.
  destruct (recipe_installed _ _ _ _ _ _ _ _ H N D S n [] c _ Hn L (proper_file c r x)) as (_ & F); [now exists r, x|].
  exact (recipe_usable _ _ _ _ _ _ _ _ H N D n c eq_refl O1 O2 (F eq_refl)).
Qed.
Print Assumptions C118_others.

(** C118. Nothing else is changed: files elsewhere, and permissions of directories, are as they
    were, and what is new there is a directory on the way to the program or the recipes. *)
Theorem C118_elsewhere : forall mask_r mask_x fails here d dir t t', Forall ordinary here -> names_directory here (argument dir) d ->
  install mask_r mask_x fails here dir t = Some t' ->
  forall q, ~ under (program_in d) q -> ~ under (recipes_in d) q ->
  match lookup t q with
  | Some (FileNode c r x) => lookup t' q = Some (FileNode c r x)
  | Some (DirNode r x es) => exists es', lookup t' q = Some (DirNode r x es')
  | None => lookup t' q = None \/ (under q (program_in d) \/ under q (recipes_in d)) /\ exists es, lookup t' q = Some (DirNode mask_r mask_x es)
  end.
Proof.
  intros mr mx fails here d dir t t' H N D q N1 N2. pose proof (elsewhere _ _ _ _ _ _ _ _ H N D q) as K.
  assert (I : ~ inner (d ++ [lit "bin"]) (recipes_in d) q).
  { intros [U | (n & rest & ->)]; [rewrite <- app_assoc in U; contradiction|]. apply N2. now exists (n :: rest). }
  specialize (K I). destruct (lookup t q) as [[|]|]; [exact K|exact K|]. destruct K as [K | (O & K)]; [now left|]. right. split; [|exact K].
  destruct O as [O | O]; [left|now right]. unfold program_in. change [lit "bin"; lit "maike2"] with ([lit "bin"] ++ [lit "maike2"]).
  rewrite app_assoc. now apply under_longer.
Qed.
Print Assumptions C118_elsewhere.

(** ** Examples *)

(** A project with two recipes and a directory for Python, and what there is in the system *)
Definition w_recipes : list (str * tree) :=
  [(lit "cxx.py", FileNode (lit "compile") true true); (lit ".old.py", FileNode (lit "old") true true);
   (lit "__pycache__", DirNode true true [(lit "cxx.pyc", FileNode (lit "bytes") false false)])].
Definition w_system (old : list (str * tree)) : tree :=
  DirNode true true
    [(lit "src", DirNode true true
       [(lit "__targets", DirNode true true [(lit "core", DirNode true true [(lit "bin", DirNode true true [(lit "maike2", FileNode (lit "ELF") false false)])])]);
        (lit "recipes", DirNode true true w_recipes)]);
     (lit "usr", DirNode true true old)].

(** Hypotheses of the theorems *)
Example w_here : Forall ordinary [lit "src"].
Proof. repeat constructor; apply ordinary_literal; reflexivity. Qed.

Example w_named : names_directory [lit "src"] (lit "/usr") [lit "usr"] /\ names_directory [lit "src"] (lit "../usr") [lit "usr"] /\
  names_directory [lit "src"] (argument None) [].
Proof.
  split; [|split].
  - exists [[]; lit "usr"]. split; [discriminate|]. split; [repeat constructor; intro I; cbn in I; intuition discriminate|]. split; [reflexivity|].
    apply leads_stay; [now left|]. apply leads_down; [apply ordinary_literal; reflexivity|]. apply leads_here.
  - exists [dotdot; lit "usr"]. split; [discriminate|]. split; [repeat constructor; intro I; cbn in I; intuition discriminate|]. split; [reflexivity|].
    apply (leads_up [] (lit "src")). apply leads_down; [apply ordinary_literal; reflexivity|]. apply leads_here.
  - exists [[]]. split; [discriminate|]. split; [repeat constructor; intro I; destruct I|]. split; [reflexivity|].
    apply leads_stay; [now left|]. apply leads_here.
Qed.

Example w_separate : separate [lit "src"] [lit "usr"].
Proof. split; split; intros (r & E); discriminate. Qed.

Ltac prove_proper :=
  match goal with
  | |- proper (FileNode _ _ _) => constructor
  | |- proper (DirNode _ _ _) =>
      constructor;
      [repeat constructor; cbn; intuition discriminate|
       let I := fresh "I" in intros ? ? I; repeat (destruct I as [I | I]; [injection I as <- <-; prove_proper|]); destruct I]
  end.

Example w_proper : proper (w_system []).
Proof. unfold w_system, w_recipes. prove_proper. Qed.

Example w_installed : exists t', install true true (fun _ => false) [lit "src"] (Some (lit "/usr")) (w_system []) = Some t' /\
  lookup t' [lit "usr"; lit "bin"; lit "maike2"] = Some (FileNode (lit "ELF") true true) /\
  lookup t' (recipes_in [lit "usr"] ++ [lit "__pycache__"; lit "cxx.pyc"]) = Some (FileNode (lit "bytes") false false) /\
  lookup t' (recipes_in [lit "usr"] ++ [lit ".old.py"]) = None /\
  find_recipe t' [lit "usr"; lit "bin"; lit "maike2"] [lit "src"] (mk_path false [dot]) (parse_path (lit "cxx.py")) =
    Some (parse_path (lit "/usr/lib/maike2/recipes/cxx.py"), System) /\
  find_recipe t' [lit "usr"; lit "bin"; lit "maike2"] [lit "src"] (mk_path false [dot]) (parse_path (lit "recipes/cxx.py")) =
    Some (parse_path (lit "recipes/cxx.py"), Project).
Proof. eexists. split; [vm_compute; reflexivity|]. vm_compute. repeat split; reflexivity. Qed.

(** A directory that is a file, a name that looks like an option, the place of the source, and
    no recipes that match *)
Example w_not_installed :
  install true true (fun _ => false) [lit "src"] (Some (lit "/usr")) (w_system [(lit "bin", FileNode [] true true)]) = None /\
  install true true (fun _ => false) [lit "src"] (Some (lit "-v")) (w_system []) = None /\
  install true true (fun _ => false) [lit "src"] (Some (lit "__targets/core")) (w_system []) = None /\
  install true true (fun _ => false) [lit "src"] (Some (lit "/usr"))
    (DirNode true true
      [(lit "src", DirNode true true
         [(lit "__targets", DirNode true true [(lit "core", DirNode true true [(lit "bin", DirNode true true [(lit "maike2", FileNode (lit "ELF") false false)])])]);
          (lit "recipes", DirNode true true [(lit ".old.py", FileNode [] true true)])])]) = None.
Proof. vm_compute. repeat split; reflexivity. Qed.

(** C118. Wrong: all users can run the program if the directories that there were permit it. With
    another umask, the directories that are made can not be searched, although the permissions
    of the files are set. *)
Theorem C118_umask_refuted : ~ forall mask_r mask_x fails here d dir t t', Forall ordinary here -> names_directory here (argument dir) d ->
  install mask_r mask_x fails here dir t = Some t' -> open_so_far t (d ++ [lit "bin"]) -> open_so_far t (recipes_in d) -> usable t' (program_in d).
Proof.
  intro H.
  assert (O : forall p, open_so_far (w_system []) ([lit "usr"] ++ p)).
  { intros p q rest r x es E L. destruct q as [|a q]; [injection L as _ <- _; reflexivity|]. cbn [app] in E. injection E as <- E.
    destruct q as [|b q]; [injection L as _ <- _; reflexivity|discriminate]. }
  destruct (install false false (fun _ => false) [lit "src"] (Some (lit "/usr")) (w_system [])) as [t'|] eqn:E; [|vm_compute in E; discriminate].
  pose proof (H false false (fun _ => false) [lit "src"] [lit "usr"] (Some (lit "/usr")) (w_system []) t' w_here (proj1 w_named) E (O _) (O _)) as (R & _).
  specialize (R [lit "usr"; lit "bin"] [lit "maike2"] eq_refl ltac:(discriminate)).
  assert (L : match lookup t' [lit "usr"; lit "bin"] with Some (DirNode _ x _) => x = false | _ => False end).
  { vm_compute in E. injection E as <-. reflexivity. }
  destruct (lookup t' [lit "usr"; lit "bin"]) as [[|]|]; [contradiction| |contradiction]. congruence.
Qed.
Print Assumptions C118_umask_refuted.

(** C118. Wrong: the installed program finds no recipes but those of the version it belongs to.
    Recipes of an older version remain. *)
Theorem C118_version_refuted : ~ forall mask_r mask_x fails here d dir t t' n c, Forall ordinary here -> names_directory here (argument dir) d ->
  install mask_r mask_x fails here dir t = Some t' -> separate here d -> file_at t' (recipes_in d ++ [n]) c -> file_at t (here ++ [lit "recipes"; n]) c.
Proof.
  intro H.
  set (old := [(lit "lib", DirNode true true [(lit "maike2", DirNode true true [(lit "recipes", DirNode true true [(lit "gone.py", FileNode [] true true)])])])]).
  destruct (install true true (fun _ => false) [lit "src"] (Some (lit "/usr")) (w_system old)) as [t'|] eqn:E; [|vm_compute in E; discriminate].
  destruct (H true true (fun _ => false) [lit "src"] [lit "usr"] (Some (lit "/usr")) (w_system old) t' (lit "gone.py") [] w_here (proj1 w_named) E w_separate) as (r & x & L).
  - vm_compute in E. injection E as <-. exists true, true. reflexivity.
  - discriminate.
Qed.
Print Assumptions C118_version_refuted.

(** C117: a run in which nothing is installed *)
Example w_build : let run := fun cs (c : command) => if str_eqb (hd [] c) (lit "maike2") then None else Some 0%Z in
  build run [] = ([first_build; bootstrap; second_build], 0%Z) /\ build run [lit "get_tags"] = ([], 0%Z) /\
  build (fun _ _ => Some 2%Z) [] = ([first_build], 2%Z) /\ build (fun _ _ => None) [] = ([first_build; bootstrap], 1%Z).
Proof. repeat split. Qed.
