(** Proofs about the integration tests: comparing build ids. *)

From Coq Require Import Ascii String Bool Arith Lia.
From Coq Require Import List.
From Verif Require Import Str PathProofs AboutModel IntegModel IntegSpec IntegProofs IntegProofs2.
Import ListNotations.
Local Open Scope string_scope.
Local Open Scope list_scope.

Ltac other := let E := fresh in match goal with |- context[list_eq_dec ?a ?b ?c] => destruct (list_eq_dec a b c) as [E|_]; [vm_compute in E; discriminate E|] end.
Ltac this := let N := fresh in match goal with |- context[list_eq_dec ?a ?b ?c] => destruct (list_eq_dec a b c) as [_|N]; [|now elim N] end.

Lemma tool_log s : tool (tool_words id_in_log) s = Some (grep log_line s).
Proof. unfold tool. cbv zeta. this. reflexivity. Qed.
Lemma tool_version s : tool (tool_words id_in_version) s = Some (grep (occurs (lit "Build id")) s).
Proof. unfold tool. cbv zeta. other. this. reflexivity. Qed.
Lemma tool_awk s : tool (tool_words after_colon) s = Some (awk ":"%char s).
Proof. unfold tool. cbv zeta. do 3 other. this. reflexivity. Qed.
Lemma tool_sed s : tool (tool_words strip) s = Some (sed s).
Proof. unfold tool. cbv zeta. do 5 other. this. reflexivity. Qed.
Lemma tool_echo text s : tool [lit "echo"; text] s = Some (0, text ++ ["010"%char]).
Proof.
  unfold tool. cbv zeta.
  do 7 (let E := fresh in match goal with |- context[list_eq_dec ?a ?b ?c] => destruct (list_eq_dec a b c) as [E|_]; [exfalso; apply (f_equal (@hd str [])) in E; vm_compute in E; discriminate E|] end).
  reflexivity.
Qed.

Section Ids.
Variable run : list event -> list str -> str -> nat * str.
Hypothesis T : tools_work run.

Lemma by_log env h i n o : run h (expand env id_in_log) i = (n, o) -> o = snd (grep log_line i).
Proof. change (expand env id_in_log) with (tool_words id_in_log). rewrite (T _ _ _ _ (tool_log i)). intros ->. reflexivity. Qed.
Lemma by_version env h i n o : run h (expand env id_in_version) i = (n, o) -> o = snd (grep (occurs (lit "Build id")) i).
Proof. change (expand env id_in_version) with (tool_words id_in_version). rewrite (T _ _ _ _ (tool_version i)). intros ->. reflexivity. Qed.
Lemma by_awk env h i n o : run h (expand env after_colon) i = (n, o) -> o = snd (awk ":"%char i).
Proof. change (expand env after_colon) with (tool_words after_colon). rewrite (T _ _ _ _ (tool_awk i)). intros ->. reflexivity. Qed.
Lemma by_sed env h i n o : run h (expand env strip) i = (n, o) -> o = snd (sed i).
Proof. change (expand env strip) with (tool_words strip). rewrite (T _ _ _ _ (tool_sed i)). intros ->. reflexivity. Qed.

Lemma by_echo env h v i n o : run h (expand env [`"echo"; [Quoted v]]) i = (n, o) -> o = env v ++ ["010"%char].
Proof. change (expand env [`"echo"; [Quoted v]]) with [lit "echo"; env v]. rewrite (T _ _ _ _ (tool_echo _ _)). now intros [= <- <-]. Qed.

Lemma id_of_log env h1 h2 h3 text n1 o1 n2 o2 n3 o3 id :
  run h1 (expand env id_in_log) text = (n1, o1) -> run h2 (expand env after_colon) o1 = (n2, o2) -> run h3 (expand env strip) o2 = (n3, o3) ->
  log_tells text id -> substituted o3 = id.
Proof.
  intros A B C (I & O). apply by_log in A. apply by_awk in B. apply by_sed in C. subst o1 o2.
  eapply (id_taken _ _ text (lit "#         Id") id o3 log_line_spec I); [|exact O|now symmetry].
  vm_compute. intros H. repeat (destruct H as [H|H]; [discriminate H|]). exact H.
Qed.

Lemma id_of_version env h1 h2 h3 text n1 o1 n2 o2 n3 o3 id :
  run h1 (expand env id_in_version) text = (n1, o1) -> run h2 (expand env after_colon) o1 = (n2, o2) -> run h3 (expand env strip) o2 = (n3, o3) ->
  version_tells text id -> substituted o3 = id.
Proof.
  intros A B C (I & O). apply by_version in A. apply by_awk in B. apply by_sed in C. subst o1 o2.
  eapply (id_taken _ _ text (lit "Build id") id o3 (occurs_spec _) I); [|exact O|now symmetry].
  vm_compute. intros H. repeat (destruct H as [H|H]; [discriminate H|]). exact H.
Qed.

Lemma version_echoed text id : version_tells text id -> version_tells (substituted text ++ ["010"%char]) id.
Proof. intros (I & O). split; [exact I|]. apply only_echoed; [discriminate|exact O]. Qed.

Lemma step_if a b yes no k sh sh' r : exec run (IfEqual a b yes no k) sh = (sh', r) ->
  exists sh1 r1, exec run (if str_eqb (value_of sh a) (value_of sh b) then yes else no) sh = (sh1, r1) /\
    (r1 = None -> exec run k sh1 = (sh', r)) /\ (r1 <> None -> sh' = sh1 /\ r = r1).
Proof.
  cbn [exec]. destruct (exec run _ sh) as [sh1 [n|]].
  - intros [= <- <-]. exists sh1, (Some n). now repeat split.
  - intro H. exists sh1, None. now repeat split.
Qed.

(** The comparison at the end *)
Lemma compared a b m1 m2 m3 k sh sh' r :
  exec run (IfEqual a b (Exit 0 End) (Cmd m1 (Cmd m2 (Cmd m3 (Exit 1 End)))) k) sh = (sh', r) -> good (events sh') ->
  (match r with Some n => n | None => 0 end = 0 <-> value_of sh a = value_of sh b) /\ exists l, events sh' = events sh ++ l.
Proof.
  intros H G. apply step_if in H as (sh1 & r1 & H & E1 & E2). destruct (str_eqb _ _) eqn:Q.
  - cbn [exec] in H. injection H as <- <-. destruct (E2 ltac:(discriminate)) as (-> & ->). split.
    + split; [|reflexivity]. intros _. now apply str_eqb_eq.
    + exists []. now rewrite app_nil_r.
  - assert (N : r1 <> None).
    { intros ->. revert H. cbn [exec]. unfold run_one. repeat (destruct (run _ _ _) as [? ?]; destruct (Nat.eqb _ 0)); discriminate. }
    destruct (E2 N) as (-> & ->). assert (F : ok sh1 r1) by now right.
    step H F. step H F. step H F. cbn [exec] in H. injection H as <- <-. split.
    + split; [discriminate|]. intro E. apply str_eqb_eq in E. now rewrite E in Q.
    + cbn [events]. rewrite <- !app_assoc. eauto.
Qed.

Ltac pipe H F A B C D := apply step_let4 in H; [|exact F]; destruct H as (? & ? & ? & ? & ? & ? & ? & A & (? & B) & (? & C) & (? & D) & H); cbn [value_of events exit_status app] in H.

Theorem new_version_id env d t : env v_install = d -> env v_target = t -> one_word d -> one_word t ->
  let r := script_run run build_new_version env in passed (fst r) ->
  exists e1 e2, nth_error (events (fst r)) 2 = Some e1 /\ ran e1 = [d ++ lit "/bin/maike2"; lit "--target-dir=" ++ t] /\
    nth_error (events (fst r)) 6 = Some e2 /\ ran e2 = w ["__targets/core/bin/maike2"; "--version"] /\ result e2 = 0 /\
    forall id1 id2, log_tells (output e1) id1 -> version_tells (output e2) id2 -> (status_of r = 0 <-> id1 = id2).
Proof.
  intros <- <- Od Ot. cbv zeta. unfold script_run, status_of. destruct (exec run build_new_version _) as [sh r] eqn:H. unfold build_new_version in H. cbn [fst snd]. intro G.
  assert (F : ok sh r) by now right.
  step H F. step H F. pipe H F P P0 P1 P2. step H F. pipe H F P3 P4 P5 P6. step H F. pipe H F Q Q0 Q1 Q2.
  apply compared in H as (S & l & E); [|exact G]. cbn [events value_of] in *. sets_in S.
  rewrite E. cbn [app nth_error]. do 2 eexists. split; [reflexivity|]. split; [cbn [ran]; words; reflexivity|]. split; [reflexivity|].
  split; [reflexivity|]. split; [reflexivity|]. cbn [output]. intros id1 id2 L V. rewrite S.
  erewrite (id_of_log _ _ _ _ _ _ _ _ _ _ _ _ P0 P1 P2 L).
  apply by_echo in P3. sets_in P3. subst.
  erewrite (id_of_version _ _ _ _ _ _ _ _ _ _ _ _ P4 P5 P6 (version_echoed _ _ V)). split; congruence.
Qed.

Theorem release_id env : 
  let r := script_run run bootstrap_from_release env in passed (fst r) ->
  exists e1 e2, nth_error (events (fst r)) 7 = Some e1 /\ ran e1 = w ["__targets_bootstrap/core/bin/maike2"; "--target-dir=__targets"] /\
    nth_error (events (fst r)) 12 = Some e2 /\ ran e2 = [env v_install ++ lit "/bin/maike2"; lit "--version"] /\
    forall id1 id2, log_tells (output e1) id1 -> version_tells (output e2) id2 -> (status_of r = 0 <-> id1 = id2).
Proof.
  cbv zeta. unfold script_run, status_of. destruct (exec run bootstrap_from_release _) as [sh r] eqn:H. unfold bootstrap_from_release in H. cbn [fst snd]. intro G.
  assert (F : ok sh r) by now right.
  step H F. step H F. rewrite step_trap in H. step H F. step H F. step H F. step H F. step H F. pipe H F P P0 P1 P2. step H F. pipe H F P3 P4 P5 P6.
  apply compared in H as (S & l & E); [|exact G]. cbn [events value_of] in *. sets_in S.
  rewrite E. cbn [app nth_error]. do 2 eexists. split; [reflexivity|]. split; [reflexivity|]. split; [reflexivity|].
  split; [cbn [ran]; words; reflexivity|]. cbn [output]. intros id1 id2 L V. rewrite S.
  erewrite (id_of_log _ _ _ _ _ _ _ _ _ _ _ _ P0 P1 P2 L).
  erewrite (id_of_version _ _ _ _ _ _ _ _ _ _ _ _ P4 P5 P6 V). split; congruence.
Qed.

Theorem did_release env :
  let r := script_run run bootstrap_from_release env in passed (fst r) ->
  exists e, nth_error (events (fst r)) 1 = Some e /\ ran e = w ["mktemp"; "-d"] /\
    forall d, output e = unlines [d] -> one_word d ->
    firstn 7 (map ran (events (fst r))) =
      [[lit "echo"; lit "Bootstraping from " ++ env v_version];
       w ["mktemp"; "-d"];
       [lit "cd"; d];
       [lit "wget"; lit "https://github.com/milasudril/maike/releases/download/" ++ env v_version ++ lit "/maike-src.tar.gz"];
       w ["tar"; "-xf"; "maike-src.tar.gz"];
       w ["cd"; "maike-src"];
       w ["sh"; "-x"; "__buildcache/bootstrap.sh"]] /\
    nth_error (map ran (events (fst r))) 11 = Some [lit "make"; lit "PREFIX=" ++ env v_install; lit "install"].
Proof.
  cbv zeta. unfold script_run, status_of. destruct (exec run bootstrap_from_release _) as [sh r] eqn:H. unfold bootstrap_from_release in H. cbn [fst snd]. intro G.
  assert (F : ok sh r) by now right.
  step H F. step H F. rewrite step_trap in H. step H F. step H F. step H F. step H F. step H F. pipe H F P P0 P1 P2. step H F. pipe H F P3 P4 P5 P6.
  apply compared in H as (_ & l & E); [|exact G]. cbn [events value_of] in *. rewrite E. cbn [app nth_error map firstn ran].
  eexists. split; [reflexivity|]. split; [reflexivity|]. cbn [output]. intros d D O. 
  match type of D with ?o = _ => assert (Sd : substituted o = d) by (rewrite D; apply substituted_line; [apply O|intro I; apply O in I; tauto]) end.
  assert (Bd : forall env', env' v_tmp = d -> expand_word env' [Bare v_tmp] = [d]) by (intros env' <-; apply bare_word; exact O).
  split; [|words; reflexivity]. words. rewrite Bd by exact Sd. reflexivity.
Qed.
End Ids.

(** ** What the program writes *)

Lemma no_id_line s : log_line s = false -> ~ id_line s.
Proof. intros E I. apply log_line_spec in I. now rewrite I in E. Qed.

Lemma no_has p s : occurs p s = false -> ~ has p s.
Proof. intros E I. apply occurs_spec in I. now rewrite I in E. Qed.

Lemma no_nl_lit s : forallb (fun c => negb (Ascii.eqb c "010"%char)) s = true -> ~ In "010"%char s.
Proof. intros F I. rewrite forallb_forall in F. apply F in I. discriminate. Qed.

Theorem job_tells workers started id source target rest : id_text id ->
  (forall x, In x ((lit "# Build job with " ++ workers ++ lit " workers started") :: (lit "# Start time: " ++ started) ::
                   (lit "# Source dir: " ++ source) :: (lit "# Target dir: " ++ target) :: rest) -> ~ id_line x /\ ~ In "010"%char x) ->
  log_tells (job_started workers started id source target ++ unlines rest) id.
Proof.
  intros I O. split; [exact I|].
  exists [lit "# Build job with " ++ workers ++ lit " workers started"; lit "#"; lit "# Start time: " ++ started],
         ((lit "# Source dir: " ++ source) :: (lit "# Target dir: " ++ target) :: lit "#" :: rest).
  split; [|split; [|split]].
  - unfold job_started, unlines, nl. cbn [app map concat]. repeat (rewrite <- !app_assoc; cbn [app]). reflexivity.
  - exists [], " "%char, (lit "        Id: " ++ id). split; [reflexivity|]. split; [reflexivity|]. exists (lit "        "), (" "%char :: id). reflexivity.
  - intros x Ix. cbn [app In] in Ix. destruct Ix as [<-|[<-|[<-|[<-|[<-|[<-|Ix]]]]]]; try (apply O; cbn [In]; tauto); now apply no_id_line.
  - intros x Ix. cbn [app In] in Ix. destruct Ix as [<-|[<-|[<-|[<-|[<-|[<-|[<-|Ix]]]]]]]; try (apply O; cbn [In]; tauto); try (now apply no_nl_lit).
    intro N. apply in_app_or in N as [N|N]; [now revert N; apply no_nl_lit|now apply (id_no_nl id)].
Qed.

Theorem version_tells_id (v : variables) id : v (lit "BuildId") = id -> id_text id ->
  (forall x, In x [lit "# Maike " ++ v (lit "VcsTag") ++ lit " (" ++ v (lit "VcsRevisionId") ++ lit ")";
                   lit "Build start time: " ++ v (lit "BuildStartTime"); lit "Build host: " ++ v (lit "BuildHost")] ->
             ~ has (lit "Build id") x /\ ~ In "010"%char x) ->
  version_tells (print_version v) id.
Proof.
  intros <- I O. split; [exact I|].
  exists [lit "# Maike " ++ v (lit "VcsTag") ++ lit " (" ++ v (lit "VcsRevisionId") ++ lit ")"; []; lit "Build start time: " ++ v (lit "BuildStartTime"); []],
         [[]; lit "Build host: " ++ v (lit "BuildHost"); []].
  split; [|split; [|split]].
  - unfold print_version, unlines, nl. cbn [app map concat]. repeat (rewrite <- !app_assoc; cbn [app]). reflexivity.
  - exists [], (lit ": " ++ v (lit "BuildId")). reflexivity.
  - intros x Ix. cbn [app In] in Ix. destruct Ix as [<-|[<-|[<-|[<-|[<-|[<-|[<-|[]]]]]]]]; try (apply O; cbn [In]; tauto); now apply no_has.
  - intros x Ix. cbn [app In] in Ix. destruct Ix as [<-|[<-|[<-|[<-|[<-|[<-|[<-|[<-|[]]]]]]]]]; try (apply O; cbn [In]; tauto); try (now apply no_nl_lit).
    intro N. apply in_app_or in N as [N|N]; [now revert N; apply no_nl_lit|now apply (id_no_nl _ I)].
Qed.
