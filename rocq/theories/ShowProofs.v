(** Proofs about what the program writes. *)

From Coq Require Import Ascii String NArith ZArith Bool Lia.
From Coq Require Import List.
From Verif Require Import Str Path PathProofs ValueModel ValueSpec ValueProofs CmdModel CmdSpec CmdProofs RecipeModel.
From Verif Require Import SMap JsonModel DbModel GraphModel DepGraphModel DepGraphSpec FileListModel FileListSpec LoadModel CfgModel.
From Verif Require Import MainModel MainSpec MainProofs JobModel JobSpec JobProofs ShowModel ShowSpec.
Import ListNotations.

(** * Lines *)

Lemma numeral_digits base s z : numeral base s z -> Forall hexadecimal s.
Proof.
  induction 1 as [c d D B|s n c d H IH D B]; [repeat constructor; now exists d|].
  apply Forall_app. split; [exact IH|]. repeat constructor. now exists d.
Qed.

Lemma newline_not_digit : ~ hexadecimal newline.
Proof. rewrite hexadecimal_nibble. intro H. now apply H. Qed.

Lemma decimal_line z : ~ In newline (decimal z).
Proof.
  intro I. pose proof (decimal_integer z) as D.
  assert (forall s n, numeral 10 s n -> ~ In newline s) as K.
  { intros s n N J. apply newline_not_digit. pose proof (numeral_digits 10 s n N) as F. rewrite Forall_forall in F. now apply F. }
  remember (decimal z) as s. clear Heqs. destruct D as [s n N|s n N|s n N].
  - exact (K s n N I).
  - destruct I as [I | I]; [discriminate I|exact (K s n N I)].
  - destruct I as [I | I]; [discriminate I|exact (K s n N I)].
Qed.

Lemma padded_line n z : ~ In newline (padded n z).
Proof.
  unfold padded. rewrite !in_app_iff. intros [I | [I | I]].
  - destruct (z <? 0)%Z; [destruct I as [I | []]; discriminate I|exact I].
  - apply repeat_spec in I. discriminate I.
  - exact (decimal_line _ I).
Qed.

Lemma format_line ns : ~ In newline (format_time ns).
Proof.
  unfold format_time. cbv zeta. rewrite !in_app_iff.
  intros [I | [I | [I | [I | [I | [I | [I | [I | [I | [I | [I | I]]]]]]]]]]];
    try exact (padded_line _ _ I); cbn in I; repeat (destruct I as [I | I]; [discriminate I|]); exact I.
Qed.

Lemma id_line b : ValueSpec.build_id b -> ~ In newline (id_to_string b).
Proof.
  intros B I. destruct (id_prints b B) as [_ F]. rewrite Forall_forall in F. specialize (F _ I).
  cbn in F. repeat (destruct F as [F | F]; [discriminate F|]). exact F.
Qed.

Definition banner_lines (j : job) : list str :=
  [lit "# Build job with " ++ decimal (job_workers j) ++ lit " workers started"; lit "#";
   lit "# Start time: " ++ format_time (start_time (job_info j) * 1000000000);
   lit "#         Id: " ++ RecipeModel.build_id (job_info j);
   lit "# Source dir: " ++ path_string (bi_source_dir (job_info j));
   lit "# Target dir: " ++ path_string (bi_target_dir (job_info j)); lit "#"].

Lemma not_in_app {A} (x : A) l l' : ~ In x l -> ~ In x l' -> ~ In x (l ++ l').
Proof. rewrite in_app_iff. tauto. Qed.

Ltac no_newline := cbn; let I := fresh in intro I; repeat (destruct I as [I | I]; [discriminate I|]); exact I.

Lemma banner_text around argv j : proper_around around -> make_job around argv = JobReady j ->
  ~ In newline (path_string (bi_source_dir (job_info j))) -> ~ In newline (path_string (bi_target_dir (job_info j))) ->
  text_lines (banner j) (banner_lines j).
Proof.
  intros P H S T. split.
  - unfold banner, banner_lines, line_end. cbn [map concat]. change ["010"%char] with [newline]. now rewrite app_nil_r, <- !app_assoc.
  - destruct (id_proper around argv j P H) as (b & E & B).
    repeat constructor; try no_newline; apply not_in_app; try no_newline; try assumption.
    + apply not_in_app; [apply decimal_line|no_newline].
    + apply format_line.
    + rewrite E. now apply id_line.
Qed.

Lemma banner_comments j : filter (fun l => negb (is_comment l)) (banner_lines j) = [].
Proof. reflexivity. Qed.

Lemma text_lines_app a b la lb : text_lines a la -> text_lines b lb -> text_lines (a ++ b) (la ++ lb).
Proof.
  intros [-> F] [-> G]. split; [now rewrite map_app, concat_app|]. apply Forall_app. now split.
Qed.

(** C88: the list of targets *)
Lemma targets_read around argv j names text : proper_around around -> make_job around argv = JobReady j ->
  ~ In newline (path_string (bi_source_dir (job_info j))) -> ~ In newline (path_string (bi_target_dir (job_info j))) ->
  (forall p, In p names -> ~ In newline (path_string p) /\ is_comment (path_string p) = false) ->
  standard_output j (TargetNames names) = Some text ->
  exists ls, text_lines text ls /\ filter (fun l => negb (is_comment l)) ls = map path_string names.
Proof.
  intros P H S T N E. assert (text = banner j ++ targets_text names) as -> by (unfold standard_output in E; congruence). exists (banner_lines j ++ map path_string names). split.
  - apply text_lines_app; [now apply (banner_text around argv)|]. split.
    + unfold targets_text. rewrite flat_map_concat_map, map_map. reflexivity.
    + apply Forall_forall. intros l I. apply in_map_iff in I. destruct I as (p & <- & I). now apply N.
  - rewrite filter_app, banner_comments. cbn [app]. clear - N. induction names as [|p names IH]; [reflexivity|].
    cbn [map filter]. rewrite (proj2 (N p (or_introl eq_refl))). cbn [negb]. f_equal. apply IH. intros q I. apply N. now right.
Qed.

(** * The graph *)

Lemma ignored_line l rest : ~ In newline l -> dot_tokens Ignoring (l ++ newline :: rest) = dot_tokens LineStart rest.
Proof.
  induction l as [|c l IH]; intro N.
  - cbn. now destruct (dot_tokens LineStart rest).
  - cbn [app dot_tokens dot_next]. assert (Ascii.eqb c newline = false) as -> by (apply Ascii.eqb_neq; intros ->; apply N; now left).
    rewrite IH by (intro I; apply N; now right). now destruct (dot_tokens LineStart rest).
Qed.

Lemma comment_lines : forall ls rest, Forall (fun l => ~ In newline l) ls -> Forall (fun l => is_comment l = true) ls ->
  dot_tokens LineStart (concat (map (fun l => l ++ [newline]) ls) ++ rest) = dot_tokens LineStart rest.
Proof.
  induction ls as [|l ls IH]; intros rest F C; [reflexivity|].
  inversion F as [|? ? F1 F2]; subst. inversion C as [|? ? C1 C2]; subst.
  cbn [map concat]. rewrite <- !app_assoc. cbn [app]. destruct l as [|c l]; [discriminate|].
  cbn in C1. cbn [app dot_tokens dot_next]. rewrite C1. rewrite ignored_line by (intro I; apply F1; now right).
  rewrite IH by assumption. now destruct (dot_tokens LineStart rest).
Qed.

Lemma quoted_name : forall s acc rest, quotable s ->
  dot_tokens (InQuotes acc) (s ++ "034"%char :: rest) = option_map (cons (Quoted (acc ++ s))) (dot_tokens Between rest).
Proof.
  induction s as [|c s IH]; intros acc rest [Q B].
  - cbn. rewrite app_nil_r. now destruct (dot_tokens Between rest).
  - cbn [app dot_tokens dot_next]. assert (Ascii.eqb c "034" = false) as -> by (apply Ascii.eqb_neq; intros ->; apply Q; now left).
    assert (Ascii.eqb c "\" = false) as -> by (apply Ascii.eqb_neq; intros ->; apply B; now left).
    rewrite IH by (split; intro I; [apply Q|apply B]; now right). rewrite <- app_assoc. cbn [app].
    now destruct (dot_tokens Between rest).
Qed.

Definition edge_line (e : path * path) : str :=
  double_quote ++ path_string (fst e) ++ double_quote ++ lit " -> " ++ double_quote ++ path_string (snd e) ++ double_quote ++ line_end.

Lemma option_map_map {A B C} (f : B -> C) (g : A -> B) (o : option A) : option_map f (option_map g o) = option_map (fun x => f (g x)) o.
Proof. now destruct o. Qed.

Lemma option_map_app_nil {A} (o : option (list A)) : option_map (app []) o = o.
Proof. now destruct o. Qed.

Lemma dot_step st c r st' ts : dot_next st c = Some (st', ts) -> dot_tokens st (c :: r) = option_map (app ts) (dot_tokens st' r).
Proof. intro H. cbn [dot_tokens]. now rewrite H. Qed.

Lemma edge_tokens e rest : quotable (path_string (fst e)) -> quotable (path_string (snd e)) ->
  dot_tokens LineStart (edge_line e ++ rest) =
  option_map (fun ts => Quoted (path_string (fst e)) :: Arrow :: Quoted (path_string (snd e)) :: ts) (dot_tokens LineStart rest).
Proof.
  intros A B.
  assert (edge_line e ++ rest = "034"%char :: path_string (fst e) ++ "034"%char :: " "%char :: "-"%char :: ">"%char :: " "%char
    :: "034"%char :: path_string (snd e) ++ "034"%char :: newline :: rest) as ->.
  { unfold edge_line, double_quote, line_end. rewrite <- !app_assoc. reflexivity. }
  rewrite (dot_step LineStart "034" _ (InQuotes []) []) by reflexivity.
  rewrite quoted_name by assumption.
  rewrite (dot_step Between " " _ Between []) by reflexivity. rewrite (dot_step Between "-" _ Minus []) by reflexivity.
  rewrite (dot_step Minus ">" _ Between [Arrow]) by reflexivity. rewrite (dot_step Between " " _ Between []) by reflexivity.
  rewrite (dot_step Between "034" _ (InQuotes []) []) by reflexivity. rewrite quoted_name by assumption.
  rewrite (dot_step Between newline _ LineStart []) by reflexivity.
  now destruct (dot_tokens LineStart rest).
Qed.

Lemma edges_tokens : forall edges rest,
  (forall p q, In (p, q) edges -> quotable (path_string p) /\ quotable (path_string q)) ->
  dot_tokens LineStart (flat_map edge_line edges ++ rest) =
  option_map (app (flat_map (fun e => [Quoted (path_string (fst e)); Arrow; Quoted (path_string (snd e))]) edges)) (dot_tokens LineStart rest).
Proof.
  induction edges as [|[p q] edges IH]; intros rest H; [cbn; now destruct (dot_tokens LineStart rest)|].
  cbn [flat_map]. rewrite <- app_assoc. destruct (H p q (or_introl eq_refl)) as [A B].
  rewrite edge_tokens by assumption. rewrite IH by (intros; apply H; now right). rewrite option_map_map. reflexivity.
Qed.

Lemma edges_statements edges :
  dot_statements (flat_map (fun e => [Quoted (path_string (fst e)); Arrow; Quoted (path_string (snd e))]) edges ++ [CloseBrace]) =
  Some (map (fun e => (path_string (fst e), path_string (snd e))) edges).
Proof.
  induction edges as [|e edges IH]; [reflexivity|]. cbn [flat_map app map dot_statements]. now rewrite IH.
Qed.

Lemma graph_head rest : exists ts0, ts0 = [Word (lit "digraph"); Quoted (lit "G"); OpenBrace; Word (lit "rankdir"); Equals; Word (lit "LR")] /\
  dot_tokens LineStart (lit "digraph " ++ double_quote ++ lit "G" ++ double_quote ++ lit " {" ++ line_end
    ++ lit "rankdir=LR" ++ line_end ++ line_end ++ rest) = option_map (app ts0) (dot_tokens LineStart rest).
Proof.
  eexists. split; [reflexivity|]. cbv [lit list_ascii_of_string double_quote line_end app]. 
  repeat (cbn [dot_tokens]; match goal with |- context [dot_next ?s ?c] =>
    let r := eval vm_compute in (dot_next s c) in change (dot_next s c) with r; cbv iota beta end).
  now destruct (dot_tokens LineStart rest).
Qed.

(** C88: the graph *)
Lemma graph_read around argv j edges text : proper_around around -> make_job around argv = JobReady j ->
  ~ In newline (path_string (bi_source_dir (job_info j))) -> ~ In newline (path_string (bi_target_dir (job_info j))) ->
  (forall p q, In (p, q) edges -> quotable (path_string p) /\ quotable (path_string q)) ->
  standard_output j (GraphEdges edges) = Some text ->
  dot_edges text = Some (map (fun e => (path_string (fst e), path_string (snd e))) edges).
Proof.
  intros P H S T Q E. assert (text = banner j ++ graph_text edges) as -> by (unfold standard_output in E; congruence). unfold dot_edges.
  destruct (banner_text around argv j P H S T) as [-> F].
  rewrite comment_lines; [|exact F|repeat constructor].
  unfold graph_text. destruct (graph_head (flat_map edge_line edges ++ lit "}" ++ line_end)) as (ts0 & -> & G).
  match goal with |- context [dot_tokens LineStart ?t] => change t with (lit "digraph " ++ double_quote ++ lit "G" ++ double_quote ++ lit " {" ++ line_end
    ++ lit "rankdir=LR" ++ line_end ++ line_end ++ flat_map edge_line edges ++ lit "}" ++ line_end) end.
  rewrite G. change (flat_map _ edges) with (flat_map edge_line edges). rewrite edges_tokens by exact Q.
  change (dot_tokens LineStart (lit "}" ++ line_end)) with (Some [CloseBrace]). cbn [option_map app].
  change (str_eqb (lit "digraph") (lit "digraph")) with true. cbv iota. cbn [dot_statements]. apply edges_statements.
Qed.

(** * The program *)

Lemma find_shown evs s t fs what rest : plain evs ->
  find shows ((evs ++ [Scanned s t fs]) ++ Shown None what :: rest) = Some (Shown None what).
Proof.
  intro P. rewrite <- app_assoc. induction evs as [|e evs IH]; [reflexivity|]. cbn [app find].
  assert (shows e = false) as ->.
  { specialize (P e (or_introl eq_refl)). destruct e; try reflexivity. destruct P. }
  apply IH. intros e' I. apply P. now right.
Qed.

Theorem list_read env around argv j s td fs ts g : proper_around around -> make_job around argv = JobReady j ->
  given job_accepts argv ListTargets -> In (Scanned s td fs) (fst (main env job_accepts argv)) ->
  scanned fs -> load_project fs = Loaded (ts, g) -> ~ In newline (path_string s) -> ~ In newline (path_string td) ->
  (forall k, In k (map fst (declared_targets fs)) -> listable (path_string (lexically_relative k td))) ->
  exists text ls, shown_output env around argv = Some text /\ text_lines text ls /\
    (forall l, In l ls /\ is_comment l = false <->
       exists k, In k (map fst (declared_targets fs)) /\ l = path_string (lexically_relative k td)) /\
    length (filter (fun l => negb (is_comment l)) ls) = length (declared_targets fs).
Proof.
  intros P J G I Sc L Ns Nt Ok. destruct (same_directories env around argv j s td fs J I) as [Es Et].
  destruct (listing env job_accepts argv s td fs ts g G I Sc L) as (_ & names & Sh & Iff & Len).
  destruct (scanned_event _ _ _ _ _ _ I) as (a & evs & E & Q & -> & -> & _ & [[(e & X) _] | (ts' & g' & L' & M)]); [congruence|].
  rewrite L in L'. injection L' as <- <-. apply (has_option_iff job_accepts argv a _ E) in G.
  unfold finish_phase in M. rewrite G in M.
  assert (names = target_names ts (target_directory a)) as ->.
  { rewrite M in Sh. cbn [fst emit] in Sh. apply in_app_or in Sh. destruct Sh as [Sh | [Sh | []]]; [|congruence].
    apply in_app_or in Sh. destruct Sh as [Sh | [Sh | []]]; [destruct (Q _ Sh)|discriminate]. }
  exists (banner j ++ targets_text (target_names ts (target_directory a))).
  destruct (targets_read around argv j (target_names ts (target_directory a))
    (banner j ++ targets_text (target_names ts (target_directory a))) P J) as (ls & T & F); try reflexivity.
  - now rewrite <- Es.
  - now rewrite <- Et.
  - intros p Ip. apply Iff in Ip. destruct Ip as (k & K & ->). now apply Ok.
  - exists ls. split; [|split; [exact T|split]].
    + unfold shown_output. rewrite J, M. cbn [fst emit]. rewrite (find_shown evs _ _ fs _ [] Q). reflexivity.
    + intro l. transitivity (In l (filter (fun l => negb (is_comment l)) ls)).
      * rewrite filter_In. now destruct (is_comment l); intuition.
      * rewrite F, in_map_iff. split.
        -- intros (p & <- & Ip). apply Iff in Ip. destruct Ip as (k & K & ->). now exists k.
        -- intros (k & K & ->). exists (lexically_relative k (target_directory a)). split; [reflexivity|]. apply Iff. now exists k.
    + rewrite F, map_length. exact Len.
Qed.

Theorem digraph_read env around argv j s td fs ts g : proper_around around -> make_job around argv = JobReady j ->
  given job_accepts argv PrintDepGraph -> ~ given job_accepts argv ListTargets ->
  In (Scanned s td fs) (fst (main env job_accepts argv)) -> load_project fs = Loaded (ts, g) ->
  ~ In newline (path_string s) -> ~ In newline (path_string td) ->
  (forall p d, declared_by g p d -> quotable (path_string p) /\ quotable (path_string (dep_name d))) ->
  exists text edges, shown_output env around argv = Some text /\ dot_edges text = Some edges /\
    forall a b, In (a, b) edges <-> exists p d, declared_by g p d /\ a = path_string p /\ b = path_string (dep_name d).
Proof.
  intros P J G N I L Ns Nt Ok. destruct (same_directories env around argv j s td fs J I) as [Es Et].
  destruct (printed_graph env job_accepts argv s td fs ts g G N I L) as (_ & edges & Sh & _ & Iff).
  destruct (scanned_event _ _ _ _ _ _ I) as (a & evs & E & Q & -> & -> & _ & [[(e & X) _] | (ts' & g' & L' & M)]); [congruence|].
  rewrite L in L'. injection L' as <- <-. apply (has_option_iff job_accepts argv a _ E) in G.
  apply (has_option_not job_accepts argv a _ E) in N. unfold finish_phase in M. rewrite G, N in M.
  assert (edges = graph_edges g) as ->.
  { rewrite M in Sh. cbn [fst emit] in Sh. apply in_app_or in Sh. destruct Sh as [Sh | [Sh | []]]; [|congruence].
    apply in_app_or in Sh. destruct Sh as [Sh | [Sh | []]]; [destruct (Q _ Sh)|discriminate]. }
  exists (banner j ++ graph_text (graph_edges g)), (map (fun e => (path_string (fst e), path_string (snd e))) (graph_edges g)).
  split; [|split].
  - unfold shown_output. rewrite J, M. cbn [fst emit]. rewrite (find_shown evs _ _ fs _ [] Q). reflexivity.
  - apply (graph_read around argv j (graph_edges g) _ P J); try (rewrite <- Es; assumption); try (rewrite <- Et; assumption); [|reflexivity].
    intros p q Ip. apply Iff in Ip. destruct Ip as (d & D & <-). exact (Ok p d D).
  - intros x y. rewrite in_map_iff. split.
    + intros ([p q] & X & Ip). injection X as <- <-. apply Iff in Ip. destruct Ip as (d & D & <-). now exists p, d.
    + intros (p & d & D & -> & ->). exists (p, dep_name d). split; [reflexivity|]. apply Iff. now exists d.
Qed.
