(** Proofs about printed commands and the log. *)

From Coq Require Import Ascii String ZArith Bool Lia.
From Coq Require Import List.
From Verif Require Import Str ValueModel BuildModel LogModel LogSpec.
From Verif Require ValueProofs.
Import ListNotations.

Definition words (cmd : command) : list str := executable cmd :: cmd_args cmd.

Lemma escape_reads s : reads_as (escape_chars s) s.
Proof.
  induction s as [|c s IH]; cbn; [constructor|].
  destruct (Ascii.eqb_spec c backslash) as [->|N1]; cbn; [now constructor|].
  destruct (Ascii.eqb_spec c quote) as [->|N2]; cbn; [now constructor|]. now constructor.
Qed.

Lemma reads_as_inj s w1 w2 : reads_as s w1 -> reads_as s w2 -> w1 = w2.
Proof.
  intro R. revert w2. induction R as [|c s w N1 N2 R IH|c s w R IH]; intros w2 H; inversion H; subst; try congruence.
  - f_equal. now apply IH.
  - f_equal. now apply IH.
Qed.

(** A closing quote is found in only one way. *)
Lemma reads_as_closing s1 w1 : reads_as s1 w1 -> forall s2 w2 r1 r2, reads_as s2 w2 ->
  s1 ++ "'"%char :: r1 = s2 ++ "'"%char :: r2 -> s1 = s2 /\ r1 = r2.
Proof.
  induction 1 as [|c s w N1 N2 R IH|c s w R IH]; intros s2 w2 r1 r2 R2 E.
  - inversion R2; subst; cbn in E.
    + injection E as ->. split; reflexivity.
    + injection E as <- _. contradiction.
    + discriminate.
  - inversion R2 as [|c' s' w' N1' N2' R'|c' s' w' R']; subst; cbn in E.
    + injection E as -> _. contradiction.
    + injection E as <- E. destruct (IH _ _ _ _ R' E) as [-> ->]. split; reflexivity.
    + injection E as -> _. contradiction.
  - inversion R2 as [|c' s' w' N1' N2' R'|c' s' w' R']; subst; cbn in E.
    + discriminate.
    + injection E as <- _. contradiction.
    + injection E as <- E. destruct (IH _ _ _ _ R' E) as [-> ->]. split; reflexivity.
Qed.

Lemma reads_words_inj s ws1 : reads_words s ws1 -> forall ws2, reads_words s ws2 -> ws1 = ws2.
Proof.
  induction 1 as [s w R|s w r ws R RW IH]; intros ws2 H; inversion H as [s' w' R' E|s' w' r' ws' R' RW' E]; subst.
  - destruct (reads_as_closing _ _ R' _ _ [] [] R E) as [-> _]. now rewrite (reads_as_inj _ _ _ R R').
  - change ["'"%char] with ("'"%char :: []) in E. destruct (reads_as_closing _ _ R' _ _ (" "%char :: r') [] R E) as [_ X]. discriminate.
  - destruct (reads_as_closing _ _ R' _ _ [] (" "%char :: r) R E) as [_ X]. discriminate.
  - destruct (reads_as_closing _ _ R' _ _ (" "%char :: r') (" "%char :: r) R E) as [-> X]. injection X as ->.
    rewrite (reads_as_inj _ _ _ R R'). f_equal. now apply IH.
Qed.

(** The printed command without the accumulator. *)
Fixpoint print_words (w : str) (ws : list str) : str :=
  match ws with
  | [] => shell_escape w
  | x :: ws' => shell_escape w ++ " "%char :: print_words x ws'
  end.

Lemma command_to_string_words cmd : command_to_string cmd = print_words (executable cmd) (cmd_args cmd).
Proof.
  unfold command_to_string. destruct cmd as [e args]; cbn.
  assert (G : forall args e pre, fold_left (fun cmdline item => (cmdline ++ lit " ") ++ shell_escape item) args (pre ++ shell_escape e)
              = pre ++ print_words e args).
  { clear. induction args as [|x args IH]; intros e pre; cbn [fold_left print_words]; [reflexivity|].
    rewrite IH. rewrite <- !app_assoc. reflexivity. }
  exact (G args e []).
Qed.

Lemma command_reads cmd : reads_words (command_to_string cmd) (words cmd).
Proof.
  rewrite command_to_string_words. destruct cmd as [e args]; unfold words; cbn.
  revert e. induction args as [|x args IH]; intro e; cbn [print_words]; unfold shell_escape.
  - cbn. apply words_last. apply escape_reads.
  - rewrite <- !app_assoc. cbn. apply words_more; [apply escape_reads|apply IH].
Qed.

Lemma command_reads_only cmd ws : reads_words (command_to_string cmd) ws -> ws = words cmd.
Proof. intro H. symmetry. exact (reads_words_inj _ _ (command_reads cmd) _ H). Qed.

Lemma command_injective c1 c2 : command_to_string c1 = command_to_string c2 -> c1 = c2.
Proof.
  intro E. pose proof (command_reads c1) as R. rewrite E in R. apply command_reads_only in R.
  destruct c1, c2; unfold words in R; cbn in R. injection R as -> ->. reflexivity.
Qed.

(** Reading with a function. *)
Fixpoint unquote (s : str) : option (str * str) :=
  match s with
  | [] => None
  | c :: s' =>
      if Ascii.eqb c quote then Some ([], s')
      else if Ascii.eqb c backslash then
        match s' with
        | [] => None
        | x :: s'' => option_map (fun p => (x :: fst p, snd p)) (unquote s'')
        end
      else option_map (fun p => (c :: fst p, snd p)) (unquote s')
  end.

Lemma unquote_escaped w rest : unquote (escape_chars w ++ quote :: rest) = Some (w, rest).
Proof.
  induction w as [|c w IH]; [reflexivity|]. cbn.
  destruct (Ascii.eqb_spec c backslash) as [->|N1]; [cbn; now rewrite IH|].
  destruct (Ascii.eqb_spec c quote) as [->|N2]; [cbn; now rewrite IH|].
  cbn. destruct (Ascii.eqb_spec c quote) as [|_]; [contradiction|].
  destruct (Ascii.eqb_spec c backslash) as [|_]; [contradiction|]. now rewrite IH.
Qed.

Fixpoint unquote_words (fuel : nat) (s : str) : option (list str) :=
  match fuel, s with
  | S fuel', c :: s' =>
      if Ascii.eqb c quote then
        match unquote s' with
        | Some (w, []) => Some [w]
        | Some (w, b :: rest) =>
            if Ascii.eqb b " " then option_map (cons w) (unquote_words fuel' rest) else None
        | None => None
        end
      else None
  | _, _ => None
  end.

Lemma unquote_print ws : forall w fuel, length ws < fuel -> unquote_words fuel (print_words w ws) = Some (w :: ws).
Proof.
  induction ws as [|x ws IH]; intros w [|fuel] L; try (cbn in L; lia).
  - cbn. now rewrite unquote_escaped.
  - cbn [print_words]. unfold shell_escape. rewrite <- !app_assoc. cbn [app unquote_words]. cbn [quote Ascii.eqb].
    replace (Ascii.eqb quote quote) with true by reflexivity.
    rewrite unquote_escaped. cbn [Ascii.eqb]. rewrite IH by (cbn in L; lia). reflexivity.
Qed.

Lemma print_length ws : forall w, length ws < length (print_words w ws).
Proof.
  induction ws as [|x ws IH]; intro w; cbn [print_words].
  - unfold shell_escape. cbn. lia.
  - rewrite app_length. cbn [length]. specialize (IH x). lia.
Qed.

Lemma command_recovered : exists recover : str -> option (list str),
  forall cmd, recover (command_to_string cmd) = Some (executable cmd :: cmd_args cmd).
Proof.
  exists (fun s => unquote_words (length s) s). intro cmd. rewrite command_to_string_words. apply unquote_print.
  apply print_length.
Qed.

(** A shell *)

Lemma escape_same s : ~ In backslash s -> ~ In quote s -> escape_chars s = s.
Proof.
  induction s as [|c s IH]; intros N1 N2; [reflexivity|]. cbn in *.
  destruct (Ascii.eqb_spec c backslash) as [->|_]; [destruct N1; now left|].
  destruct (Ascii.eqb_spec c quote) as [->|_]; [destruct N2; now left|]. cbn. now rewrite IH by tauto.
Qed.

Definition no_special (w : str) : Prop := ~ In backslash w /\ ~ In quote w.

Lemma command_shell cmd : Forall no_special (words cmd) -> shell_words (command_to_string cmd) (words cmd).
Proof.
  rewrite command_to_string_words. destruct cmd as [e args]; unfold words; cbn.
  revert e. induction args as [|x args IH]; intros e F; cbn [print_words]; unfold shell_escape; inversion F as [|? ? [N1 N2] F']; subst;
    rewrite (escape_same e) by assumption.
  - cbn. now apply shell_last.
  - rewrite <- !app_assoc. cbn. apply shell_more; [assumption|]. now apply IH.
Qed.

Lemma no_quote_split (a b r1 r2 : str) : ~ In quote a -> ~ In quote b -> a ++ quote :: r1 = b ++ quote :: r2 -> a = b /\ r1 = r2.
Proof.
  revert b. induction a as [|x a IH]; intros [|y b] N1 N2 E; cbn in *.
  - injection E as ->. tauto.
  - injection E as <- _. tauto.
  - injection E as -> _. tauto.
  - injection E as -> E. destruct (IH b) as [-> ->]; tauto.
Qed.

Lemma shell_words_inj s ws1 : shell_words s ws1 -> forall ws2, shell_words s ws2 -> ws1 = ws2.
Proof.
  induction 1 as [w N|w r ws N R IH]; intros ws2 H; inversion H as [w' N' E|w' r' ws' N' R' E]; subst.
  - destruct (no_quote_split _ _ [] [] N' N E) as [-> _]. reflexivity.
  - destruct (no_quote_split _ _ (" "%char :: r') [] N' N E) as [_ X]. discriminate.
  - destruct (no_quote_split _ _ [] (" "%char :: r) N' N E) as [_ X]. discriminate.
  - destruct (no_quote_split _ _ (" "%char :: r') (" "%char :: r) N' N E) as [-> X]. injection X as ->.
    f_equal. now apply IH.
Qed.

(** The log *)

Lemma append_loop_line l : no_newline l -> forall output rest,
  append_loop output (l ++ newline :: rest) false = append_loop (output ++ l ++ [newline]) rest true.
Proof.
  induction l as [|c l IH]; intros N output rest; cbn [app append_loop].
  - reflexivity.
  - destruct (Ascii.eqb_spec c newline) as [->|_]; [destruct N; now left|].
    rewrite IH by (intro I; apply N; now right). f_equal. rewrite <- !app_assoc. reflexivity.
Qed.

Lemma append_loop_last l : no_newline l -> forall output, append_loop output l false = output ++ l.
Proof.
  induction l as [|c l IH]; intros N output; cbn [append_loop]; [now rewrite app_nil_r|].
  destruct (Ascii.eqb_spec c newline) as [->|_]; [destruct N; now left|].
  rewrite IH by (intro I; apply N; now right). now rewrite <- app_assoc.
Qed.

Definition mark : str := lit " ... ".

Lemma append_log_lines lines last : Forall no_newline lines -> no_newline last -> forall output,
  append_log output (text lines last) = output ++ marked_text mark lines last.
Proof.
  unfold append_log, text, marked_text. induction lines as [|l lines IH]; intros F N output.
  - cbn [map concat app]. destruct last as [|c last]; [cbn; now rewrite app_nil_r|]. cbn [append_loop].
    destruct (Ascii.eqb_spec c newline) as [->|_]; [destruct N; now left|].
    rewrite append_loop_last by (intro I; apply N; now right). change (lit " ... ") with mark. rewrite <- !app_assoc. reflexivity.
  - inversion F as [|? ? NL F']; subst. cbn [map concat]. rewrite <- !app_assoc.
    change (["010"%char] ++ concat (map (fun l => l ++ ["010"%char]) lines) ++ last)
      with (newline :: concat (map (fun l => l ++ ["010"%char]) lines) ++ last).
    destruct l as [|c l].
    + cbn [app append_loop]. replace (Ascii.eqb newline newline) with true by reflexivity.
      rewrite IH by assumption. change (lit " ... ") with mark. rewrite <- !app_assoc. reflexivity.
    + cbn [app append_loop]. destruct (Ascii.eqb_spec c newline) as [->|_]; [destruct NL; now left|].
      rewrite append_loop_line by (intro I; apply NL; now right). rewrite IH by assumption.
      change (lit " ... ") with mark. rewrite <- !app_assoc. cbn [app]. reflexivity.
Qed.

Lemma text_exists data : exists lines last, Forall no_newline lines /\ no_newline last /\ data = text lines last.
Proof.
  induction data as [|c data (lines & last & F & N & ->)].
  - exists [], []. split; [constructor|]. split; [intros []|reflexivity].
  - destruct (Ascii.eqb_spec c newline) as [->|NE].
    + exists ([] :: lines), last. split; [constructor; [intros []|exact F]|]. split; [exact N|reflexivity].
    + destruct lines as [|l lines].
      * exists [], (c :: last). split; [constructor|]. split; [|reflexivity].
        intros [E | I]; [now apply NE|contradiction].
      * inversion F as [|? ? NL F']; subst. exists ((c :: l) :: lines), last. split; [constructor; [|exact F']|].
        -- intros [E | I]; [now apply NE|contradiction].
        -- split; [exact N|reflexivity].
Qed.

Lemma c_str_same s : no_nul s -> c_str s = s.
Proof.
  induction s as [|c s IH]; intro N; [reflexivity|]. cbn. destruct (Ascii.eqb_spec c nul) as [->|_]; [destruct N; now left|].
  f_equal. apply IH. intro I. apply N. now right.
Qed.

Lemma c_str_prefix s : exists rest, s = c_str s ++ rest.
Proof.
  induction s as [|c s [r E]]; [exists []; reflexivity|]. cbn. destruct (Ascii.eqb c nul); [exists (c :: s); reflexivity|].
  exists r. cbn. now rewrite <- E.
Qed.

Lemma no_nul_app a b : no_nul (a ++ b) <-> no_nul a /\ no_nul b.
Proof. unfold no_nul. rewrite in_app_iff. tauto. Qed.

Lemma no_nul_digits d : no_nul (ValueProofs.digits d).
Proof.
  intro I. pose proof (ValueProofs.digits_all d) as A. unfold ValueProofs.all_digits in A. rewrite Forall_forall in A.
  apply A in I. now apply I.
Qed.

Lemma no_nul_decimal z : no_nul (decimal z).
Proof.
  assert (P : forall z, (0 <= z)%Z -> no_nul (decimal z)).
  { intros [|p|p] H; [|destruct (ValueProofs.decimal_pos p) as [-> _]; apply no_nul_digits|lia].
    vm_compute. intros [H' | []]. discriminate. }
  destruct (Z.ltb_spec z 0) as [H | H]; [|now apply P].
  rewrite (ValueProofs.decimal_negative z H). intros [E | I]; [discriminate|]. exact (P (- z)%Z ltac:(lia) I).
Qed.

Lemma in_text data : forall lines last, data = text lines last -> forall c, c <> newline ->
  In c (marked_text mark lines last) -> In c data \/ In c mark.
Proof.
  intros lines last -> c NE. unfold marked_text, text. rewrite !in_app_iff. intros [I | I].
  - apply in_concat in I. destruct I as (x & Ix & Ic). apply in_map_iff in Ix. destruct Ix as (l & <- & Il).
    rewrite !in_app_iff in Ic. destruct Ic as [Ic | [Ic | [Ic | []]]]; [now right| |now destruct NE].
    left. left. apply in_concat. exists (l ++ ["010"%char]). split; [apply in_map_iff; exists l; split; [reflexivity|exact Il]|].
    apply in_or_app. now left.
  - destruct last as [|x last]; [destruct I|]. apply in_app_iff in I. destruct I as [I | I]; [now right|]. left. now right.
Qed.

Lemma no_nul_marked lines last : no_nul (text lines last) -> no_nul (marked_text mark lines last).
Proof.
  intros N I. apply (in_text _ _ _ eq_refl) in I; [|discriminate]. destruct I as [I | I]; [exact (N I)|].
  vm_compute in I. repeat (destruct I as [I | I]; [discriminate|]). exact I.
Qed.

Ltac no_nul_const := let I := fresh in intro I; vm_compute in I; repeat (destruct I as [I | I]; [discriminate|]); exact I.

Lemma log_result_info t status lines last err :
  Forall no_newline lines -> no_newline last ->
  no_nul (task_path t) -> no_nul (text lines last) -> no_nul err ->
  log_result LevelSourceFileInfo t status (text lines last) err =
  (header (decimal (task_id t)) (if failed status then cross_mark else check_mark) (task_path t)
     (decimal (task_started t) ++ lit " | " ++ decimal (task_completed t)) ++ [newline] ++ marked_text mark lines last,
   match err with [] => [] | _ => err ++ [newline] end).
Proof.
  intros F N NP NT NE. unfold log_result.
  set (b := _ ++ lit " " ++ _). assert (B : b = header (decimal (task_id t)) (if failed status then cross_mark else check_mark) (task_path t)
     (decimal (task_started t) ++ lit " | " ++ decimal (task_completed t))).
  { unfold b, header. cbn [with_command app]. destruct (failed status); rewrite <- !app_assoc; reflexivity. }
  clearbody b. subst b. set (h := header _ _ _ _).
  assert (NH : no_nul h).
  { unfold h, header. repeat (apply no_nul_app; split); try apply no_nul_decimal; try assumption; try no_nul_const.
    destruct (failed status); no_nul_const. }
  assert (Hcons : exists x l, h = x :: l) by (unfold h, header; cbn; eauto).
  destruct Hcons as (x & l & Hh). assert (E : match h with [] => [] | _ :: _ => h ++ [newline] end = h ++ [newline]) by (rewrite Hh; reflexivity).
  rewrite E. rewrite append_log_lines by assumption. rewrite c_str_same.
  - f_equal; [now rewrite <- app_assoc|]. rewrite c_str_same; [reflexivity|]. destruct err as [|c err]; [intros []|].
    apply no_nul_app. split; [exact NE|no_nul_const].
  - apply no_nul_app. split; [|now apply no_nul_marked]. apply no_nul_app. split; [exact NH|no_nul_const].
Qed.

Lemma log_result_errors t status lines last err :
  Forall no_newline lines -> no_newline last -> no_nul (text lines last) -> no_nul err ->
  log_result LevelErrors t status (text lines last) err =
  (marked_text mark lines last, match err with [] => [] | _ => err ++ [newline] end).
Proof.
  intros F N NT NE. unfold log_result. rewrite append_log_lines by assumption. cbn [app]. rewrite c_str_same by now apply no_nul_marked.
  f_equal. rewrite c_str_same; [reflexivity|]. destruct err as [|c err]; [intros []|].
  apply no_nul_app. split; [exact NE|no_nul_const].
Qed.

Lemma no_nul_print w ws : Forall no_nul (w :: ws) -> no_nul (print_words w ws).
Proof.
  assert (E : forall w, no_nul w -> no_nul (shell_escape w)).
  { clear. intros w N. unfold shell_escape. apply no_nul_app. split; [no_nul_const|]. apply no_nul_app. split; [|no_nul_const].
    induction w as [|c w IH]; [intros []|]. cbn. apply no_nul_app. split; [|apply IH; intro I; apply N; now right].
    destruct (Ascii.eqb c backslash || Ascii.eqb c quote).
    - intros [H | [H | []]]; [discriminate|]. apply N. now left.
    - intros [H | []]. apply N. now left. }
  revert w. induction ws as [|x ws IH]; intros w F; inversion F; subst; cbn [print_words]; [now apply E|].
  apply no_nul_app. split; [now apply E|]. intros [H | I]; [discriminate|]. revert I. now apply IH.
Qed.

Lemma append_log_app a output data : append_log (a ++ output) data = a ++ append_log output data.
Proof.
  unfold append_log. generalize true. revert output. induction data as [|c data IH]; intros output b; cbn [append_loop]; [reflexivity|].
  destruct b; rewrite <- IH; f_equal; now rewrite <- !app_assoc.
Qed.

Lemma c_str_app a b : no_nul a -> c_str (a ++ b) = a ++ c_str b.
Proof.
  induction a as [|c a IH]; intro N; [reflexivity|]. cbn. destruct (Ascii.eqb_spec c nul) as [->|_]; [destruct N; now left|].
  f_equal. apply IH. intro I. apply N. now right.
Qed.

Lemma ended (s : str) : s <> [] -> match s with [] => [] | _ :: _ => s ++ [newline] end = s ++ [newline].
Proof. destruct s; [contradiction|reflexivity]. Qed.

(** The log with commands is the log without, with the command in front. *)
Lemma log_result_command t status out err : Forall no_nul (words (task_cmd t)) ->
  log_result LevelCompilationCommand t status out err =
  (command_to_string (task_cmd t) ++ lit " #" ++ fst (log_result LevelSourceFileInfo t status out err),
   snd (log_result LevelSourceFileInfo t status out err)).
Proof.
  intro N. unfold log_result. cbn [with_command fst snd]. f_equal.
  set (b := lit " " ++ _).
  assert (Hb : b <> []) by (unfold b; discriminate). clearbody b. cbn [app].
  set (c := command_to_string (task_cmd t)).
  assert (NC : no_nul (c ++ lit " #")).
  { apply no_nul_app. split; [|no_nul_const]. unfold c. rewrite command_to_string_words. now apply no_nul_print. }
  rewrite !ended; [|exact Hb|intro X; apply app_eq_nil in X; tauto].
  rewrite (app_assoc c). rewrite <- (app_assoc (c ++ lit " #")). rewrite append_log_app, c_str_app by assumption. reflexivity.
Qed.

Lemma log_skipped_info t : no_nul (task_path t) ->
  log_skipped LevelSourceFileInfo t = header (decimal (task_id t)) check_mark (task_path t) (lit "- | - ") ++ [newline].
Proof.
  intro N. unfold log_skipped, header. cbn [with_command app]. rewrite c_str_same.
  - rewrite <- !app_assoc. reflexivity.
  - apply no_nul_app; split; [|no_nul_const]. repeat (apply no_nul_app; split); try apply no_nul_decimal; try assumption; try no_nul_const.
Qed.
