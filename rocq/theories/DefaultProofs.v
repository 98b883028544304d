(** Proofs about the default configuration. *)

From Coq Require Import Ascii String Bool Arith.
From Coq Require Import List Sorted.
From Verif Require Import Str Path SMap PathProofs JsonModel DbModel LoadModel CfgModel CfgSpec CfgProofs ScanModel ScanSpec ScanProofs StepSpec StepProofs KindProofs TreeProofs.
From Verif Require Import DefaultModel DefaultSpec.
From Verif Require Import LoadSpec LoadProofs.
Import ListNotations.

Lemma default_hidden search name : understands_defaults search ->
  (filter_matches search default_filter name = true <-> hidden name).
Proof.
  intros [A B]. unfold filter_matches, default_filter, hidden. rewrite <- (A name), <- (B name). cbn [existsb].
  rewrite orb_false_r. apply orb_true_iff.
Qed.

Section Files.
  Context (search : str -> str -> bool) (Hs : understands_defaults search).
  Context (Info : Type) (is_directory : path -> option bool) (entries : path -> list str * bool) (loads : path -> option Info).
  Context (root : path) (Hroot : directory_ok root) (Hentries : proper_entries entries).
  Context (Hsame : forall name, In name (fst (entries root)) -> is_directory (lexically_normal (append root (mk_path false [name]))) = is_directory (append root (mk_path false [name]))).

  Let filter := filter_matches search default_filter.
  Let found := found Info is_directory entries loads filter filter false root.
  Let ignored := ignored is_directory filter filter false root.
  Let belongs := belongs Info is_directory entries loads filter filter false root.

  Lemma root_normal : lexically_normal root = root.
  Proof. exact (source_normal root Hroot). Qed.

  Lemma entry_relative name : ordinary name -> lexically_relative (append root (mk_path false [name])) root = mk_path false [name].
  Proof.
    intro O. pose proof (relative_local root [] [name] Hroot (Forall_nil _)) as R. rewrite (inside_top root Hroot) in R.
    apply R. split; [constructor; [left; exact O|constructor]|]. exists [], name. split; [reflexivity|exact O].
  Qed.

  Lemma entry_name name : filename (append root (mk_path false [name])) = name.
  Proof. rewrite <- (inside_top root Hroot). apply file_name. Qed.

  Lemma entry_not_root name : ordinary name -> append root (mk_path false [name]) <> root.
  Proof.
    intros O E. pose proof (entry_relative name O) as R. rewrite E, relative_self in R.
    injection R as R. destruct O as (_ & N & _). now apply N.
  Qed.

  Lemma entry_ignored name : ordinary name ->
    (ignored (append root (mk_path false [name])) <-> hidden name \/ is_directory (append root (mk_path false [name])) = Some true).
  Proof.
    intro O. unfold ignored, ScanSpec.ignored. rewrite entry_name, (entry_relative name O).
    change (path_string (mk_path false [name])) with name. unfold filter. rewrite (default_hidden search name Hs).
    pose proof (entry_not_root name O). tauto.
  Qed.

  Lemma default_belongs p : belongs p <-> p = root \/
    exists name i, loads root = Some i /\ is_directory root = Some true /\ In name (fst (entries root)) /\ ~ hidden name /\
      p = append root (mk_path false [name]) /\ is_directory p = Some false.
  Proof.
    split.
    - intros (F & Ni & Nu). induction F as [|p' i name F IH Ni' Nu' L D I]; [now left|].
      destruct (IH Ni' Nu') as [-> | (n & j & _ & _ & In' & _ & -> & K)]; [|rewrite (Hsame n In') in D; congruence].
      rewrite root_normal in *. right. destruct (Hentries root) as [O _]. rewrite Forall_forall in O. specialize (O name I).
      assert (~ (hidden name \/ is_directory (append root (mk_path false [name])) = Some true)) as Ni2 by (rewrite <- (entry_ignored name O); exact Ni).
      exists name, i. split; [exact L|]. split; [exact D|]. split; [exact I|]. split; [tauto|]. split; [reflexivity|].
      destruct (is_directory (append root (mk_path false [name]))) as [[]|] eqn:E; [tauto|reflexivity|].
      exfalso. apply Nu. unfold unreadable. pose proof (entry_not_root name O). tauto.
    - intros [-> | (name & i & L & D & I & Nh & -> & Dp)].
      + split; [constructor|]. split; [intros [K _]; now apply K|intros [K _]; now apply K].
      + destruct (Hentries root) as [O _]. rewrite Forall_forall in O. specialize (O name I).
        assert (found (append (lexically_normal root) (mk_path false [name]))) as F.
        { apply found_entry with i; try (rewrite root_normal; assumption); [constructor| | |exact L]; intros [K _]; now apply K. }
        rewrite root_normal in F. split; [exact F|]. split.
        * intro K. apply (entry_ignored name O) in K. destruct K; [now apply Nh|congruence].
        * intros (_ & _ & K). congruence.
  Qed.
End Files.

Lemma default_files search (Info : Type) is_directory entries (loads : path -> option Info) root workers cs st files :
  understands_defaults search -> directory_ok root -> proper_entries entries ->
  (forall name, In name (fst (entries root)) -> is_directory (lexically_normal (append root (mk_path false [name]))) = is_directory (append root (mk_path false [name]))) ->
  is_directory root = Some true ->
  scan_with search default_config Info is_directory entries loads root workers cs = Some st ->
  scan_owner st = MainReturned files ->
  forall p, In p (map fst files) <->
    p = root \/ exists name, In name (fst (entries root)) /\ ~ hidden name /\
      is_directory (append root (mk_path false [name])) = Some false /\ p = lexically_normal (append root (mk_path false [name])).
Proof.
  intros Hs Hr He Hsame D R O p. pose proof (root_normal root Hr) as N.
  assert (directory_ok (lexically_normal root)) as Hr' by now rewrite N.
  destruct (scan_returns_all _ _ _ _ _ _ _ _ _ Hr' He _ _ _ R O) as (_ & Nf & _ & A & _).
  assert (forall q, belongs Info is_directory entries loads (filter_matches search default_filter) (filter_matches search default_filter) false root q ->
          exists i, loads q = Some i) as L.
  { intros q B. destruct (loads q) as [i|] eqn:E; [now exists i|]. exfalso. apply (Nf q). right. split; [exact B|now left]. }
  pose proof (default_belongs search Hs Info is_directory entries loads root Hr He Hsame) as B.
  split.
  - intro I. apply in_map_iff in I. destruct I as ((k, i) & <- & I). apply A in I. destruct I as (q & Bq & -> & _).
    apply B in Bq. destruct Bq as [-> | (name & j & _ & _ & I & Nh & -> & Dq)]; [left; exact N|].
    right. exists name. repeat split; assumption.
  - assert (exists i, loads root = Some i) as (i0 & L0) by (apply L, B; now left).
    intros [-> | (name & I & Nh & Dq & ->)].
    + apply in_map_iff. exists (root, i0). split; [reflexivity|]. apply A. exists root. split; [apply B; now left|]. split; [symmetry; exact N|exact L0].
    + assert (belongs Info is_directory entries loads (filter_matches search default_filter) (filter_matches search default_filter) false root (append root (mk_path false [name]))) as Bq.
      { apply B. right. exists name, i0. repeat split; assumption. }
      destruct (L _ Bq) as (i & Li). apply in_map_iff. exists (lexically_normal (append root (mk_path false [name])), i).
      split; [reflexivity|]. apply A. exists (append root (mk_path false [name])). split; [exact Bq|]. split; [reflexivity|exact Li].
Qed.

(** * Loaders *)

Lemma lookup_found {V} k (m : list (str * V)) v : lookup k m = Some v -> In (k, v) m.
Proof.
  induction m as [|[k' v'] m IH]; cbn [lookup]; [discriminate|]. destruct (str_eqb k k') eqn:E.
  - apply str_eqb_eq in E. subst. intros [= ->]. now left.
  - intro H. right. now apply IH.
Qed.

Lemma default_loader p : exists m, map_loaders default_config = Some m /\
  match match_longest_extension p m with
  | Some l => exists e what, In (e, what) default_recipes /\ extension_of (filename p) (lit e) /\ uses l what /\
      (forall e' what', In (e', what') default_recipes -> extension_of (filename p) (lit e') -> length (lit e') <= length (lit e))
  | None => forall e what, In (e, what) default_recipes -> ~ extension_of (filename p) (lit e)
  end.
Proof.
  destruct (map_loaders default_config) as [m|] eqn:M; [|vm_compute in M; discriminate].
  exists m. split; [reflexivity|]. pose proof (longest_extension _ p m) as L.
  assert (forall e l, lookup e m = Some l -> exists x what, In (x, what) default_recipes /\ e = lit x /\ uses l what) as A.
  { intros e l K. assert (In (e, l) m) as I by (apply lookup_found; exact K). clear - I M.
    vm_compute in M. injection M as <-.
    repeat (destruct I as [I|I]; [injection I as <- <-; vm_compute;
      first [exists ".hpp"%string; eexists; split; [do 0 right; left; reflexivity|]; repeat split; reflexivity
            |exists ".cpp"%string; eexists; split; [do 1 right; left; reflexivity|]; repeat split; reflexivity
            |exists ".test.cpp"%string; eexists; split; [do 2 right; left; reflexivity|]; repeat split; reflexivity
            |exists ".app.maikerule"%string; eexists; split; [do 3 right; left; reflexivity|]; repeat split; reflexivity
            |exists ".lib.maikerule"%string; eexists; split; [do 4 right; left; reflexivity|]; repeat split; reflexivity
            |exists ".py"%string; eexists; split; [do 5 right; left; reflexivity|]; repeat split; reflexivity
            |exists ".sass"%string; eexists; split; [do 6 right; left; reflexivity|]; repeat split; reflexivity]|]).
    destruct I. }
  assert (forall x what, In (x, what) default_recipes -> lookup (lit x) m <> None) as B.
  { intros x what I. clear - I M. vm_compute in M. injection M as <-. unfold default_recipes in I.
    repeat (destruct I as [I|I]; [injection I as <- _; vm_compute; discriminate|]). destruct I. }
  destruct (match_longest_extension p m) as [l|].
  - destruct L as (e & E & G & R). destruct (A e l G) as (x & what & I & -> & U). exists x, what.
    split; [exact I|]. split; [exact E|]. split; [exact U|]. intros x' what' I' E'. apply R; [exact E'|exact (B _ _ I')].
  - intros x what I E. exact (B x what I (L _ E)).
Qed.
