From Coq Require Import Ascii String ZArith.
From Coq Require Import List.
From Verif Require Import Str PathProofs MakeModel MakeProofs VcsModel VcsSpec.
Import ListNotations.

Section Vcslog.
  Context (data : Type) (dump : data -> str) (load : str -> option data)
    (load_dump : forall d, load (dump d) = Some d).

  Lemma log_recorded repository writable can_make cwd source_dir t others F F' d :
    repository (cwd ++ lit "/.git") = Some d ->
    vcslog data dump load repository writable can_make cwd source_dir (t :: others) F = (F', 0%Z) ->
    F' t = Some (dump d) /\ F' (cache_name source_dir) = Some (dump d) /\
    forall q, q <> t -> q <> cache_name source_dir -> F' q = F q.
  Proof.
    intros R H. unfold vcslog, get_log in H. rewrite R in H. destruct (writable t); [|discriminate].
    destruct (can_make (cache_dir source_dir)); [|discriminate]. destruct (writable (cache_name source_dir)); [|discriminate]. injection H as <-.
    split; [|split].
    - destruct (str_eqb t (cache_name source_dir)) eqn:E; unfold set_file; rewrite E; [reflexivity|].
      now rewrite (proj2 (str_eqb_eq t t) eq_refl).
    - apply set_same.
    - intros q A B. rewrite set_other by exact B. apply set_other, A.
  Qed.

  Lemma log_from_cache repository writable can_make cwd source_dir t others F F' d :
    repository (cwd ++ lit "/.git") = None -> F (cache_name source_dir) = Some (dump d) ->
    vcslog data dump load repository writable can_make cwd source_dir (t :: others) F = (F', 0%Z) ->
    F' t = Some (dump d) /\ F' (cache_name source_dir) = Some (dump d).
  Proof.
    intros R C H. unfold vcslog, get_log in H. rewrite R, C, load_dump in H. destruct (writable t); [|discriminate].
    destruct (can_make (cache_dir source_dir)); [|discriminate]. destruct (writable (cache_name source_dir)); [|discriminate]. injection H as <-.
    split; [|apply set_same].
    destruct (str_eqb t (cache_name source_dir)) eqn:E; unfold set_file; rewrite E; [reflexivity|].
    now rewrite (proj2 (str_eqb_eq t t) eq_refl).
  Qed.
End Vcslog.

Lemma recorded (data : Type) dump (load : str -> option data) repository writable can_make cwd source_dir t others F F' d :
  repository (cwd ++ lit "/.git") = Some d ->
  vcslog data dump load repository writable can_make cwd source_dir (t :: others) F = (F', 0%Z) ->
  F' t = Some (dump d) /\ forall q, q <> t -> q <> source_dir ++ lit "/__buildcache/vcslog.json" -> F' q = F q.
Proof. intros R H. destruct (log_recorded data dump load _ _ _ _ _ _ _ _ _ _ R H) as (A & _ & B). split; assumption. Qed.

Lemma kept (data : Type) dump (load : str -> option data) : (forall d, load (dump d) = Some d) ->
  forall repository writable can_make cwd source_dir t others F F1 d F2 t2,
  repository (cwd ++ lit "/.git") = Some d ->
  vcslog data dump load repository writable can_make cwd source_dir (t :: others) F = (F1, 0%Z) ->
  later_runs dump load source_dir F1 F2 t2 -> F2 t2 = Some (dump d).
Proof.
  intros LD repository writable can_make cwd source_dir t others F F1 d F2 t2 R H L.
  destruct (log_recorded data dump load _ _ _ _ _ _ _ _ _ _ R H) as (_ & C & _).
  enough (F2 t2 = Some (dump d) /\ F2 (cache_name source_dir) = Some (dump d)) as X by apply X.
  clear R H. induction L as [F0 G rep wr cm cw t2 oth F' E N V|F0 G1 G rep wr cm cw t0 t2 oth F' L IH E N V].
  - apply (log_from_cache data dump load LD rep wr cm cw source_dir t2 oth G F' d N); [congruence|exact V].
  - destruct (IH C) as [_ C1]. apply (log_from_cache data dump load LD rep wr cm cw source_dir t2 oth G F' d N); [congruence|exact V].
Qed.
