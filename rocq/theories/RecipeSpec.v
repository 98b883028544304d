(** Vocabulary for recipes. *)

From Coq Require Import Ascii String ZArith NArith Bool.
From Coq Require Import List.
From Verif Require Import Str Path SMap JsonModel DbModel DepGraphSpec.
Import ListNotations.

(** ** Text *)

(** Unicode scalar values, and their encoding in UTF-8 (RFC 3629). *)
Definition scalar_value (v : N) : Prop := (v < 55296 \/ (57343 < v /\ v <= 1114111))%N.

Definition utf8_encode (v : N) : str :=
  map ascii_of_N
    (if (v <? 128)%N then [v]
     else if (v <? 2048)%N then [192 + v / 64; 128 + v mod 64]
     else if (v <? 65536)%N then [224 + v / 4096; 128 + (v / 64) mod 64; 128 + v mod 64]
     else [240 + v / 262144; 128 + (v / 4096) mod 64; 128 + (v / 64) mod 64; 128 + v mod 64])%N.

Definition is_text (s : str) : Prop :=
  exists vs, Forall scalar_value vs /\ s = concat (map utf8_encode vs).

(** ** Dependencies *)

(** The properties of a dependency have different names, and everything is text. *)
Definition proper_dependency (d : dependency) : Prop :=
  is_text (path_string (dep_name d)) /\
  NoDup (map prop_name (dep_props d)) /\
  ~ In (lit "ref") (map prop_name (dep_props d)) /\
  ~ In (lit "origin") (map prop_name (dep_props d)) /\
  Forall (fun p => is_text (prop_value p)) (dep_props d).

Definition origin_name (o : origin) : str :=
  match o with
  | Project => lit "project"
  | Generated => lit "generated"
  | System => lit "system"
  | PkgConfig => lit "pkg-config"
  end.

(** The JSON value [j] describes the dependency [d], and nothing else. *)
Definition describes (d : dependency) (j : json) : Prop :=
  exists m, j = JObject m /\
    obj_get (lit "ref") m = Some (JString (path_string (dep_name d))) /\
    obj_get (lit "origin") m = Some (JString (origin_name (dep_origin d))) /\
    (forall p, In p (dep_props d) -> obj_get (prop_name p) m = Some (JString (prop_value p))) /\
    (forall k, obj_get k m <> None -> k = lit "ref" \/ k = lit "origin" \/ In k (map prop_name (dep_props d))).

(** The relation [d] has been given. *)
Definition relation_is (d : dependency) (rel : string) : Prop := In (mk_property (lit "rel") (lit rel)) (dep_props d).

(** [d] is an object that is part of the program. *)
Definition is_object (d : dependency) : Prop :=
  (dep_origin d = Project \/ dep_origin d = Generated) /\ relation_is d "implementation".

(** [d] is an external library. *)
Definition is_library (d : dependency) : Prop := dep_origin d = System /\ relation_is d "external".

(** The word [x] has to be passed to the linker because of [d]. [libs] is what
    pkg-config prints. *)
Definition needed_for (libs : str -> list str) (d : dependency) (x : str) : Prop :=
  (is_object d /\ x = path_string (dep_name d)) \/
  (is_library d /\ x = lit "-l" ++ path_string (dep_name d)) \/
  (dep_origin d = PkgConfig /\ In x (libs (path_string (dep_name d)))).

(** What pkg-config prints for linking *)
Definition pkg_words (get_libs get_libdirs : str -> option (list str)) (s : str) : list str :=
  match get_libs s, get_libdirs s with Some a, Some b => a ++ b | _, _ => [] end.

(** Different files are printed differently. *)
Definition names_distinct (fs : file_list) : Prop :=
  forall p q, known fs p -> known fs q -> path_string p = path_string q -> p = q.

(** [x] comes before [y]. *)
Definition precedes (x y : str) (l : list str) : Prop :=
  exists l1 l2 l3, l = l1 ++ x :: l2 ++ y :: l3.

(** Whatever is used by [x] occurs before every occurrence of [x]. *)
Definition dependencies_first (uses : str -> str -> Prop) (l : list str) : Prop :=
  forall l1 x l2, l = l1 ++ x :: l2 -> forall y, uses x y -> In y l -> In y l1.

(** ** Exit codes *)

(** Exit codes of programs, and signals *)
Definition ordinary (run : list str -> option Z) : Prop := forall a r, run a = Some r -> (-255 <= r <= 255)%Z.

(** ** Revisions of the standard *)

(** The values of the macro __cplusplus *)
Inductive published : str -> Z -> Prop :=
| cpp98 : published (lit "c++98") 199711
| cpp11 : published (lit "c++11") 201103
| cpp14 : published (lit "c++14") 201402
| cpp17 : published (lit "c++17") 201703
| cpp20 : published (lit "c++20") 202002
| cpp23 : published (lit "c++23") 202302.

(** The revision [n] is within the limits that have been given. *)
Definition within (rev_min rev_max : option str) (n : Z) : Prop :=
  (forall s, rev_min = Some s -> exists m, published s m /\ (m <= n)%Z) /\
  (forall s, rev_max = Some s -> exists m, published s m /\ (n <= m)%Z).

(** The first occurrence of [x] is before any occurrence of [y]. *)
Definition first_before (x y : str) (l : list str) : Prop :=
  x <> y /\ exists l1 l2, l = l1 ++ x :: l2 /\ ~ In y l1 /\ In y l2.

(** [l] is [wanted] without repetitions. *)
Definition without_repetitions (wanted l : list str) : Prop :=
  NoDup l /\ (forall x, In x l <-> In x wanted) /\ (forall x y, first_before x y wanted -> precedes x y l).
