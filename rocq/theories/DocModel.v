(** Model of recipes/doc2html.py: the references found in a document. *)

From Coq Require Import Ascii String NArith Bool.
From Coq Require Import List.
From Verif Require Import Str JsonModel.
Import ListNotations.

(** What xml.etree.ElementTree keeps of a document, apart from texts *)
Inductive xml := Element (name : str) (attributes : list (str * str)) (children : list xml).

(** 'name' in item.attrib, and item.attrib['name'] *)
Fixpoint attribute (name : str) (attributes : list (str * str)) : option str :=
  match attributes with
  | [] => None
  | (k, v) :: l => if str_eqb k name then Some v else attribute name l
  end.

(** re.match('^[a-z][a-z]*://', ref), doc2html.py:27 *)
Definition lower (c : ascii) : bool := (97 <=? N_of_ascii c)%N && (N_of_ascii c <=? 122)%N.

Fixpoint more_letters (s : str) : bool :=
  match s with
  | [] => false
  | c :: s' => match s with
               | ":"%char :: "/"%char :: "/"%char :: _ => true
               | _ => lower c && more_letters s'
               end
  end.

Definition external_resource (ref : str) : bool :=
  match ref with
  | [] => false
  | c :: s => lower c && more_letters s
  end.

(** make_dep_from_ref, doc2html.py:26-33 *)
Definition make_dep_from_ref (ref : str) : option json :=
  if external_resource ref then None
  else Some (JObject [(lit "ref", JString ref); (lit "origin", JString (lit "generated")); (lit "rel", JString (lit "resource"))]).

(** The loop body, doc2html.py:41-49 *)
Definition deps_of_attributes (attributes : list (str * str)) : list json :=
  flat_map (fun name => match attribute (lit name) attributes with
                        | None => []
                        | Some ref => match make_dep_from_ref ref with None => [] | Some dep => [dep] end
                        end) ["src"%string; "href"%string].

(** root.iter() visits an element before its children. *)
Fixpoint deps_of_document (root : xml) : list json :=
  match root with
  | Element _ attributes children => deps_of_attributes attributes ++ flat_map deps_of_document children
  end.

(** get_tags, doc2html.py:35-55. [root] is what ET.parse delivers, or [None] if it raises.
    The result is what has been written to standard output; [None]: the exit status is
    not zero. No output is the same as no tags (compiler.cpp:117-122). *)
Definition doc2html_get_tags (self source_file : str) (root : option xml) : option compound :=
  if str_eqb source_file self then Some []
  else match root with
       | None => None
       | Some root => Some [(lit "dependencies", JArray (deps_of_document root))]
       end.
