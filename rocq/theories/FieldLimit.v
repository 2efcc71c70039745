(** The limit on the number of fields of an index (indexing/templates.py:73-87). *)
From Coq Require Import String Ascii.
From Coq Require Import List ZArith NArith Bool Lia.
From Verif Require Import PyVal Time Parser Names Search Mapping.
Import ListNotations.
Open Scope string_scope.
Open Scope list_scope.
Open Scope nat_scope.

(** ** Model *)
(** templates.py:84 *)
Definition field_limit : N := 4000.
(** templates.py:96-116: the fields that are there from the beginning (fields.py:14-44 for the names); a field is given by the names that lead to it *)
Definition predefined : list (list pystr) :=
  map (fun s => [lit s]) ["id"; "version"; "next"; "versions"; "data_types"; "parsed_types"; "all_text"; "all_points"; "all_shapes"].
(** templates.py:121-141: a field that is not looked into *)
Definition disabled (p : list pystr) : bool :=
  match mapped (join dot p) with Some m => match m_type m with Disabled => true | _ => false end | None => false end.
(** The fields that Elasticsearch adds to the mapping for a value at a path: one for each object and each value; lists do not count, nor do nulls. (indexing/templates.py:55-217) *)
Fixpoint fields_in (p : list pystr) (v : value) : list (list pystr) :=
  match v with
  | VNone => []
  | VList l => flat_map (fields_in p) l
  | VDict d => p :: if disabled p then [] else flat_map (fun kv => fields_in (p ++ [fst kv]) (snd kv)) d
  | _ => [p]
  end.
(** manager.py and index.py put the parsed data under "data" (DocumentField.DATA) *)
Definition doc_fields (r : parsed_data) : list (list pystr) := fields_in [lit "data"] (VDict (p_parsed r)).
(** [==] of paths of fields (proof device) *)
Definition path_dec : forall a b : list pystr, {a = b} + {a <> b} := list_eq_dec str_eq_dec.
(** Indexing a document: its new fields are added to the mapping of the index, which has [m]; [None]: there would be more than the limit, the
    document is rejected and the mapping stays as it is. Fields and objects count, those of the metadata of Elasticsearch do not. *)
Definition put (m : list (list pystr)) (r : parsed_data) : option (list (list pystr)) :=
  let m' := nodup path_dec (m ++ doc_fields r) in if (N.of_nat (length m') <=? field_limit)%N then Some m' else None.
(** documents indexed one after the other (indexing/syncing.py:229-255); [None]: one is rejected *)
Fixpoint put_all (m : list (list pystr)) (rs : list parsed_data) : option (list (list pystr)) :=
  match rs with [] => Some m | r :: rs' => match put m r with Some m' => put_all m' rs' | None => None end end.
(** Documents that are rejected, deleted or replaced leave the mapping as it is. *)
Definition put_or_not (m : list (list pystr)) (r : parsed_data) : list (list pystr) := match put m r with Some m' => m' | None => m end.
