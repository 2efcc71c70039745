(** What the indices of a database should contain. *)
From Coq Require Import List ZArith NArith Bool Lia Permutation.
From Verif Require Import PyVal Diff Mongo Client Index IndexSpec Sync.
Import ListNotations.

Section Spec.
Context {O P : Type} (parse : dict -> O -> P) (peq : P -> P -> bool).

(** The documents of a record with history [h] under the options [om]: the documents C23 and C24 are about. *)
Definition record_docs (h : list (Z * dict)) (om : list (Z * O)) (id : pystr) : list (esdoc P) :=
  match build parse peq h om with Some rvs => rv_docs id rvs | None => [] end.

(** specification: a document without an end *)
Definition is_open (d : esdoc P) : bool := match e_end d with None => true | Some _ => false end.
(** specification: a document with an end *)
Definition is_closed (d : esdoc P) : bool := negb (is_open d).

(** The documents of one record in the latest index and in the arc indices. *)
Definition lat_of (id : pystr) (D : docs P) : list (esdoc P) :=
  map snd (filter (fun kv => str_eqb (fst kv) id) (lat D)).
(** specification: the documents of a record in the arcs *)
Definition arc_of (id : pystr) (D : docs P) : list (esdoc P) :=
  filter (fun d => str_eqb (e_id d) id) (map snd (arc D)).

(** Documents that differ only in parsed data that [E] relates. *)
Definition deq (E : P -> P -> Prop) (d d' : esdoc P) : Prop :=
  e_id d = e_id d' /\ e_ver d = e_ver d' /\ e_end d = e_end d' /\ E (e_parsed d) (e_parsed d').
(** The same documents in some order. *)
Definition same_docs (E : P -> P -> Prop) (l m : list (esdoc P)) : Prop :=
  exists l', Permutation l l' /\ Forall2 (deq E) l' m.

(** The indices hold exactly the documents [T]: for every record the open document in latest,
    the closed ones once each in the arcs. *)
Definition holds (E : P -> P -> Prop) (D : docs P) (T : pystr -> list (esdoc P)) : Prop :=
  forall id, same_docs E (lat_of id D) (filter is_open (T id)) /\ same_docs E (arc_of id D) (filter is_closed (T id)).

(** The entries of [m] up to [a]. *)
Definition upto {V} (a : Z) (m : list (Z * V)) : list (Z * V) := filter (fun kv => (fst kv <=? a)%Z) m.
End Spec.
