(** Vocabulary for the indexed versions of a record. *)
From Coq Require Import List ZArith NArith Bool Lia.
From Verif Require Import PyVal Diff Mongo Index.
Import ListNotations.

(** [x] is the newest entry of [m] at the moment [t]. *)
Definition in_force {V} (m : list (Z * V)) (t : Z) (x : V) : Prop :=
  exists v, In (v, x) m /\ (v <= t)%Z /\ forall w y, In (w, y) m -> (w <= t)%Z -> (w <= v)%Z.
(** specification or proof device; models no code of its own *)
Definition none_yet {V} (m : list (Z * V)) (t : Z) : Prop := forall v x, In (v, x) m -> (t < v)%Z.
(** specification or proof device; models no code of its own *)
Definition earliest {V} (m : list (Z * V)) (x : V) : Prop :=
  exists v, In (v, x) m /\ forall w y, In (w, y) m -> (v <= w)%Z.

(** The options in force at [t]: the newest ones that are not later than [t], the earliest ones if
    there are none. *)
Definition options_in_force {V} (m : list (Z * V)) (t : Z) (o : V) : Prop :=
  in_force m t o \/ (none_yet m t /\ earliest m o).

(** A document is valid at [t]. *)
Definition covers {P} (d : esdoc P) (t : Z) : Prop :=
  (e_ver d <= t)%Z /\ match e_end d with Some e => (t < e)%Z | None => True end.

(** The documents of a record's versions. *)
Fixpoint rv_docs {P} (id : pystr) (rvs : list (rv P)) : list (esdoc P) :=
  match rvs with [] => [] | r :: rest => create_doc id r (hd_error rest) :: rv_docs id rest end.

(** A record's history: distinct versions, data from the start. *)
Definition hist_ok (h : list (Z * dict)) : Prop :=
  NoDup (map fst h) /\ exists x, earliest h x /\ x <> [].
