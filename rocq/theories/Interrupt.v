(** A commit of which only a part is carried out, as its process ends or loses its connection (manager.py:250-281). *)
From Coq Require Import String Ascii.
From Coq Require Import List ZArith NArith Bool Lia.
From Verif Require Import PyVal Diff Prepare Mongo Client.
Import ListNotations.
Local Open Scope nat_scope.

(** manager.py:277-280 [update_many], which has come to some of the documents of the collection only *)
Fixpoint update_some {A} (f : A -> A) (sel : nat -> bool) (l : list A) : list A :=
  match l with [] => [] | d :: r => (if sel 0 then f d else d) :: update_some f (fun n => sel (S n)) r end.

(** How far the commit has come: it has not written anything; it has inserted the default options if it has to (manager.py:268-272); it is
    at the documents of the data collection, or has done these and is at those of the options collection (manager.py:277-280). *)
Inductive reached := RNothing | RDefault | RData (sel : nat -> bool) | ROptions (sel : nat -> bool).

Section Interrupt.
Context {O : Type} (oeq : O -> O -> bool) (odef : O).
(** manager.py:250-281 [commit] with [now() = v], up to the given point. The lock stays if the process ends (Locking.v). *)
Definition interrupted (cl : client O) (name : pystr) (v : Z) (r : reached) : client O :=
  if negb (has_uncommitted cl name) && negb (has_uncommitted_options cl) then cl
  else
    let cl1 := if negb (has_options cl) && negb (has_uncommitted_options cl) then update_options oeq cl name odef else cl in
    match r with
    | RNothing => cl
    | RDefault => cl1
    | RData sel => set_data cl1 name (update_some (commit_doc v) sel (data cl1 name))
    | ROptions sel =>
        let cl2 := set_data cl1 name (commit_data v (data cl1 name)) in
        set_opts cl2 (update_some (commit_odoc v) sel (opts cl2))
    end.
End Interrupt.
