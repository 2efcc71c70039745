(** The lock manager (locking.py): lock documents in a MongoDB collection with a unique index on
    lock_id, used by any number of processes. *)
From Coq Require Import List ZArith NArith Bool Lia.
From Verif Require Import PyVal.
Import ListNotations.
Open Scope nat_scope.

(** A lock document (locking.py:48-54); [l_by] stands for locked_by, locked_at and data, which no
    operation reads. *)
Record ldoc := LDoc { l_id : pystr; l_by : nat }.

(** locking.py:33-60 [acquire]: [insert_one], which raises DuplicateKeyError if the unique index
    (locking.py:31) has the id. *)
Definition acquire (c : list ldoc) (id : pystr) (by_ : nat) : list ldoc * bool :=
  if existsb (fun d => str_eqb (l_id d) id) c then (c, false) else (c ++ [LDoc id by_], true).

(** locking.py:62-69 [release]: [delete_one] removes the first document with the id. *)
Fixpoint release (c : list ldoc) (id : pystr) : list ldoc :=
  match c with
  | [] => []
  | d :: r => if str_eqb (l_id d) id then r else d :: release r id
  end.

(** locking.py:71-78 [is_locked] *)
Definition is_locked (c : list ldoc) (id : pystr) : bool := existsb (fun d => str_eqb (l_id d) id) c.

(** The state: the collection and, for each process, the [with lock(...)] bodies it is inside of
    (innermost first). (locking.py:91-105) *)
Record lstate := LState { coll_ : list ldoc; inside : nat -> list pystr }.
(** a function changed at one place; models no code *)
Definition upd {A} (f : nat -> A) (p : nat) (x : A) : nat -> A := fun q => if Nat.eqb q p then x else f q.

(** locking.py:90-105 [lock]: entering acquires the lock, or raises AlreadyLocked without entering
    (the exception is not in the [try]); leaving, normally or by an exception, releases it. A
    process may also die inside (no release happens), and somebody may call [release] directly. *)
Inductive event :=
| Enter (p : nat) (id : pystr)
| Leave (p : nat)
| Crash (p : nat)
| Release (id : pystr).
(** locking.py:33-69, 90-105: what one event does *)
Definition lstep (s : lstate) (e : event) : lstate :=
  match e with
  | Enter p id => match acquire (coll_ s) id p with
                  | (c, true) => LState c (upd (inside s) p (id :: inside s p))
                  | (c, false) => LState c (inside s)
                  end
  | Leave p => match inside s p with
               | id :: r => LState (release (coll_ s) id) (upd (inside s) p r)
               | [] => s
               end
  | Crash p => LState (coll_ s) (upd (inside s) p [])
  | Release id => LState (release (coll_ s) id) (inside s)
  end.
(** no locks yet (locking.py:25-32) *)
Definition linit : lstate := LState [] (fun _ => []).
(** events one after the other (locking.py:33-105) *)
Definition lrun (s : lstate) (es : list event) : lstate := fold_left lstep es s.
