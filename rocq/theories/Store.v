(** Specification of the MongoDB layer: an abstract versioned store. A record is
    its list of committed versions (newest first) and possibly pending data. *)
From Coq Require Import List ZArith Bool.
From Verif Require Import PyVal.
Import ListNotations.

(** specification, models no code *)
Record arec := AR { a_hist : list (Z * dict); a_pend : option dict }.
(** specification of the data collection (manager.py:74-81): the records by id *)
Definition astate := pystr -> option arec.
(** specification: a collection without documents *)
Definition a_empty : astate := fun _ => None.

(** "Nothing changed": Python equality, ignoring the modified field if both
    sides have it. (specification, models no code) *)
Definition same (mf : option pystr) (new old : dict) : bool :=
  match mf with
  | Some f => if dmem new f && dmem old f
              then py_eqb (VDict (ddel new f)) (VDict (ddel old f))
              else py_eqb (VDict new) (VDict old)
  | None => py_eqb (VDict new) (VDict old)
  end.

(** Putting new data ([[]] is a delete) on a record: a never committed record is
    created, replaced or dropped; on a committed record the new data becomes the
    pending data unless it is the last committed data. (specification, models no code) *)
Definition a_put (mf : option pystr) (new : dict) (o : option arec) : option arec :=
  match o with
  | None => match new with [] => None | _ => Some (AR [] (Some new)) end
  | Some (AR [] p) =>
      match new with
      | [] => None
      | _ => match p with
             | Some old => if py_eqb (VDict new) (VDict old) then o else Some (AR [] (Some new))
             | None => Some (AR [] (Some new))
             end
      end
  | Some (AR ((v, d) :: h) _) =>
      Some (AR ((v, d) :: h) (if same mf new d then None else Some new))
  end.

(** The data of the last record with the given id in a stream. (specification, models no code) *)
Fixpoint last_data (id : pystr) (recs : list (pystr * dict)) : option dict :=
  match recs with
  | [] => None
  | (i, d) :: r => match last_data id r with
                   | Some x => Some x
                   | None => if str_eqb i id then Some d else None
                   end
  end.

(** specification of manager.py:283-334 [ingest] with commit=False *)
Definition a_ingest (mf : option pystr) (recs : list (pystr * dict)) (A : astate) : astate :=
  fun id => match last_data id recs with None => A id | Some new => a_put mf new (A id) end.

(** specification of manager.py:277-280, the data collection *)
Definition a_commit (v : Z) (A : astate) : astate :=
  fun id => match A id with
            | Some (AR h (Some p)) => Some (AR ((v, p) :: h) None)
            | o => o
            end.

(** specification of manager.py:386-396 [rollback_records] *)
Definition a_rollback (A : astate) : astate :=
  fun id => match A id with
            | Some (AR [] _) => None
            | Some (AR h _) => Some (AR h None)
            | None => None
            end.

(** What iterating a record shows: pending data (version None) first. (specification, models no code) *)
Definition view (r : arec) : list (option Z * dict) :=
  (match a_pend r with Some p => [(None, p)] | None => [] end)
  ++ map (fun vd => (Some (fst vd), snd vd)) (a_hist r).

(** A history of calls on one database. (specification, models no code) *)
Inductive step :=
| SIngest (mf : option pystr) (recs : list (pystr * dict))
| SCommit (v : Z)
| SRollback.

(** specification: one call *)
Definition a_step (A : astate) (s : step) : astate :=
  match s with
  | SIngest mf recs => a_ingest mf recs A
  | SCommit v => a_commit v A
  | SRollback => a_rollback A
  end.
(** specification: calls one after the other *)
Definition a_run (A : astate) (ss : list step) : astate := fold_left a_step ss A.

(** Every commit reads a later clock value than all earlier ones. (specification, models no code) *)
Fixpoint clock_increasing (last : Z) (ss : list step) : Prop :=
  match ss with
  | [] => True
  | SCommit v :: r => (last < v)%Z /\ clock_increasing v r
  | _ :: r => clock_increasing last r
  end.
