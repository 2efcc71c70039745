(** The MongoDB data collection: documents, bulk operations, [generate_ops],
    [revert_record], [generate_rollback_ops] (ingest.py:35-236), the batching of
    [SplitgillDatabase.ingest] (manager.py:283-334) and [MongoRecord.iter]
    (model.py:83-111).

    MongoDB itself is modelled as follows: a collection is a list of documents
    in natural order; an ordered [bulk_write] applies its operations one after
    the other; [UpdateOne]/[DeleteOne] act on the first matching document and do
    nothing without a match; nothing enforces unique "id"s (the index created in
    manager.py:311-313 is not unique). Server errors are modelled as "stops after
    any prefix of the operations"; for the limits of BSON see Bson.v. *)
From Coq Require Import String Ascii.
From Coq Require Import List ZArith NArith Bool Lia.
From Verif Require Import PyVal Diff Prepare.
Import ListNotations.
Open Scope nat_scope.

(** Maps keyed by version numbers. The code keys [diffs] by [str(version)] and
    reads it back with [int] (model.py:51,91,106-107, ingest.py:169); by
    [Time.int_str_int] / [Time.str_int_inj] this is the same as keying by the
    integer. *)
Section zmap.
  Context {V : Type}.
  (** model.py:108 *)
  Fixpoint zget (m : list (Z * V)) (k : Z) : option V :=
    match m with [] => None | (k', v) :: r => if Z.eqb k k' then Some v else zget r k end.
  (** "$set" of one entry of diffs (ingest.py:171) *)
  Fixpoint zset (m : list (Z * V)) (k : Z) (v : V) : list (Z * V) :=
    match m with
    | [] => [(k, v)]
    | (k', w) :: r => if Z.eqb k k' then (k', v) :: r else (k', w) :: zset r k v
    end.
  (** "$unset" of one entry of diffs (ingest.py:223, 234) *)
  Fixpoint zdel (m : list (Z * V)) (k : Z) : list (Z * V) :=
    match m with [] => [] | (k', w) :: r => if Z.eqb k k' then r else (k', w) :: zdel r k end.
End zmap.
(** the versions in diffs (model.py:91, 107) *)
Definition zkeys {V} (m : list (Z * V)) : list Z := map fst m.

(** [sorted(..., reverse=True)] on ints: insertion sort. (model.py:94, 107) *)
Fixpoint zins (x : Z) (l : list Z) : list Z :=
  match l with [] => [x] | y :: r => if (y <=? x)%Z then x :: l else y :: zins x r end.
(** model.py:107: [sorted(map(int, self.diffs), reverse=True)] *)
Fixpoint zsort_desc (l : list Z) : list Z :=
  match l with [] => [] | x :: r => zins x (zsort_desc r) end.

(** A document of the data collection = model.py:44-57 [MongoRecord]; a missing
    "diffs" field and an empty one are the same ([default_factory=dict]). *)
Record doc := mkDoc {
  d_id : pystr;
  d_ver : option Z;
  d_data : dict;
  d_diffs : list (Z * list diffop)
}.
(** the data collection (manager.py:74-81): its documents in natural order *)
Definition coll := list doc.

(** model.py:96-111 [iter]: newest first; [None] if patch raises. *)
Fixpoint iter_diffs (base : dict) (diffs : list (Z * list diffop)) (vs : list Z)
  : option (list (option Z * dict)) :=
  match vs with
  | [] => Some []
  | v :: vs' =>
      match zget diffs v with
      | None => None
      | Some os =>
          match patch base os with
          | None => None
          | Some data => bind (iter_diffs data diffs vs') (fun r => Some ((Some v, data) :: r))
          end
      end
  end.
(** model.py:96-111 [iter] *)
Definition iter_doc (d : doc) : option (list (option Z * dict)) :=
  bind (iter_diffs (d_data d) (d_diffs d) (zsort_desc (zkeys (d_diffs d))))
       (fun r => Some ((d_ver d, d_data d) :: r)).

(** [not x] of a list or dict (model.py:63, 81) *)
Definition isnil {A} (l : list A) : bool := match l with [] => true | _ => false end.
(** model.py:83-94 [get_versions]; sorting numbers in ascending order is the reverse of sorting them in
    descending order *)
Definition get_versions (d : doc) (desc : bool) : list Z :=
  let l := zsort_desc (zkeys (d_diffs d) ++ match d_ver d with Some v => [v] | None => [] end) in
  if desc then l else rev l.
(** model.py:56-63 [is_deleted], 65-72 [is_uncommitted], 74-81 [has_history] *)
Definition is_deleted (d : doc) : bool := isnil (d_data d).
(** model.py:65-72 [is_uncommitted] *)
Definition is_uncommitted (d : doc) : bool := match d_ver d with None => true | Some _ => false end.
(** model.py:74-81 [has_history] *)
Definition has_history (d : doc) : bool := negb (isnil (d_diffs d)).

(** ** Bulk operations *)
(** ingest.py:89-179, 193-236 *)
Inductive mop :=
| InsertOp (id : pystr) (data : dict)          (* ingest.py:89-95, 113: version None, no diffs *)
| SetDataOp (id : pystr) (data : dict)         (* ingest.py:129 *)
| ChangeOp (id : pystr) (data : dict) (v : Z) (changes : list diffop)  (* ingest.py:160-172 *)
| RevertOp (id : pystr) (data : dict) (v : Z) (unset_all : bool)       (* ingest.py:224-236 *)
| DeleteOp (id : pystr).                       (* ingest.py:125, 196 *)

(** ingest.py:89-179, 193-236 *)
Definition mop_id (o : mop) : pystr :=
  match o with
  | InsertOp i _ | SetDataOp i _ | ChangeOp i _ _ _ | RevertOp i _ _ _ | DeleteOp i => i
  end.

(** UpdateOne (ingest.py:129, 162-174, 224-236): MongoDB changes the first document with the id *)
Fixpoint upd_first (c : coll) (id : pystr) (f : doc -> doc) : coll :=
  match c with
  | [] => []
  | d :: r => if str_eqb (d_id d) id then f d :: r else d :: upd_first r id f
  end.
(** DeleteOne (ingest.py:125, 195): MongoDB removes the first document with the id *)
Fixpoint del_first (c : coll) (id : pystr) : coll :=
  match c with [] => [] | d :: r => if str_eqb (d_id d) id then r else d :: del_first r id end.

(** one operation of [bulk_write] (manager.py:328, 396) *)
Definition apply_mop (c : coll) (o : mop) : coll :=
  match o with
  | InsertOp id data => c ++ [mkDoc id None data []]
  | SetDataOp id data => upd_first c id (fun d => mkDoc (d_id d) (d_ver d) data (d_diffs d))
  | ChangeOp id data v ch =>
      upd_first c id (fun d => mkDoc (d_id d) None data (zset (d_diffs d) v ch))
  | RevertOp id data v all =>
      upd_first c id (fun d => mkDoc (d_id d) (Some v) data (if all then [] else zdel (d_diffs d) v))
  | DeleteOp id => del_first c id
  end.
(** [bulk_write] (manager.py:328, 396), in order *)
Definition apply_mops (c : coll) (os : list mop) : coll := fold_left apply_mop os c.

(** ** generate_ops *)

(** A record to ingest, after [prepare_record_data]: its data is [[]] exactly
    when the record is a delete ([PropsPrepare.C08_id_always_set]). *)
Notation prec := (pystr * dict)%type (only parsing).
(** model.py:21-29 [is_delete] of a record to ingest *)
Definition p_del (r : prec) : bool := match snd r with [] => true | _ => false end.

(** ingest.py:203-236 [revert_record]: the reverted record, [None] if patch
    raises or the record is not revertible (the callers check). *)
Definition revert_doc (d : doc) : option doc :=
  match d_ver d, zsort_desc (zkeys (d_diffs d)) with
  | None, v :: _ =>
      match zget (d_diffs d) v with
      | Some os => bind (patch (d_data d) os)
                     (fun data => Some (mkDoc (d_id d) (Some v) data (zdel (d_diffs d) v)))
      | None => None
      end
  | _, _ => None
  end.
(** ingest.py:224-236: the UpdateOne of [revert_record] *)
Definition revert_op (d : doc) (data : dict) : option mop :=
  match d_ver d with
  | Some v => Some (RevertOp (d_id d) data v (isnil (d_diffs d)))
  | None => None
  end.

(** [data.pop(mf); ...; data[mf] = value]: the field moves to the end. (ingest.py:143-149) *)
Definition repush (d : dict) (mf : pystr) : dict :=
  match dget d mf with Some v => dset (ddel d mf) mf v | None => d end.

(** ingest.py:139-156: the changes, and the two dicts after the pops and
    re-insertions. *)
Definition rec_changes (mf : option pystr) (new old : dict) : list diffop * dict * dict :=
  match mf with
  | Some f =>
      if dmem new f && dmem old f then
        let new' := repush new f in
        let old' := repush old f in
        (if isnil (diff (ddel new f) (ddel old f)) then [] else diff new' old', new', old')
      else (diff new old, new, old)
  | None => (diff new old, new, old)
  end.

(** ingest.py:99-179, one record against the document found for its id. The
    outer option is "raises", the inner one "no operation". *)
Definition rec_op (mf : option pystr) (r : prec) (existing : option doc) : option (option mop) :=
  match existing with
  | None => Some (if p_del r then None else Some (InsertOp (fst r) (snd r)))
  | Some d =>
      let new := snd r in
      match d_ver d with
      | None =>
          if isnil (d_diffs d) then
            Some (if p_del r then Some (DeleteOp (fst r))
                  else if isnil (diff new (d_data d)) then None
                  else Some (SetDataOp (fst r) new))
          else
            match revert_doc d with
            | None => None
            | Some d' =>
                let '(ch, new', old') := rec_changes mf new (d_data d') in
                match d_ver d' with
                | None => None
                | Some v =>
                    Some (if isnil ch then revert_op d' old'
                          else Some (ChangeOp (fst r) new' v ch))
                end
            end
      | Some v =>
          let '(ch, new', _) := rec_changes mf new (d_data d) in
          Some (if isnil ch then None else Some (ChangeOp (fst r) new' v ch))
      end
  end.

(** ingest.py:79 [records_by_id]: last record per id, at its first position. *)
Definition by_id (chunk : list prec) : list prec := dict_of chunk.

(** ingest.py:81-84 [existing]: the last document with that id wins. *)
Definition find_last (c : coll) (id : pystr) : option doc :=
  find (fun d => str_eqb (d_id d) id) (rev c).

(** ingest.py:78-179 for one chunk of records; [None] if something raises. The
    shortcut of lines 87-98 is the first case. *)
Fixpoint map_ops (mf : option pystr) (c : coll) (rs : list prec) : option (list mop) :=
  match rs with
  | [] => Some []
  | r :: rs' =>
      match rec_op mf r (find_last c (fst r)) with
      | None => None
      | Some o => bind (map_ops mf c rs') (fun l => Some (match o with Some x => x :: l | None => l end))
      end
  end.
(** ingest.py:80-179 for one chunk; [None]: something raises *)
Definition chunk_ops (mf : option pystr) (c : coll) (chunk : list prec) : option (list mop) :=
  let rs := by_id chunk in
  if forallb (fun r => match find_last c (fst r) with None => true | _ => false end) rs
  then Some (map (fun r => InsertOp (fst r) (snd r)) (filter (fun r => negb (p_del r)) rs))
  else map_ops mf c rs.

(** manager.py:283-334 [ingest] (commit=False). [generate_ops] is a generator
    driven by [partition(..., size)]: the [find] for a chunk of records runs when
    the first operation of that chunk is requested, at which point fewer than
    [size] operations already generated are still unwritten ([pend]). The result is
    the sequence of all operations, in the order they are written. *)
Fixpoint ingest_loop (size : nat) (mf : option pystr) (c : coll) (pend : list mop)
    (chunks : list (list prec)) : option (list mop) :=
  match chunks with
  | [] => Some pend
  | ch :: rest =>
      match chunk_ops mf c ch with
      | None => None
      | Some os =>
          let buf := pend ++ os in
          let n := Nat.div (length buf) size * size in
          bind (ingest_loop size mf (apply_mops c (firstn n buf)) (skipn n buf) rest)
               (fun l => Some (firstn n buf ++ l))
      end
  end.
(** manager.py:325-329: all chunks, no operations generated yet *)
Definition ingest_ops (size : nat) (mf : option pystr) (c : coll) (recs : list prec)
  : option (list mop) :=
  ingest_loop size mf c [] (partition recs size).
(** manager.py:283-334 [ingest] with commit=False; [None]: something raises *)
Definition ingest (size : nat) (mf : option pystr) (c : coll) (recs : list prec) : option coll :=
  bind (ingest_ops size mf c recs) (fun os => Some (apply_mops c os)).

(** manager.py:322, the size used *)
Definition INGEST_SIZE : nat := 200.

(** ** Rollback (ingest.py:182-200, manager.py:386-396) *)
Definition rollback_op (d : doc) : option mop :=
  if isnil (d_diffs d) then Some (DeleteOp (d_id d))
  else match revert_doc d with
       | Some d' => revert_op d' (d_data d')
       | None => None
       end.
(** the filter {"version": None} (ingest.py:191, manager.py:279, 404) *)
Definition is_pending (d : doc) : bool := match d_ver d with None => true | _ => false end.
(** [find({"version": None})] is a cursor read while earlier operations are being
    written in batches of 200; each document is visited once, at a moment when only
    documents visited before it have been written (natural order), so the
    operations are those of the initial snapshot. *)
Fixpoint rollback_ops_of (ds : list doc) : option (list mop) :=
  match ds with
  | [] => Some []
  | d :: r => match rollback_op d with
              | Some o => bind (rollback_ops_of r) (fun l => Some (o :: l))
              | None => None
              end
  end.
(** ingest.py:182-200 [generate_rollback_ops] *)
Definition rollback_ops (c : coll) : option (list mop) := rollback_ops_of (filter is_pending c).
(** manager.py:386-396 [rollback_records]; [None]: something raises *)
Definition rollback (c : coll) : option coll :=
  bind (rollback_ops c) (fun os => Some (apply_mops c os)).

(** ** Commit of the data collection (manager.py:277-280) *)
Definition commit_doc (v : Z) (d : doc) : doc :=
  match d_ver d with None => mkDoc (d_id d) (Some v) (d_data d) (d_diffs d) | Some _ => d end.
(** manager.py:277-280 for the data collection *)
Definition commit_data (v : Z) (c : coll) : coll := map (commit_doc v) c.
(** manager.py:398-404 [has_uncommitted_data] *)
Definition has_uncommitted_data (c : coll) : bool := existsb is_pending c.
