(** The data collection as MongoDB holds it: documents, the update operators, and the code of ingest.py:35-236 and model.py:83-111 on the documents
    as they are read back, where a DiffOp is no tuple but a list of a path and a dict. [BsonProofs.v] shows that Mongo.v describes the same. *)
From Coq Require Import String Ascii.
From Coq Require Import List ZArith NArith Bool Lia.
From Verif Require Import PyVal Diff Time Prepare Mongo Store MongoStore ParserTypes.
Import ListNotations.
Local Open Scope string_scope.
Local Open Scope list_scope.
Local Open Scope nat_scope.

(** ** What is written *)
(** diffing.py:130-138: the tuples of a DiffOp become arrays *)
Definition write_key (k : pkey) : value := match k with PK s => VStr s | PI i => VInt (Z.of_nat i) end.
(** an entry of the ops of a DiffOp that may be missing (diffing.py:186-214, 246-270) *)
Definition entry {A} (name : string) (f : A -> value) (x : option A) : dict := match x with Some y => [(lit name, f y)] | None => [] end.
(** in the order in which the code adds the entries (diffing.py:186-214, 246-270); no reader depends on it *)
Definition write_ops (o : ops) : dict :=
  entry "dn" VDict (o_dn o) ++ entry "dd" (fun ks => VList (map VStr ks)) (o_dd o) ++ entry "dc" VDict (o_dc o)
  ++ entry "ln" VList (o_ln o) ++ entry "ld" (fun n => VInt (Z.of_nat n)) (o_ld o)
  ++ entry "lc" (fun cs => VList (map (fun c => VList [VInt (Z.of_nat (fst c)); snd c]) cs)) (o_lc o).
(** diffing.py:130-138: a DiffOp as pymongo stores it *)
Definition write_diffop (o : diffop) : value := VList [VList (map write_key (dpath o)); VDict (write_ops (dops o))].
(** ingest.py:171: a list of DiffOps as pymongo stores it *)
Definition write_changes (os : list diffop) : value := VList (map write_diffop os).

(** ** patch on what is read back *)
(** a list index: negative ones count from the end (diffing.py:352-354, 368-369) *)
Definition index (len : nat) (z : Z) : option nat :=
  let i := if (z <? 0)%Z then (z + Z.of_nat len)%Z else z in
  if ((0 <=? i) && (i <? Z.of_nat len))%Z then Some (Z.to_nat i) else None.
(** [target[key_or_index]]; [None]: KeyError, IndexError, TypeError (diffing.py:353) *)
Definition get_item (target key : value) : option value :=
  match target, key with
  | VDict d, VStr k => dget d k
  | VList l, VInt z => bind (index (length l) z) (nth_error l)
  | _, _ => None
  end.
(** [target[key_or_index] = x] (diffing.py:354, 369) *)
Definition set_item (target key x : value) : option value :=
  match target, key with
  | VDict d, VStr k => Some (VDict (dset d k x))
  | VList l, VInt z => bind (index (length l) z) (fun i => bind (lset l i x) (fun l' => Some (VList l')))
  | _, _ => None
  end.
(** [del target[key]], dicts only (diffing.py:364) *)
Definition del_item (target key : value) : option value :=
  match target, key with
  | VDict d, VStr k => if dmem d k then Some (VDict (ddel d k)) else None
  | _, _ => None
  end.
(** what has a [copy] method (diffing.py:353) *)
Definition can_copy (v : value) : bool := match v with VList _ | VDict _ => true | _ => false end.
(** [target.update(x)] for a dict x (diffing.py:359, 361) *)
Definition update_with (target x : value) : option value := match target, x with VDict d, VDict e => Some (VDict (dupdate d e)) | _, _ => None end.
(** [for key in x: del target[key]] for a list x (diffing.py:362-364) *)
Definition del_all (target x : value) : option value :=
  match x with VList ks => fold_left (fun t k => bind t (fun t => del_item t k)) ks (Some target) | _ => None end.
(** [for index, value in x: target[index] = value] for a list x of lists (diffing.py:367-369) *)
Definition set_all (target x : value) : option value :=
  match x with
  | VList cs => fold_left (fun t c => bind t (fun t => match c with VList [i; v] => set_item t i v | _ => None end)) cs (Some target)
  | _ => None
  end.
(** [target.extend(x)] for a list x (diffing.py:371) *)
Definition extend_with (target x : value) : option value := match target, x with VList l, VList t => Some (VList (l ++ t)) | _, _ => None end.
(** [del target[x:]] (diffing.py:373) *)
Definition cut (target x : value) : option value :=
  match target, x with
  | VList l, VInt z => Some (VList (firstn (Z.to_nat (if (z <? 0)%Z then z + Z.of_nat (length l) else z)) l))
  | _, _ => None
  end.
(** diffing.py:358-373: [if name in op] *)
Definition if_in (op : dict) (name : string) (f : value -> value -> option value) (target : value) : option value :=
  match dget op (lit name) with Some x => f target x | None => Some target end.
(** diffing.py:357-373 *)
Definition run_op (op : dict) (target : value) : option value :=
  bind (if_in op "dc" update_with target) (fun t => bind (if_in op "dn" update_with t) (fun t => bind (if_in op "dd" del_all t) (fun t =>
  bind (if_in op "lc" set_all t) (fun t => bind (if_in op "ln" extend_with t) (fun t => if_in op "ld" cut t))))).
(** diffing.py:351-355 *)
Fixpoint run_at (path : list value) (op : dict) (v : value) : option value :=
  match path with
  | [] => run_op op v
  | k :: path' => bind (get_item v k) (fun c => if can_copy c then bind (run_at path' op c) (set_item v k) else None)
  end.
(** diffing.py:347-373 for ops that are lists of a list and a dict; others, with which patch could work too, are never stored *)
Fixpoint run_all (v : value) (os : list value) : option value :=
  match os with
  | [] => Some v
  | VList [VList path; VDict op] :: os' => bind (run_at path op v) (fun v' => run_all v' os')
  | _ => None
  end.
(** diffing.py:322-375 [patch] *)
Definition patch_read (base : dict) (os : value) : option dict :=
  match os with
  | VList [] => Some base
  | VList l => match run_all (VDict base) l with Some (VDict d) => Some d | _ => None end
  | _ => None
  end.

(** ** Records as they are read *)
(** model.py:44-57 [MongoRecord]; the ObjectId under "_id", which nothing uses, is left out everywhere *)
Record mrec := mkMrec { m_id : pystr; m_ver : option Z; m_data : dict; m_diffs : dict }.
(** a version or None as pymongo stores it (model.py:51) *)
Definition write_version (v : option Z) : value := match v with Some z => VInt z | None => VNone end.
(** [MongoRecord( **doc)]; [None] if a field is missing or of another type than the code writes (ingest.py:83-86; model.py:43-54) *)
Definition read_doc (doc : dict) : option mrec :=
  match dget doc (lit "id"), dget doc (lit "version"), dget doc (lit "data"), dget doc (lit "diffs") with
  | Some (VStr i), Some ver, Some (VDict data), diffs =>
      match ver, diffs with
      | VNone, None => Some (mkMrec i None data [])
      | VNone, Some (VDict ds) => Some (mkMrec i None data ds)
      | VInt z, None => Some (mkMrec i (Some z) data [])
      | VInt z, Some (VDict ds) => Some (mkMrec i (Some z) data ds)
      | _, _ => None
      end
  | _, _, _, _ => None
  end.
(** [map(int, diffs)]; [None]: ValueError (model.py:107) *)
Fixpoint ints (ks : list pystr) : option (list Z) :=
  match ks with [] => Some [] | k :: r => bind (int_str k) (fun z => bind (ints r) (fun l => Some (z :: l))) end.
(** model.py:96-111 [iter] *)
Fixpoint iter_read_from (base diffs : dict) (vs : list Z) : option (list (option Z * dict)) :=
  match vs with
  | [] => Some []
  | v :: vs' => bind (dget diffs (str_int v)) (fun os => bind (patch_read base os) (fun data => bind (iter_read_from data diffs vs') (fun r => Some ((Some v, data) :: r))))
  end.
(** model.py:96-111 [iter] *)
Definition iter_read (m : mrec) : option (list (option Z * dict)) :=
  bind (ints (dkeys (m_diffs m))) (fun vs => bind (iter_read_from (m_data m) (m_diffs m) (zsort_desc vs)) (fun r => Some ((m_ver m, m_data m) :: r))).

(** ** MongoDB *)
(** pymongo's operations with a filter on "id" (ingest.py:89-179, 193-236) *)
Inductive wop := InsertOne (doc : dict) | UpdateOne (id : pystr) (sets : dict) (unsets : list pystr) | DeleteOne (id : pystr).
(** $set: missing documents on the way are made; a value that is no document on the way is an error ([None]). Arrays on the way do not occur. *)
Fixpoint set_path (p : list pystr) (x : value) (v : value) : option value :=
  match p, v with
  | [], _ => Some x
  | k :: p', VDict d =>
      bind (set_path p' x (match dget d k with Some c => c | None => VDict [] end)) (fun c => Some (VDict (dset d k c)))
  | _, _ => None
  end.
(** $unset: nothing happens if there is nothing (ingest.py:234) *)
Fixpoint unset_path (p : list pystr) (v : value) : value :=
  match p, v with
  | [k], VDict d => VDict (ddel d k)
  | k :: p', VDict d => match dget d k with Some c => VDict (dset d k (unset_path p' c)) | None => v end
  | _, _ => v
  end.
(** "$set" (ingest.py:129, 165-172, 227-231, manager.py:279) *)
Definition set_fields (sets : dict) (doc : value) : option value :=
  fold_left (fun v s => bind v (set_path (split (fst s)) (snd s))) sets (Some doc).
(** "$unset" (ingest.py:234) *)
Definition unset_fields (unsets : list pystr) (doc : value) : value := fold_left (fun v k => unset_path (split k) v) unsets doc.
(** the filter {"id": ...} (ingest.py:85, 125, 129, 163, 195, 225) *)
Definition has_id (id : pystr) (doc : dict) : bool := match dget doc (lit "id") with Some (VStr i) => str_eqb i id | _ => false end.
(** the filter {"version": None} (ingest.py:191, manager.py:279) *)
Definition is_none (doc : dict) : bool := match dget doc (lit "version") with Some VNone | None => true | _ => false end.
(** one document of an update (ingest.py:129, 162-174, 224-236, manager.py:278-280) *)
Definition update_doc (sets : dict) (unsets : list pystr) (doc : dict) : option dict :=
  match set_fields sets (VDict doc) with
  | Some v => match unset_fields unsets v with VDict d => Some d | _ => None end
  | None => None
  end.
(** ** Limits *)
(** BSON has integers of 64 bits, text without surrogates, and names without the character 0 (manager.py:328) *)
Definition int_ok (z : Z) : bool := ((- 2 ^ 63 <=? z) && (z <? 2 ^ 63))%Z.
(** text that can be encoded in UTF-8 (manager.py:328) *)
Definition text_ok (s : pystr) : bool := forallb (fun c => negb ((55296 <=? c) && (c <=? 57343))%N) s.
(** names pymongo accepts (manager.py:328) *)
Definition name_ok (s : pystr) : bool := text_ok s && forallb (fun c => negb (N.eqb c 0)) s.
(** values pymongo can encode (manager.py:328) *)
Fixpoint bson_ok (v : value) : bool :=
  match v with
  | VInt z => int_ok z
  | VStr s => text_ok s
  | VList l => forallb bson_ok l
  | VDict d => forallb (fun kv => name_ok (fst kv) && bson_ok (snd kv)) d
  | _ => true
  end.
(** how deep documents and arrays are nested *)
Fixpoint depth (v : value) : nat :=
  match v with
  | VList l => S (list_max (map depth l))
  | VDict d => S (list_max (map (fun kv => depth (snd kv)) d))
  | _ => 0
  end.
(** MongoDB stores documents nested to some limit (100 levels by its documentation). For the limit on their size see BsonSize.v. *)
Definition accepted (limit : nat) (doc : dict) : bool := bson_ok (VDict doc) && (depth (VDict doc) <=? limit).

Section Server.
(** the documents that pymongo can write and the server stores *)
Variable accepts : dict -> bool.
(** the first document that matches *)
Fixpoint update_first (id : pystr) (sets : dict) (unsets : list pystr) (c : list dict) : option (list dict) :=
  match c with
  | [] => Some []
  | d :: r => if has_id id d then bind (update_doc sets unsets d) (fun d' => if accepts d' then Some (d' :: r) else None) else bind (update_first id sets unsets r) (fun r' => Some (d :: r'))
  end.
(** DeleteOne (ingest.py:125, 195) *)
Fixpoint delete_first (id : pystr) (c : list dict) : list dict :=
  match c with [] => [] | d :: r => if has_id id d then r else d :: delete_first id r end.
(** [None]: an error of pymongo or the server (manager.py:328) *)
Definition apply_wop (c : list dict) (o : wop) : option (list dict) :=
  match o with
  | InsertOne doc => if accepts doc then Some (c ++ [doc]) else None
  | UpdateOne id sets unsets => update_first id sets unsets c
  | DeleteOne id => Some (delete_first id c)
  end.
(** [bulk_write] (manager.py:328, 396) *)
Fixpoint apply_wops (c : list dict) (os : list wop) : option (list dict) :=
  match os with [] => Some c | o :: r => bind (apply_wop c o) (fun c' => apply_wops c' r) end.

(** ** ingest.py on what is read *)
(** ingest.py:171, 234 *)
Definition diffs_field (v : Z) : pystr := lit "diffs." ++ str_int v.
(** ingest.py:89-95, 113 *)
Definition insert_one (r : pystr * dict) : wop := InsertOne [(lit "id", VStr (fst r)); (lit "data", VDict (snd r)); (lit "version", VNone)].
(** ingest.py:203-236 [revert_record]: the record as it is after, and the operation. [next(islice(record.iter(), 1, None), None)] takes the second
    item of the iteration, so only one patch runs. [None]: an exception, or nothing to revert (the callers check) *)
Definition revert_read (m : mrec) : option (mrec * dict * list pystr) :=
  match m_ver m with
  | Some _ => None
  | None =>
      bind (ints (dkeys (m_diffs m))) (fun vs =>
      match zsort_desc vs with
      | [] => None
      | v :: _ =>
          bind (dget (m_diffs m) (str_int v)) (fun os => bind (patch_read (m_data m) os) (fun data =>
            let diffs := ddel (m_diffs m) (str_int v) in
            Some (mkMrec (m_id m) (Some v) data diffs, [(lit "data", VDict data); (lit "version", VInt v)], [if isnil diffs then lit "diffs" else diffs_field v])))
      end)
  end.
(** The operation holds the dict of the record: what happens to that between here and the yield (ingest.py:144-152: a field is popped and put back
    last) is seen in the operation. *)
Definition with_data (sets : dict) (data : dict) : dict := dset sets (lit "data") (VDict data).
(** ingest.py:160-172 *)
Definition change_one (id : pystr) (new : dict) (v : Z) (ch : list diffop) : wop :=
  UpdateOne id [(lit "data", VDict new); (lit "version", VNone); (diffs_field v, write_changes ch)] [].
(** ingest.py:99-179 *)
Definition read_op (mf : option pystr) (r : pystr * dict) (existing : option mrec) : option (option wop) :=
  match existing with
  | None => Some (if p_del r then None else Some (insert_one r))
  | Some m =>
      match m_ver m with
      | None =>
          if isnil (m_diffs m) then
            Some (if p_del r then Some (DeleteOne (fst r))
                  else if isnil (diff (snd r) (m_data m)) then None
                  else Some (UpdateOne (fst r) [(lit "data", VDict (snd r))] []))
          else
            bind (revert_read m) (fun '(m', sets, unsets) =>
              let '(ch, new', old') := rec_changes mf (snd r) (m_data m') in
              match m_ver m' with
              | None => None
              | Some v => Some (if isnil ch then Some (UpdateOne (m_id m') (with_data sets old') unsets) else Some (change_one (fst r) new' v ch))
              end)
      | Some v =>
          let '(ch, new', _) := rec_changes mf (snd r) (m_data m) in
          Some (if isnil ch then None else Some (change_one (fst r) new' v ch))
      end
  end.
(** ingest.py:81-84 [existing]: the last document wins; [None] if a document cannot be read *)
Definition find_read (c : list dict) (id : pystr) : option (option mrec) :=
  match find (has_id id) (rev c) with None => Some None | Some doc => bind (read_doc doc) (fun m => Some (Some m)) end.
(** ingest.py:103-179: the operations for the records of a chunk *)
Fixpoint read_ops (mf : option pystr) (c : list dict) (rs : list (pystr * dict)) : option (list wop) :=
  match rs with
  | [] => Some []
  | r :: rs' => bind (find_read c (fst r)) (fun e => bind (read_op mf r e) (fun o => bind (read_ops mf c rs') (fun l => Some (match o with Some x => x :: l | None => l end))))
  end.
(** ingest.py:78-179 for one chunk *)
Definition read_chunk (mf : option pystr) (c : list dict) (chunk : list (pystr * dict)) : option (list wop) :=
  let rs := by_id chunk in
  if forallb (fun r => match find (has_id (fst r)) (rev c) with None => true | _ => false end) rs
  then Some (map insert_one (filter (fun r => negb (p_del r)) rs))
  else read_ops mf c rs.
(** manager.py:316-327, see [Mongo.ingest_loop] *)
Fixpoint read_loop (size : nat) (mf : option pystr) (c : list dict) (pend : list wop) (chunks : list (list (pystr * dict))) : option (list dict) :=
  match chunks with
  | [] => apply_wops c pend
  | ch :: rest =>
      bind (read_chunk mf c ch) (fun os =>
        let buf := pend ++ os in
        let n := Nat.div (length buf) size * size in
        bind (apply_wops c (firstn n buf)) (fun c' => read_loop size mf c' (skipn n buf) rest))
  end.
(** manager.py:283-334 [ingest] with commit=False *)
Definition ingest_read (size : nat) (mf : option pystr) (c : list dict) (recs : list (pystr * dict)) : option (list dict) := read_loop size mf c [] (partition recs size).
(** ingest.py:182-200, manager.py:386-396 *)
Definition rollback_read_op (doc : dict) : option wop :=
  bind (read_doc doc) (fun m =>
    if isnil (m_diffs m) then Some (DeleteOne (m_id m)) else bind (revert_read m) (fun '(m', sets, unsets) => Some (UpdateOne (m_id m') sets unsets))).
(** ingest.py:182-200 [generate_rollback_ops] *)
Fixpoint rollback_read_ops (ds : list dict) : option (list wop) :=
  match ds with [] => Some [] | d :: r => bind (rollback_read_op d) (fun o => bind (rollback_read_ops r) (fun l => Some (o :: l))) end.
(** manager.py:386-396 [rollback_records] *)
Definition rollback_read (c : list dict) : option (list dict) := bind (rollback_read_ops (filter is_none c)) (apply_wops c).
(** manager.py:277-280: update_many *)
Fixpoint commit_read (v : Z) (c : list dict) : option (list dict) :=
  match c with
  | [] => Some []
  | d :: r => bind (if is_none d then bind (update_doc [(lit "version", VInt v)] [] d) (fun d' => if accepts d' then Some d' else None) else Some d) (fun d' => bind (commit_read v r) (fun r' => Some (d' :: r')))
  end.

(** One call after the other, on what MongoDB holds. (manager.py:250-334, 386-396) *)
Definition read_step (c : list dict) (s : step) : option (list dict) :=
  match s with
  | SIngest mf recs => ingest_read INGEST_SIZE mf c recs
  | SCommit v => commit_read v c
  | SRollback => rollback_read c
  end.
(** calls one after the other; models no code of its own *)
Fixpoint read_run (c : list dict) (ss : list step) : option (list dict) :=
  match ss with [] => Some c | s :: r => bind (read_step c s) (fun c' => read_run c' r) end.
End Server.
