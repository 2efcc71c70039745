(** Elasticsearch as the code uses it, and the functions of the manager that read and write it:
    get_arc_status, get_elasticsearch_version, get_rounded_version (manager.py:136-230), sync,
    resync_arcs, search, get_version_changed_counts, get_versions (manager.py:441-637) and write_ops
    (indexing/syncing.py:72-192, here as "all operations, then a refresh"; the workers are in Workers.v).

    Elasticsearch itself is modelled for one database as follows. Writes go to the live documents;
    searches, aggregations and counts read the visible ones; a refresh of an index makes its live
    documents visible (the indices are written with refresh_interval -1). Indexing with an id replaces
    the document with that id, indexing without one always adds a document, deleting an id that is
    not there does nothing. Deleting an index removes its documents at once. *)
From Coq Require Import List ZArith NArith Bool Lia.
From Verif Require Import PyVal Diff Prepare Mongo Client Index.
Import ListNotations.
Open Scope nat_scope.

Section ES.
Context {P : Type}.

(** [lat] is the latest index, keyed by _id; [arc] the arc indices data-<name>-arc-<n>. (indexing/index.py:29-74, 95-122) *)
Record docs := Docs { lat : list (pystr * esdoc P); arc : list (N * esdoc P) }.
(** [arcs] are the numbers of the arc indices that exist, [has_lat] whether the latest index does. (manager.py:126-160, 497-515) *)
Record es := ES { live : docs; vis : docs; arcs : list N; has_lat : bool }.
(** no indices (manager.py:126-160) *)
Definition empty_es : es := ES (Docs [] []) (Docs [] []) [] false.

(** removing the document with an id from latest (indexing/index.py:114-121) *)
Definition del_lat (id : pystr) (l : list (pystr * esdoc P)) := filter (fun kv => negb (str_eqb (fst kv) id)) l.
(** indexing/index.py:94-121, what one action of a bulk request does *)
Definition apply_bop (d : docs) (o : bop P) : docs :=
  match o with
  | BIndexLatest id x => Docs (del_lat id (lat d) ++ [(id, x)]) (arc d)
  | BDeleteLatest id => Docs (del_lat id (lat d)) (arc d)
  | BIndexArc n x => Docs (lat d) (arc d ++ [(n, x)])
  end.
(** the actions of bulk requests in order (indexing/syncing.py:229-233) *)
Definition apply_bops (d : docs) (ops : list (bop P)) : docs := fold_left apply_bop ops d.

(** indexing/syncing.py:165-173 [indices_seen] *)
Definition lat_seen (ops : list (bop P)) : bool := existsb (fun o => match o with BIndexArc _ _ => false | _ => true end) ops.
(** indexing/syncing.py:165-173: whether an arc is among [indices_seen] *)
Definition arc_seen (ops : list (bop P)) (n : N) : bool :=
  existsb (fun o => match o with BIndexArc m _ => N.eqb m n | _ => false end) ops.
(** indexing/syncing.py:127-141 [setup_indices] creates the indices that do not exist *)
Definition add_arc (l : list N) (o : bop P) : list N :=
  match o with BIndexArc n _ => if existsb (N.eqb n) l then l else l ++ [n] | _ => l end.
(** indexing/syncing.py:127-141 [setup_indices]: the missing indices are created *)
Definition setup (ops : list (bop P)) (e : es) : es :=
  ES (live e) (vis e) (fold_left add_arc ops (arcs e)) (has_lat e || lat_seen ops).
(** The effect of the bulk requests without the final refresh. (indexing/syncing.py:96-193) *)
Definition write_live (ops : list (bop P)) (e : es) : es :=
  let e := setup ops e in ES (apply_bops (live e) ops) (vis e) (arcs e) (has_lat e).
(** indexing/syncing.py:72-93, 116: refresh of the indices seen; the client refreshes all indices
    when given an empty list. *)
Definition refresh (ops : list (bop P)) (e : es) : es :=
  if isnil ops then ES (live e) (live e) (arcs e) (has_lat e)
  else ES (live e)
          (Docs (if lat_seen ops then lat (live e) else lat (vis e))
                (filter (fun nx => arc_seen ops (fst nx)) (arc (live e)) ++
                 filter (fun nx => negb (arc_seen ops (fst nx))) (arc (vis e))))
          (arcs e) (has_lat e).
(** indexing/syncing.py:96-124 [write_ops] *)
Definition write_ops (ops : list (bop P)) (e : es) : es := refresh ops (write_live ops e).

(** manager.py:476-482, 526-531 *)
Definition delete_arcs (e : es) : es := ES (Docs (lat (live e)) []) (Docs (lat (vis e)) []) [] (has_lat e).

(** the documents under the wildcard of all indices (indexing/index.py:52-62) *)
Definition all_docs (d : docs) : list (esdoc P) := map snd (lat d) ++ map snd (arc d).
(** manager.py:136-160 *)
Definition get_arc_status (e : es) : N * N :=
  match arcs e with
  | [] => (0, 0)%N
  | n :: r => let m := fold_left N.max r n in
              (m, N.of_nat (length (filter (fun nx => N.eqb (fst nx) m) (arc (vis e)))))
  end.
(** manager.py:188-212; versions are below 2^53, where doubles are exact *)
Definition es_version (e : es) : option Z :=
  max_opt (map (fun d => Some (e_ver d)) (all_docs (vis e)) ++ map e_end (all_docs (vis e))).

(** ** Searching *)
(** search.py:46-55 [version_query]: a term query on the range field versions *)
Definition version_query (v : Z) (d : esdoc P) : bool :=
  (e_ver d <=? v)%Z && match e_end d with Some w => (v <? w)%Z | None => true end.
(** manager.py:560-604 [search], all hits. Searching the latest index raises if it does not exist. *)
Definition search_latest (e : es) : option (list (esdoc P)) :=
  if has_lat e then Some (map snd (lat (vis e))) else None.
(** manager.py:601-602: SearchVersion.all *)
Definition search_all (e : es) : list (esdoc P) := all_docs (vis e).
(** manager.py:588-597: an int version *)
Definition search_at (e : es) (v : Z) : option (list (esdoc P)) :=
  match es_version e with
  | Some c => if (c <=? v)%Z then search_latest e else Some (filter (version_query v) (all_docs (vis e)))
  | None => Some (filter (version_query v) (all_docs (vis e)))
  end.

(** manager.py:606-626 [get_version_changed_counts]; iter_terms gives each value once with the number
    of documents (Search.v) *)
Definition term_counts (l : list Z) : list (Z * nat) :=
  map (fun v => (v, length (filter (Z.eqb v) l))) (zsorted_set l).
(** documents without the field are not in an aggregation (manager.py:618, 623) *)
Definition somes (l : list (option Z)) : list Z := flat_map (fun o => match o with Some z => [z] | None => [] end) l.
(** manager.py:606-626 [get_version_changed_counts] *)
Definition changed_counts (e : es) : list (Z * nat) :=
  fold_left (fun m kv => zset m (fst kv) (snd kv)) (term_counts (somes (map e_end (all_docs (vis e)))))
    (term_counts (map e_ver (all_docs (vis e)))).
(** manager.py:628-637 *)
Definition get_versions (e : es) : list Z := zsorted_set (zkeys (changed_counts e)).
(** manager.py:214-230; [bisect_right] is the number of elements not above [v] *)
Definition bisect_right (l : list Z) (v : Z) : nat := length (filter (fun x => (x <=? v)%Z) l).
(** manager.py:214-230 [get_rounded_version] *)
Definition get_rounded_version (e : es) (v : Z) : option Z :=
  match get_versions e with
  | [] => None
  | x :: _ => if (v <? x)%Z then None else nth_error (get_versions e) (bisect_right (get_versions e) v - 1)
  end.
End ES.
Arguments docs : clear implicits.
Arguments es : clear implicits.

Section Sync.
Context {O P : Type} (parse : dict -> O -> P) (peq : P -> P -> bool).

(** [dict(record.iter())] of a document whose versions are all set *)
Definition rec_hist (d : doc) : option (list (Z * dict)) :=
  match iter_doc d with
  | Some l => Some (zdict (flat_map (fun vd => match fst vd with Some v => [(v, snd vd)] | None => [] end) l))
  | None => None
  end.
(** manager.py:428-439 with the filters of [sync]: committed documents whose version passes [f] *)
Fixpoint find_records (f : Z -> bool) (c : coll) : option (list (pystr * list (Z * dict))) :=
  match c with
  | [] => Some []
  | d :: r =>
      if match d_ver d with Some v => f v | None => false end then
        match rec_hist d, find_records f r with
        | Some h, Some l => Some ((d_id d, h) :: l)
        | _, _ => None
        end
      else find_records f r
  end.
(** manager.py:232-239 *)
Definition has_data (c : coll) : bool := existsb (fun d => match d_ver d with Some _ => true | None => false end) c.

(** indexing/index.py:14 *)
Definition MAX_DOCS_PER_ARC : N := 2000000.

(** manager.py:441-515 [sync] up to the call of write_ops, given the data collection, [get_options()] and
    [get_committed_version()]: [None] raises, [Some None] returns early, [Some (Some (e, ops))] writes
    [ops] to [e]. *)
Definition plan (cap : N) (c : coll) (all_opts : list (Z * O)) (committed : option Z) (resync : bool) (e : es P)
  : option (option (es P * list (bop P))) :=
  if negb (has_data c) then Some None
  else
    let last_sync := if resync then None else es_version e in
    let go (f : Z -> bool) :=
      let e1 := if resync then delete_arcs e else e in
      match find_records f c with
      | None => None
      | Some recs =>
          match gen_ops parse peq cap last_sync all_opts (get_arc_status e1) recs with
          | None => None
          | Some (_, ops) => Some (Some (e1, ops))
          end
      end in
    match last_sync with
    | None => go (fun _ => true)
    | Some ls =>
        match committed with
        | None => None
        | Some cv =>
            if (cv <=? ls)%Z then Some None
            else if existsb (fun v => (ls <? v)%Z) (zkeys all_opts) then go (fun _ => true)
            else go (fun v => (ls <? v)%Z)
        end
    end.
(** manager.py:473-515: [plan] with what the client has *)
Definition sync_plan (cap : N) (cl : client O) (name : pystr) (resync : bool) (e : es P) :=
  plan cap (data cl name) (get_options cl name) (get_committed_version cl name) resync e.
(** manager.py:505-515: a plan carried out *)
Definition run_plan (p : option (option (es P * list (bop P)))) (e : es P) : option (es P) :=
  match p with
  | None => None
  | Some None => Some e
  | Some (Some (e1, ops)) => Some (write_ops ops e1)
  end.
(** manager.py:441-515 [sync]; [None]: it raises *)
Definition sync (cap : N) (cl : client O) (name : pystr) (resync : bool) (e : es P) : option (es P) :=
  run_plan (sync_plan cap cl name resync e) e.

(** manager.py:517-558 [resync_arcs] *)
Definition is_arc_op (o : bop P) : bool := match o with BIndexArc _ _ => true | _ => false end.
(** manager.py:517-558 [resync_arcs]; [None]: it raises *)
Definition resync_arcs (cap : N) (cl : client O) (name : pystr) (e : es P) : option (es P) :=
  let e1 := delete_arcs e in
  match find_records (fun _ => true) (data cl name) with
  | None => None
  | Some recs =>
      match gen_ops parse peq cap None (get_options cl name) (get_arc_status e1) recs with
      | None => None
      | Some (_, ops) => Some (write_ops (filter is_arc_op ops) e1)
      end
  end.
End Sync.
