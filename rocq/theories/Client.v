(** A Splitgill client: several named databases with one data collection each and one shared
    options collection (manager.py:30-89, 250-281, 336-426). *)
From Coq Require Import String Ascii.
From Coq Require Import List ZArith NArith Bool Lia.
From Verif Require Import PyVal Diff Prepare Mongo.
Import ListNotations.
Open Scope nat_scope.

Section Client.
(** ParsingOptions values, their [__eq__] and what [ParsingOptionsBuilder().build()] gives. *)
Context {O : Type} (oeq : O -> O -> bool) (odef : O).

(** A document of the options collection (manager.py:361-366). *)
Record odoc := ODoc { od_name : pystr; od_ver : option Z; od_opts : O }.

(** [data name] is the data collection of the database [name] (manager.py:74-81), [opts] the
    options collection all databases share (manager.py:66-72). *)
Record client := Client { data : pystr -> coll; opts : list odoc }.
(** no collections yet (manager.py:38-48) *)
Definition empty_client : client := Client (fun _ => []) [].
(** the data collection of one database changes (manager.py:74-81) *)
Definition set_data (cl : client) (name : pystr) (c : coll) : client :=
  Client (fun n => if str_eqb n name then c else data cl n) (opts cl).
(** the options collection changes (manager.py:66-72) *)
Definition set_opts (cl : client) (os : list odoc) : client := Client (data cl) os.

(** the filter {"version": None} on options (manager.py:384, 412) *)
Definition o_pending (d : odoc) : bool := match od_ver d with None => true | Some _ => false end.
(** manager.py:241-248: no filter on the name *)
Definition has_options (cl : client) : bool := existsb (fun d => negb (o_pending d)) (opts cl).
(** manager.py:406-412: no filter on the name *)
Definition has_uncommitted_options (cl : client) : bool := existsb o_pending (opts cl).
(** manager.py:398-404 *)
Definition has_uncommitted (cl : client) (name : pystr) : bool := has_uncommitted_data (data cl name).

(** manager.py:414-426 [get_options()]: committed options of this database by version; a later
    document with the same version wins. *)
Definition get_options (cl : client) (name : pystr) : list (Z * O) :=
  fold_left (fun m d => match od_ver d with
                        | Some v => if str_eqb (od_name d) name then zset m v (od_opts d) else m
                        | None => m end) (opts cl) [].
(** manager.py:350: [max(all_options)] *)
Definition zmax_key {V} (m : list (Z * V)) : option Z :=
  match zkeys m with [] => None | k :: r => Some (fold_left Z.max r k) end.
(** manager.py:349-353 *)
Definition latest_options (cl : client) (name : pystr) : option O :=
  match zmax_key (get_options cl name) with Some k => zget (get_options cl name) k | None => None end.

(** manager.py:375-384 [rollback_options]: no filter on the name *)
Definition rollback_options (cl : client) : client :=
  set_opts cl (filter (fun d => negb (o_pending d)) (opts cl)).

(** manager.py:336-373 [update_options(options, commit=False)] *)
Definition update_options (cl : client) (name : pystr) (o : O) : client :=
  let latest := latest_options cl name in
  let cl1 := if has_uncommitted_options cl then rollback_options cl else cl in
  match latest with
  | Some l => if oeq l o then cl1 else set_opts cl1 (opts cl1 ++ [ODoc name None o])
  | None => set_opts cl1 (opts cl1 ++ [ODoc name None o])
  end.

(** manager.py:277-280 for a document of the options collection *)
Definition commit_odoc (v : Z) (d : odoc) : odoc :=
  match od_ver d with None => ODoc (od_name d) (Some v) (od_opts d) | Some _ => d end.

(** manager.py:250-281 [commit] with [now() = v]; the options update has no filter on the name.
    Returns the version. *)
Definition commit (cl : client) (name : pystr) (v : Z) : client * option Z :=
  if negb (has_uncommitted cl name) && negb (has_uncommitted_options cl) then (cl, None)
  else
    let cl1 := if negb (has_options cl) && negb (has_uncommitted_options cl)
               then update_options cl name odef else cl in
    let cl2 := set_data cl1 name (commit_data v (data cl1 name)) in
    (set_opts cl2 (map (commit_odoc v) (opts cl2)), Some v).

(** manager.py:162-186 [get_committed_version]: [find_one] sorted by version descending, where
    null sorts below every number. *)
Definition max_opt (l : list (option Z)) : option Z :=
  fold_left (fun acc o => match acc, o with
                          | Some a, Some b => Some (Z.max a b)
                          | None, x => x
                          | x, None => x end) l None.
(** manager.py:162-186 [get_committed_version] *)
Definition get_committed_version (cl : client) (name : pystr) : option Z :=
  max_opt [max_opt (map d_ver (data cl name));
           max_opt (map od_ver (filter (fun d => str_eqb (od_name d) name) (opts cl)))].

(** The calls of a client. (manager.py:250-396) *)
Inductive call :=
| CIngest (name : pystr) (mf : option pystr) (recs : list prec)  (* manager.py:283-334, commit=False *)
| CCommit (name : pystr) (v : Z)
| CUpdateOptions (name : pystr) (o : O)
| CRollbackOptions (name : pystr)
| CRollback (name : pystr).
Definition call_db (a : call) : pystr :=
  match a with CIngest n _ _ | CCommit n _ | CUpdateOptions n _ | CRollbackOptions n | CRollback n => n end.
(** one call; [None]: it raises (manager.py:250-396) *)
Definition do_call (cl : client) (a : call) : option client :=
  match a with
  | CIngest n mf recs => bind (ingest INGEST_SIZE mf (data cl n) recs) (fun c => Some (set_data cl n c))
  | CCommit n v => Some (fst (commit cl n v))
  | CUpdateOptions n o => Some (update_options cl n o)
  | CRollbackOptions n => Some (rollback_options cl)
  | CRollback n => bind (rollback (data cl n)) (fun c => Some (set_data cl n c))
  end.
(** calls one after the other (manager.py:250-396) *)
Fixpoint do_calls (cl : client) (l : list call) : option client :=
  match l with [] => Some cl | a :: r => bind (do_call cl a) (fun cl' => do_calls cl' r) end.
End Client.
Arguments odoc : clear implicits.
Arguments client : clear implicits.
Arguments call : clear implicits.
