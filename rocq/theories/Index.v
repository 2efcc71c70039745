(** From the versions of a record to bulk operations: RecordVersion, RecordVersions.build and
    generate_index_ops (indexing/index.py:94-321). *)
From Coq Require Import List ZArith NArith Bool Lia.
From Verif Require Import PyVal Diff Mongo.
Import ListNotations.
Open Scope nat_scope.

(** [sorted(set(...))] on ints (indexing/index.py:219) *)
Fixpoint zins_u (x : Z) (l : list Z) : list Z :=
  match l with
  | [] => [x]
  | y :: r => if (x <? y)%Z then x :: l else if (x =? y)%Z then l else y :: zins_u x r
  end.
(** [sorted(set(...))] on ints (indexing/index.py:206-248) *)
Definition zsorted_set (l : list Z) : list Z := fold_right zins_u [] l.
(** [min(...)] of a dict's keys; [None] stands for the ValueError on an empty one (indexing/index.py:218, 222-223) *)
Definition zmin_key {V} (m : list (Z * V)) : option Z :=
  match zkeys m with [] => None | k :: r => Some (fold_left Z.min r k) end.
(** [dict(pairs)] (indexing/index.py:217) *)
Definition zdict {V} (l : list (Z * V)) : list (Z * V) := fold_left (fun m kv => zset m (fst kv) (snd kv)) l [].

Section Index.
(** [P] is ParsedData, [parse] and [peq] are [parse(data, options)] (indexing/parser.py:23-53) and
    [==] on its results. They are modelled in Parser.v; nothing here depends on how they work. *)
Context {O P : Type} (parse : dict -> O -> P) (peq : P -> P -> bool).

(** indexing/index.py:124-139 [RecordVersion] without [record_id] and [next]: a record's versions are kept
    in a list, [next] is the following element. *)
Record rv := RV { rv_ver : Z; rv_parsed : P; rv_del : option Z }.

(** indexing/index.py:141-155 [version_end] *)
Definition version_end (r : rv) (next : option rv) : option Z :=
  match rv_del r with
  | Some w => Some w
  | None => match next with Some n => Some (rv_ver n) | None => None end
  end.

(** The document of indexing/index.py:157-175 [create_doc]: [e_end] is the field next and the bound [lt] of
    the range versions (both missing for [None]), [e_ver] the field version and the bound [gte];
    [e_parsed] the fields data, data_types and parsed_types. *)
Record esdoc := ED { e_id : pystr; e_ver : Z; e_end : option Z; e_parsed : P }.
(** indexing/index.py:157-175 [create_doc] *)
Definition create_doc (id : pystr) (r : rv) (next : option rv) : esdoc :=
  ED id (rv_ver r) (version_end r next) (rv_parsed r).

(** indexing/index.py:177-192 [__eq__], with [self = doc] a new version ([deleted_at] is None) and
    [other = last]. *)
Definition rv_eqb (doc last : rv) : bool :=
  match rv_del doc, rv_del last with
  | None, None => peq (rv_parsed last) (rv_parsed doc)
  | _, _ => false
  end.

(** One round of the loop indexing/index.py:226-246; the versions built so far are newest first.
    [None]: [record_versions.last] raises AttributeError on None. *)
Definition build_step (first : Z) (all_data : list (Z * dict)) (all_opts : list (Z * O))
    (st : option (dict * O * list rv)) (v : Z) : option (dict * O * list rv) :=
  match st with
  | None => None
  | Some (data, opts, acc) =>
      if (v <? first)%Z then st
      else
        let data := match zget all_data v with Some x => x | None => data end in
        let opts := match zget all_opts v with Some o => o | None => opts end in
        if match data with [] => true | _ => false end then
          match acc with
          | [] => None
          | r :: rest => Some (data, opts, match rv_del r with
                                           | None => RV (rv_ver r) (rv_parsed r) (Some v) :: rest
                                           | Some _ => acc end)
          end
        else
          let doc := RV v (parse data opts) None in
          Some (data, opts, match acc with
                            | [] => [doc]
                            | r :: _ => if rv_eqb doc r then acc else doc :: acc end)
  end.

(** indexing/index.py:205-248 [RecordVersions.build], oldest version first; [all_data] is
    [dict(record.iter())]. [None]: an exception (no options, or a first version that is deleted). *)
Definition build (all_data : list (Z * dict)) (all_opts : list (Z * O)) : option (list rv) :=
  match zmin_key all_data, zmin_key all_opts with
  | Some fd, Some fo =>
      match zget all_data fd, zget all_opts fo with
      | Some data, Some opts =>
          match fold_left (build_step fd all_data all_opts)
                  (zsorted_set (zkeys all_opts ++ zkeys all_data)) (Some (data, opts, [])) with
          | Some (_, _, acc) => Some (rev acc)
          | None => None
          end
      | _, _ => None
      end
  | _, _ => None
  end.

(** The bulk operations of indexing/index.py:94-121; [BIndexArc] gets its id from Elasticsearch. *)
Inductive bop :=
| BIndexLatest (id : pystr) (d : esdoc)
| BDeleteLatest (id : pystr)
| BIndexArc (n : N) (d : esdoc).

(** indexing/index.py:295-296, 303, 308: [version > after], where None is -inf *)
Definition gt_after (after : option Z) (v : Z) : bool := match after with None => true | Some a => (a <? v)%Z end.
(** [x is None] (indexing/index.py:260-321) *)
Definition isNone {A} (o : option A) : bool := match o with None => true | Some _ => false end.

(** indexing/index.py:316-321, the arc bookkeeping; [cap] is MAX_DOCS_PER_ARC *)
Definition next_arc (cap : N) (st : N * N) : N * N :=
  if (cap <=? snd st)%N then ((fst st + 1)%N, 1%N) else (fst st, (snd st + 1)%N).

(** indexing/index.py:301-321 for one record *)
Fixpoint gen_rvs (cap : N) (after : option Z) (id : pystr) (st : N * N) (rvs : list rv) : (N * N) * list bop :=
  match rvs with
  | [] => (st, [])
  | r :: rest =>
      let next := hd_error rest in
      let newer := gt_after after (rv_ver r) in
      let doc := create_doc id r next in
      if newer && isNone next && isNone (rv_del r) then
        let '(st', ops) := gen_rvs cap after id st rest in (st', BIndexLatest id doc :: ops)
      else if negb newer && negb (match version_end r next with Some e => gt_after after e | None => false end) then
        gen_rvs cap after id st rest
      else
        let dels := if negb newer && isNone next then [BDeleteLatest id] else [] in
        let st1 := next_arc cap st in
        let '(st', ops) := gen_rvs cap after id st1 rest in
        (st', dels ++ BIndexArc (fst st1) doc :: ops)
  end.

(** indexing/index.py:260-321 [generate_index_ops]; a record is its id and [dict(record.iter())].
    The generator is run to its end; [None]: building some record raises. *)
Fixpoint gen_ops (cap : N) (after : option Z) (all_opts : list (Z * O)) (st : N * N)
    (records : list (pystr * list (Z * dict))) : option ((N * N) * list bop) :=
  match records with
  | [] => Some (st, [])
  | (id, all_data) :: rest =>
      match build all_data all_opts with
      | None => None
      | Some rvs =>
          let '(st1, ops1) := gen_rvs cap after id st rvs in
          match gen_ops cap after all_opts st1 rest with
          | None => None
          | Some (st2, ops2) => Some (st2, ops1 ++ ops2)
          end
      end
  end.
End Index.
Arguments rv : clear implicits.
Arguments esdoc : clear implicits.
Arguments bop : clear implicits.
