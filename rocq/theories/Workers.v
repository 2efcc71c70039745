(** The bulk writer: write_ops_async, check_for_errors and worker (indexing/syncing.py:144-259), and the
    parts of write_ops around them (indexing/syncing.py:96-124), as a transition system. A step is what a
    task does between two awaits; any task that is able to may take the next step, so every schedule of
    asyncio is covered (and many more). *)
From Coq Require Import List ZArith NArith Bool Lia.
From Verif Require Import PyVal Diff Prepare Mongo Client Index Sync.
Import ListNotations.
Open Scope nat_scope.

(** What can go wrong with a bulk request: it times out (ConnectionTimeout; Elasticsearch may have
    carried it out or not), items are rejected, the request raises something else. [Setup] is an error
    when the main task creates an index. (indexing/syncing.py:210-259) *)
Inductive fault := Timeout | Reject | Broken | Setup.

(** [sub l m]: [l] is [m] without some of its elements (specification, models no code) *)
Inductive sub {A} : list A -> list A -> Prop :=
| sub_nil : sub [] []
| sub_skip x l m : sub l m -> sub l (x :: m)
| sub_take x l m : sub l m -> sub (x :: l) (x :: m).

(** replaces an element of a list; models no code *)
Fixpoint upd {A} (i : nat) (x : A) (l : list A) : list A :=
  match l, i with
  | [], _ => []
  | _ :: r, 0 => x :: r
  | y :: r, S j => y :: upd j x r
  end.

Section Writer.
Context {P : Type}.
Notation bop := (bop P).
Notation chunk := (list bop).

(** indexing/syncing.py:244-253: the items of a response without errors; a delete of a document that
    does not exist has no error *)
Definition is_delete (o : bop) : bool := match o with BDeleteLatest _ => true | _ => false end.
(** indexing/syncing.py:244-253: the count of deletions *)
Definition n_deleted (c : chunk) : nat := length (filter is_delete c).
(** indexing/syncing.py:244-253: the count of indexed documents *)
Definition n_indexed (c : chunk) : nat := length (filter (fun o => negb (is_delete o)) c).

(** indexing/syncing.py:164-190, where the main task is: before the next chunk, before putting a chunk,
    before putting the remaining Nones, in join, in gather, at the end. *)
Inductive main :=
| MFeed (rest : list chunk)
| MPut (c : chunk) (rest : list chunk)
| MStop (k : nat)
| MJoin
| MGather
| MReturned (indexed deleted : nat)
| MRaised.
(** indexing/syncing.py:210-259, where a worker is: before queue.get, before the bulk request (with the
    number of attempts made), returned, raised. *)
Inductive worker :=
| WIdle (indexed deleted : nat)
| WSend (c : chunk) (attempts indexed deleted : nat)
| WDone (indexed deleted : nat)
| WFailed.

(** [queue] and [unfinished] are those of asyncio.Queue. [seen] are the operations of the chunks for which
    indices were set up (indices_seen are their indices). [log] and [lost] are not in the code: the
    operations carried out so far, and those of them carried out by requests that did not succeed. (indexing/syncing.py:144-259) *)
Record st := St { s_main : main; queue : list (option chunk); unfinished : nat; workers : list worker;
                  s_es : es P; seen : list bop; log : list bop; lost : list bop }.

Variable buffer : nat.       (* indexing/syncing.py:27-31 [op_buffer_size]; 0 means unbounded *)
Variable ft : fault -> Prop. (* the faults that can happen *)

(** indexing/syncing.py:144-193 *)
Definition not_full (q : list (option chunk)) : Prop := buffer = 0 \/ length q < buffer.
(** indexing/syncing.py:195-207: a task with an exception *)
Definition failed (w : worker) : bool := match w with WFailed => true | _ => false end.
(** indexing/syncing.py:189: the result of a task *)
Definition counts (w : worker) : option (nat * nat) := match w with WDone i d => Some (i, d) | _ => None end.
(** what the documents are after (a part of) a request *)
Definition carry_out (ops : list bop) (e : es P) : es P := ES (apply_bops (live e) ops) (vis e) (arcs e) (has_lat e).
(** indexing/syncing.py:195-207 [check_for_errors] *)
Definition check (ws : list worker) (next : main) : main := if existsb failed ws then MRaised else next.
(** indexing/syncing.py:64-65 *)
Fixpoint total (ws : list worker) : option (nat * nat) :=
  match ws with
  | [] => Some (0, 0)
  | w :: r => match counts w, total r with Some (i, d), Some (i', d') => Some (i + i', d + d') | _, _ => None end
  end.
(** indexing/syncing.py:226 *)
Definition retries : nat := 3.   (* indexing/syncing.py:226 *)

(** indexing/syncing.py:144-259 *)
Inductive step : st -> st -> Prop :=
(** lines 166-175; the set up of the new indices of a chunk is one step *)
| s_setup c rest q u ws e sn lg ls :
    step (St (MFeed (c :: rest)) q u ws e sn lg ls) (St (MPut c rest) q u ws (setup c e) (sn ++ c) lg ls)
| s_setup_fails c rest q u ws e sn lg ls : ft Setup ->
    step (St (MFeed (c :: rest)) q u ws e sn lg ls) (St MRaised q u ws e sn lg ls)
(** lines 176-179 *)
| s_put c rest q u ws e sn lg ls : not_full q ->
    step (St (MPut c rest) q u ws e sn lg ls) (St (check ws (MFeed rest)) (q ++ [Some c]) (S u) ws e sn lg ls)
(** lines 181-184 *)
| s_feed_done q u ws e sn lg ls : step (St (MFeed []) q u ws e sn lg ls) (St (MStop (length ws)) q u ws e sn lg ls)
| s_stop k q u ws e sn lg ls : not_full q ->
    step (St (MStop (S k)) q u ws e sn lg ls) (St (MStop k) (q ++ [None]) (S u) ws e sn lg ls)
| s_stopped q u ws e sn lg ls : step (St (MStop 0) q u ws e sn lg ls) (St MJoin q u ws e sn lg ls)
(** lines 184-186 *)
| s_join q ws e sn lg ls : step (St MJoin q 0 ws e sn lg ls) (St (check ws MGather) q 0 ws e sn lg ls)
(** lines 188-190 *)
| s_gather i d q u ws e sn lg ls : total ws = Some (i, d) ->
    step (St MGather q u ws e sn lg ls) (St (MReturned i d) q u ws e sn lg ls)
| s_gather_fails q u ws e sn lg ls : existsb failed ws = true ->
    step (St MGather q u ws e sn lg ls) (St MRaised q u ws e sn lg ls)
(** lines 220-223: None, like an empty list, ends the worker *)
| w_stop m o q u ws n i d e sn lg ls : nth_error ws n = Some (WIdle i d) -> (o = None \/ o = Some []) ->
    step (St m (o :: q) u ws e sn lg ls) (St m q (u - 1) (upd n (WDone i d) ws) e sn lg ls)
| w_take m x c q u ws n i d e sn lg ls : nth_error ws n = Some (WIdle i d) ->
    step (St m (Some (x :: c) :: q) u ws e sn lg ls) (St m q u (upd n (WSend (x :: c) 0 i d) ws) e sn lg ls)
(** lines 228-234, 244-257 *)
| w_sent m q u ws n c a i d e sn lg ls : nth_error ws n = Some (WSend c a i d) ->
    step (St m q u ws e sn lg ls)
         (St m q (u - 1) (upd n (WIdle (i + n_indexed c) (d + n_deleted c)) ws) (carry_out c e) sn (lg ++ c) ls)
(** lines 235-241 *)
| w_timeout m q u ws n c a i d e sn lg ls did : ft Timeout -> nth_error ws n = Some (WSend c a i d) -> a < retries -> sub did c ->
    step (St m q u ws e sn lg ls) (St m q u (upd n (WSend c (S a) i d) ws) (carry_out did e) sn (lg ++ did) (ls ++ did))
| w_timeout_last m q u ws n c a i d e sn lg ls did : ft Timeout -> nth_error ws n = Some (WSend c a i d) -> retries <= a -> sub did c ->
    step (St m q u ws e sn lg ls) (St m q u (upd n WFailed ws) (carry_out did e) sn (lg ++ did) (ls ++ did))
(** lines 254-255 and any other exception of the request *)
| w_rejected m q u ws n c a i d e sn lg ls did : ft Reject -> nth_error ws n = Some (WSend c a i d) -> sub did c -> did <> c ->
    step (St m q u ws e sn lg ls) (St m q u (upd n WFailed ws) (carry_out did e) sn (lg ++ did) (ls ++ did))
| w_broken m q u ws n c a i d e sn lg ls did : ft Broken -> nth_error ws n = Some (WSend c a i d) -> sub did c ->
    step (St m q u ws e sn lg ls) (St m q u (upd n WFailed ws) (carry_out did e) sn (lg ++ did) (ls ++ did)).

(** indexing/syncing.py:109-112, 151-163 [write_ops], [write_ops_async]: the start, with [count] workers *)
Definition begin (ops : list bop) (chunk_size count : nat) (e : es P) : st :=
  St (MFeed (partition ops chunk_size)) [] 0 (repeat (WIdle 0 0) count) e [] [] [].
(** any number of steps; models no code of its own *)
Inductive steps : st -> st -> Prop :=
| steps_none s : steps s s
| steps_more s s' s'' : steps s s' -> step s' s'' -> steps s s''.
(** indexing/syncing.py:115-116: the final refresh, of the indices of the result *)
Definition finish (s : st) : es P := refresh (seen s) (s_es s).
End Writer.
