(** Several processes working on one data collection at the same time. Only [commit] holds the lock of the
    database (manager.py:263; locking.py); [ingest] (manager.py:283-334) and [rollback_records] (386-396) hold none, and the
    lock of [commit] does not stop them.

    What a process does to the collection is a sequence of small events: it reads the document of a record and
    generates an operation for it (ingest.py:78-179 and 193-200), it sends the next operation of its buffer
    (manager.py:324-328, 395-396), or MongoDB, carrying out the [update_many] of a commit, gives one document its version
    (manager.py:277-280; [update_many] is atomic for each document, not for the collection). A schedule is any list
    of events. Simplifications: reading is an event for each record (a batch is read by one query of 200 ids, which is one of
    the schedules), so is writing (a [bulk_write] is a sequence of single writes); a document is chosen by its position. *)
From Coq Require Import String Ascii.
From Coq Require Import List ZArith NArith Bool Lia Sorted.
From Verif Require Import PyVal Diff DiffProofs Prepare PrepareProofs Mongo Store MongoProofs MongoStore.
Import ListNotations.
Local Open Scope nat_scope.

(** The collection and the operations that have been generated and not been sent, each with its process, in the order
    of their generation: the lists [ops] and the state of the generator in manager.py:324-328. *)
Record world := mkW { w_coll : coll; w_wait : list (nat * mop) }.
(** an empty collection, nothing under way (manager.py:324-328) *)
Definition start : world := mkW [] [].

(** what the processes and the server do (ingest.py:78-200, manager.py:277-280, 325-329, 395-396) *)
Inductive event :=
| EvRead (p : nat) (mf : option pystr) (r : pystr * dict)   (* ingest.py:81-179, one record *)
| EvRevert (p : nat) (i : nat)                     (* ingest.py:193-200, one pending document *)
| EvWrite (p : nat)                                (* manager.py:327, 396, one operation *)
| EvDie (p : nat)                                  (* the process ends or is stopped by an error *)
| EvCommit (v : Z) (i : nat).                      (* manager.py:277-280, one document *)

(** the next operation of a process (manager.py:326-328) *)
Fixpoint next (p : nat) (w : list (nat * mop)) : option (mop * list (nat * mop)) :=
  match w with
  | [] => None
  | (q, o) :: r => if Nat.eqb q p then Some (o, r) else option_map (fun x => (fst x, (q, o) :: snd x)) (next p r)
  end.
(** one document replaced *)
Fixpoint upd_nth (i : nat) (f : doc -> doc) (c : coll) : coll :=
  match c, i with
  | [], _ => []
  | d :: r, 0 => f d :: r
  | d :: r, S i' => d :: upd_nth i' f r
  end.

(** One event; [None] if generating the operation raises. (ingest.py:78-200; manager.py:277-280, 325-329, 395-396) *)
Definition happen (s : world) (e : event) : option world :=
  match e with
  | EvRead p mf r =>
      match rec_op mf r (find_last (w_coll s) (fst r)) with
      | None => None
      | Some None => Some s
      | Some (Some o) => Some (mkW (w_coll s) (w_wait s ++ [(p, o)]))
      end
  | EvRevert p i =>
      match nth_error (w_coll s) i with
      | Some d => if is_pending d
                  then match rollback_op d with
                       | Some o => Some (mkW (w_coll s) (w_wait s ++ [(p, o)]))
                       | None => None
                       end
                  else Some s
      | None => Some s
      end
  | EvWrite p =>
      match next p (w_wait s) with
      | Some (o, w) => Some (mkW (apply_mop (w_coll s) o) w)
      | None => Some s
      end
  | EvDie p => Some (mkW (w_coll s) (filter (fun x => negb (Nat.eqb (fst x) p)) (w_wait s)))
  | EvCommit v i => Some (mkW (upd_nth i (commit_doc v) (w_coll s)) (w_wait s))
  end.
(** events one after the other (manager.py:277-280, 325-329, 395-396) *)
Fixpoint happens (s : world) (es : list event) : option world :=
  match es with [] => Some s | e :: r => bind (happen s e) (fun s' => happens s' r) end.

(** ** The calls are schedules *)
Lemma happens_app s a b : happens s (a ++ b) = bind (happens s a) (fun s' => happens s' b).
Proof.
  revert s. induction a as [|e a IH]; intro s; cbn [app happens bind]; [reflexivity|].
  destruct (happen s e) as [s1|]; cbn [bind]; [apply IH|reflexivity].
Qed.
(** proof device *)
Definition none_of (p : nat) (w : list (nat * mop)) : Prop := Forall (fun x => fst x <> p) w.
Lemma next_own p w o r : none_of p w -> next p (w ++ (p, o) :: r) = Some (o, w ++ r).
Proof.
  induction 1 as [|[q m] w Hq _ IH]; cbn [app next].
  - rewrite Nat.eqb_refl. reflexivity.
  - cbn [fst] in Hq. rewrite (proj2 (Nat.eqb_neq _ _) Hq), IH. reflexivity.
Qed.
Lemma writes p : forall os w c r, none_of p w ->
  happens (mkW c (w ++ map (pair p) os ++ r)) (repeat (EvWrite p) (length os)) = Some (mkW (apply_mops c os) (w ++ r)).
Proof.
  induction os as [|o os IH]; intros w c r Hw; cbn [length repeat happens map app apply_mops fold_left]; [reflexivity|].
  cbn [happen w_wait w_coll]. rewrite next_own by exact Hw. cbn [bind]. apply IH. exact Hw.
Qed.
Lemma reads p mf : forall rs os w c, map_ops mf c rs = Some os ->
  happens (mkW c w) (map (EvRead p mf) rs) = Some (mkW c (w ++ map (pair p) os)).
Proof.
  induction rs as [|r rs IH]; intros os w c H; cbn [map_ops map happens] in *.
  - injection H as <-. cbn. rewrite app_nil_r. reflexivity.
  - cbn [happen w_coll w_wait]. destruct (rec_op mf r (find_last c (fst r))) as [o|]; [|discriminate].
    destruct (map_ops mf c rs) as [l|] eqn:El; [|discriminate]. cbn [bind] in H. injection H as <-.
    destruct o as [o|]; cbn [bind]; rewrite (IH l) by exact El; [|reflexivity].
    rewrite <- app_assoc. reflexivity.
Qed.
Lemma ingest_events p size mf : forall chunks pend os w c, none_of p w ->
  ingest_loop size mf c pend chunks = Some os ->
  exists es, happens (mkW c (w ++ map (pair p) pend)) es = Some (mkW (apply_mops c os) w).
Proof.
  induction chunks as [|ch rest IH]; intros pend os w c Hw H; cbn [ingest_loop] in H.
  - injection H as <-. exists (repeat (EvWrite p) (length pend)).
    pose proof (writes p pend w c [] Hw) as W. rewrite !app_nil_r in W. exact W.
  - rewrite chunk_ops_map in H. destruct (map_ops mf c (by_id ch)) as [l|] eqn:E; [|discriminate].
    cbv zeta in H. set (buf := pend ++ l) in *. set (n := length buf / size * size) in *.
    destruct (ingest_loop size mf (apply_mops c (firstn n buf)) (skipn n buf) rest) as [os'|] eqn:E2; [|discriminate].
    cbn [bind] in H. injection H as <-. destruct (IH _ _ w _ Hw E2) as (es & Hes).
    exists (map (EvRead p mf) (by_id ch) ++ repeat (EvWrite p) (length (firstn n buf)) ++ es).
    rewrite happens_app, (reads p mf _ _ _ _ E). cbn [bind]. rewrite <- app_assoc, <- map_app. fold buf.
    rewrite <- (firstn_skipn n buf) at 1. rewrite map_app, happens_app, writes by exact Hw. cbn [bind].
    rewrite apply_mops_app. exact Hes.
Qed.
Lemma revert_events p c : forall ds k, (forall j d, nth_error ds j = Some d -> nth_error c (k + j) = Some d) ->
  forall w os, rollback_ops_of (filter is_pending ds) = Some os ->
  happens (mkW c w) (map (EvRevert p) (seq k (length ds))) = Some (mkW c (w ++ map (pair p) os)).
Proof.
  induction ds as [|d ds IH]; intros k Hk w os H; cbn [length seq map happens filter] in *.
  - cbn in H. injection H as <-. cbn. rewrite app_nil_r. reflexivity.
  - cbn [happen w_coll w_wait]. pose proof (Hk 0 d eq_refl) as H0. rewrite Nat.add_0_r in H0. rewrite H0.
    assert (Hk' : forall j d0, nth_error ds j = Some d0 -> nth_error c (S k + j) = Some d0).
    { intros j d0 Hj. specialize (Hk (S j) d0 Hj). rewrite Nat.add_succ_r in Hk. exact Hk. }
    destruct (is_pending d); [|cbn [bind]; apply IH; [exact Hk'|exact H]].
    cbn [rollback_ops_of] in H. destruct (rollback_op d) as [o|]; [|discriminate].
    destruct (rollback_ops_of (filter is_pending ds)) as [l|] eqn:E; [|discriminate]. cbn [bind] in H. injection H as <-.
    cbn [bind]. rewrite (IH (S k) Hk' _ l eq_refl). rewrite <- app_assoc. reflexivity.
Qed.
Lemma upd_nth_app a b f i : upd_nth (length a + i) f (a ++ b) = a ++ upd_nth i f b.
Proof. induction a as [|d a IH]; cbn [length app upd_nth Nat.add]; [reflexivity|]. rewrite IH. reflexivity. Qed.
Lemma commit_events v w : forall b a, 
  happens (mkW (a ++ b) w) (map (EvCommit v) (seq (length a) (length b))) = Some (mkW (a ++ map (commit_doc v) b) w).
Proof.
  induction b as [|d b IH]; intro a; cbn [length seq map happens]; [reflexivity|].
  cbn [happen w_coll w_wait bind]. pose proof (upd_nth_app a (d :: b) (commit_doc v) 0) as U. rewrite Nat.add_0_r in U. rewrite U.
  cbn [upd_nth]. specialize (IH (a ++ [commit_doc v d])). rewrite app_length in IH. cbn [length] in IH. rewrite Nat.add_1_r in IH.
  rewrite <- !app_assoc in IH. exact IH.
Qed.
(** Each call of the model of [Mongo.v] is the schedule in which one process does all of it undisturbed. *)
Theorem call_events p s c c' w : none_of p w -> run_step c s = Some c' ->
  exists es, happens (mkW c w) es = Some (mkW c' w).
Proof.
  intros Hw H. destruct s as [mf recs|v|]; cbn [run_step] in H.
  - unfold ingest, ingest_ops in H. destruct (ingest_loop _ _ _ _ _) as [os|] eqn:E; [|discriminate]. cbn [bind] in H. injection H as <-.
    destruct (ingest_events p _ _ _ _ _ w _ Hw E) as (es & Hes). cbn [map] in Hes. rewrite app_nil_r in Hes. eauto.
  - injection H as <-. exists (map (EvCommit v) (seq 0 (length c))). exact (commit_events v w c []).
  - unfold rollback, rollback_ops in H. destruct (rollback_ops_of _) as [os|] eqn:E; [|discriminate]. cbn [bind] in H. injection H as <-.
    exists (map (EvRevert p) (seq 0 (length c)) ++ repeat (EvWrite p) (length os)).
    rewrite happens_app, (revert_events p c c 0 (fun j d H => H) w os E). cbn [bind].
    pose proof (writes p os w c [] Hw) as W. rewrite !app_nil_r in W. exact W.
Qed.

(** ** What the commits wrote *)
(** Nobody is about to write the record. (specification, models no code) *)
Definition waits (s : world) (id : pystr) : Prop := exists p o, In (p, o) (w_wait s) /\ mop_id o = id.
(** An event of a calm schedule: the data is a dict as Python has it; and a pending document is committed only when nobody
    is about to write its record, it is the only document of its record and the version is above all its versions. *)
Definition calm (s : world) (e : event) : Prop :=
  match e with
  | EvRead _ _ r => wfd (snd r)
  | EvCommit v i => forall d, nth_error (w_coll s) i = Some d -> d_ver d = None ->
      ~ waits s (d_id d) /\ docs_of (d_id d) (w_coll s) = [d] /\ Forall (fun k => (k < v)%Z) (zkeys (d_diffs d))
  | _ => True
  end.
(** specification: every event is calm *)
Fixpoint all_calm (s : world) (es : list event) : Prop :=
  match es with
  | [] => True
  | e :: r => calm s e /\ match happen s e with Some s' => all_calm s' r | None => True end
  end.
(** What the event commits of the record: the version, and the data of the document at that moment. *)
Definition commits (s : world) (e : event) (id : pystr) : list (Z * dict) :=
  match e with
  | EvCommit v i =>
      match nth_error (w_coll s) i with
      | Some d => if is_pending d && str_eqb (d_id d) id then [(v, d_data d)] else []
      | None => []
      end
  | _ => []
  end.
(** All that a schedule commits of the record, newest first. (specification, models no code) *)
Fixpoint ledger (s : world) (es : list event) (id : pystr) : list (Z * dict) :=
  match es with
  | [] => []
  | e :: r => (match happen s e with Some s' => ledger s' r id | None => [] end) ++ commits s e id
  end.

Lemma upd_nth_split i f : forall c d, nth_error c i = Some d ->
  exists a b, c = a ++ d :: b /\ upd_nth i f c = a ++ f d :: b.
Proof.
  induction i as [|i IH]; intros [|x c] d H; try discriminate; cbn [nth_error] in H.
  - injection H as ->. exists [], c. auto.
  - destruct (IH c d H) as (a & b & -> & E). exists (x :: a), b. cbn [upd_nth]. rewrite E. auto.
Qed.
Lemma upd_nth_id i f c : (forall d, nth_error c i = Some d -> f d = d) -> upd_nth i f c = c.
Proof.
  revert c. induction i as [|i IH]; intros [|x c] H; cbn [upd_nth]; try reflexivity.
  - rewrite (H x eq_refl). reflexivity.
  - rewrite IH; [reflexivity|]. intros d Hd. apply H. exact Hd.
Qed.
Lemma docs_of_mid id a d b : docs_of id (a ++ d :: b) = docs_of id a ++ (if str_eqb (d_id d) id then [d] else []) ++ docs_of id b.
Proof. rewrite docs_of_app. cbn [docs_of filter]. destruct (str_eqb (d_id d) id); reflexivity. Qed.
Lemma docs_upd_other i f c d id : nth_error c i = Some d -> d_id (f d) = d_id d -> d_id d <> id ->
  docs_of id (upd_nth i f c) = docs_of id c.
Proof.
  intros H Hf Hn. destruct (upd_nth_split i f c d H) as (a & b & -> & ->). rewrite !docs_of_mid, Hf.
  rewrite (proj2 (str_eqb_neq _ _) Hn). reflexivity.
Qed.
Lemma docs_upd_only i f c d : nth_error c i = Some d -> d_id (f d) = d_id d -> docs_of (d_id d) c = [d] ->
  docs_of (d_id d) (upd_nth i f c) = [f d].
Proof.
  intros H Hf Ho. destruct (upd_nth_split i f c d H) as (a & b & E & ->). rewrite E, docs_of_mid, str_eqb_refl in Ho.
  rewrite docs_of_mid, Hf, str_eqb_refl. destruct (docs_of (d_id d) a) as [|x l].
  - cbn [app] in *. injection Ho as ->. reflexivity.
  - exfalso. apply (f_equal (@length _)) in Ho. rewrite !app_length in Ho. cbn in Ho. lia.
Qed.

Lemma commit_doc_id v d : d_id (commit_doc v d) = d_id d.
Proof. unfold commit_doc. destruct (d_ver d); reflexivity. Qed.
Lemma next_in p w o r : next p w = Some (o, r) -> In (p, o) w /\ incl r w.
Proof.
  revert r. induction w as [|[q m] w IH]; intros r H; cbn [next] in H; [discriminate|]. destruct (Nat.eqb_spec q p) as [->|].
  - injection H as -> ->. split; [left; reflexivity|]. intros x Hx; right; exact Hx.
  - destruct (next p w) as [[o' r']|]; [|discriminate]. cbn in H. injection H as -> <-. destruct (IH r' eq_refl) as [H1 H2].
    split; [right; exact H1|]. intros x [<-|Hx]; [left; reflexivity|right; exact (H2 x Hx)].
Qed.

Section Refine.
Variable R : value -> value -> Prop.
Variable good : dict -> Prop.
Hypothesis DC : data_class R good.
Notation doc_rel := (doc_rel R good).
Notation op_valid := (op_valid R good).
Notation committed_base := (committed_base R good).
Notation "a ~~ b" := (vsim R (VDict a) (VDict b)) (at level 70).

(** the abstract state with a given history (specification, models no code) *)
Definition st (h : pystr -> list (Z * dict)) : astate := fun id => match h id with [] => None | l => Some (AR l None) end.

Lemma rel_bound b b' d r : doc_rel b d r -> (match d_ver d with Some v => (v <= b')%Z | None => Forall (fun k => (k <= b')%Z) (zkeys (d_diffs d)) end) ->
  doc_rel b' d r.
Proof.
  intros ([o1 o2 o3 o4 o5] & H) L. split; [|exact H]. constructor; auto; destruct (d_ver d); auto.
Qed.
Lemma rel_mono b b' d r : (b <= b')%Z -> doc_rel b d r -> doc_rel b' d r.
Proof.
  intros L H. apply (rel_bound b); [exact H|]. destruct H as ([o1 o2 o3 o4 o5] & _). destruct (d_ver d); [lia|].
  eapply Forall_impl; [|exact o4]. cbn; intros; lia.
Qed.
Lemma rel_own b d h p : doc_rel b d (AR h (Some p)) -> doc_rel b d (AR h (Some (d_data d))).
Proof.
  intro H. destruct (rel_pend R good _ _ _ _ H) as (Hv & Hp & Hgp & Hgh & l & Hl & H2). pose proof (proj1 H) as Hok.
  apply (rel_intro R good _ _ _ l Hok); [|exact Hl|].
  - unfold view. cbn. constructor; [exact (ok_good _ _ _ Hok)|exact Hgh].
  - unfold view. cbn. constructor; [split; cbn; [exact Hv|apply (s_refl R good DC)]|exact H2].
Qed.

(** The state agrees with the history [h] of the commits, and so do all operations under way. (proof device) *)
Definition agrees (s : world) (h : pystr -> list (Z * dict)) : Prop :=
  exists b, committed_base b (w_coll s) (st h) /\ Forall (fun x => op_valid (st h) (snd x)) (w_wait s).

Lemma agrees_start : agrees start (fun _ => []).
Proof. exists 0%Z. split; [intro id; cbn; constructor|constructor]. Qed.

Lemma rollback_valid b c h d : committed_base b c (st h) -> In d c -> is_pending d = true ->
  exists o, rollback_op d = Some o /\ op_valid (st h) o.
Proof.
  intros HB Hd Hp. assert (Hin : In d (docs_of (d_id d) c)) by (apply filter_In; split; [exact Hd|apply str_eqb_refl]).
  specialize (HB (d_id d)). unfold st in HB at 1. destruct (h (d_id d)) as [|[v x] rest] eqn:Eh.
  - rewrite Forall_forall in HB. destruct (HB d Hin) as (_ & Hdd & _). unfold rollback_op. rewrite Hdd. cbn [isnil].
    eexists; split; [reflexivity|]. cbn [MongoStore.op_valid]. unfold st. rewrite Eh. exact I.
  - destruct HB as (d1 & p & E1 & Hrel). rewrite E1 in Hin. destruct Hin as [->|[]]. destruct p as [p|].
    + pose proof (hist_len R good _ _ _ _ Hrel) as L.
      destruct (revert_rel R good DC _ _ _ _ _ _ Hrel) as (d' & m & os & Hrev & Hid' & Hv' & _ & Hdd' & _ & Hrel').
      pose proof (hist_len_c R good _ _ _ _ _ Hrel') as L2.
      destruct (rel_comm R good _ _ _ Hrel') as (v1 & x1 & r1 & E2 & _ & Hx & _). injection E2 as <- <- <-.
      unfold rollback_op. destruct (d_diffs d) eqn:Edd; [discriminate|]. cbn [isnil].
      rewrite Hrev. unfold revert_op. rewrite Hv'. eexists; split; [reflexivity|]. cbn [MongoStore.op_valid].
      exists x, rest, None. unfold st. rewrite Hid', Eh. split; [reflexivity|].
      split; [exact (dc_wf _ _ DC _ (ok_good _ _ _ (proj1 Hrel')))|]. split; [exact Hx|].
      destruct (d_diffs d'), rest; try discriminate; reflexivity.
    + destruct (rel_comm R good _ _ _ Hrel) as (? & ? & ? & _ & Hv & _). unfold is_pending in Hp. rewrite Hv in Hp. discriminate.
Qed.

Lemma op_valid_ext A B o : A (mop_id o) = B (mop_id o) -> op_valid A o -> op_valid B o.
Proof. intros E H. destruct o; cbn [MongoStore.op_valid mop_id] in *; rewrite <- E; exact H. Qed.

(** proof device *)
Definition calm_good (s : world) (e : event) : Prop :=
  calm s e /\ match e with EvRead _ _ r => good (snd r) | _ => True end.

Theorem agrees_step s e h : agrees s h -> calm_good s e ->
  exists s', happen s e = Some s' /\ agrees s' (fun id => commits s e id ++ h id).
Proof.
  intros (b & HB & HW) [HC HG].
  destruct e as [p mf [id new]|p i|p|p|v i]; cbn [happen commits app calm fst snd] in *.
  - destruct (rec_op_valid R good DC b mf _ _ id new HB HG) as (o & -> & Ho). destruct o as [o|]; eexists; (split; [reflexivity|]); exists b; cbn [w_coll w_wait]; (split; [exact HB|]); [|exact HW].
    apply Forall_app. split; [exact HW|]. constructor; [exact (Ho o eq_refl)|constructor].
  - destruct (nth_error (w_coll s) i) as [d|] eqn:E; [|eexists; split; [reflexivity|exists b; split; assumption]].
    destruct (is_pending d) eqn:Ep; [|eexists; split; [reflexivity|exists b; split; assumption]].
    destruct (rollback_valid b _ _ d HB (nth_error_In _ _ E) Ep) as (o & -> & Ho). eexists; split; [reflexivity|]. exists b; cbn [w_coll w_wait]. split; [exact HB|].
    apply Forall_app. split; [exact HW|]. constructor; [exact Ho|constructor].
  - destruct (next p (w_wait s)) as [[o r]|] eqn:E; [|eexists; split; [reflexivity|exists b; split; assumption]].
    destruct (next_in _ _ _ _ E) as [H1 H2]. rewrite Forall_forall in HW. eexists; split; [reflexivity|]. exists b. cbn [w_coll w_wait]. split.
    + apply (valid_apply R good DC); [exact HB|]. exact (HW _ H1).
    + apply Forall_forall. intros x Hx. apply HW, H2, Hx.
  - eexists; split; [reflexivity|]. exists b. cbn [w_coll w_wait]. split; [exact HB|]. rewrite Forall_forall in *. intros x Hx. apply filter_In in Hx. apply HW, Hx.
  - eexists; split; [reflexivity|]. destruct (nth_error (w_coll s) i) as [d|] eqn:E.
    2:{ rewrite upd_nth_id by (intros d Hd; congruence). exists b. split; assumption. }
    destruct (d_ver d) as [w|] eqn:Ev.
    { rewrite upd_nth_id by (intros d' Hd; rewrite E in Hd; injection Hd as <-; unfold commit_doc; rewrite Ev; reflexivity).
      exists b. unfold is_pending. rewrite Ev. cbn [andb app]. split; assumption. }
    destruct (HC d eq_refl Ev) as (Hwait & Honly & Hlt). unfold is_pending. rewrite Ev. cbn [andb].
    exists (Z.max b v). cbn [w_coll w_wait]. split.
    + intro id. unfold st. destruct (str_eqb (d_id d) id) eqn:Ei.
      * apply str_eqb_eq in Ei. subst id. cbn [app]. rewrite (docs_upd_only _ _ _ _ E (commit_doc_id v d) Honly).
        exists (commit_doc v d), None. split; [reflexivity|]. apply (rel_mono v); [lia|].
        assert (D : exists p, doc_rel b d (AR (h (d_id d)) (Some p))).
        { specialize (HB (d_id d)). unfold st in HB. rewrite Honly in HB. destruct (h (d_id d)) as [|[w x] rest].
          - inversion HB as [|? ? (H1 & H2 & H3) _]; subst. exists (d_data d). pose proof (fresh_rel R good DC b (d_id d) (d_data d) H3) as F.
            destruct d as [i0 v0 x0 m0]; cbn [d_id d_data d_ver d_diffs] in *. subst. exact F.
          - destruct HB as (d1 & p & E1 & Hr). injection E1 as <-. destruct p as [p|]; [eauto|]. exfalso.
            destruct (rel_comm R good _ _ _ Hr) as (? & ? & ? & _ & K & _). congruence. }
        destruct D as [p D]. apply rel_own in D.
        assert (D' : doc_rel (v - 1) d (AR (h (d_id d)) (Some (d_data d)))).
        { apply (rel_bound b); [exact D|]. rewrite Ev. eapply Forall_impl; [|exact Hlt]. cbn; intros; lia. }
        exact (commit_rel R good _ _ _ v D' ltac:(lia)).
      * apply str_eqb_neq in Ei. cbn [app]. rewrite (docs_upd_other _ _ _ _ _ E (commit_doc_id v d) Ei).
        specialize (HB id). unfold st in HB. destruct (h id) as [|vx rest]; [exact HB|].
        destruct HB as (d1 & p & E1 & Hr). exists d1, p. split; [exact E1|]. apply (rel_mono b); [lia|exact Hr].
    + rewrite Forall_forall in *. intros [q o] Hx. specialize (HW _ Hx). cbn [snd] in *. eapply op_valid_ext; [|exact HW].
      unfold st. destruct (str_eqb (d_id d) (mop_id o)) eqn:Ei; [|reflexivity]. exfalso. apply Hwait. apply str_eqb_eq in Ei. exists q, o. split; [exact Hx|congruence].
Qed.

Lemma agrees_ext s h h' : (forall id, h id = h' id) -> agrees s h -> agrees s h'.
Proof.
  intros E (b & HB & HW). assert (Es : forall id, st h id = st h' id) by (intro id; unfold st; rewrite E; reflexivity).
  exists b. split.
  - intro id. specialize (HB id). rewrite <- Es. exact HB.
  - eapply Forall_impl; [|exact HW]. intros x Hx. eapply op_valid_ext; [|exact Hx]. apply Es.
Qed.

(** proof device *)
Fixpoint all_good (es : list event) : Prop :=
  match es with [] => True | e :: r => match e with EvRead _ _ x => good (snd x) | _ => True end /\ all_good r end.
Theorem agrees_run es : forall s h, agrees s h -> all_calm s es -> all_good es ->
  exists s', happens s es = Some s' /\ agrees s' (fun id => ledger s es id ++ h id).
Proof.
  induction es as [|e es IH]; intros s h HA HC HG; cbn [happens all_calm all_good ledger] in *; [exists s; auto|].
  destruct HC as [Hc HC]. destruct HG as [Hg HG]. destruct (agrees_step s e h HA (conj Hc Hg)) as (s1 & E1 & HA1). rewrite E1 in *. cbn [bind].
  destruct (IH s1 _ HA1 HC HG) as (s' & E' & HA'). exists s'. split; [exact E'|]. eapply agrees_ext; [|exact HA']. intro id. cbn beta. rewrite app_assoc. reflexivity.
Qed.

(** What can be read off a state that agrees. *)
Lemma agrees_doc s h id : agrees s h ->
  match h id with
  | [] => Forall (fun d => d_ver d = None /\ d_diffs d = []) (docs_of id (w_coll s))
  | l => exists d p, docs_of id (w_coll s) = [d] /\ exists b, doc_rel b d (AR l p)
  end.
Proof.
  intros (b & HB & _). specialize (HB id). unfold st in HB. destruct (h id) as [|vx l].
  - eapply Forall_impl; [|exact HB]. cbn. tauto.
  - destruct HB as (d & p & E & H). exists d, p. eauto.
Qed.
End Refine.
