(** Property C91: what has been committed stays as it is, also when several processes work at the same time. *)
From Coq Require Import String Ascii.
From Coq Require Import List ZArith NArith Bool Lia Sorted.
From Verif Require Import PyVal Diff DiffProofs Prepare PrepareProofs Mongo Store MongoProofs MongoStore PropsMongo Race.
Import ListNotations.
Open Scope string_scope.
Open Scope list_scope.
Open Scope nat_scope.

(** ** Specification *)
(** The history that the collection holds of the record [id] is [h] (newest first): without history all documents of the
    record hold pending data and nothing else; with history there is exactly one document, and iterating it gives the
    pending data (if any) and then the history. *)
Definition held (c : coll) (id : pystr) (h : list (Z * dict)) : Prop :=
  match h with
  | [] => forall d, In d c -> d_id d = id -> exists x, iter_doc d = Some [(None, x)]
  | _ => exists d pend old, filter (fun d => str_eqb (d_id d) id) c = [d] /\ iter_doc d = Some (pend ++ old) /\
      (pend = [] \/ exists x, pend = [(None, x)]) /\
      Forall2 same_entry old (map (fun vx => (Some (fst vx), snd vx)) h)
  end.

Lemma agrees_held s h id : agrees scalar_same wfd s h -> held (w_coll s) id (h id).
Proof.
  intro H. pose proof (agrees_doc scalar_same wfd s h id H) as A. unfold held. destruct (h id) as [|vx l].
  - intros d Hd Hi. rewrite Forall_forall in A. destruct (A d) as [Hv Hm]; [apply filter_In; split; [exact Hd|apply str_eqb_eq; exact Hi]|].
    exists (d_data d). unfold iter_doc. rewrite Hm, Hv. reflexivity.
  - destruct A as (d & p & E & b & Hok & _ & t & Ht & F). destruct p as [p|]; unfold view in F; cbn [a_pend a_hist app] in F.
    + inversion F as [|x ? t' ? [K1 K2] F']; subst. exists d, [x], t'. split; [exact E|]. split; [exact Ht|]. split; [|exact F'].
      right. destruct x as [xv xd]. cbn [fst] in K1. subst. eauto.
    + exists d, [], t. split; [exact E|]. split; [exact Ht|]. split; [left; reflexivity|exact F].
Qed.

(** ** C91 *)
(** In every calm schedule of any number of processes - an event other than the commit of a document whose record is
    about to be written is always calm - nothing raises, and the history of each record is what the commits gave it: the
    version and the data that its document held at that moment. *)
Theorem C91_kept_partial : forall es : list event, all_calm start es ->
  exists s, happens start es = Some s /\ forall id, held (w_coll s) id (ledger start es id).
Proof.
  intros es H.
  assert (G : forall es s h, agrees scalar_same wfd s h -> all_calm s es ->
     exists s', happens s es = Some s' /\ agrees scalar_same wfd s' (fun id => ledger s es id ++ h id)).
  { clear. induction es as [|e es IH]; intros s h HA HC; cbn [happens all_calm ledger] in *; [exists s; auto|]. destruct HC as [Hc HC].
    assert (Hg : calm_good wfd s e) by (split; [exact Hc|]; destruct e; auto).
    destruct (agrees_step scalar_same wfd class_veq s e h HA Hg) as (s1 & E1 & HA1). rewrite E1 in *. cbn [bind].
    destruct (IH s1 _ HA1 HC) as (s' & E' & HA'). exists s'. split; [exact E'|]. eapply agrees_ext; [|exact HA']. intro id. cbn beta. rewrite app_assoc. reflexivity. }
  destruct (G es start (fun _ => []) (agrees_start _ _) H) as (s & E & HA). exists s. split; [exact E|]. intro id.
  pose proof (agrees_held _ _ id HA) as K. cbn beta in K. rewrite app_nil_r in K. exact K.
Qed.
Print Assumptions C91_kept_partial.

Lemma ledger_app a : forall s b id, ledger s (a ++ b) id =
  (match happens s a with Some s' => ledger s' b id | None => [] end) ++ ledger s a id.
Proof.
  induction a as [|e a IH]; intros s b id; cbn [app ledger happens]; [rewrite app_nil_r; reflexivity|].
  destruct (happen s e) as [s1|]; cbn [bind]; [|reflexivity]. rewrite IH, app_assoc. reflexivity.
Qed.
Lemma calm_app a : forall s b, all_calm s (a ++ b) -> all_calm s a.
Proof.
  induction a as [|e a IH]; intros s b H; cbn [app all_calm] in *; [exact I|]. destruct H as [H1 H2]. split; [exact H1|].
  destruct (happen s e); [eapply IH; exact H2|exact I].
Qed.
(** So a history only grows. *)
Theorem C91_grows_partial : forall (before after : list event), all_calm start (before ++ after) ->
  exists s1 s2, happens start before = Some s1 /\ happens s1 after = Some s2 /\
    forall id, exists old new, held (w_coll s1) id old /\ held (w_coll s2) id (new ++ old).
Proof.
  intros a b H. destruct (C91_kept_partial _ H) as (s2 & E2 & H2). destruct (C91_kept_partial _ (calm_app a _ b H)) as (s1 & E1 & H1).
  exists s1, s2. rewrite happens_app, E1 in E2. cbn [bind] in E2. split; [exact E1|]. split; [exact E2|]. intro id.
  exists (ledger start a id), (ledger s1 b id). split; [apply H1|]. specialize (H2 id). rewrite ledger_app, E1 in H2. exact H2.
Qed.
Print Assumptions C91_grows_partial.

(** The calls themselves are schedules: what is said of all schedules is said of them, and of all their interleavings. *)
Theorem C91_calls : forall (p : nat) (s : step) (c c' : coll) (w : list (nat * mop)),
  Forall (fun x => fst x <> p) w -> run_step c s = Some c' -> exists es, happens (mkW c w) es = Some (mkW c' w).
Proof. exact call_events. Qed.
Print Assumptions C91_calls.

(** *** Without the condition *)
Definition versions_of (es : list event) : list Z := concat (map (fun e => match e with EvCommit v _ => [v] | _ => [] end) es).
Definition wf_data (es : list event) : Prop := Forall (fun e => match e with EvRead _ _ r => wfd (snd r) | _ => True end) es.
(** A schedule in which the clock never goes back and all data is fine, and yet the history is not what was committed. *)
Definition spoils (es : list event) (id : pystr) : Prop :=
  StronglySorted Z.le (versions_of es) /\ wf_data es /\
  exists s, happens start es = Some s /\ w_wait s = [] /\ ~ held (w_coll s) id (ledger start es id).

Definition r1 (n : Z) : pystr * dict := (lit "r1", D [("x", VInt n)]).
(** a record is read, committed and then written *)
Definition late_write : list event :=
  [EvRead 0 None (r1 1); EvWrite 0; EvRead 1 None (r1 2); EvCommit 100 0; EvWrite 1].
(** the same with history *)
Definition late_change : list event :=
  [EvRead 0 None (r1 1); EvWrite 0; EvCommit 100 0; EvRead 0 None (r1 2); EvWrite 0; EvRead 1 None (r1 3); EvCommit 200 0; EvWrite 1].
(** a rollback that read the record before the commit *)
Definition late_rollback : list event :=
  [EvRead 0 None (r1 1); EvWrite 0; EvRevert 1 0; EvCommit 100 0; EvWrite 1].
(** two processes that found no document of a new record *)
Definition two_inserts : list event :=
  [EvRead 0 None (r1 1); EvRead 1 None (r1 2); EvWrite 0; EvWrite 1; EvCommit 100 0; EvCommit 100 1].

Ltac spoilt := split; [repeat constructor; lia|]; split; [repeat constructor; cbn; tauto|]; eexists; split; [vm_compute; reflexivity|]; split; [reflexivity|].
Theorem C91_kept_refuted :
  spoils late_write (lit "r1") /\ spoils late_change (lit "r1") /\ spoils late_rollback (lit "r1") /\ spoils two_inserts (lit "r1").
Proof.
  split; [|split; [|split]].
  - spoilt. vm_compute. intros (d & pend & old & E & I & P & F). injection E as <-. vm_compute in I. injection I as I.
    destruct P as [->|[x ->]]; [|discriminate]. cbn [app] in I. subst old. inversion F as [|? ? ? ? [_ K] _]; subst. cbn [snd] in K.
    inversion K as [? ? Ks| |? ? _ Hv]; subst; [discriminate|]. specialize (Hv (lit "x") (VInt 2) (VInt 1) eq_refl eq_refl). inversion Hv as [? ? Sc _ Ss| |]; subst; discriminate.
  - spoilt. vm_compute. intros (d & pend & old & E & I & P & F). injection E as <-. vm_compute in I. injection I as I.
    destruct P as [->|[x ->]]; cbn [app] in I; [subst old; inversion F as [|? ? ? ? [K _] _]; discriminate|]. injection I as _ <-. inversion F as [|? ? ? ? [K _] _]; discriminate.
  - spoilt. vm_compute. intros (d & pend & old & E & _). discriminate.
  - spoilt. vm_compute. intros (d & pend & old & E & _). discriminate.
Qed.
Print Assumptions C91_kept_refuted.

(** *** It is always so *)
Lemma sort_In k l : In k (zsort_desc l) -> In k l.
Proof.
  assert (I : forall x l, In k (zins x l) -> k = x \/ In k l).
  { intro x. induction l0 as [|y l0 IH]; cbn [zins]; [intros [<-|[]]; auto|]. destruct (y <=? x)%Z; intros [H|H]; cbn; auto. destruct (IH H); auto. }
  induction l as [|x l IH]; cbn [zsort_desc]; [auto|]. intro H. destruct (I _ _ H) as [->|H']; [left; reflexivity|right; auto].
Qed.
Lemma zset_keys {V} (m : list (Z * V)) k v x : In x (zkeys (zset m k v)) -> x = k \/ In x (zkeys m).
Proof.
  induction m as [|[k' w] m IH]; cbn [zset zkeys map fst]; [intros [<-|[]]; auto|]. destruct (Z.eqb_spec k k') as [->|]; cbn [zkeys map fst].
  - intros [<-|H]; [left; reflexivity|right; right; exact H].
  - intros [<-|H]; [right; left; reflexivity|]. destruct (IH H); [left; assumption|right; right; assumption].
Qed.
Lemma zdel_keys {V} (m : list (Z * V)) k x : In x (zkeys (zdel m k)) -> In x (zkeys m).
Proof.
  induction m as [|[k' w] m IH]; cbn [zdel]; [auto|]. destruct (k =? k')%Z; cbn [zkeys map fst]; [right; assumption|]. intros [<-|H]; [left; reflexivity|right; auto].
Qed.
Lemma iter_known d l v x : iter_doc d = Some l -> In (Some v, x) l -> d_ver d = Some v \/ In v (zkeys (d_diffs d)).
Proof.
  unfold iter_doc. destruct (iter_diffs _ _ _) as [t|] eqn:E; [|discriminate]. cbn [bind]. intros H Hin. injection H as <-. destruct Hin as [H|H]; [injection H as -> _; left; reflexivity|].
  right. apply sort_In. apply iter_versions in E. apply (in_map fst) in H. rewrite E in H. cbn [fst] in H. apply in_map_iff in H. destruct H as (y & H & K). injection H as ->. exact K.
Qed.

(** Whenever a process reads a pending record and finds something to write, and the record is committed before it
    writes, what was committed is gone: no document shows that version with that data. *)
Theorem C91_lost : forall (s s1 s2 s3 : world) (p : nat) (mf : option pystr) (id : pystr) (new : dict) (i : nat) (d : doc) (v : Z),
  nth_error (w_coll s) i = Some d -> d_id d = id -> d_ver d = None -> docs_of id (w_coll s) = [d] ->
  wfd (d_data d) -> wfd new -> nan_free (VDict new) = true -> Forall (fun k => (k < v)%Z) (zkeys (d_diffs d)) ->
  Forall (fun x => fst x <> p) (w_wait s) ->
  happen s (EvRead p mf (id, new)) = Some s1 -> w_wait s1 <> w_wait s ->
  happen s1 (EvCommit v i) = Some s2 -> happen s2 (EvWrite p) = Some s3 ->
  (exists d' l, In d' (w_coll s2) /\ d_id d' = id /\ iter_doc d' = iter_doc (mkDoc id (Some v) (d_data d) (d_diffs d)) /\ (iter_doc d <> None -> iter_doc d' = Some ((Some v, d_data d) :: l))) /\
  forall d' l x, In d' (w_coll s3) -> d_id d' = id -> iter_doc d' = Some l -> In (Some v, x) l -> ~ veq (VDict x) (VDict (d_data d)).
Proof.
  intros s s1 s2 s3 p mf id new i d v Hi Hid Hv Ho Hwd Hwn Hnan Hlt Hp Hr Hw Hc Hwr.
  cbn [happen fst] in Hr. rewrite find_last_docs, Ho in Hr. cbn [rev app hd_error] in Hr.
  destruct (rec_op mf (id, new) (Some d)) as [[o|]|] eqn:Eo; [|injection Hr as <-; contradiction|discriminate].
  injection Hr as <-. cbn [happen w_coll w_wait] in Hc. injection Hc as <-. cbn [happen w_coll w_wait] in Hwr.
  rewrite (next_own p (w_wait s) o [] Hp) in Hwr. injection Hwr as <-. cbn [w_coll].
  assert (Hid' : d_id (commit_doc v d) = d_id d) by apply commit_doc_id.
  assert (Hd2 : docs_of id (upd_nth i (commit_doc v) (w_coll s)) = [commit_doc v d]) by (subst id; apply docs_upd_only; assumption).
  assert (Ecd : commit_doc v d = mkDoc id (Some v) (d_data d) (d_diffs d)) by (unfold commit_doc; rewrite Hv, Hid; reflexivity).
  split.
  { destruct (iter_diffs (d_data d) (d_diffs d) (zsort_desc (zkeys (d_diffs d)))) as [t|] eqn:Et.
    - exists (commit_doc v d), t. split; [|split; [congruence|]].
      + assert (K : In (commit_doc v d) (docs_of id (upd_nth i (commit_doc v) (w_coll s)))) by (rewrite Hd2; left; reflexivity). apply filter_In in K. apply K.
      + rewrite Ecd. split; [reflexivity|]. intros _. unfold iter_doc. cbn [d_data d_diffs d_ver]. rewrite Et. reflexivity.
    - exists (commit_doc v d), []. split; [|split; [congruence|]].
      + assert (K : In (commit_doc v d) (docs_of id (upd_nth i (commit_doc v) (w_coll s)))) by (rewrite Hd2; left; reflexivity). apply filter_In in K. apply K.
      + rewrite Ecd. split; [reflexivity|]. intro K. exfalso. apply K. unfold iter_doc. rewrite Et. reflexivity. }
  intros d' l x Hin Hd' Hl Hx Hveq.
  assert (Hn : mop_id o = id).
  { unfold rec_op in Eo. rewrite Hv in Eo. cbn [fst snd] in Eo. destruct (isnil (d_diffs d)).
    - destruct (p_del (id, new)); [injection Eo as <-; reflexivity|]. destruct (isnil _); [discriminate|]. injection Eo as <-; reflexivity.
    - destruct (revert_doc d) as [d0|] eqn:Er; [|discriminate]. destruct (rec_changes mf new (d_data d0)) as [[ch n'] o']. unfold revert_doc in Er. rewrite Hv in Er.
      destruct (zsort_desc (zkeys (d_diffs d))) as [|v0 r]; [discriminate|]. destruct (zget (d_diffs d) v0); [|discriminate]. destruct (patch _ _) as [y|]; [|discriminate]. cbn [bind] in Er. injection Er as <-. cbn [d_ver] in Eo.
      destruct (isnil ch); [unfold revert_op in Eo; cbn in Eo|]; injection Eo as <-; cbn; congruence. }
  assert (Hin2 : In d' (apply_list o [commit_doc v d])).
  { pose proof (docs_apply (upd_nth i (commit_doc v) (w_coll s)) o id) as K. rewrite Hn, str_eqb_refl, Hd2 in K. rewrite <- K. apply filter_In. split; [exact Hin|apply str_eqb_eq; exact Hd']. }
  rewrite Ecd in Hin2. unfold rec_op in Eo. rewrite Hv in Eo. cbn [fst snd] in Eo. destruct (isnil (d_diffs d)) eqn:En.
  - destruct (d_diffs d) as [|]; [|discriminate]. destruct (p_del (id, new)); [injection Eo as <-; destruct Hin2|].
    destruct (isnil (diff new (d_data d))) eqn:Ed; [discriminate|]. injection Eo as <-. cbn [apply_list d_id d_ver d_data d_diffs] in Hin2. destruct Hin2 as [<-|[]].
    cbn in Hl. injection Hl as <-. destruct Hx as [Hx|[]]. injection Hx as ->. rewrite isnil_diff in Ed by assumption. rewrite (veq_py_eqb _ _ Hwn Hwd Hnan Hveq) in Ed. discriminate.
  - destruct (revert_doc d) as [d0|] eqn:Er; [|discriminate]. destruct (rec_changes mf new (d_data d0)) as [[ch n'] o']. unfold revert_doc in Er. rewrite Hv in Er.
    destruct (zsort_desc (zkeys (d_diffs d))) as [|v0 r] eqn:Es; [discriminate|]. destruct (zget (d_diffs d) v0); [|discriminate]. destruct (patch _ _) as [y|]; [|discriminate]. cbn [bind] in Er. injection Er as <-. cbn [d_ver] in Eo.
    assert (H0 : In v0 (zkeys (d_diffs d))) by (apply sort_In; rewrite Es; left; reflexivity). rewrite Forall_forall in Hlt. pose proof (Hlt _ H0) as L0.
    pose proof (iter_known _ _ _ _ Hl Hx) as [K|K]; destruct (isnil ch); [unfold revert_op in Eo; cbn in Eo| |unfold revert_op in Eo; cbn in Eo|]; injection Eo as <-; cbn [apply_list d_id d_ver d_data d_diffs] in Hin2; destruct Hin2 as [<-|[]]; cbn [d_ver d_diffs] in K.
    + injection K as ->. lia.
    + discriminate.
    + destruct (isnil (zdel (d_diffs d) v0)); [destruct K|]. apply zdel_keys in K. specialize (Hlt _ K). lia.
    + apply zset_keys in K. destruct K as [->|K]; [lia|]. specialize (Hlt _ K). lia.
Qed.
Print Assumptions C91_lost.

(** Two processes at work in a calm schedule: both change [r1] at the same time, one is stopped, a rollback comes late. *)
Definition calm_day : list event :=
  [EvRead 0 None (r1 1); EvWrite 0; EvCommit 100 0; EvRead 0 None (r1 2); EvRead 1 None (r1 3); EvWrite 1; EvRevert 2 0; EvWrite 0;
   EvRead 1 None (lit "r2", D [("y", VNone)]); EvWrite 2; EvRead 0 None (r1 4); EvWrite 0; EvCommit 200 0; EvRead 0 None (r1 5); EvDie 0; EvWrite 1].
Lemma calm_cons s e r s' : happen s e = Some s' -> calm s e -> all_calm s' r -> all_calm s (e :: r).
Proof. intros H1 H2 H3. split; [exact H2|]. rewrite H1. exact H3. Qed.
Ltac next_event := eapply calm_cons; [vm_compute; reflexivity| |].
Ltac commit_calm := cbn [calm]; intros d H _; vm_compute in H; injection H as <-;
  split; [intros (p & o & Hin & Hm); vm_compute in Hin; repeat destruct Hin as [Hin|Hin]; try contradiction; inversion Hin; subst; discriminate Hm
         |split; [vm_compute; reflexivity|vm_compute; repeat constructor]].
Example C91_example : all_calm start calm_day /\
  ledger start calm_day (lit "r1") = [(200%Z, D [("x", VInt 4)]); (100%Z, D [("x", VInt 1)])] /\
  option_map (fun s => map iter_doc (w_coll s)) (happens start calm_day) =
    Some [Some [(Some 200%Z, D [("x", VInt 4)]); (Some 100%Z, D [("x", VInt 1)])]; Some [(None, D [("y", VNone)])]].
Proof.
  split; [|split; vm_compute; reflexivity].
  unfold calm_day. repeat (next_event; [first [exact I | solve [repeat constructor; cbn; tauto] | commit_calm]|]). exact I.
Qed.
(** ... and the hypotheses of [C91_lost] are met by the second event of two calls. *)
Example C91_lost_example :
  let s := mkW [mkDoc (lit "r1") None (D [("x", VInt 2)]) [(100%Z, diff (D [("x", VInt 2)]) (D [("x", VInt 1)]))]] [] in
  exists s1 s2 s3, happen s (EvRead 0 None (r1 3)) = Some s1 /\ w_wait s1 <> w_wait s /\ happen s1 (EvCommit 200 0) = Some s2 /\ happen s2 (EvWrite 0) = Some s3 /\
    map iter_doc (w_coll s2) = [Some [(Some 200%Z, D [("x", VInt 2)]); (Some 100%Z, D [("x", VInt 1)])]] /\
    map iter_doc (w_coll s3) = [Some [(None, D [("x", VInt 3)]); (Some 100%Z, D [("x", VInt 1)])]].
Proof.
  cbv zeta. eexists; eexists; eexists. split; [vm_compute; reflexivity|]. split; [discriminate|]. split; [vm_compute; reflexivity|]. split; [vm_compute; reflexivity|]. split; vm_compute; reflexivity.
Qed.
