(** Properties C10-C14, C16, C17, C60, C61: the MongoDB data collection. *)
From Coq Require Import String Ascii.
From Coq Require Import List ZArith NArith Bool Lia Sorted.
From Coq Require Import Floats.SpecFloat.
From Verif Require Import PyVal Diff DiffProofs Prepare PrepareProofs Mongo Store MongoProofs MongoStore MongoMore.
Import ListNotations.
Open Scope string_scope.
Open Scope list_scope.
Open Scope nat_scope.

(** ** Specification *)

(** Two version entries are the same: same version, same data. *)
Definition same_entry (x y : option Z * dict) : Prop :=
  fst x = fst y /\ veq (VDict (snd x)) (VDict (snd y)).
Definition ident_entry (x y : option Z * dict) : Prop :=
  fst x = fst y /\ vident (VDict (snd x)) (VDict (snd y)).

(** The collection shows the abstract record [o] for [id]: no document, or exactly one whose
    iteration lists the pending data (if any) and then all committed versions. *)
Definition shows (entry : option Z * dict -> option Z * dict -> Prop) (c : coll) (id : pystr) (o : option arec) : Prop :=
  match o with
  | None => docs_of id c = []
  | Some r => exists d l, docs_of id c = [d] /\ iter_doc d = Some l /\ Forall2 entry l (view r)
  end.

(** Admissible calls: any storable data; equal ids only within one batch of 200 records. *)
Definition call_ok (s : step) : Prop :=
  match s with
  | SIngest _ recs => ids_within_batches INGEST_SIZE recs /\ Forall (fun r => wfd (snd r)) recs
  | _ => True
  end.

Lemma crel_shows bound c A id : crel scalar_same wfd bound c A -> shows same_entry c id (A id).
Proof.
  intro H. specialize (H id). destruct (docs_of id c) as [|d [|]] eqn:E; destruct (A id) as [r|]; try contradiction.
  - exact E.
  - destruct H as (_ & _ & l & Hl & H2). exists d, l. repeat split; assumption.
Qed.

Lemma reach b ss : clock_increasing b ss -> Forall call_ok ss ->
  exists c b', run [] ss = Some c /\ crel scalar_same wfd b' c (a_run a_empty ss) /\ (b <= b')%Z.
Proof. intros Hc Hs. exact (run_crel _ _ class_veq ss b [] a_empty (crel_empty _ _ b) Hc Hs). Qed.

(** ** C10 *)
Theorem C10_versioned_store : forall (b : Z) (ss : list step),
  clock_increasing b ss -> Forall call_ok ss ->
  exists c, run [] ss = Some c /\ forall id, shows same_entry c id (a_run a_empty ss id).
Proof.
  intros b ss Hc Hs. destruct (reach b ss Hc Hs) as (c & b' & E & HC & _).
  exists c. split; [exact E|]. intro id. exact (crel_shows b' c _ id HC).
Qed.
Print Assumptions C10_versioned_store.

(** ... type-exactly when no two different scalars of the data compare equal. *)
Theorem C10_versioned_store_type_exact : forall (S : value -> Prop) (b : Z) (ss : list step),
  type_exact S -> clock_increasing b ss -> Forall call_ok ss ->
  Forall (fun s => match s with SIngest _ recs => Forall (fun r => scalars_in S (VDict (snd r))) recs | _ => True end) ss ->
  exists c, run [] ss = Some c /\ forall id, shows ident_entry c id (a_run a_empty ss id).
Proof.
  intros S b ss HS Hc Hs Hd.
  destruct (run_crel _ _ (class_vident S HS) ss b [] a_empty (crel_empty _ _ b) Hc) as (c & b' & E & HC & _).
  { rewrite Forall_forall in *. intros s Hin. specialize (Hs s Hin). specialize (Hd s Hin).
    destruct s; auto. destruct Hs as [H1 H2]. split; [exact H1|]. rewrite Forall_forall in *. split; auto. }
  exists c. split; [exact E|]. intro id. specialize (HC id).
  destruct (docs_of id c) as [|d [|]] eqn:Ed; destruct (a_run a_empty ss id) as [r|]; try contradiction.
  - exact Ed.
  - destruct HC as (_ & _ & l & Hl & H2). exists d, l. repeat split; assumption.
Qed.
Print Assumptions C10_versioned_store_type_exact.

(** What a record says of itself ([MongoRecord]): its versions are those committed for it, in order; it is uncommitted
    exactly if data is pending; it is deleted exactly if what it holds now is empty; it has history exactly if it has held
    something before. *)
Definition tells (c : coll) (id : pystr) (o : option arec) : Prop :=
  match o with
  | None => docs_of id c = []
  | Some r => exists d, docs_of id c = [d] /\
      get_versions d true = map fst (a_hist r) /\ get_versions d false = rev (map fst (a_hist r)) /\
      (is_uncommitted d = true <-> exists p, a_pend r = Some p) /\
      (is_deleted d = true <-> exists now before, view r = (now, []) :: before) /\
      (has_history d = true <-> exists x y before, view r = x :: y :: before)
  end.
Lemma sort_last l v : StronglySorted Z.lt l -> Forall (fun k => (k < v)%Z) l -> zsort_desc (l ++ [v]) = v :: rev l.
Proof.
  intros H F. rewrite zsort_desc_asc; [rewrite rev_app_distr; reflexivity|]. induction H as [|x l H IH Hx]; cbn [app]; [repeat constructor|]. inversion F as [|? ? Fx Fl]; subst. constructor; [apply IH; exact Fl|]. rewrite Forall_app. split; [exact Hx|]. constructor; [exact Fx|constructor].
Qed.
Lemma iter_versions b m : forall vs l, iter_diffs b m vs = Some l -> map fst l = map Some vs.
Proof.
  intro vs. revert b. induction vs as [|v vs IH]; intros b l H; cbn [iter_diffs] in H; [injection H as <-; reflexivity|].
  destruct (zget m v) as [os|]; [|discriminate]. destruct (patch b os) as [x|]; [|discriminate]. destruct (iter_diffs x m vs) eqn:E; [|discriminate]. cbn in H. injection H as <-. cbn. f_equal. eauto.
Qed.
Theorem C10_record : forall (b : Z) (ss : list step), clock_increasing b ss -> Forall call_ok ss ->
  exists c, run [] ss = Some c /\ forall id, tells c id (a_run a_empty ss id).
Proof.
  intros b ss Hc Hs. destruct (reach b ss Hc Hs) as (c & b' & E & HC & _). exists c. split; [exact E|]. intro id. specialize (HC id). unfold tells.
  destruct (docs_of id c) as [|d [|]] eqn:Ed; destruct (a_run a_empty ss id) as [[h p]|]; try contradiction; [reflexivity|]. exists d. split; [reflexivity|]. destruct HC as (Hok & _ & l & Hl & H2).
  pose proof (ok_asc _ _ _ Hok) as Asc. pose proof (ok_lt _ _ _ Hok) as Lt. unfold iter_doc in Hl. rewrite (zsort_desc_asc _ Asc) in Hl. destruct (iter_diffs _ _ _) as [t|] eqn:Et; [|discriminate]. cbn [bind] in Hl. injection Hl as <-. pose proof (iter_versions _ _ _ _ Et) as Ev.
  assert (Fm : forall (x y : list (option Z * dict)), Forall2 (relv scalar_same) x y -> map fst x = map fst y) by (induction 1 as [|u w x0 y0 [K _] _ IH]; [reflexivity|]; cbn [map]; congruence).
  assert (Inj : forall x y : list Z, map Some x = map Some y -> x = y) by (induction x as [|u x IH]; intros [|w y] K; try discriminate; [reflexivity|]; injection K as -> K; f_equal; auto).
  assert (Hh : forall h0 : list (Z * dict), map fst (map (fun vd => (Some (fst vd), snd vd)) h0) = map Some (map fst h0)) by (intro h0; rewrite !map_map; reflexivity).
  assert (Nil : forall (x y : dict), vsim scalar_same (VDict x) (VDict y) -> isnil x = true <-> y = []).
  { intros x y K. inversion K as [? ? Ks| |? ? Hk Hv]; subst; [discriminate|]. destruct x as [|[k0 v0] x], y as [|[k1 v1] y]; cbn [isnil]; split; intro Q; try reflexivity; try discriminate; exfalso.
    - specialize (Hk k1). cbn [dget] in Hk. rewrite str_eqb_refl in Hk. destruct Hk as [Hk _]. specialize (Hk eq_refl). discriminate.
    - specialize (Hk k0). cbn [dget] in Hk. rewrite str_eqb_refl in Hk. destruct Hk as [_ Hk]. specialize (Hk eq_refl). discriminate. }
  assert (Hdel : is_deleted d = true <-> exists now before, view (AR h p) = (now, []) :: before).
  { inversion H2 as [|? [nw dt] ? ? [K1 K2] K3 K4]; subst. cbn [fst snd] in *. unfold is_deleted. rewrite (Nil _ _ K2). split; [intros ->; eauto|]. intros (n0 & b0 & K). injection K as _ -> _. reflexivity. }
  assert (Len : length (zkeys (d_diffs d)) = length (d_diffs d)) by apply map_length.
  assert (Hhis : has_history d = true <-> exists x y before, view (AR h p) = x :: y :: before).
  { apply (f_equal (@length _)) in Ev. rewrite !map_length, rev_length, Len in Ev. apply Forall2_length in H2. cbn [length] in H2. unfold has_history. destruct (d_diffs d) as [|q m]; cbn [isnil negb length] in *.
    - split; [discriminate|]. intros (x & y & bf & K). rewrite K in H2. cbn [length] in H2. lia.
    - split; [intros _|reflexivity]. destruct (view (AR h p)) as [|x [|y bf]]; cbn [length] in H2; try lia. eauto. }
  pose proof (Fm _ _ H2) as M. unfold view in M. cbn [a_pend a_hist map fst] in M. cbn [a_hist a_pend]. rewrite Ev in M. unfold get_versions, is_uncommitted. destruct (d_ver d) as [v|] eqn:Ed'.
  - destruct p as [p|]; [discriminate|]. cbn [app] in M. rewrite Hh in M. change (Some v :: map Some (rev (zkeys (d_diffs d)))) with (map (@Some Z) (v :: rev (zkeys (d_diffs d)))) in M. apply Inj in M. rewrite (sort_last _ v Asc Lt), M.
    split; [reflexivity|]. split; [reflexivity|]. split; [split; [discriminate|intros [p K]; discriminate]|]. split; assumption.
  - destruct p as [p|]; [|destruct h; discriminate]. cbn [map app] in M. rewrite Hh in M. injection M as M. apply Inj in M. rewrite app_nil_r, (zsort_desc_asc _ Asc), M.
    split; [reflexivity|]. split; [reflexivity|]. split; [split; [intros _; eauto|reflexivity]|]. split; assumption.
Qed.
Print Assumptions C10_record.

Definition D (l : list (string * value)) : dict := map (fun kv => (lit (fst kv), snd kv)) l.
Definition ex_hist : list step :=
  [ SIngest None [(lit "r1", D [("x", VInt 1); ("y", VList [VNone])]); (lit "r2", D [("x", VStr (lit "a"))])]
  ; SCommit 100
  ; SIngest (Some (lit "y")) [(lit "r1", D [("x", VInt 1); ("y", VList [])]); (lit "r2", [])]
  ; SCommit 200
  ; SIngest None [(lit "r3", D [("q", VNone)]); (lit "r2", D [("x", VStr (lit "b"))]); (lit "r2", D [("x", VStr (lit "c"))])]
  ; SRollback
  ; SIngest None [(lit "r2", D [("x", VStr (lit "d"))]); (lit "r3", D [("q", VNone)]) ] ].
Example C10_example : clock_increasing 0 ex_hist /\ Forall call_ok ex_hist /\
  map (fun id => option_map view (a_run a_empty ex_hist (lit id))) ["r1"; "r2"; "r3"; "r4"]%string =
  [ Some [(Some 100%Z, D [("x", VInt 1); ("y", VList [VNone])])]
  ; Some [(None, D [("x", VStr (lit "d"))]); (Some 200%Z, []); (Some 100%Z, D [("x", VStr (lit "a"))])]
  ; Some [(None, D [("q", VNone)])]
  ; None ].
Proof.
  split; [vm_compute; repeat split|]. split; [|vm_compute; reflexivity].
  assert (S : forall (recs : list prec), length recs < 200 -> ids_within_batches INGEST_SIZE recs).
  { intros recs Hl i j r r' Hi Hj _.
    assert (i < length recs) by (apply nth_error_Some; rewrite Hi; discriminate).
    assert (j < length recs) by (apply nth_error_Some; rewrite Hj; discriminate).
    unfold INGEST_SIZE. rewrite !Nat.div_small by lia. reflexivity. }
  unfold ex_hist. repeat (apply Forall_cons || apply Forall_nil); cbn [call_ok]; try exact I;
    (split; [apply S; cbn; lia|]); repeat constructor; vm_compute; reflexivity.
Qed.

(** ** C11 *)

(** Partial work that may happen before the rollback: an ingest or a rollback that stops
    after any number of its writes. Any stream of records is allowed. *)
Inductive partial_work :=
| PIngest (mf : option pystr) (recs : list prec) (n : nat)
| PRollback (n : nat).
Definition do_partial (c : coll) (w : partial_work) : option coll :=
  match w with
  | PIngest mf recs n => bind (ingest_ops INGEST_SIZE mf c recs) (fun os => Some (apply_mops c (firstn n os)))
  | PRollback n => bind (rollback_ops c) (fun os => Some (apply_mops c (firstn n os)))
  end.
Fixpoint do_partials (c : coll) (ws : list partial_work) : option coll :=
  match ws with [] => Some c | w :: r => bind (do_partial c w) (fun c' => do_partials c' r) end.
Definition work_ok (w : partial_work) : Prop :=
  match w with PIngest _ recs _ => Forall (fun r => wfd (snd r)) recs | PRollback _ => True end.

Lemma rollback_ops_valid bound c A : committed_base scalar_same wfd bound c A ->
  exists os, rollback_ops c = Some os /\ Forall (op_valid scalar_same wfd A) os.
Proof.
  intro HB. unfold rollback_ops.
  assert (G : forall ds, incl ds c -> exists os, rollback_ops_of (filter is_pending ds) = Some os /\
    Forall (op_valid scalar_same wfd A) os).
  2:{ apply G. apply incl_refl. }
  induction ds as [|d ds IH]; intro Hi; [exists []; split; [reflexivity|constructor]|].
  destruct IH as (os & Eos & Hos); [intros x Hx; apply Hi; right; exact Hx|].
  cbn [filter]. destruct (is_pending d) eqn:Ep; [|exists os; auto].
  assert (Hin : In d (docs_of (d_id d) c)) by (apply filter_In; split; [apply Hi; left; reflexivity|apply str_eqb_refl]).
  pose proof (HB (d_id d)) as HBd.
  assert (X : exists o, rollback_op d = Some o /\ op_valid scalar_same wfd A o).
  { assert (Hf : (match A (d_id d) with Some (AR (_ :: _) _) => False | _ => True end) ->
      Forall (fun d => d_ver d = None /\ d_diffs d = [] /\ wfd (d_data d)) (docs_of (d_id d) c) ->
      exists o, rollback_op d = Some o /\ op_valid scalar_same wfd A o).
    { intros HA F. rewrite Forall_forall in F. destruct (F d Hin) as (_ & Hdd & _).
      unfold rollback_op. rewrite Hdd. eexists; split; [reflexivity|]. exact HA. }
    destruct (A (d_id d)) as [[[|[v x] rest] p0]|] eqn:EA; try (apply Hf; [exact I|exact HBd]).
    destruct HBd as (d1 & p & E1 & Hrel). rewrite E1 in Hin. destruct Hin as [->|[]]. destruct p as [p|].
    - pose proof (hist_len scalar_same wfd _ _ _ _ Hrel) as L.
      destruct (revert_rel scalar_same wfd class_veq _ _ _ _ _ _ Hrel) as (d' & m & os' & Hrev & Hid' & Hv' & Hdd & Hdd' & Hnin & Hrel').
      unfold rollback_op. destruct (d_diffs d) as [|dd ddr] eqn:Edd; [discriminate|]. cbn [isnil].
      rewrite Hrev. unfold revert_op. rewrite Hv'. eexists; split; [reflexivity|].
      destruct (rel_comm scalar_same wfd _ _ _ Hrel') as (v1 & x1 & r1 & E2 & _ & Hx & _). injection E2 as <- <- <-.
      exists x, rest, p0. rewrite Hid'. split; [exact EA|]. split; [exact (ok_good _ _ _ (proj1 Hrel'))|].
      split; [exact Hx|]. pose proof (hist_len_c scalar_same wfd _ _ _ _ _ Hrel') as L2.
      destruct (d_diffs d'), rest; try discriminate; reflexivity.
    - destruct (rel_comm scalar_same wfd _ _ _ Hrel) as (? & ? & ? & _ & Hv & _).
      unfold is_pending in Ep. rewrite Hv in Ep. discriminate. }
  destruct X as (o & Eo & Ho). cbn [rollback_ops_of]. rewrite Eo, Eos. cbn [bind]. eexists; split; [reflexivity|].
  constructor; assumption.
Qed.

Theorem C11_rollback_from_crash : forall (b : Z) (ss : list step) (ws : list partial_work),
  clock_increasing b ss -> Forall call_ok ss -> Forall work_ok ws ->
  exists c c1 c2, run [] ss = Some c /\ do_partials c ws = Some c1 /\ rollback c1 = Some c2 /\
    forall id, shows same_entry c2 id (a_rollback (a_run a_empty ss) id).
Proof.
  intros b ss ws Hc Hs Hw. destruct (reach b ss Hc Hs) as (c & b' & E & HC & _).
  assert (G : forall ws c, Forall work_ok ws -> committed_base scalar_same wfd b' c (a_run a_empty ss) ->
    exists c1, do_partials c ws = Some c1 /\ committed_base scalar_same wfd b' c1 (a_run a_empty ss)).
  { clear. induction ws as [|w ws IH]; intros c Hw HB; [exists c; auto|]. inversion Hw as [|? ? H1 H2]; subst.
    cbn [do_partials].
    assert (X : exists c1, do_partial c w = Some c1 /\ committed_base scalar_same wfd b' c1 (a_run a_empty ss)).
    { destruct w as [mf recs n|n]; cbn [do_partial work_ok] in *.
      - destruct (ingest_ops_valid _ _ class_veq b' INGEST_SIZE mf c (a_run a_empty ss) recs (Nat.lt_0_succ 199) HB H1) as (os & -> & Hos).
        cbn [bind]. eexists; split; [reflexivity|]. apply valid_apply_all; [exact class_veq|exact HB|]. apply Forall_firstn; exact Hos.
      - destruct (rollback_ops_valid b' c _ HB) as (os & -> & Hos).
        cbn [bind]. eexists; split; [reflexivity|]. apply valid_apply_all; [exact class_veq|exact HB|]. apply Forall_firstn; exact Hos. }
    destruct X as (c1 & -> & HB1). cbn [bind]. apply IH; assumption. }
  destruct (G ws c Hw (crel_base _ _ _ _ _ HC)) as (c1 & E1 & HB1).
  destruct (rollback_crel _ _ class_veq b' c1 _ HB1) as (c2 & E2 & HC2).
  exists c, c1, c2. repeat split; auto. intro id. exact (crel_shows b' c2 _ id HC2).
Qed.
Print Assumptions C11_rollback_from_crash.

(** a repeated id at distance 200 (where [ingest] itself goes wrong, C13) followed by a crash *)
Definition far_repeat (first last : dict) : list prec :=
  (lit "a", first) :: repeat (lit "z", []) 199 ++ [(lit "a", last)].
Lemma far_repeat_wf x y : wfd x -> wfd y -> Forall (fun r : prec => wfd (snd r)) (far_repeat x y).
Proof.
  intros Hx Hy. unfold far_repeat. constructor; [exact Hx|]. apply Forall_app. split.
  - apply Forall_forall. intros r Hr. apply repeat_spec in Hr. subst. reflexivity.
  - constructor; [exact Hy|constructor].
Qed.
Example C11_example :
  let ss := [SIngest None [(lit "a", D [("x", VInt 1)])]; SCommit 5] in
  let ws := [PIngest None (far_repeat (D [("x", VInt 2)]) (D [("x", VInt 3)])) 1;
             PIngest None (far_repeat (D [("x", VInt 4)]) []) 2; PRollback 0] in
  clock_increasing 0 ss /\ Forall work_ok ws /\
  bind (run [] ss) (fun c => bind (do_partials c ws) (fun c1 => Some (map iter_doc c1))) =
    Some [Some [(None, []); (Some 5%Z, D [("x", VInt 1)])]] /\
  bind (run [] ss) (fun c => bind (do_partials c ws) (fun c1 => bind (rollback c1) (fun c2 => Some (map iter_doc c2)))) =
    Some [Some [(Some 5%Z, D [("x", VInt 1)])]].
Proof.
  cbv zeta. split; [vm_compute; repeat split|]. split; [|vm_compute; split; reflexivity].
  constructor; [apply far_repeat_wf; reflexivity|]. constructor; [apply far_repeat_wf; reflexivity|].
  constructor; [exact I|constructor].
Qed.

(** ** C12 *)

(** False as stated: re-ingesting the pending data of a record with history writes again. *)
Theorem C12_reingest_noop_refuted : exists c d new o,
  run [] [SIngest None [(lit "a", D [("x", VInt 1)])]; SCommit 5; SIngest None [(lit "a", new)]] = Some c /\
  docs_of (lit "a") c = [d] /\ d_data d = new /\ nan_free (VDict new) = true /\
  ingest_ops INGEST_SIZE None c [(lit "a", new)] = Some [o].
Proof.
  eexists. eexists. exists (D [("x", VInt 2)]). eexists. split; [vm_compute; reflexivity|].
  split; [vm_compute; reflexivity|]. split; [reflexivity|]. split; vm_compute; reflexivity.
Qed.
Print Assumptions C12_reingest_noop_refuted.

(** For committed records, and for records never committed, exactly the unchanged records give
    no write; every other one gives one write. *)
Theorem C12_reingest_noop_partial : forall c id d new mf,
  docs_of id c = [d] -> wfd new -> wfd (d_data d) ->
  (forall v, d_ver d = Some v ->
     if same mf new (d_data d) then ingest_ops INGEST_SIZE mf c [(id, new)] = Some []
     else exists o, ingest_ops INGEST_SIZE mf c [(id, new)] = Some [o]) /\
  (d_ver d = None -> d_diffs d = [] -> new <> [] ->
     if py_eqb (VDict new) (VDict (d_data d)) then ingest_ops INGEST_SIZE mf c [(id, new)] = Some []
     else exists o, ingest_ops INGEST_SIZE mf c [(id, new)] = Some [o]).
Proof.
  intros c id d new mf Hd Hn Hw.
  assert (E : forall o, rec_op mf (id, new) (Some d) = Some o ->
    ingest_ops INGEST_SIZE mf c [(id, new)] = Some (match o with None => [] | Some m => [m] end)).
  { intros o Ho. unfold ingest_ops. change (partition [(id, new)] INGEST_SIZE) with [[(id, new)]].
    cbn [ingest_loop]. rewrite chunk_ops_map. change (by_id [(id, new)]) with [(id, new)].
    cbn [map_ops fst]. rewrite find_last_docs, Hd. cbn [rev app hd_error]. rewrite Ho. cbn [bind].
    destruct o; reflexivity. }
  split.
  - intros v Hv. destruct (rec_changes mf new (d_data d)) as [[ch n'] o'] eqn:Ec.
    destruct (rec_changes_spec _ _ class_veq _ _ _ _ _ _ Hn Hw Ec) as (_ & _ & _ & _ & W & _).
    specialize (E (if isnil ch then None else Some (ChangeOp id n' v ch))).
    unfold rec_op in E. rewrite Hv in E. cbn [fst snd] in E. rewrite Ec in E. specialize (E eq_refl).
    rewrite W in E. destruct (same mf new (d_data d)); [exact E|]. eexists; exact E.
  - intros Hv Hdd Hne. specialize (E (if isnil (diff new (d_data d)) then None else Some (SetDataOp id new))).
    unfold rec_op in E. rewrite Hv, Hdd in E. cbn [fst snd isnil] in E.
    assert (Hp : p_del (id, new) = false) by (destruct new; [contradiction|reflexivity]). rewrite Hp in E.
    specialize (E eq_refl). rewrite (isnil_diff _ _ Hn Hw) in E.
    destruct (py_eqb _ _); [exact E|]. eexists; exact E.
Qed.
Print Assumptions C12_reingest_noop_partial.

(** Re-ingesting any NaN-free stream after it was ingested and committed writes nothing at all. *)
Theorem C12_reingest_after_commit : forall (b : Z) (ss : list step) mf recs v,
  clock_increasing b (ss ++ [SIngest mf recs; SCommit v]) ->
  Forall call_ok (ss ++ [SIngest mf recs; SCommit v]) ->
  Forall (fun r => nan_free (VDict (snd r)) = true) recs ->
  exists c, run [] (ss ++ [SIngest mf recs; SCommit v]) = Some c /\
    ingest_ops INGEST_SIZE mf c recs = Some [] /\ ingest INGEST_SIZE mf c recs = Some c.
Proof.
  intros b ss mf recs v Hc Hs Hn. destruct (reach b _ Hc Hs) as (c & b' & E & HC & _).
  exists c. split; [exact E|].
  apply Forall_app in Hs. destruct Hs as [Hs1 Hs2]. inversion Hs2 as [|? ? Hs3 _]; subst. destruct Hs3 as [Hw Hg].
  assert (X : ingest_ops INGEST_SIZE mf c recs = Some []).
  { apply (ingest_settled scalar_same wfd class_veq b' INGEST_SIZE mf c _ recs (Nat.lt_0_succ 199) HC Hg Hw).
    intros id new El. unfold a_run. rewrite fold_left_app. cbn [fold_left a_step]. fold (a_run a_empty ss).
    assert (Hc1 : clock_increasing b ss).
    { clear - Hc. revert b Hc. induction ss as [|s ss IH]; intros b Hc; [exact I|].
      destruct s; cbn [app clock_increasing] in *; [apply IH; exact Hc| |apply IH; exact Hc].
      destruct Hc as [H1 H2]. split; [exact H1|apply IH; exact H2]. }
    destruct (a_run_wf ss b a_empty) as (b2 & Hwf).
    { intros i r K; discriminate. } { exact Hc1. }
    { eapply Forall_impl; [|exact Hs1]. intros [| |]; cbn; tauto. }
    rewrite Forall_forall in *. pose proof (last_data_In _ _ _ El) as Hin.
    pose proof (a_put_commit_settled mf new v (a_run a_empty ss) id (Hg _ Hin) (Hn _ Hin)) as S.
    unfold a_commit in *. unfold a_ingest. rewrite El. rewrite str_eqb_refl in S. apply S.
    intros r K. exact (proj1 (Hwf id r K)). }
  split; [exact X|]. unfold ingest. rewrite X. reflexivity.
Qed.
Print Assumptions C12_reingest_after_commit.

(** Ingesting a stream twice before committing shows the same as ingesting it once. *)
Theorem C12_reingest_pending : forall (b : Z) (ss : list step) mf recs,
  clock_increasing b ss -> Forall call_ok ss -> call_ok (SIngest mf recs) ->
  exists c, run [] (ss ++ [SIngest mf recs; SIngest mf recs]) = Some c /\
    forall id, shows same_entry c id (a_run a_empty (ss ++ [SIngest mf recs]) id).
Proof.
  intros b ss mf recs Hc Hs Hr.
  assert (Hc2 : forall ss b, clock_increasing b ss -> clock_increasing b (ss ++ [SIngest mf recs; SIngest mf recs])).
  { clear. induction ss as [|s ss IH]; intros b Hc; [exact I|]. destruct s; cbn [app clock_increasing] in *; auto.
    destruct Hc; split; auto. }
  destruct (reach b (ss ++ [SIngest mf recs; SIngest mf recs])) as (c & b' & E & HC & _); [auto| |].
  { apply Forall_app; split; auto. }
  exists c. split; [exact E|]. intro id. pose proof (crel_shows b' c _ id HC) as S.
  unfold a_run in *. rewrite fold_left_app in *. cbn [fold_left a_step] in *.
  rewrite a_ingest_idem in S by (exact (proj2 Hr)). exact S.
Qed.
Print Assumptions C12_reingest_pending.

Example C12_example :
  let recs := [(lit "a", D [("x", VInt 1); ("m", VInt 3)]); (lit "b", D [("x", VInt 1)])] in
  let again := [(lit "a", D [("x", VInt 1); ("m", VInt 9)]); (lit "b", D [("x", VFloat (S754_finite false 1 0))])] in
  match run [] [SIngest None recs; SCommit 5] with
  | Some c => ingest_ops INGEST_SIZE (Some (lit "m")) c again = Some [] /\
              (exists o, ingest_ops INGEST_SIZE None c again = Some [o])
  | None => False
  end.
Proof. vm_compute. split; [reflexivity|eexists; reflexivity]. Qed.

(** ** C13 *)

(** False: an id repeated in a later batch is inserted twice, and a delete in a later batch is lost. *)
Theorem C13_last_occurrence_wins_refuted :
  (exists recs c, Forall (fun r => wfd (snd r)) recs /\ ingest INGEST_SIZE None [] recs = Some c /\
     docs_of (lit "a") c = [mkDoc (lit "a") None (D [("x", VInt 1)]) []; mkDoc (lit "a") None (D [("x", VInt 2)]) []]) /\
  (exists recs c d, Forall (fun r => wfd (snd r)) recs /\ ingest INGEST_SIZE None [] recs = Some c /\
     last_data (lit "a") recs = Some [] /\ docs_of (lit "a") c = [d] /\ d_data d <> []).
Proof.
  split.
  - exists (far_repeat (D [("x", VInt 1)]) (D [("x", VInt 2)])). eexists.
    split; [apply far_repeat_wf; reflexivity|]. split; [vm_compute; reflexivity|]. vm_compute. reflexivity.
  - exists (far_repeat (D [("x", VInt 1)]) []). eexists. eexists.
    split; [apply far_repeat_wf; reflexivity|]. split; [vm_compute; reflexivity|]. vm_compute. repeat split. discriminate.
Qed.
Print Assumptions C13_last_occurrence_wins_refuted.

(** ** C14 *)
Theorem C14_last_occurrence_within_batches : forall (b : Z) (ss : list step) mf recs,
  clock_increasing b ss -> Forall call_ok ss -> call_ok (SIngest mf recs) ->
  exists c c', run [] ss = Some c /\ ingest INGEST_SIZE mf c recs = Some c' /\
    (forall id, length (docs_of id c') <= 1) /\
    (forall id, last_data id recs = None -> docs_of id c' = docs_of id c) /\
    (forall id new, last_data id recs = Some new -> new <> [] -> exists d, docs_of id c' = [d] /\
       (veq (VDict (d_data d)) (VDict new) \/ exists f x, mf = Some f /\ same mf new x = true /\ veq (VDict (d_data d)) (VDict x))) /\
    (forall id, last_data id recs = Some [] -> docs_of id c' = [] \/
       exists d, docs_of id c' = [d] /\ veq (VDict (d_data d)) (VDict [])).
Proof.
  intros b ss mf recs Hc Hs [Hw Hg]. destruct (reach b ss Hc Hs) as (c & b' & E & HC & _).
  destruct (ingest_rel _ _ class_veq b' INGEST_SIZE mf c _ recs (Nat.lt_0_succ 199) HC Hw Hg) as (c' & E' & HC').
  exists c, c'. split; [exact E|]. split; [exact E'|].
  assert (L : forall id, length (docs_of id c') <= 1).
  { intro id. specialize (HC' id). destruct (docs_of id c') as [|d [|]]; cbn; try lia.
    destruct (a_ingest _ _ _ _); contradiction. }
  destruct (a_run_wf ss b a_empty) as (b2 & Hwf); [intros i r K; discriminate|exact Hc| |].
  { eapply Forall_impl; [|exact Hs]. intros [| |]; cbn; tauto. }
  assert (Hnew : forall id new, last_data id recs = Some new -> wfd new).
  { intros id new El. rewrite Forall_forall in Hg. exact (Hg _ (last_data_In _ _ _ El)). }
  assert (V : forall id new, last_data id recs = Some new -> match a_put mf new (a_run a_empty ss id) with
    | None => new = [] /\ docs_of id c' = []
    | Some r => exists d, docs_of id c' = [d] /\
       (veq (VDict (d_data d)) (VDict new) \/ exists f x, mf = Some f /\ same mf new x = true /\ veq (VDict (d_data d)) (VDict x))
    end).
  { intros id new El. pose proof (Hnew id new El) as Hnw. specialize (HC' id). unfold a_ingest in HC'. rewrite El in HC'.
    pose proof (Hwf id) as Hwid. destruct (a_run a_empty ss id) as [[[|[v x] h] p]|] eqn:EA; cbn [a_put] in *.
    - destruct new as [|kv new]; [split; [reflexivity|]; destruct (docs_of id c') as [|? [|]]; [reflexivity|contradiction..]|].
      destruct p as [p|].
      + assert (Hwp : wfd p) by (destruct (Hwid _ eq_refl) as (W & _); inversion W; subst; assumption).
        destruct (py_eqb (VDict (kv :: new)) (VDict p)) eqn:Ep.
        * destruct (docs_of id c') as [|d [|]]; try contradiction. exists d. split; [reflexivity|]. left.
          destruct (rel_pend _ _ _ _ _ _ HC') as (_ & Hp & _). eapply veq_trans; [exact Hp|].
          apply veq_sym. exact (py_eqb_veq _ _ Hnw Hwp Ep).
        * destruct (docs_of id c') as [|d [|]]; try contradiction. exists d. split; [reflexivity|]. left.
          destruct (rel_pend _ _ _ _ _ _ HC') as (_ & Hp & _). exact Hp.
      + destruct (docs_of id c') as [|d [|]]; try contradiction. exists d. split; [reflexivity|]. left.
        destruct (rel_pend _ _ _ _ _ _ HC') as (_ & Hp & _). exact Hp.
    - assert (Hwx : wfd x).
      { destruct (Hwid _ eq_refl) as (W & _). unfold view in W. cbn [a_pend a_hist] in W. apply Forall_app in W.
        destruct W as [_ W]. inversion W; subst; assumption. }
      destruct (docs_of id c') as [|d [|]]; try contradiction. exists d. split; [reflexivity|].
      destruct (same mf new x) eqn:Es.
      + destruct (rel_comm _ _ _ _ _ HC') as (v1 & x1 & r1 & Eh & _ & Hx & _). injection Eh as <- <- <-.
        destruct mf as [f|]; [right; exists f, x; auto|]. left. eapply veq_trans; [exact Hx|].
        apply veq_sym. exact (py_eqb_veq _ _ Hnw Hwx Es).
      + destruct (rel_pend _ _ _ _ _ _ HC') as (_ & Hp & _). left; exact Hp.
    - destruct new as [|kv new]; [split; [reflexivity|]; destruct (docs_of id c') as [|? [|]]; [reflexivity|contradiction..]|].
      destruct (docs_of id c') as [|d [|]]; try contradiction. exists d. split; [reflexivity|]. left.
      destruct (rel_pend _ _ _ _ _ _ HC') as (_ & Hp & _). exact Hp. }
  split; [exact L|]. split; [|split].
  - intros id El. apply (ingest_frame INGEST_SIZE mf c c' recs id (Nat.lt_0_succ 199) E').
    apply last_data_None; exact El.
  - intros id new El Hne. specialize (V id new El). destruct (a_put _ _ _); [exact V|]. destruct V; contradiction.
  - intros id El. specialize (V id [] El). destruct (a_put mf [] _); [|left; tauto]. right.
    destruct V as (d & Hd & [K|(f & x & -> & Ks & Kv)]); exists d; (split; [exact Hd|]); [exact K|].
    eapply veq_trans; [exact Kv|]. unfold same in Ks. cbn [dmem dget andb] in Ks.
    destruct x as [|kv x]; [apply veq_refl|]. cbn in Ks. discriminate.
Qed.
Print Assumptions C14_last_occurrence_within_batches.

Example C14_example :
  ids_within_batches INGEST_SIZE ([(lit "a", D [("x", VInt 1)]); (lit "b", D [("x", VInt 7)]); (lit "a", [])]) /\
  bind (ingest INGEST_SIZE None [] [(lit "a", D [("x", VInt 1)]); (lit "b", D [("x", VInt 7)]); (lit "a", [])])
       (fun c => Some (map d_id c)) = Some [lit "b"].
Proof.
  split; [|vm_compute; reflexivity]. intros i j r r' Hi Hj _.
  assert (i < 3) by (change 3 with (length [(lit "a", D [("x", VInt 1)]); (lit "b", D [("x", VInt 7)]); (lit "a", [])]);
    apply nth_error_Some; rewrite Hi; discriminate).
  assert (j < 3) by (change 3 with (length [(lit "a", D [("x", VInt 1)]); (lit "b", D [("x", VInt 7)]); (lit "a", [])]);
    apply nth_error_Some; rewrite Hj; discriminate).
  unfold INGEST_SIZE. rewrite !Nat.div_small by lia. reflexivity.
Qed.

(** ** C16 *)

(** A record as iterated: pending entry first (if any), then versions strictly decreasing; the
    data of neighbouring entries differs; the oldest entry is not a deletion. *)
Definition well_formed_iteration (l : list (option Z * dict)) : Prop :=
  l <> [] /\
  (exists p h, l = p ++ h /\ (p = [] \/ exists d, p = [(None, d)]) /\
     exists vs, map fst h = map Some vs /\ StronglySorted Z.gt vs) /\
  (forall pre a b post, l = pre ++ a :: b :: post -> py_eqb (VDict (snd a)) (VDict (snd b)) = false) /\
  (forall pre x, l = pre ++ [x] -> snd x <> []).

Lemma F2_split {A B} (P : A -> B -> Prop) l1 l2 m : Forall2 P (l1 ++ l2) m ->
  exists m1 m2, m = m1 ++ m2 /\ Forall2 P l1 m1 /\ Forall2 P l2 m2.
Proof. intro H. apply Forall2_app_inv_l in H. destruct H as (m1 & m2 & H1 & H2 & ->). exists m1, m2; auto. Qed.

Theorem C16_histories_well_formed : forall (b : Z) (ss : list step),
  clock_increasing b ss -> Forall call_ok ss ->
  exists c, run [] ss = Some c /\ NoDup (map d_id c) /\
    forall d, In d c -> exists l, iter_doc d = Some l /\ well_formed_iteration l.
Proof.
  intros b ss Hc Hs. destruct (reach b ss Hc Hs) as (c & b' & E & HC & _).
  exists c. split; [exact E|]. split.
  { apply one_doc_per_id. intro id. specialize (HC id). destruct (docs_of id c) as [|d [|]]; cbn; try lia.
    destruct (a_run _ _ _); contradiction. }
  intros d Hd.
  destruct (a_run_wf ss b a_empty) as (b2 & Hwf); [intros i r K; discriminate|exact Hc| |].
  { eapply Forall_impl; [|exact Hs]. intros [| |]; cbn; tauto. }
  assert (Hin : In d (docs_of (d_id d) c)) by (apply filter_In; split; [exact Hd|apply str_eqb_refl]).
  specialize (HC (d_id d)). specialize (Hwf (d_id d)).
  destruct (docs_of (d_id d) c) as [|d0 [|]]; [contradiction| |destruct (a_run _ _ _); contradiction].
  destruct Hin as [->|[]]. destruct (a_run a_empty ss (d_id d)) as [r|]; [|contradiction].
  destruct (Hwf r eq_refl) as (W & (S1 & S2 & S3 & S4) & _).
  destruct HC as (Hok & Hg & l & Hl & H2). exists l. split; [exact Hl|].
  assert (Hwl : Forall (fun x => wfd (snd x)) l).
  { unfold iter_doc in Hl. rewrite (zsort_desc_asc _ (ok_asc _ _ _ Hok)) in Hl.
    destruct (iter_diffs (d_data d) (d_diffs d) (rev (zkeys (d_diffs d)))) as [t|] eqn:Et; [|discriminate].
    injection Hl as <-. constructor; [exact (ok_good _ _ _ Hok)|].
    assert (G : forall vs base t, wfd base -> iter_diffs base (d_diffs d) vs = Some t -> Forall (fun x => wfd (snd x)) t).
    { pose proof (ok_diffs _ _ _ Hok) as Hm. clear - Hm. induction vs as [|v vs IH]; intros base t Hb H; cbn [iter_diffs] in H.
      - injection H as <-. constructor.
      - destruct (zget (d_diffs d) v) as [os|] eqn:Eos; [|discriminate].
        destruct (patch base os) as [x|] eqn:Ex; [|discriminate].
        destruct (iter_diffs x (d_diffs d) vs) as [t'|] eqn:Et; [|discriminate]. cbn in H. injection H as <-.
        assert (Hx : wfd x).
        { assert (Hos : Forall (fun o => wf_ops (dops o)) os).
          { unfold wfdiffs in Hm. rewrite Forall_forall in Hm. apply (Hm (v, os)).
            clear - Eos. induction (d_diffs d) as [|[k w] m IHm]; cbn in Eos; [discriminate|].
            destruct (Z.eqb_spec v k); [injection Eos as <-; subst; left; reflexivity|right; auto]. }
          exact (wf_patch _ _ _ Hos Hb Ex). }
        constructor; [exact Hx|]. exact (IH x t' Hx Et). }
    exact (G _ _ _ (ok_good _ _ _ Hok) Et). }
  split; [|split; [|split]].
  - intros ->. apply S4. destruct (view r); [reflexivity|inversion H2].
  - assert (Ef : map fst l = map fst (view r)).
    { clear - H2. induction H2 as [|x y l m [Hf _] _ IH]; cbn; [reflexivity|]. congruence. }
    unfold view in Ef. rewrite map_app, map_map in Ef. cbn [fst] in Ef.
    destruct (a_pend r) as [p|].
    + destruct l as [|[o x] l]; [discriminate|]. cbn in Ef. injection Ef as -> Ef.
      exists [(None, x)], l. split; [reflexivity|]. split; [right; exists x; reflexivity|].
      exists (map fst (a_hist r)). rewrite map_map. split; [exact Ef|exact S1].
    + exists [], l. split; [reflexivity|]. split; [left; reflexivity|].
      exists (map fst (a_hist r)). rewrite map_map. split; [exact Ef|exact S1].
  - intros pre x y post El. subst l. apply F2_split in H2. destruct H2 as (m1 & m2 & Em & _ & H2).
    inversion H2 as [|? x' ? m3 [_ Vx] H3]; subst. inversion H3 as [|? y' ? m4 [_ Vy] _]; subst.
    apply Forall_app in Hwl. destruct Hwl as [_ Hwl]. inversion Hwl as [|? ? Wx Hwl2]; subst. inversion Hwl2 as [|? ? Wy _]; subst.
    rewrite Em in W. apply Forall_app in W. destruct W as [_ W]. inversion W as [|? ? Wx' W2]; subst. inversion W2 as [|? ? Wy' _]; subst.
    rewrite (py_eqb_congr_r _ _ _ Wx Wy Wy' Vy), (py_eqb_congr_l _ _ _ Wy' Wx Wx' Vx).
    apply (S2 (map snd m1) (snd x') (snd y') (map snd m4)). rewrite Em, map_app. reflexivity.
  - intros pre x El. subst l. apply F2_split in H2. destruct H2 as (m1 & m2 & Em & _ & H2).
    inversion H2 as [|? x' ? m3 [_ Vx] H3]; subst. inversion H3; subst.
    intro K. rewrite K in Vx. apply (S3 (map snd m1) (snd x')); [rewrite Em, map_app; reflexivity|].
    destruct (snd x') as [|[k w] t]; [reflexivity|]. inversion Vx as [? ? Hsc| |? ? Hk _]; subst; [discriminate|].
    specialize (Hk k). cbn [dget] in Hk. rewrite str_eqb_refl in Hk. destruct Hk as [Hk _].
    specialize (Hk eq_refl). discriminate.
Qed.
Print Assumptions C16_histories_well_formed.

Example C16_example : match run [] ex_hist with
  | Some c => map iter_doc c =
     [ Some [(Some 100%Z, D [("x", VInt 1); ("y", VList [VNone])])]
     ; Some [(None, D [("x", VStr (lit "d"))]); (Some 200%Z, []); (Some 100%Z, D [("x", VStr (lit "a"))])]
     ; Some [(None, D [("q", VNone)])] ]
  | None => False end.
Proof. vm_compute. reflexivity. Qed.

(** ** C17 *)

(** False: two commits in one millisecond lose the first version's data for good once a third
    is made; a commit with an earlier clock value puts the history out of order. *)
Definition three (v1 v2 v3 : Z) : list step :=
  [SIngest None [(lit "a", D [("x", VInt 1)])]; SCommit v1; SIngest None [(lit "a", D [("x", VInt 2)])]; SCommit v2;
   SIngest None [(lit "a", D [("x", VInt 3)])]; SCommit v3].
Theorem C17_clock_refuted :
  (exists c, run [] (three 5 5 6) = Some c /\
     map iter_doc c = [Some [(Some 6%Z, D [("x", VInt 3)]); (Some 5%Z, D [("x", VInt 2)])]]) /\
  (exists c d, run [] (three 7 5 6) = Some c /\ c = [d] /\ forall l, iter_doc d = Some l -> ~ well_formed_iteration l).
Proof.
  split; [eexists; vm_compute; split; reflexivity|].
  eexists. eexists. split; [vm_compute; reflexivity|]. split; [reflexivity|]. intros l Hl. vm_compute in Hl.
  injection Hl as <-. intros (_ & (p & h & E & Hp & vs & Ev & Hs) & _).
  destruct Hp as [->|[x ->]]; [|discriminate]. cbn in E. subst h. cbn in Ev.
  destruct vs as [|a [|b0 [|c0 [|]]]]; try discriminate. injection Ev as <- <- <-.
  inversion Hs as [|? ? _ F]; subst. inversion F as [|? ? K _]; subst. lia.
Qed.
Print Assumptions C17_clock_refuted.

(** ** C60 *)

(** False: both ingests look the id up before either writes. *)
Theorem C60_concurrent_ingests_refuted : exists c' p' q',
  conc INGEST_SIZE None None [] (proc_start INGEST_SIZE [(lit "a", D [("x", VInt 1)])])
    (proc_start INGEST_SIZE [(lit "a", D [("x", VInt 2)])]) c' p' q' /\
  proc_done p' /\ proc_done q' /\ length (docs_of (lit "a") c') = 2.
Proof.
  eexists. eexists. eexists. split.
  - eapply conc_l; [eapply ps_find; [vm_compute; lia|vm_compute; reflexivity]|].
    eapply conc_r; [eapply ps_find; [vm_compute; lia|vm_compute; reflexivity]|].
    eapply conc_l; [eapply ps_last; [vm_compute; lia|discriminate]|].
    eapply conc_r; [eapply ps_last; [vm_compute; lia|discriminate]|].
    apply conc_refl.
  - vm_compute. repeat split.
Qed.
Print Assumptions C60_concurrent_ingests_refuted.

(** With disjoint ids every interleaving gives, id by id, what the ingests give on their own, so
    from a reachable state every id has at most one document. *)
Theorem C60_concurrent_ingests_partial : forall (b : Z) (ss : list step) mf1 mf2 recs1 recs2 c c' p' q',
  clock_increasing b ss -> Forall call_ok ss -> call_ok (SIngest mf1 recs1) -> call_ok (SIngest mf2 recs2) ->
  (forall id, In id (map fst recs1) -> In id (map fst recs2) -> False) ->
  run [] ss = Some c ->
  conc INGEST_SIZE mf1 mf2 c (proc_start INGEST_SIZE recs1) (proc_start INGEST_SIZE recs2) c' p' q' ->
  proc_done p' -> proc_done q' ->
  forall id, shows same_entry c' id (a_ingest mf2 recs2 (a_ingest mf1 recs1 (a_run a_empty ss)) id).
Proof.
  intros b ss mf1 mf2 recs1 recs2 c c' p' q' Hc Hs [Hw1 Hg1] [Hw2 Hg2] Hd Er Hconc Dp Dq id.
  assert (S1 : INGEST_SIZE >= 1) by (exact (Nat.lt_0_succ 199)).
  destruct (reach b ss Hc Hs) as (c0 & b' & E0 & HC & _). rewrite E0 in Er. injection Er as ->.
  destruct (ingest_rel _ _ class_veq b' INGEST_SIZE mf1 c _ recs1 S1 HC Hw1 Hg1) as (x & Ex & HX).
  destruct (ingest_rel _ _ class_veq b' INGEST_SIZE mf2 c _ recs2 S1 HC Hw2 Hg2) as (y & Ey & HY).
  rewrite <- (proc_start_rest INGEST_SIZE mf1 c recs1 S1) in Ex.
  rewrite <- (proc_start_rest INGEST_SIZE mf2 c recs2 S1) in Ey.
  destruct (conc_disjoint INGEST_SIZE mf1 mf2 S1 _ _ _ _ _ _ Hconc (fun i => In i (map fst recs1)) (fun i => In i (map fst recs2))
    (fun i => proc_start_ids INGEST_SIZE recs1 i S1) (fun i => proc_start_ids INGEST_SIZE recs2 i S1) Hd Dp Dq x y Ex Ey)
    as (A1 & A2 & A3).
  pose proof (crel_shows _ _ _ id HX) as SX. pose proof (crel_shows _ _ _ id HY) as SY.
  pose proof (crel_shows _ _ _ id HC) as SC. unfold a_ingest in *.
  destruct (in_dec str_eq_dec id (map fst recs1)) as [I1|I1].
  - assert (N2 : last_data id recs2 = None) by (apply last_data_None; intro K; exact (Hd id I1 K)).
    rewrite N2. unfold shows in *. rewrite (A1 id I1). exact SX.
  - rewrite (proj2 (last_data_None id recs1) I1) in *.
    destruct (in_dec str_eq_dec id (map fst recs2)) as [I2|I2].
    + unfold shows in *. rewrite (A2 id I2). exact SY.
    + rewrite (proj2 (last_data_None id recs2) I2) in *. unfold shows in *. rewrite (A3 id I1 I2). exact SC.
Qed.
Print Assumptions C60_concurrent_ingests_partial.

Example C60_example : exists c' p' q',
  conc INGEST_SIZE None None [] (proc_start INGEST_SIZE [(lit "a", D [("x", VInt 1)])])
    (proc_start INGEST_SIZE [(lit "b", D [("x", VInt 2)])]) c' p' q' /\ proc_done p' /\ proc_done q' /\ length c' = 2.
Proof.
  eexists. eexists. eexists. split.
  - eapply conc_l; [eapply ps_find; [vm_compute; lia|vm_compute; reflexivity]|].
    eapply conc_r; [eapply ps_find; [vm_compute; lia|vm_compute; reflexivity]|].
    eapply conc_r; [eapply ps_last; [vm_compute; lia|discriminate]|].
    eapply conc_l; [eapply ps_last; [vm_compute; lia|discriminate]|].
    apply conc_refl.
  - vm_compute. repeat split.
Qed.

(** ** C61 *)
Theorem C61_ingest_counts : forall (b : Z) (ss : list step) mf recs,
  clock_increasing b ss -> Forall call_ok ss -> call_ok (SIngest mf recs) ->
  exists c c' n, run [] ss = Some c /\ ingest INGEST_SIZE mf c recs = Some c' /\
    ingest_counts INGEST_SIZE mf c recs = Some n /\
    length c' + n_del n = length c + n_ins n /\
    let ids := nodup str_eq_dec (map fst recs) in
    n_ins n = tally (gained c c') ids /\ n_mod n = tally (altered c c') ids /\ n_del n = tally (lost c c') ids.
Proof.
  intros b ss mf recs Hc Hs [Hw Hg]. destruct (reach b ss Hc Hs) as (c & b' & E & HC & _).
  assert (S1 : INGEST_SIZE >= 1) by (exact (Nat.lt_0_succ 199)).
  destruct (ingest_rel _ _ class_veq b' INGEST_SIZE mf c _ recs S1 HC Hw Hg) as (c' & E' & HC').
  assert (L : forall id, length (docs_of id c) <= 1).
  { intro id. specialize (HC id). destruct (docs_of id c) as [|d [|]]; cbn; try lia. destruct (a_run _ _ _); contradiction. }
  pose proof E' as E2. unfold ingest in E2. destruct (ingest_ops INGEST_SIZE mf c recs) as [os|] eqn:Eo; [|discriminate].
  cbn [bind] in E2. injection E2 as Ec.
  assert (En : ingest_counts INGEST_SIZE mf c recs = Some (ops_counts c os)) by (unfold ingest_counts; rewrite Eo; reflexivity).
  exists c, c', (ops_counts c os). split; [exact E|]. split; [exact E'|]. split; [exact En|].
  split; [rewrite <- Ec; apply ops_counts_length|].
  pose proof (ingest_counts_tally INGEST_SIZE mf c recs c' _ S1 L Hw E' En) as T. cbv zeta in *. rewrite T. auto.
Qed.
Print Assumptions C61_ingest_counts.

(** The document count equation needs no condition on the stream. *)
Theorem C61_ingest_counts_any_stream : forall size mf c recs c' n,
  ingest size mf c recs = Some c' -> ingest_counts size mf c recs = Some n ->
  length c' + n_del n = length c + n_ins n.
Proof.
  intros size mf c recs c' n H Hn. unfold ingest, ingest_counts in *.
  destruct (ingest_ops size mf c recs) as [os|]; [|discriminate]. cbn [bind] in *. injection H as <-. injection Hn as <-.
  apply ops_counts_length.
Qed.
Print Assumptions C61_ingest_counts_any_stream.

Example C61_example :
  match run [] [SIngest None [(lit "a", D [("x", VInt 1)]); (lit "b", D [("x", VInt 1)])]; SCommit 5; SIngest None [(lit "c", D [("x", VInt 1)])]] with
  | Some c => ingest_counts INGEST_SIZE None c
      [(lit "a", D [("x", VInt 2)]); (lit "b", D [("x", VInt 1)]); (lit "c", []); (lit "d", D [("x", VInt 9)])] = Some (Cnt 1 1 1)
  | None => False end.
Proof. vm_compute. reflexivity. Qed.
