(** Property C17: histories with any clock. *)
From Coq Require Import String Ascii.
From Coq Require Import List ZArith NArith Bool Lia Sorted.
From Verif Require Import PyVal Diff DiffProofs Prepare PrepareProofs Mongo Store MongoProofs MongoStore MongoMore PropsMongo Race.
Import ListNotations.
Open Scope string_scope.
Open Scope list_scope.
Open Scope Z_scope.

(** ** Specification *)
(** Every commit has a version greater than those that the records which it commits have already. Versions of other records do not
    matter, so commits may have equal versions and the clock may go back. *)
Fixpoint timely (A : astate) (ss : list step) : Prop :=
  match ss with
  | [] => True
  | s :: r =>
      match s with
      | SCommit v => forall id h p, A id = Some (AR h (Some p)) -> Forall (fun e => fst e < v) h
      | _ => True
      end /\ timely (a_step A s) r
  end.
(** The versions that a record has, newest first; pending data have none. *)
Definition descending (l : list (option Z * dict)) : Prop :=
  exists vs, flat_map (fun e => match fst e with Some v => [v] | None => [] end) l = vs /\ StronglySorted Z.gt vs.

(** ** Proofs *)
Notation doc_rel := (doc_rel scalar_same wfd).
Notation crel := (crel scalar_same wfd).
Lemma iter_diffs_versions m : forall vs base l, iter_diffs base m vs = Some l -> map fst l = map Some vs.
Proof.
  induction vs as [|v vs IH]; intros base l H; cbn [iter_diffs] in H; [injection H as <-; reflexivity|].
  destruct (zget m v) as [os|]; [|discriminate]. cbn [bind] in H. destruct (patch base os) as [d|]; [|discriminate]. cbn [bind] in H.
  destruct (iter_diffs d m vs) as [t|] eqn:E; [|discriminate]. injection H as <-. cbn [map fst]. f_equal. exact (IH _ _ E).
Qed.
Lemma F2_versions l m : Forall2 (relv scalar_same) l m -> map fst l = map fst m.
Proof. induction 1 as [|a b l m [H1 _] _ IH]; [reflexivity|]. cbn [map]. congruence. Qed.
Lemma map_some_inj {A} (l m : list A) : map Some l = map Some m -> l = m.
Proof. revert m. induction l as [|a l IH]; intros [|b m] H; try discriminate; [reflexivity|]. injection H as -> H. f_equal. auto. Qed.
(** the keys of the diffs are the versions *)
Lemma pending_keys b d h p : doc_rel b d (AR h (Some p)) -> d_ver d = None /\ zsort_desc (zkeys (d_diffs d)) = map fst h.
Proof.
  intros (_ & _ & l & Hl & H2). unfold iter_doc in Hl. destruct (iter_diffs _ _ _) as [t|] eqn:E; [|discriminate]. injection Hl as <-. apply F2_versions in H2. cbn [view a_pend a_hist app map fst] in H2.
  injection H2 as Hv Ht. split; [exact Hv|]. rewrite (iter_diffs_versions _ _ _ _ E) in Ht. rewrite map_map in Ht. cbn [fst] in Ht. rewrite <- (map_map fst Some) in Ht. exact (map_some_inj _ _ Ht).
Qed.
Lemma commit_timely b c A v : crel b c A -> (forall id h p, A id = Some (AR h (Some p)) -> Forall (fun e => fst e < v) h) -> crel (Z.max b v) (commit_data v c) (a_commit v A).
Proof.
  intros HC HT id. specialize (HC id). specialize (HT id). rewrite docs_of_commit. unfold a_commit.
  destruct (docs_of id c) as [|d [|d' ds]]; cbn [map drel] in *; destruct (A id) as [[h [p|]]|]; try contradiction; try exact I.
  - apply (rel_mono scalar_same wfd v); [lia|]. specialize (HT h p eq_refl). destruct (pending_keys _ _ _ _ HC) as [Hv Hk].
    assert (D : doc_rel (v - 1) d (AR h (Some p))).
    { apply (rel_bound scalar_same wfd b); [exact HC|]. rewrite Hv. rewrite (zsort_desc_asc _ (ok_asc _ _ _ (proj1 HC))) in Hk.
      apply Forall_forall. intros k Hk'. apply in_rev in Hk'. rewrite Hk in Hk'. apply in_map_iff in Hk'. destruct Hk' as (e & <- & He). rewrite Forall_forall in HT. specialize (HT e He). lia. }
    exact (commit_rel scalar_same wfd _ _ _ v D ltac:(lia)).
  - destruct (rel_comm scalar_same wfd _ _ _ HC) as (v' & x & rest & -> & Hd & _). unfold commit_doc. rewrite Hd. apply (rel_mono scalar_same wfd b); [lia|exact HC].
Qed.
Lemma run_timely ss : forall b c A, crel b c A -> timely A ss -> Forall call_ok ss -> exists c' b', run c ss = Some c' /\ crel b' c' (a_run A ss).
Proof.
  induction ss as [|s ss IH]; intros b c A HC HT Hok; [exists c, b; auto|]. inversion Hok as [|? ? Hs Hok']; subst. destruct HT as [T1 T2]. destruct s as [mf recs|v|]; cbn [run run_step a_step] in *.
  - destruct Hs as [Hw Hg]. destruct (ingest_rel _ _ class_veq b INGEST_SIZE mf c A recs (Nat.lt_0_succ 199) HC Hw Hg) as (c' & E & HC'). rewrite E. cbn [bind]. exact (IH b c' _ HC' T2 Hok').
  - cbn [bind]. exact (IH _ _ _ (commit_timely _ _ _ _ HC T1) T2 Hok').
  - destruct (rollback_crel _ _ class_veq b c A (crel_base _ _ _ _ _ HC)) as (c' & E & HC'). rewrite E. cbn [bind]. exact (IH b c' _ HC' T2 Hok').
Qed.
Lemma sorted_snoc l a : StronglySorted Z.gt l -> Forall (fun x => x > a) l -> StronglySorted Z.gt (l ++ [a]).
Proof.
  induction 1 as [|x l _ IH F]; intro H; [repeat constructor|]. inversion H as [|? ? H1 H2]; subst. cbn [app]. constructor; [exact (IH H2)|]. apply Forall_app. split; [exact F|]. repeat constructor. exact H1.
Qed.
Lemma sorted_rev l : StronglySorted Z.lt l -> StronglySorted Z.gt (rev l).
Proof.
  induction 1 as [|a l _ IH F]; [constructor|]. cbn [rev]. apply sorted_snoc; [exact IH|]. apply Forall_forall. intros x Hx. apply in_rev in Hx. rewrite Forall_forall in F. specialize (F x Hx). lia.
Qed.
Lemma versions_of l vs : map fst l = map Some vs -> flat_map (fun e : option Z * dict => match fst e with Some v => [v] | None => [] end) l = vs.
Proof. revert vs. induction l as [|[k x] l IH]; intros [|v vs] H; try discriminate; [reflexivity|]. cbn [map fst] in H. injection H as -> H. cbn [flat_map fst app]. f_equal. exact (IH _ H). Qed.
Lemma rel_descending b d r : doc_rel b d r -> exists l, iter_doc d = Some l /\ descending l.
Proof.
  intros (Hok & _ & l & Hl & _). exists l. split; [exact Hl|]. unfold iter_doc in Hl. rewrite (zsort_desc_asc _ (ok_asc _ _ _ Hok)) in Hl. destruct (iter_diffs _ _ _) as [t|] eqn:E; [|discriminate]. injection Hl as <-.
  eexists. split; [reflexivity|]. cbn [flat_map fst]. rewrite (versions_of _ _ (iter_diffs_versions _ _ _ _ E)). pose proof (sorted_rev _ (ok_asc _ _ _ Hok)) as S. destruct (d_ver d) as [v|] eqn:Ev; [|exact S].
  cbn [app]. constructor; [exact S|]. pose proof (ok_lt _ _ _ Hok) as L. rewrite Ev in L. rewrite Forall_forall in *. intros k Hk. apply in_rev in Hk. specialize (L k Hk). lia.
Qed.
Lemma crel_descending b c A : crel b c A -> forall d, In d c -> exists l, iter_doc d = Some l /\ descending l.
Proof.
  intros HC d Hd. assert (Hin : In d (docs_of (d_id d) c)) by (apply filter_In; split; [exact Hd|apply str_eqb_refl]). specialize (HC (d_id d)).
  destruct (docs_of (d_id d) c) as [|d0 [|]]; [contradiction| |destruct (A (d_id d)); contradiction]. destruct Hin as [->|[]]. destruct (A (d_id d)) as [r|]; [|contradiction]. exact (rel_descending _ _ _ HC).
Qed.
Lemma timely_app pre : forall A post, timely A (pre ++ post) -> timely A pre.
Proof. induction pre as [|s pre IH]; intros A post H; [exact I|]. destruct H as [H1 H2]. split; [exact H1|]. exact (IH _ _ H2). Qed.
Definition fine (c : coll) (ss : list step) : Prop :=
  forall pre post, ss = pre ++ post -> exists c', run c pre = Some c' /\ forall d, In d c' -> exists l, iter_doc d = Some l /\ descending l.
Lemma fine_step c s ss c1 : run_step c s = Some c1 -> fine c (s :: ss) -> fine c1 ss.
Proof.
  intros E H pre post ->. destruct (H (s :: pre) post eq_refl) as (c' & E' & H'). cbn [run] in E'. rewrite E in E'. cbn [bind] in E'. exists c'. auto.
Qed.
Lemma fine_timely ss : forall b c A, crel b c A -> Forall call_ok ss -> fine c ss -> timely A ss.
Proof.
  induction ss as [|s ss IH]; intros b c A HC Hok HF; [exact I|]. inversion Hok as [|? ? Hs Hok']; subst. cbn [timely]. destruct s as [mf recs|v|]; cbn [a_step].
  - split; [exact I|]. destruct Hs as [Hw Hg]. destruct (ingest_rel _ _ class_veq b INGEST_SIZE mf c A recs (Nat.lt_0_succ 199) HC Hw Hg) as (c' & E & HC'). exact (IH b c' _ HC' Hok' (fine_step c (SIngest mf recs) ss c' E HF)).
  - assert (T : forall id h p, A id = Some (AR h (Some p)) -> Forall (fun e => fst e < v) h).
    { intros id h p EA. destruct (HF [SCommit v] ss eq_refl) as (c' & E & H). cbn [run run_step bind] in E. injection E as <-. pose proof (HC id) as HD. rewrite EA in HD.
      destruct (docs_of id c) as [|d [|]] eqn:Ed; try contradiction. cbn [drel] in HD. destruct (H (commit_doc v d)) as (l & Hl & vs & Evs & S).
      { unfold commit_data. apply in_map. apply (proj1 (filter_In (fun d => str_eqb (d_id d) id) d c)). fold (docs_of id c). rewrite Ed. left; reflexivity. }
      destruct (pending_keys _ _ _ _ HD) as [Hv Hk]. unfold commit_doc in Hl. rewrite Hv in Hl. unfold iter_doc in Hl. cbn [d_data d_diffs d_ver] in Hl. rewrite Hk in Hl.
      destruct (iter_diffs _ _ _) as [t|] eqn:Et; [|discriminate]. injection Hl as <-. cbn [flat_map fst app] in Evs. rewrite (versions_of _ _ (iter_diffs_versions _ _ _ _ Et)) in Evs. subst vs.
      inversion S as [|? ? _ F]; subst. rewrite Forall_map in F. eapply Forall_impl; [|exact F]. cbn. intros e He. lia. }
    split; [exact T|]. exact (IH _ _ _ (commit_timely _ _ _ _ HC T) Hok' (fine_step c (SCommit v) ss _ eq_refl HF)).
  - split; [exact I|]. destruct (rollback_crel _ _ class_veq b c A (crel_base _ _ _ _ _ HC)) as (c' & E & HC'). exact (IH b c' _ HC' Hok' (fine_step c SRollback ss c' E HF)).
Qed.

(** ** C17 *)
(** It is enough that each record's own versions grow: then the collection is the versioned store (C10), whatever the clock says otherwise. *)
Theorem C17_timely_partial : forall ss, Forall call_ok ss -> timely a_empty ss ->
  exists c, run [] ss = Some c /\ forall id, shows same_entry c id (a_run a_empty ss id).
Proof.
  intros ss Hok HT. destruct (run_timely ss 0 [] a_empty (crel_empty _ _ _) HT Hok) as (c & b & E & HC). exists c. split; [exact E|]. intro id. exact (crel_shows b c _ id HC).
Qed.
Print Assumptions C17_timely_partial.

(** And it is necessary: the versions of all records are in order after every call of a history exactly if its commits are timely. *)
Theorem C17_exact : forall ss, Forall call_ok ss ->
  (forall pre post, ss = pre ++ post -> exists c, run [] pre = Some c /\ forall d, In d c -> exists l, iter_doc d = Some l /\ descending l) <-> timely a_empty ss.
Proof.
  intros ss Hok. split.
  - exact (fine_timely ss 0 [] a_empty (crel_empty _ _ _) Hok).
  - intros HT pre post ->. apply timely_app in HT. apply Forall_app in Hok. destruct (run_timely pre 0 [] a_empty (crel_empty _ _ _) HT (proj1 Hok)) as (c & b & E & HC).
    exists c. split; [exact E|]. exact (crel_descending _ _ _ HC).
Qed.
Print Assumptions C17_exact.

(** Two commits in one millisecond can also falsify versions before them (version 3 had y = 1, and now has y = 2), and make the
    record unreadable. *)
Definition stage (d : dict) (v : Z) : list step := [SIngest None [(lit "a", d)]; SCommit v].
Theorem C17_older_refuted :
  (exists c d d', run [] (stage (D [("x", VInt 1); ("y", VInt 1)]) 3) = Some [d] /\ iter_doc d = Some [(Some 3, D [("x", VInt 1); ("y", VInt 1)])] /\
     run [] (stage (D [("x", VInt 1); ("y", VInt 1)]) 3 ++ stage (D [("x", VInt 2); ("y", VInt 1)]) 5 ++ stage (D [("x", VInt 2); ("y", VInt 2)]) 5 ++
             stage (D [("x", VInt 2); ("y", VInt 3)]) 6) = Some c /\ c = [d'] /\
     iter_doc d' = Some [(Some 6, D [("x", VInt 2); ("y", VInt 3)]); (Some 5, D [("x", VInt 2); ("y", VInt 2)]); (Some 3, D [("x", VInt 1); ("y", VInt 2)])]) /\
  (exists c d', run [] (stage (D [("x", VDict (D [("a", VInt 1)]))]) 3 ++ stage (D [("x", VDict (D [("a", VInt 2)]))]) 5 ++ stage (D [("y", VInt 1)]) 5 ++
             stage (D [("y", VInt 2)]) 6) = Some c /\ c = [d'] /\ iter_doc d' = None).
Proof.
  split.
  - eexists. eexists. eexists. split; [vm_compute; reflexivity|]. split; [vm_compute; reflexivity|]. split; [vm_compute; reflexivity|]. split; [reflexivity|]. vm_compute. reflexivity.
  - eexists. eexists. split; [vm_compute; reflexivity|]. split; [reflexivity|]. vm_compute. reflexivity.
Qed.
Print Assumptions C17_older_refuted.

(** Two records, committed at 7, at 7 again and at 5: fine, as each is changed once only at these times. *)
Definition clock_history : list step :=
  [SIngest None [(lit "a", D [("x", VInt 1)])]; SCommit 7; SIngest None [(lit "b", D [("x", VInt 1)])]; SCommit 7; SIngest None [(lit "c", D [("x", VInt 1)])]; SCommit 5;
   SIngest None [(lit "c", D [("x", VInt 2)])]; SCommit 6; SRollback].
Example C17_example : Forall call_ok clock_history /\ timely a_empty clock_history /\
  match run [] clock_history with
  | Some c => map iter_doc c = [Some [(Some 7, D [("x", VInt 1)])]; Some [(Some 7, D [("x", VInt 1)])]; Some [(Some 6, D [("x", VInt 2)]); (Some 5, D [("x", VInt 1)])]]
  | None => False
  end.
Proof.
  assert (S : forall i d, wfd d -> call_ok (SIngest None [(i, d)])).
  { intros i d H. split; [|repeat constructor; exact H]. intros j k r r' Hj Hk _. destruct j as [|[|]], k as [|[|]]; try discriminate; reflexivity. }
  split. { unfold clock_history. repeat (constructor; [first [exact I|apply S; vm_compute; reflexivity]|]). constructor. }
  split; [|vm_compute; reflexivity].
  unfold clock_history, timely, a_step. repeat (split; [try exact I|]); try exact I; intros id h p; unfold a_commit, a_ingest, last_data, a_empty.
  all: destruct (str_eqb (lit "a") id) eqn:Qa; [apply str_eqb_eq in Qa; subst id|destruct (str_eqb (lit "b") id) eqn:Qb; [apply str_eqb_eq in Qb; subst id|destruct (str_eqb (lit "c") id) eqn:Qc; [apply str_eqb_eq in Qc; subst id|]]];
    cbn; intro E; try discriminate E; injection E as <- <-; repeat constructor.
Qed.
