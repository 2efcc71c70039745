(** Property C12 for whole streams: which records of a stream are written. *)
From Coq Require Import String Ascii.
From Coq Require Import List ZArith NArith Bool Lia.
From Verif Require Import PyVal Diff DiffProofs Prepare PrepareProofs Mongo Store MongoProofs MongoStore MongoMore PropsMongo Client ClientProofs.
Import ListNotations.
Open Scope string_scope.
Open Scope list_scope.
Open Scope nat_scope.

(** ** Specification *)
(** New data make a write necessary on a record that does not exist unless they are a delete; on a record that was never committed unless they are its
    pending data; on a committed record without pending changes unless nothing changed ([same]); and always on a committed record with pending changes. *)
Definition needs_write (mf : option pystr) (new : dict) (o : option arec) : Prop :=
  match o with
  | None => new <> []
  | Some (AR [] p) => new = [] \/ forall x, p = Some x -> py_eqb (VDict new) (VDict x) = false
  | Some (AR ((_, x) :: _) None) => same mf new x = false
  | Some (AR (_ :: _) (Some _)) => True
  end.

Lemma rec_op_writes bound mf id new ds a o : drel scalar_same wfd bound ds a -> wfd new -> rec_op mf (id, new) (hd_error (rev ds)) = Some o ->
  (exists m, o = Some m) <-> needs_write mf new a.
Proof.
  intros HD Hw Ho. destruct ds as [|d [|]]; [| |destruct a; contradiction].
  - destruct a; [contradiction|]. cbn in Ho. injection Ho as <-. cbn [needs_write]. unfold p_del. cbn [snd].
    destruct new; (split; [intros (m & K)|intro K]); try discriminate; try contradiction; eauto.
  - destruct a as [[h p]|]; [|contradiction]. cbn [drel] in HD. cbn [rev app hd_error] in Ho. pose proof (ok_good _ _ _ (proj1 HD)) as Hgd.
    destruct p as [p|].
    + destruct (rel_pend scalar_same wfd _ _ _ _ HD) as (Hv & Hp & Hgp & _ & l & Hl & F). unfold rec_op in Ho. rewrite Hv in Ho. cbn [fst snd] in Ho.
      destruct h as [|[v x] h].
      * assert (Hdd : d_diffs d = []).
        { destruct (d_diffs d) as [|kv ds] eqn:Ed; [reflexivity|exfalso]. cbn in F. inversion F; subst.
          assert (K : rev (zkeys (kv :: ds)) <> []) by (cbn; intro K; apply app_eq_nil in K; destruct K; discriminate).
          destruct (rev (zkeys (kv :: ds))) as [|k ks]; [contradiction|]. cbn [iter_diffs] in Hl. destruct (zget _ k); [|discriminate].
          destruct (patch _ _); [|discriminate]. cbn [bind] in Hl. destruct (iter_diffs _ _ ks); discriminate. }
        rewrite Hdd in Ho. cbn [isnil] in Ho. injection Ho as <-. cbn [needs_write].
        rewrite (isnil_diff _ _ Hw Hgd). rewrite (py_eqb_congr_r (VDict new) (VDict (d_data d)) (VDict p)) by assumption.
        destruct new as [|kv new]; cbn [p_del snd]; [split; eauto|].
        destruct (py_eqb _ _) eqn:E; (split; [intros (m & K)|intros [K|K]]); try discriminate.
        -- specialize (K p eq_refl). congruence.
        -- right. intros y Hy. injection Hy as <-. exact E.
        -- eauto.
      * cbn [needs_write]. split; [exact (fun _ => I)|intros _].
        destruct (isnil (d_diffs d)) eqn:Ei.
        { exfalso. destruct (d_diffs d); [|discriminate]. cbn in Hl. injection Hl as <-. inversion F. }
        destruct (revert_doc d) as [d'|]; [|discriminate]. destruct (rec_changes mf new (d_data d')) as [[ch n'] o'].
        destruct (d_ver d') as [w|] eqn:Ew; [|discriminate]. injection Ho as <-. unfold revert_op. rewrite Ew. destruct (isnil ch); eauto.
    + destruct (rel_comm scalar_same wfd _ _ _ HD) as (v & x & r & -> & Hv & Hx & Hgx & _). cbn [needs_write].
      unfold rec_op in Ho. rewrite Hv in Ho. cbn [fst snd] in Ho. destruct (rec_changes mf new (d_data d)) as [[ch n'] o'] eqn:Ec.
      destruct (rec_changes_spec scalar_same wfd class_veq _ _ _ _ _ _ Hw Hgd Ec) as (_ & _ & _ & _ & W & _).
      rewrite (same_congr scalar_same wfd class_veq mf new _ _ Hw Hgd Hgx Hx) in W. rewrite W in Ho. injection Ho as <-.
      destruct (same mf new x); (split; [intros (m & K)|intro K]); try discriminate; eauto.
Qed.

Lemma map_ops_writes bound mf c c0 A : crel scalar_same wfd bound c0 A -> forall rs os, Forall (fun r => wfd (snd r)) rs ->
  agree (fun i => In i (map fst rs)) c c0 -> map_ops mf c rs = Some os ->
  forall id, In id (map mop_id os) <-> exists new, In (id, new) rs /\ needs_write mf new (A id).
Proof.
  intros HC. induction rs as [|[i new] rs IH]; intros os Hg HA H id; cbn [map_ops fst] in H.
  { injection H as <-. split; [intros []|intros (n & [] & _)]. }
  inversion Hg as [|? ? Hg1 Hg2]; subst.
  destruct (rec_op mf (i, new) (find_last c i)) as [o|] eqn:Eo; [|discriminate].
  destruct (map_ops mf c rs) as [l|] eqn:El; [|discriminate]. cbn [bind] in H. injection H as <-.
  specialize (IH l Hg2 (fun j Hj => HA j (or_intror Hj)) eq_refl id).
  assert (Em : forall m, o = Some m -> mop_id m = i) by (intros m ->; exact (rec_op_id _ _ _ _ _ m Eo eq_refl (find_last_id c i))).
  rewrite find_last_docs, (HA i (or_introl eq_refl)) in Eo. pose proof (rec_op_writes bound mf i new _ _ o (HC i) Hg1 Eo) as W.
  split.
  - intro K. destruct o as [m|]; [cbn [map] in K; destruct K as [K|K]|].
    + rewrite (Em m eq_refl) in K. subst i. exists new. split; [left; reflexivity|apply W; eauto].
    + apply IH in K. destruct K as (n & K1 & K2). exists n. split; [right; exact K1|exact K2].
    + apply IH in K. destruct K as (n & K1 & K2). exists n. split; [right; exact K1|exact K2].
  - intros (n & [K|K] & N).
    + injection K as -> ->. apply W in N. destruct N as (m & ->). left. apply Em. reflexivity.
    + assert (X : In id (map mop_id l)) by (apply IH; eauto). destruct o; [right|]; exact X.
Qed.
Lemma loop_writes bound size mf c0 A : crel scalar_same wfd bound c0 A -> forall chunks c pend os,
  disjoint_chunks chunks -> Forall (fun r => wfd (snd r)) (concat chunks) -> agree (fun i => In i (map fst (concat chunks))) c c0 ->
  (forall o r, In o pend -> In r (concat chunks) -> mop_id o <> fst r) ->
  ingest_loop size mf c pend chunks = Some os ->
  forall id, In id (map mop_id os) <-> In id (map mop_id pend) \/ exists new, last_data id (concat chunks) = Some new /\ needs_write mf new (A id).
Proof.
  intro HC. induction chunks as [|ch rest IH]; intros c pend os HD Hg HA Hp H id; cbn [ingest_loop] in H.
  { injection H as <-. cbn. split; [auto|intros [K|(n & K & _)]; [exact K|discriminate]]. }
  destruct (chunk_ops mf c ch) as [o1|] eqn:E1; [|discriminate]. cbv zeta in H.
  set (buf := pend ++ o1) in *. set (n := length buf / size * size) in *.
  destruct (ingest_loop size mf (apply_mops c (firstn n buf)) (skipn n buf) rest) as [l|] eqn:El; [|discriminate].
  cbn [bind] in H. injection H as <-. destruct HD as [D1 D2]. cbn [concat] in *. apply Forall_app in Hg. destruct Hg as [G1 G2].
  destruct (chunk_ops_ids _ _ _ _ E1) as [J1 _].
  assert (Hb : forall o r, In o buf -> In r (concat rest) -> mop_id o <> fst r).
  { intros o r Ho Hr. apply in_app_or in Ho. destruct Ho as [Ho|Ho].
    - apply Hp; [exact Ho|apply in_or_app; right; exact Hr].
    - specialize (J1 o Ho). apply in_map_iff in J1. destruct J1 as (r0 & <- & Hr0). apply D1; assumption. }
  assert (W1 : In id (map mop_id o1) <-> exists new, In (id, new) (by_id ch) /\ needs_write mf new (A id)).
  { rewrite chunk_ops_map in E1. apply (map_ops_writes bound mf c c0 A HC (by_id ch) o1).
    - apply (by_id_good (fun d => wfd d)). exact G1.
    - intros i Hi. apply HA. rewrite map_app. apply in_or_app; left. apply by_id_keys; exact Hi.
    - exact E1. }
  specialize (IH (apply_mops c (firstn n buf)) (skipn n buf) l D2 G2).
  assert (W2 : In id (map mop_id l) <-> In id (map mop_id (skipn n buf)) \/ exists new, last_data id (concat rest) = Some new /\ needs_write mf new (A id)).
  { apply IH; [| |exact El].
    - intros i Hi. rewrite docs_apply_other.
      + apply HA. rewrite map_app. apply in_or_app; right; exact Hi.
      + intros o Ho He. apply in_map_iff in Hi. destruct Hi as (r & Er & Hr). apply (Hb o r); [|exact Hr|congruence].
        rewrite <- (firstn_skipn n buf). apply in_or_app; left; exact Ho.
    - intros o r Ho Hr. apply Hb; [|exact Hr]. rewrite <- (firstn_skipn n buf). apply in_or_app; right; exact Ho. }
  assert (B : In id (map mop_id (firstn n buf ++ l)) <-> In id (map mop_id buf) \/ exists new, last_data id (concat rest) = Some new /\ needs_write mf new (A id)).
  { rewrite map_app, in_app_iff, W2, <- or_assoc. rewrite <- (in_app_iff (map mop_id (firstn n buf))), <- map_app, firstn_skipn. reflexivity. }
  rewrite B. unfold buf. rewrite map_app, in_app_iff, W1, or_assoc. apply or_iff_compat_l. rewrite last_data_app.
  assert (L1 : forall new, In (id, new) (by_id ch) <-> last_data id ch = Some new).
  { intro new. split; [apply by_id_last|]. intro K. rewrite <- dget_dict_of_last in K. apply dget_In. exact K. }
  split.
  - intros [(x & K & N)|(x & K & N)].
    + apply L1 in K. destruct (last_data id (concat rest)) as [y|] eqn:E2; [|eauto].
      exfalso. apply last_data_In in K. apply last_data_In in E2. exact (D1 _ _ K E2 eq_refl).
    + rewrite K. eauto.
  - intros (x & K & N). destruct (last_data id (concat rest)) as [y|] eqn:E2; [injection K as ->; right; eauto|].
    left. exists x. split; [apply L1; exact K|exact N].
Qed.

(** ** C12 *)
(** In every state, ingesting any stream (whose repeated ids lie in one batch) generates at most one write for each id, and exactly for the ids whose
    last data in the stream need one. *)
Theorem C12_writes_exact : forall (b : Z) (ss : list step) mf recs,
  clock_increasing b ss -> Forall call_ok ss -> call_ok (SIngest mf recs) ->
  exists c os, run [] ss = Some c /\ ingest_ops INGEST_SIZE mf c recs = Some os /\ NoDup (map mop_id os) /\
    forall id, In id (map mop_id os) <-> exists new, last_data id recs = Some new /\ needs_write mf new (a_run a_empty ss id).
Proof.
  intros b ss mf recs Hc Hs Hr.
  assert (Hc2 : forall ss b, clock_increasing b ss -> clock_increasing b (ss ++ [SIngest mf recs])).
  { clear. induction ss as [|s ss IH]; intros b Hc; [exact I|]. destruct s; cbn [app clock_increasing] in *; auto.
    destruct Hc; split; auto. }
  destruct (reach b ss Hc Hs) as (c & b1 & E & HC & _).
  destruct (reach b (ss ++ [SIngest mf recs])) as (c2 & _ & E2 & _ & _); [auto|apply Forall_app; auto|].
  destruct (ingest_ops INGEST_SIZE mf c recs) as [os|] eqn:Eo.
  2:{ exfalso. rewrite run_app, E in E2. cbn in E2. unfold ingest in E2. rewrite Eo in E2. discriminate. }
  destruct Hr as [Hw Hg]. exists c, os. split; [exact E|]. split; [exact Eo|]. split; [apply (ingest_ops_ids INGEST_SIZE mf c recs os); [unfold INGEST_SIZE; lia|exact Eo|exact Hw]|].
  intro id. assert (Hsz : INGEST_SIZE >= 1) by (unfold INGEST_SIZE; lia). pose proof (partition_concat recs INGEST_SIZE Hsz) as HP.
  rewrite (loop_writes b1 INGEST_SIZE mf c _ HC (partition recs INGEST_SIZE) c [] os).
  - rewrite HP. split; [intros [[]|K]; exact K|right; assumption].
  - apply within_disjoint_loop; auto.
  - rewrite HP. exact Hg.
  - intros i Hi. reflexivity.
  - intros o r [].
  - exact Eo.
Qed.
Print Assumptions C12_writes_exact.
(** "a" is committed and its data come again: no write. "b" has pending changes: a write although the same data come again. "c" was never
    committed and comes again unchanged: none; "d" is new: a write; "e" is deleted but does not exist: none; "f" is changed: a write. *)
Example C12_writes_example :
  let x n := D [("x", VInt (Z.of_nat n))] in
  let ss := [SIngest None [(lit "a", x 1); (lit "b", x 1); (lit "f", x 1)]; SCommit 5; SIngest None [(lit "b", x 2); (lit "c", x 1)]] in
  let recs := [(lit "a", x 1); (lit "b", x 2); (lit "c", x 1); (lit "d", x 3); (lit "d", x 4); (lit "e", []); (lit "f", x 2)] in
  clock_increasing 0 ss /\ Forall call_ok ss /\ call_ok (SIngest None recs) /\
  match run [] ss with
  | Some c => option_map (map mop_id) (ingest_ops INGEST_SIZE None c recs) = Some [lit "b"; lit "d"; lit "f"]
  | None => False
  end.
Proof.
  cbv zeta.
  assert (S : forall recs, Forall (fun r => wfd (snd r)) recs -> length recs <= 200 -> call_ok (SIngest None recs)).
  { intros recs H L. split; [|exact H]. intros i j r r' Hi Hj _.
    assert (i < length recs) by (apply nth_error_Some; congruence). assert (j < length recs) by (apply nth_error_Some; congruence).
    unfold INGEST_SIZE. rewrite !Nat.div_small by lia. reflexivity. }
  split; [vm_compute; repeat split|]. split.
  - constructor; [apply S; [repeat constructor; vm_compute; reflexivity|cbn; lia]|]. constructor; [exact I|].
    constructor; [apply S; [repeat constructor; vm_compute; reflexivity|cbn; lia]|constructor].
  - split; [apply S; [repeat constructor; vm_compute; reflexivity|cbn; lia]|]. vm_compute. reflexivity.
Qed.
