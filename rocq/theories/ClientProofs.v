(** Lemmas about the client: each database evolves on its own (except for options). *)
From Coq Require Import String Ascii.
From Coq Require Import List ZArith NArith Bool Lia Sorted.
From Verif Require Import PyVal Diff DiffProofs Prepare PrepareProofs Mongo Store MongoProofs MongoStore MongoMore Client.
Import ListNotations.
Open Scope nat_scope.

Section Lemmas.
Context {O : Type} (oeq : O -> O -> bool) (odef : O).
Notation client := (client O).
Notation call := (call O).
Notation commit := (commit oeq odef).
Notation update_options := (update_options oeq).
Notation do_call := (do_call oeq odef).
Notation do_calls := (do_calls oeq odef).

(** The calls of one database, as steps on its collection. *)
Definition proj_call (name : pystr) (a : call) : list step :=
  if str_eqb (call_db a) name then
    match a with
    | CIngest _ mf recs => [SIngest mf recs]
    | CCommit _ v => [SCommit v]
    | CRollback _ => [SRollback]
    | CUpdateOptions _ _ | CRollbackOptions _ => []
    end
  else [].
Definition proj (name : pystr) (l : list call) : list step := flat_map (proj_call name) l.

Lemma update_options_data cl n o name : data (update_options cl n o) name = data cl name.
Proof.
  unfold Client.update_options. destruct (latest_options cl n) as [x|]; [destruct (oeq x o)|];
    destruct (has_uncommitted_options cl); reflexivity.
Qed.
Lemma commit_data_none v c : has_uncommitted_data c = false -> commit_data v c = c.
Proof.
  unfold has_uncommitted_data, commit_data. induction c as [|d c IH]; cbn; [reflexivity|].
  intro H. apply orb_false_iff in H. destruct H as [H1 H2]. rewrite (IH H2). f_equal.
  unfold is_pending in H1. unfold commit_doc. destruct (d_ver d); [reflexivity|discriminate].
Qed.
Lemma commit_data_of cl n v name : data (fst (commit cl n v)) name =
  if str_eqb name n then commit_data v (data cl name) else data cl name.
Proof.
  unfold Client.commit. destruct (negb (has_uncommitted cl n) && negb (has_uncommitted_options cl)) eqn:E.
  - cbn [fst]. destruct (str_eqb name n) eqn:En; [|reflexivity]. apply str_eqb_eq in En. subst n.
    apply andb_true_iff in E. destruct E as [E _]. symmetry. apply commit_data_none.
    unfold has_uncommitted in E. destruct (has_uncommitted_data (data cl name)); [discriminate|reflexivity].
  - cbn [fst set_opts set_data data].
    assert (H : data (if negb (has_options cl) && negb (has_uncommitted_options cl)
        then update_options cl n odef else cl) name = data cl name)
      by (destruct (negb (has_options cl) && negb (has_uncommitted_options cl)); rewrite ?update_options_data; reflexivity).
    destruct (str_eqb name n) eqn:En; [|exact H].
    apply str_eqb_eq in En. subst n. rewrite H. reflexivity.
Qed.

Lemma do_call_other cl a cl' name : call_db a <> name -> do_call cl a = Some cl' -> data cl' name = data cl name.
Proof.
  intros Hn H. destruct a as [n mf recs|n v|n o|n|n]; cbn [call_db Client.do_call] in *.
  - destruct (ingest _ _ _ _); [|discriminate]. injection H as <-. cbn.
    destruct (str_eqb name n) eqn:E; [apply str_eqb_eq in E; congruence|reflexivity].
  - injection H as <-. rewrite commit_data_of.
    destruct (str_eqb name n) eqn:E; [apply str_eqb_eq in E; congruence|reflexivity].
  - injection H as <-. apply update_options_data.
  - injection H as <-. reflexivity.
  - destruct (rollback _); [|discriminate]. injection H as <-. cbn.
    destruct (str_eqb name n) eqn:E; [apply str_eqb_eq in E; congruence|reflexivity].
Qed.

Lemma do_call_run cl a cl' name : do_call cl a = Some cl' ->
  run (data cl name) (proj_call name a) = Some (data cl' name).
Proof.
  intro H. unfold proj_call. destruct (str_eqb (call_db a) name) eqn:E.
  2:{ apply str_eqb_neq in E. rewrite (do_call_other _ _ _ _ E H). reflexivity. }
  apply str_eqb_eq in E. destruct a as [n mf recs|n v|n o|n|n]; cbn [call_db Client.do_call run run_step] in *; subst n.
  - destruct (ingest _ _ _ _) as [c|]; [|discriminate]. injection H as <-. cbn. rewrite str_eqb_refl. reflexivity.
  - injection H as <-. rewrite commit_data_of, str_eqb_refl. reflexivity.
  - injection H as <-. rewrite update_options_data. reflexivity.
  - injection H as <-. reflexivity.
  - destruct (rollback _) as [c|]; [|discriminate]. injection H as <-. cbn. rewrite str_eqb_refl. reflexivity.
Qed.
Lemma run_app c a b : run c (a ++ b) = bind (run c a) (fun c' => run c' b).
Proof.
  revert c. induction a as [|s a IH]; intro c; [reflexivity|]. cbn [app run].
  destruct (run_step c s) as [c'|]; [|reflexivity]. cbn [bind]. apply IH.
Qed.
Theorem do_calls_run l : forall cl cl' name, do_calls cl l = Some cl' ->
  run (data cl name) (proj name l) = Some (data cl' name).
Proof.
  induction l as [|a l IH]; intros cl cl' name H; cbn [Client.do_calls proj flat_map] in *; [injection H as <-; reflexivity|].
  destruct (do_call cl a) as [cl1|] eqn:E; [|discriminate]. cbn [bind] in H.
  rewrite run_app, (do_call_run _ _ _ name E). cbn [bind]. exact (IH cl1 cl' name H).
Qed.
Lemma do_calls_app cl a b : do_calls cl (a ++ b) = bind (do_calls cl a) (fun c => do_calls c b).
Proof.
  revert cl. induction a as [|x a IH]; intro cl; [reflexivity|]. cbn [app Client.do_calls].
  destruct (do_call cl x); [cbn [bind]; apply IH|reflexivity].
Qed.
Lemma proj_app name a b : proj name (a ++ b) = proj name a ++ proj name b.
Proof. apply flat_map_app. Qed.

(** ** Options documents *)
Lemma update_options_docs cl n o : exists app, (app = [] \/ app = [ODoc n None o]) /\
  opts (update_options cl n o) =
    (if has_uncommitted_options cl then filter (fun d => negb (o_pending d)) (opts cl) else opts cl) ++ app.
Proof.
  unfold Client.update_options. destruct (latest_options cl n) as [x|]; [destruct (oeq x o)|].
  - exists []. split; [left; reflexivity|]. rewrite app_nil_r. destruct (has_uncommitted_options cl); reflexivity.
  - exists [ODoc n None o]. split; [right; reflexivity|]. destruct (has_uncommitted_options cl); reflexivity.
  - exists [ODoc n None o]. split; [right; reflexivity|]. destruct (has_uncommitted_options cl); reflexivity.
Qed.

Lemma In_get_options (l : list (odoc O)) name : forall m v,
  In v (zkeys (fold_left (fun m d => match od_ver d with
     | Some v => if str_eqb (od_name d) name then zset m v (od_opts d) else m | None => m end) l m)) <->
  In v (zkeys m) \/ exists d, In d l /\ od_name d = name /\ od_ver d = Some v.
Proof.
  assert (K : forall (m : list (Z * O)) k x v, In v (zkeys (zset m k x)) <-> In v (zkeys m) \/ v = k).
  { unfold zkeys. induction m as [|[k0 w] m IH]; intros k x v; cbn; [intuition|].
    destruct (Z.eqb_spec k k0); cbn; [subst; intuition|]. rewrite IH. intuition. }
  induction l as [|d l IH]; intros m v; cbn [fold_left].
  - split; [auto|]. intros [H|(d & [] & _)]; exact H.
  - rewrite IH. destruct (od_ver d) as [w|] eqn:Ev; [destruct (str_eqb (od_name d) name) eqn:En|].
    + rewrite K. apply str_eqb_eq in En. split.
      * intros [[H|H]|(d' & H1 & H2)]; [auto|right; exists d; subst; auto using in_eq|right; exists d'; split; [right; exact H1|exact H2]].
      * intros [H|(d' & [<-|H1] & H2 & H3)]; [auto| |right; exists d'; auto]. left; right. congruence.
    + apply str_eqb_neq in En. split.
      * intros [H|(d' & H1 & H2)]; [auto|right; exists d'; split; [right; exact H1|exact H2]].
      * intros [H|(d' & [<-|H1] & H2 & H3)]; [auto|contradiction|right; exists d'; auto].
    + split.
      * intros [H|(d' & H1 & H2)]; [auto|right; exists d'; split; [right; exact H1|exact H2]].
      * intros [H|(d' & [<-|H1] & H2 & H3)]; [auto|congruence|right; exists d'; auto].
Qed.
Lemma get_options_versions (cl : client) name v :
  In v (zkeys (get_options cl name)) <-> exists d, In d (opts cl) /\ od_name d = name /\ od_ver d = Some v.
Proof. unfold get_options. rewrite In_get_options. cbn. split; [intros [[]|H]; exact H|auto]. Qed.

Lemma latest_none (cl : client) name : (forall d, In d (opts cl) -> od_ver d = None) -> latest_options cl name = None.
Proof.
  intro H. unfold latest_options. destruct (zmax_key (get_options cl name)) as [k|] eqn:E; [|reflexivity].
  unfold zmax_key in E. destruct (zkeys (get_options cl name)) as [|k' r] eqn:Ek; [discriminate|].
  assert (Hin : In k' (zkeys (get_options cl name))) by (rewrite Ek; left; reflexivity).
  apply get_options_versions in Hin. destruct Hin as (d & Hd & _ & Hv). rewrite (H d Hd) in Hv. discriminate.
Qed.

(** what a commit that happens does to the options documents *)
Definition commit_opts_before (cl : client) (name : pystr) : list (odoc O) :=
  if negb (has_options cl) && negb (has_uncommitted_options cl) then opts cl ++ [ODoc name None odef] else opts cl.
Lemma commit_opts cl name v : snd (commit cl name v) <> None ->
  opts (fst (commit cl name v)) = map (commit_odoc v) (commit_opts_before cl name).
Proof.
  unfold Client.commit, commit_opts_before. destruct (negb (has_uncommitted cl name) && negb (has_uncommitted_options cl)); [cbn; congruence|].
  intros _. cbn [fst opts set_opts set_data]. f_equal.
  destruct (negb (has_options cl) && negb (has_uncommitted_options cl)) eqn:E; [|reflexivity].
  apply andb_true_iff in E. destruct E as [E1 E2].
  assert (Hn : opts cl = []).
  { unfold has_options in E1. unfold has_uncommitted_options in E2. destruct (opts cl) as [|d l]; [reflexivity|].
    cbn in E1, E2. destruct (o_pending d); cbn in *; discriminate. }
  unfold Client.update_options. rewrite latest_none by (rewrite Hn; intros d []).
  destruct (has_uncommitted_options cl); [discriminate|]. reflexivity.
Qed.
Lemma commit_result cl name v : snd (commit cl name v) =
  if negb (has_uncommitted cl name) && negb (has_uncommitted_options cl) then None else Some v.
Proof. unfold Client.commit. destruct (_ && _); reflexivity. Qed.

(** committed options documents stay *)
Lemma commit_odoc_committed v d : od_ver d <> None -> commit_odoc (O := O) v d = d.
Proof. unfold commit_odoc. destruct (od_ver d); congruence. Qed.
Lemma do_call_keeps_committed cl a cl' d : do_call cl a = Some cl' -> In d (opts cl) -> od_ver d <> None -> In d (opts cl').
Proof.
  intros H Hd Hv. destruct a as [n mf recs|n v|n o|n|n]; cbn [Client.do_call] in H.
  - destruct (ingest _ _ _ _); [|discriminate]. injection H as <-. exact Hd.
  - injection H as <-. destruct (snd (commit cl n v)) eqn:E.
    + rewrite commit_opts by congruence. apply in_map_iff. exists d. split; [apply commit_odoc_committed; exact Hv|].
      unfold commit_opts_before. destruct (_ && _); [apply in_or_app; left|]; exact Hd.
    + rewrite commit_result in E. unfold Client.commit. destruct (_ && _); [exact Hd|discriminate].
  - injection H as <-. destruct (update_options_docs cl n o) as (ap & _ & ->). apply in_or_app; left.
    destruct (has_uncommitted_options cl); [|exact Hd]. apply filter_In. split; [exact Hd|].
    unfold o_pending. destruct (od_ver d); [reflexivity|congruence].
  - injection H as <-. cbn. apply filter_In. split; [exact Hd|]. unfold o_pending. destruct (od_ver d); [reflexivity|congruence].
  - destruct (rollback _); [|discriminate]. injection H as <-. exact Hd.
Qed.
Lemma do_calls_keep_committed l : forall cl cl' d, do_calls cl l = Some cl' -> In d (opts cl) -> od_ver d <> None -> In d (opts cl').
Proof.
  induction l as [|a l IH]; intros cl cl' d H Hd Hv; cbn in H; [injection H as <-; exact Hd|].
  destruct (do_call cl a) as [c1|] eqn:E; [|discriminate]. cbn [bind] in H.
  eapply IH; [exact H| |exact Hv]. eapply do_call_keeps_committed; eauto.
Qed.

(** ** max_opt *)
Lemma max_opt_acc l : forall acc, fold_left (fun acc o => match acc, o with
                          | Some a, Some b => Some (Z.max a b) | None, x => x | x, None => x end) l acc =
  match acc, max_opt l with Some a, Some b => Some (Z.max a b) | None, x => x | x, None => x end.
Proof.
  induction l as [|o l IH]; intro acc; [destruct acc; reflexivity|]. unfold max_opt. cbn [fold_left].
  rewrite IH, (IH o). destruct acc as [a|], o as [b|]; destruct (max_opt l) as [c|]; try reflexivity.
  f_equal. lia.
Qed.
Lemma max_opt_cons o l : max_opt (o :: l) =
  match o, max_opt l with Some a, Some b => Some (Z.max a b) | None, x => x | x, None => x end.
Proof. unfold max_opt at 1. cbn [fold_left]. apply max_opt_acc. Qed.
(** the greatest version in the list *)
Lemma max_opt_spec l m : max_opt l = Some m <-> In (Some m) l /\ forall w, In (Some w) l -> (w <= m)%Z.
Proof.
  assert (N : forall l, max_opt l = None <-> forall w, ~ In (Some w) l).
  { clear. induction l as [|o l IH]; [cbn; split; auto|]. rewrite max_opt_cons. destruct o as [a|], (max_opt l) as [b|].
    - split; [discriminate|]. intro H. exfalso. apply (H a). left; reflexivity.
    - split; [discriminate|]. intro H. exfalso. apply (H a). left; reflexivity.
    - split; [discriminate|]. intro H. exfalso. assert (Some b = None) by (apply IH; intros w Hw; apply (H w); right; exact Hw). discriminate.
    - split; [|reflexivity]. intros _ w [K|K]; [discriminate|]. exact (proj1 IH eq_refl w K). }
  revert m. induction l as [|o l IH]; intro m; [cbn; split; [discriminate|intros [[] _]]|].
  rewrite max_opt_cons. destruct (max_opt l) as [b|] eqn:Eb.
  - destruct (proj1 (IH b) eq_refl) as [B1 B2]. destruct o as [a|].
    + split.
      * intro H; injection H as <-. split.
        -- destruct (Z.max_spec a b) as [[_ ->]|[_ ->]]; [right; exact B1|left; reflexivity].
        -- intros w [K|K]; [injection K as <-; lia|]. specialize (B2 w K). lia.
      * intros [[K|K] H]; f_equal.
        -- injection K as <-. specialize (H b (or_intror B1)). lia.
        -- pose proof (H a (or_introl eq_refl)). pose proof (H b (or_intror B1)). specialize (B2 m K). lia.
    + split.
      * intro H; injection H as <-. split; [right; exact B1|]. intros w [K|K]; [discriminate|exact (B2 w K)].
      * intros [[K|K] H]; [discriminate|]. f_equal. specialize (H b (or_intror B1)). specialize (B2 m K). lia.
  - pose proof (proj1 (N l) Eb) as N0. destruct o as [a|].
    + split.
      * intro H; injection H as <-. split; [left; reflexivity|]. intros w [K|K]; [injection K as <-; lia|]. exfalso; exact (N0 w K).
      * intros [[K|K] _]; [exact K|exfalso; exact (N0 m K)].
    + split; [discriminate|]. intros [[K|K] _]; [discriminate|exfalso; exact (N0 m K)].
Qed.

(** versions held by the documents of a database *)
Definition doc_version (cl : client) (name : pystr) (w : Z) : Prop :=
  (exists d, In d (data cl name) /\ d_ver d = Some w) \/
  (exists d, In d (opts cl) /\ od_name d = name /\ od_ver d = Some w).
Lemma gcv_spec (cl : client) name m : get_committed_version cl name = Some m <->
  doc_version cl name m /\ forall w, doc_version cl name w -> (w <= m)%Z.
Proof.
  unfold get_committed_version.
  set (a := max_opt (map d_ver (data cl name))).
  set (b := max_opt (map od_ver (filter (fun d => str_eqb (od_name d) name) (opts cl)))).
  assert (Ha : forall w, In (Some w) (map d_ver (data cl name)) <-> exists d, In d (data cl name) /\ d_ver d = Some w).
  { intro w. rewrite in_map_iff. split; intros (d & H1 & H2); exists d; auto. }
  assert (Hb : forall w, In (Some w) (map od_ver (filter (fun d => str_eqb (od_name d) name) (opts cl))) <->
    exists d, In d (opts cl) /\ od_name d = name /\ od_ver d = Some w).
  { intro w. rewrite in_map_iff. split.
    - intros (d & H1 & H2). apply filter_In in H2. destruct H2 as [H2 H3]. apply str_eqb_eq in H3. exists d; auto.
    - intros (d & H1 & H2 & H3). exists d. split; [exact H3|]. apply filter_In. split; [exact H1|]. apply str_eqb_eq; exact H2. }
  assert (E : max_opt [a; b] = max_opt (map d_ver (data cl name) ++ map od_ver (filter (fun d => str_eqb (od_name d) name) (opts cl)))).
  { unfold a, b, max_opt at 1 4. rewrite fold_left_app. cbn [fold_left].
    fold (max_opt (map d_ver (data cl name))). rewrite (max_opt_acc (map od_ver _)).
    destruct (max_opt (map d_ver (data cl name))); reflexivity. }
  rewrite E, max_opt_spec. unfold doc_version. split.
  - intros [H1 H2]. split.
    + apply in_app_or in H1. destruct H1 as [H1|H1]; [left; apply Ha; exact H1|right; apply Hb; exact H1].
    + intros w [Hw|Hw]; apply H2; apply in_or_app; [left; apply Ha; exact Hw|right; apply Hb; exact Hw].
  - intros [H1 H2]. split.
    + apply in_or_app. destruct H1 as [H1|H1]; [left; apply Ha; exact H1|right; apply Hb; exact H1].
    + intros w Hw. apply H2. apply in_app_or in Hw. destruct Hw as [Hw|Hw]; [left; apply Ha; exact Hw|right; apply Hb; exact Hw].
Qed.
End Lemmas.

(** ** The committed history of a record only grows *)
Lemma a_step_hist A s id v x h p : a_run A [s] id = Some (AR h p) \/ True ->
  A id = Some (AR ((v, x) :: h) p) ->
  exists h' p', a_step A s id = Some (AR (h' ++ (v, x) :: h) p').
Proof.
  intros _ E. destruct s as [mf recs|w|]; cbn [a_step].
  - unfold a_ingest. destruct (last_data id recs) as [new|].
    + rewrite E. cbn [a_put]. exists [], (if same mf new x then None else Some new). reflexivity.
    + exists [], p. exact E.
  - unfold a_commit. rewrite E. destruct p as [p|].
    + exists [(w, p)], None. reflexivity.
    + exists [], None. reflexivity.
  - unfold a_rollback. rewrite E. exists [], None. reflexivity.
Qed.
Lemma a_run_hist ss : forall A id v x h p, A id = Some (AR ((v, x) :: h) p) ->
  exists h' p', a_run A ss id = Some (AR (h' ++ (v, x) :: h) p').
Proof.
  induction ss as [|s ss IH]; intros A id v x h p E; [exists [], p; exact E|].
  destruct (a_step_hist A s id v x h p (or_intror I) E) as (h1 & p1 & E1). cbn [a_run fold_left].
  fold (a_run (a_step A s) ss).
  destruct h1 as [|[w y] h1]; cbn [app] in E1.
  - exact (IH _ _ _ _ _ _ E1).
  - destruct (IH _ _ _ _ _ _ E1) as (h2 & p2 & E2). exists (h2 ++ (w, y) :: h1), p2. rewrite E2.
    f_equal. f_equal. rewrite <- app_assoc. reflexivity.
Qed.
