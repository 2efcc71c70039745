(** Properties C15, C18, C19, C20: commits, committed version, options and isolation of the
    databases of one client. *)
From Coq Require Import String Ascii.
From Coq Require Import List ZArith NArith Bool Lia Sorted.
From Verif Require Import PyVal Diff DiffProofs Prepare PrepareProofs Mongo Store MongoProofs MongoStore MongoMore PropsMongo Client ClientProofs.
Import ListNotations.
Open Scope string_scope.
Open Scope list_scope.
Open Scope nat_scope.

(** ** Specification *)

(** Something of the database [name] waits for a commit. *)
Definition pending_data {O} (cl : client O) (name : pystr) : Prop := exists d, In d (data cl name) /\ d_ver d = None.
Definition pending_opts {O} (cl : client O) (name : pystr) : Prop :=
  exists d, In d (opts cl) /\ od_name d = name /\ od_ver d = None.

(** The document after a commit at [v]: only a missing version is filled in. *)
Definition doc_committed (v : Z) (d d' : doc) : Prop :=
  d_id d' = d_id d /\ d_data d' = d_data d /\ d_diffs d' = d_diffs d /\
  d_ver d' = match d_ver d with Some w => Some w | None => Some v end.
Definition odoc_committed {O} (v : Z) (d d' : odoc O) : Prop :=
  od_name d' = od_name d /\ od_opts d' = od_opts d /\
  od_ver d' = match od_ver d with Some w => Some w | None => Some v end.

Section Props.
Context {O : Type} (oeq : O -> O -> bool) (odef : O).

Lemma pending_data_b (cl : client O) name : has_uncommitted cl name = true <-> pending_data cl name.
Proof.
  unfold has_uncommitted, has_uncommitted_data, pending_data. rewrite existsb_exists. unfold is_pending.
  split; intros (d & H1 & H2); exists d; split; trivial; destruct (d_ver d); congruence.
Qed.
Lemma pending_opts_b (cl : client O) : has_uncommitted_options cl = true <-> exists n, pending_opts cl n.
Proof.
  unfold has_uncommitted_options, pending_opts. rewrite existsb_exists. unfold o_pending. split.
  - intros (d & H1 & H2). exists (od_name d), d. destruct (od_ver d); [discriminate|]. repeat split; trivial.
  - intros (n & d & H1 & H2 & H3). exists d. split; [exact H1|]. rewrite H3. reflexivity.
Qed.
Lemma doc_committed_commit v d : doc_committed v d (commit_doc v d).
Proof. unfold doc_committed, commit_doc. destruct (d_ver d) eqn:E; cbn; rewrite ?E; auto. Qed.
Lemma odoc_committed_commit v (d : odoc O) : odoc_committed v d (commit_odoc v d).
Proof. unfold odoc_committed, commit_odoc. destruct (od_ver d) eqn:E; cbn; rewrite ?E; auto. Qed.
Lemma F2_map {A B} (P : A -> B -> Prop) (f : A -> B) l : (forall x, P x (f x)) -> Forall2 P l (map f l).
Proof. intro H. induction l; constructor; auto. Qed.

(** ** C15: what a commit does, exactly *)
Theorem C15_commit_exact : forall (cl cl' : client O) name v r, commit oeq odef cl name v = (cl', r) ->
  (r = None <-> ~ pending_data cl name /\ forall n, ~ pending_opts cl n) /\
  (r = None -> cl' = cl) /\
  (r <> None -> r = Some v /\
     Forall2 (doc_committed v) (data cl name) (data cl' name) /\
     ~ pending_data cl' name /\
     (forall n, n <> name -> data cl' n = data cl n) /\
     (forall n, ~ pending_opts cl' n) /\
     (opts cl <> [] -> Forall2 (odoc_committed v) (opts cl) (opts cl')) /\
     (opts cl = [] -> opts cl' = [ODoc name (Some v) odef])).
Proof.
  intros cl cl' name v r H.
  assert (Hr : r = snd (commit oeq odef cl name v)) by (rewrite H; reflexivity).
  assert (Hc : cl' = fst (commit oeq odef cl name v)) by (rewrite H; reflexivity). clear H.
  pose proof (pending_data_b cl name) as B1. pose proof (pending_opts_b cl) as B2.
  split; [|split].
  - rewrite Hr, commit_result. destruct (has_uncommitted cl name); destruct (has_uncommitted_options cl); cbn [negb andb].
    + split; [discriminate|]. intros [K _]. exfalso. apply K, B1; reflexivity.
    + split; [discriminate|]. intros [K _]. exfalso. apply K, B1; reflexivity.
    + split; [discriminate|]. intros [_ K]. destruct (proj1 B2 eq_refl) as (n & Hn). exfalso. exact (K n Hn).
    + split; [intros _|reflexivity]. split; [intro K; apply B1 in K; discriminate|].
      intros n K. assert (X : false = true) by (apply B2; exists n; exact K). discriminate.
  - intro Hn. rewrite Hr, commit_result in Hn. rewrite Hc. unfold commit. destruct (_ && _); [reflexivity|discriminate].
  - intro Hn. assert (Ho : opts cl' = map (commit_odoc v) (commit_opts_before odef cl name)).
    { rewrite Hc. apply commit_opts. rewrite <- Hr. exact Hn. }
    assert (Hd : forall n, data cl' n = if str_eqb n name then commit_data v (data cl n) else data cl n).
    { intro n. rewrite Hc. apply commit_data_of. }
    split; [|split; [|split; [|split; [|split; [|split]]]]].
    + rewrite Hr, commit_result in *. destruct (_ && _); congruence.
    + rewrite Hd, str_eqb_refl. apply F2_map, doc_committed_commit.
    + unfold pending_data. rewrite Hd, str_eqb_refl. intros (d & Hin & Hv). unfold commit_data in Hin. apply in_map_iff in Hin.
      destruct Hin as (d0 & <- & _). unfold commit_doc in Hv. destruct (d_ver d0) eqn:E; cbn in Hv; congruence.
    + intros n Hne. rewrite Hd. destruct (str_eqb n name) eqn:E; [apply str_eqb_eq in E; contradiction|reflexivity].
    + intros n (d & Hin & _ & Hv). rewrite Ho in Hin. apply in_map_iff in Hin.
      destruct Hin as (d0 & <- & _). unfold commit_odoc in Hv. destruct (od_ver d0) eqn:E; cbn in Hv; congruence.
    + intro Hne. rewrite Ho. unfold commit_opts_before.
      replace (negb (has_options cl) && negb (has_uncommitted_options cl)) with false.
      * apply F2_map, odoc_committed_commit.
      * unfold has_options, has_uncommitted_options. destruct (opts cl) as [|d l]; [contradiction|]. cbn.
        destruct (o_pending d); cbn; [destruct (existsb _ l)|]; reflexivity.
    + intro He. rewrite Ho. unfold commit_opts_before, has_options, has_uncommitted_options. rewrite He. reflexivity.
Qed.

(** ... in terms of this database alone, when no other database has pending options. *)
Theorem C15_commit_one_version_partial : forall (cl cl' : client O) name v r,
  (forall n, pending_opts cl n -> n = name) ->
  commit oeq odef cl name v = (cl', r) ->
  (r = None <-> ~ pending_data cl name /\ ~ pending_opts cl name) /\
  (r = None -> cl' = cl) /\
  (r <> None -> r = Some v /\
     Forall2 (doc_committed v) (data cl name) (data cl' name) /\
     (exists extra, Forall2 (odoc_committed v) (opts cl) (firstn (length (opts cl)) (opts cl')) /\
        skipn (length (opts cl)) (opts cl') = extra /\ (extra = [] \/ extra = [ODoc name (Some v) odef])) /\
     ~ pending_data cl' name /\ ~ pending_opts cl' name /\
     (forall n, n <> name -> data cl' n = data cl n)).
Proof.
  intros cl cl' name v r Hp H. destruct (C15_commit_exact cl cl' name v r H) as (H1 & H2 & H3).
  split; [|split; [exact H2|]].
  - rewrite H1. split; intros [A B]; (split; [exact A|]).
    + apply B.
    + intros n Hn. apply B. rewrite <- (Hp n Hn). exact Hn.
  - intro Hn. destruct (H3 Hn) as (A & B & C & D' & E & F & G). split; [exact A|]. split; [exact B|].
    split; [|auto]. eexists. split; [|split; [reflexivity|]].
    + destruct (opts cl) as [|o l] eqn:Eo; [constructor|].
      assert (F' : Forall2 (odoc_committed v) (o :: l) (opts cl')) by (apply F; discriminate).
      rewrite (Forall2_length _ _ _ F'), firstn_all. exact F'.
    + destruct (opts cl) as [|o l] eqn:Eo; [right; cbn; apply G; reflexivity|].
      left. assert (F' : Forall2 (odoc_committed v) (o :: l) (opts cl')) by (apply F; discriminate).
      rewrite (Forall2_length _ _ _ F'). apply skipn_all.
Qed.

(** ** C18 *)

(** The versions of all commits that still show in the database. *)
Definition committed_version (calls : list (call O)) (cl : client O) (name : pystr) (w : Z) : Prop :=
  (exists id r, a_run a_empty (proj name calls) id = Some r /\ In w (map fst (a_hist r))) \/
  (exists d, In d (opts cl) /\ od_name d = name /\ od_ver d = Some w).

Definition client_ok (name : pystr) (calls : list (call O)) : Prop :=
  clock_increasing 0 (proj name calls) /\ Forall call_ok (proj name calls).

Lemma reach_client calls cl name : client_ok name calls -> do_calls oeq odef (empty_client (O := O)) calls = Some cl ->
  exists b, crel scalar_same wfd b (data cl name) (a_run a_empty (proj name calls)).
Proof.
  intros [Hc Hs] H. destruct (reach 0 _ Hc Hs) as (c & b & E & HC & _).
  pose proof (do_calls_run oeq odef calls _ _ name H) as E'. cbn [data empty_client] in E'.
  rewrite E' in E. injection E as <-. exists b. exact HC.
Qed.

Lemma view_versions r l : Forall2 same_entry l (view r) -> map fst l = map fst (view r).
Proof. induction 1 as [|x y l l' [H _] _ IH]; cbn; congruence. Qed.


Lemma gcv_max calls cl name m : client_ok name calls -> do_calls oeq odef (empty_client (O := O)) calls = Some cl ->
  ~ pending_data cl name ->
  (get_committed_version cl name = Some m <->
   committed_version calls cl name m /\ forall w, committed_version calls cl name w -> (w <= m)%Z).
Proof.
  intros Hok H Hp. destruct (reach_client calls cl name Hok H) as (b & HC). rewrite gcv_spec.
  destruct Hok as [Hcl Hco].
  destruct (a_run_wf (proj name calls) 0 a_empty) as (b2 & Hwf); [intros i r K; discriminate|exact Hcl| |].
  { eapply Forall_impl; [|exact Hco]. intros [| |]; cbn; tauto. }
  assert (K : (forall w, doc_version cl name w -> committed_version calls cl name w) /\
              (forall w, committed_version calls cl name w -> exists w', (w <= w')%Z /\ doc_version cl name w')).
  { split.
    - intros w [(d & Hd & Hv)|Ho]; [left|right; exact Ho].
      specialize (HC (d_id d)). assert (Hin : In d (docs_of (d_id d) (data cl name)))
        by (apply filter_In; split; [exact Hd|apply str_eqb_refl]).
      destruct (docs_of (d_id d) (data cl name)) as [|d1 [|]] eqn:E; destruct (a_run a_empty (proj name calls) (d_id d)) as [r|] eqn:Er;
        try contradiction. destruct Hin as [->|[]].
      exists (d_id d), r. split; [exact Er|]. destruct r as [h [p|]].
      + destruct (rel_pend _ _ _ _ _ _ HC) as (Hn & _). congruence.
      + destruct (rel_comm _ _ _ _ _ HC) as (v & x & rest & -> & Hv' & _). cbn. left. congruence.
    - intros w [(id & r & Er & Hw)|Ho]; [|exists w; split; [lia|right; exact Ho]].
      specialize (HC id). specialize (Hwf id r Er). rewrite Er in HC.
      destruct (docs_of id (data cl name)) as [|d [|]] eqn:E; try contradiction.
      assert (Hd : In d (data cl name)).
      { assert (X : In d (docs_of id (data cl name))) by (rewrite E; left; reflexivity). apply filter_In in X. apply X. }
      destruct r as [h [p|]].
      + destruct (rel_pend _ _ _ _ _ _ HC) as (Hn & _). exfalso. apply Hp. exists d. auto.
      + destruct (rel_comm _ _ _ _ _ HC) as (v & x & rest & -> & Hv' & _).
        exists v. split; [|left; exists d; auto].
        destruct Hwf as (_ & (S1 & _) & _). cbn in Hw, S1. destruct Hw as [->|Hw]; [lia|].
        apply StronglySorted_inv in S1. destruct S1 as [_ S1]. rewrite Forall_forall in S1. specialize (S1 w Hw). lia. }
  destruct K as [K1 K2]. split; intros [H1 H2].
  - split; [exact (K1 m H1)|]. intros w Hw. destruct (K2 w Hw) as (w' & Hle & Hw'). specialize (H2 w' Hw'). lia.
  - destruct (K2 m H1) as (w' & Hle & Hw'). assert (w' = m) by (specialize (H2 w' (K1 w' Hw')); lia). subst w'.
    split; [exact Hw'|]. intros w Hw. exact (H2 w (K1 w Hw)).
Qed.

(** With no pending data it is the greatest version of any commit that shows in the database
    (a record's past versions and options included). *)
Theorem C18_committed_version_partial : forall (calls : list (call O)) cl name,
  client_ok name calls -> do_calls oeq odef (empty_client (O := O)) calls = Some cl ->
  ~ pending_data cl name ->
  forall m, get_committed_version cl name = Some m <->
    committed_version calls cl name m /\ forall w, committed_version calls cl name w -> (w <= m)%Z.
Proof. intros calls cl name Hok H Hp m. exact (gcv_max calls cl name m Hok H Hp). Qed.

(** In every state: the greatest among the newest versions of the records without pending changes and the versions of the options. *)
Definition newest_version (calls : list (call O)) (name id : pystr) (w : Z) (p : option dict) : Prop :=
  exists x h, a_run a_empty (proj name calls) id = Some (AR ((w, x) :: h) p).
Definition shown_version (calls : list (call O)) (cl : client O) (name : pystr) (w : Z) : Prop :=
  (exists id, newest_version calls name id w None) \/ (exists d, In d (opts cl) /\ od_name d = name /\ od_ver d = Some w).

Lemma shown_docs calls cl name w : client_ok name calls -> do_calls oeq odef (empty_client (O := O)) calls = Some cl ->
  doc_version cl name w <-> shown_version calls cl name w.
Proof.
  intros Hok H. destruct (reach_client calls cl name Hok H) as (b & HC). split.
  - intros [(d & Hd & Hv)|Ho]; [left|right; exact Ho]. specialize (HC (d_id d)).
    assert (Hin : In d (docs_of (d_id d) (data cl name))) by (apply filter_In; split; [exact Hd|apply str_eqb_refl]).
    exists (d_id d). unfold newest_version.
    destruct (docs_of (d_id d) (data cl name)) as [|d1 [|]] eqn:E; destruct (a_run a_empty (proj name calls) (d_id d)) as [r|] eqn:Er;
      try contradiction. destruct Hin as [->|[]]. destruct r as [h [p|]].
    + destruct (rel_pend _ _ _ _ _ _ HC) as (Hn & _). congruence.
    + destruct (rel_comm _ _ _ _ _ HC) as (v & x & rest & -> & Hv' & _). exists x, rest. congruence.
  - intros [(id & x & h & Er)|Ho]; [left|right; exact Ho]. specialize (HC id). rewrite Er in HC.
    destruct (docs_of id (data cl name)) as [|d [|]] eqn:E; try contradiction. exists d. split.
    + assert (X : In d (docs_of id (data cl name))) by (rewrite E; left; reflexivity). apply filter_In in X. apply X.
    + destruct (rel_comm _ _ _ _ _ HC) as (v & x' & rest & Eh & Hv' & _). congruence.
Qed.
Lemma max_opt_none l : max_opt l = None <-> forall w, ~ In (Some w) l.
Proof.
  split.
  - induction l as [|o l IH]; intros E w; [intros []|]. rewrite max_opt_cons in E. destruct o as [a|]; [destruct (max_opt l); discriminate|].
    intros [K|K]; [discriminate|exact (IH E w K)].
  - intro N. destruct (max_opt l) as [m|] eqn:E; [|reflexivity]. apply max_opt_spec in E. destruct (N m (proj1 E)).
Qed.
Lemma gcv_none (cl : client O) name : get_committed_version cl name = None <-> forall w, ~ doc_version cl name w.
Proof.
  split.
  - intros E w Hw. unfold get_committed_version in E. destruct (max_opt (map d_ver (data cl name))) as [a|] eqn:Ea;
      destruct (max_opt (map od_ver _)) as [c|] eqn:Ec; try discriminate.
    rewrite max_opt_none in Ea, Ec. destruct Hw as [(d & Hd & Hv)|(d & Hd & Hn & Hv)].
    + apply (Ea w). apply in_map_iff. exists d. auto.
    + apply (Ec w). apply in_map_iff. exists d. split; [exact Hv|]. apply filter_In. split; [exact Hd|apply str_eqb_eq; exact Hn].
  - intro N. destruct (get_committed_version cl name) as [m|] eqn:E; [|reflexivity]. apply gcv_spec in E. destruct (N m (proj1 E)).
Qed.
Theorem C18_committed_version_exact : forall (calls : list (call O)) cl name,
  client_ok name calls -> do_calls oeq odef (empty_client (O := O)) calls = Some cl ->
  (forall m, get_committed_version cl name = Some m <->
     shown_version calls cl name m /\ forall w, shown_version calls cl name w -> (w <= m)%Z) /\
  (get_committed_version cl name = None <-> forall w, ~ shown_version calls cl name w).
Proof.
  intros calls cl name Hok H. pose proof (fun w => shown_docs calls cl name w Hok H) as S. split.
  - intro m. rewrite gcv_spec, S. split; intros [H1 H2]; (split; [exact H1|]); intros w Hw; apply H2, S, Hw.
  - rewrite gcv_none. split; intros N w Hw; apply (N w), S, Hw.
Qed.

Lemma client_ok_prefix name calls more : client_ok name (calls ++ more) -> client_ok name calls.
Proof.
  intros [Hcl Hco]. unfold client_ok. rewrite proj_app in *. split.
  - clear - Hcl. revert Hcl. generalize 0%Z. induction (proj name calls) as [|s ss IH]; intros z Hz; [exact I|].
    destruct s; cbn in *; [exact (IH _ Hz)| |exact (IH _ Hz)]. destruct Hz; split; auto.
  - apply Forall_app in Hco. apply Hco.
Qed.
Lemma committed_version_later calls more cl cl' name w :
  do_calls oeq odef (empty_client (O := O)) calls = Some cl -> do_calls oeq odef cl more = Some cl' ->
  committed_version calls cl name w -> committed_version (calls ++ more) cl' name w.
Proof.
  intros H H' [(id & [h p] & Er & Hw)|(d & H1 & H2 & H3)].
  - left. cbn in Hw. destruct h as [|[v x] h]; [contradiction|].
    destruct (a_run_hist (proj name more) _ _ _ _ _ _ Er) as (h' & p' & E).
    exists id, (AR (h' ++ (v, x) :: h) p'). split.
    + rewrite proj_app. unfold a_run in *. rewrite fold_left_app. exact E.
    + cbn. rewrite map_app. apply in_or_app; right. exact Hw.
  - right. exists d. split; [|auto]. eapply do_calls_keep_committed; [exact H'|exact H1|congruence].
Qed.

(** ... so between two moments without pending data it never goes backwards, whatever calls on
    whatever databases happen in between. *)
Theorem C18_never_backwards_partial : forall (calls more : list (call O)) cl cl' name m,
  client_ok name (calls ++ more) ->
  do_calls oeq odef (empty_client (O := O)) calls = Some cl -> do_calls oeq odef cl more = Some cl' ->
  ~ pending_data cl name -> ~ pending_data cl' name ->
  get_committed_version cl name = Some m ->
  exists m', get_committed_version cl' name = Some m' /\ (m <= m')%Z.
Proof.
  intros calls more cl cl' name m [Hcl Hco] H H' Hp Hp' Hm.
  assert (Happ : do_calls oeq odef (empty_client (O := O)) (calls ++ more) = Some cl').
  { rewrite do_calls_app, H. exact H'. }
  pose proof (client_ok_prefix name calls more (conj Hcl Hco)) as Hok.
  apply (gcv_max calls cl name m Hok H Hp) in Hm. destruct Hm as [Hm _].
  apply (committed_version_later calls more cl cl' name m H H') in Hm.
  destruct (get_committed_version cl' name) as [m'|] eqn:E.
  - exists m'. split; [reflexivity|]. apply (gcv_max (calls ++ more) cl' name m' (conj Hcl Hco) Happ Hp') in E. apply E, Hm.
  - exfalso.
    assert (Hmax : exists z, doc_version cl' name z).
    { destruct Hm as [(id & r & Er & Hw)|Ho]; [|exists m; right; exact Ho].
      destruct (reach_client (calls ++ more) cl' name (conj Hcl Hco) Happ) as (b & HC). specialize (HC id). rewrite Er in HC.
      destruct (docs_of id (data cl' name)) as [|d [|]] eqn:Ed; try contradiction.
      assert (Hd : In d (data cl' name)).
      { assert (X : In d (docs_of id (data cl' name))) by (rewrite Ed; left; reflexivity). apply filter_In in X. apply X. }
      destruct (d_ver d) as [z|] eqn:Ev; [exists z; left; exists d; auto|]. exfalso. apply Hp'. exists d. auto. }
    destruct Hmax as (z & Hz).
    assert (X : forall l w, In (Some w) l -> max_opt l <> None).
    { induction l as [|o l IH]; intros w Hi; [contradiction|]. rewrite max_opt_cons. destruct Hi as [->|Hi]; [destruct (max_opt l); discriminate|].
      specialize (IH w Hi). destruct o; destruct (max_opt l); congruence. }
    unfold get_committed_version in E.
    destruct Hz as [(d & Hd & Hv)|(d & Hd & Hn & Hv)].
    + assert (max_opt (map d_ver (data cl' name)) <> None).
      { apply (X _ z). rewrite <- Hv. apply in_map. exact Hd. }
      rewrite max_opt_cons in E. destruct (max_opt (map d_ver (data cl' name))); [|congruence].
      destruct (max_opt [_]); discriminate.
    + assert (max_opt (map od_ver (filter (fun d => str_eqb (od_name d) name) (opts cl'))) <> None).
      { apply (X _ z). rewrite <- Hv. apply in_map. apply filter_In. split; [exact Hd|]. rewrite Hn. apply str_eqb_refl. }
      rewrite max_opt_cons, max_opt_cons in E. cbn in E.
      destruct (max_opt (map od_ver (filter (fun d => str_eqb (od_name d) name) (opts cl')))); [|congruence].
      destruct (max_opt (map d_ver (data cl' name))); discriminate.
Qed.

(** In any case, it becomes lower only while every record whose newest version was the one given has pending changes (and no options have that version). *)
Theorem C18_lowered_by_pending : forall (calls more : list (call O)) cl cl' name m,
  client_ok name (calls ++ more) ->
  do_calls oeq odef (empty_client (O := O)) calls = Some cl -> do_calls oeq odef cl more = Some cl' ->
  get_committed_version cl name = Some m ->
  (forall m', get_committed_version cl' name = Some m' -> (m' < m)%Z) ->
  (exists id, newest_version calls name id m None) /\
  (forall id, newest_version calls name id m None -> exists h p, a_run a_empty (proj name (calls ++ more)) id = Some (AR h (Some p))) /\
  (forall d, In d (opts cl) -> od_name d = name -> od_ver d <> Some m).
Proof.
  intros calls more cl cl' name m Hok' H H' Hm Hlow.
  assert (Happ : do_calls oeq odef (empty_client (O := O)) (calls ++ more) = Some cl') by (rewrite do_calls_app, H; exact H').
  pose proof (client_ok_prefix name calls more Hok') as Hok.
  destruct (C18_committed_version_exact (calls ++ more) cl' name Hok' Happ) as [X XN].
  apply (C18_committed_version_exact calls cl name Hok H) in Hm. destruct Hm as [Hm _].
  assert (Up : forall w, shown_version (calls ++ more) cl' name w -> (m <= w)%Z -> False).
  { intros w Hw Lw. destruct (get_committed_version cl' name) as [m'|] eqn:E; [|exact (proj1 XN eq_refl w Hw)].
    destruct (proj1 (X m') eq_refl) as [_ K]. specialize (K w Hw). specialize (Hlow m' eq_refl). lia. }
  assert (Op : forall d, In d (opts cl) -> od_name d = name -> od_ver d <> Some m).
  { intros d Hd Hn Hv. apply (Up m); [|lia]. right. exists d. split; [|auto]. eapply do_calls_keep_committed; [exact H'|exact Hd|congruence]. }
  split; [|split; [|exact Op]].
  - destruct Hm as [Hm|(d & Hd & Hn & Hv)]; [exact Hm|destruct (Op d Hd Hn Hv)].
  - intros id (x & h & Er). destruct (a_run_hist (proj name more) _ _ _ _ _ _ Er) as (h' & p' & E).
    assert (E' : a_run a_empty (proj name (calls ++ more)) id = Some (AR (h' ++ (m, x) :: h) p')).
    { rewrite proj_app. unfold a_run in *. rewrite fold_left_app. exact E. }
    destruct p' as [p|]; [exists (h' ++ (m, x) :: h), p; exact E'|exfalso]. destruct Hok' as [Hcl Hco].
    destruct (a_run_wf (proj name (calls ++ more)) 0 a_empty) as (b2 & Hwf); [intros i r K; discriminate|exact Hcl| |].
    { eapply Forall_impl; [|exact Hco]. intros [| |]; cbn; tauto. }
    destruct (Hwf id _ E') as (_ & (S1 & _) & _). cbn [a_hist] in S1.
    destruct h' as [|[w y] h']; cbn [app] in *.
    + apply (Up m); [left; exists id, x, h; exact E'|lia].
    + apply (Up w); [left; exists id, y, (h' ++ (m, x) :: h); exact E'|]. cbn [map fst] in S1. apply StronglySorted_inv in S1. destruct S1 as [_ S1].
      rewrite Forall_forall in S1. specialize (S1 m). assert (K : In m (map fst (h' ++ (m, x) :: h))) by (rewrite map_app; apply in_or_app; right; left; reflexivity). specialize (S1 K). lia.
Qed.

(** A commit that commits something of this database, with a clock value above the versions
    already there, is reported at once. *)
Theorem C18_commit_is_reported : forall (cl cl' : client O) name v,
  commit oeq odef cl name v = (cl', Some v) ->
  (pending_data cl name \/ pending_opts cl name) ->
  (forall w, doc_version cl name w -> (w < v)%Z) ->
  get_committed_version cl' name = Some v.
Proof.
  intros cl cl' name v H Hp Hv. destruct (C15_commit_exact cl cl' name v (Some v) H) as (_ & _ & H3).
  destruct (H3 ltac:(discriminate)) as (_ & F & _ & _ & _ & G1 & G2).
  apply gcv_spec. split.
  - destruct Hp as [(d & Hd & Hn)|(d & Hd & Hname & Hn)].
    + destruct (In_nth_error _ _ Hd) as (i & Hi).
      left. clear - F Hi Hn. revert i Hi. induction F as [|x y l l' Hxy F IH]; intros i Hi; [destruct i; discriminate|].
      destruct i; cbn in Hi.
      * injection Hi as ->. destruct Hxy as (_ & _ & _ & Hxy). rewrite Hn in Hxy. exists y. split; [left; reflexivity|exact Hxy].
      * destruct (IH i Hi) as (d' & H1 & H2). exists d'. split; [right; exact H1|exact H2].
    + right. assert (F' : Forall2 (odoc_committed v) (opts cl) (opts cl')).
      { apply G1. intro K. rewrite K in Hd. exact Hd. }
      clear - F' Hd Hname Hn. induction F' as [|x y l l' Hxy F IH]; [contradiction|]. destruct Hd as [->|Hd].
      * destruct Hxy as (H1 & _ & H2). rewrite Hn in H2. exists y. split; [left; reflexivity|]. split; [congruence|exact H2].
      * destruct (IH Hd) as (d' & H1 & H2). exists d'. split; [right; exact H1|exact H2].
  - assert (L1 : forall d', In d' (data cl' name) -> exists d, In d (data cl name) /\ doc_committed v d d').
    { clear - F. induction F as [|x y l l' Hxy F IH]; intros d' Hd; [contradiction|]. destruct Hd as [->|Hd].
      - exists x. split; [left; reflexivity|exact Hxy].
      - destruct (IH d' Hd) as (d & H1 & H2). exists d. split; [right; exact H1|exact H2]. }
    intros w [(d' & Hd & Hw)|(d' & Hd & Hname & Hw)].
    + destruct (L1 d' Hd) as (d & Hd0 & (_ & _ & _ & E)). destruct (d_ver d) as [z|] eqn:Ez.
      * assert (z < v)%Z by (apply Hv; left; exists d; auto). rewrite E in Hw. injection Hw as <-. lia.
      * rewrite E in Hw. injection Hw as <-. lia.
    + destruct (opts cl) as [|o l] eqn:Eo.
      * rewrite (G2 eq_refl) in Hd. destruct Hd as [<-|[]]. cbn in Hw. injection Hw as <-. lia.
      * assert (F' : Forall2 (odoc_committed v) (opts cl) (opts cl')) by (rewrite Eo; apply G1; discriminate).
        assert (L2 : exists d, In d (opts cl) /\ odoc_committed v d d').
        { clear - F' Hd. induction F' as [|x y l1 l2 Hxy F IH]; [contradiction|]. destruct Hd as [->|Hd].
          - exists x. split; [left; reflexivity|exact Hxy].
          - destruct (IH Hd) as (d & H1 & H2). exists d. split; [right; exact H1|exact H2]. }
        destruct L2 as (d & Hd0 & (En & _ & E)). destruct (od_ver d) as [z|] eqn:Ez.
        -- assert (z < v)%Z by (apply Hv; right; exists d; split; [exact Hd0|split; [congruence|exact Ez]]).
           rewrite E in Hw. injection Hw as <-. lia.
        -- rewrite E in Hw. injection Hw as <-. lia.
Qed.

(** ** C19: with one database per options collection *)
Theorem C19_options_exist_partial : forall (cl cl' : client O) name v,
  (forall d, In d (opts cl) -> od_name d = name) ->
  commit oeq odef cl name v = (cl', Some v) ->
  get_options cl' name <> [].
Proof.
  intros cl cl' name v Hn H. destruct (C15_commit_exact cl cl' name v (Some v) H) as (_ & _ & H3).
  destruct (H3 ltac:(discriminate)) as (_ & _ & _ & _ & _ & G1 & G2).
  assert (X : exists w, In w (zkeys (get_options cl' name))).
  2:{ destruct X as (w & X). intro E. rewrite E in X. exact X. }
  destruct (opts cl) as [|o l] eqn:Eo.
  - exists v. apply (proj2 (get_options_versions oeq odef _ _ _)). exists (ODoc name (Some v) odef). rewrite (G2 eq_refl). cbn. auto.
  - assert (F' : Forall2 (odoc_committed v) (o :: l) (opts cl')) by (apply G1; discriminate).
    inversion F' as [|? o' ? l' (E1 & _ & E2) _ Ea Eb]; subst.
    exists (match od_ver o with Some w => w | None => v end). apply (proj2 (get_options_versions oeq odef _ _ _)). exists o'.
    split; [first [rewrite <- Eb|idtac]; left; reflexivity|]. split; [rewrite E1; apply Hn; left; reflexivity|].
    rewrite E2. destruct (od_ver o); reflexivity.
Qed.

(** Exactly: after a successful commit a database has options iff it had some, committed or not, or the
    options collection was empty (no database of the client had any). *)
Theorem C19_exact : forall (cl cl' : client O) name v n, commit oeq odef cl name v = (cl', Some v) ->
  (get_options cl' n <> [] <-> (exists d, In d (opts cl) /\ od_name d = n) \/ (opts cl = [] /\ n = name)) /\
  (opts cl = [] -> get_options cl' name = [(v, odef)]).
Proof.
  intros cl cl' name v n H. destruct (C15_commit_exact cl cl' name v (Some v) H) as (_ & _ & H3).
  destruct (H3 ltac:(discriminate)) as (_ & _ & _ & _ & _ & G1 & G2).
  assert (X : get_options cl' n <> [] <-> exists w, In w (zkeys (get_options cl' n))).
  { destruct (get_options cl' n) as [|[w o] l]; cbn; split; try congruence; [intros (w & []) |exists w; left; reflexivity]. }
  assert (Y : forall o0 : O, zkeys [(v, o0)] = [v]) by reflexivity.
  split.
  - rewrite X. destruct (opts cl) as [|o l] eqn:Eo.
    + specialize (G2 eq_refl). split.
      * intros (w & Hw). apply (proj1 (get_options_versions oeq odef _ _ _)) in Hw. destruct Hw as (d & Hd & Hn & _). rewrite G2 in Hd. destruct Hd as [<-|[]]. right. split; [reflexivity|symmetry; exact Hn].
      * intros [(d & [] & _)|(_ & ->)]. exists v. apply (proj2 (get_options_versions oeq odef _ _ _)). exists (ODoc name (Some v) odef). rewrite G2. cbn. auto.
    + assert (F' : Forall2 (odoc_committed v) (o :: l) (opts cl')) by (apply G1; discriminate). split.
      * intros (w & Hw). apply (proj1 (get_options_versions oeq odef _ _ _)) in Hw. destruct Hw as (d' & Hd' & Hn & _). left.
        clear - F' Hd' Hn. induction F' as [|a b la lb (E1 & _) _ IH]; [destruct Hd'|]. destruct Hd' as [->|Hd'].
        -- exists a. split; [left; reflexivity|congruence].
        -- destruct (IH Hd') as (d & Hd & E). exists d. split; [right; exact Hd|exact E].
      * intros [(d & Hd & Hn)|(K & _)]; [|discriminate K].
        assert (Z : exists d', In d' (opts cl') /\ od_name d' = n /\ od_ver d' <> None).
        { clear - F' Hd Hn. induction F' as [|a b la lb (E1 & _ & E2) _ IH]; [destruct Hd|]. destruct Hd as [->|Hd].
          - exists b. split; [left; reflexivity|]. split; [congruence|]. rewrite E2. destruct (od_ver d); discriminate.
          - destruct (IH Hd) as (d' & Hd' & E). exists d'. split; [right; exact Hd'|exact E]. }
        destruct Z as (d' & Hd' & Hn' & Hv'). destruct (od_ver d') as [w|] eqn:Ew; [|congruence]. exists w. apply (proj2 (get_options_versions oeq odef _ _ _)). exists d'. auto.
  - intro Eo. unfold get_options. rewrite (G2 Eo). cbn. rewrite str_eqb_refl. reflexivity.
Qed.

(** ** C20 *)
(** Data are isolated always; committed options are never changed or removed by any call; the
    pending options of a database survive calls on others only when it has none. *)
Definition opts_of (cl : client O) (name : pystr) : list (odoc O) :=
  filter (fun d => str_eqb (od_name d) name) (opts cl).

Theorem C20_isolation_partial : forall (calls : list (call O)) cl cl' name,
  (forall a, In a calls -> call_db a <> name) ->
  do_calls oeq odef cl calls = Some cl' ->
  data cl' name = data cl name /\
  (forall d, In d (opts cl) -> od_ver d <> None -> In d (opts cl')) /\
  (~ pending_opts cl name -> opts_of cl' name = opts_of cl name /\
     get_committed_version cl' name = get_committed_version cl name /\
     get_options cl' name = get_options cl name).
Proof.
  intros calls. induction calls as [|a calls IH]; intros cl cl' name Hc H; cbn in H; [injection H as <-; auto|].
  destruct (do_call oeq odef cl a) as [c1|] eqn:E; [|discriminate]. cbn [bind] in H.
  assert (Ha : call_db a <> name) by (apply Hc; left; reflexivity).
  pose proof (do_call_other oeq odef _ _ _ _ Ha E) as D1.
  assert (O1 : ~ pending_opts cl name -> opts_of c1 name = opts_of cl name).
  { intro Hp.
    assert (Hcm : forall v (l : list (odoc O)), (forall d, In d l -> od_name d = name -> od_ver d <> None) ->
      filter (fun d => str_eqb (od_name d) name) (map (commit_odoc v) l) = filter (fun d => str_eqb (od_name d) name) l).
    { intros v. induction l as [|d l IHl]; intro HF; [reflexivity|]. cbn [map filter].
      rewrite IHl by (intros; apply HF; [right|]; assumption).
      destruct (odoc_committed_commit v d) as (En & _). rewrite En.
      destruct (str_eqb (od_name d) name) eqn:En'; [|reflexivity]. apply str_eqb_eq in En'. f_equal.
      apply commit_odoc_committed. apply HF; [left; reflexivity|exact En']. }
    assert (Hfl : forall (l : list (odoc O)), (forall d, In d l -> od_name d = name -> od_ver d <> None) ->
      filter (fun d => str_eqb (od_name d) name) (filter (fun d => negb (o_pending d)) l) = filter (fun d : odoc O => str_eqb (od_name d) name) l).
    { induction l as [|d l IHl]; intro HF; [reflexivity|]. cbn [filter].
      assert (IHl' := IHl ltac:(intros; apply HF; [right|]; assumption)).
      destruct (o_pending d) eqn:Ep; cbn [negb filter].
      - destruct (str_eqb (od_name d) name) eqn:En; [|exact IHl']. exfalso. apply str_eqb_eq in En.
        apply (HF d (or_introl eq_refl) En). unfold o_pending in Ep. destruct (od_ver d); [discriminate|reflexivity].
      - rewrite IHl'. reflexivity. }
    assert (HF : forall d, In d (opts cl) -> od_name d = name -> od_ver d <> None).
    { intros d H1 H2 H3. apply Hp. exists d; auto. }
    unfold opts_of. destruct a as [n mf recs|n v|n o|n|n]; cbn [do_call call_db] in *.
    - destruct (ingest _ _ _ _); [|discriminate]. injection E as <-. reflexivity.
    - injection E as <-. destruct (snd (commit oeq odef cl n v)) eqn:Er.
      + rewrite commit_opts by congruence. unfold commit_opts_before.
        destruct (negb (has_options cl) && negb (has_uncommitted_options cl)).
        * rewrite map_app, filter_app, (Hcm v (opts cl) HF). cbn.
          destruct (str_eqb n name) eqn:En; [apply str_eqb_eq in En; contradiction|]. apply app_nil_r.
        * apply Hcm, HF.
      + rewrite commit_result in Er. unfold commit. destruct (_ && _); [reflexivity|discriminate].
    - injection E as <-. destruct (update_options_docs oeq cl n o) as (ap & Hap & ->). rewrite filter_app.
      replace (filter (fun d => str_eqb (od_name d) name) ap) with (@nil (odoc O)).
      + rewrite app_nil_r. destruct (has_uncommitted_options cl); [apply Hfl, HF|reflexivity].
      + destruct Hap as [->| ->]; [reflexivity|]. cbn. destruct (str_eqb n name) eqn:En; [apply str_eqb_eq in En; contradiction|reflexivity].
    - injection E as <-. apply Hfl, HF.
    - destruct (rollback _); [|discriminate]. injection E as <-. reflexivity. }
  destruct (IH c1 cl' name (fun x Hx => Hc x (or_intror Hx)) H) as (I1 & I2 & I3).
  split; [congruence|]. split.
  { intros d Hd Hv. apply I2; [|exact Hv]. exact (do_call_keeps_committed oeq odef cl a c1 d E Hd Hv). }
  intro Hp. specialize (O1 Hp).
  assert (Hp1 : ~ pending_opts c1 name).
  { intros (d & H1 & H2 & H3). apply Hp. assert (X : In d (opts_of c1 name)).
    { apply filter_In. split; [exact H1|]. apply str_eqb_eq; exact H2. }
    rewrite O1 in X. apply filter_In in X. destruct X as [X _]. exists d; auto. }
  destruct (I3 Hp1) as (J1 & _ & _). assert (J : opts_of cl' name = opts_of cl name) by congruence.
  split; [exact J|]. split.
  - unfold get_committed_version, opts_of in *. rewrite I1, D1, J. reflexivity.
  - assert (G : forall l m, fold_left (fun m d => match od_ver d with
        | Some v => if str_eqb (od_name d) name then zset m v (od_opts d) else m | None => m end) l m =
      fold_left (fun m (d : odoc O) => match od_ver d with Some v => zset m v (od_opts d) | None => m end)
        (filter (fun d => str_eqb (od_name d) name) l) m).
    { clear. induction l as [|d l IHl]; intro m; [reflexivity|]. cbn [fold_left filter].
      destruct (str_eqb (od_name d) name); cbn [fold_left]; rewrite IHl; destruct (od_ver d); reflexivity. }
    unfold get_options. rewrite !G. unfold opts_of in J. rewrite J. reflexivity.
Qed.
(** What happens to the pending options of a database is decided by the first call on another one that is a commit or a change of options: a commit
    commits them at its version, [update_options] and [rollback_options] drop them. Nothing else of the database changes. *)
Inductive fate := Kept | CommittedAt (v : Z) | Dropped.
Fixpoint fate_of (calls : list (call O)) : fate :=
  match calls with
  | [] => Kept
  | (CIngest _ _ _ | CRollback _) :: r => fate_of r
  | CCommit _ v :: _ => CommittedAt v
  | (CUpdateOptions _ _ | CRollbackOptions _) :: _ => Dropped
  end.
Definition meets_fate (f : fate) (d : odoc O) : list (odoc O) :=
  match od_ver d, f with
  | None, CommittedAt v => [ODoc (od_name d) (Some v) (od_opts d)]
  | None, Dropped => []
  | _, _ => [d]
  end.

Lemma fate_kept (l : list (odoc O)) : flat_map (meets_fate Kept) l = l.
Proof. induction l as [|d l IH]; [reflexivity|]. cbn [flat_map]. rewrite IH. unfold meets_fate. destruct (od_ver d); reflexivity. Qed.
Lemma fate_committed v name (l : list (odoc O)) :
  filter (fun d => str_eqb (od_name d) name) (map (commit_odoc v) l) = flat_map (meets_fate (CommittedAt v)) (filter (fun d => str_eqb (od_name d) name) l).
Proof.
  induction l as [|d l IH]; [reflexivity|]. cbn [map filter]. rewrite IH. destruct (odoc_committed_commit v d) as (-> & _).
  destruct (str_eqb (od_name d) name); [|reflexivity]. cbn [flat_map]. unfold meets_fate, commit_odoc. destruct (od_ver d); reflexivity.
Qed.
Lemma fate_dropped name (l : list (odoc O)) :
  filter (fun d => str_eqb (od_name d) name) (filter (fun d => negb (o_pending d)) l) = flat_map (meets_fate Dropped) (filter (fun d => str_eqb (od_name d) name) l).
Proof.
  induction l as [|d l IH]; [reflexivity|]. cbn [filter]. unfold o_pending at 1. destruct (od_ver d) eqn:E; cbn [negb filter]; destruct (str_eqb (od_name d) name);
    cbn [flat_map]; rewrite IH; unfold meets_fate; rewrite ?E; reflexivity.
Qed.
Lemma no_pending_fate f name (cl : client O) : ~ pending_opts cl name -> flat_map (meets_fate f) (opts_of cl name) = opts_of cl name.
Proof.
  intro Hp. assert (K : forall d, In d (opts_of cl name) -> od_ver d <> None).
  { intros d Hd E. apply filter_In in Hd. destruct Hd as [H1 H2]. apply str_eqb_eq in H2. apply Hp. exists d. auto. }
  revert K. induction (opts_of cl name) as [|d l IH]; intro K; [reflexivity|]. cbn [flat_map]. rewrite IH by (intros; apply K; right; assumption).
  specialize (K d (or_introl eq_refl)). unfold meets_fate. destruct (od_ver d); [reflexivity|contradiction].
Qed.
Theorem C20_isolation_exact : forall (calls : list (call O)) cl cl' name,
  (forall a, In a calls -> call_db a <> name) ->
  do_calls oeq odef cl calls = Some cl' ->
  data cl' name = data cl name /\ opts_of cl' name = flat_map (meets_fate (fate_of calls)) (opts_of cl name).
Proof.
  intros calls cl cl' name Hc H. split; [apply (C20_isolation_partial calls cl cl' name Hc H)|]. revert cl H.
  induction calls as [|a calls IH]; intros cl H; cbn in H; [injection H as <-; symmetry; apply fate_kept|].
  destruct (do_call oeq odef cl a) as [c1|] eqn:E; [|discriminate]. cbn [bind] in H.
  assert (Ha : call_db a <> name) by (apply Hc; left; reflexivity).
  assert (Hc' : forall x, In x calls -> call_db x <> name) by (intros x Hx; apply Hc; right; exact Hx).
  assert (Rest : ~ pending_opts c1 name -> opts_of cl' name = opts_of c1 name) by (intro K; apply (C20_isolation_partial calls c1 cl' name Hc' H), K).
  assert (NP : forall f, f <> Kept -> opts_of c1 name = flat_map (meets_fate f) (opts_of cl name) -> opts_of cl' name = flat_map (meets_fate f) (opts_of cl name)).
  { intros f Hf K. rewrite <- K. apply Rest. intros (d & H1 & H2 & H3).
    assert (X : In d (opts_of c1 name)) by (apply filter_In; split; [exact H1|apply str_eqb_eq; exact H2]).
    rewrite K in X. apply in_flat_map in X. destruct X as (d0 & _ & X). unfold meets_fate in X.
    destruct (od_ver d0) eqn:E0, f; cbn in X; try (destruct X as [<-|[]]; cbn in H3; congruence); try contradiction. }
  unfold opts_of in *. destruct a as [n mf recs|n v|n o|n|n]; cbn [do_call call_db fate_of] in *.
  - destruct (ingest _ _ _ _); [|discriminate]. injection E as <-. exact (IH Hc' _ H).
  - apply NP; [discriminate|]. injection E as <-. destruct (snd (commit oeq odef cl n v)) eqn:Er.
    + rewrite commit_opts by congruence. unfold commit_opts_before. rewrite <- fate_committed.
      destruct (negb (has_options cl) && negb (has_uncommitted_options cl)); [|reflexivity]. rewrite map_app, filter_app. cbn.
      destruct (str_eqb n name) eqn:En; [apply str_eqb_eq in En; contradiction|]. apply app_nil_r.
    + destruct (commit oeq odef cl n v) as [c2 r] eqn:Ec. cbn in Er. subst r. destruct (C15_commit_exact cl c2 n v None Ec) as (K1 & K2 & _).
      cbn [fst]. rewrite (K2 eq_refl). symmetry. apply no_pending_fate. apply (proj1 K1 eq_refl).
  - apply NP; [discriminate|]. injection E as <-. destruct (update_options_docs oeq cl n o) as (ap & Hap & ->). rewrite filter_app.
    replace (filter (fun d => str_eqb (od_name d) name) ap) with (@nil (odoc O)).
    + rewrite app_nil_r. destruct (has_uncommitted_options cl) eqn:Eu; [apply fate_dropped|]. symmetry. apply no_pending_fate.
      intro K. assert (X : has_uncommitted_options cl = true) by (apply pending_opts_b; exists name; exact K). congruence.
    + destruct Hap as [->| ->]; [reflexivity|]. cbn. destruct (str_eqb n name) eqn:En; [apply str_eqb_eq in En; contradiction|reflexivity].
  - apply NP; [discriminate|]. injection E as <-. apply fate_dropped.
  - destruct (rollback _); [|discriminate]. injection E as <-. exact (IH Hc' _ H).
Qed.
End Props.

Print Assumptions C15_commit_exact.
Print Assumptions C15_commit_one_version_partial.
Print Assumptions C18_committed_version_partial.
Print Assumptions C18_never_backwards_partial.
Print Assumptions C18_commit_is_reported.
Print Assumptions C18_committed_version_exact.
Print Assumptions C18_lowered_by_pending.
Print Assumptions C19_options_exist_partial.
Print Assumptions C19_exact.
Print Assumptions C20_isolation_partial.
Print Assumptions C20_isolation_exact.

(** ** Refutations and examples; options are numbers, the default is 0. *)
Definition ncalls := do_calls Nat.eqb 0 empty_client.
Definition one (id : string) (n : Z) : list prec := [(lit id, D [("x", VInt n)])].

(** Nothing of "a" is pending, yet its commit returns a version: it commits the options "b" was
    preparing. *)
Theorem C15_commit_one_version_refuted : exists calls cl cl' v,
  ncalls calls = Some cl /\ ~ pending_data cl (lit "a") /\ ~ pending_opts cl (lit "a") /\
  commit Nat.eqb 0 cl (lit "a") v = (cl', Some v) /\
  get_options cl (lit "b") = [] /\ get_options cl' (lit "b") = [(v, 7)].
Proof.
  exists [CIngest (lit "a") None (one "r" 1); CCommit (lit "a") 10; CUpdateOptions (lit "b") 7].
  eexists. eexists. exists 20%Z. split; [vm_compute; reflexivity|].
  split; [|split; [|split; [vm_compute; reflexivity|split; vm_compute; reflexivity]]].
  - intros (d & H & E). vm_compute in H. destruct H as [<-|[]]. discriminate.
  - intros (d & H & En & E). vm_compute in H. destruct H as [<-|[<-|[]]]; discriminate.
Qed.
Print Assumptions C15_commit_one_version_refuted.

Definition ex_calls : list (call nat) :=
  [CIngest (lit "a") None (one "r" 1 ++ one "s" 2); CCommit (lit "a") 10;
   CIngest (lit "b") None (one "r" 5); CUpdateOptions (lit "a") 3; CIngest (lit "a") None (one "s" 4)].
Example C15_example : exists cl cl', ncalls ex_calls = Some cl /\
  (forall n, pending_opts cl n -> n = lit "a") /\ pending_data cl (lit "a") /\
  commit Nat.eqb 0 cl (lit "a") 20 = (cl', Some 20%Z) /\
  get_options cl' (lit "a") = [(10%Z, 0); (20%Z, 3)] /\
  map iter_doc (data cl' (lit "a")) =
    [Some [(Some 10%Z, D [("x", VInt 1)])]; Some [(Some 20%Z, D [("x", VInt 4)]); (Some 10%Z, D [("x", VInt 2)])]].
Proof.
  eexists. eexists. split; [vm_compute; reflexivity|]. split; [|split; [|split; [vm_compute; reflexivity|split; vm_compute; reflexivity]]].
  - intros n (d & H & En & E). vm_compute in H. destruct H as [<-|[<-|[]]]; [discriminate|]. symmetry. exact En.
  - eexists. split; [vm_compute; right; left; reflexivity|reflexivity].
Qed.

(** Pending new data of the newest record hides the version it was committed at. *)
Theorem C18_never_backwards_refuted : exists calls more cl cl',
  client_ok (lit "a") (calls ++ more) /\ ncalls calls = Some cl /\ do_calls Nat.eqb 0 cl more = Some cl' /\
  get_committed_version cl (lit "a") = Some 20%Z /\ get_committed_version cl' (lit "a") = Some 10%Z.
Proof.
  exists [CIngest (lit "a") None (one "r" 1); CCommit (lit "a") 10; CIngest (lit "a") None (one "s" 1); CCommit (lit "a") 20].
  exists [CIngest (lit "a") None (one "s" 2)]. eexists. eexists.
  split; [|split; [vm_compute; reflexivity|split; [vm_compute; reflexivity|split; vm_compute; reflexivity]]].
  split; [vm_compute; repeat split|].
  assert (S : forall (r : prec), wfd (snd r) -> call_ok (SIngest None [r])).
  { intros r Hr. split; [|constructor; [exact Hr|constructor]]. intros [|i] [|j] x y Hi Hj _; [reflexivity| | |];
      try (destruct j; discriminate); destruct i; discriminate. }
  vm_compute proj. apply Forall_cons; [apply S; repeat constructor; vm_compute; reflexivity|].
  apply Forall_cons; [exact I|]. apply Forall_cons; [apply S; repeat constructor; vm_compute; reflexivity|].
  apply Forall_cons; [exact I|]. apply Forall_cons; [apply S; repeat constructor; vm_compute; reflexivity|constructor].
Qed.
Print Assumptions C18_never_backwards_refuted.
(** The calls of the refutation meet the hypotheses of C18_lowered_by_pending; the record hidden is "s". *)
Example C18_lowered_example : exists calls more cl cl', ncalls calls = Some cl /\ do_calls Nat.eqb 0 cl more = Some cl' /\
  (forall m', get_committed_version cl' (lit "a") = Some m' -> (m' < 20)%Z) /\
  newest_version calls (lit "a") (lit "s") 20 None /\ newest_version calls (lit "a") (lit "r") 10 None /\
  (exists p, newest_version (calls ++ more) (lit "a") (lit "s") 20 (Some p)) /\ shown_version (calls ++ more) cl' (lit "a") 10 /\ ~ pending_opts cl' (lit "a").
Proof.
  exists [CIngest (lit "a") None (one "r" 1); CCommit (lit "a") 10; CIngest (lit "a") None (one "s" 1); CCommit (lit "a") 20].
  exists [CIngest (lit "a") None (one "s" 2)]. eexists. eexists. split; [vm_compute; reflexivity|]. split; [vm_compute; reflexivity|].
  split; [intros m' H; vm_compute in H; injection H as <-; lia|]. split; [eexists; eexists; vm_compute; reflexivity|]. split; [eexists; eexists; vm_compute; reflexivity|].
  split; [eexists; eexists; eexists; vm_compute; reflexivity|]. split; [left; exists (lit "r"); eexists; eexists; vm_compute; reflexivity|].
  intros (d & H & _ & E). vm_compute in H. destruct H as [<-|[]]. discriminate.
Qed.

Example C18_example : exists cl, ncalls (ex_calls ++ [CCommit (lit "a") 20; CCommit (lit "b") 21]) = Some cl /\
  ~ pending_data cl (lit "a") /\
  get_committed_version cl (lit "a") = Some 20%Z /\ get_committed_version cl (lit "b") = Some 21%Z.
Proof.
  eexists. split; [vm_compute; reflexivity|]. split; [|split; vm_compute; reflexivity].
  intros (d & H & E). vm_compute in H. destruct H as [<-|[<-|[]]]; discriminate.
Qed.

(** The second database of a client never gets default options. *)
Theorem C19_options_exist_refuted : exists calls cl cl',
  ncalls calls = Some cl /\ commit Nat.eqb 0 cl (lit "b") 20 = (cl', Some 20%Z) /\
  get_committed_version cl' (lit "b") = Some 20%Z /\ get_options cl' (lit "b") = [].
Proof.
  exists [CIngest (lit "a") None (one "r" 1); CCommit (lit "a") 10; CIngest (lit "b") None (one "r" 1)].
  eexists. eexists. split; [vm_compute; reflexivity|]. split; [vm_compute; reflexivity|]. split; vm_compute; reflexivity.
Qed.
Print Assumptions C19_options_exist_refuted.

Example C19_example : exists cl cl', ncalls [CIngest (lit "a") None (one "r" 1)] = Some cl /\
  (forall d, In d (opts cl) -> od_name d = lit "a") /\
  commit Nat.eqb 0 cl (lit "a") 10 = (cl', Some 10%Z) /\ get_options cl' (lit "a") = [(10%Z, 0)].
Proof.
  eexists. eexists. split; [vm_compute; reflexivity|]. split; [intros d []|]. split; vm_compute; reflexivity.
Qed.

(** A call on "a" throws away, or commits, the options "b" was preparing. *)
Theorem C20_isolation_refuted : exists calls cl c1 c2 c3,
  ncalls calls = Some cl /\ pending_opts cl (lit "b") /\
  do_call Nat.eqb 0 cl (CRollbackOptions (lit "a")) = Some c1 /\ opts_of c1 (lit "b") = [] /\
  do_call Nat.eqb 0 cl (CUpdateOptions (lit "a") 1) = Some c2 /\ opts_of c2 (lit "b") = [] /\
  do_call Nat.eqb 0 cl (CCommit (lit "a") 30) = Some c3 /\ get_options c3 (lit "b") = [(30%Z, 7)].
Proof.
  exists [CUpdateOptions (lit "b") 7]. eexists. eexists. eexists. eexists.
  split; [vm_compute; reflexivity|]. split; [eexists; split; [left; reflexivity|split; reflexivity]|].
  repeat (split; [vm_compute; reflexivity|]). vm_compute. reflexivity.
Qed.
Print Assumptions C20_isolation_refuted.

Example C20_example : exists cl cl',
  ncalls [CIngest (lit "b") None (one "r" 1); CUpdateOptions (lit "b") 7; CCommit (lit "b") 10] = Some cl /\
  ~ pending_opts cl (lit "b") /\
  do_calls Nat.eqb 0 cl [CIngest (lit "a") None (one "r" 9); CUpdateOptions (lit "a") 8; CCommit (lit "a") 20; CRollbackOptions (lit "a")] = Some cl' /\
  get_options cl' (lit "b") = [(10%Z, 7)] /\ get_options cl' (lit "a") = [(20%Z, 8)].
Proof.
  eexists. eexists. split; [vm_compute; reflexivity|].
  split; [intros (d & H & En & E); vm_compute in H; destruct H as [<-|[]]; discriminate|].
  split; [vm_compute; reflexivity|]. split; vm_compute; reflexivity.
Qed.
(** [C20_isolation_exact] for options pending in "b": an ingest into "a" keeps them, its commit commits them, later calls change nothing. *)
Example C20_exact_example : exists cl cl',
  ncalls [CUpdateOptions (lit "b") 7] = Some cl /\ pending_opts cl (lit "b") /\
  do_calls Nat.eqb 0 cl [CIngest (lit "a") None (one "r" 9); CCommit (lit "a") 20; CRollbackOptions (lit "a")] = Some cl' /\
  opts_of cl' (lit "b") = [ODoc (lit "b") (Some 20%Z) 7].
Proof.
  eexists. eexists. split; [vm_compute; reflexivity|]. split; [eexists; split; [left; reflexivity|split; reflexivity]|].
  split; vm_compute; reflexivity.
Qed.
