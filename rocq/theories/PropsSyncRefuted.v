(** Witnesses for PropsSync: histories with a toy parser (options are numbers, the parsed data is the
    data with the options), showing that hypotheses are met and where the full claims fail. *)
From Coq Require Import String Ascii.
From Coq Require Import List ZArith NArith Bool Lia Sorted Permutation.
From Verif Require Import PyVal Diff DiffProofs Prepare Mongo Store MongoProofs MongoStore MongoMore PropsMongo Client ClientProofs.
From Verif Require Import Index IndexSpec IndexProofs PropsIndex Sync SyncSpec SyncProofs SyncBuild SyncColl SyncTrace SyncView SyncMore SyncArcs SyncEvents SyncReach PropsSync.
Import ListNotations.
Open Scope string_scope.
Open Scope list_scope.
Open Scope Z_scope.

Definition toy_same (p q : dict * nat) : Prop := veq (VDict (fst p)) (VDict (fst q)) /\ snd p = snd q.
Lemma toy_pipeline : pipeline scalar_same wfd toy_parse toy_eq toy_same.
Proof.
  assert (Rf : forall a, scalar_same a a) by exact scalar_same_refl.
  constructor.
  - exact class_veq.
  - intros p p' q q' (d & d' & o & (H1 & H2 & H3) & -> & ->) (d1 & d1' & o1 & (H4 & H5 & H6) & -> & ->).
    unfold toy_eq, toy_parse. cbn [fst snd]. f_equal.
    rewrite (py_eqb_congr_r (VDict d) (VDict d1) (VDict d1')), (py_eqb_congr_l (VDict d1') (VDict d) (VDict d')); auto.
  - intros d d' o (_ & _ & H). split; [exact H|reflexivity].
  - intros p q [H1 H2]. split; [apply vsim_sym; [exact scalar_same_sym|exact H1]|congruence].
  - intros p q r [H1 H2] [H3 H4]. split; [eapply vsim_trans; [exact scalar_same_trans|exact H1|exact H3]|congruence].
Qed.

Definition db : pystr := lit "db".
Notation toy_reaches := (reaches Nat.eqb 0%nat toy_parse toy_eq wfd 2000000%N db).
Notation toy_sync := (sync toy_parse toy_eq 2000000%N).
Notation state calls := (a_run a_empty (proj db calls)).

(** A history: calls and syncs. *)
Inductive event := Call (c : call nat) | Sync.
Definition put (l : list (string * dict)) : event := Call (CIngest db None (map (fun kv => (lit (fst kv), snd kv)) l)).
Definition commit_at (v : Z) : event := Call (CCommit db v).
Definition sys := (nat * Z * Z * list (call nat) * client nat * es (dict * nat))%type.
Definition run_event (s : sys) (ev : event) : option sys :=
  let '(n, t, s0, calls, cl, e) := s in
  match ev with
  | Call (CCommit m v) => if t <? v then Some (S n, v, s0, calls ++ [CCommit m v], fst (commit Nat.eqb 0%nat cl m v), e) else None
  | Call c => match do_call Nat.eqb 0%nat cl c with Some cl' => Some (n, t, s0, calls ++ [c], cl', e) | None => None end
  | Sync => match toy_sync cl db false e with Some e' => Some (0%nat, t, t, calls, cl, e') | None => None end
  end.
Fixpoint run_events (s : sys) (l : list event) : option sys :=
  match l with [] => Some s | ev :: r => match run_event s ev with Some s' => run_events s' r | None => None end end.
Definition start : sys := (0%nat, 0, 0, [], empty_client, empty_es).

(** the calls are well formed and the syncs happen when [allowed] *)
Definition reach_sys (allowed : nat -> Z -> astate -> list (Z * nat) -> Prop) (s : sys) : Prop :=
  let '(n, t, s0, calls, cl, e) := s in toy_reaches allowed n t s0 calls cl e.
Definition event_ok (allowed : nat -> Z -> astate -> list (Z * nat) -> Prop) (s : sys) (ev : event) : Prop :=
  let '(n, t, s0, calls, cl, e) := s in
  match ev with Call c => Forall (step_ok wfd) (proj_call db c) | Sync => allowed n s0 (state calls) (get_options cl db) end.
Fixpoint events_ok (allowed : nat -> Z -> astate -> list (Z * nat) -> Prop) (s : sys) (l : list event) : Prop :=
  match l with [] => True | ev :: r => event_ok allowed s ev /\ match run_event s ev with Some s' => events_ok allowed s' r | None => True end end.
Lemma run_reaches allowed l : forall s s', reach_sys allowed s -> events_ok allowed s l -> run_events s l = Some s' -> reach_sys allowed s'.
Proof.
  induction l as [|ev l IH]; intros s s' Hr Ho H; [injection H as <-; exact Hr|]. cbn [run_events events_ok] in *. destruct Ho as [Ho1 Ho2].
  destruct (run_event s ev) as [s1|] eqn:E1; [|discriminate]. refine (IH s1 s' _ Ho2 H). clear IH Ho2 H.
  destruct s as [[[[[n t] s0] calls] cl] e]. cbn [reach_sys event_ok run_event] in *. destruct ev as [c|].
  - assert (G : (forall m v, c <> CCommit m v) -> (match do_call Nat.eqb 0%nat cl c with Some cl' => Some (n, t, s0, calls ++ [c], cl', e) | None => None end) = Some s1 -> reach_sys allowed s1).
    { intros Hn K. destruct (do_call Nat.eqb 0%nat cl c) as [cl'|] eqn:Ec; [|discriminate]. injection K as <-. cbn [reach_sys]. eapply at_call; eauto. }
    destruct c; try (apply G; [discriminate|exact E1]). destruct (Z.ltb_spec t v); [|discriminate]. injection E1 as <-. cbn [reach_sys]. eapply at_commit; eassumption.
  - destruct (toy_sync cl db false e) as [e'|] eqn:Ec; [|discriminate]. injection E1 as <-. cbn [reach_sys]. eapply at_sync; eauto.
Qed.


(** Deciding the conditions of a history. *)
Definition touched (ss : list step) : list pystr := flat_map (fun st => match st with SIngest _ recs => map fst recs | _ => [] end) ss.
Lemma untouched ss : forall (A : astate) id, A id = None -> ~ In id (touched ss) -> a_run A ss id = None.
Proof.
  induction ss as [|st ss IH]; intros A id HA Hn; [exact HA|]. cbn [a_run fold_left]. fold (a_run (a_step A st) ss). cbn [touched flat_map] in Hn. rewrite in_app_iff in Hn. apply IH; [|intro K; apply Hn; right; exact K].
  destruct st as [mf recs|v|]; cbn [a_step].
  - unfold a_ingest. destruct (last_data id recs) as [x|] eqn:El; [|exact HA]. exfalso. apply Hn. left. clear - El.
    induction recs as [|[i d] r IH]; [discriminate|]. cbn [last_data map fst] in *. destruct (last_data id r); [right; apply IH; exact El|].
    destruct (str_eqb i id) eqn:Ei; [|discriminate]. apply str_eqb_eq in Ei. left. exact Ei.
  - unfold a_commit. rewrite HA. reflexivity.
  - unfold a_rollback. rewrite HA. reflexivity.
Qed.

Definition call_b (c : call nat) : bool :=
  match c with CIngest _ _ recs => (Nat.ltb (length recs) 200) && forallb (fun r => wfb (VDict (snd r))) recs | _ => true end.
Lemma call_b_ok c : call_b c = true -> Forall (step_ok wfd) (proj_call db c).
Proof.
  intro H. unfold proj_call. destruct c as [m mf recs|m v|m o|m|m]; try (destruct (str_eqb _ _)); repeat constructor.
  - intros i j r r' Hi Hj _. cbn [call_b] in H. apply andb_true_iff in H. destruct H as [H _]. apply Nat.ltb_lt in H.
    assert (i < length recs)%nat by (apply nth_error_Some; rewrite Hi; discriminate).
    assert (j < length recs)%nat by (apply nth_error_Some; rewrite Hj; discriminate).
    unfold INGEST_SIZE. rewrite !Nat.div_small by lia. reflexivity.
  - cbn in H. apply andb_true_iff in H. destruct H as [_ H]. rewrite forallb_forall in H. apply Forall_forall. exact H.
Qed.
Definition check : Type := nat -> Z -> list (call nat) -> list (Z * nat) -> bool.
Fixpoint events_b (chk : check) (s : sys) (l : list event) : bool :=
  match l with
  | [] => true
  | ev :: r => (let '(n, t, s0, calls, cl, e) := s in match ev with Call c => call_b c | Sync => chk n s0 calls (get_options cl db) end)
               && match run_event s ev with Some s' => events_b chk s' r | None => true end
  end.
Lemma events_b_ok (allowed : nat -> Z -> astate -> list (Z * nat) -> Prop) (chk : check) :
  (forall n s calls om, chk n s calls om = true -> allowed n s (state calls) om) -> forall l s, events_b chk s l = true -> events_ok allowed s l.
Proof.
  intros Hc. induction l as [|ev l IH]; intros s H; [exact I|]. cbn [events_b events_ok] in *. apply andb_true_iff in H. destruct H as [H1 H2]. split.
  - destruct s as [[[[[n t] s0] calls] cl] e]. cbn [event_ok]. destruct ev as [c|]; [apply call_b_ok, H1|apply Hc, H1].
  - destruct (run_event s ev); [apply IH, H2|exact I].
Qed.
(** run a history whose conditions are decided *)
Lemma run_ok (allowed : nat -> Z -> astate -> list (Z * nat) -> Prop) chk l s' : (forall n s calls om, chk n s calls om = true -> allowed n s (state calls) om) ->
  events_b chk start l = true -> run_events start l = Some s' -> reach_sys allowed s'.
Proof.
  intros Hc H. apply run_reaches; [apply at_start|]. apply (events_b_ok allowed chk Hc). exact H.
Qed.

Definition per_id (f : pystr -> bool) (calls : list (call nat)) : bool := forallb f (touched (proj db calls)).
Lemma per_id_ok f calls : per_id f calls = true -> forall id, f id = true \/ state calls id = None.
Proof.
  intros H id. destruct (in_dec (list_eq_dec N.eq_dec) id (touched (proj db calls))) as [Hi|Hi].
  - left. unfold per_id in H. rewrite forallb_forall in H. apply H, Hi.
  - right. apply untouched; [reflexivity|exact Hi].
Qed.
Definition no_pending_b (calls : list (call nat)) : bool :=
  per_id (fun id => match state calls id with Some (AR _ (Some _)) => false | _ => true end) calls.
Lemma no_pending_b_ok calls : no_pending_b calls = true -> no_pending (state calls).
Proof. intros H id h p K. destruct (per_id_ok _ _ H id) as [E|E]; rewrite K in E; discriminate. Qed.
Definition options_b (calls : list (call nat)) (om : list (Z * nat)) : bool :=
  negb (isnil om) || per_id (fun id => isnil (committed (state calls) id)) calls.
Lemma options_b_ok calls om : options_b calls om = true -> options_there (state calls) om.
Proof.
  unfold options_b. intros H id Hc. apply orb_true_iff in H. destruct H as [H|H]; [intro K; rewrite K in H; discriminate|].
  exfalso. apply Hc. destruct (per_id_ok _ _ H id) as [E|E]; [|unfold committed; rewrite E; reflexivity].
  destruct (committed (state calls) id); [reflexivity|discriminate].
Qed.
Definition in_force_b {V} (m : list (Z * V)) (t v : Z) : bool := (v <=? t) && forallb (fun wy => negb (fst wy <=? t) || (fst wy <=? v)) m.
Lemma in_force_b_ok {V} (m : list (Z * V)) t x : in_force m t x -> exists v, In (v, x) m /\ in_force_b m t v = true.
Proof.
  intros (v & H1 & H2 & H3). exists v. split; [exact H1|]. unfold in_force_b. apply andb_true_iff. split; [apply Z.leb_le, H2|].
  apply forallb_forall. intros [w y] Hw. cbn [fst]. destruct (Z.leb_spec w t) as [L|L]; [|reflexivity]. cbn. apply Z.leb_le. exact (H3 w y Hw L).
Qed.
Definition empty_at (h : list (Z * dict)) (t : Z) : bool := forallb (fun vx => negb (in_force_b h t (fst vx)) || isnil (snd vx)) h.
Lemma empty_at_ok h t x : empty_at h t = true -> in_force h t x -> x = [].
Proof.
  intros H K. apply in_force_b_ok in K. destruct K as (v & K1 & K2). unfold empty_at in H. rewrite forallb_forall in H. specialize (H _ K1). cbn [fst snd] in H.
  rewrite K2 in H. destruct x; [reflexivity|discriminate].
Qed.
Definition not_ctd_b (s : Z) (h : list (Z * dict)) (om : list (Z * nat)) : bool :=
  empty_at h s || forallb (fun k => negb (s <? k) || empty_at h k) (zkeys h ++ zkeys om)
  || existsb (fun vx => negb (isnil (snd vx)) && forallb (fun wy => fst wy <=? fst vx) h) h.
Lemma not_ctd_b_ok s h om : not_ctd_b s h om = true -> ~ changed_then_deleted s h om.
Proof.
  intros H ((x & X1 & X2) & (k & y & Y0 & Y1 & Y2 & Y3) & (t0 & T)). unfold not_ctd_b in H. rewrite !orb_true_iff in H. destruct H as [[H|H]|H].
  - exact (X2 (empty_at_ok h s x H X1)).
  - rewrite forallb_forall in H. specialize (H k ltac:(apply in_or_app; exact Y1)). destruct (Z.ltb_spec s k); [|lia]. exact (Y3 (empty_at_ok h k y H Y2)).
  - apply existsb_exists in H. destruct H as ([v z] & H1 & H2). cbn [fst snd] in H2. apply andb_true_iff in H2. destruct H2 as [H2 H3]. rewrite forallb_forall in H3.
    rewrite (T (Z.max t0 v) z) in H2; [discriminate|lia|]. exists v. split; [exact H1|]. split; [lia|]. intros w q Hw _. specialize (H3 _ Hw). apply Z.leb_le in H3. exact H3.
Qed.
Definition no_ghost_b : check := fun n s calls om =>
  options_b calls om && no_pending_b calls && per_id (fun id => not_ctd_b s (committed (state calls) id) om) calls.
Lemma no_ghost_b_ok n s calls om : no_ghost_b n s calls om = true -> when_no_ghost n s (state calls) om.
Proof.
  unfold no_ghost_b. rewrite !andb_true_iff. intros [[H1 H2] H3]. split; [apply options_b_ok, H1|]. split; [apply no_pending_b_ok, H2|].
  intros id. destruct (per_id_ok _ _ H3 id) as [E|E]; [apply not_ctd_b_ok, E|]. unfold committed. rewrite E. intros ((x & (v & [] & _) & _) & _).
Qed.
Definition each_commit_b : check := fun n s calls om => options_b calls om && no_pending_b calls && Nat.leb n 1.
Lemma each_commit_b_ok n s calls om : each_commit_b n s calls om = true -> when_each_commit n s (state calls) om.
Proof.
  unfold each_commit_b. rewrite !andb_true_iff. intros [[H1 H2] H3]. split; [apply options_b_ok, H1|]. split; [apply no_pending_b_ok, H2|apply Nat.leb_le, H3].
Qed.
Definition pending_settled_b : check := fun n s calls om =>
  options_b calls om && Nat.leb n 1 &&
  per_id (fun id => match state calls id with Some (AR h (Some _)) => forallb (fun k => k <=? s) (zkeys h ++ zkeys om) | _ => true end) calls.
Lemma pending_settled_b_ok n s calls om : pending_settled_b n s calls om = true -> when_pending_settled n s (state calls) om.
Proof.
  unfold pending_settled_b. rewrite !andb_true_iff. intros [[H1 H2] H3]. split; [apply options_b_ok, H1|]. split; [|apply Nat.leb_le, H2].
  intros id h q K k Hk. destruct (per_id_ok _ _ H3 id) as [E|E]; rewrite K in E; [|discriminate]. rewrite forallb_forall in E. apply Z.leb_le, E, in_or_app, Hk.
Qed.

(** ** Examples *)
(** one commit between syncs: changes, a deletion, options that change the parsed data *)
Definition ex_each : list event :=
  [ Call (CUpdateOptions db 7%nat); put [("r1", X 1); ("r2", X 2)]; commit_at 10; Sync
  ; put [("r1", X 3)]; commit_at 20; Sync; put [("r2", [])]; commit_at 30; Sync
  ; Call (CUpdateOptions db 8%nat); commit_at 40; Sync; put [("r1", []); ("r2", X 5)]; commit_at 50 ].
Example C27_example : match run_events start ex_each with
  | Some (n, t, s, calls, cl, e) =>
      toy_reaches when_each_commit n t s calls cl e /\ when_each_commit n s (state calls) (get_options cl db) /\
      option_map (fun e' => (map (fun kd => e_ver (snd kd)) (lat (vis e')), map (fun kd => (e_ver (snd kd), e_end (snd kd))) (arc (vis e')))) (toy_sync cl db false e)
        = Some ([50], [(10, Some 20); (10, Some 30); (20, Some 40); (40, Some 50)])
  | None => False end.
Proof.
  destruct (run_events start ex_each) as [[[[[[n t] s] calls] cl] e]|] eqn:E; [|vm_compute in E; discriminate].
  pose proof (run_ok when_each_commit each_commit_b ex_each _ each_commit_b_ok ltac:(vm_compute; reflexivity) E) as H. cbn [reach_sys] in H.
  split; [exact H|]. split.
  - apply each_commit_b_ok. vm_compute in E. injection E as <- <- <- <- <- <-. vm_compute. reflexivity.
  - vm_compute in E. injection E as <- <- <- <- <- <-. vm_compute. reflexivity.
Qed.
(** several commits between syncs: a record is changed twice, another one deleted, one added *)
Definition ex_many : list event :=
  [ put [("r1", X 1); ("r2", X 2)]; commit_at 10; Sync
  ; put [("r1", X 3)]; commit_at 20; put [("r2", []); ("r3", X 9)]; commit_at 30; put [("r1", X 4)]; commit_at 40 ].
Example C26_example : match run_events start ex_many with
  | Some (n, t, s, calls, cl, e) =>
      toy_reaches when_no_ghost n t s calls cl e /\ when_no_ghost n s (state calls) (get_options cl db) /\
      option_map (fun e' => (map (fun kd => e_ver (snd kd)) (lat (vis e')), map (fun kd => (e_ver (snd kd), e_end (snd kd))) (arc (vis e')))) (toy_sync cl db false e)
        = Some ([40; 30], [(10, Some 20); (20, Some 40); (10, Some 30)])
  | None => False end.
Proof.
  destruct (run_events start ex_many) as [[[[[[n t] s] calls] cl] e]|] eqn:E; [|vm_compute in E; discriminate].
  pose proof (run_ok when_no_ghost no_ghost_b ex_many _ no_ghost_b_ok ltac:(vm_compute; reflexivity) E) as H. cbn [reach_sys] in H.
  split; [exact H|]. split.
  - apply no_ghost_b_ok. vm_compute in E. injection E as <- <- <- <- <- <-. vm_compute. reflexivity.
  - vm_compute in E. injection E as <- <- <- <- <- <-. vm_compute. reflexivity.
Qed.
(** both kinds of syncs: the first and the last after several commits, the others after one; r2 is deleted, and r1 in the end *)
Definition either (n : nat) (s : Z) (A : astate) (om : list (Z * nat)) : Prop := when_no_ghost n s A om \/ when_each_commit n s A om.
Definition either_b : check := fun n s calls om => no_ghost_b n s calls om || each_commit_b n s calls om.
Lemma either_b_ok n s calls om : either_b n s calls om = true -> either n s (state calls) om.
Proof. unfold either_b. rewrite orb_true_iff. intros [H|H]; [left; apply no_ghost_b_ok with (1 := H)|right; apply each_commit_b_ok, H]. Qed.
Definition ex_either : list event :=
  [ put [("r1", X 1); ("r2", X 2)]; commit_at 10; put [("r1", X 3)]; commit_at 20; Sync; put [("r1", X 6); ("r2", [])]; commit_at 30; Sync
  ; put [("r3", X 4)]; commit_at 40; put [("r1", [])]; commit_at 50 ].
Definition found_at (v : Z) (e : es (dict * nat)) : option (list (pystr * Z)) := option_map (map (fun d => (e_id d, e_ver d))) (search_at e v).
Example C28_example : match run_events start ex_either with
  | Some (n, t, s, calls, cl, e) =>
      toy_reaches either n t s calls cl e /\ either n s (state calls) (get_options cl db) /\
      option_map (fun e' => map (fun kd => (fst kd, e_ver (snd kd))) (lat (vis e'))) (toy_sync cl db false e) = Some [(lit "r3", 40)]
  | None => False end.
Proof.
  destruct (run_events start ex_either) as [[[[[[n t] s] calls] cl] e]|] eqn:E; [|vm_compute in E; discriminate].
  pose proof (run_ok either either_b ex_either _ either_b_ok ltac:(vm_compute; reflexivity) E) as H. cbn [reach_sys] in H.
  split; [exact H|]. vm_compute in E. injection E as <- <- <- <- <- <-. split; [apply either_b_ok; vm_compute; reflexivity|vm_compute; reflexivity].
Qed.
Example C30_example : match run_events start ex_either with
  | Some (n, t, s, calls, cl, e) =>
      toy_reaches either n t s calls cl e /\ either n s (state calls) (get_options cl db) /\
      option_map (fun e' => (found_at 9 e', found_at 15 e', found_at 35 e', found_at 45 e', found_at 60 e')) (toy_sync cl db false e)
        = Some (Some [], Some [(lit "r1", 10); (lit "r2", 10)], Some [(lit "r1", 30)], Some [(lit "r3", 40); (lit "r1", 30)], Some [(lit "r3", 40)])
  | None => False end.
Proof.
  destruct (run_events start ex_either) as [[[[[[n t] s] calls] cl] e]|] eqn:E; [|vm_compute in E; discriminate].
  pose proof (run_ok either either_b ex_either _ either_b_ok ltac:(vm_compute; reflexivity) E) as H. cbn [reach_sys] in H.
  split; [exact H|]. vm_compute in E. injection E as <- <- <- <- <- <-. split; [apply either_b_ok; vm_compute; reflexivity|vm_compute; reflexivity].
Qed.
(** a sync while r2 has a pending change *)
Definition ex_pend : list event :=
  [ put [("r1", X 1); ("r2", X 2)]; commit_at 10; Sync; put [("r2", X 5)]; Sync; commit_at 20; Sync; put [("r2", X 6); ("r3", X 0)] ].
Example C56_example : match run_events start ex_pend with
  | Some (n, t, s, calls, cl, e) =>
      toy_reaches when_pending_settled n t s calls cl e /\ when_pending_settled n s (state calls) (get_options cl db) /\ ~ no_pending (state calls)
  | None => False end.
Proof.
  destruct (run_events start ex_pend) as [[[[[[n t] s] calls] cl] e]|] eqn:E; [|vm_compute in E; discriminate].
  pose proof (run_ok when_pending_settled pending_settled_b ex_pend _ pending_settled_b_ok ltac:(vm_compute; reflexivity) E) as H. cbn [reach_sys] in H.
  split; [exact H|]. split.
  - apply pending_settled_b_ok. vm_compute in E. injection E as <- <- <- <- <- <-. vm_compute. reflexivity.
  - vm_compute in E. injection E as <- <- <- <- <- <-. intro K. apply (K (lit "r2") [(20, X 5); (10, X 2)] (X 6)). vm_compute. reflexivity.
Qed.

(** ** Where the full claims fail *)
Definition any_time (_ : nat) (_ : Z) (A : astate) (om : list (Z * nat)) : Prop := options_there A om /\ no_pending A.
Definition any_time_b : check := fun n s calls om => options_b calls om && no_pending_b calls.
Lemma any_time_b_ok n s calls om : any_time_b n s calls om = true -> any_time n s (state calls) om.
Proof. unfold any_time_b. rewrite andb_true_iff. intros [H1 H2]. split; [apply options_b_ok, H1|apply no_pending_b_ok, H2]. Qed.

Definition ghost : list event := [ put [("r1", X 1); ("r2", X 2)]; commit_at 10; Sync; put [("r1", X 3)]; commit_at 20; put [("r1", [])]; commit_at 30 ].
(** C26: two commits, r1 is modified and then deleted, then one sync *)
Theorem C26_incremental_refuted : exists n t s calls cl e e' e0,
  toy_reaches any_time n t s calls cl e /\ any_time n s (state calls) (get_options cl db) /\
  toy_sync cl db false e = Some e' /\ toy_sync cl db false empty_es = Some e0 /\ ~ same_content toy_same (vis e') (vis e0).
Proof.
  destruct (run_events start ghost) as [[[[[[n t] s] calls] cl] e]|] eqn:E; [|vm_compute in E; discriminate].
  pose proof (run_ok any_time any_time_b ghost _ any_time_b_ok ltac:(vm_compute; reflexivity) E) as H. cbn [reach_sys] in H.
  exists n, t, s, calls, cl, e. vm_compute in E. injection E as <- <- <- <- <- <-. do 2 eexists.
  split; [exact H|]. split; [apply any_time_b_ok; vm_compute; reflexivity|]. split; [vm_compute; reflexivity|]. split; [vm_compute; reflexivity|].
  intro K. destruct (K (lit "r1")) as [(l & K1 & K2) _]. vm_compute in K1. apply Permutation_length in K1. vm_compute in K2.
  inversion K2 as [K3|]. subst l. discriminate.
Qed.
(** C25: after this history, where C26 fails, a full sync has what was committed *)
Example C25_example : match run_events start ghost with
  | Some (n, t, s, calls, cl, e) =>
      toy_reaches any_time n t s calls cl e /\ options_there (state calls) (get_options cl db) /\ no_pending (state calls) /\
      option_map (fun e' => (map (fun kd => e_ver (snd kd)) (lat (vis e')), map (fun kd => (e_ver (snd kd), e_end (snd kd))) (arc (vis e')))) (toy_sync cl db false empty_es)
        = Some ([10], [(10, Some 20); (20, Some 30)])
  | None => False end.
Proof.
  destruct (run_events start ghost) as [[[[[[n t] s] calls] cl] e]|] eqn:E; [|vm_compute in E; discriminate].
  pose proof (run_ok any_time any_time_b ghost _ any_time_b_ok ltac:(vm_compute; reflexivity) E) as H. cbn [reach_sys] in H.
  split; [exact H|]. vm_compute in E. injection E as <- <- <- <- <- <-.
  split; [apply options_b_ok; vm_compute; reflexivity|]. split; [apply no_pending_b_ok; vm_compute; reflexivity|]. vm_compute. reflexivity.
Qed.
(** C28: the same history; r1 is deleted but stays in the latest index, with its first data *)
Theorem C28_deleted_leaves_latest_refuted : exists n t s calls cl e e' d,
  toy_reaches any_time n t s calls cl e /\ any_time n s (state calls) (get_options cl db) /\
  toy_sync cl db false e = Some e' /\ now_data (committed (state calls) (lit "r1")) [] /\ lat_of (lit "r1") (vis e') = [d] /\
  (exists hits, search_at e' 30 = Some hits /\ In d hits).
Proof.
  destruct (run_events start ghost) as [[[[[[n t] s] calls] cl] e]|] eqn:E; [|vm_compute in E; discriminate].
  pose proof (run_ok any_time any_time_b ghost _ any_time_b_ok ltac:(vm_compute; reflexivity) E) as H. cbn [reach_sys] in H.
  exists n, t, s, calls, cl, e. vm_compute in E. injection E as <- <- <- <- <- <-. do 2 eexists.
  split; [exact H|]. split; [apply any_time_b_ok; vm_compute; reflexivity|]. split; [vm_compute; reflexivity|].
  split; [|split; [vm_compute; reflexivity|]].
  - exists 30. assert (K : committed (state [CIngest db None [(lit "r1", X 1); (lit "r2", X 2)]; CCommit db 10; CIngest db None [(lit "r1", X 3)]; CCommit db 20; CIngest db None [(lit "r1", [])]; CCommit (O := nat) db 30]) (lit "r1") = [(30, []); (20, X 3); (10, X 1)]) by (vm_compute; reflexivity).
    refine (eq_ind_r (fun h => In (30, []) h /\ (forall w y, In (w, y) h -> w <= 30)) _ K). split; [left; reflexivity|]. intros w y [Q|[Q|[Q|[]]]]; injection Q as <- _; lia.
  - eexists. split; [vm_compute; reflexivity|vm_compute; auto].
Qed.
(** C30: all records are deleted before the first sync; a search at the current version raises *)
Definition gone : list event := [ put [("r1", X 1)]; commit_at 10; put [("r1", [])]; commit_at 20 ].
Theorem C30_search_refuted : exists n t s calls cl e e',
  toy_reaches when_no_ghost n t s calls cl e /\ when_no_ghost n s (state calls) (get_options cl db) /\
  toy_sync cl db false e = Some e' /\ search_at e' 20 = None.
Proof.
  destruct (run_events start gone) as [[[[[[n t] s] calls] cl] e]|] eqn:E; [|vm_compute in E; discriminate].
  pose proof (run_ok when_no_ghost no_ghost_b gone _ no_ghost_b_ok ltac:(vm_compute; reflexivity) E) as H. cbn [reach_sys] in H.
  exists n, t, s, calls, cl, e. vm_compute in E. injection E as <- <- <- <- <- <-. eexists.
  split; [exact H|]. split; [apply no_ghost_b_ok; vm_compute; reflexivity|]. split; vm_compute; reflexivity.
Qed.
(** C56: version 20 of r1 is committed; it is not synced while r1 has a pending change. At the end
    nothing is pending, every commit was followed by a sync, and r1 has no document for moment 15. *)
Definition lost : list event :=
  [ put [("r1", X 1); ("r2", X 2)]; commit_at 10; Sync; put [("r1", X 3); ("r2", X 4)]; commit_at 20; put [("r1", X 5)]; Sync; commit_at 30 ].
Definition options_one (n : nat) (_ : Z) (A : astate) (om : list (Z * nat)) : Prop := options_there A om /\ (n <= 1)%nat.
Definition options_one_b : check := fun n s calls om => options_b calls om && Nat.leb n 1.
Lemma options_one_b_ok n s calls om : options_one_b n s calls om = true -> options_one n s (state calls) om.
Proof. unfold options_one_b. rewrite andb_true_iff. intros [H1 H2]. split; [apply options_b_ok, H1|apply Nat.leb_le, H2]. Qed.
Theorem C56_sync_while_pending_refuted : exists n t s calls cl e e',
  toy_reaches options_one n t s calls cl e /\ options_one n s (state calls) (get_options cl db) /\ no_pending (state calls) /\
  toy_sync cl db false e = Some e' /\ In (10, X 1) (committed (state calls) (lit "r1")) /\ In (20, X 3) (committed (state calls) (lit "r1")) /\
  forall d, In d (lat_of (lit "r1") (vis e') ++ arc_of (lit "r1") (vis e')) -> ~ covers d 15.
Proof.
  destruct (run_events start lost) as [[[[[[n t] s] calls] cl] e]|] eqn:E; [|vm_compute in E; discriminate].
  pose proof (run_ok options_one options_one_b lost _ options_one_b_ok ltac:(vm_compute; reflexivity) E) as H. cbn [reach_sys] in H.
  exists n, t, s, calls, cl, e. vm_compute in E. injection E as <- <- <- <- <- <-. eexists.
  split; [exact H|]. split; [apply options_one_b_ok; vm_compute; reflexivity|]. split; [apply no_pending_b_ok; vm_compute; reflexivity|].
  split; [vm_compute; reflexivity|]. split; [vm_compute; auto|]. split; [vm_compute; auto|].
  intros d Hd. vm_compute in Hd. repeat (destruct Hd as [<-|Hd]; [intros [K1 K2]; vm_compute in K1; vm_compute in K2; try congruence; try (apply K1; reflexivity)|]). destruct Hd.
Qed.
Print Assumptions C26_incremental_refuted.
Print Assumptions C28_deleted_leaves_latest_refuted.
Print Assumptions C30_search_refuted.
Print Assumptions C56_sync_while_pending_refuted.
