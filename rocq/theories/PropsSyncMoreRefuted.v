(** Witnesses for PropsSyncMore: histories with the toy parser of PropsIndex. *)
From Coq Require Import String Ascii.
From Coq Require Import List ZArith NArith Bool Lia Sorted Permutation.
From Verif Require Import PyVal Diff DiffProofs Prepare Mongo Store MongoProofs MongoStore MongoMore PropsMongo Client ClientProofs.
From Verif Require Import Index IndexSpec IndexProofs PropsIndex Sync SyncSpec SyncProofs SyncBuild SyncColl SyncTrace SyncView SyncMore SyncArcs SyncEvents SyncReach PropsSync PropsSyncRefuted PropsSyncMore.
Import ListNotations.
Open Scope string_scope.
Open Scope list_scope.
Open Scope Z_scope.

(** Histories of [happens], with arcs of [cap] documents. A failed sync writes the operations with the
    given numbers. *)
Section Run.
Variable cap : N.
Notation toy_happens := (happens Nat.eqb 0%nat toy_parse toy_eq wfd cap db).
Inductive hevent := HCall (c : call nat) | HSync (resync : bool) | HArcs | HFail (resync : bool) (l : list nat).
Definition hsys := (Z * list (call nat) * client nat * es (dict * nat))%type.
Definition pick {A} (l : list nat) (ops : list A) : list A := flat_map (fun i => match nth_error ops i with Some o => [o] | None => [] end) l.
Definition run_h1 (s : hsys) (ev : hevent) : option hsys :=
  let '(t, calls, cl, e) := s in
  match ev with
  | HCall (CCommit m v) => if t <? v then Some (v, calls ++ [CCommit m v], fst (commit Nat.eqb 0%nat cl m v), e) else None
  | HCall c => if call_b c then match do_call Nat.eqb 0%nat cl c with Some cl' => Some (t, calls ++ [c], cl', e) | None => None end else None
  | HSync r => match sync toy_parse toy_eq cap cl db r e with Some e' => Some (t, calls, cl, e') | None => None end
  | HArcs => match resync_arcs toy_parse toy_eq cap cl db e with Some e' => Some (t, calls, cl, e') | None => None end
  | HFail r l => match sync_plan toy_parse toy_eq cap cl db r e with
                 | Some (Some (e1, ops)) => Some (t, calls, cl, write_live (pick l ops) (setup [] e1))
                 | _ => None
                 end
  end.
Fixpoint run_h (s : hsys) (l : list hevent) : option hsys :=
  match l with [] => Some s | ev :: r => match run_h1 s ev with Some s' => run_h s' r | None => None end end.
Definition hstart : hsys := (0, [], empty_client, empty_es).
Definition fails_of (l : list hevent) : bool := existsb (fun ev => match ev with HFail _ _ => true | _ => false end) l.
Lemma pick_only {A} l (ops : list A) : only (pick l ops) ops.
Proof.
  intros x H. unfold pick in H. apply in_flat_map in H. destruct H as (i & _ & H). destruct (nth_error ops i) as [y|] eqn:E; [|contradiction].
  destruct H as [<-|[]]. eapply nth_error_In, E.
Qed.
Definition happens_sys (fails : Prop) (s : hsys) : Prop := let '(t, calls, cl, e) := s in toy_happens fails t calls cl e.
Lemma run_h_happens (fails : Prop) l : (fails_of l = true -> fails) -> forall s s', happens_sys fails s -> run_h s l = Some s' -> happens_sys fails s'.
Proof.
  induction l as [|ev l IH]; intros Hf s s' Hs H; [injection H as <-; exact Hs|]. cbn [run_h] in H. destruct (run_h1 s ev) as [s1|] eqn:E1; [|discriminate].
  refine (IH _ s1 s' _ H). { intro K. apply Hf. unfold fails_of in *. cbn [existsb]. rewrite K. apply orb_true_r. }
  clear IH H s'. destruct s as [[[t calls] cl] e]. cbn [happens_sys run_h1] in *. destruct ev as [c|r| |r k].
  - assert (G : (forall m v, c <> CCommit m v) -> (if call_b c then match do_call Nat.eqb 0%nat cl c with Some cl' => Some (t, calls ++ [c], cl', e) | None => None end else None) = Some s1 -> happens_sys fails s1).
    { intros Hn K. destruct (call_b c) eqn:Eb; [|discriminate]. destruct (do_call Nat.eqb 0%nat cl c) as [cl'|] eqn:Ec; [|discriminate]. injection K as <-. cbn [happens_sys].
      eapply h_call; eauto. apply call_b_ok, Eb. }
    destruct c; try (apply G; [discriminate|exact E1]). destruct (Z.ltb_spec t v); [|discriminate]. injection E1 as <-. cbn [happens_sys]. eapply h_commit; eassumption.
  - destruct (sync _ _ _ _ _ _ _) as [e'|] eqn:Es; [|discriminate]. injection E1 as <-. eapply h_sync; eauto.
  - destruct (resync_arcs _ _ _ _ _ _) as [e'|] eqn:Es; [|discriminate]. injection E1 as <-. eapply h_arcs; eauto.
  - destruct (sync_plan _ _ _ _ _ _ _) as [[[e1 ops]|]|] eqn:Es; try discriminate. injection E1 as <-. eapply h_failed_sync; [apply Hf; reflexivity|exact Hs|exact Es|apply pick_only].
Qed.
End Run.
Notation toy_happens cap := (happens Nat.eqb 0%nat toy_parse toy_eq wfd cap db).
Definition hput (l : list (string * dict)) : hevent := HCall (CIngest db None (map (fun kv => (lit (fst kv), snd kv)) l)).
Definition hcommit (v : Z) : hevent := HCall (CCommit db v).
Definition arc_view (e : es (dict * nat)) := map (fun nd => (fst nd, (e_ver (snd nd), e_end (snd nd)))) (arc (vis e)).
Definition lat_view (e : es (dict * nat)) := map (fun kd => (fst kd, e_ver (snd kd))) (lat (vis e)).

(** ** Examples *)
(** C29, C31: arcs of two documents; five changes, a deletion, a resync *)
Definition ex_arcs : list hevent :=
  [ hput [("r1", X 1); ("r2", X 2)]; hcommit 10; HSync false; hput [("r1", X 3); ("r2", X 4)]; hcommit 20; HSync false
  ; hput [("r1", X 5); ("r2", [])]; hcommit 30; HSync true; hput [("r1", X 6); ("r3", X 0)]; hcommit 40; HSync false; HArcs; hput [("r3", X 8)]; hcommit 50 ].
Example C31_example : match run_h 2 hstart ex_arcs with
  | Some (t, calls, cl, e) => toy_happens 2%N False t calls cl e /\ (0 < 2)%N /\
      map fst (arc (vis e)) = [0; 0; 1; 1; 2]%N /\ In 2%N (arcs e)
  | None => False end.
Proof.
  destruct (run_h 2 hstart ex_arcs) as [[[[t calls] cl] e]|] eqn:E; [|vm_compute in E; discriminate].
  split; [exact (run_h_happens 2 False ex_arcs ltac:(vm_compute; discriminate) hstart _ (h_start _ _ _ _ _ _ _ _) E)|].
  vm_compute in E. injection E as <- <- <- <-. vm_compute. auto 10.
Qed.
Example C29_example : match run_h 2 hstart ex_arcs with
  | Some (t, calls, cl, e) => toy_happens 2%N False t calls cl e /\
      exists e', sync toy_parse toy_eq 2 cl db false e = Some e' /\ length (all_docs (live e')) = 9%nat /\ length (all_docs (live e)) = 8%nat
  | None => False end.
Proof.
  destruct (run_h 2 hstart ex_arcs) as [[[[t calls] cl] e]|] eqn:E; [|vm_compute in E; discriminate].
  split; [exact (run_h_happens 2 False ex_arcs ltac:(vm_compute; discriminate) hstart _ (h_start _ _ _ _ _ _ _ _) E)|].
  vm_compute in E. injection E as <- <- <- <-. eexists. split; [vm_compute; reflexivity|]. vm_compute. auto.
Qed.
(** C32, C33: the same history, versions 10 to 40 *)
Example C32_example : match run_h 2 hstart ex_arcs with
  | Some (t, calls, cl, e) => get_rounded_version e 35 = Some 30 /\ get_rounded_version e 9 = None /\ search_at e 35 <> Some []
  | None => False end.
Proof. vm_compute. repeat split. discriminate. Qed.
(** C33: at 20 both records changed, at 10 both were added; at 50 r1 is deleted and r2 comes back *)
Example C33_example : match run_events start ex_each with
  | Some (n, t, s, calls, cl, e) => toy_reaches when_each_commit n t s calls cl e /\ when_each_commit n s (state calls) (get_options cl db) /\
      option_map (fun e' => map (zget (changed_counts e')) [10; 20; 30; 40; 50]) (toy_sync cl db false e) = Some [Some 2; Some 1; Some 1; Some 1; Some 1]%nat
  | None => False end.
Proof.
  destruct (run_events start ex_each) as [[[[[[n t] s] calls] cl] e]|] eqn:E; [|vm_compute in E; discriminate].
  pose proof (run_ok when_each_commit each_commit_b ex_each _ each_commit_b_ok ltac:(vm_compute; reflexivity) E) as H. cbn [reach_sys] in H.
  split; [exact H|]. split.
  - apply each_commit_b_ok. vm_compute in E. injection E as <- <- <- <- <- <-. vm_compute. reflexivity.
  - vm_compute in E. injection E as <- <- <- <- <- <-. vm_compute. reflexivity.
Qed.
(** C44, C55, C57: a sync stops after two of its four operations, one of latest and one arc
    document; then r1 has a pending change *)
Definition ex_fail : list hevent :=
  [ hput [("r1", X 1); ("r2", X 2)]; hcommit 10; HSync false; hput [("r1", X 3); ("r2", X 4)]; hcommit 20; HFail false [3; 0]%nat ].
Example C55_example : match run_h 2000000 hstart (ex_fail ++ [hput [("r1", X 7)]]) with
  | Some (t, calls, cl, e) => toy_happens 2000000%N True t calls cl e /\ ~ no_pending (state calls) /\
      length (all_docs (live e)) = 3%nat /\ length (all_docs (vis e)) = 2%nat
  | None => False end.
Proof.
  destruct (run_h 2000000 hstart (ex_fail ++ [hput [("r1", X 7)]])) as [[[[t calls] cl] e]|] eqn:E; [|vm_compute in E; discriminate].
  split; [exact (run_h_happens 2000000 True (ex_fail ++ [hput [("r1", X 7)]]) (fun _ => I) hstart _ (h_start _ _ _ _ _ _ _ _) E)|].
  vm_compute in E. injection E as <- <- <- <-. split; [|vm_compute; auto].
  intro K. apply (K (lit "r1") [(20, X 3); (10, X 1)] (X 7)). vm_compute. reflexivity.
Qed.
Example C44_example : match run_h 2000000 hstart (removelast ex_fail) with
  | Some (t, calls, cl, e) => toy_happens 2000000%N False t calls cl e /\
      exists e1 ops, sync_plan toy_parse toy_eq 2000000 cl db false e = Some (Some (e1, ops)) /\ length ops = 4%nat /\ NoDup (map strip ops)
  | None => False end.
Proof.
  destruct (run_h 2000000 hstart (removelast ex_fail)) as [[[[t calls] cl] e]|] eqn:E; [|vm_compute in E; discriminate].
  split; [exact (run_h_happens 2000000 False (removelast ex_fail) ltac:(vm_compute; discriminate) hstart _ (h_start _ _ _ _ _ _ _ _) E)|].
  vm_compute in E. injection E as <- <- <- <-. do 2 eexists. split; [vm_compute; reflexivity|]. split; [reflexivity|].
  cbn. repeat constructor; cbn; intuition discriminate.
Qed.
(** C46, C47: a resync after everything was synced; and one after changes without deletions *)
Example C46_example : match run_h 2000000 hstart (removelast ex_fail) with
  | Some (t, calls, cl, e) => has_data (data cl db) = true /\ lat (vis e) = lat (live e) /\
      exists e' e0, toy_sync cl db true e = Some e' /\ toy_sync cl db false empty_es = Some e0 /\ lat_view e = [(lit "r1", 10); (lit "r2", 10)] /\
        lat_view e0 = [(lit "r1", 20); (lit "r2", 20)] /\ arc_view e0 = [(0%N, (10, Some 20)); (0%N, (10, Some 20))]
  | None => False end.
Proof.
  destruct (run_h 2000000 hstart (removelast ex_fail)) as [[[[t calls] cl] e]|] eqn:E; [|vm_compute in E; discriminate].
  vm_compute in E. injection E as <- <- <- <-. split; [reflexivity|]. split; [reflexivity|]. do 2 eexists. split; [vm_compute; reflexivity|]. split; [vm_compute; reflexivity|]. vm_compute. auto.
Qed.
Example C47_example : match run_events start (ex_each ++ [Sync]) with
  | Some (n, t, s, calls, cl, e) => n = 0%nat /\ toy_reaches when_each_commit n t s calls cl e /\ when_each_commit n s (state calls) (get_options cl db) /\
      option_map arc_view (resync_arcs toy_parse toy_eq 2000000 cl db e) = Some [(0%N, (10, Some 20)); (0%N, (20, Some 40)); (0%N, (40, Some 50)); (0%N, (10, Some 30))]
  | None => False end.
Proof.
  destruct (run_events start (ex_each ++ [Sync])) as [[[[[[n t] s] calls] cl] e]|] eqn:E; [|vm_compute in E; discriminate].
  pose proof (run_ok when_each_commit each_commit_b (ex_each ++ [Sync]) _ each_commit_b_ok ltac:(vm_compute; reflexivity) E) as H. cbn [reach_sys] in H.
  split; [vm_compute in E; congruence|]. split; [exact H|]. split.
  - apply each_commit_b_ok. vm_compute in E. injection E as <- <- <- <- <- <-. vm_compute. reflexivity.
  - vm_compute in E. injection E as <- <- <- <- <- <-. vm_compute. reflexivity.
Qed.
(** C57: only an operation of latest was written *)
Example C57_example : match run_h 2000000 hstart (removelast ex_fail) with
  | Some (t, calls, cl, e) => lat (vis e) = lat (live e) /\ exists e1 ops, sync_plan toy_parse toy_eq 2000000 cl db false e = Some (Some (e1, ops)) /\
      map is_arc_op ops = [true; false; true; false] /\ existsb is_arc_op (pick [3%nat] ops) = false /\ write_live (pick [3%nat] ops) e1 <> e1
  | None => False end.
Proof.
  destruct (run_h 2000000 hstart (removelast ex_fail)) as [[[[t calls] cl] e]|] eqn:E; [|vm_compute in E; discriminate].
  vm_compute in E. injection E as <- <- <- <-. split; [reflexivity|]. do 2 eexists. split; [vm_compute; reflexivity|]. split; [reflexivity|]. split; [reflexivity|]. vm_compute. discriminate.
Qed.

(** ** Where the full claims fail *)
(** C33: at 20 r1 is changed and r2 is added: two records, the count is 1 *)
Theorem C33_changed_counts_refuted : exists n t s calls cl e e',
  toy_reaches when_each_commit n t s calls cl e /\ when_each_commit n s (state calls) (get_options cl db) /\ toy_sync cl db false e = Some e' /\
  changed_at e' 20 (lit "r1") /\ changed_at e' 20 (lit "r2") /\ zget (changed_counts e') 20 = Some 1%nat.
Proof.
  set (l := [ put [("r1", X 1)]; commit_at 10; Sync; put [("r1", X 3); ("r2", X 2)]; commit_at 20 ]).
  destruct (run_events start l) as [[[[[[n t] s] calls] cl] e]|] eqn:E; [|vm_compute in E; discriminate].
  pose proof (run_ok when_each_commit each_commit_b l _ each_commit_b_ok ltac:(vm_compute; reflexivity) E) as H. cbn [reach_sys] in H.
  exists n, t, s, calls, cl, e. vm_compute in E. injection E as <- <- <- <- <- <-. eexists.
  split; [exact H|]. split; [apply each_commit_b_ok; vm_compute; reflexivity|]. split; [vm_compute; reflexivity|]. unfold changed_at.
  split; [eexists; split; [left; reflexivity|]; split; [reflexivity|left; reflexivity]|].
  split; [eexists; split; [right; left; reflexivity|]; split; [reflexivity|left; reflexivity]|]. vm_compute. reflexivity.
Qed.
(** C46: r1 is deleted, then a resync instead of a sync: r1 stays in latest and is found at the current
    version *)
Theorem C46_resync_exact_refuted : exists t calls cl e e' e0 d hits,
  toy_happens 2000000%N False t calls cl e /\ no_pending (state calls) /\ toy_sync cl db true e = Some e' /\ toy_sync cl db false empty_es = Some e0 /\
  now_data (committed (state calls) (lit "r1")) [] /\ lat_of (lit "r1") (vis e0) = [] /\ lat_of (lit "r1") (vis e') = [d] /\ search_at e' 20 = Some hits /\ In d hits.
Proof.
  set (l := [ hput [("r1", X 1); ("r2", X 2)]; hcommit 10; HSync false; hput [("r1", []); ("r2", X 3)]; hcommit 20 ]).
  destruct (run_h 2000000 hstart l) as [[[[t calls] cl] e]|] eqn:E; [|vm_compute in E; discriminate].
  pose proof (run_h_happens 2000000 False l ltac:(vm_compute; discriminate) hstart _ (h_start _ _ _ _ _ _ _ _) E) as H. cbn [happens_sys] in H.
  exists t, calls, cl, e. vm_compute in E. injection E as <- <- <- <-. do 4 eexists.
  split; [exact H|]. split; [apply no_pending_b_ok; vm_compute; reflexivity|]. split; [vm_compute; reflexivity|]. split; [vm_compute; reflexivity|].
  split; [|split; [vm_compute; reflexivity|split; [vm_compute; reflexivity|split; [vm_compute; reflexivity|vm_compute; auto]]]].
  exists 20. assert (K : committed (state [CIngest db None [(lit "r1", X 1); (lit "r2", X 2)]; CCommit db 10; CIngest db None [(lit "r1", []); (lit "r2", X 3)]; CCommit (O := nat) db 20]) (lit "r1") = [(20, []); (10, X 1)]) by (vm_compute; reflexivity).
  refine (eq_ind_r (fun h => In (20, []) h /\ (forall w y, In (w, y) h -> w <= 20)) _ K). split; [left; reflexivity|]. intros w y [Q|[Q|[]]]; injection Q as <- _; lia.
Qed.
(** C47: [resync_arcs] while a commit is not synced. The next sync thinks that everything is synced: r2,
    committed, is never indexed, and r1 is found twice at the version before. *)
Theorem C47_then_sync_refuted : exists t calls cl e e1 e',
  toy_happens 2000000%N False t calls cl e /\ no_pending (state calls) /\
  resync_arcs toy_parse toy_eq 2000000 cl db e = Some e1 /\ toy_sync cl db false e1 = Some e' /\ e' = e1 /\
  In (20, X 9) (committed (state calls) (lit "r2")) /\ (forall d, In d (all_docs (vis e')) -> e_id d <> lit "r2") /\
  option_map (map (fun d => (e_id d, e_ver d))) (search_at e' 19) = Some [(lit "r1", 10); (lit "r1", 10)].
Proof.
  set (l := [ hput [("r1", X 1)]; hcommit 10; HSync false; hput [("r1", X 3); ("r2", X 9)]; hcommit 20 ]).
  destruct (run_h 2000000 hstart l) as [[[[t calls] cl] e]|] eqn:E; [|vm_compute in E; discriminate].
  pose proof (run_h_happens 2000000 False l ltac:(vm_compute; discriminate) hstart _ (h_start _ _ _ _ _ _ _ _) E) as H. cbn [happens_sys] in H.
  exists t, calls, cl, e. vm_compute in E. injection E as <- <- <- <-. do 2 eexists.
  split; [exact H|]. split; [apply no_pending_b_ok; vm_compute; reflexivity|]. split; [vm_compute; reflexivity|]. split; [vm_compute; reflexivity|]. split; [reflexivity|].
  split; [vm_compute; auto|]. split; [|vm_compute; reflexivity]. intros d Hd. vm_compute in Hd. repeat (destruct Hd as [<-|Hd]; [vm_compute; discriminate|]). destruct Hd.
Qed.
(** C57: the sync stops after an arc document of r1 was written; after the repetition r1 is found twice
    at version 10. *)
Theorem C57_repeat_refuted : exists t calls cl e e',
  toy_happens 2000000%N True t calls cl e /\ no_pending (state calls) /\ toy_sync cl db false e = Some e' /\
  option_map (map (fun d => (e_id d, e_ver d))) (search_at e' 10) = Some [(lit "r1", 10); (lit "r1", 10); (lit "r2", 10)].
Proof.
  destruct (run_h 2000000 hstart ex_fail) as [[[[t calls] cl] e]|] eqn:E; [|vm_compute in E; discriminate].
  pose proof (run_h_happens 2000000 True ex_fail (fun _ => I) hstart _ (h_start _ _ _ _ _ _ _ _) E) as H. cbn [happens_sys] in H.
  exists t, calls, cl, e. vm_compute in E. injection E as <- <- <- <-. eexists.
  split; [exact H|]. split; [apply no_pending_b_ok; vm_compute; reflexivity|]. split; vm_compute; reflexivity.
Qed.
Print Assumptions C33_changed_counts_refuted.
Print Assumptions C46_resync_exact_refuted.
Print Assumptions C47_then_sync_refuted.
Print Assumptions C57_repeat_refuted.
