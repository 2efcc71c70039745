(** Properties C42, C43, C45: the bulk writer under every schedule, with and without faults. *)
From Coq Require Import List ZArith NArith Bool Lia Permutation.
From Verif Require Import PyVal Diff Prepare PrepareProofs PropsPrepare Mongo Client Index IndexProofs Sync SyncSpec SyncProofs SyncBuild SyncColl SyncMore SyncArcs SyncEvents Workers WorkersProofs.
Import ListNotations.
Open Scope nat_scope.

(** ** Specification *)
Definition no_faults (_ : fault) : Prop := False.
Definition timeouts (f : fault) : Prop := f = Timeout.
Definition any_fault (_ : fault) : Prop := True.

Section Props.
Context {P : Type}.
Notation bop := (bop P).
Notation st := (@st P).
Variable buffer : nat.

Definition returned (s : st) (indexed deleted : nat) : Prop := s_main s = MReturned indexed deleted.
Definition has_raised (s : st) : Prop := s_main s = MRaised.
Definition error (s : st) : Prop := exists n, nth_error (workers s) n = Some WFailed.
(** No task can do anything. *)
Definition stuck (ft : fault -> Prop) (s : st) : Prop := forall s', ~ step buffer ft s s'.
(** [n] steps *)
Inductive run (ft : fault -> Prop) : nat -> st -> st -> Prop :=
| run_none s : run ft 0 s s
| run_more n s s' s'' : run ft n s s' -> step buffer ft s' s'' -> run ft (S n) s s''.
(** The operations that delete a document; the others index one. *)
Fixpoint deletions (ops : list bop) : nat := match ops with [] => 0 | BDeleteLatest _ :: r => S (deletions r) | _ :: r => deletions r end.
(** The operations address each document of latest at most once (C44: those of a sync do). *)
Definition one_per_document (ops : list bop) : Prop := forall id, length (filter is_lat (of_id id ops)) <= 1.

Lemma reach_inv ft ops size count e s : 1 <= size -> steps buffer ft (begin ops size count e) s -> inv (P := P) ops count e s.
Proof.
  intros Hs H. remember (begin ops size count e) as s0 eqn:E. induction H as [s|s s' s'' _ IH Hst]; subst; [apply begin_inv, Hs|].
  apply (step_inv buffer ft ops size count e Hs s' s''); auto.
Qed.


(** ** Termination *)
Definition w_size (w : @worker P) : nat := match w with WSend _ a _ _ => 1 + (4 - a) | _ => 0 end.
Definition m_size (count : nat) (m : @main P) : nat :=
  match m with
  | MFeed rest => 8 * length rest + 7 * count + 4
  | MPut _ rest => 8 * length rest + 7 + 7 * count + 4
  | MStop k => 7 * k + 3
  | MJoin => 2 | MGather => 1 | MReturned _ _ | MRaised => 0
  end.
Definition size_of (s : st) : nat := m_size (length (workers s)) (s_main s) + 6 * length (queue s) + sum w_size (workers s).
Lemma step_size ft s s' : step buffer ft s s' -> size_of s' < size_of s.
Proof.
  intros H. unfold size_of. destruct H; cbn [s_main workers queue];
  try (rewrite ?app_length; cbn [m_size length]; lia);
  try (match goal with Hn : nth_error ?ws ?n = Some ?w |- context [upd ?n ?w' ?ws] => pose proof (sum_upd w_size ws n w w' Hn) as U; cbn [w_size] in U end; rewrite upd_length; cbn [length]; unfold retries in *; lia).
  - unfold check. rewrite app_length. destruct (existsb failed ws); cbn [m_size length]; lia.
  - unfold check. destruct (existsb failed ws); cbn [m_size length]; lia.
Qed.
Lemma run_size ft n s s' : run ft n s s' -> n + size_of s' <= size_of s.
Proof. intro H. induction H as [s|n s s' s'' _ IH Hst]; [lia|]. apply step_size in Hst. lia. Qed.

(** ** Progress *)
Lemma nobody (f : @worker P -> nat) ws : sum f ws = 0 -> forall n w, nth_error ws n = Some w -> f w = 0.
Proof. intros H n w Hn. pose proof (sum_ge f ws n w Hn). lia. Qed.
Lemma somebody (f : @worker P -> nat) ws : sum f ws <> 0 -> exists n w, nth_error ws n = Some w /\ f w <> 0.
Proof.
  induction ws as [|w ws IH]; intro H; [contradiction|]. cbn [sum fold_right] in H. destruct (f w) eqn:E; [|exists 0, w; split; [reflexivity|lia]].
  destruct (IH H) as (n & w' & H1 & H2). exists (S n), w'. auto.
Qed.
Lemma idle_there (ws : list (@worker P)) : sum is_sending ws = 0 -> sum is_failed ws + sum is_done ws < length ws -> exists n i d, nth_error ws n = Some (WIdle i d).
Proof.
  induction ws as [|w ws IH]; intros H1 H2; [cbn in H2; lia|]. cbn [sum fold_right length] in *. fold (sum (@is_sending P) ws) in *. fold (sum (@is_failed P) ws) in *. fold (sum (@is_done P) ws) in *.
  destruct w as [i d|c a i d|i d|]; cbn [is_sending is_failed is_done] in *; [exists 0, i, d; reflexivity|lia| |]; destruct IH as (n & i' & d' & Hn); try lia; exists (S n), i', d'; exact Hn.
Qed.
Lemma worker_step ft ops count e s : inv (P := P) ops count e s -> queue s <> [] \/ sum is_sending (workers s) <> 0 ->
  (sum is_sending (workers s) = 0 -> sum is_failed (workers s) + sum is_done (workers s) < length (workers s)) -> exists s', step buffer ft s s'.
Proof.
  intros _ Hq Hw. destruct s as [m q u ws e' sn lg ls]. cbn [queue workers] in *. destruct (Nat.eq_dec (sum is_sending ws) 0) as [E|E].
  - destruct Hq as [Hq|Hq]; [|contradiction]. destruct (idle_there ws E (Hw E)) as (n & i & d & Hn). destruct q as [|o q]; [contradiction|].
    destruct o as [[|x c]|]; eexists; [eapply w_stop; eauto|eapply w_take; eauto|eapply w_stop; eauto].
  - destruct (somebody is_sending ws E) as (n & w & Hn & K). destruct w; cbn in K; try contradiction. eexists. eapply w_sent, Hn.
Qed.
Lemma not_full_dec (q : list (option (list bop))) : {not_full buffer q} + {~ not_full buffer q}.
Proof. unfold not_full. destruct (Nat.eq_dec buffer 0) as [E|E]; [left; auto|]. destruct (lt_dec (length q) buffer); [left; auto|right; lia]. Qed.
Lemma all_done (ws : list (@worker P)) : sum is_done ws = length ws -> exists i d, total ws = Some (i, d).
Proof.
  assert (G : forall ws : list (@worker P), sum is_done ws <= length ws) by (clear; induction ws as [|w ws IH]; [cbn; lia|]; cbn [sum fold_right length]; fold (sum (@is_done P) ws); destruct w; cbn [is_done]; lia).
  induction ws as [|w ws IH]; intro H; [exists 0, 0; reflexivity|]. cbn [sum fold_right length] in H. fold (sum (@is_done P) ws) in H. pose proof (G ws). destruct w as [i d|c a i d|i d|]; cbn [is_done] in H; try lia.
  destruct (IH ltac:(lia)) as (i' & d' & E). cbn [total counts]. rewrite E. eauto.
Qed.
Definition feeding (m : @main P) : bool := match m with MFeed (_ :: _) | MPut _ _ => true | _ => false end.
Lemma progress ft ops count e s : inv (P := P) ops count e s -> 1 <= count -> ~ has_raised s -> (forall i d, ~ returned s i d) ->
  sum is_failed (workers s) = 0 \/ feeding (s_main s) = true /\ sum is_failed (workers s) < count -> exists s', step buffer ft s s'.
Proof.
  intros I Hc Hr Ht Hf. pose proof (worker_step ft ops count e s I) as WS. destruct I as [Hlen _ _ _ _ _ Hunf (a & b & Hq & Ha & Hb & Hd) _ Hj _]. unfold has_raised, returned in *.
  destruct s as [m q u ws e' sn lg ls]. cbn [s_main workers queue unfinished] in *. destruct m as [rest|c rest|k| | |i d|]; cbn [raised stops joined feeding] in *; try specialize (Hb eq_refl).
  - destruct rest; eexists; [apply s_feed_done|apply s_setup].
  - destruct (not_full_dec q) as [F|F]; [eexists; apply s_put, F|]. assert (q <> []) by (intros ->; apply F; unfold not_full; cbn; lia).
    apply WS; [auto|]. intros _. destruct Hf as [Hf|[_ Hf]]; lia.
  - destruct Hf as [Hf|[Hf _]]; [|discriminate]. destruct k as [|k]; [eexists; apply s_stopped|].
    destruct (not_full_dec q) as [F|F]; [eexists; apply s_stop, F|]. assert (q <> []) by (intros ->; apply F; unfold not_full; cbn; lia).
    apply WS; [auto|]. intros _. lia.
  - destruct Hf as [Hf|[Hf _]]; [|discriminate]. destruct u as [|u]; [eexists; apply s_join|]. apply WS.
    + destruct q; [right; cbn in Hunf; lia|left; discriminate].
    + intros Es. destruct a as [|x a].
      * destruct b as [|b]; [cbn in Hq; subst q; cbn in Hunf; lia|]. lia.
      * assert (sum is_done ws = 0) by (destruct (sum is_done ws) eqn:E; [reflexivity|exfalso; assert (K : x :: a = []) by (apply Hd; lia); discriminate]). lia.
  - destruct Hf as [Hf|[Hf _]]; [|discriminate]. specialize (Hj eq_refl). assert (Eq : q = []) by (destruct q; [reflexivity|cbn in Hunf; lia]). rewrite Eq in Hq. symmetry in Hq. apply app_eq_nil in Hq. destruct Hq as [_ Hq].
    assert (b = 0) by (destruct b; [reflexivity|discriminate]). destruct (all_done ws) as (i & d & E); [lia|]. eexists. apply s_gather, E.
  - exfalso. exact (Ht i d eq_refl).
  - exfalso. exact (Hr eq_refl).
Qed.

(** ** What is written *)
Lemma all_same (o : bop) (l : list bop) : l <> [] -> (forall x, In x l -> x = o) -> forall k, lat_run k l = lat_eff k o.
Proof.
  unfold lat_run. induction l as [|x l IH]; intros Hn Ha k; [contradiction|]. cbn [fold_left]. rewrite (Ha x (or_introl eq_refl)). destruct l as [|y l]; [reflexivity|].
  rewrite IH; [|discriminate|intros z Hz; apply Ha; right; exact Hz]. destruct o; reflexivity.
Qed.
Lemma lat_run_more (ops log lost : list bop) id k : Permutation log (ops ++ lost) -> only lost ops -> one_per_document ops ->
  lat_run k (of_id id log) = lat_run k (of_id id ops).
Proof.
  intros Hp Ho H1. rewrite (lat_run_filter (of_id id log)), (lat_run_filter (of_id id ops)).
  assert (Hin : forall x, In x (filter is_lat (of_id id log)) <-> In x (filter is_lat (of_id id ops))).
  { intro x. unfold of_id. rewrite !filter_In. split; intros [[A1 A2] A3]; (split; [split; [|exact A2]|exact A3]).
    - apply (Permutation_in _ Hp) in A1. apply in_app_or in A1. destruct A1 as [A1|A1]; [exact A1|apply Ho, A1].
    - apply (Permutation_in _ (Permutation_sym Hp)), in_or_app. left. exact A1. }
  specialize (H1 id). destruct (filter is_lat (of_id id ops)) as [|o [|o' l]] eqn:E; [| |cbn in H1; lia].
  - destruct (filter is_lat (of_id id log)) as [|x m]; [reflexivity|]. destruct (proj1 (Hin x) (or_introl eq_refl)).
  - rewrite (all_same o (filter is_lat (of_id id log))); [reflexivity| |].
    + intro K. assert (Q : In o (filter is_lat (of_id id log))) by (apply Hin; left; reflexivity). rewrite K in Q. destruct Q.
    + intros x Hx. apply Hin in Hx. destruct Hx as [->|[]]. reflexivity.
Qed.
(** Latest, and which indices exist, are the same; the arcs of [e'] have the documents [more] in addition. *)
Definition same_but_arcs (more : list (N * esdoc P)) (e' e : es P) : Prop :=
  (forall id, lat_of id (live e') = lat_of id (live e) /\ lat_of id (vis e') = lat_of id (vis e)) /\
  Permutation (arc (live e')) (arc (live e) ++ more) /\ Permutation (arc (vis e')) (arc (vis e) ++ more) /\
  arcs e' = arcs e /\ has_lat e' = has_lat e.
Lemma finish_docs (ops lg ls : list bop) (e : es P) : Permutation lg (ops ++ ls) -> only ls ops -> one_per_document ops ->
  same_but_arcs (flat_map arc_pair ls) (refresh ops (write_live lg (setup ops e))) (write_ops ops e).
Proof.
  intros Hp Ho H1.
  assert (Hl : only lg ops) by (intros x Hx; apply (Permutation_in _ Hp) in Hx; apply in_app_or in Hx; destruct Hx; auto).
  rewrite (write_known ops lg e Hl). unfold write_ops.
  assert (L : forall id, lat_of id (apply_bops (live e) lg) = lat_of id (apply_bops (live e) ops)) by (intro id; rewrite !lat_of_apply; exact (lat_run_more ops lg ls id _ Hp Ho H1)).
  assert (A : Permutation (arc (apply_bops (live e) lg)) (arc (apply_bops (live e) ops) ++ flat_map arc_pair ls)).
  { rewrite !arc_apply, <- app_assoc. apply Permutation_app_head. rewrite <- flat_map_app. apply flat_map_perm, Hp. }
  assert (Hs : filter (fun nx => arc_seen ops (fst nx)) (flat_map arc_pair ls) = flat_map arc_pair ls).
  { apply filter_all. intros [n x] Hx. cbn [fst]. apply in_flat_map in Hx. destruct Hx as (o & Hx1 & Hx2). destruct o; cbn in Hx2; try contradiction. destruct Hx2 as [K|[]]. injection K as -> ->.
    apply existsb_exists. exists (BIndexArc n x). split; [apply Ho, Hx1|apply N.eqb_refl]. }
  unfold refresh, carry_out, write_live, setup. destruct ops as [|o ops0].
  - cbn [isnil live vis arcs has_lat]. unfold same_but_arcs. cbn [live vis arcs has_lat]. auto.
  - set (ops := o :: ops0) in *. change (isnil ops) with false. cbv iota. unfold same_but_arcs. cbn [live vis arcs has_lat]. split; [|split; [exact A|split; [|split; reflexivity]]].
    + intro id. split; [exact (L id)|]. unfold lat_of. cbn [lat]. destruct (lat_seen ops); [exact (L id)|reflexivity].
    + cbn [arc]. rewrite (filter_perm _ _ _ A), filter_app, Hs, <- !app_assoc. apply Permutation_app_head, Permutation_app_comm.
Qed.
Lemma lost_none (ft : fault -> Prop) (s s' : st) : (forall f, ft f -> False) -> lost s = [] -> steps buffer ft s s' -> lost s' = [].
Proof.
  intros Hf H Hs. induction Hs as [s|s s' s'' _ IH Hst]; [exact H|]. specialize (IH H). destruct Hst; cbn [lost] in *; auto; exfalso; eapply Hf; eauto.
Qed.
Lemma returned_log ft ops size count e s i d : 1 <= size -> steps buffer ft (begin ops size count e) s -> returned s i d ->
  Permutation (log s) (ops ++ lost s) /\ only (lost s) ops /\ seen s = ops /\ i = n_indexed ops /\ d = n_deleted ops /\ finish s = refresh ops (write_live (log s) (setup ops e)).
Proof.
  intros Hs H Hr. pose proof (reach_inv ft ops size count e s Hs H) as [Hlen (done & gone & Hlog & Hops & Hgone & Hcnt) Hlost (rest & Hseen & Hrest) Hes _ Hunf _ _ Hj Hret]. unfold returned in Hr.
  specialize (Hret i d Hr). rewrite Hr in *. cbn [raised joined pend to_set_up concat] in *. specialize (Hj eq_refl). rewrite (Hrest eq_refl), app_nil_r in Hseen.
  pose proof (total_none_failed _ _ Hret) as Hf. rewrite (Hgone eq_refl Hf) in Hops. destruct (Hcnt Hf) as [C1 C2]. destruct (total_sum _ _ _ Hret) as (-> & -> & _).
  assert (Eq : queue s = []) by (destruct (queue s); [reflexivity|cbn in Hunf; lia]). rewrite Eq in Hops. cbn [of_queue flat_map concat] in Hops.
  assert (Es : flat_map sending (workers s) = []).
  { assert (Hz : sum is_sending (workers s) = 0) by lia. revert Hz. generalize (workers s). induction l as [|w l IH]; intro Hz; [reflexivity|]. cbn [sum fold_right flat_map] in *. fold (sum (@is_sending P) l) in Hz.
    destruct w; cbn [is_sending sending] in *; try lia; apply IH; lia. }
  rewrite Es in Hops. cbn [app] in Hops. rewrite app_nil_r in Hops.
  split; [rewrite Hlog; apply Permutation_app_tail, Hops|]. split; [exact Hlost|]. split; [exact Hseen|].
  assert (N1 : n_indexed done = n_indexed ops) by (unfold n_indexed; apply Permutation_length, filter_perm, Hops).
  assert (N2 : n_deleted done = n_deleted ops) by (unfold n_deleted; apply Permutation_length, filter_perm, Hops).
  split; [congruence|]. split; [congruence|]. unfold finish. rewrite Hes, Hseen. reflexivity.
Qed.

Lemma counts_ops (ops : list bop) : n_deleted ops = deletions ops /\ n_indexed ops = length ops - deletions ops.
Proof.
  assert (G : n_deleted ops = deletions ops /\ n_indexed ops + deletions ops = length ops); [|lia].
  induction ops as [|o ops [A B]]; [split; reflexivity|]. unfold n_deleted, n_indexed in *. destruct o; cbn [filter is_delete negb length deletions] in *; lia.
Qed.

(** ** C42 *)
(** Every run without faults is finite, never raises, and can go on until it returns. *)
Theorem C42_terminates : forall (ops : list bop) size count (e : es P), 1 <= size -> 1 <= count ->
  exists bound, forall n s, run no_faults n (begin ops size count e) s ->
    n <= bound /\ ~ has_raised s /\ ~ error s /\ ((exists i d, returned s i d) \/ exists s', step buffer no_faults s s').
Proof.
  intros ops size count e Hs Hc. exists (size_of (begin ops size count e)). intros n s H. split; [apply run_size in H; lia|].
  assert (Hst : steps buffer no_faults (begin ops size count e) s).
  { clear -H. induction H as [s|n s s' s'' _ IH Hst]; [constructor|econstructor; eauto]. }
  assert (Hno : ~ has_raised s /\ sum is_failed (workers s) = 0).
  { clear H. remember (begin ops size count e) as s0 eqn:E. induction Hst as [s|s s' s'' _ IH Hst]; subst.
    - split; [discriminate|]. cbn [begin workers]. clear. induction count as [|k IH]; [reflexivity|exact IH].
    - specialize (IH eq_refl). destruct IH as [I1 I2]. unfold has_raised in *. destruct Hst; cbn [s_main workers] in *; try (split; [discriminate|assumption]); try contradiction;
      try (match goal with Hn : nth_error ?ws ?n = Some ?w |- context [upd ?n ?w' ?ws] => pose proof (sum_upd is_failed ws n w w' Hn) as U; cbn [is_failed] in U end; split; [assumption|lia]).
      + unfold check. rewrite (proj2 (no_failed size Hs ws) I2). split; [discriminate|assumption].
      + unfold check. rewrite (proj2 (no_failed size Hs ws) I2). split; [discriminate|assumption].
      + apply (no_failed size Hs) in I2. congruence. }
  destruct Hno as [N1 N2]. split; [exact N1|]. split.
  - intros (k & Hk). pose proof (sum_ge is_failed _ _ _ Hk) as G. cbn in G. lia.
  - destruct (s_main s) as [| | | | |i d|] eqn:Em; try (right; apply (progress no_faults ops count e s (reach_inv _ _ _ _ _ _ Hs Hst) Hc N1); [intros i d K; unfold returned in K; congruence|left; exact N2]). left. exists i, d. exact Em.
Qed.
(** When it returns, every operation was carried out exactly once, the counts and indices are exact, and
    after the refresh the indices are those of carrying out the operations in order. *)
Theorem C42_exactly_once : forall (ops : list bop) size count (e : es P) s indexed deleted, 1 <= size ->
  steps buffer no_faults (begin ops size count e) s -> returned s indexed deleted ->
  Permutation (log s) ops /\ seen s = ops /\ deleted = deletions ops /\ indexed = length ops - deletions ops /\
  (one_per_document ops -> same_indices (finish s) (write_ops ops e)).
Proof.
  intros ops size count e s i d Hs H Hr. destruct (returned_log _ _ _ _ _ _ _ _ Hs H Hr) as (A1 & A2 & A3 & A4 & A5 & A6).
  assert (Hl : lost s = []) by (apply (lost_none no_faults (begin ops size count e)); auto). rewrite Hl, app_nil_r in A1.
  destruct (counts_ops ops) as [N1 N2]. split; [exact A1|]. split; [exact A3|]. split; [congruence|]. split; [congruence|]. intro H1. rewrite A6. destruct (finish_docs ops (log s) [] e) as (B1 & B2 & B3 & B4 & B5); [rewrite app_nil_r; exact A1|intros x []|exact H1|].
  cbn [flat_map] in *. rewrite app_nil_r in B2, B3. split; [split; [apply B1|exact B2]|]. split; [split; [apply B1|exact B3]|]. rewrite B4, B5. split; [tauto|reflexivity].
Qed.

(** ** C43 *)
Lemma error_sum (s : st) : error s <-> sum is_failed (workers s) > 0.
Proof.
  split.
  - intros (n & Hn). pose proof (sum_ge is_failed _ _ _ Hn). cbn in *. lia.
  - intro H. destruct (somebody is_failed (workers s)) as (n & w & Hn & K); [lia|]. destruct w; cbn in K; try contradiction. exists n. exact Hn.
Qed.
Lemma failed_stays ft s s' : error s -> step buffer ft s s' -> error s'.
Proof.
  rewrite !error_sum. intros H Hst. destruct Hst; cbn [workers] in *; auto;
  try (match goal with Hn : nth_error ?ws ?n = Some ?w |- context [upd ?n ?w' ?ws] => pose proof (sum_upd is_failed ws n w w' Hn) as U; cbn [is_failed] in U end; lia).
Qed.
(** An error is never swallowed: after a worker failed, write_ops never returns. *)
Theorem C43_never_returns : forall ft (ops : list bop) size count (e : es P) s s', 1 <= size ->
  steps buffer ft (begin ops size count e) s -> error s -> steps buffer ft s s' -> forall i d, ~ returned s' i d.
Proof.
  intros ft ops size count e s s' Hs H He H' i d Hr.
  assert (E' : error s') by (clear Hr; induction H' as [s|s s1 s2 _ IH Hst]; [exact He|exact (failed_stays _ _ _ (IH H He) Hst)]).
  assert (H2 : steps buffer ft (begin ops size count e) s') by (clear E' Hr He; induction H' as [s|s s1 s2 _ IH Hst]; [exact H|exact (steps_more _ _ _ _ _ (IH H) Hst)]).
  apply error_sum in E'. pose proof (reach_inv _ _ _ _ _ _ Hs H2) as I. rewrite (total_none_failed _ _ (i_ret _ _ _ _ I i d Hr)) in E'. lia.
Qed.
(** The main task has given out the last chunk. *)
Definition feeding_done (m : @main P) : bool := match m with MFeed [] | MStop _ | MJoin => true | _ => false end.
(** If a worker fails while chunks are left to give out, and another one does not fail, then without further
    faults write_ops raises: every run is finite and one that cannot go on has raised. *)
Theorem C43_error_reported_partial : forall (ops : list bop) size count (e : es P) s, 1 <= size ->
  steps buffer any_fault (begin ops size count e) s -> error s -> feeding (s_main s) = true ->
  (exists n w, nth_error (workers s) n = Some w /\ w <> WFailed) ->
  exists bound, forall n s', run no_faults n s s' -> n <= bound /\ (stuck no_faults s' -> has_raised s').
Proof.
  intros ops size count e s Hs H He Hf Hl. exists (size_of s). intros n s' Hr. split; [apply run_size in Hr; lia|]. intro Hst.
  assert (live_sum : forall s : st, (exists n w, nth_error (workers s) n = Some w /\ w <> WFailed) -> sum is_failed (workers s) < length (workers s)).
  { clear. intros s (n & w & Hn & K). assert (G : forall ws : list (@worker P), sum is_failed ws <= length ws) by (clear; induction ws as [|w ws IH]; [cbn; lia|]; cbn [sum fold_right length]; fold (sum (@is_failed P) ws); destruct w; cbn [is_failed]; lia).
    revert n Hn. generalize (workers s). induction l as [|x l IH]; intros [|n] Hn; try discriminate; cbn [nth_error sum fold_right length] in *; fold (sum (@is_failed P) l).
    - injection Hn as ->. specialize (G l). destruct w; cbn [is_failed]; try lia. congruence.
    - specialize (IH n Hn). destruct x; cbn [is_failed]; lia. }
  assert (G : inv ops count e s' /\ sum is_failed (workers s') > 0 /\ (has_raised s' \/ feeding (s_main s') = true /\ sum is_failed (workers s') < length (workers s'))).
  { clear Hst. apply error_sum in He. induction Hr as [s|n s s1 s2 _ IH Hst]; [split; [exact (reach_inv _ _ _ _ _ _ Hs H)|]; split; [exact He|]; right; split; [exact Hf|apply live_sum, Hl]|].
    destruct (IH H He Hf Hl) as (I & E1 & E2). clear IH H He Hf Hl. split; [eapply (step_inv buffer _ ops size count e Hs); eauto|]. unfold has_raised in *.
    destruct Hst; cbn [s_main workers feeding] in *; try contradiction;
    try (match goal with Hn : nth_error ?ws ?n = Some ?w |- context [upd ?n ?w' ?ws] => pose proof (sum_upd is_failed ws n w w' Hn) as U; cbn [is_failed] in U; rewrite upd_length end; split; [lia|]; destruct E2 as [E2|[E2 E3]]; [left; exact E2|right; split; [exact E2|lia]]);
    try (destruct E2 as [E2|[E2 E3]]; try discriminate).
    - split; [exact E1|]. right. auto.
    - unfold check. assert (K : existsb failed ws = true) by (destruct (existsb failed ws) eqn:K; [reflexivity|apply (no_failed size Hs) in K; lia]). rewrite K. auto. }
  destruct G as (I & G1 & [G|[G2 G3]]); [exact G|]. exfalso. destruct (s_main s') eqn:Em; cbn in G2; try discriminate.
  all: destruct (progress no_faults ops count e s' I) as (s2 & K); [rewrite <- (i_len _ _ _ _ I); lia|unfold has_raised; congruence|intros i d K; unfold returned in K; congruence|right; rewrite <- (i_len _ _ _ _ I), Em; split; [exact G2|exact G3]|exact (Hst s2 K)].
Qed.
(** If a worker fails after the last chunk was given out, write_ops neither raises nor returns, ever. *)
Theorem C43_hangs_after_last_chunk : forall ft (ops : list bop) size count (e : es P) s, 1 <= size ->
  steps buffer ft (begin ops size count e) s -> error s -> feeding_done (s_main s) = true ->
  exists bound, forall n s', run ft n s s' -> n <= bound /\ ~ has_raised s' /\ forall i d, ~ returned s' i d.
Proof.
  intros ft ops size count e s Hs H He Hf. exists (size_of s). intros n s' Hr. split; [apply run_size in Hr; lia|].
  assert (G : inv ops count e s' /\ sum is_failed (workers s') > 0 /\ feeding_done (s_main s') = true).
  { apply error_sum in He. induction Hr as [s|n s s1 s2 _ IH Hst]; [split; [exact (reach_inv _ _ _ _ _ _ Hs H)|auto]|].
    destruct (IH H He Hf) as (I & E1 & E2). clear IH H He Hf. split; [eapply (step_inv buffer _ ops size count e Hs); eauto|].
    destruct Hst; cbn [s_main workers feeding_done] in *; try discriminate;
    try (match goal with Hn : nth_error ?ws ?n = Some ?w |- context [upd ?n ?w' ?ws] => pose proof (sum_upd is_failed ws n w w' Hn) as U; cbn [is_failed] in U end; split; [lia|exact E2]); auto.
    exfalso. pose proof (i_unf _ _ _ _ I) as U. cbn [unfinished queue workers] in U. lia. }
  destruct G as (_ & _ & G). split; [unfold has_raised; intro K; rewrite K in G; discriminate|]. intros i d K. unfold returned in K. rewrite K in G. discriminate.
Qed.

(** ** C45 *)
(** For every schedule and every pattern of timeouts: if write_ops returns, latest is what it should be,
    and the arcs have in addition exactly the arc documents that timed out requests had written. *)
Theorem C45_timeouts_general : forall (ops : list bop) size count (e : es P) s indexed deleted, 1 <= size -> one_per_document ops ->
  steps buffer timeouts (begin ops size count e) s -> returned s indexed deleted ->
  only (lost s) ops /\ same_but_arcs (flat_map arc_pair (lost s)) (finish s) (write_ops ops e).
Proof.
  intros ops size count e s i d Hs H1 H Hr. destruct (returned_log _ _ _ _ _ _ _ _ Hs H Hr) as (A1 & A2 & A3 & A4 & A5 & A6).
  split; [exact A2|]. rewrite A6. apply finish_docs; assumption.
Qed.
(** So timeouts are harmless if the timed out requests had not written arc documents. *)
Theorem C45_timeouts_partial : forall (ops : list bop) size count (e : es P) s indexed deleted, 1 <= size -> one_per_document ops ->
  steps buffer timeouts (begin ops size count e) s -> returned s indexed deleted ->
  (forall o, In o (lost s) -> is_arc_op o = false) -> same_indices (finish s) (write_ops ops e).
Proof.
  intros ops size count e s i d Hs H1 H Hr Ha. destruct (C45_timeouts_general ops size count e s i d Hs H1 H Hr) as (_ & B1 & B2 & B3 & B4 & B5).
  assert (F : flat_map arc_pair (lost s) = []).
  { clear - Ha. induction (lost s) as [|o l IH]; [reflexivity|]. cbn [flat_map]. rewrite IH by (intros; apply Ha; right; assumption). specialize (Ha o (or_introl eq_refl)). destruct o; try reflexivity. discriminate. }
  rewrite F, app_nil_r in B2, B3. split; [split; [apply B1|exact B2]|]. split; [split; [apply B1|exact B3]|]. rewrite B4, B5. split; [tauto|reflexivity].
Qed.

Lemma nth_upd {A} (ws : list A) : forall k w m x, nth_error (upd k w ws) m = Some x -> (m = k /\ x = w) \/ (m <> k /\ nth_error ws m = Some x).
Proof.
  induction ws as [|y ws IH]; intros k w m x H; [destruct k, m; discriminate H|]. destruct k as [|k]; cbn [upd] in H; destruct m as [|m]; cbn [nth_error] in H.
  - injection H as <-. left. auto.
  - right. split; [discriminate|exact H].
  - right. split; [discriminate|exact H].
  - destruct (IH k w m x H) as [[-> ->]|[A1 A2]]; [left; auto|right; split; [congruence|exact A2]].
Qed.
(** A request is given up only when it has timed out four times. *)
Theorem C45_attempts : forall (ops : list bop) size count (e : es P) s n c timed_out i d,
  steps buffer timeouts (begin ops size count e) s -> nth_error (workers s) n = Some (WSend c timed_out i d) ->
  timed_out <= 3 /\ forall s', step buffer timeouts s s' -> nth_error (workers s') n = Some WFailed -> timed_out = 3.
Proof.
  intros ops size count e s n c a i d H Hn.
  assert (G : forall m c' a' i' d', nth_error (workers s) m = Some (WSend c' a' i' d') -> a' <= 3).
  { clear n c a i d Hn. remember (begin ops size count e) as s0 eqn:E. induction H as [s|s s' s'' _ IH Hst]; subst.
    - intros m c' a' i' d' K. cbn [begin workers] in K. apply nth_error_In, repeat_spec in K. discriminate.
    - specialize (IH eq_refl). assert (U : forall k w ws m c' a' i' d', (forall m c' a' i' d', nth_error ws m = Some (WSend c' a' i' d') -> a' <= 3) -> (forall c' a' i' d', w = WSend c' a' i' d' -> a' <= 3) -> nth_error (upd (A := @worker P) k w ws) m = Some (WSend c' a' i' d') -> a' <= 3).
      { intros k w ws m c' a' i' d' Hw Hk K. apply nth_upd in K. destruct K as [[_ K]|[_ K]]; [exact (Hk _ _ _ _ (eq_sym K))|exact (Hw _ _ _ _ _ K)]. }
      destruct Hst; cbn [workers] in *; try exact IH; intros m0 c' a' i' d' K; refine (U _ _ _ _ _ _ _ _ IH _ K); intros ? ? ? ? Ew; try discriminate Ew; injection Ew as _ <- _ _; try lia. unfold retries in *. lia. }
  split; [exact (G _ _ _ _ _ Hn)|]. intros s' Hst Hf. pose proof (G _ _ _ _ _ Hn) as Ha.
  destruct Hst; cbn [workers] in *; try congruence; try (match goal with F : timeouts _ |- _ => discriminate F end);
    apply nth_upd in Hf; (destruct Hf as [[En K]|[_ K]]; [|congruence]); try discriminate K. subst n. unfold retries in *. assert (a0 = a) by congruence. lia.
Qed.
(** ... [timed_out] is the number of timeouts of the request: none when it is first sent, one more after each. *)
Theorem C45_attempts_counted : forall ft (s s' : st) n c timed_out i d, step buffer ft s s' -> nth_error (workers s') n = Some (WSend c timed_out i d) ->
  nth_error (workers s) n = Some (WIdle i d) /\ timed_out = 0 \/
  nth_error (workers s) n = Some (WSend c timed_out i d) \/
  ft Timeout /\ exists before, timed_out = S before /\ nth_error (workers s) n = Some (WSend c before i d).
Proof.
  intros ft s s' n c a i d Hst Hn. destruct Hst; cbn [workers] in *; try (right; left; exact Hn);
    apply nth_upd in Hn; (destruct Hn as [[-> K]|[_ K]]; [|right; left; exact K]); try discriminate K; injection K as -> -> -> ->.
  - left. auto.
  - right. right. split; [assumption|]. eexists. split; [reflexivity|assumption].
Qed.

(** ** C57: what failures leave *)
(** Whenever the writer stops, whatever went wrong, the state of Elasticsearch is one of those of a failed
    sync in PropsSyncMore: some of the operations were written, some indices created, nothing refreshed. *)
Theorem C57_writer_states : forall ft (ops : list bop) size count (e : es P) s, 1 <= size -> steps buffer ft (begin ops size count e) s ->
  s_es s = write_live (log s) (setup (seen s) e) /\ only (log s) ops /\ only (seen s) ops.
Proof.
  intros ft ops size count e s Hs H. destruct (reach_inv _ _ _ _ _ _ Hs H) as [_ _ _ (rest & Hseen & _) Hes (Hsub & _) _ _ _ _ _].
  assert (Ho : only (seen s) ops) by (intros x Hx; rewrite <- Hseen; apply in_or_app; left; exact Hx). split; [exact Hes|]. split; [|exact Ho]. intros x Hx. apply Ho, Hsub, Hx.
Qed.
End Props.

(** ** Examples and refutations *)
Lemma steps_first {P} b ft (s s' s'' : @st P) : step b ft s s' -> steps b ft s' s'' -> steps b ft s s''.
Proof. intros H H'. induction H' as [s1|s1 s2 s3 _ IH Hst]; [exact (steps_more _ _ _ _ _ (steps_none _ _ _) H)|exact (steps_more _ _ _ _ _ (IH H) Hst)]. Qed.
Definition x_doc (id : pystr) (v : Z) : esdoc nat := ED id v None 0.
Definition x_op (v : Z) : bop nat := BIndexArc 0%N (x_doc [97%N] v).
Definition x_lat : bop nat := BIndexLatest [97%N] (x_doc [97%N] 5).
Definition x_es : es nat := ES (Docs [] []) (Docs [] []) [] false.
Local Tactic Notation "go" uconstr(c) := eapply steps_first; [eapply c; first [exact I | reflexivity | (right; cbn; lia) | (left; reflexivity) | (unfold retries; lia) | idtac]|cbn [check existsb failed upd length app orb repeat Nat.sub]].

(** C42: three operations, two chunks, two workers taking turns. *)
Example C42_case : exists s, steps 6 no_faults (begin [x_op 1; x_op 2; x_lat] 2 2 x_es) s /\ returned s 3 0 /\ log s = [x_lat; x_op 1; x_op 2] /\ one_per_document [x_op 1; x_op 2; x_lat].
Proof.
  eexists. split.
  - unfold begin.
    replace (partition [x_op 1; x_op 2; x_lat] 2) with [[x_op 1; x_op 2]; [x_lat]] by (vm_compute; reflexivity). cbn [repeat].
    go s_setup. go s_put. go s_setup. go s_put. go s_feed_done. go s_stop. go s_stop. go s_stopped.
    eapply steps_first; [apply (w_take _ _ _ _ _ _ _ _ 0 0 0); reflexivity|cbn [upd]].
    eapply steps_first; [apply (w_take _ _ _ _ _ _ _ _ 1 0 0); reflexivity|cbn [upd]].
    eapply steps_first; [eapply (w_sent _ _ _ _ _ _ 1); reflexivity|cbn [upd Nat.sub]].
    eapply steps_first; [eapply (w_sent _ _ _ _ _ _ 0); reflexivity|cbn [upd Nat.sub]].
    eapply steps_first; [eapply (w_stop _ _ _ _ _ _ _ 1); [reflexivity|auto]|cbn [upd Nat.sub]].
    eapply steps_first; [eapply (w_stop _ _ _ _ _ _ _ 0); [reflexivity|auto]|cbn [upd Nat.sub]].
    go s_join. go s_gather. apply steps_none.
  - split; [reflexivity|split; [reflexivity|]]. intro id. unfold of_id. cbn [filter x_op x_lat bop_id]. cbn [x_doc e_id]; destruct (str_eqb _ _); cbn; auto.
Qed.

(** [count] must not be 0: with no workers nothing is ever done and write_ops waits for ever. *)
Example C42_no_workers_hangs : exists s, steps 0 no_faults (begin [x_op 1] 2 0 x_es) s /\ stuck 0 any_fault s /\ ~ has_raised s /\ (forall i d, ~ returned s i d).
Proof.
  eexists. split.
  - unfold begin. replace (partition [x_op 1] 2) with [[x_op 1]] by (vm_compute; reflexivity). cbn [repeat].
    go s_setup. eapply steps_first; [apply s_put; left; reflexivity|cbn [check existsb]]. go s_feed_done. go s_stopped. apply steps_none.
  - split; [|split; [discriminate|intros i d K; discriminate]]. intros s' K. inversion K; subst; try (match goal with Hn : nth_error [] ?n = Some _ |- _ => destruct n; discriminate end).
Qed.

(** C43: one operation, the default options; the request fails. The main task waits for ever. *)
Theorem C43_error_reported_refuted : exists (ops : list (bop nat)) size count buffer e s,
  1 <= size /\ 1 <= count /\ one_per_document ops /\
  steps buffer (fun f => f = Broken) (begin ops size count e) s /\ error s /\
  stuck buffer any_fault s /\ ~ has_raised s /\ (forall i d, ~ returned s i d).
Proof.
  exists [x_op 1], 100, 2, 6, x_es. eexists. split; [lia|]. split; [lia|]. split; [intro id; unfold of_id; cbn [filter x_op bop_id x_doc e_id]; destruct (str_eqb _ _); cbn; lia|]. split.
  - unfold begin. replace (partition [x_op 1] 100) with [[x_op 1]] by (vm_compute; reflexivity). cbn [repeat].
    go s_setup. go s_put. go s_feed_done. go s_stop. go s_stop. go s_stopped.
    eapply steps_first; [apply (w_take _ _ _ _ _ _ _ _ 0 0 0); reflexivity|cbn [upd]].
    eapply steps_first; [apply (w_stop _ _ _ _ _ _ _ 1 0 0); [reflexivity|auto]|cbn [upd Nat.sub]].
    eapply steps_first; [apply (w_broken _ _ _ _ _ _ 0 [x_op 1] 0 0 0 _ _ _ _ []); [reflexivity|reflexivity|repeat constructor]|cbn [upd app]].
    apply steps_none.
  - split; [exists 0; reflexivity|]. split; [|split; [discriminate|intros i d K; discriminate]].
    intros s' K. inversion K; subst; match goal with Hn : nth_error [_; _] ?n = Some _ |- _ => destruct n as [|[|[|n]]]; cbn in Hn; discriminate end.
Qed.
(** The hypotheses of [C43_error_reported_partial]: the first of two chunks fails before the second is put. *)
Example C43_case : exists s, steps 6 any_fault (begin [x_op 1; x_op 2] 1 2 x_es) s /\ error s /\ feeding (s_main s) = true /\ (exists n w, nth_error (workers s) n = Some w /\ w <> WFailed).
Proof.
  eexists. split.
  - unfold begin. replace (partition [x_op 1; x_op 2] 1) with [[x_op 1]; [x_op 2]] by (vm_compute; reflexivity). cbn [repeat].
    go s_setup. go s_put. go s_setup.
    eapply steps_first; [apply (w_take _ _ _ _ _ _ _ _ 0 0 0); reflexivity|cbn [upd]].
    eapply steps_first; [apply (w_broken _ _ _ _ _ _ 0 [x_op 1] 0 0 0 _ _ _ _ []); [exact I|reflexivity|repeat constructor]|cbn [upd app]].
    apply steps_none.
  - split; [exists 0; reflexivity|]. split; [reflexivity|]. exists 1, (WIdle 0 0). split; [reflexivity|discriminate].
Qed.
(** The hypotheses of [C43_hangs_after_last_chunk]: the same with one chunk. *)
Example C43_case_hang : exists s, steps 6 any_fault (begin [x_op 1] 1 2 x_es) s /\ error s /\ feeding_done (s_main s) = true.
Proof.
  eexists. split.
  - unfold begin. replace (partition [x_op 1] 1) with [[x_op 1]] by (vm_compute; reflexivity). cbn [repeat].
    go s_setup. go s_put.
    eapply steps_first; [apply (w_take _ _ _ _ _ _ _ _ 0 0 0); reflexivity|cbn [upd]].
    eapply steps_first; [apply (w_broken _ _ _ _ _ _ 0 [x_op 1] 0 0 0 _ _ _ _ []); [exact I|reflexivity|repeat constructor]|cbn [upd app]].
    apply steps_none.
  - split; [exists 0; reflexivity|reflexivity].
Qed.

(** C45: the first request is carried out but times out, the second attempt succeeds: two documents in the arc. *)
Theorem C45_timeouts_refuted : exists (ops : list (bop nat)) size count buffer e s indexed deleted,
  1 <= size /\ one_per_document ops /\ steps buffer timeouts (begin ops size count e) s /\ returned s indexed deleted /\
  length (arc (vis (write_ops ops e))) = 1 /\ length (arc (vis (finish s))) = 2.
Proof.
  exists [x_op 1], 100, 1, 3, x_es. eexists. exists 1, 0. split; [lia|]. split; [intro id; unfold of_id; cbn [filter x_op bop_id x_doc e_id]; destruct (str_eqb _ _); cbn; lia|]. split.
  - unfold begin. replace (partition [x_op 1] 100) with [[x_op 1]] by (vm_compute; reflexivity). cbn [repeat].
    go s_setup. go s_put. go s_feed_done. go s_stop. go s_stopped.
    eapply steps_first; [apply (w_take _ _ _ _ _ _ _ _ 0 0 0); reflexivity|cbn [upd]].
    eapply steps_first; [apply (w_timeout _ _ _ _ _ _ 0 [x_op 1] 0 0 0 _ _ _ _ [x_op 1]); [reflexivity|reflexivity|unfold retries; lia|apply sub_take, sub_nil]|cbn [upd app]].
    eapply steps_first; [apply (w_sent _ _ _ _ _ _ 0 [x_op 1] 1 0 0); reflexivity|cbn [upd Nat.sub]].
    eapply steps_first; [apply (w_stop _ _ _ _ _ _ _ 0 1 0); [reflexivity|auto]|cbn [upd Nat.sub]].
    go s_join. go s_gather. apply steps_none.
  - split; [reflexivity|]. split; vm_compute; reflexivity.
Qed.
(** The hypotheses of [C45_timeouts_partial]: the same with an operation on latest. *)
Example C45_case : exists s, steps 3 timeouts (begin [x_lat] 100 1 x_es) s /\ returned s 1 0 /\ lost s = [x_lat] /\ (forall o, In o (lost s) -> is_arc_op o = false).
Proof.
  eexists. split.
  - unfold begin. replace (partition [x_lat] 100) with [[x_lat]] by (vm_compute; reflexivity). cbn [repeat].
    go s_setup. go s_put. go s_feed_done. go s_stop. go s_stopped.
    eapply steps_first; [apply (w_take _ _ _ _ _ _ _ _ 0 0 0); reflexivity|cbn [upd]].
    eapply steps_first; [apply (w_timeout _ _ _ _ _ _ 0 [x_lat] 0 0 0 _ _ _ _ [x_lat]); [reflexivity|reflexivity|unfold retries; lia|apply sub_take, sub_nil]|cbn [upd app]].
    eapply steps_first; [apply (w_sent _ _ _ _ _ _ 0 [x_lat] 1 0 0); reflexivity|cbn [upd Nat.sub]].
    eapply steps_first; [apply (w_stop _ _ _ _ _ _ _ 0 1 0); [reflexivity|auto]|cbn [upd Nat.sub]].
    go s_join. go s_gather. apply steps_none.
  - split; [reflexivity|]. split; [reflexivity|]. intros o [<-|[]]. reflexivity.
Qed.

Print Assumptions C42_terminates.
Print Assumptions C42_exactly_once.
Print Assumptions C45_attempts.
Print Assumptions C45_attempts_counted.
Print Assumptions C43_never_returns.
Print Assumptions C43_error_reported_partial.
Print Assumptions C43_hangs_after_last_chunk.
Print Assumptions C43_error_reported_refuted.
Print Assumptions C45_timeouts_general.
Print Assumptions C45_timeouts_partial.
Print Assumptions C45_timeouts_refuted.
Print Assumptions C57_writer_states.
