(** Property C94, continued: processes of which some fail, and processes that begin later. *)
From Coq Require Import String Ascii.
From Coq Require Import List ZArith NArith Bool Lia Permutation.
From Verif Require Import PyVal Diff Prepare PrepareProofs PropsPrepare Mongo Store MongoMore PropsMongo Client Index IndexProofs PropsIndex Sync SyncSpec SyncProofs SyncBuild SyncColl SyncTrace SyncView SyncMore SyncArcs SyncEvents SyncReach Workers WorkersProofs PropsWorkers PropsSync PropsSyncRefuted PropsSyncMore PropsSyncMoreRefuted PropsSyncAny PropsAtOnce.
Import ListNotations.
Open Scope string_scope.
Open Scope list_scope.
Open Scope nat_scope.

Section Props.
Context {O P : Type} (parse : dict -> O -> P) (peq : P -> P -> bool).
Variable cap : N.
Variable name : pystr.
Notation bop := (bop P).
Notation sync_plan := (sync_plan parse peq cap).
Notation begins := (begins parse peq cap name).

(** ** Specification *)
(** What a process has written when it fails: any part of its operations. *)
Definition part {A} (w l : list A) : Prop := exists rest, Permutation (w ++ rest) l.

(** ** Proofs *)
Lemma part_in {A} (w l : list A) : part w l -> forall x, In x w -> In x l.
Proof. intros (r & H) x Hx. apply (Permutation_in _ H), in_or_app. left. exact Hx. Qed.
Lemma part_flat_map {A B} (f : A -> list B) w l : part w l -> part (flat_map f w) (flat_map f l).
Proof. intros (r & H). exists (flat_map f r). rewrite <- flat_map_app. apply flat_map_perm, H. Qed.
Lemma part_app {A} (a b c d : list A) : part a b -> part c d -> part (a ++ c) (b ++ d).
Proof.
  intros (r & H) (s & K). exists (r ++ s). rewrite <- H, <- K, <- !app_assoc. apply Permutation_app_head. rewrite !app_assoc. apply Permutation_app_tail, Permutation_app_comm.
Qed.
Lemma part_perm {A} (a b c : list A) : Permutation a b -> part b c -> part a c.
Proof. intros H (r & K). exists r. rewrite H. exact K. Qed.
Lemma lat_run_set (ops m : list bop) id k : one_per_document ops -> (forall x, In x (filter is_lat (of_id id m)) -> In x (filter is_lat (of_id id ops))) ->
  filter is_lat (of_id id m) = [] \/ lat_run k (of_id id m) = lat_run k (of_id id ops).
Proof.
  intros H1 Hin. destruct (filter is_lat (of_id id m)) as [|y l] eqn:Em; [left; reflexivity|right].
  rewrite (lat_run_filter (of_id id m)), (lat_run_filter (of_id id ops)), Em. specialize (H1 id).
  destruct (filter is_lat (of_id id ops)) as [|o [|o' l']] eqn:E; [destruct (Hin y (or_introl eq_refl))| |cbn in H1; lia].
  rewrite (all_same o (y :: l)); [reflexivity|discriminate|]. intros x Hx. destruct (Hin x Hx) as [->|[]]. reflexivity.
Qed.
Lemma lat_in_strip (w o ops : list bop) id x : (forall y, In y w -> In y o) -> map strip o = map strip ops -> In x (filter is_lat (of_id id w)) -> In x (filter is_lat (of_id id ops)).
Proof. intros Hw Hs H. rewrite <- (lat_ops_same ops o id Hs). unfold of_id in *. rewrite !filter_In in *. destruct H as [[A B] C]. auto. Qed.

(** ** C94 *)
(** Processes that begin before the first one ends, of which any may fail at any point: each record's document in latest is as before or
    as after one sync, the latter for all records if a process did not fail; the arcs get each document at most once from each process. *)
Theorem C94_failing_partial : forall (cl : client O) (e : es P) ops ps ws m,
  NoDup (map d_id (data cl name)) -> sync_plan cl name false e = Some (Some (e, ops)) ->
  Forall (begins cl e) ps -> Forall2 (fun p w => part w (snd p)) ps ws -> Permutation m (concat ws) ->
  (forall id, lat_of id (apply_bops (live e) m) = lat_of id (live e) \/ lat_of id (apply_bops (live e) m) = lat_of id (apply_bops (live e) ops)) /\
  ((exists p w, In (p, w) (combine ps ws) /\ Permutation w (snd p)) -> same_latest (apply_bops (live e) m) (apply_bops (live e) ops)) /\
  exists added, Permutation (map snd (arc (apply_bops (live e) m))) (map snd (arc (live e)) ++ added) /\ part added (copies (length ps) (archived ops)).
Proof.
  intros cl e ops ps ws m Hd He Hb Hw Hp. pose proof (plan_one_lat parse peq cap _ _ _ _ _ _ _ Hd He) as H1.
  assert (Hs : Forall (fun p => map strip (snd p) = map strip ops) ps).
  { eapply Forall_impl; [|exact Hb]. intros [s o] [B1 B2]. cbn [fst snd] in *. exact (plans_alike parse peq cap name cl e e ops s o (eq_sym B1) He B2). }
  assert (In1 : forall id x, In x (filter is_lat (of_id id m)) -> In x (filter is_lat (of_id id ops))).
  { intros id x Hx. assert (K : In x (filter is_lat (of_id id (concat ws)))) by (unfold of_id in *; rewrite !filter_In in *; destruct Hx as [[A B] C]; split; [split; [exact (Permutation_in _ Hp A)|exact B]|exact C]).
    clear Hx Hp m Hb. induction Hw as [|p w ps ws Hpw _ IH]; [destruct K|]. inversion Hs as [|? ? S1 S2]; subst. cbn [concat] in K. unfold of_id in K at 1. rewrite !filter_app in K. apply in_app_or in K.
    destruct K as [K|K]; [exact (lat_in_strip w (snd p) ops id x (part_in _ _ Hpw) S1 K)|exact (IH S2 K)]. }
  split; [|split].
  - intro id. rewrite !lat_of_apply. destruct (lat_run_set ops m id (lat_of id (live e)) H1 (In1 id)) as [K|K]; [left|right; exact K]. rewrite lat_run_filter, K. reflexivity.
  - intros (p & w & Hin & Hpw) id. rewrite !lat_of_apply. destruct (lat_run_set ops m id (lat_of id (live e)) H1 (In1 id)) as [K|K]; [|exact K].
    assert (E : filter is_lat (of_id id ops) = []).
    { destruct (filter is_lat (of_id id ops)) as [|x l] eqn:E; [reflexivity|exfalso]. pose proof (proj1 (Forall_forall _ _) Hs p (in_combine_l _ _ _ _ Hin)) as S1.
      assert (Hx : In x (filter is_lat (of_id id (snd p)))) by (rewrite (lat_ops_same ops (snd p) id S1), E; left; reflexivity).
      assert (Hy : In x (filter is_lat (of_id id m))).
      { unfold of_id in *. rewrite !filter_In in *. destruct Hx as [[A B] C]. split; [split; [|exact B]|exact C]. apply (Permutation_in _ (Permutation_sym Hp)). apply in_concat. exists w. split; [exact (in_combine_r _ _ _ _ Hin)|]. exact (Permutation_in _ (Permutation_sym Hpw) A). }
      rewrite K in Hy. destruct Hy. }
    rewrite (lat_run_filter (of_id id m)), (lat_run_filter (of_id id ops)), K, E. reflexivity.
  - exists (archived m). split; [rewrite arc_archived; reflexivity|]. apply (part_perm _ (archived (concat ws))); [apply flat_map_perm, Hp|]. clear - Hw Hs.
    induction Hw as [|p w ps ws Hpw _ IH]; [exists []; constructor|]. inversion Hs as [|? ? S1 S2]; subst. cbn [concat length copies]. unfold archived at 1. rewrite flat_map_app. apply part_app; [|exact (IH S2)].
    apply (part_flat_map (fun o => match o with BIndexArc _ d => [d] | _ => [] end)) in Hpw. fold (archived w) (archived (snd p)) in Hpw. fold (archived w). rewrite <- (archived_strip ops), <- S1, archived_strip. exact Hpw.
Qed.

(** When one process has ended, whatever the others have written by then (and however often), the documents found are those of one sync and what was
    written more often to the arcs; the version of Elasticsearch is that of one sync. *)
Theorem C94_ended_partial : forall (cl : client O) (e : es P) ops xs m,
  NoDup (map d_id (data cl name)) -> sync_plan cl name false e = Some (Some (e, ops)) -> incl xs ops -> Permutation m (ops ++ xs) ->
  let e1 := write_ops ops e in                            (* after one sync *)
  let e' := refresh ops (write_live m (setup ops e)) in   (* after the first one that ends *)
  same_latest (vis e') (vis e1) /\ has_lat e' = has_lat e1 /\ arcs e' = arcs e1 /\
  Permutation (arc (vis e')) (arc (vis e1) ++ flat_map arc_pair xs) /\ es_version e' = es_version e1.
Proof.
  intros cl e ops xs m Hd He Ho Hp e1 e'. assert (H1 := plan_one_lat parse peq cap _ _ _ _ _ _ _ Hd He).
  destruct (finish_docs ops m xs e Hp Ho H1) as (L & A1 & A2 & A3 & A4). fold e' e1 in L, A1, A2, A3, A4.
  assert (SL : same_latest (vis e') (vis e1)) by (intro id; apply (L id)). split; [exact SL|]. split; [exact A4|]. split; [exact A3|]. split; [exact A2|].
  unfold es_version. apply max_opt_same. assert (Hin : forall d, In d (all_docs (vis e')) <-> In d (all_docs (vis e1))).
  { intro d. unfold all_docs. rewrite !in_app_iff, !in_lat.
    assert (X : In d (map snd (arc (vis e'))) <-> In d (map snd (arc (vis e1)))).
    { split; intro H.
      - apply (Permutation_in _ (Permutation_map snd A2)) in H. rewrite map_app in H. apply in_app_or in H. destruct H as [H|H]; [exact H|]. apply in_map_iff in H. destruct H as ((n & x) & <- & H). cbn [snd].
        apply in_flat_map in H. destruct H as (o & H & Hq). apply Ho in H. destruct o as [i y|i|j y]; cbn [arc_pair] in Hq; try contradiction. destruct Hq as [Hq|[]]. injection Hq as <- <-.
        unfold e1, write_ops, refresh. destruct ops as [|o' r]; [destruct H|]. set (q := o' :: r) in *. change (isnil q) with false. cbv iota. cbn [vis arc]. rewrite map_app. apply in_or_app. left. apply in_map_iff.
        exists (j, y). split; [reflexivity|]. apply filter_In. split; [|apply existsb_exists; exists (BIndexArc j y); split; [exact H|apply N.eqb_refl]]. unfold write_live. cbn [live]. rewrite arc_apply. apply in_or_app. right. apply in_flat_map.
        exists (BIndexArc j y). split; [exact H|left; reflexivity].
      - apply (Permutation_in _ (Permutation_sym (Permutation_map snd A2))). rewrite map_app. apply in_or_app. left. exact H. }
    rewrite X. split; intros [(id & H)|H]; [left; exists id; rewrite <- (SL id); exact H|right; exact H|left; exists id; rewrite (SL id); exact H|right; exact H]. }
  intro v. rewrite !in_app_iff, !in_map_iff. split; intros [(d & K1 & K2)|(d & K1 & K2)]; [left|right|left|right]; exists d; (split; [exact K1|apply Hin, K2]).
Qed.

(** A process that begins then, while others are still writing, does nothing if a sync after one sync does nothing. *)
Theorem C94_late : forall (cl : client O) (e : es P) ops xs m,
  NoDup (map d_id (data cl name)) -> sync_plan cl name false e = Some (Some (e, ops)) -> incl xs ops -> Permutation m (ops ++ xs) ->
  sync_plan cl name false (write_ops ops e) = Some None ->
  sync_plan cl name false (refresh ops (write_live m (setup ops e))) = Some None.
Proof.
  intros cl e ops xs m Hd He Ho Hp H. destruct (C94_ended_partial cl e ops xs m Hd He Ho Hp) as (_ & _ & _ & _ & V). revert H. unfold Sync.sync_plan. rewrite !plan_eq.
  assert (E : after_of false (refresh ops (write_live m (setup ops e))) = after_of false (write_ops ops e)) by exact V. rewrite E.
  destruct (negb (has_data _)); [auto|]. destruct (_ && _); [discriminate|]. destruct (early _ _); [auto|]. destruct (find_records _ _) as [recs|]; [|discriminate].
  destruct (gen_ops _ _ _ _ _ _ _) as [[st1 o1]|]; discriminate.
Qed.
End Props.
Print Assumptions C94_failing_partial.
Print Assumptions C94_ended_partial.
Print Assumptions C94_late.

Lemma part_firstn {A} n (l : list A) : part (firstn n l) l.
Proof. exists (skipn n l). rewrite firstn_skipn. reflexivity. Qed.
(** A process fails after its first request, another one ends, a third one begins. *)
Open Scope Z_scope.
Example C94_more_example : exists cl e ops,
  NoDup (map d_id (data cl db)) /\ Sync.sync_plan toy_parse toy_eq 1%N cl db false e = Some (Some (e, ops)) /\
  Forall (begins toy_parse toy_eq 1%N db cl e) [(e, ops); (e, ops)] /\ Forall2 (fun p w => part w (snd p)) [(e, ops); (e, ops)] [firstn 2 ops; ops] /\
  (exists p w, In (p, w) (combine [(e, ops); (e, ops)] [firstn 2 ops; ops]) /\ Permutation w (snd p)) /\ length (archived (firstn 2 ops)) = 1%nat /\
  incl (firstn 2 ops) ops /\ Sync.sync_plan toy_parse toy_eq 1%N cl db false (write_ops ops e) = Some None.
Proof.
  set (l := [ hput [("r1", X 1); ("r2", X 1)]; hcommit 10; HSync false; hput [("r1", X 3); ("r2", X 2)]; hcommit 20 ]).
  destruct (run_h 1 hstart l) as [[[[t calls] cl] e]|] eqn:E; [|vm_compute in E; discriminate].
  exists cl, e. vm_compute in E. injection E as _ _ <- <-. eexists.
  split; [vm_compute; repeat (constructor; [cbn; intuition discriminate|]); constructor|]. split; [vm_compute; reflexivity|].
  split; [repeat (constructor; [split; vm_compute; reflexivity|]); constructor|].
  split; [constructor; [cbn [snd]; apply part_firstn|constructor; [exists []; cbn [snd]; rewrite app_nil_r; reflexivity|constructor]]|].
  split; [do 2 eexists; split; [right; left; reflexivity|cbn [snd]; apply Permutation_refl]|]. split; [reflexivity|]. split; [exact (part_in _ _ (part_firstn 2 _))|]. vm_compute. reflexivity.
Qed.
