(** Property C94: several syncs at the same time. [sync] takes no lock (manager.py:441-515): each process reads the version and the arcs of
    Elasticsearch and then writes; what is written becomes visible when one of them ends. *)
From Coq Require Import String Ascii.
From Coq Require Import List ZArith NArith Bool Lia Permutation.
From Verif Require Import PyVal Diff Prepare PrepareProofs PropsPrepare Mongo Store MongoMore PropsMongo Client Index IndexProofs PropsIndex Sync SyncSpec SyncProofs SyncBuild SyncColl SyncTrace SyncView SyncMore SyncArcs SyncEvents SyncReach Workers WorkersProofs PropsWorkers PropsSync PropsSyncRefuted PropsSyncMore PropsSyncMoreRefuted PropsSyncAny.
Import ListNotations.
Open Scope string_scope.
Open Scope list_scope.
Open Scope nat_scope.

Section Props.
Context {O P : Type} (parse : dict -> O -> P) (peq : P -> P -> bool).
Variable cap : N.
Variable name : pystr.
Notation bop := (bop P).
Notation sync_plan := (sync_plan parse peq cap).
Notation sync := (sync parse peq cap).

(** ** Specification *)
(** The process that begins when the indices are [s] writes [ops]. All begin before the first one ends, so they see the same documents; the
    arcs that exist may differ, as those before have begun to write. *)
Definition begins (cl : client O) (e : es P) (p : es P * list bop) : Prop :=
  vis (fst p) = vis e /\ sync_plan cl name false (fst p) = Some (Some (fst p, snd p)).
(** the documents that operations add to the arcs *)
Definition archived (ops : list bop) : list (esdoc P) := flat_map (fun o => match o with BIndexArc _ d => [d] | _ => [] end) ops.
(** the documents of latest, and the number of its documents with each id *)
Definition same_latest (d d' : docs P) : Prop := forall id, lat_of id d = lat_of id d'.
Fixpoint copies {A} (k : nat) (l : list A) : list A := match k with 0 => [] | S k' => l ++ copies k' l end.

(** ** Proofs *)
Lemma plans_alike cl (e : es P) s ops s' ops' : vis s = vis s' -> sync_plan cl name false s = Some (Some (s, ops)) -> sync_plan cl name false s' = Some (Some (s', ops')) ->
  map strip ops' = map strip ops.
Proof.
  unfold Sync.sync_plan. rewrite !plan_eq. intros Ev. assert (Ea : after_of false s = after_of false s') by (unfold after_of, es_version; rewrite Ev; reflexivity). rewrite <- Ea.
  destruct (negb (has_data _)); [discriminate|]. destruct (_ && _); [discriminate|]. destruct (early _ _); [discriminate|]. destruct (find_records _ _) as [recs|]; [|discriminate].
  destruct (gen_ops _ _ _ _ _ (get_arc_status (base_of false s)) _) as [[st1 o1]|] eqn:E1; [|discriminate]. intro H1. injection H1 as <-.
  destruct (gen_ops _ _ _ _ _ (get_arc_status (base_of false s')) _) as [[st2 o2]|] eqn:E2; [|discriminate]. intro H2. injection H2 as <-.
  destruct (gen_ops_strip parse peq cap _ _ _ _ (get_arc_status (base_of false s')) _ _ E1) as (st3 & o3 & E3 & S). rewrite E2 in E3. injection E3 as _ <-. exact S.
Qed.
Lemma archived_strip ops : archived (map strip ops) = archived ops.
Proof. unfold archived. induction ops as [|o ops IH]; [reflexivity|]. cbn [map flat_map]. rewrite IH. destruct o; reflexivity. Qed.
Lemma is_lat_strip (ops : list bop) : map strip (filter is_lat ops) = filter is_lat (map strip ops).
Proof. induction ops as [|o ops IH]; [reflexivity|]. cbn [map filter]. destruct o; cbn [is_lat strip map]; rewrite ?IH; reflexivity. Qed.
Lemma lat_strip_id (ops : list bop) : map strip (filter is_lat ops) = filter is_lat ops.
Proof. induction ops as [|o ops IH]; [reflexivity|]. cbn [filter]. destruct o; cbn [is_lat map strip]; rewrite ?IH; reflexivity. Qed.
Lemma lat_ops_same (ops ops' : list bop) id : map strip ops' = map strip ops -> filter is_lat (of_id id ops') = filter is_lat (of_id id ops).
Proof. intro H. rewrite <- (lat_strip_id (of_id id ops')), <- (lat_strip_id (of_id id ops)), !is_lat_strip, !of_id_strip, H. reflexivity. Qed.
Lemma lat_run_copies (ops m : list bop) (opss : list (list bop)) id k : one_per_document ops -> opss <> [] -> Forall (fun o => map strip o = map strip ops) opss ->
  Permutation m (concat opss) -> lat_run k (of_id id m) = lat_run k (of_id id ops).
Proof.
  intros H1 Hn Hs Hp. rewrite (lat_run_filter (of_id id m)), (lat_run_filter (of_id id ops)).
  assert (Hin : forall x, In x (filter is_lat (of_id id m)) <-> In x (filter is_lat (of_id id ops))).
  { intro x. assert (E : In x (filter is_lat (of_id id m)) <-> In x (filter is_lat (of_id id (concat opss)))).
    { unfold of_id. rewrite !filter_In. split; intros [[A B] C]; (split; [split; [|exact B]|exact C]); [exact (Permutation_in _ Hp A)|exact (Permutation_in _ (Permutation_sym Hp) A)]. }
    rewrite E. clear E Hp. split.
    - intro Hx. induction Hs as [|o l Ho _ IH]; [destruct Hx|]. cbn [concat] in Hx. unfold of_id in Hx at 1. rewrite !filter_app in Hx. apply in_app_or in Hx. destruct Hx as [Hx|Hx].
      + rewrite <- (lat_ops_same ops o id Ho). exact Hx.
      + destruct l as [|o' l]; [destruct Hx|]. apply IH; [discriminate|exact Hx].
    - intro Hx. destruct opss as [|o l]; [contradiction|]. inversion Hs as [|? ? Ho _]; subst. cbn [concat]. unfold of_id at 1. rewrite !filter_app. apply in_or_app. left. rewrite <- (lat_ops_same ops o id Ho) in Hx. exact Hx. }
  specialize (H1 id). destruct (filter is_lat (of_id id ops)) as [|o [|o' l]] eqn:E; [| |cbn in H1; lia].
  - destruct (filter is_lat (of_id id m)) as [|x l]; [reflexivity|]. destruct (proj1 (Hin x) (or_introl eq_refl)).
  - rewrite (all_same o (filter is_lat (of_id id m))); [reflexivity| |].
    + intro K. assert (Q : In o (filter is_lat (of_id id m))) by (apply Hin; left; reflexivity). rewrite K in Q. destruct Q.
    + intros x Hx. apply Hin in Hx. destruct Hx as [->|[]]. reflexivity.
Qed.
Lemma arc_archived (D : docs P) m : map snd (arc (apply_bops D m)) = map snd (arc D) ++ archived m.
Proof.
  rewrite arc_apply, map_app. f_equal. unfold archived. induction m as [|o m IH]; [reflexivity|]. cbn [flat_map]. rewrite map_app, IH. destruct o; reflexivity.
Qed.

(** ** C94 *)
(** Whatever order the writes of the processes come in: latest is as after one sync; every document that one sync adds to the arcs
    is added by each process. *)
Theorem C94_at_once_partial : forall (cl : client O) (e : es P) ops ps m,
  NoDup (map d_id (data cl name)) -> sync_plan cl name false e = Some (Some (e, ops)) ->
  ps <> [] -> Forall (begins cl e) ps -> Permutation m (concat (map snd ps)) ->
  same_latest (apply_bops (live e) m) (apply_bops (live e) ops) /\
  Permutation (map snd (arc (apply_bops (live e) m))) (map snd (arc (live e)) ++ copies (length ps) (archived ops)).
Proof.
  intros cl e ops ps m Hd He Hn Hb Hp.
  assert (Hs : Forall (fun o => map strip o = map strip ops) (map snd ps)).
  { apply Forall_map. eapply Forall_impl; [|exact Hb]. intros [s o] [B1 B2]. cbn [fst snd] in *. exact (plans_alike cl e e ops s o (eq_sym B1) He B2). }
  split.
  - intro id. rewrite !lat_of_apply. apply (lat_run_copies ops m (map snd ps)); [|destruct ps; [contradiction|discriminate]|exact Hs|exact Hp].
    exact (plan_one_lat parse peq cap _ _ _ _ _ _ _ Hd He).
  - rewrite arc_archived. apply Permutation_app_head. unfold archived at 1. rewrite (flat_map_perm _ _ _ Hp). fold (archived (concat (map snd ps))). clear - Hs.
    induction ps as [|p ps IH]; [constructor|]. inversion Hs as [|? ? H1 H2]; subst. cbn [map concat length copies]. unfold archived at 1. rewrite flat_map_app. fold (archived (snd p)). fold (archived (concat (map snd ps))).
    rewrite <- (archived_strip (snd p)), H1, archived_strip. apply Permutation_app_head, IH, H2.
Qed.

(** When all begin with the same arcs and all have ended, the documents found are those of one sync and the additional ones in the arcs, and
    the version of Elasticsearch is that of one sync. *)
Lemma copies_only k (ops : list bop) : only (copies k ops) ops.
Proof. induction k as [|k IH]; intros x H; [destruct H|]. cbn [copies] in H. apply in_app_or in H. destruct H; auto. Qed.
Lemma max_opt_same l m : (forall v, In (Some v) l <-> In (Some v) m) -> max_opt l = max_opt m.
Proof.
  intro H. assert (G : forall l m w, (forall v, In (Some v) l <-> In (Some v) m) -> max_opt l = Some w -> max_opt m = Some w).
  { clear. intros l m w H E. apply ClientProofs.max_opt_spec in E. apply ClientProofs.max_opt_spec. destruct E as [E1 E2]. split; [apply H, E1|]. intros x Hx. apply E2, H, Hx. }
  destruct (max_opt l) as [w|] eqn:E; [symmetry; exact (G l m w H E)|]. destruct (max_opt m) as [w|] eqn:E'; [|reflexivity]. rewrite (G m l w (fun v => iff_sym (H v)) E') in E. discriminate.
Qed.
Lemma in_lat (D : docs P) d : In d (map snd (lat D)) <-> exists id, In d (lat_of id D).
Proof.
  split.
  - intro H. apply in_map_iff in H. destruct H as ((id & x) & <- & H). exists id. unfold lat_of. apply in_map_iff. exists (id, x). split; [reflexivity|]. apply filter_In. split; [exact H|apply str_eqb_refl].
  - intros (id & H). unfold lat_of in H. apply in_map_iff in H. destruct H as (x & <- & H). apply filter_In in H. apply in_map, H.
Qed.
Theorem C94_visible_partial : forall (cl : client O) (e : es P) ops k m,
  NoDup (map d_id (data cl name)) -> sync_plan cl name false e = Some (Some (e, ops)) -> Permutation m (copies (S k) ops) ->
  let e1 := write_ops ops e in                            (* after one sync *)
  let e' := refresh ops (write_live m (setup ops e)) in   (* after all *)
  same_latest (vis e') (vis e1) /\ has_lat e' = has_lat e1 /\ arcs e' = arcs e1 /\
  Permutation (arc (vis e')) (arc (vis e1) ++ flat_map arc_pair (copies k ops)) /\ es_version e' = es_version e1.
Proof.
  intros cl e ops k m Hd He Hp e1 e'. assert (H1 := plan_one_lat parse peq cap _ _ _ _ _ _ _ Hd He).
  destruct (finish_docs ops m (copies k ops) e Hp (copies_only k ops) H1) as (L & A1 & A2 & A3 & A4). fold e' e1 in L, A1, A2, A3, A4.
  assert (SL : same_latest (vis e') (vis e1)) by (intro id; apply (L id)). split; [exact SL|]. split; [exact A4|]. split; [exact A3|]. split; [exact A2|].
  unfold es_version. apply max_opt_same. assert (Hin : forall d, In d (all_docs (vis e')) <-> In d (all_docs (vis e1))).
  { intro d. unfold all_docs. rewrite !in_app_iff, !in_lat.
    assert (X : In d (map snd (arc (vis e'))) <-> In d (map snd (arc (vis e1)))).
    { split; intro H.
      - apply (Permutation_in _ (Permutation_map snd A2)) in H. rewrite map_app in H. apply in_app_or in H. destruct H as [H|H]; [exact H|]. apply in_map_iff in H. destruct H as ((n & x) & <- & H). cbn [snd].
        apply in_flat_map in H. destruct H as (o & H & Ho). apply copies_only in H. destruct o as [i y|i|j y]; cbn [arc_pair] in Ho; try contradiction. destruct Ho as [Ho|[]]. injection Ho as <- <-.
        unfold e1, write_ops, refresh. destruct ops as [|o' r]; [destruct H|]. set (q := o' :: r) in *. change (isnil q) with false. cbv iota. cbn [vis arc]. rewrite map_app. apply in_or_app. left. apply in_map_iff.
        exists (j, y). split; [reflexivity|]. apply filter_In. split; [|apply existsb_exists; exists (BIndexArc j y); split; [exact H|apply N.eqb_refl]]. unfold write_live. cbn [live]. rewrite arc_apply. apply in_or_app. right. apply in_flat_map.
        exists (BIndexArc j y). split; [exact H|left; reflexivity].
      - apply (Permutation_in _ (Permutation_sym (Permutation_map snd A2))). rewrite map_app. apply in_or_app. left. exact H. }
    rewrite X. split; intros [(id & H)|H]; [left; exists id; rewrite <- (SL id); exact H|right; exact H|left; exists id; rewrite (SL id); exact H|right; exact H]. }
  intro v. rewrite !in_app_iff, !in_map_iff. split; intros [(d & K1 & K2)|(d & K1 & K2)]; [left|right|left|right]; exists d; (split; [exact K1|apply Hin, K2]).
Qed.

(** [resync_arcs] puts it right: what is found is then what it leaves after one sync. *)
Lemma lat_arc_only (D : docs P) ops id : lat_of id (apply_bops D (filter (@is_arc_op P) ops)) = lat_of id D.
Proof.
  rewrite lat_of_apply, lat_run_filter. replace (filter is_lat (of_id id (filter (@is_arc_op P) ops))) with (@nil bop); [reflexivity|].
  symmetry. unfold of_id. induction ops as [|o ops IH]; [reflexivity|]. cbn [filter]. destruct o; cbn [is_arc_op filter]; try exact IH. destruct (str_eqb _ _); cbn [filter is_lat]; exact IH.
Qed.
Lemma lat_seen_arc ops : lat_seen (filter (@is_arc_op P) ops) = false.
Proof. unfold lat_seen. induction ops as [|o ops IH]; [reflexivity|]. cbn [filter]. destruct o; cbn [is_arc_op existsb]; exact IH. Qed.
Theorem C94_repaired : forall (cl : client O) (e r : es P) ops k m,
  NoDup (map d_id (data cl name)) -> sync_plan cl name false e = Some (Some (e, ops)) -> Permutation m (copies (S k) ops) ->
  let e1 := write_ops ops e in
  let e' := refresh ops (write_live m (setup ops e)) in
  Sync.resync_arcs parse peq cap cl name e1 = Some r ->
  exists r', Sync.resync_arcs parse peq cap cl name e' = Some r' /\ same_latest (vis r') (vis r) /\ arc (vis r') = arc (vis r) /\ arcs r' = arcs r.
Proof.
  intros cl e r ops k m Hd He Hp e1 e'. assert (H1 := plan_one_lat parse peq cap _ _ _ _ _ _ _ Hd He).
  destruct (finish_docs ops m (copies k ops) e Hp (copies_only k ops) H1) as (L & _). fold e' e1 in L.
  rewrite !resync_arcs_eq. destruct (all_ops parse peq cap cl name) as [o|]; [|discriminate]. intro H. injection H as <-. eexists. split; [reflexivity|].
  set (f := filter _ o). assert (Hf : lat_seen f = false) by apply lat_seen_arc.
  assert (LA : forall D id, lat_of id (apply_bops D f) = lat_of id D) by (intros; apply lat_arc_only).
  assert (A : forall D D' : docs P, arc D = arc D' -> arc (apply_bops D f) = arc (apply_bops D' f)) by (intros D D' E; rewrite !arc_apply, E; reflexivity).
  unfold write_ops, refresh, write_live, setup. fold (delete_arcs e') (delete_arcs e1). cbn [live vis arcs has_lat delete_arcs]. destruct (isnil f) eqn:En; cbn [live vis arcs].
  - split; [|split; [apply A; reflexivity|reflexivity]]. intro id. rewrite !LA. destruct (L id) as [L1 L2]. exact L1 || exact L2.
  - rewrite Hf. split; [|split; [cbn [arc lat]; f_equal; f_equal; apply A; reflexivity|reflexivity]]. intro id. destruct (L id) as [L1 L2]. exact L1 || exact L2.
Qed.
End Props.
Print Assumptions C94_at_once_partial.
Print Assumptions C94_visible_partial.
Print Assumptions C94_repaired.

(** ** What goes wrong *)
Open Scope Z_scope.
(** A record is changed, and two processes sync at once: the older version is found twice afterwards. *)
Theorem C94_refuted : exists t calls cl e ops,
  toy_happens 2000000%N False t calls cl e /\ no_pending (state calls) /\ NoDup (map d_id (data cl db)) /\
  Sync.sync_plan toy_parse toy_eq 2000000%N cl db false e = Some (Some (e, ops)) /\
  option_map (map (fun d => (e_id d, e_ver d))) (search_at (write_ops ops e) 10) = Some [(lit "r1", 10)] /\
  option_map (map (fun d => (e_id d, e_ver d))) (search_at (refresh ops (write_live (copies 2 ops) (setup ops e))) 10) = Some [(lit "r1", 10); (lit "r1", 10)].
Proof.
  set (l := [ hput [("r1", X 1)]; hcommit 10; HSync false; hput [("r1", X 3)]; hcommit 20 ]).
  destruct (run_h 2000000 hstart l) as [[[[t calls] cl] e]|] eqn:E; [|vm_compute in E; discriminate].
  pose proof (run_h_happens 2000000 False l ltac:(vm_compute; discriminate) hstart _ (h_start _ _ _ _ _ _ _ _) E) as H. cbn [happens_sys] in H.
  exists t, calls, cl, e. vm_compute in E. injection E as <- <- <- <-. eexists.
  split; [exact H|]. split; [apply no_pending_b_ok; vm_compute; reflexivity|]. split; [vm_compute; repeat constructor; auto|]. split; [vm_compute; reflexivity|]. split; vm_compute; reflexivity.
Qed.
Print Assumptions C94_refuted.

(** Indices of one document: the second process begins after the writes of the first and adds the same documents to other arcs. *)
Definition arc_numbers (ops : list (bop (dict * nat))) : list N := flat_map (fun o => match o with BIndexArc n _ => [n] | _ => [] end) ops.
Example C94_example : exists cl e ops ops',
  NoDup (map d_id (data cl db)) /\ Sync.sync_plan toy_parse toy_eq 1%N cl db false e = Some (Some (e, ops)) /\
  Forall (begins toy_parse toy_eq 1%N db cl e) [(e, ops); (write_live ops e, ops')] /\
  arc_numbers ops = [0; 1]%N /\ arc_numbers ops' = [1; 2]%N /\ length (archived ops) = 2%nat.
Proof.
  set (l := [ hput [("r1", X 1); ("r2", X 1)]; hcommit 10; HSync false; hput [("r1", X 3); ("r2", X 2)]; hcommit 20 ]).
  destruct (run_h 1 hstart l) as [[[[t calls] cl] e]|] eqn:E; [|vm_compute in E; discriminate].
  exists cl, e. vm_compute in E. injection E as _ _ <- <-. eexists. eexists.
  split; [vm_compute; repeat (constructor; [cbn; intuition discriminate|]); constructor|]. split; [vm_compute; reflexivity|].
  split; [constructor; [|constructor; [|constructor]]; split; vm_compute; reflexivity|]. split; [reflexivity|]. split; reflexivity.
Qed.
