(** What a sync does to the latest index after the arcs were rebuilt by [resync_arcs]. *)
From Coq Require Import List ZArith NArith Bool Lia Sorted Permutation.
From Verif Require Import PyVal Diff DiffProofs Prepare Mongo Store MongoProofs MongoStore MongoMore Client ClientProofs.
From Verif Require Import Index IndexSpec IndexProofs Sync SyncSpec SyncProofs SyncBuild SyncColl SyncTrace SyncView SyncMore SyncArcs SyncEvents.
Import ListNotations.
Open Scope Z_scope.

Lemma find_records_of f c recs id h : find_records f c = Some recs -> In (id, h) recs ->
  exists d v, In d c /\ d_id d = id /\ d_ver d = Some v /\ rec_hist d = Some h /\ f v = true.
Proof.
  revert recs. induction c as [|d c IH]; intros recs H Hi; cbn [find_records] in H; [injection H as <-; contradiction|].
  destruct (match d_ver d with Some v => f v | None => false end) eqn:Ef.
  - destruct (rec_hist d) as [h0|] eqn:Eh; [|discriminate]. destruct (find_records f c) as [l|]; [|discriminate]. injection H as <-. destruct Hi as [E|Hi].
    + injection E as <- <-. destruct (d_ver d) as [v|] eqn:Ev; [|discriminate]. exists d, v. split; [left; reflexivity|auto].
    + destruct (IH l eq_refl Hi) as (d' & v & K1 & K2). exists d', v. split; [right; exact K1|exact K2].
  - destruct (IH recs H Hi) as (d' & v & K1 & K2). exists d', v. split; [right; exact K1|exact K2].
Qed.
Lemma find_records_has f c recs d v h : find_records f c = Some recs -> In d c -> d_ver d = Some v -> rec_hist d = Some h -> f v = true -> In (d_id d, h) recs.
Proof.
  revert recs. induction c as [|x c IH]; intros recs H Hi Hv Hh Hf; [contradiction|]. cbn [find_records] in H.
  destruct Hi as [->|Hi].
  - rewrite Hv, Hf, Hh in H. destruct (find_records f c) as [l|]; [|discriminate]. injection H as <-. left. reflexivity.
  - destruct (match d_ver x with Some v => f v | None => false end).
    + destruct (rec_hist x) as [h0|]; [|discriminate]. destruct (find_records f c) as [l|]; [|discriminate]. injection H as <-. right. exact (IH l eq_refl Hi Hv Hh Hf).
    + exact (IH recs H Hi Hv Hh Hf).
Qed.

Section Then.
Context {O P : Type} (parse : dict -> O -> P) (peq : P -> P -> bool) (cap : N).
Notation gen_ops := (gen_ops parse peq).
Notation build := (build parse peq).
Notation sync := (sync parse peq cap).

(** all the versions that have ended are old: only the open one can be written *)
Lemma rec_ops_closed_old after id (rvs : list (rv P)) : (forall d, In d (rv_docs id rvs) -> e_end d <> None -> newer after d = false) ->
  rec_ops after id rvs = map (BIndexLatest id) (filter (fun d => is_open d && gt_after after (e_ver d)) (rv_docs id rvs)).
Proof.
  induction rvs as [|r rest IH]; intro H; [reflexivity|]. cbn [rec_ops rv_docs filter].
  rewrite IH by (intros d Hd; apply H; right; exact Hd). specialize (H _ (or_introl eq_refl)).
  assert (Ho : is_open (create_doc id r (hd_error rest)) = isNone (hd_error rest) && isNone (rv_del r)).
  { unfold is_open, create_doc, version_end. cbn [e_end]. destruct (rv_del r), (hd_error rest); reflexivity. }
  rewrite Ho. destruct (isNone (hd_error rest) && isNone (rv_del r)) eqn:En.
  - apply andb_true_iff in En. destruct En as [N1 N2]. rewrite N1, N2, !andb_true_r. cbn [andb create_doc e_ver].
    destruct (gt_after after (rv_ver r)) eqn:Eg; [reflexivity|]. cbn [negb andb]. unfold version_end. destruct (rv_del r); [discriminate|]. destruct (hd_error rest); [discriminate|]. reflexivity.
  - assert (Hne : e_end (create_doc id r (hd_error rest)) <> None).
    { unfold is_open in Ho. destruct (e_end _); [discriminate|]. discriminate Ho. }
    specialize (H Hne). unfold newer, gt_end in H. apply orb_false_iff in H. destruct H as [H1 H2]. cbn [create_doc e_ver e_end] in H1, H2. rewrite H1. cbn [andb negb]. rewrite H2. reflexivity.
Qed.
Lemma rv_docs_open_one id (rvs : list (rv P)) : filter is_open (rv_docs id rvs) = [] \/ exists d, filter is_open (rv_docs id rvs) = [d].
Proof.
  induction rvs as [|r rest IH]; [left; reflexivity|]. cbn [rv_docs filter].
  assert (Ho : is_open (create_doc id r (hd_error rest)) = isNone (hd_error rest) && isNone (rv_del r)).
  { unfold is_open, create_doc, version_end. cbn [e_end]. destruct (rv_del r), (hd_error rest); reflexivity. }
  rewrite Ho. destruct rest as [|r2 rest]; [|exact IH]. cbn [hd_error isNone andb rv_docs filter]. destruct (isNone (rv_del r)); [right; eexists; reflexivity|left; reflexivity].
Qed.
Lemma filter_both {A} (f g : A -> bool) l : filter (fun x => f x && g x) l = filter g (filter f l).
Proof. induction l as [|x l IH]; [reflexivity|]. cbn [filter]. destruct (f x); cbn [andb filter]; rewrite IH; reflexivity. Qed.

(** after [resync_arcs] the version shown bounds every document that has ended *)
Lemma arcs_bound cl name ops (e : es P) recs id h rvs d : find_records (fun _ => true) (data cl name) = Some recs -> NoDup (map fst recs) ->
  all_ops parse peq cap cl name = Some ops -> In (id, h) recs -> build h (get_options cl name) = Some rvs -> In d (rv_docs id rvs) -> e_end d <> None ->
  newer (es_version (write_ops (filter is_arc_op ops) (delete_arcs e))) d = false.
Proof.
  intros Er Hn Ea Hi Hb Hd Hne. apply vis_bound. unfold all_ops in Ea. rewrite Er in Ea.
  destruct (gen_ops cap None (get_options cl name) (0, 0)%N recs) as [[st ops0]|] eqn:Eg; [|discriminate]. injection Ea as ->.
  destruct (gen_ops_of_id parse peq cap None _ recs _ st ops Eg Hn id) as [_ K]. destruct (K h Hi) as (rvs' & Hb' & Hs). rewrite Hb in Hb'. injection Hb' as <-.
  assert (W : In d (arc_adds (rec_ops None id rvs))).
  { destruct (rec_ops_written None id rvs d Hd eq_refl) as [W|(l & W)]; [exact W|]. exfalso. assert (Q : In (BIndexLatest id d) (rec_ops None id rvs)) by (rewrite W; apply in_or_app; right; left; reflexivity).
    apply rec_ops_only in Q. apply Hne, Q. }
  rewrite <- Hs in W.
  assert (X : exists n, In (BIndexArc n d) ops).
  { assert (G : forall l, In d (arc_adds (map strip l)) -> exists n, In (BIndexArc n d) l).
    { intro l. induction l as [|o l IHl]; [intros []|]. destruct o as [i x|i|n x]; cbn; intro Q.
      - destruct (IHl Q) as (n & Hn'). exists n. right. exact Hn'.
      - destruct (IHl Q) as (n & Hn'). exists n. right. exact Hn'.
      - destruct Q as [->|Q]; [exists n; left; reflexivity|]. destruct (IHl Q) as (n' & Hn'). exists n'. right. exact Hn'. }
    destruct (G _ W) as (n & Q). exists n. apply filter_In in Q. apply Q. }
  destruct X as (n & X). apply in_all_docs. right.
  destruct (write_arcs (filter is_arc_op ops) (delete_arcs e) eq_refl eq_refl) as [_ A2].
  unfold arc_of. rewrite A2. apply filter_In. split; [|apply str_eqb_refl]. apply in_map_iff. exists (n, d). split; [reflexivity|].
  apply in_flat_map. exists (BIndexArc n d). split; [apply filter_In; split; [exact X|reflexivity]|left; reflexivity].
Qed.

Lemma then_sync (oeq : O -> O -> bool) (odef : O) cl name (e e1 : es P) : NoDup (map d_id (data cl name)) ->
  (forall d v h k, In d (data cl name) -> d_ver d = Some v -> rec_hist d = Some h -> In k (zkeys h) -> k <= v) ->
  resync_arcs parse peq cap cl name e = Some e1 ->
  exists e0 e2, sync cl name false empty_es = Some e0 /\ sync cl name false e1 = Some e2 /\
    arc (live e2) = arc (live e1) /\ (lat (vis e) = lat (live e) -> lat (vis e2) = lat (live e2)) /\
    forall id, (length (lat_of id (live e0)) <= 1)%nat /\
      lat_of id (live e2) = match filter (fun d => gt_after (es_version e1) (e_ver d)) (lat_of id (live e0)) with [] => lat_of id (live e) | l => l end.
Proof.
  intros Hnd HB H. rewrite resync_arcs_eq in H. rewrite sync_scratch. destruct (all_ops parse peq cap cl name) as [ops|] eqn:Ea; [|discriminate]. injection H as <-.
  set (e1 := write_ops (filter is_arc_op ops) (delete_arcs e)).
  assert (Ls : lat_seen (filter is_arc_op ops) = false).
  { clear. unfold lat_seen. induction ops as [|o ops IH]; [reflexivity|]. cbn [filter]. destruct o; cbn [is_arc_op existsb orb]; exact IH. }
  assert (L1 : lat (live e1) = lat (live e)) by (unfold e1; rewrite write_live_docs, apply_lat_unseen by exact Ls; reflexivity).
  assert (L1' : forall id, lat_of id (live e1) = lat_of id (live e)) by (intro id; unfold lat_of; rewrite L1; reflexivity).
  assert (V1 : lat (vis e) = lat (live e) -> lat (vis e1) = lat (live e1)) by (intro Q; exact (write_vis_lat _ (delete_arcs e) Q)).
  assert (Ea' := Ea). unfold all_ops in Ea. destruct (find_records (fun _ => true) (data cl name)) as [recs|] eqn:Er; [|discriminate].
  destruct (gen_ops cap None (get_options cl name) (0, 0)%N recs) as [[st ops0]|] eqn:Eg; [|discriminate]. injection Ea as ->.
  assert (Hn : NoDup (map fst recs)) by (apply (find_records_ids _ _ recs Er), Hnd).
  (* latest of a sync from scratch *)
  assert (S0 : forall id, (~ In id (map fst recs) -> lat_of id (apply_bops (live empty_es) ops) = []) /\
    (forall h, In (id, h) recs -> exists rvs, build h (get_options cl name) = Some rvs /\ lat_of id (apply_bops (live empty_es) ops) = filter is_open (rv_docs id rvs))).
  { intro id. destruct (gen_ops_of_id parse peq cap None _ recs _ st ops Eg Hn id) as [K1 K2]. rewrite lat_of_apply. split.
    - intro Q. rewrite (K1 Q). reflexivity.
    - intros h Hi. destruct (K2 h Hi) as (rvs & Hb & Hs). exists rvs. split; [exact Hb|]. rewrite <- lat_run_strip, Hs.
      destruct (rec_ops_fresh None id rvs) as [_ F]; [apply Forall_forall; reflexivity|]. rewrite F. cbn. destruct (filter is_open (rv_docs id rvs)); reflexivity. }
  destruct (has_data (data cl name)) eqn:Hd.
  2:{ exists empty_es, e1. split; [reflexivity|]. split; [unfold Sync.sync, sync_plan; rewrite plan_eq, Hd; reflexivity|]. split; [reflexivity|]. split; [exact V1|]. intro id. split; [cbn; lia|]. cbn. apply L1'. }
  destruct (get_committed_version cl name) as [cv|] eqn:Ecv; [|exfalso; exact (gcv_of_data cl name Hd Ecv)].
  exists (write_ops ops empty_es). unfold Sync.sync, sync_plan. rewrite plan_eq, Hd, Ecv. cbn [negb isNone after_of base_of]. rewrite andb_false_r.
  assert (Len : forall id, (length (lat_of id (live (write_ops ops empty_es))) <= 1)%nat).
  { intro id. rewrite write_live_docs. destruct (S0 id) as [K1 K2]. destruct (in_dec (list_eq_dec N.eq_dec) id (map fst recs)) as [Q|Q].
    - apply in_map_iff in Q. destruct Q as ([i h] & Qe & Q). cbn in Qe. subst i. destruct (K2 h Q) as (rvs & _ & ->). destruct (rv_docs_open_one id rvs) as [->|(d & ->)]; cbn; lia.
    - rewrite (K1 Q). cbn. lia. }
  set (w := es_version e1).
  (* a record of which every version is old *)
  assert (Old : forall id a, (forall h, In (id, h) recs -> forall k, In k (zkeys (get_options cl name)) \/ In k (zkeys h) -> k <= a) -> (forall l, w = Some l -> a <= l) -> w <> None ->
    filter (fun d => gt_after w (e_ver d)) (lat_of id (live (write_ops ops empty_es))) = []).
  { intros id a Ha Hl Hw. rewrite write_live_docs. destruct (S0 id) as [K1 K2]. destruct (in_dec (list_eq_dec N.eq_dec) id (map fst recs)) as [Q|Q]; [|rewrite (K1 Q); reflexivity].
    apply in_map_iff in Q. destruct Q as ([i h] & Qe & Q). cbn in Qe. subst i. destruct (K2 h Q) as (rvs & Hb & ->).
    destruct (filter _ (filter is_open (rv_docs id rvs))) as [|d l] eqn:Ef; [reflexivity|]. exfalso. assert (Hin : In d (d :: l)) by (left; reflexivity). rewrite <- Ef in Hin.
    apply filter_In in Hin. destruct Hin as [Hin Hgt]. apply filter_In in Hin. destruct Hin as [Hin _].
    destruct (rv_docs_versions parse peq a h _ rvs id d Hb (Ha h Q) Hin) as [Hv _]. destruct w as [x|]; [|congruence]. specialize (Hl x eq_refl). unfold gt_after in Hgt. apply Z.ltb_lt in Hgt. lia. }
  assert (Hcv : forall id h k, In (id, h) recs -> In k (zkeys (get_options cl name)) \/ In k (zkeys h) -> k <= cv).
  { apply gcv_spec in Ecv. destruct Ecv as [_ Ecv]. intros id h k Hi [Hk|Hk].
    - apply Ecv. right. apply (get_options_versions oeq odef), Hk.
    - destruct (find_records_of _ _ _ _ _ Er Hi) as (d & v & D1 & D2 & D3 & D4 & _). specialize (HB d v h k D1 D3 D4 Hk). assert (v <= cv) by (apply Ecv; left; exists d; auto). lia. }
  destruct (early w (Some cv)) eqn:Ee.
  { exists e1. split; [reflexivity|]. split; [reflexivity|]. split; [reflexivity|]. split; [exact V1|]. intro id. split; [apply Len|].
    rewrite (Old id cv); [apply L1'|exact (fun h Hi k Hk => Hcv id h k Hi Hk)| |].
    - intros l El. unfold early in Ee. rewrite El in Ee. lia.
    - intro El. rewrite El in Ee. discriminate. }
  destruct (find_records_sub (sel w (get_options cl name)) (fun _ => true) _ recs (fun _ _ => eq_refl) Er) as (recs2 & Er2 & Hi2).
  rewrite Er2. assert (Hn2 : NoDup (map fst recs2)) by (apply (find_records_ids _ _ recs2 Er2), Hnd).
  destruct (gen_ops_total parse peq cap w (get_options cl name) recs2 (get_arc_status e1)) as (st2 & ops2 & Eg2).
  { intros id h Hi. exact (gen_ops_recs parse peq cap None _ recs _ st ops Eg id h (Hi2 _ Hi)). }
  rewrite Eg2. cbn [run_plan]. exists (write_ops ops2 e1). split; [reflexivity|]. split; [reflexivity|].
  assert (Rec : forall id h rvs, In (id, h) recs2 -> build h (get_options cl name) = Some rvs ->
    rec_ops w id rvs = map (BIndexLatest id) (filter (fun d => gt_after w (e_ver d)) (filter is_open (rv_docs id rvs)))).
  { intros id h rvs Hi Hb. rewrite rec_ops_closed_old, filter_both; [reflexivity|]. intros d Hdd Hne.
    exact (arcs_bound cl name ops e recs id h rvs d Er Hn Ea' (Hi2 _ Hi) Hb Hdd Hne). }
  split.
  { rewrite write_live_docs, arc_apply. replace (flat_map arc_pair ops2) with (@nil (N * esdoc P)); [apply app_nil_r|]. symmetry.
    destruct (flat_map arc_pair ops2) as [|x l] eqn:Ef; [reflexivity|]. exfalso. assert (Hin : In x (x :: l)) by (left; reflexivity). rewrite <- Ef in Hin.
    apply in_flat_map in Hin. destruct Hin as (o & Ho & Hx). destruct o as [i d|i|n d]; [contradiction|contradiction|].
    destruct (gen_ops_In parse peq cap w _ recs2 _ st2 ops2 _ Eg2 Hn2 Ho) as (h & rvs & Hi & Hb & Hin & _). rewrite (Rec _ h rvs Hi Hb) in Hin. cbn [strip] in Hin.
    apply in_map_iff in Hin. destruct Hin as (y & Hy & _). discriminate. }
  split; [intro Q; apply write_vis_lat, V1, Q|].
  intro id. split; [apply Len|]. rewrite (write_live_docs ops2), lat_of_apply, L1'.
  destruct (gen_ops_of_id parse peq cap w _ recs2 _ st2 ops2 Eg2 Hn2 id) as [K1 K2].
  destruct (in_dec (list_eq_dec N.eq_dec) id (map fst recs2)) as [Q|Q].
  - apply in_map_iff in Q. destruct Q as ([i h] & Qe & Q). cbn in Qe. subst i. destruct (K2 h Q) as (rvs & Hb & Hs). rewrite <- lat_run_strip, Hs, (Rec id h rvs Q Hb).
    rewrite write_live_docs. destruct (proj2 (S0 id) h (Hi2 _ Q)) as (rvs' & Hb' & ->). rewrite Hb in Hb'. injection Hb' as <-.
    destruct (rv_docs_open_one id rvs) as [->|(d & ->)]; [reflexivity|]. cbn [filter]. destruct (gt_after w (e_ver d)); reflexivity.
  - rewrite (K1 Q). destruct w as [l|] eqn:Ew.
    2:{ assert (E0 : lat_of id (apply_bops (live empty_es) ops) = []); [|rewrite write_live_docs, E0; reflexivity].
        apply (proj1 (S0 id)). intro K. apply Q. rewrite (find_records_ext _ (fun _ => true)) in Er2 by reflexivity. rewrite Er in Er2. injection Er2 as <-. exact K. }
    rewrite (Old id l); [reflexivity| |intros x Ex; injection Ex as ->; lia|discriminate].
    intros h Hi. destruct (find_records_of _ _ _ _ _ Er Hi) as (d & v & D1 & D2 & D3 & D4 & _).
    assert (Hs : sel (Some l) (get_options cl name) v = false).
    { destruct (sel (Some l) (get_options cl name) v) eqn:Es; [|reflexivity]. exfalso. apply Q. rewrite <- D2. exact (in_map fst _ _ (find_records_has _ _ _ d v h Er2 D1 D3 D4 Es)). }
    unfold sel in Hs. apply orb_false_iff in Hs. destruct Hs as [Hs1 Hs2]. intros k [Hk|Hk].
    + destruct (Z.ltb_spec l k) as [Lt|Ge]; [|lia]. exfalso. assert (X : existsb (fun k => l <? k) (zkeys (get_options cl name)) = true) by (apply existsb_exists; exists k; split; [exact Hk|apply Z.ltb_lt; lia]). congruence.
    + specialize (HB d v h k D1 D3 D4 Hk). apply Z.ltb_ge in Hs2. lia.
Qed.
End Then.
