(** Resyncs, failed syncs, and what can be in Elasticsearch after any sequence of events. *)
From Coq Require Import List ZArith NArith Bool Lia Sorted Permutation.
From Verif Require Import PyVal Diff DiffProofs Prepare Mongo Store MongoProofs MongoStore MongoMore Client ClientProofs.
From Verif Require Import Index IndexSpec IndexProofs Sync SyncSpec SyncProofs SyncBuild SyncColl SyncTrace SyncView SyncMore SyncArcs.
Import ListNotations.
Open Scope Z_scope.

Section Resync.
Context {O P : Type} (parse : dict -> O -> P) (peq : P -> P -> bool) (cap : N).
Notation gen_ops := (gen_ops parse peq).
Notation sync := (sync parse peq cap).

Lemma find_all_none c : has_data c = false -> find_records (fun _ => true) c = Some [].
Proof.
  unfold has_data. induction c as [|d c IH]; intro H; [reflexivity|]. cbn [existsb] in H. apply orb_false_iff in H. destruct H as [H1 H2]. cbn [find_records].
  destruct (d_ver d); [discriminate|]. apply IH, H2.
Qed.
(** the operations of a sync from scratch *)
Definition all_ops (cl : client O) (name : pystr) : option (list (bop P)) :=
  match find_records (fun _ => true) (data cl name) with
  | None => None
  | Some recs => match gen_ops cap None (get_options cl name) (0, 0)%N recs with None => None | Some (_, ops) => Some ops end
  end.
Lemma sync_scratch cl name : sync cl name false empty_es = match all_ops cl name with
  | None => None | Some ops => if has_data (data cl name) then Some (write_ops ops empty_es) else Some empty_es end.
Proof.
  unfold Sync.sync, sync_plan, all_ops. rewrite plan_eq. destruct (has_data (data cl name)) eqn:Hd; cbn [negb].
  - change (after_of false (@empty_es P)) with (@None Z). change (base_of false (@empty_es P)) with (@empty_es P). cbn [isNone negb andb early].
    rewrite (find_records_ext (sel None (get_options cl name)) (fun _ => true)) by reflexivity. change (get_arc_status empty_es) with (0, 0)%N.
    destruct (find_records (fun _ => true) (data cl name)) as [recs|]; [|reflexivity]. destruct (gen_ops cap None (get_options cl name) (0%N, 0%N) recs) as [[st ops]|]; reflexivity.
  - rewrite (find_all_none _ Hd). reflexivity.
Qed.
Lemma resync_eq cl name e : sync cl name true e = 
  if has_data (data cl name) then match all_ops cl name with None => None | Some ops => Some (write_ops ops (delete_arcs e)) end else Some e.
Proof.
  unfold Sync.sync, sync_plan, all_ops. rewrite plan_eq. destruct (has_data (data cl name)) eqn:Hd; cbn [negb]; [|reflexivity].
  cbn [after_of isNone negb andb early base_of]. rewrite (find_records_ext (sel None (get_options cl name)) (fun _ => true)) by reflexivity. change (get_arc_status (delete_arcs e)) with (0, 0)%N.
  destruct (find_records (fun _ => true) (data cl name)) as [recs|]; [|reflexivity]. destruct (gen_ops cap None (get_options cl name) (0%N, 0%N) recs) as [[st ops]|]; reflexivity.
Qed.
Lemma resync_arcs_eq cl name e : resync_arcs parse peq cap cl name e =
  match all_ops cl name with None => None | Some ops => Some (write_ops (filter is_arc_op ops) (delete_arcs e)) end.
Proof.
  unfold resync_arcs, all_ops. change (get_arc_status (delete_arcs e)) with (0, 0)%N.
  destruct (find_records (fun _ => true) (data cl name)) as [recs|]; [|reflexivity]. destruct (gen_ops cap None (get_options cl name) (0%N, 0%N) recs) as [[st ops]|]; reflexivity.
Qed.
Lemma filter_all {A} (f : A -> bool) l : (forall x, In x l -> f x = true) -> filter f l = l.
Proof. induction l as [|x l IH]; intro H; [reflexivity|]. cbn. rewrite H by (left; reflexivity). f_equal. apply IH. intros y Hy. apply H. right. exact Hy. Qed.
(** arcs written from nothing *)
Lemma write_arcs ops (e : es P) : arc (live e) = [] -> arc (vis e) = [] -> arc (live (write_ops ops e)) = flat_map arc_pair ops /\ arc (vis (write_ops ops e)) = flat_map arc_pair ops.
Proof.
  intros H1 H2. split; [rewrite write_live_docs, arc_apply, H1; reflexivity|]. unfold write_ops, refresh, write_live, setup. destruct (isnil ops) eqn:En; cbn [vis arc live].
  - rewrite arc_apply, H1. reflexivity.
  - rewrite arc_apply, H1, H2. cbn [app filter]. rewrite app_nil_r. apply filter_all. intros x Hx. apply in_flat_map in Hx. destruct Hx as (o & Ho & Hx).
    destruct o as [i d|i|n d]; [contradiction|contradiction|]. destruct Hx as [<-|[]]. cbn [fst]. unfold arc_seen. apply existsb_exists. exists (BIndexArc n d). split; [exact Ho|apply N.eqb_refl].
Qed.
Lemma gen_rvs_after_none id (rvs : list (rv P)) : forall st o, In o (snd (gen_rvs cap None id st rvs)) -> forall i, o <> BDeleteLatest i.
Proof.
  induction rvs as [|r rest IH]; intros st o Ho i; [contradiction|]. cbn [gen_rvs gt_after negb andb] in Ho. destruct (_ && _).
  - destruct (gen_rvs cap None id st rest) as [st' ops] eqn:E. cbn [snd] in Ho. destruct Ho as [<-|Ho]; [discriminate|]. apply (IH st o); rewrite E; exact Ho.
  - destruct (gen_rvs cap None id (next_arc cap st) rest) as [st' ops] eqn:E. cbn [snd app] in Ho. destruct Ho as [<-|Ho]; [discriminate|]. apply (IH (next_arc cap st) o); rewrite E; exact Ho.
Qed.
Lemma gen_ops_after_none om : forall recs st st' ops, gen_ops cap None om st recs = Some (st', ops) -> forall o i, In o ops -> o <> BDeleteLatest i.
Proof.
  induction recs as [|[id h] recs IH]; intros st st' ops H o i Ho; cbn [Index.gen_ops] in H; [injection H as _ <-; contradiction|].
  destruct (build parse peq h om) as [rvs|]; [|discriminate]. pose proof (gen_rvs_after_none id rvs st) as G. destruct (gen_rvs cap None id st rvs) as [st1 ops1].
  destruct (gen_ops cap None om st1 recs) as [[st2 ops2]|] eqn:E2; [|discriminate]. injection H as <- <-. apply in_app_or in Ho. destruct Ho as [Ho|Ho]; [apply (G o Ho)|exact (IH _ _ _ E2 o i Ho)].
Qed.
Lemma all_ops_no_delete cl name ops : all_ops cl name = Some ops -> forall o i, In o ops -> o <> BDeleteLatest i.
Proof.
  unfold all_ops. destruct (find_records _ _) as [recs|]; [|discriminate]. destruct (gen_ops _ _ _ _ _) as [[st ops0]|] eqn:E; [|discriminate]. intro H. injection H as <-.
  exact (gen_ops_after_none _ _ _ _ _ E).
Qed.
(** without deletions the latest documents replace what was there, or leave it *)
Lemma lat_run_over (ops : list (bop P)) : (forall o i, In o ops -> o <> BDeleteLatest i) -> forall l, lat_run l ops = match lat_run [] ops with [] => l | x => x end.
Proof.
  unfold lat_run. induction ops as [|o ops IH]; intros H l; [reflexivity|]. assert (H' : forall o i, In o ops -> o <> BDeleteLatest i) by (intros o' i' K; apply H; right; exact K). cbn [fold_left].
  destruct o as [i d|i|n d]; cbn [lat_eff].
  - rewrite (IH H' [d]). destruct (fold_left lat_eff ops []); reflexivity.
  - exfalso. exact (H _ i (or_introl eq_refl) eq_refl).
  - apply (IH H').
Qed.
Lemma write_vis_lat ops (e : es P) : lat (vis e) = lat (live e) -> lat (vis (write_ops ops e)) = lat (live (write_ops ops e)).
Proof.
  intro H. rewrite write_live_docs. unfold write_ops, refresh, write_live, setup. destruct (isnil ops); cbn [vis lat live]; [reflexivity|].
  destruct (lat_seen ops) eqn:E; [reflexivity|]. rewrite apply_lat_unseen by exact E. exact H.
Qed.

(** ** Failed syncs *)
Definition only {A} (l m : list A) : Prop := forall x, In x l -> In x m.
Lemma gen_ops_strip after om : forall recs st st1 st' ops, gen_ops cap after om st recs = Some (st', ops) ->
  exists st2 ops2, gen_ops cap after om st1 recs = Some (st2, ops2) /\ map strip ops2 = map strip ops.
Proof.
  induction recs as [|[id h] recs IH]; intros st st1 st' ops H; cbn [Index.gen_ops] in *; [injection H as <- <-; exists st1, []; split; reflexivity|].
  destruct (build parse peq h om) as [rvs|]; [|discriminate].
  pose proof (gen_rvs_strip cap after id rvs st) as G1. pose proof (gen_rvs_strip cap after id rvs st1) as G2.
  destruct (gen_rvs cap after id st rvs) as [sa opsa]. destruct (gen_rvs cap after id st1 rvs) as [sb opsb].
  destruct (gen_ops cap after om sa recs) as [[sc opsc]|] eqn:E; [|discriminate]. injection H as <- <-.
  destruct (IH sa sb sc opsc E) as (sd & opsd & -> & Es). exists sd, (opsb ++ opsd). split; [reflexivity|]. rewrite !map_app. cbn [snd] in G1, G2. congruence.
Qed.
Lemma of_id_strip id (ops : list (bop P)) : map strip (of_id id ops) = of_id id (map strip ops).
Proof. unfold of_id. induction ops as [|o ops IH]; [reflexivity|]. cbn [map filter]. destruct o; cbn [strip bop_id]; destruct (str_eqb _ id); cbn [map strip]; rewrite IH; reflexivity. Qed.
Lemma lat_seen_strip (ops : list (bop P)) : lat_seen (map strip ops) = lat_seen ops.
Proof. unfold lat_seen. induction ops as [|o ops IH]; [reflexivity|]. cbn. rewrite IH. destruct o; reflexivity. Qed.
(** once the failed operations for latest are written again they leave no trace *)
Lemma lat_run_redo (some ops ops2 : list (bop P)) id l : only some ops -> map strip ops2 = map strip ops -> 
  lat_run (lat_run l (of_id id some)) (of_id id ops2) = lat_run l (of_id id ops).
Proof.
  intros Ho Hs. assert (E : map strip (of_id id ops2) = map strip (of_id id ops)) by (rewrite !of_id_strip, Hs; reflexivity).
  rewrite <- (lat_run_strip (of_id id ops2)), E, lat_run_strip. clear E Hs ops2.
  destruct (existsb is_lat (of_id id ops)) eqn:Ex.
  - assert (G : forall (m : list (bop P)) x y, existsb is_lat m = true -> lat_run x m = lat_run y m).
    { clear. unfold lat_run. induction m as [|o m IH]; intros x y H; [discriminate|]. cbn [existsb fold_left] in *. destruct o as [i d|i|n d]; cbn [lat_eff is_lat orb] in *; [reflexivity|reflexivity|apply IH, H]. }
    apply G, Ex.
  - f_equal. assert (Es : existsb is_lat (of_id id some) = false).
    { destruct (existsb is_lat (of_id id some)) eqn:E; [|reflexivity]. apply existsb_exists in E. destruct E as (o & K1 & K2). apply filter_In in K1. destruct K1 as [K1 K3].
      rewrite <- Ex. symmetry. apply existsb_exists. exists o. split; [apply filter_In; split; [apply Ho, K1|exact K3]|exact K2]. }
    clear - Es. revert l. unfold lat_run. induction (of_id id some) as [|o m IH]; intro l; [reflexivity|]. cbn [existsb fold_left] in *. apply orb_false_iff in Es. destruct Es as [E1 E2].
    destruct o; try discriminate. cbn [lat_eff]. apply IH, E2.
Qed.
Lemma failed_repeat cl name (e e1 : es P) ops more some : sync_plan parse peq cap cl name false e = Some (Some (e1, ops)) -> only some ops ->
  exists e', sync cl name false e = Some e' /\ exists e2, sync cl name false (write_live some (setup more e)) = Some e2 /\
    (forall id, lat_of id (live e2) = lat_of id (live e')) /\
    (forall id, Permutation (arc_of id (live e2)) (arc_of id (live e') ++ arc_adds (of_id id some))) /\
    (lat (vis e) = lat (live e) -> forall id, lat_of id (vis e2) = lat_of id (vis e')) /\
    (existsb is_arc_op some = false -> existsb is_arc_op more = false -> arc (live e2) = arc (live e') /\ arc (vis e2) = arc (vis e')).
Proof.
  intros Hp Ho. unfold Sync.sync. rewrite Hp. cbn [run_plan]. unfold sync_plan in *. rewrite plan_eq in *. destruct (negb (has_data (data cl name))); [discriminate|].
  assert (Ev : es_version (write_live some (setup more e)) = es_version e) by reflexivity.
  cbn [after_of base_of] in *. rewrite Ev. destruct (negb (isNone (es_version e)) && isNone (get_committed_version cl name)); [discriminate|].
  destruct (early (es_version e) (get_committed_version cl name)); [discriminate|].
  destruct (find_records (sel (es_version e) (get_options cl name)) (data cl name)) as [recs|]; [|discriminate].
  destruct (gen_ops cap (es_version e) (get_options cl name) (get_arc_status e) recs) as [[st ops0]|] eqn:Eg; [|discriminate]. injection Hp as <- <-.
  exists (write_ops ops0 e). split; [reflexivity|].
  destruct (gen_ops_strip _ _ recs _ (get_arc_status (write_live some (setup more e))) st ops0 Eg) as (st2 & ops2 & E2 & Es). rewrite E2. cbn [run_plan].
  exists (write_ops ops2 (write_live some (setup more e))). split; [reflexivity|].
  assert (L : forall id, lat_of id (apply_bops (apply_bops (live e) some) ops2) = lat_of id (apply_bops (live e) ops0)).
  { intro id. rewrite !lat_of_apply. apply lat_run_redo; assumption. }
  rewrite !write_live_docs. split; [intro id; apply L|]. split; [|split].
  - intro id. cbn [write_live setup live]. rewrite !arc_of_apply. rewrite <- !app_assoc. apply Permutation_app_head.
    rewrite <- (arc_adds_strip (of_id id ops2)), of_id_strip, Es, <- of_id_strip, arc_adds_strip. apply Permutation_app_comm.
  - intros Hv id. assert (S : lat_seen ops2 = lat_seen ops0) by (rewrite <- (lat_seen_strip ops2), Es, lat_seen_strip; reflexivity).
    assert (Hn : isnil ops2 = isnil ops0) by (destruct ops2, ops0; try reflexivity; discriminate).
    unfold write_ops, refresh, write_live, setup. rewrite <- Hn. destruct (isnil ops2); cbn [vis live]; [apply L|]. unfold lat_of at 1 2. cbn [lat]. rewrite <- S. destruct (lat_seen ops2) eqn:E; [|reflexivity].
    apply L.
  - intros Ha Hm. assert (Hst : get_arc_status (write_live some (setup more e)) = get_arc_status e).
    { unfold get_arc_status. cbn [write_live setup arcs vis]. assert (G : forall l m, existsb is_arc_op m = false -> fold_left (add_arc (P := P)) m l = l); [|rewrite !G by assumption; reflexivity].
      clear. intros l some. revert l. induction some as [|o some IH]; intros l Ha; [reflexivity|]. cbn [existsb fold_left] in *. apply orb_false_iff in Ha. destruct Ha as [H1 H2].
      destruct o; try discriminate; cbn [add_arc]; apply IH, H2. }
    rewrite Hst, Eg in E2. injection E2 as <- <-.
    assert (F : flat_map (arc_pair (P := P)) some = []).
    { clear - Ha. induction some as [|o some IH]; [reflexivity|]. cbn [existsb flat_map] in *. apply orb_false_iff in Ha. destruct Ha as [H1 H2]. rewrite (IH H2). destruct o; try discriminate; reflexivity. }
    assert (A : arc (apply_bops (apply_bops (live e) some) ops0) = arc (apply_bops (live e) ops0)) by (rewrite !arc_apply, F, app_nil_r; reflexivity).
    split; [exact A|]. unfold write_ops, refresh, write_live, setup. destruct (isnil ops0); cbn [vis live arc]; [exact A|]. rewrite A. reflexivity.
Qed.
End Resync.

(** ** Any sequence of events *)
Section Parsed.
Context {O P : Type} (parse : dict -> O -> P) (peq : P -> P -> bool).
Definition from_data (dm : list (Z * dict)) (om : list (Z * O)) (p : P) : Prop :=
  exists v x w o, In (v, x) dm /\ In (w, o) om /\ p = parse x o.
Lemma zget_In' {V} (m : list (Z * V)) k x : zget m k = Some x -> In (k, x) m.
Proof. induction m as [|[j y] m IH]; [discriminate|]. cbn [zget]. destruct (Z.eqb_spec k j) as [->|]; intro H; [injection H as ->; left; reflexivity|right; apply IH, H]. Qed.
Lemma fold_parsed fd (dm : list (Z * dict)) (om : list (Z * O)) vs :
  forall st d o acc, fold_left (build_step parse peq fd dm om) vs (Some st) = Some (d, o, acc) ->
  (exists v, In (v, fst (fst st)) dm) -> (exists w, In (w, snd (fst st)) om) -> Forall (fun r => from_data dm om (rv_parsed r)) (snd st) ->
  Forall (fun r => from_data dm om (rv_parsed r)) acc.
Proof.
  induction vs as [|v vs IH]; intros st d o acc H Hd Ho Hst.
  - cbn in H. injection H as ->. exact Hst.
  - cbn [fold_left] in H. destruct (build_step parse peq fd dm om (Some st) v) as [st1|] eqn:E.
    2:{ exfalso. clear -H. induction vs as [|w vs IH]; [discriminate|]. cbn in H. exact (IH H). }
    destruct st as [[d0 o0] acc0]. cbn [fst snd] in *. cbn [Index.build_step] in E.
    destruct (v <? fd). { injection E as <-. exact (IH _ d o acc H Hd Ho Hst). }
    assert (Hd' : exists v', In (v', match zget dm v with Some x => x | None => d0 end) dm).
    { destruct (zget dm v) as [x|] eqn:Ez; [exists v; apply zget_In', Ez|exact Hd]. }
    assert (Ho' : exists w', In (w', match zget om v with Some x => x | None => o0 end) om).
    { destruct (zget om v) as [x|] eqn:Ez; [exists v; apply zget_In', Ez|exact Ho]. }
    destruct (match zget dm v with Some x => x | None => d0 end) as [|kv x].
    + destruct acc0 as [|r rest]; [discriminate|]. injection E as <-. apply (IH _ d o acc H); cbn [fst snd]; [exact Hd'|exact Ho'|]. inversion Hst as [|? ? H1 H3]; subst.
      destruct (rv_del r) as [w|] eqn:Ed; [exact Hst|]. constructor; [exact H1|assumption].
    + injection E as <-. apply (IH _ d o acc H); cbn [fst snd]; [exact Hd'|exact Ho'|].
      assert (Hp : from_data dm om (parse (kv :: x) (match zget om v with Some o1 => o1 | None => o0 end))).
      { destruct Hd' as (v' & Hv'), Ho' as (w' & Hw'). exists v', (kv :: x), w'. eexists. split; [exact Hv'|]. split; [exact Hw'|reflexivity]. }
      destruct acc0 as [|r rest]; [constructor; [exact Hp|constructor]|].
      match goal with |- Forall _ (if ?b then _ else _) => destruct b end; [exact Hst|constructor; [exact Hp|exact Hst]].
Qed.
Lemma build_parsed (dm : list (Z * dict)) (om : list (Z * O)) rvs : build parse peq dm om = Some rvs -> Forall (fun r => from_data dm om (rv_parsed r)) rvs.
Proof.
  unfold Index.build. destruct (zmin_key dm) as [fd|]; [|discriminate]. destruct (zmin_key om) as [fo|]; [|discriminate].
  destruct (zget dm fd) as [d0|] eqn:Ed; [|discriminate]. destruct (zget om fo) as [o0|] eqn:Eo; [|discriminate].
  destruct (fold_left _ _ _) as [[[d o] acc]|] eqn:E; [|discriminate]. intro H. injection H as <-.
  apply Forall_rev. refine (fold_parsed fd dm om _ _ d o acc E _ _ (Forall_nil _)); [exists fd|exists fo]; apply zget_In'; assumption.
Qed.
Lemma rv_docs_from (dm : list (Z * dict)) (om : list (Z * O)) rvs id d : build parse peq dm om = Some rvs -> In d (rv_docs id rvs) ->
  e_id d = id /\ from_data dm om (e_parsed d) /\ (In (e_ver d) (zkeys om) \/ In (e_ver d) (zkeys dm)) /\
  (forall w, e_end d = Some w -> In w (zkeys om) \/ In w (zkeys dm)).
Proof.
  intros Hb Hd. pose proof (build_versions parse peq dm om rvs Hb) as K. pose proof (build_parsed dm om rvs Hb) as Q. rewrite Forall_forall in K, Q.
  apply In_nth_error in Hd. destruct Hd as (i & Hi). apply rv_docs_nth in Hi. destruct Hi as (r & Hr & ->). cbn [create_doc e_ver e_end e_id e_parsed].
  split; [reflexivity|]. split; [exact (Q r (nth_error_In _ _ Hr))|]. destruct (K r (nth_error_In _ _ Hr)) as [K1 K2]. split; [exact K1|].
  intros w Hw. unfold version_end in Hw. destruct (rv_del r) as [u|]; [injection Hw as <-; exact K2|]. destruct (nth_error rvs (S i)) as [n|] eqn:En; [|discriminate].
  injection Hw as <-. apply (K n (nth_error_In _ _ En)).
Qed.
(** every operation writes a document of some record *)
Definition op_doc (o : bop P) : option (esdoc P) := match o with BIndexLatest _ d | BIndexArc _ d => Some d | BDeleteLatest _ => None end.
Lemma gen_rvs_docs cap after id (rvs : list (rv P)) : forall st o d, In o (snd (gen_rvs cap after id st rvs)) -> op_doc o = Some d -> In d (rv_docs id rvs).
Proof.
  induction rvs as [|r rest IH]; intros st o d Ho Hd; [contradiction|]. cbn [gen_rvs rv_docs] in *. destruct (_ && _ && _).
  - specialize (IH st). destruct (gen_rvs cap after id st rest) as [st' ops]. cbn [snd] in *. destruct Ho as [<-|Ho]; [injection Hd as <-; left; reflexivity|right; exact (IH o d Ho Hd)].
  - destruct (_ && _); [right; exact (IH st o d Ho Hd)|]. specialize (IH (next_arc cap st)). destruct (gen_rvs cap after id (next_arc cap st) rest) as [st' ops]. cbn [snd] in *.
    apply in_app_or in Ho. destruct Ho as [Ho|[<-|Ho]]; [|injection Hd as <-; left; reflexivity|right; exact (IH o d Ho Hd)].
    destruct (_ && _); [destruct Ho as [<-|[]]; discriminate|contradiction].
Qed.
Lemma gen_ops_docs cap after om : forall recs st st' ops o d, gen_ops parse peq cap after om st recs = Some (st', ops) -> In o ops -> op_doc o = Some d ->
  exists id h rvs, In (id, h) recs /\ build parse peq h om = Some rvs /\ In d (rv_docs id rvs).
Proof.
  induction recs as [|[id h] recs IH]; intros st st' ops o d H Ho Hd; cbn [Index.gen_ops] in H; [injection H as _ <-; contradiction|].
  destruct (build parse peq h om) as [rvs|] eqn:Eb; [|discriminate]. pose proof (gen_rvs_docs cap after id rvs st o d) as G. destruct (gen_rvs cap after id st rvs) as [st1 ops1].
  destruct (gen_ops parse peq cap after om st1 recs) as [[st2 ops2]|] eqn:E2; [|discriminate]. injection H as <- <-. apply in_app_or in Ho. destruct Ho as [Ho|Ho].
  - exists id, h, rvs. split; [left; reflexivity|]. split; [exact Eb|exact (G Ho Hd)].
  - destruct (IH _ _ _ o d E2 Ho Hd) as (i & h' & rvs' & K1 & K2). exists i, h', rvs'. split; [right; exact K1|exact K2].
Qed.
Lemma apply_docs (ops : list (bop P)) : forall (D : docs P) d, In d (all_docs (apply_bops D ops)) -> In d (all_docs D) \/ exists o, In o ops /\ op_doc o = Some d.
Proof.
  unfold apply_bops. induction ops as [|o ops IH]; intros D d Hd; [left; exact Hd|]. cbn [fold_left] in Hd. destruct (IH _ _ Hd) as [K|(o' & K1 & K2)]; [|right; exists o'; split; [right; exact K1|exact K2]].
  unfold all_docs in *. destruct D as [l a]. destruct o as [i x|i|n x]; cbn [apply_bop lat arc] in *.
  - rewrite map_app, !in_app_iff in K. destruct K as [[K|K]|K].
    + left. apply in_or_app. left. apply in_map_iff in K. destruct K as (kv & E & K). apply filter_In in K. apply in_map_iff. exists kv. tauto.
    + destruct K as [<-|[]]. right. exists (BIndexLatest i x). split; [left; reflexivity|reflexivity].
    + left. apply in_or_app. right. exact K.
  - rewrite in_app_iff in K. left. apply in_or_app. destruct K as [K|K]; [left|right; exact K]. apply in_map_iff in K. destruct K as (kv & E & K). apply filter_In in K. apply in_map_iff. exists kv. tauto.
  - rewrite map_app, !in_app_iff in K. destruct K as [K|[K|K]].
    + left. apply in_or_app. left. exact K.
    + left. apply in_or_app. right. exact K.
    + destruct K as [<-|[]]. right. exists (BIndexArc n x). split; [left; reflexivity|reflexivity].
Qed.
(** a refresh shows nothing but documents that were live or visible *)
Lemma write_docs (ops : list (bop P)) (e : es P) d : In d (all_docs (live (write_ops ops e))) \/ In d (all_docs (vis (write_ops ops e))) ->
  In d (all_docs (live e)) \/ In d (all_docs (vis e)) \/ exists o, In o ops /\ op_doc o = Some d.
Proof.
  rewrite write_live_docs. intros [H|H].
  - apply apply_docs in H. tauto.
  - assert (G : In d (all_docs (apply_bops (live e) ops)) \/ In d (all_docs (vis e))).
    { revert H. unfold write_ops, refresh, write_live, setup. destruct (isnil ops); cbn [vis live]; [auto|]. unfold all_docs. cbn [lat arc]. rewrite map_app, !in_app_iff.
      intros [H|[H|H]].
      - destruct (lat_seen ops); tauto.
      - left. right. apply in_map_iff in H. destruct H as (x & E & H). apply filter_In in H. apply in_map_iff. exists x. tauto.
      - right. right. apply in_map_iff in H. destruct H as (x & E & H). apply filter_In in H. apply in_map_iff. exists x. tauto. }
    destruct G as [G|G]; [apply apply_docs in G; tauto|tauto].
Qed.
Lemma delete_arcs_docs (e : es P) d : In d (all_docs (live (delete_arcs e))) \/ In d (all_docs (vis (delete_arcs e))) -> In d (all_docs (live e)) \/ In d (all_docs (vis e)).
Proof. unfold delete_arcs, all_docs. cbn. rewrite !app_nil_r, !in_app_iff. tauto. Qed.
End Parsed.
