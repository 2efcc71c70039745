(** Property C85: what the indices show of a record is never false, whenever syncs happen. *)
From Coq Require Import String Ascii.
From Coq Require Import List ZArith NArith Bool Lia Sorted Permutation.
From Verif Require Import PyVal Diff DiffProofs Prepare Mongo Store MongoProofs MongoStore MongoMore PropsMongo Client ClientProofs.
From Verif Require Import Index IndexSpec IndexProofs PropsIndex Sync SyncSpec SyncProofs SyncBuild SyncColl SyncTrace SyncView SyncMore SyncArcs SyncEvents SyncReach SyncStale SyncLocal SyncTruth.
From Verif Require Import PropsSync PropsSyncRefuted PropsSyncAny.
Import ListNotations.
Open Scope string_scope.
Open Scope list_scope.
Open Scope Z_scope.

(** ** Specification *)
(** The document shows the data the record has at version [v], under the options used for it. *)
Definition shows_at {O P} (parse : dict -> O -> P) (peq : P -> P -> bool) (E : P -> P -> Prop) (d : esdoc P) (h : list (Z * dict)) (om : list (Z * O)) (v : Z) : Prop :=
  exists x, in_force h v x /\ x <> [] /\
    forall fd o, zmin_key h = Some fd -> options_used om fd v o -> exists q, E (e_parsed d) q /\ (q = parse x o \/ peq q (parse x o) = true).

Section Props.
Context {O P : Type} (oeq : O -> O -> bool) (odef : O).
Context (R : value -> value -> Prop) (good : dict -> Prop) (parse : dict -> O -> P) (peq : P -> P -> bool) (E : P -> P -> Prop).
Variable cap : N.
Variable name : pystr.
Notation anyhow := (anyhow oeq odef parse peq good cap name).
Notation state calls := (a_run a_empty (proj name calls)).
Hypothesis PL : pipeline R good parse peq E.
Notation prel := (prel parse (near R good)).
Notation target := (target parse peq).
Notation shows_at := (shows_at parse peq E).
Let DC := pl_data _ _ _ _ _ PL.
Let PK := pl_parse_ok R good parse peq E PL.

Lemma target_shows t s calls cl e id d' : inv_true oeq odef parse peq R good name t s calls cl e ->
  In d' (target (committed (state calls)) (get_options cl name) id) ->
  match e_end d' with Some w => e_ver d' < w | None => True end /\
  forall d v, covers d' v -> prel (e_parsed d) (e_parsed d') -> shows_at d (committed (state calls) id) (get_options cl name) v.
Proof.
  intros ((n & B) & _) Hd. pose proof (base_hist oeq odef R good name DC _ _ _ _ _ B id) as Hok.
  assert (Ho : committed (state calls) id <> [] -> get_options cl name <> []).
  { intros _ K. unfold SyncColl.target, SyncSpec.record_docs, build in Hd. rewrite K in Hd. cbn in Hd. destruct (zmin_key _) in Hd; destruct Hd. }
  destruct (just_indexed parse peq (committed (state calls) id) (get_options cl name) id Hok Ho (get_options_nodup cl name)) as (_ & _ & K3 & _ & K5 & K6 & _).
  rewrite just_lat, just_arc in K3, K5, K6 by apply record_docs_ids.
  assert (Hin : In d' (filter is_open (record_docs parse peq (committed (state calls) id) (get_options cl name) id) ++ filter is_closed (record_docs parse peq (committed (state calls) id) (get_options cl name) id))).
  { apply in_or_app. destruct (is_open d') eqn:Eo; [left|right]; apply filter_In; (split; [exact Hd|]); [exact Eo|unfold is_closed; rewrite Eo; reflexivity]. }
  split; [exact (proj2 (K3 d' Hin))|]. intros d v Hc Hp. destruct (proj1 (K5 v)) as (x & Hx & Nx); [exists d'; auto|]. exists x. split; [exact Hx|]. split; [exact Nx|].
  intros fd o Hfd Hou. destruct (K6 d' v x o fd Hin Hc Hx Hfd Hou) as (q & <- & Q). exists (e_parsed d'). split; [exact (prel_E R good parse peq E PL _ _ Hp)|exact Q].
Qed.

(** ** C85 *)
(** Whenever syncs, resyncs and [resync_arcs] happened, whatever was pending: a document in an arc shows the data of its record at every version
    of its range, which ended before the last sync; no two of them have a version in common. Latest has at most one document of a record; it shows the data
    the record had at the version of the document. *)
Theorem C85_nothing_false : forall t s calls cl e, anyhow t s calls cl e -> forall id,
  let h := committed (state calls) id in let om := get_options cl name in
  (forall d, In d (arc_of id (vis e)) -> exists w, e_end d = Some w /\ e_ver d < w <= s /\ forall v, e_ver d <= v < w -> shows_at d h om v) /\
  (forall i j d d' v, nth_error (arc_of id (vis e)) i = Some d -> nth_error (arc_of id (vis e)) j = Some d' -> covers d v -> covers d' v -> i = j) /\
  (forall d, In d (lat_of id (vis e)) -> e_id d = id /\ e_end d = None /\ e_ver d <= s /\ shows_at d h om (e_ver d)) /\
  (length (lat_of id (vis e)) <= 1)%nat.
Proof.
  intros t s calls cl e H id. cbn zeta. pose proof (anyhow_inv oeq odef parse peq R good cap name DC PK t s calls cl e H) as J.
  destruct (inv_true_full oeq odef parse peq R good name DC t s calls cl e J id) as (T1 & T2 & T3 & T4). pose proof J as (_ & Fr & [S1 S2] & _).
  assert (Pa : Permutation (arc_of id (vis e)) (arc_of id (live e))) by (unfold arc_of; apply perm_filter, Permutation_map, fresh_arc_perm, Fr).
  rewrite (fresh_lat e id Fr). split; [|split; [|split; [|exact T4]]].
  - intros d Hd. apply (Permutation_in _ Pa) in Hd. destruct (T1 d Hd) as (d' & Hd' & (_ & Q2 & Q3 & Q4)).
    unfold arc_of in Hd. apply filter_In in Hd. destruct Hd as [Hd _]. apply in_map_iff in Hd. destruct Hd as ([k y] & Ey & Hd). cbn in Ey. subst y. destruct (S2 k d Hd) as (_ & w & Ew & Lw).
    destruct (target_shows t s calls cl e id d' J Hd') as [K1 K2]. rewrite <- Q2, <- Q3, Ew in K1. exists w. split; [exact Ew|]. split; [lia|].
    intros v Hv. apply (K2 d v); [|exact Q4]. unfold covers. rewrite <- Q2, <- Q3, Ew. exact Hv.
  - apply nth_apart. exact (apart_perm _ _ (Permutation_sym Pa) T2).
  - intros d Hd. destruct (T3 d Hd) as (d' & Hd' & Q1 & Q2).
    unfold lat_of in Hd. apply in_map_iff in Hd. destruct Hd as ([i0 y] & Ey & Hd). cbn in Ey. subst y. apply filter_In in Hd. destruct Hd as [Hd Ei]. apply str_eqb_eq in Ei. cbn in Ei. subst i0.
    destruct (S1 id d Hd) as (K1 & K2 & K3). split; [exact K1|]. split; [exact K2|]. split; [exact K3|].
    destruct (target_shows t s calls cl e id d' J Hd') as [K4 K5]. apply (K5 d (e_ver d)); [|exact Q2]. unfold covers. rewrite Q1. split; [lia|]. destruct (e_end d'); [exact K4|exact I].
Qed.

Lemma search_hits (e : es P) v hits : latest_ok e -> arcs_ok e -> search_at e v = Some hits -> hits = filter (version_query v) (all_docs (vis e)).
Proof.
  intros LO AO Hs. unfold search_at in Hs. destruct (es_version e) as [c|] eqn:Ec; [|congruence]. destruct (Z.leb_spec c v) as [L|L]; [|congruence].
  unfold search_latest in Hs. destruct (has_lat e); [|discriminate]. injection Hs as <-. symmetry. apply (shortcut_agrees e c v); auto.
  - intros i d Hd. apply (LO i). unfold lat_of. apply in_map_iff. exists (i, d). split; [reflexivity|]. apply filter_In. split; [exact Hd|apply str_eqb_refl].
  - intros k d Hd. apply (AO (e_id d)). unfold arc_of. apply filter_In. split; [apply in_map_iff; exists (k, d); auto|apply str_eqb_refl].
Qed.
Lemma filter_swap {A} (f g : A -> bool) l : filter f (filter g l) = filter g (filter f l).
Proof. rewrite !filter_filter. apply filter_ext. intro x. apply andb_comm. Qed.
Lemma filter_short {A} (f : A -> bool) l : (length (filter f l) <= length l)%nat.
Proof. induction l as [|x l IH]; [apply le_n|]. cbn [filter]. destruct (f x); cbn [length]; lia. Qed.
(** So a search at [v] gives of a record at most one document whose range has an end: it shows the data of the record at [v]; and at most one without an end,
    which shows the data the record had at the version of the document, not after [v]. *)
Theorem C85_search : forall t s calls cl e v hits, anyhow t s calls cl e -> search_at e v = Some hits -> forall id,
  let h := committed (state calls) id in let om := get_options cl name in
  (forall d w, In d (hits_of id hits) -> e_end d = Some w -> shows_at d h om v) /\
  (forall d, In d (hits_of id hits) -> e_end d = None -> e_ver d <= v /\ shows_at d h om (e_ver d)) /\
  (length (filter is_closed (hits_of id hits)) <= 1)%nat /\ (length (filter is_open (hits_of id hits)) <= 1)%nat.
Proof.
  intros t s calls cl e v hits H Hs id. cbn zeta. destruct (C85_nothing_false t s calls cl e H id) as (A1 & A2 & A3 & A4).
  assert (LO : latest_ok e).
  { intros i d Hd. destruct (C85_nothing_false t s calls cl e H i) as (_ & _ & K & _). destruct (K d Hd) as (K1 & K2 & _). auto. }
  assert (AO : arcs_ok e).
  { intros i d Hd. destruct (C85_nothing_false t s calls cl e H i) as (K & _). destruct (K d Hd) as (w & K1 & _). congruence. }
  assert (Hh : hits_of id hits = filter (version_query v) (lat_of id (vis e) ++ arc_of id (vis e))).
  { rewrite <- (hits_ok e id LO), (search_hits e v hits LO AO Hs). unfold hits_of. rewrite !filter_filter. apply filter_ext. intro d. apply andb_comm. }
  assert (Hq : forall d : esdoc P, version_query v d = true <-> covers d v).
  { intro d. unfold version_query, covers. rewrite andb_true_iff, Z.leb_le. destruct (e_end d); [rewrite Z.ltb_lt|]; intuition. }
  assert (Cl : filter is_closed (lat_of id (vis e)) = []).
  { assert (K : forall d, In d (lat_of id (vis e)) -> is_closed d = false) by (intros d Hd; unfold is_closed, is_open; destruct (A3 d Hd) as (_ & -> & _); reflexivity).
    clear - K. induction (lat_of id (vis e)) as [|d l IH]; [reflexivity|]. cbn [filter]. rewrite K by (left; reflexivity). apply IH. intros x Hx. apply K. right. exact Hx. }
  assert (Op : filter is_open (arc_of id (vis e)) = []).
  { assert (K : forall d, In d (arc_of id (vis e)) -> is_open d = false) by (intros d Hd; unfold is_open; destruct (A1 d Hd) as (w & -> & _); reflexivity).
    clear - K. induction (arc_of id (vis e)) as [|d l IH]; [reflexivity|]. cbn [filter]. rewrite K by (left; reflexivity). apply IH. intros x Hx. apply K. right. exact Hx. }
  rewrite Hh. split; [|split; [|split]].
  - intros d w Hd Ew. apply filter_In in Hd. destruct Hd as [Hd Hc]. apply Hq in Hc. apply in_app_or in Hd. destruct Hd as [Hd|Hd].
    + destruct (A3 d Hd) as (_ & K & _). congruence.
    + destruct (A1 d Hd) as (w' & Ew' & _ & K). apply K. destruct Hc as [C1 C2]. rewrite Ew' in C2. lia.
  - intros d Hd Ew. apply filter_In in Hd. destruct Hd as [Hd Hc]. apply Hq in Hc. apply in_app_or in Hd. destruct Hd as [Hd|Hd].
    + split; [apply Hc|]. apply (A3 d Hd).
    + destruct (A1 d Hd) as (w' & Ew' & _). congruence.
  - rewrite filter_swap, filter_app, Cl. cbn [app]. rewrite filter_swap.
    assert (AP : ForallOrdPairs (apart (P := P)) (arc_of id (vis e))) by (apply nth_apart; exact A2).
    assert (L : (length (filter (version_query v) (arc_of id (vis e))) <= 1)%nat).
    { clear - AP Hq. induction AP as [|x l Hx _ IH]; [cbn; lia|]. cbn [filter]. destruct (version_query v x) eqn:Ex; [|exact IH].
      destruct (filter (version_query v) l) as [|y m] eqn:Em; [cbn; lia|]. exfalso.
      assert (K : In y (filter (version_query v) l)) by (rewrite Em; left; reflexivity). apply filter_In in K. destruct K as [K1 K2].
      rewrite Forall_forall in Hx. exact (Hx y K1 v (proj1 (Hq x) Ex) (proj1 (Hq y) K2)). }
    pose proof (filter_short is_closed (filter (version_query v) (arc_of id (vis e)))). lia.
  - rewrite filter_swap, filter_app, Op, app_nil_r. pose proof (filter_short (version_query v) (filter is_open (lat_of id (vis e)))).
    pose proof (filter_short is_open (lat_of id (vis e))). lia.
Qed.
End Props.
Print Assumptions C85_nothing_false.
Print Assumptions C85_search.

(** ** A history that meets the hypotheses *)
Notation toy_anyhow := (anyhow Nat.eqb 0%nat toy_parse toy_eq wfd 2000000%N db).
Notation state calls := (a_run a_empty (proj db calls)).
Fixpoint anyhow_b (s : sys) (l : list step_any) : bool :=
  match l with
  | [] => true
  | ev :: r => (let '(n, t, s0, calls, cl, e) := s in
                match ev with ACall c => call_b c | _ => options_b calls (get_options cl db) end) &&
               match run_local s ev with Some s' => anyhow_b s' r | None => true end
  end.
Definition sys_anyhow (s : sys) : Prop := let '(n, t, s0, calls, cl, e) := s in toy_anyhow t s0 calls cl e.
Lemma run_anyhow_ok : forall l s s', sys_anyhow s -> anyhow_b s l = true -> run_locals s l = Some s' -> sys_anyhow s'.
Proof.
  induction l as [|ev l IH]; intros s s' Hs Hb H; [injection H as <-; exact Hs|]. cbn [run_locals anyhow_b] in *.
  destruct (run_local s ev) as [s1|] eqn:E1; [|discriminate]. apply andb_true_iff in Hb. destruct Hb as [Hb1 Hb2]. refine (IH s1 s' _ Hb2 H). clear IH Hb2 H.
  destruct s as [[[[[n t] s0] calls] cl] e]. cbn [sys_anyhow] in Hs. destruct ev as [c|b|].
  - pose proof (call_b_ok c Hb1) as Hok. cbn [run_local run_any] in E1.
    assert (G : (forall m v, c <> CCommit m v) -> (match do_call Nat.eqb 0%nat cl c with Some cl' => Some (n, t, s0, calls ++ [c], cl', e) | None => None end) = Some s1 -> sys_anyhow s1).
    { intros Hn K. destruct (do_call Nat.eqb 0%nat cl c) as [cl'|] eqn:Ec; [|discriminate]. injection K as <-. cbn [sys_anyhow]. eapply an_call; eauto. }
    destruct c; try (apply G; [discriminate|exact E1]). destruct (Z.ltb_spec t v); [|discriminate]. injection E1 as <-. cbn [sys_anyhow]. eapply an_commit; eassumption.
  - cbn [run_local run_any] in E1. destruct (toy_sync cl db b e) as [e'|] eqn:Ec; [|discriminate]. injection E1 as <-. cbn [sys_anyhow].
    eapply an_sync; [exact Hs|apply options_b_ok, Hb1|exact Ec].
  - cbn [run_local] in E1. destruct (resync_arcs _ _ _ _ _ _) as [e'|] eqn:Ec; [|discriminate]. injection E1 as <-. cbn [sys_anyhow].
    eapply an_arcs; [exact Hs|apply options_b_ok, Hb1|exact Ec].
Qed.
(** r1 is changed and deleted between two syncs, and stays in latest, beside what its arc has of it. r2 is synced while a change is pending, and the
    version committed before is left out until the resync at the end. r3 has a pending change during the resync. *)
Definition ex_anyhow : list step_any :=
  [ aput [("r1", X 1); ("r2", X 2); ("r3", X 3)]; acommit 10; ASync false; aput [("r1", X 4); ("r2", X 4)]; acommit 20; aput [("r1", [])]; acommit 30;
    aput [("r2", X 5); ("r3", X 6)]; ASync false; acommit 40; aput [("r3", X 7)]; ASync true ].
Definition ends_at (v : Z) (e : es (dict * nat)) : option (list (pystr * Z * option Z)) := option_map (map (fun d => (e_id d, e_ver d, e_end d))) (search_at e v).
Example C85_example : match run_locals start ex_anyhow with
  | Some (n, t, s, calls, cl, e) =>
      toy_anyhow t s calls cl e /\ ~ no_pending (state calls) /\
      ends_at 25 e = Some [(lit "r1", 10, None); (lit "r3", 10, None); (lit "r1", 20, Some 30); (lit "r2", 20, Some 40)] /\
      ends_at 50 e = Some [(lit "r1", 10, None); (lit "r3", 10, None); (lit "r2", 40, None)]
  | None => False end.
Proof.
  destruct (run_locals start ex_anyhow) as [[[[[[n t] s] calls] cl] e]|] eqn:E; [|vm_compute in E; discriminate].
  pose proof (run_anyhow_ok ex_anyhow start _ (an_start _ _ _ _ _ _ _) ltac:(vm_compute; reflexivity) E) as H. cbn [sys_anyhow] in H.
  split; [exact H|]. vm_compute in E. injection E as <- <- <- <- <- <-.
  split; [|vm_compute; auto]. intro Hp. refine (Hp (lit "r3") _ _ _). vm_compute. reflexivity.
Qed.
