(** Properties C25-C28, C30, C56: what syncs leave in Elasticsearch. *)
From Coq Require Import String Ascii.
From Coq Require Import List ZArith NArith Bool Lia Sorted Permutation.
From Verif Require Import PyVal Diff DiffProofs Prepare Mongo Store MongoProofs MongoStore MongoMore PropsMongo Client ClientProofs.
From Verif Require Import Index IndexSpec IndexProofs PropsIndex Sync SyncSpec SyncProofs SyncBuild SyncColl SyncTrace SyncView SyncMore SyncArcs SyncEvents SyncReach.
Import ListNotations.
Open Scope string_scope.
Open Scope list_scope.
Open Scope Z_scope.

(** ** Specification *)

(** A kind of data with its parser: [R] relates scalars that the store does not distinguish, [good] is
    the data considered (with [R], [good] := [scalar_same], [wfd] this is all storable data, C10), [E]
    relates parsed data that come from indistinguishable data under the same options. *)
Record pipeline {O P} (R : value -> value -> Prop) (good : dict -> Prop)
    (parse : dict -> O -> P) (peq : P -> P -> bool) (E : P -> P -> Prop) : Prop := {
  pl_data : data_class R good;
  pl_peq : forall p p' q q', prel parse (near R good) p p' -> prel parse (near R good) q q' -> peq p q = peq p' q';
  pl_near : forall d d' o, near R good d d' -> E (parse d o) (parse d' o);
  pl_sym : forall p q, E p q -> E q p;
  pl_trans : forall p q r, E p q -> E q r -> E p r }.

Section Props.
Context {O P : Type} (oeq : O -> O -> bool) (odef : O).
Context (R : value -> value -> Prop) (good : dict -> Prop) (parse : dict -> O -> P) (peq : P -> P -> bool) (E : P -> P -> Prop).
Variable cap : N.
Variable name : pystr.
Notation reaches := (reaches oeq odef parse peq good cap name).
Notation sync := (sync parse peq cap).
Notation state calls := (a_run a_empty (proj name calls)).
Implicit Types allowed : nat -> Z -> astate -> list (Z * O) -> Prop.

(** When syncs are done, for the various properties. *)
Definition when_no_ghost (_ : nat) (s : Z) (A : astate) (om : list (Z * O)) : Prop :=
  options_there A om /\ no_pending A /\ forall id, ~ changed_then_deleted s (committed A id) om.
Definition when_each_commit (n : nat) (_ : Z) (A : astate) (om : list (Z * O)) : Prop :=
  options_there A om /\ no_pending A /\ (n <= 1)%nat.
Definition when_pending_settled (n : nat) (s : Z) (A : astate) (om : list (Z * O)) : Prop :=
  options_there A om /\ pending_settled s A om /\ (n <= 1)%nat.

Hypothesis PL : pipeline R good parse peq E.

Lemma pl_parse_ok : parse_ok parse peq (near R good).
Proof. constructor; [apply near_nil|exact (pl_peq _ _ _ _ _ PL)]. Qed.
Lemma prel_E p q : prel parse (near R good) p q -> E p q.
Proof. intros (d & d' & o & H & -> & ->). exact (pl_near _ _ _ _ _ PL d d' o H). Qed.
Lemma prel_join p q r : prel parse (near R good) p r -> prel parse (near R good) q r -> E p q.
Proof. intros H1 H2. apply (pl_trans _ _ _ _ _ PL p r q); [apply prel_E, H1|apply (pl_sym _ _ _ _ _ PL), prel_E, H2]. Qed.
(** the same history without the syncs *)
Lemma drop_syncs allowed allowed' n t s calls cl e : reaches allowed n t s calls cl e ->
  exists n', reaches allowed' n' t 0 calls cl empty_es.
Proof.
  induction 1 as [|n t s calls cl e c cl' _ [n' IH] Hnc Hs H|n t s calls cl e m v _ [n' IH] Hv|n t s calls cl e e' _ [n' IH] Ha H|n t s calls cl e e' _ [n' IH] Ho Hp Hs H|t s calls cl e e' _ [n' IH] Ho Hp H].
  - exists 0%nat. constructor.
  - exists n'. eapply at_call; eauto.
  - exists (S n'). eapply at_commit; eauto.
  - exists n'. exact IH.
  - exists n'. exact IH.
  - exists n'. exact IH.
Qed.
(** every state: a sync from scratch *)
Lemma full_sync allowed n t s calls cl e : reaches allowed n t s calls cl e -> options_there (state calls) (get_options cl name) -> no_pending (state calls) ->
  exists e0, sync cl name false empty_es = Some e0 /\ fresh e0 /\
    holds (prel parse (near R good)) (live e0) (target parse peq (committed (state calls)) (get_options cl name)).
Proof.
  intros H Ho Hp. destruct (drop_syncs allowed (allowed_ok (O := O)) n t s calls cl e H) as (n' & H').
  pose proof (reaches_inv oeq odef parse peq R good cap name (pl_data _ _ _ _ _ PL) pl_parse_ok _ _ _ _ _ _ H') as I.
  destruct (inv_scratch oeq odef parse peq R good cap name (pl_data _ _ _ _ _ PL) pl_parse_ok n' t 0 calls cl empty_es I Ho Hp) as (e' & E1 & E2 & E3).
  exists e'. split; [exact E1|]. split; [apply E2|exact E3].
Qed.
Lemma any_inv allowed n t s calls cl e : reaches allowed n t s calls cl e -> exists n', inv oeq odef parse peq R good name n' t 0 calls cl empty_es.
Proof.
  intro H. destruct (drop_syncs allowed (allowed_ok (O := O)) n t s calls cl e H) as (n' & H'). exists n'.
  exact (reaches_inv oeq odef parse peq R good cap name (pl_data _ _ _ _ _ PL) pl_parse_ok _ _ _ _ _ _ H').
Qed.
Lemma holds_all_indexed allowed n t s calls cl e (e0 : es P) : reaches allowed n t s calls cl e -> options_there (state calls) (get_options cl name) ->
  fresh e0 -> holds (prel parse (near R good)) (live e0) (target parse peq (committed (state calls)) (get_options cl name)) ->
  forall id, record_indexed parse peq E (vis e0) id (committed (state calls) id) (get_options cl name).
Proof.
  intros H Ho Fr HD id. destruct (any_inv _ _ _ _ _ _ _ H) as (n' & I).
  eapply holds_indexed; [apply (holds_mono _ E _ _ prel_E), (fresh_holds _ _ _ Fr HD)|reflexivity| | |].
  - exact (hist_state oeq odef parse peq R good name (pl_data _ _ _ _ _ PL) _ _ _ _ _ _ I id).
  - exact (Ho id).
  - apply get_options_nodup.
Qed.

(** ** C25 *)
Theorem C25_full_sync_exact : forall allowed n t s calls cl e,
  reaches allowed n t s calls cl e -> options_there (state calls) (get_options cl name) -> no_pending (state calls) ->
  exists e0, sync cl name false empty_es = Some e0 /\
    forall id, record_indexed parse peq E (vis e0) id (committed (state calls) id) (get_options cl name).
Proof.
  intros allowed n t s calls cl e H Ho Hp. destruct (full_sync allowed n t s calls cl e H Ho Hp) as (e0 & E0 & Fr & HD).
  exists e0. split; [exact E0|]. exact (holds_all_indexed allowed n t s calls cl e e0 H Ho Fr HD).
Qed.

(** ** C26, C27 *)
Lemma synced allowed n t s calls cl e : (forall n s A om, allowed n s A om -> allowed_ok n s A om) ->
  reaches allowed n t s calls cl e -> allowed n s (state calls) (get_options cl name) ->
  exists e', sync cl name false e = Some e' /\ fresh e' /\
    holds (prel parse (near R good)) (live e') (target parse peq (committed (state calls)) (get_options cl name)).
Proof.
  intros Hal H Ha. apply (reaches_mono oeq odef parse peq good cap name allowed (allowed_ok (O := O))) in H; [|exact Hal].
  pose proof (reaches_inv oeq odef parse peq R good cap name (pl_data _ _ _ _ _ PL) pl_parse_ok _ _ _ _ _ _ H) as I.
  destruct (inv_sync oeq odef parse peq R good cap name (pl_data _ _ _ _ _ PL) pl_parse_ok n t s calls cl e I (Hal _ _ _ _ Ha)) as (e' & E1 & E2 & E3).
  exists e'. split; [exact E1|]. split; [apply E2|exact E3].
Qed.
Lemma incremental allowed n t s calls cl e : (forall n s A om, allowed n s A om -> allowed_ok n s A om /\ no_pending A) ->
  reaches allowed n t s calls cl e -> allowed n s (state calls) (get_options cl name) ->
  exists e' e0, sync cl name false e = Some e' /\ sync cl name false empty_es = Some e0 /\
    same_content E (live e') (live e0) /\ same_content E (vis e') (vis e0).
Proof.
  intros Hal H Ha. destruct (synced allowed n t s calls cl e (fun n s A om K => proj1 (Hal n s A om K)) H Ha) as (e' & E1 & F1 & D1).
  destruct (Hal _ _ _ _ Ha) as [(Ho & _) Hp].
  destruct (full_sync allowed n t s calls cl e H Ho Hp) as (e0 & E0 & F0 & D0).
  exists e', e0. split; [exact E1|]. split; [exact E0|].
  split; eapply holds_same; [exact prel_join|exact D1|exact D0|exact prel_join|exact (fresh_holds _ _ _ F1 D1)|exact (fresh_holds _ _ _ F0 D0)].
Qed.

(** The proved part of C26: as long as no record was changed and then deleted between two syncs. *)
Theorem C26_incremental_partial : forall n t s calls cl e,
  reaches when_no_ghost n t s calls cl e -> when_no_ghost n s (state calls) (get_options cl name) ->
  exists e' e0, sync cl name false e = Some e' /\ sync cl name false empty_es = Some e0 /\
    same_content E (live e') (live e0) /\ same_content E (vis e') (vis e0).
Proof.
  intros n t s calls cl e. apply incremental. intros n' s' A om (H1 & H2 & H3). split; [|exact H2].
  split; [exact H1|]. split; [apply no_pending_settled, H2|right; exact H3].
Qed.
(** [when_each_commit]: at most one commit between two syncs. *)
Theorem C27_incremental_each_commit : forall n t s calls cl e,
  reaches when_each_commit n t s calls cl e -> when_each_commit n s (state calls) (get_options cl name) ->
  exists e' e0, sync cl name false e = Some e' /\ sync cl name false empty_es = Some e0 /\
    same_content E (live e') (live e0) /\ same_content E (vis e') (vis e0).
Proof.
  intros n t s calls cl e. apply incremental. intros n' s' A om (H1 & H2 & H3). split; [|exact H2].
  split; [exact H1|]. split; [apply no_pending_settled, H2|left; exact H3].
Qed.

(** ** C28 *)
Theorem C28_deleted_leaves_latest_partial : forall n t s calls cl e,
  reaches (fun n s A om => when_no_ghost n s A om \/ when_each_commit n s A om) n t s calls cl e ->
  when_no_ghost n s (state calls) (get_options cl name) \/ when_each_commit n s (state calls) (get_options cl name) ->
  exists e', sync cl name false e = Some e' /\
    forall id, (forall x, now_data (committed (state calls) id) x -> x = []) -> lat_of id (vis e') = [].
Proof.
  intros n t s calls cl e H Ha.
  assert (Hal : forall n s A om, when_no_ghost n s A om \/ when_each_commit n s A om -> allowed_ok n s A om).
  { intros n' s' A om [(H1 & H2 & H3)|(H1 & H2 & H3)]; (split; [exact H1|split; [apply no_pending_settled, H2|auto]]). }
  destruct (synced _ n t s calls cl e Hal H Ha) as (e' & E1 & F1 & D1).
  exists e'. split; [exact E1|]. intros id Hid.
  destruct (holds_all_indexed _ n t s calls cl e e' H (proj1 (Hal _ _ _ _ Ha)) F1 D1 id) as (_ & _ & _ & _ & _ & _ & _ & K). exact (K Hid).
Qed.

(** ** C56 *)
(** Syncs while records have pending changes lose nothing if these records have no committed version
    that is not synced yet: every committed version of every record is indexed. *)
Theorem C56_sync_while_pending_partial : forall n t s calls cl e,
  reaches when_pending_settled n t s calls cl e -> when_pending_settled n s (state calls) (get_options cl name) ->
  exists e', sync cl name false e = Some e' /\
    forall id, record_indexed parse peq E (vis e') id (committed (state calls) id) (get_options cl name).
Proof.
  intros n t s calls cl e H Ha.
  assert (Hal : forall n s A om, when_pending_settled n s A om -> allowed_ok n s A om).
  { intros n' s' A om (H1 & H2 & H3). split; [exact H1|]. split; [exact H2|left; exact H3]. }
  destruct (synced _ n t s calls cl e Hal H Ha) as (e' & E1 & F1 & D1).
  exists e'. split; [exact E1|]. exact (holds_all_indexed _ n t s calls cl e e' H (proj1 Ha) F1 D1).
Qed.

(** ** C30 *)
Definition lat_made (e : es P) : Prop := lat (live e) <> [] -> has_lat e = true.
Lemma write_lat_made ops e : lat_made e -> lat_made (write_ops ops e).
Proof.
  unfold lat_made. intros H. rewrite write_live_docs. destruct (lat_seen ops) eqn:Es.
  - intros _. unfold write_ops, refresh, write_live, setup. destruct (isnil ops); cbn; rewrite Es; apply orb_true_r.
  - rewrite apply_lat_unseen by exact Es. intro K. unfold write_ops, refresh, write_live, setup. destruct (isnil ops); cbn; rewrite (H K); reflexivity.
Qed.
Lemma sync_lat_made cl resync e e' : lat_made e -> sync cl name resync e = Some e' -> lat_made e'.
Proof.
  intros H. unfold Sync.sync. destruct (sync_plan parse peq cap cl name resync e) as [[[e1 ops]|]|] eqn:Ep; cbn [run_plan]; intro K; [injection K as <-|injection K as <-; exact H|discriminate].
  apply write_lat_made.
  assert (G : e1 = e \/ e1 = delete_arcs e).
  { unfold sync_plan, plan in Ep. destruct (negb _); [discriminate|].
    assert (Q : forall f, match find_records f (data cl name) with None => None | Some recs =>
      match Index.gen_ops parse peq cap (if resync then None else es_version e) (get_options cl name) (get_arc_status (if resync then delete_arcs e else e)) recs with
      | None => None | Some (_, ops0) => Some (Some (if resync then delete_arcs e else e, ops0)) end end = Some (Some (e1, ops)) -> e1 = e \/ e1 = delete_arcs e).
    { intros f. destruct (find_records f (data cl name)); [|discriminate]. destruct (Index.gen_ops _ _ _ _ _ _ _) as [[? ?]|]; [|discriminate].
      intro Q. injection Q as <- _. destruct resync; auto. }
    destruct (if resync then None else es_version e); [|exact (Q _ Ep)].
    destruct (get_committed_version cl name); [|discriminate]. destruct (_ <=? _); [discriminate|]. destruct (existsb _ _); exact (Q _ Ep). }
  destruct G as [->| ->]; exact H.
Qed.
Lemma reaches_lat_made allowed n t s calls cl e : reaches allowed n t s calls cl e -> lat_made e.
Proof.
  induction 1; auto; [intro K; exfalso; apply K; reflexivity|eapply sync_lat_made; eauto|eapply sync_lat_made; eauto|].
  rewrite resync_arcs_eq in *. destruct (all_ops parse peq cap cl name); [|discriminate]. match goal with H : Some _ = Some _ |- _ => injection H as <- end. apply write_lat_made. assumption.
Qed.

Lemma shortcut_agrees : forall (e : es P) c v,
  (forall id d, In (id, d) (lat (vis e)) -> e_end d = None) -> (forall k d, In (k, d) (arc (vis e)) -> e_end d <> None) ->
  es_version e = Some c -> c <= v -> filter (version_query v) (all_docs (vis e)) = map snd (lat (vis e)).
Proof.
  intros e c v HL HA Hc Hv. apply es_version_spec in Hc. destruct Hc as [_ Hmax].
  assert (Hm : forall d, In d (all_docs (vis e)) -> e_ver d <= c /\ forall w, e_end d = Some w -> w <= c) by exact Hmax.
  unfold all_docs in *. rewrite filter_app.
  assert (F1 : filter (version_query v) (map snd (lat (vis e))) = map snd (lat (vis e))).
  { assert (G : forall l : list (esdoc P), (forall d, In d l -> version_query v d = true) -> filter (version_query v) l = l).
    { induction l as [|x l IH]; intro G; [reflexivity|]. cbn [filter]. rewrite (G x (or_introl eq_refl)), IH; [reflexivity|]. intros; apply G; right; assumption. }
    apply G. intros d Hd. destruct (Hm d ltac:(apply in_or_app; left; exact Hd)) as [M1 _]. apply in_map_iff in Hd. destruct Hd as ([id d'] & <- & Hd).
    unfold version_query. cbn [snd] in *. rewrite (HL id d' Hd). rewrite andb_true_r. apply Z.leb_le. lia. }
  assert (F2 : filter (version_query v) (map snd (arc (vis e))) = []).
  { assert (G : forall l : list (esdoc P), (forall d, In d l -> version_query v d = false) -> filter (version_query v) l = []).
    { induction l as [|x l IH]; intro G; [reflexivity|]. cbn [filter]. rewrite (G x (or_introl eq_refl)), IH; [reflexivity|]. intros; apply G; right; assumption. }
    apply G. intros d Hd. destruct (Hm d ltac:(apply in_or_app; right; exact Hd)) as [_ M2]. apply in_map_iff in Hd. destruct Hd as ([k d'] & <- & Hd).
    unfold version_query. cbn [snd] in *. specialize (HA k d' Hd). destruct (e_end d') as [w|]; [|congruence]. specialize (M2 w eq_refl).
    apply andb_false_intro2. apply Z.ltb_ge. lia. }
  rewrite F1, F2. apply app_nil_r.
Qed.
(** For any content of the indices: a search at [v] gives exactly the documents whose range of versions
    contains [v], also when it looks at latest only, as long as latest has open documents only and the arcs
    closed ones. *)
Theorem C30_shortcut_agrees : forall (e : es P) v hits,
  (forall id d, In (id, d) (lat (vis e)) -> e_end d = None) -> (forall k d, In (k, d) (arc (vis e)) -> e_end d <> None) ->
  search_at e v = Some hits ->
  exists current, (forall d, current d = true <-> e_ver d <= v /\ forall w, e_end d = Some w -> v < w) /\ hits = filter current (all_docs (vis e)).
Proof.
  intros e v hits HL HA H. exists (version_query v). split.
  - intro d. unfold version_query. rewrite andb_true_iff, Z.leb_le. apply and_iff_compat_l. destruct (e_end d) as [w|]; [rewrite Z.ltb_lt; split; [intros Q w' Ew; injection Ew as <-; exact Q|auto]|split; [discriminate|reflexivity]].
  - unfold search_at in H. destruct (es_version e) as [c|] eqn:Ec; [|congruence]. destruct (Z.leb_spec c v) as [K|K]; [|congruence].
    unfold search_latest in H. destruct (has_lat e); [|discriminate]. injection H as <-. symmetry. exact (shortcut_agrees e c v HL HA Ec K).
Qed.

(** The hits of a search that returns, for one record. *)
Definition hits_of (id : pystr) (l : list (esdoc P)) : list (esdoc P) := filter (fun d => str_eqb (e_id d) id) l.
Definition search_exact (hits : list (esdoc P)) (v : Z) (id : pystr) (h : list (Z * dict)) (om : list (Z * O)) : Prop :=
  ((exists x, in_force h v x /\ x <> []) -> exists d, hits_of id hits = [d]) /\
  ((forall x, in_force h v x -> x = []) -> hits_of id hits = []) /\
  (forall d x o fd, In d (hits_of id hits) -> in_force h v x -> zmin_key h = Some fd -> options_used om fd v o ->
     exists q, E (e_parsed d) q /\ (q = parse x o \/ peq q (parse x o) = true)).

Definition latest_ok (e : es P) : Prop := forall id d, In d (lat_of id (vis e)) -> e_id d = id /\ e_end d = None.
Definition arcs_ok (e : es P) : Prop := forall id d, In d (arc_of id (vis e)) -> e_end d <> None.
Lemma indexed_ok (e : es P) (h : pystr -> list (Z * dict)) om : (forall id, record_indexed parse peq E (vis e) id (h id) om) -> latest_ok e /\ arcs_ok e.
Proof.
  intro HI. split; intros id d Hd; destruct (HI id) as (K1 & K2 & K3 & _); [|exact (K2 d Hd)]. split; [apply K3, in_or_app; left; exact Hd|exact (K1 d Hd)].
Qed.
Lemma hits_ok (e : es P) id : latest_ok e -> hits_of id (all_docs (vis e)) = lat_of id (vis e) ++ arc_of id (vis e).
Proof.
  intros HL. unfold hits_of, all_docs. rewrite filter_app. f_equal. unfold lat_of.
  assert (G : forall l : list (pystr * esdoc P), (forall i d, In (i, d) l -> e_id d = i) ->
    filter (fun d => str_eqb (e_id d) id) (map snd l) = map snd (filter (fun kv => str_eqb (fst kv) id) l)).
  { induction l as [|[i d] l IH]; intro G; [reflexivity|]. cbn [map filter snd fst]. rewrite (G i d (or_introl eq_refl)), IH by (intros; apply G; right; assumption).
    destruct (str_eqb i id); reflexivity. }
  apply G. intros i d Hd. apply (HL i). unfold lat_of. apply in_map_iff. exists (i, d). split; [reflexivity|]. apply filter_In. split; [exact Hd|apply str_eqb_refl].
Qed.
Lemma hits_all (e : es P) (h : pystr -> list (Z * dict)) om : (forall id, record_indexed parse peq E (vis e) id (h id) om) ->
  forall id, hits_of id (all_docs (vis e)) = lat_of id (vis e) ++ arc_of id (vis e).
Proof. intros HI id. apply hits_ok, (indexed_ok e h om HI). Qed.
Lemma record_search (e : es P) id h om v hits : latest_ok e -> arcs_ok e ->
  record_indexed parse peq E (vis e) id h om -> search_at e v = Some hits -> search_exact hits v id h om.
Proof.
  intros LO AO HI Hs.
  assert (HL : forall id d, In (id, d) (lat (vis e)) -> In d (lat_of id (vis e))).
  { intros i d Hd. unfold lat_of. apply in_map_iff. exists (i, d). split; [reflexivity|]. apply filter_In. split; [exact Hd|apply str_eqb_refl]. }
  assert (HA : forall k d, In (k, d) (arc (vis e)) -> In d (arc_of (e_id d) (vis e))).
  { intros k d Hd. unfold arc_of. apply filter_In. split; [apply in_map_iff; exists (k, d); auto|apply str_eqb_refl]. }
  assert (Hhits : hits = filter (version_query v) (all_docs (vis e))).
  { unfold search_at in Hs. destruct (es_version e) as [c|] eqn:Ec; [|congruence]. destruct (Z.leb_spec c v) as [L|L]; [|congruence].
    unfold search_latest in Hs. destruct (has_lat e); [|discriminate]. injection Hs as <-. symmetry. apply (shortcut_agrees e c v); auto.
    - intros i d Hd. apply (LO i), HL, Hd.
    - intros k d Hd. apply (AO (e_id d)), (HA k d Hd). }
  pose proof (hits_ok e id LO) as Hof.
  assert (Hq : forall d : esdoc P, version_query v d = true <-> covers d v).
  { intro d. unfold version_query, covers. rewrite andb_true_iff, Z.leb_le. destruct (e_end d); [rewrite Z.ltb_lt|]; intuition. }
  assert (Hh : hits_of id hits = filter (version_query v) (lat_of id (vis e) ++ arc_of id (vis e))).
  { rewrite <- Hof, Hhits. unfold hits_of. rewrite !filter_filter. apply filter_ext. intro d. apply andb_comm. }
  destruct HI as (_ & _ & _ & U & C & D & _).
  assert (AP : ForallOrdPairs (apart (P := P)) (lat_of id (vis e) ++ arc_of id (vis e))) by (apply nth_apart; exact U).
  assert (Le : forall a b l, hits_of id hits = a :: b :: l -> False).
  { intros a b l Ea. rewrite Hh in Ea.
    assert (AP2 : ForallOrdPairs (apart (P := P)) (filter (version_query v) (lat_of id (vis e) ++ arc_of id (vis e)))).
    { clear - AP. induction AP as [|x l Hx _ IH]; [constructor|]. cbn [filter]. destruct (version_query v x); [|exact IH]. constructor; [|exact IH].
      rewrite Forall_forall in *. intros y Hy. apply filter_In in Hy. apply Hx, Hy. }
    rewrite Ea in AP2. inversion AP2 as [|? ? A1 _]; subst. inversion A1 as [|? ? A2 _]; subst.
    apply (A2 v); apply Hq; [assert (K : In a (a :: b :: l)) by (left; reflexivity)|assert (K : In b (a :: b :: l)) by (right; left; reflexivity)];
      rewrite <- Ea in K; apply filter_In in K; apply K. }
  split; [|split].
  - intros (x & Hx & Nx). destruct (proj2 (C v) (ex_intro _ x (conj Hx Nx))) as (d & Hd & Hc).
    assert (K : In d (hits_of id hits)) by (rewrite Hh; apply filter_In; split; [exact Hd|apply Hq, Hc]).
    destruct (hits_of id hits) as [|a [|b l]] eqn:Ea; [contradiction|exists a; reflexivity|exfalso; exact (Le a b l eq_refl)].
  - intro Hx. destruct (hits_of id hits) as [|a l] eqn:Ea; [reflexivity|exfalso].
    assert (K : In a (hits_of id hits)) by (rewrite Ea; left; reflexivity). rewrite <- Ea in Hh. rewrite Hh in K. apply filter_In in K. destruct K as [K1 K2].
    destruct (proj1 (C v)) as (x & Hfx & Nx); [exists a; split; [exact K1|apply Hq, K2]|]. exact (Nx (Hx x Hfx)).
  - intros d x o fd Hd Hx Hfd Hou. rewrite Hh in Hd. apply filter_In in Hd. destruct Hd as [Hd1 Hd2].
    exact (D d v x o fd Hd1 (proj1 (Hq d) Hd2) Hx Hfd Hou).
Qed.
Lemma indexed_search (e : es P) (h : pystr -> list (Z * dict)) om v hits :
  (forall id, record_indexed parse peq E (vis e) id (h id) om) -> search_at e v = Some hits -> forall id, search_exact hits v id (h id) om.
Proof. intros HI Hs id. destruct (indexed_ok e h om HI) as [LO AO]. exact (record_search e id (h id) om v hits LO AO (HI id) Hs). Qed.

(** Whenever a sync happened in one of the states covered by C26 and C27, a search at [v] that returns
    gives for every record exactly its data as of [v]; it returns if some record has data now. *)
Theorem C30_search_exact_partial : forall n t s calls cl e,
  reaches (fun n s A om => when_no_ghost n s A om \/ when_each_commit n s A om) n t s calls cl e ->
  when_no_ghost n s (state calls) (get_options cl name) \/ when_each_commit n s (state calls) (get_options cl name) ->
  exists e', sync cl name false e = Some e' /\
    (forall v hits id, search_at e' v = Some hits -> search_exact hits v id (committed (state calls) id) (get_options cl name)) /\
    (forall v id x, now_data (committed (state calls) id) x -> x <> [] -> search_at e' v <> None).
Proof.
  intros n t s calls cl e H Ha.
  assert (Hal : forall n s A om, when_no_ghost n s A om \/ when_each_commit n s A om -> allowed_ok n s A om).
  { intros n' s' A om [(H1 & H2 & H3)|(H1 & H2 & H3)]; (split; [exact H1|split; [apply no_pending_settled, H2|auto]]). }
  destruct (synced _ n t s calls cl e Hal H Ha) as (e' & E1 & F1 & D1).
  pose proof (holds_all_indexed _ n t s calls cl e e' H (proj1 (Hal _ _ _ _ Ha)) F1 D1) as HI.
  exists e'. split; [exact E1|]. split.
  - intros v hits id Hs. exact (indexed_search e' _ _ v hits HI Hs id).
  - intros v id x Hx Nx. destruct (HI id) as (_ & _ & _ & _ & _ & _ & K & _). destruct (K (ex_intro _ x (conj Hx Nx))) as (d & Ed).
    assert (Hl : has_lat e' = true).
    { apply (sync_lat_made cl false e e'); [exact (reaches_lat_made _ _ _ _ _ _ _ H)|exact E1|]. destruct F1 as [F1 _]. rewrite <- F1.
      unfold lat_of in Ed. intro K0. rewrite K0 in Ed. discriminate. }
    unfold search_at, search_latest. rewrite Hl. destruct (es_version e'); [destruct (_ <=? _)|]; discriminate.
Qed.

(** A search of all versions has every version of the record with its range: at each version the record has
    data there is exactly one document whose range contains it, at others none. A search of the latest data that
    returns has the document whose range has no end. *)
Definition valid_at (d : esdoc P) (v : Z) : Prop := e_ver d <= v /\ forall w, e_end d = Some w -> v < w.
Lemma valid_covers d v : valid_at d v <-> covers d v.
Proof. unfold valid_at, covers. apply and_iff_compat_l. destruct (e_end d) as [w|]; [split; [intro H; apply H; reflexivity|intros H w' Ew; injection Ew as <-; exact H]|split; [auto|discriminate]]. Qed.
Theorem C30_search_all_partial : forall n t s calls cl e,
  reaches (fun n s A om => when_no_ghost n s A om \/ when_each_commit n s A om) n t s calls cl e ->
  when_no_ghost n s (state calls) (get_options cl name) \/ when_each_commit n s (state calls) (get_options cl name) ->
  exists e', sync cl name false e = Some e' /\ forall id,
    let h := committed (state calls) id in
    let found := hits_of id (search_all e') in
    (forall i j d d' v, nth_error found i = Some d -> nth_error found j = Some d' -> valid_at d v -> valid_at d' v -> i = j) /\
    (forall v, (exists d, In d found /\ valid_at d v) <-> exists x, in_force h v x /\ x <> []) /\
    (forall d v x o fd, In d found -> valid_at d v -> in_force h v x -> zmin_key h = Some fd -> options_used (get_options cl name) fd v o ->
       exists q, E (e_parsed d) q /\ (q = parse x o \/ peq q (parse x o) = true)) /\
    (forall hits, search_latest e' = Some hits -> forall d, In d (hits_of id hits) <-> In d found /\ e_end d = None).
Proof.
  intros n t s calls cl e H Ha.
  assert (Hal : forall n s A om, when_no_ghost n s A om \/ when_each_commit n s A om -> allowed_ok n s A om).
  { intros n' s' A om [(H1 & H2 & H3)|(H1 & H2 & H3)]; (split; [exact H1|split; [apply no_pending_settled, H2|auto]]). }
  destruct (synced _ n t s calls cl e Hal H Ha) as (e' & E1 & F1 & D1).
  pose proof (holds_all_indexed _ n t s calls cl e e' H (proj1 (Hal _ _ _ _ Ha)) F1 D1) as HI.
  exists e'. split; [exact E1|]. intros id h found.
  assert (Ef : found = lat_of id (vis e') ++ arc_of id (vis e')) by exact (hits_all e' _ _ HI id).
  destruct (HI id) as (K1 & K2 & K3 & U & C & D & _). rewrite Ef. split; [|split; [|split]].
  - intros i j d d' v Hi Hj V1 V2. apply valid_covers in V1, V2. exact (U i j d d' v Hi Hj V1 V2).
  - intro v. unfold h. rewrite <- (C v). split; intros (d & Hd & Hv); exists d; (split; [exact Hd|apply valid_covers, Hv]).
  - intros d v x o fd Hd Hv. apply valid_covers in Hv. exact (D d v x o fd Hd Hv).
  - intros hits Hs d. unfold search_latest in Hs. destruct (has_lat e'); [|discriminate]. injection Hs as <-. rewrite in_app_iff.
    assert (Hl : In d (hits_of id (map snd (lat (vis e')))) <-> In d (lat_of id (vis e'))).
    { unfold hits_of, lat_of. rewrite filter_In, !in_map_iff. rewrite str_eqb_eq. split.
      - intros (((i & d') & E2 & Hd) & E3). cbn [snd] in E2. subst d'. exists (i, d). split; [reflexivity|]. apply filter_In. split; [exact Hd|]. cbn [fst]. apply str_eqb_eq. rewrite <- E3. symmetry. destruct (HI i) as (_ & _ & Q & _). apply Q, in_or_app. left. unfold lat_of. apply in_map_iff. exists (i, d). split; [reflexivity|]. apply filter_In. split; [exact Hd|apply str_eqb_refl].
      - intros ((i & d') & E2 & Hd). cbn [snd] in E2. subst d'. apply filter_In in Hd. destruct Hd as [Hd Ei]. split; [exists (i, d); auto|]. destruct (HI id) as (_ & _ & Q & _). apply Q, in_or_app. left. unfold lat_of. apply in_map_iff. exists (i, d). split; [reflexivity|]. apply filter_In. auto. }
    rewrite Hl. split; [intro Hd; split; [left; exact Hd|exact (K1 d Hd)]|]. intros [[Hd|Hd] Hn]; [exact Hd|]. destruct (K2 d Hd Hn).
Qed.
End Props.
Print Assumptions C25_full_sync_exact.
Print Assumptions C26_incremental_partial.
Print Assumptions C27_incremental_each_commit.
Print Assumptions C28_deleted_leaves_latest_partial.
Print Assumptions C30_shortcut_agrees.
Print Assumptions C30_search_exact_partial.
Print Assumptions C30_search_all_partial.
Print Assumptions C56_sync_while_pending_partial.
