(** Properties C29, C31-C33, C44, C46, C47, C55, C57: repeated, failed and full syncs, arcs, versions. *)
From Coq Require Import String Ascii.
From Coq Require Import List ZArith NArith Bool Lia Sorted Permutation.
From Verif Require Import PyVal Diff DiffProofs Prepare Mongo Store MongoProofs MongoStore MongoMore PropsMongo Client ClientProofs.
From Verif Require Import Index IndexSpec IndexProofs PropsIndex Sync SyncSpec SyncProofs SyncBuild SyncColl SyncTrace SyncView SyncMore SyncArcs SyncEvents SyncReach PropsSync.
Import ListNotations.
Open Scope string_scope.
Open Scope list_scope.
Open Scope Z_scope.

(** ** Specification *)

(** A refresh of some indices: each index shows what it showed or what was written to it. *)
Definition refreshed {P} (e e' : es P) : Prop :=
  live e' = live e /\ arcs e' = arcs e /\ has_lat e' = has_lat e /\ (lat (vis e') = lat (vis e) \/ lat (vis e') = lat (live e)) /\
  forall n, let of_arc D := filter (fun nx => N.eqb (fst nx) n) (arc D) in of_arc (vis e') = of_arc (vis e) \/ of_arc (vis e') = of_arc (live e).

Section Events.
Context {O P : Type} (oeq : O -> O -> bool) (odef : O) (parse : dict -> O -> P) (peq : P -> P -> bool).
Variable good : dict -> Prop.
Variable cap : N.
Variable name : pystr.

(** Everything that can happen to a database: calls on the client, syncs, resyncs, and if [fails]
    also syncs and resyncs that stop after writing any part of their operations in any order, and
    refreshes of indices by anyone. Commits read increasing times, ids are equal only within batches. *)
Inductive happens (fails : Prop) : Z -> list (call O) -> client O -> es P -> Prop :=
| h_start : happens fails 0 [] empty_client empty_es
| h_call t calls cl e c cl' : happens fails t calls cl e -> (forall m v, c <> CCommit m v) -> Forall (step_ok good) (proj_call name c) ->
    do_call oeq odef cl c = Some cl' -> happens fails t (calls ++ [c]) cl' e
| h_commit t calls cl e m v : happens fails t calls cl e -> t < v ->
    happens fails v (calls ++ [CCommit m v]) (fst (commit oeq odef cl m v)) e
| h_sync t calls cl e resync e' : happens fails t calls cl e -> sync parse peq cap cl name resync e = Some e' -> happens fails t calls cl e'
| h_arcs t calls cl e e' : happens fails t calls cl e -> resync_arcs parse peq cap cl name e = Some e' -> happens fails t calls cl e'
| h_failed_sync t calls cl e resync e1 ops more some : fails -> happens fails t calls cl e ->
    sync_plan parse peq cap cl name resync e = Some (Some (e1, ops)) -> only some ops -> happens fails t calls cl (write_live some (setup more e1))
| h_failed_arcs t calls cl e ops more some : fails -> happens fails t calls cl e ->
    all_ops parse peq cap cl name = Some ops -> only some (filter is_arc_op ops) -> happens fails t calls cl (write_live some (setup more (delete_arcs e)))
| h_refresh t calls cl e e' : fails -> happens fails t calls cl e -> refreshed e e' -> happens fails t calls cl e'.
End Events.

Section Props.
Context {O P : Type} (oeq : O -> O -> bool) (odef : O).
Context (R : value -> value -> Prop) (good : dict -> Prop) (parse : dict -> O -> P) (peq : P -> P -> bool) (E : P -> P -> Prop).
Variable cap : N.
Variable name : pystr.
Notation reaches := (reaches oeq odef parse peq good cap name).
Notation happens := (happens oeq odef parse peq good cap name).
Notation sync := (sync parse peq cap).
Notation resync_arcs := (resync_arcs parse peq cap).
Notation sync_plan := (sync_plan parse peq cap).
Notation state calls := (a_run a_empty (proj name calls)).
Implicit Types allowed : nat -> Z -> astate -> list (Z * O) -> Prop.
Implicit Types fails : Prop.
Hypothesis PL : pipeline R good parse peq E.
Notation inv := (inv oeq odef parse peq R good name).
Notation prel := (prel parse (near R good)).

Lemma happens_inv fails t calls cl e : happens fails t calls cl e -> exists n, inv n t 0 calls cl empty_es.
Proof.
  intro H. assert (G : exists n, reaches (allowed_ok (O := O)) n t 0 calls cl empty_es).
  { induction H as [|t calls cl e c cl' _ [n IH] Hnc Hs H|t calls cl e m v _ [n IH] Hv|t calls cl e r e' _ IH H|t calls cl e e' _ IH H|t calls cl e r e1 ops more some Hf _ IH|t calls cl e ops more some Hf _ IH|t calls cl e e' Hf _ IH H]; try exact IH.
    - exists 0%nat. constructor.
    - exists n. eapply at_call; eauto.
    - exists (S n). eapply at_commit; eauto. }
  destruct G as (n & G). exists n. apply (reaches_inv oeq odef parse peq R good cap name (pl_data _ _ _ _ _ PL) (pl_parse_ok R good parse peq E PL) _ _ _ _ _ _ G).
Qed.
Lemma happens_shows fails t calls cl e : happens fails t calls cl e -> shows_hist (near R good) (data cl name) (committed (state calls)).
Proof.
  intro H. destruct (happens_inv _ _ _ _ _ H) as (n & I). destruct I as (I1 & I2 & I2' & _).
  destruct (run_crel _ _ (pl_data _ _ _ _ _ PL) (proj name calls) 0 [] a_empty (crel_empty _ _ 0) I2 I2') as (c & b & Er & HC & _).
  pose proof (do_calls_run oeq odef calls _ _ name I1) as Er'. cbn [data empty_client] in Er'. rewrite Er' in Er. injection Er as <-.
  destruct (wf_of_clock R good (pl_data _ _ _ _ _ PL) _ I2 I2') as (b2 & HW).
  exact (crel_shows_hist R good (pl_data _ _ _ _ _ PL) b (data cl name) _ HC (fun id r K => ex_intro _ b2 (HW id r K))).
Qed.
Lemma shows_nodup c (H : pystr -> list (Z * dict)) : shows_hist (near R good) c H -> NoDup (map d_id c).
Proof.
  intro HS. assert (G : forall id, (length (docs_of id c) <= 1)%nat).
  { intro id. specialize (HS id). destruct (docs_of id c) as [|a [|b l]]; cbn; try lia. }
  clear HS. induction c as [|d c IH]; [constructor|]. cbn [map]. constructor.
  - intro K. apply in_map_iff in K. destruct K as (d' & E1 & K). specialize (G (d_id d)). rewrite docs_of_cons, str_eqb_refl in G. cbn in G.
    apply docs_of_In in K. rewrite E1 in K. destruct (docs_of (d_id d) c); [contradiction|cbn in G; lia].
  - apply IH. intro id. specialize (G id). rewrite docs_of_cons in G. destruct (str_eqb (d_id d) id); cbn in G; lia.
Qed.
Lemma happens_nodup fails t calls cl e : happens fails t calls cl e -> NoDup (map d_id (data cl name)).
Proof. intro H. exact (shows_nodup _ _ (happens_shows _ _ _ _ _ H)). Qed.

Lemma happens_filled t calls cl e : (0 < cap)%N -> happens False t calls cl e -> well_filled cap e.
Proof.
  intros Hc H. induction H as [|t calls cl e c cl' _ IH Hnc Hs H|t calls cl e m v _ IH Hv|t calls cl e r e' _ IH H|t calls cl e e' _ IH H|t calls cl e r e1 ops more some Hf _ IH|t calls cl e ops more some Hf _ IH|t calls cl e e' Hf _ IH H]; try contradiction; try exact IH.
  - apply filled_empty.
  - eapply sync_filled; eauto.
  - eapply resync_arcs_filled; eauto.
Qed.
Lemma happens_fresh t calls cl e : happens False t calls cl e -> fresh e.
Proof.
  intro H. induction H as [|t calls cl e c cl' _ IH Hnc Hs H|t calls cl e m v _ IH Hv|t calls cl e r e' _ IH H|t calls cl e e' _ IH H|t calls cl e r e1 ops more some Hf _ IH|t calls cl e ops more some Hf _ IH|t calls cl e e' Hf _ IH H]; try contradiction; try exact IH.
  - apply fresh_empty.
  - unfold Sync.sync, Sync.sync_plan in H. rewrite plan_eq in H. destruct (negb _); [injection H as <-; exact IH|]. destruct (_ && _); [discriminate|].
    destruct (early _ _); [injection H as <-; exact IH|]. destruct (find_records _ _) as [recs|]; [|discriminate]. destruct (gen_ops _ _ _ _ _ _ _) as [[st ops]|]; [|discriminate].
    cbn [run_plan] in H. injection H as <-. apply write_fresh, fresh_base, IH.
  - rewrite resync_arcs_eq in H. destruct (all_ops _ _ _ _ _); [|discriminate]. injection H as <-. apply write_fresh, fresh_delete_arcs, IH.
Qed.

(** ** C29 *)
(** After any sequence of successful events: a sync after a successful sync succeeds, and leaves every
    document of every index as it was. *)
Theorem C29_sync_idempotent : forall t calls cl e resync e',
  happens False t calls cl e -> sync cl name resync e = Some e' ->
  exists e2, sync cl name false e' = Some e2 /\ live e2 = live e' /\ same_visible e2 e' /\ arcs e2 = arcs e' /\ has_lat e2 = has_lat e'.
Proof.
  intros t calls cl e resync e' H Hs. exact (sync_again parse peq cap cl name resync e e' (happens_nodup _ _ _ _ _ H) (happens_fresh _ _ _ _ H) Hs).
Qed.

(** ** C31 *)
Definition arc_docs (n : N) (e : es P) : N := N.of_nat (length (filter (fun nx => N.eqb (fst nx) n) (arc (vis e)))).
(** No arc holds more than [cap] documents; the arcs before an existing one exist and are full. *)
Theorem C31_arcs_filled_in_order : forall t calls cl e, (0 < cap)%N -> happens False t calls cl e ->
  forall n, (arc_docs n e <= cap)%N /\ (forall m, In n (arcs e) -> (m < n)%N -> In m (arcs e) /\ arc_docs m e = cap).
Proof. intros t calls cl e Hc H n. exact (filled_arc cap Hc e n (happens_filled t calls cl e Hc H)). Qed.

(** ** C44 *)
(** The operations of a sync or resync may be applied in any order. *)
Theorem C44_any_order : forall fails t calls cl e resync e1 ops ops',
  happens fails t calls cl e -> sync_plan cl name resync e = Some (Some (e1, ops)) -> Permutation ops ops' ->
  same_indices (write_ops ops e1) (write_ops ops' e1).
Proof.
  intros fails t calls cl e resync e1 ops ops' H Hp Hpe. apply write_perm; [|exact Hpe].
  exact (plan_one_lat parse peq cap _ _ _ _ _ _ _ (happens_nodup _ _ _ _ _ H) Hp).
Qed.

(** ** C46 *)
(** For every client and every content of the indices: after [sync(resync=True)] the arcs are those of a
    sync from scratch; so is the document of every record with data now, all other documents of latest
    stay. *)
Theorem C46_resync_general : forall cl (e e' : es P), has_data (data cl name) = true -> sync cl name true e = Some e' ->
  exists e0, sync cl name false empty_es = Some e0 /\ arc (live e') = arc (live e0) /\ arc (vis e') = arc (vis e0) /\
    forall id, lat_of id (live e') = match lat_of id (live e0) with [] => lat_of id (live e) | l => l end.
Proof.
  intros cl e e' Hd. rewrite resync_eq, Hd, sync_scratch, Hd. destruct (all_ops parse peq cap cl name) as [ops|] eqn:Ea; [|discriminate]. intro H. injection H as <-.
  exists (write_ops ops empty_es). split; [reflexivity|].
  destruct (write_arcs ops (delete_arcs e) eq_refl eq_refl) as [A1 A2]. destruct (write_arcs ops empty_es eq_refl eq_refl) as [B1 B2].
  rewrite A1, A2, B1, B2. split; [reflexivity|]. split; [reflexivity|]. intro id. rewrite !write_live_docs, !lat_of_apply.
  apply (lat_run_over (of_id id ops)). intros o i Hi. apply filter_In in Hi. exact (all_ops_no_delete parse peq cap cl name ops Ea o i (proj1 Hi)).
Qed.
(** So the indices are those of a sync from scratch if latest has no documents but of records with data. *)
Theorem C46_resync_exact_partial : forall cl (e e' : es P), has_data (data cl name) = true -> sync cl name true e = Some e' -> lat (vis e) = lat (live e) ->
  exists e0, sync cl name false empty_es = Some e0 /\
    ((forall id, lat_of id (live e) <> [] -> lat_of id (live e0) <> []) ->
     arc (live e') = arc (live e0) /\ arc (vis e') = arc (vis e0) /\
     forall id, lat_of id (live e') = lat_of id (live e0) /\ lat_of id (vis e') = lat_of id (vis e0)).
Proof.
  intros cl e e' Hd H Hl. destruct (C46_resync_general cl e e' Hd H) as (e0 & E0 & A1 & A2 & L). exists e0. split; [exact E0|]. intro Hg.
  split; [exact A1|]. split; [exact A2|]. intro id.
  assert (K : lat_of id (live e') = lat_of id (live e0)).
  { rewrite L. destruct (lat_of id (live e0)) eqn:El; [|reflexivity]. destruct (lat_of id (live e)) eqn:E1; [reflexivity|]. exfalso. apply (Hg id); [rewrite E1; discriminate|exact El]. }
  split; [exact K|]. rewrite resync_eq, Hd in H. rewrite sync_scratch, Hd in E0. destruct (all_ops parse peq cap cl name) as [ops|]; [|discriminate]. injection H as <-. injection E0 as <-.
  pose proof (write_vis_lat ops (delete_arcs e) Hl) as V1. pose proof (write_vis_lat ops empty_es eq_refl) as V2.
  unfold lat_of in *. rewrite V1, V2. exact K.
Qed.

(** ** C47 *)
(** For every client and every content of the indices: [resync_arcs] leaves latest alone, and the arcs are
    those of a sync from scratch. *)
Theorem C47_resync_arcs : forall cl (e e' : es P), resync_arcs cl name e = Some e' ->
  lat (live e') = lat (live e) /\ has_lat e' = has_lat e /\ (lat (vis e) = lat (live e) -> lat (vis e') = lat (vis e)) /\
  exists e0, sync cl name false empty_es = Some e0 /\ arc (live e') = arc (live e0) /\ arc (vis e') = arc (vis e0).
Proof.
  intros cl e e'. rewrite resync_arcs_eq, sync_scratch. destruct (all_ops parse peq cap cl name) as [ops|] eqn:Ea; [|discriminate]. intro H. injection H as <-.
  assert (Ls : lat_seen (filter is_arc_op ops) = false).
  { clear. unfold lat_seen. induction ops as [|o ops IH]; [reflexivity|]. cbn [filter]. destruct o; cbn [is_arc_op existsb orb]; exact IH. }
  assert (L1 : lat (live (write_ops (filter is_arc_op ops) (delete_arcs e))) = lat (live e)) by (rewrite write_live_docs, apply_lat_unseen by exact Ls; reflexivity).
  split; [exact L1|]. split; [unfold write_ops, refresh, write_live, setup; destruct (isnil _); cbn [has_lat delete_arcs]; rewrite Ls; apply orb_false_r|].
  split; [intro Hl; rewrite (write_vis_lat _ (delete_arcs e) Hl), L1; symmetry; exact Hl|].
  assert (F : flat_map (arc_pair (P := P)) (filter is_arc_op ops) = flat_map arc_pair ops).
  { clear. induction ops as [|o ops IH]; [reflexivity|]. cbn [filter flat_map]. destruct o; cbn [is_arc_op flat_map arc_pair app]; rewrite IH; reflexivity. }
  destruct (write_arcs (filter is_arc_op ops) (delete_arcs e) eq_refl eq_refl) as [A1 A2]. rewrite A1, A2, F.
  destruct (has_data (data cl name)) eqn:Hd; eexists; (split; [reflexivity|]).
  - destruct (write_arcs ops empty_es eq_refl eq_refl) as [B1 B2]. rewrite B1, B2. auto.
  - unfold all_ops in Ea. rewrite (find_all_none _ Hd) in Ea. cbn in Ea. injection Ea as <-. auto.
Qed.
(** If everything was synced when [resync_arcs] ran, it leaves exactly what a sync from scratch gives, and
    the history goes on as if nothing had happened: C26-C28, C30 and C56 hold for later syncs. *)
Theorem C47_up_to_date_partial : forall allowed t s calls cl e e', (forall n s A om, allowed n s A om -> allowed_ok n s A om) ->
  reaches allowed 0 t s calls cl e -> options_there (state calls) (get_options cl name) -> no_pending (state calls) ->
  resync_arcs cl name e = Some e' ->
  reaches allowed 0 t s calls cl e' /\
  exists e0, sync cl name false empty_es = Some e0 /\ same_content E (live e') (live e0) /\ same_content E (vis e') (vis e0).
Proof.
  intros allowed t s calls cl e e' Hal H Ho Hp Hr. pose proof (at_arcs _ _ _ _ _ _ _ _ t s calls cl e e' H Ho Hp Hr) as H'. split; [exact H'|].
  destruct (full_sync oeq odef R good parse peq E cap name PL allowed 0 t s calls cl e H Ho Hp) as (e0 & E0 & F0 & D0). exists e0. split; [exact E0|].
  apply (reaches_mono oeq odef parse peq good cap name allowed (allowed_ok (O := O))) in H'; [|exact Hal].
  pose proof (reaches_inv oeq odef parse peq R good cap name (pl_data _ _ _ _ _ PL) (pl_parse_ok R good parse peq E PL) _ _ _ _ _ _ H') as I.
  assert (D1 : holds prel (live e') (target parse peq (committed (state calls)) (get_options cl name)) /\ fresh e').
  { split; [|apply I]. intro id. rewrite <- (target_of_inv oeq odef parse peq R good name 0 t s calls cl e' I); [apply I|]. intros k Hk.
    destruct I as (_ & _ & _ & _ & _ & _ & _ & I6 & _). apply (I6 k Hk). reflexivity. }
  destruct D1 as [D1 F1].
  split; eapply holds_same; [exact (prel_join R good parse peq E PL)|exact D1|exact D0|exact (prel_join R good parse peq E PL)|exact (fresh_holds _ _ _ F1 D1)|exact (fresh_holds _ _ _ F0 D0)].
Qed.

(** ** C32 *)
(** For every content of the indices. *)
Theorem C32_version_rounding : forall (e : es P) v,
  match get_rounded_version e v with
  | Some r => indexed_version e r /\ r <= v /\ (forall w, indexed_version e w -> w <= v -> w <= r) /\ search_at e r = search_at e v
  | None => (forall w, indexed_version e w -> v < w) /\ search_at e v = Some []
  end.
Proof.
  intros e v. pose proof (rounded_spec e v) as S. destruct (get_rounded_version e v) as [r|] eqn:Er.
  - destruct S as (S1 & S2 & S3). repeat (split; [assumption|]). exact (rounded_search e v r Er).
  - split; [exact S|exact (rounded_none e v Er)].
Qed.

(** ** C33 *)
(** A document of the record begins or ends at [v]. *)
Definition changed_at (e : es P) (v : Z) (id : pystr) : Prop :=
  exists d, In d (all_docs (vis e)) /\ e_id d = id /\ (e_ver d = v \/ e_end d = Some v).
Definition has_data_at (h : list (Z * dict)) (v : Z) : Prop := exists x, in_force h v x /\ x <> [].

Lemma starts_In (e : es P) v d : In d (starts e v) <-> In d (all_docs (vis e)) /\ e_ver d = v.
Proof. unfold starts. rewrite filter_In, Z.eqb_eq. tauto. Qed.
Lemma ends_In (e : es P) v d : In d (ends e v) <-> In d (all_docs (vis e)) /\ e_end d = Some v.
Proof.
  unfold ends. rewrite filter_In. destruct (e_end d) as [w|]; [rewrite Z.eqb_eq|]; split; intros [H1 H2]; split; auto; congruence.
Qed.
Lemma dec_in (l : list pystr) x : {In x l} + {~ In x l}.
Proof. apply in_dec, list_eq_dec, N.eq_dec. Qed.

Section Counts.
Variables (e : es P) (h : pystr -> list (Z * dict)) (om : list (Z * O)).
Hypothesis HI : forall id, record_indexed parse peq E (vis e) id (h id) om.
Lemma vis_of d : In d (all_docs (vis e)) -> In d (lat_of (e_id d) (vis e) ++ arc_of (e_id d) (vis e)).
Proof.
  intro Hd. apply in_all_docs in Hd. apply in_or_app. destruct Hd as [(id & Hd)|Hd]; [|right; exact Hd]. left.
  destruct (HI id) as (_ & _ & K & _). destruct (K d (in_or_app _ _ _ (or_introl Hd))) as [K1 _]. rewrite K1. exact Hd.
Qed.
Lemma of_vis id d : In d (lat_of id (vis e) ++ arc_of id (vis e)) -> In d (all_docs (vis e)) /\ e_id d = id.
Proof.
  intro Hd. destruct (HI id) as (_ & _ & K & _). destruct (K d Hd) as [K1 _]. split; [|exact K1]. apply in_all_docs. apply in_app_or in Hd.
  destruct Hd as [Hd|Hd]; [left; exists id; exact Hd|right; rewrite K1; exact Hd].
Qed.
Lemma covers_start d : In d (all_docs (vis e)) -> covers d (e_ver d).
Proof. intro Hd. destruct (HI (e_id d)) as (_ & _ & K & _). destruct (K d (vis_of d Hd)) as [_ K2]. split; [lia|]. destruct (e_end d); [exact K2|exact I]. Qed.
Lemma covers_end d v : In d (all_docs (vis e)) -> e_end d = Some v -> covers d (v - 1) /\ ~ covers d v.
Proof.
  intros Hd Hv. destruct (HI (e_id d)) as (_ & _ & K & _). destruct (K d (vis_of d Hd)) as [_ K2]. rewrite Hv in K2. unfold covers. rewrite Hv. split; [split; lia|]. intros [_ K3]. lia.
Qed.
Lemma ids_nodup (f : esdoc P -> bool) t : (forall d, In d (all_docs (vis e)) -> f d = true -> covers d t) -> NoDup (map e_id (filter f (all_docs (vis e)))).
Proof.
  intro Hf. assert (G : forall id, (length (filter (fun d => str_eqb (e_id d) id) (filter f (all_docs (vis e)))) <= 1)%nat).
  { intro id. destruct (HI id) as (_ & _ & K3 & U & _).
    assert (Ev : filter (fun d => str_eqb (e_id d) id) (filter f (all_docs (vis e))) = filter f (lat_of id (vis e) ++ arc_of id (vis e))).
    { rewrite filter_filter. unfold all_docs. rewrite filter_app, filter_app. f_equal.
      - unfold lat_of.
        assert (G : forall l : list (pystr * esdoc P), (forall i d, In (i, d) l -> e_id d = i) ->
          filter (fun x => str_eqb (e_id x) id && f x) (map snd l) = filter f (map snd (filter (fun kv => str_eqb (fst kv) id) l))).
        { induction l as [|[i d] l IH]; intro G; [reflexivity|]. cbn [map filter snd fst]. rewrite (G i d (or_introl eq_refl)), IH by (intros; apply G; right; assumption).
          destruct (str_eqb i id); [|reflexivity]. cbn [andb map filter snd]. reflexivity. }
        apply G. intros i d Hd. destruct (HI i) as (_ & _ & K & _). apply K, in_or_app. left. unfold lat_of. apply in_map_iff. exists (i, d). split; [reflexivity|]. apply filter_In. split; [exact Hd|apply str_eqb_refl].
      - unfold arc_of. rewrite filter_filter. apply filter_ext. intro d. apply andb_comm. }
    rewrite Ev. assert (AP : ForallOrdPairs (apart (P := P)) (lat_of id (vis e) ++ arc_of id (vis e))) by (apply nth_apart; exact U).
    assert (Cov : forall d, In d (lat_of id (vis e) ++ arc_of id (vis e)) -> f d = true -> covers d t) by (intros d Hd; apply Hf, (of_vis id d Hd)).
    clear - AP Cov. induction AP as [|x l Hx _ IH]; [cbn; lia|]. cbn [filter]. specialize (IH (fun d Hd => Cov d (or_intror Hd))).
    destruct (f x) eqn:Ex; [|exact IH]. replace (filter f l) with (@nil (esdoc P)); [cbn; lia|].
    symmetry. destruct (filter f l) as [|y m] eqn:Ey; [reflexivity|exfalso].
    assert (Hy : In y (y :: m)) by (left; reflexivity). rewrite <- Ey in Hy. apply filter_In in Hy. destruct Hy as [Hy1 Hy2].
    rewrite Forall_forall in Hx. apply (Hx y Hy1 t); [apply Cov; [left; reflexivity|exact Ex]|apply Cov; [right; exact Hy1|exact Hy2]]. }
  revert G. generalize (filter f (all_docs (vis e))). induction l as [|d l IH]; intro G; [constructor|]. cbn [map]. constructor.
  - intro K. apply in_map_iff in K. destruct K as (d' & E1 & K). specialize (G (e_id d)). cbn [filter] in G. rewrite str_eqb_refl in G. cbn in G.
    assert (Q : In d' (filter (fun d0 => str_eqb (e_id d0) (e_id d)) l)) by (apply filter_In; split; [exact K|rewrite E1; apply str_eqb_refl]).
    destruct (filter _ l); [contradiction|cbn in G; lia].
  - apply IH. intro id. specialize (G id). cbn [filter] in G. destruct (str_eqb (e_id d) id); cbn in G; lia.
Qed.
Lemma nodup_starts v : NoDup (map e_id (starts e v)).
Proof. apply (ids_nodup _ v). intros d Hd H. apply Z.eqb_eq in H. subst v. apply covers_start, Hd. Qed.
Lemma nodup_ends v : NoDup (map e_id (ends e v)).
Proof.
  apply (ids_nodup _ (v - 1)). intros d Hd H. destruct (e_end d) as [w|] eqn:Ew; [|discriminate]. apply Z.eqb_eq in H. subst w. apply (covers_end d v Hd Ew).
Qed.
Lemma has_data_covered id t : has_data_at (h id) t <-> exists d, In d (all_docs (vis e)) /\ e_id d = id /\ covers d t.
Proof.
  destruct (HI id) as (_ & _ & _ & _ & C & _). unfold has_data_at. rewrite <- C. split.
  - intros (d & H1 & H2). exists d. destruct (of_vis id d H1). auto.
  - intros (d & H1 & H2 & H3). exists d. split; [rewrite <- H2; apply vis_of, H1|exact H3].
Qed.
Lemma one_covers d d' t : In d (all_docs (vis e)) -> In d' (all_docs (vis e)) -> e_id d = e_id d' -> covers d t -> covers d' t -> d = d'.
Proof.
  intros H1 H2 Hid C1 C2. apply vis_of in H1. apply vis_of in H2. rewrite <- Hid in H2. destruct (HI (e_id d)) as (_ & _ & _ & U & _).
  apply In_nth_error in H1. apply In_nth_error in H2. destruct H1 as [i H1]. destruct H2 as [j H2]. rewrite (U i j d d' t H1 H2 C1 C2) in H1. congruence.
Qed.
Lemma ended_before id v : changed_at e v id -> has_data_at (h id) (v - 1) -> In id (map e_id (ends e v)).
Proof.
  intros (d & Hd & Hid & [Hv|Hv]) Hb; [|apply in_map_iff; exists d; split; [exact Hid|apply ends_In; auto]].
  apply has_data_covered in Hb. destruct Hb as (d' & Hd' & Hid' & Hc). apply in_map_iff. exists d'. split; [exact Hid'|]. apply ends_In. split; [exact Hd'|].
  destruct Hc as [C1 C2]. destruct (e_end d') as [w|] eqn:Ew.
  - destruct (Z.eq_dec w v) as [->|Hn]; [reflexivity|exfalso]. assert (Q : d = d').
    { apply (one_covers d d' v Hd Hd'); [congruence|subst v; apply covers_start, Hd|]. unfold covers. rewrite Ew. lia. }
    subst d'. lia.
  - exfalso. assert (Q : d = d').
    { apply (one_covers d d' v Hd Hd'); [congruence|subst v; apply covers_start, Hd|]. unfold covers. rewrite Ew. split; [lia|exact I]. }
    subst d'. lia.
Qed.
Lemma counts v : exists old new, NoDup old /\ NoDup new /\
  (forall id, In id old <-> changed_at e v id /\ has_data_at (h id) (v - 1)) /\
  (forall id, In id new <-> changed_at e v id /\ ~ has_data_at (h id) (v - 1)) /\
  zget (changed_counts e) v = match old with [] => nonzero (length new) | _ => Some (length old) end.
Proof.
  exists (map e_id (ends e v)), (filter (fun id => if dec_in (map e_id (ends e v)) id then false else true) (map e_id (starts e v))).
  split; [apply nodup_ends|]. split; [apply NoDup_filter, nodup_starts|].
  assert (Old : forall id, In id (map e_id (ends e v)) <-> changed_at e v id /\ has_data_at (h id) (v - 1)).
  { intro id. split; [|intros [H1 H2]; exact (ended_before id v H1 H2)]. intro K. apply in_map_iff in K. destruct K as (d & Hid & K). apply ends_In in K. destruct K as [K1 K2].
    split; [exists d; auto|]. apply has_data_covered. exists d. split; [exact K1|]. split; [exact Hid|]. apply (covers_end d v K1 K2). }
  split; [exact Old|]. split.
  - intro id. rewrite filter_In. destruct (dec_in (map e_id (ends e v)) id) as [i|i].
    + split; [intros [_ ?]; discriminate|]. intros [_ K]. exfalso. apply K, (Old id), i.
    + split.
      * intros [K _]. apply in_map_iff in K. destruct K as (d & Hid & K). apply starts_In in K. assert (Q : changed_at e v id) by (exists d; tauto). split; [exact Q|].
        intro B. apply i, Old. auto.
      * intros [(d & Hd & Hid & Hv) K]. split; [|reflexivity]. destruct Hv as [Hv|Hv]; [apply in_map_iff; exists d; split; [exact Hid|apply starts_In; auto]|].
        exfalso. apply i, in_map_iff. exists d. split; [exact Hid|apply ends_In; auto].
  - rewrite changed_counts_spec. destruct (ends e v) as [|d l] eqn:Ee; cbn [map length nonzero].
    + rewrite filter_all by (intros x _; destruct (dec_in [] x) as [i|i]; [destruct i|reflexivity]). rewrite map_length. reflexivity.
    + rewrite map_length. reflexivity.
Qed.
End Counts.

(** When syncs of C33 are done: any of the conditions above. *)
Theorem C33_changed_counts_exact : forall allowed n t s calls cl e, (forall n s A om, allowed n s A om -> allowed_ok n s A om) ->
  reaches allowed n t s calls cl e -> allowed n s (state calls) (get_options cl name) ->
  exists e', sync cl name false e = Some e' /\ forall v, exists old new, NoDup old /\ NoDup new /\
    (forall id, In id old <-> changed_at e' v id /\ has_data_at (committed (state calls) id) (v - 1)) /\
    (forall id, In id new <-> changed_at e' v id /\ ~ has_data_at (committed (state calls) id) (v - 1)) /\
    zget (changed_counts e') v = match old with [] => nonzero (length new) | _ => Some (length old) end.
Proof.
  intros allowed n t s calls cl e Hal H Ha. destruct (synced oeq odef R good parse peq E cap name PL allowed n t s calls cl e Hal H Ha) as (e' & E1 & F1 & D1).
  exists e'. split; [exact E1|]. intro v. apply (counts e' _ (get_options cl name)).
  exact (holds_all_indexed oeq odef R good parse peq E cap name PL allowed n t s calls cl e e' H (proj1 (Hal _ _ _ _ Ha)) F1 D1).
Qed.
(** So the count is the number of records changed at [v] if all of them, or none of them, had data just before. *)
Theorem C33_changed_counts_partial : forall allowed n t s calls cl e, (forall n s A om, allowed n s A om -> allowed_ok n s A om) ->
  reaches allowed n t s calls cl e -> allowed n s (state calls) (get_options cl name) ->
  exists e', sync cl name false e = Some e' /\ forall v, exists L, NoDup L /\ (forall id, In id L -> changed_at e' v id) /\
    ((forall id, changed_at e' v id -> has_data_at (committed (state calls) id) (v - 1)) \/
     (forall id, changed_at e' v id -> ~ has_data_at (committed (state calls) id) (v - 1)) ->
     (forall id, changed_at e' v id -> In id L) /\ zget (changed_counts e') v = nonzero (length L)).
Proof.
  intros allowed n t s calls cl e Hal H Ha. destruct (C33_changed_counts_exact allowed n t s calls cl e Hal H Ha) as (e' & E1 & K). exists e'. split; [exact E1|].
  intro v. destruct (K v) as (old & new & N1 & N2 & M1 & M2 & Z). destruct old as [|x old].
  - exists new. split; [exact N2|]. split; [intros id Hi; apply (M2 id), Hi|]. intro Hv. split; [|exact Z]. intros id Hi. apply M2. split; [exact Hi|].
    intro B. apply (proj2 (M1 id)). auto.
  - exists (x :: old). split; [exact N1|]. split; [intros id Hi; apply (M1 id), Hi|]. intro Hv. split; [|exact Z]. intros id Hi. apply M1. split; [exact Hi|].
    destruct Hv as [Hv|Hv]; [exact (Hv id Hi)|]. exfalso. destruct (proj1 (M1 x) (or_introl eq_refl)) as [B1 B2]. exact (Hv x B1 B2).
Qed.

(** ** C55 *)
(** [v] is a version of the record or of the options; pending data and options have none. *)
Definition committed_version (A : astate) (om : list (Z * O)) (id : pystr) (v : Z) : Prop :=
  (exists x, In (v, x) (committed A id)) \/ (exists o, In (v, o) om).
(** What a document may show: committed data parsed with committed options, under committed versions. *)
Definition shows_committed (A : astate) (om : list (Z * O)) (d : esdoc P) : Prop :=
  (exists v x w o, In (v, x) (committed A (e_id d)) /\ In (w, o) om /\ E (e_parsed d) (parse x o)) /\
  committed_version A om (e_id d) (e_ver d) /\ (forall w, e_end d = Some w -> committed_version A om (e_id d) w).

Lemma shows_mono (A A' : astate) (om om' : list (Z * O)) d : (forall id kv, In kv (committed A id) -> In kv (committed A' id)) -> (forall kv, In kv om -> In kv om') ->
  shows_committed A om d -> shows_committed A' om' d.
Proof.
  intros H1 H2 ((v & x & w & o & K1 & K2 & K3) & K4 & K5).
  assert (CV : forall i u, committed_version A om i u -> committed_version A' om' i u) by (intros i u [[y Hy]|[y Hy]]; [left|right]; exists y; auto).
  split; [exists v, x, w, o; auto|]. split; [auto|]. intros u Hu. apply CV, K5, Hu.
Qed.
Lemma in_upto {V} (m m' : list (Z * V)) t kv : (forall k, In k (zkeys m) -> k <= t) -> upto t m' = upto t m -> In kv m -> In kv m'.
Proof.
  intros Hk Hu Hi. assert (K : In kv (upto t m')). { rewrite Hu. unfold upto. apply filter_In. split; [exact Hi|]. apply Z.leb_le, Hk. apply (in_map fst), Hi. }
  unfold upto in K. apply filter_In in K. apply K.
Qed.
Lemma op_shows f after st st' recs ops cl calls fails t e o d : happens fails t calls cl e -> find_records f (data cl name) = Some recs ->
  gen_ops parse peq cap after (get_options cl name) st recs = Some (st', ops) -> In o ops -> op_doc o = Some d -> shows_committed (state calls) (get_options cl name) d.
Proof.
  intros H Hf Hg Ho Hd. pose proof (happens_shows _ _ _ _ _ H) as HS.
  destruct (find_records_spec _ f (data cl name) _ HS) as (recs' & E1 & _ & K). rewrite Hf in E1. injection E1 as <-.
  destruct (gen_ops_docs parse peq cap after (get_options cl name) recs st st' ops o d Hg Ho Hd) as (id & h & rvs & K1 & K2 & K3).
  destruct (rv_docs_from parse peq h _ rvs id d K2 K3) as (R1 & (v & x & w & o' & R2 & R3 & R4) & R5 & R6). destruct (proj1 (K id) h K1) as [Fh _].
  assert (G : forall v x, In (v, x) h -> exists x', In (v, x') (committed (state calls) id) /\ near R good x x').
  { clear - Fh. intros v x Hi. induction Fh as [|[a y] [b y'] h H' Hy _ IH]; [contradiction|]. destruct Hi as [Hi|Hi].
    - injection Hi as -> ->. destruct Hy as [Hy1 Hy2]. cbn in Hy1, Hy2. subst b. exists y'. split; [left; reflexivity|exact Hy2].
    - destruct (IH Hi) as (x' & A1 & A2). exists x'. split; [right; exact A1|exact A2]. }
  assert (CV : forall u, In u (zkeys (get_options cl name)) \/ In u (zkeys h) -> committed_version (state calls) (get_options cl name) id u).
  { intros u [Hu|Hu]; unfold zkeys in Hu; apply in_map_iff in Hu; destruct Hu as ([u' y] & Eu & Hu); cbn in Eu; subst u'; [right; exists y; exact Hu|].
    left. destruct (G u y Hu) as (y' & G1 & _). exists y'. exact G1. }
  unfold shows_committed. rewrite R1. destruct (G v x R2) as (x' & G1 & G2). split.
  - exists v, x', w, o'. split; [exact G1|]. split; [exact R3|]. rewrite R4. exact (pl_near _ _ _ _ _ PL x x' o' G2).
  - split; [apply CV, R5|]. intros u Hu. apply CV, R6, Hu.
Qed.
Theorem C55_only_committed_visible : forall fails t calls cl e, happens fails t calls cl e ->
  forall d, In d (all_docs (live e)) \/ In d (all_docs (vis e)) -> shows_committed (state calls) (get_options cl name) d.
Proof.
  intros fails t calls cl e H.
  assert (PlanOps : forall t calls cl e resync e1 ops, happens fails t calls cl e -> sync_plan cl name resync e = Some (Some (e1, ops)) ->
    (e1 = e \/ e1 = delete_arcs e) /\ forall o d, In o ops -> op_doc o = Some d -> shows_committed (state calls) (get_options cl name) d).
  { clear - PL. intros t calls cl e resync e1 ops H. unfold Sync.sync_plan. rewrite plan_eq. destruct (negb _); [discriminate|]. destruct (_ && _); [discriminate|]. destruct (early _ _); [discriminate|].
    destruct (find_records _ _) as [recs|] eqn:Ef; [|discriminate]. destruct (gen_ops _ _ _ _ _ _ _) as [[st ops']|] eqn:Eg; [|discriminate]. intro K. injection K as <- <-.
    split; [destruct resync; auto|]. intros o d Ho Hd. eapply op_shows; eauto. }
  assert (AllOps : forall t calls cl e ops, happens fails t calls cl e -> all_ops parse peq cap cl name = Some ops ->
    forall o d, In o ops -> op_doc o = Some d -> shows_committed (state calls) (get_options cl name) d).
  { clear - PL. intros t calls cl e ops H. unfold all_ops. destruct (find_records _ _) as [recs|] eqn:Ef; [|discriminate]. destruct (gen_ops _ _ _ _ _ _ _) as [[st ops']|] eqn:Eg; [|discriminate].
    intro K. injection K as <-. intros o d Ho Hd. eapply op_shows; eauto. }
  assert (CallGrows : forall t calls cl e c cl', happens fails t calls cl e -> do_call oeq odef cl c = Some cl' -> (forall m v, c = CCommit m v -> t < v) ->
    (forall id kv, In kv (committed (state calls) id) -> In kv (committed (state (calls ++ [c])) id)) /\ (forall kv, In kv (get_options cl name) -> In kv (get_options cl' name))).
  { clear - PL. intros t calls cl e c cl' H Hc Hv. destruct (happens_inv _ _ _ _ _ H) as (n & I). destruct I as (_ & _ & _ & _ & _ & I4 & _). split.
    - intros id kv. apply (in_upto _ _ t); [intros k Hk; apply I4; left; exists id; exact Hk|]. rewrite proj_snoc, a_run_app.
      unfold proj_call. destruct c as [m mf recs|m v|m o|m|m]; cbn [proj_call]; try destruct (str_eqb _ _); cbn [a_run fold_left]; try reflexivity; apply a_step_upto; intros v' K; try discriminate K.
      injection K as <-. exact (Hv m v eq_refl).
    - intros kv. apply (in_upto _ _ t); [intros k Hk; apply I4; right; exact Hk|]. exact (do_call_options oeq odef name t cl c cl' Hc Hv). }
  induction H as [|t calls cl e c cl' H IH Hnc Hs Hc|t calls cl e m v H IH Hv|t calls cl e r e' H IH Hsy|t calls cl e e' H IH Hr|t calls cl e r e1 ops more some Hf H IH Hp Ho|t calls cl e ops more some Hf H IH Ha Ho|t calls cl e e' Hf H IH Hr]; intros d Hd.
  - destruct Hd as [[]|[]].
  - destruct (CallGrows t calls cl e c cl' H Hc ltac:(intros m v K; exfalso; exact (Hnc m v K))) as [G1 G2]. exact (shows_mono _ _ _ _ d G1 G2 (IH d Hd)).
  - destruct (CallGrows t calls cl e (CCommit m v) _ H eq_refl ltac:(intros m' v' K; injection K as _ <-; exact Hv)) as [G1 G2]. exact (shows_mono _ _ _ _ d G1 G2 (IH d Hd)).
  - unfold Sync.sync in Hsy. destruct (sync_plan cl name r e) as [[[e1 ops]|]|] eqn:Ep; cbn [run_plan] in Hsy; [injection Hsy as <-|injection Hsy as <-; exact (IH d Hd)|discriminate].
    destruct (PlanOps _ _ _ _ _ _ _ H Ep) as [He1 Po]. apply write_docs in Hd. destruct Hd as [Hd|[Hd|(o & Ho & Hd)]]; [| |exact (Po o d Ho Hd)].
    + apply IH. destruct He1 as [->| ->]; [left; exact Hd|apply delete_arcs_docs; left; exact Hd].
    + apply IH. destruct He1 as [->| ->]; [right; exact Hd|apply delete_arcs_docs; right; exact Hd].
  - rewrite resync_arcs_eq in Hr. destruct (all_ops parse peq cap cl name) as [ops|] eqn:Ea; [|discriminate]. injection Hr as <-.
    apply write_docs in Hd. destruct Hd as [Hd|[Hd|(o & Ho & Hd)]]; [apply IH, delete_arcs_docs; left; exact Hd|apply IH, delete_arcs_docs; right; exact Hd|].
    apply filter_In in Ho. exact (AllOps _ _ _ _ _ H Ea o d (proj1 Ho) Hd).
  - destruct (PlanOps _ _ _ _ _ _ _ H Hp) as [He1 Po]. destruct Hd as [Hd|Hd].
    + change (live (write_live some (setup more e1))) with (apply_bops (live e1) some) in Hd. apply apply_docs in Hd. destruct Hd as [Hd|(o & K & Hd)]; [|exact (Po o d (Ho o K) Hd)].
      apply IH. destruct He1 as [->| ->]; [left; exact Hd|apply delete_arcs_docs; left; exact Hd].
    + change (vis (write_live some (setup more e1))) with (vis e1) in Hd. apply IH. destruct He1 as [->| ->]; [right; exact Hd|apply delete_arcs_docs; right; exact Hd].
  - destruct Hd as [Hd|Hd].
    + change (live (write_live some (setup more (delete_arcs e)))) with (apply_bops (live (delete_arcs e)) some) in Hd. apply apply_docs in Hd.
      destruct Hd as [Hd|(o & K & Hd)]; [apply IH, delete_arcs_docs; left; exact Hd|]. pose proof (Ho o K) as K'. apply filter_In in K'. exact (AllOps _ _ _ _ _ H Ha o d (proj1 K') Hd).
    + apply IH, delete_arcs_docs. right. exact Hd.
  - apply IH. destruct Hr as (R1 & _ & _ & R2 & R3). rewrite R1 in Hd. destruct Hd as [Hd|Hd]; [left; exact Hd|].
    unfold all_docs in *. rewrite in_app_iff in *. destruct Hd as [Hd|Hd].
    + destruct R2 as [R2|R2]; rewrite R2 in Hd; [right; apply in_or_app; left; exact Hd|left; left; exact Hd].
    + apply in_map_iff in Hd. destruct Hd as ([k x] & <- & Hd). cbn [snd].
      assert (K : In (k, x) (filter (fun nx : N * esdoc P => N.eqb (fst nx) k) (arc (vis e')))) by (apply filter_In; split; [exact Hd|apply N.eqb_refl]).
      cbv zeta in R3. destruct (R3 k) as [R4|R4]; rewrite R4 in K; apply filter_In in K; destruct K as [K _]; apply (in_map snd) in K; cbn [snd] in K;
        [right; apply in_or_app; right; exact K|left; right; exact K].
Qed.
(** So no search, whenever done, returns data that was not committed. *)
Corollary C55_search_committed : forall fails t calls cl e v hits, happens fails t calls cl e -> search_at e v = Some hits ->
  forall d, In d hits -> shows_committed (state calls) (get_options cl name) d.
Proof.
  intros fails t calls cl e v hits H Hs d Hd. apply (C55_only_committed_visible fails t calls cl e H). right.
  assert (F : Some (filter (version_query v) (all_docs (vis e))) = Some hits -> In d (all_docs (vis e))) by (intro K; injection K as <-; apply filter_In in Hd; apply Hd).
  unfold search_at in Hs. destruct (es_version e) as [c|]; [|exact (F Hs)]. destruct (c <=? v); [|exact (F Hs)].
  unfold search_latest in Hs. destruct (has_lat e); [|discriminate]. injection Hs as <-. unfold all_docs. apply in_or_app. left. exact Hd.
Qed.

(** ** C57 *)
(** For every client and every content of the indices: a sync that stops after writing any part of its
    operations [some] in any order, and creating any indices [more], changes nothing that is visible. *)
Theorem C57_failed_invisible : forall cl (e e1 : es P) ops more some,
  sync_plan cl name false e = Some (Some (e1, ops)) -> only some ops ->
  let e' := write_live some (setup more e1) in
  e1 = e /\ es_version e' = es_version e /\ get_versions e' = get_versions e /\ changed_counts e' = changed_counts e /\
  (forall v, get_rounded_version e' v = get_rounded_version e v) /\
  (forall v hits, search_at e v = Some hits -> search_at e' v = Some hits) /\
  (forall v hits, search_at e' v = Some hits -> search_at e v = Some hits \/ (search_at e v = None /\ has_lat e = false)).
Proof.
  intros cl e e1 ops more some Hp Ho e'.
  assert (He : e1 = e).
  { unfold Sync.sync_plan in Hp. rewrite plan_eq in Hp. destruct (negb _); [discriminate|]. destruct (_ && _); [discriminate|]. destruct (early _ _); [discriminate|].
    destruct (find_records _ _); [|discriminate]. destruct (gen_ops _ _ _ _ _ _ _) as [[? ?]|]; [|discriminate]. injection Hp as <- _. reflexivity. }
  subst e1. split; [reflexivity|]. assert (V : vis e' = vis e) by reflexivity.
  assert (HL : has_lat e = true -> has_lat e' = true) by (unfold e', write_live, setup; cbn; intros ->; reflexivity).
  assert (EV : es_version e' = es_version e) by (unfold es_version; rewrite V; reflexivity).
  split; [exact EV|]. split; [unfold get_versions, changed_counts; rewrite V; reflexivity|]. split; [unfold changed_counts; rewrite V; reflexivity|].
  split; [intro v; unfold get_rounded_version, get_versions, changed_counts; rewrite V; reflexivity|].
  split; intros v hits; unfold search_at; rewrite EV, V; destruct (es_version e) as [c|]; auto; destruct (c <=? v); auto; unfold search_latest; rewrite V.
  - destruct (has_lat e) eqn:L; [|discriminate]. rewrite (HL eq_refl). auto.
  - destruct (has_lat e) eqn:L; [|right; auto]. rewrite (HL eq_refl). auto.
Qed.
(** Repeating it succeeds; latest is then what the sync would have made of it. The arcs have in addition
    exactly the arc documents written before the failure. *)
Theorem C57_repeat_general : forall cl (e e1 : es P) ops more some, sync_plan cl name false e = Some (Some (e1, ops)) -> only some ops ->
  exists e' e2, sync cl name false e = Some e' /\ sync cl name false (write_live some (setup more e1)) = Some e2 /\
    (forall id, lat_of id (live e2) = lat_of id (live e')) /\
    (lat (vis e) = lat (live e) -> forall id, lat_of id (vis e2) = lat_of id (vis e')) /\
    (forall id, Permutation (arc_of id (live e2)) (arc_of id (live e') ++ arc_adds (of_id id some))).
Proof.
  intros cl e e1 ops more some Hp Ho. destruct (C57_failed_invisible cl e e1 ops more some Hp Ho) as [-> _].
  destruct (failed_repeat parse peq cap cl name e e ops more some Hp Ho) as (e' & E1 & e2 & E2 & L & A & V & _). exists e', e2. auto.
Qed.
(** So the repetition has exactly the effect of the sync if no arc document was written and no arc created. *)
Theorem C57_repeat_exact_partial : forall cl (e e1 : es P) ops more some, sync_plan cl name false e = Some (Some (e1, ops)) -> only some ops ->
  existsb is_arc_op some = false -> existsb is_arc_op more = false -> lat (vis e) = lat (live e) ->
  exists e' e2, sync cl name false e = Some e' /\ sync cl name false (write_live some (setup more e1)) = Some e2 /\
    (forall id, lat_of id (live e2) = lat_of id (live e') /\ lat_of id (vis e2) = lat_of id (vis e')) /\ arc (live e2) = arc (live e') /\ arc (vis e2) = arc (vis e').
Proof.
  intros cl e e1 ops more some Hp Ho Ha Hm Hl. destruct (C57_failed_invisible cl e e1 ops more some Hp Ho) as [-> _].
  destruct (failed_repeat parse peq cap cl name e e ops more some Hp Ho) as (e' & E1 & e2 & E2 & L & _ & V & A). destruct (A Ha Hm) as [A1 A2]. exists e', e2. auto 10.
Qed.
End Props.
Print Assumptions C29_sync_idempotent.
Print Assumptions C31_arcs_filled_in_order.
Print Assumptions C32_version_rounding.
Print Assumptions C33_changed_counts_exact.
Print Assumptions C33_changed_counts_partial.
Print Assumptions C44_any_order.
Print Assumptions C46_resync_general.
Print Assumptions C46_resync_exact_partial.
Print Assumptions C47_resync_arcs.
Print Assumptions C47_up_to_date_partial.
Print Assumptions C55_only_committed_visible.
Print Assumptions C55_search_committed.
Print Assumptions C57_failed_invisible.
Print Assumptions C57_repeat_general.
Print Assumptions C57_repeat_exact_partial.
