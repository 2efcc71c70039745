(** The documents of one record through syncs, whatever the other records do: changes to them may be pending. *)
From Coq Require Import List ZArith NArith Bool Lia Sorted Permutation.
From Verif Require Import PyVal Diff DiffProofs Prepare Mongo Store MongoProofs MongoStore MongoMore PropsMongo Client ClientProofs.
From Verif Require Import Index IndexSpec IndexProofs PropsIndex Sync SyncSpec SyncProofs SyncBuild SyncColl SyncTrace SyncView SyncMore SyncArcs SyncEvents SyncReach SyncStale.
Import ListNotations.
Open Scope Z_scope.

Section Open.
Context {O P : Type} (parse : dict -> O -> P) (peq : P -> P -> bool).
(** the documents [T] of one record, in their indices *)
Definition just (id : pystr) (T : list (esdoc P)) : docs P := Docs (map (fun d => (id, d)) (filter is_open T)) (map (fun d => (0%N, d)) (filter is_closed T)).
Lemma just_lat id T : lat_of id (just id T) = filter is_open T.
Proof. unfold lat_of, just. cbn [lat]. induction (filter is_open T) as [|d l IH]; [reflexivity|]. cbn [map filter fst]. rewrite str_eqb_refl. cbn [map snd]. f_equal. exact IH. Qed.
Lemma just_arc id T : (forall d, In d T -> e_id d = id) -> arc_of id (just id T) = filter is_closed T.
Proof.
  intro Ids. unfold arc_of, just. cbn [arc]. rewrite map_map. cbn [snd]. rewrite map_id. apply filter_all. intros d Hd. apply filter_In in Hd. rewrite (Ids d (proj1 Hd)). apply str_eqb_refl.
Qed.
Lemma record_docs_ids h (om : list (Z * O)) id d : In d (record_docs parse peq h om id) -> e_id d = id.
Proof.
  unfold record_docs. destruct (build parse peq h om) as [rvs|]; [|intros []]. intro Hd.
  apply In_nth_error in Hd. destruct Hd as (i & Hi). apply rv_docs_nth in Hi. destruct Hi as (r & _ & ->). reflexivity.
Qed.
Lemma just_indexed h (om : list (Z * O)) id : (h = [] \/ hist_ok h) -> (h <> [] -> om <> []) -> NoDup (map fst om) ->
  record_indexed parse peq eq (just id (record_docs parse peq h om id)) id h om.
Proof.
  intros Hh Ho Hn.
  assert (Refl : forall l : list (esdoc P), same_docs eq l l).
  { intro l. exists l. split; [apply Permutation_refl|]. induction l; constructor; [repeat split|assumption]. }
  apply docs_indexed; [rewrite just_lat; apply Refl|rewrite just_arc by apply record_docs_ids; apply Refl|exact Hh|exact Ho|exact Hn].
Qed.
(** a record has an open document exactly if it has data *)
Lemma open_spec h (om : list (Z * O)) id : (h = [] \/ hist_ok h) -> (h <> [] -> om <> []) -> NoDup (map fst om) ->
  some_open (record_docs parse peq h om id) = true <-> exists x, now_data h x /\ x <> [].
Proof.
  intros Hh Ho Hn. pose proof (just_indexed h om id Hh Ho Hn) as (K1 & _ & _ & _ & K5 & _ & K7 & _). set (T := record_docs parse peq h om id) in *.
  rewrite some_open_filter. rewrite just_lat in K1, K5, K7. split.
  - intro So. destruct (filter is_open T) as [|d l] eqn:Ef; [discriminate|].
    assert (Hb : exists b, e_ver d <= b /\ forall k, In k (zkeys h) -> k <= b).
    { clear. exists (fold_right Z.max (e_ver d) (zkeys h)). induction (zkeys h) as [|k l [I1 I2]]; [split; [cbn; lia|intros ? []]|]. cbn [fold_right]. split; [lia|].
      intros j [->|Hj]; [lia|specialize (I2 j Hj); lia]. }
    destruct Hb as (b & B1 & B2). destruct (proj1 (K5 b)) as (x & (v & H1 & H2 & H3) & Nx).
    { exists d. split; [left; reflexivity|]. split; [exact B1|]. rewrite (K1 d (or_introl eq_refl)). exact I. }
    exists x. split; [|exact Nx]. exists v. split; [exact H1|]. intros w y Hw. apply (H3 w y Hw). apply B2. apply (in_map fst) in Hw. exact Hw.
  - intros (x & Hx & Nx). destruct (K7 (ex_intro _ x (conj Hx Nx))) as (d & ->). reflexivity.
Qed.
End Open.

(** ** One sync *)
Lemma find_records_pending f c : forall recs id, find_records f c = Some recs -> (forall d, In d (docs_of id c) -> d_ver d = None) -> ~ In id (map fst recs).
Proof.
  induction c as [|d c IH]; intros recs id H Hd; [injection H as <-; intros []|]. cbn [find_records] in H. rewrite docs_of_cons in Hd.
  assert (Hc : forall d0, In d0 (docs_of id c) -> d_ver d0 = None) by (intros d0 H0; apply Hd; destruct (str_eqb (d_id d) id); [right|]; exact H0).
  destruct (match d_ver d with Some v => f v | None => false end) eqn:Ef; [|exact (IH recs id H Hc)].
  destruct (rec_hist d) as [h|]; [|discriminate]. destruct (find_records f c) as [recs0|] eqn:E0; [|discriminate]. injection H as <-. cbn [map fst].
  intros [K|K]; [|exact (IH recs0 id eq_refl Hc K)]. subst id. rewrite str_eqb_refl in Hd. rewrite (Hd d (or_introl eq_refl)) in Ef. discriminate.
Qed.
Lemma pending_docs c id : pending_id c id -> forall d, In d (docs_of id c) -> d_ver d = None.
Proof. intros (d0 & E & V) d Hd. rewrite E in Hd. destruct Hd as [<-|[]]. exact V. Qed.

Section Step.
Context {O P : Type} (parse : dict -> O -> P) (peq : P -> P -> bool) (near : dict -> dict -> Prop).
Hypothesis PK : parse_ok parse peq near.
Notation prel := (prel parse near).
Notation build := (build parse peq).
Variable H : pystr -> list (Z * dict).
Variable om : list (Z * O).
Hypothesis Hok : forall id, H id = [] \/ hist_ok (H id).
Hypothesis Hopts : forall id, H id <> [] -> om <> [].
Notation target := (target parse peq H om).

(** a sync does nothing to the documents of a record with pending changes *)
Lemma pending_idle cap c cv e e' id : run_plan (plan parse peq cap c om cv false e) e = Some e' -> shows_hist near c H -> pending_id c id ->
  lat_of id (live e') = lat_of id (live e) /\ arc_of id (live e') = arc_of id (live e).
Proof.
  intros E HS Hp. unfold plan in E. destruct (has_data c); cbn [negb] in E; [|injection E as <-; auto].
  assert (Go : forall f, run_plan (match find_records f c with
      | None => None
      | Some recs => match Index.gen_ops parse peq cap (es_version e) om (get_arc_status e) recs with
                     | None => None
                     | Some (_, ops) => Some (Some (e, ops)) end end) e = Some e' ->
      lat_of id (live e') = lat_of id (live e) /\ arc_of id (live e') = arc_of id (live e)).
  { intros f. destruct (find_records_spec near f c H HS) as (recs & Er & Hn & _). rewrite Er. destruct (Index.gen_ops _ _ _ _ _ _ _) as [[st ops]|] eqn:Eo; [|discriminate].
    intro K. injection K as <-. rewrite write_live_docs, lat_of_apply, arc_of_apply.
    destruct (gen_ops_of_id parse peq cap (es_version e) om recs _ _ _ Eo Hn id) as [G1 _]. rewrite G1 by exact (find_records_pending f c recs id Er (pending_docs c id Hp)).
    cbn. rewrite app_nil_r. auto. }
  destruct (es_version e) as [ls|]; [|exact (Go _ E)]. destruct cv as [m|]; [|discriminate]. destruct (m <=? ls); [injection E as <-; auto|].
  destruct (existsb _ _); exact (Go _ E).
Qed.

(** the operations for all records that have no pending changes *)
Lemma all_step cap c : shows_hist near c H -> exists recs st ops, find_records (fun _ => true) c = Some recs /\ Index.gen_ops parse peq cap None om (0, 0)%N recs = Some (st, ops) /\
  (forall b, (forall id k, In k (zkeys (H id)) \/ In k (zkeys om) -> k <= b) -> Forall (op_sound b) ops) /\
  forall a id D, ~ pending_id c id -> arc_of id D = [] -> next_docs parse near a id D (apply_bops D ops) [] (target id).
Proof.
  intro HS. destruct (find_records_spec near (fun _ => true) c H HS) as (recs & Er & Hn & Hr). exists recs.
  destruct (gen_ops_total parse peq cap None om recs (0, 0)%N) as (st & ops & Eo).
  { intros id h Hin. destruct (Hr id) as [R1 _]. destruct (R1 h Hin) as (Hh & v & [Hv _] & _).
    assert (Hne : H id <> []) by (intro K; rewrite K in Hv; contradiction). destruct (Hok id) as [K|Hhok]; [congruence|].
    destruct (build_total parse peq h om (hrel_hist_ok parse peq near PK h (H id) Hh Hhok) (Hopts id Hne)) as (rvs & Eb). congruence. }
  exists st, ops. split; [exact Er|]. split; [exact Eo|]. split.
  { intros b Hk. apply (gen_ops_sound parse peq om _ _ _ _ _ _ _ Eo). intros id h k Hin [K|K]; [apply (Hk id); right; exact K|]. apply (Hk id). left.
    destruct (Hr id) as [R1 _]. destruct (R1 h Hin) as (Hh & _). rewrite (hrel_keys near h (H id) Hh) in K. exact K. }
  intros a id D Hp Ha. destruct (gen_ops_of_id parse peq cap None om recs _ _ _ Eo Hn id) as [G1 G2]. destruct (Hr id) as [R1 R2].
  destruct (in_dec (list_eq_dec N.eq_dec) id (map fst recs)) as [Hin|Hin].
  - apply in_map_iff in Hin. destruct Hin as ([i h] & Ei & Hin). cbn in Ei. subst i. destruct (R1 h Hin) as (Hh & v & [Hv _] & _).
    assert (Hne : H id <> []) by (intro K; rewrite K in Hv; contradiction). destruct (Hok id) as [K|Hhok]; [congruence|].
    destruct (build_total parse peq (H id) om Hhok (Hopts id Hne)) as (rvs & Hb). destruct (G2 h Hin) as (rvs_c & Hbc & Hs).
    assert (Hnew : Forall (fun r => gt_after None (rv_ver r) = true) rvs) by (apply Forall_forall; reflexivity).
    destruct (rec_ops_fresh None id rvs Hnew) as [A1 A2].
    replace (target id) with (rv_docs id rvs) by (unfold SyncColl.target, SyncSpec.record_docs; rewrite Hb; reflexivity).
    apply (next_run parse peq near PK H om a id D ops h rvs_c rvs None [] Hh Hbc Hb Hs).
    + rewrite Ha. exists []. split; constructor.
    + discriminate.
    + rewrite A1. reflexivity.
    + rewrite (rec_ops_fresh_lat _ id rvs Hnew). cbn. destruct (some_open _); reflexivity.
    + intros K l. rewrite A2. rewrite (rec_ops_fresh_lat _ id rvs Hnew), some_open_filter in K. destruct (filter is_open _); [discriminate|reflexivity].
    + discriminate.
  - assert (Et : target id = []).
    { destruct (R2 Hin) as [K|[K|(v & _ & K)]]; [|destruct (Hp K)|discriminate]. unfold SyncColl.target. rewrite K. reflexivity. }
    rewrite Et. unfold next_docs. rewrite lat_of_apply, arc_of_apply, (G1 Hin), Ha. cbn. split; [exists []; split; constructor|]. split; [discriminate|reflexivity].
Qed.
End Step.

(** ** Histories *)
Section Hist.
Context {O P : Type} (oeq : O -> O -> bool) (odef : O) (parse : dict -> O -> P) (peq : P -> P -> bool).
Variable R : value -> value -> Prop.
Variable good : dict -> Prop.
Variable cap : N.
Variable name : pystr.
Notation state calls := (a_run a_empty (proj name calls)).

(** Nothing is pending for the record. *)
Definition id_clear (id : pystr) (A : astate) : Prop := forall h p, A id <> Some (AR h (Some p)).
(** Nothing of the record was committed since the last sync, and no options. *)
Definition id_settled (id : pystr) (s : Z) (A : astate) (om : list (Z * O)) : Prop :=
  forall k, In k (zkeys (committed A id)) \/ In k (zkeys om) -> k <= s.
(** A sync or resync leaves the record as it should, whatever the others are: *)
Definition harmless (id : pystr) (r : bool) (n : nat) (s : Z) (A : astate) (om : list (Z * O)) : Prop :=
  (id_clear id A \/ r = false /\ id_settled id s A om) /\ calm id r n s A om.

(** As [syncs], seen from one record: the others may have pending changes when a sync happens. *)
Inductive local (id : pystr) : nat -> Z -> Z -> list (call O) -> client O -> es P -> Prop :=
| lo_start : local id 0 0 0 [] empty_client empty_es
| lo_call n t s calls cl e c cl' : local id n t s calls cl e ->
    (forall m v, c <> CCommit m v) -> Forall (step_ok good) (proj_call name c) ->
    do_call oeq odef cl c = Some cl' -> local id n t s (calls ++ [c]) cl' e
| lo_commit n t s calls cl e m v : local id n t s calls cl e -> t < v ->
    local id (S n) v s (calls ++ [CCommit m v]) (fst (commit oeq odef cl m v)) e
| lo_sync r n t s calls cl e e' : local id n t s calls cl e ->
    options_there (state calls) (get_options cl name) -> harmless id r n s (state calls) (get_options cl name) ->
    sync parse peq cap cl name r e = Some e' -> local id 0 t t calls cl e'
| lo_arcs n t s calls cl e e' : local id n t s calls cl e ->
    options_there (state calls) (get_options cl name) -> id_clear id (state calls) -> id_settled id s (state calls) (get_options cl name) ->
    resync_arcs parse peq cap cl name e = Some e' -> local id 0 t t calls cl e'.

Hypothesis DC : data_class R good.
Hypothesis PK : parse_ok parse peq (near R good).
Notation prel := (prel parse (near R good)).
Notation build := (build parse peq).
Notation target := (target parse peq).
Notation target_at := (target_at parse peq).
Notation base := (base oeq odef good name).
Notation sync := (sync parse peq cap).
Notation settled := (settled prel).

(** specification or proof device; models no code of its own *)
Definition inv_loc (id : pystr) (n : nat) (t s : Z) (calls : list (call O)) (cl : client O) (e : es P) : Prop :=
  base n t s calls cl /\ fresh e /\ sound s (live e) /\ settled id (live e) (target_at (committed (state calls)) (get_options cl name) s id).

(** what follows from [base] *)
Lemma base_hist n t s calls cl : base n t s calls cl -> forall id, committed (state calls) id = [] \/ hist_ok (committed (state calls) id).
Proof.
  intros (_ & Hc & Hs & _) id. destruct (wf_of_clock R good DC _ Hc Hs) as (b & HW).
  unfold committed. destruct (state calls id) as [r|] eqn:Er; [|left; reflexivity]. exact (arec_wf_hist_ok b r (HW id r Er)).
Qed.
Lemma base_shows n t s calls cl : base n t s calls cl -> shows_hist (near R good) (data cl name) (committed (state calls)) /\
  forall id, pending_id (data cl name) id <-> exists h p, state calls id = Some (AR h (Some p)).
Proof.
  intros (I1 & I2 & I2' & _). destruct (run_crel _ _ DC (proj name calls) 0 [] a_empty (crel_empty _ _ 0) I2 I2') as (c & b & Er & HC & _).
  pose proof (do_calls_run oeq odef calls _ _ name I1) as Er'. cbn [data empty_client] in Er'. rewrite Er' in Er. injection Er as <-.
  destruct (wf_of_clock R good DC _ I2 I2') as (b2 & HW). split; [exact (crel_shows_hist R good DC b (data cl name) _ HC (fun id r K => ex_intro _ b2 (HW id r K)))|].
  intro id. specialize (HC id). unfold pending_id. destruct (docs_of id (data cl name)) as [|d [|? ?]].
  - destruct (state calls id) as [[h [p|]]|]; try contradiction. split; [intros (d & K & _); discriminate|intros (h' & p & K); discriminate].
  - destruct (state calls id) as [[h [p|]]|] eqn:EA; try contradiction.
    + split; [intros _; exists h, p; reflexivity|]. intros _. exists d. split; [reflexivity|]. apply (rel_pend _ _ _ _ _ _ HC).
    + destruct (rel_comm _ _ _ _ _ HC) as (v & x & rest & _ & Ev' & _). split; [intros (d' & K & K'); injection K as <-; congruence|intros (h' & p & K); discriminate].
  - destruct (state calls id) as [[h [p|]]|]; contradiction.
Qed.
Lemma base_full n t s calls cl : base n t s calls cl -> options_there (state calls) (get_options cl name) -> base 0 t t calls cl /\
  forall id, target_at (committed (state calls)) (get_options cl name) t id = target (committed (state calls)) (get_options cl name) id.
Proof.
  intros (I1 & I2 & I2' & I3 & I3' & I4 & I5 & I6 & I7) Ho. split.
  - split; [exact I1|]. split; [exact I2|]. split; [exact I2'|]. split; [exact I3|]. split; [exact I3'|]. split; [exact I4|]. split; [lia|].
    split; [intros k Hk; split; [intros _; exact (I4 k Hk)|discriminate]|]. intros id Hid.
    assert (K : committed (state calls) id <> []) by (intro K; rewrite K in Hid; apply Hid; reflexivity). specialize (Ho id K).
    rewrite upto_all; [exact Ho|]. intros k Hk. apply I4. right. exact Hk.
  - intro id. symmetry. apply unchanged; intros k Hk; apply I4; [left; exists id|right]; exact Hk.
Qed.
Lemma open_at n t s calls cl id : base n t s calls cl ->
  some_open (target_at (committed (state calls)) (get_options cl name) s id) = true <-> exists x, in_force (committed (state calls) id) s x /\ x <> [].
Proof.
  intro B. pose proof (base_hist _ _ _ _ _ B id) as Hok. destruct B as (_ & _ & _ & _ & _ & _ & _ & _ & I7). unfold SyncColl.target_at.
  rewrite open_spec; [|destruct Hok as [->|Hh]; [left; reflexivity|exact (hist_ok_upto s _ Hh)]|exact (I7 id)|apply NoDup_upto, get_options_nodup].
  split; intros (x & Hx & Nx); exists x; (split; [|exact Nx]); [|exact (upto_now _ _ _ Hx)].
  destruct Hx as (v & H1 & H2). apply upto_In in H1. exists v. split; [apply H1|]. split; [apply H1|]. intros w y Hw Lw. apply (H2 w y), upto_In. auto.
Qed.
Lemma open_all n t s calls cl id : base n t s calls cl -> options_there (state calls) (get_options cl name) ->
  some_open (target (committed (state calls)) (get_options cl name) id) = true <-> exists x, now_data (committed (state calls) id) x /\ x <> [].
Proof. intros B Ho. apply open_spec; [exact (base_hist _ _ _ _ _ B id)|exact (Ho id)|apply get_options_nodup]. Qed.

Lemma loc_near id s (D : docs P) T : sound s D -> settled id D T -> near_id parse (near R good) s id D T.
Proof.
  intros [S1 _] [H1 H2]. split; [exact H2|]. split; [intros _; exact H1|]. intros d Hd. unfold lat_of in Hd. apply in_map_iff in Hd. destruct Hd as ([i y] & Ey & Hd). cbn in Ey. subst y.
  apply filter_In in Hd. destruct Hd as [Hd Ei]. apply str_eqb_eq in Ei. cbn in Ei. subst i. exact (S1 id d Hd).
Qed.
(** a record that is [calm] stays right *)
Lemma calm_right id r n t s calls cl (D D' : docs P) : base n t s calls cl -> options_there (state calls) (get_options cl name) ->
  calm id r n s (state calls) (get_options cl name) ->
  same_docs prel (lat_of id D) (filter is_open (target_at (committed (state calls)) (get_options cl name) s id)) ->
  next_any parse R good r s id D D' (target_at (committed (state calls)) (get_options cl name) s id) (target (committed (state calls)) (get_options cl name) id) ->
  settled id D' (target (committed (state calls)) (get_options cl name) id).
Proof.
  intros B Ho Hc L (N1 & N2 & N3). split; [|exact N1]. pose proof (open_at n t s calls cl id B) as On. pose proof (open_all n t s calls cl id B Ho) as Of.
  pose proof (base_hist _ _ _ _ _ B id) as Hok. set (A := state calls) in *. set (om := get_options cl name) in *.
  destruct (some_open (target (committed A) om id)) eqn:So; [exact (N2 eq_refl)|]. specialize (N3 eq_refl).
  assert (E1 : filter is_open (target (committed A) om id) = []) by (rewrite some_open_filter in So; destruct (filter is_open (target (committed A) om id)); [reflexivity|discriminate]).
  assert (Nil : lat_of id D' = [] -> same_docs prel (lat_of id D') (filter is_open (target (committed A) om id))).
  { intros ->. rewrite E1. exists []. split; constructor. }
  apply Nil. rewrite N3. destruct (some_open (target_at (committed A) om s id)) eqn:So0.
  2: { rewrite andb_false_r. cbn [andb]. apply (same_docs_nil parse R good) in L. apply L. rewrite some_open_filter in So0. destruct (filter is_open (target_at (committed A) om s id)); [reflexivity|discriminate]. }
  destruct r; cbn [negb andb calm] in *.
  - exfalso. assert (false = true) by (apply Of, Hc, On; reflexivity). discriminate.
  - destruct (begins_after s (target (committed A) om id)) eqn:Bg; [exfalso|reflexivity].
    unfold SyncColl.target, SyncColl.target_at, SyncSpec.record_docs in *.
    destruct (build (upto s (committed A id)) (upto s om)) as [rvs0|] eqn:B0; [|discriminate]. destruct (build (committed A id) om) as [rvs|] eqn:B1; [|discriminate].
    destruct Hok as [K|Hh]; [unfold Index.build in B1; rewrite K in B1; discriminate|].
    destruct (build_upto parse peq _ _ _ _ _ Hh B0 B1) as (X1 & X2 & _).
    pose proof (stale_risky s id rvs0 rvs X1 X2 So0 So Bg) as Hr.
    destruct Hc as [Hn|Hn]; [|exact (Hn (risky_spec oeq odef parse peq _ _ _ _ _ Hh B0 B1 Hr))].
    revert Hr. apply (one_version_safe parse peq (committed A id) om s rvs0 rvs t Hh B0 B1). intros k Hk Lk.
    destruct B as (_ & _ & _ & _ & _ & _ & _ & I6 & _). destruct (I6 k) as [J0 J1]; [destruct Hk; [right|left; exists id]; assumption|].
    destruct n as [|[|n]]; [specialize (J0 eq_refl); lia|destruct (J1 eq_refl); [lia|assumption]|lia].
Qed.

Lemma sound_delete s (e : es P) : sound s (live e) -> sound s (live (delete_arcs e)).
Proof. intros [S1 _]. split; [exact S1|]. intros k d []. Qed.

(** What a sync does to every record: its documents stay as they are if changes to it are pending, they become what they should be
    if it has no pending changes and they were right at the last sync. *)
Lemma base_sync r n t s calls cl e : base n t s calls cl -> fresh e -> sound s (live e) -> options_there (state calls) (get_options cl name) ->
  exists e', sync cl name r e = Some e' /\ fresh e' /\ sound t (live e') /\
    (r = false -> forall id, ~ id_clear id (state calls) -> lat_of id (live e') = lat_of id (live e) /\ arc_of id (live e') = arc_of id (live e)) /\
    (forall id, id_clear id (state calls) \/ r = false /\ id_settled id s (state calls) (get_options cl name) ->
      near_id parse (near R good) s id (live e) (target_at (committed (state calls)) (get_options cl name) s id) ->
      next_any parse R good r s id (live e) (live e') (target_at (committed (state calls)) (get_options cl name) s id) (target (committed (state calls)) (get_options cl name) id)).
Proof.
  intros B Fr Sd Ho. pose proof (base_hist _ _ _ _ _ B) as Hok. destruct (base_shows _ _ _ _ _ B) as [HS HP].
  destruct B as (I1 & I2 & I2' & I3 & I3' & I4 & I5 & I6 & I7). set (A := state calls) in *. set (om := get_options cl name) in *.
  assert (Hk : forall id k, In k (zkeys (committed A id)) \/ In k (zkeys om) -> k <= t).
  { intros id k [K|K]; apply I4; [left; exists id|right]; exact K. }
  destruct r.
  - destruct (all_step parse peq (near R good) PK (committed A) om Hok Ho cap (data cl name) HS) as (recs & st & ops & Er & Eo & Hs & Hn).
    rewrite resync_eq. unfold all_ops. rewrite Er. fold om. rewrite Eo. destruct (has_data (data cl name)) eqn:Hd.
    + exists (write_ops ops (delete_arcs e)). split; [reflexivity|]. split; [apply write_fresh, fresh_delete_arcs, Fr|].
      split; [rewrite write_live_docs; apply sound_apply; [exact (Hs t Hk)|apply sound_delete, (sound_mono s t _ I5 Sd)]|].
      split; [discriminate|]. intros id [Hc|[K _]] HD; [|discriminate].
      assert (Hnp : ~ pending_id (data cl name) id) by (intro K; apply HP in K; destruct K as (h & p & K); exact (Hc h p K)).
      destruct (Hn s id (live (delete_arcs e)) Hnp eq_refl) as (N1 & N2 & N3). rewrite <- write_live_docs in N1, N2, N3. split; [exact N1|]. split; [exact N2|]. exact N3.
    + exists e. split; [reflexivity|]. split; [exact Fr|]. split; [exact (sound_mono s t _ I5 Sd)|]. split; [discriminate|]. intros id [Hc|[K _]] (D1 & D2 & _); [|discriminate].
      assert (Z0 : committed A id = []).
      { pose proof (HS id) as Hid. destruct (docs_of id (data cl name)) as [|d [|? ?]] eqn:Ed; [exact Hid| |contradiction].
        destruct (d_ver d) as [v|] eqn:Ev.
        - exfalso. assert (K : In d (docs_of id (data cl name))) by (rewrite Ed; left; reflexivity). apply filter_In in K.
          assert (has_data (data cl name) = true) by (apply existsb_exists; exists d; rewrite Ev; split; [apply K|reflexivity]). congruence.
        - exfalso. destruct (proj1 (HP id)) as (h & p & K); [exists d; auto|]. exact (Hc h p K). }
      unfold SyncColl.target_at in D1, D2. unfold next_any, SyncColl.target. rewrite Z0 in *. cbn in D1 |- *. split; [exact D1|]. split; [discriminate|reflexivity].
  - destruct (sync_step_any parse peq (near R good) PK (committed A) om Hok s Ho I7 cap (data cl name) (get_committed_version cl name) e HS Fr Sd) as (e' & E & F & S' & D1).
    + intros v d Hd Hv. destruct (get_committed_version cl name) as [m|] eqn:Em.
      * exists m. split; [reflexivity|]. apply gcv_spec in Em. apply Em. left. exists d. auto.
      * exfalso. assert (Hh : has_data (data cl name) = true) by (apply existsb_exists; exists d; rewrite Hv; auto). exact (gcv_of_data cl name Hh Em).
    + intros v m Hv Em. apply gcv_spec in Em. apply Em. right. apply (proj1 (get_options_versions oeq odef _ _ _)), Hv.
    + exists e'. split; [exact E|]. split; [exact F|]. split; [exact (S' t I5 Hk)|]. split.
      * intros _ id Hp. apply (pending_idle parse peq (near R good) (committed A) om cap (data cl name) (get_committed_version cl name) e e' id E HS). apply HP.
        destruct (A id) as [[h [p|]]|] eqn:EA; [exists h, p; reflexivity| |]; exfalso; apply Hp; intros h' p' K; congruence.
      * intros id Hc HD. apply (D1 id HD). intro K. apply HP in K. destruct K as (h & p & K). destruct Hc as [Hc|[_ Hc]]; [destruct (Hc h p K)|].
        split; intros k Hk'; apply Hc; auto.
Qed.

Lemma loc_sync id r n t s calls cl e : inv_loc id n t s calls cl e -> options_there (state calls) (get_options cl name) ->
  harmless id r n s (state calls) (get_options cl name) ->
  exists e', sync cl name r e = Some e' /\ inv_loc id 0 t t calls cl e' /\ settled id (live e') (target (committed (state calls)) (get_options cl name) id).
Proof.
  intros (B & Fr & Sd & St) Ho (Hc & Hm). destruct (base_full _ _ _ _ _ B Ho) as [B' Et].
  destruct (base_sync r n t s calls cl e B Fr Sd Ho) as (e' & E & F & S' & _ & N). exists e'. split; [exact E|].
  pose proof (calm_right id r n t s calls cl _ _ B Ho Hm (proj1 St) (N id Hc (loc_near id s _ _ Sd St))) as K.
  split; [|exact K]. split; [exact B'|]. split; [exact F|]. split; [exact S'|]. rewrite Et. exact K.
Qed.
Lemma loc_arcs id n t s calls cl e e' : inv_loc id n t s calls cl e -> options_there (state calls) (get_options cl name) ->
  id_clear id (state calls) -> id_settled id s (state calls) (get_options cl name) ->
  resync_arcs parse peq cap cl name e = Some e' -> inv_loc id 0 t t calls cl e'.
Proof.
  intros (B & Fr & Sd & St) Ho Hc Hs H. destruct (base_full _ _ _ _ _ B Ho) as [B' Et]. pose proof (base_hist _ _ _ _ _ B) as Hok. destruct (base_shows _ _ _ _ _ B) as [HS HP].
  destruct B as (I1 & I2 & I2' & I3 & I3' & I4 & I5 & I6 & I7). set (A := state calls) in *. set (om := get_options cl name) in *.
  destruct (all_step parse peq (near R good) PK (committed A) om Hok Ho cap (data cl name) HS) as (recs & st & ops & Er & Eo & Hsd & Hn).
  rewrite resync_arcs_eq in H. unfold all_ops in H. rewrite Er in H. fold om in H. rewrite Eo in H. injection H as <-.
  assert (Hnp : ~ pending_id (data cl name) id) by (intro K; apply HP in K; destruct K as (h & p & K); exact (Hc h p K)).
  destruct (Hn s id (live (delete_arcs e)) Hnp eq_refl) as (N1 & _ & _).
  split; [exact B'|]. split; [apply write_fresh, fresh_delete_arcs, Fr|]. split.
  { rewrite write_live_docs. apply sound_apply; [|apply sound_delete, (sound_mono s t _ I5 Sd)]. assert (K : Forall (op_sound t) ops).
    { apply Hsd. intros i k [K|K]; apply I4; [left; exists i|right]; exact K. }
    apply Forall_forall. intros o Hin. apply filter_In in Hin. rewrite Forall_forall in K. apply K, Hin. }
  rewrite Et, write_live_docs. split.
  - assert (L : lat_of id (apply_bops (live (delete_arcs e)) (filter is_arc_op ops)) = lat_of id (live e)).
    { rewrite lat_of_apply. change (lat_of id (live (delete_arcs e))) with (lat_of id (live e)). generalize (lat_of id (live e)) as l. clear.
      unfold lat_run, of_id. induction ops as [|o ops IH]; intro l; [reflexivity|]. cbn [filter]. destruct (is_arc_op o) eqn:Eo; [|apply IH]. cbn [filter].
      destruct (str_eqb (bop_id o) id); [|apply IH]. cbn [fold_left]. destruct o; try discriminate. cbn [lat_eff]. apply IH. }
    rewrite L. rewrite (unchanged parse peq (committed A) om id s) by (intros k Hk; apply Hs; auto). apply St.
  - rewrite (arc_of_eq id _ (apply_bops (live (delete_arcs e)) ops)); [exact N1|]. rewrite !arc_apply. f_equal.
    clear. induction ops as [|o ops IH]; [reflexivity|]. cbn [filter flat_map]. destruct o; cbn [is_arc_op flat_map arc_pair app]; rewrite IH; reflexivity.
Qed.
Lemma loc_call id n n' t t' s calls cl e c cl' : inv_loc id n t s calls cl e ->
  do_call oeq odef cl c = Some cl' -> Forall (step_ok good) (proj_call name c) -> t <= t' ->
  (forall m v, c = CCommit m v -> t < v /\ v = t' /\ n' = S n) -> ((forall m v, c <> CCommit m v) -> n' = n /\ t' = t) ->
  inv_loc id n' t' s (calls ++ [c]) cl' e.
Proof.
  intros (B & Fr & Sd & St) H Hs Ht Hc Hnc. destruct (base_call oeq odef good name n n' t t' s calls cl c cl' B H Hs Ht Hc Hnc) as (B' & Hup & Eo).
  split; [exact B'|]. split; [exact Fr|]. split; [exact Sd|]. unfold SyncColl.target_at in *. rewrite Hup, Eo. exact St.
Qed.
Theorem local_inv id n t s calls cl e : local id n t s calls cl e -> inv_loc id n t s calls cl e.
Proof.
  induction 1 as [|n t s calls cl e c cl' _ IH Hnc Hs H|n t s calls cl e m v _ IH Hv|r n t s calls cl e e' _ IH Ho Ha H|n t s calls cl e e' _ IH Ho Hc Hs H].
  - pose proof (proj1 (inv_base oeq odef parse peq R good name _ _ _ _ _ _) (inv_start oeq odef parse peq R good name)) as (B & F & D).
    split; [exact B|]. split; [exact F|]. split; [split; intros ? ? []|exact (D id)].
  - apply (loc_call id n n t t s calls cl e c cl' IH H Hs); [lia| |auto]. intros m v K. exfalso. exact (Hnc m v K).
  - apply (loc_call id n (S n) t v s calls cl e (CCommit m v) _ IH); [reflexivity| |lia| |].
    + unfold proj_call. destruct (str_eqb _ _); repeat constructor.
    + intros m' v' K. injection K as <- <-. auto.
    + intro K. exfalso. exact (K m v eq_refl).
  - destruct (loc_sync id r n t s calls cl e IH Ho Ha) as (e2 & E & K & _). rewrite H in E. injection E as <-. exact K.
  - exact (loc_arcs id n t s calls cl e e' IH Ho Hc Hs H).
Qed.
End Hist.
