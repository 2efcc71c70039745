(** Histories of calls, syncs and resyncs of one database. *)
From Coq Require Import List ZArith NArith Bool Lia Sorted Permutation.
From Verif Require Import PyVal Diff DiffProofs Prepare Mongo Store MongoProofs MongoStore MongoMore PropsMongo Client ClientProofs.
From Verif Require Import Index IndexSpec IndexProofs PropsIndex Sync SyncSpec SyncProofs SyncBuild SyncColl SyncTrace SyncView SyncMore SyncArcs SyncEvents.
Import ListNotations.
Open Scope Z_scope.

Definition no_pending (A : astate) : Prop := forall id h p, A id <> Some (AR h (Some p)).
(** Every record that had data at [s] has data now. *)
Definition survive (s : Z) (A : astate) : Prop :=
  forall id, (exists x, in_force (committed A id) s x /\ x <> []) -> exists x, now_data (committed A id) x /\ x <> [].

Section Reach.
Context {O P : Type} (oeq : O -> O -> bool) (odef : O) (parse : dict -> O -> P) (peq : P -> P -> bool).
Variable R : value -> value -> Prop.
Variable good : dict -> Prop.
Variable cap : N.
Variable name : pystr.

(** [reaches allowed n t s calls cl e]: the calls [calls] on a new client and some syncs and resyncs of
    the database [name] in between lead to [cl] and [e]; the newest commit is at [t], the newest one at
    the time of the last sync was [s], [n] commits came after it. Every commit reads a later time than
    those before; the ingests are admissible (equal ids only within one batch); each sync happened in a
    state [allowed]. Resyncs with [sync(resync=True)] happen while nothing is pending and no record was
    deleted since the last sync, [resync_arcs] while everything is synced (C46, C47 say why). *)
Inductive reaches (allowed : nat -> Z -> astate -> list (Z * O) -> Prop) : nat -> Z -> Z -> list (call O) -> client O -> es P -> Prop :=
| at_start : reaches allowed 0 0 0 [] empty_client empty_es
| at_call n t s calls cl e c cl' : reaches allowed n t s calls cl e ->
    (forall m v, c <> CCommit m v) -> Forall (step_ok good) (proj_call name c) ->
    do_call oeq odef cl c = Some cl' -> reaches allowed n t s (calls ++ [c]) cl' e
| at_commit n t s calls cl e m v : reaches allowed n t s calls cl e -> t < v ->
    reaches allowed (S n) v s (calls ++ [CCommit m v]) (fst (commit oeq odef cl m v)) e
| at_sync n t s calls cl e e' : reaches allowed n t s calls cl e ->
    allowed n s (a_run a_empty (proj name calls)) (get_options cl name) ->
    sync parse peq cap cl name false e = Some e' -> reaches allowed 0 t t calls cl e'
| at_resync n t s calls cl e e' : reaches allowed n t s calls cl e ->
    options_there (a_run a_empty (proj name calls)) (get_options cl name) -> no_pending (a_run a_empty (proj name calls)) ->
    survive s (a_run a_empty (proj name calls)) ->
    sync parse peq cap cl name true e = Some e' -> reaches allowed 0 t t calls cl e'
| at_arcs t s calls cl e e' : reaches allowed 0 t s calls cl e ->
    options_there (a_run a_empty (proj name calls)) (get_options cl name) -> no_pending (a_run a_empty (proj name calls)) ->
    resync_arcs parse peq cap cl name e = Some e' -> reaches allowed 0 t s calls cl e'.

Lemma reaches_mono (a1 a2 : nat -> Z -> astate -> list (Z * O) -> Prop) n t s calls cl e : (forall n s A om, a1 n s A om -> a2 n s A om) ->
  reaches a1 n t s calls cl e -> reaches a2 n t s calls cl e.
Proof. intros H. induction 1; [constructor|eapply at_call; eauto|eapply at_commit; eauto|eapply at_sync; eauto|eapply at_resync; eauto|eapply at_arcs; eauto]. Qed.

Hypothesis DC : data_class R good.
Hypothesis PK : parse_ok parse peq (near R good).
Notation prel := (prel parse (near R good)).
Notation build := (build parse peq).
Notation target := (target parse peq).
Notation target_at := (target_at parse peq).
Notation inv := (inv oeq odef parse peq R good name).
Notation sync := (sync parse peq cap).
Notation state calls := (a_run a_empty (proj name calls)).

Lemma no_pending_settled s (A : astate) (om : list (Z * O)) : no_pending A -> pending_settled s A om.
Proof. intros H id h p K. exfalso. exact (H id h p K). Qed.
Lemma versions_positive n t s calls cl (e : es P) : inv n t s calls cl e ->
  forall id k, In k (zkeys (committed (state calls) id)) -> 0 < k.
Proof.
  intros (_ & H & _). revert H. generalize (proj name calls) as ss. intros ss Hc id k.
  assert (G : forall ss b A, clock_increasing b ss -> 0 <= b -> (forall k, In k (zkeys (committed A id)) -> 0 < k) -> forall k, In k (zkeys (committed (a_run A ss) id)) -> 0 < k).
  { clear. induction ss as [|st ss IH]; intros b A Hc Hb HA k Hk; [exact (HA k Hk)|]. cbn [a_run fold_left] in Hk. fold (a_run (a_step A st) ss) in Hk.
    assert (K : exists b', 0 <= b' /\ clock_increasing b' ss /\ forall v, st = SCommit v -> 0 < v).
    { destruct st as [mf recs|v|]; cbn in Hc; [exists b|exists v|exists b]; (split; [lia|]); (split; [tauto|]); try discriminate. intros w Kw. injection Kw as <-. lia. }
    destruct K as (b' & B1 & B2 & B3). apply (IH b' (a_step A st) B2 B1); [|exact Hk]. intros j Hj. destruct (a_step_keys A st id j Hj) as [Q|Q]; [exact (HA j Q)|exact (B3 j Q)]. }
  apply (G ss 0 a_empty Hc); [lia|]. intros j [].
Qed.
Lemma hist_state n t s calls cl (e : es P) : inv n t s calls cl e ->
  forall id, committed (state calls) id = [] \/ hist_ok (committed (state calls) id).
Proof.
  intros (_ & Hc & Hs & _) id. destruct (wf_of_clock R good DC _ Hc Hs) as (b & HW).
  unfold committed. destruct (state calls id) as [r|] eqn:Er; [|left; reflexivity]. exact (arec_wf_hist_ok b r (HW id r Er)).
Qed.
(** the same calls without any sync *)
Lemma inv_forget n t s calls cl (e : es P) : inv n t s calls cl e -> inv 2 t 0 calls cl empty_es.
Proof.
  intro I. pose proof (versions_positive _ _ _ _ _ _ I) as Pos. destruct I as (I1 & I2 & I2' & I3 & I3' & I4 & I5 & I6 & I7 & I8 & I9).
  assert (U : forall id, upto 0 (committed (state calls) id) = []).
  { intro id. specialize (Pos id). unfold upto. induction (committed (state calls) id) as [|[k x] l IH]; [reflexivity|]. cbn [filter fst].
    pose proof (Pos k (or_introl eq_refl)). destruct (Z.leb_spec k 0); [lia|]. apply IH. intros j Hj. apply Pos. right. exact Hj. }
  unfold SyncTrace.inv. split; [exact I1|]. split; [exact I2|]. split; [exact I2'|]. split; [exact I3|]. split; [exact I3'|]. split; [exact I4|]. split; [lia|].
  split; [intros; split; discriminate|]. split; [intros id K; rewrite U in K; congruence|]. split; [apply fresh_empty|].
  intro id. unfold SyncColl.target_at. rewrite U. cbn. split; exists []; split; constructor.
Qed.
Lemma inv_scratch n t s calls cl (e : es P) : inv n t s calls cl e -> options_there (state calls) (get_options cl name) -> no_pending (state calls) ->
  exists e0, sync cl name false empty_es = Some e0 /\ inv 0 t t calls cl e0 /\ holds prel (live e0) (target (committed (state calls)) (get_options cl name)).
Proof.
  intros I Ho Hp. pose proof (versions_positive _ _ _ _ _ _ I) as Pos.
  apply (inv_sync oeq odef parse peq R good cap name DC PK 2 t 0 calls cl empty_es (inv_forget _ _ _ _ _ _ I)).
  split; [exact Ho|]. split; [apply no_pending_settled, Hp|]. right. intros id ((x & (v & Hv & L & _) & _) & _).
  specialize (Pos id v ltac:(apply (in_map fst) in Hv; exact Hv)). lia.
Qed.

Lemma same_docs_nil (l m : list (esdoc P)) : same_docs prel l m -> (l = [] <-> m = []).
Proof.
  intros (l' & Hp & Hf). split; intros ->.
  - apply Permutation_nil in Hp. subst l'. inversion Hf. reflexivity.
  - inversion Hf; subst. apply Permutation_sym, Permutation_nil in Hp. exact Hp.
Qed.
Lemma now_upto (h : list (Z * dict)) s x : now_data (upto s h) x -> in_force h s x.
Proof.
  intros (v & H1 & H2). apply upto_In in H1. exists v. split; [apply H1|]. split; [apply H1|]. intros w y Hw L. apply (H2 w y). apply upto_In. auto.
Qed.
Lemma nodup_upto {V} (m : list (Z * V)) s : NoDup (map fst m) -> NoDup (map fst (upto s m)).
Proof.
  induction m as [|[k x] m IH]; intro H; [constructor|]. inversion H as [|? ? H1 H2]; subst. unfold upto. cbn [filter fst]. destruct (k <=? s); [|apply IH, H2].
  cbn [map fst]. constructor; [|apply IH, H2]. intro K. apply H1. apply in_map_iff in K. destruct K as ([j y] & E & K). cbn in E. subst j. apply filter_In in K. destruct K as [K _]. apply (in_map fst) in K. exact K.
Qed.
Lemma inv_indexed n t s calls cl (e : es P) : inv n t s calls cl e ->
  forall id, record_indexed parse peq prel (live e) id (upto s (committed (state calls) id)) (upto s (get_options cl name)).
Proof.
  intros I id. pose proof (hist_state _ _ _ _ _ _ I id) as Hh. destruct I as (I1 & I2 & I2' & I3 & I3' & I4 & I5 & I6 & I7 & I8 & I9).
  eapply holds_indexed; [exact I9|reflexivity| |exact (I7 id)|apply nodup_upto, get_options_nodup].
  destruct Hh as [->|Hh]; [left; reflexivity|]. apply hist_ok_upto, Hh.
Qed.
Lemma target_of_inv n t s calls cl (e : es P) : inv n t s calls cl e -> (forall k, (exists id, In k (zkeys (committed (state calls) id))) \/ In k (zkeys (get_options cl name)) -> k <= s) ->
  forall id, target_at (committed (state calls)) (get_options cl name) s id = target (committed (state calls)) (get_options cl name) id.
Proof.
  intros _ K id. symmetry. apply unchanged; intros k Hk; apply K; [left; exists id; exact Hk|right; exact Hk].
Qed.
Lemma arc_of_eq id (D D' : docs P) : arc D = arc D' -> arc_of id D = arc_of id D'.
Proof. intro H. unfold arc_of. rewrite H. reflexivity. Qed.

(** [sync(resync=True)] when no record was deleted since the last sync *)
Lemma inv_resync n t s calls cl e : inv n t s calls cl e -> options_there (state calls) (get_options cl name) -> no_pending (state calls) -> survive s (state calls) ->
  exists e', sync cl name true e = Some e' /\ inv 0 t t calls cl e' /\ holds prel (live e') (target (committed (state calls)) (get_options cl name)).
Proof.
  intros I Ho Hp Hs. destruct (inv_scratch n t s calls cl e I Ho Hp) as (e0 & E0 & I0 & D0).
  pose proof (inv_indexed _ _ _ _ _ _ I) as RI. pose proof (inv_indexed _ _ _ _ _ _ I0) as RI0.
  rewrite sync_scratch in E0. rewrite resync_eq. destruct (all_ops parse peq cap cl name) as [ops|] eqn:Ea; [|discriminate].
  destruct I as (I1 & I2 & I2' & I3 & I3' & I4 & I5 & I6 & I7 & I8 & I9).
  destruct (has_data (data cl name)) eqn:Hd; injection E0 as <-.
  - exists (write_ops ops (delete_arcs e)). split; [reflexivity|].
    assert (F : fresh (write_ops ops (delete_arcs e))) by apply write_fresh, fresh_delete_arcs, I8.
    assert (L : forall id, lat_of id (live (write_ops ops (delete_arcs e))) = lat_of id (live (write_ops ops empty_es))).
    { intro id. assert (K : lat_of id (live (write_ops ops (delete_arcs e))) = match lat_of id (live (write_ops ops empty_es)) with [] => lat_of id (live e) | x => x end).
      { rewrite !write_live_docs, !lat_of_apply. apply (lat_run_over (of_id id ops)). intros o i Hi. apply filter_In in Hi. exact (all_ops_no_delete parse peq cap cl name ops Ea o i (proj1 Hi)). }
      rewrite K. destruct (lat_of id (live (write_ops ops empty_es))) as [|d l] eqn:El; [|reflexivity].
      destruct (RI id) as (_ & _ & _ & _ & _ & _ & _ & K8). apply K8. intros x Hx. apply now_upto in Hx. destruct x as [|kv x]; [reflexivity|]. exfalso.
      assert (Nx : kv :: x <> []) by discriminate. destruct (Hs id (ex_intro _ (kv :: x) (conj Hx Nx))) as (y & Hy & Ny).
      destruct (RI0 id) as (_ & _ & _ & _ & _ & _ & K7 & _). destruct K7 as (d & Ed); [|rewrite El in Ed; discriminate]. exists y. split; [|exact Ny].
      rewrite upto_all; [exact Hy|]. intros k Hk. apply I4. left. exists id. exact Hk. }
    assert (D : holds prel (live (write_ops ops (delete_arcs e))) (target (committed (state calls)) (get_options cl name))).
    { intro id. rewrite L. rewrite (arc_of_eq id (live (write_ops ops (delete_arcs e))) (live (write_ops ops empty_es))) by (rewrite !write_live_docs, !arc_apply; reflexivity). apply D0. }
    split; [|exact D]. destruct I0 as (_ & _ & _ & _ & _ & _ & _ & J6 & J7 & _ & J9).
    unfold SyncTrace.inv. split; [exact I1|]. split; [exact I2|]. split; [exact I2'|]. split; [exact I3|]. split; [exact I3'|]. split; [exact I4|]. split; [lia|].
    split; [exact J6|]. split; [exact J7|]. split; [exact F|]. intro id. unfold SyncColl.target_at. rewrite !upto_all; [apply D| |]; intros k Hk; apply I4; [right|left; exists id]; exact Hk.
  - exists e. split; [reflexivity|].
    assert (Z0 : forall id, committed (state calls) id = []).
    { intro id. destruct (D0 id) as [D1 D2]. apply same_docs_nil in D1, D2. pose proof (proj1 D1 eq_refl) as Q1. pose proof (proj1 D2 eq_refl) as Q2.
      pose proof (open_closed_perm (target (committed (state calls)) (get_options cl name) id)) as Q. rewrite Q1, Q2 in Q. apply Permutation_nil in Q.
      destruct (hist_state _ _ _ _ _ _ I0 id) as [H|H]; [exact H|exfalso].
      assert (Hne : committed (state calls) id <> []) by (destruct H as (_ & x & (v & Hv & _) & _); intro K; rewrite K in Hv; contradiction).
      destruct (C23_documents_cover_life parse peq _ _ id H (Ho id Hne)) as (rvs & Eb & _). pose proof (build_nonempty parse peq _ _ rvs H Eb) as N.
      unfold SyncColl.target, SyncSpec.record_docs in Q. rewrite Eb in Q. destruct rvs; [congruence|discriminate]. }
    assert (D : holds prel (live e) (target (committed (state calls)) (get_options cl name))).
    { intro id. unfold SyncColl.target. rewrite Z0. specialize (I9 id). unfold SyncColl.target_at in I9. rewrite Z0 in I9. exact I9. }
    split; [|exact D]. destruct I0 as (_ & _ & _ & _ & _ & _ & _ & J6 & J7 & _ & J9).
    unfold SyncTrace.inv. split; [exact I1|]. split; [exact I2|]. split; [exact I2'|]. split; [exact I3|]. split; [exact I3'|]. split; [exact I4|]. split; [lia|].
    split; [exact J6|]. split; [exact J7|]. split; [exact I8|]. intro id. unfold SyncColl.target_at. rewrite !upto_all; [apply D| |]; intros k Hk; apply I4; [right|left; exists id]; exact Hk.
Qed.
(** [resync_arcs] when everything is synced *)
Lemma inv_resync_arcs t s calls cl e e' : inv 0 t s calls cl e -> options_there (state calls) (get_options cl name) -> no_pending (state calls) ->
  resync_arcs parse peq cap cl name e = Some e' -> inv 0 t s calls cl e'.
Proof.
  intros I Ho Hp. destruct (inv_scratch 0 t s calls cl e I Ho Hp) as (e0 & E0 & I0 & D0).
  rewrite sync_scratch in E0. rewrite resync_arcs_eq. destruct (all_ops parse peq cap cl name) as [ops|] eqn:Ea; [|discriminate]. intro H. injection H as <-.
  destruct I as (I1 & I2 & I2' & I3 & I3' & I4 & I5 & I6 & I7 & I8 & I9).
  assert (Ets : forall id, target_at (committed (state calls)) (get_options cl name) s id = target (committed (state calls)) (get_options cl name) id).
  { apply (target_of_inv 0 t s calls cl e); [repeat (split; [assumption|]); assumption|]. intros k Hk. apply (I6 k Hk). reflexivity. }
  unfold SyncTrace.inv. split; [exact I1|]. split; [exact I2|]. split; [exact I2'|]. split; [exact I3|]. split; [exact I3'|]. split; [exact I4|]. split; [exact I5|].
  split; [exact I6|]. split; [exact I7|]. split; [apply write_fresh, fresh_delete_arcs, I8|].
  assert (Fo : filter is_arc_op ops = [] \/ has_data (data cl name) = true).
  { destruct (has_data (data cl name)) eqn:Hd; [right; reflexivity|left]. unfold all_ops in Ea. rewrite (find_all_none _ Hd) in Ea. cbn in Ea. injection Ea as <-. reflexivity. }
  assert (Ar : arc (live e0) = flat_map arc_pair ops).
  { destruct (has_data (data cl name)) eqn:Hd; injection E0 as <-; [rewrite write_live_docs, arc_apply; reflexivity|]. unfold all_ops in Ea. rewrite (find_all_none _ Hd) in Ea. cbn in Ea. injection Ea as <-. reflexivity. }
  intro id. rewrite Ets. rewrite write_live_docs, lat_of_apply.
  assert (Lr : forall l, lat_run l (of_id id (filter is_arc_op ops)) = l).
  { clear. intro l. revert l. unfold lat_run, of_id. induction ops as [|o ops IH]; intro l; [reflexivity|]. cbn [filter]. destruct (is_arc_op o) eqn:Eo; [|apply IH]. cbn [filter].
    destruct (str_eqb (bop_id o) id); [|apply IH]. cbn [fold_left]. destruct o; try discriminate. cbn [lat_eff]. apply IH. }
  rewrite Lr. split.
  - change (lat_of id (live (delete_arcs e))) with (lat_of id (live e)). specialize (I9 id). rewrite Ets in I9. apply I9.
  - rewrite (arc_of_eq id _ (live e0)); [apply D0|]. rewrite arc_apply, Ar. cbn [delete_arcs live arc app].
    clear. induction ops as [|o ops IH]; [reflexivity|]. cbn [filter flat_map]. destruct o; cbn [is_arc_op flat_map arc_pair app]; rewrite IH; reflexivity.
Qed.

Theorem reaches_inv n t s calls cl e : reaches allowed_ok n t s calls cl e -> inv n t s calls cl e.
Proof.
  induction 1 as [|n t s calls cl e c cl' _ IH Hnc Hs H|n t s calls cl e m v _ IH Hv|n t s calls cl e e' _ IH Ha H|n t s calls cl e e' _ IH Ho Hp Hs H|t s calls cl e e' _ IH Ho Hp H].
  - apply inv_start.
  - apply (inv_any_call oeq odef parse peq R good name n n t t s calls cl e c cl' IH H Hs); [lia| |auto]. intros m v K. exfalso. exact (Hnc m v K).
  - apply (inv_any_call oeq odef parse peq R good name n (S n) t v s calls cl e (CCommit m v) _ IH); [reflexivity| |lia| |].
    + unfold proj_call. destruct (str_eqb _ _); repeat constructor.
    + intros m' v' K. injection K as <- <-. auto.
    + intro K. exfalso. exact (K m v eq_refl).
  - destruct (inv_sync oeq odef parse peq R good cap name DC PK n t s calls cl e IH Ha) as (e2 & E & K & _). rewrite H in E. injection E as <-. exact K.
  - destruct (inv_resync n t s calls cl e IH Ho Hp Hs) as (e2 & E & K & _). rewrite H in E. injection E as <-. exact K.
  - exact (inv_resync_arcs t s calls cl e e' IH Ho Hp H).
Qed.
End Reach.
