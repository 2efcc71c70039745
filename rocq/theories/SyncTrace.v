(** Synchronisations along a history of calls: the documents in Elasticsearch after each sync. *)
From Coq Require Import List ZArith NArith Bool Lia Sorted Permutation.
From Verif Require Import PyVal Diff DiffProofs Prepare Mongo Store MongoProofs MongoStore MongoMore PropsMongo Client ClientProofs.
From Verif Require Import Index IndexSpec IndexProofs PropsIndex Sync SyncSpec SyncProofs SyncBuild SyncColl.
Import ListNotations.
Open Scope Z_scope.

(** ** Visible documents are the live ones, in some order *)
Lemma filters_perm {A} (l : list (N * A)) : forall m,
  (forall n, filter (fun nx => N.eqb (fst nx) n) l = filter (fun nx => N.eqb (fst nx) n) m) -> Permutation l m.
Proof.
  induction l as [|[n x] l IH]; intros m H.
  - destruct m as [|[k y] m]; [constructor|]. specialize (H k). cbn in H. rewrite N.eqb_refl in H. discriminate.
  - assert (G : exists m1 m2, m = m1 ++ (n, x) :: m2 /\ filter (fun nx => N.eqb (fst nx) n) m1 = []).
    { specialize (H n). cbn [filter fst] in H. rewrite N.eqb_refl in H. clear IH. revert H. generalize (filter (fun nx : N * A => N.eqb (fst nx) n) l) as t.
      induction m as [|[k y] m IHm]; intros t Ht; [discriminate|]. cbn [filter fst] in Ht. destruct (N.eqb_spec k n) as [->|Hk].
      - injection Ht as <- _. exists [], m. split; reflexivity.
      - destruct (IHm t Ht) as (m1 & m2 & -> & E). exists ((k, y) :: m1), m2. split; [reflexivity|]. cbn.
        destruct (N.eqb_spec k n); [contradiction|exact E]. }
    destruct G as (m1 & m2 & -> & E). apply Permutation_cons_app, IH. intro k. specialize (H k).
    rewrite filter_app in H |- *. cbn [filter fst] in H. destruct (N.eqb_spec n k) as [->|Hk]; [|exact H].
    rewrite E in H |- *. cbn [app] in H |- *. injection H as H. exact H.
Qed.
Lemma fresh_arc_perm {P} (e : es P) : fresh e -> Permutation (arc (vis e)) (arc (live e)).
Proof. intros [_ H]. apply filters_perm, H. Qed.
Lemma perm_filter {A} (f : A -> bool) l m : Permutation l m -> Permutation (filter f l) (filter f m).
Proof.
  induction 1; cbn.
  - constructor.
  - destruct (f x); [constructor|]; assumption.
  - destruct (f x), (f y); try constructor; apply Permutation_refl.
  - eapply Permutation_trans; eassumption.
Qed.
Lemma fresh_holds {P} (E : P -> P -> Prop) e T : fresh e -> holds E (live e) T -> holds E (vis e) T.
Proof.
  intros He H id. destruct (H id) as [H1 (l' & P1 & F1)]. split.
  - unfold lat_of in *. destruct He as [-> _]. exact H1.
  - exists l'. split; [|exact F1]. eapply Permutation_trans; [|exact P1].
    unfold arc_of. apply perm_filter, Permutation_map, fresh_arc_perm, He.
Qed.

Lemma F2_flip {A B} (Q : A -> B -> Prop) l m : Forall2 Q l m -> Forall2 (fun y x => Q x y) m l.
Proof. induction 1; constructor; assumption. Qed.

(** Same documents per record in latest and in the arcs. *)
Definition same_content {P} (E : P -> P -> Prop) (D D' : docs P) : Prop :=
  forall id, same_docs E (lat_of id D) (lat_of id D') /\ same_docs E (arc_of id D) (arc_of id D').

Lemma same_docs_join {P} (E E' : P -> P -> Prop) l l0 T : (forall p q r, E' p r -> E' q r -> E p q) ->
  same_docs E' l T -> same_docs E' l0 T -> same_docs E l l0.
Proof.
  intros HE (l' & P1 & F1) (l0' & P2 & F2).
  assert (F : Forall2 (deq E) l' l0').
  { clear P1 P2. revert l0' F2. induction F1 as [|x y l' T (X1 & X2 & X3 & X4) _ IH]; intros l0' F2; inversion F2 as [|z ? ? ? (Z1 & Z2 & Z3 & Z4) F2']; subst; constructor.
    - repeat split; try congruence. apply (HE _ _ (e_parsed y)); assumption.
    - apply IH, F2'. }
  apply F2_flip in F. destruct (Permutation_Forall2 (Permutation_sym P2) F) as (l'' & P3 & F3).
  exists l''. split; [eapply Permutation_trans; eassumption|]. apply F2_flip in F3. exact F3.
Qed.
Lemma holds_same {P} (E E' : P -> P -> Prop) D D' T : (forall p q r, E' p r -> E' q r -> E p q) ->
  holds E' D T -> holds E' D' T -> same_content E D D'.
Proof. intros HE H H' id. destruct (H id), (H' id). split; eapply same_docs_join; eauto. Qed.
Lemma holds_mono {P} (E E' : P -> P -> Prop) D T : (forall p q, E p q -> E' p q) -> holds E D T -> holds E' D T.
Proof.
  intros HE H. assert (G : forall l m, same_docs E l m -> same_docs E' l m).
  { intros l m (l' & P1 & F). exists l'. split; [exact P1|]. clear P1. induction F as [|x y ? ? (A & B & C & D0) _ IH]; constructor; [|exact IH]. repeat split; auto. }
  intro id. destruct (H id). split; apply G; assumption.
Qed.

(** ** The committed history does not change below the last sync *)
Definition committed (A : astate) (id : pystr) : list (Z * dict) := match A id with Some r => a_hist r | None => [] end.

Lemma a_step_upto s A st id : (forall v, st = SCommit v -> s < v) -> upto s (committed (a_step A st) id) = upto s (committed A id).
Proof.
  intro Hc. unfold committed. destruct st as [mf recs|v|]; cbn [a_step].
  - unfold a_ingest. destruct (last_data id recs) as [new|]; [|reflexivity]. unfold a_put.
    destruct (A id) as [[[|[w d] h] p]|].
    + destruct new as [|kv new]; [reflexivity|]. destruct p as [p|]; [destruct (py_eqb _ _); reflexivity|reflexivity].
    + reflexivity.
    + destruct new; reflexivity.
  - unfold a_commit. destruct (A id) as [[h [p|]]|]; [|reflexivity|reflexivity]. cbn [a_hist]. unfold upto. cbn [filter fst].
    specialize (Hc v eq_refl). destruct (Z.leb_spec v s); [lia|reflexivity].
  - unfold a_rollback. destruct (A id) as [[[|kv h] p]|]; reflexivity.
Qed.
Lemma a_step_keys A st id k : In k (zkeys (committed (a_step A st) id)) -> In k (zkeys (committed A id)) \/ st = SCommit k.
Proof.
  unfold committed. destruct st as [mf recs|v|]; cbn [a_step].
  - unfold a_ingest. destruct (last_data id recs) as [new|]; [|auto]. unfold a_put.
    destruct (A id) as [[[|[w d] h] p]|].
    + destruct new as [|kv new]; [intros []|]. destruct p as [p|]; [destruct (py_eqb _ _); auto|auto].
    + auto.
    + destruct new; intros [].
  - unfold a_commit. destruct (A id) as [[h [p|]]|]; [|auto|auto]. cbn [a_hist zkeys map fst].
    intros [<-|K]; auto.
  - unfold a_rollback. destruct (A id) as [[[|kv h] p]|]; auto.
Qed.

Section Opts.
Context {O : Type} (oeq : O -> O -> bool) (odef : O) (name : pystr).
Notation client := (client O).
(** specification or proof device; models no code of its own *)
Definition oshown (s : option Z) (l : list (odoc O)) : list (Z * O) :=
  flat_map (fun d => match od_ver d with
     | Some v => if str_eqb (od_name d) name && match s with Some s => v <=? s | None => true end then [(v, od_opts d)] else []
     | None => [] end) l.
Lemma upto_zset s (m : list (Z * O)) k x : upto s (zset m k x) = if k <=? s then zset (upto s m) k x else upto s m.
Proof.
  unfold upto. induction m as [|[j y] m IH]; cbn [zset filter fst].
  - destruct (k <=? s); reflexivity.
  - destruct (Z.eqb_spec k j) as [->|Hk].
    + cbn [filter fst]. destruct (j <=? s); [|reflexivity]. cbn [zset]. rewrite Z.eqb_refl. reflexivity.
    + cbn [filter fst]. destruct (j <=? s) eqn:Ej; rewrite IH; [|reflexivity].
      destruct (k <=? s); [|reflexivity]. cbn [zset]. destruct (Z.eqb_spec k j); [contradiction|reflexivity].
Qed.
Lemma get_options_shown (cl : client) : get_options cl name = zdict (oshown None (opts cl)).
Proof.
  unfold get_options, zdict. generalize (@nil (Z * O)) as m. induction (opts cl) as [|d l IH]; intro m; [reflexivity|].
  cbn [fold_left oshown flat_map]. fold (oshown None l). rewrite fold_left_app, <- IH.
  destruct (od_ver d) as [v|]; [|reflexivity]. rewrite andb_true_r. destruct (str_eqb (od_name d) name); reflexivity.
Qed.
Lemma upto_options s (cl : client) : upto s (get_options cl name) = zdict (oshown (Some s) (opts cl)).
Proof.
  rewrite get_options_shown. unfold zdict. change (@nil (Z * O)) with (upto s (@nil (Z * O))) at 2. generalize (@nil (Z * O)) as m.
  induction (opts cl) as [|d l IH]; intro m; [reflexivity|].
  cbn [oshown flat_map]. fold (oshown None l). fold (oshown (Some s) l). rewrite !fold_left_app, IH. f_equal.
  destruct (od_ver d) as [v|]; [|reflexivity]. destruct (str_eqb (od_name d) name); [|reflexivity]. cbn [andb fold_left fst snd].
  rewrite upto_zset. destruct (v <=? s); reflexivity.
Qed.
Lemma oshown_app s l m : oshown s (l ++ m) = oshown s l ++ oshown s m.
Proof. apply flat_map_app. Qed.
Lemma oshown_settled s l : oshown s (filter (fun d => negb (o_pending d)) l) = oshown s l.
Proof.
  induction l as [|d l IH]; [reflexivity|]. cbn [filter]. unfold o_pending at 1. destruct (od_ver d) as [v|] eqn:E; cbn [negb].
  - cbn [oshown flat_map]. fold (oshown s l). fold (oshown s (filter (fun d => negb (o_pending d)) l)). rewrite IH. reflexivity.
  - rewrite IH. cbn [oshown flat_map]. rewrite E. reflexivity.
Qed.
Lemma oshown_commit s v l : s < v -> oshown (Some s) (map (commit_odoc v) l) = oshown (Some s) l.
Proof.
  intro Hv. induction l as [|d l IH]; [reflexivity|]. cbn [map oshown flat_map].
  fold (oshown (Some s) l). fold (oshown (Some s) (map (commit_odoc v) l)). rewrite IH. f_equal. unfold commit_odoc.
  destruct (od_ver d) as [w|] eqn:E; cbn [od_ver od_name od_opts]; rewrite ?E; [reflexivity|].
  destruct (Z.leb_spec v s); [lia|]. rewrite andb_false_r. reflexivity.
Qed.
Lemma do_call_options s (cl : client) c cl' : do_call oeq odef cl c = Some cl' ->
  (forall n v, c = CCommit n v -> s < v) -> upto s (get_options cl' name) = upto s (get_options cl name).
Proof.
  intros H Hc. rewrite !upto_options. f_equal.
  destruct c as [n mf recs|n v|n o|n|n]; cbn [do_call] in H.
  - destruct (ingest _ _ _ _); [|discriminate]. injection H as <-. reflexivity.
  - injection H as <-. destruct (snd (commit oeq odef cl n v)) eqn:E.
    + rewrite commit_opts by congruence. rewrite oshown_commit by (apply (Hc n v), eq_refl). unfold commit_opts_before.
      destruct (_ && _); [|reflexivity]. rewrite oshown_app. cbn. apply app_nil_r.
    + rewrite commit_result in E. unfold commit. destruct (_ && _); [reflexivity|discriminate].
  - injection H as <-. destruct (update_options_docs oeq cl n o) as (ap & Hap & ->). rewrite oshown_app.
    assert (Ea : oshown (Some s) ap = []) by (destruct Hap as [->| ->]; reflexivity). rewrite Ea, app_nil_r.
    destruct (has_uncommitted_options cl); [apply oshown_settled|reflexivity].
  - injection H as <-. apply oshown_settled.
  - destruct (rollback _); [|discriminate]. injection H as <-. reflexivity.
Qed.
Lemma do_call_option_keys (cl : client) c cl' k : do_call oeq odef cl c = Some cl' ->
  In k (zkeys (get_options cl' name)) -> In k (zkeys (get_options cl name)) \/ exists n, c = CCommit n k.
Proof.
  intros H Hk. apply (proj1 (get_options_versions oeq odef _ _ _)) in Hk. destruct Hk as (d & Hd & Hn & Hv).
  assert (G : forall d0, In d0 (opts cl) -> od_name d0 = name -> od_ver d0 = Some k -> In k (zkeys (get_options cl name))).
  { intros d0 K1 K2 K3. apply (proj2 (get_options_versions oeq odef cl name k)). exists d0. auto. }
  destruct c as [n mf recs|n v|n o|n|n]; cbn [do_call] in H.
  - destruct (ingest _ _ _ _); [|discriminate]. injection H as <-. left. exact (G d Hd Hn Hv).
  - injection H as <-. destruct (snd (commit oeq odef cl n v)) eqn:E.
    + rewrite commit_opts in Hd by congruence. apply in_map_iff in Hd. destruct Hd as (d0 & <- & Hd). unfold commit_odoc in Hv, Hn.
      destruct (od_ver d0) as [w|] eqn:Ew.
      * left. apply (G d0); [|exact Hn|congruence]. unfold commit_opts_before in Hd. destruct (_ && _); [|exact Hd].
        apply in_app_or in Hd. destruct Hd as [Hd|[<-|[]]]; [exact Hd|discriminate].
      * right. exists n. cbn in Hv. congruence.
    + rewrite commit_result in E. unfold commit in Hd. destruct (_ && _); [left; exact (G d Hd Hn Hv)|discriminate].
  - injection H as <-. destruct (update_options_docs oeq cl n o) as (ap & Hap & Eo). rewrite Eo in Hd. apply in_app_or in Hd.
    destruct Hd as [Hd|Hd].
    + left. apply (G d); [|exact Hn|exact Hv]. destruct (has_uncommitted_options cl); [apply filter_In in Hd; apply Hd|exact Hd].
    + destruct Hap as [->| ->]; [contradiction|]. destruct Hd as [<-|[]]. discriminate.
  - injection H as <-. left. cbn in Hd. apply filter_In in Hd. exact (G d (proj1 Hd) Hn Hv).
  - destruct (rollback _); [|discriminate]. injection H as <-. left. exact (G d Hd Hn Hv).
Qed.
End Opts.

(** ** The collection shows the abstract history *)
Definition near (R : value -> value -> Prop) (good : dict -> Prop) (d d' : dict) : Prop :=
  good d /\ good d' /\ vsim R (VDict d) (VDict d').

Section Shows.
Variable R : value -> value -> Prop.
Variable good : dict -> Prop.
Hypothesis DC : data_class R good.

Lemma near_nil d d' : near R good d d' -> (d = [] <-> d' = []).
Proof.
  intros (_ & _ & H). inversion H as [? ? S ? ?|?|d0 e0 H1 H2]; subst; [discriminate|].
  assert (G : forall (x y : dict), (forall k, dget x k = None <-> dget y k = None) -> x = [] -> y = []).
  { clear. intros x y K ->. destruct y as [|[k v] y]; [reflexivity|]. specialize (K k). cbn in K. rewrite str_eqb_refl in K.
    destruct K as [K _]. specialize (K eq_refl). discriminate. }
  split; [apply G, H1|]. apply G. intro k. symmetry. apply H1.
Qed.

Lemma zset_fresh {V} (m : list (Z * V)) k x : ~ In k (zkeys m) -> zset m k x = m ++ [(k, x)].
Proof.
  induction m as [|[j y] m IH]; intro H; [reflexivity|]. cbn [zset]. cbn in H.
  destruct (Z.eqb_spec k j) as [->|]; [tauto|]. rewrite IH by tauto. reflexivity.
Qed.
Lemma zdict_id {V} (l : list (Z * V)) : NoDup (map fst l) -> zdict l = l.
Proof.
  intro H. unfold zdict. change l with ([] ++ l) at 2. change l with (@nil (Z * V) ++ l) in H. revert H. generalize (@nil (Z * V)) as m.
  induction l as [|[k x] l IH]; intros m H; [cbn; rewrite app_nil_r; reflexivity|]. cbn [fold_left fst snd].
  rewrite zset_fresh.
  - rewrite IH; rewrite <- app_assoc; [reflexivity|exact H].
  - intro K. rewrite map_app in H. cbn in H. apply NoDup_remove_2 in H. apply H, in_or_app. left. exact K.
Qed.

Lemma iter_diffs_wf m : wfdiffs m -> forall vs b l, wfd b -> iter_diffs b m vs = Some l -> Forall (fun x => wfd (snd x)) l.
Proof.
  intros Hm. induction vs as [|v vs IH]; intros b l Hb H; cbn [iter_diffs] in H; [injection H as <-; constructor|].
  destruct (zget m v) as [os|] eqn:Eo; [|discriminate]. destruct (patch b os) as [x|] eqn:Ex; [|discriminate].
  assert (Hos : Forall (fun o => wf_ops (dops o)) os).
  { clear - Hm Eo. unfold wfdiffs in Hm. induction m as [|[k w] m IH]; [discriminate|]. inversion Hm; subst. cbn in Eo.
    destruct (v =? k); [injection Eo as <-; assumption|apply IH; assumption]. }
  pose proof (wf_patch b os x Hos Hb Ex) as Hx. destruct (iter_diffs x m vs) as [r|] eqn:Er; [|discriminate].
  cbn in H. injection H as <-. constructor; [exact Hx|exact (IH x r Hx Er)].
Qed.

Lemma crel_shows_hist bound c A : crel R good bound c A -> (forall id r, A id = Some r -> exists b, arec_wf b r) ->
  shows_hist (near R good) c (committed A).
Proof.
  intros HC HW id. specialize (HC id). unfold committed. destruct (A id) as [r|] eqn:EA.
  2:{ destruct (docs_of id c) as [|d [|? ?]]; [reflexivity|contradiction|contradiction]. }
  destruct (docs_of id c) as [|d [|? ?]]; try contradiction.
  destruct (HW id r EA) as (bd & _ & (S1 & _) & _). cbn [drel] in HC.
  destruct r as [h [p|]].
  { destruct (rel_pend _ _ _ _ _ _ HC) as (E & _). rewrite E. exact I. }
  destruct (rel_comm _ _ _ _ _ HC) as (v & x & rest & -> & Ev & Hx & Gx & Gr & l & El & Hl). rewrite Ev.
  cbn [a_hist] in S1 |- *. destruct HC as (Hok & _).
  pose proof (iter_diffs_wf _ (ok_diffs _ _ _ Hok) _ _ _ (dc_wf _ _ DC _ (ok_good _ _ _ Hok)) El) as Wl.
  set (sel := fun vd : option Z * dict => match fst vd with Some v => [(v, snd vd)] | None => [] end).
  assert (F : Forall2 (hrel (near R good)) (flat_map sel l) rest).
  { clear - Hl Gr Wl DC. revert rest Hl Gr. induction l as [|[o y] l IH]; intros rest Hl Gr.
    - inversion Hl as [K|]. destruct rest; [constructor|discriminate].
    - destruct rest as [|[w z] rest]; [inversion Hl|]. cbn in Hl, Gr. inversion Hl as [|? ? ? ? [H1 H2] H3]; subst. cbn in H1, H2. subst o.
      inversion Gr; subst. inversion Wl; subst. cbn [flat_map]. cbn. constructor; [|apply IH; assumption]. split; [reflexivity|]. cbn [snd] in *.
      split; [|split; [assumption|exact H2]]. apply (dc_sim _ _ DC z y); [assumption|assumption|]. apply (vsim_sym R (dc_sym _ _ DC)), H2. }
  assert (F2 : Forall2 (hrel (near R good)) ((v, d_data d) :: flat_map sel l) ((v, x) :: rest)).
  { constructor; [|exact F]. split; [reflexivity|]. split; [exact (ok_good _ _ _ Hok)|split; [exact Gx|exact Hx]]. }
  exists ((v, d_data d) :: flat_map sel l). split; [|split; [exact F2|]].
  - unfold rec_hist, iter_doc. rewrite (zsort_desc_asc _ (ok_asc _ _ _ Hok)), El. cbn [bind]. rewrite Ev. cbn [flat_map fst snd].
    cbn [app]. f_equal. apply zdict_id. pose proof (hrel_keys _ _ _ F2) as Ek. unfold zkeys in Ek.
    change (NoDup (map fst ((v, d_data d) :: flat_map sel l))). rewrite Ek.
    clear - S1. induction S1 as [|k ks _ IH Hk]; constructor; [|exact IH]. intro K. rewrite Forall_forall in Hk. specialize (Hk k K). lia.
  - split; [left; reflexivity|]. intros k [<-|K]; [cbn; lia|]. cbn [map fst] in S1. apply StronglySorted_inv in S1. destruct S1 as [_ S1].
    rewrite Forall_forall in S1. specialize (S1 k K). cbn. lia.
Qed.
Lemma arec_wf_hist_ok b r : arec_wf b r -> a_hist r = [] \/ hist_ok (a_hist r).
Proof.
  intros (_ & (S1 & _ & S3 & _) & _). destruct (a_hist r) as [|kv h] eqn:E; [left; reflexivity|right]. rewrite <- E in *.
  split; [clear - S1; induction S1 as [|k ks _ IH Hk]; constructor; [|exact IH]; intro K; rewrite Forall_forall in Hk; specialize (Hk k K); lia|].
  assert (Hne : a_hist r <> []) by (rewrite E; discriminate). destruct (exists_last Hne) as (pre & [v x] & El).
  exists x. split.
  - exists v. rewrite El in *. split; [apply in_or_app; right; left; reflexivity|]. intros w y Hw.
    apply in_app_or in Hw. destruct Hw as [Hw|[Hw|[]]]; [|injection Hw as <- _; lia].
    rewrite map_app in S1. cbn in S1. clear - S1 Hw. induction pre as [|[k z] pre IH]; [contradiction|]. cbn in S1. apply StronglySorted_inv in S1. destruct S1 as [S1 S2].
    destruct Hw as [Hw|Hw]; [|exact (IH S1 Hw)]. injection Hw as <- _. rewrite Forall_forall in S2. specialize (S2 v ltac:(apply in_or_app; right; left; reflexivity)). lia.
  - apply (S3 (match a_pend r with Some p => [p] | None => [] end ++ map snd pre)). unfold view. rewrite El, !map_app, !map_map.
    cbn [map snd]. rewrite app_assoc. f_equal. f_equal. destruct (a_pend r); reflexivity.
Qed.
End Shows.

(** ** Histories of calls and synchronisations of one database *)

(** The record had data at the last sync [s], then got another version or new options while it
    had data, and has none now. *)
Definition changed_then_deleted {O} (s : Z) (h : list (Z * dict)) (om : list (Z * O)) : Prop :=
  (exists x, in_force h s x /\ x <> []) /\
  (exists k x, s < k /\ (In k (zkeys h) \/ In k (zkeys om)) /\ in_force h k x /\ x <> []) /\
  (exists t0, forall t x, t0 <= t -> in_force h t x -> x = []).

Section Trace.
Context {O P : Type} (oeq : O -> O -> bool) (odef : O) (parse : dict -> O -> P) (peq : P -> P -> bool).
Variable R : value -> value -> Prop.
Variable good : dict -> Prop.
Variable cap : N.
Variable name : pystr.

(** Options exist for committed data. *)
Definition options_there (A : astate) (om : list (Z * O)) : Prop := forall id, committed A id <> [] -> om <> [].
(** Records with pending changes have nothing left to sync. *)
Definition pending_settled (s : Z) (A : astate) (om : list (Z * O)) : Prop :=
  forall id h p, A id = Some (AR h (Some p)) -> forall k, In k (zkeys h) \/ In k (zkeys om) -> k <= s.
(** specification or proof device; models no code of its own *)
Definition allowed_ok (n : nat) (s : Z) (A : astate) (om : list (Z * O)) : Prop :=
  options_there A om /\ pending_settled s A om /\
  ((n <= 1)%nat \/ forall id, ~ changed_then_deleted s (committed A id) om).

Hypothesis DC : data_class R good.
Hypothesis PK : parse_ok parse peq (near R good).
Notation prel := (prel parse (near R good)).
Notation build := (build parse peq).
Notation target := (target parse peq).
Notation target_at := (target_at parse peq).

(** a risky record was changed and then deleted *)
Lemma in_force_upto (h : list (Z * dict)) s x t : s <= t -> in_force (upto t h) s x <-> in_force h s x.
Proof.
  intro L. split; intros (v & H1 & H2 & H3).
  - apply upto_In in H1. exists v. split; [apply H1|]. split; [exact H2|]. intros w y Hw Lw. apply (H3 w y); [apply upto_In; split; [exact Hw|lia]|exact Lw].
  - exists v. split; [apply upto_In; split; [exact H1|lia]|]. split; [exact H2|]. intros w y Hw. apply upto_In in Hw. apply (H3 w y), Hw.
Qed.
Lemma rv_docs_last id (rvs : list (rv P)) r : rv_docs id (rvs ++ [r]) = docs_before id rvs r ++ [create_doc id r None].
Proof. apply (rv_docs_split id rvs r []). Qed.
Lemma risky_spec h (om : list (Z * O)) s rvs0 rvs : hist_ok h -> build (upto s h) (upto s om) = Some rvs0 -> build h om = Some rvs ->
  risky s (rev rvs0) (rev rvs) -> changed_then_deleted s h om.
Proof.
  intros Hh H0 H1 (r & rest & x & new & E0 & D0 & E1 & D1 & Hx).
  destruct (build_upto parse peq h om s rvs0 rvs Hh H0 H1) as (_ & B & C0 & C).
  assert (Hh0 : hist_ok (upto s h)).
  { destruct (hist_ok_upto s h Hh) as [K|K]; [|exact K]. unfold Index.build in H0. rewrite K in H0. discriminate. }
  assert (Ho : om <> []) by (intros ->; unfold Index.build in H1; cbn in H1; destruct (zmin_key h); discriminate).
  assert (Ho0 : upto s om <> []) by (intro K; unfold Index.build in H0; rewrite K in H0; cbn in H0; destruct (zmin_key (upto s h)); discriminate).
  destruct (C23_documents_cover_life parse peq h om [] Hh Ho) as (rvs' & E' & Hu & Hc & Hd). rewrite H1 in E'. injection E' as <-.
  destruct (C23_documents_cover_life parse peq (upto s h) (upto s om) [] Hh0 Ho0) as (rvs' & E' & _ & Hc0 & _). rewrite H0 in E'. injection E' as <-.
  assert (Er0 : rvs0 = rev rest ++ [r]) by (rewrite <- (rev_involutive rvs0), E0; reflexivity).
  assert (Er : rvs = rev new ++ [x]) by (rewrite <- (rev_involutive rvs), E1; reflexivity).
  split; [|split].
  - destruct (proj1 (Hc0 s)) as (y & Hy & Ny).
    { exists (create_doc [] r None). split; [rewrite Er0, rv_docs_last; apply in_or_app; right; left; reflexivity|].
      unfold covers, create_doc, version_end. cbn [e_ver e_end]. rewrite D0. split; [|exact I].
      rewrite E0 in B. inversion B as [|? ? [B1 _] _]; subst. exact B1. }
    exists y. split; [|exact Ny]. apply (in_force_upto h s y s); [lia|exact Hy].
  - destruct (rv_del x) as [w|] eqn:Ew; [|congruence].
    assert (Hxw : rv_ver x < w) by (rewrite E1 in C; destruct C as (C1 & _); rewrite Ew in C1; exact C1).
    destruct (proj1 (Hc (rv_ver x))) as (y & Hy & Ny).
    { exists (create_doc [] x None). split; [rewrite Er, rv_docs_last; apply in_or_app; right; left; reflexivity|].
      unfold covers, create_doc, version_end. cbn [e_ver e_end]. rewrite Ew. split; [lia|exact Hxw]. }
    exists (rv_ver x), y. split; [exact Hx|]. split; [|split; [exact Hy|exact Ny]].
    pose proof (build_versions parse peq h om rvs H1) as K. rewrite Forall_forall in K. destruct (K x) as [K1 _]; [rewrite Er; apply in_or_app; right; left; reflexivity|].
    tauto.
  - destruct (rv_del x) as [w|] eqn:Ew; [|congruence]. exists w. intros t y Ht Hy. destruct y as [|kv y]; [reflexivity|exfalso].
    assert (Hxw : rv_ver x < w) by (rewrite E1 in C; destruct C as (C1 & _); rewrite Ew in C1; exact C1).
    destruct (proj2 (Hc t)) as (d & Hin & Hcov); [exists (kv :: y); split; [exact Hy|discriminate]|].
    rewrite Er, rv_docs_last in Hin. apply in_app_or in Hin. destruct Hin as [Hin|[<-|[]]].
    + (* an older document ends before the newest one starts *)
      assert (G : forall l z, chain (z :: rev l) -> Forall (fun d => exists q, e_end d = Some q /\ q <= rv_ver z) (docs_before (P := P) [] l z)).
      { clear. intros l z. rewrite <- (rev_involutive l). generalize (rev l) as a. clear l. intro a. rewrite rev_involutive. revert z.
        induction a as [|o a IH]; intros z Hc; [constructor|]. destruct Hc as (_ & C2 & C3). cbn [rev].
        assert (Eb : docs_before (P := P) [] (rev a ++ [o]) z = docs_before [] (rev a) o ++ [create_doc [] o (Some z)]).
        { generalize (rev a) as b. induction b as [|u b IHb]; [reflexivity|]. cbn [app docs_before].
          destruct b as [|u' b]; [reflexivity|]. cbn [app hd] in *. rewrite IHb. reflexivity. }
        rewrite Eb. apply Forall_app. split.
        - eapply Forall_impl; [|exact (IH o C3)]. cbn. intros d (q & E & L). exists q. split; [exact E|]. lia.
        - constructor; [|constructor]. unfold create_doc, version_end. cbn [e_end]. destruct (rv_del o) as [q|]; eexists; (split; [reflexivity|]); lia. }
      specialize (G (rev new) x). rewrite rev_involutive, <- E1 in G. specialize (G C). rewrite Forall_forall in G. destruct (G d Hin) as (q & Eq & Lq).
      destruct Hcov as [_ Hcov]. rewrite Eq in Hcov. lia.
    + destruct Hcov as [_ Hcov]. unfold create_doc, version_end in Hcov. cbn [e_end] in Hcov. rewrite Ew in Hcov. lia.
Qed.

(** specification or proof device; models no code of its own *)
Definition inv (n : nat) (t s : Z) (calls : list (call O)) (cl : client O) (e : es P) : Prop :=
  let A := a_run a_empty (proj name calls) in
  let om := get_options cl name in
  do_calls oeq odef empty_client calls = Some cl /\
  clock_increasing 0 (proj name calls) /\ Forall (step_ok good) (proj name calls) /\
  (forall v, In (SCommit v) (proj name calls) -> v <= t) /\ 0 <= t /\
  (forall k, (exists id, In k (zkeys (committed A id))) \/ In k (zkeys om) -> k <= t) /\
  s <= t /\
  (forall k, (exists id, In k (zkeys (committed A id))) \/ In k (zkeys om) -> (n = 0%nat -> k <= s) /\ (n = 1%nat -> k <= s \/ k = t)) /\
  (forall id, upto s (committed A id) <> [] -> upto s om <> []) /\
  fresh e /\ holds prel (live e) (target_at (committed A) om s).

(** the part of it that does not speak of Elasticsearch *)
Definition base (n : nat) (t s : Z) (calls : list (call O)) (cl : client O) : Prop :=
  let A := a_run a_empty (proj name calls) in
  let om := get_options cl name in
  do_calls oeq odef empty_client calls = Some cl /\
  clock_increasing 0 (proj name calls) /\ Forall (step_ok good) (proj name calls) /\
  (forall v, In (SCommit v) (proj name calls) -> v <= t) /\ 0 <= t /\
  (forall k, (exists id, In k (zkeys (committed A id))) \/ In k (zkeys om) -> k <= t) /\
  s <= t /\
  (forall k, (exists id, In k (zkeys (committed A id))) \/ In k (zkeys om) -> (n = 0%nat -> k <= s) /\ (n = 1%nat -> k <= s \/ k = t)) /\
  (forall id, upto s (committed A id) <> [] -> upto s om <> []).
Lemma inv_base n t s calls cl e : inv n t s calls cl e <->
  base n t s calls cl /\ fresh e /\ holds prel (live e) (target_at (committed (a_run a_empty (proj name calls))) (get_options cl name) s).
Proof. unfold inv, base. tauto. Qed.

Lemma proj_snoc calls c : proj name (calls ++ [c]) = proj (O := O) name calls ++ proj_call name c.
Proof. rewrite proj_app. cbn. rewrite app_nil_r. reflexivity. Qed.
Lemma a_run_app A a b : a_run A (a ++ b) = a_run (a_run A a) b.
Proof. apply fold_left_app. Qed.
Lemma do_calls_snoc calls (cl : client O) c cl' : do_calls oeq odef empty_client calls = Some cl -> do_call oeq odef cl c = Some cl' ->
  do_calls oeq odef empty_client (calls ++ [c]) = Some cl'.
Proof. intros H H'. rewrite do_calls_app, H. cbn [bind do_calls]. rewrite H'. reflexivity. Qed.
Lemma clock_snoc ss : forall b t st, clock_increasing b ss -> b <= t -> (forall v, In (SCommit v) ss -> v <= t) ->
  (forall v, st = SCommit v -> t < v) -> clock_increasing b (ss ++ [st]).
Proof.
  induction ss as [|x ss IH]; intros b t st H Hb Ha Hst.
  - destruct st as [mf recs|v|]; cbn; auto. specialize (Hst v eq_refl). split; [lia|exact I].
  - assert (Ha' : forall v, In (SCommit v) ss -> v <= t) by (intros v Hv; apply Ha; right; exact Hv).
    destruct x as [mf recs|v|]; cbn [app clock_increasing] in *; [exact (IH b t st H Hb Ha' Hst)| |exact (IH b t st H Hb Ha' Hst)].
    destruct H as [H1 H2]. split; [exact H1|]. apply (IH v t st H2); auto. apply Ha. left. reflexivity.
Qed.

(** ** the invariant *)
Lemma base_call n n' t t' s calls cl c cl' : base n t s calls cl ->
  do_call oeq odef cl c = Some cl' -> Forall (step_ok good) (proj_call name c) -> t <= t' ->
  (forall m v, c = CCommit m v -> t < v /\ v = t' /\ n' = S n) -> ((forall m v, c <> CCommit m v) -> n' = n /\ t' = t) ->
  base n' t' s (calls ++ [c]) cl' /\ (forall id, upto s (committed (a_run a_empty (proj name (calls ++ [c]))) id) = upto s (committed (a_run a_empty (proj name calls)) id)) /\
  upto s (get_options cl' name) = upto s (get_options cl name).
Proof.
  intros (I1 & I2 & I2' & I3 & I3' & I4 & I5 & I6 & I7) H Hs Ht Hc Hnc.
  assert (Hcs : forall m v, c = CCommit m v -> s < v) by (intros m v K; destruct (Hc m v K); lia).
  pose proof (do_call_options oeq odef name s cl c cl' H Hcs) as Eo.
  set (A := a_run a_empty (proj name calls)) in *.
  assert (Hpc : proj_call name c = [] \/ exists st, proj_call name c = [st] /\ forall v, st = SCommit v -> exists m, c = CCommit m v).
  { unfold proj_call. destruct (str_eqb (call_db c) name); [|left; reflexivity].
    destruct c as [m mf recs|m v|m o|m|m]; try (left; reflexivity); right; eexists; (split; [reflexivity|]); intros w K; try discriminate.
    injection K as <-. exists m. reflexivity. }
  assert (EA : a_run a_empty (proj name (calls ++ [c])) = a_run A (proj_call name c)) by (rewrite proj_snoc; apply a_run_app).
  set (A' := a_run A (proj_call name c)) in *.
  assert (Hup : forall id, upto s (committed A' id) = upto s (committed A id)).
  { intro id. unfold A'. destruct Hpc as [->|(st & -> & Hst)]; [reflexivity|]. cbn. apply a_step_upto. intros v K. destruct (Hst v K) as (m & K'). exact (Hcs m v K'). }
  assert (Hkeys : forall k, (exists id, In k (zkeys (committed A' id))) \/ In k (zkeys (get_options cl' name)) ->
    ((exists id, In k (zkeys (committed A id))) \/ In k (zkeys (get_options cl name))) \/ exists m, c = CCommit m k).
  { intros k [(id & Hk)|Hk].
    - unfold A' in Hk. destruct Hpc as [Ep|(st & Ep & Hst)]; rewrite Ep in Hk; [left; left; exists id; exact Hk|].
      cbn in Hk. destruct (a_step_keys A st id k Hk) as [K|K]; [left; left; exists id; exact K|right; exact (Hst k K)].
    - destruct (do_call_option_keys oeq odef name cl c cl' k H Hk) as [K|K]; [left; right; exact K|right; exact K]. }
  unfold base. rewrite EA, proj_snoc. fold A. split; [|split; [exact Hup|exact Eo]].
  split; [exact (do_calls_snoc calls cl c cl' I1 H)|].
  split; [destruct Hpc as [->|(st & -> & Hst)]; [rewrite app_nil_r; exact I2|]; apply (clock_snoc _ 0 t st I2 I3' I3); intros v K; destruct (Hst v K) as (m & K'); apply (Hc m v K')|].
  split; [apply Forall_app; split; assumption|].
  split.
  { intros v Hv. apply in_app_or in Hv. destruct Hv as [Hv|Hv]; [specialize (I3 v Hv); lia|].
    destruct Hpc as [Ep|(st & Ep & Hst)]; rewrite Ep in Hv; [contradiction|]. destruct Hv as [Hv|[]]. destruct (Hst v Hv) as (m & K). destruct (Hc m v K) as (_ & -> & _). lia. }
  split; [lia|].
  split.
  { intros k Hk. destruct (Hkeys k Hk) as [K|(m & K)]; [specialize (I4 k K); lia|]. destruct (Hc m k K) as (_ & -> & _). lia. }
  split; [lia|].
  split.
  { intros k Hk. destruct (Hkeys k Hk) as [K|(m & K)].
    - assert (Dc : (forall m v, c <> CCommit m v) \/ exists m v, c = CCommit m v) by (destruct c; try (left; intros; discriminate); right; eauto).
      destruct Dc as [Dc|(m & v & Dc)].
      + destruct (Hnc Dc) as [-> ->]. exact (I6 k K).
      + destruct (Hc m v Dc) as (_ & _ & ->). split; [discriminate|]. intro En. injection En as En. left. apply (I6 k K), En.
    - destruct (Hc m k K) as (_ & -> & ->). split; [discriminate|auto]. }
  intros id Hid. rewrite Hup in Hid. rewrite Eo. exact (I7 id Hid).
Qed.
Lemma inv_any_call n n' t t' s calls cl e c cl' : inv n t s calls cl e ->
  do_call oeq odef cl c = Some cl' -> Forall (step_ok good) (proj_call name c) -> t <= t' ->
  (forall m v, c = CCommit m v -> t < v /\ v = t' /\ n' = S n) -> ((forall m v, c <> CCommit m v) -> n' = n /\ t' = t) ->
  inv n' t' s (calls ++ [c]) cl' e.
Proof.
  intros J H Hs Ht Hc Hnc. apply inv_base in J. destruct J as (B & F & I9). destruct (base_call n n' t t' s calls cl c cl' B H Hs Ht Hc Hnc) as (B' & Hup & Eo).
  apply inv_base. split; [exact B'|]. split; [exact F|]. intro id. specialize (I9 id). unfold SyncColl.target_at in *. rewrite Hup, Eo. exact I9.
Qed.

Lemma wf_of_clock ss : clock_increasing 0 ss -> Forall (step_ok good) ss -> exists b, forall id r, a_run a_empty ss id = Some r -> arec_wf b r.
Proof.
  intros Hc Hs. apply (a_run_wf ss 0 a_empty); [intros ? ? K; discriminate|exact Hc|].
  eapply Forall_impl; [|exact Hs]. intros [mf recs| |] K; auto. destruct K as [_ K]. eapply Forall_impl; [|exact K]. intros r. apply (dc_wf _ _ DC).
Qed.

Lemma inv_sync n t s calls cl e : inv n t s calls cl e -> allowed_ok n s (a_run a_empty (proj name calls)) (get_options cl name) ->
  exists e', sync parse peq cap cl name false e = Some e' /\ inv 0 t t calls cl e' /\
    holds prel (live e') (target (committed (a_run a_empty (proj name calls))) (get_options cl name)).
Proof.
  intros (I1 & I2 & I2' & I3 & I3' & I4 & I5 & I6 & I7 & I8 & I9) (Ho & Hp & Hsafe).
  set (A := a_run a_empty (proj name calls)) in *.
  destruct (run_crel _ _ DC (proj name calls) 0 [] a_empty (crel_empty _ _ 0) I2 I2') as (c & b & Er & HC & _).
  pose proof (do_calls_run oeq odef calls _ _ name I1) as Er'. cbn [data empty_client] in Er'. rewrite Er' in Er. injection Er as <-.
  destruct (wf_of_clock _ I2 I2') as (b2 & HW). fold A in HC, HW.
  pose proof (crel_shows_hist R good DC b (data cl name) A HC (fun id r K => ex_intro _ b2 (HW id r K))) as HS.
  assert (Hok : forall id, committed A id = [] \/ hist_ok (committed A id)).
  { intro id. unfold committed. destruct (A id) as [r|] eqn:E; [|left; reflexivity]. exact (arec_wf_hist_ok b2 r (HW id r E)). }
  assert (Hsafe' : forall id rvs0 rvs, build (upto s (committed A id)) (upto s (get_options cl name)) = Some rvs0 ->
    build (committed A id) (get_options cl name) = Some rvs -> ~ risky s (rev rvs0) (rev rvs)).
  { intros id rvs0 rvs H0 H1. destruct (Hok id) as [K|Hh]; [unfold Index.build in H1; rewrite K in H1; discriminate|].
    destruct Hsafe as [Hn|Hn].
    - apply (one_version_safe parse peq (committed A id) (get_options cl name) s rvs0 rvs t Hh H0 H1). intros k Hk Lk.
      destruct (I6 k) as [J0 J1]; [destruct Hk; [right|left; exists id]; assumption|].
      destruct n as [|[|n]]; [specialize (J0 eq_refl); lia|destruct (J1 eq_refl); [lia|assumption]|lia].
    - intro Hr. exact (Hn id (risky_spec _ _ _ _ _ Hh H0 H1 Hr)). }
  destruct (sync_step parse peq (near R good) PK (committed A) (get_options cl name) Hok s Ho I7 Hsafe' cap (data cl name) (get_committed_version cl name) e HS I8 I9) as (e' & E & F & D0).
  - intros id (d & Ed & Ev). specialize (HC id). rewrite Ed in HC. destruct (A id) as [[h [p|]]|] eqn:EA; try contradiction.
    + split; intros k Hk; apply (Hp id h p EA k); [left|right; exact Hk]. unfold committed in Hk. rewrite EA in Hk. exact Hk.
    + destruct (rel_comm _ _ _ _ _ HC) as (v & x & rest & _ & Ev' & _). congruence.
  - intros v d Hd Hv. destruct (get_committed_version cl name) as [m|] eqn:Em.
    + exists m. split; [reflexivity|]. apply gcv_spec in Em. apply Em. left. exists d. auto.
    + exfalso. assert (G : exists m, get_committed_version cl name = Some m); [|destruct G; congruence].
      clear - Hd Hv. unfold get_committed_version.
      assert (X : forall l w, In (Some w) l -> max_opt l <> None).
      { induction l as [|o l IH]; intros w Hi; [contradiction|]. rewrite max_opt_cons. destruct Hi as [->|Hi]; [destruct (max_opt l); discriminate|].
        specialize (IH w Hi). destruct o; destruct (max_opt l); congruence. }
      assert (Y : max_opt (map d_ver (data cl name)) <> None) by (apply (X _ v); rewrite <- Hv; apply in_map, Hd).
      rewrite max_opt_cons. destruct (max_opt (map d_ver (data cl name))); [|congruence]. destruct (max_opt [_]); eexists; reflexivity.
  - intros v m Hv Em. apply gcv_spec in Em. apply Em. right. apply (proj1 (get_options_versions oeq odef _ _ _)), Hv.
  - exists e'. split; [exact E|].
    assert (Et : forall id, target_at (committed A) (get_options cl name) t id = target (committed A) (get_options cl name) id).
    { intro id. symmetry. apply unchanged; intros k Hk; apply I4; [left; exists id|right]; exact Hk. }
    split; [|exact D0].
    unfold inv. fold A. split; [exact I1|]. split; [exact I2|]. split; [exact I2'|]. split; [exact I3|]. split; [exact I3'|]. split; [exact I4|].
    split; [lia|]. split; [intros k Hk; split; [intros _; apply I4, Hk|discriminate]|].
    split; [|split; [exact F|]].
    + intros id Hid. assert (K : committed A id <> []) by (intro K; rewrite K in Hid; apply Hid; reflexivity). specialize (Ho id K).
      rewrite upto_all; [exact Ho|]. intros k Hk. apply I4. right. exact Hk.
    + intro id. rewrite Et. apply D0.
Qed.

Lemma inv_start : inv 0 0 0 [] empty_client empty_es.
Proof.
  unfold inv. cbn. split; [reflexivity|]. split; [exact I|]. split; [constructor|]. split; [intros ? []|]. split; [lia|].
  split; [intros k [(id & [])|[]]|]. split; [lia|]. split; [intros k [(id & [])|[]]|]. split; [intros id K; exfalso; apply K; reflexivity|].
  split; [apply fresh_empty|]. intro id. unfold SyncColl.target_at, committed, SyncSpec.record_docs. cbn.
  split; exists []; split; constructor.
Qed.

End Trace.
