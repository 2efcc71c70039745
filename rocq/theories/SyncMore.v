(** More about syncs: idempotence, order of the operations, arcs. *)
From Coq Require Import List ZArith NArith Bool Lia Sorted Permutation.
From Verif Require Import PyVal Diff DiffProofs Prepare Mongo Store MongoProofs MongoStore MongoMore Client ClientProofs.
From Verif Require Import Index IndexSpec IndexProofs Sync SyncSpec SyncProofs SyncBuild SyncColl SyncTrace SyncView.
Import ListNotations.
Open Scope Z_scope.

(** ** find_records *)
Lemma find_records_ext f g c : (forall v, f v = g v) -> find_records f c = find_records g c.
Proof.
  intro H. induction c as [|d c IH]; [reflexivity|]. cbn [find_records]. rewrite IH.
  destruct (d_ver d) as [v|]; [rewrite H|]; reflexivity.
Qed.
Lemma find_records_sub f g c r : (forall v, f v = true -> g v = true) -> find_records g c = Some r ->
  exists r', find_records f c = Some r' /\ incl r' r.
Proof.
  intro H. revert r. induction c as [|d c IH]; intros r Hr; cbn [find_records] in *; [injection Hr as <-; exists []; split; [reflexivity|intros x []]|].
  destruct (match d_ver d with Some v => g v | None => false end) eqn:Eg.
  - destruct (rec_hist d) as [h|]; [|discriminate]. destruct (find_records g c) as [l|]; [|discriminate]. injection Hr as <-.
    destruct (IH l eq_refl) as (l' & -> & Hi). destruct (match d_ver d with Some v => f v | None => false end).
    + exists ((d_id d, h) :: l'). split; [reflexivity|]. intros x [<-|K]; [left; reflexivity|right; apply Hi, K].
    + exists l'. split; [reflexivity|]. intros x K. right. apply Hi, K.
  - destruct (IH r Hr) as (l' & E & Hi). exists l'. rewrite E. split; [|exact Hi].
    destruct (d_ver d) as [v|]; [|reflexivity]. destruct (f v) eqn:Ef; [|reflexivity]. rewrite (H v Ef) in Eg. discriminate.
Qed.
Lemma find_records_ids f c r : find_records f c = Some r -> incl (map fst r) (map d_id c) /\ (NoDup (map d_id c) -> NoDup (map fst r)).
Proof.
  revert r. induction c as [|d c IH]; intros r Hr; cbn [find_records] in Hr; [injection Hr as <-; split; [intros x []|auto]|].
  destruct (match d_ver d with Some v => f v | None => false end).
  - destruct (rec_hist d) as [h|]; [|discriminate]. destruct (find_records f c) as [l|]; [|discriminate]. injection Hr as <-. destruct (IH l eq_refl) as [I1 I2].
    cbn [map fst]. split; [intros x [<-|K]; [left; reflexivity|right; apply I1, K]|]. intro Hn. inversion Hn as [|? ? N1 N2]; subst. constructor; [|apply I2, N2]. intro K. apply N1, I1, K.
  - destruct (IH r Hr) as [I1 I2]. cbn [map]. split; [intros x K; right; apply I1, K|]. intro Hn. inversion Hn; subst. auto.
Qed.

Section More.
Context {O P : Type} (parse : dict -> O -> P) (peq : P -> P -> bool).
Notation gen_ops := (gen_ops parse peq).
Notation build := (build parse peq).
Notation plan := (plan parse peq).

(** ** The plan of a sync *)
(** which records are considered *)
Definition sel (ls : option Z) (om : list (Z * O)) (v : Z) : bool :=
  match ls with None => true | Some l => existsb (fun k => l <? k) (zkeys om) || (l <? v) end.
(** manager.py:477: [last_sync] *)
Definition after_of (resync : bool) (e : es P) : option Z := if resync then None else es_version e.
(** manager.py:495-501: the arcs are deleted for a resync *)
Definition base_of (resync : bool) (e : es P) : es P := if resync then delete_arcs e else e.
(** manager.py:482-486: nothing to do *)
Definition early (ls cv : option Z) : bool := match ls, cv with Some l, Some c => c <=? l | _, _ => false end.
Lemma plan_eq cap c om cv resync e : plan cap c om cv resync e =
  if negb (has_data c) then Some None
  else if negb (isNone (after_of resync e)) && isNone cv then None
  else if early (after_of resync e) cv then Some None
  else match find_records (sel (after_of resync e) om) c with
       | None => None
       | Some recs => match gen_ops cap (after_of resync e) om (get_arc_status (base_of resync e)) recs with
                      | None => None
                      | Some (_, ops) => Some (Some (base_of resync e, ops))
                      end
       end.
Proof.
  unfold Sync.plan, after_of, base_of. destruct (negb (has_data c)); [reflexivity|].
  destruct (if resync then None else es_version e) as [l|].
  - destruct cv as [m|]; [|reflexivity]. cbn [early]. destruct (m <=? l); [reflexivity|]. unfold sel.
    destruct (existsb (fun v => l <? v) (zkeys om)); reflexivity.
  - cbn [early]. unfold sel. destruct cv; reflexivity.
Qed.

(** ** Which documents the operations of a record write *)
Definition gt_end (after : option Z) (d : esdoc P) : bool := match e_end d with Some w => gt_after after w | None => false end.
(** specification or proof device; models no code of its own *)
Definition newer (after : option Z) (d : esdoc P) : bool := gt_after after (e_ver d) || gt_end after d.
Lemma rec_ops_nil after id rvs : (forall d, In d (rv_docs id rvs) -> newer after d = false) -> rec_ops after id rvs = [].
Proof.
  induction rvs as [|r rest IH]; intro H; [reflexivity|]. cbn [rec_ops]. cbn [rv_docs] in H. rewrite IH by (intros d Hd; apply H; right; exact Hd).
  specialize (H _ (or_introl eq_refl)). unfold newer, gt_end, create_doc in H. cbn [e_ver e_end] in H. apply orb_false_iff in H. destruct H as [H1 H2].
  rewrite H1. cbn [andb negb]. rewrite H2. reflexivity.
Qed.
Lemma rec_ops_written after id rvs d : In d (rv_docs id rvs) -> newer after d = true ->
  In d (arc_adds (rec_ops after id rvs)) \/ exists l, rec_ops after id rvs = l ++ [BIndexLatest id d].
Proof.
  induction rvs as [|r rest IH]; [intros []|]. cbn [rv_docs rec_ops]. intros [Hd|Hd] Hn.
  - subst d. unfold newer, gt_end, create_doc in Hn. cbn [e_ver e_end] in Hn. fold (create_doc id r (hd_error rest)).
    destruct (gt_after after (rv_ver r)) eqn:E1; cbn [andb negb orb] in *.
    + destruct rest as [|r2 rest]; cbn [hd_error isNone andb app].
      * destruct (rv_del r) eqn:E2; cbn [isNone app]; [left; cbn; auto|]. right. exists []. reflexivity.
      * left. cbn. auto.
    + rewrite Hn. cbn [negb]. left. unfold arc_adds. rewrite flat_map_app. apply in_or_app. right. left. reflexivity.
  - destruct (IH Hd Hn) as [K|(l & K)].
    + left. destruct (_ && _ && _); [exact K|]. destruct (_ && _); [exact K|]. unfold arc_adds. rewrite flat_map_app. apply in_or_app. right. right. exact K.
    + right. destruct (_ && _ && _); [exists (BIndexLatest id (create_doc id r (hd_error rest)) :: l); cbn; rewrite K; reflexivity|]. destruct (_ && _); [exists l; exact K|].
      eexists. rewrite K. rewrite app_comm_cons, app_assoc. reflexivity.
Qed.
(** operations only write documents of records, and only new ones *)
Lemma rec_ops_only after id rvs o : In o (rec_ops after id rvs) ->
  match o with
  | BIndexLatest i d => i = id /\ In d (rv_docs id rvs) /\ gt_after after (e_ver d) = true /\ e_end d = None
  | BIndexArc _ d => In d (rv_docs id rvs) /\ newer after d = true /\ e_end d <> None
  | BDeleteLatest i => i = id /\ exists d w, In d (rv_docs id rvs) /\ e_end d = Some w /\ gt_after after w = true /\ In (BIndexArc 0 d) (rec_ops after id rvs)
  end.
Proof.
  induction rvs as [|r rest IH]; [intros []|]. cbn [rec_ops rv_docs].
  assert (Rest : In o (rec_ops after id rest) -> forall pre, match o with
    | BIndexLatest i d => i = id /\ In d (create_doc id r (hd_error rest) :: rv_docs id rest) /\ gt_after after (e_ver d) = true /\ e_end d = None
    | BIndexArc _ d => In d (create_doc id r (hd_error rest) :: rv_docs id rest) /\ newer after d = true /\ e_end d <> None
    | BDeleteLatest i => i = id /\ exists d w, In d (create_doc id r (hd_error rest) :: rv_docs id rest) /\ e_end d = Some w /\ gt_after after w = true /\ In (BIndexArc 0 d) (pre ++ rec_ops after id rest)
    end).
  { intros K pre. specialize (IH K). destruct o as [i d|i|n d].
    - destruct IH as (A & B & C). split; [exact A|]. split; [right; exact B|exact C].
    - destruct IH as (A & d & w & B & C & D & F). split; [exact A|]. exists d, w. split; [right; exact B|]. split; [exact C|]. split; [exact D|]. apply in_or_app. right. exact F.
    - destruct IH as (A & B). split; [right; exact A|exact B]. }
  destruct (gt_after after (rv_ver r) && isNone (hd_error rest) && isNone (rv_del r)) eqn:E1.
  - intros [<-|K].
    + apply andb_true_iff in E1. destruct E1 as [E1 E3]. apply andb_true_iff in E1. destruct E1 as [E1 E2]. split; [reflexivity|]. split; [left; reflexivity|]. split; [exact E1|].
      unfold create_doc, version_end. cbn [e_end]. destruct (rv_del r); [discriminate|]. destruct (hd_error rest); [discriminate|reflexivity].
    + exact (Rest K [_]).
  - destruct (negb (gt_after after (rv_ver r)) && negb match version_end r (hd_error rest) with Some e => gt_after after e | None => false end) eqn:E2.
    + intro K. exact (Rest K []).
    + intro K.
      assert (Hend : e_end (create_doc id r (hd_error rest)) <> None).
      { cbn [create_doc e_end]. unfold version_end in *. destruct (rv_del r); [discriminate|]. destruct (hd_error rest); [discriminate|].
        cbn [isNone] in E1. rewrite !andb_true_r in E1. rewrite E1 in E2. discriminate. }
      assert (Hnew : newer after (create_doc id r (hd_error rest)) = true).
      { unfold newer, gt_end, create_doc. cbn [e_ver e_end]. apply negb_false_iff. rewrite negb_orb. exact E2. }
      apply in_app_or in K. destruct K as [K|[K|K]].
      * destruct (negb (gt_after after (rv_ver r)) && isNone (hd_error rest)) eqn:E3; [|contradiction]. destruct K as [<-|[]]. split; [reflexivity|].
        apply andb_true_iff in E3. destruct E3 as [E3 _]. rewrite E3 in E2. cbn [andb] in E2. apply negb_false_iff in E2.
        cbn [create_doc e_end] in Hend. destruct (version_end r (hd_error rest)) as [w|] eqn:Ew; [|discriminate].
        exists (create_doc id r (hd_error rest)), w. split; [left; reflexivity|]. split; [cbn; exact Ew|]. split; [exact E2|]. apply in_or_app. right. left. reflexivity.
      * subst o. split; [left; reflexivity|]. split; [exact Hnew|exact Hend].
      * pose proof (Rest K ((if negb (gt_after after (rv_ver r)) && isNone (hd_error rest) then [BDeleteLatest id] else []) ++ [BIndexArc 0 (create_doc id r (hd_error rest))])) as Q.
        rewrite <- app_assoc in Q. exact Q.
Qed.

(** ** Written documents are there *)
Lemma in_all_lat (D : docs P) id d : In d (lat_of id D) -> In d (all_docs D).
Proof. intro H. apply in_all_docs. left. exists id. exact H. Qed.
Lemma live_written cap after om recs st st' ops (D : docs P) id h rvs d :
  gen_ops cap after om st recs = Some (st', ops) -> NoDup (map fst recs) -> In (id, h) recs -> build h om = Some rvs ->
  In d (rv_docs id rvs) -> newer after d = true -> In d (all_docs (apply_bops D ops)).
Proof.
  intros Hg Hn Hi Hb Hd Hw. destruct (gen_ops_of_id parse peq cap after om recs st st' ops Hg Hn id) as [_ K].
  destruct (K h Hi) as (rvs' & Hb' & Hs). rewrite Hb in Hb'. injection Hb' as <-.
  destruct (rec_ops_written after id rvs d Hd Hw) as [Q|(l & Q)].
  - apply (in_arc_of _ d id). rewrite arc_of_apply. apply in_or_app. right. rewrite <- arc_adds_strip, Hs. exact Q.
  - apply (in_all_lat _ id). rewrite lat_of_apply, <- lat_run_strip, Hs, Q, lat_run_app. left. reflexivity.
Qed.
Lemma gen_ops_recs cap after om recs st st' ops : gen_ops cap after om st recs = Some (st', ops) -> forall id h, In (id, h) recs -> build h om <> None.
Proof.
  revert st st' ops. induction recs as [|[i h0] recs IH]; intros st st' ops H id h Hi; [contradiction|]. cbn [Index.gen_ops] in H.
  destruct (build h0 om) as [rvs|] eqn:Eb; [|discriminate]. destruct (gen_rvs cap after i st rvs) as [st1 ops1].
  destruct (gen_ops cap after om st1 recs) as [[st2 ops2]|] eqn:E2; [|discriminate].
  destruct Hi as [K|K]; [injection K as <- <-; rewrite Eb; discriminate|]. exact (IH _ _ _ E2 id h K).
Qed.
Lemma gen_ops_In cap after om recs st st' ops o : gen_ops cap after om st recs = Some (st', ops) -> NoDup (map fst recs) -> In o ops ->
  exists h rvs, In (bop_id o, h) recs /\ build h om = Some rvs /\ In (strip o) (rec_ops after (bop_id o) rvs) /\ map strip (of_id (bop_id o) ops) = rec_ops after (bop_id o) rvs.
Proof.
  intros Hg Hn Ho. pose proof (gen_ops_ids parse peq cap after om recs st st' ops Hg) as K. rewrite Forall_forall in K. specialize (K o Ho).
  apply in_map_iff in K. destruct K as ([id h] & E & Hi). cbn [fst] in E. subst id.
  destruct (gen_ops_of_id parse peq cap after om recs st st' ops Hg Hn (bop_id o)) as [_ Q]. destruct (Q h Hi) as (rvs & Hb & Hs).
  exists h, rvs. split; [exact Hi|]. split; [exact Hb|]. split; [|exact Hs]. rewrite <- Hs. apply in_map. apply filter_In. split; [exact Ho|apply str_eqb_refl].
Qed.

(** ** A second sync *)
Definition same_visible (e e' : es P) : Prop :=
  lat (vis e) = lat (vis e') /\ forall n, filter (fun nx => N.eqb (fst nx) n) (arc (vis e)) = filter (fun nx => N.eqb (fst nx) n) (arc (vis e')).
Lemma same_visible_refl e : same_visible e e. Proof. split; reflexivity. Qed.
Lemma fresh_delete_arcs (e : es P) : fresh e -> fresh (delete_arcs e).
Proof. intros [H _]. split; [exact H|reflexivity]. Qed.
Lemma fresh_base resync (e : es P) : fresh e -> fresh (base_of resync e).
Proof. destruct resync; [apply fresh_delete_arcs|auto]. Qed.
(** specification or proof device; models no code of its own *)
Definition below (ls ls' : option Z) : Prop := forall v, gt_after ls' v = true -> gt_after ls v = true.
Lemma below_spec ls ls' : below ls ls' <-> match ls, ls' with None, _ => True | Some a, Some b => a <= b | Some _, None => False end.
Proof.
  unfold below, gt_after. destruct ls as [a|], ls' as [b|]; try tauto.
  - split; [intro H|intros H v K; lia]. destruct (Z.le_gt_cases a b) as [L|L]; [exact L|]. specialize (H (b + 1)). lia.
  - split; [intro H; specialize (H a eq_refl); lia|contradiction].
Qed.
Lemma sel_below ls ls' om v : below ls ls' -> sel ls' om v = true -> sel ls om v = true.
Proof.
  rewrite below_spec. unfold sel. destruct ls as [a|], ls' as [b|]; auto; try contradiction. intros H. rewrite !orb_true_iff, !existsb_exists.
  intros [(k & K1 & K2)|K]; [left; exists k; split; [exact K1|lia]|right; lia].
Qed.
Lemma vis_bound (e : es P) d : In d (all_docs (vis e)) -> newer (es_version e) d = false.
Proof.
  intro Hd. destruct (es_version e) as [m|] eqn:E.
  - apply es_version_spec in E. destruct E as [_ E]. destruct (E d Hd) as [E1 E2]. unfold newer, gt_end, gt_after.
    destruct (e_end d) as [w|]; [specialize (E2 w eq_refl)|]; apply orb_false_iff; split; try reflexivity; apply Z.ltb_ge; lia.
  - apply es_version_None in E. rewrite E in Hd. contradiction.
Qed.
Lemma ops_raise_version cap after om recs st st' ops (e : es P) : fresh e -> below after (es_version e) \/ after = es_version e ->
  gen_ops cap after om st recs = Some (st', ops) -> NoDup (map fst recs) -> after = es_version e ->
  below (es_version e) (es_version (write_ops ops e)).
Proof.
  intros Fr _ Hg Hn Ha. rewrite Ha in Hg. rewrite below_spec. destruct (es_version e) as [l|] eqn:El; [|exact I].
  assert (Fr' : fresh (write_ops ops e)) by (apply write_fresh, Fr).
  assert (G : exists d, In d (all_docs (live (write_ops ops e))) /\ (l <= e_ver d \/ exists w, e_end d = Some w /\ l <= w)).
  { apply es_version_spec in El. destruct El as [(d & Hd & Hl) _]. apply (fresh_In e d Fr) in Hd.
    assert (Hl' : l <= e_ver d \/ exists w, e_end d = Some w /\ l <= w) by (destruct Hl as [<-|Hl]; [left; lia|right; exists l; split; [exact Hl|lia]]).
    rewrite write_live_docs. apply in_all_docs in Hd. destruct Hd as [(id & Hd)|Hd].
    - destruct (existsb (fun o => negb (match o with BIndexArc _ _ => true | _ => false end)) (of_id id ops)) eqn:Ex.
      + apply existsb_exists in Ex. destruct Ex as (o & Ho & Hlat). apply filter_In in Ho. destruct Ho as [Ho Hid]. apply str_eqb_eq in Hid.
        destruct (gen_ops_In cap (Some l) om recs st st' ops o Hg Hn Ho) as (h & rvs & Hi & Hb & Hin & Hall). rewrite Hid in *.
        pose proof (rec_ops_only (Some l) id rvs (strip o) Hin) as R. destruct o as [i d'|i|n d']; cbn [strip] in R; [| |discriminate].
        * destruct R as (_ & R1 & R2 & _). exists d'. split; [|left; cbn in R2; lia].
          eapply (live_written cap (Some l)); eauto. unfold newer. rewrite R2. reflexivity.
        * destruct R as (_ & d' & w & R1 & R2 & R3 & _). exists d'. split; [|right; exists w; split; [exact R2|cbn in R3; lia]].
          eapply (live_written cap (Some l)); eauto. unfold newer, gt_end. rewrite R2, R3. apply orb_true_r.
      + exists d. split; [|exact Hl']. apply (in_all_lat _ id). rewrite lat_of_apply.
        replace (lat_run (lat_of id (live e)) (of_id id ops)) with (lat_of id (live e)); [exact Hd|].
        clear - Ex. generalize (lat_of id (live e)). induction (of_id id ops) as [|o l0 IH]; intro x; [reflexivity|]. cbn [existsb] in Ex. apply orb_false_iff in Ex. destruct Ex as [E1 E2].
        destruct o; try discriminate. cbn. apply IH, E2.
    - exists d. split; [|exact Hl']. apply (in_arc_of _ d (e_id d)). rewrite arc_of_apply. apply in_or_app. left. exact Hd. }
  destruct G as (d & Hd & Hl). apply (fresh_In _ d Fr') in Hd. pose proof (vis_bound _ d Hd) as V. unfold newer, gt_end, gt_after in V.
  apply orb_false_iff in V. destruct V as [V1 V2]. destruct (es_version (write_ops ops e)) as [m|]; [|discriminate].
  destruct Hl as [Hl|(w & Hw & Hl)]; [lia|]. rewrite Hw in V2. lia.
Qed.

Lemma gcv_of_data (cl : client O) name : has_data (data cl name) = true -> get_committed_version cl name <> None.
Proof.
  unfold has_data, get_committed_version. intros H K. apply existsb_exists in H. destruct H as (d & Hd & Hv). destruct (d_ver d) as [v|] eqn:Ev; [|discriminate].
  destruct (max_opt (map d_ver (data cl name))) as [m|] eqn:Em.
  - rewrite max_opt_cons in K. destruct (max_opt [_]); discriminate.
  - clear K. revert Hd Em. induction (data cl name) as [|d' l IH]; [intros []|]. intros [->|Hd]; cbn [map]; rewrite max_opt_cons.
    + rewrite Ev. destruct (max_opt _); discriminate.
    + intro Em. apply IH; [exact Hd|]. destruct (d_ver d'), (max_opt (map d_ver l)); try discriminate; reflexivity.
Qed.

Lemma sync_again cap (cl : client O) name resync (e e' : es P) : NoDup (map d_id (data cl name)) -> fresh e ->
  sync parse peq cap cl name resync e = Some e' ->
  exists e2, sync parse peq cap cl name false e' = Some e2 /\ live e2 = live e' /\ same_visible e2 e' /\ arcs e2 = arcs e' /\ has_lat e2 = has_lat e'.
Proof.
  intros Hnd Fr. unfold sync, sync_plan. rewrite (plan_eq cap _ _ _ resync).
  assert (Same : forall e0 : es P, exists e2, Some e0 = Some e2 /\ live e2 = live e0 /\ same_visible e2 e0 /\ arcs e2 = arcs e0 /\ has_lat e2 = has_lat e0)
    by (intro e0; exists e0; repeat split; reflexivity).
  destruct (has_data (data cl name)) eqn:Hd; cbn [negb].
  2:{ cbn [run_plan]. intro H. injection H as <-. rewrite plan_eq, Hd. cbn [negb run_plan]. apply Same. }
  destruct (get_committed_version cl name) as [cv|] eqn:Ecv; [|exfalso; exact (gcv_of_data cl name Hd Ecv)].
  set (om := get_options cl name). set (c := data cl name) in *.
  rewrite andb_false_r.
  set (ls := after_of resync e). assert (Els : ls = after_of resync e) by reflexivity. clearbody ls.
  destruct (early ls (Some cv)) eqn:Ee.
  { cbn [run_plan]. intro H. injection H as <-. destruct ls as [l|]; [|discriminate]. rewrite plan_eq, Hd. cbn [negb].
    unfold after_of in *. destruct resync; [discriminate|]. cbn [isNone]. rewrite andb_false_r, <- Els, Ee. cbn [run_plan]. apply Same. }
  destruct (find_records (sel ls om) c) as [recs|] eqn:Er; [|discriminate].
  destruct (gen_ops cap ls om (get_arc_status (base_of resync e)) recs) as [[st' ops]|] eqn:Eg; [|discriminate].
  cbn [run_plan]. intro H. injection H as <-. set (e' := write_ops ops (base_of resync e)).
  assert (Hn : NoDup (map fst recs)) by (apply (find_records_ids _ c recs Er), Hnd).
  assert (Frb : fresh (base_of resync e)) by (apply fresh_base, Fr).
  assert (Fr' : fresh e') by (apply write_fresh, Frb).
  assert (Hb : below ls (es_version e')).
  { destruct resync; cbn [after_of base_of] in *; [subst ls; apply below_spec; exact I|]. rewrite Els. unfold e'. cbn [base_of].
    apply (ops_raise_version cap ls om recs (get_arc_status e) st' ops e); auto. }
  rewrite plan_eq, Hd. cbn [negb isNone]. rewrite andb_false_r. cbn [after_of base_of].
  set (ls' := es_version e') in *.
  destruct (early ls' (Some cv)); [cbn [run_plan]; apply Same|].
  destruct (find_records_sub (sel ls' om) (sel ls om) c recs (fun v => sel_below ls ls' om v Hb) Er) as (recs2 & Er2 & Hi2).
  rewrite Er2. assert (Hn2 : NoDup (map fst recs2)) by (apply (find_records_ids _ c recs2 Er2), Hnd).
  destruct (gen_ops_total parse peq cap ls' om recs2 (get_arc_status e')) as (st2 & ops2 & Eg2).
  { intros id h Hi. exact (gen_ops_recs cap ls om recs _ st' ops Eg id h (Hi2 _ Hi)). }
  rewrite Eg2. cbn [run_plan].
  assert (Z : ops2 = []).
  { destruct ops2 as [|o ops2']; [reflexivity|]. exfalso. destruct (gen_ops_In cap ls' om recs2 _ st2 _ o Eg2 Hn2 (or_introl eq_refl)) as (h & rvs & Hi & Hbd & Hin & _).
    rewrite rec_ops_nil in Hin; [contradiction|]. intros d Hdd. destruct (newer ls d) eqn:Enw.
    - apply vis_bound. apply (fresh_In e' d Fr'). unfold e'. rewrite write_live_docs. eapply (live_written cap ls om recs); eauto.
    - unfold newer, gt_end in *. apply orb_false_iff in Enw. destruct Enw as [N1 N2]. apply orb_false_iff. split.
      + destruct (gt_after ls' (e_ver d)) eqn:K; [|reflexivity]. rewrite (Hb _ K) in N1. discriminate.
      + destruct (e_end d) as [w|]; [|reflexivity]. destruct (gt_after ls' w) eqn:K; [|reflexivity]. rewrite (Hb _ K) in N2. discriminate. }
  subst ops2. eexists. split; [reflexivity|]. unfold write_ops, refresh, write_live, setup. cbn [isnil live vis arcs has_lat apply_bops fold_left lat_seen existsb].
  split; [reflexivity|]. split; [|split; [reflexivity|apply orb_false_r]]. destruct Fr' as [F1 F2]. split; cbn [vis]; [symmetry; exact F1|intro n; symmetry; apply F2].
Qed.

(** ** Order of the operations *)
Definition is_lat (o : bop P) : bool := match o with BIndexArc _ _ => false | _ => true end.
Lemma rec_ops_one_lat after id rvs : (length (filter is_lat (rec_ops after id rvs)) <= 1)%nat.
Proof.
  induction rvs as [|r rest IH]; [cbn; lia|]. cbn [rec_ops]. destruct rest as [|r2 rest].
  - cbn [rec_ops hd_error isNone]. destruct (_ && _ && _); [cbn; lia|]. destruct (_ && _); [cbn; lia|]. rewrite filter_app. destruct (_ && _); cbn; lia.
  - cbn [hd_error isNone]. rewrite !andb_false_r. cbn [andb app]. destruct (_ && _); exact IH.
Qed.
Lemma lat_run_filter ops : forall l, lat_run l ops = lat_run l (filter is_lat ops).
Proof. unfold lat_run. induction ops as [|o ops IH]; intro l; [reflexivity|]. cbn [fold_left filter]. destruct o; cbn [is_lat fold_left lat_eff]; apply IH. Qed.
Lemma filter_perm {A} (f : A -> bool) l l' : Permutation l l' -> Permutation (filter f l) (filter f l').
Proof.
  induction 1 as [|x l l' _ IH|x y l|l l1 l2 _ IH1 _ IH2]; [constructor| | |eapply perm_trans; eassumption]; cbn [filter].
  - destruct (f x); [constructor; exact IH|exact IH].
  - destruct (f x), (f y); try apply Permutation_refl. constructor.
Qed.
Lemma perm_one {A} (l l' : list A) : Permutation l l' -> (length l <= 1)%nat -> l = l'.
Proof.
  intros H Hl. destruct l as [|x [|y l]]; [apply Permutation_nil in H; auto|apply Permutation_length_1_inv in H; auto|cbn in Hl; lia].
Qed.
(** specification or proof device; models no code of its own *)
Definition arc_pair (o : bop P) : list (N * esdoc P) := match o with BIndexArc n d => [(n, d)] | _ => [] end.
Lemma arc_apply ops : forall D : docs P, arc (apply_bops D ops) = arc D ++ flat_map arc_pair ops.
Proof.
  unfold apply_bops. induction ops as [|o ops IH]; intro D; [symmetry; apply app_nil_r|]. cbn [fold_left flat_map]. rewrite IH. destruct D as [l a].
  destruct o; cbn [apply_bop arc arc_pair app]; [reflexivity|reflexivity|]. rewrite <- app_assoc. reflexivity.
Qed.
Lemma flat_map_perm {A B} (f : A -> list B) l l' : Permutation l l' -> Permutation (flat_map f l) (flat_map f l').
Proof.
  induction 1 as [|x l l' _ IH|x y l|l l1 l2 _ IH1 _ IH2]; [constructor| | |eapply perm_trans; eassumption]; cbn [flat_map].
  - apply Permutation_app_head, IH.
  - rewrite !app_assoc. apply Permutation_app_tail, Permutation_app_comm.
Qed.
Lemma existsb_perm {A} (f : A -> bool) l l' : Permutation l l' -> existsb f l = existsb f l'.
Proof. induction 1; cbn; [reflexivity|congruence|destruct (f x), (f y); reflexivity|congruence]. Qed.
(** The same documents in every index. *)
Definition same_index_docs (D D' : docs P) : Prop :=
  (forall id, lat_of id D = lat_of id D') /\ Permutation (arc D) (arc D').
(** specification or proof device; models no code of its own *)
Definition same_indices (e e' : es P) : Prop :=
  same_index_docs (live e) (live e') /\ same_index_docs (vis e) (vis e') /\ (forall n, In n (arcs e) <-> In n (arcs e')) /\ has_lat e = has_lat e'.
Lemma add_arc_In ops : forall l n, In n (fold_left (add_arc (P := P)) ops l) <-> In n l \/ arc_seen ops n = true.
Proof.
  unfold arc_seen. induction ops as [|o ops IH]; intros l n; [cbn; intuition discriminate|]. cbn [fold_left existsb]. rewrite IH. destruct o as [i d|i|m d]; cbn [add_arc orb]; try tauto.
  rewrite orb_true_iff. destruct (existsb (N.eqb m) l) eqn:E.
  - apply existsb_exists in E. destruct E as (k & K1 & K2). apply N.eqb_eq in K2. subst k. rewrite N.eqb_eq. intuition. subst. auto.
  - rewrite in_app_iff, N.eqb_eq. cbn. intuition.
Qed.
Lemma one_lat_perm (ops ops' : list (bop P)) id l : (length (filter is_lat (of_id id ops)) <= 1)%nat -> Permutation ops ops' ->
  lat_run l (of_id id ops) = lat_run l (of_id id ops').
Proof.
  intros H1 Hp. rewrite (lat_run_filter (of_id id ops)), (lat_run_filter (of_id id ops')). f_equal. apply perm_one; [|exact H1]. apply filter_perm, filter_perm, Hp.
Qed.
Lemma write_perm ops ops' (e : es P) : (forall id, (length (filter is_lat (of_id id ops)) <= 1)%nat) -> Permutation ops ops' ->
  same_indices (write_ops ops e) (write_ops ops' e).
Proof.
  intros H1 Hp.
  assert (L : same_index_docs (apply_bops (live e) ops) (apply_bops (live e) ops')).
  { split; [intro id; rewrite !lat_of_apply; apply one_lat_perm; auto|]. rewrite !arc_apply. apply Permutation_app_head, flat_map_perm, Hp. }
  assert (S1 : lat_seen ops = lat_seen ops') by (apply existsb_perm, Hp).
  assert (S2 : forall n, arc_seen ops n = arc_seen ops' n) by (intro; apply existsb_perm, Hp).
  unfold write_ops, refresh, write_live, setup, same_indices. cbn [live vis arcs has_lat].
  assert (En : isnil ops = isnil ops').
  { destruct ops as [|o l], ops' as [|o' l']; try reflexivity; [apply Permutation_nil in Hp; discriminate|apply Permutation_sym, Permutation_nil in Hp; discriminate]. }
  rewrite <- En. destruct (isnil ops); cbn [live vis arcs has_lat]; (split; [exact L|]); (split; [|split; [intro n; rewrite !add_arc_In, S2; tauto|congruence]]).
  - exact L.
  - destruct L as [L1 L2]. split.
    + intro id. unfold lat_of. cbn [lat]. rewrite <- S1. destruct (lat_seen ops); [exact (L1 id)|reflexivity].
    + cbn [arc]. apply Permutation_app.
      * rewrite (filter_ext (fun nx => arc_seen ops (fst nx)) (fun nx => arc_seen ops' (fst nx))) by (intro; apply S2). apply filter_perm, L2.
      * rewrite (filter_ext (fun nx => negb (arc_seen ops (fst nx))) (fun nx => negb (arc_seen ops' (fst nx)))) by (intro; rewrite S2; reflexivity). apply Permutation_refl.
Qed.
Lemma plan_one_lat cap c om cv resync e e1 ops : NoDup (map d_id c) -> plan cap c om cv resync e = Some (Some (e1, ops)) ->
  forall id, (length (filter is_lat (of_id id ops)) <= 1)%nat.
Proof.
  intros Hnd H id. rewrite plan_eq in H. destruct (negb (has_data c)); [discriminate|].
  assert (G : forall ls, match find_records (sel ls om) c with
    | Some recs => match gen_ops cap ls om (get_arc_status (base_of resync e)) recs with Some (_, ops0) => Some (Some (base_of resync e, ops0)) | None => None end
    | None => None end = Some (Some (e1, ops)) -> (length (filter is_lat (of_id id ops)) <= 1)%nat).
  { intro ls. destruct (find_records (sel ls om) c) as [recs|] eqn:Er; [|discriminate].
    destruct (gen_ops cap ls om (get_arc_status (base_of resync e)) recs) as [[st' ops0]|] eqn:Eg; [|discriminate]. intro K. injection K as _ <-.
    assert (Hn : NoDup (map fst recs)) by (apply (find_records_ids _ c recs Er), Hnd).
    destruct (gen_ops_of_id parse peq cap ls om recs _ st' ops0 Eg Hn id) as [K1 K2].
    destruct (in_dec (list_eq_dec N.eq_dec) id (map fst recs)) as [Hi|Hi]; [|rewrite (K1 Hi); cbn; lia].
    apply in_map_iff in Hi. destruct Hi as ([i h] & E & Hi). cbn in E. subst i. destruct (K2 h Hi) as (rvs & _ & Hs).
    pose proof (rec_ops_one_lat ls id rvs) as Q. rewrite <- Hs in Q. clear - Q. revert Q. generalize (of_id id ops0). intros l Q.
    replace (length (filter is_lat l)) with (length (filter is_lat (map strip l))); [exact Q|]. clear Q. induction l as [|o l IH]; [reflexivity|]. destruct o; cbn; rewrite ?IH; auto. }
  destruct (_ && _); [discriminate|]. destruct (early _ _); [discriminate|]. exact (G _ H).
Qed.
End More.
