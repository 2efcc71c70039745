(** Syncs after any history: records that were deleted may stay in latest. *)
From Coq Require Import List ZArith NArith Bool Lia Sorted Permutation.
From Verif Require Import PyVal Diff DiffProofs Prepare Mongo Store MongoProofs MongoStore MongoMore PropsMongo Client ClientProofs.
From Verif Require Import Index IndexSpec IndexProofs PropsIndex Sync SyncSpec SyncProofs SyncBuild SyncColl SyncTrace SyncView SyncMore SyncArcs SyncEvents SyncReach.
Import ListNotations.
Open Scope Z_scope.

(** ** The operations of one record and latest *)
Section Rec.
Context {P : Type}.
Notation esdoc := (esdoc P).
(** specification or proof device; models no code of its own *)
Definition some_open (l : list esdoc) : bool := existsb is_open l.
(** specification or proof device; models no code of its own *)
Definition begins_after (a : Z) (l : list esdoc) : bool := existsb (fun d => a <? e_ver d) l.
Lemma some_open_filter (l : list esdoc) : some_open l = match filter is_open l with [] => false | _ => true end.
Proof. unfold some_open. induction l as [|x l IH]; [reflexivity|]. cbn. destruct (is_open x); [reflexivity|exact IH]. Qed.

Lemma rec_ops_fresh_lat after id (rvs : list (rv P)) : Forall (fun r => gt_after after (rv_ver r) = true) rvs ->
  existsb is_lat (rec_ops after id rvs) = some_open (rv_docs id rvs).
Proof.
  unfold some_open. induction 1 as [|r rest Hr _ IH]; [reflexivity|]. cbn [rec_ops rv_docs]. rewrite Hr. cbn [negb andb existsb].
  assert (Ho : is_open (create_doc id r (hd_error rest)) = isNone (hd_error rest) && isNone (rv_del r)).
  { unfold is_open, create_doc, version_end. cbn [e_end]. destruct (rv_del r), (hd_error rest); reflexivity. }
  rewrite Ho. destruct (isNone (hd_error rest) && isNone (rv_del r)); [reflexivity|]. cbn [app existsb is_lat orb]. exact IH.
Qed.
(** Which records have operations on latest, and what these do: only when the record was there before, and no version of it
    began since, but has no data now, does its document leave latest. *)
Lemma rec_ops_lat a e id (rvs0 rvs : list (rv P)) : extends a (rev rvs0) (rev rvs) -> bounded e (rev rvs0) -> e <= a ->
  let same := some_open (rv_docs id rvs0) && negb (begins_after a (rv_docs id rvs)) in
  existsb is_lat (rec_ops (Some e) id rvs) = negb (eqb same (some_open (rv_docs id rvs))) /\
  (existsb is_lat (rec_ops (Some e) id rvs) = true -> forall l, lat_run l (rec_ops (Some e) id rvs) = filter is_open (rv_docs id rvs)) /\
  (same = true -> some_open (rv_docs id rvs) = true -> filter is_open (rv_docs id rvs0) = filter is_open (rv_docs id rvs)).
Proof.
  intros (new & r & r' & rest & E0 & E1 & V & Pp & D & F) B He same.
  assert (Er0 : rvs0 = rev rest ++ [r]) by (rewrite <- (rev_involutive rvs0), E0; reflexivity).
  assert (Er : rvs = rev rest ++ r' :: rev new).
  { rewrite <- (rev_involutive rvs), E1, rev_app_distr. cbn. rewrite <- app_assoc. reflexivity. }
  rewrite E0 in B. inversion B as [|? ? [B1 B2] B3]; subst x l.
  assert (Ho : Forall (old e) (rev rest)) by (apply Forall_rev; exact B3).
  assert (Fn : Forall (fun n => gt_after (Some e) (rv_ver n) = true) (rev new)).
  { apply Forall_rev. eapply Forall_impl; [|exact F]. cbn. intros x Hx. destruct (Z.ltb_spec e (rv_ver x)); [reflexivity|lia]. }
  destruct (rec_ops_fresh (Some e) id (rev new) Fn) as [A1 A2].
  pose proof (rec_ops_fresh_lat (Some e) id (rev new) Fn) as A3.
  assert (A4 : existsb is_lat (rec_ops (Some e) id (rev new)) = true -> forall l, lat_run l (rec_ops (Some e) id (rev new)) = filter is_open (rv_docs id (rev new))).
  { intros K l. rewrite A2. rewrite A3, some_open_filter in K. destruct (filter is_open _); [discriminate|reflexivity]. }
  destruct (docs_before_closed id (rev rest) r) as [C1 C2].
  assert (O0 : filter is_open (rv_docs id rvs0) = filter is_open [create_doc id r None]).
  { rewrite Er0, rv_docs_last, filter_app, C1. reflexivity. }
  assert (O1 : filter is_open (rv_docs id rvs) = filter is_open (rv_docs id (r' :: rev new))).
  { rewrite Er, rv_docs_split, (docs_before_ver id (rev rest) r' r V), filter_app, C1. reflexivity. }
  assert (Oo : some_open (rv_docs id rvs0) = isNone (rv_del r)).
  { rewrite some_open_filter, O0. cbn. unfold is_open, create_doc, version_end. cbn. destruct (rv_del r); reflexivity. }
  assert (Og : begins_after a (rv_docs id rvs) = negb (isnil new)).
  { unfold begins_after. destruct new as [|z new].
    - cbn [isnil negb]. apply not_true_is_false. intro K. apply existsb_exists in K. destruct K as (d & Hd & Ld). apply Z.ltb_lt in Ld.
      apply In_nth_error in Hd. destruct Hd as (i & Hi). apply rv_docs_nth in Hi. destruct Hi as (q & Hq & ->). cbn [create_doc e_ver] in Ld.
      apply nth_error_In in Hq. rewrite Er in Hq. apply in_app_or in Hq. destruct Hq as [Hq|[<-|[]]]; [|lia].
      rewrite Forall_forall in Ho. destruct (Ho q Hq) as [Q _]. lia.
    - cbn [isnil negb]. apply existsb_exists. assert (Hz : In z rvs) by (rewrite Er; apply in_or_app; right; right; apply -> in_rev; left; reflexivity).
      apply In_nth_error in Hz. destruct Hz as (i & Hi). exists (create_doc id z (nth_error rvs (S i))). split; [apply (nth_error_In _ i), rv_docs_nth'; exact Hi|].
      inversion F as [|? ? Fz _]; subst x l. cbn [create_doc e_ver]. apply Z.ltb_lt. exact Fz. }
  assert (Es : same = isNone (rv_del r) && isnil new) by (unfold same; rewrite Oo, Og, negb_involutive; reflexivity).
  rewrite Es, (some_open_filter (rv_docs id rvs)), O1, O0, <- some_open_filter, Er. clear same Es. rewrite (rec_ops_old e id (rev rest) r' (rev new) Ho) by (rewrite V; exact B1).
  cbn [rec_ops rv_docs]. rewrite V.
  assert (Hg : gt_after (Some e) (rv_ver r) = false) by (cbn; destruct (Z.ltb_spec e (rv_ver r)); [lia|reflexivity]).
  rewrite Hg. cbn [andb negb hd_error].
  destruct (rv_del r) as [w|] eqn:Dr.
  - (* was deleted already *)
    destruct D as [D|(D & _)]; [|discriminate].
    assert (Hw : (e <? w) = false) by (destruct (Z.ltb_spec e w); [lia|reflexivity]).
    assert (Hend : forall n, version_end r' n = Some w) by (intro n; unfold version_end; rewrite D; reflexivity).
    rewrite !Hend. cbn [gt_after]. rewrite Hw. cbn [negb isNone andb].
    assert (Hop : forall n, is_open (create_doc id r' n) = false) by (intro n; unfold is_open, create_doc; cbn [e_end]; rewrite Hend; reflexivity).
    rewrite !fo_cons, Hop. unfold some_open in A3 |- *. cbn [existsb]. rewrite Hop. cbn [orb]. split; [rewrite A3; destruct (existsb is_open _); reflexivity|]. split; [exact A4|discriminate].
  - (* was live *)
    cbn [isNone andb]. destruct new as [|z new].
    + cbn [rev isnil hd_error rv_docs filter isNone]. destruct D as [D|(_ & w & Hw & D)].
      * assert (Hend : version_end r' None = None) by (unfold version_end; rewrite D; reflexivity). rewrite !Hend. cbn [negb].
        assert (Hdoc : create_doc id r' None = create_doc id r None).
        { unfold create_doc, version_end. rewrite V, Pp, D, Dr. reflexivity. }
        rewrite Hdoc. assert (Hop0 : is_open (create_doc id r None) = true) by (unfold is_open, create_doc, version_end; cbn; rewrite Dr; reflexivity).
        rewrite Hop0. unfold some_open. cbn [existsb]. rewrite Hop0. split; [reflexivity|]. split; [discriminate|reflexivity].
      * assert (Hend : version_end r' None = Some w) by (unfold version_end; rewrite D; reflexivity). rewrite !Hend. cbn [gt_after]. destruct (Z.ltb_spec e w) as [_|K]; [|lia]. cbn [negb app].
        assert (Hop : is_open (create_doc id r' None) = false) by (unfold is_open, create_doc, version_end; cbn; rewrite D; reflexivity).
        rewrite Hop. unfold some_open. cbn [existsb]. rewrite Hop. split; [reflexivity|]. split; [reflexivity|discriminate].
    + cbn [isnil]. destruct (rev (z :: new)) as [|m ms] eqn:En; [cbn in En; destruct (rev new); discriminate|].
      cbn [hd_error isNone]. inversion Fn as [|? ? Fm _]; subst x l.
      assert (Hend : exists w, version_end r' (Some m) = Some w /\ e < w).
      { unfold version_end. destruct D as [D|(_ & w & Hw & D)]; rewrite D; [|exists w; split; [reflexivity|lia]].
        exists (rv_ver m). split; [reflexivity|]. cbn in Fm. lia. }
      destruct Hend as (w & Hend & Hw). rewrite Hend. cbn [gt_after]. destruct (Z.ltb_spec e w) as [_|K]; [|lia]. cbn [negb app].
      assert (Hop : is_open (create_doc id r' (Some m)) = false) by (unfold is_open, create_doc; cbn [e_end]; rewrite Hend; reflexivity).
      rewrite fo_cons, Hop. unfold some_open in A3 |- *. cbn [existsb is_lat orb]. rewrite Hop. cbn [orb]. split; [rewrite A3; destruct (existsb is_open _); reflexivity|]. split; [exact A4|discriminate].
Qed.

Lemma stale_risky a id (rvs0 rvs : list (rv P)) : extends a (rev rvs0) (rev rvs) -> bounded a (rev rvs0) ->
  some_open (rv_docs id rvs0) = true -> some_open (rv_docs id rvs) = false -> begins_after a (rv_docs id rvs) = true -> risky a (rev rvs0) (rev rvs).
Proof.
  intros (new & r & r' & rest & E0 & E1 & V & Pp & D & F) B So0 So Bg.
  assert (Er0 : rvs0 = rev rest ++ [r]) by (rewrite <- (rev_involutive rvs0), E0; reflexivity).
  assert (Last : forall l (x : rv P), some_open (rv_docs id (l ++ [x])) = isNone (rv_del x)).
  { intros l x. rewrite some_open_filter, rv_docs_last, filter_app. destruct (docs_before_closed id l x) as [C1 _]. rewrite C1. cbn.
    unfold is_open, create_doc, version_end. cbn. destruct (rv_del x); reflexivity. }
  rewrite Er0, Last in So0. assert (Dr : rv_del r = None) by (destruct (rv_del r); [discriminate|reflexivity]).
  destruct (rev rvs) as [|x l] eqn:Ex; [destruct new; discriminate|].
  assert (Er : rvs = rev l ++ [x]) by (rewrite <- (rev_involutive rvs), Ex; reflexivity).
  rewrite Er, Last in So. exists r, rest, x, l. split; [exact E0|]. split; [exact Dr|]. split; [reflexivity|]. split; [destruct (rv_del x); [discriminate|discriminate So]|].
  destruct new as [|z new]; [|cbn in E1; injection E1 as -> _; inversion F; assumption].
  cbn in E1. injection E1 as -> ->. exfalso. unfold begins_after in Bg. apply existsb_exists in Bg. destruct Bg as (d & Hd & Ld). apply Z.ltb_lt in Ld.
  apply In_nth_error in Hd. destruct Hd as (i & Hi). apply rv_docs_nth in Hi. destruct Hi as (q & Hq & ->). cbn [create_doc e_ver] in Ld.
  apply nth_error_In in Hq. rewrite E0 in B. unfold bounded in B. rewrite Forall_forall in B. rewrite Er in Hq. apply in_app_or in Hq. destruct Hq as [Hq|[<-|[]]].
  - destruct (B q) as [Q _]; [right; apply in_rev; exact Hq|]. lia.
  - destruct (B r) as [Q _]; [left; reflexivity|]. lia.
Qed.

(** operations on latest do not look at it *)
Lemma lat_run_idle (ops : list (bop P)) : existsb is_lat ops = false -> forall l, lat_run l ops = l.
Proof.
  unfold lat_run. induction ops as [|o ops IH]; intros H l; [reflexivity|]. cbn [existsb] in H. apply orb_false_iff in H. destruct H as [H1 H2]. cbn [fold_left].
  destruct o; try discriminate H1. cbn [lat_eff]. apply IH, H2.
Qed.
Lemma lat_run_blind (ops : list (bop P)) : existsb is_lat ops = true -> forall l m, lat_run l ops = lat_run m ops.
Proof.
  unfold lat_run. induction ops as [|o ops IH]; intros H l m; [discriminate|]. cbn [existsb] in H. cbn [fold_left].
  destruct o; cbn [lat_eff]; [reflexivity|reflexivity|]. apply IH, H.
Qed.
End Rec.

Section Step.
Context {O P : Type} (parse : dict -> O -> P) (peq : P -> P -> bool) (near : dict -> dict -> Prop).
Hypothesis PK : parse_ok parse peq near.
Notation prel := (prel parse near).
Notation hrel := (hrel near).
Notation build := (build parse peq).
Notation record_docs := (record_docs parse peq).
Lemma op_rel_lat (ops ops' : list (bop P)) : Forall2 (op_rel parse near) ops ops' -> existsb is_lat ops = existsb is_lat ops'.
Proof. induction 1 as [|o o' a b Ho _ IH]; [reflexivity|]. cbn [existsb]. rewrite IH. destruct o, o'; cbn in Ho; try contradiction; reflexivity. Qed.

Lemma hrel_hist_ok h h' : Forall2 hrel h h' -> hist_ok h' -> hist_ok h.
Proof.
  intros Hh Hhok. destruct Hhok as [Hn' (x & (v0 & Hv0 & Hmin) & Hx)]. pose proof (hrel_keys near h h' Hh) as Ek. split; [unfold zkeys in Ek; rewrite Ek; exact Hn'|].
        assert (Eg : zget h' v0 = Some x) by (apply (zget_In_iff _ _ _ Hn'); exact Hv0).
        pose proof (hrel_zget near h h' v0 Hh) as Eg'. rewrite Eg in Eg'. destruct (zget h v0) as [y|] eqn:Ey; [|contradiction].
        exists y. split.
        - exists v0. assert (Hn2 : NoDup (map fst h)) by (unfold zkeys in Ek; rewrite Ek; exact Hn').
          split; [apply (zget_In_iff _ _ _ Hn2); exact Ey|]. intros w z Hw. apply (in_map fst) in Hw. cbn in Hw. unfold zkeys in Ek. rewrite Ek in Hw.
          apply in_map_iff in Hw. destruct Hw as ([w' z'] & Ew & Hw). cbn in Ew. subst w'. apply (Hmin w z'), Hw.
        - intro Ny. apply Hx. apply (po_nil _ _ _ PK y x Eg'), Ny.
Qed.

(** ** The documents of one record *)
Variable H : pystr -> list (Z * dict).
Variable om : list (Z * O).
Hypothesis Hok : forall id, H id = [] \/ hist_ok (H id).
Notation target := (target parse peq H om).
Notation target_at := (target_at parse peq H om).
(** The arcs are right and so is latest for the records that have data; the others may have an old document in latest. *)
Definition near_id (a : Z) (id : pystr) (D : docs P) (T : list (esdoc P)) : Prop :=
  same_docs prel (arc_of id D) (filter is_closed T) /\
  (some_open T = true -> same_docs prel (lat_of id D) (filter is_open T)) /\
  (forall d, In d (lat_of id D) -> e_id d = id /\ e_end d = None /\ e_ver d <= a).
(** specification or proof device; models no code of its own *)
Definition nearly (a : Z) (D : docs P) (T : pystr -> list (esdoc P)) : Prop := forall id, near_id a id D (T id).
(** Whatever the documents are: those in latest are of the record they are kept for and have no end, those in the arcs have an end,
    and no version is after [a]. *)
Definition sound (a : Z) (D : docs P) : Prop :=
  (forall i d, In (i, d) (lat D) -> e_id d = i /\ e_end d = None /\ e_ver d <= a) /\
  (forall k d, In (k, d) (arc D) -> e_ver d <= a /\ exists w, e_end d = Some w /\ w <= a).
(** specification or proof device; models no code of its own *)
Definition op_sound (a : Z) (o : bop P) : Prop :=
  match o with
  | BIndexLatest i d => e_id d = i /\ e_end d = None /\ e_ver d <= a
  | BIndexArc _ d => e_ver d <= a /\ exists w, e_end d = Some w /\ w <= a
  | BDeleteLatest _ => True
  end.
Lemma sound_bound b D : sound b D -> forall d, In d (all_docs D) -> e_ver d <= b /\ forall w, e_end d = Some w -> w <= b.
Proof.
  intros [S1 S2] d Hd. unfold all_docs in Hd. apply in_app_or in Hd. destruct Hd as [Hd|Hd]; apply in_map_iff in Hd; destruct Hd as ([k y] & Ey & Hd); cbn in Ey; subst y.
  - destruct (S1 k d Hd) as (_ & K1 & K2). split; [exact K2|]. intros w Hw. congruence.
  - destruct (S2 k d Hd) as (K1 & w & K2 & K3). split; [exact K1|]. intros w' Hw. congruence.
Qed.
Lemma sound_mono b b' D : b <= b' -> sound b D -> sound b' D.
Proof.
  intros L [S1 S2]. split.
  - intros i d Hd. destruct (S1 i d Hd) as (K1 & K2 & K3). split; [exact K1|]. split; [exact K2|lia].
  - intros k d Hd. destruct (S2 k d Hd) as (K1 & w & K2 & K3). split; [lia|]. exists w. split; [exact K2|lia].
Qed.
Lemma sound_apply b (ops : list (bop P)) : Forall (op_sound b) ops -> forall D, sound b D -> sound b (apply_bops D ops).
Proof.
  induction 1 as [|o ops Ho _ IH]; intros D HD; [exact HD|]. cbn [apply_bops fold_left]. apply IH. destruct HD as [S1 S2]. destruct o as [i d|i|k d]; cbn [apply_bop].
  - split; [|exact S2]. cbn [lat]. intros j y Hy. apply in_app_or in Hy. destruct Hy as [Hy|[Hy|[]]]; [|injection Hy as <- <-; exact Ho].
    unfold del_lat in Hy. apply filter_In in Hy. exact (S1 j y (proj1 Hy)).
  - split; [|exact S2]. cbn [lat]. intros j y Hy. unfold del_lat in Hy. apply filter_In in Hy. exact (S1 j y (proj1 Hy)).
  - split; [exact S1|]. cbn [arc]. intros j y Hy. apply in_app_or in Hy. destruct Hy as [Hy|[Hy|[]]]; [exact (S2 j y Hy)|injection Hy as <- <-; exact Ho].
Qed.
Lemma gen_rvs_sound cap after id b (rvs : list (rv P)) : (forall d, In d (rv_docs id rvs) -> e_ver d <= b /\ forall w, e_end d = Some w -> w <= b) ->
  forall st, Forall (op_sound b) (snd (Index.gen_rvs cap after id st rvs)).
Proof.
  induction rvs as [|r rest IH]; intros Hd st; [constructor|]. cbn [Index.gen_rvs].
  destruct (Hd (create_doc id r (hd_error rest)) (or_introl eq_refl)) as [K1 K2]. specialize (IH (fun d Hin => Hd d (or_intror Hin))).
  unfold create_doc, version_end in K1, K2. cbn [e_ver e_end] in K1, K2.
  destruct (gt_after after (rv_ver r) && isNone (hd_error rest) && isNone (rv_del r)) eqn:E1.
  - specialize (IH st). destruct (Index.gen_rvs cap after id st rest) as [st' ops]. constructor; [|exact IH]. cbn. split; [reflexivity|]. split; [|exact K1].
    unfold version_end. apply andb_true_iff in E1. destruct E1 as [E1 E2]. apply andb_true_iff in E1. destruct (rv_del r); [discriminate|]. destruct (hd_error rest); [destruct E1; discriminate|reflexivity].
  - destruct (negb (gt_after after (rv_ver r)) && _) eqn:E2; [apply IH|].
    specialize (IH (next_arc cap st)). destruct (Index.gen_rvs cap after id (next_arc cap st) rest) as [st' ops]. cbn [snd] in *. apply Forall_app. split.
    { destruct (negb (gt_after after (rv_ver r)) && isNone (hd_error rest)); repeat constructor. }
    constructor; [|exact IH]. cbn. unfold version_end in *. split; [exact K1|].
    destruct (rv_del r) as [w|]; [exists w; auto|]. destruct (hd_error rest) as [n|]; [exists (rv_ver n); auto|].
    exfalso. cbn in E1, E2. rewrite !andb_true_r in *. rewrite E1 in E2. discriminate.
Qed.
Lemma gen_ops_sound cap after b : forall recs st st' ops, Index.gen_ops parse peq cap after om st recs = Some (st', ops) ->
  (forall id h k, In (id, h) recs -> In k (zkeys om) \/ In k (zkeys h) -> k <= b) -> Forall (op_sound b) ops.
Proof.
  induction recs as [|[id h] recs IH]; intros st st' ops HG Hk; cbn [Index.gen_ops] in HG; [injection HG as <- <-; constructor|].
  destruct (build h om) as [rvs|] eqn:Eb; [|discriminate].
  pose proof (gen_rvs_sound cap after id b rvs (fun d => rv_docs_versions parse peq b h om rvs id d Eb (fun k => Hk id h k (or_introl eq_refl))) st) as G.
  destruct (Index.gen_rvs cap after id st rvs) as [st1 ops1]. destruct (Index.gen_ops parse peq cap after om st1 recs) as [[st2 ops2]|] eqn:E2; [|discriminate].
  injection HG as <- <-. apply Forall_app. split; [exact G|]. apply (IH _ _ _ E2). intros id' h' k Hin. apply (Hk id' h' k). right. exact Hin.
Qed.
Variable a : Z.
Hypothesis Hopts : forall id, H id <> [] -> om <> [].
Hypothesis Hopts_a : forall id, upto a (H id) <> [] -> upto a om <> [].

Lemma nearly_sound (D : docs P) : nearly a D (target_at a) -> sound a D.
Proof.
  intro HD. split.
  - intros i d Hd. destruct (HD i) as (_ & _ & K). apply K. unfold lat_of. apply in_map_iff. exists (i, d). split; [reflexivity|]. apply filter_In. split; [exact Hd|apply str_eqb_refl].
  - intros k d Hd. destruct (same_docs_In prel _ _ (proj1 (HD (e_id d)))) as [K _].
    destruct (K d) as (y & Hy & (_ & Q2 & Q3 & _)).
    { unfold arc_of. apply filter_In. split; [apply in_map_iff; exists (k, d); auto|apply str_eqb_refl]. }
    apply filter_In in Hy. destruct Hy as [Hy Cy]. destruct (target_at_versions parse peq H om a (e_id d) y Hy) as [L1 L2]. rewrite Q2, Q3. split; [exact L1|].
    unfold is_closed, is_open in Cy. destruct (e_end y) as [w|]; [|discriminate]. exists w. auto.
Qed.
Lemma near_In id (D : docs P) : near_id a id D (target_at a id) -> forall d', In d' (target_at a id) -> exists d, In d (all_docs D) /\ deq prel d d'.
Proof.
  intros (K1 & K0 & _) d' Hd. destruct (is_open d') eqn:Eo.
  - assert (So : some_open (target_at a id) = true) by (apply existsb_exists; exists d'; auto).
    destruct (same_docs_In prel _ _ (K0 So)) as [_ K]. destruct (K d' ltac:(apply filter_In; auto)) as (x & Hx & Q).
    exists x. split; [|exact Q]. apply in_all_docs. left. exists id. exact Hx.
  - destruct (same_docs_In prel _ _ K1) as [_ K]. destruct (K d' ltac:(apply filter_In; unfold is_closed; rewrite Eo; auto)) as (x & Hx & Q).
    exists x. split; [|exact Q]. exact (in_arc_of D x id Hx).
Qed.

(** What a sync makes of the documents [D] of a record, its documents having been [T0]. *)
Definition next_docs (id : pystr) (D D' : docs P) (T0 T : list (esdoc P)) : Prop :=
  same_docs prel (arc_of id D') (filter is_closed T) /\
  (some_open T = true -> same_docs prel (lat_of id D') (filter is_open T)) /\
  (some_open T = false -> lat_of id D' = if some_open T0 && negb (begins_after a T) then [] else lat_of id D).

Lemma next_idle id D ops : of_id id ops = [] -> target id = target_at a id -> near_id a id D (target_at a id) ->
  next_docs id D (apply_bops D ops) (target_at a id) (target id).
Proof.
  intros Hs Et (D1 & D2 & _). rewrite <- Et in *. unfold next_docs. rewrite lat_of_apply, arc_of_apply, Hs. cbn. rewrite app_nil_r.
  split; [exact D1|]. split; [exact D2|]. intros ->. reflexivity.
Qed.
Lemma next_run id D ops h rvs_c rvs after T0 : Forall2 hrel h (H id) -> build h om = Some rvs_c -> build (H id) om = Some rvs ->
  map strip (of_id id ops) = rec_ops after id rvs_c ->
  same_docs prel (arc_of id D) (filter is_closed T0) -> (some_open T0 = true -> same_docs prel (lat_of id D) (filter is_open T0)) ->
  filter is_closed T0 ++ arc_adds (rec_ops after id rvs) = filter is_closed (rv_docs id rvs) ->
  let same := some_open T0 && negb (begins_after a (rv_docs id rvs)) in
  existsb is_lat (rec_ops after id rvs) = negb (eqb same (some_open (rv_docs id rvs))) ->
  (existsb is_lat (rec_ops after id rvs) = true -> forall l, lat_run l (rec_ops after id rvs) = filter is_open (rv_docs id rvs)) ->
  (same = true -> some_open (rv_docs id rvs) = true -> filter is_open T0 = filter is_open (rv_docs id rvs)) ->
  next_docs id D (apply_bops D ops) T0 (rv_docs id rvs).
Proof.
  intros Hh Hbc Hb Hs S1 S0 H2 same L1 L2 L3.
  destruct (build_rel parse peq near PK h (H id) om rvs_c Hh Hbc) as (rvs' & Hb' & Hr). rewrite Hb in Hb'. injection Hb' as <-.
  pose proof (rec_ops_rel parse near after id rvs_c rvs Hr) as Ho. pose proof (op_rel_lat _ _ Ho) as Hl.
  assert (Lr : lat_of id (apply_bops D ops) = lat_run (lat_of id D) (rec_ops after id rvs_c)) by (rewrite lat_of_apply, <- lat_run_strip, Hs; reflexivity).
  unfold next_docs. rewrite Lr. fold same. split; [rewrite arc_of_apply, <- arc_adds_strip, Hs, <- H2; apply same_docs_app; [exact S1|apply arc_adds_rel; exact Ho]|].
  destruct (existsb is_lat (rec_ops after id rvs)) eqn:El.
  - assert (K : Forall2 (deq prel) (lat_run (lat_of id D) (rec_ops after id rvs_c)) (filter is_open (rv_docs id rvs))).
    { rewrite (lat_run_blind _ Hl _ []), <- (L2 eq_refl []). apply (lat_run_rel parse near _ _ Ho). constructor. }
    split; [intros _; exists (lat_run (lat_of id D) (rec_ops after id rvs_c)); split; [apply Permutation_refl|exact K]|].
    intro So. rewrite So in L1. destruct same; [|discriminate]. rewrite some_open_filter in So. destruct (filter is_open (rv_docs id rvs)); [|discriminate]. inversion K. reflexivity.
  - rewrite (lat_run_idle _ Hl). split.
    + intro So. rewrite So in L1. destruct same eqn:Es; [|discriminate]. rewrite <- (L3 eq_refl So). apply S0. unfold same in Es. apply andb_true_iff in Es. apply Es.
    + intro So. rewrite So in L1. destruct same; [discriminate|reflexivity].
Qed.
Lemma step_selected_any e ops h id : fresh e -> sound a (live e) -> near_id a id (live e) (target_at a id) -> H id <> [] -> Forall2 hrel h (H id) ->
  (exists rvs_c, build h om = Some rvs_c /\ map strip (of_id id ops) = rec_ops (es_version e) id rvs_c) ->
  next_docs id (live e) (apply_bops (live e) ops) (target_at a id) (target id).
Proof.
  intros He Hsd HD Hne Hh (rvs_c & Hbc & Hs).
  destruct (Hok id) as [K|Hhok]; [congruence|].
  destruct (build_total parse peq (H id) om Hhok (Hopts id Hne)) as (rvs & Hb).
  assert (Ht : target id = rv_docs id rvs) by (unfold SyncColl.target, SyncSpec.record_docs; rewrite Hb; reflexivity).
  assert (Hcase : upto a (H id) = [] \/ exists rvs0, build (upto a (H id)) (upto a om) = Some rvs0 /\ target_at a id = rv_docs id rvs0 /\ rvs0 <> []).
  { destruct (hist_ok_upto a (H id) Hhok) as [K|K]; [left; exact K|]. destruct (upto a (H id)) as [|kv r] eqn:Eu; [left; reflexivity|]. right.
    destruct (build_total parse peq (kv :: r) (upto a om) K) as (rvs0 & E0).
    { apply (Hopts_a id). rewrite Eu. discriminate. }
    exists rvs0. split; [exact E0|]. split; [unfold SyncColl.target_at, SyncSpec.record_docs; rewrite Eu, E0; reflexivity|].
    exact (build_nonempty parse peq _ _ _ K E0). }
  rewrite Ht. destruct Hcase as [Eu|(rvs0 & E0 & Et0 & Hne0)].
  - (* a new record *)
    assert (T0 : target_at a id = []) by (unfold SyncColl.target_at; rewrite Eu; reflexivity).
    assert (Hnew : Forall (fun r => gt_after (es_version e) (rv_ver r) = true) rvs).
    { destruct (es_version e) as [ls|] eqn:Ev; [|apply Forall_forall; reflexivity].
      apply es_version_spec in Ev. destruct Ev as [(d & Hd & Hm) _]. apply (fresh_In e d He) in Hd.
      destruct (sound_bound _ _ Hsd d Hd) as [L1 L2].
      assert (ls <= a) by (destruct Hm as [Hm|Hm]; [rewrite <- Hm; exact L1|apply L2; exact Hm]).
      destruct (hist_ok_first (H id) Hhok) as (fd & d0 & Efd & Ed & Hd0 & _).
      assert (Ha : a < fd).
      { destruct (Z.lt_ge_cases a fd) as [L|L]; [exact L|]. exfalso. destruct (zmin_key_spec _ _ Efd) as [Hin _].
        assert (In fd (zkeys (upto a (H id)))) by (apply upto_keys; auto). rewrite Eu in H1. contradiction. }
      destruct (zmin_key om) as [fo|] eqn:Efo; [|apply zmin_key_None in Efo; exfalso; exact (Hopts id Hne Efo)].
      destruct (zmin_key_spec om fo Efo) as [Hino _]. destruct (zget_Some_In om fo Hino) as (o0 & Eo).
      destruct (build_at parse peq (H id) om rvs fd fo d0 o0 (proj1 Hhok) Efd Efo Ed Eo Hd0 Hb) as (Hch & _ & (r1 & rest1 & Er & Vr) & _).
      apply Forall_forall. intros r Hr. cbn. assert (fd <= rv_ver r); [|destruct (Z.ltb_spec ls (rv_ver r)); [reflexivity|lia]].
      (* versions grow along the chain *)
      assert (G : forall l : list (rv P), chain l -> forall x, In x l -> rv_ver (last l x) <= rv_ver x).
      { clear. induction l as [|y l IH]; intros C x Hx; [contradiction|]. destruct C as (_ & C2 & C3). destruct l as [|z l].
        - destruct Hx as [->|[]]. cbn. lia.
        - destruct C2 as [C2 _]. change (last (y :: z :: l) x) with (last (z :: l) x).
          destruct Hx as [->|Hx]; [|exact (IH C3 x Hx)].
          specialize (IH C3 z (or_introl eq_refl)). 
          replace (last (z :: l) x) with (last (z :: l) z); [lia|]. clear. revert z. induction l as [|u l IH]; intro z; [reflexivity|].
          change (last (z :: u :: l) z) with (last (u :: l) z). change (last (z :: u :: l) x) with (last (u :: l) x).
          clear. revert u. induction l as [|w l IH]; intro u; [reflexivity|]. exact (IH w). }
      specialize (G (rev rvs) Hch r ltac:(apply in_rev in Hr; exact Hr)). rewrite Er in G. cbn [rev] in G. rewrite last_last, Vr in G. exact G. }
    destruct (rec_ops_fresh (es_version e) id rvs Hnew) as [A1 A2].
    rewrite T0. apply (next_run id (live e) ops h rvs_c rvs (es_version e) [] Hh Hbc Hb Hs).
    + rewrite T0 in HD. apply HD.
    + discriminate.
    + rewrite A1. reflexivity.
    + rewrite (rec_ops_fresh_lat _ id rvs Hnew). cbn. destruct (some_open _); reflexivity.
    + intros K l. rewrite A2. rewrite (rec_ops_fresh_lat _ id rvs Hnew), some_open_filter in K. destruct (filter is_open _); [discriminate|reflexivity].
    + discriminate.
  - (* a known record *)
    destruct (es_version e) as [ls|] eqn:Ev.
    2:{ exfalso. apply es_version_None in Ev. destruct rvs0 as [|r0 rs0]; [congruence|].
        destruct (near_In _ _ HD (create_doc id r0 (hd_error rs0)) ltac:(rewrite Et0; left; reflexivity)) as (d & Hd & _).
        apply (fresh_In e d He) in Hd. rewrite Ev in Hd. contradiction. }
    apply es_version_spec in Ev. destruct Ev as [(d & Hd & Hm) Hmax]. apply (fresh_In e d He) in Hd.
    destruct (sound_bound _ _ Hsd d Hd) as [L1 L2].
    assert (Hls : ls <= a) by (destruct Hm as [Hm|Hm]; [rewrite <- Hm; exact L1|apply L2; exact Hm]).
    assert (Bd : bounded ls (rev rvs0)).
    { apply Forall_rev, Forall_forall. intros r Hr. apply In_nth_error in Hr. destruct Hr as (i & Hi).
      pose proof (rv_docs_nth' id rvs0 i r Hi) as Hi'. apply nth_error_In in Hi'. rewrite <- Et0 in Hi'.
      destruct (near_In _ _ HD _ Hi') as (x & Hx & (_ & X2 & X3 & _)). apply (fresh_In e x He) in Hx.
      destruct (Hmax x Hx) as [M1 M2]. rewrite X2 in M1. rewrite X3 in M2. cbn [create_doc e_ver e_end] in M1, M2. split; [exact M1|].
      unfold version_end in M2. destruct (rv_del r) as [w|]; [apply M2; reflexivity|exact I]. }
    destruct (build_upto parse peq (H id) om a rvs0 rvs Hhok E0 Hb) as (X & _).
    destruct (rec_ops_inc a ls id rvs0 rvs X Bd Hls) as (A1 & A2 & A3).
    destruct (rec_ops_lat a ls id rvs0 rvs X Bd Hls) as (G1 & G2 & G3).
    rewrite Et0. apply (next_run id (live e) ops h rvs_c rvs (Some ls) (rv_docs id rvs0) Hh Hbc Hb Hs).
    + rewrite Et0 in HD. apply HD.
    + rewrite Et0 in HD. apply HD.
    + rewrite A1. rewrite <- A2 at 1. apply firstn_skipn.
    + exact G1.
    + exact G2.
    + exact G3.
Qed.

Theorem sync_step_any cap c cv e : shows_hist near c H ->
  fresh e -> sound a (live e) ->
  (forall v d, In d c -> d_ver d = Some v -> exists m, cv = Some m /\ v <= m) ->
  (forall v m, In v (zkeys om) -> cv = Some m -> v <= m) ->
  exists e', run_plan (plan parse peq cap c om cv false e) e = Some e' /\ fresh e' /\ (forall b, a <= b -> (forall id k, In k (zkeys (H id)) \/ In k (zkeys om) -> k <= b) -> sound b (live e')) /\
    (forall id, near_id a id (live e) (target_at a id) ->
      (pending_id c id -> (forall k, In k (zkeys (H id)) -> k <= a) /\ (forall k, In k (zkeys om) -> k <= a)) ->
      next_docs id (live e) (live e') (target_at a id) (target id)).
Proof.
  intros HS He Hsd Hcv Hcvo. unfold plan.
  destruct (has_data c) eqn:Hdata; cbn [negb].
  2:{ exists e. split; [reflexivity|]. split; [exact He|]. split; [intros b Lb _; exact (sound_mono a b _ Lb Hsd)|]. intros id HD Hp.
      assert (Hsame : target id = target_at a id).
      { pose proof (HS id) as Hid. destruct (docs_of id c) as [|d [|? ?]] eqn:Ed; [| |contradiction].
        - unfold SyncColl.target, SyncColl.target_at. rewrite Hid. reflexivity.
        - destruct (d_ver d) as [v|] eqn:Ev.
          + exfalso. assert (In d c) by (assert (K : In d (docs_of id c)) by (rewrite Ed; left; reflexivity); apply filter_In in K; apply K).
            assert (has_data c = true) by (apply existsb_exists; exists d; rewrite Ev; auto). congruence.
          + destruct (Hp ltac:(exists d; auto)) as [K1 K2]. apply unchanged; assumption. }
      apply (next_idle id (live e) [] eq_refl Hsame HD). }
  assert (Go : forall f, (forall id v, newest (H id) v -> f v = false -> v <= a /\ (forall k, In k (zkeys om) -> k <= a)) ->
    exists e', run_plan (match find_records f c with
      | None => None
      | Some recs => match Index.gen_ops parse peq cap (es_version e) om (get_arc_status e) recs with
                     | None => None
                     | Some (_, ops) => Some (Some (e, ops)) end end) e = Some e' /\ fresh e' /\ (forall b, a <= b -> (forall id k, In k (zkeys (H id)) \/ In k (zkeys om) -> k <= b) -> sound b (live e')) /\
    (forall id, near_id a id (live e) (target_at a id) ->
      (pending_id c id -> (forall k, In k (zkeys (H id)) -> k <= a) /\ (forall k, In k (zkeys om) -> k <= a)) ->
      next_docs id (live e) (live e') (target_at a id) (target id))).
  { intros f Hf. destruct (find_records_spec near f c H HS) as (recs & Er & Hn & Hr). rewrite Er.
    destruct (gen_ops_total parse peq cap (es_version e) om recs (get_arc_status e)) as (st' & ops & Eo).
    { intros id h Hin. destruct (Hr id) as [R1 _]. destruct (R1 h Hin) as (Hh & v & [Hv _] & _).
      assert (Hne : H id <> []) by (intro K; rewrite K in Hv; contradiction).
      destruct (Hok id) as [K|Hhok]; [congruence|].
      pose proof (hrel_hist_ok h (H id) Hh Hhok) as Hhc.
      destruct (build_total parse peq h om Hhc (Hopts id Hne)) as (rvs & Eb). congruence. }
    rewrite Eo. cbn [run_plan]. eexists. split; [reflexivity|]. split; [apply write_fresh, He|].
    split.
    { intros b Lb Hk. rewrite write_live_docs. apply sound_apply; [|exact (sound_mono a b _ Lb Hsd)]. apply (gen_ops_sound _ _ _ _ _ _ _ Eo).
      intros id h k Hin [K|K]; [apply (Hk id); right; exact K|]. apply (Hk id). left. destruct (Hr id) as [R1 _]. destruct (R1 h Hin) as (Hh & _).
      rewrite (hrel_keys near h (H id) Hh) in K. exact K. }
    intros id HD Hp. rewrite write_live_docs. destruct (gen_ops_of_id parse peq cap (es_version e) om recs _ _ _ Eo Hn id) as [G1 G2].
    destruct (Hr id) as [R1 R2].
    destruct (in_dec (list_eq_dec N.eq_dec) id (map fst recs)) as [Hin|Hin].
    - apply in_map_iff in Hin. destruct Hin as ([i h] & Ei & Hin). cbn in Ei. subst i. destruct (R1 h Hin) as (Hh & v & [Hv _] & _).
      apply (step_selected_any e ops h id He Hsd HD); [intro K; rewrite K in Hv; contradiction|exact Hh|exact (G2 h Hin)].
    - assert (Hsame : target id = target_at a id).
      { destruct (R2 Hin) as [K|[K|(v & Hv & Hfv)]].
        - unfold SyncColl.target, SyncColl.target_at. rewrite K. reflexivity.
        - destruct (Hp K) as [K1 K2]. apply unchanged; assumption.
        - destruct (Hf id v Hv Hfv) as [K1 K2]. apply unchanged; [|exact K2]. intros k Hk. destruct Hv as [_ Hv]. specialize (Hv k Hk). lia. }
      apply next_idle; [apply G1, Hin|exact Hsame|exact HD]. }
  destruct (es_version e) as [ls|] eqn:Ev.
  2:{ apply Go. discriminate. }
  assert (Hls : ls <= a).
  { apply es_version_spec in Ev. destruct Ev as [(d & Hd & Hm) _]. apply (fresh_In e d He) in Hd.
    destruct (sound_bound _ _ Hsd d Hd) as [L1 L2]. destruct Hm as [Hm|Hm]; [rewrite <- Hm; exact L1|apply L2; exact Hm]. }
  unfold has_data in Hdata. apply existsb_exists in Hdata. destruct Hdata as (d0 & Hd0 & Hv0). destruct (d_ver d0) as [v0|] eqn:Ev0; [|discriminate].
  destruct (Hcv v0 d0 Hd0 Ev0) as (m & -> & _).
  destruct (Z.leb_spec m ls) as [Lm|Lm].
  - exists e. split; [reflexivity|]. split; [exact He|]. split; [intros b Lb _; exact (sound_mono a b _ Lb Hsd)|]. intros id HD Hp.
    assert (Hsame : target id = target_at a id).
    { pose proof (HS id) as Hid. destruct (docs_of id c) as [|d [|? ?]] eqn:Ed; [| |contradiction].
      - unfold SyncColl.target, SyncColl.target_at. rewrite Hid. reflexivity.
      - assert (Hdc : In d c) by (assert (K : In d (docs_of id c)) by (rewrite Ed; left; reflexivity); apply filter_In in K; apply K).
        destruct (d_ver d) as [v|] eqn:Evd.
        + destruct Hid as (h & _ & _ & [_ Hv]). destruct (Hcv v d Hdc Evd) as (m' & E & Lv). injection E as <-.
          apply unchanged; [intros k Hk; specialize (Hv k Hk); lia|]. intros k Hk. specialize (Hcvo k m Hk eq_refl). lia.
        + destruct (Hp ltac:(exists d; auto)) as [K1 K2]. apply unchanged; assumption. }
    apply (next_idle id (live e) [] eq_refl Hsame HD).
  - destruct (existsb (fun v => ls <? v) (zkeys om)) eqn:Ex.
    + apply Go. discriminate.
    + apply Go. intros id v _ Hfv. split; [destruct (Z.ltb_spec ls v); [discriminate|lia]|].
      intros k Hk. destruct (Z.ltb_spec ls k) as [L|L]; [|lia]. exfalso.
      assert (existsb (fun v => ls <? v) (zkeys om) = true) by (apply existsb_exists; exists k; split; [exact Hk|destruct (Z.ltb_spec ls k); [reflexivity|lia]]). congruence.
Qed.
End Step.

(** ** Histories *)
Section Hist.
Context {O P : Type} (oeq : O -> O -> bool) (odef : O) (parse : dict -> O -> P) (peq : P -> P -> bool).
Variable R : value -> value -> Prop.
Variable good : dict -> Prop.
Variable cap : N.
Variable name : pystr.
Notation state calls := (a_run a_empty (proj name calls)).

(** As [reaches], but syncs and resyncs happen at any time when nothing is pending ([resync_arcs] while everything is synced);
    those of the form [sync(resync=r)] in a state [allowed r]. *)
Inductive syncs (allowed : bool -> nat -> Z -> astate -> list (Z * O) -> Prop) : nat -> Z -> Z -> list (call O) -> client O -> es P -> Prop :=
| sy_start : syncs allowed 0 0 0 [] empty_client empty_es
| sy_call n t s calls cl e c cl' : syncs allowed n t s calls cl e ->
    (forall m v, c <> CCommit m v) -> Forall (step_ok good) (proj_call name c) ->
    do_call oeq odef cl c = Some cl' -> syncs allowed n t s (calls ++ [c]) cl' e
| sy_commit n t s calls cl e m v : syncs allowed n t s calls cl e -> t < v ->
    syncs allowed (S n) v s (calls ++ [CCommit m v]) (fst (commit oeq odef cl m v)) e
| sy_sync r n t s calls cl e e' : syncs allowed n t s calls cl e ->
    options_there (state calls) (get_options cl name) -> no_pending (state calls) ->
    allowed r n s (state calls) (get_options cl name) ->
    sync parse peq cap cl name r e = Some e' -> syncs allowed 0 t t calls cl e'
| sy_arcs t s calls cl e e' : syncs allowed 0 t s calls cl e ->
    options_there (state calls) (get_options cl name) -> no_pending (state calls) ->
    resync_arcs parse peq cap cl name e = Some e' -> syncs allowed 0 t s calls cl e'.

Lemma syncs_mono (a1 a2 : bool -> nat -> Z -> astate -> list (Z * O) -> Prop) n t s calls cl e : (forall r n s A om, a1 r n s A om -> a2 r n s A om) ->
  syncs a1 n t s calls cl e -> syncs a2 n t s calls cl e.
Proof. intros H. induction 1; [constructor|eapply sy_call; eauto|eapply sy_commit; eauto|eapply sy_sync; eauto|eapply sy_arcs; eauto]. Qed.

Hypothesis DC : data_class R good.
Hypothesis PK : parse_ok parse peq (near R good).
Notation prel := (prel parse (near R good)).
Notation build := (build parse peq).
Notation target := (target parse peq).
Notation target_at := (target_at parse peq).
Notation inv := (inv oeq odef parse peq R good name).
Notation sync := (sync parse peq cap).
Notation nearly := (nearly parse (near R good)).
Notation next_docs := (next_docs parse (near R good)).

(** specification or proof device; models no code of its own *)
Definition inv_any (n : nat) (t s : Z) (calls : list (call O)) (cl : client O) (e : es P) : Prop :=
  (exists es, inv n t s calls cl es) /\ fresh e /\ nearly s (live e) (target_at (committed (state calls)) (get_options cl name) s).

Lemma target_docs (H : pystr -> list (Z * dict)) (om : list (Z * O)) id d : In d (target H om id) -> e_id d = id.
Proof.
  unfold SyncColl.target, SyncSpec.record_docs. destruct (build (H id) om) as [rvs|]; [|intros []]. intro Hd.
  apply In_nth_error in Hd. destruct Hd as (i & Hi). apply rv_docs_nth in Hi. destruct Hi as (r & _ & ->). reflexivity.
Qed.
Lemma lat_next (H : pystr -> list (Z * dict)) (om : list (Z * O)) s t (D D' : docs P) id : s <= t ->
  (forall k, In k (zkeys (H id)) \/ In k (zkeys om) -> k <= t) ->
  (forall d, In d (lat_of id D) -> e_id d = id /\ e_end d = None /\ e_ver d <= s) ->
  (some_open (target H om id) = true -> same_docs prel (lat_of id D') (filter is_open (target H om id))) ->
  (some_open (target H om id) = false -> incl (lat_of id D') (lat_of id D)) ->
  forall d, In d (lat_of id D') -> e_id d = id /\ e_end d = None /\ e_ver d <= t.
Proof.
  intros Hst Hk Hold H1 H2 d Hd. destruct (some_open (target H om id)) eqn:So.
  - destruct (same_docs_In prel _ _ (H1 eq_refl)) as [K _]. destruct (K d Hd) as (y & Hy & (Q1 & Q2 & Q3 & _)). apply filter_In in Hy. destruct Hy as [Hy Oy].
    rewrite Q1, Q2, Q3. split; [exact (target_docs H om id y Hy)|]. split; [unfold is_open in Oy; destruct (e_end y); [discriminate|reflexivity]|].
    unfold SyncColl.target, SyncSpec.record_docs in Hy. destruct (build (H id) om) as [rvs|] eqn:Eb; [|contradiction].
    refine (proj1 (rv_docs_versions parse peq t _ _ _ _ y Eb _ Hy)). intros k [K1|K1]; apply Hk; auto.
  - destruct (Hold d (H2 eq_refl d Hd)) as (K1 & K2 & K3). split; [exact K1|]. split; [exact K2|lia].
Qed.

(** what [sync(resync=r)] does to the documents of a record *)
Definition next_any (r : bool) (s : Z) (id : pystr) (D D' : docs P) (T0 T : list (esdoc P)) : Prop :=
  same_docs prel (arc_of id D') (filter is_closed T) /\
  (some_open T = true -> same_docs prel (lat_of id D') (filter is_open T)) /\
  (some_open T = false -> lat_of id D' = if negb r && some_open T0 && negb (begins_after s T) then [] else lat_of id D).

Lemma any_sync r n t s calls cl e : inv_any n t s calls cl e -> options_there (state calls) (get_options cl name) -> no_pending (state calls) ->
  exists e', sync cl name r e = Some e' /\ inv_any 0 t t calls cl e' /\
    forall id, next_any r s id (live e) (live e') (target_at (committed (state calls)) (get_options cl name) s id) (target (committed (state calls)) (get_options cl name) id).
Proof.
  intros ((es & I) & Fr & HD) Ho Hp. set (A := state calls) in *. set (om := get_options cl name) in *.
  destruct (inv_scratch oeq odef parse peq R good cap name DC PK n t s calls cl es I Ho Hp) as (e0 & E0 & I0 & D0). fold A om in D0.
  pose proof (hist_state oeq odef parse peq R good name DC _ _ _ _ _ _ I) as Hok. fold A in Hok.
  destruct I as (I1 & I2 & I2' & I3 & I3' & I4 & I5 & I6 & I7 & _). fold A om in I4, I6, I7.
  assert (Go : exists e', sync cl name r e = Some e' /\ fresh e' /\ forall id, next_any r s id (live e) (live e') (target_at (committed A) om s id) (target (committed A) om id)).
  { destruct r.
    - rewrite sync_scratch in E0. rewrite resync_eq. destruct (all_ops parse peq cap cl name) as [ops|] eqn:Ea; [|discriminate].
      destruct (has_data (data cl name)) eqn:Hd; injection E0 as <-.
      + exists (write_ops ops (delete_arcs e)). split; [reflexivity|]. split; [apply write_fresh, fresh_delete_arcs, Fr|]. intro id.
        assert (K : lat_of id (live (write_ops ops (delete_arcs e))) = match lat_of id (live (write_ops ops empty_es)) with [] => lat_of id (live e) | x => x end).
        { rewrite !write_live_docs, !lat_of_apply. apply (lat_run_over (of_id id ops)). intros o i Hi. apply filter_In in Hi. exact (all_ops_no_delete parse peq cap cl name ops Ea o i (proj1 Hi)). }
        destruct (D0 id) as [L0 A0]. pose proof (same_docs_nil parse R good _ _ L0) as Ln. unfold next_any. rewrite K. cbn [negb andb].
        split; [rewrite (arc_of_eq id (live (write_ops ops (delete_arcs e))) (live (write_ops ops empty_es))) by (rewrite !write_live_docs, !arc_apply; reflexivity); exact A0|].
        rewrite some_open_filter. destruct (filter is_open (target (committed A) om id)) as [|x l] eqn:Ef.
        * split; [discriminate|]. intros _. rewrite (proj2 Ln eq_refl). reflexivity.
        * split; [|discriminate]. intros _. destruct (lat_of id (live (write_ops ops empty_es))) as [|y m] eqn:Ey; [|exact L0]. discriminate (proj1 Ln eq_refl).
      + exists e. split; [reflexivity|]. split; [exact Fr|]. intro id.
        assert (Z0 : committed A id = []).
        { destruct (D0 id) as [D1 D2]. apply (same_docs_nil parse R good) in D1, D2. pose proof (proj1 D1 eq_refl) as Q1. pose proof (proj1 D2 eq_refl) as Q2.
          pose proof (open_closed_perm (target (committed A) om id)) as Q. rewrite Q1, Q2 in Q. apply Permutation_nil in Q.
          destruct (Hok id) as [H|H]; [exact H|exfalso].
          assert (Hne : committed A id <> []) by (destruct H as (_ & x & (v & Hv & _) & _); intro K; rewrite K in Hv; contradiction).
          destruct (C23_documents_cover_life parse peq _ _ id H (Ho id Hne)) as (rvs & Eb & _). pose proof (build_nonempty parse peq _ _ rvs H Eb) as N.
          unfold SyncColl.target, SyncSpec.record_docs in Q. rewrite Eb in Q. destruct rvs; [congruence|discriminate]. }
        destruct (HD id) as (Q1 & Q2 & _). unfold SyncColl.target_at in Q1, Q2. unfold next_any, SyncColl.target. rewrite Z0 in *. cbn in Q1 |- *.
        split; [exact Q1|]. split; [discriminate|reflexivity].
    - destruct (run_crel _ _ DC (proj name calls) 0 [] a_empty (crel_empty _ _ 0) I2 I2') as (c & b & Er & HC & _).
      pose proof (do_calls_run oeq odef calls _ _ name I1) as Er'. cbn [data empty_client] in Er'. rewrite Er' in Er. injection Er as <-.
      destruct (wf_of_clock R good DC _ I2 I2') as (b2 & HW). fold A in HC, HW.
      pose proof (crel_shows_hist R good DC b (data cl name) A HC (fun id r K => ex_intro _ b2 (HW id r K))) as HS.
      destruct (sync_step_any parse peq (near R good) PK (committed A) om Hok s Ho I7 cap (data cl name) (get_committed_version cl name) e HS Fr (nearly_sound parse peq (near R good) (committed A) om s (live e) HD)) as (e' & E & F & _ & D1).
      + intros v d Hd Hv. destruct (get_committed_version cl name) as [m|] eqn:Em.
        * exists m. split; [reflexivity|]. apply gcv_spec in Em. apply Em. left. exists d. auto.
        * exfalso. assert (Hh : has_data (data cl name) = true) by (apply existsb_exists; exists d; rewrite Hv; auto). exact (gcv_of_data cl name Hh Em).
      + intros v m Hv Em. apply gcv_spec in Em. apply Em. right. apply (proj1 (get_options_versions oeq odef _ _ _)), Hv.
      + exists e'. split; [exact E|]. split; [exact F|]. intro id. apply (D1 id (HD id)).
        intros (d & Ed & Ev). specialize (HC id). rewrite Ed in HC. destruct (A id) as [[h [p|]]|] eqn:EA; try contradiction.
        * exfalso. exact (Hp id h p EA).
        * destruct (rel_comm _ _ _ _ _ HC) as (v & x & rest & _ & Ev' & _). congruence. }
  destruct Go as (e' & E & F & N). exists e'. split; [exact E|]. split; [|exact N].
  split; [exists e0; exact I0|]. split; [exact F|]. fold A om. intro id.
  assert (Et : target_at (committed A) om t id = target (committed A) om id).
  { symmetry. apply unchanged; intros k Hk; apply I4; [left; exists id|right]; exact Hk. }
  rewrite Et. destruct (N id) as (N1 & N2 & N3). split; [exact N1|]. split; [exact N2|].
  apply (lat_next (committed A) om s t (live e) (live e') id); [exact I5|intros k [K|K]; apply I4; [left; exists id|right]; exact K|apply HD|exact N2|].
  intro So. rewrite (N3 So). destruct (_ && _); [intros d []|apply incl_refl].
Qed.
Lemma any_arcs t s calls cl e e' : inv_any 0 t s calls cl e -> options_there (state calls) (get_options cl name) -> no_pending (state calls) ->
  resync_arcs parse peq cap cl name e = Some e' -> inv_any 0 t s calls cl e' /\ forall id, lat_of id (live e') = lat_of id (live e).
Proof.
  intros ((es & I) & Fr & HD) Ho Hp. set (A := state calls) in *. set (om := get_options cl name) in *.
  destruct (inv_scratch oeq odef parse peq R good cap name DC PK 0 t s calls cl es I Ho Hp) as (e0 & E0 & I0 & D0). fold A om in D0.
  rewrite sync_scratch in E0. rewrite resync_arcs_eq. destruct (all_ops parse peq cap cl name) as [ops|] eqn:Ea; [|discriminate]. intro H. injection H as <-.
  assert (Ets : forall id, target_at (committed A) om s id = target (committed A) om id).
  { apply (target_of_inv oeq odef parse peq R good name 0 t s calls cl es I). intros k Hk. destruct I as (_ & _ & _ & _ & _ & _ & _ & I6 & _). apply (I6 k Hk). reflexivity. }
  assert (Ar : arc (live e0) = flat_map arc_pair ops).
  { destruct (has_data (data cl name)) eqn:Hd; injection E0 as <-; [rewrite write_live_docs, arc_apply; reflexivity|]. unfold all_ops in Ea. rewrite (find_all_none _ Hd) in Ea. cbn in Ea. injection Ea as <-. reflexivity. }
  assert (L : forall id, lat_of id (live (write_ops (filter is_arc_op ops) (delete_arcs e))) = lat_of id (live e)).
  { intro id. rewrite write_live_docs, lat_of_apply. change (lat_of id (live (delete_arcs e))) with (lat_of id (live e)). generalize (lat_of id (live e)) as l. clear.
    unfold lat_run, of_id. induction ops as [|o ops IH]; intro l; [reflexivity|]. cbn [filter]. destruct (is_arc_op o) eqn:Eo; [|apply IH]. cbn [filter].
    destruct (str_eqb (bop_id o) id); [|apply IH]. cbn [fold_left]. destruct o; try discriminate. cbn [lat_eff]. apply IH. }
  split; [|exact L]. split; [exists es; exact I|]. split; [apply write_fresh, fresh_delete_arcs, Fr|]. fold A om. intro id. unfold near_id. rewrite L.
  destruct (HD id) as (_ & Q2 & Q3). split; [|split; [exact Q2|exact Q3]]. rewrite Ets.
  rewrite (arc_of_eq id _ (live e0)); [apply D0|]. rewrite write_live_docs, arc_apply, Ar. cbn [delete_arcs live arc app].
  clear. induction ops as [|o ops IH]; [reflexivity|]. cbn [filter flat_map]. destruct o; cbn [is_arc_op flat_map arc_pair app]; rewrite IH; reflexivity.
Qed.

Lemma any_call n n' t t' s calls cl e c cl' : inv_any n t s calls cl e ->
  do_call oeq odef cl c = Some cl' -> Forall (step_ok good) (proj_call name c) -> t <= t' ->
  (forall m v, c = CCommit m v -> t < v /\ v = t' /\ n' = S n) -> ((forall m v, c <> CCommit m v) -> n' = n /\ t' = t) ->
  inv_any n' t' s (calls ++ [c]) cl' e /\ (forall id, upto s (committed (state (calls ++ [c])) id) = upto s (committed (state calls) id)) /\
  upto s (get_options cl' name) = upto s (get_options cl name).
Proof.
  intros ((es & I) & Fr & HD) H Hs Ht Hc Hnc.
  pose proof (inv_any_call oeq odef parse peq R good name n n' t t' s calls cl es c cl' I H Hs Ht Hc Hnc) as I'.
  assert (Hcs : forall m v, c = CCommit m v -> s < v).
  { intros m v K. destruct (Hc m v K). destruct I as (_ & _ & _ & _ & _ & _ & I5 & _). lia. }
  pose proof (do_call_options oeq odef name s cl c cl' H Hcs) as Eo.
  assert (Hup : forall id, upto s (committed (state (calls ++ [c])) id) = upto s (committed (state calls) id)).
  { assert (Hpc : proj_call name c = [] \/ exists st, proj_call name c = [st] /\ forall v, st = SCommit v -> exists m, c = CCommit m v).
    { unfold proj_call. destruct (str_eqb (call_db c) name); [|left; reflexivity].
      destruct c as [m mf recs|m v|m o|m|m]; try (left; reflexivity); right; eexists; (split; [reflexivity|]); intros w K; try discriminate.
      injection K as <-. exists m. reflexivity. }
    intro id. rewrite proj_snoc, a_run_app. destruct Hpc as [->|(st & -> & Hst)]; [reflexivity|]. cbn [a_run fold_left].
    apply a_step_upto. intros v K. destruct (Hst v K) as (m & K'). exact (Hcs m v K'). }
  split; [|split; [exact Hup|exact Eo]]. split; [exists es; exact I'|]. split; [exact Fr|]. intro id. specialize (HD id). unfold SyncColl.target_at in *. rewrite Hup, Eo. exact HD.
Qed.
Lemma any_start : inv_any 0 0 0 [] empty_client empty_es.
Proof.
  split; [exists empty_es; apply inv_start|]. split; [apply fresh_empty|]. intro id. unfold SyncColl.target_at, committed, SyncSpec.record_docs. cbn.
  split; [exists []; split; constructor|]. split; [discriminate|intros d []].
Qed.
(** A sync or resync leaves the record as it should: not a sync after the record was changed and then deleted (in two commits or more),
    nor a resync after the record was deleted. *)
Definition calm (id : pystr) (r : bool) (n : nat) (s : Z) (A : astate) (om : list (Z * O)) : Prop :=
  if r then (exists x, in_force (committed A id) s x /\ x <> []) -> exists x, now_data (committed A id) x /\ x <> []
  else (n <= 1)%nat \/ ~ changed_then_deleted s (committed A id) om.
Lemma upto_now (h : list (Z * dict)) s x : in_force h s x -> now_data (upto s h) x.
Proof. intros (v & H1 & H2 & H3). exists v. split; [apply upto_In; auto|]. intros w y Hw. apply upto_In in Hw. exact (H3 w y (proj1 Hw) (proj2 Hw)). Qed.
Lemma open_now n t s calls cl es id : inv n t s calls cl es ->
  some_open (target_at (committed (state calls)) (get_options cl name) s id) = true <-> exists x, in_force (committed (state calls) id) s x /\ x <> [].
Proof.
  intro I. pose proof (inv_indexed oeq odef parse peq R good name DC _ _ _ _ _ _ I id) as RI. destruct I as (_ & _ & _ & _ & _ & _ & _ & _ & _ & _ & I9).
  destruct (I9 id) as [L _]. apply (same_docs_nil parse R good) in L. destruct RI as (K1 & _ & _ & _ & K5 & _ & K7 & _).
  rewrite some_open_filter. split.
  - intro So. destruct (lat_of id (live es)) as [|d l] eqn:El; [rewrite (proj1 L eq_refl) in So; discriminate|].
    destruct (proj1 (K5 (Z.max s (e_ver d)))) as (x & (v & H1 & H2 & H3) & Nx).
    { exists d. split; [left; reflexivity|]. split; [lia|]. rewrite (K1 d (or_introl eq_refl)). exact I. }
    exists x. split; [|exact Nx]. apply upto_In in H1. exists v. split; [apply H1|]. split; [apply H1|]. intros w y Hw Lw. apply (H3 w y); [apply upto_In; auto|lia].
  - intros (x & Hx & Nx). destruct (K7 (ex_intro _ x (conj (upto_now _ _ _ Hx) Nx))) as (d & Ed). rewrite Ed in L.
    destruct (filter is_open _); [discriminate (proj2 L eq_refl)|reflexivity].
Qed.
Lemma open_full n t s calls cl es id : inv n t s calls cl es -> options_there (state calls) (get_options cl name) -> no_pending (state calls) ->
  some_open (target (committed (state calls)) (get_options cl name) id) = true <-> exists x, now_data (committed (state calls) id) x /\ x <> [].
Proof.
  intros I Ho Hp. destruct (inv_scratch oeq odef parse peq R good cap name DC PK n t s calls cl es I Ho Hp) as (e0 & _ & I0 & _).
  pose proof (open_now 0 t t calls cl e0 id I0) as K. destruct I as (_ & _ & _ & _ & _ & I4 & _).
  assert (Hh : forall v x, In (v, x) (committed (state calls) id) -> v <= t).
  { intros v x Hv. apply I4. left. exists id. apply (in_map fst) in Hv. exact Hv. }
  rewrite <- (unchanged parse peq (committed (state calls)) (get_options cl name) id t) in K by (intros k Hk; apply I4; first [left; exists id; exact Hk|right; exact Hk]).
  rewrite K. split; intros (x & (v & H1 & H2) & Nx); exists x; (split; [|exact Nx]); exists v; (split; [exact H1|]).
  - intros w y Hw. apply (proj2 H2 w y Hw). exact (Hh w y Hw).
  - split; [exact (Hh v x H1)|]. intros w y Hw _. exact (H2 w y Hw).
Qed.
Theorem syncs_inv allowed n t s calls cl e : syncs allowed n t s calls cl e -> inv_any n t s calls cl e.
Proof.
  induction 1 as [|n t s calls cl e c cl' _ IH Hnc Hs H|n t s calls cl e m v _ IH Hv|r n t s calls cl e e' _ IH Ho Hp Ha H|t s calls cl e e' _ IH Ho Hp H].
  - apply any_start.
  - apply (any_call n n t t s calls cl e c cl' IH H Hs); [lia| |auto]. intros m v K. exfalso. exact (Hnc m v K).
  - apply (any_call n (S n) t v s calls cl e (CCommit m v) _ IH); [reflexivity| |lia| |].
    + unfold proj_call. destruct (str_eqb _ _); repeat constructor.
    + intros m' v' K. injection K as <- <-. auto.
    + intro K. exfalso. exact (K m v eq_refl).
  - destruct (any_sync r n t s calls cl e IH Ho Hp) as (e2 & E & K & _). rewrite H in E. injection E as <-. exact K.
  - exact (proj1 (any_arcs t s calls cl e e' IH Ho Hp H)).
Qed.
End Hist.
