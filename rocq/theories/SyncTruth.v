(** What is never false in the indices, whenever syncs happen and whatever is pending. *)
From Coq Require Import List ZArith NArith Bool Lia Sorted Permutation.
From Verif Require Import PyVal Diff DiffProofs Prepare Mongo Store MongoProofs MongoStore MongoMore PropsMongo Client ClientProofs.
From Verif Require Import Index IndexSpec IndexProofs PropsIndex Sync SyncSpec SyncProofs SyncBuild SyncColl SyncTrace SyncView SyncMore SyncArcs SyncEvents SyncReach SyncStale SyncLocal.
Import ListNotations.
Open Scope Z_scope.

Section Rec.
Context {P : Type}.
Notation esdoc := (esdoc P).
(** specification or proof device; models no code of its own *)
Definition recent (after : option Z) (d : esdoc) : bool :=
  gt_after after (e_ver d) || match e_end d with Some w => gt_after after w | None => false end.
Lemma arc_adds_rec after id (rvs : list (rv P)) :
  arc_adds (rec_ops after id rvs) = filter (fun d => is_closed d && recent after d) (rv_docs id rvs).
Proof.
  unfold arc_adds. induction rvs as [|r rest IH]; [reflexivity|]. cbn [rec_ops rv_docs filter].
  assert (Ho : is_closed (create_doc id r (hd_error rest)) = negb (isNone (hd_error rest) && isNone (rv_del r))).
  { unfold is_closed, is_open, create_doc, version_end. cbn [e_end]. destruct (rv_del r), (hd_error rest); reflexivity. }
  assert (Er : recent after (create_doc id r (hd_error rest)) = gt_after after (rv_ver r) || match version_end r (hd_error rest) with Some w => gt_after after w | None => false end) by reflexivity.
  rewrite Ho, Er. destruct (gt_after after (rv_ver r)) eqn:Eg; cbn [andb orb negb].
  - destruct (isNone (hd_error rest) && isNone (rv_del r)) eqn:En; cbn [negb andb].
    + exact IH.
    + cbn [flat_map app arc_part]. f_equal. exact IH.
  - unfold version_end. destruct (rv_del r) as [w|]; [|destruct (hd_error rest) as [n|]]; cbn [isNone andb negb].
    + rewrite andb_false_r. cbn [negb andb]. destruct (gt_after after w); cbn [negb]; [|exact IH]. rewrite flat_map_app. destruct (isNone (hd_error rest)); cbn [flat_map app arc_part]; f_equal; exact IH.
    + destruct (gt_after after (rv_ver n)); cbn [negb]; [|exact IH]. cbn [flat_map app arc_part]. f_equal. exact IH.
    + exact IH.
Qed.
Lemma lat_run_In (ops : list (bop P)) : forall l d, In d (lat_run l ops) -> In d l \/ exists i, In (BIndexLatest i d) ops.
Proof.
  unfold lat_run. induction ops as [|o ops IH]; intros l d Hd; [left; exact Hd|]. cbn [fold_left] in Hd. destruct (IH _ d Hd) as [K|(i & K)]; [|right; exists i; right; exact K].
  destruct o as [i x|i|n x]; cbn [lat_eff] in K; [|destruct K|left; exact K]. destruct K as [<-|[]]. right. exists i. left. reflexivity.
Qed.
Lemma lat_run_one (ops : list (bop P)) : forall l, (length l <= 1)%nat -> (length (lat_run l ops) <= 1)%nat.
Proof.
  unfold lat_run. induction ops as [|o ops IH]; intros l Hl; [exact Hl|]. cbn [fold_left]. apply IH. destruct o; cbn [lat_eff length]; lia.
Qed.
Lemma rec_ops_latest after id (rvs : list (rv P)) i d : In (BIndexLatest i d) (rec_ops after id rvs) -> In d (rv_docs id rvs).
Proof.
  induction rvs as [|r rest IH]; [intros []|]. cbn [rec_ops rv_docs]. destruct (_ && isNone (rv_del r)).
  - intros [K|K]; [injection K as <- <-; left; reflexivity|right; exact (IH K)].
  - destruct (_ && negb _); [intro K; right; exact (IH K)|]. intro K. apply in_app_or in K. destruct K as [K|[K|K]]; [|discriminate|right; exact (IH K)].
    destruct (_ && _); [destruct K as [K|[]]; discriminate|destruct K].
Qed.
(** what was there stays there *)
Definition same_start (d d' : esdoc) : Prop := e_ver d = e_ver d' /\ e_parsed d = e_parsed d'.
Lemma extends_docs a id (rvs0 rvs : list (rv P)) : extends a (rev rvs0) (rev rvs) -> bounded a (rev rvs0) ->
  (forall d, In d (rv_docs id rvs0) -> is_closed d = true -> In d (rv_docs id rvs)) /\
  (forall d, In d (rv_docs id rvs0) -> exists d', In d' (rv_docs id rvs) /\ same_start d d').
Proof.
  intros X B. assert (C : forall d, In d (rv_docs id rvs0) -> is_closed d = true -> In d (rv_docs id rvs)).
  { intros d Hd Hc. destruct (rec_ops_inc a a id rvs0 rvs X B (Z.le_refl a)) as (_ & A2 & _).
    assert (K : In d (filter is_closed (rv_docs id rvs0))) by (apply filter_In; auto). rewrite <- A2 in K.
    assert (K' : In d (filter is_closed (rv_docs id rvs))) by (rewrite <- (firstn_skipn (length (filter is_closed (rv_docs id rvs0)))); apply in_or_app; left; exact K).
    apply filter_In in K'. apply K'. }
  split; [exact C|]. intros d Hd. destruct (is_closed d) eqn:Ec; [exists d; split; [exact (C d Hd Ec)|split; reflexivity]|].
  destruct X as (new & r & r' & rest & E0 & E1 & V & Pp & _ & _).
  assert (Er0 : rvs0 = rev rest ++ [r]) by (rewrite <- (rev_involutive rvs0), E0; reflexivity).
  assert (Er : rvs = rev rest ++ r' :: rev new).
  { rewrite <- (rev_involutive rvs), E1, rev_app_distr. cbn. rewrite <- app_assoc. reflexivity. }
  rewrite Er0, rv_docs_last in Hd. apply in_app_or in Hd. destruct Hd as [Hd|[<-|[]]].
  - destruct (docs_before_closed id (rev rest) r) as [_ C2]. rewrite <- C2 in Hd. apply filter_In in Hd. destruct Hd as [_ Hd]. congruence.
  - rewrite Er. exists (create_doc id r' (hd_error (rev new))). split; [|unfold same_start; cbn; split; congruence].
    rewrite rv_docs_split. apply in_or_app. right. left. reflexivity.
Qed.
End Rec.

(** ** One sync *)
Lemma forall2_In_l {A B} (Q : A -> B -> Prop) l l' : Forall2 Q l l' -> forall x, In x l -> exists y, In y l' /\ Q x y.
Proof.
  induction 1 as [|x y l l' Hxy _ IH]; intros u Hu; [destruct Hu|]. destruct Hu as [<-|Hu]; [exists y; split; [left; reflexivity|exact Hxy]|].
  destruct (IH u Hu) as (w & Hw & K). exists w. split; [right; exact Hw|exact K].
Qed.
Section Step.
Context {O P : Type} (parse : dict -> O -> P) (peq : P -> P -> bool) (near : dict -> dict -> Prop).
Hypothesis PK : parse_ok parse peq near.
Notation prel := (prel parse near).
Notation hrel := (hrel near).
Notation build := (build parse peq).
Variable H : pystr -> list (Z * dict).
Variable om : list (Z * O).
Hypothesis Hok : forall id, H id = [] \/ hist_ok (H id).
Notation target := (target parse peq H om).
Notation target_at := (target_at parse peq H om).

(** The documents [D] has of a record are documents of [T], as far as they go; arcs do not overlap. *)
Definition starts_as (d d' : esdoc P) : Prop := e_ver d = e_ver d' /\ prel (e_parsed d) (e_parsed d').
(** specification or proof device; models no code of its own *)
Definition true_docs (id : pystr) (D : docs P) (T : list (esdoc P)) : Prop :=
  (forall d, In d (arc_of id D) -> exists d', In d' T /\ deq prel d d') /\
  ForallOrdPairs (apart (P := P)) (arc_of id D) /\
  (forall d, In d (lat_of id D) -> exists d', In d' T /\ starts_as d d') /\
  (length (lat_of id D) <= 1)%nat.

Lemma target_keeps a id : (upto a (H id) <> [] -> upto a om <> []) ->
  (forall d, In d (target_at a id) -> is_closed d = true -> In d (target id)) /\
  (forall d, In d (target_at a id) -> exists d', In d' (target id) /\ same_start d d').
Proof.
  intros Ho. unfold SyncColl.target, SyncColl.target_at, SyncSpec.record_docs.
  destruct (build (upto a (H id)) (upto a om)) as [rvs0|] eqn:B0; [|split; intros d []].
  destruct (Hok id) as [K|Hh]; [unfold Index.build in B0; rewrite K in B0; discriminate|].
  assert (Hne : om <> []) by (intros ->; unfold Index.build in B0; cbn in B0; destruct (zmin_key (upto a (H id))); discriminate).
  destruct (build_total parse peq (H id) om Hh Hne) as (rvs & B1). rewrite B1.
  destruct (build_upto parse peq _ _ _ _ _ Hh B0 B1) as (X1 & X2 & _). exact (extends_docs a id rvs0 rvs X1 X2).
Qed.
Lemma true_later a id D : (upto a (H id) <> [] -> upto a om <> []) -> sound a D -> true_docs id D (target_at a id) -> true_docs id D (target id).
Proof.
  intros Ho [_ Sd] (H1 & H2 & H3 & H4). destruct (target_keeps a id Ho) as [K1 K2]. split; [|split; [exact H2|split; [|exact H4]]].
  - intros d Hd. destruct (H1 d Hd) as (d' & Hd' & Q). exists d'. split; [|exact Q]. apply (K1 d' Hd').
    unfold arc_of in Hd. apply filter_In in Hd. destruct Hd as [Hd _]. apply in_map_iff in Hd. destruct Hd as ([k y] & Ey & Hd). cbn in Ey. subst y.
    destruct (Sd k d Hd) as (_ & w & Ew & _). destruct Q as (_ & _ & Q & _). unfold is_closed, is_open. rewrite <- Q, Ew. reflexivity.
  - intros d Hd. destruct (H3 d Hd) as (d' & Hd' & Q1 & Q2). destruct (K2 d' Hd') as (d2 & Hd2 & S1 & S2). exists d2. split; [exact Hd2|]. split; [congruence|]. rewrite <- S2. exact Q2.
Qed.
Lemma target_apart id : ForallOrdPairs (apart (P := P)) (target id).
Proof.
  unfold SyncColl.target, SyncSpec.record_docs. destruct (build (H id) om) as [rvs|] eqn:B; [|constructor].
  destruct (Hok id) as [K|Hh]; [unfold Index.build in B; rewrite K in B; discriminate|].
  assert (Hne : om <> []) by (intros ->; unfold Index.build in B; cbn in B; destruct (zmin_key (H id)); discriminate).
  destruct (C23_documents_cover_life parse peq (H id) om id Hh Hne) as (rvs' & B' & C & _). rewrite B in B'. injection B' as <-. apply nth_apart. exact C.
Qed.
Lemma apart_filter (f : esdoc P -> bool) l : ForallOrdPairs (apart (P := P)) l -> ForallOrdPairs (apart (P := P)) (filter f l).
Proof.
  induction 1 as [|x l Hx _ IH]; [constructor|]. cbn [filter]. destruct (f x); [|exact IH]. constructor; [|exact IH].
  rewrite Forall_forall in *. intros y Hy. apply filter_In in Hy. apply Hx, Hy.
Qed.
Lemma apart_rel l l' : Forall2 (deq prel) l l' -> ForallOrdPairs (apart (P := P)) l' -> ForallOrdPairs (apart (P := P)) l.
Proof.
  assert (C : forall d d' t, deq prel d d' -> covers d t -> covers d' t) by (intros d d' t (_ & H1 & H2 & _); unfold covers; rewrite H1, H2; auto).
  induction 1 as [|x y l l' Hxy Hl IH]; intro K; [constructor|]. inversion K as [|? ? K1 K2]; subst. constructor; [|exact (IH K2)].
  apply Forall_forall. intros u Hu. destruct (forall2_In_l _ _ _ Hl u Hu) as (w & Hw & Q). rewrite Forall_forall in K1.
  intros t C1 C2. exact (K1 w Hw t (C _ _ _ Hxy C1) (C _ _ _ Q C2)).
Qed.
Lemma apart_app (l m : list (esdoc P)) : ForallOrdPairs (apart (P := P)) l -> ForallOrdPairs (apart (P := P)) m ->
  (forall x y, In x l -> In y m -> apart x y) -> ForallOrdPairs (apart (P := P)) (l ++ m).
Proof.
  induction 1 as [|x l Hx _ IH]; intros Hm Hxy; [exact Hm|]. cbn [app]. constructor; [|apply IH; [exact Hm|intros; apply Hxy; [right|]; assumption]].
  apply Forall_app. split; [exact Hx|]. apply Forall_forall. intros y Hy. apply Hxy; [left; reflexivity|exact Hy].
Qed.
(** two documents of a record that hold the same version are one *)
Lemma target_unique id d d' t : In d (target id) -> In d' (target id) -> covers d t -> covers d' t -> d = d'.
Proof.
  intros H1 H2 C1 C2. pose proof (target_apart id) as A. rewrite <- nth_apart in A. apply In_nth_error in H1, H2. destruct H1 as (i & H1). destruct H2 as (j & H2).
  pose proof (A i j d d' t H1 H2 C1 C2) as Eij. subst j. congruence.
Qed.

(** the operations for one record, whatever its documents were *)
Lemma true_ops id D ops h after : (forall d w, In d (arc_of id D) -> e_end d = Some w -> gt_after after w = false) -> H id <> [] -> om <> [] -> Forall2 hrel h (H id) ->
  (exists rvs_c, build h om = Some rvs_c /\ map strip (of_id id ops) = rec_ops after id rvs_c) ->
  true_docs id D (target id) -> true_docs id (apply_bops D ops) (target id).
Proof.
  intros Ha Hne Ho Hh (rvs_c & Hbc & Hs) (T1 & T2 & T3 & T4).
  destruct (build_rel parse peq near PK h (H id) om rvs_c Hh Hbc) as (rvs & Hb & Hr).
  pose proof (rec_ops_rel parse near after id rvs_c rvs Hr) as Hops.
  assert (Et : target id = rv_docs id rvs) by (unfold SyncColl.target, SyncSpec.record_docs; rewrite Hb; reflexivity).
  pose proof (arc_adds_rel parse near _ _ Hops) as Hadd. rewrite (arc_adds_rec after id rvs), <- Et in Hadd.
  assert (Hadd' : Forall2 (deq prel) (arc_adds (of_id id ops)) (filter (fun d => is_closed d && recent after d) (target id))) by (rewrite <- arc_adds_strip, Hs; exact Hadd).
  clear Hadd. unfold true_docs. rewrite arc_of_apply, lat_of_apply. split; [|split; [|split]].
  - intros d Hd. apply in_app_or in Hd. destruct Hd as [Hd|Hd]; [exact (T1 d Hd)|]. destruct (forall2_In_l _ _ _ Hadd' d Hd) as (d' & Hd' & Q). apply filter_In in Hd'. exists d'. split; [apply Hd'|exact Q].
  - apply apart_app; [exact T2|exact (apart_rel _ _ Hadd' (apart_filter _ _ (target_apart id)))|]. intros x y Hx Hy t C1 C2.
    destruct (T1 x Hx) as (x' & Hx' & (_ & X2 & X3 & _)). destruct (forall2_In_l _ _ _ Hadd' y Hy) as (y' & Hy' & (_ & Y2 & Y3 & _)). apply filter_In in Hy'. destruct Hy' as [Hy' Ry].
    apply andb_true_iff in Ry. destruct Ry as [Cy Ry].
    assert (C1' : covers x' t) by (unfold covers in *; rewrite <- X2, <- X3; exact C1). assert (C2' : covers y' t) by (unfold covers in *; rewrite <- Y2, <- Y3; exact C2).
    pose proof (target_unique id x' y' t Hx' Hy' C1' C2') as <-. unfold is_closed, is_open in Cy. destruct (e_end x') as [w|] eqn:Ew; [|discriminate].
    specialize (Ha x w Hx X3). unfold recent in Ry. rewrite Ew, Ha, orb_false_r in Ry. destruct C1' as [L1 L2]. rewrite Ew in L2.
    destruct after as [ls|]; cbn [gt_after] in *; [|discriminate]. destruct (Z.ltb_spec ls w), (Z.ltb_spec ls (e_ver x')); try discriminate. lia.
  - intros d Hd. rewrite <- lat_run_strip, Hs in Hd. destruct (lat_run_In _ _ _ Hd) as [K|(i & K)]; [exact (T3 d K)|].
    destruct (forall2_In_l _ _ _ Hops _ K) as (o & Ho' & Q). destruct o as [i' d'|i'|n d']; cbn in Q; try contradiction.
    exists d'. split; [rewrite Et; exact (rec_ops_latest _ _ _ _ _ Ho')|]. destruct Q as (_ & (_ & Q1 & _ & Q2)). split; assumption.
  - apply lat_run_one, T4.
Qed.

Lemma true_delete id (e : es P) T : true_docs id (live e) T -> true_docs id (live (delete_arcs e)) T.
Proof. intros (_ & _ & T3 & T4). split; [intros d []|]. split; [constructor|]. split; [exact T3|exact T4]. Qed.
(** the records found, and others *)
Lemma true_gen cap f c recs after st st' ops (e1 : es P) id : shows_hist near c H -> find_records f c = Some recs ->
  Index.gen_ops parse peq cap after om st recs = Some (st', ops) -> (H id <> [] -> om <> []) ->
  (forall d w, In d (arc_of id (live e1)) -> e_end d = Some w -> gt_after after w = false) ->
  true_docs id (live e1) (target id) -> true_docs id (apply_bops (live e1) ops) (target id).
Proof.
  intros HS Er Eo Hopts Ha HT. destruct (find_records_spec near f c H HS) as (recs' & Er' & Hn & Hr). rewrite Er in Er'. injection Er' as <-.
  destruct (gen_ops_of_id parse peq cap after om recs _ _ _ Eo Hn id) as [G1 G2]. destruct (Hr id) as [R1 _].
  destruct (in_dec (list_eq_dec N.eq_dec) id (map fst recs)) as [Hin|Hin].
  - apply in_map_iff in Hin. destruct Hin as ([i h] & Ei & Hin). cbn in Ei. subst i. destruct (R1 h Hin) as (Hh & v & [Hv _] & _).
    assert (Hne : H id <> []) by (intro K; rewrite K in Hv; contradiction). exact (true_ops id (live e1) ops h after Ha Hne (Hopts Hne) Hh (G2 h Hin) HT).
  - unfold true_docs. rewrite arc_of_apply, lat_of_apply, (G1 Hin). cbn. rewrite app_nil_r. exact HT.
Qed.
Lemma ends_before (e : es P) id : fresh e -> forall d w, In d (arc_of id (live e)) -> e_end d = Some w -> gt_after (es_version e) w = false.
Proof.
  intros Fr d w Hd Hw. pose proof (in_arc_of (live e) d id Hd) as Hall. apply (fresh_In e d Fr) in Hall. destruct (es_version e) as [ls|] eqn:Ev.
  - apply es_version_spec in Ev. destruct Ev as [_ Hm]. destruct (Hm d Hall) as [_ K]. specialize (K w Hw). cbn. destruct (Z.ltb_spec ls w); [lia|reflexivity].
  - apply es_version_None in Ev. rewrite Ev in Hall. destruct Hall.
Qed.
Lemma sync_true cap c cv r (e e' : es P) id : run_plan (plan parse peq cap c om cv r e) e = Some e' -> shows_hist near c H -> fresh e -> (H id <> [] -> om <> []) ->
  true_docs id (live e) (target id) -> true_docs id (live e') (target id).
Proof.
  intros E HS Fr Ho HT. unfold plan in E. destruct (has_data c); cbn [negb] in E; [|injection E as <-; exact HT].
  assert (Go : forall f after e1, (e1 = e /\ after = es_version e \/ e1 = delete_arcs e) -> run_plan (match find_records f c with
      | None => None
      | Some recs => match Index.gen_ops parse peq cap after om (get_arc_status e1) recs with
                     | None => None
                     | Some (_, ops) => Some (Some (e1, ops)) end end) e = Some e' -> true_docs id (live e') (target id)).
  { intros f after e1 He. destruct (find_records f c) as [recs|] eqn:Er; [|discriminate]. destruct (Index.gen_ops _ _ _ _ _ _ _) as [[st ops]|] eqn:Eo; [|discriminate].
    intro K. injection K as <-. rewrite write_live_docs. destruct He as [[-> ->]| ->].
    - exact (true_gen cap f c recs _ _ _ ops e id HS Er Eo Ho (ends_before e id Fr) HT).
    - apply (true_gen cap f c recs _ _ _ ops (delete_arcs e) id HS Er Eo Ho); [intros d w []|apply true_delete, HT]. }
  destruct r.
  - apply (Go _ None (delete_arcs e) (or_intror eq_refl) E).
  - destruct (es_version e) as [ls|]; [|apply (Go _ None e (or_introl (conj eq_refl eq_refl)) E)]. destruct cv as [m|]; [|discriminate]. destruct (m <=? ls); [injection E as <-; exact HT|].
    destruct (existsb _ _); apply (Go _ (Some ls) e (or_introl (conj eq_refl eq_refl)) E).
Qed.
Lemma arcs_true cap c recs st ops (e : es P) id : shows_hist near c H -> find_records (fun _ => true) c = Some recs ->
  Index.gen_ops parse peq cap None om (0, 0)%N recs = Some (st, ops) -> (H id <> [] -> om <> []) ->
  true_docs id (live e) (target id) -> true_docs id (apply_bops (live (delete_arcs e)) (filter is_arc_op ops)) (target id).
Proof.
  intros HS Er Eo Ho HT. destruct (true_gen cap _ c recs None _ st ops (delete_arcs e) id HS Er Eo Ho ltac:(intros d w []) (true_delete id e _ HT)) as (K1 & K2 & _ & _).
  destruct HT as (_ & _ & K3 & K4). unfold true_docs.
  assert (Ea : arc_of id (apply_bops (live (delete_arcs e)) (filter is_arc_op ops)) = arc_of id (apply_bops (live (delete_arcs e)) ops)).
  { apply arc_of_eq. rewrite !arc_apply. f_equal. clear. induction ops as [|o ops IH]; [reflexivity|]. cbn [filter flat_map]. destruct o; cbn [is_arc_op flat_map arc_pair app]; rewrite IH; reflexivity. }
  assert (El : lat_of id (apply_bops (live (delete_arcs e)) (filter is_arc_op ops)) = lat_of id (live e)).
  { rewrite lat_of_apply. change (lat_of id (live (delete_arcs e))) with (lat_of id (live e)). generalize (lat_of id (live e)) as l. clear.
    unfold lat_run, of_id. induction ops as [|o ops IH]; intro l; [reflexivity|]. cbn [filter]. destruct (is_arc_op o) eqn:Eo; [|apply IH]. cbn [filter].
    destruct (str_eqb (bop_id o) id); [|apply IH]. cbn [fold_left]. destruct o; try discriminate. cbn [lat_eff]. apply IH. }
  rewrite Ea, El. auto.
Qed.
End Step.

(** ** Histories *)
Section Hist.
Context {O P : Type} (oeq : O -> O -> bool) (odef : O) (parse : dict -> O -> P) (peq : P -> P -> bool).
Variable R : value -> value -> Prop.
Variable good : dict -> Prop.
Variable cap : N.
Variable name : pystr.
Notation state calls := (a_run a_empty (proj name calls)).

(** Calls, commits, syncs, resyncs and [resync_arcs] at any time. *)
Inductive anyhow : Z -> Z -> list (call O) -> client O -> es P -> Prop :=
| an_start : anyhow 0 0 [] empty_client empty_es
| an_call t s calls cl e c cl' : anyhow t s calls cl e ->
    (forall m v, c <> CCommit m v) -> Forall (step_ok good) (proj_call name c) ->
    do_call oeq odef cl c = Some cl' -> anyhow t s (calls ++ [c]) cl' e
| an_commit t s calls cl e m v : anyhow t s calls cl e -> t < v ->
    anyhow v s (calls ++ [CCommit m v]) (fst (commit oeq odef cl m v)) e
| an_sync r t s calls cl e e' : anyhow t s calls cl e -> options_there (state calls) (get_options cl name) ->
    sync parse peq cap cl name r e = Some e' -> anyhow t t calls cl e'
| an_arcs t s calls cl e e' : anyhow t s calls cl e -> options_there (state calls) (get_options cl name) ->
    resync_arcs parse peq cap cl name e = Some e' -> anyhow t t calls cl e'.

Hypothesis DC : data_class R good.
Hypothesis PK : parse_ok parse peq (near R good).
Notation target := (target parse peq).
Notation target_at := (target_at parse peq).
Notation base := (base oeq odef good name).
Notation true_docs := (true_docs parse (near R good)).

(** specification or proof device; models no code of its own *)
Definition inv_true (t s : Z) (calls : list (call O)) (cl : client O) (e : es P) : Prop :=
  (exists n, base n t s calls cl) /\ fresh e /\ sound s (live e) /\ forall id, true_docs id (live e) (target_at (committed (state calls)) (get_options cl name) s id).

Lemma inv_true_full t s calls cl e : inv_true t s calls cl e -> forall id, true_docs id (live e) (target (committed (state calls)) (get_options cl name) id).
Proof.
  intros ((n & B) & _ & Sd & HT) id. pose proof (base_hist oeq odef R good name DC _ _ _ _ _ B) as Hok. destruct B as (_ & _ & _ & _ & _ & _ & _ & _ & I7).
  exact (true_later parse peq (near R good) _ _ Hok s id (live e) (I7 id) Sd (HT id)).
Qed.
Theorem anyhow_inv t s calls cl e : anyhow t s calls cl e -> inv_true t s calls cl e.
Proof.
  induction 1 as [|t s calls cl e c cl' _ IH Hnc Hs H|t s calls cl e m v _ IH Hv|r t s calls cl e e' _ IH Ho H|t s calls cl e e' _ IH Ho H].
  - pose proof (proj1 (inv_base oeq odef parse peq R good name _ _ _ _ _ _) (inv_start oeq odef parse peq R good name)) as (B & F & D).
    split; [exists 0%nat; exact B|]. split; [exact F|]. split; [split; intros ? ? []|]. intro id. split; [intros d []|]. split; [constructor|]. split; [intros d []|cbn; lia].
  - destruct IH as ((n & B) & F & Sd & HT).
    destruct (base_call oeq odef good name n n t t s calls cl c cl' B H Hs) as (B' & Hup & Eo); [lia| |auto|]. { intros m v K. exfalso. exact (Hnc m v K). }
    split; [exists n; exact B'|]. split; [exact F|]. split; [exact Sd|]. intro id. specialize (HT id). unfold SyncColl.target_at in *. rewrite Hup, Eo. exact HT.
  - destruct IH as ((n & B) & F & Sd & HT).
    destruct (base_call oeq odef good name n (S n) t v s calls cl (CCommit m v) _ B eq_refl) as (B' & Hup & Eo).
    + unfold proj_call. destruct (str_eqb _ _); repeat constructor.
    + lia.
    + intros m' v' K. injection K as <- <-. auto.
    + intro K. exfalso. exact (K m v eq_refl).
    + split; [exists (S n); exact B'|]. split; [exact F|]. split; [exact Sd|]. intro id. specialize (HT id). unfold SyncColl.target_at in *. rewrite Hup, Eo. exact HT.
  - pose proof (inv_true_full _ _ _ _ _ IH) as HT. destruct IH as ((n & B) & F & Sd & _). destruct (base_full oeq odef parse peq good name _ _ _ _ _ B Ho) as [B' Et].
    destruct (base_sync oeq odef parse peq R good cap name DC PK r n t s calls cl e B F Sd Ho) as (e2 & E & F' & Sd' & _). rewrite H in E. injection E as <-.
    split; [exists 0%nat; exact B'|]. split; [exact F'|]. split; [exact Sd'|]. intro id. rewrite Et.
    exact (sync_true parse peq (near R good) PK _ _ (base_hist oeq odef R good name DC _ _ _ _ _ B) cap _ _ r e e' id H (proj1 (base_shows oeq odef R good name DC _ _ _ _ _ B)) F (Ho id) (HT id)).
  - pose proof (inv_true_full _ _ _ _ _ IH) as HT. destruct IH as ((n & B) & F & Sd & _). destruct (base_full oeq odef parse peq good name _ _ _ _ _ B Ho) as [B' Et].
    pose proof (base_hist oeq odef R good name DC _ _ _ _ _ B) as Hok. pose proof (proj1 (base_shows oeq odef R good name DC _ _ _ _ _ B)) as HS.
    rewrite resync_arcs_eq in H. unfold all_ops in H. destruct (find_records (fun _ => true) (data cl name)) as [recs|] eqn:Er; [|discriminate].
    destruct (Index.gen_ops _ _ _ _ _ _ _) as [[st ops]|] eqn:Eo; [|discriminate]. injection H as <-.
    split; [exists 0%nat; exact B'|]. split; [apply write_fresh, fresh_delete_arcs, F|]. rewrite write_live_docs. split.
    + destruct B as (_ & _ & _ & _ & _ & I4 & I5 & _). apply sound_apply; [|apply sound_delete, (sound_mono s t _ I5 Sd)].
      assert (K : Forall (op_sound t) ops).
      { destruct (find_records_spec (near R good) (fun _ => true) _ _ HS) as (recs' & Er' & _ & Hr). rewrite Er in Er'. injection Er' as <-.
        apply (gen_ops_sound parse peq _ _ _ _ _ _ _ _ Eo). intros id h k Hin [K|K]; apply I4; [right; exact K|left; exists id].
        destruct (Hr id) as [R1 _]. destruct (R1 h Hin) as (Hh & _). rewrite (hrel_keys _ h _ Hh) in K. exact K. }
      apply Forall_forall. intros o Hin. apply filter_In in Hin. rewrite Forall_forall in K. apply K, Hin.
    + intro id. rewrite Et. exact (arcs_true parse peq (near R good) PK _ _ Hok cap _ recs st ops e id HS Er Eo (Ho id) (HT id)).
Qed.
End Hist.
