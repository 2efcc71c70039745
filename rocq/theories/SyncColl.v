(** Proofs about sync for a whole collection. *)
From Coq Require Import List ZArith NArith Bool Lia Sorted Permutation.
From Verif Require Import PyVal Diff Mongo MongoProofs MongoStore Client ClientProofs Index IndexSpec IndexProofs Sync SyncSpec SyncProofs SyncBuild.
Import ListNotations.
Open Scope Z_scope.

Section Docs.
Context {P : Type}.
Notation bop := (bop P).
Notation esdoc := (esdoc P).
Notation docs := (docs P).

(** ** Operations of one id *)
Definition of_id (id : pystr) (ops : list bop) : list bop := filter (fun o => str_eqb (bop_id o) id) ops.
Lemma lat_of_del id id' (l : list (pystr * esdoc)) a : lat_of id (Docs (del_lat id' l) a) =
  if str_eqb id' id then [] else lat_of id (Docs l a).
Proof.
  unfold lat_of, del_lat. cbn [lat]. induction l as [|[k x] l IH]; [destruct (str_eqb id' id); reflexivity|]. cbn [filter fst].
  destruct (str_eqb k id') eqn:E1; cbn [negb].
  - rewrite IH. apply str_eqb_eq in E1. subst k. destruct (str_eqb id' id); [reflexivity|reflexivity].
  - cbn [filter fst]. destruct (str_eqb k id) eqn:E2; cbn [map snd]; rewrite IH; [|reflexivity].
    destruct (str_eqb id' id) eqn:E3; [|reflexivity]. apply str_eqb_eq in E2, E3. subst. rewrite str_eqb_refl in E1. discriminate.
Qed.
Lemma lat_of_apply id ops : forall D : docs, lat_of id (apply_bops D ops) = lat_run (lat_of id D) (of_id id ops).
Proof.
  induction ops as [|o ops IH]; intro D; [reflexivity|]. unfold apply_bops in *. cbn [fold_left of_id filter]. rewrite IH.
  destruct D as [l a]. destruct o as [i x|i|n x]; cbn [apply_bop bop_id lat arc].
  - replace (lat_of id (Docs (del_lat i l ++ [(i, x)]) a)) with (lat_of id (Docs (del_lat i l) a) ++ if str_eqb i id then [x] else []).
    + rewrite lat_of_del. destruct (str_eqb i id); [reflexivity|]. rewrite app_nil_r. reflexivity.
    + unfold lat_of. cbn [lat]. rewrite filter_app, map_app. cbn [filter fst]. destruct (str_eqb i id); reflexivity.
  - rewrite lat_of_del. destruct (str_eqb i id); reflexivity.
  - destruct (str_eqb (e_id x) id); reflexivity.
Qed.
Lemma arc_of_apply id ops : forall D : docs, arc_of id (apply_bops D ops) = arc_of id D ++ arc_adds (of_id id ops).
Proof.
  induction ops as [|o ops IH]; intro D; [rewrite app_nil_r; reflexivity|]. unfold apply_bops in *. cbn [fold_left of_id filter]. rewrite IH.
  destruct D as [l a]. destruct o as [i x|i|n x]; cbn [apply_bop bop_id].
  - destruct (str_eqb i id); reflexivity.
  - destruct (str_eqb i id); reflexivity.
  - unfold arc_of. cbn [arc]. rewrite map_app, filter_app. cbn [map snd filter]. destruct (str_eqb (e_id x) id); cbn [arc_adds flat_map arc_part app].
    + rewrite <- app_assoc. reflexivity.
    + rewrite app_nil_r. reflexivity.
Qed.

(** ** Visible documents *)
Definition fresh (e : es P) : Prop :=
  lat (vis e) = lat (live e) /\ forall n, filter (fun nx => N.eqb (fst nx) n) (arc (vis e)) = filter (fun nx => N.eqb (fst nx) n) (arc (live e)).
Lemma fresh_empty : fresh empty_es. Proof. split; reflexivity. Qed.
Lemma fresh_arc_In e n (x : esdoc) : fresh e -> (In (n, x) (arc (vis e)) <-> In (n, x) (arc (live e))).
Proof.
  intros [_ H]. specialize (H n). assert (G : forall l : list (N * esdoc), In (n, x) l <-> In (n, x) (filter (fun nx => N.eqb (fst nx) n) l)).
  { intro l. rewrite filter_In. cbn [fst]. rewrite N.eqb_refl. tauto. }
  rewrite G, H, <- G. reflexivity.
Qed.
Lemma fresh_In e (x : esdoc) : fresh e -> (In x (all_docs (vis e)) <-> In x (all_docs (live e))).
Proof.
  intro H. unfold all_docs. rewrite !in_app_iff, (proj1 H). rewrite !in_map_iff.
  split; (intros [K|([n y] & E & K)]; [left; exact K|right; exists (n, y); split; [exact E|]; cbn in E; subst y; apply (fresh_arc_In e n x H); exact K]).
Qed.
Lemma apply_unseen ops n : arc_seen ops n = false -> forall D : docs,
  filter (fun nx => N.eqb (fst nx) n) (arc (apply_bops D ops)) = filter (fun nx => N.eqb (fst nx) n) (arc D).
Proof.
  unfold apply_bops. induction ops as [|o ops IH]; intros H D; [reflexivity|]. unfold arc_seen in *. cbn [existsb] in H. apply orb_false_iff in H. destruct H as [H1 H2].
  cbn [fold_left]. rewrite IH by exact H2. destruct D as [l a]. destruct o as [i x|i|m x]; try reflexivity.
  cbn [apply_bop arc]. rewrite filter_app. cbn [filter fst]. rewrite H1, app_nil_r. reflexivity.
Qed.
Lemma apply_lat_unseen ops : lat_seen ops = false -> forall D : docs, lat (apply_bops D ops) = lat D.
Proof.
  unfold apply_bops. induction ops as [|o ops IH]; intros H D; [reflexivity|]. unfold lat_seen in *. cbn [existsb] in H. apply orb_false_iff in H. destruct H as [H1 H2].
  cbn [fold_left]. rewrite IH by exact H2. destruct o; try discriminate. reflexivity.
Qed.
Lemma filter_filter {A} (f g : A -> bool) l : filter f (filter g l) = filter (fun x => f x && g x) l.
Proof. induction l as [|x l IH]; [reflexivity|]. cbn. destruct (g x); cbn; [|rewrite andb_false_r]; destruct (f x); cbn; rewrite IH; reflexivity. Qed.
Lemma filter_false {A} (l : list A) : filter (fun _ => false) l = [].
Proof. induction l; [reflexivity|assumption]. Qed.
Lemma write_fresh ops e : fresh e -> fresh (write_ops ops e).
Proof.
  intros [F1 F2]. unfold write_ops, refresh, write_live, setup. cbn [live vis arcs has_lat].
  destruct ops as [|o ops0] eqn:Eops.
  { cbn. split; reflexivity. }
  rewrite <- Eops. replace (isnil ops) with false by (subst; reflexivity). split; cbn [vis live lat arc].
  - destruct (lat_seen ops) eqn:E; [reflexivity|]. rewrite apply_lat_unseen by exact E. exact F1.
  - intro n. rewrite filter_app, !filter_filter. destruct (arc_seen ops n) eqn:E.
    + rewrite (filter_ext_in (fun x => N.eqb (fst x) n && arc_seen ops (fst x)) (fun x => N.eqb (fst x) n)).
      * rewrite (filter_ext_in (fun x => N.eqb (fst x) n && negb (arc_seen ops (fst x))) (fun _ => false)).
        -- rewrite filter_false. apply app_nil_r.
        -- intros x _. destruct (N.eqb_spec (fst x) n) as [->|]; [rewrite E; reflexivity|reflexivity].
      * intros x _. destruct (N.eqb_spec (fst x) n) as [->|]; [rewrite E; reflexivity|reflexivity].
    + rewrite (filter_ext_in (fun x => N.eqb (fst x) n && arc_seen ops (fst x)) (fun _ => false)).
      * rewrite filter_false. cbn [app].
        rewrite (filter_ext_in (fun x => N.eqb (fst x) n && negb (arc_seen ops (fst x))) (fun x => N.eqb (fst x) n)).
        -- rewrite apply_unseen by exact E. apply F2.
        -- intros x _. destruct (N.eqb_spec (fst x) n) as [->|]; [rewrite E; reflexivity|reflexivity].
      * intros x _. destruct (N.eqb_spec (fst x) n) as [->|]; [rewrite E; reflexivity|reflexivity].
Qed.
Lemma write_live_docs ops (e : es P) : live (write_ops ops e) = apply_bops (live e) ops.
Proof. unfold write_ops, refresh, write_live, setup. destruct (isnil ops); reflexivity. Qed.

Lemma es_version_spec e m : es_version (P := P) e = Some m <->
  (exists d, In d (all_docs (vis e)) /\ (e_ver d = m \/ e_end d = Some m)) /\
  forall d, In d (all_docs (vis e)) -> e_ver d <= m /\ forall w, e_end d = Some w -> w <= m.
Proof.
  unfold es_version. rewrite max_opt_spec. split.
  - intros [H1 H2]. split.
    + apply in_app_iff in H1. destruct H1 as [H|H]; apply in_map_iff in H; destruct H as (d & E & H); exists d; (split; [exact H|]).
      * left. congruence.
      * right. exact E.
    + intros d Hd. split; [apply H2, in_app_iff; left; apply in_map_iff; exists d; auto|].
      intros w E. apply H2, in_app_iff. right. apply in_map_iff. exists d. auto.
  - intros [(d & Hd & Hm) H2]. split.
    + apply in_app_iff. destruct Hm as [<-|Hm]; [left; apply in_map_iff; exists d; auto|right; apply in_map_iff; exists d; auto].
    + intros w Hw. apply in_app_iff in Hw. destruct Hw as [H|H]; apply in_map_iff in H; destruct H as (d' & E & H).
      * injection E as <-. apply H2, H.
      * apply (H2 d' H), E.
Qed.
Lemma es_version_None e : es_version (P := P) e = None -> all_docs (vis e) = [].
Proof.
  intro H. destruct (all_docs (vis e)) as [|d l] eqn:E; [reflexivity|]. exfalso. unfold es_version in H. rewrite E in H. cbn [map app] in H.
  rewrite max_opt_cons in H. destruct (max_opt _); discriminate.
Qed.
Lemma in_all_docs (D : docs) x : In x (all_docs D) <-> (exists id, In x (lat_of id D)) \/ In x (arc_of (e_id x) D).
Proof.
  unfold all_docs, lat_of, arc_of. rewrite in_app_iff. split.
  - intros [H|H].
    + left. apply in_map_iff in H. destruct H as ([k y] & E & H). cbn in E. subst y. exists k. apply in_map_iff. exists (k, x). split; [reflexivity|].
      apply filter_In. split; [exact H|apply str_eqb_refl].
    + right. apply filter_In. split; [exact H|apply str_eqb_refl].
  - intros [(id & H)|H].
    + left. apply in_map_iff in H. destruct H as (kx & E & H). apply filter_In in H. apply in_map_iff. exists kx. tauto.
    + right. apply filter_In in H. apply H.
Qed.
Lemma in_arc_of (D : docs) x id : In x (arc_of id D) -> In x (all_docs D).
Proof. unfold arc_of, all_docs. rewrite filter_In, in_app_iff. tauto. Qed.

(** ** same_docs *)
Lemma same_docs_In E (l m : list esdoc) : same_docs E l m -> (forall x, In x l -> exists y, In y m /\ deq E x y) /\ (forall y, In y m -> exists x, In x l /\ deq E x y).
Proof.
  intros (l' & Pm & F). split.
  - intros x Hx. apply (Permutation_in _ Pm) in Hx. clear Pm. induction F as [|a b l0 m0 H F IH]; [contradiction|].
    destruct Hx as [->|Hx]; [exists b; split; [left; reflexivity|exact H]|]. destruct (IH Hx) as (y & Hy & K). exists y. split; [right; exact Hy|exact K].
  - intros y Hy. assert (G : exists x, In x l' /\ deq E x y).
    { clear Pm. induction F as [|a b l0 m0 H F IH]; [contradiction|].
      destruct Hy as [->|Hy]; [exists a; split; [left; reflexivity|exact H]|]. destruct (IH Hy) as (x & Hx & K). exists x. split; [right; exact Hx|exact K]. }
    destruct G as (x & Hx & K). exists x. split; [apply (Permutation_in _ (Permutation_sym Pm)), Hx|exact K].
Qed.
Lemma same_docs_app E (l m l' m' : list esdoc) : same_docs E l m -> Forall2 (deq E) l' m' -> same_docs E (l ++ l') (m ++ m').
Proof.
  intros (k & Pm & F) F'. exists (k ++ l'). split; [apply Permutation_app_tail, Pm|apply Forall2_app; assumption].
Qed.
Lemma lat_run_perm ops : forall l l' : list esdoc, Permutation l l' -> Permutation (lat_run l ops) (lat_run l' ops).
Proof. induction ops as [|o ops IH]; intros l l' H; [exact H|]. cbn. apply IH. destruct o; cbn; [constructor; constructor|constructor|exact H]. Qed.
End Docs.

Section Gen.
Context {O P : Type} (parse : dict -> O -> P) (peq : P -> P -> bool).
Notation gen_ops := (gen_ops parse peq).
Notation build := (build parse peq).

Lemma of_id_app {P'} id (a b : list (bop P')) : of_id id (a ++ b) = of_id id a ++ of_id id b.
Proof. apply filter_app. Qed.
Lemma of_id_same {P'} id (l : list (bop P')) : Forall (fun o => bop_id o = id) l -> of_id id l = l.
Proof. induction 1 as [|o l Ho _ IH]; [reflexivity|]. unfold of_id in *. cbn [filter]. rewrite Ho, str_eqb_refl, IH. reflexivity. Qed.
Lemma of_id_other {P'} id id' (l : list (bop P')) : id <> id' -> Forall (fun o => bop_id o = id') l -> of_id id l = [].
Proof.
  intro Hn. induction 1 as [|o l Ho _ IH]; [reflexivity|]. unfold of_id in *. cbn [filter]. rewrite Ho. destruct (str_eqb id' id) eqn:E; [apply str_eqb_eq in E; congruence|exact IH].
Qed.
Lemma gen_ops_ids cap after om : forall recs st st' ops, gen_ops cap after om st recs = Some (st', ops) ->
  Forall (fun o => In (bop_id o) (map fst recs)) ops.
Proof.
  induction recs as [|[i h] recs IH]; intros st st' ops H; cbn [Index.gen_ops] in H; [injection H as <- <-; constructor|].
  destruct (build h om) as [rvs|]; [|discriminate]. destruct (gen_rvs cap after i st rvs) as [st1 ops1] eqn:E1.
  destruct (gen_ops cap after om st1 recs) as [[st2 ops2]|] eqn:E2; [|discriminate]. injection H as <- <-.
  apply Forall_app. split.
  - pose proof (gen_rvs_ids cap after i rvs st) as K. rewrite E1 in K. eapply Forall_impl; [|exact K]. cbn. auto.
  - eapply Forall_impl; [|exact (IH _ _ _ E2)]. cbn. auto.
Qed.
Lemma gen_ops_of_id cap after om : forall recs st st' ops, gen_ops cap after om st recs = Some (st', ops) -> NoDup (map fst recs) ->
  forall id, (~ In id (map fst recs) -> of_id id ops = []) /\
  (forall h, In (id, h) recs -> exists rvs, build h om = Some rvs /\ map strip (of_id id ops) = rec_ops after id rvs).
Proof.
  induction recs as [|[i h] recs IH]; intros st st' ops H Hn id; cbn [Index.gen_ops] in H.
  { injection H as <- <-. split; [reflexivity|intros ? []]. }
  destruct (build h om) as [rvs|] eqn:Eb; [|discriminate]. destruct (gen_rvs cap after i st rvs) as [st1 ops1] eqn:E1.
  destruct (gen_ops cap after om st1 recs) as [[st2 ops2]|] eqn:E2; [|discriminate]. injection H as <- <-.
  cbn [map fst] in Hn. inversion Hn as [|? ? Hi Hn']; subst.
  pose proof (gen_rvs_ids cap after i rvs st) as K1. rewrite E1 in K1. cbn [snd] in K1.
  destruct (IH _ _ _ E2 Hn' id) as [I1 I2]. rewrite of_id_app. split.
  - intro Hni. cbn [map fst In] in Hni. rewrite (of_id_other id i ops1) by (auto; intro; apply Hni; auto). apply I1. tauto.
  - intros h' [E|Hin].
    + injection E as -> ->. exists rvs. split; [exact Eb|]. rewrite (of_id_same id ops1 K1), (I1 Hi), app_nil_r.
      pose proof (gen_rvs_strip cap after id rvs st) as K2. rewrite E1 in K2. exact K2.
    + destruct (I2 h' Hin) as (rvs' & Hb & Hs). exists rvs'. split; [exact Hb|].
      rewrite (of_id_other id i ops1); [exact Hs| |exact K1]. intros ->. apply Hi. apply (in_map fst) in Hin. exact Hin.
Qed.
Lemma gen_ops_total cap after om : forall recs st, (forall id h, In (id, h) recs -> build h om <> None) -> exists st' ops, gen_ops cap after om st recs = Some (st', ops).
Proof.
  induction recs as [|[i h] recs IH]; intros st H; [exists st, []; reflexivity|]. cbn [Index.gen_ops].
  destruct (build h om) as [rvs|] eqn:Eb; [|exfalso; apply (H i h (or_introl eq_refl)), Eb].
  destruct (gen_rvs cap after i st rvs) as [st1 ops1]. destruct (IH st1 ltac:(intros id h' Hin; apply (H id h'); right; exact Hin)) as (st2 & ops2 & E).
  rewrite E. eexists. eexists. reflexivity.
Qed.
End Gen.

Section Coll.
Context {O P : Type} (parse : dict -> O -> P) (peq : P -> P -> bool) (near : dict -> dict -> Prop).
Hypothesis PK : parse_ok parse peq near.
Notation prel := (prel parse near).
Notation hrel := (hrel near).
Notation build := (build parse peq).
Notation record_docs := (record_docs parse peq).

(** specification or proof device; models no code of its own *)
Definition newest {V} (m : list (Z * V)) (v : Z) : Prop := In v (zkeys m) /\ forall k, In k (zkeys m) -> k <= v.
(** The collection [c] has at most one document per id, and those that are not pending show the history [H]. *)
Definition shows_hist (c : coll) (H : pystr -> list (Z * dict)) : Prop := forall id,
  match docs_of id c with
  | [] => H id = []
  | [d] => match d_ver d with
           | Some v => exists h, rec_hist d = Some h /\ Forall2 hrel h (H id) /\ newest (H id) v
           | None => True
           end
  | _ => False
  end.
(** specification or proof device; models no code of its own *)
Definition pending_id (c : coll) (id : pystr) : Prop := exists d, docs_of id c = [d] /\ d_ver d = None.

Lemma docs_of_In c d : In d c -> In d (docs_of (d_id d) c).
Proof. intro H. apply filter_In. split; [exact H|apply str_eqb_refl]. Qed.
Lemma docs_of_cons d c id : docs_of id (d :: c) = if str_eqb (d_id d) id then d :: docs_of id c else docs_of id c.
Proof. reflexivity. Qed.

Lemma find_records_spec f c H : shows_hist c H -> exists recs, find_records f c = Some recs /\ NoDup (map fst recs) /\
  forall id,
   (forall h, In (id, h) recs -> Forall2 hrel h (H id) /\ exists v, newest (H id) v /\ f v = true) /\
   (~ In id (map fst recs) -> H id = [] \/ pending_id c id \/ exists v, newest (H id) v /\ f v = false).
Proof.
  intro HS.
  assert (G : forall c', (forall id d, docs_of id c' = [d] -> docs_of id c = [d]) -> (forall id, (length (docs_of id c') <= 1)%nat) ->
    exists recs, find_records f c' = Some recs /\ NoDup (map fst recs) /\
     (forall id, In id (map fst recs) -> docs_of id c' <> []) /\
     forall id, (forall h, In (id, h) recs -> Forall2 hrel h (H id) /\ exists v, newest (H id) v /\ f v = true) /\
     (~ In id (map fst recs) -> docs_of id c' = [] \/ pending_id c id \/ exists v, newest (H id) v /\ f v = false)).
  { induction c' as [|d c' IH]; intros Hc Hl.
    { exists []. split; [reflexivity|]. split; [constructor|]. split; [intros ? []|]. intro id. split; [intros ? []|left; reflexivity]. }
    assert (Hd : docs_of (d_id d) (d :: c') = [d]).
    { rewrite docs_of_cons, str_eqb_refl. specialize (Hl (d_id d)). rewrite docs_of_cons, str_eqb_refl in Hl. cbn in Hl.
      destruct (docs_of (d_id d) c'); [reflexivity|cbn in Hl; lia]. }
    assert (Hnil : docs_of (d_id d) c' = []) by (rewrite docs_of_cons, str_eqb_refl in Hd; congruence).
    destruct IH as (recs & E & Hn & Hr & Hs).
    { intros id d' Hd'. apply Hc. rewrite docs_of_cons. destruct (str_eqb (d_id d) id) eqn:Ei; [|exact Hd'].
      apply str_eqb_eq in Ei. subst id. rewrite Hnil in Hd'. discriminate. }
    { intro id. specialize (Hl id). rewrite docs_of_cons in Hl. destruct (str_eqb (d_id d) id); cbn in Hl; lia. }
    pose proof (HS (d_id d)) as Hsd. rewrite (Hc (d_id d) d Hd) in Hsd. cbn [find_records].
    destruct (d_ver d) as [v|] eqn:Ev.
    - destruct Hsd as (h & Eh & Hh & Hv). destruct (f v) eqn:Ef.
      + exists ((d_id d, h) :: recs). rewrite Eh, E. split; [reflexivity|]. split.
        { cbn [map fst]. constructor; [|exact Hn]. intro K. apply (Hr _ K), Hnil. }
        split.
        { intros id [<-|K]; [cbn [fst]; rewrite Hd; discriminate|]. rewrite docs_of_cons. destruct (str_eqb (d_id d) id); [discriminate|apply Hr, K]. }
        intro id. destruct (Hs id) as [S1 S2]. split.
        { intros h' [K|K]; [injection K as <- <-; split; [exact Hh|exists v; auto]|apply S1, K]. }
        { intro K. cbn [map fst In] in K. rewrite docs_of_cons. destruct (str_eqb (d_id d) id) eqn:Ei; [apply str_eqb_eq in Ei; tauto|apply S2; tauto]. }
      + exists recs. split; [exact E|]. split; [exact Hn|]. split.
        { intros id K. rewrite docs_of_cons. destruct (str_eqb (d_id d) id); [discriminate|apply Hr, K]. }
        intro id. destruct (Hs id) as [S1 S2]. split; [exact S1|]. intro K. rewrite docs_of_cons. destruct (str_eqb (d_id d) id) eqn:Ei; [|apply S2, K].
        apply str_eqb_eq in Ei. subst id. right. right. exists v. auto.
    - exists recs. split; [exact E|]. split; [exact Hn|]. split.
      { intros id K. rewrite docs_of_cons. destruct (str_eqb (d_id d) id); [discriminate|apply Hr, K]. }
      intro id. destruct (Hs id) as [S1 S2]. split; [exact S1|]. intro K. rewrite docs_of_cons. destruct (str_eqb (d_id d) id) eqn:Ei; [|apply S2, K].
      apply str_eqb_eq in Ei. subst id. right. left. exists d. split; [apply Hc, Hd|exact Ev]. }
  destruct (G c) as (recs & E & Hn & _ & Hs).
  { auto. }
  { intro id. specialize (HS id). destruct (docs_of id c) as [|? [|? ?]]; cbn; try lia; contradiction. }
  exists recs. split; [exact E|]. split; [exact Hn|]. intro id. destruct (Hs id) as [S1 S2]. split; [exact S1|].
  intro K. destruct (S2 K) as [N|N]; [|right; exact N]. left. specialize (HS id). rewrite N in HS. exact HS.
Qed.

(** ** One synchronisation *)
Variable H : pystr -> list (Z * dict).
Variable om : list (Z * O).
Hypothesis Hok : forall id, H id = [] \/ hist_ok (H id).

Definition target (id : pystr) := record_docs (H id) om id.
(** specification or proof device; models no code of its own *)
Definition target_at (a : Z) (id : pystr) := record_docs (upto a (H id)) (upto a om) id.

Lemma record_docs_nil {om'} id : record_docs [] om' id = [].
Proof. reflexivity. Qed.
Lemma hist_ok_upto a h : hist_ok h -> upto a h = [] \/ hist_ok (upto a h).
Proof.
  intros [Hn (x & (v & Hv & Hmin) & Hx)]. destruct (Z.le_gt_cases v a) as [L|L].
  - right. split; [apply NoDup_upto, Hn|]. exists x. split; [|exact Hx]. exists v. split; [apply upto_In; auto|].
    intros w y K. apply upto_In in K. apply (Hmin w y), K.
  - left. destruct (upto a h) as [|[k y] r] eqn:E; [reflexivity|]. exfalso.
    assert (K : In (k, y) (upto a h)) by (rewrite E; left; reflexivity). apply upto_In in K. specialize (Hmin k y (proj1 K)). lia.
Qed.
Lemma build_nonempty h om' rvs : hist_ok h -> build h om' = Some rvs -> rvs <> [].
Proof.
  intros Hh E. destruct (hist_ok_first h Hh) as (fd & d0 & Efd & Ed & Hd0 & _). destruct (zmin_key om') as [fo|] eqn:Efo.
  2:{ unfold Index.build in E. rewrite Efd, Efo in E. discriminate. }
  destruct (zmin_key_spec om' fo Efo) as [Hino _]. destruct (zget_Some_In om' fo Hino) as (o0 & Eo).
  apply (build_at parse peq h om' rvs fd fo d0 o0 (proj1 Hh) Efd Efo Ed Eo Hd0 E).
Qed.
Lemma rv_docs_versions a h om' rvs id d : build h om' = Some rvs -> (forall k, In k (zkeys om') \/ In k (zkeys h) -> k <= a) ->
  In d (rv_docs id rvs) -> e_ver d <= a /\ forall w, e_end d = Some w -> w <= a.
Proof.
  intros Hb Hk Hd. pose proof (build_versions parse peq h om' rvs Hb) as K. rewrite Forall_forall in K.
  apply In_nth_error in Hd. destruct Hd as (i & Hi). apply rv_docs_nth in Hi. destruct Hi as (r & Hr & ->). cbn [create_doc e_ver e_end].
  destruct (K r (nth_error_In _ _ Hr)) as [K1 K2]. split; [apply Hk, K1|]. intros w Hw. unfold version_end in Hw.
  destruct (rv_del r) as [u|]; [injection Hw as <-; apply Hk, K2|]. destruct (nth_error rvs (S i)) as [n|] eqn:En; [|discriminate].
  injection Hw as <-. apply Hk, (K n (nth_error_In _ _ En)).
Qed.

(** an unchanged record *)
Lemma unchanged id a : (forall k, In k (zkeys (H id)) -> k <= a) -> (forall k, In k (zkeys om) -> k <= a) -> target id = target_at a id.
Proof. intros K1 K2. unfold target, target_at. rewrite !upto_all by assumption. reflexivity. Qed.

(** specification or proof device; models no code of its own *)
Definition settled (E : P -> P -> Prop) (id : pystr) (D : docs P) (T : list (esdoc P)) : Prop :=
  same_docs E (lat_of id D) (filter is_open T) /\ same_docs E (arc_of id D) (filter is_closed T).

Lemma settled_run id D ops h rvs_c rvs after T0 T : Forall2 hrel h (H id) -> build h om = Some rvs_c -> build (H id) om = Some rvs ->
  map strip (of_id id ops) = rec_ops after id rvs_c -> settled prel id D T0 ->
  lat_run (filter is_open T0) (rec_ops after id rvs) = filter is_open T ->
  filter is_closed T0 ++ arc_adds (rec_ops after id rvs) = filter is_closed T ->
  settled prel id (apply_bops D ops) T.
Proof.
  intros Hh Hbc Hb Hs [(l0 & P0 & F0) S1] H1 H2.
  destruct (build_rel parse peq near PK h (H id) om rvs_c Hh Hbc) as (rvs' & Hb' & Hr). rewrite Hb in Hb'. injection Hb' as <-.
  pose proof (rec_ops_rel parse near after id rvs_c rvs Hr) as Ho. split.
  - rewrite lat_of_apply, <- lat_run_strip, Hs, <- H1. exists (lat_run l0 (rec_ops after id rvs_c)). split; [apply lat_run_perm, P0|].
    apply lat_run_rel; assumption.
  - rewrite arc_of_apply, <- arc_adds_strip, Hs, <- H2. apply same_docs_app; [exact S1|apply arc_adds_rel; exact Ho].
Qed.
Lemma settled_idle id D ops T : of_id id ops = [] -> settled prel id D T -> settled prel id (apply_bops D ops) T.
Proof.
  intros Hs [S1 S2]. split; [rewrite lat_of_apply, Hs; exact S1|]. rewrite arc_of_apply, Hs. cbn. rewrite app_nil_r. exact S2.
Qed.

Variable a : Z.
Hypothesis Hopts : forall id, H id <> [] -> om <> [].
Hypothesis Hopts_a : forall id, upto a (H id) <> [] -> upto a om <> [].
Hypothesis Hsafe : forall id rvs0 rvs, build (upto a (H id)) (upto a om) = Some rvs0 -> build (H id) om = Some rvs -> ~ risky a (rev rvs0) (rev rvs).

Lemma target_at_versions id d : In d (target_at a id) -> e_ver d <= a /\ forall w, e_end d = Some w -> w <= a.
Proof.
  unfold target_at, SyncSpec.record_docs. destruct (build (upto a (H id)) (upto a om)) as [rvs|] eqn:E; [|intros []].
  apply (rv_docs_versions a _ _ _ _ _ E). intros k [K|K]; apply upto_keys in K; apply K.
Qed.
Lemma holds_In (D : docs P) (T : pystr -> list (esdoc P)) : holds prel D T ->
  (forall d, In d (all_docs D) -> exists id d', In d' (T id) /\ deq prel d d') /\
  (forall id d', In d' (T id) -> exists d, In d (all_docs D) /\ deq prel d d').
Proof.
  intro HD. split.
  - intros d Hd. apply in_all_docs in Hd. destruct Hd as [(id & Hd)|Hd].
    + destruct (same_docs_In prel _ _ (proj1 (HD id))) as [K _]. destruct (K d Hd) as (y & Hy & Q). apply filter_In in Hy. exists id, y. tauto.
    + destruct (same_docs_In prel _ _ (proj2 (HD (e_id d)))) as [K _]. destruct (K d Hd) as (y & Hy & Q). apply filter_In in Hy. exists (e_id d), y. tauto.
  - intros id d' Hd. destruct (is_open d') eqn:Eo.
    + destruct (same_docs_In prel _ _ (proj1 (HD id))) as [_ K]. destruct (K d' ltac:(apply filter_In; auto)) as (x & Hx & Q).
      exists x. split; [|exact Q]. apply in_all_docs. left. exists id. exact Hx.
    + destruct (same_docs_In prel _ _ (proj2 (HD id))) as [_ K]. destruct (K d' ltac:(apply filter_In; unfold is_closed; rewrite Eo; auto)) as (x & Hx & Q).
      exists x. split; [|exact Q]. exact (in_arc_of D x id Hx).
Qed.

Lemma step_selected e ops h id : fresh e -> holds prel (live e) (target_at a) -> H id <> [] -> Forall2 hrel h (H id) ->
  (exists rvs_c, build h om = Some rvs_c /\ map strip (of_id id ops) = rec_ops (es_version e) id rvs_c) ->
  settled prel id (apply_bops (live e) ops) (target id).
Proof.
  intros He HD Hne Hh (rvs_c & Hbc & Hs).
  destruct (Hok id) as [K|Hhok]; [congruence|].
  destruct (build_total parse peq (H id) om Hhok (Hopts id Hne)) as (rvs & Hb).
  assert (Ht : target id = rv_docs id rvs) by (unfold target, SyncSpec.record_docs; rewrite Hb; reflexivity).
  assert (Hcase : upto a (H id) = [] \/ exists rvs0, build (upto a (H id)) (upto a om) = Some rvs0 /\ target_at a id = rv_docs id rvs0 /\ rvs0 <> []).
  { destruct (hist_ok_upto a (H id) Hhok) as [K|K]; [left; exact K|]. destruct (upto a (H id)) as [|kv r] eqn:Eu; [left; reflexivity|]. right.
    destruct (build_total parse peq (kv :: r) (upto a om) K) as (rvs0 & E0).
    { apply (Hopts_a id). rewrite Eu. discriminate. }
    exists rvs0. split; [exact E0|]. split; [unfold target_at, SyncSpec.record_docs; rewrite Eu, E0; reflexivity|].
    exact (build_nonempty _ _ _ K E0). }
  rewrite Ht. destruct Hcase as [Eu|(rvs0 & E0 & Et0 & Hne0)].
  - (* a new record *)
    assert (T0 : target_at a id = []) by (unfold target_at; rewrite Eu; reflexivity).
    assert (Hnew : Forall (fun r => gt_after (es_version e) (rv_ver r) = true) rvs).
    { destruct (es_version e) as [ls|] eqn:Ev; [|apply Forall_forall; reflexivity].
      apply es_version_spec in Ev. destruct Ev as [(d & Hd & Hm) _]. apply (fresh_In e d He) in Hd.
      destruct (proj1 (holds_In _ _ HD) d Hd) as (id' & d' & Hd' & (_ & Q2 & Q3 & _)).
      destruct (target_at_versions id' d' Hd') as [L1 L2].
      assert (ls <= a) by (destruct Hm as [Hm|Hm]; [rewrite <- Hm, Q2; exact L1|apply L2; rewrite <- Q3; exact Hm]).
      destruct (hist_ok_first (H id) Hhok) as (fd & d0 & Efd & Ed & Hd0 & _).
      assert (Ha : a < fd).
      { destruct (Z.lt_ge_cases a fd) as [L|L]; [exact L|]. exfalso. destruct (zmin_key_spec _ _ Efd) as [Hin _].
        assert (In fd (zkeys (upto a (H id)))) by (apply upto_keys; auto). rewrite Eu in H1. contradiction. }
      destruct (zmin_key om) as [fo|] eqn:Efo; [|apply zmin_key_None in Efo; exfalso; exact (Hopts id Hne Efo)].
      destruct (zmin_key_spec om fo Efo) as [Hino _]. destruct (zget_Some_In om fo Hino) as (o0 & Eo).
      destruct (build_at parse peq (H id) om rvs fd fo d0 o0 (proj1 Hhok) Efd Efo Ed Eo Hd0 Hb) as (Hch & _ & (r1 & rest1 & Er & Vr) & _).
      apply Forall_forall. intros r Hr. cbn. assert (fd <= rv_ver r); [|destruct (Z.ltb_spec ls (rv_ver r)); [reflexivity|lia]].
      (* versions grow along the chain *)
      assert (G : forall l : list (rv P), chain l -> forall x, In x l -> rv_ver (last l x) <= rv_ver x).
      { clear. induction l as [|y l IH]; intros C x Hx; [contradiction|]. destruct C as (_ & C2 & C3). destruct l as [|z l].
        - destruct Hx as [->|[]]. cbn. lia.
        - destruct C2 as [C2 _]. change (last (y :: z :: l) x) with (last (z :: l) x).
          destruct Hx as [->|Hx]; [|exact (IH C3 x Hx)].
          specialize (IH C3 z (or_introl eq_refl)). 
          replace (last (z :: l) x) with (last (z :: l) z); [lia|]. clear. revert z. induction l as [|u l IH]; intro z; [reflexivity|].
          change (last (z :: u :: l) z) with (last (u :: l) z). change (last (z :: u :: l) x) with (last (u :: l) x).
          clear. revert u. induction l as [|w l IH]; intro u; [reflexivity|]. exact (IH w). }
      specialize (G (rev rvs) Hch r ltac:(apply in_rev in Hr; exact Hr)). rewrite Er in G. cbn [rev] in G. rewrite last_last, Vr in G. exact G. }
    destruct (rec_ops_fresh (es_version e) id rvs Hnew) as [A1 A2].
    apply (settled_run id (live e) ops h rvs_c rvs (es_version e) [] (rv_docs id rvs) Hh Hbc Hb Hs).
    + specialize (HD id). rewrite T0 in HD. exact HD.
    + rewrite A2. cbn. destruct (filter is_open (rv_docs id rvs)); reflexivity.
    + rewrite A1. reflexivity.
  - (* a known record *)
    destruct (es_version e) as [ls|] eqn:Ev.
    2:{ exfalso. apply es_version_None in Ev. destruct rvs0 as [|r0 rs0]; [congruence|].
        destruct (proj2 (holds_In _ _ HD) id (create_doc id r0 (hd_error rs0)) ltac:(rewrite Et0; left; reflexivity)) as (d & Hd & _).
        apply (fresh_In e d He) in Hd. rewrite Ev in Hd. contradiction. }
    apply es_version_spec in Ev. destruct Ev as [(d & Hd & Hm) Hmax]. apply (fresh_In e d He) in Hd.
    destruct (proj1 (holds_In _ _ HD) d Hd) as (id' & d' & Hd' & (_ & Q2 & Q3 & _)).
    destruct (target_at_versions id' d' Hd') as [L1 L2].
    assert (Hls : ls <= a) by (destruct Hm as [Hm|Hm]; [rewrite <- Hm, Q2; exact L1|apply L2; rewrite <- Q3; exact Hm]).
    assert (Bd : bounded ls (rev rvs0)).
    { apply Forall_rev, Forall_forall. intros r Hr. apply In_nth_error in Hr. destruct Hr as (i & Hi).
      pose proof (rv_docs_nth' id rvs0 i r Hi) as Hi'. apply nth_error_In in Hi'. rewrite <- Et0 in Hi'.
      destruct (proj2 (holds_In _ _ HD) id _ Hi') as (x & Hx & (_ & X2 & X3 & _)). apply (fresh_In e x He) in Hx.
      destruct (Hmax x Hx) as [M1 M2]. rewrite X2 in M1. rewrite X3 in M2. cbn [create_doc e_ver e_end] in M1, M2. split; [exact M1|].
      unfold version_end in M2. destruct (rv_del r) as [w|]; [apply M2; reflexivity|exact I]. }
    destruct (build_upto parse peq (H id) om a rvs0 rvs Hhok E0 Hb) as (X & _).
    destruct (rec_ops_inc a ls id rvs0 rvs X Bd Hls) as (A1 & A2 & A3).
    apply (settled_run id (live e) ops h rvs_c rvs (Some ls) (rv_docs id rvs0) (rv_docs id rvs) Hh Hbc Hb Hs).
    + specialize (HD id). rewrite Et0 in HD. exact HD.
    + apply A3. exact (Hsafe id rvs0 rvs E0 Hb).
    + rewrite A1. rewrite <- A2 at 1. apply firstn_skipn.
Qed.

Theorem sync_step cap c cv e : shows_hist c H ->
  fresh e -> holds prel (live e) (target_at a) ->
  (forall id, pending_id c id -> (forall k, In k (zkeys (H id)) -> k <= a) /\ (forall k, In k (zkeys om) -> k <= a)) ->
  (forall v d, In d c -> d_ver d = Some v -> exists m, cv = Some m /\ v <= m) ->
  (forall v m, In v (zkeys om) -> cv = Some m -> v <= m) ->
  exists e', run_plan (plan parse peq cap c om cv false e) e = Some e' /\ fresh e' /\ holds prel (live e') target.
Proof.
  intros HS He HD Hp Hcv Hcvo. unfold plan.
  destruct (has_data c) eqn:Hdata; cbn [negb].
  2:{ exists e. split; [reflexivity|]. split; [exact He|]. intro id. specialize (HD id). 
      assert (Hsame : target id = target_at a id).
      { pose proof (HS id) as Hid. destruct (docs_of id c) as [|d [|? ?]] eqn:Ed; [| |contradiction].
        - unfold target, target_at. rewrite Hid. reflexivity.
        - destruct (d_ver d) as [v|] eqn:Ev.
          + exfalso. assert (In d c) by (assert (K : In d (docs_of id c)) by (rewrite Ed; left; reflexivity); apply filter_In in K; apply K).
            assert (has_data c = true) by (apply existsb_exists; exists d; rewrite Ev; auto). congruence.
          + destruct (Hp id ltac:(exists d; auto)) as [K1 K2]. apply unchanged; assumption. }
      rewrite Hsame. exact HD. }
  assert (Go : forall f, (forall id v, newest (H id) v -> f v = false -> v <= a /\ (forall k, In k (zkeys om) -> k <= a)) ->
    exists e', run_plan (match find_records f c with
      | None => None
      | Some recs => match Index.gen_ops parse peq cap (es_version e) om (get_arc_status e) recs with
                     | None => None
                     | Some (_, ops) => Some (Some (e, ops)) end end) e = Some e' /\ fresh e' /\ holds prel (live e') target).
  { intros f Hf. destruct (find_records_spec f c H HS) as (recs & Er & Hn & Hr). rewrite Er.
    destruct (gen_ops_total parse peq cap (es_version e) om recs (get_arc_status e)) as (st' & ops & Eo).
    { intros id h Hin. destruct (Hr id) as [R1 _]. destruct (R1 h Hin) as (Hh & v & [Hv _] & _).
      assert (Hne : H id <> []) by (intro K; rewrite K in Hv; contradiction).
      destruct (Hok id) as [K|Hhok]; [congruence|].
      assert (Hhc : hist_ok h).
      { destruct Hhok as [Hn' (x & (v0 & Hv0 & Hmin) & Hx)]. pose proof (hrel_keys near h (H id) Hh) as Ek. split; [unfold zkeys in Ek; rewrite Ek; exact Hn'|].
        assert (Eg : zget (H id) v0 = Some x) by (apply (zget_In_iff _ _ _ Hn'); exact Hv0).
        pose proof (hrel_zget near h (H id) v0 Hh) as Eg'. rewrite Eg in Eg'. destruct (zget h v0) as [y|] eqn:Ey; [|contradiction].
        exists y. split.
        - exists v0. assert (Hn2 : NoDup (map fst h)) by (unfold zkeys in Ek; rewrite Ek; exact Hn').
          split; [apply (zget_In_iff _ _ _ Hn2); exact Ey|]. intros w z Hw. apply (in_map fst) in Hw. cbn in Hw. unfold zkeys in Ek. rewrite Ek in Hw.
          apply in_map_iff in Hw. destruct Hw as ([w' z'] & Ew & Hw). cbn in Ew. subst w'. apply (Hmin w z'), Hw.
        - intro Ny. apply Hx. apply (po_nil _ _ _ PK y x Eg'), Ny. }
      destruct (build_total parse peq h om Hhc (Hopts id Hne)) as (rvs & Eb). congruence. }
    rewrite Eo. cbn [run_plan]. eexists. split; [reflexivity|]. split; [apply write_fresh, He|].
    intro id. rewrite write_live_docs. destruct (gen_ops_of_id parse peq cap (es_version e) om recs _ _ _ Eo Hn id) as [G1 G2].
    destruct (Hr id) as [R1 R2].
    destruct (in_dec (list_eq_dec N.eq_dec) id (map fst recs)) as [Hin|Hin].
    - apply in_map_iff in Hin. destruct Hin as ([i h] & Ei & Hin). cbn in Ei. subst i. destruct (R1 h Hin) as (Hh & v & [Hv _] & _).
      apply (step_selected e ops h id He HD); [intro K; rewrite K in Hv; contradiction|exact Hh|exact (G2 h Hin)].
    - assert (Hsame : target id = target_at a id).
      { destruct (R2 Hin) as [K|[K|(v & Hv & Hfv)]].
        - unfold target, target_at. rewrite K. reflexivity.
        - destruct (Hp id K) as [K1 K2]. apply unchanged; assumption.
        - destruct (Hf id v Hv Hfv) as [K1 K2]. apply unchanged; [|exact K2]. intros k Hk. destruct Hv as [_ Hv]. specialize (Hv k Hk). lia. }
      rewrite Hsame. apply settled_idle; [apply G1, Hin|]. apply HD. }
  destruct (es_version e) as [ls|] eqn:Ev.
  2:{ apply Go. discriminate. }
  assert (Hls : ls <= a).
  { apply es_version_spec in Ev. destruct Ev as [(d & Hd & Hm) _]. apply (fresh_In e d He) in Hd.
    destruct (proj1 (holds_In _ _ HD) d Hd) as (id' & d' & Hd' & (_ & Q2 & Q3 & _)).
    destruct (target_at_versions id' d' Hd') as [L1 L2].
    destruct Hm as [Hm|Hm]; [rewrite <- Hm, Q2; exact L1|apply L2; rewrite <- Q3; exact Hm]. }
  unfold has_data in Hdata. apply existsb_exists in Hdata. destruct Hdata as (d0 & Hd0 & Hv0). destruct (d_ver d0) as [v0|] eqn:Ev0; [|discriminate].
  destruct (Hcv v0 d0 Hd0 Ev0) as (m & -> & _).
  destruct (Z.leb_spec m ls) as [Lm|Lm].
  - exists e. split; [reflexivity|]. split; [exact He|]. intro id. specialize (HD id).
    assert (Hsame : target id = target_at a id).
    { pose proof (HS id) as Hid. destruct (docs_of id c) as [|d [|? ?]] eqn:Ed; [| |contradiction].
      - unfold target, target_at. rewrite Hid. reflexivity.
      - assert (Hdc : In d c) by (assert (K : In d (docs_of id c)) by (rewrite Ed; left; reflexivity); apply filter_In in K; apply K).
        destruct (d_ver d) as [v|] eqn:Evd.
        + destruct Hid as (h & _ & _ & [_ Hv]). destruct (Hcv v d Hdc Evd) as (m' & E & Lv). injection E as <-.
          apply unchanged; [intros k Hk; specialize (Hv k Hk); lia|]. intros k Hk. specialize (Hcvo k m Hk eq_refl). lia.
        + destruct (Hp id ltac:(exists d; auto)) as [K1 K2]. apply unchanged; assumption. }
    rewrite Hsame. exact HD.
  - destruct (existsb (fun v => ls <? v) (zkeys om)) eqn:Ex.
    + apply Go. discriminate.
    + apply Go. intros id v _ Hfv. split; [destruct (Z.ltb_spec ls v); [discriminate|lia]|].
      intros k Hk. destruct (Z.ltb_spec ls k) as [L|L]; [|lia]. exfalso.
      assert (existsb (fun v => ls <? v) (zkeys om) = true) by (apply existsb_exists; exists k; split; [exact Hk|destruct (Z.ltb_spec ls k); [reflexivity|lia]]). congruence.
Qed.
End Coll.
