(** The collection refines the abstract versioned store of [Store.v]. *)
From Coq Require Import String Ascii.
From Coq Require Import List ZArith NArith Bool Lia Sorted Permutation.
From Verif Require Import PyVal Diff DiffProofs Prepare PrepareProofs Mongo Store MongoProofs.
Import ListNotations.
Open Scope nat_scope.

(** ** The documents of one record *)
Definition docs_of (id : pystr) (c : coll) : list doc := filter (fun d => str_eqb (d_id d) id) c.

(** effect of an operation on the documents carrying its id *)
Definition apply_list (o : mop) (ds : list doc) : list doc :=
  match o, ds with
  | InsertOp id data, _ => ds ++ [mkDoc id None data []]
  | SetDataOp _ data, d :: r => mkDoc (d_id d) (d_ver d) data (d_diffs d) :: r
  | ChangeOp _ data v ch, d :: r => mkDoc (d_id d) None data (zset (d_diffs d) v ch) :: r
  | RevertOp _ data v all, d :: r =>
      mkDoc (d_id d) (Some v) data (if all then [] else zdel (d_diffs d) v) :: r
  | DeleteOp _, _ :: r => r
  | _, [] => []
  end.

Lemma docs_of_upd_same c id f : (forall d, d_id (f d) = d_id d) ->
  docs_of id (upd_first c id f) = match docs_of id c with [] => [] | d :: r => f d :: r end.
Proof.
  intro Hf. induction c as [|d c IH]; cbn [upd_first docs_of filter]; [reflexivity|].
  destruct (str_eqb (d_id d) id) eqn:E.
  - cbn [filter]. rewrite Hf, E. reflexivity.
  - cbn [filter]. rewrite E. exact IH.
Qed.
Lemma docs_of_upd_other c id id' f : (forall d, d_id (f d) = d_id d) -> id <> id' ->
  docs_of id (upd_first c id' f) = docs_of id c.
Proof.
  intros Hf Hne. induction c as [|d c IH]; cbn [upd_first docs_of filter]; [reflexivity|].
  destruct (str_eqb (d_id d) id') eqn:E; cbn [filter].
  - rewrite Hf. apply str_eqb_eq in E. destruct (str_eqb (d_id d) id) eqn:E2; [|reflexivity].
    apply str_eqb_eq in E2. congruence.
  - fold (docs_of id (upd_first c id' f)) (docs_of id c). rewrite IH. reflexivity.
Qed.
Lemma docs_of_del_same c id : docs_of id (del_first c id) = tl (docs_of id c).
Proof.
  induction c as [|d c IH]; cbn [del_first docs_of filter]; [reflexivity|].
  destruct (str_eqb (d_id d) id) eqn:E; [reflexivity|]. cbn [filter]. rewrite E. exact IH.
Qed.
Lemma docs_of_del_other c id id' : id <> id' -> docs_of id (del_first c id') = docs_of id c.
Proof.
  intros Hne. induction c as [|d c IH]; cbn [del_first docs_of filter]; [reflexivity|].
  destruct (str_eqb (d_id d) id') eqn:E; cbn [filter].
  - apply str_eqb_eq in E. destruct (str_eqb (d_id d) id) eqn:E2; [|reflexivity].
    apply str_eqb_eq in E2. congruence.
  - fold (docs_of id (del_first c id')) (docs_of id c). rewrite IH. reflexivity.
Qed.
Lemma docs_of_app c c' id : docs_of id (c ++ c') = docs_of id c ++ docs_of id c'.
Proof. apply filter_app. Qed.

Lemma docs_apply c o id : docs_of id (apply_mop c o) =
  if str_eqb (mop_id o) id then apply_list o (docs_of id c) else docs_of id c.
Proof.
  destruct (str_eqb (mop_id o) id) eqn:E.
  - apply str_eqb_eq in E. subst id. destruct o; cbn [apply_mop mop_id apply_list].
    + rewrite docs_of_app. cbn [docs_of filter d_id]. rewrite str_eqb_refl. reflexivity.
    + rewrite docs_of_upd_same by reflexivity. destruct (docs_of id c); reflexivity.
    + rewrite docs_of_upd_same by reflexivity. destruct (docs_of id c); reflexivity.
    + rewrite docs_of_upd_same by reflexivity. destruct (docs_of id c); reflexivity.
    + rewrite docs_of_del_same. destruct (docs_of id c); reflexivity.
  - apply str_eqb_neq in E. destruct o; cbn [apply_mop mop_id] in *;
      try (apply docs_of_upd_other; [reflexivity|congruence]).
    + rewrite docs_of_app. cbn [docs_of filter d_id]. rewrite (proj2 (str_eqb_neq _ _) E).
      apply app_nil_r.
    + apply docs_of_del_other. congruence.
Qed.

Lemma docs_apply_mops os : forall c id, docs_of id (apply_mops c os) =
  fold_left (fun ds o => apply_list o ds) (filter (fun o => str_eqb (mop_id o) id) os) (docs_of id c).
Proof.
  induction os as [|o os IH]; intros c id; cbn [apply_mops fold_left filter]; [reflexivity|].
  fold (apply_mops (apply_mop c o) os). rewrite IH, docs_apply.
  destruct (str_eqb (mop_id o) id); reflexivity.
Qed.
Lemma docs_apply_other os c id : (forall o, In o os -> mop_id o <> id) ->
  docs_of id (apply_mops c os) = docs_of id c.
Proof.
  intro H. rewrite docs_apply_mops.
  replace (filter (fun o => str_eqb (mop_id o) id) os) with (@nil mop); [reflexivity|].
  symmetry. induction os as [|o os IH]; cbn [filter]; [reflexivity|].
  rewrite (proj2 (str_eqb_neq _ _) (H o (or_introl eq_refl))). apply IH. intros; apply H; right; assumption.
Qed.
Lemma apply_mops_app c a b : apply_mops c (a ++ b) = apply_mops (apply_mops c a) b.
Proof. apply fold_left_app. Qed.

Lemma find_hd {A} (f : A -> bool) l : find f l = hd_error (filter f l).
Proof. induction l as [|x l IH]; cbn; [reflexivity|]. destruct (f x); [reflexivity|exact IH]. Qed.
Lemma filter_rev {A} (f : A -> bool) l : filter f (rev l) = rev (filter f l).
Proof.
  induction l as [|x l IH]; cbn; [reflexivity|]. rewrite filter_app, IH. cbn.
  destruct (f x); cbn; [reflexivity|apply app_nil_r].
Qed.
Lemma find_last_docs c id : find_last c id = hd_error (rev (docs_of id c)).
Proof. unfold find_last, docs_of. rewrite find_hd, filter_rev. reflexivity. Qed.
Lemma docs_id c id d : In d (docs_of id c) -> d_id d = id.
Proof. intro H. apply filter_In in H. apply str_eqb_eq. tauto. Qed.

Lemma one_doc_per_id c : (forall id, length (docs_of id c) <= 1) -> NoDup (map d_id c).
Proof.
  induction c as [|d c IH]; intro H; cbn; [constructor|]. constructor.
  - intro Hin. apply in_map_iff in Hin. destruct Hin as (d' & E & Hin).
    specialize (H (d_id d)). cbn [docs_of filter] in H. rewrite str_eqb_refl in H. cbn in H.
    assert (In d' (filter (fun d0 => str_eqb (d_id d0) (d_id d)) c)) as Hi
      by (apply filter_In; split; [exact Hin|apply str_eqb_eq; exact E]).
    destruct (filter (fun d0 => str_eqb (d_id d0) (d_id d)) c); [contradiction|cbn in H; lia].
  - apply IH. intro id. specialize (H id). cbn [docs_of filter] in H.
    destruct (str_eqb (d_id d) id); cbn in H; unfold docs_of; lia.
Qed.

(** ** Streams *)
Lemma last_data_app id a b : last_data id (a ++ b) =
  match last_data id b with Some x => Some x | None => last_data id a end.
Proof.
  induction a as [|[i d] a IH]; cbn [app last_data]; [destruct (last_data id b); reflexivity|].
  rewrite IH. destruct (last_data id b); reflexivity.
Qed.
Lemma last_data_snoc id a i d : last_data id (a ++ [(i, d)]) =
  if str_eqb i id then Some d else last_data id a.
Proof. rewrite last_data_app. cbn. destruct (str_eqb i id); reflexivity. Qed.
Lemma str_eqb_sym a b : str_eqb a b = str_eqb b a.
Proof. unfold str_eqb. destruct (str_eq_dec a b), (str_eq_dec b a); congruence. Qed.
Lemma dget_dict_of_last (l : list (pystr * dict)) id : dget (dict_of l) id = last_data id l.
Proof.
  induction l as [|[i d] l IH] using rev_ind; [reflexivity|].
  rewrite last_data_snoc.
  assert (E : dict_of (l ++ [(i, d)]) = dset (dict_of l) i d).
  { unfold dict_of, dupdate. rewrite fold_left_app. reflexivity. }
  rewrite E, dget_dset, IH, (str_eqb_sym id i). reflexivity.
Qed.
Lemma last_data_nodup (l : list prec) id : NoDup (map fst l) -> last_data id l = dget l id.
Proof. intro H. rewrite <- dget_dict_of_last. rewrite dict_of_id; [reflexivity|exact H]. Qed.
Lemma last_by_id (l : list prec) id : last_data id (by_id l) = last_data id l.
Proof. rewrite last_data_nodup by (apply (NoDup_dict_of l)). apply dget_dict_of_last. Qed.
Lemma last_data_In id l d : last_data id l = Some d -> In (id, d) l.
Proof.
  induction l as [|[i x] l IH]; cbn; intro H; [discriminate|].
  destruct (last_data id l); [right; apply IH; congruence|].
  destruct (str_eqb i id) eqn:E; [|discriminate]. apply str_eqb_eq in E. left; congruence.
Qed.
Lemma last_data_None id l : last_data id l = None <-> ~ In id (map fst l).
Proof.
  induction l as [|[i x] l IH]; cbn; [tauto|]. destruct (last_data id l) as [d|] eqn:E.
  - split; [discriminate|]. intro H. exfalso. apply H. right. apply last_data_In in E.
    apply in_map_iff. exists (id, d). auto.
  - destruct (str_eqb i id) eqn:Ei.
    + apply str_eqb_eq in Ei. split; [discriminate|]. intro H; exfalso; auto.
    + apply str_eqb_neq in Ei. split; [|reflexivity]. intros _ [H|H]; [congruence|]. apply IH in H; auto.
Qed.

(** Equal ids only occur within one batch of [size] records. *)
Definition ids_within_batches (size : nat) (recs : list prec) : Prop :=
  forall i j r r', nth_error recs i = Some r -> nth_error recs j = Some r' ->
    fst r = fst r' -> Nat.div i size = Nat.div j size.

(** specification or proof device; models no code of its own *)
Fixpoint disjoint_chunks (chunks : list (list prec)) : Prop :=
  match chunks with
  | [] => True
  | ch :: rest => (forall r r', In r ch -> In r' (concat rest) -> fst r <> fst r') /\ disjoint_chunks rest
  end.

Lemma within_disjoint_loop size : size >= 1 -> forall fuel recs, length recs < fuel ->
  ids_within_batches size recs -> disjoint_chunks (partition_loop fuel size recs).
Proof.
  intro Hs. induction fuel as [|fuel IH]; intros recs Hf H; [lia|].
  cbn [partition_loop]. destruct (firstn size recs) as [|a ch] eqn:E; [exact I|].
  assert (Hl : length (skipn size recs) < fuel).
  { rewrite skipn_length. destruct recs; [rewrite firstn_nil in E; discriminate|]. cbn [length] in *. lia. }
  cbn [disjoint_chunks]. split.
  - rewrite (proj1 (partition_loop_spec size Hs fuel (skipn size recs) Hl)). rewrite <- E.
    intros r r' Hr Hr' He. destruct (In_nth_error _ _ Hr) as [i Hi].
    destruct (In_nth_error _ _ Hr') as [j Hj].
    assert (Hil : i < size).
    { assert (nth_error (firstn size recs) i <> None) as N by congruence. apply nth_error_Some in N.
      rewrite firstn_length in N. lia. }
    assert (Hi2 : nth_error recs i = Some r).
    { rewrite <- (firstn_skipn size recs). rewrite nth_error_app1; [exact Hi|].
      apply nth_error_Some. congruence. }
    assert (Hj2 : nth_error recs (size + j) = Some r').
    { rewrite <- (firstn_skipn size recs). rewrite nth_error_app2.
      - rewrite firstn_length. destruct (le_lt_dec size (length recs)).
        + replace (size + j - Nat.min size (length recs)) with j by lia. exact Hj.
        + rewrite skipn_all2 in Hj by lia. destruct j; discriminate.
      - rewrite firstn_length. lia. }
    specialize (H _ _ _ _ Hi2 Hj2 He). rewrite Nat.div_small in H by exact Hil.
    assert (1 <= (size + j) / size) by (apply Nat.div_le_lower_bound; lia). lia.
  - apply IH; [exact Hl|]. intros i j r r' Hi Hj He.
    assert (Hx : forall k x, nth_error (skipn size recs) k = Some x -> nth_error recs (size + k) = Some x).
    { intros k x Hk. rewrite <- (firstn_skipn size recs). rewrite nth_error_app2.
      - rewrite firstn_length. destruct (le_lt_dec size (length recs)).
        + replace (size + k - Nat.min size (length recs)) with k by lia. exact Hk.
        + rewrite skipn_all2 in Hk by lia. destruct k; discriminate.
      - rewrite firstn_length. lia. }
    specialize (H _ _ _ _ (Hx _ _ Hi) (Hx _ _ Hj) He).
    replace (size + i) with (i + 1 * size) in H by lia. replace (size + j) with (j + 1 * size) in H by lia.
    rewrite !Nat.div_add in H by lia. lia.
Qed.

Lemma nodup_within size recs : NoDup (map fst recs) -> ids_within_batches size recs.
Proof.
  intros H i j r r' Hi Hj He. replace j with i; [reflexivity|].
  apply (NoDup_nth_error (map fst recs)); [exact H| |].
  - rewrite map_length. apply nth_error_Some. congruence.
  - rewrite !nth_error_map, Hi, Hj. cbn [option_map]. f_equal. exact He.
Qed.

Section Refine.
Variable R : value -> value -> Prop.
Variable good : dict -> Prop.
Hypothesis DC : data_class R good.
Let good_wf := dc_wf _ _ DC.
Notation "a ~~ b" := (vsim R (VDict a) (VDict b)) (at level 70).
Notation doc_rel := (doc_rel R good).
Notation relv := (relv R).

(** The documents of an id against the abstract record. *)
Definition drel (bound : Z) (ds : list doc) (a : option arec) : Prop :=
  match ds, a with
  | [], None => True
  | [d], Some r => doc_rel bound d r
  | _, _ => False
  end.
(** specification or proof device; models no code of its own *)
Definition crel (bound : Z) (c : coll) (A : astate) : Prop := forall id, drel bound (docs_of id c) (A id).

(** *** changes *)
Lemma rec_changes_spec mf new old ch new' old' : wfd new -> wfd old ->
  rec_changes mf new old = (ch, new', old') ->
  wfd new' /\ new ~~ new' /\ wfd old' /\ old ~~ old' /\ isnil ch = same mf new old /\
  (isnil ch = false -> ch = diff new' old').
Proof.
  intros Hn Ho H. unfold rec_changes in H. unfold same.
  assert (D : diff new old = ch /\ new = new' /\ old = old' ->
    wfd new' /\ new ~~ new' /\ wfd old' /\ old ~~ old' /\ isnil ch = py_eqb (VDict new) (VDict old) /\
    (isnil ch = false -> ch = diff new' old')).
  { intros (<- & <- & <-). repeat split; auto using (s_refl R good DC). apply isnil_diff; assumption. }
  destruct mf as [f|]; [|apply D; injection H; auto].
  destruct (dmem new f && dmem old f) eqn:Em; [|apply D; injection H; auto].
  clear D. injection H as Hch <- <-.
  pose proof (dc_refl _ _ DC) as Rr.
  split; [apply wf_repush; exact Hn|]. split; [apply repush_sim; assumption|].
  split; [apply wf_repush; exact Ho|]. split; [apply repush_sim; assumption|].
  rewrite isnil_diff in Hch by (apply wf_ddel; assumption).
  destruct (py_eqb (VDict (ddel new f)) (VDict (ddel old f))) eqn:E.
  - subst ch. split; [reflexivity|discriminate].
  - subst ch. split; [|auto]. rewrite isnil_diff by (apply wf_repush; assumption).
    destruct (py_eqb (VDict (repush new f)) (VDict (repush old f))) eqn:E2; [|reflexivity].
    exfalso. apply py_eqb_iff in E2; [|apply wf_repush; assumption..]. destruct E2 as [N V].
    assert (V2 : veq (VDict (ddel new f)) (VDict (ddel old f))).
    { apply vsim_ddel; auto. pose proof (repush_sim scalar_same new f scalar_same_refl Hn) as V3.
      pose proof (repush_sim scalar_same old f scalar_same_refl Ho) as V4.
      eapply veq_trans; [exact V3|]. eapply veq_trans; [exact V|]. apply veq_sym. exact V4. }
    assert (N2 : nan_free (VDict (ddel new f)) = true).
    { unfold repush in N. destruct (dget new f) as [v|] eqn:Ev.
      - rewrite dset_snoc in N.
        + cbn [nan_free] in *. rewrite forallb_app in N. apply andb_true_iff in N. tauto.
        + apply dget_None. rewrite dget_ddel by (apply wfd_NoDup; exact Hn). rewrite str_eqb_refl. reflexivity.
      - unfold dmem in Em. rewrite Ev in Em. discriminate. }
    rewrite (veq_py_eqb _ _ (wf_ddel _ f Hn) (wf_ddel _ f Ho) N2 V2) in E. discriminate.
Qed.

Lemma same_congr mf new a b : wfd new -> wfd a -> wfd b -> a ~~ b -> same mf new a = same mf new b.
Proof.
  intros Hn Ha Hb H. pose proof (s_veq R good DC _ _ H) as V. unfold same.
  assert (py_eqb (VDict new) (VDict a) = py_eqb (VDict new) (VDict b)) as E by (apply py_eqb_congr_r; assumption).
  destruct mf as [f|]; [|exact E]. rewrite (vsim_dmem _ _ _ f H), E.
  destruct (dmem new f && dmem b f); [|reflexivity].
  apply py_eqb_congr_r; try (apply wf_ddel; assumption). apply vsim_ddel; assumption.
Qed.

(** specification or proof device; models no code of its own *)
Definition apply_opt (o : option mop) (ds : list doc) : list doc :=
  match o with None => ds | Some m => apply_list m ds end.
(** specification or proof device; models no code of its own *)
Definition olist {A} (o : option A) : list A := match o with None => [] | Some x => [x] end.

Lemma nil_len {A} (l : list A) : length l = 0 -> l = [].
Proof. destruct l; [reflexivity|discriminate]. Qed.

(** *** one record against its document *)
Lemma rec_op_rel bound mf id new od oa :
  drel bound (olist od) oa -> (forall d, od = Some d -> d_id d = id) -> good new ->
  exists o, rec_op mf (id, new) od = Some o /\
    drel bound (apply_opt o (olist od)) (a_put mf new oa) /\
    (forall m, o = Some m -> mop_id m = id).
Proof.
  intros Hrel Hid Hg. pose proof (good_wf _ Hg) as Hwn.
  destruct od as [d|]; cbn [olist drel] in Hrel.
  2:{ destruct oa; [contradiction|]. unfold rec_op, a_put, p_del. cbn [snd fst].
      destruct new as [|kv new]; eexists; (split; [reflexivity|]); (split; [|]).
      - exact I.
      - discriminate.
      - cbn [apply_opt apply_list olist app drel]. apply fresh_rel; assumption.
      - intros m E; injection E as <-; reflexivity. }
  destruct oa as [[h [p|]]|]; [..|contradiction].
  - destruct (rel_pend R good _ _ _ _ Hrel) as (Hv & Hp & Hgp & Hgh & _).
    pose proof (hist_len R good _ _ _ _ Hrel) as Hlen.
    pose proof (ok_good _ _ _ (proj1 Hrel)) as Hgd. pose proof (good_wf _ Hgd) as Hwd.
    pose proof (good_wf _ Hgp) as Hwp.
    destruct h as [|[v x] rest].
    + apply nil_len in Hlen. unfold rec_op. rewrite Hv, Hlen. cbn [isnil fst snd].
      unfold p_del. cbn [snd]. destruct new as [|kv new'].
      { eexists. split; [reflexivity|]. cbn. split; [exact I|]. intros m E; injection E as <-; reflexivity. }
      rewrite isnil_diff by assumption. cbn [a_put].
      rewrite (py_eqb_congr_r _ _ (VDict p) Hwn Hwd Hwp (s_veq R good DC _ _ Hp)).
      destruct (py_eqb (VDict (kv :: new')) (VDict p)); eexists; (split; [reflexivity|]).
      * cbn. split; [exact Hrel|discriminate].
      * cbn [apply_opt apply_list olist drel]. rewrite Hv, Hlen. split; [apply fresh_rel; assumption|].
        intros m E; injection E as <-; reflexivity.
    + assert (Hnn : isnil (d_diffs d) = false) by (destruct (d_diffs d); [discriminate|reflexivity]).
      destruct (revert_rel R good DC _ _ _ _ _ _ Hrel) as (d' & m & os & Hrev & Hid' & Hv' & Hdd & Hdd' & Hnin & Hrel').
      unfold rec_op. rewrite Hv, Hnn, Hrev. cbn [snd fst].
      destruct (rec_changes mf new (d_data d')) as [[ch new'] old'] eqn:Ec. rewrite Hv'.
      pose proof (ok_good _ _ _ (proj1 Hrel')) as Hgd'.
      destruct (rec_changes_spec _ _ _ _ _ _ Hwn (good_wf _ Hgd') Ec) as (W1 & W2 & W3 & W4 & W5 & W6).
      destruct (rel_comm R good _ _ _ Hrel') as (v1 & x1 & r1 & E1 & _ & Hx' & Hgx & _).
      injection E1 as <- <- <-.
      rewrite (same_congr mf new _ _ Hwn (good_wf _ Hgd') (good_wf _ Hgx) Hx') in W5.
      eexists. split; [reflexivity|]. unfold a_put. rewrite W5 in *.
      destruct (same mf new x).
      * split.
        -- unfold revert_op. rewrite Hv'. cbn [apply_opt apply_list olist drel].
           pose proof (redata_rel R good DC _ _ _ _ Hrel' W3 W4) as G. rewrite Hv', Hid', Hdd' in G.
           rewrite Hdd'. rewrite Hdd, zdel_last by exact Hnin. destruct m; exact G.
        -- intros m0 E. unfold revert_op in E. rewrite Hv' in E. injection E as <-. cbn.
           rewrite Hid'. apply Hid. reflexivity.
      * split; [|intros m0 E; injection E as <-; reflexivity].
        cbn [apply_opt apply_list olist drel].
        assert (Hch : ch = diff new' old') by (apply W6; reflexivity).
        destruct (dc_rt _ _ DC new' old') as (y & Ey & Hy).
        { exact (dc_sim _ _ DC _ _ Hg W1 W2). } { exact (dc_sim _ _ DC _ _ Hgd' W3 W4). }
        assert (Hyx : y ~~ x).
        { eapply (s_trans R good DC); [exact Hy|]. eapply (s_trans R good DC); [|exact Hx'].
          apply (s_sym R good DC). exact W4. }
        rewrite <- Hch in Ey.
        assert (Hwch : Forall (fun o => wf_ops (dops o)) ch) by (rewrite Hch; apply wf_diff; assumption).
        pose proof (change_rel_gen R good DC _ _ _ _ _ _ _ _ _ Hrel' Hg W1 W2 Hwch Ey Hyx) as G.
        rewrite Hid', Hdd' in G. rewrite Hdd. rewrite zset_last by exact Hnin.
        rewrite zset_notin in G by exact Hnin. exact G.
  - destruct (rel_comm R good _ _ _ Hrel) as (v & x & rest & -> & Hv & Hx & Hgx & _).
    pose proof (ok_good _ _ _ (proj1 Hrel)) as Hgd. pose proof (good_wf _ Hgd) as Hwd.
    unfold rec_op. rewrite Hv. cbn [snd fst].
    destruct (rec_changes mf new (d_data d)) as [[ch new'] old'] eqn:Ec.
    destruct (rec_changes_spec _ _ _ _ _ _ Hwn Hwd Ec) as (W1 & W2 & W3 & W4 & W5 & W6).
    rewrite (same_congr mf new _ _ Hwn Hwd (good_wf _ Hgx) Hx) in W5.
    eexists. split; [reflexivity|]. unfold a_put. rewrite W5 in *. destruct (same mf new x).
    + cbn. split; [exact Hrel|discriminate].
    + split; [|intros m0 E; injection E as <-; reflexivity].
      cbn [apply_opt apply_list olist drel].
      assert (Hch : ch = diff new' old') by (apply W6; reflexivity).
      destruct (dc_rt _ _ DC new' old') as (y & Ey & Hy).
      { exact (dc_sim _ _ DC _ _ Hg W1 W2). } { exact (dc_sim _ _ DC _ _ Hgd W3 W4). }
      assert (Hyx : y ~~ x).
      { eapply (s_trans R good DC); [exact Hy|]. eapply (s_trans R good DC); [|exact Hx].
        apply (s_sym R good DC). exact W4. }
      rewrite <- Hch in Ey.
      assert (Hwch : Forall (fun o => wf_ops (dops o)) ch) by (rewrite Hch; apply wf_diff; assumption).
      exact (change_rel_gen R good DC _ _ _ _ _ _ _ _ _ Hrel Hg W1 W2 Hwch Ey Hyx).
Qed.

(** *** a batch *)
Lemma crel_ext bound c A B : (forall id, A id = B id) -> crel bound c A -> crel bound c B.
Proof. intros H HC id. rewrite <- H. apply HC. Qed.

Lemma drel_olist bound ds a : drel bound ds a -> ds = olist (hd_error (rev ds)).
Proof. destruct ds as [|d [|d' ds]]; cbn; auto. destruct a; contradiction. Qed.

Lemma map_ops_rel bound mf : forall rs c c1 A,
  NoDup (map fst rs) -> crel bound c1 A ->
  (forall r, In r rs -> docs_of (fst r) c = docs_of (fst r) c1) ->
  Forall (fun r => good (snd r)) rs ->
  exists os, map_ops mf c rs = Some os /\ crel bound (apply_mops c1 os) (a_ingest mf rs A) /\
    (forall o, In o os -> In (mop_id o) (map fst rs)).
Proof.
  induction rs as [|[id new] rs IH]; intros c c1 A Hnd HC Hsame Hg.
  - exists []. split; [reflexivity|]. split; [exact HC|]. intros o [].
  - inversion Hnd as [|? ? Hni Hnd']; subst. inversion Hg as [|? ? Hgn Hg']; subst. cbn [snd] in Hgn.
    cbn [map_ops fst].
    pose proof (HC id) as Hid. pose proof (drel_olist _ _ _ Hid) as Eo.
    pose proof (Hsame (id, new) (or_introl eq_refl)) as Hs0. cbn [fst] in Hs0.
    rewrite find_last_docs, Hs0.
    destruct (rec_op_rel bound mf id new (hd_error (rev (docs_of id c1))) (A id)) as (o & Ho & Hrel & Hmid).
    { rewrite <- Eo. exact Hid. }
    { intros d Hd. apply (docs_id c1). apply in_rev. destruct (rev (docs_of id c1)); [discriminate|].
      injection Hd as <-. left; reflexivity. }
    { exact Hgn. }
    rewrite Ho. rewrite <- Eo in Hrel.
    set (c2 := apply_mops c1 (olist o)).
    assert (Hc2 : forall i, docs_of i c2 = if str_eqb id i then apply_opt o (docs_of i c1) else docs_of i c1).
    { intro i. unfold c2. destruct o as [m|]; cbn [olist apply_mops fold_left apply_opt].
      - rewrite docs_apply, (Hmid m eq_refl). reflexivity.
      - destruct (str_eqb id i); reflexivity. }
    destruct (IH c c2 (fun i => if str_eqb id i then a_put mf new (A id) else A i)) as (os & Eos & HC' & Hin).
    + exact Hnd'.
    + intro i. rewrite Hc2. destruct (str_eqb id i) eqn:E; [|apply HC]. apply str_eqb_eq in E. subst i. exact Hrel.
    + intros r Hr. rewrite Hc2. rewrite (Hsame r (or_intror Hr)).
      destruct (str_eqb id (fst r)) eqn:E; [|reflexivity]. apply str_eqb_eq in E. exfalso. apply Hni.
      rewrite E. apply in_map; exact Hr.
    + exact Hg'.
    + rewrite Eos. cbn [bind]. exists (olist o ++ os). split; [destruct o; reflexivity|]. split.
      * rewrite apply_mops_app. fold c2. eapply crel_ext; [|exact HC'].
        intro i. unfold a_ingest. cbn [last_data]. destruct (last_data i rs) as [d|] eqn:El.
        -- destruct (str_eqb id i) eqn:E; [|reflexivity]. apply str_eqb_eq in E. subst i.
           exfalso. apply Hni. apply last_data_In in El. apply in_map_iff. exists (id, d); auto.
        -- destruct (str_eqb id i) eqn:E; [|reflexivity]. apply str_eqb_eq in E. subst i. reflexivity.
      * intros m Hm. apply in_app_or in Hm. destruct Hm as [Hm|Hm].
        -- destruct o as [m'|]; [|destruct Hm]. destruct Hm as [<-|[]]. rewrite (Hmid m' eq_refl). left; reflexivity.
        -- right. apply Hin. exact Hm.
Qed.

Lemma map_ops_absent mf c rs : (forall r, In r rs -> find_last c (fst r) = None) ->
  map_ops mf c rs = Some (map (fun r => InsertOp (fst r) (snd r)) (filter (fun r => negb (p_del r)) rs)).
Proof.
  induction rs as [|r rs IH]; intro H; cbn [map_ops filter map]; [reflexivity|].
  rewrite (H r (or_introl eq_refl)). cbn [rec_op]. rewrite IH by (intros; apply H; right; assumption).
  cbn [bind]. destruct (p_del r); reflexivity.
Qed.
Lemma chunk_ops_map mf c ch : chunk_ops mf c ch = map_ops mf c (by_id ch).
Proof.
  unfold chunk_ops. destruct (forallb _ (by_id ch)) eqn:E; [|reflexivity].
  symmetry. apply map_ops_absent. intros r Hr. rewrite forallb_forall in E. specialize (E r Hr).
  destruct (find_last c (fst r)); [discriminate|reflexivity].
Qed.

Lemma by_id_In r ch : In r (by_id ch) -> In r ch.
Proof. intro H. apply (In_dupdate [] ch) in H. destruct H as [[]|H]; exact H. Qed.

Lemma by_id_good ch : Forall (fun r => good (snd r)) ch -> Forall (fun r : prec => good (snd r)) (by_id ch).
Proof. rewrite !Forall_forall. intros H r Hr. apply H. apply by_id_In. exact Hr. Qed.

Lemma a_ingest_by_id mf ch A id : a_ingest mf (by_id ch) A id = a_ingest mf ch A id.
Proof. unfold a_ingest. rewrite last_by_id. reflexivity. Qed.

(** *** the whole stream *)
Lemma ingest_loop_rel bound size mf : forall chunks c pend A,
  disjoint_chunks chunks -> crel bound (apply_mops c pend) A ->
  (forall o r, In o pend -> In r (concat chunks) -> mop_id o <> fst r) ->
  Forall (Forall (fun r => good (snd r))) chunks ->
  exists os, ingest_loop size mf c pend chunks = Some os /\
    crel bound (apply_mops c os) (a_ingest mf (concat chunks) A).
Proof.
  induction chunks as [|ch rest IH]; intros c pend A Hdis HC Hpend Hg.
  - exists pend. split; [reflexivity|exact HC].
  - cbn [disjoint_chunks] in Hdis. destruct Hdis as [Hd1 Hd2]. inversion Hg as [|? ? Hgc Hgr]; subst.
    cbn [ingest_loop]. rewrite chunk_ops_map.
    destruct (map_ops_rel bound mf (by_id ch) c (apply_mops c pend) A) as (os & Eos & HC' & Hin).
    + apply (NoDup_dict_of ch).
    + exact HC.
    + intros r Hr. symmetry. apply docs_apply_other. intros o Ho. apply Hpend; [exact Ho|].
      cbn [concat]. apply in_or_app. left. apply by_id_In; exact Hr.
    + apply by_id_good. exact Hgc.
    + rewrite Eos. cbv zeta. set (buf := pend ++ os). set (n := length buf / size * size).
      assert (Hbuf : apply_mops (apply_mops c (firstn n buf)) (skipn n buf) = apply_mops (apply_mops c pend) os).
      { rewrite <- apply_mops_app, firstn_skipn. unfold buf. apply apply_mops_app. }
      destruct (IH (apply_mops c (firstn n buf)) (skipn n buf) (a_ingest mf (by_id ch) A)) as (os' & Eos' & HC'').
      * exact Hd2.
      * rewrite Hbuf. exact HC'.
      * intros o r Ho Hr. assert (Ho' : In o buf).
        { rewrite <- (firstn_skipn n buf). apply in_or_app. right; exact Ho. }
        unfold buf in Ho'. apply in_app_or in Ho'. destruct Ho' as [Ho'|Ho'].
        -- apply Hpend; [exact Ho'|]. cbn [concat]. apply in_or_app. right; exact Hr.
        -- specialize (Hin o Ho'). apply in_map_iff in Hin. destruct Hin as (r0 & Er0 & Hr0).
           rewrite <- Er0. apply Hd1; [apply by_id_In; exact Hr0|exact Hr].
      * exact Hgr.
      * rewrite Eos'. cbn [bind]. eexists. split; [reflexivity|].
        rewrite apply_mops_app. eapply crel_ext; [|exact HC''].
        intro id. cbn [concat]. unfold a_ingest at 1 3. rewrite last_data_app.
        destruct (last_data id (concat rest)) eqn:El.
        -- unfold a_ingest. rewrite last_by_id. destruct (last_data id ch) eqn:El2; [|reflexivity].
           exfalso. apply last_data_In in El. apply last_data_In in El2. exact (Hd1 _ _ El2 El eq_refl).
        -- unfold a_ingest. rewrite last_by_id. reflexivity.
Qed.

Theorem ingest_rel bound size mf c A recs : size >= 1 -> crel bound c A ->
  ids_within_batches size recs -> Forall (fun r => good (snd r)) recs ->
  exists c', ingest size mf c recs = Some c' /\ crel bound c' (a_ingest mf recs A).
Proof.
  intros Hs HC Hw Hg. unfold ingest, ingest_ops.
  destruct (partition_loop_spec size Hs (S (length recs)) recs (Nat.lt_succ_diag_r _)) as (P1 & _).
  fold (partition recs size) in P1.
  destruct (ingest_loop_rel bound size mf (partition recs size) c [] A) as (os & Eos & HC').
  - apply within_disjoint_loop; auto.
  - exact HC.
  - intros o r [].
  - rewrite <- P1 in Hg. clear - Hg. rewrite Forall_forall in *. intros ch Hch. rewrite Forall_forall.
    intros r Hr. apply Hg. apply in_concat. exists ch; auto.
  - rewrite Eos. cbn [bind]. eexists. split; [reflexivity|]. rewrite P1 in HC'. exact HC'.
Qed.

(** *** commit *)
Lemma commit_doc_id v d : d_id (commit_doc v d) = d_id d.
Proof. unfold commit_doc. destruct (d_ver d); reflexivity. Qed.
Lemma docs_of_commit v c id : docs_of id (commit_data v c) = map (commit_doc v) (docs_of id c).
Proof.
  unfold docs_of, commit_data. induction c as [|d c IH]; cbn [map filter]; [reflexivity|].
  rewrite commit_doc_id. destruct (str_eqb (d_id d) id); cbn [map]; rewrite <- IH; reflexivity.
Qed.
Theorem commit_crel bound c A v : crel bound c A -> (bound < v)%Z -> crel v (commit_data v c) (a_commit v A).
Proof.
  intros HC Hv id. specialize (HC id). rewrite docs_of_commit. unfold a_commit.
  destruct (docs_of id c) as [|d [|d' ds]]; cbn [map drel] in *; destruct (A id) as [[h [p|]]|]; try contradiction;
    try exact I.
  - exact (commit_rel R good _ _ _ _ HC Hv).
  - exact (commit_rel R good _ _ _ _ HC Hv).
Qed.

(** *** any operation generated in any reachable state, and rollback *)

(** The committed part of the state: records with history have one document based on
    that history; every other document is an uncommitted insert. [A]'s pending data is
    irrelevant. *)
Definition committed_base (bound : Z) (c : coll) (A : astate) : Prop := forall id,
  match A id with
  | Some (AR (vx :: rest) _) =>
      exists d p, docs_of id c = [d] /\ doc_rel bound d (AR (vx :: rest) p)
  | _ => Forall (fun d => d_ver d = None /\ d_diffs d = [] /\ good (d_data d)) (docs_of id c)
  end.

(** specification or proof device; models no code of its own *)
Definition op_valid (A : astate) (o : mop) : Prop :=
  match o with
  | ChangeOp id data v ch => exists x rest p y, A id = Some (AR ((v, x) :: rest) p) /\ good data /\
      Forall (fun o => wf_ops (dops o)) ch /\ patch data ch = Some y /\ y ~~ x
  | RevertOp id data v all => exists x rest p, A id = Some (AR ((v, x) :: rest) p) /\ wfd data /\
      data ~~ x /\ all = isnil rest
  | InsertOp id data | SetDataOp id data => good data /\
      match A id with Some (AR (_ :: _) _) => False | _ => True end
  | DeleteOp id => match A id with Some (AR (_ :: _) _) => False | _ => True end
  end.

Lemma op_valid_hist A B o : (forall id, match A id, B id with
    | Some (AR (a :: h) _), Some (AR (a' :: h') _) => a :: h = a' :: h'
    | Some (AR (_ :: _) _), _ | _, Some (AR (_ :: _) _) => False | _, _ => True end) ->
  op_valid A o -> op_valid B o.
Proof.
  intros H. destruct o; cbn [op_valid]; specialize (H id).
  - intros [G Hh]. split; [exact G|]. destruct (A id) as [[[|] ]|], (B id) as [[[|] ]|]; auto.
  - intros [G Hh]. split; [exact G|]. destruct (A id) as [[[|] ]|], (B id) as [[[|] ]|]; auto.
  - intros (x & rest & p & y & E & G). rewrite E in H. destruct (B id) as [[[|a h] p']|]; try contradiction.
    injection H as <- <-. exists x, rest, p', y. auto.
  - intros (x & rest & p & E & G). rewrite E in H. destruct (B id) as [[[|a h] p']|]; try contradiction.
    injection H as <- <-. exists x, rest, p'. auto.
  - destruct (A id) as [[[|] ]|], (B id) as [[[|] ]|]; auto.
Qed.

(** the two ways an existing document of a committed record can look *)
Lemma base_apply_hist bound d v x rest p data ch y : doc_rel bound d (AR ((v, x) :: rest) p) ->
  good data -> Forall (fun o => wf_ops (dops o)) ch -> patch data ch = Some y -> y ~~ x ->
  doc_rel bound (mkDoc (d_id d) None data (zset (d_diffs d) v ch)) (AR ((v, x) :: rest) (Some data)).
Proof.
  intros H Hg Hch Ey Hy. destruct p as [p|].
  - destruct (revert_rel R good DC _ _ _ _ _ _ H) as (d' & m & os & _ & Hid' & _ & Hdd & Hdd' & Hnin & Hrel').
    pose proof (change_rel_gen R good DC _ _ _ _ _ _ _ _ _ Hrel' Hg (good_wf _ Hg) (s_refl R good DC data) Hch Ey Hy) as G.
    rewrite Hid', Hdd' in G. rewrite Hdd, zset_last by exact Hnin.
    rewrite zset_notin in G by exact Hnin. exact G.
  - exact (change_rel_gen R good DC _ _ _ _ _ _ _ _ _ H Hg (good_wf _ Hg) (s_refl R good DC data) Hch Ey Hy).
Qed.
Lemma base_revert_hist bound d v x rest p data : doc_rel bound d (AR ((v, x) :: rest) p) ->
  wfd data -> data ~~ x ->
  doc_rel bound (mkDoc (d_id d) (Some v) data (if isnil rest then [] else zdel (d_diffs d) v))
    (AR ((v, x) :: rest) None).
Proof.
  intros H Hw Hx. destruct p as [p|].
  - destruct (revert_rel R good DC _ _ _ _ _ _ H) as (d' & m & os & _ & Hid' & Hv' & Hdd & Hdd' & Hnin & Hrel').
    destruct (rel_comm R good _ _ _ Hrel') as (v1 & x1 & r1 & E1 & _ & Hx' & _).
    injection E1 as <- <- <-.
    assert (Hs : d_data d' ~~ data) by (eapply (s_trans R good DC); [exact Hx'|apply (s_sym R good DC); exact Hx]).
    pose proof (redata_rel R good DC _ _ _ _ Hrel' Hw Hs) as G. rewrite Hid', Hv', Hdd' in G.
    rewrite Hdd, zdel_last by exact Hnin.
    pose proof (hist_len_c R good _ _ _ _ _ Hrel') as L. rewrite Hdd' in L.
    destruct rest; [destruct m; [exact G|discriminate]|exact G].
  - destruct (rel_comm R good _ _ _ H) as (v1 & x1 & r1 & E1 & Hv & Hx' & _).
    injection E1 as <- <- <-.
    assert (Hs : d_data d ~~ data) by (eapply (s_trans R good DC); [exact Hx'|apply (s_sym R good DC); exact Hx]).
    pose proof (redata_rel R good DC _ _ _ _ H Hw Hs) as G. rewrite Hv in G.
    pose proof (hist_len_c R good _ _ _ _ _ H) as L.
    pose proof (ok_lt _ _ _ (proj1 H)) as Lt. rewrite Hv in Lt.
    assert (Hz : zdel (d_diffs d) v = d_diffs d).
    { clear - Lt. induction (d_diffs d) as [|[k w] l IH]; cbn in *; [reflexivity|]. inversion Lt; subst.
      destruct (Z.eqb_spec v k); [lia|]. f_equal. auto. }
    rewrite Hz. destruct rest; [|exact G]. apply nil_len in L. rewrite L in *. exact G.
Qed.

Lemma valid_apply bound c A o : committed_base bound c A -> op_valid A o -> committed_base bound (apply_mop c o) A.
Proof.
  intros HB Ho id. specialize (HB id). rewrite docs_apply. destruct (str_eqb (mop_id o) id) eqn:E; [|exact HB].
  apply str_eqb_eq in E. subst id. destruct o; cbn [op_valid mop_id] in *.
  - destruct Ho as [Hg Ho]. destruct (A id) as [[[|vx rest] p]|]; [|contradiction|];
      cbn [apply_list]; (apply Forall_app; split; [exact HB|]); repeat constructor; exact Hg.
  - destruct Ho as [Hg Ho]. destruct (A id) as [[[|vx rest] p]|]; [|contradiction|];
      cbn [apply_list]; (destruct (docs_of id c) as [|d r]; [constructor|]);
      inversion HB as [|? ? (H1 & H2 & H3) H4]; subst; constructor; cbn; auto.
  - destruct Ho as (x & rest & p & y & E & Hg & Hch & Ey & Hy). rewrite E in *.
    destruct HB as (d & p' & Ed & Hrel). rewrite Ed. cbn [apply_list]. eexists; eexists.
    split; [reflexivity|]. exact (base_apply_hist _ _ _ _ _ _ _ _ _ Hrel Hg Hch Ey Hy).
  - destruct Ho as (x & rest & p & E & Hw & Hx & ->). rewrite E in *.
    destruct HB as (d & p' & Ed & Hrel). rewrite Ed. cbn [apply_list]. eexists; eexists.
    split; [reflexivity|]. exact (base_revert_hist _ _ _ _ _ _ _ Hrel Hw Hx).
  - destruct (A id) as [[[|vx rest] p]|]; [|contradiction|];
      cbn [apply_list]; (destruct (docs_of id c) as [|d r]; [constructor|]); inversion HB; assumption.
Qed.
Lemma valid_apply_all bound A os : forall c, committed_base bound c A -> Forall (op_valid A) os ->
  committed_base bound (apply_mops c os) A.
Proof.
  induction os as [|o os IH]; intros c HB Ho; [exact HB|]. inversion Ho; subst. cbn [apply_mops fold_left].
  apply IH; [|assumption]. apply valid_apply; assumption.
Qed.

Lemma crel_base bound c A : crel bound c A -> committed_base bound c A.
Proof.
  intros HC id. specialize (HC id). destruct (A id) as [[[|vx rest] p]|]; cbn [drel] in HC.
  - destruct (docs_of id c) as [|d [|]]; try contradiction. destruct p as [p|].
    + destruct (rel_pend R good _ _ _ _ HC) as (Hv & _). pose proof (hist_len R good _ _ _ _ HC) as L.
      apply nil_len in L. constructor; [|constructor]. repeat split; auto. exact (ok_good _ _ _ (proj1 HC)).
    + destruct (rel_comm R good _ _ _ HC) as (? & ? & ? & E & _). discriminate.
  - destruct (docs_of id c) as [|d [|]]; try contradiction. exists d, p. auto.
  - destruct (docs_of id c) as [|d ds]; [constructor|destruct ds; contradiction].
Qed.

(** operations generated against any state of the collection with this base are valid *)
Lemma rec_op_valid bound mf c A id new : committed_base bound c A -> good new ->
  exists o, rec_op mf (id, new) (find_last c id) = Some o /\ (forall m, o = Some m -> op_valid A m).
Proof.
  intros HB Hg. specialize (HB id). pose proof (good_wf _ Hg) as Hwn. rewrite find_last_docs.
  assert (Hfresh : (match A id with Some (AR (_ :: _) _) => False | _ => True end) ->
    Forall (fun d => d_ver d = None /\ d_diffs d = [] /\ good (d_data d)) (docs_of id c) ->
    exists o, rec_op mf (id, new) (hd_error (rev (docs_of id c))) = Some o /\ (forall m, o = Some m -> op_valid A m)).
  { intros HA HF. destruct (hd_error (rev (docs_of id c))) as [d|] eqn:Ed.
    - assert (Hin : In d (docs_of id c)).
      { apply in_rev. destruct (rev (docs_of id c)); [discriminate|]. injection Ed as <-. left; reflexivity. }
      rewrite Forall_forall in HF. destruct (HF d Hin) as (Hv & Hd & _).
      unfold rec_op. rewrite Hv, Hd. cbn [isnil fst snd].
      destruct (p_del (id, new)); [eexists; split; [reflexivity|]; intros m E; injection E as <-; exact HA|].
      destruct (isnil (diff new (d_data d))); eexists; (split; [reflexivity|]); [discriminate|].
      intros m E; injection E as <-. split; assumption.
    - cbn [rec_op fst snd]. destruct (p_del (id, new)); eexists; (split; [reflexivity|]); [discriminate|].
      intros m E; injection E as <-. split; assumption. }
  destruct (A id) as [[[|[v x] rest] p0]|] eqn:EA; [apply Hfresh; auto| |apply Hfresh; auto].
  clear Hfresh. destruct HB as (d & p & Ed & Hrel).
  pose proof (docs_id c id d) as Hid. rewrite Ed in *. specialize (Hid (or_introl eq_refl)).
  cbn [rev app hd_error].
  assert (CH : forall d' new' old' ch, doc_rel bound d' (AR ((v, x) :: rest) None) ->
     rec_changes mf new (d_data d') = (ch, new', old') -> 
     (isnil ch = false -> op_valid A (ChangeOp id new' v ch)) /\ wfd old' /\ old' ~~ x).
  { intros d' new' old' ch Hr Ec. pose proof (ok_good _ _ _ (proj1 Hr)) as Hgd'.
    destruct (rec_changes_spec _ _ _ _ _ _ Hwn (good_wf _ Hgd') Ec) as (W1 & W2 & W3 & W4 & W5 & W6).
    destruct (rel_comm R good _ _ _ Hr) as (v1 & x1 & r1 & E1 & _ & Hx' & Hgx & _). injection E1 as <- <- <-.
    assert (Hox : old' ~~ x) by (eapply (s_trans R good DC); [|exact Hx']; apply (s_sym R good DC); exact W4).
    split; [|split; assumption]. intro Hnn. specialize (W6 Hnn).
    destruct (dc_rt _ _ DC new' old') as (y & Ey & Hy).
    { exact (dc_sim _ _ DC _ _ Hg W1 W2). } { exact (dc_sim _ _ DC _ _ Hgd' W3 W4). }
    exists x, rest, p0, y. rewrite W6. split; [exact EA|]. split; [exact (dc_sim _ _ DC _ _ Hg W1 W2)|].
    split; [apply wf_diff; assumption|]. split; [exact Ey|]. eapply (s_trans R good DC); [exact Hy|exact Hox]. }
  unfold rec_op. destruct p as [p|].
  - destruct (rel_pend R good _ _ _ _ Hrel) as (Hv & _). pose proof (hist_len R good _ _ _ _ Hrel) as L.
    assert (Hnn : isnil (d_diffs d) = false) by (destruct (d_diffs d); [discriminate|reflexivity]).
    destruct (revert_rel R good DC _ _ _ _ _ _ Hrel) as (d' & m & os & Hrev & Hid' & Hv' & Hdd & Hdd' & Hnin & Hrel').
    rewrite Hv, Hnn, Hrev. cbn [snd fst].
    destruct (rec_changes mf new (d_data d')) as [[ch new'] old'] eqn:Ec. rewrite Hv'.
    destruct (CH _ _ _ _ Hrel' Ec) as (C1 & C2 & C3).
    eexists. split; [reflexivity|]. destruct (isnil ch) eqn:En.
    + unfold revert_op. rewrite Hv'. intros m0 E; injection E as <-.
      exists x, rest, p0. rewrite Hid', Hid. repeat split; auto.
      pose proof (hist_len_c R good _ _ _ _ _ Hrel') as L2.
      destruct (d_diffs d'), rest; try discriminate; reflexivity.
    + intros m0 E; injection E as <-. apply C1; reflexivity.
  - destruct (rel_comm R good _ _ _ Hrel) as (v1 & x1 & r1 & E1 & Hv & _). injection E1 as <- <- <-.
    rewrite Hv. cbn [snd fst].
    destruct (rec_changes mf new (d_data d)) as [[ch new'] old'] eqn:Ec.
    destruct (CH _ _ _ _ Hrel Ec) as (C1 & _).
    eexists. split; [reflexivity|]. destruct (isnil ch) eqn:En; [discriminate|].
    intros m0 E; injection E as <-. apply C1; reflexivity.
Qed.

Lemma map_ops_valid bound mf c A : committed_base bound c A -> forall rs, Forall (fun r => good (snd r)) rs ->
  exists os, map_ops mf c rs = Some os /\ Forall (op_valid A) os.
Proof.
  intros HB. induction rs as [|[id new] rs IH]; intro Hg; [exists []; split; [reflexivity|constructor]|].
  inversion Hg as [|? ? Hgn Hg']; subst. cbn [map_ops fst].
  destruct (rec_op_valid bound mf c A id new HB Hgn) as (o & Eo & Ho). rewrite Eo.
  destruct (IH Hg') as (os & Eos & Hos). rewrite Eos. cbn [bind]. eexists. split; [reflexivity|].
  destruct o; [constructor; auto|exact Hos].
Qed.

Lemma Forall_firstn {A} (P : A -> Prop) n l : Forall P l -> Forall P (firstn n l).
Proof. rewrite !Forall_forall. intros H x Hx. apply H. rewrite <- (firstn_skipn n l). apply in_or_app; auto. Qed.
Lemma Forall_skipn {A} (P : A -> Prop) n l : Forall P l -> Forall P (skipn n l).
Proof. rewrite !Forall_forall. intros H x Hx. apply H. rewrite <- (firstn_skipn n l). apply in_or_app; auto. Qed.

Lemma ingest_loop_valid bound size mf A : forall chunks c pend,
  committed_base bound c A -> Forall (op_valid A) pend ->
  Forall (Forall (fun r => good (snd r))) chunks ->
  exists os, ingest_loop size mf c pend chunks = Some os /\ Forall (op_valid A) os.
Proof.
  induction chunks as [|ch rest IH]; intros c pend HB Hp Hg; [exists pend; auto|].
  inversion Hg as [|? ? Hgc Hgr]; subst. cbn [ingest_loop]. rewrite chunk_ops_map.
  destruct (map_ops_valid bound mf c A HB (by_id ch) (by_id_good ch Hgc)) as (os & Eos & Hos). rewrite Eos.
  cbv zeta. set (buf := pend ++ os). set (n := length buf / size * size).
  assert (Hb : Forall (op_valid A) buf) by (apply Forall_app; auto).
  destruct (IH (apply_mops c (firstn n buf)) (skipn n buf)) as (os' & Eos' & Hos').
  - apply valid_apply_all; [exact HB|apply Forall_firstn; exact Hb].
  - apply Forall_skipn; exact Hb.
  - exact Hgr.
  - rewrite Eos'. cbn [bind]. eexists. split; [reflexivity|]. apply Forall_app. split; [apply Forall_firstn|]; assumption.
Qed.

Lemma ingest_ops_valid bound size mf c A recs : size >= 1 -> committed_base bound c A ->
  Forall (fun r => good (snd r)) recs ->
  exists os, ingest_ops size mf c recs = Some os /\ Forall (op_valid A) os.
Proof.
  intros Hs HB Hg. unfold ingest_ops.
  destruct (partition_loop_spec size Hs (S (length recs)) recs (Nat.lt_succ_diag_r _)) as (P1 & _).
  fold (partition recs size) in P1.
  apply (ingest_loop_valid bound); [exact HB|constructor|].
  rewrite <- P1 in Hg. clear - Hg. rewrite Forall_forall in *. intros ch Hch. rewrite Forall_forall.
  intros r Hr. apply Hg. apply in_concat. exists ch; auto.
Qed.

(** *** rollback *)
Lemma filter_comm {A} (f g : A -> bool) l : filter f (filter g l) = filter g (filter f l).
Proof.
  induction l as [|x l IH]; cbn; [reflexivity|].
  destruct (g x) eqn:Eg, (f x) eqn:Ef; cbn; rewrite ?Eg, ?Ef, IH; reflexivity.
Qed.

Lemma rollback_ops_of_some ds : (forall d, In d ds -> exists o, rollback_op d = Some o /\ mop_id o = d_id d) ->
  exists os, rollback_ops_of ds = Some os /\
    forall id, exists os', rollback_ops_of (docs_of id ds) = Some os' /\
      filter (fun o => str_eqb (mop_id o) id) os = os'.
Proof.
  induction ds as [|d ds IH]; intro H; [exists []; split; [reflexivity|]; intro id; exists []; auto|].
  destruct (H d (or_introl eq_refl)) as (o & Eo & Hid).
  destruct IH as (os & Eos & Hos); [intros; apply H; right; assumption|].
  cbn [rollback_ops_of]. rewrite Eo, Eos. cbn [bind]. eexists. split; [reflexivity|].
  intro id. destruct (Hos id) as (os' & E1 & E2). cbn [docs_of filter]. rewrite Hid.
  destruct (str_eqb (d_id d) id) eqn:E.
  - cbn [rollback_ops_of]. fold (docs_of id ds). rewrite Eo, E1. cbn [bind]. eexists; split; [reflexivity|].
    rewrite E2. reflexivity.
  - exists os'. split; [exact E1|exact E2].
Qed.

Lemma rollback_fresh_docs ds : Forall (fun d => d_ver d = None /\ d_diffs d = [] /\ good (d_data d)) ds ->
  rollback_ops_of ds = Some (map (fun d => DeleteOp (d_id d)) ds).
Proof.
  induction 1 as [|d ds (Hv & Hd & _) _ IH]; [reflexivity|]. cbn [rollback_ops_of].
  unfold rollback_op. rewrite Hd. cbn [isnil]. rewrite IH. reflexivity.
Qed.
Lemma delete_all ids : forall ds, length ids = length ds ->
  fold_left (fun ds o => apply_list o ds) (map DeleteOp ids) ds = [].
Proof.
  induction ids as [|i ids IH]; intros [|d ds] H; try discriminate; [reflexivity|].
  cbn [map fold_left apply_list]. apply IH. cbn in H; lia.
Qed.

Theorem rollback_crel bound c A : committed_base bound c A ->
  exists c', rollback c = Some c' /\ crel bound c' (a_rollback A).
Proof.
  intro HB. unfold rollback, rollback_ops.
  assert (Hall : forall id, match A id with
     | Some (AR (vx :: rest) _) => exists d p, docs_of id c = [d] /\ doc_rel bound d (AR (vx :: rest) p)
     | _ => Forall (fun d => d_ver d = None /\ d_diffs d = [] /\ good (d_data d)) (docs_of id c)
     end) by exact HB.
  destruct (rollback_ops_of_some (filter is_pending c)) as (os & Eos & Hos).
  { intros d Hd. apply filter_In in Hd. destruct Hd as [Hd Hp].
    assert (Hin : In d (docs_of (d_id d) c)) by (apply filter_In; split; [exact Hd|apply str_eqb_refl]).
    specialize (Hall (d_id d)).
    assert (Hf : Forall (fun d => d_ver d = None /\ d_diffs d = [] /\ good (d_data d)) (docs_of (d_id d) c) ->
      exists o, rollback_op d = Some o /\ mop_id o = d_id d).
    { intro F. rewrite Forall_forall in F. destruct (F d Hin) as (_ & Hdd & _).
      unfold rollback_op. rewrite Hdd. cbn. eexists; split; reflexivity. }
    destruct (A (d_id d)) as [[[|[v x] rest] p0]|]; try (apply Hf; exact Hall).
    destruct Hall as (d1 & p & E1 & Hrel). rewrite E1 in Hin. destruct Hin as [->|[]].
    destruct p as [p|].
    - pose proof (hist_len R good _ _ _ _ Hrel) as L.
      destruct (revert_rel R good DC _ _ _ _ _ _ Hrel) as (d' & m & os & Hrev & Hid' & Hv' & _).
      unfold rollback_op. destruct (d_diffs d) eqn:Edd; [discriminate|]. cbn [isnil].
      rewrite Hrev. unfold revert_op. rewrite Hv'. eexists; split; [reflexivity|]. exact Hid'.
    - destruct (rel_comm R good _ _ _ Hrel) as (? & ? & ? & _ & Hv & _).
      unfold is_pending in Hp. rewrite Hv in Hp. discriminate. }
  rewrite Eos. cbn [bind]. eexists. split; [reflexivity|].
  intro id. rewrite docs_apply_mops. destruct (Hos id) as (os' & E1 & E2). rewrite E2.
  unfold docs_of at 1 in E1. rewrite filter_comm in E1. fold (docs_of id c) in E1.
  specialize (Hall id). unfold a_rollback.
  assert (Hf : Forall (fun d => d_ver d = None /\ d_diffs d = [] /\ good (d_data d)) (docs_of id c) ->
    fold_left (fun ds o => apply_list o ds) os' (docs_of id c) = []).
  { intro F. assert (Ep : filter is_pending (docs_of id c) = docs_of id c).
    { clear - F. induction F as [|d ds (Hv & _) _ IH]; cbn; [reflexivity|]. unfold is_pending at 1.
      rewrite Hv, IH. reflexivity. }
    rewrite Ep, (rollback_fresh_docs _ F) in E1. injection E1 as <-.
    rewrite <- (map_map d_id DeleteOp). apply delete_all. apply map_length. }
  destruct (A id) as [[[|[v x] rest] p0]|]; try (rewrite (Hf Hall); exact I).
  destruct Hall as (d & p & Ed & Hrel). rewrite Ed in *. destruct p as [p|].
  - destruct (rel_pend R good _ _ _ _ Hrel) as (Hv & _). pose proof (hist_len R good _ _ _ _ Hrel) as L.
    destruct (revert_rel R good DC _ _ _ _ _ _ Hrel) as (d' & m & os0 & Hrev & Hid' & Hv' & Hdd & Hdd' & Hnin & Hrel').
    cbn [filter] in E1. unfold is_pending in E1. rewrite Hv in E1. cbn [rollback_ops_of] in E1.
    unfold rollback_op in E1. destruct (d_diffs d) as [|dd ddr] eqn:Edd; [discriminate|]. cbn [isnil] in E1.
    rewrite Hrev in E1. unfold revert_op in E1. rewrite Hv' in E1. cbn [bind] in E1. injection E1 as <-.
    cbn [fold_left apply_list]. rewrite Edd, Hdd. rewrite zdel_last by exact Hnin. rewrite Hdd'.
    cbn [drel]. destruct d' as [i' v' data' diffs']. cbn [d_id d_ver d_data d_diffs] in *. subst.
    destruct m; exact Hrel'.
  - destruct (rel_comm R good _ _ _ Hrel) as (v1 & x1 & r1 & Eh & Hv & _).
    cbn [filter] in E1. unfold is_pending in E1. rewrite Hv in E1. cbn in E1. injection E1 as <-.
    cbn. exact Hrel.
Qed.

Lemma a_rollback_ingest mf recs A id : a_rollback (a_ingest mf recs A) id = a_rollback A id.
Proof.
  unfold a_rollback, a_ingest. destruct (last_data id recs) as [new|]; [|reflexivity].
  unfold a_put. destruct (A id) as [[[|[v x] h] p]|]; [|reflexivity|].
  - destruct new; [reflexivity|]. destruct p as [p|]; [|reflexivity].
    destruct (py_eqb _ _); reflexivity.
  - destruct new; reflexivity.
Qed.

(** *** whole histories *)
Definition run_step (c : coll) (s : step) : option coll :=
  match s with
  | SIngest mf recs => ingest INGEST_SIZE mf c recs
  | SCommit v => Some (commit_data v c)
  | SRollback => rollback c
  end.
(** the calls of the model one after the other; [None]: one raises *)
Fixpoint run (c : coll) (ss : list step) : option coll :=
  match ss with [] => Some c | s :: r => bind (run_step c s) (fun c' => run c' r) end.

(** specification or proof device; models no code of its own *)
Definition step_ok (s : step) : Prop :=
  match s with
  | SIngest _ recs => ids_within_batches INGEST_SIZE recs /\ Forall (fun r => good (snd r)) recs
  | _ => True
  end.

Theorem run_crel ss : forall bound c A, crel bound c A -> clock_increasing bound ss -> Forall step_ok ss ->
  exists c' bound', run c ss = Some c' /\ crel bound' c' (a_run A ss) /\ (bound <= bound')%Z.
Proof.
  induction ss as [|s ss IH]; intros bound c A HC Hclk Hok; [exists c, bound; repeat split; auto; lia|].
  inversion Hok as [|? ? Hs Hok']; subst. destruct s as [mf recs|v|]; cbn [run run_step clock_increasing] in *.
  - destruct Hs as [Hw Hg].
    destruct (ingest_rel bound INGEST_SIZE mf c A recs) as (c' & E & HC'); auto; [unfold INGEST_SIZE; lia|].
    rewrite E. cbn [bind]. exact (IH bound c' _ HC' Hclk Hok').
  - destruct Hclk as [Hv Hclk]. cbn [bind].
    destruct (IH v _ _ (commit_crel _ _ _ _ HC Hv) Hclk Hok') as (c' & b' & H1 & H2 & H3).
    exists c', b'. repeat split; auto. lia.
  - destruct (rollback_crel bound c A (crel_base _ _ _ HC)) as (c' & E & HC'). rewrite E. cbn [bind].
    exact (IH bound c' _ HC' Hclk Hok').
Qed.

Lemma crel_empty bound : crel bound [] a_empty.
Proof. intro id. exact I. Qed.

End Refine.

(** ** The two instances *)
Lemma class_veq : data_class scalar_same wfd.
Proof.
  constructor; auto using scalar_same_refl, scalar_same_sym.
  - exact scalar_same_trans.
  - reflexivity.
  - intros a b Ha Hb. exact (diff_patch_veq a b Ha Hb).
Qed.

(** data over scalars in which equality implies identity *)
Definition scalars_in (S : value -> Prop) (v : value) : Prop :=
  forall a, sub a v -> is_scalar a = true -> S a.
(** specification or proof device; models no code of its own *)
Definition type_exact (S : value -> Prop) : Prop :=
  forall a b, S a -> S b -> scalar_eqb a b = true -> a = b.

Lemma vident_sub a b x : vident a b -> wf b -> sub x b -> is_scalar x = true -> sub x a.
Proof.
  intro H. revert x. induction H as [a b Ha Hb Hab|l m Hl Hlm IH|d e Hk Hde IH]; intros x Hw Hs Hx.
  - subst b. exact Hs.
  - inversion Hs as [|y l' Hin Hy|]; subst; [discriminate|].
    destruct (In_nth_error _ _ Hin) as [i Hi].
    destruct (nth_error l i) as [z|] eqn:E.
    + eapply sub_list; [eapply nth_error_In; exact E|]. eapply IH; [exact E|exact Hi| |exact Hy|exact Hx].
      apply wf_list in Hw. rewrite Forall_forall in Hw. auto.
    + apply nth_error_None in E. assert (N : nth_error m i <> None) by congruence.
      apply nth_error_Some in N. lia.
  - inversion Hs as [| |k y e' Hin Hy]; subst; [discriminate|].
    apply wf_dict in Hw. destruct Hw as [Hn Hf].
    assert (Hy' : dget e k = Some y) by (apply In_dget; assumption).
    destruct (dget d k) as [z|] eqn:E.
    + eapply sub_dict; [apply dget_In; exact E|]. eapply IH; [exact E|exact Hy'| |exact Hy|exact Hx].
      rewrite Forall_forall in Hf. exact (Hf _ Hin).
    + apply Hk in E. congruence.
Qed.

Lemma class_vident S : type_exact S -> data_class eq (fun d => wfd d /\ scalars_in S (VDict d)).
Proof.
  intro HS. constructor.
  - reflexivity.
  - congruence.
  - congruence.
  - intros a b ->. apply scalar_same_refl.
  - split; [reflexivity|]. intros a H Hsc. inversion H as [|? ? ?|? ? ? Hi Hs]; subst; [discriminate|destruct Hi].
  - tauto.
  - intros a b [Hw Hs] Hb H. split; [exact Hb|]. intros x Hx Hsc. apply Hs; [|exact Hsc].
    eapply vident_sub; eauto.
  - intros a b [Ha Sa] [Hb Sb]. apply diff_patch_vident; auto.
    intros x y Hx Hy Hsx Hsy E. apply HS; auto.
Qed.
