(** More about ingest: which documents it touches, the counts it reports, re-ingesting,
    and two ingests at the same time. *)
From Coq Require Import String Ascii.
From Coq Require Import List ZArith NArith Bool Lia Sorted Permutation.
From Coq Require Import Floats.SpecFloat.
From Verif Require Import PyVal Diff DiffProofs Prepare PrepareProofs Mongo Store MongoProofs MongoStore.
Import ListNotations.
Open Scope nat_scope.

(** ** Structural equality of stored documents *)
Definition sf_dec : forall a b : spec_float, {a = b} + {a <> b}.
Proof. decide equality; auto using Bool.bool_dec, Pos.eq_dec, Z.eq_dec. Defined.
(** structural equality, for the modified_count of MongoDB (manager.py:328-329); models no code *)
Definition value_dec : forall a b : value, {a = b} + {a <> b}.
Proof.
  fix IH 1. intros a b. destruct a, b; try (right; discriminate).
  - left; reflexivity.
  - destruct (Bool.bool_dec b0 b); [left|right]; congruence.
  - destruct (Z.eq_dec z z0); [left|right]; congruence.
  - destruct (sf_dec f f0); [left|right]; congruence.
  - destruct (str_eq_dec s s0); [left|right]; congruence.
  - destruct (list_eq_dec IH l l0); [left|right]; congruence.
  - assert (D : forall x y : pystr * value, {x = y} + {x <> y})
      by (intros [k v] [k' v']; destruct (str_eq_dec k k'), (IH v v'); [left|right..]; congruence).
    destruct (list_eq_dec D d d0); [left|right]; congruence.
Defined.
(** structural equality; models no code *)
Definition option_dec {A} (D : forall a b : A, {a = b} + {a <> b}) : forall a b : option A, {a = b} + {a <> b}.
Proof. decide equality. Defined.
(** structural equality; models no code *)
Definition pair_dec {A B} (DA : forall a b : A, {a = b} + {a <> b}) (DB : forall a b : B, {a = b} + {a <> b}) :
  forall a b : A * B, {a = b} + {a <> b}.
Proof. decide equality. Defined.
(** structural equality; models no code *)
Definition diffop_dec : forall a b : diffop, {a = b} + {a <> b}.
Proof.
  intros [p [dc dn dd lc ln ld]] [p' [dc' dn' dd' lc' ln' ld']].
  assert (Dp : forall a b : pkey, {a = b} + {a <> b}) by (decide equality; auto using str_eq_dec, Nat.eq_dec).
  pose proof (list_eq_dec (pair_dec str_eq_dec value_dec)) as Dd.
  destruct (list_eq_dec Dp p p'); [|right; congruence].
  destruct (option_dec Dd dc dc'); [|right; congruence].
  destruct (option_dec Dd dn dn'); [|right; congruence].
  destruct (option_dec (list_eq_dec str_eq_dec) dd dd'); [|right; congruence].
  destruct (option_dec (list_eq_dec (pair_dec Nat.eq_dec value_dec)) lc lc'); [|right; congruence].
  destruct (option_dec (list_eq_dec value_dec) ln ln'); [|right; congruence].
  destruct (option_dec Nat.eq_dec ld ld'); [|right; congruence].
  left; congruence.
Defined.
(** structural equality of stored documents; models no code *)
Definition doc_dec : forall a b : doc, {a = b} + {a <> b}.
Proof.
  intros [i v d f] [i' v' d' f'].
  destruct (str_eq_dec i i'); [|right; congruence].
  destruct (option_dec Z.eq_dec v v'); [|right; congruence].
  destruct (list_eq_dec (pair_dec str_eq_dec value_dec) d d'); [|right; congruence].
  destruct (list_eq_dec (pair_dec Z.eq_dec (list_eq_dec diffop_dec)) f f'); [|right; congruence].
  left; congruence.
Defined.

(** ** Python equality is symmetric *)
Lemma scalar_same_nan a b : is_scalar a = true -> is_scalar b = true -> scalar_same a b ->
  nan_free a = true -> nan_free b = true.
Proof.
  intros Ha Hb H Hn. destruct b as [| | |f| | |]; try reflexivity; try discriminate.
  destruct f; try reflexivity. destruct a as [| | |g| | |]; try discriminate; try (cbn in H; contradiction).
  destruct g as [s|s| |s m e]; try discriminate; try destruct e; cbn in H; contradiction.
Qed.
Lemma veq_nan_free a : forall b, wf b -> veq a b -> nan_free a = true -> nan_free b = true.
Proof.
  induction a as [|a0|a0|a0|a0|l IH|d IH] using value_ind'; intros b Hb H Hn.
  1-5: inversion H as [? ? Hs Hs' Hr| |]; subst; exact (scalar_same_nan _ _ Hs Hs' Hr Hn).
  - inversion H as [? ? Hs|? m Hl Hi|]; subst; [discriminate|]. cbn [nan_free] in *.
    apply forallb_forall. intros y Hy. apply wf_list in Hb. rewrite Forall_forall in *.
    destruct (In_nth_error _ _ Hy) as [i Ei]. destruct (nth_error l i) as [x|] eqn:Ex.
    + assert (Hx : In x l) by (eapply nth_error_In; exact Ex).
      apply (IH x Hx y (Hb y Hy)); [exact (Hi i x y Ex Ei)|]. rewrite forallb_forall in Hn. apply Hn; exact Hx.
    + apply nth_error_None in Ex. assert (N : nth_error m i <> None) by congruence. apply nth_error_Some in N. lia.
  - inversion H as [? ? Hs| |? e Hk Hi]; subst; [discriminate|]. cbn [nan_free] in *.
    apply forallb_forall. intros [k y] Hy. apply wf_dict in Hb. destruct Hb as [Hnd Hb]. rewrite Forall_forall in *.
    assert (Ey : dget e k = Some y) by (apply In_dget; assumption).
    destruct (dget d k) as [x|] eqn:Ex; [|apply Hk in Ex; congruence].
    assert (Hx : In (k, x) d) by (apply dget_In; exact Ex).
    apply (IH (k, x) Hx y (Hb _ Hy)); [exact (Hi k x y Ex Ey)|]. rewrite forallb_forall in Hn. apply (Hn _ Hx).
Qed.
Lemma py_eqb_sym a b : wf a -> wf b -> py_eqb a b = py_eqb b a.
Proof.
  intros Ha Hb. apply eq_true_iff_eq. rewrite !py_eqb_iff by assumption.
  split; intros [N V]; (split; [|apply veq_sym; exact V]).
  - exact (veq_nan_free a b Hb V N).
  - exact (veq_nan_free b a Ha V N).
Qed.
Lemma py_eqb_congr_l x a b : wf x -> wf a -> wf b -> veq a b -> py_eqb a x = py_eqb b x.
Proof.
  intros Hx Ha Hb H. rewrite (py_eqb_sym a x), (py_eqb_sym b x) by assumption.
  apply py_eqb_congr_r; assumption.
Qed.

(** ** Which ids an ingest touches *)
Lemma revert_doc_id d d' : revert_doc d = Some d' -> d_id d' = d_id d.
Proof.
  unfold revert_doc. destruct (d_ver d); [discriminate|]. destruct (zsort_desc _) as [|v r]; [discriminate|].
  destruct (zget _ v) as [os|]; [|discriminate]. destruct (patch _ os); [|discriminate].
  cbn. intro H; injection H as <-. reflexivity.
Qed.
Lemma rec_op_id mf id new od o m : rec_op mf (id, new) od = Some o -> o = Some m ->
  (forall d, od = Some d -> d_id d = id) -> mop_id m = id.
Proof.
  intros H -> Hd. unfold rec_op in H. cbn [fst snd] in H. destruct od as [d|].
  - specialize (Hd d eq_refl). destruct (d_ver d) as [v|].
    + destruct (rec_changes _ _ _) as [[ch n'] o']. destruct (isnil ch); [discriminate|].
      injection H as <-. reflexivity.
    + destruct (isnil (d_diffs d)).
      * destruct (p_del _); [injection H as <-; reflexivity|].
        destruct (isnil (diff _ _)); [discriminate|injection H as <-; reflexivity].
      * destruct (revert_doc d) as [d'|] eqn:E; [|discriminate]. apply revert_doc_id in E.
        destruct (rec_changes _ _ _) as [[ch n'] o']. destruct (d_ver d') as [v|] eqn:Ev; [|discriminate].
        destruct (isnil ch); [|injection H as <-; reflexivity].
        unfold revert_op in H. rewrite Ev in H. injection H as <-. cbn. congruence.
  - destruct (p_del _); [discriminate|]. injection H as <-. reflexivity.
Qed.
Lemma find_last_id c id d : find_last c id = Some d -> d_id d = id.
Proof.
  intro H. unfold find_last in H. apply find_some in H. apply str_eqb_eq. tauto.
Qed.
Lemma map_ops_ids mf c : forall rs os, map_ops mf c rs = Some os ->
  (forall o, In o os -> In (mop_id o) (map fst rs)) /\
  (NoDup (map fst rs) -> NoDup (map mop_id os)).
Proof.
  induction rs as [|[id new] rs IH]; intros os H; cbn [map_ops fst] in H.
  - injection H as <-. split; [intros o []|intros; constructor].
  - destruct (rec_op mf (id, new) (find_last c id)) as [o|] eqn:Eo; [|discriminate].
    destruct (map_ops mf c rs) as [l|] eqn:El; [|discriminate]. cbn [bind] in H. injection H as <-.
    destruct (IH l eq_refl) as [I1 I2]. destruct o as [m|].
    + pose proof (rec_op_id _ _ _ _ _ m Eo eq_refl (find_last_id c id)) as Em. split.
      * intros o [<-|Ho]; cbn [map fst]; [left; congruence|right; apply I1; exact Ho].
      * intro N. inversion N as [|? ? Hni N']; subst. cbn [map]. constructor; [|apply I2; exact N'].
        intro Hin. apply Hni. apply in_map_iff in Hin. destruct Hin as (o' & E & Ho'). specialize (I1 o' Ho'). congruence.
    + split; [intros o Ho; right; apply I1; exact Ho|]. intro N. inversion N; subst. apply I2; assumption.
Qed.
Lemma by_id_keys ch id : In id (map fst (by_id ch)) <-> In id (map fst ch).
Proof. unfold by_id, dict_of. rewrite (In_dkeys_dupdate [] ch id). cbn. unfold dkeys. tauto. Qed.
Lemma chunk_ops_ids mf c ch os : chunk_ops mf c ch = Some os ->
  (forall o, In o os -> In (mop_id o) (map fst ch)) /\ NoDup (map mop_id os).
Proof.
  rewrite chunk_ops_map. intro H. destruct (map_ops_ids _ _ _ _ H) as [A B]. split.
  - intros o Ho. apply by_id_keys. apply A; exact Ho.
  - apply B. apply (NoDup_dict_of ch).
Qed.
Lemma ingest_loop_ids size mf : forall chunks c pend os, ingest_loop size mf c pend chunks = Some os ->
  exists new, os = pend ++ new /\ (forall o, In o new -> In (mop_id o) (map fst (concat chunks))) /\
    (disjoint_chunks chunks -> NoDup (map mop_id new)).
Proof.
  induction chunks as [|ch rest IH]; intros c pend os H; cbn [ingest_loop] in H.
  - injection H as <-. exists []. rewrite app_nil_r. split; [reflexivity|]. split; [intros o []|constructor].
  - destruct (chunk_ops mf c ch) as [o1|] eqn:E1; [|discriminate]. cbv zeta in H.
    set (buf := pend ++ o1) in *. set (n := length buf / size * size) in *.
    destruct (ingest_loop size mf (apply_mops c (firstn n buf)) (skipn n buf) rest) as [l|] eqn:El; [|discriminate].
    cbn [bind] in H. injection H as <-. destruct (IH _ _ _ El) as (new & -> & I1 & I2).
    destruct (chunk_ops_ids _ _ _ _ E1) as [J1 J2].
    exists (o1 ++ new). split; [rewrite app_assoc, firstn_skipn; unfold buf; rewrite app_assoc; reflexivity|].
    cbn [concat]. rewrite map_app. split.
    + intros o Ho. apply in_app_or in Ho. apply in_or_app. destruct Ho as [Ho|Ho]; auto.
    + intros [D1 D2]. rewrite map_app. specialize (I2 D2). clear - I1 I2 J1 J2 D1.
      induction o1 as [|o o1 IHo]; [exact I2|]. cbn [map app] in *. inversion J2 as [|? ? Hni Hnd]; subst.
      constructor; [|apply IHo; [intros; apply J1; right; assumption|exact Hnd]].
      intro Hin. apply in_app_or in Hin. destruct Hin as [Hin|Hin]; [auto|].
      apply in_map_iff in Hin. destruct Hin as (o' & Eo & Ho'). specialize (I1 o' Ho').
      specialize (J1 o (or_introl eq_refl)). apply in_map_iff in I1. apply in_map_iff in J1.
      destruct I1 as (r' & E' & Hr'). destruct J1 as (r & E & Hr). apply (D1 r r' Hr Hr'). congruence.
Qed.
Lemma partition_concat (recs : list prec) size : size >= 1 -> concat (partition recs size) = recs.
Proof. intro Hs. exact (proj1 (partition_loop_spec size Hs (S (length recs)) recs (Nat.lt_succ_diag_r _))). Qed.
Lemma ingest_ops_ids size mf c recs os : size >= 1 -> ingest_ops size mf c recs = Some os ->
  (forall o, In o os -> In (mop_id o) (map fst recs)) /\
  (ids_within_batches size recs -> NoDup (map mop_id os)).
Proof.
  intros Hs H. destruct (ingest_loop_ids _ _ _ _ _ _ H) as (new & E & I1 & I2). cbn in E. subst new.
  rewrite partition_concat in I1 by exact Hs. split; [exact I1|]. intro W. apply I2.
  apply within_disjoint_loop; auto.
Qed.

(** An ingest leaves the documents of every other id alone. *)
Theorem ingest_frame size mf c c' recs id : size >= 1 -> ingest size mf c recs = Some c' ->
  ~ In id (map fst recs) -> docs_of id c' = docs_of id c.
Proof.
  intros Hs H Hn. unfold ingest in H. destruct (ingest_ops size mf c recs) as [os|] eqn:E; [|discriminate].
  cbn [bind] in H. injection H as <-. destruct (ingest_ops_ids _ _ _ _ _ Hs E) as [I1 _].
  apply docs_apply_other. intros o Ho He. apply Hn. rewrite <- He. apply I1; exact Ho.
Qed.

(** ** Counts (model.py:195-228 [IngestResult.update]) *)

(** BulkWriteResult of one operation: inserted_count, modified_count, deleted_count;
    MongoDB counts an update as modified only if it changes the stored document. *)
Record counts := Cnt { n_ins : nat; n_mod : nat; n_del : nat }.
(** model.py:220-229 [IngestResult.update]: the [+=] *)
Definition cadd (a b : counts) : counts :=
  Cnt (n_ins a + n_ins b) (n_mod a + n_mod b) (n_del a + n_del b).
(** the document an operation of [bulk_write] (manager.py:328) concerns *)
Definition first_doc (c : coll) (id : pystr) : option doc := find (fun d => str_eqb (d_id d) id) c.
(** BulkWriteResult of one operation (manager.py:328) *)
Definition op_counts (c : coll) (o : mop) : counts :=
  match o with
  | InsertOp _ _ => Cnt 1 0 0
  | DeleteOp id => Cnt 0 0 (match first_doc c id with Some _ => 1 | None => 0 end)
  | _ => match first_doc c (mop_id o), first_doc (apply_mop c o) (mop_id o) with
         | Some d, Some d' => Cnt 0 (if doc_dec d d' then 0 else 1) 0
         | _, _ => Cnt 0 0 0
         end
  end.
(** BulkWriteResult of a list of operations (manager.py:328) *)
Fixpoint ops_counts (c : coll) (os : list mop) : counts :=
  match os with
  | [] => Cnt 0 0 0
  | o :: r => cadd (op_counts c o) (ops_counts (apply_mop c o) r)
  end.
(** manager.py:319-328: the counts [ingest] returns *)
Definition ingest_counts (size : nat) (mf : option pystr) (c : coll) (recs : list prec) : option counts :=
  bind (ingest_ops size mf c recs) (fun os => Some (ops_counts c os)).

Lemma first_doc_docs c id : first_doc c id = hd_error (docs_of id c).
Proof. apply find_hd. Qed.
Lemma upd_first_length c id f : length (upd_first c id f) = length c.
Proof. induction c as [|d c IH]; cbn; [reflexivity|]. destruct (str_eqb _ _); cbn; congruence. Qed.
Lemma del_first_length c id :
  length (del_first c id) + match first_doc c id with Some _ => 1 | None => 0 end = length c.
Proof.
  induction c as [|d c IH]; cbn; [reflexivity|]. unfold first_doc in *. cbn [find].
  destruct (str_eqb _ _); cbn; lia.
Qed.
Lemma ops_counts_length os : forall c,
  length (apply_mops c os) + n_del (ops_counts c os) = length c + n_ins (ops_counts c os).
Proof.
  induction os as [|o os IH]; intro c; [cbn; lia|].
  cbn [apply_mops fold_left ops_counts cadd n_del n_ins]. fold (apply_mops (apply_mop c o) os).
  specialize (IH (apply_mop c o)).
  assert (H : length (apply_mop c o) + n_del (op_counts c o) = length c + n_ins (op_counts c o)).
  { destruct o; cbn [apply_mop op_counts n_del n_ins mop_id].
    - rewrite app_length. cbn. lia.
    - rewrite upd_first_length. destruct (first_doc c id); [match goal with |- context [first_doc ?x id] => destruct (first_doc x id) end|]; cbn; lia.
    - rewrite upd_first_length. destruct (first_doc c id); [match goal with |- context [first_doc ?x id] => destruct (first_doc x id) end|]; cbn; lia.
    - rewrite upd_first_length. destruct (first_doc c id); [match goal with |- context [first_doc ?x id] => destruct (first_doc x id) end|]; cbn; lia.
    - pose proof (del_first_length c id). lia. }
  lia.
Qed.

(** an id gained its document / lost it / has it with other content *)
Definition gained (c c' : coll) (id : pystr) : bool := isnil (docs_of id c) && negb (isnil (docs_of id c')).
(** specification: the record has lost its document *)
Definition lost (c c' : coll) (id : pystr) : bool := negb (isnil (docs_of id c)) && isnil (docs_of id c').
(** specification: the record has another document *)
Definition altered (c c' : coll) (id : pystr) : bool :=
  match docs_of id c, docs_of id c' with
  | d :: _, d' :: _ => if doc_dec d d' then false else true
  | _, _ => false
  end.
(** specification: how many ids have a property *)
Definition tally (f : pystr -> bool) (ids : list pystr) : nat := length (filter f ids).

(** ids have at most one document and inserts are only made for absent ids *)
Definition op_sound (c : coll) (o : mop) : Prop :=
  length (docs_of (mop_id o) c) <= 1 /\
  match o with InsertOp id _ => docs_of id c = [] | _ => docs_of (mop_id o) c <> [] end.

Lemma op_counts_spec c o : op_sound c o ->
  op_counts c o = Cnt (if gained c (apply_mop c o) (mop_id o) then 1 else 0)
                      (if altered c (apply_mop c o) (mop_id o) then 1 else 0)
                      (if lost c (apply_mop c o) (mop_id o) then 1 else 0).
Proof.
  intros [H1 H2]. unfold gained, altered, lost.
  pose proof (docs_apply c o (mop_id o)) as HD. rewrite str_eqb_refl in HD.
  unfold op_counts. rewrite !first_doc_docs. rewrite HD.
  destruct o; cbn [mop_id apply_list] in *; rewrite ?first_doc_docs.
  - rewrite H2. reflexivity.
  - destruct (docs_of id c) as [|d r]; [contradiction|]. cbn [hd_error isnil negb andb]. destruct (doc_dec _ _); reflexivity.
  - destruct (docs_of id c) as [|d r]; [contradiction|]. cbn [hd_error isnil negb andb]. destruct (doc_dec _ _); reflexivity.
  - destruct (docs_of id c) as [|d r]; [contradiction|]. cbn [hd_error isnil negb andb]. destruct (doc_dec _ _); reflexivity.
  - destruct (docs_of id c) as [|d [|d' r]]; [contradiction| |cbn in H1; lia]. reflexivity.
Qed.

Lemma tally_ext f g ids : (forall i, In i ids -> f i = g i) -> tally f ids = tally g ids.
Proof.
  unfold tally. intro H. f_equal. induction ids as [|i ids IH]; cbn; [reflexivity|].
  rewrite (H i (or_introl eq_refl)), IH by (intros; apply H; right; assumption). reflexivity.
Qed.

Lemma ops_counts_tally os : forall c, NoDup (map mop_id os) -> Forall (op_sound c) os ->
  ops_counts c os = Cnt (tally (gained c (apply_mops c os)) (map mop_id os))
                        (tally (altered c (apply_mops c os)) (map mop_id os))
                        (tally (lost c (apply_mops c os)) (map mop_id os)).
Proof.
  induction os as [|o os IH]; intros c Hnd Hs; [reflexivity|].
  cbn [map] in *. inversion Hnd as [|? ? Hni Hnd']; subst. inversion Hs as [|? ? Ho Hs']; subst.
  cbn [ops_counts apply_mops fold_left]. fold (apply_mops (apply_mop c o) os).
  assert (Hoth : forall i, In i (map mop_id os) -> docs_of i (apply_mop c o) = docs_of i c).
  { intros i Hi. rewrite docs_apply. destruct (str_eqb (mop_id o) i) eqn:E; [|reflexivity].
    apply str_eqb_eq in E. subst i. contradiction. }
  rewrite IH; [|exact Hnd'|].
  2:{ rewrite Forall_forall in *. intros o' Ho'. specialize (Hs' o' Ho').
      unfold op_sound in *. destruct o'; cbn [mop_id] in *;
        rewrite !Hoth by (apply in_map_iff; eexists; split; [|exact Ho']; reflexivity); exact Hs'. }
  rewrite (op_counts_spec c o Ho). set (cf := apply_mops (apply_mop c o) os).
  assert (Hcf : docs_of (mop_id o) cf = docs_of (mop_id o) (apply_mop c o)).
  { apply docs_apply_other. intros o' Ho' E. apply Hni. rewrite <- E. apply in_map; exact Ho'. }
  assert (Hg : gained c cf (mop_id o) = gained c (apply_mop c o) (mop_id o)) by (unfold gained; rewrite Hcf; reflexivity).
  assert (Ha : altered c cf (mop_id o) = altered c (apply_mop c o) (mop_id o)) by (unfold altered; rewrite Hcf; reflexivity).
  assert (Hl : lost c cf (mop_id o) = lost c (apply_mop c o) (mop_id o)) by (unfold lost; rewrite Hcf; reflexivity).
  unfold cadd. cbn [n_ins n_mod n_del].
  rewrite (tally_ext (gained (apply_mop c o) cf) (gained c cf)) by (intros; unfold gained; rewrite Hoth by assumption; reflexivity).
  rewrite (tally_ext (altered (apply_mop c o) cf) (altered c cf)) by (intros; unfold altered; rewrite Hoth by assumption; reflexivity).
  rewrite (tally_ext (lost (apply_mop c o) cf) (lost c cf)) by (intros; unfold lost; rewrite Hoth by assumption; reflexivity).
  unfold tally. cbn [filter]. rewrite Hg, Ha, Hl.
  destruct (gained c (apply_mop c o) (mop_id o)), (altered c (apply_mop c o) (mop_id o)), (lost c (apply_mop c o) (mop_id o)); reflexivity.
Qed.

(** ** Ops only depend on the documents of the ids ingested *)
Definition agree (ids : pystr -> Prop) (c c' : coll) : Prop := forall id, ids id -> docs_of id c = docs_of id c'.
Lemma map_ops_agree mf c c' rs : agree (fun i => In i (map fst rs)) c c' -> map_ops mf c rs = map_ops mf c' rs.
Proof.
  induction rs as [|r rs IH]; intro H; [reflexivity|]. cbn [map_ops].
  rewrite !find_last_docs, (H (fst r)) by (left; reflexivity).
  rewrite IH by (intros i Hi; apply H; right; exact Hi). reflexivity.
Qed.
Lemma chunk_ops_agree mf c c' ch : agree (fun i => In i (map fst ch)) c c' -> chunk_ops mf c ch = chunk_ops mf c' ch.
Proof. intro H. rewrite !chunk_ops_map. apply map_ops_agree. intros i Hi. apply H. apply by_id_keys. exact Hi. Qed.
Lemma apply_agree ids os : forall c c', agree ids c c' -> agree ids (apply_mops c os) (apply_mops c' os).
Proof. intros c c' H id Hi. rewrite !docs_apply_mops, (H id Hi). reflexivity. Qed.

(** ** Two ingests at the same time *)

(** One ingest as a process (manager.py:319-328 with ingest.py:78-84): unwritten
    operations and the batches of records still to be looked up. *)
Record proc := Proc { p_buf : list mop; p_todo : list (list prec) }.
(** manager.py:325-327: an ingest that has not begun *)
Definition proc_start (size : nat) (recs : list prec) : proc := Proc [] (partition recs size).
(** manager.py:331: nothing left to write *)
Definition proc_done (p : proc) : Prop := p_buf p = [] /\ p_todo p = [].

(** One step: write a full batch; otherwise look up the next records; at the end write
    what is left. (manager.py:324-328) *)
Inductive proc_step (size : nat) (mf : option pystr) : coll -> proc -> coll -> proc -> Prop :=
| ps_write c buf todo : size <= length buf ->
    proc_step size mf c (Proc buf todo) (apply_mops c (firstn size buf)) (Proc (skipn size buf) todo)
| ps_find c buf ch todo os : length buf < size -> chunk_ops mf c ch = Some os ->
    proc_step size mf c (Proc buf (ch :: todo)) c (Proc (buf ++ os) todo)
| ps_last c buf : length buf < size -> buf <> [] ->
    proc_step size mf c (Proc buf []) (apply_mops c buf) (Proc [] []).

(** Any interleaving of two such processes on one collection. (manager.py:324-328) *)
Inductive conc (size : nat) (mf1 mf2 : option pystr) : coll -> proc -> proc -> coll -> proc -> proc -> Prop :=
| conc_refl c p q : conc size mf1 mf2 c p q c p q
| conc_l c p q c1 p1 c2 p2 q2 : proc_step size mf1 c p c1 p1 ->
    conc size mf1 mf2 c1 p1 q c2 p2 q2 -> conc size mf1 mf2 c p q c2 p2 q2
| conc_r c p q c1 q1 c2 p2 q2 : proc_step size mf2 c q c1 q1 ->
    conc size mf1 mf2 c1 p q1 c2 p2 q2 -> conc size mf1 mf2 c p q c2 p2 q2.

(** what the process still writes, on its own (specification, models no code) *)
Definition proc_rest (size : nat) (mf : option pystr) (c : coll) (p : proc) : option coll :=
  let n := length (p_buf p) / size * size in
  bind (ingest_loop size mf (apply_mops c (firstn n (p_buf p))) (skipn n (p_buf p)) (p_todo p))
       (fun os => Some (apply_mops (apply_mops c (firstn n (p_buf p))) os)).

(** specification: the records an ingest still concerns *)
Definition proc_ids (p : proc) (id : pystr) : Prop :=
  In id (map mop_id (p_buf p)) \/ In id (map fst (concat (p_todo p))).

Lemma ingest_loop_agree size mf : forall chunks c c' pend (ids : pystr -> Prop),
  (forall id, In id (map fst (concat chunks)) -> ids id) ->
  agree ids c c' -> ingest_loop size mf c pend chunks = ingest_loop size mf c' pend chunks.
Proof.
  induction chunks as [|ch rest IH]; intros c c' pend ids Hi H; [reflexivity|]. cbn [ingest_loop].
  assert (Ech : chunk_ops mf c ch = chunk_ops mf c' ch).
  { apply chunk_ops_agree. intros i Hin. apply H. apply Hi. cbn [concat]. rewrite map_app. apply in_or_app; left; exact Hin. }
  rewrite Ech. destruct (chunk_ops mf c' ch) as [os|]; [|reflexivity]. cbv zeta.
  rewrite (IH (apply_mops c (firstn (length (pend ++ os) / size * size) (pend ++ os)))
              (apply_mops c' (firstn (length (pend ++ os) / size * size) (pend ++ os))) _ ids); [reflexivity| |].
  - intros i Hin. apply Hi. cbn [concat]. rewrite map_app. apply in_or_app; right; exact Hin.
  - apply apply_agree; exact H.
Qed.

Lemma ingest_loop_small size mf c buf chunks : length buf < size -> size >= 1 ->
  ingest_loop size mf c buf chunks =
  match chunks with
  | [] => Some buf
  | ch :: rest => bind (chunk_ops mf c ch) (fun os =>
      let n := length (buf ++ os) / size * size in
      bind (ingest_loop size mf (apply_mops c (firstn n (buf ++ os))) (skipn n (buf ++ os)) rest)
           (fun l => Some (firstn n (buf ++ os) ++ l)))
  end.
Proof. intros _ _. destruct chunks; [reflexivity|]. cbn [ingest_loop]. destruct (chunk_ops mf c l); reflexivity. Qed.

Lemma firstn_add {A} n m (l : list A) : firstn (n + m) l = firstn n l ++ firstn m (skipn n l).
Proof. revert l. induction n as [|n IH]; intros [|x l]; cbn; rewrite ?firstn_nil; auto. f_equal; apply IH. Qed.
Lemma skipn_add {A} n m (l : list A) : skipn (n + m) l = skipn m (skipn n l).
Proof. revert l. induction n as [|n IH]; intros [|x l]; cbn; rewrite ?skipn_nil; auto. Qed.

Lemma proc_step_rest size mf c p c1 p1 : size >= 1 -> proc_step size mf c p c1 p1 ->
  proc_rest size mf c p = proc_rest size mf c1 p1.
Proof.
  intros Hs H. inversion H as [c0 buf todo Hl|c0 buf ch todo os Hl Ech|c0 buf Hl Hne]; subst; unfold proc_rest; cbn [p_buf p_todo].
  - assert (E : length buf / size = S (length (skipn size buf) / size)).
    { rewrite skipn_length. replace (length buf) with ((length buf - size) + 1 * size) at 1 by lia.
      rewrite Nat.div_add by lia. lia. }
    rewrite E. cbn [Nat.mul]. rewrite firstn_add, skipn_add, apply_mops_app. reflexivity.
  - rewrite Nat.div_small by exact Hl. cbn [Nat.mul firstn skipn apply_mops fold_left ingest_loop]. rewrite Ech.
    cbn [bind]. cbv zeta. set (n := length (buf ++ os) / size * size).
    destruct (ingest_loop _ _ _ _ todo) as [l|]; [|reflexivity]. cbn [bind]. rewrite apply_mops_app. reflexivity.
  - rewrite Nat.div_small by exact Hl. cbn. rewrite Nat.div_0_l by lia. reflexivity.
Qed.

Lemma proc_step_ids size mf c p c1 p1 id : proc_step size mf c p c1 p1 -> proc_ids p1 id -> proc_ids p id.
Proof.
  unfold proc_ids. intro H; inversion H as [c0 buf todo Hl|c0 buf ch todo os Hl Ech|c0 buf Hl Hne]; subst; cbn [p_buf p_todo].
  - intros [Hi|Hi]; [left|right; exact Hi]. rewrite <- (firstn_skipn size buf), map_app. apply in_or_app; right; exact Hi.
  - rewrite map_app. cbn [concat]. rewrite map_app. intros [Hi|Hi].
    + apply in_app_or in Hi. destruct Hi as [Hi|Hi]; [left; exact Hi|right]. apply in_or_app; left.
      destruct (chunk_ops_ids _ _ _ _ Ech) as [I _]. apply in_map_iff in Hi. destruct Hi as (o & <- & Ho). apply I; exact Ho.
    + right. apply in_or_app; right; exact Hi.
  - cbn. tauto.
Qed.
Lemma proc_step_frame size mf c p c1 p1 id : proc_step size mf c p c1 p1 -> ~ proc_ids p id -> docs_of id c1 = docs_of id c.
Proof.
  unfold proc_ids. intro H; inversion H as [c0 buf todo Hl|c0 buf ch todo os Hl Ech|c0 buf Hl Hne]; subst; cbn [p_buf p_todo]; intro Hn.
  - apply docs_apply_other. intros o Ho He. apply Hn. left. rewrite <- He. apply in_map.
    rewrite <- (firstn_skipn size buf). apply in_or_app; left; exact Ho.
  - reflexivity.
  - apply docs_apply_other. intros o Ho He. apply Hn. left. rewrite <- He. apply in_map; exact Ho.
Qed.

(** Running the rest of a process depends only on the documents of its ids. *)
Lemma proc_rest_agree size mf c c' p (ids : pystr -> Prop) x : (forall id, proc_ids p id -> ids id) ->
  agree ids c c' -> proc_rest size mf c p = Some x ->
  exists x', proc_rest size mf c' p = Some x' /\ agree ids x x'.
Proof.
  intros Hi H E. unfold proc_rest in *. set (n := length (p_buf p) / size * size) in *.
  assert (H2 : agree ids (apply_mops c (firstn n (p_buf p))) (apply_mops c' (firstn n (p_buf p)))) by (apply apply_agree; exact H).
  rewrite <- (ingest_loop_agree size mf (p_todo p) _ _ _ ids (fun id K => Hi id (or_intror K)) H2).
  destruct (ingest_loop _ _ _ _ _) as [os|]; [|discriminate]. cbn [bind] in *. injection E as <-.
  eexists. split; [reflexivity|]. apply apply_agree. exact H2.
Qed.

(** Two ingests over disjoint ids, in any interleaving, leave for each id what its own
    ingest leaves when run alone. *)
Theorem conc_disjoint size mf1 mf2 : size >= 1 -> forall c p q c' p' q',
  conc size mf1 mf2 c p q c' p' q' -> forall (I1 I2 : pystr -> Prop),
  (forall id, proc_ids p id -> I1 id) -> (forall id, proc_ids q id -> I2 id) ->
  (forall id, I1 id -> I2 id -> False) -> proc_done p' -> proc_done q' ->
  forall x y, proc_rest size mf1 c p = Some x -> proc_rest size mf2 c q = Some y ->
  agree I1 c' x /\ agree I2 c' y /\ (forall id, ~ I1 id -> ~ I2 id -> docs_of id c' = docs_of id c).
Proof.
  intros Hs c p q c' p' q' H. induction H as [c p q|c p q c1 p1 c2 p2 q2 Hst _ IH|c p q c1 q1 c2 p2 q2 Hst _ IH];
    intros I1 I2 H1 H2 Hd Dp Dq x y Ex Ey.
  - destruct p as [b t], q as [b' t']. destruct Dp as [Db Dt], Dq as [Db' Dt']. cbn in Db, Dt, Db', Dt'. subst.
    unfold proc_rest in Ex, Ey. cbn in Ex, Ey. rewrite Nat.div_0_l in Ex, Ey by lia. cbn in Ex, Ey.
    injection Ex as <-. injection Ey as <-. repeat split; intros ? ?; reflexivity.
  - rewrite (proc_step_rest _ _ _ _ _ _ Hs Hst) in Ex.
    destruct (proc_rest_agree size mf2 c c1 q I2 y H2) as (y' & Ey' & Ay); [|exact Ey|].
    { intros id Hi. symmetry. apply (proc_step_frame _ _ _ _ _ _ _ Hst). intro Hp. exact (Hd id (H1 id Hp) Hi). }
    destruct (IH I1 I2) with (x := x) (y := y') as (A1 & A2 & A3); auto.
    { intros id Hp. apply H1. exact (proc_step_ids _ _ _ _ _ _ _ Hst Hp). }
    split; [exact A1|]. split; [intros id Hi; rewrite (A2 id Hi); symmetry; apply Ay; exact Hi|].
    intros id N1 N2. rewrite (A3 id N1 N2). apply (proc_step_frame _ _ _ _ _ _ _ Hst). intro Hp; apply N1; auto.
  - rewrite (proc_step_rest _ _ _ _ _ _ Hs Hst) in Ey.
    destruct (proc_rest_agree size mf1 c c1 p I1 x H1) as (x' & Ex' & Ax); [|exact Ex|].
    { intros id Hi. symmetry. apply (proc_step_frame _ _ _ _ _ _ _ Hst). intro Hp. exact (Hd id Hi (H2 id Hp)). }
    destruct (IH I1 I2) with (x := x') (y := y) as (A1 & A2 & A3); auto.
    { intros id Hp. apply H2. exact (proc_step_ids _ _ _ _ _ _ _ Hst Hp). }
    split; [intros id Hi; rewrite (A1 id Hi); symmetry; apply Ax; exact Hi|]. split; [exact A2|].
    intros id N1 N2. rewrite (A3 id N1 N2). apply (proc_step_frame _ _ _ _ _ _ _ Hst). intro Hp; apply N2; auto.
Qed.

Lemma proc_start_rest size mf c recs : size >= 1 -> proc_rest size mf c (proc_start size recs) = ingest size mf c recs.
Proof.
  intro Hs. unfold proc_rest, proc_start, ingest, ingest_ops. cbn [p_buf p_todo length].
  rewrite Nat.div_0_l by lia. reflexivity.
Qed.
Lemma proc_start_ids size recs id : size >= 1 -> proc_ids (proc_start size recs) id -> In id (map fst recs).
Proof. intros Hs [[]|H]. cbn [proc_start p_todo] in H. rewrite partition_concat in H by exact Hs. exact H. Qed.

(** ** Shape of abstract histories *)
(** specification, models no code *)
Definition adjacent_differ (l : list dict) : Prop :=
  forall pre a b post, l = pre ++ a :: b :: post -> py_eqb (VDict a) (VDict b) = false.

(** strictly decreasing versions, neighbours differ, the oldest is not a deletion (specification, models no code) *)
Definition rec_wf (r : arec) : Prop :=
  StronglySorted Z.gt (map fst (a_hist r)) /\
  adjacent_differ (map snd (view r)) /\
  (forall pre d, map snd (view r) = pre ++ [d] -> d <> []) /\ view r <> [].

Lemma same_false_differ mf new d : wfd new -> wfd d -> same mf new d = false -> py_eqb (VDict new) (VDict d) = false.
Proof.
  intros Hn Hd. unfold same. destruct mf as [f|]; [|auto]. destruct (dmem new f && dmem d f) eqn:E; [|auto].
  intro H. destruct (py_eqb (VDict new) (VDict d)) eqn:E2; [|reflexivity].
  apply py_eqb_iff in E2; auto. destruct E2 as [N V].
  assert (V2 : veq (VDict (ddel new f)) (VDict (ddel d f))) by (apply vsim_ddel; assumption).
  assert (N2 : nan_free (VDict (ddel new f)) = true).
  { cbn [nan_free] in *. rewrite forallb_forall in *. intros x Hx. apply N. eapply In_ddel; exact Hx. }
  rewrite (veq_py_eqb _ _ (wf_ddel _ f Hn) (wf_ddel _ f Hd) N2 V2) in H. discriminate.
Qed.

(** specification: what is true of any stored history *)
Definition arec_wf (bound : Z) (r : arec) : Prop :=
  Forall (fun x => wfd (snd x)) (view r) /\ rec_wf r /\ Forall (fun v => (v <= bound)%Z) (map fst (a_hist r)).

Lemma adjacent_cons a l : adjacent_differ l -> (forall b r, l = b :: r -> py_eqb (VDict a) (VDict b) = false) ->
  adjacent_differ (a :: l).
Proof.
  intros H H2 pre x y post E. destruct pre as [|p pre]; cbn in E; injection E as E1 E2.
  - subst. eapply H2; reflexivity.
  - eapply H; exact E2.
Qed.
Lemma adjacent_tl a l : adjacent_differ (a :: l) -> adjacent_differ l.
Proof. intros H pre x y post ->. apply (H (a :: pre) x y post). reflexivity. Qed.

Lemma a_put_wf bound mf new o : (forall r, o = Some r -> arec_wf bound r) -> wfd new ->
  forall r, a_put mf new o = Some r -> arec_wf bound r.
Proof.
  intros Ho Hw r H. unfold a_put in H.
  assert (Fresh : forall d, d <> [] -> wfd d -> arec_wf bound (AR [] (Some d))).
  { intros d Hd Hwd. split; [repeat constructor; exact Hwd|]. split; [|constructor].
    split; [constructor|]. split; [|split].
    - intros pre a b post E. destruct pre as [|? [|]]; discriminate.
    - intros pre x E. cbn in E. destruct pre as [|y pre]; cbn in E; injection E as E; [congruence|].
      destruct pre; discriminate.
    - discriminate. }
  destruct o as [[[|[v d] h] p]|].
  - destruct new as [|kv new]; [discriminate|]. destruct p as [p|].
    + destruct (py_eqb _ _); injection H as <-; [apply Ho; reflexivity|apply Fresh; [discriminate|exact Hw]].
    + injection H as <-. apply Fresh; [discriminate|exact Hw].
  - injection H as <-. destruct (Ho _ eq_refl) as (W1 & (S1 & S2 & S3 & S4) & B).
    unfold view in *. cbn [a_hist a_pend] in *.
    set (hv := map (fun vd : Z * dict => (Some (fst vd), snd vd)) ((v, d) :: h)) in *.
    assert (Wh : Forall (fun x => wfd (snd x)) hv) by (apply Forall_app in W1; tauto).
    assert (Ah : adjacent_differ (map snd hv)).
    { rewrite map_app in S2. destruct p; [exact (adjacent_tl _ _ S2)|exact S2]. }
    assert (Lh : forall pre x, map snd hv = pre ++ [x] -> x <> []).
    { intros pre x E. destruct p as [p|].
      - apply (S3 (p :: pre) x). rewrite map_app. cbn [map app snd]. rewrite E. reflexivity.
      - apply (S3 pre x). exact E. }
    destruct (same mf new d) eqn:Es.
    + split; [exact Wh|]. split; [|exact B]. split; [exact S1|]. split; [exact Ah|]. split; [exact Lh|].
      discriminate.
    + split; [constructor; [exact Hw|exact Wh]|]. split; [|exact B]. split; [exact S1|]. split; [|split].
      * cbn [app map view a_pend a_hist snd]. apply adjacent_cons; [exact Ah|].
        intros b r E. cbn in E. injection E as <- _. apply (same_false_differ mf); auto.
        inversion Wh; subst; assumption.
      * intros pre x E. cbn [view a_pend a_hist app map snd] in E. destruct pre as [|y pre]; cbn [app] in E.
        -- injection E as _ E. discriminate.
        -- injection E as _ E. exact (Lh pre x E).
      * discriminate.
  - destruct new as [|kv new]; [discriminate|]. injection H as <-. apply Fresh; [discriminate|exact Hw].
Qed.

Lemma a_commit_wf bound v A id : (bound < v)%Z -> (forall r, A id = Some r -> arec_wf bound r) ->
  forall r, a_commit v A id = Some r -> arec_wf v r.
Proof.
  intros Hv HA r H. unfold a_commit in H.
  assert (Mono : forall r, arec_wf bound r -> arec_wf v r).
  { intros r0 (W & S & B). split; [exact W|]. split; [exact S|]. eapply Forall_impl; [|exact B]. cbn; intros; lia. }
  destruct (A id) as [[h [p|]]|]; [|injection H as <-; apply Mono; apply HA; reflexivity|discriminate].
  injection H as <-. destruct (HA _ eq_refl) as (W & (S1 & S2 & S3 & S4) & B). cbn [a_hist] in *.
  split; [inversion W; subst; constructor; assumption|]. split; [split; [|split; [exact S2|split; [exact S3|discriminate]]]|].
  - cbn [map fst]. constructor; [exact S1|]. eapply Forall_impl; [|exact B]. cbn; intros; lia.
  - cbn [a_hist map fst]. constructor; [lia|]. eapply Forall_impl; [|exact B]. cbn; intros; lia.
Qed.

Lemma a_rollback_wf bound A id : (forall r, A id = Some r -> arec_wf bound r) ->
  forall r, a_rollback A id = Some r -> arec_wf bound r.
Proof.
  intros HA r H. unfold a_rollback in H. destruct (A id) as [[[|[v d] h] p]|]; try discriminate.
  injection H as <-. destruct (HA _ eq_refl) as (W & (S1 & S2 & S3 & S4) & B). unfold view in *. cbn [a_hist a_pend] in *.
  destruct p as [p|]; [|repeat split; assumption]. cbn [app] in *.
  split; [inversion W; assumption|]. split; [|exact B]. split; [exact S1|]. split; [exact (adjacent_tl _ _ S2)|].
  split; [|discriminate]. intros pre x E. apply (S3 (p :: pre) x). unfold view in E. cbn [a_pend a_hist app map snd] in *. rewrite E. reflexivity.
Qed.

Lemma a_run_wf ss : forall bound A, (forall id r, A id = Some r -> arec_wf bound r) ->
  clock_increasing bound ss ->
  Forall (fun s => match s with SIngest _ recs => Forall (fun r => wfd (snd r)) recs | _ => True end) ss ->
  exists bound', forall id r, a_run A ss id = Some r -> arec_wf bound' r.
Proof.
  induction ss as [|s ss IH]; intros bound A HA Hc Hs; [exists bound; exact HA|].
  inversion Hs as [|? ? H1 H2]; subst. cbn [a_run fold_left]. destruct s as [mf recs|v|]; cbn [clock_increasing a_step] in *.
  - apply (IH bound); auto. intros id r H. unfold a_ingest in H. destruct (last_data id recs) as [new|] eqn:E.
    + rewrite Forall_forall in H1. apply (a_put_wf bound mf new (A id)); [exact (HA id)| |exact H].
      exact (H1 (id, new) (last_data_In _ _ _ E)).
    + apply HA with id; exact H.
  - destruct Hc as [Hv Hc]. apply (IH v); auto. intros id r. apply a_commit_wf with bound; auto. apply HA.
  - apply (IH bound); auto. intros id r. apply a_rollback_wf. apply HA.
Qed.

(** ** Re-ingesting *)
Lemma a_put_idem mf new o : wfd new -> a_put mf new (a_put mf new o) = a_put mf new o.
Proof.
  intro Hw. unfold a_put at 2 3. destruct o as [[[|[v d] h] p]|].
  - destruct new as [|kv new]; [reflexivity|]. destruct p as [p|].
    + destruct (py_eqb (VDict (kv :: new)) (VDict p)) eqn:E; cbn [a_put].
      * rewrite E. reflexivity.
      * destruct (py_eqb (VDict (kv :: new)) (VDict (kv :: new))); reflexivity.
    + cbn [a_put]. destruct (py_eqb (VDict (kv :: new)) (VDict (kv :: new))); reflexivity.
  - reflexivity.
  - destruct new as [|kv new]; [reflexivity|]. cbn [a_put]. destruct (py_eqb (VDict (kv :: new)) (VDict (kv :: new))); reflexivity.
Qed.
Lemma a_ingest_idem mf recs A id : Forall (fun r => wfd (snd r)) recs ->
  a_ingest mf recs (a_ingest mf recs A) id = a_ingest mf recs A id.
Proof.
  intro H. unfold a_ingest. destruct (last_data id recs) as [new|] eqn:E; [|reflexivity].
  apply a_put_idem. rewrite Forall_forall in H. exact (H (id, new) (last_data_In _ _ _ E)).
Qed.
Lemma same_refl mf d : wfd d -> nan_free (VDict d) = true -> same mf d d = true.
Proof.
  intros Hw Hn. assert (E : py_eqb (VDict d) (VDict d) = true).
  { apply py_eqb_iff; auto. split; [exact Hn|]. apply veq_refl. }
  unfold same. destruct mf as [f|]; [|exact E]. destruct (dmem d f && dmem d f); [|exact E].
  apply py_eqb_iff; try (apply wf_ddel; exact Hw). split; [|apply veq_refl].
  cbn [nan_free] in *. rewrite forallb_forall in *. intros x Hx. apply Hn. eapply In_ddel; exact Hx.
Qed.

Lemma py_eqb_same mf a b : wfd a -> wfd b -> py_eqb (VDict a) (VDict b) = true -> same mf a b = true.
Proof.
  intros Ha Hb E. destruct (same mf a b) eqn:S; [reflexivity|].
  rewrite (same_false_differ mf a b Ha Hb S) in E. discriminate.
Qed.

(** A record that is committed with the given data, or absent and deleted. (specification, models no code) *)
Definition settled (mf : option pystr) (new : dict) (o : option arec) : Prop :=
  match o with
  | None => new = []
  | Some (AR ((_, x) :: _) None) => same mf new x = true
  | _ => False
  end.

Lemma a_put_commit_settled mf new v (A : astate) id : wfd new -> nan_free (VDict new) = true ->
  (forall r, A id = Some r -> Forall (fun x => wfd (snd x)) (view r)) ->
  settled mf new (a_commit v (fun i => if str_eqb i id then a_put mf new (A id) else A i) id).
Proof.
  intros Hw Hn HA. unfold a_commit. rewrite str_eqb_refl. unfold a_put.
  destruct (A id) as [[[|[v0 x] h] p]|]; specialize (fun r E => HA r E).
  - destruct new as [|kv new]; [reflexivity|]. destruct p as [p|].
    + destruct (py_eqb (VDict (kv :: new)) (VDict p)) eqn:E; cbn [settled].
      * apply py_eqb_same; auto. specialize (HA _ eq_refl). inversion HA; subst; assumption.
      * apply same_refl; assumption.
    + apply same_refl; assumption.
  - destruct (same mf new x) eqn:E; cbn [settled]; [exact E|apply same_refl; assumption].
  - destruct new as [|kv new]; [reflexivity|]. apply same_refl; assumption.
Qed.

Section Settled.
Variable R : value -> value -> Prop.
Variable good : dict -> Prop.
Hypothesis DC : data_class R good.

Lemma rec_op_settled bound mf id new ds a : drel R good bound ds a -> good new -> settled mf new a ->
  rec_op mf (id, new) (hd_error (rev ds)) = Some None.
Proof.
  intros HD Hg HS. destruct ds as [|d [|]]; [| |destruct a; contradiction].
  - destruct a; [contradiction|]. cbn in HS. subst new. reflexivity.
  - destruct a as [r|]; [|contradiction]. cbn [drel] in HD. destruct r as [[|[v x] h] [p|]]; try contradiction.
    cbn [settled] in HS. destruct (rel_comm R good _ _ _ HD) as (v1 & x1 & r1 & E & Hv & Hx & Hgx & _).
    injection E as <- <- <-. pose proof (ok_good _ _ _ (proj1 HD)) as Hgd.
    cbn [rev app hd_error]. unfold rec_op. rewrite Hv. cbn [fst snd].
    destruct (rec_changes mf new (d_data d)) as [[ch n'] o'] eqn:Ec.
    destruct (rec_changes_spec R good DC _ _ _ _ _ _ (dc_wf _ _ DC _ Hg) (dc_wf _ _ DC _ Hgd) Ec) as (_ & _ & _ & _ & W & _).
    rewrite (same_congr R good DC mf new _ _ (dc_wf _ _ DC _ Hg) (dc_wf _ _ DC _ Hgd) (dc_wf _ _ DC _ Hgx) Hx) in W.
    rewrite HS in W. rewrite W. reflexivity.
Qed.

Lemma map_ops_settled bound mf c A rs : crel R good bound c A -> Forall (fun r => good (snd r)) rs ->
  (forall r, In r rs -> settled mf (snd r) (A (fst r))) -> map_ops mf c rs = Some [].
Proof.
  intros HC Hg HS. induction rs as [|[id new] rs IH]; [reflexivity|]. inversion Hg; subst. cbn [map_ops fst].
  rewrite find_last_docs.
  rewrite (rec_op_settled bound mf id new _ _ (HC id)); [|assumption|exact (HS (id, new) (or_introl eq_refl))].
  rewrite IH; [reflexivity|assumption|]. intros r Hr. apply HS; right; exact Hr.
Qed.

Lemma by_id_last ch id new : In (id, new) (by_id ch) -> last_data id ch = Some new.
Proof.
  intro H. rewrite <- dget_dict_of_last. apply In_dget; [apply NoDup_dict_of|exact H].
Qed.

Lemma ingest_settled bound size mf c A recs : size >= 1 -> crel R good bound c A ->
  Forall (fun r => good (snd r)) recs -> ids_within_batches size recs ->
  (forall id new, last_data id recs = Some new -> settled mf new (A id)) ->
  ingest_ops size mf c recs = Some [].
Proof.
  intros Hs HC Hg Hw HS. unfold ingest_ops.
  assert (HD : disjoint_chunks (partition recs size)) by (apply within_disjoint_loop; auto).
  pose proof (partition_concat recs size Hs) as HP.
  revert HD HP. generalize (partition recs size) as chunks. intros chunks HD HP. subst recs.
  clear Hw. induction chunks as [|ch rest IH]; [reflexivity|]. cbn [ingest_loop]. rewrite chunk_ops_map.
  destruct HD as [D1 D2]. cbn [concat] in *. apply Forall_app in Hg. destruct Hg as [G1 G2].
  rewrite (map_ops_settled bound mf c A).
  - cbn [app length]. rewrite Nat.div_0_l by lia. cbn [Nat.mul firstn skipn apply_mops fold_left bind]. rewrite IH; [reflexivity| |exact G2|exact D2].
    intros id new E. apply HS. rewrite last_data_app, E. reflexivity.
  - exact HC.
  - apply by_id_good; exact G1.
  - intros [id new] Hr. cbn [fst snd]. apply HS. rewrite last_data_app.
    pose proof (by_id_last _ _ _ Hr) as E. destruct (last_data id (concat rest)) as [y|] eqn:E2; [|exact E].
    exfalso. apply last_data_In in E. apply last_data_In in E2. exact (D1 _ _ E E2 eq_refl).
Qed.
End Settled.

(** ** Soundness of the generated operations (for the counts) *)
Lemma rec_op_kind mf id new od m : rec_op mf (id, new) od = Some (Some m) ->
  (od = None <-> match m with InsertOp _ _ => True | _ => False end).
Proof.
  intro H. unfold rec_op in H. cbn [fst snd] in H. destruct od as [d|].
  - split; [discriminate|]. intro K. exfalso. destruct (d_ver d) as [v|].
    + destruct (rec_changes _ _ _) as [[ch n'] o']. destruct (isnil ch); [discriminate|]. injection H as <-. exact K.
    + destruct (isnil (d_diffs d)).
      * destruct (p_del _); [injection H as <-; exact K|].
        destruct (isnil (diff _ _)); [discriminate|injection H as <-; exact K].
      * destruct (revert_doc d) as [d'|]; [|discriminate].
        destruct (rec_changes _ _ _) as [[ch n'] o']. destruct (d_ver d') as [v|] eqn:Ev; [|discriminate].
        destruct (isnil ch); [|injection H as <-; exact K].
        unfold revert_op in H. rewrite Ev in H. injection H as <-. exact K.
  - destruct (p_del _); [discriminate|]. injection H as <-. split; [exact (fun _ => I)|reflexivity].
Qed.
Lemma hd_rev_nil {A} (l : list A) : hd_error (rev l) = None <-> l = [].
Proof.
  destruct l as [|x l] using rev_ind; [cbn; tauto|]. rewrite rev_app_distr. cbn. split; [discriminate|].
  intro H. destruct l; discriminate.
Qed.
Lemma map_ops_sound mf c c0 : (forall id, length (docs_of id c0) <= 1) -> forall rs os,
  agree (fun i => In i (map fst rs)) c c0 -> map_ops mf c rs = Some os -> Forall (op_sound c0) os.
Proof.
  intro H1. induction rs as [|[id new] rs IH]; intros os HA H; cbn [map_ops fst] in H; [injection H as <-; constructor|].
  destruct (rec_op mf (id, new) (find_last c id)) as [o|] eqn:Eo; [|discriminate].
  destruct (map_ops mf c rs) as [l|] eqn:El; [|discriminate]. cbn [bind] in H. injection H as <-.
  assert (Hl : Forall (op_sound c0) l) by (apply IH; [intros i Hi; apply HA; right; exact Hi|reflexivity]).
  destruct o as [m|]; [|exact Hl]. constructor; [|exact Hl]. split; [apply H1|].
  pose proof (rec_op_id _ _ _ _ _ m Eo eq_refl (find_last_id c id)) as Em.
  apply rec_op_kind in Eo. rewrite find_last_docs, hd_rev_nil, (HA id (or_introl eq_refl)) in Eo.
  destruct m; cbn [mop_id] in *; subst id0; tauto.
Qed.
Lemma ingest_loop_sound size mf c0 : (forall id, length (docs_of id c0) <= 1) -> forall chunks c pend os,
  disjoint_chunks chunks -> agree (fun i => In i (map fst (concat chunks))) c c0 ->
  (forall o r, In o pend -> In r (concat chunks) -> mop_id o <> fst r) -> Forall (op_sound c0) pend ->
  ingest_loop size mf c pend chunks = Some os -> Forall (op_sound c0) os.
Proof.
  intro H1. induction chunks as [|ch rest IH]; intros c pend os HD HA Hp Hs H; cbn [ingest_loop] in H; [injection H as <-; exact Hs|].
  destruct (chunk_ops mf c ch) as [o1|] eqn:E1; [|discriminate]. cbv zeta in H.
  set (buf := pend ++ o1) in *. set (n := length buf / size * size) in *.
  destruct (ingest_loop size mf (apply_mops c (firstn n buf)) (skipn n buf) rest) as [l|] eqn:El; [|discriminate].
  cbn [bind] in H. injection H as <-. destruct HD as [D1 D2]. cbn [concat] in *.
  assert (S1 : Forall (op_sound c0) o1).
  { rewrite chunk_ops_map in E1. eapply map_ops_sound; [exact H1| |exact E1]. intros i Hi. apply HA.
    rewrite map_app. apply in_or_app; left. apply by_id_keys; exact Hi. }
  assert (Sb : Forall (op_sound c0) buf) by (apply Forall_app; auto).
  destruct (chunk_ops_ids _ _ _ _ E1) as [J1 _].
  assert (Hb : forall o r, In o buf -> In r (concat rest) -> mop_id o <> fst r).
  { intros o r Ho Hr. apply in_app_or in Ho. destruct Ho as [Ho|Ho].
    - apply Hp; [exact Ho|apply in_or_app; right; exact Hr].
    - specialize (J1 o Ho). apply in_map_iff in J1. destruct J1 as (r0 & <- & Hr0). apply D1; assumption. }
  apply Forall_app. split; [apply Forall_firstn; exact Sb|].
  eapply IH; [exact D2| | | |exact El].
  - intros i Hi. rewrite docs_apply_other.
    + apply HA. rewrite map_app. apply in_or_app; right; exact Hi.
    + intros o Ho He. apply in_map_iff in Hi. destruct Hi as (r & Er & Hr). apply (Hb o r).
      * rewrite <- (firstn_skipn n buf). apply in_or_app; left; exact Ho.
      * exact Hr.
      * congruence.
  - intros o r Ho Hr. apply Hb; [|exact Hr]. rewrite <- (firstn_skipn n buf). apply in_or_app; right; exact Ho.
  - apply Forall_skipn; exact Sb.
Qed.

Lemma tally_superset f l l' : NoDup l -> NoDup l' -> incl l l' ->
  (forall i, In i l' -> ~ In i l -> f i = false) -> tally f l = tally f l'.
Proof.
  intros N N' Hi Hf. unfold tally. apply Permutation_length. apply NoDup_Permutation.
  - apply NoDup_filter; exact N.
  - apply NoDup_filter; exact N'.
  - intro x. rewrite !filter_In. split; intros [H1 H2]; split; auto.
    destruct (in_dec str_eq_dec x l) as [K|K]; [exact K|]. rewrite (Hf x H1 K) in H2. discriminate.
Qed.

Theorem ingest_counts_tally size mf c recs c' n : size >= 1 -> (forall id, length (docs_of id c) <= 1) ->
  ids_within_batches size recs -> ingest size mf c recs = Some c' -> ingest_counts size mf c recs = Some n ->
  let ids := nodup str_eq_dec (map fst recs) in
  n = Cnt (tally (gained c c') ids) (tally (altered c c') ids) (tally (lost c c') ids).
Proof.
  intros Hs H1 Hw H Hn ids. unfold ingest, ingest_counts in *.
  destruct (ingest_ops size mf c recs) as [os|] eqn:E; [|discriminate]. cbn [bind] in *.
  injection H as <-. injection Hn as <-.
  destruct (ingest_ops_ids _ _ _ _ _ Hs E) as [I1 I2]. specialize (I2 Hw).
  assert (S : Forall (op_sound c) os).
  { eapply (ingest_loop_sound size mf c H1); [| | | |exact E].
    - apply within_disjoint_loop; auto.
    - intros i Hi; reflexivity.
    - intros o r [].
    - constructor. }
  rewrite (ops_counts_tally os c I2 S).
  assert (Hoth : forall i, ~ In i (map mop_id os) -> docs_of i (apply_mops c os) = docs_of i c).
  { intros i Hni. apply docs_apply_other. intros o Ho He. apply Hni. rewrite <- He. apply in_map; exact Ho. }
  assert (Hin : incl (map mop_id os) ids).
  { intros i Hi. apply nodup_In. apply in_map_iff in Hi. destruct Hi as (o & <- & Ho). apply I1; exact Ho. }
  f_equal; (apply tally_superset; [exact I2|apply NoDup_nodup|exact Hin|]); intros i _ Hni; specialize (Hoth i Hni).
  - unfold gained. rewrite Hoth. destruct (docs_of i c); reflexivity.
  - unfold altered. rewrite Hoth. destruct (docs_of i c) as [|d r]; [reflexivity|]. destruct (doc_dec d d); [reflexivity|contradiction].
  - unfold lost. rewrite Hoth. destruct (docs_of i c); reflexivity.
Qed.
