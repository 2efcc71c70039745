(** Streams in which ids come again in a later batch. [ingest] (manager.py:283-334) reads what is stored for a batch of 200 records
    when the first operation of the batch is asked for, and then up to 199 operations of earlier batches have not been written.
    Here what is written for each record, decided on what was stored when its batch was read, and performed later. *)
From Coq Require Import String Ascii.
From Coq Require Import List ZArith NArith Bool Lia.
From Verif Require Import PyVal Diff DiffProofs Prepare PrepareProofs Mongo Store MongoProofs MongoStore MongoMore.
Import ListNotations.
Local Open Scope nat_scope.

(** ** Specification *)
(** What is stored of a record: the data of documents that were never committed, in their order (more than one if the record was added more than
    once), or the versions and the pending data of a record that has been committed. *)
Inductive stored := Fresh (ds : list dict) | Known (h : list (Z * dict)) (p : option dict).
(** specification or proof device; models no code of its own *)
Inductive write := WAdd (x : dict) | WSet (x : dict) | WDrop | WPend (p : option dict).

(** The write for new data ([[]] deletes). *)
Definition decide (mf : option pystr) (new : dict) (s : stored) : option write :=
  match s with
  | Fresh ds =>
      match rev ds with
      | [] => match new with [] => None | _ => Some (WAdd new) end
      | x :: _ => match new with
                  | [] => Some WDrop
                  | _ => if py_eqb (VDict new) (VDict x) then None else Some (WSet new)
                  end
      end
  | Known ((_, x) :: _) p => if same mf new x then match p with None => None | Some _ => Some (WPend None) end else Some (WPend (Some new))
  | Known [] _ => None
  end.
(** Its effect, whatever has become of the record by then. MongoDB changes the first document that has the id. *)
Definition perform (w : write) (s : stored) : stored :=
  match w, s with
  | WAdd x, Fresh ds => Fresh (ds ++ [x])
  | WSet x, Fresh (_ :: ds) => Fresh (x :: ds)
  | WDrop, Fresh (_ :: ds) => Fresh ds
  | WPend p, Known h _ => Known h p
  | _, _ => s
  end.
(** specification or proof device; models no code of its own *)
Definition put_write (S : pystr -> stored) (iw : pystr * write) : pystr -> stored :=
  fun id => if str_eqb (fst iw) id then perform (snd iw) (S id) else S id.
(** specification or proof device; models no code of its own *)
Definition put_writes (S : pystr -> stored) (l : list (pystr * write)) : pystr -> stored := fold_left put_write l S.
(** the writes for a batch: one for an id, at the place of its first record and with the data of its last *)
Definition decisions (mf : option pystr) (S : pystr -> stored) (rs : list (pystr * dict)) : list (pystr * write) :=
  flat_map (fun r => match decide mf (snd r) (S (fst r)) with Some w => [(fst r, w)] | None => [] end) rs.
(** the batches one after the other; writes are performed as soon as [size] have come together *)
Fixpoint through (size : nat) (mf : option pystr) (S : pystr -> stored) (wait : list (pystr * write)) (batches : list (list (pystr * dict)))
  : pystr -> stored :=
  match batches with
  | [] => put_writes S wait
  | b :: rest =>
      let buf := wait ++ decisions mf S (dict_of b) in
      let n := length buf / size * size in
      through size mf (put_writes S (firstn n buf)) (skipn n buf) rest
  end.
(** specification or proof device; models no code of its own *)
Definition stored_of (o : option arec) : stored :=
  match o with
  | None => Fresh []
  | Some (AR [] (Some p)) => Fresh [p]
  | Some (AR [] None) => Fresh []
  | Some (AR h p) => Known h p
  end.

(** ** Refinement *)
Notation "a ~~ b" := (vsim scalar_same (VDict a) (VDict b)) (at level 70).
Notation doc_rel := (doc_rel scalar_same wfd).
(** specification or proof device; models no code of its own *)
Definition fresh_doc (d : doc) (x : dict) : Prop := d_ver d = None /\ d_diffs d = [] /\ wfd (d_data d) /\ wfd x /\ d_data d ~~ x.
(** specification or proof device; models no code of its own *)
Definition srel (bound : Z) (ds : list doc) (s : stored) : Prop :=
  match s with
  | Fresh l => Forall2 fresh_doc ds l
  | Known h p => h <> [] /\ exists d, ds = [d] /\ doc_rel bound d (AR h p)
  end.
(** an operation that carries out a write on records of this kind *)
Definition orel (m : mop) (w : write) (s : stored) : Prop :=
  match w, s with
  | WAdd x, Fresh _ => wfd x /\ exists id, m = InsertOp id x
  | WSet x, Fresh _ => wfd x /\ exists id, m = SetDataOp id x
  | WDrop, Fresh _ => exists id, m = DeleteOp id
  | WPend (Some x), Known ((v, y) :: _) _ => exists id x' ch z, m = ChangeOp id x' v ch /\ wfd x /\ wfd x' /\ x ~~ x' /\
      Forall (fun o => wf_ops (dops o)) ch /\ patch x' ch = Some z /\ z ~~ y
  | WPend None, Known ((v, y) :: rest) _ => exists id x', m = RevertOp id x' v (isnil rest) /\ wfd x' /\ x' ~~ y
  | _, _ => False
  end.
(** specification or proof device; models no code of its own *)
Definition kind (s t : stored) : Prop := match s, t with Fresh _, Fresh _ => True | Known h _, Known h' _ => h = h' | _, _ => False end.
Lemma kind_refl s : kind s s. Proof. destruct s; exact I || reflexivity. Qed.
Lemma kind_trans s t u : kind s t -> kind t u -> kind s u.
Proof. destruct s, t, u; cbn; try tauto. congruence. Qed.
Lemma kind_perform w s : kind s (perform w s).
Proof. destruct s as [[|]|], w; exact I || reflexivity. Qed.
Lemma orel_kind m w s t : kind s t -> orel m w s -> orel m w t.
Proof. destruct s as [l|h p], t as [l'|h' p']; cbn [kind]; try contradiction; destruct w as [| | |[]]; cbn [orel]; try tauto; intros ->; auto. Qed.

Lemma apply_srel bound m w ds s : srel bound ds s -> orel m w s -> srel bound (apply_list m ds) (perform w s).
Proof.
  intros Hs Ho. destruct s as [l|h p]; destruct w as [x|x| |[x|]]; cbn [orel] in Ho; try contradiction.
  - destruct Ho as (Hx & id & ->). cbn [apply_list perform srel] in *. apply Forall2_app; [exact Hs|]. constructor; [|constructor].
    repeat split; cbn; auto. apply vsim_refl. exact scalar_same_refl.
  - destruct Ho as (Hx & id & ->). cbn [srel] in Hs. destruct Hs as [|d y ds l (H1 & H2 & H3 & H4 & H5) Hs]; cbn [apply_list perform srel]; constructor; [|exact Hs].
    unfold fresh_doc; cbn [d_ver d_diffs d_data]. repeat split; auto. apply vsim_refl. exact scalar_same_refl.
  - destruct Ho as (id & ->). cbn [srel] in Hs. destruct Hs as [|d y ds l _ Hs]; cbn [apply_list perform srel]; [constructor|exact Hs].
  - destruct h as [|[v y] rest]; [contradiction|]. destruct Ho as (id & x' & ch & z & -> & W1 & W2 & W3 & W4 & W5 & W6). destruct Hs as (_ & d & -> & Hd).
    cbn [apply_list perform srel]. split; [discriminate|]. eexists. split; [reflexivity|]. destruct p as [p|].
    + destruct (revert_rel _ _ class_veq _ _ _ _ _ _ Hd) as (d' & m & os & _ & Hid' & _ & Hdd & Hdd' & Hnin & Hrel').
      pose proof (change_rel_gen _ _ class_veq _ _ _ _ _ _ _ _ _ Hrel' W1 W2 W3 W4 W5 W6) as G.
      rewrite Hid', Hdd' in G. rewrite Hdd, zset_last by exact Hnin. rewrite zset_notin in G by exact Hnin. exact G.
    + exact (change_rel_gen _ _ class_veq _ _ _ _ _ _ _ _ _ Hd W1 W2 W3 W4 W5 W6).
  - destruct h as [|[v y] rest]; [contradiction|]. destruct Ho as (id & x' & -> & W1 & W2). destruct Hs as (_ & d & -> & Hd).
    cbn [apply_list perform srel]. split; [discriminate|]. eexists. split; [reflexivity|]. exact (base_revert_hist _ _ class_veq _ _ _ _ _ _ _ Hd W1 W2).
Qed.

Lemma Forall2_weaken {A B} (P Q : A -> B -> Prop) l m : (forall a b, P a b -> Q a b) -> Forall2 P l m -> Forall2 Q l m.
Proof. intro H. induction 1; constructor; auto. Qed.
Lemma Forall2_rev {A B} (P : A -> B -> Prop) l m : Forall2 P l m -> Forall2 P (rev l) (rev m).
Proof. induction 1; cbn [rev]; [constructor|]. apply Forall2_app; [assumption|]. constructor; [assumption|constructor]. Qed.

Lemma decide_rel bound mf id new ds s : srel bound ds s -> (forall d, In d ds -> d_id d = id) -> wfd new ->
  exists o, rec_op mf (id, new) (hd_error (rev ds)) = Some o /\
    match o, decide mf new s with Some m, Some w => mop_id m = id /\ orel m w s | None, None => True | _, _ => False end.
Proof.
  intros Hs Hid Hw. destruct s as [l|h p].
  - cbn [srel] in Hs. pose proof (Forall2_rev _ _ _ Hs) as Hr. unfold decide. destruct Hr as [|d x rl rl' (H1 & H2 & H3 & H4 & H5) _]; cbn [hd_error rec_op].
    + eexists. split; [reflexivity|]. unfold p_del. cbn [snd]. destruct new; [exact I|]. split; [reflexivity|]. cbn [orel]. split; [exact Hw|]. eexists; reflexivity.
    + unfold p_del. cbn [snd fst]. rewrite H1, H2. cbn [isnil]. eexists. split; [reflexivity|]. destruct new as [|kv new].
      * split; [reflexivity|]. eexists; reflexivity.
      * rewrite isnil_diff by assumption. rewrite (py_eqb_congr_r (VDict (kv :: new)) (VDict (d_data d)) (VDict x)) by assumption.
        destruct (py_eqb _ _); [exact I|]. split; [reflexivity|]. cbn [orel]. split; [exact Hw|]. eexists; reflexivity.
  - destruct Hs as (Hne & d & -> & Hd). destruct h as [|[v x] rest]; [contradiction|]. cbn [rev app hd_error rec_op fst snd decide].
    pose proof (ok_good _ _ _ (proj1 Hd)) as Hgd. destruct p as [p|].
    + destruct (rel_pend _ _ _ _ _ _ Hd) as (Hv & _ & _ & _). pose proof (hist_len _ _ _ _ _ _ Hd) as Hlen.
      assert (Hnn : isnil (d_diffs d) = false) by (destruct (d_diffs d); [discriminate|reflexivity]).
      destruct (revert_rel _ _ class_veq _ _ _ _ _ _ Hd) as (d' & m & os & Hrev & Hid' & Hv' & Hdd & Hdd' & Hnin & Hrel').
      rewrite Hv, Hnn, Hrev. destruct (rec_changes mf new (d_data d')) as [[ch new'] old'] eqn:Ec. rewrite Hv'.
      pose proof (ok_good _ _ _ (proj1 Hrel')) as Hgd'.
      destruct (rec_changes_spec _ _ class_veq _ _ _ _ _ _ Hw Hgd' Ec) as (W1 & W2 & W3 & W4 & W5 & W6).
      destruct (rel_comm _ _ _ _ _ Hrel') as (v1 & x1 & r1 & E1 & _ & Hx' & Hgx & _). injection E1 as <- <- <-.
      rewrite (same_congr _ _ class_veq mf new _ _ Hw Hgd' Hgx Hx') in W5. eexists. split; [reflexivity|]. rewrite W5 in *. destruct (same mf new x).
      * unfold revert_op. rewrite Hv'. split; [cbn; rewrite Hid'; apply Hid; left; reflexivity|]. cbn [orel]. eexists _, _.
        split; [|split; [exact W3|eapply vsim_trans; [exact scalar_same_trans|apply vsim_sym; [exact scalar_same_sym|exact W4]|exact Hx']]].
        f_equal. pose proof (hist_len_c _ _ _ _ _ _ _ Hrel') as L. destruct (d_diffs d'), rest; try discriminate; reflexivity.
      * split; [reflexivity|]. assert (Hch : ch = diff new' old') by (apply W6; reflexivity).
        destruct (dc_rt _ _ class_veq new' old' W1 W3) as (y & Ey & Hy). cbn [orel]. exists id, new', ch, y.
        split; [reflexivity|]. split; [exact Hw|]. split; [exact W1|]. split; [exact W2|]. split; [rewrite Hch; apply wf_diff; assumption|]. split; [rewrite Hch; exact Ey|].
        eapply vsim_trans; [exact scalar_same_trans|exact Hy|]. eapply vsim_trans; [exact scalar_same_trans|apply vsim_sym; [exact scalar_same_sym|exact W4]|exact Hx'].
    + destruct (rel_comm _ _ _ _ _ Hd) as (v1 & x1 & r1 & E1 & Hv & Hx & Hgx & _). injection E1 as <- <- <-. rewrite Hv.
      destruct (rec_changes mf new (d_data d)) as [[ch new'] old'] eqn:Ec.
      destruct (rec_changes_spec _ _ class_veq _ _ _ _ _ _ Hw Hgd Ec) as (W1 & W2 & W3 & W4 & W5 & W6).
      rewrite (same_congr _ _ class_veq mf new _ _ Hw Hgd Hgx Hx) in W5. eexists. split; [reflexivity|]. rewrite W5 in *. destruct (same mf new x); [exact I|].
      split; [reflexivity|]. assert (Hch : ch = diff new' old') by (apply W6; reflexivity).
      destruct (dc_rt _ _ class_veq new' old' W1 W3) as (y & Ey & Hy). cbn [orel]. exists id, new', ch, y.
      split; [reflexivity|]. split; [exact Hw|]. split; [exact W1|]. split; [exact W2|]. split; [rewrite Hch; apply wf_diff; assumption|]. split; [rewrite Hch; exact Ey|].
      eapply vsim_trans; [exact scalar_same_trans|exact Hy|]. eapply vsim_trans; [exact scalar_same_trans|apply vsim_sym; [exact scalar_same_sym|exact W4]|exact Hx].
Qed.

(** specification or proof device; models no code of its own *)
Definition Srel (bound : Z) (c : coll) (S : pystr -> stored) : Prop := forall id, srel bound (docs_of id c) (S id).
(** specification or proof device; models no code of its own *)
Definition brel (S : pystr -> stored) (m : mop) (iw : pystr * write) : Prop := mop_id m = fst iw /\ orel m (snd iw) (S (fst iw)).
Lemma brel_kind S T m iw : (forall id, kind (S id) (T id)) -> brel S m iw -> brel T m iw.
Proof. intros H [H1 H2]. split; [exact H1|]. eapply orel_kind; [apply H|exact H2]. Qed.
Lemma kind_writes l : forall S id, kind (S id) (put_writes S l id).
Proof.
  induction l as [|iw l IH]; intros S id; [apply kind_refl|]. cbn [put_writes fold_left]. eapply kind_trans; [|apply IH].
  unfold put_write. destruct (str_eqb _ _); [apply kind_perform|apply kind_refl].
Qed.
Lemma writes_rel bound : forall os l c S, Srel bound c S -> Forall2 (brel S) os l -> Srel bound (apply_mops c os) (put_writes S l).
Proof.
  induction os as [|o os IH]; intros l c S Hs H; inversion H as [|? iw ? l' [H1 H2] H3]; subst; [exact Hs|]. cbn [apply_mops put_writes fold_left].
  apply IH.
  - intro id. rewrite docs_apply. unfold put_write. rewrite H1. destruct (str_eqb (fst iw) id) eqn:E; [|apply Hs]. apply str_eqb_eq in E. subst id. apply apply_srel; [apply Hs|exact H2].
  - revert H3. apply Forall2_weaken. intros m jw. apply brel_kind. intro id. unfold put_write. destruct (str_eqb _ _); [apply kind_perform|apply kind_refl].
Qed.
Lemma decisions_rel bound mf c S : Srel bound c S -> forall rs, Forall (fun r => wfd (snd r)) rs ->
  exists os, map_ops mf c rs = Some os /\ Forall2 (brel S) os (decisions mf S rs).
Proof.
  intros Hs. induction rs as [|[id new] rs IH]; intro Hw; [exists []; split; [reflexivity|constructor]|]. inversion Hw as [|? ? Hw1 Hw2]; subst.
  destruct (IH Hw2) as (os & E & F). cbn [map_ops fst decisions flat_map snd]. rewrite find_last_docs.
  destruct (decide_rel bound mf id new (docs_of id c) (S id) (Hs id) (docs_id c id) Hw1) as (o & Eo & Ho). rewrite Eo, E. cbn [bind]. eexists. split; [reflexivity|].
  destruct o as [m|], (decide mf new (S id)) as [w|]; try contradiction; [|exact F]. cbn [app]. constructor; [exact Ho|exact F].
Qed.
Lemma Forall2_firstn {A B} (P : A -> B -> Prop) n : forall l m, Forall2 P l m -> Forall2 P (firstn n l) (firstn n m).
Proof. induction n; intros l m H; [constructor|]. destruct H; cbn [firstn]; constructor; auto. Qed.
Lemma Forall2_skipn {A B} (P : A -> B -> Prop) n : forall l m, Forall2 P l m -> Forall2 P (skipn n l) (skipn n m).
Proof. induction n; intros l m H; [exact H|]. destruct H; cbn [skipn]; [constructor|auto]. Qed.

Lemma through_rel bound size mf : forall chunks c S pend wait, Srel bound c S -> Forall2 (brel S) pend wait -> Forall (fun r => wfd (snd r)) (concat chunks) ->
  exists os, ingest_loop size mf c pend chunks = Some os /\ Srel bound (apply_mops c os) (through size mf S wait chunks).
Proof.
  induction chunks as [|ch rest IH]; intros c S pend wait Hs Hp Hw; cbn [ingest_loop through].
  - exists pend. split; [reflexivity|]. apply writes_rel; assumption.
  - cbn [concat] in Hw. apply Forall_app in Hw. destruct Hw as [Hw1 Hw2]. rewrite chunk_ops_map.
    destruct (decisions_rel bound mf c S Hs (by_id ch)) as (os & E & F); [apply (by_id_good (fun d => wfd d)); exact Hw1|]. rewrite E. cbv zeta.
    assert (F2 : Forall2 (brel S) (pend ++ os) (wait ++ decisions mf S (by_id ch))) by (apply Forall2_app; assumption).
    change (dict_of ch) with (by_id ch). rewrite <- (Forall2_length _ _ _ F2). set (n := length (pend ++ os) / size * size).
    destruct (IH (apply_mops c (firstn n (pend ++ os))) (put_writes S (firstn n (wait ++ decisions mf S (by_id ch)))) (skipn n (pend ++ os)) (skipn n (wait ++ decisions mf S (by_id ch)))) as (os' & E' & H').
    + apply writes_rel; [exact Hs|apply Forall2_firstn, F2].
    + apply Forall2_skipn with (n := n) in F2. revert F2. apply Forall2_weaken. intros m iw. apply brel_kind. intro id. apply kind_writes.
    + exact Hw2.
    + rewrite E'. cbn [bind]. eexists. split; [reflexivity|]. rewrite apply_mops_app. exact H'.
Qed.

Lemma drel_stored bound ds o : drel scalar_same wfd bound ds o -> srel bound ds (stored_of o).
Proof.
  destruct ds as [|d [|]], o as [[h p]|]; cbn [drel]; try contradiction; intro H.
  - constructor.
  - destruct h as [|vx h].
    + destruct p as [p|]; cbn [stored_of srel].
      * destruct (rel_pend _ _ _ _ _ _ H) as (Hv & Hp & Hgp & _). pose proof (hist_len _ _ _ _ _ _ H) as L. apply nil_len in L. constructor; [|constructor].
        repeat split; auto. exact (ok_good _ _ _ (proj1 H)).
      * destruct (rel_comm _ _ _ _ _ H) as (? & ? & ? & E & _). discriminate.
    + cbn [stored_of srel]. split; [discriminate|]. exists d. auto.
Qed.
