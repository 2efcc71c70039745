(** Proofs about sync: what the operations of one record do. *)
From Coq Require Import List ZArith NArith Bool Lia Sorted Permutation.
From Verif Require Import PyVal Diff Mongo MongoProofs Client Index IndexSpec IndexProofs Sync SyncSpec.
Import ListNotations.
Open Scope Z_scope.

Section Rec.
Context {P : Type}.
Notation rv := (rv P).
Notation bop := (bop P).
Notation esdoc := (esdoc P).

(** ** The documents of a list of versions *)
Fixpoint docs_before (id : pystr) (a : list rv) (n : rv) : list esdoc :=
  match a with
  | [] => []
  | x :: t => create_doc id x (Some (match t with [] => n | y :: _ => y end)) :: docs_before id t n
  end.
Lemma docs_before_ver id a n n' : rv_ver n = rv_ver n' -> docs_before id a n = docs_before id a n'.
Proof.
  intro H. induction a as [|x a IH]; [reflexivity|]. cbn [docs_before]. rewrite IH. f_equal.
  destruct a as [|y a]; [|reflexivity]. unfold create_doc, version_end. rewrite H. reflexivity.
Qed.
Lemma rv_docs_split id a n b : rv_docs id (a ++ n :: b) = docs_before id a n ++ rv_docs id (n :: b).
Proof.
  induction a as [|x a IH]; [reflexivity|]. cbn [app rv_docs docs_before]. rewrite IH.
  destruct a as [|y a]; reflexivity.
Qed.
Lemma docs_before_closed id a n : filter is_open (docs_before id a n) = [] /\ filter is_closed (docs_before id a n) = docs_before id a n.
Proof.
  induction a as [|x a [IH1 IH2]]; [split; reflexivity|]. cbn [docs_before].
  assert (H : is_open (create_doc id x (Some (match a with [] => n | y :: _ => y end))) = false).
  { unfold is_open, create_doc, version_end. cbn [e_end]. destruct (rv_del x); reflexivity. }
  cbn [filter]. unfold is_closed at 1. rewrite H. cbn [negb]. rewrite IH1, IH2. split; reflexivity.
Qed.

(** ** The operations of one record, arc numbers set to 0 *)
Definition strip (o : bop) : bop := match o with BIndexArc _ d => BIndexArc 0 d | o => o end.
Fixpoint rec_ops (after : option Z) (id : pystr) (rvs : list rv) : list bop :=
  match rvs with
  | [] => []
  | r :: rest =>
      let next := hd_error rest in
      let newer := gt_after after (rv_ver r) in
      let doc := create_doc id r next in
      if newer && isNone next && isNone (rv_del r) then BIndexLatest id doc :: rec_ops after id rest
      else if negb newer && negb (match version_end r next with Some e => gt_after after e | None => false end) then
        rec_ops after id rest
      else (if negb newer && isNone next then [BDeleteLatest id] else []) ++ BIndexArc 0 doc :: rec_ops after id rest
  end.
Lemma gen_rvs_strip cap after id rvs : forall st, map strip (snd (gen_rvs cap after id st rvs)) = rec_ops after id rvs.
Proof.
  induction rvs as [|r rest IH]; intro st; [reflexivity|]. cbn [gen_rvs rec_ops].
  destruct (gt_after after (rv_ver r) && isNone (hd_error rest) && isNone (rv_del r)).
  { specialize (IH st). destruct (gen_rvs cap after id st rest) as [st' ops]. cbn [snd map strip] in *. rewrite IH. reflexivity. }
  destruct (negb (gt_after after (rv_ver r)) && negb (match version_end r (hd_error rest) with Some e => gt_after after e | None => false end)).
  { apply IH. }
  specialize (IH (next_arc cap st)). destruct (gen_rvs cap after id (next_arc cap st) rest) as [st' ops]. cbn [snd] in *.
  rewrite map_app. cbn [map strip]. rewrite IH. f_equal. destruct (negb (gt_after after (rv_ver r)) && isNone (hd_error rest)); reflexivity.
Qed.

Definition bop_id (o : bop) : pystr :=
  match o with BIndexLatest id _ | BDeleteLatest id => id | BIndexArc _ d => e_id d end.
Lemma gen_rvs_ids cap after id rvs : forall st, Forall (fun o => bop_id o = id) (snd (gen_rvs cap after id st rvs)).
Proof.
  induction rvs as [|r rest IH]; intro st; [constructor|]. cbn [gen_rvs].
  destruct (gt_after after (rv_ver r) && isNone (hd_error rest) && isNone (rv_del r)).
  { specialize (IH st). destruct (gen_rvs cap after id st rest) as [st' ops]. constructor; [reflexivity|exact IH]. }
  destruct (negb (gt_after after (rv_ver r)) && negb (match version_end r (hd_error rest) with Some e => gt_after after e | None => false end)).
  { apply IH. }
  specialize (IH (next_arc cap st)). destruct (gen_rvs cap after id (next_arc cap st) rest) as [st' ops]. cbn [snd] in *.
  apply Forall_app. split; [destruct (negb (gt_after after (rv_ver r)) && isNone (hd_error rest)); repeat constructor|].
  constructor; [reflexivity|exact IH].
Qed.

(** effect on the documents of the record *)
Definition lat_eff (l : list esdoc) (o : bop) : list esdoc :=
  match o with BIndexLatest _ x => [x] | BDeleteLatest _ => [] | BIndexArc _ _ => l end.
Definition lat_run (l : list esdoc) (ops : list bop) := fold_left lat_eff ops l.
Definition arc_part (o : bop) : list esdoc := match o with BIndexArc _ x => [x] | _ => [] end.
Definition arc_adds (ops : list bop) := flat_map arc_part ops.
Lemma lat_run_strip ops : forall l, lat_run l (map strip ops) = lat_run l ops.
Proof. induction ops as [|o ops IH]; intro l; [reflexivity|]. cbn. destruct o; apply IH. Qed.
Lemma arc_adds_strip ops : arc_adds (map strip ops) = arc_adds ops.
Proof. unfold arc_adds. induction ops as [|o ops IH]; [reflexivity|]. cbn [map flat_map]. rewrite IH. destruct o; reflexivity. Qed.
Lemma arc_adds_app a b : arc_adds (a ++ b) = arc_adds a ++ arc_adds b.
Proof. apply flat_map_app. Qed.
Lemma lat_run_app l a b : lat_run l (a ++ b) = lat_run (lat_run l a) b.
Proof. apply fold_left_app. Qed.

(** all versions new: every document is written *)
Lemma rec_ops_fresh after id rvs : Forall (fun r => gt_after after (rv_ver r) = true) rvs ->
  arc_adds (rec_ops after id rvs) = filter is_closed (rv_docs id rvs) /\
  forall l, lat_run l (rec_ops after id rvs) = match filter is_open (rv_docs id rvs) with [] => l | x :: t => x :: t end.
Proof.
  induction 1 as [|r rest Hr _ [IH1 IH2]]; [split; reflexivity|]. cbn [rec_ops rv_docs]. rewrite Hr. cbn [negb andb].
  assert (Ho : is_open (create_doc id r (hd_error rest)) = isNone (hd_error rest) && isNone (rv_del r)).
  { unfold is_open, create_doc, version_end. cbn [e_end]. destruct (rv_del r), (hd_error rest); reflexivity. }
  cbn [filter]. unfold is_closed at 1. rewrite Ho. destruct (hd_error rest) as [n|] eqn:En.
  - cbn [isNone andb negb app]. split; [cbn; f_equal; exact IH1|]. intro l. cbn. apply IH2.
  - destruct rest; [|discriminate]. cbn [isNone andb]. destruct (rv_del r); cbn; split; reflexivity.
Qed.

(** nothing happens to versions that ended by then *)
Definition old (e : Z) (r : rv) : Prop := rv_ver r <= e /\ match rv_del r with Some w => w <= e | None => True end.
Lemma rec_ops_old e id : forall a n b, Forall (old e) a -> rv_ver n <= e ->
  rec_ops (Some e) id (a ++ n :: b) = rec_ops (Some e) id (n :: b).
Proof.
  induction a as [|x a IH]; intros n b Ha Hn; [reflexivity|]. inversion Ha as [|? ? [Hx1 Hx2] Ha']; subst.
  rewrite <- (IH n b Ha' Hn). cbn [app]. remember (a ++ n :: b) as t eqn:Et.
  assert (Hy : exists y, hd_error t = Some y /\ rv_ver y <= e).
  { subst t. destruct a as [|y a]; [exists n; split; [reflexivity|exact Hn]|]. exists y. split; [reflexivity|]. inversion Ha'; subst. apply H1. }
  destruct Hy as (y & Ey & Hy). cbn [rec_ops]. rewrite Ey.
  assert (Hg : gt_after (Some e) (rv_ver x) = false) by (cbn; destruct (Z.ltb_spec e (rv_ver x)); [lia|reflexivity]).
  rewrite Hg. cbn [andb negb].
  assert (He : match version_end x (Some y) with Some w => gt_after (Some e) w | None => false end = false).
  { unfold version_end. destruct (rv_del x) as [w|]; cbn; [destruct (Z.ltb_spec e w)|destruct (Z.ltb_spec e (rv_ver y))]; lia || reflexivity. }
  rewrite He. reflexivity.
Qed.

Lemma fc_cons (d : esdoc) l : filter is_closed (d :: l) = if is_open d then filter is_closed l else d :: filter is_closed l.
Proof. cbn. unfold is_closed at 1. destruct (is_open d); reflexivity. Qed.
Lemma fo_cons (d : esdoc) l : filter is_open (d :: l) = if is_open d then d :: filter is_open l else filter is_open l.
Proof. reflexivity. Qed.

(** the incremental operations turn the documents of the old versions into those of the new ones *)
Definition risky (a : Z) (acc acc' : list rv) : Prop :=
  exists r rest x new, acc = r :: rest /\ rv_del r = None /\ acc' = x :: new /\ rv_del x <> None /\ a < rv_ver x.

Lemma rec_ops_inc a e id rvs0 rvs : extends a (rev rvs0) (rev rvs) -> bounded e (rev rvs0) -> e <= a ->
  arc_adds (rec_ops (Some e) id rvs) = skipn (length (filter is_closed (rv_docs id rvs0))) (filter is_closed (rv_docs id rvs)) /\
  firstn (length (filter is_closed (rv_docs id rvs0))) (filter is_closed (rv_docs id rvs)) = filter is_closed (rv_docs id rvs0) /\
  (~ risky a (rev rvs0) (rev rvs) -> lat_run (filter is_open (rv_docs id rvs0)) (rec_ops (Some e) id rvs) = filter is_open (rv_docs id rvs)).
Proof.
  intros (new & r & r' & rest & E0 & E1 & V & Pp & D & F) B He.
  assert (Er0 : rvs0 = rev rest ++ [r]) by (rewrite <- (rev_involutive rvs0), E0; reflexivity).
  assert (Er : rvs = rev rest ++ r' :: rev new).
  { rewrite <- (rev_involutive rvs), E1, rev_app_distr. cbn. rewrite <- app_assoc. reflexivity. }
  rewrite E0 in B. inversion B as [|? ? [B1 B2] B3]; subst x l.
  assert (Ho : Forall (old e) (rev rest)) by (apply Forall_rev; exact B3).
  assert (Fn : Forall (fun n => gt_after (Some e) (rv_ver n) = true) (rev new)).
  { apply Forall_rev. eapply Forall_impl; [|exact F]. cbn. intros x Hx. destruct (Z.ltb_spec e (rv_ver x)); [reflexivity|lia]. }
  destruct (rec_ops_fresh (Some e) id (rev new) Fn) as [A1 A2].
  rewrite Er. rewrite (rec_ops_old e id (rev rest) r' (rev new) Ho) by (rewrite V; exact B1).
  rewrite rv_docs_split, Er0, (rv_docs_split id (rev rest) r []), (docs_before_ver id (rev rest) r' r V).
  destruct (docs_before_closed id (rev rest) r) as [C1 C2]. rewrite !filter_app, C1, C2. cbn [app].
  set (pre := docs_before id (rev rest) r).
  cbn [rv_docs rec_ops]. rewrite V.
  assert (Hg : gt_after (Some e) (rv_ver r) = false) by (cbn; destruct (Z.ltb_spec e (rv_ver r)); [lia|reflexivity]).
  rewrite Hg. cbn [andb negb hd_error].
  assert (Hskip : forall x t, skipn (length (pre ++ x)) ((pre ++ x) ++ t) = t /\ firstn (length (pre ++ x)) ((pre ++ x) ++ t) = pre ++ x).
  { intros x t. split; [rewrite skipn_app, skipn_all, Nat.sub_diag; reflexivity|]. rewrite firstn_app, firstn_all, Nat.sub_diag. cbn. apply app_nil_r. }
  destruct (rv_del r) as [w|] eqn:Dr.
  - (* was deleted already *)
    destruct D as [D|(D & _)]; [|discriminate]. 
    assert (Hw : (e <? w) = false) by (destruct (Z.ltb_spec e w); [lia|reflexivity]).
    assert (Hend : forall n, version_end r' n = Some w) by (intro n; unfold version_end; rewrite D; reflexivity).
    assert (Hdoc : forall n, create_doc id r' n = create_doc id r None).
    { intro n. unfold create_doc. rewrite V, Pp, Hend. unfold version_end. rewrite Dr. reflexivity. }
    rewrite !Hend. cbn [gt_after]. rewrite Hw. cbn [negb]. rewrite Hdoc.
    assert (Hop : is_open (create_doc id r None) = false) by (unfold is_open, create_doc, version_end; cbn; rewrite Dr; reflexivity).
    rewrite !fc_cons, !fo_cons, Hop. cbn [filter].
    replace (pre ++ create_doc id r None :: filter is_closed (rv_docs id (rev new))) with ((pre ++ [create_doc id r None]) ++ filter is_closed (rv_docs id (rev new))) by (rewrite <- app_assoc; reflexivity).
    destruct (Hskip [create_doc id r None] (filter is_closed (rv_docs id (rev new)))) as [H1 H2]. rewrite H1, H2.
    split; [exact A1|]. split; [reflexivity|]. intros _. rewrite A2. destruct (filter is_open (rv_docs id (rev new))); reflexivity.
  - (* was live *)
    assert (Hop0 : is_open (create_doc id r None) = true) by (unfold is_open, create_doc, version_end; cbn; rewrite Dr; reflexivity).
    rewrite !fc_cons, !fo_cons, Hop0. cbn [filter]. rewrite app_nil_r.
    destruct (rev new) as [|m ms] eqn:En.
    + cbn [hd_error rv_docs filter isNone]. destruct D as [D|(_ & w & Hw & D)].
      * assert (Hend : version_end r' None = None) by (unfold version_end; rewrite D; reflexivity). rewrite !Hend. cbn [negb].
        assert (Hdoc : create_doc id r' None = create_doc id r None).
        { unfold create_doc, version_end. rewrite V, Pp, D, Dr. reflexivity. }
        rewrite Hdoc, Hop0. rewrite app_nil_r, skipn_all, firstn_all.
        split; [reflexivity|]. split; [reflexivity|]. intros _. reflexivity.
      * assert (Hend : version_end r' None = Some w) by (unfold version_end; rewrite D; reflexivity). rewrite !Hend. cbn [gt_after]. destruct (Z.ltb_spec e w) as [_|K]; [|lia]. cbn [negb app].
        assert (Hop : is_open (create_doc id r' None) = false) by (unfold is_open, create_doc, version_end; cbn; rewrite D; reflexivity).
        rewrite Hop. destruct (Hskip [] [create_doc id r' None]) as [H1 H2]. rewrite app_nil_r in H1, H2. rewrite H1, H2.
        split; [reflexivity|]. split; [reflexivity|]. intros _. reflexivity.
    + cbn [hd_error isNone]. inversion Fn as [|? ? Fm _]; subst x l.
      assert (Hend : exists w, version_end r' (Some m) = Some w /\ e < w).
      { unfold version_end. destruct D as [D|(_ & w & Hw & D)]; rewrite D; [|exists w; split; [reflexivity|lia]].
        exists (rv_ver m). split; [reflexivity|]. cbn in Fm. lia. }
      destruct Hend as (w & Hend & Hw). rewrite Hend. cbn [gt_after]. destruct (Z.ltb_spec e w) as [_|K]; [|lia]. cbn [negb app].
      assert (Hop : is_open (create_doc id r' (Some m)) = false) by (unfold is_open, create_doc; cbn [e_end]; rewrite Hend; reflexivity).
      rewrite Hop.
      destruct (Hskip [] (create_doc id r' (Some m) :: filter is_closed (rv_docs id (m :: ms)))) as [H1 H2]. rewrite app_nil_r in H1, H2.
      change (rv_docs id (m :: ms)) with (create_doc id m (hd_error ms) :: rv_docs id ms) in *.
      rewrite H1, H2.
      split; [cbn [arc_adds flat_map arc_part app]; f_equal; exact A1|]. split; [reflexivity|]. intros Hnr.
      cbn [lat_run fold_left lat_eff]. fold (lat_run [create_doc id r None] (rec_ops (Some e) id (m :: ms))). rewrite A2.
      destruct (filter is_open (create_doc id m (hd_error ms) :: rv_docs id ms)) as [|x t] eqn:Ef; [|reflexivity].
      exfalso. apply Hnr. rewrite <- Er, <- Er0, E0, E1.
      destruct new as [|z new]; [discriminate|]. exists r, rest, z, (new ++ r' :: rest).
      split; [reflexivity|]. split; [exact Dr|]. split; [reflexivity|]. inversion F as [|? ? Fz _]; subst x l. split; [|lia].
      intro Dz. cbn [rev] in En.
      change (create_doc id m (hd_error ms) :: rv_docs id ms) with (rv_docs id (m :: ms)) in Ef.
      rewrite <- En, rv_docs_split, filter_app in Ef. apply app_eq_nil in Ef. destruct Ef as [_ Ef].
      cbn in Ef. unfold is_open, create_doc, version_end in Ef. cbn in Ef. rewrite Dz in Ef. discriminate.
Qed.
End Rec.
