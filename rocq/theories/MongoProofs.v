From Coq Require Import String Ascii.
From Coq Require Import List ZArith NArith Bool Lia Sorted Permutation.
From Verif Require Import PyVal Diff DiffProofs Prepare PrepareProofs Mongo Store.
Import ListNotations.
Open Scope nat_scope.

Lemma Forall2_length {A B} (P : A -> B -> Prop) l m : Forall2 P l m -> length l = length m.
Proof. induction 1; cbn; congruence. Qed.

(** ** Version maps *)
Section zmaps.
  Context {V : Type}.
  Implicit Types m : list (Z * V).
  Lemma zget_app m n k : zget (m ++ n) k = match zget m k with Some v => Some v | None => zget n k end.
  Proof. induction m as [|[k0 v0] m IH]; cbn [app zget]; [reflexivity|]. destruct (Z.eqb k k0); auto. Qed.
  Lemma zget_None m k : ~ In k (zkeys m) -> zget m k = None.
  Proof.
    induction m as [|[k0 v0] m IH]; cbn; intro H; [reflexivity|].
    destruct (Z.eqb_spec k k0); [exfalso; apply H; auto|apply IH; tauto].
  Qed.
  Lemma zget_In m k v : zget m k = Some v -> In (k, v) m.
  Proof.
    induction m as [|[k0 v0] m IH]; cbn; intro H; [discriminate|].
    destruct (Z.eqb_spec k k0); [left; congruence|auto].
  Qed.
  Lemma zset_notin m k v : ~ In k (zkeys m) -> zset m k v = m ++ [(k, v)].
  Proof.
    induction m as [|[k0 v0] m IH]; cbn; intro H; [reflexivity|].
    destruct (Z.eqb_spec k k0); [exfalso; apply H; auto|]. f_equal. apply IH; tauto.
  Qed.
  Lemma zset_last m k v w : ~ In k (zkeys m) -> zset (m ++ [(k, w)]) k v = m ++ [(k, v)].
  Proof.
    induction m as [|[k0 v0] m IH]; cbn; intro H; [rewrite Z.eqb_refl; reflexivity|].
    destruct (Z.eqb_spec k k0); [exfalso; apply H; auto|]. f_equal. apply IH; tauto.
  Qed.
  Lemma zdel_last m k w : ~ In k (zkeys m) -> zdel (m ++ [(k, w)]) k = m.
  Proof.
    induction m as [|[k0 v0] m IH]; cbn; intro H; [rewrite Z.eqb_refl; reflexivity|].
    destruct (Z.eqb_spec k k0); [exfalso; apply H; auto|]. f_equal. apply IH; tauto.
  Qed.
  Lemma zkeys_app m n : zkeys (m ++ n) = zkeys m ++ zkeys n.
  Proof. apply map_app. Qed.
End zmaps.

Lemma zins_last x l : Forall (fun y => (x < y)%Z) l -> zins x l = l ++ [x].
Proof.
  induction 1 as [|y l H _ IH]; cbn; [reflexivity|].
  destruct (Z.leb_spec y x); [lia|]. rewrite IH. reflexivity.
Qed.
Lemma zsort_desc_asc l : StronglySorted Z.lt l -> zsort_desc l = rev l.
Proof.
  induction 1 as [|x l _ IH H]; cbn; [reflexivity|]. rewrite IH. apply zins_last.
  apply Forall_forall. intros y Hy. rewrite Forall_forall in H. apply H. apply in_rev; exact Hy.
Qed.
Lemma asc_app_inv l k : StronglySorted Z.lt (l ++ [k]) ->
  StronglySorted Z.lt l /\ Forall (fun y => (y < k)%Z) l.
Proof.
  induction l as [|x l IH]; cbn; intro H; [split; constructor|].
  inversion H as [|? ? H1 H2]; subst. destruct (IH H1) as [A B]. rewrite Forall_app in H2.
  destruct H2 as [H2 H3]. inversion H3; subst. split; constructor; auto.
Qed.
Lemma asc_app l k : StronglySorted Z.lt l -> Forall (fun y => (y < k)%Z) l ->
  StronglySorted Z.lt (l ++ [k]).
Proof.
  induction 1 as [|x l _ IH H]; cbn; intro F; [repeat constructor|].
  inversion F; subst. constructor; [auto|]. apply Forall_app. split; [exact H|].
  constructor; [assumption|constructor].
Qed.

(** ** [py_eqb] and the specification equality *)
Lemma py_eqb_nan_free a : forall b, py_eqb a b = true -> nan_free a = true.
Proof.
  induction a as [|a0|a0|a0|a0|l IH|d IH] using value_ind'; intros b H; try reflexivity.
  - destruct a0; try reflexivity. destruct b; cbn in H; try discriminate.
  - destruct b; try discriminate. cbn [py_eqb] in H. apply list_eqb_nth in H. destruct H as [Hl H].
    cbn [nan_free]. apply forallb_forall. intros x Hx. rewrite Forall_forall in IH.
    destruct (In_nth_error _ _ Hx) as [i Hi].
    destruct (nth_error l0 i) as [y|] eqn:E.
    + apply (IH x Hx y). eapply H; eauto.
    + apply nth_error_None in E. assert (nth_error l i <> None) as N by congruence.
      apply nth_error_Some in N. lia.
  - destruct b; try discriminate. cbn [py_eqb] in H. apply andb_true_iff in H. destruct H as [_ H].
    rewrite forallb_forall in H. cbn [nan_free]. apply forallb_forall. intros kv Hkv.
    rewrite Forall_forall in IH. specialize (H kv Hkv).
    destruct (dget d0 (fst kv)) as [w|]; [|discriminate]. eapply IH; eauto.
Qed.

Lemma py_eqb_iff a b : wf a -> wf b -> (py_eqb a b = true <-> nan_free a = true /\ veq a b).
Proof.
  intros Ha Hb. split.
  - intro H. split; [eapply py_eqb_nan_free; eauto|apply py_eqb_veq; assumption].
  - intros [H1 H2]. apply veq_py_eqb; assumption.
Qed.
Lemma py_eqb_congr_r x a b : wf x -> wf a -> wf b -> veq a b -> py_eqb x a = py_eqb x b.
Proof.
  intros Hx Ha Hb H. apply eq_true_iff_eq. rewrite !py_eqb_iff by assumption.
  split; intros [H1 H2]; (split; [exact H1|]); eapply veq_trans; eauto using veq_sym.
Qed.

Lemma wf_ddel d f : wfd d -> wfd (ddel d f).
Proof.
  unfold wfd. rewrite !wf_dict. intros [H1 H2]. split; [apply NoDup_ddel; exact H1|].
  rewrite Forall_forall in *. intros x Hx. apply H2. eapply In_ddel; eauto.
Qed.
Lemma wfd_NoDup d : wfd d -> NoDup (dkeys d).
Proof. intro H. apply wf_dict in H. tauto. Qed.

Lemma vsim_ddel R a b f : wfd a -> wfd b -> vsim R (VDict a) (VDict b) ->
  vsim R (VDict (ddel a f)) (VDict (ddel b f)).
Proof.
  intros Ha Hb H. inversion H as [? ? Hs| |? ? Hk Hv]; subst; [discriminate|].
  apply wfd_NoDup in Ha. apply wfd_NoDup in Hb.
  apply sim_dict; intros k; rewrite !dget_ddel by assumption; destruct (str_eqb k f).
  - tauto.
  - apply Hk.
  - discriminate.
  - apply Hv.
Qed.
Lemma vsim_dmem R a b f : vsim R (VDict a) (VDict b) -> dmem a f = dmem b f.
Proof.
  intro H. inversion H as [? ? Hs| |? ? Hk Hv]; subst; [discriminate|]. unfold dmem.
  destruct (dget a f) eqn:Ea, (dget b f) eqn:Eb; auto; [apply Hk in Eb|apply Hk in Ea]; congruence.
Qed.

Lemma wf_repush d f : wfd d -> wfd (repush d f).
Proof.
  intro H. unfold repush. destruct (dget d f) as [v|] eqn:E; [|exact H].
  apply wf_dset; [apply wf_ddel; exact H|]. eapply wf_dget; eauto.
Qed.
Lemma repush_sim (R : value -> value -> Prop) d f : (forall a, R a a) -> wfd d -> vsim R (VDict d) (VDict (repush d f)).
Proof.
  intros HR H. unfold repush. destruct (dget d f) as [v|] eqn:E; [|apply vsim_refl; exact HR].
  assert (G : forall k, dget (dset (ddel d f) f v) k = dget d k).
  { intro k. rewrite dget_dset, dget_ddel by (apply wfd_NoDup; exact H).
    destruct (str_eqb k f) eqn:Ek; [apply str_eqb_eq in Ek; subst; auto|reflexivity]. }
  apply sim_dict; intros k; rewrite G; [tauto|]. intros x y Hx Hy. rewrite Hx in Hy.
  injection Hy as <-. apply vsim_refl; exact HR.
Qed.

Lemma isnil_diff a b : wfd a -> wfd b -> isnil (diff a b) = py_eqb (VDict a) (VDict b).
Proof.
  intros Ha Hb. apply eq_true_iff_eq. rewrite <- (diff_nil_iff a b Ha Hb).
  destruct (diff a b); cbn; split; congruence.
Qed.

(** ** A generic notion of "same data": [R] relates scalars, [good] is the class of
    data considered. Instantiated below with Python equality on all data, and with
    identity on data in which no two equal scalars differ in type. *)
Record data_class (R : value -> value -> Prop) (good : dict -> Prop) : Prop := {
  dc_refl : forall a, R a a;
  dc_sym : forall a b, R a b -> R b a;
  dc_trans : forall a b c, R a b -> R b c -> R a c;
  dc_same : forall a b, R a b -> scalar_same a b;
  dc_nil : good [];
  dc_wf : forall d, good d -> wfd d;
  dc_sim : forall a b, good a -> wfd b -> vsim R (VDict a) (VDict b) -> good b;
  dc_rt : forall a b, good a -> good b ->
    exists d, patch a (diff a b) = Some d /\ vsim R (VDict d) (VDict b)
}.

Section Refine.
Variable R : value -> value -> Prop.
Variable good : dict -> Prop.
Hypothesis DC : data_class R good.
Let R_refl := dc_refl _ _ DC.
Let R_sym := dc_sym _ _ DC.
Let R_trans := dc_trans _ _ DC.
Let R_same := dc_same _ _ DC.
Let good_wf := dc_wf _ _ DC.
Let good_sim := dc_sim _ _ DC.

Notation "a ~~ b" := (vsim R (VDict a) (VDict b)) (at level 70).
Lemma s_refl a : a ~~ a. Proof. apply vsim_refl; exact R_refl. Qed.
Lemma s_sym a b : a ~~ b -> b ~~ a. Proof. apply vsim_sym; exact R_sym. Qed.
Lemma s_trans a b c : a ~~ b -> b ~~ c -> a ~~ c. Proof. apply vsim_trans; exact R_trans. Qed.
Lemma s_veq a b : a ~~ b -> veq (VDict a) (VDict b). Proof. apply vsim_mono; exact R_same. Qed.
Hint Resolve s_refl s_sym : mg.

Definition relv (x y : option Z * dict) : Prop := fst x = fst y /\ snd x ~~ snd y.

Definition wfdiffs (m : list (Z * list diffop)) : Prop :=
  Forall (fun kv => Forall (fun o => wf_ops (dops o)) (snd kv)) m.

Record doc_ok (bound : Z) (d : doc) : Prop := {
  ok_good : good (d_data d);
  ok_diffs : wfdiffs (d_diffs d);
  ok_asc : StronglySorted Z.lt (zkeys (d_diffs d));
  ok_lt : Forall (fun k => match d_ver d with Some v => (k < v)%Z | None => (k <= bound)%Z end) (zkeys (d_diffs d));
  ok_ver : match d_ver d with Some v => (v <= bound)%Z | None => True end
}.

Definition doc_rel (bound : Z) (d : doc) (r : arec) : Prop :=
  doc_ok bound d /\ Forall (fun x => good (snd x)) (view r) /\
  exists l, iter_doc d = Some l /\ Forall2 relv l (view r).

(** iter only looks at the versions it is given *)
Lemma iter_diffs_ext m n vs : (forall v, In v vs -> zget m v = zget n v) ->
  forall b, iter_diffs b m vs = iter_diffs b n vs.
Proof.
  induction vs as [|v vs IH]; intros H b; cbn [iter_diffs]; [reflexivity|].
  rewrite (H v (or_introl eq_refl)). destruct (zget n v) as [os|]; [|reflexivity].
  destruct (patch b os) as [x|]; [|reflexivity]. rewrite IH; [reflexivity|]. intros; apply H; right; assumption.
Qed.

Lemma iter_diffs_congr m : wfdiffs m -> forall vs a b l, wfd a -> wfd b -> a ~~ b ->
  iter_diffs a m vs = Some l -> exists l', iter_diffs b m vs = Some l' /\ Forall2 relv l l'.
Proof.
  intro Hm. induction vs as [|v vs IH]; intros a b l Ha Hb Hab H; cbn [iter_diffs] in *.
  - injection H as <-. exists []. split; [reflexivity|constructor].
  - destruct (zget m v) as [os|] eqn:E; [|discriminate].
    assert (Hos : Forall (fun o => wf_ops (dops o)) os).
    { apply zget_In in E. unfold wfdiffs in Hm. rewrite Forall_forall in Hm. exact (Hm _ E). }
    destruct (patch a os) as [x|] eqn:Ex; [|discriminate].
    destruct (vsim_patch R R_refl os a b x Hos Ha Hb Hab Ex) as (y & Ey & Hxy). rewrite Ey.
    destruct (iter_diffs x m vs) as [r|] eqn:Er; [|discriminate]. cbn in H. injection H as <-.
    destruct (IH x y r (wf_patch a os x Hos Ha Ex) (wf_patch b os y Hos Hb Ey) Hxy Er) as (r' & Er' & Hr').
    rewrite Er'. cbn. eexists; split; [reflexivity|]. constructor; [split; cbn; auto|exact Hr'].
Qed.

Lemma relv_trans l m n : Forall2 relv l m -> Forall2 relv m n -> Forall2 relv l n.
Proof.
  intro H. revert n. induction H as [|x y l m Hxy _ IH]; intros n Hn; inversion Hn as [|y' z m' n' Hyz Hmn]; subst; constructor; auto.
  destruct Hxy as [Q1 Q2], Hyz as [Q3 Q4]. split; [congruence|eapply s_trans; eauto].
Qed.
Lemma relv_sym l m : Forall2 relv l m -> Forall2 relv m l.
Proof. induction 1 as [|x y l m [Q1 Q2] _ IH]; constructor; auto. split; auto with mg. Qed.

Definition hview (h : list (Z * dict)) := map (fun vd : Z * dict => (Some (fst vd), snd vd)) h.

Lemma rel_pend bound d h p : doc_rel bound d (AR h (Some p)) ->
  d_ver d = None /\ d_data d ~~ p /\ good p /\ Forall (fun x => good (snd x)) (hview h) /\
  exists l, iter_diffs (d_data d) (d_diffs d) (rev (zkeys (d_diffs d))) = Some l /\ Forall2 relv l (hview h).
Proof.
  intros (Hok & Hg & l & Hl & H2). unfold view in *. cbn [a_pend a_hist app] in *.
  unfold iter_doc in Hl. rewrite (zsort_desc_asc _ (ok_asc _ _ Hok)) in Hl.
  destruct (iter_diffs _ _ _) as [t|]; [|discriminate]. cbn in Hl. injection Hl as <-.
  inversion H2 as [|? ? ? ? [Ha Hb] Ht]; subst. inversion Hg; subst. cbn in *.
  repeat split; auto. exists t. split; auto.
Qed.
Lemma rel_comm bound d h : doc_rel bound d (AR h None) ->
  exists v x rest, h = (v, x) :: rest /\ d_ver d = Some v /\ d_data d ~~ x /\ good x /\
  Forall (fun x => good (snd x)) (hview rest) /\
  exists l, iter_diffs (d_data d) (d_diffs d) (rev (zkeys (d_diffs d))) = Some l /\ Forall2 relv l (hview rest).
Proof.
  intros (Hok & Hg & l & Hl & H2). unfold view in *. cbn [a_pend a_hist app] in *.
  unfold iter_doc in Hl. rewrite (zsort_desc_asc _ (ok_asc _ _ Hok)) in Hl.
  destruct (iter_diffs _ _ _) as [t|]; [|discriminate]. cbn in Hl. injection Hl as <-.
  destruct h as [|[v x] rest]; [inversion H2|]. cbn in *.
  inversion H2 as [|? ? ? ? [Ha Hb] Ht]; subst. inversion Hg; subst. cbn in *.
  exists v, x, rest. repeat split; auto. exists t. split; auto.
Qed.

Lemma rel_intro bound d r l : doc_ok bound d -> Forall (fun x => good (snd x)) (view r) ->
  iter_diffs (d_data d) (d_diffs d) (rev (zkeys (d_diffs d))) = Some l ->
  Forall2 relv ((d_ver d, d_data d) :: l) (view r) -> doc_rel bound d r.
Proof.
  intros Hok Hg Hl H2. split; [exact Hok|]. split; [exact Hg|]. eexists. split; [|exact H2].
  unfold iter_doc. rewrite (zsort_desc_asc _ (ok_asc _ _ Hok)), Hl. reflexivity.
Qed.

(** diffs empty iff no history beyond the current entry *)
Lemma iter_diffs_len b m vs l : iter_diffs b m vs = Some l -> length l = length vs.
Proof.
  revert b l. induction vs as [|v vs IH]; intros b l H; cbn [iter_diffs] in H; [injection H as <-; reflexivity|].
  destruct (zget m v) as [os|]; [|discriminate]. destruct (patch b os) as [x|]; [|discriminate].
  destruct (iter_diffs x m vs) eqn:E; [|discriminate]. cbn in H. injection H as <-. cbn. f_equal. eauto.
Qed.
Lemma hist_len bound d h p : doc_rel bound d (AR h (Some p)) -> length (d_diffs d) = length h.
Proof.
  intro H. destruct (rel_pend _ _ _ _ H) as (_ & _ & _ & _ & l & Hl & H2).
  apply iter_diffs_len in Hl. apply Forall2_length in H2. unfold hview in H2. rewrite map_length in H2.
  rewrite rev_length in Hl. unfold zkeys in Hl. rewrite map_length in Hl. congruence.
Qed.
Lemma hist_len_c bound d v x rest : doc_rel bound d (AR ((v, x) :: rest) None) -> length (d_diffs d) = length rest.
Proof.
  intro H. destruct (rel_comm _ _ _ H) as (v' & x' & rest' & E & _ & _ & _ & _ & l & Hl & H2).
  injection E as <- <- <-.
  apply iter_diffs_len in Hl. apply Forall2_length in H2. unfold hview in H2. rewrite map_length in H2.
  rewrite rev_length in Hl. unfold zkeys in Hl. rewrite map_length in Hl. congruence.
Qed.

(** *** change on a committed record *)
Lemma change_rel_gen bound d v x rest new new' ch y : doc_rel bound d (AR ((v, x) :: rest) None) ->
  good new -> wfd new' -> new ~~ new' -> Forall (fun o => wf_ops (dops o)) ch ->
  patch new' ch = Some y -> y ~~ x ->
  doc_rel bound (mkDoc (d_id d) None new' (zset (d_diffs d) v ch)) (AR ((v, x) :: rest) (Some new)).
Proof.
  intros H Hg Hwn Hn Hch Ey Hyx.
  destruct (rel_comm _ _ _ H) as (v' & x' & rest' & E & Hv & Hx & Hgx & Hgr & l & Hl & H2).
  injection E as <- <- <-. destruct H as (Hok & _).
  assert (Hlt : Forall (fun k => (k < v)%Z) (zkeys (d_diffs d))).
  { pose proof (ok_lt _ _ Hok) as L. rewrite Hv in L. exact L. }
  assert (Hnin : ~ In v (zkeys (d_diffs d))).
  { intro Hin. rewrite Forall_forall in Hlt. specialize (Hlt _ Hin). lia. }
  assert (Hgn' : good new') by (exact (good_sim new new' Hg Hwn Hn)).
  assert (Hwy : wfd y) by (exact (wf_patch _ _ _ Hch Hwn Ey)).
  assert (Hdy : d_data d ~~ y) by (eapply s_trans; [exact Hx|apply s_sym; exact Hyx]).
  destruct (iter_diffs_congr (d_diffs d) (ok_diffs _ _ Hok) _ _ _ _ (good_wf _ (ok_good _ _ Hok)) Hwy Hdy Hl)
    as (l' & Hl' & Hll').
  rewrite (zset_notin _ _ _ Hnin).
  apply (rel_intro _ _ _ ((Some v, y) :: l')); cbn [d_data d_diffs d_ver].
  - constructor; cbn [d_data d_diffs d_ver].
    + exact Hgn'.
    + apply Forall_app. split; [exact (ok_diffs _ _ Hok)|]. constructor; [|constructor]. exact Hch.
    + rewrite zkeys_app. cbn. apply asc_app; [exact (ok_asc _ _ Hok)|exact Hlt].
    + rewrite zkeys_app. pose proof (ok_ver _ _ Hok) as B. rewrite Hv in B. apply Forall_app. split.
      * eapply Forall_impl; [|exact Hlt]. cbn. intros; lia.
      * repeat constructor. exact B.
    + exact I.
  - unfold view. cbn. constructor; [exact Hg|]. constructor; [exact Hgx|exact Hgr].
  - rewrite zkeys_app. cbn [zkeys map fst]. rewrite rev_app_distr. cbn [rev app iter_diffs].
    rewrite zget_app, (zget_None _ _ Hnin). cbn [zget]. rewrite Z.eqb_refl, Ey.
    rewrite (iter_diffs_ext _ (d_diffs d)).
    + rewrite Hl'. reflexivity.
    + intros w Hw. apply in_rev in Hw. rewrite zget_app. destruct (zget (d_diffs d) w) eqn:E; [reflexivity|].
      cbn. destruct (Z.eqb_spec w v); [subst; contradiction|reflexivity].
  - unfold view. cbn. constructor; [split; cbn; auto with mg|].
    constructor; [split; cbn; [reflexivity|exact Hyx]|].
    eapply relv_trans; [|exact H2]. apply relv_sym; exact Hll'.
Qed.

(** *** revert *)
Lemma revert_rel bound d v x rest p : doc_rel bound d (AR ((v, x) :: rest) (Some p)) ->
  exists d' m os, revert_doc d = Some d' /\ d_id d' = d_id d /\ d_ver d' = Some v /\
    d_diffs d = m ++ [(v, os)] /\ d_diffs d' = m /\ ~ In v (zkeys m) /\
    doc_rel bound d' (AR ((v, x) :: rest) None).
Proof.
  intro H. destruct (rel_pend _ _ _ _ H) as (Hv & Hp & Hgp & Hgh & l & Hl & H2).
  destruct H as (Hok & _).
  destruct (exists_last (l := d_diffs d)) as (m & [w os] & Em).
  { intro E. rewrite E in Hl. cbn in Hl. injection Hl as <-. inversion H2. }
  pose proof (ok_asc _ _ Hok) as Hasc. pose proof (ok_lt _ _ Hok) as Hlt. rewrite Hv in Hlt.
  rewrite Em, zkeys_app in Hasc, Hlt. cbn in Hasc, Hlt.
  destruct (asc_app_inv _ _ Hasc) as [Hasc' Hltw].
  assert (Hnin : ~ In w (zkeys m)).
  { intro Hin. rewrite Forall_forall in Hltw. specialize (Hltw _ Hin). lia. }
  rewrite Em, zkeys_app in Hl. cbn [zkeys map fst] in Hl. rewrite rev_app_distr in Hl.
  cbn [rev app iter_diffs] in Hl. rewrite zget_app, (zget_None _ _ Hnin) in Hl. cbn [zget] in Hl.
  rewrite Z.eqb_refl in Hl. destruct (patch (d_data d) os) as [y|] eqn:Ey; [|discriminate].
  destruct (iter_diffs y _ _) as [t|] eqn:Et; [|discriminate]. cbn in Hl. injection Hl as <-.
  cbn [hview map fst snd] in H2. inversion H2 as [|? ? ? ? [Ha Hb] Ht]; subst. cbn in Ha, Hb.
  injection Ha as ->.
  pose proof (ok_diffs _ _ Hok) as Hd. rewrite Em in Hd. apply Forall_app in Hd. destruct Hd as [Hdm Hdo].
  inversion Hdo as [|? ? Hos _]; subst. cbn in Hos.
  assert (Hwy : wfd y) by (exact (wf_patch _ _ _ Hos (good_wf _ (ok_good _ _ Hok)) Ey)).
  inversion Hgh as [|? ? Hgx Hgr]; subst. cbn in Hgx.
  exists (mkDoc (d_id d) (Some v) y m), m, os.
  split; [|split; [|split; [|split; [|split; [|split]]]]]; cbn [d_id d_ver d_diffs]; auto.
  - unfold revert_doc. rewrite Hv, (zsort_desc_asc _ (ok_asc _ _ Hok)), Em, zkeys_app.
    cbn [zkeys map fst]. rewrite rev_app_distr. cbn [rev app].
    rewrite zget_app, (zget_None _ _ Hnin). cbn [zget]. rewrite Z.eqb_refl, Ey. cbn [bind].
    rewrite (zdel_last _ _ _ Hnin). reflexivity.
  - apply (rel_intro _ _ _ t); cbn [d_data d_diffs d_ver].
    + constructor; cbn [d_data d_diffs d_ver].
      * eapply good_sim; [exact Hgx|exact Hwy|apply s_sym; exact Hb].
      * exact Hdm.
      * exact Hasc'.
      * exact Hltw.
      * apply Forall_app in Hlt. destruct Hlt as [_ L]. inversion L; subst. assumption.
    + unfold view. cbn. constructor; [exact Hgx|exact Hgr].
    + rewrite <- Et. apply iter_diffs_ext. intros w Hw. apply in_rev in Hw. rewrite zget_app.
      destruct (zget m w) eqn:E; [reflexivity|]. cbn. destruct (Z.eqb_spec w v); [subst; contradiction|reflexivity].
    + unfold view. cbn. constructor; [split; cbn; auto|exact Ht].
Qed.

(** replacing the data by equivalent data *)
Lemma redata_rel bound d r y : doc_rel bound d r -> wfd y -> d_data d ~~ y ->
  doc_rel bound (mkDoc (d_id d) (d_ver d) y (d_diffs d)) r.
Proof.
  intros (Hok & Hg & l & Hl & H2) Hy Hs.
  unfold iter_doc in Hl. rewrite (zsort_desc_asc _ (ok_asc _ _ Hok)) in Hl.
  destruct (iter_diffs _ _ _) as [t|] eqn:Et; [|discriminate]. cbn in Hl. injection Hl as <-.
  destruct (iter_diffs_congr (d_diffs d) (ok_diffs _ _ Hok) _ _ _ _ (good_wf _ (ok_good _ _ Hok)) Hy Hs Et)
    as (t' & Et' & Htt).
  apply (rel_intro _ _ _ t'); cbn [d_data d_diffs d_ver]; auto.
  - destruct Hok as [o1 o2 o3 o4 o5]. constructor; cbn [d_data d_diffs d_ver]; auto.
    eapply good_sim; eauto.
  - inversion H2 as [|? ? ? ? [Ha Hb] Ht]; subst. constructor.
    + split; [exact Ha|]. cbn in *. eapply s_trans; [apply s_sym; exact Hs|exact Hb].
    + eapply relv_trans; [|exact Ht]. apply relv_sym; exact Htt.
Qed.

(** fresh pending data *)
Lemma fresh_rel bound id new : good new -> doc_rel bound (mkDoc id None new []) (AR [] (Some new)).
Proof.
  intro H. apply (rel_intro _ _ _ []); cbn [d_data d_diffs d_ver].
  - constructor; cbn; auto; constructor.
  - repeat constructor. exact H.
  - reflexivity.
  - constructor; [split; cbn; [reflexivity|apply s_refl]|constructor].
Qed.

(** commit *)
Lemma commit_rel bound d r v : doc_rel bound d r -> (bound < v)%Z ->
  doc_rel v (commit_doc v d)
    (match r with AR h (Some p) => AR ((v, p) :: h) None | _ => r end).
Proof.
  intros H Hv. destruct r as [h [p|]].
  - destruct (rel_pend _ _ _ _ H) as (Hn & Hp & Hgp & Hgh & l & Hl & H2). destruct H as (Hok & _).
    unfold commit_doc. rewrite Hn. apply (rel_intro _ _ _ l); cbn [d_data d_diffs d_ver]; auto.
    + destruct Hok as [o1 o2 o3 o4 o5]. constructor; cbn [d_data d_diffs d_ver]; auto; [|lia].
      rewrite Hn in o4. eapply Forall_impl; [|exact o4]. cbn; intros; lia.
    + unfold view. cbn. constructor; auto.
    + unfold view. cbn. constructor; [split; cbn; auto|exact H2].
  - destruct (rel_comm _ _ _ H) as (v' & x & rest & -> & Hd & Hx & Hgx & Hgr & l & Hl & H2).
    destruct H as (Hok & Hg & l0 & Hl0 & H20).
    unfold commit_doc. rewrite Hd. split; [|split; [exact Hg|eexists; split; eauto]].
    destruct Hok as [o1 o2 o3 o4 o5]. rewrite Hd in *. constructor; auto; rewrite Hd; [exact o4|lia].
Qed.

End Refine.
