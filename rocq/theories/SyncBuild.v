(** RecordVersions.build on a history cut at a moment, and on related data. *)
From Coq Require Import List ZArith NArith Bool Lia Sorted Permutation.
From Verif Require Import PyVal Diff Mongo MongoProofs Client Index IndexSpec IndexProofs Sync SyncSpec SyncProofs.
Import ListNotations.
Open Scope Z_scope.

Lemma zmin_key_unique {V} (m : list (Z * V)) k : In k (zkeys m) -> (forall j, In j (zkeys m) -> k <= j) -> zmin_key m = Some k.
Proof.
  intros Hk Hm. destruct (zmin_key m) as [k'|] eqn:E.
  - destruct (zmin_key_spec m k' E) as [H1 H2]. f_equal. specialize (H2 k Hk). specialize (Hm k' H1). lia.
  - apply zmin_key_None in E. subst. contradiction.
Qed.
Lemma upto_keys {V} a (m : list (Z * V)) k : In k (zkeys (upto a m)) <-> In k (zkeys m) /\ k <= a.
Proof.
  unfold upto, zkeys. rewrite !in_map_iff. split.
  - intros ([j x] & E & H). cbn in E. subst j. apply filter_In in H. destruct H as [H1 H2]. cbn in H2. split; [exists (k, x); auto|lia].
  - intros (([j x] & E & H) & Hk). cbn in E. subst j. exists (k, x). split; [reflexivity|]. apply filter_In. split; [exact H|]. cbn. lia.
Qed.
Lemma upto_In {V} a (m : list (Z * V)) k x : In (k, x) (upto a m) <-> In (k, x) m /\ k <= a.
Proof. unfold upto. rewrite filter_In. cbn [fst]. destruct (Z.leb_spec k a); intuition; try lia; discriminate. Qed.
Lemma zget_upto {V} a (m : list (Z * V)) k : k <= a -> zget (upto a m) k = zget m k.
Proof.
  intro H. induction m as [|[j x] m IH]; [reflexivity|]. unfold upto in *. cbn [filter fst]. destruct (Z.leb_spec j a).
  - cbn [zget]. rewrite IH. reflexivity.
  - cbn [zget]. rewrite IH. destruct (Z.eqb_spec k j); [lia|reflexivity].
Qed.
Lemma upto_all {V} a (m : list (Z * V)) : (forall k, In k (zkeys m) -> k <= a) -> upto a m = m.
Proof.
  intro H. induction m as [|[j x] m IH]; [reflexivity|]. unfold upto in *. cbn [filter fst].
  destruct (Z.leb_spec j a) as [_|K]; [|specialize (H j (or_introl eq_refl)); lia]. rewrite IH; [reflexivity|].
  intros k Hk. apply H. right; exact Hk.
Qed.
Lemma NoDup_upto {V} a (m : list (Z * V)) : NoDup (map fst m) -> NoDup (map fst (upto a m)).
Proof.
  unfold upto. induction m as [|[j x] m IH]; [constructor|]. cbn [map fst filter]. intro Hn. inversion Hn as [|? ? H1 H2]; subst.
  destruct (j <=? a); [|exact (IH H2)]. cbn [map fst]. constructor; [|exact (IH H2)].
  intro K. apply H1. apply in_map_iff in K. destruct K as (kv & E & K). apply filter_In in K. apply in_map_iff. exists kv. tauto.
Qed.
Lemma upto_upto {V} a b (m : list (Z * V)) : a <= b -> upto a (upto b m) = upto a m.
Proof.
  intro H. unfold upto. induction m as [|[j x] m IH]; [reflexivity|]. cbn [filter fst].
  destruct (Z.leb_spec j b), (Z.leb_spec j a); cbn [filter fst]; try rewrite IH; try lia; try reflexivity.
  - destruct (Z.leb_spec j a); [reflexivity|lia].
  - destruct (Z.leb_spec j a); [lia|reflexivity].
Qed.
Lemma zmin_upto {V} a (m : list (Z * V)) k : zmin_key m = Some k -> k <= a -> zmin_key (upto a m) = Some k.
Proof.
  intros H Ha. destruct (zmin_key_spec m k H) as [H1 H2]. apply zmin_key_unique; [apply upto_keys; auto|].
  intros j Hj. apply upto_keys in Hj. apply H2, Hj.
Qed.

Section Build.
Context {O P : Type} (parse : dict -> O -> P) (peq : P -> P -> bool).
Notation rv := (rv P).
Notation build_step := (build_step parse peq).
Notation build := (build parse peq).
Notation tracks := (tracks parse peq).

Lemma fold_upto fd a (dm : list (Z * dict)) (om : list (Z * O)) vs : Forall (fun v => v <= a) vs -> forall st,
  fold_left (build_step fd (upto a dm) (upto a om)) vs st = fold_left (build_step fd dm om) vs st.
Proof.
  induction 1 as [|v vs Hv _ IH]; intro st; [reflexivity|]. cbn [fold_left]. rewrite IH. f_equal.
  unfold Index.build_step. rewrite !zget_upto by exact Hv. reflexivity.
Qed.
Lemma versions_upto a (dm : list (Z * dict)) (om : list (Z * O)) :
  versions_of (upto a dm) (upto a om) = filter (fun v => v <=? a) (versions_of dm om).
Proof.
  apply sorted_ext; [apply zsorted_set_sorted|apply filter_sorted, zsorted_set_sorted|].
  intro x. unfold versions_of. rewrite filter_In, !zsorted_set_In, !in_app_iff, !upto_keys.
  destruct (Z.leb_spec x a); intuition; try lia; discriminate.
Qed.

(** versions and deletions come from the keys *)
Definition from_keys (S : Z -> Prop) (r : rv) : Prop := S (rv_ver r) /\ match rv_del r with Some w => S w | None => True end.
Lemma fold_versions (S : Z -> Prop) fd (dm : list (Z * dict)) (om : list (Z * O)) vs : (forall v, In v vs -> S v) ->
  forall st d o acc, fold_left (build_step fd dm om) vs (Some st) = Some (d, o, acc) -> Forall (from_keys S) (snd st) ->
  Forall (from_keys S) acc.
Proof.
  induction vs as [|v vs IH]; intros HS st d o acc H Hst.
  - cbn in H. injection H as ->. exact Hst.
  - cbn [fold_left] in H. destruct (build_step fd dm om (Some st) v) as [st1|] eqn:E.
    2:{ exfalso. clear -H. induction vs as [|w vs IH]; [discriminate|]. cbn in H. exact (IH H). }
    apply (IH ltac:(intros w Hw; apply HS; right; exact Hw) st1 d o acc H).
    destruct st as [[d0 o0] acc0]. cbn [snd] in Hst. cbn [Index.build_step] in E.
    assert (Hv : S v) by (apply HS; left; reflexivity).
    destruct (v <? fd). { injection E as <-. exact Hst. }
    destruct (match zget dm v with Some x => x | None => d0 end) as [|kv x].
    + destruct acc0 as [|r rest]; [discriminate|]. injection E as <-. cbn [snd]. inversion Hst as [|? ? [H1 H2] H3]; subst.
      destruct (rv_del r) as [w|] eqn:Ed; [exact Hst|]. constructor; [split; [exact H1|exact Hv]|assumption].
    + injection E as <-. cbn [snd].
      assert (Hd : from_keys S (RV v (parse (kv :: x) (match zget om v with Some o1 => o1 | None => o0 end)) None)) by (split; [exact Hv|exact I]).
      destruct acc0 as [|r rest]; [constructor; [exact Hd|constructor]|].
      match goal with |- Forall _ (if ?b then _ else _) => destruct b end; [exact Hst|constructor; [exact Hd|exact Hst]].
Qed.
Lemma build_versions (dm : list (Z * dict)) (om : list (Z * O)) rvs : build dm om = Some rvs ->
  Forall (from_keys (fun v => In v (zkeys om) \/ In v (zkeys dm))) rvs.
Proof.
  unfold Index.build. destruct (zmin_key dm) as [fd|]; [|discriminate]. destruct (zmin_key om) as [fo|]; [|discriminate].
  destruct (zget dm fd) as [d0|]; [|discriminate]. destruct (zget om fo) as [o0|]; [|discriminate].
  destruct (fold_left _ _ _) as [[[d o] acc]|] eqn:E; [|discriminate]. intro H. injection H as <-.
  apply Forall_rev. refine (fold_versions (fun v => In v (zkeys om) \/ In v (zkeys dm)) fd dm om _ _ _ d o acc E (Forall_nil _)).
  intros v Hv. apply zsorted_set_In, in_app_iff in Hv. exact Hv.
Qed.

(** the versions up to [a] *)
Lemma build_upto dm om a rvs0 rvs : hist_ok dm -> build (upto a dm) (upto a om) = Some rvs0 -> build dm om = Some rvs ->
  extends a (rev rvs0) (rev rvs) /\ bounded a (rev rvs0) /\ chain (rev rvs0) /\ chain (rev rvs).
Proof.
  intros Hh H0 H. destruct (hist_ok_first dm Hh) as (fd & d0 & Efd & Ed & Hd0 & _). destruct Hh as [Hn _].
  destruct (zmin_key_spec dm fd Efd) as [Hin Hmin].
  unfold Index.build in H0.
  destruct (zmin_key (upto a dm)) as [fd'|] eqn:Efd'; [|discriminate].
  destruct (zmin_key (upto a om)) as [fo'|] eqn:Efo'; [|discriminate].
  destruct (zmin_key_spec _ fd' Efd') as [Hin' _]. apply upto_keys in Hin'. destruct Hin' as [Hin' Hfa].
  assert (Ha : fd <= a) by (specialize (Hmin fd' Hin'); lia).
  rewrite (zmin_upto a dm fd Efd Ha) in Efd'. injection Efd' as <-. rewrite (zget_upto a dm fd Ha), Ed in H0.
  unfold Index.build in H. rewrite Efd, Ed in H.
  destruct (zmin_key om) as [fo|] eqn:Efo; [|discriminate].
  destruct (zmin_key_spec om fo Efo) as [Hino Homin].
  destruct (zmin_key_spec _ fo' Efo') as [Hino' _]. apply upto_keys in Hino'. destruct Hino' as [Hino' Hfoa].
  assert (Hoa : fo <= a) by (specialize (Homin fo' Hino'); lia).
  rewrite (zmin_upto a om fo Efo Hoa) in Efo'. injection Efo' as <-. rewrite (zget_upto a om fo Hoa) in H0.
  destruct (zget_Some_In om fo Hino) as (o0 & Eo). rewrite Eo in H, H0.
  fold (versions_of dm om) in H. fold (versions_of (upto a dm) (upto a om)) in H0.
  rewrite (versions_split dm om fd a Hin Ha) in H. cbn zeta in H.
  set (hi := filter (fun v => fd <? v) (versions_of dm om)) in *.
  set (vs := filter (fun v => v <=? a) hi) in *.
  assert (Shi : StronglySorted Z.lt hi) by apply filter_sorted, zsorted_set_sorted.
  assert (Svs : StronglySorted Z.lt vs) by apply filter_sorted, Shi.
  assert (Fvs : Forall (fun v => fd < v) vs).
  { apply Forall_forall. intros x Hx. apply filter_In in Hx. destruct Hx as [Hx _]. apply filter_In in Hx. destruct Hx as [_ Hx]. lia. }
  assert (Fva : Forall (fun v => v <= a) vs).
  { apply Forall_forall. intros x Hx. apply filter_In in Hx. destruct Hx as [_ Hx]. lia. }
  destruct (build_run parse peq dm om fd fo d0 o0 Hn Efd Efo Ed Eo Hd0 vs Svs Fvs) as (acc & E & B & C & T). cbn zeta in E.
  assert (E0 : rvs0 = rev acc).
  { assert (Ev : versions_of (upto a dm) (upto a om) = filter (fun v => v <? fd) (versions_of dm om) ++ fd :: vs).
    { rewrite versions_upto. rewrite (versions_split dm om fd a Hin Ha) at 1. cbn zeta. fold hi. fold vs.
      rewrite filter_app. cbn [filter]. rewrite filter_app. destruct (Z.leb_spec fd a) as [_|K]; [|lia].
      assert (G1 : forall l, (forall x, In x l -> x <= a) -> filter (fun v => v <=? a) l = l).
      { clear. induction l as [|x l IH]; intro K; [reflexivity|]. cbn. destruct (Z.leb_spec x a) as [_|Q]; [|specialize (K x (or_introl eq_refl)); lia].
        rewrite IH; [reflexivity|]. intros y Hy. apply K. right; exact Hy. }
      assert (G2 : forall l, (forall x, In x l -> a < x) -> filter (fun v => v <=? a) l = []).
      { clear. induction l as [|x l IH]; intro K; [reflexivity|]. cbn. destruct (Z.leb_spec x a) as [Q|_]; [specialize (K x (or_introl eq_refl)); lia|].
        apply IH. intros y Hy. apply K. right; exact Hy. }
      rewrite (G1 (filter (fun v => v <? fd) (versions_of dm om))) by (intros x Hx; apply filter_In in Hx; lia).
      rewrite (G1 vs) by (rewrite Forall_forall in Fva; exact Fva).
      rewrite (G2 (filter (fun v => a <? v) hi)) by (intros x Hx; apply filter_In in Hx; lia).
      rewrite app_nil_r. reflexivity. }
    rewrite Ev, fold_upto, E in H0.
    - injection H0 as <-. reflexivity.
    - apply Forall_app. split; [|constructor; [exact Ha|exact Fva]]. apply Forall_forall. intros x Hx. apply filter_In in Hx. lia. }
  rewrite app_comm_cons, app_assoc, fold_left_app, E in H.
  assert (Hna : acc <> []) by (destruct acc; [contradiction|discriminate]).
  assert (Ba : bounded a acc) by (apply B; [exact Ha|exact Fva]).
  destruct (fold_inv parse peq fd dm om (filter (fun v => a <? v) hi) (cur dm d0 vs) (cur om o0 (fd :: vs)) acc a
      (filter_sorted _ _ Shi)) as (acc' & E' & B' & C' & T' & X').
  - apply Forall_forall. intros x Hx. apply filter_In in Hx. destruct Hx as [_ Hx]. lia.
  - exact Hna.
  - exact Ba.
  - exact C.
  - exact T.
  - rewrite E' in H. injection H as <-. subst rvs0. rewrite !rev_involutive. auto.
Qed.

(** one later version only: not risky *)
Lemma one_version_safe dm om a rvs0 rvs v : hist_ok dm -> build (upto a dm) (upto a om) = Some rvs0 -> build dm om = Some rvs ->
  (forall k, In k (zkeys om) \/ In k (zkeys dm) -> a < k -> k = v) -> ~ risky a (rev rvs0) (rev rvs).
Proof.
  intros Hh H0 H Hv (r & rest & x & new & E0 & D0 & E1 & D1 & Hx).
  destruct (build_upto dm om a rvs0 rvs Hh H0 H) as (_ & _ & _ & C). pose proof (build_versions dm om rvs H) as K.
  apply Forall_rev in K. rewrite E1 in K, C. inversion K as [|? ? [K1 K2] _]; subst. destruct C as (C1 & _).
  destruct (rv_del x) as [w|]; [|congruence]. assert (rv_ver x = v) by (apply Hv; assumption).
  assert (w = v) by (apply Hv; [assumption|lia]). lia.
Qed.

(** ** Related data *)
(** [near] relates stored data that count as the same (see MongoStore): indexing does not tell them apart. *)
Variable near : dict -> dict -> Prop.
Definition prel (p p' : P) : Prop := exists d d' o, near d d' /\ p = parse d o /\ p' = parse d' o.
(** specification or proof device; models no code of its own *)
Record parse_ok : Prop := {
  po_nil : forall d d', near d d' -> (d = [] <-> d' = []);
  po_peq : forall p p' q q', prel p p' -> prel q q' -> peq p q = peq p' q' }.
(** specification or proof device; models no code of its own *)
Definition hrel (x y : Z * dict) : Prop := fst x = fst y /\ near (snd x) (snd y).
(** specification or proof device; models no code of its own *)
Definition rv_rel (r s : rv) : Prop := rv_ver r = rv_ver s /\ rv_del r = rv_del s /\ prel (rv_parsed r) (rv_parsed s).

Lemma hrel_keys m m' : Forall2 hrel m m' -> zkeys m = zkeys m'.
Proof. induction 1 as [|? ? ? ? [H _] _ IH]; [reflexivity|]. cbn. rewrite H. f_equal. exact IH. Qed.
Lemma hrel_zget m m' k : Forall2 hrel m m' ->
  match zget m k, zget m' k with Some d, Some d' => near d d' | None, None => True | _, _ => False end.
Proof.
  induction 1 as [|[j x] [j' x'] ? ? [H1 H2] _ IH]; [exact I|]. cbn in H1, H2. subst j'. cbn [zget].
  destruct (k =? j); [exact H2|exact IH].
Qed.
Lemma build_rel (K : parse_ok) m m' om rvs : Forall2 hrel m m' -> build m om = Some rvs ->
  exists rvs', build m' om = Some rvs' /\ Forall2 rv_rel rvs rvs'.
Proof.
  intros Hm. unfold Index.build. unfold zmin_key at 1 3. rewrite (hrel_keys m m' Hm). fold (@zmin_key dict m').
  destruct (zmin_key m') as [fd|]; [|discriminate]. destruct (zmin_key om) as [fo|]; [|discriminate].
  pose proof (hrel_zget m m' fd Hm) as Hd. destruct (zget m fd) as [d|], (zget m' fd) as [d'|]; try contradiction; [|discriminate].
  destruct (zget om fo) as [o|]; [|discriminate].
  assert (G : forall vs d d' o acc acc', near d d' -> Forall2 rv_rel acc acc' ->
    match fold_left (build_step fd m om) vs (Some (d, o, acc)), fold_left (build_step fd m' om) vs (Some (d', o, acc')) with
    | Some (_, _, a), Some (_, _, a') => Forall2 rv_rel a a' | None, None => True | _, _ => False end).
  { assert (Hnone : forall m vs, fold_left (build_step fd m om) vs None = None) by (intros m0; induction vs as [|v vs IH]; [reflexivity|exact IH]).
    induction vs as [|v vs IH]; intros x x' o1 acc acc' Hx Ha; [exact Ha|]. cbn [fold_left].
    change (Index.build_step parse peq fd m om (Some (x, o1, acc)) v) with (build_step fd m om (Some (x, o1, acc)) v).
    cbn [Index.build_step]. destruct (v <? fd); [apply IH; assumption|].
    pose proof (hrel_zget m m' v Hm) as Hv.
    assert (Hnx : near (match zget m v with Some y => y | None => x end) (match zget m' v with Some y => y | None => x' end)).
    { destruct (zget m v), (zget m' v); try contradiction; assumption. }
    set (y := match zget m v with Some y => y | None => x end) in *. set (y' := match zget m' v with Some y => y | None => x' end) in *.
    set (o2 := match zget om v with Some z => z | None => o1 end).
    destruct (po_nil K y y' Hnx) as [N1 N2].
    destruct y as [|kv y].
    - rewrite (N1 eq_refl). inversion Ha as [|r r' rest rest' (R1 & R2 & R3) Hr]; subst; [rewrite !Hnone; exact I|].
      apply IH; [specialize (N1 eq_refl); rewrite N1 in Hnx; exact Hnx|]. rewrite <- R2. destruct (rv_del r); [exact Ha|].
      constructor; [|exact Hr]. split; [exact R1|]. split; [reflexivity|exact R3].
    - destruct y' as [|kv' y']; [specialize (N2 eq_refl); discriminate|].
      assert (Hp : prel (parse (kv :: y) o2) (parse (kv' :: y') o2)) by (exists (kv :: y), (kv' :: y'), o2; auto).
      assert (Hdoc : rv_rel (RV v (parse (kv :: y) o2) None) (RV v (parse (kv' :: y') o2) None)) by (split; [reflexivity|split; [reflexivity|exact Hp]]).
      apply IH; [exact Hnx|]. inversion Ha as [|r r' rest rest' (R1 & R2 & R3) Hr]; subst; [constructor; [exact Hdoc|constructor]|].
      unfold rv_eqb. cbn [rv_del rv_parsed]. rewrite <- R2. destruct (rv_del r); [constructor; assumption|].
      rewrite (po_peq K _ _ _ _ R3 Hp). destruct (peq (rv_parsed r') (parse (kv' :: y') o2)); [exact Ha|constructor; assumption]. }
  specialize (G (zsorted_set (zkeys om ++ zkeys m')) d d' o [] [] Hd (Forall2_nil _)).
  destruct (fold_left (build_step fd m om) _ _) as [[[? ?] a]|]; [|discriminate].
  destruct (fold_left (build_step fd m' om) _ _) as [[[? ?] a']|]; [|contradiction].
  intro H. injection H as <-. exists (rev a'). split; [reflexivity|].
  clear -G. induction G as [|x y l l' Hx _ IH]; [constructor|]. cbn. apply Forall2_app; [exact IH|constructor; [exact Hx|constructor]].
Qed.

Lemma rv_docs_rel id rvs rvs' : Forall2 rv_rel rvs rvs' -> Forall2 (deq prel) (rv_docs id rvs) (rv_docs id rvs').
Proof.
  induction 1 as [|r r' l l' (H1 & H2 & H3) Hl IH]; [constructor|]. cbn [rv_docs]. constructor; [|exact IH].
  unfold deq, create_doc, version_end. cbn [e_id e_ver e_end e_parsed]. rewrite <- H2.
  split; [reflexivity|]. split; [exact H1|]. split; [|exact H3].
  destruct (rv_del r); [reflexivity|]. inversion Hl as [|? ? ? ? (K1 & _) _]; subst; [reflexivity|]. cbn. rewrite K1. reflexivity.
Qed.
(** related versions give related operations *)
Definition op_rel (o o' : bop P) : Prop :=
  match o, o' with
  | BIndexLatest i d, BIndexLatest i' d' => i = i' /\ deq prel d d'
  | BDeleteLatest i, BDeleteLatest i' => i = i'
  | BIndexArc n d, BIndexArc n' d' => n = n' /\ deq prel d d'
  | _, _ => False
  end.
Lemma rec_ops_rel after id rvs rvs' : Forall2 rv_rel rvs rvs' -> Forall2 op_rel (rec_ops after id rvs) (rec_ops after id rvs').
Proof.
  induction 1 as [|r r' l l' (H1 & H2 & H3) Hl IH]; [constructor|]. cbn [rec_ops]. rewrite <- H1, <- H2.
  assert (Hh : isNone (hd_error l) = isNone (hd_error l')) by (inversion Hl; reflexivity).
  assert (He : version_end r (hd_error l) = version_end r' (hd_error l')).
  { unfold version_end. rewrite <- H2. destruct (rv_del r); [reflexivity|]. inversion Hl as [|? ? ? ? (K1 & _) _]; subst; [reflexivity|]. cbn. rewrite K1. reflexivity. }
  assert (Hd : deq prel (create_doc id r (hd_error l)) (create_doc id r' (hd_error l'))).
  { unfold deq, create_doc. cbn [e_id e_ver e_end e_parsed]. auto. }
  rewrite <- Hh, <- He. destruct (gt_after after (rv_ver r) && isNone (hd_error l) && isNone (rv_del r)).
  { constructor; [split; [reflexivity|exact Hd]|exact IH]. }
  match goal with |- context [if ?b then rec_ops after id l else _] => destruct b end; [exact IH|].
  apply Forall2_app; [|constructor; [split; [reflexivity|exact Hd]|exact IH]].
  match goal with |- context [if ?b then _ else _] => destruct b end; repeat constructor.
Qed.
Lemma lat_run_rel ops ops' : Forall2 op_rel ops ops' -> forall l l', Forall2 (deq prel) l l' ->
  Forall2 (deq prel) (lat_run l ops) (lat_run l' ops').
Proof.
  induction 1 as [|o o' ops ops' Ho _ IH]; intros l l' Hl; [exact Hl|]. cbn. apply IH.
  destruct o, o'; cbn in Ho |- *; try contradiction; try (constructor; fail); [|exact Hl].
  constructor; [apply Ho|constructor].
Qed.
Lemma arc_adds_rel ops ops' : Forall2 op_rel ops ops' -> Forall2 (deq prel) (arc_adds ops) (arc_adds ops').
Proof.
  unfold arc_adds. induction 1 as [|o o' ops ops' Ho _ IH]; [constructor|]. cbn [flat_map]. apply Forall2_app; [|exact IH].
  destruct o, o'; cbn in Ho |- *; try contradiction; try constructor; [apply Ho|constructor].
Qed.
End Build.
