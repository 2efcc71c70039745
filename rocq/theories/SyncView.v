(** What the documents of a record in the indices say about its history. *)
From Coq Require Import List ZArith NArith Bool Lia Sorted Permutation.
From Verif Require Import PyVal Diff DiffProofs Prepare Mongo Store MongoProofs MongoStore MongoMore PropsMongo Client ClientProofs.
From Verif Require Import Index IndexSpec IndexProofs PropsIndex Sync SyncSpec SyncProofs SyncBuild SyncColl SyncTrace.
Import ListNotations.
Open Scope Z_scope.

(** The data of the newest version. *)
Definition now_data (h : list (Z * dict)) (x : dict) : Prop :=
  exists v, In (v, x) h /\ forall w y, In (w, y) h -> w <= v.

Section View.
Context {O P : Type} (parse : dict -> O -> P) (peq : P -> P -> bool) (E : P -> P -> Prop).

(** The indices [D] show the history [h] of the record [id] under the options [om]: its documents in
    latest are open, those in the arcs closed; no two cover the same moment, and a moment is covered iff
    the record has data then; the parsed data is that of the data then under the options used then.
    Latest has exactly one document if the newest version has data, none otherwise. *)
Definition record_indexed (D : docs P) (id : pystr) (h : list (Z * dict)) (om : list (Z * O)) : Prop :=
  let all := lat_of id D ++ arc_of id D in
  (forall d, In d (lat_of id D) -> e_end d = None) /\
  (forall d, In d (arc_of id D) -> e_end d <> None) /\
  (forall d, In d all -> e_id d = id /\ match e_end d with Some w => e_ver d < w | None => True end) /\
  (forall i j d d' t, nth_error all i = Some d -> nth_error all j = Some d' -> covers d t -> covers d' t -> i = j) /\
  (forall t, (exists d, In d all /\ covers d t) <-> (exists x, in_force h t x /\ x <> [])) /\
  (forall d t x o fd, In d all -> covers d t -> in_force h t x -> zmin_key h = Some fd -> options_used om fd t o ->
     exists q, E (e_parsed d) q /\ (q = parse x o \/ peq q (parse x o) = true)) /\
  ((exists x, now_data h x /\ x <> []) -> exists d, lat_of id D = [d]) /\
  ((forall x, now_data h x -> x = []) -> lat_of id D = []).

(** specification or proof device; models no code of its own *)
Definition apart (d d' : esdoc P) : Prop := forall t, covers d t -> covers d' t -> False.
Lemma nth_apart (l : list (esdoc P)) :
  (forall i j d d' t, nth_error l i = Some d -> nth_error l j = Some d' -> covers d t -> covers d' t -> i = j) <->
  ForallOrdPairs apart l.
Proof.
  split.
  - induction l as [|x l IH]; intro H; [constructor|]. constructor.
    + apply Forall_forall. intros y Hy t C1 C2. apply In_nth_error in Hy. destruct Hy as (j & Hj).
      specialize (H 0%nat (S j) x y t eq_refl Hj C1 C2). discriminate.
    + apply IH. intros i j d d' t Hi Hj C1 C2. specialize (H (S i) (S j) d d' t Hi Hj C1 C2). congruence.
  - induction 1 as [|x l Hx _ IH]; intros i j d d' t Hi Hj C1 C2; [destruct i; discriminate|].
    rewrite Forall_forall in Hx. destruct i as [|i], j as [|j]; cbn in Hi, Hj.
    + reflexivity.
    + injection Hi as <-. exfalso. exact (Hx d' (nth_error_In _ _ Hj) t C1 C2).
    + injection Hj as <-. exfalso. exact (Hx d (nth_error_In _ _ Hi) t C2 C1).
    + f_equal. exact (IH i j d d' t Hi Hj C1 C2).
Qed.
Lemma apart_perm l l' : Permutation l l' -> ForallOrdPairs apart l -> ForallOrdPairs apart l'.
Proof.
  assert (Sy : forall a b, apart a b -> apart b a) by (intros a b H t C1 C2; exact (H t C2 C1)).
  induction 1 as [|x l l' Pl IH|x y l|l l1 l' _ IH1 _ IH2]; intro H; auto.
  - inversion H as [|? ? H1 H2]; subst. constructor; [|apply IH, H2]. rewrite Forall_forall in *. intros z Hz. apply H1.
    apply (Permutation_in z (Permutation_sym Pl)), Hz.
  - inversion H as [|? ? H1 H2]; subst. inversion H2 as [|? ? H3 H4]; subst. inversion H1 as [|? ? H5 H6]; subst.
    constructor; [constructor; [apply Sy; exact H5|exact H3]|]. constructor; assumption.
Qed.
Lemma apart_deq l l' : Forall2 (deq E) l l' -> ForallOrdPairs apart l' -> ForallOrdPairs apart l.
Proof.
  assert (C : forall d d' t, deq E d d' -> covers d t -> covers d' t).
  { intros d d' t (_ & H1 & H2 & _). unfold covers. rewrite H1, H2. auto. }
  induction 1 as [|x y l l' Hxy Hl IH]; intro H; [constructor|]. inversion H as [|? ? H1 H2]; subst. constructor; [|apply IH, H2].
  clear IH H H2. induction Hl as [|u w l l' Huw _ IH]; [constructor|]. inversion H1 as [|? ? H3 H4]; subst. constructor; [|apply IH, H4].
  intros t C1 C2. exact (H3 t (C _ _ _ Hxy C1) (C _ _ _ Huw C2)).
Qed.
Lemma open_closed_perm (l : list (esdoc P)) : Permutation (filter is_open l ++ filter is_closed l) l.
Proof.
  induction l as [|x l IH]; [constructor|]. cbn [filter]. unfold is_closed at 1. destruct (is_open x); cbn [negb].
  - cbn [app]. constructor. exact IH.
  - apply Permutation_sym, Permutation_cons_app, Permutation_sym, IH.
Qed.

Lemma docs_indexed D id h om : same_docs E (lat_of id D) (filter is_open (record_docs parse peq h om id)) ->
  same_docs E (arc_of id D) (filter is_closed (record_docs parse peq h om id)) ->
  (h = [] \/ hist_ok h) -> (h <> [] -> om <> []) -> NoDup (map fst om) -> record_indexed D id h om.
Proof.
  intros (l1 & P1 & F1) (l2 & P2 & F2) Hh Ho Hn.
  destruct Hh as [->|Hh].
  { cbn in F1, F2. inversion F1; subst. inversion F2; subst. apply Permutation_sym in P1, P2. apply Permutation_nil in P1, P2.
    unfold record_indexed. rewrite P1, P2. cbn. split; [intros ? []|]. split; [intros ? []|]. split; [intros ? []|].
    split; [intros [|i] j d d' t Hi; discriminate|].
    split; [intro t; split; [intros (d & [] & _)|intros (x & (v & [] & _) & _)]|]. split; [intros d t x o fd []|]. split; [|reflexivity].
    intros (x & (v & [] & _) & _). }
  assert (Hne : h <> []) by (destruct Hh as (_ & x & (v & Hv & _) & _); intros ->; contradiction).
  destruct (C23_documents_cover_life parse peq h om id Hh (Ho Hne)) as (rvs & Eb & Hu & Hc & Hd). cbn zeta in Hu, Hc, Hd.
  unfold SyncSpec.record_docs in F1, F2. rewrite Eb in F1, F2. set (T := rv_docs id rvs) in *.
  assert (F : Forall2 (deq E) (l1 ++ l2) (filter is_open T ++ filter is_closed T)) by (apply Forall2_app; assumption).
  assert (Pa : Permutation (lat_of id D ++ arc_of id D) (l1 ++ l2)) by (apply Permutation_app; assumption).
  assert (In1 : forall d, In d (lat_of id D ++ arc_of id D) -> exists d', In d' T /\ deq E d d').
  { intros d H. apply (Permutation_in d Pa) in H.
    destruct (same_docs_In E (l1 ++ l2) _ (ex_intro _ _ (conj (Permutation_refl _) F))) as [K _]. destruct (K d H) as (y & Hy & Q).
    exists y. split; [apply (Permutation_in y (open_closed_perm T)), Hy|exact Q]. }
  assert (In2 : forall d', In d' T -> exists d, In d (lat_of id D ++ arc_of id D) /\ deq E d d').
  { intros d' H. apply (Permutation_in d' (Permutation_sym (open_closed_perm T))) in H.
    destruct (same_docs_In E (l1 ++ l2) _ (ex_intro _ _ (conj (Permutation_refl _) F))) as [_ K]. destruct (K d' H) as (y & Hy & Q).
    exists y. split; [apply (Permutation_in y (Permutation_sym Pa)), Hy|exact Q]. }
  assert (Cov : forall d d' t, deq E d d' -> (covers d t <-> covers d' t)).
  { intros d d' t (_ & H1 & H2 & _). unfold covers. rewrite H1, H2. tauto. }
  assert (L1 : forall d, In d (lat_of id D) -> e_end d = None).
  { intros d H. apply (Permutation_in d P1) in H.
    destruct (same_docs_In E l1 _ (ex_intro _ _ (conj (Permutation_refl _) F1))) as [K _]. destruct (K d H) as (y & Hy & (_ & _ & Q & _)).
    apply filter_In in Hy. destruct Hy as [_ Hy]. rewrite Q. unfold is_open in Hy. destruct (e_end y); [discriminate|reflexivity]. }
  assert (AP : ForallOrdPairs apart (lat_of id D ++ arc_of id D)).
  { apply (apart_perm (l1 ++ l2)); [apply Permutation_sym, Pa|]. apply (apart_deq _ _ F). apply (apart_perm T); [apply Permutation_sym, open_closed_perm|].
    apply nth_apart. exact Hu. }
  split; [exact L1|]. split.
  { intros d H. apply (Permutation_in d P2) in H.
    destruct (same_docs_In E l2 _ (ex_intro _ _ (conj (Permutation_refl _) F2))) as [K _]. destruct (K d H) as (y & Hy & (_ & _ & Q & _)).
    apply filter_In in Hy. destruct Hy as [_ Hy]. rewrite Q. unfold is_closed, is_open in Hy. destruct (e_end y); discriminate. }
  split. { intros d H. destruct (In1 d H) as (d' & Hd' & (Q1 & Q2 & Q3 & _)). rewrite Q1, Q2, Q3. apply Hd, Hd'. }
  split. { apply nth_apart. exact AP. }
  assert (Cv : forall t, (exists d, In d (lat_of id D ++ arc_of id D) /\ covers d t) <-> (exists x, in_force h t x /\ x <> [])).
  { intro t. rewrite <- Hc. split.
    - intros (d & H & C). destruct (In1 d H) as (d' & Hd' & Q). exists d'. split; [exact Hd'|]. apply (Cov d d' t Q), C.
    - intros (d' & H & C). destruct (In2 d' H) as (d & Hd' & Q). exists d. split; [exact Hd'|]. apply (Cov d d' t Q), C. }
  split; [exact Cv|]. split.
  { intros d t x o fd H C Hx Hfd Hou. destruct (In1 d H) as (d' & Hd' & Q). exists (e_parsed d'). split; [apply Q|].
    apply (C24_options_used_exact parse peq h om id rvs fd d' t x o Hh Hn Eb Hfd Hd'); [apply (Cov d d' t Q), C|exact Hx|exact Hou]. }
  (* latest *)
  set (big := fold_right Z.max 0 (map fst h ++ map (fun d => match e_end d with Some w => w | None => e_ver d end) (lat_of id D ++ arc_of id D))).
  assert (Big : (forall v x, In (v, x) h -> v <= big) /\ (forall d, In d (lat_of id D ++ arc_of id D) -> e_ver d <= big /\ match e_end d with Some w => w <= big | None => True end)).
  { assert (G : forall l z, In z l -> z <= fold_right Z.max 0 l).
    { induction l as [|y l IH]; intros z []; cbn; [subst; lia|]. specialize (IH z H). lia. }
    split.
    - intros v x Hv. apply G. apply in_or_app. left. apply (in_map fst) in Hv. exact Hv.
    - intros d Hd'. assert (K : match e_end d with Some w => w | None => e_ver d end <= big).
      { apply G. apply in_or_app. right. apply (in_map (fun d => match e_end d with Some w => w | None => e_ver d end)) in Hd'. exact Hd'. }
      destruct (In1 d Hd') as (d' & Hd2 & (_ & Q2 & Q3 & _)). destruct (Hd d' Hd2) as [_ K2]. rewrite <- Q2, <- Q3 in K2.
      destruct (e_end d); lia. }
  destruct Big as [Big1 Big2].
  assert (Hnow : forall x, now_data h x <-> in_force h big x).
  { intro x. split.
    - intros (v & Hv & Hm). exists v. split; [exact Hv|]. split; [exact (Big1 v x Hv)|]. intros w y Hw _. exact (Hm w y Hw).
    - intros (v & Hv & _ & Hm). exists v. split; [exact Hv|]. intros w y Hw. exact (Hm w y Hw (Big1 w y Hw)). }
  assert (Hlat : forall d, In d (lat_of id D ++ arc_of id D) -> covers d big -> In d (lat_of id D)).
  { intros d H [_ C]. apply in_app_or in H. destruct H as [H|H]; [exact H|]. exfalso.
    assert (In d (lat_of id D ++ arc_of id D)) by (apply in_or_app; right; exact H).
    destruct (Big2 d H0) as [_ B]. apply (Permutation_in d P2) in H.
    destruct (same_docs_In E l2 _ (ex_intro _ _ (conj (Permutation_refl _) F2))) as [K _]. destruct (K d H) as (y & Hy & (_ & _ & Q & _)).
    apply filter_In in Hy. destruct Hy as [_ Hy]. unfold is_closed, is_open in Hy. rewrite <- Q in Hy. destruct (e_end d); [lia|discriminate]. }
  assert (Hlat2 : forall d, In d (lat_of id D) -> covers d big).
  { intros d H. split; [apply Big2, in_or_app; left; exact H|]. rewrite (L1 d H). exact I. }
  split.
  - intros (x & Hx & Nx). apply Hnow in Hx. destruct (proj2 (Cv big) (ex_intro _ x (conj Hx Nx))) as (d & H & C).
    pose proof (Hlat d H C) as Hl. clear - AP Hl Hlat2. destruct (lat_of id D) as [|a [|b l]]; [contradiction|exists a; reflexivity|exfalso].
    inversion AP as [|? ? A1 _]; subst. inversion A1 as [|? ? A2 _]; subst.
    exact (A2 big (Hlat2 a ltac:(left; reflexivity)) (Hlat2 b ltac:(right; left; reflexivity))).
  - intro Hx. destruct (lat_of id D) as [|a l] eqn:El; [reflexivity|exfalso].
    destruct (proj1 (Cv big)) as (x & Hfx & Nx).
    { exists a. split; [left; reflexivity|]. apply Hlat2. left. reflexivity. }
    apply Nx, Hx, Hnow, Hfx.
Qed.
Lemma holds_indexed D T0 id h om : holds E D T0 -> T0 id = record_docs parse peq h om id ->
  (h = [] \/ hist_ok h) -> (h <> [] -> om <> []) -> NoDup (map fst om) -> record_indexed D id h om.
Proof. intros HD HT. destruct (HD id) as [H1 H2]. rewrite HT in H1, H2. apply docs_indexed; assumption. Qed.
End View.

Lemma zset_nodup {V} (m : list (Z * V)) k x : NoDup (map fst m) -> NoDup (map fst (zset m k x)).
Proof.
  assert (K : forall (m : list (Z * V)) j, In j (map fst (zset m k x)) -> In j (map fst m) \/ j = k).
  { induction m0 as [|[i y] m0 IH]; intros j; cbn; [intuition|]. destruct (Z.eqb_spec k i); cbn; [tauto|]. intros [H|H]; [tauto|]. apply IH in H. tauto. }
  induction m as [|[i y] m IH]; intro H; cbn; [repeat constructor; intros []|].
  inversion H as [|? ? H1 H2]; subst. destruct (Z.eqb_spec k i) as [->|Hk]; cbn; constructor; auto.
  intro Hi. apply K in Hi. destruct Hi as [Hi|Hi]; [contradiction|congruence].
Qed.
Lemma get_options_nodup {O} (cl : client O) name : NoDup (map fst (get_options cl name)).
Proof.
  unfold get_options. assert (G : forall (l : list (odoc O)) m, NoDup (map fst m) -> NoDup (map fst (fold_left (fun m d => match od_ver d with
     | Some v => if str_eqb (od_name d) name then zset m v (od_opts d) else m | None => m end) l m))).
  { induction l as [|d l IH]; intros m H; [exact H|]. cbn [fold_left]. apply IH. destruct (od_ver d); [|exact H]. destruct (str_eqb _ _); [apply zset_nodup|]; exact H. }
  apply G. constructor.
Qed.
