(** Proofs about RecordVersions.build and generate_index_ops. *)
From Coq Require Import List ZArith NArith Bool Lia Sorted Permutation.
From Verif Require Import PyVal Diff Mongo MongoProofs Index IndexSpec.
Import ListNotations.
Open Scope Z_scope.

(** ** Sorted sets of versions *)
Lemma zins_u_In x l y : In y (zins_u x l) <-> y = x \/ In y l.
Proof.
  induction l as [|z l IH]; cbn; [intuition|]. destruct (Z.ltb_spec x z); [cbn; intuition|].
  destruct (Z.eqb_spec x z); cbn; [subst; intuition|]. rewrite IH. intuition.
Qed.
Lemma zins_u_sorted x l : StronglySorted Z.lt l -> StronglySorted Z.lt (zins_u x l).
Proof.
  induction 1 as [|z l Hs IH Hf]; cbn; [repeat constructor|].
  destruct (Z.ltb_spec x z); [|destruct (Z.eqb_spec x z)].
  - constructor; [constructor; assumption|]. constructor; [exact H|]. eapply Forall_impl; [|exact Hf]. intros; lia.
  - constructor; assumption.
  - constructor; [exact IH|]. rewrite Forall_forall in *. intros y Hy. apply zins_u_In in Hy. destruct Hy as [->|Hy]; [lia|auto].
Qed.
Lemma zsorted_set_In l y : In y (zsorted_set l) <-> In y l.
Proof. induction l as [|x l IH]; cbn; [tauto|]. rewrite zins_u_In, IH. intuition. Qed.
Lemma zsorted_set_sorted l : StronglySorted Z.lt (zsorted_set l).
Proof. induction l as [|x l IH]; cbn; [constructor|apply zins_u_sorted, IH]. Qed.
Lemma sorted_ext l : forall m, StronglySorted Z.lt l -> StronglySorted Z.lt m -> (forall x, In x l <-> In x m) -> l = m.
Proof.
  induction l as [|x l IH]; intros [|y m] Hl Hm H.
  - reflexivity.
  - destruct (proj2 (H y) (or_introl eq_refl)).
  - destruct (proj1 (H x) (or_introl eq_refl)).
  - apply StronglySorted_inv in Hl. apply StronglySorted_inv in Hm. destruct Hl as [Sl Fl], Hm as [Sm Fm].
    rewrite Forall_forall in *.
    assert (x = y).
    { destruct (proj1 (H x) (or_introl eq_refl)) as [E|E]; [congruence|].
      destruct (proj2 (H y) (or_introl eq_refl)) as [E'|E']; [congruence|].
      specialize (Fm x E). specialize (Fl y E'). lia. }
    subst y. f_equal. apply IH; trivial. intro z. split; intro Hz.
    + destruct (proj1 (H z) (or_intror Hz)) as [E|E]; [|exact E]. subst z. specialize (Fl x Hz). lia.
    + destruct (proj2 (H z) (or_intror Hz)) as [E|E]; [|exact E]. subst z. specialize (Fm x Hz). lia.
Qed.
Lemma filter_sorted (f : Z -> bool) l : StronglySorted Z.lt l -> StronglySorted Z.lt (filter f l).
Proof.
  induction 1 as [|x l Hs IH Hf]; cbn; [constructor|]. destruct (f x); [|exact IH]. constructor; [exact IH|].
  rewrite Forall_forall in *. intros y Hy. apply filter_In in Hy. apply Hf, Hy.
Qed.
Lemma sorted_app l m : StronglySorted Z.lt l -> StronglySorted Z.lt m -> (forall x y, In x l -> In y m -> x < y) ->
  StronglySorted Z.lt (l ++ m).
Proof.
  induction 1 as [|x l Hs IH Hf]; intros Hm H; [exact Hm|]. cbn. constructor; [apply IH; [exact Hm|intros; apply H; [right|]; assumption]|].
  apply Forall_app. split; [exact Hf|]. rewrite Forall_forall. intros y Hy. apply H; [left; reflexivity|exact Hy].
Qed.
(** splitting at a moment *)
Lemma sorted_split (t : Z) l : StronglySorted Z.lt l -> l = filter (fun v => v <=? t) l ++ filter (fun v => t <? v) l.
Proof.
  intro Hs. apply sorted_ext; [exact Hs| |].
  - apply sorted_app; [apply filter_sorted, Hs|apply filter_sorted, Hs|].
    intros x y Hx Hy. apply filter_In in Hx, Hy. destruct Hx as [_ Hx], Hy as [_ Hy]. lia.
  - intro x. rewrite in_app_iff, !filter_In. destruct (Z.leb_spec x t), (Z.ltb_spec t x); split; intros; try lia; intuition.
Qed.

(** ** Minimal keys *)
Lemma zmin_key_spec {V} (m : list (Z * V)) k : zmin_key m = Some k -> In k (zkeys m) /\ forall j, In j (zkeys m) -> k <= j.
Proof.
  unfold zmin_key. destruct (zkeys m) as [|a r]; [discriminate|]. intro H. injection H as <-.
  assert (G : forall r a, (In (fold_left Z.min r a) (a :: r)) /\ forall j, In j (a :: r) -> fold_left Z.min r a <= j).
  { clear. induction r as [|b r IH]; intro a; cbn [fold_left].
    - split; [left; reflexivity|]. intros j [->|[]]. lia.
    - destruct (IH (Z.min a b)) as [H1 H2]. split.
      + destruct H1 as [H1|H1]; [|right; right; exact H1]. rewrite <- H1. destruct (Z.min_spec a b) as [[_ ->]|[_ ->]]; cbn; auto.
      + intros j [->|[->|Hj]].
        * specialize (H2 (Z.min j b) (or_introl eq_refl)). lia.
        * specialize (H2 (Z.min a j) (or_introl eq_refl)). lia.
        * apply H2. right; exact Hj. }
  apply G.
Qed.
Lemma zmin_key_None {V} (m : list (Z * V)) : zmin_key m = None -> m = [].
Proof. unfold zmin_key. destruct m as [|[k v] m]; [reflexivity|discriminate]. Qed.
Lemma zget_Some_In {V} (m : list (Z * V)) k : In k (zkeys m) -> exists x, zget m k = Some x.
Proof.
  induction m as [|[j w] m IH]; cbn; [intros []|]. destruct (Z.eqb_spec k j); [eexists; reflexivity|].
  intros [->|H]; [contradiction|exact (IH H)].
Qed.
Lemma zget_In_iff {V} (m : list (Z * V)) k x : NoDup (map fst m) -> (zget m k = Some x <-> In (k, x) m).
Proof.
  induction m as [|[j w] m IH]; cbn; [intuition discriminate|]. intro Hn. inversion Hn as [|? ? Hj Hn']; subst.
  destruct (Z.eqb_spec k j).
  - subst j. split; [intro H; injection H as ->; left; reflexivity|]. intros [H|H]; [injection H as ->; reflexivity|].
    exfalso. apply Hj. apply in_map_iff. exists (k, x). auto.
  - rewrite (IH Hn'). split; [auto|]. intros [H|H]; [injection H as -> _; contradiction|exact H].
Qed.
Lemma zget_None_iff {V} (m : list (Z * V)) k : zget m k = None <-> ~ In k (zkeys m).
Proof.
  split; [|apply zget_None]. intros H K. destruct (zget_Some_In m k K) as (x & E). congruence.
Qed.

(** [in_force] as a lookup *)
Definition cur {V} (m : list (Z * V)) (x : V) (vs : list Z) : V :=
  fold_left (fun x v => match zget m v with Some y => y | None => x end) vs x.
Lemma cur_app {V} (m : list (Z * V)) x a b : cur m x (a ++ b) = cur m (cur m x a) b.
Proof. apply fold_left_app. Qed.
Lemma cur_spec {V} (m : list (Z * V)) x vs : StronglySorted Z.lt vs ->
  (exists v y, In v vs /\ zget m v = Some y /\ cur m x vs = y /\ forall w, In w vs -> zget m w <> None -> w <= v) \/
  ((forall w, In w vs -> zget m w = None) /\ cur m x vs = x).
Proof.
  revert x. induction vs as [|v vs IH]; intros x Hs; [right; split; [intros w []|reflexivity]|].
  apply StronglySorted_inv in Hs. destruct Hs as [Hs Hf]. rewrite Forall_forall in Hf. cbn [cur fold_left].
  change (fold_left (fun x v => match zget m v with Some y => y | None => x end) vs ?z) with (cur m z vs).
  destruct (IH (match zget m v with Some y => y | None => x end) Hs) as [(w & y & H1 & H2 & H3 & H4)|[H1 H2]].
  - left. exists w, y. split; [right; exact H1|]. split; [exact H2|]. split; [exact H3|].
    intros u [->|Hu] Hn; [specialize (Hf w H1); lia|auto].
  - destruct (zget m v) as [y|] eqn:E.
    + left. exists v, y. split; [left; reflexivity|]. split; [exact E|]. split; [exact H2|].
      intros u [->|Hu] Hn; [lia|]. rewrite (H1 u Hu) in Hn. congruence.
    + right. split; [intros w [->|Hw]; auto|exact H2].
Qed.
Lemma cur_in_force {V} (m : list (Z * V)) x vs t : NoDup (map fst m) -> StronglySorted Z.lt vs ->
  (forall v, In v (zkeys m) -> (v <= t <-> In v vs)) ->
  (exists v, In v (zkeys m) /\ v <= t) -> in_force m t (cur m x vs).
Proof.
  intros Hn Hs Hvs (v0 & Hv0 & Hle). destruct (cur_spec m x vs Hs) as [(v & y & H1 & H2 & H3 & H4)|[H1 H2]].
  - exists v. rewrite H3. apply (zget_In_iff m v y Hn) in H2. split; [exact H2|].
    assert (Hk : forall w z, In (w, z) m -> In w (zkeys m)) by (intros w z Hw; apply (in_map fst) in Hw; exact Hw).
    split; [apply (Hvs v (Hk v y H2)), H1|]. intros w z Hw Hwt. apply H4; [apply (Hvs w (Hk w z Hw)), Hwt|].
    apply (zget_In_iff m w z Hn) in Hw. congruence.
  - exfalso. apply (Hvs v0 Hv0) in Hle. specialize (H1 v0 Hle). apply zget_None_iff in H1. contradiction.
Qed.
Lemma in_force_fun {V} (m : list (Z * V)) t x y : NoDup (map fst m) -> in_force m t x -> in_force m t y -> x = y.
Proof.
  intros Hn (v & H1 & H2 & H3) (w & K1 & K2 & K3). assert (v = w).
  { specialize (H3 w y K1 K2). specialize (K3 v x H1 H2). lia. }
  subst w. apply (zget_In_iff m v x Hn) in H1. apply (zget_In_iff m v y Hn) in K1. congruence.
Qed.

Section Build.
Context {O P : Type} (parse : dict -> O -> P) (peq : P -> P -> bool).
Notation rv := (rv P).
Notation build_step := (build_step parse peq).
Notation build := (build parse peq).

(** newest first *)
Fixpoint chain (acc : list rv) : Prop :=
  match acc with
  | [] => True
  | r :: rest => (match rv_del r with Some w => rv_ver r < w | None => True end) /\
      (match rest with
       | [] => True
       | o :: _ => rv_ver o < rv_ver r /\ match rv_del o with Some w => w < rv_ver r | None => True end
       end) /\ chain rest
  end.
Definition bounded (b : Z) (acc : list rv) : Prop :=
  Forall (fun r => rv_ver r <= b /\ match rv_del r with Some w => w <= b | None => True end) acc.
Definition tracks (data : dict) (opts : O) (acc : list rv) : Prop :=
  match acc with
  | [] => False
  | r :: _ => match data with
              | [] => rv_del r <> None
              | _ => rv_del r = None /\ (rv_parsed r = parse data opts \/ peq (rv_parsed r) (parse data opts) = true)
              end
  end.
(** what later rounds do to the list *)
Definition extends (b : Z) (acc acc' : list rv) : Prop :=
  exists new r r' rest, acc = r :: rest /\ acc' = new ++ r' :: rest /\
    rv_ver r' = rv_ver r /\ rv_parsed r' = rv_parsed r /\
    (rv_del r' = rv_del r \/ (rv_del r = None /\ exists w, b < w /\ rv_del r' = Some w)) /\
    Forall (fun n => b < rv_ver n) new.

Lemma extends_refl b acc : acc <> [] -> extends b acc acc.
Proof. destruct acc as [|r rest]; [congruence|]. intros _. exists [], r, r, rest. repeat split; auto. Qed.
Lemma extends_trans b a1 a2 a3 : extends b a1 a2 -> extends b a2 a3 -> extends b a1 a3.
Proof.
  intros (n1 & r1 & r1' & rest1 & -> & -> & V1 & P1 & D1 & F1) (n2 & r2 & r2' & rest2 & E2 & -> & V2 & P2 & D2 & F2).
  destruct n1 as [|x n1]; cbn in E2; injection E2 as <- <-.
  - exists n2, r1, r2', rest1. split; [reflexivity|]. split; [reflexivity|]. split; [congruence|]. split; [congruence|].
    split; [|exact F2]. destruct D1 as [D1|(D1 & w & Hw & D1')].
    + rewrite <- D1. exact D2.
    + right. split; [exact D1|]. exists w. split; [exact Hw|]. destruct D2 as [D2|(D2 & _)]; congruence.
  - exists (n2 ++ r2' :: n1), r1, r1', rest1. split; [reflexivity|]. split; [rewrite <- app_assoc; reflexivity|].
    split; [exact V1|]. split; [exact P1|]. split; [exact D1|]. apply Forall_app. split; [exact F2|].
    inversion F1; subst. constructor; [rewrite V2; assumption|assumption].
Qed.
Lemma extends_weaken b b' acc acc' : b' <= b -> extends b acc acc' -> extends b' acc acc'.
Proof.
  intros Hb (n1 & r1 & r1' & rest1 & -> & -> & V1 & P1 & D1 & F1). exists n1, r1, r1', rest1.
  split; [reflexivity|]. split; [reflexivity|]. split; [exact V1|]. split; [exact P1|]. split.
  - destruct D1 as [D1|(D1 & w & Hw & D1')]; [left; exact D1|right]. split; [exact D1|]. exists w. split; [lia|exact D1'].
  - eapply Forall_impl; [|exact F1]. cbn. intros; lia.
Qed.

Lemma build_step_inv first dm om data opts acc b v :
  first <= v -> b < v -> acc <> [] -> bounded b acc -> chain acc ->
  exists acc', build_step first dm om (Some (data, opts, acc)) v = Some (cur dm data [v], cur om opts [v], acc') /\
    bounded v acc' /\ chain acc' /\ tracks (cur dm data [v]) (cur om opts [v]) acc' /\ extends b acc acc'.
Proof.
  intros Hf Hb Hne Hbd Hch. cbn [Index.build_step cur fold_left].
  destruct (Z.ltb_spec v first) as [K|_]; [lia|].
  set (data' := match zget dm v with Some y => y | None => data end).
  set (opts' := match zget om v with Some y => y | None => opts end).
  destruct acc as [|r rest]; [congruence|].
  assert (Hbw : forall a, bounded b a -> bounded v a).
  { intros a Ha. eapply Forall_impl; [|exact Ha]. cbn. intros x [Hx Hd]. split; [lia|]. destruct (rv_del x); lia. }
  inversion Hbd as [|? ? [Hr1 Hr2] Hrest]; subst. destruct Hch as (C1 & C2 & C3).
  destruct data' as [|kv data''].
  - eexists. split; [reflexivity|]. destruct (rv_del r) as [w|] eqn:Ed.
    + split; [apply Hbw; exact Hbd|]. split; [cbn [chain]; rewrite Ed; auto|]. split; [cbn; congruence|]. apply extends_refl; discriminate.
    + split; [constructor; [cbn; lia|apply Hbw; exact Hrest]|]. split; [cbn [chain rv_del rv_ver]; split; [lia|auto]|].
      split; [cbn; discriminate|]. exists [], r, (RV (rv_ver r) (rv_parsed r) (Some v)), rest. cbn. repeat split; auto.
      right. split; [exact Ed|]. exists v. split; [lia|reflexivity].
  - eexists. split; [reflexivity|]. unfold rv_eqb. cbn [rv_del rv_parsed].
    destruct (rv_del r) as [w|] eqn:Ed.
    + split; [constructor; [cbn; lia|apply Hbw; exact Hbd]|]. split; [cbn [chain rv_del rv_ver]; rewrite Ed; repeat split; auto; lia|].
      split; [cbn; auto|]. exists [RV v (parse (kv :: data'') opts') None], r, r, rest. cbn. repeat split; auto.
    + destruct (peq (rv_parsed r) (parse (kv :: data'') opts')) eqn:Ep.
      * split; [apply Hbw; exact Hbd|]. split; [cbn [chain]; rewrite Ed; auto|]. split; [cbn; auto|]. apply extends_refl; discriminate.
      * split; [constructor; [cbn; lia|apply Hbw; exact Hbd]|]. split; [cbn [chain rv_del rv_ver]; rewrite Ed; repeat split; auto; lia|].
        split; [cbn; auto|]. exists [RV v (parse (kv :: data'') opts') None], r, r, rest. cbn. repeat split; auto.
Qed.

Lemma fold_inv first dm om : forall vs data opts acc b,
  StronglySorted Z.lt vs -> Forall (fun v => first <= v /\ b < v) vs -> acc <> [] -> bounded b acc -> chain acc ->
  tracks data opts acc ->
  exists acc', fold_left (build_step first dm om) vs (Some (data, opts, acc)) = Some (cur dm data vs, cur om opts vs, acc') /\
    (forall b', b <= b' -> Forall (fun v => v <= b') vs -> bounded b' acc') /\ chain acc' /\
    tracks (cur dm data vs) (cur om opts vs) acc' /\ extends b acc acc'.
Proof.
  induction vs as [|v vs IH]; intros data opts acc b Hs Hf Hne Hbd Hch Ht.
  - exists acc. split; [reflexivity|]. split; [|split; [exact Hch|split; [exact Ht|apply extends_refl; exact Hne]]].
    intros b' Hb' _. eapply Forall_impl; [|exact Hbd]. cbn. intros x [Hx Hd]. split; [lia|]. destruct (rv_del x); lia.
  - apply StronglySorted_inv in Hs. destruct Hs as [Hs Hlt]. inversion Hf as [|? ? [Hf1 Hf2] Hf3]; subst.
    destruct (build_step_inv first dm om data opts acc b v Hf1 Hf2 Hne Hbd Hch) as (acc1 & E1 & B1 & C1 & T1 & X1).
    assert (Hne1 : acc1 <> []) by (destruct acc1; [contradiction|discriminate]).
    assert (Hf' : Forall (fun w => first <= w /\ v < w) vs).
    { rewrite Forall_forall in *. intros w Hw. specialize (Hf3 w Hw). specialize (Hlt w Hw). lia. }
    destruct (IH (cur dm data [v]) (cur om opts [v]) acc1 v Hs Hf' Hne1 B1 C1 T1) as (acc2 & E2 & B2 & C2 & T2 & X2).
    exists acc2. cbn [fold_left]. rewrite E1. split; [exact E2|]. split; [|split; [exact C2|split; [exact T2|]]].
    + intros b' Hb' HF. inversion HF; subst. apply B2; [lia|assumption].
    + eapply extends_trans; [exact X1|]. eapply extends_weaken; [|exact X2]. lia.
Qed.

(** the whole run, cut at a moment [t >= fd] *)
Definition versions_of (dm : list (Z * dict)) (om : list (Z * O)) : list Z := zsorted_set (zkeys om ++ zkeys dm).
Lemma fold_skip first dm om st vs : Forall (fun v => v < first) vs -> fold_left (build_step first dm om) vs (Some st) = Some st.
Proof.
  destruct st as [[d o] a]. induction 1 as [|v vs Hv _ IH]; [reflexivity|]. cbn [fold_left Index.build_step].
  destruct (Z.ltb_spec v first); [exact IH|lia].
Qed.

Lemma build_run dm om fd fo d0 o0 : NoDup (map fst dm) -> zmin_key dm = Some fd -> zmin_key om = Some fo ->
  zget dm fd = Some d0 -> zget om fo = Some o0 -> d0 <> [] -> forall vs, StronglySorted Z.lt vs ->
  Forall (fun v => fd < v) vs ->
  let low := filter (fun v => v <? fd) (versions_of dm om) in
  exists acc, fold_left (build_step fd dm om) (low ++ fd :: vs) (Some (d0, o0, [])) =
      Some (cur dm d0 vs, cur om o0 (fd :: vs), acc) /\
    (forall b', fd <= b' -> Forall (fun v => v <= b') vs -> bounded b' acc) /\ chain acc /\
    tracks (cur dm d0 vs) (cur om o0 (fd :: vs)) acc.
Proof.
  intros Hn Efd Efo Ed Eo Hne vs Hs Hf low. rewrite fold_left_app, fold_skip.
  2:{ apply Forall_forall. intros x Hx. apply filter_In in Hx. destruct Hx as [_ Hx]. lia. }
  cbn [fold_left Index.build_step]. rewrite Z.ltb_irrefl, Ed.
  destruct d0 as [|kv d0']; [congruence|].
  set (o1 := match zget om fd with Some o => o | None => o0 end).
  destruct (fold_inv fd dm om vs (kv :: d0') o1 [RV fd (parse (kv :: d0') o1) None] fd Hs) as (acc & E & B & C & T & _).
  - eapply Forall_impl; [|exact Hf]. cbn. intros; lia.
  - discriminate.
  - constructor; [cbn; lia|constructor].
  - cbn. auto.
  - cbn. auto.
  - exists acc. split; [exact E|]. split; [exact B|]. split; [exact C|exact T].
Qed.

Lemma versions_split dm om fd t : In fd (zkeys dm) -> fd <= t ->
  let vs := filter (fun v => fd <? v) (versions_of dm om) in
  versions_of dm om = filter (fun v => v <? fd) (versions_of dm om) ++ fd :: filter (fun v => v <=? t) vs ++ filter (fun v => t <? v) vs.
Proof.
  intros Hin Ht vs. pose proof (zsorted_set_sorted (zkeys om ++ zkeys dm)) as S.
  assert (Sv : StronglySorted Z.lt vs) by (apply filter_sorted, S).
  rewrite <- (sorted_split t vs Sv). apply sorted_ext; [exact S| |].
  - apply sorted_app; [apply filter_sorted, S| |].
    + constructor; [exact Sv|]. apply Forall_forall. intros x Hx. apply filter_In in Hx. destruct Hx as [_ Hx]. lia.
    + intros x y Hx Hy. apply filter_In in Hx. destruct Hx as [_ Hx]. destruct Hy as [<-|Hy]; [lia|].
      apply filter_In in Hy. destruct Hy as [_ Hy]. lia.
  - intro x. rewrite in_app_iff. cbn [In]. unfold vs. rewrite !filter_In.
    assert (Hfd : In fd (versions_of dm om)) by (apply zsorted_set_In, in_or_app; right; exact Hin).
    destruct (Z.ltb_spec x fd), (Z.ltb_spec fd x).
    + lia.
    + intuition; subst; assumption.
    + intuition; subst; assumption.
    + assert (x = fd) by lia. subst x. intuition.
Qed.

(** Everything about the result that the properties need, at a moment [t]. *)
Lemma build_at dm om rvs fd fo d0 o0 : NoDup (map fst dm) -> zmin_key dm = Some fd -> zmin_key om = Some fo ->
  zget dm fd = Some d0 -> zget om fo = Some o0 -> d0 <> [] ->
  build dm om = Some rvs ->
  chain (rev rvs) /\ rvs <> [] /\ (exists r rest, rvs = r :: rest /\ rv_ver r = fd) /\
  forall t, fd <= t ->
   let vs := filter (fun v => v <=? t) (filter (fun v => fd <? v) (versions_of dm om)) in
   exists acc, extends t acc (rev rvs) /\ bounded t acc /\ chain acc /\ tracks (cur dm d0 vs) (cur om o0 (fd :: vs)) acc.
Proof.
  intros Hn Efd Efo Ed Eo Hne H. unfold Index.build in H. rewrite Efd, Efo, Ed, Eo in H.
  fold (versions_of dm om) in H.
  destruct (zmin_key_spec dm fd Efd) as [Hin Hmin].
  assert (G : forall t, fd <= t ->
   let vs := filter (fun v => v <=? t) (filter (fun v => fd <? v) (versions_of dm om)) in
   exists acc, extends t acc (rev rvs) /\ bounded t acc /\ chain acc /\ tracks (cur dm d0 vs) (cur om o0 (fd :: vs)) acc /\ chain (rev rvs)).
  { intros t Ht vs. rewrite (versions_split dm om fd t Hin Ht) in H. cbn zeta in H.
    set (hi := filter (fun v => fd <? v) (versions_of dm om)) in *. fold vs in H.
    assert (Shi : StronglySorted Z.lt hi) by apply filter_sorted, zsorted_set_sorted.
    assert (Svs : StronglySorted Z.lt vs) by apply filter_sorted, Shi.
    destruct (build_run dm om fd fo d0 o0 Hn Efd Efo Ed Eo Hne vs Svs) as (acc & E & B & C & T).
    { apply Forall_forall. intros x Hx. apply filter_In in Hx. destruct Hx as [Hx _]. apply filter_In in Hx. destruct Hx as [_ Hx]. lia. }
    assert (Bt : bounded t acc).
    { apply B; [exact Ht|]. apply Forall_forall. intros x Hx. apply filter_In in Hx. destruct Hx as [_ Hx]. lia. }
    rewrite app_comm_cons, app_assoc, fold_left_app in H. cbn zeta in E. rewrite E in H.
    assert (Hna : acc <> []) by (destruct acc; [contradiction|discriminate]).
    destruct (fold_inv fd dm om (filter (fun v => t <? v) hi) (cur dm d0 vs) (cur om o0 (fd :: vs)) acc t
      (filter_sorted _ _ Shi)) as (acc' & E' & B' & C' & T' & X').
    - apply Forall_forall. intros x Hx. apply filter_In in Hx. destruct Hx as [_ Hx]. lia.
    - exact Hna.
    - exact Bt.
    - exact C.
    - exact T.
    - rewrite E' in H. injection H as <-. rewrite rev_involutive. exists acc. auto. }
  split; [destruct (G fd (Z.le_refl fd)) as (acc & _ & _ & _ & _ & Hc); exact Hc|].
  destruct (G fd (Z.le_refl fd)) as (acc & X & Bd & Ch & T & _). cbn zeta in *.
  assert (Evs : filter (fun v => v <=? fd) (filter (fun v => fd <? v) (versions_of dm om)) = []).
  { clear. induction (versions_of dm om) as [|x l IH]; [reflexivity|]. cbn. destruct (Z.ltb_spec fd x); [|exact IH].
    cbn. destruct (Z.leb_spec x fd); [lia|exact IH]. }
  split.
  { intros ->. destruct X as (n & r & r' & rest & _ & E & _). cbn in E. destruct n; discriminate. }
  split; [|intros t Ht; destruct (G t Ht) as (a & ? & ? & ? & ? & _); exists a; auto].
  (* the first version *)
  rewrite (versions_split dm om fd fd Hin (Z.le_refl fd)) in H. cbn zeta in H. rewrite Evs in H. cbn [app] in H.
  rewrite fold_left_app, fold_skip in H.
  2:{ apply Forall_forall. intros x Hx. apply filter_In in Hx. destruct Hx as [_ Hx]. lia. }
  cbn [fold_left Index.build_step] in H. rewrite Z.ltb_irrefl, Ed in H. destruct d0 as [|kv d0']; [congruence|].
  set (o1 := match zget om fd with Some o => o | None => o0 end) in *.
  set (hi := filter (fun v => fd <? v) (versions_of dm om)) in *.
  assert (Shi : StronglySorted Z.lt hi) by apply filter_sorted, zsorted_set_sorted.
  destruct (fold_inv fd dm om (filter (fun v => fd <? v) hi) (kv :: d0') o1 [RV fd (parse (kv :: d0') o1) None] fd
    (filter_sorted _ _ Shi)) as (acc' & E' & _ & _ & _ & X').
  - apply Forall_forall. intros x Hx. apply filter_In in Hx. destruct Hx as [_ Hx]. lia.
  - discriminate.
  - constructor; [cbn; lia|constructor].
  - cbn. auto.
  - cbn. auto.
  - rewrite E' in H. injection H as <-. destruct X' as (n & r & r' & rest & E & -> & V & _). injection E as <- <-.
    rewrite rev_app_distr. cbn [rev]. rewrite <- app_assoc. cbn. exists r', (rev n). split; [reflexivity|exact V].
Qed.

Lemma build_total dm om : hist_ok dm -> om <> [] -> exists rvs, build dm om = Some rvs.
Proof.
  intros [Hn (x & (v & Hv & Hmin) & Hx)] Ho.
  destruct (zmin_key dm) as [fd|] eqn:Efd; [|apply zmin_key_None in Efd; subst; contradiction].
  destruct (zmin_key om) as [fo|] eqn:Efo; [|apply zmin_key_None in Efo; congruence].
  destruct (zmin_key_spec dm fd Efd) as [Hin Hm]. destruct (zmin_key_spec om fo Efo) as [Hino _].
  destruct (zget_Some_In om fo Hino) as (o0 & Eo).
  assert (fd = v).
  { apply in_map_iff in Hin. destruct Hin as ([k y] & E & Hin). cbn in E. subst k. specialize (Hmin fd y Hin).
    specialize (Hm v ltac:(apply (in_map fst) in Hv; exact Hv)). lia. }
  subst v. assert (Ed : zget dm fd = Some x) by (apply (zget_In_iff dm fd x Hn); exact Hv).
  unfold Index.build. rewrite Efd, Efo, Ed, Eo. fold (versions_of dm om).
  rewrite (versions_split dm om fd fd Hin (Z.le_refl fd)). cbn zeta.
  set (hi := filter (fun v => fd <? v) (versions_of dm om)).
  rewrite <- (sorted_split fd hi) by apply filter_sorted, zsorted_set_sorted.
  destruct (build_run dm om fd fo x o0 Hn Efd Efo Ed Eo Hx hi) as (acc & E & _).
  - apply filter_sorted, zsorted_set_sorted.
  - apply Forall_forall. intros y Hy. apply filter_In in Hy. destruct Hy as [_ Hy]. lia.
  - cbn zeta in E. rewrite E. eexists; reflexivity.
Qed.
Lemma hist_ok_first dm : hist_ok dm -> exists fd d0, zmin_key dm = Some fd /\ zget dm fd = Some d0 /\ d0 <> [] /\ earliest dm d0.
Proof.
  intros [Hn (x & (v & Hv & Hmin) & Hx)].
  destruct (zmin_key dm) as [fd|] eqn:Efd; [|apply zmin_key_None in Efd; subst; contradiction].
  destruct (zmin_key_spec dm fd Efd) as [Hin Hm].
  assert (fd = v).
  { apply in_map_iff in Hin. destruct Hin as ([k y] & E & Hin). cbn in E. subst k. specialize (Hmin fd y Hin).
    specialize (Hm v ltac:(apply (in_map fst) in Hv; exact Hv)). lia. }
  subst v. exists fd, x. split; [reflexivity|]. split; [apply (zget_In_iff dm fd x Hn); exact Hv|]. split; [exact Hx|].
  exists fd. auto.
Qed.

(** ** documents *)
Lemma rv_docs_app id (a b : list rv) : rv_docs id (a ++ b) =
  match b with [] => rv_docs id a | r :: _ =>
    (fix go (l : list rv) := match l with [] => [] | x :: t => create_doc id x (hd_error (t ++ b)) :: go t end) a ++ rv_docs id b end.
Proof.
  induction a as [|x a IH]; cbn; [destruct b; reflexivity|]. rewrite IH. destruct b as [|r b]; [rewrite app_nil_r; reflexivity|reflexivity].
Qed.
Lemma rv_docs_length id (l : list rv) : length (rv_docs id l) = length l.
Proof. induction l; cbn; congruence. Qed.
Lemma rv_docs_nth id (l : list rv) i d : nth_error (rv_docs id l) i = Some d ->
  exists r, nth_error l i = Some r /\ d = create_doc id r (nth_error l (S i)).
Proof.
  revert i. induction l as [|x l IH]; intros [|i] H; cbn in H; try discriminate.
  - injection H as <-. exists x. split; [reflexivity|]. cbn. destruct l; reflexivity.
  - exact (IH i H).
Qed.
Lemma rv_docs_nth' id (l : list rv) i r : nth_error l i = Some r ->
  nth_error (rv_docs id l) i = Some (create_doc id r (nth_error l (S i))).
Proof.
  revert i. induction l as [|x l IH]; intros [|i] H; cbn in H |- *; try discriminate.
  - injection H as ->. destruct l; reflexivity.
  - exact (IH i H).
Qed.

(** which document of the final list is valid at [t], knowing the list as of [t] *)
Lemma covers_at t acc rvs id : extends t acc (rev rvs) -> bounded t acc -> chain acc -> chain (rev rvs) ->
  exists r rest new r', acc = r :: rest /\ rvs = rev rest ++ r' :: rev new /\
   forall i d, nth_error (rv_docs id rvs) i = Some d ->
    (covers d t <-> i = length rest /\ rv_del r = None) /\
    (i = length rest -> e_parsed d = rv_parsed r /\ e_ver d = rv_ver r).
Proof.
  intros (new & r & r' & rest & Ea & Er & V & Pp & D & F) Bd Ch Ch'. exists r, rest, new, r'. split; [exact Ea|].
  assert (Ervs : rvs = rev rest ++ r' :: rev new).
  { rewrite <- (rev_involutive rvs), Er, rev_app_distr. cbn. rewrite <- app_assoc. reflexivity. }
  split; [exact Ervs|]. intros i d Hd. subst acc. inversion Bd as [|? ? [Br1 Br2] Brest]; subst x l.
  apply rv_docs_nth in Hd. destruct Hd as (x & Hx & ->). unfold covers, create_doc. cbn [e_ver e_end e_parsed].
  rewrite Ervs in Hx |- *.
  destruct (Nat.lt_trichotomy i (length rest)) as [Hi|[Hi|Hi]].
  - (* an older version: ended at or before t *)
    split; [|intro; lia]. split; [|intros [? _]; lia]. intros [_ Hend]. exfalso.
    rewrite nth_error_app1 in Hx by (rewrite rev_length; exact Hi).
    assert (Hxin : In x rest) by (apply in_rev, (nth_error_In _ i), Hx).
    assert (Hnext : exists y, nth_error (rev rest ++ r' :: rev new) (S i) = Some y /\ rv_ver y <= t).
    { destruct (Nat.eq_dec (S i) (length rest)) as [E|E].
      - rewrite nth_error_app2 by (rewrite rev_length; lia). rewrite rev_length, E, Nat.sub_diag. exists r'. cbn. split; [reflexivity|lia].
      - rewrite nth_error_app1 by (rewrite rev_length; lia).
        destruct (nth_error (rev rest) (S i)) as [y|] eqn:Ey; [|apply nth_error_None in Ey; rewrite rev_length in Ey; lia].
        exists y. split; [reflexivity|]. apply nth_error_In, in_rev in Ey. rewrite Forall_forall in Brest. apply (Brest y Ey). }
    destruct Hnext as (y & Ey & Hy). rewrite Ey in Hend. unfold version_end in Hend.
    rewrite Forall_forall in Brest. destruct (Brest x Hxin) as [_ Hdx]. destruct (rv_del x); lia.
  - (* the version that was last at t *)
    subst i. rewrite nth_error_app2 in Hx by (rewrite rev_length; lia). rewrite rev_length, Nat.sub_diag in Hx. cbn in Hx.
    injection Hx as <-. rewrite nth_error_app2 by (rewrite rev_length; lia). rewrite rev_length.
    replace (S (length rest) - length rest)%nat with 1%nat by lia. cbn [nth_error].
    split; [|intros _; auto].
    assert (Hnew : match rev new with n :: _ => t < rv_ver n | [] => True end).
    { destruct (rev new) as [|n ns] eqn:En; [exact I|]. rewrite Forall_forall in F. apply F, in_rev. rewrite En. left; reflexivity. }
    unfold version_end. rewrite V. split.
    + intros [_ Hend]. split; [reflexivity|]. destruct D as [D|(D & _)]; [|exact D].
      rewrite <- D. destruct (rv_del r') as [w|]; [|reflexivity]. rewrite <- D in Br2. lia.
    + intros [_ Hd]. split; [exact Br1|]. destruct D as [D|(D & w & Hw & D')].
      * rewrite D, Hd. destruct (rev new) as [|n ns]; [exact I|exact Hnew].
      * rewrite D'. exact Hw.
  - (* a later version *)
    split; [|intro; lia]. split; [|intros [? _]; lia]. intros [Hv _]. exfalso.
    rewrite nth_error_app2 in Hx by (rewrite rev_length; lia). rewrite rev_length in Hx.
    destruct (i - length rest)%nat as [|k] eqn:Ek; [lia|]. cbn in Hx. apply nth_error_In, in_rev in Hx.
    rewrite Forall_forall in F. specialize (F x Hx). lia.
Qed.
End Build.
