(** Properties C23, C24: the documents of one record. *)
From Coq Require Import String Ascii.
From Coq Require Import List ZArith NArith Bool Lia Sorted.
From Verif Require Import PyVal Diff Mongo MongoProofs Index IndexSpec IndexProofs.
Import ListNotations.
Open Scope string_scope.
Open Scope list_scope.
Open Scope nat_scope.

Section Props.
Context {O P : Type} (parse : dict -> O -> P) (peq : P -> P -> bool).

(** ** C23 *)
(** For every record history and non-empty set of options [build] succeeds; its documents have
    pairwise disjoint ranges, and a moment is covered iff the record then has data. *)
Theorem C23_documents_cover_life : forall (h : list (Z * dict)) (opts : list (Z * O)) (id : pystr),
  hist_ok h -> opts <> [] ->
  exists rvs, build parse peq h opts = Some rvs /\
    let docs := rv_docs id rvs in
    (forall i j d d' t, nth_error docs i = Some d -> nth_error docs j = Some d' ->
       covers d t -> covers d' t -> i = j) /\
    (forall t, (exists d, In d docs /\ covers d t) <-> (exists x, in_force h t x /\ x <> [])) /\
    (forall d, In d docs -> e_id d = id /\ match e_end d with Some e => (e_ver d < e)%Z | None => True end).
Proof.
  intros h opts id Hh Ho. destruct (build_total parse peq h opts Hh Ho) as (rvs & E). exists rvs. split; [exact E|].
  destruct (hist_ok_first h Hh) as (fd & d0 & Efd & Ed & Hd0 & _). destruct Hh as [Hn _].
  destruct (zmin_key opts) as [fo|] eqn:Efo; [|apply zmin_key_None in Efo; congruence].
  destruct (zmin_key_spec opts fo Efo) as [Hino _]. destruct (zget_Some_In opts fo Hino) as (o0 & Eo).
  destruct (build_at parse peq h opts rvs fd fo d0 o0 Hn Efd Efo Ed Eo Hd0 E) as (Hch & _ & (r1 & rest1 & Erv & Vr1) & Hat).
  destruct (zmin_key_spec h fd Efd) as [Hin Hmin].
  assert (Hver : forall d, In d (rv_docs id rvs) -> (fd <= e_ver d)%Z /\ e_id d = id /\ match e_end d with Some e => (e_ver d < e)%Z | None => True end).
  { intros d Hd. apply In_nth_error in Hd. destruct Hd as (i & Hi). apply rv_docs_nth in Hi. destruct Hi as (r & Hr & ->).
    cbn [create_doc e_ver e_id e_end].
    assert (G : forall l : list (rv P), chain (rev l) -> forall i r, nth_error l i = Some r ->
      (rv_ver (hd r l) <= rv_ver r)%Z /\ (match rv_del r with Some w => (rv_ver r < w)%Z | None => True end) /\
      (match nth_error l (S i) with Some n => (rv_ver r < rv_ver n)%Z | None => True end)).
    { clear. intros l. rewrite <- (rev_involutive l). generalize (rev l) as a. clear l. intros a. rewrite rev_involutive.
      induction a as [|x a IH]; intros Hc i r Hr; [destruct i; discriminate|]. cbn [rev] in Hr |- *.
      destruct Hc as (C1 & C2 & C3).
      destruct (Nat.lt_ge_cases i (length (rev a))) as [Hi|Hi].
      - rewrite nth_error_app1 in Hr by exact Hi. destruct (IH C3 i r Hr) as (H1 & H2 & H3). split; [|split; [exact H2|]].
        + destruct (rev a) as [|y ys]; [destruct i; discriminate|exact H1].
        + destruct (Nat.eq_dec (S i) (length (rev a))) as [E|E].
          * rewrite nth_error_app2 by lia. rewrite E, Nat.sub_diag. cbn.
            destruct a as [|y a]; [destruct i; discriminate|]. destruct C2 as [C2 _]. cbn [rev] in Hr, E.
            rewrite app_length in E. cbn in E. rewrite nth_error_app2 in Hr by lia. replace (i - length (rev a)) with 0 in Hr by lia.
            injection Hr as <-. exact C2.
          * rewrite nth_error_app1 by lia. exact H3.
      - rewrite nth_error_app2 in Hr by exact Hi. destruct (i - length (rev a)) as [|k] eqn:Ek; [|destruct k; discriminate].
        injection Hr as <-. split; [|split; [exact C1|]].
        + destruct (rev a) as [|y ys] eqn:Er; [cbn; lia|]. cbn [hd app].
          destruct a as [|z a]; [discriminate|]. destruct C2 as [C2 _]. 
          assert (Hz : nth_error (rev (z :: a)) (length a) = Some z).
          { cbn [rev]. rewrite nth_error_app2 by (rewrite rev_length; lia). rewrite rev_length, Nat.sub_diag. reflexivity. }
          rewrite Er in Hz. destruct (IH C3 (length a) z Hz) as (H1 & _). cbn [hd] in H1. lia.
        + replace (nth_error (rev a ++ [x]) (S i)) with (@None (rv P)); [exact I|]. symmetry. apply nth_error_None.
          rewrite app_length. cbn. lia. }
    destruct (G rvs Hch i r Hr) as (G1 & G2 & G3). rewrite Erv in G1. cbn [hd] in G1. rewrite Vr1 in G1.
    split; [exact G1|]. split; [reflexivity|]. unfold version_end. destruct (rv_del r) as [w|]; [exact G2|].
    destruct (nth_error rvs (S i)) as [n|]; [exact G3|exact I]. }
  assert (Hbefore : forall t d, (t < fd)%Z -> In d (rv_docs id rvs) -> ~ covers d t).
  { intros t d Ht Hd [K _]. destruct (Hver d Hd). lia. }
  cbn zeta. split; [|split].
  - intros i j d d' t Hi Hj Hc Hc'. destruct (Z.lt_ge_cases t fd) as [Ht|Ht].
    + exfalso. exact (Hbefore t d Ht (nth_error_In _ _ Hi) Hc).
    + destruct (Hat t Ht) as (acc & X & B & C & T).
      destruct (covers_at t acc rvs id X B C Hch) as (r & rest & new & r' & Ea & Er & G).
      apply (proj1 (G i d Hi)) in Hc. apply (proj1 (G j d' Hj)) in Hc'. destruct Hc, Hc'. congruence.
  - intro t. destruct (Z.lt_ge_cases t fd) as [Ht|Ht].
    { split.
      - intros (d & Hd & Hc). exfalso. exact (Hbefore t d Ht Hd Hc).
      - intros (x & (v & Hv & Hle & _) & _). exfalso. specialize (Hmin v ltac:(apply (in_map fst) in Hv; exact Hv)). lia. }
    destruct (Hat t Ht) as (acc & X & B & C & T).
    destruct (covers_at t acc rvs id X B C Hch) as (r & rest & new & r' & Ea & Er & G).
    set (vs := filter (fun v => (v <=? t)%Z) (filter (fun v => (fd <? v)%Z) (versions_of h opts))) in *.
    assert (Hin_force : in_force h t (cur h d0 vs)).
    { replace (cur h d0 vs) with (cur h d0 (fd :: vs)) by (unfold cur; cbn [fold_left]; rewrite Ed; reflexivity).
      apply cur_in_force; [exact Hn| | |].
      - constructor; [apply filter_sorted, filter_sorted, zsorted_set_sorted|]. apply Forall_forall. intros v Hv.
        apply filter_In in Hv. destruct Hv as [Hv _]. apply filter_In in Hv. destruct Hv as [_ Hv]. lia.
      - intros v Hv. specialize (Hmin v Hv). cbn [In]. unfold vs. rewrite !filter_In. unfold versions_of. rewrite zsorted_set_In, in_app_iff.
        destruct (Z.leb_spec v t), (Z.ltb_spec fd v); split; intros; try lia; try (intuition; fail).
      - exists fd. split; [exact Hin|exact Ht]. }
    subst acc. cbn [tracks] in T. split.
    + intros (d & Hd & Hc). apply In_nth_error in Hd. destruct Hd as (i & Hi). apply (proj1 (G i d Hi)) in Hc. destruct Hc as [_ Hc].
      exists (cur h d0 vs). split; [exact Hin_force|]. intro K. rewrite K in T. contradiction.
    + intros (x & Hx & Hne). rewrite (in_force_fun h t x _ Hn Hx Hin_force) in Hne.
      destruct (cur h d0 vs) as [|kv rest'] eqn:Ecur; [congruence|]. destruct T as [T _].
      destruct (nth_error (rv_docs id rvs) (length rest)) as [d|] eqn:Ei.
      * exists d. split; [apply (nth_error_In _ _ Ei)|]. apply (proj1 (G _ d Ei)). auto.
      * apply nth_error_None in Ei. rewrite rv_docs_length, Er, app_length, rev_length in Ei. cbn in Ei. lia.
  - intros d Hd. apply Hver in Hd. tauto.
Qed.

(** ** C24 *)

(** The options the code uses at [t] for a record whose first version is [fd]: the newest ones
    with a version in [fd..t], the earliest ones if there are none. *)
Definition options_used (opts : list (Z * O)) (fd t : Z) (o : O) : Prop :=
  in_force (filter (fun kv => (fd <=? fst kv)%Z) opts) t o \/
  (none_yet (filter (fun kv => (fd <=? fst kv)%Z) opts) t /\ earliest opts o).

Theorem C24_options_used_exact : forall (h : list (Z * dict)) (opts : list (Z * O)) (id : pystr) rvs fd d t x o,
  hist_ok h -> NoDup (map fst opts) -> build parse peq h opts = Some rvs -> zmin_key h = Some fd ->
  In d (rv_docs id rvs) -> covers d t -> in_force h t x -> options_used opts fd t o ->
  e_parsed d = parse x o \/ peq (e_parsed d) (parse x o) = true.
Proof.
  intros h opts id rvs fd d t x o Hh Hno E Efd Hd Hc Hx Hou.
  destruct (hist_ok_first h Hh) as (fd' & d0 & Efd' & Ed & Hd0 & _). rewrite Efd in Efd'. injection Efd' as <-. destruct Hh as [Hn _].
  destruct (zmin_key opts) as [fo|] eqn:Efo.
  2:{ unfold build in E. rewrite Efd, Efo in E. discriminate. }
  destruct (zmin_key_spec opts fo Efo) as [Hino Homin]. destruct (zget_Some_In opts fo Hino) as (o0 & Eo).
  destruct (build_at parse peq h opts rvs fd fo d0 o0 Hn Efd Efo Ed Eo Hd0 E) as (Hch & _ & _ & Hat).
  destruct (zmin_key_spec h fd Efd) as [Hin Hmin].
  assert (Ht : (fd <= t)%Z).
  { destruct Hx as (v & Hv & Hle & _). specialize (Hmin v ltac:(apply (in_map fst) in Hv; exact Hv)). lia. }
  destruct (Hat t Ht) as (acc & X & B & C & T).
  destruct (covers_at t acc rvs id X B C Hch) as (r & rest & new & r' & Ea & Er & G).
  set (vs := filter (fun v => (v <=? t)%Z) (filter (fun v => (fd <? v)%Z) (versions_of h opts))) in *.
  assert (Svs : StronglySorted Z.lt (fd :: vs)).
  { constructor; [apply filter_sorted, filter_sorted, zsorted_set_sorted|]. apply Forall_forall. intros v Hv.
    apply filter_In in Hv. destruct Hv as [Hv _]. apply filter_In in Hv. destruct Hv as [_ Hv]. lia. }
  assert (Hvs : forall v, In v (fd :: vs) <-> v = fd \/ (In v (versions_of h opts) /\ (fd < v)%Z /\ (v <= t)%Z)).
  { intro v. cbn [In]. unfold vs. rewrite !filter_In. destruct (Z.leb_spec v t), (Z.ltb_spec fd v); intuition; try lia; try discriminate. }
  assert (Hdata : x = cur h d0 vs).
  { apply (in_force_fun h t); [exact Hn|exact Hx|].
    replace (cur h d0 vs) with (cur h d0 (fd :: vs)) by (unfold cur; cbn [fold_left]; rewrite Ed; reflexivity).
    apply cur_in_force; [exact Hn|exact Svs| |exists fd; auto].
    intros v Hv. specialize (Hmin v Hv). rewrite Hvs. unfold versions_of. rewrite zsorted_set_In, in_app_iff.
    split; intros; [|lia]. destruct (Z.eq_dec v fd); [left; assumption|right]. split; [right; exact Hv|lia]. }
  assert (Hopt : o = cur opts o0 (fd :: vs)).
  { assert (Hkey : forall v y, In (v, y) (filter (fun kv => (fd <=? fst kv)%Z) opts) <-> In (v, y) opts /\ (fd <= v)%Z).
    { intros v y. rewrite filter_In. cbn [fst]. destruct (Z.leb_spec fd v); intuition; try lia; try discriminate. }
    assert (Hopv : forall v, In v (zkeys opts) -> (fd <= v)%Z -> (v <= t)%Z -> In v (fd :: vs)).
    { intros v Hv H1 H2. apply Hvs. destruct (Z.eq_dec v fd); [left; assumption|right].
      split; [apply zsorted_set_In, in_or_app; left; exact Hv|lia]. }
    destruct (cur_spec opts o0 (fd :: vs) Svs) as [(v & y & H1 & H2 & H3 & H4)|[H1 H2]].
    - rewrite H3. apply (zget_In_iff opts v y Hno) in H2.
      assert (Hv2 : (fd <= v)%Z /\ (v <= t)%Z).
      { apply Hvs in H1. destruct H1 as [->|H1]; [split; [lia|exact Ht]|lia]. }
      destruct Hou as [(w & K1 & K2 & K3)|[K _]].
      + apply Hkey in K1. destruct K1 as [K1 K1'].
        assert (w <= v)%Z.
        { apply H4; [apply Hopv; [apply (in_map fst) in K1; exact K1|exact K1'|exact K2]|].
          apply (zget_In_iff opts w o Hno) in K1. congruence. }
        assert (v <= w)%Z by (apply (K3 v y); [apply Hkey; split; [exact H2|lia]|lia]).
        assert (v = w) by lia. subst w. apply (zget_In_iff opts v y Hno) in H2. apply (zget_In_iff opts v o Hno) in K1. congruence.
      + exfalso. specialize (K v y (proj2 (Hkey v y) (conj H2 (proj1 Hv2)))). lia.
    - rewrite H2. destruct Hou as [(w & K1 & K2 & K3)|[_ (w & K1 & K2)]].
      + exfalso. apply Hkey in K1. destruct K1 as [K1 K1'].
        specialize (H1 w (Hopv w ltac:(apply (in_map fst) in K1; exact K1) K1' K2)).
        apply (zget_In_iff opts w o Hno) in K1. congruence.
      + apply (zget_In_iff opts fo o0 Hno) in Eo. assert (w = fo).
        { specialize (K2 fo o0 Eo). specialize (Homin w ltac:(apply (in_map fst) in K1; exact K1)). lia. }
        subst w. apply (zget_In_iff opts fo o0 Hno) in Eo. apply (zget_In_iff opts fo o Hno) in K1. congruence. }
  apply In_nth_error in Hd. destruct Hd as (i & Hi). destruct (G i d Hi) as [G1 G2]. apply G1 in Hc. destruct Hc as [Hi' Hdel].
  destruct (G2 Hi') as [-> _]. subst acc. cbn [tracks] in T. rewrite <- Hdata, <- Hopt in T.
  destruct x as [|kv x']; [congruence|]. apply T.
Qed.

(** Which are the options in force when no options came between the earliest ones and the first
    version of the record. *)
Theorem C24_options_in_force_partial : forall (h : list (Z * dict)) (opts : list (Z * O)) (id : pystr) rvs fd fo d t x o,
  hist_ok h -> NoDup (map fst opts) -> build parse peq h opts = Some rvs ->
  zmin_key h = Some fd -> zmin_key opts = Some fo ->
  (forall v, In v (map fst opts) -> (v < fd)%Z -> v = fo) ->
  In d (rv_docs id rvs) -> covers d t -> in_force h t x -> options_in_force opts t o ->
  e_parsed d = parse x o \/ peq (e_parsed d) (parse x o) = true.
Proof.
  intros h opts id rvs fd fo d t x o Hh Hno E Efd Efo Hq Hd Hc Hx Hou.
  eapply C24_options_used_exact; [exact Hh|exact Hno|exact E|exact Efd|exact Hd|exact Hc|exact Hx|].
  destruct (zmin_key_spec opts fo Efo) as [Hino Homin].
  assert (Ht : (fd <= t)%Z).
  { destruct (zmin_key_spec h fd Efd) as [_ Hmin]. destruct Hx as (v & Hv & Hle & _).
    specialize (Hmin v ltac:(apply (in_map fst) in Hv; exact Hv)). lia. }
  assert (Hkey : forall v y, In (v, y) (filter (fun kv => (fd <=? fst kv)%Z) opts) <-> In (v, y) opts /\ (fd <= v)%Z).
  { intros v y. rewrite filter_In. cbn [fst]. destruct (Z.leb_spec fd v); intuition; try lia; try discriminate. }
  destruct Hou as [(v & K1 & K2 & K3)|[K1 K2]].
  - destruct (Z.lt_ge_cases v fd) as [Hv|Hv].
    + right. assert (v = fo) by (apply Hq; [apply (in_map fst) in K1; exact K1|exact Hv]). subst v. split.
      * intros w y Hw. apply Hkey in Hw. destruct Hw as [Hw Hw']. destruct (Z.le_gt_cases w t) as [L|L]; [|lia].
        specialize (K3 w y Hw L). lia.
      * exists fo. split; [exact K1|]. intros w y Hw. apply Homin. apply (in_map fst) in Hw. exact Hw.
    + left. exists v. split; [apply Hkey; auto|]. split; [exact K2|]. intros w y Hw. apply Hkey in Hw. exact (K3 w y (proj1 Hw)).
  - right. split; [|exact K2]. intros v y Hv. apply Hkey in Hv. apply (K1 v y), Hv.
Qed.
End Props.
Print Assumptions C23_documents_cover_life.
Print Assumptions C24_options_used_exact.
Print Assumptions C24_options_in_force_partial.

(** A toy parser: the parsed data is the data with the options. *)
Definition toy_parse (d : dict) (o : nat) : dict * nat := (d, o).
Definition toy_eq (a b : dict * nat) : bool := py_eqb (VDict (fst a)) (VDict (fst b)) && Nat.eqb (snd a) (snd b).
Definition X (n : Z) : dict := [(lit "x", VInt n)].

(** Options changed at 5, the record appears at 10, and is indexed with the options of 1. *)
Theorem C24_options_in_force_refuted : exists h opts rvs d,
  hist_ok h /\ NoDup (map fst opts) /\ build toy_parse toy_eq h opts = Some rvs /\
  In d (rv_docs (lit "r") rvs) /\ covers d 10 /\ in_force h 10 (X 7) /\ options_in_force opts 10 2 /\
  e_parsed d = toy_parse (X 7) 1 /\ toy_eq (toy_parse (X 7) 1) (toy_parse (X 7) 2) = false.
Proof.
  exists [(10%Z, X 7)], [(1%Z, 1); (5%Z, 2)]. eexists. eexists.
  split; [|split; [|split; [vm_compute; reflexivity|split; [left; reflexivity|split; [|split; [|split; [|split; vm_compute; reflexivity]]]]]]].
  - split; [repeat constructor; intros []|]. exists (X 7). split; [|discriminate]. exists 10%Z. split; [left; reflexivity|].
    intros w y [E|[]]. injection E as <- <-. lia.
  - repeat constructor; cbn; intuition discriminate.
  - vm_compute. split; [discriminate|exact I].
  - exists 10%Z. split; [left; reflexivity|]. split; [lia|]. intros w y [E|[]] _. injection E as <- <-. lia.
  - left. exists 5%Z. split; [right; left; reflexivity|]. split; [lia|]. intros w y [E|[E|[]]] _; injection E as <- <-; lia.
Qed.
Print Assumptions C24_options_in_force_refuted.

Definition ex_h : list (Z * dict) := [(10%Z, X 1); (20%Z, X 2); (30%Z, []); (40%Z, X 2)].
Definition ex_o : list (Z * nat) := [(5%Z, 1); (25%Z, 1); (35%Z, 3); (50%Z, 4)].
Example C23_example : hist_ok ex_h /\ option_map (rv_docs (lit "r")) (build toy_parse toy_eq ex_h ex_o) =
  Some [ED (lit "r") 10 (Some 20%Z) (X 1, 1); ED (lit "r") 20 (Some 30%Z) (X 2, 1);
        ED (lit "r") 40 (Some 50%Z) (X 2, 3); ED (lit "r") 50 None (X 2, 4)].
Proof.
  split; [|vm_compute; reflexivity]. split; [repeat constructor; cbn; intuition discriminate|].
  exists (X 1). split; [|discriminate]. exists 10%Z. split; [left; reflexivity|].
  intros w y [E|[E|[E|[E|[]]]]]; injection E as <- <-; lia.
Qed.
Example C24_example : zmin_key ex_h = Some 10%Z /\ zmin_key ex_o = Some 5%Z /\
  (forall v, In v (map fst ex_o) -> (v < 10)%Z -> v = 5%Z) /\ options_in_force ex_o 45 3.
Proof.
  split; [reflexivity|]. split; [reflexivity|]. split; [cbn; intuition lia|]. left. exists 35%Z. split; [cbn; auto|].
  split; [lia|]. intros w y [E|[E|[E|[E|[]]]]] L; injection E as <- <-; lia.
Qed.
