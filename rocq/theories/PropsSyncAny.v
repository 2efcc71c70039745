(** Properties C83, C84: what any sync leaves in Elasticsearch, also after syncs that left deleted records in latest. *)
From Coq Require Import String Ascii.
From Coq Require Import List ZArith NArith Bool Lia Sorted Permutation.
From Verif Require Import PyVal Diff DiffProofs Prepare Mongo Store MongoProofs MongoStore MongoMore PropsMongo Client ClientProofs.
From Verif Require Import Index IndexSpec IndexProofs PropsIndex Sync SyncSpec SyncProofs SyncBuild SyncColl SyncTrace SyncView SyncMore SyncArcs SyncEvents SyncReach SyncStale SyncLocal PropsSync PropsSyncRefuted.
Import ListNotations.
Open Scope string_scope.
Open Scope list_scope.
Open Scope Z_scope.

(** ** Specification *)
Definition had_data (h : list (Z * dict)) (s : Z) : Prop := exists x, in_force h s x /\ x <> [].
Definition has_data_now (h : list (Z * dict)) : Prop := exists x, now_data h x /\ x <> [].

Section Props.
Context {O P : Type} (oeq : O -> O -> bool) (odef : O).
Context (R : value -> value -> Prop) (good : dict -> Prop) (parse : dict -> O -> P) (peq : P -> P -> bool) (E : P -> P -> Prop).
Variable cap : N.
Variable name : pystr.
Notation syncs := (syncs oeq odef parse peq good cap name).
Notation sync := (sync parse peq cap).
Notation state calls := (a_run a_empty (proj name calls)).
Implicit Types allowed : bool -> nat -> Z -> astate -> list (Z * O) -> Prop.
Hypothesis PL : pipeline R good parse peq E.
Notation prel := (prel parse (near R good)).
Notation target := (target parse peq).
Notation inv_any := (inv_any oeq odef parse peq R good name).

Let DC := pl_data _ _ _ _ _ PL.
Let PK := pl_parse_ok R good parse peq E PL.

Lemma fresh_lat (e : es P) id : fresh e -> lat_of id (vis e) = lat_of id (live e).
Proof. intros [F _]. unfold lat_of. rewrite F. reflexivity. Qed.
Lemma fresh_arcs (e : es P) id T : fresh e -> same_docs prel (arc_of id (live e)) T -> same_docs prel (arc_of id (vis e)) T.
Proof.
  intros F (l' & P1 & F1). exists l'. split; [|exact F1]. eapply Permutation_trans; [|exact P1].
  unfold arc_of. apply perm_filter, Permutation_map, fresh_arc_perm, F.
Qed.
Lemma same_docs_E l m : same_docs prel l m -> same_docs E l m.
Proof.
  intros (l' & P1 & F). exists l'. split; [exact P1|]. clear P1. induction F as [|x y ? ? (A1 & B1 & C1 & D1) _ IH]; constructor; [|exact IH].
  repeat split; auto. exact (prel_E R good parse peq E PL _ _ D1).
Qed.
Lemma join l l0 T : same_docs prel l T -> same_docs prel l0 T -> same_docs E l l0.
Proof. exact (same_docs_join E prel l l0 T (prel_join R good parse peq E PL)). Qed.

(** ** C83 *)
(** Whatever happened before, with syncs and resyncs at any time when nothing was pending: a sync or resync brings the arcs of every
    record, and the latest documents of the records that have data, to what a sync from scratch has. The document of a record
    without data leaves latest exactly if this is a sync (no resync), the record had data at the last sync, and no version of
    it with data of its own was committed since; otherwise what latest had of the record stays. *)
Theorem C83_any_sync : forall allowed r n t s calls cl e, syncs allowed n t s calls cl e ->
  options_there (state calls) (get_options cl name) -> no_pending (state calls) ->
  exists e' e0, sync cl name r e = Some e' /\ sync cl name false empty_es = Some e0 /\
    (forall id, record_indexed parse peq E (vis e0) id (committed (state calls) id) (get_options cl name)) /\
    forall id, let h := committed (state calls) id in
      let leaves := r = false /\ had_data h s /\ ~ exists d, In d (arc_of id (vis e0)) /\ s < e_ver d in
      same_docs E (arc_of id (vis e')) (arc_of id (vis e0)) /\
      (has_data_now h -> same_docs E (lat_of id (vis e')) (lat_of id (vis e0))) /\
      (~ has_data_now h -> leaves -> lat_of id (vis e') = []) /\
      (~ has_data_now h -> ~ leaves -> lat_of id (vis e') = lat_of id (vis e)).
Proof.
  intros allowed r n t s calls cl e H Ho Hp.
  pose proof (syncs_inv oeq odef parse peq R good cap name DC PK allowed n t s calls cl e H) as J.
  destruct (any_sync oeq odef parse peq R good cap name DC PK r n t s calls cl e J Ho Hp) as (e' & E1 & J' & N).
  destruct J as ((es & I) & Fr & _). destruct J' as (_ & Fr' & _).
  destruct (inv_scratch oeq odef parse peq R good cap name DC PK n t s calls cl es I Ho Hp) as (e0 & E0 & I0 & D0).
  assert (F0 : fresh e0) by apply I0. pose proof (fresh_holds _ _ _ F0 D0) as V0.
  exists e', e0. split; [exact E1|]. split; [exact E0|]. split.
  { intro id. eapply holds_indexed; [apply (holds_mono _ E _ _ (prel_E R good parse peq E PL)), V0|reflexivity| | |].
    - exact (hist_state oeq odef parse peq R good name DC _ _ _ _ _ _ I id).
    - exact (Ho id).
    - apply get_options_nodup. }
  intro id. cbn zeta. rewrite (fresh_lat e' id Fr'), (fresh_lat e id Fr), (fresh_lat e0 id F0).
  pose proof (open_now oeq odef parse peq R good name DC n t s calls cl es id I) as On.
  pose proof (open_full oeq odef parse peq R good cap name DC PK n t s calls cl es id I Ho Hp) as Of.
  destruct (N id) as (N1 & N2 & N3). destruct (V0 id) as [_ V2]. destruct (D0 id) as [D1 _].
  set (T := target (committed (state calls)) (get_options cl name) id) in *.
  set (T0 := target_at parse peq (committed (state calls)) (get_options cl name) s id) in *.
  split; [exact (join _ _ _ (fresh_arcs e' id _ Fr' N1) V2)|]. split.
  { intro Hn. apply Of in Hn. exact (join _ _ _ (N2 Hn) D1). }
  assert (Go : ~ has_data_now (committed (state calls) id) ->
    (negb r && some_open T0 && negb (begins_after s T) = true <-> r = false /\ had_data (committed (state calls) id) s /\ ~ exists d, In d (arc_of id (vis e0)) /\ s < e_ver d) /\
    lat_of id (live e') = if negb r && some_open T0 && negb (begins_after s T) then [] else lat_of id (live e)).
  { intro Hn. assert (So : some_open T = false) by (destruct (some_open T) eqn:So; [exfalso; apply Hn, Of; reflexivity|reflexivity]).
    split; [|exact (N3 So)].
    assert (Bg : begins_after s T = true <-> exists d, In d (arc_of id (vis e0)) /\ s < e_ver d).
    { destruct (same_docs_In prel _ _ V2) as [S1 S2]. unfold begins_after. rewrite existsb_exists. split.
      - intros (d & Hd & Ld). apply Z.ltb_lt in Ld. destruct (S2 d) as (d' & Hd' & (_ & Q & _)).
        + apply filter_In. split; [exact Hd|]. unfold is_closed. destruct (is_open d) eqn:Eo; [|reflexivity].
          assert (K : some_open T = true) by (apply existsb_exists; exists d; auto). congruence.
        + exists d'. split; [exact Hd'|]. rewrite Q. exact Ld.
      - intros (d & Hd & Ld). destruct (S1 d Hd) as (d' & Hd' & (_ & Q & _)). apply filter_In in Hd'. exists d'. split; [apply Hd'|]. apply Z.ltb_lt. rewrite <- Q. exact Ld. }
    rewrite !andb_true_iff, !negb_true_iff, <- Bg, not_true_iff_false. unfold had_data. rewrite <- On. tauto. }
  split; intros Hn Hl; destruct (Go Hn) as [G1 G2]; rewrite G2.
  - rewrite (proj2 G1 Hl). reflexivity.
  - destruct (_ && _); [exfalso; apply Hl, G1; reflexivity|reflexivity].
Qed.

(** In every such history latest has at most one document of a record, its range has no end. *)
Theorem C83_latest : forall allowed n t s calls cl e, syncs allowed n t s calls cl e ->
  forall id, (length (lat_of id (vis e)) <= 1)%nat /\ forall d, In d (lat_of id (vis e)) -> e_id d = id /\ e_end d = None /\ e_ver d <= s.
Proof.
  intros allowed n t s calls cl e H id. pose proof (syncs_inv oeq odef parse peq R good cap name DC PK allowed n t s calls cl e H) as (_ & Fr & HD).
  rewrite (fresh_lat e id Fr). split; [|apply HD].
  induction H as [|n t s calls cl e c cl' G IH Hnc Hs H|n t s calls cl e m v G IH Hv|r n t s calls cl e e' G IH Ho Hp Ha H|t s calls cl e e' G IH Ho Hp H].
  - cbn. lia.
  - pose proof (syncs_inv oeq odef parse peq R good cap name DC PK allowed _ _ _ _ _ _ G) as (_ & _ & HD'). exact (IH Fr HD').
  - pose proof (syncs_inv oeq odef parse peq R good cap name DC PK allowed _ _ _ _ _ _ G) as (_ & _ & HD'). exact (IH Fr HD').
  - pose proof (syncs_inv oeq odef parse peq R good cap name DC PK allowed _ _ _ _ _ _ G) as J.
    destruct (any_sync oeq odef parse peq R good cap name DC PK r n t s calls cl e J Ho Hp) as (e2 & E1 & _ & N). rewrite H in E1. injection E1 as <-.
    destruct J as ((es & I) & Fr0 & HD0). specialize (IH Fr0 HD0).
    destruct (inv_scratch oeq odef parse peq R good cap name DC PK n t s calls cl es I Ho Hp) as (e0 & E0 & I0 & D0).
    destruct (N id) as (_ & N2 & N3). destruct (D0 id) as [(l0 & P0 & F0) _].
    destruct (some_open _) eqn:So.
    + destruct (N2 eq_refl) as (l & P1 & F1). apply Permutation_length in P1, P0. apply Forall2_length in F1, F0. rewrite P1, F1, <- F0, <- P0.
      destruct (inv_indexed oeq odef parse peq R good name DC _ _ _ _ _ _ I0 id) as (_ & _ & _ & K4 & _ & _ & K7 & K8).
      destruct (lat_of id (live e0)) as [|d [|d' l1]] eqn:El; cbn [length]; try lia. exfalso.
      assert (X : forall d0, In d0 (lat_of id (live e0)) -> e_end d0 = None) by apply (inv_indexed oeq odef parse peq R good name DC _ _ _ _ _ _ I0 id).
      rewrite El in X. assert (Q : 0%nat = 1%nat); [|discriminate]. apply (K4 0%nat 1%nat d d' (Z.max (e_ver d) (e_ver d')) eq_refl eq_refl); (split; [lia|]); rewrite X; try exact Logic.I; [left|right; left]; reflexivity.
    + rewrite (N3 eq_refl). destruct (_ && _); [cbn; lia|exact IH].
  - pose proof (syncs_inv oeq odef parse peq R good cap name DC PK allowed _ _ _ _ _ _ G) as J.
    rewrite (proj2 (any_arcs oeq odef parse peq R good cap name DC PK t s calls cl e e' J Ho Hp H) id). destruct J as (_ & Fr0 & HD0). exact (IH Fr0 HD0).
Qed.

(** ** C84 *)
(** If no sync or resync happened while it could do harm to the record [id] (a sync after the record was changed and then deleted in two
    commits or more since the sync before; a resync after it was deleted; a sync or resync while it had pending changes, unless it is a sync and nothing
    of it nor any options were committed since the sync before), the indices show its history and a search that returns gives its data:
    whatever happened to other records, which may have pending changes at any time. *)
Theorem C84_record_alone : forall id r n t s calls cl e, local oeq odef parse peq good cap name id n t s calls cl e ->
  options_there (state calls) (get_options cl name) -> harmless id r n s (state calls) (get_options cl name) ->
  exists e', sync cl name r e = Some e' /\ record_indexed parse peq E (vis e') id (committed (state calls) id) (get_options cl name) /\
    forall v hits, search_at e' v = Some hits -> search_exact parse peq E hits v id (committed (state calls) id) (get_options cl name).
Proof.
  intros id r n t s calls cl e H Ho Hc.
  pose proof (local_inv oeq odef parse peq R good cap name DC PK id n t s calls cl e H) as J.
  destruct (loc_sync oeq odef parse peq R good cap name DC PK id r n t s calls cl e J Ho Hc) as (e' & E1 & (_ & Fr' & [S1 S2] & _) & [L' A']).
  assert (HI : record_indexed parse peq E (vis e') id (committed (state calls) id) (get_options cl name)).
  { apply docs_indexed.
    - rewrite (fresh_lat e' id Fr'). exact (same_docs_E _ _ L').
    - exact (same_docs_E _ _ (fresh_arcs e' id _ Fr' A')).
    - exact (base_hist oeq odef R good name DC n t s calls cl (proj1 J) id).
    - exact (Ho id).
    - apply get_options_nodup. }
  exists e'. split; [exact E1|]. split; [exact HI|]. intros v hits Hs. apply (record_search oeq odef parse peq E e' id _ _ v hits); [| |exact HI|exact Hs].
  - intros i d Hd. rewrite (fresh_lat e' i Fr') in Hd. unfold lat_of in Hd. apply in_map_iff in Hd. destruct Hd as ([i0 y] & Ey & Hd). cbn in Ey. subst y.
    apply filter_In in Hd. destruct Hd as [Hd Ei]. apply str_eqb_eq in Ei. cbn in Ei. subst i0. destruct (S1 i d Hd) as (K1 & K2 & _). auto.
  - intros i d Hd. unfold arc_of in Hd. apply filter_In in Hd. destruct Hd as [Hd _]. apply (Permutation_in _ (Permutation_map snd (fresh_arc_perm e' Fr'))) in Hd.
    apply in_map_iff in Hd. destruct Hd as ([k y] & Ey & Hd). cbn in Ey. subst y. destruct (S2 k d Hd) as (_ & w & K & _). congruence.
Qed.
(** In such a history a sync does nothing to the documents of the records that have pending changes. *)
Theorem C84_pending_untouched : forall id i n t s calls cl e, local oeq odef parse peq good cap name i n t s calls cl e ->
  options_there (state calls) (get_options cl name) -> ~ id_clear id (state calls) ->
  exists e', sync cl name false e = Some e' /\ lat_of id (vis e') = lat_of id (vis e) /\ Permutation (arc_of id (vis e')) (arc_of id (vis e)).
Proof.
  intros id i n t s calls cl e H Ho Hc. destruct (local_inv oeq odef parse peq R good cap name DC PK i n t s calls cl e H) as (B & Fr & Sd & _).
  destruct (base_sync oeq odef parse peq R good cap name DC PK false n t s calls cl e B Fr Sd Ho) as (e' & E1 & F' & _ & N & _).
  exists e'. split; [exact E1|]. destruct (N eq_refl id Hc) as [N1 N2]. rewrite !fresh_lat by assumption. split; [exact N1|].
  assert (G : forall x : es P, fresh x -> Permutation (arc_of id (vis x)) (arc_of id (live x))) by (intros x Fx; unfold arc_of; apply perm_filter, Permutation_map, fresh_arc_perm, Fx).
  eapply Permutation_trans; [exact (G e' F')|]. rewrite N2. apply Permutation_sym, G, Fr.
Qed.
End Props.
Print Assumptions C83_any_sync.
Print Assumptions C83_latest.
Print Assumptions C84_record_alone.
Print Assumptions C84_pending_untouched.

(** ** Histories that meet the hypotheses *)
Notation toy_syncs := (syncs Nat.eqb 0%nat toy_parse toy_eq wfd 2000000%N db).
Notation state calls := (a_run a_empty (proj db calls)).
(** calls, [sync(resync=r)], [resync_arcs] *)
Inductive step_any := ACall (c : call nat) | ASync (r : bool) | AArcs.
Definition run_any (s : sys) (ev : step_any) : option sys :=
  let '(n, t, s0, calls, cl, e) := s in
  match ev with
  | ACall (CCommit m v) => if t <? v then Some (S n, v, s0, calls ++ [CCommit m v], fst (commit Nat.eqb 0%nat cl m v), e) else None
  | ACall c => match do_call Nat.eqb 0%nat cl c with Some cl' => Some (n, t, s0, calls ++ [c], cl', e) | None => None end
  | ASync r => match toy_sync cl db r e with Some e' => Some (0%nat, t, t, calls, cl, e') | None => None end
  | AArcs => match n, resync_arcs toy_parse toy_eq 2000000%N cl db e with 0%nat, Some e' => Some (0%nat, t, s0, calls, cl, e') | _, _ => None end
  end.
Fixpoint run_all (s : sys) (l : list step_any) : option sys :=
  match l with [] => Some s | ev :: r => match run_any s ev with Some s' => run_all s' r | None => None end end.
Fixpoint steps_b (chk : bool -> check) (s : sys) (l : list step_any) : bool :=
  match l with
  | [] => true
  | ev :: r => (let '(n, t, s0, calls, cl, e) := s in
                match ev with
                | ACall c => call_b c
                | ASync b => options_b calls (get_options cl db) && no_pending_b calls && chk b n s0 calls (get_options cl db)
                | AArcs => options_b calls (get_options cl db) && no_pending_b calls
                end) && match run_any s ev with Some s' => steps_b chk s' r | None => true end
  end.
Definition sys_any (allowed : bool -> nat -> Z -> astate -> list (Z * nat) -> Prop) (s : sys) : Prop :=
  let '(n, t, s0, calls, cl, e) := s in toy_syncs allowed n t s0 calls cl e.
Lemma run_any_ok (allowed : bool -> nat -> Z -> astate -> list (Z * nat) -> Prop) chk :
  (forall b n s calls om, chk b n s calls om = true -> allowed b n s (state calls) om) ->
  forall l s s', sys_any allowed s -> steps_b chk s l = true -> run_all s l = Some s' -> sys_any allowed s'.
Proof.
  intros Hc. induction l as [|ev l IH]; intros s s' Hs Hb H; [injection H as <-; exact Hs|]. cbn [run_all steps_b] in *.
  destruct (run_any s ev) as [s1|] eqn:E1; [|discriminate]. apply andb_true_iff in Hb. destruct Hb as [Hb1 Hb2]. refine (IH s1 s' _ Hb2 H). clear IH Hb2 H.
  destruct s as [[[[[n t] s0] calls] cl] e]. cbn [sys_any run_any] in *. destruct ev as [c|b|].
  - pose proof (call_b_ok c Hb1) as Hok.
    assert (G : (forall m v, c <> CCommit m v) -> (match do_call Nat.eqb 0%nat cl c with Some cl' => Some (n, t, s0, calls ++ [c], cl', e) | None => None end) = Some s1 -> sys_any allowed s1).
    { intros Hn K. destruct (do_call Nat.eqb 0%nat cl c) as [cl'|] eqn:Ec; [|discriminate]. injection K as <-. cbn [sys_any]. eapply sy_call; eauto. }
    destruct c; try (apply G; [discriminate|exact E1]). destruct (Z.ltb_spec t v); [|discriminate]. injection E1 as <-. cbn [sys_any]. eapply sy_commit; eassumption.
  - destruct (toy_sync cl db b e) as [e'|] eqn:Ec; [|discriminate]. injection E1 as <-. cbn [sys_any]. apply andb_true_iff in Hb1. destruct Hb1 as [Hb1 Hb3]. apply andb_true_iff in Hb1. destruct Hb1 as [Hb1 Hb2].
    eapply sy_sync; [exact Hs|apply options_b_ok, Hb1|apply no_pending_b_ok, Hb2|apply Hc, Hb3|exact Ec].
  - destruct n; [|discriminate]. destruct (resync_arcs _ _ _ _ _ _) as [e'|] eqn:Ec; [|discriminate]. injection E1 as <-. cbn [sys_any]. apply andb_true_iff in Hb1. destruct Hb1 as [Hb1 Hb2].
    eapply sy_arcs; [exact Hs|apply options_b_ok, Hb1|apply no_pending_b_ok, Hb2|exact Ec].
Qed.
Definition aput (l : list (string * dict)) : step_any := ACall (CIngest db None (map (fun kv => (lit (fst kv), snd kv)) l)).
Definition acommit (v : Z) : step_any := ACall (CCommit db v).
Definition always (_ : bool) (_ : nat) (_ : Z) (_ : astate) (_ : list (Z * nat)) : Prop := True.
Definition always_b (_ : bool) : check := fun _ _ _ _ => true.
(** r1 is changed and deleted between two syncs; it stays in latest. Then r2 is changed and r3 is deleted. *)
Definition ex_any : list step_any :=
  [ aput [("r1", X 1); ("r2", X 2); ("r3", X 3)]; acommit 10; ASync false; aput [("r1", X 4)]; acommit 20; aput [("r1", [])]; acommit 30; ASync false; AArcs;
    aput [("r2", X 5)]; acommit 40; aput [("r3", [])]; acommit 50 ].
Definition ids_of (l : list (pystr * esdoc (dict * nat))) : list (pystr * Z) := map (fun kd => (fst kd, e_ver (snd kd))) l.
Example C83_example : match run_all start ex_any with
  | Some (n, t, s, calls, cl, e) =>
      toy_syncs always n t s calls cl e /\ options_there (state calls) (get_options cl db) /\ no_pending (state calls) /\ s = 30 /\
      ids_of (lat (vis e)) = [(lit "r1", 10); (lit "r2", 10); (lit "r3", 10)] /\
      option_map (fun e' => ids_of (lat (vis e'))) (toy_sync cl db false e) = Some [(lit "r1", 10); (lit "r2", 40)] /\
      option_map (fun e' => ids_of (lat (vis e'))) (toy_sync cl db true e) = Some [(lit "r1", 10); (lit "r3", 10); (lit "r2", 40)] /\
      option_map (fun e' => ids_of (lat (vis e'))) (toy_sync cl db false empty_es) = Some [(lit "r2", 40)]
  | None => False end.
Proof.
  destruct (run_all start ex_any) as [[[[[[n t] s] calls] cl] e]|] eqn:E; [|vm_compute in E; discriminate].
  pose proof (run_any_ok always always_b (fun _ _ _ _ _ _ => I) ex_any start _ (sy_start _ _ _ _ _ _ _ _) ltac:(vm_compute; reflexivity) E) as H. cbn [sys_any] in H.
  split; [exact H|]. vm_compute in E. injection E as <- <- <- <- <- <-.
  split; [apply options_b_ok; vm_compute; reflexivity|]. split; [apply no_pending_b_ok; vm_compute; reflexivity|]. vm_compute. auto 10.
Qed.
(** ** Histories of one record *)
Notation toy_local := (local Nat.eqb 0%nat toy_parse toy_eq wfd 2000000%N db).
Definition clear_b (id : pystr) (calls : list (call nat)) : bool := match state calls id with Some (AR _ (Some _)) => false | _ => true end.
Definition settled_b (id : pystr) (s : Z) (calls : list (call nat)) (om : list (Z * nat)) : bool :=
  forallb (fun k => k <=? s) (zkeys (committed (state calls) id) ++ zkeys om).
Definition calm_b (id : pystr) (b : bool) : check := fun n s calls om =>
  if b then empty_at (committed (state calls) id) s
  else Nat.leb n 1 || not_ctd_b s (committed (state calls) id) om.
Definition harmless_b (id : pystr) (b : bool) : check := fun n s calls om =>
  (clear_b id calls || negb b && settled_b id s calls om) && calm_b id b n s calls om.
Lemma clear_b_ok id calls : clear_b id calls = true -> id_clear id (state calls).
Proof. unfold clear_b. intros H h p K. rewrite K in H. discriminate. Qed.
Lemma settled_b_ok id s calls om : settled_b id s calls om = true -> id_settled id s (state calls) om.
Proof. unfold settled_b. intros H k Hk. rewrite forallb_forall in H. apply Z.leb_le, H, in_or_app, Hk. Qed.
Lemma calm_b_ok id b n s calls om : calm_b id b n s calls om = true -> calm id b n s (state calls) om.
Proof.
  unfold calm_b, calm. destruct b.
  - intros H (x & Hx & Nx). destruct (Nx (empty_at_ok _ _ _ H Hx)).
  - intro H. apply orb_true_iff in H. destruct H as [H|H]; [left; apply Nat.leb_le, H|right; apply not_ctd_b_ok, H].
Qed.
Lemma harmless_b_ok id b n s calls om : harmless_b id b n s calls om = true -> harmless id b n s (state calls) om.
Proof.
  unfold harmless_b. intro H. apply andb_true_iff in H. destruct H as [H1 H2]. split; [|exact (calm_b_ok _ _ _ _ _ _ H2)].
  apply orb_true_iff in H1. destruct H1 as [H1|H1]; [left; apply clear_b_ok, H1|right]. apply andb_true_iff in H1. destruct H1 as [K H1]. split; [destruct b; [discriminate|reflexivity]|apply settled_b_ok, H1].
Qed.
Definition run_local (s : sys) (ev : step_any) : option sys :=
  let '(n, t, s0, calls, cl, e) := s in
  match ev with
  | AArcs => match resync_arcs toy_parse toy_eq 2000000%N cl db e with Some e' => Some (0%nat, t, t, calls, cl, e') | None => None end
  | _ => run_any s ev
  end.
Fixpoint run_locals (s : sys) (l : list step_any) : option sys :=
  match l with [] => Some s | ev :: r => match run_local s ev with Some s' => run_locals s' r | None => None end end.
Fixpoint locals_b (id : pystr) (s : sys) (l : list step_any) : bool :=
  match l with
  | [] => true
  | ev :: r => (let '(n, t, s0, calls, cl, e) := s in
                match ev with
                | ACall c => call_b c
                | ASync b => options_b calls (get_options cl db) && harmless_b id b n s0 calls (get_options cl db)
                | AArcs => options_b calls (get_options cl db) && clear_b id calls && settled_b id s0 calls (get_options cl db)
                end) && match run_local s ev with Some s' => locals_b id s' r | None => true end
  end.
Definition sys_local (id : pystr) (s : sys) : Prop := let '(n, t, s0, calls, cl, e) := s in toy_local id n t s0 calls cl e.
Lemma run_local_ok id : forall l s s', sys_local id s -> locals_b id s l = true -> run_locals s l = Some s' -> sys_local id s'.
Proof.
  induction l as [|ev l IH]; intros s s' Hs Hb H; [injection H as <-; exact Hs|]. cbn [run_locals locals_b] in *.
  destruct (run_local s ev) as [s1|] eqn:E1; [|discriminate]. apply andb_true_iff in Hb. destruct Hb as [Hb1 Hb2]. refine (IH s1 s' _ Hb2 H). clear IH Hb2 H.
  destruct s as [[[[[n t] s0] calls] cl] e]. cbn [sys_local] in Hs. destruct ev as [c|b|].
  - pose proof (call_b_ok c Hb1) as Hok. cbn [run_local run_any] in E1.
    assert (G : (forall m v, c <> CCommit m v) -> (match do_call Nat.eqb 0%nat cl c with Some cl' => Some (n, t, s0, calls ++ [c], cl', e) | None => None end) = Some s1 -> sys_local id s1).
    { intros Hn K. destruct (do_call Nat.eqb 0%nat cl c) as [cl'|] eqn:Ec; [|discriminate]. injection K as <-. cbn [sys_local]. eapply lo_call; eauto. }
    destruct c; try (apply G; [discriminate|exact E1]). destruct (Z.ltb_spec t v); [|discriminate]. injection E1 as <-. cbn [sys_local]. eapply lo_commit; eassumption.
  - cbn [run_local run_any] in E1. destruct (toy_sync cl db b e) as [e'|] eqn:Ec; [|discriminate]. injection E1 as <-. cbn [sys_local]. apply andb_true_iff in Hb1. destruct Hb1 as [Hb1 Hb3].
    eapply lo_sync; [exact Hs|apply options_b_ok, Hb1|apply harmless_b_ok, Hb3|exact Ec].
  - cbn [run_local] in E1. destruct (resync_arcs _ _ _ _ _ _) as [e'|] eqn:Ec; [|discriminate]. injection E1 as <-. cbn [sys_local]. apply andb_true_iff in Hb1. destruct Hb1 as [Hb1 Hb3]. apply andb_true_iff in Hb1. destruct Hb1 as [Hb1 Hb2].
    eapply lo_arcs; [exact Hs|apply options_b_ok, Hb1|apply clear_b_ok, Hb2|apply settled_b_ok, Hb3|exact Ec].
Qed.
(** r1 is changed and deleted between two syncs, and stays in latest. r2 is synced while it has pending changes after a commit, and loses a version.
    r3 has pending changes during a sync too, but nothing of it was committed since the sync before. In the end r4 is pending. *)
Definition ex_local : list step_any :=
  [ aput [("r1", X 1); ("r2", X 2); ("r3", X 3)]; acommit 10; ASync false; aput [("r1", X 4); ("r2", X 4)]; acommit 20; aput [("r1", [])]; acommit 30;
    aput [("r2", X 5); ("r3", X 6)]; ASync false; acommit 40; ASync false; AArcs; aput [("r3", [])]; acommit 50; aput [("r4", X 1)] ].
Example C84_example : match run_locals start ex_local with
  | Some (n, t, s, calls, cl, e) =>
      toy_local (lit "r3") n t s calls cl e /\ options_there (state calls) (get_options cl db) /\
      harmless (lit "r3") false n s (state calls) (get_options cl db) /\ ~ no_pending (state calls) /\ ~ id_clear (lit "r4") (state calls) /\
      option_map (found_at 45) (toy_sync cl db false e) = Some (Some [(lit "r1", 10); (lit "r2", 40); (lit "r3", 40)]) /\
      option_map (found_at 50) (toy_sync cl db false e) = Some (Some [(lit "r1", 10); (lit "r2", 40)])
  | None => False end.
Proof.
  destruct (run_locals start ex_local) as [[[[[[n t] s] calls] cl] e]|] eqn:E; [|vm_compute in E; discriminate].
  pose proof (run_local_ok (lit "r3") ex_local start _ (lo_start _ _ _ _ _ _ _ _) ltac:(vm_compute; reflexivity) E) as H. cbn [sys_local] in H.
  split; [exact H|]. vm_compute in E. injection E as <- <- <- <- <- <-.
  split; [apply options_b_ok; vm_compute; reflexivity|]. split; [apply harmless_b_ok; vm_compute; reflexivity|].
  split; [|split; [|vm_compute; auto]].
  - intro Hp. refine (Hp (lit "r4") _ _ _). vm_compute. reflexivity.
  - intro Hp. refine (Hp _ _ _). vm_compute. reflexivity.
Qed.
