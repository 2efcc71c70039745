(** Property C86: what searches give of the data of records, with the modelled parser, whenever syncs happen. *)
From Coq Require Import String Ascii.
From Coq Require Import List ZArith NArith Bool Lia Sorted Permutation.
From Verif Require Import PyVal Diff DiffProofs Time Prepare PropsPrepare Mongo Store MongoProofs MongoStore MongoMore PropsMongo Client ClientProofs.
From Verif Require Import Parser ParserProofs ParserTypes ParserEq PropsParser PropsTotal ParserSim Options.
From Verif Require Import Index IndexSpec IndexProofs PropsIndex Sync SyncSpec SyncProofs SyncBuild SyncColl SyncTrace SyncView SyncMore SyncArcs SyncEvents SyncReach SyncStale SyncLocal SyncTruth.
From Verif Require Import PropsSync PropsSyncRefuted PropsSyncAny PropsSyncTruth EndToEnd PropsEndToEnd.
Import ListNotations.
Open Scope string_scope.
Open Scope list_scope.
Open Scope Z_scope.

(** ** Specification *)
(** What is rebuilt of the hit is the data the record has as of [v], up to the order of keys and what indexing forgets (C35). *)
Definition rebuilds (hit : esdoc (option parsed_data)) (h : list (Z * dict)) (v : Z) : Prop :=
  exists x r, in_force h v x /\ x <> [] /\ e_parsed hit = Some r /\ vident (VDict (rebuild_data (p_parsed r))) (VDict (forget_dict x)).

Section Props.
Variable L : lib.
Variable S : value -> Prop.
Hypothesis KD : keyed L.
Hypothesis HS : type_exact S.
Context (oeq : options -> options -> bool) (odef : options).
Variable cap : N.
Variable name : pystr.
Notation parse_o := (parse_opt L).
Notation sync := (sync parse_o popt_eqb cap).
Notation anyhow := (anyhow oeq odef parse_o popt_eqb (record_data S) cap name).
Notation local := (local oeq odef parse_o popt_eqb (record_data S) cap name).
Notation state calls := (a_run a_empty (proj name calls)).
Let PL : pipeline eq (record_data S) parse_o popt_eqb (same_result L S) := real_pipeline L KD S HS.
Let DC := pl_data _ _ _ _ _ PL.
Let PK := pl_parse_ok eq (record_data S) parse_o popt_eqb (same_result L S) PL.

Lemma base_good n t s calls cl : base oeq odef (record_data S) name n t s calls cl ->
  forall id v x, In (v, x) (committed (state calls) id) -> record_data S x.
Proof.
  intros (_ & _ & I & _) id v x Hx. unfold committed in Hx. destruct (state calls id) as [r|] eqn:Er; [|destruct Hx].
  destruct (run_good (record_data S) _ I a_empty (fun id r Q => ltac:(discriminate)) id r Er) as [G _]. exact (G v x Hx).
Qed.
Lemma target_options (h : pystr -> list (Z * dict)) om id d : In d (target parse_o popt_eqb h om id) -> om <> [].
Proof. intros Hd K. unfold target, SyncSpec.record_docs, build in Hd. rewrite K in Hd. cbn in Hd. destruct (zmin_key _) in Hd; destruct Hd. Qed.
Lemma shows_rebuilds (h : pystr -> list (Z * dict)) om id d v : (forall v x, In (v, x) (h id) -> record_data S x) -> om <> [] -> all_parse parse_o h om ->
  shows_at parse_o popt_eqb (same_result L S) d (h id) om v -> rebuilds d (h id) v.
Proof.
  intros Hg Ho AP (x & Hx & Nx & Hs). assert (Gx : record_data S x) by (destruct Hx as (w & Hw & _); exact (Hg w x Hw)).
  destruct (zmin_key (h id)) as [fd|] eqn:Efd.
  - destruct (used_exists om fd v Ho) as (o & Hou). destruct (Hs fd o eq_refl Hou) as (q & Q1 & Q2).
    destruct (used_parse L h om id x v fd o AP Hx Hou) as (rx & Rx).
    destruct (rebuilt L S HS (e_parsed d) q x o rx Gx Q1 Q2 Rx) as (r & R1 & R2). exists x, r. auto.
  - exfalso. destruct Hx as (w & Hw & _). unfold zmin_key in Efd. destruct (h id) as [|[a b] l]; [destruct Hw|discriminate].
Qed.

(** ** C86 *)
(** Whenever syncs, resyncs and [resync_arcs] happened, whatever was pending: what is rebuilt of a hit of a search at [v] is data its record had. If the
    range of the hit has an end, the data of the record as of [v]; otherwise the data as of the version of the hit, not after [v]. *)
Theorem C86_hits_real : forall t s calls cl e v hits, anyhow t s calls cl e ->
  all_parse parse_o (committed (state calls)) (get_options cl name) -> search_at e v = Some hits -> forall id d, In d (hits_of id hits) ->
  match e_end d with Some _ => rebuilds d (committed (state calls) id) v | None => e_ver d <= v /\ rebuilds d (committed (state calls) id) (e_ver d) end.
Proof.
  intros t s calls cl e v hits H AP Hs id d Hd.
  pose proof (anyhow_inv oeq odef parse_o popt_eqb eq (record_data S) cap name DC PK t s calls cl e H) as J.
  destruct (C85_search oeq odef eq (record_data S) parse_o popt_eqb (same_result L S) cap name PL t s calls cl e v hits H Hs id) as (A1 & A2 & _).
  assert (Ho : get_options cl name <> []).
  { assert (LO : latest_ok e) by (intros i y Hy; destruct (C85_nothing_false oeq odef eq (record_data S) parse_o popt_eqb (same_result L S) cap name PL t s calls cl e H i) as (_ & _ & K & _); destruct (K y Hy) as (K1 & K2 & _); auto).
    assert (AO : arcs_ok e) by (intros i y Hy; destruct (C85_nothing_false oeq odef eq (record_data S) parse_o popt_eqb (same_result L S) cap name PL t s calls cl e H i) as (K & _); destruct (K y Hy) as (w & K1 & _); congruence).
    assert (Hh : In d (lat_of id (vis e) ++ arc_of id (vis e))).
    { rewrite <- (hits_ok e id LO). rewrite (search_hits e v hits LO AO Hs) in Hd. unfold hits_of in *. apply filter_In in Hd. destruct Hd as [Hd Hi]. apply filter_In in Hd. apply filter_In. tauto. }
    destruct (inv_true_full oeq odef parse_o popt_eqb eq (record_data S) name DC t s calls cl e J id) as (T1 & _ & T3 & _). pose proof J as (_ & Fr & _).
    apply in_app_or in Hh. destruct Hh as [Hh|Hh].
    - rewrite (fresh_lat e id Fr) in Hh. destruct (T3 d Hh) as (d' & Hd' & _). exact (target_options _ _ _ _ Hd').
    - assert (Hh' : In d (arc_of id (live e))) by (revert Hh; apply Permutation_in; unfold arc_of; apply perm_filter, Permutation_map, fresh_arc_perm, Fr).
      destruct (T1 d Hh') as (d' & Hd' & _). exact (target_options _ _ _ _ Hd'). }
  destruct J as ((n & B) & _). pose proof (base_good _ _ _ _ _ B id) as G.
  destruct (e_end d) as [w|] eqn:Ew.
  - exact (shows_rebuilds _ _ id d v G Ho AP (A1 d w Hd Ew)).
  - destruct (A2 d Hd Ew) as [K1 K2]. split; [exact K1|]. exact (shows_rebuilds _ _ id d (e_ver d) G Ho AP K2).
Qed.

(** If no sync or resync happened while it could do harm to the record [id] (C84), whatever happened to other records, searches after a sync or resync give
    its data. *)
Theorem C86_record_data : forall id r n t s calls cl e, local id n t s calls cl e ->
  options_there (state calls) (get_options cl name) -> harmless id r n s (state calls) (get_options cl name) ->
  all_parse parse_o (committed (state calls)) (get_options cl name) ->
  exists e', sync cl name r e = Some e' /\ forall v hits, search_at e' v = Some hits -> gives_data hits v id (committed (state calls) id).
Proof.
  intros id r n t s calls cl e H Ho Hc AP.
  destruct (C84_record_alone oeq odef eq (record_data S) parse_o popt_eqb (same_result L S) cap name PL id r n t s calls cl e H Ho Hc) as (e' & E1 & _ & E2).
  exists e'. split; [exact E1|]. intros v hits Hs. destruct (E2 v hits Hs) as (S1 & S2 & S3). split; [exact S2|]. intros x Hx Nx.
  destruct (S1 (ex_intro _ x (conj Hx Nx))) as (hit & Eh).
  assert (Hne : committed (state calls) id <> []) by (destruct Hx as (w & Hw & _); intro Q; rewrite Q in Hw; destruct Hw).
  pose proof (local_inv oeq odef parse_o popt_eqb eq (record_data S) cap name DC PK id n t s calls cl e H) as (B & _).
  destruct (shows_rebuilds (committed (state calls)) (get_options cl name) id hit v (base_good _ _ _ _ _ B id) (Ho id Hne) AP) as (y & r0 & Y1 & Y2 & Y3 & Y4).
  - exists x. split; [exact Hx|]. split; [exact Nx|]. intros fd o Hfd Hou. apply (S3 hit x o fd); auto. rewrite Eh. left. reflexivity.
  - exists hit, r0. split; [exact Eh|]. split; [exact Y3|]. assert (E : y = x); [|rewrite <- E; exact Y4].
    pose proof (base_hist oeq odef eq (record_data S) name DC _ _ _ _ _ B id) as Hok.
    destruct Hok as [K|[K _]]; [contradiction|]. exact (in_force_fun _ _ _ _ K Y1 Hx).
Qed.
End Props.
Print Assumptions C86_hits_real.
Print Assumptions C86_record_data.

(** ** A history that meets the hypotheses *)
(** r and q are synced; q is changed, and changed again while the first change is committed but not synced, so the sync leaves it out; then r is changed. *)
Definition two_of (x y : dict) : call options := CIngest db0 None [(lit "r", x); (lit "q", y)].
Definition put_q (x : dict) : call options := CIngest db0 None [(lit "q", x)].
Definition e_of (o : option (es (option parsed_data))) : es (option parsed_data) := match o with Some e => e | None => empty_es end.
Definition four := rec_of [("a", VInt 4)].
Definition k1 := do empty_client (two_of one one).
Definition k2 := fst (commit opts_eqb ex_opts k1 db0 1).
Definition f2 := e_of (ex_sync k2 db0 false empty_es).
Definition k3 := do k2 (put_q three).
Definition k4 := fst (commit opts_eqb ex_opts k3 db0 2).
Definition k5 := do k4 (put_q four).
Definition f5 := e_of (ex_sync k5 db0 false f2).
Definition k6 := do k5 (put_one three).
Definition k7 := fst (commit opts_eqb ex_opts k6 db0 3).
Definition calls7 : list (call options) := [two_of one one; CCommit db0 1; put_q three; CCommit db0 2; put_q four; put_one three; CCommit db0 3].
Definition rebuilt_hits (v : Z) (e : es (option parsed_data)) := option_map (map (fun d => (e_id d, e_ver d, e_end d, option_map (fun r => rebuild_data (p_parsed r)) (e_parsed d)))) (search_at e v).
Notation ex_anyhow := (anyhow opts_eqb ex_opts (parse_opt ex_lib) popt_eqb (record_data ints_or_text) 2000000%N db0).
Notation ex_local := (local opts_eqb ex_opts (parse_opt ex_lib) popt_eqb (record_data ints_or_text) 2000000%N db0).
Notation state7 := (a_run a_empty (proj db0 calls7)).
Lemma data_ok x : In x [one; three; four] -> record_data ints_or_text x.
Proof.
  intro H. apply record_ok; [destruct H as [<-|[<-|[<-|[]]]]; reflexivity|]. intros k v Hk.
  destruct H as [<-|[<-|[<-|[]]]]; cbn in Hk; repeat (destruct Hk as [Hk|Hk]; [injection Hk as <- <-; split; [reflexivity|exact I]|]); destruct Hk.
Qed.
Lemma one_ok id x : In x [one; three; four] -> Forall (step_ok (record_data ints_or_text)) (proj_call (O := options) db0 (CIngest db0 None [(id, x)])).
Proof.
  intro H. constructor; [|constructor]. split; [|constructor; [exact (data_ok x H)|constructor]].
  intros [|i] [|j] r r' Hi Hj _; try reflexivity; [destruct j|destruct i|destruct i]; discriminate.
Qed.
Lemma both_ok : Forall (step_ok (record_data ints_or_text)) (proj_call db0 (two_of one one)).
Proof.
  constructor; [|constructor]. split; [|repeat constructor; apply data_ok; left; reflexivity].
  intros i j r r' Hi Hj E. destruct i as [|[|[|i]]], j as [|[|[|j]]]; cbn in Hi, Hj; try reflexivity; try discriminate; injection Hi as <-; injection Hj as <-; discriminate.
Qed.
Lemma ints_exact : type_exact ints_or_text.
Proof. exact (proj1 (proj2 (proj2 C76_example))). Qed.
Example C86_example :
  keyed ex_lib /\ type_exact ints_or_text /\ all_parse (parse_opt ex_lib) (committed state7) (get_options k7 db0) /\
  ex_anyhow 3 2 calls7 k7 f5 /\ ex_local (lit "r") 1 3 2 calls7 k7 f5 /\
  options_there state7 (get_options k7 db0) /\ harmless (lit "r") false 1 2 state7 (get_options k7 db0) /\
  rebuilt_hits 2 f5 = Some [(lit "r", 1, None, Some one); (lit "q", 1, None, Some one)] /\
  rebuilt_hits 3 (e_of (ex_sync k7 db0 false f5)) = Some [(lit "r", 3, None, Some three); (lit "q", 3, None, Some four)].
Proof.
  split; [exact ex_keyed|]. split; [exact ints_exact|].
  assert (A : ex_anyhow 3 2 calls7 k7 f5).
  { change calls7 with ((((((([] ++ [two_of one one]) ++ [CCommit db0 1]) ++ [put_q three]) ++ [CCommit db0 2]) ++ [put_q four]) ++ [put_one three]) ++ [CCommit db0 3]).
    apply (an_commit _ _ _ _ _ _ _ 2); [|lia].
    apply (an_call _ _ _ _ _ _ _ 2 2 _ k5); [|discriminate|apply one_ok; cbn; auto|vm_compute; reflexivity].
    apply (an_sync _ _ _ _ _ _ _ false 2 1 _ k5 f2); [|intros id _; vm_compute; discriminate|vm_compute; reflexivity].
    apply (an_call _ _ _ _ _ _ _ 2 1 _ k4); [|discriminate|apply one_ok; cbn; auto|vm_compute; reflexivity].
    apply (an_commit _ _ _ _ _ _ _ 1); [|lia].
    apply (an_call _ _ _ _ _ _ _ 1 1 _ k2); [|discriminate|apply one_ok; cbn; auto|vm_compute; reflexivity].
    apply (an_sync _ _ _ _ _ _ _ false 1 0 _ k2 empty_es); [|intros id _; vm_compute; discriminate|vm_compute; reflexivity].
    apply (an_commit _ _ _ _ _ _ _ 0); [|lia].
    apply (an_call _ _ _ _ _ _ _ 0 0 _ empty_client); [constructor|discriminate|exact both_ok|vm_compute; reflexivity]. }
  assert (Hc : forall n s calls om, (n <= 1)%nat -> match a_run a_empty (proj (O := options) db0 calls) (lit "r") with Some (AR _ (Some _)) => false | _ => true end = true -> harmless (O := options) (lit "r") false n s (a_run a_empty (proj db0 calls)) om).
  { intros n s calls om Hn Hb. split; [left; intros h p K; rewrite K in Hb; discriminate|left; exact Hn]. }
  split; [|split; [exact A|split; [|split; [intros id _; vm_compute; discriminate|split; [apply Hc; [lia|vm_compute; reflexivity]|split; vm_compute; reflexivity]]]]].
  - destruct (anyhow_inv opts_eqb ex_opts _ _ eq _ 2000000%N db0 (pl_data _ _ _ _ _ (real_pipeline ex_lib ex_keyed _ ints_exact)) (pl_parse_ok _ _ _ _ _ (real_pipeline ex_lib ex_keyed _ ints_exact)) _ _ _ _ _ A) as ((n & B) & _).
    intros id v z w o Hz _. apply ex_parses. exact (proj1 (base_good ints_or_text opts_eqb ex_opts db0 _ _ _ _ _ B id v z Hz)).
  - change calls7 with ((((((([] ++ [two_of one one]) ++ [CCommit db0 1]) ++ [put_q three]) ++ [CCommit db0 2]) ++ [put_q four]) ++ [put_one three]) ++ [CCommit db0 3]).
    apply (lo_commit _ _ _ _ _ _ _ _ 0 2); [|lia].
    apply (lo_call _ _ _ _ _ _ _ _ 0 2 2 _ k5); [|discriminate|apply one_ok; cbn; auto|vm_compute; reflexivity].
    apply (lo_sync _ _ _ _ _ _ _ _ false 1 2 1 _ k5 f2); [|intros id _; vm_compute; discriminate|apply Hc; [lia|vm_compute; reflexivity]|vm_compute; reflexivity].
    apply (lo_call _ _ _ _ _ _ _ _ 1 2 1 _ k4); [|discriminate|apply one_ok; cbn; auto|vm_compute; reflexivity].
    apply (lo_commit _ _ _ _ _ _ _ _ 0 1); [|lia].
    apply (lo_call _ _ _ _ _ _ _ _ 0 1 1 _ k2); [|discriminate|apply one_ok; cbn; auto|vm_compute; reflexivity].
    apply (lo_sync _ _ _ _ _ _ _ _ false 1 1 0 _ k2 empty_es); [|intros id _; vm_compute; discriminate|apply Hc; [lia|vm_compute; reflexivity]|vm_compute; reflexivity].
    apply (lo_commit _ _ _ _ _ _ _ _ 0 0); [|lia].
    apply (lo_call _ _ _ _ _ _ _ _ 0 0 0 _ empty_client); [constructor|discriminate|exact both_ok|vm_compute; reflexivity].
Qed.
