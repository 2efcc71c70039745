(** Property C76: what a search at a version returns, from the ingested records to the rebuilt data. *)
From Coq Require Import String Ascii.
From Coq Require Import List ZArith NArith Bool Lia.
From Coq Require Import Floats.SpecFloat.
From Verif Require Import PyVal Diff DiffProofs Time Prepare PropsPrepare Mongo Store MongoProofs MongoStore Client ClientProofs.
From Verif Require Import Parser ParserProofs ParserTypes ParserEq PropsParser PropsTotal ParserSim Options.
From Verif Require Import Index IndexSpec Sync SyncSpec SyncTrace SyncReach PropsSync EndToEnd.
From Verif Require PropsSyncRefuted.
Import ListNotations.
Open Scope string_scope.
Open Scope list_scope.
Open Scope Z_scope.

(** A history of the database [name] with the modelled parser: ingests of record data with scalars of [S],
    commits at increasing times, changes of options, rollbacks and syncs (see [reaches] in SyncReach.v);
    every sync happens with options and without pending changes, after at most one commit or while no
    record was changed and then deleted since the last sync. Parsing does not raise (C75). *)
Definition synced_history (L : lib) (S : value -> Prop) (odef : options) (cap : N) (name : pystr)
    (n : nat) (t s : Z) (calls : list (call options)) (cl : client options) (e : es (option parsed_data)) : Prop :=
  reaches opts_eqb odef (parse_opt L) popt_eqb (record_data S) cap name synced_ok n t s calls cl e /\
  synced_ok n s (a_run a_empty (proj name calls)) (get_options cl name) /\
  all_parse (parse_opt L) (committed (a_run a_empty (proj name calls))) (get_options cl name).

(** One hit whose rebuilt data are the data of the record as of [v] (up to the order of keys and what
    indexing forgets, C35) if it has any, no hit if it has none. *)
Definition gives_data (hits : list (esdoc (option parsed_data))) (v : Z) (id : pystr) (h : list (Z * dict)) : Prop :=
  ((forall x, in_force h v x -> x = []) -> hits_of id hits = []) /\
  (forall x, in_force h v x -> x <> [] ->
     exists hit r, hits_of id hits = [hit] /\ e_parsed hit = Some r /\ vident (VDict (rebuild_data (p_parsed r))) (VDict (forget_dict x))).

Theorem C76_search_data_partial : forall L S odef cap name n t s calls cl e,
  keyed L -> type_exact S -> synced_history L S odef cap name n t s calls cl e ->
  exists e', sync (parse_opt L) popt_eqb cap cl name false e = Some e' /\
    forall v hits id, search_at e' v = Some hits -> gives_data hits v id (committed (a_run a_empty (proj name calls)) id).
Proof.
  intros L S odef cap name n t s calls cl e KD HS (H & Ha & AP). exact (search_data L KD S HS opts_eqb odef cap name n t s calls cl e H Ha AP).
Qed.
Print Assumptions C76_search_data_partial.
(** Parsing does not raise when no dict of the records has a list where a hint has its latitude, nor is read as
    GeoJSON with an exception. *)
Theorem C76_all_parsed : forall L (h : pystr -> list (Z * dict)) om, value_points L ->
  (forall id v x w o, In (v, x) (h id) -> In (w, o) om -> wfd x /\ no_list_latitudes o x /\ geojson_quiet L x) -> all_parse (parse_opt L) h om.
Proof. intros L h om VP H id v x w o Hx Ho. destruct (H id v x w o Hx Ho) as (H1 & H2 & H3). destruct (parse_some L o x H1 VP H2 H3) as (r & E). unfold parse_opt. rewrite E. discriminate. Qed.
Print Assumptions C76_all_parsed.
(** Prepared records are record data. *)
Theorem C76_records : forall db pad rec, db_ok db -> record_data (fun _ => True) (prepare_record_data db pad rec).
Proof. intros db pad rec Hdb. split; [exact (record_wf db pad rec)|]. split; [intros a _ _; exact I|exact (record_fine db pad rec Hdb)]. Qed.
Print Assumptions C76_records.

(** ** Examples *)
Definition db0 : pystr := lit "db".
Definition rec_of (l : list (string * value)) : dict := map (fun kv => (lit (fst kv), snd kv)) l.
Definition put_one (x : dict) : call options := CIngest db0 None [(lit "r", x)].
Lemma ex_keyed : keyed ex_lib.
Proof. constructor; reflexivity. Qed.
Lemma ex_points : value_points ex_lib.
Proof. intros lon lat r n H. contradiction. Qed.
Lemma ex_parses d o : wfd d -> parse_opt ex_lib d o <> None.
Proof.
  intros W E. apply (parse_none ex_lib o d W) in E. assert (NB : forall d', ~ bad_dict ex_lib o d') by (intros d' (h & _ & (g & H) & _); apply hint_match_gives in H; discriminate H).
  destruct E as [B|(k & v & d' & _ & _ & [B|B])]; [exact (NB _ B)|exact (NB _ B)|discriminate B].
Qed.
Notation ex_sync := (sync (parse_opt ex_lib) popt_eqb 2000000%N).
Definition do (cl : client options) (c : call options) : client options := match do_call opts_eqb ex_opts cl c with Some cl' => cl' | None => cl end.
Definition one := rec_of [("a", VInt 1); ("b", VInt 0)].
Definition two := rec_of [("a", VBool true); ("b", VInt 1)].
Definition three := rec_of [("a", VStr (lit "x")); ("b", VInt 1)].

(** put [x], commit at 1, sync, put [y], commit at 2 *)
Section History.
Variables x y : dict.
Definition cl_a := do empty_client (put_one x).
Definition cl_b := fst (commit opts_eqb ex_opts cl_a db0 1).
Definition cl_c := do cl_b (put_one y).
Definition cl_d := fst (commit opts_eqb ex_opts cl_c db0 2).
Definition e_a : es (option parsed_data) := match ex_sync cl_b db0 false empty_es with Some e => e | None => empty_es end.
Definition calls_a : list (call options) := [put_one x; CCommit db0 1].
Definition calls_b : list (call options) := [put_one x; CCommit db0 1; put_one y; CCommit db0 2].
Lemma only_r cs id : (forall i, In i (PropsSyncRefuted.touched (proj (O := options) db0 cs)) -> i = lit "r") -> id = lit "r" \/ a_run a_empty (proj db0 cs) id = None.
Proof.
  intro H. destruct (str_eqb id (lit "r")) eqn:E; [left; apply str_eqb_eq, E|right]. apply PropsSyncRefuted.untouched; [reflexivity|]. intro K. apply H in K. apply str_eqb_neq in E. contradiction.
Qed.
Lemma settled cs cl : (forall i, In i (PropsSyncRefuted.touched (proj (O := options) db0 cs)) -> i = lit "r") ->
  match a_run a_empty (proj db0 cs) (lit "r") with Some (AR _ None) => true | _ => false end = true -> get_options cl db0 <> [] -> synced_ok 1%nat 0 (a_run a_empty (proj db0 cs)) (get_options cl db0) /\ synced_ok 1%nat 1 (a_run a_empty (proj db0 cs)) (get_options cl db0).
Proof.
  intros H Hr Ho. assert (G : forall s, synced_ok 1%nat s (a_run a_empty (proj db0 cs)) (get_options cl db0)); [|split; apply G].
  intro s. right. split; [intros id _; exact Ho|]. split; [|lia]. intros id h p K. destruct (only_r cs id H) as [->|E]; [|congruence]. rewrite K in Hr. discriminate.
Qed.
Lemma history S : record_data S x -> record_data S y ->
  do_call opts_eqb ex_opts empty_client (put_one x) = Some cl_a -> do_call opts_eqb ex_opts cl_b (put_one y) = Some cl_c ->
  ex_sync cl_b db0 false empty_es = Some e_a -> get_options cl_b db0 <> [] -> get_options cl_d db0 <> [] ->
  match a_run a_empty (proj db0 calls_a) (lit "r") with Some (AR _ None) => true | _ => false end = true ->
  match a_run a_empty (proj db0 calls_b) (lit "r") with Some (AR _ None) => true | _ => false end = true ->
  synced_history ex_lib S ex_opts 2000000%N db0 1 2 1 calls_b cl_d e_a.
Proof.
  intros Hx Hy D1 D2 Es O1 O2 R1 R2.
  assert (Ok : forall z, record_data S z -> Forall (step_ok (record_data S)) (proj_call db0 (put_one z))).
  { intros z Hz. constructor; [|constructor]. split; [|constructor; [exact Hz|constructor]]. intros [|i] [|j] r r' Hi Hj _; try reflexivity; [destruct j|destruct i|destruct i]; discriminate. }
  split.
  - change calls_b with (([put_one x; CCommit db0 1] ++ [put_one y]) ++ [CCommit db0 2]). apply (at_commit _ _ _ _ _ _ _ _ 0%nat 1); [|lia].
    apply (at_call _ _ _ _ _ _ _ _ 0%nat 1 1 _ cl_b); [|discriminate|exact (Ok y Hy)|exact D2].
    apply (at_sync _ _ _ _ _ _ _ _ 1%nat 1 0 _ _ empty_es); [|apply (settled calls_a cl_b); [|exact R1|exact O1]|exact Es].
    + change [put_one x; CCommit db0 1] with (([] ++ [put_one x]) ++ [CCommit db0 1]). apply (at_commit _ _ _ _ _ _ _ _ 0%nat 0); [|lia].
      apply (at_call _ _ _ _ _ _ _ _ 0%nat 0 0 _ empty_client); [constructor|discriminate|exact (Ok x Hx)|exact D1].
    + intros i Hi. cbn in Hi. intuition.
  - split; [apply (settled calls_b cl_d); [|exact R2|exact O2]; intros i Hi; cbn in Hi; intuition|].
    assert (Ist : Forall (step_ok (record_data S)) (proj db0 calls_b)).
    { change (proj db0 calls_b) with (proj_call db0 (put_one x) ++ proj_call (O := options) db0 (CCommit db0 1) ++ proj_call db0 (put_one y) ++ proj_call (O := options) db0 (CCommit db0 2)).
      apply Forall_app; split; [exact (Ok x Hx)|]. apply Forall_app; split; [repeat constructor|]. apply Forall_app; split; [exact (Ok y Hy)|repeat constructor]. }
    intros id v z w o Hz _. apply ex_parses. unfold committed in Hz. destruct (a_run a_empty (proj db0 calls_b) id) as [r|] eqn:E; [|destruct Hz].
    destruct (run_good (record_data S) _ Ist a_empty (fun id r Q => ltac:(discriminate)) id r E) as [G _]. exact (proj1 (G v z Hz)).
Qed.
End History.
Lemma record_ok S d : wfb (VDict d) = true -> (forall k v, In (k, v) d -> is_scalar v = true /\ S v) -> record_data S d.
Proof.
  intros W H. split; [exact W|]. split.
  - apply scalars_dict. intros k v Hk. apply scalars_one; apply (H k v Hk).
  - apply Forall_forall. intros [k v] Hk. destruct (H k v Hk) as [Hs _]. destruct v; try discriminate; exact I.
Qed.
Ltac history := apply history; [apply record_ok; [reflexivity|]|apply record_ok; [reflexivity|]|vm_compute; reflexivity|vm_compute; reflexivity|vm_compute; reflexivity|vm_compute; discriminate|vm_compute; discriminate|vm_compute; reflexivity|vm_compute; reflexivity].
(** The hypotheses are met, and the searches at both versions find the record. *)
Definition ints_or_text (v : value) : Prop := match v with VInt _ | VStr _ => True | _ => False end.
Example C76_example : keyed ex_lib /\ value_points ex_lib /\ type_exact ints_or_text /\
  synced_history ex_lib ints_or_text ex_opts 2000000%N db0 1 2 1 (calls_b one three) (cl_d one three) (e_a one) /\
  exists e', ex_sync (cl_d one three) db0 false (e_a one) = Some e' /\
    option_map (map (fun h => option_map (fun r => rebuild_data (p_parsed r)) (e_parsed h))) (search_at e' 1) = Some [Some one] /\
    option_map (map (fun h => option_map (fun r => rebuild_data (p_parsed r)) (e_parsed h))) (search_at e' 2) = Some [Some three].
Proof.
  split; [exact ex_keyed|]. split; [exact ex_points|]. split.
  - intros [| | | | | |] [| | | | | |] Ha Hb E; try destruct Ha; try destruct Hb; try discriminate; f_equal.
    + unfold scalar_eqb, num_of, num_eqb in E. apply QArith_base.Qeq_bool_iff in E. unfold QArith_base.Qeq in E. cbn in E. lia.
    + apply str_eqb_eq. exact E.
  - split.
    + history; intros k v Hk; repeat (destruct Hk as [Hk|Hk]; [injection Hk as <- <-; split; [reflexivity|exact I]|]); destruct Hk.
    + eexists. split; [vm_compute; reflexivity|]. split; vm_compute; reflexivity.
Qed.
(** C76, as stated, is false: after a change of a value to one that Python considers equal, searches at
    the older version show the newer value (True for 1), although its type matters to users and queries. *)
Theorem C76_search_data_refuted : exists L S odef cap name n t s calls cl e e' hits id x v hit r,
  keyed L /\ value_points L /\ synced_history L S odef cap name n t s calls cl e /\
  sync (parse_opt L) popt_eqb cap cl name false e = Some e' /\ search_at e' v = Some hits /\
  in_force (committed (a_run a_empty (proj name calls)) id) v x /\ x <> [] /\
  hits_of id hits = [hit] /\ e_parsed hit = Some r /\ forget_dict x = x /\ 
  ~ vident (VDict (rebuild_data (p_parsed r))) (VDict x) /\
  x = rec_of [("a", VInt 1); ("b", VInt 0)] /\ rebuild_data (p_parsed r) = rec_of [("a", VBool true); ("b", VInt 0)].
Proof.
  exists ex_lib, (fun _ => True), ex_opts, 2000000%N, db0, 1%nat, 2, 1, (calls_b one two), (cl_d one two), (e_a one). do 2 eexists. exists (lit "r"), one, 1. do 2 eexists.
  split; [exact ex_keyed|]. split; [exact ex_points|]. split; [history; intros k v Hk; repeat (destruct Hk as [Hk|Hk]; [injection Hk as <- <-; split; [reflexivity|exact I]|]); destruct Hk|].
  split; [vm_compute; reflexivity|]. split; [vm_compute; reflexivity|]. split.
  - exists 1. split; [vm_compute; right; left; reflexivity|]. split; [lia|]. intros w z Hw Hl. exact Hl.
  - split; [discriminate|]. split; [vm_compute; reflexivity|]. split; [vm_compute; reflexivity|]. split; [vm_compute; reflexivity|]. split; [|split; vm_compute; reflexivity].
    intro K. rewrite vident_dict in K. specialize (K (lit "a")). vm_compute in K. inversion K; subst; discriminate.
Qed.
Print Assumptions C76_search_data_refuted.
