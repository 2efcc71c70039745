(** Property C92: a sync that runs while something is committed. *)
From Coq Require Import String Ascii.
From Coq Require Import List ZArith NArith Bool Lia Sorted Permutation.
From Verif Require Import PyVal Diff DiffProofs Prepare Mongo Store MongoProofs MongoStore MongoMore PropsMongo Client ClientProofs PropsClient.
From Verif Require Import Index IndexSpec IndexProofs PropsIndex Sync SyncSpec SyncProofs SyncBuild SyncColl SyncTrace SyncView SyncMore SyncArcs SyncEvents SyncReach SyncStale SyncRace PropsSync PropsSyncRefuted.
Import ListNotations.
Open Scope string_scope.
Open Scope list_scope.
Open Scope Z_scope.

(** ** Specification *)
(** The indices show the same documents of the record (the order of the arcs' documents does not matter). *)
Definition same_of {P} (id : pystr) (e e' : es P) : Prop :=
  lat_of id (vis e) = lat_of id (vis e') /\ Permutation (arc_of id (vis e)) (arc_of id (vis e')).
(** There is something to sync. *)
Definition behind {O P} (cl : client O) (name : pystr) (e : es P) : Prop :=
  has_data (data cl name) = true /\ forall ls, es_version e = Some ls -> exists w, get_committed_version cl name = Some w /\ ls < w.
(** Each record has one document. *)
Definition one_each (c : coll) : Prop := NoDup (map d_id c).

Section Props.
Context {O P : Type} (parse : dict -> O -> P) (peq : P -> P -> bool) (cap : N) (name : pystr).
Notation sync := (sync parse peq cap).
Notation sync_seen := (sync_seen parse peq cap).

Lemma seen_of_live id (e1 e2 : es P) : fresh e1 -> fresh e2 -> lat_of id (live e1) = lat_of id (live e2) -> arc_of id (live e1) = arc_of id (live e2) -> same_of id e1 e2.
Proof.
  intros F1 F2 L A. assert (G : forall x : es P, fresh x -> Permutation (arc_of id (vis x)) (arc_of id (live x))) by (intros x Fx; unfold arc_of; apply perm_filter, Permutation_map, fresh_arc_perm, Fx).
  split.
  - unfold lat_of in *. rewrite (proj1 F1), (proj1 F2). exact L.
  - rewrite (G e1 F1), (G e2 F2), A. reflexivity.
Qed.

(** ** C92 *)
(** A sync that began in the state [cl] and saw the documents of the state [cl'] when it came to them, where no
    options are new, is the sync of [cl']. *)
Theorem C92_all_seen_partial : forall (cl cl' : client O) (e : es P), behind cl name e -> behind cl' name e ->
  get_options cl' name = get_options cl name -> sync_seen cl (data cl' name) name false e = sync cl' name false e.
Proof.
  intros cl cl' e [H1 B1] [H2 B2] Ho. rewrite <- sync_seen_all. unfold SyncRace.sync_seen. rewrite Ho. f_equal.
  apply seen_version; [exact H1|exact H2|]. intros ls E. destruct (B1 ls E) as (w & -> & L). destruct (B2 ls E) as (w' & -> & L'). exists w, w'. auto.
Qed.

(** Whatever it saw of the other records: a record seen as it was before has the documents that the sync of the state before
    gives it, a record seen as it was after has those of the sync of the state after. *)
Theorem C92_each_record : forall (cl cl' : client O) (m : coll) (e e0 e1 e' : es P) (id : pystr),
  fresh e -> behind cl name e -> behind cl' name e -> get_options cl' name = get_options cl name ->
  one_each (data cl name) -> one_each (data cl' name) -> one_each m ->
  sync cl name false e = Some e0 -> sync cl' name false e = Some e1 -> sync_seen cl m name false e = Some e' ->
  (docs_of id m = docs_of id (data cl name) -> same_of id e' e0) /\ (docs_of id m = docs_of id (data cl' name) -> same_of id e' e1).
Proof.
  intros cl cl' m e e0 e1 e' id Fr B1 B2 Ho N1 N2 Nm S0 S1 Sm.
  rewrite <- (C92_all_seen_partial cl cl' e B1 B2 Ho) in S1. rewrite <- sync_seen_all in S0. unfold SyncRace.sync_seen in *.
  pose proof (seen_fresh parse peq cap _ _ _ _ _ _ _ Fr S0) as F0. pose proof (seen_fresh parse peq cap _ _ _ _ _ _ _ Fr S1) as F1. pose proof (seen_fresh parse peq cap _ _ _ _ _ _ _ Fr Sm) as Fm.
  split; intro E.
  - destruct (seen_record parse peq cap _ _ _ _ _ _ _ _ _ id Nm N1 E Sm S0). apply seen_of_live; assumption.
  - destruct (seen_record parse peq cap _ _ _ _ _ _ _ _ _ id Nm N2 E Sm S1). apply seen_of_live; assumption.
Qed.

(** When the indices show a document of the committed version, whichever record it is of, further syncs do nothing. *)
Theorem C92_stuck : forall (cl : client O) (e : es P) (v : Z) (d : esdoc P), get_committed_version cl name = Some v ->
  In d (search_all e) -> v <= e_ver d -> sync cl name false e = Some e.
Proof.
  intros cl e v d Hv Hd L. unfold Sync.sync, sync_plan, plan. destruct (has_data (data cl name)); cbn [negb]; [|reflexivity].
  assert (K : exists w, es_version e = Some w /\ v <= w).
  { destruct (es_version e) as [w|] eqn:Ew.
    - exists w. split; [reflexivity|]. apply es_version_spec in Ew. destruct Ew as [_ Ew]. specialize (Ew d Hd). lia.
    - exfalso. unfold es_version in Ew. refine (proj1 (max_opt_none _) Ew (e_ver d) _). apply in_or_app. left. apply (in_map (fun d => Some (e_ver d))). exact Hd. }
  destruct K as (w & -> & Lw). rewrite Hv. rewrite (proj2 (Z.leb_le _ _)) by lia. reflexivity.
Qed.
End Props.
Print Assumptions C92_all_seen_partial.
Print Assumptions C92_each_record.
Print Assumptions C92_stuck.

(** What a cursor sees of a collection that becomes another: the same records, each as before or as after. *)
Definition one_or_other (c c' m : coll) : Prop := map d_id m = map d_id c /\ forall d, In d m -> In d c \/ In d c'.

(** Two of three records are changed and then committed at 20. A first sync goes on at the same time: it sees the first record before
    the commit changes it and the second after. It leaves the first out, as it is not committed then, and writes the second
    with the version 20. The next sync compares 20 with 20 and does nothing, so the indices lack a record that has been
    committed twice. *)
Definition race_calls : list event := [put [("r1", X 1); ("r2", X 2); ("r3", X 0)]; commit_at 10; put [("r1", X 3); ("r2", X 4)]].
Definition race_before : client nat := match run_events start race_calls with Some (_, _, _, _, cl, _) => cl | None => empty_client end.
Definition race_after : client nat := fst (commit Nat.eqb 0%nat race_before db 20).
Definition race_seen : coll := firstn 1 (data race_before db) ++ skipn 1 (data race_after db).
Definition race_es : es (dict * nat) := match sync_seen toy_parse toy_eq 2000000%N race_before race_seen db false empty_es with Some e => e | None => empty_es end.
Theorem C92_next_sync_refuted : exists n t s calls (cl : client nat) (e : es (dict * nat)) m e1,
  toy_reaches any_time n t s calls cl e /\ t < 20 /\
  let cl' := fst (commit Nat.eqb 0%nat cl db 20) in
  one_or_other (data cl db) (data cl' db) m /\ get_options cl' db = get_options cl db /\
  sync_seen toy_parse toy_eq 2000000%N cl m db false e = Some e1 /\
  committed (state (calls ++ [CCommit db 20])) (lit "r1") = [(20, X 3); (10, X 1)] /\
  toy_sync cl' db false e1 = Some e1 /\
  (forall d, In d (search_all e1) -> e_id d <> lit "r1").
Proof.
  destruct (run_events start race_calls) as [[[[[[n t] s] calls] cl] e]|] eqn:E; [|vm_compute in E; discriminate].
  exists n, t, s, calls, cl, e, race_seen, race_es.
  pose proof (run_ok any_time any_time_b race_calls _ any_time_b_ok eq_refl E) as Hr. cbn [reach_sys] in Hr. split; [exact Hr|].
  vm_compute in E. injection E as <- <- <- <- <- <-. clear Hr. cbv zeta. split; [lia|].
  split; [split; [reflexivity|]; vm_compute; intros d [<-|[<-|[<-|[]]]]; [left|right|left]; tauto|].
  split; [vm_compute; reflexivity|]. split; [vm_compute; reflexivity|]. split; [vm_compute; reflexivity|].
  split; [vm_compute; reflexivity|]. vm_compute. intros d H. repeat (destruct H as [<-|H]; [discriminate|]). destruct H.
Qed.
Print Assumptions C92_next_sync_refuted.

(** Even after r1 is changed once more, committed at 30 and synced, its version 10 stays away. *)
Example C92_lost_for_good : exists cl2 e2 d,
  do_call Nat.eqb 0%nat race_after (CIngest db None [(lit "r1", X 5)]) = Some cl2 /\
  toy_sync (fst (commit Nat.eqb 0%nat cl2 db 30)) db false race_es = Some e2 /\
  In d (search_all e2) /\ e_id d = lit "r1" /\ e_ver d = 30 /\ forall d, In d (search_all e2) -> e_id d = lit "r1" -> 20 <= e_ver d.
Proof.
  eexists _, _, _. split; [vm_compute; reflexivity|]. split; [vm_compute; reflexivity|]. split; [right; right; left; reflexivity|].
  split; [reflexivity|]. split; [reflexivity|]. intros d H. vm_compute in H. repeat (destruct H as [<-|H]; [vm_compute; discriminate|]). destruct H.
Qed.

(** The race meets the hypotheses of the theorems: r1 is seen as before, r2 as after. *)
Example C92_example : exists e0 e1,
  fresh (P := dict * nat) empty_es /\ behind race_before db (P := dict * nat) empty_es /\ behind race_after db (P := dict * nat) empty_es /\
  get_options race_after db = get_options race_before db /\ one_each (data race_before db) /\ one_each (data race_after db) /\ one_each race_seen /\
  toy_sync race_before db false empty_es = Some e0 /\ toy_sync race_after db false empty_es = Some e1 /\
  sync_seen toy_parse toy_eq 2000000%N race_before race_seen db false empty_es = Some race_es /\
  docs_of (lit "r1") race_seen = docs_of (lit "r1") (data race_before db) /\ docs_of (lit "r2") race_seen = docs_of (lit "r2") (data race_after db) /\
  (exists d, In d (search_all race_es) /\ e_ver d = 20) /\ get_committed_version race_after db = Some 20.
Proof.
  assert (N : forall c, map d_id c = [lit "r1"; lit "r2"; lit "r3"] -> one_each c).
  { intros c E. unfold one_each. rewrite E. repeat constructor; cbn; intuition discriminate. }
  eexists _, _. split; [split; reflexivity|]. split; [split; [reflexivity|intros ls K; vm_compute in K; discriminate]|]. split; [split; [reflexivity|intros ls K; vm_compute in K; discriminate]|].
  split; [reflexivity|]. split; [apply N; reflexivity|]. split; [apply N; reflexivity|]. split; [apply N; reflexivity|].
  split; [vm_compute; reflexivity|]. split; [vm_compute; reflexivity|]. split; [vm_compute; reflexivity|].
  split; [vm_compute; reflexivity|]. split; [vm_compute; reflexivity|]. split; [|vm_compute; reflexivity].
  eexists. split; [left; reflexivity|reflexivity].
Qed.
