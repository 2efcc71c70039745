(** A sync that runs while the data collection is being changed. [sync] takes no lock (manager.py:441-515); it reads the
    options and the versions first and then goes through a cursor over the data collection (manager.py:428-439) while its
    workers write. Each document is seen as it is when the cursor gets to it, so the documents seen can be of different moments. *)
From Coq Require Import String Ascii.
From Coq Require Import List ZArith NArith Bool Lia Sorted Permutation.
From Verif Require Import PyVal Diff Prepare Mongo MongoProofs MongoStore Client ClientProofs Index IndexSpec IndexProofs Sync SyncSpec SyncProofs SyncColl.
Import ListNotations.
Local Open Scope Z_scope.

Section Seen.
Context {O P : Type} (parse : dict -> O -> P) (peq : P -> P -> bool).

(** [Sync.plan] (manager.py:441-515) where the cursor sees [m], and what is read before is of the state with the data
    collection [c], the options and the committed version given. *)
Definition plan_seen (cap : N) (c m : coll) (all_opts : list (Z * O)) (committed : option Z) (resync : bool) (e : es P)
  : option (option (es P * list (bop P))) :=
  if negb (has_data c) then Some None
  else
    let last_sync := if resync then None else es_version e in
    let go (f : Z -> bool) :=
      let e1 := if resync then delete_arcs e else e in
      match find_records f m with
      | None => None
      | Some recs =>
          match gen_ops parse peq cap last_sync all_opts (get_arc_status e1) recs with
          | None => None
          | Some (_, ops) => Some (Some (e1, ops))
          end
      end in
    match last_sync with
    | None => go (fun _ => true)
    | Some ls =>
        match committed with
        | None => None
        | Some cv =>
            if (cv <=? ls)%Z then Some None
            else if existsb (fun v => (ls <? v)%Z) (zkeys all_opts) then go (fun _ => true)
            else go (fun v => (ls <? v)%Z)
        end
    end.
(** manager.py:441-515 [sync] whose cursor sees [m] *)
Definition sync_seen (cap : N) (cl : client O) (m : coll) (name : pystr) (resync : bool) (e : es P) : option (es P) :=
  run_plan (plan_seen cap (data cl name) m (get_options cl name) (get_committed_version cl name) resync e) e.
(** nothing happens in between: the sync of [Sync.v] *)
Lemma sync_seen_all cap cl name resync e : sync_seen cap cl (data cl name) name resync e = sync parse peq cap cl name resync e.
Proof. reflexivity. Qed.

(** ** A record alone *)
Lemma find_ids f : forall m recs, find_records f m = Some recs -> incl (map fst recs) (map d_id m).
Proof.
  induction m as [|d m IH]; intros recs H; cbn [find_records] in H; [injection H as <-; intros x []|].
  destruct (match d_ver d with Some v => f v | None => false end).
  - destruct (rec_hist d) as [h|]; [|discriminate]. destruct (find_records f m) as [l|]; [|discriminate]. injection H as <-. intros x [<-|Hx]; [left; reflexivity|right; apply (IH l eq_refl), Hx].
  - intros x Hx. right. apply (IH _ H), Hx.
Qed.
Lemma find_nodup f : forall m recs, find_records f m = Some recs -> NoDup (map d_id m) -> NoDup (map fst recs).
Proof.
  induction m as [|d m IH]; intros recs H Hn; cbn [find_records] in H; [injection H as <-; constructor|]. inversion Hn as [|? ? Hd Hn']; subst.
  destruct (match d_ver d with Some v => f v | None => false end); [|exact (IH _ H Hn')].
  destruct (rec_hist d) as [h|]; [|discriminate]. destruct (find_records f m) as [l|] eqn:El; [|discriminate]. injection H as <-. constructor; [|exact (IH l eq_refl Hn')].
  intro K. apply Hd. exact (find_ids f m l El _ K).
Qed.
Lemma find_of_id f id : forall m recs, find_records f m = Some recs ->
  find_records f (docs_of id m) = Some (filter (fun r => str_eqb (fst r) id) recs).
Proof.
  induction m as [|d m IH]; intros recs H; cbn [find_records] in H; [injection H as <-; reflexivity|]. cbn [docs_of filter].
  destruct (match d_ver d with Some v => f v | None => false end) eqn:Ef.
  - destruct (rec_hist d) as [h|] eqn:Eh; [|discriminate]. destruct (find_records f m) as [l|]; [|discriminate]. injection H as <-. cbn [filter fst].
    specialize (IH l eq_refl). destruct (str_eqb (d_id d) id); [|exact IH]. cbn [find_records]. rewrite Ef, Eh. fold (docs_of id m). rewrite IH. reflexivity.
  - specialize (IH recs H). destruct (str_eqb (d_id d) id); [|exact IH]. cbn [find_records]. rewrite Ef. exact IH.
Qed.
Lemma ops_of_id cap after om st1 st2 s1 s2 ops1 ops2 f m1 m2 id recs1 recs2 :
  NoDup (map d_id m1) -> NoDup (map d_id m2) -> docs_of id m1 = docs_of id m2 ->
  find_records f m1 = Some recs1 -> find_records f m2 = Some recs2 ->
  gen_ops parse peq cap after om st1 recs1 = Some (s1, ops1) -> gen_ops parse peq cap after om st2 recs2 = Some (s2, ops2) ->
  map strip (of_id id ops1) = map strip (of_id id ops2).
Proof.
  intros N1 N2 E F1 F2 G1 G2. pose proof (find_of_id f id _ _ F1) as K1. pose proof (find_of_id f id _ _ F2) as K2. rewrite E, K2 in K1. injection K1 as K.
  destruct (gen_ops_of_id parse peq cap after om recs1 _ _ _ G1 (find_nodup f _ _ F1 N1) id) as [A1 B1].
  destruct (gen_ops_of_id parse peq cap after om recs2 _ _ _ G2 (find_nodup f _ _ F2 N2) id) as [A2 B2].
  destruct (filter (fun r => str_eqb (fst r) id) recs1) as [|[i h] t] eqn:Ef.
  - rewrite A1, A2; [reflexivity| |]; intro Hin; apply in_map_iff in Hin; destruct Hin as ([i h] & Ei & Hin); cbn [fst] in Ei; subst i;
      (assert (X : In (id, h) []); [|destruct X]); [rewrite <- K|rewrite <- Ef]; apply filter_In; (split; [exact Hin|apply str_eqb_refl]).
  - assert (H1 : In (i, h) recs1 /\ str_eqb (fst (i, h)) id = true) by (apply (filter_In (fun r : pystr * list (Z * dict) => str_eqb (fst r) id)); rewrite Ef; left; reflexivity).
    assert (H2 : In (i, h) recs2 /\ str_eqb (fst (i, h)) id = true) by (apply (filter_In (fun r : pystr * list (Z * dict) => str_eqb (fst r) id)); rewrite K; left; reflexivity).
    destruct H1 as [H1 Ei]. cbn [fst] in Ei. apply str_eqb_eq in Ei. subst i. destruct (B1 h H1) as (r1 & Eb1 & S1). destruct (B2 h (proj1 H2)) as (r2 & Eb2 & S2). congruence.
Qed.
(** What a sync writes of a record depends on how the sync sees this record, not on how it sees the others. *)
Theorem seen_record cap c m1 m2 om cv resync e e1 e2 id :
  NoDup (map d_id m1) -> NoDup (map d_id m2) -> docs_of id m1 = docs_of id m2 ->
  run_plan (plan_seen cap c m1 om cv resync e) e = Some e1 -> run_plan (plan_seen cap c m2 om cv resync e) e = Some e2 ->
  lat_of id (live e1) = lat_of id (live e2) /\ arc_of id (live e1) = arc_of id (live e2).
Proof.
  intros N1 N2 E. unfold plan_seen. destruct (has_data c); cbn [negb]; [|intros H1 H2; cbn in H1, H2; split; congruence].
  set (ls := if resync then None else es_version e). set (e0 := if resync then delete_arcs e else e).
  assert (Go : forall f,
     run_plan (match find_records f m1 with None => None | Some recs => match gen_ops parse peq cap ls om (get_arc_status e0) recs with None => None | Some (_, ops) => Some (Some (e0, ops)) end end) e = Some e1 ->
     run_plan (match find_records f m2 with None => None | Some recs => match gen_ops parse peq cap ls om (get_arc_status e0) recs with None => None | Some (_, ops) => Some (Some (e0, ops)) end end) e = Some e2 ->
     lat_of id (live e1) = lat_of id (live e2) /\ arc_of id (live e1) = arc_of id (live e2)).
  { intro f. destruct (find_records f m1) as [recs1|] eqn:F1; [|discriminate]. destruct (gen_ops parse peq cap ls om (get_arc_status e0) recs1) as [[s1 ops1]|] eqn:G1; [|discriminate].
    destruct (find_records f m2) as [recs2|] eqn:F2; [|discriminate]. destruct (gen_ops parse peq cap ls om (get_arc_status e0) recs2) as [[s2 ops2]|] eqn:G2; [|discriminate].
    cbn [run_plan]. intros H1 H2. injection H1 as <-. injection H2 as <-. rewrite !write_live_docs, !lat_of_apply, !arc_of_apply.
    pose proof (ops_of_id _ _ _ _ _ _ _ _ _ _ _ _ _ _ _ N1 N2 E F1 F2 G1 G2) as K.
    rewrite <- (lat_run_strip (of_id id ops1)), <- (lat_run_strip (of_id id ops2)), <- (arc_adds_strip (of_id id ops1)), <- (arc_adds_strip (of_id id ops2)), K. auto. }
  destruct ls as [l|]; [|exact (Go _)]. destruct cv as [w|]; [|discriminate]. destruct (w <=? l); [intros H1 H2; cbn in H1, H2; split; congruence|]. destruct (existsb _ _); exact (Go _).
Qed.

(** The committed version only decides whether there is something to do. *)
Lemma seen_version cap c c' m om cv cv' e : has_data c = true -> has_data c' = true ->
  (forall ls, es_version e = Some ls -> exists w w', cv = Some w /\ cv' = Some w' /\ ls < w /\ ls < w') ->
  plan_seen cap c m om cv false e = plan_seen cap c' m om cv' false e.
Proof.
  intros H1 H2 H. unfold plan_seen. rewrite H1, H2. cbn [negb]. destruct (es_version e) as [ls|]; [|reflexivity].
  destruct (H ls eq_refl) as (w & w' & -> & -> & L & L'). rewrite (proj2 (Z.leb_gt _ _) L), (proj2 (Z.leb_gt _ _) L'). reflexivity.
Qed.
Lemma seen_fresh cap c m om cv resync e e1 : fresh e -> run_plan (plan_seen cap c m om cv resync e) e = Some e1 -> fresh e1.
Proof.
  intros Fr. unfold plan_seen. destruct (has_data c); cbn [negb]; [|intro H; cbn in H; congruence].
  assert (F0 : fresh (if resync then delete_arcs e else e)) by (destruct resync; [destruct Fr as [A _]; split; [exact A|reflexivity]|exact Fr]).
  assert (Go : forall f, run_plan (match find_records f m with None => None | Some recs => match gen_ops parse peq cap (if resync then None else es_version e) om (get_arc_status (if resync then delete_arcs e else e)) recs with None => None | Some (_, ops) => Some (Some (if resync then delete_arcs e else e, ops)) end end) e = Some e1 -> fresh e1).
  { intro f. destruct (find_records f m) as [recs|]; [|discriminate]. destruct (gen_ops _ _ _ _ _ _ _) as [[s ops]|]; [|discriminate]. cbn [run_plan]. intro H. injection H as <-. apply write_fresh, F0. }
  destruct (if resync then None else es_version e) as [l|]; [|exact (Go _)]. destruct cv as [w|]; [|discriminate]. destruct (w <=? l); [intro H; cbn in H; congruence|]. destruct (existsb _ _); exact (Go _).
Qed.
End Seen.
