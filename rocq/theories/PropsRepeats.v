(** Property C13: what becomes of ids that come again in a later batch. *)
From Coq Require Import String Ascii.
From Coq Require Import List ZArith NArith Bool Lia.
From Verif Require Import PyVal Diff DiffProofs Prepare PrepareProofs Mongo Store MongoProofs MongoStore MongoMore PropsMongo Client ClientProofs PropsWrites Repeats.
Import ListNotations.
Open Scope string_scope.
Open Scope list_scope.
Open Scope nat_scope.

(** ** Specification *)
(** The collection has just this of the record. *)
Definition keeps (c : coll) (id : pystr) (s : stored) : Prop :=
  match s with
  | Fresh l => Forall2 (fun d x => exists y, iter_doc d = Some [(None, y)] /\ veq (VDict y) (VDict x)) (docs_of id c) l
  | Known h p => exists d l, docs_of id c = [d] /\ iter_doc d = Some l /\ Forall2 same_entry l (view (AR h p))
  end.
(** the data with which an id comes in the batches in which it comes: the last of each *)
Definition arrivals (id : pystr) (batches : list (list (pystr * dict))) : list dict :=
  flat_map (fun b => match last_data id b with Some x => [x] | None => [] end) batches.
(** the last element for which a test holds *)
Definition last_such (f : dict -> bool) (l : list dict) : option dict := hd_error (rev (filter f l)).

Lemma last_such_cons f y l : last_such f (y :: l) = match last_such f l with Some z => Some z | None => if f y then Some y else None end.
Proof. unfold last_such. cbn [filter]. destruct (f y); cbn [rev]; destruct (rev (filter f l)); reflexivity. Qed.

Lemma srel_keeps bound c id s : srel bound (docs_of id c) s -> keeps c id s.
Proof.
  destruct s as [l|h p]; cbn [srel keeps].
  - apply Forall2_weaken. intros d x (H1 & H2 & H3 & H4 & H5). exists (d_data d). split; [|exact H5]. unfold iter_doc. rewrite H2, H1. reflexivity.
  - intros (_ & d & E & _ & _ & l & Hl & F). exists d, l. auto.
Qed.
Lemma reach_stored b ss : clock_increasing b ss -> Forall call_ok ss ->
  exists c b', run [] ss = Some c /\ Srel b' c (fun id => stored_of (a_run a_empty ss id)).
Proof.
  intros Hc Hs. destruct (reach b ss Hc Hs) as (c & b' & E & HC & _). exists c, b'. split; [exact E|]. intro id. apply drel_stored, HC.
Qed.

(** ** C13 *)
(** Any stream, in any state: what every record is afterwards. *)
Theorem C13_exact : forall (b : Z) (ss : list step) mf recs,
  clock_increasing b ss -> Forall call_ok ss -> Forall (fun r => wfd (snd r)) recs ->
  exists c c', run [] ss = Some c /\ ingest INGEST_SIZE mf c recs = Some c' /\
    forall id, keeps c' id (through INGEST_SIZE mf (fun id => stored_of (a_run a_empty ss id)) [] (partition recs INGEST_SIZE) id).
Proof.
  intros b ss mf recs Hc Hs Hw. destruct (reach_stored b ss Hc Hs) as (c & b' & E & HS).
  destruct (through_rel b' INGEST_SIZE mf (partition recs INGEST_SIZE) c _ [] [] HS) as (os & Eo & H); [constructor|rewrite partition_concat; [exact Hw|unfold INGEST_SIZE; lia]|].
  exists c, (apply_mops c os). split; [exact E|]. split; [unfold ingest, ingest_ops; rewrite Eo; reflexivity|]. intro id. exact (srel_keeps _ _ _ _ (H id)).
Qed.
Print Assumptions C13_exact.

(** *** All writes at once *)
Definition of_id (id : pystr) (l : list (pystr * write)) : list write := map snd (filter (fun iw => str_eqb (fst iw) id) l).
Lemma put_writes_id l : forall S id, put_writes S l id = fold_left (fun s w => perform w s) (of_id id l) (S id).
Proof.
  induction l as [|[i w] l IH]; intros S id; [reflexivity|]. cbn [put_writes fold_left of_id filter fst]. fold (put_writes (put_write S (i, w)) l). rewrite IH. unfold put_write, of_id. cbn [fst snd filter].
  destruct (str_eqb i id); reflexivity.
Qed.
Lemma of_id_app id a b : of_id id (a ++ b) = of_id id a ++ of_id id b.
Proof. unfold of_id. rewrite filter_app, map_app. reflexivity. Qed.
Definition one (o : option write) : list write := match o with Some w => [w] | None => [] end.
Lemma of_id_decisions mf S id : forall rs, NoDup (map fst rs) ->
  of_id id (decisions mf S rs) = match dget rs id with Some x => one (decide mf x (S id)) | None => [] end.
Proof.
  induction rs as [|[i x] rs IH]; intro Hn; [reflexivity|]. inversion Hn as [|? ? Hi Hn']; subst. cbn [decisions flat_map fst snd dget]. rewrite of_id_app. fold (decisions mf S rs). rewrite (IH Hn').
  rewrite (str_eqb_sym id i). destruct (str_eqb i id) eqn:E.
  - apply str_eqb_eq in E. subst i. assert (Eg : dget rs id = None) by (apply dget_None; exact Hi). rewrite Eg, app_nil_r. destruct (decide mf x (S id)); [|reflexivity]. unfold of_id. cbn [filter fst]. rewrite str_eqb_refl. reflexivity.
  - destruct (decide mf x (S i)); [|reflexivity]. unfold of_id. cbn [filter fst]. rewrite E. reflexivity.
Qed.
Lemma decisions_last mf S id b : of_id id (decisions mf S (dict_of b)) = match last_data id b with Some x => one (decide mf x (S id)) | None => [] end.
Proof. rewrite of_id_decisions by apply (NoDup_dict_of b). rewrite dget_dict_of_last. reflexivity. Qed.

Lemma through_few bound size mf : size >= 1 -> forall chunks c S pend wait os, Srel bound c S -> Forall2 (brel S) pend wait -> Forall (fun r => wfd (snd r)) (concat chunks) ->
  ingest_loop size mf c pend chunks = Some os -> length os < size ->
  through size mf S wait chunks = put_writes S (wait ++ flat_map (fun b => decisions mf S (dict_of b)) chunks).
Proof.
  intro Hsz. induction chunks as [|ch rest IH]; intros c S pend wait os Hs Hp Hw H Hl; cbn [ingest_loop through flat_map] in *; [rewrite app_nil_r; reflexivity|].
  cbn [concat] in Hw. apply Forall_app in Hw. destruct Hw as [Hw1 Hw2]. rewrite chunk_ops_map in H.
  destruct (decisions_rel bound mf c S Hs (by_id ch)) as (o1 & E & F); [apply (by_id_good (fun d => wfd d)); exact Hw1|]. rewrite E in H. cbv zeta in *.
  assert (F2 : Forall2 (brel S) (pend ++ o1) (wait ++ decisions mf S (by_id ch))) by (apply Forall2_app; assumption).
  change (dict_of ch) with (by_id ch). rewrite <- (Forall2_length _ _ _ F2). set (n := length (pend ++ o1) / size * size) in *.
  destruct (ingest_loop size mf (apply_mops c (firstn n (pend ++ o1))) (skipn n (pend ++ o1)) rest) as [l|] eqn:El; [|discriminate]. cbn [bind] in H. injection H as <-.
  rewrite app_length, firstn_length in Hl.
  assert (Hn : n = 0).
  { assert (n <= length (pend ++ o1)) by (unfold n; pose proof (Nat.div_mod (length (pend ++ o1)) size ltac:(lia)); lia).
    assert (n < size) by lia. assert (En : n = length (pend ++ o1) / size * size) by reflexivity. destruct (Nat.eq_0_gt_0_cases (length (pend ++ o1) / size)) as [Eq|Eq]; nia. }
  rewrite Hn in *. cbn [firstn skipn app apply_mops fold_left put_writes] in *. rewrite (IH c S (pend ++ o1) (wait ++ decisions mf S (by_id ch)) l Hs F2 Hw2 El) by lia. rewrite app_assoc. reflexivity.
Qed.
Lemma arrivals_cons id b r : arrivals id (b :: r) = match last_data id b with Some x => [x] | None => [] end ++ arrivals id r. Proof. reflexivity. Qed.
Lemma of_id_arrivals mf S id : forall chunks, of_id id (flat_map (fun b => decisions mf S (dict_of b)) chunks) = flat_map (fun x => one (decide mf x (S id))) (arrivals id chunks).
Proof.
  induction chunks as [|b chunks IH]; [reflexivity|]. cbn [flat_map]. rewrite of_id_app, decisions_last, IH, arrivals_cons, flat_map_app. f_equal. destruct (last_data id b); [|reflexivity]. cbn [flat_map]. rewrite app_nil_r. reflexivity.
Qed.

Definition is_data (x : dict) : bool := negb (isnil x).
Definition differs (p x : dict) : bool := negb (py_eqb (VDict x) (VDict p)).
(** A stream with fewer than 200 operations. A record that is not there is added once for each batch in which it comes with data. A
    record that was never committed is gone if one of the batches deletes it, and otherwise has the last data that differ
    from what it had. A committed record without pending changes has the last data that differ from those committed. Only a
    committed record with pending changes always has its last data. *)
Theorem C13_few_exact : forall (b : Z) (ss : list step) mf recs os,
  clock_increasing b ss -> Forall call_ok ss -> Forall (fun r => wfd (snd r)) recs ->
  exists c c', run [] ss = Some c /\ ingest INGEST_SIZE mf c recs = Some c' /\
    (ingest_ops INGEST_SIZE mf c recs = Some os -> length os < INGEST_SIZE -> forall id,
     let xs := arrivals id (partition recs INGEST_SIZE) in
     keeps c' id
       match a_run a_empty ss id with
       | None | Some (AR [] None) => Fresh (filter is_data xs)
       | Some (AR [] (Some p)) => if existsb (@isnil _) xs then Fresh []
                                  else Fresh [match last_such (differs p) xs with Some x => x | None => p end]
       | Some (AR ((v, x) :: h) None) => Known ((v, x) :: h) (last_such (fun new => negb (same mf new x)) xs)
       | Some (AR ((v, x) :: h) (Some p)) =>
           Known ((v, x) :: h) (match hd_error (rev xs) with None => Some p | Some new => if same mf new x then None else Some new end)
       end).
Proof.
  intros b ss mf recs os Hc Hs Hw. destruct (C13_exact b ss mf recs Hc Hs Hw) as (c & c' & E & Ei & H). exists c, c'. split; [exact E|]. split; [exact Ei|].
  intros Eo Hl id xs. specialize (H id). destruct (reach_stored b ss Hc Hs) as (c0 & b' & E0 & HS). rewrite E in E0. injection E0 as <-.
  assert (Hsz : INGEST_SIZE >= 1) by (unfold INGEST_SIZE; lia).
  rewrite (through_few b' INGEST_SIZE mf Hsz (partition recs INGEST_SIZE) c _ [] [] os HS) in H; [|constructor|rewrite (partition_concat _ _ Hsz); exact Hw|exact Eo|exact Hl].
  cbn [app] in H. rewrite put_writes_id, of_id_arrivals in H. fold xs in H. revert H. generalize xs. clear - Hs. intro xs.
  destruct (a_run a_empty ss id) as [[[|[v x] h] [p|]]|]; cbn [stored_of]; intro H.
  - replace (if existsb (@isnil _) xs then Fresh [] else _) with (fold_left (fun s w => perform w s) (flat_map (fun x => one (decide mf x (Fresh [p]))) xs) (Fresh [p])); [exact H|].
    clear H. assert (G0 : forall l, fold_left (fun s w => perform w s) (flat_map (fun x => one (decide mf x (Fresh [p]))) l) (Fresh []) = Fresh []).
    { induction l as [|y l IH]; [reflexivity|]. cbn [flat_map]. rewrite fold_left_app. assert (G : fold_left (fun s w => perform w s) (one (decide mf y (Fresh [p]))) (Fresh []) = Fresh []) by (cbn [decide rev app]; destruct y as [|kv y]; [reflexivity|]; destruct (py_eqb (VDict (kv :: y)) (VDict p)); reflexivity). rewrite G. exact IH. }
    enough (G : forall l q, fold_left (fun s w => perform w s) (flat_map (fun x => one (decide mf x (Fresh [p]))) l) (Fresh [q]) = if existsb (@isnil _) l then Fresh [] else Fresh [match last_such (differs p) l with Some x => x | None => q end]) by apply G.
    induction l as [|y l IH]; intro q; [reflexivity|]. cbn [flat_map]. rewrite fold_left_app. cbn [existsb]. destruct y as [|kv y]; [cbn; apply G0|]. cbn [isnil orb].
    rewrite last_such_cons. unfold differs at 2. cbn [decide rev app]. destruct (py_eqb (VDict (kv :: y)) (VDict p)); cbn [negb one fold_left perform]; rewrite IH; destruct (existsb _ l); try reflexivity; destruct (last_such _ l); reflexivity.
  - replace (Fresh (filter is_data xs)) with (fold_left (fun s w => perform w s) (flat_map (fun x => one (decide mf x (Fresh []))) xs) (Fresh [])); [exact H|].
    clear H. enough (G : forall l q, fold_left (fun s w => perform w s) (flat_map (fun x => one (decide mf x (Fresh []))) l) (Fresh q) = Fresh (q ++ filter is_data l)) by apply (G xs []).
    induction l as [|y l IH]; intro q; [cbn; rewrite app_nil_r; reflexivity|]. cbn [flat_map filter]. rewrite fold_left_app. destruct y as [|kv y]; cbn [decide rev one fold_left perform is_data isnil negb]; rewrite IH; [reflexivity|]. rewrite <- app_assoc. reflexivity.
  - match type of H with keeps _ _ ?a => match goal with |- keeps _ _ ?b => replace b with a; [exact H|] end end. clear H.
    enough (G : forall l q, fold_left (fun s w => perform w s) (flat_map (fun y => one (decide mf y (Known ((v, x) :: h) (Some p)))) l) (Known ((v, x) :: h) q) =
       Known ((v, x) :: h) (match hd_error (rev l) with None => q | Some new => if same mf new x then None else Some new end)) by apply G.
    induction l as [|y l IH]; intro q; [reflexivity|]. cbn [flat_map]. rewrite fold_left_app. cbn [rev].
    assert (E : fold_left (fun s w => perform w s) (one (decide mf y (Known ((v, x) :: h) (Some p)))) (Known ((v, x) :: h) q) = Known ((v, x) :: h) (if same mf y x then None else Some y)) by (cbn [decide]; destruct (same mf y x); reflexivity).
    rewrite E, IH. destruct (rev l); reflexivity.
  - match type of H with keeps _ _ ?a => match goal with |- keeps _ _ ?b => replace b with a; [exact H|] end end. clear H.
    enough (G : forall l q, fold_left (fun s w => perform w s) (flat_map (fun y => one (decide mf y (Known ((v, x) :: h) None))) l) (Known ((v, x) :: h) q) =
       Known ((v, x) :: h) (match last_such (fun new => negb (same mf new x)) l with Some y => Some y | None => q end)) by (rewrite G; destruct (last_such _ xs); reflexivity).
    induction l as [|y l IH]; intro q; [reflexivity|]. cbn [flat_map]. rewrite fold_left_app. rewrite last_such_cons. cbn [decide].
    destruct (same mf y x); cbn [negb one fold_left perform]; rewrite IH; destruct (last_such _ l); reflexivity.
  - replace (Fresh (filter is_data xs)) with (fold_left (fun s w => perform w s) (flat_map (fun x => one (decide mf x (Fresh []))) xs) (Fresh [])); [exact H|].
    clear H. enough (G : forall l q, fold_left (fun s w => perform w s) (flat_map (fun x => one (decide mf x (Fresh []))) l) (Fresh q) = Fresh (q ++ filter is_data l)) by apply (G xs []).
    induction l as [|y l IH]; intro q; [cbn; rewrite app_nil_r; reflexivity|]. cbn [flat_map filter]. rewrite fold_left_app. destruct y as [|kv y]; cbn [decide rev one fold_left perform is_data isnil negb]; rewrite IH; [reflexivity|]. rewrite <- app_assoc. reflexivity.
Qed.
Print Assumptions C13_few_exact.

(** *** No write waiting *)
(** When a batch is read, none of its ids has a write that waits to be performed. *)
Fixpoint none_waiting (size : nat) (mf : option pystr) (S : pystr -> stored) (wait : list (pystr * write)) (batches : list (list (pystr * dict))) : Prop :=
  match batches with
  | [] => True
  | b :: rest =>
      let buf := wait ++ decisions mf S (dict_of b) in
      let n := length buf / size * size in
      (forall id, In id (map fst b) -> ~ In id (map fst wait)) /\ none_waiting size mf (put_writes S (firstn n buf)) (skipn n buf) rest
  end.
(** Every batch but the last has 200 different ids, and all of its records are written. *)
Fixpoint all_written (size : nat) (mf : option pystr) (A : astate) (batches : list (list (pystr * dict))) : Prop :=
  match batches with
  | [] | [_] => True
  | b :: rest => length b = size /\ NoDup (map fst b) /\ (forall id new, In (id, new) b -> needs_write mf new (A id)) /\ all_written size mf (a_ingest mf b A) rest
  end.
(** the batches ingested by calls of their own *)
Definition batchwise (mf : option pystr) (batches : list (list (pystr * dict))) (A : astate) : astate := fold_left (fun A b => a_ingest mf b A) batches A.

Lemma of_id_none id l : ~ In id (map fst l) -> of_id id l = [].
Proof.
  induction l as [|[i w] l IH]; [reflexivity|]. cbn [map fst]. intro H. unfold of_id. cbn [filter fst]. destruct (str_eqb i id) eqn:E; [apply str_eqb_eq in E; subst i; exfalso; apply H; left; reflexivity|].
  apply IH. intro K. apply H. right. exact K.
Qed.
Lemma put_decide mf new a : fold_left (fun s w => perform w s) (one (decide mf new (stored_of a))) (stored_of a) = stored_of (a_put mf new a).
Proof.
  destruct a as [[[|[v x] h] [p|]]|]; cbn [stored_of decide rev app a_put].
  - destruct new as [|kv new]; [reflexivity|]. destruct (py_eqb _ _); reflexivity.
  - destruct new; reflexivity.
  - destruct (same mf new x); reflexivity.
  - destruct (same mf new x); reflexivity.
  - destruct new; reflexivity.
Qed.
Lemma put_batch mf S wait A b : (forall id, put_writes S wait id = stored_of (A id)) -> (forall id, In id (map fst b) -> ~ In id (map fst wait)) ->
  forall id, put_writes S (wait ++ decisions mf S (dict_of b)) id = stored_of (a_ingest mf b A id).
Proof.
  intros H N id. specialize (H id). rewrite put_writes_id in H |- *. rewrite of_id_app, fold_left_app, H, decisions_last. unfold a_ingest. destruct (last_data id b) as [x|] eqn:E; [|reflexivity].
  rewrite of_id_none in H by (apply N; apply last_data_In in E; apply (in_map fst) in E; exact E). cbn [fold_left] in H. rewrite H. apply put_decide.
Qed.
Lemma put_split S n l : put_writes (put_writes S (firstn n l)) (skipn n l) = put_writes S l.
Proof. unfold put_writes. rewrite <- fold_left_app, firstn_skipn. reflexivity. Qed.
Lemma through_clear size mf : forall batches S wait A, (forall id, put_writes S wait id = stored_of (A id)) -> none_waiting size mf S wait batches ->
  forall id, through size mf S wait batches id = stored_of (batchwise mf batches A id).
Proof.
  induction batches as [|b batches IH]; intros S wait A H N; cbn [through batchwise fold_left] in *; [exact H|]. cbn [none_waiting] in N. destruct N as [N1 N2].
  apply IH; [|exact N2]. rewrite put_split. apply put_batch; assumption.
Qed.
Lemma decide_needs mf new a : a <> Some (AR [] None) -> needs_write mf new a -> exists w, decide mf new (stored_of a) = Some w.
Proof.
  destruct a as [[[|[v x] h] [p|]]|]; cbn [needs_write stored_of decide rev app]; intros Ha H; [| |destruct (same mf new x); eauto|rewrite H; eauto|destruct new; [contradiction|eauto]].
  - destruct new as [|kv new]; [eauto|]. destruct H as [H|H]; [discriminate|]. rewrite (H p eq_refl). eauto.
  - contradiction.
Qed.
Lemma a_put_some mf new a : a <> Some (AR [] None) -> a_put mf new a <> Some (AR [] None).
Proof.
  destruct a as [[[|[v x] h] [p|]]|]; cbn [a_put]; intro H; try congruence.
  - destruct new; [discriminate|]. destruct (py_eqb _ _); discriminate.
  - destruct new; discriminate.
Qed.
Lemma a_run_some b ss id : clock_increasing b ss -> Forall call_ok ss -> a_run a_empty ss id <> Some (AR [] None).
Proof.
  intros Hc Hs. destruct (a_run_wf ss b a_empty) as (b2 & Hwf); [intros i r K; discriminate|exact Hc| |].
  { eapply Forall_impl; [|exact Hs]. intros [| |]; cbn; tauto. }
  intro E. destruct (Hwf id _ E) as (_ & (_ & _ & _ & K) & _). exact (K eq_refl).
Qed.
Lemma decisions_all mf S : forall rs, (forall r, In r rs -> exists w, decide mf (snd r) (S (fst r)) = Some w) -> length (decisions mf S rs) = length rs.
Proof.
  induction rs as [|r rs IH]; intro H; [reflexivity|]. cbn [decisions flat_map]. fold (decisions mf S rs). rewrite app_length, IH by (intros r' K; apply H; right; exact K).
  destruct (H r (or_introl eq_refl)) as (w & ->). reflexivity.
Qed.
Lemma written_waiting size mf : size >= 1 -> forall batches S A, (forall id, A id <> Some (AR [] None)) -> (forall id, S id = stored_of (A id)) -> all_written size mf A batches -> none_waiting size mf S [] batches.
Proof.
  intro Hsz. induction batches as [|b [|b2 batches] IH]; intros S A HA H HW; [exact I|cbn; tauto|]. destruct HW as (W1 & W2 & W3 & W4).
  change ((forall id, In id (map fst b) -> ~ In id (map fst (@nil (pystr * write)))) /\
    (let buf := [] ++ decisions mf S (dict_of b) in let n := length buf / size * size in none_waiting size mf (put_writes S (firstn n buf)) (skipn n buf) (b2 :: batches))).
  split; [intros id _ []|]. cbv zeta. rewrite app_nil_l.
  assert (L : length (decisions mf S (dict_of b)) = size).
  { rewrite decisions_all; [rewrite dict_of_id by exact W2; exact W1|]. intros [id new] Hr. cbn [fst snd]. rewrite H. apply decide_needs; [apply HA|]. apply W3. rewrite dict_of_id in Hr by exact W2. exact Hr. }
  rewrite L, Nat.div_same by lia. rewrite Nat.mul_1_l, <- L, firstn_all, skipn_all. rewrite L. apply (IH _ (a_ingest mf b A)).
  - intro id. unfold a_ingest. destruct (last_data id b); [apply a_put_some|]; apply HA.
  - intro id. apply (put_batch mf S [] A b); [exact H|]. intros i _ [].
  - exact W4.
Qed.
Lemma batchwise_last mf id new : forall batches A, last_data id (concat batches) = Some new -> exists a, batchwise mf batches A id = a_put mf new a.
Proof.
  intros batches. induction batches as [|b batches IH] using rev_ind; intros A H; [discriminate|]. rewrite concat_app, last_data_app in H. cbn [concat] in H. rewrite app_nil_r in H.
  unfold batchwise. rewrite fold_left_app. cbn [fold_left]. fold (batchwise mf batches A). unfold a_ingest. destruct (last_data id b) as [x|].
  - injection H as <-. eexists. reflexivity.
  - exact (IH A H).
Qed.

(** If, whenever a batch is read, no write waits for one of its ids, the stream has the effect of ingesting its batches one by one. *)
Theorem C13_none_waiting_partial : forall (b : Z) (ss : list step) mf recs,
  clock_increasing b ss -> Forall call_ok ss -> Forall (fun r => wfd (snd r)) recs ->
  none_waiting INGEST_SIZE mf (fun id => stored_of (a_run a_empty ss id)) [] (partition recs INGEST_SIZE) ->
  exists c c', run [] ss = Some c /\ ingest INGEST_SIZE mf c recs = Some c' /\
    forall id, keeps c' id (stored_of (batchwise mf (partition recs INGEST_SIZE) (a_run a_empty ss) id)).
Proof.
  intros b ss mf recs Hc Hs Hw N. destruct (C13_exact b ss mf recs Hc Hs Hw) as (c & c' & E & Ei & H). exists c, c'. split; [exact E|]. split; [exact Ei|].
  intro id. specialize (H id). rewrite (through_clear INGEST_SIZE mf _ _ [] (a_run a_empty ss)) in H; [exact H|reflexivity|exact N].
Qed.
Print Assumptions C13_none_waiting_partial.

(** So it is if every batch but the last has 200 different ids and all of its records are written, however the ids repeat from batch to batch. *)
Theorem C13_all_written_partial : forall (b : Z) (ss : list step) mf recs,
  clock_increasing b ss -> Forall call_ok ss -> Forall (fun r => wfd (snd r)) recs ->
  all_written INGEST_SIZE mf (a_run a_empty ss) (partition recs INGEST_SIZE) ->
  exists c c', run [] ss = Some c /\ ingest INGEST_SIZE mf c recs = Some c' /\
    (forall id, keeps c' id (stored_of (batchwise mf (partition recs INGEST_SIZE) (a_run a_empty ss) id))) /\
    forall id new, last_data id recs = Some new ->
      (new = [] /\ docs_of id c' = []) \/
      exists d e l x, docs_of id c' = [d] /\ iter_doc d = Some (e :: l) /\ veq (VDict (snd e)) (VDict x) /\
        (x = new \/ same mf new x = true \/ py_eqb (VDict new) (VDict x) = true).
Proof.
  intros b ss mf recs Hc Hs Hw W. assert (Hsz : INGEST_SIZE >= 1) by (unfold INGEST_SIZE; lia).
  destruct (C13_none_waiting_partial b ss mf recs Hc Hs Hw) as (c & c' & E & Ei & H).
  { apply (written_waiting _ _ Hsz _ _ (a_run a_empty ss)); [|reflexivity|exact W]. intro id. exact (a_run_some b ss id Hc Hs). }
  exists c, c'. split; [exact E|]. split; [exact Ei|]. split; [exact H|]. intros id new El. specialize (H id).
  rewrite <- (partition_concat recs _ Hsz) in El. destruct (batchwise_last mf id new _ (a_run a_empty ss) El) as (a & Ea). rewrite Ea in H. clear Ea El.
  assert (G1 : forall x, keeps c' id (Fresh [x]) -> exists d e l, docs_of id c' = [d] /\ iter_doc d = Some (e :: l) /\ veq (VDict (snd e)) (VDict x)).
  { intros x K. cbn [keeps] in K. inversion K as [|d ? ? ? (y & K1 & K2) K3 K4]; subst. inversion K3; subst. exists d, (None, y), []. auto. }
  assert (G2 : forall h p k x l0, view (AR h p) = (k, x) :: l0 -> keeps c' id (Known h p) -> exists d e l, docs_of id c' = [d] /\ iter_doc d = Some (e :: l) /\ veq (VDict (snd e)) (VDict x)).
  { intros h p k x l0 V (d & l & K1 & K2 & K3). rewrite V in K3. inversion K3 as [|e ? l' ? K4 K5]; subst. exists d, e, l'. split; [exact K1|]. split; [exact K2|]. exact (proj2 K4). }
  assert (G : forall x, (exists d e l, docs_of id c' = [d] /\ iter_doc d = Some (e :: l) /\ veq (VDict (snd e)) (VDict x)) -> x = new \/ same mf new x = true \/ py_eqb (VDict new) (VDict x) = true ->
     exists d e l x, docs_of id c' = [d] /\ iter_doc d = Some (e :: l) /\ veq (VDict (snd e)) (VDict x) /\ (x = new \/ same mf new x = true \/ py_eqb (VDict new) (VDict x) = true)).
  { intros x (d & e & l & K1 & K2 & K3) K. exists d, e, l, x. auto. }
  assert (G0 : keeps c' id (Fresh []) -> docs_of id c' = []) by (intro K; inversion K; reflexivity).
  destruct a as [[[|[v x] h] p]|]; cbn [a_put] in H.
  - destruct new as [|kv new]; [left; auto|right]. destruct p as [p|]; [|apply (G _ (G1 _ H)); auto].
    destruct (py_eqb (VDict (kv :: new)) (VDict p)) eqn:Ep; apply (G _ (G1 _ H)); auto.
  - right. destruct (same mf new x) eqn:Es; cbn [stored_of] in H; [apply (G x)|apply (G new)]; auto; (eapply G2; [|exact H]); reflexivity.
  - destruct new as [|kv new]; [left; auto|right]. apply (G _ (G1 _ H)); auto.
Qed.
Print Assumptions C13_all_written_partial.

(** 201 records "a" ... among them: "a" is new and comes in both batches with data, so there are two documents; "b" was never committed
    and is deleted first and then comes again, so it is gone; "c" was never committed and its last data are those it had, so the data
    between stay; "d" is committed, and likewise; "e" is committed with pending data, and its last data are kept. *)
Definition x13 (n : nat) : dict := D [("x", VInt (Z.of_nat n))].
Definition history13 : list step :=
  [SIngest None [(lit "d", x13 1); (lit "e", x13 1)]; SCommit 5; SIngest None [(lit "b", x13 1); (lit "c", x13 1); (lit "e", x13 2)]].
Definition stream13 : list prec :=
  [(lit "a", x13 1); (lit "b", []); (lit "c", x13 2); (lit "d", x13 2); (lit "e", x13 3)] ++ repeat (lit "z", []) 195 ++
  [(lit "a", x13 2); (lit "b", x13 3); (lit "c", x13 1); (lit "d", x13 1); (lit "e", x13 2)].
Lemma small_call_ok recs : Forall (fun r : prec => wfd (snd r)) recs -> length recs <= 200 -> call_ok (SIngest None recs).
Proof.
  intros H L. split; [|exact H]. intros i j r r' Hi Hj _.
  assert (i < length recs) by (apply nth_error_Some; congruence). assert (j < length recs) by (apply nth_error_Some; congruence).
  unfold INGEST_SIZE. rewrite !Nat.div_small by lia. reflexivity.
Qed.
Example C13_few_example :
  clock_increasing 0 history13 /\ Forall call_ok history13 /\ Forall (fun r => wfd (snd r)) stream13 /\
  match run [] history13 with
  | Some c =>
      match ingest_ops INGEST_SIZE None c stream13, ingest INGEST_SIZE None c stream13 with
      | Some os, Some c' => length os = 8 /\
          map (fun i => map iter_doc (docs_of (lit i) c')) ["a"; "b"; "c"; "d"; "e"] =
            [[Some [(None, x13 1)]; Some [(None, x13 2)]]; []; [Some [(None, x13 2)]]; [Some [(None, x13 2); (Some 5%Z, x13 1)]]; [Some [(None, x13 2); (Some 5%Z, x13 1)]]]
      | _, _ => False
      end
  | None => False
  end.
Proof.
  split; [vm_compute; repeat split|]. split.
  { constructor; [apply small_call_ok; [repeat constructor; vm_compute; reflexivity|cbn; lia]|]. constructor; [exact I|]. constructor; [apply small_call_ok; [repeat constructor; vm_compute; reflexivity|cbn; lia]|constructor]. }
  split; [|vm_compute; auto]. unfold stream13. apply Forall_app. split; [repeat constructor; vm_compute; reflexivity|]. apply Forall_app. split; [|repeat constructor; vm_compute; reflexivity].
  apply Forall_forall. intros r Hr. apply repeat_spec in Hr. subst. reflexivity.
Qed.
(** 200 new records, and two of them again: their last data are kept. *)
Definition many13 : list prec := map (fun n => ([N.of_nat n], x13 n)) (seq 0 200) ++ [([7%N], x13 300); ([9%N], [])].
Example C13_all_written_example :
  Forall (fun r => wfd (snd r)) many13 /\ all_written INGEST_SIZE None a_empty (partition many13 INGEST_SIZE) /\
  match ingest INGEST_SIZE None [] many13 with
  | Some c' => map (fun i => map iter_doc (docs_of [i] c')) [7%N; 9%N; 11%N] = [[Some [(None, x13 300)]]; []; [Some [(None, x13 11)]]]
  | None => False
  end.
Proof.
  split. { unfold many13. apply Forall_app. split; [|repeat constructor; vm_compute; reflexivity]. apply Forall_forall. intros r Hr. apply in_map_iff in Hr. destruct Hr as (n & <- & _). reflexivity. }
  split; [|vm_compute; reflexivity].
  replace (partition many13 INGEST_SIZE) with [map (fun n => ([N.of_nat n], x13 n)) (seq 0 200); [([7%N], x13 300); ([9%N], [])]] by (vm_compute; reflexivity).
  split; [rewrite map_length, seq_length; reflexivity|]. split; [|split; [|exact I]].
  - rewrite map_map. apply FinFun.Injective_map_NoDup; [|apply seq_NoDup]. intros a b E. cbn [fst] in E. injection E as E. lia.
  - intros id new Hr. apply in_map_iff in Hr. destruct Hr as (n & E & _). injection E as <- <-. discriminate.
Qed.
