(** Properties C88-C90: the data collection as MongoDB holds it. *)
From Coq Require Import String Ascii.
From Coq Require Import List ZArith NArith Bool Lia.
From Coq Require Import Floats.SpecFloat.
From Verif Require Import PyVal Diff DiffProofs Time Prepare PrepareProofs Mongo Store MongoProofs MongoStore MongoMore Parser ParserTypes Bson BsonProofs BsonLimits PropsMongo.
Import ListNotations.
Open Scope string_scope.
Open Scope list_scope.
Open Scope nat_scope.

(** ** Specification *)
(** There is no document for the record, or one, and the iteration over what is read from it lists what was kept for the record. *)
Definition kept (docs : list dict) (id : pystr) (o : option arec) : Prop :=
  match o with
  | None => filter (has_id id) docs = []
  | Some r => exists raw m l, filter (has_id id) docs = [raw] /\ read_doc raw = Some m /\ iter_read m = Some l /\ Forall2 same_entry l (view r)
  end.
(** A document as [Mongo.v] has it: the fields "id", "data" and "version", and the history under "diffs". *)
Definition reads_as (raw : dict) (d : doc) : Prop :=
  exists m, read_doc raw = Some m /\ m_id m = d_id d /\ m_ver m = d_ver d /\ m_data m = d_data d /\ dkeys (m_diffs m) = map str_int (zkeys (d_diffs d)) /\ iter_read m = iter_doc d.
(** What BSON can hold. *)
Definition no_surrogates (s : pystr) : Prop := forall c, In c s -> ~ (55296 <= c <= 57343)%N.
Definition of_64_bits (z : Z) : Prop := (- 2 ^ 63 <= z < 2 ^ 63)%Z.
Inductive fits : value -> Prop :=
| fits_none : fits VNone
| fits_bool b : fits (VBool b)
| fits_float f : fits (VFloat f)
| fits_int z : of_64_bits z -> fits (VInt z)
| fits_str s : no_surrogates s -> fits (VStr s)
| fits_list l : Forall fits l -> fits (VList l)
| fits_dict d : Forall (fun kv => no_surrogates (fst kv) /\ ~ In 0%N (fst kv) /\ fits (snd kv)) d -> fits (VDict d).
(** Documents and arrays nested to at most n levels. *)
Inductive nested : nat -> value -> Prop :=
| nested_scalar n v : is_scalar v = true -> nested n v
| nested_list n l : Forall (nested n) l -> nested (S n) (VList l)
| nested_dict n d : Forall (fun kv => nested n (snd kv)) d -> nested (S n) (VDict d).
(** Python's lists have fewer than 2^63 elements. *)
Inductive small_lists : value -> Prop :=
| small_scalar v : is_scalar v = true -> small_lists v
| small_list l : (Z.of_nat (length l) < 2 ^ 63)%Z -> Forall small_lists l -> small_lists (VList l)
| small_dict d : Forall (fun kv => small_lists (snd kv)) d -> small_lists (VDict d).
(** The records handed to ingest, and the versions, can be stored; the data is nested at most n levels. *)
Definition storable_step (n : nat) (s : step) : Prop :=
  match s with
  | SIngest _ recs => Forall (fun r => no_surrogates (fst r) /\ fits (VDict (snd r)) /\ nested n (VDict (snd r)) /\ small_lists (VDict (snd r))) recs
  | SCommit v => of_64_bits v
  | SRollback => True
  end.

(** ** The specification and the limits of Bson.v *)
Lemma text_ok_iff s : text_ok s = true <-> no_surrogates s.
Proof.
  unfold text_ok, no_surrogates. rewrite forallb_forall. split; intros H c Hc; specialize (H c Hc).
  - apply negb_true_iff, andb_false_iff in H. rewrite !N.leb_gt in H. lia.
  - apply negb_true_iff, andb_false_iff. rewrite !N.leb_gt. lia.
Qed.
Lemma name_ok_iff s : name_ok s = true <-> no_surrogates s /\ ~ In 0%N s.
Proof.
  unfold name_ok. rewrite andb_true_iff, text_ok_iff, forallb_forall. split; (intros [H1 H2]; split; [exact H1|]).
  - intro K. specialize (H2 _ K). discriminate.
  - intros c Hc. apply negb_true_iff, N.eqb_neq. intros ->. auto.
Qed.
Lemma int_ok_iff z : int_ok z = true <-> of_64_bits z.
Proof. unfold int_ok, of_64_bits. rewrite andb_true_iff, Z.leb_le, Z.ltb_lt. reflexivity. Qed.
Lemma bson_ok_iff v : bson_ok v = true <-> fits v.
Proof.
  induction v as [|b|z|f|s|l IH|d IH] using value_ind'; cbn [bson_ok]; try (split; [constructor|reflexivity]).
  - rewrite int_ok_iff. split; [constructor; assumption|intro H; inversion H; assumption].
  - rewrite text_ok_iff. split; [constructor; assumption|intro H; inversion H; assumption].
  - rewrite forallb_forall. rewrite Forall_forall in IH. split.
    + intro H. constructor. apply Forall_forall. intros x Hx. apply IH; auto.
    + intro H. inversion H as [| | | | |? F|]; subst. rewrite Forall_forall in F. intros x Hx. apply IH; auto.
  - rewrite forallb_forall. rewrite Forall_forall in IH. split.
    + intro H. constructor. apply Forall_forall. intros x Hx. specialize (H x Hx). apply andb_true_iff in H. destruct H as [H1 H2]. apply name_ok_iff in H1. destruct H1. split; [assumption|]. split; [assumption|]. apply IH; auto.
    + intro H. inversion H as [| | | | | |? F]; subst. rewrite Forall_forall in F. intros x Hx. destruct (F x Hx) as (F1 & F2 & F3). apply andb_true_iff. split; [apply name_ok_iff; split; assumption|apply IH; auto].
Qed.
Lemma depth_iff v : forall n, depth v <= n <-> nested n v.
Proof.
  induction v as [|b|z|f|s|l IH|d IH] using value_ind'; intro n; cbn [depth]; try (split; [intros _; constructor; reflexivity|lia]).
  - rewrite Forall_forall in IH. split.
    + intro H. destruct n as [|n]; [lia|]. apply le_S_n in H. pose proof (proj1 (list_max_in depth l n) H) as M. apply nested_list. rewrite Forall_forall in *. intros x Hx. apply IH; auto.
    + intro H. inversion H as [? ? S|m ? F|]; subst; [discriminate|]. apply le_n_S. apply (list_max_in depth l). rewrite Forall_forall in *. intros x Hx. apply IH; auto.
  - rewrite Forall_forall in IH. split.
    + intro H. destruct n as [|n]; [lia|]. apply le_S_n in H. pose proof (proj1 (list_max_in (fun kv : pystr * value => depth (snd kv)) d n) H) as M. apply nested_dict. rewrite Forall_forall in *. intros x Hx. apply (IH x Hx), M, Hx.
    + intro H. inversion H as [? ? S| |m ? F]; subst; [discriminate|]. apply le_n_S. apply (list_max_in (fun kv : pystr * value => depth (snd kv)) d). rewrite Forall_forall in *. intros x Hx. apply (IH x Hx), F, Hx.
Qed.
Lemma short_small v : small_lists v -> short v.
Proof.
  induction v as [|b|z|f|s|l IH|d IH] using value_ind'; intro H; try exact I; rewrite Forall_forall in IH.
  - apply short_list. inversion H as [? S|? L F|]; subst; [discriminate|]. split; [exact L|]. rewrite Forall_forall in *. auto.
  - apply short_dict. inversion H as [? S| |? F]; subst; [discriminate|]. rewrite Forall_forall in *. auto.
Qed.
Lemma accepted_iff L raw : accepted L raw = true <-> fits (VDict raw) /\ nested L (VDict raw).
Proof. unfold accepted. rewrite andb_true_iff, bson_ok_iff, Nat.leb_le, depth_iff. reflexivity. Qed.
Lemma storable_good D s : storable_step D s -> good_step (good_rec D) good_ver s.
Proof.
  destruct s as [mf recs|v|]; cbn [storable_step good_step]; [|apply int_ok_iff|auto]. intro H. eapply Forall_impl; [|exact H]. intros r (H1 & H2 & H3 & H4).
  split; [apply text_ok_iff, H1|]. split; [split; [apply bson_ok_iff, H2|apply depth_iff in H3; exact H3]|apply short_small, H4].
Qed.
(** ** What is kept *)
Lemma filter_holds id docs c : Forall2 holds docs c -> Forall2 holds (filter (has_id id) docs) (docs_of id c).
Proof.
  unfold docs_of. induction 1 as [|raw d docs c H _ IH]; [constructor|]. cbn [filter]. assert (E : has_id id raw = str_eqb (d_id d) id) by (destruct H as (x & -> & _); reflexivity).
  rewrite E. destruct (str_eqb (d_id d) id); [constructor; assumption|exact IH].
Qed.
Lemma shows_kept good docs c id o : same_coll good docs c -> shows same_entry c id o -> kept docs id o.
Proof.
  intros (H & S & _) V. pose proof (filter_holds id docs c H) as F. unfold shows in V. unfold kept. destruct o as [r|].
  - destruct V as (d & l & E & Hl & Hv). rewrite E in F. inversion F as [|raw ? ? ? Hr F']; subst. inversion F'; subst. exists raw, (rec_of d), l. split; [congruence|]. split; [exact (read_holds _ _ Hr)|]. split; [|exact Hv].
    rewrite iter_read_doc; [exact Hl|]. rewrite Forall_forall in S. apply S. assert (I : In d (docs_of id c)) by (rewrite E; left; reflexivity). apply filter_In in I. apply I.
  - rewrite V in F. inversion F. reflexivity.
Qed.

(** ** C88 *)
(** What was kept for a record can be read from MongoDB: with what is read back, the iteration over the document lists the versions of the record. *)
Theorem C88_kept : forall (b : Z) (ss : list step), clock_increasing b ss -> Forall call_ok ss ->
  exists docs, read_run (fun _ => true) [] ss = Some docs /\ forall id, kept docs id (a_run a_empty ss id).
Proof.
  intros b ss Hc Hs. destruct (C10_versioned_store b ss Hc Hs) as (c & E & V). pose proof (run_unlimited ss) as R. rewrite E in R. destruct (read_run _ [] ss) as [docs|]; [|contradiction].
  exists docs. split; [reflexivity|]. intro id. exact (shows_kept _ _ _ _ _ R (V id)).
Qed.
Print Assumptions C88_kept.
(** Whatever is called, the documents are those of Mongo.v. *)
Theorem C88_documents : forall ss : list step,
  match read_run (fun _ => true) [] ss, run [] ss with
  | Some docs, Some c => Forall2 reads_as docs c
  | None, None => True
  | _, _ => False
  end.
Proof.
  intro ss. pose proof (run_unlimited ss) as R. destruct (read_run _ [] ss) as [docs|], (run [] ss) as [c|]; try exact R. destruct R as (H & S & _).
  revert S. induction H as [|raw d docs c H _ IH]; intro S; [constructor|]. inversion S; subst. constructor; [|apply IH; assumption]. exists (rec_of d). split; [exact (read_holds _ _ H)|]. repeat (split; [try reflexivity|]).
  - cbn [rec_of m_diffs]. unfold dkeys, write_diffs, zkeys. rewrite !map_map. apply map_ext. intros [v os]. reflexivity.
  - apply iter_read_doc. assumption.
Qed.
Print Assumptions C88_documents.
(** The operations of a diff have the same effect when they come from MongoDB. *)
Theorem C88_patch : forall base new : dict, wfd base -> wfd new ->
  exists d, patch_read base (write_changes (diff base new)) = Some d /\ patch base (diff base new) = Some d /\ veq (VDict d) (VDict new).
Proof.
  intros base new Hb Hn. destruct (diff_patch_veq base new Hb Hn) as (d & E & V). exists d. rewrite patch_read_patch by apply diff_stored. split; [exact E|]. split; assumption.
Qed.
Print Assumptions C88_patch.
(** what MongoDB holds after the history of C10's example *)
Example C88_example : clock_increasing 0 ex_hist /\ Forall call_ok ex_hist /\
  read_run (fun _ => true) [] ex_hist = Some
    [ D [("id", VStr (lit "r1")); ("data", VDict (D [("x", VInt 1); ("y", VList [VNone])])); ("version", VInt 100)]
    ; D [("id", VStr (lit "r2")); ("data", VDict (D [("x", VStr (lit "d"))])); ("version", VNone);
         ("diffs", VDict (D [("100", VList [VList [VList []; VDict (D [("dn", VDict (D [("x", VStr (lit "a"))]))])]]);
                             ("200", VList [VList [VList []; VDict (D [("dd", VList [VStr (lit "x")])])]])]))]
    ; D [("id", VStr (lit "r3")); ("data", VDict (D [("q", VNone)])); ("version", VNone)] ].
Proof. destruct C10_example as (H1 & H2 & _). split; [exact H1|]. split; [exact H2|]. vm_compute. reflexivity. Qed.

(** ** C89 *)
(** The full statement, that any records can be ingested, is false: Python's integers are not bounded, and nothing cleans the ids of the records. *)
Definition taken (L : nat) (db : chardb) (recs : list record) : Prop :=
  exists docs, read_step (accepted L) [] (SIngest None (map (fun r => (r_id r, prepare_record_data db false r)) recs)) = Some docs.
Definition plain_db : chardb := CDB (fun c => (c <? 32) || ((55296 <=? c) && (c <=? 57343)))%N (fun c => N.eqb c 32).
Lemma plain_db_ok : db_ok plain_db.
Proof. repeat constructor. Qed.
Theorem C89_taken_refuted :
  (exists recs, db_ok plain_db /\ recs = [Rec (lit "r1") [(KS (lit "n"), OInt (2 ^ 63))]] /\ ~ taken 100 plain_db recs) /\
  (exists recs, db_ok plain_db /\ recs = [Rec (lit "r" ++ [55296%N]) [(KS (lit "n"), OInt 1)]] /\ ~ taken 100 plain_db recs).
Proof.
  split; eexists; (split; [exact plain_db_ok|]; split; [reflexivity|]); intros [docs E]; vm_compute in E; discriminate.
Qed.
Print Assumptions C89_taken_refuted.
(** Every integer in the value has 64 bits. *)
Inductive ints64 : value -> Prop :=
| i64_int z : of_64_bits z -> ints64 (VInt z)
| i64_other v : is_scalar v = true -> (forall z, v <> VInt z) -> ints64 v
| i64_list l : Forall ints64 l -> ints64 (VList l)
| i64_dict d : Forall (fun kv => ints64 (snd kv)) d -> ints64 (VDict d).
Lemma id_clean db : db_ok db -> clean_field_name db DATA_ID.
Proof.
  intro DB. assert (A : forall c, In c (lit "_id") -> is_C db c = false /\ is_space db c = false) by (intros c Hc; apply (db_char db DB); cbn in *; intuition).
  unfold clean_field_name. split; [discriminate|]. split; [intros c Hc; apply A, Hc|]. split; [cbn; intuition discriminate|]. split.
  { intros c r H. injection H as <- _. apply A. cbn. auto. }
  split; [|auto]. intros c r H. apply (f_equal (@rev N)) in H. rewrite rev_app_distr in H. cbn in H. injection H as <- _. apply A. cbn. auto.
Qed.
(** Only that can go wrong with the data of a record: all else is cleaned. *)
Theorem C89_prepared : forall db pad rec, db_ok db -> (forall c, (55296 <= c <= 57343)%N -> is_C db c = true) -> is_C db 0%N = true ->
  others_print_clean db (ODict (r_data rec)) ->
  (fits (VDict (prepare_record_data db pad rec)) <-> ints64 (VDict (prepare_record_data db pad rec))).
Proof.
  intros db pad rec DB S S0 O.
  assert (T : forall s, clean_text db s -> no_surrogates s). { intros s H c Hc K. specialize (H c Hc (S c K)). lia. }
  assert (G : forall v, storable db v -> (fits v <-> ints64 v)).
  { induction v as [|b|z|f|s|l IH|d IH] using value_ind'; intro H.
    - split; [intros _; apply i64_other; [reflexivity|discriminate]|constructor].
    - split; [intros _; apply i64_other; [reflexivity|discriminate]|constructor].
    - split; intro K; inversion K; subst; [apply i64_int; assumption|constructor; assumption|]. exfalso. eapply H1. reflexivity.
    - split; [intros _; apply i64_other; [reflexivity|discriminate]|constructor].
    - split; [intros _; apply i64_other; [reflexivity|discriminate]|]. intros _. constructor. apply T, H.
    - apply storable_list in H. rewrite Forall_forall in *. split; intro K.
      + inversion K as [| | | | |? F|]; subst. apply i64_list. rewrite Forall_forall in *. intros x Hx. apply (IH x Hx (H x Hx)), F, Hx.
      + inversion K as [|? Sc _|? F|]; subst; [discriminate|]. apply fits_list. rewrite Forall_forall in *. intros x Hx. apply (IH x Hx (H x Hx)), F, Hx.
    - apply storable_dict in H. destruct H as [_ H]. rewrite Forall_forall in *. split; intro K.
      + inversion K as [| | | | | |? F]; subst. apply i64_dict. rewrite Forall_forall in *. intros x Hx. apply (IH x Hx (proj2 (H x Hx))), F, Hx.
      + inversion K as [|? Sc _| |? F]; subst; [discriminate|]. apply fits_dict. rewrite Forall_forall in *. intros x Hx. destruct (H x Hx) as [(_ & N & _) V]. split; [|split; [|apply (IH x Hx V), F, Hx]].
        * intros c Hc R. specialize (N c Hc). rewrite (S c R) in N. discriminate.
        * intro Z. specialize (N _ Z). congruence. }
  apply G. unfold prepare_record_data. destruct (is_delete rec); [split; [constructor|exact I]|]. pose proof (prepare_storable db DB pad _ O) as P. pose proof (prepare_storable db DB pad (OStr (r_id rec)) I) as Pi. cbn [prepare_data] in *.
  apply storable_dict in P. destruct P as [P1 P2]. apply storable_dict. split; [apply NoDup_dset, P1|]. apply Forall_forall. intros [k v] Hk. apply In_dset in Hk. rewrite Forall_forall in P2. 
  assert (C : clean_field_name db DATA_ID /\ storable db (VStr (clean_value db (r_id rec)))) by (split; [exact (id_clean db DB)|exact Pi]).
  destruct Hk as [Hk|[Hk|[E1 E2]]]; [injection Hk as -> ->; exact C|exact (P2 _ Hk)|]. cbn [fst snd] in *. subst. exact C.
Qed.
Print Assumptions C89_prepared.
(** The records that can be stored are taken, however they change, as long as the nesting of their data is five levels below what MongoDB stores;
    and what was kept can be read. *)
Theorem C89_taken_partial : forall (L n : nat) (b : Z) (ss : list step), 1 <= n -> n + 5 <= L -> Forall (storable_step n) ss -> clock_increasing b ss -> Forall call_ok ss ->
  exists docs, read_run (accepted L) [] ss = Some docs /\ forall id, kept docs id (a_run a_empty ss id).
Proof.
  intros L n b ss H1 HL Hn Hc Hs. destruct (C10_versioned_store b ss Hc Hs) as (c & E & V).
  assert (R : same_result (good_doc n) (read_run (accepted L) [] ss) (run [] ss)) by (apply run_accepted; [exact HL|exact H1|eapply Forall_impl; [|exact Hn]; intro s; apply storable_good]).
  rewrite E in R. destruct (read_run (accepted L) [] ss) as [docs|]; [|contradiction].
  exists docs. split; [reflexivity|]. intro id. exact (shows_kept _ _ _ _ _ R (V id)).
Qed.
Print Assumptions C89_taken_partial.
Ltac small := repeat first [apply small_scalar; reflexivity | apply small_list; [reflexivity|] | apply small_dict | apply Forall_cons; cbn [snd D map fst] | apply Forall_nil].
Example C89_example : Forall (storable_step 2) ex_hist /\ clock_increasing 0 ex_hist /\ Forall call_ok ex_hist /\
  exists db rec, db_ok db /\ (forall c, (55296 <= c <= 57343)%N -> is_C db c = true) /\ is_C db 0%N = true /\ others_print_clean db (ODict (r_data rec)) /\
  r_data rec = [(KS (lit "n"), OInt (-7)); (KS [97; 0]%N, OStr [55300; 98]%N)] /\ prepare_record_data db false rec = D [("n", VInt (-7)); ("a", VStr (lit "b")); ("_id", VStr (lit "r1"))].
Proof.
  destruct C10_example as (H1 & H2 & _). split; [|split; [exact H1|split; [exact H2|]]].
  - assert (R : forall r : pystr * dict, text_ok (fst r) = true -> bson_ok (VDict (snd r)) = true -> depth (VDict (snd r)) <= 2 -> small_lists (VDict (snd r)) ->
      no_surrogates (fst r) /\ fits (VDict (snd r)) /\ nested 2 (VDict (snd r)) /\ small_lists (VDict (snd r))).
    { intros r A1 A2 A3 A4. split; [apply text_ok_iff, A1|]. split; [apply bson_ok_iff, A2|]. split; [apply depth_iff, A3|exact A4]. }
    unfold ex_hist. repeat (apply Forall_cons || apply Forall_nil); cbn [storable_step]; try exact I; try (split; reflexivity || discriminate || (cbn; lia)); repeat (apply Forall_cons || apply Forall_nil); apply R; try reflexivity; try (cbn; lia); small.
  - exists plain_db, (Rec (lit "r1") [(KS (lit "n"), OInt (-7)); (KS [97; 0]%N, OStr [55300; 98]%N)]). split; [exact plain_db_ok|]. split; [|split; [reflexivity|split; [cbn; auto|split; [reflexivity|vm_compute; reflexivity]]]].
    intros c Hc. cbn [is_C plain_db]. apply orb_true_iff. right. apply andb_true_iff. rewrite !N.leb_le. exact Hc.
Qed.

(** ** C90 *)
(** The record is added and committed; then it is deleted. *)
Definition added (id : pystr) (data : dict) (v : Z) : list step := [SIngest None [(id, data)]; SCommit v].
Definition removal (id : pystr) : step := SIngest None [(id, [])].
Definition doc_of (id : pystr) (data : dict) (ver : value) (x : dict) : dict := [(lit "id", VStr id); (lit "data", VDict data); (lit "version", ver)] ++ x.
Lemma add_step acc id data : data <> [] -> read_step acc [] (SIngest None [(id, data)]) = if acc (doc_of id data VNone []) then Some [doc_of id data VNone []] else None.
Proof.
  intro N. destruct data as [|kv data]; [congruence|]. unfold read_step, ingest_read, partition, INGEST_SIZE. cbn. unfold doc_of. cbn. destruct (acc _); reflexivity.
Qed.
Lemma commit_one acc id data v : read_step acc [doc_of id data VNone []] (SCommit v) = if acc (doc_of id data (VInt v) []) then Some [doc_of id data (VInt v) []] else None.
Proof. cbn. unfold update_doc, set_fields, doc_of. cbn. destruct (acc _); reflexivity. Qed.
Lemma diff_all data : data <> [] -> diff [] data = [mkDiff [] (mkOps None (Some data) None None None None)].
Proof.
  intro N. assert (F : forall l : dict, new_values [] l = l) by (induction l as [|x l IH]; [reflexivity|]; cbn; f_equal; exact IH).
  destruct data as [|kv data]; [congruence|]. unfold diff. cbn [py_eqb]. cbn [length Nat.eqb andb]. cbn [vsize]. cbn [diff_loop compare dict_changes]. rewrite F. reflexivity.
Qed.
Definition removed_doc (id : pystr) (data : dict) (v : Z) : dict :=
  doc_of id [] VNone [(lit "diffs", VDict [(str_int v, VList [VList [VList []; VDict [(lit "dn", VDict data)]]])])].
Lemma remove_step acc id data v : data <> [] -> read_step acc [doc_of id data (VInt v) []] (removal id) = if acc (removed_doc id data v) then Some [removed_doc id data v] else None.
Proof.
  intro N. unfold read_step, ingest_read, removal, partition, INGEST_SIZE. cbn [length partition_loop firstn skipn read_loop]. 
  assert (E : read_chunk None [doc_of id data (VInt v) []] [(id, [])] = Some [UpdateOne id [(lit "data", VDict []); (lit "version", VNone); (diffs_field v, write_changes (diff [] data))] []]).
  { unfold read_chunk, by_id, dict_of. cbn. rewrite str_eqb_refl. cbn. unfold find_read, doc_of. cbn. rewrite str_eqb_refl. cbn. rewrite (diff_all data N). reflexivity. }
  rewrite E. cbn [bind app]. change (Nat.div (length [UpdateOne id [(lit "data", VDict []); (lit "version", VNone); (diffs_field v, write_changes (diff [] data))] []]) 200 * 200) with 0.
  cbn [firstn skipn apply_wops bind read_loop apply_wop update_first]. assert (Hh : has_id id (doc_of id data (VInt v) []) = true) by (unfold has_id, doc_of; cbn; apply str_eqb_refl). rewrite Hh.
  unfold update_doc, set_fields. cbn [fold_left fst snd bind]. rewrite split_diffs, (diff_all data N). unfold doc_of. cbn. unfold removed_doc, doc_of. cbn. destruct (acc _); reflexivity.
Qed.
Lemma depth_doc id data ver x : is_scalar ver = true -> depth (VDict (doc_of id data ver x)) = S (Nat.max (depth (VDict data)) (depth (VDict x) - 1)).
Proof.
  intro H. assert (Z : depth ver = 0) by (destruct ver; try discriminate; reflexivity). unfold doc_of.
  change (depth (VDict x)) with (S (list_max (map (fun kv => depth (snd kv)) x))); change (depth (VDict ([(lit "id", VStr id); (lit "data", VDict data); (lit "version", ver)] ++ x))) with (S (Nat.max 0 (Nat.max (depth (VDict data)) (Nat.max (depth ver) (list_max (map (fun kv => depth (snd kv)) x)))))).
  rewrite Z. lia.
Qed.
Lemma accepted_doc L id data ver x : no_surrogates id -> fits (VDict data) -> fits ver -> is_scalar ver = true -> fits (VDict x) ->
  (accepted L (doc_of id data ver x) = true <-> S (Nat.max (depth (VDict data)) (depth (VDict x) - 1)) <= L).
Proof.
  intros Hi Hd Hv Sv Hx. rewrite accepted_iff, <- depth_iff, depth_doc by exact Sv. split; [intros [_ H]; exact H|]. intro H. split; [|exact H]. apply fits_dict. inversion Hx as [| | | | | |? F]; subst.
  assert (Nm : forall s : string, name_ok (lit s) = true -> no_surrogates (lit s) /\ ~ In 0%N (lit s)) by (intros s Hs; apply name_ok_iff, Hs).
  unfold doc_of. apply Forall_app. split; [|exact F]. repeat apply Forall_cons; cbn [fst snd]; [| | |apply Forall_nil]; rewrite <- and_assoc; (split; [apply Nm; reflexivity|]); [constructor; exact Hi|exact Hd|exact Hv].
Qed.
(** A record can be added and committed if its data is nested one level less than what MongoDB stores, and then be deleted if it is nested five
    levels less: the data becomes a value of an entry ("dn") of an operation of the difference to no data. *)
Theorem C90_delete_exact : forall L id data v, data <> [] -> no_surrogates id -> fits (VDict data) -> of_64_bits v ->
  (read_run (accepted L) [] (added id data v) <> None <-> depth (VDict data) + 1 <= L) /\
  (read_run (accepted L) [] (added id data v ++ [removal id]) <> None <-> depth (VDict data) + 5 <= L).
Proof.
  intros L id data v N Hi Hd Hv. pose proof (fits_dict [] (Forall_nil _)) as F0.
  pose proof (accepted_doc L id data VNone [] Hi Hd fits_none eq_refl F0) as A1. pose proof (accepted_doc L id data (VInt v) [] Hi Hd (fits_int v Hv) eq_refl F0) as A2.
  assert (Fx : fits (VDict [(lit "diffs", VDict [(str_int v, VList [VList [VList []; VDict [(lit "dn", VDict data)]]])])])).
  { apply bson_ok_iff. apply bson_ok_iff in Hd. cbn [bson_ok] in Hd. cbn [bson_ok forallb fst snd]. rewrite str_int_name. cbn [bson_ok forallb]. rewrite Hd. reflexivity. }
  pose proof (accepted_doc L id [] VNone _ Hi F0 fits_none eq_refl Fx) as A3. fold (removed_doc id data v) in A3.
  remember (depth (VDict data)) as k eqn:Ek. assert (K1 : 1 <= k) by (subst k; cbn [depth]; lia).
  assert (X : depth (VDict [(lit "diffs", VDict [(str_int v, VList [VList [VList []; VDict [(lit "dn", VDict data)]]])])]) = S (S (S (S (S (k + 0)))))).
  { change (depth (VDict [(lit "diffs", VDict [(str_int v, VList [VList [VList []; VDict [(lit "dn", VDict data)]]])])])) with (S (Nat.max (S (Nat.max (S (Nat.max (S (Nat.max 1 (Nat.max (S (Nat.max (depth (VDict data)) 0)) 0))) 0)) 0)) 0)). rewrite <- Ek. lia. }
  rewrite X in A3. change (depth (VDict [])) with 1 in A1, A2, A3.
  unfold added. cbn [app read_run]. rewrite (add_step _ _ _ N). split.
  - destruct (accepted L (doc_of id data VNone [])); cbn [bind]; [rewrite commit_one; destruct (accepted L (doc_of id data (VInt v) [])); cbn [bind]|].
    + split; [intros _; pose proof (proj1 A1 eq_refl); lia|discriminate].
    + split; [congruence|]. intro H. pose proof (proj2 A2 ltac:(lia)). discriminate.
    + split; [congruence|]. intro H. pose proof (proj2 A1 ltac:(lia)). discriminate.
  - destruct (accepted L (doc_of id data VNone [])); cbn [bind]; [rewrite commit_one; destruct (accepted L (doc_of id data (VInt v) [])); cbn [bind]; [rewrite (remove_step _ _ _ _ N); destruct (accepted L (removed_doc id data v)); cbn [bind]|]|].
    + split; [intros _; pose proof (proj1 A3 eq_refl); lia|discriminate].
    + split; [congruence|]. intro H. pose proof (proj2 A3 ltac:(lia)). discriminate.
    + split; [congruence|]. intro H. pose proof (proj2 A2 ltac:(lia)). discriminate.
    + split; [congruence|]. intro H. pose proof (proj2 A1 ltac:(lia)). discriminate.
Qed.
Print Assumptions C90_delete_exact.

(** The full statement: a record that could be added can be deleted. *)
Fixpoint nest (n : nat) : dict := match n with 0 => [(lit "a", VInt 1)] | S n => [(lit "a", VDict (nest n))] end.
Theorem C90_delete_refuted : exists id data v, data = nest 97 /\
  (exists docs, read_run (accepted 100) [] (added id data v) = Some docs) /\ read_run (accepted 100) [] (added id data v ++ [removal id]) = None.
Proof. exists (lit "r1"), (nest 97), 100%Z. split; [reflexivity|]. split; [eexists; vm_compute; reflexivity|vm_compute; reflexivity]. Qed.
Print Assumptions C90_delete_refuted.
Lemma read_run_app acc ss ss' : forall c, read_run acc c (ss ++ ss') = bind (read_run acc c ss) (fun c' => read_run acc c' ss').
Proof. induction ss as [|s ss IH]; intro c; [reflexivity|]. cbn [app read_run]. destruct (read_step acc c s); [apply IH|reflexivity]. Qed.
Lemma clock_app b ss s : clock_increasing b ss -> (forall v, s <> SCommit v) -> clock_increasing b (ss ++ [s]).
Proof. intros H N. revert b H. induction ss as [|[mf recs|v|] ss IH]; intros b H; cbn [app clock_increasing] in *; [destruct s as [mf recs|v|]; cbn; auto; exfalso; exact (N v eq_refl)|auto|destruct H; auto|auto]. Qed.
Lemma a_run_app s ss : forall A, a_run A (ss ++ [s]) = a_step (a_run A ss) s.
Proof. induction ss as [|s' ss IH]; intro A; [reflexivity|]. cbn [app a_run]. apply IH. Qed.
(** With room for five more levels, a record can be deleted whatever has happened: nothing is left of one that was never committed, the others
    keep their history and have no data from then on. *)
Theorem C90_delete_partial : forall (L n : nat) (b : Z) (ss : list step) (id : pystr),
  1 <= n -> n + 5 <= L -> Forall (storable_step n) ss -> clock_increasing b ss -> Forall call_ok ss -> no_surrogates id ->
  exists docs docs', read_run (accepted L) [] ss = Some docs /\ read_step (accepted L) docs (removal id) = Some docs' /\
    kept docs' id (match a_run a_empty ss id with
                   | None => None
                   | Some r => match a_hist r with [] => None | (_, []) :: _ => Some (AR (a_hist r) None) | _ => Some (AR (a_hist r) (Some [])) end
                   end).
Proof.
  intros L n b ss id H1 HL Hn Hc Hs Hi.
  assert (Hn' : Forall (storable_step n) (ss ++ [removal id])).
  { apply Forall_app. split; [exact Hn|]. constructor; [|constructor]. constructor; [|constructor]. cbn [fst snd]. split; [exact Hi|]. split; [apply fits_dict; constructor|]. split; [destruct n; [lia|]; apply nested_dict; constructor|apply small_dict; constructor]. }
  assert (Hs' : Forall call_ok (ss ++ [removal id])).
  { apply Forall_app. split; [exact Hs|]. constructor; [|constructor]. split; [|constructor; [apply wf_dict; split; constructor|constructor]]. intros i j r r' Hi' Hj _. destruct i as [|[|]]; try discriminate. destruct j as [|[|]]; try discriminate. reflexivity. }
  destruct (C89_taken_partial L n b ss H1 HL Hn Hc Hs) as (docs & E & _).
  destruct (C89_taken_partial L n b (ss ++ [removal id]) H1 HL Hn' (clock_app b ss (removal id) Hc ltac:(discriminate)) Hs') as (docs' & E' & K).
  exists docs, docs'. split; [exact E|]. rewrite read_run_app, E in E'. cbn [bind read_run] in E'. split; [destruct (read_step _ docs (removal id)); [exact E'|discriminate]|].
  specialize (K id). rewrite a_run_app in K. cbn [a_step removal a_ingest] in K. unfold a_ingest in K. cbn [last_data] in K. rewrite str_eqb_refl in K. destruct (a_run a_empty ss id) as [[[|[v d] h] p]|]; cbn [a_put a_hist] in *; try exact K. unfold same in K. destruct d as [|kv d]; exact K.
Qed.
Print Assumptions C90_delete_partial.
Example C90_example : Forall (storable_step 2) ex_hist /\ clock_increasing 0 ex_hist /\ Forall call_ok ex_hist /\ no_surrogates (lit "r1") /\
  option_map (fun r => (a_hist r, a_pend r)) (a_run a_empty ex_hist (lit "r1")) = Some ([(100%Z, D [("x", VInt 1); ("y", VList [VNone])])], None) /\
  (nest 97 <> [] /\ fits (VDict (nest 97)) /\ depth (VDict (nest 97)) = 98 /\ of_64_bits 100).
Proof.
  destruct C89_example as (H1 & H2 & H3 & _). split; [exact H1|]. split; [exact H2|]. split; [exact H3|]. split; [apply text_ok_iff; reflexivity|]. split; [vm_compute; reflexivity|]. split; [discriminate|]. split; [apply bson_ok_iff; vm_compute; reflexivity|]. split; [vm_compute; reflexivity|]. split; [discriminate|reflexivity].
Qed.
