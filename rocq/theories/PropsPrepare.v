(** Properties C05-C09: preparing records. *)
From Coq Require Import String Ascii.
From Coq Require Import List ZArith NArith Bool Lia.
From Coq Require Import Floats.SpecFloat.
From Verif Require Import PyVal Time Prepare PrepareProofs.
Import ListNotations.

(** An ASCII instance of the character tables for the examples (the real tables
    agree with it below code point 128). *)
Definition ascii_db : chardb :=
  CDB (fun c => (c <? 32)%N || (c =? 127)%N) (fun c => (c =? 32)%N || ((9 <=? c)%N && (c <=? 13)%N)).
Example ascii_db_ok : db_ok ascii_db.
Proof. repeat constructor. Qed.

(** C05, as stated, is false: objects handled by the fallback [str(value)] are
    not cleaned, so their text can contain control characters, and preparing
    twice then differs from preparing once. *)
Theorem C05_prepare_normalises_refuted :
  exists v, db_ok ascii_db /\ ~ storable ascii_db (prepare_data ascii_db false v)
  /\ prepare_data ascii_db false (as_obj (prepare_data ascii_db false v)) <> prepare_data ascii_db false v.
Proof.
  exists (OSeq [OOther [97; 0; 98]%N]). split; [exact ascii_db_ok|]. split.
  - cbn. intros [H _]. destruct (H 0%N (or_intror (or_introl eq_refl)) eq_refl) as [|[|]]; discriminate.
  - vm_compute. discriminate.
Qed.
Print Assumptions C05_prepare_normalises_refuted.

(** C05 for all other inputs: every value whose fallback objects print without
    control characters. (Missing from the full statement: exactly the objects
    of the counterexample.) *)
Theorem C05_prepare_normalises_partial : forall db pad v, db_ok db -> others_print_clean db v ->
  storable db (prepare_data db pad v)
  /\ prepare_data db pad (as_obj (prepare_data db pad v)) = prepare_data db pad v.
Proof.
  intros db pad v H Ho. pose proof (prepare_storable db H pad v Ho) as S. split; [exact S|].
  exact (prepare_storable_id db pad _ S).
Qed.
Print Assumptions C05_prepare_normalises_partial.

(** The result always has distinct keys at every level, with no condition at all. *)
Theorem C05_prepared_keys_distinct : forall db pad v, wf (prepare_data db pad v).
Proof. exact prepare_wf. Qed.
Print Assumptions C05_prepared_keys_distinct.

Definition ex_obj : pyobj :=
  ODict [(KS (lit "_x.y "), OStr [9; 65; 7; 10]%N);
         (KO (lit "12"), OSeq [ODate (PD 2024 2 29); OOther (lit "UUID(1)"); OFloat (S754_zero true)]);
         (KS (lit ""), ODateTime (DT 1999 12 31 23 59 58 7 (Some (-5400000000)%Z)));
         (KS (lit "_id"), ODict [(KS [0%N; 95%N], ONone)])].
Example C05_example : others_print_clean ascii_db ex_obj /\
  prepare_data ascii_db false ex_obj =
  VDict [(lit "-x_y", VStr [9; 65; 10]%N);
         (lit "12", VList [VStr (lit "2024-02-29"); VStr (lit "UUID(1)"); VFloat (S754_zero true)]);
         (lit "-", VStr (lit "1999-12-31T23:59:58.000007-0130"));
         (lit "_id", VDict [(lit "-", VNone)])].
Proof.
  split; [|vm_compute; reflexivity]. cbn. repeat split.
  intros c H HC. exfalso. cbn in H. revert HC.
  repeat (destruct H as [<-|H]; [vm_compute; discriminate|]). destruct H.
Qed.

(** C06 *)
Theorem C06_field_names_clean : forall db name, db_ok db ->
  clean_field_name db (prepare_field_name db name)
  /\ prepare_field_name db (KS (prepare_field_name db name)) = prepare_field_name db name.
Proof.
  intros db name H. pose proof (clean_field_name_ok db H name) as C. split; [exact C|].
  exact (prepare_field_name_id db _ C).
Qed.
Print Assumptions C06_field_names_clean.
Example C06_example :
  map (prepare_field_name ascii_db) [KS (lit "  _a.b. "); KS (lit " _id"); KS (lit "_id"); KS [1;2]%N; KO (lit "_id")]
  = [lit "-a_b_"; lit "-id"; lit "_id"; lit "-"; lit "-id"].
Proof. reflexivity. Qed.

(** C07, as stated, is false: two different keys can clean to the same name and
    then one value is silently dropped. *)
Theorem C07_no_field_lost_refuted :
  exists d, NoDup (map fst d) /\
    exists out, prepare_data ascii_db false (ODict d) = VDict out /\ Datatypes.length out < Datatypes.length d.
Proof.
  exists [(KS (lit "a.b"), OInt 1); (KS (lit "a_b"), OInt 2)]. split.
  - repeat constructor; cbn; intuition discriminate.
  - eexists. split; [vm_compute; reflexivity|]. cbn; lia.
Qed.
Print Assumptions C07_no_field_lost_refuted.

Lemma dget_dict_of_map {A B} (f : A -> pystr) (g : A -> B) : forall (l : list A),
  NoDup (map f l) -> dict_of (map (fun x => (f x, g x)) l) = map (fun x => (f x, g x)) l.
Proof. intros l H. apply dict_of_id. unfold dkeys. rewrite map_map. exact H. Qed.

(** C07 when the cleaned names differ: one output field per input field, in the
    same order, each holding the prepared value. *)
Theorem C07_no_field_lost_partial : forall db pad d,
  NoDup (map (fun kv => prepare_field_name db (fst kv)) d) ->
  exists out, prepare_data db pad (ODict d) = VDict out
  /\ map fst out = map (fun kv => prepare_field_name db (fst kv)) d
  /\ forall k v, In (k, v) d -> dget out (prepare_field_name db k) = Some (prepare_data db pad v).
Proof.
  intros db pad d H. cbn [prepare_data].
  rewrite (dget_dict_of_map (fun kv => prepare_field_name db (fst kv)) (fun kv => prepare_data db pad (snd kv)) d H).
  eexists. split; [reflexivity|]. split; [rewrite map_map; reflexivity|].
  intros k v Hin. apply In_dget.
  - unfold dkeys. rewrite map_map. exact H.
  - apply in_map_iff. exists (k, v). auto.
Qed.
Print Assumptions C07_no_field_lost_partial.
Example C07_example : NoDup (map (fun kv => prepare_field_name ascii_db (fst kv))
  [(KS (lit "a.b"), OInt 1); (KS (lit "_b"), OInt 2); (KO (lit "7"), ONone)]).
Proof. repeat constructor; cbn; intuition discriminate. Qed.

(** C08 *)
Theorem C08_id_always_set : forall db pad r,
  (r_data r = [] -> prepare_record_data db pad r = [])
  /\ (r_data r <> [] ->
        dget (prepare_record_data db pad r) (lit "_id") = Some (VStr (clean_value db (r_id r)))
        /\ prepare_record_data db pad r <> [])
  /\ wfd (prepare_record_data db pad r).
Proof.
  intros db pad r. unfold prepare_record_data. split; [|split].
  - unfold is_delete. intros ->. reflexivity.
  - intro Hd. assert (E0 : is_delete r = false) by (unfold is_delete; destruct (r_data r); [destruct (Hd eq_refl)|reflexivity]). rewrite E0. cbn [prepare_data]. 
    assert (E : forall d : dict, dget (dset d DATA_ID (VStr (clean_value db (r_id r)))) (lit "_id")
       = Some (VStr (clean_value db (r_id r)))).
    { intro d. rewrite dget_dset. change DATA_ID with (lit "_id"). rewrite str_eqb_refl. reflexivity. }
    split; [apply E|]. intro H. specialize (E (dict_of (map (fun kv => (prepare_field_name db (fst kv),
      prepare_data db pad (snd kv))) (r_data r)))). rewrite H in E. discriminate.
  - destruct (is_delete r); [reflexivity|].
    pose proof (prepare_wf db pad (ODict (r_data r))) as W. cbn [prepare_data] in *.
    apply wf_dict in W. destruct W as [W1 W2]. apply wf_dict. split; [apply NoDup_dset; exact W1|].
    rewrite Forall_forall in *. intros [k v] H. apply In_dset in H.
    destruct H as [H|[H|[_ H]]]; [injection H as _ ->; reflexivity|exact (W2 _ H)|].
    cbn [snd] in *. subst v. reflexivity.
Qed.
Print Assumptions C08_id_always_set.
Example C08_example :
  prepare_record_data ascii_db false (Rec (lit "r1") [(KS (lit "_id"), OInt 9); (KS (lit "x"), ONone)])
  = [(lit "_id", VStr (lit "r1")); (lit "x", VNone)].
Proof. reflexivity. Qed.

(** C09 *)
Theorem C09_partition : forall (A : Type) (it : list A) size, size >= 1 ->
  concat (partition it size) = it
  /\ Forall (fun c => c <> [] /\ Datatypes.length c <= size) (partition it size)
  /\ (forall pre c post, partition it size = pre ++ c :: post -> post <> [] -> Datatypes.length c = size).
Proof. intros A it size H. apply partition_loop_spec; [exact H|]. apply Nat.lt_succ_diag_r. Qed.
Print Assumptions C09_partition.
Example C09_example : partition [1;2;3;4;5;6;7] 3 = [[1;2;3];[4;5;6];[7]].
Proof. reflexivity. Qed.
