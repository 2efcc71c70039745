(** Properties C76 (parsed data), C78 and C79: what queries select, from the ingested records on. *)
From Coq Require Import String Ascii.
From Coq Require Import List ZArith NArith Bool Lia.
From Coq Require Import Floats.SpecFloat.
From Verif Require Import PyVal Diff DiffProofs Time Prepare PropsPrepare Mongo Store MongoProofs MongoStore Client ClientProofs.
From Verif Require Import Parser ParserProofs ParserTypes ParserEq PropsParser PropsTotal ParserSim Options.
From Verif Require Import Index IndexSpec Sync SyncSpec SyncTrace SyncReach PropsIndex PropsSync EndToEnd PropsEndToEnd EndToEndParsed Search PropsSearch PropsContent.
Import ListNotations.
Open Scope string_scope.
Open Scope list_scope.
Open Scope Z_scope.

(** ** C76, the parsed data *)
(** The document found for a record with data as of [v] holds what parse makes of the data in force at [v] with
    the options in force at [v] (C24), up to the order of keys. *)
Theorem C76_search_parsed_partial : forall L S odef cap name n t s calls cl e,
  keyed L -> value_points L -> type_exact S -> synced_history L S odef cap name n t s calls cl e ->
  exists e', sync (parse_opt L) popt_eqb cap cl name false e = Some e' /\
    forall v hits id x fd o, search_at e' v = Some hits -> in_force (committed (a_run a_empty (proj name calls)) id) v x -> x <> [] ->
      zmin_key (committed (a_run a_empty (proj name calls)) id) = Some fd -> options_used (get_options cl name) fd v o ->
      exists hit r rx, hits_of id hits = [hit] /\ e_parsed hit = Some r /\ parse L o x = Some rx /\ pdata_same r rx.
Proof.
  intros L S odef cap name n t s calls cl e KD VP HS (H & Ha & AP). exact (search_parsed L KD VP S HS opts_eqb odef cap name n t s calls cl e H Ha AP).
Qed.
Print Assumptions C76_search_parsed_partial.

(** ** C79 *)
(** The document is selected by the query. *)
Definition selected (norm : pystr -> pystr) (q : query) (index : pystr) (h : esdoc (option parsed_data)) : Prop :=
  exists r, e_parsed h = Some r /\ hits norm q (index, ED (e_id h) (e_ver h) (e_end h) r) = true.
(** Some value of the field is indexed, in the sub-field [t], as something that matches. *)
Definition holds_value (L : lib) (o : options) (norm : pystr -> pystr) (local : datetime -> Z) (field : pystr) (q : qval) (t : pystr) (d : dict) : Prop :=
  exists x y, field_value field d x /\ parsed_as_value x /\ dget (parse_value L o x) t = Some y /\
    asks_for norm local t q y.
Lemma select_same norm q index i v w r rx : pdata_same r rx -> (forall fs ss m, q <> QBoolQ fs ss m) ->
  hits norm q (index, ED i v w r) = hits norm q (index, ED i v w rx).
Proof.
  intros (V & _) N2. assert (G : forall p, values_at p (source (ED i v w r)) = values_at p (source (ED i v w rx))).
  { intro p. apply values_sim. unfold source. apply vident_dict. intro k. cbn [dget e_parsed]. destruct (str_eqb k (lit "data")); [exact V|exact I]. }
  destruct q; cbn [hits]; try (exfalso; eapply N2; reflexivity); [| | |reflexivity].
  - unfold term_hit. cbn [fst snd]. rewrite G. reflexivity.
  - clear N2. induction vs as [|x vs IH]; [reflexivity|]. cbn [existsb]. rewrite IH. f_equal. unfold term_hit. cbn [fst snd]. rewrite G. reflexivity.
  - cbn [snd]. rewrite G. reflexivity.
Qed.
Theorem C79_term_partial : forall L S odef cap name n t s calls cl e,
  keyed L -> value_points L -> type_exact S -> synced_history L S odef cap name n t s calls cl e ->
  exists e', sync (parse_opt L) popt_eqb cap cl name false e = Some e' /\
    forall v hits id db pad rec fd o index norm local field q ty t, search_at e' v = Some hits ->
      in_force (committed (a_run a_empty (proj name calls)) id) v (prepare_record_data db pad rec) -> prepare_record_data db pad rec <> [] -> db_ok db ->
      zmin_key (committed (a_run a_empty (proj name calls)) id) = Some fd -> options_used (get_options cl name) fd v o ->
      field_name field -> target q ty = Some t -> In t types_used ->
      exists hit query, hits_of id hits = [hit] /\ term_query local field q ty = Some query /\
        (selected norm query index hit <-> holds_value L o norm local field q t (prepare_record_data db pad rec)).
Proof.
  intros L S odef cap name n t s calls cl e KD VP HS H. destruct (C76_search_parsed_partial L S odef cap name n t s calls cl e KD VP HS H) as (e' & E1 & E2).
  exists e'. split; [exact E1|]. intros v hits id db pad rec fd o index norm local field q ty ty' Hs Hx Nx Hdb Hfd Hou Hf Ht Hu.
  destruct (E2 v hits id _ fd o Hs Hx Nx Hfd Hou) as (hit & r & rx & R1 & R2 & R3 & R4).
  destruct (C53_term db pad rec L o rx index (ED (e_id hit) (e_ver hit) (e_end hit) rx) norm local field q ty ty' Hdb R3 eq_refl Hf Ht Hu) as (query & Q1 & Q2).
  exists hit, query. split; [exact R1|]. split; [exact Q1|]. unfold holds_value. rewrite <- Q2.
  assert (Hq : exists p w, query = QTerm p w) by (unfold term_query in Q1; destruct (match ty with Some t => Some t | None => infer_parsed_type q end); [injection Q1 as <-; eauto|discriminate]). destruct Hq as (p & w & ->).
  rewrite <- (select_same norm (QTerm p w) index (e_id hit) (e_ver hit) (e_end hit) r rx R4) by discriminate. split.
  - intros (r' & A & B). rewrite R2 in A. injection A as <-. exact B.
  - intro B. exists r. auto.
Qed.
Print Assumptions C79_term_partial.
(** Values that can be searched for (C68) are found in the records that hold them as of [v]. *)
Theorem C79_found_partial : forall L S odef cap name n t s calls cl e,
  keyed L -> value_points L -> type_exact S -> synced_history L S odef cap name n t s calls cl e ->
  exists e', sync (parse_opt L) popt_eqb cap cl name false e = Some e' /\
    forall v hits id db pad rec fd o index norm local field q, search_at e' v = Some hits ->
      in_force (committed (a_run a_empty (proj name calls)) id) v (prepare_record_data db pad rec) -> prepare_record_data db pad rec <> [] -> db_ok db ->
      zmin_key (committed (a_run a_empty (proj name calls)) id) = Some fd -> options_used (get_options cl name) fd v o ->
      field_name field -> findable o q -> field_value field (prepare_record_data db pad rec) (qvalue q) ->
      exists hit query, hits_of id hits = [hit] /\ term_query local field q None = Some query /\ selected norm query index hit.
Proof.
  intros L S odef cap name n t s calls cl e KD VP HS H. destruct (C76_search_parsed_partial L S odef cap name n t s calls cl e KD VP HS H) as (e' & E1 & E2).
  exists e'. split; [exact E1|]. intros v hits id db pad rec fd o index norm local field q Hs Hx Nx Hdb Hfd Hou Hf Hq Hi.
  destruct (E2 v hits id _ fd o Hs Hx Nx Hfd Hou) as (hit & r & rx & R1 & R2 & R3 & R4).
  destruct (C68_found_partial db pad rec L o rx index (ED (e_id hit) (e_ver hit) (e_end hit) rx) norm local field q Hdb R3 eq_refl Hf Hq Hi) as (query & Q1 & Q2).
  exists hit, query. split; [exact R1|]. split; [exact Q1|]. exists r. split; [exact R2|].
  assert (Hq' : exists p w, query = QTerm p w) by (unfold term_query in Q1; destruct (infer_parsed_type q); [injection Q1 as <-; eauto|discriminate]). destruct Hq' as (p & w & ->).
  rewrite (select_same norm (QTerm p w) index (e_id hit) (e_ver hit) (e_end hit) r rx R4) by discriminate. exact Q2.
Qed.
Print Assumptions C79_found_partial.
(** C79, as stated, is false where a value changed to one Python considers equal (C76): the query for True at
    version 1 selects the record whose value then was 1. *)
Theorem C79_term_refuted : exists L S odef cap name n t s calls cl e e' hs id x v o hit local norm query index,
  keyed L /\ value_points L /\ synced_history L S odef cap name n t s calls cl e /\
  sync (parse_opt L) popt_eqb cap cl name false e = Some e' /\ search_at e' v = Some hs /\
  in_force (committed (a_run a_empty (proj name calls)) id) v x /\ options_used (get_options cl name) 1 v o /\ hits_of id hs = [hit] /\
  x = rec_of [("a", VInt 1); ("b", VInt 0)] /\ term_query local (lit "a") (QBool true) None = Some query /\
  selected norm query index hit /\ ~ holds_value L o norm local (lit "a") (QBool true) (lit "_b") x.
Proof.
  exists ex_lib, (fun _ => True), ex_opts, 2000000%N, db0, 1%nat, 2, 1, (calls_b one two), (cl_d one two), (e_a one). do 2 eexists. exists (lit "r"), one, 1, ex_opts. eexists. exists (fun _ => 0), (fun s => s). eexists. exists (lit "i").
  split; [exact ex_keyed|]. split; [exact ex_points|]. split; [history; intros k v Hk; repeat (destruct Hk as [Hk|Hk]; [injection Hk as <- <-; split; [reflexivity|exact I]|]); destruct Hk|].
  split; [vm_compute; reflexivity|]. split; [vm_compute; reflexivity|]. split; [|split; [|split; [vm_compute; reflexivity|]]].
  - exists 1. split; [vm_compute; right; left; reflexivity|]. split; [lia|]. intros w z Hw Hl. exact Hl.
  - left. exists 1. split; [vm_compute; auto|]. split; [lia|]. intros w z Hw Hl. exact Hl.
  - split; [reflexivity|]. split; [reflexivity|]. split.
    + eexists. split; [reflexivity|]. vm_compute. reflexivity.
    + intros (y & z & Hy & _ & Hz & _). apply field_value_In in Hy. vm_compute in Hy. destruct Hy as [<-|[]]. vm_compute in Hz. discriminate.
Qed.
Print Assumptions C79_term_refuted.
(** A history that meets the hypotheses: the record is put with a = 1, then with a = "x". *)
Definition rec1 : record := Rec (lit "r") [(KS (lit "a"), OInt 1)].
Definition rec2 : record := Rec (lit "r") [(KS (lit "a"), OStr (lit "x"))].
Definition pre1 : dict := rec_of [("a", VInt 1); ("_id", VStr (lit "r"))].
Definition pre2 : dict := rec_of [("a", VStr (lit "x")); ("_id", VStr (lit "r"))].
Lemma ints_exact : type_exact ints_or_text.
Proof.
  intros [| | | | | |] [| | | | | |] Ha Hb E; try destruct Ha; try destruct Hb; try discriminate; f_equal.
  - unfold scalar_eqb, num_of, num_eqb in E. apply QArith_base.Qeq_bool_iff in E. unfold QArith_base.Qeq in E. cbn in E. lia.
  - apply str_eqb_eq. exact E.
Qed.
Example C79_example : db_ok ascii_db /\ prepare_record_data ascii_db true rec1 = pre1 /\ prepare_record_data ascii_db true rec2 = pre2 /\
  synced_history ex_lib ints_or_text ex_opts 2000000%N db0 1 2 1 (calls_b pre1 pre2) (cl_d pre1 pre2) (e_a pre1) /\
  in_force (committed (a_run a_empty (proj db0 (calls_b pre1 pre2))) (lit "r")) 1 pre1 /\
  zmin_key (committed (a_run a_empty (proj db0 (calls_b pre1 pre2))) (lit "r")) = Some 1 /\
  options_used (get_options (cl_d pre1 pre2) db0) 1 1 ex_opts /\ field_name (lit "a") /\ findable ex_opts (QInt 1) /\
  field_value (lit "a") pre1 (qvalue (QInt 1)) /\
  exists e' hs, ex_sync (cl_d pre1 pre2) db0 false (e_a pre1) = Some e' /\ search_at e' 1 = Some hs /\ length hs = 1%nat.
Proof.
  split; [exact ascii_db_ok|]. split; [vm_compute; reflexivity|]. split; [vm_compute; reflexivity|]. split; [history; intros k v Hk; repeat (destruct Hk as [Hk|Hk]; [injection Hk as <- <-; split; [reflexivity|exact I]|]); destruct Hk|].
  split; [exists 1; split; [vm_compute; right; left; reflexivity|]; split; [lia|]; intros w z Hw Hl; exact Hl|]. split; [vm_compute; reflexivity|].
  split; [left; exists 1; split; [vm_compute; auto|]; split; [lia|]; intros w z Hw Hl; exact Hl|].
  split; [repeat constructor; unfold parsed_type; cbn; intuition discriminate|]. split; [exact I|]. split; [apply field_value_In; left; reflexivity|].
  do 2 eexists. split; [vm_compute; reflexivity|]. split; vm_compute; reflexivity.
Qed.

(** ** C78 *)
Lemma id_value db pad rec : r_data rec <> [] -> exists i, cleaned (value_control db) (r_id rec) i /\ field_values (lit "_id") (prepare_record_data db pad rec) = [VStr i].
Proof.
  intro H. exists (clean_value db (r_id rec)). split; [apply clean_value_cleaned|]. unfold field_values. change (split (lit "_id")) with [lit "_id"]. cbn [values_at leaves flat_map]. unfold prepare_record_data, is_delete. destruct (r_data rec) as [|kv d] eqn:E; [contradiction|]. cbn [prepare_data]. rewrite dget_dset. change (str_eqb (lit "_id") DATA_ID) with true. reflexivity.
Qed.
(** id_query never raises; it selects the documents of exactly the records whose id, without control characters
    and cut to the keyword length, is the given one after the normalizer (lowercase), if it is not empty. *)
Theorem C78_id_partial : forall db pad rec L o r index doc norm local id,
  db_ok db -> r_data rec <> [] -> parse L o (prepare_record_data db pad rec) = Some r -> e_parsed doc = r -> 0 <= keyword_length o ->
  exists query i, id_query local id = Some query /\ cleaned (value_control db) (r_id rec) i /\
    (hits norm query (index, doc) = true <-> i <> [] /\ norm id = norm (firstn (Z.to_nat (keyword_length o)) i)).
Proof.
  intros db pad rec L o r index doc norm local id Hdb Hn Hr He Hk. destruct (id_value db pad rec Hn) as (i & Hc & Hv).
  assert (F : field_name (lit "_id")) by (repeat constructor; unfold parsed_type; cbn; intuition discriminate).
  destruct (C53_term db pad rec L o r index doc norm local (lit "_id") (QStr id) (Some (lit "_k")) (lit "_k") Hdb Hr He F eq_refl) as (query & Q1 & Q2); [cbn; auto|].
  exists query, i. split; [exact Q1|]. split; [exact Hc|]. rewrite Q2. setoid_rewrite <- field_value_In. rewrite Hv.
  assert (Sl : slice_to (keyword_length o) i = firstn (Z.to_nat (keyword_length o)) i) by (unfold slice_to; destruct (Z.ltb_spec (keyword_length o) 0); [lia|reflexivity]). split.
  - intros (x & y & [<-|[]] & P & G & M). rewrite get_k in G. cbn [text_of] in G. rewrite Sl in G. injection G as <-. split; [destruct i; [destruct P|discriminate]|]. inversion M; assumption.
  - intros [N E]. exists (VStr i), (VStr (slice_to (keyword_length o) i)). split; [left; reflexivity|]. split; [destruct i; [contradiction|exact I]|]. split; [rewrite get_k; reflexivity|]. rewrite Sl. constructor. exact E.
Qed.
Print Assumptions C78_id_partial.
(** C78, as stated, is false: the query for one id also selects the record whose id differs in case, ... *)
Definition lower_ascii (s : pystr) : pystr := map (fun c => if ((65 <=? c) && (c <=? 90))%N then (c + 32)%N else c) s.
Theorem C78_case_refuted : exists db pad rec L o r query id, db_ok db /\ parse L o (prepare_record_data db pad rec) = Some r /\
  r_id rec <> id /\ id_query (fun _ => 0) id = Some query /\ forall index v w, hits lower_ascii query (index, ED (r_id rec) v w r) = true.
Proof.
  exists ascii_db, true, (Rec (lit "Rec-1") [(KS (lit "a"), OInt 1)]), ex_lib, ex_opts. do 2 eexists. exists (lit "rec-1").
  split; [exact ascii_db_ok|]. split; [vm_compute; reflexivity|]. split; [discriminate|]. split; [reflexivity|]. intros index v w. vm_compute. reflexivity.
Qed.
Print Assumptions C78_case_refuted.
(** ... and a record with an id longer than the keyword length is not found by its id. *)
Theorem C78_long_refuted : exists db pad rec L o r query, db_ok db /\ parse L o (prepare_record_data db pad rec) = Some r /\
  id_query (fun _ => 0) (r_id rec) = Some query /\ forall index v w, hits lower_ascii query (index, ED (r_id rec) v w r) = false.
Proof.
  exists ascii_db, true, (Rec (lit "Rec-1") [(KS (lit "a"), OInt 1)]), ex_lib, short_opts. do 2 eexists.
  split; [exact ascii_db_ok|]. split; [vm_compute; reflexivity|]. split; [reflexivity|]. intros index v w. vm_compute. reflexivity.
Qed.
Print Assumptions C78_long_refuted.
Example C78_example : db_ok ascii_db /\ r_data rec1 <> [] /\ 0 <= keyword_length ex_opts /\ (exists r, parse ex_lib ex_opts (prepare_record_data ascii_db true rec1) = Some r) /\
  cleaned (value_control ascii_db) (r_id rec1) (lit "r").
Proof. split; [exact ascii_db_ok|]. split; [discriminate|]. split; [vm_compute; discriminate|]. split; [eexists; vm_compute; reflexivity|]. exact (clean_value_cleaned ascii_db (lit "r")). Qed.
