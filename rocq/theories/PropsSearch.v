(** Properties C34, C52, C53, C67 and C68: term iteration and the queries of search.py. *)
From Coq Require Import String Ascii.
From Coq Require Import List ZArith NArith Bool Lia Sorted Permutation.
From Coq Require Import Floats.SpecFloat.
From Verif Require Import PyVal Time TimeParse PropsTime Prepare PrepareProofs PropsPrepare Parser ParserProofs ParserTypes ParserOrder PropsParser PropsDates Index IndexProofs Sync Search.
Import ListNotations.
Open Scope string_scope.
Open Scope list_scope.
Open Scope nat_scope.

(** ** C34 *)
Record strict_order {K} (ltb : K -> K -> bool) : Prop := {
  so_irrefl : forall x, ltb x x = false;
  so_trans : forall x y z, ltb x y = true -> ltb y z = true -> ltb x z = true;
  so_total : forall x y, ltb x y = false -> ltb y x = false -> x = y }.
(** [count_of v docs n]: [n] of the documents have the value [v] *)
Inductive count_of {K} (v : K) : list (list K) -> nat -> Prop :=
| co_nil : count_of v [] 0
| co_in d docs n : In v d -> count_of v docs n -> count_of v (d :: docs) (S n)
| co_out d docs n : ~ In v d -> count_of v docs n -> count_of v (d :: docs) n.
Lemma count_filter {K} (ltb : K -> K -> bool) (S : strict_order ltb) v docs : count_of v docs (length (filter (existsb (eqk ltb v)) docs)).
Proof.
  induction docs as [|d docs IH]; [constructor|]. cbn [filter]. destruct (existsb (eqk ltb v) d) eqn:E.
  - apply existsb_exists in E. destruct E as (w & Hw & E). apply (eqk_eq ltb (so_irrefl _ S) (so_total _ S)) in E. subst w. constructor; assumption.
  - constructor; [|exact IH]. intro K1. assert (Q : existsb (eqk ltb v) d = true) by (apply existsb_exists; exists v; split; [exact K1|apply (eqk_eq ltb (so_irrefl _ S) (so_total _ S)); reflexivity]). congruence.
Qed.
Lemma count_unique {K} (v : K) docs n m : count_of v docs n -> count_of v docs m -> n = m.
Proof. intro H. revert m. induction H as [|d docs n Hi H IH|d docs n Hi H IH]; intros m M; inversion M; subst; try contradiction; auto. Qed.
Lemma loop_more {K} (ltb : K -> K -> bool) docs size fuel : forall after x, iter_loop ltb fuel docs size after = Some x -> forall k, iter_loop ltb (fuel + k) docs size after = Some x.
Proof.
  induction fuel as [|n IH]; intros after x H k; [discriminate|]. cbn [iter_loop Nat.add] in *. destruct (composite ltb size after docs) as [[|b page] after']; [exact H|].
  destruct (iter_loop ltb n docs size after') as [y|] eqn:E; [|discriminate]. rewrite (IH _ _ E). exact H.
Qed.
(** For every chunk size the iteration ends (after at most one request more than there are values) and yields
    every value that occurs in some document exactly once, with the number of documents that have it. *)
Theorem C34_terms : forall K (ltb : K -> K -> bool) docs chunk_size, strict_order ltb -> 1 <= chunk_size -> exists terms,
  (forall fuel, length terms < fuel -> iter_terms ltb fuel docs chunk_size = Some terms) /\
  (forall fuel ts, iter_terms ltb fuel docs chunk_size = Some ts -> ts = terms) /\
  NoDup (map fst terms) /\
  (forall v c, In (v, c) terms <-> (exists d, In d docs /\ In v d) /\ count_of v docs c).
Proof.
  intros K ltb docs size S Hs. exists (buckets ltb docs).
  pose proof (fun fuel => iter_terms_buckets ltb (so_irrefl _ S) (so_trans _ S) (so_total _ S) docs size fuel Hs) as A.
  split; [exact A|]. split; [|split].
  - intros fuel ts H. pose proof (loop_more _ _ _ _ _ _ H (length (buckets ltb docs) + 1)) as H'. unfold iter_terms in A. rewrite (A (fuel + (length (buckets ltb docs) + 1))) in H' by lia. congruence.
  - rewrite buckets_keys. pose proof (keys_sorted ltb (so_trans _ S) (so_total _ S) (concat docs)) as Q. induction Q as [|x l Q IH F]; constructor; auto. intro Hx. rewrite Forall_forall in F. specialize (F _ Hx). unfold klt in F. rewrite (so_irrefl _ S) in F. discriminate.
  - intros v c. rewrite (buckets_spec ltb (so_total _ S)). rewrite in_concat. split.
    + intros [(d & D1 & D2) ->]. split; [exists d; auto|apply count_filter, S].
    + intros [(d & D1 & D2) H]. split; [exists d; auto|]. exact (count_unique _ _ _ _ H (count_filter ltb S v docs)).
Qed.
Print Assumptions C34_terms.
(** The orders of the fields that are iterated: dates (epoch milliseconds) and keywords (code points). *)
Lemma order_Z : strict_order Z.ltb.
Proof. split; [apply Z.ltb_irrefl|intros x y z; rewrite !Z.ltb_lt; lia|intros x y; rewrite !Z.ltb_ge; lia]. Qed.
Definition str_ltb (a b : pystr) : bool := negb (str_leb b a).
Lemma order_str : strict_order str_ltb.
Proof.
  unfold str_ltb. split.
  - intro x. rewrite leb_refl. reflexivity.
  - intros x y z. rewrite !negb_true_iff. intros A B. destruct (str_leb z x) eqn:C; [|reflexivity]. destruct (leb_total y z) as [D|D]; [|congruence]. rewrite (leb_trans _ _ _ D C) in A. discriminate.
  - intros x y. rewrite !negb_false_iff. intros A B. apply leb_antisym; assumption.
Qed.
(** The counts the model of get_version_changed_counts uses (Sync.v) are those iter_terms yields. *)
Lemma bins_zins x l : bins Z.ltb x l = zins_u x l.
Proof. induction l as [|y l IH]; [reflexivity|]. cbn [bins zins_u]. rewrite IH. destruct (Z.ltb_spec x y), (Z.eqb_spec x y), (Z.ltb_spec y x); try lia; reflexivity. Qed.
Theorem C34_versions : forall (fields : list (option Z)) chunk_size fuel, 1 <= chunk_size -> length fields < fuel ->
  iter_terms Z.ltb fuel (map (fun o => match o with Some z => [z] | None => [] end) fields) chunk_size = Some (term_counts (somes fields)).
Proof.
  intros fields size fuel Hs Hf. pose proof order_Z as S. set (docs := map _ fields).
  assert (Ec : concat docs = somes fields) by (unfold docs, somes; rewrite flat_map_concat_map; reflexivity).
  assert (E : buckets Z.ltb docs = term_counts (somes fields)).
  { unfold buckets, term_counts. rewrite Ec. assert (Ek : fold_right (bins Z.ltb) [] (somes fields) = zsorted_set (somes fields)).
    { unfold zsorted_set. clear. induction (somes fields) as [|x l IH]; [reflexivity|]. cbn [fold_right]. rewrite IH. apply bins_zins. }
    rewrite Ek. apply map_ext. intro v. f_equal. unfold docs, somes. clear. induction fields as [|[z|] fields IH]; cbn [map filter flat_map app]; [reflexivity| |exact IH].
    cbn [existsb filter]. rewrite orb_false_r. unfold eqk at 1. destruct (Z.eqb_spec v z) as [->|N].
    - rewrite Z.ltb_irrefl. cbn [negb andb length]. f_equal. exact IH.
    - destruct (Z.ltb_spec v z), (Z.ltb_spec z v); try lia; cbn [negb andb]; exact IH. }
  rewrite <- E. apply (iter_terms_buckets Z.ltb (so_irrefl _ S) (so_trans _ S) (so_total _ S)); [exact Hs|]. rewrite E. unfold term_counts. rewrite map_length.
  assert (Lz : length (zsorted_set (somes fields)) <= length (somes fields)).
  { apply NoDup_incl_length; [|intros x Hx; exact (proj1 (zsorted_set_In _ _) Hx)]. pose proof (zsorted_set_sorted (somes fields)) as Q. induction Q as [|x l Q IH F]; constructor; auto. intro Hx. rewrite Forall_forall in F. specialize (F _ Hx). lia. }
  assert (Ls : length (somes fields) <= length fields) by (clear; unfold somes; induction fields as [|[z|] fields IH]; cbn in *; lia). lia.
Qed.
Print Assumptions C34_versions.
Example C34_example : iter_terms str_ltb 3 [[lit "b"; lit "a"]; []; [lit "b"]; [lit "c"; lit "c"]] 2 = Some [(lit "a", 1); (lit "b", 2); (lit "c", 1)] /\
  iter_terms str_ltb 2 [[lit "b"; lit "a"]; []; [lit "b"]; [lit "c"]] 2 = None.
Proof. split; vm_compute; reflexivity. Qed.

(** ** C67 *)
Definition descending (terms : list (Z * nat)) : Prop := StronglySorted (fun a b => snd b <= snd a) terms.
(** C67, as stated, is false: a value of one document is yielded before one of two documents. *)
Theorem C67_order_refuted : exists docs terms, iter_terms Z.ltb 3 docs 50 = Some terms /\ ~ descending terms.
Proof.
  exists [[1%Z]; [2%Z]; [2%Z]], [(1%Z, 1); (2%Z, 2)]. split; [vm_compute; reflexivity|]. intro H. apply StronglySorted_inv in H. destruct H as [_ H]. inversion H as [|? ? Q _]; subst. cbn in Q. lia.
Qed.
Print Assumptions C67_order_refuted.
(** The terms come in ascending order of the values, whatever the chunk size. *)
Theorem C67_order_partial : forall K (ltb : K -> K -> bool) docs chunk_size fuel terms, strict_order ltb -> 1 <= chunk_size ->
  iter_terms ltb fuel docs chunk_size = Some terms -> StronglySorted (fun a b => ltb a b = true) (map fst terms).
Proof.
  intros K ltb docs size fuel ts S Hs H. pose proof (loop_more _ _ _ _ _ _ H (length (buckets ltb docs) + 1)) as H'.
  pose proof (iter_terms_buckets ltb (so_irrefl _ S) (so_trans _ S) (so_total _ S) docs size (fuel + (length (buckets ltb docs) + 1)) Hs ltac:(lia)) as A. unfold iter_terms in A. rewrite A in H'. injection H' as <-.
  rewrite buckets_keys. exact (keys_sorted ltb (so_trans _ S) (so_total _ S) (concat docs)).
Qed.
Print Assumptions C67_order_partial.
Example C67_example : strict_order str_ltb /\ iter_terms str_ltb 5 [[lit "b"; lit "a"]; [lit "b"]; [lit "ba"; lit "c"]] 2 = Some [(lit "a", 1); (lit "b", 2); (lit "ba", 1); (lit "c", 1)].
Proof. split; [exact order_str|vm_compute; reflexivity]. Qed.

(** ** C52 *)
(** The range of versions of a document: from its own version until (before) the next one, if there is one. *)
Definition current_at (d : esdoc parsed_data) (v : Z) : Prop := (e_ver d <= v)%Z /\ forall w, e_end d = Some w -> (v < w)%Z.
Lemma in_versions_iff d v : in_versions d v = true <-> current_at d v.
Proof.
  unfold in_versions, current_at. rewrite andb_true_iff, Z.leb_le. apply and_iff_compat_l. destruct (e_end d) as [w|].
  - rewrite Z.ltb_lt. split; [intros H u E; congruence|auto].
  - split; [intros _ u E; discriminate|auto].
Qed.
Theorem C52_filter : forall norm m index doc v, NoDup (map fst m) -> In (index, v) m ->
  (hits norm (index_specific_version_filter m) (index, doc) = true <-> current_at doc v).
Proof. intros norm m index doc v Hn Hv. rewrite (index_filter norm m (index, doc) Hn v Hv). apply in_versions_iff. Qed.
Print Assumptions C52_filter.
(** With different versions documents of other indices are not selected. (With a single version the indices
    are not looked at.) *)
Theorem C52_others : forall norm m index doc, (exists i j v w, In (i, v) m /\ In (j, w) m /\ v <> w) -> ~ In index (map fst m) ->
  hits norm (index_specific_version_filter m) (index, doc) = false.
Proof. intros norm m index doc H Ho. exact (index_filter_other norm m (index, doc) H Ho). Qed.
Print Assumptions C52_others.
(** The filter for one version selects the documents the search at that version selects (Sync.v). *)
Theorem C52_version : forall norm index doc v, hits norm (version_query v) (index, doc) = Sync.version_query v doc.
Proof. reflexivity. Qed.
Print Assumptions C52_version.
Definition map3 : list (pystr * Z) := [(lit "a", 5%Z); (lit "b", 7%Z); (lit "c", 5%Z)].
Definition doc_of (v : Z) (e : option Z) : esdoc parsed_data := ED (lit "r") v e (PData [] [] []).
Example C52_example : NoDup (map fst map3) /\ In (lit "c", 5%Z) map3 /\
  hits (fun s => s) (index_specific_version_filter map3) (lit "c", doc_of 3 (Some 6%Z)) = true /\
  hits (fun s => s) (index_specific_version_filter map3) (lit "b", doc_of 3 (Some 6%Z)) = false /\
  hits (fun s => s) (index_specific_version_filter map3) (lit "d", doc_of 3 (Some 6%Z)) = false.
Proof. split; [repeat constructor; cbn; intuition discriminate|]. split; [cbn; auto|]. split; [|split]; vm_compute; reflexivity. Qed.

(** ** C53 *)
(** The sub-field that is queried: the type given, or by the kind of the value. *)
Definition types_used : list pystr := [lit "_k"; lit "_b"; lit "_n"; lit "_d"].
Definition target (q : qval) (ty : option pystr) : option pystr :=
  match ty, q with
  | Some t, _ => Some t
  | None, QStr _ => Some (lit "_k") | None, QBool _ => Some (lit "_b") | None, (QInt _ | QFloat _) => Some (lit "_n")
  | None, (QDate _ | QDatetime _) => Some (lit "_d") | None, QOther => None
  end.
(** A field name no component of which is the name of a sub-field. *)
Definition field_name (field : pystr) : Prop := Forall (fun k => ~ parsed_type k) (split field).
(** The values of the field in the data; objects are entered by name, lists are transparent. *)
Inductive at_path : list pystr -> value -> value -> Prop :=
| ap_here v : match v with VList _ | VDict _ => False | _ => True end -> at_path [] v v
| ap_item p l x v : In x l -> at_path p x v -> at_path p (VList l) v
| ap_field k p d x v : dget d k = Some x -> at_path p x v -> at_path (k :: p) (VDict d) v.
Definition field_value (field : pystr) (d : dict) (x : value) : Prop := at_path (split field) (VDict d) x.
Definition field_values (field : pystr) (d : dict) : list value := values_at (split field) (VDict d).
Lemma values_path p : forall v x, In x (values_at p v) <-> at_path p v x.
Proof.
  assert (G : forall v q x, In x (values_at q v) -> (forall d k q' w, q = k :: q' -> dget d k = Some w -> In x (values_at q' w) -> at_path q' w x) -> at_path q v x).
  { induction v as [|b|z|f|s|l IH|d IH] using value_ind'; intros q x H K.
    6:{ rewrite values_list in H. apply in_flat_map in H. destruct H as (y & Y1 & Y2). rewrite Forall_forall in IH. exact (ap_item q l y x Y1 (IH y Y1 q x Y2 K)). }
    6:{ destruct q as [|k q]; [destruct H|]. rewrite values_dict in H. destruct (dget d k) as [w|] eqn:E; [|destruct H]. exact (ap_field k q d w x E (K d k q w eq_refl E H)). }
    all: (destruct q as [|k q]; [destruct H as [<-|[]]; constructor; exact I|destruct H]). }
  induction p as [|k p IH]; intros v x; split.
  - intro H. apply (G v [] x H). discriminate.
  - intro H. remember [] as q eqn:Q. induction H as [v H|q l y v Y1 Y2 IHp|k q d y v Y1 Y2 IHp]; [|rewrite values_list; apply in_flat_map; exists y; auto|discriminate]. destruct v; try destruct H; left; reflexivity.
  - intro H. apply (G v (k :: p) x H). intros d k' q' w E _ W. injection E as -> ->. apply IH, W.
  - intro H. remember (k :: p) as q eqn:Q. induction H as [v H|q l y v Y1 Y2 IHp|k' q d y v Y1 Y2 IHp]; [discriminate|rewrite values_list; apply in_flat_map; exists y; auto|]. injection Q as -> ->. rewrite values_dict, Y1. apply IH, Y2.
Qed.
Lemma field_value_In field d x : In x (field_values field d) <-> field_value field d x.
Proof. apply values_path. Qed.
Lemma used_ok t : In t types_used -> ok_type t.
Proof. unfold types_used, ok_type. intros [<-|[<-|[<-|[<-|[]]]]]; cbn; tauto. Qed.
Lemma kept_not_parsed k : kept k = true -> ~ parsed_type k.
Proof. unfold parsed_type. intros H Q. repeat (destruct Q as [<-|Q]; [discriminate H|]). destruct Q. Qed.
Lemma path_split field t : ok_type t -> split (parsed_path field (Some t) true) = lit "data" :: split field ++ [t].
Proof.
  intro Ht. unfold parsed_path. rewrite !split_dotted. rewrite (split_dotless t) by (apply (parsed_type_ok t), ok_parsed, Ht). reflexivity.
Qed.
Lemma path_plain field t : str_eqb (parsed_path field t true) (lit "_index") = false /\ str_eqb (parsed_path field t true) (lit "versions") = false.
Proof. split; reflexivity. Qed.
Lemma doc_values db pad rec L o r doc field t : db_ok db -> parse L o (prepare_record_data db pad rec) = Some r -> e_parsed doc = r -> field_name field -> ok_type t ->
  values_at (split (parsed_path field (Some t) true)) (source doc) = flat_map (sub L o t) (field_values field (prepare_record_data db pad rec)).
Proof.
  intros Hdb Hr He Hf Ht. rewrite path_split by exact Ht. unfold source. rewrite values_dict. cbn [dget]. rewrite str_eqb_refl, He.
  apply parse_values; [apply record_wf| |exact Hr|apply split_nonnil|exact Ht|exact Hf]. intros k K. apply kept_not_parsed, (clean_kept db), (record_keys db pad rec Hdb k K).
Qed.
Lemma last_path field t : ok_type t -> last (split (parsed_path field (Some t) true)) [] = t.
Proof. intro Ht. rewrite path_split by exact Ht. change (lit "data" :: split field ++ [t]) with ((lit "data" :: split field) ++ [t]). apply last_last. Qed.
Lemma sub_In L o t x y : In y (sub L o t x) <-> parsed_as_value x /\ dget (parse_value L o x) t = Some y.
Proof.
  unfold sub. destruct x as [|b|z|f|[|c s]|l|e]; cbn [parsed_as_value]; try (split; [intros []|intros [[] _]]);
  (match goal with |- context [dget ?a ?b] => destruct (dget a b) as [w|] end; cbn [In]; split; [intros [<-|[]]; auto|intros [_ E]; injection E as <-; auto|intros []|intros [_ E]; discriminate E]).
Qed.
(** What a value of a sub-field has to be to match: text equal after normalising, equal booleans, the same double, the
    timestamp of the moment asked for. Integers in double fields are rounded to doubles. *)
Inductive as_double : value -> spec_float -> Prop :=
| ad_int z : as_double (VInt z) (binary_normalize 53 1024 z 0 false)
| ad_float f : as_double (VFloat f) f.
Inductive number_asked : qval -> spec_float -> Prop :=
| na_int z : number_asked (QInt z) (binary_normalize 53 1024 z 0 false)
| na_float f : number_asked (QFloat f) f.
Inductive moment_asked (local : datetime -> Z) : qval -> Z -> Prop :=
| ma_int z : moment_asked local (QInt z) z
| ma_date d : moment_asked local (QDate d) (to_timestamp (local (midnight d)) (midnight d))
| ma_datetime t : moment_asked local (QDatetime t) (to_timestamp (local t) t).
Inductive asks_for (norm : pystr -> pystr) (local : datetime -> Z) : pystr -> qval -> value -> Prop :=
| af_text s s' : norm s = norm s' -> asks_for norm local (lit "_k") (QStr s) (VStr s')
| af_bool b : asks_for norm local (lit "_b") (QBool b) (VBool b)
| af_number q y f : number_asked q f -> as_double y f -> asks_for norm local (lit "_n") q y
| af_moment q z : moment_asked local q z -> asks_for norm local (lit "_d") q (VInt z).
Lemma as_double_iff y f : as_double y f <-> double_of y = Some f.
Proof. split; [intros []; reflexivity|]. destruct y; cbn [double_of]; try discriminate; intro H; injection H as <-; constructor. Qed.
Lemma number_asked_iff q f : number_asked q f <-> double_of (qvalue q) = Some f.
Proof. split; [intros []; reflexivity|]. destruct q; cbn [qvalue double_of]; try discriminate; intro H; injection H as <-; constructor. Qed.
Lemma term_asks norm local t q y : In t types_used -> term_match norm t (if str_eqb t (lit "_d") then stamp local q else q) y = true <-> asks_for norm local t q y.
Proof.
  intros [<-|[<-|[<-|[<-|[]]]]]; cbn [str_eqb]; unfold term_match.
  - change (str_eqb (lit "_k") (lit "_d")) with false. change (str_eqb (lit "_k") pt_k) with true. cbn iota. split.
    + destruct q, y; try discriminate. intro H. apply str_eqb_eq in H. constructor. exact H.
    + intro H. inversion H; subst. apply str_eqb_eq. assumption.
  - change (str_eqb (lit "_b") (lit "_d")) with false. change (str_eqb (lit "_b") pt_k) with false. change (str_eqb (lit "_b") pt_b) with true. cbn iota. split.
    + destruct q, y; try discriminate. intro H. apply Bool.eqb_prop in H. subst. constructor.
    + intro H. inversion H; subst. apply Bool.eqb_reflx.
  - change (str_eqb (lit "_n") (lit "_d")) with false. change (str_eqb (lit "_n") pt_k) with false. change (str_eqb (lit "_n") pt_b) with false. change (str_eqb (lit "_n") pt_n) with true. cbn iota. split.
    + destruct (double_of (qvalue q)) as [a|] eqn:A; [|discriminate]. destruct (double_of y) as [b|] eqn:B; [|discriminate]. destruct (sf_eq_dec a b) as [<-|]; [|discriminate]. intros _. apply (af_number _ _ _ _ a); [apply number_asked_iff, A|apply as_double_iff, B].
    + intro H. inversion H as [| |q' y' f A B|]; subst. apply number_asked_iff in A. apply as_double_iff in B. rewrite A, B. destruct (sf_eq_dec f f); [reflexivity|contradiction].
  - change (str_eqb (lit "_d") (lit "_d")) with true. change (str_eqb (lit "_d") pt_k) with false. change (str_eqb (lit "_d") pt_b) with false. change (str_eqb (lit "_d") pt_n) with false. change (str_eqb (lit "_d") pt_d) with true. cbn iota. split.
    + destruct q; cbn [stamp]; destruct y; try discriminate; intro H; apply Z.eqb_eq in H; subst; repeat constructor.
    + intro H. inversion H as [| | |q' z' A]; subst. inversion A; subst; cbn [stamp]; apply Z.eqb_refl.
Qed.
(** term_query raises only if a type has to be inferred from a value of another kind; the query selects a
    record if and only if some value of the field was parsed into the sub-field as something that matches. *)
Theorem C53_term : forall db pad rec L o r index doc norm local field q ty t,
  db_ok db -> parse L o (prepare_record_data db pad rec) = Some r -> e_parsed doc = r -> field_name field ->
  target q ty = Some t -> In t types_used ->
  exists query, term_query local field q ty = Some query /\
    (hits norm query (index, doc) = true <->
     exists x y, field_value field (prepare_record_data db pad rec) x /\ parsed_as_value x /\ dget (parse_value L o x) t = Some y /\
       asks_for norm local t q y).
Proof.
  intros db pad rec L o r index doc norm local field q ty t Hdb Hr He Hf Htg Hu. setoid_rewrite <- (fun y => term_asks norm local t q y Hu). setoid_rewrite <- field_value_In. pose proof (used_ok t Hu) as Ht.
  assert (E : (match ty with Some t => Some t | None => infer_parsed_type q end) = Some t) by (destruct ty, q; exact Htg).
  unfold term_query. rewrite E. eexists. split; [reflexivity|]. cbn [hits]. unfold term_hit. destruct (path_plain field (Some t)) as [-> ->].
  cbn [snd]. rewrite (doc_values db pad rec L o r doc field t Hdb Hr He Hf Ht), (last_path field t Ht), existsb_exists. split.
  - intros (y & Hy & M). apply in_flat_map in Hy. destruct Hy as (x & X1 & X2). apply sub_In in X2. destruct X2 as [X2 X3]. exists x, y. auto.
  - intros (x & y & X1 & X2 & X3 & M). exists y. split; [|exact M]. apply in_flat_map. exists x. split; [exact X1|]. apply sub_In. auto.
Qed.
Print Assumptions C53_term.
Lemma get_k L o x : dget (parse_value L o x) (lit "_k") = Some (VStr (slice_to (keyword_length o) (text_of L o x))).
Proof. reflexivity. Qed.
Lemma get_b L o x : dget (parse_value L o x) (lit "_b") = option_map VBool (bool_of L o x).
Proof. unfold parse_value. destruct (l_wkt L _), (bool_of L o x), (number_of L o x), (first_date L _ _); reflexivity. Qed.
Lemma get_n L o x : dget (parse_value L o x) (lit "_n") = number_of L o x.
Proof. unfold parse_value. destruct (l_wkt L _), (bool_of L o x), (number_of L o x), (first_date L _ _); reflexivity. Qed.
(** The sub-field is one that parse fills in for every value of that kind, and with that value: strings (cut to
    the keyword length), booleans, numbers; for dates, with the default formats, the timestamp. *)
Theorem C53_subfield : forall L o q t, target q None = Some t ->
  match q with
  | QStr s => dget (parse_value L o (VStr s)) t = Some (VStr (slice_to (keyword_length o) s))
  | QBool b => dget (parse_value L o (VBool b)) t = Some (VBool b)
  | QInt z => dget (parse_value L o (VInt z)) t = Some (VInt z)
  | QFloat f => dget (parse_value L o (VFloat f)) t = Some (VFloat f)
  | QDate d => std_dates L -> default_formats o -> forall db m, moment_of (ODate d) m -> dget (parse_value L o (prepare_data db true (ODate d))) t = Some (VInt (to_timestamp 0 m))
  | QDatetime u => std_dates L -> default_formats o -> forall db m, moment_of (ODateTime u) m -> dget (parse_value L o (prepare_data db true (ODateTime u))) t = Some (VInt (to_timestamp 0 m))
  | QOther => False
  end.
Proof.
  intros L o q t H. destruct q as [s|b|z|f|d|m|]; cbn [target] in H; try discriminate; injection H as <-.
  - reflexivity.
  - apply get_b.
  - apply get_n.
  - apply get_n.
  - intros HL D db m0 M. apply C58_dates_partial; [exact HL|exact D|exact M|left; reflexivity].
  - intros HL D db m0 M. apply C58_dates_partial; [exact HL|exact D|exact M|left; reflexivity].
Qed.
Print Assumptions C53_subfield.
Example C53_example : target (QInt 3) None = Some (lit "_n") /\ target (QDate (PD 2024 2 29)) None = Some (lit "_d") /\ target (QDate (PD 2024 2 29)) (Some (lit "_k")) = Some (lit "_k") /\ field_name (lit "a.b") /\ In (lit "_n") types_used.
Proof. split; [reflexivity|]. split; [reflexivity|]. split; [reflexivity|]. split; [repeat constructor; unfold parsed_type; cbn; intuition discriminate|cbn; auto]. Qed.

(** ** C68 *)
(** C68, as stated, is false for long strings, for the empty string and, on machines that are not set to UTC,
    for dates and naive datetimes. *)
Definition one_field (v : pyobj) : record := Rec (lit "r1") [(KS (lit "a"), v)].
Definition short_opts : options := Opts [] [] [DATETIME_STR; DATE_STR; NAIVE_DATETIME_STR] [] 3 (lit "{0:.15g}").
Definition doc_with (r : parsed_data) : esdoc parsed_data := ED (lit "r1") 5 None r.
Theorem C68_string_refuted : exists db pad rec L o r s query, db_ok db /\ parse L o (prepare_record_data db pad rec) = Some r /\
  field_value (lit "a") (prepare_record_data db pad rec) (VStr s) /\ term_query (fun _ => 0%Z) (lit "a") (QStr s) None = Some query /\
  hits (fun s => s) query (lit "i", doc_with r) = false.
Proof.
  exists ascii_db, true, (one_field (OStr (lit "abcd"))), std_lib, short_opts. eexists. exists (lit "abcd"). eexists.
  split; [exact ascii_db_ok|]. split; [vm_compute; reflexivity|]. split; [apply field_value_In; vm_compute; left; reflexivity|]. split; [reflexivity|]. vm_compute. reflexivity.
Qed.
Print Assumptions C68_string_refuted.
Theorem C68_empty_refuted : exists db pad rec L o r query, db_ok db /\ parse L o (prepare_record_data db pad rec) = Some r /\
  field_value (lit "a") (prepare_record_data db pad rec) (VStr []) /\ term_query (fun _ => 0%Z) (lit "a") (QStr []) None = Some query /\
  hits (fun s => s) query (lit "i", doc_with r) = false.
Proof.
  exists ascii_db, true, (one_field (OStr [])), std_lib, short_opts. eexists. eexists.
  split; [exact ascii_db_ok|]. split; [vm_compute; reflexivity|]. split; [apply field_value_In; vm_compute; left; reflexivity|]. split; [reflexivity|]. vm_compute. reflexivity.
Qed.
Print Assumptions C68_empty_refuted.
Theorem C68_date_refuted : exists db pad rec L o r d query, db_ok db /\ std_dates L /\ default_formats o /\ rec = one_field (ODate d) /\ parse L o (prepare_record_data db pad rec) = Some r /\
  term_query (fun _ => 3600000000%Z) (lit "a") (QDate d) None = Some query /\ hits (fun s => s) query (lit "i", doc_with r) = false.
Proof.
  exists ascii_db, true, (one_field (ODate (PD 2024 2 29))), std_lib, short_opts. eexists. exists (PD 2024 2 29). eexists.
  split; [exact ascii_db_ok|]. split; [exact std_lib_ok|]. split; [apply Permutation_refl|]. split; [reflexivity|]. split; [vm_compute; reflexivity|]. split; [reflexivity|]. vm_compute. reflexivity.
Qed.
Print Assumptions C68_date_refuted.
(** A record is found by every one of its strings that is not empty and not longer than the keyword length, and
    by every boolean and number it holds (at any depth, in lists or not). *)
Definition findable (o : options) (q : qval) : Prop :=
  match q with
  | QStr s => s <> [] /\ (Z.of_nat (length s) <= keyword_length o)%Z
  | QBool _ | QInt _ | QFloat _ => True
  | _ => False
  end.
Lemma slice_all n s : (Z.of_nat (length s) <= n)%Z -> slice_to n s = s.
Proof. intro H. unfold slice_to. destruct (Z.ltb_spec n 0); [lia|]. apply firstn_all2. lia. Qed.
Theorem C68_found_partial : forall db pad rec L o r index doc norm local field q,
  db_ok db -> parse L o (prepare_record_data db pad rec) = Some r -> e_parsed doc = r -> field_name field -> findable o q ->
  field_value field (prepare_record_data db pad rec) (qvalue q) ->
  exists query, term_query local field q None = Some query /\ hits norm query (index, doc) = true.
Proof.
  intros db pad rec L o r index doc norm local field q Hdb Hr He Hf Hq Hin.
  assert (T : exists t y, target q None = Some t /\ In t types_used /\ parsed_as_value (qvalue q) /\ dget (parse_value L o (qvalue q)) t = Some y /\ asks_for norm local t q y).
  { destruct q as [s|b|z|f|d|t|]; cbn [findable] in Hq; try (destruct Hq; fail).
    - destruct Hq as [N Hl]. exists (lit "_k"), (VStr s). cbn [target qvalue]. split; [reflexivity|]. split; [cbn; auto|]. split; [destruct s; [contradiction|exact I]|]. split; [rewrite get_k; cbn [text_of]; rewrite slice_all by exact Hl; reflexivity|]. constructor. reflexivity.
    - exists (lit "_b"), (VBool b). split; [reflexivity|]. split; [cbn; auto|]. split; [exact I|]. split; [rewrite get_b; reflexivity|]. constructor.
    - exists (lit "_n"), (VInt z). split; [reflexivity|]. split; [cbn; auto|]. split; [exact I|]. split; [rewrite get_n; reflexivity|]. econstructor; constructor.
    - exists (lit "_n"), (VFloat f). split; [reflexivity|]. split; [cbn; auto|]. split; [exact I|]. split; [rewrite get_n; reflexivity|]. econstructor; constructor. }
  destruct T as (t & y & T1 & T2 & T3 & T4 & T5).
  destruct (C53_term db pad rec L o r index doc norm local field q None t Hdb Hr He Hf T1 T2) as (query & Q1 & Q2). exists query. split; [exact Q1|]. apply Q2. exists (qvalue q), y. auto.
Qed.
Print Assumptions C68_found_partial.
(** Dates and datetimes, with the default formats: aware datetimes always, the others on a machine set to UTC. *)
Definition query_of (v : pyobj) : qval := match v with ODateTime t => QDatetime t | ODate d => QDate d | _ => QOther end.
(** the datetime that is searched for: a date as its midnight *)
Definition asked (v : pyobj) (u : datetime) : Prop := v = ODateTime u \/ exists y m d, v = ODate (PD y m d) /\ u = DT y m d 0 0 0 0 None.
Definition utc_here (local : datetime -> Z) (t : datetime) : Prop := dtz t = None -> local t = 0%Z.
Lemma asked_moment v u t : asked v u -> moment_of v t -> good 0 u /\ good 0 t /\ exact_us 0 u = exact_us 0 t.
Proof.
  intros A M. assert (G : forall x, valid_dt x = true -> good 0 x) by (intros x V; split; [exact V|unfold day_us; lia]).
  destruct M as [t z V Ez|y m d h i s0 us V|y m d V]; destruct A as [A|(y' & m' & d' & A & B)]; try discriminate.
  - injection A as <-. auto.
  - injection A as <-. split; [apply G, V|]. split; [apply G, V|]. reflexivity.
  - injection A as -> -> ->. subst u. assert (W : forall z, valid_tz z = true -> valid_dt (DT y' m' d' 0 0 0 0 z) = true) by (intros z Hz; unfold valid_dt; cbn; rewrite V, Hz; reflexivity). split; [apply G, W; reflexivity|]. split; [apply G, W; reflexivity|]. reflexivity.
Qed.
Lemma stamp_date local v u : asked v u -> utc_here local u -> stamp local (query_of v) = QInt (to_timestamp 0 u).
Proof.
  intros [->|(y & m & d & -> & ->)] U; cbn [query_of stamp]; [|rewrite U by reflexivity; reflexivity]. f_equal. unfold to_timestamp. destruct (dtz u) eqn:E; [reflexivity|]. rewrite (U E). reflexivity.
Qed.
(** Datetimes without a timezone: not within 8192 seconds of the epoch or a whole number of seconds (see
    [C68_naive_refuted]). *)
Theorem C68_date_partial : forall db pad rec L o r index doc norm local field v t u,
  db_ok db -> parse L o (prepare_record_data db pad rec) = Some r -> e_parsed doc = r -> field_name field ->
  std_dates L -> default_formats o -> moment_of v t -> pad = true \/ (1000 <= dyear t)%Z -> asked v u -> utc_here local u -> same_float u t (exact_us 0 t) ->
  field_value field (prepare_record_data db pad rec) (prepare_data db pad v) ->
  exists query, term_query local field (query_of v) None = Some query /\ hits norm query (index, doc) = true.
Proof.
  intros db pad rec L o r index doc norm local field v t u Hdb Hr He Hf HL D M Hp A U SF Hin.
  assert (T : target (query_of v) None = Some (lit "_d")) by (destruct M; reflexivity).
  destruct (C53_term db pad rec L o r index doc norm local field (query_of v) None (lit "_d") Hdb Hr He Hf T) as (query & Q1 & Q2); [cbn; auto|]. exists query. split; [exact Q1|]. apply Q2.
  destruct (date_value db pad L o v t HL D M Hp) as (s & Es & Ns & E). rewrite Es in Hin. exists (VStr s), (VInt (to_timestamp 0 t)). split; [exact Hin|]. split; [destruct s; [contradiction|exact I]|]. split; [rewrite value_date; cbn [text_of]; rewrite E; reflexivity|].
  destruct (asked_moment v u t A M) as (G1 & G2 & Eu). apply term_asks; [cbn; auto|]. rewrite str_eqb_refl, (stamp_date local v u A U), (C50_equal 0 0 u t G1 G2 Eu) by (rewrite Eu; exact SF). cbn. apply Z.eqb_refl.
Qed.
Print Assumptions C68_date_partial.
(** Without that, C68 is false: a record holds the datetime 1970-01-01 00:00:01.118, the machine is set to UTC, and
    searching for that datetime does not find it. *)
Theorem C68_naive_refuted : exists db rec L o r v t u query, db_ok db /\ std_dates L /\ default_formats o /\ rec = one_field v /\ moment_of v t /\ asked v u /\
  parse L o (prepare_record_data db true rec) = Some r /\ term_query (fun _ => 0%Z) (lit "a") (query_of v) None = Some query /\ hits (fun s => s) query (lit "i", doc_with r) = false.
Proof.
  exists ascii_db, (one_field (ODateTime (DT 1970 1 1 0 0 1 118000 None))), std_lib, date_opts. eexists. exists (ODateTime (DT 1970 1 1 0 0 1 118000 None)). eexists. eexists. eexists.
  split; [exact ascii_db_ok|]. split; [exact std_lib_ok|]. split; [apply Permutation_refl|]. split; [reflexivity|]. split; [apply mo_naive; reflexivity|]. split; [left; reflexivity|]. split; [vm_compute; reflexivity|]. split; [reflexivity|vm_compute; reflexivity].
Qed.
Print Assumptions C68_naive_refuted.
Definition found_record : record := Rec (lit "r1") [(KS (lit "a"), ODict [(KS (lit "b"), OSeq [OInt 3; OSeq [OStr (lit "xyz"); ODate (PD 2024 2 29)]; ONone])])].
Example C68_example : db_ok ascii_db /\ field_name (lit "a.b") /\
  field_values (lit "a.b") (prepare_record_data ascii_db true found_record) = [VInt 3; VStr (lit "xyz"); VStr (lit "2024-02-29"); VNone] /\
  findable short_opts (QStr (lit "xyz")) /\ exists r, parse std_lib short_opts (prepare_record_data ascii_db true found_record) = Some r /\
  exists query, term_query (fun _ => 0%Z) (lit "a.b") (QDate (PD 2024 2 29)) None = Some query /\ hits (fun s => s) query (lit "i", doc_with r) = true.
Proof.
  split; [exact ascii_db_ok|]. split; [repeat constructor; unfold parsed_type; cbn; intuition discriminate|]. split; [vm_compute; reflexivity|]. split; [split; [discriminate|vm_compute; discriminate]|].
  eexists. split; [vm_compute; reflexivity|]. eexists. split; [reflexivity|]. vm_compute. reflexivity.
Qed.

(** ** C53, ranges *)
(** range_query raises exactly if there is no bound, or a type has to be inferred from the first bound and
    cannot be. (Python does not let the bounds be given as further options.) *)
Definition no_bound (gte lt gt lte : option qval) : Prop := gte = None /\ lt = None /\ gt = None /\ lte = None.
Definition first_bound (gte lt gt lte : option qval) : option qval :=
  match gte, lt, gt, lte with Some q, _, _, _ => Some q | None, Some q, _, _ => Some q | None, None, Some q, _ => Some q | None, None, None, x => x end.
Theorem C53_range_raises : forall local field gte lt gt lte ty kwargs,
  range_query local field gte lt gt lte ty kwargs = None <-> no_bound gte lt gt lte \/ (ty = None /\ first_bound gte lt gt lte = Some QOther).
Proof.
  intros local field gte lt gt lte ty kwargs. unfold no_bound.
  destruct gte as [a|], lt as [b|], gt as [c|], lte as [d|]; cbn [range_query range_bounds flat_map snd fst app first_bound]; unfold range_query; cbn [range_bounds flat_map snd fst app];
  (destruct ty as [t|]; [split; [try discriminate; auto|intros [(A & B & C & D)|[A _]]; congruence]|]);
  try (split; [auto|intros _; reflexivity]);
  match goal with |- context [infer_parsed_type ?x] => destruct x end; cbn [infer_parsed_type]; split; try discriminate; try (intros [(A & B & C & D)|[_ A]]; congruence); auto.
Qed.
Print Assumptions C53_range_raises.
(** Otherwise it is a range on the sub-field of the type given, or of the type of the first bound, with all
    the bounds given (dates as timestamps) and the further options. *)
Definition bound_names : list pystr := [lit "gte"; lit "lt"; lit "gt"; lit "lte"].
Theorem C53_range_bounds : forall local field gte lt gt lte ty kwargs query, NoDup (dkeys kwargs) -> (forall k, In k (dkeys kwargs) -> ~ In k bound_names) ->
  range_query local field gte lt gt lte ty kwargs = Some query -> exists q t inner,
    first_bound gte lt gt lte = Some q /\ target q ty = Some t /\ query = QRange (parsed_path field (Some t) true) inner /\
    dget inner (lit "gte") = option_map (stamp local) gte /\ dget inner (lit "lt") = option_map (stamp local) lt /\
    dget inner (lit "gt") = option_map (stamp local) gt /\ dget inner (lit "lte") = option_map (stamp local) lte /\
    (forall k, ~ In k bound_names -> dget inner k = dget kwargs k).
Proof.
  intros local field gte lt gt lte ty kwargs query Hn Hk H.
  assert (U : forall base k, dget (dupdate base kwargs) k = match dget kwargs k with Some v => Some v | None => dget base k end) by (intros; apply dget_dupdate, Hn).
  assert (N : forall k, In k bound_names -> dget kwargs k = None) by (intros k K; apply dget_None; intro Q; exact (Hk k Q K)).
  assert (G : forall q rest, range_bounds gte lt gt lte = rest -> first_bound gte lt gt lte = Some q ->
    match (match ty with Some t => Some t | None => infer_parsed_type q end) with
    | None => None
    | Some t => Some (QRange (parsed_path field (Some t) true) (dupdate (map (fun kv => (fst kv, stamp local (snd kv))) rest) kwargs))
    end = Some query -> exists q t inner,
    first_bound gte lt gt lte = Some q /\ target q ty = Some t /\ query = QRange (parsed_path field (Some t) true) inner /\
    dget inner (lit "gte") = option_map (stamp local) gte /\ dget inner (lit "lt") = option_map (stamp local) lt /\
    dget inner (lit "gt") = option_map (stamp local) gt /\ dget inner (lit "lte") = option_map (stamp local) lte /\
    (forall k, ~ In k bound_names -> dget inner k = dget kwargs k)).
  { intros q rest <- F E. destruct (match ty with Some t => Some t | None => infer_parsed_type q end) as [t|] eqn:Et; [|discriminate]. injection E as <-.
    exists q, t, (dupdate (map (fun kv => (fst kv, stamp local (snd kv))) (range_bounds gte lt gt lte)) kwargs). split; [exact F|]. split; [destruct ty, q; exact Et|]. split; [reflexivity|].
    rewrite !U, !N by (cbn; auto).
    split; [destruct gte, lt, gt, lte; reflexivity|]. split; [destruct gte, lt, gt, lte; reflexivity|]. split; [destruct gte, lt, gt, lte; reflexivity|]. split; [destruct gte, lt, gt, lte; reflexivity|].
    intros k K. rewrite U. destruct (dget kwargs k); [reflexivity|]. apply dget_None. intro Q. apply K. clear - Q. destruct gte, lt, gt, lte; cbn in *; tauto. }
  unfold range_query in H. destruct gte as [a|], lt as [b|], gt as [c|], lte as [d|]; try discriminate H; refine (G _ _ eq_refl eq_refl H).
Qed.
Print Assumptions C53_range_bounds.
(** ** C68, ranges *)
(** What a range on dates selects: with [gte = a] and [lte = b] every record that has a moment between [a] and
    [b] (all on a machine set to UTC, or aware). *)
Theorem C68_range_between_partial : forall db pad rec L o r index doc norm local field v t a ta b tb,
  db_ok db -> parse L o (prepare_record_data db pad rec) = Some r -> e_parsed doc = r -> field_name field ->
  std_dates L -> default_formats o -> moment_of v t -> pad = true \/ (1000 <= dyear t)%Z ->
  asked a ta -> asked b tb -> valid_dt ta = true -> valid_dt tb = true -> utc_here local ta -> utc_here local tb ->
  (exact_us 0 ta < exact_us 0 t)%Z \/ (exact_us 0 ta = exact_us 0 t /\ same_float ta t (exact_us 0 t)) ->
  (exact_us 0 t < exact_us 0 tb)%Z \/ (exact_us 0 t = exact_us 0 tb /\ same_float t tb (exact_us 0 t)) ->
  field_value field (prepare_record_data db pad rec) (prepare_data db pad v) ->
  exists query, range_query local field (Some (query_of a)) None None (Some (query_of b)) None [] = Some query /\ hits norm query (index, doc) = true.
Proof.
  intros db pad rec L o r index doc norm local field v t a ta b tb Hdb Hr He Hf HL D M Hp Aa Ab Va Vb Ua Ub Ha Hb Hin. apply field_value_In in Hin.
  assert (Gt : good 0 t) by (split; [|unfold day_us; lia]; destruct M as [t z V Ez|y m d h i s0 us V|y m d V]; [exact V|exact V|]; unfold valid_dt; cbn; rewrite V; reflexivity).
  assert (Ga : good 0 ta) by (split; [exact Va|unfold day_us; lia]). assert (Gb : good 0 tb) by (split; [exact Vb|unfold day_us; lia]).
  exists (QRange (parsed_path field (Some (lit "_d")) true) [(lit "gte", QInt (to_timestamp 0 ta)); (lit "lte", QInt (to_timestamp 0 tb))]). split.
  - rewrite <- (stamp_date local a ta Aa Ua), <- (stamp_date local b tb Ab Ub). destruct Aa as [->|(y & m & d & -> & _)], Ab as [->|(y' & m' & d' & -> & _)]; reflexivity.
  - cbn [hits snd]. rewrite (doc_values db pad rec L o r doc field (lit "_d") Hdb Hr He Hf), last_path by (cbn; auto 6). apply existsb_exists.
    destruct (date_value db pad L o v t HL D M Hp) as (s & Es & Ns & E). rewrite Es in Hin. exists (VInt (to_timestamp 0 t)). split.
    + apply in_flat_map. exists (VStr s). split; [exact Hin|]. apply sub_In. split; [destruct s; [contradiction|exact I]|]. rewrite value_date. cbn [text_of]. rewrite E. reflexivity.
    + assert (X1 : (to_timestamp 0 ta <= to_timestamp 0 t)%Z) by (apply C50_monotone; [exact Ga|exact Gt|]; destruct Ha as [Ha|[Ha Hs]]; [left; exact Ha|right; split; [exact Ha|rewrite Ha; exact Hs]]).
      assert (X2 : (to_timestamp 0 t <= to_timestamp 0 tb)%Z) by (apply C50_monotone; [exact Gt|exact Gb|exact Hb]).
      cbn. destruct (Z.compare_spec (to_timestamp 0 t) (to_timestamp 0 ta)) as [E1|E1|E1]; [|lia|]; (destruct (Z.compare_spec (to_timestamp 0 t) (to_timestamp 0 tb)) as [E2|E2|E2]; [reflexivity|reflexivity|lia]).
Qed.
Print Assumptions C68_range_between_partial.
Example C68_range_example : exists r query, parse std_lib short_opts (prepare_record_data ascii_db true found_record) = Some r /\
  range_query (fun _ => 0%Z) (lit "a.b") (Some (QDate (PD 2024 2 29))) None None (Some (QDatetime (DT 2024 3 1 0 0 0 0 (Some 0%Z)))) None [] = Some query /\ hits (fun s => s) query (lit "i", doc_with r) = true /\
  range_query (fun _ => 0%Z) (lit "a.b") None None None None None [(lit "boost", QInt 2)] = None.
Proof. eexists. eexists. split; [vm_compute; reflexivity|]. split; [reflexivity|]. split; vm_compute; reflexivity. Qed.
