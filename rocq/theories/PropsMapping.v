(** C70-C73: the mapping of indexed documents, long keywords, text search and exists queries. *)
From Coq Require Import String Ascii.
From Coq Require Import List ZArith NArith Bool Lia.
From Coq Require Import Floats.SpecFloat.
From Verif Require Import PyVal Time TimeParse Prepare PrepareProofs PropsPrepare Parser ParserProofs ParserTypes ParserOrder ParserEq PropsParser PropsParserTypes Options Index Sync Names Search PropsSearch Mapping.
Import ListNotations.
Open Scope string_scope.
Open Scope list_scope.
Open Scope nat_scope.

(** ** C70 *)
(** The type of a sub-field in Elasticsearch, and where its values are copied to, whatever the field. *)
Definition type_table : list (string * es_type * option all_field) :=
  [("_u", Disabled, None); ("_n", Double, None); ("_d", Date, None); ("_b", Boolean, None); ("_t", Text, Some AllText); ("_k", Keyword, None);
   ("_gp", GeoPoint, Some AllPoints); ("_gs", GeoShape, Some AllShapes)].
Theorem C70_types : forall t ty copy, In (t, ty, copy) type_table -> forall field, mapped (lit "data." ++ field ++ lit "." ++ lit t) = Some (Mapping ty copy).
Proof.
  intros t ty copy H field. assert (E : lit "data." ++ field ++ lit "." ++ lit t = dotted (dotted (lit "data") field) (lit t)) by (unfold dotted; rewrite <- app_assoc; reflexivity). rewrite E.
  rewrite mapped_type; unfold type_table in H; cbn [In] in H;
  (repeat (destruct H as [H|H]; [injection H as <- <- <-; first [reflexivity|unfold parsed_type; cbn [In]; tauto]|]); destruct H).
Qed.
Print Assumptions C70_types.
Definition data_path (q : list pystr) : pystr := join dot (lit "data" :: q).
Definition key_ok (k : pystr) : Prop := ~ parsed_type k /\ dotless k /\ k <> [].
Lemma record_key_ok db pad rec : db_ok db -> forall k, key_in k (VDict (prepare_record_data db pad rec)) -> key_ok k.
Proof.
  intros Hdb k K. pose proof (record_keys db pad rec Hdb k K) as C. split; [apply kept_not_parsed, (clean_kept db k C)|]. split; [exact (clean_dotless db k C)|]. intros ->. destruct C as (C & _). congruence.
Qed.
Lemma data_path_snoc p t : data_path (p ++ [t]) = dotted (join dot (lit "data" :: p)) t.
Proof. unfold data_path. change (lit "data" :: p ++ [t]) with ((lit "data" :: p) ++ [t]). apply join_snoc. discriminate. Qed.
Lemma join_head (k : pystr) p : p <> [] -> join dot (k :: p) = dotted k (join dot p).
Proof. apply join_cons. Qed.
Lemma root_values db pad rec L o r q x : db_ok db -> parse L o (prepare_record_data db pad rec) = Some r -> In x (values_at q (VDict (p_parsed r))) -> x <> VNone ->
  exists p t, p <> [] /\ q = p ++ [t] /\ Forall key_ok p /\ parsed_type t /\ fits t x.
Proof.
  intros Hdb Hr Hx Hn. pose proof (parse_root key_ok L o _ r (record_key_ok db pad rec Hdb) Hr) as HR. destruct q as [|k q]; [destruct Hx|]. rewrite values_dict in Hx. destruct (dget (p_parsed r) k) as [w|] eqn:E; [|destruct Hx]. apply dget_In in E. rewrite Forall_forall in HR. destruct (HR _ E) as [M1 M2]. cbn [fst snd] in *.
  destruct (node_values key_ok q w x M2 Hx Hn) as (p & t & -> & A & B & C). exists (k :: p), t. split; [discriminate|]. split; [reflexivity|]. split; [constructor; assumption|]. auto.
Qed.
(** Every value of an indexed record (other than null) is in a field whose template takes it, and no
    template applies to the objects of the record. *)
Theorem C70_no_conflict : forall db pad rec L o r, db_ok db -> parse L o (prepare_record_data db pad rec) = Some r ->
  (forall q x, In x (values_at q (VDict (p_parsed r))) -> x <> VNone -> exists m, mapped (data_path q) = Some m /\ takes (m_type m) x = true) /\
  (forall q d, q <> [] -> In d (objects_at q (VDict (p_parsed r))) -> mapped (data_path q) = None).
Proof.
  intros db pad rec L o r Hdb Hr. split.
  - intros q x Hx Hn. destruct (root_values db pad rec L o r q x Hdb Hr Hx Hn) as (p & t & Hp & -> & A & B & _ & (m & M1 & M2) & _). exists m. split; [|exact M2]. rewrite data_path_snoc, (join_head _ p Hp), (mapped_type _ t B). exact M1.
  - intros q d Hq Hd. pose proof (parse_root key_ok L o _ r (record_key_ok db pad rec Hdb) Hr) as HR. destruct q as [|k q]; [contradiction|]. cbn [objects_at leaves flat_map] in Hd. rewrite app_nil_r in Hd. destruct (dget (p_parsed r) k) as [w|] eqn:E; [|destruct Hd]. apply dget_In in E. rewrite Forall_forall in HR. destruct (HR _ E) as [M1 M2]. cbn [fst snd] in *.
    pose proof (node_objects key_ok q w d M2 Hd) as F. assert (F' : Forall key_ok (k :: q)) by (constructor; assumption). destruct (exists_last Hq) as (p & u & Eq). rewrite Eq in *. apply Forall_app in F'. destruct F' as [_ F']. inversion F' as [|? ? (U1 & U2 & _) _]; subst. rewrite data_path_snoc. apply mapped_none; assumption.
Qed.
Print Assumptions C70_no_conflict.
(** No two records conflict, whatever the options they were parsed with: a field is not an object in one and
    a value in the other, and its values are of the kinds one type takes. *)
Theorem C70_records : forall db pad rec1 rec2 L o1 o2 r1 r2, db_ok db -> parse L o1 (prepare_record_data db pad rec1) = Some r1 -> parse L o2 (prepare_record_data db pad rec2) = Some r2 ->
  forall q x, In x (values_at q (VDict (p_parsed r1))) -> x <> VNone ->
  objects_at q (VDict (p_parsed r2)) = [] /\
  exists m, mapped (data_path q) = Some m /\ takes (m_type m) x = true /\ forall y, In y (values_at q (VDict (p_parsed r2))) -> takes (m_type m) y = true.
Proof.
  intros db pad rec1 rec2 L o1 o2 r1 r2 Hdb H1 H2 q x Hx Hn. destruct (C70_no_conflict db pad rec1 L o1 r1 Hdb H1) as [A _]. destruct (C70_no_conflict db pad rec2 L o2 r2 Hdb H2) as [B C]. destruct (A q x Hx Hn) as (m & M1 & M2). split.
  - destruct (objects_at q (VDict (p_parsed r2))) as [|d l] eqn:E; [reflexivity|]. exfalso. assert (Q : q <> []) by (intros ->; destruct Hx). specialize (C q d Q). rewrite E in C. specialize (C (or_introl eq_refl)). congruence.
  - exists m. split; [exact M1|]. split; [exact M2|]. intros y Hy. destruct y as [|b|z|f|s|l|d]; [destruct (m_type m); reflexivity| | | | | |]; (destruct (B q _ Hy ltac:(discriminate)) as (m' & N1 & N2); rewrite M1 in N1; injection N1 as <-; exact N2).
Qed.
Print Assumptions C70_records.
(** The same field as a list of numbers and objects in one record, and a string in another. *)
Definition shape1 : record := Rec (lit "1") [(KS (lit "a"), OSeq [OInt 3; ODict [(KS (lit "b"), OBool true)]; OSeq [ONone; OStr (lit "x")]])].
Definition shape2 : record := Rec (lit "2") [(KS (lit "a"), OStr (lit "y")); (KS (lit "_n"), OStr (lit "z"))].
Example C70_example : exists r1 r2, parse ex_lib ex_opts (prepare_record_data ascii_db false shape1) = Some r1 /\ parse ex_lib short_opts (prepare_record_data ascii_db false shape2) = Some r2 /\
  values_at [lit "a"; lit "_n"] (VDict (p_parsed r1)) = [VInt 3] /\ values_at [lit "a"; lit "b"; lit "_b"] (VDict (p_parsed r1)) = [VBool true] /\
  values_at [lit "a"; lit "_t"] (VDict (p_parsed r2)) = [VStr (lit "y")] /\ length (objects_at [lit "a"] (VDict (p_parsed r1))) = 3 /\
  mapped (data_path [lit "a"; lit "_n"]) = Some (Mapping Double None) /\ mapped (data_path [lit "a"]) = None.
Proof. eexists. eexists. split; [vm_compute; reflexivity|]. split; [vm_compute; reflexivity|]. repeat split; vm_compute; reflexivity. Qed.

(** ** C71 *)
(** the length of a character in UTF-8 *)
Definition utf8 (c : N) : nat := if N.ltb c 128 then 1 else if N.ltb c 2048 then 2 else if N.ltb c 65536 then 3 else 4.
Definition bytes (s : pystr) : nat := fold_right (fun c n => utf8 c + n) 0 s.
Definition lucene_limit : Z := 32766.
Lemma utf8_le c : utf8 c <= 4.
Proof. unfold utf8. destruct (N.ltb c 128), (N.ltb c 2048), (N.ltb c 65536); lia. Qed.
Lemma bytes_le s : bytes s <= 4 * length s.
Proof. induction s as [|c s IH]; cbn [bytes fold_right length]; [lia|]. fold (bytes s). pose proof (utf8_le c). lia. Qed.
Lemma bytes_repeat c n : bytes (repeat c n) = utf8 c * n.
Proof. induction n as [|n IH]; cbn [repeat bytes fold_right]; [lia|]. fold (bytes (repeat c n)). rewrite IH. lia. Qed.
(** The keywords of a record, as Elasticsearch indexes them: the normalizer replaces each character. *)
Definition keyword_terms (lower : N -> N) (r : parsed_data) (q : list pystr) : list pystr :=
  flat_map (fun x => match x with VStr s => [map lower s] | _ => [] end) (values_at (q ++ [lit "_k"]) (VDict (p_parsed r))).
Lemma record_keywords db pad rec L o r q s : db_ok db -> parse L o (prepare_record_data db pad rec) = Some r -> q <> [] ->
  In (VStr s) (values_at (q ++ [lit "_k"]) (VDict (p_parsed r))) -> exists v, In v (values_at q (VDict (prepare_record_data db pad rec))) /\ parsed_as_value v /\ s = slice_to (keyword_length o) (text_of L o v).
Proof.
  intros Hdb Hr Hq Hs. destruct (root_values db pad rec L o r _ _ Hdb Hr Hs ltac:(discriminate)) as (p & t & Hp & E & A & B & _). apply app_inj_tail in E. destruct E as [<- <-].
  rewrite (parse_values L o _ r (record_wf db pad rec) (fun k K => proj1 (record_key_ok db pad rec Hdb k K)) Hr q (lit "_k") Hq) in Hs; [|cbn; tauto|eapply Forall_impl; [|exact A]; intros k (K & _); exact K].
  apply in_flat_map in Hs. destruct Hs as (v & V1 & V2). apply sub_In in V2. destruct V2 as [V2 V3]. rewrite get_k in V3. injection V3 as <-. exists v. auto.
Qed.
(** As stated the property is false: the builder accepts lengths up to 32766 characters. *)
Definition emoji_record : record := Rec (lit "r") [(KS (lit "a"), OStr (repeat 128512%N (Z.to_nat 8192)))].
Theorem C71_keyword_refuted : exists db pad rec L o r q s, db_ok db /\ o = b_run (fun s => s) None [BKeyword 8192] /\
  parse L o (prepare_record_data db pad rec) = Some r /\ In s (keyword_terms (fun c => c) r q) /\ (lucene_limit < Z.of_nat (bytes s))%Z.
Proof.
  set (o := b_run (fun s => s) None [BKeyword 8192]).
  assert (B : match parse ex_lib o (prepare_record_data ascii_db false emoji_record) with Some r => existsb (fun s => Z.ltb lucene_limit (Z.of_nat (bytes s))) (keyword_terms (fun c => c) r [lit "a"]) | None => false end = true) by (vm_compute; reflexivity).
  destruct (parse ex_lib o (prepare_record_data ascii_db false emoji_record)) as [r|] eqn:E; [|discriminate]. apply existsb_exists in B. destruct B as (s & B1 & B2). apply Z.ltb_lt in B2.
  exists ascii_db, false, emoji_record, ex_lib, o, r, [lit "a"], s. split; [exact ascii_db_ok|]. auto.
Qed.
Print Assumptions C71_keyword_refuted.
(** Up to 8191 characters (the default) no keyword is too long for Elasticsearch, whatever the characters and
    whatever characters they are lowered to. *)
Lemma slice_length n s : (0 <= n)%Z -> (Z.of_nat (length (slice_to n s)) <= n)%Z.
Proof. intro H. rewrite slice_firstn by exact H. rewrite firstn_length. lia. Qed.
Theorem C71_keyword_partial : forall db pad rec L o r lower q s, db_ok db -> parse L o (prepare_record_data db pad rec) = Some r ->
  (1 <= keyword_length o <= 8191)%Z -> q <> [] -> In s (keyword_terms lower r q) -> (Z.of_nat (bytes s) <= lucene_limit)%Z.
Proof.
  intros db pad rec L o r lower q s Hdb Hr Hk Hq Hs. unfold keyword_terms in Hs. apply in_flat_map in Hs. destruct Hs as (x & Hx & Hs). destruct x as [| | | |u| |]; try (destruct Hs; fail). destruct Hs as [<-|[]].
  destruct (record_keywords db pad rec L o r q u Hdb Hr Hq Hx) as (v & _ & _ & ->). pose proof (bytes_le (map lower (slice_to (keyword_length o) (text_of L o v)))) as B. rewrite map_length in B.
  pose proof (slice_length (keyword_length o) (text_of L o v) ltac:(lia)). unfold lucene_limit. lia.
Qed.
Print Assumptions C71_keyword_partial.
(** The limit is sharp for all options and libraries: from 8192 characters on, a text of as many emojis that is parsed gives a keyword that is too long. *)
Theorem C71_too_long : forall L o r (n : nat), (8192 <= keyword_length o)%Z -> (8192 <= Z.of_nat n)%Z ->
  parse L o [(lit "a", VStr (repeat 128512%N n))] = Some r -> exists s, In s (keyword_terms (fun c => c) r [lit "a"]) /\ (lucene_limit < Z.of_nat (bytes s))%Z.
Proof.
  intros L o r n Hk Hn H. set (x := VStr (repeat 128512%N n)) in *.
  assert (W : wfd [(lit "a", x)]) by (unfold wfd; apply wf_dict; split; [repeat constructor; intros []|repeat constructor]).
  assert (NP : ~ parsed_type (lit "a")) by (unfold parsed_type; cbn; intuition discriminate).
  assert (K : forall k, key_in k (VDict [(lit "a", x)]) -> ~ parsed_type k).
  { intros k Hk'. inversion Hk' as [? v Hin|? k' v Hin Hv|]; subst; destruct Hin as [E|[]]; injection E as <- <-; [exact NP|]. unfold x in Hv. inversion Hv. }
  exists (slice_to (keyword_length o) (repeat 128512%N n)). split.
  - unfold keyword_terms. rewrite (parse_values L o _ r W K H [lit "a"] (lit "_k")); [|discriminate|cbn; tauto|constructor; [exact NP|constructor]].
    apply in_flat_map. exists (VStr (slice_to (keyword_length o) (repeat 128512%N n))). split; [|rewrite map_id; left; reflexivity].
    apply in_flat_map. exists x. split; [left; reflexivity|]. apply sub_In. split; [|apply get_k]. unfold x. destruct n; [cbn in Hn; lia|exact I].
  - rewrite slice_firstn by lia. unfold lucene_limit.
    assert (E : firstn (Z.to_nat (keyword_length o)) (repeat 128512%N n) = repeat 128512%N (Nat.min (Z.to_nat (keyword_length o)) n)).
    { generalize (Z.to_nat (keyword_length o)) as j. clear. induction n as [|n IH]; intros [|j]; try reflexivity. cbn [repeat firstn Nat.min]. f_equal. apply IH. }
    rewrite E, bytes_repeat. change (utf8 128512) with 4. lia.
Qed.
Print Assumptions C71_too_long.
(** and nothing shorter would do *)
Example C71_example : keyword_length (b_run (fun s => s) None []) = 8191%Z /\ exists r s, parse ex_lib (b_run (fun s => s) None []) (prepare_record_data ascii_db false emoji_record) = Some r /\
  In s (keyword_terms (fun c => c) r [lit "a"]) /\ Z.of_nat (bytes s) = 32764%Z.
Proof.
  split; [reflexivity|]. set (o := b_run (fun s => s) None []).
  assert (B : match parse ex_lib o (prepare_record_data ascii_db false emoji_record) with Some r => existsb (fun s => Z.eqb 32764 (Z.of_nat (bytes s))) (keyword_terms (fun c => c) r [lit "a"]) | None => false end = true) by (vm_compute; reflexivity).
  destruct (parse ex_lib o (prepare_record_data ascii_db false emoji_record)) as [r|] eqn:E; [|discriminate]. apply existsb_exists in B. destruct B as (s & B1 & B2). apply Z.eqb_eq in B2. exists r, s. auto.
Qed.

(** ** C72 *)
Lemma values_keys p : forall v x, In x (values_at p v) -> forall k, In k p -> key_in k v.
Proof.
  assert (Lv : forall v y, In y (leaves v) -> forall k, key_in k y -> key_in k v).
  { intro v. induction v as [|b|z|f|s|l IH|d IH] using value_ind'; intros y Hy k Hk; try (destruct Hy as [<-|[]]; exact Hk). cbn [leaves] in Hy. apply in_flat_map in Hy. destruct Hy as (u & U1 & U2). rewrite Forall_forall in IH. exact (key_list k l u U1 (IH u U1 y U2 k Hk)). }
  induction p as [|k0 p IH]; intros v x Hx k Hk; [destruct Hk|]. cbn [values_at] in Hx. apply in_flat_map in Hx. destruct Hx as (y & Y1 & Y2). apply (Lv v y Y1). destruct y as [| | | | | |d]; try (destruct Y2; fail). destruct (dget d k0) as [w|] eqn:E; [|destruct Y2]. apply dget_In in E. destruct Hk as [<-|Hk]; [exact (key_here _ d w E)|]. exact (key_dict k d k0 w E (IH w x Y2 k Hk)).
Qed.
(** The values of a record: at any depth, in lists too; not null and not the empty string. *)
Definition value_in (d : dict) (p : list pystr) (v : value) : Prop := at_path p (VDict d) v /\ v <> VNone /\ v <> VStr [].
Lemma value_in_parsed d p v : value_in d p v <-> In v (values_at p (VDict d)) /\ parsed_as_value v.
Proof.
  unfold value_in. rewrite <- values_path. split.
  - intros (A & B & C). split; [exact A|]. assert (S : match v with VDict _ | VList _ => False | _ => True end).
    { clear B C. revert A. generalize (VDict d). clear d. induction p as [|k p IH]; intros u A; cbn [values_at] in A; [apply filter_In in A; destruct A as [_ A]; destruct v; try exact I; discriminate|].
      apply in_flat_map in A. destruct A as (y & _ & A). destruct y as [| | | | | |e]; try (destruct A; fail). destruct (dget e k); [exact (IH _ A)|destruct A]. }
    destruct v as [|b|z|f|[|c s]|l|e]; try exact I; try contradiction; congruence.
  - intros [A B]. split; [exact A|]. split; intros ->; destruct B.
Qed.
Lemma value_keys_ok db pad rec p v : db_ok db -> value_in (prepare_record_data db pad rec) p v -> p <> [] /\ Forall key_ok p.
Proof.
  intros Hdb (A & _). apply values_path in A. split; [intros ->; destruct A|]. apply Forall_forall. intros k Hk. exact (record_key_ok db pad rec Hdb k (values_keys p _ v A k Hk)).
Qed.
Lemma named_ok p : Forall key_ok p -> named p /\ Forall dotless p.
Proof. intro H. split; eapply Forall_impl; try exact H; intros k (A & B & _); assumption. Qed.
Lemma source_values (doc : esdoc parsed_data) q : values_at (lit "data" :: q) (source doc) = values_at q (VDict (p_parsed (e_parsed doc))).
Proof. unfold source. rewrite values_dict. cbn [dget]. rewrite str_eqb_refl. reflexivity. Qed.
Lemma split_sub a t : dotless t -> split (dotted (dotted (lit "data") a) t) = lit "data" :: split a ++ [t].
Proof. intro Ht. rewrite !split_dotted, (split_dotless t Ht). reflexivity. Qed.
(** match_query without a field searches the text of every value of the record, and nothing else. *)
Theorem C72_all_text : forall db pad rec L o r doc, db_ok db -> parse L o (prepare_record_data db pad rec) = Some r -> e_parsed doc = r ->
  forall x, searched (match_path None) doc x <-> exists p v, value_in (prepare_record_data db pad rec) p v /\ x = VStr (text (l_format L (float_format o)) v).
Proof.
  intros db pad rec L o r doc Hdb Hr He x. change (searched (match_path None) doc x) with (copied AllText doc x). unfold copied. split.
  - intros (path & m & M1 & M2 & X1 & X2). apply mapped_some in M1. destruct M1 as (a & t & -> & Ht & Hm).
    assert (t = pt_t). { unfold parsed_type in Ht. repeat (destruct Ht as [<-|Ht]; [first [reflexivity|exfalso; vm_compute in Hm; injection Hm as <-; discriminate M2]|]). destruct Ht. }
    subst t. rewrite split_sub, source_values, He in X1 by (apply (parsed_type_ok pt_t Ht)). destruct (root_values db pad rec L o r _ x Hdb Hr X1 X2) as (p & t & Hp & E & A & _). apply app_inj_tail in E. destruct E as [E <-]. rewrite E in X1.
    rewrite (parse_values L o _ r (record_wf db pad rec) (fun k K => proj1 (record_key_ok db pad rec Hdb k K)) Hr p pt_t Hp) in X1; [|cbn; tauto|apply (named_ok p A)].
    apply in_flat_map in X1. destruct X1 as (v & V1 & V2). apply sub_In in V2. destruct V2 as [V2 V3]. exists p, v. split; [apply value_in_parsed; auto|]. cbn in V3. injection V3 as <-. destruct v as [|[|]| | |[|]| |]; reflexivity || destruct V2.
  - intros (p & v & V & ->). destruct (value_keys_ok db pad rec p v Hdb V) as [Hp Hk]. destruct (named_ok p Hk) as [K1 K2]. apply value_in_parsed in V. destruct V as [V1 V2].
    assert (Ht : parsed_type pt_t) by (unfold parsed_type; cbn [In]; tauto).
    exists (dotted (dotted (lit "data") (join dot p)) pt_t). eexists. split; [rewrite (mapped_type _ pt_t Ht); reflexivity|]. split; [reflexivity|]. split; [|discriminate].
    rewrite split_sub, source_values, He, split_join by (try apply (parsed_type_ok pt_t Ht); assumption). rewrite (parse_values L o _ r (record_wf db pad rec) (fun k K => proj1 (record_key_ok db pad rec Hdb k K)) Hr p pt_t Hp); [|cbn; tauto|exact K1].
    apply in_flat_map. exists v. split; [exact V1|]. apply sub_In. split; [exact V2|]. cbn. destruct v as [|[|]| | |[|]| |]; reflexivity || destruct V2.
Qed.
Print Assumptions C72_all_text.
(** With a field it searches the text of the values of the field. *)
Theorem C72_field : forall db pad rec L o r doc field, db_ok db -> parse L o (prepare_record_data db pad rec) = Some r -> e_parsed doc = r -> field_name field ->
  forall x, searched (match_path (Some field)) doc x <-> exists v, value_in (prepare_record_data db pad rec) (split field) v /\ x = VStr (text (l_format L (float_format o)) v).
Proof.
  intros db pad rec L o r doc field Hdb Hr He Hf x. unfold searched, match_path. change (str_eqb (parsed_path field (Some pt_t) true) (lit "all_text")) with false. cbn iota.
  rewrite (doc_values db pad rec L o r doc field pt_t Hdb Hr He Hf) by (cbn; tauto). rewrite in_flat_map. unfold field_values. split.
  - intros [(v & V1 & V2) _]. apply sub_In in V2. destruct V2 as [V2 V3]. exists v. split; [apply value_in_parsed; auto|]. cbn in V3. injection V3 as <-. destruct v as [|[|]| | |[|]| |]; reflexivity || destruct V2.
  - intros (v & V & ->). apply value_in_parsed in V. destruct V as [V1 V2]. split; [|discriminate]. exists v. split; [exact V1|]. apply sub_In. split; [exact V2|]. cbn. destruct v as [|[|]| | |[|]| |]; reflexivity || destruct V2.
Qed.
Print Assumptions C72_field.
Example C72_example : exists r, parse ex_lib ex_opts (prepare_record_data ascii_db false shape1) = Some r /\ field_name (lit "a.b") /\
  value_in (prepare_record_data ascii_db false shape1) [lit "a"; lit "b"] (VBool true) /\ searched (match_path None) (doc_with r) (VStr (lit "True")) /\ searched (match_path (Some (lit "a.b"))) (doc_with r) (VStr (lit "True")).
Proof.
  assert (E : exists r, parse ex_lib ex_opts (prepare_record_data ascii_db false shape1) = Some r) by (eexists; vm_compute; reflexivity). destruct E as (r & E). exists r. split; [exact E|].
  assert (F : field_name (lit "a.b")) by (unfold field_name; vm_compute; repeat constructor; intuition discriminate).
  assert (V : value_in (prepare_record_data ascii_db false shape1) [lit "a"; lit "b"] (VBool true)) by (split; [apply values_path; vm_compute; auto|split; discriminate]).
  split; [exact F|]. split; [exact V|]. split.
  - apply (C72_all_text ascii_db false shape1 ex_lib ex_opts r (doc_with r) ascii_db_ok E eq_refl). exists [lit "a"; lit "b"], (VBool true). split; [exact V|reflexivity].
  - apply (C72_field ascii_db false shape1 ex_lib ex_opts r (doc_with r) (lit "a.b") ascii_db_ok E eq_refl F). exists (VBool true). split; [exact V|reflexivity].
Qed.

(** ** C73 *)
(** GeoJSON objects have a type and hints a latitude. *)
Definition geo_has_values (L : lib) : Prop :=
  (forall d, l_geojson L d <> None -> exists s, dget d (lit "type") = Some (VStr s) /\ s <> []) /\
  (forall lon lat r n, l_point L lon lat r n <> None -> parsed_as_value lat).
Lemma parsed_has_value L o : geo_has_values L -> forall v p t, wf v -> has_parsed L o v p t -> exists q x, In x (values_at (p ++ q) v) /\ parsed_as_value x.
Proof.
  intros [G1 G2] v p t W H. revert W. induction H as [v t H1 H2|d t H1 H2 H3|d k v p t H H1 IH|d h t H1 H2 H3 H4|l v p t H H1 IH]; intro W.
  - exists [], v. split; [|exact H1]. cbn [app values_at]. destruct v as [|b|z|f|[|c s]|l|e]; try (destruct H1; fail); left; reflexivity.
  - destruct (G1 d H2) as (s & S1 & S2). exists [lit "type"], (VStr s). cbn [app]. rewrite values_dict, S1. split; [left; reflexivity|]. destruct s; [contradiction|exact I].
  - apply wf_dict in W. destruct W as [W1 W2]. rewrite Forall_forall in W2. destruct (IH (W2 _ H)) as (q & x & X1 & X2). exists q, x. split; [|exact X2]. cbn [app]. rewrite values_dict, (In_dget _ _ _ W1 H). exact X1.
  - apply hint_match_works in H3. unfold hint_match in H3. pose proof (G2 _ _ _ _ H3) as Pl. exists [], (get_or_empty d (h_lat h)). split; [|exact Pl]. cbn [app]. rewrite values_dict. unfold get_or_empty in *. destruct (dget d (h_lat h)) as [v|]; [|destruct Pl]. destruct v as [|b|z|f|[|c s]|l|e]; try (destruct Pl; fail); left; reflexivity.
  - apply wf_list in W. rewrite Forall_forall in W. destruct (IH (W _ H)) as (q & x & X1 & X2). exists q, x. split; [|exact X2]. rewrite values_list. apply in_flat_map. exists v. auto.
Qed.
Lemma root_has_value L o d p t : geo_has_values L -> wfd d -> has_parsed_root L o d p t -> exists q x, In x (values_at (p ++ q) (VDict d)) /\ parsed_as_value x.
Proof.
  intros G W H. destruct H as [k v p t H1 H2|h t H1 H2 H3].
  - apply wf_dict in W. destruct W as [W1 W2]. rewrite Forall_forall in W2. destruct (parsed_has_value L o G v p t (W2 _ H1) H2) as (q & x & X1 & X2). exists q, x. split; [|exact X2]. cbn [app]. rewrite values_dict, (In_dget _ _ _ W1 H1). exact X1.
  - destruct G as [_ G2]. apply hint_match_works in H2. unfold hint_match in H2. pose proof (G2 _ _ _ _ H2) as Pl. exists [], (get_or_empty d (h_lat h)). split; [|exact Pl]. cbn [app]. rewrite values_dict. unfold get_or_empty in *. destruct (dget d (h_lat h)) as [v|]; [|destruct Pl]. destruct v as [|b|z|f|[|c s]|l|e]; try (destruct Pl; fail); left; reflexivity.
Qed.
Lemma indexed_parsed db pad rec L o r doc path : db_ok db -> parse L o (prepare_record_data db pad rec) = Some r -> e_parsed doc = r -> indexed path doc ->
  exists a t, path = dotted (dotted (lit "data") a) t /\ parsed_type t /\ has_parsed_root L o (prepare_record_data db pad rec) (split a) t.
Proof.
  intros Hdb Hr He (m & x & M1 & M2 & X1 & X2). apply mapped_some in M1. destruct M1 as (a & t & -> & Ht & Hm). exists a, t. split; [reflexivity|]. split; [exact Ht|]. pose proof (parsed_type_ok t Ht) as [Dt _].
  rewrite split_sub, source_values, He in X1 by exact Dt. destruct (root_values db pad rec L o r _ x Hdb Hr X1 X2) as (p & t' & Hp & E & A & _). apply app_inj_tail in E. destruct E as [E <-]. rewrite E in *.
  apply (parse_present L o _ r (record_wf db pad rec) (fun k K => proj1 (record_key_ok db pad rec Hdb k K)) Hr p t Hp (proj1 (named_ok p A)) Ht); [|exists x; exact X1]. intros ->. apply M2. vm_compute in Hm. injection Hm as <-. reflexivity.
Qed.
(** exists_query selects a record if and only if it has a value in the field or below it. *)
Theorem C73_exists : forall db pad rec L o r doc field, db_ok db -> parse L o (prepare_record_data db pad rec) = Some r -> e_parsed doc = r -> geo_has_values L -> field_name field ->
  exists_hit (exists_query field) doc <-> exists below v, value_in (prepare_record_data db pad rec) (split field ++ below) v.
Proof.
  intros db pad rec L o r doc field Hdb Hr He Hg Hf. unfold exists_query. cbn [exists_hit]. change (str_eqb (parsed_path field None true) (lit "all_points")) with false. cbn iota. change (parsed_path field None true) with (dotted (lit "data") field). split.
  - assert (R : forall p t q, has_parsed_root L o (prepare_record_data db pad rec) (split field ++ p) t -> q = p -> exists below v, value_in (prepare_record_data db pad rec) (split field ++ below) v).
    { intros p t q H _. destruct (root_has_value L o _ _ t Hg (record_wf db pad rec) H) as (b & x & X1 & X2). exists (p ++ b), x. apply value_in_parsed. rewrite app_assoc. auto. }
    intros [H|(below & H)]; destruct (indexed_parsed db pad rec L o r doc _ Hdb Hr He H) as (a & t & E & Ht & Hp); pose proof (parsed_type_ok t Ht) as [Dt _]; apply (f_equal split) in E; rewrite (split_sub a t Dt), !split_dotted in E; cbn [app] in E.
    + exfalso. change (split (lit "data")) with [lit "data"] in E. cbn [app] in E. injection E as E. unfold field_name in Hf. rewrite E in Hf. apply Forall_app in Hf. destruct Hf as [_ Hf]. inversion Hf as [|? ? N _]; subst. contradiction.
    + change (split (lit "data")) with [lit "data"] in E. cbn [app] in E. injection E as E. destruct (exists_last (split_nonnil below)) as (b & u & Eb). rewrite Eb, app_assoc in E. apply app_inj_tail in E. destruct E as [E _]. rewrite <- E in Hp. exact (R b t b Hp eq_refl).
  - intros (p & v & V). right. destruct (value_keys_ok db pad rec _ v Hdb V) as [_ Hk]. destruct (named_ok _ Hk) as [K1 K2]. apply Forall_app in K2. destruct K2 as [_ K2]. apply value_in_parsed in V. destruct V as [V1 V2].
    assert (Ht : parsed_type pt_t) by (unfold parsed_type; cbn [In]; tauto). pose proof (parsed_type_ok pt_t Ht) as [Dt _].
    assert (Q : exists below a, dotted (dotted (lit "data") field) below = dotted (dotted (lit "data") a) pt_t /\ split a = split field ++ p).
    { destruct p as [|k p]; [exists pt_t, field; rewrite app_nil_r; auto|]. exists (dotted (join dot (k :: p)) pt_t), (dotted field (join dot (k :: p))). split; [unfold dotted; cbn [app]; rewrite <- !app_assoc; cbn [app]; rewrite <- ?app_assoc; reflexivity|]. rewrite split_dotted, split_join; [reflexivity|discriminate|exact K2]. }
    destruct Q as (below & a & Q1 & Q2). exists below. unfold indexed. eexists. exists (VStr (text_of L o v)). rewrite Q1. split; [rewrite (mapped_type _ pt_t Ht); reflexivity|]. split; [discriminate|]. split; [|discriminate].
    rewrite split_sub, source_values, He, Q2 by exact Dt. rewrite (parse_values L o _ r (record_wf db pad rec) (fun k K => proj1 (record_key_ok db pad rec Hdb k K)) Hr _ pt_t); [| |cbn; tauto|exact K1].
    + apply in_flat_map. exists v. split; [exact V1|]. apply sub_In. split; [exact V2|reflexivity].
    + intro Q. apply app_eq_nil in Q. exact (split_nonnil field (proj1 Q)).
Qed.
Print Assumptions C73_exists.
(** has_geo selects a record if and only if something in it was recognised as geographic: a value by its
    WKT, an object below the root by its GeoJSON, or an object by a hint. *)
Theorem C73_has_geo : forall db pad rec L o r doc, db_ok db -> parse L o (prepare_record_data db pad rec) = Some r -> e_parsed doc = r ->
  exists_hit has_geo doc <-> exists p, Forall (fun k => ~ parsed_type k) p /\ p <> [] /\ has_parsed_root L o (prepare_record_data db pad rec) p (lit "_gp").
Proof.
  intros db pad rec L o r doc Hdb Hr He. change (exists_hit has_geo doc) with (exists x, copied AllPoints doc x). unfold copied.
  assert (Ht : parsed_type pt_gp) by (unfold parsed_type; cbn [In]; tauto). pose proof (parsed_type_ok pt_gp Ht) as [Dt _]. split.
  - intros (x & path & m & M1 & M2 & X1 & X2). apply mapped_some in M1. destruct M1 as (a & t & -> & Ht' & Hm).
    assert (t = pt_gp). { unfold parsed_type in Ht'. repeat (destruct Ht' as [<-|Ht']; [first [reflexivity|exfalso; vm_compute in Hm; injection Hm as <-; discriminate M2]|]). destruct Ht'. }
    subst t. rewrite split_sub, source_values, He in X1 by exact Dt. destruct (root_values db pad rec L o r _ x Hdb Hr X1 X2) as (p & t' & Hp & E & A & _). apply app_inj_tail in E. destruct E as [E _]. rewrite E in *. exists p. split; [apply (named_ok p A)|]. split; [exact Hp|].
    apply (parse_present L o _ r (record_wf db pad rec) (fun k K => proj1 (record_key_ok db pad rec Hdb k K)) Hr p pt_gp Hp (proj1 (named_ok p A)) Ht); [discriminate|exists x; exact X1].
  - intros (p & N & Hp & H). apply (parse_present L o _ r (record_wf db pad rec) (fun k K => proj1 (record_key_ok db pad rec Hdb k K)) Hr p pt_gp Hp N Ht) in H; [|discriminate]. destruct H as (x & X).
    assert (Xn : x <> VNone).
    { pose proof (parse_root key_ok L o _ r (record_key_ok db pad rec Hdb) Hr) as HR. assert (Nr : node key_ok (VDict (p_parsed r))) by (apply node_members; eapply Forall_impl; [|exact HR]; intros kv M; left; exact M).
      exact (node_nonnull key_ok p pt_gp (fun k K => proj1 K) Ht ltac:(discriminate) _ x Nr X). }
    assert (Kp : Forall key_ok p).
    { destruct (root_values db pad rec L o r _ x Hdb Hr X Xn) as (p' & t' & _ & E & A & _). apply app_inj_tail in E. destruct E as [-> _]. exact A. }
    exists x, (dotted (dotted (lit "data") (join dot p)) pt_gp). eexists. split; [rewrite (mapped_type _ pt_gp Ht); reflexivity|]. split; [reflexivity|]. split; [|exact Xn].
    rewrite split_sub, source_values, He, split_join by (try exact Dt; try exact Hp; apply (named_ok p Kp)). exact X.
Qed.
Print Assumptions C73_has_geo.
Example C73_example : exists r, parse geo_lib geo_opts (prepare_record_data ascii_db false geo_record) = Some r /\ geo_has_values geo_lib /\ field_name (lit "a") /\
  value_in (prepare_record_data ascii_db false geo_record) [lit "a"; lit "lon"] (VInt 4) /\ exists_hit (exists_query (lit "a")) (doc_with r) /\ exists_hit has_geo (doc_with r) /\ ~ exists_hit (exists_query (lit "b")) (doc_with r).
Proof.
  assert (E : exists r, parse geo_lib geo_opts (prepare_record_data ascii_db false geo_record) = Some r) by (eexists; vm_compute; reflexivity). destruct E as (r & E). exists r. split; [exact E|].
  assert (G : geo_has_values geo_lib).
  { split; [intros d H; cbn in H; congruence|]. intros lon lat rd n H. cbn in H. destruct lon; try contradiction. destruct lat; try contradiction. exact I. }
  assert (F : forall c, In c [lit "a"; lit "b"] -> field_name c) by (intros c [<-|[<-|[]]]; unfold field_name; vm_compute; repeat constructor; intuition discriminate).
  assert (V : value_in (prepare_record_data ascii_db false geo_record) [lit "a"; lit "lon"] (VInt 4)) by (split; [apply values_path; vm_compute; auto|split; discriminate]).
  split; [exact G|]. split; [apply F; left; reflexivity|]. split; [exact V|]. split; [|split].
  - apply (C73_exists ascii_db false geo_record geo_lib geo_opts r (doc_with r) (lit "a") ascii_db_ok E eq_refl G (F _ (or_introl eq_refl))). exists [lit "lon"], (VInt 4). exact V.
  - apply (C73_has_geo ascii_db false geo_record geo_lib geo_opts r (doc_with r) ascii_db_ok E eq_refl). exists [lit "a"; lit "lat"]. split; [vm_compute; repeat constructor; intuition discriminate|]. split; [discriminate|].
    eapply (hr_key geo_lib geo_opts _ (lit "a")); [vm_compute; left; reflexivity|]. eapply (hp_list geo_lib geo_opts); [left; reflexivity|]. apply (hp_hint geo_lib geo_opts _ (Hint (lit "lat") (lit "lon") None 16)); [discriminate|left; reflexivity|apply hint_match_works; vm_compute; discriminate|left; reflexivity].
  - intro H. apply (C73_exists ascii_db false geo_record geo_lib geo_opts r (doc_with r) (lit "b") ascii_db_ok E eq_refl G (F _ (or_intror (or_introl eq_refl)))) in H. destruct H as (b & v & (V1 & _)). apply values_path in V1; vm_compute in V1. exact V1.
Qed.
