(** Property C37: the type lists of a parsed record. *)
From Coq Require Import String Ascii.
From Coq Require Import List ZArith NArith Bool Lia Permutation.
From Coq Require Import Floats.SpecFloat.
From Verif Require Import PyVal Time Prepare PrepareProofs PropsPrepare Parser ParserProofs ParserTypes ParserEq PropsParser.
Import ListNotations.
Open Scope string_scope.
Open Scope list_scope.
Open Scope nat_scope.

(** ** Specification *)
(** A record without top level values (the field names below its first level). *)
Definition nested_key (k : pystr) (d : dict) : Prop := exists k0 v, In (k0, v) d /\ key_in k v.
(** [lists_once entries occurs]: the entries list every path that occurs in exactly one entry, written
    path.type,type,..., with exactly the types that occur there. A path is a list of dotless components,
    written with dots between them. *)
Definition lists_once (entries : list pystr) (occurs : list pystr -> pystr -> Prop) : Prop :=
  exists listing, entries = map show listing /\ NoDup (map fst listing) /\
    (forall q ts, In (q, ts) listing -> exists p t, q = join dot p /\ In t ts /\ occurs p t) /\
    (forall p t, p <> [] -> Forall dotless p -> (occurs p t <-> exists ts, In (join dot p, ts) listing /\ In t ts /\ dotless t)).
(** and no type is repeated *)
Definition no_repeats (entries : list pystr) : Prop :=
  exists listing, entries = map show listing /\ NoDup (map fst listing) /\ Forall (fun g => NoDup (snd g) /\ snd g <> [] /\ Forall dotless (snd g)) listing.

Lemma lists_once_intro h S (occurs : list pystr -> pystr -> Prop) : h <> dot ->
  (forall p t, occurs p t -> p <> [] /\ Forall dotless p /\ dotless t /\ starts h t /\ Forall (fun c => ~ starts h c) (tl p)) ->
  (forall s, In s S <-> exists p t, occurs p t /\ s = join dot (p ++ [t])) ->
  lists_once (compress S) occurs /\ (NoDup S -> no_repeats (compress S)).
Proof.
  intros Hh Hocc HS. assert (HT : Forall (typed h) S).
  { apply Forall_forall. intros s Hs. apply HS in Hs. destruct Hs as (p & t & O & ->). destruct (Hocc p t O) as (O1 & O2 & O3 & O4 & O5). exists p, t. auto 8. }
  destruct (compress_spec h S Hh HT) as (listing & L1 & L2 & L3 & L5 & L4). rewrite Forall_forall in L5.
  assert (Hin : forall q ts t, In (q, ts) listing -> In t ts -> exists p, q = join dot p /\ occurs p t /\ dotless t).
  { intros q ts t H1 H2. destruct (L5 _ H1) as [_ Z]. rewrite Forall_forall in Z. specialize (Z t H2). cbn in Z.
    assert (K : In (dotted q t) S) by (apply L4; eauto). apply HS in K. destruct K as (p & t' & O & E). destruct (Hocc p t' O) as (O1 & O2 & O3 & _). rewrite join_snoc in E by exact O1. apply (f_equal rsplit_dot) in E. rewrite !rsplit_dotted in E by assumption. injection E as -> ->. eauto. }
  split; [|intro Hn; exists listing; split; [exact L1|]; split; [exact L2|]; specialize (L3 Hn); rewrite Forall_forall in *; intros g Hg; split; [exact (L3 g Hg)|exact (L5 g Hg)]].
  exists listing. split; [exact L1|]. split; [exact L2|]. split.
  - intros q ts H. destruct (L5 _ H) as [Hne _]. cbn in Hne. destruct ts as [|t ts]; [contradiction|]. destruct (Hin q _ t H (or_introl eq_refl)) as (p & P1 & P2 & _). exists p, t. split; [exact P1|]. split; [left; reflexivity|exact P2].
  - intros p t Hp Hd. split.
    + intro O. destruct (Hocc p t O) as (O1 & O2 & O3 & _). assert (K : In (dotted (join dot p) t) S) by (apply HS; exists p, t; split; [exact O|symmetry; apply join_snoc, O1]). apply L4 in K; [|exact O3]. destruct K as (ts & K1 & K2). exists ts. auto.
    + intros (ts & H1 & H2 & _). destruct (Hin _ _ _ H1 H2) as (p' & P1 & P2 & _). destruct (Hocc p' t P2) as (O1 & O2 & _). apply (f_equal split) in P1. rewrite !split_join in P1 by assumption. subst p'. exact P2.
Qed.

(** ** C37 is false as stated *)
Ltac no_dot := unfold dotless, dot; vm_compute; intuition discriminate.
Definition hash_record : record := Rec (lit "r") [(KS (lit "a"), OSeq [ODict [(KS (lit "#e"), OInt 1)]; OStr (lit "s")])].
Definition nested_id_record : record := Rec (lit "r") [(KS (lit "x"), OSeq [ODict [(KS (lit "_id"), OStr (lit "5"))]; OBool true])].
(** Two entries for the same path. *)
Definition listed_twice (entries : list pystr) : Prop := exists l1 l2 l3 p t1 t2, dotless t1 /\ dotless t2 /\ entries = l1 ++ dotted p t1 :: l2 ++ dotted p t2 :: l3.
Theorem C37_data_types_refuted : exists db pad rec L o r, db_ok db /\ parse L o (prepare_record_data db pad rec) = Some r /\ listed_twice (p_data_types r).
Proof.
  exists ascii_db, false, hash_record, ex_lib, ex_opts. eexists. split; [exact ascii_db_ok|]. split; [vm_compute; reflexivity|]. cbn [p_data_types].
  exists [lit "_id.#s"; lit "a.#l"], [lit "a..#e.#i"], [], (lit "a."), (lit "#d"), (lit "#s"). split; [no_dot|]. split; [no_dot|]. vm_compute. reflexivity.
Qed.
Print Assumptions C37_data_types_refuted.
Theorem C37_parsed_types_refuted : exists db pad rec L o r, db_ok db /\ parse L o (prepare_record_data db pad rec) = Some r /\ listed_twice (p_parsed_types r).
Proof.
  exists ascii_db, false, nested_id_record, ex_lib, ex_opts. eexists. split; [exact ascii_db_ok|]. split; [vm_compute; reflexivity|]. cbn [p_parsed_types].
  exists [lit "_id._k,_t,_u"], [lit "x._id._k,_t,_u"], [], (lit "x"), (lit "_b"), (lit "_k,_t,_u"). split; [no_dot|]. split; [no_dot|]. vm_compute. reflexivity.
Qed.
Print Assumptions C37_parsed_types_refuted.

(** ** What holds *)
Lemma clean_dotless db k : clean_field_name db k -> dotless k.
Proof. intros (_ & _ & H & _). exact H. Qed.
Lemma nil_dotless : dotless []. Proof. intros []. Qed.
Definition well_placed (h : N) (occurs : list pystr -> pystr -> Prop) : Prop :=
  forall p t, occurs p t -> p <> [] /\ Forall dotless p /\ dotless t /\ starts h t /\ Forall (fun c => ~ starts h c) (tl p).
Lemma data_occurs db pad rec L o r : db_ok db ->
  (forall k, nested_key k (prepare_record_data db pad rec) -> ~ starts 35 k) ->
  parse L o (prepare_record_data db pad rec) = Some r ->
  exists S, p_data_types r = compress S /\ well_placed 35 (has_type (VDict (prepare_record_data db pad rec))) /\
    (forall s, In s S <-> exists p t, has_type (VDict (prepare_record_data db pad rec)) p t /\ s = join dot (p ++ [t])) /\ NoDup S.
Proof.
  intros Hdb Hk H. pose proof (record_keys db pad rec Hdb) as RK. pose proof (record_wf db pad rec) as W. set (d := prepare_record_data db pad rec) in *. unfold parse in H. destruct (dict_body L o (parse_nested L o) false d) as [[[w dts] pts]|] eqn:E; [|discriminate]. injection H as <-. cbn [p_data_types].
  exists dts. split; [reflexivity|]. split; [|split].
  - intros p t O. destruct (has_type_ok _ _ _ O) as (O1 & O2 & O3). split; [exact O1|]. split; [|split; [exact O2|split; [exact O3|]]].
    + pose proof (has_type_path _ _ _ O) as Q. eapply Forall_impl; [|exact Q]. intros c [->|Kc]; [exact nil_dotless|exact (clean_dotless db c (RK c Kc))].
    + inversion O as [d' k v K|d' k v p' t' K K'| |]; subst; [constructor|]. cbn [tl]. pose proof (has_type_path _ _ _ K') as Q. eapply Forall_impl; [|exact Q]. intros c [->|Kc]; [intros (x & Q'); discriminate|]. apply Hk. exists k, v. auto.
  - exact (root_dts L o d w dts pts E).
  - apply wf_dict in W. destruct W as [W1 W2]. refine (dict_nodup L o false d w dts pts _ W1 _ E).
    + rewrite Forall_forall in *. intros [k v] Kv. apply (nested_nodup L o v (W2 _ Kv)). intros k' K'. exact (clean_dotless db k' (RK k' (key_dict k' d k v Kv K'))).
    + apply Forall_forall. intros [k v] Kv. exact (clean_dotless db k (RK k (key_here k d v Kv))).
Qed.
(** C37 for data types: when no nested field name starts with "#". *)
Theorem C37_data_types_partial : forall db pad rec L o r, db_ok db ->
  (forall k, nested_key k (prepare_record_data db pad rec) -> ~ starts 35 k) ->
  parse L o (prepare_record_data db pad rec) = Some r ->
  lists_once (p_data_types r) (has_type (VDict (prepare_record_data db pad rec))) /\ no_repeats (p_data_types r).
Proof.
  intros db pad rec L o r Hdb Hk H. destruct (data_occurs db pad rec L o r Hdb Hk H) as (S & E & O & I & N). rewrite E.
  destruct (lists_once_intro 35 S _ ltac:(discriminate) O I) as [A B]. auto.
Qed.
Print Assumptions C37_data_types_partial.
Lemma parsed_occurs db pad rec L o r : db_ok db ->
  ~ nested_key (lit "_id") (prepare_record_data db pad rec) ->
  parse L o (prepare_record_data db pad rec) = Some r ->
  exists S, p_parsed_types r = compress S /\ well_placed 95 (has_parsed_root L o (prepare_record_data db pad rec)) /\
    (forall s, In s S <-> exists p t, has_parsed_root L o (prepare_record_data db pad rec) p t /\ s = join dot (p ++ [t])) /\ (plain_latitudes L o -> NoDup S).
Proof.
  intros Hdb Hk H. pose proof (record_keys db pad rec Hdb) as RK. pose proof (record_wf db pad rec) as W. set (d := prepare_record_data db pad rec) in *. unfold parse in H. destruct (dict_body L o (parse_nested L o) false d) as [[[w dts] pts]|] eqn:E; [|discriminate]. injection H as <-. cbn [p_parsed_types].
  exists pts. split; [reflexivity|]. split; [|split].
  - intros p t O. destruct (root_path L o d _ p t E O) as (k & v & q & -> & K & Q).
    assert (N : Forall (fun c => dotless c /\ ~ starts 95 c) q).
    { eapply Forall_impl; [|exact Q]. intros c Kc. assert (Cc : clean_field_name db c) by exact (RK c (key_dict c d k v K Kc)). split; [exact (clean_dotless db c Cc)|]. intros (x & ->). destruct Cc as (_ & _ & _ & _ & _ & Cc). specialize (Cc x eq_refl). apply Hk. exists k, v. change (lit "_id") with DATA_ID. rewrite <- Cc. auto. }
    assert (T : parsed_type t) by (inversion O as [k' v' q' t' K1 K2|h t' H1 H2 H3]; subst; [exact (has_parsed_ok L o _ _ _ K2)|exact (geo_type_ok t H3)]). destruct (parsed_type_ok t T) as [T1 T2].
    split; [discriminate|]. split; [constructor; [exact (clean_dotless db k (RK k (key_here k d v K)))|eapply Forall_impl; [|exact N]; intros c [C1 _]; exact C1]|]. split; [exact T1|]. split; [exact T2|]. cbn [tl]. eapply Forall_impl; [|exact N]. intros c [_ C2]. exact C2.
  - exact (root_pts L o d w dts pts E).
  - intro HP. apply wf_dict in W. destruct W as [W1 W2]. refine (dict_pnodup L o false d w dts pts HP _ W1 _ E).
    + rewrite Forall_forall in *. intros [k v] Kv. apply (nested_pnodup L o v HP (W2 _ Kv)). intros k' K'. exact (clean_dotless db k' (RK k' (key_dict k' d k v Kv K'))).
    + apply Forall_forall. intros [k v] Kv. exact (clean_dotless db k (RK k (key_here k d v Kv))).
Qed.
(** C37 for parsed types: when no nested field is called "_id" (no other field name starts with "_", C06). *)
Theorem C37_parsed_types_partial : forall db pad rec L o r, db_ok db ->
  ~ nested_key (lit "_id") (prepare_record_data db pad rec) ->
  parse L o (prepare_record_data db pad rec) = Some r ->
  lists_once (p_parsed_types r) (has_parsed_root L o (prepare_record_data db pad rec)) /\ (plain_latitudes L o -> no_repeats (p_parsed_types r)).
Proof.
  intros db pad rec L o r Hdb Hk H. destruct (parsed_occurs db pad rec L o r Hdb Hk H) as (S & E & O & I & N). rewrite E.
  destruct (lists_once_intro 95 S _ ltac:(discriminate) O I) as [A B]. auto.
Qed.
Print Assumptions C37_parsed_types_partial.

(** An example with nested fields, lists and a hint that fires, meeting all hypotheses. *)
Definition geo_lib : lib := Lib (fun s => s) (fun _ _ => lit "1.5") (fun _ => None) (fun _ _ => None) (fun _ => None) (fun _ => None) (fun _ => false)
  (fun lon lat _ _ => match lon, lat with VInt x, VInt y => Some (lit "POINT(3 4)", lit "POINT(3 4)") | _, _ => None end).
Definition geo_opts : options := Opts [lit "yes"] [lit "no"] [] [Hint (lit "lat") (lit "lon") None 16] 8191 (lit "{0:.15g}").
Definition geo_record : record := Rec (lit "r") [(KS (lit "a"), OSeq [ODict [(KS (lit "lat"), OInt 3); (KS (lit "lon"), OInt 4)]; OStr (lit "s"); OSeq [ONone]])].
Example C37_example :
  (forall k, nested_key k (prepare_record_data ascii_db false geo_record) -> ~ starts 35 k) /\ ~ nested_key (lit "_id") (prepare_record_data ascii_db false geo_record) /\
  plain_latitudes geo_lib geo_opts /\
  exists r, parse geo_lib geo_opts (prepare_record_data ascii_db false geo_record) = Some r /\
    p_data_types r = [lit "_id.#s"; lit "a.#l"; lit "a..#d,#l,#s"; lit "a...#n"; lit "a..lat.#i"; lit "a..lon.#i"] /\
    p_parsed_types r = [lit "_id._k,_t,_u"; lit "a._k,_t,_u"; lit "a.lat._gp,_gs,_k,_n,_t,_u"; lit "a.lon._k,_n,_t,_u"].
Proof.
  assert (N : forall k, nested_key k (prepare_record_data ascii_db false geo_record) -> k = lit "lat" \/ k = lit "lon").
  { intros k (k0 & v & H & K). vm_compute in H. destruct H as [H|[H|[]]]; injection H as <- <-; [|inversion K].
    inversion K as [| |l v H H']; subst. destruct H as [<-|[<-|[<-|[]]]].
    - inversion H' as [d v H|d k' v H H''|]; subst; destruct H as [H|[H|[]]]; injection H as <- <-; auto; inversion H''.
    - inversion H'.
    - inversion H' as [| |l v H H'']; subst. destruct H as [<-|[]]. inversion H''. }
  split; [intros k Hk (x & ->); destruct (N _ Hk); discriminate|]. split; [intro Hk; destruct (N _ Hk); discriminate|].
  split.
  - clear N. intros lon lat r n t H G K. cbn in H. destruct lon as [| |z0| | | |]; try contradiction. destruct lat as [| |z| | | |]; try contradiction. apply (value_parsed geo_lib geo_opts (VInt z) [] t I) in K. destruct K as [_ K]. rewrite parse_value_keys in K. cbn [l_wkt geo_lib number_of date_formats geo_opts first_date] in K. clear H. destruct (bool_of geo_lib geo_opts (VInt z)); cbn [app In] in K; destruct G as [->| ->]; repeat (destruct K as [K|K]; [discriminate K|]); exact K.
  - eexists. split; [vm_compute; reflexivity|]. split; vm_compute; reflexivity.
Qed.
