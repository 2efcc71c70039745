(** C81: what a bulk request asks of Elasticsearch. *)
From Coq Require Import String Ascii.
From Coq Require Import List ZArith NArith Bool Lia.
From Coq Require Import Floats.SpecFloat.
From Verif Require Import PyVal Diff Mongo Time TimeProofs Names Json Bulk Parser ParserProofs Index EndToEnd BulkParse Prepare PrepareProofs PropsNames PropsParser.
Import ListNotations.
Open Scope string_scope.
Open Scope list_scope.
Open Scope nat_scope.

(** ** Specification *)
(** The document of a version of a record: its id, when it starts and ends, and the parsed data. *)
Definition doc_json (ft : spec_float -> pystr) (id : pystr) (start : Z) (finish : option Z) (r : parsed_data) : json :=
  let num z := JNum (str_int z) in
  let texts l := JArr (map JStr l) in
  JObj ([(lit "id", JStr id); (lit "version", num start);
         (lit "versions", JObj (match finish with Some w => [(lit "gte", num start); (lit "lt", num w)] | None => [(lit "gte", num start)] end));
         (lit "data", json_of ft (VDict (p_parsed r))); (lit "data_types", texts (p_data_types r)); (lit "parsed_types", texts (p_parsed_types r))]
        ++ match finish with Some w => [(lit "next", num w)] | None => [] end).
(** What an operation on the database [name] asks for. Documents in the archives get their ids from Elasticsearch. *)
Inductive asks (ft : spec_float -> pystr) (name : pystr) : bop (option parsed_data) -> action -> Prop :=
| asks_latest id d r : e_parsed d = Some r -> asks ft name (BIndexLatest id d) (AIndex (lit "data-" ++ name ++ lit "-latest") (Some id) (doc_json ft (e_id d) (e_ver d) (e_end d) r))
| asks_delete id : asks ft name (BDeleteLatest id) (ADelete (lit "data-" ++ name ++ lit "-latest") id)
| asks_arc n d r : e_parsed d = Some r -> asks ft name (BIndexArc n d) (AIndex (lit "data-" ++ name ++ lit "-arc-" ++ str_int (Z.of_N n)) None (doc_json ft (e_id d) (e_ver d) (e_end d) r)).
(** orjson writes finite floats as JSON numbers *)
Definition writes_numbers (ft : spec_float -> pystr) : Prop := forall f, finite f = true -> num_ok (ft f) = true /\ forallb num_char (ft f) = true.

(** ** Writing and reading JSON *)
Theorem C81_json : forall ft v, writes_numbers ft ->
  (dumps ft v <> None <-> encodable v)
  /\ forall t, dumps ft v = Some t -> decode t = Some (json_of ft v) /\ ~ In 10%N t.
Proof. intros ft v F. split; [apply dumps_some|]. intros t H. split; [exact (decode_dumps ft F v t H)|exact (flat_dumps ft F v t H)]. Qed.
Print Assumptions C81_json.

(** Data that has been prepared (C33) can be written, if its integers can be stored in MongoDB: surrogates are of
    the unicode category Cs. *)
Inductive small_ints : value -> Prop :=
| si_none : small_ints VNone | si_bool b : small_ints (VBool b) | si_float f : small_ints (VFloat f) | si_str s : small_ints (VStr s)
| si_int z : (- 2 ^ 63 <= z < 2 ^ 63)%Z -> small_ints (VInt z)
| si_list l : Forall small_ints l -> small_ints (VList l)
| si_dict d : Forall (fun kv => small_ints (snd kv)) d -> small_ints (VDict d).
Theorem C81_prepared : forall db pad x, db_ok db -> (forall c, (55296 <= c <= 57343)%N -> is_C db c = true) -> others_print_clean db x ->
  small_ints (prepare_data db pad x) -> encodable (prepare_data db pad x).
Proof.
  intros db pad x DB S O. pose proof (prepare_storable db DB pad x O) as H. revert H. generalize (prepare_data db pad x). clear x O.
  induction v as [|b|z|f|s|l IH|d IH] using value_ind'; intros H I; try (constructor; fail).
  - inversion I as [| | | |? B| |]; subst. constructor. unfold in_64_bits. lia.
  - constructor. intros c Hc K. specialize (H c Hc (S c K)). lia.
  - apply storable_list in H. inversion I as [| | | | |? F|]; subst. constructor. rewrite Forall_forall in *. intros v Hv. auto.
  - apply storable_dict in H. destruct H as [_ H]. inversion I as [| | | | | |? F]; subst. constructor. rewrite Forall_forall in *. intros k v Hk. destruct (H _ Hk) as [N V]. split; [|exact (IH _ Hk V (F _ Hk))].
    destruct N as (_ & N & _). intros c Hc K. specialize (N c Hc). cbn [fst] in N. rewrite (S c K) in N. discriminate.
Qed.
Print Assumptions C81_prepared.

(** ** The request *)
(** Any chunk of the operations of a sync (of records with data that can be written) is sent, and Elasticsearch reads
    it as these operations in this order. The full statement has no condition on the deleted ids. *)
Theorem C81_bulk_partial : forall ft L peq cap after all_opts st records st' ops name chunk,
  writes_numbers ft -> writes L ->
  unicode name -> (forall w o h, In (w, o) all_opts -> In h (geo_hints o) -> unicode (h_lat h)) ->
  (forall w, In w (map fst all_opts) -> in_64_bits w) ->
  (forall id all_data, In (id, all_data) records -> unicode id /\ forall v d, In (v, d) all_data -> in_64_bits v /\ encodable (VDict d)) ->
  (forall id all_data v d w o, In (id, all_data) records -> In (v, d) all_data -> In (w, o) all_opts -> parse L o d <> None) ->
  gen_ops (parse_opt L) peq cap after all_opts st records = Some (st', ops) ->
  incl chunk ops -> json_plain name -> (forall id, In (BDeleteLatest id) chunk -> json_plain id) ->
  exists body acts, request ft name chunk = Some body /\ read_body body = Some acts /\ Forall2 (asks ft name) chunk acts.
Proof.
  intros ft L peq cap after all_opts st records st' ops name chunk FT W Hn Hh Ho Hr Hp Hg Hc Pn Pd. apply gen_from in Hg.
  assert (Z : forall id all_data w, In (id, all_data) records -> In w (zkeys all_opts ++ zkeys all_data) -> in_64_bits w).
  { intros id ad w Hi Hw. apply in_app_or in Hw. destruct Hw as [Hw|Hw]; [exact (Ho w Hw)|]. apply in_map_iff in Hw. destruct Hw as ([v d] & <- & Hv). exact (proj1 (proj2 (Hr id ad Hi) v d Hv)). }
  assert (Ul : unicode (latest name)) by (unfold latest, base; apply unicode_app; [apply unicode_app; [apply lit_unicode; reflexivity|exact Hn]|apply lit_unicode; reflexivity]).
  assert (Ua : forall n, unicode (get_arc name n)) by (intro n; unfold get_arc, arc_base, base; repeat apply unicode_app; try (apply lit_unicode; reflexivity); [exact Hn|apply unicode_int]).
  assert (K : Forall (fun b => exists o t, op_of name b = Some o /\ serialise ft o = Some t /\ asks ft name b (act_of ft o)) chunk).
  { apply Forall_forall. intros b Hb. rewrite Forall_forall in Hg. pose proof (Hg b (Hc b Hb)) as [F G].
    assert (D : forall (d : esdoc (option parsed_data)) index id, unicode index -> match id with Some x => unicode x | None => True end ->
      (exists all_data, In (e_id d, all_data) records /\ In (e_ver d) (zkeys all_opts ++ zkeys all_data) /\ (forall w, e_end d = Some w -> In w (zkeys all_opts ++ zkeys all_data)) /\ exists v x w o, In (v, x) all_data /\ In (w, o) all_opts /\ e_parsed d = parse_opt L x o) ->
      exists r t, e_parsed d = Some r /\ serialise ft (IndexOp index id (doc_dict d r)) = Some t).
    { intros d index id Ui Uid (ad & A1 & A2 & A3 & v & x & w & o & A4 & A5 & A6). unfold parse_opt in A6. destruct (parse L o x) as [r|] eqn:E; [|exfalso; exact (Hp _ _ _ _ _ _ A1 A4 A5 E)]. exists r.
      assert (En : encodable (VDict (doc_dict d r))). { apply doc_encodable; [apply (Hr _ _ A1)|exact (Z _ _ _ A1 A2)|intros u Hu; exact (Z _ _ _ A1 (A3 u Hu))|]. refine (parse_encodable L W o _ x r _ E); [intros h K; exact (Hh w o h A5 K)|]. exact (proj2 (proj2 (Hr _ _ A1) v x A4)). }
      assert (Em : encodable (VDict [(lit "index", VDict [(lit "_index", VStr index); (lit "_id", match id with Some i => VStr i | None => VNone end)])])).
      { constructor. intros k y [Y|[]]. injection Y as <- <-. split; [apply lit_unicode; reflexivity|]. constructor. intros k y [Y|[Y|[]]]; injection Y as <- <-; (split; [apply lit_unicode; reflexivity|]); [constructor; exact Ui|]. destruct id; constructor; exact Uid. }
      apply (dumps_some ft) in En, Em. unfold serialise. destruct (dumps ft (VDict [_])) as [a|]; [|contradiction]. destruct (dumps ft (VDict (doc_dict d r))) as [c|]; [|contradiction]. eauto. }
    assert (J : forall (d : esdoc (option parsed_data)) r, json_of ft (VDict (doc_dict d r)) = doc_json ft (e_id d) (e_ver d) (e_end d) r).
    { intros d r. assert (M : forall l, map (json_of ft) (map VStr l) = map JStr l) by (intro l; rewrite map_map; reflexivity). unfold doc_dict, doc_json. destruct (e_end d); cbn [json_of map app fst snd]; rewrite !M; reflexivity. }
    destruct b as [id d|id|n d].
    - destruct (D d (latest name) (Some id) Ul) as (r & t & D1 & D2); [|exact F|].
      { destruct F as (ad & F & _). rewrite G in F. apply (Hr _ _ F). }
      exists (IndexOp (latest name) (Some id) (doc_dict d r)), t. cbn [op_of]. rewrite D1. split; [reflexivity|]. split; [exact D2|]. cbn [act_of]. rewrite J. unfold latest, base. rewrite <- app_assoc. apply asks_latest, D1.
    - exists (DeleteOp (latest name) id), (serialise_delete (latest name) id). split; [reflexivity|]. split; [reflexivity|]. cbn [act_of]. unfold latest, base. rewrite <- app_assoc. apply asks_delete.
    - destruct (D d (get_arc name n) None (Ua n) I F) as (r & t & D1 & D2). exists (IndexOp (get_arc name n) None (doc_dict d r)), t. cbn [op_of]. rewrite D1. split; [reflexivity|]. split; [exact D2|]. cbn [act_of]. rewrite J. unfold get_arc, arc_base, base. rewrite <- !app_assoc.
      change (lit "-arc" ++ lit "-" ++ str_int (Z.of_N n)) with (lit "-arc-" ++ str_int (Z.of_N n)). apply asks_arc, D1. }
  assert (X : exists bops ts, all_some (map (op_of name) chunk) = Some bops /\ all_some (map (serialise ft) bops) = Some ts /\ Forall2 (asks ft name) chunk (map (act_of ft) bops) /\ forall i d, In (DeleteOp i d) bops -> i = latest name /\ In (BDeleteLatest d) chunk).
  { clear Hc Pd. induction K as [|b chunk (o & t & K1 & K2 & K3) _ (bops & ts & I1 & I2 & I3 & I4)]; [exists [], []; repeat split; [constructor|destruct H..]|].
    exists (o :: bops), (t :: ts). cbn [map all_some]. rewrite K1, I1, K2, I2. split; [reflexivity|]. split; [reflexivity|]. split; [constructor; assumption|]. intros i d [H|H].
    - rewrite H in K1. destruct b as [id d'|id|n d']; cbn [op_of] in K1; [destruct (e_parsed d'); discriminate| |destruct (e_parsed d'); discriminate]. injection K1 as <- <-. split; [reflexivity|left; reflexivity].
    - destruct (I4 i d H) as [A B]. split; [exact A|right; exact B]. }
  destruct X as (bops & ts & X1 & X2 & X3 & X4). unfold request. rewrite X1. unfold bulk_body. rewrite X2. eexists. exists (map (act_of ft) bops). split; [reflexivity|]. split; [|exact X3].
  apply (read_bulk ft FT bops); [|unfold bulk_body; rewrite X2; reflexivity]. intros i d H. destruct (X4 i d H) as [-> B].
  assert (Pl : json_plain (latest name)).
  { assert (A : forall a b, json_plain a -> json_plain b -> json_plain (a ++ b)) by (intros a b A B' c C; apply in_app_or in C; destruct C; auto). unfold latest, base. apply A; [apply A; [apply json_plain_b; reflexivity|exact Pn]|apply json_plain_b; reflexivity]. }
  split; [|apply C48_delete_partial; split; [exact Pl|exact (Pd d B)]].
  assert (Fl : forall a, json_plain a -> flat a) by (intros a Ha Hc'; destruct (Ha 10%N Hc'); lia).
  unfold serialise_delete. repeat apply flat_app; try (cbv; intuition discriminate); [exact (Fl _ Pn)|exact (Fl _ (Pd d B))].
Qed.
Print Assumptions C81_bulk_partial.

(** Record ids are written into deletes as they are: deleting a record of the database x with such an id deletes a record of
    the database y (and not its own). *)
Definition evil_id : pystr := lit "1""}}" ++ 10%N :: lit "{""delete"":{""_index"":""data-y-latest"",""_id"":""7".
Theorem C81_bulk_refuted : exists id parse peq cap (all_opts : list (Z * options)) all_data st' ops,
  gen_ops (P := option parsed_data) parse peq cap (Some 1%Z) all_opts (0%N, 0%N) [(id, all_data)] = Some (st', ops) /\ In (BDeleteLatest id) ops
  /\ forall ft, exists body acts, request ft (lit "x") [BDeleteLatest id] = Some body /\ read_body body = Some acts
     /\ In (ADelete (lit "data-y-latest") (lit "7")) acts /\ ~ In (ADelete (lit "data-x-latest") id) acts.
Proof.
  exists evil_id, (fun d _ => Some (PData d [] [])), (fun _ _ => false), 10%N, [(1%Z, Opts [] [] [] [] 256%Z (lit "{}"))], [(1%Z, [(lit "a", VInt 1)]); (2%Z, [])].
  eexists. eexists. split; [vm_compute; reflexivity|]. split; [left; reflexivity|].
  intro ft. eexists. exists [ADelete (lit "data-x-latest") (lit "1"); ADelete (lit "data-y-latest") (lit "7")]. split; [reflexivity|]. split; [vm_compute; reflexivity|]. split; [right; left; reflexivity|].
  intros [E|[E|[]]]; discriminate E.
Qed.
Print Assumptions C81_bulk_refuted.

(** The conditions are met: a record with a float, a name with an accent, a deletion and a change of options. *)
Definition ex_ft (f : spec_float) : pystr := lit "1.5".
Definition ex_recs : list (pystr * list (Z * dict)) :=
  [(lit "a-1", [(1%Z, [(lit "l" ++ [233]%N, VFloat (S754_finite false 3 (-1))); (lit "n", VList [VInt 7; VNone; VStr (lit "say ""hi""" ++ [10]%N)])]); (3%Z, [])]);
   (lit "b", [(2%Z, [(lit "x", VBool true)])])].
Definition ex_opts : list (Z * options) := [(1%Z, Opts [] [] [] [] 4%Z (lit "{}")); (4%Z, Opts [lit "true"] [] [] [] 4%Z (lit "{}"))].
Example C81_example : exists st' ops,
  writes_numbers ex_ft /\ writes ex_lib /\ unicode (lit "birds") /\ json_plain (lit "birds")
  /\ (forall id all_data, In (id, all_data) ex_recs -> unicode id /\ forall v d, In (v, d) all_data -> in_64_bits v /\ encodable (VDict d))
  /\ (forall id all_data v d w o, In (id, all_data) ex_recs -> In (v, d) all_data -> In (w, o) ex_opts -> parse ex_lib o d <> None)
  /\ gen_ops (parse_opt ex_lib) (fun _ _ => false) 10%N (Some 1%Z) ex_opts (0%N, 0%N) ex_recs = Some (st', ops)
  /\ map (fun b => match b with BIndexLatest _ _ => 0 | BDeleteLatest _ => 1 | BIndexArc _ _ => 2 end) ops = [1; 2; 2; 0]
  /\ (forall id, In (BDeleteLatest id) ops -> json_plain id)
  /\ request ex_ft (lit "birds") ops <> None.
Proof.
  eexists. eexists. split; [intros f _; split; reflexivity|]. split; [constructor; try discriminate; intros fmt f; apply lit_unicode; reflexivity|]. split; [apply lit_unicode; reflexivity|]. split; [apply json_plain_b; reflexivity|].
  assert (Dm : forall d, dumps ex_ft (VDict d) <> None -> encodable (VDict d)) by (intro d; apply dumps_some).
  split; [intros id ad [E|[E|[]]]; injection E as <- <-; (split; [apply lit_unicode; reflexivity|]); intros v d; [intros [E|[E|[]]]|intros [E|[]]]; injection E as <- <-; (split; [unfold in_64_bits; lia|apply Dm; vm_compute; discriminate])|].
  split; [intros id ad v d w o [E|[E|[]]]; injection E as <- <-; [intros [E|[E|[]]]|intros [E|[]]]; injection E as <- <-; intros [E|[E|[]]]; injection E as <- <-; vm_compute; discriminate|].
  split; [vm_compute; reflexivity|]. split; [reflexivity|]. split; [intros id [E|[E|[E|[E|[]]]]]; try discriminate E; injection E as <-; apply json_plain_b; reflexivity|]. vm_compute. discriminate.
Qed.
