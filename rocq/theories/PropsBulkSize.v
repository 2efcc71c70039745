(** C100: how large the requests of a sync are. *)
From Coq Require Import String Ascii.
From Coq Require Import List ZArith NArith Bool Lia.
From Coq Require Import Floats.SpecFloat FinFun.
From Verif Require Import PyVal Diff Mongo Time TimeProofs Names Json Bulk Parser ParserProofs Index EndToEnd BulkParse Prepare PrepareProofs BsonSize PropsNames PropsParser PropsPrepare PropsBulk.
Import ListNotations.
Open Scope string_scope.
Open Scope list_scope.
Open Scope N_scope.

(** ** Specification *)
(** What Elasticsearch takes in one request, by default (http.max_content_length, 100 MB by its documentation): it answers larger
    ones with the status 413, of which the client makes an exception the worker does not catch (syncing.py:221-234). *)
Definition REQUEST_LIMIT : N := 104857600.
(** indexing/syncing.py:20: the default of the number of operations in a request *)
Definition CHUNK_SIZE : nat := 100.
(** the bytes of all of these texts in UTF-8 *)
Definition all_sizes (bodies : list pystr) : N := fold_right (fun b n => text_size b + n) 0 bodies.

(** ** Sizes *)
Lemma size_app a b : text_size (a ++ b) = text_size a + text_size b.
Proof. induction a as [|c a IH]; [reflexivity|]. cbn [app text_size fold_right]. fold (text_size (a ++ b)) (text_size a). rewrite IH. lia. Qed.
Lemma size_cons c a : text_size (c :: a) = char_size c + text_size a.
Proof. reflexivity. Qed.
Lemma size_concat l : text_size (concat l) = all_sizes l.
Proof. induction l as [|x l IH]; [reflexivity|]. cbn [concat all_sizes fold_right]. rewrite size_app, IH. reflexivity. Qed.
Lemma one_request ft name op t o : op_of name op = Some o -> serialise ft o = Some t -> request ft name [op] = Some (line t).
Proof. intros H1 H2. unfold request. cbn [map all_some]. rewrite H1. unfold bulk_body. cbn [map all_some]. rewrite H2. cbn [map concat]. rewrite app_nil_r. reflexivity. Qed.
Lemma request_parts ft name : forall chunk body, request ft name chunk = Some body ->
  exists bodies, Forall2 (fun op b => request ft name [op] = Some b) chunk bodies /\ body = concat bodies.
Proof.
  unfold request at 1. induction chunk as [|op chunk IH]; intros body H.
  - cbn in H. injection H as <-. exists []. split; [constructor|reflexivity].
  - cbn [map all_some] in H. destruct (op_of name op) as [o|] eqn:E1; [|discriminate]. destruct (all_some (map (op_of name) chunk)) as [os|]; [|discriminate].
    unfold bulk_body in H. cbn [map all_some] in H. destruct (serialise ft o) as [t|] eqn:E2; [|discriminate]. destruct (all_some (map (serialise ft) os)) as [ts|] eqn:E3; [|discriminate].
    injection H as <-. destruct (IH (concat (map line ts))) as (bs & B1 & B2); [unfold bulk_body; rewrite E3; reflexivity|].
    exists (line t :: bs). split; [constructor; [exact (one_request ft name op t o E1 E2)|exact B1]|]. cbn [map concat]. rewrite B2. reflexivity.
Qed.

(** A request takes what the requests of its operations would take, each sent by itself. *)
Theorem C100_request_exactly : forall ft name chunk body, request ft name chunk = Some body ->
  exists bodies, Forall2 (fun op b => request ft name [op] = Some b) chunk bodies /\ text_size body = all_sizes bodies.
Proof. intros ft name chunk body H. destruct (request_parts ft name chunk body H) as (bs & B1 & B2). exists bs. split; [exact B1|]. rewrite B2. apply size_concat. Qed.
Print Assumptions C100_request_exactly.

(** Largest useful part: with operations of up to 1 MiB each, no request of the default options is over the limit; with larger ones, fewer of them have to be
    in a request. The full statement has no condition on the sizes. *)
Theorem C100_partial : forall ft name ops chunk_size limit, (1 <= chunk_size)%nat ->
  (forall op body, In op ops -> request ft name [op] = Some body -> N.of_nat chunk_size * text_size body <= limit) ->
  forall chunk body, In chunk (partition ops chunk_size) -> request ft name chunk = Some body -> text_size body <= limit.
Proof.
  intros ft name ops n limit Hn H chunk body Hc Hb. destruct (C09_partition _ ops n Hn) as (P1 & P2 & _).
  rewrite Forall_forall in P2. destruct (P2 chunk Hc) as [NE P]. assert (I : forall op, In op chunk -> In op ops) by (intros op Ho; rewrite <- P1; apply in_concat; eauto).
  destruct (C100_request_exactly ft name chunk body Hb) as (bs & B1 & ->).
  assert (K : N.of_nat n * all_sizes bs <= N.of_nat (List.length chunk) * limit).
  { clear Hb Hc P P1 P2 NE. induction B1 as [|op b chunk bs B _ IH]; [cbn; lia|]. cbn [all_sizes fold_right List.length]. fold (all_sizes bs). pose proof (H op b (I op (or_introl eq_refl)) B).
    assert (J : forall x, In x chunk -> In x ops) by (intros x Hx; apply I; right; exact Hx). specialize (IH J). lia. }
  nia.
Qed.
Print Assumptions C100_partial.

(** ** A sync that cannot succeed *)
Lemma escape_size c : char_size c <= text_size (escape c).
Proof.
  unfold escape. repeat (match goal with |- context[N.eqb c ?k] => destruct (N.eqb_spec c k) as [->|_]; [vm_compute; discriminate|] end).
  destruct (N.ltb_spec c 32) as [H|_]; [|rewrite size_cons; lia]. unfold char_size at 1. destruct (N.ltb_spec c 128); [|lia]. rewrite size_cons. change (char_size 92) with 1. lia.
Qed.
Lemma escaped_size s : text_size s <= text_size (flat_map escape s).
Proof. induction s as [|c s IH]; [apply N.le_0_l|]. cbn [flat_map]. rewrite size_app, size_cons. pose proof (escape_size c). lia. Qed.
Lemma dumps_text_size ft s t : dumps ft (VStr s) = Some t -> text_size s < text_size t.
Proof. cbn [dumps]. unfold dumps_str. destruct (existsb surrogate s); [discriminate|]. intro H. injection H as <-. rewrite size_cons, size_app. pose proof (escaped_size s). change (char_size 34) with 1. lia. Qed.
Lemma commas_size l : all_sizes l <= text_size (commas l).
Proof. induction l as [|x [|y l] IH]; [apply N.le_0_l|cbn [commas all_sizes fold_right]; lia|]. cbn [commas all_sizes fold_right] in *. rewrite size_app, size_cons. lia. Qed.
Lemma dumps_fields_size ft d t : dumps ft (VDict d) = Some t -> exists ts, Forall2 (fun kv tv => dumps ft (snd kv) = Some tv) d ts /\ all_sizes ts <= text_size t.
Proof.
  cbn [dumps]. destruct (all_some _) as [us|] eqn:E; [|discriminate]. intro H. injection H as <-. rewrite size_cons, size_app.
  assert (K : exists ts, Forall2 (fun (kv : pystr * value) tv => dumps ft (snd kv) = Some tv) d ts /\ all_sizes ts <= all_sizes us).
  { revert us E. induction d as [|[k v] d IH]; intros us E; [cbn in E; injection E as <-; exists []; split; [constructor|apply N.le_refl]|].
    cbn [map all_some fst snd] in E. destruct (dumps_str k) as [a|]; [|discriminate]. destruct (dumps ft v) as [tv|] eqn:Ev; [|discriminate]. destruct (all_some _) as [vs|] eqn:E'; [|discriminate]. injection E as <-.
    destruct (IH vs eq_refl) as (ts & T1 & T2). exists (tv :: ts). split; [constructor; [exact Ev|exact T1]|]. cbn [all_sizes fold_right]. fold (all_sizes ts) (all_sizes vs). rewrite size_app, size_cons. lia. }
  destruct K as (ts & K1 & K2). exists ts. split; [exact K1|]. pose proof (commas_size us). lia.
Qed.
Lemma field_size ft d t k v : dumps ft (VDict d) = Some t -> In (k, v) d -> exists tv, dumps ft v = Some tv /\ text_size tv <= text_size t.
Proof.
  intros H I. destruct (dumps_fields_size ft d t H) as (ts & F & S). assert (K : exists tv, dumps ft v = Some tv /\ text_size tv <= all_sizes ts).
  { clear H S t. induction F as [|kv tv d ts E F IH]; [destruct I|]. cbn [all_sizes fold_right]. fold (all_sizes ts). destruct I as [->|I]; [exists tv; split; [exact E|lia]|]. destruct (IH I) as (u & U1 & U2). exists u. split; [exact U1|lia]. }
  destruct K as (tv & K1 & K2). exists tv. split; [exact K1|lia].
Qed.

(** the options, from version 1 on: the defaults but for date formats and texts that stand for booleans *)
Definition plain_opts : options := Opts [] [] [] [] 256%Z (lit "{}").
(** a record added in version 2 with one field, a text *)
Definition one_text (s id : pystr) : pystr * list (Z * dict) := (id, [(2%Z, [(lit "t", VStr s)])]).
Section Witness.
Context (ft : spec_float -> pystr) (FT : writes_numbers ft) (L : lib) (W : writes L) (name : pystr) (Un : unicode name) (Pn : json_plain name).
Context (peq : option parsed_data -> option parsed_data -> bool) (cap : N).
(** proof device: the operation for such a record *)
Definition text_op (s id : pystr) : bop (option parsed_data) := BIndexLatest id (ED id 2%Z None (parse_opt L [(lit "t", VStr s)] plain_opts)).
Lemma gen_texts s st : forall ids, gen_ops (parse_opt L) peq cap None [(1%Z, plain_opts)] st (map (one_text s) ids) = Some (st, map (text_op s) ids).
Proof. induction ids as [|id ids IH]; [reflexivity|]. cbn [map gen_ops one_text]. cbv [build zmin_key]. cbn -[parse_opt gen_ops]. rewrite IH. reflexivity. Qed.
Lemma text_parsed c s : exists rest dts pts, parse_opt L [(lit "t", VStr (c :: s))] plain_opts = Some (PData [(lit "t", VDict ((pt_u, VStr (c :: s)) :: (pt_t, VStr (c :: s)) :: rest))] dts pts).
Proof. eexists. eexists. eexists. unfold parse_opt, parse, dict_body, dict_rest. cbn [map_opt fst snd parse_entry parse_value plain_opts geo_hints match_hints add_hints andb]. reflexivity. Qed.
Lemma text_op_size c s id body : request ft name [text_op (c :: s) id] = Some body -> 2 * text_size (c :: s) < text_size body.
Proof.
  unfold request. cbn [map all_some]. unfold text_op, op_of. cbn [e_parsed]. destruct (text_parsed c s) as (rest & dts & pts & ->).
  unfold bulk_body. cbn [map all_some]. unfold serialise. destruct (dumps ft (VDict [_])) as [a|]; [|discriminate].
  destruct (dumps ft (VDict (doc_dict _ _))) as [b|] eqn:E; [|discriminate]. intro H. injection H as <-.
  assert (Q : text_size b <= text_size (line (a ++ 10 :: b))). { unfold line. destruct (N.eqb _ 10); rewrite ?size_app, ?size_cons; lia. }
  cbn [map concat]. rewrite app_nil_r.
  destruct (field_size ft _ _ (lit "data") (VDict [(lit "t", VDict ((pt_u, VStr (c :: s)) :: (pt_t, VStr (c :: s)) :: rest))]) E) as (x & X1 & X2); [right; right; right; left; reflexivity|].
  destruct (field_size ft _ _ _ _ X1 (or_introl eq_refl)) as (y & Y1 & Y2).
  destruct (dumps_fields_size ft _ _ Y1) as (ts & T1 & T2). inversion T1 as [|? t1 ? ts1 A1 T3]; subst. inversion T3 as [|? t2 ? ts2 A2 _]; subst. cbn [snd] in A1, A2.
  apply dumps_text_size in A1. apply dumps_text_size in A2. cbn [all_sizes fold_right] in T2. lia.
Qed.
End Witness.

(** 100 records that each take half a MiB in MongoDB: they can be read and parsed, the request with their documents can be written,
    and it is over the limit. Whatever the libraries return, and whatever the state of the arcs. *)
Theorem C100_refuted : exists records,
  List.length records = CHUNK_SIZE /\ NoDup (map fst records)
  /\ (forall id all_data, In (id, all_data) records -> exists v data, all_data = [(v, data)] /\ bson_size (VDict data) <= 524301)
  /\ forall ft L name peq cap st, writes_numbers ft -> writes L -> unicode name -> json_plain name ->
     exists ops body, gen_ops (parse_opt L) peq cap None [(1%Z, plain_opts)] st records = Some (st, ops)
     /\ partition ops CHUNK_SIZE = [ops] /\ request ft name ops = Some body /\ REQUEST_LIMIT < text_size body.
Proof.
  set (s := repeat 97 (N.to_nat 524288)). set (ids := map (fun n => str_int (Z.of_nat n)) (seq 1 100)).
  assert (Es : exists s', s = 97 :: s'). { exists (repeat 97 (N.to_nat 524287)). subst s. replace (N.to_nat 524288) with (S (N.to_nat 524287)) by lia. reflexivity. }
  assert (Ss : text_size s = 524288). { subst s. assert (R : forall n, text_size (repeat 97 n) = N.of_nat n) by (induction n as [|n IH]; [reflexivity|]; cbn [repeat]; rewrite size_cons, IH; change (char_size 97) with 1; lia). rewrite R. apply N2Nat.id. }
  assert (Us : unicode s). { intros c Hc. apply repeat_spec in Hc. subst c. lia. }
  clearbody s. destruct Es as (s' & ->). exists (map (one_text (97 :: s')) ids).
  split; [reflexivity|]. split; [rewrite map_map; cbn [one_text fst]; rewrite map_id; subst ids; apply FinFun.Injective_map_NoDup; [intros a b E; apply str_int_inj in E; lia|apply seq_NoDup]|].
  split.
  { intros id ad H. apply in_map_iff in H. destruct H as (i & E & _). injection E as <- <-. eexists. eexists. split; [reflexivity|]. cbn [bson_size]. rewrite Ss. vm_compute. discriminate. }
  intros ft L name peq cap st FT W Un Pn. exists (map (text_op L (97 :: s')) ids).
  assert (G := gen_texts L peq cap (97 :: s') st ids).
  destruct (C81_bulk_partial ft L peq cap None [(1%Z, plain_opts)] st (map (one_text (97 :: s')) ids) st (map (text_op L (97 :: s')) ids) name (map (text_op L (97 :: s')) ids) FT W Un) as (body & acts & B1 & _).
  - intros w o h [E|[]] Hh. injection E as <- <-. destruct Hh.
  - intros w [<-|[]]. cbv. intuition discriminate.
  - intros id ad H. apply in_map_iff in H. destruct H as (i & E & Hi). injection E as <- <-. split; [apply in_map_iff in Hi; destruct Hi as (n & <- & _); apply unicode_int|].
    intros v d [E|[]]. injection E as <- <-. split; [cbv; intuition discriminate|]. constructor. intros k x [E|[]]. injection E as <- <-. split; [apply lit_unicode; reflexivity|constructor; exact Us].
  - intros id ad v d w o H Hv [E|[]]. injection E as <- <-. apply in_map_iff in H. destruct H as (i & E & _). injection E as <- <-. destruct Hv as [E|[]]. injection E as <- <-. destruct (text_parsed L 97 s') as (r & a & b & E). unfold parse_opt in E. rewrite E. discriminate.
  - exact G.
  - intros x Hx; exact Hx.
  - exact Pn.
  - intros id H. apply in_map_iff in H. destruct H as (i & E & _). discriminate E.
  - exists body. split; [exact G|]. split; [reflexivity|]. split; [exact B1|].
    destruct (C100_request_exactly ft name _ body B1) as (bs & F & ->).
    assert (K : N.of_nat (List.length ids) * (2 * 524288 + 1) <= all_sizes bs).
    { clear G B1. clearbody ids. revert bs F. induction ids as [|i ids' IH]; intros bs F; inversion F as [|? b ? bs' F1 F2]; subst; [cbn; lia|]. specialize (IH bs' F2). apply text_op_size in F1. rewrite Ss in F1. cbn [all_sizes fold_right List.length]. fold (all_sizes bs'). lia. }
    change (List.length ids) with 100%nat in K. unfold REQUEST_LIMIT. lia.
Qed.
Print Assumptions C100_refuted.

(** The conditions are met: the four operations of the example of C81, two in each request, and none of them over 500 bytes by itself. *)
Example C100_example : exists st' ops,
  gen_ops (parse_opt ex_lib) (fun _ _ => false) 10 (Some 1%Z) ex_opts (0, 0) ex_recs = Some (st', ops)
  /\ List.length (partition ops 2) = 2%nat
  /\ (forall op body, In op ops -> request ex_ft (lit "birds") [op] = Some body -> N.of_nat 2 * text_size body <= 1000)
  /\ map (fun chunk => match request ex_ft (lit "birds") chunk with Some body => text_size body <=? 1000 | None => false end) (partition ops 2) = [true; true].
Proof.
  eexists. eexists. split; [vm_compute; reflexivity|]. split; [reflexivity|]. split; [|vm_compute; reflexivity].
  intros op body H. repeat (destruct H as [<-|H]; [intro E; vm_compute in E; injection E as <-; vm_compute; discriminate|]). destruct H.
Qed.
