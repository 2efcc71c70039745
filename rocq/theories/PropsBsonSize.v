(** Property C99: how often a record can be changed. *)
From Coq Require Import String Ascii.
From Coq Require Import List ZArith NArith Bool Lia.
From Coq Require Import Floats.SpecFloat.
From Verif Require Import PyVal Diff DiffProofs Time Prepare PrepareProofs Mongo Store MongoProofs MongoStore MongoMore Parser ParserTypes Bson BsonProofs BsonLimits PropsMongo PropsBson BsonSize BsonSizeProofs.
Import ListNotations.
Open Scope string_scope.
Open Scope list_scope.
Open Scope N_scope.

(** ** Specification *)
(** The bytes of a document, as in bsonspec.org. *)
Definition utf8_char (c : N) : list N :=
  if c <? 128 then [c]
  else if c <? 2048 then [192 + c / 64; 128 + c mod 64]
  else if c <? 65536 then [224 + c / 4096; 128 + c / 64 mod 64; 128 + c mod 64]
  else [240 + c / 262144; 128 + c / 4096 mod 64; 128 + c / 64 mod 64; 128 + c mod 64].
Definition utf8_bytes (s : pystr) : list N := flat_map utf8_char s.
Fixpoint little_endian (count : nat) (n : N) : list N := match count with O => [] | S r => n mod 256 :: little_endian r (n / 256) end.
Definition count_of {A} (l : list A) : N := N.of_nat (List.length l).
Definition is_int32 (z : Z) : bool := ((- 2147483648 <=? z) && (z <=? 2147483647))%Z.
Definition type_byte (v : value) : N :=
  match v with VFloat _ => 1 | VStr _ => 2 | VDict _ => 3 | VList _ => 4 | VBool _ => 8 | VNone => 10 | VInt z => if is_int32 z then 16 else 18 end.
Definition of_document (elements : list N) : list N := little_endian 4 (5 + count_of elements) ++ elements ++ [0].
Section Bytes.
(** the 8 bytes of a double *)
Variable double : spec_float -> list N.
Fixpoint bson_bytes (v : value) : list N :=
  match v with
  | VNone => []
  | VBool b => [if b then 1 else 0]
  | VInt z => if is_int32 z then little_endian 4 (Z.to_N (z mod 2 ^ 32)) else little_endian 8 (Z.to_N (z mod 2 ^ 64))
  | VFloat f => double f
  | VStr s => little_endian 4 (1 + count_of (utf8_bytes s)) ++ utf8_bytes s ++ [0]
  | VList l => of_document ((fix items (i : N) (l : list value) : list N := match l with [] => [] | x :: r => type_byte x :: utf8_bytes (str_int (Z.of_N i)) ++ [0] ++ bson_bytes x ++ items (i + 1) r end) 0 l)
  | VDict d => of_document ((fix fields (d : dict) : list N := match d with [] => [] | (k, x) :: r => type_byte x :: utf8_bytes k ++ [0] ++ bson_bytes x ++ fields r end) d)
  end.
(** the elements of an array *)
Fixpoint items_bytes (i : N) (l : list value) : list N := match l with [] => [] | x :: r => type_byte x :: utf8_bytes (str_int (Z.of_N i)) ++ [0] ++ bson_bytes x ++ items_bytes (i + 1) r end.
End Bytes.
(** The documents MongoDB takes are those whose bytes, with the element "_id" of 1 + 4 + 12 bytes, are at most 16 MiB. *)
Definition mongo_takes : dict -> bool := within SIZE_LIMIT.

(** ** The bytes are counted right *)
Lemma le_length k : forall n, List.length (little_endian k n) = k.
Proof. induction k as [|k IH]; intro n; [reflexivity|]. cbn [little_endian List.length]. rewrite IH. reflexivity. Qed.
Lemma utf8_length s : count_of (utf8_bytes s) = text_size s.
Proof.
  unfold count_of. induction s as [|c s IH]; [reflexivity|]. cbn [utf8_bytes flat_map]. fold (utf8_bytes s). rewrite app_length, Nat2N.inj_add, IH. cbn [text_size fold_right]. fold (text_size s). f_equal. unfold utf8_char, char_size. destruct (c <? 128); [reflexivity|]. destruct (c <? 2048); [reflexivity|]. destruct (c <? 65536); reflexivity.
Qed.
Lemma count_app {A} (a b : list A) : count_of (a ++ b) = count_of a + count_of b.
Proof. unfold count_of. rewrite app_length. lia. Qed.
Lemma count_cons {A} (x : A) l : count_of (x :: l) = 1 + count_of l.
Proof. unfold count_of. cbn [List.length]. lia. Qed.
Lemma of_document_size e : count_of (of_document e) = 5 + count_of e.
Proof. unfold of_document. rewrite !count_app. unfold count_of at 1. rewrite le_length. change (count_of [0]) with 1. lia. Qed.
Lemma list_bytes double l : bson_bytes double (VList l) = of_document (items_bytes double 0 l).
Proof. reflexivity. Qed.
Theorem C99_bytes : forall (double : spec_float -> list N) (v : value), (forall f, List.length (double f) = 8%nat) -> count_of (bson_bytes double v) = bson_size v.
Proof.
  intros double v H. induction v as [|b|z|f|s|l IH|d IH] using value_ind'; [cbn [bson_bytes]|cbn [bson_bytes]|cbn [bson_bytes]|cbn [bson_bytes]|cbn [bson_bytes]| |cbn [bson_bytes]].
  - reflexivity.
  - reflexivity.
  - unfold count_of. cbn [bson_size]. unfold int_size, is_int32. replace (z <? 2 ^ 31)%Z with (z <=? 2147483647)%Z by (destruct (Z.leb_spec z 2147483647), (Z.ltb_spec z (2 ^ 31)); lia). change (- 2 ^ 31)%Z with (-2147483648)%Z. destruct ((_ <=? z) && _)%Z%bool; rewrite le_length; reflexivity.
  - unfold count_of. rewrite H. reflexivity.
  - rewrite !count_app, utf8_length. unfold count_of at 1. rewrite le_length. change (count_of [0]) with 1. cbn [bson_size]. lia.
  - rewrite list_bytes, of_document_size, list_size. f_equal. generalize 0 as i. induction IH as [|x l Hx _ IHl]; intro i; [reflexivity|]. cbn [items_bytes]. rewrite count_cons, !count_app, utf8_length, Hx, IHl. change (count_of [0]) with 1. cbn [items_size]. unfold element_size. lia.
  - rewrite of_document_size, dict_size. f_equal. induction IH as [|[k x] l Hx _ IHl]; [reflexivity|]. cbn [snd] in Hx. rewrite count_cons, !count_app, utf8_length, Hx, IHl. change (count_of [0]) with 1. cbn [fields_size]. unfold element_size. lia.
Qed.
Print Assumptions C99_bytes.
(** {"hello": "world"} is the first example of bsonspec.org, with its 22 bytes. *)
Example C99_bytes_example : bson_bytes (fun _ => []) (VDict [(lit "hello", VStr (lit "world"))]) = [22; 0; 0; 0; 2; 104; 101; 108; 108; 111; 0; 6; 0; 0; 0; 119; 111; 114; 108; 100; 0; 0].
Proof. vm_compute. reflexivity. Qed.

(** ** No record has many versions *)
(** Whatever is called, no document has 524288 or more earlier versions under "diffs". *)
Theorem C99_versions : forall (ss : list step) (docs : list dict) (raw : dict) (m : mrec),
  read_run mongo_takes [] ss = Some docs -> In raw docs -> read_doc raw = Some m -> count_of (m_diffs m) < 524288.
Proof.
  intros ss docs raw m E I R. unfold mongo_takes in E. destruct (within_holds _ _ _ E) as (A & c & _ & H & W). clear E. induction H as [|raw' d docs c H _ IH]; [destruct I|]. inversion A as [|? ? A1 A2]; subst. inversion W as [|? ? W1 W2]; subst.
  destruct I as [<-|I]; [|apply IH; assumption]. rewrite (read_holds _ _ H) in R. injection R as <-. unfold count_of. cbn [rec_of m_diffs]. unfold write_diffs. rewrite map_length.
  destruct (holds_size _ _ H) as [S D]. unfold within in A1. apply N.leb_le in A1. rewrite S in A1. unfold SIZE_LIMIT in A1. destruct (dmem raw' (lit "diffs")); [|rewrite (D eq_refl); cbn; lia]. pose proof (history_le _ W1) as L. unfold base_size in A1. lia.
Qed.
Print Assumptions C99_versions.

(** ** C99 is false: a record of one field that goes back and forth *)
Definition toggle (b : bool) : dict := [(lit "x", VBool b); (lit "_id", VStr (lit "r"))].
Fixpoint toggles (n : nat) (b : bool) (v : Z) : list step :=
  match n with O => [] | S n => SIngest None [(lit "r", toggle b)] :: SCommit v :: toggles n (negb b) (v + 1) end.
Lemma toggle_step d b : d_id d = lit "r" -> d_data d = toggle (negb b) -> forall v, d_ver d = Some v -> exists ch,
  run_step [d] (SIngest None [(lit "r", toggle b)]) = Some [mkDoc (lit "r") None (toggle b) (zset (d_diffs d) v ch)].
Proof. destruct d as [i ver data diffs]. cbn [d_id d_data d_ver d_diffs]. intros -> -> v ->. destruct b; eexists; reflexivity. Qed.
Lemma toggles_run n : forall d b v v0, d_id d = lit "r" -> d_data d = toggle (negb b) -> d_ver d = Some v0 -> (v0 < v)%Z -> (forall w, In w (zkeys (d_diffs d)) -> (w < v0)%Z) ->
  exists d', run [d] (toggles n b v) = Some [d'] /\ List.length (d_diffs d') = (List.length (d_diffs d) + n)%nat.
Proof.
  induction n as [|n IH]; intros d b v v0 H1 H2 H3 H4 H5; [exists d; split; [reflexivity|lia]|]. cbn [toggles run]. destruct (toggle_step d b H1 H2 v0 H3) as [ch E].
  assert (F : ~ In v0 (zkeys (d_diffs d))) by (intro Q; specialize (H5 _ Q); lia). rewrite E. cbn [bind run_step commit_data map commit_doc d_ver d_id d_data d_diffs]. rewrite (zset_notin _ _ _ F).
  destruct (IH (mkDoc (lit "r") (Some v) (toggle b) (d_diffs d ++ [(v0, ch)])) (negb b) (v + 1)%Z v) as (d' & R & L); cbn [d_id d_data d_ver d_diffs].
  - reflexivity.
  - destruct b; reflexivity.
  - reflexivity.
  - lia.
  - intros w Hw. unfold zkeys in Hw. rewrite map_app in Hw. apply in_app_or in Hw. destruct Hw as [Hw|[<-|[]]]; [specialize (H5 _ Hw)|cbn [fst]]; lia.
  - exists d'. split; [exact R|]. rewrite L. cbn [d_diffs]. rewrite app_length. cbn [List.length]. lia.
Qed.
Lemma toggles_clock n : forall b v w, (w < v)%Z -> clock_increasing w (toggles n b v).
Proof. induction n as [|n IH]; intros b v w H; [exact I|]. cbn [toggles clock_increasing]. split; [exact H|]. apply IH. lia. Qed.
Lemma toggle_ok b : call_ok (SIngest None [(lit "r", toggle b)]).
Proof.
  split.
  - intros i j r r' Hi Hj _. destruct i as [|i]; [|destruct i; discriminate]. destruct j as [|j]; [|destruct j; discriminate]. reflexivity.
  - constructor; [|constructor]. destruct b; reflexivity.
Qed.
Lemma toggles_in n s : forall b v, In s (toggles n b v) -> (exists b', s = SIngest None [(lit "r", toggle b')]) \/ exists v', s = SCommit v'.
Proof. induction n as [|n IH]; intros b v H; [destruct H|]. cbn [toggles] in H. destruct H as [<-|[<-|H]]; [left; eauto|right; eauto|exact (IH _ _ H)]. Qed.
Lemma first_failure a ss : forall c, read_run a c ss = None -> exists ss1 s ss2 docs, ss = ss1 ++ s :: ss2 /\ read_run a c ss1 = Some docs /\ read_step a docs s = None.
Proof.
  induction ss as [|s ss IH]; intros c E; [discriminate|]. cbn [read_run] in E. destruct (read_step a c s) as [c'|] eqn:S; [|exists [], s, ss, c; auto].
  cbn [bind] in E. destruct (IH c' E) as (ss1 & s' & ss2 & docs & -> & R & F). exists (s :: ss1), s', ss2, docs. split; [reflexivity|]. split; [cbn [read_run]; rewrite S; exact R|exact F].
Qed.
Lemma toggles_fail n : 524289 <= N.of_nat n -> exists (ss : list step) (s : step) (docs : list dict),
  (forall t, In t (ss ++ [s]) -> (exists b, t = SIngest None [(lit "r", toggle b)]) \/ exists v, t = SCommit v) /\
  clock_increasing (-1) (ss ++ [s]) /\ Forall call_ok (ss ++ [s]) /\ (forall b, count_of (bson_bytes (fun _ => []) (VDict (toggle b))) = 20) /\
  read_run mongo_takes [] ss = Some docs /\ read_step mongo_takes docs s = None.
Proof.
  intro Hn. assert (F : read_run mongo_takes [] (toggles n true 0) = None).
  { destruct (read_run mongo_takes [] (toggles n true 0)) as [docs|] eqn:E; [exfalso|reflexivity]. destruct (versions_bound _ _ _ E) as (c & R & B).
    assert (K : n = S (Nat.pred n)) by lia. rewrite K in R. cbn [toggles run] in R.
    change (run_step [] (SIngest None [(lit "r", toggle true)])) with (Some [mkDoc (lit "r") None (toggle true) []]) in R. cbn [bind run_step commit_data map commit_doc d_ver d_id d_data d_diffs] in R.
    destruct (toggles_run (Nat.pred n) (mkDoc (lit "r") (Some 0%Z) (toggle true) []) false 1 0) as (d' & R' & L); try reflexivity; [intros w []|]. cbn [negb Z.add] in R. rewrite R' in R. injection R as <-. inversion B as [|? ? B1 _]; subst. cbn [d_diffs List.length] in L.
    unfold SIZE_LIMIT in B1. destruct B1 as [B1|B1]; [rewrite L in B1|rewrite B1 in L; cbn in L]; lia. }
  destruct (first_failure _ _ _ F) as (ss1 & s & ss2 & docs & E & R & S). exists ss1, s, docs.
  assert (I : forall t, In t (ss1 ++ [s]) -> In t (toggles n true 0)) by (intros t Ht; rewrite E; apply in_app_or in Ht; apply in_or_app; destruct Ht as [Ht|[<-|[]]]; [left; exact Ht|right; left; reflexivity]).
  split; [intros t Ht; exact (toggles_in _ _ _ _ (I t Ht))|]. split.
  - pose proof (toggles_clock n true 0 (-1) ltac:(lia)) as C. rewrite E in C. clear - C. revert C. generalize (-1)%Z. induction ss1 as [|t ss1 IH]; intros w C; cbn [app] in *; [destruct s as [mf recs|v|]; cbn [clock_increasing] in *; tauto|destruct t as [mf recs|v|]; cbn [clock_increasing] in *; [apply IH, C|split; [apply C|apply IH, C]|apply IH, C]].
  - split; [|split; [intros []; reflexivity|split; assumption]]. apply Forall_forall. intros t Ht. destruct (toggles_in _ _ _ _ (I t Ht)) as [[b ->]|[v ->]]; [apply toggle_ok|exact Logic.I].
Qed.
Theorem C99_refuted : exists (ss : list step) (s : step) (docs : list dict),
  (forall t, In t (ss ++ [s]) -> (exists b, t = SIngest None [(lit "r", toggle b)]) \/ exists v, t = SCommit v) /\
  clock_increasing (-1) (ss ++ [s]) /\ Forall call_ok (ss ++ [s]) /\ (forall b, count_of (bson_bytes (fun _ => []) (VDict (toggle b))) = 20) /\
  read_run mongo_takes [] ss = Some docs /\ read_step mongo_takes docs s = None.
Proof. apply (toggles_fail (N.to_nat 524289)). rewrite N2Nat.id. apply N.le_refl. Qed.
Print Assumptions C99_refuted.

(** ** Which commits and changes are refused *)
(** A commit adds the version to the documents that have none: it is refused exactly if a document has no room for that. *)
Theorem C99_commit_exactly : forall (ss : list step) (docs : list dict) (v : Z), read_run mongo_takes [] ss = Some docs ->
  (read_step mongo_takes docs (SCommit v) = None <->
   exists raw, In raw docs /\ dget raw (lit "version") = Some VNone /\ 16777216 < 17 + bson_size (VDict raw) + (if is_int32 v then 4 else 8)).
Proof.
  intros ss docs v E. destruct (within_holds _ _ _ E) as (A & c & _ & H & _). clear E.
  assert (I : (if is_int32 v then 4 else 8) = int_size v).
  { unfold is_int32, int_size. replace (v <? 2 ^ 31)%Z with (v <=? 2147483647)%Z by (destruct (Z.leb_spec v 2147483647), (Z.ltb_spec v (2 ^ 31)); lia). reflexivity. }
  rewrite I. cbn [read_step]. clear A. induction H as [|raw d docs c H _ IH].
  - split; [discriminate|intros (raw & [] & _)].
  - assert (U : exists raw', update_doc [(lit "version", VInt v)] [] raw = Some raw' /\ (is_none raw = true -> dget raw (lit "version") = Some VNone /\ document_size raw' = document_size raw + int_size v)).
    { destruct H as (x & -> & _). exists ([(lit "id", VStr (d_id d)); (lit "data", VDict (d_data d)); (lit "version", VInt v)] ++ x). split; [reflexivity|]. intro K. destruct (d_ver d) as [z|]; [discriminate K|]. split; [reflexivity|]. unfold document_size. rewrite !dict_size. cbn [app fields_size write_version]. unfold element_size. replace (bson_size (VInt v)) with (int_size v) by reflexivity. replace (bson_size VNone) with 0 by reflexivity. lia. }
    destruct U as (raw' & U & K). cbn [commit_read]. rewrite U. cbn [bind]. destruct (is_none raw) eqn:Nn.
    + destruct (K eq_refl) as [K1 K2]. unfold mongo_takes at 1. unfold within. rewrite K2. destruct (N.leb_spec (document_size raw + int_size v) SIZE_LIMIT) as [Q|Q].
      * cbn [bind]. destruct (commit_read mongo_takes v docs) as [r|]; cbn [bind].
        -- split; [discriminate|]. intros (raw0 & [<-|I0] & V0 & S0); [unfold document_size, id_size, SIZE_LIMIT in Q; lia|]. exfalso. assert (B : Some r = None) by (apply IH; exists raw0; auto). discriminate B.
        -- split; [|reflexivity]. intros _. destruct (proj1 IH eq_refl) as (raw0 & I0 & V0). exists raw0. split; [right; exact I0|exact V0].
      * cbn [bind]. split; [|reflexivity]. intros _. exists raw. split; [left; reflexivity|]. split; [exact K1|]. unfold document_size, id_size, SIZE_LIMIT in Q. lia.
    + cbn [bind]. assert (V : dget raw (lit "version") <> Some VNone) by (intro V; unfold is_none in Nn; rewrite V in Nn; discriminate). destruct (commit_read mongo_takes v docs) as [r|]; cbn [bind].
      * split; [discriminate|]. intros (raw0 & [<-|I0] & V0 & S0); [contradiction|]. exfalso. assert (B : Some r = None) by (apply IH; exists raw0; auto). discriminate B.
      * split; [|reflexivity]. intros _. destruct (proj1 IH eq_refl) as (raw0 & I0 & V0). exists raw0. split; [right; exact I0|exact V0].
Qed.
Print Assumptions C99_commit_exactly.
(** A record whose text leaves fewer than 8 bytes is taken, but cannot be committed at any time the clock shows today. *)
Definition long_text (n : nat) : list step := [SIngest None [(lit "r", [(lit "x", VStr (repeat 97 n)); (lit "_id", VStr (lit "r"))])]].
Lemma long_text_held n : N.of_nat n + 71 <= SIZE_LIMIT -> exists docs, read_run mongo_takes [] (long_text n) = Some docs /\ exists raw, docs = [raw] /\ dget raw (lit "version") = Some VNone /\ document_size raw = N.of_nat n + 71.
Proof.
  intro H. set (raw := [(lit "id", VStr (lit "r")); (lit "data", VDict [(lit "x", VStr (repeat 97 n)); (lit "_id", VStr (lit "r"))]); (lit "version", VNone)]).
  assert (S : document_size raw = N.of_nat n + 71).
  { unfold document_size, raw. rewrite !dict_size. cbn [fields_size]. rewrite !dict_size. cbn [fields_size]. replace (bson_size (VStr (repeat 97 n))) with (5 + text_size (repeat 97 n)) by reflexivity. rewrite text_repeat. unfold element_size, id_size. change (bson_size (VStr (lit "r"))) with 6. change (text_size (lit "id")) with 2. change (text_size (lit "data")) with 4. change (text_size (lit "version")) with 7. change (text_size (lit "x")) with 1. change (text_size (lit "_id")) with 3. replace (bson_size VNone) with 0 by reflexivity. lia. }
  exists [raw]. split; [|exists raw; auto]. change (read_run mongo_takes [] (long_text n)) with (bind (bind (if mongo_takes raw then Some [raw] else None) (fun c' => apply_wops mongo_takes c' [])) (fun c' : list dict => Some c')).
  unfold mongo_takes at 1, within. rewrite S. destruct (N.leb_spec (N.of_nat n + 71) SIZE_LIMIT); [reflexivity|lia].
Qed.
Theorem C99_commit_refuted : exists (ss : list step) (docs : list dict), clock_increasing 0 ss /\ Forall call_ok ss /\ read_run mongo_takes [] ss = Some docs /\
  forall v, (2147483647 < v)%Z -> read_step mongo_takes docs (SCommit v) = None.
Proof.
  pose (n := 16777216 - 71 - 7). assert (L : N.of_nat (N.to_nat n) + 71 <= SIZE_LIMIT) by (rewrite N2Nat.id; vm_compute; discriminate). destruct (long_text_held _ L) as (docs & R & raw & -> & V & S). exists (long_text (N.to_nat n)), [raw].
  split; [exact I|]. split.
  - constructor; [|constructor]. split; [|constructor; [reflexivity|constructor]]. intros i j r r' Hi Hj _. destruct i as [|i]; [|destruct i; discriminate]. destruct j as [|j]; [|destruct j; discriminate]. reflexivity.
  - split; [exact R|]. intros v Hv. apply (C99_commit_exactly _ _ v R). exists raw. split; [left; reflexivity|]. split; [exact V|]. unfold document_size, id_size in S. rewrite S, N2Nat.id. unfold is_int32. destruct (Z.leb_spec v 2147483647); [lia|]. rewrite andb_false_r. vm_compute. reflexivity.
Qed.
Print Assumptions C99_commit_refuted.

(** Changing the data of a committed record keeps the changes back to the old data: it is refused exactly if there is no room for the new data
    and them. [changes] are those diff finds, as they are stored. *)
Lemma update_one id sets unsets docs raw raw' : filter (has_id id) docs = [raw] -> update_doc sets unsets raw = Some raw' ->
  update_first mongo_takes id sets unsets docs = None <-> mongo_takes raw' = false.
Proof.
  intros F U. induction docs as [|d docs IH]; [discriminate|]. cbn [filter] in F. cbn [update_first]. destruct (has_id id d) eqn:K.
  - injection F as -> _. rewrite U. cbn [bind]. destruct (mongo_takes raw'); split; congruence.
  - specialize (IH F). destruct (update_first mongo_takes id sets unsets docs) as [r|]; cbn [bind]; rewrite <- IH; split; congruence.
Qed.
Lemma history_app l m : history_size (l ++ m) = history_size l + history_size m.
Proof. unfold history_size, write_diffs. rewrite map_app. apply fields_app. Qed.
Lemma find_one {A} (f : A -> bool) l x : filter f l = [x] -> find f (rev l) = Some x.
Proof.
  intro F. assert (Q : filter f (rev l) = rev (filter f l)). { clear F. induction l as [|y l IH]; [reflexivity|]. cbn [rev filter]. rewrite filter_app, IH. cbn [filter]. destruct (f y); [reflexivity|apply app_nil_r]. }
  assert (R : filter f (rev l) = [x]) by (rewrite Q, F; reflexivity). clear Q.
  clear F. induction (rev l) as [|y r IH]; [discriminate|]. cbn [filter find] in *. destruct (f y); [congruence|exact (IH R)].
Qed.
Theorem C99_change_exactly : forall (ss : list step) (docs : list dict) (id : pystr) (raw : dict) (m : mrec) (v : Z) (new : dict) (changes : value),
  read_run mongo_takes [] ss = Some docs -> filter (has_id id) docs = [raw] -> read_doc raw = Some m -> m_ver m = Some v -> ~ In (str_int v) (dkeys (m_diffs m)) ->
  diff new (m_data m) <> [] -> changes = write_changes (diff new (m_data m)) ->
  (read_step mongo_takes docs (SIngest None [(id, new)]) = None <->
   16777216 + bson_size (VDict (m_data m)) + bson_size (VInt v) <
     17 + bson_size (VDict raw) + bson_size (VDict new) + (if dmem raw (lit "diffs") then 0 else 12) + (2 + text_size (str_int v) + bson_size changes)).
Proof.
  intros ss docs id raw m v new changes E F R V Kv Hd ->. destruct (within_holds _ _ _ E) as (_ & c & _ & H & _). clear E.
  assert (Hr : exists d, holds raw d /\ d_id d = id).
  { clear - H F. induction H as [|raw' d docs c H _ IH]; [discriminate|]. cbn [filter] in F. destruct (has_id id raw') eqn:K; [|exact (IH F)]. injection F as -> _. exists d. split; [exact H|]. rewrite (holds_id _ _ id H) in K. apply str_eqb_eq, K. }
  destruct Hr as (d & Hh & Hid). rewrite (read_holds _ _ Hh) in R. injection R as <-. cbn [rec_of m_ver m_data m_diffs] in *.
  destruct (set_change raw d id new v (diff new (d_data d)) Hh Hid) as (raw' & U & Hh').
  assert (S : read_step mongo_takes docs (SIngest None [(id, new)]) = update_first mongo_takes id [(lit "data", VDict new); (lit "version", VNone); (diffs_field v, write_changes (diff new (d_data d)))] [] docs).
  { cbn [read_step]. unfold ingest_read. replace (partition [(id, new)] INGEST_SIZE) with [[(id, new)]] by reflexivity. cbn [read_loop]. unfold read_chunk. replace (by_id [(id, new)]) with [(id, new)] by reflexivity. cbn [forallb fst]. rewrite (find_one _ _ _ F). cbn [andb].
    cbn [read_ops fst]. unfold find_read. rewrite (find_one _ _ _ F), (read_holds _ _ Hh). cbn [bind read_op rec_of m_ver m_data]. rewrite V. cbn [rec_changes snd fst]. destruct (diff new (d_data d)) as [|o os] eqn:Ed; [congruence|]. cbn [isnil bind].
    change (Nat.div (List.length ([] ++ [change_one id new v (o :: os)])) INGEST_SIZE * INGEST_SIZE)%nat with 0%nat. cbn [firstn skipn apply_wops bind app]. unfold change_one. cbn [apply_wop]. destruct (update_first _ _ _ _ _); reflexivity. }
  rewrite S, (update_one _ _ _ _ _ _ F U). unfold mongo_takes, within. rewrite N.leb_gt. destruct (holds_size _ _ Hh') as [S1 D1]. destruct (holds_size _ _ Hh) as [S0 D0]. cbn [d_diffs d_id d_data d_ver] in S1, D1.
  assert (Kz : ~ In v (zkeys (d_diffs d))). { intro Q. apply Kv. unfold dkeys, write_diffs. rewrite map_map. cbn [fst]. apply in_map_iff in Q. destruct Q as ((w & os) & <- & Q). apply in_map_iff. exists (w, os). split; [reflexivity|exact Q]. }
  rewrite (zset_notin _ _ _ Kz) in S1, D1. assert (D : dmem raw' (lit "diffs") = true). { destruct (dmem raw' (lit "diffs")); [reflexivity|]. specialize (D1 eq_refl). apply app_eq_nil in D1. destruct D1 as [_ D1]. discriminate D1. }
  rewrite D, history_app, history_cons in S1. change (history_size []) with 0 in S1. unfold base_size in S0, S1. cbn [d_diffs d_id d_data d_ver version_size] in S0, S1. rewrite V in S0. cbn [version_size] in S0. unfold document_size, id_size in S0, S1. unfold document_size, id_size. rewrite S1. replace (bson_size (VInt v)) with (int_size v) by reflexivity. unfold SIZE_LIMIT.
  destruct (dmem raw (lit "diffs")); [lia|]. rewrite (D0 eq_refl) in *. change (history_size []) with 0. lia.
Qed.
Print Assumptions C99_change_exactly.

(** ** How often records without lists and dicts can be changed *)
Definition commits (ss : list step) : list Z := flat_map (fun s => match s with SCommit v => [v] | _ => [] end) ss.
(** The bytes of all fields, and those of the changes of a version, with [size] bytes for each value. *)
Definition sum_over (f : pystr -> N) (names : list pystr) : N := fold_right (fun k n => f k + n) 0 names.
Definition row_bytes (names : list pystr) (size : N) : N := sum_over (fun k => 2 + text_size k + size) names.
Definition change_bytes (names : list pystr) (size : N) : N := 77 + sum_over (fun k => 14 + text_size k + size) names.
(** Records with some of the fields, ids of at most [id_bytes] bytes and values of at most [size], none of them a list or dict. *)
Definition flat_step (names : list pystr) (size id_bytes : N) (s : step) : Prop :=
  match s with
  | SIngest _ recs => Forall (fun r => text_size (fst r) <= id_bytes /\ Forall (fun kv => In (fst kv) names /\ is_scalar (snd kv) = true /\ bson_size (snd kv) <= size) (snd r)) recs
  | SCommit v => (0 <= v < 2 ^ 63)%Z
  | SRollback => True
  end.
Theorem C99_flat_partial : forall (names : list pystr) (size id_bytes : N) (b : Z) (ss : list step),
  Forall (flat_step names size id_bytes) ss -> clock_increasing b ss -> Forall call_ok ss ->
  71 + id_bytes + row_bytes names size + count_of (commits ss) * change_bytes names size <= 16777216 ->
  exists docs, read_run mongo_takes [] ss = Some docs /\ forall id, kept docs id (a_run a_empty ss id).
Proof.
  intros names size idb b ss Hf Hc Hs Hl. destruct (C10_versioned_store b ss Hc Hs) as (c & E & V).
  assert (G : Forall (good_step (plain_rec names size idb) (plain_version (commits ss))) ss).
  { apply Forall_forall. intros s Is. rewrite Forall_forall in Hf, Hs. specialize (Hf s Is). specialize (Hs s Is). destruct s as [mf recs|v|]; cbn [good_step flat_step call_ok] in *; [|split; [|exact Hf]; unfold commits; apply in_flat_map; exists (SCommit v); split; [exact Is|left; reflexivity]|exact I].
    destruct Hs as [_ Hs]. rewrite Forall_forall in *. intros r Ir. destruct (Hf r Ir) as [F1 F2]. split; [exact F1|]. split; [|exact F2]. specialize (Hs r Ir). unfold wfd, wf in Hs. cbn [wfb] in Hs. apply andb_true_iff in Hs. apply nodupb_NoDup, Hs. }
  pose proof (run_plain names size idb (commits ss) SIZE_LIMIT Hl (N.le_refl _) ss G) as R. rewrite E in R. fold mongo_takes in R. destruct (read_run mongo_takes [] ss) as [docs|]; [|contradiction].
  exists docs. split; [reflexivity|]. intro id. exact (shows_kept _ _ _ _ _ R (V id)).
Qed.
Print Assumptions C99_flat_partial.

(** ** One change can be too large *)
(** The changes of each nested dict have their path with them. Here 260 dicts change under one long name: the data takes less than 70 KB, the changes
    more than 16 MiB. *)
Definition long_name : pystr := repeat 128512 (Nat.pow 2 14).
Definition under_long_name (b : bool) : dict := [(long_name, VDict (map (fun i => (str_int (Z.of_nat i), VDict [(lit "x", VBool b)])) (seq 0 260))); (lit "_id", VStr (lit "r"))].
Definition step_ok (docs : option (list dict)) : bool := match docs with Some _ => true | None => false end.
Theorem C99_one_change_refuted : exists (docs : list dict) (old new : dict),
  bson_size (VDict old) < 70000 /\ bson_size (VDict new) < 70000 /\
  (exists alone, read_run mongo_takes [] [SIngest None [(lit "r", new)]; SCommit 1] = Some alone) /\
  read_run mongo_takes [] [SIngest None [(lit "r", old)]; SCommit 1] = Some docs /\
  read_step mongo_takes docs (SIngest None [(lit "r", new)]) = None.
Proof.
  assert (B : step_ok (read_run mongo_takes [] [SIngest None [(lit "r", under_long_name true)]; SCommit 1]) && step_ok (read_run mongo_takes [] [SIngest None [(lit "r", under_long_name false)]; SCommit 1])
    && negb (step_ok (read_run mongo_takes [] [SIngest None [(lit "r", under_long_name false)]; SCommit 1; SIngest None [(lit "r", under_long_name true)]]))
    && (bson_size (VDict (under_long_name true)) <? 70000) && (bson_size (VDict (under_long_name false)) <? 70000) = true) by (vm_compute; reflexivity).
  apply andb_true_iff in B. destruct B as [B B5]. apply andb_true_iff in B. destruct B as [B B4]. apply andb_true_iff in B. destruct B as [B B3]. apply andb_true_iff in B. destruct B as [B1 B2].
  destruct (read_run mongo_takes [] [SIngest None [(lit "r", under_long_name true)]; SCommit 1]) as [alone|] eqn:E1; [|discriminate B1].
  change [SIngest None [(lit "r", under_long_name false)]; SCommit 1; SIngest None [(lit "r", under_long_name true)]] with ([SIngest None [(lit "r", under_long_name false)]; SCommit 1] ++ [SIngest None [(lit "r", under_long_name true)]]) in B3. rewrite read_run_app in B3.
  destruct (read_run mongo_takes [] [SIngest None [(lit "r", under_long_name false)]; SCommit 1]) as [docs|] eqn:E2; [|discriminate B2].
  exists docs, (under_long_name false), (under_long_name true). apply N.ltb_lt in B4, B5. split; [exact B5|]. split; [exact B4|]. split; [exists alone; exact E1|]. split; [exact E2|].
  cbn [bind read_run] in B3. destruct (read_step mongo_takes docs (SIngest None [(lit "r", under_long_name true)])); [discriminate B3|reflexivity].
Qed.
Print Assumptions C99_one_change_refuted.

(** ** The hypotheses can be met *)
(** 10000 changes of a record with fields of 30 bytes. *)
Example C99_flat_example : let names := [lit "x"; lit "_id"] in 71 + 10 + row_bytes names 30 + 10000 * change_bytes names 30 <= 16777216 /\
  Forall (flat_step names 30 10) (toggles 3 true 5) /\ clock_increasing 0 (toggles 3 true 5) /\ Forall call_ok (toggles 3 true 5) /\ count_of (commits (toggles 3 true 5)) = 3.
Proof.
  cbv zeta. split; [vm_compute; discriminate|]. split; [|split; [apply toggles_clock; lia|split; [|reflexivity]]].
  - cbn [toggles negb]. repeat (apply Forall_cons || apply Forall_nil); cbn [flat_step]; try lia; (split; [vm_compute; discriminate|]); (apply Forall_cons; [split; [left; reflexivity|split; [reflexivity|vm_compute; discriminate]]|]);
      (apply Forall_cons; [split; [right; left; reflexivity|split; [reflexivity|vm_compute; discriminate]]|apply Forall_nil]).
  - cbn [toggles]. repeat (apply Forall_cons || apply Forall_nil); try exact I; apply toggle_ok.
Qed.
(** A record that was changed once and is committed can be changed again: the formula of [C99_change_exactly] with its numbers. *)
Example C99_change_example : exists docs raw m, let ss := toggles 2 true 5 in
  read_run mongo_takes [] ss = Some docs /\ filter (has_id (lit "r")) docs = [raw] /\ read_doc raw = Some m /\ m_ver m = Some 6%Z /\ ~ In (str_int 6) (dkeys (m_diffs m)) /\
  diff (toggle true) (m_data m) <> [] /\ dmem raw (lit "diffs") = true /\ document_size raw = 128 /\ bson_size (write_changes (diff (toggle true) (m_data m))) = 42 /\
  read_step mongo_takes docs (SIngest None [(lit "r", toggle true)]) <> None.
Proof. eexists. eexists. eexists. cbv zeta. split; [vm_compute; reflexivity|]. split; [vm_compute; reflexivity|]. split; [vm_compute; reflexivity|]. split; [reflexivity|]. split; [vm_compute; intros [Q|[]]; discriminate Q|]. split; [vm_compute; discriminate|]. split; [reflexivity|]. split; [vm_compute; reflexivity|]. split; [vm_compute; reflexivity|]. vm_compute. discriminate. Qed.
