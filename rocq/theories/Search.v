(** Term iteration (utils.py:76-123) and the queries built by search.py:35-233, with what they select. *)
From Coq Require Import String Ascii.
From Coq Require Import List ZArith NArith Bool Lia Sorted.
From Coq Require Import Floats.SpecFloat.
From Verif Require Import PyVal Time TimeParse Parser ParserProofs ParserTypes ParserOrder Index Sync.
Import ListNotations.
Open Scope string_scope.
Open Scope list_scope.
Open Scope nat_scope.

(** ** iter_terms *)
Section Terms.
(** [K]: the values of the field, [ltb] the order Elasticsearch sorts its buckets in. *)
Context {K : Type} (ltb : K -> K -> bool).
(** proof device *)
Definition eqk (x y : K) : bool := negb (ltb x y) && negb (ltb y x).
(** the buckets of a composite aggregation are sorted (utils.py:105-110) *)
Fixpoint bins (x : K) (l : list K) : list K :=
  match l with
  | [] => [x]
  | y :: r => if ltb x y then x :: l else if ltb y x then y :: bins x r else l
  end.
(** the buckets of an aggregation over documents, each given by its values of the field: every value once,
    in order, with the number of documents that have it *)
Definition buckets (docs : list (list K)) : list (K * nat) :=
  map (fun v => (v, length (filter (existsb (eqk v)) docs))) (fold_right bins [] (concat docs)).
(** A composite aggregation with one source (utils.py:105-112): the first [size] buckets after the key
    [after], and the key of the last one ([after_key] is missing when there are no buckets). *)
Definition composite (size : nat) (after : option K) (docs : list (list K)) : list (K * nat) * option K :=
  let page := firstn size (filter (fun b => match after with None => true | Some a => ltb a (fst b) end) (buckets docs)) in
  (page, match rev page with b :: _ => Some (fst b) | [] => None end).
(** utils.py:88-123 [iter_terms]: the loop from line 100 on, at most [fuel] rounds ([None]: more are
    needed). The searched documents are taken not to change during the iteration. *)
Fixpoint iter_loop (fuel : nat) (docs : list (list K)) (chunk_size : nat) (after : option K) : option (list (K * nat)) :=
  match fuel with
  | O => None
  | S n =>
      let (page, after') := composite chunk_size after docs in
      match page with
      | [] => Some []
      | _ => option_map (app page) (iter_loop n docs chunk_size after')
      end
  end.
(** utils.py:88-123 [iter_terms] *)
Definition iter_terms (fuel : nat) (docs : list (list K)) (chunk_size : nat) := iter_loop fuel docs chunk_size None.

Hypothesis lt_irrefl : forall x, ltb x x = false.
Hypothesis lt_trans : forall x y z, ltb x y = true -> ltb y z = true -> ltb x z = true.
Hypothesis lt_total : forall x y, ltb x y = false -> ltb y x = false -> x = y.

(** the order as a proposition; specification *)
Definition klt (x y : K) : Prop := ltb x y = true.
Lemma eqk_eq x y : eqk x y = true <-> x = y.
Proof.
  unfold eqk. rewrite andb_true_iff, !negb_true_iff. split; [intros [A B]; apply lt_total; assumption|intros ->; auto].
Qed.
Lemma bins_In x l y : In y (bins x l) <-> y = x \/ In y l.
Proof.
  induction l as [|z l IH]; cbn [bins In]; [intuition|]. destruct (ltb x z) eqn:E1; [cbn [In]; intuition|]. destruct (ltb z x) eqn:E2; cbn [In]; [rewrite IH; intuition|].
  rewrite (lt_total _ _ E1 E2). intuition.
Qed.
Lemma bins_sorted x l : StronglySorted klt l -> StronglySorted klt (bins x l).
Proof.
  induction 1 as [|z l Hs IH Hf]; cbn [bins]; [repeat constructor|]. destruct (ltb x z) eqn:E1.
  - constructor; [constructor; assumption|]. constructor; [exact E1|]. eapply Forall_impl; [|exact Hf]. intros y Hy. exact (lt_trans _ _ _ E1 Hy).
  - destruct (ltb z x) eqn:E2; constructor; auto. rewrite Forall_forall in *. intros y Hy. apply bins_In in Hy. destruct Hy as [->|Hy]; [exact E2|apply Hf, Hy].
Qed.
Lemma keys_In (l : list K) y : In y (fold_right bins [] l) <-> In y l.
Proof. induction l as [|x l IH]; cbn [fold_right]; [tauto|]. rewrite bins_In, IH. cbn [In]. intuition. Qed.
Lemma keys_sorted (l : list K) : StronglySorted klt (fold_right bins [] l).
Proof. induction l as [|x l IH]; cbn [fold_right]; [constructor|apply bins_sorted, IH]. Qed.
Lemma buckets_keys docs : map fst (buckets docs) = fold_right bins [] (concat docs).
Proof. unfold buckets. rewrite map_map. cbn [fst]. apply map_id. Qed.

Lemma after_none (b : K * nat) (bs : list (K * nat)) : Forall (fun y => klt (fst y) (fst b)) bs -> filter (fun y => ltb (fst b) (fst y)) bs = [].
Proof.
  induction 1 as [|y bs Hy _ IH]; [reflexivity|]. cbn [filter]. destruct (ltb (fst b) (fst y)) eqn:E; [|exact IH].
  exfalso. pose proof (lt_trans _ _ _ E Hy) as Q. rewrite lt_irrefl in Q. discriminate.
Qed.
Lemma after_all (b : K * nat) (bs : list (K * nat)) : Forall (fun y => klt (fst b) (fst y)) bs -> filter (fun y => ltb (fst b) (fst y)) bs = bs.
Proof. induction 1 as [|y bs Hy _ IH]; [reflexivity|]. cbn [filter]. rewrite Hy, IH. reflexivity. Qed.
Lemma sorted_mid (a : list (K * nat)) b c : StronglySorted klt (map fst (a ++ b :: c)) -> Forall (fun y => klt (fst y) (fst b)) a /\ Forall (fun y => klt (fst b) (fst y)) c.
Proof.
  induction a as [|x a IH]; cbn [app map]; intro H; apply StronglySorted_inv in H; destruct H as [H1 H2].
  - split; [constructor|]. rewrite Forall_map in H2. exact H2.
  - destruct (IH H1) as [A B]. split; [|exact B]. constructor; [|exact A]. rewrite Forall_forall in H2. apply H2. rewrite map_app. apply in_elt.
Qed.
(** The loop, from the point where [done] has been yielded. *)
Lemma loop_rest docs size fuel : 1 <= size -> forall done rest after, buckets docs = done ++ rest ->
  match rev done with [] => after = None | b :: _ => after = Some (fst b) end ->
  length rest < fuel -> iter_loop fuel docs size after = Some rest.
Proof.
  intro Hs. induction fuel as [|n IH]; intros done rest after E Ha Hl; [lia|]. cbn [iter_loop]. unfold composite.
  assert (Ss : StronglySorted klt (map fst (buckets docs))) by (rewrite buckets_keys; apply keys_sorted).
  assert (Ef : filter (fun b => match after with None => true | Some a => ltb a (fst b) end) (buckets docs) = rest).
  { rewrite E in *. destruct (rev done) as [|b done'] eqn:Er.
    - apply (f_equal (@rev _)) in Er. rewrite rev_involutive in Er. subst done after. cbn [app rev]. clear. induction rest as [|x r IH]; cbn [filter]; [reflexivity|]. rewrite IH. reflexivity.
    - apply (f_equal (@rev _)) in Er. rewrite rev_involutive in Er. cbn [rev] in Er. subst done after. rewrite <- app_assoc in *. cbn [app] in *. apply sorted_mid in Ss. destruct Ss as [A B].
      rewrite filter_app. cbn [filter]. rewrite lt_irrefl, (after_none b _ A), (after_all b _ B). reflexivity. }
  rewrite Ef. destruct rest as [|x rest']; [rewrite firstn_nil; reflexivity|]. destruct size as [|s]; [lia|].
  pose proof (firstn_skipn (S s) (x :: rest')) as Hfs. remember (firstn (S s) (x :: rest')) as page eqn:Ep. destruct page as [|y page]; [discriminate|].
  rewrite (IH (done ++ y :: page) (skipn (S s) (x :: rest'))).
  - cbn [option_map]. rewrite Hfs. reflexivity.
  - rewrite <- app_assoc, Hfs. exact E.
  - rewrite rev_app_distr. cbn [rev]. destruct (rev page ++ [y]) as [|z w] eqn:Ez; [destruct (app_cons_not_nil _ _ _ (eq_sym Ez))|]. cbn [app]. reflexivity.
  - rewrite skipn_length. cbn [length] in *. lia.
Qed.
Lemma iter_terms_buckets docs size fuel : 1 <= size -> length (buckets docs) < fuel -> iter_terms fuel docs size = Some (buckets docs).
Proof. intros Hs Hf. apply (loop_rest docs size fuel Hs []); [reflexivity|reflexivity|exact Hf]. Qed.
Lemma buckets_spec docs v c : In (v, c) (buckets docs) <-> In v (concat docs) /\ c = length (filter (existsb (eqk v)) docs).
Proof.
  unfold buckets. rewrite in_map_iff. split.
  - intros (w & E & Hw). injection E as -> <-. rewrite keys_In in Hw. auto.
  - intros [H ->]. exists v. split; [reflexivity|]. apply keys_In, H.
Qed.
End Terms.

(** ** Queries *)
(** A value given to term_query or range_query; [QOther]: of a type that is not allowed. (search.py:120-166, 186-234) *)
Inductive qval := QStr (s : pystr) | QBool (b : bool) | QInt (z : Z) | QFloat (f : spec_float) | QDate (d : pydate) | QDatetime (t : datetime) | QOther.
(** elasticsearch_dsl queries; [QBoolQ filter should minimum_should_match] (0 for the default) (search.py:35-234) *)
Inductive query :=
| QTerm (path : pystr) (v : qval)
| QTerms (path : pystr) (vs : list qval)
| QRange (path : pystr) (inner : list (pystr * qval))
| QExists (path : pystr)
| QBoolQ (filters should : list query) (minimum : nat).

(** indexing/fields.py:84-107 [parsed_path] *)
Definition parsed_path (field : pystr) (ty : option pystr) (full : bool) : pystr :=
  let path := match ty with Some t => dotted field t | None => field end in
  if full then dotted (lit "data") path else path.
(** search.py:46-55 [version_query] *)
Definition version_query (v : Z) : query := QTerm (lit "versions") (QInt v).
(** search.py:73-76: the dict flipped, [by_version[version].append(index)] *)
Fixpoint group_add (v : Z) (i : pystr) (m : list (Z * list pystr)) : list (Z * list pystr) :=
  match m with
  | [] => [(v, [i])]
  | (w, is) :: r => if Z.eqb v w then (w, is ++ [i]) :: r else (w, is) :: group_add v i r
  end.
(** search.py:73-76 *)
Definition by_version (m : list (pystr * Z)) : list (Z * list pystr) := fold_left (fun acc iv => group_add (snd iv) (fst iv) acc) m [].
(** search.py:85-96: the query of one group *)
Definition group_query (g : Z * list pystr) : query :=
  QBoolQ [match snd g with [i] => QTerm (lit "_index") (QStr i) | _ => QTerms (lit "_index") (map QStr (snd g)) end; version_query (fst g)] [] 0.
(** search.py:58-97 [index_specific_version_filter] *)
Definition index_specific_version_filter (m : list (pystr * Z)) : query :=
  match by_version m with
  | [(v, _)] => version_query v
  | groups => QBoolQ [] (map group_query groups) 1
  end.
(** search.py:100-117 *)
Definition has_geo : query := QExists (lit "all_points").
(** search.py:110-117 [exists_query] *)
Definition exists_query (field : pystr) : query := QExists (parsed_path field None true).
(** search.py:120-140 [infer_parsed_type]; [None]: ValueError *)
Definition infer_parsed_type (q : qval) : option pystr :=
  match q with
  | QStr _ => Some pt_k
  | QBool _ => Some pt_b
  | QInt _ | QFloat _ => Some pt_n
  | QDate _ | QDatetime _ => Some pt_d
  | QOther => None
  end.
Section Local.
(** [local t]: the offset (microseconds) of the machine's timezone at the naive moment [t] (utils.py:12-29) *)
Variable local : datetime -> Z.
(** search.py:186-234 *)
Definition stamp (q : qval) : qval :=
  match q with
  | QDate d => QInt (to_timestamp (local (midnight d)) (midnight d))
  | QDatetime t => QInt (to_timestamp (local t) t)
  | _ => q
  end.
(** search.py:143-165 [term_query] *)
Definition term_query (field : pystr) (q : qval) (ty : option pystr) : option query :=
  match (match ty with Some t => Some t | None => infer_parsed_type q end) with
  | None => None
  | Some t => Some (QTerm (parsed_path field (Some t) true) (if str_eqb t pt_d then stamp q else q))
  end.
(** search.py:35-43 [id_query] *)
Definition id_query (id : pystr) : option query := term_query (lit "_id") (QStr id) (Some pt_k).
(** search.py:212-221 *)
Definition range_bounds (gte lt gt lte : option qval) : list (pystr * qval) :=
  flat_map (fun kv => match snd kv with Some q => [(fst kv, q)] | None => [] end)
    [(lit "gte", gte); (lit "lt", lt); (lit "gt", gt); (lit "lte", lte)].
(** search.py:186-233 [range_query]; [None]: ValueError *)
Definition range_query (field : pystr) (gte lt gt lte : option qval) (ty : option pystr) (kwargs : list (pystr * qval)) : option query :=
  match range_bounds gte lt gt lte with
  | [] => None
  | (_, first) :: _ =>
      match (match ty with Some t => Some t | None => infer_parsed_type first end) with
      | None => None
      | Some t => Some (QRange (parsed_path field (Some t) true)
                          (dupdate (map (fun kv => (fst kv, stamp (snd kv))) (range_bounds gte lt gt lte)) kwargs))
      end
  end.
End Local.

(** ** What a query selects *)
(** A document of an index. *)
Definition hit : Type := pystr * esdoc parsed_data.
(** the values inside lists (at any depth) (specification, models no code) *)
Fixpoint leaves (v : value) : list value := match v with VList l => flat_map leaves l | _ => [v] end.
(** the values of a field Elasticsearch sees: neither objects nor lists (specification, models no code) *)
Definition scalars (vs : list value) : list value := filter (fun x => match x with VDict _ | VList _ => false | _ => true end) vs.
(** The values of a field: objects are entered by name, lists are transparent. (specification, models no code) *)
Fixpoint values_at (p : list pystr) (v : value) : list value :=
  match p with
  | [] => scalars (leaves v)
  | k :: p' => flat_map (fun x => match x with VDict d => match dget d k with Some w => values_at p' w | None => [] end | _ => [] end) (leaves v)
  end.
(** indexing/index.py:157-175: the document, as far as the parsed data is concerned *)
Definition source (d : esdoc parsed_data) : value := VDict [(lit "data", VDict (p_parsed (e_parsed d)))].

Section Select.
(** [norm]: the normalizer of keyword fields (templates.py:62-70, 183-192) *)
Variable norm : pystr -> pystr.
(** proof device *)
Definition sf_eq_dec (a b : spec_float) : {a = b} + {a <> b}.
Proof. repeat decide equality. Defined.
(** double fields (templates.py:193-199): JSON integers are rounded to doubles *)
Definition double_of (v : value) : option spec_float :=
  match v with VInt z => Some (binary_normalize 53 1024 z 0 false) | VFloat f => Some f | _ => None end.
(** search.py:143-165: the value a query is given, as a stored value *)
Definition qvalue (q : qval) : value :=
  match q with QStr s => VStr s | QBool b => VBool b | QInt z => VInt z | QFloat f => VFloat f | _ => VNone end.
(** Does a term query for [q] on a field of type [t] match the value [y]? Text and geographic fields are
    not modelled. (search.py:143-166) *)
Definition term_match (t : pystr) (q : qval) (y : value) : bool :=
  if str_eqb t pt_k then match q, y with QStr s, VStr s' => str_eqb (norm s) (norm s') | _, _ => false end
  else if str_eqb t pt_b then match q, y with QBool b, VBool c => Bool.eqb b c | _, _ => false end
  else if str_eqb t pt_n then match double_of (qvalue q), double_of y with Some a, Some b => if sf_eq_dec a b then true else false | _, _ => false end
  else if str_eqb t pt_d then match q, y with QInt a, VInt b => Z.eqb a b | _, _ => false end
  else false.
(** strings are compared by code point (search.py:186-234) *)
Fixpoint str_compare (a b : pystr) : comparison :=
  match a, b with
  | [], [] => Eq | [], _ => Lt | _, [] => Gt
  | x :: a', y :: b' => match N.compare x y with Eq => str_compare a' b' | c => c end
  end.
(** doubles: by value, with -0.0 below 0.0 (Lucene's order) (search.py:186-234) *)
Definition double_compare (a b : spec_float) : option comparison :=
  match a, b with S754_zero s, S754_zero s' => Some (if Bool.eqb s s' then Eq else if s then Lt else Gt) | _, _ => SFcompare a b end.
(** booleans: false before true (search.py:186-234) *)
Definition compare_to (t : pystr) (y : value) (q : qval) : option comparison :=
  if str_eqb t pt_k then match q, y with QStr s, VStr s' => Some (str_compare (norm s') (norm s)) | _, _ => None end
  else if str_eqb t pt_n then match double_of y, double_of (qvalue q) with Some a, Some b => double_compare a b | _, _ => None end
  else if str_eqb t pt_d then match q, y with QInt a, VInt b => Some (Z.compare b a) | _, _ => None end
  else if str_eqb t pt_b then match q, y with QBool a, VBool b => Some (if Bool.eqb a b then Eq else if a then Lt else Gt) | _, _ => None end
  else None.
(** One bound of a range query; other options than the four bounds are taken not to change the selection. (search.py:186-234) *)
Definition bound_match (t : pystr) (kv : pystr * qval) (y : value) : bool :=
  if str_eqb (fst kv) (lit "gte") then match compare_to t y (snd kv) with Some Gt | Some Eq => true | _ => false end
  else if str_eqb (fst kv) (lit "gt") then match compare_to t y (snd kv) with Some Gt => true | _ => false end
  else if str_eqb (fst kv) (lit "lte") then match compare_to t y (snd kv) with Some Lt | Some Eq => true | _ => false end
  else if str_eqb (fst kv) (lit "lt") then match compare_to t y (snd kv) with Some Lt => true | _ => false end
  else true.
(** a range query (search.py:186-233) on one value of the field *)
Definition range_match (t : pystr) (inner : list (pystr * qval)) (y : value) : bool := forallb (fun kv => bound_match t kv y) inner.
(** the range field versions (indexing/index.py:157-175, search.py:46-55) *)
Definition in_versions (d : esdoc parsed_data) (v : Z) : bool := (e_ver d <=? v)%Z && match e_end d with Some w => (v <? w)%Z | None => true end.
(** a term query (search.py:143-165) on a document *)
Definition term_hit (h : hit) (path : pystr) (q : qval) : bool :=
  if str_eqb path (lit "_index") then match q with QStr i => str_eqb i (fst h) | _ => false end
  else if str_eqb path (lit "versions") then match q with QInt v => in_versions (snd h) v | _ => false end
  else existsb (term_match (last (split path) []) q) (values_at (split path) (source (snd h))).
(** Is the document selected? Range fields contain a point (versions: [gte <= v < lt]), the other fields
    need a value that matches; "_index" is the name of the index. exists queries need the mappings and are
    not modelled ([false]). *)
Fixpoint hits (q : query) (h : hit) : bool :=
  match q with
  | QTerm path v => term_hit h path v
  | QTerms path vs => existsb (term_hit h path) vs
  | QRange path inner => existsb (range_match (last (split path) []) inner) (values_at (split path) (source (snd h)))
  | QExists _ => false
  | QBoolQ fs ss n => forallb (fun q => hits q h) fs && (n <=? length (filter (fun q => hits q h) ss))
  end.
End Select.

(** ** The index filter *)
Lemma group_add_spec v i m : NoDup (map fst m) -> NoDup (map fst (group_add v i m)) /\
  forall w j, (exists is, In (w, is) (group_add v i m) /\ In j is) <-> (w = v /\ j = i) \/ exists is, In (w, is) m /\ In j is.
Proof.
  induction m as [|[w0 is0] m IH]; intro Hn; cbn [group_add].
  - split; [constructor; [intros []|constructor]|]. intros w j. split.
    + intros (is & [E|[]] & H). injection E as <- <-. destruct H as [<-|[]]. left; auto.
    + intros [[-> ->]|(is & [] & _)]. exists [i]. cbn. auto.
  - inversion Hn as [|? ? N1 N2]; subst. destruct (Z.eqb_spec v w0) as [->|Ne].
    + split; [exact Hn|]. intros w j. split.
      * intros (is & [E|H] & Hj); [injection E as <- <-; apply in_app_iff in Hj; destruct Hj as [Hj|[<-|[]]]; [right; exists is0; split; [left; reflexivity|exact Hj]|left; auto]|right; exists is; split; [right; exact H|exact Hj]].
      * intros [[-> ->]|(is & [E|H] & Hj)].
        -- exists (is0 ++ [i]). split; [left; reflexivity|apply in_app_iff; right; left; reflexivity].
        -- injection E as <- <-. exists (is0 ++ [i]). split; [left; reflexivity|apply in_app_iff; left; exact Hj].
        -- exists is. split; [right; exact H|exact Hj].
    + destruct (IH N2) as [A B]. split.
      * cbn [map fst]. constructor; [|exact A]. intro K. apply N1. clear - K Ne. induction m as [|[w1 is1] m IH]; cbn [group_add map fst] in *; [destruct K as [K|[]]; congruence|].
        destruct (Z.eqb_spec v w1); cbn [map fst] in K; destruct K as [K|K]; [left; exact K|right; exact K|left; exact K|right; apply IH; exact K].
      * intros w j. split.
        -- intros (is & [E|H] & Hj); [right; exists is; split; [left; exact E|exact Hj]|]. destruct (proj1 (B w j) (ex_intro _ is (conj H Hj))) as [Q|(is' & Q1 & Q2)]; [left; exact Q|right; exists is'; split; [right; exact Q1|exact Q2]].
        -- intros [Q|(is & [E|H] & Hj)].
           ++ destruct (proj2 (B w j) (or_introl Q)) as (is & Q1 & Q2). exists is. split; [right; exact Q1|exact Q2].
           ++ exists is. split; [left; exact E|exact Hj].
           ++ destruct (proj2 (B w j) (or_intror (ex_intro _ is (conj H Hj)))) as (is' & Q1 & Q2). exists is'. split; [right; exact Q1|exact Q2].
Qed.
Lemma group_add_nonempty v i m : Forall (fun g => snd g <> []) m -> Forall (fun g => snd g <> []) (group_add v i m).
Proof.
  induction 1 as [|[w is] m H1 H2 IH]; cbn [group_add]; [constructor; [discriminate|constructor]|]. destruct (Z.eqb v w); constructor; auto. cbn. intro E. destruct (app_cons_not_nil _ _ _ (eq_sym E)).
Qed.
Lemma by_version_spec m : NoDup (map fst (by_version m)) /\ Forall (fun g => snd g <> []) (by_version m) /\
  forall w j, (exists is, In (w, is) (by_version m) /\ In j is) <-> In (j, w) m.
Proof.
  unfold by_version. cut (forall acc, NoDup (map fst acc) -> Forall (fun g => snd g <> []) acc -> let r := fold_left (fun acc iv => group_add (snd iv) (fst iv) acc) m acc in
    NoDup (map fst r) /\ Forall (fun g => snd g <> []) r /\ forall w j, (exists is, In (w, is) r /\ In j is) <-> (exists is, In (w, is) acc /\ In j is) \/ In (j, w) m).
  { intro H. destruct (H [] (NoDup_nil _) (Forall_nil _)) as (A & B & C). split; [exact A|]. split; [exact B|]. intros w j. rewrite C. split; [intros [(is & [] & _)|Q]; exact Q|auto]. }
  induction m as [|[i v] m IH]; intros acc Hn He; cbn [fold_left fst snd].
  - split; [exact Hn|]. split; [exact He|]. intros w j. cbn [In]. tauto.
  - destruct (group_add_spec v i acc Hn) as [A B]. destruct (IH _ A (group_add_nonempty v i acc He)) as (C & D & E). split; [exact C|]. split; [exact D|]. intros w j. rewrite E, B. cbn [In].
    split; [intros [[[-> ->]|Q]|Q]; auto|intros [Q|[Q|Q]]; auto]. injection Q as -> ->. auto.
Qed.

Lemma in_terms norm h is : existsb (term_hit norm h (lit "_index")) (map QStr is) = true <-> In (fst h) is.
Proof.
  rewrite existsb_exists. split.
  - intros (q & Hq & H). apply in_map_iff in Hq. destruct Hq as (i & <- & Hi). cbn in H. apply str_eqb_eq in H. congruence.
  - intro H. exists (QStr (fst h)). split; [apply in_map, H|]. cbn. apply str_eqb_refl.
Qed.
Lemma hits_group norm h (g : Z * list pystr) :
  hits norm (group_query g) h = true
  <-> In (fst h) (snd g) /\ in_versions (snd h) (fst g) = true.
Proof.
  unfold group_query. cbn [hits forallb filter length Nat.leb]. rewrite !andb_true_r, andb_true_iff.
  assert (E : hits norm (match snd g with [i] => QTerm (lit "_index") (QStr i) | _ => QTerms (lit "_index") (map QStr (snd g)) end) h = true <-> In (fst h) (snd g)).
  { rewrite <- (in_terms norm h (snd g)). destruct (snd g) as [|i [|j r]]; try reflexivity. cbn [hits map existsb]. rewrite orb_false_r. reflexivity. }
  rewrite E. reflexivity.
Qed.
Lemma index_filter norm m h : NoDup (map fst m) -> forall v, In (fst h, v) m -> hits norm (index_specific_version_filter m) h = in_versions (snd h) v.
Proof.
  intros Hn v Hv. destruct (by_version_spec m) as (A & B & C). unfold index_specific_version_filter. pose proof (proj2 (C v (fst h)) Hv) as (is & G1 & G2).
  assert (Gen : hits norm (QBoolQ [] (map group_query (by_version m)) 1) h = in_versions (snd h) v).
  { cbn [hits forallb andb]. apply eq_true_iff_eq. rewrite Nat.leb_le. split.
    - intro L. destruct (filter _ _) as [|q r] eqn:Ef; [cbn in L; lia|]. assert (Hq : In q (q :: r)) by (left; reflexivity). rewrite <- Ef in Hq. apply filter_In in Hq. destruct Hq as [H1 H2]. apply in_map_iff in H1. destruct H1 as (g & <- & Hg).
      apply hits_group in H2. destruct H2 as [H2 H3]. destruct g as [w js]. cbn [fst snd] in *. assert (Q : In (fst h, w) m) by (apply C; exists js; auto).
      replace v with w; [exact H3|]. pose proof (In_dget _ _ _ Hn Q) as E1. pose proof (In_dget _ _ _ Hn Hv) as E2. congruence.
    - intro L. assert (Q : In (group_query (v, is))
        (filter (fun q => hits norm q h) (map group_query (by_version m)))).
      { apply filter_In. split; [apply in_map_iff; exists (v, is); split; [reflexivity|exact G1]|]. apply (hits_group norm h (v, is)). auto. }
      destruct (filter _ _); [destruct Q|cbn [length]; lia]. }
  destruct (by_version m) as [|[w js] [|g r]] eqn:E; [destruct G1| |exact Gen]. destruct G1 as [G1|[]]. injection G1 as -> ->. reflexivity.
Qed.
Lemma index_filter_other norm m h : (exists i j v w, In (i, v) m /\ In (j, w) m /\ v <> w) -> ~ In (fst h) (map fst m) -> hits norm (index_specific_version_filter m) h = false.
Proof.
  intros (i & j & v & w & H1 & H2 & N) Ho. destruct (by_version_spec m) as (A & B & C). unfold index_specific_version_filter.
  apply C in H1, H2. destruct H1 as (is & I1 & _), H2 as (js & I2 & _).
  assert (Gen : hits norm (QBoolQ [] (map group_query (by_version m)) 1) h = false).
  { cbn [hits forallb andb]. apply Nat.leb_gt. destruct (filter _ _) as [|q r] eqn:Ef; [cbn; lia|]. exfalso. assert (Hq : In q (q :: r)) by (left; reflexivity). rewrite <- Ef in Hq. apply filter_In in Hq. destruct Hq as [K1 K2]. apply in_map_iff in K1. destruct K1 as ([u ks] & <- & Hg).
    apply hits_group in K2. destruct K2 as [K2 _]. apply Ho. apply in_map_iff. exists (fst h, u). split; [reflexivity|]. apply C. exists ks. auto. }
  destruct (by_version m) as [|[w0 js0] [|g r]]; [destruct I1| |exact Gen]. exfalso. destruct I1 as [I1|[]], I2 as [I2|[]]. congruence.
Qed.

(** ** The values of a field in a parsed record *)
Section Parsed.
Variable L : lib.
Variable o : options.
(** what a value of the data puts into the sub-field [t] (specification, models no code) *)
Definition sub (t : pystr) (x : value) : list value :=
  match x with
  | VNone | VStr [] | VList _ | VDict _ => []
  | _ => match dget (parse_value L o x) t with Some y => [y] | None => [] end
  end.
(** proof device: the sub-fields that can be queried *)
Definition ok_type (t : pystr) : Prop := In t [pt_k; pt_t; pt_b; pt_n; pt_d].
Lemma ok_type_geo t : ok_type t -> t <> pt_gp /\ t <> pt_gs.
Proof. intros [<-|[<-|[<-|[<-|[<-|[]]]]]]; split; discriminate. Qed.
Lemma ok_parsed t : ok_type t -> parsed_type t.
Proof. unfold ok_type, parsed_type. cbn [In]. tauto. Qed.
Lemma sub_scalar t x y : ok_type t -> dget (parse_value L o x) t = Some y -> scalars (leaves y) = [y].
Proof.
  intros Ht E. unfold parse_value in E. apply dget_In in E.
  assert (S : forall a, In (t, y) (opt_dict pt_b VBool a) -> scalars (leaves y) = [y]).
  { intros [b|] H; cbn in H; [destruct H as [H|[]]; injection H as _ <-; reflexivity|destruct H]. }
  assert (S2 : forall a, In (t, y) (opt_dict pt_d VInt a) -> scalars (leaves y) = [y]).
  { intros [b|] H; cbn in H; [destruct H as [H|[]]; injection H as _ <-; reflexivity|destruct H]. }
  cbn [app In] in E. destruct E as [E|[E|[E|E]]].
  - injection E as <- _. destruct Ht as [Q|[Q|[Q|[Q|[Q|[]]]]]]; discriminate Q.
  - injection E as _ <-. reflexivity.
  - injection E as _ <-. reflexivity.
  - rewrite !in_app_iff in E. destruct E as [E|[E|[E|E]]]; [|exact (S _ E)| |exact (S2 _ E)].
    + destruct (l_wkt L _) as [g|]; [|destruct E]. cbn in E. destruct E as [E|[E|[]]]; injection E as _ <-; reflexivity.
    + unfold number_of in E. destruct x; cbn [opt_dict In] in E; try (destruct (l_try_float L _) as [f|]; cbn [opt_dict In] in E); try (destruct E as [E|[]]); try (destruct E; fail); injection E as _ <-; reflexivity.
Qed.
(** values_at only looks at the first key of the path *)
Lemma values_dict k p d : values_at (k :: p) (VDict d) = match dget d k with Some w => values_at p w | None => [] end.
Proof. cbn [values_at leaves flat_map]. apply app_nil_r. Qed.
Lemma values_list p l : values_at p (VList l) = flat_map (values_at p) l.
Proof.
  assert (F : forall (f : value -> list value) (a b : list value), flat_map f (a ++ b) = flat_map f a ++ flat_map f b) by (intros; apply flat_map_app).
  induction l as [|x l IH]; [destruct p; reflexivity|]. cbn [flat_map]. rewrite <- IH. destruct p as [|k p].
  - cbn [values_at leaves flat_map]. unfold scalars. apply filter_app.
  - cbn [values_at leaves flat_map]. apply F.
Qed.
Lemma values_none p : p <> [] -> values_at p VNone = []. Proof. destruct p; [contradiction|reflexivity]. Qed.
Lemma sub_flat t a b : flat_map (sub t) (a ++ b) = flat_map (sub t) a ++ flat_map (sub t) b.
Proof. apply flat_map_app. Qed.
Lemma set_parts_get parts : forall (acc : dict) k, NoDup (map fst parts) ->
  dget (fold_left set_part parts acc) k = match dget parts k with Some (Some p, _, _) => Some p | _ => dget acc k end.
Proof.
  induction parts as [|[k0 [[q dts] pts]] parts IH]; intros acc k Hn; [reflexivity|]. cbn [fold_left map fst] in *. inversion Hn as [|? ? N1 N2]; subst. rewrite IH by exact N2. cbn [dget set_part].
  destruct (str_eqb k k0) eqn:E.
  - apply str_eqb_eq in E. subst k0. assert (Q : dget parts k = None) by (apply dget_None; exact N1). rewrite Q. destruct q as [p|]; [rewrite dget_dset, str_eqb_refl; reflexivity|reflexivity].
  - destruct (dget parts k) as [[[[p|] d1] p1]|]; [reflexivity| |]; (destruct q as [p|]; [rewrite dget_dset, E; reflexivity|reflexivity]).
Qed.
(** hints change geographic sub-fields only *)
Lemma add_hints_dget ms : forall parsed parsed', add_hints parsed ms = Some parsed' -> forall k,
  dget parsed' k = dget parsed k \/ exists p p', dget parsed k = Some (VDict p) /\ dget parsed' k = Some (VDict p') /\ forall t, t <> pt_gp -> t <> pt_gs -> dget p' t = dget p t.
Proof.
  intros parsed parsed' H k. destruct (dget parsed k) as [w|] eqn:E.
  - destruct w as [|b|z|f|s|l|p]; try (left; revert parsed H E; induction ms as [|[k0 g] ms IH]; intros parsed H E; cbn [add_hints] in H; [injection H as <-; exact E|];
      destruct (dget parsed k0) as [[| | | | | |q]|] eqn:E0; try discriminate; apply (IH _ H); rewrite dget_dset_other by congruence; exact E).
    destruct (add_hints_get ms _ _ H k p E) as (p' & P1 & P2). right. exists p, p'. auto.
  - left. revert parsed H E; induction ms as [|[k0 g] ms IH]; intros parsed H E; cbn [add_hints] in H; [injection H as <-; exact E|].
    destruct (dget parsed k0) as [[| | | | | |q]|] eqn:E0; try discriminate. apply (IH _ H). rewrite dget_dset_other by congruence. exact E.
Qed.
(** proof device: induction hypothesis *)
Definition field_ok (nested : value -> option (value * list pystr * list pystr)) (v : value) : Prop :=
  forall w dts pts, nested v = Some (w, dts, pts) -> is_empty v = false -> forall p t, ok_type t -> Forall (fun k => ~ parsed_type k) p ->
  values_at (p ++ [t]) w = flat_map (sub t) (values_at p v).
Lemma not_geo k : ~ parsed_type k -> k <> pt_gp /\ k <> pt_gs.
Proof. intro H. split; intros ->; apply H; unfold parsed_type; cbn [In]; tauto. Qed.
Lemma head_not_geo p t : ok_type t -> Forall (fun k => ~ parsed_type k) p -> exists k r, p ++ [t] = k :: r /\ k <> pt_gp /\ k <> pt_gs.
Proof.
  intros Ht Hp. destruct p as [|k p]; cbn [app]; [exists t, []; split; [reflexivity|apply ok_type_geo, Ht]|]. exists k, (p ++ [t]). split; [reflexivity|]. inversion Hp; subst. apply not_geo. assumption.
Qed.
Lemma scalar_deep k p x : match x with VDict _ | VList _ => False | _ => True end -> values_at (k :: p) x = [].
Proof. destruct x; cbn; tauto. Qed.
Lemma value_part x p t : parsed_as_value x -> ok_type t -> Forall (fun k => ~ parsed_type k) p ->
  values_at (p ++ [t]) (VDict (parse_value L o x)) = flat_map (sub t) (values_at p x).
Proof.
  intros Hx Ht Hp. destruct p as [|k p].
  - cbn [app]. rewrite values_dict. assert (E : values_at [] x = [x]) by (destruct x as [|b|z|f|[|c s]|l|e]; try (destruct Hx; fail); reflexivity). rewrite E. cbn [flat_map]. rewrite app_nil_r.
    assert (S : sub t x = match dget (parse_value L o x) t with Some y => [y] | None => [] end) by (destruct x as [|b|z|f|[|c s]|l|e]; try (destruct Hx; fail); reflexivity). rewrite S.
    destruct (dget (parse_value L o x) t) as [y|] eqn:Ey; [|reflexivity]. cbn [values_at]. apply (sub_scalar t x y Ht Ey).
  - cbn [app]. rewrite values_dict, scalar_deep by (destruct x as [|b|z|f|[|c s]|l|e]; try (destruct Hx; fail); exact I). inversion Hp as [|? ? P1 P2]; subst. destruct (dget (parse_value L o x) k) as [w|] eqn:E; [|reflexivity].
    exfalso. apply P1. apply (parse_value_keys_in L o x). apply dget_Some_key in E. exact E.
Qed.
Lemma dict_field nested chk d parsed dts pts : NoDup (dkeys d) -> Forall (fun kv => field_ok nested (snd kv)) d ->
  dict_body L o nested chk d = Some (parsed, dts, pts) -> forall k p t, ~ parsed_type k -> ok_type t -> Forall (fun k => ~ parsed_type k) p ->
  values_at (k :: p ++ [t]) (VDict parsed) = flat_map (sub t) (values_at (k :: p) (VDict d)).
Proof.
  intros Hn HF E k p t Hk Ht Hp. apply dict_body_some in E. unfold dict_rest in E. destruct (map_opt _ d) as [parts|] eqn:Ep; [|discriminate]. change (list (pystr * part)) in parts. destruct (add_hints _ _) as [q|] eqn:Ea; [|discriminate]. injection E as <- _ _. apply map_opt_F2 in Ep.
  assert (Ek : map (@fst pystr part) parts = dkeys d).
  { clear - Ep. induction Ep as [|kv y d parts E _ IH]; [reflexivity|]. cbn [map dkeys]. rewrite IH. destruct (parse_entry L o _ (fst kv) (snd kv)); [injection E as <-; reflexivity|discriminate]. }
  rewrite !values_dict.
  (* the hints do not matter *)
  set (base := fold_left set_part parts _) in Ea.
  assert (H1 : match dget q k with Some w => values_at (p ++ [t]) w | None => [] end = match dget base k with Some w => values_at (p ++ [t]) w | None => [] end).
  { destruct (add_hints_dget _ _ _ Ea k) as [->|(a & b & -> & -> & Hab)]; [reflexivity|]. destruct (head_not_geo p t Ht Hp) as (k1 & r & -> & G1 & G2). rewrite !values_dict, Hab by assumption. reflexivity. }
  rewrite H1. unfold base. rewrite set_parts_get by (rewrite Ek; exact Hn).
  assert (Hg : dget (if chk then match l_geojson L d with Some g => geo_dict g | None => [] end else []) k = None).
  { apply dget_None. intro K. destruct (not_geo k Hk) as [G1 G2]. destruct chk; [|destruct K]. destruct (l_geojson L d); [|destruct K]. destruct K as [K|[K|[]]]; cbn [fst] in K; congruence. }
  rewrite Hg. destruct (dget d k) as [v|] eqn:Ed.
  - assert (P : exists q, parse_entry L o nested k v = Some q /\ dget parts k = Some q).
    { apply dget_In in Ed. assert (Hn' : NoDup (dkeys parts)) by (exact (eq_ind_r (fun l => NoDup l) Hn Ek)). clear - Ep Ed Hn'. induction Ep as [|kv y d parts E _ IH]; [destruct Ed|]. destruct Ed as [->|Ed].
      - cbn [fst snd] in E. destruct (parse_entry L o nested k v) as [q|]; [|discriminate]. injection E as <-. exists q. split; [reflexivity|]. cbn [dget]. rewrite str_eqb_refl. reflexivity.
      - cbn [dkeys map] in Hn'. inversion Hn' as [|? ? N1 N2]; subst. destruct (IH Ed N2) as (q & Q1 & Q2). exists q. split; [exact Q1|]. cbn [dget]. destruct y as [k1 q1]. cbn [fst] in N1. destruct (str_eqb k k1) eqn:E1; [|exact Q2]. apply str_eqb_eq in E1. subst k1. apply dget_Some_key in Q2. contradiction. }
    destruct P as (pt & P1 & ->). rewrite Forall_forall in HF. specialize (HF (k, v) (dget_In _ _ _ Ed)). cbn [snd] in HF.
    assert (Q : forall x, parsed_as_value x -> v = x -> match pt with (Some w, _, _) => values_at (p ++ [t]) w | _ => [] end = flat_map (sub t) (values_at p v)).
    { intros x Hx ->. destruct x as [|b|z|f|[|c s]|l|e]; try (destruct Hx; fail); cbn [parse_entry] in P1; injection P1 as <-; apply value_part; assumption. }
    assert (Q' : match pt with (Some w, _, _) => values_at (p ++ [t]) w | _ => [] end = flat_map (sub t) (values_at p v)).
    { destruct v as [|b|z|f|[|c s]|l|e]; try (refine (Q _ _ eq_refl); exact I).
      - cbn [parse_entry] in P1. injection P1 as <-. destruct (head_not_geo p t Ht Hp) as (k1 & r & E1 & _). rewrite E1, values_dict. cbn [dget]. destruct (str_eqb k1 pt_u) eqn:Eu.
        + apply str_eqb_eq in Eu. exfalso. subst k1. destruct p as [|k2 p]; injection E1 as -> _; [destruct Ht as [X|[X|[X|[X|[X|[]]]]]]; discriminate X|]. inversion Hp; subst. match goal with H : ~ parsed_type pt_u |- _ => apply H end. left. reflexivity.
        + destruct p; reflexivity.
      - cbn [parse_entry] in P1. injection P1 as <-. destruct (head_not_geo p t Ht Hp) as (k1 & r & E1 & _). rewrite E1, values_dict. cbn [dget]. destruct (str_eqb k1 pt_u) eqn:Eu.
        + apply str_eqb_eq in Eu. exfalso. subst k1. destruct p as [|k2 p]; injection E1 as -> _; [destruct Ht as [X|[X|[X|[X|[X|[]]]]]]; discriminate X|]. inversion Hp; subst. match goal with H : ~ parsed_type pt_u |- _ => apply H end. left. reflexivity.
        + destruct p; reflexivity.
      - cbn [parse_entry] in P1. destruct (is_empty (VList l)) eqn:Ee.
        + injection P1 as <-. destruct l; [|discriminate]. destruct p; reflexivity.
        + destruct (nested (VList l)) as [[[w d1] p1]|] eqn:En; [|discriminate]. injection P1 as <-. exact (HF _ _ _ En Ee p t Ht Hp).
      - cbn [parse_entry] in P1. destruct (is_empty (VDict e)) eqn:Ee.
        + injection P1 as <-. destruct e; [|discriminate]. destruct p; reflexivity.
        + destruct (nested (VDict e)) as [[[w d1] p1]|] eqn:En; [|discriminate]. injection P1 as <-. exact (HF _ _ _ En Ee p t Ht Hp). }
    rewrite <- Q'. destruct pt as [[[w|] d1] p1]; reflexivity.
  - assert (P : dget parts k = None) by (apply dget_None; apply (eq_ind_r (fun l => ~ In k l) (proj1 (dget_None _ _) Ed) Ek)). rewrite P. reflexivity.
Qed.
Lemma nested_field v : wf v -> (forall k, key_in k v -> ~ parsed_type k) -> field_ok (parse_nested L o) v.
Proof.
  induction v as [|b|z|f|s|l IH|d IH] using value_ind'; intros W K w dts pts H He p t Ht Hp; try (cbn in H; discriminate).
  - cbn [parse_nested] in H. destruct (list_body L o (parse_nested L o) l) as [[[ws d1] p1]|] eqn:E; [|discriminate]. injection H as <- _ _. unfold list_body in E. destruct (map_opt _ l) as [ps|] eqn:Ep; [|discriminate]. injection E as <- _ _.
    apply map_opt_F2 in Ep. rewrite !values_list. clear He. apply wf_list in W.
    induction Ep as [|x q l ps E _ IHl]; [reflexivity|]. cbn [map flat_map]. rewrite sub_flat. inversion IH as [|? ? I1 I2]; subst. inversion W as [|? ? W1 W2]; subst.
    rewrite IHl; [|exact I2|exact W2|intros k Hk; apply K; inversion Hk as [| |l' x' L1 L2]; subst; apply (key_list k _ x'); [right; exact L1|exact L2]]. f_equal.
    assert (Kx : forall k, key_in k x -> ~ parsed_type k) by (intros k Hk; apply K; apply (key_list k _ x); [left; reflexivity|exact Hk]).
    destruct x as [|b|z|f|[|c s]|l'|e]; cbn [parse_element] in E.
    + injection E as <-. cbn [fst]. destruct p; reflexivity.
    + injection E as <-. cbn [fst]. apply value_part; [exact I|exact Ht|exact Hp].
    + injection E as <-. cbn [fst]. apply value_part; [exact I|exact Ht|exact Hp].
    + injection E as <-. cbn [fst]. apply value_part; [exact I|exact Ht|exact Hp].
    + injection E as <-. cbn [fst]. destruct p; reflexivity.
    + injection E as <-. cbn [fst]. apply value_part; [exact I|exact Ht|exact Hp].
    + destruct (is_empty (VList l')) eqn:Ee; [injection E as <-; cbn [fst]; destruct l'; [|discriminate]; destruct p; reflexivity|]. destruct (parse_nested L o (VList l')) as [[[w' d'] p']|] eqn:En; [|discriminate]. injection E as <-. cbn [fst]. exact (I1 W1 Kx _ _ _ En Ee p t Ht Hp).
    + destruct (is_empty (VDict e)) eqn:Ee; [injection E as <-; cbn [fst]; destruct e; [|discriminate]; destruct p; reflexivity|]. destruct (parse_nested L o (VDict e)) as [[[w' d'] p']|] eqn:En; [|discriminate]. injection E as <-. cbn [fst]. exact (I1 W1 Kx _ _ _ En Ee p t Ht Hp).
  - cbn [parse_nested] in H. destruct (dict_body L o (parse_nested L o) true d) as [[[q d1] p1]|] eqn:E; [|discriminate]. injection H as <- _ _. apply wf_dict in W. destruct W as [W1 W2].
    assert (HF : Forall (fun kv => field_ok (parse_nested L o) (snd kv)) d).
    { rewrite Forall_forall in *. intros [k v] Hk. apply (IH _ Hk (W2 _ Hk)). intros k' Hk'. apply K. exact (key_dict k' d k v Hk Hk'). }
    destruct p as [|k p].
    + cbn [app]. rewrite values_dict. change (values_at [] (VDict d)) with (@nil value). cbn [flat_map].
      (* no data key is called t *)
      apply dict_body_some in E. unfold dict_rest in E. destruct (map_opt _ d) as [parts|] eqn:Ep; [|discriminate]. change (list (pystr * part)) in parts. destruct (add_hints _ _) as [q'|] eqn:Ea; [|discriminate]. injection E as <- _ _. apply map_opt_F2 in Ep.
      assert (Ek : map (@fst pystr part) parts = dkeys d).
      { clear - Ep. induction Ep as [|kv y d parts E _ IH]; [reflexivity|]. cbn [map dkeys]. rewrite IH. destruct (parse_entry L o _ (fst kv) (snd kv)); [injection E as <-; reflexivity|discriminate]. }
      assert (Hb : dget (fold_left set_part parts (match l_geojson L d with Some g => geo_dict g | None => [] end)) t = None).
      { rewrite set_parts_get by (rewrite Ek; exact W1). assert (P : dget parts t = None).
        { apply dget_None. intro Q. change (In t (map (@fst pystr part) parts)) in Q. rewrite Ek in Q. apply in_map_iff in Q. destruct Q as ([k v] & Q1 & Q2). cbn in Q1. subst k. apply (K t (key_here t d v Q2)). apply ok_parsed, Ht. }
        rewrite P. apply dget_None. intro Q. destruct (ok_type_geo t Ht) as [G1 G2]. destruct (l_geojson L d); [|destruct Q]. destruct Q as [Q|[Q|[]]]; cbn [fst] in Q; congruence. }
      destruct (add_hints_dget _ _ _ Ea t) as [Q|(a & b & Q & _)]; [rewrite Q, Hb; reflexivity|rewrite Hb in Q; discriminate].
    + inversion Hp as [|? ? P1 P2]; subst. exact (dict_field _ true d _ _ _ W1 HF E k p t P1 Ht P2).
Qed.
(** The sub-field [t] of a field of a parsed record: what the values of the field in the data give. *)
Lemma parse_values d r : wfd d -> (forall k, key_in k (VDict d) -> ~ parsed_type k) -> parse L o d = Some r ->
  forall p t, p <> [] -> ok_type t -> Forall (fun k => ~ parsed_type k) p -> values_at (p ++ [t]) (VDict (p_parsed r)) = flat_map (sub t) (values_at p (VDict d)).
Proof.
  intros W K H p t Hn Ht Hp. unfold parse in H. destruct (dict_body L o (parse_nested L o) false d) as [[[q d1] p1]|] eqn:E; [|discriminate]. injection H as <-. cbn [p_parsed]. destruct p as [|k p]; [contradiction|]. inversion Hp as [|? ? P1 P2]; subst.
  unfold wfd in W. apply wf_dict in W. destruct W as [W1 W2]. cbn [app]. refine (dict_field _ false d _ _ _ W1 _ E k p t P1 Ht P2).
  rewrite Forall_forall in *. intros [k' v] Hk. apply nested_field; [exact (W2 _ Hk)|]. intros k2 Hk2. apply K. exact (key_dict k2 d k' v Hk Hk2).
Qed.
End Parsed.
