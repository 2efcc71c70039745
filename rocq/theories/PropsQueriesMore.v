(** Properties C53 (ranges) and C79 (range, exists and text queries): what the other queries select, from the
    ingested records on. *)
From Coq Require Import String Ascii.
From Coq Require Import List ZArith NArith Bool Lia.
From Coq Require Import Floats.SpecFloat.
From Verif Require Import PyVal Diff DiffProofs Time Prepare PropsPrepare Mongo Store MongoProofs MongoStore Client ClientProofs.
From Verif Require Import Parser ParserProofs ParserTypes ParserEq PropsParser PropsTotal ParserSim Options.
From Verif Require Import Index IndexSpec Sync SyncSpec SyncTrace SyncReach PropsIndex PropsSync EndToEnd PropsEndToEnd EndToEndParsed Search PropsSearch PropsContent Mapping PropsMapping PropsQueries.
Import ListNotations.
Open Scope string_scope.
Open Scope list_scope.
Open Scope Z_scope.

(** ** C53: what a range query selects *)
(** Text in the order of its code points: a proper prefix, or the smaller code point at the first difference. *)
Definition text_before (a b : pystr) : Prop := exists p, (exists c r, a = p /\ b = p ++ c :: r) \/ exists x y a' b', (x < y)%N /\ a = p ++ x :: a' /\ b = p ++ y :: b'.
Definition text_order (c : Datatypes.comparison) (a b : pystr) : Prop := match c with Lt => text_before a b | Eq => a = b | Gt => text_before b a end.
(** Doubles by value, -0.0 below 0.0. *)
Inductive double_order : Datatypes.comparison -> spec_float -> spec_float -> Prop :=
| do_zero s : double_order Eq (S754_zero s) (S754_zero s)
| do_below : double_order Lt (S754_zero true) (S754_zero false)
| do_above : double_order Gt (S754_zero false) (S754_zero true)
| do_other c a b : (forall s s', ~ (a = S754_zero s /\ b = S754_zero s')) -> SFcompare a b = Some c -> double_order c a b.
(** How a value of a sub-field relates to a bound: as text, after normalising; false before true; doubles; moments. *)
Inductive ordered (norm : pystr -> pystr) (local : datetime -> Z) : pystr -> Datatypes.comparison -> value -> qval -> Prop :=
| or_text c s s' : text_order c (norm s') (norm s) -> ordered norm local (lit "_k") c (VStr s') (QStr s)
| or_same b : ordered norm local (lit "_b") Eq (VBool b) (QBool b)
| or_before : ordered norm local (lit "_b") Lt (VBool false) (QBool true)
| or_after : ordered norm local (lit "_b") Gt (VBool true) (QBool false)
| or_number c y q a b : as_double y a -> number_asked q b -> double_order c a b -> ordered norm local (lit "_n") c y q
| or_stamp c y q a u : as_double y a -> moment_asked local q u -> double_order c a (binary_normalize 53 1024 u 0 false) -> ordered norm local (lit "_n") c y q
| or_moment z q u : moment_asked local q u -> ordered norm local (lit "_d") (z ?= u) (VInt z) q.
(** [y], a value of a field of type [t], is within all the bounds that are given. *)
Definition within (norm : pystr -> pystr) (local : datetime -> Z) (t : pystr) (gte lt gt lte : option qval) (y : value) : Prop :=
  (forall q, gte = Some q -> ordered norm local t Eq y q \/ ordered norm local t Gt y q) /\
  (forall q, lt = Some q -> ordered norm local t Lt y q) /\
  (forall q, gt = Some q -> ordered norm local t Gt y q) /\
  (forall q, lte = Some q -> ordered norm local t Eq y q \/ ordered norm local t Lt y q).
Lemma text_cons x a b : text_before a b -> text_before (x :: a) (x :: b).
Proof. intros (p & [(c & r & -> & ->)|(u & v & a' & b' & L & -> & ->)]); exists (x :: p); [left; exists c, r; split; reflexivity|right; exists u, v, a', b'; auto]. Qed.
Lemma text_compare a : forall b, text_order (str_compare a b) a b.
Proof.
  induction a as [|x a IH]; intros [|y b]; cbn [str_compare text_order]; [reflexivity|exists []; left; exists y, b; split; reflexivity|exists []; left; exists x, a; split; reflexivity|].
  destruct (N.compare_spec x y) as [->|H|H].
  - specialize (IH b). destruct (str_compare a b); cbn [text_order] in *; [rewrite IH; reflexivity|apply text_cons, IH|apply text_cons, IH].
  - exists []. right. exists x, y, a, b. auto.
  - exists []. right. exists y, x, b, a. auto.
Qed.
Lemma text_unique a b c : text_order c a b -> str_compare a b = c.
Proof.
  assert (R : forall a, str_compare a a = Eq) by (induction a0 as [|x a0 IH]; [reflexivity|]; cbn [str_compare]; rewrite N.compare_refl; exact IH).
  assert (P : forall p a b, str_compare (p ++ a) (p ++ b) = str_compare a b) by (induction p as [|x p IH]; intros; [reflexivity|]; cbn [app str_compare]; rewrite N.compare_refl; apply IH).
  assert (K : forall a b, text_before a b -> str_compare a b = Lt /\ str_compare b a = Gt).
  { intros u v (p & [(x & r & -> & ->)|(x & y & a' & b' & L & -> & ->)]).
    - rewrite <- (app_nil_r p) at 1 4. rewrite !P. split; reflexivity.
    - rewrite !P. cbn [str_compare]. rewrite (proj2 (N.compare_lt_iff x y) L), (proj2 (N.compare_gt_iff y x) L). auto. }
  destruct c; cbn [text_order]; intro H; [rewrite H; apply R|apply K, H|apply K, H].
Qed.
Lemma double_order_iff c a b : double_order c a b <-> double_compare a b = Some c.
Proof.
  split.
  - intros [s| | |c' a' b' N H]; [cbn; rewrite eqb_reflx; reflexivity|reflexivity|reflexivity|]. unfold double_compare. destruct a' as [s| | |], b' as [s'| | |]; try exact H. exfalso. apply (N s s'). auto.
  - unfold double_compare. intro H. destruct a as [s|s| |s m e], b as [s'|s'| |s' m' e']; try (apply do_other; [intros u v [A B]; discriminate|exact H]). destruct s, s'; injection H as <-; constructor.
Qed.
Lemma compare_ordered norm local t y q c : In t types_used -> compare_to norm t y (stamp local q) = Some c <-> ordered norm local t c y q.
Proof.
  intros [<-|[<-|[<-|[<-|[]]]]]; unfold compare_to.
  - change (str_eqb (lit "_k") pt_k) with true. cbn iota. split.
    + destruct q, y; cbn [stamp]; try discriminate. intro H. injection H as <-. constructor. apply text_compare.
    + intro H. inversion H as [c' s s' T| | | | | |]; subst. cbn [stamp]. rewrite (text_unique _ _ _ T). reflexivity.
  - change (str_eqb (lit "_b") pt_k) with false. change (str_eqb (lit "_b") pt_n) with false. change (str_eqb (lit "_b") pt_d) with false. change (str_eqb (lit "_b") pt_b) with true. cbn iota. split.
    + destruct q as [| [|] | | | | |], y as [|[|]| | | | |]; cbn [stamp]; try discriminate; intro H; injection H as <-; constructor.
    + intro H. inversion H; subst; cbn [stamp]; [rewrite eqb_reflx|..]; reflexivity.
  - change (str_eqb (lit "_n") pt_k) with false. change (str_eqb (lit "_n") pt_n) with true. cbn iota.
    split.
    + destruct (double_of y) as [a|] eqn:A; [|discriminate]. destruct (double_of (qvalue (stamp local q))) as [b|] eqn:B; [|discriminate]. intro H. apply double_order_iff in H. apply as_double_iff in A.
      destruct q; cbn [stamp qvalue double_of] in B; try discriminate; injection B as <-; [eapply or_number|eapply or_number|eapply or_stamp|eapply or_stamp]; try exact A; try exact H; constructor.
    + intro H. inversion H as [| | | |c' y' q' a b A B D|c' y' q' a u A M D|]; subst; apply as_double_iff in A; apply double_order_iff in D; rewrite A.
      * destruct B; cbn [stamp qvalue double_of]; exact D.
      * destruct M; cbn [stamp qvalue double_of]; exact D.
  - change (str_eqb (lit "_d") pt_k) with false. change (str_eqb (lit "_d") pt_n) with false. change (str_eqb (lit "_d") pt_d) with true. cbn iota. split.
    + destruct q; cbn [stamp]; destruct y; try discriminate; intro H; injection H as <-; repeat constructor.
    + intro H. inversion H as [| | | | | |z q' u M]; subst. inversion M; subst; reflexivity.
Qed.
Lemma range_within norm local t gte lt gt lte kwargs y : In t types_used -> (forall k, In k (dkeys kwargs) -> ~ In k bound_names) ->
  range_match norm t (dupdate (map (fun kv => (fst kv, stamp local (snd kv))) (range_bounds gte lt gt lte)) kwargs) y = true <-> within norm local t gte lt gt lte y.
Proof.
  intros Hu Hk. unfold range_match.
  assert (U : forall kw base, (forall k, In k (dkeys kw) -> ~ In k bound_names) ->
    forallb (fun kv => bound_match norm t kv y) (dupdate base kw) = forallb (fun kv => bound_match norm t kv y) base).
  { intro kw. induction kw as [|[k v] kw IH]; intros base H; [reflexivity|]. rewrite dupdate_cons, IH by (intros k' K; apply H; right; exact K).
    specialize (H k (or_introl eq_refl)).
    assert (B : forall v, bound_match norm t (k, v) y = true).
    { intro w. unfold bound_match. cbn [fst].
      destruct (str_eqb k (lit "gte")) eqn:E1; [apply str_eqb_eq in E1; exfalso; apply H; rewrite E1; cbn; auto|].
      destruct (str_eqb k (lit "gt")) eqn:E2; [apply str_eqb_eq in E2; exfalso; apply H; rewrite E2; cbn; auto|].
      destruct (str_eqb k (lit "lte")) eqn:E3; [apply str_eqb_eq in E3; exfalso; apply H; rewrite E3; cbn; auto 6|].
      destruct (str_eqb k (lit "lt")) eqn:E4; [apply str_eqb_eq in E4; exfalso; apply H; rewrite E4; cbn; auto|]. reflexivity. }
    clear - B. induction base as [|[k' v'] base IH]; cbn [dset forallb]; [rewrite B; reflexivity|].
    destruct (str_eqb k k') eqn:E; cbn [forallb]; [apply str_eqb_eq in E; subst k'; rewrite !B; reflexivity|rewrite IH; reflexivity]. }
  rewrite U by exact Hk. clear U Hk.
  assert (G1 : forall q, bound_match norm t (lit "gte", stamp local q) y = true <-> ordered norm local t Eq y q \/ ordered norm local t Gt y q).
  { intro q. rewrite <- !(compare_ordered norm local t y q _ Hu). unfold bound_match. cbn [fst snd]. rewrite str_eqb_refl. destruct (compare_to norm t y (stamp local q)) as [[| |]|]; intuition discriminate. }
  assert (G2 : forall q, bound_match norm t (lit "lt", stamp local q) y = true <-> ordered norm local t Lt y q).
  { intro q. rewrite <- !(compare_ordered norm local t y q _ Hu). unfold bound_match. cbn [fst snd]. change (str_eqb (lit "lt") (lit "gte")) with false. change (str_eqb (lit "lt") (lit "gt")) with false. change (str_eqb (lit "lt") (lit "lte")) with false. rewrite str_eqb_refl. destruct (compare_to norm t y (stamp local q)) as [[| |]|]; intuition discriminate. }
  assert (G3 : forall q, bound_match norm t (lit "gt", stamp local q) y = true <-> ordered norm local t Gt y q).
  { intro q. rewrite <- !(compare_ordered norm local t y q _ Hu). unfold bound_match. cbn [fst snd]. change (str_eqb (lit "gt") (lit "gte")) with false. rewrite str_eqb_refl. destruct (compare_to norm t y (stamp local q)) as [[| |]|]; intuition discriminate. }
  assert (G4 : forall q, bound_match norm t (lit "lte", stamp local q) y = true <-> ordered norm local t Eq y q \/ ordered norm local t Lt y q).
  { intro q. rewrite <- !(compare_ordered norm local t y q _ Hu). unfold bound_match. cbn [fst snd]. change (str_eqb (lit "lte") (lit "gte")) with false. change (str_eqb (lit "lte") (lit "gt")) with false. rewrite str_eqb_refl. destruct (compare_to norm t y (stamp local q)) as [[| |]|]; intuition discriminate. }
  assert (O : forall n b (P : qval -> Prop), (forall q, bound_match norm t (n, stamp local q) y = true <-> P q) ->
    forallb (fun kv => bound_match norm t kv y) (map (fun kv => (fst kv, stamp local (snd kv))) match b with Some q => [(n, q)] | None => [] end) = true <-> forall q, b = Some q -> P q).
  { intros n [q|] P H; cbn [map forallb fst snd]; [|split; [discriminate|reflexivity]]. rewrite andb_true_r, H. split; [intros K q' E; injection E as <-; exact K|intro K; apply K; reflexivity]. }
  unfold within, range_bounds. cbn [flat_map fst snd]. rewrite app_nil_r, !map_app, !forallb_app, !andb_true_iff.
  rewrite (O _ gte _ G1), (O _ lt _ G2), (O _ gt _ G3), (O _ lte _ G4). tauto.
Qed.
(** A range query selects a record if and only if some value of the field was parsed into the sub-field as
    something within all the bounds. *)
Theorem C53_range : forall db pad rec L o r index doc norm local field gte lt gt lte ty kwargs q t,
  db_ok db -> parse L o (prepare_record_data db pad rec) = Some r -> e_parsed doc = r -> field_name field ->
  first_bound gte lt gt lte = Some q -> target q ty = Some t -> In t types_used -> (forall k, In k (dkeys kwargs) -> ~ In k bound_names) ->
  exists query, range_query local field gte lt gt lte ty kwargs = Some query /\
    (hits norm query (index, doc) = true <->
     exists x y, field_value field (prepare_record_data db pad rec) x /\ parsed_as_value x /\ dget (parse_value L o x) t = Some y /\
       within norm local t gte lt gt lte y).
Proof.
  intros db pad rec L o r index doc norm local field gte lt gt lte ty kwargs q t Hdb Hr He Hf Hq Htg Hu Hk. pose proof (used_ok t Hu) as Ht.
  assert (E : (match ty with Some t => Some t | None => infer_parsed_type q end) = Some t) by (destruct ty, q; exact Htg).
  exists (QRange (parsed_path field (Some t) true) (dupdate (map (fun kv => (fst kv, stamp local (snd kv))) (range_bounds gte lt gt lte)) kwargs)). split.
  - unfold range_query. destruct gte as [a|], lt as [b|], gt as [c|], lte as [d|]; cbn [range_bounds flat_map snd fst app first_bound] in *; try discriminate Hq; injection Hq as ->; unfold range_bounds; cbn [flat_map snd fst app]; rewrite E; reflexivity.
  - cbn [hits snd]. rewrite (doc_values db pad rec L o r doc field t Hdb Hr He Hf Ht), (last_path field t Ht), existsb_exists. setoid_rewrite <- field_value_In. split.
    + intros (y & Hy & M). apply in_flat_map in Hy. destruct Hy as (x & X1 & X2). apply sub_In in X2. destruct X2 as [X2 X3]. exists x, y. apply (range_within norm local t gte lt gt lte kwargs y Hu Hk) in M. auto.
    + intros (x & y & X1 & X2 & X3 & M). exists y. split; [|apply (range_within norm local t gte lt gt lte kwargs y Hu Hk), M]. apply in_flat_map. exists x. split; [exact X1|]. apply sub_In. auto.
Qed.
Print Assumptions C53_range.

(** ** C79: ranges, texts and presence at a version *)
Lemma source_same i v w r rx p : pdata_same r rx -> values_at p (source (ED i v w r)) = values_at p (source (ED i v w rx)).
Proof. intros (V & _). apply values_sim. unfold source. apply vident_dict. intro k. cbn [dget e_parsed]. destruct (str_eqb k (lit "data")); [exact V|exact I]. Qed.
Theorem C79_range_partial : forall L S odef cap name n t s calls cl e,
  keyed L -> value_points L -> type_exact S -> synced_history L S odef cap name n t s calls cl e ->
  exists e', sync (parse_opt L) popt_eqb cap cl name false e = Some e' /\
    forall v hits id db pad rec fd o index norm local field gte lt gt lte ty kwargs q t, search_at e' v = Some hits ->
      in_force (committed (a_run a_empty (proj name calls)) id) v (prepare_record_data db pad rec) -> prepare_record_data db pad rec <> [] -> db_ok db ->
      zmin_key (committed (a_run a_empty (proj name calls)) id) = Some fd -> options_used (get_options cl name) fd v o ->
      field_name field -> first_bound gte lt gt lte = Some q -> target q ty = Some t -> In t types_used -> (forall k, In k (dkeys kwargs) -> ~ In k bound_names) ->
      exists hit query, hits_of id hits = [hit] /\ range_query local field gte lt gt lte ty kwargs = Some query /\
        (selected norm query index hit <->
         exists x y, field_value field (prepare_record_data db pad rec) x /\ parsed_as_value x /\ dget (parse_value L o x) t = Some y /\
           within norm local t gte lt gt lte y).
Proof.
  intros L S odef cap name n t s calls cl e KD VP HS H. destruct (C76_search_parsed_partial L S odef cap name n t s calls cl e KD VP HS H) as (e' & E1 & E2).
  exists e'. split; [exact E1|]. intros v hits id db pad rec fd o index norm local field gte lt gt lte ty kwargs q ty' Hs Hx Nx Hdb Hfd Hou Hf Hq Ht Hu Hk.
  destruct (E2 v hits id _ fd o Hs Hx Nx Hfd Hou) as (hit & r & rx & R1 & R2 & R3 & R4).
  destruct (C53_range db pad rec L o rx index (ED (e_id hit) (e_ver hit) (e_end hit) rx) norm local field gte lt gt lte ty kwargs q ty' Hdb R3 eq_refl Hf Hq Ht Hu Hk) as (query & Q1 & Q2).
  exists hit, query. split; [exact R1|]. split; [exact Q1|]. rewrite <- Q2.
  assert (Hq' : exists p w, query = QRange p w).
  { unfold range_query in Q1. destruct (range_bounds gte lt gt lte) as [|[k b] bs]; [discriminate|]. destruct (match ty with Some t => Some t | None => infer_parsed_type b end); [injection Q1 as <-; eauto|discriminate]. } destruct Hq' as (p & w & ->).
  rewrite <- (select_same norm (QRange p w) index (e_id hit) (e_ver hit) (e_end hit) r rx R4) by discriminate. split.
  - intros (r' & A & B). rewrite R2 in A. injection A as <-. exact B.
  - intro B. exists r. auto.
Qed.
Print Assumptions C79_range_partial.

(** What a search looks at in the document, with its parsed data. *)
Definition with_data (P : esdoc parsed_data -> Prop) (h : esdoc (option parsed_data)) : Prop :=
  exists r, e_parsed h = Some r /\ P (ED (e_id h) (e_ver h) (e_end h) r).
Lemma copied_same i v w r rx a x : pdata_same r rx -> copied a (ED i v w r) x <-> copied a (ED i v w rx) x.
Proof. intro R. unfold copied. split; intros (p & m & A & B & C & D); exists p, m; [rewrite <- (source_same i v w r rx _ R)|rewrite (source_same i v w r rx _ R)]; auto. Qed.
Lemma searched_same i v w r rx p x : pdata_same r rx -> searched p (ED i v w r) x <-> searched p (ED i v w rx) x.
Proof. intro R. unfold searched. destruct (str_eqb p (lit "all_text")); [apply copied_same, R|]. rewrite (source_same i v w r rx _ R). tauto. Qed.
Lemma indexed_same i v w r rx p : pdata_same r rx -> indexed p (ED i v w r) <-> indexed p (ED i v w rx).
Proof. intro R. unfold indexed. split; intros (m & x & A & B & C & D); exists m, x; [rewrite <- (source_same i v w r rx _ R)|rewrite (source_same i v w r rx _ R)]; auto. Qed.
Lemma exists_same i v w r rx q : pdata_same r rx -> exists_hit q (ED i v w r) <-> exists_hit q (ED i v w rx).
Proof.
  intro R. destruct q as [| | |p|]; cbn [exists_hit]; try tauto. destruct (str_eqb p (lit "all_points")).
  - split; intros (x & X); exists x; [apply (copied_same i v w r rx) in X|apply (copied_same i v w r rx)]; auto.
  - split; (intros [X|(b & X)]; [left|right; exists b]); [apply (indexed_same i v w r rx) in X|apply (indexed_same i v w r rx) in X|apply (indexed_same i v w r rx)|apply (indexed_same i v w r rx)]; auto.
Qed.
Lemma with_same (P : esdoc parsed_data -> Prop) h r rx : e_parsed h = Some r -> (P (ED (e_id h) (e_ver h) (e_end h) r) <-> P (ED (e_id h) (e_ver h) (e_end h) rx)) ->
  with_data P h <-> P (ED (e_id h) (e_ver h) (e_end h) rx).
Proof. intros R E. rewrite <- E. split; [intros (r' & A & B); rewrite R in A; injection A as <-; exact B|intro B; exists r; auto]. Qed.
(** match_query at a version searches the texts of the data of that version, formatted with the options of that
    version; exists_query and has_geo select by the values of that version. *)
Theorem C79_presence_partial : forall L S odef cap name n t s calls cl e,
  keyed L -> value_points L -> geo_has_values L -> type_exact S -> synced_history L S odef cap name n t s calls cl e ->
  exists e', sync (parse_opt L) popt_eqb cap cl name false e = Some e' /\
    forall v hits id db pad rec fd o field, search_at e' v = Some hits ->
      in_force (committed (a_run a_empty (proj name calls)) id) v (prepare_record_data db pad rec) -> prepare_record_data db pad rec <> [] -> db_ok db ->
      zmin_key (committed (a_run a_empty (proj name calls)) id) = Some fd -> options_used (get_options cl name) fd v o -> field_name field ->
      exists hit, hits_of id hits = [hit] /\
        (forall x, with_data (fun d => searched (match_path None) d x) hit <->
           exists p u, value_in (prepare_record_data db pad rec) p u /\ x = VStr (text (l_format L (float_format o)) u)) /\
        (forall x, with_data (fun d => searched (match_path (Some field)) d x) hit <->
           exists u, value_in (prepare_record_data db pad rec) (split field) u /\ x = VStr (text (l_format L (float_format o)) u)) /\
        (with_data (exists_hit (exists_query field)) hit <-> exists below u, value_in (prepare_record_data db pad rec) (split field ++ below) u) /\
        (with_data (exists_hit has_geo) hit <-> exists p, Forall (fun k => ~ parsed_type k) p /\ p <> [] /\ has_parsed_root L o (prepare_record_data db pad rec) p (lit "_gp")).
Proof.
  intros L S odef cap name n t s calls cl e KD VP GH HS H. destruct (C76_search_parsed_partial L S odef cap name n t s calls cl e KD VP HS H) as (e' & E1 & E2).
  exists e'. split; [exact E1|]. intros v hits id db pad rec fd o field Hs Hx Nx Hdb Hfd Hou Hf.
  destruct (E2 v hits id _ fd o Hs Hx Nx Hfd Hou) as (hit & r & rx & R1 & R2 & R3 & R4). exists hit. split; [exact R1|].
  split; [|split; [|split]].
  - intro x. refine (iff_trans (with_same (fun d => searched (match_path None) d x) hit r rx R2 (searched_same _ _ _ r rx _ x R4)) _). exact (C72_all_text db pad rec L o rx (ED (e_id hit) (e_ver hit) (e_end hit) rx) Hdb R3 eq_refl x).
  - intro x. refine (iff_trans (with_same (fun d => searched (match_path (Some field)) d x) hit r rx R2 (searched_same _ _ _ r rx _ x R4)) _). exact (C72_field db pad rec L o rx (ED (e_id hit) (e_ver hit) (e_end hit) rx) field Hdb R3 eq_refl Hf x).
  - refine (iff_trans (with_same (exists_hit (exists_query field)) hit r rx R2 (exists_same _ _ _ r rx _ R4)) _). exact (C73_exists db pad rec L o rx (ED (e_id hit) (e_ver hit) (e_end hit) rx) field Hdb R3 eq_refl GH Hf).
  - refine (iff_trans (with_same (exists_hit has_geo) hit r rx R2 (exists_same _ _ _ r rx _ R4)) _). exact (C73_has_geo db pad rec L o rx (ED (e_id hit) (e_ver hit) (e_end hit) rx) Hdb R3 eq_refl).
Qed.
Print Assumptions C79_presence_partial.
(** The history of PropsQueries.v (C79_example) meets the hypotheses: as of version 1 a = 1 lies between 1 and 2,
    and the range is not empty of meaning: 2 does not. *)
Example C79_more_example : geo_has_values ex_lib /\ first_bound (Some (QInt 1)) (Some (QInt 2)) None None = Some (QInt 1) /\ target (QInt 1) None = Some (lit "_n") /\
  field_value (lit "a") pre1 (VInt 1) /\ dget (parse_value ex_lib ex_opts (VInt 1)) (lit "_n") = Some (VInt 1) /\
  within (fun s => s) (fun _ => 0) (lit "_n") (Some (QInt 1)) (Some (QInt 2)) None None (VInt 1) /\
  ~ within (fun s => s) (fun _ => 0) (lit "_n") (Some (QInt 1)) (Some (QInt 2)) None None (VInt 2) /\
  value_in pre1 [lit "a"] (VInt 1).
Proof.
  split; [split; [intros d H; cbn in H; congruence|intros lon lat rd n H; cbn in H; contradiction]|]. split; [reflexivity|]. split; [reflexivity|]. split; [apply field_value_In; left; reflexivity|]. split; [reflexivity|].
  assert (Hu : In (lit "_n") types_used) by (cbn; auto). assert (O : forall a b c, compare_to (fun s => s) (lit "_n") (VInt a) (QInt b) = Some c -> ordered (fun s => s) (fun _ => 0) (lit "_n") c (VInt a) (QInt b)) by (intros a b c K; apply compare_ordered; [exact Hu|exact K]).
  split; [|split].
  - split; [intros q E; injection E as <-; left; apply O; vm_compute; reflexivity|]. split; [intros q E; injection E as <-; apply O; vm_compute; reflexivity|]. split; discriminate.
  - intros (_ & A & _). specialize (A _ eq_refl). apply compare_ordered in A; [|exact Hu]. vm_compute in A. discriminate.
  - split; [apply values_path; left; reflexivity|]. split; discriminate.
Qed.
