(** Property C54: the listing of the fields. *)
From Coq Require Import String Ascii.
From Coq Require Import List ZArith NArith Bool Lia Sorted Permutation.
From Coq Require Import Floats.SpecFloat.
From Verif Require Import PyVal Time Prepare PrepareProofs PropsPrepare Parser ParserProofs ParserTypes ParserEq PropsParser PropsParserTypes Search PropsSearch Fields.
Import ListNotations.
Open Scope string_scope.
Open Scope list_scope.
Open Scope nat_scope.

(** ** Specification *)
(** The types listed for one document: paths, each once, with the types found there. *)
Definition listing : Type := list (pystr * list pystr).
Definition listing_ok (valid : list pystr) (l : listing) : Prop := NoDup (map fst l) /\ Forall (entry_ok valid) l.
Definition lists_path (p : pystr) (l : listing) : Prop := In p (map fst l).
Definition lists_type (p t : pystr) (l : listing) : Prop := exists ts, In (p, ts) l /\ In t ts.
(** as it is written in the documents *)
Definition written (docs : list listing) : list (list pystr) := map (map show) docs.
(** [describes fs docs]: every path that some document lists has one field, with the number of the documents that
    list it, and with the number of the documents that list it with a type; most frequent fields come first, then
    by path. *)
Definition describes (fs : list field) (docs : list listing) : Prop :=
  NoDup (map f_path fs) /\
  (forall p, In p (map f_path fs) <-> exists l, In l docs /\ lists_path p l) /\
  (forall f, In f fs -> number (lists_path (f_path f)) docs (f_count f)) /\
  (forall f t, In f fs -> number (lists_type (f_path f) t) docs (type_count f t)) /\
  StronglySorted in_order fs.
(** [linked fs]: the children of a list or dict field are the fields whose paths extend its path by one component,
    and the parent of a field is the one it is a child of. *)
Definition container (f : field) : Prop := 0 < type_count f (lit "#l") \/ 0 < type_count f (lit "#d").
Definition linked (fs : list field) : Prop := forall f, In f fs ->
  (forall q, In q (f_children f) <-> container f /\ In q (map f_path fs) /\ exists k, dotless k /\ q = dotted (f_path f) k) /\
  (forall q, f_parent f = Some q <-> exists g, In g fs /\ f_path g = q /\ In (f_path f) (f_children g)).

(** ** Proofs *)
Definition read (v : pystr) : pystr * list pystr := match rsplit_dot v with Some (p, raw) => (p, split_on 44 raw) | None => ([], []) end.
Lemma read_show valid g : valid_ok valid -> entry_ok valid g -> read (show g) = g.
Proof. intros V E. destruct (show_read valid g V E) as (A & B & _). unfold read. rewrite A, B. destruct g; reflexivity. Qed.
Lemma eqk_eq {K} (ltb : K -> K -> bool) (S : strict_order ltb) x y : eqk ltb x y = true <-> x = y.
Proof.
  unfold eqk. rewrite andb_true_iff, !negb_true_iff. split; [intros [A B]; exact (so_total _ S x y A B)|intros ->; split; apply (so_irrefl _ S)].
Qed.
Lemma one_entry (Q : pystr * list pystr -> bool) p (l : listing) : NoDup (map fst l) -> (forall g, Q g = true -> fst g = p) -> length (filter Q l) = if existsb Q l then 1 else 0.
Proof.
  intros N HQ. induction l as [|g l IH]; [reflexivity|]. cbn [map] in N. inversion N as [|? ? N1 N2]; subst. cbn [filter existsb]. destruct (Q g) eqn:E; cbn [length orb]; [|apply IH, N2].
  rewrite (IH N2). destruct (existsb Q l) eqn:E'; [|reflexivity]. exfalso. apply existsb_exists in E'. destruct E' as (g' & G1 & G2). apply N1. rewrite (HQ _ E), <- (HQ _ G2). apply in_map, G1.
Qed.
Section Doc.
Variables (valid : list pystr) (V : valid_ok valid) (ltb : pystr -> pystr -> bool) (S : strict_order ltb) (docs : list listing).
Hypothesis Hd : Forall (listing_ok valid) docs.
Let es := map (fun b => (read (fst b), snd b)) (buckets ltb (written docs)).
Lemma key_entry v : In v (concat (written docs)) -> exists l g, In l docs /\ In g l /\ entry_ok valid g /\ v = show g.
Proof.
  intro H. apply in_concat in H. destruct H as (d & D1 & D2). apply in_map_iff in D1. destruct D1 as (l & <- & Hl). apply in_map_iff in D2. destruct D2 as (g & <- & Hg). exists l, g. rewrite Forall_forall in Hd. destruct (Hd l Hl) as [_ E]. rewrite Forall_forall in E. auto.
Qed.
Lemma bucket_key b : In b (buckets ltb (written docs)) -> exists l g, In l docs /\ In g l /\ entry_ok valid g /\ fst b = show g.
Proof. intro H. apply key_entry. apply (in_map fst) in H. rewrite buckets_keys in H. exact (proj1 (keys_In ltb (so_total _ S) _ _) H). Qed.
Lemma es_terms : map (fun e => (show (fst e), snd e)) es = buckets ltb (written docs).
Proof.
  unfold es. rewrite map_map. cbn [fst snd]. rewrite <- (map_id (buckets ltb (written docs))) at 2. apply map_ext_in. intros b Hb. destruct (bucket_key b Hb) as (l & g & _ & _ & E & Q). rewrite Q, (read_show valid g V E), <- Q. destruct b; reflexivity.
Qed.
Lemma es_ok : Forall (fun e => entry_ok valid (fst e)) es.
Proof. apply Forall_forall. intros e He. apply in_map_iff in He. destruct He as (b & <- & Hb). destruct (bucket_key b Hb) as (l & g & _ & _ & E & Q). cbn [fst]. rewrite Q, (read_show valid g V E). exact E. Qed.
Lemma es_path p : In p (map (fun e => fst (fst e)) es) <-> exists l, In l docs /\ lists_path p l.
Proof.
  unfold es. rewrite map_map. cbn [fst]. rewrite in_map_iff. split.
  - intros (b & <- & Hb). destruct (bucket_key b Hb) as (l & g & L1 & L2 & E & Q). exists l. split; [exact L1|]. rewrite Q, (read_show valid g V E). apply in_map, L2.
  - intros (l & L1 & L2). apply in_map_iff in L2. destruct L2 as (g & <- & Hg). rewrite Forall_forall in Hd. destruct (Hd l L1) as [_ E]. rewrite Forall_forall in E. specialize (E g Hg).
    assert (Hk : In (show g) (map fst (buckets ltb (written docs)))).
    { rewrite buckets_keys. apply (keys_In ltb (so_total _ S)). apply in_concat. exists (map show l). split; [apply in_map, L1|apply in_map, Hg]. }
    apply in_map_iff in Hk. destruct Hk as (b & B1 & B2). exists b. split; [rewrite B1, (read_show valid g V E); reflexivity|exact B2].
Qed.
Lemma shown_nodup l : listing_ok valid l -> NoDup (map show l).
Proof.
  intros [N E]. induction l as [|g l IH]; [constructor|]. inversion N as [|? ? N1 N2]; subst. inversion E as [|? ? E1 E2]; subst. cbn [map]. constructor; [|exact (IH N2 E2)]. intro H. apply in_map_iff in H. destruct H as (g' & Q & Hg). rewrite Forall_forall in E2. apply (f_equal read) in Q. rewrite (read_show valid g V E1), (read_show valid g' V (E2 g' Hg)) in Q. subst g'. apply N1, in_map, Hg.
Qed.
Lemma es_total (Q : pystr * list pystr -> bool) p : (forall g, Q g = true -> fst g = p) -> total (fun e => Q (fst e)) es = length (filter (existsb Q) docs).
Proof.
  intro HQ. unfold total, es.
  assert (A : map snd (filter (fun e => Q (fst e)) (map (fun b => (read (fst b), snd b)) (buckets ltb (written docs)))) =
    map (fun v => length (filter (existsb (eqk ltb v)) (written docs))) (filter (fun v => Q (read v)) (fold_right (bins ltb) [] (concat (written docs))))).
  { unfold buckets. induction (fold_right (bins ltb) [] (concat (written docs))) as [|v ks IH]; [reflexivity|]. cbn [map filter fst snd]. destruct (Q (read v)); cbn [map snd]; rewrite IH; reflexivity. }
  rewrite A. rewrite (exchange (fun v d => existsb (eqk ltb v) d) (fun v => Q (read v))). clear A.
  rewrite <- (sum_bool (existsb Q) (fun l => length (filter Q l))).
  - unfold written at 2. rewrite map_map. f_equal. apply map_ext_in. intros l Hl. pose proof Hd as Hd'. rewrite Forall_forall in Hd'. pose proof (Hd' l Hl) as Ol. destruct Ol as [N E].
    rewrite (same_length (fun v => Q (read v)) _ _ (map show l)).
    + clear - E V. induction l as [|g l IH]; [reflexivity|]. inversion E as [|? ? E1 E2]; subst. cbn [map filter]. rewrite (read_show valid g V E1). destruct (Q g); cbn [length]; rewrite (IH E2); reflexivity.
    + rewrite <- buckets_keys. destruct (C34_terms _ ltb (written docs) 1 S (le_n 1)) as (terms & T1 & T2 & T3 & _).
      pose proof (iter_terms_buckets ltb (so_irrefl _ S) (so_trans _ S) (so_total _ S) (written docs) 1 _ (le_n 1) (Nat.lt_succ_diag_r _)) as B. apply T2 in B. rewrite B. exact T3.
    + apply shown_nodup. split; assumption.
    + intros v Hv. apply (keys_In ltb (so_total _ S)). apply in_concat. exists (map show l). split; [apply in_map, Hl|exact Hv].
    + intro v. rewrite andb_true_iff, existsb_exists. split.
      * intros [H1 (w & H2 & H3)]. apply (eqk_eq ltb S) in H3. subst w. auto.
      * intros [H1 H2]. split; [exact H1|]. exists v. split; [exact H2|apply (eqk_eq ltb S); reflexivity].
  - intros l Hl. rewrite Forall_forall in Hd. destruct (Hd l Hl) as [N _]. exact (one_entry Q p l N HQ).
Qed.
Lemma acc_spec : exists acc, add_terms valid [] (buckets ltb (written docs)) = Some acc /\ NoDup (dkeys acc) /\
  (forall p, In p (dkeys acc) <-> exists l, In l docs /\ lists_path p l) /\
  (forall e, In e acc -> number (lists_path (fst e)) docs (fst (snd e)) /\ forall t, number (lists_type (fst e) t) docs (counter_get (snd (snd e)) t)).
Proof.
  destruct (add_terms_spec valid V es [] es_ok (NoDup_nil _)) as (acc & A1 & A2 & A3 & A4). rewrite es_terms in A1. exists acc. split; [exact A1|]. split; [exact A2|]. split.
  - intro p. rewrite A3, es_path. cbn. tauto.
  - intros [p [n m]] He. cbn [fst snd]. destruct (A4 p n m (In_dget _ _ _ A2 He)) as [B1 B2]. cbn [dget] in B1, B2. split.
    + rewrite B1, Nat.add_0_l. change (at_path p) with (fun e : pystr * list pystr * nat => str_eqb p (fst (fst e))). rewrite (es_total (fun g => str_eqb p (fst g)) p) by (intros g E; apply str_eqb_eq in E; congruence). apply number_filter. intros l _. unfold lists_path. rewrite existsb_exists, in_map_iff. split; intros (g & G1 & G2); exists g; [apply str_eqb_eq in G2|split; [exact G2|apply str_eqb_eq]]; auto.
    + intro t. rewrite B2, Nat.add_0_l. change (at_type p t) with (fun e : pystr * list pystr * nat => str_eqb p (fst (fst e)) && memb t (snd (fst e))). rewrite (es_total (fun g => str_eqb p (fst g) && memb t (snd g)) p) by (intros g E; apply andb_true_iff in E; destruct E as [E _]; apply str_eqb_eq in E; congruence). apply number_filter. intros l _. unfold lists_type. rewrite existsb_exists. split.
      * intros ([q ts] & G1 & G2). apply andb_true_iff in G2. destruct G2 as [G2 G3]. apply str_eqb_eq in G2. apply memb_In in G3. cbn [fst snd] in *. subst q. eauto.
      * intros (ts & G1 & G2). exists (p, ts). split; [exact G1|]. cbn [fst snd]. rewrite str_eqb_refl. apply memb_In, G2.
Qed.
End Doc.
Lemma describes_perm fs fs' docs : Permutation fs fs' -> StronglySorted in_order fs' ->
  NoDup (map f_path fs) -> (forall p, In p (map f_path fs) <-> exists l, In l docs /\ lists_path p l) ->
  (forall f, In f fs -> number (lists_path (f_path f)) docs (f_count f) /\ forall t, number (lists_type (f_path f) t) docs (type_count f t)) -> describes fs' docs.
Proof.
  intros P Hs N I C. split; [exact (Permutation_NoDup (Permutation_map _ P) N)|]. split; [|split; [|split; [|exact Hs]]].
  - intro p. rewrite <- I. split; apply Permutation_in; [apply Permutation_sym|]; apply Permutation_map, P.
  - intros f Hf. apply (C f). exact (Permutation_in _ (Permutation_sym P) Hf).
  - intros f t Hf. apply (C f). exact (Permutation_in _ (Permutation_sym P) Hf).
Qed.
Lemma iter_result (ltb : pystr -> pystr -> bool) docs terms : strict_order ltb -> iter_terms ltb terms docs 50 = None \/ iter_terms ltb terms docs 50 = Some (buckets ltb docs).
Proof.
  intro S. destruct (iter_terms ltb terms docs 50) as [ts|] eqn:E; [right|left; reflexivity]. f_equal. destruct (C34_terms _ ltb docs 50 S ltac:(lia)) as (t & _ & T & _). rewrite (T _ _ E). symmetry. apply (T (Datatypes.S (length (buckets ltb docs)))). apply (iter_terms_buckets ltb (so_irrefl _ S) (so_trans _ S) (so_total _ S)); lia.
Qed.
Lemma bins_length ltb x (l : list pystr) : length (bins ltb x l) <= Datatypes.S (length l).
Proof. induction l as [|y l IH]; cbn [bins length]; [lia|]. destruct (ltb x y); [cbn; lia|]. destruct (ltb y x); cbn [length]; lia. Qed.
Lemma buckets_length (ltb : pystr -> pystr -> bool) docs : length (buckets ltb docs) <= length (concat docs).
Proof.
  rewrite <- (map_length fst), buckets_keys. induction (concat docs) as [|x l IH]; [reflexivity|]. cbn [fold_right length]. pose proof (bins_length ltb x (fold_right (bins ltb) [] l)). lia.
Qed.

Lemma plain_paths (acc : list (pystr * counts)) : map f_path (map plain_field acc) = dkeys acc.
Proof. rewrite map_map. reflexivity. Qed.
Lemma link_paths fs : map f_path (link_fields fs) = map f_path fs.
Proof. unfold link_fields. rewrite map_map. reflexivity. Qed.
Lemma path_unique (fs : list field) f g : NoDup (map f_path fs) -> In f fs -> In g fs -> f_path f = f_path g -> f = g.
Proof.
  induction fs as [|x fs IH]; intros N Hf Hg E; [destruct Hf|]. cbn [map] in N. inversion N as [|? ? N1 N2]; subst. destruct Hf as [<-|Hf], Hg as [<-|Hg]; [reflexivity| | |exact (IH N2 Hf Hg E)]; exfalso; apply N1; [rewrite E|rewrite <- E]; apply in_map; assumption.
Qed.
Lemma container_iff f : is_container f = true <-> container f.
Proof. unfold is_container, container. rewrite orb_true_iff, !Nat.ltb_lt. reflexivity. Qed.
Lemma dotted_inj p k q k' : dotless k -> dotless k' -> dotted p k = dotted q k' -> p = q.
Proof. intros D D' E. apply (f_equal rsplit_dot) in E. rewrite !rsplit_dotted in E by assumption. congruence. Qed.
Lemma link_linked fs : NoDup (map f_path fs) -> linked (link_fields fs).
Proof.
  intros N f Hf. apply in_map_iff in Hf. destruct Hf as (x & <- & Hx). rewrite link_paths. cbn [f_path f_children f_parent f_types type_count].
  assert (C : forall y, container (Field (f_path y) (f_count y) (f_types y) None []) <-> is_container y = true) by (intro y; rewrite container_iff; reflexivity).
  assert (Kids : forall y, In y fs -> forall q, In q (if is_container y then map f_path (filter (is_child y) fs) else []) <-> is_container y = true /\ In q (map f_path fs) /\ exists k, dotless k /\ q = dotted (f_path y) k).
  { intros y Hy q. destruct (is_container y); [|cbn; intuition discriminate]. rewrite !in_map_iff. split.
    - intros (c & <- & Hc). apply filter_In in Hc. destruct Hc as [C1 C2]. apply is_child_iff in C2. split; [reflexivity|]. split; [exists c; auto|exact C2].
    - intros (_ & (c & <- & Hc) & K). exists c. split; [reflexivity|]. apply filter_In. split; [exact Hc|]. apply is_child_iff. exact K. }
  split.
  - intro q. rewrite (Kids x Hx q). change (container _) with (container (Field (f_path x) (f_count x) (f_types x) None [])) at 1. rewrite C. reflexivity.
  - intro q. split.
    + intro E. destruct (rev (filter (fun f => is_container f && is_child f x) fs)) as [|g r] eqn:R; [discriminate|]. injection E as <-.
      assert (G : In g (filter (fun f => is_container f && is_child f x) fs)) by (apply in_rev; rewrite R; left; reflexivity). apply filter_In in G. destruct G as [G1 G2]. apply andb_true_iff in G2. destruct G2 as [G2 G3].
      exists (Field (f_path g) (f_count g) (f_types g) (match rev (filter (fun f => is_container f && is_child f g) fs) with f :: _ => Some (f_path f) | [] => None end) (if is_container g then map f_path (filter (is_child g) fs) else [])).
      split; [apply in_map_iff; exists g; split; [reflexivity|exact G1]|]. split; [reflexivity|]. cbn [f_children]. apply (Kids g G1). split; [exact G2|]. split; [apply in_map, Hx|]. apply is_child_iff, G3.
    + intros (g' & G1 & <- & G2). apply in_map_iff in G1. destruct G1 as (g & <- & Hg). cbn [f_path f_children] in *. apply (Kids g Hg) in G2. destruct G2 as (C1 & _ & (k & D & E)).
      assert (G : In g (filter (fun f => is_container f && is_child f x) fs)) by (apply filter_In; split; [exact Hg|]; rewrite C1; apply is_child_iff; eauto).
      destruct (rev (filter (fun f => is_container f && is_child f x) fs)) as [|h r] eqn:R; [apply in_rev in G; rewrite R in G; destruct G|].
      assert (G' : In h (filter (fun f => is_container f && is_child f x) fs)) by (apply in_rev; rewrite R; left; reflexivity). apply filter_In in G'. destruct G' as [_ G']. apply andb_true_iff in G'. destruct G' as [_ G']. apply is_child_iff in G'. destruct G' as (k' & D' & E').
      f_equal. rewrite E in E'. symmetry. exact (dotted_inj _ _ _ _ D D' E').
Qed.
Lemma linked_perm fs fs' : Permutation fs fs' -> linked fs -> linked fs'.
Proof.
  intros P H f Hf. assert (I : forall g, In g fs <-> In g fs') by (intro g; split; apply Permutation_in; [exact P|apply Permutation_sym, P]). assert (J : forall q, In q (map f_path fs) <-> In q (map f_path fs')) by (intro q; split; apply Permutation_in; apply Permutation_map; [exact P|apply Permutation_sym, P]).
  destruct (H f (proj2 (I f) Hf)) as [A B]. split; intro q.
  - rewrite A, J. reflexivity.
  - rewrite B. split; intros (g & G1 & G2); exists g; split; [apply I|..]; auto. apply I. exact G1.
Qed.
Lemma data_valid : valid_ok data_type_names. Proof. intros t H. apply valid_chars. left. exact H. Qed.
Lemma parsed_valid : valid_ok parsed_type_names. Proof. intros t H. apply valid_chars. right. exact H. Qed.
Lemma written_length docs : length (concat (written docs)) = length (concat docs).
Proof. unfold written. rewrite <- concat_map, map_length. reflexivity. Qed.

(** C54, for every list of documents that list every path once: the listing ends (with as many requests as there are entries, plus one), the same for every number of requests,
    it describes the documents and the fields are linked. *)
Theorem C54_data_fields : forall ltb docs, strict_order ltb -> Forall (listing_ok data_type_names) docs -> exists fs,
  (forall fuel, length (concat docs) < fuel -> get_data_fields ltb fuel (written docs) = Some fs) /\
  (forall fuel fs', get_data_fields ltb fuel (written docs) = Some fs' -> fs' = fs) /\
  describes fs docs /\ linked fs.
Proof.
  intros ltb docs S Hd. destruct (acc_spec _ data_valid ltb S docs Hd) as (acc & A1 & A2 & A3 & A4). exists (order_fields (link_fields (map plain_field acc))).
  assert (P := Permutation_sym (order_perm (link_fields (map plain_field acc)))). split; [|split; [|split]].
  - intros fuel Hf. unfold get_data_fields. rewrite (iter_terms_buckets ltb (so_irrefl _ S) (so_trans _ S) (so_total _ S)) by (lia || (pose proof (buckets_length ltb (written docs)); rewrite written_length in *; lia)). rewrite A1. reflexivity.
  - intros fuel fs'. unfold get_data_fields. destruct (iter_result ltb (written docs) fuel S) as [->| ->]; [discriminate|]. rewrite A1. intro Q. injection Q as <-. reflexivity.
  - apply (describes_perm _ _ docs P (order_sorted _)); rewrite ?link_paths, ?plain_paths; [exact A2|exact A3|].
    intros f Hf. apply in_map_iff in Hf. destruct Hf as (x & <- & Hx). apply in_map_iff in Hx. destruct Hx as (e & <- & He). exact (A4 e He).
  - apply (linked_perm _ _ P), link_linked. rewrite plain_paths. exact A2.
Qed.
Print Assumptions C54_data_fields.
Theorem C54_parsed_fields : forall ltb docs, strict_order ltb -> Forall (listing_ok parsed_type_names) docs -> exists fs,
  (forall fuel, length (concat docs) < fuel -> get_parsed_fields ltb fuel (written docs) = Some fs) /\
  (forall fuel fs', get_parsed_fields ltb fuel (written docs) = Some fs' -> fs' = fs) /\
  describes fs docs.
Proof.
  intros ltb docs S Hd. destruct (acc_spec _ parsed_valid ltb S docs Hd) as (acc & A1 & A2 & A3 & A4). exists (order_fields (map plain_field acc)).
  assert (P := Permutation_sym (order_perm (map plain_field acc))). split; [|split].
  - intros fuel Hf. unfold get_parsed_fields. rewrite (iter_terms_buckets ltb (so_irrefl _ S) (so_trans _ S) (so_total _ S)) by (lia || (pose proof (buckets_length ltb (written docs)); rewrite written_length in *; lia)). rewrite A1. reflexivity.
  - intros fuel fs'. unfold get_parsed_fields. destruct (iter_result ltb (written docs) fuel S) as [->| ->]; [discriminate|]. rewrite A1. intro Q. injection Q as <-. reflexivity.
  - apply (describes_perm _ _ docs P (order_sorted _)); rewrite ?plain_paths; [exact A2|exact A3|].
    intros f Hf. apply in_map_iff in Hf. destruct Hf as (e & <- & He). exact (A4 e He).
Qed.
Print Assumptions C54_parsed_fields.

(** ** From the records *)
Lemma listing_intro valid h S (occurs : list pystr -> pystr -> Prop) : h <> dot -> well_placed h occurs ->
  (forall s, In s S <-> exists p t, occurs p t /\ s = join dot (p ++ [t])) -> NoDup S -> (forall p t, occurs p t -> In t valid) ->
  exists l, compress S = map show l /\ listing_ok valid l /\
    (forall p t, p <> [] -> Forall dotless p -> (lists_type (join dot p) t l <-> occurs p t)) /\
    (forall q, lists_path q l <-> exists p t, q = join dot p /\ occurs p t).
Proof.
  intros Hh Hocc HS Hn Hv. assert (HT : Forall (typed h) S).
  { apply Forall_forall. intros s Hs. apply HS in Hs. destruct Hs as (p & t & O & ->). destruct (Hocc p t O) as (O1 & O2 & O3 & O4 & O5). exists p, t. auto 8. }
  destruct (compress_spec h S Hh HT) as (l & L1 & L2 & L3 & L5 & L4). specialize (L3 Hn). rewrite Forall_forall in L5, L3.
  assert (Hin : forall q ts t, In (q, ts) l -> In t ts -> exists p, q = join dot p /\ occurs p t).
  { intros q ts t H1 H2. destruct (L5 _ H1) as [_ Z]. rewrite Forall_forall in Z. specialize (Z t H2). cbn in Z.
    assert (K : In (dotted q t) S) by (apply L4; eauto). apply HS in K. destruct K as (p & t' & O & E). destruct (Hocc p t' O) as (O1 & O2 & O3 & _). rewrite join_snoc in E by exact O1. apply (f_equal rsplit_dot) in E. rewrite !rsplit_dotted in E by assumption. injection E as -> ->. eauto. }
  assert (Hout : forall p t, occurs p t -> lists_type (join dot p) t l).
  { intros p t O. destruct (Hocc p t O) as (O1 & O2 & O3 & _). apply (L4 (join dot p) t O3), HS. exists p, t. split; [exact O|symmetry; apply join_snoc, O1]. }
  exists l. split; [exact L1|]. split; [|split].
  - split; [exact L2|]. apply Forall_forall. intros [q ts] Hg. split; [apply (L5 _ Hg)|]. split; [apply (L3 _ Hg)|]. apply Forall_forall. intros t Ht. destruct (Hin q ts t Hg Ht) as (p & _ & O). exact (Hv p t O).
  - intros p t Hp Hd. split; [|apply Hout]. intros (ts & H1 & H2). destruct (Hin _ _ _ H1 H2) as (p' & P1 & P2). destruct (Hocc p' t P2) as (O1 & O2 & _). apply (f_equal split) in P1. rewrite !split_join in P1 by assumption. subst p'. exact P2.
  - intro q. split.
    + intro H. apply in_map_iff in H. destruct H as ([q' ts] & <- & Hg). destruct (L5 _ Hg) as [Ne _]. cbn [snd fst] in *. destruct ts as [|t ts]; [contradiction|]. destruct (Hin q' _ t Hg (or_introl eq_refl)) as (p & P1 & P2). eauto.
    + intros (p & t & -> & O). destruct (Hout p t O) as (ts & H1 & _). exact (in_map fst _ _ H1).
Qed.
Lemma has_type_valid v p t : has_type v p t -> In t data_type_names.
Proof. induction 1 as [d k v H|d k v p t H H1 IH|l v H|l v p t H H1 IH]; auto; destruct v; cbn; auto 10. Qed.
Lemma parsed_type_valid t : parsed_type t -> In t parsed_type_names.
Proof. unfold parsed_type, parsed_type_names. cbn [In]. tauto. Qed.
Lemma has_parsed_root_valid L o d p t : has_parsed_root L o d p t -> In t parsed_type_names.
Proof. intros [k v p' t' _ H|h t' _ _ H]; apply parsed_type_valid; [exact (has_parsed_ok L o _ _ _ H)|exact (geo_type_ok _ H)]. Qed.
(** what contains something is a list or a dict *)
Lemma has_type_parent v q k t : q <> [] -> has_type v (q ++ [k]) t -> has_type v q (lit "#l") \/ has_type v q (lit "#d").
Proof.
  intro Hq. revert v. induction q as [|c q IH]; intros v H; [contradiction|]. destruct q as [|c' q].
  - cbn [app] in H. inversion H as [|d k' w p' t' H1 H2| |l w p' t' H1 H2]; subst; (destruct w as [| | | | |l2|d2]; try (solve [inversion H2])).
    + left. exact (ht_key d c (VList l2) H1).
    + right. exact (ht_key d c (VDict d2) H1).
    + left. exact (ht_elem l (VList l2) H1).
    + right. exact (ht_elem l (VDict d2) H1).
  - change ((c :: c' :: q) ++ [k]) with (c :: (c' :: q) ++ [k]) in H. inversion H as [d k' w E|d k' w p' t' H1 H2|l w E|l w p' t' H1 H2]; subst.
    + destruct (IH ltac:(discriminate) w H2) as [A|A]; [left|right]; exact (ht_dict d c w (c' :: q) _ H1 A).
    + destruct (IH ltac:(discriminate) w H2) as [A|A]; [left|right]; exact (ht_list l w (c' :: q) _ H1 A).
Qed.
Lemma number_pos {A} (Q : A -> Prop) l n x : number Q l n -> In x l -> Q x -> 0 < n.
Proof. induction 1 as [|y l n Hy H IH|y l n Hy H IH]; intros Hx Qx; [destruct Hx|lia|]. destruct Hx as [<-|Hx]; [contradiction|exact (IH Hx Qx)]. Qed.
Lemma number_zero {A} (Q : A -> Prop) l n : number Q l n -> 0 < n -> exists x, In x l /\ Q x.
Proof. induction 1 as [|y l n Hy H IH|y l n Hy H IH]; intro Hn; [lia|exists y; split; [left; reflexivity|exact Hy]|]. destruct (IH Hn) as (x & X1 & X2). exists x. split; [right; exact X1|exact X2]. Qed.
(** records that match their listings *)
Section Records.
Context {R : Type} (valid : list pystr) (h : N) (occurs : R -> list pystr -> pystr -> Prop) (entries : R -> list pystr).
Definition listed (rec : R) (l : listing) : Prop := entries rec = map show l /\ listing_ok valid l /\
  (forall p t, p <> [] -> Forall dotless p -> (lists_type (join dot p) t l <-> occurs rec p t)) /\ (forall q, lists_path q l <-> exists p t, q = join dot p /\ occurs rec p t).
Definition fields_of_records (fs : list field) (records : list R) : Prop :=
  NoDup (map f_path fs) /\ StronglySorted in_order fs /\
  (forall p, p <> [] -> Forall dotless p -> (In (join dot p) (map f_path fs) <-> exists rec t, In rec records /\ occurs rec p t)) /\
  (forall f, In f fs -> exists p, p <> [] /\ Forall dotless p /\ f_path f = join dot p /\
     number (fun rec => exists t, occurs rec p t) records (f_count f) /\ forall t, number (fun rec => occurs rec p t) records (type_count f t)).
Lemma records_describe records ls fs : (forall rec, In rec records -> well_placed h (occurs rec)) -> Forall2 listed records ls -> describes fs ls -> fields_of_records fs records.
Proof.
  intros W F (D1 & D2 & D3 & D4 & D5).
  assert (F1 : forall rec, In rec records -> exists l, In l ls /\ listed rec l).
  { clear - F. induction F as [|r l rs ls H F IH]; [intros _ []|]. intros rec [<-|Hr]; [exists l; split; [left; reflexivity|exact H]|]. destruct (IH rec Hr) as (l' & L1 & L2). exists l'. split; [right; exact L1|exact L2]. }
  assert (F2 : forall l, In l ls -> exists rec, In rec records /\ listed rec l).
  { clear - F. induction F as [|r l rs ls H F IH]; [intros _ []|]. intros l' [<-|Hr]; [exists r; split; [left; reflexivity|exact H]|]. destruct (IH l' Hr) as (r' & L1 & L2). exists r'. split; [right; exact L1|exact L2]. }
  assert (T : forall (Q : listing -> Prop) (Q' : R -> Prop) n, (forall rec l, In rec records -> listed rec l -> (Q l <-> Q' rec)) -> number Q ls n -> number Q' records n).
  { clear - F. intros Q Q'. induction F as [|r l rs ls H F IH]; intros n E N; inversion N; subst; [constructor|apply nu_yes|apply nu_no]; try (apply IH; [intros; apply E; [right|]; assumption|assumption]); [apply (E r l (or_introl eq_refl) H); assumption|intro K; apply (E r l (or_introl eq_refl) H) in K; contradiction]. }
  assert (P : forall rec l p, In rec records -> listed rec l -> p <> [] -> Forall dotless p -> (lists_path (join dot p) l <-> exists t, occurs rec p t)).
  { intros rec l p Hr (_ & _ & _ & H) Hp Hd. rewrite H. split; [|intros (t & O); exists p, t; auto]. intros (p' & t & E & O). destruct (W rec Hr p' t O) as (O1 & O2 & _). apply (f_equal split) in E. rewrite !split_join in E by assumption. subst p'. eauto. }
  split; [exact D1|]. split; [exact D5|]. split.
  - intros p Hp Hd. rewrite D2. split.
    + intros (l & L1 & L2). destruct (F2 l L1) as (rec & R1 & R2). apply (P rec l p R1 R2 Hp Hd) in L2. destruct L2 as (t & O). eauto.
    + intros (rec & t & R1 & O). destruct (F1 rec R1) as (l & L1 & L2). exists l. split; [exact L1|]. apply (P rec l p R1 L2 Hp Hd). eauto.
  - intros f Hf. destruct (proj1 (D2 (f_path f)) (in_map f_path _ _ Hf)) as (l & L1 & L2). destruct (F2 l L1) as (rec & R1 & R2). destruct R2 as (_ & _ & _ & R2). apply R2 in L2. destruct L2 as (p & t & E & O). destruct (W rec R1 p t O) as (O1 & O2 & _). exists p. split; [exact O1|]. split; [exact O2|]. split; [exact E|]. split.
    + apply (T (lists_path (f_path f))); [|exact (D3 f Hf)]. intros rec' l' Hr Hl. rewrite E. exact (P rec' l' p Hr Hl O1 O2).
    + intro t'. apply (T (lists_type (f_path f) t')); [|exact (D4 f t' Hf)]. intros rec' l' Hr (_ & _ & Hl & _). rewrite E. exact (Hl p t' O1 O2).
Qed.
End Records.

(** Every field is of a record: it is at a path (a list of components; an empty one is an element of a list), counted as many times as there are records
    that have something there; and its parent is the field at the path without the last component (none for the fields of the record itself).
    Missing: records with a nested field name that starts with "#" (see C54_count_refuted). *)
Definition parent_path (p : list pystr) : option pystr := match removelast p with [] => None | q => Some (join dot q) end.
Theorem C54_data_records_partial : forall db pad L o ltb records rs, db_ok db -> strict_order ltb ->
  (forall rec, In rec records -> forall k, nested_key k (prepare_record_data db pad rec) -> ~ starts 35 k) ->
  Forall2 (fun rec r => parse L o (prepare_record_data db pad rec) = Some r) records rs -> exists fs,
  (exists n, forall fuel, n < fuel -> get_data_fields ltb fuel (map p_data_types rs) = Some fs) /\
  (forall fuel fs', get_data_fields ltb fuel (map p_data_types rs) = Some fs' -> fs' = fs) /\
  fields_of_records (fun rec => has_type (VDict (prepare_record_data db pad rec))) fs records /\ linked fs /\
  (forall p f, p <> [] -> Forall dotless p -> In f fs -> f_path f = join dot p -> f_parent f = parent_path p).
Proof.
  intros db pad L o ltb records rs Hdb Ho Hk F.
  set (occ := fun rec => has_type (VDict (prepare_record_data db pad rec))).
  assert (W : forall rec, In rec records -> well_placed 35 (occ rec)).
  { intros rec Hr. assert (X : exists r, parse L o (prepare_record_data db pad rec) = Some r) by (clear - F Hr; induction F as [|r0 x rs0 xs E F IH]; [destruct Hr|destruct Hr as [<-|Hr]; [eauto|exact (IH Hr)]]). destruct X as (r & E). destruct (data_occurs db pad rec L o r Hdb (Hk rec Hr) E) as (S & _ & O & _). exact O. }
  assert (X : exists ls, map p_data_types rs = written ls /\ Forall2 (listed data_type_names occ (fun rec => match parse L o (prepare_record_data db pad rec) with Some r => p_data_types r | None => [] end)) records ls).
  { clear W. induction F as [|rec r recs rs E F IH]; [exists []; split; [reflexivity|constructor]|]. destruct IH as (ls & I1 & I2); [intros rec' Hr; apply Hk; right; exact Hr|].
    destruct (data_occurs db pad rec L o r Hdb (Hk rec (or_introl eq_refl)) E) as (S & E1 & E2 & E3 & E4). destruct (listing_intro data_type_names 35 S _ ltac:(discriminate) E2 E3 E4 (has_type_valid _)) as (l & L1 & L2 & L3 & L4).
    exists (l :: ls). split; [cbn [map written]; rewrite E1, L1; f_equal; exact I1|]. constructor; [|exact I2]. unfold listed. rewrite E, E1. auto. }
  destruct X as (ls & Q & FL). assert (LO : Forall (listing_ok data_type_names) ls) by (clear - FL; induction FL as [|r l rs ls H F IH]; constructor; [apply H|exact IH]).
  destruct (C54_data_fields ltb ls Ho LO) as (fs & A & B & C & D). rewrite Q. exists fs. split; [exists (length (concat ls)); exact A|]. split; [exact B|].
  pose proof (records_describe _ 35 _ _ records ls fs W FL C) as E. split; [exact E|]. split; [exact D|].
  intros p f Hp Hd Hf Ef. destruct E as (E1 & _ & E3 & E4). destruct (exists_last Hp) as (q & k & ->). unfold parent_path. rewrite removelast_last. apply Forall_app in Hd. destruct Hd as [Dq Dk]. inversion Dk as [|? ? Dk1 _]; subst. destruct (D f Hf) as [_ D2]. destruct q as [|c q].
  - destruct (f_parent f) as [x|] eqn:Ep; [|reflexivity]. exfalso. destruct (proj1 (D2 x) eq_refl) as (g & G1 & _ & G2). destruct (D g G1) as [D1 _]. apply D1 in G2. destruct G2 as (_ & _ & (k' & _ & Q')). rewrite Ef in Q'. cbn in Q'. apply Dk1. rewrite Q'. apply in_or_app. right. left. reflexivity.
  - apply D2. set (pq := c :: q) in *. assert (Hq : pq <> []) by discriminate.
    destruct (proj1 (E3 (pq ++ [k]) (fun N => Hp N) (proj2 (Forall_app _ _ _) (conj Dq Dk))) ltac:(rewrite <- Ef; apply in_map, Hf)) as (rec & t & R1 & R2).
    destruct (has_type_parent _ pq k t Hq R2) as [K|K]; (assert (G : In (join dot pq) (map f_path fs)) by (apply (E3 pq Hq Dq); exists rec; eexists; split; [exact R1|exact K]); apply in_map_iff in G; destruct G as (g & G1 & G2); exists g; split; [exact G2|]; split; [exact G1|]; destruct (D g G2) as [D1 _]; apply D1; split;
      [destruct (E4 g G2) as (p' & P1 & P2 & P3 & _ & P5); rewrite G1 in P3; apply (f_equal split) in P3; rewrite !split_join in P3 by assumption; subst p'; [left + right]; exact (number_pos _ _ _ _ (P5 _) R1 K)|split; [apply in_map, Hf|exists k; split; [exact Dk1|rewrite G1, Ef; apply join_snoc, Hq]]]).
Qed.
Print Assumptions C54_data_records_partial.
(** The same for the parsed fields. Missing: records with a nested "_id" (see C54_count_refuted) and hints that fire on values
    that themselves parse as geometry. *)
Theorem C54_parsed_records_partial : forall db pad L o ltb records rs, db_ok db -> strict_order ltb ->
  (forall rec, In rec records -> ~ nested_key (lit "_id") (prepare_record_data db pad rec)) ->
  plain_latitudes L o ->
  Forall2 (fun rec r => parse L o (prepare_record_data db pad rec) = Some r) records rs -> exists fs,
  (exists n, forall fuel, n < fuel -> get_parsed_fields ltb fuel (map p_parsed_types rs) = Some fs) /\
  (forall fuel fs', get_parsed_fields ltb fuel (map p_parsed_types rs) = Some fs' -> fs' = fs) /\
  fields_of_records (fun rec => has_parsed_root L o (prepare_record_data db pad rec)) fs records.
Proof.
  intros db pad L o ltb records rs Hdb Ho Hk HP F.
  set (occ := fun rec => has_parsed_root L o (prepare_record_data db pad rec)).
  assert (W : forall rec, In rec records -> well_placed 95 (occ rec)).
  { intros rec Hr. assert (X : exists r, parse L o (prepare_record_data db pad rec) = Some r) by (clear - F Hr; induction F as [|r0 x rs0 xs E F IH]; [destruct Hr|destruct Hr as [<-|Hr]; [eauto|exact (IH Hr)]]). destruct X as (r & E). destruct (parsed_occurs db pad rec L o r Hdb (Hk rec Hr) E) as (S & _ & O & _). exact O. }
  assert (X : exists ls, map p_parsed_types rs = written ls /\ Forall2 (listed parsed_type_names occ (fun rec => match parse L o (prepare_record_data db pad rec) with Some r => p_parsed_types r | None => [] end)) records ls).
  { clear W. induction F as [|rec r recs rs E F IH]; [exists []; split; [reflexivity|constructor]|]. destruct IH as (ls & I1 & I2); [intros rec' Hr; apply Hk; right; exact Hr|].
    destruct (parsed_occurs db pad rec L o r Hdb (Hk rec (or_introl eq_refl)) E) as (S & E1 & E2 & E3 & E4). destruct (listing_intro parsed_type_names 95 S _ ltac:(discriminate) E2 E3 (E4 HP) (has_parsed_root_valid L o _)) as (l & L1 & L2 & L3 & L4).
    exists (l :: ls). split; [cbn [map written]; rewrite E1, L1; f_equal; exact I1|]. constructor; [|exact I2]. unfold listed. rewrite E, E1. auto. }
  destruct X as (ls & Q & FL). assert (LO : Forall (listing_ok parsed_type_names) ls) by (clear - FL; induction FL as [|r l rs ls H F IH]; constructor; [apply H|exact IH]).
  destruct (C54_parsed_fields ltb ls Ho LO) as (fs & A & B & C). rewrite Q. exists fs. split; [exists (length (concat ls)); exact A|]. split; [exact B|].
  exact (records_describe _ 95 _ _ records ls fs W FL C).
Qed.
Print Assumptions C54_parsed_records_partial.

(** The counts can exceed the number of records: one record, counted twice. *)
Theorem C54_count_refuted : exists db pad rec L o r fs gs, db_ok db /\ parse L o (prepare_record_data db pad rec) = Some r /\
  get_data_fields str_ltb 20 [p_data_types r] = Some fs /\ get_parsed_fields str_ltb 20 [p_parsed_types r] = Some gs /\
  (exists f, In f fs /\ f_count f = 2) /\ (exists g, In g gs /\ f_count g = 2).
Proof.
  exists ascii_db, false, (Rec (lit "r") [(KS (lit "a"), OSeq [ODict [(KS (lit "#e"), OInt 1); (KS (lit "_id"), OStr (lit "5"))]; OStr (lit "s"); OBool true])]), ex_lib, ex_opts.
  eexists. eexists. eexists. split; [exact ascii_db_ok|]. split; [vm_compute; reflexivity|]. cbn [p_data_types p_parsed_types]. split; [vm_compute; reflexivity|]. split; [vm_compute; reflexivity|].
  split; (eexists; split; [left; reflexivity|reflexivity]).
Qed.
Print Assumptions C54_count_refuted.
Definition ex_docs : list listing := [[(lit "a", [lit "#d"]); (lit "a.x", [lit "#i"; lit "#s"]); (lit "b", [lit "#s"])]; [(lit "a", [lit "#l"; lit "#n"]); (lit "a.", [lit "#d"]); (lit "a..y", [lit "#b"])]; []].
Example C54_example : Forall (listing_ok data_type_names) ex_docs /\
  option_map (map (fun f => (f_path f, f_count f, f_parent f, f_children f))) (get_data_fields str_ltb 10 (written ex_docs)) =
  Some [(lit "a", 2, None, [lit "a."; lit "a.x"]); (lit "a.", 1, Some (lit "a"), [lit "a..y"]); (lit "a..y", 1, Some (lit "a."), []); (lit "a.x", 1, Some (lit "a"), []); (lit "b", 1, None, [])].
Proof.
  split; [|vm_compute; reflexivity]. unfold ex_docs.
  repeat first [apply Forall_cons|apply Forall_nil|apply NoDup_cons|apply NoDup_nil|split|(cbn; intuition discriminate)].
Qed.
Example C54_records_example : exists fs gs r, parse geo_lib geo_opts (prepare_record_data ascii_db false geo_record) = Some r /\
  get_data_fields str_ltb 20 [p_data_types r] = Some fs /\ get_parsed_fields str_ltb 20 [p_parsed_types r] = Some gs /\
  fields_of_records (fun rec => has_type (VDict (prepare_record_data ascii_db false rec))) fs [geo_record] /\
  fields_of_records (fun rec => has_parsed_root geo_lib geo_opts (prepare_record_data ascii_db false rec)) gs [geo_record] /\ length fs = 6 /\ length gs = 4.
Proof.
  destruct C37_example as (A & B & D & r & E & E1 & E2).
  assert (F : Forall2 (fun rec r => parse geo_lib geo_opts (prepare_record_data ascii_db false rec) = Some r) [geo_record] [r]) by (constructor; [exact E|constructor]).
  destruct (C54_data_records_partial ascii_db false geo_lib geo_opts str_ltb [geo_record] [r] ascii_db_ok order_str (fun rec H => match H with or_introl Q => eq_ind _ (fun rec => forall k, nested_key k (prepare_record_data ascii_db false rec) -> ~ starts 35 k) A _ Q | or_intror Q => match Q with end end) F) as (fs & _ & F2 & F3 & _).
  destruct (C54_parsed_records_partial ascii_db false geo_lib geo_opts str_ltb [geo_record] [r] ascii_db_ok order_str (fun rec H => match H with or_introl Q => eq_ind _ (fun rec => ~ nested_key (lit "_id") (prepare_record_data ascii_db false rec)) B _ Q | or_intror Q => match Q with end end) D F) as (gs & _ & G2 & G3).
  cbn [map] in F2, G2. rewrite E1 in F2. rewrite E2 in G2.
  assert (X : exists fs', get_data_fields str_ltb 20 [p_data_types r] = Some fs' /\ length fs' = 6) by (rewrite E1; eexists; split; [vm_compute; reflexivity|reflexivity]).
  assert (Y : exists gs', get_parsed_fields str_ltb 20 [p_parsed_types r] = Some gs' /\ length gs' = 4) by (rewrite E2; eexists; split; [vm_compute; reflexivity|reflexivity]).
  destruct X as (fs' & X1 & X2), Y as (gs' & Y1 & Y2). exists fs', gs', r. split; [exact E|]. split; [exact X1|]. split; [exact Y1|]. rewrite E1 in X1. rewrite E2 in Y1. apply F2 in X1. apply G2 in Y1. subst fs' gs'. auto.
Qed.

(** ** C69: the parsed path of a data field *)
(** [value_at v p w]: [w] is at path [p] under [v], as in [has_type] *)
Inductive value_at : value -> list pystr -> value -> Prop :=
| va_key d k v : In (k, v) d -> value_at (VDict d) [k] v
| va_dict d k v p w : In (k, v) d -> value_at v p w -> value_at (VDict d) (k :: p) w
| va_elem l v : In v l -> value_at (VList l) [[]] v
| va_list l v p w : In v l -> value_at v p w -> value_at (VList l) ([] :: p) w.
Definition field_names (p : list pystr) : list pystr := filter (fun c => negb (str_eqb c [])) p.
Lemma type_value v p t : has_type v p t <-> exists w, value_at v p w /\ t = type_for w.
Proof.
  split.
  - induction 1 as [d k v H|d k v p t H H1 (w & W1 & W2)|l v H|l v p t H H1 (w & W1 & W2)]; [exists v|exists w|exists v|exists w]; (split; [constructor; assumption|auto]) || (split; [econstructor; eassumption|auto]).
  - intros (w & H & ->). induction H; [apply ht_key|eapply ht_dict|apply ht_elem|eapply ht_list]; eassumption.
Qed.
Lemma names_key (k : pystr) (p : list pystr) : k <> [] -> field_names (k :: p) = k :: field_names p.
Proof. intro H. unfold field_names. cbn [filter]. destruct k; [contradiction|reflexivity]. Qed.
Lemma value_parsed_at L o v p w t : (forall k, key_in k v -> k <> []) -> value_at v p w -> parsed_as_value w -> In t (dkeys (parse_value L o w)) -> has_parsed L o v (field_names p) t.
Proof.
  intros K H Hw Ht. induction H as [d k v H|d k v p w H H1 IH|l v H|l v p w H H1 IH].
  - refine (eq_ind_r (fun q => has_parsed L o (VDict d) q t) _ (names_key k [] (K k (key_here k d v H)))). apply (hp_key L o d k v [] t H). apply hp_value; assumption.
  - refine (eq_ind_r (fun q => has_parsed L o (VDict d) q t) _ (names_key k p (K k (key_here k d v H)))). apply (hp_key L o d k v _ t H). apply IH; [|exact Hw|exact Ht]. intros k' K'. apply K. exact (key_dict k' d k v H K').
  - apply (hp_list L o l v [] t H). apply hp_value; assumption.
  - apply (hp_list L o l v _ t H). apply IH; [|exact Hw|exact Ht]. intros k' K'. apply K. exact (key_list k' l v H K').
Qed.
Lemma parsed_value_at L o v p t : (forall k, key_in k v -> k <> []) -> has_parsed L o v p t -> ~ geo_type t -> (p = [] /\ parsed_as_value v /\ In t (dkeys (parse_value L o v))) \/ exists q w, value_at v q w /\ field_names q = p /\ parsed_as_value w /\ In t (dkeys (parse_value L o w)).
Proof.
  intros K H G. induction H as [v t H1 H2|d t H1 H2 H3|d k v p t H H1 IH|d h t H1 H2 H3 H4|l v p t H H1 IH]; try contradiction.
  - left. auto.
  - right. assert (Kk := K k (key_here k d v H)). destruct IH as [(-> & A & B)|(q & w & A & B & C & D)]; [intros k' K'; apply K; exact (key_dict k' d k v H K')|exact G| |].
    + exists [k], v. split; [constructor; exact H|]. split; [exact (names_key k [] Kk)|auto].
    + exists (k :: q), w. split; [econstructor; eassumption|]. split; [rewrite (names_key k q Kk), B; reflexivity|auto].
  - right. destruct IH as [(-> & A & B)|(q & w & A & B & C & D)]; [intros k' K'; apply K; exact (key_list k' l v H K')|exact G| |].
    + exists [[]], v. split; [constructor; exact H|]. split; [reflexivity|auto].
    + exists ([] :: q), w. split; [econstructor; eassumption|]. split; [exact B|auto].
Qed.
(** The values in the record at the path of a data field are indexed under its parsed path: whatever is parsed out of a value is there, and what is there is parsed out of such a value
    (except for geo data, which may come from GeoJSON and hints). *)
Theorem C69_parsed_path : forall db pad L o rec k p t, db_ok db -> ~ geo_type t ->
  (exists q w, value_at (VDict (prepare_record_data db pad rec)) q w /\ field_names q = k :: p /\ parsed_as_value w /\ In t (dkeys (parse_value L o w)))
  <-> has_parsed_root L o (prepare_record_data db pad rec) (k :: p) t.
Proof.
  intros db pad L o rec k p t Hdb G. pose proof (record_keys db pad rec Hdb) as RK. assert (K : forall k, key_in k (VDict (prepare_record_data db pad rec)) -> k <> []) by (intros k' K'; apply (RK k' K')). set (d := prepare_record_data db pad rec) in *. split.
  - intros (q & w & H & E & Hw & Ht). inversion H as [d' k' v H1|d' k' v p' w' H1 H2| |]; subst.
    + rewrite (names_key k' []) in E by exact (K k' (key_here k' d w H1)). injection E as -> <-. apply (hr_key L o d k w [] t H1). apply hp_value; assumption.
    + rewrite (names_key k' p') in E by exact (K k' (key_here k' d v H1)). injection E as -> <-. apply (hr_key L o d k v _ t H1). apply (value_parsed_at L o v p' w t); try assumption. intros k' K'. apply K. exact (key_dict k' d k v H1 K').
  - intro H. inversion H as [k' v p' t' H1 H2|h t' H1 H2 H3]; subst; [|contradiction].
    assert (Kk := K k (key_here k d v H1)).
    destruct (parsed_value_at L o v p t (fun k' K' => K k' (key_dict k' d k v H1 K')) H2 G) as [(-> & A & B)|(q & w & A & B & C & D)].
    + exists [k], v. split; [constructor; exact H1|]. split; [exact (names_key k [] Kk)|auto].
    + exists (k :: q), w. split; [econstructor; eassumption|]. split; [rewrite (names_key k q Kk), B; reflexivity|auto].
Qed.
Print Assumptions C69_parsed_path.
Lemma parsed_path_join f p : p <> [] -> Forall dotless p -> f_path f = join dot p -> field_parsed_path f = join dot (field_names p).
Proof. intros Hp Hd E. unfold field_parsed_path. rewrite E, split_join by assumption. reflexivity. Qed.
Example C69_example : field_parsed_path (Field (lit "a..lat") 1 [] None []) = lit "a.lat" /\ ~ geo_type pt_u /\
  value_at (VDict (prepare_record_data ascii_db false geo_record)) [lit "a"; []; lit "lat"] (VInt 3) /\ parsed_as_value (VInt 3) /\ In pt_u (dkeys (parse_value geo_lib geo_opts (VInt 3))).
Proof.
  split; [vm_compute; reflexivity|]. split; [intros [Q|Q]; discriminate Q|]. split; [|split; [exact I|left; reflexivity]].
  vm_compute. eapply va_dict; [left; reflexivity|]. eapply va_list; [left; reflexivity|]. apply va_key. left. reflexivity.
Qed.
