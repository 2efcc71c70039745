(** Which fields are listed and with which types, whatever the records are (C54, C69). Counts are the subject of PropsFields.v. *)
From Coq Require Import String Ascii.
From Coq Require Import List ZArith NArith Bool Lia Sorted Permutation.
From Verif Require Import PyVal Diff Time Prepare PrepareProofs PropsPrepare Parser ParserProofs ParserTypes ParserEq PropsParser PropsParserTypes Search PropsSearch Fields PropsFields.
Import ListNotations.
Local Open Scope string_scope.
Local Open Scope list_scope.
Local Open Scope nat_scope.

(** ** Terms *)
Definition fine (valid : list pystr) (g : pystr * list pystr) : Prop := snd g <> [] /\ Forall (fun t => In t valid) (snd g).
Lemma fine_read valid g : valid_ok valid -> fine valid g ->
  rsplit_dot (show g) = Some (fst g, join 44 (snd g)) /\ split_on 44 (join 44 (snd g)) = snd g /\ forallb (fun t => memb t valid) (snd g) = true.
Proof.
  intros V (E1 & E3). rewrite Forall_forall in E3. split; [|split].
  - apply rsplit_dotted, join_dotless; [discriminate|]. apply Forall_forall. intros t Ht. apply V, E3, Ht.
  - apply split_on_join; [exact E1|]. apply Forall_forall. intros t Ht. apply V, E3, Ht.
  - apply forallb_forall. intros t Ht. apply memb_In, E3, Ht.
Qed.
Lemma show_inj valid g g' : valid_ok valid -> fine valid g -> fine valid g' -> show g = show g' -> g = g'.
Proof.
  intros V F F' E. destruct (fine_read valid g V F) as (A & B & _). destruct (fine_read valid g' V F') as (A' & B' & _). rewrite E, A' in A. injection A as P J.
  rewrite <- J, B' in B. destruct g, g'; cbn [fst snd] in *. congruence.
Qed.
Lemma add_types_pos names n : forall m t, 0 < counter_get (add_types names n m) t <-> 0 < counter_get m t \/ 0 < n /\ In t names.
Proof.
  unfold add_types. induction names as [|x names IH]; intros m t; cbn [fold_left In]; [tauto|]. rewrite IH. unfold counter_get at 1. rewrite dget_dset.
  destruct (str_eqb t x) eqn:E.
  - apply str_eqb_eq in E. subst x. split; [intros [H|[H1 H2]]; [|tauto]|intros [H|[H1 _]]; left; lia]. destruct n; [left; lia|right; split; [lia|left; reflexivity]].
  - apply str_eqb_neq in E. fold (counter_get m t). split; [tauto|]. intros [H|[H1 [H2|H2]]]; [tauto|congruence|tauto].
Qed.
Definition tc (acc : list (pystr * counts)) (p t : pystr) : nat := match dget acc p with Some c => counter_get (snd c) t | None => 0 end.
Lemma add_terms_found valid : valid_ok valid -> forall terms acc,
  (forall b, In b terms -> 0 < snd b /\ exists g, fine valid g /\ fst b = show g) -> NoDup (dkeys acc) ->
  exists acc', add_terms valid acc terms = Some acc' /\ NoDup (dkeys acc') /\
    (forall p, In p (dkeys acc') <-> In p (dkeys acc) \/ exists b g, In b terms /\ fine valid g /\ fst b = show g /\ fst g = p) /\
    (forall p t, 0 < tc acc' p t <-> 0 < tc acc p t \/ exists b g, In b terms /\ fine valid g /\ fst b = show g /\ fst g = p /\ In t (snd g)).
Proof.
  intros V terms. induction terms as [|b terms IH]; intros acc H N.
  - exists acc. split; [reflexivity|]. split; [exact N|]. split; intros; (split; [tauto|intros [K|(b & g & [] & _)]; exact K]).
  - destruct (H b (or_introl eq_refl)) as (Pb & g & Fg & Eg). destruct (fine_read valid g V Fg) as (R1 & R2 & R3).
    cbn [add_terms]. unfold add_term. rewrite Eg, R1, R2, R3. destruct (match dget acc (fst g) with Some c => c | None => (0, []) end) as [n0 m0] eqn:E0.
    destruct (IH (dset acc (fst g) (n0 + snd b, add_types (snd g) (snd b) m0)) (fun x X => H x (or_intror X)) (NoDup_dset _ _ _ N)) as (acc' & A1 & A2 & A3 & A4).
    exists acc'. split; [exact A1|]. split; [exact A2|]. split.
    + intro p. rewrite A3, In_dkeys_dset. split.
      * intros [[->|K]|(x & y & X & Y)]; [right; exists b, g; split; [left; reflexivity|auto]|tauto|right; exists x, y; split; [right; exact X|exact Y]].
      * intros [K|(x & y & [<-|X] & F & Ex & Y)]; [tauto| |right; exists x, y; auto]. left. left. rewrite Eg in Ex. rewrite (show_inj valid g y V Fg F Ex). symmetry. exact Y.
    + intros p t. rewrite A4. unfold tc at 1. rewrite dget_dset. assert (T : p = fst g -> counter_get m0 t = tc acc p t) by (intros ->; unfold tc; destruct (dget acc (fst g)) as [[x y]|]; injection E0 as <- <-; reflexivity).
      destruct (str_eqb p (fst g)) eqn:E.
      * apply str_eqb_eq in E. cbn [snd]. rewrite add_types_pos, (T E). split.
        -- intros [[K|[_ K]]|(x & y & X & Y)]; [tauto|right; exists b, g; split; [left; reflexivity|auto]|right; exists x, y; split; [right; exact X|exact Y]].
        -- intros [K|(x & y & [<-|X] & F & Ex & Y1 & Y2)]; [tauto| |right; exists x, y; auto]. left. right. split; [exact Pb|]. rewrite Eg in Ex. rewrite (show_inj valid g y V Fg F Ex). exact Y2.
      * apply str_eqb_neq in E. fold (tc acc p t). split; [intros [K|(x & y & X & Y)]; [tauto|right; exists x, y; split; [right; exact X|exact Y]]|].
        intros [K|(x & y & [<-|X] & F & Ex & Y1 & Y2)]; [tauto| |right; exists x, y; auto]. exfalso. apply E. rewrite Eg in Ex. rewrite (show_inj valid g y V Fg F Ex). symmetry. exact Y1.
Qed.

(** ** Documents *)
(** [found fs docs]: there is a field for every path listed, once, with exactly the types listed. *)
Definition found (valid : list pystr) (fs : list field) (docs : list (list pystr)) : Prop :=
  NoDup (map f_path fs) /\
  (forall p, In p (map f_path fs) <-> exists d g, In d docs /\ In (show g) d /\ fine valid g /\ fst g = p) /\
  (forall f t, In f fs -> (0 < type_count f t <-> exists d g, In d docs /\ In (show g) d /\ fine valid g /\ fst g = f_path f /\ In t (snd g))).
Definition readable (valid : list pystr) (docs : list (list pystr)) : Prop := forall d v, In d docs -> In v d -> exists g, fine valid g /\ v = show g.
Lemma bucket_pos ltb (S : strict_order ltb) (docs : list (list pystr)) b : In b (buckets ltb docs) -> 0 < snd b /\ exists d, In d docs /\ In (fst b) d.
Proof.
  intro H. assert (K : In (fst b) (concat docs)) by (apply (in_map fst) in H; rewrite buckets_keys in H; exact (proj1 (keys_In ltb (so_total _ S) _ _) H)).
  apply in_concat in K. destruct K as (d & D1 & D2). split; [|eauto]. unfold buckets in H. apply in_map_iff in H. destruct H as (v & <- & _). cbn [fst snd] in *.
  assert (X : In d (filter (existsb (eqk ltb v)) docs)) by (apply filter_In; split; [exact D1|]; apply existsb_exists; exists v; split; [exact D2|apply (eqk_eq ltb S); reflexivity]).
  destruct (filter _ docs); [destruct X|cbn [length]; lia].
Qed.
Lemma bucket_of ltb (S : strict_order ltb) (docs : list (list pystr)) d v : In d docs -> In v d -> exists b, In b (buckets ltb docs) /\ fst b = v.
Proof.
  intros D1 D2. assert (K : In v (map fst (buckets ltb docs))) by (rewrite buckets_keys; apply (keys_In ltb (so_total _ S)), in_concat; eauto).
  apply in_map_iff in K. destruct K as (b & B1 & B2). eauto.
Qed.
Lemma acc_found valid ltb docs : valid_ok valid -> strict_order ltb -> readable valid docs ->
  exists acc, add_terms valid [] (buckets ltb docs) = Some acc /\ found valid (map plain_field acc) docs.
Proof.
  intros V S R. destruct (add_terms_found valid V (buckets ltb docs) []) as (acc & A1 & A2 & A3 & A4); [|constructor|].
  { intros b Hb. destruct (bucket_pos ltb S docs b Hb) as (P & d & D1 & D2). split; [exact P|exact (R d _ D1 D2)]. }
  exists acc. split; [exact A1|]. split; [rewrite plain_paths; exact A2|]. split.
  - intro p. rewrite plain_paths, A3. split.
    + intros [[]|(b & g & B & F & E & P)]. destruct (bucket_pos ltb S docs b B) as (_ & d & D1 & D2). rewrite E in D2. exists d, g. auto.
    + intros (d & g & D1 & D2 & F & P). destruct (bucket_of ltb S docs d _ D1 D2) as (b & B1 & B2). right. exists b, g. auto.
  - intros f t Hf. apply in_map_iff in Hf. destruct Hf as ([p [n m]] & <- & He). assert (T : counter_get m t = tc acc p t) by (unfold tc; rewrite (In_dget _ _ _ A2 He); reflexivity).
    unfold type_count. cbn [plain_field f_types f_path fst snd]. rewrite T, A4. split.
    + intros [K|(b & g & B & F & E & P1 & P2)]; [cbn in K; lia|]. destruct (bucket_pos ltb S docs b B) as (_ & d & D1 & D2). rewrite E in D2. exists d, g. auto 6.
    + intros (d & g & D1 & D2 & F & P1 & P2). destruct (bucket_of ltb S docs d _ D1 D2) as (b & B1 & B2). right. exists b, g. auto 6.
Qed.
Lemma found_perm valid fs fs' docs : Permutation fs fs' -> found valid fs docs -> found valid fs' docs.
Proof.
  intros P (A & B & C). split; [exact (Permutation_NoDup (Permutation_map _ P) A)|]. split.
  - intro p. rewrite <- B. split; apply Permutation_in; [apply Permutation_sym|]; apply Permutation_map, P.
  - intros f t Hf. apply C. exact (Permutation_in _ (Permutation_sym P) Hf).
Qed.
Lemma found_link valid fs docs : found valid fs docs -> found valid (link_fields fs) docs.
Proof.
  intros (A & B & C). split; [rewrite link_paths; exact A|]. split; [intro p; rewrite link_paths; apply B|].
  intros f t Hf. apply in_map_iff in Hf. destruct Hf as (x & <- & Hx). exact (C x t Hx).
Qed.
Lemma data_found ltb docs : strict_order ltb -> readable data_type_names docs -> exists fs,
  (exists k, forall fuel, k < fuel -> get_data_fields ltb fuel docs = Some fs) /\ (forall fuel fs', get_data_fields ltb fuel docs = Some fs' -> fs' = fs) /\ found data_type_names fs docs /\ linked fs.
Proof.
  intros S R. destruct (acc_found _ ltb docs data_valid S R) as (acc & A & B). exists (order_fields (link_fields (map plain_field acc))). split; [|split; [|split]].
  - exists (length (concat docs)). intros fuel Hf. unfold get_data_fields. rewrite (iter_terms_buckets ltb (so_irrefl _ S) (so_trans _ S) (so_total _ S)) by (lia || (pose proof (buckets_length ltb docs); lia)). rewrite A. reflexivity.
  - intros fuel fs'. unfold get_data_fields. destruct (iter_result ltb docs fuel S) as [->| ->]; [discriminate|]. rewrite A. intro Q. injection Q as <-. reflexivity.
  - exact (found_perm _ _ _ docs (Permutation_sym (order_perm _)) (found_link _ _ _ B)).
  - apply (linked_perm _ _ (Permutation_sym (order_perm _))), link_linked. apply B.
Qed.
Lemma parsed_found ltb docs : strict_order ltb -> readable parsed_type_names docs -> exists fs,
  (exists k, forall fuel, k < fuel -> get_parsed_fields ltb fuel docs = Some fs) /\ (forall fuel fs', get_parsed_fields ltb fuel docs = Some fs' -> fs' = fs) /\ found parsed_type_names fs docs.
Proof.
  intros S R. destruct (acc_found _ ltb docs parsed_valid S R) as (acc & A & B). exists (order_fields (map plain_field acc)). split; [|split].
  - exists (length (concat docs)). intros fuel Hf. unfold get_parsed_fields. rewrite (iter_terms_buckets ltb (so_irrefl _ S) (so_trans _ S) (so_total _ S)) by (lia || (pose proof (buckets_length ltb docs); lia)). rewrite A. reflexivity.
  - intros fuel fs'. unfold get_parsed_fields. destruct (iter_result ltb docs fuel S) as [->| ->]; [discriminate|]. rewrite A. intro Q. injection Q as <-. reflexivity.
  - exact (found_perm _ _ _ docs (Permutation_sym (order_perm _)) B).
Qed.

(** ** Records *)
Lemma compress_found valid T : valid_ok valid -> (forall s, In s T -> exists q t, s = dotted q t /\ In t valid) ->
  (forall v, In v (compress T) -> exists g, fine valid g /\ v = show g) /\
  (forall q t, (exists g, In (show g) (compress T) /\ fine valid g /\ fst g = q /\ In t (snd g)) <-> In (dotted q t) T /\ In t valid).
Proof.
  intros V H. assert (G : forall p g, In (p, g) (groupby path_of (sort T)) -> g <> [] /\ forall s, In s g -> In s T /\ s = dotted p (type_of s) /\ In (type_of s) valid).
  { intros p g Hg. destruct (groupby_keys _ _ _ _ Hg) as [K1 K2]. split; [exact K1|]. intros s Hs. rewrite Forall_forall in K2. specialize (K2 s Hs).
    assert (I : In s T) by (apply (Permutation_in _ (sort_perm T)); rewrite <- (groupby_flat path_of (sort T)); apply in_flat_map; eexists; split; [exact Hg|exact Hs]).
    split; [exact I|]. destruct (H s I) as (q & t & -> & Ht). unfold path_of in K2. unfold type_of. rewrite rsplit_dotted in * by apply V, Ht. subst q. auto. }
  assert (F : forall p g, In (p, g) (groupby path_of (sort T)) -> fine valid (p, map type_of g)).
  { intros p g Hg. destruct (G p g Hg) as [K1 K2]. split; [destruct g; [contradiction|discriminate]|]. apply Forall_forall. intros t Ht. apply in_map_iff in Ht. destruct Ht as (s & <- & Hs). apply (K2 s Hs). }
  split.
  - intros v Hv. apply in_map_iff in Hv. destruct Hv as ([p g] & <- & Hg). exists (p, map type_of g). split; [exact (F p g Hg)|reflexivity].
  - intros q t. split.
    + intros (g & H1 & H2 & H3 & H4). apply in_map_iff in H1. destruct H1 as ([p g'] & E & Hg). change (show (p, map type_of g') = show g) in E. apply (show_inj valid _ _ V (F p g' Hg) H2) in E. subst g. cbn [fst snd] in *. subst p.
      apply in_map_iff in H4. destruct H4 as (s & <- & Hs). destruct (G q g' Hg) as [_ K]. destruct (K s Hs) as (K1 & K2 & K3). rewrite <- K2. auto.
    + intros [H1 H2]. destruct (groupby_In path_of (sort T) (dotted q t) (Permutation_in _ (Permutation_sym (sort_perm T)) H1)) as (g & G1 & G2).
      unfold path_of in G1 at 1. rewrite rsplit_dotted in G1 by apply V, H2. exists (q, map type_of g). split; [apply in_map_iff; exists (q, g); auto|]. split; [exact (F q g G1)|]. split; [reflexivity|].
      cbn [snd]. apply in_map_iff. exists (dotted q t). split; [unfold type_of; rewrite rsplit_dotted by apply V, H2; reflexivity|exact G2].
Qed.
(** [fields_found occurs fs records]: there is a field, once, for every path at which some record has something, with exactly the types that occur there. *)
Definition fields_found {R} (occurs : R -> list pystr -> pystr -> Prop) (fs : list field) (records : list R) : Prop :=
  NoDup (map f_path fs) /\
  (forall q, In q (map f_path fs) <-> exists rec p t, In rec records /\ occurs rec p t /\ q = join dot p) /\
  (forall f t, In f fs -> (0 < type_count f t <-> exists rec p, In rec records /\ occurs rec p t /\ f_path f = join dot p)).
Lemma records_found {R D} valid (occurs : R -> list pystr -> pystr -> Prop) (types : D -> list pystr) records rs fs : valid_ok valid ->
  Forall2 (fun rec r => exists T, types r = compress T /\ forall s, In s T <-> exists p t, occurs rec p t /\ s = join dot (p ++ [t])) records rs ->
  (forall rec p t, occurs rec p t -> p <> [] /\ In t valid) ->
  readable valid (map types rs) /\ (found valid fs (map types rs) -> fields_found occurs fs records).
Proof.
  intros V F O.
  assert (A : Forall2 (fun rec r => (forall v, In v (types r) -> exists g, fine valid g /\ v = show g) /\
      forall q t, (exists g, In (show g) (types r) /\ fine valid g /\ fst g = q /\ In t (snd g)) <-> exists p, occurs rec p t /\ q = join dot p) records rs).
  { clear - V F O. induction F as [|rec r records rs (T & E & HT) F IH]; constructor; [|exact IH].
    destruct (compress_found valid T V) as [C1 C2].
    { intros s Hs. apply HT in Hs. destruct Hs as (p & t & K & ->). destruct (O _ _ _ K) as [O1 O2]. exists (join dot p), t. split; [apply join_snoc, O1|exact O2]. }
    rewrite E. split; [exact C1|]. intros q t. rewrite C2, HT. split.
    - intros ((p & t' & K & Q) & Ht). destruct (O _ _ _ K) as [O1 O2]. rewrite join_snoc in Q by exact O1. apply (f_equal rsplit_dot) in Q. rewrite !rsplit_dotted in Q by (apply V; assumption). injection Q as -> ->. eauto.
    - intros (p & K & ->). destruct (O _ _ _ K) as [O1 O2]. split; [|exact O2]. exists p, t. split; [exact K|symmetry; apply join_snoc, O1]. }
  clear F. assert (A1 : forall rec, In rec records -> exists r, In r rs /\ forall q t, (exists g, In (show g) (types r) /\ fine valid g /\ fst g = q /\ In t (snd g)) <-> exists p, occurs rec p t /\ q = join dot p).
  { clear - A. induction A as [|rec r records rs [_ H] A IH]; [intros _ []|]. intros x [<-|X]; [exists r; split; [left; reflexivity|exact H]|]. destruct (IH x X) as (y & Y1 & Y2). exists y. split; [right; exact Y1|exact Y2]. }
  assert (A2 : forall r, In r rs -> (forall v, In v (types r) -> exists g, fine valid g /\ v = show g) /\ exists rec, In rec records /\ forall q t, (exists g, In (show g) (types r) /\ fine valid g /\ fst g = q /\ In t (snd g)) <-> exists p, occurs rec p t /\ q = join dot p).
  { clear - A. induction A as [|rec r records rs [H0 H] A IH]; [intros _ []|]. intros x [<-|X]; [split; [exact H0|exists rec; split; [left; reflexivity|exact H]]|]. destruct (IH x X) as (Y0 & y & Y1 & Y2). split; [exact Y0|exists y; split; [right; exact Y1|exact Y2]]. }
  clear A. split.
  - intros d v Hd Hv. apply in_map_iff in Hd. destruct Hd as (r & <- & Hr). exact (proj1 (A2 r Hr) v Hv).
  - intros (F1 & F2 & F3).
    assert (X : forall q t, (exists d g, In d (map types rs) /\ In (show g) d /\ fine valid g /\ fst g = q /\ In t (snd g)) <-> exists rec p, In rec records /\ occurs rec p t /\ q = join dot p).
    { intros q t. split.
      - intros (d & g & D1 & D2). apply in_map_iff in D1. destruct D1 as (r & <- & Hr). destruct (A2 r Hr) as (_ & rec & R1 & R2). destruct (proj1 (R2 q t) (ex_intro _ g D2)) as (p & P). exists rec, p. auto.
      - intros (rec & p & R1 & P). destruct (A1 rec R1) as (r & Hr & R2). destruct (proj2 (R2 q t) (ex_intro _ p P)) as (g & K). exists (types r), g. split; [apply in_map, Hr|exact K]. }
    split; [exact F1|]. split.
    + intro q. rewrite F2. split.
      * intros (d & [q' ts] & D1 & D2 & D3 & D4). destruct D3 as [D3 D3']. cbn [snd fst] in *. destruct ts as [|t ts]; [contradiction|].
        destruct (proj1 (X q t)) as (rec & p & P1 & P2 & P3); [exists d, (q', t :: ts); split; [exact D1|]; split; [exact D2|]; split; [split; assumption|]; split; [exact D4|left; reflexivity]|]. exists rec, p, t. auto.
      * intros (rec & p & t & P1 & P2 & P3). destruct (proj2 (X q t) (ex_intro _ rec (ex_intro _ p (conj P1 (conj P2 P3))))) as (d & g & D1 & D2 & D3 & D4 & _). exists d, g. auto.
    + intros f t Hf. rewrite (F3 f t Hf). apply X.
Qed.
Lemma parse_types L o d r : parse L o d = Some r ->
  (exists T, p_data_types r = compress T /\ forall s, In s T <-> exists p t, has_type (VDict d) p t /\ s = join dot (p ++ [t])) /\
  (exists T, p_parsed_types r = compress T /\ forall s, In s T <-> exists p t, has_parsed_root L o d p t /\ s = join dot (p ++ [t])).
Proof.
  unfold parse. destruct (dict_body L o (parse_nested L o) false d) as [[[w dts] pts]|] eqn:E; [|discriminate]. intro H. injection H as <-. cbn [p_data_types p_parsed_types].
  split; [exists dts; split; [reflexivity|exact (root_dts L o d w dts pts E)]|exists pts; split; [reflexivity|exact (root_pts L o d w dts pts E)]].
Qed.

(** ** C54, for all records: the fields and types listed are those of the records. Only the counts can be wrong (C54_count_refuted). *)
Theorem C54_fields_found : forall db pad L o ltb records rs, db_ok db -> strict_order ltb ->
  Forall2 (fun rec r => parse L o (prepare_record_data db pad rec) = Some r) records rs -> exists fs gs,
  (exists k, forall fuel, k < fuel -> get_data_fields ltb fuel (map p_data_types rs) = Some fs /\ get_parsed_fields ltb fuel (map p_parsed_types rs) = Some gs) /\
  (forall fuel fs', get_data_fields ltb fuel (map p_data_types rs) = Some fs' -> fs' = fs) /\
  (forall fuel gs', get_parsed_fields ltb fuel (map p_parsed_types rs) = Some gs' -> gs' = gs) /\
  fields_found (fun rec => has_type (VDict (prepare_record_data db pad rec))) fs records /\
  fields_found (fun rec => has_parsed_root L o (prepare_record_data db pad rec)) gs records /\
  linked fs /\ (forall p f, p <> [] -> Forall dotless p -> In f fs -> f_path f = join dot p -> f_parent f = parent_path p).
Proof.
  intros db pad L o ltb records rs Hdb S F.
  assert (FD : Forall2 (fun rec r => exists T, p_data_types r = compress T /\ forall s, In s T <-> exists p t, has_type (VDict (prepare_record_data db pad rec)) p t /\ s = join dot (p ++ [t])) records rs) by (clear - F; induction F as [|rec r records rs H F IH]; constructor; [exact (proj1 (parse_types _ _ _ _ H))|exact IH]).
  assert (FP : Forall2 (fun rec r => exists T, p_parsed_types r = compress T /\ forall s, In s T <-> exists p t, has_parsed_root L o (prepare_record_data db pad rec) p t /\ s = join dot (p ++ [t])) records rs) by (clear - F; induction F as [|rec r records rs H F IH]; constructor; [exact (proj2 (parse_types _ _ _ _ H))|exact IH]).
  assert (OD : forall rec p t, has_type (VDict (prepare_record_data db pad rec)) p t -> p <> [] /\ In t data_type_names) by (intros rec p t H; split; [apply (has_type_ok _ _ _ H)|exact (has_type_valid _ _ _ H)]).
  assert (OP : forall rec p t, has_parsed_root L o (prepare_record_data db pad rec) p t -> p <> [] /\ In t parsed_type_names) by (intros rec p t H; split; [destruct H; discriminate|exact (has_parsed_root_valid _ _ _ _ _ H)]).
  destruct (data_found ltb (map p_data_types rs) S (proj1 (records_found _ _ _ records rs [] data_valid FD OD))) as (fs & (k & A1) & A2 & A3 & A4).
  destruct (parsed_found ltb (map p_parsed_types rs) S (proj1 (records_found _ _ _ records rs [] parsed_valid FP OP))) as (gs & (k' & B1) & B2 & B3).
  exists fs, gs. split; [exists (k + k'); intros fuel Hf; split; [apply A1|apply B1]; lia|]. split; [exact A2|]. split; [exact B2|].
  pose proof (proj2 (records_found _ _ _ records rs fs data_valid FD OD) A3) as E. split; [exact E|]. split; [exact (proj2 (records_found _ _ _ records rs gs parsed_valid FP OP) B3)|]. split; [exact A4|].
  intros p f Hp Hd Hf Ef. destruct E as (E1 & E2 & E3). destruct (exists_last Hp) as (q & c & ->). unfold parent_path. rewrite removelast_last. apply Forall_app in Hd. destruct Hd as [Dq Dk]. inversion Dk as [|? ? Dk1 _]; subst. destruct (A4 f Hf) as [_ D2]. destruct q as [|c0 q].
  - destruct (f_parent f) as [x|] eqn:Ep; [|reflexivity]. exfalso. destruct (proj1 (D2 x) eq_refl) as (g & G1 & _ & G2). destruct (A4 g G1) as [D1 _]. apply D1 in G2. destruct G2 as (_ & _ & (k2 & _ & Q')). rewrite Ef in Q'. cbn in Q'. apply Dk1. rewrite Q'. apply in_or_app. right. left. reflexivity.
  - apply D2. set (pq := c0 :: q) in *. assert (Hq : pq <> []) by discriminate.
    destruct (proj1 (E2 (f_path f)) (in_map f_path _ _ Hf)) as (rec & p' & t & R1 & R2 & R3). rewrite Ef in R3. destruct (OD _ _ _ R2) as [Np _].
    assert (Dp : Forall dotless p') by (pose proof (has_type_path _ _ _ R2) as Z; eapply Forall_impl; [|exact Z]; intros x [->|Kx]; [exact nil_dotless|exact (clean_dotless db x (record_keys db pad rec Hdb x Kx))]).
    apply (f_equal split) in R3. rewrite !split_join in R3 by (assumption || (apply Forall_app; split; assumption)). subst p'.
    assert (K : exists u, has_type (VDict (prepare_record_data db pad rec)) pq u /\ (u = lit "#l" \/ u = lit "#d")) by (destruct (has_type_parent _ pq c t Hq R2) as [K|K]; eauto). destruct K as (u & K & Hu).
    assert (G : In (join dot pq) (map f_path fs)) by (apply E2; exists rec, pq, u; auto). apply in_map_iff in G. destruct G as (g & G1 & G2). exists g. split; [exact G2|]. split; [exact G1|].
    destruct (A4 g G2) as [D1 _]. apply D1. split; [|split; [apply in_map, Hf|exists c; split; [exact Dk1|rewrite G1, Ef; apply join_snoc, Hq]]].
    assert (C : 0 < type_count g u) by (apply (E3 g u G2); exists rec, pq; auto). destruct Hu as [->| ->]; [left|right]; exact C.
Qed.
Print Assumptions C54_fields_found.

(** ** C69, in terms of the listed fields, for all records. *)
Theorem C69_fields : forall db pad L o ltb records rs fs gs m n, db_ok db -> strict_order ltb ->
  Forall2 (fun rec r => parse L o (prepare_record_data db pad rec) = Some r) records rs ->
  get_data_fields ltb m (map p_data_types rs) = Some fs -> get_parsed_fields ltb n (map p_parsed_types rs) = Some gs ->
  (** every value that is parsed has a data field, and at its parsed path a parsed field with everything parsed out of the value *)
  (forall rec q w, In rec records -> value_at (VDict (prepare_record_data db pad rec)) q w -> parsed_as_value w ->
     exists f g, In f fs /\ f_path f = join dot q /\ 0 < type_count f (kind_name w) /\
       In g gs /\ f_path g = field_parsed_path f /\ forall t, In t (dkeys (parse_value L o w)) -> 0 < type_count g t) /\
  (** what is listed of a parsed field, except geo data, was parsed out of a value of a data field with that parsed path *)
  (forall g t, In g gs -> ~ geo_type t -> 0 < type_count g t ->
     exists rec q w f, In rec records /\ value_at (VDict (prepare_record_data db pad rec)) q w /\ parsed_as_value w /\ In t (dkeys (parse_value L o w)) /\
       In f fs /\ f_path f = join dot q /\ field_parsed_path f = f_path g).
Proof.
  intros db pad L o ltb records rs fs gs m n Hdb S F Ef Eg. destruct (C54_fields_found db pad L o ltb records rs Hdb S F) as (fs' & gs' & _ & U1 & U2 & (D1 & D2 & D3) & (P1 & P2 & P3) & _).
  apply U1 in Ef. apply U2 in Eg. subst fs' gs'.
  assert (Dl : forall rec q w, value_at (VDict (prepare_record_data db pad rec)) q w -> has_type (VDict (prepare_record_data db pad rec)) q (kind_name w) /\ q <> [] /\ Forall dotless q).
  { intros rec q w H. assert (Ht : has_type (VDict (prepare_record_data db pad rec)) q (kind_name w)) by (apply type_value; exists w; split; [exact H|reflexivity]). split; [exact Ht|]. split; [apply (has_type_ok _ _ _ Ht)|].
    pose proof (has_type_path _ _ _ Ht) as Z. eapply Forall_impl; [|exact Z]. intros c [->|Kc]; [exact nil_dotless|exact (clean_dotless db c (record_keys db pad rec Hdb c Kc))]. }
  split.
  - intros rec q w Hr Hv Hw. destruct (Dl rec q w Hv) as (Ht & Hq & Dq).
    assert (Gf : In (join dot q) (map f_path fs)) by (apply D2; exists rec, q, (kind_name w); auto). apply in_map_iff in Gf. destruct Gf as (f & F1 & F2).
    pose proof (record_keys db pad rec Hdb) as RK.
    assert (X : forall t, In t (dkeys (parse_value L o w)) -> has_parsed_root L o (prepare_record_data db pad rec) (field_names q) t).
    { intros t Tt. inversion Hv as [d' k' v H1|d' k' v p' w' H1 H2| |]; subst; (rewrite names_key by apply (RK k' (key_here k' _ _ H1))); apply (hr_key L o _ k' _ _ t H1); [apply hp_value; assumption|].
      apply (value_parsed_at L o v p' w t); try assumption. intros k2 K2. exact (proj1 (RK k2 (key_dict k2 _ k' v H1 K2))). }
    assert (Gu : In pt_u (dkeys (parse_value L o w))) by (rewrite parse_value_keys; cbn [app In]; auto 10).
    assert (Gg : In (join dot (field_names q)) (map f_path gs)) by (apply P2; exists rec, (field_names q), pt_u; split; [exact Hr|split; [exact (X _ Gu)|reflexivity]]). apply in_map_iff in Gg. destruct Gg as (g & G1 & G2).
    exists f, g. split; [exact F2|]. split; [exact F1|]. split; [apply (D3 f _ F2); exists rec, q; auto|]. split; [exact G2|]. split; [rewrite (parsed_path_join f q Hq Dq F1); exact G1|].
    intros t Tt. apply (P3 g t G2). exists rec, (field_names q). split; [exact Hr|]. split; [exact (X t Tt)|exact G1].
  - intros g t Hg Ng Hc. apply (P3 g t Hg) in Hc. destruct Hc as (rec & p & R1 & R2 & R3). destruct p as [|k p]; [inversion R2|]. apply (C69_parsed_path db pad L o rec k p t Hdb Ng) in R2. destruct R2 as (q & w & W1 & W2 & W3 & W4).
    destruct (Dl rec q w W1) as (Ht & Hq & Dq). assert (Gf : In (join dot q) (map f_path fs)) by (apply D2; exists rec, q, (kind_name w); auto). apply in_map_iff in Gf. destruct Gf as (f & F1 & F2).
    exists rec, q, w, f. split; [exact R1|]. split; [exact W1|]. split; [exact W3|]. split; [exact W4|]. split; [exact F2|]. split; [exact F1|]. rewrite (parsed_path_join f q Hq Dq F1), W2. symmetry. exact R3.
Qed.
Print Assumptions C69_fields.

(** The record whose fields are counted twice (C54_count_refuted). *)
Definition twice : record := Rec (lit "r") [(KS (lit "a"), OSeq [ODict [(KS (lit "#e"), OInt 1); (KS (lit "_id"), OStr (lit "5"))]; OStr (lit "s"); OBool true])].
Example C69_fields_example : exists r fs gs, db_ok ascii_db /\ strict_order str_ltb /\
  parse ex_lib ex_opts (prepare_record_data ascii_db false twice) = Some r /\
  get_data_fields str_ltb 20 [p_data_types r] = Some fs /\ get_parsed_fields str_ltb 20 [p_parsed_types r] = Some gs /\
  value_at (VDict (prepare_record_data ascii_db false twice)) [lit "a"; []; lit "#e"] (VInt 1) /\ parsed_as_value (VInt 1) /\
  In (lit "a..#e") (map f_path fs) /\ In (lit "a.#e") (map f_path gs).
Proof.
  do 3 eexists. split; [exact ascii_db_ok|]. split; [exact order_str|]. split; [vm_compute; reflexivity|]. cbn [p_data_types p_parsed_types]. split; [vm_compute; reflexivity|]. split; [vm_compute; reflexivity|].
  split; [|split; [exact I|split; vm_compute; auto 10]].
  vm_compute. eapply va_dict; [left; reflexivity|]. eapply va_list; [left; reflexivity|]. apply va_key. left. reflexivity.
Qed.
