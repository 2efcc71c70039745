(** Property C87: what the listed fields say of themselves. *)
From Coq Require Import String Ascii.
From Coq Require Import List ZArith NArith Bool Lia Sorted Permutation.
From Verif Require Import PyVal Diff Time Prepare PrepareProofs PropsPrepare Parser ParserProofs ParserTypes ParserEq PropsParser PropsParserTypes Search PropsSearch Fields PropsFields PropsFieldsMore PropsFieldCounts.
Import ListNotations.
Local Open Scope string_scope.
Local Open Scope list_scope.
Local Open Scope nat_scope.

(** ** Model *)
(** indexing/fields.py:175-183 and 299-307 [is_type] *)
Definition is_type (f : field) (ts : list pystr) : bool := existsb (fun t => 0 <? type_count f t) ts.
(** indexing/fields.py:185-187 [has_children] *)
Definition has_children (f : field) : bool := 0 <? length (f_children f).
(** indexing/fields.py:189-191 and 309-311 [name] *)
Definition field_name (f : field) : pystr := last (split (f_path f)) [].
(** indexing/fields.py:193-247 [is_none], [is_str], ... with the [count_...] beside them; a Counter gives 0 for what it does not have *)
Definition count_none (f : field) : nat := type_count f (lit "#n").
(** indexing/fields.py:205-207 *)
Definition count_str (f : field) : nat := type_count f (lit "#s").
(** indexing/fields.py:213-215 *)
Definition count_int (f : field) : nat := type_count f (lit "#i").
(** indexing/fields.py:221-223 *)
Definition count_float (f : field) : nat := type_count f (lit "#f").
(** indexing/fields.py:229-231 *)
Definition count_bool (f : field) : nat := type_count f (lit "#b").
(** indexing/fields.py:237-239 *)
Definition count_list (f : field) : nat := type_count f (lit "#l").
(** indexing/fields.py:245-247 *)
Definition count_dict (f : field) : nat := type_count f (lit "#d").
(** indexing/fields.py:249-253 [is_basic]; [is_container] (255-257) is in Fields.v *)
Definition is_basic (f : field) : bool := is_type f [lit "#b"; lit "#i"; lit "#f"; lit "#s"; lit "#n"].
(** indexing/fields.py:259-261 [is_root_field] *)
Definition is_root_field (f : field) : bool := match f_parent f with None => true | Some _ => false end.
(** indexing/fields.py:272-274 [is_list_element] *)
Definition is_list_element (f : field) : bool := str_eqb (field_name f) [].
(** indexing/fields.py:313-363 [count_text], [count_keyword], ...; [is_text] and so on are [0 <? ...] of them *)
Definition count_text (g : field) : nat := type_count g pt_t.
(** indexing/fields.py:325-327 *)
Definition count_keyword (g : field) : nat := type_count g pt_k.
(** indexing/fields.py:333-335 *)
Definition count_number (g : field) : nat := type_count g pt_n.
(** indexing/fields.py:341-343 *)
Definition count_date (g : field) : nat := type_count g pt_d.
(** indexing/fields.py:349-351 *)
Definition count_boolean (g : field) : nat := type_count g pt_b.
(** indexing/fields.py:359-363 *)
Definition count_geo (g : field) : nat := type_count g pt_gp.

(** ** Specification *)
Definition basic_value (w : value) : Prop := match w with VList _ | VDict _ => False | _ => True end.
Definition container_value (w : value) : Prop := match w with VList _ | VDict _ => True | _ => False end.

(** ** Proofs *)
Lemma last_app {A} (l : list A) x y : last (l ++ [x]) y = x.
Proof. induction l as [|a l IH]; [reflexivity|]. cbn [app last]. destruct (l ++ [x]) eqn:E; [destruct l; discriminate|exact IH]. Qed.
Lemma value_last v q c w : value_at v (q ++ [c]) w -> q <> [] -> exists u, value_at v q u /\ value_at u [c] w.
Proof.
  intro H. remember (q ++ [c]) as p eqn:E. revert q E. induction H as [d k v H|d k v p w H H1 IH|l v H|l v p w H H1 IH]; intros q E Hq.
  - destruct q as [|a [|b q]]; [contradiction|discriminate|discriminate].
  - destruct q as [|a q]; [contradiction|]. injection E as <- E. destruct q as [|b q].
    + cbn in E. subst p. exists v. split; [constructor; exact H|exact H1].
    + destruct (IH (b :: q) E ltac:(discriminate)) as (u & U1 & U2). exists u. split; [exact (va_dict d k v _ u H U1)|exact U2].
  - destruct q as [|a [|b q]]; [contradiction|discriminate|discriminate].
  - destruct q as [|a q]; [contradiction|]. injection E as <- E. destruct q as [|b q].
    + cbn in E. subst p. exists v. split; [constructor; exact H|exact H1].
    + destruct (IH (b :: q) E ltac:(discriminate)) as (u & U1 & U2). exists u. split; [exact (va_list l v _ u H U1)|exact U2].
Qed.
Lemma value_then v q u c w : value_at v q u -> value_at u [c] w -> value_at v (q ++ [c]) w.
Proof. intro H. induction H; intro K; cbn [app]; econstructor; eauto. Qed.
Lemma value_in v q u k : value_at v q u -> key_in k u -> key_in k v.
Proof.
  induction 1 as [d k' v H|d k' v p w H H1 IH|l v H|l v p w H H1 IH]; intro K.
  - exact (key_dict k d k' v H K).
  - exact (key_dict k d k' v H (IH K)).
  - exact (key_list k l v H K).
  - exact (key_list k l v H (IH K)).
Qed.

(** ** C87 *)
(** The field at path [q] counts the records that have a none, a str, ... there; it is basic if a scalar, a container if a list or dict, and always one
    of them. Its name is the last component; it is a list element exactly if it is of the elements of a list, a root field exactly if it is a
    field of the records themselves, and has children exactly if some record has something under it. *)
Theorem C87_data_fields : forall db pad L o ltb records rs fs m, db_ok db -> strict_order ltb ->
  Forall2 (fun rec r => parse L o (prepare_record_data db pad rec) = Some r) records rs ->
  get_data_fields ltb m (map p_data_types rs) = Some fs -> forall f, In f fs ->
  let there q w := exists rec, In rec records /\ value_at (VDict (prepare_record_data db pad rec)) q w in
  exists q c, let has rec w := value_at (VDict (prepare_record_data db pad rec)) (q ++ [c]) w in f_path f = join dot (q ++ [c]) /\ Forall dotless (q ++ [c]) /\
    number (fun rec => has rec VNone) records (count_none f) /\
    number (fun rec => exists s, has rec (VStr s)) records (count_str f) /\
    number (fun rec => exists z, has rec (VInt z)) records (count_int f) /\
    number (fun rec => exists x, has rec (VFloat x)) records (count_float f) /\
    number (fun rec => exists b, has rec (VBool b)) records (count_bool f) /\
    number (fun rec => exists l, has rec (VList l)) records (count_list f) /\
    number (fun rec => exists d, has rec (VDict d)) records (count_dict f) /\
    (is_basic f = true <-> exists w, there (q ++ [c]) w /\ basic_value w) /\
    (is_container f = true <-> exists w, there (q ++ [c]) w /\ container_value w) /\
    is_basic f || is_container f = true /\
    field_name f = c /\
    (is_list_element f = true <-> exists l x, there q (VList l) /\ In x l /\ c = []) /\
    (is_root_field f = true <-> q = []) /\
    (has_children f = true <-> exists k w, there (q ++ [c; k]) w).
Proof.
  intros db pad L o ltb records rs fs m Hdb S F Ef f Hf there.
  destruct (C54_fields_found db pad L o ltb records rs Hdb S F) as (fs' & gs & _ & U1 & _ & (D1 & D2 & D3) & _ & LK & PP). rewrite <- (U1 _ _ Ef) in *.
  destruct (proj1 (D2 (f_path f)) (in_map f_path _ _ Hf)) as (rec0 & p0 & t0 & R0 & H0 & E0).
  assert (PD : forall rec p t, has_type (VDict (prepare_record_data db pad rec)) p t -> p <> [] /\ Forall dotless p).
  { intros rec p t H. split; [apply (has_type_ok _ _ _ H)|]. pose proof (has_type_path _ _ _ H) as Z. eapply Forall_impl; [|exact Z]. intros x [->|Kx]; [exact nil_dotless|exact (clean_dotless db x (record_keys db pad rec Hdb x Kx))]. }
  destruct (PD _ _ _ H0) as [N0 Dp]. destruct (exists_last N0) as (q & c & ->). exists q, c. intro has. split; [exact E0|]. split; [exact Dp|].
  assert (Cn : forall t, number (fun rec => exists w, has rec w /\ t = kind_name w) records (type_count f t)).
  { intro t. destruct (C54_data_counts_exact db pad L o ltb records rs fs m Hdb S F Ef f Hf) as (p & P1 & P2 & P3 & P4 & _). rewrite E0 in P3. apply (f_equal split) in P3. rewrite !split_join in P3 by assumption. rewrite <- P3 in P4.
    refine (number_ext _ _ _ _ _ (P4 t)). intros rec _. apply type_value. }
  assert (T : forall t, 0 < type_count f t <-> exists w, there (q ++ [c]) w /\ t = kind_name w).
  { intro t. rewrite (D3 f t Hf). split.
    - intros (rec & p & R1 & R2 & R3). destruct (PD _ _ _ R2) as [N1 Dp1]. rewrite E0 in R3. apply (f_equal split) in R3. rewrite !split_join in R3 by assumption. subst p.
      apply type_value in R2. destruct R2 as (w & W1 & W2). exists w. split; [exists rec; auto|exact W2].
    - intros (w & (rec & R1 & R2) & ->). exists rec, (q ++ [c]). split; [exact R1|]. split; [apply type_value; exists w; split; [exact R2|reflexivity]|exact E0]. }
  assert (Some_value : exists w, there (q ++ [c]) w).
  { apply type_value in H0. destruct H0 as (w & W1 & _). exists w, rec0. auto. }
  assert (IB : is_basic f = true <-> exists w, there (q ++ [c]) w /\ basic_value w).
  { unfold is_basic, is_type. rewrite existsb_exists. split.
    - intros (t & Ht & Pt). apply Nat.ltb_lt, T in Pt. destruct Pt as (w & W1 & ->). exists w. split; [exact W1|]. destruct w; try exact I; cbn in Ht; intuition discriminate.
    - intros (w & W1 & W2). exists (kind_name w). split; [destruct w; try destruct W2; cbn; tauto|]. apply Nat.ltb_lt, T. exists w. auto. }
  assert (IC : is_container f = true <-> exists w, there (q ++ [c]) w /\ container_value w).
  { unfold is_container. rewrite orb_true_iff, !Nat.ltb_lt, !T. split.
    - intros [(w & W1 & W2)|(w & W1 & W2)]; exists w; (split; [exact W1|]); destruct w; try discriminate; exact I.
    - intros (w & W1 & W2). destruct w; try destruct W2; [left|right]; eexists; eauto. }
  unfold count_none, count_str, count_int, count_float, count_bool, count_list, count_dict.
  split; [refine (number_ext _ _ _ _ _ (Cn _)); intros rec _; split; [intros (w & W1 & W2); destruct w; try discriminate; exact W1|intro W; exists VNone; auto]|].
  split; [refine (number_ext _ _ _ _ _ (Cn _)); intros rec _; split; [intros (w & W1 & W2); destruct w; try discriminate; eauto|intros (x & W); exists (VStr x); auto]|].
  split; [refine (number_ext _ _ _ _ _ (Cn _)); intros rec _; split; [intros (w & W1 & W2); destruct w; try discriminate; eauto|intros (x & W); exists (VInt x); auto]|].
  split; [refine (number_ext _ _ _ _ _ (Cn _)); intros rec _; split; [intros (w & W1 & W2); destruct w; try discriminate; eauto|intros (x & W); exists (VFloat x); auto]|].
  split; [refine (number_ext _ _ _ _ _ (Cn _)); intros rec _; split; [intros (w & W1 & W2); destruct w; try discriminate; eauto|intros (x & W); exists (VBool x); auto]|].
  split; [refine (number_ext _ _ _ _ _ (Cn _)); intros rec _; split; [intros (w & W1 & W2); destruct w; try discriminate; eauto|intros (x & W); exists (VList x); auto]|].
  split; [refine (number_ext _ _ _ _ _ (Cn _)); intros rec _; split; [intros (w & W1 & W2); destruct w; try discriminate; eauto|intros (x & W); exists (VDict x); auto]|].
  split; [exact IB|]. split; [exact IC|]. split.
  { destruct Some_value as (w & W). apply orb_true_iff. destruct w; [left|left|left|left|left|right|right]; (apply IB || apply IC); eexists; (split; [exact W|exact I]). }
  assert (Nm : field_name f = c) by (unfold field_name; rewrite E0, split_join by assumption; apply last_app). split; [exact Nm|].
  assert (KN : forall rec k, key_in k (VDict (prepare_record_data db pad rec)) -> k <> []) by (intros rec k K; apply (record_keys db pad rec Hdb k K)).
  clear U1. split; [|split].
  - unfold is_list_element. rewrite Nm. split.
    + intro Ec. apply str_eqb_eq in Ec. clear Nm. subst c. destruct Some_value as (w & rec & R1 & R2). destruct q as [|a q].
      * cbn in R2. inversion R2 as [d k v H|d k v p w' H H1| |]; subst; [|inversion H1]. destruct (KN rec [] (key_here _ _ _ H) eq_refl).
      * destruct (value_last _ _ _ _ R2 ltac:(discriminate)) as (u & V1 & V2). inversion V2 as [d k v H|d k v p w' H H1|l v H|l v p w' H H1]; subst; [|inversion H1| |inversion H1].
        -- destruct (KN rec [] (value_in _ _ _ _ V1 (key_here _ _ _ H)) eq_refl).
        -- exists l, w. split; [exists rec; auto|auto].
    + intros (l & x & _ & _ & ->). apply str_eqb_refl.
  - unfold is_root_field. rewrite (PP (q ++ [c]) f N0 Dp Hf E0). unfold parent_path. rewrite removelast_last. destruct q; split; intro H; (reflexivity || discriminate).
  - clear Nm. unfold has_children. rewrite Nat.ltb_lt. destruct (LK f Hf) as [LK1 _]. split.
    + intro H. destruct (f_children f) as [|x xs] eqn:Ex; [cbn in H; lia|]. destruct (proj1 (LK1 x) (or_introl eq_refl)) as (_ & X1 & k & Dk & X2).
      apply D2 in X1. destruct X1 as (rec & p & t & R1 & R2 & R3). destruct (PD _ _ _ R2) as [N1 Dp1].
      rewrite X2, E0, <- join_snoc in R3 by exact N0. apply (f_equal split) in R3.
      rewrite !split_join in R3; [| exact N1 | exact Dp1 | intro K; destruct q; discriminate | apply Forall_app; split; [exact Dp|constructor; [exact Dk|constructor]]]. subst p.
      apply type_value in R2. destruct R2 as (w & W1 & _). exists k, w, rec. split; [exact R1|]. rewrite <- app_assoc in W1. exact W1.
    + intros (k & w & rec & R1 & R2). change [c; k] with ([c] ++ [k]) in R2. rewrite app_assoc in R2.
      destruct (value_last _ _ _ _ R2 N0) as (u & V1 & V2).
      assert (Ht : has_type (VDict (prepare_record_data db pad rec)) ((q ++ [c]) ++ [k]) (kind_name w)) by (apply type_value; exists w; split; [exact R2|reflexivity]).
      destruct (PD _ _ _ Ht) as [_ Dk]. apply Forall_app in Dk. destruct Dk as [_ Dk]. inversion Dk as [|? ? Dk1 _]; subst.
      assert (X : In (dotted (f_path f) k) (f_children f)).
      { apply LK1. split; [|split].
        - assert (C : is_container f = true) by (apply IC; exists u; split; [exists rec; auto|inversion V2; exact I]). unfold is_container in C. apply orb_true_iff in C. rewrite !Nat.ltb_lt in C. exact C.
        - apply D2. exists rec, ((q ++ [c]) ++ [k]), (kind_name w). split; [exact R1|]. split; [exact Ht|]. rewrite E0. symmetry. apply join_snoc, N0.
        - exists k. auto. }
      destruct (f_children f); [destruct X|cbn; lia].
Qed.
Print Assumptions C87_data_fields.

Lemma parsed_pairs L o v p : (has_parsed L o v p pt_gp <-> has_parsed L o v p pt_gs) /\ (has_parsed L o v p pt_t <-> has_parsed L o v p pt_k) /\ (has_parsed L o v p pt_t <-> has_parsed L o v p pt_u).
Proof.
  assert (G : forall t t', (geo_type t <-> geo_type t') -> (forall w, In t (dkeys (parse_value L o w)) -> In t' (dkeys (parse_value L o w))) -> has_parsed L o v p t -> has_parsed L o v p t').
  { intros t t' G1 G2 H. revert G1 G2. induction H as [v t H1 H2|d t H1 H2 H3|d k v p t H H1 IH|d h t H1 H2 H3 H4|l v p t H H1 IH]; intros G1 G2.
    - apply hp_value; auto.
    - apply hp_geo; tauto.
    - exact (hp_key L o d k v p t' H (IH G1 G2)).
    - apply (hp_hint L o d h); tauto.
    - exact (hp_list L o l v p t' H (IH G1 G2)). }
  unfold geo_type in G. repeat split; apply G; try (split; intros [E|E]; try discriminate; auto); intros w; rewrite parse_value_keys; destruct (l_wkt L (text_of L o w)), (bool_of L o w), (number_of L o w), (first_date L (date_formats o) (text_of L o w)); cbn [app In]; intuition discriminate.
Qed.
Lemma root_pairs L o d p : (has_parsed_root L o d p pt_gp <-> has_parsed_root L o d p pt_gs) /\ (has_parsed_root L o d p pt_t <-> has_parsed_root L o d p pt_k) /\ (has_parsed_root L o d p pt_t <-> has_parsed_root L o d p pt_u).
Proof.
  assert (G : forall t t', (geo_type t <-> geo_type t') -> (forall v p, has_parsed L o v p t -> has_parsed L o v p t') -> has_parsed_root L o d p t -> has_parsed_root L o d p t').
  { intros t t' G1 G2 H. inversion H as [k v p' t0 H1 H2|h t0 H1 H2 H3]; subst; [exact (hr_key L o d k v p' t' H1 (G2 v p' H2))|apply (hr_hint L o d h t' H1 H2); tauto]. }
  unfold geo_type in G. repeat split; apply G; try (split; intros [E|E]; try discriminate; auto); intros v p'; apply parsed_pairs.
Qed.
(** Fields have a geo point exactly if they have a geo shape, and text exactly if they have a keyword and unparsed values; and as often, which is in how many records. *)
Theorem C87_parsed_fields : forall db pad L o ltb records rs gs m, db_ok db -> strict_order ltb ->
  Forall2 (fun rec r => parse L o (prepare_record_data db pad rec) = Some r) records rs ->
  get_parsed_fields ltb m (map p_parsed_types rs) = Some gs -> forall g, In g gs ->
  (0 < count_geo g <-> 0 < type_count g pt_gs) /\ (0 < count_text g <-> 0 < count_keyword g) /\ (0 < count_text g <-> 0 < type_count g pt_u) /\
  (count_text g = 0 -> 0 < count_geo g /\ count_number g = 0 /\ count_date g = 0 /\ count_boolean g = 0).
Proof.
  intros db pad L o ltb records rs gs m Hdb S F Eg g Hg.
  destruct (C54_fields_found db pad L o ltb records rs Hdb S F) as (fs & gs' & _ & _ & U2 & _ & (P1 & P2 & P3) & _). apply U2 in Eg. subst gs'.
  unfold count_geo, count_text, count_keyword, count_number, count_date, count_boolean.
  assert (Q : forall t t', (forall d p, has_parsed_root L o d p t -> has_parsed_root L o d p t') -> 0 < type_count g t -> 0 < type_count g t').
  { intros t t' H K. apply (P3 g t Hg) in K. apply (P3 g t' Hg). destruct K as (rec & p & R1 & R2 & R3). exists rec, p. split; [exact R1|]. split; [apply H, R2|exact R3]. }
  split; [split; apply Q; intros d p; apply root_pairs|]. split; [split; apply Q; intros d p; apply root_pairs|]. split; [split; apply Q; intros d p; apply root_pairs|].
  intro Z. assert (V : forall d p t, has_parsed_root L o d p t -> geo_type t \/ has_parsed_root L o d p pt_t).
  { assert (V0 : forall v p t, has_parsed L o v p t -> geo_type t \/ has_parsed L o v p pt_t).
    { intros v p t H. induction H as [v t H1 H2|d t H1 H2 H3|d k v p t H H1 IH|d h t H1 H2 H3 H4|l v p t H H1 IH]; auto.
      - right. apply hp_value; [exact H1|]. rewrite parse_value_keys. cbn [app In]. auto.
      - destruct IH as [IH|IH]; [left; exact IH|right; exact (hp_key L o d k v p _ H IH)].
      - destruct IH as [IH|IH]; [left; exact IH|right; exact (hp_list L o l v p _ H IH)]. }
    intros d p t [k v p' t0 H1 H2|h t0 H1 H2 H3]; [|left; exact H3]. destruct (V0 v p' t0 H2) as [H|H]; [left; exact H|right; exact (hr_key L o d k v p' _ H1 H)]. }
  assert (NT : forall rec p, In rec records -> f_path g = join dot p -> ~ has_parsed_root L o (prepare_record_data db pad rec) p pt_t).
  { intros rec p R1 R2 R3. assert (K : 0 < type_count g pt_t) by (apply (P3 g pt_t Hg); exists rec, p; auto). lia. }
  assert (ZT : forall t, ~ geo_type t -> type_count g t = 0).
  { intros t Ht. destruct (type_count g t) as [|n] eqn:En; [reflexivity|]. exfalso. assert (K : 0 < type_count g t) by lia. apply (P3 g t Hg) in K. destruct K as (rec & p & R1 & R2 & R3).
    destruct (V _ _ _ R2) as [G|G]; [exact (Ht G)|exact (NT rec p R1 R3 G)]. }
  split; [|repeat split; apply ZT; intros [E|E]; discriminate].
  destruct (proj1 (P2 (f_path g)) (in_map f_path _ _ Hg)) as (rec & p & t & R1 & R2 & R3). destruct (V _ _ _ R2) as [G|G]; [|destruct (NT rec p R1 R3 G)].
  apply (P3 g pt_gp Hg). exists rec, p. split; [exact R1|]. split; [|exact R3]. destruct G as [->| ->]; [exact R2|apply root_pairs, R2].
Qed.
Print Assumptions C87_parsed_fields.
(** [seen v p w]: the value [w] that is parsed by itself (neither a dict nor a list with something in it) is under [v] at path [p]; the elements
    of lists do not add to the path. *)
Inductive seen : value -> list pystr -> value -> Prop :=
| seen_here v : parsed_as_value v -> seen v [] v
| seen_key d k v p w : In (k, v) d -> seen v p w -> seen (VDict d) (k :: p) w
| seen_list l v p w : In v l -> seen v p w -> seen (VList l) p w.
Lemma parsed_seen L o v p t : ~ geo_type t -> (has_parsed L o v p t <-> exists w, seen v p w /\ In t (dkeys (parse_value L o w))).
Proof.
  intro G. split.
  - intro H. induction H as [v t H1 H2|d t H1 H2 H3|d k v p t H H1 IH|d h t H1 H2 H3 H4|l v p t H H1 IH]; try contradiction.
    + exists v. split; [constructor; exact H1|exact H2].
    + destruct (IH G) as (w & W1 & W2). exists w. split; [exact (seen_key d k v p w H W1)|exact W2].
    + destruct (IH G) as (w & W1 & W2). exists w. split; [exact (seen_list l v p w H W1)|exact W2].
  - intros (w & H & T). induction H as [v H|d k v p w H H1 IH|l v p w H H1 IH].
    + apply hp_value; assumption.
    + exact (hp_key L o d k v p t H (IH T)).
    + exact (hp_list L o l v p t H (IH T)).
Qed.
Lemma root_seen L o d p t : ~ geo_type t -> p <> [] -> (has_parsed_root L o d p t <-> exists w, seen (VDict d) p w /\ In t (dkeys (parse_value L o w))).
Proof.
  intros G Hp. split.
  - intro H. inversion H as [k v p' t0 H1 H2|h t0 H1 H2 H3]; subst; [|contradiction]. apply (parsed_seen L o v p' t G) in H2. destruct H2 as (w & W1 & W2). exists w. split; [exact (seen_key d k v p' w H1 W1)|exact W2].
  - intros (w & H & T). inversion H as [v H1|d' k v p' w' H1 H2|]; subst; [contradiction|]. apply (hr_key L o d k v p' t H1). apply (parsed_seen L o v p' t G). exists w. auto.
Qed.
Lemma first_date_some L fs s : first_date L fs s <> None <-> exists f, In f fs /\ l_strptime L s f <> None.
Proof.
  induction fs as [|f fs IH]; cbn [first_date In]; [split; [contradiction|intros (f & [] & _)]|]. destruct (l_strptime L s f) as [z|] eqn:E.
  - split; [intros _; exists f; split; [auto|congruence]|discriminate].
  - rewrite IH. split; [intros (g & G1 & G2); exists g; auto|intros (g & [<-|G1] & G2); [congruence|exists g; auto]].
Qed.
(** The field counts the records that have, at its path, a value (text, keywords), a number or text that reads as one, text that one of the formats
    reads as a date, a bool or text that is listed as one, and geo data. *)
Theorem C87_parsed_counts : forall db pad L o ltb records rs gs m, db_ok db -> strict_order ltb ->
  plain_latitudes L o ->
  Forall2 (fun rec r => parse L o (prepare_record_data db pad rec) = Some r) records rs ->
  get_parsed_fields ltb m (map p_parsed_types rs) = Some gs -> forall g, In g gs ->
  count_geo g = type_count g pt_gs /\ count_text g = count_keyword g /\ count_text g = type_count g pt_u /\
  exists p, let has rec w := seen (VDict (prepare_record_data db pad rec)) p w in f_path g = join dot p /\ p <> [] /\ Forall dotless p /\
    number (fun rec => exists w, has rec w) records (count_text g) /\
    number (fun rec => exists w, has rec w /\ match w with VInt _ | VFloat _ => True | _ => l_try_float L (text_of L o w) <> None end) records (count_number g) /\
    number (fun rec => exists w f, has rec w /\ In f (date_formats o) /\ l_strptime L (text_of L o w) f <> None) records (count_date g) /\
    number (fun rec => exists w, has rec w /\ match w with VBool _ => True | _ => In (l_lower L (text_of L o w)) (true_values o ++ false_values o) end) records (count_boolean g) /\
    number (fun rec => has_parsed_root L o (prepare_record_data db pad rec) p pt_gp) records (count_geo g).
Proof.
  intros db pad L o ltb records rs gs m Hdb S HP F Eg g Hg.
  destruct (C54_parsed_counts_exact db pad L o ltb records rs gs m Hdb S HP F Eg g Hg) as (p & D1 & D2 & D3 & D4 & _).
  assert (Q : forall t t', (forall d, has_parsed_root L o d p t <-> has_parsed_root L o d p t') -> type_count g t = type_count g t').
  { intros t t' H. apply (number_unique _ _ _ _ (D4 t)). apply (number_ext _ _ _ _ (fun rec _ => iff_sym (H (prepare_record_data db pad rec)))), D4. }
  assert (R : forall t (P : value -> Prop), ~ geo_type t -> (forall w, In t (dkeys (parse_value L o w)) <-> P w) ->
    number (fun rec => exists w, seen (VDict (prepare_record_data db pad rec)) p w /\ P w) records (type_count g t)).
  { intros t P G H. refine (number_ext _ _ _ _ _ (D4 t)). intros rec _. rewrite (root_seen L o _ p t G D1). split; intros (w & W1 & W2); exists w; (split; [exact W1|]); apply H, W2. }
  assert (KG : forall t, In t [pt_t; pt_n; pt_d; pt_b] -> ~ geo_type t) by (intros t Ht [E|E]; subst t; cbn in Ht; intuition discriminate).
  unfold count_geo, count_text, count_keyword, count_number, count_date, count_boolean. split; [|split; [|split]]; [apply Q; intro d; apply root_pairs..|].
  exists p. split; [exact D3|]. split; [exact D1|]. split; [exact D2|]. split; [|split; [|split; [|split]]].
  - refine (number_ext _ _ _ _ _ (R pt_t (fun _ => True) (KG pt_t ltac:(cbn; tauto)) _)).
    + intros rec _. split; [intros (w & W & _); exists w; exact W|intros (w & W); exists w; auto].
    + intro w. rewrite parse_value_keys. cbn [app In]. tauto.
  - apply (R pt_n); [apply KG; cbn; tauto|]. intro w. rewrite parse_value_keys.
    transitivity (number_of L o w <> None).
    + destruct (number_of L o w), (l_wkt L (text_of L o w)), (bool_of L o w), (first_date L (date_formats o) (text_of L o w)); cbn [app In]; intuition (discriminate || congruence).
    + destruct w; cbn [number_of]; try (split; [auto|discriminate]); destruct (l_try_float L _); split; congruence.
  - refine (number_ext _ _ _ _ _ (R pt_d (fun w => exists f, In f (date_formats o) /\ l_strptime L (text_of L o w) f <> None) (KG pt_d ltac:(cbn; tauto)) _)).
    + intros rec _. split; [intros (w & W & f & W1 & W2); exists w, f; auto|intros (w & f & W & W1 & W2); exists w; split; [exact W|exists f; auto]].
    + intro w. rewrite <- first_date_some, parse_value_keys. destruct (number_of L o w), (l_wkt L (text_of L o w)), (bool_of L o w), (first_date L (date_formats o) (text_of L o w)); cbn [app In]; intuition (discriminate || congruence).
  - apply (R pt_b); [apply KG; cbn; tauto|]. intro w. rewrite parse_value_keys.
    transitivity (bool_of L o w <> None).
    + destruct (number_of L o w), (l_wkt L (text_of L o w)), (bool_of L o w), (first_date L (date_formats o) (text_of L o w)); cbn [app In]; intuition (discriminate || congruence).
    + assert (M : forall s l, memb s l = true <-> In s l).
      { intros s l. unfold memb. rewrite existsb_exists. split; [intros (x & X1 & X2); apply str_eqb_eq in X2; subst x; exact X1|intro X; exists s; split; [exact X|apply str_eqb_refl]]. }
      assert (B : (if memb (l_lower L (text_of L o w)) (true_values o) then Some true else if memb (l_lower L (text_of L o w)) (false_values o) then Some false else None) <> None <-> In (l_lower L (text_of L o w)) (true_values o ++ false_values o)).
      { rewrite in_app_iff, <- !M. destruct (memb _ (true_values o)); [split; [auto|discriminate]|]. destruct (memb _ (false_values o)); split; try congruence; auto. intros [H|H]; discriminate. }
      destruct w; cbn [bool_of]; try exact B. split; [auto|discriminate].
  - exact (D4 pt_gp).
Qed.
Print Assumptions C87_parsed_counts.

(** ** Records that meet the hypotheses *)
Definition kinds : list record :=
  [Rec (lit "r") [(KS (lit "a"), OSeq [ODict [(KS (lit "b"), OInt 1)]; OStr (lit "s")]); (KS (lit "c"), ONone)]; Rec (lit "q") [(KS (lit "a"), OStr (lit "x"))]].
Example C87_example : exists rs fs gs, db_ok ascii_db /\ strict_order str_ltb /\
  Forall2 (fun rec r => parse ex_lib ex_opts (prepare_record_data ascii_db false rec) = Some r) kinds rs /\
  get_data_fields str_ltb 20 (map p_data_types rs) = Some fs /\ get_parsed_fields str_ltb 20 (map p_parsed_types rs) = Some gs /\
  map (fun f => (f_path f, field_name f, is_basic f, is_container f, is_list_element f)) fs =
    [(lit "_id", lit "_id", true, false, false); (lit "a", lit "a", true, true, false); (lit "a.", [], true, true, true); (lit "a..b", lit "b", true, false, false); (lit "c", lit "c", true, false, false)] /\
  map (fun f => (is_root_field f, has_children f)) fs = [(true, false); (true, true); (false, true); (false, false); (true, false)] /\
  map (fun g => (f_path g, count_text g, count_keyword g, count_geo g)) gs = [(lit "_id", 2, 2, 0); (lit "a", 2, 2, 0); (lit "a.b", 1, 1, 0)].
Proof.
  eexists. eexists. eexists. split; [exact ascii_db_ok|]. split; [exact order_str|].
  split; [repeat (constructor; [vm_compute; reflexivity|]); constructor|]. cbn [map p_data_types p_parsed_types].
  split; [vm_compute; reflexivity|]. split; [vm_compute; reflexivity|]. split; [vm_compute; reflexivity|split; vm_compute; reflexivity].
Qed.
