(** How Elasticsearch maps the fields of a document (indexing/templates.py:55-217) and which values the
    queries that depend on the mapping see (search.py:100-117, 168-183). *)
From Coq Require Import String Ascii.
From Coq Require Import List ZArith NArith Bool Lia.
From Coq Require Import Floats.SpecFloat.
From Verif Require Import PyVal Time Parser ParserProofs ParserTypes ParserOrder ParserEq Index Names Search.
Import ListNotations.
Open Scope string_scope.
Open Scope list_scope.
Open Scope nat_scope.

(** ** Model *)
(** The types of fields that are used. (indexing/templates.py:55-217) *)
Inductive es_type := Disabled | GeoPoint | GeoShape | Text | Keyword | Double | Date | Boolean.
(** templates.py:103-116: the fields that values are copied to *)
Inductive all_field := AllPoints | AllShapes | AllText.
(** indexing/templates.py:118-214: the mapping of a dynamic template *)
Record mapping := Mapping { m_type : es_type; m_copy_to : option all_field }.
(** templates.py:118-214: the dynamic templates in their order, path_match and mapping (ignore_z_value and
    the format of dates left out; the normalizer of keywords is in Search.v) *)
Definition star : pystr := lit "*".
(** indexing/templates.py:118-214 *)
Definition dynamic_templates : list (pystr * mapping) :=
  [ (parsed_path star (Some pt_u) true, Mapping Disabled None);
    (parsed_path star (Some pt_gp) true, Mapping GeoPoint (Some AllPoints));
    (parsed_path star (Some pt_gs) true, Mapping GeoShape (Some AllShapes));
    (parsed_path star (Some pt_t) true, Mapping Text (Some AllText));
    (parsed_path star (Some pt_k) true, Mapping Keyword None);
    (parsed_path star (Some pt_n) true, Mapping Double None);
    (parsed_path star (Some pt_d) true, Mapping Date None);
    (parsed_path star (Some pt_b) true, Mapping Boolean None) ].
(** Elasticsearch takes the first template whose path_match matches the full path of a new field; a field
    without a template gets a type by its first value ([None]; an object for an object). (indexing/templates.py:55-217) *)
Definition mapped (path : pystr) : option mapping :=
  option_map snd (find (fun tm => matches (fst tm) path) dynamic_templates).
(** The values a field of a type takes; null is always taken. Numbers for text, strings for numbers etc.,
    which Elasticsearch would coerce, are not needed and left out. orjson writes nan and the infinities as
    null. (indexing/templates.py:55-217) *)
Definition takes (t : es_type) (v : value) : bool :=
  match t, v with
  | _, VNone => true
  | Disabled, _ => true
  | (GeoPoint | GeoShape | Text | Keyword), VStr _ => true
  | Double, (VInt _ | VFloat _) => true
  | Date, VInt _ => true
  | Boolean, VBool _ => true
  | _, _ => false
  end.
(** The objects at a path (compare [values_at]). (specification, models no code) *)
Fixpoint objects_at (p : list pystr) (v : value) : list dict :=
  match p with
  | [] => flat_map (fun x => match x with VDict d => [d] | _ => [] end) (leaves v)
  | k :: p' => flat_map (fun x => match x with VDict d => match dget d k with Some w => objects_at p' w | None => [] end | _ => [] end) (leaves v)
  end.

(** [copied a doc x]: [x] is copied to the field [a] of the document *)
Definition copied (a : all_field) (doc : esdoc parsed_data) (x : value) : Prop :=
  exists path m, mapped path = Some m /\ m_copy_to m = Some a /\ In x (values_at (split path) (source doc)) /\ x <> VNone.
(** search.py:168-183 [match_query]: the field that is searched. How text is analysed and scored is not
    modelled: only the values that are searched. *)
Definition match_path (field : option pystr) : pystr :=
  match field with None => lit "all_text" | Some f => parsed_path f (Some pt_t) true end.
(** search.py:168-183: the values a match query searches *)
Definition searched (path : pystr) (doc : esdoc parsed_data) (x : value) : Prop :=
  if str_eqb path (lit "all_text") then copied AllText doc x
  else In x (values_at (split path) (source doc)) /\ x <> VNone.
(** An exists query selects the documents with an indexed value in the field or, for an object, in a field
    below it (disabled fields are not indexed). *)
Definition indexed (path : pystr) (doc : esdoc parsed_data) : Prop :=
  exists m x, mapped path = Some m /\ m_type m <> Disabled /\ In x (values_at (split path) (source doc)) /\ x <> VNone.
(** search.py:110-117: what the query selects *)
Definition exists_hit (q : query) (doc : esdoc parsed_data) : Prop :=
  match q with
  | QExists path =>
      if str_eqb path (lit "all_points") then exists x, copied AllPoints doc x
      else indexed path doc \/ exists below, indexed (dotted path below) doc
  | _ => False
  end.

(** ** Which template *)
(** specification, models no code *)
Definition mapping_of (t : pystr) : option mapping :=
  if str_eqb t pt_u then Some (Mapping Disabled None)
  else if str_eqb t pt_gp then Some (Mapping GeoPoint (Some AllPoints))
  else if str_eqb t pt_gs then Some (Mapping GeoShape (Some AllShapes))
  else if str_eqb t pt_t then Some (Mapping Text (Some AllText))
  else if str_eqb t pt_k then Some (Mapping Keyword None)
  else if str_eqb t pt_n then Some (Mapping Double None)
  else if str_eqb t pt_d then Some (Mapping Date None)
  else if str_eqb t pt_b then Some (Mapping Boolean None)
  else None.
Lemma rsplit_unique p t q u : dotless t -> dotless u -> dotted p t = dotted q u -> p = q /\ t = u.
Proof. intros Ht Hu E. apply (f_equal rsplit_dot) in E. rewrite !rsplit_dotted in E by assumption. injection E as -> ->. auto. Qed.
Lemma pattern_matches t s : parsed_type t -> matches (parsed_path star (Some t) true) s = true <-> exists a, s = dotted (dotted (lit "data") a) t.
Proof.
  intro Ht. assert (Es : parsed_path star (Some t) true = lit "data." ++ 42%N :: dot :: t) by reflexivity. rewrite Es.
  assert (Hs : forall c, In c (dot :: t) -> c <> 42%N).
  { intros c [<-|Hc]; [discriminate|]. intros ->. unfold parsed_type in Ht. repeat (destruct Ht as [<-|Ht]; [vm_compute in Hc; intuition discriminate|]). destruct Ht. }
  rewrite matches_app by (intros c Hc; vm_compute in Hc; intuition (subst; discriminate)). split.
  - intros (r & -> & M). apply matches_star in M. destruct M as (a & r' & -> & M). apply (matches_plain _ Hs) in M. subst r'. exists a. unfold dotted. rewrite <- app_assoc. reflexivity.
  - intros (a & ->). exists (a ++ dot :: t). split; [unfold dotted; rewrite <- app_assoc; reflexivity|]. apply matches_star. exists a, (dot :: t). split; [reflexivity|]. apply (matches_plain _ Hs). reflexivity.
Qed.
Lemma pattern_dotted t p u : parsed_type t -> dotless u -> matches (parsed_path star (Some t) true) (dotted p u) = true <-> (exists a, p = dotted (lit "data") a) /\ u = t.
Proof.
  intros Ht Hu. rewrite (pattern_matches t _ Ht). split.
  - intros (a & E). apply rsplit_unique in E; [|exact Hu|apply (parsed_type_ok t Ht)]. destruct E as [-> ->]. split; [exists a|]; reflexivity.
  - intros [(a & ->) ->]. exists a. reflexivity.
Qed.
Lemma pattern_not t p u : parsed_type t -> dotless u -> u <> t -> matches (parsed_path star (Some t) true) (dotted p u) = false.
Proof. intros Ht Hu Hn. destruct (matches _ _) eqn:E; [|reflexivity]. apply (pattern_dotted t p u Ht Hu) in E. destruct E as [_ E]. contradiction. Qed.
Lemma pattern_same t a : parsed_type t -> matches (parsed_path star (Some t) true) (dotted (dotted (lit "data") a) t) = true.
Proof. intro Ht. apply (pattern_dotted t _ t Ht (proj1 (parsed_type_ok t Ht))). split; [exists a; reflexivity|reflexivity]. Qed.
Lemma mapped_none p u : dotless u -> ~ parsed_type u -> mapped (dotted p u) = None.
Proof.
  intros Hu Hn. unfold mapped, dynamic_templates. cbn [find fst snd].
  rewrite !pattern_not; try exact Hu; try (intros ->; apply Hn); unfold parsed_type; cbn [In]; auto 12.
Qed.
Lemma mapped_type a t : parsed_type t -> mapped (dotted (dotted (lit "data") a) t) = mapping_of t.
Proof.
  intro Ht. pose proof (parsed_type_ok t Ht) as [Hd _]. unfold mapped, dynamic_templates. cbn [find fst snd].
  assert (E : forall u, parsed_type u -> matches (parsed_path star (Some u) true) (dotted (dotted (lit "data") a) t) = str_eqb t u).
  { intros u Hu. destruct (str_eqb t u) eqn:E; [apply str_eqb_eq in E; subst u; apply pattern_same, Hu|]. apply pattern_not; try assumption. intros ->. rewrite str_eqb_refl in E. discriminate. }
  rewrite !E by (unfold parsed_type; cbn [In]; auto 12). unfold mapping_of.
  repeat match goal with |- context [if ?c then _ else _] => destruct c; [reflexivity|] end. reflexivity.
Qed.
Lemma mapping_of_some t : parsed_type t -> exists m, mapping_of t = Some m.
Proof. unfold parsed_type. intro H. repeat (destruct H as [<-|H]; [eexists; reflexivity|]). destruct H. Qed.
(** only sub-fields of fields are mapped by a template *)
Lemma mapped_some path m : mapped path = Some m -> exists a t, path = dotted (dotted (lit "data") a) t /\ parsed_type t /\ mapping_of t = Some m.
Proof.
  unfold mapped. destruct (find _ _) as [[pat m']|] eqn:E; [|discriminate]. cbn [option_map snd]. intro Q. injection Q as ->. pose proof (find_some _ _ E) as [H1 H2]. cbn [fst] in H2.
  assert (G : forall t, parsed_type t -> parsed_path star (Some t) true = pat -> mapping_of t = Some m -> exists a t, path = dotted (dotted (lit "data") a) t /\ parsed_type t /\ mapping_of t = Some m).
  { intros t Ht <- Hm. apply (pattern_matches t _ Ht) in H2. destruct H2 as (a & ->). exists a, t. auto. }
  unfold dynamic_templates in H1. cbn [In] in H1.
  repeat (destruct H1 as [H1|H1]; [injection H1 as H0 <-; refine (G _ _ H0 eq_refl); unfold parsed_type; cbn [In]; auto 12|]). destruct H1.
Qed.

(** ** The shape of parsed documents *)
Definition plain (v : value) : Prop := match v with VDict _ | VList _ => False | _ => True end.
Lemma plain_leaves v : plain v -> leaves v = [v]. Proof. destruct v; cbn; tauto. Qed.
Lemma plain_values p v x : plain v -> In x (values_at p v) -> p = [] /\ x = v.
Proof. intros H Hx. destruct p as [|k p]; cbn [values_at] in Hx; rewrite (plain_leaves v H) in Hx; [|destruct v; cbn in *; try contradiction; tauto]. split; [reflexivity|]. destruct v; cbn in *; try contradiction; intuition. Qed.
Lemma plain_objects p v x : plain v -> ~ In x (objects_at p v).
Proof. intros H Hx. destruct p as [|k p]; cbn [objects_at] in Hx; rewrite (plain_leaves v H) in Hx; destruct v; cbn in *; tauto. Qed.
Section Shape.
Variable P : pystr -> Prop.   (* the names of fields *)
(** specification, models no code *)
Definition fits (t : pystr) (v : value) : Prop :=
  plain v /\ (exists m, mapping_of t = Some m /\ takes (m_type m) v = true) /\ (t <> pt_u -> v <> VNone).
(** [node v]: nulls and objects (lists are transparent); a member of an object is a node under the name of a
    field or a value under the name of a sub-field (specification, models no code) *)
Inductive node : value -> Prop :=
| node_none : node VNone
| node_list l : Forall node l -> node (VList l)
| node_dict d : Forall (fun kv => (P (fst kv) /\ node (snd kv)) \/ (parsed_type (fst kv) /\ fits (fst kv) (snd kv))) d -> node (VDict d).
(** specification or proof device; models no code of its own *)
Definition member (kv : pystr * value) : Prop := (P (fst kv) /\ node (snd kv)) \/ (parsed_type (fst kv) /\ fits (fst kv) (snd kv)).
Lemma node_members d : node (VDict d) <-> Forall member d.
Proof. split; [intro H; inversion H; assumption|apply node_dict]. Qed.

Lemma forall_dset {A} (Q : pystr * A -> Prop) (d : list (pystr * A)) k v : Forall Q d -> Q (k, v) -> Forall Q (dset d k v).
Proof.
  intros H Hk. induction H as [|[k' v'] d H1 H2 IH]; cbn [dset]; [constructor; [exact Hk|constructor]|]. destruct (str_eqb k k') eqn:E; [apply str_eqb_eq in E; subst k'|]; constructor; assumption.
Qed.

Variable L : lib.
Variable o : options.
Lemma fits_intro t v m : plain v -> mapping_of t = Some m -> takes (m_type m) v = true -> v <> VNone -> fits t v.
Proof. intros A B C D. split; [exact A|]. split; [exists m; auto|auto]. Qed.
Lemma fits_u v : plain v -> fits pt_u v.
Proof. intro A. split; [exact A|]. split; [eexists; split; [reflexivity|destruct v; reflexivity]|congruence]. Qed.
Lemma geo_members g : Forall member (geo_dict g).
Proof.
  unfold geo_dict. constructor; [right|constructor; [right|constructor]]; (split; [unfold parsed_type; cbn [fst In]; auto 12|]); (eapply fits_intro; [exact I|reflexivity|reflexivity|discriminate]).
Qed.
Lemma value_members v : plain v -> Forall member (parse_value L o v).
Proof.
  intro Hv. unfold parse_value. cbv zeta.
  assert (T : forall t x, parsed_type t -> fits t x -> member (t, x)) by (intros t x H1 H2; right; auto).
  apply Forall_app. split; [repeat apply Forall_cons; [| | |apply Forall_nil]|].
  - apply T; [unfold parsed_type; cbn [In]; auto 12|]. apply fits_u, Hv.
  - apply T; [unfold parsed_type; cbn [In]; auto 12|]. eapply fits_intro; [exact I|reflexivity|reflexivity|discriminate].
  - apply T; [unfold parsed_type; cbn [In]; auto 12|]. eapply fits_intro; [exact I|reflexivity|reflexivity|discriminate].
  - apply Forall_app. split; [destruct (l_wkt L _); [apply geo_members|constructor]|]. apply Forall_app. split; [|apply Forall_app; split].
    + destruct (bool_of L o v); constructor; [|constructor]. apply T; [unfold parsed_type; cbn [In]; auto 12|]. eapply fits_intro; [exact I|reflexivity|reflexivity|discriminate].
    + destruct (number_of L o v) as [x|] eqn:E; constructor; [|constructor]. apply T; [unfold parsed_type; cbn [In]; auto 12|].
      assert (N : (exists z, x = VInt z) \/ exists f, x = VFloat f).
      { unfold number_of in E. destruct v; try (destruct (l_try_float L _); [|discriminate]); injection E as <-; eauto. }
      destruct N as [(z & ->)|(f & ->)]; (eapply fits_intro; [exact I|reflexivity|reflexivity|discriminate]).
    + destruct (first_date L _ _); constructor; [|constructor]. apply T; [unfold parsed_type; cbn [In]; auto 12|]. eapply fits_intro; [exact I|reflexivity|reflexivity|discriminate].
Qed.
Lemma value_node v : plain v -> node (VDict (parse_value L o v)).
Proof. intro H. apply node_members, value_members, H. Qed.
Lemma unparsed_node v : plain v -> node (VDict [(pt_u, v)]).
Proof. intro H. apply node_members. constructor; [|constructor]. right. split; [unfold parsed_type; cbn [fst In]; auto|]. cbn [fst snd]. apply fits_u, H. Qed.
(** specification or proof device; models no code of its own *)
Definition nested_node (nested : value -> option (value * list pystr * list pystr)) (v : value) : Prop := forall w dts pts, nested v = Some (w, dts, pts) -> node w.
Lemma entry_node nested k v q : nested_node nested v -> parse_entry L o nested k v = Some q -> match q with (Some w, _, _) => node w | _ => True end.
Proof.
  intros Hn H. destruct v as [|b|z|f|[|c s]|l|d]; cbn [parse_entry] in H; try (injection H as <-; first [apply unparsed_node; exact I|apply value_node; exact I]).
  - destruct (is_empty (VList l)); [injection H as <-; exact I|]. destruct (nested (VList l)) as [[[w d1] p1]|] eqn:E; [|discriminate]. injection H as <-. exact (Hn _ _ _ E).
  - destruct (is_empty (VDict d)); [injection H as <-; exact I|]. destruct (nested (VDict d)) as [[[w d1] p1]|] eqn:E; [|discriminate]. injection H as <-. exact (Hn _ _ _ E).
Qed.
Lemma element_node nested v q : nested_node nested v -> parse_element L o nested v = Some q -> node (fst (fst q)).
Proof.
  intros Hn H. destruct v as [|b|z|f|[|c s]|l|d]; cbn [parse_element] in H; try (injection H as <-; first [apply node_none|apply value_node; exact I]).
  - destruct (is_empty (VList l)); [injection H as <-; apply node_none|]. destruct (nested (VList l)) as [[[w d1] p1]|] eqn:E; [|discriminate]. injection H as <-. exact (Hn _ _ _ E).
  - destruct (is_empty (VDict d)); [injection H as <-; apply node_none|]. destruct (nested (VDict d)) as [[[w d1] p1]|] eqn:E; [|discriminate]. injection H as <-. exact (Hn _ _ _ E).
Qed.
(** in the root every member has the name of a field (specification, models no code) *)
Definition root_member (kv : pystr * value) : Prop := P (fst kv) /\ node (snd kv).
Lemma add_hints_members (Q : pystr * value -> Prop) ms : (forall k g p, Q (k, VDict p) -> Q (k, VDict (dupdate p (geo_dict g)))) ->
  forall parsed parsed', add_hints parsed ms = Some parsed' -> Forall Q parsed -> Forall Q parsed'.
Proof.
  intros HQ. induction ms as [|[k g] ms IH]; intros parsed parsed' H F; cbn [add_hints] in H; [injection H as <-; exact F|].
  destruct (dget parsed k) as [[| | | | | |p]|] eqn:E; try discriminate. apply (IH _ _ H). apply forall_dset; [exact F|]. apply HQ. apply dget_In in E. rewrite Forall_forall in F. exact (F _ E).
Qed.
Lemma geo_node p g : node (VDict p) -> node (VDict (dupdate p (geo_dict g))).
Proof.
  rewrite !node_members. intro H. unfold dupdate, geo_dict. cbn [fold_left fst snd]. pose proof (geo_members g) as G. unfold geo_dict in G. inversion G as [|? ? G1 G2]; subst. inversion G2 as [|? ? G3 _]; subst.
  apply forall_dset; [apply forall_dset; assumption|assumption].
Qed.
Lemma dict_node nested chk d parsed dts pts : Forall (fun kv => P (fst kv) /\ nested_node nested (snd kv)) d -> dict_body L o nested chk d = Some (parsed, dts, pts) ->
  Forall member parsed /\ (chk = false -> Forall root_member parsed).
Proof.
  intros HF E. apply dict_body_some in E. unfold dict_rest in E. destruct (map_opt _ d) as [parts|] eqn:Ep; [|discriminate]. change (list (pystr * part)) in parts. destruct (add_hints _ _) as [q|] eqn:Ea; [|discriminate]. injection E as <- _ _. apply map_opt_F2 in Ep.
  assert (HP : Forall (fun kp : pystr * part => P (fst kp) /\ match snd kp with (Some w, _, _) => node w | _ => True end) parts).
  { clear Ea. induction Ep as [|kv y d parts E _ IH]; [constructor|]. inversion HF as [|? ? F1 F2]; subst. constructor; [|exact (IH F2)]. destruct (parse_entry L o nested (fst kv) (snd kv)) as [pt|] eqn:Ee; [|discriminate]. injection E as <-. cbn [fst snd]. destruct F1 as [F1 F3]. split; [exact F1|]. exact (entry_node _ _ _ _ F3 Ee). }
  assert (HS : forall (Q : pystr * value -> Prop), (forall k w, P k -> node w -> Q (k, w)) -> forall acc, Forall Q acc -> Forall Q (fold_left set_part parts acc)).
  { intros Q HQ. clear Ea Ep. induction HP as [|[k [[w d1] p1]] parts [H1 H2] HP IH]; intros acc Hacc; [exact Hacc|]. cbn [fold_left set_part]. apply IH. destruct w as [w|]; [|exact Hacc]. apply forall_dset; [exact Hacc|]. apply HQ; assumption. }
  split.
  - refine (add_hints_members member _ _ _ _ Ea _).
    + intros k g p [[M1 M2]|[M1 [M2 _]]]; [left; split; [exact M1|apply geo_node, M2]|destruct M2].
    + apply HS; [intros k w A B; left; auto|]. destruct chk; [|constructor]. destruct (l_geojson L d); [apply geo_members|constructor].
  - intros ->. refine (add_hints_members root_member _ _ _ _ Ea _).
    + intros k g p [M1 M2]. split; [exact M1|apply geo_node, M2].
    + apply HS; [intros k w A B; split; auto|constructor].
Qed.
Lemma parse_node v : (forall k, key_in k v -> P k) -> nested_node (parse_nested L o) v.
Proof.
  induction v as [|b|z|f|s|l IH|d IH] using value_ind'; intros K w dts pts H; cbn [parse_nested] in H; try discriminate.
  - destruct (list_body L o (parse_nested L o) l) as [[[ws d1] p1]|] eqn:E; [|discriminate]. injection H as <- _ _. unfold list_body in E. destruct (map_opt _ l) as [ps|] eqn:Ep; [|discriminate]. injection E as <- _ _. apply map_opt_F2 in Ep. apply node_list.
    induction Ep as [|x q l ps E _ IHl]; [constructor|]. inversion IH as [|? ? I1 I2]; subst. cbn [map]. constructor.
    + apply (element_node (parse_nested L o) x q); [|exact E]. apply I1. intros k Hk. apply K. apply (key_list k _ x); [left; reflexivity|exact Hk].
    + apply IHl; [exact I2|]. intros k Hk. apply K. inversion Hk as [| |l' x' L1 L2]; subst. apply (key_list k _ x'); [right; exact L1|exact L2].
  - destruct (dict_body L o (parse_nested L o) true d) as [[[q d1] p1]|] eqn:E; [|discriminate]. injection H as <- _ _. apply node_members. refine (proj1 (dict_node _ _ _ _ _ _ _ E)).
    rewrite Forall_forall in *. intros [k v] Hk. split; [exact (K k (key_here k d v Hk))|]. apply (IH _ Hk). intros k' Hk'. apply K. exact (key_dict k' d k v Hk Hk').
Qed.
Lemma parse_root d r : (forall k, key_in k (VDict d) -> P k) -> parse L o d = Some r -> Forall root_member (p_parsed r).
Proof.
  intros K H. unfold parse in H. destruct (dict_body L o (parse_nested L o) false d) as [[[q d1] p1]|] eqn:E; [|discriminate]. injection H as <-. cbn [p_parsed]. refine (proj2 (dict_node _ _ _ _ _ _ _ E) eq_refl).
  rewrite Forall_forall. intros [k v] Hk. split; [exact (K k (key_here k d v Hk))|]. apply parse_node. intros k' Hk'. apply K. exact (key_dict k' d k v Hk Hk').
Qed.

Lemma node_leaves v : node v -> Forall (fun x => x = VNone \/ exists d, x = VDict d /\ Forall member d) (leaves v).
Proof.
  induction v as [|b|z|f|s|l IH|d IH] using value_ind'; intro H; try (inversion H; fail).
  - constructor; [left; reflexivity|constructor].
  - inversion H as [|? HF|]; subst. cbn [leaves]. apply Forall_flat_map. rewrite Forall_forall in *. intros x Hx. apply (IH x Hx). exact (HF x Hx).
  - constructor; [|constructor]. right. exists d. split; [reflexivity|]. apply node_members, H.
Qed.
(** Where the values of a document are, and of which kind. *)
Lemma node_values q : forall v x, node v -> In x (values_at q v) -> x <> VNone -> exists p t, q = p ++ [t] /\ Forall P p /\ parsed_type t /\ fits t x.
Proof.
  induction q as [|k q IH]; intros v x Hv Hx Hn; pose proof (node_leaves v Hv) as HL; rewrite Forall_forall in HL; cbn [values_at] in Hx.
  - unfold scalars in Hx. apply filter_In in Hx. destruct Hx as [H1 H2]. destruct (HL x H1) as [->|(d & -> & _)]; [contradiction|discriminate].
  - apply in_flat_map in Hx. destruct Hx as (y & H1 & H2). destruct (HL y H1) as [->|(d & -> & Hd)]; [destruct H2|]. destruct (dget d k) as [w|] eqn:E; [|destruct H2]. apply dget_In in E. rewrite Forall_forall in Hd. destruct (Hd _ E) as [[M1 M2]|[M1 M2]]; cbn [fst snd] in *.
    + destruct (IH w x M2 H2 Hn) as (p & t & -> & A & B). exists (k :: p), t. split; [reflexivity|]. split; [constructor; assumption|exact B].
    + destruct (plain_values q w x (proj1 M2) H2) as [-> ->]. exists [], k. split; [reflexivity|]. split; [constructor|]. auto.
Qed.
Lemma node_nonnull p t : (forall k, P k -> ~ parsed_type k) -> parsed_type t -> t <> pt_u -> forall v x, node v -> In x (values_at (p ++ [t]) v) -> x <> VNone.
Proof.
  intros HP Ht Hu. induction p as [|k p IH]; intros v x Hv Hx; pose proof (node_leaves v Hv) as HL; rewrite Forall_forall in HL; cbn [app values_at] in Hx;
  apply in_flat_map in Hx; destruct Hx as (y & H1 & H2); destruct (HL y H1) as [->|(d & -> & Hd)]; try (destruct H2; fail); rewrite Forall_forall in Hd.
  - destruct (dget d t) as [w|] eqn:E; [|destruct H2]. apply dget_In in E. destruct (Hd _ E) as [[M1 _]|[_ (M2 & _ & M3)]]; cbn [fst snd] in *; [destruct (HP _ M1 Ht)|]. destruct (plain_values [] w x M2 H2) as [_ ->]. exact (M3 Hu).
  - destruct (dget d k) as [w|] eqn:E; [|destruct H2]. apply dget_In in E. destruct (Hd _ E) as [[_ M2]|[_ (M2 & _)]]; cbn [fst snd] in *; [exact (IH w x M2 H2)|]. destruct (plain_values _ w x M2 H2) as [Q _]. destruct p; discriminate.
Qed.
Lemma node_objects q : forall v x, node v -> In x (objects_at q v) -> Forall P q.
Proof.
  induction q as [|k q IH]; intros v x Hv Hx; [constructor|]. pose proof (node_leaves v Hv) as HL; rewrite Forall_forall in HL; cbn [objects_at] in Hx.
  apply in_flat_map in Hx. destruct Hx as (y & H1 & H2). destruct (HL y H1) as [->|(d & -> & Hd)]; [destruct H2|]. destruct (dget d k) as [w|] eqn:E; [|destruct H2]. apply dget_In in E. rewrite Forall_forall in Hd. destruct (Hd _ E) as [[M1 M2]|[M1 M2]]; cbn [fst snd] in *.
  - constructor; [exact M1|]. exact (IH w x M2 H2).
  - exfalso. exact (plain_objects q w x (proj1 M2) H2).
Qed.
End Shape.

(** ** The sub-fields that are present *)
Section Present.
Variable L : lib.
Variable o : options.
(** specification, models no code *)
Definition present (q : list pystr) (w : value) : Prop := exists x, In x (values_at q w).
(** specification or proof device; models no code of its own *)
Definition named (p : list pystr) : Prop := Forall (fun k => ~ parsed_type k) p.
Lemma add_hints_full ms : forall parsed parsed', NoDup (dkeys ms) -> add_hints parsed ms = Some parsed' -> forall k,
  match dget ms k with
  | None => dget parsed' k = dget parsed k
  | Some g => exists p, dget parsed k = Some (VDict p) /\ dget parsed' k = Some (VDict (dupdate p (geo_dict g)))
  end.
Proof.
  induction ms as [|[k0 g] ms IH]; intros parsed parsed' Hn H k; cbn [add_hints] in H; [injection H as <-; reflexivity|]. cbn [dkeys map fst] in Hn. inversion Hn as [|? ? N1 N2]; subst.
  destruct (dget parsed k0) as [[| | | | | |p]|] eqn:E; try discriminate. specialize (IH _ _ N2 H k). cbn [dget]. destruct (str_eqb k k0) eqn:Ek.
  - apply str_eqb_eq in Ek. subst k0. assert (Q : dget ms k = None) by (apply dget_None; exact N1). rewrite Q in IH. rewrite dget_dset, str_eqb_refl in IH. exists p. auto.
  - rewrite dget_dset, Ek in IH. exact IH.
Qed.
Lemma present_dict k p d : present (k :: p) (VDict d) <-> exists w, dget d k = Some w /\ present p w.
Proof.
  unfold present. rewrite values_dict. split.
  - intros (x & Hx). destruct (dget d k) as [w|]; [|destruct Hx]. exists w. split; [reflexivity|]. exists x. exact Hx.
  - intros (w & -> & x & Hx). exists x. exact Hx.
Qed.
Lemma present_list p l : present p (VList l) <-> exists v, In v l /\ present p v.
Proof.
  unfold present. rewrite values_list. split.
  - intros (x & Hx). apply in_flat_map in Hx. destruct Hx as (v & H1 & H2). exists v. split; [exact H1|]. exists x. exact H2.
  - intros (v & H1 & x & H2). exists x. apply in_flat_map. exists v. auto.
Qed.
Lemma present_plain q w : plain w -> present q w -> q = [].
Proof. intros H (x & Hx). exact (proj1 (plain_values q w x H Hx)). Qed.
(** specification or proof device; models no code of its own *)
Definition present_ok (v w : value) : Prop := forall p t, named p -> parsed_type t -> t <> pt_u -> present (p ++ [t]) w <-> has_parsed L o v p t.
Lemma present_value x : parsed_as_value x -> present_ok x (VDict (parse_value L o x)).
Proof.
  intros Hx p t Hp Ht Hu. rewrite (value_parsed L o x p t Hx). destruct p as [|k p].
  - cbn [app]. rewrite present_dict. split.
    + intros (w & E & _). split; [reflexivity|]. apply dget_Some_key in E. exact E.
    + intros [_ K]. destruct (dget (parse_value L o x) t) as [w|] eqn:E; [|apply dget_None in E; contradiction]. exists w. split; [reflexivity|]. exists w.
      assert (Pl : plain x) by (destruct x as [| | | |[|]| |]; try exact I; destruct Hx).
      pose proof (value_members (fun _ => False) L o x Pl) as M. rewrite Forall_forall in M. destruct (M _ (dget_In _ _ _ E)) as [[[] _]|[_ [F _]]]. cbn [snd] in F. cbn [values_at]. rewrite (plain_leaves w F). destruct w; cbn in *; tauto.
  - cbn [app]. rewrite present_dict. split; [|intros [Q _]; discriminate]. intros (w & E & _). exfalso. inversion Hp as [|? ? P1 _]; subst. apply P1. apply (parse_value_keys_in L o x). apply dget_Some_key in E. exact E.
Qed.
Lemma present_nothing v w : (forall p t, ~ has_parsed L o v p t) -> (forall p t, named p -> t <> pt_u -> ~ present (p ++ [t]) w) -> present_ok v w.
Proof. intros A B p t Hp Ht Hu. split; [intro Q; destruct (B p t Hp Hu Q)|intro Q; destruct (A p t Q)]. Qed.
Lemma present_unparsed v : plain v -> forall p t, named p -> t <> pt_u -> ~ present (p ++ [t]) (VDict [(pt_u, v)]).
Proof.
  intros Hv p t Hp Hu Q. destruct p as [|k p]; cbn [app] in Q; apply present_dict in Q; destruct Q as (w & E & _); cbn [dget] in E.
  - destruct (str_eqb t pt_u) eqn:E1; [apply str_eqb_eq in E1; contradiction|discriminate].
  - destruct (str_eqb k pt_u) eqn:E1; [|discriminate]. apply str_eqb_eq in E1. inversion Hp as [|? ? P1 _]; subst. apply P1. left. reflexivity.
Qed.
Lemma present_null p t : ~ present (p ++ [t]) VNone.
Proof. intro Q. apply present_plain in Q; [|exact I]. destruct p; discriminate. Qed.
(** specification or proof device; models no code of its own *)
Definition nested_present (nested : value -> option (value * list pystr * list pystr)) (v : value) : Prop :=
  is_empty v = false -> forall w dts pts, nested v = Some (w, dts, pts) -> present_ok v w.
Lemma entry_present nested k v q : nested_present nested v -> parse_entry L o nested k v = Some q ->
  match q with (Some w, _, _) => present_ok v w | _ => forall p t, ~ has_parsed L o v p t end.
Proof.
  intros Hn H. destruct v as [|b|z|f|[|c s]|l|d]; cbn [parse_entry] in H.
  - injection H as <-. apply present_nothing; [apply nothing_parsed; exact I|apply present_unparsed; exact I].
  - injection H as <-. apply present_value. exact I.
  - injection H as <-. apply present_value. exact I.
  - injection H as <-. apply present_value. exact I.
  - injection H as <-. apply present_nothing; [apply nothing_parsed; exact I|apply present_unparsed; exact I].
  - injection H as <-. apply present_value. exact I.
  - destruct (is_empty (VList l)) eqn:Ee; [injection H as <-; apply nothing_parsed; destruct l; [exact I|discriminate]|]. destruct (nested (VList l)) as [[[w d1] p1]|] eqn:E; [|discriminate]. injection H as <-. exact (Hn Ee _ _ _ E).
  - destruct (is_empty (VDict d)) eqn:Ee; [injection H as <-; apply nothing_parsed; destruct d; [exact I|discriminate]|]. destruct (nested (VDict d)) as [[[w d1] p1]|] eqn:E; [|discriminate]. injection H as <-. exact (Hn Ee _ _ _ E).
Qed.
Lemma element_present nested v q : nested_present nested v -> parse_element L o nested v = Some q -> present_ok v (fst (fst q)).
Proof.
  intros Hn H. destruct v as [|b|z|f|[|c s]|l|d]; cbn [parse_element] in H.
  - injection H as <-. apply present_nothing; [apply nothing_parsed; exact I|intros; apply present_null].
  - injection H as <-. apply present_value. exact I.
  - injection H as <-. apply present_value. exact I.
  - injection H as <-. apply present_value. exact I.
  - injection H as <-. apply present_nothing; [apply nothing_parsed; exact I|intros; apply present_null].
  - injection H as <-. apply present_value. exact I.
  - destruct (is_empty (VList l)) eqn:Ee; [injection H as <-; apply present_nothing; [apply nothing_parsed; destruct l; [exact I|discriminate]|intros; apply present_null]|]. destruct (nested (VList l)) as [[[w d1] p1]|] eqn:E; [|discriminate]. injection H as <-. exact (Hn Ee _ _ _ E).
  - destruct (is_empty (VDict d)) eqn:Ee; [injection H as <-; apply present_nothing; [apply nothing_parsed; destruct d; [exact I|discriminate]|intros; apply present_null]|]. destruct (nested (VDict d)) as [[[w d1] p1]|] eqn:E; [|discriminate]. injection H as <-. exact (Hn Ee _ _ _ E).
Qed.
(** specification or proof device; models no code of its own *)
Definition hint_here (d : dict) (k t : pystr) : Prop := geo_type t /\ exists h, In h (geo_hints o) /\ h_lat h = k /\ hint_works L d h.
Lemma geo_get g t : geo_type t -> exists x, dget (geo_dict g) t = Some x /\ plain x /\ x <> VNone.
Proof. intros [->| ->]; eexists; (split; [reflexivity|]); split; try exact I; discriminate. Qed.
Lemma plain_present x : plain x -> present [] x.
Proof. intro H. exists x. cbn [values_at]. rewrite (plain_leaves x H). destruct x; cbn in *; tauto. Qed.
Lemma geo_nodup g : NoDup (dkeys (geo_dict g)).
Proof. repeat constructor; cbn; intuition discriminate. Qed.
Lemma geo_other g t : ~ geo_type t -> dget (geo_dict g) t = None.
Proof. intro H. apply dget_None. intros [Q|[Q|[]]]; cbn [fst] in Q; subst; apply H; [left|right]; reflexivity. Qed.
Lemma named_head p t : named p -> ~ (p = [] /\ geo_type t) -> parsed_type t -> exists k r, p ++ [t] = k :: r /\ ~ geo_type k.
Proof.
  intros Hp Hg Ht. destruct p as [|k p]; [exists t, []; split; [reflexivity|]; intro Q; apply Hg; auto|]. exists k, (p ++ [t]). split; [reflexivity|]. inversion Hp as [|? ? P1 _]; subst. intro Q. apply P1, geo_type_ok, Q.
Qed.
Lemma dict_present nested chk d parsed dts pts : NoDup (dkeys d) -> Forall (fun kv => nested_present nested (snd kv)) d ->
  dict_body L o nested chk d = Some (parsed, dts, pts) -> forall k p t, ~ parsed_type k -> named p -> parsed_type t -> t <> pt_u ->
  present (k :: p ++ [t]) (VDict parsed) <-> (exists v, In (k, v) d /\ has_parsed L o v p t) \/ (p = [] /\ hint_here d k t).
Proof.
  intros Hn HF E k p t Hk Hp Ht Hu. apply dict_body_some in E. unfold dict_rest in E. destruct (map_opt _ d) as [parts|] eqn:Ep; [|discriminate]. change (list (pystr * part)) in parts. destruct (add_hints _ _) as [q|] eqn:Ea; [|discriminate]. injection E as <- _ _. apply map_opt_F2 in Ep.
  assert (Ek : map (@fst pystr part) parts = dkeys d).
  { clear - Ep. induction Ep as [|kv y d parts E _ IH]; [reflexivity|]. cbn [map dkeys]. rewrite IH. destruct (parse_entry L o _ (fst kv) (snd kv)); [injection E as <-; reflexivity|discriminate]. }
  pose proof (match_hints_nodup L d (geo_hints o) [] (NoDup_nil _)) as Nm. pose proof (match_hints_keys L d (geo_hints o) [] k) as Km. set (ms := match_hints L d (geo_hints o) []) in *.
  pose proof (add_hints_full _ _ _ Nm Ea k) as Hh. set (base := fold_left set_part parts _) in *.
  (* the object without the hints *)
  assert (Hbase : (exists w, dget base k = Some w /\ present (p ++ [t]) w) <-> exists v, In (k, v) d /\ has_parsed L o v p t).
  { unfold base. rewrite set_parts_get by (rewrite Ek; exact Hn).
    assert (Hg : dget (if chk then match l_geojson L d with Some g => geo_dict g | None => [] end else []) k = None).
    { apply dget_None. intro K. destruct (not_geo k Hk) as [G1 G2]. destruct chk; [|destruct K]. destruct (l_geojson L d); [|destruct K]. destruct K as [K|[K|[]]]; cbn [fst] in K; congruence. }
    rewrite Hg. destruct (dget d k) as [v|] eqn:Ed.
    - assert (Pq : exists q, parse_entry L o nested k v = Some q /\ dget parts k = Some q).
      { apply dget_In in Ed. assert (Hn' : NoDup (dkeys parts)) by (exact (eq_ind_r (fun l => NoDup l) Hn Ek)). clear - Ep Ed Hn'. induction Ep as [|kv y d parts E _ IH]; [destruct Ed|]. destruct Ed as [->|Ed].
        - cbn [fst snd] in E. destruct (parse_entry L o nested k v) as [q|]; [|discriminate]. injection E as <-. exists q. split; [reflexivity|]. cbn [dget]. rewrite str_eqb_refl. reflexivity.
        - cbn [dkeys map] in Hn'. inversion Hn' as [|? ? N1 N2]; subst. destruct (IH Ed N2) as (q & Q1 & Q2). exists q. split; [exact Q1|]. cbn [dget]. destruct y as [k1 q1]. cbn [fst] in N1. destruct (str_eqb k k1) eqn:E1; [|exact Q2]. apply str_eqb_eq in E1. subst k1. apply dget_Some_key in Q2. contradiction. }
      destruct Pq as (pt & P1 & ->). rewrite Forall_forall in HF. pose proof (entry_present _ _ _ _ (HF (k, v) (dget_In _ _ _ Ed)) P1) as Q. destruct pt as [[[w|] d1] p1].
      + specialize (Q p t Hp Ht Hu). split.
        * intros (w' & E' & H'). injection E' as <-. exists v. split; [exact (dget_In _ _ _ Ed)|]. apply Q, H'.
        * intros (v' & V1 & V2). apply (In_dget _ _ _ Hn) in V1. rewrite Ed in V1. injection V1 as <-. exists w. split; [reflexivity|]. apply Q, V2.
      + split; [intros (w' & E' & _); discriminate|]. intros (v' & V1 & V2). apply (In_dget _ _ _ Hn) in V1. rewrite Ed in V1. injection V1 as <-. destruct (Q p t V2).
    - assert (Pn : dget parts k = None) by (apply dget_None; apply (eq_ind_r (fun l => ~ In k l) (proj1 (dget_None _ _) Ed) Ek)). rewrite Pn. split; [intros (w & E & _); discriminate|].
      intros (v & V1 & _). apply (In_dget _ _ _ Hn) in V1. congruence. }
  rewrite present_dict. destruct (dget ms k) as [g|] eqn:Em.
  - assert (Hk' : exists h, In h (geo_hints o) /\ h_lat h = k /\ hint_works L d h) by (apply dget_Some_key, Km in Em; destruct Em as [[]|Em]; exact Em).
    destruct Hh as (p0 & B1 & B2). rewrite B2.
    destruct p as [|k1 p].
    + assert (Dt : geo_type t \/ ~ geo_type t) by (unfold geo_type; destruct (str_eq_dec t pt_gp), (str_eq_dec t pt_gs); intuition).
      destruct Dt as [G|G].
      * split; [intros _; right; split; [reflexivity|]; split; assumption|]. intros _. eexists. split; [reflexivity|]. cbn [app]. apply present_dict. destruct (geo_get g t G) as (x & X1 & X2 & _). exists x. split; [rewrite dget_dupdate by apply geo_nodup; rewrite X1; reflexivity|apply plain_present, X2].
      * assert (S : present ([] ++ [t]) (VDict (dupdate p0 (geo_dict g))) <-> present ([] ++ [t]) (VDict p0)) by (cbn [app]; rewrite !present_dict, dget_dupdate, (geo_other g t G) by apply geo_nodup; tauto).
        split; [intros (w & E & H); injection E as <-; left; apply Hbase; eexists; split; [exact B1|apply S, H]|].
        intros [Q|[_ [Q _]]]; [|contradiction]. apply Hbase in Q. destruct Q as (w & E & Q). rewrite B1 in E. injection E as <-. eexists. split; [reflexivity|]. apply S, Q.
    + assert (G : ~ geo_type k1) by (inversion Hp as [|? ? P1 _]; subst; intro Q; apply P1, geo_type_ok, Q).
      assert (S : present ((k1 :: p) ++ [t]) (VDict (dupdate p0 (geo_dict g))) <-> present ((k1 :: p) ++ [t]) (VDict p0)) by (cbn [app]; rewrite !present_dict, dget_dupdate, (geo_other g k1 G) by apply geo_nodup; tauto).
      split; [intros (w & E & H); injection E as <-; left; apply Hbase; eexists; split; [exact B1|apply S, H]|].
      intros [Q|[Q _]]; [|discriminate]. apply Hbase in Q. destruct Q as (w & E & Q). rewrite B1 in E. injection E as <-. eexists. split; [reflexivity|]. apply S, Q.
  - rewrite Hh, Hbase. split; [auto|]. intros [Q|[_ [_ Q]]]; [exact Q|]. exfalso. apply dget_None in Em. apply Em, Km. right. exact Q.
Qed.
Lemma nested_present_ok v : wf v -> (forall k, key_in k v -> ~ parsed_type k) -> nested_present (parse_nested L o) v.
Proof.
  induction v as [|b|z|f|s|l IH|d IH] using value_ind'; intros W K He w dts pts H; cbn [parse_nested] in H; try discriminate.
  - destruct (list_body L o (parse_nested L o) l) as [[[ws d1] p1]|] eqn:E; [|discriminate]. injection H as <- _ _. unfold list_body in E. destruct (map_opt _ l) as [ps|] eqn:Ep; [|discriminate]. injection E as <- _ _.
    apply map_opt_F2 in Ep. apply wf_list in W. intros p t Hp Ht Hu. rewrite present_list.
    assert (F : Forall2 (fun x q => present_ok x (fst (fst q))) l ps).
    { clear He. induction Ep as [|x q l ps E _ IHl]; [constructor|]. inversion IH as [|? ? I1 I2]; subst. inversion W as [|? ? W1 W2]; subst. constructor.
      - apply (element_present (parse_nested L o) x q); [|exact E]. apply I1; [exact W1|]. intros k Hk. apply K. apply (key_list k _ x); [left; reflexivity|exact Hk].
      - apply IHl; [exact I2|exact W2|]. intros k Hk. apply K. inversion Hk as [| |l' x' L1 L2]; subst. apply (key_list k _ x'); [right; exact L1|exact L2]. }
    split.
    + intros (y & Hy & Q). apply in_map_iff in Hy. destruct Hy as (q & <- & Hq). assert (X : exists x, In x l /\ present_ok x (fst (fst q))).
      { clear - F Hq. induction F as [|x q' l ps H1 _ IHF]; [destruct Hq|]. destruct Hq as [->|Hq]; [exists x; split; [left; reflexivity|exact H1]|]. destruct (IHF Hq) as (x' & X1 & X2). exists x'. split; [right; exact X1|exact X2]. }
      destruct X as (x & X1 & X2). apply (hp_list L o l x p t X1). apply (X2 p t Hp Ht Hu), Q.
    + intro Q. inversion Q as [v' t' V1 V2|d' t' V1 V2 V3| | |l' x p' t' X1 X2]; subst; [destruct V1|]. assert (X : exists q, In q ps /\ present_ok x (fst (fst q))).
      { clear - F X1. induction F as [|x' q' l ps H1 _ IHF]; [destruct X1|]. destruct X1 as [->|X1]; [exists q'; split; [left; reflexivity|exact H1]|]. destruct (IHF X1) as (q & Q1 & Q2). exists q. split; [right; exact Q1|exact Q2]. }
      destruct X as (q & Q1 & Q2). exists (fst (fst q)). split; [apply in_map_iff; exists q; auto|]. apply (Q2 p t Hp Ht Hu), X2.
  - destruct (dict_body L o (parse_nested L o) true d) as [[[q d1] p1]|] eqn:E; [|discriminate]. injection H as <- _ _. apply wf_dict in W. destruct W as [W1 W2].
    assert (HF : Forall (fun kv => nested_present (parse_nested L o) (snd kv)) d).
    { rewrite Forall_forall in *. intros [k v] Hk. apply (IH _ Hk (W2 _ Hk)). intros k' Hk'. apply K. exact (key_dict k' d k v Hk Hk'). }
    assert (Hd : d <> []) by (destruct d; [discriminate|discriminate]).
    intros p t Hp Ht Hu. destruct p as [|k p].
    + cbn [app]. rewrite present_dict.
      apply dict_body_some in E. unfold dict_rest in E. destruct (map_opt _ d) as [parts|] eqn:Ep; [|discriminate]. change (list (pystr * part)) in parts. destruct (add_hints _ _) as [q'|] eqn:Ea; [|discriminate]. injection E as <- _ _. apply map_opt_F2 in Ep.
      assert (Ek : map (@fst pystr part) parts = dkeys d).
      { clear - Ep. induction Ep as [|kv y d parts E _ IH]; [reflexivity|]. cbn [map dkeys]. rewrite IH. destruct (parse_entry L o _ (fst kv) (snd kv)); [injection E as <-; reflexivity|discriminate]. }
      assert (Hb : dget (fold_left set_part parts (match l_geojson L d with Some g => geo_dict g | None => [] end)) t = dget (match l_geojson L d with Some g => geo_dict g | None => [] end) t).
      { rewrite set_parts_get by (rewrite Ek; exact W1). assert (Pn : dget parts t = None).
        { apply dget_None. intro Q. change (In t (map (@fst pystr part) parts)) in Q. rewrite Ek in Q. apply in_map_iff in Q. destruct Q as ([k v] & Q1 & Q2). cbn in Q1. subst k. apply (K t (key_here t d v Q2)). exact Ht. }
        rewrite Pn. reflexivity. }
      assert (Hq : dget q' t = dget (match l_geojson L d with Some g => geo_dict g | None => [] end) t).
      { destruct (add_hints_dget _ _ _ Ea t) as [Q|(a & b & Q & _)]; [rewrite Q; exact Hb|]. exfalso. rewrite Hb in Q. destruct (l_geojson L d) as [g|]; [|discriminate]. apply dget_In in Q. destruct Q as [Q|[Q|[]]]; discriminate. }
      rewrite Hq. split.
      * intros (w & E & _). destruct (l_geojson L d) as [g|] eqn:Eg; [|discriminate]. apply (hp_geo L o d t Hd); [congruence|]. apply dget_Some_key in E. destruct E as [E|[E|[]]]; cbn [fst] in E; subst; [left|right]; reflexivity.
      * intro Q. inversion Q as [v' t' V1 V2|d' t' V1 V2 V3| | |]; subst; [destruct V1|]. destruct (l_geojson L d) as [g|]; [|contradiction]. destruct (geo_get g t V3) as (x & X1 & X2 & _). exists x. split; [exact X1|apply plain_present, X2].
    + inversion Hp as [|? ? P1 P2]; subst. cbn [app]. rewrite (dict_present _ true d _ _ _ W1 HF E k p t P1 P2 Ht Hu). split.
      * intros [(v & V1 & V2)|[-> [G (h & H1 & H2 & H3)]]]; [exact (hp_key L o d k v p t V1 V2)|]. subst k. exact (hp_hint L o d h t Hd H1 H3 G).
      * intro Q. inversion Q as [| |d' k' v' p' t' V1 V2|d' h' t' V0 V1 V2 V3|]; subst; [left; exists v'; auto|]. right. split; [reflexivity|]. split; [exact V3|]. exists h'. auto.
Qed.
(** The sub-fields of a parsed record, except the unparsed ones. *)
Lemma parse_present d r : wfd d -> (forall k, key_in k (VDict d) -> ~ parsed_type k) -> parse L o d = Some r ->
  forall p t, p <> [] -> named p -> parsed_type t -> t <> pt_u -> present (p ++ [t]) (VDict (p_parsed r)) <-> has_parsed_root L o d p t.
Proof.
  intros W K H p t Hn Hp Ht Hu. unfold parse in H. destruct (dict_body L o (parse_nested L o) false d) as [[[q d1] p1]|] eqn:E; [|discriminate]. injection H as <-. cbn [p_parsed]. destruct p as [|k p]; [contradiction|]. inversion Hp as [|? ? P1 P2]; subst.
  unfold wfd in W. apply wf_dict in W. destruct W as [W1 W2]. cbn [app].
  assert (HF : Forall (fun kv => nested_present (parse_nested L o) (snd kv)) d).
  { rewrite Forall_forall in *. intros [k' v] Hk. apply nested_present_ok; [exact (W2 _ Hk)|]. intros k2 Hk2. apply K. exact (key_dict k2 d k' v Hk Hk2). }
  rewrite (dict_present _ false d _ _ _ W1 HF E k p t P1 P2 Ht Hu). split.
  - intros [(v & V1 & V2)|[-> [G (h & H1 & H2 & H3)]]]; [exact (hr_key L o d k v p t V1 V2)|]. subst k. exact (hr_hint L o d h t H1 H3 G).
  - intro Q. inversion Q as [k' v' p' t' V1 V2|h' t' V1 V2 V3]; subst; [left; exists v'; auto|]. right. split; [reflexivity|]. split; [exact V3|]. exists h'. auto.
Qed.
End Present.
