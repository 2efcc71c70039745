(** Property C77: the parsed record has the structure of the record. *)
From Coq Require Import String Ascii.
From Coq Require Import List ZArith NArith Bool Lia.
From Verif Require Import PyVal Time Parser ParserProofs ParserTypes ParserOrder ParserEq PropsTotal EndToEnd ParserPlaces.
Import ListNotations.
Open Scope string_scope.
Open Scope list_scope.
Open Scope nat_scope.

(** Options have at most one hint for each latitude field (the builder keeps one, C40). *)
Definition one_hint_each (o : options) : Prop := NoDup (map h_lat (geo_hints o)).
(** [fields] are the [base] fields, with the geographic data [g] if there are any. *)
Definition with_geo (fields base : dict) (g : option (pystr * pystr)) : Prop :=
  match g with
  | Some (gp, gs) => dget fields pt_gp = Some (VStr gp) /\ dget fields pt_gs = Some (VStr gs) /\
                     forall t, t <> pt_gp -> t <> pt_gs -> dget fields t = dget base t
  | None => fields = base
  end.
(** What the hints for the field [k] make of a dict. *)
Definition hinted (L : lib) (o : options) (e : dict) (k : pystr) (g : option (pystr * pystr)) : Prop :=
  match g with
  | Some g => exists h, In h (geo_hints o) /\ h_lat h = k /\ hint_gives L e h g
  | None => forall h, In h (geo_hints o) -> h_lat h = k -> ~ hint_works L e h
  end.

Lemma get_nonempty (e : dict) k v : dget e k = Some v -> e <> [].
Proof. intros H ->. discriminate H. Qed.
Lemma nth_nonempty (l : list value) n v : nth_error l n = Some v -> l <> [].
Proof. intros H ->. destruct n; discriminate H. Qed.
Lemma cons_nonempty (x : pystr * value) l : x :: l <> [].
Proof. discriminate. Qed.

Section C77.
Variable L : lib.
Hypothesis VP : value_points L.
Variable o : options.
Hypothesis OK : one_hint_each o.
Variables (d : dict) (r : parsed_data).
Hypothesis W : wfd d.
Hypothesis P : parse L o d = Some r.
Notation there := (fun p => at_place p (VDict d)).
Notation parsed := (fun p => at_place p (VDict (p_parsed r))).

Lemma hinted_get e k : exists g, hinted L o e k g /\ dget (match_hints L e (geo_hints o) []) k = g.
Proof.
  destruct (dget (match_hints L e (geo_hints o) []) k) as [g|] eqn:E.
  - exists (Some g). split; [|reflexivity]. apply hints_get in E; [exact E|exact OK].
  - exists None. split; [|reflexivity]. intros h H1 H2 (g & H3). assert (Q : dget (match_hints L e (geo_hints o) []) k = Some g) by (apply hints_get; [exact OK|]; eauto). congruence.
Qed.
Lemma with_geo_update base g : with_geo (dupdate base (geo_dict g)) base (Some g).
Proof.
  destruct g as [gp gs]. unfold with_geo. split; [|split]; [| |intros t H1 H2]; rewrite dget_dupdate by (repeat constructor; cbn; intuition discriminate); cbn [geo_dict dget fst snd].
  - rewrite str_eqb_refl. reflexivity.
  - rewrite str_eqb_refl. reflexivity.
  - assert (E1 : str_eqb t pt_gp = false) by (apply str_eqb_neq; exact H1). assert (E2 : str_eqb t pt_gs = false) by (apply str_eqb_neq; exact H2). rewrite E1, E2. reflexivity.
Qed.

(** A value under a key becomes, at its place, the dict that parse_value makes of it, with the geographic
    data of the hint for the key if the hint matches the dict. *)
Theorem C77_fields : forall p e k v, there p = Some (VDict e) -> dget e k = Some v -> parsed_as_value v ->
  exists fields g, parsed (p ++ [Key k]) = Some (VDict fields) /\ hinted L o e k g /\ with_geo fields (parse_value L o v) g.
Proof.
  intros p e k v Hp Hk Hv. destruct (place_dict L VP o d r p e W P Hp (or_intror (get_nonempty _ _ _ Hk))) as (pe & dts & pts & H1 & H2 & H3).
  destruct (hinted_get e k) as (g & G1 & G2). pose proof (dict_get L VP o _ e pe dts pts H2 H3 k) as Q. rewrite Hk, G2 in Q.
  assert (Qe : parse_entry L o (parse_nested L o) k v = Some (Some (VDict (parse_value L o v)), [], map (dotted k) (dkeys (parse_value L o v)))) by (destruct v as [| | | |[|]| |]; try contradiction; reflexivity).
  rewrite Qe in Q. destruct g as [g|].
  - exists (dupdate (parse_value L o v) (geo_dict g)), (Some g). split; [|split; [exact G1|apply with_geo_update]]. rewrite at_app, H1. cbn [at_place]. rewrite Q. reflexivity.
  - exists (parse_value L o v), None. split; [|split; [exact G1|reflexivity]]. rewrite at_app, H1. cbn [at_place]. rewrite Q. reflexivity.
Qed.
(** A value in a list becomes the dict that parse_value makes of it. *)
Theorem C77_items : forall p l n v, there p = Some (VList l) -> nth_error l n = Some v -> parsed_as_value v ->
  parsed (p ++ [Item n]) = Some (VDict (parse_value L o v)).
Proof.
  intros p l n v Hp Hn Hv. destruct (place_list L VP o d r p l W P Hp (nth_nonempty _ _ _ Hn)) as (m & dts & pts & H1 & H2).
  destruct (list_nth L o l m dts pts H2) as [_ G]. destruct (G n v Hn) as (q & d1 & p1 & G1 & G2). rewrite at_app, H1. cbn [at_place]. rewrite G1.
  destruct v as [| | | |[|]| |]; try contradiction; cbn [parse_element] in G2; injection G2 as <- _ _; reflexivity.
Qed.
(** None and the empty string are kept as they are under a key (as _u), and become None in a list. Empty
    containers become None in a list and disappear under a key, where only geographic data of the dict can
    be (C77_geojson). *)
Theorem C77_blanks : 
  (forall p e k v, there p = Some (VDict e) -> dget e k = Some v -> v = VNone \/ v = VStr [] -> parsed (p ++ [Key k]) = Some (VDict [(pt_u, v)])) /\
  (forall p l n v, there p = Some (VList l) -> nth_error l n = Some v -> v = VNone \/ v = VStr [] \/ v = VList [] \/ v = VDict [] -> parsed (p ++ [Item n]) = Some VNone) /\
  (forall p e k v, there p = Some (VDict e) -> dget e k = Some v -> v = VList [] \/ v = VDict [] -> ~ geo_type k \/ p = [] -> parsed (p ++ [Key k]) = None).
Proof.
  split; [|split].
  - intros p e k v Hp Hk Hv. destruct (place_dict L VP o d r p e W P Hp (or_intror (get_nonempty _ _ _ Hk))) as (pe & dts & pts & H1 & H2 & H3).
    pose proof (dict_get L VP o _ e pe dts pts H2 H3 k) as Q. rewrite Hk in Q. destruct (dget (match_hints L e (geo_hints o) []) k) as [g|] eqn:Eg.
    + exfalso. destruct (hints_value L VP o _ e _ k g H2 H3 Eg) as (v' & K1 & K2). rewrite Hk in K1. injection K1 as <-. destruct Hv as [-> | ->]; exact K2.
    + rewrite at_app, H1. cbn [at_place]. rewrite Q. destruct Hv as [-> | ->]; reflexivity.
  - intros p l n v Hp Hn Hv. destruct (place_list L VP o d r p l W P Hp (nth_nonempty _ _ _ Hn)) as (m & dts & pts & H1 & H2).
    destruct (list_nth L o l m dts pts H2) as [_ G]. destruct (G n v Hn) as (q & d1 & p1 & G1 & G2). rewrite at_app, H1. cbn [at_place]. rewrite G1. cbn [at_place]. f_equal.
    destruct Hv as [-> |[-> |[-> | ->]]]; cbn [parse_element is_empty] in G2; congruence.
  - intros p e k v Hp Hk Hv Hg. destruct (place_dict L VP o d r p e W P Hp (or_intror (get_nonempty _ _ _ Hk))) as (pe & dts & pts & H1 & H2 & H3).
    pose proof (dict_get L VP o _ e pe dts pts H2 H3 k) as Q. rewrite Hk in Q. rewrite at_app, H1. cbn [at_place].
    assert (Z : dget pe k = None); [|rewrite Z; reflexivity]. rewrite Q. assert (Ze : parse_entry L o (parse_nested L o) k v = Some (None, [], [])) by (destruct Hv as [-> | ->]; reflexivity). rewrite Ze.
    destruct Hg as [Hg| ->]; [|reflexivity]. unfold geo_of. destruct p; [reflexivity|]. destruct (l_geojson L e); [|reflexivity]. cbn [geo_dict dget].
    assert (E1 : str_eqb k pt_gp = false) by (apply str_eqb_neq; intros ->; apply Hg; left; reflexivity). assert (E2 : str_eqb k pt_gs = false) by (apply str_eqb_neq; intros ->; apply Hg; right; reflexivity). rewrite E1, E2. reflexivity.
Qed.
(** Dicts become dicts and lists lists of the same length. *)
Theorem C77_containers :
  (forall p e, there p = Some (VDict e) -> e <> [] -> exists f, parsed p = Some (VDict f)) /\
  (forall p l, there p = Some (VList l) -> l <> [] -> exists m, parsed p = Some (VList m) /\ length m = length l).
Proof.
  split.
  - intros p e Hp He. destruct (place_dict L VP o d r p e W P Hp (or_intror He)) as (pe & dts & pts & H1 & _). eauto.
  - intros p l Hp Hl. destruct (place_list L VP o d r p l W P Hp Hl) as (m & dts & pts & H1 & H2). destruct (list_nth L o l m dts pts H2) as [G _]. eauto.
Qed.
(** A dict inside the record that is GeoJSON has the geographic data at its place, unless a field is there. *)
Theorem C77_geojson : forall p e gp gs, there p = Some (VDict e) -> e <> [] -> p <> [] -> l_geojson L e = Some (gp, gs) ->
  (dget e pt_gp = None -> parsed (p ++ [Key pt_gp]) = Some (VStr gp)) /\
  (dget e pt_gs = None -> parsed (p ++ [Key pt_gs]) = Some (VStr gs)).
Proof.
  intros p e gp gs Hp He Hn Hg. destruct (place_dict L VP o d r p e W P Hp (or_intror He)) as (pe & dts & pts & H1 & H2 & H3). pose proof (dict_get L VP o _ e pe dts pts H2 H3) as Q.
  destruct p as [|s p']; [contradiction|]. unfold geo_of in Q. rewrite Hg in Q. cbn [geo_dict fst snd] in Q.
  split; intro Hk; rewrite at_app, H1; cbn [at_place]; rewrite Q, Hk; reflexivity.
Qed.
(** Nothing else is added. *)
Theorem C77_nothing_else : forall p, 
  (forall e k q, there p = Some (VDict e) -> dget e k = None -> parsed (p ++ [Key k]) = Some q ->
     p <> [] /\ exists gp gs, l_geojson L e = Some (gp, gs) /\ (k = pt_gp /\ q = VStr gp \/ k = pt_gs /\ q = VStr gs)).
Proof.
  intros p e k q Hp Hk Hq. destruct p as [|s p'].
  - destruct (place_dict L VP o d r [] e W P Hp (or_introl eq_refl)) as (pe & dts & pts & H1 & H2 & H3). pose proof (dict_get L VP o _ e pe dts pts H2 H3 k) as Q. rewrite Hk in Q. cbn [geo_of dget] in Q.
    rewrite at_app, H1 in Hq. cbn [at_place] in Hq. rewrite Q in Hq. discriminate.
  - split; [discriminate|]. destruct e as [|kv e].
    + exfalso. revert Hp Hq. revert s. 
      assert (Gen : forall t p0, there (p0 ++ [t]) = Some (VDict []) -> parsed ((p0 ++ [t]) ++ [Key k]) = Some q -> False).
      { intros t p0 Hp Hq. rewrite at_app in Hp. destruct (there p0) as [c|] eqn:Ec; [|discriminate]. destruct t as [k'|n]; cbn [at_place] in Hp.
        - destruct c as [| | | | | |e']; try discriminate. destruct (dget e' k') as [v'|] eqn:Ev; [|discriminate]. injection Hp as ->.
          destruct (place_dict L VP o d r p0 e' W P Ec (or_intror (get_nonempty _ _ _ Ev))) as (pe & dts & pts & H1 & H2 & H3). pose proof (dict_get L VP o _ e' pe dts pts H2 H3 k') as Q. rewrite Ev in Q. cbn [parse_entry is_empty] in Q.
          rewrite at_app, at_app, H1 in Hq. cbn [at_place] in Hq. rewrite Q in Hq. unfold geo_of in Hq. destruct p0; [discriminate|]. destruct (l_geojson L e') as [[x y]|]; [|discriminate]. cbn [geo_dict dget fst snd] in Hq. destruct (str_eqb k' pt_gp); [discriminate|]. destruct (str_eqb k' pt_gs); discriminate.
        - destruct c as [| | | | |l|]; try discriminate. destruct (nth_error l n) as [v'|] eqn:Ev; [|discriminate]. injection Hp as ->.
          destruct (place_list L VP o d r p0 l W P Ec (nth_nonempty _ _ _ Ev)) as (m & dts & pts & H1 & H2). destruct (list_nth L o l m dts pts H2) as [_ G]. destruct (G n _ Ev) as (q' & d1 & p1 & G1 & G2). cbn [parse_element is_empty] in G2. injection G2 as <- _ _.
          rewrite at_app, at_app, H1 in Hq. cbn [at_place] in Hq. rewrite G1 in Hq. discriminate. }
      intros s Hp Hq. destruct (exists_last (l := s :: p') ltac:(discriminate)) as (p0 & t & E). rewrite E in *. exact (Gen t p0 Hp Hq).
    + destruct (place_dict L VP o d r (s :: p') (kv :: e) W P Hp (or_intror (cons_nonempty _ _))) as (pe & dts & pts & H1 & H2 & H3). pose proof (dict_get L VP o _ (kv :: e) pe dts pts H2 H3 k) as Q. rewrite Hk in Q. unfold geo_of in Q.
      rewrite at_app, H1 in Hq. cbn [at_place] in Hq. rewrite Q in Hq. destruct (l_geojson L (kv :: e)) as [[gp gs]|]; [|discriminate]. exists gp, gs. split; [reflexivity|]. cbn [geo_dict dget fst snd] in Hq.
      destruct (str_eqb k pt_gp) eqn:E1; [apply str_eqb_eq in E1; left; split; [exact E1|congruence]|]. destruct (str_eqb k pt_gs) eqn:E2; [apply str_eqb_eq in E2; right; split; [exact E2|congruence]|discriminate].
Qed.
End C77.
Print Assumptions C77_fields.
Print Assumptions C77_items.
Print Assumptions C77_blanks.
Print Assumptions C77_containers.
Print Assumptions C77_geojson.
Print Assumptions C77_nothing_else.

(** ** Example *)
Definition nested_record : dict :=
  [(lit "place", VDict [(lit "lat", VInt 3); (lit "lon", VInt 4)]); (lit "items", VList [VStr (lit "x"); VNone; VList []]); (lit "gone", VList []); (lit "blank", VNone)].
Example C77_example : value_points squeeze_lib /\ one_hint_each hint_opts /\ wfd nested_record /\
  exists r, parse squeeze_lib hint_opts nested_record = Some r /\
    at_place [Key (lit "place"); Key (lit "lat"); Key pt_gp] (VDict (p_parsed r)) = Some (VStr (lit "POINT(3 4)")) /\
    at_place [Key (lit "place"); Key (lit "lon"); Key pt_gp] (VDict (p_parsed r)) = None /\
    at_place [Key (lit "items"); Item 0; Key pt_u] (VDict (p_parsed r)) = Some (VStr (lit "x")) /\
    at_place [Key (lit "items"); Item 1] (VDict (p_parsed r)) = Some VNone /\
    at_place [Key (lit "items"); Item 2] (VDict (p_parsed r)) = Some VNone /\
    at_place [Key (lit "gone")] (VDict (p_parsed r)) = None /\
    at_place [Key (lit "blank"); Key pt_u] (VDict (p_parsed r)) = Some VNone.
Proof.
  split; [exact squeeze_points|]. split; [repeat constructor; cbn; tauto|]. split; [repeat constructor; cbn; intuition discriminate|].
  eexists. split; [vm_compute; reflexivity|]. repeat split; vm_compute; reflexivity.
Qed.
