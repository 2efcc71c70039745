(** Property C75: when parsing a record raises. *)
From Coq Require Import String Ascii.
From Coq Require Import List ZArith NArith Bool Lia.
From Coq Require Import Floats.SpecFloat.
From Verif Require Import PyVal Time Prepare PrepareProofs PropsPrepare Parser ParserProofs ParserTypes PropsParser.
Import ListNotations.
Open Scope string_scope.
Open Scope list_scope.
Open Scope nat_scope.

(** ** Specification *)
(** the dicts inside a value that are parsed as dicts *)
Inductive dict_inside (d : dict) : value -> Prop :=
| di_here : d <> [] -> dict_inside d (VDict d)
| di_dict e k v : In (k, v) e -> dict_inside d v -> dict_inside d (VDict e)
| di_list l v : In v l -> dict_inside d v -> dict_inside d (VList l).
(** where the geographic data of a hint cannot be put: the latitude field is missing, a list or an empty dict *)
Definition no_place (v : option value) : Prop := v = None \/ (exists l, v = Some (VList l)) \/ v = Some (VDict []).
(** [shapely.Point(lon, lat)] on lists of one number is that of the numbers (shapely 2: the arguments are
    squeezed by numpy). *)
Definition squeezing (L : lib) : Prop := forall lon lat, l_point L (VList [VInt lon]) (VList [VInt lat]) None 16 = l_point L (VInt lon) (VInt lat) None 16.

(** No points are made of latitudes that are None, empty or dicts (shapely makes numbers of the coordinates). *)
Definition value_points (L : lib) : Prop := forall lon lat r n, l_point L lon lat r n <> None ->
  match lat with VNone | VStr [] | VList [] | VDict _ => False | _ => True end.

Section Total.
Variable L : lib.
Variable o : options.
Definition bad_dict (d : dict) : Prop := exists h, In h (geo_hints o) /\ hint_works L d h /\ no_place (dget d (h_lat h)).
(** a dict within a record is also tried as GeoJSON *)
Definition bad_inside (d : dict) : Prop := bad_dict d \/ l_geo_raises L d = true.

(** ** Proofs *)
Lemma add_hints_total ms : forall parsed, add_hints parsed ms = None <-> exists k, In k (dkeys ms) /\ forall p, dget parsed k <> Some (VDict p).
Proof.
  induction ms as [|[k g] ms IH]; intro parsed; cbn [add_hints].
  - split; [discriminate|]. intros (k & [] & _).
  - destruct (dget parsed k) as [[| | | | | |p]|] eqn:E; try (split; [intros _; exists k; split; [left; reflexivity|intros p; rewrite E; discriminate]|reflexivity]).
    rewrite IH. split.
    + intros (k' & H1 & H2). exists k'. split; [right; exact H1|]. intros q Q. rewrite dget_dset in H2. destruct (str_eqb k' k) eqn:Ek; [exact (H2 _ eq_refl)|exact (H2 q Q)].
    + intros (k' & H1 & H2). destruct H1 as [H1|H1]; [cbn in H1; subst k'; exfalso; exact (H2 p E)|]. exists k'. split; [exact H1|]. intros q Q. rewrite dget_dset in Q. destruct (str_eqb k' k) eqn:Ek; [apply str_eqb_eq in Ek; subst k'; exact (H2 p E)|exact (H2 q Q)].
Qed.
Lemma map_opt_none {A B} (f : A -> option B) l : map_opt f l = None <-> exists x, In x l /\ f x = None.
Proof.
  induction l as [|x l IH]; cbn [map_opt]; [split; [discriminate|intros (x & [] & _)]|]. destruct (f x) as [y|] eqn:E.
  - destruct (map_opt f l) as [ys|].
    + split; [discriminate|]. intros (z & [<-|Hz] & Fz); [congruence|]. assert (Q : exists x, In x l /\ f x = None) by eauto. apply IH in Q. discriminate.
    + split; [|reflexivity]. intros _. destruct (proj1 IH eq_refl) as (z & H1 & H2). exists z. split; [right; exact H1|exact H2].
  - split; [|reflexivity]. intros _. exists x. split; [left; reflexivity|exact E].
Qed.
Lemma fold_parts_get (parts : list (pystr * part)) k : forall acc, NoDup (map fst parts) ->
  dget (fold_left set_part parts acc) k = match dget parts k with Some (Some p, _, _) => Some p | _ => dget acc k end.
Proof.
  induction parts as [|[k0 [[q d1] p1]] parts IH]; intros acc Hn; [reflexivity|]. cbn [fold_left set_part map fst dget] in *. inversion Hn as [|? ? N1 N2]; subst. rewrite IH by exact N2.
  destruct (str_eqb k k0) eqn:Ek.
  - apply str_eqb_eq in Ek. subst k0. assert (Ed : dget parts k = None) by (apply dget_None; exact N1). rewrite Ed. destruct q as [q|]; [rewrite dget_dset, str_eqb_refl; reflexivity|reflexivity].
  - destruct q as [q|]; [rewrite dget_dset, Ek; reflexivity|reflexivity].
Qed.
Definition container (v : value) : bool := match v with VDict _ | VList _ => true | _ => false end.
Lemma entry_none nested k v : parse_entry L o nested k v = None <-> container v = true /\ is_empty v = false /\ nested v = None.
Proof.
  destruct v as [|b|z|f|[|c s]|l|d]; cbn [parse_entry container is_empty]; try (split; [discriminate|intros (Q & _); discriminate]).
  - destruct l as [|x l]; [split; [discriminate|intros (_ & Q & _); discriminate]|]. destruct (nested _) as [[[p q] r]|]; split; try discriminate; auto. intros (_ & _ & Q). discriminate.
  - destruct d as [|x d]; [split; [discriminate|intros (_ & Q & _); discriminate]|]. destruct (nested _) as [[[p q] r]|]; split; try discriminate; auto. intros (_ & _ & Q). discriminate.
Qed.
Lemma element_none nested v : parse_element L o nested v = None <-> container v = true /\ is_empty v = false /\ nested v = None.
Proof.
  destruct v as [|b|z|f|[|c s]|l|d]; cbn [parse_element container is_empty]; try (split; [discriminate|intros (Q & _); discriminate]).
  - destruct l as [|x l]; [split; [discriminate|intros (_ & Q & _); discriminate]|]. destruct (nested _) as [[[p q] r]|]; split; try discriminate; auto. intros (_ & _ & Q). discriminate.
  - destruct d as [|x d]; [split; [discriminate|intros (_ & Q & _); discriminate]|]. destruct (nested _) as [[[p q] r]|]; split; try discriminate; auto. intros (_ & _ & Q). discriminate.
Qed.
(** a nested value is parsed to a dict or a list, like itself *)
Definition alike (nested : value -> option (value * list pystr * list pystr)) (v : value) : Prop :=
  forall p dts pts, nested v = Some (p, dts, pts) -> match v with VList _ => exists l, p = VList l | _ => exists q, p = VDict q end.
Lemma entry_place nested k v q d1 p1 : alike nested v -> parse_entry L o nested k v = Some (q, d1, p1) ->
  match q with Some p => (exists p', p = VDict p') \/ (exists l l', v = VList l /\ p = VList l') | None => v = VList [] \/ v = VDict [] end.
Proof.
  intros Ha H. destruct v as [|b|z|f|[|c s]|l|d]; cbn [parse_entry is_empty] in H; try (injection H as <- _ _; left; eexists; reflexivity).
  - destruct l as [|x l]; [injection H as <- _ _; left; reflexivity|]. destruct (nested _) as [[[p' a] b]|] eqn:E; [|discriminate]. injection H as <- _ _. destruct (Ha _ _ _ E) as (l' & ->). right. eauto.
  - destruct d as [|x d]; [injection H as <- _ _; right; reflexivity|]. destruct (nested _) as [[[p' a] b]|] eqn:E; [|discriminate]. injection H as <- _ _. destruct (Ha _ _ _ E) as (l' & ->). left. eauto.
Qed.
Lemma dict_none nested chk d : NoDup (dkeys d) -> (forall k v, In (k, v) d -> alike nested v) ->
  (dict_body L o nested chk d = None <-> (exists k v, In (k, v) d /\ container v = true /\ is_empty v = false /\ nested v = None) \/ bad_dict d \/ chk = true /\ l_geo_raises L d = true).
Proof.
  intros Hn Ha. assert (G : dict_rest L o nested chk d = None <-> (exists k v, In (k, v) d /\ container v = true /\ is_empty v = false /\ nested v = None) \/ bad_dict d).
  2: { unfold dict_body. destruct (chk && l_geo_raises L d) eqn:R; [apply andb_true_iff in R; tauto|]. rewrite G. apply andb_false_iff in R. intuition congruence. }
  unfold dict_rest. destruct (map_opt _ d) as [parts|] eqn:Ep.
  - change (list (pystr * part)) in parts.
    assert (Good : forall k v, In (k, v) d -> container v = true -> is_empty v = false -> nested v <> None).
    { intros k v H C1 C2 Q. assert (Z : map_opt (fun kv => match parse_entry L o nested (fst kv) (snd kv) with Some p => Some (fst kv, p) | None => None end) d = None); [|rewrite Ep in Z; discriminate].
      apply map_opt_none. exists (k, v). split; [exact H|]. cbn [fst snd]. rewrite (proj2 (entry_none nested k v)); auto. }
    apply map_opt_F2 in Ep. assert (Ek : map fst parts = dkeys d).
    { clear - Ep. induction Ep as [|[k v] [k' p] d parts H _ IH]; [reflexivity|]. cbn [map fst snd dkeys] in *. destruct (parse_entry L o nested k v); [injection H as <- _|discriminate]. f_equal. exact IH. }
    assert (Gp : forall k, match dget d k with
        | None => dget parts k = None
        | Some v => exists p, dget parts k = Some p /\ parse_entry L o nested k v = Some p end).
    { clear - Ep. induction Ep as [|[k0 v0] [k' p] d parts H _ IH]; [reflexivity|]. intro k. cbn [dget]. cbn [fst snd] in H. destruct (parse_entry L o nested k0 v0) as [p0|] eqn:E0; [injection H as <- <-|discriminate].
      destruct (str_eqb k k0) eqn:Ek; [apply str_eqb_eq in Ek; subst k0; exists p0; auto|exact (IH k)]. }
    set (geo := if chk then _ else _). assert (Hg : forall k p, dget geo k <> Some (VDict p)).
    { intros k p. unfold geo. intro Q. apply dget_In in Q. destruct chk; [destruct (l_geojson L d) as [g|]|]; [destruct Q as [Q|[Q|[]]]; discriminate|destruct Q|destruct Q]. }
    destruct (add_hints (fold_left set_part parts geo) (match_hints L d (geo_hints o) [])) as [q|] eqn:Ea.
    + split; [discriminate|]. intros [(k & v & H & C1 & C2 & C3)|(h & H1 & H2 & H3)]; [exfalso; exact (Good k v H C1 C2 C3)|].
      exfalso. assert (Z : add_hints (fold_left set_part parts geo) (match_hints L d (geo_hints o) []) = None); [|rewrite Ea in Z; discriminate].
      apply add_hints_total. exists (h_lat h). split; [apply match_hints_keys; right; exists h; auto|]. intros p Q. rewrite fold_parts_get in Q by (rewrite Ek; exact Hn). specialize (Gp (h_lat h)).
      destruct (dget d (h_lat h)) as [v|] eqn:Ev.
      * destruct Gp as ([[w d1] p1] & G1 & G2). rewrite G1 in Q. pose proof (entry_place nested _ v w d1 p1 (Ha _ _ (dget_In _ _ _ Ev)) G2) as Pl. destruct H3 as [H3|[(l & H3)|H3]]; [discriminate| |].
        -- injection H3 as ->. destruct w as [w|]; [injection Q as ->; destruct Pl as [(p' & _)|(l1 & l2 & _ & E2)]; [|discriminate]|exact (Hg _ _ Q)].
           destruct l as [|x l]; cbn [parse_entry is_empty] in G2; [discriminate|]. destruct (nested _) as [[[p2 a] b]|] eqn:E2; [|discriminate]. injection G2 as -> _ _. destruct (Ha _ _ (dget_In _ _ _ Ev) _ _ _ E2) as (l' & E'). discriminate.
        -- injection H3 as ->. cbn [parse_entry is_empty] in G2. injection G2 as <- _ _. exact (Hg _ _ Q).
      * rewrite Gp in Q. exact (Hg _ _ Q).
    + split; [|reflexivity]. intros _. right. apply add_hints_total in Ea. destruct Ea as (k & H1 & H2). apply match_hints_keys in H1. destruct H1 as [[]|(h & K1 & K2 & K3)]. exists h. split; [exact K1|]. split; [exact K3|]. rewrite K2.
      specialize (Gp k). destruct (dget d k) as [v|] eqn:Ev; [|left; reflexivity]. destruct Gp as ([[w d1] p1] & G1 & G2). pose proof (entry_place nested _ v w d1 p1 (Ha _ _ (dget_In _ _ _ Ev)) G2) as Pl.
      right. destruct w as [w|]; [|destruct Pl as [-> | ->]; [left; eauto|right; reflexivity]]. destruct Pl as [(p' & ->)|(l & l' & -> & _)]; [|left; eauto].
      exfalso. apply (H2 p'). rewrite fold_parts_get by (rewrite Ek; exact Hn). rewrite G1. reflexivity.
  - split; [|reflexivity]. intros _. left. apply map_opt_none in Ep. destruct Ep as ([k v] & H & Q). cbn [fst snd] in Q. destruct (parse_entry L o nested k v) as [p|] eqn:E; [discriminate|]. apply entry_none in E. exists k, v. tauto.
Qed.
Lemma nested_alike v : alike (parse_nested L o) v.
Proof.
  intros p dts pts H. destruct v as [| | | | |l|d]; cbn [parse_nested] in H; try discriminate.
  - destruct (list_body _ _ _ l) as [[[q a] b]|]; [|discriminate]. injection H as <- _ _. eauto.
  - destruct (dict_body _ _ _ true d) as [[[q a] b]|]; [|discriminate]. injection H as <- _ _. eauto.
Qed.
Lemma inside_container d v : dict_inside d v -> container v = true /\ is_empty v = false.
Proof. destruct 1 as [H|e k v H _|l v H _]; split; try reflexivity; [destruct d; [contradiction|reflexivity]|destruct e; [destruct H|reflexivity]|destruct l; [destruct H|reflexivity]]. Qed.
Lemma nested_none v : wf v -> container v = true -> is_empty v = false -> (parse_nested L o v = None <-> exists d, dict_inside d v /\ bad_inside d).
Proof.
  induction v as [|b|z|f|s|l IH|d IH] using value_ind'; intros W C E; try discriminate.
  - cbn [parse_nested]. unfold list_body. rewrite Forall_forall in IH. destruct (map_opt (parse_element L o (parse_nested L o)) l) as [ps|] eqn:Ep.
    + split; [discriminate|]. intros (d & H & B). inversion H as [|?|l0 v Hv Hd]; subst. exfalso. destruct (inside_container d v Hd) as [C1 C2].
      assert (Z : map_opt (parse_element L o (parse_nested L o)) l = None); [|rewrite Ep in Z; discriminate]. apply map_opt_none. exists v. split; [exact Hv|]. apply element_none. split; [exact C1|]. split; [exact C2|].
      apply (IH v Hv); auto; [|eauto]. apply wf_list in W. rewrite Forall_forall in W. exact (W v Hv).
    + split; [|reflexivity]. intros _. apply map_opt_none in Ep. destruct Ep as (v & Hv & Q). apply element_none in Q. destruct Q as (C1 & C2 & C3). apply (IH v Hv) in C3; auto; [|apply wf_list in W; rewrite Forall_forall in W; exact (W v Hv)].
      destruct C3 as (d & H1 & H2). exists d. split; [exact (di_list d l v Hv H1)|exact H2].
  - cbn [parse_nested]. apply wf_dict in W. destruct W as [W1 W2]. rewrite Forall_forall in IH, W2.
    pose proof (dict_none (parse_nested L o) true d W1 (fun k v _ => nested_alike v)) as D. 
    assert (D' : dict_body L o (parse_nested L o) true d = None <-> exists d0, dict_inside d0 (VDict d) /\ bad_inside d0).
    { rewrite D. split.
      - intros [(k & v & H & C1 & C2 & C3)|B].
        + apply (IH (k, v) H (W2 _ H) C1 C2) in C3. destruct C3 as (d0 & H1 & H2). exists d0. split; [exact (di_dict d0 d k v H H1)|exact H2].
        + exists d. split; [apply di_here; destruct d; [discriminate|discriminate]|]. destruct B as [B|[_ B]]; [left|right]; exact B.
      - intros (d0 & H & B). inversion H as [Hd|e k v He Hv|]; subst; [right; destruct B as [B|B]; [left; exact B|right; split; [reflexivity|exact B]]|left]. destruct (inside_container d0 v Hv) as [C1 C2]. exists k, v. split; [exact He|]. split; [exact C1|]. split; [exact C2|]. apply (IH (k, v) He (W2 _ He) C1 C2). eauto. }
    rewrite <- D'. destruct (dict_body L o (parse_nested L o) true d) as [[[q a] b]|]; split; congruence.
Qed.
Lemma parse_none d : wfd d -> (parse L o d = None <-> bad_dict d \/ exists k v d', In (k, v) d /\ dict_inside d' v /\ bad_inside d').
Proof.
  intro W. apply wf_dict in W. destruct W as [W1 W2]. rewrite Forall_forall in W2. unfold parse.
  pose proof (dict_none (parse_nested L o) false d W1 (fun k v _ => nested_alike v)) as D.
  assert (D' : dict_body L o (parse_nested L o) false d = None <-> bad_dict d \/ exists k v d', In (k, v) d /\ dict_inside d' v /\ bad_inside d').
  { rewrite D. split.
    - intros [(k & v & H & C1 & C2 & C3)|[B|[B _]]]; [|left; exact B|discriminate]. right. apply (nested_none v (W2 _ H) C1 C2) in C3. destruct C3 as (d0 & H1 & H2). exists k, v, d0. auto.
    - intros [B|(k & v & d0 & H & H1 & H2)]; [right; left; exact B|left]. destruct (inside_container d0 v H1) as [C1 C2]. exists k, v. split; [exact H|]. split; [exact C1|]. split; [exact C2|]. apply (nested_none v (W2 _ H) C1 C2). eauto. }
  rewrite <- D'. destruct (dict_body L o (parse_nested L o) false d) as [[[q a] b]|]; split; congruence.
Qed.
End Total.

(** ** C75 *)
(** C75, as stated, is false: with coordinates in lists of one number a hint matches, and its geographic data
    cannot be added to the parsed list. *)
Definition squeeze (v : value) : value := match v with VList [x] => x | _ => v end.
Definition squeeze_lib : lib := Lib (fun s => s) (fun _ _ => lit "1.5") (fun _ => None) (fun _ _ => None) (fun _ => None) (fun _ => None) (fun _ => false)
  (fun lon lat _ _ => match lon, lat with
     | VList _, VList _ | VInt _, VInt _ => match squeeze lon, squeeze lat with VInt x, VInt y => Some (lit "POINT(3 4)", lit "POINT(3 4)") | _, _ => None end
     | _, _ => None end).
Definition hint_opts : options := Opts [] [] [] [Hint (lit "lat") (lit "lon") None 16] 8191 (lit "{0:.15g}").
Definition listed_record : record := Rec (lit "r") [(KS (lit "lat"), OSeq [OInt 3]); (KS (lit "lon"), OSeq [OInt 4])].
Lemma squeeze_points : value_points squeeze_lib.
Proof. intros lon lat r n H. cbn in H. destruct lon as [| |x| | |[|a [|b m]]|]; try contradiction; destruct lat as [| |y| | |[|c m']|]; try contradiction; try exact I; try (destruct a; contradiction). Qed.
Theorem C75_parse_refuted : exists db pad rec L o, db_ok db /\ squeezing L /\ value_points L /\ parse L o (prepare_record_data db pad rec) = None.
Proof. exists ascii_db, false, listed_record, squeeze_lib, hint_opts. split; [exact ascii_db_ok|]. split; [intros lon lat; reflexivity|]. split; [exact squeeze_points|vm_compute; reflexivity]. Qed.
Print Assumptions C75_parse_refuted.
(** Parsing a record raises exactly when in one of its dicts a hint matches whose latitude is missing, a list
    or an empty dict, or when reading a dict within it as GeoJSON does (C66). *)
Theorem C75_raises_exactly : forall db pad rec L o, let d := prepare_record_data db pad rec in
  (parse L o d = None <-> bad_dict L o d \/ exists k v d', In (k, v) d /\ dict_inside d' v /\ bad_inside L o d').
Proof. intros db pad rec L o d. exact (parse_none L o d (record_wf db pad rec)). Qed.
Print Assumptions C75_raises_exactly.
(** In particular not when no dict of the record has a list where a hint has its latitude, nor is read as GeoJSON with
    an exception. Missing: other records, see C75_parse_refuted. *)
Definition no_list_latitudes (o : options) (d : dict) : Prop :=
  forall d', d' = d \/ dict_inside d' (VDict d) -> forall h l, In h (geo_hints o) -> dget d' (h_lat h) <> Some (VList l).
Definition geojson_quiet (L : lib) (d : dict) : Prop := forall d', dict_inside d' (VDict d) -> l_geo_raises L d' = false.
Lemma parse_some L o d : wfd d -> value_points L -> no_list_latitudes o d -> geojson_quiet L d -> exists p, parse L o d = Some p.
Proof.
  intros W VP HL HG. assert (NB : forall d', d' = d \/ dict_inside d' (VDict d) -> ~ bad_dict L o d').
  { intros d' Hd (h & H1 & H2 & H3). apply hint_match_works in H2. unfold hint_match in H2. apply VP in H2. unfold get_or_empty in *. destruct H3 as [H3|[(l & H3)|H3]]; [rewrite H3 in H2; exact H2|exact (HL d' Hd h l H1 H3)|rewrite H3 in H2; exact H2]. }
  destruct (parse L o d) as [p|] eqn:E; [exists p; reflexivity|]. apply (parse_none L o d W) in E. exfalso. destruct E as [B|(k & v & d' & H1 & H2 & B)]; [exact (NB d (or_introl eq_refl) B)|].
  pose proof (di_dict d' d k v H1 H2) as Hin. destruct B as [B|B]; [exact (NB d' (or_intror Hin) B)|]. rewrite (HG d' Hin) in B. discriminate.
Qed.
Theorem C75_parse_partial : forall db pad rec L o, let d := prepare_record_data db pad rec in
  value_points L -> no_list_latitudes o d -> geojson_quiet L d -> exists p, parse L o d = Some p.
Proof. intros db pad rec L o d. exact (parse_some L o d (record_wf db pad rec)). Qed.
Print Assumptions C75_parse_partial.
Definition point_record : record := Rec (lit "r") [(KS (lit "lat"), OInt 3); (KS (lit "lon"), OInt 4)].
Example C75_example : let d := prepare_record_data ascii_db false point_record in value_points squeeze_lib /\
  no_list_latitudes hint_opts d /\ geojson_quiet squeeze_lib d /\
  hint_match squeeze_lib d (Hint (lit "lat") (lit "lon") None 16) <> None.
Proof.
  cbn zeta. split; [exact squeeze_points|]. split; [|split; [intros d' _; reflexivity|vm_compute; discriminate]].
  intros d' Hd h l [<-|[]]. assert (E : d' = prepare_record_data ascii_db false point_record).
  { destruct Hd as [E|Hd]; [exact E|]. assert (Q : forall e, (forall k v, In (k, v) e -> is_scalar v = true) -> dict_inside d' (VDict e) -> d' = e).
    { clear. intros e Hs Hd. inversion Hd as [N|e0 k v He Hv|]; subst; [reflexivity|]. specialize (Hs k v He). inversion Hv; subst; discriminate Hs. }
    apply Q; [|exact Hd]. intros k v Hk. vm_compute in Hk. destruct Hk as [Hk|[Hk|[Hk|[]]]]; injection Hk as <- <-; reflexivity. }
  subst d'. vm_compute. discriminate.
Qed.
