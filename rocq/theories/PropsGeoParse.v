(** C66, C80: parsing records with the modelled geometry code. *)
From Coq Require Import String Ascii.
From Coq Require Import List ZArith NArith Bool Lia.
From Coq Require Import Floats.SpecFloat.
From Verif Require Import PyVal Time Prepare PropsPrepare Parser ParserProofs ParserTypes PropsParser PropsTotal ParserSim Geo PropsGeo GeoParse.
Import ListNotations.
Open Scope string_scope.
Open Scope list_scope.
Open Scope nat_scope.

(** ** C80 *)
(** Elasticsearch takes points, lines and polygons that are not empty and have all coordinates in range (C65). *)
Notation valid_shape := (accepted SFleb float_of_Z).
(** Whatever a record holds and wherever: each text indexed as a shape is the text of a valid shape, and each text indexed as a point is that
    of a valid shape or of the centroid of one. *)
Theorem C80_indexed_shapes : forall B G total o d r, parse (geo_over B G total) o d = Some r ->
  (forall s, text_at (lit "_gs") s (VDict (p_parsed r)) -> exists g, valid_shape g /\ s = g_to_wkt G g) /\
  (forall s, text_at (lit "_gp") s (VDict (p_parsed r)) -> exists g, valid_shape g /\ (s = g_to_wkt G g \/ s = g_to_wkt G (g_centroid G g))).
Proof.
  intros B G total o d r H. destruct (C65_shapes_valid fzero total fadd fsub fmul SFltb SFleb float_of_Z G) as (H1 & H2 & H3).
  set (Gs := fun s => exists g, valid_shape g /\ s = g_to_wkt G g). set (Gp := fun s => exists g, valid_shape g /\ (s = g_to_wkt G g \/ s = g_to_wkt G (g_centroid G g))).
  assert (K : good Gp Gs (VDict (p_parsed r))).
  { apply (parse_good (geo_over B G total) o Gp Gs) with (d := d); [| | |exact H].
    - intros s [p q] E. destruct (H2 s p q E) as (g & _ & -> & -> & A). split; exists g; cbn [fst snd]; auto.
    - intros e [p q] E. cbn [geo_over l_geojson] in E. destruct (match_geojson _ _ _ _ _ _ _ _ G e) as [x|] eqn:Ee; [|discriminate]. subst x. destruct (H1 e p q Ee) as (g & _ & -> & -> & A & _). split; exists g; cbn [fst snd]; auto.
    - intros a b c n [p q] E. destruct (H3 a b c n p q E) as (g & shape & _ & -> & -> & A & A' & _). split; [exists g|exists shape]; cbn [fst snd]; auto. }
  split; intros s Hs; apply (K s), Hs.
Qed.
Print Assumptions C80_indexed_shapes.

(** ** C66 *)
(** No points in range are made of latitudes that are None, empty or dicts. *)
Definition number_points (G : geo_lib spec_float) : Prop := forall lon lat g, g_point G lon lat = Some g -> valid_shape g ->
  match lat with VNone | VStr [] | VList [] | VDict _ => False | _ => True end.
Lemma geo_points B G total : number_points G -> value_points (geo_over B G total).
Proof.
  intros H lon lat r n N. destruct (l_point (geo_over B G total) lon lat r n) as [[p s]|] eqn:E; [|contradiction].
  destruct (proj2 (proj2 (C65_shapes_valid fzero total fadd fsub fmul SFltb SFleb float_of_Z G)) _ _ _ _ _ _ E) as (g & shape & Eg & _ & _ & A & _). exact (H lon lat g Eg A).
Qed.
(** No record of which all GeoJSON is two dimensional makes parsing fail (latitudes in lists are C75). *)
Theorem C66_parse_partial : forall db pad rec B G total o, let d := prepare_record_data db pad rec in
  number_points G -> no_list_latitudes o d ->
  (forall d' g, dict_inside d' (VDict d) -> g_geojson G d' = Some g -> two_dimensional g) ->
  exists p, parse (geo_over B G total) o d = Some p.
Proof.
  intros db pad rec B G total o d HP HL H2. apply C75_parse_partial; [exact (geo_points B G total HP)|exact HL|]. intros d' Hd. cbn [geo_over l_geo_raises].
  destruct (match_geojson fzero total fadd fsub fmul SFltb SFleb float_of_Z G d') as [x|] eqn:E; [reflexivity|exfalso].
  set (G' := GeoLib (fun _ => g_geojson G d') (g_wkt G) (g_point G) (g_float G) (g_circle G) (g_centroid G) (g_to_wkt G)).
  apply (C66_geojson_partial _ fzero total fadd fsub fmul SFltb SFleb float_of_Z G' (fun _ g Eg => H2 d' g Hd Eg) d').
  exact E.
Qed.
Print Assumptions C66_parse_partial.

(** A reader of GeoJSON polygons with whole numbers as coordinates that keeps all dimensions (whether GEOS does depends on its version). *)
Definition num_of_value (v : value) : option spec_float := match v with VInt z => Some (float_of_Z z) | _ => None end.
Fixpoint all {A B} (f : A -> option B) (l : list A) : option (list B) :=
  match l with [] => Some [] | x :: r => match f x, all f r with Some y, Some ys => Some (y :: ys) | _, _ => None end end.
Definition read_coord (v : value) : option (pt spec_float) :=
  match v with VList l => match all num_of_value l with Some (x :: y :: more) => Some (x, y, more) | _ => None end | _ => None end.
Definition read_ring (v : value) : option (list (pt spec_float)) := match v with VList l => all read_coord l | _ => None end.
Definition read_geojson (d : dict) : option (geom spec_float) :=
  match dget d (lit "type"), dget d (lit "coordinates") with
  | Some (VStr t), Some (VList l) => if str_eqb t (lit "Polygon") then match all read_ring l with Some (e :: is) => Some (GPolygon e is) | Some [] => Some (GPolygon [] []) | None => None end else None
  | _, _ => None
  end.
(** centroids and texts are not looked at here *)
Definition reading : geo_lib spec_float :=
  GeoLib read_geojson (fun _ => None) (fun lon lat => match num_of_value lon, num_of_value lat with Some x, Some y => Some (GPoint [(x, y, [])]) | _, _ => None end) num_of_value (fun _ _ _ _ => None)
    (fun g => match coords g with c :: _ => GPoint [c] | [] => GPoint [] end) (fun g => match g with GPoint _ => lit "POINT (0 0)" | _ => lit "POLYGON ((0 0, 4 0, 4 3, 0 0))" end).
Definition ring_of (l : list (list Z)) : pyobj := OSeq (map (fun c => OSeq (map OInt c)) l).
Definition geo_record (l : list (list Z)) : record :=
  Rec (lit "r") [(KS (lit "place"), ODict [(KS (lit "type"), OStr (lit "Polygon")); (KS (lit "coordinates"), OSeq [ring_of l])]); (KS (lit "lat"), OInt 3); (KS (lit "lon"), OInt 4)].
Definition triangle := geo_record [[0; 0]; [4; 0]; [4; 3]; [0; 0]]%Z.
Definition triangle3 := geo_record [[0; 0; 7]; [4; 0; 7]; [4; 3; 7]; [0; 0; 7]]%Z.
(** With that reader a record with a polygon with heights cannot be parsed. *)
Theorem C66_parse_refuted : exists db pad rec B G o, db_ok db /\ number_points G /\ parse (geo_over B G sum_left) o (prepare_record_data db pad rec) = None
  /\ parse (geo_over B G sum_comp) o (prepare_record_data db pad rec) = None.
Proof.
  exists ascii_db, false, triangle3, squeeze_lib, reading, hint_opts. split; [exact ascii_db_ok|]. split; [|split; vm_compute; reflexivity].
  intros lon lat g Eg _. cbn in Eg. destruct (num_of_value lon); [|discriminate]. destruct lat; try discriminate; exact I.
Qed.
Print Assumptions C66_parse_refuted.
Fixpoint no_dict (v : value) : bool := match v with VDict _ => false | VList l => forallb no_dict l | _ => true end.
Lemma inside_dicts d v : dict_inside d v -> no_dict v = false.
Proof.
  induction 1 as [N|e k v He Hv IH|l v Hl Hv IH]; try reflexivity. cbn [no_dict]. apply not_true_iff_false. rewrite forallb_forall. intro H. rewrite (H v Hl) in IH. discriminate.
Qed.
Example C66_parse_example : number_points reading /\ no_list_latitudes hint_opts (prepare_record_data ascii_db false triangle) /\
  (forall d' g, dict_inside d' (VDict (prepare_record_data ascii_db false triangle)) -> g_geojson reading d' = Some g -> two_dimensional g) /\
  exists r, parse (geo_over squeeze_lib reading sum_left) hint_opts (prepare_record_data ascii_db false triangle) = Some r /\
    text_at (lit "_gs") (lit "POLYGON ((0 0, 4 0, 4 3, 0 0))") (VDict (p_parsed r)) /\ text_at (lit "_gp") (lit "POINT (0 0)") (VDict (p_parsed r)).
Proof.
  assert (In2 : forall d', dict_inside d' (VDict (prepare_record_data ascii_db false triangle)) ->
    d' = prepare_record_data ascii_db false triangle \/ d' = [(lit "type", VStr (lit "Polygon")); (lit "coordinates", VList [VList (map (fun c => VList (map VInt c)) [[0; 0]; [4; 0]; [4; 3]; [0; 0]]%Z)])]).
  { intros d' H. inversion H as [N|e k v He Hv|]; subst; [left; reflexivity|]. right. vm_compute in He. destruct He as [He|[He|[He|[He|[]]]]]; injection He as <- <-; try (inversion Hv; fail).
    inversion Hv as [N|e' k' v' He' Hv'|]; subst; [reflexivity|exfalso]. clear Hv H. destruct He' as [E|[E|[]]]; injection E as <- <-; [inversion Hv'|].
    apply inside_dicts in Hv'. discriminate Hv'. }
  split; [intros lon lat g Eg _; cbn in Eg; destruct (num_of_value lon); [|discriminate]; destruct lat; try discriminate; exact I|].
  split; [intros d' Hd h l [<-|[]]; destruct (In2 d') as [->| ->]; [destruct Hd as [->|Hd]; [apply di_here; discriminate|exact Hd]|discriminate|discriminate]|].
  split; [intros d' g Hd Eg; destruct (In2 d' Hd) as [->| ->]; [discriminate Eg|]; injection Eg as <-; intros p Hp; vm_compute in Hp; repeat (destruct Hp as [<-|Hp]; [reflexivity|]); destruct Hp|].
  eexists. split; [vm_compute; reflexivity|]. split.
  - apply (ta_dict _ _ _ (lit "place") _ (or_intror (or_introl eq_refl))) || eapply ta_dict; [left; reflexivity|]. apply ta_here. vm_compute. auto 10.
  - eapply ta_dict; [left; reflexivity|]. apply ta_here. vm_compute. auto 10.
Qed.

Example C80_example : exists r, parse (geo_over squeeze_lib reading sum_left) hint_opts (prepare_record_data ascii_db false triangle) = Some r /\
  text_at (lit "_gs") (lit "POLYGON ((0 0, 4 0, 4 3, 0 0))") (VDict (p_parsed r)) /\ text_at (lit "_gp") (lit "POINT (0 0)") (VDict (p_parsed r)).
Proof. apply C66_parse_example. Qed.

(** ** C76: the geometry code reads dicts by key *)
(** If shapely's functions do (they take the members of the dict, the coordinates as a list and numbers). *)
Record reads_by_key (G : geo_lib spec_float) : Prop := {
  rk_geojson : forall d d', vident (VDict d) (VDict d') -> g_geojson G d = g_geojson G d';
  rk_point : forall a a' b b', vident a a' -> vident b b' -> g_point G a b = g_point G a' b';
  rk_float : forall a a', vident a a' -> g_float G a = g_float G a' }.
Theorem C76_geo_keyed : forall B G total, reads_by_key G -> keyed (geo_over B G total).
Proof.
  intros B G total H.
  assert (J : forall d d', vident (VDict d) (VDict d') -> match_geojson fzero total fadd fsub fmul SFltb SFleb float_of_Z G d = match_geojson fzero total fadd fsub fmul SFltb SFleb float_of_Z G d').
  { intros d d' E. unfold match_geojson. rewrite (rk_geojson G H d d' E). rewrite vident_dict in E. pose proof (E (lit "type")) as E1. pose proof (E (lit "coordinates")) as E2.
    destruct (dget d (lit "type")), (dget d' (lit "type")); try contradiction E1; try reflexivity. destruct (dget d (lit "coordinates")), (dget d' (lit "coordinates")); try contradiction E2; reflexivity. }
  constructor.
  - intros d d' E. cbn [geo_over l_geojson]. rewrite (J d d' E). reflexivity.
  - intros d d' E. cbn [geo_over l_geo_raises]. rewrite (J d d' E). reflexivity.
  - intros a a' b b' r r' n Ea Eb Er. cbn [geo_over l_point]. unfold match_hint. rewrite (rk_point G H a a' b b' Ea Eb). destruct r as [r|], r' as [r'|]; try contradiction; [rewrite (rk_float G H r r' Er)|]; reflexivity.
Qed.
Print Assumptions C76_geo_keyed.
Lemma num_vident a a' : vident a a' -> num_of_value a = num_of_value a'.
Proof. intro H. inversion H; subst; reflexivity. Qed.
Lemma all_vident {A} (f : value -> option A) l m : Forall2 vident l m -> (forall a b, vident a b -> f a = f b) -> all f l = all f m.
Proof. intros F H. induction F as [|x y l m E _ IH]; [reflexivity|]. cbn [all]. rewrite (H x y E), IH. reflexivity. Qed.
Example C76_geo_example : reads_by_key reading.
Proof.
  assert (L : forall a b, vident a b -> (exists l m, a = VList l /\ b = VList m /\ Forall2 vident l m) \/ (match a, b with VList _, _ | _, VList _ => False | _, _ => True end)).
  { intros a b H. inversion H as [? ? Q1 Q2 Q3|l m|d e]; subst; [right; destruct b; try exact I; discriminate|left; exists l, m; split; [reflexivity|split; [reflexivity|apply vident_list, H]]|right; exact I]. }
  assert (C : forall a b, vident a b -> read_coord a = read_coord b).
  { intros a b H. destruct (L a b H) as [(l & m & -> & -> & F)|N]; [cbn [read_coord]; rewrite (all_vident num_of_value l m F num_vident); reflexivity|]. destruct a, b; try contradiction; reflexivity. }
  assert (R : forall a b, vident a b -> read_ring a = read_ring b).
  { intros a b H. destruct (L a b H) as [(l & m & -> & -> & F)|N]; [exact (all_vident read_coord l m F C)|]. destruct a, b; try contradiction; reflexivity. }
  constructor.
  - intros d d' H. cbn [reading g_geojson]. unfold read_geojson. rewrite vident_dict in H. pose proof (H (lit "type")) as H1. pose proof (H (lit "coordinates")) as H2.
    destruct (dget d (lit "type")) as [t|], (dget d' (lit "type")) as [t'|]; try contradiction H1; try reflexivity. cbn [orel] in H1.
    destruct (dget d (lit "coordinates")) as [x|], (dget d' (lit "coordinates")) as [x'|]; try contradiction H2; [|destruct t, t'; reflexivity]. cbn [orel] in H2.
    assert (Ht : match t with VStr _ => t' = t | _ => match t' with VStr _ => False | _ => True end end) by (inversion H1; subst; try exact I; destruct t'; try exact I; reflexivity).
    destruct t; try (destruct t'; try contradiction Ht; reflexivity). subst t'. destruct (L x x' H2) as [(l & m & -> & -> & F)|N]; [rewrite (all_vident read_ring l m F R); reflexivity|]. destruct x, x'; try contradiction N; reflexivity.
  - intros a a' b b' Ha Hb. cbn [reading g_point]. rewrite (num_vident a a' Ha), (num_vident b b' Hb). reflexivity.
  - exact num_vident.
Qed.
