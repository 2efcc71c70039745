(** C59, C65: winding and validity of the shapes indexed. *)
From Coq Require Import String Ascii.
From Coq Require Import List ZArith NArith Bool Lia QArith Lqa.
From Coq Require Import Floats.SpecFloat.
From Verif Require Import PyVal Time Parser Geo.
Import ListNotations.
Open Scope string_scope.
Open Scope list_scope.
Open Scope Q_scope.

(** ** C59 *)
(** Twice the signed area of the polygon with the given vertices (positive: counter-clockwise), by the
    triangles between a point and its edges. *)
Definition signed_area2 (vs : list (Q * Q)) : Q := around cross vs.
Definition shift (d p : Q * Q) : Q * Q := (fst p + fst d, snd p + snd d).
Definition ccw (vs : list (Q * Q)) : Prop := 0 < signed_area2 vs.
Lemma area_shift d vs : signed_area2 (map (shift d) vs) == signed_area2 vs.
Proof.
  unfold signed_area2. rewrite around_map. rewrite (around_ext _ (fun p q => cross p q + ((fst d * snd q - snd d * fst q) - (fst d * snd p - snd d * fst p)))) by (intros p q; unfold cross, shift; cbn [fst snd]; ring).
  rewrite around_add, (around_tele (fun p => fst d * snd p - snd d * fst p)). ring.
Qed.
Lemma area_rev vs : signed_area2 (rev vs) == - signed_area2 vs.
Proof. unfold signed_area2. rewrite around_rev, (around_ext _ (fun p q => (-1) * cross p q)) by (intros p q; unfold cross; ring). rewrite around_scale. ring. Qed.
Lemma holes_valid hs : exists b, interiors_valid 0 sum_exact Qplus Qminus Qmult Qltb (map ring hs) = Some b /\ (b = true <-> forall h, In h hs -> ~ ccw h).
Proof.
  induction hs as [|h hs IH]; [exists true; split; [reflexivity|split; [intros _ h []|reflexivity]]|]. cbn [map interiors_valid].
  destruct (edge_sum_ring h) as (s & -> & Es). rewrite edge_cross in Es. fold (signed_area2 h) in Es. unfold Qltb at 1. destruct (Qle_bool 0 s) eqn:E; cbn [negb].
  - apply Qle_bool_iff in E. destruct IH as (b & -> & Hb). exists b. split; [reflexivity|]. rewrite Hb. split; [intros H h' [<-|K]; [unfold ccw; lra|exact (H h' K)]|intros H h' K; apply H; right; exact K].
  - exists false. split; [reflexivity|]. split; [discriminate|]. intro H. exfalso. apply (H h (or_introl eq_refl)). unfold ccw. assert (~ 0 <= s) by (intro K; apply Qle_bool_iff in K; congruence). lra.
Qed.
Theorem C59_orientation : forall exterior interiors, exists b, winding_exact (ring exterior) (map ring interiors) = Some b /\
  (b = true <-> ccw exterior /\ forall h, In h interiors -> ~ ccw h).
Proof.
  intros e hs. unfold winding_exact, is_winding_valid. destruct (edge_sum_ring e) as (s & -> & Es). rewrite edge_cross in Es. fold (signed_area2 e) in Es. destruct (Qle_bool 0 s) eqn:E.
  - apply Qle_bool_iff in E. exists false. split; [reflexivity|]. split; [discriminate|]. intros [H _]. unfold ccw in H. lra.
  - destruct (holes_valid hs) as (b & -> & Hb). exists b. split; [reflexivity|]. rewrite Hb. assert (~ 0 <= s) by (intro K; apply Qle_bool_iff in K; congruence). split; [intro H1; split; [unfold ccw; lra|exact H1]|intros [_ H1]; exact H1].
Qed.
Print Assumptions C59_orientation.
Lemma winding_same e e' hs hs' : (ccw e <-> ccw e') -> ((forall h, In h hs -> ~ ccw h) <-> (forall h, In h hs' -> ~ ccw h)) ->
  winding_exact (ring e) (map ring hs) = winding_exact (ring e') (map ring hs').
Proof.
  intros H1 H2. destruct (C59_orientation e hs) as (b & -> & Hb). destruct (C59_orientation e' hs') as (b' & -> & Hb'). f_equal. apply eq_true_iff_eq. rewrite Hb, Hb'. tauto.
Qed.
(** Every ring may start at any of its vertices. *)
Definition rotation {A} (l l' : list A) : Prop := exists a b, l = a ++ b /\ l' = b ++ a.
Theorem C59_start_vertex : forall e e' hs hs', rotation e e' -> Forall2 rotation hs hs' ->
  winding_exact (ring e') (map ring hs') = winding_exact (ring e) (map ring hs).
Proof.
  assert (R : forall l l', rotation l l' -> ccw l <-> ccw l').
  { intros l l' (a & b & -> & ->). unfold ccw, signed_area2. rewrite (around_rotate cross a b). reflexivity. }
  intros e e' hs hs' He Hh. symmetry. apply winding_same; [exact (R _ _ He)|]. induction Hh as [|h h' hs hs' H1 H2 IH]; [split; intros _ h []|]. split; intros H k [<-|K].
  - intro C. apply (H h (or_introl eq_refl)), (R _ _ H1), C.
  - apply (proj1 IH); [intros x Hx; apply H; right; exact Hx|exact K].
  - intro C. apply (H h' (or_introl eq_refl)), (R _ _ H1), C.
  - apply (proj2 IH); [intros x Hx; apply H; right; exact Hx|exact K].
Qed.
Print Assumptions C59_start_vertex.
Theorem C59_translation : forall d e hs, winding_exact (ring (map (shift d) e)) (map ring (map (map (shift d)) hs)) = winding_exact (ring e) (map ring hs).
Proof.
  intros d e hs. apply winding_same; [unfold ccw; rewrite area_shift; reflexivity|]. split; intros H h K.
  - specialize (H (map (shift d) h) (in_map _ _ _ K)). unfold ccw in *. rewrite area_shift in H. exact H.
  - apply in_map_iff in K. destruct K as (h' & <- & K). unfold ccw. rewrite area_shift. exact (H h' K).
Qed.
Print Assumptions C59_translation.
(** Reversing the ring of a polygon without holes, or one hole, flips the answer about it. *)
Theorem C59_reversal : forall e, ~ signed_area2 e == 0 ->
  (exists b, winding_exact (ring e) [] = Some b /\ winding_exact (ring (rev e)) [] = Some (negb b))
  /\ (forall ext hs hs', winding_exact (ring ext) (map ring (hs ++ hs')) = Some true ->
        exists b, winding_exact (ring ext) (map ring (hs ++ e :: hs')) = Some b /\ winding_exact (ring ext) (map ring (hs ++ rev e :: hs')) = Some (negb b)).
Proof.
  intros e N. pose proof (area_rev e) as A. split.
  - destruct (C59_orientation e []) as (b & E & Hb). destruct (C59_orientation (rev e) []) as (b' & E' & Hb'). exists b. cbn [map] in *. rewrite E, E'. split; [reflexivity|]. f_equal. apply eq_true_iff_eq. rewrite Hb', negb_true_iff, <- not_true_iff_false, Hb. unfold ccw. rewrite A.
    split; [intros [H _] [K _]; lra|]. intro H. split; [|intros h []]. destruct (Qlt_le_dec 0 (signed_area2 e)) as [L|L]; [exfalso; apply H; split; [exact L|intros h []]|]. destruct (Qle_lt_or_eq _ _ L) as [L'|L']; [lra|contradiction].
  - intros ext hs hs' H. destruct (C59_orientation ext (hs ++ hs')) as (b0 & E0 & H0). rewrite E0 in H. injection H as ->. destruct (proj1 H0 eq_refl) as [X Y].
    destruct (C59_orientation ext (hs ++ e :: hs')) as (b & E & Hb). destruct (C59_orientation ext (hs ++ rev e :: hs')) as (b' & E' & Hb'). exists b. rewrite E, E'. split; [reflexivity|]. f_equal.
    assert (Z : forall x, (forall h, In h (hs ++ x :: hs') -> ~ ccw h) <-> ~ ccw x).
    { intro x. split; [intro K; apply K, in_or_app; right; left; reflexivity|]. intros K h I. apply in_app_or in I. destruct I as [I|[<-|I]]; [apply Y, in_or_app; left; exact I|exact K|apply Y, in_or_app; right; exact I]. }
    apply eq_true_iff_eq. rewrite Hb', negb_true_iff, <- not_true_iff_false, Hb, !Z. unfold ccw in *. rewrite A. split; [intros [_ K] [_ K']|intro K; split; [exact X|]].
    + destruct (Qlt_le_dec 0 (signed_area2 e)) as [L|L]; [contradiction|]. destruct (Qle_lt_or_eq _ _ L) as [L'|L']; [lra|contradiction].
    + intro C. apply K. split; [exact X|]. lra.
Qed.
Print Assumptions C59_reversal.
Definition square : list (Q * Q) := [(0, 0); (4, 0); (4, 3); (0, 3)].
Definition hole : list (Q * Q) := [(1, 1); (1, 2); (2, 2); (2, 1)].
Example C59_example : ccw square /\ ~ ccw hole /\ ~ signed_area2 square == 0 /\ ~ signed_area2 hole == 0
  /\ winding_exact (ring square) (map ring [hole]) = Some true /\ winding_exact (ring square) (map ring [rev hole]) = Some false
  /\ winding_exact (ring (rev square)) [] = Some false /\ winding_exact (ring [(4, 3); (0, 3); (0, 0); (4, 0)]) [] = Some true /\ rotation square [(4, 3); (0, 3); (0, 0); (4, 0)].
Proof. repeat split; try reflexivity; try (vm_compute; discriminate). exists [(0, 0); (4, 0)], [(4, 3); (0, 3)]. split; reflexivity. Qed.

(** With the arithmetic of floats this holds only up to rounding: a triangle of the size of one unit in the last
    place (100, 50), (100 + 2^-46, 50), (100, 50 + 2^-47) is counter-clockwise, but not accepted. *)
Definition f (m : positive) (e : Z) : spec_float := S754_finite false m e.
Definition tiny_q : list (Q * Q) := [(100, 50); (100 + (1 # 2 ^ 46), 50); (100, 50 + (1 # 2 ^ 47))].
Definition x0 := f 7036874417766400 (-46). Definition x1 := f 7036874417766401 (-46).
Definition y0 := f 7036874417766400 (-47). Definition y1 := f 7036874417766401 (-47).
Definition q_of (x : spec_float) : Q := match x with S754_finite s m e => inject_Z (if s then Z.neg m else Z.pos m) * 2 ^ e | _ => 0 end.
Theorem C59_float_refuted : exists (vs : list (Q * Q)) (cs : list (pt spec_float)),
  Forall2 (fun c p => let '(x, y, _) := c in q_of x == fst p /\ q_of y == snd p) cs (match vs with v :: _ => vs ++ [v] | [] => [] end)
  /\ ccw vs /\ winding_exact (ring vs) [] = Some true /\ winding_float cs [] = Some false /\ winding_comp cs [] = Some false.
Proof.
  exists tiny_q, [(x0, y0, []); (x1, y0, []); (x0, y1, []); (x0, y0, [])]. split; [repeat constructor; reflexivity|]. repeat split; reflexivity.
Qed.
Print Assumptions C59_float_refuted.
(** Coordinates with a height make it raise. *)
Theorem C59_dimensions_refuted : exists e, winding_exact e [] = None.
Proof. exists [(0, 0, [1]); (4, 0, [1]); (4, 3, [1]); (0, 0, [1])]. reflexivity. Qed.
Print Assumptions C59_dimensions_refuted.

(** ** C65: what is indexed as a shape *)
(** Elasticsearch takes points, lines and polygons that are not empty and have all coordinates in range. *)
Section Valid.
Context {T : Type} (zero : T) (total : list T -> T) (add sub mul : T -> T -> T) (ltb leb : T -> T -> bool) (of_Z : Z -> T).
Variable G : geo_lib T.
Definition coords (g : geom T) : list (pt T) := match g with GPoint cs | GLine cs => cs | GPolygon e is => e ++ concat is | GOther => [] end.
Definition in_range (p : pt T) : Prop := let '(x, y, _) := p in
  leb (of_Z (-180)) x = true /\ leb x (of_Z 180) = true /\ leb (of_Z (-90)) y = true /\ leb y (of_Z 90) = true.
Definition accepted (g : geom T) : Prop :=
  g <> GOther /\ coords g <> [] /\ forall p, In p (coords g) -> in_range p.
Lemma shape_valid_accepted g : is_shape_valid leb of_Z g = true -> accepted g.
Proof.
  unfold is_shape_valid, accepted. rewrite andb_true_iff, negb_true_iff. intros [E V].
  assert (F : forall cs : list (pt T), forallb (coord_valid leb of_Z) cs = true -> forall p, In p cs -> in_range p).
  { intros cs H p K. rewrite forallb_forall in H. specialize (H p K). destruct p as [[x y] m]. cbn [coord_valid] in H. rewrite !andb_true_iff in H. cbn. tauto. }
  destruct g as [cs|cs|e is|]; cbn [coords]; [| | |discriminate]; (split; [discriminate|split; [|apply F, V]]).
  - destruct cs; [discriminate|discriminate].
  - destruct cs; [discriminate|discriminate].
  - destruct e; [discriminate|discriminate].
Qed.
Lemma accepted_shape_valid g : accepted g -> (match g with GPolygon [] _ => False | _ => True end) -> is_shape_valid leb of_Z g = true.
Proof.
  intros (N & E & V) X. assert (F : forall cs : list (pt T), (forall p, In p cs -> in_range p) -> forallb (coord_valid leb of_Z) cs = true).
  { intros cs H. apply forallb_forall. intros p K. specialize (H p K). destruct p as [[x y] m]. cbn in H. cbn [coord_valid]. rewrite !andb_true_iff. tauto. }
  unfold is_shape_valid. destruct g as [cs|cs|e is|]; [| | |congruence]; cbn [coords] in *; rewrite F by exact V; rewrite andb_true_r.
  - destruct cs; [congruence|reflexivity].
  - destruct cs; [congruence|reflexivity].
  - destruct e; [contradiction|reflexivity].
Qed.
(** polygons from GeoJSON and circles also follow the right hand rule *)
Definition wound (g : geom T) : Prop := forall e is, g = GPolygon e is -> is_winding_valid zero total add sub mul ltb leb e is = Some true.
Theorem C65_shapes_valid :
  (forall d p s, match_geojson zero total add sub mul ltb leb of_Z G d = Some (Some (p, s)) ->
     exists g, g_geojson G d = Some g /\ s = g_to_wkt G g /\ p = g_to_wkt G (g_centroid G g) /\ accepted g /\ wound g)
  /\ (forall t p s, match_wkt leb of_Z G t = Some (p, s) ->
     exists g, g_wkt G t = Some g /\ s = g_to_wkt G g /\ p = g_to_wkt G (g_centroid G g) /\ accepted g)
  /\ (forall lon lat radius n p s, match_hint zero total add sub mul ltb leb of_Z G lon lat radius n = Some (p, s) ->
     exists g shape, g_point G lon lat = Some g /\ p = g_to_wkt G g /\ s = g_to_wkt G shape /\ accepted g /\ accepted shape
       /\ (shape <> g -> wound shape /\ exists r x, radius = Some r /\ g_float G r = Some x /\ ltb zero x = true)).
Proof.
  split; [|split].
  - intros d p s H. unfold match_geojson in H. destruct (dget d (lit "type")); [|discriminate]. destruct (dget d (lit "coordinates")); [|discriminate]. destruct (g_geojson G d) as [g|] eqn:Eg; [|discriminate].
    destruct (is_shape_valid leb of_Z g) eqn:V; [|discriminate]. cbn [negb] in H. apply shape_valid_accepted in V. exists g.
    destruct g as [cs|cs|e is|]; try (injection H as <- <-; repeat split; try exact V; try apply V; try reflexivity; intros e is D; discriminate D).
    destruct (is_winding_valid zero total add sub mul ltb leb e is) as [[|]|] eqn:W; try discriminate. injection H as <- <-. repeat split; try apply V; try reflexivity. intros e' is' D. injection D as <- <-. exact W.
  - intros t p s H. unfold match_wkt in H. destruct (wkt_start t); [|discriminate]. destruct (g_wkt G t) as [g|] eqn:Eg; [|discriminate]. destruct (is_shape_valid leb of_Z g) eqn:V; [|discriminate]. injection H as <- <-. apply shape_valid_accepted in V. exists g. repeat split; try apply V; reflexivity.
  - intros lon lat radius n p s H. unfold match_hint in H. destruct (g_point G lon lat) as [g|] eqn:Eg; [|discriminate]. destruct (is_shape_valid leb of_Z g) eqn:V; [|discriminate]. cbn zeta in H. injection H as <- <-. pose proof V as V'. apply shape_valid_accepted in V.
    set (shape := match radius, g with Some r, GPoint ((x, y, _) :: _) => _ | _, _ => g end). exists g, shape.
    assert (D : shape = g \/ exists r x y x' z, radius = Some r /\ g_float G r = Some x /\ ltb zero x = true /\ create_polygon_circle zero total add sub mul ltb leb of_Z G y x' x n = Some z /\ is_shape_valid leb of_Z z = true /\ shape = z).
    { unfold shape. destruct radius as [r|]; [|left; reflexivity]. destruct g as [[|[[x y] m] cs]|cs|e is|]; try (left; reflexivity). destruct (g_float G r) as [u|] eqn:Eu; [|left; reflexivity]. destruct (ltb zero u) eqn:Lu; [|left; reflexivity].
      destruct (create_polygon_circle zero total add sub mul ltb leb of_Z G y x u n) as [c|] eqn:Ec; [|left; reflexivity]. destruct (is_shape_valid leb of_Z c) eqn:Vc; [|left; reflexivity]. right. exists r, u, y, x, c. auto 7. }
    clearbody shape. destruct D as [->|(r & x & y & x' & z & Er & Ex & Lx & Ez & Vz & ->)].
    + repeat split; try apply V; try reflexivity; congruence.
    + split; [reflexivity|]. split; [reflexivity|]. split; [reflexivity|]. split; [exact V|]. split; [apply shape_valid_accepted, Vz|]. intros _. split; [|exists r, x; auto].
      unfold create_polygon_circle in Ez. destruct (leb x zero); [discriminate|]. destruct (g_circle G y x' x n) as [cs|]; [|discriminate]. destruct (is_shape_valid leb of_Z (GPolygon cs [])); [|discriminate].
      destruct (is_winding_valid zero total add sub mul ltb leb cs []) as [[|]|] eqn:W; try discriminate. injection Ez as <-. intros e is D. injection D as <- <-. exact W.
Qed.
(** [begins w s]: [s] begins with the word [w], a letter written as itself or as its capital, and a blank. *)
Definition letter_case (c x : N) : Prop := x = c \/ x = (c - 32)%N.
Definition begins (w s : pystr) : Prop := exists w' rest, s = w' ++ [32%N] ++ rest /\ Forall2 letter_case w w'.
Lemma begins_prefix w s : begins w s -> prefix_ci w s = true.
Proof.
  intros (w' & rest & -> & F). induction F as [|c x w w' L _ IH]; [reflexivity|]. cbn [app prefix_ci]. apply andb_true_iff. split; [|exact IH]. unfold same_letter. destruct L as [->| ->]; rewrite N.eqb_refl; [reflexivity|rewrite orb_true_r; reflexivity].
Qed.
(** What can be indexed is indexed: a GeoJSON object read as an acceptable two dimensional shape that is wound
    correctly; acceptable WKT that begins with the name of a shape and a blank; a hint whose fields give a point in range.
    Missing: WKT written otherwise, see C65_wkt_refuted. *)
Theorem C65_shapes_partial :
  (forall d g, dget d (lit "type") <> None -> dget d (lit "coordinates") <> None -> g_geojson G d = Some g -> is_shape_valid leb of_Z g = true -> wound g ->
     match_geojson zero total add sub mul ltb leb of_Z G d = Some (Some (g_to_wkt G (g_centroid G g), g_to_wkt G g)))
  /\ (forall t g, begins (lit "point") t \/ begins (lit "linestring") t \/ begins (lit "polygon") t -> g_wkt G t = Some g -> is_shape_valid leb of_Z g = true ->
     match_wkt leb of_Z G t = Some (g_to_wkt G (g_centroid G g), g_to_wkt G g))
  /\ (forall lon lat radius n g, g_point G lon lat = Some g -> is_shape_valid leb of_Z g = true ->
     exists s, match_hint zero total add sub mul ltb leb of_Z G lon lat radius n = Some (g_to_wkt G g, s)).
Proof.
  split; [|split].
  - intros d g H1 H2 E V W. unfold match_geojson. destruct (dget d (lit "type")); [|congruence]. destruct (dget d (lit "coordinates")); [|congruence]. rewrite E, V. cbn [negb]. destruct g as [cs|cs|e is|]; try reflexivity. rewrite (W e is eq_refl). reflexivity.
  - intros t g E E' V. unfold match_wkt. assert (B : wkt_start t = true).
    { unfold wkt_start. rewrite !orb_true_iff. destruct E as [E|[E|E]]; apply begins_prefix in E; auto. }
    rewrite B, E', V. reflexivity.
  - intros lon lat radius n g E V. unfold match_hint. rewrite E, V. eexists. reflexivity.
Qed.
End Valid.
Print Assumptions C65_shapes_valid.
Print Assumptions C65_shapes_partial.
(** A library with which all of them give something. *)
Definition ex_geo : geo_lib Q := GeoLib
  (fun _ => Some (GPolygon (ring square) [ring hole])) (fun _ => Some (GLine [(0, 0, []); (1, 1, [5])])) (fun _ _ => Some (GPoint [(3, 2, [])])) (fun _ => Some 100)
  (fun lat lon r n => Some (ring (map (shift (lon, lat)) square))) (fun _ => GPoint [(1, 1, [])]) (fun g => match g with GPoint _ => lit "P" | GLine _ => lit "L" | _ => lit "G" end).
Example C65_example :
  match_geojson 0 sum_exact Qplus Qminus Qmult Qltb Qle_bool inject_Z ex_geo [(lit "type", VStr (lit "Polygon")); (lit "coordinates", VList [])] = Some (Some (lit "P", lit "G"))
  /\ match_wkt Qle_bool inject_Z ex_geo (lit "LineString (0 0, 1 1)") = Some (lit "P", lit "L")
  /\ match_hint 0 sum_exact Qplus Qminus Qmult Qltb Qle_bool inject_Z ex_geo (VInt 3) (VInt 2) (Some (VInt 100)) 16 = Some (lit "P", lit "G").
Proof. repeat split. Qed.
(** Whatever the library makes of it, WKT whose shape name is not followed by a blank, or that begins with one, is not indexed. *)
Theorem C65_wkt_refuted : forall (G : geo_lib Q) g, accepted Qle_bool inject_Z g ->
  g_wkt G (lit "POINT(3 4)") = Some g -> g_wkt G (lit " POINT (3 4)") = Some g ->
  match_wkt Qle_bool inject_Z G (lit "POINT(3 4)") = None /\ match_wkt Qle_bool inject_Z G (lit " POINT (3 4)") = None.
Proof. intros G g _ _ _. split; reflexivity. Qed.
Print Assumptions C65_wkt_refuted.
Example C65_wkt_example : exists (G : geo_lib Q) g, accepted Qle_bool inject_Z g /\ g_wkt G (lit "POINT(3 4)") = Some g /\ g_wkt G (lit " POINT (3 4)") = Some g /\
  begins (lit "point") (lit "POINT (3 4)") /\ match_wkt Qle_bool inject_Z G (lit "POINT (3 4)") <> None.
Proof.
  exists (GeoLib (fun _ => None) (fun _ => Some (GPoint [(3, 4, [])])) (fun _ _ => None) (fun _ => None) (fun _ _ _ _ => None) (fun g => g) (fun _ => lit "P")), (GPoint [(3, 4, [])]).
  split; [split; [discriminate|split; [discriminate|intros p [<-|[]]; repeat split]]|]. split; [reflexivity|]. split; [reflexivity|]. split; [|discriminate].
  exists (lit "POINT"), (lit "(3 4)"). split; [reflexivity|]. repeat (constructor; [right; reflexivity|]). constructor.
Qed.

(** ** C66: GeoJSON never makes parsing fail *)
(** Where the library reads the third dimension of GeoJSON, polygons with heights do. *)
Theorem C66_geojson_refuted : exists (G : geo_lib Q) d, match_geojson 0 sum_exact Qplus Qminus Qmult Qltb Qle_bool inject_Z G d = None.
Proof.
  exists (GeoLib (fun _ => Some (GPolygon [(0, 0, [7]); (4, 0, [7]); (4, 3, [7]); (0, 0, [7])] [])) (fun _ => None) (fun _ _ => None) (fun _ => None) (fun _ _ _ _ => None) (fun g => g) (fun _ => [])),
    [(lit "type", VStr (lit "Polygon")); (lit "coordinates", VList [])]. reflexivity.
Qed.
Print Assumptions C66_geojson_refuted.
Definition two_dimensional {T} (g : geom T) : Prop := forall p, In p (coords g) -> snd p = [].
Lemma edge_sum_two {T} total add sub mul (cs : list (pt T)) : (forall p, In p cs -> snd p = []) -> edge_sum total add sub mul cs <> None.
Proof.
  unfold edge_sum. intro H. assert (K : edge_terms add sub mul cs <> None); [|destruct (edge_terms add sub mul cs); [discriminate|congruence]].
  induction cs as [|p cs IH]; [discriminate|]. destruct cs as [|q cs]; [discriminate|].
  destruct p as [[px py] pm], q as [[qx qy] qm]. pose proof (H _ (or_introl eq_refl)) as H1. pose proof (H _ (or_intror (or_introl eq_refl))) as H2. cbn [snd] in H1, H2. subst pm qm.
  change (option_map (cons (mul (sub qx px) (add qy py))) (edge_terms add sub mul ((qx, qy, []) :: cs)) <> None).
  assert (Q : edge_terms add sub mul ((qx, qy, []) :: cs) <> None) by (apply IH; intros r Hr; apply H; right; exact Hr). destruct (edge_terms add sub mul ((qx, qy, []) :: cs)); [discriminate|congruence].
Qed.
Theorem C66_geojson_partial : forall (T : Type) zero total add sub mul ltb leb of_Z (G : geo_lib T), (forall d g, g_geojson G d = Some g -> two_dimensional g) ->
  forall d, match_geojson zero total add sub mul ltb leb of_Z G d <> None.
Proof.
  intros T zero total add sub mul ltb leb of_Z G H d. unfold match_geojson. destruct (dget d (lit "type")); [|discriminate]. destruct (dget d (lit "coordinates")); [|discriminate]. destruct (g_geojson G d) as [g|] eqn:Eg; [|discriminate].
  destruct (is_shape_valid leb of_Z g); [|discriminate]. cbn [negb]. destruct g as [cs|cs|e is|]; try discriminate. specialize (H d _ Eg). unfold two_dimensional in H. cbn [coords] in H.
  assert (W : is_winding_valid zero total add sub mul ltb leb e is <> None).
  { unfold is_winding_valid. pose proof (edge_sum_two total add sub mul e (fun p K => H p (in_or_app _ _ _ (or_introl K)))) as E. destruct (edge_sum total add sub mul e) as [s|]; [|congruence]. destruct (leb zero s); [discriminate|].
    assert (I : forall p, In p (concat is) -> snd p = []) by (intros p K; apply H, in_or_app; right; exact K). clear - I. induction is as [|i is IH]; [discriminate|]. cbn [interiors_valid].
    pose proof (edge_sum_two total add sub mul i (fun p K => I p (in_or_app _ _ _ (or_introl K)))) as E. destruct (edge_sum total add sub mul i) as [s|]; [|congruence]. destruct (ltb s zero); [discriminate|]. apply IH. intros p K. apply I. cbn [concat]. apply in_or_app. right. exact K. }
  destruct (is_winding_valid zero total add sub mul ltb leb e is) as [[|]|]; [discriminate|discriminate|congruence].
Qed.
Print Assumptions C66_geojson_partial.
Example C66_example : forall d g, g_geojson ex_geo d = Some g -> two_dimensional g.
Proof. intros d g E. cbn in E. injection E as <-. intros p H. vm_compute in H. repeat (destruct H as [<-|H]; [reflexivity|]). contradiction. Qed.
