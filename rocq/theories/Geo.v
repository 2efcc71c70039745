(** Geographic values (indexing/geo.py). Numbers are abstract, so that the code can be run on exact rationals
    and on binary64 floats. *)
From Coq Require Import String Ascii.
From Coq Require Import List ZArith NArith Bool Lia QArith Lqa.
From Coq Require Import Floats.SpecFloat.
From Verif Require Import PyVal Time Parser.
Import ListNotations.
Open Scope nat_scope.

(** indexing/geo.py:154: the regular expression [(point|linestring|polygon) ] with re.IGNORECASE, matched at the start. Python
    ignores case by Unicode: besides the capital letter, the Turkish capital and dotless i match i, and the long s matches s. *)
Definition same_letter (c x : N) : bool :=
  N.eqb x c || N.eqb x (c - 32) || N.eqb c 105 && (N.eqb x 304 || N.eqb x 305) || N.eqb c 115 && N.eqb x 383.
(** re.IGNORECASE at the start of a text (indexing/geo.py:154) *)
Fixpoint prefix_ci (w s : pystr) : bool :=
  match w, s with [], 32%N :: _ => true | c :: w', x :: s' => same_letter c x && prefix_ci w' s' | _, _ => false end.
(** indexing/geo.py:154, 167: whether the expression matches *)
Definition wkt_start (s : pystr) : bool :=
  prefix_ci (lit "point"%string) s || prefix_ci (lit "linestring"%string) s || prefix_ci (lit "polygon"%string) s.

Section Numbers.
Context {T : Type} (zero : T) (total : list T -> T) (add sub mul : T -> T -> T) (ltb leb : T -> T -> bool) (of_Z : Z -> T).
(** A coordinate: x, y and further dimensions (shapely: coords). (indexing/geo.py:177-244) *)
Definition pt : Type := T * T * list T.
(** The geometries of shapely as far as the code looks at them; rings include the closing point. (indexing/geo.py:177-244) *)
Inductive geom := GPoint (cs : list pt) | GLine (cs : list pt) | GPolygon (exterior : list pt) (interiors : list (list pt)) | GOther.
(** shape.is_empty (indexing/geo.py:177-213) *)
Definition geom_empty (g : geom) : bool :=
  match g with GPoint [] | GLine [] | GPolygon [] _ => true | _ => false end.
(** indexing/geo.py:177-212 [is_shape_valid] *)
Definition coord_valid (p : pt) : bool :=
  let '(x, y, _) := p in leb (of_Z (-180)) x && leb x (of_Z 180) && (leb (of_Z (-90)) y && leb y (of_Z 90)).
(** indexing/geo.py:177-212 [is_shape_valid] *)
Definition is_shape_valid (g : geom) : bool :=
  negb (geom_empty g) &&
  match g with
  | GPoint cs | GLine cs => forallb coord_valid cs
  | GPolygon e is => forallb coord_valid (e ++ concat is)
  | GOther => false
  end.

(** indexing/geo.py:225-228, 235-238: [sum] of a term for every pair in [sliding_window(2, coords)]. [None]: ValueError, as the
    pattern [(x1, y1), (x2, y2)] takes two dimensions only. [total] is Python's [sum]. *)
Definition flat (p : pt) : option (T * T) := let '(x, y, more) := p in match more with [] => Some (x, y) | _ => None end.
(** indexing/geo.py:225-228, 235-238: the terms *)
Fixpoint edge_terms (cs : list pt) : option (list T) :=
  match cs with
  | p :: rest =>
      match rest with
      | [] => Some []
      | q :: _ =>
          match flat p, flat q with
          | Some (x1, y1), Some (x2, y2) => option_map (cons (mul (sub x2 x1) (add y2 y1))) (edge_terms rest)
          | _, _ => None
          end
      end
  | [] => Some []
  end.
(** indexing/geo.py:225-228, 235-238: their [sum] *)
Definition edge_sum (cs : list pt) : option T := option_map total (edge_terms cs).
(** indexing/geo.py:233-244 *)
Fixpoint interiors_valid (is : list (list pt)) : option bool :=
  match is with
  | [] => Some true
  | i :: r => match edge_sum i with None => None | Some s => if ltb s zero then Some false else interiors_valid r end
  end.
(** indexing/geo.py:215-244 [is_winding_valid] *)
Definition is_winding_valid (exterior : list pt) (interiors : list (list pt)) : option bool :=
  match edge_sum exterior with
  | None => None
  | Some s => if leb zero s then Some false else interiors_valid interiors
  end.

(** Shapely and pyproj, as parameters. [None]: invalid input, ValueError or TypeError.
    [g_circle]: the exterior of the buffer around the point, reversed (indexing/geo.py:101-108), given latitude,
    longitude, radius and segments. *)
Record geo_lib := GeoLib {
  g_geojson : dict -> option geom;
  g_wkt : pystr -> option geom;
  g_point : value -> value -> option geom;
  g_float : value -> option T;
  g_circle : T -> T -> T -> Z -> option (list pt);
  g_centroid : geom -> geom;
  g_to_wkt : geom -> pystr   (* two dimensions, full precision *)
}.
Variable G : geo_lib.
(** indexing/geo.py:18-33 *)
Definition to_parsed (point shape : geom) : pystr * pystr := (g_to_wkt G point, g_to_wkt G shape).
(** indexing/geo.py:116-151 [match_geojson]: outer [None] is ValueError *)
Definition match_geojson (d : dict) : option (option (pystr * pystr)) :=
  match dget d (lit "type"%string), dget d (lit "coordinates"%string) with
  | Some _, Some _ =>
      match g_geojson G d with
      | None => Some None
      | Some g =>
          if negb (is_shape_valid g) then Some None
          else match g with
               | GPolygon e is => match is_winding_valid e is with
                                  | None => None
                                  | Some false => Some None
                                  | Some true => Some (Some (to_parsed (g_centroid G g) g))
                                  end
               | _ => Some (Some (to_parsed (g_centroid G g) g))
               end
      end
  | _, _ => Some None
  end.
(** indexing/geo.py:157-174 [match_wkt] *)
Definition match_wkt (s : pystr) : option (pystr * pystr) :=
  if wkt_start s then match g_wkt G s with Some g => if is_shape_valid g then Some (to_parsed (g_centroid G g) g) else None | None => None end
  else None.
(** indexing/geo.py:81-113 [create_polygon_circle]; [None]: ValueError *)
Definition create_polygon_circle (lat lon radius : T) (segments : Z) : option geom :=
  if leb radius zero then None
  else match g_circle G lat lon radius segments with
       | None => None
       | Some cs => if is_shape_valid (GPolygon cs []) then match is_winding_valid cs [] with Some true => Some (GPolygon cs []) | _ => None end else None
       end.
(** indexing/geo.py:47-76: the body of the loop of [match_hints] *)
Definition match_hint (lon lat : value) (radius : option value) (segments : Z) : option (pystr * pystr) :=
  match g_point G lon lat with
  | None => None
  | Some p =>
      if is_shape_valid p then
        let shape :=
          match radius, p with
          | Some r, GPoint ((x, y, _) :: _) =>
              match g_float G r with
              | None => p
              | Some f => if ltb zero f then match create_polygon_circle y x f segments with Some c => if is_shape_valid c then c else p | None => p end else p
              end
          | _, _ => p
          end in
        Some (to_parsed p shape)
      else None
  end.
End Numbers.
Arguments pt : clear implicits.
Arguments geom : clear implicits.
Arguments geo_lib : clear implicits.

(** Exact numbers. (specification, models no code) *)
Definition Qltb (a b : Q) : bool := negb (Qle_bool b a).
(** [sum] of exact numbers (specification, models no code) *)
Definition sum_exact (l : list Q) : Q := fold_left Qplus l 0%Q.
(** indexing/geo.py:215-244 [is_winding_valid] with exact numbers *)
Definition winding_exact := is_winding_valid 0%Q sum_exact Qplus Qminus Qmult Qltb Qle_bool.
(** binary64, round to nearest even. [sum_left]: Python's [sum] of floats before 3.12, from left to right, starting with 0;
    [sum_comp]: since 3.12 (bltinmodule.c [builtin_sum_impl]), with Neumaier's correction. (indexing/geo.py:215-244) *)
Definition fadd := SFadd 53 1024. Definition fsub := SFsub 53 1024. Definition fmul := SFmul 53 1024.
(** the float 0.0 (indexing/geo.py:215-244) *)
Definition fzero : spec_float := S754_zero false.
(** Python's [sum] before 3.12 (indexing/geo.py:225, 235) *)
Definition sum_left (l : list spec_float) : spec_float := fold_left fadd l fzero.
(** one step of Python's [sum] since 3.12 (indexing/geo.py:225, 235) *)
Definition comp_step (sc : spec_float * spec_float) (x : spec_float) : spec_float * spec_float :=
  let '(s, c) := sc in let t := fadd s x in
  (t, fadd c (if SFleb (SFabs x) (SFabs s) then fadd (fsub s t) x else fadd (fsub x t) s)).
(** Python's [sum] since 3.12 (indexing/geo.py:225, 235) *)
Definition sum_comp (l : list spec_float) : spec_float :=
  let '(s, c) := fold_left comp_step l (fzero, fzero) in
  match c with S754_finite _ _ _ => fadd s c | _ => s end.
(** indexing/geo.py:215-244 [is_winding_valid] with floats, before Python 3.12 *)
Definition winding_float := is_winding_valid fzero sum_left fadd fsub fmul SFltb SFleb.
(** indexing/geo.py:215-244 [is_winding_valid] with floats, since Python 3.12 *)
Definition winding_comp := is_winding_valid fzero sum_comp fadd fsub fmul SFltb SFleb.

(** ** The edge sum over exact numbers *)
Open Scope Q_scope.
(** specification, models no code *)
Definition flat2 (p : Q * Q) : pt Q := (fst p, snd p, []).
(** a ring through the given vertices (specification, models no code) *)
Definition ring (vs : list (Q * Q)) : list (pt Q) := match vs with [] => [] | v :: _ => map flat2 (vs ++ [v]) end.
(** specification: the cross product *)
Definition cross (p q : Q * Q) : Q := fst p * snd q - fst q * snd p.
(** sum of [f] over consecutive pairs *)
Section Pairs.
Variable f : Q * Q -> Q * Q -> Q.
(** specification, models no code *)
Fixpoint pairs (l : list (Q * Q)) : Q := match l with p :: ((q :: _) as r) => f p q + pairs r | _ => 0 end.
(** sum over the edges of a closed ring (specification, models no code) *)
Definition around (vs : list (Q * Q)) : Q := match vs with [] => 0 | v :: _ => pairs (vs ++ [v]) end.
Lemma pairs_app l p m : pairs (l ++ p :: m) == pairs (l ++ [p]) + pairs (p :: m).
Proof.
  induction l as [|a l IH].
  - cbn [app pairs]. ring.
  - destruct l as [|b l]; cbn [app] in *; [cbn [pairs]; ring|]. change (f a b + pairs (b :: l ++ p :: m) == f a b + pairs (b :: l ++ [p]) + pairs (p :: m)). rewrite IH. ring.
Qed.
Lemma around_rotate a b : around (a ++ b) == around (b ++ a).
Proof.
  destruct a as [|p a]; [rewrite app_nil_r; reflexivity|]. destruct b as [|q b]; [rewrite app_nil_r; reflexivity|]. cbn [app around].
  rewrite <- !app_assoc. cbn [app].
  change (pairs ((p :: a) ++ q :: b ++ [p]) == pairs ((q :: b) ++ p :: a ++ [q])). rewrite (pairs_app (p :: a) q), (pairs_app (q :: b) p). cbn [app]. ring.
Qed.
End Pairs.
Lemma pairs_ext f g l : (forall p q, f p q == g p q) -> pairs f l == pairs g l.
Proof. intro H. induction l as [|a l IH]; [reflexivity|]. destruct l as [|b l]; [reflexivity|]. change (f a b + pairs f (b :: l) == g a b + pairs g (b :: l)). rewrite H, IH. reflexivity. Qed.
Lemma around_ext f g vs : (forall p q, f p q == g p q) -> around f vs == around g vs.
Proof. intro H. destruct vs as [|v vs]; [reflexivity|]. apply pairs_ext, H. Qed.
Lemma pairs_add f g l : pairs (fun p q => f p q + g p q) l == pairs f l + pairs g l.
Proof. induction l as [|a l IH]; [reflexivity|]. destruct l as [|b l]; [reflexivity|]. change (f a b + g a b + pairs (fun p q => f p q + g p q) (b :: l) == f a b + pairs f (b :: l) + (g a b + pairs g (b :: l))). rewrite IH. ring. Qed.
Lemma around_add f g vs : around (fun p q => f p q + g p q) vs == around f vs + around g vs.
Proof. destruct vs as [|v vs]; [reflexivity|]. apply pairs_add. Qed.
Lemma pairs_tele (h : Q * Q -> Q) l a b : pairs (fun p q => h q - h p) (a :: l ++ [b]) == h b - h a.
Proof. revert a. induction l as [|c l IH]; intro a; [cbn [app pairs]; ring|]. change (h c - h a + pairs (fun p q => h q - h p) (c :: l ++ [b]) == h b - h a). rewrite IH. ring. Qed.
Lemma around_tele (h : Q * Q -> Q) vs : around (fun p q => h q - h p) vs == 0.
Proof. destruct vs as [|v vs]; [reflexivity|]. cbn [around app]. rewrite pairs_tele. ring. Qed.
Lemma pairs_scale f c l : pairs (fun p q => c * f p q) l == c * pairs f l.
Proof. induction l as [|a l IH]; [cbn; ring|]. destruct l as [|b l]; [cbn; ring|]. change (c * f a b + pairs (fun p q => c * f p q) (b :: l) == c * (f a b + pairs f (b :: l))). rewrite IH. ring. Qed.
Lemma around_scale f c vs : around (fun p q => c * f p q) vs == c * around f vs.
Proof. destruct vs as [|v vs]; [cbn; ring|]. apply pairs_scale. Qed.
Lemma pairs_rev f l : pairs f (rev l) == pairs (fun p q => f q p) l.
Proof.
  induction l as [|a l IH]; [reflexivity|]. destruct l as [|b l]; [reflexivity|]. cbn [rev] in *. rewrite <- app_assoc. cbn [app]. rewrite pairs_app, IH.
  change (pairs (fun p q => f q p) (b :: l) + (f b a + 0) == f b a + pairs (fun p q => f q p) (b :: l)). ring.
Qed.
Lemma around_rev f vs : around f (rev vs) == around (fun p q => f q p) vs.
Proof.
  destruct vs as [|v vs]; [reflexivity|]. change (rev (v :: vs)) with (rev vs ++ [v]). rewrite around_rotate. cbn [app around]. 
  assert (E : v :: rev vs ++ [v] = rev ((v :: vs) ++ [v])) by (rewrite rev_app_distr; reflexivity). rewrite E, pairs_rev. reflexivity.
Qed.
Lemma pairs_map f h l : pairs f (map h l) = pairs (fun p q => f (h p) (h q)) l.
Proof. induction l as [|a l IH]; [reflexivity|]. destruct l as [|b l]; [reflexivity|]. cbn [map pairs] in *. f_equal. exact IH. Qed.
Lemma around_map f h vs : around f (map h vs) = around (fun p q => f (h p) (h q)) vs.
Proof. destruct vs as [|v vs]; [reflexivity|]. cbn [map around]. rewrite <- (pairs_map f h), map_app. reflexivity. Qed.

(** the term of indexing/geo.py:226 for one edge; specification *)
Definition edge (p q : Q * Q) : Q := (fst q - fst p) * (snd q + snd p).
Lemma fold_Qplus l : forall acc, fold_left Qplus l acc == acc + fold_left Qplus l 0.
Proof. induction l as [|x l IH]; intro acc; cbn [fold_left]; [ring|]. rewrite IH, (IH (0 + x)). ring. Qed.
Lemma edge_terms_pairs l : exists ts, edge_terms Qplus Qminus Qmult (map flat2 l) = Some ts /\ sum_exact ts == pairs edge l.
Proof.
  induction l as [|p l IH]; [exists []; split; reflexivity|]. destruct l as [|q l]; [exists []; split; reflexivity|].
  destruct IH as (ts & E & Es). exists (edge p q :: ts). split; [change (option_map (cons (edge p q)) (edge_terms Qplus Qminus Qmult (map flat2 (q :: l))) = Some (edge p q :: ts)); rewrite E; reflexivity|].
  change (sum_exact (edge p q :: ts) == edge p q + pairs edge (q :: l)). rewrite <- Es. unfold sum_exact. cbn [fold_left]. rewrite fold_Qplus. ring.
Qed.
Lemma edge_sum_ring vs : exists s, edge_sum sum_exact Qplus Qminus Qmult (ring vs) = Some s /\ s == around edge vs.
Proof.
  destruct vs as [|v vs]; [exists 0; split; reflexivity|]. unfold edge_sum. destruct (edge_terms_pairs ((v :: vs) ++ [v])) as (ts & E & Es). exists (sum_exact ts). split; [|exact Es]. cbn [ring]. rewrite E. reflexivity.
Qed.
Lemma edge_cross vs : around edge vs == - around cross vs.
Proof.
  rewrite (around_ext edge (fun p q => (fst q * snd q - fst p * snd p) + (-1) * cross p q)) by (intros p q; unfold edge, cross; ring).
  rewrite around_add, (around_tele (fun p => fst p * snd p)), around_scale. ring.
Qed.
