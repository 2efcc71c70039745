(** Parsing record data for indexing (indexing/parser.py) and rebuilding it (search.py:236-278). *)
From Coq Require Import String Ascii.
From Coq Require Import List ZArith NArith Bool Lia.
From Coq Require Import Floats.SpecFloat.
From Verif Require Import PyVal Time.
Import ListNotations.
Open Scope nat_scope.

(** model.py:116-141 [GeoFieldHint] *)
Record hint := Hint { h_lat : pystr; h_lon : pystr; h_radius : option pystr; h_segments : Z }.
(** model.py:147-170 [ParsingOptions]; a frozenset is given by its elements in iteration order. *)
Record options := Opts { true_values : list pystr; false_values : list pystr; date_formats : list pystr;
                         geo_hints : list hint; keyword_length : Z; float_format : pystr }.

(** The libraries the parser calls, as parameters (any functions).
    [l_lower]: str.lower. [l_format]: [float_format.format(value)] (assumed not to raise; see C97).
    [l_try_float]: fastnumbers.try_float with inf, nan and failures mapped to None.
    [l_strptime]: parse_to_timestamp(string, format), [None] for ValueError
    (other exceptions: see C97).
    [l_wkt], [l_geojson]: match_wkt and match_geojson (indexing/geo.py:116-174), the point and the shape.
    [l_geo_raises]: match_geojson raises an exception (see C66).
    [l_point]: the body of the loop of match_hints (indexing/geo.py:47-76), given longitude, latitude,
    radius (when the hint has a radius field) and segments; [None] when the loop continues. *)
Record lib := Lib {
  l_lower : pystr -> pystr;
  l_format : pystr -> spec_float -> pystr;
  l_try_float : pystr -> option spec_float;
  l_strptime : pystr -> pystr -> option Z;
  l_wkt : pystr -> option (pystr * pystr);
  l_geojson : dict -> option (pystr * pystr);
  l_geo_raises : dict -> bool;
  l_point : value -> value -> option value -> Z -> option (pystr * pystr)
}.

(** indexing/fields.py:54-69 [ParsedType] *)
Definition pt_u := lit "_u"%string.
(** indexing/fields.py:58 *)
Definition pt_n := lit "_n"%string.
(** indexing/fields.py:60 *)
Definition pt_d := lit "_d"%string.
(** indexing/fields.py:62 *)
Definition pt_b := lit "_b"%string.
(** indexing/fields.py:64 *)
Definition pt_t := lit "_t"%string.
(** indexing/fields.py:66 *)
Definition pt_k := lit "_k"%string.
(** indexing/fields.py:68 *)
Definition pt_gp := lit "_gp"%string.
(** indexing/fields.py:70 *)
Definition pt_gs := lit "_gs"%string.

(** indexing/fields.py:111-141 [DataType], [type_for] *)
Definition type_for (v : value) : pystr :=
  match v with
  | VNone => lit "#n"%string | VStr _ => lit "#s"%string | VInt _ => lit "#i"%string | VFloat _ => lit "#f"%string
  | VBool _ => lit "#b"%string | VList _ => lit "#l"%string | VDict _ => lit "#d"%string
  end.

(** the separator in indexing/parser.py:43, 49, 66 *)
Definition dot : N := 46.
(** f"{a}.{b}" (indexing/parser.py:43, 49, 66, 83-84, 94, 101, 116) *)
Definition dotted (a b : pystr) : pystr := a ++ dot :: b.

(** str.rsplit(".", 1); [None] when there is no dot (the result has one element) (indexing/parser.py:43-44, 49-50) *)
Fixpoint rsplit_dot (s : pystr) : option (pystr * pystr) :=
  match s with
  | [] => None
  | c :: r => match rsplit_dot r with
              | Some (a, b) => Some (c :: a, b)
              | None => if N.eqb c dot then Some ([], r) else None
              end
  end.

(** [<=] on str: lexicographic by code point (indexing/parser.py:41, 47) *)
Fixpoint str_leb (a b : pystr) : bool :=
  match a, b with
  | [], _ => true
  | _, [] => false
  | x :: a', y :: b' => if N.eqb x y then str_leb a' b' else N.ltb x y
  end.
(** list.sort on a list of str (indexing/parser.py:41, 47) *)
Fixpoint insert (x : pystr) (l : list pystr) : list pystr :=
  match l with [] => [x] | y :: r => if str_leb x y then x :: l else y :: insert x r end.
(** list.sort of str (indexing/parser.py:41, 47) *)
Fixpoint sort (l : list pystr) : list pystr := match l with [] => [] | x :: r => insert x (sort r) end.
(** itertools.groupby (indexing/parser.py:44, 50) *)
Fixpoint groupby {A} (key : A -> pystr) (l : list A) : list (pystr * list A) :=
  match l with
  | [] => []
  | x :: r =>
      match groupby key r with
      | (k, g) :: gs => if str_eqb (key x) k then (k, x :: g) :: gs else (key x, [x]) :: (k, g) :: gs
      | [] => [(key x, [x])]
      end
  end.
(** ",".join (indexing/parser.py:43, 49) *)
Fixpoint join (sep : N) (l : list pystr) : pystr :=
  match l with [] => [] | [x] => x | x :: r => x ++ sep :: join sep r end.
(** indexing/parser.py:44, 50: [rsplit(".", 1)[0]] *)
Definition path_of (s : pystr) : pystr := match rsplit_dot s with Some (p, _) => p | None => s end.
(** indexing/parser.py:43, 49: [rsplit(".", 1)[1]] *)
Definition type_of (s : pystr) : pystr := match rsplit_dot s with Some (_, t) => t | None => s end.
(** indexing/parser.py:41-51. [rsplit(".", 1)[1]] raises on an element without dots; there are none. *)
Definition compress (types : list pystr) : list pystr :=
  map (fun g => dotted (fst g) (join 44 (map type_of (snd g)))) (groupby path_of (sort types)).

Section MapOpt.
Context {A B : Type} (f : A -> option B).
(** a comprehension in which an exception ([None]) ends the computation (indexing/parser.py:75-94, 119-136) *)
Fixpoint map_opt (l : list A) : option (list B) :=
  match l with
  | [] => Some []
  | x :: r => match f x with None => None | Some y => match map_opt r with None => None | Some ys => Some (y :: ys) end end
  end.
End MapOpt.

Section Parser.
Variable L : lib.
Variable o : options.

(** [str(value)], for floats with the format of the options (indexing/parser.py:155-160) *)
Definition text_of (v : value) : pystr :=
  match v with
  | VStr s => s
  | VInt z => str_int z
  | VBool true => lit "True"%string
  | VBool false => lit "False"%string
  | VFloat f => l_format L (float_format o) f
  | _ => []
  end.
(** [s[:n]] (indexing/parser.py:167) *)
Definition slice_to (n : Z) (s : pystr) : pystr :=
  firstn (Z.to_nat (if (n <? 0)%Z then Z.of_nat (length s) + n else n)) s.
(** [s in l] of str (indexing/parser.py:179, 181) *)
Definition memb (s : pystr) (l : list pystr) : bool := existsb (str_eqb s) l.
(** indexing/geo.py:18-33 [to_parsed_dict] *)
Definition geo_dict (g : pystr * pystr) : dict := [(pt_gp, VStr (fst g)); (pt_gs, VStr (snd g))].
(** indexing/parser.py:192-200: the first format that works *)
Fixpoint first_date (formats : list pystr) (s : pystr) : option Z :=
  match formats with
  | [] => None
  | f :: r => match l_strptime L s f with Some t => Some t | None => first_date r s end
  end.
(** an entry that may be missing (indexing/parser.py:175-200) *)
Definition opt_dict {A} (k : pystr) (f : A -> value) (x : option A) : dict := match x with Some y => [(k, f y)] | None => [] end.
(** indexing/parser.py:175-182: the value under _b *)
Definition bool_of (v : value) : option bool :=
  match v with
  | VBool b => Some b
  | _ => if memb (l_lower L (text_of v)) (true_values o) then Some true
         else if memb (l_lower L (text_of v)) (false_values o) then Some false else None
  end.
(** indexing/parser.py:184-191: the value under _n *)
Definition number_of (v : value) : option value :=
  match v with
  | VInt _ | VFloat _ => Some v
  | _ => match l_try_float L (text_of v) with Some f => Some (VFloat f) | None => None end
  end.
(** indexing/parser.py:143-202 [parse_value], without the cache (see C38). The keys are distinct, so the
    updates append. *)
Definition parse_value (v : value) : dict :=
  let s := text_of v in
  [(pt_u, v); (pt_t, VStr s); (pt_k, VStr (slice_to (keyword_length o) s))]
  ++ match l_wkt L s with Some g => geo_dict g | None => [] end
  ++ opt_dict pt_b VBool (bool_of v)
  ++ opt_dict pt_n (fun x => x) (number_of v)
  ++ opt_dict pt_d VInt (first_date (date_formats o) s).

(** indexing/geo.py:36-78 [match_hints]. [data.get(f, "")] for the fields of the hint. *)
Definition get_or_empty (d : dict) (k : pystr) : value := match dget d k with Some v => v | None => VStr [] end.
(** indexing/geo.py:48-76: one hint *)
Definition hint_match (d : dict) (h : hint) : option (pystr * pystr) :=
  l_point L (get_or_empty d (h_lon h)) (get_or_empty d (h_lat h))
    (match h_radius h with Some r => match r with [] => None | _ => Some (get_or_empty d r) end | None => None end) (h_segments h).
(** indexing/geo.py:36-78 [match_hints]: all hints *)
Fixpoint match_hints (d : dict) (hints : list hint) (matches : list (pystr * (pystr * pystr))) : list (pystr * (pystr * pystr)) :=
  match hints with
  | [] => matches
  | h :: r => match_hints d r (match hint_match d h with Some g => dset matches (h_lat h) g | None => matches end)
  end.
(** indexing/parser.py:96-101; [None]: KeyError or TypeError ([parsed[key]] missing or not a dict) *)
Fixpoint add_hints (parsed : dict) (ms : list (pystr * (pystr * pystr))) : option dict :=
  match ms with
  | [] => Some parsed
  | (k, g) :: r =>
      match dget parsed k with
      | Some (VDict p) => add_hints (dset parsed k (VDict (dupdate p (geo_dict g)))) r
      | _ => None
      end
  end.

(** What a value contributes: the parsed value (if any), data types and parsed types. (indexing/parser.py:75-94) *)
Definition part : Type := option value * list pystr * list pystr.
(** indexing/parser.py:77, 121: [not value] of a dict or list *)
Definition is_empty (v : value) : bool := match v with VDict [] | VList [] => true | _ => false end.
Section Bodies.
Variable nested : value -> option (value * list pystr * list pystr).   (* parse_dict with GeoJSON / parse_list *)
(** indexing/parser.py:75-94, one key *)
Definition parse_entry (k : pystr) (v : value) : option (option value * list pystr * list pystr) :=
  match v with
  | VDict _ | VList _ =>
      if is_empty v then Some (None, [], [])
      else match nested v with
           | None => None
           | Some (p, dts, pts) => Some (Some p, map (dotted k) dts, map (dotted k) pts)
           end
  | VNone => Some (Some (VDict [(pt_u, VNone)]), [], [])
  | VStr [] => Some (Some (VDict [(pt_u, VStr [])]), [], [])
  | _ => let p := parse_value v in Some (Some (VDict p), [], map (dotted k) (dkeys p))
  end.
(** indexing/parser.py:75-94: [parsed[key] = ...] *)
Definition set_part (acc : dict) (kp : pystr * part) : dict :=
  match kp with (k, (Some p, _, _)) => dset acc k p | _ => acc end.
(** indexing/parser.py:83: what is added to data_types *)
Definition part_dts (p : part) : list pystr := snd (fst p).
(** indexing/parser.py:84, 94: what is added to parsed_types *)
Definition part_pts (p : part) : list pystr := snd p.
(** indexing/parser.py:66-103, when match_geojson does not raise *)
Definition dict_rest (check_geojson : bool) (d : dict) : option (dict * list pystr * list pystr) :=
  match map_opt (fun kv => match parse_entry (fst kv) (snd kv) with Some p => Some (fst kv, p) | None => None end) d with
  | None => None
  | Some parts =>
      let geo := if check_geojson then match l_geojson L d with Some g => geo_dict g | None => [] end else [] in
      let ms := match_hints d (geo_hints o) [] in
      match add_hints (fold_left set_part parts geo) ms with
      | None => None
      | Some parsed =>
          Some (parsed,
                map (fun kv => dotted (fst kv) (type_for (snd kv))) d ++ flat_map (fun p => part_dts (snd p)) parts,
                dkeys geo ++ flat_map (fun p => part_pts (snd p)) parts ++ flat_map (fun m => map (dotted (fst m)) [pt_gp; pt_gs]) ms)
      end
  end.
(** indexing/parser.py:56-103 [parse_dict] *)
Definition dict_body (check_geojson : bool) (d : dict) : option (dict * list pystr * list pystr) :=
  if check_geojson && l_geo_raises L d then None else dict_rest check_geojson d.
Lemma dict_body_some chk d r : dict_body chk d = Some r -> dict_rest chk d = Some r.
Proof. unfold dict_body. destruct (chk && l_geo_raises L d); [discriminate|auto]. Qed.
(** indexing/parser.py:120-136, one element *)
Definition parse_element (v : value) : option (value * list pystr * list pystr) :=
  match v with
  | VDict _ | VList _ =>
      if is_empty v then Some (VNone, [], [])
      else match nested v with
           | None => None
           | Some (p, dts, pts) => Some (p, map (dotted []) dts, pts)
           end
  | VNone | VStr [] => Some (VNone, [], [])
  | _ => let p := parse_value v in Some (VDict p, [], dkeys p)
  end.
(** indexing/parser.py:106-138 [parse_list]; the sets are lists without duplicates (their order does not
    matter as the final lists are sorted) *)
Definition list_body (l : list value) : option (list value * list pystr * list pystr) :=
  match map_opt parse_element l with
  | None => None
  | Some ps =>
      Some (map (fun p => fst (fst p)) ps,
            nodup str_eq_dec (map (fun v => dotted [] (type_for v)) l ++ flat_map (fun p => snd (fst p)) ps),
            nodup str_eq_dec (flat_map (fun p => snd p) ps))
  end.
End Bodies.

(** indexing/parser.py:79-82, 123-126: a dict or a list inside of another value *)
Fixpoint parse_nested (v : value) : option (value * list pystr * list pystr) :=
  match v with
  | VDict d => match dict_body parse_nested true d with Some (p, dts, pts) => Some (VDict p, dts, pts) | None => None end
  | VList l => match list_body parse_nested l with Some (p, dts, pts) => Some (VList p, dts, pts) | None => None end
  | _ => None
  end.
(** indexing/parser.py:13-53 [ParsedData], [parse]; [None]: it raises *)
Record parsed_data := PData { p_parsed : dict; p_data_types : list pystr; p_parsed_types : list pystr }.
(** indexing/parser.py:23-53 [parse] *)
Definition parse (d : dict) : option parsed_data :=
  match dict_body parse_nested false d with
  | Some (p, dts, pts) => Some (PData p (compress dts) (compress pts))
  | None => None
  end.
End Parser.

(** search.py:249-278 [rebuild_dict_or_list] *)
Definition starts_underscore (k : pystr) : bool := match k with c :: _ => N.eqb c 95 | [] => false end.
(** search.py:249-278: the names that are kept *)
Definition kept (k : pystr) : bool := negb (starts_underscore k) || str_eqb k (lit "_id"%string).
(** search.py:249-278 [rebuild_dict_or_list] *)
Fixpoint rebuild (v : value) : value :=
  match v with
  | VDict d =>
      match dget d pt_u with
      | Some u => u
      | None => VDict (flat_map (fun kv => if kept (fst kv) then [(fst kv, rebuild (snd kv))] else []) d)
      end
  | VList l => VList (map rebuild l)
  | _ => v
  end.
(** search.py:236-246 [rebuild_data] *)
Definition rebuild_data (d : dict) : dict := map (fun kv => (fst kv, rebuild (snd kv))) d.
