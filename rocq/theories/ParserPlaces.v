(** Where the parser (indexing/parser.py:41-138) puts what it makes of each value of a record. *)
From Coq Require Import String Ascii.
From Coq Require Import List ZArith NArith Bool Lia.
From Verif Require Import PyVal Time Parser ParserProofs ParserTypes ParserOrder ParserEq PropsTotal.
From Verif Require Import EndToEnd.
Import ListNotations.
Open Scope string_scope.
Open Scope list_scope.
Open Scope nat_scope.

(** ** Specification *)
(** A place in nested dicts and lists: the keys and indices that lead to it. *)
Inductive step := Key (k : pystr) | Item (n : nat).
(** specification: the value at a place *)
Fixpoint at_place (p : list step) (v : value) : option value :=
  match p with
  | [] => Some v
  | Key k :: p' => match v with VDict d => match dget d k with Some w => at_place p' w | None => None end | _ => None end
  | Item n :: p' => match v with VList l => match nth_error l n with Some w => at_place p' w | None => None end | _ => None end
  end.

(** ** Proofs *)
Lemma at_app p : forall q v, at_place (p ++ q) v = match at_place p v with Some w => at_place q w | None => None end.
Proof.
  induction p as [|[k|n] p IH]; intros q v; cbn [app at_place]; [reflexivity| |].
  - destruct v as [| | | | | |d]; try reflexivity. destruct (dget d k); [apply IH|reflexivity].
  - destruct v as [| | | | |l|]; try reflexivity. destruct (nth_error l n); [apply IH|reflexivity].
Qed.
Lemma add_hints_exact ms : forall parsed parsed', NoDup (dkeys ms) -> add_hints parsed ms = Some parsed' -> forall k,
  dget parsed' k = match dget ms k with
                   | Some g => match dget parsed k with Some (VDict p) => Some (VDict (dupdate p (geo_dict g))) | x => x end
                   | None => dget parsed k end.
Proof.
  induction ms as [|[k0 g] ms IH]; intros parsed parsed' Hn H k; cbn [add_hints] in H; [injection H as <-; reflexivity|].
  cbn [dkeys map fst] in Hn. inversion Hn as [|? ? N1 N2]; subst. destruct (dget parsed k0) as [[| | | | | |q]|] eqn:E; try discriminate.
  rewrite (IH _ _ N2 H k). cbn [dget]. rewrite dget_dset. destruct (str_eqb k k0) eqn:Ek; [|reflexivity].
  apply str_eqb_eq in Ek. subst k0. assert (En : dget ms k = None) by (apply dget_None; exact N1). rewrite En, E. reflexivity.
Qed.

Section Places.
Variable L : lib.
Hypothesis VP : value_points L.
Variable o : options.
Hypothesis OK : NoDup (map h_lat (geo_hints o)).
Notation nested := (parse_nested L o).

Lemma hints_get e k g : dget (match_hints L e (geo_hints o) []) k = Some g <-> exists h, In h (geo_hints o) /\ h_lat h = k /\ hint_gives L e h g.
Proof.
  rewrite match_hints_flat by exact OK. cbn [app]. revert OK. generalize (geo_hints o). induction l as [|h l IH]; intro Hn; cbn [flat_map map] in *; [split; [discriminate|intros (h & [] & _)]|].
  inversion Hn as [|? ? N1 N2]; subst. specialize (IH N2).
  assert (No : h_lat h = k -> dget (flat_map (fun h => match hint_match L e h with Some g => [(h_lat h, g)] | None => [] end) l) k = None).
  { intros <-. apply dget_None. intro K. apply N1. unfold dkeys in K. apply in_map_iff in K. destruct K as ([k' g'] & E & K). cbn in E. subst k'. apply in_flat_map in K. destruct K as (h' & K1 & K2). destruct (hint_match L e h'); [|destruct K2]. destruct K2 as [K2|[]]. injection K2 as <- _. apply in_map, K1. }
  destruct (hint_match L e h) as [g0|] eqn:E; cbn [app dget].
  - destruct (str_eqb k (h_lat h)) eqn:Ek.
    + apply str_eqb_eq in Ek. split.
      * intro Q. injection Q as ->. exists h. split; [left; reflexivity|]. split; [auto|]. apply hint_match_gives, E.
      * intros (h' & [<-|K1] & K2 & K3); [apply hint_match_gives in K3; congruence|]. exfalso. apply N1. rewrite <- Ek, <- K2. apply in_map, K1.
    + apply str_eqb_neq in Ek. rewrite IH. split; [intros (h' & K1 & K2); exists h'; split; [right; exact K1|exact K2]|]. intros (h' & [<-|K1] & K2 & K3); [congruence|eauto].
  - rewrite IH. split; [intros (h' & K1 & K2); exists h'; split; [right; exact K1|exact K2]|]. intros (h' & [<-|K1] & K2 & K3); [|eauto]. apply hint_match_gives in K3. congruence.
Qed.
Lemma hints_value chk e w k g : NoDup (dkeys e) -> dict_body L o nested chk e = Some w -> dget (match_hints L e (geo_hints o) []) k = Some g -> exists v, dget e k = Some v /\ parsed_as_value v.
Proof.
  intros Hn Hb H. apply dget_In in H. apply (in_map fst) in H. cbn [fst] in H. apply match_hints_keys in H. destruct H as [[]|(h & Hh & <- & H)]. pose proof H as Hw. apply hint_match_works in H. rename H into Q. unfold hint_match in Q. apply VP in Q. unfold get_or_empty in *.
  destruct (dget e (h_lat h)) as [v|] eqn:Ev; [|contradiction]. exists v. split; [reflexivity|]. destruct v as [| | | |[|]|l|]; try exact I; try (destruct Q; fail). exfalso.
  pose proof (dict_none L o nested chk e Hn (fun k v _ => nested_alike L o v)) as D. rewrite Hb in D. assert (Z : Some w = None); [|discriminate Z]. apply D. right. left. exists h. split; [exact Hh|]. split; [exact Hw|]. right. left. eauto.
Qed.

(** indexing/parser.py:69-73: the entries for GeoJSON *)
Definition geo_of (chk : bool) (e : dict) : dict := if chk then match l_geojson L e with Some g => geo_dict g | None => [] end else [].
(** the dict made of a dict *)
Lemma dict_get chk e pe dts pts : NoDup (dkeys e) -> dict_body L o nested chk e = Some (pe, dts, pts) -> forall k,
  dget pe k =
  match dget e k with
  | None => dget (geo_of chk e) k
  | Some v =>
      match parse_entry L o nested k v with
      | Some (Some q, _, _) => match dget (match_hints L e (geo_hints o) []) k, q with Some g, VDict p => Some (VDict (dupdate p (geo_dict g))) | _, _ => Some q end
      | _ => dget (geo_of chk e) k
      end
  end.
Proof.
  intros Hn H k. pose proof H as Hb. apply dict_body_some in H. unfold dict_rest in H. destruct (map_opt _ e) as [parts|] eqn:Ep; [|discriminate]. fold (geo_of chk e) in H.
  destruct (add_hints _ _) as [w|] eqn:Ea; [|discriminate]. injection H as <- _ _. apply map_opt_F2 in Ep.
  assert (Ek : map fst parts = dkeys e) by (exact (ParserSim.parts_keys L o nested e parts Ep)).
  assert (Hnp : NoDup (map fst parts)) by (rewrite Ek; exact Hn).
  pose proof (add_hints_exact _ _ _ (match_hints_nodup L e (geo_hints o) [] (NoDup_nil _)) Ea k) as G. rewrite (fold_parts_get parts k _ Hnp) in G. rewrite G.
  assert (Gp : dget parts k = match dget e k with Some v => parse_entry L o nested k v | None => None end).
  { clear - Ep. induction Ep as [|[k0 v0] y e parts E _ IH]; [reflexivity|]. cbn [fst snd] in E. cbn [dget]. destruct (parse_entry L o nested k0 v0) as [p|] eqn:E0; [|discriminate]. injection E as <-. cbn [dget].
    destruct (str_eqb k k0) eqn:Ek; [apply str_eqb_eq in Ek; subst k0; symmetry; exact E0|exact IH]. }
  unfold part in *. rewrite Gp. destruct (dget e k) as [v|] eqn:Ev.
  - destruct (parse_entry L o nested k v) as [[[[q|] d1] p1]|].
    + destruct (dget (match_hints L e (geo_hints o) []) k) as [g|]; [destruct q; reflexivity|reflexivity].
    + destruct (dget (match_hints L e (geo_hints o) []) k) as [g|] eqn:Eg; [|reflexivity]. destruct (dget (geo_of chk e) k) as [x|] eqn:Ex; [|reflexivity].
      unfold geo_of in Ex. destruct chk; [|discriminate]. destruct (l_geojson L e) as [g'|]; [|discriminate]. cbn [geo_dict dget] in Ex. destruct (str_eqb k pt_gp); [injection Ex as <-; reflexivity|]. destruct (str_eqb k pt_gs); [injection Ex as <-; reflexivity|discriminate].
    + destruct (dget (match_hints L e (geo_hints o) []) k) as [g|] eqn:Eg; [|reflexivity]. destruct (dget (geo_of chk e) k) as [x|] eqn:Ex; [|reflexivity].
      unfold geo_of in Ex. destruct chk; [|discriminate]. destruct (l_geojson L e) as [g'|]; [|discriminate]. cbn [geo_dict dget] in Ex. destruct (str_eqb k pt_gp); [injection Ex as <-; reflexivity|]. destruct (str_eqb k pt_gs); [injection Ex as <-; reflexivity|discriminate].
  - destruct (dget (match_hints L e (geo_hints o) []) k) as [g|] eqn:Eg; [|reflexivity]. destruct (hints_value chk e _ k g Hn Hb Eg) as (v & Q & _). congruence.
Qed.
Lemma list_nth l m dts pts : list_body L o nested l = Some (m, dts, pts) -> length m = length l /\ forall n v, nth_error l n = Some v ->
  exists q d1 p1, nth_error m n = Some q /\ parse_element L o nested v = Some (q, d1, p1).
Proof.
  unfold list_body. destruct (map_opt _ l) as [ps|] eqn:E; [|discriminate]. intro H. injection H as <- _ _. apply map_opt_F2 in E. split; [rewrite map_length; clear -E; induction E; cbn [length]; congruence|].
  induction E as [|v0 y l ps E0 _ IH]; intros n v Hn; [destruct n; discriminate|]. destruct n as [|n]; cbn [nth_error map] in *.
  - injection Hn as ->. destruct y as [[q d1] p1]. exists q, d1, p1. auto.
  - apply IH, Hn.
Qed.
Lemma entries_parsed chk e pe dts pts k v : dict_body L o nested chk e = Some (pe, dts, pts) -> dget e k = Some v -> exists q, parse_entry L o nested k v = Some q.
Proof.
  intro H. apply dict_body_some in H. revert H. unfold dict_rest. destruct (map_opt _ e) as [parts|] eqn:Ep; [|discriminate]. intros _ Hk. apply map_opt_F2 in Ep. apply dget_In in Hk. induction Ep as [|[k0 v0] y e parts E _ IH]; [destruct Hk|]. destruct Hk as [Hk|Hk]; [|exact (IH Hk)].
  injection Hk as -> ->. cbn [fst snd] in E. destruct (parse_entry L o nested k v) as [p|]; [eauto|discriminate].
Qed.

(** the result for the container at a place *)
Definition result (chk : bool) (x y : value) : Prop :=
  match x with
  | VDict e => exists pe dts pts, y = VDict pe /\ dict_body L o nested chk e = Some (pe, dts, pts)
  | VList l => exists m dts pts, y = VList m /\ list_body L o nested l = Some (m, dts, pts)
  | _ => False
  end.
Lemma nested_result v w dts pts : nested v = Some (w, dts, pts) -> result true v w.
Proof.
  destruct v; try discriminate; cbn [parse_nested result].
  - destruct (list_body L o nested l) as [[[m d1] p1]|]; [|discriminate]. intro Q. injection Q as <- <- <-. eauto.
  - destruct (dict_body L o nested true d) as [[[m d1] p1]|]; [|discriminate]. intro Q. injection Q as <- <- <-. eauto.
Qed.
Lemma entry_container chk e pe dts pts k v : NoDup (dkeys e) -> dict_body L o nested chk e = Some (pe, dts, pts) -> dget e k = Some v -> container v = true -> is_empty v = false ->
  exists q, dget pe k = Some q /\ result true v q.
Proof.
  intros Hn H Hk Hc He. destruct (entries_parsed chk e pe dts pts k v H Hk) as (q & Hq). pose proof (dict_get chk e pe dts pts Hn H k) as G. rewrite Hk, Hq in G.
  assert (Nh : dget (match_hints L e (geo_hints o) []) k = None).
  { destruct (dget (match_hints L e (geo_hints o) []) k) as [g|] eqn:Eg; [|reflexivity]. destruct (hints_value chk e _ k g Hn H Eg) as (v' & Q1 & Q2). rewrite Hk in Q1. injection Q1 as <-. destruct v; try discriminate Hc; destruct Q2. }
  rewrite Nh in G. assert (Q : exists w d1 p1, q = (Some w, map (dotted k) d1, map (dotted k) p1) /\ nested v = Some (w, d1, p1)).
  { destruct v as [| | | | |l|d]; try discriminate Hc; unfold parse_entry in Hq; rewrite He in Hq; (destruct (nested _) as [[[w d1] p1]|]; [|discriminate]); injection Hq as <-; eauto. }
  destruct Q as (w & d1 & p1 & -> & Q). exists w. split; [exact G|]. exact (nested_result v w d1 p1 Q).
Qed.
Lemma element_container l m dts pts n v : list_body L o nested l = Some (m, dts, pts) -> nth_error l n = Some v -> container v = true -> is_empty v = false ->
  exists q, nth_error m n = Some q /\ result true v q.
Proof.
  intros H Hn Hc He. destruct (list_nth l m dts pts H) as [_ G]. destruct (G n v Hn) as (q & d1 & p1 & G1 & G2). exists q. split; [exact G1|].
  destruct v as [| | | | |l'|d]; try discriminate Hc; unfold parse_element in G2; rewrite He in G2; (destruct (nested _) as [[[w d2] p2]|] eqn:E; [|discriminate]); injection G2 as <- _ _; exact (nested_result _ _ _ _ E).
Qed.
Lemma inside_nonempty p v x : at_place p v = Some x -> container x = true -> is_empty x = false -> container v = true /\ is_empty v = false.
Proof.
  destruct p as [|[k|n] p]; cbn [at_place]; intros H Hc He; [injection H as ->; auto| |].
  - destruct v as [| | | | | |[|]]; try discriminate; split; reflexivity.
  - destruct v as [| | | | |[|y l]|]; try discriminate; [destruct n; discriminate|]. split; reflexivity.
Qed.
Lemma place_nested p : forall chk v w, wf v -> result chk v w -> forall x, at_place p v = Some x -> container x = true -> (p = [] \/ is_empty x = false) ->
  exists y, at_place p w = Some y /\ result (match p with [] => chk | _ => true end) x y /\ wf x.
Proof.
  induction p as [|s p IH]; intros chk v w W R x Hx Hc He.
  - cbn [at_place] in *. injection Hx as <-. eauto.
  - destruct He as [He|He]; [discriminate|]. destruct s as [k|n]; cbn [at_place] in Hx.
    + destruct v as [| | | | | |d]; try discriminate. cbn [result] in R. destruct R as (pe & dts & pts & -> & R). destruct (dget d k) as [v'|] eqn:Ev; [|discriminate].
      apply wf_dict in W. destruct W as [W1 W2]. destruct (inside_nonempty p v' x Hx Hc He) as [C1 C2]. destruct (entry_container chk d pe dts pts k v' W1 R Ev C1 C2) as (q & Q1 & Q2).
      rewrite Forall_forall in W2. pose proof (W2 _ (dget_In _ _ _ Ev)) as W'. cbn [snd] in W'. destruct (IH true v' q W' Q2 x Hx Hc (or_intror He)) as (y & Y1 & Y2 & Y3). exists y. cbn [at_place]. rewrite Q1. split; [exact Y1|]. split; [|exact Y3]. destruct p; exact Y2.
    + destruct v as [| | | | |l|]; try discriminate. cbn [result] in R. destruct R as (m & dts & pts & -> & R). destruct (nth_error l n) as [v'|] eqn:Ev; [|discriminate].
      apply wf_list in W. destruct (inside_nonempty p v' x Hx Hc He) as [C1 C2]. destruct (element_container l m dts pts n v' R Ev C1 C2) as (q & Q1 & Q2).
      rewrite Forall_forall in W. pose proof (W _ (nth_error_In _ _ Ev)) as W'. destruct (IH true v' q W' Q2 x Hx Hc (or_intror He)) as (y & Y1 & Y2 & Y3). exists y. cbn [at_place]. rewrite Q1. split; [exact Y1|]. split; [|exact Y3]. destruct p; exact Y2.
Qed.
Lemma parse_result d r : parse L o d = Some r -> result false (VDict d) (VDict (p_parsed r)).
Proof.
  unfold parse. destruct (dict_body L o nested false d) as [[[pe dts] pts]|] eqn:E; [|discriminate]. intro Q. injection Q as <-. cbn [p_parsed result]. eauto.
Qed.
(** the dict and the list at a place *)
Lemma place_dict d r p e : wfd d -> parse L o d = Some r -> at_place p (VDict d) = Some (VDict e) -> (p = [] \/ e <> []) ->
  exists pe dts pts, at_place p (VDict (p_parsed r)) = Some (VDict pe) /\ NoDup (dkeys e) /\
    dict_body L o nested (match p with [] => false | _ => true end) e = Some (pe, dts, pts).
Proof.
  intros W H Hp He. destruct (place_nested p false _ _ W (parse_result d r H) _ Hp eq_refl) as (y & Y1 & Y2 & Y3); [destruct He as [He|He]; [left; exact He|right; destruct e; [contradiction|reflexivity]]|].
  cbn [result] in Y2. destruct Y2 as (pe & dts & pts & -> & Y2). apply wf_dict in Y3. exists pe, dts, pts. split; [exact Y1|]. split; [exact (proj1 Y3)|exact Y2].
Qed.
Lemma place_list d r p l : wfd d -> parse L o d = Some r -> at_place p (VDict d) = Some (VList l) -> l <> [] ->
  exists m dts pts, at_place p (VDict (p_parsed r)) = Some (VList m) /\ list_body L o nested l = Some (m, dts, pts).
Proof.
  intros W H Hp He. destruct (place_nested p false _ _ W (parse_result d r H) _ Hp eq_refl) as (y & Y1 & Y2 & Y3); [right; destruct l; [contradiction|reflexivity]|].
  cbn [result] in Y2. destruct Y2 as (m & dts & pts & -> & Y2). eauto.
Qed.
End Places.
