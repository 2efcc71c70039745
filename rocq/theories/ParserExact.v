(** Parse results that Python considers equal are identical when the scalars of the data are equal only if
    identical: the other fields made of a value follow from the value and the kind of field. *)
From Coq Require Import String Ascii.
From Coq Require Import List ZArith NArith Bool Lia.
From Verif Require Import PyVal DiffProofs Time MongoProofs MongoStore SyncBuild Parser ParserProofs ParserTypes ParserOrder ParserEq PropsTotal ParserSim.
From Verif Require Import EndToEnd ParserPlaces.
Import ListNotations.
Open Scope string_scope.
Open Scope list_scope.
Open Scope nat_scope.

Lemma eqb_dict a b : wf (VDict a) -> wf (VDict b) -> py_eqb (VDict a) (VDict b) = true -> forall k, orel (fun x y => py_eqb x y = true) (dget a k) (dget b k).
Proof.
  intros Wa Wb E k. pose proof (py_eqb_veq _ _ Wa Wb E) as V. inversion V as [? ? Q| |? ? H1 H2]; subst; [discriminate|]. specialize (H1 k).
  apply py_eqb_iff in E; [|exact Wa|exact Wb]. destruct E as [E1 _]. cbn [nan_free] in E1. rewrite forallb_forall in E1.
  destruct (dget a k) as [x|] eqn:Ex, (dget b k) as [y|] eqn:Ey; cbn [orel]; try exact I; try (destruct H1 as [H1 H1']; try discriminate (H1 eq_refl); discriminate (H1' eq_refl)).
  apply veq_py_eqb; [exact (wf_dget _ _ _ Wa Ex)|exact (wf_dget _ _ _ Wb Ey)|exact (E1 _ (dget_In _ _ _ Ex))|exact (H2 k x y Ex Ey)].
Qed.

Section Exact.
Variable L : lib.
Hypothesis VP : value_points L.
Variable S : value -> Prop.
Hypothesis HS : type_exact S.

(** the kind of value in a sub-field *)
Definition field_kind (t : pystr) (y : value) : Prop :=
  if str_eqb t pt_b then exists b, y = VBool b else if str_eqb t pt_d then exists z, y = VInt z else exists s, y = VStr s.
(** specification or proof device; models no code of its own *)
Definition leaf (o : options) (v : value) (f : dict) : Prop :=
  is_scalar v = true /\ S v /\ dget f pt_u = Some v /\ (dget f pt_n = None \/ dget f pt_n = number_of L o v) /\
  forall t y, dget f t = Some y -> t <> pt_u -> t <> pt_n -> field_kind t y.
(** specification or proof device; models no code of its own *)
Inductive made (o : options) : value -> value -> Prop :=
| made_none x : made o x VNone
| made_geo x s : made o x (VStr s)
| made_leaf x v f : leaf o v f -> made o x (VDict f)
| made_nested x q dts pts : parse_nested L o x = Some (q, dts, pts) -> made o x q.

Lemma number_any o o' v : is_scalar v = true -> number_of L o v = number_of L o' v.
Proof. destruct v; reflexivity. Qed.
Lemma kind_exact t x y : field_kind t x -> field_kind t y -> py_eqb x y = true -> x = y.
Proof.
  unfold field_kind. destruct (str_eqb t pt_b); [|destruct (str_eqb t pt_d)]; intros (a & ->) (b & ->) E; rewrite py_eqb_scalar in E by reflexivity.
  - destruct a, b; try reflexivity; discriminate.
  - f_equal. unfold scalar_eqb, num_of, num_eqb in E. apply QArith_base.Qeq_bool_iff in E. unfold QArith_base.Qeq in E. cbn in E. lia.
  - f_equal. apply str_eqb_eq. exact E.
Qed.
Lemma leaf_exact o o' v v' f f' : leaf o v f -> leaf o' v' f' -> wf (VDict f) -> wf (VDict f') -> py_eqb (VDict f) (VDict f') = true -> vident (VDict f) (VDict f').
Proof.
  intros (A1 & A2 & A3 & A4 & A5) (B1 & B2 & B3 & B4 & B5) Wf Wf' E. pose proof (eqb_dict f f' Wf Wf' E) as G.
  assert (Ev : v = v'). { specialize (G pt_u). rewrite A3, B3 in G. cbn [orel] in G. rewrite py_eqb_scalar in G by assumption. exact (HS v v' A2 B2 G). }
  subst v'. apply vident_dict. intro k. specialize (G k). destruct (dget f k) as [x|] eqn:Ex, (dget f' k) as [y|] eqn:Ey; cbn [orel] in *; try contradiction; [|exact I].
  assert (Exy : x = y); [|subst y; apply vident_refl].
  destruct (str_eqb k pt_u) eqn:K1; [apply str_eqb_eq in K1; subst k; congruence|]. destruct (str_eqb k pt_n) eqn:K2.
  - apply str_eqb_eq in K2. subst k. destruct A4 as [A4|A4]; [congruence|]. destruct B4 as [B4|B4]; [congruence|]. rewrite (number_any o o' v A1) in A4. congruence.
  - apply str_eqb_neq in K1, K2. exact (kind_exact k x y (A5 k x Ex K1 K2) (B5 k y Ey K1 K2) G).
Qed.
Lemma geo_kinds g t y : In (t, y) (geo_dict g) -> field_kind t y.
Proof. intros [H|[H|[]]]; injection H as <- <-; cbn; eauto. Qed.
Lemma value_kinds o v t y : dget (parse_value L o v) t = Some y -> t <> pt_u -> t <> pt_n -> field_kind t y.
Proof.
  intros H N1 N2. apply dget_In in H. unfold parse_value in H. rewrite !in_app_iff in H. destruct H as [H|[H|[H|[H|H]]]].
  - destruct H as [H|[H|[H|[]]]]; injection H as <- <-; [contradiction|cbn; eauto|cbn; eauto].
  - destruct (l_wkt L _) as [g|]; [exact (geo_kinds g t y H)|destruct H].
  - destruct (bool_of L o v); [|destruct H]. destruct H as [H|[]]. injection H as <- <-. cbn. eauto.
  - destruct (number_of L o v); [|destruct H]. destruct H as [H|[]]. injection H as <- <-. contradiction.
  - destruct (first_date L _ _); [|destruct H]. destruct H as [H|[]]. injection H as <- <-. cbn. eauto.
Qed.
Lemma value_n o v : dget (parse_value L o v) pt_n = number_of L o v.
Proof. unfold parse_value. destruct (l_wkt L _), (bool_of L o v), (number_of L o v), (first_date L _ _); reflexivity. Qed.
Lemma leaf_value o v : parsed_as_value v -> S v -> leaf o v (parse_value L o v).
Proof.
  intros Hv Hs. split; [destruct v; try contradiction; reflexivity|]. split; [exact Hs|]. split; [reflexivity|]. split; [right; apply value_n|]. intros t y. apply value_kinds.
Qed.
Lemma leaf_geo o v f g : leaf o v f -> leaf o v (dupdate f (geo_dict g)).
Proof.
  intros (A1 & A2 & A3 & A4 & A5). assert (G : forall t, dget (dupdate f (geo_dict g)) t = match dget (geo_dict g) t with Some y => Some y | None => dget f t end) by (intro t; apply dget_dupdate; repeat constructor; cbn; intuition discriminate).
  split; [exact A1|]. split; [exact A2|]. split; [rewrite G; exact A3|]. split; [rewrite G; exact A4|]. intros t y H N1 N2. rewrite G in H. destruct (dget (geo_dict g) t) as [y'|] eqn:E; [injection H as <-; apply (geo_kinds g), dget_In, E|exact (A5 t y H N1 N2)].
Qed.
Lemma leaf_blank o v : v = VNone \/ v = VStr [] -> S v -> leaf o v [(pt_u, v)].
Proof.
  intros Hv Hs. split; [destruct Hv as [-> | ->]; reflexivity|]. split; [exact Hs|]. split; [reflexivity|]. split; [left; reflexivity|]. intros t y H N1 _. cbn [dget] in H. destruct (str_eqb t pt_u) eqn:E; [apply str_eqb_eq in E; contradiction|discriminate].
Qed.
Lemma element_made o v q dts pts : (is_scalar v = true -> S v) -> parse_element L o (parse_nested L o) v = Some (q, dts, pts) -> made o v q.
Proof.
  intros Hs H. destruct v as [|b|z|f|[|c s]|l|e]; cbn [parse_element] in H.
  - injection H as <- _ _. apply made_none.
  - injection H as <- _ _. exact (made_leaf o _ _ _ (leaf_value o (VBool b) I (Hs eq_refl))).
  - injection H as <- _ _. exact (made_leaf o _ _ _ (leaf_value o (VInt z) I (Hs eq_refl))).
  - injection H as <- _ _. exact (made_leaf o _ _ _ (leaf_value o (VFloat f) I (Hs eq_refl))).
  - injection H as <- _ _. apply made_none.
  - injection H as <- _ _. exact (made_leaf o _ _ _ (leaf_value o (VStr (c :: s)) I (Hs eq_refl))).
  - destruct (is_empty (VList l)); [injection H as <- _ _; apply made_none|]. destruct (parse_nested L o (VList l)) as [[[w d1] p1]|] eqn:E; [|discriminate]. injection H as <- _ _. exact (made_nested o _ _ _ _ E).
  - destruct (is_empty (VDict e)); [injection H as <- _ _; apply made_none|]. destruct (parse_nested L o (VDict e)) as [[[w d1] p1]|] eqn:E; [|discriminate]. injection H as <- _ _. exact (made_nested o _ _ _ _ E).
Qed.
Lemma geo_of_made o chk e k q : dget (geo_of L chk e) k = Some q -> forall x, made o x q.
Proof.
  intros H x. unfold geo_of in H. destruct chk; [|discriminate]. destruct (l_geojson L e) as [g|]; [|discriminate]. apply dget_In in H. destruct H as [H|[H|[]]]; injection H as _ <-; apply made_geo.
Qed.
(** the entries of a result *)
Lemma dict_made o chk e pe dts pts : NoDup (dkeys e) -> (forall k v, dget e k = Some v -> is_scalar v = true -> S v) ->
  dict_body L o (parse_nested L o) chk e = Some (pe, dts, pts) -> forall k q, dget pe k = Some q -> exists x, (dget e k = Some x \/ x = VNone) /\ made o x q.
Proof.
  intros Hn Hs H k q Hq. rewrite (dict_get L VP o chk e pe dts pts Hn H k) in Hq. destruct (dget e k) as [v|] eqn:Ev.
  2: { exists VNone. split; [right; reflexivity|]. exact (geo_of_made o chk e k q Hq VNone). }
  exists v. split; [left; reflexivity|]. specialize (Hs k v Ev). destruct (parse_entry L o (parse_nested L o) k v) as [[[[w|] d1] p1]|] eqn:Ep; try exact (geo_of_made o chk e k q Hq v).
  assert (Hw : made o v w /\ (parsed_as_value v -> exists f, w = VDict f /\ leaf o v f)).
  { destruct v as [|b|z|f|[|c s]|l|e']; cbn [parse_entry] in Ep.
    - injection Ep as <- _ _. split; [|intros []]. exact (made_leaf o _ _ _ (leaf_blank o _ (or_introl eq_refl) (Hs eq_refl))).
    - injection Ep as <- _ _. pose proof (leaf_value o (VBool b) I (Hs eq_refl)) as Lf. split; [exact (made_leaf o _ _ _ Lf)|intros _; eauto].
    - injection Ep as <- _ _. pose proof (leaf_value o (VInt z) I (Hs eq_refl)) as Lf. split; [exact (made_leaf o _ _ _ Lf)|intros _; eauto].
    - injection Ep as <- _ _. pose proof (leaf_value o (VFloat f) I (Hs eq_refl)) as Lf. split; [exact (made_leaf o _ _ _ Lf)|intros _; eauto].
    - injection Ep as <- _ _. split; [|intros []]. exact (made_leaf o _ _ _ (leaf_blank o _ (or_intror eq_refl) (Hs eq_refl))).
    - injection Ep as <- _ _. pose proof (leaf_value o (VStr (c :: s)) I (Hs eq_refl)) as Lf. split; [exact (made_leaf o _ _ _ Lf)|intros _; eauto].
    - split; [|intros []]. destruct (is_empty (VList l)); [discriminate|]. destruct (parse_nested L o (VList l)) as [[[w' d2] p2]|] eqn:E; [|discriminate]. injection Ep as <- _ _. exact (made_nested o _ _ _ _ E).
    - split; [|intros []]. destruct (is_empty (VDict e')); [discriminate|]. destruct (parse_nested L o (VDict e')) as [[[w' d2] p2]|] eqn:E; [|discriminate]. injection Ep as <- _ _. exact (made_nested o _ _ _ _ E). }
  destruct Hw as [Hw1 Hw2]. destruct (dget (match_hints L e (geo_hints o) []) k) as [g|] eqn:Eg; [|injection Hq as <-; exact Hw1].
  destruct (hints_value L VP o chk e _ k g Hn H Eg) as (v' & K1 & K2). rewrite Ev in K1. injection K1 as <-. destruct (Hw2 K2) as (f & -> & Lf). injection Hq as <-. exact (made_leaf o _ _ _ (leaf_geo o v f g Lf)).
Qed.
Lemma nested_no_u o e q dts pts : fine (VDict e) -> wf (VDict e) -> parse_nested L o (VDict e) = Some (q, dts, pts) -> exists pe, q = VDict pe /\ dget pe pt_u = None.
Proof.
  intros F W H. cbn [parse_nested] in H. destruct (dict_body L o (parse_nested L o) true e) as [[[pe d1] p1]|] eqn:E; [|discriminate]. injection H as <- _ _. exists pe. split; [reflexivity|].
  apply wf_dict in W. rewrite (dict_get L VP o true e pe d1 p1 (proj1 W) E pt_u). destruct (dget e pt_u) as [v|] eqn:Ev.
  - pose proof (fine_get e F pt_u v Ev) as [K _]. discriminate K.
  - unfold geo_of. destruct (l_geojson L e); reflexivity.
Qed.
Lemma nested_list o l q dts pts : parse_nested L o (VList l) = Some (q, dts, pts) -> exists m, q = VList m /\ length m = length l /\
  forall n v, nth_error l n = Some v -> exists w d1 p1, nth_error m n = Some w /\ parse_element L o (parse_nested L o) v = Some (w, d1, p1).
Proof.
  cbn [parse_nested]. destruct (list_body L o (parse_nested L o) l) as [[[m d1] p1]|] eqn:E; [|discriminate]. intro H. injection H as <- _ _. exists m. split; [reflexivity|]. exact (list_nth L o l m d1 p1 E).
Qed.
Lemma nested_kind o x q dts pts : parse_nested L o x = Some (q, dts, pts) -> match x with VDict _ => exists pe, q = VDict pe | VList _ => exists m, q = VList m | _ => False end.
Proof.
  intro H. destruct x; try discriminate H.
  - destruct (nested_list o _ q dts pts H) as (m & -> & _). eauto.
  - cbn [parse_nested] in H. destruct (dict_body L o (parse_nested L o) true d) as [[[pe d1] p1]|]; [|discriminate]. injection H as <- _ _. eauto.
Qed.
(** specification or proof device; models no code of its own *)
Definition good_in (x : value) : Prop := wf x /\ fine x /\ scalars_in S x.
Lemma made_exact o o' a : (forall b p q d1 p1 d2 p2, good_in b -> parse_nested L o a = Some (p, d1, p1) -> parse_nested L o' b = Some (q, d2, p2) -> py_eqb p q = true -> vident p q) ->
  good_in a -> forall b p q, good_in b -> made o a p -> made o' b q -> wf p -> wf q -> py_eqb p q = true -> vident p q.
Proof.
  intros IH Ga b p q Gb Hp Hq Wp Wq E. inversion Hp as [x|x s|x v f Lf|x p' d1 p1 Np]; subst.
  - destruct q; try discriminate E. apply vident_refl.
  - destruct q as [| | | |s'| |]; try discriminate E. cbn in E. apply str_eqb_eq in E. subst s'. apply vident_refl.
  - inversion Hq as [y|y s|y v' f' Lf'|y q' d2 p2 Nq]; subst; try discriminate E.
    + exact (leaf_exact o o' v v' f f' Lf Lf' Wp Wq E).
    + pose proof (nested_kind o' b q d2 p2 Nq) as K. destruct b as [| | | | |l|e]; try contradiction; [destruct K as (m & ->); discriminate|]. exfalso.
      destruct Gb as (G1 & G2 & _). destruct (nested_no_u o' e q d2 p2 G2 G1 Nq) as (pe & -> & U). pose proof (eqb_dict f pe Wp Wq E pt_u) as Q. destruct Lf as (_ & _ & Lf & _). rewrite Lf, U in Q. exact Q.
  - inversion Hq as [y|y s|y v' f' Lf'|y q' d2 p2 Nq]; subst.
    + destruct p; try discriminate E. apply vident_refl.
    + destruct p as [| | | |s'| |]; try discriminate E. cbn in E. apply str_eqb_eq in E. subst s'. apply vident_refl.
    + pose proof (nested_kind o a p d1 p1 Np) as K. destruct a as [| | | | |l|e]; try contradiction; [destruct K as (m & ->); discriminate|]. exfalso.
      destruct Ga as (G1 & G2 & _). destruct (nested_no_u o e p d1 p1 G2 G1 Np) as (pe & -> & U). pose proof (eqb_dict pe f' Wp Wq E pt_u) as Q. destruct Lf' as (_ & _ & Lf & _). rewrite Lf, U in Q. exact Q.
    + exact (IH b p q d1 p1 d2 p2 Gb Np Nq E).
Qed.
(** specification or proof device; models no code of its own *)
Definition both_exact (a : value) : Prop := forall o o' b p q d1 p1 d2 p2, good_in a -> good_in b ->
  parse_nested L o a = Some (p, d1, p1) -> parse_nested L o' b = Some (q, d2, p2) -> py_eqb p q = true -> vident p q.
Lemma good_elem l v : good_in (VList l) -> In v l -> good_in v.
Proof.
  intros (G1 & G2 & G3) Hv. apply wf_list in G1. apply fine_list in G2. rewrite Forall_forall in G1, G2. rewrite scalars_list in G3. split; [exact (G1 v Hv)|]. split; [exact (G2 v Hv)|exact (G3 v Hv)].
Qed.
Lemma scalar_good v : good_in v -> is_scalar v = true -> S v.
Proof. intros (_ & _ & G) H. exact (proj1 (scalars_one S v H) G). Qed.
(** dicts of which the values are good *)
Definition good_entries (d : dict) : Prop := wfd d /\ forall k v, dget d k = Some v -> good_in v.
Lemma dict_exact o o' chk d e pd pe d1 p1 d2 p2 : (forall k v, dget d k = Some v -> both_exact v) -> good_entries d -> good_entries e ->
  dict_body L o (parse_nested L o) chk d = Some (pd, d1, p1) -> dict_body L o' (parse_nested L o') chk e = Some (pe, d2, p2) -> py_eqb (VDict pd) (VDict pe) = true -> vident (VDict pd) (VDict pe).
Proof.
  intros IH [Wd Gd] [We Ge] Hd He E. pose proof (proj1 (wf_dict d) Wd) as [Nd _]. pose proof (proj1 (wf_dict e) We) as [Ne _].
  assert (Wpd : wfd pd) by (refine (dict_wf L o chk d pd d1 p1 _ Wd Hd); apply Forall_forall; intros kv _; apply nested_wf_all).
  assert (Wpe : wfd pe) by (refine (dict_wf L o' chk e pe d2 p2 _ We He); apply Forall_forall; intros kv _; apply nested_wf_all).
  pose proof (eqb_dict pd pe Wpd Wpe E) as G. apply vident_dict. intro k. specialize (G k). destruct (dget pd k) as [p|] eqn:Ep, (dget pe k) as [q|] eqn:Eq; cbn [orel] in *; try contradiction; [|exact I].
  destruct (dict_made o chk d pd d1 p1 Nd (fun k v Hk => scalar_good v (Gd k v Hk)) Hd k p Ep) as (a & A1 & A2).
  destruct (dict_made o' chk e pe d2 p2 Ne (fun k v Hk => scalar_good v (Ge k v Hk)) He k q Eq) as (b & B1 & B2).
  pose proof (wf_dget _ _ _ Wpd Ep) as Wp. pose proof (wf_dget _ _ _ Wpe Eq) as Wq.
  assert (Sc : is_scalar p = true \/ is_scalar q = true -> vident p q).
  { intro H. assert (T : is_scalar p = true /\ is_scalar q = true) by (destruct p, q; destruct H as [H|H]; try discriminate H; try discriminate G; split; reflexivity). destruct T as [T1 T2].
    inversion A2 as [x|x s|x v f Lf|x p' e1 e2 Np]; subst; try discriminate T1.
    - destruct q; try discriminate G. apply vident_refl.
    - destruct q as [| | | |s'| |]; try discriminate G. cbn in G. apply str_eqb_eq in G. subst s'. apply vident_refl.
    - pose proof (nested_kind o a p e1 e2 Np) as K. destruct a; try contradiction; destruct K as (z & ->); discriminate. }
  destruct (is_scalar p) eqn:Sp; [apply Sc; auto|]. destruct (is_scalar q) eqn:Sq; [apply Sc; auto|].
  destruct A1 as [A1| ->]; [destruct B1 as [B1| ->]|].
  - apply (made_exact o o' a) with (b := b); auto; [intros b' p' q' ? ? ? ? Hb Na Nb Eab; exact (IH k a A1 o o' b' p' q' _ _ _ _ (Gd k a A1) Hb Na Nb Eab)|exact (Gd k a A1)|exact (Ge k b B1)].
  - inversion B2 as [x|x s|x v f Lf|x p' e1 e2 Np]; subst; try discriminate Sq; [|discriminate Np]. 
    destruct A2 as [x|x s|x v0 f0 Lf0|x p' e1 e2 Np]; try discriminate Sp; [exact (leaf_exact o o' v0 v f0 f Lf0 Lf Wp Wq G)|].
    exfalso. pose proof (nested_kind o x p' e1 e2 Np) as K. destruct x as [| | | | |l|e0]; try contradiction; [destruct K as (m & ->); discriminate|]. destruct (Gd k _ A1) as (G1 & G2 & _). destruct (nested_no_u o e0 p' e1 e2 G2 G1 Np) as (pe0 & -> & U).
    pose proof (eqb_dict pe0 f Wp Wq G pt_u) as Q. destruct Lf as (_ & _ & Lf & _). rewrite Lf, U in Q. exact Q.
  - inversion A2 as [x|x s|x v f Lf|x p' e1 e2 Np]; subst; try discriminate Sp; [|discriminate Np].
    destruct B2 as [x|x s|x v0 f0 Lf0|x p' e1 e2 Np]; try discriminate Sq; [exact (leaf_exact o o' v v0 f f0 Lf Lf0 Wp Wq G)|].
    exfalso. pose proof (nested_kind o' x p' e1 e2 Np) as K. destruct x as [| | | | |l|e0]; try contradiction; [destruct K as (m & ->); discriminate|]. destruct B1 as [B1|B1]; [|discriminate]. destruct (Ge k _ B1) as (G1 & G2 & _). destruct (nested_no_u o' e0 p' e1 e2 G2 G1 Np) as (pe0 & -> & U).
    pose proof (eqb_dict f pe0 Wp Wq G pt_u) as Q. destruct Lf as (_ & _ & Lf & _). rewrite Lf, U in Q. exact Q.
Qed.
Lemma good_dict d : good_in (VDict d) -> good_entries d.
Proof.
  intros (G1 & G2 & G3). split; [exact G1|]. intros k v Hk. split; [exact (wf_dget _ _ _ G1 Hk)|]. split; [exact (proj2 (fine_get d G2 k v Hk))|]. rewrite scalars_dict in G3. exact (G3 k v (dget_In _ _ _ Hk)).
Qed.
Lemma nested_exact a : both_exact a.
Proof.
  induction a as [|x|x|x|x|l IH|d IH] using value_ind'; intros o o' b p q d1 p1 d2 p2 Ga Gb Ha Hb E; try discriminate Ha.
  - destruct (nested_list o l p d1 p1 Ha) as (m & -> & Lm & Nm). pose proof (nested_kind o' b q d2 p2 Hb) as K. destruct b as [| | | | |l'|e']; try contradiction; [|destruct K as (z & ->); discriminate].
    destruct (nested_list o' l' q d2 p2 Hb) as (m' & -> & Lm' & Nm'). cbn [py_eqb] in E. apply list_eqb_nth in E. destruct E as [E1 E2]. apply sim_list; [exact E1|]. intros i x y Hx Hy.
    assert (Hi : i < length l) by (rewrite <- Lm; apply nth_error_Some; congruence). assert (Hi' : i < length l') by (rewrite <- Lm'; apply nth_error_Some; congruence).
    apply nth_error_Some in Hi, Hi'. destruct (nth_error l i) as [u|] eqn:Eu; [|contradiction]. destruct (nth_error l' i) as [w|] eqn:Ew; [|contradiction].
    destruct (Nm i u Eu) as (x' & x1 & x2 & X1 & X2). rewrite Hx in X1. injection X1 as <-. destruct (Nm' i w Ew) as (y' & y1 & y2 & Y1 & Y2). rewrite Hy in Y1. injection Y1 as <-.
    pose proof (good_elem l u Ga (nth_error_In _ _ Eu)) as Gu. pose proof (good_elem l' w Gb (nth_error_In _ _ Ew)) as Gw. rewrite Forall_forall in IH.
    apply (made_exact o o' u) with (b := w); auto.
    + intros b' p' q' ? ? ? ? Hb' Na Nb Eab. exact (IH u (nth_error_In _ _ Eu) o o' b' p' q' _ _ _ _ Gu Hb' Na Nb Eab).
    + exact (element_made o u x x1 x2 (scalar_good u Gu) X2).
    + exact (element_made o' w y y1 y2 (scalar_good w Gw) Y2).
    + exact (element_wf L o u _ (nested_wf_all L o u) (proj1 Gu) X2).
    + exact (element_wf L o' w _ (nested_wf_all L o' w) (proj1 Gw) Y2).
    + exact (E2 i x y Hx Hy).
  - pose proof (nested_kind o' b q d2 p2 Hb) as K. pose proof (nested_kind o _ p d1 p1 Ha) as K'. destruct K' as (pd & ->). destruct b as [| | | | |l'|e']; try contradiction; [destruct K as (z & ->); discriminate|]. destruct K as (pe & ->).
    cbn [parse_nested] in Ha, Hb. destruct (dict_body L o (parse_nested L o) true d) as [[[pd' x1] x2]|] eqn:Ed; [|discriminate]. injection Ha as -> _ _.
    destruct (dict_body L o' (parse_nested L o') true e') as [[[pe' y1] y2]|] eqn:Ee; [|discriminate]. injection Hb as -> _ _. rewrite Forall_forall in IH.
    apply (dict_exact o o' true d e' pd pe x1 x2 y1 y2); auto using good_dict. intros k v Hk. exact (IH (k, v) (dget_In _ _ _ Hk)).
Qed.
Lemma record_good d : record_data S d -> good_entries d.
Proof.
  intros (H1 & H2 & H3). split; [exact H1|]. intros k v Hk. split; [exact (wf_dget _ _ _ H1 Hk)|]. rewrite Forall_forall in H3. split; [exact (H3 _ (dget_In _ _ _ Hk))|]. rewrite scalars_dict in H2. exact (H2 k v (dget_In _ _ _ Hk)).
Qed.
(** parse results that are equal are the same *)
Theorem parse_exact o o' d e r r' : record_data S d -> record_data S e -> parse L o d = Some r -> parse L o' e = Some r' -> pdata_eqb r r' = true -> pdata_same r r'.
Proof.
  intros Hd He Pd Pe E. unfold pdata_eqb in E. apply andb_true_iff in E. destruct E as [E E3]. apply andb_true_iff in E. destruct E as [E1 E2].
  apply strs_eqb_eq in E2, E3. split; [|split; [exact E2|exact E3]].
  unfold parse in Pd, Pe. destruct (dict_body L o (parse_nested L o) false d) as [[[pd x1] x2]|] eqn:Ed; [|discriminate]. destruct (dict_body L o' (parse_nested L o') false e) as [[[pe y1] y2]|] eqn:Ee; [|discriminate]. injection Pd as <-. injection Pe as <-. cbn [p_parsed] in *.
  apply (dict_exact o o' false d e pd pe x1 x2 y1 y2); auto using record_good. intros k v _. apply nested_exact.
Qed.
End Exact.
