(** The parser with the modelled geometry code in the place of its parameters. *)
From Coq Require Import String Ascii.
From Coq Require Import List ZArith NArith Bool Lia.
From Coq Require Import Floats.SpecFloat.
From Verif Require Import PyVal Time Parser ParserProofs ParserTypes ParserSim PropsTotal Geo PropsGeo.
Import ListNotations.
Open Scope string_scope.
Open Scope list_scope.
Open Scope nat_scope.

(** ** The parser with indexing/geo.py *)
(** The libraries of the parser (Parser.v) with match_wkt, match_geojson and the body of match_hints as modelled in Geo.v, over the
    geometry libraries [G]; [total] is Python's [sum]. (indexing/geo.py:36-174) *)
Definition geo_over (B : lib) (G : geo_lib spec_float) (total : list spec_float -> spec_float) : lib :=
  Lib (l_lower B) (l_format B) (l_try_float B) (l_strptime B)
    (match_wkt SFleb float_of_Z G)
    (fun d => match match_geojson fzero total fadd fsub fmul SFltb SFleb float_of_Z G d with Some r => r | None => None end)
    (fun d => match match_geojson fzero total fadd fsub fmul SFltb SFleb float_of_Z G d with Some _ => false | None => true end)
    (match_hint fzero total fadd fsub fmul SFltb SFleb float_of_Z G).

(** ** Geographic data in a parsed record *)
(** the string [s] is under the key [k] somewhere in a value (specification, models no code) *)
Inductive text_at (k s : pystr) : value -> Prop :=
| ta_here d : In (k, VStr s) d -> text_at k s (VDict d)
| ta_dict d k' v : In (k', v) d -> text_at k s v -> text_at k s (VDict d)
| ta_list l v : In v l -> text_at k s v -> text_at k s (VList l).

Section Texts.
Variable L : lib.
Variable o : options.
(** what holds of the points and shapes that the libraries give *)
Variable Gp Gs : pystr -> Prop.
(** specification, models no code *)
Definition geo_ok (g : pystr * pystr) : Prop := Gp (fst g) /\ Gs (snd g).
Hypothesis H_wkt : forall s g, l_wkt L s = Some g -> geo_ok g.
Hypothesis H_json : forall d g, l_geojson L d = Some g -> geo_ok g.
Hypothesis H_point : forall a b r n g, l_point L a b r n = Some g -> geo_ok g.
(** specification or proof device; models no code of its own *)
Definition good (v : value) : Prop := forall s, (text_at pt_gp s v -> Gp s) /\ (text_at pt_gs s v -> Gs s).
(** specification or proof device; models no code of its own *)
Definition entry_good (kv : pystr * value) : Prop :=
  good (snd kv) /\ (forall s, kv = (pt_gp, VStr s) -> Gp s) /\ (forall s, kv = (pt_gs, VStr s) -> Gs s).
Lemma good_scalar v : is_scalar v = true -> good v.
Proof. intros H s. split; intro K; inversion K; subst; discriminate H. Qed.
Lemma good_dict d : good (VDict d) <-> Forall entry_good d.
Proof.
  rewrite Forall_forall. split.
  - intros H [k v] Hk. split; [|split]; cbn [snd].
    + intro s. destruct (H s) as [H1 H2]. split; intro K; [apply H1|apply H2]; exact (ta_dict _ _ d k v Hk K).
    + intros s E. apply (proj1 (H s)). apply ta_here. rewrite <- E. exact Hk.
    + intros s E. apply (proj2 (H s)). apply ta_here. rewrite <- E. exact Hk.
  - intros H s. split; intro K; inversion K as [d' Hd|d' k v Hd Hv|]; subst.
    + exact (proj1 (proj2 (H _ Hd)) s eq_refl).
    + exact (proj1 (proj1 (H _ Hd) s) Hv).
    + exact (proj2 (proj2 (H _ Hd)) s eq_refl).
    + exact (proj2 (proj1 (H _ Hd) s) Hv).
Qed.
Lemma good_list l : Forall good l -> good (VList l).
Proof. rewrite Forall_forall. intros H s. split; intro K; inversion K as [| |l' v Hv Ht]; subst; [exact (proj1 (H v Hv s) Ht)|exact (proj2 (H v Hv s) Ht)]. Qed.
Lemma entry_plain k v : (forall s, v <> VStr s) -> good v -> entry_good (k, v).
Proof. intros N H. split; [exact H|]. split; intros s E; injection E as _ E; destruct (N s E). Qed.
Lemma entry_scalar k v : k <> pt_gp -> k <> pt_gs -> is_scalar v = true -> entry_good (k, v).
Proof. intros N1 N2 H. split; [apply good_scalar, H|]. split; intros s E; injection E as E _; [destruct (N1 E)|destruct (N2 E)]. Qed.
Lemma geo_dict_good g : geo_ok g -> Forall entry_good (geo_dict g).
Proof.
  intros [H1 H2]. constructor; [|constructor; [|constructor]]; (split; [apply good_scalar; reflexivity|]); (split; intros s E; injection E as E; subst; try discriminate; assumption).
Qed.
Lemma value_good v : is_scalar v = true -> Forall entry_good (parse_value L o v).
Proof.
  intro Hv. unfold parse_value. cbn zeta. repeat (apply Forall_app; split).
  - constructor; [|constructor; [|constructor; [|constructor]]]; (apply entry_scalar; [discriminate|discriminate|]); [exact Hv|reflexivity|reflexivity].
  - destruct (l_wkt L (text_of L o v)) as [g|] eqn:E; [exact (geo_dict_good g (H_wkt _ _ E))|constructor].
  - destruct (bool_of L o v); constructor; [apply entry_scalar; [discriminate|discriminate|reflexivity]|constructor].
  - destruct (number_of L o v) as [x|] eqn:E; constructor; [apply entry_scalar; [discriminate|discriminate|]|constructor].
    unfold number_of in E. destruct v; try discriminate Hv; try (injection E as <-; reflexivity); destruct (l_try_float L _); try discriminate; injection E as <-; reflexivity.
  - destruct (first_date L (date_formats o) (text_of L o v)); constructor; [apply entry_scalar; [discriminate|discriminate|reflexivity]|constructor].
Qed.
Lemma forall_dset (Q : pystr * value -> Prop) d k v : Forall Q d -> Q (k, v) -> Forall Q (dset d k v).
Proof.
  intros F H. induction F as [|[k0 v0] d F1 F2 IH]; cbn [dset]; [constructor; [exact H|constructor]|]. destruct (str_eqb k k0) eqn:E; constructor; auto. apply str_eqb_eq in E. subst k0. exact H.
Qed.
Lemma update_good g p : geo_ok g -> good (VDict p) -> good (VDict (dupdate p (geo_dict g))).
Proof.
  rewrite !good_dict. intros Hg H. pose proof (geo_dict_good g Hg) as G. unfold dupdate, geo_dict in *. cbn [fold_left fst snd]. inversion G as [|? ? G1 G2]; subst. inversion G2 as [|? ? G3 _]; subst.
  apply forall_dset; [apply forall_dset; assumption|assumption].
Qed.
Lemma hints_good d hs : forall ms, Forall (fun kg => geo_ok (snd kg)) ms -> Forall (fun kg => geo_ok (snd kg)) (match_hints L d hs ms).
Proof.
  induction hs as [|h hs IH]; intros ms F; cbn [match_hints]; [exact F|]. apply IH. destruct (hint_match L d h) as [g|] eqn:E; [|exact F].
  assert (G : geo_ok g) by exact (H_point _ _ _ _ _ E). clear - F G. induction F as [|[k0 v0] ms F1 F2 IH]; cbn [dset]; [constructor; [exact G|constructor]|]. destruct (str_eqb (h_lat h) k0); constructor; auto.
Qed.
Lemma add_good ms : forall parsed q, add_hints parsed ms = Some q -> Forall (fun kg => geo_ok (snd kg)) ms -> Forall entry_good parsed -> Forall entry_good q.
Proof.
  induction ms as [|[k g] ms IH]; intros parsed q H F G; cbn [add_hints] in H; [injection H as <-; exact G|]. inversion F as [|? ? F1 F2]; subst. destruct (dget parsed k) as [[| | | | | |p]|] eqn:E; try discriminate.
  apply (IH _ _ H F2). apply forall_dset; [exact G|]. apply entry_plain; [discriminate|]. apply update_good; [exact F1|]. apply dget_In in E. rewrite Forall_forall in G. exact (proj1 (G _ E)).
Qed.
(** specification or proof device; models no code of its own *)
Definition nested_good (nested : value -> option (value * list pystr * list pystr)) (v : value) : Prop := forall w dts pts, nested v = Some (w, dts, pts) -> good w /\ forall s, w <> VStr s.
Lemma body_good nested chk d w dts pts : Forall (fun kv => nested_good nested (snd kv)) d -> dict_body L o nested chk d = Some (w, dts, pts) -> Forall entry_good w.
Proof.
  intros HF E. apply dict_body_some in E. unfold dict_rest in E. destruct (map_opt _ d) as [parts|] eqn:Ep; [|discriminate]. change (list (pystr * part)) in parts. destruct (add_hints _ _) as [q|] eqn:Ea; [|discriminate]. injection E as <- _ _. apply map_opt_F2 in Ep.
  refine (add_good _ _ _ Ea (hints_good d (geo_hints o) [] (Forall_nil _)) _).
  assert (HP : Forall (fun kp : pystr * part => match snd kp with (Some w, _, _) => good w /\ forall s, w <> VStr s | _ => True end) parts).
  { clear Ea. induction Ep as [|[k v] y d parts E _ IH]; [constructor|]. inversion HF as [|? ? F1 F2]; subst. constructor; [|exact (IH F2)]. cbn [fst snd] in *. destruct (parse_entry L o nested k v) as [[[x d1] p1]|] eqn:Ee; [|discriminate]. injection E as <-. cbn [fst snd].
    destruct x as [x|]; [|exact I].
    assert (V : forall v', is_scalar v' = true -> good (VDict (parse_value L o v')) /\ forall s, VDict (parse_value L o v') <> VStr s) by (intros v' Hs; split; [apply good_dict, value_good, Hs|discriminate]).
    assert (U : forall v', is_scalar v' = true -> good (VDict [(pt_u, v')]) /\ forall s, VDict [(pt_u, v')] <> VStr s) by (intros v' Hs; split; [apply good_dict; constructor; [apply entry_scalar; [discriminate|discriminate|exact Hs]|constructor]|discriminate]).
    destruct v as [|b|z|f|[|c s]|l|e]; unfold parse_entry in Ee; try (injection Ee as <- _ _; first [apply U; reflexivity|apply V; reflexivity]).
    - destruct (is_empty (VList l)); [discriminate|]. destruct (nested (VList l)) as [[[w' d2] p2]|] eqn:En; [|discriminate]. injection Ee as <- _ _. exact (F1 _ _ _ En).
    - destruct (is_empty (VDict e)); [discriminate|]. destruct (nested (VDict e)) as [[[w' d2] p2]|] eqn:En; [|discriminate]. injection Ee as <- _ _. exact (F1 _ _ _ En). }
  assert (H0 : Forall entry_good (if chk then match l_geojson L d with Some g => geo_dict g | None => [] end else [])) by (destruct chk; [|constructor]; destruct (l_geojson L d) as [g|] eqn:Eg; [exact (geo_dict_good g (H_json d g Eg))|constructor]).
  clear Ea Ep. revert H0. generalize (if chk then match l_geojson L d with Some g => geo_dict g | None => [] end else []). induction HP as [|[k [[x d1] p1]] parts H1 _ IH]; intros acc Hacc; [exact Hacc|]. cbn [fold_left set_part]. apply IH. cbn [snd] in H1. destruct x as [x|]; [|exact Hacc]. apply forall_dset; [exact Hacc|]. apply entry_plain; apply H1.
Qed.
Lemma nested_all v : nested_good (parse_nested L o) v.
Proof.
  induction v as [|b|z|f|s|l IH|d IH] using value_ind'; intros w dts pts H; cbn [parse_nested] in H; try discriminate.
  - destruct (list_body L o (parse_nested L o) l) as [[[ws d1] p1]|] eqn:E; [|discriminate]. injection H as <- _ _. split; [|discriminate]. unfold list_body in E. destruct (map_opt _ l) as [ps|] eqn:Ep; [|discriminate]. injection E as <- _ _. apply map_opt_F2 in Ep. apply good_list.
    induction Ep as [|x q l ps E _ IHl]; [constructor|]. inversion IH as [|? ? I1 I2]; subst. cbn [map]. constructor; [|exact (IHl I2)]. destruct q as [[q d1'] p1']. cbn [fst].
    destruct x as [|b|z|f|[|c s]|l'|e]; unfold parse_element in E; try (injection E as <- _ _; first [apply good_scalar; reflexivity|apply good_dict, value_good; reflexivity]).
    + destruct (is_empty (VList l')); [injection E as <- _ _; apply good_scalar; reflexivity|]. destruct (parse_nested L o (VList l')) as [[[w' d2] p2]|] eqn:En; [|discriminate]. injection E as <- _ _. exact (proj1 (I1 _ _ _ En)).
    + destruct (is_empty (VDict e)); [injection E as <- _ _; apply good_scalar; reflexivity|]. destruct (parse_nested L o (VDict e)) as [[[w' d2] p2]|] eqn:En; [|discriminate]. injection E as <- _ _. exact (proj1 (I1 _ _ _ En)).
  - destruct (dict_body L o (parse_nested L o) true d) as [[[q d1] p1]|] eqn:E; [|discriminate]. injection H as <- _ _. split; [|discriminate]. apply good_dict. refine (body_good _ _ _ _ _ _ IH E).
Qed.
Lemma parse_good d r : parse L o d = Some r -> good (VDict (p_parsed r)).
Proof.
  intro H. unfold parse in H. destruct (dict_body L o (parse_nested L o) false d) as [[[q d1] p1]|] eqn:E; [|discriminate]. injection H as <-. cbn [p_parsed]. apply good_dict. refine (body_good _ _ _ _ _ _ _ E). apply Forall_forall. intros kv _. apply nested_all.
Qed.
End Texts.
