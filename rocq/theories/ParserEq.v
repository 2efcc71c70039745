(** When two parse results are equal (indexing/index.py:177-192 compares them), and that they are proper dicts. *)
From Coq Require Import String Ascii.
From Coq Require Import List ZArith NArith Bool Lia.
From Coq Require Import Floats.SpecFloat.
From Verif Require Import PyVal Diff DiffProofs Time Parser ParserProofs Mongo MongoProofs.
Import ListNotations.
Open Scope nat_scope.

(** [==] of lists of str (indexing/index.py:186-191) *)
Fixpoint strs_eqb (a b : list pystr) : bool :=
  match a, b with [], [] => true | x :: a', y :: b' => str_eqb x y && strs_eqb a' b' | _, _ => false end.
(** [==] of ParsedData (indexing/parser.py:13-20, a named tuple); used by RecordVersion.__eq__ (indexing/index.py:177-192) *)
Definition pdata_eqb (a b : parsed_data) : bool :=
  py_eqb (VDict (p_parsed a)) (VDict (p_parsed b)) && strs_eqb (p_data_types a) (p_data_types b) && strs_eqb (p_parsed_types a) (p_parsed_types b).
Lemma strs_eqb_eq a : forall b, strs_eqb a b = true <-> a = b.
Proof.
  induction a as [|x a IH]; intros [|y b]; cbn; try (split; [discriminate|discriminate]); [split; auto|]. rewrite andb_true_iff, str_eqb_eq, IH. split; [intros [-> ->]; reflexivity|intro H; injection H; auto].
Qed.

Lemma dget_kept d k : dget (flat_map (fun kv => if kept (fst kv) then [(fst kv, rebuild (snd kv))] else []) d) k = if kept k then option_map rebuild (dget d k) else None.
Proof.
  induction d as [|[k' v] d IH]; cbn [flat_map dget fst snd]; [destruct (kept k); reflexivity|].
  destruct (kept k') eqn:K'; cbn [app dget]; destruct (str_eqb k k') eqn:E; rewrite ?IH; try reflexivity; apply str_eqb_eq in E; subst; rewrite K'; reflexivity.
Qed.
Lemma dget_rebuilt d k : dget (rebuild_data d) k = option_map rebuild (dget d k).
Proof. unfold rebuild_data. induction d as [|[k' v] d IH]; [reflexivity|]. cbn. destruct (str_eqb k k'); [reflexivity|exact IH]. Qed.
Lemma nth_map {A B} (f : A -> B) l : forall i x, nth_error (map f l) i = Some x -> exists y, nth_error l i = Some y /\ x = f y.
Proof. induction l as [|a l IH]; intros [|i] x H; cbn in *; try discriminate; [injection H as <-; eauto|auto]. Qed.

Section Sim.
Variable R : value -> value -> Prop.
Lemma rebuild_sim a b : vsim R a b -> vsim R (rebuild a) (rebuild b).
Proof.
  induction 1 as [a b Ha Hb Hr|l m Hl Hx IH|d e Hk Hx IH].
  - destruct a; try discriminate; destruct b; try discriminate; apply sim_scalar; assumption.
  - cbn [rebuild]. apply sim_list; [rewrite !map_length; exact Hl|]. intros i x y Ex Ey. apply nth_map in Ex, Ey. destruct Ex as (x' & X1 & ->). destruct Ey as (y' & Y1 & ->). exact (IH i x' y' X1 Y1).
  - cbn [rebuild]. specialize (Hk pt_u) as Hu. destruct (dget d pt_u) as [x|] eqn:Ed; destruct (dget e pt_u) as [y|] eqn:Ee.
    + exact (Hx _ _ _ Ed Ee).
    + exfalso. destruct Hu as [_ Hu]. specialize (Hu eq_refl). discriminate.
    + exfalso. destruct Hu as [Hu _]. specialize (Hu eq_refl). discriminate.
    + apply sim_dict; intro k; rewrite !dget_kept; [|intros x y Ex Ey]; destruct (kept k); try (split; reflexivity); try discriminate.
      * specialize (Hk k). destruct (dget d k), (dget e k); cbn; split; intro Q; try discriminate; try reflexivity; (destruct Hk as [K1 K2]; try (specialize (K1 eq_refl); discriminate); specialize (K2 eq_refl); discriminate).
      * destruct (dget d k) as [x'|] eqn:E1; [|discriminate]. destruct (dget e k) as [y'|] eqn:E2; [|discriminate]. cbn in Ex, Ey. injection Ex as <-. injection Ey as <-. exact (IH k x' y' E1 E2).
Qed.
Lemma rebuild_data_sim d e : vsim R (VDict d) (VDict e) -> vsim R (VDict (rebuild_data d)) (VDict (rebuild_data e)).
Proof.
  intro H. inversion H as [? ? Q| |d' e' Hk Hx]; subst; [discriminate|]. apply sim_dict; intro k; rewrite !dget_rebuilt.
  - specialize (Hk k). destruct (dget d k), (dget e k); cbn; split; intro Q; try discriminate; try reflexivity; (destruct Hk as [K1 K2]; try (specialize (K1 eq_refl); discriminate); specialize (K2 eq_refl); discriminate).
  - intros x y Ex Ey. destruct (dget d k) as [x'|] eqn:E1; [|discriminate]. destruct (dget e k) as [y'|] eqn:E2; [|discriminate]. cbn in Ex, Ey. injection Ex as <-. injection Ey as <-. apply rebuild_sim. exact (Hx k x' y' E1 E2).
Qed.
End Sim.

Lemma rebuild_nan v : nan_free v = true -> nan_free (rebuild v) = true.
Proof.
  induction v as [|b|z|f|x|l IH|d IH] using value_ind'; intro H; try exact H.
  - cbn [rebuild nan_free] in *. rewrite forallb_forall in *. intros x Hx. apply in_map_iff in Hx. destruct Hx as (y & <- & Hy). rewrite Forall_forall in IH. auto.
  - cbn [rebuild]. cbn [nan_free] in H. rewrite forallb_forall in H. rewrite Forall_forall in IH. destruct (dget d pt_u) as [u|] eqn:E; [exact (H _ (dget_In _ _ _ E))|].
    cbn [nan_free]. rewrite forallb_forall. intros x Hx. apply in_flat_map in Hx. destruct Hx as (kv & K1 & K2). destruct (kept (fst kv)); [|destruct K2]. destruct K2 as [<-|[]]. cbn. auto.
Qed.

(** ** Parsing gives dicts with distinct keys *)
Lemma wf_geo g : wf (VDict (geo_dict g)).
Proof. reflexivity. Qed.
Lemma number_wf L o v w : wf v -> number_of L o v = Some w -> wf w.
Proof. unfold number_of. intros W H. destruct v; try (injection H as <-; exact W); destruct (l_try_float _ _); try discriminate; injection H as <-; reflexivity. Qed.
Lemma parse_value_wf L o v : wf v -> wf (VDict (parse_value L o v)).
Proof.
  intro W. apply wf_dict. unfold parse_value. cbv zeta. split.
  - destruct (l_wkt L (text_of L o v)), (bool_of L o v), (number_of L o v), (first_date L (date_formats o) (text_of L o v)); cbn;
    repeat (constructor; [cbn [In]; intuition discriminate|]); constructor.
  - repeat rewrite Forall_app. repeat split; try (repeat constructor; exact W).
    + destruct (l_wkt L (text_of L o v)); repeat constructor.
    + destruct (bool_of L o v); repeat constructor.
    + destruct (number_of L o v) as [w|] eqn:E; [|constructor]. constructor; [exact (number_wf _ _ _ _ W E)|constructor].
    + destruct (first_date L (date_formats o) (text_of L o v)); repeat constructor.
Qed.
Section Wf.
Variable L : lib.
Variable o : options.
(** specification or proof device; models no code of its own *)
Definition nested_wf (v : value) : Prop := wf v -> forall w dts pts, parse_nested L o v = Some (w, dts, pts) -> wf w.
(** specification or proof device; models no code of its own *)
Definition part_wf (p : part) : Prop := match fst (fst p) with Some w => wf w | None => True end.
Lemma entry_wf k v p : nested_wf v -> wf v -> parse_entry L o (parse_nested L o) k v = Some p -> part_wf p.
Proof.
  intros IH W H. unfold parse_entry in H. destruct v as [|b|z|f|x|l|d].
  - injection H as <-. reflexivity.
  - injection H as <-. exact (parse_value_wf L o (VBool b) W).
  - injection H as <-. exact (parse_value_wf L o (VInt z) W).
  - injection H as <-. exact (parse_value_wf L o (VFloat f) W).
  - destruct x as [|c x]; injection H as <-; [reflexivity|exact (parse_value_wf L o (VStr (c :: x)) W)].
  - destruct (is_empty (VList l)); [injection H as <-; exact I|]. destruct (parse_nested L o (VList l)) as [[[w dts] pts]|] eqn:E; [|discriminate]. injection H as <-. exact (IH W _ _ _ E).
  - destruct (is_empty (VDict d)); [injection H as <-; exact I|]. destruct (parse_nested L o (VDict d)) as [[[w dts] pts]|] eqn:E; [|discriminate]. injection H as <-. exact (IH W _ _ _ E).
Qed.
Lemma element_wf v p : nested_wf v -> wf v -> parse_element L o (parse_nested L o) v = Some p -> wf (fst (fst p)).
Proof.
  intros IH W H. unfold parse_element in H. destruct v as [|b|z|f|x|l|d].
  - injection H as <-. reflexivity.
  - injection H as <-. exact (parse_value_wf L o (VBool b) W).
  - injection H as <-. exact (parse_value_wf L o (VInt z) W).
  - injection H as <-. exact (parse_value_wf L o (VFloat f) W).
  - destruct x as [|c x]; injection H as <-; [reflexivity|exact (parse_value_wf L o (VStr (c :: x)) W)].
  - destruct (is_empty (VList l)); [injection H as <-; reflexivity|]. destruct (parse_nested L o (VList l)) as [[[w dts] pts]|] eqn:E; [|discriminate]. injection H as <-. exact (IH W _ _ _ E).
  - destruct (is_empty (VDict d)); [injection H as <-; reflexivity|]. destruct (parse_nested L o (VDict d)) as [[[w dts] pts]|] eqn:E; [|discriminate]. injection H as <-. exact (IH W _ _ _ E).
Qed.
Lemma add_hints_wf ms : forall d d', add_hints d ms = Some d' -> wfd d -> wfd d'.
Proof.
  induction ms as [|[k g] ms IH]; intros d d' H W; cbn [add_hints] in H; [injection H as <-; exact W|]. destruct (dget d k) as [[| | | | | |p]|] eqn:E; try discriminate.
  apply (IH _ _ H). apply wf_dset; [exact W|]. apply wf_dupdate; [exact (wf_dget _ _ _ W E)|]. repeat constructor.
Qed.
Lemma set_parts_wf parts : forall acc, Forall (fun p => part_wf (snd p)) parts -> wfd acc -> wfd (fold_left set_part parts acc).
Proof.
  induction parts as [|[k [[[w|] dts] pts]] parts IH]; intros acc H W; cbn [fold_left]; [exact W| |]; inversion H as [|? ? H1 H2]; subst; apply IH; auto. cbn [set_part]. apply wf_dset; [exact W|exact H1].
Qed.
Lemma dict_wf chk d w dts pts : Forall (fun kv => nested_wf (snd kv)) d -> wfd d -> dict_body L o (parse_nested L o) chk d = Some (w, dts, pts) -> wfd w.
Proof.
  intros IH W H. apply dict_body_some in H. unfold dict_rest in H. destruct (map_opt _ d) as [parts|] eqn:E; [|discriminate]. apply map_opt_F2 in E. destruct (add_hints _ _) as [w'|] eqn:Ea; [|discriminate]. injection H as <- _ _.
  apply (add_hints_wf _ _ _ Ea). apply set_parts_wf.
  - apply wf_dict in W. destruct W as [_ W]. clear Ea. revert IH W. induction E as [|[k v] y d parts Hy HF IHF]; intros IH W; constructor; inversion IH; inversion W; subst; [|auto].
    cbn [fst snd] in *. destruct (parse_entry L o (parse_nested L o) k v) as [p|] eqn:Ep; [|discriminate]. injection Hy as <-. apply (entry_wf k v p); assumption.
  - destruct chk; [|reflexivity]. destruct (l_geojson L d); reflexivity.
Qed.
Lemma nested_wf_all v : nested_wf v.
Proof.
  induction v as [|b|z|f|x|l IH|d IH] using value_ind'; intros W w dts pts H; cbn [parse_nested] in H; try discriminate.
  - unfold list_body in H. destruct (map_opt _ l) as [ps|] eqn:E; [|discriminate]. apply map_opt_F2 in E. injection H as <- _ _. apply wf_list in W. apply wf_list. revert IH W. induction E as [|v y l ps Hy HF IHF]; intros IH W; constructor; inversion IH; inversion W; subst; [|auto]. apply (element_wf v y); assumption.
  - destruct (dict_body L o (parse_nested L o) true d) as [[[p' dts'] pts']|] eqn:E; [|discriminate]. injection H as <- <- <-. exact (dict_wf true d _ _ _ IH W E).
Qed.
Lemma parse_wf d r : wfd d -> parse L o d = Some r -> wfd (p_parsed r).
Proof.
  intros W H. unfold parse in H. destruct (dict_body L o (parse_nested L o) false d) as [[[w dts] pts]|] eqn:E; [|discriminate]. injection H as <-. cbn [p_parsed].
  refine (dict_wf false d _ _ _ _ W E). apply Forall_forall. intros kv _. apply nested_wf_all.
Qed.
End Wf.

Lemma forget_wf v : wf v -> wf (forget v).
Proof.
  induction v as [|b|z|f|x|l IH|d IH] using value_ind'; intro W; try exact W.
  - apply wf_list in W. cbn [forget]. apply wf_list. rewrite Forall_forall in *. intros y Hy. apply in_map_iff in Hy. destruct Hy as (x & <- & Hx). destruct (is_empty x); [reflexivity|]. destruct x as [| | | |[|]| |]; try reflexivity; apply (IH _ Hx (W _ Hx)).
  - apply wf_dict in W. destruct W as [W1 W2]. cbn [forget]. apply wf_dict. split.
    + clear IH W2. induction d as [|[k v] d IHd]; [constructor|]. inversion W1 as [|? ? N1 N2]; subst. cbn [flat_map fst snd]. destruct (is_empty v); [exact (IHd N2)|]. cbn. constructor; [|exact (IHd N2)].
      intro K. apply N1. clear - K. apply in_map_iff in K. destruct K as ([k' v'] & <- & K). apply in_flat_map in K. destruct K as ([k2 v2] & K1 & K2). cbn [fst snd] in K2. destruct (is_empty v2); [destruct K2|]. destruct K2 as [K2|[]]. injection K2 as <- _. apply (in_map fst) in K1. exact K1.
    + rewrite Forall_forall in *. intros kv K. apply in_flat_map in K. destruct K as ([k2 v2] & K1 & K2). cbn [fst snd] in K2. destruct (is_empty v2); [destruct K2|]. destruct K2 as [<-|[]]. exact (IH _ K1 (W2 _ K1)).
Qed.
Lemma rebuild_data_nan d : nan_free (VDict d) = true -> nan_free (VDict (rebuild_data d)) = true.
Proof.
  cbn [nan_free]. rewrite !forallb_forall. intros H x Hx. apply in_map_iff in Hx. destruct Hx as (kv & <- & K). cbn. apply rebuild_nan, (H _ K).
Qed.

(** Equal parse results: equal data, up to what indexing forgets. *)
Lemma parsed_eq_data L o L' o' d d' r r' : wfd d -> wfd d' -> Forall (fun kv => fine (snd kv)) d -> Forall (fun kv => fine (snd kv)) d' ->
  parse L o d = Some r -> parse L' o' d' = Some r' -> py_eqb (VDict (p_parsed r)) (VDict (p_parsed r')) = true ->
  py_eqb (VDict (forget_dict d)) (VDict (forget_dict d')) = true.
Proof.
  intros W W' F F' H H' E. apply py_eqb_iff in E; [|exact (parse_wf _ _ _ _ W H)|exact (parse_wf _ _ _ _ W' H')]. destruct E as [E1 E2].
  apply py_eqb_iff; [exact (forget_wf (VDict d) W)|exact (forget_wf (VDict d') W')|]. rewrite <- (rebuild_parse _ _ _ _ W F H), <- (rebuild_parse _ _ _ _ W' F' H').
  split; [apply rebuild_data_nan, E1|apply rebuild_data_sim, E2].
Qed.
