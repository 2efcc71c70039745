(** Parsing does not depend on the order of dict keys (indexing/parser.py:23-138): data that are equal up to that order give parse results that are. *)
From Coq Require Import String Ascii.
From Coq Require Import List ZArith NArith Bool Lia Permutation Sorted.
From Coq Require Import Floats.SpecFloat.
From Verif Require Import PyVal Diff DiffProofs Time Prepare PropsPrepare Parser ParserProofs ParserTypes ParserEq PropsTotal.
Import ListNotations.
Open Scope nat_scope.

Definition orel {A B} (R : A -> B -> Prop) (x : option A) (y : option B) : Prop :=
  match x, y with None, None => True | Some a, Some b => R a b | _, _ => False end.
(** the libraries read dicts by their keys (indexing/geo.py:36-174 with shapely's [shape]) *)
Record keyed (L : lib) : Prop := {
  kd_geojson : forall d d', vident (VDict d) (VDict d') -> l_geojson L d = l_geojson L d';
  kd_raises : forall d d', vident (VDict d) (VDict d') -> l_geo_raises L d = l_geo_raises L d';
  kd_point : forall a a' b b' r r' n, vident a a' -> vident b b' -> orel vident r r' -> l_point L a b r n = l_point L a' b' r' n }.

(** ** Dicts by their keys *)
Lemma vident_dict d e : vident (VDict d) (VDict e) <-> forall k, orel vident (dget d k) (dget e k).
Proof.
  split.
  - intro H. inversion H as [? ? Q| |? ? H1 H2]; subst; [discriminate|]. intro k. specialize (H1 k). specialize (H2 k). destruct (dget d k) as [x|], (dget e k) as [y|]; cbn.
    + exact (H2 _ _ eq_refl eq_refl).
    + destruct H1 as [_ H1]. specialize (H1 eq_refl). discriminate.
    + destruct H1 as [H1 _]. specialize (H1 eq_refl). discriminate.
    + exact I.
  - intro H. apply sim_dict; intro k; specialize (H k); [|intros x y Ex Ey; rewrite Ex, Ey in H; exact H]. destruct (dget d k), (dget e k); cbn in H; split; intro Q; try discriminate; try reflexivity; contradiction.
Qed.
Lemma vident_list l m : vident (VList l) (VList m) <-> Forall2 vident l m.
Proof.
  split.
  - intro H. inversion H as [? ? Q|? ? H1 H2|]; subst; [discriminate|]. clear H. revert m H1 H2. induction l as [|x l IH]; intros [|y m] H1 H2; try discriminate; constructor.
    + exact (H2 0 x y eq_refl eq_refl).
    + apply IH; [injection H1; auto|]. intros i a b Ha Hb. exact (H2 (S i) a b Ha Hb).
  - intro H. apply sim_list; [induction H; cbn; congruence|]. induction H as [|x y l m Hx _ IH]; intros [|i] a b Ha Hb; cbn in *; try discriminate; [injection Ha as <-; injection Hb as <-; exact Hx|exact (IH i a b Ha Hb)].
Qed.
Lemma vident_scalar a b : vident a b -> is_scalar a = true -> b = a.
Proof. intros H Q. inversion H; subst; [reflexivity|discriminate|discriminate]. Qed.
Lemma vident_kind a b : vident a b -> match a with VDict _ => exists e, b = VDict e | VList _ => exists m, b = VList m | _ => b = a end.
Proof. intro H. inversion H as [? ? Q1 Q2 Q3|? m|? e]; subst; [destruct b; try reflexivity; discriminate|eauto|eauto]. Qed.
Lemma NoDup_keys {A} (d : list (pystr * A)) : NoDup (map fst d) -> NoDup d.
Proof. apply NoDup_map_inv. Qed.
Lemma dget_in_iff {A} (d : list (pystr * A)) k v : NoDup (map fst d) -> (dget d k = Some v <-> In (k, v) d).
Proof. intro N. split; [apply dget_In|]. intro H. induction d as [|[k' v'] d IH]; [destruct H|]. cbn [dget map fst] in *. inversion N as [|? ? N1 N2]; subst.
  destruct H as [H|H]; [injection H as -> ->; rewrite str_eqb_refl; reflexivity|]. destruct (str_eqb k k') eqn:E; [apply str_eqb_eq in E; subst; exfalso; apply N1; apply (in_map fst) in H; exact H|auto].
Qed.
Lemma dget_perm {A} (d e : list (pystr * A)) k : NoDup (map fst d) -> Permutation d e -> dget d k = dget e k.
Proof.
  intros N P. assert (N' : NoDup (map fst e)) by (eapply Permutation_NoDup; [apply Permutation_map, P|exact N]).
  destruct (dget d k) as [v|] eqn:E.
  - symmetry. apply dget_in_iff; [exact N'|]. apply (Permutation_in _ P). apply dget_in_iff; assumption.
  - destruct (dget e k) as [v|] eqn:E'; [|reflexivity]. apply dget_in_iff in E'; [|exact N']. apply (Permutation_in _ (Permutation_sym P)) in E'. apply dget_in_iff in E'; [congruence|exact N].
Qed.
(** specification or proof device; models no code of its own *)
Definition entry_sim (a b : pystr * value) : Prop := fst a = fst b /\ vident (snd a) (snd b).
Lemma align (d e : dict) : NoDup (map fst d) -> NoDup (map fst e) -> vident (VDict d) (VDict e) -> exists e', Permutation e e' /\ Forall2 entry_sim d e'.
Proof.
  intros Nd Ne H. rewrite vident_dict in H. set (f := fun kv : pystr * value => (fst kv, match dget e (fst kv) with Some v => v | None => VNone end)).
  exists (map f d). split.
  - apply NoDup_Permutation; [apply NoDup_keys, Ne|apply NoDup_keys; rewrite map_map; exact Nd|]. intros [k v]. rewrite <- (dget_in_iff e k v Ne). rewrite in_map_iff. split.
    + intro K. specialize (H k). rewrite K in H. destruct (dget d k) as [x|] eqn:E; [|destruct H]. exists (k, x). split; [unfold f; cbn [fst]; rewrite K; reflexivity|apply dget_in_iff; assumption].
    + intros ([k' x] & K1 & K2). unfold f in K1. cbn [fst] in K1. apply dget_in_iff in K2; [|exact Nd]. specialize (H k'). rewrite K2 in H. destruct (dget e k') as [y|] eqn:E; [|destruct H]. injection K1 as <- <-. exact E.
  - assert (G : forall l, (forall kv, In kv l -> In kv d) -> Forall2 entry_sim l (map f l)).
    { induction l as [|[k x] l IH]; intro G; constructor; [|apply IH; intros; apply G; right; assumption]. split; [reflexivity|]. unfold f. cbn [fst snd].
      specialize (H k). pose proof (G _ (or_introl eq_refl)) as K. apply dget_in_iff in K; [|exact Nd]. rewrite K in H. destruct (dget e k); [exact H|destruct H]. }
    apply G. auto.
Qed.

(** ** [map_opt] *)
Lemma map_opt_rel {A B} (f : A -> option B) (RA : A -> A -> Prop) (RB : B -> B -> Prop) l m : (forall a b, In a l -> In b m -> RA a b -> orel RB (f a) (f b)) -> Forall2 RA l m -> orel (Forall2 RB) (map_opt f l) (map_opt f m).
Proof.
  intros H F. induction F as [|x y l m Hx _ IH]; [constructor|]. cbn [map_opt]. pose proof (H x y (or_introl eq_refl) (or_introl eq_refl) Hx) as K.
  assert (IH' := IH (fun a b Ha Hb => H a b (or_intror Ha) (or_intror Hb))). destruct (f x), (f y); cbn in K; try contradiction; [|exact I].
  destruct (map_opt f l), (map_opt f m); cbn in *; try contradiction; [constructor; assumption|exact I].
Qed.
Lemma map_opt_perm {A B} (f : A -> option B) l m : Permutation l m -> orel (@Permutation B) (map_opt f l) (map_opt f m).
Proof.
  assert (Rf : forall x, orel (@Permutation B) x x) by (intros [x|]; cbn; auto).
  induction 1 as [|x l m _ IH|x y l|l m n _ IH1 _ IH2].
  - apply Rf.
  - cbn [map_opt]. destruct (f x); [|exact I]. destruct (map_opt f l), (map_opt f m); cbn in *; try contradiction; auto.
  - cbn [map_opt]. destruct (f x), (f y), (map_opt f l); cbn; auto. apply perm_swap.
  - destruct (map_opt f l), (map_opt f m), (map_opt f n); cbn in *; try contradiction; auto. eapply perm_trans; eassumption.
Qed.

(** ** Sorting *)
Lemma sorted_same l : forall m, StronglySorted (fun a b => str_leb a b = true) l -> StronglySorted (fun a b => str_leb a b = true) m -> Permutation l m -> l = m.
Proof.
  induction l as [|x l IH]; intros m Sl Sm P; [apply Permutation_nil in P; congruence|]. destruct m as [|y m]; [apply Permutation_sym, Permutation_nil in P; discriminate|].
  inversion Sl as [|? ? Sl1 Sl2]; subst. inversion Sm as [|? ? Sm1 Sm2]; subst. rewrite Forall_forall in Sl2, Sm2.
  assert (x = y).
  { apply leb_antisym.
    - assert (K : In y (x :: l)) by (apply (Permutation_in _ (Permutation_sym P)); left; reflexivity). destruct K as [->|K]; [apply leb_refl|exact (Sl2 _ K)].
    - assert (K : In x (y :: m)) by (apply (Permutation_in _ P); left; reflexivity). destruct K as [->|K]; [apply leb_refl|exact (Sm2 _ K)]. }
  subst y. f_equal. apply IH; [assumption|assumption|]. exact (Permutation_cons_inv P).
Qed.
Lemma compress_perm l m : Permutation l m -> compress l = compress m.
Proof.
  intro P. unfold compress. assert (E : sort l = sort m); [|rewrite E; reflexivity].
  apply sorted_same; [apply sort_sorted|apply sort_sorted|]. eapply perm_trans; [apply sort_perm|]. eapply perm_trans; [exact P|]. apply Permutation_sym, sort_perm.
Qed.
Lemma flat_perm {A B C} (R : A -> B -> Prop) (f : A -> list C) (g : B -> list C) l m : (forall a b, R a b -> Permutation (f a) (g b)) -> Forall2 R l m -> Permutation (flat_map f l) (flat_map g m).
Proof. intros H F. induction F as [|x y l m Hx _ IH]; [constructor|]. cbn [flat_map]. apply Permutation_app; auto. Qed.
Lemma nodup_perm l m : (forall s : pystr, In s l <-> In s m) -> Permutation (nodup str_eq_dec l) (nodup str_eq_dec m).
Proof. intro H. apply NoDup_Permutation; [apply NoDup_nodup|apply NoDup_nodup|]. intro s. rewrite !nodup_In. apply H. Qed.

(** ** The parser *)
Definition res_sim {A} (R : A -> A -> Prop) (x y : A * list pystr * list pystr) : Prop :=
  R (fst (fst x)) (fst (fst y)) /\ Permutation (snd (fst x)) (snd (fst y)) /\ Permutation (snd x) (snd y).
Section Sim.
Variable L : lib.
Variable o : options.
Hypothesis KD : keyed L.
(** specification or proof device; models no code of its own *)
Definition nested_sim (nested : value -> option (value * list pystr * list pystr)) (a : value) : Prop :=
  forall b, wf a -> wf b -> vident a b -> orel (res_sim vident) (nested a) (nested b).
Lemma res_refl {A} (R : A -> A -> Prop) x : (forall a, R a a) -> orel (res_sim R) x x.
Proof. intro H. destruct x as [x|]; [|exact I]. repeat split; auto. Qed.
Lemma type_sim a b : vident a b -> type_for a = type_for b.
Proof. intro H. pose proof (vident_kind _ _ H) as K. destruct a; try (subst; reflexivity); destruct K as (x & ->); reflexivity. Qed.
Lemma empty_sim a b : vident a b -> is_empty a = is_empty b.
Proof.
  intro H. destruct a as [| | | | |l|d]; try (pose proof (vident_kind _ _ H) as K; cbn in K; subst; reflexivity).
  - destruct (vident_kind _ _ H) as (m & ->). apply vident_list in H. destruct H; reflexivity.
  - destruct (vident_kind _ _ H) as (e & ->). rewrite vident_dict in H. destruct d as [|[k v] d], e as [|[k' v'] e]; try reflexivity.
    + specialize (H k'). cbn in H. rewrite str_eqb_refl in H. destruct H.
    + specialize (H k). cbn in H. rewrite str_eqb_refl in H. destruct H.
Qed.
(** specification or proof device; models no code of its own *)
Definition part_sim (x y : pystr * part) : Prop := fst x = fst y /\ res_sim (orel vident) (snd x) (snd y).
Lemma entry_sim_parse nested k a b : nested_sim nested a -> wf a -> wf b -> vident a b -> orel (res_sim (orel vident)) (parse_entry L o nested k a) (parse_entry L o nested k b).
Proof.
  intros N Wa Wb H. assert (Rf : forall x : option value, orel vident x x) by (intros [x|]; cbn; [apply vident_refl|exact I]).
  pose proof (vident_kind _ _ H) as K. pose proof (empty_sim _ _ H) as Ke. specialize (N b Wa Wb H).
  destruct a as [|x|x|x|x|l|d]; try (subst b; apply res_refl; exact Rf).
  - destruct K as (m & ->). cbn [parse_entry]. rewrite <- Ke. destruct (is_empty (VList l)); [apply res_refl; exact Rf|].
    destruct (nested (VList l)) as [[[p q] r]|], (nested (VList m)) as [[[p' q'] r']|]; cbn in *; try contradiction; [|exact I]. destruct N as (N1 & N2 & N3). repeat split; cbn in *; [exact N1|apply Permutation_map, N2|apply Permutation_map, N3].
  - destruct K as (e & ->). cbn [parse_entry]. rewrite <- Ke. destruct (is_empty (VDict d)); [apply res_refl; exact Rf|].
    destruct (nested (VDict d)) as [[[p q] r]|], (nested (VDict e)) as [[[p' q'] r']|]; cbn in *; try contradiction; [|exact I]. destruct N as (N1 & N2 & N3). repeat split; cbn in *; [exact N1|apply Permutation_map, N2|apply Permutation_map, N3].
Qed.
Lemma element_sim_parse nested a b : nested_sim nested a -> wf a -> wf b -> vident a b -> orel (res_sim vident) (parse_element L o nested a) (parse_element L o nested b).
Proof.
  intros N Wa Wb H. pose proof (vident_kind _ _ H) as K. pose proof (empty_sim _ _ H) as Ke. specialize (N b Wa Wb H).
  destruct a as [|x|x|x|x|l|d]; try (subst b; apply res_refl; exact vident_refl).
  - destruct K as (m & ->). cbn [parse_element]. rewrite <- Ke. destruct (is_empty (VList l)); [apply res_refl; exact vident_refl|].
    destruct (nested (VList l)) as [[[p q] r]|], (nested (VList m)) as [[[p' q'] r']|]; cbn in *; try contradiction; [|exact I]. destruct N as (N1 & N2 & N3). repeat split; cbn in *; [exact N1|apply Permutation_map, N2|exact N3].
  - destruct K as (e & ->). cbn [parse_element]. rewrite <- Ke. destruct (is_empty (VDict d)); [apply res_refl; exact vident_refl|].
    destruct (nested (VDict d)) as [[[p q] r]|], (nested (VDict e)) as [[[p' q'] r']|]; cbn in *; try contradiction; [|exact I]. destruct N as (N1 & N2 & N3). repeat split; cbn in *; [exact N1|apply Permutation_map, N2|exact N3].
Qed.
Lemma hints_sim d e : vident (VDict d) (VDict e) -> forall hs ms, match_hints L d hs ms = match_hints L e hs ms.
Proof.
  intro H. rewrite vident_dict in H. assert (G : forall k, vident (get_or_empty d k) (get_or_empty e k)).
  { intro k. unfold get_or_empty. specialize (H k). destruct (dget d k), (dget e k); cbn in H; try contradiction; [exact H|apply vident_refl]. }
  induction hs as [|h hs IH]; intro ms; [reflexivity|]. cbn [match_hints]. rewrite IH. f_equal. unfold hint_match.
  erewrite (kd_point L KD _ _ _ _ _ _ (h_segments h) (G (h_lon h)) (G (h_lat h))); [reflexivity|].
  destruct (h_radius h) as [[|c r]|]; [exact I|cbn; apply G|exact I].
Qed.
(** specification or proof device; models no code of its own *)
Definition dict_sim (d e : dict) : Prop := vident (VDict d) (VDict e).
Lemma add_hints_sim ms : forall d e, dict_sim d e -> orel dict_sim (add_hints d ms) (add_hints e ms).
Proof.
  induction ms as [|[k g] ms IH]; intros d e H; cbn [add_hints]; [exact H|]. unfold dict_sim in H. rewrite vident_dict in H. pose proof (H k) as Hk.
  destruct (dget d k) as [x|], (dget e k) as [y|]; cbn in Hk; try contradiction; [|exact I].
  pose proof (vident_kind _ _ Hk) as K. destruct x as [| | | | |l|p]; try (subst y; exact I); destruct K as (p' & ->); [exact I|].
  apply IH. unfold dict_sim. rewrite vident_dict. intro k'. rewrite !dget_dset. destruct (str_eqb k' k); [|apply H]. cbn [orel]. rewrite vident_dict in *. intro j.
  rewrite !dget_dupdate by (repeat constructor; cbn; intuition discriminate). destruct (dget (geo_dict g) j); [cbn; apply vident_refl|apply Hk].
Qed.
Lemma parts_keys nested d parts : Forall2 (fun kv y => match parse_entry L o nested (fst kv) (snd kv) with Some p => Some (fst kv, p) | None => None end = Some y) d parts -> map fst parts = dkeys d.
Proof. induction 1 as [|kv y d parts E _ IH]; [reflexivity|]. cbn [map dkeys]. rewrite IH. destruct (parse_entry L o nested (fst kv) (snd kv)); [injection E as <-; reflexivity|discriminate]. Qed.
Lemma parts_get p q k : Forall2 part_sim p q -> orel (res_sim (orel vident)) (dget p k) (dget q k).
Proof.
  induction 1 as [|[k1 x] [k2 y] p q [E H] _ IH]; [exact I|]. cbn [fst snd] in *. subst k2. cbn [dget]. destruct (str_eqb k k1); [exact H|exact IH].
Qed.
Lemma dict_body_sim nested chk d e : Forall (fun kv => nested_sim nested (snd kv)) d -> wfd d -> wfd e -> vident (VDict d) (VDict e) ->
  orel (res_sim dict_sim) (dict_body L o nested chk d) (dict_body L o nested chk e).
Proof.
  intros N Wd We H. pose proof (proj1 (wf_dict d) Wd) as [Nd Vd]. pose proof (proj1 (wf_dict e) We) as [Ne Ve].
  destruct (align d e Nd Ne H) as (e' & P & F). unfold dict_body. rewrite <- (kd_raises L KD d e H). destruct (chk && l_geo_raises L d); [exact I|]. unfold dict_rest.
  set (f := fun kv : pystr * value => match parse_entry L o nested (fst kv) (snd kv) with Some p => Some (fst kv, p) | None => None end).
  assert (M1 : orel (Forall2 part_sim) (map_opt f d) (map_opt f e')).
  { apply (map_opt_rel f entry_sim part_sim); [|exact F]. intros [k a] [k' b] Ha Hb [Ek Hab]. cbn [fst snd] in *. subst k'. unfold f. cbn [fst snd].
    rewrite Forall_forall in N, Vd, Ve. pose proof (entry_sim_parse nested k a b (N _ Ha) (Vd _ Ha) (Ve _ (Permutation_in _ (Permutation_sym P) Hb)) Hab) as K.
    destruct (parse_entry L o nested k a), (parse_entry L o nested k b); cbn in *; try contradiction; [split; [reflexivity|exact K]|exact I]. }
  pose proof (map_opt_perm f e e' P) as M2.
  destruct (map_opt f d) as [ps|] eqn:E1; destruct (map_opt f e') as [ps2|] eqn:E2; cbn in M1; try contradiction; destruct (map_opt f e) as [ps'|] eqn:E3; cbn in M2; try contradiction; [|exact I].
  apply map_opt_F2 in E1, E3. pose proof (parts_keys _ _ _ E1) as K1. pose proof (parts_keys _ _ _ E3) as K3.
  assert (Np : NoDup (map fst ps)) by (rewrite K1; exact Nd). assert (Np' : NoDup (map fst ps')) by (rewrite K3; exact Ne).
  assert (Eg : (if chk then match l_geojson L d with Some g => geo_dict g | None => [] end else []) = (if chk then match l_geojson L e with Some g => geo_dict g | None => [] end else [])) by (rewrite (kd_geojson L KD d e H); reflexivity).
  rewrite <- Eg. set (geo := if chk then match l_geojson L d with Some g => geo_dict g | None => [] end else []). rewrite <- (hints_sim d e H). set (ms := match_hints L d (geo_hints o) []).
  assert (S0 : dict_sim (fold_left set_part ps geo) (fold_left set_part ps' geo)).
  { unfold dict_sim. rewrite vident_dict. intro k. rewrite (fold_parts_get ps k geo Np), (fold_parts_get ps' k geo Np'). unfold part in *.
    rewrite (dget_perm ps' ps2 k Np' M2). pose proof (parts_get ps ps2 k M1) as G. unfold part in G.
    assert (Rg : orel vident (dget geo k) (dget geo k)) by (destruct (dget geo k); cbn; [apply vident_refl|exact I]).
    destruct (dget ps k) as [[[x x1] x2]|], (dget ps2 k) as [[[y y1] y2]|]; cbn in G; try contradiction; [|exact Rg]. destruct G as (G & _). cbn in G. destruct x, y; cbn in G; try contradiction; [exact G|exact Rg]. }
  pose proof (add_hints_sim ms _ _ S0) as S1. destruct (add_hints (fold_left set_part ps geo) ms), (add_hints (fold_left set_part ps' geo) ms); cbn in S1; try contradiction; [|exact I].
  split; [exact S1|]. cbn [fst snd]. split.
  - apply Permutation_app.
    + eapply perm_trans; [|apply Permutation_map, Permutation_sym, P]. apply eq_ind with (x := map (fun kv => dotted (fst kv) (type_for (snd kv))) d); [apply Permutation_refl|].
      clear - F. induction F as [|[k a] [k' b] d e' [Ek Hab] _ IH]; [reflexivity|]. cbn [map fst snd] in *. subst k'. rewrite (type_sim a b Hab), IH. reflexivity.
    + eapply perm_trans; [|apply Permutation_flat_map, Permutation_sym, M2]. apply (flat_perm part_sim); [|exact M1]. intros [k x] [k' y] (_ & _ & K & _). exact K.
  - apply Permutation_app; [apply Permutation_refl|]. apply Permutation_app; [|apply Permutation_refl].
    eapply perm_trans; [|apply Permutation_flat_map, Permutation_sym, M2]. apply (flat_perm part_sim); [|exact M1]. intros [k x] [k' y] (_ & _ & _ & K). exact K.
Qed.
Lemma flat_iff {A B} (R : A -> B -> Prop) (f : A -> list pystr) (g : B -> list pystr) l m : (forall a b, R a b -> Permutation (f a) (g b)) -> Forall2 R l m -> forall s, In s (flat_map f l) <-> In s (flat_map g m).
Proof. intros H F s. pose proof (flat_perm R f g l m H F) as P. split; [apply Permutation_in, P|apply Permutation_in, Permutation_sym, P]. Qed.
Lemma list_body_sim nested l m : Forall (nested_sim nested) l -> Forall wf l -> Forall wf m -> Forall2 vident l m ->
  orel (res_sim (fun a b => vident (VList a) (VList b))) (list_body L o nested l) (list_body L o nested m).
Proof.
  intros N Wl Wm F. unfold list_body. rewrite Forall_forall in N, Wl, Wm.
  assert (M : orel (Forall2 (res_sim vident)) (map_opt (parse_element L o nested) l) (map_opt (parse_element L o nested) m)).
  { apply (map_opt_rel _ vident); [|exact F]. intros a b Ha Hb Hab. apply element_sim_parse; auto. }
  destruct (map_opt (parse_element L o nested) l) as [ps|], (map_opt (parse_element L o nested) m) as [qs|]; cbn in M; try contradiction; [|exact I].
  split; [|split]; cbn [fst snd].
  - apply vident_list. clear - M. induction M as [|x y ps qs H _ IH]; [constructor|]. cbn [map]. constructor; [apply H|exact IH].
  - apply nodup_perm. intro s. rewrite !in_app_iff. assert (E : map (fun v => dotted [] (type_for v)) l = map (fun v => dotted [] (type_for v)) m).
    { clear - F. induction F as [|a b l m H _ IH]; [reflexivity|]. cbn [map]. rewrite (type_sim a b H), IH. reflexivity. }
    rewrite E. rewrite (flat_iff (res_sim vident) _ (fun p => snd (fst p)) ps qs); [reflexivity| |exact M]. intros a b (_ & K & _). exact K.
  - apply nodup_perm. apply (flat_iff (res_sim vident)); [|exact M]. intros a b (_ & _ & K). exact K.
Qed.
Lemma nested_sim_all a : nested_sim (parse_nested L o) a.
Proof.
  induction a as [|x|x|x|x|l IH|d IH] using value_ind'; intros b Wa Wb H; pose proof (vident_kind _ _ H) as K; cbn in K; try (subst b; exact I).
  - destruct K as (m & ->). cbn [parse_nested]. apply wf_list in Wa, Wb. rewrite vident_list in H. pose proof (list_body_sim _ l m IH Wa Wb H) as G.
    destruct (list_body L o (parse_nested L o) l) as [[[p q] r]|], (list_body L o (parse_nested L o) m) as [[[p' q'] r']|]; cbn in *; try contradiction; [|exact I]. exact G.
  - destruct K as (e & ->). cbn [parse_nested]. pose proof (dict_body_sim _ true d e IH Wa Wb H) as G.
    destruct (dict_body L o (parse_nested L o) true d) as [[[p q] r]|], (dict_body L o (parse_nested L o) true e) as [[[p' q'] r']|]; cbn in *; try contradiction; [|exact I]. exact G.
Qed.
(** Parse results that differ only in the order of the keys of the parsed data. *)
Definition pdata_same (p q : parsed_data) : Prop :=
  vident (VDict (p_parsed p)) (VDict (p_parsed q)) /\ p_data_types p = p_data_types q /\ p_parsed_types p = p_parsed_types q.
Theorem parse_sim d e : wfd d -> wfd e -> vident (VDict d) (VDict e) -> orel pdata_same (parse L o d) (parse L o e).
Proof.
  intros Wd We H. unfold parse. assert (N : Forall (fun kv => nested_sim (parse_nested L o) (snd kv)) d) by (apply Forall_forall; intros kv _; apply nested_sim_all).
  pose proof (dict_body_sim (parse_nested L o) false d e N Wd We H) as G.
  destruct (dict_body L o (parse_nested L o) false d) as [[[p q] r]|], (dict_body L o (parse_nested L o) false e) as [[[p' q'] r']|]; cbn in *; try contradiction; [|exact I].
  destruct G as (G1 & G2 & G3). repeat split; cbn in *; [exact G1|apply compress_perm, G2|apply compress_perm, G3].
Qed.
End Sim.
