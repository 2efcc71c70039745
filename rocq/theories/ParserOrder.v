(** The result of parsing does not depend on the iteration order of the sets in the options, apart from
    the date formats. *)
From Coq Require Import String Ascii.
From Coq Require Import List ZArith NArith Bool Lia Permutation Sorted.
From Coq Require Import Floats.SpecFloat.
From Verif Require Import PyVal Time Parser ParserProofs ParserTypes.
Import ListNotations.
Open Scope nat_scope.

(** ** Sorting forgets the order *)
Lemma sorted_perm l : forall l', sorted l -> sorted l' -> Permutation l l' -> l = l'.
Proof.
  induction l as [|x l IH]; intros l' S S' P; [apply Permutation_nil in P; congruence|]. destruct l' as [|y l']; [apply Permutation_sym, Permutation_nil in P; discriminate|].
  inversion S as [|? ? S1 S2]; subst. inversion S' as [|? ? S1' S2']; subst. rewrite Forall_forall in S2, S2'.
  assert (E : x = y).
  { apply leb_antisym.
    - assert (K : In y (x :: l)) by (eapply Permutation_in; [apply Permutation_sym, P|left; reflexivity]). destruct K as [->|K]; [apply leb_refl|apply S2, K].
    - assert (K : In x (y :: l')) by (eapply Permutation_in; [apply P|left; reflexivity]). destruct K as [->|K]; [apply leb_refl|apply S2', K]. }
  subst y. f_equal. apply IH; [exact S1|exact S1'|]. exact (Permutation_cons_inv P).
Qed.
Lemma sort_eq l l' : Permutation l l' -> sort l = sort l'.
Proof. intro P. apply sorted_perm; [apply sort_sorted|apply sort_sorted|]. rewrite (sort_perm l), (sort_perm l'). exact P. Qed.
Lemma compress_perm l l' : Permutation l l' -> compress l = compress l'.
Proof. intro P. unfold compress. rewrite (sort_eq _ _ P). reflexivity. Qed.

(** ** Geographic hints *)
Section Hints.
Variable L : lib.
Lemma match_hints_flat d hs : forall ms, NoDup (dkeys ms ++ map h_lat hs) ->
  match_hints L d hs ms = ms ++ flat_map (fun h => match hint_match L d h with Some g => [(h_lat h, g)] | None => [] end) hs.
Proof.
  induction hs as [|h hs IH]; intros ms Hn; cbn [match_hints flat_map map] in *; [rewrite app_nil_r; reflexivity|].
  assert (Hk : ~ In (h_lat h) (dkeys ms)) by (apply NoDup_remove_2 in Hn; intro K; apply Hn, in_or_app; left; exact K).
  destruct (hint_match L d h) as [g|].
  - rewrite dset_new by exact Hk. rewrite IH; [rewrite <- app_assoc; reflexivity|]. unfold dkeys. rewrite map_app, <- app_assoc. exact Hn.
  - apply IH. apply NoDup_remove_1 in Hn. exact Hn.
Qed.
Lemma flat_map_perm {A B} (f : A -> list B) l l' : Permutation l l' -> Permutation (flat_map f l) (flat_map f l').
Proof.
  induction 1 as [|x l l' _ IH|x y l|l m n _ IH1 _ IH2]; cbn [flat_map]; [constructor|apply Permutation_app_head, IH| |eapply Permutation_trans; eassumption].
  rewrite !app_assoc. apply Permutation_app_tail, Permutation_app_comm.
Qed.
Lemma match_hints_perm d hs hs' : NoDup (map h_lat hs) -> Permutation hs hs' -> Permutation (match_hints L d hs []) (match_hints L d hs' []).
Proof.
  intros Hn P. rewrite !match_hints_flat; [apply Permutation_app_head, flat_map_perm, P| |exact Hn]. cbn. exact (Permutation_NoDup (Permutation_map _ P) Hn).
Qed.
Lemma dset_comm {A} (d : list (pystr * A)) k k' v v' : k <> k' -> In k (dkeys d) -> In k' (dkeys d) -> dset (dset d k v) k' v' = dset (dset d k' v') k v.
Proof.
  intros N. induction d as [|[q w] d IH]; intros H H'; [destruct H|]. cbn [dset]. cbn [dkeys map fst] in H, H'.
  destruct (str_eqb k q) eqn:E; destruct (str_eqb k' q) eqn:E'; cbn [dset].
  - apply str_eqb_eq in E, E'. congruence.
  - rewrite E', E. reflexivity.
  - rewrite E', E. reflexivity.
  - rewrite E, E'. f_equal. apply IH.
    + destruct H as [H|H]; [subst; rewrite str_eqb_refl in E; discriminate|exact H].
    + destruct H' as [H'|H']; [subst; rewrite str_eqb_refl in E'; discriminate|exact H'].
Qed.
Lemma dget_dset_other {A} (d : list (pystr * A)) k k' v : k <> k' -> dget (dset d k v) k' = dget d k'.
Proof. intro N. rewrite dget_dset. destruct (str_eqb k' k) eqn:E; [apply str_eqb_eq in E; congruence|reflexivity]. Qed.
Lemma add_hints_perm ms ms' : Permutation ms ms' -> NoDup (dkeys ms) -> forall parsed, add_hints parsed ms = add_hints parsed ms'.
Proof.
  induction 1 as [|[k g] l l' P IH|[k g] [k' g'] l|l m n P1 IH1 P2 IH2]; intros Hn parsed; cbn [add_hints].
  - reflexivity.
  - destruct (dget parsed k) as [[| | | | | |p]|]; try reflexivity. apply IH. inversion Hn; assumption.
  - assert (N : k' <> k) by (inversion Hn as [|? ? K _]; subst; intros ->; apply K; left; reflexivity).
    destruct (dget parsed k') as [v'|] eqn:E'.
    + destruct (dget parsed k) as [v|] eqn:E.
      * destruct v' as [| | | | | |p']; destruct v as [| | | | | |p]; rewrite ?dget_dset_other by congruence; rewrite ?E, ?E'; try reflexivity.
        f_equal. apply dset_comm; [exact N| |]; eapply dget_Some_key; eassumption.
      * destruct v' as [| | | | | |p']; rewrite ?dget_dset_other by congruence; rewrite ?E; reflexivity.
    + destruct (dget parsed k) as [v|] eqn:E; [|reflexivity]. destruct v as [| | | | | |p]; rewrite ?dget_dset_other by congruence; rewrite ?E'; reflexivity.
  - rewrite (IH1 Hn). apply IH2. exact (Permutation_NoDup (Permutation_map _ P1) Hn).
Qed.
End Hints.

(** ** Parsing *)
Section Order.
Variable L : lib.
Variables o o' : options.
Hypothesis same_value : forall v, parse_value L o v = parse_value L o' v.
Hypothesis one_hint : NoDup (map h_lat (geo_hints o)).
Hypothesis same_hints : Permutation (geo_hints o) (geo_hints o').

Definition sim {A} (x y : option (A * list pystr * list pystr)) : Prop :=
  match x, y with
  | Some (p, dts, pts), Some (p', dts', pts') => p = p' /\ dts = dts' /\ Permutation pts pts'
  | None, None => True
  | _, _ => False
  end.
Lemma sim_refl {A} (x : option (A * list pystr * list pystr)) : sim x x.
Proof. destruct x as [[[p dts] pts]|]; cbn; auto. Qed.
Lemma sim_map {A B} (x y : option (A * list pystr * list pystr)) (f : A -> B) (g h : list pystr -> list pystr) : (forall l l', Permutation l l' -> Permutation (h l) (h l')) -> sim x y ->
  sim (match x with None => None | Some (p, dts, pts) => Some (f p, g dts, h pts) end) (match y with None => None | Some (p, dts, pts) => Some (f p, g dts, h pts) end).
Proof. intros Hh. destruct x as [[[p dts] pts]|], y as [[[p' dts'] pts']|]; cbn; auto. intros (-> & -> & P). auto. Qed.
Lemma entry_sim n n' k v : sim (n v) (n' v) -> sim (parse_entry L o n k v) (parse_entry L o' n' k v).
Proof.
  intro H. unfold parse_entry. destruct v as [|b|z|f|s|l|d]; cbn [sim]; rewrite ?same_value; auto.
  - destruct s; cbn; auto.
  - destruct (is_empty (VList l)); [cbn; auto|]. apply (sim_map _ _ Some (map (dotted k)) (map (dotted k))); [intros ? ?; apply Permutation_map|exact H].
  - destruct (is_empty (VDict d)); [cbn; auto|]. apply (sim_map _ _ Some (map (dotted k)) (map (dotted k))); [intros ? ?; apply Permutation_map|exact H].
Qed.
Lemma element_sim n n' v : sim (n v) (n' v) -> sim (parse_element L o n v) (parse_element L o' n' v).
Proof.
  intro H. unfold parse_element. destruct v as [|b|z|f|s|l|d]; cbn [sim]; rewrite ?same_value; auto.
  - destruct s; cbn; auto.
  - destruct (is_empty (VList l)); [cbn; auto|]. apply (sim_map _ _ (fun p => p) (map (dotted [])) (fun p => p)); [auto|exact H].
  - destruct (is_empty (VDict d)); [cbn; auto|]. apply (sim_map _ _ (fun p => p) (map (dotted [])) (fun p => p)); [auto|exact H].
Qed.
(** specification or proof device; models no code of its own *)
Definition psim (p q : part) : Prop := fst p = fst q /\ Permutation (snd p) (snd q).
Lemma sim_psim (x y : option part) : sim x y -> match x, y with Some p, Some q => psim p q | None, None => True | _, _ => False end.
Proof. destruct x as [[[p dts] pts]|], y as [[[p' dts'] pts']|]; cbn; auto. intros (-> & -> & P). split; auto. Qed.
Lemma map_opt_sim {A B} (R : B -> B -> Prop) (f g : A -> option B) l :
  Forall (fun x => match f x, g x with Some p, Some q => R p q | None, None => True | _, _ => False end) l ->
  match map_opt f l, map_opt g l with Some ps, Some qs => Forall2 R ps qs | None, None => True | _, _ => False end.
Proof.
  induction 1 as [|x l Hx _ IH]; cbn [map_opt]; [constructor|]. destruct (f x) as [p|], (g x) as [q|]; try (destruct Hx; fail); [|exact I].
  destruct (map_opt f l) as [ps|], (map_opt g l) as [qs|]; try (destruct IH; fail); [|exact I]. constructor; assumption.
Qed.
Lemma flat_perm {A B} (R : A -> A -> Prop) (f : A -> list B) l l' : (forall x y, R x y -> Permutation (f x) (f y)) -> Forall2 R l l' -> Permutation (flat_map f l) (flat_map f l').
Proof. intro H. induction 1 as [|x y l l' Hx _ IH]; cbn [flat_map]; [constructor|]. apply Permutation_app; auto. Qed.
Lemma flat_eq {A B} (R : A -> A -> Prop) (f : A -> list B) l l' : (forall x y, R x y -> f x = f y) -> Forall2 R l l' -> flat_map f l = flat_map f l'.
Proof. intro H. induction 1 as [|x y l l' Hx _ IH]; cbn [flat_map]; [reflexivity|]. rewrite IH, (H _ _ Hx). reflexivity. Qed.

Lemma dict_sim n n' chk d : Forall (fun kv => sim (n (snd kv)) (n' (snd kv))) d -> sim (dict_body L o n chk d) (dict_body L o' n' chk d).
Proof.
  intro H. unfold dict_body. destruct (chk && l_geo_raises L d); [reflexivity|]. unfold dict_rest.
  pose proof (map_opt_sim (fun p q : pystr * part => fst p = fst q /\ psim (snd p) (snd q))
    (fun kv => match parse_entry L o n (fst kv) (snd kv) with Some p => Some (fst kv, p) | None => None end)
    (fun kv => match parse_entry L o' n' (fst kv) (snd kv) with Some p => Some (fst kv, p) | None => None end) d) as M.
  assert (HF : Forall (fun kv : pystr * value => match (match parse_entry L o n (fst kv) (snd kv) with Some p => Some (fst kv, p) | None => None end), (match parse_entry L o' n' (fst kv) (snd kv) with Some p => Some (fst kv, p) | None => None end) with
     Some p, Some q => fst p = fst q /\ psim (snd p) (snd q) | None, None => True | _, _ => False end) d).
  { rewrite Forall_forall in *. intros kv Hkv. pose proof (sim_psim _ _ (entry_sim n n' (fst kv) (snd kv) (H kv Hkv))) as Q. destruct (parse_entry L o n _ _), (parse_entry L o' n' _ _); cbn; auto. }
  specialize (M HF). clear HF.
  destruct (map_opt _ d) as [ps|], (map_opt _ d) as [qs|]; try (destruct M; fail); [|exact I].
  set (geo := if chk then match l_geojson L d with Some g => geo_dict g | None => [] end else []).
  assert (Ef : forall acc, fold_left set_part ps acc = fold_left set_part qs acc).
  { clear - M. induction M as [|p q ps qs Hp _ IH]; intro acc; [reflexivity|]. cbn [fold_left]. destruct p as [k [[v dts] pts]], q as [k' [[v' dts'] pts']], Hp as [E [E' _]]. cbn in E, E'. injection E' as -> _. subst k'. cbn [set_part]. apply IH. }
  rewrite Ef. pose proof (match_hints_perm L d _ _ one_hint same_hints) as Pm. rewrite (add_hints_perm _ _ Pm); [|apply match_hints_nodup; constructor].
  destruct (add_hints _ _) as [parsed|]; [|exact I]. cbn [sim]. split; [reflexivity|]. split.
  - f_equal. apply (flat_eq _ _ _ _ (fun x y (R : fst x = fst y /\ psim (snd x) (snd y)) => f_equal snd (proj1 (proj2 R))) M).
  - apply Permutation_app_head. apply Permutation_app; [|apply flat_map_perm, Pm]. apply (flat_perm _ _ _ _ (fun x y (R : fst x = fst y /\ psim (snd x) (snd y)) => proj2 (proj2 R)) M).
Qed.
Lemma nodup_perm (l l' : list pystr) : Permutation l l' -> Permutation (nodup str_eq_dec l) (nodup str_eq_dec l').
Proof.
  intro P. apply NoDup_Permutation; [apply NoDup_nodup|apply NoDup_nodup|]. intro x. rewrite !nodup_In. split; apply Permutation_in; [exact P|apply Permutation_sym, P].
Qed.
Lemma list_sim n n' l : Forall (fun v => sim (n v) (n' v)) l -> sim (list_body L o n l) (list_body L o' n' l).
Proof.
  intro H. unfold list_body. set (R := fun p q : value * list pystr * list pystr => fst p = fst q /\ Permutation (snd p) (snd q)).
  pose proof (map_opt_sim R (parse_element L o n) (parse_element L o' n') l) as M.
  assert (HF : Forall (fun v => match parse_element L o n v, parse_element L o' n' v with Some p, Some q => R p q | None, None => True | _, _ => False end) l).
  { rewrite Forall_forall in *. intros v Hv. pose proof (element_sim n n' v (H v Hv)) as Q. destruct (parse_element L o n v) as [[[p dts] pts]|], (parse_element L o' n' v) as [[[p' dts'] pts']|]; cbn in Q |- *; auto. destruct Q as (-> & -> & Q). split; auto. }
  specialize (M HF). clear HF. destruct (map_opt _ l) as [ps|], (map_opt _ l) as [qs|]; try (destruct M; fail); [|exact I]. cbn [sim].
  split; [|split].
  - clear - M. induction M as [|p q ps qs [Hp _] _ IH]; [reflexivity|]. cbn [map]. rewrite IH, Hp. reflexivity.
  - f_equal. f_equal. apply (flat_eq R _ _ _ (fun x y r => f_equal snd (proj1 r)) M).
  - apply nodup_perm. apply (flat_perm R _ _ _ (fun x y r => proj2 r) M).
Qed.
Lemma nested_sim v : sim (parse_nested L o v) (parse_nested L o' v).
Proof.
  induction v as [|b|z|f|s|l IH|d IH] using value_ind'; try exact I; cbn [parse_nested].
  - apply (sim_map _ _ VList (fun x => x) (fun x => x)); [auto|]. apply list_sim, IH.
  - apply (sim_map _ _ VDict (fun x => x) (fun x => x)); [auto|]. apply dict_sim, IH.
Qed.
Theorem parse_reordered d : parse L o d = parse L o' d.
Proof.
  unfold parse. pose proof (dict_sim (parse_nested L o) (parse_nested L o') false d) as S.
  assert (F : Forall (fun kv => sim (parse_nested L o (snd kv)) (parse_nested L o' (snd kv))) d) by (apply Forall_forall; intros kv _; apply nested_sim).
  specialize (S F). destruct (dict_body L o _ false d) as [[[p dts] pts]|], (dict_body L o' _ false d) as [[[p' dts'] pts']|]; cbn [sim] in S; try (destruct S; fail); [|reflexivity].
  destruct S as (-> & -> & P). rewrite (compress_perm _ _ P). reflexivity.
Qed.
End Order.

(** ** One top level field *)
Section Field.
Variable L : lib.
Variable o : options.
Lemma add_hints_get ms : forall parsed parsed', add_hints parsed ms = Some parsed' -> forall k p, dget parsed k = Some (VDict p) ->
  exists p', dget parsed' k = Some (VDict p') /\ forall t, t <> pt_gp -> t <> pt_gs -> dget p' t = dget p t.
Proof.
  induction ms as [|[k g] ms IH]; intros parsed parsed' H k' p Hp; cbn [add_hints] in H; [injection H as <-; eauto|].
  destruct (dget parsed k) as [[| | | | | |q]|] eqn:E; try discriminate. destruct (str_eq_dec k k') as [->|N].
  - rewrite Hp in E. injection E as <-. destruct (IH _ _ H k' (dupdate p (geo_dict g))) as (p' & P1 & P2); [rewrite dget_dset, str_eqb_refl; reflexivity|]. exists p'. split; [exact P1|]. intros t T1 T2. rewrite P2 by assumption.
    rewrite dget_dupdate by (repeat constructor; cbn; intuition discriminate). cbn [geo_dict dget]. destruct (str_eqb t pt_gp) eqn:E1; [apply str_eqb_eq in E1; contradiction|]. destruct (str_eqb t pt_gs) eqn:E2; [apply str_eqb_eq in E2; contradiction|reflexivity].
  - apply (IH _ _ H). rewrite dget_dset_other by exact N. exact Hp.
Qed.
Lemma parse_field d r k v : NoDup (dkeys d) -> parse L o d = Some r -> dget d k = Some v -> parsed_as_value v ->
  exists p, dget (p_parsed r) k = Some (VDict p) /\ forall t, t <> pt_gp -> t <> pt_gs -> dget p t = dget (parse_value L o v) t.
Proof.
  unfold parse. intros Hn H Hk Hv. destruct (dict_body L o (parse_nested L o) false d) as [[[q dts] pts]|] eqn:E; [|discriminate]. injection H as <-. cbn [p_parsed]. apply dict_body_some in E. unfold dict_rest in E.
  destruct (map_opt _ d) as [parts|] eqn:Ep; [|discriminate]. destruct (add_hints _ _) as [parsed|] eqn:Ea; [|discriminate]. injection E as <- _ _. apply map_opt_F2 in Ep.
  assert (Ek : map (@fst pystr part) parts = dkeys d).
  { clear - Ep. induction Ep as [|kv p d parts E _ IH]; [reflexivity|]. cbn [map dkeys]. rewrite IH. destruct (parse_entry L o _ (fst kv) (snd kv)); [injection E as <-; reflexivity|discriminate]. }
  rewrite set_parts in Ea by (rewrite Ek; exact Hn). apply (add_hints_get _ _ _ Ea). cbn [app].
  set (F := fun kp : pystr * part => match kp with (k, (Some p, _, _)) => [(k, p)] | _ => [] end) in *.
  apply In_dget.
  - rewrite <- Ek in Hn. clear - Hn F. induction parts as [|[k [[p dts] pts]] parts IH]; [constructor|]. cbn [map fst] in Hn. inversion Hn as [|? ? N1 N2]; subst. specialize (IH N2).
    assert (I : forall x, In x (dkeys (flat_map F parts)) -> In x (map fst parts)).
    { clear - F. intro x. induction parts as [|[k [[p dts] pts]] parts IH]; [auto|]. cbn [flat_map]. change (F (k, (p, dts, pts))) with (match p with Some p => [(k, p)] | None => [] end). unfold dkeys. rewrite map_app, in_app_iff. destruct p as [p|]; cbn [map fst In]; intros [K|K]; auto; try (destruct K as [K|[]]; auto); try (destruct K; fail). }
    cbn [flat_map]. change (F (k, (p, dts, pts))) with (match p with Some p => [(k, p)] | None => [] end). destruct p as [p|]; cbn [app]; [|exact IH]. cbn [dkeys map fst]. constructor; [intro K; apply N1, I, K|exact IH].
  - apply dget_In in Hk. apply in_flat_map. clear Ea Ek Hn. induction Ep as [|kv p d parts E _ IH]; [destruct Hk|]. destruct Hk as [->|Hk]; [|destruct (IH Hk) as (x & X1 & X2); exists x; split; [right; exact X1|exact X2]].
    exists p. split; [left; reflexivity|]. cbn [fst snd] in E. destruct v as [|b|z|f|[|c s]|l|e]; try (destruct Hv; fail); cbn [parse_entry] in E; injection E as <-; left; reflexivity.
Qed.
End Field.
