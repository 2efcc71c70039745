(** Facts about the parser: rebuilding, the shape of parsed values. *)
From Coq Require Import String Ascii.
From Coq Require Import List ZArith NArith Bool Lia.
From Coq Require Import Floats.SpecFloat.
From Verif Require Import PyVal Time Parser.
Import ListNotations.
Open Scope nat_scope.

(** ** Specification *)
(** What indexing forgets: empty dicts and lists, and the empty string inside lists. *)
Fixpoint forget (v : value) : value :=
  match v with
  | VDict d => VDict (flat_map (fun kv => if is_empty (snd kv) then [] else [(fst kv, forget (snd kv))]) d)
  | VList l => VList (map (fun x => if is_empty x then VNone else match x with VStr [] => VNone | _ => forget x end) l)
  | _ => v
  end.
Definition forget_dict (d : dict) : dict := flat_map (fun kv => if is_empty (snd kv) then [] else [(fst kv, forget (snd kv))]) d.
(** Field names inside nested dicts start with "_" only if they are "_id" (C06: ingest ensures it). *)
Fixpoint fine (v : value) : Prop :=
  match v with
  | VDict d => Forall (fun kv => kept (fst kv) = true) d /\ (fix all d := match d with [] => True | kv :: r => fine (snd kv) /\ all r end) d
  | VList l => (fix all l := match l with [] => True | x :: r => fine x /\ all r end) l
  | _ => True
  end.
Lemma fine_dict d : fine (VDict d) <-> Forall (fun kv => kept (fst kv) = true) d /\ Forall (fun kv => fine (snd kv)) d.
Proof.
  cbn [fine]. apply and_iff_compat_l. induction d as [|x d IH]; [split; auto|]. rewrite IH. split; [intros [A B]; constructor; auto|intro H; inversion H; auto].
Qed.
Lemma fine_list l : fine (VList l) <-> Forall fine l.
Proof. cbn [fine]. induction l as [|x l IH]; [split; auto|]. rewrite IH. split; [intros [A B]; constructor; auto|intro H; inversion H; auto]. Qed.

Lemma map_opt_F2 {A B} (f : A -> option B) l : forall l', map_opt f l = Some l' <-> Forall2 (fun x y => f x = Some y) l l'.
Proof.
  induction l as [|x l IH]; intro l'; cbn [map_opt].
  - split; [intro H; injection H as <-; constructor|intro H; inversion H; reflexivity].
  - split.
    + destruct (f x) as [y|] eqn:E; [|discriminate]. destruct (map_opt f l) as [ys|] eqn:El; [|discriminate]. intro H. injection H as <-. constructor; [exact E|apply IH; reflexivity].
    + intro H. inversion H as [|? y ? ys E Hr]; subst. rewrite E. apply IH in Hr. rewrite Hr. reflexivity.
Qed.

Section Proofs.
Variable L : lib.
Variable o : options.

Definition rb (kv : pystr * value) : pystr * value := (fst kv, rebuild (snd kv)).
Lemma kept_u : kept pt_u = false. Proof. reflexivity. Qed.
Lemma kept_gp : kept pt_gp = false. Proof. reflexivity. Qed.
Lemma kept_gs : kept pt_gs = false. Proof. reflexivity. Qed.

Lemma dset_rb (d : dict) k v w : dget d k = Some w -> rebuild v = rebuild w -> map rb (dset d k v) = map rb d.
Proof.
  intros H E. induction d as [|[k' v'] d IH]; [discriminate|]. cbn [dget dset] in *. destruct (str_eqb k k') eqn:Ek.
  - injection H as ->. cbn [map]. unfold rb at 1 3. cbn [fst snd]. rewrite E. reflexivity.
  - cbn [map]. rewrite IH by exact H. reflexivity.
Qed.
Lemma kept_dset (d : dict) k v : kept k = false ->
  flat_map (fun kv => if kept (fst kv) then [rb kv] else []) (dset d k v) = flat_map (fun kv => if kept (fst kv) then [rb kv] else []) d.
Proof.
  intro H. induction d as [|[k' v'] d IH]; cbn [dset flat_map fst]; [rewrite H; reflexivity|]. destruct (str_eqb k k') eqn:E.
  - apply str_eqb_eq in E. subst k'. cbn [flat_map fst]. rewrite H. reflexivity.
  - cbn [flat_map fst]. rewrite IH. reflexivity.
Qed.
Lemma rebuild_geo p g : rebuild (VDict (dupdate p (geo_dict g))) = rebuild (VDict p).
Proof.
  cbn [rebuild]. rewrite dget_dupdate by (repeat constructor; cbn; intuition discriminate). change (dget (geo_dict g) pt_u) with (@None value).
  destruct (dget p pt_u); [reflexivity|]. f_equal. unfold dupdate, geo_dict. cbn [fold_left fst snd]. rewrite !kept_dset by reflexivity. reflexivity.
Qed.
Lemma add_hints_rb ms : forall parsed parsed', add_hints parsed ms = Some parsed' -> map rb parsed' = map rb parsed.
Proof.
  induction ms as [|[k g] ms IH]; intros parsed parsed' H; cbn [add_hints] in H; [injection H as <-; reflexivity|].
  destruct (dget parsed k) as [[| | | | | |p]|] eqn:E; try discriminate. rewrite (IH _ _ H). apply (dset_rb _ _ _ _ E), rebuild_geo.
Qed.
Lemma dset_new {A} (d : list (pystr * A)) k v : ~ In k (dkeys d) -> dset d k v = d ++ [(k, v)].
Proof.
  intro H. induction d as [|[k' v'] d IH]; [reflexivity|]. cbn [dset dkeys map fst app] in *. destruct (str_eqb k k') eqn:E; [apply str_eqb_eq in E; subst; exfalso; apply H; left; reflexivity|].
  rewrite IH by (intro K; apply H; right; exact K). reflexivity.
Qed.
Lemma set_parts (parts : list (pystr * part)) : forall acc : dict, NoDup (dkeys acc ++ map fst parts) ->
  fold_left set_part parts acc = acc ++ flat_map (fun kp => match kp with (k, (Some p, _, _)) => [(k, p)] | _ => [] end) parts.
Proof.
  induction parts as [|[k [[q dts] pts]] parts IH]; intros acc Hn; [cbn; rewrite app_nil_r; reflexivity|]. cbn [fold_left set_part flat_map map fst] in *.
  destruct q as [p|].
  - assert (Hk : ~ In k (dkeys acc)) by (apply NoDup_remove_2 in Hn; intro K; apply Hn, in_or_app; left; exact K).
    rewrite IH; [rewrite dset_new by exact Hk; rewrite <- app_assoc; reflexivity|]. rewrite dkeys_dset_notin by exact Hk. rewrite <- app_assoc. exact Hn.
  - apply IH. apply NoDup_remove_1 in Hn. exact Hn.
Qed.

Definition nested_ok (nested : value -> option (value * list pystr * list pystr)) (v : value) : Prop :=
  forall p dts pts, nested v = Some (p, dts, pts) -> rebuild p = forget v.
Lemma parse_value_u v : dget (parse_value L o v) pt_u = Some v.
Proof. reflexivity. Qed.
Lemma entry_ok nested k v p : nested_ok nested v -> parse_entry L o nested k v = Some p ->
  match fst (fst p) with Some q => is_empty v = false /\ rebuild q = forget v | None => is_empty v = true end.
Proof.
  intros Hn H. unfold parse_entry in H. destruct v as [|b|z|f|s|l|d].
  - injection H as <-. cbn. auto.
  - injection H as <-. cbn [fst is_empty rebuild]. rewrite parse_value_u. auto.
  - injection H as <-. cbn [fst is_empty rebuild]. rewrite parse_value_u. auto.
  - injection H as <-. cbn [fst is_empty rebuild]. rewrite parse_value_u. auto.
  - destruct s as [|c s]; injection H as <-; cbn [fst is_empty rebuild]; [auto|]. rewrite parse_value_u. auto.
  - destruct (is_empty (VList l)) eqn:E; [injection H as <-; cbn; reflexivity|]. destruct (nested (VList l)) as [[[q dts] pts]|] eqn:En; [|discriminate]. injection H as <-. cbn [fst]. split; [reflexivity|]. exact (Hn _ _ _ En).
  - destruct (is_empty (VDict d)) eqn:E; [injection H as <-; cbn; reflexivity|]. destruct (nested (VDict d)) as [[[q dts] pts]|] eqn:En; [|discriminate]. injection H as <-. cbn [fst]. split; [reflexivity|]. exact (Hn _ _ _ En).
Qed.
Lemma geo_keys (d : dict) (chk : bool) : Forall (fun k => kept k = false) (dkeys (if chk then match l_geojson L d with Some g => geo_dict g | None => [] end else [])).
Proof. destruct chk; [destruct (l_geojson L d); repeat constructor|constructor]. Qed.
Lemma dict_rb nested chk d parsed dts pts : dict_body L o nested chk d = Some (parsed, dts, pts) ->
  NoDup (dkeys d) -> Forall (fun kv => nested_ok nested (snd kv)) d -> (chk = true -> Forall (fun kv => kept (fst kv) = true) d) ->
  exists geo : dict, Forall (fun k => kept k = false) (dkeys geo) /\ ~ In pt_u (dkeys geo) /\ (chk = false -> geo = []) /\ map rb parsed = map rb geo ++ forget_dict d.
Proof.
  intros H Hnd Hne Hk. apply dict_body_some in H. unfold dict_rest in H. destruct (map_opt _ d) as [parts|] eqn:Ep; [|discriminate].
  set (geo := if chk then match l_geojson L d with Some g => geo_dict g | None => [] end else []) in *.
  destruct (add_hints (fold_left set_part parts geo) (match_hints L d (geo_hints o) [])) as [q|] eqn:Ea; [|discriminate]. injection H as <- <- <-.
  exists geo. split; [apply geo_keys|]. split; [unfold geo; destruct chk; [destruct (l_geojson L d)|]; cbn; intuition discriminate|]. split; [intros ->; reflexivity|]. rewrite (add_hints_rb _ _ _ Ea).
  apply map_opt_F2 in Ep.
  assert (Ek : map (@fst pystr part) parts = dkeys d).
  { clear - Ep. induction Ep as [|kv p d parts E _ IH]; [reflexivity|]. cbn [map dkeys]. rewrite IH. destruct (parse_entry L o nested (fst kv) (snd kv)); [injection E as <-; reflexivity|discriminate]. }
  rewrite set_parts.
  - rewrite map_app. f_equal. clear - Ep Hne. induction Ep as [|kv p d parts E _ IH]; [reflexivity|]. inversion Hne as [|? ? Hn1 Hn2]; subst. cbn [flat_map map]. unfold forget_dict. cbn [flat_map]. fold (forget_dict d). rewrite map_app, (IH Hn2).
    destruct (parse_entry L o nested (fst kv) (snd kv)) as [[[q dts] pts]|] eqn:Ee; [|discriminate]. injection E as <-. pose proof (entry_ok _ _ _ _ Hn1 Ee) as K. cbn [fst] in K.
    destruct q as [q|]; [destruct K as [K1 K2]; rewrite K1|rewrite K]; cbn [map app]; unfold rb; cbn [fst snd]; [rewrite K2|]; reflexivity.
  - rewrite Ek. pose proof (geo_keys d chk) as Hg. fold geo in Hg. 
    assert (Ng : NoDup (dkeys geo)) by (unfold geo; destruct chk; [destruct (l_geojson L d)|]; repeat constructor; cbn; intuition discriminate).
    destruct chk; [|exact Hnd]. specialize (Hk eq_refl). clear - Hg Ng Hnd Hk. induction (dkeys geo) as [|x l IH]; [exact Hnd|]. inversion Hg; inversion Ng; subst. cbn [app]. constructor; [|apply IH; assumption].
    intro K. apply in_app_or in K. destruct K as [K|K]; [contradiction|]. apply in_map_iff in K. destruct K as (kv & K1 & K2). rewrite Forall_forall in Hk. apply Hk in K2. congruence.
Qed.
Lemma flat_kept (l : dict) : flat_map (fun kv => if kept (fst kv) then [rb kv] else []) l = flat_map (fun kv => if kept (fst kv) then [kv] else []) (map rb l).
Proof. induction l as [|kv l IH]; [reflexivity|]. cbn [flat_map map]. rewrite IH. unfold rb at 3. cbn [fst]. destruct (kept (fst kv)); reflexivity. Qed.
Lemma nested_all v : wf v -> fine v -> nested_ok (parse_nested L o) v.
Proof.
  induction v as [|b|z|f|s|l IHl|d IHd] using value_ind'; intros Hw Hf p dts pts H; try discriminate.
  - cbn [parse_nested] in H. destruct (list_body L o (parse_nested L o) l) as [[[q dts'] pts']|] eqn:E; [|discriminate]. injection H as <- <- <-. unfold list_body in E.
    destruct (map_opt _ l) as [ps|] eqn:Ep; [|discriminate]. injection E as <- _ _. apply map_opt_F2 in Ep. cbn [rebuild forget]. f_equal. apply wf_list in Hw. apply fine_list in Hf.
    clear - Ep IHl Hw Hf. induction Ep as [|x p l ps E _ IH]; [reflexivity|]. inversion IHl; inversion Hw; inversion Hf; subst. cbn [map]. rewrite IH by assumption. f_equal. clear IH.
    match goal with Hp : wf x -> fine x -> nested_ok _ x, Hx : wf x, Hy : fine x |- _ => specialize (Hp Hx Hy); rename Hp into N end.
    unfold parse_element in E. destruct x as [|b|z|f|s|l0|d0].
    + injection E as <-. reflexivity.
    + injection E as <-. cbn [fst is_empty rebuild forget]. rewrite parse_value_u. reflexivity.
    + injection E as <-. cbn [fst is_empty rebuild forget]. rewrite parse_value_u. reflexivity.
    + injection E as <-. cbn [fst is_empty rebuild forget]. rewrite parse_value_u. reflexivity.
    + destruct s; injection E as <-; cbn [fst is_empty rebuild forget]; [reflexivity|]. rewrite parse_value_u. reflexivity.
    + destruct (is_empty (VList l0)) eqn:Em; [injection E as <-; reflexivity|]. destruct (parse_nested L o (VList l0)) as [[[q dts] pts]|] eqn:En; [|discriminate]. injection E as <-. exact (N _ _ _ En).
    + destruct (is_empty (VDict d0)) eqn:Em; [injection E as <-; reflexivity|]. destruct (parse_nested L o (VDict d0)) as [[[q dts] pts]|] eqn:En; [|discriminate]. injection E as <-. exact (N _ _ _ En).
  - cbn [parse_nested] in H. destruct (dict_body L o (parse_nested L o) true d) as [[[q dts'] pts']|] eqn:E; [|discriminate]. injection H as <- <- <-.
    apply wf_dict in Hw. destruct Hw as [Hw1 Hw2]. apply fine_dict in Hf. destruct Hf as [Hf1 Hf2].
    assert (Hne : Forall (fun kv => nested_ok (parse_nested L o) (snd kv)) d).
    { clear - IHd Hw2 Hf2. induction d as [|kv d IH]; [constructor|]. inversion IHd; inversion Hw2; inversion Hf2; subst. constructor; auto. }
    destruct (dict_rb _ _ _ _ _ _ E Hw1 Hne (fun _ => Hf1)) as (geo & G1 & G0 & _ & G2).
    assert (Hfk : Forall (fun kv => kept (fst kv) = true) (forget_dict d)).
    { clear - Hf1. unfold forget_dict. induction Hf1 as [|kv d K _ IH]; [constructor|]. cbn [flat_map]. destruct (is_empty (snd kv)); [exact IH|constructor; [exact K|exact IH]]. }
    assert (Hu : dget q pt_u = None).
    { apply dget_None. replace (dkeys q) with (map fst (map rb q)) by (rewrite map_map; reflexivity). rewrite G2, map_app, in_app_iff. intros [K|K].
      - rewrite map_map in K. change (map (fun x => fst (rb x)) geo) with (dkeys geo) in K. exact (G0 K).
      - apply in_map_iff in K. destruct K as (kv & K1 & K2). rewrite Forall_forall in Hfk. apply Hfk in K2. rewrite K1 in K2. discriminate. }
    cbn [rebuild]. rewrite Hu. cbn [forget]. f_equal. change (flat_map (fun kv => if kept (fst kv) then [(fst kv, rebuild (snd kv))] else []) q) with (flat_map (fun kv => if kept (fst kv) then [rb kv] else []) q).
    rewrite flat_kept, G2, flat_map_app. fold (forget_dict d). rewrite <- (app_nil_l (forget_dict d)) at 2. f_equal.
    + clear - G1. induction geo as [|kv g IH]; [reflexivity|]. inversion G1 as [|? ? K1 K2]; subst. cbn [map flat_map]. unfold rb at 1. cbn [fst]. rewrite K1. apply IH, K2.
    + clear - Hfk. induction Hfk as [|kv g K _ IH]; [reflexivity|]. cbn [flat_map]. rewrite K. cbn [app]. rewrite IH. reflexivity.
Qed.
Theorem rebuild_parse d r : wfd d -> Forall (fun kv => fine (snd kv)) d -> parse L o d = Some r -> rebuild_data (p_parsed r) = forget_dict d.
Proof.
  unfold parse. intros Hw Hf H. destruct (dict_body L o (parse_nested L o) false d) as [[[q dts] pts]|] eqn:E; [|discriminate]. injection H as <-. cbn [p_parsed].
  apply wf_dict in Hw. destruct Hw as [Hw1 Hw2].
  assert (Hne : Forall (fun kv => nested_ok (parse_nested L o) (snd kv)) d).
  { clear - Hw2 Hf. induction d as [|kv d IH]; [constructor|]. inversion Hw2; inversion Hf; subst. constructor; [apply nested_all; assumption|apply IH; assumption]. }
  destruct (dict_rb _ _ _ _ _ _ E Hw1 Hne ltac:(discriminate)) as (geo & _ & _ & G & G2). rewrite (G eq_refl) in G2. exact G2.
Qed.
End Proofs.
