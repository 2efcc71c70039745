(** Which values can be written as JSON, and that what parse makes of such values can be. *)
From Coq Require Import String Ascii.
From Coq Require Import List ZArith NArith Bool Lia.
From Coq Require Import Floats.SpecFloat.
From Verif Require Import PyVal Diff Mongo Time TimeProofs Names Json Bulk Parser ParserProofs Index.
Import ListNotations.
Local Open Scope string_scope.
Local Open Scope list_scope.
Local Open Scope nat_scope.

(** ** Values that can be written *)
(** no surrogates: can be encoded in UTF-8 (specification, models no code) *)
Definition unicode (s : pystr) : Prop := forall c, In c s -> ~ (55296 <= c <= 57343)%N.
(** specification or proof device; models no code of its own *)
Definition in_64_bits (z : Z) : Prop := (- 2 ^ 63 <= z < 2 ^ 64)%Z.
(** specification or proof device; models no code of its own *)
Inductive encodable : value -> Prop :=
| en_none : encodable VNone
| en_bool b : encodable (VBool b)
| en_int z : in_64_bits z -> encodable (VInt z)
| en_float f : encodable (VFloat f)
| en_str s : unicode s -> encodable (VStr s)
| en_list l : (forall v, In v l -> encodable v) -> encodable (VList l)
| en_dict d : (forall k v, In (k, v) d -> unicode k /\ encodable v) -> encodable (VDict d).

Lemma unicode_b s : unicode s <-> existsb surrogate s = false.
Proof.
  unfold unicode. split.
  - intro H. destruct (existsb surrogate s) eqn:E; [|reflexivity]. exfalso. apply existsb_exists in E. destruct E as (c & C1 & C2). unfold surrogate in C2. rewrite andb_true_iff, !N.leb_le in C2. exact (H c C1 C2).
  - intros H c C1 C2. assert (E : existsb surrogate s = true); [|congruence]. apply existsb_exists. exists c. split; [exact C1|]. unfold surrogate. rewrite andb_true_iff, !N.leb_le. exact C2.
Qed.
Lemma all_some_none {A B} (f : A -> option B) l : (exists ts, all_some (map f l) = Some ts) <-> forall x, In x l -> f x <> None.
Proof.
  induction l as [|x l IH]; cbn [map all_some]; [split; [intros _ y []|intros _; eexists; reflexivity]|]. split.
  - intros (ts & H) y [<-|Hy]; [destruct (f x); [discriminate|discriminate]|]. destruct (f x); [|discriminate]. destruct (all_some (map f l)) as [us|] eqn:E; [|discriminate]. apply IH; [eauto|exact Hy].
  - intro H. destruct (f x) as [t|] eqn:E; [|exfalso; exact (H x (or_introl eq_refl) E)]. destruct (proj2 IH) as (us & ->); [intros y Hy; apply H; right; exact Hy|]. eauto.
Qed.
Lemma dumps_some ft v : dumps ft v <> None <-> encodable v.
Proof.
  induction v as [|b|z|f|s|l IH|d IH] using value_ind'; cbn [dumps].
  - split; [constructor|discriminate].
  - split; [constructor|discriminate].
  - unfold int64. split.
    + intro H. constructor. unfold in_64_bits. destruct (Z.leb_spec (-9223372036854775808) z), (Z.leb_spec z 18446744073709551615); try contradiction. lia.
    + intro H. inversion H as [| |? B| | | |]; subst. unfold in_64_bits in B. destruct (Z.leb_spec (-9223372036854775808) z); [|lia]. destruct (Z.leb_spec z 18446744073709551615); [|lia]. discriminate.
  - split; [constructor|]. destruct f; discriminate.
  - unfold dumps_str. split.
    + intro H. constructor. apply unicode_b. destruct (existsb surrogate s); [contradiction|reflexivity].
    + intro H. inversion H as [| | | |? U| |]; subst. apply unicode_b in U. rewrite U. discriminate.
  - rewrite Forall_forall in IH. split.
    + intro H. constructor. intros v Hv. apply (IH v Hv). destruct (all_some (map (dumps ft) l)) as [ts|] eqn:E; [|contradiction]. apply (proj1 (all_some_none (dumps ft) l)); [eauto|exact Hv].
    + intro H. inversion H as [| | | | |? F|]; subst. destruct (proj2 (all_some_none (dumps ft) l)) as (ts & ->); [|discriminate]. intros v Hv. apply (IH v Hv), F, Hv.
  - rewrite Forall_forall in IH. set (f := fun kv : pystr * value => match dumps_str (fst kv), dumps ft (snd kv) with Some k, Some t => Some (k ++ 58%N :: t) | _, _ => None end). split.
    + intro H. constructor. intros k v Hv. destruct (all_some (map f d)) as [ts|] eqn:E; [|contradiction]. pose proof (proj1 (all_some_none f d) (ex_intro _ ts E) _ Hv) as K. unfold f in K. cbn [fst snd] in K. split.
      * apply unicode_b. unfold dumps_str in K. destruct (existsb surrogate k); [contradiction|reflexivity].
      * apply (IH _ Hv). cbn [snd]. destruct (dumps_str k); [|contradiction]. destruct (dumps ft v); [discriminate|contradiction].
    + intro H. inversion H as [| | | | | |? F]; subst. destruct (proj2 (all_some_none f d)) as (ts & ->); [|discriminate]. intros [k v] Hv. destruct (F k v Hv) as [U V]. unfold f, dumps_str. cbn [fst snd]. apply unicode_b in U. rewrite U. apply (IH _ Hv) in V. cbn [snd] in V. destruct (dumps ft v); [discriminate|contradiction].
Qed.

(** ** Documents (indexing/index.py:157-175 [create_doc]) *)
Definition doc_dict {P} (d : esdoc P) (r : parsed_data) : dict :=
  [(lit "id", VStr (e_id d)); (lit "version", VInt (e_ver d));
   (lit "versions", VDict ((lit "gte", VInt (e_ver d)) :: match e_end d with Some w => [(lit "lt", VInt w)] | None => [] end));
   (lit "data", VDict (p_parsed r)); (lit "data_types", VList (map VStr (p_data_types r)));
   (lit "parsed_types", VList (map VStr (p_parsed_types r)))]
  ++ match e_end d with Some w => [(lit "next", VInt w)] | None => [] end.
(** indexing/index.py:301-321 with the names of the indices: the operations [gen_ops] (Index.v) stands for. [None]: parsing the
    data raised an exception. *)
Definition op_of (name : pystr) (b : bop (option parsed_data)) : option bulk_op :=
  match b with
  | BIndexLatest id d => match e_parsed d with Some r => Some (IndexOp (latest name) (Some id) (doc_dict d r)) | None => None end
  | BDeleteLatest id => Some (DeleteOp (latest name) id)
  | BIndexArc n d => match e_parsed d with Some r => Some (IndexOp (get_arc name n) None (doc_dict d r)) | None => None end
  end.
(** indexing/syncing.py:222-234: the body of the request for a chunk of operations *)
Definition request (float_text : spec_float -> pystr) (name : pystr) (chunk : list (bop (option parsed_data))) : option pystr :=
  match all_some (map (op_of name) chunk) with Some ops => bulk_body float_text ops | None => None end.
(** specification or proof device; models no code of its own *)
Definition encodable_result (r : parsed_data) : Prop := encodable (VDict (p_parsed r)) /\ Forall unicode (p_data_types r) /\ Forall unicode (p_parsed_types r).
Lemma lit_unicode (s : string) : existsb surrogate (lit s) = false -> unicode (lit s).
Proof. apply unicode_b. Qed.
Lemma doc_encodable {P} (d : esdoc P) r : unicode (e_id d) -> in_64_bits (e_ver d) -> (forall w, e_end d = Some w -> in_64_bits w) -> encodable_result r -> encodable (VDict (doc_dict d r)).
Proof.
  intros H1 H2 H3 (H4 & H5 & H6). assert (T : forall l, Forall unicode l -> encodable (VList (map VStr l))).
  { intros l F. constructor. intros v Hv. apply in_map_iff in Hv. destruct Hv as (s & <- & Hs). constructor. rewrite Forall_forall in F. exact (F s Hs). }
  constructor. intros k v Hk. unfold doc_dict in Hk. apply in_app_or in Hk. destruct Hk as [Hk|Hk].
  - repeat (destruct Hk as [Hk|Hk]; [injection Hk as <- <-; split; [apply lit_unicode; reflexivity|]|]); [constructor; exact H1|constructor; exact H2| |exact H4|apply T, H5|apply T, H6|destruct Hk].
    constructor. intros k v [K|K]; [injection K as <- <-; split; [apply lit_unicode; reflexivity|constructor; exact H2]|]. destruct (e_end d) as [w|]; [|destruct K]. destruct K as [K|[]]. injection K as <- <-. split; [apply lit_unicode; reflexivity|constructor; apply H3; reflexivity].
  - destruct (e_end d) as [w|]; [|destruct Hk]. destruct Hk as [K|[]]. injection K as <- <-. split; [apply lit_unicode; reflexivity|constructor; apply H3; reflexivity].
Qed.

(** ** What parse makes of values that can be written *)
(** The libraries return text that can be encoded and timestamps of 64 bits. (specification, models no code) *)
Record writes (L : lib) : Prop := {
  w_format : forall fmt f, unicode (l_format L fmt f);
  w_wkt : forall s g, l_wkt L s = Some g -> unicode (fst g) /\ unicode (snd g);
  w_geojson : forall d g, l_geojson L d = Some g -> unicode (fst g) /\ unicode (snd g);
  w_point : forall lon lat r n g, l_point L lon lat r n = Some g -> unicode (fst g) /\ unicode (snd g);
  w_date : forall s f t, l_strptime L s f = Some t -> in_64_bits t
}.
Lemma unicode_app a b : unicode a -> unicode b -> unicode (a ++ b).
Proof. intros A B c C. apply in_app_or in C. destruct C; auto. Qed.
Lemma unicode_cons c a : surrogate c = false -> unicode a -> unicode (c :: a).
Proof. intros H A c' [<-|C]; [|auto]. unfold surrogate in H. intros [K1 K2]. rewrite andb_false_iff, !N.leb_gt in H. lia. Qed.
Lemma unicode_nil : unicode [].
Proof. intros c []. Qed.
Lemma unicode_dotted a b : unicode a -> unicode b -> unicode (dotted a b).
Proof. intros A B. apply unicode_app; [exact A|]. apply unicode_cons; [reflexivity|exact B]. Qed.
Lemma unicode_firstn n s : unicode s -> unicode (firstn n s).
Proof. intros H c C. apply H. revert s C H. induction n as [|n IH]; intros s C H; [destruct C|]. destruct s as [|c0 s]; [destruct C|]. destruct C as [<-|C]; [left; reflexivity|right; apply IH; [exact C|intros x X; apply H; right; exact X]]. Qed.
Lemma unicode_chars u : unicode (uint_chars u).
Proof. induction u; cbn [uint_chars]; [exact unicode_nil| | | | | | | | | |]; (apply unicode_cons; [reflexivity|assumption]). Qed.
Lemma unicode_int z : unicode (str_int z).
Proof. unfold str_int. destruct z; [apply unicode_chars|apply unicode_chars|apply unicode_cons; [reflexivity|apply unicode_chars]]. Qed.

(** the names of types *)
Lemma rsplit_unicode s : unicode s -> forall a b, rsplit_dot s = Some (a, b) -> unicode a /\ unicode b.
Proof.
  induction s as [|c s IH]; intros H a b E; [discriminate|]. assert (Hs : unicode s) by (intros x X; apply H; right; exact X). cbn [rsplit_dot] in E. destruct (rsplit_dot s) as [[a' b']|].
  - injection E as <- <-. destruct (IH Hs a' b' eq_refl) as [A B]. split; [|exact B]. intros x [<-|X]; [apply H; left; reflexivity|exact (A x X)].
  - destruct (N.eqb c dot); [|discriminate]. injection E as <- <-. split; [exact unicode_nil|exact Hs].
Qed.
Lemma insert_In x l y : In y (insert x l) -> y = x \/ In y l.
Proof. induction l as [|z l IH]; cbn [insert]; [intros [<-|[]]; auto|]. destruct (str_leb x z); [intros [<-|H]; auto|]. intros [<-|H]; [right; left; reflexivity|]. destruct (IH H); auto. right. right. assumption. Qed.
Lemma sort_unicode l : Forall unicode l -> Forall unicode (sort l).
Proof. induction 1 as [|x l H _ IH]; [constructor|]. cbn [sort]. rewrite Forall_forall in *. intros y Hy. apply insert_In in Hy. destruct Hy as [->|Hy]; auto. Qed.
Lemma groups_unicode l : Forall unicode l -> Forall (fun g => unicode (fst g) /\ Forall unicode (snd g)) (groupby path_of l).
Proof.
  assert (P : forall x, unicode x -> unicode (path_of x)) by (intros x H; unfold path_of; destruct (rsplit_dot x) as [[a b]|] eqn:E; [exact (proj1 (rsplit_unicode x H a b E))|exact H]).
  induction 1 as [|x l H _ IH]; [constructor|]. cbn [groupby]. destruct (groupby path_of l) as [|[k g] gs]; [constructor; [split; [apply P, H|constructor; [exact H|constructor]]|constructor]|].
  inversion IH as [|? ? [I1 I2] I3]; subst. cbn [fst snd] in *. destruct (str_eqb (path_of x) k); constructor; try exact I3; [split; [exact I1|constructor; assumption]|split; [apply P, H|constructor; [exact H|constructor]]|exact IH].
Qed.
Lemma join_unicode l : Forall unicode l -> unicode (join 44 l).
Proof. induction 1 as [|x l H HF IH]; [exact unicode_nil|]. cbn [join]. destruct l; [exact H|]. apply unicode_app; [exact H|]. apply unicode_cons; [reflexivity|exact IH]. Qed.
Lemma compress_unicode l : Forall unicode l -> Forall unicode (compress l).
Proof.
  intro H. apply sort_unicode, groups_unicode in H. unfold compress. apply Forall_forall. intros s Hs. apply in_map_iff in Hs. destruct Hs as (g & <- & Hg). rewrite Forall_forall in H. destruct (H g Hg) as [A B].
  apply unicode_dotted; [exact A|]. apply join_unicode. apply Forall_forall. intros t Ht. apply in_map_iff in Ht. destruct Ht as (x & <- & Hx). rewrite Forall_forall in B. specialize (B x Hx). unfold type_of. destruct (rsplit_dot x) as [[a b]|] eqn:E; [exact (proj2 (rsplit_unicode x B a b E))|exact B].
Qed.

Section Parse.
Variable L : lib.
Hypothesis W : writes L.
Variable o : options.
(** hints name fields in text that can be encoded (they are stored in MongoDB) *)
Hypothesis HO : forall h, In h (geo_hints o) -> unicode (h_lat h).
(** specification, models no code *)
Definition good_entry (kv : pystr * value) : Prop := unicode (fst kv) /\ encodable (snd kv).
Lemma dict_good d : encodable (VDict d) <-> Forall good_entry d.
Proof. rewrite Forall_forall. split; [intros H [k v] Hk; inversion H as [| | | | | |? F]; subst; exact (F k v Hk)|intro H; constructor; intros k v Hk; exact (H (k, v) Hk)]. Qed.
Lemma list_good l : encodable (VList l) <-> Forall encodable l.
Proof. rewrite Forall_forall. split; [intros H v Hv; inversion H as [| | | | |? F|]; subst; exact (F v Hv)|intro H; constructor; exact H]. Qed.
(** specification or proof device; models no code of its own *)
Definition geo_good (g : pystr * pystr) : Prop := unicode (fst g) /\ unicode (snd g).
Lemma geo_dict_good g : geo_good g -> Forall good_entry (geo_dict g).
Proof. intros [A B]. constructor; [|constructor; [|constructor]]; (split; [apply lit_unicode; reflexivity|constructor; assumption]). Qed.
Lemma text_unicode v : encodable v -> unicode (text_of L o v).
Proof. intro H. destruct v as [|[|]|z|f|s|l|d]; cbn [text_of]; try (exact unicode_nil); [apply lit_unicode; reflexivity|apply lit_unicode; reflexivity|apply unicode_int|apply (w_format L W)|inversion H; assumption]. Qed.
Lemma value_good v : encodable v -> Forall good_entry (parse_value L o v).
Proof.
  intro Hv. pose proof (text_unicode v Hv) as T. unfold parse_value. cbn zeta. repeat (apply Forall_app; split).
  - constructor; [|constructor; [|constructor; [|constructor]]]; (split; [apply lit_unicode; reflexivity|]); [exact Hv|constructor; exact T|constructor; apply unicode_firstn, T].
  - destruct (l_wkt L (text_of L o v)) as [g|] eqn:E; [exact (geo_dict_good g (w_wkt L W _ _ E))|constructor].
  - destruct (bool_of L o v); constructor; [split; [apply lit_unicode; reflexivity|constructor]|constructor].
  - destruct (number_of L o v) as [x|] eqn:E; constructor; [split; [apply lit_unicode; reflexivity|]|constructor]. cbn [snd].
    unfold number_of in E. destruct v; try (injection E as <-; exact Hv); destruct (l_try_float L _); try discriminate; injection E as <-; constructor.
  - destruct (first_date L (date_formats o) (text_of L o v)) as [t|] eqn:E; constructor; [split; [apply lit_unicode; reflexivity|]|constructor]. constructor.
    revert E. generalize (text_of L o v). intro s. induction (date_formats o) as [|f fs IH]; [discriminate|]. cbn [first_date]. destruct (l_strptime L s f) as [t'|] eqn:E; [intro K; injection K as <-; exact (w_date L W _ _ _ E)|exact IH].
Qed.
Lemma dset_good (Q : pystr * value -> Prop) d k v : Forall Q d -> Q (k, v) -> Forall Q (dset d k v).
Proof.
  intros F H. induction F as [|[k0 v0] d F1 F2 IH]; cbn [dset]; [constructor; [exact H|constructor]|]. destruct (str_eqb k k0) eqn:E; constructor; auto. apply str_eqb_eq in E. subst k0. exact H.
Qed.
Lemma hints_good d hs : (forall h, In h hs -> unicode (h_lat h)) -> forall ms, Forall (fun kg => unicode (fst kg) /\ geo_good (snd kg)) ms -> Forall (fun kg => unicode (fst kg) /\ geo_good (snd kg)) (match_hints L d hs ms).
Proof.
  induction hs as [|h hs IH]; intros Hh ms F; cbn [match_hints]; [exact F|]. apply IH; [intros h' K; apply Hh; right; exact K|]. destruct (hint_match L d h) as [g|] eqn:E; [|exact F].
  assert (G : geo_good g) by exact (w_point L W _ _ _ _ _ E). specialize (Hh h (or_introl eq_refl)). clear - F G Hh. induction F as [|[k0 v0] ms F1 F2 IH]; cbn [dset]; [constructor; [split; assumption|constructor]|]. destruct (str_eqb (h_lat h) k0) eqn:E; constructor; auto. apply str_eqb_eq in E. cbn [fst snd] in *. split; [apply F1|exact G].
Qed.
Lemma add_good ms : forall parsed q, add_hints parsed ms = Some q -> Forall (fun kg => unicode (fst kg) /\ geo_good (snd kg)) ms -> Forall good_entry parsed -> Forall good_entry q.
Proof.
  induction ms as [|[k g] ms IH]; intros parsed q H F G; cbn [add_hints] in H; [injection H as <-; exact G|]. inversion F as [|? ? [F0 F1] F2]; subst. destruct (dget parsed k) as [[| | | | | |p]|] eqn:E; try discriminate.
  apply (IH _ _ H F2). apply dset_good; [exact G|]. split; [exact F0|]. cbn [snd]. apply dict_good. apply dget_In in E. rewrite Forall_forall in G. pose proof (proj2 (G _ E)) as P. cbn [snd] in P. apply dict_good in P.
  pose proof (geo_dict_good g F1) as K. unfold dupdate, geo_dict in *. cbn [fold_left fst snd]. inversion K as [|? ? K1 K2]; subst. inversion K2 as [|? ? K3 _]; subst. apply dset_good; [apply dset_good; assumption|assumption].
Qed.
(** specification or proof device; models no code of its own *)
Definition types_good (nested : value -> option (value * list pystr * list pystr)) (v : value) : Prop :=
  encodable v -> forall w dts pts, nested v = Some (w, dts, pts) -> encodable w /\ Forall unicode dts /\ Forall unicode pts.
Lemma map_dotted k l : unicode k -> Forall unicode l -> Forall unicode (map (dotted k) l).
Proof. intros K F. apply Forall_forall. intros x Hx. apply in_map_iff in Hx. destruct Hx as (y & <- & Hy). rewrite Forall_forall in F. apply unicode_dotted; auto. Qed.
Lemma keys_unicode p : Forall good_entry p -> Forall unicode (dkeys p).
Proof. intro F. apply Forall_forall. intros k Hk. unfold dkeys in Hk. apply in_map_iff in Hk. destruct Hk as (kv & <- & Hk). rewrite Forall_forall in F. apply (F kv Hk). Qed.
Lemma type_unicode v : unicode (type_for v).
Proof. destruct v; apply lit_unicode; reflexivity. Qed.
Lemma flat_unicode {A} (f : A -> list pystr) l : (forall x, In x l -> Forall unicode (f x)) -> Forall unicode (flat_map f l).
Proof. intro H. apply Forall_forall. intros s Hs. apply in_flat_map in Hs. destruct Hs as (x & X1 & X2). specialize (H x X1). rewrite Forall_forall in H. exact (H s X2). Qed.
Lemma body_good nested chk d w dts pts : Forall (fun kv => types_good nested (snd kv)) d -> Forall good_entry d -> dict_body L o nested chk d = Some (w, dts, pts) ->
  Forall good_entry w /\ Forall unicode dts /\ Forall unicode pts.
Proof.
  intros HF HG E. apply dict_body_some in E. unfold dict_rest in E. destruct (map_opt _ d) as [parts|] eqn:Ep; [|discriminate]. change (list (pystr * part)) in parts. destruct (add_hints _ _) as [q|] eqn:Ea; [|discriminate]. injection E as <- <- <-. apply map_opt_F2 in Ep.
  assert (HP : Forall (fun kp : pystr * part => unicode (fst kp) /\ (forall w, fst (fst (snd kp)) = Some w -> encodable w) /\ Forall unicode (part_dts (snd kp)) /\ Forall unicode (part_pts (snd kp))) parts).
  { clear Ea. induction Ep as [|[k v] y d parts E _ IH]; [constructor|]. inversion HF as [|? ? F1 F2]; subst. inversion HG as [|? ? [G0 G1] G2]; subst. constructor; [|exact (IH F2 G2)]. cbn [fst snd] in *. destruct (parse_entry L o nested k v) as [[[x d1] p1]|] eqn:Ee; [|discriminate]. injection E as <-. cbn [fst snd part_dts part_pts]. split; [exact G0|].
    assert (V : forall v', encodable v' -> (forall w, Some (VDict (parse_value L o v')) = Some w -> encodable w) /\ Forall unicode (@nil pystr) /\ Forall unicode (map (dotted k) (dkeys (parse_value L o v')))).
    { intros v' Hv. split; [intros w Hw; injection Hw as <-; apply dict_good, value_good, Hv|]. split; [constructor|]. apply map_dotted; [exact G0|apply keys_unicode, value_good, Hv]. }
    assert (U : forall v', encodable v' -> (forall w, Some (VDict [(pt_u, v')]) = Some w -> encodable w) /\ Forall unicode (@nil pystr) /\ Forall unicode (@nil pystr)).
    { intros v' Hv. split; [intros w Hw; injection Hw as <-; apply dict_good; constructor; [split; [apply lit_unicode; reflexivity|exact Hv]|constructor]|]. split; constructor. }
    assert (N : forall v', is_empty v' = false -> parse_entry L o nested k v = match nested v' with Some (p, dts, pts) => Some (Some p, map (dotted k) dts, map (dotted k) pts) | None => None end -> v' = v ->
      (forall w, x = Some w -> encodable w) /\ Forall unicode d1 /\ Forall unicode p1).
    { intros v' _ Q ->. rewrite Q in Ee. destruct (nested v) as [[[w' d2] p2]|] eqn:En; [|discriminate]. injection Ee as <- <- <-. destruct (F1 G1 _ _ _ En) as (A & B & C). split; [intros w Hw; injection Hw as <-; exact A|]. split; apply map_dotted; assumption. }
    destruct v as [|b|z|f|[|c s]|l|e]; unfold parse_entry in Ee; try (injection Ee as <- <- <-; first [apply U; exact G1|apply V; exact G1]).
    - destruct (is_empty (VList l)) eqn:Em; [injection Ee as <- <- <-; split; [discriminate|split; constructor]|]. apply (N (VList l) Em); [unfold parse_entry; rewrite Em; reflexivity|reflexivity].
    - destruct (is_empty (VDict e)) eqn:Em; [injection Ee as <- <- <-; split; [discriminate|split; constructor]|]. apply (N (VDict e) Em); [unfold parse_entry; rewrite Em; reflexivity|reflexivity]. }
  assert (H0 : Forall good_entry (if chk then match l_geojson L d with Some g => geo_dict g | None => [] end else [])) by (destruct chk; [|constructor]; destruct (l_geojson L d) as [g|] eqn:Eg; [exact (geo_dict_good g (w_geojson L W _ _ Eg))|constructor]).
  assert (HM : Forall (fun kg => unicode (fst kg) /\ geo_good (snd kg)) (match_hints L d (geo_hints o) [])) by (apply hints_good; [exact HO|constructor]).
  split; [|split].
  - refine (add_good _ _ _ Ea HM _). clear Ea Ep. revert H0. generalize (if chk then match l_geojson L d with Some g => geo_dict g | None => [] end else []). induction HP as [|[k [[x d1] p1]] parts H1 _ IH]; intros acc Hacc; [exact Hacc|]. cbn [fold_left set_part]. apply IH. cbn [fst snd] in H1. destruct x as [x|]; [|exact Hacc]. apply dset_good; [exact Hacc|]. split; [apply H1|]. apply (proj1 (proj2 H1)). reflexivity.
  - apply Forall_app. split.
    + apply Forall_forall. intros s Hs. apply in_map_iff in Hs. destruct Hs as (kv & <- & Hk). rewrite Forall_forall in HG. apply unicode_dotted; [apply (HG kv Hk)|apply type_unicode].
    + apply flat_unicode. intros kp Hk. rewrite Forall_forall in HP. apply (HP kp Hk).
  - apply Forall_app. split; [apply keys_unicode, H0|]. apply Forall_app. split.
    + apply flat_unicode. intros kp Hk. rewrite Forall_forall in HP. apply (HP kp Hk).
    + apply flat_unicode. intros m Hm. rewrite Forall_forall in HM. pose proof (proj1 (HM m Hm)) as K. constructor; [|constructor; [|constructor]]; (apply unicode_dotted; [exact K|apply lit_unicode; reflexivity]).
Qed.
Lemma nodup_unicode l : Forall unicode l -> Forall unicode (nodup str_eq_dec l).
Proof. rewrite !Forall_forall. intros H x Hx. apply nodup_In in Hx. auto. Qed.
Lemma nested_all v : types_good (parse_nested L o) v.
Proof.
  induction v as [|b|z|f|s|l IH|d IH] using value_ind'; intros Hv w dts pts H; cbn [parse_nested] in H; try discriminate.
  - destruct (list_body L o (parse_nested L o) l) as [[[ws d1] p1]|] eqn:E; [|discriminate]. injection H as <- <- <-. unfold list_body in E. destruct (map_opt _ l) as [ps|] eqn:Ep; [|discriminate]. injection E as <- <- <-. apply map_opt_F2 in Ep. apply list_good in Hv.
    assert (HP : Forall (fun p : value * list pystr * list pystr => encodable (fst (fst p)) /\ Forall unicode (snd (fst p)) /\ Forall unicode (snd p)) ps).
    { induction Ep as [|x q l ps E _ IHl]; [constructor|]. inversion IH as [|? ? I1 I2]; subst. inversion Hv as [|? ? V1 V2]; subst. constructor; [|exact (IHl I2 V2)].
      assert (V : forall v', encodable v' -> encodable (VDict (parse_value L o v')) /\ Forall unicode (@nil pystr) /\ Forall unicode (dkeys (parse_value L o v'))) by (intros v' K; split; [apply dict_good, value_good, K|split; [constructor|apply keys_unicode, value_good, K]]).
      assert (Z : encodable VNone /\ Forall unicode (@nil pystr) /\ Forall unicode (@nil pystr)) by (split; [constructor|split; constructor]).
      assert (N : forall w' d2 p2, parse_nested L o x = Some (w', d2, p2) -> encodable w' /\ Forall unicode (map (dotted []) d2) /\ Forall unicode p2).
      { intros w' d2 p2 En. destruct (I1 V1 _ _ _ En) as (A & B & C). split; [exact A|]. split; [apply map_dotted; [exact unicode_nil|exact B]|exact C]. }
      destruct x as [|b|z|f|[|c s]|l'|e]; unfold parse_element in E; try (injection E as <-; first [exact Z|apply V; exact V1]).
      - destruct (is_empty (VList l')); [injection E as <-; exact Z|]. destruct (parse_nested L o (VList l')) as [[[w' d2] p2]|] eqn:En; [|discriminate]. injection E as <-. exact (N _ _ _ eq_refl).
      - destruct (is_empty (VDict e)); [injection E as <-; exact Z|]. destruct (parse_nested L o (VDict e)) as [[[w' d2] p2]|] eqn:En; [|discriminate]. injection E as <-. exact (N _ _ _ eq_refl). }
    rewrite Forall_forall in HP. split; [|split].
    + apply list_good, Forall_forall. intros x Hx. apply in_map_iff in Hx. destruct Hx as (p & <- & Hp). apply (HP p Hp).
    + apply nodup_unicode, Forall_app. split; [|apply flat_unicode; intros p Hp; apply (HP p Hp)]. apply Forall_forall. intros s Hs. apply in_map_iff in Hs. destruct Hs as (x & <- & _). apply unicode_dotted; [exact unicode_nil|apply type_unicode].
    + apply nodup_unicode, flat_unicode. intros p Hp. apply (HP p Hp).
  - destruct (dict_body L o (parse_nested L o) true d) as [[[q d1] p1]|] eqn:E; [|discriminate]. injection H as <- <- <-. apply dict_good in Hv. destruct (body_good _ _ _ _ _ _ IH Hv E) as (A & B & C). split; [apply dict_good, A|]. split; assumption.
Qed.
Theorem parse_encodable d r : encodable (VDict d) -> parse L o d = Some r -> encodable_result r.
Proof.
  intros Hd H. unfold parse in H. destruct (dict_body L o (parse_nested L o) false d) as [[[q d1] p1]|] eqn:E; [|discriminate]. injection H as <-. apply dict_good in Hd.
  destruct (body_good _ _ _ _ _ _ (proj2 (Forall_forall _ _) (fun kv _ => nested_all (snd kv))) Hd E) as (A & B & C). split; [apply dict_good, A|]. split; apply compress_unicode; assumption.
Qed.
End Parse.

(** ** The operations of a sync *)
Section Ops.
Context {O P : Type} (parse : dict -> O -> P) (peq : P -> P -> bool).
(** where the versions of a record come from (specification, models no code) *)
Definition comes_from (all_data : list (Z * dict)) (all_opts : list (Z * O)) (r : rv P) : Prop :=
  (In (rv_ver r) (zkeys all_opts ++ zkeys all_data)) /\ (forall w, rv_del r = Some w -> In w (zkeys all_opts ++ zkeys all_data))
  /\ exists v d w o, In (v, d) all_data /\ In (w, o) all_opts /\ rv_parsed r = parse d o.
Lemma zget_in {V} (m : list (Z * V)) k x : zget m k = Some x -> In (k, x) m.
Proof. induction m as [|[k0 x0] m IH]; cbn [zget]; [discriminate|]. destruct (Z.eqb_spec k k0) as [->|_]; [intro H; injection H as <-; left; reflexivity|intro H; right; apply IH, H]. Qed.
Lemma zins_in x l y : In y (zins_u x l) -> y = x \/ In y l.
Proof. induction l as [|z l IH]; cbn [zins_u]; [intros [<-|[]]; auto|]. destruct (x <? z)%Z; [intros [<-|H]; auto|]. destruct (x =? z)%Z; [auto|]. intros [<-|H]; [right; left; reflexivity|]. destruct (IH H); auto. right. right. assumption. Qed.
Lemma zsorted_in l y : In y (zsorted_set l) -> In y l.
Proof. induction l as [|x l IH]; cbn; [auto|]. intro H. apply zins_in in H. destruct H as [->|H]; [left; reflexivity|right; apply IH, H]. Qed.
Lemma build_from all_data all_opts rvs : build parse peq all_data all_opts = Some rvs -> Forall (comes_from all_data all_opts) rvs.
Proof.
  unfold build. destruct (zmin_key all_data) as [fd|]; [|discriminate]. destruct (zmin_key all_opts) as [fo|]; [|discriminate]. destruct (zget all_data fd) as [data|] eqn:Ed; [|discriminate]. destruct (zget all_opts fo) as [opts|] eqn:Eo; [|discriminate].
  set (vs := zsorted_set (zkeys all_opts ++ zkeys all_data)). assert (V : forall v, In v vs -> In v (zkeys all_opts ++ zkeys all_data)) by (intros v Hv; exact (zsorted_in _ _ Hv)). clearbody vs.
  apply zget_in in Ed. apply zget_in in Eo.
  assert (G : forall data opts acc, (exists v, In (v, data) all_data) -> (exists w, In (w, opts) all_opts) -> Forall (comes_from all_data all_opts) acc ->
    forall d' o' acc', fold_left (build_step parse peq fd all_data all_opts) vs (Some (data, opts, acc)) = Some (d', o', acc') -> Forall (comes_from all_data all_opts) acc').
  { clear data opts Ed Eo. induction vs as [|v vs IH]; intros data opts acc Hd Ho Ha d' o' acc' H; [injection H as <- <- <-; exact Ha|]. cbn [fold_left] in H.
    assert (NN : forall l, fold_left (build_step parse peq fd all_data all_opts) l None = None) by (induction l; [reflexivity|assumption]).
    specialize (IH (fun v Hv => V v (or_intror Hv))). unfold build_step at 2 in H. destruct (v <? fd)%Z; [exact (IH _ _ _ Hd Ho Ha _ _ _ H)|]. cbn zeta in H.
    assert (Hd' : exists u, In (u, match zget all_data v with Some x => x | None => data end) all_data) by (destruct (zget all_data v) eqn:E; [exists v; exact (zget_in _ _ _ E)|exact Hd]).
    assert (Ho' : exists u, In (u, match zget all_opts v with Some x => x | None => opts end) all_opts) by (destruct (zget all_opts v) eqn:E; [exists v; exact (zget_in _ _ _ E)|exact Ho]).
    revert H Hd' Ho'. generalize (match zget all_data v with Some x => x | None => data end). generalize (match zget all_opts v with Some x => x | None => opts end). intros o1 d1 H Hd' Ho'.
    destruct (match d1 with [] => true | _ => false end).
    - destruct acc as [|r rest]; [rewrite NN in H; discriminate|]. refine (IH _ _ _ Hd' Ho' _ _ _ _ H). destruct (rv_del r); [exact Ha|]. inversion Ha as [|? ? (A & B & C) D]; subst. constructor; [|exact D]. split; [exact A|]. cbn [rv_del rv_parsed]. split; [intros w Hw; injection Hw as <-; apply V; left; reflexivity|exact C].
    - refine (IH _ _ _ Hd' Ho' _ _ _ _ H). assert (N : comes_from all_data all_opts (RV v (parse d1 o1) None)).
      { split; [apply V; left; reflexivity|]. split; [discriminate|]. destruct Hd' as (u & Hu), Ho' as (w & Hw). exists u, d1, w, o1. auto. }
      destruct acc as [|r rest]; [constructor; [exact N|constructor]|]. destruct (rv_eqb peq _ r); [exact Ha|constructor; assumption]. }
  destruct (fold_left _ vs _) as [[[d' o'] acc]|] eqn:E; [|discriminate]. intro H. injection H as <-. apply Forall_rev. refine (G data opts [] _ _ (Forall_nil _) _ _ _ E); [exists fd; exact Ed|exists fo; exact Eo].
Qed.
(** what holds of the documents of a record *)
Definition op_from (all_opts : list (Z * O)) (records : list (pystr * list (Z * dict))) (b : bop P) : Prop :=
  match b with
  | BDeleteLatest id => exists all_data, In (id, all_data) records
  | BIndexLatest _ d | BIndexArc _ d => exists all_data, In (e_id d, all_data) records /\ In (e_ver d) (zkeys all_opts ++ zkeys all_data)
      /\ (forall w, e_end d = Some w -> In w (zkeys all_opts ++ zkeys all_data)) /\ exists v x w o, In (v, x) all_data /\ In (w, o) all_opts /\ e_parsed d = parse x o
  end /\ match b with BIndexLatest id d => e_id d = id | _ => True end.
Lemma rvs_from cap after all_opts records id all_data : In (id, all_data) records -> forall rvs st, Forall (comes_from all_data all_opts) rvs ->
  Forall (op_from all_opts records) (snd (gen_rvs cap after id st rvs)).
Proof.
  intro Hr. induction rvs as [|r rest IH]; intros st F; [constructor|]. inversion F as [|? ? (A & B & C) F2]; subst. cbn [gen_rvs].
  assert (D : exists ad, In (e_id (create_doc id r (hd_error rest)), ad) records /\ In (e_ver (create_doc id r (hd_error rest))) (zkeys all_opts ++ zkeys ad) /\ (forall w, e_end (create_doc id r (hd_error rest)) = Some w -> In w (zkeys all_opts ++ zkeys ad))
    /\ exists v x w o, In (v, x) ad /\ In (w, o) all_opts /\ e_parsed (create_doc id r (hd_error rest)) = parse x o).
  { exists all_data. split; [exact Hr|]. split; [exact A|]. split; [|exact C]. cbn [create_doc e_end]. unfold version_end. intros w Hw. destruct (rv_del r) as [z|] eqn:E; [injection Hw as <-; apply B; reflexivity|]. destruct rest as [|n rest]; [discriminate|]. cbn [hd_error] in Hw. injection Hw as <-. inversion F2 as [|? ? (A2 & _) _]; subst. exact A2. }
  destruct (gt_after after (rv_ver r) && isNone (hd_error rest) && isNone (rv_del r)).
  - specialize (IH st F2). destruct (gen_rvs cap after id st rest) as [st' ops]. cbn [snd] in *. constructor; [|exact IH]. split; [exact D|reflexivity].
  - destruct (negb (gt_after after (rv_ver r)) && _); [exact (IH st F2)|]. specialize (IH (next_arc cap st) F2). destruct (gen_rvs cap after id (next_arc cap st) rest) as [st' ops]. cbn [snd] in *. apply Forall_app. split; [|constructor; [split; [exact D|exact I]|exact IH]].
    destruct (_ && _); constructor; [split; [exists all_data; exact Hr|exact I]|constructor].
Qed.
Lemma ops_from_incl all_opts recs recs' b : incl recs recs' -> op_from all_opts recs b -> op_from all_opts recs' b.
Proof. intros I [H K]. split; [|exact K]. destruct b; destruct H as (ad & H); exists ad; [destruct H as [H H']; split; [apply I, H|exact H']|apply I, H|destruct H as [H H']; split; [apply I, H|exact H']]. Qed.
Lemma gen_from cap after all_opts : forall records st st' ops, gen_ops parse peq cap after all_opts st records = Some (st', ops) -> Forall (op_from all_opts records) ops.
Proof.
  induction records as [|[id all_data] records IH]; intros st st' ops H; cbn [gen_ops] in H; [injection H as <- <-; constructor|].
  destruct (build parse peq all_data all_opts) as [rvs|] eqn:E; [|discriminate]. apply build_from in E. destruct (gen_rvs cap after id st rvs) as [st1 ops1] eqn:Eg. destruct (gen_ops parse peq cap after all_opts st1 records) as [[st2 ops2]|] eqn:E2; [|discriminate]. injection H as <- <-.
  apply Forall_app. split.
  - pose proof (rvs_from cap after all_opts ((id, all_data) :: records) id all_data (or_introl eq_refl) rvs st E) as F. rewrite Eg in F. exact F.
  - apply IH in E2. rewrite Forall_forall in *. intros b Hb. refine (ops_from_incl _ _ _ _ _ (E2 b Hb)). intros x Hx. right. exact Hx.
Qed.
End Ops.
