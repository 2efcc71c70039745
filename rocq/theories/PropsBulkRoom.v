(** C100: how many bytes of a request a record takes at most. *)
From Coq Require Import String Ascii.
From Coq Require Import List ZArith NArith Bool Lia Permutation.
From Coq Require Import Floats.SpecFloat.
From Verif Require Import PyVal Diff Mongo Time TimeProofs Names Json Bulk Parser ParserProofs ParserTypes Index EndToEnd BulkParse Prepare PrepareProofs BsonSize PropsNames PropsParser PropsPrepare PropsBulk PropsBulkSize.
Import ListNotations.
Open Scope string_scope.
Open Scope list_scope.
Open Scope N_scope.

(** ** Specification *)
(** the bytes of a text in JSON, without the quotes *)
Definition escaped (s : pystr) : N := text_size (flat_map escape s).
(** The bytes of a value in JSON, at most: integers of 64 bits have up to 20 characters and floats up to 24; a comma is counted for each element of a list
    or dict. *)
Fixpoint json_size (v : value) : N :=
  match v with
  | VNone => 4 | VBool _ => 5 | VInt _ => 20 | VFloat _ => 24
  | VStr s => 2 + escaped s
  | VList l => 2 + fold_right (fun x n => 1 + json_size x + n) 0 l
  | VDict d => 2 + fold_right (fun kv n => 4 + escaped (fst kv) + json_size (snd kv) + n) 0 d
  end.
(** the values in a value, with itself *)
Fixpoint values (v : value) : N :=
  match v with
  | VList l => 1 + fold_right (fun x n => values x + n) 0 l
  | VDict d => 1 + fold_right (fun kv n => values (snd kv) + n) 0 d
  | _ => 1
  end.
(** the bytes of the longest path in a value, with its dots and the name of a type *)
Fixpoint longest_path (v : value) : N :=
  match v with
  | VList l => 1 + fold_right (fun x n => N.max (longest_path x) n) 3 l
  | VDict d => fold_right (fun kv n => N.max (escaped (fst kv) + 1 + longest_path (snd kv)) n) 3 d
  | _ => 3
  end.

(** ** What is written is not longer *)
Lemma escaped_app a b : escaped (a ++ b) = escaped a + escaped b.
Proof. unfold escaped. rewrite flat_map_app. apply size_app. Qed.
Lemma escaped_cons c a : escaped (c :: a) = text_size (escape c) + escaped a.
Proof. unfold escaped. cbn [flat_map]. apply size_app. Qed.
Lemma escaped_firstn n s : escaped (firstn n s) <= escaped s.
Proof. rewrite <- (firstn_skipn n s) at 2. rewrite escaped_app. lia. Qed.
Lemma escaped_chars u : escaped (uint_chars u) = text_size (uint_chars u).
Proof. unfold escaped. induction u; cbn [uint_chars flat_map]; try reflexivity; rewrite size_app, IHu, size_cons; reflexivity. Qed.
Lemma escaped_int z : escaped (str_int z) = text_size (str_int z).
Proof. unfold str_int. destruct z; rewrite ?escaped_cons, ?size_cons, escaped_chars; reflexivity. Qed.
Lemma int_size_20 z : in_64_bits z -> text_size (str_int z) <= 20.
Proof.
  unfold in_64_bits. intros [H1 H2]. destruct (Z.leb_spec 0 z) as [H|H].
  - apply (digits_size z 19). change (Z.of_N (10 ^ N.succ 19)) with 100000000000000000000%Z. lia.
  - destruct z as [|p|p]; try lia. change (str_int (Z.neg p)) with (45 :: str_int (Z.pos p)). rewrite size_cons. change (char_size 45) with 1.
    assert (text_size (str_int (Z.pos p)) <= 19); [|lia]. apply (digits_size (Z.pos p) 18). change (Z.of_N (10 ^ N.succ 18)) with 10000000000000000000%Z. lia.
Qed.
Lemma dumps_str_size s t : dumps_str s = Some t -> text_size t = 2 + escaped s.
Proof. unfold dumps_str. destruct (existsb surrogate s); [discriminate|]. intro H. injection H as <-. rewrite size_cons, size_app. change (char_size 34) with 1. change (text_size [34]) with 1. unfold escaped. lia. Qed.
Lemma commas_le l : text_size (commas l) <= fold_right (fun x n => 1 + text_size x + n) 0 l.
Proof. induction l as [|x [|y l] IH]; [apply N.le_0_l|cbn [commas fold_right]; lia|]. cbn [commas fold_right] in *. rewrite size_app, size_cons. change (char_size 44) with 1. lia. Qed.
Lemma dumps_le ft (FT : forall f, text_size (ft f) <= 24) v : forall t, dumps ft v = Some t -> text_size t <= json_size v.
Proof.
  induction v as [|b|z|f|s|l IH|d IH] using value_ind'; intros t H; cbn [dumps json_size] in *.
  - injection H as <-. vm_compute. discriminate.
  - injection H as <-. destruct b; vm_compute; discriminate.
  - destruct (int64 z) eqn:E; [|discriminate]. injection H as <-. apply int_size_20. unfold int64 in E. apply andb_true_iff in E. rewrite !Z.leb_le in E. unfold in_64_bits. lia.
  - destruct f; injection H as <-; try apply FT; vm_compute; discriminate.
  - rewrite (dumps_str_size s t H). lia.
  - destruct (all_some _) as [ts|] eqn:E; [|discriminate]. injection H as <-. rewrite size_cons, size_app. change (char_size 91) with 1. change (text_size [93]) with 1.
    pose proof (commas_le ts) as C. assert (K : fold_right (fun x n => 1 + text_size x + n) 0 ts <= fold_right (fun x n => 1 + json_size x + n) 0 l); [|lia].
    clear C. revert ts E. induction IH as [|x l Hx _ IHl]; intros ts E; [cbn in E; injection E as <-; cbn; lia|]. cbn [map all_some] in E. destruct (dumps ft x) as [t|]; [|discriminate]. destruct (all_some (map (dumps ft) l)) as [us|]; [|discriminate]. injection E as <-. cbn [fold_right]. specialize (Hx t eq_refl). specialize (IHl us eq_refl). lia.
  - destruct (all_some _) as [ts|] eqn:E; [|discriminate]. injection H as <-. rewrite size_cons, size_app. change (char_size 123) with 1. change (text_size [125]) with 1.
    pose proof (commas_le ts) as C. assert (K : fold_right (fun x n => 1 + text_size x + n) 0 ts <= fold_right (fun kv n => 4 + escaped (fst kv) + json_size (snd kv) + n) 0 d); [|lia].
    clear C. revert ts E. induction IH as [|[k x] d Hx _ IHl]; intros ts E; [cbn in E; injection E as <-; cbn; lia|]. cbn [map all_some fst snd] in *. destruct (dumps_str k) as [a|] eqn:Ek; [|discriminate]. destruct (dumps ft x) as [t|]; [|discriminate]. destruct (all_some _) as [us|] eqn:Eu; [|discriminate]. injection E as <-. cbn [fold_right fst snd]. specialize (Hx t eq_refl). specialize (IHl us eq_refl). rewrite size_app, size_cons, (dumps_str_size k a Ek). change (char_size 58) with 1. lia.
Qed.

(** ** What parse makes of data *)
Lemma values_pos v : 1 <= values v.
Proof. destruct v; cbn [values]; lia. Qed.
Lemma longest_pos v : 3 <= longest_path v.
Proof.
  destruct v as [|b|z|f|s|l|d]; cbn [longest_path]; try lia.
  - assert (3 <= fold_right (fun x n => N.max (longest_path x) n) 3 l) by (induction l; cbn [fold_right]; lia). lia.
  - induction d as [|[k x] d IH]; cbn [fold_right fst snd]; lia.
Qed.
Lemma type_size v : escaped (type_for v) = 2.
Proof. destruct v; reflexivity. Qed.
Lemma dotted_size a b : escaped (dotted a b) = escaped a + 1 + escaped b.
Proof. unfold dotted. rewrite escaped_app, escaped_cons. change (text_size (escape dot)) with 1. lia. Qed.
(** proof device *)
Definition fields (d : dict) : N := fold_right (fun kv n => 4 + escaped (fst kv) + json_size (snd kv) + n) 0 d.
Lemma fields_cons k v d : fields ((k, v) :: d) = 4 + escaped k + json_size v + fields d.
Proof. reflexivity. Qed.
Lemma fields_app a b : fields (a ++ b) = fields a + fields b.
Proof. unfold fields. induction a as [|x a IH]; [reflexivity|]. cbn [app fold_right]. rewrite IH. lia. Qed.
Lemma fields_dset acc k p : fields (dset acc k p) <= fields acc + (4 + escaped k + json_size p).
Proof.
  unfold fields. induction acc as [|[k' p'] acc IH]; cbn [dset fold_right fst snd]; [lia|]. destruct (str_eqb k k') eqn:E; cbn [fold_right fst snd]; [|lia].
  apply str_eqb_eq in E. subst. lia.
Qed.
Lemma slice_size n s : escaped (slice_to n s) <= escaped s.
Proof. apply escaped_firstn. Qed.
Section Parsed.
Context (L : lib) (o : options) (format_size geo_size : N).
(** proof device: the geometries the libraries return are not longer *)
Definition short (g : pystr * pystr) : Prop := escaped (fst g) <= geo_size /\ escaped (snd g) <= geo_size.
Context (Hwkt : forall s g, l_wkt L s = Some g -> short g) (Hgeo : forall d g, l_geojson L d = Some g -> short g) (Hpoint : forall lon lat r n g, l_point L lon lat r n = Some g -> short g).
Context (Hformat : forall f, escaped (l_format L (float_format o) f) <= format_size).
(** proof device: what each value takes besides three times its JSON *)
Let hints : N := N.of_nat (List.length (geo_hints o)).
Let geo : N := 18 + 2 * geo_size.
Let K : N := 100 + 2 * format_size + (1 + hints) * geo.
Let T : N := 8 + 2 * hints.
Lemma K_ge : 100 <= K.
Proof. subst K. lia. Qed.
Lemma geo_dict_size g : short g -> fields (geo_dict g) <= geo.
Proof. intros [A B]. unfold geo_dict. rewrite !fields_cons. change (fields []) with 0. change (escaped pt_gp) with 3. change (escaped pt_gs) with 3. cbn [json_size]. subst geo. lia. Qed.
Lemma wkt_size s : fields (match l_wkt L s with Some g => geo_dict g | None => [] end) <= geo.
Proof. destruct (l_wkt L s) as [g|] eqn:E; [exact (geo_dict_size g (Hwkt s g E))|apply N.le_0_l]. Qed.
Lemma geojson_size (chk : bool) d : fields (if chk then match l_geojson L d with Some g => geo_dict g | None => [] end else []) <= geo.
Proof. destruct chk; [|apply N.le_0_l]. destruct (l_geojson L d) as [g|] eqn:E; [exact (geo_dict_size g (Hgeo d g E))|apply N.le_0_l]. Qed.
Lemma matches_size d : forall hs ms, Forall (fun m => short (snd m)) ms -> Forall (fun m => short (snd m)) (match_hints L d hs ms) /\ (List.length (match_hints L d hs ms) <= List.length hs + List.length ms)%nat.
Proof.
  induction hs as [|h hs IH]; intros ms F; [split; [exact F|apply le_n]|]. cbn [match_hints List.length]. unfold hint_match. destruct (l_point L _ _ _ _) as [g|] eqn:E.
  - destruct (IH (dset ms (h_lat h) g)) as [I1 I2].
    + pose proof (Hpoint _ _ _ _ _ E) as Sg. clear - F Sg. induction F as [|[k x] ms Hx F IHm]; cbn [dset]; [constructor; [exact Sg|constructor]|]. destruct (str_eqb (h_lat h) k); constructor; try assumption; exact Sg.
    + split; [exact I1|]. assert (Ln : (List.length (dset ms (h_lat h) g) <= S (List.length ms))%nat) by (clear; induction ms as [|[k x] ms IHm]; cbn [dset List.length]; [lia|]; destruct (str_eqb (h_lat h) k); cbn [List.length]; lia). lia.
  - destruct (IH ms F) as [I1 I2]. split; [exact I1|lia].
Qed.
Lemma fields_update p e : fields (dupdate p e) <= fields p + fields e.
Proof. unfold dupdate. revert p. induction e as [|[k x] e IH]; intro p; cbn [fold_left fst snd]; [change (fields []) with 0; lia|]. rewrite fields_cons. pose proof (IH (dset p k x)). pose proof (fields_dset p k x). lia. Qed.
Lemma fields_replace d k q q' : dget d k = Some q -> fields (dset d k q') + json_size q = fields d + json_size q'.
Proof. induction d as [|[k' x] d IH]; cbn [dget dset]; [discriminate|]. destruct (str_eqb k k') eqn:E; intro H; rewrite !fields_cons; [injection H as ->; lia|]. specialize (IH H). lia. Qed.
Lemma hints_size : forall ms parsed p, Forall (fun m => short (snd m)) ms -> add_hints parsed ms = Some p -> fields p <= fields parsed + N.of_nat (List.length ms) * geo.
Proof.
  induction ms as [|[k g] ms IH]; intros parsed p F H; cbn [add_hints] in H; [injection H as <-; cbn [List.length]; lia|]. inversion F as [|? ? Sg Fs]; subst. cbn [snd] in Sg.
  destruct (dget parsed k) as [[| | | | | |q]|] eqn:E; try discriminate. apply (IH _ _ Fs) in H. pose proof (fields_replace parsed k (VDict q) (VDict (dupdate q (geo_dict g))) E) as R. change (json_size (VDict q)) with (2 + fields q) in R. change (json_size (VDict (dupdate q (geo_dict g)))) with (2 + fields (dupdate q (geo_dict g))) in R.
  pose proof (fields_update q (geo_dict g)). pose proof (geo_dict_size g Sg). cbn [List.length]. rewrite Nat2N.inj_succ. lia.
Qed.
Lemma dset_In {A} (d : list (pystr * A)) k x k' x' : In (k', x') (dset d k x) -> In (k', x') d \/ k' = k.
Proof. induction d as [|[k0 x0] d IH]; cbn [dset]; [intros [E|[]]; injection E as <- <-; right; reflexivity|]. destruct (str_eqb k k0) eqn:E; intros [H|H]; [|left; right; exact H|left; left; exact H|]. - injection H as <- <-. apply str_eqb_eq in E. right. congruence. - destruct (IH H) as [I|I]; [left; right; exact I|right; exact I]. Qed.
(** proof device: hints are only for names of the dict *)
Lemma hints_known (known : pystr -> Prop) : forall ms parsed p, (forall k q, In (k, VDict q) parsed -> known k) -> add_hints parsed ms = Some p -> Forall (fun m => known (fst m)) ms.
Proof.
  induction ms as [|[k g] ms IH]; intros parsed p Hk H; [constructor|]. cbn [add_hints] in H. destruct (dget parsed k) as [[| | | | | |q]|] eqn:E; try discriminate.
  assert (Kk : known k). { apply (Hk k q). clear - E. induction parsed as [|[k0 x0] d IH]; cbn [dget] in E; [discriminate|]. destruct (str_eqb k k0) eqn:Ek; [apply str_eqb_eq in Ek; subst; injection E as ->; left; reflexivity|right; exact (IH E)]. }
  constructor; [exact Kk|]. refine (IH _ _ _ H). intros k' q' I. apply dset_In in I. destruct I as [I| ->]; [exact (Hk k' q' I)|exact Kk].
Qed.
(** proof device *)
Definition scalar (v : value) : Prop := match v with VBool _ | VInt _ | VFloat _ | VStr _ => True | _ => False end.
Lemma parse_value_size v : scalar v -> encodable v -> fields (parse_value L o v) <= 3 * json_size v + K - 2 /\ (List.length (parse_value L o v) <= 8)%nat /\ Forall (fun k => escaped k <= 3) (dkeys (parse_value L o v)).
Proof.
  intros S E. unfold parse_value. pose proof (wkt_size (text_of L o v)) as Hz. set (zg := match l_wkt L (text_of L o v) with Some g => geo_dict g | None => [] end) in *. set (b := bool_of L o v). set (n := number_of L o v). set (t := first_date L (date_formats o) (text_of L o v)).
  assert (Hn : forall x, n = Some x -> json_size x <= 24). { intros x Hx. subst n. unfold number_of in Hx. destruct v; try (injection Hx as <-; cbn; lia); destruct (l_try_float L _); try discriminate; injection Hx as <-; cbn; lia. }
  assert (Ht : escaped (text_of L o v) <= match v with VStr s => escaped s | VInt _ => 20 | VFloat _ => format_size | _ => 5 end).
  { destruct v as [|[]|z|f|s|l|d]; cbn [text_of]; try lia; try (vm_compute; discriminate); [rewrite escaped_int; apply int_size_20; inversion E; assumption|apply Hformat]. }
  pose proof (slice_size (keyword_length o) (text_of L o v)) as Hk. split; [|split].
  - rewrite !fields_app. assert (B : fields (opt_dict pt_b VBool b) <= 11) by (destruct b; vm_compute; discriminate).
    assert (N' : fields (opt_dict pt_n (fun x => x) n) <= 30). { destruct n as [x|]; [|vm_compute; discriminate]. cbn [opt_dict fields fold_right fst snd]. change (escaped pt_n) with 2. specialize (Hn x eq_refl). lia. }
    assert (D : fields (opt_dict pt_d VInt t) <= 26) by (destruct t; vm_compute; discriminate).
    unfold fields at 1. cbn [fold_right fst snd]. change (escaped pt_u) with 2. change (escaped pt_t) with 2. change (escaped pt_k) with 2. cbn [json_size]. assert (KG : 100 + 2 * format_size + geo <= K) by (subst K; nia). clearbody K. destruct v; cbn [scalar] in S; try contradiction; cbn [json_size] in *; lia.
  - rewrite !app_length. assert (Lz : (List.length zg <= 2)%nat) by (subst zg; destruct (l_wkt L _); cbn; lia). destruct b, n, t; cbn [opt_dict List.length]; lia.
  - unfold dkeys. rewrite !map_app. assert (C : forall l, forallb (fun k => escaped k <=? 3) l = true -> Forall (fun k => escaped k <= 3) l) by (intros l Hc; rewrite forallb_forall in Hc; apply Forall_forall; intros k Hi; apply N.leb_le, Hc, Hi). repeat (apply Forall_app; split); apply C; [reflexivity|subst zg; destruct (l_wkt L _); reflexivity|destruct b; reflexivity|destruct n; reflexivity|destruct t; reflexivity].
Qed.

(** proof device: sizes of a parsed value and of what it adds to the types *)
Definition fits (v p : value) (dts pts : list pystr) : Prop :=
  json_size p <= 3 * json_size v + K * values v /\ N.of_nat (List.length dts) + 1 <= values v /\ N.of_nat (List.length pts) <= T * values v
  /\ Forall (fun s => escaped s <= longest_path v) dts /\ Forall (fun s => escaped s <= longest_path v) pts.
Lemma scalar_fits v : scalar v -> encodable v -> fits v (VDict (parse_value L o v)) [] (dkeys (parse_value L o v)).
Proof.
  intros S E. destruct (parse_value_size v S E) as (H1 & H2 & H3). unfold fits. assert (V : values v = 1) by (destruct v; try reflexivity; destruct S). assert (P : longest_path v = 3) by (destruct v; try reflexivity; destruct S). rewrite V, P.
  split; [|split; [|split; [|split; [constructor|]]]].
  - change (json_size (VDict (parse_value L o v))) with (2 + fields (parse_value L o v)). pose proof K_ge. clearbody K. lia.
  - cbn. lia.
  - unfold dkeys. rewrite map_length. subst T. lia.
  - exact H3.
Qed.
(** proof device: the induction hypothesis *)
Definition nested_fits (v : value) : Prop := forall p dts pts, encodable v -> parse_nested L o v = Some (p, dts, pts) -> fits v p dts pts.
Lemma entry_fits k v po dts pts : nested_fits v -> encodable v -> parse_entry L o (parse_nested L o) k v = Some (po, dts, pts) ->
  match po with Some p => json_size p | None => 0 end <= 3 * json_size v + K * values v /\ N.of_nat (List.length dts) + 1 <= values v /\ N.of_nat (List.length pts) <= T * values v
  /\ Forall (fun s => escaped s <= escaped k + 1 + longest_path v) dts /\ Forall (fun s => escaped s <= escaped k + 1 + longest_path v) pts.
Proof.
  intros IH E H. pose proof (values_pos v) as V.
  assert (Pre : forall l, Forall (fun s => escaped s <= longest_path v) l -> Forall (fun s => escaped s <= escaped k + 1 + longest_path v) (map (dotted k) l)).
  { intros l F. apply Forall_forall. intros s Hs. apply in_map_iff in Hs. destruct Hs as (x & <- & Hx). rewrite Forall_forall in F. specialize (F x Hx). rewrite dotted_size. lia. }
  assert (Nest : forall p d t, fits v p d t -> json_size p <= 3 * json_size v + K * values v /\ N.of_nat (List.length (map (dotted k) d)) + 1 <= values v /\ N.of_nat (List.length (map (dotted k) t)) <= T * values v
    /\ Forall (fun s => escaped s <= escaped k + 1 + longest_path v) (map (dotted k) d) /\ Forall (fun s => escaped s <= escaped k + 1 + longest_path v) (map (dotted k) t)).
  { intros p d t (F1 & F2 & F3 & F4 & F5). rewrite !map_length. split; [exact F1|]. split; [exact F2|]. split; [exact F3|]. split; [exact (Pre d F4)|exact (Pre t F5)]. }
  assert (Sc : scalar v -> json_size (VDict (parse_value L o v)) <= 3 * json_size v + K * values v /\ N.of_nat (List.length (@nil pystr)) + 1 <= values v /\ N.of_nat (List.length (map (dotted k) (dkeys (parse_value L o v)))) <= T * values v
    /\ Forall (fun s => escaped s <= escaped k + 1 + longest_path v) [] /\ Forall (fun s => escaped s <= escaped k + 1 + longest_path v) (map (dotted k) (dkeys (parse_value L o v)))).
  { intro S. exact (Nest _ _ _ (scalar_fits v S E)). }
  assert (Em : forall a, a <= 3 * json_size v + K * values v -> a <= 3 * json_size v + K * values v /\ N.of_nat (List.length (@nil pystr)) + 1 <= values v /\ N.of_nat (List.length (@nil pystr)) <= T * values v
    /\ Forall (fun s => escaped s <= escaped k + 1 + longest_path v) [] /\ Forall (fun s => escaped s <= escaped k + 1 + longest_path v) []).
  { intros a Ha. cbn [List.length]. repeat split; try constructor; try lia. }
  unfold parse_entry in H. destruct v as [|b|z|f|s|l|d].
  - injection H as <- <- <-. apply Em. change (json_size (VDict [(pt_u, VNone)])) with 12. pose proof K_ge. cbn [values json_size]. lia.
  - injection H as <- <- <-. exact (Sc I).
  - injection H as <- <- <-. exact (Sc I).
  - injection H as <- <- <-. exact (Sc I).
  - destruct s as [|c s]; injection H as <- <- <-; [|exact (Sc I)]. apply Em. change (json_size (VDict [(pt_u, VStr [])])) with 10. pose proof K_ge. cbn [values json_size]. lia.
  - destruct (is_empty (VList l)); [injection H as <- <- <-; apply Em; lia|]. destruct (parse_nested L o (VList l)) as [[[p d'] t']|] eqn:En; [|discriminate]. injection H as <- <- <-. exact (Nest _ _ _ (IH p d' t' E En)).
  - destruct (is_empty (VDict d)); [injection H as <- <- <-; apply Em; lia|]. destruct (parse_nested L o (VDict d)) as [[[p d'] t']|] eqn:En; [|discriminate]. injection H as <- <- <-. exact (Nest _ _ _ (IH p d' t' E En)).
Qed.
Lemma rest_fits chk d p dts pts : Forall (fun kv => nested_fits (snd kv)) d -> (forall k v, In (k, v) d -> encodable v) -> dict_rest L o (parse_nested L o) chk d = Some (p, dts, pts) -> fits (VDict d) (VDict p) dts pts.
Proof.
  intros IH E. unfold dict_rest. destruct (map_opt _ d) as [parts|] eqn:Em; [|discriminate].
  pose proof (geojson_size chk d) as G. set (g := if chk then match l_geojson L d with Some g => geo_dict g | None => [] end else []) in *.
  assert (Gk : (List.length (dkeys g) <= 2)%nat /\ Forall (fun s => escaped s <= 3) (dkeys g) /\ forall k q, ~ In (k, VDict q) g).
  { subst g. destruct chk; [|split; [cbn; lia|split; [constructor|intros k q []]]]. destruct (l_geojson L d) as [x|]; [|split; [cbn; lia|split; [constructor|intros k q []]]]. unfold geo_dict. split; [cbn; lia|]. split; [repeat constructor; apply N.leb_le; reflexivity|]. intros k q [H|[H|[]]]; discriminate H. }
  clearbody g. destruct Gk as (Gk1 & Gk2 & Gk3).
  destruct (matches_size d (geo_hints o) [] (Forall_nil _)) as [M1 M2]. set (ms := match_hints L d (geo_hints o) []) in *. clearbody ms. cbn [List.length] in M2. rewrite Nat.add_0_r in M2.
  destruct (add_hints (fold_left set_part parts g) ms) as [parsed|] eqn:Ea; [|discriminate]. intro H. injection H as <- <- <-.
  pose proof (hints_size ms _ _ M1 Ea) as Hs.
  assert (Mk : Forall (fun m => In (fst m) (dkeys d)) ms).
  { refine (hints_known (fun k => In k (dkeys d)) ms _ _ _ Ea). intros k q Hk.
    assert (W : forall parts' acc, (forall x, In x parts' -> In (fst x) (dkeys d)) -> In (k, VDict q) (fold_left set_part parts' acc) -> In (k, VDict q) acc \/ In k (dkeys d)).
    { clear. induction parts' as [|[k0 [[po x] y]] parts' IHp]; intros acc Hp H; [left; exact H|]. cbn [fold_left] in H. apply IHp in H; [|intros z Hz; apply Hp; right; exact Hz]. destruct H as [H|H]; [|right; exact H].
      destruct po as [w|]; cbn [set_part] in H; [|left; exact H]. apply dset_In in H. destruct H as [H| ->]; [left; exact H|right; exact (Hp _ (or_introl eq_refl))]. }
    destruct (W parts g) as [I|I]; [|exact Hk|exfalso; exact (Gk3 k q I)|exact I]. clear - Em. revert parts Em. induction d as [|[k0 v0] d IHd]; intros parts Em x Hx; [cbn in Em; injection Em as <-; destruct Hx|].
    cbn [map_opt fst snd] in Em. destruct (parse_entry L o (parse_nested L o) k0 v0) as [y|]; [|discriminate]. destruct (map_opt _ d) as [parts'|] eqn:E'; [|discriminate]. injection Em as <-. destruct Hx as [<-|Hx]; [left; reflexivity|right; exact (IHd parts' eq_refl x Hx)]. }
  assert (A : fields (fold_left set_part parts g) <= fields g + (3 * fields d + K * fold_right (fun kv n => values (snd kv) + n) 0 d)
    /\ N.of_nat (List.length (flat_map (fun q => part_dts (snd q)) parts)) + N.of_nat (List.length d) <= fold_right (fun kv n => values (snd kv) + n) 0 d
    /\ N.of_nat (List.length (flat_map (fun q => part_pts (snd q)) parts)) <= T * fold_right (fun kv n => values (snd kv) + n) 0 d
    /\ Forall (fun s => escaped s <= longest_path (VDict d)) (flat_map (fun q => part_dts (snd q)) parts)
    /\ Forall (fun s => escaped s <= longest_path (VDict d)) (flat_map (fun q => part_pts (snd q)) parts)).
  { clear G Gk1 Gk2 Gk3 Mk Hs Ea M1 M2. split.
    { generalize g as acc. clear g. revert parts Em. induction IH as [|[k v] d Hv _ IHd]; intros parts Em acc; [cbn in Em; injection Em as <-; cbn [fold_left]; apply N.le_add_r|].
      cbn [map_opt fst snd] in Em. destruct (parse_entry L o (parse_nested L o) k v) as [[[po d1] t1]|] eqn:Ee; [|discriminate]. destruct (map_opt _ d) as [parts'|] eqn:E'; [|discriminate]. injection Em as <-.
      destruct (entry_fits k v po d1 t1 Hv (E k v (or_introl eq_refl)) Ee) as (F1 & _). cbn [fold_left set_part fold_right fst snd]. rewrite fields_cons.
      assert (Ed : forall k' v', In (k', v') d -> encodable v') by (intros k' v' I'; apply (E k' v'); right; exact I'). specialize (IHd Ed parts' eq_refl).
      destruct po as [q|]; [pose proof (IHd (dset acc k q)) as X; pose proof (fields_dset acc k q)|pose proof (IHd acc) as X]; cbn [snd] in *; lia. }
    revert parts Em. induction IH as [|[k v] d Hv _ IHd]; intros parts Em; [cbn in Em; injection Em as <-; cbn; repeat split; try constructor; lia|].
    cbn [map_opt fst snd] in Em. destruct (parse_entry L o (parse_nested L o) k v) as [[[po d1] t1]|] eqn:Ee; [|discriminate]. destruct (map_opt _ d) as [parts'|] eqn:E'; [|discriminate]. injection Em as <-.
    destruct (entry_fits k v po d1 t1 Hv (E k v (or_introl eq_refl)) Ee) as (_ & F2 & F3 & F4 & F5).
    assert (Ed : forall k' v', In (k', v') d -> encodable v') by (intros k' v' I'; apply (E k' v'); right; exact I'). destruct (IHd Ed parts' eq_refl) as (I2 & I3 & I4 & I5).
    cbn [flat_map snd fst fold_right List.length]. change (part_dts (po, d1, t1)) with d1. change (part_pts (po, d1, t1)) with t1. rewrite !app_length, !Nat2N.inj_add, Nat2N.inj_succ. split; [lia|]. split; [lia|].
    assert (M : forall l, Forall (fun s => escaped s <= longest_path (VDict d)) l -> Forall (fun s => escaped s <= longest_path (VDict ((k, v) :: d))) l) by (intros l; apply Forall_impl; intros s Hs; cbn [longest_path fold_right fst snd] in *; lia).
    assert (M' : forall l, Forall (fun s => escaped s <= escaped k + 1 + longest_path v) l -> Forall (fun s => escaped s <= longest_path (VDict ((k, v) :: d))) l) by (intros l; apply Forall_impl; intros s Hs; cbn [longest_path fold_right fst snd] in *; lia).
    split; apply Forall_app; split; auto. }
  destruct A as (A1 & A2 & A3 & A4 & A5). unfold fits. cbn [json_size values]. fold (fields parsed) (fields d). clear IH.
  assert (Lk : forall k, In k (dkeys d) -> escaped k + 4 <= longest_path (VDict d)).
  { clear. intros k Hk. induction d as [|[k' v'] d IHd]; [destruct Hk|]. cbn [longest_path fold_right fst snd dkeys map] in *. destruct Hk as [<-|Hk]; [pose proof (longest_pos v'); lia|]. specialize (IHd Hk). lia. }
  assert (Hl : N.of_nat (List.length ms) <= hints) by (subst hints; lia). assert (KG : (1 + hints) * geo <= K) by (subst K; lia). assert (TG : 2 + 2 * hints <= T) by (subst T; lia).
  split; [clearbody K; nia|]. split; [rewrite app_length, map_length; lia|]. split.
  { rewrite !app_length. assert (Lm : forall f : pystr * (pystr * pystr) -> list pystr, (forall m, List.length (f m) = 2%nat) -> List.length (flat_map f ms) = (2 * List.length ms)%nat) by (intros f Hf2; clear - Hf2; induction ms as [|m ms IHm]; [reflexivity|]; cbn [flat_map List.length]; rewrite app_length, IHm, Hf2; lia).
    rewrite Lm by reflexivity. clearbody T. nia. }
  pose proof (longest_pos (VDict d)) as Lp.
  split; [|apply Forall_app; split; [eapply Forall_impl; [|exact Gk2]; cbv beta; intros s Hs'; lia|apply Forall_app; split; [exact A5|]]].
  - apply Forall_app. split; [|exact A4]. apply Forall_forall. intros s Hs'. apply in_map_iff in Hs'. destruct Hs' as ([k v] & <- & Hk). cbn [fst snd]. rewrite dotted_size, type_size. assert (Ik : In k (dkeys d)) by (apply in_map_iff; exists (k, v); auto). specialize (Lk k Ik). lia.
  - apply Forall_forall. intros s Hs'. apply in_flat_map in Hs'. destruct Hs' as (m & Hm & Hs'). rewrite Forall_forall in Mk. specialize (Lk _ (Mk m Hm)). destruct Hs' as [<-|[<-|[]]]; rewrite dotted_size; [change (escaped pt_gp) with 3|change (escaped pt_gs) with 3]; lia.
Qed.

Lemma element_fits v p dts pts : nested_fits v -> encodable v -> parse_element L o (parse_nested L o) v = Some (p, dts, pts) ->
  json_size p <= 3 * json_size v + K * values v /\ N.of_nat (List.length dts) + 1 <= values v /\ N.of_nat (List.length pts) <= T * values v
  /\ Forall (fun s => escaped s <= 1 + longest_path v) dts /\ Forall (fun s => escaped s <= longest_path v) pts.
Proof.
  intros IH E H. pose proof (values_pos v) as V. pose proof K_ge as KG.
  assert (Nest : forall p d t, fits v p d t -> json_size p <= 3 * json_size v + K * values v /\ N.of_nat (List.length (map (dotted []) d)) + 1 <= values v /\ N.of_nat (List.length t) <= T * values v
    /\ Forall (fun s => escaped s <= 1 + longest_path v) (map (dotted []) d) /\ Forall (fun s => escaped s <= longest_path v) t).
  { intros q d t (F1 & F2 & F3 & F4 & F5). rewrite map_length. split; [exact F1|]. split; [exact F2|]. split; [exact F3|]. split; [|exact F5].
    apply Forall_forall. intros s Hs. apply in_map_iff in Hs. destruct Hs as (x & <- & Hx). rewrite Forall_forall in F4. specialize (F4 x Hx). rewrite dotted_size. change (escaped []) with 0. lia. }
  assert (Em : json_size VNone <= 3 * json_size v + K * values v /\ N.of_nat (List.length (@nil pystr)) + 1 <= values v /\ N.of_nat (List.length (@nil pystr)) <= T * values v
    /\ Forall (fun s => escaped s <= 1 + longest_path v) [] /\ Forall (fun s => escaped s <= longest_path v) []).
  { cbn [List.length json_size]. repeat split; try constructor; try nia. }
  unfold parse_element in H. destruct v as [|b|z|f|s|l|d].
  - injection H as <- <- <-. exact Em.
  - injection H as <- <- <-. exact (Nest _ _ _ (scalar_fits (VBool b) I E)).
  - injection H as <- <- <-. exact (Nest _ _ _ (scalar_fits (VInt z) I E)).
  - injection H as <- <- <-. exact (Nest _ _ _ (scalar_fits (VFloat f) I E)).
  - destruct s as [|c s]; injection H as <- <- <-; [exact Em|]. exact (Nest _ _ _ (scalar_fits (VStr (c :: s)) I E)).
  - destruct (is_empty (VList l)); [injection H as <- <- <-; exact Em|]. destruct (parse_nested L o (VList l)) as [[[q d'] t']|] eqn:En; [|discriminate]. injection H as <- <- <-. exact (Nest _ _ _ (IH q d' t' E En)).
  - destruct (is_empty (VDict d)); [injection H as <- <- <-; exact Em|]. destruct (parse_nested L o (VDict d)) as [[[q d'] t']|] eqn:En; [|discriminate]. injection H as <- <- <-. exact (Nest _ _ _ (IH q d' t' E En)).
Qed.
Lemma nodup_count (l : list pystr) : (List.length (nodup str_eq_dec l) <= List.length l)%nat.
Proof. apply NoDup_incl_length; [apply NoDup_nodup|]. intros x Hx. apply nodup_In in Hx. exact Hx. Qed.
Lemma list_fits l p dts pts : Forall nested_fits l -> (forall v, In v l -> encodable v) -> list_body L o (parse_nested L o) l = Some (p, dts, pts) -> fits (VList l) (VList p) dts pts.
Proof.
  intros IH E. unfold list_body. destruct (map_opt _ l) as [ps|] eqn:Em; [|discriminate]. intro H. injection H as <- <- <-.
  set (lj := fold_right (fun x n => 1 + json_size x + n) 0). set (lv := fold_right (fun x n => values x + n) 0). set (ll := fold_right (fun x n => N.max (longest_path x) n) 3).
  assert (A : lj (map (fun q => fst (fst q)) ps) <= 3 * lj l + K * lv l
    /\ N.of_nat (List.length (flat_map (fun q => snd (fst q)) ps)) + N.of_nat (List.length l) <= lv l
    /\ N.of_nat (List.length (flat_map (fun q => snd q) ps)) <= T * lv l
    /\ Forall (fun s => escaped s <= 1 + ll l) (flat_map (fun q => snd (fst q)) ps) /\ Forall (fun s => escaped s <= ll l) (flat_map (fun q => snd q) ps)).
  { revert ps Em. induction IH as [|v l Hv _ IHl]; intros ps Em; [cbn in Em; injection Em as <-; cbn; repeat split; try constructor; lia|].
    cbn [map_opt] in Em. destruct (parse_element L o (parse_nested L o) v) as [[[q d1] t1]|] eqn:Ee; [|discriminate]. destruct (map_opt _ l) as [ps'|] eqn:E'; [|discriminate]. injection Em as <-.
    destruct (element_fits v q d1 t1 Hv (E v (or_introl eq_refl)) Ee) as (F1 & F2 & F3 & F4 & F5).
    assert (Ed : forall v', In v' l -> encodable v') by (intros v' I'; apply (E v'); right; exact I'). destruct (IHl Ed ps' eq_refl) as (I1 & I2 & I3 & I4 & I5).
    assert (Ll : ll (v :: l) = N.max (longest_path v) (ll l)) by reflexivity. assert (Lv : lv (v :: l) = values v + lv l) by reflexivity. assert (Lj : lj (v :: l) = 1 + json_size v + lj l) by reflexivity.
    assert (Lq : lj (map (fun q => fst (fst q)) ((q, d1, t1) :: ps')) = 1 + json_size q + lj (map (fun q => fst (fst q)) ps')) by reflexivity. rewrite Ll, Lv, Lj, Lq. cbn [flat_map fst snd List.length]. rewrite !app_length, !Nat2N.inj_add, Nat2N.inj_succ.
    split; [lia|]. split; [lia|]. split; [lia|]. split; apply Forall_app; split.
    - eapply Forall_impl; [|exact F4]. cbv beta. intros s Hs. lia.
    - eapply Forall_impl; [|exact I4]. cbv beta. intros s Hs. lia.
    - eapply Forall_impl; [|exact F5]. cbv beta. intros s Hs. lia.
    - eapply Forall_impl; [|exact I5]. cbv beta. intros s Hs. lia. }
  destruct A as (A1 & A2 & A3 & A4 & A5). assert (L2 : 3 <= ll l) by (clear; subst ll; induction l; cbn [fold_right] in *; lia).
  unfold fits. change (json_size (VList (map (fun q => fst (fst q)) ps))) with (2 + lj (map (fun q => fst (fst q)) ps)). change (json_size (VList l)) with (2 + lj l). change (values (VList l)) with (1 + lv l). change (longest_path (VList l)) with (1 + ll l).
  split; [lia|]. split; [|split; [|split]].
  - pose proof (nodup_count (map (fun v => dotted [] (type_for v)) l ++ flat_map (fun q => snd (fst q)) ps)) as N1. rewrite app_length, map_length in N1. lia.
  - pose proof (nodup_count (flat_map (fun q => snd q) ps)) as N1. lia.
  - apply Forall_forall. intros s Hs. apply nodup_In in Hs. apply in_app_or in Hs. destruct Hs as [Hs|Hs]; [|rewrite Forall_forall in A4; exact (A4 s Hs)].
    apply in_map_iff in Hs. destruct Hs as (x & <- & _). rewrite dotted_size, type_size. change (escaped []) with 0. lia.
  - apply Forall_forall. intros s Hs. apply nodup_In in Hs. rewrite Forall_forall in A5. specialize (A5 s Hs). cbv beta in A5. lia.
Qed.
Lemma all_fit v : nested_fits v.
Proof.
  induction v as [|b|z|f|s|l IH|d IH] using value_ind'; intros p dts pts E H; cbn [parse_nested] in H; try discriminate.
  - destruct (list_body _ _ _ l) as [[[p' d'] t']|] eqn:El; [|discriminate]. injection H as <- <- <-. apply (list_fits l p' d' t' IH); [|exact El]. inversion E; assumption.
  - destruct (dict_body _ _ _ _ d) as [[[p' d'] t']|] eqn:El; [|discriminate]. injection H as <- <- <-. apply (rest_fits true d p' d' t' IH); [|exact (dict_body_some _ _ _ _ _ _ El)]. inversion E as [| | | | | |? F]; subst. intros k v Hk. exact (proj2 (F k v Hk)).
Qed.
Lemma parsed_fits d r : encodable (VDict d) -> parse L o d = Some r -> exists dts pts, p_data_types r = compress dts /\ p_parsed_types r = compress pts /\ fits (VDict d) (VDict (p_parsed r)) dts pts
  /\ Forall (fun s => rsplit_dot s <> None) dts /\ Forall (fun s => rsplit_dot s <> None) pts.
Proof.
  intros E. unfold parse. destruct (dict_body _ _ _ _ d) as [[[p dts] pts]|] eqn:El; [|discriminate]. intro H. injection H as <-. apply dict_body_some in El. exists dts, pts. cbn [p_parsed p_data_types p_parsed_types]. split; [reflexivity|]. split; [reflexivity|]. split.
  - apply (rest_fits false d p dts pts); [apply Forall_forall; intros kv _; apply all_fit| |exact El]. inversion E as [| | | | | |? F]; subst. intros k v Hk. exact (proj2 (F k v Hk)).
  - assert (Dot : forall a b, rsplit_dot (dotted a b) <> None). { intros a b H. apply rsplit_none in H. unfold dotless in H. apply H. unfold dotted. apply in_or_app. right. left. reflexivity. }
    revert El. unfold dict_rest. destruct (map_opt _ d) as [parts|] eqn:Em; [|discriminate]. set (ms := match_hints L d (geo_hints o) []). clearbody ms. destruct (add_hints _ ms) as [parsed|]; [|discriminate]. intro H. injection H as <- <- <-. cbn [dkeys map app].
    assert (A : Forall (fun s => rsplit_dot s <> None) (flat_map (fun q => part_dts (snd q)) parts) /\ Forall (fun s => rsplit_dot s <> None) (flat_map (fun q => part_pts (snd q)) parts)).
    { clear E. revert parts Em. induction d as [|[k v] d IHd]; intros parts Em; [cbn in Em; injection Em as <-; split; constructor|].
      cbn [map_opt fst snd] in Em. destruct (parse_entry L o (parse_nested L o) k v) as [[[po d1] t1]|] eqn:Ee; [|discriminate]. destruct (map_opt _ d) as [parts'|] eqn:E'; [|discriminate]. injection Em as <-. destruct (IHd parts' eq_refl) as [I1 I2].
      assert (M : forall l, Forall (fun s => rsplit_dot s <> None) (map (dotted k) l)) by (intro l; apply Forall_forall; intros s Hs; apply in_map_iff in Hs; destruct Hs as (x & <- & _); apply Dot).
      assert (Inj : forall (x x' : option value) (y y' z z' : list pystr), Some (x, y, z) = Some (x', y', z') -> y' = y /\ z' = z) by (intros x x' y y' z z' H; injection H; auto).
      assert (B : Forall (fun s => rsplit_dot s <> None) d1 /\ Forall (fun s => rsplit_dot s <> None) t1).
      { unfold parse_entry in Ee. destruct v as [|b|z|f|[|c s]|l|e]; try (apply Inj in Ee; destruct Ee as [-> ->]; split; [constructor|first [apply M|constructor; fail]]; fail).
        - destruct (is_empty _); [injection Ee as <- <- <-; split; constructor|]. destruct (parse_nested _ _ _) as [[[q d'] t']|]; [|discriminate]. injection Ee as <- <- <-. split; apply M.
        - destruct (is_empty _); [injection Ee as <- <- <-; split; constructor|]. destruct (parse_nested _ _ _) as [[[q d'] t']|]; [|discriminate]. injection Ee as <- <- <-. split; apply M. }
      cbn [flat_map snd]. change (part_dts (po, d1, t1)) with d1. change (part_pts (po, d1, t1)) with t1. split; apply Forall_app; split; tauto. }
    split; [|apply Forall_app; split; [exact (proj2 A)|apply Forall_forall; intros s Hs; apply in_flat_map in Hs; destruct Hs as (x & _ & [<-|[<-|[]]]); apply Dot]]. apply Forall_app. split; [|exact (proj1 A)]. apply Forall_forall. intros s Hs. apply in_map_iff in Hs. destruct Hs as (x & <- & _). apply Dot.
Qed.
End Parsed.

(** ** The lists of types *)
(** proof device *)
Definition texts (l : list pystr) : N := fold_right (fun s n => 3 + escaped s + n) 0 l.
Lemma texts_app a b : texts (a ++ b) = texts a + texts b.
Proof. unfold texts. induction a as [|x a IH]; [reflexivity|]. cbn [app fold_right]. rewrite IH. lia. Qed.
Lemma texts_perm a b : Permutation a b -> texts a = texts b.
Proof. unfold texts. induction 1; cbn [fold_right] in *; lia. Qed.
Lemma join_size ts : ts <> [] -> escaped (join 44 ts) + 1 <= fold_right (fun t n => escaped t + 1 + n) 0 ts.
Proof.
  intro H. induction ts as [|t [|u ts] IH]; [contradiction|cbn [join fold_right]; lia|]. cbn [join fold_right] in *. rewrite escaped_app, escaped_cons. change (text_size (escape 44)) with 1. specialize (IH ltac:(discriminate)). lia.
Qed.
Lemma group_size k g : g <> [] -> Forall (fun s => rsplit_dot s <> None /\ path_of s = k) g -> 3 + escaped (dotted k (join 44 (map type_of g))) <= texts g.
Proof.
  intros N F. rewrite dotted_size.
  assert (J := join_size (map type_of g)). assert (M : map type_of g <> []) by (destruct g; [contradiction|discriminate]). specialize (J M).
  assert (A : fold_right (fun t n => escaped t + 1 + n) 0 (map type_of g) + N.of_nat (List.length g) * (3 + escaped k) = texts g).
  { clear N J M. unfold texts. induction F as [|s g [S1 S2] _ IH]; [reflexivity|]. cbn [map fold_right List.length]. rewrite <- IH. unfold path_of, type_of in *. destruct (rsplit_dot s) as [[a b]|] eqn:E; [|contradiction]. apply rsplit_some in E. destruct E as [-> _]. cbn [fst snd] in *. subst a. rewrite dotted_size. lia. }
  assert (1 <= N.of_nat (List.length g)) by (destruct g; [contradiction|cbn [List.length]; lia]). nia.
Qed.
Lemma compress_size l : Forall (fun s => rsplit_dot s <> None) l -> texts (compress l) <= texts l.
Proof.
  intro F. rewrite <- (texts_perm _ _ (sort_perm l)). rewrite <- (groupby_flat path_of (sort l)). unfold compress.
  assert (Fs : Forall (fun s => rsplit_dot s <> None) (sort l)) by (rewrite Forall_forall in *; intros s Hs; apply F; apply (Permutation_in _ (sort_perm l)), Hs).
  assert (G : forall k g, In (k, g) (groupby path_of (sort l)) -> 3 + escaped (dotted k (join 44 (map type_of g))) <= texts g).
  { intros k g Hg. destruct (groupby_keys _ _ _ _ Hg) as [N P]. apply group_size; [exact N|]. rewrite Forall_forall in *. intros s Hs. split; [|exact (P s Hs)]. apply Fs. rewrite <- (groupby_flat path_of (sort l)). apply in_flat_map. exists (k, g). split; [exact Hg|exact Hs]. }
  clear - G. induction (groupby path_of (sort l)) as [|[k g] gs IH]; [apply N.le_refl|]. cbn [map flat_map fst snd]. rewrite texts_app. cbn [texts fold_right]. fold (texts (map (fun g => dotted (fst g) (join 44 (map type_of (snd g)))) gs)).
  pose proof (G k g (or_introl eq_refl)). specialize (IH (fun k' g' H' => G k' g' (or_intror H'))). lia.
Qed.
Lemma texts_le B l : Forall (fun s => escaped s <= B) l -> texts l <= N.of_nat (List.length l) * (3 + B).
Proof. unfold texts. induction 1; cbn [fold_right List.length]; [lia|]. rewrite Nat2N.inj_succ. lia. Qed.
Lemma texts_json l : json_size (VList (map VStr l)) = 2 + texts l.
Proof. cbn [json_size]. f_equal. unfold texts. induction l as [|x l IH]; [reflexivity|]. cbn [map fold_right json_size]. rewrite IH. lia. Qed.

(** ** Operations *)
(** the document that an operation indexes, and the number of the arc (0 for the latest index) *)
Definition indexes (op : bop (option parsed_data)) (arc : N) (doc : esdoc (option parsed_data)) : Prop := op = BIndexLatest (e_id doc) doc /\ arc = 0 \/ op = BIndexArc arc doc.
(** What an operation for a record with such data takes in a request, at most: [format_size] is what floats take as text (22 bytes in the default format),
    [geo_size] what a geometry takes as text, [hints] how many geo hints there are. *)
Definition operation_room (name id : pystr) (format_size geo_size hints : N) (data : dict) : N :=
  350 + escaped name + 2 * escaped id + 3 * json_size (VDict data)
  + values (VDict data) * (103 + 2 * format_size + (1 + hints) * (18 + 2 * geo_size) + (9 + 2 * hints) * (3 + longest_path (VDict data))).
(** Largest useful part for records. *)
Theorem C100_record_partial : forall ft L o format_size geo_size name op arc doc d r body,
  (forall f, text_size (ft f) <= 24) -> (forall f, escaped (l_format L (float_format o) f) <= format_size) ->
  (forall s g, l_wkt L s = Some g -> escaped (fst g) <= geo_size /\ escaped (snd g) <= geo_size) ->
  (forall x g, l_geojson L x = Some g -> escaped (fst g) <= geo_size /\ escaped (snd g) <= geo_size) ->
  (forall lon lat radius n g, l_point L lon lat radius n = Some g -> escaped (fst g) <= geo_size /\ escaped (snd g) <= geo_size) ->
  encodable (VDict d) -> parse L o d = Some r -> e_parsed doc = Some r -> indexes op arc doc -> arc < 10 ^ 10 ->
  request ft name [op] = Some body ->
  text_size body <= operation_room name (e_id doc) format_size geo_size (N.of_nat (List.length (geo_hints o))) d.
Proof.
  unfold operation_room. intros ft L o F GS name op arc doc d r body FT Hf Hw Hg Hp En P Ed Ho Ha R.
  destruct (parsed_fits L o F GS Hw Hg Hp Hf d r En P) as (dts & pts & T1 & T2 & (S1 & S2 & S3 & S4 & S5) & D1 & D2).
  assert (X1 : texts (p_data_types r) <= values (VDict d) * (3 + longest_path (VDict d))). { rewrite T1. pose proof (compress_size dts D1) as C. pose proof (texts_le _ _ S4) as B. nia. }
  assert (X2 : texts (p_parsed_types r) <= (8 + 2 * N.of_nat (List.length (geo_hints o))) * values (VDict d) * (3 + longest_path (VDict d))). { rewrite T2. pose proof (compress_size pts D2) as C. pose proof (texts_le _ _ S5) as B. nia. }
  assert (Doc : json_size (VDict (doc_dict doc r)) <= 250 + escaped (e_id doc) + json_size (VDict (p_parsed r)) + texts (p_data_types r) + texts (p_parsed_types r)).
  { unfold doc_dict. assert (J : forall x, json_size (VDict x) = 2 + fields x) by reflexivity. rewrite !J, fields_app. unfold fields at 1. cbn [fold_right fst snd]. rewrite !texts_json.
    destruct (e_end doc) as [w|]; cbn [json_size fields fold_right fst snd]; repeat match goal with |- context[escaped (lit ?x)] => let y := eval vm_compute in (escaped (lit x)) in change (escaped (lit x)) with y end; fold (fields (p_parsed r)); lia. }
  assert (Arc : forall i id, escaped i <= 26 + escaped name -> serialise ft (IndexOp i id (doc_dict doc r)) <> None -> match id with Some x => x = e_id doc | None => True end -> forall t, serialise ft (IndexOp i id (doc_dict doc r)) = Some t ->
    text_size (line t) <= 98 + escaped name + escaped (e_id doc) + json_size (VDict (doc_dict doc r))).
  { intros i id Hi _ Hid t. unfold serialise. destruct (dumps ft (VDict [_])) as [a|] eqn:Ea; [|discriminate]. destruct (dumps ft (VDict (doc_dict doc r))) as [b|] eqn:Eb; [|discriminate]. intro H. injection H as <-.
    apply (dumps_le ft FT) in Ea. apply (dumps_le ft FT) in Eb. assert (Ln : forall x, text_size (line x) <= text_size x + 1) by (intro x; unfold line; destruct (N.eqb _ _); rewrite ?size_app; cbn; lia).
    specialize (Ln (a ++ 10 :: b)). rewrite size_app, size_cons in Ln. change (char_size 10) with 1 in Ln.
    assert (Ma : text_size a <= 70 + escaped name + escaped (e_id doc)); [|lia]. cbn [json_size fold_right fst snd] in Ea.
    repeat match type of Ea with context[escaped (lit ?x)] => let y := eval vm_compute in (escaped (lit x)) in change (escaped (lit x)) with y in Ea end. destruct id as [x|]; [subst x|]; cbn [json_size] in Ea; lia. }
  assert (One : forall i id, escaped i <= 26 + escaped name -> match id with Some x => x = e_id doc | None => True end -> forall b, bulk_body ft [IndexOp i id (doc_dict doc r)] = Some b ->
    text_size b <= 98 + escaped name + escaped (e_id doc) + json_size (VDict (doc_dict doc r))).
  { intros i id Hi Hid b. unfold bulk_body. cbn [map all_some]. destruct (serialise ft _) as [t|] eqn:E; [|discriminate]. intro H. injection H as <-. cbn [map concat]. rewrite app_nil_r. apply (Arc i id Hi); [rewrite E; discriminate|exact Hid|exact E]. }
  assert (B : text_size body <= 98 + escaped name + escaped (e_id doc) + json_size (VDict (doc_dict doc r))).
  { unfold request in R. destruct Ho as [[-> _]| ->]; cbn [map all_some op_of] in R; rewrite Ed in R.
    - apply (One (latest name) (Some (e_id doc))); [|reflexivity|exact R]. unfold latest, base. rewrite !escaped_app. change (escaped (lit "data-")) with 5. change (escaped (lit "-latest")) with 7. lia.
    - apply (One (get_arc name arc) None); [|exact I|exact R]. unfold get_arc, arc_base, base. rewrite !escaped_app, escaped_int. change (escaped (lit "data-")) with 5. change (escaped (lit "-arc")) with 4. change (escaped (lit "-")) with 1.
      assert (text_size (str_int (Z.of_N arc)) <= 10); [|lia]. apply (digits_size (Z.of_N arc) 9). change (N.succ 9) with 10. lia. }
  nia.
Qed.
Print Assumptions C100_record_partial.

(** A sync of records: if the data of each of their versions leaves room for the operations of a request, every request is within the limit.
    The full statement has no condition on the sizes. *)
Theorem C100_sync_partial : forall ft L format_size geo_size hints name peq cap after all_opts st records st' ops chunk_size limit,
  (forall f, text_size (ft f) <= 24) ->
  (forall s g, l_wkt L s = Some g -> escaped (fst g) <= geo_size /\ escaped (snd g) <= geo_size) ->
  (forall x g, l_geojson L x = Some g -> escaped (fst g) <= geo_size /\ escaped (snd g) <= geo_size) ->
  (forall lon lat radius n g, l_point L lon lat radius n = Some g -> escaped (fst g) <= geo_size /\ escaped (snd g) <= geo_size) ->
  (forall w o, In (w, o) all_opts -> N.of_nat (List.length (geo_hints o)) <= hints /\ forall f, escaped (l_format L (float_format o) f) <= format_size) ->
  (1 <= chunk_size)%nat ->
  (forall id all_data, In (id, all_data) records -> all_data <> []) ->
  (forall id all_data v data, In (id, all_data) records -> In (v, data) all_data -> encodable (VDict data) /\ N.of_nat chunk_size * operation_room name id format_size geo_size hints data <= limit) ->
  gen_ops (parse_opt L) peq cap after all_opts st records = Some (st', ops) -> (forall arc doc, In (BIndexArc arc doc) ops -> arc < 10 ^ 10) ->
  forall chunk body, In chunk (partition ops chunk_size) -> request ft name chunk = Some body -> text_size body <= limit.
Proof.
  intros ft L F GS hs name peq cap after all_opts st records st' ops n limit FT Hw Hg Hp Ho Hn Hne Hr G Ha. apply (C100_partial ft name ops n limit Hn).
  intros op body Hop R. apply gen_from in G. rewrite Forall_forall in G. destruct (G op Hop) as [G1 G2].
  assert (X : forall doc arc, indexes op arc doc -> arc < 10 ^ 10 -> (exists all_data, In (e_id doc, all_data) records /\ In (e_ver doc) (zkeys all_opts ++ zkeys all_data)
    /\ (forall w, e_end doc = Some w -> In w (zkeys all_opts ++ zkeys all_data)) /\ exists v x w o, In (v, x) all_data /\ In (w, o) all_opts /\ e_parsed doc = parse_opt L x o) -> N.of_nat n * text_size body <= limit).
  { intros doc arc Hi Hlt (ad & A1 & _ & _ & v & x & w & o & A4 & A5 & A6). destruct (Ho w o A5) as [O1 O2]. destruct (Hr _ _ _ _ A1 A4) as [E1 E2]. unfold parse_opt in A6.
    destruct (parse L o x) as [r|] eqn:P.
    - pose proof (C100_record_partial ft L o F GS name op arc doc x r body FT O2 Hw Hg Hp E1 P A6 Hi Hlt R) as Q.
      assert (Mono : operation_room name (e_id doc) F GS (N.of_nat (List.length (geo_hints o))) x <= operation_room name (e_id doc) F GS hs x) by (unfold operation_room; apply N.add_le_mono_l, N.mul_le_mono_l; apply N.add_le_mono; [apply N.add_le_mono_l|]; apply N.mul_le_mono_r; lia). nia.
    - exfalso. unfold request in R. destruct Hi as [[-> _]| ->]; cbn [map all_some op_of] in R; rewrite A6 in R; discriminate. }
  destruct op as [id d|id|arc d].
  - apply (X d 0); [left; split; [rewrite G2; reflexivity|reflexivity]|reflexivity|exact G1].
  - destruct G1 as (ad & G1). destruct ad as [|[v x] ad]; [exfalso; exact (Hne _ _ G1 eq_refl)|]. destruct (Hr _ _ _ _ G1 (or_introl eq_refl)) as [_ E2].
    unfold request in R. cbn [map all_some op_of] in R. unfold bulk_body in R. cbn [map all_some serialise concat] in R. injection R as <-. rewrite app_nil_r.
    assert (Ln : forall y, text_size (line y) <= text_size y + 1) by (intro y; unfold line; destruct (N.eqb _ _); rewrite ?size_app; cbn; lia). specialize (Ln (serialise_delete (latest name) id)).
    pose proof (escaped_size name) as S1. pose proof (escaped_size id) as S2. fold (escaped name) in S1. fold (escaped id) in S2.
    assert (D : text_size (serialise_delete (latest name) id) <= 60 + escaped name + escaped id).
    { unfold serialise_delete, latest, base. rewrite !size_app. repeat match goal with |- context[text_size (lit ?y)] => let z := eval vm_compute in (text_size (lit y)) in change (text_size (lit y)) with z end. lia. }
    assert (D2 : text_size (line (serialise_delete (latest name) id)) <= operation_room name id F GS hs x) by (unfold operation_room; lia). nia.
  - apply (X d arc); [right; reflexivity|exact (Ha arc d Hop)|exact G1].
Qed.
Print Assumptions C100_sync_partial.

(** The conditions are met: the records of C81 with a hint and a text that is a point, and the default number of operations. *)
Definition geo_lib : lib := Lib (fun s => s) (fun _ _ => lit "1.5") (fun _ => None) (fun _ _ => None) (fun s => if str_eqb s (lit "POINT (1 2)") then Some (s, s) else None) (fun _ => None) (fun _ => false) (fun lon lat _ _ => match lon, lat with VInt _, VInt _ => Some (lit "POINT (3 4)", lit "POINT (3 4)") | _, _ => None end).
Definition geo_options : list (Z * options) := [(1%Z, Opts [] [] [] [Hint (lit "lat") (lit "lon") None 16] 256%Z (lit "{}"))].
Definition geo_records : list (pystr * list (Z * dict)) :=
  (lit "c", [(1%Z, [(lit "lat", VInt 4); (lit "lon", VInt 3); (lit "where", VDict [(lit "wkt", VList [VStr (lit "POINT (1 2)"); VNone])])])]) :: ex_recs.
Example C100_sync_example :
  (forall f, text_size (ex_ft f) <= 24)
  /\ (forall s g, l_wkt geo_lib s = Some g -> escaped (fst g) <= 11 /\ escaped (snd g) <= 11) /\ (forall x g, l_geojson geo_lib x = Some g -> escaped (fst g) <= 11 /\ escaped (snd g) <= 11)
  /\ (forall lon lat radius n g, l_point geo_lib lon lat radius n = Some g -> escaped (fst g) <= 11 /\ escaped (snd g) <= 11)
  /\ (forall w o, In (w, o) geo_options -> N.of_nat (List.length (geo_hints o)) <= 1 /\ forall f, escaped (l_format geo_lib (float_format o) f) <= 3)
  /\ (forall id all_data, In (id, all_data) geo_records -> all_data <> [])
  /\ (forall id all_data v data, In (id, all_data) geo_records -> In (v, data) all_data -> encodable (VDict data) /\ N.of_nat CHUNK_SIZE * operation_room (lit "birds") id 3 11 1 data <= REQUEST_LIMIT)
  /\ exists st' ops, gen_ops (parse_opt geo_lib) (fun _ _ => false) 10 None geo_options (0, 0) geo_records = Some (st', ops) /\ (forall arc doc, In (BIndexArc arc doc) ops -> arc < 10 ^ 10) /\ partition ops CHUNK_SIZE = [ops]
  /\ match request ex_ft (lit "birds") ops with Some body => 800 <? text_size body | None => false end = true.
Proof.
  assert (Dm : forall d, dumps ex_ft (VDict d) <> None -> encodable (VDict d)) by (intro d; apply dumps_some).
  split; [intro f; vm_compute; discriminate|].
  split; [intros s g H; cbn [geo_lib l_wkt] in H; destruct (str_eqb s (lit "POINT (1 2)")) eqn:E; [|discriminate]; apply str_eqb_eq in E; subst s; injection H as <-; vm_compute; split; discriminate|].
  split; [discriminate|].
  split; [intros lon lat ra n g H; cbn [geo_lib l_point] in H; destruct lon; try discriminate; destruct lat; try discriminate; injection H as <-; vm_compute; split; discriminate|].
  split; [intros w o [E|[]]; injection E as <- <-; (split; [vm_compute; discriminate|]); intro f; vm_compute; discriminate|].
  split; [intros id ad [E|[E|[E|[]]]]; injection E as <- <-; discriminate|].
  split; [intros id ad v d [E|[E|[E|[]]]]; injection E as <- <-; [intros [E|[]]|intros [E|[E|[]]]|intros [E|[]]]; injection E as <- <-; (split; [apply Dm; vm_compute; discriminate|vm_compute; discriminate])|].
  eexists. eexists. split; [vm_compute; reflexivity|]. split; [|split; [reflexivity|vm_compute; reflexivity]].
  intros arc doc H. repeat (destruct H as [E|H]; [try discriminate E; injection E as <- _; reflexivity|]). destruct H.
Qed.
