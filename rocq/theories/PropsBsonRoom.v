(** Property C99: the room that a change of a record with nested lists and dicts needs. *)
From Coq Require Import String Ascii.
From Coq Require Import List ZArith NArith Bool Lia.
From Verif Require Import PyVal Diff DiffProofs Time Prepare Mongo Store MongoStore ParserTypes Bson BsonProofs BsonSize BsonSizeProofs PropsBsonSize.
Import ListNotations.
Open Scope string_scope.
Open Scope list_scope.
Open Scope N_scope.

(** ** Specification *)
(** The lists and dicts in a value, itself included. *)
Fixpoint containers (v : value) : N :=
  match v with
  | VList l => 1 + fold_right (fun x n => containers x + n) 0 l
  | VDict d => 1 + fold_right (fun kv n => containers (snd kv) + n) 0 d
  | _ => 0
  end.
(** How deep they are nested, and the bytes of the longest name. *)
Fixpoint levels (v : value) : N :=
  match v with
  | VList l => 1 + fold_right (fun x n => N.max (levels x) n) 0 l
  | VDict d => 1 + fold_right (fun kv n => N.max (levels (snd kv)) n) 0 d
  | _ => 0
  end.
Fixpoint longest_name (v : value) : N :=
  match v with
  | VList l => fold_right (fun x n => N.max (longest_name x) n) 0 l
  | VDict d => fold_right (fun kv n => N.max (N.max (text_size (fst kv)) (longest_name (snd kv))) n) 0 d
  | _ => 0
  end.
(** What the changes from [new] back to [old] take at most: a path and some bytes for each list and dict, and a multiple of the two. *)
Definition room (new old : dict) : N :=
  5 + containers (VDict new) * (61 + levels (VDict new) * (18 + longest_name (VDict new))) + 8 * bson_size (VDict new) + 10 * bson_size (VDict old).

(** ** Proofs *)
Definition c_items (l : list value) : N := fold_right (fun x n => containers x + n) 0 l.
Definition c_fields (d : dict) : N := fold_right (fun kv n => containers (snd kv) + n) 0 d.
Definition l_items (l : list value) : N := fold_right (fun x n => N.max (levels x) n) 0 l.
Definition l_fields (d : dict) : N := fold_right (fun kv n => N.max (levels (snd kv)) n) 0 d.
Definition n_items (l : list value) : N := fold_right (fun x n => N.max (longest_name x) n) 0 l.
Definition n_fields (d : dict) : N := fold_right (fun kv n => N.max (N.max (text_size (fst kv)) (longest_name (snd kv))) n) 0 d.

Lemma digits_8 i : i < 10 ^ 8 -> text_size (str_int (Z.of_N i)) <= 8.
Proof. intro H. exact (digits_size (Z.of_N i) 7 ltac:(change (10 ^ N.succ 7) with (10 ^ 8); lia)). Qed.
Lemma digits_one i : 1 <= text_size (str_int (Z.of_N i)).
Proof. apply digits_pos. Qed.
Lemma items_many l : forall i, i + N.of_nat (List.length l) <= 10 ^ 8 -> items_size i l <= fold_right (fun x n => 10 + bson_size x + n) 0 l.
Proof. induction l as [|x l IH]; intros i H; [cbn; lia|]. cbn [items_size fold_right List.length] in *. unfold element_size. pose proof (digits_8 i ltac:(lia)). specialize (IH (i + 1) ltac:(lia)). lia. Qed.
Lemma items_count l : forall i, 3 * N.of_nat (List.length l) <= items_size i l.
Proof. induction l as [|x l IH]; intro i; [cbn; lia|]. cbn [items_size List.length]. unfold element_size. pose proof (digits_one i). specialize (IH (i + 1)). lia. Qed.
Lemma fields_count d : 2 * N.of_nat (List.length d) <= fields_size d.
Proof. induction d as [|[k x] d IH]; [cbn; lia|]. cbn [fields_size List.length]. unfold element_size. lia. Qed.
Lemma fields_in d k x : In (k, x) d -> element_size k (bson_size x) <= fields_size d.
Proof. induction d as [|[k' x'] d IH]; intros []; cbn [fields_size]; [injection H as -> ->; lia|specialize (IH H); lia]. Qed.

Lemma entry_bytes {A} name (f : A -> value) x : fields_size (entry name f x) = match x with Some y => element_size (lit name) (bson_size (f y)) | None => 0 end.
Proof. destruct x; [cbn [entry fields_size]; lia|reflexivity]. Qed.

Section Room.
Variables (LIM K D : N).
Hypothesis HL : LIM < 10 ^ 8.
Hypothesis HD : D < 10 ^ 8.
Let H := 61 + D * (18 + K).
Definition key_fits (k : pkey) : Prop := match k with PK s => text_size s <= K | PI _ => True end.
Definition fits (p : path) (l r : value) : Prop :=
  Forall key_fits p /\ N.of_nat (List.length p) + levels l <= D /\ longest_name l <= K /\ bson_size l <= LIM /\ bson_size r <= LIM.
Definition inv (c : comparison) : Prop := fits (cpath c) (cleft c) (cright c) /\ wf (cleft c) /\ wf (cright c).
Definition weight (l r : value) : N := H * containers l + 8 * bson_size l + 10 * bson_size r.
Definition cweight (c : comparison) : N := weight (cleft c) (cright c).
Definition cweights (q : list comparison) : N := fold_right (fun c n => cweight c + n) 0 q.
Definition op_cost (o : diffop) : N := 10 + bson_size (write_diffop o).
Definition costs (os : list diffop) : N := fold_right (fun o n => op_cost o + n) 0 os.
Lemma cweights_app a b : cweights (a ++ b) = cweights a + cweights b.
Proof. induction a as [|c a IH]; [reflexivity|]. cbn [app cweights fold_right]. fold (cweights (a ++ b)) (cweights a). rewrite IH. lia. Qed.

Lemma path_size p : forall i, Forall key_fits p -> i + N.of_nat (List.length p) <= D -> items_size i (map write_key p) <= N.of_nat (List.length p) * (18 + K).
Proof.
  induction p as [|k p IH]; intros i F L; [cbn; lia|]. inversion F as [|? ? F1 F2]; subst. cbn [map items_size List.length] in *. unfold element_size. pose proof (digits_8 i ltac:(lia)). specialize (IH (i + 1) F2 ltac:(lia)).
  rewrite Nat2N.inj_succ, N.mul_succ_l. assert (B : bson_size (write_key k) <= 8 + K). { destruct k as [s|j]; cbn [write_key key_fits] in *; [replace (bson_size (VStr s)) with (5 + text_size s) by reflexivity; lia|]. pose proof (int_size_le (Z.of_nat j)). replace (bson_size (VInt (Z.of_nat j))) with (int_size (Z.of_nat j)) by reflexivity. lia. }
  lia.
Qed.
Lemma op_head p o : Forall key_fits p -> N.of_nat (List.length p) <= D -> op_cost (mkDiff p o) <= 31 + D * (18 + K) + fields_size (write_ops o).
Proof.
  intros F L. unfold op_cost, write_diffop. rewrite list_size. cbn [items_size dpath dops]. rewrite list_size, dict_size. unfold element_size. change (text_size (str_int (Z.of_N 0))) with 1. change (text_size (str_int (Z.of_N (0 + 1)))) with 1.
  pose proof (path_size p 0 F ltac:(lia)) as P. assert (M : N.of_nat (List.length p) * (18 + K) <= D * (18 + K)) by (apply N.mul_le_mono_r; exact L). lia.
Qed.

(** *** dicts *)
Definition share (r : dict) (k : pystr) : N := match dget r k with Some x => 10 * element_size k (bson_size x) | None => 0 end.
Lemma share_total (d r : dict) : NoDup (dkeys d) -> (forall k x, In (k, x) d -> dget r k = Some x) -> total (share r) (dkeys d) = 10 * fields_size d.
Proof.
  induction d as [|[k x] d IH]; intros N G; [reflexivity|]. inversion N as [|? ? N1 N2]; subst. cbn [dkeys map fst total fold_right fields_size]. fold (total (share r) (map fst d)) (dkeys d).
  rewrite IH; [|exact N2|intros k' x' I; apply G; right; exact I]. unfold share. rewrite (G k x (or_introl eq_refl)). lia.
Qed.
Lemma dget_own (d : dict) : NoDup (dkeys d) -> forall k x, In (k, x) d -> dget d k = Some x.
Proof. intros N k x I. apply In_dget; assumption. Qed.
Definition keys_cost (ks : list pystr) : N := total (fun k => 15 + text_size k) ks.
Lemma keys_items ks : forall i, i + N.of_nat (List.length ks) <= 10 ^ 8 -> items_size i (map VStr ks) <= keys_cost ks.
Proof.
  induction ks as [|k ks IH]; intros i L; [cbn; lia|]. cbn [map items_size List.length] in *. unfold keys_cost. cbn [total fold_right]. fold (total (fun k => 15 + text_size k) ks). fold (keys_cost ks). unfold element_size.
  replace (bson_size (VStr k)) with (5 + text_size k) by reflexivity. pose proof (digits_8 i ltac:(lia)). specialize (IH (i + 1) ltac:(lia)). lia.
Qed.
Lemma dict_part p r : Forall key_fits p -> wfd r -> fields_size r <= LIM -> forall l ch fu, forallb (fun kv => wfb (snd kv)) l = true -> fields_size l <= LIM -> n_fields l <= K -> N.of_nat (List.length p) + 1 + l_fields l <= D ->
  dict_changes p l r = (ch, fu) ->
  fields_size ch + cweights fu + keys_cost (filter (fun k => negb (dmem r k)) (dkeys l)) <= total (share r) (filter (dmem r) (dkeys l)) + 8 * fields_size l + H * c_fields l /\ Forall inv fu.
Proof.
  intros Fp Wr Lr. assert (Wr' : forall k x, In (k, x) r -> wf x). { intros k x I. unfold wfd, wf in Wr. cbn [wfb] in Wr. apply andb_true_iff in Wr. destruct Wr as [_ Wr]. rewrite forallb_forall in Wr. exact (Wr _ I). }
  induction l as [|[k lv] l IH]; intros ch fu Wl Ll Nl Dl E; cbn [dict_changes] in E; [injection E as <- <-; split; [cbn; lia|constructor]|].
  cbn [forallb snd] in Wl. apply andb_true_iff in Wl. destruct Wl as [W1 W2]. cbn [fields_size] in *. unfold n_fields in Nl. unfold l_fields in Dl. unfold c_fields. cbn [fold_right fst snd] in Nl, Dl |- *. fold (n_fields l) in Nl. fold (l_fields l) in Dl. fold (c_fields l).
  destruct (dict_changes p l r) as [ch0 fu0] eqn:E0. destruct (IH ch0 fu0 W2 ltac:(lia) ltac:(lia) ltac:(lia) eq_refl) as [C0 I0]. clear IH.
  cbn [dkeys map fst filter]. fold (dkeys l). destruct (dget r k) as [rv|] eqn:G; [assert (Mk : dmem r k = true) by (unfold dmem; rewrite G; reflexivity)|assert (Mk : dmem r k = false) by (unfold dmem; rewrite G; reflexivity)]; rewrite Mk; cbn [negb].
  - cbn [total fold_right]. fold (total (share r) (filter (dmem r) (dkeys l))). assert (Sk : share r k = 10 * element_size k (bson_size rv)) by (unfold share; rewrite G; reflexivity). rewrite Sk.
    pose proof (dget_In _ _ _ G) as Ir. pose proof (fields_in _ _ _ Ir) as Br. specialize (Wr' _ _ Ir). destruct (py_eqb lv rv); [injection E as <- <-; split; [unfold element_size in *; lia|exact I0]|].
    assert (Child : forall c, cpath c = p ++ [PK k] -> cleft c = lv -> cright c = rv -> cweight c <= 10 * element_size k (bson_size rv) + 8 * element_size k (bson_size lv) + H * containers lv /\ inv c).
    { intros c P L R. split; [unfold cweight, weight; rewrite L, R; unfold element_size; lia|]. unfold inv, fits. rewrite P, L, R. unfold element_size in *. split; [|split; assumption]. split; [apply Forall_app; split; [exact Fp|constructor; [cbn [key_fits]; lia|constructor]]|].
      split; [rewrite app_length; cbn [List.length]; lia|]. split; [lia|]. split; lia. }
    assert (Leaf : (ch, fu) = ((k, rv) :: ch0, fu0) -> fields_size ch + cweights fu + keys_cost (filter (fun k => negb (dmem r k)) (dkeys l)) <= 10 * element_size k (bson_size rv) + total (share r) (filter (dmem r) (dkeys l)) + 8 * (element_size k (bson_size lv) + fields_size l) + H * (containers lv + c_fields l) /\ Forall inv fu).
    { intro Q. injection Q as -> ->. cbn [fields_size]. split; [unfold element_size in *; lia|exact I0]. }
    assert (Node : forall c, (ch, fu) = (ch0, c :: fu0) -> cpath c = p ++ [PK k] -> cleft c = lv -> cright c = rv -> fields_size ch + cweights fu + keys_cost (filter (fun k => negb (dmem r k)) (dkeys l)) <= 10 * element_size k (bson_size rv) + total (share r) (filter (dmem r) (dkeys l)) + 8 * (element_size k (bson_size lv) + fields_size l) + H * (containers lv + c_fields l) /\ Forall inv fu).
    { intros c Q P L R. injection Q as -> ->. destruct (Child c P L R) as [B I]. cbn [cweights fold_right]. fold (cweights fu0). split; [lia|constructor; assumption]. }
    destruct lv, rv; try (apply Leaf; symmetry; exact E); eapply Node; try (symmetry; exact E); reflexivity.
  - injection E as <- <-. unfold keys_cost. cbn [total fold_right]. fold (total (fun k => 15 + text_size k) (filter (fun k => negb (dmem r k)) (dkeys l))). fold (keys_cost (filter (fun k => negb (dmem r k)) (dkeys l))). unfold element_size in *. split; [lia|exact I0].
Qed.
Lemma filter_few {A} (f : A -> bool) (l : list A) : (List.length (filter f l) <= List.length l)%nat.
Proof. induction l as [|x l IH]; [cbn; lia|]. cbn [filter]. destruct (f x); cbn [List.length]; lia. Qed.
Lemma compare_dict p l r o fu : inv (CDict p l r) -> compare (CDict p l r) = (o, fu) -> match o with Some d => op_cost d | None => 0 end + cweights fu <= cweight (CDict p l r) /\ Forall inv fu.
Proof.
  intros ((Fp & Dl & Nl & Ll & Lr) & Wl & Wr) E. cbn [cpath cleft cright] in *. cbn [compare] in E. destruct (dict_changes p l r) as [ch fu'] eqn:Ec. injection E as Eo <-.
  assert (Wl' := Wl). assert (Wr' := Wr). unfold wf in Wl', Wr'. cbn [wfb] in Wl', Wr'. apply andb_true_iff in Wl', Wr'. destruct Wl' as [Ul Vl], Wr' as [Ur Vr]. apply nodupb_NoDup in Ul, Ur.
  rewrite dict_size in Ll, Lr. cbn [levels longest_name] in Dl, Nl. fold (l_fields l) in Dl. fold (n_fields l) in Nl.
  destruct (dict_part p r Fp Wr ltac:(lia) l ch fu' Vl ltac:(lia) Nl ltac:(lia) Ec) as [C I]. split; [|exact I].
  assert (T : total (share r) (filter (dmem r) (dkeys l)) + 10 * fields_size (new_values l r) <= 10 * fields_size r).
  { rewrite <- (share_total (new_values l r) r); [|apply NoDup_filter_keys, Ur|intros k x Ix; apply filter_In in Ix; apply (dget_own r Ur), Ix]. rewrite <- (share_total r r Ur (dget_own r Ur)), <- total_app.
    apply total_incl.
    - apply NoDup_app2; [apply NoDup_filter_list, Ul|apply NoDup_filter_keys, Ur|]. intros k Hk Q. apply filter_In in Hk. apply in_map_iff in Q. destruct Q as (kv & <- & Q). apply filter_In in Q. destruct Q as [_ Q]. apply proj1, dmem_In in Hk. rewrite Hk in Q. discriminate Q.
    - apply incl_app; intros k Hk; [apply filter_In in Hk; apply dmem_In, Hk|]. apply in_map_iff in Hk. destruct Hk as (kv & <- & Hk). apply filter_In in Hk. apply in_map, Hk. }
  assert (Kd : items_size 0 (map VStr (deleted_keys l r)) <= keys_cost (filter (fun k => negb (dmem r k)) (dkeys l))).
  { apply keys_items. pose proof (filter_few (fun k => negb (dmem r k)) (dkeys l)) as Q. unfold deleted_keys. unfold dkeys in *. rewrite map_length in Q. pose proof (fields_count l). lia. }
  assert (Op : match o with Some d => op_cost d | None => 0 end <= H + (fields_size ch + fields_size (new_values l r) + items_size 0 (map VStr (deleted_keys l r)))).
  { destruct o as [d|]; [|lia]. match type of Eo with (if ?b then _ else _) = _ => destruct b end; [discriminate Eo|]. injection Eo as <-. eapply N.le_trans; [apply op_head; [exact Fp|lia]|]. unfold write_ops. cbn [o_dc o_dn o_dd o_lc o_ln o_ld]. rewrite !fields_app, !entry_bytes. unfold element_size.
    change (text_size (lit "dn")) with 2. change (text_size (lit "dd")) with 2. change (text_size (lit "dc")) with 2.
    assert (C1 : match nonempty ch with Some y => 2 + 2 + bson_size (VDict y) | None => 0 end <= 9 + fields_size ch) by (destruct ch; cbn [nonempty]; [|rewrite dict_size]; lia).
    assert (C2 : match nonempty (new_values l r) with Some y => 2 + 2 + bson_size (VDict y) | None => 0 end <= 9 + fields_size (new_values l r)) by (destruct (new_values l r); cbn [nonempty]; [|rewrite dict_size]; lia).
    assert (C3 : match nonempty (deleted_keys l r) with Some y => 2 + 2 + bson_size (VList (map VStr y)) | None => 0 end <= 9 + items_size 0 (map VStr (deleted_keys l r))) by (destruct (deleted_keys l r); cbn [nonempty]; [|rewrite list_size]; lia).
    unfold H. lia. }
  unfold cweight, weight. cbn [cleft cright containers]. rewrite !dict_size. fold (c_fields l). lia.
Qed.

(** *** lists *)
Definition lc_items (ch : list (nat * value)) : list value := map (fun c => VList [VInt (Z.of_nat (fst c)); snd c]) ch.
Definition tail_cost (l : list value) : N := fold_right (fun x n => 10 + bson_size x + n) 0 l.
Lemma tail_part r : forall i, tail_cost r <= 10 * items_size i r.
Proof. induction r as [|x r IH]; intro i; [cbn; lia|]. cbn [tail_cost fold_right items_size]. fold (tail_cost r). unfold element_size. pose proof (digits_one i). specialize (IH (i + 1)). lia. Qed.
Lemma list_part p : Forall key_fits p -> forall l r i ch fu ln ld, forallb wfb l = true -> forallb wfb r = true -> items_size (N.of_nat i) l <= LIM -> items_size (N.of_nat i) r <= LIM -> n_items l <= K -> N.of_nat (List.length p) + 1 + l_items l <= D ->
  list_changes p i l r = (ch, fu, ln, ld) ->
  tail_cost (lc_items ch) + cweights fu + match ln with Some t => tail_cost t | None => 0 end <= 10 * items_size (N.of_nat i) r + 8 * items_size (N.of_nat i) l + H * c_items l /\ Forall inv fu /\
  (List.length ch <= List.length r)%nat /\ match ln with Some t => (List.length t <= List.length r)%nat | None => True end.
Proof.
  intro Fp. induction l as [|lv l IH]; intros r i ch fu ln ld Wl Wr Ll Lr Nl Dl E.
  - destruct r as [|rv r]; cbn [list_changes] in E; injection E as <- <- <- <-; (split; [|split; [constructor|split; [cbn; lia|]]]); [cbn; lia|exact I| |lia]. pose proof (tail_part (rv :: r) (N.of_nat i)). cbn [lc_items map tail_cost fold_right cweights] in *. lia.
  - destruct r as [|rv r]; cbn [list_changes] in E; [injection E as <- <- <- <-; split; [cbn [lc_items map tail_cost fold_right cweights]; lia|split; [constructor|split; [cbn; lia|exact I]]]|].
    cbn [forallb] in Wl, Wr. apply andb_true_iff in Wl, Wr. destruct Wl as [W1 W2], Wr as [W3 W4]. cbn [items_size] in *. unfold n_items in Nl. unfold l_items in Dl. unfold c_items. cbn [fold_right] in Nl, Dl |- *. fold (n_items l) in Nl. fold (l_items l) in Dl. fold (c_items l).
    replace (N.of_nat i + 1) with (N.of_nat (S i)) in * by lia. pose proof (digits_one (N.of_nat i)) as G1.
    destruct (list_changes p (S i) l r) as [[[ch0 fu0] ln0] ld0] eqn:E0. destruct (IH r (S i) ch0 fu0 ln0 ld0 W2 W4 ltac:(lia) ltac:(lia) ltac:(lia) ltac:(lia) E0) as (C0 & I0 & M0 & T0). clear IH.
    assert (T1 : match ln0 with Some t => (List.length t <= S (List.length r))%nat | None => True end) by (destruct ln0; [lia|exact I]).
    destruct (py_eqb lv rv); [injection E as <- <- <- <-; split; [unfold element_size in *; lia|split; [exact I0|split; [cbn [List.length]; lia|exact T1]]]|].
    assert (Leaf : (ch, fu, ln, ld) = ((i, rv) :: ch0, fu0, ln0, ld0) -> tail_cost (lc_items ch) + cweights fu + match ln with Some t => tail_cost t | None => 0 end <= 10 * (element_size (str_int (Z.of_N (N.of_nat i))) (bson_size rv) + items_size (N.of_nat (S i)) r) + 8 * (element_size (str_int (Z.of_N (N.of_nat i))) (bson_size lv) + items_size (N.of_nat (S i)) l) + H * (containers lv + c_items l) /\ Forall inv fu /\
      (List.length ch <= List.length (rv :: r))%nat /\ match ln with Some t => (List.length t <= List.length (rv :: r))%nat | None => True end).
    { intro Q. injection Q as -> -> -> ->. split; [|split; [exact I0|split; [cbn [List.length]; lia|exact T1]]]. cbn [lc_items map tail_cost fold_right fst snd]. fold (lc_items ch0). fold (tail_cost (lc_items ch0)). rewrite list_size. cbn [items_size]. change (text_size (str_int (Z.of_N 0))) with 1. 
      replace (bson_size (VInt (Z.of_nat i))) with (int_size (Z.of_nat i)) by reflexivity. pose proof (int_size_le (Z.of_nat i)). unfold element_size in *. change (text_size (str_int (Z.of_N 0))) with 1. change (text_size (str_int (Z.of_N (0 + 1)))) with 1. lia. }
    assert (Node : forall c, (ch, fu, ln, ld) = (ch0, c :: fu0, ln0, ld0) -> cpath c = p ++ [PI i] -> cleft c = lv -> cright c = rv -> tail_cost (lc_items ch) + cweights fu + match ln with Some t => tail_cost t | None => 0 end <= 10 * (element_size (str_int (Z.of_N (N.of_nat i))) (bson_size rv) + items_size (N.of_nat (S i)) r) + 8 * (element_size (str_int (Z.of_N (N.of_nat i))) (bson_size lv) + items_size (N.of_nat (S i)) l) + H * (containers lv + c_items l) /\ Forall inv fu /\
      (List.length ch <= List.length (rv :: r))%nat /\ match ln with Some t => (List.length t <= List.length (rv :: r))%nat | None => True end).
    { intros c Q P L R. injection Q as -> -> -> ->. assert (B : cweight c = H * containers lv + 8 * bson_size lv + 10 * bson_size rv) by (unfold cweight, weight; rewrite L, R; reflexivity). cbn [cweights fold_right]. fold (cweights fu0). unfold element_size in *. split; [lia|].
      split; [|split; [cbn [List.length]; lia|exact T1]]. constructor; [|exact I0]. unfold inv, fits. rewrite P, L, R. split; [|split; assumption]. split; [apply Forall_app; split; [exact Fp|constructor; [exact I|constructor]]|].
      split; [rewrite app_length; cbn [List.length]; lia|]. split; [lia|]. split; lia. }
    destruct lv, rv; try (apply Leaf; symmetry; exact E); eapply Node; try (symmetry; exact E); reflexivity.
Qed.
Lemma compare_list p l r o fu : inv (CList p l r) -> compare (CList p l r) = (o, fu) -> match o with Some d => op_cost d | None => 0 end + cweights fu <= cweight (CList p l r) /\ Forall inv fu.
Proof.
  intros ((Fp & Dl & Nl & Ll & Lr) & Wl & Wr) E. cbn [cpath cleft cright] in *. cbn [compare] in E. destruct (list_changes p 0 l r) as [[[ch fu'] ln] ld] eqn:Ec. injection E as Eo <-.
  rewrite list_size in Ll, Lr. cbn [levels longest_name] in Dl, Nl. fold (l_items l) in Dl. fold (n_items l) in Nl.
  destruct (list_part p Fp l r 0%nat ch fu' ln ld Wl Wr ltac:(cbn [N.of_nat]; lia) ltac:(cbn [N.of_nat]; lia) Nl ltac:(lia) Ec) as (C & I & M & T). split; [|exact I]. cbn [N.of_nat] in C.
  pose proof (items_count r 0) as Cr.
  assert (Op : match o with Some d => op_cost d | None => 0 end <= H + (tail_cost (lc_items ch) + match ln with Some t => tail_cost t | None => 0 end)).
  { destruct o as [d|]; [|lia]. match type of Eo with (if ?b then _ else _) = _ => destruct b end; [discriminate Eo|]. injection Eo as <-. eapply N.le_trans; [apply op_head; [exact Fp|lia]|]. unfold write_ops. cbn [o_dc o_dn o_dd o_lc o_ln o_ld]. rewrite !fields_app, !entry_bytes. unfold element_size.
    change (text_size (lit "ln")) with 2. change (text_size (lit "ld")) with 2. change (text_size (lit "lc")) with 2.
    assert (C1 : match nonempty ch with Some y => 2 + 2 + bson_size (VList (lc_items y)) | None => 0 end <= 9 + tail_cost (lc_items ch)).
    { destruct ch as [|c0 ch0] eqn:Q; cbn [nonempty]; [lia|]. rewrite list_size. pose proof (items_many (lc_items (c0 :: ch0)) 0 ltac:(unfold lc_items; rewrite map_length; lia)) as B. fold (tail_cost (lc_items (c0 :: ch0))) in B. lia. }
    assert (C2 : match ln with Some y => 2 + 2 + bson_size (VList y) | None => 0 end <= 9 + match ln with Some t => tail_cost t | None => 0 end).
    { destruct ln as [t|]; [|lia]. rewrite list_size. pose proof (items_many t 0 ltac:(lia)) as B. fold (tail_cost t) in B. lia. }
    assert (C3 : match ld with Some y => 2 + 2 + bson_size (VInt (Z.of_nat y)) | None => 0 end <= 12).
    { destruct ld as [n|]; [|lia]. replace (bson_size (VInt (Z.of_nat n))) with (int_size (Z.of_nat n)) by reflexivity. pose proof (int_size_le (Z.of_nat n)). lia. }
    unfold lc_items in C1 at 1. unfold H. lia. }
  unfold cweight, weight. cbn [cleft cright containers]. rewrite !list_size. fold (c_items l). lia.
Qed.
Lemma loop_cost n : forall q os, Forall inv q -> diff_loop n q = Some os -> costs os <= cweights q.
Proof.
  induction n as [|n IH]; intros q os F E; destruct q as [|c q]; cbn [diff_loop] in E; try discriminate E; try (injection E as <-; cbn; lia).
  inversion F as [|? ? F1 F2]; subst. destruct (compare c) as [o fu] eqn:Ec. destruct (diff_loop n (q ++ fu)) as [rest|] eqn:Er; [|discriminate E]. injection E as <-.
  assert (B : match o with Some d => op_cost d | None => 0 end + cweights fu <= cweight c /\ Forall inv fu) by (destruct c; [exact (compare_dict _ _ _ _ _ F1 Ec)|exact (compare_list _ _ _ _ _ F1 Ec)]). destruct B as [B Bi].
  specialize (IH (q ++ fu) rest ltac:(apply Forall_app; split; assumption) Er). rewrite cweights_app in IH. cbn [cweights fold_right]. fold (cweights q). destruct o as [d|]; [cbn [costs fold_right]; fold (costs rest)|]; lia.
Qed.
Lemma costs_items os : N.of_nat (List.length os) <= 10 ^ 8 -> bson_size (write_changes os) <= 5 + costs os.
Proof.
  clear HL HD H. intro L. unfold write_changes. rewrite list_size. pose proof (items_many (map write_diffop os) 0 ltac:(rewrite map_length; lia)) as B. assert (Q : fold_right (fun x n => 10 + bson_size x + n) 0 (map write_diffop os) = costs os); [|lia].
  clear. induction os as [|o os IH]; [reflexivity|]. cbn [map fold_right costs]. fold (costs os). rewrite IH. unfold op_cost. lia.
Qed.
Lemma costs_count os : 10 * N.of_nat (List.length os) <= costs os.
Proof. clear. induction os as [|o os IH]; [cbn; lia|]. cbn [List.length costs fold_right]. fold (costs os). unfold op_cost. lia. Qed.
End Room.

(** ** C99 *)
(** The changes between any two records take no more than [room] ... *)
Theorem C99_change_bytes_partial : forall new old : dict, wfd new -> wfd old -> room new old <= 16777216 -> bson_size (write_changes (diff new old)) <= room new old.
Proof.
  intros new old Wn Wo R. unfold diff. destruct (py_eqb (VDict new) (VDict old)); [unfold room; change (bson_size (write_changes [])) with 5; lia|]. destruct (diff_loop_total new old) as [os E]. rewrite E.
  set (D := levels (VDict new)) in *. set (K := longest_name (VDict new)) in *. assert (C1 : 1 <= containers (VDict new)) by (cbn [containers]; lia).
  assert (Rw : room new old = 5 + weight K D (VDict new) (VDict old)) by (unfold room, weight; fold D K; lia).
  assert (HD : D < 10 ^ 8). { assert (Q : 1 * (61 + D * (18 + K)) <= containers (VDict new) * (61 + D * (18 + K))) by (apply N.mul_le_mono_r; exact C1). unfold room in R. fold D K in R. assert (Q2 : D * 18 <= D * (18 + K)) by (apply N.mul_le_mono_l; lia). lia. }
  assert (Sn : bson_size (VDict new) <= 16777216 /\ bson_size (VDict old) <= 16777216) by (unfold room in R; lia).
  assert (I : Forall (inv 16777216 K D) [CDict [] new old]). { constructor; [|constructor]. split; [|split; assumption]. split; [constructor|]. cbn [cpath cleft cright List.length]. split; [unfold D; lia|]. split; [unfold K; lia|exact Sn]. }
  pose proof (loop_cost 16777216 K D ltac:(lia) HD _ _ _ I E) as B. cbn [cweights fold_right] in B. unfold cweight in B. cbn [cleft cright] in B. pose proof (costs_count os) as L. pose proof (costs_items os ltac:(lia)). lia.
Qed.
Print Assumptions C99_change_bytes_partial.
(** ... so that an ingest of any record goes well as long as its document has that room. *)
Theorem C99_room_partial : forall (ss : list step) (docs : list dict) (id : pystr) (raw : dict) (m : mrec) (v : Z) (new : dict),
  read_run mongo_takes [] ss = Some docs -> filter (has_id id) docs = [raw] -> read_doc raw = Some m -> m_ver m = Some v -> ~ In (str_int v) (dkeys (m_diffs m)) ->
  wfd new -> wfd (m_data m) ->
  17 + bson_size (VDict raw) + bson_size (VDict new) + 14 + text_size (str_int v) + room new (m_data m) <= 16777216 ->
  exists docs', read_step mongo_takes docs (SIngest None [(id, new)]) = Some docs'.
Proof.
  intros ss docs id raw m v new E F R V Kv Wn Wo Hs. destruct (read_step mongo_takes docs (SIngest None [(id, new)])) as [docs'|] eqn:S; [exists docs'; reflexivity|exfalso].
  pose proof (C99_change_bytes_partial new (m_data m) Wn Wo ltac:(lia)) as B. destruct (diff new (m_data m)) as [|o os] eqn:Ed.
  - cbn [read_step] in S. unfold ingest_read in S. replace (partition [(id, new)] INGEST_SIZE) with [[(id, new)]] in S by reflexivity. cbn [read_loop] in S. unfold read_chunk in S. replace (by_id [(id, new)]) with [(id, new)] in S by reflexivity.
    cbn [forallb fst] in S. rewrite (find_one _ _ _ F) in S. cbn [andb read_ops fst] in S. unfold find_read in S. rewrite (find_one _ _ _ F), R in S. cbn [bind read_op] in S. rewrite V in S. cbn [rec_changes snd fst] in S. rewrite Ed in S. cbn in S. discriminate S.
  - assert (Hd : diff new (m_data m) <> []) by (rewrite Ed; discriminate). apply (C99_change_exactly ss docs id raw m v new _ E F R V Kv Hd eq_refl) in S. rewrite Ed in S. destruct (dmem raw (lit "diffs")); lia.
Qed.
Print Assumptions C99_room_partial.

(** ** The hypotheses can be met *)
(** A record with a list of dicts: 2 dicts in a list, changed and one dropped. *)
Definition nested (b : bool) (n : nat) : dict := [(lit "_id", VStr (lit "r")); (lit "names", VList (map (fun i => VDict [(lit "given", VBool b); (lit "at", VInt (Z.of_nat i))]) (seq 0 n)))].
Example C99_room_example : exists docs raw m,
  let ss := [SIngest None [(lit "r", nested true 3)]; SCommit 5%Z] in
  read_run mongo_takes [] ss = Some docs /\ filter (has_id (lit "r")) docs = [raw] /\ read_doc raw = Some m /\ m_ver m = Some 5%Z /\ ~ In (str_int 5) (dkeys (m_diffs m)) /\ wfd (nested false 2) /\ wfd (m_data m) /\
  room (nested false 2) (m_data m) = 2133 /\ bson_size (write_changes (diff (nested false 2) (m_data m))) = 197 /\
  17 + bson_size (VDict raw) + bson_size (VDict (nested false 2)) + 14 + text_size (str_int 5) + room (nested false 2) (m_data m) <= 16777216.
Proof.
  eexists. eexists. eexists. cbv zeta. split; [vm_compute; reflexivity|]. split; [vm_compute; reflexivity|]. split; [vm_compute; reflexivity|]. split; [reflexivity|]. split; [vm_compute; intros []|]. split; [reflexivity|]. split; [vm_compute; reflexivity|].
  split; [vm_compute; reflexivity|]. split; [vm_compute; reflexivity|]. vm_compute. discriminate.
Qed.
