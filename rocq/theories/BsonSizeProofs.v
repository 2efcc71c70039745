(** What the limit on the size of documents allows (BsonSize.v). *)
From Coq Require Import String Ascii.
From Coq Require Import List ZArith NArith Bool Lia.
From Verif Require Import PyVal Diff DiffProofs Time Prepare Mongo Store MongoProofs MongoStore MongoMore Parser ParserTypes Bson BsonProofs BsonLimits BsonSize.
Import ListNotations.
Local Open Scope string_scope.
Local Open Scope list_scope.
Local Open Scope N_scope.

(** ** Servers that accept more, and what servers hold *)
Section Two.
Variables (a b : dict -> bool).
Hypothesis Hab : forall d, a d = true -> b d = true.
Lemma update_first_mono id sets unsets c : forall c', update_first a id sets unsets c = Some c' -> update_first b id sets unsets c = Some c'.
Proof.
  induction c as [|d c IH]; intros c' E; [exact E|]. cbn [update_first] in *. destruct (has_id id d).
  - destruct (update_doc sets unsets d) as [d'|]; [|discriminate]. cbn [bind] in *. destruct (a d') eqn:A; [|discriminate]. rewrite (Hab _ A). exact E.
  - destruct (update_first a id sets unsets c) as [r|] eqn:R; [|discriminate]. rewrite (IH r eq_refl). exact E.
Qed.
Lemma apply_wops_mono os : forall c c', apply_wops a c os = Some c' -> apply_wops b c os = Some c'.
Proof.
  induction os as [|o os IH]; intros c c' E; [exact E|]. cbn [apply_wops] in *. destruct (apply_wop a c o) as [c1|] eqn:A; [|discriminate]. cbn [bind] in E.
  assert (B : apply_wop b c o = Some c1). { destruct o as [d|id sets unsets|id]; cbn [apply_wop] in *; [destruct (a d) eqn:Ad; [rewrite (Hab _ Ad); exact A|discriminate]|apply update_first_mono, A|exact A]. }
  rewrite B. cbn [bind]. apply IH, E.
Qed.
Lemma read_loop_mono size mf chunks : forall c pend c', read_loop a size mf c pend chunks = Some c' -> read_loop b size mf c pend chunks = Some c'.
Proof.
  induction chunks as [|ch chunks IH]; intros c pend c' E; cbn [read_loop] in *; [apply apply_wops_mono, E|]. destruct (read_chunk mf c ch) as [os|]; [|discriminate]. cbn [bind] in *.
  destruct (apply_wops a c _) as [c1|] eqn:A; [|discriminate]. rewrite (apply_wops_mono _ _ _ A). cbn [bind] in *. apply IH, E.
Qed.
Lemma commit_mono v c : forall c', commit_read a v c = Some c' -> commit_read b v c = Some c'.
Proof.
  induction c as [|d c IH]; intros c' E; [exact E|]. cbn [commit_read] in *. destruct (commit_read a v c) as [r|]; [|destruct (if is_none d then _ else _); discriminate]. rewrite (IH r eq_refl).
  destruct (is_none d); [|exact E]. destruct (update_doc [(lit "version", VInt v)] [] d) as [d'|]; [|discriminate]. cbn [bind] in *. destruct (a d') eqn:A; [|discriminate]. rewrite (Hab _ A). exact E.
Qed.
Lemma step_mono s c c' : read_step a c s = Some c' -> read_step b c s = Some c'.
Proof.
  destruct s as [mf recs|v|]; cbn [read_step]; [apply read_loop_mono|apply commit_mono|]. unfold rollback_read. destruct (rollback_read_ops (filter is_none c)) as [os|]; [|discriminate]. cbn [bind]. apply apply_wops_mono.
Qed.
Theorem run_mono ss : forall c c', read_run a c ss = Some c' -> read_run b c ss = Some c'.
Proof.
  induction ss as [|s ss IH]; intros c c' E; [exact E|]. cbn [read_run] in *. destruct (read_step a c s) as [c1|] eqn:S; [|discriminate]. rewrite (step_mono _ _ _ S). cbn [bind] in *. apply IH, E.
Qed.
End Two.

Section Held.
Variable a : dict -> bool.
Let held (c : list dict) : Prop := Forall (fun d => a d = true) c.
Lemma update_first_held id sets unsets c : forall c', held c -> update_first a id sets unsets c = Some c' -> held c'.
Proof.
  induction c as [|d c IH]; intros c' H E; cbn [update_first] in E; [injection E as <-; exact H|]. inversion H as [|? ? H1 H2]; subst. destruct (has_id id d).
  - destruct (update_doc sets unsets d) as [d'|]; [|discriminate]. cbn [bind] in E. destruct (a d') eqn:A; [|discriminate]. injection E as <-. constructor; assumption.
  - destruct (update_first a id sets unsets c) as [r|]; [|discriminate]. injection E as <-. constructor; [exact H1|exact (IH r H2 eq_refl)].
Qed.
Lemma apply_wops_held os : forall c c', held c -> apply_wops a c os = Some c' -> held c'.
Proof.
  induction os as [|o os IH]; intros c c' H E; cbn [apply_wops] in E; [injection E as <-; exact H|]. destruct (apply_wop a c o) as [c1|] eqn:A; [|discriminate]. cbn [bind] in E. refine (IH c1 c' _ E).
  destruct o as [d|id sets unsets|id]; cbn [apply_wop] in A.
  - destruct (a d) eqn:Ad; [|discriminate]. injection A as <-. apply Forall_app. split; [exact H|constructor; [exact Ad|constructor]].
  - exact (update_first_held _ _ _ _ _ H A).
  - injection A as <-. clear IH E. induction H as [|d c Hd Hc IHc]; [constructor|]. cbn [delete_first]. destruct (has_id id d); [exact Hc|constructor; [exact Hd|exact IHc]].
Qed.
Lemma read_loop_held size mf chunks : forall c pend c', held c -> read_loop a size mf c pend chunks = Some c' -> held c'.
Proof.
  induction chunks as [|ch chunks IH]; intros c pend c' H E; cbn [read_loop] in E; [exact (apply_wops_held _ _ _ H E)|]. destruct (read_chunk mf c ch) as [os|]; [|discriminate]. cbn [bind] in E.
  destruct (apply_wops a c _) as [c1|] eqn:A; [|discriminate]. exact (IH _ _ _ (apply_wops_held _ _ _ H A) E).
Qed.
Lemma commit_held v c : forall c', held c -> commit_read a v c = Some c' -> held c'.
Proof.
  induction c as [|d c IH]; intros c' H E; cbn [commit_read] in E; [injection E as <-; exact H|]. inversion H as [|? ? H1 H2]; subst.
  destruct (commit_read a v c) as [r|]; [|destruct (if is_none d then _ else _); discriminate]. specialize (IH r H2 eq_refl). destruct (is_none d); [|injection E as <-; constructor; assumption].
  destruct (update_doc [(lit "version", VInt v)] [] d) as [d'|]; [|discriminate]. cbn [bind] in E. destruct (a d') eqn:A; [|discriminate]. injection E as <-. constructor; assumption.
Qed.
Theorem run_held ss : forall c c', held c -> read_run a c ss = Some c' -> held c'.
Proof.
  induction ss as [|s ss IH]; intros c c' H E; cbn [read_run] in E; [injection E as <-; exact H|]. destruct (read_step a c s) as [c1|] eqn:S; [|discriminate]. refine (IH c1 c' _ E).
  destruct s as [mf recs|v|]; cbn [read_step] in S; [exact (read_loop_held _ _ _ _ _ _ H S)|exact (commit_held _ _ _ H S)|]. unfold rollback_read in S. destruct (rollback_read_ops (filter is_none c)) as [os|]; [|discriminate]. exact (apply_wops_held _ _ _ H S).
Qed.
End Held.

(** ** At least 32 bytes for each earlier version *)
Definition with_changes (d : doc) : Prop := Forall (fun vd => snd vd <> []) (d_diffs d).
Definition has_changes (o : mop) : Prop := match o with ChangeOp _ _ _ ch => ch <> [] | _ => True end.
Lemma upd_with id f c : Forall with_changes c -> (forall d, with_changes d -> with_changes (f d)) -> Forall with_changes (upd_first c id f).
Proof. intros H F. induction H as [|d c H HF IH]; [constructor|]. cbn [upd_first]. destruct (str_eqb (d_id d) id); constructor; auto. Qed.
Lemma apply_with c o : Forall with_changes c -> has_changes o -> Forall with_changes (apply_mop c o).
Proof.
  intros H G. destruct o as [id data|id data|id data v ch|id data v all|id]; cbn [apply_mop has_changes] in *.
  - apply Forall_app. split; [exact H|]. constructor; [|constructor]. constructor.
  - apply upd_with; [exact H|]. intros d Hd. exact Hd.
  - apply upd_with; [exact H|]. intros d Hd. unfold with_changes. cbn [d_diffs]. apply zset_good; [exact Hd|]. intros w _. exact G.
  - apply upd_with; [exact H|]. intros d Hd. unfold with_changes. cbn [d_diffs]. destruct all; [constructor|apply zdel_good, Hd].
  - induction H as [|d c H HF IH]; [constructor|]. cbn [del_first]. destruct (str_eqb (d_id d) id); [exact HF|constructor; assumption].
Qed.
Lemma rec_op_with mf r e o : rec_op mf r e = Some (Some o) -> has_changes o.
Proof.
  intro E. unfold rec_op in E. destruct e as [d|].
  - destruct (d_ver d) as [v|].
    + destruct (rec_changes mf (snd r) (d_data d)) as [[ch new'] old']. destruct ch as [|x ch]; [discriminate|]. injection E as <-. discriminate.
    + destruct (isnil (d_diffs d)).
      * destruct (p_del r); [injection E as <-; exact I|]. destruct (isnil _); [discriminate|]. injection E as <-. exact I.
      * destruct (revert_doc d) as [d'|]; [|discriminate]. destruct (rec_changes mf (snd r) (d_data d')) as [[ch new'] old']. destruct (d_ver d') as [v|] eqn:V; [|discriminate]. destruct ch as [|x ch]; cbn [isnil] in E; [unfold revert_op in E; rewrite V in E|]; injection E as <-; [exact I|discriminate].
  - destruct (p_del r); [discriminate|]. injection E as <-. exact I.
Qed.
Lemma chunk_with mf c chunk os : chunk_ops mf c chunk = Some os -> Forall has_changes os.
Proof.
  intro E. unfold chunk_ops in E. destruct (forallb _ _).
  - injection E as <-. apply Forall_forall. intros x Hx. apply in_map_iff in Hx. destruct Hx as (r & <- & _). exact I.
  - revert os E. induction (by_id chunk) as [|r rs IH]; intros os E; cbn [map_ops] in E; [injection E as <-; constructor|]. destruct (rec_op mf r (find_last c (fst r))) as [o|] eqn:Eo; [|discriminate]. destruct (map_ops mf c rs) as [l|]; [|discriminate]. cbn [bind] in E. injection E as <-. specialize (IH l eq_refl).
    destruct o as [o|]; [|exact IH]. constructor; [|exact IH]. exact (rec_op_with _ _ _ _ Eo).
Qed.
Lemma rollback_with c os : rollback_ops c = Some os -> Forall has_changes os.
Proof.
  unfold rollback_ops. revert os. induction (filter is_pending c) as [|d c' IH]; intros os E; cbn [rollback_ops_of] in E; [injection E as <-; constructor|]. destruct (rollback_op d) as [o|] eqn:Eo; [|discriminate]. destruct (rollback_ops_of c') as [l|]; [|discriminate]. cbn [bind] in E. injection E as <-. constructor; [|exact (IH l eq_refl)].
  unfold rollback_op, revert_op in Eo. destruct (isnil (d_diffs d)); [injection Eo as <-; exact I|]. destruct (revert_doc d) as [d'|]; [|discriminate]. destruct (d_ver d'); [|discriminate]. injection Eo as <-. exact I.
Qed.
Theorem run_with ss : same_result with_changes (read_run (fun _ => true) [] ss) (run [] ss).
Proof.
  apply (run_same (fun _ => true) with_changes has_changes (fun _ => True) (fun _ => True)).
  - reflexivity.
  - exact apply_with.
  - intros mf c chunk os _ _. apply chunk_with.
  - intros c os _. apply rollback_with.
  - intros v d _ H. unfold commit_doc. destruct (d_ver d); exact H.
  - apply Forall_forall. intros [mf recs|v|] _; cbn [good_step]; try exact I. apply Forall_forall. intros; exact I.
  - split; [|split]; constructor.
Qed.
(** What a server with a limit holds is what one without holds. *)
Lemma within_holds a ss docs : read_run a [] ss = Some docs -> Forall (fun raw => a raw = true) docs /\ exists c, run [] ss = Some c /\ Forall2 holds docs c /\ Forall with_changes c.
Proof.
  intro E. split; [exact (run_held a ss [] docs (Forall_nil _) E)|]. apply (run_mono a (fun _ => true) (fun _ _ => eq_refl)) in E. pose proof (run_with ss) as R. rewrite E in R. destruct (run [] ss) as [c|]; [|contradiction]. exists c. split; [reflexivity|]. split; apply R.
Qed.

Definition version_size (v : option Z) : N := match v with Some z => int_size z | None => 0 end.
Lemma write_version_size v : bson_size (write_version v) = version_size v.
Proof. destruct v; reflexivity. Qed.
(** the part of "diffs" *)
Definition history_size (l : list (Z * list diffop)) : N := fields_size (write_diffs l).
Definition base_size (d : doc) : N := 46 + text_size (d_id d) + bson_size (VDict (d_data d)) + version_size (d_ver d).
Lemma holds_size raw d : holds raw d -> document_size raw = base_size d + (if dmem raw (lit "diffs") then 12 + history_size (d_diffs d) else 0) /\ (dmem raw (lit "diffs") = false -> d_diffs d = []).
Proof.
  intros (x & -> & H). unfold document_size, id_size, base_size. rewrite dict_size, fields_app. cbn [fields_size]. rewrite write_version_size. unfold element_size.
  change (text_size (lit "id")) with 2. change (text_size (lit "data")) with 4. change (text_size (lit "version")) with 7. replace (bson_size (VStr (d_id d))) with (5 + text_size (d_id d)) by reflexivity.
  destruct H as [->|[-> H]].
  - split; [|discriminate]. replace (dmem _ _) with true by reflexivity. cbn [fields_size]. unfold element_size. change (text_size (lit "diffs")) with 5. rewrite (dict_size (write_diffs _)). fold (history_size (d_diffs d)). lia.
  - split; [|intros _; exact H]. replace (dmem _ _) with false by reflexivity. cbn [fields_size]. lia.
Qed.
Lemma history_cons v os l : history_size ((v, os) :: l) = 2 + text_size (str_int v) + bson_size (write_changes os) + history_size l.
Proof. reflexivity. Qed.
Lemma digits_pos z : 1 <= text_size (str_int z).
Proof.
  pose proof (text_length (str_int z)) as H. assert (L : (1 <= List.length (str_int z))%nat); [|lia].
  assert (U : forall n, (1 <= List.length (uint_chars (N.to_uint n)))%nat).
  { intro n. pose proof (DecimalN.Unsigned.of_to n) as E. destruct (N.to_uint n) eqn:F; cbn; try lia. destruct n as [|p]; [discriminate F|discriminate E]. }
  destruct z as [|p|p]; cbn [str_int]; [apply U|apply U|cbn [List.length]; lia].
Qed.
Lemma changes_size os : os <> [] -> 29 <= bson_size (write_changes os).
Proof.
  destruct os as [|o os]; [congruence|]. intros _. unfold write_changes. cbn [map]. rewrite list_size. cbn [items_size]. unfold write_diffop at 1. rewrite list_size. cbn [items_size]. rewrite list_size, dict_size. unfold element_size. change (text_size (str_int (Z.of_N 0))) with 1. change (text_size (str_int (Z.of_N (0 + 1)))) with 1. lia.
Qed.
Lemma history_le l : Forall (fun vd : Z * list diffop => snd vd <> []) l -> 32 * N.of_nat (List.length l) <= history_size l.
Proof.
  induction 1 as [|[v os] l H _ IH]; [cbn; lia|]. rewrite history_cons. cbn [snd] in H. pose proof (changes_size os H). pose proof (digits_pos v). cbn [List.length]. lia.
Qed.
Lemma versions_bound limit ss docs : read_run (within limit) [] ss = Some docs -> exists c, run [] ss = Some c /\ Forall (fun d => 63 + 32 * N.of_nat (List.length (d_diffs d)) <= limit \/ d_diffs d = []) c.
Proof.
  intro E. destruct (within_holds _ _ _ E) as (A & c & R & H & W). exists c. split; [exact R|]. clear E R. induction H as [|raw d docs c H _ IH]; [constructor|]. inversion A as [|? ? A1 A2]; subst. inversion W as [|? ? W1 W2]; subst. constructor; [|apply IH; assumption].
  destruct (holds_size raw d H) as [S D]. unfold within in A1. apply N.leb_le in A1. rewrite S in A1. destruct (dmem raw (lit "diffs")); [|right; apply D; reflexivity]. left. pose proof (history_le _ W1). unfold base_size in A1. rewrite dict_size in A1. lia.
Qed.

(** ** Records without lists and dicts *)
Definition total (f : pystr -> N) (ks : list pystr) : N := fold_right (fun k n => f k + n) 0 ks.
Lemma total_app f a b : total f (a ++ b) = total f a + total f b.
Proof. induction a as [|k a IH]; [reflexivity|]. cbn [app total fold_right]. fold (total f (a ++ b)) (total f a). rewrite IH. lia. Qed.
Lemma total_incl f ks : forall names, NoDup ks -> incl ks names -> total f ks <= total f names.
Proof.
  induction ks as [|k ks IH]; intros names N H; [cbn; lia|]. inversion N as [|? ? N1 N2]; subst. destruct (in_split k names (H k (or_introl eq_refl))) as (l1 & l2 & ->). rewrite total_app. cbn [total fold_right]. fold (total f ks) (total f l2).
  assert (L : total f ks <= total f (l1 ++ l2)); [|rewrite total_app in L; lia]. apply IH; [exact N2|]. intros x Hx. specialize (H x (or_intror Hx)). apply in_app_or in H. apply in_or_app. destruct H as [H|[<-|H]]; [left; exact H|contradiction|right; exact H].
Qed.
Lemma total_le f g ks : (forall k, In k ks -> f k <= g k) -> total f ks <= total g ks.
Proof. induction ks as [|k ks IH]; intro H; [cbn; lia|]. cbn [total fold_right]. fold (total f ks) (total g ks). pose proof (H k (or_introl eq_refl)). specialize (IH (fun k Hk => H k (or_intror Hk))). lia. Qed.

Lemma NoDup_tail {A} (a b : list A) : NoDup (a ++ b) -> NoDup b.
Proof. induction a as [|x a IH]; intro H; [exact H|]. inversion H; subst. auto. Qed.

Section Flat.
Variables (names : list pystr) (value_limit id_limit : N) (versions : list Z) (limit : N).
Definition row_size : N := total (fun k => 2 + text_size k + value_limit) names.
Definition change_size : N := 77 + total (fun k => 14 + text_size k + value_limit) names.
Definition plain_entry (kv : pystr * value) : Prop := In (fst kv) names /\ is_scalar (snd kv) = true /\ bson_size (snd kv) <= value_limit.
Definition plain (d : dict) : Prop := NoDup (dkeys d) /\ Forall plain_entry d.
Definition plain_op (o : diffop) : Prop := exists dc dn dd, o = mkDiff [] (mkOps (nonempty dc) (nonempty dn) (nonempty dd) None None None) /\
  Forall plain_entry dc /\ Forall plain_entry dn /\ incl dd names /\ NoDup (dkeys dc ++ dkeys dn ++ dd).
Definition plain_changes (os : list diffop) : Prop := os = [] \/ exists o, os = [o] /\ plain_op o.
Definition plain_version (v : Z) : Prop := In v versions /\ (0 <= v < 2 ^ 63)%Z.
Definition plain_doc (d : doc) : Prop := text_size (d_id d) <= id_limit /\ (forall v, d_ver d = Some v -> plain_version v) /\ plain (d_data d) /\
  NoDup (zkeys (d_diffs d)) /\ Forall (fun vd => plain_version (fst vd) /\ plain_changes (snd vd)) (d_diffs d).
Definition plain_mop (o : mop) : Prop :=
  match o with
  | InsertOp id data => text_size id <= id_limit /\ plain data
  | SetDataOp _ data => plain data
  | ChangeOp _ data v ch => plain data /\ plain_version v /\ plain_changes ch
  | RevertOp _ data v _ => plain data /\ plain_version v
  | DeleteOp _ => True
  end.
Definition plain_rec (r : pystr * dict) : Prop := text_size (fst r) <= id_limit /\ plain (snd r).
Hypothesis Hlimit : 71 + id_limit + row_size + N.of_nat (List.length versions) * change_size <= limit.
Hypothesis Hsize : limit <= SIZE_LIMIT.

Lemma entries_total d : Forall plain_entry d -> fields_size d <= total (fun k => 2 + text_size k + value_limit) (dkeys d).
Proof. induction 1 as [|[k v] d (H1 & H2 & H3) _ IH]; [cbn; lia|]. cbn [dkeys map fst fields_size total fold_right]. fold (total (fun k => 2 + text_size k + value_limit) (map fst d)). fold (dkeys d). unfold element_size. cbn [snd] in H3. lia. Qed.
Lemma entries_names d : Forall plain_entry d -> incl (dkeys d) names.
Proof. intros H k Hk. apply in_map_iff in Hk. destruct Hk as ([k' v] & <- & Hk). rewrite Forall_forall in H. apply (H _ Hk). Qed.
Lemma plain_size d : plain d -> fields_size d <= row_size.
Proof. intros [H1 H2]. pose proof (entries_total d H2). pose proof (total_incl (fun k => 2 + text_size k + value_limit) (dkeys d) names H1 (entries_names d H2)). unfold row_size. lia. Qed.
Lemma names_few : N.of_nat (List.length names) < 10 ^ 7.
Proof.
  assert (L : 2 * N.of_nat (List.length names) <= row_size). { unfold row_size. clear. induction names as [|k l IH]; [cbn; lia|]. cbn [List.length total fold_right]. fold (total (fun k => 2 + text_size k + value_limit) l). lia. }
  unfold SIZE_LIMIT in Hsize. lia.
Qed.
Lemma keys_size ks : forall i, i + N.of_nat (List.length ks) <= 10 ^ 7 -> items_size i (map VStr ks) <= total (fun k => 14 + text_size k) ks.
Proof.
  induction ks as [|k ks IH]; intros i H; [cbn; lia|]. cbn [map items_size total fold_right List.length] in *. fold (total (fun k => 14 + text_size k) ks). unfold element_size. replace (bson_size (VStr k)) with (5 + text_size k) by reflexivity.
  pose proof (digits_size (Z.of_N i) 6 ltac:(change (10 ^ N.succ 6) with (10 ^ 7); lia)) as D. specialize (IH (i + 1) ltac:(lia)). lia.
Qed.
Lemma entry_size {A} name (f : A -> value) x : fields_size (entry name f x) = match x with Some y => element_size (lit name) (bson_size (f y)) | None => 0 end.
Proof. destruct x; [cbn [entry fields_size]; lia|reflexivity]. Qed.
Lemma plain_op_size o : plain_op o -> bson_size (write_diffop o) <= 48 + total (fun k => 14 + text_size k + value_limit) names.
Proof.
  intros (dc & dn & dd & -> & H1 & H2 & H3 & H4). unfold write_diffop. rewrite list_size. cbn [items_size dpath dops map]. rewrite (list_size []), dict_size. cbn [items_size]. unfold write_ops. cbn [o_dc o_dn o_dd o_lc o_ln o_ld]. rewrite !fields_app, !entry_size.
  unfold element_size. change (text_size (str_int (Z.of_N 0))) with 1. change (text_size (str_int (Z.of_N (0 + 1)))) with 1. change (text_size (lit "dn")) with 2. change (text_size (lit "dd")) with 2. change (text_size (lit "dc")) with 2.
  assert (C : match nonempty dc with Some y => 2 + 2 + bson_size (VDict y) | None => 0 end <= 9 + fields_size dc) by (destruct dc; cbn [nonempty]; [|rewrite dict_size]; lia).
  assert (N : match nonempty dn with Some y => 2 + 2 + bson_size (VDict y) | None => 0 end <= 9 + fields_size dn) by (destruct dn; cbn [nonempty]; [|rewrite dict_size]; lia).
  assert (D : match nonempty dd with Some y => 2 + 2 + bson_size (VList (map VStr y)) | None => 0 end <= 9 + items_size 0 (map VStr dd)) by (destruct dd; cbn [nonempty]; [|rewrite list_size]; lia).
  set (g := fun k => 14 + text_size k + value_limit). pose proof (entries_total dc H1) as T1. pose proof (entries_total dn H2) as T2.
  assert (Ld : (List.length dd <= List.length names)%nat). { apply NoDup_incl_length; [|exact H3]. apply NoDup_tail, NoDup_tail in H4. exact H4. }
  pose proof names_few as F. pose proof (keys_size dd 0 ltac:(lia)) as T3.
  pose proof (total_le (fun k => 2 + text_size k + value_limit) g (dkeys dc) ltac:(intros k _; unfold g; lia)) as G1. pose proof (total_le (fun k => 2 + text_size k + value_limit) g (dkeys dn) ltac:(intros k _; unfold g; lia)) as G2. pose proof (total_le (fun k => 14 + text_size k) g dd ltac:(intros k _; unfold g; lia)) as G3.
  assert (G : total g (dkeys dc ++ dkeys dn ++ dd) <= total g names). { apply total_incl; [exact H4|]. apply incl_app; [exact (entries_names _ H1)|]. apply incl_app; [exact (entries_names _ H2)|exact H3]. }
  rewrite !total_app in G. lia.
Qed.
Lemma plain_changes_size os : plain_changes os -> bson_size (write_changes os) <= 56 + total (fun k => 14 + text_size k + value_limit) names.
Proof.
  intros [->|(o & -> & H)]; unfold write_changes; cbn [map]; rewrite list_size; cbn [items_size]; [lia|]. pose proof (plain_op_size o H) as P. unfold element_size. change (text_size (str_int (Z.of_N 0))) with 1. lia.
Qed.
Lemma plain_history l : Forall (fun vd => plain_version (fst vd) /\ plain_changes (snd vd)) l -> history_size l <= N.of_nat (List.length l) * change_size.
Proof.
  induction 1 as [|[v os] l [[_ V] C] _ IH]; [cbn; lia|]. cbn [fst snd] in *. rewrite history_cons. pose proof (plain_changes_size os C) as P. pose proof (digits_size v 18 ltac:(change (10 ^ N.succ 18) with 10000000000000000000; lia)) as D. cbn [List.length]. rewrite Nat2N.inj_succ, N.mul_succ_l. unfold change_size at 2. lia.
Qed.
Lemma plain_accepted raw d : holds raw d -> plain_doc d -> within limit raw = true.
Proof.
  intros H (G1 & G2 & G3 & G4 & G5). unfold within. apply N.leb_le. destruct (holds_size raw d H) as [-> _]. unfold base_size. rewrite dict_size. pose proof (plain_size _ G3) as R. pose proof (plain_history _ G5) as P.
  assert (L : (List.length (d_diffs d) <= List.length versions)%nat). { rewrite <- (map_length fst). apply NoDup_incl_length; [exact G4|]. intros v Hv. apply in_map_iff in Hv. destruct Hv as (vd & <- & Hv). rewrite Forall_forall in G5. apply (G5 _ Hv). }
  assert (M : N.of_nat (List.length (d_diffs d)) * change_size <= N.of_nat (List.length versions) * change_size) by (apply N.mul_le_mono_r; lia).
  assert (V : version_size (d_ver d) <= 8) by (destruct (d_ver d); cbn [version_size]; [apply int_size_le|lia]). destruct (dmem raw (lit "diffs")); lia.
Qed.

(** *** operations *)
Lemma dset_plain d k v : plain d -> plain_entry (k, v) -> plain (dset d k v).
Proof.
  intros [H1 H2] V. split; [apply NoDup_dset, H1|]. clear H1. induction H2 as [|[k' v'] d H HF IH]; cbn [dset]; [constructor; [exact V|constructor]|]. destruct (str_eqb k k') eqn:E; constructor; try assumption. apply str_eqb_eq in E. subst k'. exact V.
Qed.
Lemma ddel_plain d k : plain d -> plain (ddel d k).
Proof. intros [H1 H2]. split; [apply NoDup_ddel, H1|]. clear H1. induction H2 as [|[k' v'] d H HF IH]; cbn [ddel]; [constructor|]. destruct (str_eqb k k'); [exact HF|constructor; assumption]. Qed.
Lemma dupdate_plain e : forall d, plain d -> Forall plain_entry e -> plain (dupdate d e).
Proof. induction e as [|[k v] e IH]; intros d H E; [exact H|]. inversion E as [|? ? E1 E2]; subst. rewrite dupdate_cons. apply IH; [apply dset_plain; assumption|exact E2]. Qed.
Lemma del_keys_plain ks : forall d d', plain d -> del_keys d ks = Some d' -> plain d'.
Proof. induction ks as [|k ks IH]; intros d d' H E; cbn [del_keys] in E; [injection E as <-; exact H|]. destruct (dmem d k); [|discriminate]. exact (IH _ _ (ddel_plain _ _ H) E). Qed.
Lemma repush_plain d f : plain d -> plain (repush d f).
Proof. intro H. unfold repush. destruct (dget d f) as [v|] eqn:E; [|exact H]. apply dset_plain; [apply ddel_plain, H|]. apply dget_In in E. destruct H as [_ H]. rewrite Forall_forall in H. apply (H _ E). Qed.
Lemma patch_plain d os d' : plain d -> plain_changes os -> patch d os = Some d' -> plain d'.
Proof.
  intros H [->|(o & -> & dc & dn & dd & -> & H1 & H2 & H3 & H4)] E; unfold patch in E; cbn [patch_loop dpath dops upd_path] in E; [injection E as <-; exact H|].
  unfold apply_ops in E. cbn [o_dc o_dn o_dd o_lc o_ln o_ld] in E.
  assert (P1 : plain (match nonempty dc with Some c => dupdate d c | None => d end)) by (destruct dc; [exact H|apply dupdate_plain; assumption]).
  set (d1 := match nonempty dc with Some c => dupdate d c | None => d end) in *.
  assert (P2 : plain (match nonempty dn with Some n => dupdate d1 n | None => d1 end)) by (destruct dn; [exact P1|apply dupdate_plain; assumption]).
  set (d2 := match nonempty dn with Some n => dupdate d1 n | None => d1 end) in *. cbv zeta in E.
  destruct (nonempty dd) as [ks|]; [|injection E as <-; exact P2]. destruct (del_keys d2 ks) as [d3|] eqn:D; [|discriminate]. injection E as <-. exact (del_keys_plain _ _ _ P2 D).
Qed.
Lemma dict_changes_plain l r : Forall plain_entry l -> Forall plain_entry r -> NoDup (dkeys l) -> exists ch, dict_changes [] l r = (ch, []) /\ Forall plain_entry ch /\ incl (dkeys ch) (dkeys l) /\ incl (dkeys ch) (dkeys r) /\ NoDup (dkeys ch).
Proof.
  intros Hl Hr. induction Hl as [|[k lv] l Hk _ IH]; intro N; cbn [dict_changes].
  - exists []. split; [reflexivity|]. split; [constructor|]. split; [intros x []|]. split; [intros x []|constructor].
  - inversion N as [|? ? N1 N2]; subst. destruct (IH N2) as (ch & -> & C1 & C2 & C3 & C4). destruct (dget r k) as [rv|] eqn:G; [|exists ch; repeat (split; [first [reflexivity|assumption|apply incl_tl; assumption]|]); exact C4].
    pose proof (dget_In _ _ _ G) as Ir. assert (Rv : plain_entry (k, rv)) by (rewrite Forall_forall in Hr; exact (Hr _ Ir)).
    destruct (py_eqb lv rv); [exists ch; repeat (split; [first [reflexivity|assumption|apply incl_tl; assumption]|]); exact C4|].
    destruct Hk as (_ & Sk & _). exists ((k, rv) :: ch). split; [cbn [snd] in Sk; destruct lv; cbn [is_scalar] in Sk; try discriminate; reflexivity|]. split; [constructor; assumption|]. cbn [dkeys map fst].
    split; [intros x [<-|Hx]; [left; reflexivity|right; exact (C2 _ Hx)]|]. split; [intros x [<-|Hx]; [apply (in_map fst) in Ir; exact Ir|exact (C3 _ Hx)]|].
    constructor; [|exact C4]. intro Hx. apply N1. exact (C2 _ Hx).
Qed.
Lemma diff_plain new old : plain new -> plain old -> plain_changes (diff new old).
Proof.
  intros [N1 N2] [O1 O2]. unfold diff. destruct (py_eqb _ _); [left; reflexivity|]. destruct (dict_changes_plain new old N2 O2 N1) as (ch & E & C1 & C2 & C3 & C4).
  assert (Kn : forall k, In k (dkeys (new_values new old)) -> In k (dkeys old) /\ ~ In k (dkeys new)).
  { intros k Hk. apply in_map_iff in Hk. destruct Hk as (kv & <- & Hk). apply filter_In in Hk. destruct Hk as [Hk1 Hk2]. split; [apply in_map, Hk1|]. intro Q. apply dmem_In in Q. rewrite Q in Hk2. discriminate. }
  assert (Kd : forall k, In k (deleted_keys new old) -> In k (dkeys new) /\ ~ In k (dkeys old)).
  { intros k Hk. apply filter_In in Hk. destruct Hk as [Hk1 Hk2]. split; [exact Hk1|]. intro Q. apply dmem_In in Q. rewrite Q in Hk2. discriminate. }
  assert (P : plain_op (mkDiff [] (mkOps (nonempty ch) (nonempty (new_values new old)) (nonempty (deleted_keys new old)) None None None))).
  { exists ch, (new_values new old), (deleted_keys new old). split; [reflexivity|]. split; [exact C1|]. split; [apply Forall_forall; intros kv Hk; apply filter_In in Hk; rewrite Forall_forall in O2; apply O2, Hk|].
    split; [intros k Hk; apply (entries_names new N2), Kd, Hk|]. apply NoDup_app2; [exact C4| |].
    - apply NoDup_app2; [apply NoDup_filter_keys, O1|apply NoDup_filter_list, N1|]. intros k Hk Q. apply (proj2 (Kd k Q)), Kn, Hk.
    - intros k Hk Q. apply in_app_or in Q. destruct Q as [Q|Q]; [exact (proj2 (Kn k Q) (C2 _ Hk))|exact (proj2 (Kd k Q) (C3 _ Hk))]. }
  destruct (vsize (VDict new)) as [|n] eqn:V; [cbn [vsize] in V; discriminate V|]. cbn [diff_loop compare]. rewrite E. cbn [app]. destruct (ops_empty _); destruct n as [|n]; cbn [diff_loop]; try (left; reflexivity); (right; eexists; split; [reflexivity|exact P]).
Qed.
Lemma upd_plain id f c : Forall plain_doc c -> (forall d, plain_doc d -> plain_doc (f d)) -> Forall plain_doc (upd_first c id f).
Proof. intros H F. induction H as [|d c H HF IH]; [constructor|]. cbn [upd_first]. destruct (str_eqb (d_id d) id); constructor; auto. Qed.
Lemma zset_keys_nodup {V} (m : list (Z * V)) k x : NoDup (zkeys m) -> NoDup (zkeys (zset m k x)).
Proof.
  assert (K : forall y, In y (zkeys (zset m k x)) -> y = k \/ In y (zkeys m)).
  { induction m as [|[j w] m IH]; cbn [zset]; intros y H; [destruct H as [<-|[]]; left; reflexivity|]. destruct (Z.eqb_spec k j) as [->|_]; [right; exact H|]. destruct H as [<-|H]; [right; left; reflexivity|]. destruct (IH y H) as [->|Q]; [left; reflexivity|right; right; exact Q]. }
  induction m as [|[j w] m IH]; cbn [zset]; intro N; [repeat constructor; intros []|]. inversion N as [|? ? N1 N2]; subst. destruct (Z.eqb_spec k j) as [->|E]; [exact N|]. cbn [zkeys map fst]. constructor; [|apply IH; [|exact N2]].
  - intro Q. assert (R : j = k \/ In j (zkeys m)). { clear - Q. induction m as [|[j' w'] m IH]; cbn [zset] in Q; [destruct Q as [<-|[]]; left; reflexivity|]. destruct (Z.eqb_spec k j') as [->|_]; [right; exact Q|]. destruct Q as [<-|Q]; [right; left; reflexivity|]. destruct (IH Q) as [->|H]; [left; reflexivity|right; right; exact H]. }
    destruct R as [->|R]; [exact (E eq_refl)|exact (N1 R)].
  - intros y H. clear - H. induction m as [|[j' w'] m IH]; cbn [zset] in H; [destruct H as [<-|[]]; left; reflexivity|]. destruct (Z.eqb_spec k j') as [->|_]; [right; exact H|]. destruct H as [<-|H]; [right; left; reflexivity|]. destruct (IH H) as [->|Q]; [left; reflexivity|right; right; exact Q].
Qed.
Lemma zdel_keys_nodup {V} (m : list (Z * V)) k : NoDup (zkeys m) -> NoDup (zkeys (zdel m k)).
Proof.
  assert (K : forall y (l : list (Z * V)), In y (zkeys (zdel l k)) -> In y (zkeys l)).
  { intros y l. induction l as [|[j w] l IH]; cbn [zdel]; intro H; [exact H|]. destruct (Z.eqb k j); [right; exact H|]. destruct H as [<-|H]; [left; reflexivity|right; apply IH, H]. }
  induction m as [|[j w] m IH]; cbn [zdel]; intro N; [exact N|]. inversion N as [|? ? N1 N2]; subst. destruct (Z.eqb k j); [exact N2|]. cbn [zkeys map fst]. constructor; [intro Q; exact (N1 (K _ _ Q))|exact (IH N2)].
Qed.
Lemma apply_plain c o : Forall plain_doc c -> plain_mop o -> Forall plain_doc (apply_mop c o).
Proof.
  intros H G. destruct o as [id data|id data|id data v ch|id data v all|id]; cbn [apply_mop plain_mop] in *.
  - apply Forall_app. split; [exact H|]. constructor; [|constructor]. destruct G as [G1 G2]. split; [exact G1|]. split; [discriminate|]. split; [exact G2|]. split; constructor.
  - apply upd_plain; [exact H|]. intros d (G1 & G2 & G3 & G4). split; [exact G1|]. split; [exact G2|]. split; [exact G|exact G4].
  - apply upd_plain; [exact H|]. destruct G as (Ga & Gb & Gc). intros d (G1 & G2 & G3 & G4 & G5). split; [exact G1|]. split; [discriminate|]. split; [exact Ga|]. cbn [d_diffs]. split; [apply zset_keys_nodup, G4|]. apply zset_good; [exact G5|]. intros w <-. split; assumption.
  - apply upd_plain; [exact H|]. destruct G as (Ga & Gb). intros d (G1 & G2 & G3 & G4 & G5). split; [exact G1|]. split; [intros w E; injection E as <-; exact Gb|]. split; [exact Ga|]. cbn [d_diffs]. destruct all; [split; constructor|]. split; [apply zdel_keys_nodup, G4|apply zdel_good, G5].
  - induction H as [|d c H HF IH]; [constructor|]. cbn [del_first]. destruct (str_eqb (d_id d) id); [exact HF|constructor; assumption].
Qed.
Lemma commit_plain v d : plain_version v -> plain_doc d -> plain_doc (commit_doc v d).
Proof. intros V (G1 & G2 & G3 & G4). unfold commit_doc. destruct (d_ver d) eqn:E; [split; [exact G1|]; split; [rewrite E; exact G2|]; split; [exact G3|exact G4]|]. split; [exact G1|]. split; [intros w Q; injection Q as <-; exact V|]. split; [exact G3|exact G4]. Qed.
Lemma rec_changes_plain mf new old ch new' old' : plain new -> plain old -> rec_changes mf new old = (ch, new', old') -> plain_changes ch /\ plain new' /\ plain old'.
Proof.
  intros N O E. unfold rec_changes in E. destruct mf as [f|]; [destruct (dmem new f && dmem old f)%bool|]; injection E as <- <- <-.
  - split; [|split; apply repush_plain; assumption]. destruct (isnil _); [left; reflexivity|]. apply diff_plain; apply repush_plain; assumption.
  - split; [apply diff_plain; assumption|split; assumption].
  - split; [apply diff_plain; assumption|split; assumption].
Qed.
Lemma revert_plain d d' : plain_doc d -> revert_doc d = Some d' -> plain_doc d'.
Proof.
  intros (G1 & G2 & G3 & G4 & G5) E. unfold revert_doc in E. destruct (d_ver d); [discriminate|]. destruct (zsort_desc _) as [|v vs]; [discriminate|]. destruct (zget (d_diffs d) v) as [os|] eqn:Ez; [|discriminate]. destruct (patch (d_data d) os) as [data|] eqn:Ep; [|discriminate]. cbn [bind] in E. injection E as <-.
  destruct (zget_good _ _ _ _ G5 Ez) as [V1 V2]. split; [exact G1|]. split; [intros w Q; injection Q as <-; exact V1|]. split; [exact (patch_plain _ _ _ G3 V2 Ep)|]. cbn [d_diffs]. split; [apply zdel_keys_nodup, G4|apply zdel_good, G5].
Qed.
Lemma rec_op_plain mf r e o : plain_rec r -> match e with Some d => plain_doc d | None => True end -> rec_op mf r e = Some (Some o) -> plain_mop o.
Proof.
  intros (R1 & R2) Ge E. unfold rec_op in E. destruct e as [d|].
  - pose proof Ge as (G1 & G2 & G3 & G4). destruct (d_ver d) as [v|] eqn:Ev.
    + destruct (rec_changes mf (snd r) (d_data d)) as [[ch new'] old'] eqn:Ec. destruct (rec_changes_plain _ _ _ _ _ _ R2 G3 Ec) as (C1 & C2 & _). destruct (isnil ch); [discriminate|]. injection E as <-. split; [exact C2|]. split; [exact (G2 v eq_refl)|exact C1].
    + destruct (isnil (d_diffs d)).
      * destruct (p_del r); [injection E as <-; exact I|]. destruct (isnil _); [discriminate|]. injection E as <-. exact R2.
      * destruct (revert_doc d) as [d'|] eqn:Er; [|discriminate]. destruct (revert_plain _ _ Ge Er) as (H1 & H2 & H3 & H4). destruct (rec_changes mf (snd r) (d_data d')) as [[ch new'] old'] eqn:Ec. destruct (rec_changes_plain _ _ _ _ _ _ R2 H3 Ec) as (C1 & C2 & C3).
        destruct (d_ver d') as [v|] eqn:Ev'; [|discriminate]. destruct (isnil ch); [unfold revert_op in E; rewrite Ev' in E|]; injection E as <-; [split; [exact C3|exact (H2 v eq_refl)]|]. split; [exact C2|]. split; [exact (H2 v eq_refl)|exact C1].
  - destruct (p_del r); [discriminate|]. injection E as <-. split; assumption.
Qed.
Lemma find_plain c id d : Forall plain_doc c -> find_last c id = Some d -> plain_doc d.
Proof. intros H E. unfold find_last in E. apply find_some in E. destruct E as [E _]. apply in_rev in E. rewrite Forall_forall in H. apply H, E. Qed.
Lemma chunk_plain mf c chunk os : Forall plain_doc c -> Forall plain_rec chunk -> chunk_ops mf c chunk = Some os -> Forall plain_mop os.
Proof.
  intros Hc Hr E. unfold chunk_ops in E. assert (B : Forall plain_rec (by_id chunk)).
  { apply Forall_forall. intros r I. unfold by_id, dict_of in I. apply In_dupdate in I. destruct I as [[]|I]. rewrite Forall_forall in Hr. apply Hr, I. }
  destruct (forallb _ _).
  - injection E as <-. apply Forall_forall. intros x Hx. apply in_map_iff in Hx. destruct Hx as (r & <- & I). apply filter_In in I. rewrite Forall_forall in B. destruct (B r (proj1 I)) as (B1 & B2). split; assumption.
  - revert os E. induction B as [|r rs Hr0 _ IH]; intros os E; cbn [map_ops] in E; [injection E as <-; constructor|]. destruct (rec_op mf r (find_last c (fst r))) as [o|] eqn:Eo; [|discriminate]. destruct (map_ops mf c rs) as [l|]; [|discriminate]. cbn [bind] in E. injection E as <-. specialize (IH l eq_refl).
    destruct o as [o|]; [|exact IH]. constructor; [|exact IH]. apply (rec_op_plain mf r (find_last c (fst r)) o Hr0); [|exact Eo]. destruct (find_last c (fst r)) as [d|] eqn:Ef; [exact (find_plain _ _ _ Hc Ef)|exact I].
Qed.
Lemma rollback_plain c os : Forall plain_doc c -> rollback_ops c = Some os -> Forall plain_mop os.
Proof.
  intros H E. unfold rollback_ops in E. assert (F : Forall plain_doc (filter is_pending c)) by (apply Forall_forall; intros d I; apply filter_In in I; rewrite Forall_forall in H; apply H, I).
  revert os E. induction F as [|d c' Hd _ IH]; intros os E; cbn [rollback_ops_of] in E; [injection E as <-; constructor|]. destruct (rollback_op d) as [o|] eqn:Eo; [|discriminate]. destruct (rollback_ops_of c') as [l|]; [|discriminate]. cbn [bind] in E. injection E as <-. constructor; [|exact (IH l eq_refl)].
  unfold rollback_op, revert_op in Eo. destruct (isnil (d_diffs d)); [injection Eo as <-; exact I|]. destruct (revert_doc d) as [d'|] eqn:Er; [|discriminate]. destruct (revert_plain _ _ Hd Er) as (H1 & H2 & H3 & H4). destruct (d_ver d') as [v|] eqn:Ev; [|discriminate]. injection Eo as <-. split; [exact H3|exact (H2 v eq_refl)].
Qed.
Theorem run_plain ss : Forall (good_step plain_rec plain_version) ss -> same_result plain_doc (read_run (within limit) [] ss) (run [] ss).
Proof.
  intro H. apply (run_same (within limit) plain_doc plain_mop plain_rec plain_version plain_accepted apply_plain chunk_plain rollback_plain commit_plain ss H). split; [|split]; constructor.
Qed.
End Flat.
