(** Property C99: how often records with nested lists and dicts can be changed. *)
From Coq Require Import String Ascii.
From Coq Require Import List ZArith NArith Bool Lia Permutation Sorted.
From Verif Require Import PyVal Diff DiffProofs Time Prepare PrepareProofs Mongo Store MongoProofs MongoStore MongoMore Parser ParserTypes Bson BsonProofs BsonLimits PropsMongo PropsBson BsonSize BsonSizeProofs PropsBsonSize PropsBsonRoom.
Import ListNotations.
Open Scope string_scope.
Open Scope list_scope.
Open Scope N_scope.

(** ** Specification *)
(** The bytes of a value, with 8 for every number and boolean: equal values, like 1 and True, have the same. *)
Fixpoint full_size (v : value) : N :=
  match v with
  | VNone => 0
  | VBool _ | VInt _ | VFloat _ => 8
  | VStr s => 5 + text_size s
  | VList l => 5 + (fix items (i : N) (l : list value) : N := match l with [] => 0 | x :: r => element_size (str_int (Z.of_N i)) (full_size x) + items (i + 1) r end) 0 l
  | VDict d => 5 + fold_right (fun kv n => element_size (fst kv) (full_size (snd kv)) + n) 0 d
  end.
(** The paths to all lists and dicts, and some bytes for each. *)
Definition path_bytes (v : value) : N := containers v * (61 + levels v * (18 + longest_name v)).
(** The calls: records of at most [size] bytes with paths of at most [paths]. *)
Definition nested_step (size paths id_bytes : N) (s : step) : Prop :=
  match s with
  | SIngest _ recs => Forall (fun r => text_size (fst r) <= id_bytes /\ full_size (VDict (snd r)) <= size /\ path_bytes (VDict (snd r)) <= paths) recs
  | SCommit v => (0 <= v < 2 ^ 63)%Z
  | SRollback => True
  end.

(** ** Equal values have the same size *)
Fixpoint full_items (i : N) (l : list value) : N := match l with [] => 0 | x :: r => element_size (str_int (Z.of_N i)) (full_size x) + full_items (i + 1) r end.
Lemma full_list l : full_size (VList l) = 5 + full_items 0 l.
Proof. reflexivity. Qed.
Lemma bson_full v : bson_size v <= full_size v.
Proof.
  induction v as [|b|z|f|s|l IH|d IH] using value_ind'; try (cbn; lia); [cbn [full_size bson_size]; apply int_size_le| |].
  - rewrite list_size, full_list. apply N.add_le_mono_l. generalize 0 as i. induction IH as [|x l H _ IH]; intro i; [cbn; lia|]. cbn [items_size full_items]. unfold element_size. specialize (IH (i + 1)). lia.
  - rewrite dict_size. cbn [full_size]. apply N.add_le_mono_l. induction IH as [|[k x] d H _ IH]; [cbn; lia|]. cbn [fields_size fold_right fst snd] in *. unfold element_size in *. lia.
Qed.
Definition fold (op : N -> N -> N) (l : list N) : N := fold_right op 0 l.
Lemma fold_perm (op : N -> N -> N) l m : (forall a b c, op a (op b c) = op b (op a c)) -> Permutation l m -> fold op l = fold op m.
Proof. intros C P. induction P as [|x l m _ IH|x y l|l m n _ IH1 _ IH2]; [reflexivity| | |congruence]; unfold fold in *; cbn [fold_right]; [rewrite IH; reflexivity|apply C]. Qed.
Definition at_key (h : pystr -> value -> N) (d : dict) (k : pystr) : N := match dget d k with Some x => h k x | None => 0 end.
Lemma map_keys (h : pystr -> value -> N) (d : dict) : NoDup (dkeys d) -> map (fun kv => h (fst kv) (snd kv)) d = map (at_key h d) (dkeys d).
Proof. intro N. unfold dkeys. rewrite map_map. apply map_ext_in. intros [k x] I. unfold at_key. rewrite (In_dget d (fst (k, x)) x N I). reflexivity. Qed.
Lemma fold_dict (op : N -> N -> N) (h : pystr -> value -> N) (d e : dict) : (forall a b c, op a (op b c) = op b (op a c)) -> NoDup (dkeys d) -> NoDup (dkeys e) -> (forall k, dget d k = None <-> dget e k = None) ->
  (forall k x y, dget d k = Some x -> dget e k = Some y -> h k x = h k y) -> fold_right (fun kv n => op (h (fst kv) (snd kv)) n) 0 d = fold_right (fun kv n => op (h (fst kv) (snd kv)) n) 0 e.
Proof.
  intros C Nd Ne K H. assert (F : forall l : dict, fold_right (fun kv n => op (h (fst kv) (snd kv)) n) 0 l = fold op (map (fun kv => h (fst kv) (snd kv)) l)) by (induction l as [|kv l IH]; [reflexivity|]; unfold fold in *; cbn [fold_right map]; rewrite IH; reflexivity).
  rewrite !F, (map_keys h d Nd), (map_keys h e Ne).
  assert (G : forall (l : dict) k, In k (dkeys l) <-> dget l k <> None). { intros l k. rewrite <- dmem_In. unfold dmem. destruct (dget l k); split; congruence. }
  rewrite (map_ext_in (at_key h d) (at_key h e)).
  - apply fold_perm; [exact C|]. apply Permutation_map. apply NoDup_Permutation; [exact Nd|exact Ne|]. intro k. rewrite !G, K. reflexivity.
  - intros k _. unfold at_key. destruct (dget d k) as [x|] eqn:X, (dget e k) as [y|] eqn:Y; [exact (H k x y X Y)|apply K in Y; congruence|apply K in X; congruence|reflexivity].
Qed.
Definition alike (a b : value) : Prop := full_size a = full_size b /\ containers a = containers b /\ levels a = levels b /\ longest_name a = longest_name b.
Lemma veq_alike a : forall b, wf a -> wf b -> veq a b -> alike a b.
Proof.
  induction a as [|a0|a0|a0|a0|l IH|d IH] using value_ind'; intros b Wa Wb H.
  1-5: inversion H as [? ? Hs Hs' Hr| |]; subst; destruct b; try discriminate Hs'; unfold scalar_same in Hr; cbn in Hr; try contradiction; try (injection Hr as ->); try (split; [reflexivity|split; [reflexivity|split; reflexivity]]); try discriminate Hr;
    try (destruct a0; cbn in Hr; contradiction); try (destruct f; cbn in Hr; contradiction).
  - inversion H as [? ? Hs|? m Hl Hi|]; subst; [discriminate|]. assert (F : Forall2 alike l m).
    { apply wf_list in Wa, Wb. clear H. revert m Hl Hi Wb. induction IH as [|x l Hx _ IHl]; intros [|y m] Hl Hi Wb; try discriminate Hl; [constructor|]. inversion Wa as [|? ? Wa1 Wa2]; subst. inversion Wb as [|? ? Wb1 Wb2]; subst.
      constructor; [exact (Hx y Wa1 Wb1 (Hi 0%nat x y eq_refl eq_refl))|]. apply IHl; [exact Wa2|injection Hl as Hl; exact Hl|intros i x' y' X Y; exact (Hi (S i) x' y' X Y)|exact Wb2]. }
    clear IH H Hl Hi Wa Wb. assert (I : forall i, full_items i l = full_items i m). { induction F as [|x y l m (F1 & _) _ IH]; intro i; [reflexivity|]. cbn [full_items]. rewrite F1, IH. reflexivity. }
    split; [rewrite !full_list, I; reflexivity|]. clear I. cbn [containers levels longest_name].
    assert (J : fold_right (fun x n => containers x + n) 0 l = fold_right (fun x n => containers x + n) 0 m /\ fold_right (fun x n => N.max (levels x) n) 0 l = fold_right (fun x n => N.max (levels x) n) 0 m /\ fold_right (fun x n => N.max (longest_name x) n) 0 l = fold_right (fun x n => N.max (longest_name x) n) 0 m).
    { induction F as [|x y l m (_ & F2 & F3 & F4) _ (I1 & I2 & I3)]; [repeat split|]. cbn [fold_right]. rewrite F2, F3, F4, I1, I2, I3. repeat split. }
    destruct J as (J1 & J2 & J3). rewrite J1, J2, J3. repeat split.
  - inversion H as [? ? Hs| |? e Hk Hi]; subst; [discriminate|]. apply wf_dict in Wa, Wb. destruct Wa as [Na Wa], Wb as [Nb Wb].
    assert (F : forall k x y, dget d k = Some x -> dget e k = Some y -> alike x y).
    { intros k x y X Y. pose proof (Hi k x y X Y) as V. apply dget_In in X, Y. rewrite Forall_forall in *. exact (IH (k, x) X y (Wa _ X) (Wb _ Y) V). }
    clear IH H Hi. assert (A : forall a b c : N, a + (b + c) = b + (a + c)) by (intros; lia). assert (M : forall a b c : N, N.max a (N.max b c) = N.max b (N.max a c)) by (intros; lia).
    cbn [full_size containers levels longest_name].
    pose proof (fold_dict N.add (fun k x => element_size k (full_size x)) d e A Na Nb Hk ltac:(intros k x y X Y; destruct (F k x y X Y) as (F1 & _); rewrite F1; reflexivity)) as E1.
    pose proof (fold_dict N.add (fun k x => containers x) d e A Na Nb Hk ltac:(intros k x y X Y; destruct (F k x y X Y) as (_ & F1 & _); exact F1)) as E2.
    pose proof (fold_dict N.max (fun k x => levels x) d e M Na Nb Hk ltac:(intros k x y X Y; destruct (F k x y X Y) as (_ & _ & F1 & _); exact F1)) as E3.
    pose proof (fold_dict N.max (fun k x => N.max (text_size k) (longest_name x)) d e M Na Nb Hk ltac:(intros k x y X Y; destruct (F k x y X Y) as (_ & _ & _ & F1); rewrite F1; reflexivity)) as E4.
    cbv beta in *. split; [cbn [full_size]; rewrite E1; reflexivity|]. split; [cbn [containers]; rewrite E2; reflexivity|]. split; [cbn [levels]; rewrite E3; reflexivity|exact E4].
Qed.

(** ** A step on documents as a step of the store, with a condition on the whole collection *)
Section Step.
Variables (accepts : dict -> bool) (JC : coll -> Prop) (JO : mop -> Prop).
Let fine (d : doc) : Prop := forall raw, holds raw d -> accepts raw = true.
Hypothesis Hfine : forall c, JC c -> Forall fine c.
Hypothesis Happ : forall c o, JC c -> JO o -> JC (apply_mop c o).
Definition both (docs : list dict) (c : coll) : Prop := Forall2 holds docs c /\ Forall stored_doc c /\ JC c.
Let to_same docs c : both docs c -> same_coll (fun _ => True) docs c.
Proof. intros (H & S & _). split; [exact H|]. split; [exact S|]. apply Forall_forall. intros; exact I. Qed.
Let upd := update_first_holds accepts fine (fun raw d h f => f raw h).
Lemma wop_both docs c o : both docs c -> stored_mop o -> JO o -> exists docs', apply_wop accepts docs (wop_of o) = Some docs' /\ both docs' (apply_mop c o).
Proof.
  intros (H & S & G) So Go. pose proof (Happ c o G Go) as GJ. pose proof (Hfine _ GJ) as GA. destruct o as [id data|id data|id data v ch|id data v all|id]; cbn [wop_of apply_wop apply_mop stored_mop] in *.
  - exists (docs ++ [[(lit "id", VStr id); (lit "data", VDict data); (lit "version", VNone)]]). assert (Hn : holds [(lit "id", VStr id); (lit "data", VDict data); (lit "version", VNone)] (mkDoc id None data [])) by (exists []; split; [reflexivity|right; split; reflexivity]). split; [|split; [|split]].
    + unfold insert_one, apply_wop. cbn [fst snd]. apply Forall_app in GA. destruct GA as [_ GA]. inversion GA as [|? ? GA1 _]; subst. rewrite (GA1 _ Hn). reflexivity.
    + apply Forall2_app; [exact H|]. constructor; [exact Hn|constructor].
    + apply Forall_app. split; [exact S|]. repeat constructor.
    + exact GJ.
  - destruct (upd id [(lit "data", VDict data)] [] (fun d => mkDoc (d_id d) (d_ver d) data (d_diffs d)) docs c H GA) as (docs' & E & F); [intros doc d Hd _; apply set_data, Hd|].
    exists docs'. split; [exact E|]. split; [exact F|]. split; [|exact GJ]. apply upd_first_stored; auto.
  - destruct (upd id [(lit "data", VDict data); (lit "version", VNone); (diffs_field v, write_changes ch)] [] (fun d => mkDoc (d_id d) None data (zset (d_diffs d) v ch)) docs c H GA) as (docs' & E & F); [intros doc d Hd E; exact (set_change doc d id data v ch Hd E)|].
    exists docs'. split; [exact E|]. split; [exact F|]. split; [|exact GJ]. apply upd_first_stored; [exact S|]. intros d Hd. apply zset_stored; assumption.
  - destruct (upd id [(lit "data", VDict data); (lit "version", VInt v)] [if all then lit "diffs" else diffs_field v] (fun d => mkDoc (d_id d) (Some v) data (if all then [] else zdel (d_diffs d) v)) docs c H GA) as (docs' & E & F); [intros doc d Hd _; apply set_revert, Hd|].
    exists docs'. split; [exact E|]. split; [exact F|]. split; [|exact GJ]. apply upd_first_stored; [exact S|]. intros d Hd. destruct all; [constructor|apply zdel_stored, Hd].
  - exists (delete_first id docs). split; [reflexivity|]. split; [apply delete_first_holds, H|]. split; [|exact GJ]. clear H G GA GJ. induction S as [|d c Hd HF IH]; [constructor|]. cbn [del_first]. destruct (str_eqb (d_id d) id); [exact HF|constructor; assumption].
Qed.
Lemma wops_both os : Forall stored_mop os -> Forall JO os -> forall docs c, both docs c -> exists docs', apply_wops accepts docs (map wop_of os) = Some docs' /\ both docs' (apply_mops c os).
Proof.
  induction 1 as [|o os Ho _ IH]; intros Go docs c H; [exists docs; split; [reflexivity|exact H]|]. inversion Go as [|? ? Go1 Go2]; subst. destruct (wop_both docs c o H Ho Go1) as (docs1 & E & H1). destruct (IH Go2 docs1 _ H1) as (docs2 & E2 & H2).
  exists docs2. split; [|exact H2]. cbn [map apply_wops]. rewrite E. exact E2.
Qed.
Variable JR : pystr * dict -> Prop.
Hypothesis Hchunk : forall mf c chunk os, JC c -> Forall JR chunk -> chunk_ops mf c chunk = Some os -> Forall JO os.
Lemma loop_both size mf chunks : Forall (Forall JR) chunks -> forall docs c pend, both docs c -> Forall stored_mop pend -> Forall JO pend ->
  match ingest_loop size mf c pend chunks with
  | Some l => Forall stored_mop l /\ exists docs', read_loop accepts size mf docs (map wop_of pend) chunks = Some docs' /\ both docs' (apply_mops c l)
  | None => read_loop accepts size mf docs (map wop_of pend) chunks = None
  end.
Proof.
  induction 1 as [|ch rest Hch _ IH]; intros docs c pend H P Gp; cbn [ingest_loop read_loop].
  - split; [exact P|apply wops_both; assumption].
  - destruct (read_chunk_same _ mf docs c ch (to_same _ _ H)) as [-> S]. destruct (chunk_ops mf c ch) as [os|] eqn:Eos; [|reflexivity]. specialize (S os eq_refl). pose proof (Hchunk mf c ch os (proj2 (proj2 H)) Hch Eos) as Gos. cbn [option_map bind]. rewrite <- map_app, map_length.
    set (n := (Nat.div (List.length (pend ++ os)) size * size)%nat). rewrite firstn_map, skipn_map.
    assert (B : Forall stored_mop (pend ++ os)) by (apply Forall_app; split; assumption).
    rewrite <- (firstn_skipn n (pend ++ os)) in B. apply Forall_app in B. destruct B as [B1 B2].
    assert (D : Forall JO (pend ++ os)) by (apply Forall_app; split; assumption).
    rewrite <- (firstn_skipn n (pend ++ os)) in D. apply Forall_app in D. destruct D as [D1 D2].
    destruct (wops_both _ B1 D1 docs c H) as (docs' & -> & H'). cbn [bind]. specialize (IH docs' _ (skipn n (pend ++ os)) H' B2 D2).
    destruct (ingest_loop size mf (apply_mops c (firstn n (pend ++ os))) (skipn n (pend ++ os)) rest) as [l|]; [|exact IH]. cbn [bind]. destruct IH as (L & docs2 & E2 & H2).
    split; [apply Forall_app; split; assumption|]. exists docs2. split; [exact E2|]. rewrite MongoStore.apply_mops_app. exact H2.
Qed.
Lemma ingest_both size mf docs c recs c' : (0 < size)%nat -> Forall JR recs -> both docs c -> ingest size mf c recs = Some c' -> exists docs', ingest_read accepts size mf docs recs = Some docs' /\ both docs' c'.
Proof.
  intros Sz Gr H E. unfold ingest, ingest_ops in E. pose proof (loop_both size mf (partition recs size) (partition_good _ _ _ Sz Gr) docs c [] H (Forall_nil _) (Forall_nil _)) as R. cbn [map] in R.
  destruct (ingest_loop size mf c [] (partition recs size)) as [l|]; [|discriminate E]. destruct R as (_ & docs' & E' & R). cbn in E. injection E as <-. exists docs'. split; [exact E'|exact R].
Qed.
Lemma rollback_both docs c os : both docs c -> rollback_ops c = Some os -> Forall JO os -> exists docs', rollback_read accepts docs = Some docs' /\ both docs' (apply_mops c os).
Proof.
  intros H E G. unfold rollback_read. destruct (rollback_ops_same _ docs c (to_same _ _ H)) as [-> S]. rewrite E in *. cbn [option_map bind]. exact (wops_both os (S os eq_refl) G docs c H).
Qed.
End Step.
Lemma commit_both accepts v docs c : Forall2 holds docs c -> Forall stored_doc c -> Forall (fun d => forall raw, holds raw d -> accepts raw = true) (commit_data v c) ->
  exists docs', commit_read accepts v docs = Some docs' /\ Forall2 holds docs' (commit_data v c) /\ Forall stored_doc (commit_data v c).
Proof.
  intros H S G. induction H as [|doc d docs c H HF IH]; [exists []; split; [reflexivity|split; constructor]|]. inversion S as [|? ? S1 S2]; subst. cbn [commit_data map] in G. inversion G as [|? ? G1 G2]; subst. destruct (IH S2 G2) as (docs' & E & F1 & F2).
  cbn [commit_read commit_data map]. rewrite E, (holds_none _ _ H). fold (commit_data v c). unfold commit_doc in *. unfold is_pending. destruct (d_ver d) as [z|] eqn:Ev.
  - exists (doc :: docs'). cbn [bind]. split; [reflexivity|]. split; constructor; assumption.
  - destruct (set_version doc d v H) as (doc' & -> & H'). cbn [bind]. rewrite (G1 _ H'). exists (doc' :: docs'). split; [reflexivity|]. split; constructor; assumption.
Qed.

(** ** The invariant *)
Section Nested.
Variables (size paths id_limit : N) (versions : list Z).
Definition change_limit : N := 5 + paths + 18 * size.
Hypothesis Hs : 5 <= size.
Hypothesis Hp : 79 <= paths.
Hypothesis Hlimit : 66 + id_limit + size + N.of_nat (List.length versions) * (21 + change_limit) <= SIZE_LIMIT.
Definition fit (d : dict) : Prop := wfd d /\ full_size (VDict d) <= size /\ path_bytes (VDict d) <= paths.
Lemma class_fit : data_class scalar_same fit.
Proof.
  constructor; auto using scalar_same_refl, scalar_same_sym.
  - exact scalar_same_trans.
  - split; [reflexivity|]. split; [change (full_size (VDict [])) with 5; exact Hs|]. change (path_bytes (VDict [])) with 79. exact Hp.
  - intros d H. apply H.
  - intros a b (W & F & P) Wb V. destruct (veq_alike (VDict a) (VDict b) W Wb V) as (E1 & E2 & E3 & E4). split; [exact Wb|]. split; [rewrite <- E1; exact F|]. unfold path_bytes in *. rewrite <- E2, <- E3, <- E4. exact P.
  - intros a b Ha Hb. exact (diff_patch_veq a b (proj1 Ha) (proj1 Hb)).
Qed.
Definition short (os : list diffop) : Prop := bson_size (write_changes os) <= change_limit.
Definition known (v : Z) : Prop := In v versions /\ (0 <= v < 2 ^ 63)%Z.
Definition sdoc (d : doc) : Prop := text_size (d_id d) <= id_limit /\ (forall v, d_ver d = Some v -> known v) /\ fit (d_data d) /\
  NoDup (zkeys (d_diffs d)) /\ Forall (fun vd => known (fst vd) /\ short (snd vd)) (d_diffs d).
Definition smop (o : mop) : Prop :=
  match o with
  | InsertOp id data => text_size id <= id_limit /\ fit data
  | SetDataOp _ data => fit data
  | ChangeOp _ data v ch => fit data /\ known v /\ short ch
  | RevertOp _ data v _ => fit data /\ known v
  | DeleteOp _ => True
  end.
Lemma upd_s id f c : Forall sdoc c -> (forall d, sdoc d -> sdoc (f d)) -> Forall sdoc (upd_first c id f).
Proof. intros H F. induction H as [|d c H HF IH]; [constructor|]. cbn [upd_first]. destruct (str_eqb (d_id d) id); constructor; auto. Qed.
Lemma apply_s c o : Forall sdoc c -> smop o -> Forall sdoc (apply_mop c o).
Proof.
  intros H G. destruct o as [id data|id data|id data v ch|id data v all|id]; cbn [apply_mop smop] in *.
  - apply Forall_app. split; [exact H|]. constructor; [|constructor]. destruct G as [G1 G2]. split; [exact G1|]. split; [discriminate|]. split; [exact G2|]. split; constructor.
  - apply upd_s; [exact H|]. intros d (G1 & G2 & G3 & G4). split; [exact G1|]. split; [exact G2|]. split; [exact G|exact G4].
  - apply upd_s; [exact H|]. destruct G as (Ga & Gb & Gc). intros d (G1 & G2 & G3 & G4 & G5). split; [exact G1|]. split; [discriminate|]. split; [exact Ga|]. cbn [d_diffs]. split; [apply zset_keys_nodup, G4|]. apply zset_good; [exact G5|]. intros w <-. split; assumption.
  - apply upd_s; [exact H|]. destruct G as (Ga & Gb). intros d (G1 & G2 & G3 & G4 & G5). split; [exact G1|]. split; [intros w E; injection E as <-; exact Gb|]. split; [exact Ga|]. cbn [d_diffs]. destruct all; [split; constructor|]. split; [apply zdel_keys_nodup, G4|apply zdel_good, G5].
  - induction H as [|d c H HF IH]; [constructor|]. cbn [del_first]. destruct (str_eqb (d_id d) id); [exact HF|constructor; assumption].
Qed.
Lemma commit_s v c : known v -> Forall sdoc c -> Forall sdoc (commit_data v c).
Proof.
  intros V H. unfold commit_data. apply Forall_forall. intros x I. apply in_map_iff in I. destruct I as (d & <- & I). rewrite Forall_forall in H. destruct (H d I) as (G1 & G2 & G3 & G4). unfold commit_doc. destruct (d_ver d) eqn:E; [split; [exact G1|]; split; [rewrite E; exact G2|]; split; [exact G3|exact G4]|].
  split; [exact G1|]. split; [intros w Q; injection Q as <-; exact V|]. split; [exact G3|exact G4].
Qed.
Lemma history_s l : Forall (fun vd => known (fst vd) /\ short (snd vd)) l -> history_size l <= N.of_nat (List.length l) * (21 + change_limit).
Proof.
  induction 1 as [|[v os] l [[_ V] C] _ IH]; [cbn; lia|]. cbn [fst snd] in *. rewrite history_cons. unfold short in C. pose proof (digits_size v 18 ltac:(change (10 ^ N.succ 18) with 10000000000000000000; lia)) as D. cbn [List.length]. rewrite Nat2N.inj_succ, N.mul_succ_l. lia.
Qed.
Lemma accepted_s raw d : sdoc d -> holds raw d -> mongo_takes raw = true.
Proof.
  intros (G1 & G2 & G3 & G4 & G5) H. unfold mongo_takes, within. apply N.leb_le. destruct (holds_size raw d H) as [-> _]. unfold base_size. destruct G3 as (_ & G3 & _). pose proof (bson_full (VDict (d_data d))) as B. pose proof (history_s _ G5) as P.
  assert (L : (List.length (d_diffs d) <= List.length versions)%nat). { rewrite <- (map_length fst). apply NoDup_incl_length; [exact G4|]. intros v Hv. apply in_map_iff in Hv. destruct Hv as (vd & <- & Hv). rewrite Forall_forall in G5. apply (G5 _ Hv). }
  assert (M : N.of_nat (List.length (d_diffs d)) * (21 + change_limit) <= N.of_nat (List.length versions) * (21 + change_limit)) by (apply N.mul_le_mono_r; lia).
  assert (V : version_size (d_ver d) <= 8) by (destruct (d_ver d); cbn [version_size]; [apply int_size_le|lia]). destruct (dmem raw (lit "diffs")); lia.
Qed.
Lemma diff_s v new old : known v -> fit new -> fit old -> short (diff new old).
Proof.
  intros [V _] (W1 & F1 & P1) (W2 & F2 & P2). pose proof (bson_full (VDict new)). pose proof (bson_full (VDict old)).
  assert (R : room new old <= change_limit) by (unfold room, change_limit; unfold path_bytes in P1; lia).
  assert (Q : change_limit <= 16777216). { destruct versions as [|v0 vs]; [destruct V|]. cbn [List.length] in Hlimit. rewrite Nat2N.inj_succ, N.mul_succ_l in Hlimit. unfold SIZE_LIMIT in Hlimit. lia. }
  unfold short. pose proof (C99_change_bytes_partial new old W1 W2 ltac:(lia)). lia.
Qed.

(** *** the operations *)
Definition inv_s (bound : Z) (A : astate) (c : coll) : Prop := committed_base scalar_same fit bound c A /\ Forall sdoc c.
Definition op_s (A : astate) (o : mop) : Prop := op_valid scalar_same fit A o /\ smop o.
Definition rec_s (r : pystr * dict) : Prop := text_size (fst r) <= id_limit /\ fit (snd r).
Lemma changes_s mf v new old ch new' old' : known v -> fit new -> fit old -> rec_changes mf new old = (ch, new', old') -> fit new' /\ fit old' /\ (isnil ch = false -> short ch).
Proof.
  intros V N O E. destruct (rec_changes_spec _ _ class_fit mf new old ch new' old' (proj1 N) (proj1 O) E) as (W1 & W2 & W3 & W4 & _ & W6).
  assert (N' : fit new') by exact (dc_sim _ _ class_fit _ _ N W1 W2). assert (O' : fit old') by exact (dc_sim _ _ class_fit _ _ O W3 W4). split; [exact N'|]. split; [exact O'|]. intro Q. rewrite (W6 Q). exact (diff_s v _ _ V N' O').
Qed.
Lemma revert_s bound A c d : inv_s bound A c -> In d c -> d_ver d = None -> isnil (d_diffs d) = false -> exists d' v, revert_doc d = Some d' /\ d_id d' = d_id d /\ d_ver d' = Some v /\ known v /\ fit (d_data d').
Proof.
  intros [B S] I Hv Hn. rewrite Forall_forall in S. pose proof (S d I) as (_ & _ & _ & _ & S5). specialize (B (d_id d)). assert (Id : In d (docs_of (d_id d) c)) by (apply filter_In; split; [exact I|apply str_eqb_refl]).
  assert (Fresh : Forall (fun d => d_ver d = None /\ d_diffs d = [] /\ fit (d_data d)) (docs_of (d_id d) c) -> False). { intro F. rewrite Forall_forall in F. destruct (F d Id) as (_ & E & _). rewrite E in Hn. discriminate Hn. }
  destruct (A (d_id d)) as [[[|[v x] rest] p0]|]; try (exfalso; exact (Fresh B)). destruct B as (d1 & p & E & R). rewrite E in Id. destruct Id as [->|[]]. destruct p as [p|].
  - destruct (revert_rel _ _ class_fit _ _ _ _ _ _ R) as (d' & m & os & R1 & R2 & R3 & R4 & R5 & R6 & R7). exists d', v. split; [exact R1|]. split; [exact R2|]. split; [exact R3|]. split; [|exact (ok_good _ _ _ (proj1 R7))].
    rewrite Forall_forall in S5. apply (S5 (v, os)). rewrite R4. apply in_or_app. right. left. reflexivity.
  - destruct (rel_comm _ _ _ _ _ R) as (? & ? & ? & _ & Q & _). congruence.
Qed.
Lemma rec_op_s bound A mf c r o : inv_s bound A c -> rec_s r -> rec_op mf r (find_last c (fst r)) = Some (Some o) -> smop o.
Proof.
  intros J (R1 & R2) E. unfold rec_op in E. destruct (find_last c (fst r)) as [d|] eqn:Fl.
  - assert (I : In d c) by (unfold find_last in Fl; apply find_some in Fl; rewrite in_rev; apply Fl). pose proof (proj2 J) as S. rewrite Forall_forall in S. destruct (S d I) as (S1 & S2 & S3 & S4 & S5). destruct (d_ver d) as [v|] eqn:Ev.
    + destruct (rec_changes mf (snd r) (d_data d)) as [[ch new'] old'] eqn:Ec. destruct (changes_s _ v _ _ _ _ _ (S2 v eq_refl) R2 S3 Ec) as (C1 & C2 & C3). destruct (isnil ch); [discriminate E|]. injection E as <-. split; [exact C1|]. split; [exact (S2 v eq_refl)|exact (C3 eq_refl)].
    + destruct (isnil (d_diffs d)) eqn:En.
      * destruct (p_del r); [injection E as <-; exact Logic.I|]. destruct (isnil (diff (snd r) (d_data d))); [discriminate E|]. injection E as <-. exact R2.
      * destruct (revert_s _ _ _ _ J I Ev En) as (d' & v & E1 & E2 & E3 & E4 & E5). rewrite E1 in E. destruct (rec_changes mf (snd r) (d_data d')) as [[ch new'] old'] eqn:Ec. destruct (changes_s _ v _ _ _ _ _ E4 R2 E5 Ec) as (C1 & C2 & C3). rewrite E3 in E.
        destruct (isnil ch); [unfold revert_op in E; rewrite E3 in E|]; injection E as <-; [split; [exact C2|exact E4]|]. split; [exact C1|]. split; [exact E4|exact (C3 eq_refl)].
  - destruct (p_del r); [discriminate|]. injection E as <-. split; assumption.
Qed.
Lemma chunk_s bound A mf c chunk os : inv_s bound A c -> Forall rec_s chunk -> chunk_ops mf c chunk = Some os -> Forall (op_s A) os.
Proof.
  intros J Hr E. rewrite chunk_ops_map in E. assert (B : Forall rec_s (by_id chunk)) by (apply Forall_forall; intros r I; apply by_id_In in I; rewrite Forall_forall in Hr; apply Hr, I).
  destruct (map_ops_valid _ _ class_fit bound mf c A (proj1 J) (by_id chunk)) as (os' & E' & V); [apply Forall_forall; intros r I; rewrite Forall_forall in B; apply (B r I)|]. rewrite E in E'. injection E' as <-.
  assert (S : Forall smop os). { clear V. revert os E. induction B as [|r rs Hr0 _ IH]; intros os E; cbn [map_ops] in E; [injection E as <-; constructor|]. destruct (rec_op mf r (find_last c (fst r))) as [o|] eqn:Eo; [|discriminate]. destruct (map_ops mf c rs) as [l|]; [|discriminate]. cbn [bind] in E. injection E as <-. specialize (IH l eq_refl).
    destruct o as [o|]; [|exact IH]. constructor; [|exact IH]. exact (rec_op_s _ _ _ _ _ _ J Hr0 Eo). }
  rewrite Forall_forall in *. intros o I. split; auto.
Qed.
Lemma rollback_s bound A c os : inv_s bound A c -> rollback_ops c = Some os -> Forall smop os.
Proof.
  intros J E. unfold rollback_ops in E. assert (F : Forall (fun d => In d c /\ d_ver d = None) (filter is_pending c)). { apply Forall_forall. intros d I. apply filter_In in I. destruct I as [I1 I2]. split; [exact I1|]. unfold is_pending in I2. destruct (d_ver d); [discriminate I2|reflexivity]. }
  revert os E. induction F as [|d c' [Hd Hv] _ IH]; intros os E; cbn [rollback_ops_of] in E; [injection E as <-; constructor|]. destruct (rollback_op d) as [o|] eqn:Eo; [|discriminate]. destruct (rollback_ops_of c') as [l|]; [|discriminate]. cbn [bind] in E. injection E as <-. constructor; [|exact (IH l eq_refl)].
  unfold rollback_op, revert_op in Eo. destruct (isnil (d_diffs d)) eqn:En; [injection Eo as <-; exact I|]. destruct (revert_s _ _ _ _ J Hd Hv En) as (d' & v & E1 & E2 & E3 & E4 & E5). rewrite E1, E3 in Eo. injection Eo as <-. split; assumption.
Qed.
Lemma fine_s c : Forall sdoc c -> Forall (fun d => forall raw, holds raw d -> mongo_takes raw = true) c.
Proof. intro H. rewrite Forall_forall in *. intros d I raw R. exact (accepted_s raw d (H d I) R). Qed.
Definition state_s (bound : Z) (A : astate) (docs : list dict) (c : coll) : Prop := Forall2 holds docs c /\ Forall stored_doc c /\ crel scalar_same fit bound c A /\ Forall sdoc c.
Definition good_s (s : step) : Prop := match s with SIngest _ recs => ids_within_batches INGEST_SIZE recs /\ Forall rec_s recs | SCommit v => known v | SRollback => True end.
Lemma run_s ss : forall bound A docs c, Forall good_s ss -> clock_increasing bound ss -> state_s bound A docs c ->
  exists bound' docs' c', read_run mongo_takes docs ss = Some docs' /\ state_s bound' (a_run A ss) docs' c'.
Proof.
  induction ss as [|s ss IH]; intros bound A docs c G C (S1 & S2 & S3 & S4); [exists bound, docs, c; split; [reflexivity|]; split; [exact S1|]; split; [exact S2|]; split; assumption|]. inversion G as [|? ? G1 G2]; subst. pose proof (crel_base _ _ _ _ _ S3) as B. destruct s as [mf recs|v|]; cbn [read_run read_step clock_increasing good_s] in *.
  - destruct G1 as [Gw Gr]. destruct (ingest_rel _ _ class_fit bound INGEST_SIZE mf c A recs ltac:(unfold INGEST_SIZE; lia) S3 Gw) as (c' & E & R); [apply Forall_forall; intros r I; rewrite Forall_forall in Gr; apply (Gr r I)|].
    destruct (ingest_both mongo_takes (inv_s bound A) (op_s A) (fun c J => fine_s c (proj2 J)) (fun c o J O => conj (valid_apply _ _ class_fit _ _ _ _ (proj1 J) (proj1 O)) (apply_s c o (proj2 J) (proj2 O))) rec_s (chunk_s bound A) INGEST_SIZE mf docs c recs c' ltac:(unfold INGEST_SIZE; lia) Gr (conj S1 (conj S2 (conj B S4))) E) as (docs' & E' & H1 & H2 & H3).
    rewrite E'. cbn [bind]. apply (IH bound _ docs' c' G2 C). split; [exact H1|]. split; [exact H2|]. split; [exact R|exact (proj2 H3)].
  - destruct C as [Cv C]. pose proof (commit_s v c G1 S4) as S4'. destruct (commit_both mongo_takes v docs c S1 S2 (fine_s _ S4')) as (docs' & E & F1 & F2). rewrite E. cbn [bind]. apply (IH v _ docs' (commit_data v c) G2 C). split; [exact F1|]. split; [exact F2|]. split; [exact (commit_crel _ _ _ _ _ _ S3 Cv)|exact S4'].
  - destruct (rollback_crel _ _ class_fit bound c A B) as (c' & E & R). unfold rollback in E. destruct (rollback_ops c) as [os|] eqn:Eo; [|discriminate E]. cbn [bind] in E. injection E as <-.
    destruct (rollback_both mongo_takes (Forall sdoc) smop fine_s apply_s docs c os (conj S1 (conj S2 S4)) Eo (rollback_s bound A c os (conj B S4) Eo)) as (docs' & E' & H1 & H2 & H3). rewrite E'. cbn [bind]. apply (IH bound _ docs' (apply_mops c os) G2 C). split; [exact H1|]. split; [exact H2|]. split; assumption.
Qed.
End Nested.

(** ** C99 *)
(** Records of at most [size] bytes with paths of at most [paths] bytes can be changed with every commit as long as all changes fit. *)
Theorem C99_nested_partial : forall (size paths id_bytes : N) (b : Z) (ss : list step),
  Forall (nested_step size paths id_bytes) ss -> clock_increasing b ss -> Forall call_ok ss -> 5 <= size -> 79 <= paths ->
  66 + id_bytes + size + count_of (commits ss) * (26 + paths + 18 * size) <= 16777216 ->
  exists docs, read_run mongo_takes [] ss = Some docs /\ forall id, kept docs id (a_run a_empty ss id).
Proof.
  intros size paths idb b ss Hn Hc Hk H5 H79 Hl. destruct (C10_versioned_store b ss Hc Hk) as (c0 & E0 & V).
  assert (G : Forall (good_s size paths idb (commits ss)) ss).
  { apply Forall_forall. intros s Is. rewrite Forall_forall in Hn, Hk. specialize (Hn s Is). specialize (Hk s Is). destruct s as [mf recs|v|]; cbn [good_s nested_step call_ok] in *; [|split; [|exact Hn]; unfold commits; apply in_flat_map; exists (SCommit v); split; [exact Is|left; reflexivity]|exact I].
    destruct Hk as [K1 K2]. split; [exact K1|]. rewrite Forall_forall in *. intros r Ir. destruct (Hn r Ir) as (F1 & F2 & F3). split; [exact F1|]. split; [exact (K2 r Ir)|]. split; assumption. }
  assert (L : 66 + idb + size + N.of_nat (List.length (commits ss)) * (21 + change_limit size paths) <= SIZE_LIMIT). { unfold change_limit, SIZE_LIMIT. unfold count_of in Hl. replace (21 + (5 + paths + 18 * size)) with (26 + paths + 18 * size) by lia. exact Hl. }
  destruct (run_s size paths idb (commits ss) H5 H79 L ss b a_empty [] [] G Hc) as (b' & docs & c & E & S1 & S2 & S3 & S4); [split; [constructor|]; split; [constructor|]; split; [apply crel_empty|constructor]|].
  exists docs. split; [exact E|]. intro id. apply (shows_kept (fun _ => True) docs c id); [split; [exact S1|]; split; [exact S2|]; apply Forall_forall; intros; exact I|].
  specialize (S3 id). unfold shows. destruct (docs_of id c) as [|d [|]] eqn:Ed; destruct (a_run a_empty ss id) as [r|]; try contradiction; [reflexivity|]. destruct S3 as (_ & _ & l & Hl' & H2). exists d, l. split; [reflexivity|]. split; [exact Hl'|exact H2].
Qed.
Print Assumptions C99_nested_partial.

(** ** The hypotheses can be met *)
(** A record with a list of dicts that is changed, rolled back, changed again and deleted; 4000 changes of it would fit. *)
Definition nested_calls : list step := [SIngest None [(lit "r", nested true 3); (lit "q", nested false 1)]; SCommit 5%Z; SIngest None [(lit "r", nested false 2)]; SRollback; SIngest (Some (lit "_id")) [(lit "r", nested false 4)]; SCommit 6%Z; SIngest None [(lit "r", [])]; SCommit 7%Z].
Example C99_nested_example : Forall (nested_step 168 780 1) nested_calls /\ clock_increasing 0 nested_calls /\ Forall call_ok nested_calls /\ count_of (commits nested_calls) = 3 /\
  66 + 1 + 168 + 4000 * (26 + 780 + 18 * 168) <= 16777216.
Proof.
  split; [|split; [cbn; lia|split; [|split; [reflexivity|vm_compute; discriminate]]]].
  - unfold nested_calls. repeat (apply Forall_cons || apply Forall_nil); cbn [nested_step]; try exact I; try (split; [lia|reflexivity]); repeat (apply Forall_cons || apply Forall_nil); (split; [vm_compute; discriminate|split; vm_compute; discriminate]).
  - unfold nested_calls. repeat (apply Forall_cons || apply Forall_nil); cbn [call_ok]; try exact I; (split; [apply nodup_within|]); repeat (apply Forall_cons || apply Forall_nil); try reflexivity; cbn [map fst]; repeat constructor; intros Q; repeat (destruct Q as [Q|Q]; [discriminate Q|]); exact Q.
Qed.
