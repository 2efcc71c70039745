(** Mongo.v describes what the code does on the documents of MongoDB (Bson.v). *)
From Coq Require Import String Ascii.
From Coq Require Import List ZArith NArith Bool Lia.
From Verif Require Import PyVal Diff DiffProofs Time Prepare Mongo Store MongoProofs MongoStore MongoMore Parser ParserTypes Bson.
Import ListNotations.
Local Open Scope string_scope.
Local Open Scope list_scope.
Local Open Scope nat_scope.

(** ** patch *)
(** diff never stores an empty list of keys or changes *)
Definition stored_op (o : diffop) : Prop := o_dd (dops o) <> Some [] /\ o_lc (dops o) <> Some [].
Lemma index_nat len i : index len (Z.of_nat i) = if i <? len then Some i else None.
Proof.
  unfold index. destruct (Z.ltb_spec (Z.of_nat i) 0) as [H|_]; [lia|]. cbv zeta. destruct (Z.leb_spec 0 (Z.of_nat i)) as [_|H]; [|lia]. cbn [andb].
  destruct (Z.ltb_spec (Z.of_nat i) (Z.of_nat len)), (Nat.ltb_spec i len); try lia; [rewrite Nat2Z.id|]; reflexivity.
Qed.
Lemma get_item_nat l i : get_item (VList l) (VInt (Z.of_nat i)) = nth_error l i.
Proof.
  cbn [get_item]. rewrite index_nat. destruct (Nat.ltb_spec i (length l)); [reflexivity|]. cbn [bind]. symmetry. apply nth_error_None. lia.
Qed.
Lemma lset_none {A} (l : list A) i x : length l <= i -> lset l i x = None.
Proof. revert i. induction l as [|y l IH]; intros i H; [reflexivity|]. destruct i; cbn [length] in H; [lia|]. cbn [lset]. rewrite IH by lia. reflexivity. Qed.
Lemma set_item_nat l i x : set_item (VList l) (VInt (Z.of_nat i)) x = option_map VList (lset l i x).
Proof.
  cbn [set_item]. rewrite index_nat. destruct (Nat.ltb_spec i (length l)); cbn [bind]; [destruct (lset l i x); reflexivity|]. rewrite lset_none by lia. reflexivity.
Qed.
Lemma fold_none {A} (f : value -> A -> option value) l : fold_left (fun t k => bind t (fun t => f t k)) l None = None.
Proof. induction l as [|x l IH]; [reflexivity|exact IH]. Qed.
Lemma del_all_dict ks : forall d, del_all (VDict d) (VList (map VStr ks)) = option_map VDict (del_keys d ks).
Proof.
  unfold del_all. induction ks as [|k ks IH]; intro d; [reflexivity|]. cbn [map fold_left bind del_item del_keys]. destruct (dmem d k); [apply IH|apply fold_none].
Qed.
Lemma set_all_list cs : forall l, set_all (VList l) (VList (map (fun c => VList [VInt (Z.of_nat (fst c)); snd c]) cs)) = option_map VList (set_items l cs).
Proof.
  unfold set_all. induction cs as [|[i v] cs IH]; intro l; [reflexivity|]. cbn [map fold_left bind fst snd set_items]. rewrite set_item_nat. destruct (lset l i v) as [l'|]; cbn [option_map]; [apply IH|].
  apply (fold_none (fun t c => match c with VList [i; v] => set_item t i v | _ => None end)).
Qed.
Lemma written_all dc dn dd lc ln ld : let o := write_ops (mkOps dc dn dd lc ln ld) in
  dget o (lit "dc") = option_map VDict dc /\ dget o (lit "dn") = option_map VDict dn /\ dget o (lit "dd") = option_map (fun ks => VList (map VStr ks)) dd /\
  dget o (lit "lc") = option_map (fun cs => VList (map (fun c => VList [VInt (Z.of_nat (fst c)); snd c]) cs)) lc /\
  dget o (lit "ln") = option_map VList ln /\ dget o (lit "ld") = option_map (fun n => VInt (Z.of_nat n)) ld.
Proof. cbv zeta. destruct dc, dn, dd, lc, ln, ld; repeat split; reflexivity. Qed.
Lemma run_op_apply o t : o_dd o <> Some [] -> o_lc o <> Some [] -> can_copy t = true -> run_op (write_ops o) t = apply_ops o t.
Proof.
  destruct o as [dc dn dd lc ln ld]. cbn [o_dd o_lc]. intros Hd Hl C. destruct (written_all dc dn dd lc ln ld) as (E1 & E2 & E3 & E4 & E5 & E6).
  unfold run_op, if_in. rewrite E1, E2, E3, E4, E5, E6. clear E1 E2 E3 E4 E5 E6. unfold apply_ops. cbn [o_dc o_dn o_dd o_lc o_ln o_ld].
  destruct t as [| | | | |l|d]; try discriminate.
  - destruct dc as [dc|]; [reflexivity|]. destruct dn as [dn|]; [reflexivity|]. cbn [option_map bind].
    destruct dd as [[|k ks]|]; [congruence|cbn; rewrite fold_none; reflexivity|]. cbn [option_map bind].
    destruct lc as [cs|]; cbn [option_map]; [rewrite set_all_list; destruct (set_items l cs) as [l1|]; [|reflexivity]|]; cbn [option_map bind];
    (destruct ln as [t|]; cbn [option_map bind extend_with]; (destruct ld as [n|]; cbn [option_map cut]; [|reflexivity]); destruct (Z.ltb_spec (Z.of_nat n) 0) as [H|_]; [lia| rewrite Nat2Z.id; reflexivity| lia | rewrite Nat2Z.id; reflexivity]).
  - destruct lc as [[|c cs]|].
    + congruence.
    + assert (N : forall t : value, (exists e, t = VDict e) -> set_all t (VList (map (fun c => VList [VInt (Z.of_nat (fst c)); snd c]) (c :: cs))) = None).
      { intros t (e & ->). unfold set_all. cbn [map fold_left bind set_item]. apply (fold_none (fun t c => match c with VList [i; v] => set_item t i v | _ => None end)). }
      cbn [option_map]. destruct dc as [dc|], dn as [dn|], dd as [ks|]; cbn [option_map bind update_with]; try rewrite del_all_dict; try (destruct (del_keys _ ks); cbn [option_map bind]; [|reflexivity]); rewrite N by eauto; reflexivity.
    + destruct ln as [t|]; [|destruct ld as [n|]];
      destruct dc as [dc|], dn as [dn|], dd as [ks|]; cbn [option_map bind update_with]; try rewrite del_all_dict; try (destruct (del_keys _ ks); cbn [option_map bind]; reflexivity); reflexivity.
Qed.
Lemma run_at_upd p o : o_dd o <> Some [] -> o_lc o <> Some [] -> forall v, can_copy v = true -> run_at (map write_key p) (write_ops o) v = upd_path p (apply_ops o) v.
Proof.
  intros Hd Hl. induction p as [|k p IH]; intros v C; [apply run_op_apply; assumption|]. cbn [map run_at upd_path].
  assert (S : forall c, can_copy c = false -> upd_path p (apply_ops o) c = None) by (intros c Hc; destruct p as [|[k0|i0] p]; destruct c; try discriminate; reflexivity).
  destruct k as [k|i]; destruct v as [| | | | |l|d]; try discriminate; try reflexivity.
  - cbn [write_key get_item]. destruct (dget d k) as [c|]; [|reflexivity]. cbn [bind]. destruct (can_copy c) eqn:Ec; [rewrite IH by exact Ec|rewrite S by exact Ec; reflexivity].
    destruct (upd_path p (apply_ops o) c); reflexivity.
  - cbn [write_key]. rewrite get_item_nat. destruct (nth_error l i) as [c|]; [|reflexivity]. cbn [bind]. destruct (can_copy c) eqn:Ec; [rewrite IH by exact Ec|rewrite S by exact Ec; reflexivity].
    destruct (upd_path p (apply_ops o) c) as [c'|]; [|reflexivity]. cbn [bind]. rewrite set_item_nat. destruct (lset l i c'); reflexivity.
Qed.
Lemma upd_can_copy p o v w : upd_path p (apply_ops o) v = Some w -> can_copy w = true.
Proof.
  destruct p as [|[k|i] p]; cbn [upd_path].
  - unfold apply_ops. destruct v as [| | | | |l|d]; try discriminate.
    + destruct (o_dc o), (o_dn o), (o_dd o); try discriminate. destruct (match o_lc o with Some cs => set_items l cs | None => Some l end); [|discriminate]. intro H. injection H as <-. reflexivity.
    + destruct (o_lc o), (o_ln o), (o_ld o); try discriminate. destruct (o_dd o); [destruct (del_keys _ _); [|discriminate]|]; intro H; injection H as <-; reflexivity.
  - destruct v; try discriminate. destruct (dget _ k); [|discriminate]. destruct (upd_path p _ _); [|discriminate]. intro H. injection H as <-. reflexivity.
  - destruct v; try discriminate. destruct (nth_error _ i); [|discriminate]. destruct (upd_path p _ _); [|discriminate]. destruct (lset _ _ _); [|discriminate]. intro H. injection H as <-. reflexivity.
Qed.
Lemma run_all_loop os : Forall stored_op os -> forall v, can_copy v = true -> run_all v (map write_diffop os) = patch_loop v os.
Proof.
  induction 1 as [|o os [H1 H2] _ IH]; intros v C; [reflexivity|]. cbn [map write_diffop run_all patch_loop]. rewrite run_at_upd by assumption.
  destruct (upd_path _ _ v) as [w|] eqn:E; [|reflexivity]. cbn [bind]. apply IH. exact (upd_can_copy _ _ _ _ E).
Qed.
Theorem patch_read_patch base os : Forall stored_op os -> patch_read base (write_changes os) = patch base os.
Proof.
  intro H. unfold write_changes, patch_read, patch. destruct os as [|o os]; [reflexivity|]. cbn [map]. change (write_diffop o :: map write_diffop os) with (map write_diffop (o :: os)). rewrite run_all_loop by (exact H || reflexivity). reflexivity.
Qed.
(** ** diff *)
Lemma compare_stored c o fu : compare c = (Some o, fu) -> stored_op o.
Proof.
  assert (N : forall {A} (l : list A), nonempty l <> Some []) by (intros A [|x l]; discriminate).
  unfold compare, stored_op. destruct c as [p l r|p l r].
  - destruct (dict_changes p l r) as [ch f]. destruct (ops_empty _); intro H; [discriminate|]. injection H as <- _. cbn [dops o_dd o_lc]. split; [apply N|discriminate].
  - destruct (list_changes p 0 l r) as [[[ch f] ln] ld]. destruct (ops_empty _); intro H; [discriminate|]. injection H as <- _. cbn [dops o_dd o_lc]. split; [discriminate|apply N].
Qed.
Lemma diff_stored b n : Forall stored_op (diff b n).
Proof.
  unfold diff. destruct (py_eqb _ _); [constructor|]. generalize (vsize (VDict b)), [CDict [] b n]. intros fuel q.
  assert (G : forall fuel q l, diff_loop fuel q = Some l -> Forall stored_op l).
  { clear. induction fuel as [|f IH]; intros [|c q] l H; cbn [diff_loop] in H; try discriminate; try (injection H as <-; constructor).
    destruct (compare c) as [o fu] eqn:E. destruct (diff_loop f (q ++ fu)) as [rest|] eqn:Er; [|discriminate]. injection H as <-. apply IH in Er. destruct o as [o|]; [|exact Er]. constructor; [exact (compare_stored _ _ _ E)|exact Er]. }
  destruct (diff_loop fuel q) as [l|] eqn:E; [exact (G _ _ _ E)|constructor].
Qed.

(** ** Documents *)
Definition write_diffs (l : list (Z * list diffop)) : dict := map (fun vd => (str_int (fst vd), write_changes (snd vd))) l.
(** A document of MongoDB that holds the record [d]: "diffs" may be missing if there are none. *)
Definition holds (raw : dict) (d : doc) : Prop :=
  exists x, raw = [(lit "id", VStr (d_id d)); (lit "data", VDict (d_data d)); (lit "version", write_version (d_ver d))] ++ x /\
    (x = [(lit "diffs", VDict (write_diffs (d_diffs d)))] \/ x = [] /\ d_diffs d = []).
Definition stored_doc (d : doc) : Prop := Forall (fun vd => Forall stored_op (snd vd)) (d_diffs d).

Definition rec_of (d : doc) : mrec := mkMrec (d_id d) (d_ver d) (d_data d) (write_diffs (d_diffs d)).
Lemma read_holds doc d : holds doc d -> read_doc doc = Some (rec_of d).
Proof.
  intros (x & -> & H). unfold read_doc, rec_of. destruct H as [->|[-> ->]]; destruct (d_ver d); reflexivity.
Qed.
Lemma str_int_eqb a b : str_eqb (str_int a) (str_int b) = Z.eqb a b.
Proof.
  destruct (Z.eqb_spec a b) as [->|N]; [apply str_eqb_refl|]. destruct (str_eqb (str_int a) (str_int b)) eqn:E; [|reflexivity]. apply str_eqb_eq, str_int_inj in E. contradiction.
Qed.
Lemma get_diffs l v : dget (write_diffs l) (str_int v) = option_map write_changes (zget l v).
Proof. induction l as [|[w os] l IH]; [reflexivity|]. cbn [write_diffs map dget zget fst snd]. rewrite str_int_eqb. destruct (Z.eqb v w); [reflexivity|exact IH]. Qed.
Lemma set_diffs l v os : dset (write_diffs l) (str_int v) (write_changes os) = write_diffs (zset l v os).
Proof. induction l as [|[w o] l IH]; [reflexivity|]. cbn [write_diffs map dset zset fst snd]. rewrite str_int_eqb. destruct (Z.eqb v w); [reflexivity|]. cbn [map fst snd]. f_equal. exact IH. Qed.
Lemma del_diffs l v : ddel (write_diffs l) (str_int v) = write_diffs (zdel l v).
Proof. induction l as [|[w o] l IH]; [reflexivity|]. cbn [write_diffs map ddel zdel fst snd]. rewrite str_int_eqb. destruct (Z.eqb v w); [reflexivity|]. cbn [map fst snd]. f_equal. exact IH. Qed.
Lemma isnil_diffs l : isnil (write_diffs l) = isnil l.
Proof. destruct l; reflexivity. Qed.
Lemma ints_diffs l : ints (dkeys (write_diffs l)) = Some (zkeys l).
Proof. induction l as [|[w o] l IH]; [reflexivity|]. cbn [write_diffs map dkeys ints fst]. rewrite int_str_int. cbn [bind]. unfold dkeys, write_diffs in IH. rewrite IH. reflexivity. Qed.
Lemma zget_stored l v os : Forall (fun vd => Forall stored_op (snd vd)) l -> zget l v = Some os -> Forall stored_op os.
Proof. induction 1 as [|[w o] l H _ IH]; cbn [zget]; [discriminate|]. destruct (Z.eqb v w); [intro E; injection E as <-; exact H|exact IH]. Qed.
(** model.py:96-111: the versions of the record *)
Lemma iter_read_doc d : stored_doc d -> iter_read (rec_of d) = iter_doc d.
Proof.
  intro S. unfold iter_read, iter_doc, rec_of. cbn [m_diffs m_data m_ver]. rewrite ints_diffs. cbn [bind]. f_equal. generalize (zsort_desc (zkeys (d_diffs d))), (d_data d). intro vs.
  induction vs as [|v vs IH]; intro base; [reflexivity|]. cbn [iter_read_from iter_diffs]. rewrite get_diffs. destruct (zget (d_diffs d) v) as [os|] eqn:E; [|reflexivity]. cbn [option_map bind].
  rewrite patch_read_patch by exact (zget_stored _ _ _ S E). destruct (patch base os) as [data|]; [|reflexivity]. cbn [bind]. rewrite IH. reflexivity.
Qed.
(** ** Operations *)
Definition wop_of (o : mop) : wop :=
  match o with
  | InsertOp id data => insert_one (id, data)
  | SetDataOp id data => UpdateOne id [(lit "data", VDict data)] []
  | ChangeOp id data v ch => change_one id data v ch
  | RevertOp id data v all => UpdateOne id [(lit "data", VDict data); (lit "version", VInt v)] [if all then lit "diffs" else diffs_field v]
  | Mongo.DeleteOp id => DeleteOne id
  end.
Definition stored_mop (o : mop) : Prop := match o with ChangeOp _ _ _ ch => Forall stored_op ch | _ => True end.
Lemma uint_digits u c : In c (uint_chars u) -> (48 <= c <= 57)%N.
Proof. induction u; cbn [uint_chars In]; intros [<-|H] || intros []; try lia; auto. Qed.
Lemma str_int_dotless z : dotless (str_int z).
Proof.
  unfold dotless, str_int, dot. destruct z as [|p|p]; cbn [In]; intro H; [apply uint_digits in H; lia|apply uint_digits in H; lia|]. destruct H as [H|H]; [discriminate|apply uint_digits in H; lia].
Qed.
Lemma split_diffs v : split (diffs_field v) = [lit "diffs"; str_int v].
Proof. unfold diffs_field. change (lit "diffs." ++ str_int v) with (dotted (lit "diffs") (str_int v)). rewrite split_dotted, (split_dotless (str_int v)) by apply str_int_dotless. reflexivity. Qed.
Lemma holds_id doc d id : holds doc d -> has_id id doc = str_eqb (d_id d) id.
Proof. intros (x & -> & _). reflexivity. Qed.
Lemma holds_none doc d : holds doc d -> is_none doc = is_pending d.
Proof. intros (x & -> & _). unfold is_none, is_pending. destruct (d_ver d); reflexivity. Qed.
Lemma set_change doc d id data v ch : holds doc d -> d_id d = id ->
  exists doc', update_doc [(lit "data", VDict data); (lit "version", VNone); (diffs_field v, write_changes ch)] [] doc = Some doc' /\ holds doc' (mkDoc (d_id d) None data (zset (d_diffs d) v ch)).
Proof.
  intros (x & -> & H) _. unfold update_doc, set_fields. cbn [fold_left fst snd bind]. rewrite split_diffs.
  destruct H as [->|[-> Hn]].
  - change (split (lit "data")) with [lit "data"]. change (split (lit "version")) with [lit "version"]. cbn -[write_diffs write_changes str_int]. rewrite set_diffs. cbn -[write_diffs write_changes str_int]. eexists. split; [reflexivity|]. eexists. split; [reflexivity|]. left. reflexivity.
  - change (split (lit "data")) with [lit "data"]. change (split (lit "version")) with [lit "version"]. cbn -[write_diffs write_changes str_int]. eexists. split; [reflexivity|]. eexists. split; [reflexivity|]. left. cbn [d_diffs]. rewrite Hn. reflexivity.
Qed.
Lemma set_data doc d data : holds doc d -> exists doc', update_doc [(lit "data", VDict data)] [] doc = Some doc' /\ holds doc' (mkDoc (d_id d) (d_ver d) data (d_diffs d)).
Proof.
  intros (x & -> & H). exists ([(lit "id", VStr (d_id d)); (lit "data", VDict data); (lit "version", write_version (d_ver d))] ++ x). split; [reflexivity|]. exists x. split; [reflexivity|exact H].
Qed.
Lemma set_version doc d v : holds doc d -> exists doc', update_doc [(lit "version", VInt v)] [] doc = Some doc' /\ holds doc' (mkDoc (d_id d) (Some v) (d_data d) (d_diffs d)).
Proof.
  intros (x & -> & H). exists ([(lit "id", VStr (d_id d)); (lit "data", VDict (d_data d)); (lit "version", VInt v)] ++ x). split; [reflexivity|]. exists x. split; [reflexivity|exact H].
Qed.
Lemma set_revert doc d data v (all : bool) : holds doc d ->
  exists doc', update_doc [(lit "data", VDict data); (lit "version", VInt v)] [if all then lit "diffs" else diffs_field v] doc = Some doc' /\ holds doc' (mkDoc (d_id d) (Some v) data (if all then [] else zdel (d_diffs d) v)).
Proof.
  intros (x & -> & H). unfold update_doc, set_fields, unset_fields. cbn [fold_left fst snd bind]. change (split (lit "data")) with [lit "data"]. change (split (lit "version")) with [lit "version"].
  destruct all.
  - change (split (lit "diffs")) with [lit "diffs"]. destruct H as [->|[-> Hn]]; cbn -[write_diffs]; (eexists; split; [reflexivity|]); exists []; (split; [reflexivity|right; split; reflexivity]).
  - rewrite split_diffs. destruct H as [->|[-> Hn]].
    + cbn -[write_diffs str_int]. rewrite del_diffs. eexists. split; [reflexivity|]. eexists. split; [reflexivity|]. left. reflexivity.
    + cbn -[write_diffs str_int]. eexists. split; [reflexivity|]. exists []. split; [reflexivity|]. right. rewrite Hn. split; reflexivity.
Qed.
(** ** The collections *)
Section Sim.
(** [good] documents are accepted, and the operations leave only such. *)
Variables (accepts : dict -> bool) (good : doc -> Prop) (good_mop : mop -> Prop) (good_rec : pystr * dict -> Prop) (good_ver : Z -> Prop).
Hypothesis Hacc : forall raw d, holds raw d -> good d -> accepts raw = true.
Hypothesis Happ : forall c o, Forall good c -> good_mop o -> Forall good (apply_mop c o).
Hypothesis Hchunk : forall mf c chunk os, Forall good c -> Forall good_rec chunk -> chunk_ops mf c chunk = Some os -> Forall good_mop os.
Hypothesis Hroll : forall c os, Forall good c -> rollback_ops c = Some os -> Forall good_mop os.
Hypothesis Hcommit : forall v d, good_ver v -> good d -> good (commit_doc v d).
(** The collections hold the same. *)
Definition same_coll (docs : list dict) (c : coll) : Prop := Forall2 holds docs c /\ Forall stored_doc c /\ Forall good c.
Lemma update_first_holds id sets unsets (f : doc -> doc) docs c : Forall2 holds docs c -> Forall good (upd_first c id f) ->
  (forall doc d, holds doc d -> d_id d = id -> exists doc', update_doc sets unsets doc = Some doc' /\ holds doc' (f d)) ->
  exists docs', update_first accepts id sets unsets docs = Some docs' /\ Forall2 holds docs' (upd_first c id f).
Proof.
  intros H G U. induction H as [|doc d docs c H HF IH]; [exists []; split; [reflexivity|constructor]|]. cbn [update_first upd_first] in *. rewrite (holds_id _ _ id H). destruct (str_eqb (d_id d) id) eqn:E.
  - apply str_eqb_eq in E. destruct (U doc d H E) as (doc' & -> & Hd). cbn [bind]. inversion G as [|? ? G1 G2]; subst. rewrite (Hacc _ _ Hd G1). eexists. split; [reflexivity|]. constructor; assumption.
  - inversion G as [|? ? G1 G2]; subst. destruct (IH G2) as (docs' & -> & Hd). cbn [bind]. eexists. split; [reflexivity|]. constructor; assumption.
Qed.
Lemma delete_first_holds id docs c : Forall2 holds docs c -> Forall2 holds (delete_first id docs) (del_first c id).
Proof. induction 1 as [|doc d docs c H HF IH]; [constructor|]. cbn [delete_first del_first]. rewrite (holds_id _ _ id H). destruct (str_eqb (d_id d) id); [exact HF|constructor; assumption]. Qed.
Lemma upd_first_stored id (f : doc -> doc) c : Forall stored_doc c -> (forall d, stored_doc d -> stored_doc (f d)) -> Forall stored_doc (upd_first c id f).
Proof. intros H F. induction H as [|d c H HF IH]; [constructor|]. cbn [upd_first]. destruct (str_eqb (d_id d) id); constructor; auto. Qed.
Lemma zset_stored l v ch : Forall (fun vd => Forall stored_op (snd vd)) l -> Forall stored_op ch -> Forall (fun vd : Z * list diffop => Forall stored_op (snd vd)) (zset l v ch).
Proof. intros H C. induction H as [|[w o] l H HF IH]; [repeat constructor; exact C|]. cbn [zset]. destruct (Z.eqb v w); constructor; auto. Qed.
Lemma zdel_stored l v : Forall (fun vd => Forall stored_op (snd vd)) l -> Forall (fun vd : Z * list diffop => Forall stored_op (snd vd)) (zdel l v).
Proof. intro H. induction H as [|[w o] l H HF IH]; [constructor|]. cbn [zdel]. destruct (Z.eqb v w); [exact HF|constructor; auto]. Qed.
Lemma apply_wop_same docs c o : same_coll docs c -> stored_mop o -> good_mop o -> exists docs', apply_wop accepts docs (wop_of o) = Some docs' /\ same_coll docs' (apply_mop c o).
Proof.
  intros (H & S & G) So Go. pose proof (Happ c o G Go) as GA. destruct o as [id data|id data|id data v ch|id data v all|id]; cbn [wop_of apply_wop apply_mop stored_mop] in *.
  - exists (docs ++ [[(lit "id", VStr id); (lit "data", VDict data); (lit "version", VNone)]]). assert (Hn : holds [(lit "id", VStr id); (lit "data", VDict data); (lit "version", VNone)] (mkDoc id None data [])) by (exists []; split; [reflexivity|right; split; reflexivity]). split; [|split; [|split]].
    + unfold insert_one, apply_wop. cbn [fst snd]. apply Forall_app in GA. destruct GA as [_ GA]. inversion GA as [|? ? GA1 _]; subst. rewrite (Hacc _ _ Hn GA1). reflexivity.
    + apply Forall2_app; [exact H|]. constructor; [exact Hn|constructor].
    + apply Forall_app. split; [exact S|]. repeat constructor.
    + exact GA.
  - destruct (update_first_holds id [(lit "data", VDict data)] [] (fun d => mkDoc (d_id d) (d_ver d) data (d_diffs d)) docs c H GA) as (docs' & E & F); [intros doc d Hd _; apply set_data, Hd|].
    exists docs'. split; [exact E|]. split; [exact F|]. split; [|exact GA]. apply upd_first_stored; auto.
  - destruct (update_first_holds id [(lit "data", VDict data); (lit "version", VNone); (diffs_field v, write_changes ch)] [] (fun d => mkDoc (d_id d) None data (zset (d_diffs d) v ch)) docs c H GA) as (docs' & E & F); [intros doc d Hd E; exact (set_change doc d id data v ch Hd E)|].
    exists docs'. split; [exact E|]. split; [exact F|]. split; [|exact GA]. apply upd_first_stored; [exact S|]. intros d Hd. apply zset_stored; assumption.
  - destruct (update_first_holds id [(lit "data", VDict data); (lit "version", VInt v)] [if all then lit "diffs" else diffs_field v] (fun d => mkDoc (d_id d) (Some v) data (if all then [] else zdel (d_diffs d) v)) docs c H GA) as (docs' & E & F); [intros doc d Hd _; apply set_revert, Hd|].
    exists docs'. split; [exact E|]. split; [exact F|]. split; [|exact GA]. apply upd_first_stored; [exact S|]. intros d Hd. destruct all; [constructor|apply zdel_stored, Hd].
  - exists (delete_first id docs). split; [reflexivity|]. split; [apply delete_first_holds, H|]. split; [|exact GA]. clear H G GA. induction S as [|d c Hd HF IH]; [constructor|]. cbn [del_first]. destruct (str_eqb (d_id d) id); [exact HF|constructor; assumption].
Qed.
Lemma apply_wops_same os : Forall stored_mop os -> Forall good_mop os -> forall docs c, same_coll docs c -> exists docs', apply_wops accepts docs (map wop_of os) = Some docs' /\ same_coll docs' (apply_mops c os).
Proof.
  induction 1 as [|o os Ho _ IH]; intros Go docs c H; [exists docs; split; [reflexivity|exact H]|]. inversion Go as [|? ? Go1 Go2]; subst. destruct (apply_wop_same docs c o H Ho Go1) as (docs1 & E & H1). destruct (IH Go2 docs1 _ H1) as (docs2 & E2 & H2).
  exists docs2. split; [|exact H2]. cbn [map apply_wops]. rewrite E. exact E2.
Qed.
(** ** Ingesting *)
Lemma rec_changes_stored mf new old : Forall stored_op (fst (fst (rec_changes mf new old))).
Proof.
  unfold rec_changes. destruct mf as [f|]; [|apply diff_stored]. destruct (dmem new f && dmem old f); [|apply diff_stored]. cbn [fst]. destruct (isnil _); [constructor|apply diff_stored].
Qed.
Lemma revert_rec d : stored_doc d ->
  revert_read (rec_of d) = match revert_doc d with
    | Some d' => match d_ver d' with
        | Some v => Some (rec_of d', [(lit "data", VDict (d_data d')); (lit "version", VInt v)], [if isnil (d_diffs d') then lit "diffs" else diffs_field v])
        | None => None end
    | None => None end.
Proof.
  intro S. unfold revert_read, revert_doc, rec_of. cbn [m_ver m_diffs m_data m_id]. destruct (d_ver d) as [z|]; [reflexivity|]. rewrite ints_diffs. cbn [bind]. destruct (zsort_desc (zkeys (d_diffs d))) as [|v vs]; [reflexivity|].
  rewrite get_diffs. destruct (zget (d_diffs d) v) as [os|] eqn:E; [|reflexivity]. cbn [option_map bind]. rewrite patch_read_patch by exact (zget_stored _ _ _ S E). destruct (patch (d_data d) os) as [data|]; [|reflexivity]. cbn [bind d_ver d_data d_diffs d_id].
  rewrite del_diffs, isnil_diffs. reflexivity.
Qed.
Lemma revert_stored d d' : stored_doc d -> revert_doc d = Some d' -> stored_doc d'.
Proof.
  intro S. unfold revert_doc. destruct (d_ver d); [discriminate|]. destruct (zsort_desc _) as [|v vs]; [discriminate|]. destruct (zget _ v); [|discriminate]. destruct (patch _ _); [|discriminate]. cbn [bind]. intro H. injection H as <-. apply zdel_stored, S.
Qed.
Lemma with_data_sets data v data' : with_data [(lit "data", VDict data); (lit "version", VInt v)] data' = [(lit "data", VDict data'); (lit "version", VInt v)].
Proof. reflexivity. Qed.
Lemma read_op_same mf r e : match e with Some d => stored_doc d | None => True end ->
  read_op mf r (option_map rec_of e) = option_map (option_map wop_of) (rec_op mf r e).
Proof.
  intro S. destruct e as [d|]; cbn [option_map read_op rec_op].
  - cbn [rec_of m_ver m_diffs m_data]. destruct (d_ver d) as [v|] eqn:Ev.
    + destruct (rec_changes mf (snd r) (d_data d)) as [[ch new'] old']. destruct (isnil ch); reflexivity.
    + rewrite isnil_diffs. destruct (isnil (d_diffs d)).
      * destruct (p_del r); [reflexivity|]. destruct (isnil (diff (snd r) (d_data d))); reflexivity.
      * rewrite (revert_rec d S). destruct (revert_doc d) as [d'|]; [|reflexivity]. destruct (d_ver d') as [v|] eqn:Ev'; cbn [bind].
        -- cbn [rec_of m_data m_ver m_id]. destruct (rec_changes mf (snd r) (d_data d')) as [[ch new'] old']. rewrite Ev'. destruct (isnil ch); [|reflexivity]. cbn [option_map]. unfold revert_op. rewrite Ev'. cbn [option_map wop_of]. rewrite with_data_sets. reflexivity.
        -- destruct (rec_changes mf (snd r) (d_data d')) as [[ch new'] old']. reflexivity.
  - destruct (p_del r); [reflexivity|]. destruct r; reflexivity.
Qed.
Lemma rec_op_stored mf r e o : rec_op mf r e = Some (Some o) -> stored_mop o.
Proof.
  unfold rec_op. destruct e as [d|].
  - destruct (d_ver d) as [v|].
    + pose proof (rec_changes_stored mf (snd r) (d_data d)) as R. destruct (rec_changes mf (snd r) (d_data d)) as [[ch new'] old']. destruct (isnil ch); [discriminate|]. intro H. injection H as <-. exact R.
    + destruct (isnil (d_diffs d)).
      * destruct (p_del r); [intro H; injection H as <-; exact I|]. destruct (isnil _); [discriminate|]. intro H. injection H as <-. exact I.
      * destruct (revert_doc d) as [d'|]; [|discriminate]. pose proof (rec_changes_stored mf (snd r) (d_data d')) as R. destruct (rec_changes mf (snd r) (d_data d')) as [[ch new'] old']. destruct (d_ver d') as [v|] eqn:Ev; [|discriminate].
        destruct (isnil ch); [unfold revert_op; rewrite Ev|]; intro H; injection H as <-; [exact I|exact R].
  - destruct (p_del r); [discriminate|]. intro H. injection H as <-. exact I.
Qed.
Lemma find_same docs c id : Forall2 holds docs c -> match find (has_id id) docs, find (fun d => str_eqb (d_id d) id) c with Some doc, Some d => holds doc d | None, None => True | _, _ => False end.
Proof. induction 1 as [|doc d docs c H HF IH]; [exact I|]. cbn [find]. rewrite (holds_id _ _ id H). destruct (str_eqb (d_id d) id); [exact H|exact IH]. Qed.
Lemma rev_holds docs c : Forall2 holds docs c -> Forall2 holds (rev docs) (rev c).
Proof. induction 1 as [|doc d docs c H HF IH]; [constructor|]. cbn [rev]. apply Forall2_app; [exact IH|constructor; [exact H|constructor]]. Qed.
Lemma find_read_same docs c id : same_coll docs c -> find_read docs id = Some (option_map rec_of (find_last c id)) /\ match find_last c id with Some d => stored_doc d | None => True end.
Proof.
  intros (H & S & _). unfold find_read, find_last. pose proof (find_same _ _ id (rev_holds _ _ H)) as F. destruct (find (has_id id) (rev docs)) as [doc|], (find (fun d => str_eqb (d_id d) id) (rev c)) as [d|] eqn:E; try contradiction.
  - rewrite (read_holds _ _ F). split; [reflexivity|]. apply find_some in E. rewrite Forall_forall in S. apply S. rewrite in_rev. apply E.
  - split; [reflexivity|exact I].
Qed.
Lemma read_ops_same mf docs c rs : same_coll docs c -> read_ops mf docs rs = option_map (map wop_of) (map_ops mf c rs) /\ forall os, map_ops mf c rs = Some os -> Forall stored_mop os.
Proof.
  intro H. induction rs as [|r rs [IH1 IH2]]; [split; [reflexivity|intros os E; injection E as <-; constructor]|]. cbn [read_ops map_ops].
  destruct (find_read_same docs c (fst r) H) as [-> S]. cbn [bind]. rewrite (read_op_same mf r _ S). destruct (rec_op mf r (find_last c (fst r))) as [o|] eqn:Er; [|split; [reflexivity|discriminate]].
  cbn [option_map bind]. rewrite IH1. destruct (map_ops mf c rs) as [l|]; [|split; [reflexivity|discriminate]]. cbn [option_map bind]. split; [destruct o; reflexivity|]. intros os E. injection E as <-. specialize (IH2 l eq_refl).
  destruct o as [o|]; [|exact IH2]. constructor; [exact (rec_op_stored _ _ _ _ Er)|exact IH2].
Qed.
Lemma forallb_ext {A} (f g : A -> bool) l : (forall x, f x = g x) -> forallb f l = forallb g l.
Proof. intro H. induction l as [|x l IH]; [reflexivity|]. cbn. rewrite H, IH. reflexivity. Qed.
Lemma read_chunk_same mf docs c chunk : same_coll docs c -> read_chunk mf docs chunk = option_map (map wop_of) (chunk_ops mf c chunk) /\ forall os, chunk_ops mf c chunk = Some os -> Forall stored_mop os.
Proof.
  intro H. unfold read_chunk, chunk_ops.
  rewrite (forallb_ext _ (fun r => match find_last c (fst r) with None => true | _ => false end)).
  - destruct (forallb _ _).
    + cbn [option_map]. split; [f_equal; rewrite map_map; apply map_ext; intros [i d]; reflexivity|]. intros os E. injection E as <-. apply Forall_forall. intros x Hx. apply in_map_iff in Hx. destruct Hx as (r & <- & _). exact I.
    + apply read_ops_same, H.
  - intro r. unfold find_last. destruct H as (H & _ & _). pose proof (find_same _ _ (fst r) (rev_holds _ _ H)) as F. destruct (find (has_id (fst r)) (rev docs)), (find (fun d => str_eqb (d_id d) (fst r)) (rev c)); try contradiction; reflexivity.
Qed.
Lemma apply_mops_app c a b : apply_mops c (a ++ b) = apply_mops (apply_mops c a) b.
Proof. unfold apply_mops. apply fold_left_app. Qed.
Lemma read_loop_same size mf chunks : Forall (Forall good_rec) chunks -> forall docs c pend, same_coll docs c -> Forall stored_mop pend -> Forall good_mop pend ->
  match ingest_loop size mf c pend chunks with
  | Some l => Forall stored_mop l /\ exists docs', read_loop accepts size mf docs (map wop_of pend) chunks = Some docs' /\ same_coll docs' (apply_mops c l)
  | None => read_loop accepts size mf docs (map wop_of pend) chunks = None
  end.
Proof.
  induction 1 as [|ch rest Hch _ IH]; intros docs c pend H P Gp; cbn [ingest_loop read_loop].
  - split; [exact P|apply apply_wops_same; assumption].
  - destruct (read_chunk_same mf docs c ch H) as [-> S]. destruct (chunk_ops mf c ch) as [os|] eqn:Eos; [|reflexivity]. specialize (S os eq_refl). pose proof (Hchunk mf c ch os (proj2 (proj2 H)) Hch Eos) as Gos. cbn [option_map bind]. rewrite <- map_app, map_length.
    set (n := Nat.div (length (pend ++ os)) size * size). rewrite firstn_map, skipn_map.
    assert (B : Forall stored_mop (pend ++ os)) by (apply Forall_app; split; assumption).
    rewrite <- (firstn_skipn n (pend ++ os)) in B. apply Forall_app in B. destruct B as [B1 B2].
    assert (D : Forall good_mop (pend ++ os)) by (apply Forall_app; split; assumption).
    rewrite <- (firstn_skipn n (pend ++ os)) in D. apply Forall_app in D. destruct D as [D1 D2].
    destruct (apply_wops_same _ B1 D1 docs c H) as (docs' & -> & H'). cbn [bind]. specialize (IH docs' _ (skipn n (pend ++ os)) H' B2 D2).
    destruct (ingest_loop size mf (apply_mops c (firstn n (pend ++ os))) (skipn n (pend ++ os)) rest) as [l|]; [|exact IH]. cbn [bind]. destruct IH as (L & docs2 & E2 & H2).
    split; [apply Forall_app; split; assumption|]. exists docs2. split; [exact E2|]. rewrite apply_mops_app. exact H2.
Qed.
Definition same_result (x : option (list dict)) (y : option coll) : Prop :=
  match x, y with Some docs, Some c => same_coll docs c | None, None => True | _, _ => False end.
Lemma partition_good (P : pystr * dict -> Prop) recs size : 0 < size -> Forall P recs -> Forall (Forall P) (partition recs size).
Proof.
  intros Sz H. rewrite <- (partition_concat recs size Sz) in H. induction (partition recs size) as [|ch l IH]; [constructor|]. cbn [concat] in H. apply Forall_app in H. destruct H as [H1 H2]. constructor; [exact H1|exact (IH H2)].
Qed.
Lemma ingest_same size mf docs c recs : 0 < size -> Forall good_rec recs -> same_coll docs c -> same_result (ingest_read accepts size mf docs recs) (ingest size mf c recs).
Proof.
  intros Sz Gr H. unfold ingest_read, ingest, ingest_ops. pose proof (read_loop_same size mf (partition recs size) (partition_good _ _ _ Sz Gr) docs c [] H (Forall_nil _) (Forall_nil _)) as R. cbn [map] in R.
  destruct (ingest_loop size mf c [] (partition recs size)) as [l|]; [destruct R as (_ & docs' & -> & R); exact R|rewrite R; exact I].
Qed.
(** ** Rolling back, committing *)
Lemma rollback_op_same doc d : holds doc d -> stored_doc d -> is_pending d = true -> rollback_read_op doc = option_map wop_of (rollback_op d).
Proof.
  intros H S P. unfold rollback_read_op, rollback_op. rewrite (read_holds _ _ H). cbn [bind rec_of m_diffs m_id]. rewrite isnil_diffs. destruct (isnil (d_diffs d)); [reflexivity|].
  change (mkMrec (d_id d) (d_ver d) (d_data d) (write_diffs (d_diffs d))) with (rec_of d). rewrite (revert_rec d S). destruct (revert_doc d) as [d'|]; [|reflexivity]. unfold revert_op. destruct (d_ver d') as [v|]; reflexivity.
Qed.
Lemma rollback_ops_same docs c : same_coll docs c -> rollback_read_ops (filter is_none docs) = option_map (map wop_of) (rollback_ops c) /\ forall os, rollback_ops c = Some os -> Forall stored_mop os.
Proof.
  intros (H & S & _). unfold rollback_ops. induction H as [|doc d docs c H HF IH]; [split; [reflexivity|intros os E; injection E as <-; constructor]|]. inversion S as [|? ? S1 S2]; subst. specialize (IH S2). cbn [filter]. rewrite (holds_none _ _ H). destruct (is_pending d) eqn:P; [|exact IH].
  cbn [rollback_read_ops rollback_ops_of]. rewrite (rollback_op_same _ _ H S1 P). destruct IH as [IH1 IH2]. destruct (rollback_op d) as [o|] eqn:Eo; [|split; [reflexivity|discriminate]]. cbn [option_map bind]. rewrite IH1. destruct (rollback_ops_of (filter is_pending c)) as [l|]; [|split; [reflexivity|discriminate]].
  cbn [option_map bind]. split; [reflexivity|]. intros os E. injection E as <-. constructor; [|exact (IH2 l eq_refl)]. unfold rollback_op, revert_op in Eo. destruct (isnil (d_diffs d)); [injection Eo as <-; exact I|]. destruct (revert_doc d) as [d'|]; [|discriminate]. destruct (d_ver d'); [|discriminate]. injection Eo as <-. exact I.
Qed.
Lemma rollback_same docs c : same_coll docs c -> same_result (rollback_read accepts docs) (rollback c).
Proof.
  intro H. unfold rollback_read, rollback. destruct (rollback_ops_same docs c H) as [-> S]. destruct (rollback_ops c) as [os|] eqn:Eos; [|exact I]. cbn [option_map bind]. destruct (apply_wops_same os (S os eq_refl) (Hroll c os (proj2 (proj2 H)) Eos) docs c H) as (docs' & -> & H'). exact H'.
Qed.
Lemma commit_same v docs c : good_ver v -> same_coll docs c -> same_result (commit_read accepts v docs) (Some (commit_data v c)).
Proof.
  intros Gv (H & S & G). induction H as [|doc d docs c H HF IH]; [split; [|split]; constructor|]. inversion S as [|? ? S1 S2]; subst. inversion G as [|? ? G1 G2]; subst. specialize (IH S2 G2). pose proof (Hcommit v d Gv G1) as Gc.
  cbn [commit_read commit_data map]. rewrite (holds_none _ _ H). unfold commit_doc in Gc. unfold is_pending, commit_doc at 1.
  destruct (commit_read accepts v docs) as [docs'|] eqn:E; [|destruct IH]. destruct IH as (I1 & I2 & I3). destruct (d_ver d) as [z|] eqn:Ev.
  - cbn [bind]. split; [|split]; constructor; assumption.
  - destruct (set_version doc d v H) as (doc' & -> & H'). cbn [bind]. rewrite (Hacc _ _ H' Gc). cbn [bind]. split; [|split]; constructor; assumption.
Qed.
Definition good_step (s : step) : Prop := match s with SIngest _ recs => Forall good_rec recs | SCommit v => good_ver v | SRollback => True end.
Lemma step_same s docs c : good_step s -> same_coll docs c -> same_result (read_step accepts docs s) (run_step c s).
Proof. intros G H. destruct s as [mf recs|v|]; [apply ingest_same; [unfold INGEST_SIZE; lia|exact G|exact H]|apply commit_same; assumption|apply rollback_same, H]. Qed.
Theorem run_same ss : Forall good_step ss -> forall docs c, same_coll docs c -> same_result (read_run accepts docs ss) (run c ss).
Proof.
  induction 1 as [|s ss Hs _ IH]; intros docs c H; [exact H|]. cbn [read_run run]. pose proof (step_same s docs c Hs H) as R. destruct (read_step accepts docs s) as [docs'|], (run_step c s) as [c'|]; try contradiction; [apply IH, R|exact I].
Qed.
End Sim.
