(** Properties C35, C36, C38, C62: parsing values and rebuilding data. *)
From Coq Require Import String Ascii.
From Coq Require Import List ZArith NArith Bool Lia Permutation.
From Coq Require Import Floats.SpecFloat.
From Verif Require Import PyVal Time Prepare PrepareProofs PropsPrepare Parser ParserProofs ParserTypes ParserEq.
Import ListNotations.
Open Scope string_scope.
Open Scope list_scope.
Open Scope nat_scope.

(** ** The keys of prepared records *)
Lemma prepared_keys db pad v : db_ok db -> forall k, key_in k (prepare_data db pad v) -> clean_field_name db k.
Proof.
  intros Hdb. induction v as [|s|b|z|f|d IH|l IH|t|d|s] using pyobj_ind'; intros k K; try (cbn in K; inversion K; fail).
  - cbn [prepare_data] in K. assert (Q : forall k v, In (k, v) (dict_of (map (fun kv => (prepare_field_name db (fst kv), prepare_data db pad (snd kv))) d)) -> clean_field_name db k /\ forall k', key_in k' v -> clean_field_name db k').
    { intros k0 v0 H. unfold dict_of in H. apply In_dupdate in H. destruct H as [[]|H]. apply in_map_iff in H. destruct H as ([k1 v1] & E & H). injection E as <- <-. split; [apply clean_field_name_ok, Hdb|]. rewrite Forall_forall in IH. exact (IH _ H). }
    inversion K as [d' v' H|d' k' v' H H'|]; subst; [exact (proj1 (Q _ _ H))|exact (proj2 (Q _ _ H) _ H')].
  - cbn [prepare_data] in K. inversion K as [| |l' v' H H']; subst. apply in_map_iff in H. destruct H as (x & <- & H). rewrite Forall_forall in IH. exact (IH _ H _ H').
Qed.
Lemma id_clean db : db_ok db -> clean_field_name db DATA_ID.
Proof.
  intro Hdb. split; [discriminate|]. split; [intros c Hc; apply (db_char db Hdb); cbn in *; intuition|]. split; [cbn; intuition discriminate|]. split; [intros c r0 E; injection E as <- _; apply (db_char db Hdb); cbn; auto|]. split; [|reflexivity].
  intros c r0 E. assert (Ec : c = last (r0 ++ [c]) 0%N) by (rewrite last_last; reflexivity). rewrite <- E in Ec. cbn in Ec. subst c. apply (db_char db Hdb). cbn. intuition.
Qed.
Lemma record_keys db pad r : db_ok db -> forall k, key_in k (VDict (prepare_record_data db pad r)) -> clean_field_name db k.
Proof.
  intros Hdb k K. unfold prepare_record_data in K. destruct (is_delete r); [inversion K as [d v H0|d k' v H0 H1|]; subst; destruct H0|]. pose proof (prepared_keys db pad (ODict (r_data r)) Hdb) as Q. cbn [prepare_data] in *. set (dd := dict_of _) in *.
  inversion K as [d v H|d k' v H H'|]; subst.
  - apply In_dset in H. destruct H as [H|[H|[H _]]]; [injection H as -> _; exact (id_clean db Hdb)|exact (Q _ (key_here _ _ _ H))|cbn in H; subst k; exact (id_clean db Hdb)].
  - apply In_dset in H. destruct H as [H|[H|[_ H]]]; [injection H as -> ->|exact (Q _ (key_dict _ _ _ _ H H'))|cbn in H; subst v]; inversion H'.
Qed.
Lemma clean_kept db k : clean_field_name db k -> kept k = true.
Proof.
  intros (_ & _ & _ & _ & _ & H). unfold kept, starts_underscore. destruct k as [|c r]; [reflexivity|]. destruct (N.eqb_spec c 95) as [->|Nc]; [|reflexivity]. rewrite (H r eq_refl). reflexivity.
Qed.
Lemma keys_fine v : (forall k, key_in k v -> kept k = true) -> fine v.
Proof.
  induction v as [|b|z|f|x|l IH|d IH] using value_ind'; intro H; try exact I.
  - apply fine_list. rewrite Forall_forall in *. intros x Hx. apply IH; [exact Hx|]. intros k K. apply H. exact (key_list k l x Hx K).
  - apply fine_dict. rewrite !Forall_forall in *. split; [intros [k v] K; apply H; exact (key_here k d v K)|]. intros [k v] K. apply IH; [exact K|]. intros k' K'. apply H. exact (key_dict k' d k v K K').
Qed.
Lemma record_fine db pad r : db_ok db -> Forall (fun kv => fine (snd kv)) (prepare_record_data db pad r).
Proof.
  intro Hdb. apply Forall_forall. intros [k v] K. apply keys_fine. intros k' K'. apply (clean_kept db), (record_keys db pad r Hdb). exact (key_dict k' _ k v K K').
Qed.
Lemma record_wf db pad r : wfd (prepare_record_data db pad r).
Proof. apply (C08_id_always_set db pad r). Qed.

(** ** C35 *)
(** A library for examples: nothing is geometry or a date, lower is the identity. *)
Definition ex_lib : lib := Lib (fun s => s) (fun _ _ => lit "1.5") (fun _ => None) (fun _ _ => None) (fun _ => None) (fun _ => None) (fun _ => false) (fun _ _ _ _ => None).
Definition ex_opts : options := Opts [lit "yes"] [lit "no"] [] [] 8191 (lit "{0:.15g}").
Definition ex_record : record := Rec (lit "r1") [(KS (lit "a"), OSeq [OStr (lit "x"); OInt 3; ONone]); (KS (lit "b"), ODict [(KS (lit "c"), OBool true); (KS (lit "_id"), OStr [])])].
Definition lossy_record : record := Rec (lit "r1") [(KS (lit "a"), OSeq [OStr []; OInt 3]); (KS (lit "b"), ODict [(KS (lit "c"), OSeq [])])].

(** C35, as stated, is false: empty strings in lists come back as None and empty lists and dicts vanish. *)
Theorem C35_rebuild_refuted : exists db pad rec o L r, db_ok db /\ parse L o (prepare_record_data db pad rec) = Some r /\
  py_eqb (VDict (rebuild_data (p_parsed r))) (VDict (prepare_record_data db pad rec)) = false /\
  rebuild_data (p_parsed r) = [(lit "a", VList [VNone; VInt 3]); (lit "b", VDict []); (lit "_id", VStr (lit "r1"))] /\
  prepare_record_data db pad rec = [(lit "a", VList [VStr []; VInt 3]); (lit "b", VDict [(lit "c", VList [])]); (lit "_id", VStr (lit "r1"))].
Proof.
  exists ascii_db, false, lossy_record, ex_opts, ex_lib. eexists. split; [exact ascii_db_ok|]. split; [vm_compute; reflexivity|]. split; [vm_compute; reflexivity|]. split; vm_compute; reflexivity.
Qed.
Print Assumptions C35_rebuild_refuted.
(** What rebuilding gives for every prepared record, under any options and library behaviour: the record
    without what [forget] removes, keys in the same order. *)
Theorem C35_rebuild_forgets : forall db pad rec L o r, db_ok db -> parse L o (prepare_record_data db pad rec) = Some r ->
  rebuild_data (p_parsed r) = forget_dict (prepare_record_data db pad rec).
Proof. intros db pad rec L o r Hdb H. exact (rebuild_parse L o _ r (record_wf db pad rec) (record_fine db pad rec Hdb) H). Qed.
Print Assumptions C35_rebuild_forgets.
(** The records that come back unchanged: no empty list or dict inside, no empty string in a list. *)
Inductive keeps : value -> Prop :=
| keep_scalar v : is_scalar v = true -> keeps v
| keep_list l : (forall x, In x l -> keeps x /\ x <> VStr [] /\ x <> VList [] /\ x <> VDict []) -> keeps (VList l)
| keep_dict d : (forall k x, In (k, x) d -> keeps x /\ x <> VList [] /\ x <> VDict []) -> keeps (VDict d).
Lemma keeps_forget v : keeps v -> forget v = v.
Proof.
  induction v as [|b|z|f|x|l IH|d IH] using value_ind'; intro H; try reflexivity.
  - inversion H as [v' Q|l' H'|]; subst; [discriminate|]. cbn [forget]. f_equal. rewrite <- (map_id l) at 2. apply map_ext_in. intros a Ha. destruct (H' a Ha) as (K1 & K2 & K3 & K4). rewrite Forall_forall in IH.
    assert (E : is_empty a = false) by (destruct a as [| | | | |[|]|[|]]; try reflexivity; congruence). rewrite E. rewrite (IH a Ha K1). destruct a as [| | | |[|]| |]; try reflexivity. congruence.
  - inversion H as [v' Q| |d' H']; subst; [discriminate|]. cbn [forget]. f_equal. rewrite Forall_forall in IH. clear H. induction d as [|[k a] d IHd]; [reflexivity|]. cbn [flat_map fst snd]. destruct (H' k a (or_introl eq_refl)) as (K1 & K3 & K4).
    assert (E : is_empty a = false) by (destruct a as [| | | | |[|]|[|]]; try reflexivity; congruence). rewrite E. cbn [app]. f_equal; [f_equal; exact (IH (k, a) (or_introl eq_refl) K1)|]. apply IHd; [intros x Hx; apply IH; right; exact Hx|intros k' x' Hx; apply (H' k'); right; exact Hx].
Qed.
Theorem C35_rebuild_partial : forall db pad rec L o r, db_ok db -> keeps (VDict (prepare_record_data db pad rec)) ->
  parse L o (prepare_record_data db pad rec) = Some r -> rebuild_data (p_parsed r) = prepare_record_data db pad rec.
Proof.
  intros db pad rec L o r Hdb K H. rewrite (C35_rebuild_forgets db pad rec L o r Hdb H). apply keeps_forget in K. cbn [forget] in K. injection K as K. exact K.
Qed.
Print Assumptions C35_rebuild_partial.
Example C35_example : db_ok ascii_db /\ keeps (VDict (prepare_record_data ascii_db false ex_record)) /\ exists r, parse ex_lib ex_opts (prepare_record_data ascii_db false ex_record) = Some r.
Proof.
  split; [exact ascii_db_ok|]. split; [|eexists; vm_compute; reflexivity].
  apply keep_dict. intros k x H. repeat (destruct H as [H|H]; [injection H as <- <-; split; [|split; discriminate]|]); [| | |destruct H].
  - apply keep_list. intros x H. repeat (destruct H as [<-|H]; [split; [apply keep_scalar; reflexivity|repeat split; discriminate]|]). destruct H.
  - apply keep_dict. intros k x H. repeat (destruct H as [H|H]; [injection H as <- <-; split; [apply keep_scalar; reflexivity|split; discriminate]|]). destruct H.
  - apply keep_scalar. reflexivity.
Qed.

(** ** C36 *)
Definition single (v : value) : Prop := match v with VNone | VList _ | VDict _ => False | _ => True end.
(** the text of a value; [fmt] is what [float_format.format] gives *)
Definition text (fmt : spec_float -> pystr) (v : value) : pystr :=
  match v with
  | VStr s => s
  | VInt z => str_int z
  | VBool b => if b then lit "True" else lit "False"
  | VFloat f => fmt f
  | _ => []
  end.
Lemma memb_In s l : memb s l = true <-> In s l.
Proof. unfold memb. rewrite existsb_exists. split; [intros (x & H1 & H2); apply str_eqb_eq in H2; congruence|intro H; exists s; split; [exact H|apply str_eqb_refl]]. Qed.
Lemma slice_firstn n s : (0 <= n)%Z -> slice_to n s = firstn (Z.to_nat n) s.
Proof. intro H. unfold slice_to. destruct (Z.ltb_spec n 0); [lia|reflexivity]. Qed.
Lemma first_date_spec L fs s : match first_date L fs s with
  | Some t => exists a f b, fs = a ++ f :: b /\ l_strptime L s f = Some t /\ Forall (fun g => l_strptime L s g = None) a
  | None => Forall (fun g => l_strptime L s g = None) fs end.
Proof.
  induction fs as [|f fs IH]; cbn [first_date]; [constructor|]. destruct (l_strptime L s f) as [t|] eqn:E; [exists [], f, fs; repeat split; [exact E|constructor]|].
  destruct (first_date L fs s) as [t|]; [|constructor; assumption]. destruct IH as (a & g & b & -> & H1 & H2). exists (f :: a), g, b. repeat split; [exact H1|constructor; assumption].
Qed.
Theorem C36_parse_value : forall L o v, single v ->
  let p := parse_value L o v in let s := text (l_format L (float_format o)) v in
  NoDup (dkeys p) /\
  dget p (lit "_u") = Some v /\
  dget p (lit "_t") = Some (VStr s) /\
  ((0 <= keyword_length o)%Z -> dget p (lit "_k") = Some (VStr (firstn (Z.to_nat (keyword_length o)) s))) /\
  (forall b, v = VBool b -> dget p (lit "_b") = Some (VBool b)) /\
  ((forall b, v <> VBool b) ->
     (In (l_lower L s) (true_values o) -> dget p (lit "_b") = Some (VBool true)) /\
     (~ In (l_lower L s) (true_values o) -> In (l_lower L s) (false_values o) -> dget p (lit "_b") = Some (VBool false)) /\
     (~ In (l_lower L s) (true_values o) -> ~ In (l_lower L s) (false_values o) -> dget p (lit "_b") = None)) /\
  ((exists z, v = VInt z) \/ (exists f, v = VFloat f) -> dget p (lit "_n") = Some v) /\
  ((exists b, v = VBool b) \/ (exists t, v = VStr t) -> dget p (lit "_n") = match l_try_float L s with Some f => Some (VFloat f) | None => None end) /\
  (forall t, dget p (lit "_d") = Some t <-> exists z a f b, t = VInt z /\ date_formats o = a ++ f :: b /\ l_strptime L s f = Some z /\ Forall (fun g => l_strptime L s g = None) a) /\
  (dget p (lit "_gp") = match l_wkt L s with Some g => Some (VStr (fst g)) | None => None end) /\
  (dget p (lit "_gs") = match l_wkt L s with Some g => Some (VStr (snd g)) | None => None end) /\
  (forall k, dget p k <> None -> In k (map lit ["_u"; "_t"; "_k"; "_b"; "_n"; "_d"; "_gp"; "_gs"])).
Proof.
  intros L o v Hv p s. assert (Es : text_of L o v = s) by (destruct v as [|[|]| | | | |]; try reflexivity; destruct Hv).
  assert (G : forall k, dget p k = dget ([(pt_u, v); (pt_t, VStr s); (pt_k, VStr (slice_to (keyword_length o) s))]
    ++ match l_wkt L s with Some g => geo_dict g | None => [] end ++ opt_dict pt_b VBool (bool_of L o v) ++ opt_dict pt_n (fun x => x) (number_of L o v)
    ++ opt_dict pt_d VInt (first_date L (date_formats o) s)) k) by (intro k; unfold p, parse_value; rewrite Es; reflexivity).
  split; [apply parse_value_keys_nodup|]. split; [rewrite G; reflexivity|]. split; [rewrite G; reflexivity|].
  split; [intro Hk; rewrite G; cbn; rewrite slice_firstn by exact Hk; reflexivity|].
  assert (Gb : dget p (lit "_b") = option_map VBool (bool_of L o v)).
  { rewrite G. destruct (l_wkt L s), (bool_of L o v), (number_of L o v), (first_date L (date_formats o) s); reflexivity. }
  assert (Gn : dget p (lit "_n") = number_of L o v).
  { rewrite G. destruct (l_wkt L s), (bool_of L o v), (number_of L o v), (first_date L (date_formats o) s); reflexivity. }
  assert (Gd : dget p (lit "_d") = option_map VInt (first_date L (date_formats o) s)).
  { rewrite G. destruct (l_wkt L s), (bool_of L o v), (number_of L o v), (first_date L (date_formats o) s); reflexivity. }
  split; [intros b ->; rewrite Gb; reflexivity|].
  split.
  { intro Nb. assert (Eb : bool_of L o v = if memb (l_lower L s) (true_values o) then Some true else if memb (l_lower L s) (false_values o) then Some false else None) by (unfold bool_of; rewrite Es; destruct v as [|b| | | | |]; try reflexivity; exfalso; exact (Nb b eq_refl)).
    rewrite Gb, Eb. repeat split.
    - intro H. apply memb_In in H. rewrite H. reflexivity.
    - intros H1 H2. apply memb_In in H2. destruct (memb (l_lower L s) (true_values o)) eqn:E; [apply memb_In in E; contradiction|]. rewrite H2. reflexivity.
    - intros H1 H2. destruct (memb (l_lower L s) (true_values o)) eqn:E; [apply memb_In in E; contradiction|]. destruct (memb (l_lower L s) (false_values o)) eqn:E2; [apply memb_In in E2; contradiction|]. reflexivity. }
  split; [rewrite Gn; intros [[z ->]|[f ->]]; reflexivity|].
  split; [rewrite Gn; unfold number_of; rewrite Es; intros [[z E]|[f E]]; destruct v; try discriminate; destruct (l_try_float L s); reflexivity|].
  split.
  { intro t. rewrite Gd. pose proof (first_date_spec L (date_formats o) s) as F. split.
    - intro H. destruct (first_date L (date_formats o) s) as [z|]; [|discriminate]. injection H as <-. destruct F as (a & f & b & F1 & F2 & F3). exists z, a, f, b. auto.
    - intros (z & a & f & b & -> & E & H1 & H2). rewrite E. clear - H1 H2. induction a as [|g a IH]; cbn [app first_date]; [rewrite H1; reflexivity|]. inversion H2 as [|? ? Hg Ha]; subst. rewrite Hg. exact (IH Ha). }
  split; [rewrite G; destruct (l_wkt L s), (bool_of L o v), (number_of L o v), (first_date L (date_formats o) s); reflexivity|].
  split; [rewrite G; destruct (l_wkt L s), (bool_of L o v), (number_of L o v), (first_date L (date_formats o) s); reflexivity|].
  intros k Hk. destruct (dget p k) as [w|] eqn:E; [|contradiction]. apply dget_In in E. apply (in_map fst) in E. apply (parse_value_keys_in L o v) in E. unfold parsed_type in E. cbn [In map] in *. tauto.
Qed.
Print Assumptions C36_parse_value.
Example C36_example : parse_value ex_lib ex_opts (VStr (lit "yes")) = [(lit "_u", VStr (lit "yes")); (lit "_t", VStr (lit "yes")); (lit "_k", VStr (lit "yes")); (lit "_b", VBool true)].
Proof. reflexivity. Qed.

(** ** C62 *)
Definition one_none : record := Rec (lit "r") [(KS (lit "x"), OSeq [ONone; OStr []])].
Definition none_one : record := Rec (lit "r") [(KS (lit "x"), OSeq [OStr []; ONone])].
(** C62, as stated, is false: these records differ but parse to the same thing, so (C17) the second version is
    merged into the first one. *)
Theorem C62_every_change_refuted : exists db pad a b, db_ok db /\
  py_eqb (VDict (prepare_record_data db pad a)) (VDict (prepare_record_data db pad b)) = false /\
  exists L o r s, parse L o (prepare_record_data db pad a) = Some r /\ parse L o (prepare_record_data db pad b) = Some s /\ pdata_eqb r s = true.
Proof.
  exists ascii_db, false, one_none, none_one. split; [exact ascii_db_ok|]. split; [vm_compute; reflexivity|]. exists ex_lib, ex_opts. eexists. eexists. split; [vm_compute; reflexivity|]. split; vm_compute; reflexivity.
Qed.
Print Assumptions C62_every_change_refuted.
(** Only what [forget] removes can be lost: records whose remaining data differ parse differently, whatever
    options and library behaviour each is parsed with. *)
Theorem C62_every_change_partial : forall db pad a b L o L' o' r s, db_ok db ->
  parse L o (prepare_record_data db pad a) = Some r -> parse L' o' (prepare_record_data db pad b) = Some s ->
  py_eqb (VDict (forget_dict (prepare_record_data db pad a))) (VDict (forget_dict (prepare_record_data db pad b))) = false ->
  pdata_eqb r s = false.
Proof.
  intros db pad a b L o L' o' r s Hdb Ha Hb H. unfold pdata_eqb. destruct (py_eqb (VDict (p_parsed r)) (VDict (p_parsed s))) eqn:E; [|reflexivity].
  pose proof (parsed_eq_data L o L' o' _ _ r s (record_wf db pad a) (record_wf db pad b) (record_fine db pad a Hdb) (record_fine db pad b Hdb) Ha Hb E) as K. congruence.
Qed.
Print Assumptions C62_every_change_partial.
(** In particular for records without empty containers and empty list items. *)
Theorem C62_every_change_plain_partial : forall db pad a b L o L' o' r s, db_ok db ->
  keeps (VDict (prepare_record_data db pad a)) -> keeps (VDict (prepare_record_data db pad b)) ->
  parse L o (prepare_record_data db pad a) = Some r -> parse L' o' (prepare_record_data db pad b) = Some s ->
  py_eqb (VDict (prepare_record_data db pad a)) (VDict (prepare_record_data db pad b)) = false ->
  pdata_eqb r s = false.
Proof.
  intros db pad a b L o L' o' r s Hdb Ka Kb Ha Hb H. apply (C62_every_change_partial db pad a b L o L' o' r s Hdb Ha Hb).
  apply keeps_forget in Ka, Kb. cbn [forget] in Ka, Kb. injection Ka as Ka. injection Kb as Kb. unfold forget_dict. rewrite Ka, Kb. exact H.
Qed.
Print Assumptions C62_every_change_plain_partial.
Definition changed_record : record := Rec (lit "r1") [(KS (lit "a"), OSeq [OStr (lit "x"); OInt 4]); (KS (lit "b"), ODict [(KS (lit "c"), OBool true); (KS (lit "_id"), OStr [])])].
Definition unlisted : record := Rec (lit "r1") [(KS (lit "a"), OSeq [OInt 3])].
Example C62_example :
  keeps (VDict (prepare_record_data ascii_db false ex_record)) /\ keeps (VDict (prepare_record_data ascii_db false changed_record)) /\
  py_eqb (VDict (prepare_record_data ascii_db false ex_record)) (VDict (prepare_record_data ascii_db false changed_record)) = false /\
  py_eqb (VDict (forget_dict (prepare_record_data ascii_db false ex_record))) (VDict (forget_dict (prepare_record_data ascii_db false changed_record))) = false /\
  py_eqb (VDict (forget_dict (prepare_record_data ascii_db false one_none))) (VDict (forget_dict (prepare_record_data ascii_db false unlisted))) = false /\
  exists r s, parse ex_lib ex_opts (prepare_record_data ascii_db false ex_record) = Some r /\ parse ex_lib ex_opts (prepare_record_data ascii_db false changed_record) = Some s.
Proof.
  split; [apply C35_example|]. split.
  - apply keep_dict. intros k x H. repeat (destruct H as [H|H]; [injection H as <- <-; split; [|split; discriminate]|]); [| | |destruct H].
    + apply keep_list. intros x H. repeat (destruct H as [<-|H]; [split; [apply keep_scalar; reflexivity|repeat split; discriminate]|]). destruct H.
    + apply keep_dict. intros k x H. repeat (destruct H as [H|H]; [injection H as <- <-; split; [apply keep_scalar; reflexivity|split; discriminate]|]). destruct H.
    + apply keep_scalar. reflexivity.
  - split; [vm_compute; reflexivity|]. split; [vm_compute; reflexivity|]. split; [vm_compute; reflexivity|]. eexists. eexists. split; vm_compute; reflexivity.
Qed.
