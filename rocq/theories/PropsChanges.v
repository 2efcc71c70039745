(** Property C62: which changes of the data show in what is indexed. *)
From Coq Require Import String Ascii.
From Coq Require Import List ZArith NArith Bool Lia Permutation.
From Verif Require Import PyVal PyEq Diff Time Prepare PrepareProofs PropsPrepare Parser ParserProofs ParserTypes ParserEq PropsParser PropsParserTypes Search Fields PropsFields PropsFieldsMore PropsFieldCounts Mongo MongoProofs Index IndexSpec IndexProofs PropsIndex BulkParse EndToEnd.
Import ListNotations.
Local Open Scope string_scope.
Local Open Scope list_scope.
Local Open Scope nat_scope.

(** ** Specification *)
(** Dicts may hold empty lists, dicts and strings anywhere outside of lists; inside of lists there are none. *)
Inductive settled : value -> Prop :=
| settled_scalar v : is_scalar v = true -> settled v
| settled_list l : keeps (VList l) -> settled (VList l)
| settled_dict d : (forall k x, In (k, x) d -> settled x) -> settled (VDict d).

(** ** Proofs *)
Definition unshown (l : listing) : list pystr := flat_map (fun g => map (dotted (fst g)) (snd g)) l.
Lemma unshown_grouped valid T : valid_ok valid -> typed_in valid T -> unshown (grouped T) = sort T.
Proof.
  intros V HT. transitivity (flat_map snd (groupby path_of (sort T))); [|apply groupby_flat]. unfold unshown, grouped.
  assert (G : forall k g s, In (k, g) (groupby path_of (sort T)) -> In s g -> dotted k (type_of s) = s).
  { intros k g s Hg Hs. destruct (groupby_keys _ _ _ _ Hg) as [_ K]. rewrite Forall_forall in K. specialize (K s Hs).
    assert (Hin : In s (sort T)) by (rewrite <- (groupby_flat path_of (sort T)); apply in_flat_map; exists (k, g); auto).
    apply (Permutation_in _ (sort_perm T)) in Hin. destruct (HT s Hin) as (q & t & -> & Ht). unfold path_of, type_of in *. rewrite rsplit_dotted in * by (apply V, Ht). congruence. }
  induction (groupby path_of (sort T)) as [|[k g] gs IH]; [reflexivity|]. cbn [map flat_map fst snd]. f_equal.
  - rewrite map_map. rewrite <- (map_id g) at 2. apply map_ext_in. intros s Hs. exact (G k g s (or_introl eq_refl) Hs).
  - apply IH. intros k' g' s Hg Hs. exact (G k' g' s (or_intror Hg) Hs).
Qed.
Lemma grouped_fine valid T : valid_ok valid -> typed_in valid T -> Forall (PropsFieldsMore.fine valid) (grouped T).
Proof.
  intros V HT. apply Forall_forall. intros x Hx. unfold grouped in Hx. apply in_map_iff in Hx. destruct Hx as ([k g] & <- & Hg). destruct (groupby_keys _ _ _ _ Hg) as [Hne _].
  split; cbn [fst snd]; [destruct g; [contradiction|discriminate]|]. apply Forall_forall. intros t Ht. apply in_map_iff in Ht. destruct Ht as (s & <- & Hs).
  assert (Hin : In s (sort T)) by (rewrite <- (groupby_flat path_of (sort T)); apply in_flat_map; exists (k, g); auto).
  apply (Permutation_in _ (sort_perm T)) in Hin. destruct (HT s Hin) as (q & t & -> & Hv). unfold type_of. rewrite rsplit_dotted by (apply V, Hv). exact Hv.
Qed.
Lemma show_list_inj valid : valid_ok valid -> forall l l', Forall (PropsFieldsMore.fine valid) l -> Forall (PropsFieldsMore.fine valid) l' -> map show l = map show l' -> l = l'.
Proof.
  intro V. induction l as [|g l IH]; intros [|g' l'] F F' E; try discriminate; [reflexivity|]. cbn in E. injection E as E1 E2. inversion F; inversion F'; subst.
  f_equal; [eapply show_inj; eassumption|apply IH; assumption].
Qed.
Lemma compress_same valid T T' : valid_ok valid -> typed_in valid T -> typed_in valid T' -> compress T = compress T' -> forall s, In s T <-> In s T'.
Proof.
  intros V H H' E. rewrite !compress_grouped in E. apply (show_list_inj valid V) in E; [|apply grouped_fine; assumption|apply grouped_fine; assumption].
  apply (f_equal unshown) in E. rewrite !(unshown_grouped valid) in E by assumption. intro s.
  split; intro K; [apply (Permutation_in _ (sort_perm T')); rewrite <- E; apply (Permutation_in _ (Permutation_sym (sort_perm T)))|apply (Permutation_in _ (sort_perm T)); rewrite E; apply (Permutation_in _ (Permutation_sym (sort_perm T')))]; exact K.
Qed.
(** the listed data types say which types occur where *)
Lemma same_types db pad a b L o L' o' r s : db_ok db -> parse L o (prepare_record_data db pad a) = Some r -> parse L' o' (prepare_record_data db pad b) = Some s ->
  p_data_types r = p_data_types s -> forall p t, has_type (VDict (prepare_record_data db pad a)) p t <-> has_type (VDict (prepare_record_data db pad b)) p t.
Proof.
  intros Hdb Ha Hb E.
  pose proof (record_data_types db pad L o [a] [r] Hdb (Forall2_cons _ _ Ha (Forall2_nil _))) as FA. inversion FA as [|? ? ? ? (T & E1 & N1 & I1 & O1) _]; subst. clear FA.
  pose proof (record_data_types db pad L' o' [b] [s] Hdb (Forall2_cons _ _ Hb (Forall2_nil _))) as FB. inversion FB as [|? ? ? ? (T' & E2 & N2 & I2 & O2) _]; subst. clear FB.
  assert (G : forall rec T0, (forall s, In s T0 <-> exists p t, has_type (VDict (prepare_record_data db pad rec)) p t /\ s = join dot (p ++ [t])) ->
    (forall p t, has_type (VDict (prepare_record_data db pad rec)) p t -> p <> [] /\ Forall dotless p /\ In t data_type_names) -> typed_in data_type_names T0).
  { intros rec T0 I0 O0 x Hx. apply I0 in Hx. destruct Hx as (p & t & K & ->). destruct (O0 p t K) as (K1 & _ & K3). exists (join dot p), t. split; [apply join_snoc, K1|exact K3]. }
  rewrite E1, E2 in E. pose proof (compress_same _ T T' data_valid (G a T I1 O1) (G b T' I2 O2) E) as C.
  assert (D : forall p t p' t', p <> [] -> Forall dotless p -> dotless t -> p' <> [] -> Forall dotless p' -> dotless t' -> join dot (p ++ [t]) = join dot (p' ++ [t']) -> p = p' /\ t = t').
  { intros p t p' t' P1 P2 P3 Q1 Q2 Q3 Q. rewrite !join_snoc in Q by assumption. apply (f_equal rsplit_dot) in Q. rewrite !rsplit_dotted in Q by assumption. injection Q as Q ->.
    apply (f_equal split) in Q. rewrite !split_join in Q by assumption. auto. }
  intros p t. split; intro K.
  - destruct (O1 p t K) as (K1 & K2 & K3). assert (M : In (join dot (p ++ [t])) T') by (apply C, I1; eauto). apply I2 in M. destruct M as (p' & t' & M & Q). destruct (O2 p' t' M) as (M1 & M2 & M3).
    destruct (D p t p' t' K1 K2 (proj2 (data_valid t K3)) M1 M2 (proj2 (data_valid t' M3)) Q) as [-> ->]. exact M.
  - destruct (O2 p t K) as (K1 & K2 & K3). assert (M : In (join dot (p ++ [t])) T) by (apply C, I2; eauto). apply I1 in M. destruct M as (p' & t' & M & Q). destruct (O1 p' t' M) as (M1 & M2 & M3).
    destruct (D p t p' t' K1 K2 (proj2 (data_valid t K3)) M1 M2 (proj2 (data_valid t' M3)) Q) as [-> ->]. exact M.
Qed.
Lemma dget_forget d k : NoDup (dkeys d) -> dget (forget_dict d) k = match dget d k with Some x => if is_empty x then None else Some (forget x) | None => None end.
Proof.
  unfold forget_dict. induction d as [|[k' x] d IH]; intro N; [reflexivity|]. cbn [dkeys map fst] in N. inversion N as [|? ? N1 N2]; subst. specialize (IH N2). cbn [flat_map dget fst snd]. destruct (str_eqb k k') eqn:E.
  - apply str_eqb_eq in E. subst k'. destruct (is_empty x) eqn:Ex; cbn [app dget]; [|rewrite str_eqb_refl; reflexivity]. rewrite IH.
    replace (dget d k) with (@None value); [reflexivity|]. symmetry. apply dget_None. exact N1.
  - destruct (is_empty x); cbn [app dget]; [exact IH|rewrite E; exact IH].
Qed.
Lemma settled_same S a : forall b, wf a -> wf b -> settled a -> settled b -> kind_name a = kind_name b -> is_empty a = is_empty b ->
  vsim S (forget a) (forget b) -> (forall p t, has_type a p t <-> has_type b p t) -> vsim S a b.
Proof.
  induction a as [|a0|a0|a0|a0|l IH|d IH] using value_ind'; intros b Wa Wb Sa Sb K Em H T; destruct b as [|b0|b0|b0|b0|m|e]; try discriminate K; try exact H.
  - inversion Sa as [? Q|? Ka|]; subst; [discriminate Q|]. inversion Sb as [? Q|? Kb|]; subst; [discriminate Q|]. rewrite (keeps_forget _ Ka), (keeps_forget _ Kb) in H. exact H.
  - clear K. change (forget (VDict d)) with (VDict (forget_dict d)) in H. change (forget (VDict e)) with (VDict (forget_dict e)) in H.
    pose proof (proj1 (wf_dict _) Wa) as [Na Fa]. pose proof (proj1 (wf_dict _) Wb) as [Nb Fb].
    inversion Sa as [? Q| |? Da]; subst; [discriminate Q|]. inversion Sb as [? Q| |? Db]; subst; [discriminate Q|].
    inversion H as [? ? Q| |? ? Hk Hv]; subst; [discriminate Q|].
    assert (T1 : forall k x, dget d k = Some x -> exists y, dget e k = Some y /\ kind_name x = kind_name y).
    { intros k x Hx. pose proof (proj1 (T _ _) (ht_key d k x (dget_In _ _ _ Hx))) as Q. inversion Q as [? ? y Hy| ? ? y p t Hy Hq| | ]; subst.
      - exists y. split; [apply In_dget; assumption|congruence].
      - exfalso. exact (proj1 (has_type_ok _ _ _ Hq) eq_refl). }
    assert (T2 : forall k y, dget e k = Some y -> exists x, dget d k = Some x /\ kind_name x = kind_name y).
    { intros k y Hy. pose proof (proj2 (T _ _) (ht_key e k y (dget_In _ _ _ Hy))) as Q. inversion Q as [? ? x Hx| ? ? x p t Hx Hq| | ]; subst.
      - exists x. split; [apply In_dget; assumption|congruence].
      - exfalso. exact (proj1 (has_type_ok _ _ _ Hq) eq_refl). }
    apply sim_dict.
    + intro k. split; intro Q; [destruct (dget e k) as [y|] eqn:Ey; [|reflexivity]; destruct (T2 k y Ey) as (x & Ex & _); congruence|destruct (dget d k) as [x|] eqn:Ex; [|reflexivity]; destruct (T1 k x Ex) as (y & Ey & _); congruence].
    + intros k x y Hx Hy. destruct (T1 k x Hx) as (y' & Hy' & Kk). rewrite Hy in Hy'. injection Hy' as <-.
      specialize (Hk k). rewrite (dget_forget d k Na), (dget_forget e k Nb), Hx, Hy in Hk. specialize (Hv k). rewrite (dget_forget d k Na), (dget_forget e k Nb), Hx, Hy in Hv.
      assert (Ee : is_empty x = is_empty y) by (destruct (is_empty x), (is_empty y); try reflexivity; destruct Hk as [Hk1 Hk2]; [specialize (Hk1 eq_refl)|specialize (Hk2 eq_refl)]; discriminate).
      destruct (is_empty x) eqn:Ex.
      * destruct x as [| | | | |[|]|[|]]; try discriminate Ex; destruct y as [| | | | |[|]|[|]]; try discriminate Ee; try discriminate Kk; [apply sim_list; [reflexivity|intros [|i] u v Hu; discriminate Hu]|apply sim_dict; [intro; split; reflexivity|intros ? ? ? Hu; discriminate Hu]].
      * rewrite <- Ee in Hv. rewrite Forall_forall in IH. pose proof (dget_In _ _ _ Hx) as Ix. pose proof (dget_In _ _ _ Hy) as Iy.
        refine (IH (k, x) Ix y (wf_dget _ _ _ Wa Hx) (wf_dget _ _ _ Wb Hy) (Da k x Ix) (Db k y Iy) Kk _ (Hv _ _ eq_refl eq_refl) _); [cbn [snd]; rewrite Ex; exact Ee|].
        cbn [snd]. intros p t. split; intro Q; pose proof (proj1 (has_type_ok _ _ _ Q)) as Hp.
        -- pose proof (proj1 (T _ _) (ht_dict d k x p t Ix Q)) as Z. inversion Z as [? ? z Hz| ? ? z p' t' Hz Hq| | ]; subst; [contradiction|]. apply (In_dget _ _ _ Nb) in Hz. rewrite Hy in Hz. injection Hz as <-. exact Hq.
        -- pose proof (proj2 (T _ _) (ht_dict e k y p t Iy Q)) as Z. inversion Z as [? ? z Hz| ? ? z p' t' Hz Hq| | ]; subst; [contradiction|]. apply (In_dget _ _ _ Na) in Hz. rewrite Hx in Hz. injection Hz as <-. exact Hq.
Qed.
Lemma same_empty (d e : dict) : (forall p t, has_type (VDict d) p t <-> has_type (VDict e) p t) -> is_empty (VDict d) = is_empty (VDict e).
Proof.
  intro T. assert (G : forall d : dict, is_empty (VDict d) = false <-> exists k t, has_type (VDict d) [k] t).
  { intros [|[k x] f]; cbn; [split; [discriminate|intros (k & t & Q); inversion Q; subst; contradiction]|]. split; [intros _; exists k, (kind_name x); apply ht_key; left; reflexivity|reflexivity]. }
  destruct (is_empty (VDict d)) eqn:X, (is_empty (VDict e)) eqn:Y; try reflexivity.
  - apply G in Y. destruct Y as (k & t & Y). apply T in Y. assert (Q : is_empty (VDict d) = false) by (apply G; eauto). congruence.
  - apply G in X. destruct X as (k & t & X). apply T in X. assert (Q : is_empty (VDict e) = false) by (apply G; eauto). congruence.
Qed.

(** ** C62 *)
(** A change of the types that occur somewhere is always seen, whatever else the data is and however each
    version is parsed. *)
Theorem C62_types_partial : forall db pad a b L o L' o' r s p t, db_ok db ->
  parse L o (prepare_record_data db pad a) = Some r -> parse L' o' (prepare_record_data db pad b) = Some s ->
  has_type (VDict (prepare_record_data db pad a)) p t -> ~ has_type (VDict (prepare_record_data db pad b)) p t ->
  pdata_eqb r s = false /\ pdata_eqb s r = false.
Proof.
  intros db pad a b L o L' o' r s p t Hdb Ha Hb H1 H2.
  assert (D : p_data_types r <> p_data_types s) by (intro Q; apply H2, (same_types db pad a b L o L' o' r s Hdb Ha Hb Q), H1).
  unfold pdata_eqb. split; (destruct (py_eqb _ _); cbn [andb]; [|reflexivity]); (destruct (strs_eqb (p_data_types _) (p_data_types _)) eqn:Q; [|reflexivity]); exfalso; apply strs_eqb_eq in Q; congruence.
Qed.
(** Only inside of lists can changes be lost: if the lists of both versions hold no empty strings, lists and
    dicts (at any depth), every change of the data is seen; fields outside of lists may be empty. *)
Theorem C62_outside_lists_partial : forall db pad a b L o L' o' r s, db_ok db ->
  settled (VDict (prepare_record_data db pad a)) -> settled (VDict (prepare_record_data db pad b)) ->
  parse L o (prepare_record_data db pad a) = Some r -> parse L' o' (prepare_record_data db pad b) = Some s ->
  py_eqb (VDict (prepare_record_data db pad a)) (VDict (prepare_record_data db pad b)) = false ->
  pdata_eqb r s = false.
Proof.
  intros db pad a b L o L' o' r s Hdb Sa Sb Ha Hb H. destruct (pdata_eqb r s) eqn:E; [|reflexivity]. exfalso.
  unfold pdata_eqb in E. apply andb_true_iff in E. destruct E as [E _]. apply andb_true_iff in E. destruct E as [E1 E2]. apply strs_eqb_eq in E2.
  pose proof (same_types db pad a b L o L' o' r s Hdb Ha Hb E2) as T.
  pose proof (record_wf db pad a) as Wa. pose proof (record_wf db pad b) as Wb.
  pose proof (parsed_eq_data L o L' o' _ _ r s Wa Wb (record_fine db pad a Hdb) (record_fine db pad b Hdb) Ha Hb E1) as F.
  change (VDict (forget_dict ?x)) with (forget (VDict x)) in F. apply (py_eqb_sim _ _ (forget_wf _ Wa) (forget_wf _ Wb)) in F.
  pose proof (same_empty _ _ T) as Em.
  pose proof (settled_same _ _ _ Wa Wb Sa Sb eq_refl Em F T) as Q. apply (py_eqb_sim _ _ Wa Wb) in Q. congruence.
Qed.
Print Assumptions C62_types_partial.
Print Assumptions C62_outside_lists_partial.
(** Versions that differ in an empty list, dict or string only: not covered by C62_every_change_plain_partial. *)
Definition with_empty : record := Rec (lit "r1") [(KS (lit "a"), OSeq [OStr (lit "x")]); (KS (lit "b"), ODict [(KS (lit "c"), OSeq []); (KS (lit "d"), OStr [])])].
Definition without_empty : record := Rec (lit "r1") [(KS (lit "a"), OSeq [OStr (lit "x")]); (KS (lit "b"), ODict [(KS (lit "c"), ODict []); (KS (lit "d"), OStr [])])].
Example C62_outside_example :
  settled (VDict (prepare_record_data ascii_db false with_empty)) /\ settled (VDict (prepare_record_data ascii_db false without_empty)) /\
  py_eqb (VDict (prepare_record_data ascii_db false with_empty)) (VDict (prepare_record_data ascii_db false without_empty)) = false /\
  py_eqb (VDict (forget_dict (prepare_record_data ascii_db false with_empty))) (VDict (forget_dict (prepare_record_data ascii_db false without_empty))) = true /\
  (exists r s, parse ex_lib ex_opts (prepare_record_data ascii_db false with_empty) = Some r /\ parse ex_lib ex_opts (prepare_record_data ascii_db false without_empty) = Some s) /\
  has_type (VDict (prepare_record_data ascii_db false with_empty)) [lit "b"; lit "c"] (lit "#l").
Proof.
  assert (K : forall l, Forall (fun x => is_scalar x = true /\ x <> VStr []) l -> settled (VList l)).
  { intros l F. apply settled_list, keep_list. rewrite Forall_forall in F. intros x Hx. destruct (F x Hx) as [F1 F2]. split; [apply keep_scalar, F1|]. split; [exact F2|]. split; intros ->; discriminate F1. }
  split; [|split; [|split; [vm_compute; reflexivity|split; [vm_compute; reflexivity|split; [do 2 eexists; split; vm_compute; reflexivity|]]]]].
  - apply settled_dict. intros k x H. repeat (destruct H as [H|H]; [injection H as <- <-|]); [| |apply settled_scalar; reflexivity|destruct H].
    + apply K. repeat constructor. discriminate.
    + apply settled_dict. intros k x H. repeat (destruct H as [H|H]; [injection H as <- <-|]); [apply K; constructor|apply settled_scalar; reflexivity|destruct H].
  - apply settled_dict. intros k x H. repeat (destruct H as [H|H]; [injection H as <- <-|]); [| |apply settled_scalar; reflexivity|destruct H].
    + apply K. repeat constructor. discriminate.
    + apply settled_dict. intros k x H. repeat (destruct H as [H|H]; [injection H as <- <-|]); [apply settled_dict; intros ? ? []|apply settled_scalar; reflexivity|destruct H].
  - apply (ht_dict _ (lit "b") (VDict [(lit "c", VList []); (lit "d", VStr [])])); [right; left; reflexivity|]. apply (ht_key _ (lit "c") (VList [])). left. reflexivity.
Qed.

(** What a document was made of and what it is taken for agree up to what is forgotten. *)
Lemma document_like db pad L a0 o0 a o q r : db_ok db -> q = parse_opt L (prepare_record_data db pad a0) o0 ->
  q = parse_opt L (prepare_record_data db pad a) o \/ popt_eqb q (parse_opt L (prepare_record_data db pad a) o) = true ->
  parse L o (prepare_record_data db pad a) = Some r ->
  veq (forget (VDict (prepare_record_data db pad a0))) (forget (VDict (prepare_record_data db pad a))) /\
  forall p t, has_type (VDict (prepare_record_data db pad a0)) p t <-> has_type (VDict (prepare_record_data db pad a)) p t.
Proof.
  intros Hdb E0 H Er. unfold parse_opt in *. rewrite Er in H.
  assert (Q : exists r0, q = Some r0 /\ p_data_types r0 = p_data_types r /\ (r0 = r \/ py_eqb (VDict (p_parsed r0)) (VDict (p_parsed r)) = true)).
  { destruct q as [r0|]; [|destruct H; discriminate]. exists r0. split; [reflexivity|]. destruct H as [H|H]; [injection H as ->; auto|]. cbn [popt_eqb] in H. unfold pdata_eqb in H.
    apply andb_true_iff in H. destruct H as [H _]. apply andb_true_iff in H. destruct H as [H1 H2]. apply strs_eqb_eq in H2. auto. }
  destruct Q as (r0 & -> & Q1 & Q2). symmetry in E0. split; [|exact (same_types db pad a0 a L o0 L o r0 r Hdb E0 Er Q1)].
  pose proof (record_wf db pad a0) as W0. pose proof (record_wf db pad a) as Wa. pose proof (record_fine db pad a0 Hdb) as F0. pose proof (record_fine db pad a Hdb) as Fa.
  change (veq (VDict (forget_dict (prepare_record_data db pad a0))) (VDict (forget_dict (prepare_record_data db pad a)))). destruct Q2 as [->|Q2].
  - rewrite <- (rebuild_parse L o0 _ _ W0 F0 E0), <- (rebuild_parse L o _ _ Wa Fa Er). apply veq_refl.
  - apply py_eqb_veq; [exact (forget_wf (VDict _) W0)|exact (forget_wf (VDict _) Wa)|]. exact (parsed_eq_data L o0 L o _ _ r0 r W0 Wa F0 Fa E0 Er Q2).
Qed.
(** C62 for the documents of a record, whatever its history and the options: at any two moments at which its
    data differ (NaN counted equal to NaN), and the lists hold no empty strings, lists and dicts, it has two
    different documents. *)
Theorem C62_documents_partial : forall L db pad h opts id rvs a b t t', db_ok db -> hist_ok h -> opts <> [] -> NoDup (map fst opts) ->
  (forall v x, In (v, x) h -> exists rec, x = prepare_record_data db pad rec) ->
  build (parse_opt L) popt_eqb h opts = Some rvs ->
  in_force h t (prepare_record_data db pad a) -> in_force h t' (prepare_record_data db pad b) ->
  prepare_record_data db pad a <> [] -> prepare_record_data db pad b <> [] ->
  (forall v o, In (v, o) opts -> parse L o (prepare_record_data db pad a) <> None /\ parse L o (prepare_record_data db pad b) <> None) ->
  settled (VDict (prepare_record_data db pad a)) -> settled (VDict (prepare_record_data db pad b)) ->
  ~ veq (VDict (prepare_record_data db pad a)) (VDict (prepare_record_data db pad b)) ->
  exists d d', In d (rv_docs id rvs) /\ In d' (rv_docs id rvs) /\ covers d t /\ covers d' t' /\ ~ covers d t' /\ ~ covers d' t.
Proof.
  intros L db pad h opts id rvs a b t t' Hdb Hh Ho Hn Hp Eb Ft Ft' Na Nb Pa Sa Sb D.
  destruct (C23_documents_cover_life (parse_opt L) popt_eqb h opts id Hh Ho) as (rvs' & Eb' & _ & Cv & _). rewrite Eb in Eb'. injection Eb' as <-.
  destruct (proj2 (Cv t)) as (d & Hd & Cd); [eauto|]. destruct (proj2 (Cv t')) as (d' & Hd' & Cd'); [eauto|].
  assert (G : forall e, In e (rv_docs id rvs) -> covers e t -> covers e t' -> False).
  { intros e He C1 C2. destruct (hist_ok_first h Hh) as (fd & d0 & Efd & _).
    destruct (used_exists opts fd t Ho) as (o & Uo). destruct (used_exists opts fd t' Ho) as (o' & Uo').
    assert (In_opts : forall u w, options_used opts fd u w -> exists v, In (v, w) opts).
    { intros u w [(v & K & _)|(_ & v & K & _)]; [apply filter_In in K; exists v; apply K|exists v; exact K]. }
    destruct (In_opts t o Uo) as (v & Hv). destruct (In_opts t' o' Uo') as (v' & Hv').
    destruct (parse L o (prepare_record_data db pad a)) as [r|] eqn:Er; [|destruct (proj1 (Pa v o Hv) Er)]. destruct (parse L o' (prepare_record_data db pad b)) as [s|] eqn:Es; [|destruct (proj2 (Pa v' o' Hv') Es)].
    pose proof (C24_options_used_exact (parse_opt L) popt_eqb h opts id rvs fd e t _ o Hh Hn Eb Efd He C1 Ft Uo) as K1.
    pose proof (C24_options_used_exact (parse_opt L) popt_eqb h opts id rvs fd e t' _ o' Hh Hn Eb Efd He C2 Ft' Uo') as K2.
    assert (Or : exists v0 x0 w0 o0, In (v0, x0) h /\ In (w0, o0) opts /\ e_parsed e = parse_opt L x0 o0).
    { apply In_nth_error in He. destruct He as (i & Hi). apply rv_docs_nth in Hi. destruct Hi as (rr & Hr & ->). pose proof (build_from (parse_opt L) popt_eqb h opts rvs Eb) as F. rewrite Forall_forall in F. apply (F rr (nth_error_In _ _ Hr)). }
    destruct Or as (v0 & x0 & w0 & o0 & Hx0 & _ & E0). destruct (Hp v0 x0 Hx0) as (a0 & ->).
    destruct (document_like db pad L a0 o0 a o _ r Hdb E0 K1 Er) as [V1 T1]. destruct (document_like db pad L a0 o0 b o' _ s Hdb E0 K2 Es) as [V2 T2].
    assert (T : forall p ty, has_type (VDict (prepare_record_data db pad a)) p ty <-> has_type (VDict (prepare_record_data db pad b)) p ty) by (intros p ty; rewrite <- T1, <- T2; reflexivity).
    apply D. exact (settled_same _ _ _ (record_wf db pad a) (record_wf db pad b) Sa Sb eq_refl (same_empty _ _ T) (veq_trans _ _ _ (veq_sym _ _ V1) V2) T). }
  exists d, d'. split; [exact Hd|]. split; [exact Hd'|]. split; [exact Cd|]. split; [exact Cd'|]. split; intro C; [exact (G d Hd Cd C)|exact (G d' Hd' C Cd')].
Qed.
Print Assumptions C62_documents_partial.
Definition emptied : list (Z * dict) := [(10%Z, prepare_record_data ascii_db false with_empty); (20%Z, prepare_record_data ascii_db false without_empty)].
Example C62_documents_example :
  hist_ok emptied /\ in_force emptied 10 (prepare_record_data ascii_db false with_empty) /\ in_force emptied 25 (prepare_record_data ascii_db false without_empty) /\
  (exists rvs, build (parse_opt ex_lib) popt_eqb emptied [(5%Z, ex_opts)] = Some rvs /\ length rvs = 2) /\
  (forall v x, In (v, x) emptied -> exists rec, x = prepare_record_data ascii_db false rec) /\
  (forall v o, In (v, o) [(5%Z, ex_opts)] -> parse ex_lib o (prepare_record_data ascii_db false with_empty) <> None /\ parse ex_lib o (prepare_record_data ascii_db false without_empty) <> None) /\
  ~ veq (VDict (prepare_record_data ascii_db false with_empty)) (VDict (prepare_record_data ascii_db false without_empty)).
Proof.
  split; [split; [repeat constructor; cbn; intuition discriminate|]|].
  - exists (prepare_record_data ascii_db false with_empty). split; [|discriminate]. exists 10%Z. split; [left; reflexivity|]. intros w y [E|[E|[]]]; injection E as <- _; lia.
  - split; [exists 10%Z; split; [left; reflexivity|]; split; [lia|]; intros w y [E|[E|[]]]; injection E as <- _; lia|].
    split; [exists 20%Z; split; [right; left; reflexivity|]; split; [lia|]; intros w y [E|[E|[]]]; injection E as <- _; lia|].
    split; [eexists; split; [vm_compute; reflexivity|reflexivity]|]. split; [intros v x [E|[E|[]]]; injection E as _ <-; eauto|].
    split; [intros v o [E|[]]; injection E as _ <-; vm_compute; split; discriminate|].
    intro V. inversion V as [? ? Q| |? ? _ H]; subst; [discriminate Q|]. specialize (H (lit "b") _ _ eq_refl eq_refl). inversion H as [? ? Q| |? ? _ H2]; subst; [discriminate Q|]. specialize (H2 (lit "c") _ _ eq_refl eq_refl). inversion H2; subst. discriminate.
Qed.
