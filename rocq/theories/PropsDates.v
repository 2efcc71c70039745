(** Properties C39 and C58: the order of the date formats, and dates in records. *)
From Coq Require Import String Ascii.
From Coq Require Import List ZArith NArith Bool Lia Permutation.
From Coq Require Import Floats.SpecFloat.
From Verif Require Import PyVal Time TimeParse Prepare PrepareProofs PropsPrepare Parser ParserProofs ParserTypes ParserOrder PropsParser.
Import ListNotations.
Open Scope string_scope.
Open Scope list_scope.
Open Scope nat_scope.

(** The strptime of the library reads the formats of [toks_of] as datetime.strptime does. *)
Definition std_dates (L : lib) : Prop := forall s fmt ts, toks_of fmt = Some ts -> l_strptime L s fmt = parse_to_timestamp s ts.
Definition std_lib : lib := Lib (fun s => s) (fun _ _ => lit "1.5") (fun _ => None)
  (fun s fmt => match toks_of fmt with Some ts => parse_to_timestamp s ts | None => None end) (fun _ => None) (fun _ => None) (fun _ => false) (fun _ _ _ _ => None).
Example std_lib_ok : std_dates std_lib.
Proof. intros s fmt ts E. cbn. rewrite E. reflexivity. Qed.

(** ** C39 *)
(** Equal options whose sets may be iterated in different orders. *)
Record reordered (o o' : options) : Prop := {
  ro_true : Permutation (true_values o) (true_values o');
  ro_false : Permutation (false_values o) (false_values o');
  ro_dates : Permutation (date_formats o) (date_formats o');
  ro_hints : Permutation (geo_hints o) (geo_hints o');
  ro_length : keyword_length o = keyword_length o';
  ro_float : float_format o = float_format o' }.
(** C39, as stated, is false: day first or month first depends on the order. *)
Theorem C39_order_refuted : exists L o o' v, std_dates L /\ reordered o o' /\
  dget (parse_value L o v) (lit "_d") = Some (VInt 1044057600000) /\ dget (parse_value L o' v) (lit "_d") = Some (VInt 1041465600000).
Proof.
  exists std_lib, (Opts [] [] [lit "%d/%m/%Y"; lit "%m/%d/%Y"] [] 8191 (lit "{0:.15g}")), (Opts [] [] [lit "%m/%d/%Y"; lit "%d/%m/%Y"] [] 8191 (lit "{0:.15g}")), (VStr (lit "01/02/2003")).
  split; [exact std_lib_ok|]. split; [split; cbn; auto; apply perm_swap|]. split; vm_compute; reflexivity.
Qed.
Print Assumptions C39_order_refuted.
(** formats that agree on the moment wherever two of them accept the same text *)
Definition agreeing (L : lib) (fs : list pystr) : Prop :=
  forall s f g t u, In f fs -> In g fs -> l_strptime L s f = Some t -> l_strptime L s g = Some u -> t = u.
Lemma first_date_perm L fs fs' s : Permutation fs fs' -> (forall f g t u, In f fs -> In g fs -> l_strptime L s f = Some t -> l_strptime L s g = Some u -> t = u) ->
  first_date L fs s = first_date L fs' s.
Proof.
  intros P A. pose proof (first_date_spec L fs s) as H. pose proof (first_date_spec L fs' s) as H'.
  assert (I : forall f, In f fs <-> In f fs') by (intro f; split; apply Permutation_in; [exact P|apply Permutation_sym, P]).
  destruct (first_date L fs s) as [t|]; destruct (first_date L fs' s) as [u|]; auto.
  - destruct H as (a & f & b & -> & F1 & _), H' as (a' & g & b' & -> & G1 & _). f_equal. apply (A f g); [apply in_elt|apply I, in_elt|exact F1|exact G1].
  - exfalso. destruct H as (a & f & b & -> & F1 & _). rewrite Forall_forall in H'. rewrite (H' f) in F1; [discriminate|]. apply I, in_elt.
  - exfalso. destruct H' as (a & f & b & -> & F1 & _). rewrite Forall_forall in H. rewrite (H f) in F1; [discriminate|]. apply I, in_elt.
Qed.
Lemma memb_perm s l l' : Permutation l l' -> memb s l = memb s l'.
Proof. intro P. apply eq_true_iff_eq. rewrite !memb_In. split; apply Permutation_in; [exact P|apply Permutation_sym, P]. Qed.
(** One value: only the formats that accept its text have to agree. *)
Theorem C39_value_partial : forall L o o' v, reordered o o' ->
  (forall f g t u, In f (date_formats o) -> In g (date_formats o) -> l_strptime L (text_of L o v) f = Some t -> l_strptime L (text_of L o v) g = Some u -> t = u) ->
  parse_value L o v = parse_value L o' v.
Proof.
  intros L o o' v [R1 R2 R3 R4 R5 R6] A. assert (Et : text_of L o v = text_of L o' v) by (unfold text_of; rewrite R6; reflexivity).
  unfold parse_value, bool_of, number_of. rewrite <- Et, R5, (first_date_perm L _ _ _ R3 A), (memb_perm _ _ _ R1), (memb_perm _ _ _ R2). reflexivity.
Qed.
Print Assumptions C39_value_partial.
(** Whole records, the order of the other sets (and of the sets of hints) included; a set of hints has one
    hint for each latitude field (model.py:135-141). *)
Theorem C39_record_partial : forall L o o' d, reordered o o' -> agreeing L (date_formats o) -> NoDup (map h_lat (geo_hints o)) ->
  parse L o d = parse L o' d.
Proof.
  intros L o o' d R A Hn. apply parse_reordered; [|exact Hn|exact (ro_hints _ _ R)]. intro v. apply C39_value_partial; [exact R|]. intros f g t u. apply A.
Qed.
Print Assumptions C39_record_partial.
(** options.py:200-210 [reset_date_formats]: the formats of diffing.py:34 *)
Definition default_formats (o : options) : Prop := Permutation (date_formats o) [DATETIME_STR; DATE_STR; NAIVE_DATETIME_STR].
Lemma default_agree L fs : std_dates L -> Permutation fs [DATETIME_STR; DATE_STR; NAIVE_DATETIME_STR] -> agreeing L fs.
Proof.
  intros HL P s f g t u Hf Hg Ef Eg.
  assert (K : forall f, In f fs -> exists ts, toks_of f = Some ts /\ In ts [DATETIME_FORMAT; DATE_FORMAT; NAIVE_DATETIME_FORMAT]).
  { intros h Hh. apply (Permutation_in _ P) in Hh. destruct Hh as [<-|[<-|[<-|[]]]]; eexists; (split; [reflexivity|]); cbn; auto. }
  destruct (K f Hf) as (a & A1 & A2), (K g Hg) as (b & B1 & B2). rewrite (HL s f a A1) in Ef. rewrite (HL s g b B1) in Eg. unfold parse_to_timestamp in *.
  destruct (strptime a s) as [x|] eqn:Ex; [|discriminate]. destruct (strptime b s) as [y|] eqn:Ey; [|discriminate]. pose proof (formats_exclusive a b s x y A2 B2 Ex Ey). subst b. congruence.
Qed.
(** With the default formats the order never matters. *)
Theorem C39_defaults_partial : forall L o o' d, std_dates L -> default_formats o -> NoDup (map h_lat (geo_hints o)) -> reordered o o' ->
  parse L o d = parse L o' d /\ forall v, parse_value L o v = parse_value L o' v.
Proof.
  intros L o o' d HL D Hn R. pose proof (default_agree L _ HL D) as A. split; [apply C39_record_partial; assumption|]. intro v. apply C39_value_partial; [exact R|]. intros f g t u. apply A.
Qed.
Print Assumptions C39_defaults_partial.
Definition date_opts : options := Opts [lit "yes"; lit "y"] [] [DATETIME_STR; DATE_STR; NAIVE_DATETIME_STR] [Hint (lit "a") (lit "b") None 16; Hint (lit "c") (lit "d") None 16] 8191 (lit "{0:.15g}").
Definition date_opts' : options := Opts [lit "y"; lit "yes"] [] [NAIVE_DATETIME_STR; DATE_STR; DATETIME_STR] [Hint (lit "c") (lit "d") None 16; Hint (lit "a") (lit "b") None 16] 8191 (lit "{0:.15g}").
Example C39_example : reordered date_opts date_opts' /\ default_formats date_opts /\ NoDup (map h_lat (geo_hints date_opts)) /\ agreeing std_lib (date_formats date_opts) /\
  dget (parse_value std_lib date_opts (VStr (lit "2024-02-29"))) (lit "_d") = Some (VInt 1709164800000).
Proof.
  split.
  { split; cbn; auto; try apply perm_swap. eapply perm_trans; [apply perm_skip, perm_swap|]. eapply perm_trans; [apply perm_swap|]. apply perm_skip, perm_swap. }
  split; [apply Permutation_refl|]. split; [repeat constructor; cbn; intuition discriminate|]. split; [apply default_agree; [exact std_lib_ok|apply Permutation_refl]|vm_compute; reflexivity].
Qed.

(** ** C58 *)
(** The dates a record can hold: what the field is indexed as is the timestamp [to_timestamp] (C49, C50) of
    the moment: that of an aware datetime, a naive one taken as UTC, midnight UTC for a date. *)
Inductive moment_of : pyobj -> datetime -> Prop :=
| mo_aware t o : valid_dt t = true -> dtz t = Some o -> moment_of (ODateTime t) t
| mo_naive y m d h i s u : valid_dt (DT y m d h i s u None) = true -> moment_of (ODateTime (DT y m d h i s u None)) (DT y m d h i s u (Some 0%Z))
| mo_date y m d : valid_date y m d = true -> moment_of (ODate (PD y m d)) (DT y m d 0 0 0 0 (Some 0%Z)).
(** C58, as stated, is false on platforms where strftime does not pad years (glibc): dates before the year
    1000 are not indexed as dates at all. *)
Theorem C58_dates_refuted : exists db L o v t, std_dates L /\ default_formats o /\ moment_of v t /\
  dget (parse_value L o (prepare_data db false v)) (lit "_d") = None.
Proof.
  exists ascii_db, std_lib, date_opts, (ODate (PD 999 12 31)). eexists. split; [exact std_lib_ok|]. split; [apply Permutation_refl|]. split; [apply mo_date; reflexivity|]. vm_compute. reflexivity.
Qed.
Print Assumptions C58_dates_refuted.
Lemma first_date_in L fs s f t : In f fs -> (forall f g t u, In f fs -> In g fs -> l_strptime L s f = Some t -> l_strptime L s g = Some u -> t = u) ->
  l_strptime L s f = Some t -> first_date L fs s = Some t.
Proof.
  intros Hf A E. pose proof (first_date_spec L fs s) as H. destruct (first_date L fs s) as [u|].
  - destruct H as (a & g & b & -> & G & _). f_equal. apply (A g f); [apply in_elt|exact Hf|exact G|exact E].
  - exfalso. rewrite Forall_forall in H. rewrite (H f Hf) in E. discriminate.
Qed.
Lemma date_value db pad L o v t : std_dates L -> default_formats o -> moment_of v t -> pad = true \/ (1000 <= dyear t)%Z ->
  exists s, prepare_data db pad v = VStr s /\ s <> [] /\ first_date L (date_formats o) s = Some (to_timestamp 0 t).
Proof.
  intros HL D M Hp. pose proof (default_agree L _ HL D) as A. pose proof (Permutation_sym D) as D'.
  destruct M as [t z V Ez|y m d h i s0 u V|y m d V].
  - exists (strftime_dt pad t). split; [reflexivity|]. pose proof (strptime_dt pad t V Hp) as E. rewrite Ez in E. split; [intro K; rewrite K in E; discriminate|].
    apply (first_date_in L _ _ DATETIME_STR); [apply (Permutation_in _ D'); cbn; auto|intros f g x y; apply A|]. rewrite (HL _ _ _ toks_datetime). unfold parse_to_timestamp, in_utc. rewrite E, Ez. reflexivity.
  - exists (strftime_dt pad (DT y m d h i s0 u None)). split; [reflexivity|]. pose proof (strptime_dt pad _ V Hp) as E. cbn [dtz] in E. split; [intro K; rewrite K in E; discriminate|].
    apply (first_date_in L _ _ NAIVE_DATETIME_STR); [apply (Permutation_in _ D'); cbn; auto|intros f g x z; apply A|]. rewrite (HL _ _ _ toks_naive). unfold parse_to_timestamp. rewrite E. reflexivity.
  - exists (strftime_date pad (PD y m d)). split; [reflexivity|]. pose proof (strptime_date pad (PD y m d) V Hp) as E. split; [intro K; rewrite K in E; discriminate|].
    apply (first_date_in L _ _ DATE_STR); [apply (Permutation_in _ D'); cbn; auto|intros f g x z; apply A|]. rewrite (HL _ _ _ toks_date). unfold parse_to_timestamp. rewrite E. reflexivity.
Qed.
Lemma value_date L o v : dget (parse_value L o v) (lit "_d") = option_map VInt (first_date L (date_formats o) (text_of L o v)).
Proof. unfold parse_value. destruct (l_wkt L _), (bool_of L o v), (number_of L o v), (first_date L _ _); reflexivity. Qed.
(** Where strftime pads the year, and for the years from 1000 anyway, for any order of the formats: *)
Theorem C58_dates_partial : forall db pad L o v t, std_dates L -> default_formats o -> moment_of v t -> pad = true \/ (1000 <= dyear t)%Z ->
  dget (parse_value L o (prepare_data db pad v)) (lit "_d") = Some (VInt (to_timestamp 0 t)).
Proof. intros db pad L o v t HL D M Hp. destruct (date_value db pad L o v t HL D M Hp) as (s & -> & _ & E). rewrite value_date. cbn [text_of]. rewrite E. reflexivity. Qed.
Print Assumptions C58_dates_partial.
(** The same for a top level field of a parsed record (geographic hints only add to it). *)
Theorem C58_field_partial : forall db pad L o rec r k v t, std_dates L -> default_formats o -> moment_of v t -> pad = true \/ (1000 <= dyear t)%Z ->
  dget (prepare_record_data db pad rec) k = Some (prepare_data db pad v) -> parse L o (prepare_record_data db pad rec) = Some r ->
  exists p, dget (p_parsed r) k = Some (VDict p) /\ dget p (lit "_d") = Some (VInt (to_timestamp 0 t)).
Proof.
  intros db pad L o rec r k v t HL D M Hp Hk Hr. destruct (date_value db pad L o v t HL D M Hp) as (s & Es & Ns & E). pose proof (record_wf db pad rec) as W. apply wf_dict in W. rewrite Es in Hk.
  destruct (parse_field L o _ r k (VStr s) (proj1 W) Hr Hk) as (p & P1 & P2); [destruct s; [contradiction|exact I]|]. exists p. split; [exact P1|]. rewrite P2 by discriminate. rewrite value_date. cbn [text_of]. rewrite E. reflexivity.
Qed.
Print Assumptions C58_field_partial.
(** C39 exactly: the order of a set of date formats is without effect on a value iff the formats accepting its
    text agree on the moment. *)
Theorem C39_exact : forall L o v,
  (forall o', reordered o o' -> parse_value L o v = parse_value L o' v) <->
  (forall f g t u, In f (date_formats o) -> In g (date_formats o) -> l_strptime L (text_of L o v) f = Some t -> l_strptime L (text_of L o v) g = Some u -> t = u).
Proof.
  intros L o v. split; [|intros A o' R; apply C39_value_partial; assumption].
  intro H. assert (K : forall f t, In f (date_formats o) -> l_strptime L (text_of L o v) f = Some t -> dget (parse_value L o v) (lit "_d") = Some (VInt t)).
  { intros f t Hf E. apply in_split in Hf. destruct Hf as (a & b & Hab).
    rewrite (H (Opts (true_values o) (false_values o) (f :: a ++ b) (geo_hints o) (keyword_length o) (float_format o))).
    - rewrite value_date. cbn [date_formats]. change (text_of L (Opts (true_values o) (false_values o) (f :: a ++ b) (geo_hints o) (keyword_length o) (float_format o)) v) with (text_of L o v).
      cbn [first_date]. rewrite E. reflexivity.
    - split; cbn; auto. rewrite Hab. apply Permutation_sym, Permutation_middle. }
  intros f g t u Hf Hg Ef Eg. pose proof (K f t Hf Ef) as A. pose proof (K g u Hg Eg) as B. congruence.
Qed.
Print Assumptions C39_exact.
(** Exactly: before the year 1000, where strftime does not pad, no date is indexed as a date. *)
Lemma no_year pre r : Datatypes.length pre <= 3 -> m_year (pre ++ 45%N :: r) = [].
Proof.
  intro H. destruct pre as [|a [|b [|c [|d pre]]]]; cbn [Datatypes.length] in H; try lia; cbn [app m_year forallb].
  - destruct r as [|x [|y [|z r]]]; reflexivity.
  - destruct r as [|x [|y r]]; cbn [app m_year forallb]; try reflexivity. destruct (is_digit a); reflexivity.
  - destruct r as [|x r]; cbn [app m_year forallb]; try reflexivity. destruct (is_digit a), (is_digit b); reflexivity.
  - destruct (is_digit a), (is_digit b), (is_digit c); reflexivity.
Qed.
Lemma year_short y : (y < 1000)%Z -> Datatypes.length (year_str false y) <= 3.
Proof.
  intro H. unfold year_str. destruct (y <? 10)%Z; [rewrite dig_length; lia|]. destruct (y <? 100)%Z; [rewrite dig_length; lia|].
  destruct (Z.ltb_spec y 1000); [rewrite dig_length; lia|lia].
Qed.
Lemma toks_no_year ts f s : m_year s = [] -> m_toks (TY :: ts) f s = [].
Proof. intro E. cbn [m_toks]. rewrite E. reflexivity. Qed.
Lemma short_unread ts y r : In ts [DATETIME_FORMAT; DATE_FORMAT; NAIVE_DATETIME_FORMAT] -> (y < 1000)%Z -> parse_to_timestamp (year_str false y ++ 45%N :: r) ts = None.
Proof.
  intros Hts Hy. unfold parse_to_timestamp, strptime.
  assert (E : m_toks ts fields0 (year_str false y ++ 45%N :: r) = []).
  { destruct Hts as [<-|[<-|[<-|[]]]]; apply toks_no_year, no_year, year_short, Hy. }
  rewrite E. reflexivity.
Qed.
Theorem C58_exact : forall db pad L o v t, std_dates L -> default_formats o -> moment_of v t ->
  dget (parse_value L o (prepare_data db pad v)) (lit "_d") = if pad || (1000 <=? dyear t)%Z then Some (VInt (to_timestamp 0 t)) else None.
Proof.
  intros db pad L o v t HL D M. destruct (pad || (1000 <=? dyear t)%Z) eqn:E.
  - apply C58_dates_partial; try assumption. apply orb_true_iff in E. destruct E as [->|E]; [left; reflexivity|right; apply Z.leb_le, E].
  - apply orb_false_iff in E. destruct E as [-> E]. apply Z.leb_gt in E. rewrite value_date.
    assert (X : exists r, prepare_data db false v = VStr (year_str false (dyear t) ++ 45%N :: r)).
    { destruct M; cbn [prepare_data dyear] in *; eexists; reflexivity. }
    destruct X as (r & X). rewrite X. cbn [text_of]. pose proof (first_date_spec L (date_formats o) (year_str false (dyear t) ++ 45%N :: r)) as F.
    destruct (first_date L (date_formats o) _) as [u|]; [|reflexivity]. exfalso. destruct F as (a & f & b & Ef & F & _).
    assert (Hf : In f (date_formats o)) by (rewrite Ef; apply in_elt). apply (Permutation_in _ D) in Hf.
    assert (K : exists ts, toks_of f = Some ts /\ In ts [DATETIME_FORMAT; DATE_FORMAT; NAIVE_DATETIME_FORMAT]).
    { destruct Hf as [<-|[<-|[<-|[]]]]; eexists; (split; [reflexivity|]); cbn; auto. }
    destruct K as (ts & K1 & K2). rewrite (HL _ f ts K1), short_unread in F by assumption. discriminate F.
Qed.
Print Assumptions C58_exact.
Definition date_record : record := Rec (lit "r1") [(KS (lit "when"), ODateTime (DT 1999 12 31 23 59 58 7 (Some (-5400000000)%Z))); (KS (lit "day"), ODate (PD 2024 2 29))].
Example C58_example : std_dates std_lib /\ default_formats date_opts /\ moment_of (ODateTime (DT 1999 12 31 23 59 58 7 (Some (-5400000000)%Z))) (DT 1999 12 31 23 59 58 7 (Some (-5400000000)%Z)) /\
  dget (prepare_record_data ascii_db false date_record) (lit "when") = Some (VStr (lit "1999-12-31T23:59:58.000007-0130")) /\
  exists r, parse std_lib date_opts (prepare_record_data ascii_db false date_record) = Some r.
Proof.
  split; [exact std_lib_ok|]. split; [apply Permutation_refl|]. split; [eapply mo_aware; reflexivity|]. split; [vm_compute; reflexivity|]. eexists. vm_compute. reflexivity.
Qed.
