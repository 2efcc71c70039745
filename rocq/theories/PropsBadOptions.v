(** Property C97: options with formats that cannot be used. *)
From Coq Require Import String Ascii.
From Coq Require Import List ZArith NArith Bool Lia Sorted Permutation.
From Coq Require Import Floats.SpecFloat.
From Verif Require Import PyVal Diff DiffProofs Prepare Mongo Store MongoProofs MongoStore MongoMore Client ClientProofs Time TimeParse.
From Verif Require Import Index IndexSpec IndexProofs PropsIndex Sync SyncSpec SyncProofs SyncBuild SyncColl SyncTrace SyncView SyncMore SyncReach SyncEvents SyncStale SyncLocal PropsSync PropsSyncMore Raises.
From Verif Require Import PropsPrepare Parser ParserSim ParserTypes ParserEq PropsParser PropsDates PropsFormats PropsTotal Options EndToEnd PropsEndToEnd BadOptions PropsRaises.
Import ListNotations.
Open Scope string_scope.
Open Scope list_scope.
Open Scope Z_scope.

(** ** Specification *)
(** A directive occurs twice in the format. *)
Definition repeats (fmt : pystr) : Prop := exists a c b, fmt = a ++ [37%N; c] ++ b /\ tells b [37%N; c].
(** datetime.strptime raises re.error for the formats of [read_format] in which a directive occurs twice, whatever the text, and nothing but
    ValueError for the others. *)
Definition std_traps (T : traps) : Prop := forall s fmt ts, read_format fmt = Some ts -> (t_date T s fmt = true <-> repeats fmt).
(** A value other than None and the empty text somewhere in the data. *)
Definition inside (a : value) (d : dict) : Prop := sub a (VDict d) /\ is_scalar a = true /\ a <> VNone /\ a <> VStr [].
Section Spec.
Variables (L : lib) (T : traps).
(** [stops fs s]: a format that raises comes before those that read the text. *)
Definition stops (fs : list pystr) (s : pystr) : Prop :=
  exists a f b, fs = a ++ f :: b /\ t_date T s f = true /\ forall g, In g a -> l_strptime L s g = None.
(** The options cannot be used for the value. *)
Definition unusable (o : options) (a : value) : Prop :=
  (exists x, a = VFloat x /\ t_float T (float_format o) x = true) \/ stops (date_formats o) (text_of L o a).
End Spec.

(** ** Formats *)
Lemma read_ind (Q : pystr -> list tok -> Prop) : Q [] [] ->
  (forall d k r ts, dtok k d -> Q r ts -> Q (37%N :: d :: r) (k :: ts)) ->
  (forall c r ts, c <> 37%N -> Q r ts -> Q (c :: r) (spaced ts)) -> (forall c r ts, c <> 37%N -> Q r ts -> Q (c :: r) (TL c :: ts)) ->
  forall s ts, read_format s = Some ts -> Q s ts.
Proof.
  intros H0 H1 H2 H3 s. assert (G : forall n s, (length s <= n)%nat -> forall ts, read_format s = Some ts -> Q s ts); [|exact (G (length s) s (le_n _))].
  clear s. induction n as [|n IH]; intros s Ln ts E.
  - destruct s; [|cbn in Ln; lia]. injection E as <-. exact H0.
  - destruct s as [|c r]; [injection E as <-; exact H0|]. cbn [read_format] in E. destruct (N.eqb c 37) eqn:Ec.
    + apply N.eqb_eq in Ec. subst c. destruct r as [|d r]; [discriminate|]. destruct (directive d) as [k|] eqn:Ed; [|discriminate]. destruct (read_format r) as [us|] eqn:Er; [|discriminate]. injection E as <-.
      apply H1; [exact Ed|]. apply IH; [cbn in Ln; lia|exact Er].
    + apply N.eqb_neq in Ec. destruct (is_ws c).
      * destruct (read_format r) as [us|] eqn:Er; [|discriminate]. assert (ts = spaced us) by (destruct us as [|[] us]; injection E as <-; reflexivity). subst ts. apply H2; [exact Ec|]. apply IH; [cbn in Ln; lia|exact Er].
      * destruct (N.leb c 32 || N.leb 127 c)%bool; [discriminate|]. destruct (read_format r) as [us|] eqn:Er; [|discriminate]. injection E as <-. apply H3; [exact Ec|]. apply IH; [cbn in Ln; lia|exact Er].
Qed.
Lemma in_spaced k ts : k <> TW -> (In k (spaced ts) <-> In k ts).
Proof. intro N. assert (A : In k (TW :: ts) <-> In k ts) by (split; [intros [E|E]; [destruct N; symmetry; exact E|exact E]|intro K; right; exact K]). destruct ts as [|[] ts]; cbn [spaced]; try exact A. reflexivity. Qed.
Lemma read_tells fmt ts : read_format fmt = Some ts -> forall k d, dtok k d -> (In k ts <-> tells fmt [37%N; d]).
Proof.
  revert fmt ts. apply (read_ind (fun fmt ts => forall k d, dtok k d -> (In k ts <-> tells fmt [37%N; d]))).
  - intros k d _. split; [intros []|]. intros (a & b & E). destruct a; discriminate E.
  - intros e k r ts D IH k' d' D'. destruct (dtok_not k e D) as (_ & _ & N3). rewrite tells_directive by exact N3. rewrite <- (IH k' d' D'). cbn [In].
    split; (intros [E|E]; [left|right; exact E]); [subst k'; exact (dtok_inj k e d' D D')|subst d'; unfold dtok in D, D'; congruence].
  - intros c r ts N IH k d D. rewrite tells_cons by exact N. rewrite <- (IH k d D). apply in_spaced, (dtok_not k d D).
  - intros c r ts N IH k d D. rewrite tells_cons by exact N. rewrite <- (IH k d D). cbn [In]. split; [|intro K; right; exact K]. intros [E|E]; [|exact E]. destruct (proj1 (dtok_not k d D) c). symmetry. exact E.
Qed.
Lemma repeats_cons c fmt : c <> 37%N -> (repeats (c :: fmt) <-> repeats fmt).
Proof.
  intro N. split; intros (a & d & b & E & K); [|exists (c :: a), d, b; rewrite E; auto]. destruct a as [|x a]; cbn [app] in E; [congruence|]. injection E as _ E. exists a, d, b. auto.
Qed.
Lemma repeats_directive e fmt : e <> 37%N -> (repeats (37%N :: e :: fmt) <-> tells fmt [37%N; e] \/ repeats fmt).
Proof.
  intro N. split.
  - intros (a & d & b & E & K). destruct a as [|x [|y a]]; cbn [app] in E.
    + injection E as -> ->. left. exact K.
    + injection E as _ E1 _. congruence.
    + injection E as _ _ E. right. exists a, d, b. auto.
  - intros [K|(a & d & b & E & K)]; [exists [], e, fmt; auto|]. exists (37%N :: e :: a), d, b. rewrite E. auto.
Qed.
Lemma once_skip k ts : k = TW \/ (exists c, k = TL c) -> once (k :: ts) = once ts.
Proof. intro H. cbn [once]. assert (E : existsb (tok_eqb k) ts = false); [|rewrite E; reflexivity]. destruct H as [->|(c & ->)]; induction ts as [|x ts IH]; cbn [existsb tok_eqb orb]; auto. Qed.
(** The model of strptime refuses exactly the formats with a directive twice. *)
Lemma once_repeats fmt ts : read_format fmt = Some ts -> (once ts = false <-> repeats fmt).
Proof.
  revert fmt ts. cut (forall fmt ts, read_format fmt = Some ts -> (forall k d, dtok k d -> (In k ts <-> tells fmt [37%N; d])) /\ (once ts = false <-> repeats fmt)); [intros K fmt ts E; exact (proj2 (K fmt ts E))|].
  apply (read_ind (fun fmt ts => (forall k d, dtok k d -> (In k ts <-> tells fmt [37%N; d])) /\ (once ts = false <-> repeats fmt))).
  - split; [intros k d _; split; [intros []|]; intros (a & b & E); destruct a; discriminate E|]. split; [discriminate|]. intros (a & d & b & E & _). destruct a; discriminate E.
  - intros e k r ts D [IH1 IH2]. destruct (dtok_not k e D) as (N1 & N2 & N3). split.
    + intros k' d' D'. rewrite tells_directive by exact N3. rewrite <- (IH1 k' d' D'). cbn [In].
      split; (intros [E|E]; [left|right; exact E]); [subst k'; exact (dtok_inj k e d' D D')|subst d'; unfold dtok in D, D'; congruence].
    + rewrite repeats_directive by exact N3. rewrite <- IH2, <- (IH1 k e D), <- (has_In k ts N1 N2). cbn [once]. unfold has. destruct (existsb (tok_eqb k) ts), (once ts); cbn; intuition.
  - intros c r ts N [IH1 IH2]. split; [intros k d D; rewrite tells_cons by exact N; rewrite <- (IH1 k d D); apply in_spaced, (dtok_not k d D)|].
    rewrite repeats_cons by exact N. rewrite <- IH2. pose proof (once_skip TW ts (or_introl eq_refl)) as K. destruct ts as [|[] ts]; cbn [spaced]; rewrite ?K; reflexivity.
  - intros c r ts N [IH1 IH2]. split.
    + intros k d D. rewrite tells_cons by exact N. rewrite <- (IH1 k d D). cbn [In]. split; [|intro K; right; exact K]. intros [E|E]; [|exact E]. destruct (proj1 (dtok_not k d D) c). symmetry. exact E.
    + rewrite repeats_cons by exact N. rewrite <- IH2, (once_skip (TL c) ts) by (right; exists c; reflexivity). reflexivity.
Qed.

(** ** Values *)
Section Values.
Variables (L : lib) (T : traps).
Lemma dates_raise_iff fs s : dates_raise L T fs s = true <-> stops L T fs s.
Proof.
  unfold stops. induction fs as [|f fs IH]; cbn [dates_raise].
  - split; [discriminate|]. intros (a & f & b & E & _). destruct a; discriminate E.
  - destruct (t_date T s f) eqn:Ef; [split; [intros _; exists [], f, fs; split; [reflexivity|]; split; [exact Ef|intros g []]|reflexivity]|]. destruct (l_strptime L s f) as [z|] eqn:Es.
    + split; [discriminate|]. intros (a & g & b & E & H1 & H2). destruct a as [|x a]; cbn [app] in E; injection E as -> ->; [congruence|]. rewrite (H2 x (or_introl eq_refl)) in Es. discriminate.
    + rewrite IH. split; intros (a & g & b & E & H1 & H2).
      * exists (f :: a), g, b. split; [rewrite E; reflexivity|]. split; [exact H1|]. intros h [<-|Hh]; [exact Es|exact (H2 h Hh)].
      * destruct a as [|x a]; cbn [app] in E; injection E as -> ->; [congruence|]. exists a, g, b. split; [reflexivity|]. split; [exact H1|]. intros h Hh. apply H2. right. exact Hh.
Qed.
Lemma value_raises_iff o a : value_raises L T o a = true <-> unusable L T o a.
Proof.
  unfold value_raises, unusable. rewrite orb_true_iff, dates_raise_iff. split; (intros [H|H]; [left|right; exact H]).
  - destruct a; try discriminate H. eexists. split; [reflexivity|exact H].
  - destruct H as (x & -> & H). exact H.
Qed.
Lemma reached_iff v a : In a (reached v) <-> sub a v /\ is_scalar a = true /\ a <> VNone /\ a <> VStr [].
Proof.
  assert (One : forall w, is_scalar w = true -> w <> VNone -> w <> VStr [] -> (In a [w] <-> sub a w /\ is_scalar a = true /\ a <> VNone /\ a <> VStr [])).
  { intros w Hw N1 N2. split; [intros [<-|[]]; split; [constructor|auto]|]. intros (S & _). inversion S; subst; try discriminate Hw. left. reflexivity. }
  assert (Non : forall w, w = VNone \/ w = VStr [] -> (False <-> sub a w /\ is_scalar a = true /\ a <> VNone /\ a <> VStr [])).
  { intros w Hw. split; [intros []|]. intros (S & _ & N1 & N2). destruct Hw as [-> | ->]; inversion S; subst; contradiction. }
  induction v as [|b|z|f|s|l IH|d IH] using value_ind'; cbn [reached].
  - exact (Non VNone (or_introl eq_refl)).
  - apply One; [reflexivity|discriminate|discriminate].
  - apply One; [reflexivity|discriminate|discriminate].
  - apply One; [reflexivity|discriminate|discriminate].
  - destruct s as [|c s]; [exact (Non (VStr []) (or_intror eq_refl))|]. apply One; [reflexivity|discriminate|discriminate].
  - rewrite in_flat_map. rewrite Forall_forall in IH. split.
    + intros (x & Hx & K). apply (IH x Hx) in K. destruct K as [K1 K2]. split; [exact (sub_list a x l Hx K1)|exact K2].
    + intros (S & K). inversion S as [|x l' Hx Sx|]; subst; [destruct K as [K _]; discriminate K|]. exists x. split; [exact Hx|]. apply (IH x Hx). auto.
  - rewrite in_flat_map. rewrite Forall_forall in IH. split.
    + intros ([k x] & Hx & K). apply (IH (k, x) Hx) in K. destruct K as [K1 K2]. split; [exact (sub_dict a k x d Hx K1)|exact K2].
    + intros (S & K). inversion S as [| |k x d' Hx Sx]; subst; [destruct K as [K _]; discriminate K|]. exists (k, x). split; [exact Hx|]. apply (IH (k, x) Hx). auto.
Qed.
End Values.

(** ** C97 *)
(** Parsing raises exactly if it does for other reasons (C75), or the options cannot be used for a value inside. *)
Theorem C97_raises_exactly : forall L T o d, parse_checked L T o d = None <-> parse L o d = None \/ exists a, inside a d /\ unusable L T o a.
Proof.
  intros L T o d. unfold parse_checked. destruct (existsb (value_raises L T o) (reached (VDict d))) eqn:E.
  - split; [intros _; right|reflexivity]. apply existsb_exists in E. destruct E as (a & Ha & Ea). exists a. split; [apply reached_iff, Ha|apply value_raises_iff, Ea].
  - split; [intro K; left; exact K|]. intros [K|(a & Ha & Ea)]; [exact K|]. exfalso. assert (K : existsb (value_raises L T o) (reached (VDict d)) = true); [|congruence].
    apply existsb_exists. exists a. split; [apply reached_iff, Ha|apply value_raises_iff, Ea].
Qed.
Print Assumptions C97_raises_exactly.
(** The order of the set decides: with a format that raises for a text there is an order for which it does; it does for all of them exactly if no other format reads the text. *)
Theorem C97_order : forall L T fs s f, In f fs -> t_date T s f = true ->
  (exists gs, Permutation fs gs /\ stops L T gs s) /\
  ((forall gs, Permutation fs gs -> stops L T gs s) <-> forall g, In g fs -> t_date T s g = false -> l_strptime L s g = None).
Proof.
  intros L T fs s f Hf Ef. apply in_split in Hf. destruct Hf as (a & b & ->). split.
  - exists (f :: a ++ b). split; [apply Permutation_sym, Permutation_middle|]. exists [], f, (a ++ b). split; [reflexivity|]. split; [exact Ef|]. intros g [].
  - split.
    + intros H g Hg Eg. apply in_split in Hg. destruct Hg as (p & q & E). specialize (H (g :: p ++ q)). rewrite E in H. destruct (H (Permutation_sym (Permutation_middle p q g))) as (x & h & y & E' & K1 & K2).
      destruct x as [|x0 x]; cbn [app] in E'; injection E' as -> _; [congruence|]. apply K2. left. reflexivity.
    + intros H gs P. assert (G : forall gs, (forall g, In g gs -> t_date T s g = false -> l_strptime L s g = None) -> In f gs -> stops L T gs s).
      { clear - Ef. induction gs as [|g gs IH]; intros H K; [destruct K|]. destruct (t_date T s g) eqn:Eg.
        - exists [], g, gs. split; [reflexivity|]. split; [exact Eg|]. intros h [].
        - destruct K as [->|K]; [congruence|]. destruct (IH (fun h Hh => H h (or_intror Hh)) K) as (x & h & y & -> & K1 & K2). exists (g :: x), h, y. split; [reflexivity|]. split; [exact K1|]. intros i [<-|Hi]; [apply H; [left; reflexivity|exact Eg]|exact (K2 i Hi)]. }
      apply G; [|apply (Permutation_in f P), in_or_app; right; left; reflexivity]. intros g Hg. apply H, (Permutation_in g (Permutation_sym P)), Hg.
Qed.
Print Assumptions C97_order.
Theorem C97_some_order : forall L T o d a f, inside a d -> In f (date_formats o) -> t_date T (text_of L o a) f = true ->
  (exists o', reordered o o' /\ parse_checked L T o' d = None) /\
  ((forall g, In g (date_formats o) -> t_date T (text_of L o a) g = false -> l_strptime L (text_of L o a) g = None) -> forall o', reordered o o' -> parse_checked L T o' d = None).
Proof.
  intros L T o d a f Ha Hf Ef. destruct (C97_order L T (date_formats o) (text_of L o a) f Hf Ef) as [(gs & P & S) G].
  assert (E : forall o', reordered o o' -> text_of L o' a = text_of L o a) by (intros o' R; destruct a as [|[]| | | | |]; try reflexivity; cbn [text_of]; rewrite (ro_float _ _ R); reflexivity). split.
  - set (o' := Opts (true_values o) (false_values o) gs (geo_hints o) (keyword_length o) (float_format o)).
    assert (R : reordered o o') by (constructor; try apply Permutation_refl; try reflexivity; exact P). exists o'. split; [exact R|]. apply C97_raises_exactly. right. exists a. split; [exact Ha|]. right. rewrite (E o' R). exact S.
  - intros H o' R. apply C97_raises_exactly. right. exists a. split; [exact Ha|]. right. rewrite (E o' R). apply (proj2 G H). exact (ro_dates _ _ R).
Qed.
Print Assumptions C97_some_order.
(** Formats without repetition, as the default ones, and a format for floats that does not raise, can be used. *)
Theorem C97_usable_partial : forall L T o, std_traps T -> (forall f, In f (date_formats o) -> (exists ts, read_format f = Some ts) /\ ~ repeats f) ->
  (forall x, t_float T (float_format o) x = false) -> forall d, parse_checked L T o d = parse L o d.
Proof.
  intros L T o HT Hf Hx d. destruct (parse_checked L T o d) as [p|] eqn:E.
  - unfold parse_checked in E. destruct (existsb _ _); [discriminate|]. symmetry. exact E.
  - apply C97_raises_exactly in E. destruct E as [E|(a & _ & [(x & _ & K)|(p & f & q & E & K & _)])]; [symmetry; exact E|rewrite Hx in K; discriminate|].
    exfalso. destruct (Hf f) as [(ts & R) N]; [rewrite E; apply in_or_app; right; left; reflexivity|]. apply N, (HT (text_of L o a) f ts R), K.
Qed.
Print Assumptions C97_usable_partial.
Theorem C97_default : forall f, In f default_dates -> (exists ts, read_format f = Some ts) /\ ~ repeats f.
Proof.
  intros f Hf. assert (G : exists ts, read_format f = Some ts /\ once ts = true) by (destruct Hf as [<-|[<-|[<-|[]]]]; eexists; split; vm_compute; reflexivity).
  destruct G as (ts & E & O). split; [exists ts; exact E|]. intro K. apply (once_repeats f ts E) in K. congruence.
Qed.
Print Assumptions C97_default.

(** Options that cannot be used for data they are used with cannot be got rid of: nothing done afterwards makes it possible to sync. *)
Lemma checked_near L T S : keyed L -> forall x y o, near eq (record_data S) x y -> parse_checked L T o x = None -> parse_checked L T o y = None.
Proof.
  intros KD x y o (H1 & H2 & H3) E. apply C97_raises_exactly in E. apply C97_raises_exactly. destruct E as [E|(a & (A1 & A2 & A3) & U)].
  - left. pose proof (parse_sim L o KD x y (proj1 H1) (proj1 H2) H3) as K. rewrite E in K. destruct (parse L o y); [destruct K|reflexivity].
  - right. exists a. split; [|exact U]. split; [|split; assumption]. apply (vident_sub (VDict y) (VDict x) a (vident_sym _ _ H3)); [exact (proj1 H1)|exact A1|exact A2].
Qed.
Definition checked (L : lib) (T : traps) (d : dict) (o : options) : option parsed_data := parse_checked L T o d.
Theorem C97_for_good : forall L T S odef cap name t calls cl id v fd s x o a t' calls' cl' resync e,
  keyed L -> type_exact S -> history opts_eqb odef (record_data S) name t calls cl ->
  let h := committed (a_run a_empty (proj name calls)) id in newest h v -> In fd (map fst h) -> (forall k, In k (map fst h) -> fd <= k) ->
  in_force h s x -> options_used (get_options cl name) fd s o -> inside a x -> unusable L T o a ->
  after opts_eqb odef (record_data S) name t calls cl t' calls' cl' -> settled_record (a_run a_empty (proj name calls')) id ->
  considered resync e (get_options cl name) v -> raises (checked L T) pdata_eqb cap name cl' resync e.
Proof.
  intros L T S odef cap name t calls cl id v fd s x o a t' calls' cl' resync e KD HS H h Nv F1 F2 Fx Ou Ha Ua A Sr Hc.
  apply (C95_again opts_eqb odef (checked L T) pdata_eqb eq (record_data S) cap name (class_record S HS) (fun x y o N => checked_near L T S KD x y o N) t calls cl id v t' calls' cl' resync e H Nv); [|exact A|exact Sr|exact Hc].
  exists fd, s, x, o. split; [exact F1|]. split; [exact F2|]. split; [exact Fx|]. split; [|split; [exact Ou|apply C97_raises_exactly; right; exists a; auto]].
  intros ->. destruct Ha as (K & K1 & _). inversion K; subst; [discriminate K1|contradiction].
Qed.
Print Assumptions C97_for_good.

(** If the records can be parsed otherwise, a sync raises exactly if the options cannot be used for some version of a record that it considers. *)
Theorem C97_sync_exactly : forall L T S odef cap name t calls cl resync e, keyed L -> type_exact S -> history opts_eqb odef (record_data S) name t calls cl ->
  let h id := committed (a_run a_empty (proj name calls)) id in options_there (a_run a_empty (proj name calls)) (get_options cl name) ->
  all_parse (fun x o => parse L o x) h (get_options cl name) ->
  let stuck := exists id v fd s x o a, settled_record (a_run a_empty (proj name calls)) id /\ newest (h id) v /\ considered resync e (get_options cl name) v /\
    In fd (map fst (h id)) /\ (forall k, In k (map fst (h id)) -> fd <= k) /\ in_force (h id) s x /\ options_used (get_options cl name) fd s o /\ inside a x /\ unusable L T o a in
  (stuck -> raises (checked L T) pdata_eqb cap name cl resync e) /\
  (~ stuck -> (exists e', sync_run (checked L T) pdata_eqb cap cl name resync e false e') /\ forall e', ~ sync_run (checked L T) pdata_eqb cap cl name resync e true e').
Proof.
  intros L T S odef cap name t calls cl resync e KD HS H h Ho AP stuck.
  destruct (C95_stopped_exactly opts_eqb odef (checked L T) pdata_eqb eq (record_data S) cap name (class_record S HS) (fun x y o N => checked_near L T S KD x y o N) t calls cl resync e H Ho) as [K1 K2].
  split.
  - intros (id & v & fd & s & x & o & a & S1 & S2 & S3 & S4 & S5 & S6 & S7 & S8 & S9). apply K1. exists id, v. split; [exact S1|]. split; [exact S2|]. split; [exact S3|].
    exists fd, s, x, o. split; [exact S4|]. split; [exact S5|]. split; [exact S6|]. split; [|split; [exact S7|apply C97_raises_exactly; right; exists a; auto]].
    intros ->. destruct S8 as (K & K0 & _). inversion K; subst; [discriminate K0|contradiction].
  - intro N. apply K2. intros (id & v & S1 & S2 & S3 & fd & s & x & o & S4 & S5 & S6 & _ & S7 & S8). apply C97_raises_exactly in S8. destruct S8 as [E|(a & Ha & Ua)].
    + destruct S6 as (w & Hw & _). assert (G : exists w', In (w', o) (get_options cl name)).
      { destruct S7 as [(w' & K & _)|(_ & w' & K & _)]; [apply filter_In in K; destruct K as [K _]|]; exists w'; exact K. }
      destruct G as (w' & G). exact (AP id w x w' o Hw G E).
    + apply N. exists id, v, fd, s, x, o, a. repeat (split; [assumption|]). exact Ua.
Qed.
Print Assumptions C97_sync_exactly.

(** ** C97, as stated, is false *)
(** Strptime and its exceptions. *)
Definition std_trap : traps := Traps (fun _ fmt => match read_format fmt with Some ts => negb (once ts) | None => false end) (fun _ _ => false).
Lemma std_trap_ok : std_traps std_trap.
Proof. intros s fmt ts E. cbn. rewrite E, negb_true_iff. exact (once_repeats fmt ts E). Qed.
Lemma std_keyed : keyed std_lib.
Proof. constructor; reflexivity. Qed.
Definition lower0 (s : pystr) : pystr := s.
(** Two records are put, committed and synced; then a format is added to the default options. *)
Definition day_day : list bcall := [BDate (Some (lit "%d/%d/%Y"))].
Definition bad_opts : options := b_run lower0 None day_day.
Definition default_opts : options := b_run lower0 None [].
Definition dod (cl : client options) (c : call options) : client options := match do_call opts_eqb default_opts cl c with Some cl' => cl' | None => cl end.
Definition put_two : call options := CIngest db0 None [(lit "g", [(lit "_id", VStr (lit "g")); (lit "a", VInt 1)]); (lit "r", [(lit "_id", VStr (lit "r"))])].
Definition calls_one : list (call options) := [put_two; CCommit db0 1].
Definition cl_one : client options := fold_left dod calls_one empty_client.
Definition calls_two : list (call options) := calls_one ++ [CUpdateOptions db0 bad_opts; CCommit db0 2].
Definition cl_two : client options := fold_left dod [CUpdateOptions db0 bad_opts; CCommit db0 2] cl_one.
Notation history_d := (history opts_eqb default_opts (record_data ints_or_text) db0).
Notation after_d := (after opts_eqb default_opts (record_data ints_or_text) db0).
Lemma history_one : history_d 1 calls_one cl_one.
Proof.
  change calls_one with (([] ++ [put_two]) ++ [CCommit db0 1]). change cl_one with (fst (commit opts_eqb default_opts (dod empty_client put_two) db0 1)).
  apply (a_committed _ _ _ _ _ _ _ 0); [|lia]. apply (a_call _ _ _ _ _ _ _ 0 _ empty_client); [constructor|discriminate| |vm_compute; reflexivity].
  apply good_put; [| |reflexivity]; apply record_ok; try reflexivity; intros k v Hk; repeat (destruct Hk as [Hk|Hk]; [injection Hk as <- <-; split; [reflexivity|exact I]|]); destruct Hk.
Qed.
Lemma after_two : after_d 1 calls_one cl_one 2 calls_two cl_two.
Proof.
  change calls_two with ((calls_one ++ [CUpdateOptions db0 bad_opts]) ++ [CCommit db0 2]). change cl_two with (fst (commit opts_eqb default_opts (dod cl_one (CUpdateOptions db0 bad_opts)) db0 2)).
  apply (a_committed _ _ _ _ _ _ _ 1); [|lia]. apply (a_call _ _ _ _ _ _ _ 1 _ cl_one); [constructor|discriminate|constructor|vm_compute; reflexivity].
Qed.

Theorem C97_refuted : exists L T f o name t calls cl e t2 cl2 g, std_dates L /\ std_traps T /\ keyed L /\
  (** the builder accepts the format; before it is used the records are indexed *)
  b_step lower0 (b_init None) (BDate (Some f)) = Some o /\ history opts_eqb default_opts (record_data ints_or_text) name t calls cl /\
  sync_run (checked L T) pdata_eqb 10 cl name false empty_es false e /\
  after opts_eqb default_opts (record_data ints_or_text) name t calls cl t2 (calls ++ [CUpdateOptions name o; CCommit name t2]) cl2 /\
  (** whatever is done then, no sync and no resync returns *)
  forall t' calls' cl', after opts_eqb default_opts (record_data ints_or_text) name t2 (calls ++ [CUpdateOptions name o; CCommit name t2]) cl2 t' calls' cl' ->
    settled_record (a_run a_empty (proj name calls')) g -> forall cap resync e1 raised e2, es_version e1 = es_version e ->
    sync_run (checked L T) pdata_eqb cap cl' name resync e1 raised e2 -> raised = true.
Proof.
  exists std_lib, std_trap, (lit "%d/%d/%Y"), bad_opts, db0, 1, calls_one, cl_one.
  destruct (sync_plan_r (checked std_lib std_trap) pdata_eqb 10 cl_one db0 false empty_es) as [| |e1 ops r] eqn:Ep; [vm_compute in Ep; discriminate|vm_compute in Ep; discriminate|].
  assert (Er : r = false) by (vm_compute in Ep; injection Ep as _ _ <-; reflexivity). subst r.
  exists (write_ops ops e1), 2, cl_two, (lit "g"). split; [exact std_lib_ok|]. split; [exact std_trap_ok|]. split; [exact std_keyed|]. split; [reflexivity|]. split; [exact history_one|].
  split; [exact (run_done _ _ _ _ _ _ _ _ _ Ep)|]. split; [exact after_two|].
  assert (Ev : es_version (write_ops ops e1) = Some 1) by (vm_compute in Ep; injection Ep as <- <-; vm_compute; reflexivity). rewrite Ev. clear Ep Ev ops e1.
  intros t' calls' cl' A S cap resync e1 raised e2 Ev K. change (calls_one ++ [CUpdateOptions db0 bad_opts; CCommit db0 2]) with calls_two in A.
  assert (Eh : committed (a_run a_empty (proj db0 calls_two)) (lit "g") = [(1, [(lit "_id", VStr (lit "g")); (lit "a", VInt 1)])]) by (vm_compute; reflexivity).
  assert (Eo : get_options cl_two db0 = [(1, default_opts); (2, bad_opts)]) by (vm_compute; reflexivity).
  assert (H2 : history_d 2 calls_two cl_two).
  { change calls_two with ((calls_one ++ [CUpdateOptions db0 bad_opts]) ++ [CCommit db0 2]). change cl_two with (fst (commit opts_eqb default_opts (dod cl_one (CUpdateOptions db0 bad_opts)) db0 2)).
    apply (a_committed _ _ _ _ _ _ _ 1); [|lia]. apply (a_call _ _ _ _ _ _ _ 1 _ cl_one); [exact history_one|discriminate|constructor|vm_compute; reflexivity]. }
  destruct (C97_for_good std_lib std_trap ints_or_text default_opts cap db0 2 calls_two cl_two (lit "g") 1 1 2 [(lit "_id", VStr (lit "g")); (lit "a", VInt 1)] bad_opts (VStr (lit "g")) t' calls' cl' resync e1) as [_ G]; try assumption.
  - exact std_keyed.
  - exact ints_exact.
  - rewrite Eh. split; [left; reflexivity|]. intros k [<-|[]]. cbn. lia.
  - rewrite Eh. left. reflexivity.
  - rewrite Eh. intros k [<-|[]]. cbn. lia.
  - rewrite Eh. exists 1. split; [left; reflexivity|]. split; [lia|]. intros w y [E|[]] _. injection E as <- _. lia.
  - rewrite Eo. left. exists 2. split; [right; left; reflexivity|]. split; [lia|]. intros w y [E|[E|[]]] _; injection E as <- _; lia.
  - split; [|split; [reflexivity|split; discriminate]]. apply (sub_dict _ (lit "_id") (VStr (lit "g"))); [left; reflexivity|constructor].
  - right. exists default_dates, (lit "%d/%d/%Y"), []. split; [reflexivity|]. split; [vm_compute; reflexivity|]. intros f [<-|[<-|[<-|[]]]]; vm_compute; reflexivity.
  - right. rewrite Ev, Eo. right. exists 2. split; [right; left; reflexivity|lia].
  - destruct raised; [reflexivity|destruct (G e2 K)].
Qed.
Print Assumptions C97_refuted.

(** ** Examples *)
(** The hypotheses are met: the record is put again, deleted, the options are put back, and all that is committed. *)
Definition later_d : list (call options) := [CIngest db0 None [(lit "g", [])]; CUpdateOptions db0 default_opts; CCommit db0 3].
Example C97_example : after_d 2 calls_two cl_two 3 (calls_two ++ later_d) (fold_left dod later_d cl_two) /\
  settled_record (a_run a_empty (proj db0 (calls_two ++ later_d))) (lit "g") /\ get_options (fold_left dod later_d cl_two) db0 = [(1, default_opts); (2, bad_opts); (3, default_opts)] /\
  sync_plan_r (checked std_lib std_trap) pdata_eqb 10 (fold_left dod later_d cl_two) db0 true empty_es <> PNothing.
Proof.
  split; [|split; [intros h p; vm_compute; discriminate|split; [vm_compute; reflexivity|vm_compute; discriminate]]].
  change (calls_two ++ later_d) with (((calls_two ++ [CIngest db0 None [(lit "g", [])]]) ++ [CUpdateOptions db0 default_opts]) ++ [CCommit db0 3]).
  set (c1 := dod cl_two (CIngest db0 None [(lit "g", [])])). set (c2 := dod c1 (CUpdateOptions db0 default_opts)). change (fold_left dod later_d cl_two) with (fst (commit opts_eqb default_opts c2 db0 3)).
  apply (a_committed _ _ _ _ _ _ _ 2); [|lia]. apply (a_call _ _ _ _ _ _ _ 2 _ c1); [|discriminate|constructor|vm_compute; reflexivity].
  apply (a_call _ _ _ _ _ _ _ 2 _ cl_two); [constructor|discriminate| |vm_compute; reflexivity]. apply good_put_one, good_ints; [reflexivity|intros k v []].
Qed.
(** A text that another format reads: parsing raises for one order of the set and not for the other. *)
Example C97_order_example : stops std_lib std_trap [lit "%d/%d/%Y"; DATE_STR] (lit "2024-02-29") /\ ~ stops std_lib std_trap [DATE_STR; lit "%d/%d/%Y"] (lit "2024-02-29").
Proof.
  split; [apply dates_raise_iff; vm_compute; reflexivity|]. intro K. apply dates_raise_iff in K. vm_compute in K. discriminate.
Qed.
(** The default options can be used. *)
Example C97_usable_example : forall d, parse_checked std_lib std_trap default_opts d = parse std_lib default_opts d.
Proof. apply C97_usable_partial; [exact std_trap_ok|exact C97_default|reflexivity]. Qed.
(** A format for floats that raises: a record with a float cannot be parsed, one without can. *)
Example C97_float_example : let T := Traps (fun _ _ => false) (fun f _ => str_eqb f (lit "{1}")) in let o := b_run lower0 None [BFloat (lit "{1}")] in
  parse_checked std_lib T o [(lit "a", VFloat (S754_finite false 1 0))] = None /\ parse_checked std_lib T o [(lit "a", VInt 1)] <> None.
Proof. split; vm_compute; [reflexivity|discriminate]. Qed.
