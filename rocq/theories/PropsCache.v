(** Property C38: the cache of parse_value. *)
From Coq Require Import String Ascii.
From Coq Require Import List ZArith NArith Bool Lia Permutation.
From Coq Require Import Floats.SpecFloat.
From Verif Require Import PyVal Time TimeParse Parser Cache PropsParser PropsDates.
Import ListNotations.
Open Scope string_scope.
Open Scope list_scope.
Open Scope nat_scope.

(** A library where the float format shows the sign of zero, as "{0:.15g}".format does. *)
Definition sign_lib : lib := Lib (fun s => s) (fun _ f => match f with S754_zero true => lit "-0" | _ => lit "0" end) (fun _ => None) (fun _ _ => None) (fun _ => None) (fun _ => None) (fun _ => false) (fun _ _ _ _ => None).
(** C38, as stated, is false: after 0.0 was parsed, -0.0 gets the result of 0.0. *)
Theorem C38_cache_refuted : exists L o st st' a d,
  csteps L cache_empty [Call (VFloat (S754_zero false), o)] st /\ call L st (VFloat (S754_zero true), o) st' a /\
  nth_error (heap st') a = Some d /\ dget d (lit "_t") = Some (VStr (lit "0")) /\ dget (parse_value L o (VFloat (S754_zero true))) (lit "_t") = Some (VStr (lit "-0")).
Proof.
  exists sign_lib, ex_opts. eexists. eexists. exists 0. eexists. split; [|split; [|split; [|split]]].
  - eapply cs_cons; [|apply cs_nil]. eapply c_call. apply call_miss. intros k' a [].
  - eapply call_hit; [left; reflexivity|]. left. split; [exact I|]. split; [reflexivity|]. split; apply Permutation_refl || reflexivity.
  - reflexivity.
  - reflexivity.
  - reflexivity.
Qed.
Print Assumptions C38_cache_refuted.

(** What is true: whatever was parsed before with whatever options, evictions and geographic hints included, a
    call for a value other than 0.0 and -0.0 returns a dict which is what the uncached function gives, now and
    after anything that happens later. The date formats of the options have to agree where several accept the
    value (C39), as equal options may be iterated in another order. *)
Definition events_ok (es : list event) : Prop := forall v o, In (Call (v, o)) es -> float_ok v.
Definition inv (L : lib) (st : cstate) : Prop :=
  forall v o a, In ((v, o), a) (entries st) -> float_ok v /\ nth_error (heap st) a = Some (parse_value L o v).
Lemma nth_app {A} (l m : list A) n x : nth_error l n = Some x -> nth_error (l ++ m) n = Some x.
Proof. intro H. rewrite nth_error_app1; [exact H|]. apply nth_error_Some. congruence. Qed.
Lemma step_heap L st e st' : cstep L st e st' -> exists m, heap st' = heap st ++ m.
Proof. intros [s k s' a [s0 k0 k' a0 H1 H2|s0 k0 H]|s es H|s a g d H]; cbn; eexists; try reflexivity; symmetry; apply app_nil_r. Qed.
Lemma steps_heap L st es st' : csteps L st es st' -> exists m, heap st' = heap st ++ m.
Proof. induction 1 as [st|st e st' es st'' H _ [m IH]]; [exists []; symmetry; apply app_nil_r|]. destruct (step_heap L _ _ _ H) as [m' E]. exists (m' ++ m). rewrite IH, E, app_assoc. reflexivity. Qed.
Lemma step_inv L st e st' : cstep L st e st' -> (forall v o, e = Call (v, o) -> float_ok v) -> inv L st -> inv L st'.
Proof.
  intros H Hf Hi. destruct H as [st k st' a H|st es H|st a g d H].
  - destruct H as [st k k' a H1 H2|st k H]; [exact Hi|]. intros v o a K. cbn [entries heap] in *. destruct K as [K|K].
    + injection K as -> <-. split; [exact (Hf v o eq_refl)|]. rewrite nth_error_app2, Nat.sub_diag by lia. reflexivity.
    + destruct (Hi v o a K) as [K1 K2]. split; [exact K1|apply nth_app, K2].
  - intros v o a K. apply H in K. exact (Hi v o a K).
  - intros v o a' K. destruct (Hi v o a' K) as [K1 K2]. split; [exact K1|apply nth_app, K2].
Qed.
Lemma steps_inv L st es st' : csteps L st es st' -> events_ok es -> inv L st -> inv L st'.
Proof.
  induction 1 as [st|st e st' es st'' H _ IH]; intros He Hi; [exact Hi|]. apply IH; [intros v o K; apply (He v o); right; exact K|]. apply (step_inv L _ _ _ H); [|exact Hi]. intros v o ->. apply (He v o). left. reflexivity.
Qed.
Lemma value_opts L o o' v : opts_equal o' o -> (forall f g t u, In f (date_formats o) -> In g (date_formats o) -> l_strptime L (text_of L o v) f = Some t -> l_strptime L (text_of L o v) g = Some u -> t = u) ->
  parse_value L o' v = parse_value L o v.
Proof.
  intros [R1 R2 R3 R4 R5 R6] A. symmetry. apply (C39_value_partial L o (Opts (true_values o') (false_values o') (date_formats o') (geo_hints o) (keyword_length o') (float_format o')) v); [|exact A].
  split; cbn; try apply Permutation_sym; auto.
Qed.
Theorem C38_cache_partial : forall L es st v o st' a, csteps L cache_empty es st -> events_ok es -> float_ok v -> ~ is_zero v -> agreeing L (date_formats o) ->
  call L st (v, o) st' a -> forall es' st'', csteps L st' es' st'' -> nth_error (heap st'') a = Some (parse_value L o v).
Proof.
  intros L es st v o st' a Hs He Hf Hz A Hc es' st'' Hs'. assert (Hi : inv L st) by (apply (steps_inv L _ _ _ Hs He); intros ? ? ? []).
  destruct (steps_heap L _ _ _ Hs') as [m ->]. apply nth_app. inversion Hc as [st0 k0 k' a0 H1 H2|st0 k0 H]; subst.
  - destruct k' as [v' o']. destruct (Hi v' o' a H1) as [K1 K2]. rewrite K2. f_equal.
    assert (Ev : v' = v /\ opts_equal o' o).
    { destruct H2 as [(T & Eq & O)|[Eq O]]; cbn [fst snd] in *; [|auto]. destruct (value_eq_same v' v K1 Hf T Eq) as [->|[_ K]]; [auto|contradiction]. }
    destruct Ev as [-> O]. apply value_opts; [exact O|]. intros f g t u. apply A.
  - cbn [heap]. rewrite nth_error_app2, Nat.sub_diag by lia. reflexivity.
Qed.
Print Assumptions C38_cache_partial.
(** With the default formats (C39) and the standard strptime nothing is asked of the options. *)
Theorem C38_cache_defaults_partial : forall L es st v o st' a, csteps L cache_empty es st -> events_ok es -> float_ok v -> ~ is_zero v -> std_dates L -> default_formats o ->
  call L st (v, o) st' a -> forall es' st'', csteps L st' es' st'' -> nth_error (heap st'') a = Some (parse_value L o v).
Proof. intros L es st v o st' a Hs He Hf Hz HL D. apply (C38_cache_partial L es st v o st' a Hs He Hf Hz). apply default_agree; assumption. Qed.
Print Assumptions C38_cache_defaults_partial.
(** Exactly, for every value and all options: what a call returns is what the uncached function gives for this
    call or for an earlier one, with equal options (their sets may be iterated in another order) and the same
    value, or the other zero if it is a zero. *)
Lemma steps_from L st es st' : csteps L st es st' -> forall k a, In (k, a) (entries st') -> In (Call k) es \/ In (k, a) (entries st).
Proof.
  induction 1 as [st|st e st' es st'' H _ IH]; intros k a K; [right; exact K|]. destruct (IH k a K) as [X|X]; [left; right; exact X|].
  destruct H as [st k0 st' a0 H|st es' H|st a0 g d H].
  - destruct H as [st k0 k' a0 H1 H2|st k0 H]; [right; exact X|]. cbn [entries] in X. destruct X as [X|X]; [injection X as -> _; left; left; reflexivity|right; exact X].
  - right. apply H, X.
  - right. exact X.
Qed.
Lemma opts_equal_refl o : opts_equal o o.
Proof. split; try reflexivity; apply Permutation_refl. Qed.
Theorem C38_exact : forall L es st v o st' a, csteps L cache_empty es st -> events_ok es -> float_ok v ->
  call L st (v, o) st' a -> forall es' st'', csteps L st' es' st'' ->
  exists v' o', nth_error (heap st'') a = Some (parse_value L o' v') /\ opts_equal o' o /\
    (v' = v \/ (is_zero v /\ is_zero v')) /\ ((v', o') = (v, o) \/ In (Call (v', o')) es).
Proof.
  intros L es st v o st' a Hs He Hf Hc es' st'' Hs'. assert (Hi : inv L st) by (apply (steps_inv L _ _ _ Hs He); intros ? ? ? []).
  destruct (steps_heap L _ _ _ Hs') as [m ->]. inversion Hc as [st0 k0 k' a0 H1 H2|st0 k0 H]; subst.
  - destruct k' as [v' o']. destruct (Hi v' o' a H1) as [K1 K2]. exists v', o'. split; [apply nth_app, K2|].
    destruct (steps_from L _ _ _ Hs _ _ H1) as [F|[]].
    destruct H2 as [(T & Eq & O)|[Eq O]]; cbn [fst snd] in *.
    + split; [exact O|]. split; [|right; exact F]. destruct (value_eq_same v' v K1 Hf T Eq) as [->|[Z1 Z2]]; [left; reflexivity|right; auto].
    + split; [exact O|]. split; [left; exact Eq|right; exact F].
  - exists v, o. cbn [heap]. split; [apply nth_app; rewrite nth_error_app2, Nat.sub_diag by lia; reflexivity|]. split; [apply opts_equal_refl|]. split; left; reflexivity.
Qed.
Print Assumptions C38_exact.
(** A call always returns. *)
Theorem C38_call_returns : forall L st k, (forall k', (exists a, In (k', a) (entries st)) -> keys_equal k' k \/ ~ keys_equal k' k) -> exists st' a, call L st k st' a.
Proof.
  intros L st k D. assert (H : (exists k' a, In (k', a) (entries st) /\ keys_equal k' k) \/ forall k' a, In (k', a) (entries st) -> ~ keys_equal k' k).
  { induction (entries st) as [|[k' a] es IH]; [right; intros ? ? []|]. destruct (D k') as [K|K]; [exists a; left; reflexivity|left; exists k', a; split; [left; reflexivity|exact K]|].
    destruct IH as [(k2 & a2 & K1 & K2)|IH]; [intros k2 [a2 K2]; apply D; exists a2; right; exact K2|left; exists k2, a2; split; [right; exact K1|exact K2]|right; intros k2 a2 [Q|Q]; [injection Q as <- <-; exact K|exact (IH _ _ Q)]]. }
  destruct H as [(k' & a & H1 & H2)|H]; [exists st, a; eapply call_hit; eauto|eexists; eexists; apply call_miss; exact H].
Qed.
Print Assumptions C38_call_returns.
(** True, 1 and 1.0 are equal in Python and have entries of their own; a copied dict does not disturb the cached one. *)
Example C38_example : exists st st' a, csteps ex_lib cache_empty [Call (VBool true, ex_opts); Call (VInt 1, ex_opts); AddHint 1 (lit "POINT(1 2)", lit "POINT(1 2)"); Evict] st /\ events_ok [Call (VBool true, ex_opts); Call (VInt 1, ex_opts); AddHint 1 (lit "POINT(1 2)", lit "POINT(1 2)"); Evict] /\
  float_ok (VInt 1) /\ ~ is_zero (VInt 1) /\ agreeing ex_lib (date_formats ex_opts) /\ call ex_lib st (VInt 1, ex_opts) st' a /\ a = 1 /\ length (heap st') = 3.
Proof.
  eexists. eexists. exists 1. split; [|split; [|split; [|split; [|split; [|split; [|split]]]]]].
  - eapply cs_cons; [eapply c_call; apply call_miss; intros ? ? []|]. eapply cs_cons; [eapply c_call; apply call_miss; intros k' a [K|[]]; injection K as <- <-; intros [[] _]|].
    eapply cs_cons; [apply c_hint; reflexivity|]. eapply cs_cons; [apply c_evict with (es := [((VInt 1, ex_opts), 1)]); intros x [Hx|[]]; left; exact Hx|apply cs_nil].
  - intros v o H. repeat (destruct H as [H|H]; [try discriminate; injection H as <- <-; exact I|]). destruct H.
  - exact I.
  - intros [s H]. discriminate.
  - intros s f g t u [].
  - eapply call_hit; [left; reflexivity|]. left. split; [exact I|]. split; [reflexivity|]. split; apply Permutation_refl || reflexivity.
  - reflexivity.
  - reflexivity.
Qed.
