(** From ingested records to search results: the sync theorems with the modelled parser. *)
From Coq Require Import String Ascii.
From Coq Require Import List ZArith NArith Bool Lia Sorted Permutation.
From Coq Require Import Floats.SpecFloat.
From Verif Require Import PyVal Diff DiffProofs Time Prepare PropsPrepare Mongo Store MongoProofs MongoStore MongoMore PropsMongo Client ClientProofs.
From Verif Require Import Parser ParserProofs ParserTypes ParserEq PropsParser PropsTotal ParserSim.
From Verif Require Import Index IndexSpec IndexProofs PropsIndex Sync SyncSpec SyncProofs SyncBuild SyncColl SyncTrace SyncView SyncMore SyncArcs SyncEvents SyncReach PropsSync.
Import ListNotations.
Open Scope string_scope.
Open Scope list_scope.
Open Scope Z_scope.

(** ** Specification *)
(** Data of records: proper dicts, scalars of [S], names inside as ingest makes them (C06). (specification, models no code) *)
Definition record_data (S : value -> Prop) (d : dict) : Prop := wfd d /\ scalars_in S (VDict d) /\ Forall (fun kv => fine (snd kv)) d.
(** parse(data, options) with [None] when it raises (indexing/parser.py:23-53) *)
Definition parse_opt (L : lib) (d : dict) (o : options) : option parsed_data := parse L o d.
(** [==] of parse results (indexing/index.py:186-191) *)
Definition popt_eqb (p q : option parsed_data) : bool := match p, q with Some a, Some b => pdata_eqb a b | _, _ => false end.
(** Parsing raises for no data of the history with no options of the database (C75 says when it does). (specification, models no code) *)
Definition all_parse {O} (parse : dict -> O -> option parsed_data) (h : pystr -> list (Z * dict)) (om : list (Z * O)) : Prop :=
  forall id v x w o, In (v, x) (h id) -> In (w, o) om -> parse x o <> None.

(** ** Proofs *)
Lemma fine_get d : fine (VDict d) -> forall k v, dget d k = Some v -> kept k = true /\ fine v.
Proof. rewrite fine_dict, !Forall_forall. intros [H1 H2] k v H. apply dget_In in H. exact (conj (H1 _ H) (H2 _ H)). Qed.
Lemma fine_sim a : forall b, wf b -> vident a b -> fine a -> fine b.
Proof.
  induction a as [|x|x|x|x|l IH|d IH] using value_ind'; intros b Wb H F; pose proof (vident_kind _ _ H) as K; cbn in K; try (subst b; exact F).
  - destruct K as (m & ->). rewrite vident_list in H. apply fine_list in F. apply fine_list. apply wf_list in Wb. induction H as [|x y l m Hx _ IHl]; [constructor|].
    inversion IH; inversion F; inversion Wb; subst. constructor; auto.
  - destruct K as (e & ->). rewrite vident_dict in H. pose proof (fine_get d F) as G. apply fine_dict. apply wf_dict in Wb. destruct Wb as [N W]. rewrite Forall_forall in IH, W. rewrite !Forall_forall.
    assert (Q : forall k v, In (k, v) e -> exists x, dget d k = Some x /\ vident x v).
    { intros k v Hk. apply dget_in_iff in Hk; [|exact N]. specialize (H k). rewrite Hk in H. destruct (dget d k) as [x|]; [exists x; auto|destruct H]. }
    split; intros [k v] Hk; destruct (Q k v Hk) as (x & Q1 & Q2); cbn [fst snd]; [exact (proj1 (G _ _ Q1))|].
    exact (IH (k, x) (dget_In _ _ _ Q1) v (W _ Hk) Q2 (proj2 (G _ _ Q1))).
Qed.
Lemma fine_sim_d d e : wfd e -> vident (VDict d) (VDict e) -> Forall (fun kv => fine (snd kv)) d -> Forall (fun kv => fine (snd kv)) e.
Proof.
  intros W H F. apply wf_dict in W. destruct W as [N W]. rewrite Forall_forall in *. intros [k v] Hk. cbn [snd]. rewrite vident_dict in H. specialize (H k).
  rewrite (proj2 (dget_in_iff e k v N) Hk) in H. destruct (dget d k) as [x|] eqn:E; [|destruct H]. apply (fine_sim x); [exact (W _ Hk)|exact H|exact (F _ (dget_In _ _ _ E))].
Qed.
Lemma class_record S : type_exact S -> data_class eq (record_data S).
Proof.
  intro HS. destruct (class_vident S HS) as [C1 C2 C3 C4 C5 C6 C7 C8]. constructor; auto.
  - destruct C5. repeat split; auto.
  - intros d H. apply H.
  - intros a b (H1 & H2 & H3) W H. destruct (C7 a b (conj H1 H2) W H) as [Q1 Q2]. repeat split; [exact Q1|exact Q2|]. exact (fine_sim_d a b W H H3).
  - intros a b (H1 & H2 & _) (H4 & H5 & _). apply C8; auto.
Qed.

(** scalars after forgetting (specification, models no code) *)
Definition or_none (S : value -> Prop) (v : value) : Prop := S v \/ v = VNone.
Lemma or_none_exact S : type_exact S -> type_exact (or_none S).
Proof.
  intros H a b [Ha| ->] [Hb| ->] E; [auto| | |reflexivity].
  - destruct a as [|x|x|x|x| |]; try discriminate; reflexivity.
  - destruct b as [|x|x|x|x| |]; try discriminate; reflexivity.
Qed.
Lemma scalars_dict (T : value -> Prop) d : scalars_in T (VDict d) <-> forall k v, In (k, v) d -> scalars_in T v.
Proof.
  split.
  - intros H k v Hk a Ha Hs. apply H; [|exact Hs]. exact (sub_dict _ _ _ _ Hk Ha).
  - intros H a Ha Hs. inversion Ha as [|? ? ?|? ? ? Hi Hb]; subst; [discriminate|]. exact (H _ _ Hi a Hb Hs).
Qed.
Lemma scalars_list (T : value -> Prop) l : scalars_in T (VList l) <-> forall v, In v l -> scalars_in T v.
Proof.
  split.
  - intros H v Hv a Ha Hs. apply H; [|exact Hs]. exact (sub_list _ _ _ Hv Ha).
  - intros H a Ha Hs. inversion Ha as [|? ? Hi Hb|? ? ?]; subst; [discriminate|]. exact (H _ Hi a Hb Hs).
Qed.
Lemma scalars_one (T : value -> Prop) v : is_scalar v = true -> (scalars_in T v <-> T v).
Proof.
  intro Hs. split; [intro H; apply H; [constructor|exact Hs]|]. intros H a Ha _. inversion Ha; subst; [exact H|discriminate|discriminate].
Qed.
Lemma forget_scalars S v : scalars_in S v -> scalars_in (or_none S) (forget v).
Proof.
  assert (N : scalars_in (or_none S) VNone) by (apply scalars_one; [reflexivity|right; reflexivity]).
  induction v as [|x|x|x|x|l IH|d IH] using value_ind'; intro H; try (intros a Ha Hs; left; exact (H a Ha Hs)).
  - rewrite scalars_list in H. cbn [forget]. apply scalars_list. intros y Hy. apply in_map_iff in Hy. destruct Hy as (x & <- & Hx). rewrite Forall_forall in IH. specialize (IH x Hx (H x Hx)).
    destruct (is_empty x); [exact N|]. destruct x as [| | | |[|]| |]; try exact IH; exact N.
  - rewrite scalars_dict in H. cbn [forget]. apply scalars_dict. intros k y Hy. apply in_flat_map in Hy. destruct Hy as ([k' x] & Hx & Hy). cbn [fst snd] in Hy. rewrite Forall_forall in IH.
    destruct (is_empty x); [destruct Hy|]. destruct Hy as [Hy|[]]. injection Hy as <- <-. exact (IH _ Hx (H _ _ Hx)).
Qed.
Lemma veq_vident T a : type_exact T -> forall b, wf a -> wf b -> scalars_in T a -> scalars_in T b -> py_eqb a b = true -> vident a b.
Proof.
  intro HT. induction a as [|x|x|x|x|l IH|d IH] using value_ind'; intros b Wa Wb Sa Sb E.
  1-5: destruct (is_scalar b) eqn:Hb; [|destruct b; discriminate]; apply sim_scalar; [reflexivity|exact Hb|]; apply HT; [refine (proj1 (scalars_one T _ _) Sa); reflexivity|exact (proj1 (scalars_one T b Hb) Sb)|rewrite <- py_eqb_scalar; [exact E|reflexivity|exact Hb]].
  - pose proof (py_eqb_veq _ _ Wa Wb E) as V. inversion V as [? ? Q|? m H1 H2|]; subst; [discriminate|]. apply sim_list; [exact H1|]. intros i x y Hx Hy. rewrite scalars_list in Sa, Sb. apply wf_list in Wa, Wb. rewrite Forall_forall in IH, Wa, Wb.
    pose proof (nth_error_In _ _ Hx) as Ix. pose proof (nth_error_In _ _ Hy) as Iy. apply (IH x Ix y); auto. cbn [py_eqb] in E. rewrite list_eqb_nth in E. exact (proj2 E i x y Hx Hy).
  - destruct b as [| | | | | |e]; try discriminate. pose proof (py_eqb_veq _ _ Wa Wb E) as V. inversion V as [? ? Q| |? ? H1 H2]; subst; [discriminate|]. apply sim_dict; [exact H1|].
    intros k x y Hx Hy. rewrite scalars_dict in Sa, Sb. pose proof (dget_In _ _ _ Hx) as Ix. pose proof (dget_In _ _ _ Hy) as Iy. rewrite Forall_forall in IH.
    apply (IH (k, x) Ix y); [exact (wf_dget _ _ _ Wa Hx)|exact (wf_dget _ _ _ Wb Hy)|exact (Sa _ _ Ix)|exact (Sb _ _ Iy)|]. cbn [snd]. apply py_eqb_iff in E; [|exact Wa|exact Wb]. destruct E as [E1 E2].
    apply veq_py_eqb; [exact (wf_dget _ _ _ Wa Hx)|exact (wf_dget _ _ _ Wb Hy)| |exact (H2 k x y Hx Hy)]. cbn [nan_free] in E1. rewrite forallb_forall in E1. exact (E1 _ Ix).
Qed.
Lemma vident_nan a : forall b, wf b -> vident a b -> nan_free a = true -> nan_free b = true.
Proof.
  induction a as [|x|x|x|x|l IH|d IH] using value_ind'; intros b Wb H F; pose proof (vident_kind _ _ H) as K; cbn in K; try (subst b; exact F).
  - destruct K as (m & ->). rewrite vident_list in H. apply wf_list in Wb. cbn [nan_free] in *. induction H as [|x y l m Hx _ IHl]; [reflexivity|]. inversion IH; inversion Wb; subst. cbn [forallb] in *.
    apply andb_true_iff in F. destruct F as [F1 F2]. apply andb_true_iff. split; auto.
  - destruct K as (e & ->). rewrite vident_dict in H. cbn [nan_free] in *. apply wf_dict in Wb. destruct Wb as [N W]. rewrite forallb_forall in *. rewrite Forall_forall in IH, W. intros [k v] Hk. cbn [snd].
    specialize (H k). rewrite (proj2 (dget_in_iff e k v N) Hk) in H. destruct (dget d k) as [x|] eqn:E; [|destruct H]. pose proof (dget_In _ _ _ E) as Ix. exact (IH (k, x) Ix v (W _ Hk) H (F _ Ix)).
Qed.

(** All committed data are data of ingested records. *)
Lemma run_good (good : dict -> Prop) ss : Forall (step_ok good) ss -> forall A : astate,
  (forall id r, A id = Some r -> (forall v x, In (v, x) (a_hist r) -> good x) /\ (forall x, a_pend r = Some x -> good x)) ->
  forall id r, a_run A ss id = Some r -> (forall v x, In (v, x) (a_hist r) -> good x) /\ (forall x, a_pend r = Some x -> good x).
Proof.
  induction 1 as [|st ss Hst _ IH]; intros A HA; [exact HA|]. cbn [a_run fold_left]. apply IH. clear IH. intros id r H. destruct st as [mf recs|v|]; cbn [a_step] in H.
  - unfold a_ingest in H. destruct (last_data id recs) as [new|] eqn:El; [|exact (HA id r H)]. apply last_data_In in El. destruct Hst as [_ Hst]. rewrite Forall_forall in Hst. specialize (Hst _ El). cbn in Hst.
    unfold a_put in H. destruct (A id) as [[[|[v d] h] p]|] eqn:EA.
    + pose proof (HA id _ EA) as K. destruct new as [|kv new]; [discriminate|]. destruct p as [old|]; [destruct (py_eqb _ _); [injection H as <-; exact K|]|]; injection H as <-; split; [intros ? ? []|cbn; congruence|intros ? ? []|cbn; congruence].
    + pose proof (HA id _ EA) as [K1 K2]. injection H as <-. split; [exact K1|]. cbn. destruct (same mf new d); [discriminate|congruence].
    + destruct new as [|kv new]; [discriminate|]. injection H as <-. split; [intros ? ? []|cbn; congruence].
  - unfold a_commit in H. destruct (A id) as [[h [p|]]|] eqn:EA; [|exact (HA id r (eq_trans EA H))|discriminate]. injection H as <-. destruct (HA id _ EA) as [K1 K2]. cbn in *. split; [|discriminate].
    intros w x [Hx|Hx]; [injection Hx as <- <-; apply K2; reflexivity|exact (K1 w x Hx)].
  - unfold a_rollback in H. destruct (A id) as [[[|vd h] p]|] eqn:EA; [discriminate| |discriminate]. injection H as <-. destruct (HA id _ EA) as [K1 K2]. split; [exact K1|cbn; discriminate].
Qed.
Lemma used_exists {O} (om : list (Z * O)) fd t : om <> [] -> exists o, options_used om fd t o.
Proof.
  intro H. assert (G : forall (m : list (Z * O)) (p : Z -> bool), (exists v x, In (v, x) m /\ p v = true) -> exists v x, In (v, x) m /\ p v = true /\ forall w y, In (w, y) m -> p w = true -> w <= v).
  { induction m as [|[k x] m IH]; intros p (v & y & Hv & Hp); [destruct Hv|].
    destruct (existsb (fun kv => p (fst kv)) m) eqn:Ex.
    - apply existsb_exists in Ex. destruct Ex as ([k' x'] & E1 & E2). destruct (IH p (ex_intro _ k' (ex_intro _ x' (conj E1 E2)))) as (w & z & W1 & W2 & W3).
      destruct (p k) eqn:Ep; [destruct (Z.leb_spec k w) as [L|L]|].
      + exists w, z. split; [right; exact W1|]. split; [exact W2|]. intros w' y' [Q|Q] Q2; [injection Q as <- <-; exact L|exact (W3 _ _ Q Q2)].
      + exists k, x. split; [left; reflexivity|]. split; [exact Ep|]. intros w' y' [Q|Q] Q2; [injection Q as <- <-; lia|specialize (W3 _ _ Q Q2); lia].
      + exists w, z. split; [right; exact W1|]. split; [exact W2|]. intros w' y' [Q|Q] Q2; [injection Q as <- <-; congruence|exact (W3 _ _ Q Q2)].
    - destruct Hv as [Q|Q]; [|exfalso; assert (K : existsb (fun kv => p (fst kv)) m = true) by (apply existsb_exists; exists (v, y); auto); congruence]. injection Q as <- <-. exists k, x.
      split; [left; reflexivity|]. split; [exact Hp|]. intros w' y' [Q|Q] Q2; [injection Q as <- <-; lia|]. exfalso.
      assert (K : existsb (fun kv => p (fst kv)) m = true) by (apply existsb_exists; exists (w', y'); auto). congruence. }
  set (m := filter (fun kv => fd <=? fst kv) om). destruct (existsb (fun kv => fst kv <=? t) m) eqn:Ex.
  - apply existsb_exists in Ex. destruct Ex as ([k x] & E1 & E2). destruct (G m (fun w => w <=? t) (ex_intro _ k (ex_intro _ x (conj E1 E2)))) as (v & y & V1 & V2 & V3).
    exists y. left. exists v. split; [exact V1|]. split; [apply Z.leb_le, V2|]. intros w z W1 W2. apply (V3 w z W1), Z.leb_le, W2.
  - destruct om as [|[k0 x0] om0] eqn:Eo; [contradiction|]. rewrite <- Eo in *.
    destruct (G (map (fun kv => (- fst kv, snd kv)) om) (fun _ => true)) as (v & y & V1 & _ & V3).
    { exists (- k0), x0. split; [|reflexivity]. rewrite Eo. left. reflexivity. }
    apply in_map_iff in V1. destruct V1 as ([k x] & V1 & V2). cbn [fst snd] in V1. injection V1 as V1 V1'. subst y. exists x. right. split.
    + intros w z Hw. destruct (Z.leb_spec w t) as [L|L]; [exfalso|exact L]. assert (K : existsb (fun kv => fst kv <=? t) m = true) by (apply existsb_exists; exists (w, z); split; [unfold m; rewrite <- Eo; exact Hw|apply Z.leb_le, L]). congruence.
    + exists k. split; [exact V2|]. intros w z Hw. specialize (V3 (- w) z). assert (K : - w <= v) by (apply V3; [|reflexivity]; apply in_map_iff; exists (w, z); auto). lia.
Qed.

Section EndToEnd.
Variable L : lib.
Hypothesis KD : keyed L.
Variable S : value -> Prop.
Hypothesis HS : type_exact S.
Notation parse_o := (parse_opt L).

(** parse results of data in [S] (specification, models no code) *)
Definition sound (p : option parsed_data) : Prop :=
  forall r, p = Some r -> wfd (p_parsed r) /\ exists d o, record_data S d /\ parse L o d = Some r.
(** specification or proof device; models no code of its own *)
Definition same_result (p q : option parsed_data) : Prop := sound p /\ sound q /\ orel pdata_same p q.
Lemma parse_sound d o : record_data S d -> sound (parse_o d o).
Proof. intros H r E. split; [exact (parse_wf L o d r (proj1 H) E)|]. exists d, o. auto. Qed.
Lemma real_pipeline : pipeline eq (record_data S) parse_o popt_eqb same_result.
Proof.
  assert (PS : forall d d' o, near eq (record_data S) d d' -> same_result (parse_o d o) (parse_o d' o)).
  { intros d d' o (H1 & H2 & H3). split; [exact (parse_sound d o H1)|]. split; [exact (parse_sound d' o H2)|]. apply (parse_sim L o KD d d'); [apply H1|apply H2|exact H3]. }
  constructor.
  - exact (class_record S HS).
  - intros p p' q q' (d & d' & o & H1 & -> & ->) (e & e' & o' & H2 & -> & ->). apply PS with (o := o) in H1. apply PS with (o := o') in H2.
    destruct H1 as (P1 & P2 & R1). destruct H2 as (P3 & P4 & R2).
    destruct (parse_o d o) as [r1|], (parse_o d' o) as [r2|]; cbn [orel] in R1; try contradiction; [|reflexivity].
    destruct (parse_o e o') as [r3|], (parse_o e' o') as [r4|]; cbn [orel] in R2; try contradiction; [|reflexivity].
    destruct (P1 r1 eq_refl) as [W1 _]. destruct (P2 r2 eq_refl) as [W2 _]. destruct (P3 r3 eq_refl) as [W3 _]. destruct (P4 r4 eq_refl) as [W4 _].
    cbn [popt_eqb]. destruct R1 as (A1 & A2 & A3). destruct R2 as (B1 & B2 & B3). unfold pdata_eqb. rewrite A2, A3, B2, B3. f_equal. f_equal.
    rewrite (py_eqb_congr_r (VDict (p_parsed r1)) (VDict (p_parsed r3)) (VDict (p_parsed r4)) W1 W3 W4 (vident_veq _ _ B1)).
    exact (py_eqb_congr_l (VDict (p_parsed r4)) (VDict (p_parsed r1)) (VDict (p_parsed r2)) W4 W1 W2 (vident_veq _ _ A1)).
  - exact PS.
  - intros p q (H1 & H2 & H3). split; [exact H2|]. split; [exact H1|]. destruct p, q; cbn in *; try contradiction; [|exact I]. destruct H3 as (A1 & A2 & A3). repeat split; [apply vident_sym, A1|auto|auto].
  - intros p q r (H1 & H2 & H3) (_ & H4 & H5). split; [exact H1|]. split; [exact H4|]. destruct p, q, r; cbn in *; try contradiction; [|exact I]. destruct H3 as (A1 & A2 & A3). destruct H5 as (B1 & B2 & B3). repeat split; [eapply vident_trans; eassumption|congruence|congruence].
Qed.
(** the result that stands for a parse that does not raise *)
Lemma result_some p q x o rx : same_result p q -> q = parse_o x o \/ popt_eqb q (parse_o x o) = true -> parse L o x = Some rx ->
  exists r rq dq oq, p = Some r /\ q = Some rq /\ pdata_same r rq /\ wfd (p_parsed r) /\ wfd (p_parsed rq) /\ record_data S dq /\ parse L oq dq = Some rq.
Proof.
  intros (P1 & P2 & R) H E. unfold parse_opt in H. rewrite E in H. destruct q as [rq|]; [|destruct H; discriminate]. destruct p as [r|]; [|destruct R]. destruct (P1 r eq_refl) as [W1 _]. destruct (P2 rq eq_refl) as (W2 & dq & oq & D & V). exists r, rq, dq, oq. cbn [orel] in R. auto 10.
Qed.
(** what is rebuilt of a result that equals a parse result *)
Lemma rebuilt p q x o rx : record_data S x -> same_result p q -> q = parse_o x o \/ popt_eqb q (parse_o x o) = true -> parse L o x = Some rx ->
  exists r, p = Some r /\ vident (VDict (rebuild_data (p_parsed r))) (VDict (forget_dict x)).
Proof.
  intros Hx Sm H Ex. destruct (result_some p q x o rx Sm H Ex) as (r & rq & dq & oq & Ep & Eq & R & Wp & Wq & Gq & Vq). unfold parse_opt in H. assert (Vq' : vident (VDict (rebuild_data (p_parsed rq))) (VDict (forget_dict dq))) by (destruct Gq as (G1 & _ & G3); rewrite (rebuild_parse L oq dq rq G1 G3 Vq); apply vident_refl). clear Vq. rename Vq' into Vq. exists r. split; [exact Ep|]. destruct R as (R & _ & _).
  apply (vident_trans _ (VDict (rebuild_data (p_parsed rq)))); [exact (rebuild_data_sim eq _ _ R)|]. destruct Hx as (X1 & X2 & X3). rewrite Ex, Eq in H.
  pose proof (rebuild_parse L o x rx X1 X3 Ex) as Rx. destruct H as [H|H].
  - injection H as ->. rewrite Rx. apply vident_refl.
  - cbn [popt_eqb] in H. unfold pdata_eqb in H. apply andb_true_iff in H. destruct H as [H _]. apply andb_true_iff in H. destruct H as [H _].
    pose proof (parse_wf L o x rx X1 Ex) as Wx. apply py_eqb_iff in H; [|exact Wq|exact Wx]. destruct H as [H1 H2].
    pose proof (rebuild_data_nan _ H1) as N1. pose proof (rebuild_data_sim scalar_same _ _ H2) as V1. rewrite Rx in V1.
    destruct Gq as (G1 & G2 & G3). apply (vident_trans _ (VDict (forget_dict dq))); [exact Vq|].
    pose proof (forget_wf (VDict dq) G1) as F1. pose proof (forget_wf (VDict x) X1) as F2. cbn [forget] in F1, F2. fold (forget_dict dq) in F1. fold (forget_dict x) in F2.
    apply (veq_vident (or_none S)); [apply or_none_exact, HS|exact F1|exact F2|exact (forget_scalars S (VDict dq) G2)|exact (forget_scalars S (VDict x) X2)|].
    apply veq_py_eqb; [exact F1|exact F2| |].
    + exact (vident_nan _ _ F1 Vq N1).
    + apply (veq_trans _ (VDict (rebuild_data (p_parsed rq)))); [apply veq_sym, vident_veq, Vq|exact V1].
Qed.

Context (oeq : options -> options -> bool) (odef : options).
Variable cap : N.
Variable name : pystr.
Notation reaches := (reaches oeq odef parse_o popt_eqb (record_data S) cap name).
Notation sync := (sync parse_o popt_eqb cap).
Notation state calls := (a_run a_empty (proj name calls)).
(** specification or proof device; models no code of its own *)
Definition synced_ok (n : nat) (s : Z) (A : astate) (om : list (Z * options)) : Prop := when_no_ghost n s A om \/ when_each_commit n s A om.
Lemma reaches_good allowed n t s calls cl e : reaches allowed n t s calls cl e -> forall id v x, In (v, x) (committed (state calls) id) -> record_data S x.
Proof.
  intros H id v x Hx. destruct (any_inv oeq odef eq (record_data S) parse_o popt_eqb same_result cap name real_pipeline allowed n t s calls cl e H) as (n' & I). destruct I as (_ & _ & I & _).
  unfold committed in Hx. destruct (state calls id) as [r|] eqn:E; [|destruct Hx].
  destruct (run_good (record_data S) _ I a_empty (fun id r Q => ltac:(discriminate)) id r E) as [G _]. exact (G v x Hx).
Qed.
Lemma used_parse (h : pystr -> list (Z * dict)) om id x v fd o : all_parse parse_o h om -> in_force (h id) v x -> options_used om fd v o -> exists rx, parse L o x = Some rx.
Proof.
  intros AP (w & Hw & _) Ho. assert (K : exists u, In (u, o) om) by (destruct Ho as [(u & Hu & _)|(_ & u & Hu & _)]; [apply filter_In in Hu; destruct Hu|]; eauto). destruct K as (u & Hu).
  pose proof (AP id w x u o Hw Hu) as Q. unfold parse_opt in Q. destruct (parse L o x) as [rx|]; [eauto|congruence].
Qed.
Theorem search_data : forall n t s calls cl e, reaches synced_ok n t s calls cl e -> synced_ok n s (state calls) (get_options cl name) ->
  all_parse parse_o (committed (state calls)) (get_options cl name) ->
  exists e', sync cl name false e = Some e' /\
    forall v hits id, search_at e' v = Some hits ->
      ((forall x, in_force (committed (state calls) id) v x -> x = []) -> hits_of id hits = []) /\
      (forall x, in_force (committed (state calls) id) v x -> x <> [] ->
         exists h r, hits_of id hits = [h] /\ e_parsed h = Some r /\ vident (VDict (rebuild_data (p_parsed r))) (VDict (forget_dict x))).
Proof.
  intros n t s calls cl e H Ha AP.
  destruct (C30_search_exact_partial oeq odef eq (record_data S) parse_o popt_eqb same_result cap name real_pipeline n t s calls cl e H Ha) as (e' & E1 & E2 & _).
  exists e'. split; [exact E1|]. intros v hits id Hs. destruct (E2 v hits id Hs) as (S1 & S2 & S3). split; [exact S2|]. intros x Hx Nx.
  destruct (S1 (ex_intro _ x (conj Hx Nx))) as (h & Eh). 
  assert (Hne : committed (state calls) id <> []) by (destruct Hx as (w & Hw & _); intro Q; rewrite Q in Hw; destruct Hw).
  assert (Ho : get_options cl name <> []) by (destruct Ha as [(Ho & _)|(Ho & _)]; exact (Ho id Hne)).
  destruct (zmin_key (committed (state calls) id)) as [fd|] eqn:Efd.
  - destruct (used_exists (get_options cl name) fd v Ho) as (o & Hou). destruct (S3 h x o fd) as (q & Q1 & Q2); [rewrite Eh; left; reflexivity|exact Hx|reflexivity|exact Hou|].
    assert (Gx : record_data S x) by (destruct Hx as (w & Hw & _); exact (reaches_good _ _ _ _ _ _ _ H id w x Hw)).
    destruct (used_parse _ _ id x v fd o AP Hx Hou) as (rx & Rx). destruct (rebuilt (e_parsed h) q x o rx Gx Q1 Q2 Rx) as (r & R1 & R2). exists h, r. auto.
  - exfalso. unfold zmin_key in Efd. destruct (committed (state calls) id) as [|[a b] l]; [contradiction|discriminate].
Qed.
End EndToEnd.
