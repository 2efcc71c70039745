From Coq Require Import String Ascii.
From Coq Require Import List ZArith NArith Bool Lia.
From Verif Require Import PyVal Time Prepare.
Import ListNotations.
Open Scope nat_scope.

Section P.
Variable db : chardb.
Hypothesis DB : db_ok db.

Lemma db_char c : In c (lit "_-+.:T0123456789id"%string) -> is_C db c = false /\ is_space db c = false.
Proof. intro H. unfold db_ok in DB. rewrite Forall_forall in DB. auto. Qed.

Ltac dbc := apply db_char; cbn; auto 30.

(** ** strip *)
Lemma lstrip_head s c r : lstrip db s = c :: r -> is_space db c = false.
Proof.
  induction s as [|a s IH]; cbn [lstrip]; [discriminate|].
  destruct (is_space db a) eqn:E; auto. congruence.
Qed.
Lemma lstrip_suffix s : exists p, s = p ++ lstrip db s.
Proof.
  induction s as [|a s [p IH]]; cbn [lstrip]; [exists []; reflexivity|].
  destruct (is_space db a); [exists (a :: p); cbn; congruence | exists []; reflexivity].
Qed.
Lemma lstrip_id s : (forall c r, s = c :: r -> is_space db c = false) -> lstrip db s = s.
Proof. destruct s as [|c r]; intro H; cbn [lstrip]; [reflexivity|]. rewrite (H c r eq_refl). reflexivity. Qed.

Lemma strip_In c s : In c (strip db s) -> In c s.
Proof.
  unfold strip. rewrite <- in_rev. destruct (lstrip_suffix s) as [p Hp].
  destruct (lstrip_suffix (rev (lstrip db s))) as [q Hq]. intro H.
  assert (In c (rev (lstrip db s))) by (rewrite Hq; apply in_or_app; auto).
  rewrite <- in_rev in H0. rewrite Hp. apply in_or_app; auto.
Qed.
Lemma strip_last s c r : strip db s = r ++ [c] -> is_space db c = false.
Proof.
  unfold strip. intro H. apply (f_equal (@rev N)) in H. rewrite rev_involutive, rev_app_distr in H.
  cbn in H. eapply lstrip_head; eauto.
Qed.
Lemma strip_head s c r : strip db s = c :: r -> is_space db c = false.
Proof.
  unfold strip. intro H.
  destruct (lstrip_suffix (rev (lstrip db s))) as [q Hq].
  assert (E : lstrip db s = rev (lstrip db (rev (lstrip db s))) ++ rev q).
  { rewrite <- rev_app_distr, <- Hq, rev_involutive. reflexivity. }
  rewrite H in E. cbn in E. eapply lstrip_head; eauto.
Qed.
Lemma strip_id s : (forall c r, s = c :: r -> is_space db c = false) ->
  (forall c r, s = r ++ [c] -> is_space db c = false) -> strip db s = s.
Proof.
  intros H1 H2. unfold strip. rewrite (lstrip_id s H1), lstrip_id, rev_involutive; auto.
  intros c r E. apply (f_equal (@rev N)) in E. rewrite rev_involutive in E. cbn in E. eauto.
Qed.

(** ** names *)
Lemma clean_name_In c s : In c (clean_name db s) -> is_C db c = false /\ c <> 46%N.
Proof.
  unfold clean_name. intro H. apply strip_In in H. apply in_map_iff in H.
  destruct H as (a & E & Ha). apply filter_In in Ha. destruct Ha as [_ Ha].
  apply negb_true_iff in Ha.
  destruct (N.eqb_spec a 46); subst.
  - split; [dbc|discriminate].
  - auto.
Qed.

Lemma clean_field_name_ok k : clean_field_name db (prepare_field_name db k).
Proof.
  unfold prepare_field_name, clean_field_name.
  destruct (clean_name db (key_str k)) as [|c r] eqn:E.
  - split; [discriminate|]. split; [intros c [<-|[]]; dbc|].
    split; [intros [|[]]; discriminate|]. split.
    + intros c r H. injection H as <- _. dbc.
    + split; [|intros r H; discriminate].
      intros c r H. destruct r as [|x r]; cbn in H; [injection H as <-; dbc|].
      injection H as _ H. destruct r; discriminate H.
  - destruct (key_is_id k).
    + unfold DATA_ID. split; [discriminate|]. split.
      { intros x Hx. apply db_char. cbn in Hx. cbn. intuition. }
      split; [cbn; intuition discriminate|]. split.
      { intros x y H. injection H as <- _. dbc. }
      split; [|auto].
      intros x y H. apply (f_equal (@rev N)) in H. rewrite rev_app_distr in H. cbn in H.
      injection H as <- _. dbc.
    + assert (Hin : forall x, In x (c :: r) -> is_C db x = false /\ x <> 46%N)
        by (intros x Hx; apply (clean_name_In x (key_str k)); rewrite E; exact Hx).
      assert (Hl : forall x y, c :: r = y ++ [x] -> is_space db x = false).
      { intros x y H. unfold clean_name in E. rewrite H in E. eapply strip_last; eauto. }
      assert (Hh : is_space db c = false) by (unfold clean_name in E; eapply strip_head; eauto).
      destruct (N.eqb_spec c 95) as [->|Hc].
      * split; [discriminate|]. split.
        { intros x [<-|Hx]; [dbc|apply Hin; right; exact Hx]. }
        split.
        { intros [H|H]; [discriminate|]. destruct (Hin 46%N (or_intror H)) as [_ ?]. congruence. }
        split; [intros x y H; injection H as <- _; dbc|].
        split; [|intros y H; discriminate].
        intros x y H. destruct y as [|b y]; cbn in H.
        -- injection H as <- _. dbc.
        -- injection H as <- H. apply (Hl x (95%N :: y)). cbn. congruence.
      * split; [discriminate|]. split; [intros x Hx; apply Hin; exact Hx|].
        split; [intro H; destruct (Hin 46%N H) as [_ ?]; congruence|].
        split; [intros x y H; injection H as <- _; exact Hh|].
        split; [exact Hl|]. intros y H. injection H as H _. congruence.
Qed.

Lemma clean_name_id s : clean_field_name db s -> clean_name db s = s.
Proof.
  intros (H1 & H2 & H3 & H4 & H5 & H6). unfold clean_name.
  assert (E : map (fun c => if N.eqb c 46 then 95%N else c) (filter (fun c => negb (is_C db c)) s) = s).
  { clear H1 H4 H5 H6. induction s as [|c r IH]; cbn [filter map]; [reflexivity|].
    rewrite (H2 c (or_introl eq_refl)). cbn [negb map].
    destruct (N.eqb_spec c 46) as [->|_]; [exfalso; apply H3; left; reflexivity|].
    f_equal. apply IH; intros; [apply H2; right; assumption|]. intro; apply H3; right; assumption. }
  rewrite E. apply strip_id; assumption.
Qed.

Lemma prepare_field_name_id s : clean_field_name db s -> prepare_field_name db (KS s) = s.
Proof.
  intro H. unfold prepare_field_name. cbn [key_str key_is_id]. rewrite (clean_name_id s H).
  destruct H as (H1 & _ & _ & _ & _ & H6). destruct s as [|c r]; [congruence|].
  destruct (str_eqb (c :: r) DATA_ID) eqn:E; [apply str_eqb_eq in E; auto|].
  apply str_eqb_neq in E. destruct (N.eqb_spec c 95) as [->|_]; [|reflexivity].
  exfalso; apply E; eauto.
Qed.

(** ** values *)
Lemma clean_value_ok s : clean_text db (clean_value db s).
Proof.
  intros c H HC. unfold clean_value in H. apply filter_In in H. destruct H as [_ H].
  unfold bad_value_char in H. rewrite HC in H. cbn in H. rewrite negb_involutive in H.
  rewrite !orb_true_iff, !N.eqb_eq in H. tauto.
Qed.
Lemma clean_value_id s : clean_text db s -> clean_value db s = s.
Proof.
  unfold clean_text, clean_value. induction s as [|c r IH]; intro H; cbn [filter]; [reflexivity|].
  assert (E : bad_value_char db c = false).
  { unfold bad_value_char. destruct (is_C db c) eqn:E; [|reflexivity]. cbn.
    destruct (H c (or_introl eq_refl) E) as [->|[->| ->]]; reflexivity. }
  rewrite E. cbn [negb]. f_equal. apply IH. intros; apply H; [right|]; assumption.
Qed.

Lemma clean_text_digits s : (forall c, In c s -> In c (lit "_-+.:T0123456789id"%string)) -> clean_text db s.
Proof. intros H c Hc HC. destruct (db_char c (H c Hc)). congruence. Qed.

Lemma digit_in c : is_digit c = true -> In c (lit "_-+.:T0123456789id"%string).
Proof.
  unfold is_digit. rewrite andb_true_iff, !N.leb_le. intros [H1 H2].
  assert (Hc : c = (48 + (c - 48))%N) by lia. remember (c - 48)%N as k. assert (k < 10)%N by lia.
  cbn [lit map list_ascii_of_string]. rewrite Hc. clear Hc Heqk H1 H2 c.
  destruct k as [|p]; [cbn; auto 30|].
  do 4 (destruct p as [p|p|]; try (cbn; auto 30; fail); try lia).
Qed.
Lemma dig_in w z c : In c (dig w z) -> In c (lit "_-+.:T0123456789id"%string).
Proof.
  intro H. apply digit_in. pose proof (dig_digits w z) as D. rewrite forallb_forall in D. auto.
Qed.

Ltac inlist H :=
  repeat match type of H with
  | In _ (_ ++ _) => apply in_app_or in H; destruct H as [H|H]
  | In _ (_ :: _) => destruct H as [H|H]
  | In _ [] => destruct H
  | In _ (if ?b then _ else _) => destruct b
  | In _ (dig _ _) => apply dig_in in H; exact H
  | _ = _ => subst; cbn; auto 30
  end.

Lemma year_in pad y c : In c (year_str pad y) -> In c (lit "_-+.:T0123456789id"%string).
Proof. unfold year_str. intro H. inlist H. Qed.
Lemma tz_in o c : In c (tz_str o) -> In c (lit "_-+.:T0123456789id"%string).
Proof.
  destruct o as [z|]; [|intros []]. unfold tz_str. intro H. destruct H as [H|H].
  { destruct (Z.ltb z 0); subst; cbn; auto 30. }
  inlist H.
Qed.
Lemma strftime_date_ok pad d : clean_text db (strftime_date pad d).
Proof.
  apply clean_text_digits. unfold strftime_date. intros c H.
  apply in_app_or in H; destruct H as [H|H]; [eapply year_in; eauto|]. inlist H.
Qed.
Lemma strftime_dt_ok pad t : clean_text db (strftime_dt pad t).
Proof.
  apply clean_text_digits. unfold strftime_dt. intros c H.
  apply in_app_or in H; destruct H as [H|H]; [eapply year_in; eauto|].
  inlist H; eapply tz_in; exact H.
Qed.

Lemma storable_list l : storable db (VList l) <-> Forall (storable db) l.
Proof.
  cbn [storable]. induction l as [|x r IH]; [split; auto|].
  rewrite Forall_cons_iff, <- IH. tauto.
Qed.
Lemma storable_dict d : storable db (VDict d) <->
  NoDup (map fst d) /\ Forall (fun kv => clean_field_name db (fst kv) /\ storable db (snd kv)) d.
Proof.
  cbn [storable]. apply and_iff_compat_l. induction d as [|x r IH]; [split; auto|].
  rewrite Forall_cons_iff, <- IH. tauto.
Qed.
Lemma opc_seq l : others_print_clean db (OSeq l) <-> Forall (others_print_clean db) l.
Proof. cbn [others_print_clean]. induction l as [|x r IH]; [split; auto|]. rewrite Forall_cons_iff, <- IH. tauto. Qed.
Lemma opc_dict d : others_print_clean db (ODict d) <-> Forall (fun kv => others_print_clean db (snd kv)) d.
Proof. cbn [others_print_clean]. induction d as [|x r IH]; [split; auto|]. rewrite Forall_cons_iff, <- IH. tauto. Qed.

Lemma prepare_storable pad v : others_print_clean db v -> storable db (prepare_data db pad v).
Proof.
  induction v as [|s|b|z|f|d IH|l IH|t|d|s] using pyobj_ind'; intro Ho;
    try (cbn [prepare_data storable]; exact I).
  - cbn. apply clean_value_ok.
  - cbn [prepare_data]. apply storable_dict. split; [apply NoDup_dict_of|].
    apply Forall_forall. intros kv Hkv. apply opc_dict in Ho.
    unfold dict_of in Hkv. destruct kv as [k w]. apply In_dupdate in Hkv. destruct Hkv as [[]|Hkv].
    apply in_map_iff in Hkv. destruct Hkv as ([k0 o] & E & Hin). injection E as <- <-. cbn [fst snd].
    split; [apply clean_field_name_ok|]. rewrite Forall_forall in IH, Ho.
    exact (IH _ Hin (Ho _ Hin)).
  - cbn [prepare_data]. apply storable_list. apply opc_seq in Ho. rewrite Forall_forall in *.
    intros x Hx. apply in_map_iff in Hx. destruct Hx as (o & <- & Hin). auto.
  - cbn. apply strftime_dt_ok.
  - cbn. apply strftime_date_ok.
  - cbn in *. exact Ho.
Qed.

Lemma prepare_storable_id pad v : storable db v -> prepare_data db pad (as_obj v) = v.
Proof.
  induction v as [|b|z|f|s|l IH|d IH] using value_ind'; intro H; cbn [as_obj prepare_data]; try reflexivity.
  - cbn in H. rewrite clean_value_id; auto.
  - f_equal. rewrite map_map. apply storable_list in H. rewrite <- (map_id l) at 2.
    apply map_ext_in. rewrite Forall_forall in *. auto.
  - f_equal. rewrite map_map. cbn [fst snd]. apply storable_dict in H. destruct H as [Hn H].
    assert (E : map (fun x => (prepare_field_name db (KS (fst x)), prepare_data db pad (as_obj (snd x)))) d = d).
    { rewrite <- (map_id d) at 2. apply map_ext_in. rewrite Forall_forall in *. intros [k w] Hin.
      cbn [fst snd]. destruct (H _ Hin) as [Hk Hw]. cbn [fst snd] in *.
      rewrite prepare_field_name_id by exact Hk. f_equal. exact (IH _ Hin Hw). }
    rewrite E. apply dict_of_id. exact Hn.
Qed.

(** Prepared data has distinct keys everywhere. *)
Lemma storable_wf v : storable db v -> wf v.
Proof.
  induction v as [|b|z|f|s|l IH|d IH] using value_ind'; intro H; try reflexivity.
  - apply storable_list in H. apply wf_list. rewrite Forall_forall in *. auto.
  - apply storable_dict in H. destruct H as [Hn H]. apply wf_dict. split; [exact Hn|].
    rewrite Forall_forall in *. intros kv Hin. apply IH; auto. apply H; auto.
Qed.

End P.

Lemma prepare_wf db pad v : wf (prepare_data db pad v).
Proof.
  induction v as [|s|b|z|f|d IH|l IH|t|d|s] using pyobj_ind'; try reflexivity.
  - cbn [prepare_data]. apply wf_dict. split; [apply NoDup_dict_of|].
    apply Forall_forall. intros [k w] Hkv. unfold dict_of in Hkv. apply In_dupdate in Hkv.
    destruct Hkv as [[]|Hkv].
    apply in_map_iff in Hkv. destruct Hkv as ([k0 o] & E & Hin). injection E as <- <-. cbn [fst snd].
    rewrite Forall_forall in IH. exact (IH _ Hin).
  - cbn [prepare_data]. apply wf_list. rewrite Forall_forall in *.
    intros x Hx. apply in_map_iff in Hx. destruct Hx as (o & <- & Hin). auto.
Qed.

(** ** partition *)
Lemma partition_loop_spec {A} size : size >= 1 -> forall fuel (it : list A), length it < fuel ->
  concat (partition_loop fuel size it) = it
  /\ Forall (fun c => c <> [] /\ length c <= size) (partition_loop fuel size it)
  /\ (forall pre c post, partition_loop fuel size it = pre ++ c :: post -> post <> [] -> length c = size).
Proof.
  intro Hs. induction fuel as [|fuel IH]; intros it Hf; [lia|].
  cbn [partition_loop]. destruct (firstn size it) as [|a ch] eqn:E.
  - destruct it as [|x it]; [|destruct size; [lia|discriminate]]. cbn. repeat split; auto.
    intros pre c post H. destruct pre; discriminate.
  - assert (Hsk : length (skipn size it) < fuel).
    { rewrite skipn_length. destruct it; [rewrite firstn_nil in E; discriminate|]. cbn [Datatypes.length] in *; lia. }
    destruct (IH (skipn size it) Hsk) as (H1 & H2 & H3). split; [|split].
    + cbn [concat]. rewrite H1, <- E. apply firstn_skipn.
    + constructor; [|exact H2]. split; [discriminate|]. rewrite <- E, firstn_length. lia.
    + intros pre c post H Hp. destruct pre as [|p pre].
      * injection H as <- H. rewrite <- E. rewrite firstn_length.
        destruct (le_lt_dec size (length it)); [lia|].
        rewrite skipn_all2 in H by lia. destruct fuel; cbn in H; [congruence|].
        rewrite firstn_nil in H. congruence.
      * injection H as _ H. eapply H3; eauto.
Qed.

Lemma partition_loop_fuel {A} size : size >= 1 -> forall f g (it : list A),
  length it < f -> length it < g -> partition_loop f size it = partition_loop g size it.
Proof.
  intros Hs. induction f as [|f IH]; intros g it Hf Hg; [lia|]. destruct g as [|g]; [lia|].
  cbn [partition_loop]. destruct (firstn size it) as [|a ch] eqn:E; [reflexivity|]. f_equal.
  assert (length it <> 0) by (destruct it; [rewrite firstn_nil in E; discriminate|cbn; lia]).
  apply IH; rewrite skipn_length; lia.
Qed.
