(** strptime undoes strftime for the formats of diffing.py:27-34, and no string fits two of them. *)
From Coq Require Import String Ascii.
From Coq Require Import List ZArith NArith Bool Lia Permutation.
From Coq Require Import Floats.SpecFloat.
From Verif Require Import PyVal Time.
Import ListNotations.
Open Scope Z_scope.

(** ** First matches *)
(** proof device *)
Definition starts_with {A} (l : list A) (x : A) : Prop := exists r, l = x :: r.
Lemma sw_flat {A B} (f : A -> list B) l x y : starts_with l x -> starts_with (f x) y -> starts_with (flat_map f l) y.
Proof. intros [r ->] [r' E]. cbn [flat_map]. rewrite E. eexists. reflexivity. Qed.
Lemma sw_app {A} (l m : list A) x : starts_with l x -> starts_with (l ++ m) x.
Proof. intros [r ->]. eexists. reflexivity. Qed.

Lemma range_cases (P : Z -> Prop) (n : nat) : (forall k : nat, (k < n)%nat -> P (Z.of_nat k)) -> forall z, 0 <= z < Z.of_nat n -> P z.
Proof. intros H z Hz. rewrite <- (Z2Nat.id z) by lia. apply H. lia. Qed.

Lemma fm_month m r : 1 <= m <= 12 -> starts_with (m_month (dig 2 m ++ r)) (m, r).
Proof.
  intro H. assert (Q : 0 <= m - 1 < Z.of_nat 12) by lia. replace m with (m - 1 + 1) by lia. revert Q. generalize (m - 1). clear. apply range_cases. intros k Hk.
  do 12 (destruct k as [|k]; [eexists; reflexivity|]). lia.
Qed.
Lemma fm_day m r : 1 <= m <= 31 -> starts_with (m_day (dig 2 m ++ r)) (m, r).
Proof.
  intro H. assert (Q : 0 <= m - 1 < Z.of_nat 31) by lia. replace m with (m - 1 + 1) by lia. revert Q. generalize (m - 1). clear. apply range_cases. intros k Hk.
  do 31 (destruct k as [|k]; [eexists; reflexivity|]). lia.
Qed.
Lemma fm_hour m r : 0 <= m <= 23 -> starts_with (m_hour (dig 2 m ++ r)) (m, r).
Proof.
  intro H. assert (Q : 0 <= m < Z.of_nat 24) by lia. revert Q. generalize m. clear. apply range_cases. intros k Hk.
  do 24 (destruct k as [|k]; [eexists; reflexivity|]). lia.
Qed.
Lemma fm_0_59 m r : 0 <= m <= 59 -> starts_with (m_0_59 (dig 2 m ++ r)) (m, r).
Proof.
  intro H. assert (Q : 0 <= m < Z.of_nat 60) by lia. revert Q. generalize m. clear. apply range_cases. intros k Hk.
  do 60 (destruct k as [|k]; [eexists; reflexivity|]). lia.
Qed.
Lemma fm_min m r : 0 <= m <= 59 -> starts_with (m_min (dig 2 m ++ r)) (m, r).
Proof. intro H. apply sw_app, fm_0_59, H. Qed.
Lemma fm_sec m r : 0 <= m <= 59 -> starts_with (m_sec (dig 2 m ++ r)) (m, r).
Proof.
  intro H. assert (Q : 0 <= m < Z.of_nat 60) by lia. revert Q. generalize m. clear. apply range_cases. intros k Hk.
  do 60 (destruct k as [|k]; [eexists; reflexivity|]). lia.
Qed.
Lemma dig2 z : dig 2 z = [dchar (z / 10); dchar z].
Proof. reflexivity. Qed.
Lemma fm_00_99 m r : 0 <= m <= 99 -> starts_with (m_00_99 (dig 2 m ++ r)) (m, r).
Proof.
  intro H. rewrite dig2. cbn [app m_00_99]. rewrite !dchar_digit. cbn [andb]. rewrite !dval_dchar. eexists. f_equal. f_equal. rewrite (Z.mod_small (m / 10)) by (split; [apply Z.div_pos; lia|apply Z.div_lt_upper_bound; lia]). pose proof (Z.div_mod m 10). lia.
Qed.
Lemma fm_year y r : 0 <= y < 10000 -> starts_with (m_year (dig 4 y ++ r)) (y, r).
Proof.
  intro H. pose proof (dnum_dig 4 y) as D. cbn [Z.of_nat Pos.of_succ_nat Pos.succ] in D. change (10 ^ 4) with 10000 in D. specialize (D H). pose proof (dig_digits 4 y) as G. pose proof (dig_length 4 y) as Ln. destruct (dig 4 y) as [|a [|b [|c [|d [|]]]]]; try discriminate. cbn [app m_year]. rewrite G, D. eexists. reflexivity.
Qed.
Lemma fm_frac n us r : (n <> 0)%nat -> 0 <= us < 10 ^ Z.of_nat n -> starts_with (m_frac n (dig n us ++ r)) (us * 10 ^ (6 - Z.of_nat n), r).
Proof.
  intros Hn H. destruct n as [|n]; [contradiction|]. cbn [m_frac]. assert (F : firstn (S n) (dig (S n) us ++ r) = dig (S n) us) by (rewrite firstn_app, dig_length, Nat.sub_diag, firstn_O, app_nil_r; apply firstn_all2; rewrite dig_length; lia).
  assert (Sk : skipn (S n) (dig (S n) us ++ r) = r) by (rewrite skipn_app, dig_length, Nat.sub_diag, skipn_all2 by (rewrite dig_length; lia); reflexivity).
  rewrite F, Sk, dig_length, Nat.eqb_refl, dig_digits, dnum_dig by exact H. cbn [andb app]. eexists. reflexivity.
Qed.
Lemma fm_frac6 us r : 0 <= us < 1000000 -> starts_with (m_frac 6 (dig 6 us ++ r)) (us, r).
Proof. intro H. destruct (fm_frac 6 us r) as [q E]; [discriminate|exact H|]. rewrite E. rewrite Z.mul_1_r. eexists. reflexivity. Qed.
Lemma m_colon_digits z r : m_colon (dig 2 z ++ r) = [(false, dig 2 z ++ r)].
Proof.
  rewrite dig2. cbn [app]. pose proof (dchar_digit (z / 10)) as D. unfold is_digit in D. rewrite andb_true_iff, !N.leb_le in D. unfold m_colon. destruct (dchar (z / 10)) as [|p]; [reflexivity|].
  do 6 (destruct p as [p|p|]; try reflexivity). lia.
Qed.

(** The captured zone has the offset of the datetime. *)
Lemma fm_zone z : - day_us < z < day_us -> exists zr, starts_with (m_zone (tz_str (Some z))) (zr, []) /\ zone_us zr = Some z.
Proof.
  intro Hz. unfold day_us in Hz. unfold tz_str. set (a := Z.abs z). set (us := a mod 1000000). set (s := a / 1000000).
  assert (Ha : 0 <= a < 86400000000) by (unfold a; lia).
  assert (Hs : 0 <= s < 86400) by (unfold s; split; [apply Z.div_pos; lia|apply Z.div_lt_upper_bound; lia]).
  assert (Hus : 0 <= us < 1000000) by (unfold us; apply Z.mod_pos_bound; lia).
  assert (Eas : a = s * 1000000 + us) by (unfold s, us; pose proof (Z.div_mod a 1000000); lia).
  assert (H1 : 0 <= s / 3600 <= 99) by (split; [apply Z.div_pos; lia|]; assert (s / 3600 < 100) by (apply Z.div_lt_upper_bound; lia); lia).
  assert (H2 : 0 <= s / 60 mod 60 <= 59) by (pose proof (Z.mod_pos_bound (s / 60) 60); lia).
  assert (H3 : 0 <= s mod 60 <= 59) by (pose proof (Z.mod_pos_bound s 60); lia).
  assert (Es : s = s / 3600 * 3600 + s / 60 mod 60 * 60 + s mod 60).
  { pose proof (Z.div_mod s 60). pose proof (Z.div_mod (s / 60) 60). replace (s / 3600) with (s / 60 / 60) by (rewrite Z.div_div by lia; reflexivity). lia. }
  set (sg := if z <? 0 then 45%N else 43%N). assert (Esg : (N.eqb sg 43 || N.eqb sg 45)%bool = true) by (unfold sg; destruct (z <? 0); reflexivity).
  assert (Eneg : N.eqb sg 45 = (z <? 0)) by (unfold sg; destruct (z <? 0); reflexivity).
  assert (Eabs : (if z <? 0 then - a else a) = z) by (unfold a; destruct (Z.ltb_spec z 0); lia).
  cbn [m_zone]. rewrite Esg, Eneg. clearbody sg.
  set (tail := if (us =? 0) && (s mod 60 =? 0) then [] else dig 2 (s mod 60) ++ (if us =? 0 then [] else 46%N :: dig 6 us)).
  assert (Tl : exists zr, starts_with ((fun '(mm, r3) => flat_map (fun '(c2, r4) => flat_map (fun '(ss, r5) =>
             match r5 with
             | 46%N :: r6 => map (fun '(us, r7) => (ZO (z <? 0) (s / 3600) false mm (Some (c2, ss, us)), r7)) (m_frac 6 r6)
             | _ => [] end
             ++ [(ZO (z <? 0) (s / 3600) false mm (Some (c2, ss, 0)), r5)])
             (m_0_59 r4)) (m_colon r3)
          ++ [(ZO (z <? 0) (s / 3600) false mm None, r3)]) (s / 60 mod 60, tail)) (zr, []) /\ zone_us zr = Some z).
  { unfold tail. destruct (Z.eqb_spec us 0) as [E0|E0]; cbn [andb].
    - destruct (Z.eqb_spec (s mod 60) 0) as [E1|E1].
      + exists (ZO (z <? 0) (s / 3600) false (s / 60 mod 60) None). split; [eexists; reflexivity|]. cbn [zone_us]. replace ((s / 3600 * 3600 + s / 60 mod 60 * 60) * 1000000) with a by lia. rewrite Eabs. reflexivity.
      + exists (ZO (z <? 0) (s / 3600) false (s / 60 mod 60) (Some (false, s mod 60, 0))). split.
        * apply sw_app. rewrite m_colon_digits. apply (sw_flat _ _ (false, dig 2 (s mod 60) ++ [])); [eexists; reflexivity|]. apply (sw_flat _ _ (s mod 60, [])); [exact (fm_0_59 _ [] H3)|]. eexists. reflexivity.
        * cbn [zone_us Bool.eqb]. replace ((s / 3600 * 3600 + s / 60 mod 60 * 60 + s mod 60) * 1000000 + 0) with a by lia. rewrite Eabs. reflexivity.
    - exists (ZO (z <? 0) (s / 3600) false (s / 60 mod 60) (Some (false, s mod 60, us))). split.
      + apply sw_app. rewrite m_colon_digits. apply (sw_flat _ _ (false, dig 2 (s mod 60) ++ 46%N :: dig 6 us)); [eexists; reflexivity|]. apply (sw_flat _ _ (s mod 60, 46%N :: dig 6 us)); [exact (fm_0_59 _ _ H3)|].
        apply sw_app. destruct (fm_frac6 us [] Hus) as [q Eq]. rewrite app_nil_r in Eq. rewrite Eq. cbn [map]. eexists. reflexivity.
      + cbn [zone_us Bool.eqb]. replace ((s / 3600 * 3600 + s / 60 mod 60 * 60 + s mod 60) * 1000000 + us) with a by lia. rewrite Eabs. reflexivity. }
  destruct Tl as (zr & T1 & T2). exists zr. split; [|exact T2].
  apply (sw_flat _ _ (s / 3600, dig 2 (s / 60 mod 60) ++ tail)); [exact (fm_00_99 _ _ H1)|]. rewrite m_colon_digits.
  apply (sw_flat _ _ (false, dig 2 (s / 60 mod 60) ++ tail)); [eexists; reflexivity|].
  apply (sw_flat _ _ (s / 60 mod 60, tail)); [exact (fm_0_59 _ _ H2)|]. exact T1.
Qed.

Lemma year_str_dig pad y : 1 <= y <= 9999 -> pad = true \/ 1000 <= y -> year_str pad y = dig 4 y.
Proof.
  intros H [->|H']; [reflexivity|]. unfold year_str. destruct pad; [reflexivity|]. destruct (Z.ltb_spec y 10); [lia|]. destruct (Z.ltb_spec y 100); [lia|]. destruct (Z.ltb_spec y 1000); [lia|reflexivity].
Qed.
Lemma valid_date_iff y m d : valid_date y m d = true <-> 1 <= y <= 9999 /\ 1 <= m <= 12 /\ 1 <= d <= days_in_month y m.
Proof. unfold valid_date. rewrite !andb_true_iff, !Z.leb_le. lia. Qed.
Lemma days_31 y m : days_in_month y m <= 31.
Proof. unfold days_in_month. destruct (m =? 2); [destruct (is_leap y); lia|]. destruct ((m =? 4) || (m =? 6) || (m =? 9) || (m =? 11)); lia. Qed.
Lemma valid_dt_iff t : valid_dt t = true <-> valid_date (dyear t) (dmonth t) (dday t) = true /\ 0 <= dhour t <= 23 /\ 0 <= dminute t <= 59 /\ 0 <= dsecond t <= 59 /\ 0 <= dmicro t <= 999999 /\ valid_tz (dtz t) = true.
Proof. unfold valid_dt. rewrite !andb_true_iff, !Z.leb_le. tauto. Qed.

Lemma tok_lit c ts f r x : starts_with (m_toks ts f r) x -> starts_with (m_toks (TL c :: ts) f (c :: r)) x.
Proof. intro H. cbn [m_toks]. rewrite N.eqb_refl. exact H. Qed.
Ltac step lem := apply (sw_flat _ _ _ _ lem); cbv beta iota.

(** utils.py:29: 00:00:00 of a date *)
Definition midnight (d : pydate) : datetime := DT (pyear d) (pmonth d) (pday d) 0 0 0 0 None.
(** the dates Python has; specification, models no code *)
Definition valid_pydate (d : pydate) : bool := valid_date (pyear d) (pmonth d) (pday d).

Lemma date_toks y m d rest ts f : 0 <= y < 10000 -> 1 <= m <= 12 -> 1 <= d <= 31 -> forall x,
  starts_with (m_toks ts (FD y m d (f_H f) (f_M f) (f_S f) (f_f f) (f_z f)) rest) x ->
  starts_with (m_toks ([TY; TL 45; Tm; TL 45; Td] ++ ts) f (dig 4 y ++ 45%N :: dig 2 m ++ 45%N :: dig 2 d ++ rest)) x.
Proof.
  intros Hy Hm Hd x H. cbn [app]. cbn [m_toks]. step (fm_year y (45%N :: dig 2 m ++ 45%N :: dig 2 d ++ rest) Hy).
  cbn [N.eqb low Pos.eqb]. rewrite N.eqb_refl. step (fm_month m (45%N :: dig 2 d ++ rest) Hm). rewrite N.eqb_refl. step (fm_day d rest Hd). exact H.
Qed.
Lemma time_toks h mi s us rest ts f : 0 <= h <= 23 -> 0 <= mi <= 59 -> 0 <= s <= 59 -> 0 <= us < 1000000 -> forall x,
  starts_with (m_toks ts (FD (f_y f) (f_m f) (f_d f) h mi s us (f_z f)) rest) x ->
  starts_with (m_toks ([TL 84; TH; TL 58; TM; TL 58; TS; TL 46; Tf] ++ ts) f (84%N :: dig 2 h ++ 58%N :: dig 2 mi ++ 58%N :: dig 2 s ++ 46%N :: dig 6 us ++ rest)) x.
Proof.
  intros Hh Hm Hs Hu x H. cbn [app]. cbn [m_toks]. rewrite N.eqb_refl. step (fm_hour h (58%N :: dig 2 mi ++ 58%N :: dig 2 s ++ 46%N :: dig 6 us ++ rest) Hh). rewrite N.eqb_refl.
  step (fm_min mi (58%N :: dig 2 s ++ 46%N :: dig 6 us ++ rest) Hm). rewrite N.eqb_refl. step (fm_sec s (46%N :: dig 6 us ++ rest) Hs). rewrite N.eqb_refl. step (fm_frac6 us rest Hu). exact H.
Qed.

Lemma strptime_date pad d : valid_pydate d = true -> pad = true \/ 1000 <= pyear d -> strptime DATE_FORMAT (strftime_date pad d) = Some (midnight d).
Proof.
  intros V Hp. destruct d as [y m d]. unfold valid_pydate in V. cbn [pyear pmonth pday] in *. assert (V' := V). apply valid_date_iff in V. destruct V as (Hy & Hm & Hd). pose proof (days_31 y m).
  unfold strptime, strftime_date. cbn [pyear pmonth pday]. rewrite year_str_dig by assumption.
  destruct (date_toks y m d [] [] fields0 ltac:(lia) Hm ltac:(lia) (FD y m d 0 0 0 0 None, [])) as [r E]; [eexists; reflexivity|]. change ([TY; TL 45; Tm; TL 45; Td] ++ []) with DATE_FORMAT in E. rewrite <- (app_nil_r (dig 2 d)), E.
  cbn [f_z f_y f_m f_d f_H f_M f_S f_f]. assert (Vt : valid_dt (DT y m d 0 0 0 0 None) = true) by (apply valid_dt_iff; cbn; repeat split; try lia; exact V'). rewrite Vt. reflexivity.
Qed.
Lemma strptime_dt pad t : valid_dt t = true -> pad = true \/ 1000 <= dyear t ->
  strptime (match dtz t with Some _ => DATETIME_FORMAT | None => NAIVE_DATETIME_FORMAT end) (strftime_dt pad t) = Some t.
Proof.
  intros V Hp. assert (V' := V). apply valid_dt_iff in V. destruct V as (Vd & Hh & Hmi & Hs & Hu & Vz). apply valid_date_iff in Vd. destruct Vd as (Hy & Hm & Hd). pose proof (days_31 (dyear t) (dmonth t)).
  unfold strptime, strftime_dt. rewrite year_str_dig by assumption. destruct t as [y m d h mi s us [z|]]; cbn [dyear dmonth dday dhour dminute dsecond dmicro dtz] in *.
  - cbn [valid_tz] in Vz. apply andb_true_iff in Vz. rewrite !Z.ltb_lt in Vz. destruct (fm_zone z Vz) as (zr & Z1 & Z2).
    change DATETIME_FORMAT with ([TY; TL 45; Tm; TL 45; Td] ++ [TL 84; TH; TL 58; TM; TL 58; TS; TL 46; Tf] ++ [Tz]).
    destruct (date_toks y m d (84%N :: dig 2 h ++ 58%N :: dig 2 mi ++ 58%N :: dig 2 s ++ 46%N :: dig 6 us ++ tz_str (Some z)) ([TL 84; TH; TL 58; TM; TL 58; TS; TL 46; Tf] ++ [Tz]) fields0 ltac:(lia) Hm ltac:(lia) (FD y m d h mi s us (Some zr), [])) as [r E].
    + apply time_toks; try lia. cbn [m_toks f_y f_m f_d f_H f_M f_S f_f]. apply (sw_flat _ _ (zr, [])); [exact Z1|]. eexists. reflexivity.
    + rewrite E. cbn [f_z f_y f_m f_d f_H f_M f_S f_f]. rewrite Z2, V'. reflexivity.
  - change NAIVE_DATETIME_FORMAT with ([TY; TL 45; Tm; TL 45; Td] ++ [TL 84; TH; TL 58; TM; TL 58; TS; TL 46; Tf] ++ []).
    destruct (date_toks y m d (84%N :: dig 2 h ++ 58%N :: dig 2 mi ++ 58%N :: dig 2 s ++ 46%N :: dig 6 us ++ []) ([TL 84; TH; TL 58; TM; TL 58; TS; TL 46; Tf] ++ []) fields0 ltac:(lia) Hm ltac:(lia) (FD y m d h mi s us None, [])) as [r E].
    + apply time_toks; try lia. eexists. reflexivity.
    + cbn [tz_str]. rewrite E. cbn [f_z f_y f_m f_d f_H f_M f_S f_f]. rewrite V'. reflexivity.
Qed.

(** ** What a match consumes *)
(** proof device *)
Definition digitish (c : N) : Prop := is_digit c = true \/ is_ws c = true.
(** proof device: characters that follow the sign of an offset *)
Definition zonish (c : N) : Prop := is_digit c = true \/ c = 58%N \/ c = 46%N.
(** proof device: what a match of a format looks like *)
Inductive shape : list tok -> pystr -> Prop :=
| sh_nil : shape [] []
| sh_lit c a ts s : low a = low c -> shape ts s -> shape (TL c :: ts) (a :: s)
| sh_num t ts c s : (forall x, t <> TL x) -> t <> Tz -> Forall digitish c -> shape ts s -> shape (t :: ts) (c ++ s)
| sh_zone a ts c s : (a = 43 \/ a = 45 \/ a = 90)%N -> Forall zonish c -> shape ts s -> shape (Tz :: ts) (a :: c ++ s).
(** [eats P l s]: every match in [l] consumes a prefix of [s] of characters in [P]. (proof device) *)
Definition eats {A} (P : N -> Prop) (l : list (A * pystr)) (s : pystr) : Prop := forall v r, In (v, r) l -> exists c, s = c ++ r /\ Forall P c.
Lemma eats_app {A} P (l m : list (A * pystr)) s : eats P l s -> eats P m s -> eats P (l ++ m) s.
Proof. intros H1 H2 v r H. apply in_app_or in H. destruct H; eauto. Qed.
Lemma eats_nil {A} P s : eats (A := A) P [] s. Proof. intros v r []. Qed.
Lemma eats_m1 (P : N -> Prop) lo hi s : (forall c, is_digit c = true -> P c) -> eats P (m1 lo hi s) s.
Proof.
  intros HP v r H. destruct s as [|a s]; [destruct H|]. cbn [m1] in H. destruct (is_digit a) eqn:E; cbn [andb] in H; [|destruct H]. destruct ((lo <=? dval a) && (dval a <=? hi)); [|destruct H]. destruct H as [H|[]]. injection H as <- <-. exists [a]. split; [reflexivity|]. constructor; [apply HP, E|constructor].
Qed.
Lemma eats_m2 (P : N -> Prop) t lo hi s : (forall c, is_digit c = true -> P c) -> eats P (m2 t lo hi s) s.
Proof.
  intros HP v r H. destruct s as [|a [|b s]]; try destruct H. cbn [m2] in H. destruct (is_digit a) eqn:E; cbn [andb] in H; [|destruct H]. destruct (is_digit b) eqn:E2; cbn [andb] in H; [|destruct H]. destruct ((dval a =? t) && (lo <=? dval b) && (dval b <=? hi)); [|destruct H]. destruct H as [H|[]]. injection H as <- <-. exists [a; b]. split; [reflexivity|]. constructor; [apply HP, E|constructor; [apply HP, E2|constructor]].
Qed.
Lemma dd c : is_digit c = true -> digitish c. Proof. left. assumption. Qed.
Lemma zd c : is_digit c = true -> zonish c. Proof. left. assumption. Qed.
Ltac eats_tac P := repeat apply eats_app; first [apply (eats_m2 _ _ _ _ _ P)|apply (eats_m1 _ _ _ _ P)|idtac].
Lemma eats_0_59 (P : N -> Prop) s : (forall c, is_digit c = true -> P c) -> eats P (m_0_59 s) s.
Proof. intro HP. unfold m_0_59. eats_tac HP. Qed.
Lemma eats_month s : eats digitish (m_month s) s. Proof. unfold m_month. eats_tac dd. Qed.
Lemma eats_day s : eats digitish (m_day s) s.
Proof.
  unfold m_day. eats_tac dd. intros v r H. destruct s as [|c s]; [destruct H|]. destruct (N.eq_dec c 32) as [->|Nc].
  - destruct (eats_m1 digitish 1 9 s dd v r H) as (q & -> & Q). exists (32%N :: q). split; [reflexivity|]. constructor; [right; reflexivity|exact Q].
  - exfalso. destruct c as [|p]; [destruct H|]. do 6 (destruct p as [p|p|]; try (destruct H; fail)). contradiction.
Qed.
Lemma eats_hour s : eats digitish (m_hour s) s. Proof. unfold m_hour. eats_tac dd. Qed.
Lemma eats_min s : eats digitish (m_min s) s. Proof. unfold m_min. apply eats_app; [apply eats_0_59, dd|apply (eats_m1 _ _ _ _ dd)]. Qed.
Lemma eats_sec s : eats digitish (m_sec s) s. Proof. unfold m_sec. apply eats_app; [apply (eats_m2 _ _ _ _ _ dd)|apply eats_app; [apply eats_0_59, dd|apply (eats_m1 _ _ _ _ dd)]]. Qed.
Lemma digits_all (P : N -> Prop) l : (forall c, is_digit c = true -> P c) -> forallb is_digit l = true -> Forall P l.
Proof. intros HP H. rewrite forallb_forall in H. apply Forall_forall. intros c Hc. apply HP, H, Hc. Qed.
Lemma eats_year s : eats digitish (m_year s) s.
Proof.
  intros v r H. destruct s as [|a [|b [|c [|d s]]]]; try destruct H. cbn [m_year] in H. destruct (forallb is_digit [a; b; c; d]) eqn:E; [|destruct H]. destruct H as [H|[]]. injection H as <- <-. exists [a; b; c; d]. split; [reflexivity|]. exact (digits_all _ _ dd E).
Qed.
Lemma eats_frac (P : N -> Prop) n s : (forall c, is_digit c = true -> P c) -> eats P (m_frac n s) s.
Proof.
  intro HP. induction n as [|n IH]; [apply eats_nil|]. cbn [m_frac]. apply eats_app; [|exact IH]. destruct (Nat.eqb _ _); cbn [andb]; [|apply eats_nil]. destruct (forallb is_digit (firstn (S n) s)) eqn:E; [|apply eats_nil].
  intros v r [H|[]]. injection H as <- <-. exists (firstn (S n) s). split; [symmetry; apply firstn_skipn|exact (digits_all _ _ HP E)].
Qed.
Lemma eats_00_99 s : eats zonish (m_00_99 s) s.
Proof.
  intros v r H. destruct s as [|a [|b s]]; try destruct H. cbn [m_00_99] in H. destruct (is_digit a) eqn:E; cbn [andb] in H; [|destruct H]. destruct (is_digit b) eqn:E2; [|destruct H]. destruct H as [H|[]]. injection H as <- <-. exists [a; b]. split; [reflexivity|]. constructor; [left; exact E|constructor; [left; exact E2|constructor]].
Qed.
Lemma eats_colon s : eats zonish (m_colon s) s.
Proof.
  intros v r H. destruct s as [|c s]; [destruct H as [H|[]]; injection H as <- <-; exists []; auto|]. destruct (N.eq_dec c 58) as [->|Nc].
  - destruct H as [H|[H|[]]]; injection H as <- <-; [exists [58%N]; split; [reflexivity|constructor; [right; left; reflexivity|constructor]]|exists []; auto].
  - assert (E : m_colon (c :: s) = [(false, c :: s)]) by (destruct c as [|p]; [reflexivity|]; do 6 (destruct p as [p|p|]; try reflexivity); contradiction). rewrite E in H. destruct H as [H|[]]. injection H as <- <-. exists []. auto.
Qed.
Lemma eats_flat {A B} P (l : list (A * pystr)) (f : A * pystr -> list (B * pystr)) s : eats P l s -> (forall v r, eats P (f (v, r)) r) -> eats P (flat_map f l) s.
Proof.
  intros H1 H2 w r H. apply in_flat_map in H. destruct H as ([v q] & K1 & K2). destruct (H1 v q K1) as (c & -> & C). destruct (H2 v q w r K2) as (c' & -> & C'). exists (c ++ c'). split; [apply app_assoc|apply Forall_app; auto].
Qed.
Lemma eats_one {A} P (v : A) s : eats P [(v, s)] s.
Proof. intros w r [H|[]]. injection H as <- <-. exists []. auto. Qed.
Lemma eats_zone s v r : In (v, r) (m_zone s) -> exists a c, s = a :: c ++ r /\ (a = 43 \/ a = 45 \/ a = 90)%N /\ Forall zonish c.
Proof.
  intro H. destruct s as [|a s]; [destruct H|]. cbn [m_zone] in H. destruct (N.eqb a 43 || N.eqb a 45)%bool eqn:Ea.
  - assert (Ha : (a = 43 \/ a = 45)%N) by (apply orb_true_iff in Ea; rewrite !N.eqb_eq in Ea; exact Ea). clear Ea.
    cut (exists c, s = c ++ r /\ Forall zonish c); [intros (c & -> & C); exists a, c; repeat split; [tauto|exact C]|]. revert v r H. change (eats zonish (flat_map (fun '(hh, r1) => flat_map (fun '(c1, r2) => flat_map (fun '(mm, r3) =>
          flat_map (fun '(c2, r4) => flat_map (fun '(ss, r5) =>
             match r5 with
             | 46%N :: r6 => map (fun '(us, r7) => (ZO (N.eqb a 45) hh c1 mm (Some (c2, ss, us)), r7)) (m_frac 6 r6)
             | _ => [] end
             ++ [(ZO (N.eqb a 45) hh c1 mm (Some (c2, ss, 0)), r5)])
             (m_0_59 r4)) (m_colon r3)
          ++ [(ZO (N.eqb a 45) hh c1 mm None, r3)])
          (m_0_59 r2)) (m_colon r1)) (m_00_99 s)) s).
    apply eats_flat; [apply eats_00_99|]. intros hh r1. apply eats_flat; [apply eats_colon|]. intros c1 r2. apply eats_flat; [apply eats_0_59, zd|]. intros mm r3. apply eats_app; [|apply eats_one].
    apply eats_flat; [apply eats_colon|]. intros c2 r4. apply eats_flat; [apply eats_0_59, zd|]. intros ss r5. apply eats_app; [|apply eats_one].
    destruct r5 as [|x r6]; [apply eats_nil|]. destruct (N.eq_dec x 46) as [->|Nx].
    + intros v r H. apply in_map_iff in H. destruct H as ([us r7] & E & H). injection E as <- <-. destruct (eats_frac zonish 6 r6 zd us r7 H) as (c & -> & C). exists (46%N :: c). split; [reflexivity|]. constructor; [right; right; reflexivity|exact C].
    + destruct x as [|p]; [apply eats_nil|]. do 6 (destruct p as [p|p|]; try apply eats_nil). contradiction.
  - destruct (N.eqb_spec a 90) as [->|]; [|destruct H]. destruct H as [H|[]]. injection H as <- <-. exists 90%N, []. repeat split; [tauto|constructor].
Qed.
Lemma eats_ws s : forall q, In q (m_ws s) -> exists c, s = c ++ q /\ Forall digitish c.
Proof.
  induction s as [|a s IH]; intros q H; cbn [m_ws] in H; [destruct H|]. destruct (is_ws a) eqn:E; [|destruct H]. apply in_app_or in H. destruct H as [H|[<-|[]]].
  - destruct (IH q H) as (c & -> & C). exists (a :: c). split; [reflexivity|]. constructor; [right; exact E|exact C].
  - exists [a]. split; [reflexivity|]. constructor; [right; exact E|constructor].
Qed.
Lemma ws_cases c : is_ws c = true -> (c <= 32 \/ 133 <= c)%N.
Proof. unfold is_ws. rewrite !orb_true_iff, !andb_true_iff, !N.leb_le, !N.eqb_eq. lia. Qed.
Lemma toks_shape ts : forall f s f' r, In (f', r) (m_toks ts f s) -> exists c, s = c ++ r /\ shape ts c.
Proof.
  assert (G : forall t A (m : list (A * pystr)) ts s (g : A -> fields), (forall x, t <> TL x) -> t <> Tz -> eats digitish m s ->
     (forall f s f' r, In (f', r) (m_toks ts f s) -> exists c, s = c ++ r /\ shape ts c) ->
     forall f' r, In (f', r) (flat_map (fun '(v, r) => m_toks ts (g v) r) m) -> exists c, s = c ++ r /\ shape (t :: ts) c).
  { intros t A m ts' s g N1 N2 He IH f' r H. apply in_flat_map in H. destruct H as ([v q] & K1 & K2). destruct (He v q K1) as (c & -> & C). destruct (IH _ _ _ _ K2) as (c' & -> & C'). exists (c ++ c'). split; [apply app_assoc|]. apply sh_num; assumption. }
  induction ts as [|t ts IH]; intros f s f' r H; cbn [m_toks] in H.
  - destruct H as [H|[]]. injection H as <- <-. exists []. split; [reflexivity|constructor].
  - destruct t as [c| | | | | | | | |].
    + destruct s as [|a s]; [destruct H|]. destruct (N.eqb_spec (low a) (low c)) as [E|]; [|destruct H]. destruct (IH _ _ _ _ H) as (q & -> & Q). exists (a :: q). split; [reflexivity|]. constructor; assumption.
    + apply in_flat_map in H. destruct H as (q & K1 & K2). destruct (eats_ws s q K1) as (c & -> & C). destruct (IH _ _ _ _ K2) as (c' & -> & C'). exists (c ++ c'). split; [apply app_assoc|]. apply sh_num; [discriminate|discriminate|exact C|exact C'].
    + refine (G _ _ _ _ _ (fun v => FD v (f_m f) (f_d f) (f_H f) (f_M f) (f_S f) (f_f f) (f_z f)) _ _ (eats_year s) IH _ _ H); discriminate.
    + refine (G _ _ _ _ _ (fun v => FD (f_y f) v (f_d f) (f_H f) (f_M f) (f_S f) (f_f f) (f_z f)) _ _ (eats_month s) IH _ _ H); discriminate.
    + refine (G _ _ _ _ _ (fun v => FD (f_y f) (f_m f) v (f_H f) (f_M f) (f_S f) (f_f f) (f_z f)) _ _ (eats_day s) IH _ _ H); discriminate.
    + refine (G _ _ _ _ _ (fun v => FD (f_y f) (f_m f) (f_d f) v (f_M f) (f_S f) (f_f f) (f_z f)) _ _ (eats_hour s) IH _ _ H); discriminate.
    + refine (G _ _ _ _ _ (fun v => FD (f_y f) (f_m f) (f_d f) (f_H f) v (f_S f) (f_f f) (f_z f)) _ _ (eats_min s) IH _ _ H); discriminate.
    + refine (G _ _ _ _ _ (fun v => FD (f_y f) (f_m f) (f_d f) (f_H f) (f_M f) v (f_f f) (f_z f)) _ _ (eats_sec s) IH _ _ H); discriminate.
    + refine (G _ _ _ _ _ (fun v => FD (f_y f) (f_m f) (f_d f) (f_H f) (f_M f) (f_S f) v (f_z f)) _ _ (eats_frac digitish 6 s dd) IH _ _ H); discriminate.
    + apply in_flat_map in H. destruct H as ([v q] & K1 & K2). destruct (eats_zone s v q K1) as (a & c & -> & A & C). destruct (IH _ _ _ _ K2) as (c' & -> & C'). exists (a :: c ++ c'). split; [cbn; rewrite app_assoc; reflexivity|]. apply sh_zone; assumption.
Qed.
Lemma strptime_shape ts s t : strptime ts s = Some t -> shape ts s.
Proof.
  unfold strptime. destruct (m_toks ts fields0 s) as [|[f [|]] l] eqn:E; try discriminate. intros _. destruct (toks_shape ts fields0 s f []) as (c & Es & C); [rewrite E; left; reflexivity|]. rewrite app_nil_r in Es. subst. exact C.
Qed.

(** ** The three formats exclude each other *)
(** proof device *)
Definition is_T (c : N) : bool := N.eqb (low c) 116.
(** proof device: the first characters of an offset *)
Definition is_sign (c : N) : bool := N.eqb c 43 || N.eqb c 45 || N.eqb c 90.
(** what follows the first t or T (proof device) *)
Fixpoint after_T (s : pystr) : option pystr := match s with [] => None | c :: r => if is_T c then Some r else after_T r end.
(** 0: no T; 1: T and no sign after it; 2: T and a sign after it (proof device) *)
Definition kind (s : pystr) : nat := match after_T s with None => 0 | Some r => if existsb is_sign r then 2 else 1 end.
Lemma digitish_T c : digitish c -> is_T c = false.
Proof.
  unfold is_T, low. intros [H|H]; [unfold is_digit in H; rewrite andb_true_iff, !N.leb_le in H|apply ws_cases in H; destruct (N.leb_spec 65 c), (N.leb_spec c 90); cbn [andb]; apply N.eqb_neq; lia]. destruct (N.leb_spec 65 c); cbn [andb]; [lia|]. apply N.eqb_neq. lia.
Qed.
Lemma digitish_sign c : digitish c -> is_sign c = false.
Proof.
  unfold is_sign. intros [H|H]; [unfold is_digit in H; rewrite andb_true_iff, !N.leb_le in H|apply ws_cases in H]; rewrite !orb_false_iff, !N.eqb_neq; lia.
Qed.
Lemma after_skip a b : Forall (fun c => is_T c = false) a -> after_T (a ++ b) = after_T b.
Proof. induction 1 as [|c a H _ IH]; [reflexivity|]. cbn. rewrite H. exact IH. Qed.
Lemma shape_split ts : forall us s, shape (ts ++ us) s -> exists a b, s = a ++ b /\ shape ts a /\ shape us b.
Proof.
  induction ts as [|t ts IH]; intros us s H; cbn [app] in H; [exists [], s; repeat split; [constructor|exact H]|].
  inversion H as [|c a ts' s' E H'|t' ts' c s' N1 N2 C H'|a ts' c s' A C H']; subst; destruct (IH _ _ H') as (x & y & -> & X & Y).
  - exists (a :: x), y. repeat split; [constructor; assumption|exact Y].
  - exists (c ++ x), y. rewrite app_assoc. repeat split; [apply sh_num; assumption|exact Y].
  - exists (a :: c ++ x), y. cbn. rewrite app_assoc. repeat split; [apply sh_zone; assumption|exact Y].
Qed.
(** literals of the list are neither t nor (for the second part) signs *)
Lemma shape_no (P : N -> bool) ts s : (forall c, digitish c -> P c = false) -> (forall c a, In (TL c) ts -> low a = low c -> P a = false) -> ~ In Tz ts -> shape ts s -> Forall (fun c => P c = false) s.
Proof.
  intros HP HL HZ H. induction H as [|c a ts s E H IH|t ts c s N1 N2 C H IH|a ts c s A C H IH].
  - constructor.
  - constructor; [apply (HL c); [left; reflexivity|exact E]|]. apply IH; [intros c' a' K; apply HL; right; exact K|intro K; apply HZ; right; exact K].
  - apply Forall_app. split; [eapply Forall_impl; [|exact C]; exact HP|]. apply IH; [intros c' a' K; apply HL; right; exact K|intro K; apply HZ; right; exact K].
  - exfalso. apply HZ. left. reflexivity.
Qed.
Lemma low_inv a c : low a = c -> a = c \/ (a + 32 = c)%N.
Proof. unfold low. destruct ((65 <=? a)%N && (a <=? 90)%N); auto. Qed.
Lemma date_no_T s : shape DATE_FORMAT s -> Forall (fun c => is_T c = false) s.
Proof.
  apply shape_no.
  - exact digitish_T.
  - intros c a H E. unfold is_T. rewrite E. cbn in H. repeat (destruct H as [H|H]; [try discriminate; injection H as <-; reflexivity|]). destruct H.
  - cbn. intuition discriminate.
Qed.
(** proof device: the directives after the T in diffing.py:27, 32 *)
Definition TIME_TOKS : list tok := [TH; TL 58; TM; TL 58; TS; TL 46; Tf].
Lemma time_no_sign s : shape TIME_TOKS s -> Forall (fun c => is_sign c = false) s.
Proof.
  apply shape_no.
  - exact digitish_sign.
  - intros c a H E. cbn in H. unfold is_sign. rewrite !orb_false_iff, !N.eqb_neq.
    assert (Hc : (c = 58 \/ c = 46)%N) by (repeat (destruct H as [H|H]; [try discriminate; injection H as <-; auto|]); destruct H).
    assert (El : low c = c) by (destruct Hc as [-> | ->]; reflexivity). rewrite El in E. unfold low in E. destruct (N.leb_spec 65 a); cbn [andb] in E; [destruct (N.leb_spec a 90)|]; lia.
  - cbn. intuition discriminate.
Qed.
Lemma kind_date s : shape DATE_FORMAT s -> kind s = 0%nat.
Proof. intro H. unfold kind. rewrite <- (app_nil_r s). rewrite after_skip by (apply date_no_T, H). reflexivity. Qed.
Lemma kind_T a b : Forall (fun c => is_T c = false) a -> forall x, low x = low 84 -> kind (a ++ x :: b) = if existsb is_sign b then 2%nat else 1%nat.
Proof. intros H x E. unfold kind. rewrite after_skip by exact H. cbn [after_T]. unfold is_T. rewrite E. reflexivity. Qed.
Lemma no_sign s : Forall (fun c => is_sign c = false) s -> existsb is_sign s = false.
Proof. induction 1 as [|c s H _ IH]; [reflexivity|]. cbn. rewrite H. exact IH. Qed.
Lemma kind_naive s : shape NAIVE_DATETIME_FORMAT s -> kind s = 1%nat.
Proof.
  intro H. change NAIVE_DATETIME_FORMAT with (DATE_FORMAT ++ TL 84 :: TIME_TOKS) in H. apply shape_split in H. destruct H as (a & b & -> & A & B). inversion B as [|c x ts s' E B'|t ts c s' N1|]; subst; [|exfalso; exact (N1 84%N eq_refl)].
  rewrite (kind_T a s' (date_no_T a A) x E), (no_sign _ (time_no_sign _ B')). reflexivity.
Qed.
Lemma kind_aware s : shape DATETIME_FORMAT s -> kind s = 2%nat.
Proof.
  intro H. change DATETIME_FORMAT with (DATE_FORMAT ++ TL 84 :: TIME_TOKS ++ [Tz]) in H. apply shape_split in H. destruct H as (a & b & -> & A & B). inversion B as [|c x ts s' E B'|t ts c s' N1|]; subst; [|exfalso; exact (N1 84%N eq_refl)].
  rewrite (kind_T a s' (date_no_T a A) x E). destruct (shape_split TIME_TOKS [Tz] s' B') as (p & q & -> & P & Q). rewrite existsb_app. inversion Q as [| |t ts c s' N1 N2|y ts c s' Y C Q']; subst; [contradiction|]. cbn [existsb].
  assert (Ey : is_sign y = true) by (unfold is_sign; destruct Y as [->|[-> | ->]]; reflexivity). rewrite Ey, orb_true_r. reflexivity.
Qed.
(** At most one of the default formats parses any given string. *)
Lemma formats_exclusive f g s t u : In f [DATETIME_FORMAT; DATE_FORMAT; NAIVE_DATETIME_FORMAT] -> In g [DATETIME_FORMAT; DATE_FORMAT; NAIVE_DATETIME_FORMAT] ->
  strptime f s = Some t -> strptime g s = Some u -> f = g.
Proof.
  intros Hf Hg Ef Eg. apply strptime_shape in Ef, Eg.
  assert (K : forall f, In f [DATETIME_FORMAT; DATE_FORMAT; NAIVE_DATETIME_FORMAT] -> shape f s -> (f = DATETIME_FORMAT /\ kind s = 2%nat) \/ (f = DATE_FORMAT /\ kind s = 0%nat) \/ (f = NAIVE_DATETIME_FORMAT /\ kind s = 1%nat)).
  { intros h [<-|[<-|[<-|[]]]] Hs; [left; split; [reflexivity|exact (kind_aware s Hs)]|right; left; split; [reflexivity|exact (kind_date s Hs)]|right; right; split; [reflexivity|exact (kind_naive s Hs)]]. }
  destruct (K f Hf Ef) as [[-> Kf]|[[-> Kf]|[-> Kf]]]; destruct (K g Hg Eg) as [[-> Kg]|[[-> Kg]|[-> Kg]]]; try reflexivity; congruence.
Qed.

(** ** Format strings *)
(** The format strings as the regex builder of strptime reads them: the directives above, white space and single
    characters; [None] for other directives and repeated directives. (utils.py:48) *)
Definition directive (c : N) : option tok :=
  if N.eqb c 89 then Some TY else if N.eqb c 109 then Some Tm else if N.eqb c 100 then Some Td else if N.eqb c 72 then Some TH
  else if N.eqb c 77 then Some TM else if N.eqb c 83 then Some TS else if N.eqb c 102 then Some Tf else if N.eqb c 122 then Some Tz else None.
(** the directives of a format string, as _strptime reads it (utils.py:48) *)
Fixpoint read_format (s : pystr) : option (list tok) :=
  match s with
  | [] => Some []
  | c :: r =>
      if N.eqb c 37 then
        match r with
        | d :: r' => match directive d, read_format r' with Some t, Some ts => Some (t :: ts) | _, _ => None end
        | [] => None
        end
      else if is_ws c then match read_format r with Some (TW :: ts) => Some (TW :: ts) | Some ts => Some (TW :: ts) | None => None end
      else if (N.leb c 32 || N.leb 127 c)%bool then None
      else match read_format r with Some ts => Some (TL c :: ts) | None => None end
  end.
(** [==] of directives, for [once] (utils.py:48) *)
Definition tok_eqb (a b : tok) : bool :=
  match a, b with
  | TY, TY | Tm, Tm | Td, Td | TH, TH | TM, TM | TS, TS | Tf, Tf | Tz, Tz => true | _, _ => false end.
(** no directive twice: _strptime raises otherwise (re.error, redefinition of a group; utils.py:48) *)
Fixpoint once (ts : list tok) : bool := match ts with [] => true | t :: r => negb (existsb (tok_eqb t) r) && once r end.
(** the format string as directives, [None] if _strptime cannot be modelled for it (utils.py:48) *)
Definition toks_of (s : pystr) : option (list tok) := match read_format s with Some ts => if once ts then Some ts else None | None => None end.
(** diffing.py:27-34 *)
Definition DATETIME_STR : pystr := lit "%Y-%m-%dT%H:%M:%S.%f%z".
(** diffing.py:32 *)
Definition NAIVE_DATETIME_STR : pystr := lit "%Y-%m-%dT%H:%M:%S.%f".
(** diffing.py:28 *)
Definition DATE_STR : pystr := lit "%Y-%m-%d".
Lemma toks_datetime : toks_of DATETIME_STR = Some DATETIME_FORMAT. Proof. reflexivity. Qed.
Lemma toks_naive : toks_of NAIVE_DATETIME_STR = Some NAIVE_DATETIME_FORMAT. Proof. reflexivity. Qed.
Lemma toks_date : toks_of DATE_STR = Some DATE_FORMAT. Proof. reflexivity. Qed.
