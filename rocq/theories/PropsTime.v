(** Properties C49 and C50: timestamps. *)
From Coq Require Import List ZArith NArith Bool Lia Reals Lra.
From Coq Require Import Floats.SpecFloat.
From Flocq Require Import Core.
From Flocq Require Import IEEE754.BinarySingleNaN.
From Verif Require Import PyVal Time TimeProofs TimeNaive.
Import ListNotations.
Open Scope Z_scope.

(** ** The calendar of Time.v counts days *)
Lemma div_step y n : 0 < n -> y / n = (y - 1) / n + (if y mod n =? 0 then 1 else 0).
Proof.
  intro Hn. pose proof (Z.div_mod y n ltac:(lia)) as D. pose proof (Z.mod_pos_bound y n Hn) as B. destruct (Z.eqb_spec (y mod n) 0) as [E|E].
  - assert (K : (y - 1) / n = y / n - 1) by (symmetry; apply (Z.div_unique (y - 1) n (y / n - 1) (n - 1)); lia). lia.
  - assert (K : (y - 1) / n = y / n) by (symmetry; apply (Z.div_unique (y - 1) n (y / n) (y mod n - 1)); lia). lia.
Qed.
Definition year_days (y : Z) : Z := if is_leap y then 366 else 365.
Lemma year_step y : days_before_year (y + 1) = days_before_year y + year_days y.
Proof.
  unfold days_before_year, year_days, is_leap. replace (y + 1 - 1) with y by lia. cbv zeta. rewrite (div_step y 4), (div_step y 100), (div_step y 400) by lia.
  assert (D4 : y mod 100 = 0 -> y mod 4 = 0) by (intro H; apply Z.mod_divide in H; [|lia]; destruct H as [q ->]; apply Z.mod_divide; [lia|]; exists (q * 25); lia).
  assert (D100 : y mod 400 = 0 -> y mod 100 = 0) by (intro H; apply Z.mod_divide in H; [|lia]; destruct H as [q ->]; apply Z.mod_divide; [lia|]; exists (q * 4); lia).
  destruct (Z.eqb_spec (y mod 4) 0), (Z.eqb_spec (y mod 100) 0), (Z.eqb_spec (y mod 400) 0); cbn [andb orb negb]; try lia; exfalso; auto.
Qed.
Lemma month_step y m : 1 <= m <= 11 -> days_before_month y (m + 1) = days_before_month y m + days_in_month y m.
Proof.
  intro H. assert (E : m = 1 \/ m = 2 \/ m = 3 \/ m = 4 \/ m = 5 \/ m = 6 \/ m = 7 \/ m = 8 \/ m = 9 \/ m = 10 \/ m = 11) by lia. clear H.
  repeat (destruct E as [->|E]; [unfold days_before_month, days_in_month; cbn; destruct (is_leap y); reflexivity|]). subst. unfold days_before_month, days_in_month; cbn; destruct (is_leap y); reflexivity.
Qed.
Lemma month_first y : days_before_month y 1 = 0.
Proof. reflexivity. Qed.
Lemma month_last y : days_before_month y 12 + days_in_month y 12 = year_days y.
Proof. unfold days_before_month, days_in_month, year_days. cbn. destruct (is_leap y); reflexivity. Qed.

(** The day after a valid date, in the calendar. *)
Definition next_day (y m d : Z) : Z * Z * Z :=
  if d <? days_in_month y m then (y, m, d + 1) else if m <? 12 then (y, m + 1, 1) else (y + 1, 1, 1).
(** [ordinal] counts days: it is the number of days from the first of January of the year 1 and the epoch is
    the first of January 1970. *)
Lemma ordinal_counts : ordinal 1 1 1 = 1 /\ ordinal 1970 1 1 = epoch_ordinal /\
  forall y m d, valid_date y m d = true -> let '(y', m', d') := next_day y m d in ordinal y' m' d' = ordinal y m d + 1.
Proof.
  split; [reflexivity|]. split; [reflexivity|]. intros y m d V. unfold valid_date in V. rewrite !andb_true_iff, !Z.leb_le in V. destruct V as [[[[[Y1 Y2] M1] M2] D1] D2].
  unfold next_day. destruct (Z.ltb_spec d (days_in_month y m)); [unfold ordinal; lia|]. assert (d = days_in_month y m) by lia. subst d. destruct (Z.ltb_spec m 12).
  - unfold ordinal. rewrite month_step by lia. lia.
  - assert (m = 12) by lia. subst m. unfold ordinal. rewrite year_step, month_first. pose proof (month_last y). lia.
Qed.
Lemma dim_pos y m : 0 <= days_in_month y m.
Proof. unfold days_in_month. destruct (m =? 2); [destruct (is_leap y); lia|]. destruct ((m =? 4) || (m =? 6) || (m =? 9) || (m =? 11))%bool; lia. Qed.
Lemma month_mono y m m' : 1 <= m -> m < m' -> m' <= 12 -> days_before_month y m + days_in_month y m <= days_before_month y m'.
Proof.
  intros H1 H2 H3. assert (E : exists k : nat, m' = m + 1 + Z.of_nat k) by (exists (Z.to_nat (m' - m - 1)); lia). destruct E as [k ->]. clear H2. induction k as [|k IH].
  - replace (m + 1 + Z.of_nat 0) with (m + 1) by lia. rewrite month_step by lia. lia.
  - replace (m + 1 + Z.of_nat (S k)) with (m + 1 + Z.of_nat k + 1) by lia. rewrite month_step by lia. assert (0 <= days_in_month y (m + 1 + Z.of_nat k)) by (apply dim_pos). specialize (IH ltac:(lia)). lia.
Qed.
Lemma year_mono y y' : y < y' -> days_before_year y + year_days y <= days_before_year y'.
Proof.
  intro H. assert (E : exists k : nat, y' = y + 1 + Z.of_nat k) by (exists (Z.to_nat (y' - y - 1)); lia). destruct E as [k ->]. clear H. induction k as [|k IH].
  - replace (y + 1 + Z.of_nat 0) with (y + 1) by lia. rewrite year_step. lia.
  - replace (y + 1 + Z.of_nat (S k)) with (y + 1 + Z.of_nat k + 1) by lia. rewrite year_step. assert (0 <= year_days (y + 1 + Z.of_nat k)) by (unfold year_days; destruct (is_leap _); lia). lia.
Qed.
Lemma ordinal_lex y m d y' m' d' : valid_date y m d = true -> valid_date y' m' d' = true ->
  y < y' \/ y = y' /\ (m < m' \/ m = m' /\ d < d') -> ordinal y m d < ordinal y' m' d'.
Proof.
  unfold valid_date. rewrite !andb_true_iff, !Z.leb_le. intros [[[[[Y1 Y2] M1] M2] D1] D2] [[[[[Y1' Y2'] M1'] M2'] D1'] D2'] H. unfold ordinal.
  assert (B : days_before_month y m + d <= year_days y).
  { destruct (Z.eq_dec m 12) as [->|N]; [pose proof (month_last y); lia|]. pose proof (month_mono y m 12 M1 ltac:(lia) ltac:(lia)). pose proof (month_last y). assert (days_in_month y 12 = 31) by reflexivity. lia. }
  assert (B' : 0 <= days_before_month y' m').
  { destruct (Z.eq_dec m' 1) as [->|N]; [rewrite month_first; lia|]. pose proof (month_mono y' 1 m' ltac:(lia) ltac:(lia) ltac:(lia)). rewrite month_first in *. assert (days_in_month y' 1 = 31) by reflexivity. lia. }
  destruct H as [H|[-> [H|[-> H]]]].
  - pose proof (year_mono y y' H). lia.
  - pose proof (month_mono y' m m' M1 H M2'). lia.
  - lia.
Qed.

(** ** C49 *)
(** [off]: the UTC offset in force (that of an aware datetime, of the machine's timezone for a naive one). *)
Definition offset_of (local : Z) (t : datetime) : Z := match dtz t with Some o => o | None => local end.
(** The Gregorian calendar: the days of [n] years from [y] on, of the months of a year; the number of a day (the first of
    January of the year 1 is day 1). *)
Definition leap_year (y : Z) : bool := (y mod 4 =? 0) && (negb (y mod 100 =? 0) || (y mod 400 =? 0)).
Fixpoint days_of_years (y : Z) (n : nat) : Z := match n with O => 0 | S k => (if leap_year y then 366 else 365) + days_of_years (y + 1) k end.
Definition month_lengths (y : Z) : list Z := [31; if leap_year y then 29 else 28; 31; 30; 31; 30; 31; 31; 30; 31; 30; 31].
Definition day_number (y m d : Z) : Z := days_of_years 1 (Z.to_nat (y - 1)) + fold_right Z.add 0 (firstn (Z.to_nat (m - 1)) (month_lengths y)) + d.
(** microseconds since the epoch, exactly *)
Definition exact_us (local : Z) (t : datetime) : Z :=
  ((((day_number (dyear t) (dmonth t) (dday t) - day_number 1970 1 1) * 24 + dhour t) * 60 + dminute t) * 60 + dsecond t) * 1000000 + dmicro t - offset_of local t.
Lemma years_model n : forall y, days_of_years y n = days_before_year (y + Z.of_nat n) - days_before_year y.
Proof.
  induction n as [|n IH]; intro y; [cbn [days_of_years]; rewrite Z.add_0_r; lia|]. cbn [days_of_years]. rewrite IH. replace (y + Z.of_nat (S n)) with (y + 1 + Z.of_nat n) by lia. pose proof (year_step y) as E. unfold year_days in E. change (is_leap y) with (leap_year y) in E. destruct (leap_year y); lia.
Qed.
Lemma day_number_model y m d : valid_date y m d = true -> day_number y m d = ordinal y m d.
Proof.
  intro V. unfold valid_date in V. rewrite !andb_true_iff, !Z.leb_le in V. destruct V as [[[[[Y1 Y2] M1] M2] D1] D2]. unfold day_number, ordinal. rewrite years_model. rewrite Z2Nat.id by lia. replace (1 + (y - 1)) with y by lia. change (days_before_year 1) with 0. rewrite Z.sub_0_r. f_equal. f_equal.
  assert (E : m = 1 \/ m = 2 \/ m = 3 \/ m = 4 \/ m = 5 \/ m = 6 \/ m = 7 \/ m = 8 \/ m = 9 \/ m = 10 \/ m = 11 \/ m = 12) by lia. clear - E. unfold days_before_month, month_lengths. change (leap_year y) with (is_leap y).
  repeat (destruct E as [->|E]; [cbn; destruct (is_leap y); reflexivity|]). subst. cbn; destruct (is_leap y); reflexivity.
Qed.
Lemma exact_model local t : valid_dt t = true -> exact_us local t = epoch_us t (offset_of local t).
Proof.
  intro V. unfold valid_dt in V. rewrite !andb_true_iff in V. destruct V as [[[[[[[[[V _] _] _] _] _] _] _] _] _]. unfold exact_us, epoch_us. rewrite (day_number_model _ _ _ V). replace (day_number 1970 1 1) with epoch_ordinal by (vm_compute; reflexivity). unfold day_us. lia.
Qed.
(** without a timezone *)
Definition naive (t : datetime) : bool := match dtz t with Some _ => false | None => true end.
Lemma stamp_model local t : valid_dt t = true -> to_timestamp local t = kind_ts (naive t) (exact_us local t).
Proof. intro V. rewrite exact_model by exact V. unfold to_timestamp, naive, offset_of. destruct (dtz t); reflexivity. Qed.
Definition good (local : Z) (t : datetime) : Prop := valid_dt t = true /\ - day_us < local < day_us.
Lemma good_bound local t : good local t -> Z.abs (exact_us local t) < 10 ^ 18.
Proof.
  intros [V Hl]. rewrite exact_model by exact V. apply epoch_us_bound; [exact V|]. unfold offset_of. destruct (dtz t) as [z|] eqn:E; [|exact Hl]. unfold valid_dt in V. rewrite E in V. apply andb_true_iff in V. destruct V as [_ V]. cbn [valid_tz] in V. apply andb_true_iff in V. rewrite !Z.ltb_lt in V. lia.
Qed.
(** C49, as stated, is false: 1001 ms after the epoch gets the timestamp 1000 (rounding towards zero or down). *)
Theorem C49_exact_refuted : exists t, valid_dt t = true /\ dtz t = Some 0 /\ exact_us 0 t = 1001 * 1000 /\ to_timestamp 0 t = 1000.
Proof. exists (DT 1970 1 1 0 0 1 1000 (Some 0)). split; [vm_compute; reflexivity|]. split; [reflexivity|]. split; vm_compute; reflexivity. Qed.
Print Assumptions C49_exact_refuted.
(** What is true: between 1833-11-24 and 2106-02-07 the result is the number of whole milliseconds (dropping
    what is beyond) unless the moment is a whole number of milliseconds; then it may be one millisecond too
    close to the epoch. For all moments it is at most one millisecond off. *)
Theorem C49_exact_partial : forall local t, good local t -> let us := exact_us local t in
  (Z.abs us < 10 ^ 6 * 2 ^ 32 -> us mod 1000 <> 0 -> to_timestamp local t = Z.quot us 1000) /\
  (Z.abs us < 10 ^ 6 * 2 ^ 32 -> 0 <= us -> to_timestamp local t = us / 1000 \/ to_timestamp local t = us / 1000 - 1) /\
  (Z.abs us < 10 ^ 6 * 2 ^ 32 -> us <= 0 -> to_timestamp local t = Z.quot us 1000 \/ to_timestamp local t = Z.quot us 1000 + 1) /\
  Z.abs (to_timestamp local t - Z.quot us 1000) <= 1.
Proof.
  intros local t G us. pose proof (good_bound local t G) as B. fold us in B. rewrite (stamp_model local t (proj1 G)). fold us. split; [|split; [|split]].
  - intros Hn Hm. apply (proj1 (kind_near (naive t) us Hn)), Hm.
  - intros Hn Hp. apply (proj1 (proj2 (kind_near (naive t) us Hn))), Hp.
  - intros Hn Hp. apply (proj2 (proj2 (kind_near (naive t) us Hn))), Hp.
  - apply kind_far, B.
Qed.
Print Assumptions C49_exact_partial.
Example C49_example : good 0 (DT 2024 2 29 12 30 15 123456 (Some 3600000000)) /\ exact_us 0 (DT 2024 2 29 12 30 15 123456 (Some 3600000000)) = 1709206215123456 /\ to_timestamp 0 (DT 2024 2 29 12 30 15 123456 (Some 3600000000)) = 1709206215123.
Proof. split; [split; [reflexivity|unfold day_us; lia]|]. split; vm_compute; reflexivity. Qed.

(** ** C50 *)
(** Moments of which Python computes the same float: both have a timezone or none has, they are at least 8192 seconds
    from the epoch, or they are whole seconds. *)
Definition same_float (t u : datetime) (us : Z) : Prop := naive t = naive u \/ 8192 * 1000000 <= Z.abs us \/ us mod 1000000 = 0.
(** Any two moments, aware or naive, with their offsets: an earlier one does not get a later timestamp, and equal ones
    get equal timestamps. *)
Theorem C50_monotone : forall la lb t u, good la t -> good lb u ->
  exact_us la t < exact_us lb u \/ (exact_us la t = exact_us lb u /\ same_float t u (exact_us la t)) -> to_timestamp la t <= to_timestamp lb u.
Proof.
  intros la lb t u Gt Gu H. pose proof (good_bound la t Gt) as Ba. pose proof (good_bound lb u Gu) as Bb. rewrite (stamp_model la t (proj1 Gt)), (stamp_model lb u (proj1 Gu)). apply kind_order; [exact Ba|exact Bb|exact H].
Qed.
Print Assumptions C50_monotone.
Theorem C50_equal : forall la lb t u, good la t -> good lb u -> exact_us la t = exact_us lb u -> same_float t u (exact_us la t) -> to_timestamp la t = to_timestamp lb u.
Proof.
  intros la lb t u Gt Gu E F. apply Z.le_antisymm; apply C50_monotone; try assumption; right; [split; assumption|]. split; [symmetry; exact E|]. rewrite <- E. destruct F as [F|F]; [left; symmetry; exact F|right; exact F].
Qed.
Print Assumptions C50_equal.
(** The same moment with and without a timezone (on a machine in UTC) can get different timestamps. *)
Theorem C50_kinds_refuted : exists t u, good 0 t /\ good 0 u /\ naive t = true /\ naive u = false /\ exact_us 0 t = exact_us 0 u /\ to_timestamp 0 t = 1117 /\ to_timestamp 0 u = 1118.
Proof.
  exists (DT 1970 1 1 0 0 1 118000 None), (DT 1970 1 1 0 0 1 118000 (Some 0)). split; [split; [reflexivity|unfold day_us; lia]|]. split; [split; [reflexivity|unfold day_us; lia]|]. split; [reflexivity|]. split; [reflexivity|]. split; [vm_compute; reflexivity|]. split; vm_compute; reflexivity.
Qed.
Print Assumptions C50_kinds_refuted.
(** With one offset, in terms of the calendar: *)
Definition earlier (t u : datetime) : Prop :=
  dyear t < dyear u \/ dyear t = dyear u /\ (dmonth t < dmonth u \/ dmonth t = dmonth u /\ (dday t < dday u \/ dday t = dday u /\
  (dhour t < dhour u \/ dhour t = dhour u /\ (dminute t < dminute u \/ dminute t = dminute u /\ (dsecond t < dsecond u \/ dsecond t = dsecond u /\ dmicro t <= dmicro u))))).
Theorem C50_calendar : forall local t u, good local t -> good local u -> dtz t = dtz u -> earlier t u -> to_timestamp local t <= to_timestamp local u.
Proof.
  intros local t u Gt Gu Ez E. apply C50_monotone; [exact Gt|exact Gu|]. assert (Le : exact_us local t <= exact_us local u); [|assert (Nk : naive t = naive u) by (unfold naive; rewrite Ez; reflexivity); destruct (Z.eq_dec (exact_us local t) (exact_us local u)) as [Eu|Eu]; [right; split; [exact Eu|left; exact Nk]|left; lia]]. rewrite (exact_model local t (proj1 Gt)), (exact_model local u (proj1 Gu)). unfold offset_of, epoch_us. rewrite Ez.
  destruct Gt as [Vt _], Gu as [Vu _]. unfold valid_dt in Vt, Vu. rewrite !andb_true_iff, !Z.leb_le in Vt, Vu. destruct Vt as [[[[[[[[[Vt H1] H2] I1] I2] S1] S2] U1] U2] _], Vu as [[[[[[[[[Vu H1'] H2'] I1'] I2'] S1'] S2'] U1'] U2'] _].
  assert (D : ordinal (dyear t) (dmonth t) (dday t) < ordinal (dyear u) (dmonth u) (dday u) \/
    (ordinal (dyear t) (dmonth t) (dday t) = ordinal (dyear u) (dmonth u) (dday u) /\ (dhour t * 3600 + dminute t * 60 + dsecond t) * 1000000 + dmicro t <= (dhour u * 3600 + dminute u * 60 + dsecond u) * 1000000 + dmicro u)).
  { unfold earlier in E. destruct E as [E|(E1 & [E|(E2 & [E|(E3 & E)])])]; [left; apply ordinal_lex; auto|left; apply ordinal_lex; auto|left; apply ordinal_lex; auto|right]. rewrite E1, E2, E3. split; [reflexivity|]. lia. }
  unfold day_us. destruct D as [D|[D1 D2]]; lia.
Qed.
Print Assumptions C50_calendar.
(** The clock ([now], utils.py:54-58): a later reading gives a later version. *)
Theorem C50_now_monotone : forall a b : spec_float, valid_f a = true -> valid_f b = true -> is_finite_SF a = true -> is_finite_SF b = true ->
  (Rabs (realof a) < bpow radix2 900)%R -> (Rabs (realof b) < bpow radix2 900)%R -> (realof a <= realof b)%R -> now_of a <= now_of b.
Proof.
  intros a b Va Vb Fa Fb Ba Bb H. unfold now_of. rewrite !trunc_real.
  assert (R : forall x, (Rabs x < bpow radix2 900)%R -> (Rabs (rnd (x * 1000)) < bpow radix2 1024)%R).
  { intros x Hx. apply (rnd_lt _ 920); [|lia]. rewrite Rabs_mult, (Rabs_right 1000) by lra. assert (B3 : (bpow radix2 920 = bpow radix2 900 * bpow radix2 20)%R) by (rewrite <- bpow_plus; reflexivity). pose proof (bpow_gt_0 radix2 900). assert (B4 : (bpow radix2 20 > 2000)%R) by (cbn; lra). pose proof (Rabs_pos x). nra. }
  rewrite !mul_real by auto. apply Ztrunc_le. apply round_le; auto with typeclass_instances. apply Rmult_le_compat_r; [lra|exact H].
Qed.
Print Assumptions C50_now_monotone.
(** The version is the clock's reading in milliseconds: less than 1.01 ms from it (until the year 2106). *)
Theorem C50_now_ms : forall a : spec_float, valid_f a = true -> is_finite_SF a = true -> (0 <= realof a < IZR (2 ^ 32))%R ->
  (realof a * 1000 - 101 / 100 < IZR (now_of a) < realof a * 1000 + 1 / 100)%R.
Proof.
  intros a V F [B0 B]. change (IZR (2 ^ 32)) with 4294967296%R in B. unfold now_of. rewrite trunc_real.
  assert (X : (Rabs (realof a * 1000) < bpow radix2 42)%R). { rewrite Rabs_right by lra. change (bpow radix2 42) with 4398046511104%R. lra. }
  rewrite mul_real; [|exact V|exact F|apply (rnd_lt _ 42); [exact X|lia]].
  pose proof (rnd_err _ 42 X ltac:(lia)) as E. change (bpow radix2 (42 - 54)) with (/ 4096)%R in E. apply Rabs_le_inv in E.
  assert (P : (0 <= rnd (realof a * 1000))%R). { rewrite <- (round_0 radix2 b64e (Znearest (fun x => negb (Z.even x)))). apply round_le; auto with typeclass_instances. lra. }
  rewrite Ztrunc_floor by exact P. pose proof (Zfloor_lb (rnd (realof a * 1000))) as L1. pose proof (Zfloor_ub (rnd (realof a * 1000))) as L2. lra.
Qed.
Print Assumptions C50_now_ms.
Example C50_example : good 0 (DT 1999 12 31 23 59 59 999999 None) /\ good 0 (DT 2000 1 1 0 0 0 0 None) /\ earlier (DT 1999 12 31 23 59 59 999999 None) (DT 2000 1 1 0 0 0 0 None).
Proof. split; [split; [reflexivity|unfold day_us; lia]|]. split; [split; [reflexivity|unfold day_us; lia]|]. left. cbn. lia. Qed.
