(** Property C96: texts in the date formats of the options. *)
From Coq Require Import String Ascii.
From Coq Require Import List ZArith NArith Bool Lia Permutation.
From Coq Require Import Floats.SpecFloat.
From Verif Require Import PyVal Time TimeParse Prepare PrepareProofs PropsPrepare Parser ParserProofs ParserTypes ParserOrder PropsParser PropsDates.
Import ListNotations.
Open Scope string_scope.
Open Scope list_scope.
Open Scope Z_scope.

(** ** Specification *)
(** The text does not go on with a digit. *)
Definition ended (s : pystr) : Prop := match s with c :: _ => is_digit c = false | [] => True end.
(** [two n s w]: [w] is the number written before [s], with two digits or without the leading zero. *)
Inductive two (n : Z) (s : pystr) : pystr -> Prop :=
| two_full : two n s (dig 2 n)
| two_short : n < 10 -> ended s -> two n s (dig 1 n).
(** Microseconds: the digits after the decimal point. *)
Inductive fraction (us : Z) (s : pystr) : pystr -> Prop :=
| fr_full : fraction us s (dig 6 us)
| fr_short k v : (0 < k < 6)%nat -> us = v * 10 ^ (6 - Z.of_nat k) -> ended s -> fraction us s (dig k v).
(** Offsets (in microseconds): as strftime writes them, with a colon between hours and minutes, and Z for UTC. *)
Inductive offset : option Z -> pystr -> Prop :=
| of_plain z : offset z (tz_str z)
| of_colon z : z mod 60000000 = 0 -> offset (Some z) ((if z <? 0 then 45%N else 43%N) :: dig 2 (Z.abs z / 3600000000) ++ 58%N :: dig 2 (Z.abs z / 60000000 mod 60))
| of_utc : offset (Some 0) (lit "Z").
Definition same_char (a c : N) : Prop := a = c \/ ((65 <= a <= 90)%N /\ c = (a + 32)%N) \/ ((65 <= c <= 90)%N /\ a = (c + 32)%N).
(** [in_format t fmt s]: [s] is the moment [t] written in the format: the year with four digits, white space as any run of it, letters in
    upper or lower case, other characters as they are. *)
Inductive in_format (t : datetime) : pystr -> pystr -> Prop :=
| if_nil : in_format t [] []
| if_char c a fmt s : (32 < c < 127)%N -> c <> 37%N -> same_char a c -> in_format t fmt s -> in_format t (c :: fmt) (a :: s)
| if_space v w fmt s : v <> [] -> w <> [] -> Forall (fun c => is_ws c = true) (v ++ w) -> in_format t fmt s -> in_format t (v ++ fmt) (w ++ s)
| if_year fmt s : in_format t fmt s -> in_format t (lit "%Y" ++ fmt) (dig 4 (dyear t) ++ s)
| if_month fmt s w : two (dmonth t) s w -> in_format t fmt s -> in_format t (lit "%m" ++ fmt) (w ++ s)
| if_day fmt s w : two (dday t) s w -> in_format t fmt s -> in_format t (lit "%d" ++ fmt) (w ++ s)
| if_hour fmt s w : two (dhour t) s w -> in_format t fmt s -> in_format t (lit "%H" ++ fmt) (w ++ s)
| if_minute fmt s w : two (dminute t) s w -> in_format t fmt s -> in_format t (lit "%M" ++ fmt) (w ++ s)
| if_second fmt s w : two (dsecond t) s w -> in_format t fmt s -> in_format t (lit "%S" ++ fmt) (w ++ s)
| if_micro fmt s w : fraction (dmicro t) s w -> in_format t fmt s -> in_format t (lit "%f" ++ fmt) (w ++ s)
| if_zone fmt s w : offset (dtz t) w -> in_format t fmt s -> in_format t (lit "%z" ++ fmt) (w ++ s).
(** The format has the directive. *)
Definition tells (fmt d : pystr) : Prop := exists a b, fmt = a ++ d ++ b.
(** No directive twice (datetime.strptime raises), and an offset only at the end. *)
Definition fit (fmt : pystr) : Prop := (forall a c b, fmt = a ++ 37%N :: c :: b -> ~ tells b [37%N; c]) /\ (forall a b, fmt = a ++ lit "%z" ++ b -> b = []).
(** What the format leaves out is as strptime assumes: the year 1900, January, the first, midnight, no offset. *)
Definition told (fmt : pystr) (t : datetime) : Prop :=
  (tells fmt (lit "%Y") \/ dyear t = 1900) /\ (tells fmt (lit "%m") \/ dmonth t = 1) /\ (tells fmt (lit "%d") \/ dday t = 1) /\ (tells fmt (lit "%H") \/ dhour t = 0) /\
  (tells fmt (lit "%M") \/ dminute t = 0) /\ (tells fmt (lit "%S") \/ dsecond t = 0) /\ (tells fmt (lit "%f") \/ dmicro t = 0) /\ (tells fmt (lit "%z") <-> dtz t <> None).

(** ** Proofs *)
(** The same for the tokens the format is read as. *)
Inductive in_toks (t : datetime) : list tok -> pystr -> Prop :=
| it_nil : in_toks t [] []
| it_char c a ts s : is_ws a = false -> low a = low c -> in_toks t ts s -> in_toks t (TL c :: ts) (a :: s)
| it_space w ts s : w <> [] -> Forall (fun c => is_ws c = true) w -> in_toks t ts s -> in_toks t (TW :: ts) (w ++ s)
| it_year ts s : in_toks t ts s -> in_toks t (TY :: ts) (dig 4 (dyear t) ++ s)
| it_month ts s w : two (dmonth t) s w -> in_toks t ts s -> in_toks t (Tm :: ts) (w ++ s)
| it_day ts s w : two (dday t) s w -> in_toks t ts s -> in_toks t (Td :: ts) (w ++ s)
| it_hour ts s w : two (dhour t) s w -> in_toks t ts s -> in_toks t (TH :: ts) (w ++ s)
| it_minute ts s w : two (dminute t) s w -> in_toks t ts s -> in_toks t (TM :: ts) (w ++ s)
| it_second ts s w : two (dsecond t) s w -> in_toks t ts s -> in_toks t (TS :: ts) (w ++ s)
| it_micro ts s w : fraction (dmicro t) s w -> in_toks t ts s -> in_toks t (Tf :: ts) (w ++ s)
| it_zone ts s w : offset (dtz t) w -> in_toks t ts s -> in_toks t (Tz :: ts) (w ++ s).
(** What the format leaves out is as strptime assumes: the year 1900, January, the first, midnight, no offset. *)
Definition told_toks (ts : list tok) (t : datetime) : Prop :=
  (In TY ts \/ dyear t = 1900) /\ (In Tm ts \/ dmonth t = 1) /\ (In Td ts \/ dday t = 1) /\ (In TH ts \/ dhour t = 0) /\
  (In TM ts \/ dminute t = 0) /\ (In TS ts \/ dsecond t = 0) /\ (In Tf ts \/ dmicro t = 0) /\ (In Tz ts <-> dtz t <> None).
(** Offsets only at the end, and no literal space character directly before or after white space (never the case for format strings). *)
Fixpoint readable (ts : list tok) : Prop :=
  match ts with
  | [] => True
  | Tz :: r => r = []
  | TW :: r => match r with TL c :: _ => is_ws c = false | TW :: _ => False | _ => True end /\ readable r
  | _ :: r => readable r
  end.

Definition has (t : tok) (ts : list tok) : bool := existsb (tok_eqb t) ts.
Lemma has_In t ts : (forall c, t <> TL c) -> t <> TW -> (has t ts = true <-> In t ts).
Proof.
  intros N1 N2. unfold has. rewrite existsb_exists. split.
  - intros (x & Hx & E). assert (t = x) by (destruct t, x; try discriminate; reflexivity). subst. exact Hx.
  - intro H. exists t. split; [exact H|]. destruct t as [c| | | | | | | | |]; try reflexivity; [destruct (N1 c eq_refl)|destruct (N2 eq_refl)].
Qed.
Lemma ws_digit z : is_ws (dchar z) = false.
Proof. destruct (is_ws (dchar z)) eqn:E; [|reflexivity]. pose proof (dchar_digit z) as D. unfold is_digit in D. rewrite andb_true_iff, !N.leb_le in D. apply ws_cases in E. lia. Qed.
Lemma m_ws_run w r : w <> [] -> Forall (fun c => is_ws c = true) w -> match r with c :: _ => is_ws c = false | [] => True end -> starts_with (m_ws (w ++ r)) r.
Proof.
  intros Hw H Hr. induction H as [|c w Hc H IH]; [contradiction|]. cbn [app m_ws]. rewrite Hc. destruct w as [|c' w].
  - cbn [app]. destruct r as [|a r]; [eexists; reflexivity|]. cbn [m_ws]. rewrite Hr. eexists. reflexivity.
  - apply sw_app, IH. discriminate.
Qed.
Lemma same_low a c : (32 < c < 127)%N -> same_char a c -> low a = low c /\ (32 < a < 127)%N.
Proof.
  intros Hc [->|[[Ha ->]|[Hr ->]]]; [split; [reflexivity|exact Hc]| |]; unfold low.
  - rewrite (proj2 (N.leb_le 65 a)), (proj2 (N.leb_le a 90)) by lia. rewrite (proj2 (N.leb_gt (a + 32) 90)) by lia. rewrite andb_false_r. split; [reflexivity|lia].
  - rewrite (proj2 (N.leb_le 65 c)), (proj2 (N.leb_le c 90)) by lia. rewrite (proj2 (N.leb_gt (c + 32) 90)) by lia. rewrite andb_false_r. split; [reflexivity|lia].
Qed.
Lemma m2_short t lo hi n r : ended r -> m2 t lo hi (dig 1 n ++ r) = [].
Proof. intro E. destruct r as [|c r]; [reflexivity|]. cbn [ended] in E. cbn [dig app m2]. rewrite E, andb_false_r. reflexivity. Qed.
Lemma m1_short lo hi n r : 0 <= n < 10 -> lo <= n <= hi -> m1 lo hi (dig 1 n ++ r) = [(n, r)].
Proof.
  intros Hn H. cbn [dig app m1]. rewrite dchar_digit, dval_dchar, Z.mod_small by exact Hn. rewrite (proj2 (Z.leb_le lo n)), (proj2 (Z.leb_le n hi)) by lia. reflexivity.
Qed.
Lemma two_month m r w : 1 <= m <= 12 -> two m r w -> starts_with (m_month (w ++ r)) (m, r).
Proof. intros H [|L E]; [apply fm_month, H|]. unfold m_month. rewrite !m2_short, m1_short by (auto; lia). eexists. reflexivity. Qed.
Lemma two_day m r w : 1 <= m <= 31 -> two m r w -> starts_with (m_day (w ++ r)) (m, r).
Proof. intros H [|L E]; [apply fm_day, H|]. unfold m_day. rewrite !m2_short, m1_short by (auto; lia). eexists. reflexivity. Qed.
Lemma two_hour m r w : 0 <= m <= 23 -> two m r w -> starts_with (m_hour (w ++ r)) (m, r).
Proof. intros H [|L E]; [apply fm_hour, H|]. unfold m_hour. rewrite !m2_short, m1_short by (auto; lia). eexists. reflexivity. Qed.
Lemma two_min m r w : 0 <= m <= 59 -> two m r w -> starts_with (m_min (w ++ r)) (m, r).
Proof. intros H [|L E]; [apply fm_min, H|]. unfold m_min, m_0_59. rewrite !m2_short, m1_short by (auto; lia). eexists. reflexivity. Qed.
Lemma two_sec m r w : 0 <= m <= 59 -> two m r w -> starts_with (m_sec (w ++ r)) (m, r).
Proof. intros H [|L E]; [apply fm_sec, H|]. unfold m_sec, m_0_59. rewrite !m2_short, m1_short by (auto; lia). eexists. reflexivity. Qed.
Lemma m_frac_down n w r : (length w < n)%nat -> ended r -> m_frac n (w ++ r) = m_frac (pred n) (w ++ r).
Proof.
  intros H E. destruct n as [|n]; [lia|]. cbn [m_frac pred]. destruct (Nat.eqb _ _ && _) eqn:K; [|reflexivity]. exfalso. apply andb_true_iff in K. destruct K as [K1 K2]. apply Nat.eqb_eq in K1.
  rewrite firstn_app in K1, K2. rewrite firstn_all2 in K1, K2 by lia. destruct r as [|c r]; [rewrite firstn_nil, app_nil_r in K1; lia|].
  destruct (Datatypes.S n - length w)%nat as [|j] eqn:Ej; [lia|]. cbn [firstn] in K2. rewrite forallb_app in K2. apply andb_true_iff in K2. destruct K2 as [_ K2]. cbn [forallb] in K2. cbn [ended] in E. rewrite E in K2. discriminate.
Qed.
Lemma m_frac_len n w r : (length w <= n)%nat -> ended r -> m_frac n (w ++ r) = m_frac (length w) (w ++ r).
Proof.
  intros H E. induction n as [|n IH]; [replace (length w) with 0%nat by lia; reflexivity|]. destruct (Nat.eq_dec (length w) (Datatypes.S n)) as [->|Nq]; [reflexivity|].
  rewrite m_frac_down by (auto; lia). cbn [pred]. apply IH. lia.
Qed.
Lemma frac_read us r w : 0 <= us < 1000000 -> fraction us r w -> starts_with (m_frac 6 (w ++ r)) (us, r).
Proof.
  intros H [|k v Hk E Er]; [apply fm_frac6, H|]. rewrite m_frac_len by (rewrite ?dig_length; auto; lia). rewrite dig_length. rewrite E in *. apply fm_frac; [lia|].
  replace 1000000 with (10 ^ Z.of_nat k * 10 ^ (6 - Z.of_nat k)) in H by (rewrite <- Z.pow_add_r by lia; replace (Z.of_nat k + (6 - Z.of_nat k)) with 6 by lia; reflexivity).
  assert (0 < 10 ^ (6 - Z.of_nat k)) by (apply Z.pow_pos_nonneg; lia). nia.
Qed.
Lemma zone_read z w : - day_us < z < day_us -> offset (Some z) w -> exists zr, starts_with (m_zone w) (zr, []) /\ zone_us zr = Some z.
Proof.
  intros Hz H. remember (Some z) as oz eqn:Eo. destruct H as [oz|y M|].
  - rewrite Eo. exact (fm_zone z Hz).
  - injection Eo as ->. unfold day_us in Hz. set (h := Z.abs z / 3600000000). set (mi := Z.abs z / 60000000 mod 60).
    assert (Hh : 0 <= h <= 99) by (unfold h; split; [apply Z.div_pos; lia|]; assert (Z.abs z / 3600000000 < 100) by (apply Z.div_lt_upper_bound; lia); lia).
    assert (Hm : 0 <= mi <= 59) by (unfold mi; pose proof (Z.mod_pos_bound (Z.abs z / 60000000) 60); lia).
    exists (ZO (z <? 0) h true mi None). split.
    + assert (Es : m_zone ((if z <? 0 then 45%N else 43%N) :: dig 2 h ++ 58%N :: dig 2 mi) =
        flat_map (fun '(hh, r1) => flat_map (fun '(c1, r2) => flat_map (fun '(mm, r3) =>
          flat_map (fun '(c2, r4) => flat_map (fun '(ss, r5) =>
             match r5 with
             | 46%N :: r6 => map (fun '(us, r7) => (ZO (z <? 0) hh c1 mm (Some (c2, ss, us)), r7)) (m_frac 6 r6)
             | _ => [] end
             ++ [(ZO (z <? 0) hh c1 mm (Some (c2, ss, 0)), r5)])
             (m_0_59 r4)) (m_colon r3)
          ++ [(ZO (z <? 0) hh c1 mm None, r3)])
          (m_0_59 r2)) (m_colon r1)) (m_00_99 (dig 2 h ++ 58%N :: dig 2 mi))) by (unfold m_zone; destruct (z <? 0); reflexivity).
      rewrite Es. clear Es. apply (sw_flat _ _ (h, 58%N :: dig 2 mi)); [apply fm_00_99, Hh|]. apply (sw_flat _ _ (true, dig 2 mi)); [eexists; reflexivity|]. apply (sw_flat _ _ (mi, [])); [rewrite <- (app_nil_r (dig 2 mi)); apply fm_0_59, Hm|]. eexists. reflexivity.
    + cbn [zone_us]. f_equal. assert (Ea : Z.abs z = (h * 3600 + mi * 60) * 1000000).
      { assert (Mz : Z.abs z mod 60000000 = 0) by (destruct (Z.abs_spec z) as [[_ ->]|[_ ->]]; [exact M|apply Z.mod_opp_l_z; [lia|exact M]]).
        assert (D1 := Z.div_mod (Z.abs z) 60000000). assert (D2 := Z.div_mod (Z.abs z / 60000000) 60). assert (Eh : h = Z.abs z / 60000000 / 60) by (rewrite Z.div_div by lia; reflexivity). unfold mi. lia. }
      destruct (z <? 0) eqn:Ez; [apply Z.ltb_lt in Ez|apply Z.ltb_ge in Ez]; lia.
  - injection Eo as <-. exists ZZ. split; [eexists; reflexivity|reflexivity].
Qed.
Lemma zone_chars z w : offset (Some z) w -> exists c r, w = c :: r /\ is_ws c = false.
Proof.
  intro Ho. remember (Some z) as oz eqn:Eo. destruct Ho as [oz'|y M|]; [subst oz'; unfold tz_str| |eexists; eexists; split; reflexivity].
  - destruct (z <? 0); eexists; eexists; (split; [reflexivity|reflexivity]).
  - destruct (y <? 0); eexists; eexists; (split; [reflexivity|reflexivity]).
Qed.
Lemma dig_head n z r : match dig (Datatypes.S n) z ++ r with c :: _ => is_ws c = false | [] => True end.
Proof.
  assert (G : exists c q, dig (Datatypes.S n) z = c :: q /\ exists z', c = dchar z').
  { revert z; induction n as [|n IH]; intro z; [exists (dchar z), []; split; [reflexivity|exists z; reflexivity]|]; destruct (IH (z / 10)) as (c & q & E & K); exists c, (q ++ [dchar z]); split; [|exact K]; change (dig (Datatypes.S (Datatypes.S n)) z) with (dig (Datatypes.S n) (z / 10) ++ [dchar z]); rewrite E; reflexivity. }
  destruct G as (c & q & -> & z' & ->). apply ws_digit.
Qed.
Lemma two_head n s w r : two n s w -> match w ++ r with c :: _ => is_ws c = false | [] => True end.
Proof. intros []; apply dig_head. Qed.
Section Read.
Variable t : datetime.
Hypothesis V : valid_dt t = true.
Lemma head_ok ts s : in_toks t ts s -> readable (TW :: ts) -> (In Tz ts -> dtz t <> None) -> match s with c :: _ => is_ws c = false | [] => True end.
Proof.
  intros H [R _] HZ. inversion H; subst; try (eapply two_head; eassumption); try apply dig_head; [exact I|assumption|destruct R| |].
  - match goal with F : fraction _ _ _ |- _ => destruct F as [|k v Hk _ _] end; [apply dig_head|]. destruct k as [|k]; [lia|apply dig_head].
  - specialize (HZ (or_introl eq_refl)). destruct (dtz t) as [z|]; [|contradiction]. match goal with F : offset _ _ |- _ => destruct (zone_chars z _ F) as (c & r & -> & E) end. exact E.
Qed.
Lemma read_toks ts s : in_toks t ts s -> readable ts -> (In Tz ts -> dtz t <> None) -> forall f, exists g, starts_with (m_toks ts f s) (g, []) /\
  f_y g = (if has TY ts then dyear t else f_y f) /\ f_m g = (if has Tm ts then dmonth t else f_m f) /\ f_d g = (if has Td ts then dday t else f_d f) /\
  f_H g = (if has TH ts then dhour t else f_H f) /\ f_M g = (if has TM ts then dminute t else f_M f) /\ f_S g = (if has TS ts then dsecond t else f_S f) /\
  f_f g = (if has Tf ts then dmicro t else f_f f) /\ (if has Tz ts then exists zr, f_z g = Some zr /\ zone_us zr = dtz t else f_z g = f_z f).
Proof.
  assert (V' := V). apply valid_dt_iff in V'. destruct V' as (Vd & Hh & Hmi & Hs & Hu & Vz). apply valid_date_iff in Vd. destruct Vd as (Hy & Hm & Hd). pose proof (days_31 (dyear t) (dmonth t)).
  intro H0. induction H0 as [|c a ts s Wa La H0 IH|w ts s Hw Fw H0 IH|ts s H0 IH|ts s w W H0 IH|ts s w W H0 IH|ts s w W H0 IH|ts s w W H0 IH|ts s w W H0 IH|ts s w W H0 IH|ts s w W H0 IH]; intros R HZ f.
  1:{ exists f. split; [eexists; reflexivity|]. repeat (split; [reflexivity|]). reflexivity. }
  all: assert (HZ' : In Tz ts -> dtz t <> None) by (intro K; apply HZ; right; exact K).
  - destruct (IH R HZ' f) as (g & G & K). exists g. split; [cbn [m_toks]; rewrite La, N.eqb_refl; exact G|exact K].
  - assert (R' : readable ts) by apply R. destruct (IH R' HZ' f) as (g & G & K). exists g. split; [|exact K]. cbn [m_toks]. apply (sw_flat _ _ s); [|exact G]. apply m_ws_run; [exact Hw|exact Fw|]. exact (head_ok ts s H0 R HZ').
  - set (f' := FD (dyear t) (f_m f) (f_d f) (f_H f) (f_M f) (f_S f) (f_f f) (f_z f)). destruct (IH R HZ' f') as (g & G & K). exists g. split.
    + cbn [m_toks]. apply (sw_flat _ _ (dyear t, s)); [apply fm_year; lia|exact G].
    + unfold f' in K. cbn [f_y f_m f_d f_H f_M f_S f_f f_z] in K. cbn [has existsb tok_eqb orb]. fold (has TY ts) (has Tm ts) (has Td ts) (has TH ts) (has TM ts) (has TS ts) (has Tf ts) (has Tz ts). destruct K as (K1 & K). split; [rewrite K1; destruct (has TY ts); reflexivity|exact K].
  - set (f' := FD (f_y f) (dmonth t) (f_d f) (f_H f) (f_M f) (f_S f) (f_f f) (f_z f)). destruct (IH R HZ' f') as (g & G & K). exists g. split.
    + cbn [m_toks]. apply (sw_flat _ _ (dmonth t, s)); [apply two_month; [lia|exact W]|exact G].
    + unfold f' in K. cbn [f_y f_m f_d f_H f_M f_S f_f f_z] in K. cbn [has existsb tok_eqb orb]. fold (has TY ts) (has Tm ts) (has Td ts) (has TH ts) (has TM ts) (has TS ts) (has Tf ts) (has Tz ts). destruct K as (K1 & K2 & K). split; [exact K1|]. split; [rewrite K2; destruct (has Tm ts); reflexivity|exact K].
  - set (f' := FD (f_y f) (f_m f) (dday t) (f_H f) (f_M f) (f_S f) (f_f f) (f_z f)). destruct (IH R HZ' f') as (g & G & K). exists g. split.
    + cbn [m_toks]. apply (sw_flat _ _ (dday t, s)); [apply two_day; [lia|exact W]|exact G].
    + unfold f' in K. cbn [f_y f_m f_d f_H f_M f_S f_f f_z] in K. cbn [has existsb tok_eqb orb]. fold (has TY ts) (has Tm ts) (has Td ts) (has TH ts) (has TM ts) (has TS ts) (has Tf ts) (has Tz ts). destruct K as (K1 & K2 & K3 & K). split; [exact K1|]. split; [exact K2|]. split; [rewrite K3; destruct (has Td ts); reflexivity|exact K].
  - set (f' := FD (f_y f) (f_m f) (f_d f) (dhour t) (f_M f) (f_S f) (f_f f) (f_z f)). destruct (IH R HZ' f') as (g & G & K). exists g. split.
    + cbn [m_toks]. apply (sw_flat _ _ (dhour t, s)); [apply two_hour; [lia|exact W]|exact G].
    + unfold f' in K. cbn [f_y f_m f_d f_H f_M f_S f_f f_z] in K. cbn [has existsb tok_eqb orb]. fold (has TY ts) (has Tm ts) (has Td ts) (has TH ts) (has TM ts) (has TS ts) (has Tf ts) (has Tz ts). destruct K as (K1 & K2 & K3 & K4 & K). repeat (split; [first [exact K1|exact K2|exact K3|rewrite K4; destruct (has TH ts); reflexivity]|]). exact K.
  - set (f' := FD (f_y f) (f_m f) (f_d f) (f_H f) (dminute t) (f_S f) (f_f f) (f_z f)). destruct (IH R HZ' f') as (g & G & K). exists g. split.
    + cbn [m_toks]. apply (sw_flat _ _ (dminute t, s)); [apply two_min; [lia|exact W]|exact G].
    + unfold f' in K. cbn [f_y f_m f_d f_H f_M f_S f_f f_z] in K. cbn [has existsb tok_eqb orb]. fold (has TY ts) (has Tm ts) (has Td ts) (has TH ts) (has TM ts) (has TS ts) (has Tf ts) (has Tz ts). destruct K as (K1 & K2 & K3 & K4 & K5 & K). do 4 (split; [first [exact K1|exact K2|exact K3|exact K4]|]). split; [rewrite K5; destruct (has TM ts); reflexivity|exact K].
  - set (f' := FD (f_y f) (f_m f) (f_d f) (f_H f) (f_M f) (dsecond t) (f_f f) (f_z f)). destruct (IH R HZ' f') as (g & G & K). exists g. split.
    + cbn [m_toks]. apply (sw_flat _ _ (dsecond t, s)); [apply two_sec; [lia|exact W]|exact G].
    + unfold f' in K. cbn [f_y f_m f_d f_H f_M f_S f_f f_z] in K. cbn [has existsb tok_eqb orb]. fold (has TY ts) (has Tm ts) (has Td ts) (has TH ts) (has TM ts) (has TS ts) (has Tf ts) (has Tz ts). destruct K as (K1 & K2 & K3 & K4 & K5 & K6 & K). do 5 (split; [first [exact K1|exact K2|exact K3|exact K4|exact K5]|]). split; [rewrite K6; destruct (has TS ts); reflexivity|exact K].
  - set (f' := FD (f_y f) (f_m f) (f_d f) (f_H f) (f_M f) (f_S f) (dmicro t) (f_z f)). destruct (IH R HZ' f') as (g & G & K). exists g. split.
    + cbn [m_toks]. apply (sw_flat _ _ (dmicro t, s)); [apply frac_read; [lia|exact W]|exact G].
    + unfold f' in K. cbn [f_y f_m f_d f_H f_M f_S f_f f_z] in K. cbn [has existsb tok_eqb orb]. fold (has TY ts) (has Tm ts) (has Td ts) (has TH ts) (has TM ts) (has TS ts) (has Tf ts) (has Tz ts). destruct K as (K1 & K2 & K3 & K4 & K5 & K6 & K7 & K). do 6 (split; [first [exact K1|exact K2|exact K3|exact K4|exact K5|exact K6]|]). split; [rewrite K7; destruct (has Tf ts); reflexivity|exact K].
  - cbn [readable] in R. subst ts. inversion H0; subst. rewrite app_nil_r. destruct (dtz t) as [z|] eqn:Ez; [|destruct (HZ (or_introl eq_refl) eq_refl)]. cbn [valid_tz] in Vz. apply andb_true_iff in Vz. rewrite !Z.ltb_lt in Vz.
    destruct (zone_read z w Vz W) as (zr & Z1 & Z2). exists (FD (f_y f) (f_m f) (f_d f) (f_H f) (f_M f) (f_S f) (f_f f) (Some zr)). split.
    + cbn [m_toks]. apply (sw_flat _ _ (zr, [])); [exact Z1|]. eexists. reflexivity.
    + repeat (split; [reflexivity|]). cbn. exists zr. auto.
Qed.
End Read.

Lemma read_back : forall ts t s, in_toks t ts s -> readable ts -> told_toks ts t -> valid_dt t = true ->
  strptime ts s = Some t.
Proof.
  intros ts t s H R (T1 & T2 & T3 & T4 & T5 & T6 & T7 & T8) V. destruct (read_toks t V ts s H R (proj1 T8) fields0) as (g & (l & G) & G1 & G2 & G3 & G4 & G5 & G6 & G7 & G8).
  assert (A : forall k (x y : Z), (forall c, k <> TL c) -> k <> TW -> In k ts \/ x = y -> (if has k ts then x else y) = x).
  { intros k x y N1 N2 K. destruct (has k ts) eqn:E; [reflexivity|]. destruct K as [K|K]; [|congruence]. apply (has_In k ts N1 N2) in K. congruence. }
  cbn [fields0 f_y f_m f_d f_H f_M f_S f_f f_z] in *. rewrite A in G1, G2, G3, G4, G5, G6, G7 by (try discriminate; assumption). unfold strptime. rewrite G.
  assert (E : t = DT (dyear t) (dmonth t) (dday t) (dhour t) (dminute t) (dsecond t) (dmicro t) (dtz t)) by (destruct t; reflexivity).
  destruct (has Tz ts) eqn:Ez.
  - destruct G8 as (zr & Z1 & Z2). apply has_In in Ez; [|discriminate|discriminate]. apply T8 in Ez. rewrite Z1, Z2. destruct (dtz t) as [z|] eqn:Et; [|contradiction]. rewrite G1, G2, G3, G4, G5, G6, G7, <- E, V. reflexivity.
  - rewrite G8. assert (Et : dtz t = None). { destruct (dtz t) eqn:Et; [|reflexivity]. exfalso. assert (K : In Tz ts) by (apply (proj2 T8); congruence). apply has_In in K; [congruence|discriminate|discriminate]. }
    rewrite G1, G2, G3, G4, G5, G6, G7. rewrite Et in E. rewrite <- E, V. reflexivity.
Qed.
Lemma tells_cons c fmt d : c <> 37%N -> (tells (c :: fmt) [37%N; d] <-> tells fmt [37%N; d]).
Proof.
  intro N. split; intros (a & b & E); [|exists (c :: a), b; rewrite E; reflexivity]. destruct a as [|x a]; cbn [app] in E; injection E as E1 E2; [congruence|]. exists a, b. exact E2.
Qed.
Lemma tells_directive e fmt d : e <> 37%N -> (tells (37%N :: e :: fmt) [37%N; d] <-> e = d \/ tells fmt [37%N; d]).
Proof.
  intro N. split.
  - intros (a & b & E). destruct a as [|x a]; cbn [app] in E; [injection E as E1 _; left; exact E1|]. right. injection E as _ E. apply (tells_cons e fmt d N). exists a, b. exact E.
  - intros [<-|(a & b & E)]; [exists [], fmt; reflexivity|]. exists (37%N :: e :: a), b. rewrite E. reflexivity.
Qed.
Lemma ws_not_percent c : is_ws c = true -> c <> 37%N.
Proof. intros H ->. discriminate. Qed.
Lemma tells_ws v fmt d : Forall (fun c => is_ws c = true) v -> (tells (v ++ fmt) [37%N; d] <-> tells fmt [37%N; d]).
Proof. induction 1 as [|c v H _ IH]; [reflexivity|]. cbn [app]. rewrite tells_cons by (apply ws_not_percent, H). exact IH. Qed.
Lemma printable_not_ws c : (32 < c < 127)%N -> is_ws c = false.
Proof.
  intros [H1 H2]. unfold is_ws. repeat (apply orb_false_iff; split); try (apply N.eqb_neq; lia); apply andb_false_iff; rewrite !N.leb_gt; lia.
Qed.
Definition spaced (ts : list tok) : list tok := match ts with TW :: _ => ts | _ => TW :: ts end.
Lemma read_ws v fmt ts : v <> [] -> Forall (fun c => is_ws c = true) v -> read_format fmt = Some ts -> read_format (v ++ fmt) = Some (spaced ts).
Proof.
  intros N F E. assert (G : forall c r us, is_ws c = true -> read_format r = Some us -> read_format (c :: r) = Some (spaced us)).
  { intros c r us Hc Er. cbn [read_format]. rewrite (proj2 (N.eqb_neq c 37) (ws_not_percent c Hc)), Hc, Er. destruct us as [|[] us]; reflexivity. }
  destruct F as [|c v Hc F]; [contradiction|]. clear N. revert c Hc. induction F as [|d v Hd F IH]; intros c Hc; [exact (G c fmt ts Hc E)|].
  change ((c :: d :: v) ++ fmt) with (c :: ((d :: v) ++ fmt)). rewrite (G c _ (spaced ts) Hc (IH d Hd)). f_equal. destruct ts as [|[] ts]; reflexivity.
Qed.
Definition ok_before (ts : list tok) : Prop := match ts with TL c :: _ => is_ws c = false | _ => True end.
Definition dtok (k : tok) (d : N) : Prop := directive d = Some k.
Lemma dtok_not k d : dtok k d -> (forall c, k <> TL c) /\ k <> TW /\ d <> 37%N.
Proof.
  unfold dtok, directive. intro H. destruct (N.eqb d 37) eqn:E; [apply N.eqb_eq in E; subst d; discriminate|]. apply N.eqb_neq in E.
  repeat match type of H with (if ?b then _ else _) = _ => destruct b end; try discriminate H; injection H as <-; repeat split; try discriminate; exact E.
Qed.
Lemma dtok_inj k d e : dtok k d -> dtok k e -> d = e.
Proof.
  unfold dtok, directive. intros H K.
  repeat match type of H with (if N.eqb ?a ?b then _ else _) = _ => let E := fresh "E" in destruct (N.eqb a b) eqn:E end; try discriminate H; injection H as <-;
  repeat match type of K with (if N.eqb ?a ?b then _ else _) = _ => let E := fresh "E" in destruct (N.eqb a b) eqn:E end; try discriminate K;
  repeat match goal with X : N.eqb _ _ = true |- _ => apply N.eqb_eq in X end; congruence.
Qed.
Section Bridge.
Variable t : datetime.
Let good fmt s ts : Prop := read_format fmt = Some ts /\ in_toks t ts s /\ ok_before ts /\ (forall k d, dtok k d -> (In k ts <-> tells fmt [37%N; d])) /\
  (fit fmt -> once ts = true /\ readable ts).
Lemma fit_app a fmt : fit (a ++ fmt) -> fit fmt.
Proof.
  intros [F1 F2]. split.
  - intros x c b E. apply (F1 (a ++ x)). rewrite E, app_assoc. reflexivity.
  - intros x b E. apply (F2 (a ++ x)). rewrite E, app_assoc. reflexivity.
Qed.
Lemma good_directive k d fmt s ts w : dtok k d -> good fmt s ts -> (k = Tz -> d = 122%N) -> in_toks t (k :: ts) (w ++ s) -> good ([37%N; d] ++ fmt) (w ++ s) (k :: ts).
Proof.
  intros D (G1 & G2 & G3 & G4 & G5) Hz Hi. destruct (dtok_not k d D) as (N1 & N2 & N3). split; [|split; [exact Hi|split; [|split]]].
  - cbn [app read_format]. change (N.eqb 37 37) with true. cbv iota. rewrite G1. unfold dtok in D. rewrite D. reflexivity.
  - destruct k; try exact I. destruct (N1 c eq_refl).
  - intros k' d' D'. cbn [app In]. rewrite tells_directive by exact N3. rewrite <- (G4 k' d' D'). split; (intros [E|E]; [left|right; exact E]); [subst k'; exact (dtok_inj k d d' D D')|subst d'; unfold dtok in D, D'; congruence].
  - intro F. destruct (G5 (fit_app _ _ F)) as [O R]. split.
    + cbn [once]. rewrite O, andb_true_r, negb_true_iff. destruct (existsb (tok_eqb k) ts) eqn:E; [|reflexivity]. exfalso. fold (has k ts) in E. apply (has_In k ts N1 N2) in E. apply (G4 k d D) in E. exact (proj1 F [] d fmt eq_refl E).
    + destruct k; try exact R; [destruct (N2 eq_refl)|]. cbn [readable]. specialize (Hz eq_refl). subst d. pose proof (proj2 F [] fmt eq_refl) as Ef. subst fmt. cbn in G1. congruence.
Qed.
Lemma read_tokens fmt s : in_format t fmt s -> exists ts, good fmt s ts.
Proof.
  induction 1 as [|c a fmt s Hc Np Sa H (ts & G)|v w fmt s Hv Hw F H (ts & G)|fmt s H (ts & G)|fmt s w W H (ts & G)|fmt s w W H (ts & G)|fmt s w W H (ts & G)|fmt s w W H (ts & G)|fmt s w W H (ts & G)|fmt s w W H (ts & G)|fmt s w W H (ts & G)].
  4-11: (assert (Gi : in_toks t ts s) by (exact (proj1 (proj2 G)))).
  - exists []. split; [reflexivity|]. split; [constructor|]. split; [exact I|]. split; [|intros _; split; reflexivity || exact I]. intros k d _. split; [intros []|]. intros (a & b & E). destruct a; discriminate E.
  - destruct G as (G1 & G2 & G3 & G4 & G5). pose proof (printable_not_ws c Hc) as Wc. exists (TL c :: ts). split; [|split; [destruct (same_low a c Hc Sa) as [La Ha]; constructor; [exact (printable_not_ws a Ha)|exact La|exact G2]|split; [exact Wc|split]]].
    + cbn [read_format]. rewrite (proj2 (N.eqb_neq c 37) Np), Wc, (proj2 (N.leb_gt c 32) (proj1 Hc)), (proj2 (N.leb_gt 127 c) (proj2 Hc)), G1. reflexivity.
    + intros k d D. rewrite tells_cons by exact Np. rewrite <- (G4 k d D). split; [|intro K; right; exact K]. intros [E|E]; [|exact E]. destruct (proj1 (dtok_not k d D) c). symmetry. exact E.
    + intro Fi. destruct (G5 (fit_app [c] fmt Fi)) as [O R]. split; [|exact R]. cbn [once]. rewrite O, andb_true_r, negb_true_iff. clear. induction ts as [|k ts IH]; [reflexivity|]. cbn [existsb tok_eqb orb]. exact IH.
  - destruct G as (G1 & G2 & G3 & G4 & G5). apply Forall_app in F. destruct F as [Fv Fw]. exists (spaced ts). split; [apply read_ws; assumption|]. split; [|split; [|split]].
    + assert (A : in_toks t (TW :: ts) (w ++ s)) by (constructor; assumption). destruct ts as [|[] ts]; try exact A. clear A. cbn [spaced]. inversion G2 as [| |w' us s' Hw' Fw' G2'| | | | | | | |]; subst. rewrite app_assoc. constructor; [destruct w; [contradiction|discriminate]|apply Forall_app; split; assumption|exact G2'].
    + destruct ts as [|[] ts]; exact I.
    + intros k d D. rewrite tells_ws by exact Fv. rewrite <- (G4 k d D). destruct (dtok_not k d D) as (_ & N2 & _). assert (A : In k (TW :: ts) <-> In k ts) by (split; [intros [E|E]; [destruct N2; symmetry; exact E|exact E]|intro K; right; exact K]). destruct ts as [|[] ts]; cbn [spaced]; try exact A. reflexivity.
    + intro Fi. destruct (G5 (fit_app v fmt Fi)) as [O R]. assert (A : once (TW :: ts) = true). { cbn [once]. rewrite O, andb_true_r, negb_true_iff. clear. induction ts as [|k ts IH]; [reflexivity|]. cbn [existsb tok_eqb orb]. exact IH. }
      destruct ts as [|[] ts]; cbn [spaced]; split; try exact A; try exact O; try exact R; (split; [first [exact I|exact G3]|exact R]).
  - exists (TY :: ts). apply (good_directive TY 89 fmt s ts); [reflexivity|exact G|discriminate|constructor; assumption].
  - exists (Tm :: ts). apply (good_directive Tm 109 fmt s ts); [reflexivity|exact G|discriminate|constructor; assumption].
  - exists (Td :: ts). apply (good_directive Td 100 fmt s ts); [reflexivity|exact G|discriminate|constructor; assumption].
  - exists (TH :: ts). apply (good_directive TH 72 fmt s ts); [reflexivity|exact G|discriminate|constructor; assumption].
  - exists (TM :: ts). apply (good_directive TM 77 fmt s ts); [reflexivity|exact G|discriminate|constructor; assumption].
  - exists (TS :: ts). apply (good_directive TS 83 fmt s ts); [reflexivity|exact G|discriminate|constructor; assumption].
  - exists (Tf :: ts). apply (good_directive Tf 102 fmt s ts); [reflexivity|exact G|discriminate|constructor; assumption].
  - exists (Tz :: ts). apply (good_directive Tz 122 fmt s ts); [reflexivity|exact G|reflexivity|constructor; assumption].
Qed.
End Bridge.

(** ** C96 *)
(** A moment written in a format is read with it as that moment. *)
Theorem C96_read_back : forall L fmt t s, std_dates L -> in_format t fmt s -> fit fmt -> told fmt t -> valid_dt t = true ->
  l_strptime L s fmt = Some (to_timestamp 0 (in_utc t)).
Proof.
  intros L fmt t s HL H F (T1 & T2 & T3 & T4 & T5 & T6 & T7 & T8) V. destruct (read_tokens t fmt s H) as (ts & G1 & G2 & _ & G4 & G5). destruct (G5 F) as [O R].
  assert (E : toks_of fmt = Some ts) by (unfold toks_of; rewrite G1, O; reflexivity). rewrite (HL s fmt ts E). unfold parse_to_timestamp.
  assert (K : forall k d (P : Prop), dtok k d -> tells fmt [37%N; d] \/ P -> In k ts \/ P) by (intros k d P D [K|K]; [left; apply (G4 k d D), K|right; exact K]).
  rewrite (read_back ts t s G2 R); [reflexivity| |exact V].
  split; [exact (K TY 89%N _ eq_refl T1)|]. split; [exact (K Tm 109%N _ eq_refl T2)|]. split; [exact (K Td 100%N _ eq_refl T3)|]. split; [exact (K TH 72%N _ eq_refl T4)|]. split; [exact (K TM 77%N _ eq_refl T5)|].
    split; [exact (K TS 83%N _ eq_refl T6)|]. split; [exact (K Tf 102%N _ eq_refl T7)|]. rewrite (G4 Tz 122%N eq_refl). exact T8.
Qed.
Print Assumptions C96_read_back.
Fixpoint has2 (d : N) (s : pystr) : bool := match s with a :: r => match r with b :: _ => (N.eqb a 37 && N.eqb b d) || has2 d r | [] => false end | [] => false end.
Lemma has2_tells d s : tells s [37%N; d] <-> has2 d s = true.
Proof.
  split.
  - intros (a & b & ->). induction a as [|x a IH]; [cbn; rewrite N.eqb_refl; reflexivity|]. change ((x :: a) ++ [37%N; d] ++ b) with (x :: (a ++ [37%N; d] ++ b)). destruct (a ++ [37%N; d] ++ b) as [|y q]; [discriminate IH|]. change (has2 d (x :: y :: q)) with ((N.eqb x 37 && N.eqb y d) || has2 d (y :: q))%bool. rewrite IH. apply orb_true_r.
  - induction s as [|x s IH]; [discriminate|]. cbn [has2]. destruct s as [|y q]; [discriminate|]. intro H. apply orb_true_iff in H. destruct H as [H|H].
    + apply andb_true_iff in H. destruct H as [H1 H2]. apply N.eqb_eq in H1, H2. subst. exists [], q. reflexivity.
    + destruct (IH H) as (a & b & E). exists (x :: a), b. rewrite E. reflexivity.
Qed.
Fixpoint fitb (s : pystr) : bool :=
  match s with
  | a :: r => match r with b :: q => (negb (N.eqb a 37) || (negb (has2 b q) && (negb (N.eqb b 122) || match q with [] => true | _ => false end))) && fitb r | [] => true end
  | [] => true
  end.
Lemma fitb_fit s : fitb s = true -> fit s.
Proof.
  intro H. assert (K : forall a c b, s = a ++ 37%N :: c :: b -> has2 c b = false /\ (c = 122%N -> b = [])).
  { intros a c b ->. induction a as [|x a IH].
    - cbn [app fitb] in H. rewrite N.eqb_refl in H. cbn [negb orb] in H. apply andb_true_iff in H. destruct H as [H _]. apply andb_true_iff in H. destruct H as [H1 H2]. apply negb_true_iff in H1. split; [exact H1|]. intros ->. destruct b; [reflexivity|discriminate H2].
    - apply IH. cbn [app fitb] in H. destruct (a ++ 37%N :: c :: b) as [|y q] eqn:E; [destruct a; discriminate|]. apply andb_true_iff in H. apply H. }
  split; [|intros a b E; exact (proj2 (K a 122%N b E) eq_refl)]. intros a c b E T. apply has2_tells in T. destruct (K a c b E). congruence.
Qed.
Ltac lit_char := apply if_char; [vm_compute; split; reflexivity|discriminate|left; reflexivity|].
Ltac tolds := repeat split; try (left; apply has2_tells; reflexivity); try (right; reflexivity); try discriminate; try (intros _; apply has2_tells; reflexivity);
  try (let K := fresh in intro K; apply has2_tells in K; discriminate K); try (let K := fresh in intro K; destruct (K eq_refl)).
(** C96, as stated, is false: with two formats the text may be in both. *)
Theorem C96_refuted : exists L o fmt t s, std_dates L /\ In fmt (date_formats o) /\ in_format t fmt s /\ fit fmt /\ told fmt t /\ valid_dt t = true /\
  dget (parse_value L o (VStr s)) (lit "_d") <> Some (VInt (to_timestamp 0 (in_utc t))).
Proof.
  exists std_lib, (Opts [] [] [DATE_STR; lit "%Y-%d-%m"] [] 8191 (lit "{0:.15g}")), (lit "%Y-%d-%m"), (DT 2003 2 1 0 0 0 0 None), (lit "2003-01-02").
  split; [exact std_lib_ok|]. split; [right; left; reflexivity|]. split.
  { apply (if_year (DT 2003 2 1 0 0 0 0 None) (lit "-%d-%m") (lit "-01-02")). lit_char. apply (if_day (DT 2003 2 1 0 0 0 0 None) (lit "-%m") (lit "-02") (lit "01")); [exact (two_full 1 _)|]. lit_char. apply (if_month (DT 2003 2 1 0 0 0 0 None) [] [] (lit "02")); [exact (two_full 2 _)|]. constructor. }
  split; [apply fitb_fit; reflexivity|]. split; [tolds|]. split; [reflexivity|]. vm_compute. discriminate.
Qed.
Print Assumptions C96_refuted.
(** Exactly: it is indexed as that moment for every order of the formats iff the other formats that read it agree. *)
Theorem C96_exact : forall L o fmt t s, std_dates L -> In fmt (date_formats o) -> in_format t fmt s -> fit fmt -> told fmt t -> valid_dt t = true ->
  ((forall o', reordered o o' -> dget (parse_value L o' (VStr s)) (lit "_d") = Some (VInt (to_timestamp 0 (in_utc t)))) <->
   (forall g u, In g (date_formats o) -> l_strptime L s g = Some u -> u = to_timestamp 0 (in_utc t))).
Proof.
  intros L o fmt t s HL Hf H F T V. pose proof (C96_read_back L fmt t s HL H F T V) as E. split.
  - intros A g u Hg Eg. apply in_split in Hg. destruct Hg as (a & b & Hab).
    specialize (A (Opts (true_values o) (false_values o) (g :: a ++ b) (geo_hints o) (keyword_length o) (float_format o))). rewrite value_date in A. cbn [date_formats text_of first_date] in A. rewrite Eg in A. cbn [option_map] in A.
    assert (R : Some (VInt u) = Some (VInt (to_timestamp 0 (in_utc t)))) by (apply A; split; cbn; auto; rewrite Hab; apply Permutation_sym, Permutation_middle). injection R as R. exact R.
  - intros A o' R. rewrite value_date. cbn [text_of]. rewrite (first_date_in L (date_formats o') s fmt (to_timestamp 0 (in_utc t))); [reflexivity|exact (Permutation_in _ (ro_dates _ _ R) Hf)| |exact E].
    intros f g x y Hfx Hgy Ex Ey. pose proof (Permutation_sym (ro_dates _ _ R)) as P. rewrite (A f x (Permutation_in _ P Hfx) Ex), (A g y (Permutation_in _ P Hgy) Ey). reflexivity.
Qed.
Print Assumptions C96_exact.
(** The same for a top level field of a record. *)
Theorem C96_field_partial : forall L o fmt t s d r k, std_dates L -> In fmt (date_formats o) -> in_format t fmt s -> fit fmt -> told fmt t -> valid_dt t = true ->
  (forall g u, In g (date_formats o) -> l_strptime L s g = Some u -> u = to_timestamp 0 (in_utc t)) ->
  s <> [] -> NoDup (dkeys d) -> dget d k = Some (VStr s) -> parse L o d = Some r ->
  exists p, dget (p_parsed r) k = Some (VDict p) /\ dget p (lit "_d") = Some (VInt (to_timestamp 0 (in_utc t))).
Proof.
  intros L o fmt t s d r k HL Hf H F T V A Ns Nd Hk Hr. destruct (parse_field L o d r k (VStr s) Nd Hr Hk) as (p & P1 & P2); [destruct s; [contradiction|exact I]|].
  exists p. split; [exact P1|]. rewrite P2 by discriminate. apply (proj2 (C96_exact L o fmt t s HL Hf H F T V) A). destruct o. split; cbn; auto.
Qed.
Print Assumptions C96_field_partial.
Definition format_opts : options := Opts [] [] [DATETIME_STR; lit "%d/%m/%Y  %H:%M"; DATE_STR; lit "%Y-%m"] [] 8191 (lit "{0:.15g}").
Definition format_text : pystr := lit "1/12/1999 " ++ [9%N; 160%N] ++ lit "7:05".
Definition format_moment : datetime := DT 1999 12 1 7 5 0 0 None.
Example C96_example : std_dates std_lib /\ In (lit "%d/%m/%Y  %H:%M") (date_formats format_opts) /\ in_format format_moment (lit "%d/%m/%Y  %H:%M") format_text /\
  fit (lit "%d/%m/%Y  %H:%M") /\ told (lit "%d/%m/%Y  %H:%M") format_moment /\ valid_dt format_moment = true /\
  (forall g u, In g (date_formats format_opts) -> l_strptime std_lib format_text g = Some u -> u = 944031900000) /\ to_timestamp 0 (in_utc format_moment) = 944031900000.
Proof.
  split; [exact std_lib_ok|]. split; [right; left; reflexivity|]. split.
  { apply (if_day format_moment (lit "/%m/%Y  %H:%M") (lit "/12/1999 " ++ [9%N; 160%N] ++ lit "7:05") (lit "1")); [apply (two_short 1); reflexivity|]. lit_char.
    apply (if_month format_moment (lit "/%Y  %H:%M") (lit "/1999 " ++ [9%N; 160%N] ++ lit "7:05") (lit "12")); [exact (two_full 12 _)|]. lit_char. apply (if_year format_moment (lit "  %H:%M") (lit " " ++ [9%N; 160%N] ++ lit "7:05")).
    apply (if_space format_moment (lit "  ") [32%N; 9%N; 160%N] (lit "%H:%M") (lit "7:05")); [discriminate|discriminate|repeat constructor|]. apply (if_hour format_moment (lit ":%M") (lit ":05") (lit "7")); [apply (two_short 7); reflexivity|]. lit_char.
    apply (if_minute format_moment [] [] (lit "05")); [exact (two_full 5 _)|]. constructor. }
  split; [apply fitb_fit; reflexivity|]. split; [tolds|]. split; [reflexivity|]. split; [|reflexivity].
  intros g u Hg. cbn [date_formats format_opts In] in Hg. destruct Hg as [<-|[<-|[<-|[<-|[]]]]]; vm_compute; intro E; first [discriminate E|injection E as <-; reflexivity].
Qed.
(** With fractions, offsets, and a letter in the other case. *)
Definition format_aware : datetime := DT 2020 2 29 1 2 3 450000 (Some (-19800000000)).
Example C96_aware_example : in_format format_aware (lit "%Y-%m-%dT%H:%M:%S.%f%z") (lit "2020-02-29t01:02:03.45-05:30") /\ fit (lit "%Y-%m-%dT%H:%M:%S.%f%z") /\ told (lit "%Y-%m-%dT%H:%M:%S.%f%z") format_aware /\ valid_dt format_aware = true.
Proof.
  split; [|split; [apply fitb_fit; reflexivity|split; [tolds|reflexivity]]].
  apply (if_year format_aware (lit "-%m-%dT%H:%M:%S.%f%z") (lit "-02-29t01:02:03.45-05:30")). lit_char. apply (if_month format_aware (lit "-%dT%H:%M:%S.%f%z") (lit "-29t01:02:03.45-05:30") (lit "02")); [exact (two_full 2 _)|]. lit_char.
  apply (if_day format_aware (lit "T%H:%M:%S.%f%z") (lit "t01:02:03.45-05:30") (lit "29")); [exact (two_full 29 _)|]. apply if_char; [vm_compute; split; reflexivity|discriminate|right; right; split; [vm_compute; split; discriminate|reflexivity]|].
  apply (if_hour format_aware (lit ":%M:%S.%f%z") (lit ":02:03.45-05:30") (lit "01")); [exact (two_full 1 _)|]. lit_char. apply (if_minute format_aware (lit ":%S.%f%z") (lit ":03.45-05:30") (lit "02")); [exact (two_full 2 _)|]. lit_char.
  apply (if_second format_aware (lit ".%f%z") (lit ".45-05:30") (lit "03")); [exact (two_full 3 _)|]. lit_char. apply (if_micro format_aware (lit "%z") (lit "-05:30") (lit "45")); [apply (fr_short 450000 _ 2 45); [lia|reflexivity|reflexivity]|].
  apply (if_zone format_aware [] [] (lit "-05:30")); [exact (of_colon (-19800000000) eq_refl)|]. constructor.
Qed.
