(** Dates: [strftime] / [strptime] for the three formats splitgill itself uses
    (diffing.py:27-34), and [to_timestamp] / [parse_to_timestamp]
    (utils.py:12-51). *)
From Coq Require Import String Ascii.
From Coq Require Import List ZArith NArith Bool Lia.
From Coq Require Import Floats.SpecFloat.
From Coq Require Import Decimal DecimalN.
From Verif Require Import PyVal.
Import ListNotations.
Open Scope Z_scope.

(** * Decimal numbers *)

(** diffing.py:88, 94 *)
Fixpoint uint_chars (u : Decimal.uint) : pystr :=
  match u with
  | Decimal.Nil => []
  | Decimal.D0 r => 48%N :: uint_chars r | Decimal.D1 r => 49%N :: uint_chars r
  | Decimal.D2 r => 50%N :: uint_chars r | Decimal.D3 r => 51%N :: uint_chars r
  | Decimal.D4 r => 52%N :: uint_chars r | Decimal.D5 r => 53%N :: uint_chars r
  | Decimal.D6 r => 54%N :: uint_chars r | Decimal.D7 r => 55%N :: uint_chars r
  | Decimal.D8 r => 56%N :: uint_chars r | Decimal.D9 r => 57%N :: uint_chars r
  end.

(** Python's [str(int)]: used for the keys of [diffs] (ingest.py:169,
    model.py:107). *)
Definition str_int (z : Z) : pystr :=
  match z with
  | Zneg p => 45%N :: uint_chars (N.to_uint (Npos p))
  | _ => uint_chars (N.to_uint (Z.to_N z))
  end.

(** the digits [int(str)] reads (model.py:91, 107: [int] of the keys of diffs); ASCII digits only *)
Fixpoint chars_uint (s : pystr) : option Decimal.uint :=
  match s with
  | [] => Some Decimal.Nil
  | c :: r =>
      match chars_uint r with
      | None => None
      | Some u =>
          if N.eqb c 48 then Some (Decimal.D0 u) else if N.eqb c 49 then Some (Decimal.D1 u)
          else if N.eqb c 50 then Some (Decimal.D2 u) else if N.eqb c 51 then Some (Decimal.D3 u)
          else if N.eqb c 52 then Some (Decimal.D4 u) else if N.eqb c 53 then Some (Decimal.D5 u)
          else if N.eqb c 54 then Some (Decimal.D6 u) else if N.eqb c 55 then Some (Decimal.D7 u)
          else if N.eqb c 56 then Some (Decimal.D8 u) else if N.eqb c 57 then Some (Decimal.D9 u)
          else None
      end
  end.

(** Python's [int(str)] on plain ASCII decimal strings (model.py:91,106).
    Underscores, surrounding whitespace, "+" and non ASCII digits, which Python
    also accepts, are not modelled: splitgill only ever reads back what
    [str_int] wrote. *)
Definition int_str (s : pystr) : option Z :=
  match s with
  | [] => None
  | 45%N :: (_ :: _) as r =>
      match chars_uint (tl s) with
      | Some u => Some (- Z.of_N (N.of_uint u)) | None => None end
  | _ => match chars_uint s with
         | Some u => Some (Z.of_N (N.of_uint u)) | None => None end
  end.

Lemma chars_uint_chars u : chars_uint (uint_chars u) = Some u.
Proof. induction u; cbn [uint_chars chars_uint]; try rewrite IHu; reflexivity. Qed.

Lemma uint_chars_nonnil n : exists c r, uint_chars (N.to_uint n) = c :: r /\ c <> 45%N.
Proof.
  assert (H : N.to_uint n <> Decimal.Nil).
  { intro H. pose proof (DecimalN.Unsigned.of_to n) as E. rewrite H in E. cbn in E.
    subst n. discriminate H. }
  destruct (N.to_uint n); [congruence| ..]; cbn [uint_chars];
    eexists; eexists; (split; [reflexivity|]; discriminate).
Qed.

Theorem int_str_int z : int_str (str_int z) = Some z.
Proof.
  unfold str_int. destruct z as [|p|p].
  - reflexivity.
  - destruct (uint_chars_nonnil (Z.to_N (Zpos p))) as (c & r & E & Hc).
    assert (H : int_str (uint_chars (N.to_uint (Z.to_N (Zpos p)))) =
      match chars_uint (uint_chars (N.to_uint (Z.to_N (Zpos p)))) with
         | Some u => Some (Z.of_N (N.of_uint u)) | None => None end).
    { rewrite E. unfold int_str. destruct c as [|c]; [reflexivity|].
      do 6 (destruct c as [c|c|]; try reflexivity). congruence. }
    rewrite H, chars_uint_chars, DecimalN.Unsigned.of_to. cbn. reflexivity.
  - destruct (uint_chars_nonnil (Npos p)) as (c & r & E & Hc).
    unfold int_str. rewrite E. cbn [tl]. rewrite <- E, chars_uint_chars, DecimalN.Unsigned.of_to.
    reflexivity.
Qed.

Lemma str_int_inj a b : str_int a = str_int b -> a = b.
Proof. intro H. pose proof (int_str_int a) as E. rewrite H, int_str_int in E. congruence. Qed.

(** Fixed width zero padded decimals, ["%02d"], ["%06d"]. (diffing.py:88, 94) *)
Definition dchar (z : Z) : N := Z.to_N (48 + z mod 10).
(** the [w] decimal digits of ["%0wd"] in strftime (diffing.py:88, 94) *)
Fixpoint dig (w : nat) (z : Z) : pystr :=
  match w with O => [] | S w' => dig w' (z / 10) ++ [dchar z] end.

(** [\d] of the regular expressions of strptime (utils.py:48), ASCII only *)
Definition is_digit (c : N) : bool := (48 <=? c)%N && (c <=? 57)%N.
(** the value of one digit ([int] in _strptime, called by utils.py:48) *)
Definition dval (c : N) : Z := Z.of_N c - 48.
(** [int] of a run of digits (in _strptime, called by utils.py:48) *)
Fixpoint dnum (acc : Z) (s : pystr) : Z :=
  match s with [] => acc | c :: r => dnum (10 * acc + dval c) r end.

Lemma dchar_digit z : is_digit (dchar z) = true.
Proof.
  unfold is_digit, dchar. pose proof (Z.mod_pos_bound z 10).
  rewrite andb_true_iff, !N.leb_le. lia.
Qed.
Lemma dval_dchar z : dval (dchar z) = z mod 10.
Proof. unfold dval, dchar. pose proof (Z.mod_pos_bound z 10). lia. Qed.
Lemma dig_length w z : length (dig w z) = w.
Proof. revert z. induction w as [|w IH]; intro z; cbn [dig]; [reflexivity|]. rewrite app_length, IH. cbn. lia. Qed.
Lemma dig_digits w z : forallb is_digit (dig w z) = true.
Proof.
  revert z. induction w as [|w IH]; intro z; cbn [dig]; [reflexivity|].
  rewrite forallb_app, IH. cbn [forallb]. rewrite dchar_digit. reflexivity.
Qed.
Lemma dnum_app s : forall acc t, dnum acc (s ++ t) = dnum (dnum acc s) t.
Proof. induction s as [|c r IH]; intros acc t; cbn [app dnum]; [reflexivity|apply IH]. Qed.
Lemma dnum_dig w : forall z, 0 <= z < 10 ^ Z.of_nat w -> dnum 0 (dig w z) = z.
Proof.
  induction w as [|w IH]; intros z Hz; cbn [dig].
  - cbn in *. lia.
  - rewrite dnum_app. cbn [dnum]. rewrite dval_dchar, IH.
    + pose proof (Z.div_mod z 10). lia.
    + rewrite Nat2Z.inj_succ, Z.pow_succ_r in Hz by lia. split.
      * apply Z.div_pos; lia.
      * apply Z.div_lt_upper_bound; lia.
Qed.

(** * Calendar *)

(** [datetime.datetime]; [tz] is the UTC offset in microseconds of an aware
    datetime, [None] for a naive one. (utils.py:12-51) *)
Record datetime := DT { dyear : Z; dmonth : Z; dday : Z; dhour : Z; dminute : Z;
                        dsecond : Z; dmicro : Z; dtz : option Z }.
(** datetime.date, as in diffing.py:91-94 and utils.py:29 *)
Record pydate := PD { pyear : Z; pmonth : Z; pday : Z }.

(** calendar of Python's datetime (diffing.py:88, utils.py:27) *)
Definition is_leap (y : Z) : bool :=
  ((y mod 4 =? 0) && (negb (y mod 100 =? 0) || (y mod 400 =? 0)))%bool.
(** calendar of Python's datetime (diffing.py:88, utils.py:27) *)
Definition days_in_month (y m : Z) : Z :=
  if m =? 2 then (if is_leap y then 29 else 28)
  else if (m =? 4) || (m =? 6) || (m =? 9) || (m =? 11) then 30 else 31.

(** What the [date] / [datetime] / [timezone] constructors of Python's standard
    library accept (they raise ValueError otherwise). (utils.py:29, 48) *)
Definition valid_date (y m d : Z) : bool :=
  (1 <=? y) && (y <=? 9999) && (1 <=? m) && (m <=? 12) && (1 <=? d) && (d <=? days_in_month y m).
(** microseconds of a day (utils.py:27) *)
Definition day_us : Z := 86400000000.
(** the offsets [timezone] accepts: strictly between -24 and 24 hours (reached from utils.py:48) *)
Definition valid_tz (o : option Z) : bool :=
  match o with None => true | Some z => (- day_us <? z) && (z <? day_us) end.
(** what the [datetime] constructor accepts (reached from utils.py:48) *)
Definition valid_dt (t : datetime) : bool :=
  valid_date (dyear t) (dmonth t) (dday t) && (0 <=? dhour t) && (dhour t <=? 23)
  && (0 <=? dminute t) && (dminute t <=? 59) && (0 <=? dsecond t) && (dsecond t <=? 59)
  && (0 <=? dmicro t) && (dmicro t <=? 999999) && valid_tz (dtz t).

(** Proleptic Gregorian ordinal, as in the standard library's [_ymd2ord]. (utils.py:27) *)
Definition days_before_month (y m : Z) : Z :=
  let base := nth (Z.to_nat (m - 1)) [0;31;59;90;120;151;181;212;243;273;304;334] 0 in
  base + (if (2 <? m) && is_leap y then 1 else 0).
(** the standard library's [_days_before_year] (in datetime.timestamp, utils.py:27) *)
Definition days_before_year (y : Z) : Z :=
  let y := y - 1 in y * 365 + y / 4 - y / 100 + y / 400.
(** the standard library's [_ymd2ord] (in datetime.timestamp, utils.py:27) *)
Definition ordinal (y m d : Z) : Z := days_before_year y + days_before_month y m + d.
(** the ordinal of 1970-01-01 (in datetime.timestamp, utils.py:27) *)
Definition epoch_ordinal : Z := 719163.

(** Microseconds since the epoch of an aware datetime. (utils.py:27) *)
Definition epoch_us (t : datetime) (off : Z) : Z :=
  (ordinal (dyear t) (dmonth t) (dday t) - epoch_ordinal) * day_us
  + (dhour t * 3600 + dminute t * 60 + dsecond t) * 1000000 + dmicro t - off.

(** [int(x * 1000)] of the float [x = us / 10**6]
    ([datetime.timestamp()] of an aware datetime is [timedelta.total_seconds()],
    the correctly rounded quotient; utils.py:27). SpecFloat's division and
    multiplication are IEEE binary64, round to nearest even. [trunc_SF] is
    [int(float)] (truncation towards zero). *)
Definition Z2SF (z : Z) : spec_float :=
  match z with Z0 => S754_zero false | Zpos p => S754_finite false p 0 | Zneg p => S754_finite true p 0 end.
(** utils.py:27: [int] of a float, towards zero *)
Definition trunc_SF (f : spec_float) : Z :=
  match f with
  | S754_finite s m e =>
      let a := match e with Z0 => Zpos m | Zpos k => Zpos m * 2 ^ Zpos k | Zneg k => Zpos m / 2 ^ Zpos k end in
      if s then - a else a
  | _ => 0
  end.
(** utils.py:27: the float 1000.0 *)
Definition sf_thousand : spec_float := S754_finite false 8796093022208000 (-43).
(** utils.py:27: [moment.timestamp()] of an aware datetime *)
Definition seconds_of_us (us : Z) : spec_float := SFdiv 53 1024 (Z2SF us) (Z2SF 1000000).
(** utils.py:27: [int(moment.timestamp() * 1000)] of an aware datetime *)
Definition ts_of_us (us : Z) : Z := trunc_SF (SFmul 53 1024 (seconds_of_us us) sf_thousand).

(** [float(z)] (utils.py:27) *)
Definition float_of_Z (z : Z) : spec_float := binary_normalize 53 1024 z 0 false.
(** For naive datetimes Python adds the whole seconds and the microseconds divided by [1e6] as floats
    (datetime.timestamp), which rounds twice. (utils.py:27) *)
Definition naive_seconds (us : Z) : spec_float :=
  SFadd 53 1024 (float_of_Z (us / 1000000)) (SFdiv 53 1024 (Z2SF (us mod 1000000)) (Z2SF 1000000)).
(** utils.py:27, 29: [int(moment.timestamp() * 1000)] of a naive datetime (local time UTC) *)
Definition ts_naive (us : Z) : Z := trunc_SF (SFmul 53 1024 (naive_seconds us) sf_thousand).

(** utils.py:12-29 [to_timestamp]. For naive datetimes and for dates Python uses the local timezone of the
    machine; here [local] is the offset of that timezone at that moment, in microseconds (a whole number of
    seconds, so the microseconds are those of the datetime). *)
Definition to_timestamp (local : Z) (t : datetime) : Z :=
  match dtz t with
  | Some o => ts_of_us (epoch_us t o)
  | None => ts_naive (epoch_us t local)
  end.

(** * strftime (diffing.py:27-28, 88, 94) *)

(** ["%Y"]: zero padded to four digits on some platforms/Python versions
    ([pad = true]) and unpadded on others (glibc, older CPython). (diffing.py:88, 94) *)
Definition year_str (pad : bool) (y : Z) : pystr :=
  if pad then dig 4 y
  else if y <? 10 then dig 1 y else if y <? 100 then dig 2 y
  else if y <? 1000 then dig 3 y else dig 4 y.

(** ["%z"]: empty for naive, otherwise +HHMM[SS[.ffffff]]. (diffing.py:88) *)
Definition tz_str (o : option Z) : pystr :=
  match o with
  | None => []
  | Some z =>
      let a := Z.abs z in
      let us := a mod 1000000 in
      let s := a / 1000000 in
      (if z <? 0 then 45%N else 43%N) :: dig 2 (s / 3600) ++ dig 2 (s / 60 mod 60)
      ++ (if (us =? 0) && (s mod 60 =? 0) then []
          else dig 2 (s mod 60) ++ (if us =? 0 then [] else 46%N :: dig 6 us))
  end.

(** diffing.py:94: [strftime(DATE_FORMAT)]; [pad]: whether the platform pads years to four digits *)
Definition strftime_date (pad : bool) (d : pydate) : pystr :=
  year_str pad (pyear d) ++ 45%N :: dig 2 (pmonth d) ++ 45%N :: dig 2 (pday d).

(** diffing.py:88: [strftime(DATETIME_FORMAT)]; [pad] as above *)
Definition strftime_dt (pad : bool) (t : datetime) : pystr :=
  year_str pad (dyear t) ++ 45%N :: dig 2 (dmonth t) ++ 45%N :: dig 2 (dday t)
  ++ 84%N :: dig 2 (dhour t) ++ 58%N :: dig 2 (dminute t) ++ 58%N :: dig 2 (dsecond t)
  ++ 46%N :: dig 6 (dmicro t) ++ tz_str (dtz t).

(** * strptime *)

(** The directives of the formats; [TL] is a literal character, [TW] white space (the regex builder replaces each run by [\s+]). (utils.py:48) *)
Inductive tok := TL (c : N) | TW | TY | Tm | Td | TH | TM | TS | Tf | Tz.

(** diffing.py:27 *)
Definition DATETIME_FORMAT : list tok :=
  [TY; TL 45; Tm; TL 45; Td; TL 84; TH; TL 58; TM; TL 58; TS; TL 46; Tf; Tz].
(** diffing.py:32 *)
Definition NAIVE_DATETIME_FORMAT : list tok :=
  [TY; TL 45; Tm; TL 45; Td; TL 84; TH; TL 58; TM; TL 58; TS; TL 46; Tf].
(** diffing.py:28 *)
Definition DATE_FORMAT : list tok := [TY; TL 45; Tm; TL 45; Td].

(** Raw ["%z"] capture: sign, hours, first colon, minutes, optional
    (second colon, seconds, microseconds). (utils.py:48) *)
Inductive zraw := ZZ | ZO (neg : bool) (hh : Z) (c1 : bool) (mm : Z) (rest : option (bool * Z * Z)).

(** what [_strptime] has read so far (utils.py:48) *)
Record fields := FD { f_y : Z; f_m : Z; f_d : Z; f_H : Z; f_M : Z; f_S : Z; f_f : Z; f_z : option zraw }.
(** the defaults of [_strptime] (utils.py:48) *)
Definition fields0 := FD 1900 1 1 0 0 0 0 None.

(** re.IGNORECASE for the literals of a format (utils.py:48), ASCII only *)
Definition low (c : N) : N := if ((65 <=? c) && (c <=? 90))%N then (c + 32)%N else c.

(** All ways a prefix of the string matches, in the order Python's backtracking
    regex engine tries them. Digits are ASCII only (Python's [\d] also accepts
    other decimal digits); literals match case insensitively. (utils.py:48) *)
Definition m1 (lo hi : Z) (s : pystr) : list (Z * pystr) :=
  match s with
  | a :: r => if is_digit a && (lo <=? dval a) && (dval a <=? hi) then [(dval a, r)] else []
  | _ => []
  end.
(** two digits, the first given, the second in a range (an alternative of the expressions of _strptime, utils.py:48) *)
Definition m2 (tens lo hi : Z) (s : pystr) : list (Z * pystr) :=
  match s with
  | a :: b :: r =>
      if is_digit a && is_digit b && (dval a =? tens) && (lo <=? dval b) && (dval b <=? hi)
      then [(10 * dval a + dval b, r)] else []
  | _ => []
  end.
(** %m of _strptime (utils.py:48): 1[0-2]|0[1-9]|[1-9] *)
Definition m_month s := m2 1 0 2 s ++ m2 0 1 9 s ++ m1 1 9 s.
(** %d of _strptime (utils.py:48): 3[0-1]|[1-2]\d|0[1-9]|[1-9]| [1-9] *)
Definition m_day s :=
  m2 3 0 1 s ++ (m2 1 0 9 s ++ m2 2 0 9 s) ++ m2 0 1 9 s ++ m1 1 9 s
  ++ match s with 32%N :: r => m1 1 9 r | _ => [] end.
(** %H of _strptime (utils.py:48): 2[0-3]|[0-1]\d|\d *)
Definition m_hour s := m2 2 0 3 s ++ (m2 0 0 9 s ++ m2 1 0 9 s) ++ m1 0 9 s.
(** [0-5]\d in the expressions of _strptime (utils.py:48) *)
Definition m_0_59 s := m2 0 0 9 s ++ m2 1 0 9 s ++ m2 2 0 9 s ++ m2 3 0 9 s ++ m2 4 0 9 s ++ m2 5 0 9 s.
(** %M of _strptime (utils.py:48): [0-5]\d|\d *)
Definition m_min s := m_0_59 s ++ m1 0 9 s.
(** %S of _strptime (utils.py:48): 6[0-1]|[0-5]\d|\d *)
Definition m_sec s := m2 6 0 1 s ++ m_0_59 s ++ m1 0 9 s.
(** \d\d in the expressions of _strptime (utils.py:48) *)
Definition m_00_99 s := match s with
  | a :: b :: r => if is_digit a && is_digit b then [(10 * dval a + dval b, r)] else []
  | _ => [] end.
(** %Y of _strptime (utils.py:48): \d\d\d\d *)
Definition m_year s := match s with
  | a :: b :: c :: d :: r =>
      if forallb is_digit [a;b;c;d] then [(dnum 0 [a;b;c;d], r)] else []
  | _ => [] end.
(** [n] to 1 digits, longest first; the value is scaled to microseconds. (utils.py:48) *)
Fixpoint m_frac (n : nat) (s : pystr) : list (Z * pystr) :=
  match n with
  | O => []
  | S n' =>
      (if (Nat.eqb (length (firstn n s)) n) && forallb is_digit (firstn n s)
       then [(dnum 0 (firstn n s) * 10 ^ (6 - Z.of_nat n), skipn n s)] else [])
      ++ m_frac n' s
  end.
(** [\s]: the characters for which str.isspace holds (utils.py:48) *)
Definition is_ws (c : N) : bool :=
  ((9 <=? c) && (c <=? 13) || (28 <=? c) && (c <=? 32) || (c =? 133) || (c =? 160) || (c =? 5760) || (8192 <=? c) && (c <=? 8202)
   || (c =? 8232) || (c =? 8233) || (c =? 8239) || (c =? 8287) || (c =? 12288))%N.
(** what is left after one or more of them, the longest run first (utils.py:48) *)
Fixpoint m_ws (s : pystr) : list pystr :=
  match s with
  | c :: r => if is_ws c then m_ws r ++ [r] else []
  | [] => []
  end.
(** the optional colons of %z of _strptime (utils.py:48) *)
Definition m_colon (s : pystr) : list (bool * pystr) :=
  match s with 58%N :: r => [(true, r); (false, s)] | _ => [(false, s)] end.
(** %z of _strptime (utils.py:48) *)
Definition m_zone (s : pystr) : list (zraw * pystr) :=
  match s with
  | c :: r =>
      if (N.eqb c 43 || N.eqb c 45)%bool then
        flat_map (fun '(hh, r1) => flat_map (fun '(c1, r2) => flat_map (fun '(mm, r3) =>
          flat_map (fun '(c2, r4) => flat_map (fun '(ss, r5) =>
             match r5 with
             | 46%N :: r6 => map (fun '(us, r7) => (ZO (N.eqb c 45) hh c1 mm (Some (c2, ss, us)), r7)) (m_frac 6 r6)
             | _ => [] end
             ++ [(ZO (N.eqb c 45) hh c1 mm (Some (c2, ss, 0)), r5)])
             (m_0_59 r4)) (m_colon r3)
          ++ [(ZO (N.eqb c 45) hh c1 mm None, r3)])
          (m_0_59 r2)) (m_colon r1)) (m_00_99 r)
      else if N.eqb c 90 then [(ZZ, r)] else []
  | [] => []
  end.

(** the regular expression built from a whole format (_strptime, utils.py:48) *)
Fixpoint m_toks (ts : list tok) (f : fields) (s : pystr) : list (fields * pystr) :=
  match ts with
  | [] => [(f, s)]
  | t :: ts' =>
      match t with
      | TL c => match s with
                | a :: r => if N.eqb (low a) (low c) then m_toks ts' f r else []
                | [] => [] end
      | TW => flat_map (fun r => m_toks ts' f r) (m_ws s)
      | TY => flat_map (fun '(v, r) => m_toks ts' (FD v (f_m f) (f_d f) (f_H f) (f_M f) (f_S f) (f_f f) (f_z f)) r) (m_year s)
      | Tm => flat_map (fun '(v, r) => m_toks ts' (FD (f_y f) v (f_d f) (f_H f) (f_M f) (f_S f) (f_f f) (f_z f)) r) (m_month s)
      | Td => flat_map (fun '(v, r) => m_toks ts' (FD (f_y f) (f_m f) v (f_H f) (f_M f) (f_S f) (f_f f) (f_z f)) r) (m_day s)
      | TH => flat_map (fun '(v, r) => m_toks ts' (FD (f_y f) (f_m f) (f_d f) v (f_M f) (f_S f) (f_f f) (f_z f)) r) (m_hour s)
      | TM => flat_map (fun '(v, r) => m_toks ts' (FD (f_y f) (f_m f) (f_d f) (f_H f) v (f_S f) (f_f f) (f_z f)) r) (m_min s)
      | TS => flat_map (fun '(v, r) => m_toks ts' (FD (f_y f) (f_m f) (f_d f) (f_H f) (f_M f) v (f_f f) (f_z f)) r) (m_sec s)
      | Tf => flat_map (fun '(v, r) => m_toks ts' (FD (f_y f) (f_m f) (f_d f) (f_H f) (f_M f) (f_S f) v (f_z f)) r) (m_frac 6 s)
      | Tz => flat_map (fun '(v, r) => m_toks ts' (FD (f_y f) (f_m f) (f_d f) (f_H f) (f_M f) (f_S f) (f_f f) (Some v)) r) (m_zone s)
      end
  end.

(** The offset of a ["%z"] capture in microseconds; [None] for inconsistent
    colons (ValueError). (utils.py:48) *)
Definition zone_us (z : zraw) : option Z :=
  match z with
  | ZZ => Some 0
  | ZO neg hh c1 mm rest =>
      match rest with
      | None => let a := (hh * 3600 + mm * 60) * 1000000 in Some (if neg then - a else a)
      | Some (c2, ss, us) =>
          if Bool.eqb c1 c2 then
            let a := (hh * 3600 + mm * 60 + ss) * 1000000 + us in Some (if neg then - a else a)
          else None
      end
  end.

(** [datetime.strptime(s, fmt)]: first regex match, which must consume the whole
    string, then the constructors' validity checks. [None] is ValueError. (utils.py:48) *)
Definition strptime (fmt : list tok) (s : pystr) : option datetime :=
  match m_toks fmt fields0 s with
  | (f, []) :: _ =>
      match f_z f with
      | None =>
          let t := DT (f_y f) (f_m f) (f_d f) (f_H f) (f_M f) (f_S f) (f_f f) None in
          if valid_dt t then Some t else None
      | Some z =>
          match zone_us z with
          | None => None
          | Some o =>
              let t := DT (f_y f) (f_m f) (f_d f) (f_H f) (f_M f) (f_S f) (f_f f) (Some o) in
              if valid_dt t then Some t else None
          end
      end
  | _ => None
  end.

(** utils.py:32-51 [parse_to_timestamp] with the default tz (UTC): naive
    results are taken as UTC. *)
Definition in_utc (t : datetime) : datetime :=
  match dtz t with
  | Some _ => t
  | None => DT (dyear t) (dmonth t) (dday t) (dhour t) (dminute t) (dsecond t) (dmicro t) (Some 0)
  end.
(** utils.py:32-51 [parse_to_timestamp]; [None]: ValueError *)
Definition parse_to_timestamp (s : pystr) (fmt : list tok) : option Z :=
  match strptime fmt s with
  | Some t => Some (to_timestamp 0 (in_utc t))
  | None => None
  end.

(** utils.py:54-58 [now]: [int(time() * 1000)], [time()] being a float. *)
Definition now_of (time : spec_float) : Z := trunc_SF (SFmul 53 1024 time sf_thousand).
