(** The timestamps of Time.v as rounded real numbers (Flocq). *)
From Coq Require Import List ZArith NArith Bool Lia Reals Lra Psatz.
From Coq Require Import Floats.SpecFloat.
From Flocq Require Import Core.
From Flocq Require Import IEEE754.BinarySingleNaN.
From Verif Require Import PyVal Time.
Import ListNotations.
Open Scope Z_scope.

Notation b64e := (SpecFloat.fexp 53 1024).
Notation rnd := (round radix2 b64e (Znearest (fun x => negb (Z.even x)))).
Notation realof := (SF2R radix2).
Notation valid_f := (valid_binary 53 1024).

Global Instance prec53 : Prec_gt_0 53. Proof. reflexivity. Qed.
Global Instance prec53m : Prec_lt_emax 53 1024. Proof. reflexivity. Qed.

Global Instance vexp : Valid_exp b64e := fexp_correct 53 1024 prec53.

Lemma rne_equiv s m l : round_nearest_even m l = choice_mode mode_NE s m l.
Proof. destruct l as [|c]; [reflexivity|]. destruct c; cbn; try reflexivity. now destruct (Z.even m). Qed.
Lemma aux_equiv sx mx ex lx : SpecFloat.binary_round_aux 53 1024 sx mx ex lx = BinarySingleNaN.binary_round_aux 53 1024 mode_NE sx mx ex lx.
Proof.
  unfold SpecFloat.binary_round_aux, BinarySingleNaN.binary_round_aux. destruct (shr_fexp _ _ mx ex lx) as [mrs' e']. rewrite (rne_equiv sx).
  destruct (shr_fexp _ _ _ e' loc_Exact) as [mrs'' e'']. destruct (shr_m mrs''); reflexivity.
Qed.
Lemma Z2SF_real z : realof (Z2SF z) = IZR z.
Proof. destruct z; cbn [Z2SF SF2R]; [reflexivity| |]; unfold F2R; cbn; rewrite Rmult_1_r; reflexivity. Qed.

Lemma seconds_real us : us <> 0 -> (Rabs (rnd (IZR us / 1000000)) < bpow radix2 1024)%R ->
  realof (seconds_of_us us) = rnd (IZR us / 1000000) /\ valid_f (seconds_of_us us) = true /\ is_finite_SF (seconds_of_us us) = true.
Proof.
  intros Hn Hb. assert (E : seconds_of_us us = let '(mz, ez, lz) := SFdiv_core_binary 53 1024 (Z.abs us) 0 1000000 0 in BinarySingleNaN.binary_round_aux 53 1024 mode_NE (us <? 0) mz ez lz).
  { unfold seconds_of_us. destruct us as [|p|p]; [contradiction| |]; cbn [Z2SF SFdiv Z.abs xorb]; destruct (SFdiv_core_binary 53 1024 (Zpos p) 0 1000000 0) as [[mz ez] lz]; apply aux_equiv. }
  assert (Ea : exists p, Z.abs us = Zpos p) by (destruct us as [|p|p]; [contradiction| |]; exists p; reflexivity). destruct Ea as [p Ep].
  pose proof (Bdiv_correct_aux 53 1024 _ _ mode_NE (us <? 0) p 0 false 1000000 0) as H. cbv zeta in H. rewrite Ep in E. rewrite xorb_false_r in H. rewrite <- E in H.
  assert (Ex : (F2R (Float radix2 (cond_Zopp (us <? 0) (Z.pos p)) 0) / F2R (Float radix2 (cond_Zopp false 1000000) 0) = IZR us / 1000000)%R).
  { unfold F2R. cbn [Fnum Fexp bpow cond_Zopp]. rewrite !Rmult_1_r. do 2 f_equal. destruct us as [|q|q]; cbn in Ep |- *; [contradiction| |]; congruence. }
  rewrite Ex in H. cbn [round_mode] in H. rewrite Rlt_bool_true in H by exact Hb. destruct H as (H1 & H2 & H3 & _). auto.
Qed.
Lemma thousand_real : realof sf_thousand = 1000%R.
Proof. cbn [SF2R sf_thousand]. unfold F2R. cbn [Fnum Fexp cond_Zopp]. change (bpow radix2 (-43)) with (/ IZR (2 ^ 43))%R. cbn [Z.pow Z.pow_pos Pos.iter Z.mul Pos.mul]. lra. Qed.
Lemma mul_real f : valid_f f = true -> is_finite_SF f = true -> (Rabs (rnd (realof f * 1000)) < bpow radix2 1024)%R ->
  realof (SFmul 53 1024 f sf_thousand) = rnd (realof f * 1000).
Proof.
  intros Hv Hf Hb. destruct f as [s|s| |s m e]; try discriminate.
  - cbn [SFmul sf_thousand SF2R]. rewrite Rmult_0_l, round_0; [reflexivity|auto with typeclass_instances].
  - cbn [SFmul sf_thousand]. rewrite aux_equiv. cbn [valid_binary] in Hv.
    pose proof (Bmult_correct_aux 53 1024 _ _ mode_NE s m e Hv false 8796093022208000 (-43) eq_refl) as H. cbv zeta in H.
    change (F2R (Float radix2 (cond_Zopp false 8796093022208000) (-43))) with (realof sf_thousand) in H. rewrite thousand_real in H. cbn [round_mode] in H.
    change (F2R (Float radix2 (cond_Zopp s (Z.pos m)) e)) with (realof (S754_finite s m e)) in H.
    rewrite Rlt_bool_true in H by exact Hb. destruct H as (_ & H & _). exact H.
Qed.
Lemma trunc_real f : trunc_SF f = Ztrunc (realof f).
Proof.
  destruct f as [s|s| |s m e]; cbn [trunc_SF SF2R]; try (symmetry; exact (Ztrunc_IZR 0)).
  assert (G : Ztrunc (F2R (Float radix2 (Zpos m) e)) = match e with Z0 => Zpos m | Zpos k => Zpos m * 2 ^ Zpos k | Zneg k => Zpos m / 2 ^ Zpos k end).
  { unfold F2R. cbn [Fnum Fexp]. destruct e as [|k|k]; cbn [bpow].
    - rewrite Rmult_1_r. apply Ztrunc_IZR.
    - rewrite <- mult_IZR, Ztrunc_IZR. rewrite Z.pow_pos_fold. reflexivity.
    - rewrite Z.pow_pos_fold. change (radix_val radix2) with 2. rewrite Ztrunc_floor.
      + rewrite <- Zfloor_div; [reflexivity|]. apply Z.pow_nonzero; lia.
      + apply Rmult_le_pos; [apply IZR_le; lia|]. left. apply Rinv_0_lt_compat, IZR_lt. apply Z.pow_pos_nonneg; lia. }
  destruct s; cbn [cond_Zopp].
  - change (- Z.pos m) with (Z.opp (Zpos m)). rewrite F2R_Zopp, Ztrunc_opp, G. reflexivity.
  - rewrite G. reflexivity.
Qed.

(** Bounds on rounding. *)
Lemma rnd_err x e : (Rabs x < bpow radix2 e)%R -> -900 <= e -> (Rabs (rnd x - x) <= bpow radix2 (e - 54))%R.
Proof.
  intros Hx He. destruct (Req_dec x 0) as [->|Hz].
  - rewrite round_0 by auto with typeclass_instances. rewrite Rminus_0_r, Rabs_R0. apply bpow_ge_0.
  - pose proof (error_le_half_ulp radix2 b64e (fun x => negb (Z.even x)) x) as EH. eapply Rle_trans; [exact EH|]. rewrite ulp_neq_0 by exact Hz.
    assert (Hc : cexp radix2 b64e x <= e - 53).
    { unfold cexp, SpecFloat.fexp, SpecFloat.emin. pose proof (mag_le_bpow radix2 x e Hz Hx). lia. }
    apply (bpow_le radix2) in Hc. replace (e - 53) with ((e - 54) + 1) in Hc by lia. rewrite bpow_plus in Hc. change (bpow radix2 1) with 2%R in Hc. lra.
Qed.
Lemma rnd_lt x e : (Rabs x < bpow radix2 e)%R -> -900 <= e <= 1000 -> (Rabs (rnd x) < bpow radix2 1024)%R.
Proof.
  intros Hx He. pose proof (rnd_err x e Hx (proj1 He)) as H. pose proof (Rabs_triang (rnd x - x) x) as T. replace (rnd x - x + x)%R with (rnd x) in T by ring.
  assert (B1 : (bpow radix2 (e - 54) <= bpow radix2 1000)%R) by (apply bpow_le; lia). assert (B2 : (bpow radix2 e <= bpow radix2 1000)%R) by (apply bpow_le; lia).
  assert (B3 : (bpow radix2 1024 = bpow radix2 1000 * bpow radix2 24)%R) by (rewrite <- bpow_plus; reflexivity). pose proof (bpow_gt_0 radix2 1000). assert (B4 : (bpow radix2 24 > 2)%R) by (cbn; lra). nra.
Qed.

(** [int(x * 1000)] with [x] the float nearest to [us / 10**6] *)
Definition ms_real (us : Z) : R := rnd (rnd (IZR us / 1000000) * 1000).
Lemma us_small us k : Z.abs us < 2 ^ k -> 0 <= k -> (Rabs (IZR us / 1000000) < bpow radix2 k)%R.
Proof.
  intros H Hk. unfold Rdiv. rewrite Rabs_mult, <- abs_IZR. rewrite (Rabs_right (/ 1000000)) by lra. rewrite <- IZR_Zpower by exact Hk. apply IZR_lt in H. change (radix_val radix2) with 2.
  pose proof (IZR_le 0 (Z.abs us) ltac:(lia)). lra.
Qed.
Lemma ts_real us : Z.abs us < 2 ^ 900 -> ts_of_us us = Ztrunc (ms_real us).
Proof.
  intro Hb. unfold ts_of_us, ms_real. destruct (Z.eq_dec us 0) as [->|Hn].
  - unfold Rdiv. rewrite Rmult_0_l, round_0 by auto with typeclass_instances. rewrite Rmult_0_l, round_0 by auto with typeclass_instances. rewrite (Ztrunc_IZR 0). reflexivity.
  - pose proof (us_small us 900 Hb ltac:(lia)) as S1. pose proof (rnd_lt _ 900 S1 ltac:(lia)) as S2. destruct (seconds_real us Hn S2) as (H1 & H2 & H3).
    rewrite trunc_real, mul_real; [rewrite H1; reflexivity|exact H2|exact H3|]. rewrite H1.
    apply (rnd_lt _ 920); [|lia]. pose proof (rnd_err _ 900 S1 ltac:(lia)) as E. pose proof (Rabs_triang (rnd (IZR us / 1000000) - IZR us / 1000000) (IZR us / 1000000)) as T.
    replace (rnd (IZR us / 1000000) - IZR us / 1000000 + IZR us / 1000000)%R with (rnd (IZR us / 1000000)) in T by ring.
    assert (B1 : (bpow radix2 (900 - 54) <= bpow radix2 900)%R) by (apply bpow_le; lia). rewrite Rabs_mult, (Rabs_right 1000) by lra.
    assert (B3 : (bpow radix2 920 = bpow radix2 900 * bpow radix2 20)%R) by (rewrite <- bpow_plus; reflexivity). pose proof (bpow_gt_0 radix2 900). assert (B4 : (bpow radix2 20 > 2000)%R) by (cbn; lra). nra.
Qed.
Lemma ms_mono a b : a <= b -> (ms_real a <= ms_real b)%R.
Proof.
  intro H. unfold ms_real. apply round_le; auto with typeclass_instances. apply Rmult_le_compat_r; [lra|]. apply round_le; auto with typeclass_instances. apply IZR_le in H. lra.
Qed.
Theorem ts_mono a b : Z.abs a < 2 ^ 900 -> Z.abs b < 2 ^ 900 -> a <= b -> ts_of_us a <= ts_of_us b.
Proof. intros Ha Hb H. rewrite !ts_real by assumption. apply Ztrunc_le, ms_mono, H. Qed.

(** Distance of [ms_real] from the exact value. *)
Lemma ms_err us k : Z.abs us < 10 ^ 6 * 2 ^ k -> 0 <= k <= 800 ->
  (Rabs (ms_real us - IZR us / 1000) <= 1000 * bpow radix2 (k - 54) + bpow radix2 (k + 10 - 54))%R.
Proof.
  intros H Hk. set (x := (IZR us / 1000000)%R).
  assert (Hp : (0 < bpow radix2 k)%R) by apply bpow_gt_0.
  assert (Hx : (Rabs x < bpow radix2 k)%R).
  { unfold x, Rdiv. rewrite Rabs_mult, <- abs_IZR, (Rabs_right (/ 1000000)) by lra. rewrite <- IZR_Zpower by lia. apply IZR_lt in H. rewrite mult_IZR in H. change (radix_val radix2) with 2. change (IZR (10 ^ 6)) with 1000000%R in H. lra. }
  pose proof (rnd_err x k Hx ltac:(lia)) as E1.
  assert (Hy : (Rabs (rnd x * 1000) < bpow radix2 (k + 10))%R).
  { assert (Hg : (Rabs (rnd x) <= bpow radix2 k)%R).
    { apply abs_round_le_generic; [auto with typeclass_instances|auto with typeclass_instances| |lra]. apply generic_format_bpow. unfold SpecFloat.fexp, SpecFloat.emin. lia. }
    rewrite Rabs_mult, (Rabs_right 1000) by lra. rewrite bpow_plus. change (bpow radix2 10) with 1024%R. lra. }
  pose proof (rnd_err _ (k + 10) Hy ltac:(lia)) as E2. fold (ms_real us) in E2.
  unfold ms_real. fold x. change (rnd (rnd x * 1000)) with (rnd (rnd x * 1000)).
  replace (rnd (rnd x * 1000) - IZR us / 1000)%R with ((rnd (rnd x * 1000) - rnd x * 1000) + (rnd x - x) * 1000)%R by (unfold x; field).
  eapply Rle_trans; [apply Rabs_triang|]. rewrite (Rabs_mult (rnd x - x) 1000), (Rabs_right 1000) by lra. unfold ms_real in E2. fold x in E2. lra.
Qed.
Lemma ms_opp us : ms_real (- us) = (- ms_real us)%R.
Proof.
  assert (Hs : forall x, rnd (- x) = (- rnd x)%R) by (intro x; apply (round_NE_opp radix2 b64e x)).
  unfold ms_real. rewrite opp_IZR. replace (- IZR us / 1000000)%R with (- (IZR us / 1000000))%R by field. rewrite Hs, Ropp_mult_distr_l_reverse. apply Hs.
Qed.
Lemma ts_opp us : Z.abs us < 2 ^ 900 -> ts_of_us (- us) = - ts_of_us us.
Proof. intro H. rewrite !ts_real by (rewrite ?Z.abs_opp; exact H). rewrite ms_opp. apply Ztrunc_opp. Qed.
Lemma ms_nonneg us : 0 <= us -> (0 <= ms_real us)%R.
Proof.
  intro H. pose proof (ms_mono 0 us H) as M. unfold ms_real in M at 1. unfold Rdiv in M at 1. rewrite Rmult_0_l, round_0, Rmult_0_l, round_0 in M by auto with typeclass_instances. exact M.
Qed.
Lemma ts_floor us : 0 <= us -> us < 2 ^ 900 -> ts_of_us us = Zfloor (ms_real us).
Proof. intros H Hb. rewrite ts_real by lia. apply Ztrunc_floor, ms_nonneg, H. Qed.
Lemma pow_le a b : 0 <= a <= b -> 2 ^ a <= 2 ^ b.
Proof. intro H. apply Z.pow_le_mono_r; lia. Qed.
(** ** The calendar *)
Lemma epoch_us_bound t off : valid_dt t = true -> - day_us < off < day_us -> Z.abs (epoch_us t off) < 10 ^ 18.
Proof.
  unfold valid_dt, valid_date. rewrite !andb_true_iff, !Z.leb_le. intros [[[[[[[[[[[[[[Y1 Y2] M1] M2] D1] D2] H1] H2] I1] I2] S1] S2] U1] U2] _] Ho.
  unfold epoch_us, ordinal, epoch_ordinal, day_us in *.
  assert (DM : dday t <= 31) by (unfold days_in_month in D2; destruct (dmonth t =? 2), (is_leap (dyear t)), ((dmonth t =? 4) || (dmonth t =? 6) || (dmonth t =? 9) || (dmonth t =? 11))%bool; lia).
  assert (BM : 0 <= days_before_month (dyear t) (dmonth t) <= 335).
  { unfold days_before_month. assert (N : 0 <= nth (Z.to_nat (dmonth t - 1)) [0; 31; 59; 90; 120; 151; 181; 212; 243; 273; 304; 334] 0 <= 334).
    { destruct (Z.to_nat (dmonth t - 1)) as [|[|[|[|[|[|[|[|[|[|[|[|n]]]]]]]]]]]]; cbn; try lia. destruct n; lia. }
    destruct ((2 <? dmonth t) && is_leap (dyear t))%bool; lia. }
  assert (BY : 0 <= days_before_year (dyear t) <= 3660000).
  { unfold days_before_year. set (y := dyear t - 1). assert (0 <= y <= 9998) by lia. pose proof (Z.div_pos y 4). pose proof (Z.div_pos y 400). assert (y / 4 <= y) by (apply Z.div_le_upper_bound; lia). assert (y / 400 <= 25) by (apply Z.div_le_upper_bound; lia). assert (y / 100 <= y) by (apply Z.div_le_upper_bound; lia). pose proof (Z.div_pos y 100).
    assert (y / 4 <= 2500) by (apply Z.div_le_upper_bound; lia). lia. }
  apply Z.abs_lt. lia.
Qed.
