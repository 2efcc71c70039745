(** Timestamps of naive datetimes: two roundings (Flocq). *)
From Coq Require Import List ZArith NArith Bool Lia Reals Lra Psatz.
From Coq Require Import Floats.SpecFloat.
From Flocq Require Import Core.
From Flocq Require Import IEEE754.BinarySingleNaN.
From Verif Require Import PyVal Time TimeProofs.
Import ListNotations.
Open Scope Z_scope.

Lemma round_equiv s m e : SpecFloat.binary_round 53 1024 s m e = BinarySingleNaN.binary_round 53 1024 mode_NE s m e.
Proof. unfold SpecFloat.binary_round, BinarySingleNaN.binary_round, shl_align_fexp. destruct (shl_align m e _) as [mz ez]. apply aux_equiv. Qed.
(** normalising any mantissa and exponent *)
Lemma normalize_real m e : (Rabs (rnd (F2R (Float radix2 m e))) < bpow radix2 1024)%R ->
  let f := SpecFloat.binary_normalize 53 1024 m e false in realof f = rnd (F2R (Float radix2 m e)) /\ valid_f f = true /\ is_finite_SF f = true.
Proof.
  intros Hb f. unfold f, SpecFloat.binary_normalize. destruct m as [|p|p].
  - rewrite F2R_0, round_0 by auto with typeclass_instances. repeat split; reflexivity.
  - rewrite round_equiv. pose proof (binary_round_correct 53 1024 _ _ mode_NE false p e) as [V H]. cbn [cond_Zopp round_mode] in H. rewrite Rlt_bool_true in H by exact Hb. destruct H as (H1 & H2 & _). auto.
  - rewrite round_equiv. pose proof (binary_round_correct 53 1024 _ _ mode_NE true p e) as [V H]. cbn [cond_Zopp round_mode Z.opp] in H. rewrite Rlt_bool_true in H by exact Hb. destruct H as (H1 & H2 & _). auto.
Qed.
Lemma align_real s m e ez : ez <= e -> F2R (Float radix2 (cond_Zopp s (Zpos (fst (shl_align m e ez)))) ez) = F2R (Float radix2 (cond_Zopp s (Zpos m)) e).
Proof.
  intro H. pose proof (shl_align_correct' m e ez H) as K. destruct (shl_align m e ez) as [m' e']. destruct K as [K _]. cbn [fst]. destruct s; cbn [cond_Zopp]; [|exact K]. rewrite (F2R_Zopp radix2 (Zpos m')), (F2R_Zopp radix2 (Zpos m)), K. reflexivity.
Qed.
Lemma valid_generic f : valid_f f = true -> is_finite_SF f = true -> generic_format radix2 b64e (realof f).
Proof.
  intros V F. destruct f as [s|s| |s m e]; try discriminate; cbn [SF2R]; [apply generic_format_0|]. apply generic_format_canonical. apply canonical_bounded. exact V.
Qed.
Lemma add_real f g : valid_f f = true -> is_finite_SF f = true -> valid_f g = true -> is_finite_SF g = true ->
  (Rabs (rnd (realof f + realof g)) < bpow radix2 1024)%R ->
  let h := SFadd 53 1024 f g in realof h = rnd (realof f + realof g) /\ valid_f h = true /\ is_finite_SF h = true.
Proof.
  intros Vf Ff Vg Fg Hb h. pose proof (valid_generic f Vf Ff) as Gf. pose proof (valid_generic g Vg Fg) as Gg.
  destruct f as [s|s| |s m e], g as [t|t| |t n k]; try discriminate; unfold h; cbn [SFadd].
  - cbn [SF2R]. rewrite Rplus_0_l, round_0 by auto with typeclass_instances. destruct (Bool.eqb s t); repeat split; reflexivity.
  - cbn [SF2R] in *. rewrite Rplus_0_l, round_generic by auto with typeclass_instances. auto.
  - cbn [SF2R] in *. rewrite Rplus_0_r, round_generic by auto with typeclass_instances. auto.
  - assert (E : (F2R (Float radix2 (cond_Zopp s (Zpos (fst (shl_align m e (Z.min e k)))) + cond_Zopp t (Zpos (fst (shl_align n k (Z.min e k))))) (Z.min e k)) = realof (S754_finite s m e) + realof (S754_finite t n k))%R).
    { cbn [SF2R]. rewrite <- (align_real s m e (Z.min e k)) by lia. rewrite <- (align_real t n k (Z.min e k)) by lia. unfold F2R. cbn [Fnum Fexp]. rewrite plus_IZR. ring. }
    rewrite <- E in *. apply normalize_real. exact Hb.
Qed.
Lemma F2R_int z : F2R (Float radix2 z 0) = IZR z.
Proof. unfold F2R. cbn [Fnum Fexp bpow]. ring. Qed.
Lemma int_format z : Z.abs z < 2 ^ 53 -> generic_format radix2 b64e (IZR z).
Proof.
  intro H. rewrite <- F2R_int. apply generic_format_F2R. intro Hn. cbn [Fnum Fexp]. rewrite F2R_int. unfold cexp, SpecFloat.fexp, SpecFloat.emin.
  assert (M : mag radix2 (IZR z) <= 53). { apply mag_le_bpow; [apply IZR_neq; exact Hn|]. rewrite <- abs_IZR. change (bpow radix2 53) with (IZR (2 ^ 53)). apply IZR_lt, H. }
  lia.
Qed.

(** [int(x * 1000)] with the float [x] of a naive datetime *)
Definition ms_naive (us : Z) : R := rnd (rnd (IZR (us / 1000000) + rnd (IZR (us mod 1000000) / 1000000)) * 1000).
Lemma frac_bound us : (0 <= IZR (us mod 1000000) / 1000000 <= 999999 / 1000000)%R.
Proof. pose proof (Z.mod_pos_bound us 1000000 ltac:(lia)) as B. assert (B1 : (0 <= IZR (us mod 1000000))%R) by (apply IZR_le; lia). assert (B2 : (IZR (us mod 1000000) <= 999999)%R) by (apply IZR_le; lia). lra. Qed.
Lemma one_format : generic_format radix2 b64e 1%R.
Proof. apply (int_format 1). lia. Qed.
Lemma frac_rnd us : let g := rnd (IZR (us mod 1000000) / 1000000) in (0 <= g <= 1)%R /\ (Rabs (g - IZR (us mod 1000000) / 1000000) <= bpow radix2 (-54))%R.
Proof.
  intro g. pose proof (frac_bound us) as B. split; [split|].
  - apply round_ge_generic; auto with typeclass_instances; [apply generic_format_0|lra].
  - apply round_le_generic; auto with typeclass_instances; [apply one_format|lra].
  - apply (rnd_err _ 0); [|lia]. cbn [bpow]. rewrite Rabs_right by lra. lra.
Qed.
Lemma exact_split us : (IZR us / 1000000 = IZR (us / 1000000) + IZR (us mod 1000000) / 1000000)%R.
Proof. rewrite (Z.div_mod us 1000000) at 1 by lia. rewrite plus_IZR, mult_IZR. field. Qed.
Lemma small_abs us k : Z.abs us < 10 ^ 18 -> 41 <= k <= 100 -> (Rabs (IZR (us / 1000000) + rnd (IZR (us mod 1000000) / 1000000)) < bpow radix2 k)%R.
Proof.
  intros H Hk. destruct (frac_rnd us) as [G _]. assert (D : Z.abs (us / 1000000) <= 10 ^ 12) by (pose proof (Z.div_mod us 1000000 ltac:(lia)); pose proof (Z.mod_pos_bound us 1000000 ltac:(lia)); lia).
  assert (L : (-1000000000000 <= IZR (us / 1000000) <= 1000000000000)%R) by (split; apply IZR_le; lia).
  assert (P : (bpow radix2 41 <= bpow radix2 k)%R) by (apply bpow_le; lia). change (bpow radix2 41) with 2199023255552%R in P. apply Rabs_def1; lra.
Qed.
Lemma naive_real us : Z.abs us < 10 ^ 18 -> ts_naive us = Ztrunc (ms_naive us).
Proof.
  intro H. unfold ts_naive, ms_naive, naive_seconds.
  assert (D : Z.abs (us / 1000000) <= 10 ^ 12) by (pose proof (Z.div_mod us 1000000 ltac:(lia)); pose proof (Z.mod_pos_bound us 1000000 ltac:(lia)); lia).
  pose proof (int_format (us / 1000000) ltac:(lia)) as GI.
  assert (A : let f := float_of_Z (us / 1000000) in realof f = IZR (us / 1000000) /\ valid_f f = true /\ is_finite_SF f = true).
  { unfold float_of_Z. pose proof (normalize_real (us / 1000000) 0) as N. rewrite F2R_int in N. rewrite (round_generic _ _ _ (IZR (us / 1000000))) in N by auto with typeclass_instances. apply N.
    assert (L : (-1000000000000 <= IZR (us / 1000000) <= 1000000000000)%R) by (split; apply IZR_le; lia). assert (P : (bpow radix2 41 <= bpow radix2 1024)%R) by (apply bpow_le; lia). change (bpow radix2 41) with 2199023255552%R in P. apply Rabs_def1; lra. }
  destruct A as (A1 & A2 & A3).
  assert (B : let f := SFdiv 53 1024 (Z2SF (us mod 1000000)) (Z2SF 1000000) in realof f = rnd (IZR (us mod 1000000) / 1000000) /\ valid_f f = true /\ is_finite_SF f = true).
  { change (SFdiv 53 1024 (Z2SF (us mod 1000000)) (Z2SF 1000000)) with (seconds_of_us (us mod 1000000)). destruct (Z.eq_dec (us mod 1000000) 0) as [->|Hn].
    - unfold Rdiv. rewrite Rmult_0_l, round_0 by auto with typeclass_instances. repeat split; reflexivity.
    - apply seconds_real; [exact Hn|]. pose proof (frac_bound us) as FB. apply (rnd_lt _ 0); [|lia]. cbn [bpow]. rewrite Rabs_right by lra. lra. }
  destruct B as (B1 & B2 & B3). pose proof (small_abs us 50 H ltac:(lia)) as SA.
  destruct (add_real _ _ A2 A3 B2 B3) as (C1 & C2 & C3); [rewrite A1, B1; apply (rnd_lt _ 50); [exact SA|lia]|]. rewrite A1, B1 in C1.
  rewrite trunc_real, mul_real; [rewrite C1; reflexivity|exact C2|exact C3|]. rewrite C1. apply (rnd_lt _ 70); [|lia].
  assert (Q : (Rabs (rnd (IZR (us / 1000000) + rnd (IZR (us mod 1000000) / 1000000))) <= bpow radix2 50)%R).
  { apply abs_round_le_generic; [auto with typeclass_instances|auto with typeclass_instances| |lra]. apply generic_format_bpow. unfold SpecFloat.fexp, SpecFloat.emin. lia. }
  rewrite Rabs_mult, (Rabs_right 1000) by lra. assert (B4 : (bpow radix2 70 = bpow radix2 50 * bpow radix2 20)%R) by (rewrite <- bpow_plus; reflexivity). rewrite B4. change (bpow radix2 20) with 1048576%R. pose proof (bpow_gt_0 radix2 50). lra.
Qed.
(** monotone *)
Lemma naive_mono a b : a <= b -> (ms_naive a <= ms_naive b)%R.
Proof.
  intro H. unfold ms_naive. apply round_le; auto with typeclass_instances. apply Rmult_le_compat_r; [lra|]. apply round_le; auto with typeclass_instances.
  pose proof (Z.div_mod a 1000000 ltac:(lia)). pose proof (Z.mod_pos_bound a 1000000 ltac:(lia)). pose proof (Z.div_mod b 1000000 ltac:(lia)). pose proof (Z.mod_pos_bound b 1000000 ltac:(lia)).
  destruct (frac_rnd a) as [Ga _]. destruct (frac_rnd b) as [Gb _]. destruct (Z.eq_dec (a / 1000000) (b / 1000000)) as [E|E].
  - rewrite E. apply Rplus_le_compat_l. apply round_le; auto with typeclass_instances. assert (L : (IZR (a mod 1000000) <= IZR (b mod 1000000))%R) by (apply IZR_le; lia). lra.
  - assert (L : (IZR (a / 1000000) + 1 <= IZR (b / 1000000))%R) by (rewrite <- plus_IZR; apply IZR_le; lia). lra.
Qed.
Lemma naive_zero : ms_naive 0 = 0%R.
Proof. unfold ms_naive. change (0 / 1000000) with 0. change (0 mod 1000000) with 0. unfold Rdiv. rewrite Rmult_0_l, round_0, Rplus_0_l, round_0, Rmult_0_l, round_0 by auto with typeclass_instances. reflexivity. Qed.
(** distance from the exact value *)
Lemma naive_err us k : Z.abs us <= 10 ^ 6 * (2 ^ k - 1) -> 1 <= k <= 41 ->
  (Rabs (ms_naive us - IZR us / 1000) <= 1000 * bpow radix2 (k - 54) + bpow radix2 (k + 10 - 54) + 1000 * bpow radix2 (-54))%R.
Proof.
  intros H Hk. unfold ms_naive. set (s := us / 1000000). set (f := (IZR (us mod 1000000) / 1000000)%R). destruct (frac_rnd us) as [G1 G2]. fold f in G1, G2. set (g := rnd f) in *. set (y := (IZR s + g)%R).
  assert (Hs : - (2 ^ k - 1) <= s < 2 ^ k) by (unfold s; pose proof (Z.div_mod us 1000000 ltac:(lia)); pose proof (Z.mod_pos_bound us 1000000 ltac:(lia)); lia).
  assert (Bk : bpow radix2 k = IZR (2 ^ k)) by (rewrite <- IZR_Zpower by lia; reflexivity).
  assert (Hy : (Rabs y <= bpow radix2 k)%R).
  { unfold y. rewrite Bk. assert (L1 : (IZR (- (2 ^ k - 1)) <= IZR s)%R) by (apply IZR_le; lia). assert (L2 : (IZR s + 1 <= IZR (2 ^ k))%R) by (rewrite <- plus_IZR; apply IZR_le; lia). rewrite opp_IZR, minus_IZR in L1. assert (L3 : (1 <= IZR (2 ^ k))%R) by (apply IZR_le; pose proof (Z.pow_le_mono_r 2 1 k); lia). apply Rabs_le. lra. }
  assert (E1 : (Rabs (rnd y - y) <= bpow radix2 (k - 54))%R).
  { destruct (Rle_lt_or_eq_dec _ _ Hy) as [L|L]; [apply rnd_err; [exact L|lia]|]. assert (Gy : generic_format radix2 b64e y). { apply generic_format_abs_inv. rewrite L. apply generic_format_bpow. unfold SpecFloat.fexp, SpecFloat.emin. lia. }
    rewrite round_generic by auto with typeclass_instances. replace (y - y)%R with 0%R by ring. rewrite Rabs_R0. apply bpow_ge_0. }
  assert (Hg : (Rabs (rnd y) <= bpow radix2 k)%R).
  { apply abs_round_le_generic; [auto with typeclass_instances|auto with typeclass_instances| |exact Hy]. apply generic_format_bpow. unfold SpecFloat.fexp, SpecFloat.emin. lia. }
  assert (Hm : (Rabs (rnd y * 1000) < bpow radix2 (k + 10))%R). { rewrite Rabs_mult, (Rabs_right 1000) by lra. rewrite bpow_plus. change (bpow radix2 10) with 1024%R. pose proof (bpow_gt_0 radix2 k). lra. }
  pose proof (rnd_err _ (k + 10) Hm ltac:(lia)) as E2.
  assert (Ex : (IZR us / 1000 = (IZR s + f) * 1000)%R). { pose proof (exact_split us) as X. fold s f in X. rewrite <- X. field. }
  rewrite Ex. replace (rnd (rnd y * 1000) - (IZR s + f) * 1000)%R with ((rnd (rnd y * 1000) - rnd y * 1000) + ((rnd y - y) + (g - f)) * 1000)%R by (unfold y; ring).
  eapply Rle_trans; [apply Rabs_triang|]. rewrite Rabs_mult, (Rabs_right 1000) by lra. pose proof (Rabs_triang (rnd y - y) (g - f)). lra.
Qed.

(** ** Both kinds agree 8192 seconds from the epoch on *)
Lemma round_close N t Y : 2 ^ 13 <= t < 2 ^ 41 -> (IZR t <= IZR N / 1000000 < IZR t + 1)%R -> (IZR t <= Y < IZR t + 1)%R ->
  (Rabs (Y - IZR N / 1000000) <= bpow radix2 (-54))%R -> rnd (IZR N / 1000000) = rnd Y.
Proof.
  intros Ht HX HY HE. set (X := (IZR N / 1000000)%R) in *.
  set (e := Z.log2 t + 1). assert (Le : 2 ^ (e - 1) <= t < 2 ^ e) by (unfold e; replace (Z.log2 t + 1 - 1) with (Z.log2 t) by lia; pose proof (Z.log2_spec t ltac:(lia)); lia).
  assert (L13 : 13 <= Z.log2 t) by (change 13 with (Z.log2 (2 ^ 13)); apply Z.log2_le_mono; lia).
  assert (L41 : Z.log2 t < 41) by (apply Z.log2_lt_pow2; lia).
  assert (Mg : forall y, (IZR t <= y < IZR t + 1)%R -> mag radix2 y = e :> Z).
  { intros y Hy. assert (Pt : (8192 <= IZR t)%R) by (apply IZR_le; lia). apply mag_unique. rewrite Rabs_right by lra. rewrite <- !IZR_Zpower by lia. change (radix_val radix2) with 2. assert (A1 : (IZR (2 ^ (e - 1)) <= IZR t)%R) by (apply IZR_le; lia). assert (A2 : (IZR t + 1 <= IZR (2 ^ e))%R) by (rewrite <- plus_IZR; apply IZR_le; lia). lra. }
  assert (C : forall y, (IZR t <= y < IZR t + 1)%R -> cexp radix2 b64e y = e - 53).
  { intros y Hy. unfold cexp. rewrite (Mg y Hy). unfold SpecFloat.fexp, SpecFloat.emin. lia. }
  unfold round, scaled_mantissa. rewrite (C X HX), (C Y HY). f_equal. f_equal. set (q := 53 - e). replace (- (e - 53)) with q by (unfold q; lia). assert (Hq : 12 <= q <= 39) by (unfold q, e; lia).
  symmetry. apply Znearest_imp. set (ch := fun x => negb (Z.even x)). set (n := Znearest ch (X * bpow radix2 q)).
  pose proof (Znearest_half ch (X * bpow radix2 q)) as Hh. fold n in Hh.
  assert (Eq : (X * bpow radix2 q - IZR n = IZR (N * 2 ^ q - n * 1000000) / 1000000)%R) by (rewrite minus_IZR, !mult_IZR, <- IZR_Zpower by lia; unfold X; change (radix_val radix2) with 2; field).
  assert (D : exists k, N * 2 ^ q - n * 1000000 = 64 * k). { exists (N * 2 ^ (q - 6) - n * 15625). replace q with (6 + (q - 6)) at 1 by lia. rewrite Z.pow_add_r by lia. change (2 ^ 6) with 64. ring. }
  destruct D as [k Ek]. rewrite Ek in Eq.
  assert (Bk : - 499968 <= 64 * k <= 499968).
  { assert (B1 : - 500000 <= 64 * k <= 500000).
    { assert (Hh' : (Rabs (IZR (64 * k) / 1000000) <= / 2)%R) by (rewrite <- Eq; exact Hh). apply Rabs_le_inv in Hh'. split; apply le_IZR; lra. }
    lia. }
  assert (B2 : (-499968 <= IZR (64 * k) <= 499968)%R) by (split; apply IZR_le; lia).
  replace (Y * bpow radix2 q - IZR n)%R with ((X * bpow radix2 q - IZR n) + (Y - X) * bpow radix2 q)%R by ring. rewrite Eq.
  assert (B3 : (Rabs ((Y - X) * bpow radix2 q) <= / 32768)%R).
  { rewrite Rabs_mult, (Rabs_right (bpow radix2 q)) by (apply Rle_ge, bpow_ge_0). apply Rle_trans with (bpow radix2 (-54) * bpow radix2 q)%R; [apply Rmult_le_compat_r; [apply bpow_ge_0|exact HE]|]. rewrite <- bpow_plus. change (/ 32768)%R with (bpow radix2 (-15)). apply bpow_le. lia. }
  apply Rabs_le_inv in B3. apply Rabs_def1; lra.
Qed.
(** specification or proof device; models no code of its own *)
Definition far (us : Z) : Prop := 8192 * 10 ^ 6 <= Z.abs us.
Lemma naive_same us : far us -> Z.abs us < 10 ^ 18 -> ms_naive us = ms_real us.
Proof.
  intros F B. unfold far in F. unfold ms_naive, ms_real. f_equal. f_equal. pose proof (exact_split us) as X. destruct (frac_rnd us) as [G1 G2].
  pose proof (Z.div_mod us 1000000 ltac:(lia)) as D. pose proof (Z.mod_pos_bound us 1000000 ltac:(lia)) as M. set (s := us / 1000000) in *. set (m := us mod 1000000) in *. set (g := rnd (IZR m / 1000000)) in *.
  destruct (Z.eq_dec m 0) as [E|E].
  - unfold g. rewrite X, E. unfold Rdiv. rewrite Rmult_0_l, round_0 by auto with typeclass_instances. reflexivity.
  - assert (M1 : (1 <= IZR m <= 999999)%R) by (split; apply IZR_le; lia).
    assert (G : (0 < g < 1)%R) by (apply Rabs_le_inv in G2; change (bpow radix2 (-54)) with (/ 18014398509481984)%R in G2; lra).
    assert (Ee : (IZR s + g - IZR us / 1000000 = g - IZR m / 1000000)%R) by (rewrite X; ring).
    destruct (Z.le_gt_cases 0 us) as [L|L].
    + symmetry. apply (round_close us s); [lia|rewrite X; lra|lra|rewrite Ee; exact G2].
    + assert (Hs : forall x, rnd (- x) = (- rnd x)%R) by (intro x; apply (round_NE_opp radix2 b64e x)).
      assert (Ro : forall a b : R, (- a = - b)%R -> a = b) by (intros a b0 Hab; lra). apply Ro. rewrite <- !Hs. replace (- (IZR us / 1000000))%R with (IZR (- us) / 1000000)%R by (rewrite opp_IZR; field). symmetry.
      assert (T : IZR (- s - 1) = (- IZR s - 1)%R) by (rewrite minus_IZR, opp_IZR; reflexivity).
      assert (U : (IZR (- us) / 1000000 = - IZR s - IZR m / 1000000)%R) by (rewrite opp_IZR; replace (- IZR us / 1000000)%R with (- (IZR us / 1000000))%R by field; rewrite X; ring).
      apply (round_close (- us) (- s - 1)); [lia|rewrite T, U; lra|rewrite T; lra|]. rewrite U. replace (- (IZR s + g) - (- IZR s - IZR m / 1000000))%R with (- (g - IZR m / 1000000))%R by ring. rewrite Rabs_Ropp. exact G2.
Qed.
Theorem naive_aware us : far us -> Z.abs us < 10 ^ 18 -> ts_naive us = ts_of_us us.
Proof. intros F B. rewrite (naive_real us B), ts_real by (pose proof (pow_le 60 900 ltac:(lia)); lia). rewrite (naive_same us F B). reflexivity. Qed.
(** a whole number of seconds: no rounding in the sum *)
Theorem naive_whole us : us mod 1000000 = 0 -> Z.abs us < 10 ^ 18 -> ts_naive us = ts_of_us us.
Proof.
  intros E B. rewrite (naive_real us B), ts_real by (pose proof (pow_le 60 900 ltac:(lia)); lia). unfold ms_naive, ms_real. rewrite (exact_split us), E. replace (0 / 1000000)%R with 0%R by (unfold Rdiv; ring). rewrite round_0 by auto with typeclass_instances. reflexivity.
Qed.

(** ** What both kinds have in common *)
Definition kind_ms (naive : bool) (us : Z) : R := if naive then ms_naive us else ms_real us.
(** specification or proof device; models no code of its own *)
Definition kind_ts (naive : bool) (us : Z) : Z := if naive then ts_naive us else ts_of_us us.
Lemma kind_real n us : Z.abs us < 10 ^ 18 -> kind_ts n us = Ztrunc (kind_ms n us).
Proof. intro B. destruct n; [apply naive_real, B|apply ts_real; pose proof (pow_le 60 900 ltac:(lia)); lia]. Qed.
Lemma kind_err n us k : Z.abs us <= 10 ^ 6 * (2 ^ k - 1) -> 1 <= k <= 41 -> (Rabs (kind_ms n us - IZR us / 1000) <= 1000 * bpow radix2 (k - 54) + bpow radix2 (k + 10 - 54) + 1000 * bpow radix2 (-54))%R.
Proof. intros H Hk. destruct n; [apply naive_err; assumption|]. pose proof (ms_err us k ltac:(lia) ltac:(lia)). pose proof (bpow_gt_0 radix2 (-54)). unfold kind_ms. lra. Qed.
Lemma kind_zero n : kind_ms n 0 = 0%R.
Proof. destruct n; [apply naive_zero|]. unfold kind_ms, ms_real, Rdiv. rewrite Rmult_0_l, round_0, Rmult_0_l, round_0 by auto with typeclass_instances. reflexivity. Qed.
Lemma kind_mono n a b : a <= b -> (kind_ms n a <= kind_ms n b)%R.
Proof. destruct n; [apply naive_mono|apply ms_mono]. Qed.
Lemma near_gen x us : 0 <= us -> (0 <= x)%R -> (Rabs (x - IZR us / 1000) < / 1000)%R ->
  (us mod 1000 <> 0 -> Ztrunc x = us / 1000) /\ us / 1000 - 1 <= Ztrunc x <= us / 1000.
Proof.
  intros H Hx E. rewrite Ztrunc_floor by exact Hx. apply Rabs_def2 in E. destruct E as [E2 E1].
  pose proof (Z.div_mod us 1000 ltac:(lia)) as D. pose proof (Z.mod_pos_bound us 1000 ltac:(lia)) as B. set (q := us / 1000) in *. set (k := us mod 1000) in *.
  assert (Ex : (IZR us / 1000 = IZR q + IZR k / 1000)%R) by (rewrite D, plus_IZR, mult_IZR; field). rewrite Ex in *.
  assert (Fl : forall z, (IZR z <= x < IZR z + 1)%R -> Zfloor x = z) by (intros z Hz; apply Zfloor_imp; rewrite plus_IZR; exact Hz).
  destruct (Z.eq_dec k 0) as [Ek|Ek].
  - split; [contradiction|]. rewrite Ek in *. destruct (Rle_dec (IZR q) x) as [L|L].
    + rewrite (Fl q); [lia|]. lra.
    + rewrite (Fl (q - 1)); [lia|]. rewrite minus_IZR. lra.
  - assert (K1 : (1 <= IZR k)%R) by (apply IZR_le; lia). assert (K2 : (IZR k <= 999)%R) by (apply IZR_le; lia).
    rewrite (Fl q) by lra. split; [reflexivity|lia].
Qed.
Lemma kind_abs n us : exists x, (0 <= x)%R /\ (Rabs (x - IZR (Z.abs us) / 1000) = Rabs (kind_ms n us - IZR us / 1000))%R /\ (0 <= us -> x = kind_ms n us) /\ (us <= 0 -> x = (- kind_ms n us)%R).
Proof.
  destruct (Z.le_gt_cases 0 us) as [L|L].
  - exists (kind_ms n us). rewrite Z.abs_eq by exact L. pose proof (kind_mono n 0 us L) as M. rewrite kind_zero in M. split; [exact M|]. split; [reflexivity|]. split; [reflexivity|]. intro H. assert (us = 0) by lia. subst us. rewrite kind_zero. ring.
  - exists (- kind_ms n us)%R. rewrite Z.abs_neq by lia. pose proof (kind_mono n us 0 ltac:(lia)) as M. rewrite kind_zero in M. split; [lra|]. split; [|split; [lia|reflexivity]]. rewrite opp_IZR. replace (- kind_ms n us - - IZR us / 1000)%R with (- (kind_ms n us - IZR us / 1000))%R by field. apply Rabs_Ropp.
Qed.
Lemma near_err n us : Z.abs us < 10 ^ 6 * 2 ^ 32 -> (Rabs (kind_ms n us - IZR us / 1000) < / 1000)%R.
Proof.
  intro H. pose proof (kind_err n us 33 ltac:(lia) ltac:(lia)) as E. change (bpow radix2 (33 - 54)) with (/ 2097152)%R in E. change (bpow radix2 (33 + 10 - 54)) with (/ 2048)%R in E. change (bpow radix2 (-54)) with (/ 18014398509481984)%R in E. lra.
Qed.
(** Within 2^32 seconds of the epoch (1833-2106): exact, unless the moment is a whole number of milliseconds. *)
Theorem kind_near n us : Z.abs us < 10 ^ 6 * 2 ^ 32 ->
  (us mod 1000 <> 0 -> kind_ts n us = Z.quot us 1000) /\
  (0 <= us -> kind_ts n us = us / 1000 \/ kind_ts n us = us / 1000 - 1) /\
  (us <= 0 -> kind_ts n us = Z.quot us 1000 \/ kind_ts n us = Z.quot us 1000 + 1).
Proof.
  intro H. destruct (kind_abs n us) as (x & X0 & XE & Xp & Xn). pose proof (near_err n us H) as E. rewrite <- XE in E. rewrite kind_real by lia. destruct (near_gen x (Z.abs us) (Z.abs_nonneg us) X0 E) as [N1 N2].
  assert (Dv : us mod 1000 <> 0 -> Z.abs us mod 1000 <> 0) by (intros Hm K; apply Hm; apply Z.mod_divide; [lia|]; apply Z.mod_divide in K; [|lia]; apply Z.divide_abs_r; exact K).
  destruct (Z.le_gt_cases 0 us) as [L|L].
  - rewrite (Xp L) in N1, N2. rewrite Z.abs_eq in * by exact L. rewrite Z.quot_div_nonneg by lia. split; [exact N1|]. split; intro Hs; [lia|]. assert (us = 0) by lia. subst us. rewrite kind_zero. rewrite (Ztrunc_IZR 0). left. reflexivity.
  - rewrite (Xn ltac:(lia)), Ztrunc_opp in N1, N2. rewrite Z.abs_neq in * by lia. assert (Q : Z.quot us 1000 = - (- us / 1000)) by (replace us with (- - us) at 1 by lia; rewrite Z.quot_opp_l by lia; rewrite Z.quot_div_nonneg by lia; reflexivity). rewrite Q. split; [intro Hm; specialize (N1 (Dv Hm)); lia|]. split; intro; lia.
Qed.
Theorem kind_far n us : Z.abs us < 10 ^ 18 -> Z.abs (kind_ts n us - Z.quot us 1000) <= 1.
Proof.
  intro H. destruct (kind_abs n us) as (x & X0 & XE & Xp & Xn). pose proof (kind_err n us 40 ltac:(lia) ltac:(lia)) as E. rewrite <- XE in E. change (bpow radix2 (40 - 54)) with (/ 16384)%R in E. change (bpow radix2 (40 + 10 - 54)) with (/ 16)%R in E. change (bpow radix2 (-54)) with (/ 18014398509481984)%R in E. apply Rabs_le_inv in E. rewrite kind_real by lia.
  assert (F : Z.abs us / 1000 - 1 <= Ztrunc x <= Z.abs us / 1000 + 1).
  { rewrite Ztrunc_floor by exact X0. set (a := Z.abs us) in *. pose proof (Z.div_mod a 1000 ltac:(lia)) as D. pose proof (Z.mod_pos_bound a 1000 ltac:(lia)) as B. set (q := a / 1000) in *. set (k := a mod 1000) in *.
    assert (Ex : (IZR a / 1000 = IZR q + IZR k / 1000)%R) by (rewrite D, plus_IZR, mult_IZR; field). rewrite Ex in E.
    assert (K1 : (0 <= IZR k)%R) by (apply IZR_le; lia). assert (K2 : (IZR k <= 999)%R) by (apply IZR_le; lia).
    pose proof (Zfloor_lb x) as L1. pose proof (Zfloor_ub x) as L2. set (z := Zfloor x) in *. split; apply Z.lt_succ_r, lt_IZR; unfold Z.succ; rewrite ?plus_IZR, ?minus_IZR; lra. }
  destruct (Z.le_gt_cases 0 us) as [L|L].
  - rewrite (Xp L) in F. rewrite Z.abs_eq in F by exact L. rewrite Z.quot_div_nonneg by lia. lia.
  - rewrite (Xn ltac:(lia)), Ztrunc_opp in F. rewrite (Z.abs_neq us) in F by lia. assert (Q : Z.quot us 1000 = - (- us / 1000)) by (replace us with (- - us) at 1 by lia; rewrite Z.quot_opp_l by lia; rewrite Z.quot_div_nonneg by lia; reflexivity). rewrite Q. lia.
Qed.
(** an earlier moment of any kind does not get a later timestamp *)
Theorem kind_order n p a b : Z.abs a < 10 ^ 18 -> Z.abs b < 10 ^ 18 -> a < b \/ a = b /\ (n = p \/ far a \/ a mod 1000000 = 0) -> kind_ts n a <= kind_ts p b.
Proof.
  intros Ba Bb H. assert (Same : forall us, Z.abs us < 10 ^ 18 -> far us \/ us mod 1000000 = 0 -> forall i j, kind_ts i us = kind_ts j us).
  { intros us B F. assert (E : ts_naive us = ts_of_us us) by (destruct F as [F|F]; [apply naive_aware|apply naive_whole]; assumption). intros [|] [|]; cbn [kind_ts]; congruence. }
  assert (Mono : forall i x y, Z.abs x < 10 ^ 18 -> Z.abs y < 10 ^ 18 -> x <= y -> kind_ts i x <= kind_ts i y) by (intros i x y Hx Hy L; rewrite !kind_real by assumption; apply Ztrunc_le, kind_mono, L).
  destruct H as [H|[H [->|F]]]; [|subst; lia|subst; rewrite (Same b Bb F n p); lia].
  destruct (Z.le_gt_cases (8192 * 10 ^ 6) (Z.abs a)) as [F|F]; [rewrite (Same a Ba (or_introl F) n p); apply Mono; lia|]. destruct (Z.le_gt_cases (8192 * 10 ^ 6) (Z.abs b)) as [G|G]; [rewrite (Same b Bb (or_introl G) p n); apply Mono; lia|].
  rewrite !kind_real by lia. apply Ztrunc_le. pose proof (kind_err n a 14 ltac:(lia) ltac:(lia)) as E1. pose proof (kind_err p b 14 ltac:(lia) ltac:(lia)) as E2. change (bpow radix2 (14 - 54)) with (/ 1099511627776)%R in *. change (bpow radix2 (14 + 10 - 54)) with (/ 1073741824)%R in *. change (bpow radix2 (-54)) with (/ 18014398509481984)%R in *. apply Rabs_le_inv in E1, E2.
  assert (L : (IZR a + 1 <= IZR b)%R) by (rewrite <- plus_IZR; apply IZR_le; lia). lra.
Qed.
