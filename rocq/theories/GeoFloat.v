(** The edge sum of a ring in binary64: how far it is from the exact one (Flocq). *)
From Coq Require Import String Ascii.
From Coq Require Import List ZArith NArith Bool Lia QArith Qabs Qreals Reals Lra Psatz.
From Coq Require Import Floats.SpecFloat.
From Flocq Require Import Core Relative.
From Flocq Require Import IEEE754.BinarySingleNaN.
From Verif Require Import PyVal Time TimeProofs TimeNaive Parser Geo PropsGeo.
Import ListNotations.
Open Scope R_scope.

Definition fin (f : spec_float) : Prop := valid_f f = true /\ is_finite_SF f = true.
(** ** One operation *)
Definition u : R := / 9007199254740992.
(** specification or proof device; models no code of its own *)
Definition eta : R := bpow radix2 (-1075).
Lemma eta_pos : 0 < eta.
Proof. apply bpow_gt_0. Qed.
Lemma eta_small : eta <= / 1048576.
Proof. unfold eta. change (/ 1048576) with (bpow radix2 (-20)). apply bpow_le. lia. Qed.
Lemma u_value : u = bpow radix2 (-53).
Proof. reflexivity. Qed.
Lemma rnd_near x : Rabs (rnd x - x) <= u * Rabs x + eta.
Proof.
  destruct (error_N_FLT radix2 (-1074) 53 ltac:(lia) (fun x => negb (Z.even x)) x) as (e & t & He & Ht & _ & E).
  change (FLT_exp (-1074) 53) with b64e in E. rewrite E. replace (x * (1 + e) + t - x) with (x * e + t) by ring.
  eapply Rle_trans; [apply Rabs_triang|]. rewrite Rabs_mult. replace (/ 2 * bpow radix2 (- (53) + 1)) with u in He by (unfold u; cbn [bpow Z.opp Z.add Z.pos_sub]; change (IZR (Z.pow_pos radix2 52)) with 4503599627370496; lra).
  assert (Ht' : Rabs t <= eta). { unfold eta. replace (bpow radix2 (-1075)) with (/ 2 * bpow radix2 (-1074)); [exact Ht|]. change (/ 2) with (bpow radix2 (-1)). rewrite <- bpow_plus. reflexivity. }
  pose proof (Rabs_pos x). pose proof (Rmult_le_compat_l (Rabs x) _ _ H He). lra.
Qed.
Lemma rnd_small x : Rabs x < 1152921504606846976 -> Rabs (rnd x) < bpow radix2 1024.
Proof. intro H. apply (rnd_lt _ 60); [exact H|lia]. Qed.
Lemma add_near f g : fin f -> fin g -> Rabs (realof f + realof g) < 1152921504606846976 ->
  fin (fadd f g) /\ Rabs (realof (fadd f g) - (realof f + realof g)) <= u * Rabs (realof f + realof g) + eta.
Proof. intros [V F] [V' F'] B. destruct (add_real f g V F V' F' (rnd_small _ B)) as (E & H1 & H2). unfold fadd. rewrite E. split; [split; assumption|apply rnd_near]. Qed.
Lemma opp_valid f : fin f -> fin (SFopp f) /\ realof (SFopp f) = - realof f.
Proof.
  intros [V F]. destruct f as [s|s| |s m e]; try discriminate; cbn [SFopp SF2R].
  - split; [split; reflexivity|lra].
  - split; [split; [exact V|reflexivity]|]. destruct s; cbn [negb cond_Zopp]; [change (Z.pos m) with (- (- Z.pos m))%Z at 1|]; rewrite <- F2R_Zopp; reflexivity.
Qed.
Lemma sub_add f g : fin f -> fin g -> realof (fsub f g) = realof (fadd f (SFopp g)) /\ (fin (fadd f (SFopp g)) -> fin (fsub f g)).
Proof.
  intros [V F] [V' F']. unfold fsub, fadd. destruct f as [s|s| |s m e], g as [t|t| |t n k]; try discriminate; cbn [SFopp SFsub SFadd]; try (split; [reflexivity|auto]).
  replace (cond_Zopp (negb t) (Z.pos (fst (shl_align n k (Z.min e k))))) with (- (cond_Zopp t (Z.pos (fst (shl_align n k (Z.min e k))))))%Z by (destruct t; reflexivity). rewrite Z.add_opp_r. split; [reflexivity|auto].
Qed.
Lemma sub_near f g : fin f -> fin g -> Rabs (realof f - realof g) < 1152921504606846976 ->
  fin (fsub f g) /\ Rabs (realof (fsub f g) - (realof f - realof g)) <= u * Rabs (realof f - realof g) + eta.
Proof.
  intros Hf Hg B. destruct (opp_valid g Hg) as [Ho Eo]. destruct (sub_add f g Hf Hg) as [E1 E2]. destruct (add_near f (SFopp g) Hf Ho) as [A1 A2]; rewrite Eo in *; [exact B|].
  split; [exact (E2 A1)|]. rewrite E1. exact A2.
Qed.
Lemma mul_near f g : fin f -> fin g -> Rabs (realof f * realof g) < 1152921504606846976 ->
  fin (fmul f g) /\ Rabs (realof (fmul f g) - realof f * realof g) <= u * Rabs (realof f * realof g) + eta.
Proof.
  intros [V F] [V' F'] B. pose proof (rnd_small _ B) as L. pose proof (rnd_near (realof f * realof g)) as N. pose proof eta_pos as P.
  assert (Z : forall b, fin (S754_zero b) /\ Rabs (realof (S754_zero b) - 0) <= u * Rabs 0 + eta). { intro b. split; [split; reflexivity|]. cbn [SF2R]. rewrite Rminus_0_r, Rabs_R0. lra. }
  unfold fmul. destruct f as [s|s| |s m e], g as [t|t| |t n k]; try discriminate; cbn [SFmul].
  - change (realof (S754_zero s)) with 0. rewrite Rmult_0_l. apply Z.
  - change (realof (S754_zero s)) with 0. rewrite Rmult_0_l. apply Z.
  - change (realof (S754_zero t)) with 0. rewrite Rmult_0_r. apply Z.
  - rewrite aux_equiv. pose proof (Bmult_correct_aux 53 1024 _ _ mode_NE s m e V t n k V') as H. cbv zeta in H. cbn [round_mode] in H.
    change (F2R (Float radix2 (cond_Zopp s (Z.pos m)) e)) with (realof (S754_finite s m e)) in H. change (F2R (Float radix2 (cond_Zopp t (Z.pos n)) k)) with (realof (S754_finite t n k)) in H.
    rewrite Rlt_bool_true in H by exact L. destruct H as (H1 & H2 & H3 & _). rewrite H2. split; [split; assumption|exact N].
Qed.

(** ** One term *)
Definition near (t : spec_float) (e : R) : Prop := fin t /\ Rabs (realof t - e) <= 4 * u * Rabs e + 1000 * eta /\ Rabs e <= 65536.
Lemma term_near x1 y1 x2 y2 : fin x1 -> fin y1 -> fin x2 -> fin y2 ->
  Rabs (realof x1) <= 180 -> Rabs (realof x2) <= 180 -> Rabs (realof y1) <= 90 -> Rabs (realof y2) <= 90 ->
  near (fmul (fsub x2 x1) (fadd y2 y1)) ((realof x2 - realof x1) * (realof y2 + realof y1)).
Proof.
  intros F1 F2 F3 F4 B1 B2 B3 B4. pose proof eta_pos as P0. pose proof eta_small as P1. assert (U : 0 < u <= / 1000000000) by (unfold u; lra).
  assert (D : Rabs (realof x2 - realof x1) <= 360) by (apply Rabs_le; apply Rabs_le_inv in B1, B2; lra). assert (S : Rabs (realof y2 + realof y1) <= 180) by (apply Rabs_le; apply Rabs_le_inv in B3, B4; lra).
  destruct (sub_near x2 x1 F3 F1 ltac:(lra)) as [Fd Ed]. destruct (add_near y2 y1 F4 F2 ltac:(lra)) as [Fs Es].
  set (d := realof x2 - realof x1) in *. set (s := realof y2 + realof y1) in *. set (d' := realof (fsub x2 x1)) in *. set (s' := realof (fadd y2 y1)) in *.
  pose proof (Rabs_pos d) as Pd. pose proof (Rabs_pos s) as Ps.
  assert (Q : Rabs (d' * s' - d * s) <= Rabs d * (u * Rabs s + eta) + Rabs s * (u * Rabs d + eta) + (u * Rabs d + eta) * (u * Rabs s + eta)).
  { replace (d' * s' - d * s) with (d * (s' - s) + s * (d' - d) + (d' - d) * (s' - s)) by ring. eapply Rle_trans; [apply Rabs_triang|]. apply Rplus_le_compat; [eapply Rle_trans; [apply Rabs_triang|]; apply Rplus_le_compat|]; rewrite Rabs_mult.
    - apply Rmult_le_compat_l; [apply Rabs_pos|exact Es].
    - apply Rmult_le_compat_l; [apply Rabs_pos|exact Ed].
    - apply Rmult_le_compat; [apply Rabs_pos|apply Rabs_pos|exact Ed|exact Es]. }
  set (T := Rabs d * Rabs s) in *. assert (T0 : 0 <= T) by (apply Rmult_le_pos; assumption). assert (T1 : T <= 64800) by (unfold T; apply (Rle_trans _ (360 * 180)); [apply Rmult_le_compat; assumption|lra]).
  assert (M1 : Rabs d * eta <= 360 * eta) by (apply Rmult_le_compat_r; lra). assert (M2 : Rabs s * eta <= 180 * eta) by (apply Rmult_le_compat_r; lra). assert (M3 : eta * eta <= / 1048576 * eta) by (apply Rmult_le_compat_r; lra).
  assert (Q' : Rabs (d' * s' - d * s) <= 2 * u * T + u * u * T + 541 * eta + u * 540 * eta).
  { assert (X : Rabs d * (u * Rabs s + eta) + Rabs s * (u * Rabs d + eta) + (u * Rabs d + eta) * (u * Rabs s + eta) = 2 * u * T + Rabs d * eta + Rabs s * eta + u * u * T + u * (Rabs d * eta) + u * (Rabs s * eta) + eta * eta) by (unfold T; ring).
    rewrite X in Q. assert (Y1 : u * (Rabs d * eta) <= u * (360 * eta)) by (apply Rmult_le_compat_l; lra). assert (Y2 : u * (Rabs s * eta) <= u * (180 * eta)) by (apply Rmult_le_compat_l; lra). lra. }
  assert (Q2 : Rabs (d' * s' - d * s) <= 2.5 * u * T + 550 * eta) by (unfold u in *; lra). clear Q Q'.
  assert (R1 : Rabs (d' * s') <= T + (2.5 * u * T + 550 * eta)). { replace (d' * s') with (d * s + (d' * s' - d * s)) by ring. eapply Rle_trans; [apply Rabs_triang|]. rewrite Rabs_mult. fold T. lra. }
  assert (R2 : Rabs (d' * s') < 1152921504606846976) by (unfold u in *; lra).
  destruct (mul_near _ _ Fd Fs R2) as [Fm Em]. fold d' s' in Em. unfold near. split; [exact Fm|]. rewrite !Rabs_mult. fold T. split; [|lra].
  replace (realof (fmul (fsub x2 x1) (fadd y2 y1)) - d * s) with ((realof (fmul (fsub x2 x1) (fadd y2 y1)) - d' * s') + (d' * s' - d * s)) by ring. eapply Rle_trans; [apply Rabs_triang|]. unfold u in *. lra.
Qed.

(** ** The sum *)
Definition rsum (l : list R) : R := fold_right Rplus 0 l.
(** specification or proof device; models no code of its own *)
Definition asum (l : list R) : R := fold_right (fun x => Rplus (Rabs x)) 0 l.
(** specification or proof device; models no code of its own *)
Definition bound (n A : R) : R := 2 * u * (n + 5) * A + 6000 * n * eta.
(** the running sum after [n] terms, whose absolute values have the sum [A] *)
Definition partial (n A ex : R) (s : spec_float) : Prop := 0 <= n <= 1073741824 /\ 0 <= A <= 65536 * n /\ Rabs ex <= A /\ fin s /\ Rabs (realof s - ex) <= bound n A.
Lemma partial_small n A ex s : partial n A ex s -> bound n A <= / 1000000 * A + / 1000 /\ Rabs (realof s) <= A + bound n A /\ bound n A <= / 1000000 * A + 6000 * 1073741824 * eta.
Proof.
  intros (Hn & HA & He & _ & Hs). pose proof eta_pos as P0. assert (P1 : eta <= / 1267650600228229401496703205376) by (unfold eta; change (/ 1267650600228229401496703205376) with (bpow radix2 (-100)); apply bpow_le; lia).
  assert (X : n * A <= 1073741824 * A) by (apply Rmult_le_compat_r; lra). assert (Y : n * eta <= 1073741824 * eta) by (apply Rmult_le_compat_r; lra).
  assert (E : bound n A = 2 * u * (n * A) + 10 * u * A + 6000 * (n * eta)) by (unfold bound; ring). rewrite E in *. unfold u in *. split; [lra|]. split; [|lra].
  replace (realof s) with (ex + (realof s - ex)) by ring. eapply Rle_trans; [apply Rabs_triang|]. lra.
Qed.
Lemma partial_step n A ex s t e : partial n A ex s -> n + 1 <= 1073741824 -> near t e -> partial (n + 1) (A + Rabs e) (ex + e) (fadd s t).
Proof.
  intros P Hn (Ft & Et & Be). pose proof (partial_small _ _ _ _ P) as (S1 & S2 & S3). destruct P as (Hn0 & HA & He & Fs & Es). pose proof eta_pos as P0. pose proof eta_small as P1. pose proof (Rabs_pos e) as Pe.
  assert (X : n * A <= 1073741824 * A) by (apply Rmult_le_compat_r; lra). assert (Y : n * eta <= 1073741824 * eta) by (apply Rmult_le_compat_r; lra). assert (Y0 : 0 <= n * eta) by (apply Rmult_le_pos; lra).
  assert (Z : 0 <= n * Rabs e) by (apply Rmult_le_pos; lra). assert (X0 : 0 <= n * A) by (apply Rmult_le_pos; lra).
  assert (Rt : Rabs (realof t) <= Rabs e + 4 * u * Rabs e + 1000 * eta). { replace (realof t) with (e + (realof t - e)) by ring. eapply Rle_trans; [apply Rabs_triang|]. lra. }
  assert (R : Rabs (realof s + realof t) <= A + bound n A + (Rabs e + 4 * u * Rabs e + 1000 * eta)) by (eapply Rle_trans; [apply Rabs_triang|]; lra).
  assert (L : Rabs (realof s + realof t) < 1152921504606846976) by (unfold u in *; lra).
  destruct (add_near s t Fs Ft L) as [Fa Ea]. split; [lra|]. split; [lra|]. split; [eapply Rle_trans; [apply Rabs_triang|]; lra|]. split; [exact Fa|].
  replace (realof (fadd s t) - (ex + e)) with ((realof (fadd s t) - (realof s + realof t)) + ((realof s - ex) + (realof t - e))) by ring.
  eapply Rle_trans; [apply Rabs_triang|]. eapply Rle_trans; [apply Rplus_le_compat_l, Rabs_triang|].
  assert (E : bound n A = 2 * u * (n * A) + 10 * u * A + 6000 * (n * eta)) by (unfold bound; ring).
  assert (E' : bound (n + 1) (A + Rabs e) = 2 * u * (n * A) + 2 * u * (n * Rabs e) + 12 * u * A + 12 * u * Rabs e + 6000 * (n * eta) + 6000 * eta) by (unfold bound; ring).
  rewrite E' in *. rewrite E in *. unfold u in *. lra.
Qed.
Lemma left_partial ts es : Forall2 near ts es -> forall n A ex s, partial n A ex s -> n + INR (length ts) <= 1073741824 ->
  partial (n + INR (length ts)) (A + asum es) (ex + rsum es) (fold_left fadd ts s).
Proof.
  induction 1 as [|t e ts es H1 H2 IH]; intros n A ex s P Hn.
  - cbn [length INR asum rsum fold_right fold_left]. rewrite !Rplus_0_r. exact P.
  - change (length (t :: ts)) with (S (length ts)) in *. rewrite S_INR in *. cbn [asum rsum fold_right fold_left]. pose proof (pos_INR (length ts)) as PI.
    replace (n + (INR (length ts) + 1)) with (n + 1 + INR (length ts)) by ring. replace (A + (Rabs e + fold_right (fun x => Rplus (Rabs x)) 0 es)) with (A + Rabs e + asum es) by (unfold asum; ring). replace (ex + (e + fold_right Rplus 0 es)) with (ex + e + rsum es) by (unfold rsum; ring).
    apply IH; [apply partial_step; [exact P|lra|exact H1]|lra].
Qed.
(** the correction stays small *)
Definition small (n A : R) (c : spec_float) : Prop := fin c /\ Rabs (realof c) <= 4 * u * n * A + 10 * n * eta.
Lemma comp_partial n A ex s c t e : partial n A ex s -> small n A c -> n + 1 <= 1073741824 -> near t e ->
  small (n + 1) (A + Rabs e) (snd (comp_step (s, c) t)).
Proof.
  intros P [Fc Ec] Hn N. pose proof (partial_small _ _ _ _ P) as (S1 & S2 & S3). pose proof (partial_step _ _ _ _ _ _ P Hn N) as P'. destruct N as (Ft & Et & Be). destruct P as (Hn0 & HA & He & Fs & Es).
  assert (Fa : fin (fadd s t)) by apply P'. pose proof eta_pos as P0. pose proof eta_small as P1. pose proof (Rabs_pos e) as Pe.
  assert (X : n * A <= 1073741824 * A) by (apply Rmult_le_compat_r; lra). assert (Y : n * eta <= 1073741824 * eta) by (apply Rmult_le_compat_r; lra). assert (Y0 : 0 <= n * eta) by (apply Rmult_le_pos; lra).
  assert (Z : 0 <= n * Rabs e) by (apply Rmult_le_pos; lra). assert (X0 : 0 <= n * A) by (apply Rmult_le_pos; lra).
  assert (Rt : Rabs (realof t) <= Rabs e + 4 * u * Rabs e + 1000 * eta). { replace (realof t) with (e + (realof t - e)) by ring. eapply Rle_trans; [apply Rabs_triang|]. lra. }
  set (W := A + bound n A + (Rabs e + 4 * u * Rabs e + 1000 * eta)).
  assert (R : Rabs (realof s + realof t) <= W) by (eapply Rle_trans; [apply Rabs_triang|]; unfold W; lra).
  assert (L : Rabs (realof s + realof t) < 1152921504606846976) by (unfold W, u in *; lra).
  destruct (add_near s t Fs Ft L) as [_ Ea]. set (a := fadd s t) in *.
  assert (K : forall p q, fin p -> fin q -> (realof p + realof q = realof s + realof t) -> Rabs (realof p) <= W -> Rabs (realof q) <= W -> 
    fin (fadd (fsub p a) q) /\ Rabs (realof (fadd (fsub p a) q)) <= 2.1 * u * W + 4 * eta).
  { intros p q Fp Fq E Bp Bq. 
    assert (W1 : Rabs (realof p - realof a) <= W + u * W + eta). { replace (realof p - realof a) with (- (realof q) + - (realof a - (realof s + realof t))) by (rewrite <- E; ring). eapply Rle_trans; [apply Rabs_triang|]. rewrite !Rabs_Ropp. pose proof (Rmult_le_compat_l u _ _ ltac:(unfold u; lra) R). lra. }
    assert (W2 : Rabs (realof p - realof a) < 1152921504606846976) by (unfold W, u in *; lra).
    destruct (sub_near p a Fp Fa W2) as [Fd Ed].
    assert (W3 : Rabs (realof (fsub p a) + realof q) <= u * W + eta + (u * (W + u * W + eta) + eta)).
    { replace (realof (fsub p a) + realof q) with ((realof (fsub p a) - (realof p - realof a)) + - (realof a - (realof s + realof t))) by (rewrite <- E; ring). eapply Rle_trans; [apply Rabs_triang|]. rewrite Rabs_Ropp. pose proof (Rmult_le_compat_l u _ _ ltac:(unfold u; lra) R). pose proof (Rmult_le_compat_l u _ _ ltac:(unfold u; lra) W1). lra. }
    assert (W4 : Rabs (realof (fsub p a) + realof q) < 1152921504606846976) by (unfold W, u in *; lra).
    destruct (add_near (fsub p a) q Fd Fq W4) as [Fe Ee]. split; [exact Fe|].
    replace (realof (fadd (fsub p a) q)) with ((realof (fadd (fsub p a) q) - (realof (fsub p a) + realof q)) + (realof (fsub p a) + realof q)) by ring. eapply Rle_trans; [apply Rabs_triang|].
    assert (W0 : 0 <= W) by (eapply Rle_trans; [apply Rabs_pos|exact Bp]). clearbody W. unfold u in *. lra. }
  assert (Bt : Rabs (realof t) <= W). { unfold W. assert (0 <= bound n A) by (eapply Rle_trans; [apply Rabs_pos|exact Es]). lra. }
  assert (Bs : Rabs (realof s) <= W). { unfold W, u in *. lra. }
  assert (J : exists v, snd (comp_step (s, c) t) = fadd c v /\ fin v /\ Rabs (realof v) <= 2.1 * u * W + 4 * eta).
  { cbn [comp_step snd]. fold a. destruct (SFleb (SFabs t) (SFabs s)); eexists; (split; [reflexivity|]).
    - apply (K s t Fs Ft eq_refl Bs Bt).
    - apply (K t s Ft Fs (Rplus_comm _ _) Bt Bs). }
  destruct J as (v & -> & Fv & Bv).
  assert (E : bound n A = 2 * u * (n * A) + 10 * u * A + 6000 * (n * eta)) by (unfold bound; ring).
  assert (R1 : Rabs (realof c + realof v) <= 4 * u * n * A + 10 * n * eta + (2.1 * u * W + 4 * eta)) by (eapply Rle_trans; [apply Rabs_triang|]; lra).
  assert (Q1 : 4 * u * n * A = 4 * u * (n * A)) by ring. assert (Q2 : 10 * n * eta = 10 * (n * eta)) by ring. rewrite Q1, Q2 in *.
  assert (W5 : W <= 1.001 * A + 1.001 * Rabs e + 7000000000000 * eta) by (unfold W, u in *; lra). assert (W0 : 0 <= W) by (eapply Rle_trans; [apply Rabs_pos|exact Bt]). clearbody W.
  assert (R2 : Rabs (realof c + realof v) < 1152921504606846976) by (unfold u in *; lra).
  destruct (add_near c v Fc Fv R2) as [Fr Er]. split; [exact Fr|].
  replace (realof (fadd c v)) with ((realof (fadd c v) - (realof c + realof v)) + (realof c + realof v)) by ring. eapply Rle_trans; [apply Rabs_triang|].
  assert (E' : 4 * u * (n + 1) * (A + Rabs e) + 10 * (n + 1) * eta = 4 * u * (n * A) + 4 * u * (n * Rabs e) + 4 * u * A + 4 * u * Rabs e + 10 * (n * eta) + 10 * eta) by ring.
  rewrite E'. unfold u in *. lra.
Qed.
Lemma comp_fold ts es : Forall2 near ts es -> forall n A ex s c, partial n A ex s -> small n A c -> n + INR (length ts) <= 1073741824 ->
  partial (n + INR (length ts)) (A + asum es) (ex + rsum es) (fst (fold_left comp_step ts (s, c)))
  /\ small (n + INR (length ts)) (A + asum es) (snd (fold_left comp_step ts (s, c))).
Proof.
  induction 1 as [|t e ts es H1 H2 IH]; intros n A ex s c P C Hn.
  - cbn [length INR asum rsum fold_right fold_left fst snd]. rewrite !Rplus_0_r. split; assumption.
  - change (length (t :: ts)) with (S (length ts)) in *. rewrite S_INR in *. pose proof (pos_INR (length ts)) as PI.
    change (fold_left comp_step (t :: ts) (s, c)) with (fold_left comp_step ts (comp_step (s, c) t)). rewrite (surjective_pairing (comp_step (s, c) t)). change (fst (comp_step (s, c) t)) with (fadd s t).
    cbn [asum rsum fold_right].
    replace (n + (INR (length ts) + 1)) with (n + 1 + INR (length ts)) by ring. replace (A + (Rabs e + fold_right (fun x => Rplus (Rabs x)) 0 es)) with (A + Rabs e + asum es) by (unfold asum; ring). replace (ex + (e + fold_right Rplus 0 es)) with (ex + e + rsum es) by (unfold rsum; ring).
    apply IH; [apply partial_step; [exact P|lra|exact H1]|apply (comp_partial n A ex s c t e P C); [lra|exact H1]|lra].
Qed.
(** specification or proof device; models no code of its own *)
Definition margin (n A : R) : R := u * (6 * n + 12) * A + 10000 * (n + 1) * eta.
(** specification or proof device; models no code of its own *)
Definition sum_near (r : spec_float) (es : list R) : Prop := fin r /\ Rabs (realof r - rsum es) <= margin (INR (length es)) (asum es).
Lemma partial_start : partial 0 0 0 fzero.
Proof. unfold partial, bound. change (realof fzero) with 0. rewrite Rminus_0_r, Rabs_R0. split; [lra|]. split; [lra|]. split; [lra|]. split; [split; reflexivity|]. pose proof eta_pos. lra. Qed.
Lemma Forall2_len {A B} (P : A -> B -> Prop) l m : Forall2 P l m -> length l = length m.
Proof. induction 1; cbn; congruence. Qed.
Lemma sum_left_near ts es : Forall2 near ts es -> INR (length es) <= 1073741824 -> sum_near (sum_left ts) es.
Proof.
  intros H Hn. pose proof (left_partial ts es H 0 0 0 fzero partial_start) as P. rewrite (Forall2_len _ _ _ H) in P. rewrite !Rplus_0_l in P. specialize (P Hn).
  destruct P as (H1 & H2 & H3 & H4 & H5). split; [exact H4|]. eapply Rle_trans; [exact H5|]. unfold bound, margin. set (n := INR (length es)) in *. set (A := asum es) in *.
  assert (0 <= n * A) by (apply Rmult_le_pos; lra). pose proof eta_pos as P0. assert (0 <= n * eta) by (apply Rmult_le_pos; lra). assert (0 <= A) by lra. clearbody n A. clear - H H0 H6 H7 P0.
  replace (2 * u * (n + 5) * A + 6000 * n * eta) with (2 * u * (n * A) + 10 * u * A + 6000 * (n * eta)) by ring. replace (u * (6 * n + 12) * A + 10000 * (n + 1) * eta) with (6 * u * (n * A) + 12 * u * A + 10000 * (n * eta) + 10000 * eta) by ring. unfold u. lra.
Qed.
Lemma sum_comp_near ts es : Forall2 near ts es -> INR (length es) <= 1073741824 -> sum_near (sum_comp ts) es.
Proof.
  intros H Hn. pose proof (sum_left_near ts es H Hn) as SL.
  assert (C0 : small 0 0 fzero). { split; [split; reflexivity|]. change (realof fzero) with 0. rewrite Rabs_R0. lra. }
  pose proof (comp_fold ts es H 0 0 0 fzero fzero partial_start C0) as P. rewrite (Forall2_len _ _ _ H) in P. rewrite !Rplus_0_l in P. specialize (P Hn). destruct P as [P [Fc Ec]].
  pose proof (partial_small _ _ _ _ P) as (S1 & S2 & S3).
  unfold sum_comp. destruct (fold_left comp_step ts (fzero, fzero)) as [s c]. cbn [fst snd] in *. destruct P as (H1 & H2 & H3 & H4 & H5). set (n := INR (length es)) in *. set (A := asum es) in *.
  pose proof eta_pos as P0. assert (X0 : 0 <= n * A) by (apply Rmult_le_pos; lra). assert (Y0 : 0 <= n * eta) by (apply Rmult_le_pos; lra).
  assert (X : n * A <= 1073741824 * A) by (apply Rmult_le_compat_r; lra). assert (Y : n * eta <= 1073741824 * eta) by (apply Rmult_le_compat_r; lra). pose proof eta_small as P1.
  assert (E : bound n A = 2 * u * (n * A) + 10 * u * A + 6000 * (n * eta)) by (unfold bound; ring).
  assert (Q1 : 4 * u * n * A + 10 * n * eta = 4 * u * (n * A) + 10 * (n * eta)) by ring. rewrite Q1 in Ec.
  assert (Q2 : margin n A = 6 * u * (n * A) + 12 * u * A + 10000 * (n * eta) + 10000 * eta) by (unfold margin; ring).
  assert (Done : sum_near s es). { split; [exact H4|]. eapply Rle_trans; [exact H5|]. fold n A. rewrite Q2, E. unfold u. lra. }
  assert (R : Rabs (realof s + realof c) <= A + bound n A + (4 * u * (n * A) + 10 * (n * eta))) by (eapply Rle_trans; [apply Rabs_triang|]; lra).
  assert (L : Rabs (realof s + realof c) < 1152921504606846976) by (unfold u in *; lra).
  destruct (add_near s c H4 Fc L) as [Fr Er].
  destruct c as [b|b| |b m k]; try exact Done. split; [exact Fr|]. fold n A. set (c := S754_finite b m k) in *.
  replace (realof (fadd s c) - rsum es) with ((realof (fadd s c) - (realof s + realof c)) + ((realof s - rsum es) + realof c)) by ring. eapply Rle_trans; [apply Rabs_triang|]. eapply Rle_trans; [apply Rplus_le_compat_l, Rabs_triang|].
  rewrite Q2. rewrite E in *. unfold u in *. lra.
Qed.

(** ** The exact numbers *)
Lemma Q2R_int z : Q2R (inject_Z z) = IZR z.
Proof. unfold Q2R, inject_Z. cbn [Qnum Qden]. lra. Qed.
Lemma Q2R_pow e : Q2R (2 ^ e)%Q = bpow radix2 e.
Proof.
  assert (P : forall p, Q2R (2 ^ Zpos p)%Q = bpow radix2 (Zpos p)).
  { intro p. assert (E : (2 ^ Zpos p == inject_Z (2 ^ Zpos p))%Q) by (symmetry; apply (Qpower.Zpower_Qpower 2 (Zpos p)); lia). rewrite (Qeq_eqR _ _ E), Q2R_int. reflexivity. }
  destruct e as [|p|p].
  - cbn. unfold Q2R. cbn. lra.
  - apply P.
  - change (2 ^ Z.neg p)%Q with (/ (2 ^ Zpos p))%Q. rewrite Q2R_inv; [rewrite P; reflexivity|]. intro Z. apply Qeq_eqR in Z. rewrite P in Z. unfold Q2R in Z. cbn [Qnum Qden] in Z. pose proof (bpow_gt_0 radix2 (Zpos p)). lra.
Qed.
Lemma q_real x : is_finite_SF x = true -> Q2R (q_of x) = realof x.
Proof.
  destruct x as [s|s| |s m e]; try discriminate; intros _; cbn [q_of SF2R].
  - unfold Q2R. cbn. lra.
  - rewrite Q2R_mult, Q2R_int, Q2R_pow. unfold F2R. cbn [Fnum Fexp]. destruct s; reflexivity.
Qed.
Lemma Q2R_abs q : Q2R (Qabs q) = Rabs (Q2R q).
Proof.
  apply Qabs_case; intro H; apply Qle_Rle in H; replace (Q2R 0) with 0 in H by (unfold Q2R; cbn; lra).
  - rewrite Rabs_right; [reflexivity|lra].
  - rewrite Q2R_opp, Rabs_left1; [reflexivity|lra].
Qed.
Lemma Q2R_0 : Q2R 0 = 0.
Proof. unfold Q2R. cbn. lra. Qed.
