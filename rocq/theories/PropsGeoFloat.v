(** C59 for the floats the code works with: the orientation of every ring that is clearly wound is found. *)
From Coq Require Import String Ascii.
From Coq Require Import List ZArith NArith Bool Lia QArith Qabs Qreals Reals Lra Psatz.
From Coq Require Import Floats.SpecFloat.
From Flocq Require Import Core.
From Flocq Require Import IEEE754.BinarySingleNaN.
From Verif Require Import PyVal Time TimeProofs TimeNaive Parser Geo PropsGeo GeoFloat.
Import ListNotations.
Open Scope Q_scope.

(** The vertices of a ring as floats, the exact points they stand for, and the ring as shapely gives it. *)
Definition vertex : Type := spec_float * spec_float.
Definition exactly (p : vertex) : Q * Q := (q_of (fst p), q_of (snd p)).
Definition fring (vs : list vertex) : list (pt spec_float) := match vs with [] => [] | v :: _ => map (fun p => (fst p, snd p, [])) (vs ++ [v]) end.
(** a binary64 number, not infinite and not NaN *)
Definition is_number (x : spec_float) : Prop := SpecFloat.valid_binary 53 1024 x = true /\ match x with S754_zero _ | S754_finite _ _ _ => True | _ => False end.
Definition on_earth (p : vertex) : Prop := is_number (fst p) /\ is_number (snd p) /\ -180 <= q_of (fst p) <= 180 /\ -90 <= q_of (snd p) <= 90.
(** Twice the area differs from 0 by more than rounding: [n] vertices, 3(n+2) units of 2^-52 of the areas between the edges and the
    equator. *)
Definition under (p q : Q * Q) : Q := Qabs ((fst q - fst p) * (snd q + snd p)).
Definition clearly_wound (vs : list (Q * Q)) : Prop :=
  3 * (inject_Z (Z.of_nat (length vs)) + 2) * (1 # 2 ^ 52) * around under vs + (1 # 2 ^ 1000) < Qabs (signed_area2 vs).

Lemma number_fin x : is_number x -> fin x.
Proof. intros [V F]. split; [exact V|]. destruct x; try destruct F; reflexivity. Qed.
Lemma range_real x b : is_number x -> - inject_Z b <= q_of x <= inject_Z b -> (Rabs (realof x) <= IZR b)%R.
Proof.
  intros N [L U]. apply number_fin in N. apply Qle_Rle in L, U. rewrite Q2R_opp in L. rewrite Q2R_int in L, U. rewrite q_real in L, U by apply N. apply Rabs_le. lra.
Qed.
Lemma terms_near l : (forall p, In p l -> on_earth p) -> exists ts es,
  edge_terms fadd fsub fmul (map (fun p : vertex => (fst p, snd p, [])) l) = Some ts /\ Forall2 near ts es
  /\ rsum es = Q2R (pairs edge (map exactly l)) /\ asum es = Q2R (pairs under (map exactly l)) /\ length es = Nat.pred (length l).
Proof.
  induction l as [|p l IH]; intro H.
  - exists [], []. repeat split; try constructor; symmetry; apply Q2R_0.
  - destruct l as [|q l]; [exists [], []; repeat split; try constructor; symmetry; apply Q2R_0|].
    destruct IH as (ts & es & E & N & S & A & L); [intros r Hr; apply H; right; exact Hr|].
    destruct (H p (or_introl eq_refl)) as (P1 & P2 & P3 & P4). destruct (H q (or_intror (or_introl eq_refl))) as (Q1 & Q2 & Q3 & Q4).
    exists (fmul (fsub (fst q) (fst p)) (fadd (snd q) (snd p)) :: ts), (((realof (fst q) - realof (fst p)) * (realof (snd q) + realof (snd p)))%R :: es).
    assert (X : Q2R (edge (exactly p) (exactly q)) = ((realof (fst q) - realof (fst p)) * (realof (snd q) + realof (snd p)))%R).
    { unfold edge, exactly. cbn [fst snd]. rewrite Q2R_mult, Q2R_minus, Q2R_plus, !q_real by (apply number_fin; assumption). reflexivity. }
    split; [|split; [|split; [|split]]].
    + change (option_map (cons (fmul (fsub (fst q) (fst p)) (fadd (snd q) (snd p)))) (edge_terms fadd fsub fmul (map (fun p : vertex => (fst p, snd p, [])) (q :: l))) = Some (fmul (fsub (fst q) (fst p)) (fadd (snd q) (snd p)) :: ts)). rewrite E. reflexivity.
    + constructor; [|exact N]. apply term_near; try (apply number_fin; assumption); [apply (range_real _ 180)|apply (range_real _ 180)|apply (range_real _ 90)|apply (range_real _ 90)]; assumption.
    + change (pairs edge (map exactly (p :: q :: l))) with (edge (exactly p) (exactly q) + pairs edge (map exactly (q :: l))). rewrite Q2R_plus, <- S, X. reflexivity.
    + change (pairs under (map exactly (p :: q :: l))) with (Qabs (edge (exactly p) (exactly q)) + pairs under (map exactly (q :: l))). rewrite Q2R_plus, <- A, Q2R_abs, X. reflexivity.
    + cbn [length Nat.pred] in *. congruence.
Qed.
Lemma tail_small (n : R) : (0 <= n <= 1073741824 -> 10000 * (n + 1) * eta <= Q2R (1 # 2 ^ 1000))%R.
Proof.
  intro H. assert (E : Q2R (1 # 2 ^ 1000) = bpow radix2 (-1000)). { unfold Q2R. cbn [Qnum Qden]. rewrite Rmult_1_l. reflexivity. }
  rewrite E. assert (X : (10000 * (n + 1) <= bpow radix2 75)%R). { change (bpow radix2 75) with 37778931862957161709568%R. lra. }
  assert (Y : (bpow radix2 (-1000) = bpow radix2 75 * eta)%R) by (unfold eta; rewrite <- bpow_plus; reflexivity). rewrite Y. apply Rmult_le_compat_r; [left; apply eta_pos|exact X].
Qed.
(** the sign of the float sum of a ring is that of the exact sum *)
Lemma ring_sign (vs : list vertex) : (forall p, In p vs -> on_earth p) -> (Z.of_nat (length vs) <= 2 ^ 30)%Z -> clearly_wound (map exactly vs) ->
  forall total, total = sum_left \/ total = sum_comp -> exists s, edge_sum total fadd fsub fmul (fring vs) = Some s /\ fin s
  /\ ((ccw (map exactly vs) /\ (realof s < 0)%R) \/ (~ ccw (map exactly vs) /\ (0 < realof s)%R)).
Proof.
  intros H Hn C total Ht. destruct vs as [|v vs]; [exfalso; vm_compute in C; discriminate|].
  destruct (terms_near ((v :: vs) ++ [v])) as (ts & es & E & N & S & A & L).
  { intros p K. apply in_app_or in K. destruct K as [K|[<-|[]]]; [apply H, K|apply H; left; reflexivity]. }
  assert (Ln : length es = length (v :: vs)) by (rewrite L, app_length; cbn [length]; lia).
  assert (Ei : INR (length es) = IZR (Z.of_nat (length (v :: vs)))) by (rewrite Ln; apply INR_IZR_INZ).
  assert (Bn : (INR (length es) <= 1073741824)%R) by (rewrite Ei; apply IZR_le; exact Hn).
  assert (K : sum_near (total ts) es) by (destruct Ht as [->| ->]; [apply sum_left_near|apply sum_comp_near]; assumption).
  destruct K as [F K]. exists (total ts). split; [exact (f_equal (option_map total) E)|]. split; [exact F|].
  set (qs := map exactly (v :: vs)) in *. assert (Eq : map exactly ((v :: vs) ++ [v]) = qs ++ [exactly v]) by (rewrite map_app; reflexivity).
  assert (S' : rsum es = Q2R (around edge qs)) by (rewrite S, Eq; reflexivity). assert (A' : asum es = Q2R (around under qs)) by (rewrite A, Eq; reflexivity).
  assert (S2 : rsum es = (- Q2R (signed_area2 qs))%R). { rewrite S', <- Q2R_opp. apply Qeq_eqR. apply edge_cross. }
  unfold clearly_wound in C. apply Qlt_Rlt in C. rewrite Q2R_plus, !Q2R_mult, Q2R_plus, Q2R_int, Q2R_abs, <- A' in C.
  assert (Lq : length qs = length (v :: vs)) by apply map_length. rewrite Lq, <- Ei in C.
  pose proof (tail_small (INR (length es)) (conj (pos_INR _) Bn)) as Tl. assert (Ma : (margin (INR (length es)) (asum es) < Rabs (Q2R (signed_area2 qs)))%R).
  { eapply Rle_lt_trans; [|exact C]. unfold margin. apply Rplus_le_compat; [|exact Tl]. apply Req_le. unfold Q2R. cbn [Qnum Qden]. change (IZR (Z.pos (2 ^ 52))) with 4503599627370496%R. unfold u. field. }
  clear C Tl. rewrite S2 in K. unfold ccw. apply Rabs_le_inv in K.
  destruct (Qlt_le_dec 0 (signed_area2 qs)) as [G|G].
  - left. split; [exact G|]. apply Qlt_Rlt in G. rewrite Q2R_0 in G. rewrite Rabs_right in Ma by lra. lra.
  - right. split; [intro G'; apply (Qlt_not_le _ _ G'), G|]. apply Qle_Rle in G. rewrite Q2R_0 in G. rewrite Rabs_left1 in Ma by lra. lra.
Qed.
Lemma sign_tests s : fin s -> ((realof s < 0)%R -> SFleb fzero s = false) /\ ((0 < realof s)%R -> SFleb fzero s = true /\ SFltb s fzero = false) /\ ((realof s < 0)%R -> SFltb s fzero = true).
Proof.
  intros [V F]. destruct s as [b|b| |b m e]; try discriminate.
  - change (realof (S754_zero b)) with 0%R. split; [intro; lra|split; intro; lra].
  - assert (P : (0 < F2R (Float radix2 (Zpos m) e))%R) by (apply F2R_gt_0; reflexivity). cbn [SF2R]. destruct b; cbn [cond_Zopp]; [change (- Z.pos m)%Z with (Z.opp (Z.pos m)); rewrite F2R_Zopp|]; (split; [intro K|split; intro K]); try (exfalso; lra); try (split; reflexivity); reflexivity.
Qed.
(** The claim is that the winding of every ring is found. That is false for rings whose area is as small as the rounding error
    (C59_float_refuted); for the others it holds, with the [sum] of every version of Python. *)
Definition readable (vs : list vertex) : Prop := (forall p, In p vs -> on_earth p) /\ (Z.of_nat (length vs) <= 2 ^ 30)%Z /\ clearly_wound (map exactly vs).
Lemma holes_float total hs : total = sum_left \/ total = sum_comp -> (forall h, In h hs -> readable h) ->
  exists b, interiors_valid fzero total fadd fsub fmul SFltb (map fring hs) = Some b /\ (b = true <-> forall h, In h hs -> ~ ccw (map exactly h)).
Proof.
  intros Ht. induction hs as [|h hs IH]; intro H; [exists true; split; [reflexivity|split; [intros _ h []|reflexivity]]|]. cbn [map interiors_valid].
  destruct (H h (or_introl eq_refl)) as (H1 & H2 & H3). destruct (ring_sign h H1 H2 H3 total Ht) as (s & -> & F & D). destruct (sign_tests s F) as (T1 & T2 & T3). destruct D as [[D1 D2]|[D1 D2]].
  - rewrite (T3 D2). exists false. split; [reflexivity|]. split; [discriminate|]. intro X. destruct (X h (or_introl eq_refl) D1).
  - rewrite (proj2 (T2 D2)). destruct IH as (b & -> & Hb); [intros x Hx; apply H; right; exact Hx|]. exists b. split; [reflexivity|]. rewrite Hb. split; [intros X x [<-|K]; [exact D1|exact (X x K)]|intros X x K; apply X; right; exact K].
Qed.
Theorem C59_float_partial : forall exterior interiors, (forall r, In r (exterior :: interiors) -> readable r) ->
  exists b, winding_float (fring exterior) (map fring interiors) = Some b /\ winding_comp (fring exterior) (map fring interiors) = Some b
  /\ (b = true <-> ccw (map exactly exterior) /\ forall h, In h interiors -> ~ ccw (map exactly h)).
Proof.
  intros e hs H. assert (G : forall total, total = sum_left \/ total = sum_comp -> exists b, is_winding_valid fzero total fadd fsub fmul SFltb SFleb (fring e) (map fring hs) = Some b /\ (b = true <-> ccw (map exactly e) /\ forall h, In h hs -> ~ ccw (map exactly h))).
  { intros total Ht. destruct (H e (or_introl eq_refl)) as (H1 & H2 & H3). unfold is_winding_valid. destruct (ring_sign e H1 H2 H3 total Ht) as (s & -> & F & D). destruct (sign_tests s F) as (T1 & T2 & T3). destruct D as [[D1 D2]|[D1 D2]].
    - rewrite (T1 D2). destruct (holes_float total hs Ht (fun h K => H h (or_intror K))) as (b & -> & Hb). exists b. split; [reflexivity|]. rewrite Hb. tauto.
    - rewrite (proj1 (T2 D2)). exists false. split; [reflexivity|]. split; [discriminate|tauto]. }
  destruct (G sum_left (or_introl eq_refl)) as (b & E & Hb). destruct (G sum_comp (or_intror eq_refl)) as (b' & E' & Hb').
  exists b. split; [exact E|]. split; [|exact Hb]. unfold winding_comp. rewrite E'. f_equal. apply eq_true_iff_eq. rewrite Hb, Hb'. reflexivity.
Qed.
Print Assumptions C59_float_partial.
(** A flower bed of one metre in Trafalgar Square, with a pond, in degrees. *)
Definition bed : list vertex := [(S754_finite true 4615288898129284 (-55), S754_finite false 7249106550206235 (-47)); (S754_finite true 4614928610159095 (-55), S754_finite false 7249106550206235 (-47)); (S754_finite true 4614928610159095 (-55), S754_finite false 7249107957581118 (-47)); (S754_finite true 4615288898129284 (-55), S754_finite false 7249107957581118 (-47))].
Definition pond : list vertex := [(S754_finite true 4615216840535246 (-55), S754_finite false 7249106831681211 (-47)); (S754_finite true 4615216840535246 (-55), S754_finite false 7249107676106141 (-47)); (S754_finite true 4615000667753133 (-55), S754_finite false 7249107676106141 (-47)); (S754_finite true 4615000667753133 (-55), S754_finite false 7249106831681211 (-47))].
Definition readableb (vs : list vertex) : bool :=
  forallb (fun p => SpecFloat.valid_binary 53 1024 (fst p) && SpecFloat.valid_binary 53 1024 (snd p) && is_finite_SF (fst p) && is_finite_SF (snd p)
                    && Qle_bool (-180) (q_of (fst p)) && Qle_bool (q_of (fst p)) 180 && Qle_bool (-90) (q_of (snd p)) && Qle_bool (q_of (snd p)) 90) vs
  && Z.leb (Z.of_nat (length vs)) (2 ^ 30)
  && negb (Qle_bool (Qabs (signed_area2 (map exactly vs))) (3 * (inject_Z (Z.of_nat (length (map exactly vs))) + 2) * (1 # 2 ^ 52) * around under (map exactly vs) + (1 # 2 ^ 1000))).
Lemma readableb_ok vs : readableb vs = true -> readable vs.
Proof.
  unfold readableb. rewrite !andb_true_iff, forallb_forall, Z.leb_le, negb_true_iff. intros [[H1 H2] H3]. split; [|split; [exact H2|]].
  - intros p K. specialize (H1 p K). rewrite !andb_true_iff, !Qle_bool_iff in H1. destruct H1 as [[[[[[[V1 V2] F1] F2] L1] L2] L3] L4]. unfold on_earth, is_number. destruct (fst p), (snd p); try discriminate; auto 10.
  - unfold clearly_wound. apply Qnot_le_lt. intro K. apply Qle_bool_iff in K. congruence.
Qed.
Example C59_float_example : (forall r, In r [bed; pond] -> readable r) /\ ccw (map exactly bed) /\ ~ ccw (map exactly pond)
  /\ winding_float (fring bed) (map fring [pond]) = Some true /\ winding_comp (fring bed) (map fring [pond]) = Some true
  /\ winding_float (fring bed) (map fring [rev pond]) = Some false /\ winding_comp (fring (rev bed)) [] = Some false.
Proof.
  split; [intros r [<-|[<-|[]]]; apply readableb_ok; vm_compute; reflexivity|]. split; [vm_compute; reflexivity|]. split; [vm_compute; discriminate|]. repeat split; vm_compute; reflexivity.
Qed.

(** ** C65: coordinates in range *)
Lemma leb_real x y : fin x -> fin y -> SFleb x y = Rle_bool (realof x) (realof y).
Proof.
  intros [V F] [V' F']. pose proof (Bleb_correct 53 1024 (SF2B x V) (SF2B y V')) as H. unfold Bleb in H. rewrite !B2SF_SF2B, !B2R_SF2B in H. apply H; [rewrite is_finite_SF2B; exact F|rewrite is_finite_SF2B; exact F'].
Qed.
Lemma Qle_R a b : a <= b <-> (Q2R a <= Q2R b)%R.
Proof. split; [apply Qle_Rle|apply Rle_Qle]. Qed.
Lemma int_fin z : (Z.abs z < 2 ^ 53)%Z -> fin (float_of_Z z) /\ realof (float_of_Z z) = IZR z.
Proof.
  intro H. pose proof (int_format z H) as G. pose proof (normalize_real z 0) as N. rewrite F2R_int in N. rewrite (round_generic _ _ _ (IZR z)) in N by auto with typeclass_instances.
  destruct N as (N1 & N2 & N3); [|split; [split; assumption|exact N1]]. rewrite <- abs_IZR. eapply Rlt_trans; [apply IZR_lt, H|]. change (IZR (2 ^ 53)) with (bpow radix2 53). apply bpow_lt. lia.
Qed.
Lemma leb_range x a b : (Z.abs a < 2 ^ 53)%Z -> (Z.abs b < 2 ^ 53)%Z -> SpecFloat.valid_binary 53 1024 x = true ->
  SFleb (float_of_Z a) x && SFleb x (float_of_Z b) = true <-> is_number x /\ inject_Z a <= q_of x <= inject_Z b.
Proof.
  intros Ha Hb V. destruct (int_fin a Ha) as [Fa Ea]. destruct (int_fin b Hb) as [Fb Eb]. destruct (is_finite_SF x) eqn:F.
  - assert (N : is_number x) by (split; [exact V|destruct x; try discriminate F; exact I]). assert (Fx : fin x) by (split; assumption).
    rewrite !leb_real, Ea, Eb, andb_true_iff by assumption. rewrite !Qle_R, !Q2R_int, q_real by exact F.
    split; [intros [H1 H2]; split; [exact N|]|intros [_ [H1 H2]]]; (split; [|]); try (apply Rle_bool_true; assumption).
    + destruct (Rle_bool_spec (IZR a) (realof x)); [assumption|discriminate].
    + destruct (Rle_bool_spec (realof x) (IZR b)); [assumption|discriminate].
  - split; [|intros [[_ N] _]; destruct x; try destruct N; discriminate].
    intro H. exfalso. destruct Fa as [_ Fa], Fb as [_ Fb]. apply andb_true_iff in H. destruct H as [H1 H2]. destruct x as [s|s| |s m e]; try discriminate F.
    + destruct s; [destruct (float_of_Z a) as [| | |[]]|destruct (float_of_Z b) as [| | |[]]]; discriminate.
    + destruct (float_of_Z a); discriminate.
Qed.
(** The test of a coordinate is the one of its exact values; infinities and NaN fail it. *)
Theorem C65_float_coordinates : forall x y more, SpecFloat.valid_binary 53 1024 x = true -> SpecFloat.valid_binary 53 1024 y = true ->
  (coord_valid SFleb float_of_Z (x, y, more) = true <-> on_earth (x, y)).
Proof.
  intros x y more Vx Vy. unfold coord_valid, on_earth. cbn [fst snd]. rewrite andb_true_iff. rewrite (leb_range x (-180) 180), (leb_range y (-90) 90) by (assumption || reflexivity).
  change (inject_Z (-180)) with (-180). change (inject_Z 180) with 180. change (inject_Z (-90)) with (-90). change (inject_Z 90) with 90. tauto.
Qed.
Print Assumptions C65_float_coordinates.
Example C65_float_example :
  let edge := float_of_Z 180 in let beyond := S754_finite false 6333186975989761 (-45) in
  coord_valid SFleb float_of_Z (edge, float_of_Z (-90), []) = true /\ on_earth (edge, float_of_Z (-90))
  /\ SpecFloat.valid_binary 53 1024 beyond = true /\ 180 < q_of beyond < 180 + (1 # 10 ^ 13) /\ coord_valid SFleb float_of_Z (beyond, float_of_Z 0, []) = false
  /\ coord_valid SFleb float_of_Z (S754_nan, float_of_Z 0, []) = false /\ coord_valid SFleb float_of_Z (float_of_Z 0, S754_infinity true, []) = false.
Proof. repeat split; try reflexivity; vm_compute; discriminate. Qed.
