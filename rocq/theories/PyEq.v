(** Python's equality of prepared values, said independently of the functions of the model. *)
From Coq Require Import String Ascii.
From Coq Require Import List ZArith NArith QArith Qpower Bool Lia.
From Coq Require Import Floats.SpecFloat.
From Verif Require Import PyVal.
Import ListNotations.
Local Open Scope Z_scope.

(** [number v n e]: the number [v] is n * 2^e. False is 0 and True is 1; both zeros of floats are 0. *)
Inductive number : value -> Z -> Z -> Prop :=
| num_false : number (VBool false) 0 0
| num_true : number (VBool true) 1 0
| num_int z : number (VInt z) z 0
| num_zero s : number (VFloat (S754_zero s)) 0 0
| num_pos m e : number (VFloat (S754_finite false m e)) (Zpos m) e
| num_neg m e : number (VFloat (S754_finite true m e)) (Zneg m) e.
(** n * 2^e = m * 2^f *)
Definition same_number (n e m f : Z) : Prop := n * 2 ^ (e - Z.min e f) = m * 2 ^ (f - Z.min e f).
(** Equal scalars: None, equal strings, numbers of the same value, infinities of the same sign; [nan] says whether NaN
    is counted as equal to NaN (in Python it is not). *)
Inductive scalar_alike (nan : Prop) : value -> value -> Prop :=
| al_none : scalar_alike nan VNone VNone
| al_str s : scalar_alike nan (VStr s) (VStr s)
| al_inf s : scalar_alike nan (VFloat (S754_infinity s)) (VFloat (S754_infinity s))
| al_nan : nan -> scalar_alike nan (VFloat S754_nan) (VFloat S754_nan)
| al_num a b n e m f : number a n e -> number b m f -> same_number n e m f -> scalar_alike nan a b.
(** Lists element by element, dicts by key whatever the order ([vsim]). *)
Definition alike (nan : Prop) : value -> value -> Prop := vsim (scalar_alike nan).
(** [==] *)
Definition py_equal : value -> value -> Prop := alike False.
(** [==], NaN counted equal to itself *)
Definition py_same : value -> value -> Prop := alike True.

(** ** The functions of the model compute it *)
Definition qof (n e : Z) : Q := match e with Z0 => inject_Z n | Zpos p => inject_Z (n * Z.pow_pos 2 p) | Zneg p => n # Pos.pow 2 p end.
Lemma number_num a n e : number a n e -> exists q, num_of a = Some (NumQ q) /\ (q == qof n e)%Q.
Proof.
  intro H. destruct H as [| |z|s|m e|m e]; cbn [num_of float_num]; try (eexists; split; [reflexivity|reflexivity]).
  - destruct e; eexists; (split; [reflexivity|reflexivity]).
  - destruct e; eexists; (split; [reflexivity|reflexivity]).
Qed.
Lemma num_number a q : num_of a = Some (NumQ q) -> exists n e, number a n e /\ (q == qof n e)%Q.
Proof.
  destruct a as [|b|z|f|s|l|d]; cbn [num_of]; try discriminate.
  - destruct b; intro H; injection H as <-; [exists 1, 0|exists 0, 0]; split; (constructor || reflexivity).
  - intro H; injection H as <-. exists z, 0. split; [constructor|reflexivity].
  - destruct f as [s|s| |s m e]; cbn [float_num]; intro H; try discriminate.
    + injection H as <-. exists 0, 0. split; [constructor|reflexivity].
    + exists (if s then Zneg m else Zpos m), e. split; [destruct s; constructor|]. destruct e; injection H as <-; reflexivity.
Qed.
Lemma qof_power n e : (qof n e == inject_Z n * Qpower 2 e)%Q.
Proof.
  destruct e as [|p|p]; cbn [qof Qpower].
  - rewrite Qmult_1_r. reflexivity.
  - rewrite inject_Z_mult. apply Qmult_comp; [reflexivity|]. exact (Zpower_Qpower 2 (Zpos p) ltac:(lia)).
  - assert (Z : (Qpower_positive 2 p == inject_Z (2 ^ Zpos p))%Q) by (symmetry; exact (Zpower_Qpower 2 (Zpos p) ltac:(lia))). rewrite Z. rewrite <- Pos2Z.inj_pow. unfold Qeq, Qinv, inject_Z. cbn [Qnum Qden Qmult]. rewrite Pos.mul_1_l, Z.mul_1_r. reflexivity.
Qed.
Lemma qof_same n e m f : (qof n e == qof m f)%Q <-> same_number n e m f.
Proof.
  rewrite !qof_power. unfold same_number. set (E := Z.min e f). assert (He : 0 <= e - E) by (unfold E; lia). assert (Hf : 0 <= f - E) by (unfold E; lia).
  assert (N2 : ~ (2 == 0)%Q) by discriminate.
  replace e with ((e - E) + E) at 1 by lia. replace f with ((f - E) + E) at 1 by lia. rewrite !Qpower_plus by exact N2.
  assert (P : ~ (Qpower 2 E == 0)%Q) by (apply Qpower_not_0; exact N2).
  change 2%Q with (inject_Z 2) at 1 3. rewrite <- !Zpower_Qpower by assumption. rewrite !Qmult_assoc, <- !inject_Z_mult. rewrite Qmult_inj_r by exact P. rewrite inject_Z_injective. reflexivity.
Qed.
Lemma number_none a n e : number a n e -> num_of a <> None.
Proof. intros [] ; discriminate. Qed.
Lemma scalar_same_alike a b : is_scalar a = true -> is_scalar b = true -> (scalar_same a b <-> scalar_alike True a b).
Proof.
  intros Ha Hb. split.
  - unfold scalar_same. destruct (num_of a) as [x|] eqn:Ea, (num_of b) as [y|] eqn:Eb; try contradiction.
    + destruct x as [p|s|], y as [q|t|]; cbn [num_same]; try contradiction.
      * intro Q. destruct (num_number a p Ea) as (n & e & N1 & Q1). destruct (num_number b q Eb) as (m & f & N2 & Q2). apply (al_num True a b n e m f N1 N2). apply qof_same. rewrite <- Q1, <- Q2. exact Q.
      * intros <-. assert (K : forall v, num_of v = Some (NumInf s) -> v = VFloat (S754_infinity s)).
        { intros v H. destruct v as [|c|c|[c|c| |c m e]|c|c|c]; cbn in H; try discriminate; [congruence|destruct e; discriminate]. }
        rewrite (K a Ea), (K b Eb). constructor.
      * intros _. assert (K : forall v, num_of v = Some NumNaN -> v = VFloat S754_nan).
        { intros v H. destruct v as [|c|c|[c|c| |c m e]|c|c|c]; cbn in H; try discriminate; [reflexivity|destruct e; discriminate]. }
        rewrite (K a Ea), (K b Eb). constructor. exact I.
    + intros <-. destruct a; try discriminate; constructor.
  - intro H. unfold scalar_same. destruct H as [|s|s|_|a b n e m f N1 N2 S]; cbn [num_of float_num num_same]; auto.
    destruct (number_num a n e N1) as (p & -> & Q1). destruct (number_num b m f N2) as (q & -> & Q2). cbn [num_same]. rewrite Q1, Q2. apply qof_same, S.
Qed.
Lemma scalar_eqb_alike a b : is_scalar a = true -> is_scalar b = true -> (scalar_eqb a b = true <-> scalar_alike False a b).
Proof.
  intros Ha Hb. split.
  - intro H. pose proof (proj1 (scalar_same_alike a b Ha Hb) (scalar_eqb_same a b H)) as K. destruct K as [|s|s|_|a b n e m f N1 N2 S]; try (constructor; fail); [discriminate H|exact (al_num False a b n e m f N1 N2 S)].
  - intro H. apply scalar_same_eqb; [exact Ha| |apply (scalar_same_alike a b Ha Hb); destruct H as [|s|s|[]|a b n e m f N1 N2 S]; [constructor|constructor|constructor|exact (al_num True a b n e m f N1 N2 S)]].
    destruct H as [|s|s|[]|a b n e m f N1 N2 S]; try reflexivity. destruct N1; reflexivity.
Qed.
Lemma vsim_iff (R S : value -> value -> Prop) : (forall a b, is_scalar a = true -> is_scalar b = true -> (R a b <-> S a b)) -> forall a b, vsim R a b <-> vsim S a b.
Proof.
  intros H a b. split; intro K; induction K as [a b Ha Hb Hab|l m Hl _ IH|d e Hk _ IH]; try (apply sim_scalar; [exact Ha|exact Hb|apply (H a b Ha Hb), Hab]); try (apply sim_list; [exact Hl|exact IH]); apply sim_dict; [exact Hk|exact IH|exact Hk|exact IH].
Qed.
Lemma veq_same a b : veq a b <-> py_same a b.
Proof. apply vsim_iff. exact scalar_same_alike. Qed.
Lemma py_eqb_sim a : forall b, wf a -> wf b -> (py_eqb a b = true <-> vsim (fun x y => scalar_eqb x y = true) a b).
Proof.
  induction a as [|a0|a0|a0|a0|l IH|d IH] using value_ind'; intros b Wa Wb;
  try (split; [intro H; destruct b; try discriminate H; (apply sim_scalar; [reflexivity|reflexivity|exact H])|intro H; inversion H as [? ? Ha Hb Hab| |]; subst; rewrite (py_eqb_scalar _ _ Ha Hb); exact Hab]).
  - pose proof (proj1 (wf_list _) Wa) as Fa. rewrite Forall_forall in IH, Fa. split.
    + intro H. destruct b as [| | | | |m|]; try discriminate H. cbn [py_eqb] in H. apply list_eqb_nth in H. destruct H as [Hl Hn]. apply wf_list in Wb. rewrite Forall_forall in Wb. apply sim_list; [exact Hl|]. intros i x y Hx Hy.
      apply (IH x (nth_error_In _ _ Hx) y (Fa x (nth_error_In _ _ Hx)) (Wb y (nth_error_In _ _ Hy))). exact (Hn i x y Hx Hy).
    + intro H. inversion H as [? ? Ha _ _|? m Hl Hm|]; subst; [discriminate Ha|]. cbn [py_eqb]. apply list_eqb_nth. apply wf_list in Wb. rewrite Forall_forall in Wb. split; [exact Hl|]. intros i x y Hx Hy.
      apply (IH x (nth_error_In _ _ Hx) y (Fa x (nth_error_In _ _ Hx)) (Wb y (nth_error_In _ _ Hy))). exact (Hm i x y Hx Hy).
  - pose proof (proj1 (wf_dict _) Wa) as [Na Fa]. rewrite Forall_forall in IH, Fa. split.
    + intro H. pose proof (py_eqb_veq _ _ Wa Wb H) as V. inversion V as [? ? Ha _ _| |? e Hk He]; subst; [discriminate Ha|]. apply sim_dict; [exact Hk|]. intros k x y Hx Hy. apply py_eqb_dict in H. destruct H as [_ H]. destruct (H k x (dget_In _ _ _ Hx)) as (w & Ew & Hw). rewrite Hy in Ew. injection Ew as <-.
      apply (IH (k, x) (dget_In _ _ _ Hx) y (wf_dget _ _ _ Wa Hx) (wf_dget _ _ _ Wb Hy)). exact Hw.
    + intro H. inversion H as [? ? Ha _ _| |? e Hk He]; subst; [discriminate Ha|]. apply py_eqb_dict. pose proof (proj1 (wf_dict _) Wb) as [Nb Fb].
      assert (Hkk : forall k, In k (dkeys d) <-> In k (dkeys e)).
      { intros k. specialize (Hk k). rewrite !dget_None in Hk. destruct (in_dec str_eq_dec k (dkeys d)), (in_dec str_eq_dec k (dkeys e)); tauto. }
      split.
      * transitivity (length (dkeys d)); [unfold dkeys; rewrite map_length; reflexivity|]. transitivity (length (dkeys e)); [|unfold dkeys; rewrite map_length; reflexivity].
        apply Nat.le_antisymm; apply NoDup_incl_length; auto; intros k Hi; apply Hkk; exact Hi.
      * intros k v Hi. assert (Hke : In k (dkeys e)) by (apply Hkk; exact (in_map fst _ _ Hi)). apply dget_ex in Hke. destruct Hke as [w Hw]. exists w. split; [exact Hw|]. apply (IH (k, v) Hi w (Fa _ Hi) (wf_dget _ _ _ Wb Hw)). exact (He k v w (In_dget _ _ _ Na Hi) Hw).
Qed.
Lemma py_eqb_equal a b : wf a -> wf b -> (py_eqb a b = true <-> py_equal a b).
Proof. intros Wa Wb. rewrite (py_eqb_sim a b Wa Wb). apply vsim_iff. exact scalar_eqb_alike. Qed.
