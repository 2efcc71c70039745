(** The cache of parse_value (indexing/parser.py:140-143). *)
From Coq Require Import String Ascii.
From Coq Require Import List ZArith NArith QArith Bool Lia Permutation.
From Coq Require Import Floats.SpecFloat.
From Verif Require Import PyVal Time Parser.
Import ListNotations.
Open Scope nat_scope.

(** Equality of the dataclass [ParsingOptions] (model.py:144-170): frozensets are compared as sets (here by
    their elements without repetition, in any order), hints by latitude field only (model.py:135-141). *)
Record opts_equal (o o' : options) : Prop := {
  oe_true : Permutation (true_values o) (true_values o');
  oe_false : Permutation (false_values o) (false_values o');
  oe_dates : Permutation (date_formats o) (date_formats o');
  oe_hints : Permutation (map h_lat (geo_hints o)) (map h_lat (geo_hints o'));
  oe_length : keyword_length o = keyword_length o';
  oe_float : float_format o = float_format o' }.
(** the types in the keys of lru_cache(typed=True) (indexing/parser.py:143) *)
Definition same_type (a b : value) : Prop :=
  match a, b with
  | VNone, VNone | VBool _, VBool _ | VInt _, VInt _ | VFloat _, VFloat _ | VStr _, VStr _ | VList _, VList _ | VDict _, VDict _ => True
  | _, _ => False
  end.
(** Keys of [lru_cache(typed=True)]: the arguments and their types. Tuples compare their items by identity or
    ==; identical values may or may not be the same object (this matters for nan only). (indexing/parser.py:143) *)
Definition keys_equal (k k' : value * options) : Prop := same_type (fst k) (fst k') /\ scalar_eqb (fst k) (fst k') = true /\ opts_equal (snd k) (snd k').
(** keys of lru_cache that are the same objects (indexing/parser.py:143) *)
Definition keys_identical (k k' : value * options) : Prop := fst k = fst k' /\ opts_equal (snd k) (snd k').

(** The dicts created so far, by address (dicts are shared: parse_dict and parse_list store the cached dict
    itself), and the entries of the cache in any order. (indexing/parser.py:143) *)
Record cstate := CS { heap : list dict; entries : list ((value * options) * nat) }.
(** indexing/parser.py:143: the cache at the start *)
Definition cache_empty : cstate := CS [] [].
Section Cache.
Variable L : lib.
(** parse_value(v, o) with the cache, giving the address of the dict returned. A full cache drops entries: see
    [c_evict]. (indexing/parser.py:143-202) *)
Inductive call : cstate -> value * options -> cstate -> nat -> Prop :=
| call_hit st k k' a : In (k', a) (entries st) -> keys_equal k' k \/ keys_identical k' k -> call st k st a
| call_miss st k : (forall k' a, In (k', a) (entries st) -> ~ keys_equal k' k) ->
    call st k (CS (heap st ++ [parse_value L (snd k) (fst k)]) ((k, length (heap st)) :: entries st)) (length (heap st)).
(** What happens to the heap and the cache while records are parsed: calls, evictions, and the geographic
    hints of parse_dict (indexing/parser.py:96-101), which copy the dict and add to the copy. *)
Inductive event := Call (k : value * options) | Evict | AddHint (a : nat) (g : pystr * pystr).
(** indexing/parser.py:96-101, 143-202: one event *)
Inductive cstep : cstate -> event -> cstate -> Prop :=
| c_call st k st' a : call st k st' a -> cstep st (Call k) st'
| c_evict st es : incl es (entries st) -> cstep st Evict (CS (heap st) es)
| c_hint st a g d : nth_error (heap st) a = Some d -> cstep st (AddHint a g) (CS (heap st ++ [dupdate d (geo_dict g)]) (entries st)).
(** events one after the other (indexing/parser.py:143-202) *)
Inductive csteps : cstate -> list event -> cstate -> Prop :=
| cs_nil st : csteps st [] st
| cs_cons st e st' es st'' : cstep st e st' -> csteps st' es st'' -> csteps st (e :: es) st''.

(** ** Equal values of one type are the same, apart from the two zeros *)
(** specification, models no code *)
Definition is_zero (v : value) : Prop := exists s, v = VFloat (S754_zero s).
(** the floats there are (SpecFloat also has other encodings) (specification, models no code) *)
Definition float_ok (v : value) : Prop := match v with VFloat f => valid_binary 53 1024 f = true | _ => True end.
Lemma digits_shift n : forall m m' : positive, Zpos m = (Zpos m' * 2 ^ Z.of_nat n)%Z -> Zpos (digits2_pos m) = (Zpos (digits2_pos m') + Z.of_nat n)%Z.
Proof.
  induction n as [|n IH]; intros m m' H.
  - cbn in H. rewrite Pos.mul_1_r in H. injection H as ->. lia.
  - rewrite Nat2Z.inj_succ, Z.pow_succ_r in H by lia. destruct m as [m|m|]; [lia| |lia].
    assert (E : Zpos m = (Zpos m' * 2 ^ Z.of_nat n)%Z) by lia. apply IH in E. cbn [digits2_pos]. lia.
Qed.
Lemma finite_le (s : bool) m e (s' : bool) m' e' : bounded 53 1024 m e = true -> bounded 53 1024 m' e' = true -> (e <= e')%Z ->
  ((if s then Zneg m else Zpos m) = (if s' then Zneg m' else Zpos m') * 2 ^ (e' - e))%Z -> S754_finite s m e = S754_finite s' m' e'.
Proof.
  intros B B' He H. unfold bounded, canonical_mantissa in B, B'. apply andb_true_iff in B, B'. destruct B as [B _], B' as [B' _]. apply Zeq_bool_eq in B, B'.
  assert (Hp : (0 < 2 ^ (e' - e))%Z) by (apply Z.pow_pos_nonneg; lia).
  assert (Es : s = s') by (destruct s, s'; try reflexivity; nia). subst s'.
  assert (Em : Zpos m = (Zpos m' * 2 ^ Z.of_nat (Z.to_nat (e' - e)))%Z) by (rewrite Z2Nat.id by lia; destruct s; nia).
  pose proof (digits_shift _ _ _ Em) as D. rewrite Z2Nat.id in D by lia. assert (Ee : e = e') by (rewrite <- B, <- B'; f_equal; lia). subst e'. rewrite Z.sub_diag in H. f_equal. destruct s; nia.
Qed.
(** proof device: the signed significand of a float *)
Definition cofloat (s : bool) (m : positive) : Z := if s then Zneg m else Zpos m.
Lemma float_cross s m e s' m' e' : num_eqb (float_num (S754_finite s m e)) (float_num (S754_finite s' m' e')) = true ->
  (cofloat s m * 2 ^ (Z.max e 0 + Z.max (- e') 0) = cofloat s' m' * 2 ^ (Z.max e' 0 + Z.max (- e) 0))%Z.
Proof.
  cbn [float_num]. fold (cofloat s m). fold (cofloat s' m'). generalize (cofloat s m) (cofloat s' m'). intros z z' H.
  assert (P : forall p, Z.pow_pos 2 p = (2 ^ Zpos p)%Z) by reflexivity.
  assert (P' : forall p, Zpos (Pos.pow 2 p) = (2 ^ Zpos p)%Z) by (intro p; rewrite Pos2Z.inj_pow; reflexivity).
  destruct e as [|p|p], e' as [|p'|p']; cbn [num_eqb] in H; apply Qeq_bool_iff in H; unfold Qeq, inject_Z in H; cbn [Qnum Qden] in H; rewrite ?P, ?P' in H; rewrite ?Z.mul_1_r in H;
    change (- 0)%Z with 0%Z; rewrite ?Pos2Z.opp_pos, ?Pos2Z.opp_neg; 
    repeat match goal with |- context [Z.max ?a ?b] => first [rewrite (Z.max_l a b) by lia|rewrite (Z.max_r a b) by lia] end; rewrite ?Z.add_0_r, ?Z.add_0_l, ?Z.mul_1_r; rewrite ?Z.pow_add_r by lia; change (2 ^ 0)%Z with 1%Z in *; nia.
Qed.
Lemma float_eq_same f g : valid_binary 53 1024 f = true -> valid_binary 53 1024 g = true -> num_eqb (float_num f) (float_num g) = true ->
  f = g \/ (exists s, f = S754_zero s) /\ (exists s, g = S754_zero s).
Proof.
  intros Vf Vg H. destruct f as [s|s| |s m e], g as [s'|s'| |s' m' e']; try (cbn in H; discriminate H); try (exfalso; cbn in H; destruct e'; discriminate H); try (exfalso; cbn in H; destruct e; discriminate H); eauto.
  - exfalso. cbn [float_num] in H. destruct e' as [|p|p]; cbn [num_eqb] in H; apply Qeq_bool_iff in H; unfold Qeq, inject_Z in H; cbn in H; destruct s'; nia.
  - left. cbn in H. apply eqb_prop in H. congruence.
  - exfalso. cbn [float_num] in H. destruct e as [|p|p]; cbn [num_eqb] in H; apply Qeq_bool_iff in H; unfold Qeq, inject_Z in H; cbn in H; destruct s; nia.
  - left. apply float_cross in H. cbn [valid_binary] in Vf, Vg. destruct (Z.le_ge_cases e e') as [Le|Le].
    + apply finite_le; [exact Vf|exact Vg|exact Le|]. fold (cofloat s m). fold (cofloat s' m').
      assert (E : (Z.max e' 0 + Z.max (- e) 0 = (Z.max e 0 + Z.max (- e') 0) + (e' - e))%Z) by lia. rewrite E in H. rewrite (Z.pow_add_r 2 (Z.max _ 0 + Z.max _ 0) (_ - _)) in H by lia.
      assert (Hp : (0 < 2 ^ (Z.max e 0 + Z.max (- e') 0))%Z) by (apply Z.pow_pos_nonneg; lia). apply (Z.mul_reg_r _ _ (2 ^ (Z.max e 0 + Z.max (- e') 0))%Z); [lia|]. rewrite H. ring.
    + symmetry. apply finite_le; [exact Vg|exact Vf|lia|]. fold (cofloat s m). fold (cofloat s' m').
      assert (E : (Z.max e 0 + Z.max (- e') 0 = (Z.max e' 0 + Z.max (- e) 0) + (e - e'))%Z) by lia. rewrite E in H. rewrite (Z.pow_add_r 2 (Z.max _ 0 + Z.max _ 0) (_ - _)) in H by lia.
      assert (Hp : (0 < 2 ^ (Z.max e' 0 + Z.max (- e) 0))%Z) by (apply Z.pow_pos_nonneg; lia). apply (Z.mul_reg_r _ _ (2 ^ (Z.max e' 0 + Z.max (- e) 0))%Z); [lia|]. rewrite <- H. ring.
Qed.
Lemma value_eq_same v v' : float_ok v -> float_ok v' -> same_type v v' -> scalar_eqb v v' = true -> v = v' \/ is_zero v /\ is_zero v'.
Proof.
  intros F F' T H. destruct v, v'; try (destruct T; fail); try (cbn in H; discriminate H).
  - left. reflexivity.
  - left. destruct b, b0; try reflexivity; cbn in H; discriminate.
  - left. unfold scalar_eqb in H. cbn in H. apply Qeq_bool_iff in H. unfold Qeq, inject_Z in H. cbn in H. f_equal. lia.
  - unfold scalar_eqb in H. cbn [num_of] in H. destruct (float_eq_same _ _ F F' H) as [->|[[s ->] [s' ->]]]; [left; reflexivity|right; split; eexists; reflexivity].
  - left. cbn in H. apply str_eqb_eq in H. congruence.
Qed.
End Cache.
