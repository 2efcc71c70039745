(** Python values as splitgill sees them after [prepare_data]
    (splitgill/diffing.py:46-97), their [==], and the specification level
    notion of "same value". *)
From Coq Require Import String Ascii.
From Coq Require Import List ZArith NArith QArith Bool Lia.
From Coq Require Import Floats.SpecFloat.
Import ListNotations.
Open Scope nat_scope.

(** A Python [str] is a sequence of unicode code points. (diffing.py:66-97) *)
Definition pystr := list N.

(** notation for literals of Python source text (e.g. the names in indexing/fields.py:11-70); not code of /repo *)
Definition lit (s : string) : pystr := map N_of_ascii (list_ascii_of_string s).

(** [==] of str, as used all over /repo (e.g. diffing.py:122) *)
Definition str_eq_dec : forall a b : pystr, {a = b} + {a <> b} := list_eq_dec N.eq_dec.
(** [==] of str as a bool (e.g. diffing.py:122) *)
Definition str_eqb (a b : pystr) : bool := if str_eq_dec a b then true else false.

Lemma str_eqb_eq a b : str_eqb a b = true <-> a = b.
Proof. unfold str_eqb; destruct (str_eq_dec a b); split; congruence. Qed.
Lemma str_eqb_refl a : str_eqb a a = true.
Proof. apply str_eqb_eq; reflexivity. Qed.
Lemma str_eqb_neq a b : str_eqb a b = false <-> a <> b.
Proof. unfold str_eqb; destruct (str_eq_dec a b); split; congruence. Qed.

(** The values that can be stored: output type of [prepare_data]
    (diffing.py:46-48). A Python float is an IEEE binary64 datum
    ([spec_float] of the Coq standard library: sign/mantissa/exponent,
    zeros, infinities and a single NaN, NaN payloads are not modelled).
    A dict is an insertion ordered association list; [wf] below says that its
    keys are distinct. *)
Inductive value :=
| VNone
| VBool (b : bool)
| VInt (z : Z)
| VFloat (f : spec_float)
| VStr (s : pystr)
| VList (l : list value)
| VDict (d : list (pystr * value)).

Notation dict := (list (pystr * value)).

Section value_induction.
  Variable P : value -> Prop.
  Hypothesis HNone : P VNone.
  Hypothesis HBool : forall b, P (VBool b).
  Hypothesis HInt : forall z, P (VInt z).
  Hypothesis HFloat : forall f, P (VFloat f).
  Hypothesis HStr : forall s, P (VStr s).
  Hypothesis HList : forall l, Forall P l -> P (VList l).
  Hypothesis HDict : forall d, Forall (fun kv => P (snd kv)) d -> P (VDict d).
  (** induction over nested values; a proof device, models no code *)
  Fixpoint value_ind' (v : value) : P v :=
    match v with
    | VNone => HNone
    | VBool b => HBool b
    | VInt z => HInt z
    | VFloat f => HFloat f
    | VStr s => HStr s
    | VList l => HList l ((fix go l : Forall P l :=
        match l with [] => Forall_nil _ | x :: r => Forall_cons _ (value_ind' x) (go r) end) l)
    | VDict d => HDict d ((fix go d : Forall (fun kv => P (snd kv)) d :=
        match d with
        | [] => Forall_nil _
        | kv :: r => Forall_cons _ (value_ind' (snd kv)) (go r)
        end) d)
    end.
End value_induction.

(** ** Python dict operations on association lists *)

Section assoc.
  Context {A : Type}.
  (** [d[k]] / [d.get(k)] (diffing.py:195; model.py:108) *)
  Fixpoint dget (d : list (pystr * A)) (k : pystr) : option A :=
    match d with
    | [] => None
    | (k', v) :: r => if str_eqb k k' then Some v else dget r k
    end.
  (** [d[k] = v]: replaces in place, otherwise appends (diffing.py:354, 369; ingest.py:148-149) *)
  Fixpoint dset (d : list (pystr * A)) (k : pystr) (v : A) : list (pystr * A) :=
    match d with
    | [] => [(k, v)]
    | (k', v') :: r => if str_eqb k k' then (k', v) :: r else (k', v') :: dset r k v
    end.
  (** [del d[k]] / [d.pop(k)] (the caller checks presence) (diffing.py:364) *)
  Fixpoint ddel (d : list (pystr * A)) (k : pystr) : list (pystr * A) :=
    match d with
    | [] => []
    | (k', v') :: r => if str_eqb k k' then r else (k', v') :: ddel r k
    end.
  (** [k in d] (diffing.py:184, 189) *)
  Definition dmem (d : list (pystr * A)) (k : pystr) : bool :=
    match dget d k with Some _ => true | None => false end.
  (** the keys of a dict in order (e.g. diffing.py:184, 189) *)
  Definition dkeys (d : list (pystr * A)) : list pystr := map fst d.
  (** [d.update(e)] (diffing.py:359, 361) *)
  Definition dupdate (d e : list (pystr * A)) : list (pystr * A) :=
    fold_left (fun acc kv => dset acc (fst kv) (snd kv)) e d.
  (** a dict comprehension / [dict(pairs)]: later pairs win, first position kept (diffing.py:77-79) *)
  Definition dict_of (e : list (pystr * A)) : list (pystr * A) := dupdate [] e.

  Lemma dget_In d k v : dget d k = Some v -> In (k, v) d.
  Proof.
    induction d as [|[k' v'] r IH]; simpl; [discriminate|].
    destruct (str_eqb k k') eqn:E; intros H.
    - apply str_eqb_eq in E; inversion H; subst; auto.
    - right; auto.
  Qed.
  Lemma In_dget d k v : NoDup (dkeys d) -> In (k, v) d -> dget d k = Some v.
  Proof.
    induction d as [|[k' v'] r IH]; simpl; [tauto|].
    intros Hn [H|H]; inversion Hn; subst.
    - inversion H; subst; rewrite str_eqb_refl; reflexivity.
    - destruct (str_eqb k k') eqn:E.
      + apply str_eqb_eq in E; subst. exfalso; apply H2.
        change k' with (fst (k', v)). apply in_map; exact H.
      + auto.
  Qed.
  Lemma dget_None d k : dget d k = None <-> ~ In k (dkeys d).
  Proof.
    induction d as [|[k' v'] r IH]; simpl; [tauto|].
    destruct (str_eqb k k') eqn:E.
    - apply str_eqb_eq in E; subst; split; [discriminate|tauto].
    - apply str_eqb_neq in E. rewrite IH. intuition congruence.
  Qed.
  Lemma dget_Some_key d k v : dget d k = Some v -> In k (dkeys d).
  Proof. intros H. apply dget_In in H. change k with (fst (k, v)). apply in_map; exact H. Qed.
  Lemma dget_ex d k : In k (dkeys d) -> exists v, dget d k = Some v.
  Proof.
    intros H. destruct (dget d k) as [v|] eqn:E; [eauto|].
    apply dget_None in E; contradiction.
  Qed.
  Lemma dmem_In d k : dmem d k = true <-> In k (dkeys d).
  Proof.
    unfold dmem. destruct (dget d k) eqn:E; split; intros H; try discriminate; auto.
    - eapply dget_Some_key; eauto.
    - apply dget_None in E; contradiction.
  Qed.
  Lemma dmem_false d k : dmem d k = false <-> ~ In k (dkeys d).
  Proof. rewrite <- dmem_In. destruct (dmem d k); split; congruence. Qed.

  Lemma dget_dset d k v k' :
    dget (dset d k v) k' = if str_eqb k' k then Some v else dget d k'.
  Proof.
    induction d as [|[k0 v0] r IH]; simpl.
    - reflexivity.
    - destruct (str_eqb k k0) eqn:E; simpl.
      + apply str_eqb_eq in E; subst. destruct (str_eqb k' k0); reflexivity.
      + destruct (str_eqb k' k0) eqn:E'.
        * apply str_eqb_eq in E'; subst.
          destruct (str_eqb k0 k) eqn:E2; [|reflexivity].
          apply str_eqb_eq in E2; subst. rewrite str_eqb_refl in E; discriminate.
        * exact IH.
  Qed.
  Lemma dkeys_dset_in d k v : In k (dkeys d) -> dkeys (dset d k v) = dkeys d.
  Proof.
    induction d as [|[k0 v0] r IH]; simpl; [tauto|].
    intros H. destruct (str_eqb k k0) eqn:E; simpl; [reflexivity|].
    f_equal. apply IH. destruct H as [H|H]; [|exact H].
    apply str_eqb_neq in E; congruence.
  Qed.
  Lemma dkeys_dset_notin d k v : ~ In k (dkeys d) -> dkeys (dset d k v) = dkeys d ++ [k].
  Proof.
    induction d as [|[k0 v0] r IH]; simpl; [reflexivity|].
    intros H. destruct (str_eqb k k0) eqn:E; simpl.
    - apply str_eqb_eq in E; subst; tauto.
    - f_equal. apply IH. tauto.
  Qed.
  Lemma In_dkeys_dset d k v k' : In k' (dkeys (dset d k v)) <-> k' = k \/ In k' (dkeys d).
  Proof.
    destruct (in_dec str_eq_dec k (dkeys d)) as [H|H].
    - rewrite dkeys_dset_in by exact H. intuition congruence.
    - rewrite dkeys_dset_notin by exact H. rewrite in_app_iff; simpl. intuition congruence.
  Qed.
  Lemma NoDup_snoc (B : Type) (l : list B) x : NoDup l -> ~ In x l -> NoDup (l ++ [x]).
  Proof.
    induction l as [|y r IH]; simpl; intros Hn Hx.
    - constructor; [tauto|constructor].
    - inversion Hn; subst. constructor.
      + rewrite in_app_iff; simpl. intuition congruence.
      + apply IH; tauto.
  Qed.
  Lemma NoDup_dset d k v : NoDup (dkeys d) -> NoDup (dkeys (dset d k v)).
  Proof.
    intros Hn. destruct (in_dec str_eq_dec k (dkeys d)) as [H|H].
    - rewrite dkeys_dset_in; assumption.
    - rewrite dkeys_dset_notin by exact H. apply NoDup_snoc; assumption.
  Qed.
  Lemma In_dset d k v x : In x (dset d k v) -> x = (k, v) \/ In x d \/ (fst x = k /\ snd x = v).
  Proof.
    induction d as [|[k0 v0] r IH]; simpl.
    - intuition.
    - destruct (str_eqb k k0) eqn:E; simpl; intros [H|H].
      + apply str_eqb_eq in E; subst. right; right; simpl; auto.
      + auto.
      + auto.
      + destruct (IH H) as [?|[?|?]]; auto.
  Qed.
  Lemma In_ddel d k x : In x (ddel d k) -> In x d.
  Proof.
    induction d as [|[k0 v0] r IH]; simpl; [tauto|].
    destruct (str_eqb k k0); simpl; intuition.
  Qed.
  Lemma NoDup_ddel d k : NoDup (dkeys d) -> NoDup (dkeys (ddel d k)).
  Proof.
    induction d as [|[k0 v0] r IH]; simpl; intros Hn; [constructor|].
    inversion Hn; subst. destruct (str_eqb k k0); simpl; [assumption|].
    constructor; [|auto]. intros Hi. apply H1.
    unfold dkeys in *. apply in_map_iff in Hi. destruct Hi as [x [Hx Hi]].
    subst k0. apply in_map. eapply In_ddel; eauto.
  Qed.
  Lemma dget_ddel d k k' : NoDup (dkeys d) ->
    dget (ddel d k) k' = if str_eqb k' k then None else dget d k'.
  Proof.
    induction d as [|[k0 v0] r IH]; simpl; intros Hn.
    - destruct (str_eqb k' k); reflexivity.
    - inversion Hn; subst. destruct (str_eqb k k0) eqn:E.
      + apply str_eqb_eq in E; subst.
        destruct (str_eqb k' k0) eqn:E'; [|reflexivity].
        apply str_eqb_eq in E'; subst. apply dget_None; assumption.
      + simpl. destruct (str_eqb k' k0) eqn:E'.
        * apply str_eqb_eq in E'; subst.
          destruct (str_eqb k0 k) eqn:E2; [|reflexivity].
          apply str_eqb_eq in E2; subst. rewrite str_eqb_refl in E; discriminate.
        * auto.
  Qed.
  Lemma dupdate_cons d k v e : dupdate d ((k, v) :: e) = dupdate (dset d k v) e.
  Proof. reflexivity. Qed.
  Lemma dget_dupdate d e k : NoDup (dkeys e) ->
    dget (dupdate d e) k = match dget e k with Some v => Some v | None => dget d k end.
  Proof.
    revert d; induction e as [|[k0 v0] r IH]; intros d Hn; [reflexivity|].
    inversion Hn; subst. rewrite dupdate_cons, IH by assumption.
    simpl. rewrite dget_dset. destruct (str_eqb k k0) eqn:E; [|reflexivity].
    apply str_eqb_eq in E; subst.
    assert (dget r k0 = None) as -> by (apply dget_None; assumption). reflexivity.
  Qed.
  Lemma NoDup_dupdate d e : NoDup (dkeys d) -> NoDup (dkeys (dupdate d e)).
  Proof.
    revert d; induction e as [|[k0 v0] r IH]; intros d Hn; [exact Hn|].
    rewrite dupdate_cons. apply IH. apply NoDup_dset; exact Hn.
  Qed.
  Lemma In_dupdate d e x : In x (dupdate d e) -> In x d \/ In x e.
  Proof.
    revert d; induction e as [|[k0 v0] r IH]; intros d H; [left; exact H|].
    rewrite dupdate_cons in H. apply IH in H. destruct H as [H|H]; [|right; right; exact H].
    apply In_dset in H. destruct H as [H|[H|[H1 H2]]].
    - subst; right; left; reflexivity.
    - left; exact H.
    - right; left. destruct x; simpl in *; congruence.
  Qed.
  Lemma NoDup_dict_of e : NoDup (dkeys (dict_of e)).
  Proof. apply NoDup_dupdate; constructor. Qed.
  Lemma In_dkeys_dupdate d e k : In k (dkeys (dupdate d e)) <-> In k (dkeys d) \/ In k (dkeys e).
  Proof.
    revert d; induction e as [|[k0 v0] r IH]; intros d; [simpl; tauto|].
    rewrite dupdate_cons, IH, In_dkeys_dset. simpl. intuition congruence.
  Qed.
  Lemma dset_snoc d k v : ~ In k (dkeys d) -> dset d k v = d ++ [(k, v)].
  Proof.
    induction d as [|[k0 v0] r IH]; simpl; intros H; [reflexivity|].
    destruct (str_eqb k k0) eqn:E.
    - apply str_eqb_eq in E; subst; tauto.
    - rewrite IH by tauto. reflexivity.
  Qed.
  Lemma dupdate_app d e : NoDup (dkeys e) -> (forall k, In k (dkeys e) -> ~ In k (dkeys d)) ->
    dupdate d e = d ++ e.
  Proof.
    revert d; induction e as [|[k v] r IH]; intros d Hn Hd.
    - simpl. rewrite app_nil_r. reflexivity.
    - inversion Hn; subst. rewrite dupdate_cons, dset_snoc by (apply Hd; simpl; auto).
      rewrite IH; [rewrite <- app_assoc; reflexivity|assumption|].
      intros k0 Hk0. unfold dkeys. rewrite map_app, in_app_iff. simpl.
      intros [H|[H|[]]]; [eapply Hd; simpl; eauto|]. subst. contradiction.
  Qed.
  Lemma dict_of_id e : NoDup (dkeys e) -> dict_of e = e.
  Proof. intros H. unfold dict_of. rewrite dupdate_app; auto. Qed.
End assoc.

(** ** Numbers *)

(** The mathematical class of a Python number. (diffing.py:198, 241, 299) *)
Inductive numcls := NumQ (q : Q) | NumInf (neg : bool) | NumNaN.

(** the number a float denotes, for [==] (diffing.py:198, 241) *)
Definition float_num (f : spec_float) : numcls :=
  match f with
  | S754_zero _ => NumQ 0
  | S754_infinity s => NumInf s
  | S754_nan => NumNaN
  | S754_finite s m e =>
      let z := if s then Zneg m else Zpos m in
      match e with
      | Z0 => NumQ (inject_Z z)
      | Zpos p => NumQ (inject_Z (z * Z.pow_pos 2 p))
      | Zneg p => NumQ (z # Pos.pow 2 p)
      end
  end.

(** In Python bool is a subclass of int; [True == 1 == 1.0]. (diffing.py:198, 241, 299) *)
Definition num_of (v : value) : option numcls :=
  match v with
  | VBool b => Some (NumQ (inject_Z (if b then 1 else 0)))
  | VInt z => Some (NumQ (inject_Z z))
  | VFloat f => Some (float_num f)
  | _ => None
  end.

(** [==] on numbers is exact comparison of the denoted values; NaN differs from itself. (diffing.py:198, 241, 299) *)
Definition num_eqb (a b : numcls) : bool :=
  match a, b with
  | NumQ p, NumQ q => Qeq_bool p q
  | NumInf s, NumInf t => Bool.eqb s t
  | _, _ => false
  end.

(** neither dict nor list (diffing.py:203-212, 259-268) *)
Definition is_scalar (v : value) : bool :=
  match v with VList _ | VDict _ => false | _ => true end.

(** [==] of two scalars (diffing.py:198, 241); bool is an int in Python *)
Definition scalar_eqb (a b : value) : bool :=
  match num_of a, num_of b with
  | Some x, Some y => num_eqb x y
  | None, None =>
      match a, b with
      | VNone, VNone => true
      | VStr s, VStr t => str_eqb s t
      | _, _ => false
      end
  | _, _ => false
  end.

Section list_eqb.
  Context {A B : Type} (f : A -> B -> bool).
  (** [==] of two lists, element by element (diffing.py:198, 241) *)
  Fixpoint list_eqb (l : list A) (m : list B) : bool :=
    match l, m with
    | [], [] => true
    | x :: l', y :: m' => f x y && list_eqb l' m'
    | _, _ => false
    end.
End list_eqb.

(** Python [==] on prepared values: lists elementwise, dicts by key lookup
    irrespective of order. The identity shortcut CPython takes for the very same
    NaN object inside containers is not modelled: the two sides compared by
    splitgill are always distinct objects (one is decoded from MongoDB). (diffing.py:198, 241, 299) *)
Fixpoint py_eqb (a b : value) {struct a} : bool :=
  match a, b with
  | VList l, VList m => list_eqb py_eqb l m
  | VDict d, VDict e =>
      Nat.eqb (length d) (length e) &&
      forallb (fun kv => match dget e (fst kv) with
                         | Some w => py_eqb (snd kv) w
                         | None => false
                         end) d
  | VList _, _ | VDict _, _ | _, VList _ | _, VDict _ => false
  | _, _ => scalar_eqb a b
  end.

(** ** Well-formed values: every dict has distinct keys *)
(** specification, models no code *)
Fixpoint nodupb (l : list pystr) : bool :=
  match l with
  | [] => true
  | x :: r => negb (existsb (str_eqb x) r) && nodupb r
  end.
(** a dict has each key once, as any Python dict; specification, models no code *)
Fixpoint wfb (v : value) : bool :=
  match v with
  | VList l => forallb wfb l
  | VDict d => nodupb (dkeys d) && forallb (fun kv => wfb (snd kv)) d
  | _ => true
  end.
(** [wfb] as a proposition; specification *)
Definition wf (v : value) : Prop := wfb v = true.
(** [wf] for a dict; specification *)
Definition wfd (d : dict) : Prop := wf (VDict d).

Lemma nodupb_NoDup l : nodupb l = true <-> NoDup l.
Proof.
  induction l as [|x r IH]; simpl.
  - split; [constructor|reflexivity].
  - rewrite andb_true_iff, IH, negb_true_iff. split.
    + intros [H1 H2]; constructor; [|assumption]. intros Hi.
      assert (existsb (str_eqb x) r = true) as E.
      { apply existsb_exists. exists x; split; [assumption|apply str_eqb_refl]. }
      congruence.
    + intros H; inversion H; subst. split; [|assumption].
      destruct (existsb (str_eqb x) r) eqn:E; [|reflexivity].
      apply existsb_exists in E. destruct E as [y [Hy He]].
      apply str_eqb_eq in He; subst; contradiction.
Qed.

Lemma wf_list l : wf (VList l) <-> Forall wf l.
Proof. unfold wf; simpl. rewrite forallb_forall, Forall_forall. reflexivity. Qed.
Lemma wf_dict d : wf (VDict d) <-> NoDup (dkeys d) /\ Forall (fun kv => wf (snd kv)) d.
Proof.
  unfold wf; simpl. rewrite andb_true_iff, nodupb_NoDup, forallb_forall, Forall_forall.
  reflexivity.
Qed.
Lemma wf_dget d k v : wf (VDict d) -> dget d k = Some v -> wf v.
Proof.
  intros H Hg. apply wf_dict in H. destruct H as [_ H]. rewrite Forall_forall in H.
  apply (H (k, v)). apply dget_In; exact Hg.
Qed.

(** ** Specification: "the same value" *)

(** [vsim R a b]: same shape, dicts with the same keys (order ignored), scalars
    related by [R]. (specification, models no code) *)
Inductive vsim (R : value -> value -> Prop) : value -> value -> Prop :=
| sim_scalar a b : is_scalar a = true -> is_scalar b = true -> R a b -> vsim R a b
| sim_list l m : length l = length m ->
    (forall i x y, nth_error l i = Some x -> nth_error m i = Some y -> vsim R x y) ->
    vsim R (VList l) (VList m)
| sim_dict d e : (forall k, dget d k = None <-> dget e k = None) ->
    (forall k x y, dget d k = Some x -> dget e k = Some y -> vsim R x y) ->
    vsim R (VDict d) (VDict e).

(** two numbers of the same value, or both NaN; specification, models no code *)
Definition num_same (a b : numcls) : Prop :=
  match a, b with
  | NumQ p, NumQ q => (p == q)%Q
  | NumInf s, NumInf t => s = t
  | NumNaN, NumNaN => True
  | _, _ => False
  end.

(** Scalars equal as Python compares them, with NaN counted equal to NaN. (specification, models no code) *)
Definition scalar_same (a b : value) : Prop :=
  match num_of a, num_of b with
  | Some x, Some y => num_same x y
  | None, None => a = b
  | _, _ => False
  end.

(** equal in the sense of Python's [==] (NaN = NaN) (specification, models no code) *)
Definition veq : value -> value -> Prop := vsim scalar_same.
(** equal including the type of every scalar; only dict order is ignored (specification, models no code) *)
Definition vident : value -> value -> Prop := vsim eq.

Section vsim_props.
  Variable R : value -> value -> Prop.
  Lemma vsim_refl : (forall a, R a a) -> forall a, vsim R a a.
  Proof.
    intros HR a. induction a using value_ind'; try (constructor; auto; fail).
    - apply sim_list; [reflexivity|]. intros i x y Hx Hy. rewrite Hx in Hy; inversion Hy; subst.
      rewrite Forall_forall in H. apply H. eapply nth_error_In; eauto.
    - apply sim_dict; [reflexivity|]. intros k x y Hx Hy. rewrite Hx in Hy; inversion Hy; subst.
      rewrite Forall_forall in H. apply dget_In in Hx. exact (H _ Hx).
  Qed.
  Lemma vsim_sym : (forall a b, R a b -> R b a) -> forall a b, vsim R a b -> vsim R b a.
  Proof.
    intros HR a b H. induction H as [a b Ha Hb Hab|l m Hl _ IH|d e Hk _ IH].
    - constructor; auto.
    - apply sim_list; [auto|]. intros; eapply IH; eauto.
    - apply sim_dict; [intros k; symmetry; apply Hk|]. intros; eapply IH; eauto.
  Qed.
  Lemma vsim_trans : (forall a b c, R a b -> R b c -> R a c) ->
    forall a b c, vsim R a b -> vsim R b c -> vsim R a c.
  Proof.
    intros HR a b c H. revert c.
    induction H as [a b Ha Hb Hab|l m Hl _ IH|d e Hk _ IH]; intros c Hc.
    - inversion Hc; subst; simpl in *; try discriminate. constructor; eauto.
    - inversion Hc as [? ? Hs|? n Hl' Hn|]; subst; simpl in *; try discriminate.
      apply sim_list; [congruence|]. intros i x z Hx Hz.
      destruct (nth_error m i) as [y|] eqn:Hy.
      + eapply IH; eauto.
      + apply nth_error_None in Hy.
        assert (nth_error l i <> None) as Hx' by congruence.
        apply nth_error_Some in Hx'. lia.
    - inversion Hc as [? ? Hs| |? f Hk' Hf]; subst; simpl in *; try discriminate.
      apply sim_dict.
      + intros k. rewrite Hk; apply Hk'.
      + intros k x z Hx Hz. destruct (dget e k) as [y|] eqn:Hy.
        * eapply IH; eauto.
        * apply Hk in Hy. congruence.
  Qed.
  Lemma vsim_mono (S : value -> value -> Prop) :
    (forall a b, R a b -> S a b) -> forall a b, vsim R a b -> vsim S a b.
  Proof.
    intros HR a b H. induction H.
    - constructor; auto.
    - apply sim_list; auto.
    - apply sim_dict; auto.
  Qed.
End vsim_props.

Lemma num_same_refl a : num_same a a.
Proof. destruct a; simpl; auto; reflexivity. Qed.
Lemma num_same_sym a b : num_same a b -> num_same b a.
Proof. destruct a, b; simpl; auto; intros; symmetry; auto. Qed.
Lemma num_same_trans a b c : num_same a b -> num_same b c -> num_same a c.
Proof.
  destruct a, b, c; simpl; auto; try tauto.
  - apply Qeq_trans.
  - congruence.
Qed.
Lemma scalar_same_refl a : scalar_same a a.
Proof. unfold scalar_same. destruct (num_of a); [apply num_same_refl|reflexivity]. Qed.
Lemma scalar_same_sym a b : scalar_same a b -> scalar_same b a.
Proof.
  unfold scalar_same. destruct (num_of a), (num_of b); auto. apply num_same_sym.
Qed.
Lemma scalar_same_trans a b c : scalar_same a b -> scalar_same b c -> scalar_same a c.
Proof.
  unfold scalar_same. destruct (num_of a) eqn:Ha, (num_of b) eqn:Hb, (num_of c) eqn:Hc;
    try tauto; try congruence. apply num_same_trans.
Qed.
Lemma veq_refl a : veq a a.
Proof. apply vsim_refl, scalar_same_refl. Qed.
Lemma veq_sym a b : veq a b -> veq b a.
Proof. apply vsim_sym, scalar_same_sym. Qed.
Lemma veq_trans a b c : veq a b -> veq b c -> veq a c.
Proof. apply vsim_trans, scalar_same_trans. Qed.
Lemma vident_refl a : vident a a.
Proof. apply vsim_refl; reflexivity. Qed.
Lemma vident_sym a b : vident a b -> vident b a.
Proof. apply vsim_sym; congruence. Qed.
Lemma vident_trans a b c : vident a b -> vident b c -> vident a c.
Proof. apply vsim_trans; congruence. Qed.
Lemma vident_veq a b : vident a b -> veq a b.
Proof. apply vsim_mono. intros; subst; apply scalar_same_refl. Qed.

(** ** [py_eqb] against [veq] *)

Lemma num_eqb_same a b : num_eqb a b = true -> num_same a b.
Proof.
  destruct a, b; simpl; try discriminate.
  - apply Qeq_bool_iff.
  - apply Bool.eqb_prop.
Qed.
Lemma num_same_eqb a b : a <> NumNaN -> num_same a b -> num_eqb a b = true.
Proof.
  destruct a, b; simpl; try tauto.
  - intros _; apply Qeq_bool_iff.
  - intros _ ->; destruct neg0; reflexivity.
Qed.
Lemma scalar_eqb_same a b : scalar_eqb a b = true -> scalar_same a b.
Proof.
  unfold scalar_eqb, scalar_same. destruct (num_of a), (num_of b); try discriminate.
  - apply num_eqb_same.
  - destruct a, b; try discriminate; auto. intros H; apply str_eqb_eq in H; congruence.
Qed.

Lemma py_eqb_scalar a b : is_scalar a = true -> is_scalar b = true -> py_eqb a b = scalar_eqb a b.
Proof. destruct a, b; simpl; try discriminate; reflexivity. Qed.
Lemma py_eqb_mixed a b : is_scalar a <> is_scalar b -> py_eqb a b = false.
Proof. destruct a, b; simpl; try congruence; reflexivity. Qed.

Lemma list_eqb_nth {A B} (f : A -> B -> bool) l m :
  list_eqb f l m = true <->
  length l = length m /\
  forall i x y, nth_error l i = Some x -> nth_error m i = Some y -> f x y = true.
Proof.
  revert m; induction l as [|x l IH]; intros [|y m]; simpl.
  - split; [|reflexivity]. intros _; split; [reflexivity|]. intros [|i]; discriminate.
  - split; [discriminate|]. intros [H _]; discriminate.
  - split; [discriminate|]. intros [H _]; discriminate.
  - rewrite andb_true_iff, IH. split.
    + intros [H1 [H2 H3]]. split; [congruence|]. intros [|i]; simpl; intros x0 y0 Hx Hy.
      * congruence.
      * eapply H3; eauto.
    + intros [H1 H2]. split; [apply (H2 0); reflexivity|]. split; [congruence|].
      intros i x0 y0 Hx Hy. apply (H2 (S i)); assumption.
Qed.

Lemma py_eqb_dict d e :
  py_eqb (VDict d) (VDict e) = true <->
  length d = length e /\
  forall k v, In (k, v) d -> exists w, dget e k = Some w /\ py_eqb v w = true.
Proof.
  cbn [py_eqb]. rewrite andb_true_iff, Nat.eqb_eq, forallb_forall. split; intros [H1 H2]; split; auto.
  - intros k v Hi. specialize (H2 _ Hi). simpl in H2.
    destruct (dget e k) as [w|]; [|discriminate]. exists w; auto.
  - intros [k v] Hi. simpl. destruct (H2 _ _ Hi) as [w [-> Hw]]. exact Hw.
Qed.

(** Two key sets of the same size, one included in the other, coincide. *)
Lemma keys_incl_eq (d e : dict) : NoDup (dkeys d) -> NoDup (dkeys e) -> length d = length e ->
  (forall k, In k (dkeys d) -> In k (dkeys e)) -> forall k, In k (dkeys e) -> In k (dkeys d).
Proof.
  intros Hd He Hl Hi k Hk.
  assert (incl (dkeys e) (dkeys d)) as H.
  { apply NoDup_length_incl; [exact Hd| |exact Hi].
    unfold dkeys. rewrite !map_length. lia. }
  apply H; exact Hk.
Qed.

Lemma py_eqb_veq a : forall b, wf a -> wf b -> py_eqb a b = true -> veq a b.
Proof.
  induction a as [|a0|a0|a0|a0|l IH|d IH] using value_ind'; intros b Hwa Hwb H;
    try (destruct b; simpl in H; try discriminate;
         (apply sim_scalar; [reflexivity|reflexivity|apply scalar_eqb_same; exact H]); fail).
  - destruct b as [| | | | |m|]; try discriminate.
    cbn [py_eqb] in H. apply list_eqb_nth in H. destruct H as [Hl Hn].
    apply wf_list in Hwa. apply wf_list in Hwb. rewrite Forall_forall in *.
    apply sim_list; [exact Hl|]. intros i x y Hx Hy.
    apply IH; [eapply nth_error_In; eauto|apply Hwa; eapply nth_error_In; eauto
      |apply Hwb; eapply nth_error_In; eauto|eapply Hn; eauto].
  - destruct b as [| | | | | |e]; try discriminate.
    apply py_eqb_dict in H. destruct H as [Hl Hn].
    pose proof Hwa as Hwa'. pose proof Hwb as Hwb'.
    apply wf_dict in Hwa. apply wf_dict in Hwb. destruct Hwa as [Hna Hfa], Hwb as [Hnb Hfb].
    assert (forall k, In k (dkeys d) -> In k (dkeys e)) as Hinc.
    { intros k Hk. apply dget_ex in Hk. destruct Hk as [v Hv]. apply dget_In in Hv.
      destruct (Hn _ _ Hv) as [w [Hw _]]. eapply dget_Some_key; eauto. }
    apply sim_dict.
    + intros k. rewrite !dget_None. split; intros H Hk; apply H; [|auto].
      eapply keys_incl_eq; eauto.
    + intros k x y Hx Hy. apply dget_In in Hx. destruct (Hn _ _ Hx) as [w [Hw He]].
      rewrite Hy in Hw; inversion Hw; subst w.
      rewrite Forall_forall in IH. apply (IH _ Hx); [|eapply wf_dget; eauto|exact He].
      rewrite Forall_forall in Hfa. apply (Hfa _ Hx).
Qed.

(** NaN-free values (specification, models no code) *)
Fixpoint nan_free (v : value) : bool :=
  match v with
  | VFloat S754_nan => false
  | VList l => forallb nan_free l
  | VDict d => forallb (fun kv => nan_free (snd kv)) d
  | _ => true
  end.

Lemma nan_free_num v n : nan_free v = true -> num_of v = Some n -> n <> NumNaN.
Proof.
  destruct v as [|b|z|f|s|l|d]; simpl; intros H E; inversion E; subst; try discriminate.
  destruct f as [s|s| |s m e]; simpl in *; try discriminate.
  destruct e; discriminate.
Qed.

Lemma scalar_same_eqb a b : is_scalar a = true -> nan_free a = true ->
  scalar_same a b -> scalar_eqb a b = true.
Proof.
  unfold scalar_same, scalar_eqb. intros Ha Hn H.
  destruct (num_of a) eqn:Ea, (num_of b) eqn:Eb; try contradiction.
  - apply num_same_eqb; [|exact H]. eapply nan_free_num; eauto.
  - subst b. destruct a; simpl in *; try discriminate; auto. apply str_eqb_refl.
Qed.

Lemma veq_py_eqb a : forall b, wf a -> wf b -> nan_free a = true -> veq a b -> py_eqb a b = true.
Proof.
  induction a as [|a0|a0|a0|a0|l IH|d IH] using value_ind'; intros b Hwa Hwb Hnf H;
  inversion H as [? ? Ha Hb Hab|? m Hl Hm|? e Hk He]; subst; try discriminate;
  try (rewrite py_eqb_scalar by auto; apply scalar_same_eqb; auto; fail);
  cbn [nan_free] in Hnf.
  - cbn [py_eqb]. apply list_eqb_nth. split; [exact Hl|]. intros i x y Hx Hy.
    apply wf_list in Hwa. apply wf_list in Hwb. rewrite Forall_forall in *.
    rewrite forallb_forall in Hnf.
    assert (In x l) by (eapply nth_error_In; eauto).
    assert (In y m) by (eapply nth_error_In; eauto).
    apply IH; auto. eapply Hm; eauto.
  - change (py_eqb (VDict d) (VDict e) = true). apply py_eqb_dict.
    pose proof Hwa as Hwa'. pose proof Hwb as Hwb'.
    apply wf_dict in Hwa. apply wf_dict in Hwb. destruct Hwa as [Hna Hfa], Hwb as [Hnb Hfb].
    rewrite forallb_forall in Hnf.
    assert (forall k, In k (dkeys d) <-> In k (dkeys e)) as Hkk.
    { intros k. specialize (Hk k). rewrite !dget_None in Hk.
      destruct (in_dec str_eq_dec k (dkeys d)), (in_dec str_eq_dec k (dkeys e)); tauto. }
    split.
    + transitivity (length (dkeys d)); [unfold dkeys; rewrite map_length; reflexivity|].
      transitivity (length (dkeys e)); [|unfold dkeys; rewrite map_length; reflexivity].
      apply Nat.le_antisymm; apply NoDup_incl_length; auto; intros k Hi; apply Hkk; exact Hi.
    + intros k v Hi.
      assert (In k (dkeys e)) as Hke.
      { apply Hkk. change k with (fst (k, v)). apply in_map; exact Hi. }
      apply dget_ex in Hke. destruct Hke as [w Hw]. exists w; split; [exact Hw|].
      rewrite Forall_forall in IH, Hfa. apply (IH _ Hi).
      * apply (Hfa _ Hi).
      * eapply wf_dget; eauto.
      * apply (Hnf _ Hi).
      * apply (He k); [apply In_dget; assumption|exact Hw].
Qed.

(** Size of a value, used as the termination measure of [diff]. (proof device) *)
Fixpoint vsize (v : value) : nat :=
  match v with
  | VList l => S (list_sum (map vsize l))
  | VDict d => S (list_sum (map (fun kv => vsize (snd kv)) d))
  | _ => 1
  end.
Lemma vsize_pos v : 1 <= vsize v.
Proof. destruct v; simpl; lia. Qed.
