(** [patch] (splitgill/diffing.py:322-375) with object identity: dicts and lists live in a
    heap and are copied and mutated in place, as the Python code does. *)
From Coq Require Import List ZArith NArith Bool Lia.
From Verif Require Import PyVal Diff DiffProofs.
Import ListNotations.

(** A reference to a heap object, or an immutable scalar. (diffing.py:341-375) *)
Inductive hval := HS (v : value) | HR (a : nat).
(** A mutable container object: dict or list. (diffing.py:341-375) *)
Inductive cell := HD (d : list (pystr * hval)) | HL (l : list hval).
(** The heap; an address is an index. Objects are never freed (garbage is invisible). (diffing.py:341-375) *)
Definition heap := list cell.

(** The [ops] dict of a stored DiffOp, its values being objects of the heap
    (diffing.py:138). *)
Record hops := mkHops {
  h_dc : option (list (pystr * hval));
  h_dn : option (list (pystr * hval));
  h_dd : option (list pystr);
  h_lc : option (list (nat * hval));
  h_ln : option (list hval);
  h_ld : option nat
}.

(** diffing.py:363-364: delete keys one after the other; the flag is false when a key is
    missing (KeyError), the dict then being what is left at that point. *)
Fixpoint del_keys_p (d : list (pystr * hval)) (ks : list pystr) : list (pystr * hval) * bool :=
  match ks with
  | [] => (d, true)
  | k :: ks' => if dmem d k then del_keys_p (ddel d k) ks' else (d, false)
  end.
(** diffing.py:368-369, same convention (IndexError) *)
Fixpoint set_items_p (l : list hval) (cs : list (nat * hval)) : list hval * bool :=
  match cs with
  | [] => (l, true)
  | (i, v) :: cs' => match lset l i v with Some l' => set_items_p l' cs' | None => (l, false) end
  end.

(** diffing.py:357-373 on one container object: its contents after the in-place mutations,
    and whether they all succeeded. List operations on a dict and dict operations on a list
    are modelled as exceptions ([diff] never produces them; CPython would accept "lc" on a
    dict). *)
Definition apply_cell (o : hops) (c : cell) : cell * bool :=
  match c with
  | HD d =>
      let d1 := match h_dc o with Some c => dupdate d c | None => d end in
      let d2 := match h_dn o with Some n => dupdate d1 n | None => d1 end in
      let '(d3, ok) := match h_dd o with Some ks => del_keys_p d2 ks | None => (d2, true) end in
      (HD d3, ok && match h_lc o, h_ln o, h_ld o with None, None, None => true | _, _, _ => false end)
  | HL l =>
      match h_dc o, h_dn o, h_dd o with
      | None, None, None =>
          let '(l1, ok) := match h_lc o with Some cs => set_items_p l cs | None => (l, true) end in
          if ok then
            let l2 := match h_ln o with Some t => l1 ++ t | None => l1 end in
            (HL (match h_ld o with Some n => firstn n l2 | None => l2 end), true)
          else (HL l1, false)
      | _, _, _ => (HL l, false)
      end
  end.

(** diffing.py:351-373: from [target] (address [t]) walk [p]; at each step copy the child
    container into a new object and store the copy in the target; then mutate the last
    target. The flag is false when an exception was raised, the heap then being the one the
    caller is left with. *)
Fixpoint upd_h (p : path) (o : hops) (h : heap) (t : nat) : heap * bool :=
  match nth_error h t with
  | None => (h, false)
  | Some ct =>
      match p with
      | [] => match lset h t (fst (apply_cell o ct)) with
              | Some h' => (h', snd (apply_cell o ct))
              | None => (h, false)
              end
      | PK k :: p' =>
          match ct with
          | HD d =>
              match dget d k with
              | Some (HR c) =>
                  match nth_error h c with
                  | Some cc =>
                      match lset (h ++ [cc]) t (HD (dset d k (HR (length h)))) with
                      | Some h2 => upd_h p' o h2 (length h)
                      | None => (h, false)
                      end
                  | None => (h, false)
                  end
              | _ => (h, false)
              end
          | HL _ => (h, false)
          end
      | PI i :: p' =>
          match ct with
          | HL l =>
              match nth_error l i with
              | Some (HR c) =>
                  match nth_error h c with
                  | Some cc =>
                      match lset l i (HR (length h)) with
                      | Some l' =>
                          match lset (h ++ [cc]) t (HL l') with
                          | Some h2 => upd_h p' o h2 (length h)
                          | None => (h, false)
                          end
                      | None => (h, false)
                      end
                  | None => (h, false)
                  end
              | _ => (h, false)
              end
          | HD _ => (h, false)
          end
      end
  end.

(** diffing.py:347, the loop over all ops, [t] being the address of [new] *)
Fixpoint patch_h_loop (h : heap) (t : nat) (os : list (path * hops)) : heap * bool :=
  match os with
  | [] => (h, true)
  | (p, o) :: os' => let '(h', ok) := upd_h p o h t in
                     if ok then patch_h_loop h' t os' else (h', false)
  end.

(** diffing.py:340-375: returns the heap and the address of the returned dict ([None] when an
    exception escapes); with no ops the very same object [base] is returned. *)
Definition patch_h (h : heap) (base : nat) (os : list (path * hops)) : heap * option nat :=
  match os with
  | [] => (h, Some base)
  | _ =>
      match nth_error h base with
      | Some c => let '(h', ok) := patch_h_loop (h ++ [c]) (length h) os in
                  (h', if ok then Some (length h) else None)
      | None => (h, None)
      end
  end.

(** ** Reading a heap object back as a value *)
Section F2.
  Context {A B : Type} (f : A -> B -> Prop).
  (** proof device *)
  Fixpoint F2 (l : list A) (m : list B) : Prop :=
    match l, m with
    | [], [] => True
    | x :: l', y :: m' => f x y /\ F2 l' m'
    | _, _ => False
    end.
End F2.

(** [rep h v hv]: in heap [h] the object [hv] is the value [v]. (specification, models no code) *)
Fixpoint rep (h : heap) (v : value) (hv : hval) : Prop :=
  match v with
  | VList vs => exists a l, hv = HR a /\ nth_error h a = Some (HL l) /\ F2 (rep h) vs l
  | VDict vd => exists a d, hv = HR a /\ nth_error h a = Some (HD d) /\
                  F2 (fun x y => fst x = fst y /\ rep h (snd x) (snd y)) vd d
  | s => hv = HS s
  end.

(** [h'] keeps every object of [h] as it was. (specification, models no code) *)
Definition extends (h h' : heap) : Prop :=
  forall a c, nth_error h a = Some c -> nth_error h' a = Some c.

Lemma extends_refl h : extends h h.
Proof. intros a c H; exact H. Qed.
Lemma extends_trans a b c : extends a b -> extends b c -> extends a c.
Proof. intros H1 H2 x y H; auto. Qed.
Lemma extends_app h x : extends h (h ++ x).
Proof. intros a c H. rewrite nth_error_app1; [exact H|]. apply nth_error_Some. congruence. Qed.

Lemma F2_impl {A B} (f g : A -> B -> Prop) l : forall m,
  (forall x y, In x l -> In y m -> f x y -> g x y) -> F2 f l m -> F2 g l m.
Proof.
  induction l as [|x l IH]; intros [|y m] H; simpl; auto.
  intros [H1 H2]. split; [apply H; simpl; auto|]. apply IH; [|exact H2].
  intros; apply H; simpl; auto.
Qed.

Lemma rep_mono h h' v : forall hv,
  (forall a c, nth_error h a = Some c -> nth_error h' a = Some c) -> rep h v hv -> rep h' v hv.
Proof.
  induction v as [|v|v|v|v|l IH|d IH] using value_ind'; intros hv He H; simpl in *; auto.
  - destruct H as [a [m [-> [Ha Hm]]]]. exists a, m. split; [reflexivity|]. split; [auto|].
    rewrite Forall_forall in IH. eapply F2_impl; [|exact Hm]. intros; apply IH; auto.
  - destruct H as [a [m [-> [Ha Hm]]]]. exists a, m. split; [reflexivity|]. split; [auto|].
    rewrite Forall_forall in IH. eapply F2_impl; [|exact Hm].
    intros x y Hx Hy [H1 H2]; split; [exact H1|apply (IH x); auto].
Qed.

(** proof device relating heaps and values; models no code *)
Definition rep_ops (h : heap) (o : ops) (ho : hops) : Prop :=
  (match o_dc o, h_dc ho with
   | None, None => True
   | Some x, Some y => F2 (fun a b => fst a = fst b /\ rep h (snd a) (snd b)) x y
   | _, _ => False end) /\
  (match o_dn o, h_dn ho with
   | None, None => True
   | Some x, Some y => F2 (fun a b => fst a = fst b /\ rep h (snd a) (snd b)) x y
   | _, _ => False end) /\
  o_dd o = h_dd ho /\
  (match o_lc o, h_lc ho with
   | None, None => True
   | Some x, Some y => F2 (fun a b => fst a = fst b /\ rep h (snd a) (snd b)) x y
   | _, _ => False end) /\
  (match o_ln o, h_ln ho with
   | None, None => True
   | Some x, Some y => F2 (rep h) x y
   | _, _ => False end) /\
  o_ld o = h_ld ho.

(** proof device relating heaps and values; models no code *)
Definition opt2 {A B} (f : A -> B -> Prop) (x : option A) (y : option B) : Prop :=
  match x, y with Some a, Some b => f a b | None, None => True | _, _ => False end.

Section related.
  Context {A B : Type} (r : A -> B -> Prop).
  Let rd := F2 (fun (x : pystr * A) (y : pystr * B) => fst x = fst y /\ r (snd x) (snd y)).
  Lemma F2_dget d : forall e k, rd d e -> opt2 r (dget d k) (dget e k).
  Proof.
    induction d as [|[k1 v1] d IH]; intros [|[k2 v2] e] k H; simpl in *; try contradiction; auto.
    destruct H as [[H1 H2] H3]; subst. destruct (str_eqb k k2); [exact H2|auto].
  Qed.
  Lemma F2_dset d : forall e k a b, rd d e -> r a b -> rd (dset d k a) (dset e k b).
  Proof.
    induction d as [|[k1 v1] d IH]; intros [|[k2 v2] e] k a b H Hab; simpl in *; try contradiction; auto.
    destruct H as [[H1 H2] H3]; subst. destruct (str_eqb k k2); simpl; [auto|].
    all: auto.
  Qed.
  Lemma F2_ddel d : forall e k, rd d e -> rd (ddel d k) (ddel e k).
  Proof.
    induction d as [|[k1 v1] d IH]; intros [|[k2 v2] e] k H; simpl in *; try contradiction; auto.
    destruct H as [[H1 H2] H3]; subst. destruct (str_eqb k k2); simpl; auto.
    all: auto.
  Qed.
  Lemma F2_dupdate u : forall w d e, rd d e -> rd u w -> rd (dupdate d u) (dupdate e w).
  Proof.
    induction u as [|[k1 v1] u IH]; intros [|[k2 v2] w] d e H Hu; simpl in Hu; try contradiction; auto.
    destruct Hu as [[H1 H2] H3]; subst. rewrite !dupdate_cons. apply IH; [|assumption].
    apply F2_dset; assumption.
  Qed.
  Lemma F2_del_keys ks : forall d e, rd d e -> opt2 rd (del_keys d ks) (del_keys e ks).
  Proof.
    induction ks as [|k ks IH]; intros d e H; simpl; [exact H|].
    pose proof (F2_dget d e k H) as Hg. unfold dmem, opt2 in *.
    destruct (dget d k), (dget e k); try contradiction; [|exact I].
    apply IH. apply F2_ddel; exact H.
  Qed.
  Lemma F2_lset l : forall m i a b, F2 r l m -> r a b -> opt2 (F2 r) (lset l i a) (lset m i b).
  Proof.
    induction l as [|x l IH]; intros [|y m] [|i] a b H Hab; simpl in *; try contradiction; auto; try tauto.
    destruct H as [H1 H2]. specialize (IH m i a b H2 Hab). unfold opt2 in *.
    destruct (lset l i a), (lset m i b); simpl; try contradiction; auto.
  Qed.
  Lemma F2_set_items cs : forall cs' l m, F2 r l m ->
    F2 (fun (x : nat * A) (y : nat * B) => fst x = fst y /\ r (snd x) (snd y)) cs cs' ->
    opt2 (F2 r) (set_items l cs) (set_items m cs').
  Proof.
    induction cs as [|[i a] cs IH]; intros [|[j b] cs'] l m H Hc; simpl in *; try contradiction; auto.
    destruct Hc as [[H1 H2] H3]; subst. pose proof (F2_lset l m j a b H H2) as Hs.
    unfold opt2 in Hs. destruct (lset l j a), (lset m j b); try contradiction; [|exact I].
    apply IH; assumption.
  Qed.
  Lemma F2_nth l : forall m i, F2 r l m -> opt2 r (nth_error l i) (nth_error m i).
  Proof.
    induction l as [|x l IH]; intros [|y m] [|i] H; simpl in *; try contradiction; auto; try tauto.
    apply IH; tauto.
  Qed.
  Lemma F2_app l : forall m l' m', F2 r l m -> F2 r l' m' -> F2 r (l ++ l') (m ++ m').
  Proof.
    induction l as [|x l IH]; intros [|y m] l' m' H H'; simpl in *; try contradiction; auto.
    destruct H; split; auto.
  Qed.
  Lemma F2_firstn n : forall l m, F2 r l m -> F2 r (firstn n l) (firstn n m).
  Proof.
    induction n as [|n IH]; intros [|x l] [|y m] H; simpl in *; try contradiction; auto.
    destruct H; split; auto.
  Qed.
End related.

(** proof device relating heaps and values; models no code *)
Definition rep_cell (h : heap) (v : value) (c : cell) : Prop :=
  match v, c with
  | VDict vd, HD d => F2 (fun x y => fst x = fst y /\ rep h (snd x) (snd y)) vd d
  | VList vl, HL l => F2 (rep h) vl l
  | _, _ => False
  end.

Lemma rep_ref h v a : rep h v (HR a) <-> exists c, nth_error h a = Some c /\ rep_cell h v c.
Proof.
  destruct v; simpl; split; try discriminate; try (intros [c [_ []]]).
  - intros [a' [m [He [Hn Hf]]]]. inversion He; subst. exists (HL m); auto.
  - intros [c [Hc Hr]]. destruct c; [contradiction|]. exists a, l0; auto.
  - intros [a' [m [He [Hn Hf]]]]. inversion He; subst. exists (HD m); auto.
  - intros [c [Hc Hr]]. destruct c; [|contradiction]. exists a, d0; auto.
Qed.

(** proof device relating heaps and values; models no code *)
Definition apply_cell_ok (o : hops) (c : cell) : option cell :=
  match c with
  | HD d =>
      match h_lc o, h_ln o, h_ld o with
      | None, None, None =>
          let d1 := match h_dc o with Some c => dupdate d c | None => d end in
          let d2 := match h_dn o with Some n => dupdate d1 n | None => d1 end in
          match h_dd o with
          | Some ks => match del_keys d2 ks with Some d3 => Some (HD d3) | None => None end
          | None => Some (HD d2)
          end
      | _, _, _ => None
      end
  | HL l =>
      match h_dc o, h_dn o, h_dd o with
      | None, None, None =>
          match (match h_lc o with Some cs => set_items l cs | None => Some l end) with
          | None => None
          | Some l1 =>
              let l2 := match h_ln o with Some t => l1 ++ t | None => l1 end in
              Some (HL (match h_ld o with Some n => firstn n l2 | None => l2 end))
          end
      | _, _, _ => None
      end
  end.
Lemma del_keys_p_ok ks : forall d, del_keys d ks = if snd (del_keys_p d ks) then Some (fst (del_keys_p d ks)) else None.
Proof.
  induction ks as [|k ks IH]; intros d; simpl; [reflexivity|]. destruct (dmem d k); [apply IH|reflexivity].
Qed.
Lemma set_items_p_ok cs : forall l, set_items l cs = if snd (set_items_p l cs) then Some (fst (set_items_p l cs)) else None.
Proof.
  induction cs as [|[i v] cs IH]; intros d; simpl; [reflexivity|]. destruct (lset d i v); [apply IH|reflexivity].
Qed.
Lemma apply_cell_ok_spec o c : apply_cell_ok o c = if snd (apply_cell o c) then Some (fst (apply_cell o c)) else None.
Proof.
  destruct c as [d|l]; cbn [apply_cell_ok apply_cell].
  - set (d2 := match h_dn o with Some n => _ | None => _ end).
    destruct (h_lc o), (h_ln o), (h_ld o), (h_dd o) as [ks|]; try rewrite (del_keys_p_ok ks d2);
      try (destruct (del_keys_p d2 ks) as [d3 [|]]; reflexivity); reflexivity.
  - destruct (h_dc o); [reflexivity|]. destruct (h_dn o); [reflexivity|]. destruct (h_dd o); [reflexivity|].
    destruct (h_lc o) as [cs|]; [|reflexivity]. rewrite set_items_p_ok.
    destruct (set_items_p l cs) as [l1 [|]]; reflexivity.
Qed.

Lemma apply_cell_rep h o ho v c : rep_ops h o ho -> rep_cell h v c ->
  opt2 (rep_cell h) (apply_ops o v) (apply_cell_ok ho c).
Proof.
  intros (H1 & H2 & H3 & H4 & H5 & H6) Hc. unfold rep_cell in Hc.
  destruct v; try contradiction; destruct c; try contradiction; cbn [apply_ops apply_cell_ok].
  - rewrite H3, H6. destruct (o_dc o), (h_dc ho); try contradiction; [exact I|].
    destruct (o_dn o), (h_dn ho); try contradiction; [exact I|].
    destruct (h_dd ho); [exact I|].
    assert (opt2 (F2 (rep h)) (match o_lc o with Some cs => set_items l cs | None => Some l end)
                 (match h_lc ho with Some cs => set_items l0 cs | None => Some l0 end)) as Hs.
    { destruct (o_lc o), (h_lc ho); try contradiction; [|exact Hc].
      apply F2_set_items; assumption. }
    unfold opt2 in Hs.
    destruct (match o_lc o with Some cs => set_items l cs | None => Some l end),
             (match h_lc ho with Some cs => set_items l0 cs | None => Some l0 end); try contradiction; [|exact I].
    simpl.
    assert (F2 (rep h) (match o_ln o with Some t => l1 ++ t | None => l1 end)
                       (match h_ln ho with Some t => l2 ++ t | None => l2 end)) as Hl.
    { destruct (o_ln o), (h_ln ho); try contradiction; [apply F2_app; assumption|assumption]. }
    destruct (h_ld ho); [apply F2_firstn; assumption|assumption].
  - rewrite H3, H6. destruct (o_lc o), (h_lc ho); try contradiction; [exact I|].
    destruct (o_ln o), (h_ln ho); try contradiction; [exact I|].
    destruct (h_ld ho); [exact I|].
    set (d1 := match o_dc o with Some c => dupdate d c | None => d end) in *.
    set (e1 := match h_dc ho with Some c => dupdate d0 c | None => d0 end) in *.
    assert (F2 (fun x y => fst x = fst y /\ rep h (snd x) (snd y)) d1 e1) as Hd1.
    { unfold d1, e1. destruct (o_dc o), (h_dc ho); try contradiction; [apply F2_dupdate; assumption|assumption]. }
    set (d2 := match o_dn o with Some c => dupdate d1 c | None => d1 end) in *.
    set (e2 := match h_dn ho with Some c => dupdate e1 c | None => e1 end) in *.
    assert (F2 (fun x y => fst x = fst y /\ rep h (snd x) (snd y)) d2 e2) as Hd2.
    { unfold d2, e2. destruct (o_dn o), (h_dn ho); try contradiction; [apply F2_dupdate; assumption|assumption]. }
    destruct (h_dd ho) as [ks|]; [|exact Hd2].
    pose proof (F2_del_keys (rep h) ks d2 e2 Hd2) as Hk. unfold opt2 in Hk.
    destruct (del_keys d2 ks), (del_keys e2 ks); try contradiction; [exact Hk|exact I].
Qed.

(** A strictly smaller value does not go through the object of a larger one. *)
Lemma rep_det h v : forall w hv, rep h v hv -> rep h w hv -> v = w.
Proof.
  assert (forall A (f : A -> hval -> Prop) l m n,
    (forall x, In x l -> forall y z, f x z -> f y z -> x = y) ->
    F2 f l n -> F2 f m n -> l = m) as HF.
  { intros A f; induction l as [|x l IH]; intros [|y m] [|z n] H H1 H2; simpl in *; try contradiction; auto.
    destruct H1, H2. f_equal; [eapply H; eauto|eapply IH; eauto]. }
  induction v as [|v|v|v|v|l IH|d IH] using value_ind'; intros w hv H1 H2;
    try (simpl in H1; subst hv; destruct w; simpl in H2; try congruence;
         destruct H2 as [? [? [H2 _]]]; discriminate).
  - simpl in H1. destruct H1 as [a [m [-> [Ha Hm]]]].
    apply rep_ref in H2. destruct H2 as [c [Hc Hr]]. rewrite Ha in Hc; inversion Hc; subst c.
    destruct w; simpl in Hr; try contradiction. f_equal.
    rewrite Forall_forall in IH. eapply HF; eauto.
  - simpl in H1. destruct H1 as [a [m [-> [Ha Hm]]]].
    apply rep_ref in H2. destruct H2 as [c [Hc Hr]]. rewrite Ha in Hc; inversion Hc; subst c.
    destruct w; simpl in Hr; try contradiction. f_equal.
    rewrite Forall_forall in IH.
    clear Ha Hc. revert d0 m Hm Hr IH. induction d as [|[k x] d IHd]; intros [|[k' y] e] [|[k2 z] n] Hm Hr IH;
      simpl in *; try contradiction; auto.
    destruct Hm as [[E1 R1] H1], Hr as [[E2 R2] H2]. subst. f_equal.
    + f_equal. eapply (IH (k2, x)); [auto|exact R1|exact R2].
    + eapply IHd; eauto.
Qed.

(** Writing to address [t] does not affect objects whose value is smaller than [t]'s. *)
Lemma rep_write h t c v0 h' v : forall hv, lset h t c = Some h' -> rep h v0 (HR t) ->
  vsize v < vsize v0 -> rep h v hv -> rep h' v hv.
Proof.
  intros hv Hw Ht.
  assert (forall a, a <> t -> nth_error h' a = nth_error h a) as Hne.
  { intros a Hat. destruct (nth_error h t) as [c0|] eqn:E.
    - destruct (lset_spec h t c c0 E) as [h2 [L1 [_ L3]]]. rewrite Hw in L1; inversion L1; subst.
      rewrite L3. apply Nat.eqb_neq in Hat. rewrite Hat. reflexivity.
    - exfalso. apply rep_ref in Ht. destruct Ht as [x [Hx _]]. congruence. }
  revert hv. induction v as [|v|v|v|v|l IH|d IH] using value_ind'; intros hv Hs H; simpl in H; auto.
  - destruct H as [a [m [-> [Ha Hm]]]].
    destruct (Nat.eq_dec a t) as [->|Hat].
    { exfalso. assert (rep h (VList l) (HR t)) as Hr by (simpl; eauto).
      rewrite (rep_det _ _ _ _ Hr Ht) in Hs. lia. }
    simpl. exists a, m. rewrite Hne by exact Hat. split; [reflexivity|]. split; [exact Ha|].
    rewrite Forall_forall in IH. eapply F2_impl; [|exact Hm].
    intros x y Hx Hy Hr. apply IH; auto.
    apply In_nth_error in Hx. destruct Hx as [i Hi]. apply vsize_nth in Hi. lia.
  - destruct H as [a [m [-> [Ha Hm]]]].
    destruct (Nat.eq_dec a t) as [->|Hat].
    { exfalso. assert (rep h (VDict d) (HR t)) as Hr by (simpl; eauto).
      rewrite (rep_det _ _ _ _ Hr Ht) in Hs. lia. }
    simpl. exists a, m. rewrite Hne by exact Hat. split; [reflexivity|]. split; [exact Ha|].
    rewrite Forall_forall in IH. eapply F2_impl; [|exact Hm].
    intros x y Hx Hy [E Hr]. split; [exact E|]. apply (IH x Hx); auto.
    assert (vsize (snd x) < vsize (VDict d)); [|lia].
    clear - Hx. cbn [vsize]. induction d as [|z d IHd]; [contradiction|].
    cbn [map]. change (list_sum (?a :: ?b)) with (a + list_sum b).
    destruct Hx as [->|Hx]; [lia|]. specialize (IHd Hx). lia.
Qed.

(** ** One operation *)
Lemma upd_h_spec h0 o ho : rep_ops h0 o ho -> forall p h t v,
  extends h0 h -> length h0 <= t -> rep h v (HR t) ->
  match upd_path p (apply_ops o) v with
  | None => snd (upd_h p ho h t) = false
  | Some v' => exists h', upd_h p ho h t = (h', true) /\ rep h' v' (HR t) /\ length h <= length h' /\
                 (forall a, a <> t -> a < length h -> nth_error h' a = nth_error h a)
  end.
Proof.
  intros Ho.
  assert (forall h, extends h0 h -> rep_ops h o ho) as Hoe.
  { intros h He. destruct Ho as (H1 & H2 & H3 & H4 & H5 & H6).
    unfold rep_ops. repeat split; auto.
    - destruct (o_dc o), (h_dc ho); auto. eapply F2_impl; [|exact H1].
      intros x y _ _ [E R]; split; auto. eapply rep_mono; eauto.
    - destruct (o_dn o), (h_dn ho); auto. eapply F2_impl; [|exact H2].
      intros x y _ _ [E R]; split; auto. eapply rep_mono; eauto.
    - destruct (o_lc o), (h_lc ho); auto. eapply F2_impl; [|exact H4].
      intros x y _ _ [E R]; split; auto. eapply rep_mono; eauto.
    - destruct (o_ln o), (h_ln ho); auto. eapply F2_impl; [|exact H5].
      intros x y _ _ R. eapply rep_mono; eauto. }
  assert (forall (h : heap) t c0 c, nth_error h t = Some c0 -> exists h', lset h t c = Some h' /\ length h' = length h /\
    nth_error h' t = Some c /\ forall a, a <> t -> nth_error h' a = nth_error h a) as Hset.
  { intros h t c0 c Hn. destruct (lset_spec h t c c0 Hn) as [h' [L1 [L2 L3]]].
    exists h'. split; [exact L1|]. split; [exact L2|]. split; [rewrite L3, Nat.eqb_refl; reflexivity|].
    intros a Ha. rewrite L3. apply Nat.eqb_neq in Ha; rewrite Ha; reflexivity. }
  assert (forall (h : heap) t h', (forall a, a <> t -> a < length h -> nth_error h' a = nth_error h a) ->
    extends h0 h -> length h0 <= t -> extends h0 h') as Hext.
  { intros h t h' Hf He Ht a c Hc. rewrite Hf; [apply He; exact Hc| |].
    - assert (a < length h0) by (apply nth_error_Some; congruence). lia.
    - apply nth_error_Some. rewrite (He _ _ Hc). discriminate. }
  induction p as [|key p IH]; intros h t v He Ht Hr.
  - pose proof Hr as Hr'. apply rep_ref in Hr'. destruct Hr' as [c [Hc Hrc]].
    cbn [upd_path upd_h]. rewrite Hc.
    pose proof (apply_cell_rep h o ho v c (Hoe h He) Hrc) as Ha. unfold opt2 in Ha.
    pose proof (apply_cell_ok_spec ho c) as Hok.
    destruct (apply_ops o v) as [v'|] eqn:Ev; destruct (apply_cell_ok ho c) as [c'|] eqn:Ec'; try contradiction.
    2:{ destruct (apply_cell ho c) as [c1 [|]]; cbn [fst snd] in *; [discriminate|].
        destruct (lset h t c1); reflexivity. }
    destruct (apply_cell ho c) as [c1 ok]; cbn [fst snd] in *. destruct ok; [|discriminate].
    inversion Hok; subst c1. clear Hok.
    destruct (Hset h t c c' Hc) as [h' [L1 [L2 [L3 L4]]]].
    exists h'. rewrite L1. split; [reflexivity|]. split; [|split; [lia|intros; apply L4; assumption]].
    assert (extends h0 h') as He' by (eapply Hext; eauto; intros; apply L4; assumption).
    (* recompute the application in h', where op objects and the old children still live *)
    apply rep_ref. exists c'. split; [exact L3|].
    assert (rep_cell h' v c) as Hrc'.
    { destruct v; simpl in Hrc; try contradiction; destruct c; try contradiction; simpl.
      - eapply F2_impl; [|exact Hrc]. intros x y Hx Hy Hxy.
        eapply rep_write; [exact L1|exact Hr| |exact Hxy].
        apply In_nth_error in Hx. destruct Hx as [i Hi]. eapply vsize_nth; exact Hi.
      - eapply F2_impl; [|exact Hrc]. intros x y Hx Hy [E Hxy]. split; [exact E|].
        eapply rep_write; [exact L1|exact Hr| |exact Hxy].
        clear - Hx. cbn [vsize]. induction d as [|z d IHd]; [contradiction|].
        cbn [map]. change (list_sum (?a :: ?b)) with (a + list_sum b).
        destruct Hx as [->|Hx]; [lia|]. specialize (IHd Hx). lia. }
    pose proof (apply_cell_rep h' o ho v c (Hoe h' He') Hrc') as Ha'. unfold opt2 in Ha'.
    rewrite Ev, Ec' in Ha'. exact Ha'.
  - destruct key as [k|i].
    + (* dict key *)
      cbn [upd_path]. pose proof Hr as Hr'. apply rep_ref in Hr'. destruct Hr' as [c [Hc Hrc]].
      cbn [upd_h]. rewrite Hc.
      destruct v; simpl in Hrc; try contradiction; destruct c as [e|e]; try contradiction; [reflexivity|].
      pose proof (F2_dget (rep h) d e k Hrc) as Hg. unfold opt2 in Hg.
      destruct (dget d k) as [cv|] eqn:Edk; destruct (dget e k) as [hc|] eqn:Eek; try contradiction; [|reflexivity].
      destruct hc as [s|ca].
      { assert (upd_path p (apply_ops o) cv = None) as ->; [|reflexivity].
        destruct cv; simpl in Hg; try (destruct Hg as [? [? [? _]]]; discriminate);
          destruct p as [|[?|?] ?]; reflexivity. }
      pose proof Hg as Hg'. apply rep_ref in Hg'. destruct Hg' as [cc [Hcc Hrcc]].
      rewrite Hcc.
      assert (nth_error (h ++ [cc]) t = Some (HD e)) as Hc1 by (apply extends_app; exact Hc).
      destruct (Hset _ _ _ (HD (dset e k (HR (length h)))) Hc1) as [h2 [L1 [L2 [L3 L4]]]].
      rewrite L1. rewrite app_length in L2; simpl in L2.
      assert (t < length h) as Htl by (apply nth_error_Some; congruence).
      assert (vsize cv < vsize (VDict d)) as Hsz by (eapply vsize_dget; exact Edk).
      assert (rep (h ++ [cc]) (VDict d) (HR t)) as Hr1 by (eapply rep_mono; [apply extends_app|exact Hr]).
      assert (forall w hw, vsize w < vsize (VDict d) -> rep h w hw -> rep h2 w hw) as Hkeep.
      { intros w hw Hw Hrw. eapply rep_write; [exact L1|exact Hr1|exact Hw|].
        eapply rep_mono; [apply extends_app|exact Hrw]. }
      assert (rep h2 cv (HR (length h))) as Hcv2.
      { apply rep_ref. exists cc. split.
        - rewrite L4 by lia. rewrite nth_error_app2, Nat.sub_diag by lia. reflexivity.
        - destruct cv; simpl in Hrcc; try contradiction; destruct cc; try contradiction; simpl.
          + eapply F2_impl; [|exact Hrcc]. intros x y Hx Hy Hxy. apply Hkeep; [|exact Hxy].
            apply In_nth_error in Hx. destruct Hx as [j Hj]. apply vsize_nth in Hj. lia.
          + eapply F2_impl; [|exact Hrcc]. intros x y Hx Hy [E Hxy]. split; [exact E|].
            apply Hkeep; [|exact Hxy].
            assert (vsize (snd x) < vsize (VDict d0)); [|lia].
            clear - Hx. cbn [vsize]. induction d0 as [|z d0 IHd]; [contradiction|].
            cbn [map]. change (list_sum (?a :: ?b)) with (a + list_sum b).
            destruct Hx as [->|Hx]; [lia|]. specialize (IHd Hx). lia. }
      assert (extends h0 h2) as He2.
      { eapply (Hext h t); eauto. intros a Ha Hal. rewrite L4 by exact Ha.
        apply nth_error_app1; exact Hal. }
      specialize (IH h2 (length h) cv He2 ltac:(lia) Hcv2).
      destruct (upd_path p (apply_ops o) cv) as [cv'|] eqn:Eu; [|exact IH].
      destruct IH as [h' [I1 [I2 [I3 I4]]]]. exists h'. split; [exact I1|]. split; [|split].
      * apply rep_ref. exists (HD (dset e k (HR (length h)))). split.
        { rewrite I4 by lia. exact L3. }
        simpl. apply (F2_dset (rep h')); [|exact I2].
        eapply F2_impl; [|exact Hrc]. intros x y Hx Hy [E Hxy]. split; [exact E|].
        (* children of t live in h, below length h, and are not t *)
        assert (vsize (snd x) < vsize (VDict d)) as Hxs.
        { clear - Hx. cbn [vsize]. induction d as [|z d IHd]; [contradiction|].
          cbn [map]. change (list_sum (?a :: ?b)) with (a + list_sum b).
          destruct Hx as [->|Hx]; [lia|]. specialize (IHd Hx). lia. }
        assert (rep h' (snd x) (snd y)) as Hdone.
        { assert (exists h3, lset h t (HD []) = Some h3) as [h3 Hh3].
          { destruct (Hset h t _ (HD []) Hc) as [h3 [Hh3 _]]. eauto. }
          assert (forall w hw, vsize w < vsize (VDict d) -> rep h w hw -> rep h' w hw) as Hall.
          { intros w. induction w as [|w|w|w|w|wl IHw|wd IHw] using value_ind'; intros hw Hw Hrw; simpl in Hrw; auto.
            - destruct Hrw as [a [m [-> [Ha Hm]]]].
              assert (a <> t) as Hat.
              { intros ->. assert (rep h (VList wl) (HR t)) as Hq by (simpl; eauto).
                pose proof (rep_det _ _ _ _ Hq Hr) as Hq2. discriminate. }
              simpl. exists a, m. split; [reflexivity|]. split.
              + assert (a < length h) by (apply nth_error_Some; congruence).
                rewrite I4 by lia. rewrite L4 by exact Hat. apply extends_app; exact Ha.
              + rewrite Forall_forall in IHw. eapply F2_impl; [|exact Hm].
                intros x' y' Hx' Hy' Hr'. apply IHw; auto.
                apply In_nth_error in Hx'. destruct Hx' as [j Hj]. apply vsize_nth in Hj. lia.
            - destruct Hrw as [a [m [-> [Ha Hm]]]].
              assert (a <> t) as Hat.
              { intros ->. assert (rep h (VDict wd) (HR t)) as Hq by (simpl; eauto).
                pose proof (rep_det _ _ _ _ Hq Hr) as Hq2. rewrite Hq2 in Hw. lia. }
              simpl. exists a, m. split; [reflexivity|]. split.
              + assert (a < length h) by (apply nth_error_Some; congruence).
                rewrite I4 by lia. rewrite L4 by exact Hat. apply extends_app; exact Ha.
              + rewrite Forall_forall in IHw. eapply F2_impl; [|exact Hm].
                intros x' y' Hx' Hy' [E' Hr']. split; [exact E'|]. apply (IHw x' Hx'); auto.
                assert (vsize (snd x') < vsize (VDict wd)); [|lia].
                clear - Hx'. cbn [vsize]. induction wd as [|z wd IHd]; [contradiction|].
                cbn [map]. change (list_sum (?a :: ?b)) with (a + list_sum b).
                destruct Hx' as [->|Hx']; [lia|]. specialize (IHd Hx'). lia. }
          apply Hall; assumption. }
        exact Hdone.
      * lia.
      * intros a Ha Hal. rewrite I4 by lia. rewrite L4 by exact Ha. apply nth_error_app1; exact Hal.
    + (* list index *)
      cbn [upd_path]. pose proof Hr as Hr'. apply rep_ref in Hr'. destruct Hr' as [c [Hc Hrc]].
      cbn [upd_h]. rewrite Hc.
      destruct v; simpl in Hrc; try contradiction; destruct c as [e|e]; try contradiction; [|reflexivity].
      pose proof (F2_nth (rep h) l e i Hrc) as Hg. unfold opt2 in Hg.
      destruct (nth_error l i) as [cv|] eqn:Edk; destruct (nth_error e i) as [hc|] eqn:Eek; try contradiction; [|reflexivity].
      destruct hc as [s|ca].
      { assert (upd_path p (apply_ops o) cv = None) as ->; [|reflexivity].
        destruct cv; simpl in Hg; try (destruct Hg as [? [? [? _]]]; discriminate);
          destruct p as [|[?|?] ?]; reflexivity. }
      pose proof Hg as Hg'. apply rep_ref in Hg'. destruct Hg' as [cc [Hcc Hrcc]].
      rewrite Hcc.
      destruct (lset_spec e i (HR (length h)) _ Eek) as [e' [Le1 [Le2 Le3]]]. rewrite Le1.
      assert (nth_error (h ++ [cc]) t = Some (HL e)) as Hc1 by (apply extends_app; exact Hc).
      destruct (Hset _ _ _ (HL e') Hc1) as [h2 [L1 [L2 [L3 L4]]]].
      rewrite L1. rewrite app_length in L2; simpl in L2.
      assert (t < length h) as Htl by (apply nth_error_Some; congruence).
      assert (vsize cv < vsize (VList l)) as Hsz by (eapply vsize_nth; exact Edk).
      assert (rep (h ++ [cc]) (VList l) (HR t)) as Hr1 by (eapply rep_mono; [apply extends_app|exact Hr]).
      assert (forall w hw, vsize w < vsize (VList l) -> rep h w hw -> rep h2 w hw) as Hkeep.
      { intros w hw Hw Hrw. eapply rep_write; [exact L1|exact Hr1|exact Hw|].
        eapply rep_mono; [apply extends_app|exact Hrw]. }
      assert (rep h2 cv (HR (length h))) as Hcv2.
      { apply rep_ref. exists cc. split.
        - rewrite L4 by lia. rewrite nth_error_app2, Nat.sub_diag by lia. reflexivity.
        - destruct cv; simpl in Hrcc; try contradiction; destruct cc; try contradiction; simpl.
          + eapply F2_impl; [|exact Hrcc]. intros x y Hx Hy Hxy. apply Hkeep; [|exact Hxy].
            apply In_nth_error in Hx. destruct Hx as [j Hj]. apply vsize_nth in Hj. lia.
          + eapply F2_impl; [|exact Hrcc]. intros x y Hx Hy [E Hxy]. split; [exact E|].
            apply Hkeep; [|exact Hxy].
            assert (vsize (snd x) < vsize (VDict d)); [|lia].
            clear - Hx. cbn [vsize]. induction d as [|z d0 IHd]; [contradiction|].
            cbn [map]. change (list_sum (?a :: ?b)) with (a + list_sum b).
            destruct Hx as [->|Hx]; [lia|]. specialize (IHd Hx). lia. }
      assert (extends h0 h2) as He2.
      { eapply (Hext h t); eauto. intros a Ha Hal. rewrite L4 by exact Ha.
        apply nth_error_app1; exact Hal. }
      specialize (IH h2 (length h) cv He2 ltac:(lia) Hcv2).
      destruct (upd_path p (apply_ops o) cv) as [cv'|] eqn:Eu; [|exact IH].
      destruct (lset_spec l i cv' _ Edk) as [l' [Ll1 [Ll2 Ll3]]]. rewrite Ll1.
      destruct IH as [h' [I1 [I2 [I3 I4]]]]. exists h'. split; [exact I1|]. split; [|split].
      * apply rep_ref. exists (HL e'). split.
        { rewrite I4 by lia. exact L3. }
        simpl.
        assert (F2 (rep h') l e) as Hbase.
        { eapply F2_impl; [|exact Hrc]. intros x y Hx Hy Hxy.
          assert (vsize x < vsize (VList l)) as Hxs.
          { apply In_nth_error in Hx. destruct Hx as [j Hj]. eapply vsize_nth; exact Hj. }
          assert (forall w hw, vsize w < vsize (VList l) -> rep h w hw -> rep h' w hw) as Hall.
          { intros w. induction w as [|w|w|w|w|wl IHw|wd IHw] using value_ind'; intros hw Hw Hrw; simpl in Hrw; auto.
            - destruct Hrw as [a [m [-> [Ha Hm]]]].
              assert (a <> t) as Hat.
              { intros ->. assert (rep h (VList wl) (HR t)) as Hq by (simpl; eauto).
                pose proof (rep_det _ _ _ _ Hq Hr) as Hq2. rewrite Hq2 in Hw. lia. }
              simpl. exists a, m. split; [reflexivity|]. split.
              + assert (a < length h) by (apply nth_error_Some; congruence).
                rewrite I4 by lia. rewrite L4 by exact Hat. apply extends_app; exact Ha.
              + rewrite Forall_forall in IHw. eapply F2_impl; [|exact Hm].
                intros x' y' Hx' Hy' Hr'. apply IHw; auto.
                apply In_nth_error in Hx'. destruct Hx' as [j Hj]. apply vsize_nth in Hj. lia.
            - destruct Hrw as [a [m [-> [Ha Hm]]]].
              assert (a <> t) as Hat.
              { intros ->. assert (rep h (VDict wd) (HR t)) as Hq by (simpl; eauto).
                pose proof (rep_det _ _ _ _ Hq Hr) as Hq2. discriminate. }
              simpl. exists a, m. split; [reflexivity|]. split.
              + assert (a < length h) by (apply nth_error_Some; congruence).
                rewrite I4 by lia. rewrite L4 by exact Hat. apply extends_app; exact Ha.
              + rewrite Forall_forall in IHw. eapply F2_impl; [|exact Hm].
                intros x' y' Hx' Hy' [E' Hr']. split; [exact E'|]. apply (IHw x' Hx'); auto.
                assert (vsize (snd x') < vsize (VDict wd)); [|lia].
                clear - Hx'. cbn [vsize]. induction wd as [|z wd IHd]; [contradiction|].
                cbn [map]. change (list_sum (?a :: ?b)) with (a + list_sum b).
                destruct Hx' as [->|Hx']; [lia|]. specialize (IHd Hx'). lia. }
          apply Hall; assumption. }
        pose proof (F2_lset (rep h') l e i cv' (HR (length h)) Hbase I2) as Hfin.
        unfold opt2 in Hfin. rewrite Ll1, Le1 in Hfin. exact Hfin.
      * lia.
      * intros a Ha Hal. rewrite I4 by lia. rewrite L4 by exact Ha. apply nth_error_app1; exact Hal.
Qed.

Lemma patch_h_loop_spec h0 t : length h0 <= t -> forall os hos,
  F2 (fun (o : diffop) (ho : path * hops) => dpath o = fst ho /\ rep_ops h0 (dops o) (snd ho)) os hos ->
  forall h v, extends h0 h -> rep h v (HR t) ->
  match patch_loop v os with
  | None => snd (patch_h_loop h t hos) = false
  | Some v' => exists h', patch_h_loop h t hos = (h', true) /\ rep h' v' (HR t) /\ extends h0 h'
  end.
Proof.
  intros Ht. induction os as [|o os IH]; intros [|[p ho] hos] Hos h v He Hr; simpl in Hos; try contradiction.
  - simpl. exists h; auto.
  - destruct Hos as [[Hp Ho] Hos]. subst p. cbn [patch_loop patch_h_loop].
    pose proof (upd_h_spec h0 (dops o) ho Ho (dpath o) h t v He Ht Hr) as Hu.
    destruct (upd_path (dpath o) (apply_ops (dops o)) v) as [v1|].
    + destruct Hu as [h1 [U1 [U2 [U3 U4]]]]. rewrite U1. apply IH; auto.
      intros a c Hc. assert (a < length h0) by (apply nth_error_Some; congruence).
      rewrite U4; [apply He; exact Hc|lia|]. apply nth_error_Some. rewrite (He _ _ Hc). discriminate.
    + destruct (upd_h (dpath o) ho h t) as [h1 ok]. cbn [snd] in Hu. subst ok. reflexivity.
Qed.

Lemma patch_h_spec h base b os hos :
  rep h (VDict b) (HR base) ->
  F2 (fun (o : diffop) (ho : path * hops) => dpath o = fst ho /\ rep_ops h (dops o) (snd ho)) os hos ->
  match patch_loop (VDict b) os with
  | None => snd (patch_h h base hos) = None
  | Some v => exists h' r, patch_h h base hos = (h', Some r) /\ rep h' v (HR r) /\ extends h h'
  end.
Proof.
  intros Hr Hos. unfold patch_h. destruct hos as [|ho hos].
  - destruct os; simpl in Hos; [|contradiction]. simpl. exists h, base.
    split; [reflexivity|]. split; [exact Hr|apply extends_refl].
  - pose proof Hr as Hr'. apply rep_ref in Hr'. destruct Hr' as [c [Hc Hrc]]. rewrite Hc.
    assert (rep (h ++ [c]) (VDict b) (HR (length h))) as Hr2.
    { apply rep_ref. exists c. split.
      - rewrite nth_error_app2, Nat.sub_diag by lia. reflexivity.
      - simpl in Hrc. destruct c; [|contradiction]. simpl. eapply F2_impl; [|exact Hrc].
        intros x y _ _ [E R]. split; [exact E|]. eapply rep_mono; [apply extends_app|exact R]. }
    pose proof (patch_h_loop_spec h (length h) (le_n _) os (ho :: hos) Hos (h ++ [c]) (VDict b)
                  (extends_app _ _) Hr2) as Hp.
    destruct (patch_loop (VDict b) os) as [v|].
    + destruct Hp as [h' [P1 [P2 P3]]]. rewrite P1. exists h', (length h). auto.
    + destruct (patch_h_loop (h ++ [c]) (length h) (ho :: hos)) as [h1 ok]. cbn [snd] in Hp. subst ok. reflexivity.
Qed.

(** Whether [patch] succeeds or raises, and whatever the operations are, no object that
    existed before the call is changed. *)
Lemma upd_h_frame p o : forall h t h' ok, t < length h -> upd_h p o h t = (h', ok) ->
  length h <= length h' /\ forall a, a <> t -> a < length h -> nth_error h' a = nth_error h a.
Proof.
  assert (forall (h : heap) t c h', lset h t c = Some h' ->
    length h' = length h /\ forall a, a <> t -> nth_error h' a = nth_error h a) as Hset.
  { intros h t c h' H. destruct (nth_error h t) as [c0|] eqn:E.
    - destruct (lset_spec h t c c0 E) as [h2 [L1 [L2 L3]]]. rewrite H in L1; inversion L1; subst.
      split; [exact L2|]. intros a Ha. rewrite L3. apply Nat.eqb_neq in Ha. rewrite Ha; reflexivity.
    - exfalso. apply nth_error_None in E. clear - H E. revert t h' H E.
      induction h as [|x h IH]; intros [|t] h' H E; simpl in *; try discriminate; try lia.
      destruct (lset h t c) eqn:El; [|discriminate]. eapply IH; [exact El|lia]. }
  induction p as [|key p IH]; intros h t h' ok Htl H.
  - cbn [upd_h] in H. destruct (nth_error h t); [|inversion H; subst; auto].
    destruct (lset h t (fst (apply_cell o c))) as [h1|] eqn:E; [|inversion H; subst; auto].
    inversion H; subst. apply Hset in E. destruct E as [H1 H2]. split; [lia|]. auto.
  - assert (forall cc cnew h2, lset (h ++ [cc]) t cnew = Some h2 ->
      upd_h p o h2 (length h) = (h', ok) ->
      length h <= length h' /\ forall a, a <> t -> a < length h -> nth_error h' a = nth_error h a) as Hstep.
    { intros cc cnew h2 Hs Hu. apply Hset in Hs. destruct Hs as [S1 S2].
      rewrite app_length in S1; simpl in S1. apply IH in Hu; [|lia]. destruct Hu as [U1 U2].
      split; [lia|]. intros a Ha Hal. rewrite U2 by lia. rewrite S2 by exact Ha.
      apply nth_error_app1; exact Hal. }
    cbn [upd_h] in H. destruct (nth_error h t) as [ct|] eqn:Et; [|inversion H; subst; auto].
    destruct key as [k|i]; destruct ct as [d|l]; try (inversion H; subst; auto; fail).
    + destruct (dget d k) as [[s|c]|]; try (inversion H; subst; auto; fail).
      destruct (nth_error h c) as [cc|]; [|inversion H; subst; auto].
      destruct (lset (h ++ [cc]) t _) as [h2|] eqn:E; [|inversion H; subst; auto]. eapply Hstep; eauto.
    + destruct (nth_error l i) as [[s|c]|]; try (inversion H; subst; auto; fail).
      destruct (nth_error h c) as [cc|]; [|inversion H; subst; auto].
      destruct (lset l i (HR (length h))) as [l'|]; [|inversion H; subst; auto].
      destruct (lset (h ++ [cc]) t _) as [h2|] eqn:E; [|inversion H; subst; auto]. eapply Hstep; eauto.
Qed.

Lemma patch_h_frame h base os : extends h (fst (patch_h h base os)).
Proof.
  assert (forall os h1, length h < length h1 -> extends h h1 ->
            extends h (fst (patch_h_loop h1 (length h) os))) as Hl.
  { clear. induction os as [|[p o] os IH]; intros h1 Hlt He; cbn [patch_h_loop]; [exact He|].
    destruct (upd_h p o h1 (length h)) as [h3 ok] eqn:E.
    apply upd_h_frame in E; [|exact Hlt]. destruct E as [E1 E2].
    assert (extends h h3) as He3.
    { intros a c Hc. assert (a < length h) by (apply nth_error_Some; congruence).
      rewrite E2; [apply He; exact Hc|lia|lia]. }
    destruct ok; [apply IH; [lia|exact He3]|exact He3]. }
  unfold patch_h. destruct os as [|o os]; [apply extends_refl|].
  destruct (nth_error h base) as [c|]; [|apply extends_refl].
  specialize (Hl (o :: os) (h ++ [c])).
  destruct (patch_h_loop (h ++ [c]) (length h) (o :: os)) as [h2 ok]. cbn [fst] in *.
  apply Hl; [rewrite app_length; simpl; lia|apply extends_app].
Qed.
