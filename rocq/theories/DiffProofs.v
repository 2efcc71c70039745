(** Proofs about [diff] and [patch]. *)
From Coq Require Import List ZArith NArith Bool Lia.
From Verif Require Import PyVal Diff.
Import ListNotations.

(** ** Sub-values *)
Inductive sub (v : value) : value -> Prop :=
| sub_refl : sub v v
| sub_list x l : In x l -> sub v x -> sub v (VList l)
| sub_dict k x d : In (k, x) d -> sub v x -> sub v (VDict d).

Lemma sub_trans a b c : sub a b -> sub b c -> sub a c.
Proof. intros H1 H2; induction H2; [assumption|eapply sub_list; eauto|eapply sub_dict; eauto]. Qed.
Lemma wf_sub a b : sub a b -> wf b -> wf a.
Proof.
  intros H; induction H; intros Hw; auto.
  - apply wf_list in Hw. rewrite Forall_forall in Hw. auto.
  - apply wf_dict in Hw. destruct Hw as [_ Hw]. rewrite Forall_forall in Hw.
    apply IHsub. apply (Hw _ H).
Qed.
Lemma sub_dget d k x : dget d k = Some x -> sub x (VDict d).
Proof. intros H. eapply sub_dict; [apply dget_In; eauto|constructor]. Qed.
Lemma sub_nth l i x : nth_error l i = Some x -> sub x (VList l).
Proof. intros H. eapply sub_list; [eapply nth_error_In; eauto|constructor]. Qed.

(** ** Key equality and restriction to one branch *)
Definition pkey_eq_dec (a b : pkey) : {a = b} + {a <> b}.
Proof. decide equality; [apply str_eq_dec|apply Nat.eq_dec]. Defined.

Definition consC (k : pkey) (c : comparison) : comparison :=
  match c with CDict p l r => CDict (k :: p) l r | CList p l r => CList (k :: p) l r end.
Definition consO (k : pkey) (o : diffop) : diffop := mkDiff (k :: dpath o) (dops o).

Fixpoint restrictC (k : pkey) (q : list comparison) : list comparison :=
  match q with
  | [] => []
  | c :: q' =>
      match c with
      | CDict (k' :: p) l r => if pkey_eq_dec k k' then CDict p l r :: restrictC k q' else restrictC k q'
      | CList (k' :: p) l r => if pkey_eq_dec k k' then CList p l r :: restrictC k q' else restrictC k q'
      | _ => restrictC k q'
      end
  end.
Fixpoint restrict (k : pkey) (os : list diffop) : list diffop :=
  match os with
  | [] => []
  | o :: os' =>
      match dpath o with
      | k' :: p => if pkey_eq_dec k k' then mkDiff p (dops o) :: restrict k os' else restrict k os'
      | [] => restrict k os'
      end
  end.

Lemma restrictC_app k a b : restrictC k (a ++ b) = restrictC k a ++ restrictC k b.
Proof.
  induction a as [|c a IH]; simpl; [reflexivity|].
  destruct c as [p l r|p l r]; destruct p as [|k' p]; auto;
    destruct (pkey_eq_dec k k'); simpl; rewrite IH; reflexivity.
Qed.
Lemma restrictC_cons_same k c q : restrictC k (consC k c :: q) = c :: restrictC k q.
Proof. destruct c; simpl; destruct (pkey_eq_dec k k); congruence. Qed.
Lemma restrictC_cons_other k k' c q : k <> k' -> restrictC k (consC k' c :: q) = restrictC k q.
Proof. intros; destruct c; simpl; destruct (pkey_eq_dec k k'); congruence. Qed.
Lemma restrictC_map_same k q : restrictC k (map (consC k) q) = q.
Proof.
  induction q as [|c q IH]; [reflexivity|]. simpl map. rewrite restrictC_cons_same, IH. reflexivity.
Qed.
Lemma restrictC_map_other k k' q : k <> k' -> restrictC k (map (consC k') q) = [].
Proof.
  intros H; induction q as [|c q IH]; [reflexivity|]. simpl map.
  rewrite restrictC_cons_other; auto.
Qed.

Definition headed (c : comparison) : Prop := cpath c <> [].
Lemma headed_inv c : headed c -> exists k c0, c = consC k c0.
Proof.
  unfold headed; destruct c as [p l r|p l r]; destruct p as [|k p]; simpl; intros H; try congruence.
  - exists k, (CDict p l r); reflexivity.
  - exists k, (CList p l r); reflexivity.
Qed.

(** [compare] treats the path as an opaque prefix *)
Lemma dict_changes_cons k p l r :
  dict_changes (k :: p) l r =
  (fst (dict_changes p l r), map (consC k) (snd (dict_changes p l r))).
Proof.
  induction l as [|[x lv] l IH]; simpl; [reflexivity|].
  rewrite IH. destruct (dict_changes p l r) as [ch fu]; simpl.
  destruct (dget r x) as [rv|]; [|reflexivity].
  destruct (py_eqb lv rv); [reflexivity|].
  destruct lv, rv; reflexivity.
Qed.
Lemma list_changes_cons k p i l r :
  list_changes (k :: p) i l r =
  let '(ch, fu, ln, ld) := list_changes p i l r in (ch, map (consC k) fu, ln, ld).
Proof.
  revert i r; induction l as [|lv l IH]; intros i [|rv r]; simpl; try reflexivity.
  rewrite IH. destruct (list_changes p (S i) l r) as [[[ch fu] ln] ld].
  destruct (py_eqb lv rv); [reflexivity|].
  destruct lv, rv; reflexivity.
Qed.
Lemma compare_cons k c :
  compare (consC k c) =
  (option_map (consO k) (fst (compare c)), map (consC k) (snd (compare c))).
Proof.
  destruct c as [p l r|p l r]; cbn [compare consC].
  - rewrite dict_changes_cons. destruct (dict_changes p l r) as [ch fu]; cbn [fst snd].
    destruct (ops_empty _); reflexivity.
  - rewrite list_changes_cons. destruct (list_changes p 0 l r) as [[[ch fu] ln] ld].
    destruct (ops_empty _); reflexivity.
Qed.
Lemma compare_headed c c' : In c' (snd (compare c)) -> headed c'.
Proof.
  destruct c as [p l r|p l r]; cbn [compare].
  - destruct (dict_changes p l r) as [ch fu] eqn:E. cbn [snd].
    revert ch fu E. induction l as [|[x lv] l IH]; simpl; intros ch fu E.
    + inversion E; subst; simpl; tauto.
    + destruct (dict_changes p l r) as [ch0 fu0].
      destruct (dget r x) as [rv|]; [|inversion E; subst; eapply IH; reflexivity].
      destruct (py_eqb lv rv); [inversion E; subst; eapply IH; reflexivity|].
      destruct lv, rv; inversion E; subst; simpl;
        try (eapply IH; reflexivity);
        (intros [H|H]; [subst; unfold headed; simpl; destruct p; discriminate|eapply IH; eauto]).
  - destruct (list_changes p 0 l r) as [[[ch fu] ln] ld] eqn:E. cbn [snd].
    revert r ch fu ln ld E. generalize 0. induction l as [|lv l IH]; intros n [|rv r]; simpl; intros ch fu ln ld E;
      try (inversion E; subst; simpl; tauto).
    destruct (list_changes p (S n) l r) as [[[ch0 fu0] ln0] ld0] eqn:E0.
    destruct (py_eqb lv rv); [inversion E; subst; eapply IH; eassumption|].
    destruct lv, rv; inversion E; subst; simpl;
      try (eapply IH; eassumption);
      (intros [H|H]; [subst; unfold headed; simpl; destruct p; discriminate|eapply IH; eauto]).
Qed.

(** ** The queue loop *)
Lemma diff_loop_mono n : forall m q os, n <= m -> diff_loop n q = Some os -> diff_loop m q = Some os.
Proof.
  induction n as [|n IH]; intros m q os Hle H.
  - destruct q as [|c q]; simpl in H; [|discriminate]. destruct m; exact H.
  - destruct q as [|c q]; [destruct m; exact H|].
    destruct m as [|m]; [lia|]. cbn [diff_loop] in *.
    destruct (compare c) as [o fu].
    destruct (diff_loop n (q ++ fu)) as [rest|] eqn:E; [|discriminate].
    rewrite (IH m (q ++ fu) rest) by (lia || exact E). exact H.
Qed.

Lemma diff_loop_restrict n : forall q os k,
  Forall headed q -> diff_loop n q = Some os ->
  diff_loop n (restrictC k q) = Some (restrict k os) /\
  Forall (fun o => exists k c, dpath o = k :: c) os.
Proof.
  induction n as [|n IH]; intros q os k Hq H.
  - destruct q as [|c q]; simpl in H; [|discriminate]. inversion H; subst; simpl. auto.
  - destruct q as [|c q]; [inversion H; subst; simpl; auto|].
    inversion Hq as [|? ? Hc Hq']; subst.
    destruct (headed_inv _ Hc) as [k0 [c0 ->]].
    cbn [diff_loop] in H. rewrite compare_cons in H.
    destruct (compare c0) as [o0 fu0] eqn:Ec. cbn [fst snd] in H.
    destruct (diff_loop n (q ++ map (consC k0) fu0)) as [rest|] eqn:E; [|discriminate].
    assert (Forall headed (q ++ map (consC k0) fu0)) as Hh.
    { apply Forall_app; split; [assumption|]. apply Forall_forall. intros x Hx.
      apply in_map_iff in Hx. destruct Hx as [y [<- _]]. destruct y; unfold headed; simpl; discriminate. }
    destruct (IH _ _ k Hh E) as [IH1 IH2].
    rewrite restrictC_app in IH1.
    destruct (pkey_eq_dec k k0) as [->|Hne].
    + rewrite restrictC_map_same in IH1. rewrite restrictC_cons_same.
      cbn [diff_loop]. rewrite Ec, IH1.
      destruct o0 as [o0|]; inversion H; subst; simpl.
      * destruct (pkey_eq_dec k0 k0); [|congruence]. destruct o0; simpl. split; [reflexivity|].
        constructor; simpl; eauto.
      * auto.
    + rewrite restrictC_map_other, app_nil_r in IH1 by exact Hne.
      rewrite restrictC_cons_other by exact Hne.
      assert (restrict k os = restrict k rest /\ Forall (fun o => exists k c, dpath o = k :: c) os) as [-> HF].
      { destruct o0 as [o0|]; inversion H; subst; simpl; auto.
        destruct (pkey_eq_dec k k0); [congruence|]. split; auto. constructor; simpl; eauto. }
      split; [|assumption]. eapply diff_loop_mono; [|exact IH1]. lia.
Qed.

(** ** Termination: the fuel used by [diff] suffices *)
Definition csize (q : list comparison) : nat := list_sum (map (fun c => vsize (cleft c)) q).

Lemma list_sum_app a b : list_sum (a ++ b) = list_sum a + list_sum b.
Proof. induction a; simpl; lia. Qed.

Lemma dict_changes_size p l r :
  csize (snd (dict_changes p l r)) <= list_sum (map (fun kv => vsize (snd kv)) l).
Proof.
  unfold csize. induction l as [|[x lv] l IH]; [simpl; lia|].
  cbn [dict_changes map list_sum fold_right snd].
  destruct (dict_changes p l r) as [ch fu]; cbn [fst snd] in *.
  change (list_sum (?a :: ?b)) with (a + list_sum b).
  destruct (dget r x) as [rv|]; [|cbn [snd]; unfold list_sum in *; lia].
  destruct (py_eqb lv rv); [cbn [snd]; unfold list_sum in *; lia|].
  destruct lv, rv; cbn [snd map cleft fold_right] in *; unfold list_sum in *; simpl in *; lia.
Qed.
Lemma list_changes_size p : forall l i r ch fu ln ld,
  list_changes p i l r = (ch, fu, ln, ld) -> csize fu <= list_sum (map vsize l).
Proof.
  unfold csize. induction l as [|lv l IH]; intros i [|rv r] ch fu ln ld E; simpl in E;
    try (inversion E; subst; simpl; lia).
  destruct (list_changes p (S i) l r) as [[[ch0 fu0] ln0] ld0] eqn:E0.
  specialize (IH _ _ _ _ _ _ E0). unfold list_sum in *.
  destruct (py_eqb lv rv); [inversion E; subst; simpl in *; lia|].
  destruct lv, rv; inversion E; subst; simpl in *; lia.
Qed.
Lemma compare_size c : csize (snd (compare c)) < vsize (cleft c).
Proof.
  destruct c as [p l r|p l r]; cbn [compare cleft vsize].
  - pose proof (dict_changes_size p l r) as H. destruct (dict_changes p l r); cbn [snd] in *; lia.
  - destruct (list_changes p 0 l r) as [[[ch fu] ln] ld] eqn:E. cbn [snd].
    apply list_changes_size in E. lia.
Qed.
Lemma diff_loop_total_q n : forall q, csize q <= n -> exists os, diff_loop n q = Some os.
Proof.
  induction n as [|n IH]; intros q Hq.
  - destruct q as [|c q]; [exists []; reflexivity|].
    unfold csize in Hq; simpl in Hq. pose proof (vsize_pos (cleft c)). lia.
  - destruct q as [|c q]; [exists []; reflexivity|].
    cbn [diff_loop]. pose proof (compare_size c) as Hc.
    destruct (compare c) as [o fu]; cbn [snd] in *.
    destruct (IH (q ++ fu)) as [rest Hr].
    { unfold csize in *. rewrite map_app, list_sum_app. cbn [map] in Hq.
      change (list_sum (?a :: ?b)) with (a + list_sum b) in Hq. lia. }
    rewrite Hr. eauto.
Qed.
Lemma diff_loop_total base new :
  exists os, diff_loop (vsize (VDict base)) [CDict [] base new] = Some os.
Proof. apply diff_loop_total_q. unfold csize; simpl. lia. Qed.

(** ** Patching below the root *)
Lemma patch_loop_app a b v :
  patch_loop v (a ++ b) = match patch_loop v a with Some w => patch_loop w b | None => None end.
Proof.
  revert v; induction a as [|o a IH]; intros v; simpl; [reflexivity|].
  destruct (upd_path (dpath o) (apply_ops (dops o)) v); auto.
Qed.

Lemma patch_dict os : forall d,
  (forall o, In o os -> exists k s, dpath o = PK k :: s /\ In k (dkeys d)) ->
  (forall k c, dget d k = Some c -> exists c', patch_loop c (restrict (PK k) os) = Some c') ->
  exists d', patch_loop (VDict d) os = Some (VDict d') /\ dkeys d' = dkeys d /\
    forall k c, dget d k = Some c ->
      exists c', patch_loop c (restrict (PK k) os) = Some c' /\ dget d' k = Some c'.
Proof.
  induction os as [|o os IH]; intros d Hh Hc.
  - exists d. split; [reflexivity|]. split; [reflexivity|]. intros k c H; exists c; auto.
  - destruct (Hh o (or_introl eq_refl)) as [k [s [Hp Hk]]].
    destruct (dget_ex _ _ Hk) as [c Hg].
    destruct (Hc _ _ Hg) as [c' Hc'].
    cbn [restrict] in Hc'. rewrite Hp in Hc'.
    destruct (pkey_eq_dec (PK k) (PK k)) as [_|]; [|congruence].
    cbn [patch_loop dpath dops] in Hc'.
    destruct (upd_path s (apply_ops (dops o)) c) as [c1|] eqn:E1; [|discriminate].
    destruct (IH (dset d k c1)) as [d' [Hd1 [Hd2 Hd3]]].
    + intros o' Ho'. destruct (Hh o' (or_intror Ho')) as [k' [s' [H1 H2]]].
      exists k', s'. split; [exact H1|]. apply In_dkeys_dset; auto.
    + intros k0 c0 H0. rewrite dget_dset in H0. destruct (str_eqb k0 k) eqn:Ek.
      * apply str_eqb_eq in Ek; subst. inversion H0; subst. eauto.
      * destruct (Hc _ _ H0) as [x Hx]. cbn [restrict] in Hx. rewrite Hp in Hx.
        destruct (pkey_eq_dec (PK k0) (PK k)) as [e|]; [|eauto].
        inversion e; subst. rewrite str_eqb_refl in Ek; discriminate.
    + exists d'. cbn [patch_loop]. rewrite Hp. cbn [upd_path]. rewrite Hg, E1.
      split; [exact Hd1|]. split.
      { rewrite Hd2. apply dkeys_dset_in; exact Hk. }
      intros k0 c0 H0. cbn [restrict]. rewrite Hp.
      destruct (pkey_eq_dec (PK k0) (PK k)) as [e|Hne].
      * inversion e; subst. rewrite Hg in H0; inversion H0; subst c0.
        cbn [patch_loop dpath dops]. rewrite E1. apply Hd3.
        rewrite dget_dset, str_eqb_refl; reflexivity.
      * apply Hd3. rewrite dget_dset.
        assert (str_eqb k0 k = false) as -> by (apply str_eqb_neq; congruence). exact H0.
Qed.

Lemma lset_spec {A} (l : list A) i x y : nth_error l i = Some y ->
  exists l', lset l i x = Some l' /\ length l' = length l /\
    forall j, nth_error l' j = if Nat.eqb j i then Some x else nth_error l j.
Proof.
  revert i; induction l as [|z l IH]; intros [|i] H; simpl in H; try discriminate.
  - exists (x :: l). split; [reflexivity|]. split; [reflexivity|]. intros [|j]; reflexivity.
  - destruct (IH _ H) as [l' [H1 [H2 H3]]]. exists (z :: l'). simpl. rewrite H1.
    split; [reflexivity|]. split; [congruence|]. intros [|j]; simpl; [reflexivity|apply H3].
Qed.

Lemma patch_list os : forall l,
  (forall o, In o os -> exists i s, dpath o = PI i :: s /\ i < length l) ->
  (forall i c, nth_error l i = Some c -> exists c', patch_loop c (restrict (PI i) os) = Some c') ->
  exists l', patch_loop (VList l) os = Some (VList l') /\ length l' = length l /\
    forall i c, nth_error l i = Some c ->
      exists c', patch_loop c (restrict (PI i) os) = Some c' /\ nth_error l' i = Some c'.
Proof.
  induction os as [|o os IH]; intros l Hh Hc.
  - exists l. split; [reflexivity|]. split; [reflexivity|]. intros i c H; exists c; auto.
  - destruct (Hh o (or_introl eq_refl)) as [i [s [Hp Hi]]].
    destruct (nth_error l i) as [c|] eqn:Hg; [|apply nth_error_None in Hg; lia].
    destruct (Hc _ _ Hg) as [c' Hc'].
    cbn [restrict] in Hc'. rewrite Hp in Hc'.
    destruct (pkey_eq_dec (PI i) (PI i)) as [_|]; [|congruence].
    cbn [patch_loop dpath dops] in Hc'.
    destruct (upd_path s (apply_ops (dops o)) c) as [c1|] eqn:E1; [|discriminate].
    destruct (lset_spec l i c1 c Hg) as [l1 [Hl1 [Hl2 Hl3]]].
    destruct (IH l1) as [l' [Hd1 [Hd2 Hd3]]].
    + intros o' Ho'. destruct (Hh o' (or_intror Ho')) as [i' [s' [H1 H2]]].
      exists i', s'. split; [exact H1|]. lia.
    + intros k0 c0 H0. rewrite Hl3 in H0. destruct (Nat.eqb k0 i) eqn:Ek.
      * apply Nat.eqb_eq in Ek; subst. inversion H0; subst. eauto.
      * destruct (Hc _ _ H0) as [x Hx]. cbn [restrict] in Hx. rewrite Hp in Hx.
        destruct (pkey_eq_dec (PI k0) (PI i)) as [e|]; [|eauto].
        inversion e; subst. rewrite Nat.eqb_refl in Ek; discriminate.
    + exists l'. cbn [patch_loop]. rewrite Hp. cbn [upd_path]. rewrite Hg, E1, Hl1.
      split; [exact Hd1|]. split; [congruence|].
      intros k0 c0 H0. cbn [restrict]. rewrite Hp.
      destruct (pkey_eq_dec (PI k0) (PI i)) as [e|Hne].
      * inversion e; subst. rewrite Hg in H0; inversion H0; subst c0.
        cbn [patch_loop dpath dops]. rewrite E1. apply Hd3.
        rewrite Hl3, Nat.eqb_refl; reflexivity.
      * apply Hd3. rewrite Hl3.
        assert (Nat.eqb k0 i = false) as -> by (apply Nat.eqb_neq; congruence). exact H0.
Qed.

(** ** What a comparison finds *)
Definition deep (lv rv : value) : option comparison :=
  match lv, rv with
  | VDict dl, VDict dr => Some (CDict [] dl dr)
  | VList ll, VList lr => Some (CList [] ll lr)
  | _, _ => None
  end.

Lemma dict_changes_step k lv l r :
  dict_changes [] ((k, lv) :: l) r =
  match dget r k with
  | None => dict_changes [] l r
  | Some rv =>
      if py_eqb lv rv then dict_changes [] l r
      else match deep lv rv with
           | Some c => (fst (dict_changes [] l r), consC (PK k) c :: snd (dict_changes [] l r))
           | None => ((k, rv) :: fst (dict_changes [] l r), snd (dict_changes [] l r))
           end
  end.
Proof.
  simpl. destruct (dict_changes [] l r) as [ch fu].
  destruct (dget r k) as [rv|]; [|reflexivity].
  destruct (py_eqb lv rv); [reflexivity|]. destruct lv, rv; reflexivity.
Qed.

Lemma dict_changes_keys l r :
  (forall k, In k (dkeys (fst (dict_changes [] l r))) -> In k (dkeys l)) /\
  (forall c, In c (snd (dict_changes [] l r)) ->
     exists k lv rv c0, c = consC (PK k) c0 /\ In (k, lv) l /\ dget r k = Some rv /\
       py_eqb lv rv = false /\ deep lv rv = Some c0).
Proof.
  induction l as [|[k lv] l [IH1 IH2]]; [simpl; tauto|].
  rewrite dict_changes_step.
  assert (forall c, In c (snd (dict_changes [] l r)) ->
     exists k0 lv0 rv c0, c = consC (PK k0) c0 /\ In (k0, lv0) ((k, lv) :: l) /\ dget r k0 = Some rv /\
       py_eqb lv0 rv = false /\ deep lv0 rv = Some c0) as IH2'.
  { intros c Hc. destruct (IH2 c Hc) as (k0 & lv0 & rv0 & c0 & H1 & H2 & H3).
    exists k0, lv0, rv0, c0. simpl; auto. }
  destruct (dget r k) as [rv|] eqn:Er; [|split; [simpl; auto|assumption]].
  destruct (py_eqb lv rv) eqn:Ee; [split; [simpl; auto|assumption]|].
  destruct (deep lv rv) as [c|] eqn:Ed; cbn [fst snd].
  - split; [simpl; auto|]. intros c' [<-|H]; [|auto].
    exists k, lv, rv, c. simpl; auto.
  - split; [|assumption]. simpl. intros k0 [<-|H]; auto.
Qed.

Lemma dict_changes_restrict_notin k l r : ~ In k (dkeys l) ->
  restrictC (PK k) (snd (dict_changes [] l r)) = [].
Proof.
  induction l as [|[k' lv] l IH]; intros H; [reflexivity|].
  rewrite dict_changes_step. simpl in H.
  destruct (dget r k') as [rv|]; [|apply IH; tauto].
  destruct (py_eqb lv rv); [apply IH; tauto|].
  destruct (deep lv rv); cbn [fst snd]; [|apply IH; tauto].
  rewrite restrictC_cons_other; [apply IH; tauto|]. intros e; inversion e; subst; apply H; auto.
Qed.

Lemma dict_changes_spec l r k : NoDup (dkeys l) ->
  let ch := fst (dict_changes [] l r) in
  let fu := snd (dict_changes [] l r) in
  NoDup (dkeys ch) /\
  match dget l k, dget r k with
  | Some lv, Some rv =>
      if py_eqb lv rv then dget ch k = None /\ restrictC (PK k) fu = []
      else match deep lv rv with
           | Some c => dget ch k = None /\ restrictC (PK k) fu = [c]
           | None => dget ch k = Some rv /\ restrictC (PK k) fu = []
           end
  | _, _ => dget ch k = None /\ restrictC (PK k) fu = []
  end.
Proof.
  cbv zeta.
  induction l as [|[k' lv] l IH]; intros Hn.
  - simpl. split; [constructor|auto].
  - inversion Hn as [|? ? Hk' Hn']; subst. specialize (IH Hn'). destruct IH as [IHn IH].
    pose proof (dict_changes_keys l r) as [Hch _].
    pose proof (dict_changes_restrict_notin k' l r Hk') as Hre.
    rewrite dict_changes_step. cbn [dget].
    destruct (str_eqb k k') eqn:E.
    + apply str_eqb_eq in E; subst k'.
      assert (dget (fst (dict_changes [] l r)) k = None) as Hnone.
      { apply dget_None. intros Hi. apply Hk'. apply Hch. exact Hi. }
      destruct (dget r k) as [rv|] eqn:Er; [|auto].
      destruct (py_eqb lv rv); [auto|].
      destruct (deep lv rv) as [c|]; cbn [fst snd].
      * split; [assumption|]. rewrite restrictC_cons_same, Hre. auto.
      * split.
        -- cbn [dkeys map fst]. constructor; [|assumption]. intros Hi. apply Hk', Hch, Hi.
        -- simpl. rewrite str_eqb_refl. auto.
    + assert (PK k <> PK k') as Hne by (apply str_eqb_neq in E; congruence).
      destruct (dget r k') as [rv|] eqn:Er; [|auto].
      destruct (py_eqb lv rv); [auto|].
      destruct (deep lv rv) as [c|]; cbn [fst snd].
      * split; [assumption|]. rewrite restrictC_cons_other by exact Hne. exact IH.
      * split.
        -- cbn [dkeys map fst]. constructor; [|assumption]. intros Hi. apply Hk', Hch, Hi.
        -- cbn [dget]. rewrite E. exact IH.
Qed.

Lemma del_keys_spec ks : forall d : dict, NoDup (dkeys d) -> NoDup ks -> (forall k, In k ks -> In k (dkeys d)) ->
  exists d', del_keys d ks = Some d' /\ NoDup (dkeys d') /\
    forall k, dget d' k = if in_dec str_eq_dec k ks then None else dget d k.
Proof.
  induction ks as [|k ks IH]; intros d Hd Hn Hi.
  - exists d. split; [reflexivity|]. split; [assumption|]. intros k; reflexivity.
  - inversion Hn; subst. cbn [del_keys].
    assert (dmem d k = true) as -> by (apply dmem_In, Hi; simpl; auto).
    destruct (IH (ddel d k)) as [d' [H3 [H4 H5]]].
    + apply NoDup_ddel; assumption.
    + assumption.
    + intros k0 Hk0. destruct (dget_ex d k0) as [v Hv]; [apply Hi; simpl; auto|].
      eapply dget_Some_key with (v := v). rewrite dget_ddel by assumption.
      destruct (str_eqb k0 k) eqn:E; [|assumption].
      apply str_eqb_eq in E; subst; contradiction.
    + exists d'. split; [assumption|]. split; [assumption|]. intros k0. rewrite H5.
      rewrite dget_ddel by assumption.
      destruct (in_dec str_eq_dec k0 ks) as [Hin|Hin]; destruct (in_dec str_eq_dec k0 (k :: ks)) as [Hin'|Hin'];
        try reflexivity.
      * exfalso; apply Hin'; right; exact Hin.
      * destruct Hin' as [<-|?]; [|contradiction]. rewrite str_eqb_refl; reflexivity.
      * destruct (str_eqb k0 k) eqn:E; [|reflexivity].
        apply str_eqb_eq in E; subst. exfalso; apply Hin'; left; reflexivity.
Qed.

Lemma NoDup_filter_keys (f : pystr * value -> bool) d : NoDup (dkeys d) -> NoDup (dkeys (filter f d)).
Proof.
  induction d as [|[k v] d IH]; simpl; intros H; [constructor|].
  inversion H; subst. destruct (f (k, v)); [|auto]. simpl. constructor; [|auto].
  intros Hi. apply H2. unfold dkeys in *. apply in_map_iff in Hi. destruct Hi as [x [Hx Hf]].
  apply filter_In in Hf. subst k. apply in_map. tauto.
Qed.
Lemma NoDup_filter_list {A} (f : A -> bool) l : NoDup l -> NoDup (filter f l).
Proof.
  induction l as [|x l IH]; simpl; intros H; [constructor|]. inversion H; subst.
  destruct (f x); [|auto]. constructor; [|auto]. rewrite filter_In. tauto.
Qed.

Lemma dget_new_values l r k : NoDup (dkeys r) ->
  dget (new_values l r) k = if dmem l k then None else dget r k.
Proof.
  unfold new_values. induction r as [|[k' v] r IH]; intros Hn.
  - simpl. destruct (dmem l k); reflexivity.
  - inversion Hn; subst. cbn [filter fst dget].
    destruct (dmem l k') eqn:Em; cbn [negb].
    + rewrite IH by assumption. destruct (str_eqb k k') eqn:E; [|reflexivity].
      apply str_eqb_eq in E; subst. rewrite Em. reflexivity.
    + cbn [dget]. destruct (str_eqb k k') eqn:E.
      * apply str_eqb_eq in E; subst. rewrite Em. reflexivity.
      * apply IH; assumption.
Qed.

(** The dict produced by the "dc", "dn" and "dd" entries of one comparison. *)
Lemma dict_ops_result l r : NoDup (dkeys l) -> NoDup (dkeys r) ->
  let ch := fst (dict_changes [] l r) in
  exists d, del_keys (dupdate (dupdate l ch) (new_values l r)) (deleted_keys l r) = Some d /\
    NoDup (dkeys d) /\
    forall k, dget d k =
      match dget r k with
      | None => None
      | Some rv => match dget l k with
                   | None => Some rv
                   | Some lv => match dget ch k with Some x => Some x | None => Some lv end
                   end
      end.
Proof.
  intros Hl Hr ch.
  assert (NoDup (dkeys ch)) as Hch by apply (dict_changes_spec l r [] Hl).
  assert (NoDup (dkeys (new_values l r))) as Hnv by (apply NoDup_filter_keys; assumption).
  destruct (del_keys_spec (deleted_keys l r) (dupdate (dupdate l ch) (new_values l r)))
    as [d [H1 [H2 H3]]].
  - apply NoDup_dupdate, NoDup_dupdate; assumption.
  - apply NoDup_filter_list; assumption.
  - intros k Hk. unfold deleted_keys in Hk. apply filter_In in Hk.
    rewrite !In_dkeys_dupdate. tauto.
  - exists d. split; [exact H1|]. split; [exact H2|]. intros k. rewrite H3.
    rewrite dget_dupdate by assumption. rewrite dget_dupdate by assumption.
    rewrite dget_new_values by assumption.
    assert (In k (deleted_keys l r) <-> In k (dkeys l) /\ ~ In k (dkeys r)) as Hdk.
    { unfold deleted_keys. rewrite filter_In, negb_true_iff, dmem_false. tauto. }
    pose proof (dict_changes_keys l r) as [Hck _]. fold ch in Hck.
    destruct (in_dec str_eq_dec k (deleted_keys l r)) as [Hin|Hin].
    + apply Hdk in Hin. destruct Hin as [_ Hin]. apply dget_None in Hin. rewrite Hin. reflexivity.
    + unfold dmem. destruct (dget l k) as [lv|] eqn:El.
      * destruct (dget r k) as [rv|] eqn:Er; [reflexivity|].
        exfalso. apply Hin, Hdk. split; [eapply dget_Some_key; eauto|apply dget_None; assumption].
      * destruct (dget r k) as [rv|] eqn:Er; [reflexivity|].
        assert (dget ch k = None) as ->; [|reflexivity].
        apply dget_None. intros Hi. apply Hck in Hi. apply dget_None in El. contradiction.
Qed.

Lemma nonempty_dupdate d (e : dict) :
  match nonempty e with Some x => dupdate d x | None => d end = dupdate d e.
Proof. destruct e; reflexivity. Qed.

(** Patching the left dict with the op of a dict comparison gives the intermediate dict. *)
Lemma compare_dict_apply l r : NoDup (dkeys l) -> NoDup (dkeys r) ->
  exists d, patch_loop (VDict l) (match fst (compare (CDict [] l r)) with Some o => [o] | None => [] end)
            = Some (VDict d) /\
    NoDup (dkeys d) /\
    forall k, dget d k =
      match dget r k with
      | None => None
      | Some rv => match dget l k with
                   | None => Some rv
                   | Some lv => match dget (fst (dict_changes [] l r)) k with Some x => Some x | None => Some lv end
                   end
      end.
Proof.
  intros Hl Hr. destruct (dict_ops_result l r Hl Hr) as [d [H1 [H2 H3]]].
  exists d. split; [|split; assumption].
  cbn [compare]. destruct (dict_changes [] l r) as [ch fu]; cbn [fst snd] in *.
  set (o := mkOps _ _ _ _ _ _).
  assert (apply_ops o (VDict l) = Some (VDict d)) as Ha.
  { unfold o; cbn [apply_ops o_dc o_dn o_dd o_lc o_ln o_ld].
    rewrite !nonempty_dupdate. destruct (deleted_keys l r) as [|k ks] eqn:E; cbn [nonempty].
    - cbn [del_keys] in H1. inversion H1; reflexivity.
    - rewrite H1. reflexivity. }
  destruct (ops_empty o) eqn:Eo; cbn [patch_loop upd_path dpath dops].
  - unfold o in Eo. cbn in Eo.
    destruct ch; [|discriminate Eo]. destruct (new_values l r) eqn:En; [|discriminate Eo].
    destruct (deleted_keys l r) eqn:Ed; [|discriminate Eo].
    cbn in H1. inversion H1; reflexivity.
  - rewrite Ha. reflexivity.
Qed.

(** List comparison *)
Lemma list_changes_step i lv l rv r :
  list_changes [] i (lv :: l) (rv :: r) =
  let '(ch, fu, ln, ld) := list_changes [] (S i) l r in
  if py_eqb lv rv then (ch, fu, ln, ld)
  else match deep lv rv with
       | Some c => (ch, consC (PI i) c :: fu, ln, ld)
       | None => ((i, rv) :: ch, fu, ln, ld)
       end.
Proof.
  cbn [list_changes]. destruct (list_changes [] (S i) l r) as [[[ch fu] ln] ld].
  destruct (py_eqb lv rv); [reflexivity|]. destruct lv, rv; reflexivity.
Qed.

Definition list_ops_result (l : list value) ch (ln : option (list value)) (ld : option nat) :=
  match set_items l ch with
  | None => None
  | Some l1 =>
      let l2 := match ln with Some t => l1 ++ t | None => l1 end in
      Some (match ld with Some n => firstn n l2 | None => l2 end)
  end.

Lemma lset_app {A} (pre : list A) y l x : lset (pre ++ y :: l) (length pre) x = Some (pre ++ x :: l).
Proof. induction pre as [|z pre IH]; simpl; [reflexivity|]. rewrite IH. reflexivity. Qed.

Lemma restrictC_lt i l : forall n r ch fu ln ld, list_changes [] n l r = (ch, fu, ln, ld) ->
  (i < n -> restrictC (PI i) fu = []) /\
  (forall c, In c fu -> exists j lv rv c0, c = consC (PI (n + j)) c0 /\ nth_error l j = Some lv /\
     nth_error r j = Some rv /\ py_eqb lv rv = false /\ deep lv rv = Some c0).
Proof.
  induction l as [|lv l IH]; intros n [|rv r] ch fu ln ld E;
    try (simpl in E; inversion E; subst; simpl; tauto).
  rewrite list_changes_step in E.
  destruct (list_changes [] (S n) l r) as [[[ch0 fu0] ln0] ld0] eqn:E0.
  destruct (IH _ _ _ _ _ _ E0) as [IH1 IH2].
  assert (forall c, In c fu0 -> exists j lv' rv' c0, c = consC (PI (n + j)) c0 /\
     nth_error (lv :: l) j = Some lv' /\ nth_error (rv :: r) j = Some rv' /\
     py_eqb lv' rv' = false /\ deep lv' rv' = Some c0) as IH2'.
  { intros c Hc. destruct (IH2 c Hc) as (j & lv' & rv' & c0 & H1 & H2).
    exists (S j), lv', rv', c0. rewrite Nat.add_succ_r. simpl in *. auto. }
  destruct (py_eqb lv rv) eqn:Ee; [inversion E; subst; split; [intros; apply IH1; lia|assumption]|].
  destruct (deep lv rv) as [c|] eqn:Ed; inversion E; subst.
  - split.
    + intros Hlt. rewrite restrictC_cons_other; [apply IH1; lia|]. intros e; inversion e; lia.
    + intros c' [<-|H]; [|auto]. exists 0, lv, rv, c. rewrite Nat.add_0_r. simpl; auto.
  - split; [intros; apply IH1; lia|assumption].
Qed.

Lemma list_changes_spec l : forall pre r ch fu ln ld,
  list_changes [] (length pre) l r = (ch, fu, ln, ld) ->
  exists l3, list_ops_result (pre ++ l) ch ln ld = Some (pre ++ l3) /\ length l3 = length r /\
    forall j x y, nth_error l3 j = Some x -> nth_error r j = Some y ->
      (x = y /\ (forall z, nth_error l j = Some z -> py_eqb z y = false /\ deep z y = None) /\ restrictC (PI (length pre + j)) fu = []) \/
      (nth_error l j = Some x /\ py_eqb x y = true /\ restrictC (PI (length pre + j)) fu = []) \/
      (nth_error l j = Some x /\ py_eqb x y = false /\ exists c, deep x y = Some c /\
         restrictC (PI (length pre + j)) fu = [c]).
Proof.
  induction l as [|lv l IH]; intros pre [|rv r] ch fu ln ld E.
  - simpl in E; inversion E; subst. exists []. unfold list_ops_result; simpl.
    split; [reflexivity|]. split; [reflexivity|]. intros [|j]; discriminate.
  - simpl in E; inversion E; subst. exists (rv :: r). unfold list_ops_result; cbn [set_items].
    rewrite app_nil_r. split; [reflexivity|]. split; [reflexivity|].
    intros j x y Hx Hy. left. split; [congruence|]. split; [intros z Hz; destruct j; discriminate|reflexivity].
  - simpl in E; inversion E; subst. exists []. unfold list_ops_result; cbn [set_items].
    split.
    { rewrite app_nil_r, firstn_app, Nat.sub_diag, firstn_all. simpl. rewrite app_nil_r. reflexivity. }
    split; [reflexivity|]. intros [|j]; discriminate.
  - rewrite list_changes_step in E.
    destruct (list_changes [] (S (length pre)) l r) as [[[ch0 fu0] ln0] ld0] eqn:E0.
    assert (forall v, S (length pre) = length (pre ++ [v])) as Hlen
      by (intros v; rewrite app_length; simpl; lia).
    pose proof (restrictC_lt (length pre) _ _ _ _ _ _ _ E0) as [Hrl _].
    specialize (Hrl (Nat.lt_succ_diag_r _)).
    assert (forall v, exists l3, list_ops_result (pre ++ v :: l) ch0 ln0 ld0 = Some (pre ++ v :: l3) /\
       length l3 = length r /\
       forall j x y, nth_error l3 j = Some x -> nth_error r j = Some y ->
      (x = y /\ (forall z, nth_error l j = Some z -> py_eqb z y = false /\ deep z y = None) /\ restrictC (PI (length pre + S j)) fu0 = []) \/
      (nth_error l j = Some x /\ py_eqb x y = true /\ restrictC (PI (length pre + S j)) fu0 = []) \/
      (nth_error l j = Some x /\ py_eqb x y = false /\ exists c, deep x y = Some c /\
         restrictC (PI (length pre + S j)) fu0 = [c])) as IH'.
    { intros v. rewrite (Hlen v) in E0. destruct (IH _ _ _ _ _ _ E0) as [l3 [H1 [H2 H3]]].
      exists l3. rewrite <- !app_assoc in H1. simpl in H1. split; [exact H1|]. split; [exact H2|].
      intros j x y Hx Hy. specialize (H3 j x y Hx Hy). rewrite <- Hlen in H3.
      rewrite Nat.add_succ_r. exact H3. }
    clear IH.
    destruct (py_eqb lv rv) eqn:Ee.
    + inversion E; subst. destruct (IH' lv) as [l3 [H1 [H2 H3]]].
      exists (lv :: l3). split; [exact H1|]. split; [simpl; congruence|].
      intros [|j] x y Hx Hy; cbn [nth_error] in *.
      * inversion Hx; inversion Hy; subst. right; left. rewrite Nat.add_0_r. auto.
      * apply H3; assumption.
    + destruct (deep lv rv) as [c|] eqn:Ed; inversion E; subst.
      * destruct (IH' lv) as [l3 [H1 [H2 H3]]].
        exists (lv :: l3). split; [exact H1|]. split; [simpl; congruence|].
        intros [|j] x y Hx Hy; cbn [nth_error] in *.
        -- inversion Hx; inversion Hy; subst. right; right. rewrite Nat.add_0_r.
           rewrite restrictC_cons_same, Hrl. eauto.
        -- rewrite restrictC_cons_other by (intros e; inversion e; lia). apply H3; assumption.
      * destruct (IH' rv) as [l3 [H1 [H2 H3]]].
        exists (rv :: l3). split.
        { unfold list_ops_result in *. cbn [set_items]. rewrite lset_app. exact H1. }
        split; [simpl; congruence|].
        intros [|j] x y Hx Hy; cbn [nth_error] in *.
        -- inversion Hx; inversion Hy; subst. left. rewrite Nat.add_0_r. split; [reflexivity|]. split; [|exact Hrl]. intros z Hz. injection Hz as <-. auto.
        -- apply H3; assumption.
Qed.

Lemma compare_list_apply l r :
  exists l3, patch_loop (VList l) (match fst (compare (CList [] l r)) with Some o => [o] | None => [] end)
             = Some (VList l3) /\ length l3 = length r /\
    forall j x y, nth_error l3 j = Some x -> nth_error r j = Some y ->
      (x = y /\ (forall z, nth_error l j = Some z -> py_eqb z y = false /\ deep z y = None) /\ restrictC (PI j) (snd (compare (CList [] l r))) = []) \/
      (nth_error l j = Some x /\ py_eqb x y = true /\ restrictC (PI j) (snd (compare (CList [] l r))) = []) \/
      (nth_error l j = Some x /\ py_eqb x y = false /\ exists c, deep x y = Some c /\
         restrictC (PI j) (snd (compare (CList [] l r))) = [c]).
Proof.
  cbn [compare]. destruct (list_changes [] 0 l r) as [[[ch fu] ln] ld] eqn:E. cbn [fst snd].
  destruct (list_changes_spec l [] r ch fu ln ld E) as [l3 [H1 [H2 H3]]].
  simpl in H1, H3. exists l3. split; [|split; assumption].
  set (o := mkOps _ _ _ _ _ _).
  assert (apply_ops o (VList l) = Some (VList l3)) as Ha.
  { unfold o; cbn [apply_ops o_dc o_dn o_dd o_lc o_ln o_ld].
    unfold list_ops_result in H1. destruct ch as [|c0 ch0]; cbn [nonempty].
    - cbn [set_items] in H1. inversion H1. reflexivity.
    - destruct (set_items l (c0 :: ch0)); [|discriminate]. inversion H1. reflexivity. }
  destruct (ops_empty o) eqn:Eo; cbn [patch_loop upd_path dpath dops].
  - unfold o in Eo. cbn in Eo. destruct ch; [|discriminate Eo].
    destruct ln; [discriminate Eo|]. destruct ld; [discriminate Eo|].
    unfold list_ops_result in H1; cbn in H1. congruence.
  - rewrite Ha. reflexivity.
Qed.

Lemma deep_size lv rv c : deep lv rv = Some c ->
  cpath c = [] /\ cleft c = lv /\ cright c = rv.
Proof. destruct lv, rv; simpl; intros H; inversion H; subst; simpl; auto. Qed.

Lemma vsize_dget d k v : dget d k = Some v -> vsize v < vsize (VDict d).
Proof.
  intros H. apply dget_In in H. cbn [vsize].
  induction d as [|[k' v'] d IH]; [contradiction|].
  cbn [map snd]. change (list_sum (?a :: ?b)) with (a + list_sum b).
  destruct H as [H|H]; [inversion H; subst; lia|]. specialize (IH H). lia.
Qed.
Lemma vsize_nth l i v : nth_error l i = Some v -> vsize v < vsize (VList l).
Proof.
  intros H. apply nth_error_In in H. cbn [vsize].
  induction l as [|v' l IH]; [contradiction|].
  cbn [map]. change (list_sum (?a :: ?b)) with (a + list_sum b).
  destruct H as [H|H]; [subst; lia|]. specialize (IH H). lia.
Qed.

(** ** The round trip *)
Section roundtrip.
  Variable R : value -> value -> Prop.
  Hypothesis R_refl : forall a, R a a.

  (** every pair of equal-comparing parts of the two sides is related by [vsim R] *)
  Definition compat (l r : value) : Prop :=
    forall a b, sub a l -> sub b r -> py_eqb a b = true -> vsim R a b.

  Lemma compat_sub l r l' r' : compat l r -> sub l' l -> sub r' r -> compat l' r'.
  Proof. intros H H1 H2 a b Ha Hb. apply H; eapply sub_trans; eauto. Qed.

  Lemma roundtrip_c n : forall c m os, vsize (cleft c) <= n -> cpath c = [] ->
    wf (cleft c) -> wf (cright c) -> compat (cleft c) (cright c) ->
    diff_loop m [c] = Some os ->
    exists x, patch_loop (cleft c) os = Some x /\ vsim R x (cright c).
  Proof.
    induction n as [|n IH]; intros c m os Hsz Hp Hwl Hwr Hco Hd.
    { pose proof (vsize_pos (cleft c)); lia. }
    destruct m as [|m]; [discriminate|]. cbn [diff_loop] in Hd.
    destruct (compare c) as [o fu] eqn:Ec.
    destruct (diff_loop m ([] ++ fu)) as [rest|] eqn:Er; [|discriminate]. cbn [app] in Er.
    assert (os = (match o with Some d => [d] | None => [] end) ++ rest) as ->
      by (destruct o; inversion Hd; reflexivity).
    assert (Forall headed fu) as Hfu.
    { apply Forall_forall. intros c' Hc'. apply (compare_headed c). rewrite Ec. exact Hc'. }
    rewrite patch_loop_app.
    destruct c as [p l r|p l r]; cbn [cpath cleft cright] in *; subst p.
    - pose proof Hwl as Hwl'. pose proof Hwr as Hwr'.
      apply wf_dict in Hwl'. apply wf_dict in Hwr'.
      destruct Hwl' as [Hnl _], Hwr' as [Hnr _].
      destruct (compare_dict_apply l r Hnl Hnr) as [d [Hd1 [Hd2 Hd3]]].
      rewrite Ec in Hd1. cbn [fst] in Hd1. rewrite Hd1.
      assert (fu = snd (dict_changes [] l r)) as Hfue.
      { cbn [compare] in Ec. destruct (dict_changes [] l r); inversion Ec; reflexivity. }
      assert (forall k, exists os', diff_loop m (restrictC (PK k) fu) = Some os' /\ restrict (PK k) rest = os') as Hres.
      { intros k. destruct (diff_loop_restrict _ _ _ (PK k) Hfu Er) as [H _]. eauto. }
      (* per key outcome *)
      assert (forall k c, dget d k = Some c -> exists rv c', dget r k = Some rv /\
                patch_loop c (restrict (PK k) rest) = Some c' /\ vsim R c' rv) as Hkey.
      { intros k c Hc. rewrite Hd3 in Hc.
        destruct (dget r k) as [rv|] eqn:Erk; [|discriminate].
        destruct (Hres k) as [os' [Hos' Hre]].
        pose proof (dict_changes_spec l r k Hnl) as [_ Hspec]. rewrite <- Hfue, Erk in Hspec.
        exists rv. destruct (dget l k) as [lv|] eqn:Elk.
        - destruct (py_eqb lv rv) eqn:Eeq.
          + destruct Hspec as [Hs1 Hs2]. rewrite Hs1 in Hc. inversion Hc; subst c.
            rewrite Hs2 in Hos'. destruct m; inversion Hos' as [He];
            (exists lv; split; [reflexivity|]; rewrite Hre, <- He; split; [reflexivity|];
             apply Hco; [eapply sub_dget; eauto|eapply sub_dget; eauto|exact Eeq]).
          + destruct (deep lv rv) as [c0|] eqn:Edp.
            * destruct Hspec as [Hs1 Hs2]. rewrite Hs1 in Hc. inversion Hc; subst c.
              rewrite Hs2 in Hos'. destruct (deep_size _ _ _ Edp) as [Hp0 [Hl0 Hr0]].
              destruct (IH c0 m os') as [x [Hx1 Hx2]]; rewrite ?Hl0, ?Hr0; auto.
              -- pose proof (vsize_dget _ _ _ Elk). lia.
              -- eapply wf_sub; [eapply sub_dget; eauto|assumption].
              -- eapply wf_sub; [eapply sub_dget; eauto|assumption].
              -- eapply compat_sub; eauto; eapply sub_dget; eauto.
              -- rewrite Hl0 in Hx1; rewrite Hr0 in Hx2. exists x. rewrite Hre. auto.
            * destruct Hspec as [Hs1 Hs2]. rewrite Hs1 in Hc. inversion Hc; subst c.
              rewrite Hs2 in Hos'. destruct m; inversion Hos' as [He];
              (exists rv; split; [reflexivity|]; rewrite Hre, <- He; split; [reflexivity|];
               apply vsim_refl; assumption).
        - destruct Hspec as [Hs1 Hs2]. inversion Hc; subst c.
          rewrite Hs2 in Hos'. destruct m; inversion Hos' as [He];
            (exists rv; split; [reflexivity|]; rewrite Hre, <- He; split; [reflexivity|];
             apply vsim_refl; assumption). }
      destruct (patch_dict rest d) as [d' [H1 [H2 H3]]].
      + intros o' Ho'.
        destruct (diff_loop_restrict _ _ _ (PK []) Hfu Er) as [_ Hf].
        rewrite Forall_forall in Hf. destruct (Hf _ Ho') as [k0 [s0 Hp0]].
        destruct (diff_loop_restrict _ _ _ k0 Hfu Er) as [Hk0 _].
        assert (restrictC k0 fu <> []) as Hne.
        { intros He. rewrite He in Hk0.
          assert (restrict k0 rest = []) as Hr0 by (destruct m; simpl in Hk0; congruence).
          clear - Ho' Hp0 Hr0. induction rest as [|o1 rest IHr]; [contradiction|].
          simpl in Hr0. destruct Ho' as [->|Ho'].
          - rewrite Hp0 in Hr0. destruct (pkey_eq_dec k0 k0); congruence.
          - destruct (dpath o1) as [|k1 p1]; [auto|]. destruct (pkey_eq_dec k0 k1); [discriminate|auto]. }
        assert (exists c1, In (consC k0 c1) fu) as [c1 Hc1].
        { clear - Hne Hfu. induction fu as [|c fu IHf]; [simpl in Hne; congruence|].
          inversion Hfu; subst. destruct (headed_inv _ H1) as [k1 [c1 ->]].
          destruct (pkey_eq_dec k0 k1) as [->|Hn]; [exists c1; left; reflexivity|].
          rewrite restrictC_cons_other in Hne by exact Hn. destruct (IHf H2 Hne) as [c2 Hc2].
          exists c2; right; exact Hc2. }
        rewrite Hfue in Hc1. apply (dict_changes_keys l r) in Hc1.
        destruct Hc1 as (k & lv & rv & c0 & He & Hi & Hgr & _).
        assert (k0 = PK k) as -> by (destruct c1, c0; inversion He; reflexivity).
        exists k, s0. split; [exact Hp0|].
        assert (dget l k = Some lv) as Hgl by (apply In_dget; assumption).
        destruct (dget d k) as [x|] eqn:Ek; [eapply dget_Some_key; eauto|].
        rewrite Hd3, Hgr, Hgl in Ek. destruct (dget (fst (dict_changes [] l r)) k); discriminate.
      + intros k c Hc. destruct (Hkey k c Hc) as [rv [c' [_ [H _]]]]. eauto.
      + exists (VDict d'). split; [exact H1|]. apply sim_dict.
        * intros k. rewrite dget_None, H2, <- dget_None, Hd3.
          destruct (dget r k) as [rv|]; [|tauto].
          destruct (dget l k) as [lv|]; [|split; discriminate].
          destruct (dget (fst (dict_changes [] l r)) k); split; discriminate.
        * intros k x y Hx Hy.
          destruct (dget d k) as [c|] eqn:Ek.
          -- destruct (H3 _ _ Ek) as [c' [Hc1 Hc2]].
             destruct (Hkey _ _ Ek) as [rv [c'' [Hr1 [Hr2 Hr3]]]].
             congruence.
          -- apply dget_None in Ek. rewrite <- H2 in Ek. apply dget_None in Ek. congruence.
    - destruct (compare_list_apply l r) as [l3 [Hd1 [Hd2 Hd3]]].
      rewrite Ec in Hd1, Hd3. cbn [fst snd] in Hd1, Hd3. rewrite Hd1.
      assert (forall k, exists os', diff_loop m (restrictC k fu) = Some os' /\ restrict k rest = os') as Hres.
      { intros k. destruct (diff_loop_restrict _ _ _ k Hfu Er) as [H _]. eauto. }
      assert (forall i c, nth_error l3 i = Some c -> exists rv c', nth_error r i = Some rv /\
                patch_loop c (restrict (PI i) rest) = Some c' /\ vsim R c' rv) as Hkey.
      { intros i c Hc.
        destruct (nth_error r i) as [rv|] eqn:Eri.
        2:{ apply nth_error_None in Eri. assert (nth_error l3 i <> None) by congruence.
            apply nth_error_Some in H. lia. }
        destruct (Hres (PI i)) as [os' [Hos' Hre]]. exists rv.
        destruct (Hd3 i c rv Hc Eri) as [[He [_ Hr0]]|[[Hl0 [He Hr0]]|[Hl0 [He [c0 [Edp Hr0]]]]]];
          rewrite Hr0 in Hos'.
        - subst c. assert (os' = []) as -> by (destruct m; simpl in Hos'; congruence).
          exists rv. rewrite Hre. split; [reflexivity|]. split; [reflexivity|]. apply vsim_refl; assumption.
        - assert (os' = []) as -> by (destruct m; simpl in Hos'; congruence).
          exists c. rewrite Hre. split; [reflexivity|]. split; [reflexivity|].
          apply Hco; [eapply sub_nth; eauto|eapply sub_nth; eauto|exact He].
        - destruct (deep_size _ _ _ Edp) as [Hp0 [Hlc Hrc]].
          destruct (IH c0 m os') as [x [Hx1 Hx2]]; rewrite ?Hlc, ?Hrc; auto.
          + pose proof (vsize_nth _ _ _ Hl0). lia.
          + eapply wf_sub; [eapply sub_nth; eauto|assumption].
          + eapply wf_sub; [eapply sub_nth; eauto|assumption].
          + eapply compat_sub; eauto; eapply sub_nth; eauto.
          + rewrite Hlc in Hx1; rewrite Hrc in Hx2. exists x. rewrite Hre. auto. }
      destruct (patch_list rest l3) as [d' [H1 [H2 H3]]].
      + intros o' Ho'.
        destruct (diff_loop_restrict _ _ _ (PK []) Hfu Er) as [_ Hf].
        rewrite Forall_forall in Hf. destruct (Hf _ Ho') as [k0 [s0 Hp0]].
        destruct (diff_loop_restrict _ _ _ k0 Hfu Er) as [Hk0 _].
        assert (restrictC k0 fu <> []) as Hne.
        { intros He. rewrite He in Hk0.
          assert (restrict k0 rest = []) as Hr0 by (destruct m; simpl in Hk0; congruence).
          clear - Ho' Hp0 Hr0. induction rest as [|o1 rest IHr]; [contradiction|].
          simpl in Hr0. destruct Ho' as [->|Ho'].
          - rewrite Hp0 in Hr0. destruct (pkey_eq_dec k0 k0); congruence.
          - destruct (dpath o1) as [|k1 p1]; [auto|]. destruct (pkey_eq_dec k0 k1); [discriminate|auto]. }
        assert (exists c1, In (consC k0 c1) fu) as [c1 Hc1].
        { clear - Hne Hfu. induction fu as [|c fu IHf]; [simpl in Hne; congruence|].
          inversion Hfu; subst. destruct (headed_inv _ H1) as [k1 [c1 ->]].
          destruct (pkey_eq_dec k0 k1) as [->|Hn]; [exists c1; left; reflexivity|].
          rewrite restrictC_cons_other in Hne by exact Hn. destruct (IHf H2 Hne) as [c2 Hc2].
          exists c2; right; exact Hc2. }
        cbn [compare] in Ec. destruct (list_changes [] 0 l r) as [[[ch fu1] ln] ld] eqn:El.
        inversion Ec; subst fu1.
        destruct (restrictC_lt 0 _ _ _ _ _ _ _ El) as [_ Hin]. apply Hin in Hc1.
        destruct Hc1 as (j & lv & rv & c0 & He & Hnl & Hnr & _).
        assert (k0 = PI j) as -> by (destruct c1, c0; inversion He; reflexivity).
        exists j, s0. split; [exact Hp0|]. rewrite Hd2. apply nth_error_Some. congruence.
      + intros i c Hc. destruct (Hkey i c Hc) as [rv [c' [_ [H _]]]]. eauto.
      + exists (VList d'). split; [exact H1|]. apply sim_list; [congruence|].
        intros i x y Hx Hy.
        destruct (nth_error l3 i) as [c|] eqn:Ek.
        * destruct (H3 _ _ Ek) as [c' [Hc1 Hc2]].
          destruct (Hkey _ _ Ek) as [rv [c'' [Hr1 [Hr2 Hr3]]]]. congruence.
        * apply nth_error_None in Ek. assert (nth_error d' i <> None) as Hn by congruence.
          apply nth_error_Some in Hn. lia.
  Qed.

  Lemma roundtrip_gen base new : wf (VDict base) -> wf (VDict new) ->
    compat (VDict base) (VDict new) ->
    exists d, patch base (diff base new) = Some d /\ vsim R (VDict d) (VDict new).
  Proof.
    intros Hb Hn Hc. unfold diff.
    destruct (py_eqb (VDict base) (VDict new)) eqn:E.
    - exists base. split; [reflexivity|]. apply Hc; [constructor|constructor|exact E].
    - destruct (diff_loop_total base new) as [os Hos]. rewrite Hos.
      destruct (roundtrip_c (vsize (VDict base)) (CDict [] base new) _ os (le_n _) eq_refl Hb Hn Hc Hos)
        as [x [Hx1 Hx2]].
      cbn [cleft cright] in *. unfold patch. rewrite Hx1.
      inversion Hx2; subst; simpl in *; try discriminate. eauto.
  Qed.
End roundtrip.

Lemma diff_patch_veq base new : wfd base -> wfd new ->
  exists d, patch base (diff base new) = Some d /\ veq (VDict d) (VDict new).
Proof.
  intros Hb Hn. apply roundtrip_gen; auto using scalar_same_refl.
  intros a b Ha Hb' He. apply py_eqb_veq; auto; eapply wf_sub; eauto.
Qed.

(** ** Exact types *)
(** No scalar of [l] compares equal to a different scalar of [r]. *)
Definition type_stable (l r : value) : Prop :=
  forall a b, sub a l -> sub b r -> is_scalar a = true -> is_scalar b = true ->
    scalar_eqb a b = true -> a = b.

Lemma py_eqb_vident a : forall b, wf a -> wf b -> type_stable a b -> py_eqb a b = true -> vident a b.
Proof.
  induction a as [|a0|a0|a0|a0|l IH|d IH] using value_ind'; intros b Hwa Hwb Ht H;
    try (destruct b; simpl in H; try discriminate;
         (apply sim_scalar; [reflexivity|reflexivity|apply Ht; [constructor|constructor|reflexivity|reflexivity|exact H]]); fail).
  - destruct b as [| | | | |m|]; try discriminate.
    cbn [py_eqb] in H. apply list_eqb_nth in H. destruct H as [Hl Hn].
    apply wf_list in Hwa. apply wf_list in Hwb. rewrite Forall_forall in *.
    apply sim_list; [exact Hl|]. intros i x y Hx Hy.
    apply IH; [eapply nth_error_In; eauto|apply Hwa; eapply nth_error_In; eauto
      |apply Hwb; eapply nth_error_In; eauto| |eapply Hn; eauto].
    intros a b Ha Hb. apply Ht; eapply sub_trans; eauto; eapply sub_nth; eauto.
  - destruct b as [| | | | | |e]; try discriminate.
    pose proof (py_eqb_veq (VDict d) (VDict e) Hwa Hwb H) as Hv.
    inversion Hv as [? ? Hs| |? ? Hk Hk2]; subst; [discriminate|].
    apply sim_dict; [exact Hk|].
    intros k x y Hx Hy. apply py_eqb_dict in H. destruct H as [_ Hn].
    pose proof (dget_In _ _ _ Hx) as Hi. destruct (Hn _ _ Hi) as [w [Hw He]].
    rewrite Hy in Hw; inversion Hw; subst w.
    rewrite Forall_forall in IH. apply (IH _ Hi); [| | |exact He].
    + eapply wf_dget; [exact Hwa|exact Hx].
    + eapply wf_dget; [exact Hwb|exact Hy].
    + intros a b Ha Hb. apply Ht; eapply sub_trans; eauto; eapply sub_dget; eauto.
Qed.

Lemma diff_patch_vident base new : wfd base -> wfd new ->
  type_stable (VDict base) (VDict new) ->
  exists d, patch base (diff base new) = Some d /\ vident (VDict d) (VDict new).
Proof.
  intros Hb Hn Ht. apply roundtrip_gen; auto.
  intros a b Ha Hb' He. apply py_eqb_vident; auto.
  - eapply wf_sub; eauto.
  - eapply wf_sub; eauto.
  - intros x y Hx Hy. apply Ht; eapply sub_trans; eauto.
Qed.

(** ** diff is empty exactly on equal data *)
Lemma diff_loop_nonempty n : forall c m os, vsize (cleft c) <= n -> cpath c = [] ->
  wf (cleft c) -> wf (cright c) -> py_eqb (cleft c) (cright c) = false ->
  diff_loop m [c] = Some os -> os <> [].
Proof.
  induction n as [|n IH]; intros c m os Hsz Hp Hwl Hwr Hne Hd.
  { pose proof (vsize_pos (cleft c)); lia. }
  destruct m as [|m]; [discriminate|]. cbn [diff_loop] in Hd.
  destruct (compare c) as [o fu] eqn:Ec.
  destruct (diff_loop m ([] ++ fu)) as [rest|] eqn:Er; [|discriminate]. cbn [app] in Er.
  destruct o as [o|]; [inversion Hd; discriminate|]. inversion Hd; subst rest.
  assert (Forall headed fu) as Hfu.
  { apply Forall_forall. intros c' Hc'. apply (compare_headed c). rewrite Ec. exact Hc'. }
  destruct c as [p l r|p l r]; cbn [cpath cleft cright] in *; subst p.
  - pose proof Hwl as Hwl'. pose proof Hwr as Hwr'.
    apply wf_dict in Hwl'. apply wf_dict in Hwr'.
    destruct Hwl' as [Hnl _], Hwr' as [Hnr _].
    cbn [compare] in Ec.
    destruct (dict_changes [] l r) as [ch fu1] eqn:Edc.
    destruct (ops_empty _) eqn:Eo; [|discriminate]. inversion Ec; subst fu1.
    cbn in Eo. destruct ch; [|discriminate Eo]. destruct (new_values l r) as [|] eqn:En; [|discriminate Eo].
    destruct (deleted_keys l r) as [|] eqn:Ed; [|discriminate Eo].
    assert (forall k, In k (dkeys l) <-> In k (dkeys r)) as Hkk.
    { intros k. split; intros Hk.
      - destruct (in_dec str_eq_dec k (dkeys r)) as [Hi|Hi]; [exact Hi|].
        assert (In k (deleted_keys l r)) as Hx.
        { unfold deleted_keys. apply filter_In. split; [exact Hk|]. apply negb_true_iff, dmem_false, Hi. }
        rewrite Ed in Hx; contradiction.
      - destruct (dget_ex _ _ Hk) as [v Hv].
        assert (dget (new_values l r) k = None) as Hx by (rewrite En; reflexivity).
        rewrite dget_new_values in Hx by exact Hnr.
        destruct (dmem l k) eqn:Em; [apply dmem_In; exact Em|congruence]. }
    (* some key differs *)
    assert (exists k lv rv, dget l k = Some lv /\ dget r k = Some rv /\ py_eqb lv rv = false) as (k & lv & rv & Hl & Hr & He).
    { destruct (forallb (fun kv => match dget r (fst kv) with Some w => py_eqb (snd kv) w | None => false end) l) eqn:Ef.
      - exfalso. cbn [py_eqb] in Hne. rewrite Ef, andb_true_r in Hne. apply Nat.eqb_neq in Hne. apply Hne.
        transitivity (length (dkeys l)); [unfold dkeys; rewrite map_length; reflexivity|].
        transitivity (length (dkeys r)); [|unfold dkeys; rewrite map_length; reflexivity].
        apply Nat.le_antisymm; apply NoDup_incl_length; auto; intros k Hi; apply Hkk; exact Hi.
      - assert (exists x, In x l /\ (match dget r (fst x) with Some w => py_eqb (snd x) w | None => false end) = false) as [[k lv] [Hi Hx]].
        { clear - Ef. induction l as [|x l IHl]; [discriminate|]. simpl in Ef.
          apply andb_false_iff in Ef. destruct Ef as [Ef|Ef].
          - exists x; simpl; auto.
          - destruct (IHl Ef) as [y [Hy1 Hy2]]. exists y; simpl; auto. }
        simpl in Hx.
        assert (In k (dkeys r)) as Hkr by (apply Hkk; change k with (fst (k, lv)); apply in_map; exact Hi).
        destruct (dget_ex _ _ Hkr) as [rv Hrv]. rewrite Hrv in Hx.
        exists k, lv, rv. split; [apply In_dget; assumption|auto]. }
    pose proof (dict_changes_spec l r k Hnl) as [_ Hspec]. rewrite Hl, Hr, He, Edc in Hspec. cbn [fst snd] in Hspec.
    destruct (deep lv rv) as [c0|] eqn:Edp; [|destruct Hspec as [Hs _]; discriminate].
    destruct Hspec as [_ Hs2].
    destruct (diff_loop_restrict _ _ _ (PK k) Hfu Er) as [Hre _]. rewrite Hs2 in Hre.
    destruct (deep_size _ _ _ Edp) as [Hp0 [Hl0 Hr0]].
    intros ->. apply (IH c0 m (restrict (PK k) [])) ; rewrite ?Hl0, ?Hr0; auto.
    + pose proof (vsize_dget _ _ _ Hl). lia.
    + eapply wf_sub; [eapply sub_dget; eauto|assumption].
    + eapply wf_sub; [eapply sub_dget; eauto|assumption].
  - destruct (compare_list_apply l r) as [l3 [H1 [H2 H3]]].
    rewrite Ec in H1, H3. cbn [fst snd patch_loop] in H1, H3. inversion H1; subst l3.
    assert (exists i x y, nth_error l i = Some x /\ nth_error r i = Some y /\ py_eqb x y = false) as (i & x & y & Hx & Hy & He).
    { clear - Hne H2. cbn [py_eqb] in Hne. revert r Hne H2. induction l as [|x l IHl]; intros [|y r] Hne H2; simpl in *; try discriminate.
      apply andb_false_iff in Hne. destruct Hne as [Hne|Hne].
      - exists 0, x, y; simpl; auto.
      - destruct (IHl r Hne) as (i & x' & y' & Ha & Hb & Hc); [lia|]. exists (S i), x', y'; simpl; auto. }
    destruct (H3 i x y Hx Hy) as [[He' [_ Hr0]]|[[_ [He' _]]|[_ [_ [c0 [Edp Hr0]]]]]]; [|congruence|].
    + (* x = y but not equal to itself: a NaN at this place; it must be recorded as a change *)
      subst y. exfalso.
      cbn [compare] in Ec. destruct (list_changes [] 0 l r) as [[[ch fu1] ln] ld] eqn:El.
      destruct (ops_empty _) eqn:Eo; [|discriminate]. inversion Ec; subst fu1.
      cbn in Eo. destruct ch; [|discriminate Eo]. clear - El Hx Hy He Hr0.
      assert (forall l r n fu ln ld i x, list_changes [] n l r = ([], fu, ln, ld) ->
        nth_error l i = Some x -> nth_error r i = Some x -> py_eqb x x = false -> restrictC (PI (n + i)) fu <> []) as Hg.
      { clear. induction l as [|lv l IH]; intros [|rv r] n fu ln ld i x E Hx Hy He;
          try (destruct i; discriminate).
        rewrite list_changes_step in E.
        destruct (list_changes [] (S n) l r) as [[[ch0 fu0] ln0] ld0] eqn:E0.
        destruct i as [|i]; cbn [nth_error] in Hx, Hy.
        - inversion Hx; inversion Hy; subst. rewrite He in E.
          destruct (deep x x) eqn:Ed; inversion E; subst.
          rewrite Nat.add_0_r, restrictC_cons_same. discriminate.
        - rewrite Nat.add_succ_r. change (S (n + i)) with (S n + i).
          destruct (py_eqb lv rv); [inversion E; subst; eapply IH; eauto|].
          destruct (deep lv rv); inversion E; subst.
          rewrite restrictC_cons_other by (intros e; inversion e; lia). eapply IH; eauto. }
      eapply (Hg l r 0); eauto.
    + destruct (diff_loop_restrict _ _ _ (PI i) Hfu Er) as [Hre _]. rewrite Hr0 in Hre.
      destruct (deep_size _ _ _ Edp) as [Hp0 [Hl0 Hr0']].
      intros ->. apply (IH c0 m (restrict (PI i) [])) ; rewrite ?Hl0, ?Hr0'; auto.
      * pose proof (vsize_nth _ _ _ Hx). lia.
      * eapply wf_sub; [eapply sub_nth; eauto|assumption].
      * eapply wf_sub; [eapply sub_nth; eauto|assumption].
Qed.

Lemma diff_nil_iff base new : wfd base -> wfd new ->
  (diff base new = [] <-> py_eqb (VDict base) (VDict new) = true).
Proof.
  intros Hb Hn. unfold diff. destruct (py_eqb (VDict base) (VDict new)) eqn:E.
  - tauto.
  - destruct (diff_loop_total base new) as [os Hos]. rewrite Hos.
    split; [|discriminate]. intros ->. exfalso.
    eapply (diff_loop_nonempty _ (CDict [] base new) _ [] (le_n _)); eauto.
Qed.

(** ** patch keeps values well formed *)
Definition wf_ops (o : ops) : Prop :=
  (forall d, o_dc o = Some d -> Forall (fun kv => wf (snd kv)) d) /\
  (forall d, o_dn o = Some d -> Forall (fun kv => wf (snd kv)) d) /\
  (forall l, o_lc o = Some l -> Forall (fun iv => wf (snd iv)) l) /\
  (forall l, o_ln o = Some l -> Forall wf l).

Lemma wf_dset d k v : wf (VDict d) -> wf v -> wf (VDict (dset d k v)).
Proof.
  intros Hd Hv. apply wf_dict in Hd. destruct Hd as [Hn Hf]. apply wf_dict. split.
  - apply NoDup_dset; exact Hn.
  - rewrite Forall_forall in *. intros x Hx. apply In_dset in Hx.
    destruct Hx as [->|[Hx|[_ Hx]]]; auto. rewrite Hx; exact Hv.
Qed.
Lemma wf_dupdate e : forall d, wf (VDict d) -> Forall (fun kv => wf (snd kv)) e -> wf (VDict (dupdate d e)).
Proof.
  induction e as [|[k v] e IH]; intros d Hd He; [exact Hd|].
  inversion He; subst. rewrite dupdate_cons. apply IH; [|assumption]. apply wf_dset; assumption.
Qed.
Lemma wf_del_keys ks : forall d d' : dict, wf (VDict d) -> del_keys d ks = Some d' -> wf (VDict d').
Proof.
  induction ks as [|k ks IH]; intros d d' Hd H; cbn [del_keys] in H; [congruence|].
  destruct (dmem d k); [|discriminate]. eapply IH; [|exact H].
  apply wf_dict in Hd. destruct Hd as [Hn Hf]. apply wf_dict. split; [apply NoDup_ddel; exact Hn|].
  rewrite Forall_forall in *. intros x Hx. apply Hf. eapply In_ddel; eauto.
Qed.
Lemma In_lset {A} (l : list A) : forall i x l' y, lset l i x = Some l' -> In y l' -> y = x \/ In y l.
Proof.
  induction l as [|z l IH]; intros [|i] x l' y H Hy; simpl in H; try discriminate.
  - inversion H; subst. destruct Hy as [Hy|Hy]; simpl; auto.
  - destruct (lset l i x) as [l''|] eqn:E; [|discriminate]. inversion H; subst.
    destruct Hy as [Hy|Hy]; simpl; auto. destruct (IH _ _ _ _ E Hy); auto.
Qed.
Lemma wf_lset l i x l' : Forall wf l -> wf x -> lset l i x = Some l' -> Forall wf l'.
Proof.
  intros Hl Hx H. rewrite Forall_forall in *. intros y Hy.
  destruct (In_lset _ _ _ _ _ H Hy); subst; auto.
Qed.
Lemma wf_set_items cs : forall l l', Forall wf l -> Forall (fun iv => wf (snd iv)) cs ->
  set_items l cs = Some l' -> Forall wf l'.
Proof.
  induction cs as [|[i v] cs IH]; intros l l' Hl Hc H; cbn [set_items] in H; [congruence|].
  inversion Hc; subst. destruct (lset l i v) as [l1|] eqn:E; [|discriminate].
  eapply IH; [|eassumption|eassumption]. eapply wf_lset; eauto.
Qed.
Lemma wf_apply_ops o v v' : wf_ops o -> wf v -> apply_ops o v = Some v' -> wf v'.
Proof.
  intros [H1 [H2 [H3 H4]]] Hv H. destruct v; cbn [apply_ops] in H; try discriminate.
  - destruct (o_dc o); [discriminate|]. destruct (o_dn o); [discriminate|].
    destruct (o_dd o); [discriminate|]. apply wf_list in Hv.
    destruct (match o_lc o with Some cs => set_items l cs | None => Some l end) as [l1|] eqn:E; [|discriminate].
    assert (Forall wf l1) as Hl1.
    { destruct (o_lc o) as [cs|]; [eapply wf_set_items; [exact Hv|apply H3; reflexivity|exact E]|congruence]. }
    inversion H; subst. apply wf_list.
    assert (Forall wf (match o_ln o with Some t => l1 ++ t | None => l1 end)) as Hl2.
    { destruct (o_ln o); [apply Forall_app; auto|assumption]. }
    destruct (o_ld o) as [n|]; [|assumption].
    rewrite Forall_forall in *. intros x Hx. apply Hl2.
    set (m := match o_ln o with Some t => l1 ++ t | None => l1 end) in *.
    clearbody m. rewrite <- (firstn_skipn n m). apply in_or_app; left; exact Hx.
  - destruct (o_lc o); [discriminate|]. destruct (o_ln o); [discriminate|].
    destruct (o_ld o); [discriminate|].
    assert (wf (VDict (match o_dc o with Some c => dupdate d c | None => d end))) as Hd1.
    { destruct (o_dc o); [apply wf_dupdate; auto|assumption]. }
    set (d1 := match o_dc o with Some c => dupdate d c | None => d end) in *.
    assert (wf (VDict (match o_dn o with Some c => dupdate d1 c | None => d1 end))) as Hd2.
    { destruct (o_dn o); [apply wf_dupdate; auto|assumption]. }
    destruct (o_dd o) as [ks|]; [|congruence].
    destruct (del_keys _ ks) as [d3|] eqn:E; [|discriminate].
    inversion H; subst. eapply wf_del_keys; [|exact E]. exact Hd2.
Qed.
Lemma wf_upd_path f : (forall v v', wf v -> f v = Some v' -> wf v') ->
  forall p v v', wf v -> upd_path p f v = Some v' -> wf v'.
Proof.
  intros Hf. induction p as [|[k|i] p IH]; intros v v' Hv H; cbn [upd_path] in H.
  - eauto.
  - destruct v; try discriminate. destruct (dget d k) as [c|] eqn:E; [|discriminate].
    destruct (upd_path p f c) as [c'|] eqn:E'; [|discriminate]. inversion H; subst.
    apply wf_dset; [assumption|]. eapply IH; [|exact E']. eapply wf_dget; eauto.
  - destruct v; try discriminate. destruct (nth_error l i) as [c|] eqn:E; [|discriminate].
    destruct (upd_path p f c) as [c'|] eqn:E'; [|discriminate].
    destruct (lset l i c') as [l'|] eqn:E2; [|discriminate]. inversion H; subst.
    apply wf_list. apply wf_list in Hv. eapply wf_lset; [exact Hv| |exact E2].
    eapply IH; [|exact E']. rewrite Forall_forall in Hv. apply Hv. eapply nth_error_In; eauto.
Qed.
Lemma wf_patch_loop os : forall v v', Forall (fun o => wf_ops (dops o)) os -> wf v ->
  patch_loop v os = Some v' -> wf v'.
Proof.
  induction os as [|o os IH]; intros v v' Ho Hv H; cbn [patch_loop] in H; [congruence|].
  inversion Ho; subst.
  destruct (upd_path (dpath o) (apply_ops (dops o)) v) as [w|] eqn:E; [|discriminate].
  eapply IH; [assumption| |exact H]. eapply wf_upd_path; [|exact Hv|exact E].
  intros; eapply wf_apply_ops; eauto.
Qed.

Lemma nonempty_Some {A} (l x : list A) : nonempty l = Some x -> x = l.
Proof. destruct l; simpl; congruence. Qed.

Lemma wf_dict_changes p l r : wf (VDict l) -> wf (VDict r) ->
  Forall (fun kv => wf (snd kv)) (fst (dict_changes p l r)) /\
  Forall (fun c => wf (cleft c) /\ wf (cright c)) (snd (dict_changes p l r)).
Proof.
  intros Hl Hr. apply wf_dict in Hl. destruct Hl as [_ Hl].
  induction l as [|[k lv] l IH]; simpl; [auto|].
  inversion Hl; subst. specialize (IH H2).
  destruct (dict_changes p l r) as [ch fu]; cbn [fst snd] in *. destruct IH as [IH1 IH2].
  destruct (dget r k) as [rv|] eqn:E; [|auto].
  assert (wf rv) by (eapply wf_dget; eauto).
  destruct (py_eqb lv rv); [auto|].
  destruct lv, rv; cbn [fst snd]; auto.
Qed.
Lemma wf_list_changes p l : forall r n ch fu ln ld, Forall wf l -> Forall wf r ->
  list_changes p n l r = (ch, fu, ln, ld) ->
  Forall (fun kv => wf (snd kv)) ch /\
  Forall (fun c => wf (cleft c) /\ wf (cright c)) fu /\
  (forall t, ln = Some t -> Forall wf t).
Proof.
  induction l as [|lv l IH]; intros [|rv r] n ch fu ln ld Hl Hr E; cbn [list_changes] in E;
    try (inversion E; subst; split; [constructor|]; split; [constructor|];
         intros t Ht; inversion Ht; subst; assumption).
  inversion Hl; inversion Hr; subst.
  destruct (list_changes p (S n) l r) as [[[ch0 fu0] ln0] ld0] eqn:E0.
  destruct (IH _ _ _ _ _ _ H2 H6 E0) as [I1 [I2 I3]].
  destruct (py_eqb lv rv); [inversion E; subst; auto|].
  destruct lv, rv; inversion E; subst; split; auto; split; auto; constructor; auto; simpl; auto.
Qed.
Lemma wf_compare c : wf (cleft c) -> wf (cright c) ->
  (forall o, fst (compare c) = Some o -> wf_ops (dops o)) /\
  Forall (fun c => wf (cleft c) /\ wf (cright c)) (snd (compare c)).
Proof.
  intros Hl Hr. destruct c as [p l r|p l r]; cbn [compare cleft cright] in *.
  - pose proof (wf_dict_changes p l r Hl Hr) as [H1 H2].
    destruct (dict_changes p l r) as [ch fu]; cbn [fst snd] in *.
    split; [|assumption]. intros o Ho. destruct (ops_empty _); [discriminate|]. inversion Ho; subst; cbn [dops].
    unfold wf_ops; cbn [o_dc o_dn o_lc o_ln].
    split; [intros d Hd; apply nonempty_Some in Hd; subst; assumption|].
    split; [|split; discriminate].
    intros d Hd; apply nonempty_Some in Hd; subst. unfold new_values.
    apply wf_dict in Hr. destruct Hr as [_ Hr]. rewrite Forall_forall in *.
    intros x Hx. apply filter_In in Hx. apply Hr; tauto.
  - destruct (list_changes p 0 l r) as [[[ch fu] ln] ld] eqn:E. cbn [fst snd].
    apply wf_list in Hl. apply wf_list in Hr.
    destruct (wf_list_changes _ _ _ _ _ _ _ _ Hl Hr E) as [H1 [H2 H3]].
    split; [|assumption]. intros o Ho. destruct (ops_empty _); [discriminate|]. inversion Ho; subst; cbn [dops].
    unfold wf_ops; cbn [o_dc o_dn o_lc o_ln].
    split; [discriminate|]. split; [discriminate|]. split; [|exact H3].
    intros d Hd; apply nonempty_Some in Hd; subst; assumption.
Qed.
Lemma wf_diff_loop n : forall q os, Forall (fun c => wf (cleft c) /\ wf (cright c)) q ->
  diff_loop n q = Some os -> Forall (fun o => wf_ops (dops o)) os.
Proof.
  induction n as [|n IH]; intros q os Hq H.
  - destruct q; simpl in H; [inversion H; constructor|discriminate].
  - destruct q as [|c q]; [inversion H; constructor|]. cbn [diff_loop] in H.
    inversion Hq as [|? ? [Hc1 Hc2] Hq']; subst.
    pose proof (wf_compare c Hc1 Hc2) as [Ho Hf].
    destruct (compare c) as [o fu]; cbn [fst snd] in *.
    destruct (diff_loop n (q ++ fu)) as [rest|] eqn:E; [|discriminate].
    assert (Forall (fun o => wf_ops (dops o)) rest) as Hr.
    { eapply IH; [|exact E]. apply Forall_app; auto. }
    destruct o; inversion H; subst; auto.
Qed.
Lemma wf_diff base new : wfd base -> wfd new -> Forall (fun o => wf_ops (dops o)) (diff base new).
Proof.
  intros Hb Hn. unfold diff. destruct (py_eqb _ _); [constructor|].
  destruct (diff_loop_total base new) as [os Hos]. rewrite Hos.
  eapply wf_diff_loop; [|exact Hos]. constructor; [simpl; auto|constructor].
Qed.
Lemma wf_patch base os d : Forall (fun o => wf_ops (dops o)) os -> wfd base ->
  patch base os = Some d -> wfd d.
Proof.
  unfold patch, wfd. intros Ho Hb H.
  destruct (patch_loop (VDict base) os) as [v|] eqn:E; [|discriminate].
  pose proof (wf_patch_loop _ _ _ Ho Hb E) as Hv. destruct v; try discriminate.
  inversion H; subst; exact Hv.
Qed.

(** ** patch respects "same value" of its base *)
Section congr.
  Variable R : value -> value -> Prop.
  Hypothesis R_refl : forall a, R a a.

  Lemma vsim_dset d e k v w : vsim R (VDict d) (VDict e) -> vsim R v w ->
    vsim R (VDict (dset d k v)) (VDict (dset e k w)).
  Proof.
    intros H Hv. inversion H as [? ? Hs| |? ? Hk Hx]; subst; [discriminate|].
    apply sim_dict.
    - intros k0. rewrite !dget_dset. destruct (str_eqb k0 k); [split; discriminate|apply Hk].
    - intros k0 x y. rewrite !dget_dset. destruct (str_eqb k0 k); [|apply Hx].
      intros H1 H2; inversion H1; inversion H2; subst; assumption.
  Qed.
  Lemma vsim_dupdate u : forall d e, vsim R (VDict d) (VDict e) ->
    vsim R (VDict (dupdate d u)) (VDict (dupdate e u)).
  Proof.
    induction u as [|[k v] u IH]; intros d e H; [exact H|].
    rewrite !dupdate_cons. apply IH. apply vsim_dset; [exact H|]. apply vsim_refl; exact R_refl.
  Qed.
  Lemma vsim_del_keys ks : forall d e d', wf (VDict d) -> wf (VDict e) ->
    vsim R (VDict d) (VDict e) ->
    del_keys d ks = Some d' -> exists e', del_keys e ks = Some e' /\ vsim R (VDict d') (VDict e').
  Proof.
    induction ks as [|k ks IH]; intros d e d' Hwd Hwe H Hd; cbn [del_keys] in *.
    - inversion Hd; subst. eauto.
    - inversion H as [? ? Hs| |? ? Hk Hx]; subst; [discriminate|].
      assert (dmem e k = dmem d k) as ->.
      { unfold dmem. specialize (Hk k). destruct (dget d k), (dget e k); try reflexivity.
        - destruct Hk as [_ Hk]; discriminate (Hk eq_refl).
        - destruct Hk as [Hk _]; discriminate (Hk eq_refl). }
      destruct (dmem d k) eqn:Em; [|discriminate].
      assert (wf (VDict (ddel d k)) /\ wf (VDict (ddel e k))) as [W1 W2].
      { split; [eapply (wf_del_keys [k] d)|eapply (wf_del_keys [k] e)]; eauto;
        cbn [del_keys]; unfold dmem in *.
        - destruct (dget d k); [reflexivity|discriminate].
        - specialize (Hk k). destruct (dget d k), (dget e k); try reflexivity; try discriminate.
          destruct Hk as [_ Hk]; discriminate (Hk eq_refl). }
      eapply IH; [exact W1|exact W2| |exact Hd].
      apply wf_dict in Hwd. apply wf_dict in Hwe. destruct Hwd as [Nd _], Hwe as [Ne _].
      apply sim_dict.
      + intros k0. rewrite !dget_ddel by assumption. destruct (str_eqb k0 k); [tauto|apply Hk].
      + intros k0 x y. rewrite !dget_ddel by assumption. destruct (str_eqb k0 k); [discriminate|apply Hx].
  Qed.
  Lemma vsim_lset l m i x y l' : vsim R (VList l) (VList m) -> vsim R x y ->
    lset l i x = Some l' -> exists m', lset m i y = Some m' /\ vsim R (VList l') (VList m').
  Proof.
    intros H Hxy Hl. inversion H as [? ? Hs|? ? Hlen Hn|]; subst; [discriminate|].
    assert (i < length l) as Hi.
    { clear - Hl. revert i l' Hl. induction l as [|z l IH]; intros [|i] l' Hl; simpl in *; try discriminate; [lia|].
      destruct (lset l i x) eqn:E; [|discriminate]. specialize (IH _ _ E). lia. }
    destruct (nth_error l i) as [a|] eqn:Ea; [|apply nth_error_None in Ea; lia].
    destruct (nth_error m i) as [b|] eqn:Eb; [|apply nth_error_None in Eb; lia].
    destruct (lset_spec l i x a Ea) as [l1 [L1 [L2 L3]]].
    destruct (lset_spec m i y b Eb) as [m1 [M1 [M2 M3]]].
    rewrite L1 in Hl; inversion Hl; subst l1. exists m1. split; [exact M1|].
    apply sim_list; [congruence|]. intros j p q. rewrite L3, M3.
    destruct (Nat.eqb j i); [|apply Hn]. intros P Q; inversion P; inversion Q; subst; assumption.
  Qed.
  Lemma vsim_set_items cs : forall l m l', vsim R (VList l) (VList m) ->
    set_items l cs = Some l' -> exists m', set_items m cs = Some m' /\ vsim R (VList l') (VList m').
  Proof.
    induction cs as [|[i v] cs IH]; intros l m l' H Hs; cbn [set_items] in *.
    - inversion Hs; subst; eauto.
    - destruct (lset l i v) as [l1|] eqn:E; [|discriminate].
      destruct (vsim_lset _ _ _ _ v _ H (vsim_refl R R_refl v) E) as [m1 [M1 M2]].
      rewrite M1. eapply IH; eauto.
  Qed.
  Lemma vsim_app l m t : vsim R (VList l) (VList m) -> vsim R (VList (l ++ t)) (VList (m ++ t)).
  Proof.
    intros H. inversion H as [? ? Hs|? ? Hlen Hn|]; subst; [discriminate|].
    apply sim_list; [rewrite !app_length; congruence|]. intros i x y Hx Hy.
    destruct (Nat.lt_ge_cases i (length l)) as [Hi|Hi].
    - rewrite nth_error_app1 in Hx by lia. rewrite nth_error_app1 in Hy by lia. eapply Hn; eauto.
    - rewrite nth_error_app2 in Hx by lia. rewrite nth_error_app2 in Hy by lia.
      rewrite Hlen in Hx. rewrite Hx in Hy; inversion Hy; subst. apply vsim_refl; exact R_refl.
  Qed.
  Lemma nth_error_firstn {A} n : forall (l : list A) i, nth_error (firstn n l) i = if Nat.ltb i n then nth_error l i else None.
  Proof.
    induction n as [|n IH]; intros l i; simpl.
    - destruct i; reflexivity.
    - destruct l as [|x l]; [destruct i as [|i]; [reflexivity|simpl; destruct (Nat.ltb (S i) (S n)); reflexivity]|].
      destruct i as [|i]; [reflexivity|]. simpl. rewrite IH. reflexivity.
  Qed.
  Lemma vsim_firstn n l m : vsim R (VList l) (VList m) -> vsim R (VList (firstn n l)) (VList (firstn n m)).
  Proof.
    intros H. inversion H as [? ? Hs|? ? Hlen Hn|]; subst; [discriminate|].
    apply sim_list; [rewrite !firstn_length; congruence|]. intros i x y.
    rewrite !nth_error_firstn. destruct (Nat.ltb i n); [apply Hn|discriminate].
  Qed.
  Lemma vsim_apply_ops o a b a' : wf_ops o -> wf a -> wf b -> vsim R a b -> apply_ops o a = Some a' ->
    exists b', apply_ops o b = Some b' /\ vsim R a' b'.
  Proof.
    intros Ho Hwa Hwb H Ha. destruct a; cbn [apply_ops] in Ha; try discriminate.
    - inversion H as [? ? Hs|? m Hlen Hn|]; subst; [discriminate|]. cbn [apply_ops].
      destruct (o_dc o); [discriminate|]. destruct (o_dn o); [discriminate|].
      destruct (o_dd o); [discriminate|].
      destruct (match o_lc o with Some cs => set_items l cs | None => Some l end) as [l1|] eqn:E; [|discriminate].
      assert (exists m1, match o_lc o with Some cs => set_items m cs | None => Some m end = Some m1 /\
                vsim R (VList l1) (VList m1)) as [m1 [-> Hm1]].
      { destruct (o_lc o) as [cs|].
        - eapply vsim_set_items; eauto.
        - inversion E; subst; eauto. }
      eexists; split; [reflexivity|]. inversion Ha; subst.
      assert (vsim R (VList (match o_ln o with Some t => l1 ++ t | None => l1 end))
                     (VList (match o_ln o with Some t => m1 ++ t | None => m1 end))) as H2.
      { destruct (o_ln o); [apply vsim_app; assumption|assumption]. }
      destruct (o_ld o); [apply vsim_firstn; assumption|assumption].
    - inversion H as [? ? Hs| |? e Hk Hx]; subst; [discriminate|]. cbn [apply_ops].
      destruct (o_lc o); [discriminate|]. destruct (o_ln o); [discriminate|].
      destruct (o_ld o); [discriminate|].
      destruct Ho as [W1 [W2 _]].
      set (d1 := match o_dc o with Some c => dupdate d c | None => d end) in *.
      set (e1 := match o_dc o with Some c => dupdate e c | None => e end) in *.
      assert (vsim R (VDict d1) (VDict e1) /\ wf (VDict d1) /\ wf (VDict e1)) as (H1 & Wd1 & We1).
      { unfold d1, e1. destruct (o_dc o); [|auto].
        split; [apply vsim_dupdate; assumption|]. split; apply wf_dupdate; auto. }
      set (d2 := match o_dn o with Some c => dupdate d1 c | None => d1 end) in *.
      set (e2 := match o_dn o with Some c => dupdate e1 c | None => e1 end) in *.
      assert (vsim R (VDict d2) (VDict e2) /\ wf (VDict d2) /\ wf (VDict e2)) as (H2 & Wd2 & We2).
      { unfold d2, e2. destruct (o_dn o); [|auto].
        split; [apply vsim_dupdate; assumption|]. split; apply wf_dupdate; auto. }
      destruct (o_dd o) as [ks|].
      + destruct (del_keys d2 ks) as [d3|] eqn:E; [|discriminate]. inversion Ha; subst.
        destruct (vsim_del_keys ks d2 e2 d3 Wd2 We2 H2 E) as [e3 [-> H3]]. eauto.
      + inversion Ha; subst. eauto.
  Qed.
  Lemma vsim_upd_path f :
    (forall a b a', wf a -> wf b -> vsim R a b -> f a = Some a' -> exists b', f b = Some b' /\ vsim R a' b') ->
    forall p a b a', wf a -> wf b -> vsim R a b -> upd_path p f a = Some a' ->
    exists b', upd_path p f b = Some b' /\ vsim R a' b'.
  Proof.
    intros Hf. induction p as [|[k|i] p IH]; intros a b a' Hwa Hwb H Ha; cbn [upd_path] in *.
    - eauto.
    - destruct a; try discriminate. inversion H as [? ? Hs| |? e Hk Hx]; subst; [discriminate|].
      destruct (dget d k) as [c|] eqn:Ec; [|discriminate].
      destruct (dget e k) as [c2|] eqn:Ec2; [|apply Hk in Ec2; congruence].
      destruct (upd_path p f c) as [c'|] eqn:E; [|discriminate]. inversion Ha; subst.
      destruct (IH c c2 c') as [c2' [-> H2]];
        [eapply wf_dget; [exact Hwa|exact Ec]|eapply wf_dget; [exact Hwb|exact Ec2]|eapply Hx; eauto|exact E|].
      eexists; split; [reflexivity|]. apply vsim_dset; assumption.
    - destruct a; try discriminate. inversion H as [? ? Hs|? m Hlen Hn|]; subst; [discriminate|].
      destruct (nth_error l i) as [c|] eqn:Ec; [|discriminate].
      destruct (nth_error m i) as [c2|] eqn:Ec2.
      2:{ apply nth_error_None in Ec2. assert (nth_error l i <> None) as Hne by congruence.
          apply nth_error_Some in Hne. lia. }
      destruct (upd_path p f c) as [c'|] eqn:E; [|discriminate].
      destruct (lset l i c') as [l'|] eqn:El; [|discriminate]. inversion Ha; subst.
      apply wf_list in Hwa. apply wf_list in Hwb. rewrite Forall_forall in Hwa, Hwb.
      destruct (IH c c2 c') as [c2' [-> H2]];
        [apply Hwa; eapply nth_error_In; eauto|apply Hwb; eapply nth_error_In; eauto|eapply Hn; eauto|exact E|].
      destruct (vsim_lset _ _ _ _ _ _ H H2 El) as [m' [-> Hm']]. eauto.
  Qed.
  Lemma vsim_patch_loop os : forall a b a', Forall (fun o => wf_ops (dops o)) os ->
    wf a -> wf b -> vsim R a b -> patch_loop a os = Some a' ->
    exists b', patch_loop b os = Some b' /\ vsim R a' b'.
  Proof.
    induction os as [|o os IH]; intros a b a' Ho Hwa Hwb H Ha; cbn [patch_loop] in *.
    - inversion Ha; subst; eauto.
    - inversion Ho; subst.
      destruct (upd_path (dpath o) (apply_ops (dops o)) a) as [a1|] eqn:E; [|discriminate].
      assert (forall x y x', wf x -> wf y -> vsim R x y -> apply_ops (dops o) x = Some x' ->
                exists y', apply_ops (dops o) y = Some y' /\ vsim R x' y') as Hap.
      { intros x y x' Hx Hy Hxy. apply vsim_apply_ops; assumption. }
      destruct (vsim_upd_path _ Hap _ _ _ _ Hwa Hwb H E) as [b1 [B1 B2]].
      rewrite B1. eapply IH; [assumption| | |exact B2|exact Ha].
      + eapply wf_upd_path; [|exact Hwa|exact E]. intros; eapply wf_apply_ops; eauto.
      + eapply wf_upd_path; [|exact Hwb|exact B1]. intros; eapply wf_apply_ops; eauto.
  Qed.
  Lemma vsim_patch os a b a' : Forall (fun o => wf_ops (dops o)) os -> wfd a -> wfd b ->
    vsim R (VDict a) (VDict b) -> patch a os = Some a' ->
    exists b', patch b os = Some b' /\ vsim R (VDict a') (VDict b').
  Proof.
    unfold patch. intros Ho Hwa Hwb H Ha.
    destruct (patch_loop (VDict a) os) as [v|] eqn:E; [|discriminate].
    destruct v; try discriminate. inversion Ha; subst.
    destruct (vsim_patch_loop _ _ _ _ Ho Hwa Hwb H E) as [w [-> Hw]].
    inversion Hw as [? ? Hs| |]; subst; [discriminate|]. eauto.
  Qed.
End congr.

(** ** Every yielded op says something *)
(** some entry is present, and every container entry that is present is non-empty *)
Definition ops_meaningful (o : ops) : Prop :=
  (o_dc o <> None \/ o_dn o <> None \/ o_dd o <> None \/ o_lc o <> None \/ o_ln o <> None \/ o_ld o <> None) /\
  o_dc o <> Some [] /\ o_dn o <> Some [] /\ o_dd o <> Some [] /\ o_lc o <> Some [] /\ o_ln o <> Some [].

Lemma nonempty_not_nil {A} (l : list A) : nonempty l <> Some [].
Proof. destruct l; simpl; congruence. Qed.

Lemma ops_empty_false o : ops_empty o = false ->
  o_dc o <> None \/ o_dn o <> None \/ o_dd o <> None \/ o_lc o <> None \/ o_ln o <> None \/ o_ld o <> None.
Proof.
  destruct o as [a b c d e f]; simpl. destruct a; [left; discriminate|].
  destruct b; [right; left; discriminate|]. destruct c; [right; right; left; discriminate|].
  destruct d; [do 3 right; left; discriminate|]. destruct e; [do 4 right; left; discriminate|].
  destruct f; [do 5 right; discriminate|]. discriminate.
Qed.

Lemma list_changes_ln p l : forall r n ch fu ln ld,
  list_changes p n l r = (ch, fu, ln, ld) -> ln <> Some [].
Proof.
  induction l as [|lv l IH]; intros [|rv r] n ch fu ln ld E; cbn [list_changes] in E;
    try (inversion E; discriminate).
  destruct (list_changes p (S n) l r) as [[[ch0 fu0] ln0] ld0] eqn:E0.
  specialize (IH _ _ _ _ _ _ E0).
  destruct (py_eqb lv rv); [inversion E; subst; exact IH|].
  destruct lv, rv; inversion E; subst; exact IH.
Qed.

Lemma compare_meaningful c o : fst (compare c) = Some o -> ops_meaningful (dops o).
Proof.
  destruct c as [p l r|p l r]; cbn [compare].
  - destruct (dict_changes p l r) as [ch fu]. cbn [fst].
    destruct (ops_empty _) eqn:E; [discriminate|]. intros H; inversion H; subst; cbn [dops].
    split; [apply ops_empty_false; exact E|]. cbn [o_dc o_dn o_dd o_lc o_ln].
    repeat split; try discriminate; apply nonempty_not_nil.
  - destruct (list_changes p 0 l r) as [[[ch fu] ln] ld] eqn:El. cbn [fst].
    destruct (ops_empty _) eqn:E; [discriminate|]. intros H; inversion H; subst; cbn [dops].
    split; [apply ops_empty_false; exact E|]. cbn [o_dc o_dn o_dd o_lc o_ln].
    repeat split; try discriminate; [apply nonempty_not_nil|]. eapply list_changes_ln; exact El.
Qed.

Lemma diff_loop_meaningful n : forall q os, diff_loop n q = Some os ->
  Forall (fun o => ops_meaningful (dops o)) os.
Proof.
  induction n as [|n IH]; intros q os H.
  - destruct q; simpl in H; [inversion H; constructor|discriminate].
  - destruct q as [|c q]; [inversion H; constructor|]. cbn [diff_loop] in H.
    pose proof (compare_meaningful c) as Hm.
    destruct (compare c) as [o fu]; cbn [fst] in Hm.
    destruct (diff_loop n (q ++ fu)) as [rest|] eqn:E; [|discriminate].
    specialize (IH _ _ E). destruct o; inversion H; subst; auto.
Qed.
Lemma diff_meaningful base new : Forall (fun o => ops_meaningful (dops o)) (diff base new).
Proof.
  unfold diff. destruct (py_eqb _ _); [constructor|].
  destruct (diff_loop_total base new) as [os Hos]. rewrite Hos.
  eapply diff_loop_meaningful; exact Hos.
Qed.
