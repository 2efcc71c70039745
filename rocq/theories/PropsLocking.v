(** Properties C21, C22: mutual exclusion and freeing of locks. *)
From Coq Require Import String Ascii.
From Coq Require Import List ZArith NArith Bool Lia.
From Verif Require Import PyVal Locking.
Import ListNotations.
Open Scope string_scope.
Open Scope list_scope.
Open Scope nat_scope.

(** ** Specification *)

(** Locks are only released directly when no process is inside. *)
Fixpoint polite (s : lstate) (es : list event) : Prop :=
  match es with
  | [] => True
  | e :: r => (match e with Release id => forall p, ~ In id (inside s p) | _ => True end) /\ polite (lstep s e) r
  end.

(** Some process died inside [id] and the lock was not released directly since. *)
Fixpoint orphaned (s : lstate) (es : list event) (id : pystr) : Prop :=
  match es with
  | [] => False
  | e :: r => orphaned (lstep s e) r id \/
              (match e with Crash p => In id (inside s p) | _ => False end /\ ~ In (Release id) r)
  end.

(** ** The invariant *)
Definition inv (s : lstate) : Prop :=
  NoDup (map l_id (coll_ s)) /\
  (forall p, NoDup (inside s p)) /\
  (forall p id, In id (inside s p) -> In (LDoc id p) (coll_ s)).

Lemma locked_In c id : is_locked c id = true <-> In id (map l_id c).
Proof.
  unfold is_locked. rewrite existsb_exists, in_map_iff. split; intros (d & H1 & H2); exists d.
  - apply str_eqb_eq in H2. auto.
  - split; [exact H2|]. apply str_eqb_eq. exact H1.
Qed.
Lemma release_In c id d : NoDup (map l_id c) -> In d (release c id) <-> In d c /\ l_id d <> id.
Proof.
  induction c as [|x c IH]; cbn; intro Hn; [intuition|].
  apply NoDup_cons_iff in Hn. destruct Hn as [Hx Hn]. destruct (str_eqb (l_id x) id) eqn:E.
  - apply str_eqb_eq in E. split.
    + intro H. split; [right; exact H|]. intro K. apply Hx. rewrite E, <- K. apply in_map; exact H.
    + intros [[->|H] K]; [contradiction|exact H].
  - apply str_eqb_neq in E. cbn. rewrite (IH Hn). split.
    + intros [->|[H K]]; auto.
    + intros [[->|H] K]; auto.
Qed.
Lemma release_NoDup c id : NoDup (map l_id c) -> NoDup (map l_id (release c id)).
Proof.
  induction c as [|x c IH]; cbn; intro Hn; [constructor|]. pose proof Hn as Hn0.
  apply NoDup_cons_iff in Hn. destruct Hn as [Hx Hn].
  destruct (str_eqb (l_id x) id); [exact Hn|]. cbn. constructor; [|exact (IH Hn)].
  intro K. apply in_map_iff in K. destruct K as (d & E & K). apply (release_In c id d Hn) in K.
  apply Hx. rewrite <- E. apply in_map, K.
Qed.
Lemma doc_unique c d e : NoDup (map l_id c) -> In d c -> In e c -> l_id d = l_id e -> d = e.
Proof.
  induction c as [|x c IH]; cbn; intros Hn Hd He E; [contradiction|].
  apply NoDup_cons_iff in Hn. destruct Hn as [Hx Hn].
  destruct Hd as [->|Hd], He as [->|He]; auto.
  - exfalso. apply Hx. rewrite E. apply in_map; exact He.
  - exfalso. apply Hx. rewrite <- E. apply in_map; exact Hd.
Qed.
Lemma upd_same {A} (f : nat -> A) p x : upd f p x p = x.
Proof. unfold upd. rewrite Nat.eqb_refl. reflexivity. Qed.
Lemma upd_other {A} (f : nat -> A) p q x : q <> p -> upd f p x q = f q.
Proof. intro H. unfold upd. destruct (Nat.eqb_spec q p); congruence. Qed.

Lemma inv_step s e : inv s -> (match e with Release id => forall p, ~ In id (inside s p) | _ => True end) -> inv (lstep s e).
Proof.
  intros (N & S & O) Hp. destruct e as [p id|p|p|id]; cbn [lstep].
  - unfold acquire. destruct (existsb (fun d => str_eqb (l_id d) id) (coll_ s)) eqn:E; [split; [exact N|split; [exact S|exact O]]|].
    assert (Hf : ~ In id (map l_id (coll_ s))) by (intro K; apply locked_In in K; unfold is_locked in K; congruence).
    split; [|split]; cbn [coll_ inside].
    + rewrite map_app. cbn. apply NoDup_snoc; assumption.
    + intro q. destruct (Nat.eq_dec q p) as [->|Hq]; [rewrite upd_same|rewrite upd_other by exact Hq; apply S].
      constructor; [|apply S]. intro K. apply Hf. apply in_map_iff. exists (LDoc id p). split; [reflexivity|]. apply O; exact K.
    + intros q i Hi. apply in_or_app. destruct (Nat.eq_dec q p) as [->|Hq].
      * rewrite upd_same in Hi. destruct Hi as [->|Hi]; [right; left; reflexivity|left; apply O; exact Hi].
      * rewrite upd_other in Hi by exact Hq. left. apply O; exact Hi.
  - destruct (inside s p) as [|id r] eqn:E; [split; [exact N|split; [exact S|exact O]]|].
    split; [|split]; cbn [coll_ inside].
    + apply release_NoDup, N.
    + intro q. destruct (Nat.eq_dec q p) as [->|Hq]; [rewrite upd_same|rewrite upd_other by exact Hq; apply S].
      specialize (S p). rewrite E in S. inversion S; assumption.
    + intros q i Hi. apply release_In; [exact N|]. cbn.
      assert (Hpd : In (LDoc id p) (coll_ s)) by (apply O; rewrite E; left; reflexivity).
      destruct (Nat.eq_dec q p) as [->|Hq].
      * rewrite upd_same in Hi. split; [apply O; rewrite E; right; exact Hi|].
        specialize (S p). rewrite E in S. inversion S as [|? ? Hnin _]; subst. intros ->. contradiction.
      * rewrite upd_other in Hi by exact Hq. split; [apply O; exact Hi|]. intros ->.
        assert (X : LDoc id q = LDoc id p) by (apply (doc_unique (coll_ s)); auto). injection X as X. contradiction.
  - split; [exact N|]. split; cbn [coll_ inside].
    + intro q. destruct (Nat.eq_dec q p) as [->|Hq]; [rewrite upd_same; constructor|rewrite upd_other by exact Hq; apply S].
    + intros q i Hi. destruct (Nat.eq_dec q p) as [->|Hq]; [rewrite upd_same in Hi; contradiction|].
      rewrite upd_other in Hi by exact Hq. apply O; exact Hi.
  - split; [apply release_NoDup, N|]. split; [exact S|]. cbn [coll_ inside]. intros q i Hi.
    apply release_In; [exact N|]. split; [apply O; exact Hi|]. cbn. intros ->. exact (Hp q Hi).
Qed.
Lemma inv_run es : forall s, inv s -> polite s es -> inv (lrun s es).
Proof.
  induction es as [|e es IH]; intros s Hi Hp; [exact Hi|]. destruct Hp as [H1 H2].
  exact (IH (lstep s e) (inv_step s e Hi H1) H2).
Qed.
Lemma inv_init : inv linit.
Proof. split; [constructor|]. split; [intro; constructor|intros p id []]. Qed.

(** ** C21 *)
Theorem C21_mutual_exclusion : forall es, polite linit es ->
  let s := lrun linit es in
  (forall p q id, In id (inside s p) -> In id (inside s q) -> p = q) /\
  (forall p, NoDup (inside s p)) /\
  (* leaving, crashing or failing to enter never takes the lock of somebody who is inside *)
  (forall p q id e, (e = Leave p \/ e = Crash p \/ exists i, e = Enter p i) -> q <> p ->
     In id (inside s q) -> In id (inside (lstep s e) q) /\ is_locked (coll_ (lstep s e)) id = true) /\
  (* a failed attempt changes nothing at all *)
  (forall p id, is_locked (coll_ s) id = true -> lstep s (Enter p id) = s) /\
  (* and an attempt succeeds exactly when the lock is free *)
  (forall p id, In id (inside (lstep s (Enter p id)) p) /\ lstep s (Enter p id) <> s <-> is_locked (coll_ s) id = false).
Proof.
  intros es Hp s. pose proof (inv_run es linit inv_init Hp) as Hi. fold s in Hi.
  destruct Hi as (N & S & O) eqn:EI. clear EI.
  split; [|split; [|split; [|split]]].
  - intros p q id H1 H2. assert (X : LDoc id p = LDoc id q) by (apply (doc_unique (coll_ s)); auto).
    injection X as X. exact X.
  - exact S.
  - intros p q id e He Hq Hin.
    assert (Hi' : inv (lstep s e)).
    { apply inv_step; [split; [exact N|split; [exact S|exact O]]|]. destruct He as [->|[->|[i ->]]]; exact I. }
    assert (Hin' : In id (inside (lstep s e) q)).
    { destruct He as [->|[->|[i ->]]]; cbn [lstep].
      - destruct (inside s p) as [|i r]; [exact Hin|]. cbn [inside]. rewrite upd_other by exact Hq. exact Hin.
      - cbn [inside]. rewrite upd_other by exact Hq. exact Hin.
      - destruct (acquire (coll_ s) i p) as [c []]; cbn [inside]; [rewrite upd_other by exact Hq|]; exact Hin. }
    split; [exact Hin'|]. apply locked_In, in_map_iff. exists (LDoc id q). split; [reflexivity|]. apply Hi', Hin'.
  - intros p id Hl. cbn [lstep]. unfold acquire. unfold is_locked in Hl. rewrite Hl. destruct s; reflexivity.
  - intros p id. cbn [lstep]. unfold acquire. unfold is_locked.
    destruct (existsb (fun d => str_eqb (l_id d) id) (coll_ s)).
    + split; [|discriminate]. intros [_ K]. exfalso. apply K. destruct s; reflexivity.
    + split; [reflexivity|]. intros _. cbn [inside]. rewrite upd_same. split; [left; reflexivity|].
      intro K. assert (X : length (coll_ s ++ [LDoc id p]) = length (coll_ s)) by (rewrite <- K at 2; reflexivity).
      rewrite app_length in X. cbn in X. lia.
Qed.
Print Assumptions C21_mutual_exclusion.

Definition A := lit "a". Definition B := lit "b".
Definition ex_locks : list event :=
  [Enter 1 A; Enter 2 A; Enter 2 B; Enter 1 B; Leave 2; Enter 1 B; Crash 1; Enter 2 A; Release A; Enter 2 A].
Example C21_example : polite linit ex_locks /\
  map (inside (lrun linit ex_locks)) [1; 2] = [[]; [A]] /\ coll_ (lrun linit ex_locks) = [LDoc B 1; LDoc A 2].
Proof.
  split; [|split; vm_compute; reflexivity]. cbn [polite ex_locks]. repeat split; trivial.
  intros [|[|[|p]]]; vm_compute; intuition.
Qed.

(** Releasing a lock directly while somebody is inside breaks it: the hypothesis is needed. *)
Theorem C21_without_politeness_refuted : exists es,
  let s := lrun linit es in In A (inside s 1) /\ In A (inside s 2).
Proof. exists [Enter 1 A; Release A; Enter 2 A]. vm_compute. auto. Qed.
Print Assumptions C21_without_politeness_refuted.

(** ** C22 *)

Definition stale (s : lstate) (id : pystr) : Prop := is_locked (coll_ s) id = true /\ forall p, ~ In id (inside s p).

Lemma locked_release c i id : NoDup (map l_id c) ->
  is_locked (release c i) id = true <-> is_locked c id = true /\ id <> i.
Proof.
  intro N. rewrite !locked_In, !in_map_iff. split.
  - intros (d & E & H). apply (release_In c i d N) in H. destruct H as [H K]. split; [exists d; auto|congruence].
  - intros [(d & E & H) K]. exists d. split; [exact E|]. apply (release_In c i d N). split; [exact H|congruence].
Qed.
Lemma locked_acquire c i p id : is_locked (c ++ [LDoc i p]) id = true <-> is_locked c id = true \/ id = i.
Proof. rewrite !locked_In, map_app, in_app_iff. cbn. intuition. Qed.

Lemma stale_step s e id : inv s ->
  stale (lstep s e) id <->
  (match e with Crash p => In id (inside s p) | _ => False end) \/ (stale s id /\ e <> Release id).
Proof.
  intros (N & S & O). unfold stale. destruct e as [p i|p|p|i]; cbn [lstep].
  - unfold acquire. destruct (existsb (fun d => str_eqb (l_id d) i) (coll_ s)) eqn:E; cbn [coll_ inside].
    + intuition discriminate.
    + rewrite locked_acquire. split.
      * intros [L H]. right. split; [|discriminate].
        assert (Hne : id <> i). { intros ->. apply (H p). rewrite upd_same. left; reflexivity. }
        split; [destruct L; [assumption|contradiction]|]. intros q Hq. apply (H q).
        destruct (Nat.eq_dec q p) as [->|Hqp]; [rewrite upd_same; right; exact Hq|rewrite upd_other by exact Hqp; exact Hq].
      * intros [[]|[[L H] _]]. split; [left; exact L|]. intros q Hq.
        destruct (Nat.eq_dec q p) as [->|Hqp]; [rewrite upd_same in Hq; destruct Hq as [->|Hq]|rewrite upd_other in Hq by exact Hqp].
        -- unfold is_locked in L. congruence.
        -- exact (H p Hq).
        -- exact (H q Hq).
  - destruct (inside s p) as [|i r] eqn:E; cbn [coll_ inside]; [intuition discriminate|].
    rewrite (locked_release _ _ _ N). split.
    + intros [[L Hne] H]. right. split; [|discriminate]. split; [exact L|]. intros q Hq. apply (H q).
      destruct (Nat.eq_dec q p) as [->|Hqp]; [|rewrite upd_other by exact Hqp; exact Hq].
      rewrite upd_same. rewrite E in Hq. destruct Hq as [Hq|Hq]; [congruence|exact Hq].
    + intros [[]|[[L H] _]]. split; [split; [exact L|]|].
      * intros ->. apply (H p). rewrite E. left; reflexivity.
      * intros q Hq. destruct (Nat.eq_dec q p) as [->|Hqp]; [rewrite upd_same in Hq|rewrite upd_other in Hq by exact Hqp; exact (H q Hq)].
        apply (H p). rewrite E. right; exact Hq.
  - cbn [coll_ inside]. split.
    + intros [L H]. destruct (in_dec (list_eq_dec N.eq_dec) id (inside s p)) as [Hin|Hn]; [left; exact Hin|].
      right. split; [|discriminate]. split; [exact L|]. intros q Hq.
      destruct (Nat.eq_dec q p) as [->|Hqp]; [contradiction|]. apply (H q). rewrite upd_other by exact Hqp. exact Hq.
    + intros [Hin|[[L H] _]].
      * split; [apply locked_In, in_map_iff; exists (LDoc id p); auto|]. intros q Hq.
        destruct (Nat.eq_dec q p) as [->|Hqp]; [rewrite upd_same in Hq; exact Hq|]. rewrite upd_other in Hq by exact Hqp.
        assert (X : LDoc id p = LDoc id q) by (apply (doc_unique (coll_ s)); auto). injection X as X. congruence.
      * split; [exact L|]. intros q Hq. apply (H q).
        destruct (Nat.eq_dec q p) as [->|Hqp]; [rewrite upd_same in Hq; contradiction|rewrite upd_other in Hq by exact Hqp; exact Hq].
  - cbn [coll_ inside]. rewrite (locked_release _ _ _ N). split.
    + intros [[L Hne] H]. right. split; [auto|]. congruence.
    + intros [[]|[[L H] K]]. split; [|exact H]. split; [exact L|]. congruence.
Qed.

Lemma held_or_orphan es : forall s, inv s -> polite s es -> forall id,
  is_locked (coll_ (lrun s es)) id = true <->
  (exists p, In id (inside (lrun s es) p)) \/ orphaned s es id \/ (stale s id /\ ~ In (Release id) es).
Proof.
  induction es as [|e es IH]; intros s Hi Hp id.
  - cbn [lrun fold_left orphaned]. split.
    + intro H. destruct Hi as (N & S & O). pose proof H as L. apply locked_In in H. apply in_map_iff in H. destruct H as (d & E & Hd).
      destruct (in_dec (list_eq_dec N.eq_dec) id (inside s (l_by d))) as [Hin|Hnin]; [left; exists (l_by d); exact Hin|].
      right; right. split; [|intros []]. split; [exact L|].
      intros p K. pose proof (O _ _ K) as K'. assert (X : LDoc id p = d) by (apply (doc_unique (coll_ s)); auto).
      apply Hnin. rewrite <- X. exact K.
    + intros [(p & H)|[[]|[[L _] _]]]; [|exact L]. apply locked_In, in_map_iff. exists (LDoc id p). split; [reflexivity|].
      destruct Hi as (_ & _ & O). apply O, H.
  - destruct Hp as [H1 H2]. change (lrun s (e :: es)) with (lrun (lstep s e) es).
    rewrite (IH (lstep s e) (inv_step s e Hi H1) H2 id), (stale_step s e id Hi). cbn [orphaned In].
    assert (D : e = Release id \/ e <> Release id).
    { destruct e as [ | | |i]; try (right; discriminate).
      destruct (list_eq_dec N.eq_dec i id) as [->|K]; [left; reflexivity|right; congruence]. }
    tauto.
Qed.

(** A lock is taken exactly while some process is inside, or after a process died inside and
    before somebody releases it directly. *)
Theorem C22_lock_freed : forall es, polite linit es -> forall id,
  is_locked (coll_ (lrun linit es)) id = true <->
  (exists p, In id (inside (lrun linit es) p)) \/ orphaned linit es id.
Proof.
  intros es Hp id. rewrite (held_or_orphan es linit inv_init Hp id). unfold stale. cbn. intuition discriminate.
Qed.
Print Assumptions C22_lock_freed.

(** In particular without crashes it is free as soon as nobody is inside; leaving, normally or by
    an exception, frees it at once; and releasing it directly frees it whatever happened. *)
Theorem C22_free_without_crashes : forall es, polite linit es ->
  (forall p, ~ In (Crash p) es) -> forall id,
  (forall p, ~ In id (inside (lrun linit es) p)) -> is_locked (coll_ (lrun linit es)) id = false.
Proof.
  intros es Hp Hc id H. destruct (is_locked (coll_ (lrun linit es)) id) eqn:E; [|reflexivity].
  apply (C22_lock_freed es Hp id) in E. exfalso. destruct E as [(p & E)|E]; [exact (H p E)|].
  clear - Hc E. generalize dependent linit. induction es as [|e es IH]; intros s E; [exact E|].
  destruct E as [E|[E _]]; [exact (IH (fun p K => Hc p (or_intror K)) _ E)|].
  destruct e as [ | |p| ]; try contradiction. apply (Hc p). left; reflexivity.
Qed.
Print Assumptions C22_free_without_crashes.

Theorem C22_leaving_frees : forall es, polite linit es ->
  let s := lrun linit es in
  (forall p id r, inside s p = id :: r ->
     inside (lstep s (Leave p)) p = r /\ is_locked (coll_ (lstep s (Leave p))) id = false) /\
  (forall id, is_locked (coll_ (lstep s (Release id))) id = false).
Proof.
  intros es Hp s. pose proof (inv_run es linit inv_init Hp) as (N & _ & _). fold s in N.
  assert (R : forall id, is_locked (release (coll_ s) id) id = false).
  { intro id. destruct (is_locked (release (coll_ s) id) id) eqn:K; [|reflexivity].
    apply (locked_release _ _ _ N) in K. destruct K as [_ K]. contradiction. }
  split; [|exact R]. intros p id r E. cbn [lstep]. rewrite E. cbn [inside coll_]. rewrite upd_same. auto.
Qed.
Print Assumptions C22_leaving_frees.

Example C22_example : polite linit ex_locks /\ orphaned linit ex_locks B /\ ~ orphaned linit ex_locks A /\
  map (is_locked (coll_ (lrun linit ex_locks))) [A; B] = [true; true] /\
  is_locked (coll_ (lrun linit (ex_locks ++ [Leave 2; Release B]))) B = false.
Proof.
  split; [apply C21_example|]. split; [|split; [|split; vm_compute; reflexivity]].
  - cbn [orphaned ex_locks]. do 6 left. right. split; [vm_compute; auto|vm_compute; intuition discriminate].
  - vm_compute. intuition discriminate.
Qed.
