(** C82: what get_metadata says of a lock. *)
From Coq Require Import String Ascii.
From Coq Require Import List ZArith NArith Bool Lia.
From Verif Require Import PyVal Locking LockMeta.
Import ListNotations.
Local Open Scope string_scope.
Local Open Scope list_scope.
Local Open Scope nat_scope.

(** ** Specification, on the calls made so far *)
Definition acquires (id : pystr) (e : call) : Prop := match e with Acquire _ _ i _ _ => i = id | Free _ => False end.
(** Nobody asked for the lock since it was last released, or ever. *)
Definition is_free (h : list call) (id : pystr) : Prop :=
  (forall e, In e h -> ~ acquires id e) \/ exists g1 g2, h = g1 ++ Free id :: g2 /\ forall e, In e g2 -> ~ acquires id e.
(** The lock was free when this call asked for it, and was not released since. *)
Definition holds (h : list call) (now : Z) (node id : pystr) (kw : dict) : Prop :=
  exists h1 h2 r, h = h1 ++ Acquire now node id r kw :: h2 /\ is_free h1 id /\ ~ In (Free id) h2.
(** The document says who asked, when (to the millisecond), and with which keyword arguments. *)
Definition describes (now : Z) (node id : pystr) (kw : dict) (d : lock_doc) : Prop :=
  k_id d = id /\ k_by d = node /\ (1000 * k_at d <= now < 1000 * k_at d + 1000)%Z /\ k_data d = (if kw then None else Some kw).

(** ** Proofs *)
Lemma written now node id (kw : dict) : describes now node id kw (LD id (now / 1000)%Z node match kw with [] => None | _ => Some kw end).
Proof.
  split; [reflexivity|]. split; [reflexivity|]. split; [cbn [k_at]; pose proof (Z.div_mod now 1000); pose proof (Z.mod_pos_bound now 1000); lia|]. destruct kw; reflexivity.
Qed.
Lemma describes_one now node id kw d d' : describes now node id kw d -> describes now node id kw d' -> d = d'.
Proof. intros (A1 & A2 & A3 & A4) (B1 & B2 & B3 & B4). destruct d as [i a b x], d' as [i' a' b' x']; cbn [k_id k_by k_at k_data] in *. f_equal; try congruence. lia. Qed.
Lemma fold_none id l : forall c, get_metadata c id = None -> uniq c -> (forall e, In e l -> ~ acquires id e) -> get_metadata (fold_left do_call l c) id = None.
Proof.
  induction l as [|e l IH]; intros c G U N; [exact G|]. cbn [fold_left]. apply IH; [|apply step_uniq, U|intros x X; apply N; right; exact X].
  destruct e as [now node i r kw|i]; cbn [do_call].
  - rewrite acquire_other; [exact G|]. intro E. apply (N (Acquire now node i r kw)); [left; reflexivity|]. symmetry. exact E.
  - destruct (list_eq_dec N.eq_dec id i) as [->|D]; [apply release_same, U|rewrite release_other by exact D; exact G].
Qed.
Lemma fold_some id d l : forall c, get_metadata c id = Some d -> ~ In (Free id) l -> get_metadata (fold_left do_call l c) id = Some d.
Proof.
  induction l as [|e l IH]; intros c G N; [exact G|]. cbn [fold_left]. apply IH; [|intro X; apply N; right; exact X].
  destruct e as [now node i r kw|i]; cbn [do_call].
  - destruct (list_eq_dec N.eq_dec id i) as [<-|D]; [rewrite (acquire_taken _ _ _ _ _ _ _ G); exact G|rewrite acquire_other by exact D; exact G].
  - rewrite release_other; [exact G|]. intros ->. apply N. left. reflexivity.
Qed.
Lemma free_none h id : is_free h id -> get_metadata (do_calls h) id = None.
Proof.
  intros [N|(g1 & g2 & -> & N)]; [apply fold_none; [reflexivity|constructor|exact N]|].
  unfold do_calls. rewrite fold_left_app. cbn [fold_left do_call]. apply fold_none; [apply release_same, (calls_uniq g1)| |exact N]. apply (step_uniq _ (Free id)), (calls_uniq g1).
Qed.
Lemma holds_some h now node id kw d : holds h now node id kw -> describes now node id kw d -> get_metadata (do_calls h) id = Some d.
Proof.
  intros (h1 & h2 & r & -> & F & N) D. rewrite (describes_one _ _ _ _ _ _ D (written now node id kw)).
  unfold do_calls. rewrite fold_left_app. cbn [fold_left do_call]. apply fold_some; [|exact N]. apply acquire_same, (free_none h1 id F).
Qed.
Lemma free_or_held h id : is_free h id \/ exists now node kw, holds h now node id kw.
Proof.
  induction h as [|e h IH] using rev_ind; [left; left; intros e []|]. destruct e as [now node i r kw|i]; destruct (list_eq_dec N.eq_dec i id) as [->|D].
  - right. destruct IH as [F|(n & o & k & h1 & h2 & r' & -> & F & N)].
    + exists now, node, kw, h, [], r. split; [reflexivity|]. split; [exact F|intros []].
    + exists n, o, k, h1, (h2 ++ [Acquire now node id r kw]), r'. split; [rewrite <- app_assoc; reflexivity|]. split; [exact F|].
      intro X. apply in_app_or in X. destruct X as [X|[X|[]]]; [exact (N X)|discriminate].
  - destruct IH as [[F|(g1 & g2 & -> & F)]|(n & o & k & h1 & h2 & r' & -> & F & N)].
    + left. left. intros e X. apply in_app_or in X. destruct X as [X|[<-|[]]]; [exact (F e X)|exact D].
    + left. right. exists g1, (g2 ++ [Acquire now node i r kw]). split; [rewrite <- app_assoc; reflexivity|].
      intros e X. apply in_app_or in X. destruct X as [X|[<-|[]]]; [exact (F e X)|exact D].
    + right. exists n, o, k, h1, (h2 ++ [Acquire now node i r kw]), r'. split; [rewrite <- app_assoc; reflexivity|]. split; [exact F|].
      intro X. apply in_app_or in X. destruct X as [X|[X|[]]]; [exact (N X)|discriminate].
  - left. right. exists h, []. split; [reflexivity|intros e []].
  - destruct IH as [[F|(g1 & g2 & -> & F)]|(n & o & k & h1 & h2 & r' & -> & F & N)].
    + left. left. intros e X. apply in_app_or in X. destruct X as [X|[<-|[]]]; [exact (F e X)|intros []].
    + left. right. exists g1, (g2 ++ [Free i]). split; [rewrite <- app_assoc; reflexivity|].
      intros e X. apply in_app_or in X. destruct X as [X|[<-|[]]]; [exact (F e X)|intros []].
    + right. exists n, o, k, h1, (h2 ++ [Free i]), r'. split; [rewrite <- app_assoc; reflexivity|]. split; [exact F|].
      intro X. apply in_app_or in X. destruct X as [X|[X|[]]]; [exact (N X)|injection X as X; exact (D X)].
Qed.
Lemma none_free h id : get_metadata (do_calls h) id = None <-> is_free h id.
Proof.
  split; [|apply free_none]. intro G. destruct (free_or_held h id) as [F|(now & node & kw & H)]; [exact F|].
  pose proof (holds_some _ _ _ _ _ _ H (written now node id kw)). congruence.
Qed.

(** ** C82 *)
Theorem C82_metadata : forall h id,
  (forall d, get_metadata (do_calls h) id = Some d <-> exists now node kw, holds h now node id kw /\ describes now node id kw d) /\
  (get_metadata (do_calls h) id = None <-> is_free h id) /\
  (locked (do_calls h) id = true <-> exists now node kw, holds h now node id kw).
Proof.
  intros h id. assert (S : forall d, get_metadata (do_calls h) id = Some d <-> exists now node kw, holds h now node id kw /\ describes now node id kw d).
  { intro d. split; [|intros (now & node & kw & H & D); exact (holds_some _ _ _ _ _ _ H D)]. intro G.
    destruct (free_or_held h id) as [F|(now & node & kw & H)]; [apply free_none in F; congruence|]. exists now, node, kw. split; [exact H|].
    pose proof (holds_some _ _ _ _ _ _ H (written now node id kw)) as K. rewrite G in K. injection K as ->. apply written. }
  split; [exact S|]. split; [apply none_free|]. unfold locked. split.
  - destruct (get_metadata (do_calls h) id) as [d|] eqn:G; [|discriminate]. intros _. destruct (proj1 (S d) eq_refl) as (now & node & kw & H & _). exists now, node, kw. exact H.
  - intros (now & node & kw & H). rewrite (holds_some _ _ _ _ _ _ H (written now node id kw)). reflexivity.
Qed.
Print Assumptions C82_metadata.

(** acquire takes the lock iff it is free; otherwise it returns False, or raises naming the lock, and the collection is as it was. *)
Theorem C82_acquire : forall h now node id r kw,
  let '(c, o) := acquire_lock (do_calls h) now node id r kw in
  (o = Acquired <-> is_free h id) /\
  (o <> Acquired -> c = do_calls h /\ o = if r then AlreadyLocked id else Refused).
Proof.
  intros h now node id r kw. pose proof (none_free h id) as N. unfold acquire_lock. rewrite exists_find. unfold get_metadata in N.
  destruct (find _ (do_calls h)) eqn:G.
  - split; [|intros _; split; reflexivity]. split; [destruct r; discriminate|]. intro F. apply N in F. discriminate.
  - split; [|intro X; contradiction X; reflexivity]. split; [intros _; apply N; reflexivity|reflexivity].
Qed.
Print Assumptions C82_acquire.

(** The calls leave the locks that Locking.v has. *)
Theorem C82_refines : forall by_ c,
  (forall now node id r kw, acquire (forget c by_) id (by_ node) =
     (forget (fst (acquire_lock c now node id r kw)) by_, match snd (acquire_lock c now node id r kw) with Acquired => true | _ => false end)) /\
  (forall id, release (forget c by_) id = forget (release_lock c id) by_) /\
  (forall id, is_locked (forget c by_) id = locked c id).
Proof.
  intros by_ c. split; [intros; apply forget_acquire|]. split; [intro; apply forget_release|]. intro id. unfold is_locked, locked, get_metadata.
  rewrite forget_exists, exists_find. reflexivity.
Qed.
Print Assumptions C82_refines.

(** Two locks, a refused acquire, a release and a second holder. *)
Definition before : list call :=
  [Acquire 1500 (lit "m1") (lit "a") false [(lit "why", VInt 1)]; Acquire 1700 (lit "m2") (lit "a") false []; Acquire 1800 (lit "m2") (lit "b") true []].
Definition after : list call := before ++ [Free (lit "a"); Acquire 9999 (lit "m3") (lit "a") false []].
Example C82_example :
  get_metadata (do_calls before) (lit "a") = Some (LD (lit "a") 1 (lit "m1") (Some [(lit "why", VInt 1)])) /\
  get_metadata (do_calls after) (lit "a") = Some (LD (lit "a") 9 (lit "m3") None) /\
  get_metadata (do_calls after) (lit "b") = Some (LD (lit "b") 1 (lit "m2") None) /\
  holds after 9999 (lit "m3") (lit "a") [] /\ is_free (before ++ [Free (lit "a")]) (lit "a") /\
  snd (acquire_lock (do_calls after) 10000 (lit "m1") (lit "b") true []) = AlreadyLocked (lit "b").
Proof.
  assert (F : is_free (before ++ [Free (lit "a")]) (lit "a")) by (right; exists before, []; split; [reflexivity|intros e []]).
  split; [reflexivity|]. split; [reflexivity|]. split; [reflexivity|]. split; [|split; [exact F|reflexivity]].
  exists (before ++ [Free (lit "a")]), [], false. split; [reflexivity|]. split; [exact F|intros []].
Qed.
