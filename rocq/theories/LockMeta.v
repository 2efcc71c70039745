(** What the lock documents say (locking.py:33-89): acquire, release, is_locked and get_metadata with the contents of the
    documents. *)
From Coq Require Import String Ascii.
From Coq Require Import List ZArith NArith Bool Lia.
From Verif Require Import PyVal Diff Time Locking.
Import ListNotations.
Local Open Scope string_scope.
Local Open Scope list_scope.
Local Open Scope nat_scope.

(** ** Model *)
(** A lock document (locking.py:48-54): lock_id, locked_at (in milliseconds, which is what a BSON date holds), locked_by, and data if
    there is any. The _id MongoDB adds is left out; locked_by and data are taken to be read back as they were written. *)
Record lock_doc := LD { k_id : pystr; k_at : Z; k_by : pystr; k_data : option dict }.
(** locking.py:57-60: True, False, or AlreadyLocked is raised *)
Inductive outcome := Acquired | Refused | AlreadyLocked (id : pystr).
(** locking.py:33-60 [acquire] at the time [now], in microseconds, on the machine [node]; pymongo drops the microseconds. insert_one raises DuplicateKeyError if the unique index
    (locking.py:31) has the id. *)
Definition acquire_lock (c : list lock_doc) (now : Z) (node id : pystr) (raise_on_fail : bool) (kwargs : dict) : list lock_doc * outcome :=
  let doc := LD id (now / 1000)%Z node match kwargs with [] => None | _ => Some kwargs end in
  if existsb (fun d => str_eqb (k_id d) id) c then (c, if raise_on_fail then AlreadyLocked id else Refused)
  else (c ++ [doc], Acquired).
(** locking.py:62-69 [release]: delete_one *)
Fixpoint release_lock (c : list lock_doc) (id : pystr) : list lock_doc :=
  match c with [] => [] | d :: r => if str_eqb (k_id d) id then r else d :: release_lock r id end.
(** locking.py:80-88 [get_metadata]: find_one *)
Definition get_metadata (c : list lock_doc) (id : pystr) : option lock_doc := find (fun d => str_eqb (k_id d) id) c.
(** locking.py:71-78 [is_locked] *)
Definition locked (c : list lock_doc) (id : pystr) : bool := match get_metadata c id with Some _ => true | None => false end.
(** What clients of the lock collection do, in the order MongoDB does it; [lock] (locking.py:90-105) is an acquire that raises and later a release. *)
Inductive call := Acquire (now : Z) (node id : pystr) (raise_on_fail : bool) (kwargs : dict) | Free (id : pystr).
(** locking.py:33-69: what a call does to the lock collection *)
Definition do_call (c : list lock_doc) (e : call) : list lock_doc :=
  match e with Acquire now node id r kw => fst (acquire_lock c now node id r kw) | Free id => release_lock c id end.
(** calls one after the other (locking.py:33-105) *)
Definition do_calls (h : list call) : list lock_doc := fold_left do_call h [].

(** ** Proofs *)
Lemma find_app {A} (f : A -> bool) a b : find f (a ++ b) = match find f a with Some x => Some x | None => find f b end.
Proof. induction a as [|x a IH]; [reflexivity|]. cbn [app find]. destruct (f x); [reflexivity|exact IH]. Qed.
Lemma exists_find {A} (f : A -> bool) l : existsb f l = match find f l with Some _ => true | None => false end.
Proof. induction l as [|x l IH]; [reflexivity|]. cbn [existsb find]. destruct (f x); [reflexivity|exact IH]. Qed.
(** locking.py:31: the unique index on lock_id, as an invariant *)
Definition uniq (c : list lock_doc) : Prop := NoDup (map k_id c).
Lemma release_other c id id' : id' <> id -> get_metadata (release_lock c id) id' = get_metadata c id'.
Proof.
  intro N. unfold get_metadata. induction c as [|d c IH]; [reflexivity|]. cbn [release_lock]. destruct (str_eqb (k_id d) id) eqn:E; cbn [find]; [|rewrite IH; reflexivity].
  apply str_eqb_eq in E. destruct (str_eqb (k_id d) id') eqn:E'; [apply str_eqb_eq in E'; congruence|reflexivity].
Qed.
Lemma meta_none c id : ~ In id (map k_id c) -> get_metadata c id = None.
Proof. intro H. unfold get_metadata. induction c as [|d c IH]; [reflexivity|]. cbn [find]. destruct (str_eqb (k_id d) id) eqn:E; [exfalso; apply H; left; apply str_eqb_eq, E|]. apply IH. intro K. apply H. right. exact K. Qed.
Lemma release_same c id : uniq c -> get_metadata (release_lock c id) id = None.
Proof.
  intro U. induction c as [|d c IH]; [reflexivity|]. inversion U as [|? ? U1 U2]; subst. cbn [release_lock]. destruct (str_eqb (k_id d) id) eqn:E.
  - apply str_eqb_eq in E. apply meta_none. rewrite <- E. exact U1.
  - unfold get_metadata. cbn [find]. rewrite E. exact (IH U2).
Qed.
Lemma release_ids c id x : In x (map k_id (release_lock c id)) -> In x (map k_id c).
Proof. induction c as [|d c IH]; cbn [release_lock map]; [auto|]. destruct (str_eqb (k_id d) id); cbn [map In]; tauto. Qed.
Lemma step_uniq c e : uniq c -> uniq (do_call c e).
Proof.
  unfold uniq. intro U. destruct e as [now node id r kw|id]; cbn [do_call].
  - unfold acquire_lock. rewrite exists_find. destruct (find _ c) eqn:F; cbn [fst]; [exact U|]. rewrite map_app. cbn [map k_id]. apply NoDup_snoc; [exact U|].
    intro H. apply in_map_iff in H. destruct H as (d & D1 & D2). pose proof (List.find_none _ _ F d D2) as K. cbn beta in K. rewrite D1, str_eqb_refl in K. discriminate.
  - induction c as [|d c IH]; [exact U|]. inversion U as [|? ? U1 U2]; subst. cbn [release_lock]. destruct (str_eqb (k_id d) id); [exact U2|]. cbn [map]. constructor; [intro K; apply U1, (release_ids c id), K|exact (IH U2)].
Qed.
Lemma calls_snoc h e : do_calls (h ++ [e]) = do_call (do_calls h) e.
Proof. unfold do_calls. rewrite fold_left_app. reflexivity. Qed.
Lemma calls_uniq h : uniq (do_calls h).
Proof. induction h as [|e h IH] using rev_ind; [constructor|]. rewrite calls_snoc. apply step_uniq, IH. Qed.
Lemma acquire_taken c now node id r kw d : get_metadata c id = Some d -> fst (acquire_lock c now node id r kw) = c.
Proof. intro G. unfold acquire_lock. rewrite exists_find. unfold get_metadata in G. rewrite G. reflexivity. Qed.
Lemma acquire_free c now node id r kw : get_metadata c id = None ->
  fst (acquire_lock c now node id r kw) = c ++ [LD id (now / 1000)%Z node match kw with [] => None | _ => Some kw end].
Proof. intro G. unfold acquire_lock. rewrite exists_find. unfold get_metadata in G. rewrite G. reflexivity. Qed.
Lemma acquire_other c now node id r kw id' : id' <> id -> get_metadata (fst (acquire_lock c now node id r kw)) id' = get_metadata c id'.
Proof.
  intro N. destruct (get_metadata c id) eqn:G; [rewrite (acquire_taken _ _ _ _ _ _ _ G); reflexivity|]. rewrite (acquire_free _ _ _ _ _ _ G). unfold get_metadata.
  rewrite find_app. destruct (find _ c); [reflexivity|]. cbn [find k_id]. destruct (str_eqb id id') eqn:E; [apply str_eqb_eq in E; congruence|reflexivity].
Qed.
Lemma acquire_same c now node id r kw : get_metadata c id = None ->
  get_metadata (fst (acquire_lock c now node id r kw)) id = Some (LD id (now / 1000)%Z node match kw with [] => None | _ => Some kw end).
Proof. intro G. rewrite (acquire_free _ _ _ _ _ _ G). unfold get_metadata in *. rewrite find_app, G. cbn [find k_id]. rewrite str_eqb_refl. reflexivity. Qed.
(** Forgetting what the documents say gives the locks of Locking.v. *)
Definition forget (c : list lock_doc) (by_ : pystr -> nat) : list ldoc := map (fun d => LDoc (k_id d) (by_ (k_by d))) c.
Lemma forget_exists by_ c id : existsb (fun d => str_eqb (l_id d) id) (forget c by_) = existsb (fun d => str_eqb (k_id d) id) c.
Proof. induction c as [|d c IH]; [reflexivity|]. cbn [forget map existsb l_id]. unfold forget in IH. rewrite IH. reflexivity. Qed.
Lemma forget_acquire by_ c now node id r kw :
  acquire (forget c by_) id (by_ node) = (forget (fst (acquire_lock c now node id r kw)) by_, match snd (acquire_lock c now node id r kw) with Acquired => true | _ => false end).
Proof.
  unfold acquire, acquire_lock. rewrite forget_exists. destruct (existsb _ c); cbn [fst snd]; [destruct r; reflexivity|]. unfold forget. rewrite map_app. reflexivity.
Qed.
Lemma forget_release by_ c id : release (forget c by_) id = forget (release_lock c id) by_.
Proof. induction c as [|d c IH]; [reflexivity|]. cbn [forget map release release_lock l_id]. destruct (str_eqb (k_id d) id); [reflexivity|]. cbn [map]. unfold forget in IH. rewrite IH. reflexivity. Qed.
