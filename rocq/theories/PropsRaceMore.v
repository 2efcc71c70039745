(** Property C91, record by record: what other records are put through does not matter. *)
From Coq Require Import String Ascii.
From Coq Require Import List ZArith NArith Bool Lia Sorted.
From Verif Require Import PyVal Diff DiffProofs Prepare PrepareProofs Mongo Store MongoProofs MongoStore MongoMore PropsMongo Race PropsRace.
Import ListNotations.
Local Open Scope string_scope.
Local Open Scope list_scope.
Local Open Scope nat_scope.

(** ** Specification *)
(** An event that is calm as far as the record is concerned (compare [calm]): the record's data is a dict as Python has it; and its
    pending document is committed only when nobody is about to write the record, it is the only document of the record and the version is
    above all its versions. Nothing is asked of other records. *)
Definition calm_for (id : pystr) (s : world) (e : event) : Prop :=
  match e with
  | EvRead _ _ r => fst r = id -> wfd (snd r)
  | EvCommit v i => forall d, nth_error (w_coll s) i = Some d -> d_id d = id -> d_ver d = None ->
      ~ waits s id /\ docs_of id (w_coll s) = [d] /\ Forall (fun k => (k < v)%Z) (zkeys (d_diffs d))
  | _ => True
  end.
(** every event is calm for the record *)
Fixpoint all_calm_for (id : pystr) (s : world) (es : list event) : Prop :=
  match es with
  | [] => True
  | e :: r => calm_for id s e /\ match happen s e with Some s' => all_calm_for id s' r | None => True end
  end.

(** ** Proofs *)
Section Own.
Variable id : pystr.
(** what there is of the record *)
Definition own (s : world) : world := mkW (docs_of id (w_coll s)) (filter (fun x => str_eqb (mop_id (snd x)) id) (w_wait s)).
Lemma docs_twice c : docs_of id (docs_of id c) = docs_of id c.
Proof. unfold docs_of. induction c as [|d c IH]; [reflexivity|]. cbn [filter]. destruct (str_eqb (d_id d) id) eqn:E; [cbn [filter]; rewrite E, IH; reflexivity|exact IH]. Qed.
Lemma docs_all c : Forall (fun d => d_id d = id) c -> docs_of id c = c.
Proof. unfold docs_of. induction 1 as [|d c H _ IH]; [reflexivity|]. cbn [filter]. rewrite H, str_eqb_refl, IH. reflexivity. Qed.
Lemma docs_have c : Forall (fun d => d_id d = id) (docs_of id c).
Proof. apply Forall_forall. intros d H. apply filter_In in H. apply str_eqb_eq, H. Qed.
Lemma upd_first_have c f : (forall d, d_id (f d) = d_id d) -> Forall (fun d => d_id d = id) c -> Forall (fun d => d_id d = id) (upd_first c id f).
Proof. intros Hf. induction 1 as [|d c H K IH]; cbn [upd_first]; [constructor|]. destruct (str_eqb _ _); constructor; auto. rewrite Hf. exact H. Qed.
Lemma del_first_have c : Forall (fun d => d_id d = id) c -> Forall (fun d => d_id d = id) (del_first c id).
Proof. induction 1 as [|d c H K IH]; cbn [del_first]; [constructor|]. destruct (str_eqb _ _); [exact K|constructor; auto]. Qed.
Lemma apply_have c o : mop_id o = id -> Forall (fun d => d_id d = id) c -> Forall (fun d => d_id d = id) (apply_mop c o).
Proof.
  intros E H. destruct o as [i x|i x|i x v ch|i x v all|i]; cbn [mop_id] in E; subst i; cbn [apply_mop]; try (apply upd_first_have; [reflexivity|exact H]); [|apply del_first_have, H].
  apply Forall_app. split; [exact H|constructor; [reflexivity|constructor]].
Qed.
Lemma own_apply c o : mop_id o = id -> docs_of id (apply_mop c o) = apply_mop (docs_of id c) o.
Proof.
  intro E. rewrite <- (docs_all (apply_mop (docs_of id c) o)) by (apply apply_have; [exact E|apply docs_have]). rewrite !docs_apply, E, str_eqb_refl, docs_twice. reflexivity.
Qed.
Lemma find_filter {A} (f : A -> bool) l : find f (filter f l) = find f l.
Proof. induction l as [|x l IH]; [reflexivity|]. cbn [filter find]. destruct (f x) eqn:E; [cbn [find]; rewrite E; reflexivity|exact IH]. Qed.
Lemma filter_rev {A} (f : A -> bool) l : filter f (rev l) = rev (filter f l).
Proof. induction l as [|x l IH]; [reflexivity|]. cbn [rev filter]. rewrite filter_app, IH. cbn [filter]. destruct (f x); [reflexivity|apply app_nil_r]. Qed.
Lemma own_find c : find_last (docs_of id c) id = find_last c id.
Proof. unfold find_last, docs_of. rewrite <- filter_rev. apply find_filter. Qed.
Lemma own_nth c i d : nth_error c i = Some d -> d_id d = id -> exists j, nth_error (docs_of id c) j = Some d /\
  forall f, d_id (f d) = d_id d -> docs_of id (upd_nth i f c) = upd_nth j f (docs_of id c).
Proof.
  revert c. induction i as [|i IH]; intros [|x c] H E; try discriminate; cbn [nth_error] in H.
  - injection H as ->. exists 0. unfold docs_of. cbn [filter upd_nth]. rewrite E, str_eqb_refl. split; [reflexivity|]. intros f Hf. rewrite Hf, str_eqb_refl. reflexivity.
  - destruct (IH c H E) as (j & Hj & K). unfold docs_of in *. cbn [filter upd_nth]. destruct (str_eqb (d_id x) id); [|exists j; split; [exact Hj|exact K]].
    exists (S j). split; [exact Hj|]. intros f Hf. cbn [upd_nth]. rewrite K by exact Hf. reflexivity.
Qed.
Lemma own_next p w o r : next p w = Some (o, r) -> 
  let f := filter (fun x : nat * mop => str_eqb (mop_id (snd x)) id) in
  if str_eqb (mop_id o) id then next p (f w) = Some (o, f r) else f r = f w.
Proof.
  intros H f. revert r H. induction w as [|[q m] w IH]; intros r H; cbn [next] in H; [discriminate|]. destruct (Nat.eqb_spec q p) as [->|Hq].
  - injection H as -> ->. unfold f. cbn [filter snd]. destruct (str_eqb (mop_id o) id); [cbn [next]; rewrite Nat.eqb_refl; reflexivity|reflexivity].
  - destruct (next p w) as [[o' r']|]; [|discriminate]. cbn in H. injection H as -> <-. specialize (IH r' eq_refl). unfold f in *. cbn [filter snd].
    destruct (str_eqb (mop_id o) id), (str_eqb (mop_id m) id); cbn [next]; [|exact IH|rewrite IH; reflexivity|exact IH]. rewrite (proj2 (Nat.eqb_neq _ _) Hq), IH. reflexivity.
Qed.
Lemma rollback_op_id d o : rollback_op d = Some o -> mop_id o = d_id d.
Proof.
  unfold rollback_op. destruct (isnil (d_diffs d)); [intro H; injection H as <-; reflexivity|]. destruct (revert_doc d) as [d'|] eqn:E; [|discriminate]. apply revert_doc_id in E.
  unfold revert_op. destruct (d_ver d'); [|discriminate]. intro H. injection H as <-. exact E.
Qed.
Lemma filter_swap {A} (f g : A -> bool) l : filter f (filter g l) = filter g (filter f l).
Proof. induction l as [|x l IH]; [reflexivity|]. cbn [filter]. destruct (f x) eqn:F, (g x) eqn:G; cbn [filter]; rewrite ?F, ?G, IH; reflexivity. Qed.
Lemma own_waits s : waits (own s) id <-> waits s id.
Proof. split; intros (p & o & H & E); exists p, o; (split; [|exact E]); [apply filter_In in H; apply H|apply filter_In; split; [exact H|cbn [snd]; rewrite E; apply str_eqb_refl]]. Qed.

(** An event, seen by the record alone. *)
Lemma own_step s e s' : happen s e = Some s' -> calm_for id s e ->
  (own s' = own s /\ commits s e id = []) \/
  exists e', happen (own s) e' = Some (own s') /\ calm (own s) e' /\ commits (own s) e' id = commits s e id.
Proof.
  intros H C. destruct e as [p mf [i new]|p i|p|p|v i]; cbn [happen calm_for commits fst snd] in *.
  - destruct (rec_op mf (i, new) (find_last (w_coll s) i)) as [[o|]|] eqn:E; [| |discriminate]; injection H as <-; [|left; auto].
    pose proof (rec_op_id mf i new _ _ o E eq_refl (find_last_id _ _)) as Ei. destruct (str_eqb i id) eqn:Q.
    + apply str_eqb_eq in Q. rewrite Q in E, Ei, C. right. exists (EvRead p mf (id, new)). cbn [happen calm commits fst snd own w_coll w_wait]. rewrite own_find, E. split; [|auto]. unfold own. cbn [w_coll w_wait]. rewrite filter_app. cbn [filter snd]. rewrite Ei, str_eqb_refl. reflexivity.
    + left. split; [|reflexivity]. unfold own. cbn [w_coll w_wait]. rewrite filter_app. cbn [filter snd]. rewrite Ei, Q, app_nil_r. reflexivity.
  - destruct (nth_error (w_coll s) i) as [d|] eqn:E; [|injection H as <-; left; auto]. destruct (is_pending d) eqn:Ep; [|injection H as <-; left; auto].
    destruct (rollback_op d) as [o|] eqn:Eo; [|discriminate]. injection H as <-. pose proof (rollback_op_id d o Eo) as Ei. destruct (str_eqb (d_id d) id) eqn:Q.
    + right. destruct (own_nth _ _ _ E (proj1 (str_eqb_eq _ _) Q)) as (j & Hj & _). exists (EvRevert p j). cbn [happen calm commits own w_coll w_wait]. rewrite Hj, Ep, Eo. split; [|auto]. unfold own. cbn [w_coll w_wait]. rewrite filter_app. cbn [filter snd]. rewrite Ei, Q. reflexivity.
    + left. split; [|reflexivity]. unfold own. cbn [w_coll w_wait]. rewrite filter_app. cbn [filter snd]. rewrite Ei, Q, app_nil_r. reflexivity.
  - destruct (next p (w_wait s)) as [[o r]|] eqn:E; injection H as <-; [|left; auto]. pose proof (own_next p _ o r E) as K. cbv zeta in K. destruct (str_eqb (mop_id o) id) eqn:Q.
    + right. exists (EvWrite p). cbn [happen calm commits own w_coll w_wait]. rewrite K. split; [|auto]. unfold own. cbn [w_coll w_wait]. rewrite own_apply by (apply str_eqb_eq, Q). reflexivity.
    + left. split; [|reflexivity]. unfold own. cbn [w_coll w_wait]. rewrite K, docs_apply, Q. reflexivity.
  - injection H as <-. right. exists (EvDie p). cbn [happen calm commits own w_coll w_wait]. split; [|auto]. unfold own. cbn [w_coll w_wait]. rewrite filter_swap. reflexivity.
  - injection H as <-. destruct (nth_error (w_coll s) i) as [d|] eqn:E.
    2:{ left. split; [|reflexivity]. unfold own. cbn [w_coll w_wait]. rewrite upd_nth_id by (intros d Hd; congruence). reflexivity. }
    destruct (str_eqb (d_id d) id) eqn:Q.
    + right. pose proof (proj1 (str_eqb_eq _ _) Q) as Qe. destruct (own_nth _ _ _ E Qe) as (j & Hj & K). exists (EvCommit v j). cbn [happen calm commits own w_coll w_wait]. rewrite Hj, Q. split; [|split; [|reflexivity]].
      * unfold own. cbn [w_coll w_wait]. rewrite K by apply commit_doc_id. reflexivity.
      * intros d' Hd' Hv. injection Hd' as <-. destruct (C d eq_refl Qe Hv) as (C1 & C2 & C3). rewrite Qe, docs_twice. split; [rewrite own_waits; exact C1|]. split; [exact C2|exact C3].
    + left. rewrite andb_false_r. split; [|reflexivity]. unfold own. cbn [w_coll w_wait]. rewrite (docs_upd_other _ _ _ _ _ E (commit_doc_id v d) (proj1 (str_eqb_neq _ _) Q)). reflexivity.
Qed.
Lemma own_run es : forall s s', happens s es = Some s' -> all_calm_for id s es ->
  exists es', happens (own s) es' = Some (own s') /\ all_calm (own s) es' /\ ledger (own s) es' id = ledger s es id.
Proof.
  induction es as [|e es IH]; intros s s' H C; cbn [happens all_calm_for ledger] in *; [injection H as <-; exists []; cbn; auto|].
  destruct C as [C1 C2]. destruct (happen s e) as [s1|] eqn:E; [|discriminate]. cbn [bind] in H. destruct (IH s1 s' H C2) as (es' & A1 & A2 & A3).
  destruct (own_step s e s1 E C1) as [[K1 K2]|(e' & K1 & K2 & K3)].
  - rewrite <- K1, K2, app_nil_r. exists es'. auto.
  - exists (e' :: es'). cbn [happens all_calm ledger]. rewrite K1. cbn [bind]. rewrite K3, A3. auto.
Qed.
End Own.
Lemma held_own id s h : held (w_coll (own id s)) id h -> held (w_coll s) id h.
Proof.
  unfold held, own. cbn [w_coll]. destruct h as [|vx h].
  - intros H d Hd E. apply H; [|exact E]. apply filter_In. split; [exact Hd|rewrite E; apply str_eqb_refl].
  - intros (d & pend & old & E & K). exists d, pend, old. split; [|exact K]. rewrite <- E. symmetry. apply (docs_twice id).
Qed.

(** ** C91 *)
(** Whatever happens to other records (also if their histories are spoilt): if all events are calm for this record, what is stored of it holds
    exactly what was committed of it. *)
Theorem C91_alone_partial : forall (es : list event) (s : world) (id : pystr), happens start es = Some s -> all_calm_for id start es ->
  held (w_coll s) id (ledger start es id).
Proof.
  intros es s id H C. destruct (own_run id es start s H C) as (es' & A1 & A2 & A3). change (own id start) with start in A1, A2, A3.
  destruct (C91_kept_partial es' A2) as (s' & B1 & B2). rewrite A1 in B1. injection B1 as <-. apply held_own. rewrite <- A3. apply B2.
Qed.
Print Assumptions C91_alone_partial.
(** The history of one record is spoilt, that of another one is kept. *)
Definition r2 (n : Z) : pystr * dict := (lit "r2", D [("y", VInt n)]).
Definition spoilt_beside : list event :=
  [EvRead 0 None (r1 1); EvRead 0 None (r2 1); EvWrite 0; EvRead 1 None (r1 2); EvWrite 0; EvCommit 100 0; EvCommit 100 1; EvWrite 1; EvRead 0 None (r2 5); EvRevert 1 0; EvWrite 0; EvCommit 200 1].
Lemma calm_for_cons id s e r s' : happen s e = Some s' -> calm_for id s e -> all_calm_for id s' r -> all_calm_for id s (e :: r).
Proof. intros H1 H2 H3. split; [exact H2|]. rewrite H1. exact H3. Qed.
Ltac commit_calm_for := cbn [calm_for]; intros d H Hi _; vm_compute in H; injection H as <-; first [discriminate Hi|
  split; [intros (p & o & Hin & Hm); vm_compute in Hin; repeat destruct Hin as [Hin|Hin]; try contradiction; inversion Hin; subst; discriminate Hm
         |split; [vm_compute; reflexivity|vm_compute; repeat constructor]]].
Example C91_alone_example : exists s, happens start spoilt_beside = Some s /\ all_calm_for (lit "r2") start spoilt_beside /\
  ledger start spoilt_beside (lit "r2") = [(200%Z, snd (r2 5)); (100%Z, snd (r2 1))] /\ ~ held (w_coll s) (lit "r1") (ledger start spoilt_beside (lit "r1")).
Proof.
  eexists. split; [vm_compute; reflexivity|]. split; [|split; [vm_compute; reflexivity|]].
  - assert (W : forall n, wfd (snd (r2 n))) by (intro; cbn; repeat constructor; cbn; tauto).
    repeat (first [exact I|eapply calm_for_cons; [vm_compute; reflexivity|first [exact I|intros _; apply W|intros K; discriminate K|commit_calm_for]|]]).
  - vm_compute. intros (d & pend & old & E & I & P & F). injection E as <-. vm_compute in I. injection I as I.
    destruct P as [->|[x ->]]; [|discriminate]. cbn [app] in I. subst old. inversion F as [|? ? ? ? [_ K] _]; subst. cbn [snd] in K.
    inversion K as [? ? Ks| |? ? _ Hv]; subst; [discriminate|]. specialize (Hv (lit "x") (VInt 2) (VInt 1) eq_refl eq_refl). inversion Hv as [? ? Sc _ Ss| |]; subst; discriminate.
Qed.

(** ** C60 *)
(** Several ingests and rollbacks at once that share ids. *)
Definition no_commits (es : list event) : Prop := Forall (fun e => match e with EvCommit _ _ => False | _ => True end) es.
Definition read_data (es : list event) (id : pystr) (x : dict) : Prop := exists p mf, In (EvRead p mf (id, x)) es.
Lemma calm_join a : forall s b, all_calm s a -> (forall s', happens s a = Some s' -> all_calm s' b) -> all_calm s (a ++ b).
Proof.
  induction a as [|e a IH]; intros s b H K; cbn [app all_calm happens] in *; [apply K; reflexivity|]. destruct H as [H1 H2]. split; [exact H1|].
  destruct (happen s e) as [s1|]; [|exact I]. apply IH; [exact H2|exact K].
Qed.
Lemma calm_free es : no_commits es -> wf_data es -> forall s, all_calm s es.
Proof.
  induction es as [|e es IH]; intros N W s; cbn [all_calm]; [exact I|]. inversion N as [|? ? N1 N2]; inversion W as [|? ? W1 W2]; subst. split; [destruct e; try exact I; [exact W1|contradiction]|].
  destruct (happen s e); [apply IH; assumption|exact I].
Qed.
Lemma ledger_free es id : no_commits es -> forall s, ledger s es id = [].
Proof.
  induction es as [|e es IH]; intros N s; cbn [ledger]; [reflexivity|]. inversion N as [|? ? N1 N2]; subst. replace (commits s e id) with (@nil (Z * dict)) by (destruct e; reflexivity || contradiction).
  rewrite app_nil_r. destruct (happen s e); [apply IH; exact N2|reflexivity].
Qed.
Section Shared.
Variable id : pystr.
Variable Q : dict -> Prop.
Definition op_brings (o : mop) : Prop := match o with InsertOp _ x | SetDataOp _ x | ChangeOp _ x _ _ => Q x | _ => True end.
Definition brings (s : world) : Prop :=
  (forall d, In d (w_coll s) -> d_id d = id -> d_ver d = None -> Q (d_data d)) /\ (forall p o, In (p, o) (w_wait s) -> mop_id o = id -> op_brings o).
Hypothesis Qsim : forall x f, wfd x -> Q x -> Q (repush x f).
Lemma upd_first_in c i f d : In d (upd_first c i f) -> In d c \/ exists d0, In d0 c /\ d_id d0 = i /\ d = f d0.
Proof.
  induction c as [|x c IH]; cbn [upd_first]; [intros []|]. destruct (str_eqb (d_id x) i) eqn:E.
  - intros [<-|H]; [right; exists x; split; [left; reflexivity|split; [apply str_eqb_eq, E|reflexivity]]|left; right; exact H].
  - intros [<-|H]; [left; left; reflexivity|]. destruct (IH H) as [K|(d0 & K1 & K2)]; [left; right; exact K|right; exists d0; split; [right; exact K1|exact K2]].
Qed.
Lemma del_first_in c i d : In d (del_first c i) -> In d c.
Proof. induction c as [|x c IH]; cbn [del_first]; [intros []|]. destruct (str_eqb _ _); [right; assumption|intros [<-|H]; [left; reflexivity|right; apply IH, H]]. Qed.
Lemma rec_brings mf x od o : wfd x -> Q x -> rec_op mf (id, x) od = Some (Some o) -> op_brings o.
Proof.
  intros W HQ. assert (C : forall old ch n' o', rec_changes mf x old = (ch, n', o') -> Q n').
  { intros old ch n' o'. unfold rec_changes. destruct mf as [f|]; [|intro H; injection H as _ <- _; exact HQ]. destruct (_ && _); intro H; injection H as _ <- _; [apply Qsim; assumption|exact HQ]. }
  unfold rec_op. cbn [fst snd]. destruct od as [d|]; [|destruct (p_del _); intro H; [discriminate|injection H as <-; exact HQ]]. destruct (d_ver d) as [v|].
  - destruct (rec_changes mf x (d_data d)) as [[ch n'] o'] eqn:E. destruct (isnil ch); intro H; [discriminate|injection H as <-; exact (C _ _ _ _ E)].
  - destruct (isnil (d_diffs d)).
    + destruct (p_del _); [intro H; injection H as <-; exact I|]. destruct (isnil _); intro H; [discriminate|injection H as <-; exact HQ].
    + destruct (revert_doc d) as [d'|]; [|discriminate]. destruct (rec_changes mf x (d_data d')) as [[ch n'] o'] eqn:E. destruct (d_ver d') eqn:Ev; [|discriminate].
      destruct (isnil ch); intro H; injection H as H; [unfold revert_op in H; rewrite Ev in H; injection H as <-; exact I|subst o; exact (C _ _ _ _ E)].
Qed.
Lemma brings_step s e s' : match e with EvRead _ _ r => wfd (snd r) /\ (fst r = id -> Q (snd r)) | EvCommit _ _ => False | _ => True end ->
  happen s e = Some s' -> brings s -> brings s'.
Proof.
  intros He H [B1 B2]. destruct e as [p mf [i x]|p i|p|p|v i]; cbn [happen fst snd] in *; [| | | |contradiction].
  - destruct (rec_op mf (i, x) _) as [[o|]|] eqn:E; [| |discriminate]; injection H as <-; [|split; assumption]. split; [exact B1|]. cbn [w_wait]. intros q m Hin Hm. apply in_app_or in Hin. destruct Hin as [Hin|[Hin|[]]]; [exact (B2 q m Hin Hm)|].
    injection Hin as <- <-. pose proof (rec_op_id mf i x _ _ o E eq_refl (find_last_id _ _)) as Ei. destruct He as [W HQ]. rewrite Hm in Ei. subst i. exact (rec_brings mf x _ o W (HQ eq_refl) E).
  - destruct (nth_error (w_coll s) i) as [d|]; [|injection H as <-; split; assumption]. destruct (is_pending d); [|injection H as <-; split; assumption]. destruct (rollback_op d) as [o|] eqn:E; [|discriminate]. injection H as <-.
    split; [exact B1|]. cbn [w_wait]. intros q m Hin Hm. apply in_app_or in Hin. destruct Hin as [Hin|[Hin|[]]]; [exact (B2 q m Hin Hm)|]. injection Hin as <- <-.
    unfold rollback_op in E. destruct (isnil _); [injection E as <-; exact I|]. destruct (revert_doc d) as [d'|]; [|discriminate]. unfold revert_op in E. destruct (d_ver d'); [|discriminate]. injection E as <-. exact I.
  - destruct (next p (w_wait s)) as [[o r]|] eqn:E; injection H as <-; [|split; assumption]. destruct (next_in _ _ _ _ E) as [Ho Hr]. split; cbn [w_coll w_wait]; [|intros q m Hin; exact (B2 q m (Hr _ Hin))].
    intros d Hd Hi Hv. pose proof (B2 p o Ho) as Bo. destruct o as [j x|j x|j x v ch|j x v all|j]; cbn [apply_mop mop_id op_brings] in *.
    + apply in_app_or in Hd. destruct Hd as [Hd|[<-|[]]]; [exact (B1 d Hd Hi Hv)|exact (Bo Hi)].
    + apply upd_first_in in Hd. destruct Hd as [Hd|(d0 & Hd & Hj & ->)]; [exact (B1 d Hd Hi Hv)|]. cbn [d_data d_id] in *. apply Bo. congruence.
    + apply upd_first_in in Hd. destruct Hd as [Hd|(d0 & Hd & Hj & ->)]; [exact (B1 d Hd Hi Hv)|]. cbn [d_data d_id] in *. apply Bo. congruence.
    + apply upd_first_in in Hd. destruct Hd as [Hd|(d0 & Hd & Hj & ->)]; [exact (B1 d Hd Hi Hv)|]. cbn [d_ver] in Hv. discriminate.
    + apply del_first_in in Hd. exact (B1 d Hd Hi Hv).
  - injection H as <-. split; [exact B1|]. cbn [w_wait]. intros q m Hin Hm. apply filter_In in Hin. exact (B2 q m (proj1 Hin) Hm).
Qed.
Lemma brings_run es : no_commits es -> wf_data es -> (forall x, read_data es id x -> Q x) -> forall s s', happens s es = Some s' -> brings s -> brings s'.
Proof.
  induction es as [|e es IH]; intros N W R s s' H B; cbn [happens] in H; [injection H as <-; exact B|]. inversion N as [|? ? N1 N2]; inversion W as [|? ? W1 W2]; subst.
  destruct (happen s e) as [s1|] eqn:E; [|discriminate]. cbn [bind] in H. refine (IH N2 W2 _ s1 s' H _); [intros x (p & mf & K); apply R; exists p, mf; right; exact K|].
  refine (brings_step s e s1 _ E B). destruct e as [p mf [i x]| | | |]; try exact I; [|contradiction]. split; [exact W1|]. cbn [fst snd]. intros ->. apply R. exists p, mf. left. reflexivity.
Qed.
End Shared.
(** Any number of ingests and rollbacks at the same time, sharing ids, from any state reached by calm events: a record with history keeps its one document and
    its history, and its pending data (if any) is what was pending before or what one of the ingests brought for it. *)
Theorem C60_shared_partial : forall before es s1 s2 id, all_calm start before -> happens start before = Some s1 -> w_wait s1 = [] ->
  no_commits es -> wf_data es -> happens s1 es = Some s2 -> ledger start before id <> [] ->
  exists d pend old, docs_of id (w_coll s2) = [d] /\ iter_doc d = Some (pend ++ old) /\
    Forall2 same_entry old (map (fun vx => (Some (fst vx), snd vx)) (ledger start before id)) /\
    (pend = [] \/ exists x, pend = [(None, x)] /\
      ((exists d0, In d0 (w_coll s1) /\ d_id d0 = id /\ d_ver d0 = None /\ veq (VDict x) (VDict (d_data d0))) \/ exists y, read_data es id y /\ veq (VDict x) (VDict y))).
Proof.
  intros before es s1 s2 id C E1 W1 N W E2 L.
  assert (C2 : all_calm start (before ++ es)) by (apply calm_join; [exact C|intros; apply calm_free; assumption]).
  destruct (C91_kept_partial _ C2) as (s & E & H). rewrite happens_app, E1 in E. cbn [bind] in E. rewrite E2 in E. injection E as <-. specialize (H id). rewrite ledger_app, E1, (ledger_free es id N) in H. cbn [app] in H.
  unfold held in H. destruct (ledger start before id) as [|vx h]; [contradiction|]. destruct H as (d & pend & old & Hd & Hi & Hp & Ho). exists d, pend, old. split; [exact Hd|]. split; [exact Hi|]. split; [exact Ho|].
  destruct Hp as [->|[x ->]]; [left; reflexivity|right]. exists x. split; [reflexivity|].
  set (Q := fun x => (exists d0, In d0 (w_coll s1) /\ d_id d0 = id /\ d_ver d0 = None /\ veq (VDict x) (VDict (d_data d0))) \/ exists y, read_data es id y /\ veq (VDict x) (VDict y)).
  assert (B : brings id Q s2).
  { apply (brings_run id Q) with (es := es) (s := s1); try assumption.
    - intros z f Wz [(d0 & K1 & K2 & K3 & K4)|(y & K1 & K2)]; pose proof (veq_sym _ _ (repush_sim scalar_same z f scalar_same_refl Wz)) as V; [left; exists d0; repeat (split; [assumption|]); exact (veq_trans _ _ _ V K4)|right; exists y; split; [exact K1|exact (veq_trans _ _ _ V K2)]].
    - intros y Hy. right. exists y. split; [exact Hy|apply veq_refl].
    - split; [intros d0 K1 K2 K3; left; exists d0; repeat (split; [assumption|]); apply veq_refl|rewrite W1; intros ? ? []]. }
  unfold iter_doc in Hi. destruct (iter_diffs _ _ _) as [t|]; [|discriminate]. cbn [bind app] in Hi. injection Hi as Hv Hx _. subst x.
  assert (Hin : In d (docs_of id (w_coll s2))) by (change (docs_of id (w_coll s2)) with (filter (fun d => str_eqb (d_id d) id) (w_coll s2)); rewrite Hd; left; reflexivity). apply filter_In in Hin. destruct Hin as [Hin Hid].
  exact (proj1 B d Hin (proj1 (str_eqb_eq _ _) Hid) Hv).
Qed.
Print Assumptions C60_shared_partial.
(** Two ingests change a committed record, a third process rolls back in between. *)
Definition first_day : list event := [EvRead 0 None (r1 1); EvWrite 0; EvCommit 100 0].
Definition both_change : list event := [EvRead 0 None (r1 2); EvRead 1 None (r1 3); EvWrite 0; EvRevert 2 0; EvWrite 1; EvWrite 2; EvRead 0 None (r1 4); EvWrite 0].
Example C60_shared_example : exists s1 s2, all_calm start first_day /\ happens start first_day = Some s1 /\ w_wait s1 = [] /\ no_commits both_change /\ wf_data both_change /\
  happens s1 both_change = Some s2 /\ ledger start first_day (lit "r1") = [(100%Z, snd (r1 1))] /\ map iter_doc (w_coll s2) = [Some [(None, snd (r1 4)); (Some 100%Z, snd (r1 1))]].
Proof.
  do 2 eexists. split; [|split; [vm_compute; reflexivity|split; [reflexivity|split; [repeat constructor|split; [repeat constructor; cbn; tauto|split; [vm_compute; reflexivity|split; vm_compute; reflexivity]]]]]].
  repeat (first [exact I|next_event; [first [exact I|cbn; repeat constructor; cbn; tauto|commit_calm]|]]).
Qed.

(** ** Processes that end *)
(** the process that does an event; commits are done by the server (specification, models no code) *)
Definition done_by (e : event) : option nat :=
  match e with EvRead p _ _ | EvRevert p _ | EvWrite p | EvDie p => Some p | EvCommit _ _ => None end.
Lemma death_next p q w : q <> p -> next q (filter (fun x => negb (Nat.eqb (fst x) p)) w) =
  option_map (fun y => (fst y, filter (fun x => negb (Nat.eqb (fst x) p)) (snd y))) (next q w).
Proof.
  intro Hq. induction w as [|[k o] w IH]; [reflexivity|]. cbn [filter fst next]. destruct (Nat.eqb k p) eqn:E; cbn [negb].
  - apply Nat.eqb_eq in E. subst k. destruct (Nat.eqb p q) eqn:F; [apply Nat.eqb_eq in F; congruence|]. rewrite IH. destruct (next q w) as [[o' w']|]; [|reflexivity].
    cbn [option_map fst snd filter]. rewrite Nat.eqb_refl. reflexivity.
  - cbn [next]. destruct (Nat.eqb k q); [reflexivity|]. rewrite IH. destruct (next q w) as [[o' w']|]; [|reflexivity].
    cbn [option_map fst snd filter]. rewrite E. reflexivity.
Qed.
Lemma death_none p w : next p (filter (fun x => negb (Nat.eqb (fst x) p)) w) = None.
Proof. induction w as [|[k o] w IH]; [reflexivity|]. cbn [filter fst]. destruct (Nat.eqb k p) eqn:E; cbn [negb next]; [exact IH|]. rewrite E, IH. reflexivity. Qed.
Lemma death_twice p q (w : list (nat * mop)) : filter (fun x => negb (Nat.eqb (fst x) p)) (filter (fun x => negb (Nat.eqb (fst x) q)) w) =
  filter (fun x => negb (Nat.eqb (fst x) q)) (filter (fun x => negb (Nat.eqb (fst x) p)) w).
Proof. induction w as [|x w IH]; [reflexivity|]. cbn [filter]. destruct (Nat.eqb (fst x) q) eqn:E, (Nat.eqb (fst x) p) eqn:F; cbn [negb filter]; rewrite ?E, ?F; cbn [negb]; rewrite ?IH; reflexivity. Qed.
(** Whatever the others do, it makes no difference to it whether a process has ended before or ends afterwards; and what it had not written is never written. *)
Theorem C91_death : forall (s : world) (p : nat),
  (forall es, Forall (fun e => done_by e <> Some p) es -> happens s (EvDie p :: es) = happens s (es ++ [EvDie p])) /\
  happens s [EvDie p; EvWrite p] = happens s [EvDie p] /\
  (forall s', happen s (EvDie p) = Some s' -> w_coll s' = w_coll s /\ forall q o, In (q, o) (w_wait s') <-> In (q, o) (w_wait s) /\ q <> p).
Proof.
  intros s p. split; [|split].
  - intros es. revert s. induction es as [|e es IH]; intros s H; [reflexivity|]. inversion H as [|? ? He Hes]; subst. cbn [app].
    assert (X : bind (happen s (EvDie p)) (fun s' => happen s' e) = bind (happen s e) (fun s' => happen s' (EvDie p))).
    { destruct e as [q mf r|q i|q|q|v i]; cbn [happen bind w_coll w_wait].
      - cbn [done_by] in He. assert (Hq : q <> p) by congruence. destruct (rec_op mf r (find_last (w_coll s) (fst r))) as [[o|]|]; cbn [bind happen w_coll w_wait]; try reflexivity.
        rewrite filter_app. cbn [filter fst]. apply Nat.eqb_neq in Hq. rewrite Hq. reflexivity.
      - cbn [done_by] in He. assert (Hq : q <> p) by congruence. destruct (nth_error (w_coll s) i) as [d|]; [|reflexivity]. destruct (is_pending d); [|reflexivity].
        destruct (rollback_op d) as [o|]; [|reflexivity]. cbn [bind happen w_coll w_wait]. rewrite filter_app. cbn [filter fst]. apply Nat.eqb_neq in Hq. rewrite Hq. reflexivity.
      - cbn [done_by] in He. assert (Hq : q <> p) by congruence. rewrite (death_next p q _ Hq). destruct (next q (w_wait s)) as [[o w]|]; reflexivity.
      - rewrite death_twice. reflexivity.
      - reflexivity. }
    change (happens s (EvDie p :: e :: es)) with (bind (happen s (EvDie p)) (fun s' => bind (happen s' e) (fun s2 => happens s2 es))).
    change (happens s (e :: es ++ [EvDie p])) with (bind (happen s e) (fun s' => happens s' (es ++ [EvDie p]))).
    destruct (happen s e) as [s1|] eqn:E1; cbn [bind] in X |- *.
    + rewrite <- (IH s1 Hes). cbn [happens]. destruct (happen s (EvDie p)) as [s0|]; cbn [bind] in X |- *; [rewrite X; reflexivity|]. rewrite <- X. reflexivity.
    + destruct (happen s (EvDie p)) as [s0|]; cbn [bind] in X |- *; [rewrite X; reflexivity|reflexivity].
  - cbn [happens happen bind w_wait w_coll]. rewrite death_none. reflexivity.
  - cbn [happen]. intros s' H. injection H as <-. cbn [w_coll w_wait]. split; [reflexivity|]. intros q o. rewrite filter_In. cbn [fst]. rewrite negb_true_iff, Nat.eqb_neq. tauto.
Qed.
Print Assumptions C91_death.
(** two processes add records, one ends before it has written *)
Example C91_death_example :
  let es := [EvRead 1 None (lit "a", [(lit "x", VInt 1)]); EvRead 2 None (lit "b", [(lit "x", VInt 2)])] in
  Forall (fun e => done_by e <> Some 1) [EvWrite 2; EvCommit 5 0] /\
  option_map (fun s => map (fun d => (d_id d, d_ver d)) (w_coll s)) (happens start (es ++ [EvDie 1; EvWrite 2; EvWrite 1; EvCommit 5 0])) = Some [(lit "b", Some 5%Z)].
Proof. split; [repeat constructor; discriminate|vm_compute; reflexivity]. Qed.
