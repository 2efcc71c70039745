(** Invariants of the bulk writer. *)
From Coq Require Import List ZArith NArith Bool Lia Permutation.
From Verif Require Import PyVal Diff Prepare PrepareProofs PropsPrepare Mongo Client Index IndexProofs Sync SyncSpec SyncProofs SyncBuild SyncColl SyncMore SyncArcs SyncEvents Workers.
Import ListNotations.
Open Scope nat_scope.

Lemma sub_only {A} (l m : list A) : sub l m -> only l m.
Proof. intro H. induction H as [|x l m _ IH|x l m _ IH]; intros y Hy; [contradiction|right; apply IH, Hy|]. destruct Hy as [->|Hy]; [left; reflexivity|right; apply IH, Hy]. Qed.
Lemma upd_length {A} (l : list A) : forall n x, length (upd n x l) = length l.
Proof. induction l as [|y l IH]; intros [|n] x; cbn; auto. Qed.
Definition sum {A} (f : A -> nat) (l : list A) : nat := fold_right (fun x n => f x + n) 0 l.
Lemma sum_upd {A} (f : A -> nat) l : forall n w w', nth_error l n = Some w -> sum f (upd n w' l) + f w = sum f l + f w'.
Proof.
  induction l as [|y l IH]; intros [|n] w w' H; try discriminate; cbn [nth_error upd sum fold_right] in *.
  - injection H as ->. lia.
  - specialize (IH n w w' H). unfold sum in IH. lia.
Qed.
Lemma sum_ge {A} (f : A -> nat) l : forall n w, nth_error l n = Some w -> f w <= sum f l.
Proof. induction l as [|y l IH]; intros [|n] w H; try discriminate; cbn in *; [injection H as ->; lia|]. specialize (IH n w H). unfold sum in IH. lia. Qed.
Lemma sum_zero {A} (f : A -> nat) l : sum f l = 0 -> forall x, In x l -> f x = 0.
Proof. induction l as [|y l IH]; [contradiction|]. cbn. intros H x [->|Hx]; [lia|apply IH; [unfold sum; lia|exact Hx]]. Qed.
Lemma flat_upd {A B} (g : A -> list B) l : forall n w w', nth_error l n = Some w -> Permutation (flat_map g (upd n w' l) ++ g w) (flat_map g l ++ g w').
Proof.
  induction l as [|y l IH]; intros [|n] w w' H; try discriminate; cbn [nth_error upd flat_map] in *.
  - injection H as ->. rewrite (Permutation_app_comm (g w' ++ _) (g w)). rewrite <- app_assoc. apply Permutation_app_head, Permutation_app_comm.
  - rewrite <- !app_assoc. apply Permutation_app_head, (IH n w w' H).
Qed.
Lemma upd_In {A} (l : list A) : forall n x y, In y (upd n x l) -> y = x \/ In y l.
Proof. induction l as [|z l IH]; intros [|n] x y H; cbn in *; try tauto; [destruct H; auto|]. destruct H as [->|H]; [auto|]. destruct (IH n x y H); auto. Qed.
Lemma repeat_snoc {A} (x : A) k : repeat x k ++ [x] = repeat x (S k).
Proof. induction k as [|k IH]; [reflexivity|]. cbn. rewrite IH. reflexivity. Qed.

Section Proofs.
Context {P : Type}.
Notation bop := (bop P).
Notation chunk := (list bop).
Notation st := (@st P).
Notation main := (@main P).
Notation worker := (@worker P).
Variable buffer : nat.
Variable ft : fault -> Prop.
Notation step := (step buffer ft).
Notation steps := (steps buffer ft).
Variables (ops : list bop) (size count : nat) (e0 : es P).
Hypothesis size_pos : 1 <= size.

Definition pend (m : main) : list chunk := match m with MFeed rest => rest | MPut c rest => c :: rest | _ => [] end.
Definition to_set_up (m : main) : list chunk := match m with MFeed rest | MPut _ rest => rest | _ => [] end.
Definition of_queue (q : list (option chunk)) : list chunk := flat_map (fun o => match o with Some c => [c] | None => [] end) q.
Definition sending (w : worker) : list bop := match w with WSend c _ _ _ => c | _ => [] end.
Definition is_sending (w : worker) : nat := match w with WSend _ _ _ _ => 1 | _ => 0 end.
Definition is_failed (w : worker) : nat := match w with WFailed => 1 | _ => 0 end.
Definition is_done (w : worker) : nat := match w with WDone _ _ => 1 | _ => 0 end.
Definition w_indexed (w : worker) : nat := match w with WIdle i _ | WSend _ _ i _ | WDone i _ => i | WFailed => 0 end.
Definition w_deleted (w : worker) : nat := match w with WIdle _ d | WSend _ _ _ d | WDone _ d => d | WFailed => 0 end.
Definition stops (m : main) : nat := match m with MFeed _ | MPut _ _ => count | MStop k => k | _ => 0 end.
Definition raised (m : main) : bool := match m with MRaised => true | _ => false end.
Definition joined (m : main) : bool := match m with MGather | MReturned _ _ => true | _ => false end.
Definition chunks_ok (l : list chunk) : Prop := Forall (fun c => c <> []) l.

Lemma no_failed (ws : list worker) : existsb failed ws = false <-> sum is_failed ws = 0.
Proof.
  induction ws as [|w ws IH]; [cbn; tauto|]. cbn [existsb sum fold_right]. fold (sum is_failed ws). destruct w; cbn [failed is_failed orb]; rewrite ?IH; try (unfold sum; lia || (split; intro; lia || discriminate)).
Qed.

Record inv (s : st) : Prop := {
  i_len : length (workers s) = count;
  i_ops : exists done gone, Permutation (log s) (done ++ lost s) /\
            Permutation (done ++ gone ++ flat_map sending (workers s) ++ concat (of_queue (queue s)) ++ concat (pend (s_main s))) ops /\
            (raised (s_main s) = false -> sum is_failed (workers s) = 0 -> gone = []) /\
            (sum is_failed (workers s) = 0 -> sum w_indexed (workers s) = n_indexed done /\ sum w_deleted (workers s) = n_deleted done);
  i_lost : only (lost s) ops;
  i_seen : exists rest, seen s ++ rest = ops /\ (raised (s_main s) = false -> rest = concat (to_set_up (s_main s)));
  i_es : s_es s = write_live (log s) (setup (seen s) e0);
  i_sub : only (log s) (seen s) /\ only (flat_map sending (workers s) ++ concat (of_queue (queue s))) (seen s) /\ (forall c rest, s_main s = MPut c rest -> only c (seen s));
  i_unf : unfinished s = length (queue s) + sum is_sending (workers s) + sum is_failed (workers s);
  i_queue : exists a b, queue s = map Some a ++ repeat None b /\ chunks_ok a /\ (raised (s_main s) = false -> sum is_done (workers s) + b + stops (s_main s) = count) /\
              (sum is_done (workers s) > 0 -> a = []);
  i_pend : chunks_ok (pend (s_main s));
  i_join : joined (s_main s) = true -> unfinished s = 0;
  i_ret : forall i d, s_main s = MReturned i d -> total (workers s) = Some (i, d) }.

Lemma setup_setup a b (e : es P) : setup b (setup a e) = setup (a ++ b) e.
Proof. unfold setup. cbn [live vis arcs has_lat]. rewrite fold_left_app. f_equal. unfold lat_seen. rewrite existsb_app, orb_assoc. reflexivity. Qed.
Lemma add_arc_known (o : bop) (l : list N) : (forall n d, o = BIndexArc n d -> In n l) -> add_arc l o = l.
Proof.
  intro H. destruct o as [i d|i|n d]; cbn [add_arc]; try reflexivity. assert (E : existsb (N.eqb n) l = true); [|rewrite E; reflexivity].
  apply existsb_exists. exists n. split; [exact (H n d eq_refl)|apply N.eqb_refl].
Qed.
Lemma setup_known (a b : list bop) (e : es P) : only b a -> setup b (setup a e) = setup a e.
Proof.
  intro H. unfold setup. cbn [live vis arcs has_lat]. f_equal.
  - assert (G : forall b l, (forall n d, In (BIndexArc n d) b -> In n l) -> fold_left (add_arc (P := P)) b l = l).
    { clear. induction b as [|o b IH]; intros l G; [reflexivity|]. cbn [fold_left]. rewrite add_arc_known; [apply IH; intros n d Hn; apply (G n d); right; exact Hn|]. intros n d ->. apply (G n d). left. reflexivity. }
    apply G. intros n d Hn. apply add_arc_In. right. unfold arc_seen. apply existsb_exists. exists (BIndexArc n d). split; [apply H, Hn|apply N.eqb_refl].
  - destruct (lat_seen b) eqn:E; [|apply orb_false_r]. unfold lat_seen in E. apply existsb_exists in E. destruct E as (o & K1 & K2).
    assert (L : lat_seen a = true) by (apply existsb_exists; exists o; split; [apply H, K1|exact K2]). rewrite L, !orb_true_r. reflexivity.
Qed.
Lemma write_known (a b : list bop) (e : es P) : only b a -> write_live b (setup a e) = carry_out b (setup a e).
Proof. intro H. unfold write_live. rewrite (setup_known a b e H). reflexivity. Qed.
Lemma apply_bops_app a b (D : docs P) : apply_bops D (a ++ b) = apply_bops (apply_bops D a) b.
Proof. apply fold_left_app. Qed.
Lemma carry_more (sn lg did : list bop) : only lg sn -> only did sn -> carry_out did (write_live lg (setup sn e0)) = write_live (lg ++ did) (setup sn e0).
Proof.
  intros H1 H2. rewrite (write_known sn lg e0 H1), (write_known sn (lg ++ did) e0) by (intros x Hx; apply in_app_or in Hx; destruct Hx; auto).
  unfold carry_out. cbn [live vis arcs has_lat]. rewrite apply_bops_app. reflexivity.
Qed.
Lemma setup_more (sn lg c : list bop) : only lg sn -> setup c (write_live lg (setup sn e0)) = write_live lg (setup (sn ++ c) e0).
Proof.
  intro H. rewrite (write_known sn lg e0 H), (write_known (sn ++ c) lg e0) by (intros x Hx; apply in_or_app; auto).
  rewrite <- setup_setup. unfold carry_out, setup. cbn [live vis arcs has_lat]. reflexivity.
Qed.

Lemma begin_inv : inv (begin ops size count e0).
Proof.
  destruct (C09_partition bop ops size size_pos) as (P1 & P2 & _).
  assert (Z : forall f : worker -> nat, f (WIdle 0 0) = 0 -> sum f (repeat (WIdle 0 0) count) = 0) by (intros f Hf; induction count as [|k IH]; [reflexivity|cbn; rewrite Hf; exact IH]).
  assert (Fm : flat_map sending (repeat (@WIdle P 0 0) count) = []) by (clear; induction count as [|k IH]; [reflexivity|exact IH]).
  constructor; cbn [begin s_main workers queue unfinished s_es seen log lost pend to_set_up raised stops joined of_queue flat_map].
  - apply repeat_length.
  - exists [], []. rewrite Fm. cbn [app concat]. rewrite P1. repeat (split; [auto|]). rewrite !Z by reflexivity. auto.
  - intros x [].
  - exists ops. rewrite P1. split; [reflexivity|auto].
  - unfold write_live, setup. destruct e0. cbn. rewrite !orb_false_r. reflexivity.
  - split; [intros x []|]. split; [rewrite Fm; intros x []|]. discriminate.
  - rewrite !Z by reflexivity. reflexivity.
  - exists [], 0. split; [reflexivity|]. split; [constructor|]. rewrite !Z by reflexivity. split; [lia|auto].
  - eapply Forall_impl; [|exact P2]. intros c [H _]. exact H.
  - discriminate.
  - discriminate.
Qed.
Lemma of_queue_app q q' : of_queue (q ++ q') = of_queue q ++ of_queue q'.
Proof. apply flat_map_app. Qed.
Lemma of_queue_stop q : of_queue (q ++ [None]) = of_queue q.
Proof. rewrite of_queue_app. apply app_nil_r. Qed.
Lemma of_queue_shape a b : of_queue (map Some a ++ repeat None b) = a.
Proof.
  rewrite of_queue_app. unfold of_queue. assert (H1 : flat_map (fun o : option chunk => match o with Some c => [c] | None => [] end) (map Some a) = a) by (induction a as [|x a IH]; [reflexivity|cbn; rewrite IH; reflexivity]).
  assert (H2 : flat_map (fun o : option chunk => match o with Some c => [c] | None => [] end) (repeat None b) = []) by (induction b as [|b IH]; [reflexivity|exact IH]).
  rewrite H1, H2, app_nil_r. reflexivity.
Qed.
Lemma n_indexed_app a b : n_indexed (P := P) (a ++ b) = n_indexed a + n_indexed b.
Proof. unfold n_indexed. rewrite filter_app, app_length. reflexivity. Qed.
Lemma n_deleted_app a b : n_deleted (P := P) (a ++ b) = n_deleted a + n_deleted b.
Proof. unfold n_deleted. rewrite filter_app, app_length. reflexivity. Qed.
Lemma total_none_failed (ws : list worker) x : total ws = Some x -> sum is_failed ws = 0.
Proof.
  revert x. induction ws as [|w ws IH]; intros x H; [reflexivity|]. cbn [total] in H. destruct w; cbn [counts] in H; try discriminate. destruct (total ws) as [[i d]|] eqn:E; [|discriminate].
  cbn [sum fold_right is_failed]. exact (IH _ eq_refl).
Qed.
Lemma total_sum (ws : list worker) i d : total ws = Some (i, d) -> i = sum w_indexed ws /\ d = sum w_deleted ws /\ sum is_done ws = length ws.
Proof.
  revert i d. induction ws as [|w ws IH]; intros i d H; [injection H as <- <-; auto|]. cbn [total] in H. destruct w as [| |i0 d0|]; cbn [counts] in H; try discriminate.
  destruct (total ws) as [[i' d']|] eqn:E; [|discriminate]. injection H as <- <-. destruct (IH i' d' eq_refl) as (-> & -> & H3). cbn [sum fold_right w_indexed w_deleted is_done length].
  unfold sum in *. rewrite H3. auto.
Qed.

(** a worker step that changes only worker [n] *)
Lemma total_upd_other (ws : list worker) n w w' i d : nth_error ws n = Some w -> counts w = None -> total ws = Some (i, d) -> total (upd n w' ws) = Some (i, d).
Proof.
  intros H Hw Ht. exfalso. revert n i d H Ht. induction ws as [|x ws IH]; intros [|n] i d H Ht; try discriminate; cbn [nth_error total] in *.
  - injection H as ->. rewrite Hw in Ht. discriminate.
  - destruct (counts x) as [[? ?]|]; [|discriminate]. destruct (total ws) as [[i' d']|] eqn:E; [|discriminate]. exact (IH n i' d' H eq_refl).
Qed.
Lemma step_inv s s' : inv s -> step s s' -> inv s'.
Proof.
  intros [Hlen (done & gone & Hlog & Hops & Hgone & Hcnt) Hlost (srest & Hseen & Hsr) Hes (Hs1 & Hs2 & Hs3) Hunf (qa & qb & Hq & Hqa & Hqb & Hqd) Hpend Hjoin Hret] Hst.
  destruct Hst as [c rest q u ws e sn lg ls|c rest q u ws e sn lg ls Hft|c rest q u ws e sn lg ls Hnf|q u ws e sn lg ls|k q u ws e sn lg ls Hnf|q u ws e sn lg ls|q ws e sn lg ls
    |i d q u ws e sn lg ls Ht|q u ws e sn lg ls Hf|m o q u ws n i d e sn lg ls Hn Ho|m x c q u ws n i d e sn lg ls Hn|m q u ws n c a i d e sn lg ls Hn
    |m q u ws n c a i d e sn lg ls did Hft Hn Ha Hd|m q u ws n c a i d e sn lg ls did Hft Hn Ha Hd|m q u ws n c a i d e sn lg ls did Hft Hn Hd Hne|m q u ws n c a i d e sn lg ls did Hft Hn Hd];
  cbn [s_main workers queue unfinished s_es seen log lost pend to_set_up raised stops joined] in *.
  - (* setup *)
    constructor; cbn [s_main workers queue unfinished s_es seen log lost pend to_set_up raised stops joined]; auto.
    + exists done, gone. cbn [concat] in *. auto.
    + exists (concat rest). split; [|auto]. rewrite <- Hseen, (Hsr eq_refl). cbn [concat]. rewrite app_assoc. reflexivity.
    + rewrite Hes. apply setup_more, Hs1.
    + split; [intros y Hy; apply in_or_app; left; apply Hs1, Hy|]. split; [intros y Hy; apply in_or_app; left; apply Hs2, Hy|].
      intros c' rest' K. injection K as -> _. intros y Hy. apply in_or_app. right. exact Hy.
    + exists qa, qb. auto.
    + discriminate.
  - (* setup fails *)
    constructor; cbn [s_main workers queue unfinished s_es seen log lost pend to_set_up raised stops joined]; auto; try discriminate.
    + exists done, (gone ++ concat (c :: rest)). split; [exact Hlog|]. split; [|split; [discriminate|exact Hcnt]]. rewrite <- Hops. apply Permutation_app_head. rewrite <- app_assoc. apply Permutation_app_head.
      cbn [concat] in *. rewrite app_nil_r. rewrite Permutation_app_comm. rewrite <- !app_assoc. reflexivity.
    + exists srest. split; [exact Hseen|discriminate].
    + split; [exact Hs1|]. split; [exact Hs2|]. discriminate.
    + exists qa, qb. repeat (split; [auto; discriminate|]). exact Hqd.
    + constructor.
  - (* put *)
    assert (Ck : check ws (MFeed rest) = MFeed rest \/ check ws (MFeed rest) = MRaised /\ sum is_failed ws > 0).
    { unfold check. destruct (existsb failed ws) eqn:E; [right; split; [reflexivity|]|left; reflexivity].
      destruct (sum is_failed ws) eqn:E2; [|lia]. apply no_failed in E2. congruence. }
    assert (Hc : only c sn) by (apply (Hs3 c rest eq_refl)).
    assert (Sd : sum is_done ws = 0 /\ qb = 0) by (specialize (Hqb eq_refl); lia).
    constructor; cbn [s_main workers queue unfinished s_es seen log lost pend to_set_up raised stops joined]; auto.
    + rewrite of_queue_app. cbn [of_queue flat_map app]. rewrite concat_app. cbn [concat]. rewrite app_nil_r.
      destruct Ck as [->|[-> Fg]]; cbn [pend raised].
      * exists done, gone. split; [exact Hlog|]. split; [|auto]. rewrite <- Hops. cbn [concat]. rewrite <- !app_assoc. reflexivity.
      * exists done, (gone ++ concat rest). split; [exact Hlog|]. split; [|split; [discriminate|exact Hcnt]]. rewrite <- Hops. apply Permutation_app_head. rewrite <- !app_assoc. apply Permutation_app_head.
        cbn [concat]. rewrite app_nil_r. rewrite Permutation_app_comm. rewrite <- !app_assoc. reflexivity.
    + destruct Ck as [->|[-> _]]; cbn [to_set_up raised]; exists srest; split; auto; discriminate.
    + split; [exact Hs1|]. split; [|destruct Ck as [->|[-> _]]; discriminate]. intros y Hy. rewrite of_queue_app in Hy. cbn [of_queue flat_map app] in Hy. rewrite concat_app in Hy. cbn [concat] in Hy.
      rewrite app_nil_r, app_assoc in Hy. apply in_app_or in Hy. destruct Hy as [Hy|Hy]; [apply Hs2, Hy|apply Hc, Hy].
    + rewrite app_length. cbn. lia.
    + destruct Sd as [Sd Sb]. exists (qa ++ [c]), 0. rewrite Hq, Sb. cbn [repeat]. rewrite !app_nil_r, map_app. split; [reflexivity|].
      split; [apply Forall_app; split; [exact Hqa|inversion Hpend; repeat constructor; assumption]|]. split; [|lia].
      destruct Ck as [->|[-> _]]; cbn [stops raised]; [specialize (Hqb eq_refl); lia|discriminate].
    + destruct Ck as [->|[-> _]]; cbn [pend]; [inversion Hpend; assumption|constructor].
    + destruct Ck as [->|[-> _]]; discriminate.
    + destruct Ck as [->|[-> _]]; discriminate.
  - (* feed done *)
    constructor; cbn [s_main workers queue unfinished s_es seen log lost pend to_set_up raised stops joined]; auto; try discriminate.
    + exists done, gone. auto.
    + exists srest. auto.
    + repeat (split; [assumption|]). discriminate.
    + exists qa, qb. rewrite Hlen. auto.
  - (* stop *)
    constructor; cbn [s_main workers queue unfinished s_es seen log lost pend to_set_up raised stops joined]; auto; try discriminate.
    + rewrite of_queue_stop. exists done, gone. auto.
    + exists srest. auto.
    + rewrite of_queue_stop. repeat (split; [assumption|]). discriminate.
    + rewrite app_length. cbn. lia.
    + exists qa, (S qb). rewrite Hq, <- app_assoc, repeat_snoc. split; [reflexivity|]. split; [exact Hqa|]. split; [|exact Hqd]. intros _. specialize (Hqb eq_refl). lia.
  - (* stopped *)
    constructor; cbn [s_main workers queue unfinished s_es seen log lost pend to_set_up raised stops joined]; auto; try discriminate.
    + exists done, gone. auto.
    + exists srest. auto.
    + repeat (split; [assumption|]). discriminate.
    + exists qa, qb. auto.
  - (* join *)
    assert (Ck : check ws MGather = MGather \/ check ws MGather = MRaised) by (unfold check; destruct (existsb failed ws); auto).
    constructor; cbn [s_main workers queue unfinished s_es seen log lost]; auto; try discriminate.
    + exists done, gone. split; [exact Hlog|]. split; [|split; [|exact Hcnt]]; [|intros _; apply Hgone; reflexivity]. destruct Ck as [->| ->]; exact Hops.
    + exists srest. split; [exact Hseen|]. destruct Ck as [->| ->]; auto; discriminate.
    + repeat (split; [assumption|]). destruct Ck as [->| ->]; discriminate.
    + exists qa, qb. repeat (split; [auto|]); [|exact Hqd]. destruct Ck as [->| ->]; cbn [raised stops]; auto; discriminate.
    + destruct Ck as [->| ->]; constructor.
    + destruct Ck as [->| ->]; discriminate.
  - (* gather *)
    constructor; cbn [s_main workers queue unfinished s_es seen log lost pend to_set_up raised stops joined]; auto; try discriminate.
    + exists done, gone. auto.
    + exists srest. auto.
    + repeat (split; [assumption|]). discriminate.
    + exists qa, qb. auto.
    + intros i' d' K. injection K as <- <-. exact Ht.
  - (* gather fails *)
    constructor; cbn [s_main workers queue unfinished s_es seen log lost pend to_set_up raised stops joined]; auto; try discriminate.
    + exists done, gone. auto.
    + exists srest. split; [exact Hseen|discriminate].
    + repeat (split; [assumption|]). discriminate.
    + exists qa, qb. repeat (split; [auto; discriminate|]). exact Hqd.
  - (* worker stops *)
    assert (Hnone : o = None). { destruct Ho as [Ho|Ho]; [exact Ho|]. subst o. destruct qa as [|c qa']; [destruct qb; discriminate|]. cbn in Hq. injection Hq as <- _. inversion Hqa. congruence. }
    subst o. destruct qa as [|c qa']; [|discriminate]. destruct qb as [|qb']; [discriminate|]. cbn [map app repeat] in Hq. injection Hq as ->.
    pose proof (sum_upd is_sending ws n _ (WDone i d) Hn) as U1. pose proof (sum_upd is_failed ws n _ (WDone i d) Hn) as U2. pose proof (sum_upd is_done ws n _ (WDone i d) Hn) as U3.
    pose proof (sum_upd w_indexed ws n _ (WDone i d) Hn) as U4. pose proof (sum_upd w_deleted ws n _ (WDone i d) Hn) as U5. pose proof (flat_upd sending ws n _ (WDone i d) Hn) as U6.
    cbn [is_sending is_failed is_done w_indexed w_deleted sending] in U1, U2, U3, U4, U5, U6. rewrite !app_nil_r in U6.
    constructor; cbn [s_main workers queue unfinished s_es seen log lost pend to_set_up raised stops joined]; auto.
    + rewrite upd_length. exact Hlen.
    + exists done, gone. split; [exact Hlog|]. split; [|split].
      * rewrite U6. exact Hops.
      * intros R F. apply Hgone; [exact R|lia].
      * intro F. destruct (Hcnt ltac:(lia)) as [C1 C2]. split; lia.
    + exists srest. auto.
    + split; [exact Hs1|]. split; [|exact Hs3]. intros y Hy. apply Hs2. cbn [of_queue flat_map app] in *. apply in_app_or in Hy. apply in_or_app. destruct Hy as [Hy|Hy]; [left; exact (Permutation_in _ U6 Hy)|right; exact Hy].
    + cbn [length] in Hunf. lia.
    + exists [], qb'. split; [reflexivity|]. split; [constructor|]. split; [|auto]. intro R. specialize (Hqb R). lia.
    + intro J. specialize (Hjoin J). lia.
    + intros i' d' K. exfalso. subst m. specialize (Hjoin eq_refl). cbn [length] in Hunf. lia.
  - (* worker takes *)
    destruct qa as [|c0 qa']; [destruct qb; discriminate|]. cbn [map app] in Hq. injection Hq as <- ->.
    pose proof (sum_upd is_sending ws n _ (WSend (x :: c) 0 i d) Hn) as U1. pose proof (sum_upd is_failed ws n _ (WSend (x :: c) 0 i d) Hn) as U2. pose proof (sum_upd is_done ws n _ (WSend (x :: c) 0 i d) Hn) as U3.
    pose proof (sum_upd w_indexed ws n _ (WSend (x :: c) 0 i d) Hn) as U4. pose proof (sum_upd w_deleted ws n _ (WSend (x :: c) 0 i d) Hn) as U5. pose proof (flat_upd sending ws n _ (WSend (x :: c) 0 i d) Hn) as U6.
    cbn [is_sending is_failed is_done w_indexed w_deleted sending] in U1, U2, U3, U4, U5, U6. rewrite !app_nil_r in U6.
    assert (Q6 : Permutation (flat_map sending (upd n (WSend (x :: c) 0 i d) ws) ++ concat (of_queue (map Some qa' ++ repeat None qb))) (flat_map sending ws ++ concat (of_queue (Some (x :: c) :: map Some qa' ++ repeat None qb)))).
    { rewrite U6. cbn [of_queue flat_map app concat]. rewrite <- app_assoc. reflexivity. }
    constructor; cbn [s_main workers queue unfinished s_es seen log lost pend to_set_up raised stops joined]; auto.
    + rewrite upd_length. exact Hlen.
    + exists done, gone. split; [exact Hlog|]. split; [|split].
      * rewrite <- Hops. apply Permutation_app_head, Permutation_app_head. rewrite !app_assoc. apply Permutation_app_tail. exact Q6.
      * intros R F. apply Hgone; [exact R|lia].
      * intro F. destruct (Hcnt ltac:(lia)) as [C1 C2]. split; lia.
    + exists srest. auto.
    + split; [exact Hs1|]. split; [|exact Hs3]. intros y Hy. apply Hs2. exact (Permutation_in _ Q6 Hy).
    + cbn [length] in Hunf. lia.
    + exists qa', qb. split; [reflexivity|]. split; [inversion Hqa; assumption|]. split; [intro R; specialize (Hqb R); lia|]. intro D. assert (K : (x :: c) :: qa' = []) by (apply Hqd; lia). discriminate.
    + intros i' d' K. exfalso. subst m. specialize (Hjoin eq_refl). cbn [length] in Hunf. lia.
  - (* sent *)
    set (w' := WIdle (P := P) (i + n_indexed c) (d + n_deleted c)).
    pose proof (sum_upd is_sending ws n _ w' Hn) as U1. pose proof (sum_upd is_failed ws n _ w' Hn) as U2. pose proof (sum_upd is_done ws n _ w' Hn) as U3.
    pose proof (sum_upd w_indexed ws n _ w' Hn) as U4. pose proof (sum_upd w_deleted ws n _ w' Hn) as U5. pose proof (flat_upd sending ws n _ w' Hn) as U6.
    unfold w' in U1, U2, U3, U4, U5, U6. cbn [is_sending is_failed is_done w_indexed w_deleted sending] in U1, U2, U3, U4, U5, U6. fold w' in U1, U2, U3, U4, U5, U6. rewrite app_nil_r in U6.
    assert (Hc : only c sn). { intros y Hy. apply Hs2, in_or_app. left. apply (Permutation_in _ U6), in_or_app. right. exact Hy. }
    constructor; cbn [s_main workers queue unfinished s_es seen log lost pend to_set_up raised stops joined]; auto.
    + rewrite upd_length. exact Hlen.
    + exists (done ++ c), gone. split; [rewrite Hlog, <- !app_assoc; apply Permutation_app_head, Permutation_app_comm|]. split; [|split].
      * rewrite <- Hops, <- U6, <- !app_assoc. apply Permutation_app_head. rewrite !app_assoc. apply Permutation_app_tail, Permutation_app_tail. rewrite <- app_assoc. apply Permutation_app_comm.
      * intros R F. apply Hgone; [exact R|lia].
      * intro F. destruct (Hcnt ltac:(lia)) as [C1 C2]. rewrite n_indexed_app, n_deleted_app. split; lia.
    + exists srest. auto.
    + rewrite Hes. apply carry_more; assumption.
    + split; [intros y Hy; apply in_app_or in Hy; destruct Hy; auto|]. split; [|exact Hs3]. intros y Hy. apply Hs2. apply in_app_or in Hy. apply in_or_app. destruct Hy as [Hy|Hy]; [left|right; exact Hy].
      apply (Permutation_in _ U6), in_or_app. left. exact Hy.
    + lia.
    + exists qa, qb. split; [exact Hq|]. split; [exact Hqa|]. split; [intro R; specialize (Hqb R); lia|]. intro D. apply Hqd. lia.
    + intro J. specialize (Hjoin J). lia.
    + intros i' d' K. exfalso. subst m. specialize (Hjoin eq_refl). lia.
  - (* timeout *)
    pose proof (sum_ge is_sending ws n _ Hn) as U0. cbn [is_sending] in U0.
    set (w' := WSend c (S a) i d).
    pose proof (sum_upd is_sending ws n _ w' Hn) as U1. pose proof (sum_upd is_failed ws n _ w' Hn) as U2. pose proof (sum_upd is_done ws n _ w' Hn) as U3.
    pose proof (sum_upd w_indexed ws n _ w' Hn) as U4. pose proof (sum_upd w_deleted ws n _ w' Hn) as U5. pose proof (flat_upd sending ws n _ w' Hn) as U6.
    unfold w' in U1, U2, U3, U4, U5, U6. cbn [is_sending is_failed is_done w_indexed w_deleted sending] in U1, U2, U3, U4, U5, U6. fold w' in U1, U2, U3, U4, U5, U6. apply Permutation_app_inv_r in U6.
    assert (Hin : forall y, In y c -> In y (flat_map sending ws)).
    { intros y Hy. apply in_flat_map. exists (WSend c a i d). split; [eapply nth_error_In, Hn|exact Hy]. }
    assert (Hdo : only did ops). { intros y Hy. apply (Permutation_in _ Hops). apply in_or_app. right. apply in_or_app. right. apply in_or_app. left. apply Hin, (sub_only _ _ Hd), Hy. }
    assert (Hc : only did sn) by (intros y Hy; apply Hs2, in_or_app; left; apply Hin, (sub_only _ _ Hd), Hy).
    constructor; cbn [s_main workers queue unfinished s_es seen log lost pend to_set_up raised stops joined]; auto.
    + rewrite upd_length. exact Hlen.
    + exists done, gone. split; [rewrite Hlog, <- !app_assoc; reflexivity|]. split; [|split].
      * rewrite U6. exact Hops.
      * intros R F. apply Hgone; [exact R|lia].
      * intro F. destruct (Hcnt ltac:(lia)) as [C1 C2]. split; lia.
    + intros y Hy. apply in_app_or in Hy. destruct Hy; auto.
    + exists srest. auto.
    + rewrite Hes. apply carry_more; assumption.
    + split; [intros y Hy; apply in_app_or in Hy; destruct Hy; auto|]. split; [|exact Hs3]. intros y Hy. apply Hs2. apply in_app_or in Hy. apply in_or_app. destruct Hy as [Hy|Hy]; [left|right; exact Hy]. exact (Permutation_in _ U6 Hy).
    + lia.
    + exists qa, qb. split; [exact Hq|]. split; [exact Hqa|]. split; [intro R; specialize (Hqb R); lia|]. intro D. apply Hqd. lia.
    + intros i' d' K. exfalso. subst m. specialize (Hjoin eq_refl). lia.
  - (* fails *)
    pose proof (sum_ge is_sending ws n _ Hn) as U0. cbn [is_sending] in U0.
    set (w' := WFailed (P := P)).
    pose proof (sum_upd is_sending ws n _ w' Hn) as U1. pose proof (sum_upd is_failed ws n _ w' Hn) as U2. pose proof (sum_upd is_done ws n _ w' Hn) as U3.
    pose proof (sum_upd w_indexed ws n _ w' Hn) as U4. pose proof (sum_upd w_deleted ws n _ w' Hn) as U5. pose proof (flat_upd sending ws n _ w' Hn) as U6.
    unfold w' in U1, U2, U3, U4, U5, U6. cbn [is_sending is_failed is_done w_indexed w_deleted sending] in U1, U2, U3, U4, U5, U6. fold w' in U1, U2, U3, U4, U5, U6. rewrite app_nil_r in U6.
    assert (Hin : forall y, In y c -> In y (flat_map sending ws)).
    { intros y Hy. apply in_flat_map. exists (WSend c a i d). split; [eapply nth_error_In, Hn|exact Hy]. }
    assert (Hdo : only did ops). { intros y Hy. apply (Permutation_in _ Hops). apply in_or_app. right. apply in_or_app. right. apply in_or_app. left. apply Hin, (sub_only _ _ Hd), Hy. }
    assert (Hc : only did sn) by (intros y Hy; apply Hs2, in_or_app; left; apply Hin, (sub_only _ _ Hd), Hy).
    constructor; cbn [s_main workers queue unfinished s_es seen log lost pend to_set_up raised stops joined]; auto.
    + rewrite upd_length. exact Hlen.
    + exists done, (gone ++ c). split; [rewrite Hlog, <- !app_assoc; reflexivity|]. split; [|split].
      * rewrite <- Hops, <- U6, <- !app_assoc. apply Permutation_app_head, Permutation_app_head. rewrite !app_assoc. apply Permutation_app_tail, Permutation_app_tail, Permutation_app_comm.
      * intros R F. exfalso. lia.
      * intro F. exfalso. lia.
    + intros y Hy. apply in_app_or in Hy. destruct Hy; auto.
    + exists srest. auto.
    + rewrite Hes. apply carry_more; assumption.
    + split; [intros y Hy; apply in_app_or in Hy; destruct Hy; auto|]. split; [|exact Hs3]. intros y Hy. apply Hs2. apply in_app_or in Hy. apply in_or_app. destruct Hy as [Hy|Hy]; [left|right; exact Hy]. apply (Permutation_in _ U6), in_or_app. left. exact Hy.
    + lia.
    + exists qa, qb. split; [exact Hq|]. split; [exact Hqa|]. split; [intro R; specialize (Hqb R); lia|]. intro D. apply Hqd. lia.
    + intros i' d' K. exfalso. subst m. specialize (Hjoin eq_refl). lia.
  - (* fails *)
    pose proof (sum_ge is_sending ws n _ Hn) as U0. cbn [is_sending] in U0.
    set (w' := WFailed (P := P)).
    pose proof (sum_upd is_sending ws n _ w' Hn) as U1. pose proof (sum_upd is_failed ws n _ w' Hn) as U2. pose proof (sum_upd is_done ws n _ w' Hn) as U3.
    pose proof (sum_upd w_indexed ws n _ w' Hn) as U4. pose proof (sum_upd w_deleted ws n _ w' Hn) as U5. pose proof (flat_upd sending ws n _ w' Hn) as U6.
    unfold w' in U1, U2, U3, U4, U5, U6. cbn [is_sending is_failed is_done w_indexed w_deleted sending] in U1, U2, U3, U4, U5, U6. fold w' in U1, U2, U3, U4, U5, U6. rewrite app_nil_r in U6.
    assert (Hin : forall y, In y c -> In y (flat_map sending ws)).
    { intros y Hy. apply in_flat_map. exists (WSend c a i d). split; [eapply nth_error_In, Hn|exact Hy]. }
    assert (Hdo : only did ops). { intros y Hy. apply (Permutation_in _ Hops). apply in_or_app. right. apply in_or_app. right. apply in_or_app. left. apply Hin, (sub_only _ _ Hd), Hy. }
    assert (Hc : only did sn) by (intros y Hy; apply Hs2, in_or_app; left; apply Hin, (sub_only _ _ Hd), Hy).
    constructor; cbn [s_main workers queue unfinished s_es seen log lost pend to_set_up raised stops joined]; auto.
    + rewrite upd_length. exact Hlen.
    + exists done, (gone ++ c). split; [rewrite Hlog, <- !app_assoc; reflexivity|]. split; [|split].
      * rewrite <- Hops, <- U6, <- !app_assoc. apply Permutation_app_head, Permutation_app_head. rewrite !app_assoc. apply Permutation_app_tail, Permutation_app_tail, Permutation_app_comm.
      * intros R F. exfalso. lia.
      * intro F. exfalso. lia.
    + intros y Hy. apply in_app_or in Hy. destruct Hy; auto.
    + exists srest. auto.
    + rewrite Hes. apply carry_more; assumption.
    + split; [intros y Hy; apply in_app_or in Hy; destruct Hy; auto|]. split; [|exact Hs3]. intros y Hy. apply Hs2. apply in_app_or in Hy. apply in_or_app. destruct Hy as [Hy|Hy]; [left|right; exact Hy]. apply (Permutation_in _ U6), in_or_app. left. exact Hy.
    + lia.
    + exists qa, qb. split; [exact Hq|]. split; [exact Hqa|]. split; [intro R; specialize (Hqb R); lia|]. intro D. apply Hqd. lia.
    + intros i' d' K. exfalso. subst m. specialize (Hjoin eq_refl). lia.
  - (* fails *)
    pose proof (sum_ge is_sending ws n _ Hn) as U0. cbn [is_sending] in U0.
    set (w' := WFailed (P := P)).
    pose proof (sum_upd is_sending ws n _ w' Hn) as U1. pose proof (sum_upd is_failed ws n _ w' Hn) as U2. pose proof (sum_upd is_done ws n _ w' Hn) as U3.
    pose proof (sum_upd w_indexed ws n _ w' Hn) as U4. pose proof (sum_upd w_deleted ws n _ w' Hn) as U5. pose proof (flat_upd sending ws n _ w' Hn) as U6.
    unfold w' in U1, U2, U3, U4, U5, U6. cbn [is_sending is_failed is_done w_indexed w_deleted sending] in U1, U2, U3, U4, U5, U6. fold w' in U1, U2, U3, U4, U5, U6. rewrite app_nil_r in U6.
    assert (Hin : forall y, In y c -> In y (flat_map sending ws)).
    { intros y Hy. apply in_flat_map. exists (WSend c a i d). split; [eapply nth_error_In, Hn|exact Hy]. }
    assert (Hdo : only did ops). { intros y Hy. apply (Permutation_in _ Hops). apply in_or_app. right. apply in_or_app. right. apply in_or_app. left. apply Hin, (sub_only _ _ Hd), Hy. }
    assert (Hc : only did sn) by (intros y Hy; apply Hs2, in_or_app; left; apply Hin, (sub_only _ _ Hd), Hy).
    constructor; cbn [s_main workers queue unfinished s_es seen log lost pend to_set_up raised stops joined]; auto.
    + rewrite upd_length. exact Hlen.
    + exists done, (gone ++ c). split; [rewrite Hlog, <- !app_assoc; reflexivity|]. split; [|split].
      * rewrite <- Hops, <- U6, <- !app_assoc. apply Permutation_app_head, Permutation_app_head. rewrite !app_assoc. apply Permutation_app_tail, Permutation_app_tail, Permutation_app_comm.
      * intros R F. exfalso. lia.
      * intro F. exfalso. lia.
    + intros y Hy. apply in_app_or in Hy. destruct Hy; auto.
    + exists srest. auto.
    + rewrite Hes. apply carry_more; assumption.
    + split; [intros y Hy; apply in_app_or in Hy; destruct Hy; auto|]. split; [|exact Hs3]. intros y Hy. apply Hs2. apply in_app_or in Hy. apply in_or_app. destruct Hy as [Hy|Hy]; [left|right; exact Hy]. apply (Permutation_in _ U6), in_or_app. left. exact Hy.
    + lia.
    + exists qa, qb. split; [exact Hq|]. split; [exact Hqa|]. split; [intro R; specialize (Hqb R); lia|]. intro D. apply Hqd. lia.
    + intros i' d' K. exfalso. subst m. specialize (Hjoin eq_refl). lia.
Qed.
End Proofs.
