(** How documents fill the arcs; versions and counts. *)
From Coq Require Import List ZArith NArith Bool Lia Sorted Permutation.
From Verif Require Import PyVal Diff DiffProofs Prepare Mongo Store MongoProofs MongoStore MongoMore Client ClientProofs.
From Verif Require Import Index IndexSpec IndexProofs Sync SyncSpec SyncProofs SyncBuild SyncColl SyncTrace SyncView SyncMore.
Import ListNotations.
Open Scope Z_scope.

Section Arcs.
Context {O P : Type} (parse : dict -> O -> P) (peq : P -> P -> bool).
Notation gen_ops := (gen_ops parse peq).
Variable cap : N.
Hypothesis cap_pos : (0 < cap)%N.

(** The arcs of [k] documents, when [tot] are there already. *)
Fixpoint arcs_from (tot : N) (k : nat) : list N :=
  match k with 0%nat => [] | S k => (tot / cap)%N :: arcs_from (tot + 1)%N k end.
Lemma arcs_from_app a b : forall tot, arcs_from tot (a + b) = arcs_from tot a ++ arcs_from (tot + N.of_nat a)%N b.
Proof.
  induction a as [|a IH]; intro tot; [cbn [arcs_from app plus]; rewrite N.add_0_r; reflexivity|]. cbn [arcs_from app plus]. rewrite IH. f_equal. f_equal. f_equal. lia.
Qed.
Lemma arcs_from_nth k : forall tot i n, nth_error (arcs_from tot k) i = Some n <-> (i < k)%nat /\ n = ((tot + N.of_nat i) / cap)%N.
Proof.
  induction k as [|k IH]; intros tot i n; [destruct i; cbn; split; [discriminate|lia|discriminate|lia]|]. destruct i as [|i]; cbn [arcs_from nth_error].
  - rewrite N.add_0_r. split; [intro H; injection H as <-; split; [lia|reflexivity]|intros [_ ->]; reflexivity].
  - rewrite IH. replace (tot + 1 + N.of_nat i)%N with (tot + N.of_nat (S i))%N by lia. split; intros [H1 H2]; split; auto; lia.
Qed.
Lemma arcs_from_length k : forall tot, length (arcs_from tot k) = k.
Proof. induction k as [|k IH]; intro tot; [reflexivity|]. cbn. rewrite IH. reflexivity. Qed.

(** specification or proof device; models no code of its own *)
Definition rep (tot : N) (st : N * N) : Prop := (fst st * cap + snd st = tot /\ snd st <= cap)%N.
Lemma rep_next tot st : rep tot st -> fst (next_arc cap st) = (tot / cap)%N /\ rep (tot + 1)%N (next_arc cap st).
Proof.
  unfold rep, next_arc. destruct st as [n c]. cbn [fst snd]. intros [H1 H2]. destruct (N.leb_spec cap c); cbn [fst snd].
  - split; [|lia]. assert (c = cap) by lia. subst c. rewrite <- H1. replace (n * cap + cap)%N with ((n + 1) * cap)%N by lia. symmetry. apply N.div_mul. lia.
  - split; [|lia]. rewrite <- H1. apply (N.div_unique _ _ _ c); lia.
Qed.
Notation nums ops := (map fst (flat_map arc_pair ops)).
Lemma gen_rvs_arcs after id (rvs : list (rv P)) : forall tot st, rep tot st ->
  let '(st', ops) := gen_rvs cap after id st rvs in
  nums ops = arcs_from tot (length (flat_map arc_pair ops)) /\ rep (tot + N.of_nat (length (flat_map arc_pair ops)))%N st'.
Proof.
  induction rvs as [|r rest IH]; intros tot st Hr; cbn [gen_rvs]; [cbn; rewrite N.add_0_r; auto|].
  destruct (_ && _ && _).
  - specialize (IH tot st Hr). destruct (gen_rvs cap after id st rest) as [st' ops]. exact IH.
  - destruct (_ && _); [exact (IH tot st Hr)|].
    destruct (rep_next tot st Hr) as [E Hr']. specialize (IH _ _ Hr'). destruct (gen_rvs cap after id (next_arc cap st) rest) as [st' ops]. destruct IH as [I1 I2].
    set (dels := if _ && _ then [_] else []). assert (Ed : flat_map (arc_pair (P := P)) dels = []) by (unfold dels; destruct (_ && _); reflexivity).
    rewrite flat_map_app, Ed. cbn [app flat_map arc_pair map fst length arcs_from]. rewrite E, I1. split; [reflexivity|].
    replace (tot + N.of_nat (S (length (flat_map arc_pair ops))))%N with (tot + 1 + N.of_nat (length (flat_map arc_pair ops)))%N by lia. exact I2.
Qed.
Lemma gen_ops_arcs after om : forall recs tot st st' ops, rep tot st -> gen_ops cap after om st recs = Some (st', ops) ->
  nums ops = arcs_from tot (length (flat_map arc_pair ops)) /\ rep (tot + N.of_nat (length (flat_map arc_pair ops)))%N st'.
Proof.
  induction recs as [|[id h] recs IH]; intros tot st st' ops Hr H; cbn [Index.gen_ops] in H; [injection H as <- <-; cbn; rewrite N.add_0_r; auto|].
  destruct (build parse peq h om) as [rvs|]; [|discriminate]. pose proof (gen_rvs_arcs after id rvs tot st Hr) as G. destruct (gen_rvs cap after id st rvs) as [st1 ops1].
  destruct (gen_ops cap after om st1 recs) as [[st2 ops2]|] eqn:E2; [|discriminate]. injection H as <- <-. destruct G as [G1 G2]. destruct (IH _ _ _ _ G2 E2) as [I1 I2].
  rewrite flat_map_app, map_app, app_length, G1, I1, arcs_from_app. split; [reflexivity|]. rewrite Nat2N.inj_add, N.add_assoc. exact I2.
Qed.

(** The j-th archived document is in arc j / cap, exactly the arcs with documents exist, and everything is visible. *)
Definition well_filled (e : es P) : Prop :=
  fresh e /\ map fst (arc (live e)) = arcs_from 0 (length (arc (live e))) /\ forall n, In n (arcs e) <-> In n (map fst (arc (live e))).
Lemma max_fold l : forall n, In (fold_left N.max l n) (n :: l) /\ forall x, In x (n :: l) -> (x <= fold_left N.max l n)%N.
Proof.
  induction l as [|y l IH]; intro n; cbn [fold_left]; [split; [left; reflexivity|intros x [<-|[]]; lia]|]. destruct (IH (N.max n y)) as [I1 I2]. split.
  - destruct I1 as [I1|I1]; [|right; right; exact I1]. rewrite <- I1. destruct (N.max_spec n y) as [[_ ->]|[_ ->]]; [right; left|left]; reflexivity.
  - intros x [<-|[<-|Hx]]; [specialize (I2 _ (or_introl eq_refl)); lia|specialize (I2 _ (or_introl eq_refl)); lia|apply I2; right; exact Hx].
Qed.
Lemma count_at (l : list (N * esdoc P)) n : length (filter (fun nx => N.eqb (fst nx) n) l) = length (filter (fun m => N.eqb m n) (map fst l)).
Proof. induction l as [|x l IH]; [reflexivity|]. cbn. destruct (N.eqb (fst x) n); cbn; rewrite IH; reflexivity. Qed.
Lemma arcs_from_all k tot n : (n * cap <= tot)%N -> (tot + N.of_nat k <= (n + 1) * cap)%N -> arcs_from tot k = repeat n k.
Proof.
  revert tot. induction k as [|k IH]; intros tot H1 H2; [reflexivity|]. cbn [arcs_from repeat]. rewrite IH by lia. f_equal. symmetry. apply (N.div_unique _ _ _ (tot - n * cap)); lia.
Qed.
Lemma arcs_from_less k tot n : (tot + N.of_nat k <= n * cap)%N -> filter (fun m => N.eqb m n) (arcs_from tot k) = [].
Proof.
  revert tot. induction k as [|k IH]; intros tot H; [reflexivity|]. cbn [arcs_from filter]. rewrite IH by lia.
  destruct (N.eqb_spec (tot / cap) n) as [E|E]; [|reflexivity]. exfalso. assert (tot / cap < n)%N by (apply N.div_lt_upper_bound; lia). lia.
Qed.
Lemma filter_repeat n k : filter (fun m => N.eqb m n) (repeat n k) = repeat n k.
Proof. induction k as [|k IH]; [reflexivity|]. cbn. rewrite N.eqb_refl, IH. reflexivity. Qed.
Lemma status_rep (e : es P) : well_filled e -> rep (N.of_nat (length (arc (live e)))) (get_arc_status e).
Proof.
  intros ([_ F] & Hm & Ha). unfold get_arc_status. set (k := length (arc (live e))) in *. destruct (arcs e) as [|n r] eqn:Er.
  - destruct (arc (live e)) as [|x l] eqn:El; [split; cbn; lia|]. exfalso. apply (proj2 (Ha (fst x))). left. reflexivity.
  - destruct (max_fold r n) as [M1 M2]. set (m := fold_left N.max r n) in *. apply Ha in M1. rewrite Hm in M1. apply In_nth_error in M1. destruct M1 as (i & Hi).
    apply arcs_from_nth in Hi. destruct Hi as [Hi Em]. rewrite N.add_0_l in Em.
    assert (Hk : (0 < k)%nat) by lia.
    assert (Em' : m = (N.of_nat (k - 1) / cap)%N).
    { apply N.le_antisymm; [rewrite Em; apply N.div_le_mono; lia|]. apply M2. apply Ha. rewrite Hm. apply (nth_error_In _ (k - 1)). apply arcs_from_nth. split; [lia|]. f_equal. }
    clear Em i Hi. rewrite F, count_at, Hm. fold k.
    assert (B1 : (m * cap <= N.of_nat (k - 1))%N) by (rewrite Em', N.mul_comm; apply N.mul_div_le; lia).
    assert (B2 : (N.of_nat (k - 1) < (m + 1) * cap)%N) by (pose proof (N.mul_succ_div_gt (N.of_nat (k - 1)) cap ltac:(lia)) as Q; rewrite <- Em' in Q; lia).
    replace (arcs_from 0 k) with (arcs_from 0 (N.to_nat (m * cap) + (k - N.to_nat (m * cap)))) by (f_equal; lia). rewrite arcs_from_app, filter_app, arcs_from_less by lia.
    rewrite (arcs_from_all _ _ m) by lia. cbn [app]. rewrite filter_repeat, repeat_length. split; cbn [fst snd]; lia.
Qed.
Lemma nums_seen (ops : list (bop P)) n : arc_seen ops n = true <-> In n (nums ops).
Proof.
  unfold arc_seen. induction ops as [|o ops IH]; [cbn; split; [discriminate|contradiction]|]. cbn [existsb flat_map]. rewrite map_app, in_app_iff, orb_true_iff, IH.
  destruct o as [i d|i|m d]; cbn; try (intuition discriminate). rewrite N.eqb_eq. intuition.
Qed.
Lemma arcs_of_write ops (e : es P) n : In n (arcs (write_ops ops e)) <-> In n (arcs e) \/ arc_seen ops n = true.
Proof. unfold write_ops, refresh, write_live, setup. destruct (isnil ops); cbn [arcs]; apply add_arc_In. Qed.
Lemma write_filled ops (e : es P) after om recs st' ops0 : well_filled e -> gen_ops cap after om (get_arc_status e) recs = Some (st', ops0) ->
  flat_map arc_pair ops = flat_map arc_pair ops0 -> well_filled (write_ops ops e).
Proof.
  intros Hw Hg Ho. pose proof (status_rep e Hw) as Hr. destruct Hw as (Fr & Hm & Ha). destruct (gen_ops_arcs after om recs _ _ _ _ Hr Hg) as [G _].
  split; [apply write_fresh, Fr|]. rewrite write_live_docs, arc_apply, map_app, app_length, arcs_from_app, <- Hm, Ho, G. split; [reflexivity|].
  intro n. rewrite in_app_iff, arcs_of_write, nums_seen, Ho, G. rewrite (Ha n). tauto.
Qed.
Lemma filled_delete (e : es P) : fresh e -> well_filled (delete_arcs e).
Proof. intro H. split; [apply fresh_delete_arcs, H|]. split; [reflexivity|]. intro n. cbn. tauto. Qed.
Lemma filled_empty : well_filled empty_es.
Proof. split; [apply fresh_empty|]. split; [reflexivity|]. intro n. cbn. tauto. Qed.
Lemma sync_filled (cl : client O) name resync (e e' : es P) : well_filled e -> sync parse peq cap cl name resync e = Some e' -> well_filled e'.
Proof.
  intros Hw. unfold sync, sync_plan. rewrite plan_eq. destruct (negb _); [cbn; intro H; injection H as <-; exact Hw|].
  destruct (_ && _); [discriminate|]. destruct (early _ _); [cbn; intro H; injection H as <-; exact Hw|].
  destruct (find_records _ _) as [recs|]; [|discriminate]. destruct (gen_ops _ _ _ _ _) as [[st' ops]|] eqn:Eg; [|discriminate].
  cbn [run_plan]. intro H. injection H as <-. refine (write_filled ops (base_of resync e) _ _ recs st' ops _ Eg eq_refl).
  destruct resync; cbn [base_of]; [apply filled_delete, Hw|exact Hw].
Qed.
Lemma resync_arcs_filled (cl : client O) name (e e' : es P) : well_filled e -> resync_arcs parse peq cap cl name e = Some e' -> well_filled e'.
Proof.
  intros Hw. unfold resync_arcs. destruct (find_records _ _) as [recs|]; [|discriminate]. destruct (gen_ops _ _ _ _ _) as [[st' ops]|] eqn:Eg; [|discriminate].
  intro H. injection H as <-. refine (write_filled _ (delete_arcs e) _ _ recs st' ops _ Eg _); [apply filled_delete, Hw|].
  clear. induction ops as [|o ops IH]; [reflexivity|]. cbn [filter flat_map]. destruct o; cbn [is_arc_op flat_map arc_pair app]; rewrite IH; reflexivity.
Qed.
(** what it means for one arc *)
Lemma filled_arc (e : es P) n : well_filled e ->
  (N.of_nat (length (filter (fun nx => N.eqb (fst nx) n) (arc (vis e)))) <= cap)%N /\
  (forall m, In n (arcs e) -> (m < n)%N -> In m (arcs e) /\ N.of_nat (length (filter (fun nx => N.eqb (fst nx) m) (arc (vis e)))) = cap).
Proof.
  intros ([_ F] & Hm & Ha). set (k := length (arc (live e))) in *.
  assert (C : forall m, N.of_nat (length (filter (fun nx => N.eqb (fst nx) m) (arc (vis e)))) = N.min cap (N.of_nat k - m * cap)%N).
  { intro m. rewrite F, count_at, Hm. fold k. destruct (N.le_gt_cases (N.of_nat k) (m * cap)) as [L|L].
    - rewrite arcs_from_less by lia. cbn. lia.
    - replace (arcs_from 0 k) with (arcs_from 0 (N.to_nat (m * cap) + (k - N.to_nat (m * cap)))) by (f_equal; lia). rewrite arcs_from_app, filter_app, arcs_from_less by lia. cbn [app].
      destruct (N.le_gt_cases (N.of_nat k) ((m + 1) * cap)) as [L2|L2].
      + rewrite (arcs_from_all _ _ m) by lia. rewrite filter_repeat, repeat_length. lia.
      + replace (k - N.to_nat (m * cap))%nat with (N.to_nat cap + (k - N.to_nat ((m + 1) * cap)))%nat by lia. rewrite arcs_from_app, filter_app.
        rewrite (arcs_from_all _ _ m) by lia. rewrite filter_repeat, app_length, repeat_length.
        assert (Z : filter (fun x => N.eqb x m) (arcs_from (0 + N.of_nat (N.to_nat (m * cap)) + N.of_nat (N.to_nat cap)) (k - N.to_nat ((m + 1) * cap))) = []).
        { assert (G : forall j tot, ((m + 1) * cap <= tot)%N -> filter (fun x => N.eqb x m) (arcs_from tot j) = []).
          { induction j as [|j IH]; intros tot Ht; [reflexivity|]. cbn [arcs_from filter]. rewrite IH by lia. destruct (N.eqb_spec (tot / cap) m) as [E|E]; [|reflexivity].
            exfalso. pose proof (N.div_le_mono ((m + 1) * cap) tot cap ltac:(lia) Ht) as Q. rewrite N.div_mul in Q by lia. lia. }
          apply G. lia. }
        rewrite Z. cbn [length]. lia. }
  split; [rewrite C; lia|]. intros m Hn Hmn. apply Ha in Hn. rewrite Hm in Hn. apply In_nth_error in Hn. destruct Hn as (i & Hi). apply arcs_from_nth in Hi. destruct Hi as [Hi En].
  rewrite N.add_0_l in En. assert (B : (n * cap <= N.of_nat i)%N) by (rewrite En, N.mul_comm; apply N.mul_div_le; lia). fold k in Hi.
  assert (B2 : ((m + 1) * cap <= n * cap)%N) by (apply N.mul_le_mono_r; lia). split; [|rewrite C; lia].
  apply Ha. rewrite Hm. apply (nth_error_In _ (N.to_nat (m * cap))). apply arcs_from_nth. fold k. split; [lia|]. rewrite N.add_0_l, N2Nat.id. symmetry. apply N.div_mul. lia.
Qed.
End Arcs.

(** ** Versions and counts *)
Section Versions.
Context {P : Type}.
(** [w] is the start or the end of a document that is visible. *)
Definition indexed_version (e : es P) (w : Z) : Prop := exists d, In d (all_docs (vis e)) /\ (e_ver d = w \/ e_end d = Some w).
(** specification or proof device; models no code of its own *)
Definition starts (e : es P) (v : Z) : list (esdoc P) := filter (fun d => e_ver d =? v) (all_docs (vis e)).
(** specification or proof device; models no code of its own *)
Definition ends (e : es P) (v : Z) : list (esdoc P) := filter (fun d => match e_end d with Some w => w =? v | None => false end) (all_docs (vis e)).
(** specification or proof device; models no code of its own *)
Definition nonzero (n : nat) : option nat := match n with 0%nat => None | _ => Some n end.
Lemma zget_term_counts l v : zget (term_counts l) v = nonzero (length (filter (Z.eqb v) l)).
Proof.
  unfold term_counts. assert (G : forall s, zget (map (fun v => (v, length (filter (Z.eqb v) l))) s) v = if in_dec Z.eq_dec v s then Some (length (filter (Z.eqb v) l)) else None).
  { induction s as [|x s IH]; [reflexivity|]. cbn [map zget]. rewrite IH. destruct (Z.eqb_spec v x) as [<-|N].
    - destruct (in_dec Z.eq_dec v (v :: s)) as [_|K]; [reflexivity|exfalso; apply K; left; reflexivity].
    - destruct (in_dec Z.eq_dec v s) as [K|K], (in_dec Z.eq_dec v (x :: s)) as [K'|K']; auto; exfalso; [apply K'; right; exact K|destruct K' as [E|E]; auto]. }
  rewrite G. assert (Hin : In v (zsorted_set l) <-> In v l) by apply zsorted_set_In. destruct (in_dec Z.eq_dec v (zsorted_set l)) as [K|K].
  - apply Hin in K. destruct (filter (Z.eqb v) l) as [|x t] eqn:E; [|reflexivity]. exfalso.
    assert (Q : In v (filter (Z.eqb v) l)) by (apply filter_In; split; [exact K|apply Z.eqb_refl]). rewrite E in Q. contradiction.
  - destruct (filter (Z.eqb v) l) as [|x t] eqn:E; [reflexivity|]. exfalso. apply K, Hin.
    assert (Q : In x (filter (Z.eqb v) l)) by (rewrite E; left; reflexivity). apply filter_In in Q. destruct Q as [Q1 Q2]. apply Z.eqb_eq in Q2. subst x. exact Q1.
Qed.

Lemma zget_zset {V} (m : list (Z * V)) k x v : zget (zset m k x) v = if Z.eqb v k then Some x else zget m v.
Proof.
  induction m as [|[j y] m IH]; cbn [zset zget]; [reflexivity|]. destruct (Z.eqb_spec k j) as [->|N]; cbn [zget].
  - destruct (v =? j); reflexivity.
  - rewrite IH. destruct (Z.eqb_spec v j) as [->|]; [|reflexivity]. destruct (Z.eqb_spec j k); [congruence|reflexivity].
Qed.
Lemma zget_None {V} (m : list (Z * V)) v : ~ In v (zkeys m) -> zget m v = None.
Proof. induction m as [|[j y] m IH]; intro H; [reflexivity|]. cbn [zget]. destruct (Z.eqb_spec v j) as [->|]; [exfalso; apply H; left; reflexivity|]. apply IH. intro K. apply H. right. exact K. Qed.
Lemma zget_update {V} (l : list (Z * V)) : forall m v, NoDup (zkeys l) ->
  zget (fold_left (fun m kv => zset m (fst kv) (snd kv)) l m) v = match zget l v with Some x => Some x | None => zget m v end.
Proof.
  induction l as [|[k x] l IH]; intros m v Hn; [reflexivity|]. cbn [fold_left fst snd zget]. inversion Hn as [|? ? N1 N2]; subst. rewrite IH by exact N2. rewrite zget_zset.
  destruct (Z.eqb_spec v k) as [->|]; [|reflexivity]. rewrite zget_None by exact N1. reflexivity.
Qed.
Lemma sorted_nodup l : StronglySorted Z.lt l -> NoDup l.
Proof. induction 1 as [|x l _ IH Hx]; constructor; [|exact IH]. intro K. rewrite Forall_forall in Hx. specialize (Hx x K). lia. Qed.
Lemma term_counts_keys l : zkeys (term_counts l) = zsorted_set l.
Proof. unfold term_counts, zkeys. rewrite map_map. apply map_id. Qed.
Lemma changed_counts_spec (e : es P) v : zget (changed_counts e) v =
  match length (ends e v) with 0%nat => nonzero (length (starts e v)) | n => Some n end.
Proof.
  unfold changed_counts. rewrite zget_update by (rewrite term_counts_keys; apply sorted_nodup, zsorted_set_sorted). rewrite !zget_term_counts.
  assert (E1 : length (filter (Z.eqb v) (somes (map e_end (all_docs (vis e))))) = length (ends e v)).
  { unfold ends, somes. induction (all_docs (vis e)) as [|d l IH]; [reflexivity|]. cbn [map flat_map filter]. destruct (e_end d) as [w|]; [|exact IH]. cbn [app filter].
    rewrite (Z.eqb_sym v w). destruct (w =? v); cbn [length]; rewrite IH; reflexivity. }
  assert (E2 : length (filter (Z.eqb v) (map e_ver (all_docs (vis e)))) = length (starts e v)).
  { clear E1. unfold starts. induction (all_docs (vis e)) as [|d l IH]; [reflexivity|]. cbn [map filter]. rewrite (Z.eqb_sym v (e_ver d)). destruct (e_ver d =? v); cbn [length]; rewrite IH; reflexivity. }
  rewrite E1, E2. destruct (length (ends e v)); reflexivity.
Qed.
Lemma zget_Some_key {V} (m : list (Z * V)) v : In v (zkeys m) <-> zget m v <> None.
Proof.
  split; [|intros H; destruct (in_dec Z.eq_dec v (zkeys m)) as [K|K]; [exact K|exfalso; apply H, zget_None, K]].
  induction m as [|[j y] m IH]; [intros []|]. cbn [zget]. destruct (Z.eqb_spec v j) as [->|N]; [discriminate|]. intros [K|K]; [cbn in K; congruence|apply IH, K].
Qed.
Lemma get_versions_In (e : es P) w : In w (get_versions e) <-> indexed_version e w.
Proof.
  unfold get_versions. rewrite zsorted_set_In, zget_Some_key, changed_counts_spec. unfold indexed_version.
  assert (En : (exists d, In d (all_docs (vis e)) /\ e_end d = Some w) <-> ends e w <> []).
  { unfold ends. split.
    - intros (d & H1 & H2) K. assert (Q : In d []) by (rewrite <- K; apply filter_In; rewrite H2, Z.eqb_refl; auto). exact Q.
    - intro K. destruct (filter _ (all_docs (vis e))) as [|d l] eqn:E in K; [congruence|]. exists d. assert (Q : In d (d :: l)) by (left; reflexivity). rewrite <- E in Q. apply filter_In in Q.
      destruct Q as [Q1 Q2]. split; [exact Q1|]. destruct (e_end d) as [x|]; [|discriminate]. apply Z.eqb_eq in Q2. congruence. }
  assert (Es : (exists d, In d (all_docs (vis e)) /\ e_ver d = w) <-> starts e w <> []).
  { unfold starts. split.
    - intros (d & H1 & H2) K. assert (Q : In d []) by (rewrite <- K; apply filter_In; rewrite H2, Z.eqb_refl; auto). exact Q.
    - intro K. destruct (filter _ (all_docs (vis e))) as [|d l] eqn:E in K; [congruence|]. exists d. assert (Q : In d (d :: l)) by (left; reflexivity). rewrite <- E in Q. apply filter_In in Q.
      destruct Q as [Q1 Q2]. split; [exact Q1|]. apply Z.eqb_eq in Q2. exact Q2. }
  destruct (ends e w) as [|d1 l1]; cbn [length].
  - destruct (starts e w) as [|d2 l2]; cbn [length nonzero].
    + split; [congruence|]. intros (d & H1 & [H2|H2]); exfalso; [apply (proj1 Es); [exists d; auto|reflexivity]|apply (proj1 En); [exists d; auto|reflexivity]].
    + split; [|discriminate]. intros _. destruct (proj2 Es) as (d & H1 & H2); [discriminate|]. exists d. auto.
  - split; [|discriminate]. intros _. destruct (proj2 En) as (d & H1 & H2); [discriminate|]. exists d. auto.
Qed.
Lemma sorted_le_split l v : StronglySorted Z.lt l -> l = filter (fun x => x <=? v) l ++ filter (fun x => negb (x <=? v)) l.
Proof.
  induction 1 as [|x l Hs IH Hx]; [reflexivity|]. cbn [filter]. destruct (Z.leb_spec x v) as [L|L]; cbn [negb app]; [f_equal; exact IH|].
  rewrite Forall_forall in Hx. assert (E : forall y, In y l -> (y <=? v) = false) by (intros y Hy; specialize (Hx y Hy); lia).
  rewrite (filter_ext_in (fun x => x <=? v) (fun _ => false)) by exact E. rewrite filter_false. cbn [app]. f_equal.
  rewrite (filter_ext_in (fun x => negb (x <=? v)) (fun _ => true)) by (intros y Hy; rewrite E by exact Hy; reflexivity). symmetry. clear. induction l as [|y l IH]; [reflexivity|]. cbn. f_equal. exact IH.
Qed.
Lemma sorted_last_max l : StronglySorted Z.lt l -> forall x, In x l -> exists r, nth_error l (length l - 1) = Some r /\ In r l /\ forall y, In y l -> y <= r.
Proof.
  induction 1 as [|x l Hs IH Hx]; [intros ? []|]. intros _ _. destruct l as [|y l]; [exists x; split; [reflexivity|]; split; [left; reflexivity|intros y [<-|[]]; lia]|].
  destruct (IH y (or_introl eq_refl)) as (r & R1 & R2 & R3). exists r. cbn [length] in *. replace (S (S (length l)) - 1)%nat with (S (S (length l) - 1)) by lia. cbn [nth_error].
  split; [exact R1|]. split; [right; exact R2|]. intros z [<-|Hz]; [|apply R3, Hz]. rewrite Forall_forall in Hx. specialize (Hx r R2). lia.
Qed.
Lemma rounded_spec (e : es P) v : match get_rounded_version e v with
  | Some r => indexed_version e r /\ r <= v /\ forall w, indexed_version e w -> w <= v -> w <= r
  | None => forall w, indexed_version e w -> v < w
  end.
Proof.
  unfold get_rounded_version. pose proof (zsorted_set_sorted (zkeys (changed_counts e))) as Hs. fold (get_versions e) in Hs.
  assert (Hin : forall w, In w (get_versions e) <-> indexed_version e w) by (intro; apply get_versions_In).
  destruct (get_versions e) as [|x l] eqn:El; [intros w Hw; apply Hin in Hw; contradiction|].
  destruct (Z.ltb_spec v x) as [L|L].
  - intros w Hw. apply Hin in Hw. inversion Hs as [|? ? _ Hx]; subst. destruct Hw as [<-|Hw]; [exact L|]. rewrite Forall_forall in Hx. specialize (Hx w Hw). lia.
  - rewrite <- El in *. set (f := filter (fun x => x <=? v) (get_versions e)).
    assert (Hf : StronglySorted Z.lt f) by (apply filter_sorted, Hs).
    assert (Hx : In x f) by (apply filter_In; split; [rewrite El; left; reflexivity|apply Z.leb_le, L]).
    destruct (sorted_last_max f Hf x Hx) as (r & R1 & R2 & R3). unfold bisect_right. fold f.
    assert (E : nth_error (get_versions e) (length f - 1) = Some r).
    { rewrite (sorted_le_split (get_versions e) v Hs). fold f. rewrite nth_error_app1; [exact R1|]. destruct f; [contradiction|cbn [length]; lia]. }
    rewrite E. apply filter_In in R2. destruct R2 as [R2 R4]. apply Z.leb_le in R4. split; [apply Hin, R2|]. split; [exact R4|].
    intros w Hw Hwv. apply R3. apply filter_In. split; [apply Hin, Hw|apply Z.leb_le, Hwv].
Qed.
Lemma rounded_search (e : es P) v r : get_rounded_version e v = Some r -> search_at e r = search_at e v.
Proof.
  intro H. pose proof (rounded_spec e v) as S. rewrite H in S. destruct S as (S1 & S2 & S3). unfold search_at.
  assert (F : filter (version_query r) (all_docs (vis e)) = filter (version_query v) (all_docs (vis e))).
  { apply filter_ext_in. intros d Hd. unfold version_query.
    assert (A : (e_ver d <=? r) = (e_ver d <=? v)).
    { destruct (Z.leb_spec (e_ver d) v) as [L|L]; [apply Z.leb_le, S3; [exists d; auto|exact L]|apply Z.leb_gt; lia]. }
    rewrite A. f_equal. destruct (e_end d) as [w|] eqn:Ew; [|reflexivity]. destruct (Z.ltb_spec v w) as [L|L]; [apply Z.ltb_lt; lia|].
    apply Z.ltb_ge. apply S3; [exists d; auto|exact L]. }
  rewrite F. destruct (es_version e) as [c|] eqn:Ec; [|reflexivity]. apply es_version_spec in Ec. destruct Ec as [Ec1 Ec2].
  assert (A : (c <=? r) = (c <=? v)); [|rewrite A; reflexivity].
  destruct (Z.leb_spec c v) as [L|L]; [apply Z.leb_le, S3; [exact Ec1|exact L]|apply Z.leb_gt; lia].
Qed.
Lemma rounded_none (e : es P) v : get_rounded_version e v = None -> search_at e v = Some [].
Proof.
  intro H. pose proof (rounded_spec e v) as S. rewrite H in S. unfold search_at.
  assert (F : filter (version_query v) (all_docs (vis e)) = []).
  { rewrite (filter_ext_in (version_query v) (fun _ => false)); [apply filter_false|]. intros d Hd. unfold version_query. specialize (S (e_ver d) ltac:(exists d; auto)).
    apply andb_false_intro1. apply Z.leb_gt. exact S. }
  rewrite F. destruct (es_version e) as [c|] eqn:Ec; [|reflexivity]. apply es_version_spec in Ec. specialize (S c (proj1 Ec)). destruct (Z.leb_spec c v); [lia|reflexivity].
Qed.
End Versions.
