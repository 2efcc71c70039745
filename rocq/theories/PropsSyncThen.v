(** Property C47, second half: what the sync after [resync_arcs] does, exactly. *)
From Coq Require Import String Ascii.
From Coq Require Import List ZArith NArith Bool Lia Sorted Permutation.
From Verif Require Import PyVal Diff DiffProofs Prepare Mongo Store MongoProofs MongoStore MongoMore PropsMongo Client ClientProofs.
From Verif Require Import Index IndexSpec IndexProofs PropsIndex Sync SyncSpec SyncProofs SyncBuild SyncColl SyncTrace SyncView SyncMore SyncArcs SyncEvents SyncReach SyncThen PropsSync PropsSyncRefuted PropsSyncMore PropsSyncMoreRefuted.
Import ListNotations.
Open Scope string_scope.
Open Scope list_scope.
Open Scope Z_scope.

(** ** Specification *)
(** The document begins after every version that begins or ends in a document that a search can see. *)
Definition begins_after {P} (e : es P) (d : esdoc P) : Prop :=
  forall x, In x (all_docs (vis e)) -> e_ver x < e_ver d /\ forall w, e_end x = Some w -> w < e_ver d.

Section Props.
Context {O P : Type} (oeq : O -> O -> bool) (odef : O).
Context (R : value -> value -> Prop) (good : dict -> Prop) (parse : dict -> O -> P) (peq : P -> P -> bool) (E : P -> P -> Prop).
Variable cap : N.
Variable name : pystr.
Notation happens := (happens oeq odef parse peq good cap name).
Notation sync := (sync parse peq cap).
Notation resync_arcs := (resync_arcs parse peq cap).
Notation state calls := (a_run a_empty (proj name calls)).
Implicit Types fails : Prop.
Hypothesis PL : pipeline R good parse peq E.

Lemma gt_after_begins (e : es P) d : gt_after (es_version e) (e_ver d) = true <-> begins_after e d.
Proof.
  unfold begins_after. destruct (es_version e) as [m|] eqn:Em; cbn [gt_after].
  - apply es_version_spec in Em. destruct Em as [(x & Hx & Hm) Hb]. rewrite Z.ltb_lt. split.
    + intros L y Hy. destruct (Hb y Hy) as [B1 B2]. split; [lia|]. intros w Hw. specialize (B2 w Hw). lia.
    + intro K. destruct (K x Hx) as [K1 K2]. destruct Hm as [<-|Hm]; [exact K1|exact (K2 _ Hm)].
  - split; [|reflexivity]. intros _ x Hx. exfalso. pose proof (vis_bound e x Hx) as V. rewrite Em in V. discriminate.
Qed.
Lemma happens_newest fails t calls cl e : happens fails t calls cl e ->
  forall d v h k, In d (data cl name) -> d_ver d = Some v -> rec_hist d = Some h -> In k (zkeys h) -> k <= v.
Proof.
  intros H d v h k Hd Hv Hh Hk. pose proof (happens_shows oeq odef R good parse peq E cap name PL _ _ _ _ _ H (d_id d)) as S.
  pose proof (docs_of_In _ _ Hd) as K. destruct (docs_of (d_id d) (data cl name)) as [|x [|y l]]; [contradiction| |contradiction].
  destruct K as [->|[]]. rewrite Hv in S. destruct S as (h' & Hh' & F & _ & N). rewrite Hh in Hh'. injection Hh' as <-.
  apply N. rewrite <- (hrel_keys _ _ _ F). exact Hk.
Qed.

(** ** C47 *)
(** After any events, failed ones included: once [resync_arcs] has run, the next sync succeeds and adds
    nothing to the arcs. A record's document in latest becomes the one a sync from scratch would put there
    if that one begins after everything to be seen in the indices; otherwise it stays what it was before
    [resync_arcs]. *)
Theorem C47_then_sync_exact : forall fails t calls cl e e1, happens fails t calls cl e -> resync_arcs cl name e = Some e1 ->
  exists e0 e2, sync cl name false empty_es = Some e0 /\ sync cl name false e1 = Some e2 /\
    arc (live e2) = arc (live e0) /\ (lat (vis e) = lat (live e) -> lat (vis e2) = lat (live e2)) /\
    forall id,
      (forall d, In d (lat_of id (live e0)) -> begins_after e1 d -> lat_of id (live e2) = [d] /\ lat_of id (live e0) = [d]) /\
      ((forall d, In d (lat_of id (live e0)) -> ~ begins_after e1 d) -> lat_of id (live e2) = lat_of id (live e)).
Proof.
  intros fails t calls cl e e1 H Ha.
  destruct (then_sync parse peq cap oeq odef cl name e e1 (happens_nodup oeq odef R good parse peq E cap name PL _ _ _ _ _ H) (happens_newest _ _ _ _ _ H) Ha) as (e0 & e2 & S0 & S2 & A & V & L).
  destruct (C47_resync_arcs parse peq cap name cl e e1 Ha) as (_ & _ & _ & e0' & S0' & A0 & _). rewrite S0 in S0'. injection S0' as <-.
  exists e0, e2. split; [exact S0|]. split; [exact S2|]. split; [rewrite A; exact A0|]. split; [exact V|]. intro id. destruct (L id) as [Hl ->].
  destruct (lat_of id (live e0)) as [|d [|d2 l]]; [|  |cbn in Hl; lia].
  - split; [intros d []|reflexivity].
  - cbn [filter]. split.
    + intros x [->|[]] Hb. rewrite (proj2 (gt_after_begins e1 x) Hb). auto.
    + intro K. destruct (gt_after (es_version e1) (e_ver d)) eqn:Eg; [|reflexivity]. exfalso. exact (K d (or_introl eq_refl) (proj1 (gt_after_begins e1 d) Eg)).
Qed.
(** So the sync after [resync_arcs] completes latest exactly when every record's document there was right
    before, or begins after everything to be seen in the indices. *)
Theorem C47_then_sync_exactly : forall fails t calls cl e e1, happens fails t calls cl e -> resync_arcs cl name e = Some e1 ->
  exists e0 e2, sync cl name false empty_es = Some e0 /\ sync cl name false e1 = Some e2 /\
    ((forall id, lat_of id (live e2) = lat_of id (live e0)) <->
     (forall id, lat_of id (live e) = lat_of id (live e0) \/ exists d, lat_of id (live e0) = [d] /\ begins_after e1 d)).
Proof.
  intros fails t calls cl e e1 H Ha. destruct (C47_then_sync_exact _ _ _ _ _ _ H Ha) as (e0 & e2 & S0 & S2 & _ & _ & L).
  exists e0, e2. split; [exact S0|]. split; [exact S2|]. split; intros K id; specialize (K id); destruct (L id) as [L1 L2].
  - destruct (lat_of id (live e0)) as [|d l] eqn:E0; [left; rewrite <- K; symmetry; apply L2; intros d []|].
    destruct (gt_after (es_version e1) (e_ver d)) eqn:Eg.
    + apply gt_after_begins in Eg. right. exists d. split; [|exact Eg]. apply (L1 d (or_introl eq_refl) Eg).
    + left. rewrite <- K. symmetry. apply L2. intros x Hx Hb. assert (x = d). { destruct (L1 x Hx Hb) as [_ Q]. injection Q as -> ->. reflexivity. } subst x.
      rewrite (proj2 (gt_after_begins e1 d) Hb) in Eg. discriminate.
  - destruct K as [K|(d & K & Hb)]; [|rewrite K in L1 |- *; apply (L1 d (or_introl eq_refl) Hb)].
    destruct (lat_of id (live e0)) as [|d l] eqn:E0; [rewrite <- K; apply L2; intros d []|].
    destruct (gt_after (es_version e1) (e_ver d)) eqn:Eg.
    + apply gt_after_begins in Eg. destruct (L1 d (or_introl eq_refl) Eg) as [-> ->]. reflexivity.
    + rewrite <- K. apply L2. intros x Hx Hb. assert (x = d). { destruct (L1 x Hx Hb) as [_ Q]. injection Q as -> ->. reflexivity. } subst x.
      rewrite (proj2 (gt_after_begins e1 d) Hb) in Eg. discriminate.
Qed.
End Props.

(** ** Example *)
(** Not synced: r1 changed and r3 added at 20, r4 added at 30. After [resync_arcs] the next sync adds r4,
    leaves r1 at its version of 10, and never adds r3. *)
Definition ex_then : list hevent :=
  [ hput [("r1", X 1); ("r2", X 2)]; hcommit 10; HSync false; hput [("r1", X 3); ("r3", X 5)]; hcommit 20; hput [("r4", X 4)]; hcommit 30 ].
Example C47_then_example : exists t calls cl e e1 e0 e2, toy_happens 2000000%N False t calls cl e /\
  resync_arcs toy_parse toy_eq 2000000 cl db e = Some e1 /\ toy_sync cl db false empty_es = Some e0 /\ toy_sync cl db false e1 = Some e2 /\
  lat_view e = [(lit "r1", 10); (lit "r2", 10)] /\ lat_view e0 = [(lit "r1", 20); (lit "r2", 10); (lit "r3", 20); (lit "r4", 30)] /\
  lat_view e2 = [(lit "r1", 10); (lit "r2", 10); (lit "r4", 30)] /\ arc_view e1 = [(0%N, (10, Some 20))] /\
  exists d, lat_of (lit "r4") (live e0) = [d] /\ begins_after e1 d.
Proof.
  destruct (run_h 2000000 hstart ex_then) as [[[[t calls] cl] e]|] eqn:E; [|vm_compute in E; discriminate].
  pose proof (run_h_happens 2000000 False ex_then ltac:(vm_compute; discriminate) hstart _ (h_start _ _ _ _ _ _ _ _) E) as H. cbn [happens_sys] in H.
  exists t, calls, cl, e. vm_compute in E. injection E as <- <- <- <-. do 3 eexists.
  split; [exact H|]. split; [vm_compute; reflexivity|]. split; [vm_compute; reflexivity|]. split; [vm_compute; reflexivity|].
  split; [vm_compute; reflexivity|]. split; [vm_compute; reflexivity|]. split; [vm_compute; reflexivity|]. split; [vm_compute; reflexivity|].
  eexists. split; [vm_compute; reflexivity|]. apply gt_after_begins. vm_compute. reflexivity.
Qed.
Print Assumptions C47_then_sync_exact.
Print Assumptions C47_then_sync_exactly.
