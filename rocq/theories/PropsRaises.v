(** Property C95: a record that cannot be parsed. *)
From Coq Require Import String Ascii.
From Coq Require Import List ZArith NArith Bool Lia Sorted Permutation.
From Verif Require Import PyVal Diff DiffProofs Prepare Mongo Store MongoProofs MongoStore MongoMore Client ClientProofs.
From Verif Require Import Index IndexSpec IndexProofs PropsIndex Sync SyncSpec SyncProofs SyncBuild SyncColl SyncTrace SyncView SyncMore SyncReach SyncEvents SyncStale SyncLocal PropsSync PropsSyncMore Raises.
From Verif Require Import PropsPrepare Parser ParserSim ParserTypes ParserEq PropsParser PropsTotal Options EndToEnd PropsEndToEnd.
Import ListNotations.
Open Scope string_scope.
Open Scope list_scope.
Open Scope Z_scope.

(** ** Specification *)
Section Spec.
Context {O P : Type} (oeq : O -> O -> bool) (odef : O) (parse : dict -> O -> option P) (good : dict -> Prop).
Variable name : pystr.
(** Calls on the client after [calls]; commits read increasing times. *)
Inductive after (t : Z) (calls : list (call O)) (cl : client O) : Z -> list (call O) -> client O -> Prop :=
| a_now : after t calls cl t calls cl
| a_call t' calls' cl' c cl'' : after t calls cl t' calls' cl' -> (forall m v, c <> CCommit m v) -> Forall (step_ok good) (proj_call name c) ->
    do_call oeq odef cl' c = Some cl'' -> after t calls cl t' (calls' ++ [c]) cl''
| a_committed t' calls' cl' m v : after t calls cl t' calls' cl' -> t' < v -> after t calls cl v (calls' ++ [CCommit m v]) (fst (commit oeq odef cl' m v)).
Definition history : Z -> list (call O) -> client O -> Prop := after 0 [] empty_client.
(** Some version of the data, with the options that are used for it at some moment, cannot be parsed. *)
Definition unparsable (h : list (Z * dict)) (om : list (Z * O)) : Prop := exists fd t x o,
  In fd (map fst h) /\ (forall k, In k (map fst h) -> fd <= k) /\ in_force h t x /\ x <> [] /\ options_used om fd t o /\ parse x o = None.
(** The records that a sync considers: those with a newest version [v] that is not indexed yet, all of them if there are new options or none are. *)
Definition considered (resync : bool) (e : es P) (om : list (Z * O)) (v : Z) : Prop :=
  resync = true \/ match es_version e with None => True | Some s => s < v \/ exists k, In k (map fst om) /\ s < k end.
Definition settled_record (A : astate) (id : pystr) : Prop := forall h p, A id <> Some (AR h (Some p)).
End Spec.

Section Props.
Context {O P : Type} (oeq : O -> O -> bool) (odef : O) (parse : dict -> O -> option P) (peq : P -> P -> bool).
Context (R : value -> value -> Prop) (good : dict -> Prop).
Variable cap : N.
Variable name : pystr.
Notation state calls := (a_run a_empty (proj name calls)).
Notation unparsable := (unparsable parse).
Notation sync_run := (sync_run parse peq cap).
Notation arcs_run := (arcs_run parse peq cap).
Notation build_r := (build_r parse peq).
Notation history := (history oeq odef good name).
Notation after := (after oeq odef good name).
Definition raises (cl : client O) (resync : bool) (e : es P) : Prop := (exists e', sync_run cl name resync e true e') /\ forall e', ~ sync_run cl name resync e false e'.

(** ** Building one record *)
Definition popt (a b : option P) : bool := match a, b with Some x, Some y => peq x y | _, _ => false end.
Definition inj (r : rv P) : rv (option P) := RV (rv_ver r) (Some (rv_parsed r)) (rv_del r).
Definition hole (acc : list (rv (option P))) : Prop := exists r, In r acc /\ rv_parsed r = None.
Definition st_rel (a : option (dict * O * list (rv P))) (b : option (dict * O * list (rv (option P)))) : Prop :=
  match a, b with
  | Some (d, o, acc), Some (d', o', acc') => d = d' /\ o = o' /\ acc' = map inj acc
  | None, Some (_, _, acc') => hole acc'
  | None, None => True
  | Some _, None => False
  end.
Lemma step_rel fd dm om a b v : st_rel a b -> st_rel (build_step_r parse peq fd dm om a v) (build_step parse popt fd dm om b v).
Proof.
  unfold build_step_r, build_step. destruct a as [[[d o] acc]|], b as [[[d' o'] acc']|]; cbn [st_rel]; [|contradiction| |exact (fun x => x)].
  - intros (<- & <- & ->). destruct (v <? fd)%Z; [cbn; auto|]. cbn zeta. destruct (match zget dm v with Some x => x | None => d end) as [|kv x].
    + destruct acc as [|r acc]; [exact I|]. cbn [map]. destruct r as [rv rp [rd|]]; cbn; auto.
    + destruct (parse _ _) as [p|] eqn:Ep.
      * cbn [st_rel]. split; [reflexivity|]. split; [reflexivity|]. destruct acc as [|r acc]; [reflexivity|]. cbn [map]. unfold rv_eqb. cbn [rv_del rv_parsed inj popt]. destruct (rv_del r); [reflexivity|]. destruct (peq (rv_parsed r) p); reflexivity.
      * destruct acc as [|r acc]; cbn [map]; [eexists; split; [left; reflexivity|reflexivity]|]. unfold rv_eqb. cbn [rv_del rv_parsed inj popt]. destruct (rv_del r); (eexists; split; [left; reflexivity|reflexivity]).
  - intros (r & Hr & E). destruct (v <? fd)%Z; [exists r; auto|]. cbn zeta. destruct (match zget dm v with Some x => x | None => d' end) as [|kv x].
    + destruct acc' as [|r0 acc']; [destruct Hr|]. destruct (rv_del r0) eqn:Ed; [exists r; auto|]. destruct Hr as [<-|Hr]; [eexists; split; [left; reflexivity|exact E]|exists r; split; [right; exact Hr|exact E]].
    + destruct acc' as [|r0 acc']; [destruct Hr|]. destruct (rv_eqb _ _ _); [exists r; auto|exists r; split; [right; exact Hr|exact E]].
Qed.
Lemma fold_rel fd dm om vs : forall a b, st_rel a b -> st_rel (fold_left (build_step_r parse peq fd dm om) vs a) (fold_left (build_step parse popt fd dm om) vs b).
Proof. induction vs as [|v vs IH]; intros a b H; [exact H|]. cbn [fold_left]. apply IH, step_rel, H. Qed.
Lemma build_rel dm om : match build parse popt dm om with
  | None => build_r dm om = None
  | Some rvs => (build_r dm om = None /\ hole rvs) \/ exists l, build_r dm om = Some l /\ rvs = map inj l
  end.
Proof.
  unfold build, Raises.build_r. destruct (zmin_key dm) as [fd|]; [|reflexivity]. destruct (zmin_key om) as [fo|]; [|reflexivity]. destruct (zget dm fd) as [d|]; [|reflexivity]. destruct (zget om fo) as [o|]; [|reflexivity].
  pose proof (fold_rel fd dm om (zsorted_set (zkeys om ++ zkeys dm)) (Some (d, o, [])) (Some (d, o, [])) ltac:(cbn; auto)) as H.
  destruct (fold_left (build_step_r _ _ _ _ _) _ _) as [[[d1 o1] acc]|]; destruct (fold_left (build_step _ _ _ _ _) _ _) as [[[d2 o2] acc']|]; cbn [st_rel] in H; [|contradiction| |reflexivity].
  - destruct H as (_ & _ & ->). right. exists (rev acc). rewrite map_rev. auto.
  - left. split; [reflexivity|]. destruct H as (r & Hr & E). exists r. split; [apply in_rev; rewrite rev_involutive; exact Hr|exact E].
Qed.
Lemma in_force_or {V} (m : list (Z * V)) t : none_yet m t \/ exists x, in_force m t x.
Proof.
  induction m as [|[v y] m IH]; [left; intros v x []|]. destruct (Z.leb_spec v t) as [L|L].
  - right. destruct IH as [N|(x & w & Hw & Lw & Mw)].
    + exists y, v. split; [left; reflexivity|]. split; [exact L|]. intros w z [E|Hw] Hle; [injection E as <- _; lia|]. specialize (N w z Hw). lia.
    + destruct (Z.leb_spec w v) as [K|K].
      * exists y, v. split; [left; reflexivity|]. split; [exact L|]. intros u z [E|Hu] Hle; [injection E as <- _; lia|]. specialize (Mw u z Hu Hle). lia.
      * exists x, w. split; [right; exact Hw|]. split; [exact Lw|]. intros u z [E|Hu] Hle; [injection E as <- _; lia|exact (Mw u z Hu Hle)].
  - destruct IH as [N|(x & w & Hw & Lw & Mw)].
    + left. intros w z [E|Hw]; [injection E as <- _; lia|exact (N w z Hw)].
    + right. exists x, w. split; [right; exact Hw|]. split; [exact Lw|]. intros u z [E|Hu] Hle; [injection E as <- _; lia|exact (Mw u z Hu Hle)].
Qed.
Lemma earliest_some {V} (m : list (Z * V)) : m <> [] -> exists x, earliest m x.
Proof.
  induction m as [|[v y] m IH]; [contradiction|]. intros _. destruct m as [|kv m]; [exists y, v; split; [left; reflexivity|]; intros w z [E|[]]; injection E as <- _; lia|].
  destruct (IH ltac:(discriminate)) as (x & w & Hw & Mw). destruct (Z.leb_spec v w) as [K|K].
  - exists y, v. split; [left; reflexivity|]. intros u z [E|Hu]; [injection E as <- _; lia|]. specialize (Mw u z Hu). lia.
  - exists x, w. split; [right; exact Hw|]. intros u z [E|Hu]; [injection E as <- _; lia|exact (Mw u z Hu)].
Qed.
Lemma options_used_some (om : list (Z * O)) fd t : om <> [] -> exists o, options_used om fd t o.
Proof.
  intro H. unfold options_used. destruct (in_force_or (filter (fun kv => fd <=? fst kv) om) t) as [N|(o & F)]; [|exists o; left; exact F].
  destruct (earliest_some om H) as (o & E). exists o. right. split; assumption.
Qed.
Lemma first_key (h : list (Z * dict)) fd : In fd (map fst h) -> (forall k, In k (map fst h) -> fd <= k) -> zmin_key h = Some fd.
Proof.
  intros H1 H2. destruct (zmin_key h) as [k|] eqn:E; [|apply zmin_key_None in E; subst h; destruct H1]. destruct (zmin_key_spec h k E) as [K1 K2]. f_equal. pose proof (H2 k K1). pose proof (K2 fd H1). lia.
Qed.
(** [build] raises exactly if the record is unparsable. *)
Theorem build_raises : forall h om, hist_ok h -> om <> [] -> NoDup (map fst om) -> (build_r h om = None <-> unparsable h om).
Proof.
  intros h om Hh Ho Hn. pose proof (build_rel h om) as B. destruct (C23_documents_cover_life parse popt h om [] Hh Ho) as (rvs & E & C1 & C2 & C3). rewrite E in B.
  destruct (hist_ok_first h Hh) as (fd & d0 & Efd & _). destruct (zmin_key_spec h fd Efd) as [F1 F2]. unfold zkeys in F1, F2.
  assert (D : forall d, In d (rv_docs [] rvs) -> exists r, In r rvs /\ e_parsed d = rv_parsed r).
  { intros d Hd. apply In_nth_error in Hd. destruct Hd as (i & Hi). apply rv_docs_nth in Hi. destruct Hi as (r & Hr & ->). exists r. split; [exact (nth_error_In _ _ Hr)|reflexivity]. }
  assert (D' : forall r, In r rvs -> exists d, In d (rv_docs [] rvs) /\ e_parsed d = rv_parsed r).
  { intros r Hr. apply In_nth_error in Hr. destruct Hr as (i & Hi). apply (rv_docs_nth' []) in Hi. eexists. split; [exact (nth_error_In _ _ Hi)|reflexivity]. }
  split.
  - intro HN. destruct B as [[_ (r & Hr & Er)]|(l & K & _)]; [|congruence]. destruct (D' r Hr) as (d & Hd & Ep). rewrite Er in Ep.
    destruct (C3 d Hd) as [_ Hend]. assert (Cv : covers d (e_ver d)) by (split; [lia|destruct (e_end d); [exact Hend|exact I]]).
    destruct (proj1 (C2 (e_ver d)) (ex_intro _ d (conj Hd Cv))) as (x & Fx & Hx). destruct (options_used_some om fd (e_ver d) Ho) as (o & Uo).
    exists fd, (e_ver d), x, o. repeat (split; [assumption|]).
    destruct (C24_options_used_exact parse popt h om [] rvs fd d (e_ver d) x o Hh Hn E Efd Hd Cv Fx Uo) as [K|K]; rewrite Ep in K; [congruence|discriminate].
  - intros (fd' & t & x & o & G1 & G2 & Fx & Hx & Uo & Np). assert (fd' = fd) by (pose proof (G2 fd F1); pose proof (F2 fd' G1); lia). subst fd'.
    destruct (proj2 (C2 t) (ex_intro _ x (conj Fx Hx))) as (d & Hd & Cv). destruct (D d Hd) as (r & Hr & Ep).
    assert (N : e_parsed d = None).
    { destruct (C24_options_used_exact parse popt h om [] rvs fd d t x o Hh Hn E Efd Hd Cv Fx Uo) as [K|K]; rewrite Np in K; [exact K|]. destruct (e_parsed d); discriminate. }
    destruct B as [[B _]|(l & _ & ->)]; [exact B|]. apply in_map_iff in Hr. destruct Hr as (r' & <- & _). cbn [inj rv_parsed] in Ep. congruence.
Qed.

(** ** The sync *)
Definition not_built (om : list (Z * O)) (d : doc) : Prop := match rec_hist d with None => True | Some h => build_r h om = None end.
Lemma gen_raises aft om ds : forall st, snd (gen_until parse peq cap aft om st ds) = true <-> exists d, In d ds /\ not_built om d.
Proof.
  unfold not_built. induction ds as [|d ds IH]; intro st; cbn [gen_until]; [split; [discriminate|intros (d & [] & _)]|].
  destruct (rec_hist d) as [h|] eqn:Eh; [|split; [intros _; exists d; rewrite Eh; split; [left; reflexivity|exact I]|reflexivity]].
  destruct (build_r h om) as [rvs|] eqn:Eb; [|split; [intros _; exists d; rewrite Eh; split; [left; reflexivity|exact Eb]|reflexivity]].
  destruct (gen_rvs cap aft (d_id d) st rvs) as [st1 ops1]. specialize (IH st1). destruct (gen_until _ _ _ _ _ st1 ds) as [ops2 r]. cbn [snd] in *. rewrite IH. split.
  - intros (x & Hx & K). exists x. split; [right; exact Hx|exact K].
  - intros (x & [<-|Hx] & K); [rewrite Eh in K; congruence|exists x; auto].
Qed.
Lemma run_decides cl resync e : (exists r e', sync_run cl name resync e r e') /\ (forall r r' e1 e2, sync_run cl name resync e r e1 -> sync_run cl name resync e r' e2 -> r = r').
Proof.
  destruct (sync_plan_r parse peq cap cl name resync e) as [| |e1 ops r] eqn:E.
  - split; [exists false, e; constructor; exact E|]. intros r r' x y H1 H2. inversion H1; inversion H2; congruence.
  - split; [exists true, e; constructor; exact E|]. intros r r' x y H1 H2. inversion H1; inversion H2; congruence.
  - split; [destruct r; [exists true; eexists; apply (run_raises parse peq cap cl name resync e e1 ops [] [] E); intros x []|exists false; eexists; apply run_done; exact E]|].
    intros r1 r2 x y H1 H2. inversion H1; inversion H2; congruence.
Qed.
Lemma doc_gcv (cl : client O) d v : In d (data cl name) -> d_ver d = Some v -> exists cv, get_committed_version cl name = Some cv /\ v <= cv.
Proof.
  intros H1 H2. destruct (get_committed_version cl name) as [cv|] eqn:E.
  - exists cv. split; [reflexivity|]. apply gcv_spec in E. apply E. left. exists d. auto.
  - exfalso. apply (gcv_of_data cl name); [apply existsb_exists; exists d; rewrite H2; auto|exact E].
Qed.
Lemma opt_gcv (cl : client O) k : In k (map fst (get_options cl name)) -> forall cv, get_committed_version cl name = Some cv -> k <= cv.
Proof. intros H cv E. apply gcv_spec in E. apply E. right. apply (proj1 (get_options_versions oeq odef cl name k)) in H. exact H. Qed.
Lemma run_raises_iff cl resync e : (exists e', sync_run cl name resync e true e') <->
  exists d v, In d (data cl name) /\ d_ver d = Some v /\ considered resync e (get_options cl name) v /\ not_built (get_options cl name) d.
Proof.
  set (om := get_options cl name). assert (HD : forall d v, In d (data cl name) -> d_ver d = Some v -> has_data (data cl name) = true).
  { intros d v H1 H2. apply existsb_exists. exists d. rewrite H2. auto. }
  assert (Inf : forall f d, In d (found f (data cl name)) <-> In d (data cl name) /\ exists v, d_ver d = Some v /\ f v = true).
  { intros f d. unfold found. rewrite filter_In. destruct (d_ver d) as [v|]; (split; [intros [A B]; split; [exact A|]|intros [A (w & B & C)]; split; [exact A|]]); try discriminate; [exists v; auto|congruence]. }
  split.
  - intros (e' & H). assert (K : forall e1 ops, sync_plan_r parse peq cap cl name resync e = PWrites e1 ops true ->
      exists d v, In d (data cl name) /\ d_ver d = Some v /\ considered resync e om v /\ not_built om d).
    { intros e1 ops E. unfold sync_plan_r, plan_r in E. destruct (negb _); [discriminate|]. cbn zeta in E. fold om in E. unfold considered.
      assert (G : forall ls f, (let '(ops0, r) := gen_until parse peq cap ls om (get_arc_status (if resync then delete_arcs e else e)) (found f (data cl name)) in
          PWrites (if resync then delete_arcs e else e) ops0 r) = PWrites e1 ops true -> exists d v, In d (data cl name) /\ d_ver d = Some v /\ f v = true /\ not_built om d).
      { intros ls f K. destruct (gen_until parse peq cap ls om (get_arc_status (if resync then delete_arcs e else e)) (found f (data cl name))) as [o r] eqn:Eg. injection K as _ _ Er. subst r. assert (S : snd (gen_until parse peq cap ls om (get_arc_status (if resync then delete_arcs e else e)) (found f (data cl name))) = true) by (rewrite Eg; reflexivity).
        apply gen_raises in S. destruct S as (d & Hd & N). apply Inf in Hd. destruct Hd as (Hd & v & Ev & Fv). exists d, v. auto. }
      destruct resync.
      - destruct (G _ _ E) as (d & v & A & B & _ & C). exists d, v. auto.
      - destruct (es_version e) as [s|]; [|destruct (G _ _ E) as (d & v & A & B & _ & C); exists d, v; auto].
        destruct (get_committed_version cl name) as [cv|]; [|discriminate]. destruct (cv <=? s); [discriminate|]. destruct (existsb _ _) eqn:Ex.
        + apply existsb_exists in Ex. destruct Ex as (k & Hk & Lk). apply Z.ltb_lt in Lk. destruct (G _ _ E) as (d & v & A & B & _ & C). exists d, v. repeat (split; [assumption|]). split; [|exact C]. right. right. exists k. auto.
        + destruct (G _ _ E) as (d & v & A & B & F & C). apply Z.ltb_lt in F. exists d, v. auto 7. }
    inversion H as [|E| |e1 ops some more E]; subst; [|exact (K _ _ E)].
    exfalso. unfold sync_plan_r, plan_r in E. destruct (negb (has_data (data cl name))) eqn:En; [discriminate|]. apply negb_false_iff in En. cbn zeta in E. destruct (if resync then None else es_version e') as [s|]; [|destruct (gen_until _ _ _ _ _ _ _); discriminate].
    apply existsb_exists in En. destruct En as (d & Hd & Dv). destruct (d_ver d) as [v|] eqn:Ev; [|discriminate]. destruct (doc_gcv cl d v Hd Ev) as (cv & Ec & _). rewrite Ec in E.
    destruct (cv <=? s); [discriminate|]. destruct (existsb _ _); destruct (gen_until _ _ _ _ _ _ _); discriminate.
  - intros (d & v & Hd & Ev & Hc & Nb).
    assert (K : exists e1 ops, sync_plan_r parse peq cap cl name resync e = PWrites e1 ops true).
    { unfold sync_plan_r, plan_r. rewrite (HD d v Hd Ev). cbn [negb]. cbn zeta. fold om.
      assert (G : forall ls f, f v = true -> exists e1 ops, (let '(ops0, r) := gen_until parse peq cap ls om (get_arc_status (if resync then delete_arcs e else e)) (found f (data cl name)) in
          PWrites (if resync then delete_arcs e else e) ops0 r) = PWrites e1 ops true).
      { intros ls f Fv. destruct (gen_until parse peq cap ls om (get_arc_status (if resync then delete_arcs e else e)) (found f (data cl name))) as [o r] eqn:Eg.
        assert (S : snd (gen_until parse peq cap ls om (get_arc_status (if resync then delete_arcs e else e)) (found f (data cl name))) = true) by (apply gen_raises; exists d; split; [apply Inf; eauto|exact Nb]).
        rewrite Eg in S. cbn in S. subst r. eauto. }
      unfold considered in Hc. destruct resync; [apply G; reflexivity|]. destruct Hc as [Hc|Hc]; [discriminate|]. destruct (es_version e) as [s|]; [|apply G; reflexivity].
      destruct (doc_gcv cl d v Hd Ev) as (cv & Ec & Lc). rewrite Ec. destruct Hc as [Hc|(k & Hk & Lk)].
      - destruct (Z.leb_spec cv s); [lia|]. destruct (existsb _ _); apply G; [reflexivity|apply Z.ltb_lt, Hc].
      - pose proof (opt_gcv cl k Hk cv Ec). destruct (Z.leb_spec cv s); [lia|]. assert (Ex : existsb (fun v0 => s <? v0) (zkeys om) = true) by (apply existsb_exists; exists k; split; [exact Hk|apply Z.ltb_lt, Lk]). rewrite Ex. apply G. reflexivity. }
    destruct K as (e1 & ops & K). eexists. apply (run_raises parse peq cap cl name resync e e1 ops [] [] K); intros x [].
Qed.

(** ** Histories *)
Hypothesis DC : data_class R good.
(** Whether parsing raises does not depend on how equal data is written. *)
Hypothesis parse_near : forall x y o, near R good x y -> parse x o = None -> parse y o = None.
Notation base := (base oeq odef good name).

Lemma base_start : base 0 0 0 [] empty_client.
Proof.
  unfold SyncTrace.base. cbn. assert (N : forall k, (exists id : pystr, In k (@nil Z)) \/ In k (zkeys (get_options (O := O) empty_client name)) -> False) by (intros k [(id & [])|[]]).
  split; [reflexivity|]. split; [exact I|]. split; [constructor|]. split; [intros v []|]. split; [lia|]. split; [intros k Hk; destruct (N k Hk)|]. split; [lia|].
  split; [intros k Hk; destruct (N k Hk)|]. intros id K. exfalso. apply K. reflexivity.
Qed.
Lemma after_base t calls cl n : base n t 0 calls cl -> forall t' calls' cl', after t calls cl t' calls' cl' ->
  (exists n', base n' t' 0 calls' cl') /\ t <= t' /\ (forall id, upto t (committed (state calls') id) = upto t (committed (state calls) id)) /\
  upto t (get_options cl' name) = upto t (get_options cl name).
Proof.
  intros B t' calls' cl' H. induction H as [|t' calls' cl' c cl'' _ ((n' & B') & Ht & U1 & U2) Hnc Hs Hc|t' calls' cl' m v _ ((n' & B') & Ht & U1 & U2) Hv].
  - split; [exists n; exact B|]. split; [lia|auto].
  - split; [exists n'; apply (base_call oeq odef good name n' n' t' t' 0 calls' cl' c cl'' B' Hc Hs (Z.le_refl _)); [intros m v K; destruct (Hnc m v K)|auto]|].
    split; [exact Ht|]. split; [|rewrite (do_call_options oeq odef name t cl' c cl'' Hc (fun m v K => match Hnc m v K with end)); exact U2].
    intro id. rewrite <- U1, proj_snoc, a_run_app. unfold proj_call. destruct (str_eqb (call_db c) name); [|reflexivity].
    destruct c as [x mf recs|x v|x o|x|x]; try reflexivity; cbn [a_run fold_left]; apply a_step_upto; intros w K; [discriminate|destruct (Hnc _ _ eq_refl)|discriminate].
  - assert (Hc : do_call oeq odef cl' (CCommit m v) = Some (fst (commit oeq odef cl' m v))) by reflexivity.
    assert (Hs : Forall (step_ok good) (proj_call name (CCommit (O := O) m v))) by (unfold proj_call; destruct (str_eqb _ _); repeat constructor).
    split; [exists (S n'); apply (base_call oeq odef good name n' (S n') t' v 0 calls' cl' (CCommit m v) _ B' Hc Hs ltac:(lia)); [intros a b K; injection K as _ <-; auto|intro K; destruct (K m v eq_refl)]|].
    split; [lia|]. split; [|rewrite (do_call_options oeq odef name t cl' (CCommit m v) _ Hc); [exact U2|]; intros a b K; injection K as _ <-; lia].
    intro id. rewrite <- U1, proj_snoc, a_run_app. unfold proj_call. destruct (str_eqb _ _); [|reflexivity]. cbn [a_run fold_left]. apply a_step_upto. intros w K. injection K as <-. lia.
Qed.
Lemma history_base t calls cl : history t calls cl -> exists n, base n t 0 calls cl.
Proof. intro H. apply (after_base 0 [] empty_client 0%nat base_start) in H. apply H. Qed.

Lemma in_force_near (h h' : list (Z * dict)) t x : Forall2 (hrel (near R good)) h h' -> in_force h t x -> exists y, in_force h' t y /\ near R good x y.
Proof.
  intros F (v & H1 & H2 & H3). assert (G : exists y, In (v, y) h' /\ near R good x y).
  { clear H2 H3. induction F as [|[a b] [a' b'] l l' [E1 E2] _ IH]; [destruct H1|]. cbn in E1, E2. destruct H1 as [K|K]; [injection K as -> ->; exists b'; subst a'; split; [left; reflexivity|exact E2]|].
    destruct (IH K) as (y & A & B). exists y. split; [right; exact A|exact B]. }
  destruct G as (y & G1 & G2). exists y. split; [|exact G2]. exists v. split; [exact G1|]. split; [exact H2|]. intros w z Hw Lw.
  assert (K : In w (map fst h)) by (change (In w (zkeys h)); rewrite (hrel_keys _ _ _ F); apply in_map_iff; exists (w, z); auto). apply in_map_iff in K. destruct K as ([w' z'] & E & K). cbn in E. subst w'. exact (H3 w z' K Lw).
Qed.
Lemma near_flip x y : near R good x y -> near R good y x.
Proof. intros (A & B & C). split; [exact B|]. split; [exact A|]. exact (vsim_sym R (dc_sym _ _ DC) _ _ C). Qed.
Lemma hist_flip (h h' : list (Z * dict)) : Forall2 (hrel (near R good)) h h' -> Forall2 (hrel (near R good)) h' h.
Proof. induction 1 as [|a b l l' [E1 E2] _ IH]; constructor; [|exact IH]. split; [symmetry; exact E1|apply near_flip, E2]. Qed.
Lemma unparsable_near h h' om : Forall2 (hrel (near R good)) h h' -> unparsable h om -> unparsable h' om.
Proof.
  intros F (fd & t & x & o & H1 & H2 & H3 & H4 & H5 & H6). destruct (in_force_near h h' t x F H3) as (y & Fy & Ny). exists fd, t, y, o.
  change (map fst h) with (zkeys h) in H1, H2. rewrite (hrel_keys _ _ _ F) in H1, H2. split; [exact H1|]. split; [exact H2|]. split; [exact Fy|].
  split; [intro K; apply H4, (near_nil R good x y Ny), K|]. split; [exact H5|]. exact (parse_near x y o Ny H6).
Qed.
Lemma unparsable_options h om : unparsable h om -> om <> [].
Proof. intros (fd & t & x & o & _ & _ & _ & _ & U & _) ->. destruct U as [(v & [] & _)|(_ & v & [] & _)]. Qed.
Lemma unparsable_hist h om : unparsable h om -> h <> [].
Proof. intros (fd & t & x & o & K & _) ->. destruct K. Qed.

(** What the collection holds of a record. *)
Lemma settled_doc n t calls cl id v : base n t 0 calls cl -> settled_record (state calls) id -> newest (committed (state calls) id) v ->
  exists d h, In d (data cl name) /\ d_ver d = Some v /\ rec_hist d = Some h /\ Forall2 (hrel (near R good)) h (committed (state calls) id).
Proof.
  intros B S [Nv Mv]. destruct (base_shows oeq odef R good name DC n t 0 calls cl B) as [HS HP]. specialize (HS id). specialize (HP id).
  destruct (docs_of id (data cl name)) as [|d [|? ?]] eqn:Ed; [rewrite HS in Nv; destruct Nv| |contradiction].
  destruct (d_ver d) as [w|] eqn:Ew.
  - destruct HS as (h & E & F & [Nw Mw]). exists d, h. assert (w = v) by (pose proof (Mv w Nw); pose proof (Mw v Nv); lia). subst w. split; [|auto].
    assert (K : In d (docs_of id (data cl name))) by (rewrite Ed; left; reflexivity). apply filter_In in K. apply K.
  - exfalso. destruct (proj1 HP (ex_intro _ d (conj Ed Ew))) as (h & p & K). exact (S h p K).
Qed.
Lemma doc_settled n t calls cl d v : base n t 0 calls cl -> In d (data cl name) -> d_ver d = Some v ->
  settled_record (state calls) (d_id d) /\ newest (committed (state calls) (d_id d)) v /\ exists h, rec_hist d = Some h /\ Forall2 (hrel (near R good)) h (committed (state calls) (d_id d)).
Proof.
  intros B Hd Ev. destruct (base_shows oeq odef R good name DC n t 0 calls cl B) as [HS HP]. specialize (HS (d_id d)). specialize (HP (d_id d)).
  pose proof (docs_of_In _ _ Hd) as K. destruct (docs_of (d_id d) (data cl name)) as [|d' [|? ?]] eqn:Ed; [destruct K| |contradiction]. destruct K as [->|[]]. rewrite Ev in HS.
  destruct HS as (h & E & F & N). split; [|split; [exact N|exists h; auto]]. intros h0 p E0. destruct (proj2 HP (ex_intro _ h0 (ex_intro _ p E0))) as (d' & Ed' & Ev'). rewrite Ed in Ed'. injection Ed' as <-. congruence.
Qed.
Let unit_parse (_ : dict) (_ : O) : unit := tt.
Lemma unit_parse_ok : parse_ok unit_parse (fun _ _ => true) (near R good).
Proof. split; [intros x y N; exact (near_nil R good x y N)|reflexivity]. Qed.
Lemma doc_not_built n t calls cl d h : base n t 0 calls cl -> rec_hist d = Some h -> Forall2 (hrel (near R good)) h (committed (state calls) (d_id d)) ->
  get_options cl name <> [] -> committed (state calls) (d_id d) <> [] -> (not_built (get_options cl name) d <-> unparsable (committed (state calls) (d_id d)) (get_options cl name)).
Proof.
  intros B E F Ho Hne. unfold not_built. rewrite E.
  assert (Hh : hist_ok h).
  { destruct (base_hist oeq odef R good name DC n t 0 calls cl B (d_id d)) as [K|K]; [contradiction|].
    exact (hrel_hist_ok unit_parse (fun _ _ => true) (near R good) unit_parse_ok h _ F K). }
  rewrite (build_raises h (get_options cl name) Hh Ho (get_options_nodup cl name)). split; [apply unparsable_near, F|apply unparsable_near, hist_flip, F].
Qed.

(** ** C95 *)

(** A sync or resync raises exactly if a record that it considers cannot be parsed. *)
Theorem C95_stopped_exactly : forall t calls cl resync e, history t calls cl -> options_there (state calls) (get_options cl name) ->
  ((exists id v, settled_record (state calls) id /\ newest (committed (state calls) id) v /\
     considered resync e (get_options cl name) v /\ unparsable (committed (state calls) id) (get_options cl name)) -> raises cl resync e) /\
  (~ (exists id v, settled_record (state calls) id /\ newest (committed (state calls) id) v /\
     considered resync e (get_options cl name) v /\ unparsable (committed (state calls) id) (get_options cl name)) ->
     (exists e', sync_run cl name resync e false e') /\ forall e', ~ sync_run cl name resync e true e').
Proof.
  intros t calls cl resync e H Ho. destruct (history_base t calls cl H) as (n & B). destruct (run_decides cl resync e) as [Ex Det].
  assert (G : (exists e', sync_run cl name resync e true e') <-> exists id v, settled_record (state calls) id /\ newest (committed (state calls) id) v /\
     considered resync e (get_options cl name) v /\ unparsable (committed (state calls) id) (get_options cl name)).
  { rewrite run_raises_iff. split.
    - intros (d & v & Hd & Ev & Hc & Nb). destruct (doc_settled n t calls cl d v B Hd Ev) as (S & N & h & E & F). exists (d_id d), v. split; [exact S|]. split; [exact N|]. split; [exact Hc|].
      assert (Hne : committed (state calls) (d_id d) <> []) by (intro K; rewrite K in N; destruct N as [[] _]). apply (doc_not_built n t calls cl d h B E F (Ho _ Hne) Hne), Nb.
    - intros (id & v & S & N & Hc & U). destruct (settled_doc n t calls cl id v B S N) as (d & h & Hd & Ev & E & F). exists d, v. split; [exact Hd|]. split; [exact Ev|]. split; [exact Hc|].
      unfold not_built. rewrite E. assert (Hne : committed (state calls) id <> []) by (intro K; rewrite K in N; destruct N as [[] _]).
      assert (Hh : hist_ok h).
      { destruct (base_hist oeq odef R good name DC n t 0 calls cl B id) as [K|K]; [contradiction|].
        exact (hrel_hist_ok unit_parse (fun _ _ => true) (near R good) unit_parse_ok h _ F K). }
      apply (build_raises h (get_options cl name) Hh (Ho id Hne) (get_options_nodup cl name)). exact (unparsable_near _ _ _ (hist_flip _ _ F) U). }
  split.
  - intro K. apply G in K. split; [exact K|]. intros e' K'. destruct K as (e'' & K). specialize (Det _ _ _ _ K K'). discriminate.
  - intro K. assert (K' : forall e', ~ sync_run cl name resync e true e') by (intros e' K'; apply K, G; exists e'; exact K'). split; [|exact K'].
    destruct Ex as ([|] & e' & Ex); [destruct (K' e' Ex)|exists e'; exact Ex].
Qed.

(** Once such data is committed this does not end: no later correction, deletion or change of options helps. *)
Lemma upto_all {V} (m : list (Z * V)) t : (forall k, In k (map fst m) -> k <= t) -> upto t m = m.
Proof.
  induction m as [|[k x] m IH]; intro H; [reflexivity|]. unfold upto. cbn [filter fst]. pose proof (H k (or_introl eq_refl)). destruct (Z.leb_spec k t); [|lia]. f_equal. apply IH. intros j Hj. apply H. right. exact Hj.
Qed.
Lemma in_force_cut {V} (m m' : list (Z * V)) t s x : upto t m' = m -> in_force m s x -> s <= t -> in_force m' s x.
Proof.
  intros <- (v & H1 & H2 & H3) L. apply upto_In in H1. exists v. split; [apply H1|]. split; [exact H2|]. intros w y Hw Lw. apply (H3 w y); [apply upto_In; split; [exact Hw|lia]|exact Lw].
Qed.
Lemma in_force_min {V} (m : list (Z * V)) t s x : (forall k, In k (map fst m) -> k <= t) -> in_force m s x -> in_force m (Z.min s t) x.
Proof.
  intros H (v & H1 & H2 & H3). pose proof (H v ltac:(apply in_map_iff; exists (v, x); auto)). exists v. split; [exact H1|]. split; [lia|]. intros w y Hw Lw. apply (H3 w y Hw). lia.
Qed.
Lemma in_upto_key {V} (m : list (Z * V)) t k : In k (map fst m) -> k <= t -> In k (map fst (upto t m)).
Proof. intros H L. apply in_map_iff in H. destruct H as ([k' x] & E & H). cbn in E. subst k'. apply in_map_iff. exists (k, x). split; [reflexivity|]. apply upto_In. auto. Qed.
Lemma upto_key {V} (m : list (Z * V)) t k : In k (map fst (upto t m)) -> In k (map fst m).
Proof. intro H. apply in_map_iff in H. destruct H as (e & <- & H). unfold upto in H. apply filter_In in H. apply in_map, H. Qed.
Lemma upto_filter {V} (m : list (Z * V)) t f : upto t (filter f m) = filter f (upto t m).
Proof. unfold upto. induction m as [|a m IH]; [reflexivity|]. cbn [filter]. destruct (f a) eqn:Ef, (fst a <=? t) eqn:El; cbn [filter]; rewrite ?Ef, ?El; rewrite ?IH; reflexivity. Qed.
Lemma unparsable_later h om h' om' t : (forall k, In k (map fst h) -> k <= t) -> (forall k, In k (map fst om) -> k <= t) ->
  upto t h' = h -> upto t om' = om -> unparsable h om -> unparsable h' om'.
Proof.
  intros Kh Ko Uh Uo (fd & s & x & o & H1 & H2 & H3 & H4 & H5 & H6). exists fd, (Z.min s t), x, o.
  split; [rewrite <- Uh in H1; exact (upto_key _ _ _ H1)|].
  split; [intros k Hk; destruct (Z.leb_spec k t) as [L|L]; [apply H2; rewrite <- Uh; exact (in_upto_key _ _ _ Hk L)|specialize (Kh fd H1); lia]|].
  split; [exact (in_force_cut h h' t _ x Uh (in_force_min h t s x Kh H3) ltac:(lia))|]. split; [exact H4|]. split; [|exact H6].
  assert (Kf : forall k, In k (map fst (filter (fun kv => fd <=? fst kv) om)) -> k <= t) by (intros k Hk; apply in_map_iff in Hk; destruct Hk as (a & <- & Hk); apply filter_In in Hk; apply Ko, in_map, Hk).
  assert (Uf : upto t (filter (fun kv => fd <=? fst kv) om') = filter (fun kv => fd <=? fst kv) om) by (rewrite upto_filter, Uo; reflexivity).
  destruct H5 as [F|[N (v & E1 & E2)]].
  - left. exact (in_force_cut _ _ t _ o Uf (in_force_min _ t s o Kf F) ltac:(lia)).
  - right. split.
    + intros w y Hw. destruct (Z.leb_spec w t) as [L|L]; [|lia]. assert (K : In (w, y) (filter (fun kv => fd <=? fst kv) om)) by (rewrite <- Uf; apply upto_In; auto). specialize (N w y K). lia.
    + exists v. assert (K : In (v, o) om' /\ v <= t) by (rewrite <- Uo in E1; apply upto_In in E1; exact E1). split; [apply K|]. intros w y Hw. destruct (Z.leb_spec w t) as [L|L]; [|lia].
      apply (E2 w y). rewrite <- Uo. apply upto_In. auto.
Qed.
Theorem C95_again : forall t calls cl id v t' calls' cl' resync e, history t calls cl -> newest (committed (state calls) id) v ->
  unparsable (committed (state calls) id) (get_options cl name) -> after t calls cl t' calls' cl' -> settled_record (state calls') id ->
  considered resync e (get_options cl name) v -> raises cl' resync e.
Proof.
  intros t calls cl id v t' calls' cl' resync e H [N1 N2] U A S Hc. destruct (history_base t calls cl H) as (n & B). destruct (after_base t calls cl n B t' calls' cl' A) as ((n' & B') & _ & U1 & U2).
  assert (Kb : forall k, (exists i, In k (zkeys (committed (state calls) i))) \/ In k (zkeys (get_options cl name)) -> k <= t) by apply B.
  assert (U' : unparsable (committed (state calls') id) (get_options cl' name)).
  { apply (unparsable_later (committed (state calls) id) (get_options cl name) _ _ t); [intros k Hk; apply Kb; left; exists id; exact Hk|intros k Hk; apply Kb; right; exact Hk| | |exact U].
    - rewrite U1. apply upto_all. intros k Hk. apply Kb. left. exists id. exact Hk.
    - rewrite U2. apply upto_all. intros k Hk. apply Kb. right. exact Hk. }
  assert (Hne : committed (state calls') id <> []) by exact (unparsable_hist _ _ U').
  assert (G : exists w, newest (committed (state calls') id) w /\ v <= w).
  { assert (Hv : In v (map fst (committed (state calls') id))) by (apply (upto_key _ t); rewrite U1; apply in_upto_key; [exact N1|apply Kb; left; exists id; exact N1]).
    clear - Hne Hv. assert (M : exists w, newest (committed (state calls') id) w).
    { revert Hne. generalize (committed (state calls') id) as m. induction m as [|[k x] m IH]; [contradiction|]. intros _. destruct m as [|kx m]; [exists k; split; [left; reflexivity|intros j [<-|[]]; cbn; lia]|].
      destruct (IH ltac:(discriminate)) as (w & W1 & W2). destruct (Z.leb_spec w k) as [L|L].
      - exists k. split; [left; reflexivity|]. intros j [<-|Hj]; [cbn; lia|specialize (W2 j Hj); lia].
      - exists w. split; [right; exact W1|]. intros j [<-|Hj]; [cbn; lia|exact (W2 j Hj)]. }
    destruct M as (w & W1 & W2). exists w. split; [split; assumption|apply W2, Hv]. }
  destruct G as (w & Nw & Lw). destruct (settled_doc n' t' calls' cl' id w B' S Nw) as (d & h & Hd & Ev & E & F).
  assert (K : exists e', sync_run cl' name resync e true e').
  { apply run_raises_iff. exists d, w. split; [exact Hd|]. split; [exact Ev|]. split.
    - destruct Hc as [->|Hc]; [left; reflexivity|right]. destruct (es_version e) as [s|]; [|exact I]. destruct Hc as [Hc|(k & Hk & L)]; [left; lia|right]. exists k. split; [|exact L].
      apply (upto_key _ t). rewrite U2. apply in_upto_key; [exact Hk|apply Kb; right; exact Hk].
    - unfold not_built. rewrite E. assert (Hh : hist_ok h).
      { destruct (base_hist oeq odef R good name DC n' t' 0 calls' cl' B' id) as [K|K]; [contradiction|]. exact (hrel_hist_ok unit_parse (fun _ _ => true) (near R good) unit_parse_ok h _ F K). }
      apply (build_raises h (get_options cl' name) Hh (unparsable_options _ _ U') (get_options_nodup cl' name)). exact (unparsable_near _ _ _ (hist_flip _ _ F) U'). }
  split; [exact K|]. intros e' K'. destruct K as (e'' & K). destruct (run_decides cl' resync e) as [_ Det]. specialize (Det _ _ _ _ K K'). discriminate.
Qed.
(** The arcs cannot be rebuilt either. *)
Theorem C95_arcs_again : forall t calls cl id t' calls' cl' e, history t calls cl ->
  unparsable (committed (state calls) id) (get_options cl name) -> after t calls cl t' calls' cl' -> settled_record (state calls') id ->
  (exists e', arcs_run cl' name e true e') /\ forall e', ~ arcs_run cl' name e false e'.
Proof.
  intros t calls cl id t' calls' cl' e H U A S. assert (Hn : exists v, newest (committed (state calls) id) v).
  { destruct (history_base t calls cl H) as (n & B). destruct (base_hist oeq odef R good name DC n t 0 calls cl B id) as [K|K]; [destruct (unparsable_hist _ _ U K)|].
    clear - U. pose proof (unparsable_hist _ _ U) as Hne. revert Hne. generalize (committed (state calls) id) as m. induction m as [|[k x] m IH]; [contradiction|]. intros _. destruct m as [|kx m]; [exists k; split; [left; reflexivity|intros j [<-|[]]; cbn; lia]|].
    destruct (IH ltac:(discriminate)) as (w & W1 & W2). destruct (Z.leb_spec w k) as [L|L].
    - exists k. split; [left; reflexivity|]. intros j [<-|Hj]; [cbn; lia|specialize (W2 j Hj); lia].
    - exists w. split; [right; exact W1|]. intros j [<-|Hj]; [cbn; lia|exact (W2 j Hj)]. }
  destruct Hn as (v & Nv). destruct (C95_again t calls cl id v t' calls' cl' true e H Nv U A S (or_introl eq_refl)) as [K _]. apply run_raises_iff in K. destruct K as (d & w & Hd & Ev & _ & Nb).
  destruct (gen_until parse peq cap None (get_options cl' name) (get_arc_status (delete_arcs e)) (found (fun _ => true) (data cl' name))) as [ops r] eqn:E.
  assert (Er : r = true).
  { change r with (snd (ops, r)). rewrite <- E. apply gen_raises. exists d. split; [|exact Nb]. apply filter_In. split; [exact Hd|]. rewrite Ev. reflexivity. }
  subst r. split; [eexists; apply (arcs_raises parse peq cap cl' name e ops [] [] E); intros x []|]. intros e' K. inversion K; congruence.
Qed.
(** A sync that raises shows nothing new of any record; a resync that raises, or a rebuilding of the arcs, has taken away what the arcs held. *)
Theorem C95_nothing_new : forall cl e e', sync_run cl name false e true e' -> vis e' = vis e.
Proof.
  intros cl e e' H. inversion H as [|E| |e1 ops some more E]; subst; [reflexivity|]. change (vis (write_live some (setup more e1))) with (vis e1). unfold sync_plan_r, plan_r in E. destruct (negb _); [discriminate|]. cbn zeta in E.
  destruct (es_version e); [destruct (get_committed_version cl name); [|discriminate]; destruct (_ <=? _); [discriminate|]; destruct (existsb _ _)|]; destruct (gen_until _ _ _ _ _ _ _); injection E as <- _ _; reflexivity.
Qed.
Theorem C95_arcs_lost : forall cl e e', sync_run cl name true e true e' \/ arcs_run cl name e true e' -> lat (vis e') = lat (vis e) /\ arc (vis e') = [].
Proof.
  intros cl e e' [H|H].
  - inversion H as [|E| |e1 ops some more E]; subst; unfold sync_plan_r, plan_r in E; (destruct (negb _); [discriminate|]); cbn zeta in E; destruct (gen_until _ _ _ _ _ _ _); [discriminate|]. injection E as <- _ _. split; reflexivity.
  - inversion H; subst. split; reflexivity.
Qed.
(** A sync that does not raise is the one of the other properties, with any total parser that agrees where [parse] does not raise. *)
Theorem C95_completed : forall (parse0 : dict -> O -> P), (forall d o p, parse d o = Some p -> parse0 d o = p) ->
  forall cl resync e e', sync_run cl name resync e false e' -> sync parse0 peq cap cl name resync e = Some e'.
Proof. intros parse0 Hp cl resync e e' H. exact (run_total parse peq parse0 Hp cap cl name resync e e' H). Qed.
End Props.
Print Assumptions C95_stopped_exactly.
Print Assumptions C95_again.
Print Assumptions C95_arcs_again.
Print Assumptions C95_nothing_new.
Print Assumptions C95_arcs_lost.
Print Assumptions C95_completed.

(** ** The modelled parser *)
(** It satisfies the hypotheses. *)
Theorem C95_parser : forall L S, keyed L -> type_exact S -> data_class eq (record_data S) /\
  forall x y o, near eq (record_data S) x y -> parse_opt L x o = None -> parse_opt L y o = None.
Proof.
  intros L S KD HS. split; [exact (class_record S HS)|]. intros x y o (H1 & H2 & H3) E. pose proof (parse_sim L o KD x y (proj1 H1) (proj1 H2) H3) as K. unfold parse_opt in *. rewrite E in K. destruct (parse L o y); [destruct K|reflexivity].
Qed.
Print Assumptions C95_parser.

(** C95, as stated, is false: a record with coordinates in lists is put with another one. As long as nothing is indexed no sync shows
    anything of either, whatever is done to the record afterwards. *)
Lemma squeeze_keyed : keyed squeeze_lib.
Proof.
  constructor; [reflexivity|reflexivity|]. intros a a' b b' r r' n Ha Hb _. cbn [l_point squeeze_lib].
  assert (G : forall x y, vident x y -> match x with VList _ => exists m, y = VList m | VInt i => y = VInt i | _ => match y with VList _ | VInt _ => False | _ => True end end /\
    match squeeze x with VInt i => squeeze y = VInt i | _ => match squeeze y with VInt _ => False | _ => True end end).
  { intros x y H. inversion H as [u w Hu Hw E|l m Hl Hm|d e Hk Hd]; subst.
    - destruct y; try discriminate; cbn; auto.
    - split; [eexists; reflexivity|]. destruct l as [|u [|u' l]], m as [|w [|w' m]]; try discriminate Hl; cbn; auto. specialize (Hm 0%nat u w eq_refl eq_refl). inversion Hm as [? ? ? ? E'| |]; subst; [destruct w; cbn; auto|exact I|exact I].
    - cbn. auto. }
  destruct (G a a' Ha) as [A1 A2]. destruct (G b b' Hb) as [B1 B2].
  destruct a; try (destruct a'; try contradiction; reflexivity); [subst a'|destruct A1 as (m & ->)]; (destruct b; try (destruct b'; try contradiction; reflexivity); [subst b'|destruct B1 as (m' & ->)]); try reflexivity.
  destruct (squeeze (VList l)); try (destruct (squeeze (VList m)); try contradiction; reflexivity). rewrite A2. destruct (squeeze (VList l0)); try (destruct (squeeze (VList m')); try contradiction; reflexivity). rewrite B2. reflexivity.
Qed.

Lemma ints_exact : type_exact ints_or_text.
Proof.
  intros [| | | | | |] [| | | | | |] Ha Hb E; try destruct Ha; try destruct Hb; try discriminate; f_equal.
  - unfold scalar_eqb, num_of, num_eqb in E. apply QArith_base.Qeq_bool_iff in E. unfold QArith_base.Qeq in E. cbn in E. lia.
  - apply str_eqb_eq. exact E.
Qed.
Definition listed : dict := prepare_record_data ascii_db false listed_record.
Definition plain : dict := [(lit "a", VInt 1)].
Definition put_both : call options := CIngest db0 None [(lit "g", plain); (lit "r", listed)].
Definition hinted : call options := CUpdateOptions db0 hint_opts.
Definition calls_bad : list (call options) := [hinted; put_both; CCommit db0 1].
Definition dosq (cl : client options) (c : call options) : client options := match do_call opts_eqb ex_opts cl c with Some cl' => cl' | None => cl end.
Definition cl_bad : client options := dosq (dosq (dosq empty_client hinted) put_both) (CCommit db0 1).
Notation history_sq := (history opts_eqb ex_opts (record_data ints_or_text) db0).
Notation after_sq := (after opts_eqb ex_opts (record_data ints_or_text) db0).
Notation state_sq calls := (a_run a_empty (proj db0 calls)).
Lemma good_listed : record_data ints_or_text listed.
Proof.
  split; [vm_compute; reflexivity|]. split; [|vm_compute; repeat constructor].
  apply scalars_dict. intros k v Hk. vm_compute in Hk. repeat (destruct Hk as [E|Hk]; [injection E as <- <-; first [apply scalars_one; [reflexivity|exact I]|apply scalars_list; intros x [<-|[]]; apply scalars_one; [reflexivity|exact I]]|]). destruct Hk.
Qed.
Lemma good_ints x : wfb (VDict x) = true -> (forall k v, In (k, v) x -> exists i, v = VInt i) -> record_data ints_or_text x.
Proof. intros W H. apply record_ok; [exact W|]. intros k v Hk. destruct (H k v Hk) as (i & ->). split; [reflexivity|exact I]. Qed.
Lemma good_put i x j y mf : record_data ints_or_text x -> record_data ints_or_text y -> str_eqb i j = false -> Forall (step_ok (record_data ints_or_text)) (proj_call (O := options) db0 (CIngest db0 mf [(i, x); (j, y)])).
Proof.
  intros Hx Hy E. constructor; [|constructor]. split; [|constructor; [exact Hx|constructor; [exact Hy|constructor]]].
  intros [|[|a]] [|[|b]] r r' Ha Hb K; try reflexivity; cbn in Ha, Hb; try (injection Ha as <-); try (injection Hb as <-); try discriminate; try (destruct a; discriminate); try (destruct b; discriminate); cbn in K; subst; rewrite str_eqb_refl in E; discriminate.
Qed.
Lemma good_put_one i x mf : record_data ints_or_text x -> Forall (step_ok (record_data ints_or_text)) (proj_call (O := options) db0 (CIngest db0 mf [(i, x)])).
Proof. intro Hx. constructor; [|constructor]. split; [|constructor; [exact Hx|constructor]]. intros [|a] [|b] r r' Ha Hb _; try reflexivity; [destruct b|destruct a|destruct a]; discriminate. Qed.
Lemma history_bad : history_sq 1 calls_bad cl_bad.
Proof.
  change calls_bad with ((([] ++ [hinted]) ++ [put_both]) ++ [CCommit db0 1]). change cl_bad with (fst (commit opts_eqb ex_opts (dosq (dosq empty_client hinted) put_both) db0 1)).
  apply (a_committed _ _ _ _ _ _ _ 0); [|lia]. apply (a_call _ _ _ _ _ _ _ 0 _ (dosq empty_client hinted)); [|discriminate| |vm_compute; reflexivity].
  - apply (a_call _ _ _ _ _ _ _ 0 _ empty_client); [constructor|discriminate|constructor|vm_compute; reflexivity].
  - apply good_put; [|exact good_listed|reflexivity]. apply good_ints; [reflexivity|]. intros k v [E|[]]. injection E as <- <-. eexists. reflexivity.
Qed.
Lemma bad_unparsable : unparsable (parse_opt squeeze_lib) (committed (state_sq calls_bad) (lit "r")) (get_options cl_bad db0).
Proof.
  exists 1, 1, listed, hint_opts. assert (E : committed (state_sq calls_bad) (lit "r") = [(1, listed)]) by (vm_compute; reflexivity). assert (Eo : get_options cl_bad db0 = [(1, hint_opts)]) by (vm_compute; reflexivity). rewrite E, Eo.
  split; [left; reflexivity|]. split; [intros k [<-|[]]; cbn; lia|]. split; [exists 1; split; [left; reflexivity|]; split; [lia|]; intros w y [K|[]] _; injection K as <- _; lia|]. split; [vm_compute; discriminate|].
  split; [|vm_compute; reflexivity]. left. exists 1. split; [left; reflexivity|]. split; [lia|]. intros w y [K|[]] _. injection K as <- _. lia.
Qed.
Theorem C95_refuted : exists L name t calls cl g x, keyed L /\ history opts_eqb ex_opts (record_data ints_or_text) name t calls cl /\
  (** the other record can be parsed *)
  committed (a_run a_empty (proj name calls)) g = [(1, x)] /\ (forall v o, In (v, o) (get_options cl name) -> parse L o x <> None) /\
  exists r, forall t' calls' cl', after opts_eqb ex_opts (record_data ints_or_text) name t calls cl t' calls' cl' -> settled_record (a_run a_empty (proj name calls')) r ->
    forall cap raised e', sync_run (parse_opt L) pdata_eqb cap cl' name false empty_es raised e' -> raised = true /\ vis e' = vis empty_es.
Proof.
  exists squeeze_lib, db0, 1, calls_bad, cl_bad, (lit "g"), plain. split; [exact squeeze_keyed|]. split; [exact history_bad|]. split; [vm_compute; reflexivity|].
  split; [intros v o Ho; assert (Eo : get_options cl_bad db0 = [(1, hint_opts)]) by (vm_compute; reflexivity); rewrite Eo in Ho; destruct Ho as [E|[]]; injection E as <- <-; vm_compute; discriminate|].
  exists (lit "r"). intros t' calls' cl' A S cap raised e' H. destruct (C95_parser squeeze_lib ints_or_text squeeze_keyed ints_exact) as [DC PN].
  assert (Nv : newest (committed (state_sq calls_bad) (lit "r")) 1).
  { assert (E : committed (state_sq calls_bad) (lit "r") = [(1, listed)]) by (vm_compute; reflexivity). rewrite E. split; [left; reflexivity|]. intros k [<-|[]]. cbn. lia. }
  destruct (C95_again opts_eqb ex_opts (parse_opt squeeze_lib) pdata_eqb eq (record_data ints_or_text) cap db0 DC PN 1 calls_bad cl_bad (lit "r") 1 t' calls' cl' false empty_es history_bad Nv bad_unparsable A S) as [_ K]; [right; exact I|].
  destruct raised; [|destruct (K e' H)]. split; [reflexivity|]. exact (C95_nothing_new (parse_opt squeeze_lib) pdata_eqb cap db0 cl' empty_es e' H).
Qed.
Print Assumptions C95_refuted.

(** ** Examples *)
(** The record is corrected, deleted, and the hints are taken away, and all that is committed. *)
Definition fixed : dict := [(lit "lat", VInt 3); (lit "lon", VInt 4)].
Definition put_r (x : dict) : call options := CIngest db0 None [(lit "r", x)].
Definition unhinted : call options := CUpdateOptions db0 ex_opts.
Definition later : list (call options) := [put_r fixed; CCommit db0 2; put_r []; CCommit db0 3; unhinted; CCommit db0 4].
Definition cl_later : client options := fold_left dosq later cl_bad.
Example C95_example : after_sq 1 calls_bad cl_bad 4 (calls_bad ++ later) cl_later /\ settled_record (state_sq (calls_bad ++ later)) (lit "r") /\
  map fst (committed (state_sq (calls_bad ++ later)) (lit "r")) = [3; 2; 1] /\ map fst (get_options cl_later db0) = [1; 4] /\
  options_there (state_sq (calls_bad ++ later)) (get_options cl_later db0) /\
  sync_plan_r (parse_opt squeeze_lib) pdata_eqb 10 cl_later db0 false empty_es <> PNothing.
Proof.
  assert (G : forall i h p, state_sq (calls_bad ++ later) i <> Some (AR h (Some p))).
  { intros i h p. destruct (str_eqb i (lit "r")) eqn:Er; [apply str_eqb_eq in Er; subst i; vm_compute; discriminate|]. destruct (str_eqb i (lit "g")) eqn:Eg; [apply str_eqb_eq in Eg; subst i; vm_compute; discriminate|].
    rewrite (PropsSyncRefuted.untouched (proj db0 (calls_bad ++ later)) a_empty i eq_refl); [discriminate|]. apply str_eqb_neq in Er, Eg. intro K. vm_compute in K, Er, Eg. repeat (destruct K as [K|K]; [symmetry in K; tauto|]). destruct K. }
  split; [|split; [exact (G (lit "r"))|]; split; [vm_compute; reflexivity|]; split; [vm_compute; reflexivity|]; split; [intros i _; vm_compute; discriminate|vm_compute; discriminate]].
  change (calls_bad ++ later) with ((((((calls_bad ++ [put_r fixed]) ++ [CCommit db0 2]) ++ [put_r []]) ++ [CCommit db0 3]) ++ [unhinted]) ++ [CCommit db0 4]).
  set (c1 := dosq cl_bad (put_r fixed)). set (c2 := dosq c1 (CCommit db0 2)). set (c3 := dosq c2 (put_r [])). set (c4 := dosq c3 (CCommit db0 3)). set (c5 := dosq c4 unhinted).
  change cl_later with (fst (commit opts_eqb ex_opts c5 db0 4)). apply (a_committed _ _ _ _ _ _ _ 3); [|lia].
  apply (a_call _ _ _ _ _ _ _ 3 _ c4); [|discriminate|constructor|vm_compute; reflexivity].
  change c4 with (fst (commit opts_eqb ex_opts c3 db0 3)). apply (a_committed _ _ _ _ _ _ _ 2); [|lia].
  apply (a_call _ _ _ _ _ _ _ 2 _ c2); [|discriminate|apply good_put_one, good_ints; [reflexivity|intros k v []]|vm_compute; reflexivity].
  change c2 with (fst (commit opts_eqb ex_opts c1 db0 2)). apply (a_committed _ _ _ _ _ _ _ 1); [|lia].
  apply (a_call _ _ _ _ _ _ _ 1 _ cl_bad); [constructor|discriminate|apply good_put_one, good_ints; [reflexivity|]|vm_compute; reflexivity].
  intros k v [E|[E|[]]]; injection E as <- <-; eexists; reflexivity.
Qed.
(** A resync that raises takes away what the arcs held: a record is synced twice before the other is put. *)
Definition put_g (n : Z) : call options := CIngest db0 None [(lit "g", [(lit "a", VInt n)])].
Definition after_sync (cl : client options) (e : es parsed_data) : es parsed_data :=
  match sync_plan_r (parse_opt squeeze_lib) pdata_eqb 10 cl db0 false e with PWrites e1 ops false => write_ops ops e1 | _ => e end.
Definition cl_g1 : client options := fold_left dosq [put_g 1; CCommit db0 1] empty_client.
Definition cl_g2 : client options := fold_left dosq [put_g 2; CCommit db0 2] cl_g1.
Definition cl_g3 : client options := fold_left dosq [hinted; put_r listed; CCommit db0 3] cl_g2.
Definition es_g2 : es parsed_data := after_sync cl_g2 (after_sync cl_g1 empty_es).
Definition hits_at (e : es parsed_data) (v : Z) : option (list (pystr * Z)) := option_map (map (fun d => (e_id d, e_ver d))) (search_at e v).
Example C95_arcs_example : hits_at es_g2 1 = Some [(lit "g", 1)] /\ hits_at es_g2 2 = Some [(lit "g", 2)] /\
  exists e', sync_run (parse_opt squeeze_lib) pdata_eqb 10 cl_g3 db0 true es_g2 true e' /\ hits_at e' 1 = Some [] /\ hits_at e' 2 = Some [(lit "g", 2)].
Proof.
  split; [vm_compute; reflexivity|]. split; [vm_compute; reflexivity|]. eexists. split.
  - eapply (run_raises _ _ _ _ _ _ _ _ _ [] []); [vm_compute; reflexivity|intros x []|intros x []].
  - split; vm_compute; reflexivity.
Qed.
