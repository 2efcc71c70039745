(** Property C93: interrupted commits. *)
From Coq Require Import String Ascii.
From Coq Require Import List ZArith NArith Bool Lia.
From Verif Require Import PyVal Diff DiffProofs Prepare PrepareProofs Mongo Store MongoProofs MongoStore MongoMore PropsMongo Client ClientProofs PropsClient Race PropsClock Index Sync PropsIndex Interrupt.
Import ListNotations.
Open Scope string_scope.
Open Scope list_scope.
Open Scope nat_scope.

Section Props.
Context {O : Type} (oeq : O -> O -> bool) (odef : O).
Notation client := (client O).

(** ** Specification *)
Definition either {A} (P Q : A -> A -> Prop) (a b : A) : Prop := P a b \/ Q a b.
(** the options that a commit adds if there are none at all *)
Definition added (name : pystr) (l : list (option Z)) (extra : list (odoc O)) : Prop :=
  extra = [] \/ exists w, In w l /\ extra = [ODoc name w odef].

(** ** Proofs *)
Lemma update_some_F2 {A} (P : A -> A -> Prop) f : (forall x, P x (f x)) -> forall l sel, Forall2 (either eq P) l (update_some f sel l).
Proof. intro H. induction l as [|x l IH]; intro sel; cbn [update_some]; constructor; [|apply IH]. destruct (sel 0); [right; apply H|left; reflexivity]. Qed.
Lemma F2_refl {A} (P : A -> A -> Prop) l : (forall x, P x x) -> Forall2 P l l.
Proof. intro H. induction l; constructor; auto. Qed.
Lemma F2_weak {A B} (P Q : A -> B -> Prop) l m : (forall x y, P x y -> Q x y) -> Forall2 P l m -> Forall2 Q l m.
Proof. intros H F. induction F; constructor; auto. Qed.
Lemma F2_close {A} (P : A -> A -> Prop) l m : Forall2 (either eq P) l m -> (forall y, In y m -> P y y) -> Forall2 P l m.
Proof. intro F. induction F as [|x y l m H _ IH]; intro K; constructor; [destruct H as [<-|H]; [apply K; left; reflexivity|exact H]|apply IH; intros z Hz; apply K; right; exact Hz]. Qed.
Lemma default_opts (cl : client) : negb (has_options cl) && negb (has_uncommitted_options cl) = true -> opts cl = [].
Proof.
  unfold has_options, has_uncommitted_options. destruct (opts cl) as [|d l]; [reflexivity|]. cbn [existsb]. destruct (o_pending d); cbn; rewrite ?andb_false_r; discriminate.
Qed.
Lemma update_default (cl : client) name : opts cl = [] -> opts (update_options oeq cl name odef) = [ODoc name None odef].
Proof.
  intro E. unfold update_options, latest_options, get_options, has_uncommitted_options. rewrite E. cbn. rewrite E. reflexivity.
Qed.

(** What an interrupted commit leaves: documents as they were or as committed, of this database and of all options. *)
Theorem C93_interrupted : forall (cl : client) name v r,
  let cl' := interrupted oeq odef cl name v r in
  Forall2 (either eq (doc_committed v)) (data cl name) (data cl' name) /\
  (forall n, n <> name -> data cl' n = data cl n) /\
  exists old extra, opts cl' = old ++ extra /\ Forall2 (either eq (odoc_committed v)) (opts cl) old /\
    (opts cl <> [] -> extra = []) /\ added name [None; Some v] extra.
Proof.
  intros cl name v r. cbv zeta. unfold interrupted.
  assert (Same : forall c : client, data c = data cl -> opts c = opts cl -> Forall2 (either eq (doc_committed v)) (data cl name) (data c name) /\ (forall n, n <> name -> data c n = data cl n) /\
    exists old extra, opts c = old ++ extra /\ Forall2 (either eq (odoc_committed v)) (opts cl) old /\ (opts cl <> [] -> extra = []) /\ added name [None; Some v] extra).
  { intros c Ed Eo. rewrite Ed, Eo. split; [apply F2_refl; left; reflexivity|]. split; [reflexivity|]. exists (opts cl), []. rewrite app_nil_r. split; [reflexivity|]. split; [apply F2_refl; left; reflexivity|]. split; [reflexivity|left; reflexivity]. }
  destruct (negb (has_uncommitted cl name) && negb (has_uncommitted_options cl)); [apply Same; reflexivity|]. cbv zeta.
  set (cl1 := if negb (has_options cl) && negb (has_uncommitted_options cl) then update_options oeq cl name odef else cl).
  assert (D1 : forall n, data cl1 n = data cl n) by (intro n; unfold cl1; destruct (negb (has_options cl) && _); [apply update_options_data|reflexivity]).
  assert (O1 : exists extra, opts cl1 = opts cl ++ extra /\ (opts cl <> [] -> extra = []) /\ (extra = [] \/ extra = [ODoc name None odef])).
  { unfold cl1. destruct (negb (has_options cl) && negb (has_uncommitted_options cl)) eqn:E.
    - pose proof (default_opts cl E) as E0. exists [ODoc name None odef]. rewrite (update_default cl name E0), E0. split; [reflexivity|]. split; [congruence|right; reflexivity].
    - exists []. rewrite app_nil_r. auto. }
  destruct O1 as (extra & O1 & O2 & O3).
  assert (Keep : forall c : client, (forall n, data c n = data cl1 n) \/ (forall n, data c n = (if str_eqb n name then commit_data v (data cl1 name) else data cl1 n)) \/ (exists sel, forall n, data c n = (if str_eqb n name then update_some (commit_doc v) sel (data cl1 name) else data cl1 n)) ->
    Forall2 (either eq (doc_committed v)) (data cl name) (data c name) /\ (forall n, n <> name -> data c n = data cl n)).
  { intros c [H|[H|(sel & H)]]; rewrite H.
    - rewrite D1. split; [apply F2_refl; left; reflexivity|]. intros n _. rewrite H. apply D1.
    - rewrite str_eqb_refl, D1. split; [apply F2_map; intro d; right; apply doc_committed_commit|]. intros n Hn. rewrite H. apply str_eqb_neq in Hn. rewrite Hn. apply D1.
    - rewrite str_eqb_refl, D1. split; [apply update_some_F2; apply doc_committed_commit|]. intros n Hn. rewrite H. apply str_eqb_neq in Hn. rewrite Hn. apply D1. }
  assert (Ex : added name [None; Some v] extra) by (destruct O3 as [->| ->]; [left; reflexivity|right; exists None; split; [left; reflexivity|reflexivity]]).
  destruct r as [| |sel|sel].
  - apply Same; reflexivity.
  - destruct (Keep cl1) as [K1 K2]; [left; reflexivity|]. split; [exact K1|]. split; [exact K2|]. exists (opts cl), extra. split; [exact O1|]. split; [apply F2_refl; left; reflexivity|]. auto.
  - destruct (Keep (set_data cl1 name (update_some (commit_doc v) sel (data cl1 name)))) as [K1 K2]; [right; right; exists sel; reflexivity|]. split; [exact K1|]. split; [exact K2|].
    exists (opts cl), extra. split; [exact O1|]. split; [apply F2_refl; left; reflexivity|]. auto.
  - destruct (Keep (set_opts (set_data cl1 name (commit_data v (data cl1 name))) (update_some (commit_odoc v) sel (opts cl1)))) as [K1 K2]; [right; left; reflexivity|]. split; [exact K1|]. split; [exact K2|].
    cbn [opts set_opts set_data]. rewrite O1. pose proof (update_some_F2 (odoc_committed v) (commit_odoc v) (odoc_committed_commit v) (opts cl ++ extra) sel) as F.
    apply Forall2_app_inv_l in F. destruct F as (old & ex & F1 & F2 & E). exists old, ex. split; [exact E|]. split; [exact F1|]. destruct O3 as [->| ->].
    + inversion F2; subst. split; [reflexivity|left; reflexivity].
    + split; [intro K; discriminate (O2 K)|]. inversion F2 as [|? y ? ? Hy F3]; subst. inversion F3; subst. right. destruct Hy as [<-|(H1 & H2 & H3)]; [exists None; split; [left; reflexivity|reflexivity]|].
      exists (Some v). split; [right; left; reflexivity|]. destruct y as [yn yv yo]. cbn in H1, H2, H3. subst. reflexivity.
Qed.

(** Nothing more is left to do if it comes to the end. *)
Theorem C93_finished : forall (cl : client) name v, interrupted oeq odef cl name v (ROptions (fun _ => true)) = fst (commit oeq odef cl name v).
Proof.
  intros cl name v. unfold interrupted, commit. destruct (negb (has_uncommitted cl name) && negb (has_uncommitted_options cl)); [reflexivity|]. cbv zeta. cbn [fst]. f_equal.
  generalize (opts (set_data (if negb (has_options cl) && negb (has_uncommitted_options cl) then update_options oeq cl name odef else cl) name
    (commit_data v (data (if negb (has_options cl) && negb (has_uncommitted_options cl) then update_options oeq cl name odef else cl) name)))).
  intro l. induction l as [|d l IH]; [reflexivity|]. cbn [update_some map]. f_equal. exact IH.
Qed.

(** Committing again commits all that is left: all documents have then one of the two versions. *)
Theorem C93_again : forall (cl : client) name v v2 r,
  let cl' := fst (commit oeq odef (interrupted oeq odef cl name v r) name v2) in
  Forall2 (either (doc_committed v) (doc_committed v2)) (data cl name) (data cl' name) /\
  ~ pending_data cl' name /\ (forall n, ~ pending_opts cl' n) /\
  (forall n, n <> name -> data cl' n = data cl n) /\
  exists old extra, opts cl' = old ++ extra /\ Forall2 (either (odoc_committed v) (odoc_committed v2)) (opts cl) old /\
    (opts cl <> [] -> extra = []) /\ added name [Some v; Some v2] extra.
Proof.
  intros cl name v v2 r. cbv zeta. destruct (C93_interrupted cl name v r) as (I1 & I2 & old & extra & I3 & I4 & I5 & I6). set (cl1 := interrupted oeq odef cl name v r) in *.
  destruct (commit oeq odef cl1 name v2) as [cl' o] eqn:E. cbn [fst]. destruct (C15_commit_exact oeq odef cl1 cl' name v2 o E) as (H1 & H2 & H3).
  destruct o as [w|].
  - destruct (H3 ltac:(discriminate)) as (_ & A1 & A2 & A3 & A4 & A5 & A6). split; [|split; [exact A2|split; [exact A4|split]]].
    + clear - I1 A1. revert A1. generalize (data cl' name). induction I1 as [|d d1 l l1 Hd _ IH]; intros m A1; inversion A1 as [|? d2 ? m' A1' A1'']; subst; constructor; [|exact (IH _ A1'')].
      destruct Hd as [<-|(B1 & B2 & B3 & B4)]; [right; exact A1'|left]. destruct A1' as (C1 & C2 & C3 & C4). unfold doc_committed. rewrite C1, C2, C3, C4, B1, B2, B3, B4. destruct (d_ver d); auto.
    + intros n Hn. rewrite (A3 n Hn). exact (I2 n Hn).
    + destruct (opts cl1) as [|od l1] eqn:E1.
      * destruct old; [|discriminate]. inversion I4; subst. exists [], [ODoc name (Some v2) odef]. rewrite (A6 eq_refl). split; [reflexivity|]. split; [constructor|]. split; [intro K; congruence|].
        right. exists (Some v2). split; [right; left; reflexivity|reflexivity].
      * assert (F := A5 ltac:(discriminate)). rewrite I3 in F. apply Forall2_app_inv_l in F. destruct F as (old' & ex' & F1 & F2 & E'). exists old', ex'. split; [exact E'|]. split; [|split].
        -- clear - I4 F1. revert old' F1. induction I4 as [|d d1 l l1 Hd _ IH]; intros m A1; inversion A1 as [|? d2 ? m' A1' A1'']; subst; constructor; [|exact (IH _ A1'')].
           destruct Hd as [<-|(B1 & B2 & B3)]; [right; exact A1'|left]. destruct A1' as (C1 & C2 & C3). unfold odoc_committed. rewrite C1, C2, C3, B1, B2, B3. destruct (od_ver d); auto.
        -- intro K. rewrite (I5 K) in F2. inversion F2. reflexivity.
        -- destruct I6 as [->|(u & Hu & ->)]; [inversion F2; left; reflexivity|]. inversion F2 as [|? y ? ? Hy F3]; subst. inversion F3; subst. right. destruct Hy as (B1 & B2 & B3). destruct y as [yn yv yo]. cbn in B1, B2, B3. subst.
           destruct Hu as [<-|[<-|[]]]; [exists (Some v2)|exists (Some v)]; (split; [cbn; auto|reflexivity]).
  - rewrite (H2 eq_refl) in *. destruct (proj1 H1 eq_refl) as [P1 P2]. split; [|split; [exact P1|split; [exact P2|split; [exact I2|]]]].
    + apply (F2_weak (doc_committed v)); [intros; left; assumption|]. apply F2_close; [exact I1|]. intros d Hd. unfold doc_committed. destruct (d_ver d) eqn:Ev; [auto|]. exfalso. apply P1. exists d. auto.
    + exists old, extra. split; [exact I3|]. assert (P3 : forall d, In d (opts cl1) -> od_ver d <> None) by (intros d Hd Hv; apply (P2 (od_name d)); exists d; auto). rewrite I3 in P3. split; [|split; [exact I5|]].
      * apply (F2_weak (odoc_committed v)); [intros; left; assumption|]. apply F2_close; [exact I4|]. intros d Hd. unfold odoc_committed. destruct (od_ver d) eqn:Ev; [auto|]. exfalso. exact (P3 d (in_or_app _ _ _ (or_introl Hd)) Ev).
      * destruct I6 as [->|(u & [<-|[<-|[]]] & ->)]; [left; reflexivity| |right; exists (Some v); split; [left; reflexivity|reflexivity]]. exfalso. apply (P3 (ODoc name None odef)); [apply in_or_app; right; left; reflexivity|reflexivity].
Qed.

(** ** Histories *)
Lemma docs_of_F2 (P : doc -> doc -> Prop) id l m : (forall d d', P d d' -> d_id d' = d_id d) -> Forall2 P l m -> Forall2 P (docs_of id l) (docs_of id m).
Proof.
  intros H F. induction F as [|d d' l m Hd _ IH]; [constructor|]. unfold docs_of in *. cbn [filter]. rewrite (H _ _ Hd). destruct (str_eqb (d_id d) id); [constructor; assumption|exact IH].
Qed.
(** [a_put] keeps or drops the committed versions *)
Lemma a_step_bound (b : Z) (A : astate) s : (match s with SCommit v => (b < v)%Z | _ => True end) ->
  (forall id r, A id = Some r -> Forall (fun e => (fst e <= b)%Z) (a_hist r)) ->
  forall id r, a_step A s id = Some r -> Forall (fun e => (fst e <= match s with SCommit v => v | _ => b end)%Z) (a_hist r).
Proof.
  intros Hs H id r. specialize (H id). destruct s as [mf recs|v|]; cbn [a_step].
  - unfold a_ingest. destruct (last_data id recs) as [new|]; [|apply H]. unfold a_put. destruct (A id) as [[[|[w d] h] p]|]; intro E.
    + destruct new; [discriminate|]. destruct p; [destruct (py_eqb _ _)|]; injection E as <-; constructor.
    + injection E as <-. exact (H _ eq_refl).
    + destruct new; [discriminate|]. injection E as <-. constructor.
  - unfold a_commit. assert (W : forall h, Forall (fun e : Z * dict => (fst e <= b)%Z) h -> Forall (fun e => (fst e <= v)%Z) h) by (intros h F; eapply Forall_impl; [|exact F]; cbn; intros; lia).
    destruct (A id) as [[h [p|]]|]; intro E; try discriminate; injection E as <-; cbn [a_hist]; [constructor; [cbn; lia|]|]; apply W; exact (H _ eq_refl).
  - unfold a_rollback. destruct (A id) as [[[|e h] p]|]; intro E; try discriminate. injection E as <-. exact (H _ eq_refl).
Qed.
Lemma clock_timely ss : forall (b : Z) (A : astate), (forall id r, A id = Some r -> Forall (fun e => (fst e <= b)%Z) (a_hist r)) -> clock_increasing b ss -> timely A ss.
Proof.
  induction ss as [|s ss IH]; intros b A H C; [exact I|]. cbn [timely]. destruct s as [mf recs|v|]; cbn [clock_increasing] in C.
  - split; [exact I|]. exact (IH b _ (a_step_bound b A (SIngest mf recs) I H) C).
  - destruct C as [Cv C]. split; [|exact (IH v _ (a_step_bound b A (SCommit v) Cv H) C)]. intros id h p E. specialize (H _ _ E). cbn [a_hist] in H. eapply Forall_impl; [|exact H]. cbn. intros; lia.
  - split; [exact I|]. exact (IH b _ (a_step_bound b A SRollback I H) C).
Qed.
Fixpoint last_clock (b : Z) (ss : list step) : Z := match ss with [] => b | SCommit v :: r => last_clock v r | _ :: r => last_clock b r end.
Lemma clock_split ss : forall (b : Z) (A : astate) rest, (forall id r, A id = Some r -> Forall (fun e => (fst e <= b)%Z) (a_hist r)) -> clock_increasing b (ss ++ rest) ->
  clock_increasing b ss /\ clock_increasing (last_clock b ss) rest /\ forall id r, a_run A ss id = Some r -> Forall (fun e => (fst e <= last_clock b ss)%Z) (a_hist r).
Proof.
  induction ss as [|s ss IH]; intros b A rest H C; [exact (conj I (conj C H))|]. unfold a_run. cbn [app clock_increasing last_clock fold_left] in *. destruct s as [mf recs|v|].
  - exact (IH b _ rest (a_step_bound b A (SIngest mf recs) I H) C).
  - destruct C as [Cv C]. destruct (IH v _ rest (a_step_bound b A (SCommit v) Cv H) C) as (I1 & I2 & I3). auto.
  - exact (IH b _ rest (a_step_bound b A SRollback I H) C).
Qed.
(** the versioned store of which some records are committed *)
Definition mixed (v : Z) (A : astate) (c : coll) : astate := fun id => match docs_of id c with [d] => if is_pending d then A id else a_commit v A id | _ => A id end.
Lemma mixed_rel b c c' A v : (b < v)%Z \/ (forall id h p, A id = Some (AR h (Some p)) -> Forall (fun e => (fst e < v)%Z) h) ->
  crel b c A -> Forall2 (either eq (doc_committed v)) c c' -> crel (Z.max b v) c' (mixed v A c').
Proof.
  intros Hv HC F id. assert (HC2 : crel (Z.max b v) (commit_data v c) (a_commit v A)).
  { destruct Hv as [Hv|Hv]; [|exact (commit_timely b c A v HC Hv)]. replace (Z.max b v) with v by lia. exact (commit_crel _ _ b c A v HC Hv). }
  specialize (HC id). specialize (HC2 id). rewrite docs_of_commit in HC2. unfold mixed.
  assert (G := docs_of_F2 _ id _ _ (fun d d' (H : either eq (doc_committed v) d d') => match H with or_introl e => f_equal d_id (eq_sym e) | or_intror K => proj1 K end) F).
  destruct (docs_of id c) as [|d [|d2 l]]; inversion G as [|? d' ? l' Gd Gl]; subst; [|inversion Gl; subst|exfalso; destruct (A id); exact HC].
  - destruct (A id); [contradiction|exact I].
  - cbn [map] in HC2. destruct (A id) as [r|] eqn:EA; [|contradiction]. assert (HM := rel_mono scalar_same wfd b (Z.max b v) d r ltac:(lia) HC). destruct Gd as [<-|K].
    + destruct (is_pending d) eqn:Ep; [exact HM|]. unfold a_commit in *. rewrite EA in *. destruct r as [h [p|]]; [|exact HM]. unfold is_pending in Ep. rewrite (proj1 (pending_keys _ _ _ _ HC)) in Ep. discriminate.
    + assert (E : d' = commit_doc v d) by (destruct K as (K1 & K2 & K3 & K4); unfold commit_doc; destruct d as [i w x y], d' as [i' w' x' y']; cbn in *; subst; destruct w; reflexivity). subst d'.
      replace (is_pending (commit_doc v d)) with false by (unfold is_pending, commit_doc; destruct (d_ver d) eqn:Ed; [rewrite Ed|]; reflexivity). exact HC2.
Qed.

(** Every record is as before or as committed, and all that is done later, such as another commit or a rollback, does with it what it does
    with such a record. No history is damaged. *)
Theorem C93_histories : forall calls (cl : client) name v r ss,
  do_calls oeq odef empty_client calls = Some cl ->
  clock_increasing 0 (proj name calls ++ SCommit v :: ss) -> Forall call_ok (proj name calls ++ ss) ->
  let A := a_run a_empty (proj name calls) in
  exists A', (forall id, A' id = A id \/ A' id = a_commit v A id) /\
  (forall id, shows same_entry (data (interrupted oeq odef cl name v r) name) id (A' id)) /\
  exists c, run (data (interrupted oeq odef cl name v r) name) ss = Some c /\ forall id, shows same_entry c id (a_run A' ss id).
Proof.
  intros calls cl name v r ss E C Hok A. apply Forall_app in Hok. destruct Hok as [Hok1 Hok2].
  destruct (clock_split (proj name calls) 0 a_empty (SCommit v :: ss) ltac:(discriminate) C) as (C1 & [C2 C3] & HB). fold A in HB.
  destruct (reach_client oeq odef calls cl name (conj C1 Hok1) E) as (b & HC). fold A in HC. destruct (C93_interrupted cl name v r) as (F & _). set (c1 := data (interrupted oeq odef cl name v r) name) in *.
  assert (T : forall id h p, A id = Some (AR h (Some p)) -> Forall (fun e => (fst e < v)%Z) h).
  { intros id h p EA. specialize (HB _ _ EA). cbn [a_hist] in HB. eapply Forall_impl; [|exact HB]. cbn. intros; lia. }
  assert (M := mixed_rel b (data cl name) c1 A v (or_intror T) HC F). exists (mixed v A c1).
  assert (MA : forall id, mixed v A c1 id = A id \/ mixed v A c1 id = a_commit v A id) by (intro id; unfold mixed; destruct (docs_of id c1) as [|d [|]]; [left; reflexivity|destruct (is_pending d); [left|right]; reflexivity|left; reflexivity]).
  split; [exact MA|]. split; [intro id; exact (crel_shows _ _ _ id M)|].
  assert (HB2 : forall id rr, mixed v A c1 id = Some rr -> Forall (fun e => (fst e <= v)%Z) (a_hist rr)).
  { intros id rr Er. destruct (MA id) as [Em|Em]; rewrite Em in Er.
    - eapply Forall_impl; [|exact (HB _ _ Er)]. cbn. intros; lia.
    - exact (a_step_bound _ A (SCommit v) C2 HB id rr Er). }
  destruct (run_timely ss _ c1 _ M (clock_timely ss v _ HB2 C3) Hok2) as (c & b' & Er & HC'). exists c. split; [exact Er|]. intro id. exact (crel_shows _ _ _ id HC').
Qed.

(** In particular, every record has its new data exactly once after the next commit, with one of the two versions. *)
Theorem C93_completed_partial : forall calls (cl : client) name v v2 r,
  do_calls oeq odef empty_client calls = Some cl -> client_ok name (calls ++ [CCommit name v; CCommit name v2]) ->
  let A := a_run a_empty (proj name calls) in
  let cl' := fst (commit oeq odef (interrupted oeq odef cl name v r) name v2) in
  ~ pending_data cl' name /\ (forall n, ~ pending_opts cl' n) /\
  forall id, shows same_entry (data cl' name) id (a_commit v A id) \/ shows same_entry (data cl' name) id (a_commit v2 A id).
Proof.
  intros calls cl name v v2 r E [C Hok] A cl'. destruct (C93_again cl name v v2 r) as (_ & H1 & H2 & _). fold cl' in H1, H2. split; [exact H1|]. split; [exact H2|].
  assert (EP : proj name (calls ++ [CCommit name v; CCommit name v2]) = proj name calls ++ [SCommit v; SCommit v2]).
  { unfold proj. rewrite flat_map_app. cbn [flat_map]. unfold proj_call at 2 3. cbn [call_db]. rewrite str_eqb_refl. reflexivity. }
  rewrite EP in C, Hok. destruct (C93_histories calls cl name v r [SCommit v2] E C) as (A' & HA & _ & c & Ec & Hs).
  { apply Forall_app in Hok. apply Forall_app. split; [apply Hok|]. repeat constructor. }
  cbn [run run_step bind] in Ec. assert (Ed : data cl' name = c). { unfold cl'. rewrite commit_data_of, str_eqb_refl. congruence. }
  intro id. specialize (Hs id). rewrite Ed. cbn [a_run fold_left a_step] in Hs. fold A in HA. unfold a_commit at 1 in Hs. unfold a_run in Hs. cbn [fold_left a_step] in Hs. destruct (HA id) as [Q|Q].
  - right. unfold a_commit in *. rewrite Q in Hs. exact Hs.
  - left. unfold a_commit in *. rewrite Q in Hs. destruct (A id) as [[h [p|]]|]; exact Hs.
Qed.

(** The options come last: as long as data wait, no options have been committed. *)
Theorem C93_order : forall (cl : client) name v r,
  let cl' := interrupted oeq odef cl name v r in
  pending_data cl' name -> opts cl' = opts cl \/ (opts cl = [] /\ opts cl' = [ODoc name None odef]).
Proof.
  intros cl name v r. cbv zeta. unfold interrupted. destruct (negb (has_uncommitted cl name) && negb (has_uncommitted_options cl)); [left; reflexivity|]. cbv zeta.
  set (cl1 := if negb (has_options cl) && negb (has_uncommitted_options cl) then update_options oeq cl name odef else cl).
  assert (K : opts cl1 = opts cl \/ (opts cl = [] /\ opts cl1 = [ODoc name None odef])).
  { unfold cl1. destruct (negb (has_options cl) && negb (has_uncommitted_options cl)) eqn:E; [|left; reflexivity]. right. pose proof (default_opts cl E) as E0. split; [exact E0|exact (update_default cl name E0)]. }
  destruct r as [| |sel|sel]; [left; reflexivity|intros _; exact K|intros _; exact K|].
  intros (d & Hd & Hv). exfalso. cbn [data set_opts set_data] in Hd. rewrite str_eqb_refl in Hd. unfold commit_data in Hd. apply in_map_iff in Hd. destruct Hd as (d0 & <- & _). unfold commit_doc in Hv. destruct (d_ver d0) eqn:E; cbn in Hv; congruence.
Qed.
End Props.
Print Assumptions C93_order.
Print Assumptions C93_interrupted.
Print Assumptions C93_finished.
Print Assumptions C93_again.
Print Assumptions C93_histories.
Print Assumptions C93_completed_partial.

(** ** What goes wrong *)
(** Two records of one ingest, the first commit of the database, which comes to the record a only. *)
Definition two_calls : list (call nat) := [CIngest (lit "db") None [(lit "a", D [("x", VInt 1)]); (lit "b", D [("x", VInt 1)])]].
Definition first_only : reached := RData (fun n => Nat.eqb n 0).
(** The two records get different versions, of which one is the moment of another commit. Before that, at version 5 there is a and no b,
    and a sync raises (ValueError: min() of an empty sequence), as the options wait. *)
Theorem C93_refuted : exists calls (cl cl' cl'' : client nat) v v2, v <> v2 /\
  do_calls Nat.eqb 0 empty_client calls = Some cl /\ client_ok (lit "db") (calls ++ [CCommit (lit "db") v; CCommit (lit "db") v2]) /\
  cl' = interrupted Nat.eqb 0 cl (lit "db") v first_only /\ cl'' = fst (commit Nat.eqb 0 cl' (lit "db") v2) /\
  map iter_doc (data cl (lit "db")) = [Some [(None, D [("x", VInt 1)])]; Some [(None, D [("x", VInt 1)])]] /\
  map iter_doc (data cl' (lit "db")) = [Some [(Some v, D [("x", VInt 1)])]; Some [(None, D [("x", VInt 1)])]] /\
  sync toy_parse toy_eq MAX_DOCS_PER_ARC cl' (lit "db") false empty_es = None /\
  map iter_doc (data cl'' (lit "db")) = [Some [(Some v, D [("x", VInt 1)])]; Some [(Some v2, D [("x", VInt 1)])]].
Proof.
  exists two_calls. eexists. eexists. eexists. exists 5%Z, 7%Z. split; [discriminate|]. split; [vm_compute; reflexivity|]. split.
  - split; [vm_compute; auto|]. unfold two_calls. cbn. repeat constructor.
    intros i j r r' Hi Hj E. destruct i as [|[|[|i]]], j as [|[|[|j]]]; cbn in Hi, Hj; try discriminate; reflexivity.
  - split; [reflexivity|]. split; [reflexivity|]. repeat split; vm_compute; reflexivity.
Qed.
Print Assumptions C93_refuted.

(** The hypotheses of C93_histories, for a commit interrupted at three points, of a database with options and a record that was committed before. *)
Definition long_calls : list (call nat) :=
  [CUpdateOptions (lit "db") 3; CIngest (lit "db") None [(lit "a", D [("x", VInt 1)])]; CCommit (lit "db") 4;
   CIngest (lit "db") None [(lit "b", D [("x", VInt 1)]); (lit "a", D [("x", VInt 2)])]; CUpdateOptions (lit "db") 4].
Example C93_example : exists cl, do_calls Nat.eqb 0 empty_client long_calls = Some cl /\
  clock_increasing 0 (proj (lit "db") long_calls ++ SCommit 6 :: [SRollback]) /\ Forall call_ok (proj (lit "db") long_calls ++ [SRollback]) /\
  map iter_doc (data (interrupted Nat.eqb 0 cl (lit "db") 6 first_only) (lit "db")) =
    [Some [(Some 6%Z, D [("x", VInt 2)]); (Some 4%Z, D [("x", VInt 1)])]; Some [(None, D [("x", VInt 1)])]] /\
  get_options (interrupted Nat.eqb 0 cl (lit "db") 6 first_only) (lit "db") = [(4%Z, 3)] /\
  get_options (interrupted Nat.eqb 0 cl (lit "db") 6 (ROptions (fun n => Nat.eqb n 0))) (lit "db") = [(4%Z, 3)] /\
  map d_ver (data (interrupted Nat.eqb 0 cl (lit "db") 6 (ROptions (fun n => Nat.eqb n 0))) (lit "db")) = [Some 6%Z; Some 6%Z] /\
  get_options (interrupted Nat.eqb 0 cl (lit "db") 6 (ROptions (fun n => Nat.eqb n 1))) (lit "db") = [(4%Z, 3); (6%Z, 4)].
Proof.
  eexists. split; [vm_compute; reflexivity|]. split; [vm_compute; auto|]. split; [|repeat split; vm_compute; reflexivity].
  assert (S : forall a b x y, str_eqb a b = false -> wfd x -> wfd y -> call_ok (SIngest None [(a, x); (b, y)])).
  { intros a b x y Hn Hx Hy. split; [|repeat constructor; assumption]. intros i j r r' Hi Hj E. destruct i as [|[|[|i]]], j as [|[|[|j]]]; cbn in Hi, Hj; try discriminate; reflexivity. }
  assert (S1 : forall a x, wfd x -> call_ok (SIngest None [(a, x)])).
  { intros a x Hx. split; [|repeat constructor; assumption]. intros i j r r' Hi Hj E. destruct i as [|[|i]], j as [|[|j]]; cbn in Hi, Hj; try discriminate; reflexivity. }
  unfold long_calls. cbn -[lit D call_ok]. constructor; [apply S1; vm_compute; reflexivity|]. constructor; [exact I|]. constructor; [apply S; vm_compute; reflexivity|]. repeat constructor.
Qed.
