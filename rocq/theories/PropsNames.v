(** C48, C51, C64: what the names and the delete lines of one database mean to Elasticsearch and MongoDB. *)
From Coq Require Import String Ascii.
From Coq Require Import List ZArith NArith Bool Lia.
From Verif Require Import PyVal Time Names Json.
Import ListNotations.
Open Scope string_scope.
Open Scope list_scope.
Open Scope nat_scope.

(** ** C48 *)
(** no quotes, backslashes and control characters *)
Definition json_plain (s : pystr) : Prop := forall c, In c s -> (32 <= c)%N /\ c <> 34%N /\ c <> 92%N.
Lemma json_plain_b s : json_plain s <-> forallb plain_char s = true.
Proof.
  rewrite forallb_forall. unfold json_plain, plain_char. split; intros H c Hc; specialize (H c Hc).
  - destruct H as (H1 & H2 & H3). rewrite !andb_true_iff, !negb_true_iff, N.leb_le, !N.eqb_neq. auto.
  - rewrite !andb_true_iff, !negb_true_iff, N.leb_le, !N.eqb_neq in H. tauto.
Qed.
(** A record id with a backslash makes the delete go to another record; other ids make the line unreadable, or
    name another index. *)
Theorem C48_delete_refuted :
  (exists index id id', id <> id' /\ json_plain index /\ decode (serialise_delete index id) = Some (delete_action index id'))
  /\ (exists index id, json_plain index /\ decode (serialise_delete index id) = None)
  /\ (exists index id index' id', index <> index' /\ json_plain index /\ exists more, decode (serialise_delete index id) =
        Some (JObj [(lit "delete", JObj [(lit "_index", JStr index); (lit "_id", JStr id'); (lit "_index", JStr index'); (lit "_id", JStr more)])])).
Proof.
  split; [|split].
  - exists (lit "data-x-latest"), (lit "a\/b"), (lit "a/b"). split; [discriminate|]. split; [apply json_plain_b; reflexivity|]. reflexivity.
  - exists (lit "data-x-latest"), (lit "5"" nail"). split; [apply json_plain_b; reflexivity|]. reflexivity.
  - exists (lit "data-x-latest"), (lit "1"",""_index"":""data-y-latest"",""_id"":""7"), (lit "data-y-latest"), (lit "1"). split; [discriminate|]. split; [apply json_plain_b; reflexivity|]. exists (lit "7"). reflexivity.
Qed.
Print Assumptions C48_delete_refuted.
(** It is exact precisely for names and ids without special characters. *)
Theorem C48_delete_partial : forall index id,
  decode (serialise_delete index id) = Some (delete_action index id) <-> json_plain index /\ json_plain id.
Proof.
  intros i d. rewrite !json_plain_b. destruct (decode_delete i d) as [n ->]. split.
  - intro E.
    assert (Hi : exists r, lex (i ++ 34%N :: 44%N :: 34%N :: lit "_id" ++ 34%N :: 58%N :: 34%N :: d ++ lit """}}") = Some (i, r)).
    { destruct (lex _) as [[i' r]|]; [|discriminate]. exists r. f_equal. f_equal. cbn [to_str] in E. unfold finish_members at 2 in E.
      destruct (skip r) as [|e r4]; [discriminate|]. destruct (N.eqb e 125); [|destruct (N.eqb e 44); [|discriminate]; destruct (members _ (skip r4)) as [[l r5]|]; [|discriminate]].
      all: cbn [to_obj] in E; unfold finish_members in E; match type of E with context [skip ?x] => destruct (skip x) as [|e' r6]; [discriminate|] end;
        (destruct (N.eqb e' 125); [|destruct (N.eqb e' 44); [|discriminate]; match type of E with context [members ?a ?b] => destruct (members a b) as [[l' r7]|]; [|discriminate] end]);
        cbn [to_obj finish] in E; match type of E with context [skip ?x] => destruct (skip x); [|discriminate] end; unfold delete_action in E; congruence. }
    destruct Hi as [r Hi]. pose proof Hi as Hj. apply lex_exact in Hj; [|right; eexists; reflexivity]. destruct Hj as [Pi ->]. split; [exact Pi|].
    rewrite Hi in E. cbn [to_str] in E. unfold finish_members at 2 in E.
    assert (Sk : forall x, skip (44%N :: x) = 44%N :: x) by reflexivity. assert (Sq : forall x, skip (34%N :: x) = 34%N :: x) by reflexivity. rewrite Sk, Sq in E. cbn [N.eqb Pos.eqb] in E.
    rewrite decode_id in E.
    assert (Hd : exists r, lex (d ++ 34%N :: lit "}}") = Some (d, r)).
    { destruct (lex _) as [[d' r]|]; [|discriminate]. exists r. f_equal. f_equal. cbn [to_str] in E. unfold finish_members at 2 in E.
      destruct (skip r) as [|e r4]; [discriminate|]. destruct (N.eqb e 125); [|destruct (N.eqb e 44); [|discriminate]; destruct (members _ (skip r4)) as [[l r5]|]; [|discriminate]].
      all: cbn [to_obj] in E; unfold finish_members in E; match type of E with context [skip ?x] => destruct (skip x) as [|e' r6]; [discriminate|] end;
        (destruct (N.eqb e' 125); [|destruct (N.eqb e' 44); [|discriminate]; match type of E with context [members ?a ?b] => destruct (members a b) as [[l' r7]|]; [|discriminate] end]);
        cbn [to_obj finish] in E; match type of E with context [skip ?x] => destruct (skip x); [|discriminate] end; unfold delete_action in E; congruence. }
    destruct Hd as [r Hd]. apply lex_exact in Hd; [apply Hd|]. left. intros [D|[D|[]]]; discriminate.
  - intros [Hi Hd]. rewrite (lex_plain i Hi). cbn [to_str]. unfold finish_members at 2.
    assert (Sk : forall x, skip (44%N :: x) = 44%N :: x) by reflexivity. assert (Sq : forall x, skip (34%N :: x) = 34%N :: x) by reflexivity. rewrite Sk, Sq. cbn [N.eqb Pos.eqb].
    rewrite decode_id, (lex_plain d Hd). reflexivity.
Qed.
Print Assumptions C48_delete_partial.
Example C48_example : json_plain (latest (lit "birds")) /\ json_plain (lit "a9-" ++ [233; 116; 233]%N) /\ decode (serialise_delete (latest (lit "birds")) (lit "a9")) = Some (delete_action (lit "data-birds-latest") (lit "a9")).
Proof. split; [apply json_plain_b; reflexivity|]. split; [apply json_plain_b; reflexivity|]. reflexivity. Qed.

(** ** C51 *)
(** the indices of a database *)
Definition index_of (name s : pystr) : Prop := s = latest name \/ exists i, s = get_arc name i.
(** Names are those of one database and index only. *)
Theorem C51_names_distinct : forall n n' : pystr,
  (forall s, index_of n s -> index_of n' s -> n = n')
  /\ (forall i, latest n <> get_arc n' i)
  /\ (forall i i', get_arc n i = get_arc n' i' -> n = n' /\ i = i')
  /\ (data_collection n = data_collection n' -> n = n')
  /\ data_collection n <> options_collection /\ data_collection n <> lock_collection.
Proof.
  assert (L : forall n n', latest n = latest n' -> n = n') by (intros n n' E; unfold latest, base in E; rewrite <- !app_assoc in E; apply app_inv_head, app_inv_tail in E; exact E).
  assert (LA : forall n n' i, latest n <> get_arc n' i).
  { intros n n' i E. destruct (str_N_last i) as (r & c & Er & Hc). unfold latest, get_arc in E. rewrite Er in E. change (lit "-latest") with (lit "-lates" ++ [116%N]) in E. rewrite !app_assoc in E. apply app_inj_tail in E. destruct E as [_ <-]. discriminate. }
  assert (A : forall n n' i i', get_arc n i = get_arc n' i' -> n = n' /\ i = i').
  { intros n n' i i' E. pose proof (f_equal last_part E) as F. rewrite !last_part_arc in F. apply str_int_inj in F. assert (i = i') as <- by lia. split; [|reflexivity].
    unfold get_arc, arc_base, base in E. rewrite !app_assoc in E. apply app_inv_tail in E. rewrite <- !app_assoc in E. apply app_inv_head in E. rewrite app_assoc, app_assoc in E. apply app_inv_tail in E. apply app_inv_tail in E. exact E. }
  intros n n'. split; [|split; [exact (LA n n')|split; [exact (A n n')|split; [|split; discriminate]]]].
  - intros s [->|[i ->]] [E|[j E]]; [exact (L _ _ E)|exfalso; exact (LA _ _ _ E)|exfalso; exact (LA _ _ _ (eq_sym E))|apply A in E; apply E].
  - intro E. unfold data_collection in E. apply app_inv_head in E. exact E.
Qed.
Print Assumptions C51_names_distinct.

(** The wildcards select indices of other databases: searches of [a] see the data of [a-b], synchronising [a]
    fails once [a-arc-b] is there, and resynchronising [a] deletes the indices of [a-arc-b]. *)
Theorem C51_wildcards_refuted : exists n n' other existing,
  n <> n' /\ n <> other /\ (forall s, In s existing -> index_of n s \/ index_of n' s \/ index_of other s)
  /\ (exists s, index_of n' s /\ In s (get_current_indices existing n))
  /\ arc_index existing n = None
  /\ (exists s, index_of other s /\ In s existing /\ ~ In s (delete_arc_indices existing n)).
Proof.
  exists (lit "a"), (lit "a-b"), (lit "a-arc-b"), [latest (lit "a"); latest (lit "a-b"); latest (lit "a-arc-b")].
  split; [discriminate|]. split; [discriminate|]. split.
  { intros s [<-|[<-|[<-|[]]]]; [left|right; left|right; right]; left; reflexivity. }
  split; [exists (latest (lit "a-b")); split; [left; reflexivity|vm_compute; auto]|]. split; [reflexivity|].
  exists (latest (lit "a-arc-b")). split; [left; reflexivity|]. split; [cbn [In]; auto|]. vm_compute. intros [H|[H|[]]]; discriminate H.
Qed.
Print Assumptions C51_wildcards_refuted.
(** Exactly which databases they reach. *)
Definition extends (n n' : pystr) : Prop := exists u, n' = n ++ lit "-" ++ u.
Theorem C51_wildcards_partial : forall n n', no_star n ->
  (matches (wildcard n) (latest n') = true <-> n = n' \/ extends n n')
  /\ (forall i, matches (wildcard n) (get_arc n' i) = true <-> n = n' \/ extends n n' \/ n = n' ++ lit "-arc")
  /\ (matches (arc_wildcard n) (latest n') = true <-> n' = n ++ lit "-arc" \/ extends (n ++ lit "-arc") n')
  /\ (forall i, matches (arc_wildcard n) (get_arc n' i) = true <-> n = n' \/ n' = n ++ lit "-arc" \/ extends (n ++ lit "-arc") n').
Proof.
  assert (P : forall m s, no_star m -> matches (lit "data-" ++ m ++ lit "-*") (lit "data-" ++ s) = true <-> exists r, s = m ++ 45%N :: r).
  { intros m s H. change (lit "-*") with ([45%N] ++ [42%N]). rewrite (app_assoc m), (app_assoc (lit "data-")), matches_prefix.
    - split; [intros (r & E)|intros (r & ->)]; [exists r; rewrite <- !app_assoc in E; apply app_inv_head in E; exact E|exists r; rewrite <- !app_assoc; reflexivity].
    - intros c Hc. apply in_app_or in Hc. destruct Hc as [Hc|Hc]; [vm_compute in Hc; intuition congruence|]. apply in_app_or in Hc. destruct Hc as [Hc|[<-|[]]]; [|discriminate]. intros ->. exact (H Hc). }
  assert (PL : forall m n', no_star m -> matches (lit "data-" ++ m ++ lit "-*") (latest n') = true <-> m = n' \/ extends m n').
  { intros m n' H. unfold latest, base. rewrite <- app_assoc, P by exact H. split.
    - intros (r & E). symmetry in E. apply dash_latest in E. destruct E as [E|(u & E)]; [left; exact E|right; exists u; exact E].
    - intros [->|(u & ->)]; [exists (lit "latest"); reflexivity|]. exists (u ++ lit "-latest"). rewrite <- app_assoc. reflexivity. }
  assert (PA : forall m n' i, no_star m -> matches (lit "data-" ++ m ++ lit "-*") (get_arc n' i) = true <-> m = n' \/ extends m n' \/ m = n' ++ lit "-arc").
  { intros m n' i H. assert (E0 : get_arc n' i = lit "data-" ++ n' ++ lit "-arc-" ++ str_int (Z.of_N i)) by (unfold get_arc, arc_base, base; rewrite <- !app_assoc; reflexivity).
    rewrite E0, P by exact H. split.
    - intros (r & E). symmetry in E. apply dash_arc in E. destruct E as [E|[(u & E)|E]]; [left; exact E|right; left; exists u; exact E|right; right; exact E].
    - intros [->|[(u & ->)| ->]]; [exists (lit "arc-" ++ str_int (Z.of_N i)); reflexivity| |].
      + exists (u ++ lit "-arc-" ++ str_int (Z.of_N i)). rewrite <- !app_assoc. reflexivity.
      + exists (str_int (Z.of_N i)). rewrite <- app_assoc. reflexivity. }
  intros n n' H. assert (HA : no_star (n ++ lit "-arc")).
  { intro K. apply in_app_or in K. destruct K as [K|K]; [exact (H K)|vm_compute in K; intuition discriminate]. }
  assert (Ew : wildcard n = lit "data-" ++ n ++ lit "-*") by (unfold wildcard, base; rewrite <- app_assoc; reflexivity).
  assert (Ea : arc_wildcard n = lit "data-" ++ (n ++ lit "-arc") ++ lit "-*") by (unfold arc_wildcard, arc_base, base; rewrite <- !app_assoc; reflexivity).
  rewrite Ew, Ea. split; [apply PL, H|]. split; [intro i; apply PA, H|]. split.
  - rewrite PL by exact HA. split; intros [E|E]; auto.
  - intro i. rewrite PA by exact HA. split.
    + intros [E|[E|E]]; auto. left. apply app_inv_tail in E. exact E.
    + intros [->|[E|E]]; auto.
Qed.
Print Assumptions C51_wildcards_partial.
(** So databases without dashes in their names never meet: the indices selected are the ones of the database. *)
Theorem C51_dashless_partial : forall names existing n, In n names -> (forall m, In m names -> no_star m /\ ~ In 45%N m) ->
  (forall s, In s existing -> exists m, In m names /\ index_of m s) ->
  (forall s, In s (get_current_indices existing n) <-> In s existing /\ index_of n s)
  /\ (forall s, In s (delete_arc_indices existing n) <-> In s existing /\ forall i, s <> get_arc n i)
  /\ exists z, arc_index existing n = Some z /\ (0 <= z)%Z /\ (forall i, In (get_arc n i) existing -> (Z.of_N i <= z)%Z)
       /\ ((exists i, In (get_arc n i) existing) -> In (get_arc n (Z.to_N z)) existing) /\ ((forall i, ~ In (get_arc n i) existing) -> z = 0%Z).
Proof.
  intros names existing n Hn Hd He. destruct (Hd n Hn) as [Hs Hm].
  assert (X : forall m m', In m' names -> ~ extends m m') by (intros m m' Hm' [u ->]; apply (proj2 (Hd _ Hm')); apply in_or_app; right; left; reflexivity).
  assert (Y : forall m m', In m' names -> m' <> m ++ lit "-arc") by (intros m m' Hm' ->; apply (proj2 (Hd _ Hm')); apply in_or_app; right; left; reflexivity).
  assert (W : forall s, In s existing -> matches (wildcard n) s = true <-> index_of n s).
  { intros s Hs'. destruct (He s Hs') as (m & Im & [->|[i ->]]); destruct (C51_wildcards_partial n m Hs) as (A & B & _ & _).
    - rewrite A. split; [intros [->|E]; [left; reflexivity|exfalso; exact (X _ _ Im E)]|]. intro K. left. exact (proj1 (C51_names_distinct n m) _ K (or_introl eq_refl)).
    - rewrite B. split; [intros [->|[E|E]]; [right; exists i; reflexivity|exfalso; exact (X _ _ Im E)|exfalso; exact (Y _ _ Hn E)]|]. intro K. left. apply (proj1 (C51_names_distinct n m) _ K). right. exists i. reflexivity. }
  assert (V : forall s, In s existing -> matches (arc_wildcard n) s = true <-> exists i, s = get_arc n i).
  { intros s Hs'. destruct (He s Hs') as (m & Im & [->|[i ->]]); destruct (C51_wildcards_partial n m Hs) as (_ & _ & A & B).
    - rewrite A. split; [intros [E|E]; [exfalso; exact (Y _ _ Im E)|exfalso; exact (X _ _ Im E)]|]. intros [i E]. exfalso. exact (proj1 (proj2 (C51_names_distinct m n)) i E).
    - rewrite B. split; [intros [->|[E|E]]; [exists i; reflexivity|exfalso; exact (Y _ _ Im E)|exfalso; exact (X _ _ Im E)]|]. intros [j E]. left. symmetry. apply (proj1 (proj2 (proj2 (C51_names_distinct m n))) i j E). }
  split; [|split].
  - intro s. unfold get_current_indices, get_alias. rewrite filter_In. split; intros [A B]; (split; [exact A|]); apply (W s A); exact B.
  - intro s. unfold delete_arc_indices. rewrite filter_In, negb_true_iff. split; intros [A B]; (split; [exact A|]).
    + intros i E. assert (C : matches (arc_wildcard n) s = true) by (apply (V s A); exists i; exact E). congruence.
    + destruct (matches (arc_wildcard n) s) eqn:C; [|reflexivity]. apply (V s A) in C. destruct C as [i C]. exfalso. exact (B i C).
  - set (sel := get_alias existing (arc_wildcard n)).
    assert (Hsel : forall s, In s sel <-> In s existing /\ exists i, s = get_arc n i).
    { intro s. unfold sel, get_alias. rewrite filter_In. split; intros [A B]; (split; [exact A|]); apply (V s A); exact B. }
    assert (R : forall l, (forall s, In s l -> exists i, s = get_arc n i) -> exists zs, all_ints l = Some zs /\ (forall z, In z zs <-> exists i, z = Z.of_N i /\ In (get_arc n i) l)).
    { induction l as [|s l IH]; intro Hl; [exists []; split; [reflexivity|]; intro z; split; [intros []|intros (i & _ & [])]|].
      destruct (Hl s (or_introl eq_refl)) as [i ->]. destruct IH as (zs & E & I); [intros x Hx; apply Hl; right; exact Hx|]. exists (Z.of_N i :: zs). split; [cbn [all_ints]; rewrite last_part_arc, int_str_int, E; reflexivity|].
      intro z. cbn [In]. rewrite I. split.
      - intros [<-|(j & -> & K)]; [exists i; auto|exists j; auto].
      - intros (j & -> & [K|K]); [left; apply (proj1 (proj2 (proj2 (C51_names_distinct n n)))) in K; destruct K as [_ ->]; reflexivity|right; exists j; auto]. }
    destruct (R sel) as (zs & E & I); [intros s K; apply Hsel in K; apply K|]. unfold arc_index. fold sel. rewrite E.
    assert (I' : forall z, In z zs <-> exists i, z = Z.of_N i /\ In (get_arc n i) existing).
    { intro z. rewrite I. split; intros (i & -> & K); exists i; (split; [reflexivity|]); [apply Hsel in K; apply K|]. apply Hsel. split; [exact K|exists i; reflexivity]. }
    destruct zs as [|z zs].
    + exists 0%Z. split; [reflexivity|]. split; [lia|]. assert (N : forall i, ~ In (get_arc n i) existing) by (intros i K; apply (proj2 (I' (Z.of_N i))); exists i; auto). split; [intros i K; exfalso; exact (N i K)|]. split; [intros [i K]; exfalso; exact (N i K)|reflexivity].
    + set (mx := fold_left Z.max zs z).
      assert (M1 : In mx (z :: zs)).
      { unfold mx. clear. revert z. induction zs as [|x r IH]; intro z; [left; reflexivity|]. cbn [fold_left]. destruct (IH (Z.max z x)) as [<-|H]; [|right; right; exact H]. destruct (Z.max_spec z x) as [[_ ->]|[_ ->]]; [right; left|left]; reflexivity. }
      assert (M2 : forall x, In x (z :: zs) -> (x <= mx)%Z).
      { unfold mx. clear. revert z. induction zs as [|y r IH]; intros z x H; [destruct H as [<-|[]]; cbn; lia|]. cbn [fold_left]. pose proof (IH (Z.max z y) (Z.max z y) (or_introl eq_refl)) as M. destruct H as [<-|[<-|H]]; [lia|lia|]. apply IH. right. exact H. }
      exists mx. split; [reflexivity|]. pose proof M1 as M3. apply I' in M3. destruct M3 as (i & Ei & K). split; [lia|]. split; [intros j Kj; apply M2, I'; exists j; auto|]. split.
      * intros _. rewrite Ei, N2Z.id. exact K.
      * intro N. exfalso. exact (N i K).
Qed.
Print Assumptions C51_dashless_partial.
Example C51_example : let existing := [latest (lit "birds"); get_arc (lit "birds") 0; get_arc (lit "birds") 10; latest (lit "fish"); get_arc (lit "birds") 9; get_arc (lit "fish") 11] in
  (forall s, In s existing -> exists m, In m [lit "birds"; lit "fish"] /\ index_of m s) /\ no_star (lit "birds") /\ ~ In 45%N (lit "birds")
  /\ arc_index existing (lit "birds") = Some 10%Z /\ delete_arc_indices existing (lit "birds") = [latest (lit "birds"); latest (lit "fish"); get_arc (lit "fish") 11].
Proof.
  cbn zeta. split.
  { intros s H. cbn [In] in H. destruct H as [<-|[<-|[<-|[<-|[<-|[<-|[]]]]]]]; [exists (lit "birds")|exists (lit "birds")|exists (lit "birds")|exists (lit "fish")|exists (lit "birds")|exists (lit "fish")]; (split; [cbn [In]; auto|]); unfold index_of; [left|right|right|left|right|right]; try reflexivity; eexists; reflexivity. }
  split; [intro H; vm_compute in H; intuition discriminate|]. split; [intro H; vm_compute in H; intuition discriminate|]. split; reflexivity.
Qed.

(** ** C64: every index gets its template *)
Theorem C64_templates : forall n, template_of (latest n) = Some LatestTemplate /\ forall i, template_of (get_arc n i) = Some ArcTemplate.
Proof.
  assert (D : forall c, In c (lit "data-") -> c <> 42%N) by (intros c H; vm_compute in H; intuition congruence).
  intro n. split.
  - unfold template_of. assert (E : matches (lit "data-*-latest") (latest n) = true).
    { change (lit "data-*-latest") with (lit "data-" ++ 42%N :: lit "-latest"). apply matches_app; [exact D|]. exists (n ++ lit "-latest"). split; [unfold latest, base; rewrite <- app_assoc; reflexivity|].
      apply matches_star. exists n, (lit "-latest"). split; reflexivity. }
    rewrite E. reflexivity.
  - intro i. unfold template_of. destruct (matches (lit "data-*-latest") (get_arc n i)) eqn:E.
    + exfalso. change (lit "data-*-latest") with (lit "data-" ++ 42%N :: lit "-latest") in E. apply matches_app in E; [|exact D]. destruct E as (r & E & M). apply matches_star in M. destruct M as (a & b & -> & M).
      apply matches_plain in M; [|intros c K; vm_compute in K; intuition congruence]. subst b. destruct (str_N_last i) as (s & c & Er & Hc). unfold get_arc in E. rewrite Er in E. change (lit "-latest") with (lit "-lates" ++ [116%N]) in E. rewrite !app_assoc in E. apply app_inj_tail in E. destruct E as [_ ->]. discriminate.
    + assert (F : matches (lit "data-*-arc-*") (get_arc n i) = true).
      { change (lit "data-*-arc-*") with (lit "data-" ++ 42%N :: lit "-arc-" ++ [42%N]). apply matches_app; [exact D|]. exists (n ++ lit "-arc-" ++ str_int (Z.of_N i)). split; [unfold get_arc, arc_base, base; rewrite <- !app_assoc; reflexivity|].
        apply matches_star. exists n, (lit "-arc-" ++ str_int (Z.of_N i)). split; [reflexivity|]. apply matches_prefix; [intros c H; vm_compute in H; intuition congruence|]. exists (str_int (Z.of_N i)). reflexivity. }
      rewrite F. reflexivity.
Qed.
Print Assumptions C64_templates.
(** also where both patterns match *)
Example C64_example : matches (lit "data-*-arc-*") (latest (lit "a-arc-b")) = true /\ template_of (latest (lit "a-arc-b")) = Some LatestTemplate /\ template_of (get_arc (lit "x-latest") 3) = Some ArcTemplate.
Proof. vm_compute. auto. Qed.
