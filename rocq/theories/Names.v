(** Names of indices and collections (indexing/index.py:29-72, manager.py:66-89), the wildcards that select
    indices, and the serialisation of deletes (indexing/index.py:113-121). *)
From Coq Require Import String Ascii.
From Coq Require Import List ZArith NArith Bool Lia.
From Verif Require Import PyVal Time.
Import ListNotations.
Open Scope string_scope.
Open Scope list_scope.
Open Scope nat_scope.

(** indexing/index.py:53-62 *)
Definition base (name : pystr) : pystr := lit "data-" ++ name.
(** indexing/index.py:57-62 *)
Definition latest (name : pystr) : pystr := base name ++ lit "-latest".
(** indexing/index.py:57-62 *)
Definition arc_base (name : pystr) : pystr := base name ++ lit "-arc".
(** indexing/index.py:57-62 *)
Definition wildcard (name : pystr) : pystr := base name ++ lit "-*".
(** indexing/index.py:57-62 *)
Definition arc_wildcard (name : pystr) : pystr := arc_base name ++ lit "-*".
(** indexing/index.py:64-71 *)
Definition get_arc (name : pystr) (index : N) : pystr := arc_base name ++ lit "-" ++ str_int (Z.of_N index).
(** manager.py:27-28, 66-89 *)
Definition data_collection (name : pystr) : pystr := lit "data-" ++ name.
(** manager.py:28, 66-72 *)
Definition options_collection : pystr := lit "options".
(** manager.py:29, 83-89 *)
Definition lock_collection : pystr := lit "locks".

(** Elasticsearch: does the index expression [p] select the index [s]? [*] (code 42) stands for any text. The
    other features of index expressions (commas, exclusions, date math) need characters that are not allowed in
    index names. (manager.py:133, 148) *)
Fixpoint matches (p s : pystr) : bool :=
  match p with
  | [] => match s with [] => true | _ => false end
  | c :: p' => if N.eqb c 42 then (fix star s := matches p' s || match s with [] => false | _ :: s' => star s' end) s
               else match s with [] => false | d :: s' => N.eqb c d && matches p' s' end
  end.
(** indices.get_alias(index=p): the existing indices selected (manager.py:133, 148, 497, 527) *)
Definition get_alias (existing : list pystr) (p : pystr) : list pystr := filter (matches p) existing.
(** manager.py:126-134, without the sorting *)
Definition get_current_indices (existing : list pystr) (name : pystr) : list pystr := get_alias existing (wildcard name).
(** name.split("-")[-1] (manager.py:153) *)
Fixpoint last_part_from (acc s : pystr) : pystr :=
  match s with [] => acc | c :: r => if N.eqb c 45 then last_part_from [] r else last_part_from (acc ++ [c]) r end.
(** manager.py:153: [split("-")[-1]] *)
Definition last_part (s : pystr) : pystr := last_part_from [] s.
(** manager.py:136-160: the number of the latest arc; [None] is ValueError. 0 if there are none. *)
Fixpoint all_ints (l : list pystr) : option (list Z) :=
  match l with
  | [] => Some []
  | s :: r => match int_str (last_part s), all_ints r with Some z, Some zs => Some (z :: zs) | _, _ => None end
  end.
(** manager.py:136-160: the number of the latest arc *)
Definition arc_index (existing : list pystr) (name : pystr) : option Z :=
  match all_ints (get_alias existing (arc_wildcard name)) with
  | Some [] => Some 0%Z
  | Some (z :: zs) => Some (fold_left Z.max zs z)
  | None => None
  end.
(** manager.py:496-501, 526-531: deletes the arc indices *)
Definition delete_arc_indices (existing : list pystr) (name : pystr) : list pystr :=
  filter (fun s => negb (matches (arc_wildcard name) s)) existing.

(** Templates: indexing/templates.py:22-52, the patterns and priorities. Elasticsearch uses the matching
    template with the highest priority. *)
Inductive template := LatestTemplate | ArcTemplate.
(** indexing/templates.py:22-52: the template Elasticsearch takes for an index *)
Definition template_of (index : pystr) : option template :=
  if matches (lit "data-*-latest") index then Some LatestTemplate
  else if matches (lit "data-*-arc-*") index then Some ArcTemplate else None.

(** ** Wildcards *)
Lemma matches_app a : (forall c, In c a -> c <> 42%N) -> forall p s, matches (a ++ p) s = true <-> exists r, s = a ++ r /\ matches p r = true.
Proof.
  induction a as [|c a IH]; intros H p s; cbn [app].
  - split; [intro M; exists s; auto|intros (r & -> & M); exact M].
  - cbn [matches]. destruct (N.eqb_spec c 42) as [E|_]; [exfalso; exact (H c (or_introl eq_refl) E)|]. destruct s as [|d s]; [split; [discriminate|intros (r & E & _); discriminate]|].
    rewrite andb_true_iff, N.eqb_eq, IH by (intros x Hx; apply H; right; exact Hx). split.
    + intros (-> & r & -> & M). exists r. auto.
    + intros (r & E & M). injection E as -> ->. split; [reflexivity|]. exists r. auto.
Qed.
Lemma matches_star p s : matches (42%N :: p) s = true <-> exists a r, s = a ++ r /\ matches p r = true.
Proof.
  cbn [matches N.eqb Pos.eqb]. induction s as [|c s IH].
  - rewrite orb_false_r. split; [intro M; exists [], []; auto|]. intros (a & r & E & M). symmetry in E. apply app_eq_nil in E. destruct E as [_ ->]. exact M.
  - rewrite orb_true_iff, IH. split.
    + intros [M|(a & r & -> & M)]; [exists [], (c :: s); auto|exists (c :: a), r; auto].
    + intros ([|d a] & r & E & M); [left; cbn in E; rewrite E; exact M|]. right. injection E as -> ->. exists a, r. auto.
Qed.
Lemma matches_any s : matches [42%N] s = true.
Proof. apply matches_star. exists s, []. rewrite app_nil_r. auto. Qed.
Lemma matches_prefix a : (forall c, In c a -> c <> 42%N) -> forall s, matches (a ++ [42%N]) s = true <-> exists r, s = a ++ r.
Proof. intros H s. rewrite matches_app by exact H. split; [intros (r & E & _); exists r; exact E|intros (r & E); exists r; split; [exact E|apply matches_any]]. Qed.
Lemma matches_plain p : (forall c, In c p -> c <> 42%N) -> forall s, matches p s = true <-> s = p.
Proof. intros H s. rewrite <- (app_nil_r p) at 1. rewrite matches_app by exact H. split; [intros (r & -> & M); destruct r; [apply app_nil_r|discriminate]|intros ->; exists []; rewrite app_nil_r; auto]. Qed.

Lemma uint_digits u c : In c (uint_chars u) -> is_digit c = true.
Proof. induction u; cbn [uint_chars In]; [intros []| | | | | | | | | |]; (intros [<-|H]; [reflexivity|auto]). Qed.
Lemma str_N_digits n c : In c (str_int (Z.of_N n)) -> is_digit c = true.
Proof. unfold str_int. destruct (Z.of_N n) eqn:E; [|apply uint_digits|lia]. apply uint_digits. Qed.
Lemma str_N_last n : exists r c, str_int (Z.of_N n) = r ++ [c] /\ is_digit c = true.
Proof.
  assert (N : str_int (Z.of_N n) <> []).
  { pose proof (int_str_int (Z.of_N n)) as H. intro K. rewrite K in H. discriminate. }
  destruct (exists_last N) as (r & c & E). exists r, c. split; [exact E|]. apply (str_N_digits n). rewrite E. apply in_or_app. right. left. reflexivity.
Qed.
(** specification: no wildcards in the name *)
Definition no_star (name : pystr) : Prop := ~ In 42%N name.

(** [m-] at the start of [n-latest], of [n-arc-i] *)
Lemma dash_latest m n r : m ++ 45%N :: r = n ++ lit "-latest" -> m = n \/ exists u, n = m ++ 45%N :: u.
Proof.
  intro E. apply app_eq_app in E. destruct E as [u [[-> E]|[-> E]]].
  - left. destruct u as [|c u]; [apply app_nil_r|]. exfalso. vm_compute in E. injection E as _ E. do 6 (destruct u as [|? u]; [discriminate E|injection E as _ E]). destruct u; discriminate.
  - destruct u as [|c u]; [left; symmetry; apply app_nil_r|]. right. cbn [app] in E. injection E as <- _. exists u. reflexivity.
Qed.
Lemma dash_arc m n r i : m ++ 45%N :: r = n ++ lit "-arc-" ++ str_int (Z.of_N i) -> m = n \/ (exists u, n = m ++ 45%N :: u) \/ m = n ++ lit "-arc".
Proof.
  intro E. apply app_eq_app in E. destruct E as [u [[-> E]|[-> E]]].
  - change (lit "-arc-") with [45;97;114;99;45]%N in E. cbn [app] in E. destruct u as [|c u]; [left; apply app_nil_r|]. right. right. cbn [app] in E. injection E as E0 E. subst c.
    destruct u as [|c1 u]; [discriminate E|]. cbn [app] in E; injection E as Ex E; subst. destruct u as [|c2 u]; [discriminate E|]. cbn [app] in E; injection E as Ex E; subst. destruct u as [|c3 u]; [discriminate E|]. cbn [app] in E; injection E as Ex E; subst.
    destruct u as [|c4 u]; [reflexivity|]. exfalso. cbn [app] in E. injection E as Ex E; subst. assert (H : In 45%N (str_int (Z.of_N i))) by (rewrite E; apply in_or_app; right; left; reflexivity). apply str_N_digits in H. discriminate.
  - destruct u as [|c u]; [left; symmetry; apply app_nil_r|]. right. left. cbn [app] in E. injection E as <- _. exists u. reflexivity.
Qed.
Lemma last_part_digits s : (forall c, In c s -> c <> 45%N) -> forall acc, last_part_from acc s = acc ++ s.
Proof. induction s as [|c s IH]; intros H acc; cbn [last_part_from]; [symmetry; apply app_nil_r|]. destruct (N.eqb_spec c 45) as [E|_]; [exfalso; exact (H c (or_introl eq_refl) E)|]. rewrite IH by (intros x Hx; apply H; right; exact Hx). rewrite <- app_assoc. reflexivity. Qed.
Lemma last_part_dash a s : forall acc, last_part_from acc (a ++ 45%N :: s) = last_part_from [] s.
Proof. induction a as [|c a IH]; intro acc; cbn [app last_part_from]; [reflexivity|]. destruct (N.eqb c 45); apply IH. Qed.
Lemma last_part_arc name i : last_part (get_arc name i) = str_int (Z.of_N i).
Proof.
  unfold last_part, get_arc. change (lit "-" ++ str_int (Z.of_N i)) with (45%N :: str_int (Z.of_N i)). rewrite last_part_dash, last_part_digits; [reflexivity|].
  intros c H. apply str_N_digits in H. intros ->. discriminate.
Qed.

(** ** Deletes (indexing/index.py:118-121) *)
Definition serialise_delete (index doc_id : pystr) : pystr :=
  lit "{""delete"":{""_index"":""" ++ index ++ lit """,""_id"":""" ++ doc_id ++ lit """}}".
