(** The listing of data fields and parsed fields (indexing/fields.py:113-307, manager.py:639-727). *)
From Coq Require Import String Ascii.
From Coq Require Import List ZArith NArith Bool Lia Sorted Permutation.
From Coq Require Import Floats.SpecFloat.
From Verif Require Import PyVal Time Parser ParserProofs ParserTypes Search.
Import ListNotations.
Open Scope string_scope.
Open Scope list_scope.
Open Scope nat_scope.

(** indexing/fields.py:113-126 [DataType], 47-70 [ParsedType]: the names of the types *)
Definition data_type_names : list pystr := map lit ["#n"; "#s"; "#i"; "#f"; "#b"; "#l"; "#d"].
(** indexing/fields.py:47-70: the names of [ParsedType] *)
Definition parsed_type_names : list pystr := [pt_u; pt_n; pt_d; pt_b; pt_t; pt_k; pt_gp; pt_gs].

(** str.split(sep) (indexing/fields.py:172, 191, 270, 296) *)
Fixpoint split_on (sep : N) (s : pystr) : list pystr :=
  match s with
  | [] => [[]]
  | c :: r => if N.eqb c sep then [] :: split_on sep r else match split_on sep r with h :: t => (c :: h) :: t | [] => [[c]] end
  end.
(** str.count(".") (manager.py:669-671, 681-682, 720-722) *)
Definition dots (s : pystr) : nat := length (filter (N.eqb dot) s).
(** str.startswith (manager.py:671) *)
Fixpoint starts_with (p s : pystr) : bool :=
  match p, s with [], _ => true | c :: p', d :: s' => N.eqb c d && starts_with p' s' | _, [] => false end.

(** What a field holds while the terms are read: count and type_counts (a Counter). (indexing/fields.py:145-173, 278-297) *)
Definition counts : Type := nat * list (pystr * nat).
(** Counter: 0 for missing keys (indexing/fields.py:145-183) *)
Definition counter_get (m : list (pystr * nat)) (t : pystr) : nat := match dget m t with Some n => n | None => 0 end.
(** fields.py:163-173 and 287-297 [add] *)
Definition add_types (names : list pystr) (n : nat) (m : list (pystr * nat)) : list (pystr * nat) :=
  fold_left (fun m t => dset m t (counter_get m t + n)) names m.
(** manager.py:660-664 and 707-711, one term; [None]: ValueError (no dot, or a name that is not of a type) *)
Definition add_term (valid : list pystr) (acc : list (pystr * counts)) (term : pystr * nat) : option (list (pystr * counts)) :=
  match rsplit_dot (fst term) with
  | None => None
  | Some (path, raw) =>
      let names := split_on 44 raw in
      if forallb (fun t => memb t valid) names then
        let (n, m) := match dget acc path with Some c => c | None => (0, []) end in
        Some (dset acc path (n + snd term, add_types names (snd term) m))
      else None
  end.
(** manager.py:658-664, 705-711: all terms *)
Fixpoint add_terms (valid : list pystr) (acc : list (pystr * counts)) (terms : list (pystr * nat)) : option (list (pystr * counts)) :=
  match terms with
  | [] => Some acc
  | t :: r => match add_term valid acc t with Some acc' => add_terms valid acc' r | None => None end
  end.

(** fields.py:144-183 [DataField]; fields.py:277-307 [ParsedField]. The linked fields are given by their paths (there is one field for each path). *)
Record field := Field { f_path : pystr; f_count : nat; f_types : list (pystr * nat); f_parent : option pystr; f_children : list pystr }.
(** indexing/fields.py:197-247, 317-361: the counts of types *)
Definition type_count (f : field) (t : pystr) : nat := counter_get (f_types f) t.
(** manager.py:660-664: a field before the links are set *)
Definition plain_field (e : pystr * counts) : field := Field (fst e) (fst (snd e)) (snd (snd e)) None [].
(** fields.py:175-183, 255-257 [is_container] *)
Definition is_container (f : field) : bool := (0 <? type_count f (lit "#l")) || (0 <? type_count f (lit "#d")).
(** manager.py:671-673 *)
Definition is_child (f c : field) : bool := (dots (f_path c) =? dots (f_path f) + 1) && starts_with (dotted (f_path f) []) (f_path c).
(** manager.py:666-676: the children in the order of the dict; the parent is the last one assigned *)
Definition link_fields (fs : list field) : list field :=
  map (fun x => Field (f_path x) (f_count x) (f_types x)
    (match rev (filter (fun f => is_container f && is_child f x) fs) with f :: _ => Some (f_path f) | [] => None end)
    (if is_container x then map f_path (filter (is_child x) fs) else [])) fs.

(** fields.py:263-270 [DataField.parsed_path] *)
Definition field_parsed_path (f : field) : pystr := join dot (filter (fun c => negb (str_eqb c [])) (split (f_path f))).

(** list.sort (stable): [before x y] says that [x], which comes first, may stay before [y] *)
Section Sort.
Context {A : Type} (before : A -> A -> bool).
(** manager.py:681-688, 720-727 *)
Fixpoint sinsert (x : A) (l : list A) : list A := match l with [] => [x] | y :: r => if before x y then x :: l else y :: sinsert x r end.
(** list.sort with a key (manager.py:639-714) *)
Definition ssort (l : list A) : list A := fold_right sinsert [] l.
End Sort.
(** manager.py:678-688 and 713-727: by dots (reversed), then path, then count (reversed) *)
Definition order_fields (fs : list field) : list field :=
  ssort (fun x y => f_count y <=? f_count x)
    (ssort (fun x y => str_leb (f_path x) (f_path y))
       (ssort (fun x y => dots (f_path y) <=? dots (f_path x)) fs)).

(** manager.py:639-688 [get_data_fields], given the data_types of the documents found by the search;
    [None]: an exception (or not enough fuel). [ltb]: the order of the terms. *)
Definition get_data_fields (ltb : pystr -> pystr -> bool) (fuel : nat) (docs : list (list pystr)) : option (list field) :=
  match iter_terms ltb fuel docs 50 with
  | None => None
  | Some terms => option_map (fun acc => order_fields (link_fields (map plain_field acc))) (add_terms data_type_names [] terms)
  end.
(** manager.py:690-727 [get_parsed_fields] *)
Definition get_parsed_fields (ltb : pystr -> pystr -> bool) (fuel : nat) (docs : list (list pystr)) : option (list field) :=
  match iter_terms ltb fuel docs 50 with
  | None => None
  | Some terms => option_map (fun acc => order_fields (map plain_field acc)) (add_terms parsed_type_names [] terms)
  end.

(** ** Strings *)
Lemma memb_In s l : memb s l = true <-> In s l.
Proof. unfold memb. rewrite existsb_exists. split; [intros (x & Hx & E); apply str_eqb_eq in E; subst x; exact Hx|intro H; exists s; split; [exact H|apply str_eqb_refl]]. Qed.
Lemma split_on_nonnil sep s : split_on sep s <> [].
Proof. destruct s as [|c s]; cbn; [discriminate|]. destruct (N.eqb c sep); [discriminate|]. destruct (split_on sep s); discriminate. Qed.
Lemma split_on_app sep a b : split_on sep (a ++ sep :: b) = split_on sep a ++ split_on sep b.
Proof.
  induction a as [|c a IH]; cbn; [rewrite N.eqb_refl; reflexivity|]. destruct (N.eqb c sep); [rewrite IH; reflexivity|]. rewrite IH. pose proof (split_on_nonnil sep a). destruct (split_on sep a); [contradiction|reflexivity].
Qed.
Lemma split_on_free sep s : ~ In sep s -> split_on sep s = [s].
Proof.
  induction s as [|c s IH]; intro H; [reflexivity|]. cbn. destruct (N.eqb_spec c sep) as [->|Nc]; [exfalso; apply H; left; reflexivity|]. rewrite IH by (intro K; apply H; right; exact K). reflexivity.
Qed.
Lemma split_on_join sep l : l <> [] -> Forall (fun s => ~ In sep s) l -> split_on sep (join sep l) = l.
Proof.
  induction l as [|x l IH]; intros Hn Hd; [contradiction|]. inversion Hd as [|? ? H1 H2]; subst. destruct l as [|y l]; [apply split_on_free, H1|].
  change (join sep (x :: y :: l)) with (x ++ sep :: join sep (y :: l)). rewrite split_on_app, (split_on_free sep x H1), IH by (discriminate || assumption). reflexivity.
Qed.
Lemma valid_chars t : In t data_type_names \/ In t parsed_type_names -> ~ In 44%N t /\ dotless t.
Proof. unfold dotless. intros [H|H]; cbn [In data_type_names parsed_type_names map] in H; repeat (destruct H as [<-|H]; [split; vm_compute; intuition discriminate|]); destruct H. Qed.
Lemma starts_app p s : starts_with p s = true <-> exists r, s = p ++ r.
Proof.
  revert s. induction p as [|c p IH]; intro s; cbn; [split; [exists s; reflexivity|reflexivity]|]. destruct s as [|d s]; [split; [discriminate|intros (r & Q); discriminate]|]. rewrite andb_true_iff, IH. split.
  - intros [E (r & ->)]. apply N.eqb_eq in E. subst d. exists r. reflexivity.
  - intros (r & Q). injection Q as -> ->. split; [apply N.eqb_refl|exists r; reflexivity].
Qed.
Lemma dots_app a b : dots (a ++ b) = dots a + dots b.
Proof. unfold dots. rewrite filter_app, app_length. reflexivity. Qed.
Lemma dots_zero s : dots s = 0 <-> dotless s.
Proof.
  unfold dots, dotless. split.
  - intros H K. assert (Q : In dot (filter (N.eqb dot) s)) by (apply filter_In; split; [exact K|apply N.eqb_refl]). destruct (filter _ s); [destruct Q|discriminate].
  - intro H. induction s as [|c s IH]; [reflexivity|]. cbn [filter]. destruct (N.eqb_spec dot c) as [<-|N]; [exfalso; apply H; left; reflexivity|]. apply IH. intro K. apply H. right. exact K.
Qed.
Lemma dots_dotted p k : dots (dotted p k) = S (dots p + dots k).
Proof. unfold dotted. rewrite dots_app. change (dots (dot :: k)) with (S (dots k)). lia. Qed.
(** being a child: the path is longer by one component *)
Lemma is_child_iff f c : is_child f c = true <-> exists k, dotless k /\ f_path c = dotted (f_path f) k.
Proof.
  unfold is_child. rewrite andb_true_iff, Nat.eqb_eq, starts_app. split.
  - intros [E (r & Q)]. exists r. assert (Q' : f_path c = dotted (f_path f) r) by (rewrite Q; unfold dotted; rewrite <- app_assoc; reflexivity). split; [|exact Q']. rewrite Q', dots_dotted in E. apply dots_zero. lia.
  - intros (k & D & Q). rewrite Q, dots_dotted. apply dots_zero in D. split; [lia|]. exists k. unfold dotted. rewrite <- app_assoc. reflexivity.
Qed.

(** ** Reading the terms *)
Lemma add_types_get names n : forall m t, NoDup names -> counter_get (add_types names n m) t = counter_get m t + if memb t names then n else 0.
Proof.
  unfold add_types. induction names as [|x names IH]; intros m t Hn; cbn [fold_left]; [cbn; lia|]. inversion Hn as [|? ? N1 N2]; subst. rewrite IH by exact N2. unfold counter_get at 1. rewrite dget_dset.
  cbn [memb existsb]. destruct (str_eqb t x) eqn:E.
  - apply str_eqb_eq in E. subst x. assert (Q : memb t names = false) by (apply not_true_is_false; rewrite memb_In; exact N1). unfold memb in Q. cbn [orb]. unfold memb. rewrite Q. lia.
  - cbn [orb]. fold (counter_get m t). unfold memb. lia.
Qed.
(** a term that is read: path and types (specification, models no code) *)
Definition entry_ok (valid : list pystr) (g : pystr * list pystr) : Prop := snd g <> [] /\ NoDup (snd g) /\ Forall (fun t => In t valid) (snd g).
(** specification: names of types have no comma and no dot *)
Definition valid_ok (valid : list pystr) : Prop := forall t, In t valid -> ~ In 44%N t /\ dotless t.
Lemma join_dotless sep ts : sep <> dot -> Forall dotless ts -> dotless (join sep ts).
Proof.
  intro Hs. induction 1 as [|x ts Hx Ht IH]; [intros []|]. destruct ts as [|y ts]; [exact Hx|]. change (join sep (x :: y :: ts)) with (x ++ sep :: join sep (y :: ts)). intro K. apply in_app_iff in K. destruct K as [K|[K|K]]; [exact (Hx K)|congruence|exact (IH K)].
Qed.
Lemma show_read valid g : valid_ok valid -> entry_ok valid g -> rsplit_dot (show g) = Some (fst g, join 44 (snd g)) /\ split_on 44 (join 44 (snd g)) = snd g /\ forallb (fun t => memb t valid) (snd g) = true.
Proof.
  intros V (E1 & E2 & E3). rewrite Forall_forall in E3. split; [|split].
  - apply rsplit_dotted, join_dotless; [discriminate|]. apply Forall_forall. intros t Ht. apply V, E3, Ht.
  - apply split_on_join; [exact E1|]. apply Forall_forall. intros t Ht. apply V, E3, Ht.
  - apply forallb_forall. intros t Ht. apply memb_In, E3, Ht.
Qed.
(** specification *)
Definition sum (l : list nat) : nat := fold_right Nat.add 0 l.
Lemma sum_app a b : sum (a ++ b) = sum a + sum b.
Proof. induction a as [|x a IH]; cbn [app sum fold_right]; [reflexivity|]. fold (sum (a ++ b)) (sum a). lia. Qed.
(** The terms are given by path, types and count. (specification, models no code) *)
Definition at_path (p : pystr) (e : (pystr * list pystr) * nat) : bool := str_eqb p (fst (fst e)).
(** specification: the term has the path and the type *)
Definition at_type (p t : pystr) (e : (pystr * list pystr) * nat) : bool := str_eqb p (fst (fst e)) && memb t (snd (fst e)).
(** specification: the documents of the terms of a kind *)
Definition total (P : (pystr * list pystr) * nat -> bool) (es : list ((pystr * list pystr) * nat)) : nat := sum (map snd (filter P es)).
Lemma add_terms_spec valid : valid_ok valid -> forall es acc, Forall (fun e => entry_ok valid (fst e)) es -> NoDup (dkeys acc) ->
  exists acc', add_terms valid acc (map (fun e => (show (fst e), snd e)) es) = Some acc' /\ NoDup (dkeys acc') /\
    (forall p, In p (dkeys acc') <-> In p (dkeys acc) \/ In p (map (fun e => fst (fst e)) es)) /\
    (forall p n m, dget acc' p = Some (n, m) ->
       n = (match dget acc p with Some c => fst c | None => 0 end) + total (at_path p) es /\
       forall t, counter_get m t = (match dget acc p with Some c => counter_get (snd c) t | None => 0 end) + total (at_type p t) es).
Proof.
  intros V es. induction es as [|[[p0 ts] c] es IH]; intros acc He Hn.
  - exists acc. split; [reflexivity|]. split; [exact Hn|]. split; [intro p; cbn [map In]; tauto|]. intros p n m E. rewrite E. unfold total. cbn. split; [lia|intro t; lia].
  - inversion He as [|? ? E1 E2]; subst. cbn [fst] in E1. destruct (show_read valid (p0, ts) V E1) as (R1 & R2 & R3). cbn [fst snd] in *.
    cbn [map add_terms]. unfold add_term. cbn [fst snd]. rewrite R1, R2, R3. destruct E1 as (_ & Nts & _). cbn [snd] in Nts.
    destruct (match dget acc p0 with Some c0 => c0 | None => (0, []) end) as [n0 m0] eqn:E0.
    destruct (IH (dset acc p0 (n0 + c, add_types ts c m0)) E2 (NoDup_dset _ _ _ Hn)) as (acc' & A1 & A2 & A3 & A4). exists acc'. split; [exact A1|]. split; [exact A2|]. split.
    + intro p. rewrite A3, In_dkeys_dset. cbn [In fst]. split; [intros [[->|Q]|Q]; auto|intros [Q|[->|Q]]; auto].
    + intros p n m Hp. destruct (A4 p n m Hp) as [B1 B2]. rewrite dget_dset in B1, B2. unfold total, at_path, at_type in *. cbn [filter fst snd]. destruct (str_eqb p p0) eqn:E.
      * apply str_eqb_eq in E. subst p0. cbn [fst snd map andb sum fold_right] in *. split.
        -- rewrite B1. destruct (dget acc p) as [[x y]|]; cbn [fst] in *; injection E0 as <- <-; unfold sum; lia.
        -- intro t. rewrite B2, (add_types_get ts c m0 t Nts). destruct (dget acc p) as [[x y]|]; cbn [snd] in *; injection E0 as <- <-; destruct (memb t ts); cbn [map snd sum fold_right counter_get dget]; unfold sum; lia.
      * cbn [andb]. split; [exact B1|exact B2].
Qed.

(** ** Counting documents *)
(** [number Q l n]: [n] of the elements of [l] satisfy [Q] (specification, models no code) *)
Inductive number {A} (Q : A -> Prop) : list A -> nat -> Prop :=
| nu_nil : number Q [] 0
| nu_yes x l n : Q x -> number Q l n -> number Q (x :: l) (S n)
| nu_no x l n : ~ Q x -> number Q l n -> number Q (x :: l) n.
Lemma number_filter {A} (Q : A -> Prop) (b : A -> bool) l : (forall x, In x l -> (b x = true <-> Q x)) -> number Q l (length (filter b l)).
Proof.
  induction l as [|x l IH]; intro H; [constructor|]. cbn [filter]. destruct (b x) eqn:E; cbn [length]; constructor.
  - apply H; [left; reflexivity|exact E].
  - apply IH. intros y Hy. apply H. right. exact Hy.
  - intro K. apply H in K; [congruence|left; reflexivity].
  - apply IH. intros y Hy. apply H. right. exact Hy.
Qed.
Lemma number_unique {A} (Q : A -> Prop) l n m : number Q l n -> number Q l m -> n = m.
Proof. intro H. revert m. induction H; intros m M; inversion M; subst; try contradiction; auto. Qed.
Lemma number_map {A B} (f : A -> B) (Q : B -> Prop) l n : number Q (map f l) n <-> number (fun x => Q (f x)) l n.
Proof.
  revert n. induction l as [|x l IH]; intro n; cbn [map]; (split; intro H; inversion H; subst; constructor; auto; apply IH; assumption).
Qed.
Lemma number_ext {A} (Q R : A -> Prop) l n : (forall x, In x l -> (Q x <-> R x)) -> number Q l n -> number R l n.
Proof.
  intros E H. induction H as [|x l n Hx H IH|x l n Hx H IH]; [constructor| |].
  - apply nu_yes; [apply E; [left; reflexivity|exact Hx]|]. apply IH. intros y Hy. apply E. right. exact Hy.
  - apply nu_no; [intro K; apply Hx, E; [left; reflexivity|exact K]|]. apply IH. intros y Hy. apply E. right. exact Hy.
Qed.
Section Exchange.
Context {K : Type} (mem : K -> list K -> bool) (P : K -> bool).
(** counting by value and counting by document *)
Lemma exchange ks docs : sum (map (fun v => length (filter (mem v) docs)) (filter P ks)) = sum (map (fun d => length (filter (fun v => P v && mem v d) ks)) docs).
Proof.
  assert (F : forall d, filter (fun v => P v && mem v d) ks = filter (fun v => mem v d) (filter P ks)).
  { intro d. induction ks as [|v ks IH]; [reflexivity|]. cbn [filter]. destruct (P v); cbn [filter andb]; rewrite IH; reflexivity. }
  assert (G : forall l, sum (map (fun v => length (filter (mem v) docs)) l) = sum (map (fun d => length (filter (fun v => mem v d) l)) docs)); [|rewrite G; f_equal; apply map_ext; intro d; rewrite F; reflexivity].
  clear F. intro l. induction docs as [|d docs IH].
  - cbn [map filter length]. induction l as [|x l IH]; [reflexivity|exact IH].
  - change (sum (map (fun d => length (filter (fun v => mem v d) l)) (d :: docs))) with (length (filter (fun v => mem v d) l) + sum (map (fun d => length (filter (fun v => mem v d) l)) docs)). rewrite <- IH. clear IH.
    induction l as [|v l IH]; [reflexivity|].
    change (sum (map (fun v => length (filter (mem v) (d :: docs))) (v :: l))) with (length (filter (mem v) (d :: docs)) + sum (map (fun v => length (filter (mem v) (d :: docs))) l)). rewrite IH.
    change (sum (map (fun v => length (filter (mem v) docs)) (v :: l))) with (length (filter (mem v) docs) + sum (map (fun v => length (filter (mem v) docs)) l)). cbn [filter]. destruct (mem v d); cbn [length]; lia.
Qed.
End Exchange.
Lemma same_length {A} (P : A -> bool) (Q : A -> bool) ks d : NoDup ks -> NoDup d -> incl d ks ->
  (forall v, Q v = true <-> P v = true /\ In v d) -> length (filter Q ks) = length (filter P d).
Proof.
  intros N1 N2 I H. apply Permutation_length. apply NoDup_Permutation; [apply NoDup_filter, N1|apply NoDup_filter, N2|]. intro x. rewrite !filter_In, H. split; [tauto|]. intros [X Y]. split; [apply I, X|tauto].
Qed.
Lemma sum_bool {A} (b : A -> bool) (f : A -> nat) l : (forall x, In x l -> f x = if b x then 1 else 0) -> sum (map f l) = length (filter b l).
Proof.
  induction l as [|x l IH]; intro H; [reflexivity|]. cbn [map sum fold_right filter]. fold (sum (map f l)). rewrite IH by (intros y Hy; apply H; right; exact Hy). rewrite (H x (or_introl eq_refl)). destruct (b x); reflexivity.
Qed.

(** ** Sorting *)
Section SortFacts.
Context {A : Type} (before : A -> A -> bool).
Lemma sinsert_perm x l : Permutation (sinsert before x l) (x :: l).
Proof. induction l as [|y l IH]; cbn [sinsert]; [reflexivity|]. destruct (before x y); [reflexivity|]. rewrite IH. apply perm_swap. Qed.
Lemma ssort_perm l : Permutation (ssort before l) l.
Proof. induction l as [|x l IH]; [reflexivity|]. cbn [ssort fold_right]. rewrite sinsert_perm. constructor. exact IH. Qed.
Hypothesis total_before : forall x y, before x y = true \/ before y x = true.
Hypothesis trans_before : forall x y z, before x y = true -> before y z = true -> before x z = true.
(** A stable sort: elements that may come in either order stay as they were. *)
Lemma sinsert_sorted (R : A -> A -> Prop) x l : Forall (R x) l -> StronglySorted (fun a b => before a b = true /\ (before b a = true -> R a b)) l ->
  StronglySorted (fun a b => before a b = true /\ (before b a = true -> R a b)) (sinsert before x l).
Proof.
  intros Hx Hs. induction Hs as [|y l Hs IH Hf]; cbn [sinsert]; [repeat constructor|]. inversion Hx as [|? ? X1 X2]; subst. destruct (before x y) eqn:E.
  - constructor; [constructor; assumption|]. constructor; [auto|]. rewrite Forall_forall in *. intros z Hz. destruct (Hf z Hz) as [F1 F2]. split; [exact (trans_before _ _ _ E F1)|intros _; exact (X2 z Hz)].
  - constructor; [exact (IH X2)|]. apply Forall_forall. intros z Hz. apply (Permutation_in _ (sinsert_perm x l)) in Hz. destruct Hz as [<-|Hz]; [|rewrite Forall_forall in Hf; exact (Hf z Hz)].
    destruct (total_before x y) as [Q|Q]; [congruence|]. split; [exact Q|intro Q'; congruence].
Qed.
Lemma ssort_sorted (R : A -> A -> Prop) l : StronglySorted R l -> StronglySorted (fun a b => before a b = true /\ (before b a = true -> R a b)) (ssort before l).
Proof.
  induction 1 as [|x l Hs IH Hf]; [constructor|]. cbn [ssort fold_right]. apply sinsert_sorted; [|exact IH]. apply Forall_forall. intros y Hy. apply (Permutation_in _ (ssort_perm l)) in Hy. rewrite Forall_forall in Hf. exact (Hf y Hy).
Qed.
End SortFacts.
(** the order of the result: most frequent first, then by path (specification, models no code) *)
Definition in_order (x y : field) : Prop := f_count y < f_count x \/ (f_count x = f_count y /\ str_leb (f_path x) (f_path y) = true).
Lemma order_perm fs : Permutation (order_fields fs) fs.
Proof. unfold order_fields. rewrite !ssort_perm. reflexivity. Qed.
Lemma any_sorted {A} (l : list A) : StronglySorted (fun _ _ => True) l.
Proof. induction l as [|x l IH]; constructor; [exact IH|]. apply Forall_forall. auto. Qed.
Lemma sorted_weaken {A} (R S : A -> A -> Prop) l : (forall x y, R x y -> S x y) -> StronglySorted R l -> StronglySorted S l.
Proof. intros H. induction 1 as [|x l Hs IH Hf]; constructor; [exact IH|]. eapply Forall_impl; [|exact Hf]. auto. Qed.
Lemma order_sorted fs : StronglySorted in_order (order_fields fs).
Proof.
  unfold order_fields. set (l := ssort (fun x y => dots (f_path y) <=? dots (f_path x)) fs).
  pose proof (ssort_sorted (fun x y => str_leb (f_path x) (f_path y)) (fun x y => leb_total (f_path x) (f_path y)) (fun x y z => leb_trans (f_path x) (f_path y) (f_path z)) (fun _ _ => True) l (any_sorted l)) as S1.
  pose proof (ssort_sorted (fun x y => f_count y <=? f_count x)) as S2. eapply sorted_weaken; [|apply S2].
  - intros x y [A B]. apply Nat.leb_le in A. destruct (Nat.eq_dec (f_count x) (f_count y)) as [E|E]; [right; split; [exact E|]|left; lia]. apply B. apply Nat.leb_le. lia.
  - intros x y. rewrite !Nat.leb_le. lia.
  - intros x y z. rewrite !Nat.leb_le. lia.
  - eapply sorted_weaken; [|exact S1]. intros x y [A _]. exact A.
Qed.
