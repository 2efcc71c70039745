(** Facts about the type lists of parse (indexing/parser.py:33-53): sorting, grouping, paths. *)
From Coq Require Import String Ascii.
From Coq Require Import List ZArith NArith Bool Lia Permutation Sorted.
From Coq Require Import Floats.SpecFloat.
From Verif Require Import PyVal Time Parser ParserProofs.
Import ListNotations.
Open Scope nat_scope.

(** ** The order of str *)
Lemma leb_refl a : str_leb a a = true.
Proof. induction a as [|x a IH]; [reflexivity|]. cbn. rewrite N.eqb_refl. exact IH. Qed.
Lemma leb_trans a : forall b c, str_leb a b = true -> str_leb b c = true -> str_leb a c = true.
Proof.
  induction a as [|x a IH]; intros b c H1 H2; [reflexivity|]. destruct b as [|y b]; [discriminate|]. destruct c as [|z c]; [discriminate|]. cbn in *.
  destruct (N.eqb_spec x y) as [->|N1]; destruct (N.eqb_spec y z) as [->|N2].
  - exact (IH _ _ H1 H2).
  - exact H2.
  - destruct (N.eqb_spec x z); [contradiction|]. exact H1.
  - apply N.ltb_lt in H1, H2. destruct (N.eqb_spec x z); [lia|]. apply N.ltb_lt. lia.
Qed.
Lemma leb_total a : forall b, str_leb a b = true \/ str_leb b a = true.
Proof.
  induction a as [|x a IH]; intros [|y b]; cbn; auto. destruct (N.eqb_spec x y) as [->|N1].
  - rewrite N.eqb_refl. apply IH.
  - destruct (N.eqb_spec y x); [congruence|]. rewrite !N.ltb_lt. lia.
Qed.
Lemma leb_antisym a : forall b, str_leb a b = true -> str_leb b a = true -> a = b.
Proof.
  induction a as [|x a IH]; intros [|y b] H1 H2; cbn in *; try discriminate; [reflexivity|]. destruct (N.eqb_spec x y) as [->|N1].
  - rewrite N.eqb_refl in H2. f_equal. auto.
  - destruct (N.eqb_spec y x); [congruence|]. rewrite N.ltb_lt in *. lia.
Qed.
(** what lies between two strings with a common prefix has that prefix *)
Lemma between p : forall x y z, str_leb (p ++ x) y = true -> str_leb y (p ++ z) = true -> exists w, y = p ++ w.
Proof.
  induction p as [|c p IH]; intros x y z H1 H2; [exists y; reflexivity|]. destruct y as [|d y]; [discriminate|]. cbn in *.
  destruct (N.eqb_spec c d) as [->|Nc].
  - rewrite N.eqb_refl in H2. destruct (IH _ _ _ H1 H2) as (w & ->). exists w. reflexivity.
  - destruct (N.eqb_spec d c); [congruence|]. rewrite N.ltb_lt in *. lia.
Qed.
Lemma insert_perm x l : Permutation (insert x l) (x :: l).
Proof. induction l as [|y l IH]; [constructor; constructor|]. cbn. destruct (str_leb x y); [reflexivity|]. rewrite IH. constructor. Qed.
Lemma sort_perm l : Permutation (sort l) l.
Proof. induction l as [|x l IH]; [constructor|]. cbn. rewrite insert_perm, IH. reflexivity. Qed.
Notation sorted := (StronglySorted (fun a b => str_leb a b = true)).
Lemma insert_sorted x l : sorted l -> sorted (insert x l).
Proof.
  induction l as [|y l IH]; intro H; [repeat constructor|]. inversion H as [|? ? H1 H2]; subst. cbn. destruct (str_leb x y) eqn:E.
  - constructor; [exact H|]. constructor; [exact E|]. rewrite Forall_forall in *. intros z Hz. apply (leb_trans _ y); auto.
  - constructor; [apply IH, H1|]. rewrite Forall_forall in *. intros z Hz. apply (Permutation_in _ (insert_perm x l)) in Hz. destruct Hz as [<-|Hz]; [|auto]. destruct (leb_total x y); congruence.
Qed.
Lemma sort_sorted l : sorted (sort l).
Proof. induction l as [|x l IH]; [constructor|]. apply insert_sorted, IH. Qed.

(** ** groupby *)
Section Groupby.
Context {A : Type} (key : A -> pystr).
Lemma groupby_head x l : exists k g gs, groupby key (x :: l) = (k, g) :: gs /\ k = key x.
Proof. cbn [groupby]. destruct (groupby key l) as [|[k g] gs]; [eauto|]. destruct (str_eqb (key x) k) eqn:E; [apply str_eqb_eq in E; subst; eauto|eauto 6]. Qed.
Lemma groupby_flat l : flat_map snd (groupby key l) = l.
Proof.
  induction l as [|x l IH]; [reflexivity|]. cbn [groupby]. destruct (groupby key l) as [|[k g] gs]; cbn [flat_map snd] in *; [rewrite <- IH; reflexivity|].
  destruct (str_eqb (key x) k); cbn [flat_map snd app]; rewrite IH; reflexivity.
Qed.
Lemma groupby_keys l k g : In (k, g) (groupby key l) -> g <> [] /\ Forall (fun x => key x = k) g.
Proof.
  revert k g. induction l as [|x l IH]; intros k g H; [destruct H|]. cbn [groupby] in H. destruct (groupby key l) as [|[k' g'] gs].
  - destruct H as [H|[]]. injection H as <- <-. split; [discriminate|repeat constructor].
  - destruct (str_eqb (key x) k') eqn:E.
    + apply str_eqb_eq in E. destruct H as [H|H].
      * injection H as <- <-. destruct (IH k' g' (or_introl eq_refl)) as [I1 I2]. split; [discriminate|constructor; auto].
      * apply IH. right. exact H.
    + destruct H as [H|H]; [|apply IH, H]. injection H as <- <-. split; [discriminate|repeat constructor].
Qed.
Lemma groupby_In l x : In x l -> exists g, In (key x, g) (groupby key l) /\ In x g.
Proof.
  intro H. rewrite <- (groupby_flat l) in H. apply in_flat_map in H. destruct H as ([k g] & H1 & H2). cbn in H2. destruct (groupby_keys l k g H1) as [_ K]. rewrite Forall_forall in K. rewrite (K x H2). eauto.
Qed.
(** When equal keys are adjacent each key has one group. *)
Lemma groupby_nodup (R : A -> A -> Prop) l : StronglySorted R l ->
  (forall x y z, In x l -> In y l -> In z l -> R x y -> R y z -> key x = key z -> key y = key x) -> NoDup (map fst (groupby key l)).
Proof.
  induction l as [|x l IH]; intros Hs Hc; [constructor|]. inversion Hs as [|? ? Hs1 Hs2]; subst.
  assert (N : NoDup (map fst (groupby key l))) by (apply IH; [exact Hs1|intros; eapply Hc; try (right; eassumption); eassumption]).
  cbn [groupby]. destruct (groupby key l) as [|[k g] gs] eqn:E; [repeat constructor; intros []|].
  destruct (str_eqb (key x) k) eqn:Ek; [exact N|]. cbn [map fst]. constructor; [|exact N]. intro K.
  assert (Kg : exists g', In (key x, g') (groupby key l)) by (rewrite E; change (k :: map fst gs) with (map fst ((k, g) :: gs)) in K; apply in_map_iff in K; destruct K as ((k' & g') & K1 & K2); cbn in K1; subst; eauto).
  destruct Kg as (g' & Kg). destruct (groupby_keys _ _ _ Kg) as [G1 G2]. destruct g' as [|z g']; [contradiction|]. inversion G2 as [|? ? G3 _]; subst.
  assert (Hz : In z l) by (rewrite <- (groupby_flat l); apply in_flat_map; eexists; split; [exact Kg|left; reflexivity]).
  destruct l as [|y l]; [destruct Hz|]. destruct (groupby_head y l) as (k1 & g1 & gs1 & E1 & E2). rewrite E in E1. injection E1 as -> -> ->. apply str_eqb_neq in Ek. apply Ek. rewrite E2. symmetry.
  rewrite Forall_forall in Hs2. destruct Hz as [->|Hz]; [congruence|]. inversion Hs1 as [|? ? _ Hs3]; subst. rewrite Forall_forall in Hs3.
  apply (Hc x y z); [left; reflexivity|right; left; reflexivity|right; right; exact Hz|apply Hs2; left; reflexivity|apply Hs3, Hz|congruence].
Qed.
End Groupby.

(** ** Paths *)
Definition dotless (s : pystr) : Prop := ~ In dot s.
Lemma rsplit_none s : rsplit_dot s = None <-> dotless s.
Proof.
  unfold dotless. induction s as [|c s IH]; [split; auto|]. cbn. destruct (rsplit_dot s) as [[a b]|] eqn:E.
  - split; [discriminate|]. intro H. exfalso. destruct IH as [_ IH]. assert (K : ~ In dot s) by (intro K; apply H; right; exact K). specialize (IH K). discriminate.
  - destruct IH as [IH _]. specialize (IH eq_refl). destruct (N.eqb_spec c dot) as [->|Nc]; [split; [discriminate|intro H; exfalso; apply H; left; reflexivity]|]. split; [intros _ [K|K]; [contradiction|auto]|reflexivity].
Qed.
Lemma rsplit_dotted p t : dotless t -> rsplit_dot (dotted p t) = Some (p, t).
Proof.
  intro H. unfold dotted. induction p as [|c p IH]; cbn.
  - rewrite (proj2 (rsplit_none t) H). reflexivity.
  - rewrite IH. reflexivity.
Qed.
Lemma rsplit_some s p t : rsplit_dot s = Some (p, t) -> s = dotted p t /\ dotless t.
Proof.
  unfold dotted. revert p t. induction s as [|c s IH]; intros p t H; [discriminate|]. cbn in H. destruct (rsplit_dot s) as [[a b]|] eqn:E.
  - injection H as <- <-. destruct (IH a b eq_refl) as [-> I2]. auto.
  - destruct (N.eqb_spec c dot) as [->|Nc]; [|discriminate]. injection H as <- <-. split; [reflexivity|]. apply rsplit_none, E.
Qed.
(** str.split(".") *)
Fixpoint split (s : pystr) : list pystr :=
  match s with
  | [] => [[]]
  | c :: r => if N.eqb c dot then [] :: split r else match split r with h :: t => (c :: h) :: t | [] => [[c]] end
  end.
Lemma split_nonnil s : split s <> [].
Proof. destruct s as [|c s]; cbn; [discriminate|]. destruct (N.eqb c dot); [discriminate|]. destruct (split s); discriminate. Qed.
Lemma split_dotted a b : split (dotted a b) = split a ++ split b.
Proof.
  unfold dotted. induction a as [|c a IH]; cbn; [reflexivity|]. destruct (N.eqb c dot); [rewrite IH; reflexivity|]. rewrite IH. pose proof (split_nonnil a). destruct (split a); [contradiction|reflexivity].
Qed.
Lemma split_dotless s : dotless s -> split s = [s].
Proof.
  unfold dotless. induction s as [|c s IH]; intro H; [reflexivity|]. cbn. destruct (N.eqb_spec c dot) as [->|Nc]; [exfalso; apply H; left; reflexivity|]. rewrite IH by (intro K; apply H; right; exact K). reflexivity.
Qed.
Lemma join_cons x l : l <> [] -> join dot (x :: l) = dotted x (join dot l).
Proof. destruct l; [contradiction|reflexivity]. Qed.
Lemma split_join l : l <> [] -> Forall dotless l -> split (join dot l) = l.
Proof.
  induction l as [|x l IH]; intros Hn Hd; [contradiction|]. inversion Hd as [|? ? H1 H2]; subst. destruct l as [|y l]; [apply split_dotless, H1|].
  rewrite join_cons by discriminate. rewrite split_dotted, (split_dotless x H1), IH by (discriminate || assumption). reflexivity.
Qed.
Lemma join_snoc l t : l <> [] -> join dot (l ++ [t]) = dotted (join dot l) t.
Proof.
  induction l as [|x l IH]; intro H; [contradiction|]. destruct l as [|y l]; [reflexivity|]. change ((x :: y :: l) ++ [t]) with (x :: ((y :: l) ++ [t])). rewrite (join_cons x ((y :: l) ++ [t])) by (intro Q; destruct (app_cons_not_nil _ _ _ (eq_sym Q))). rewrite IH by discriminate. rewrite (join_cons x (y :: l)) by discriminate.
  unfold dotted. rewrite <- app_assoc. reflexivity.
Qed.

(** ** compress *)
(** The strings to compress: a path of dotless components, then a type starting with [h]; no component but
    the first one starts with [h]. *)
Definition starts (h : N) (s : pystr) : Prop := exists r, s = h :: r.
(** specification or proof device; models no code of its own *)
Definition typed (h : N) (s : pystr) : Prop :=
  exists p t, p <> [] /\ Forall dotless p /\ dotless t /\ starts h t /\ Forall (fun c => ~ starts h c) (tl p) /\ s = join dot (p ++ [t]).
Lemma typed_split h s : h <> dot -> typed h s -> exists p t, s = dotted (join dot p) t /\ path_of s = join dot p /\ type_of s = t /\ p <> [] /\ Forall dotless p /\ dotless t /\ starts h t /\ Forall (fun c => ~ starts h c) (tl p).
Proof.
  intros Hh (p & t & H1 & H2 & H3 & H4 & H5 & ->). exists p, t. rewrite join_snoc by exact H1. unfold path_of, type_of. rewrite rsplit_dotted by exact H3. repeat (split; [first [reflexivity|assumption]|]). assumption.
Qed.
Lemma convex h S : h <> dot -> Forall (typed h) S -> forall x y z, In x S -> In y S -> In z S -> str_leb x y = true -> str_leb y z = true -> path_of x = path_of z -> path_of y = path_of x.
Proof.
  intros Hh HS x y z Hx Hy Hz L1 L2 E. rewrite Forall_forall in HS.
  destruct (typed_split h x Hh (HS x Hx)) as (px & tx & X1 & X2 & _ & X4 & X5 & X6 & (rx & X7) & X8).
  destruct (typed_split h y Hh (HS y Hy)) as (py & ty & Y1 & Y2 & _ & Y4 & Y5 & Y6 & (ry & Y7) & Y8).
  destruct (typed_split h z Hh (HS z Hz)) as (pz & tz & Z1 & Z2 & _ & Z4 & Z5 & Z6 & (rz & Z7) & Z8).
  assert (Epp : join dot pz = join dot px) by congruence. rewrite Epp in Z1. subst tx tz.
  assert (B : exists w, y = (join dot px ++ [dot; h]) ++ w).
  { apply (between _ rx y rz).
    - rewrite <- app_assoc. rewrite X1 in L1. exact L1.
    - rewrite <- app_assoc. rewrite Z1 in L2. exact L2. }
  destruct B as (w & B). rewrite <- app_assoc in B. change ([dot; h] ++ w) with (dot :: h :: w) in B. fold (dotted (join dot px) (h :: w)) in B.
  rewrite X2, Y2.
  assert (S1 : split y = px ++ split (h :: w)) by (rewrite B, split_dotted, split_join by assumption; reflexivity).
  assert (S2 : split y = py ++ [ty]) by (rewrite Y1, split_dotted, split_join, (split_dotless ty Y6) by assumption; reflexivity).
  cbn [split] in S1. destruct (N.eqb_spec h dot); [contradiction|]. destruct (split w) as [|u us] eqn:Eu; [exfalso; exact (split_nonnil w Eu)|].
  rewrite S2 in S1. destruct us as [|u' us].
  - apply app_inj_tail in S1. destruct S1 as [-> _]. reflexivity.
  - exfalso. destruct (exists_last (l := u' :: us)) as (l1 & l2 & El); [discriminate|]. rewrite El in S1. change (px ++ (h :: u) :: l1 ++ [l2]) with (px ++ ((h :: u) :: l1) ++ [l2]) in S1. rewrite app_assoc in S1. apply app_inj_tail in S1. destruct S1 as [-> _].
    destruct px as [|k px]; [contradiction|]. cbn [app tl] in Y8. apply Forall_app in Y8. destruct Y8 as [_ Y8]. inversion Y8 as [|? ? K _]; subst. apply K. exists u. reflexivity.
Qed.
(** a listing: path and types *)
Definition show (g : pystr * list pystr) : pystr := dotted (fst g) (join 44 (snd g)).
Theorem compress_spec h S : h <> dot -> Forall (typed h) S ->
  exists listing, compress S = map show listing /\ NoDup (map fst listing) /\ (NoDup S -> Forall (fun g => NoDup (snd g)) listing) /\
    Forall (fun g => snd g <> [] /\ Forall dotless (snd g)) listing /\
    (forall p t, dotless t -> (In (dotted p t) S <-> exists ts, In (p, ts) listing /\ In t ts)).
Proof.
  intros Hh HS. exists (map (fun g => (fst g, map type_of (snd g))) (groupby path_of (sort S))).
  assert (HS' : Forall (typed h) (sort S)) by (rewrite Forall_forall in *; intros s Hs; apply HS, (Permutation_in _ (sort_perm S)), Hs).
  split; [|split; [|split; [|split]]].
  - unfold compress. rewrite map_map. reflexivity.
  - rewrite map_map. cbn [fst]. apply (groupby_nodup path_of _ _ (sort_sorted S)). exact (convex h _ Hh HS').
  - intro Hn. apply Forall_forall. intros g Hg. apply in_map_iff in Hg. destruct Hg as ([p g'] & <- & Hg). cbn [snd fst]. destruct (groupby_keys _ _ _ _ Hg) as [_ K].
    assert (Hs : forall s, In s g' -> In s (sort S)) by (intros s Hs; rewrite <- (groupby_flat path_of (sort S)); apply in_flat_map; eexists; split; [exact Hg|exact Hs]).
    assert (Ng : NoDup g').
    { assert (Hns : NoDup (sort S)) by (apply (Permutation_NoDup (Permutation_sym (sort_perm S))), Hn). rewrite <- (groupby_flat path_of (sort S)) in Hns. clear - Hns Hg. induction (groupby path_of (sort S)) as [|[k g] gs IH]; [destruct Hg|]. cbn [flat_map snd] in Hns.
      destruct Hg as [Hg|Hg]; [injection Hg as -> ->; clear IH; induction g' as [|a g' IH]; [constructor|]; inversion Hns as [|? ? A1 A2]; subst; constructor; [intro Q; apply A1, in_or_app; left; exact Q|apply IH, A2]|].
      apply IH; [exact Hg|]. clear - Hns. induction g as [|a g IH]; [exact Hns|]. inversion Hns; auto. }
    clear Hg. induction g' as [|s g' IH]; [constructor|]. inversion Ng as [|? ? N1 N2]; subst. inversion K as [|? ? K1 K2]; subst. cbn [map]. constructor; [|apply IH; auto; intros; apply Hs; right; assumption].
    intro Q. apply in_map_iff in Q. destruct Q as (s' & Q1 & Q2). apply N1. rewrite Forall_forall in K2, HS'. specialize (K2 _ Q2).
    destruct (typed_split h s Hh (HS' s (Hs s (or_introl eq_refl)))) as (p1 & t1 & X1 & X2 & X3 & _). destruct (typed_split h s' Hh (HS' s' (Hs s' (or_intror Q2)))) as (p2 & t2 & Y1 & Y2 & Y3 & _). congruence.
  - apply Forall_forall. intros g Hg. apply in_map_iff in Hg. destruct Hg as ([p g'] & <- & Hg). cbn [snd fst]. destruct (groupby_keys _ _ _ _ Hg) as [K1 _]. split; [destruct g'; [contradiction|discriminate]|].
    apply Forall_forall. intros t Ht. apply in_map_iff in Ht. destruct Ht as (s & <- & Hs). assert (Hin : In s (sort S)) by (rewrite <- (groupby_flat path_of (sort S)); apply in_flat_map; eexists; split; [exact Hg|exact Hs]).
    rewrite Forall_forall in HS'. destruct (typed_split h s Hh (HS' s Hin)) as (p1 & t1 & _ & _ & X3 & _ & _ & X6 & _). rewrite X3. exact X6.
  - intros p t Ht. split.
    + intro H. assert (H' : In (dotted p t) (sort S)) by (apply (Permutation_in _ (Permutation_sym (sort_perm S))), H). destruct (groupby_In path_of _ _ H') as (g & G1 & G2).
      assert (Ep : path_of (dotted p t) = p) by (unfold path_of; rewrite rsplit_dotted by exact Ht; reflexivity). rewrite Ep in G1. exists (map type_of g). split; [apply in_map_iff; exists (p, g); auto|].
      apply in_map_iff. exists (dotted p t). split; [unfold type_of; rewrite rsplit_dotted by exact Ht; reflexivity|exact G2].
    + intros (ts & H1 & H2). apply in_map_iff in H1. destruct H1 as ([p' g] & E & Hg). cbn [fst snd] in E. injection E as -> <-. apply in_map_iff in H2. destruct H2 as (s & Es & Hs).
      destruct (groupby_keys _ _ _ _ Hg) as [_ K]. rewrite Forall_forall in K. specialize (K s Hs).
      assert (Hin : In s (sort S)) by (rewrite <- (groupby_flat path_of (sort S)); apply in_flat_map; eexists; split; [exact Hg|exact Hs]).
      rewrite Forall_forall in HS'. destruct (typed_split h s Hh (HS' s Hin)) as (p1 & t1 & X1 & X2 & X3 & _). apply (Permutation_in _ (sort_perm S)). rewrite X1 in Hin. congruence.
Qed.

(** ** Which types occur at which paths *)
(** A key at some depth of a value. *)
Inductive key_in (k : pystr) : value -> Prop :=
| key_here d v : In (k, v) d -> key_in k (VDict d)
| key_dict d k' v : In (k', v) d -> key_in k v -> key_in k (VDict d)
| key_list l v : In v l -> key_in k v -> key_in k (VList l).
(** The names of the types, for the specification. *)
Definition kind_name (v : value) : pystr :=
  match v with
  | VNone => lit "#n" | VStr _ => lit "#s" | VInt _ => lit "#i" | VFloat _ => lit "#f" | VBool _ => lit "#b"
  | VList _ => lit "#l" | VDict _ => lit "#d"
  end.
(** [has_type v p t]: somewhere at path [p] under [v] there is a value of type [t]; an element of a list adds
    an empty component to the path. *)
Inductive has_type : value -> list pystr -> pystr -> Prop :=
| ht_key d k v : In (k, v) d -> has_type (VDict d) [k] (kind_name v)
| ht_dict d k v p t : In (k, v) d -> has_type v p t -> has_type (VDict d) (k :: p) t
| ht_elem l v : In v l -> has_type (VList l) [[]] (kind_name v)
| ht_list l v p t : In v l -> has_type v p t -> has_type (VList l) ([] :: p) t.

Lemma type_for_ok v : dotless (type_for v) /\ starts 35 (type_for v).
Proof. unfold dotless, starts. destruct v; cbn; (split; [intuition discriminate|eexists; reflexivity]). Qed.
Lemma has_type_ok v p t : has_type v p t -> p <> [] /\ dotless t /\ starts 35 t.
Proof. induction 1; (split; [discriminate|]); try apply type_for_ok; apply IHhas_type. Qed.
Lemma has_type_path v p t : has_type v p t -> Forall (fun c => c = [] \/ key_in c v) p.
Proof.
  induction 1 as [d k v H|d k v p t H H1 IH|l v H|l v p t H H1 IH].
  - constructor; [right; eapply key_here, H|constructor].
  - constructor; [right; eapply key_here, H|]. eapply Forall_impl; [|exact IH]. intros c [->|K]; [left; reflexivity|right; eapply key_dict; eassumption].
  - constructor; [left; reflexivity|constructor].
  - constructor; [left; reflexivity|]. eapply Forall_impl; [|exact IH]. intros c [->|K]; [left; reflexivity|right; eapply key_list; eassumption].
Qed.
Lemma join_one k p t : join dot ((k :: p) ++ [t]) = dotted k (join dot (p ++ [t])).
Proof. change ((k :: p) ++ [t]) with (k :: (p ++ [t])). apply join_cons. intro Q. destruct (app_cons_not_nil _ _ _ (eq_sym Q)). Qed.

Lemma In_flat2 {A B C} (f : A -> option B) (g : B -> list C) l ys : Forall2 (fun x y => f x = Some y) l ys ->
  forall s, In s (flat_map g ys) <-> exists x y, In x l /\ f x = Some y /\ In s (g y).
Proof.
  induction 1 as [|x y l ys H HF IH]; intro s; cbn [flat_map]; [split; [intros []|intros (? & ? & [] & _)]|]. rewrite in_app_iff, IH. split.
  - intros [K|(x' & y' & K1 & K2 & K3)]; [exists x, y; split; [left; reflexivity|auto]|exists x', y'; split; [right; exact K1|auto]].
  - intros (x' & y' & [<-|K1] & K2 & K3); [left; congruence|right; eauto].
Qed.
Lemma NoDup_flat2 {A B C} (key : A -> C) (f : A -> option B) (g : B -> list pystr) l ys : Forall2 (fun x y => f x = Some y) l ys ->
  NoDup (map key l) -> (forall x y, In x l -> f x = Some y -> NoDup (g y)) ->
  (forall x y x' y' s, In x l -> In x' l -> f x = Some y -> f x' = Some y' -> In s (g y) -> In s (g y') -> key x = key x') -> NoDup (flat_map g ys).
Proof.
  intros HF. induction HF as [|x y l ys H HF IH]; intros Hn H1 H2; cbn [flat_map]; [constructor|]. inversion Hn as [|? ? N1 N2]; subst.
  assert (I : NoDup (flat_map g ys)) by (apply IH; [exact N2|intros; eapply H1; [right; eassumption|eassumption]|intros; eapply H2; try (right; eassumption); eassumption]).
  assert (J : NoDup (g y)) by (eapply H1; [left; reflexivity|exact H]).
  assert (D : forall s, In s (g y) -> ~ In s (flat_map g ys)).
  { intros s S1 S2. apply (proj1 (In_flat2 f g l ys HF s)) in S2. destruct S2 as (x' & y' & K1 & K2 & K3). apply N1. rewrite (H2 x y x' y' s (or_introl eq_refl) (or_intror K1) H K2 S1 K3). apply in_map, K1. }
  clear - I J D. induction (g y) as [|a r IHr]; [exact I|]. inversion J as [|? ? J1 J2]; subst. cbn [app]. constructor; [|apply IHr; [exact J2|intros s Hs; apply D; right; exact Hs]].
  rewrite in_app_iff. intros [K|K]; [contradiction|]. exact (D a (or_introl eq_refl) K).
Qed.
Lemma NoDup_app2 (a b : list pystr) : NoDup a -> NoDup b -> (forall s, In s a -> ~ In s b) -> NoDup (a ++ b).
Proof.
  intros J I D. induction a as [|x r IHr]; [exact I|]. inversion J as [|? ? J1 J2]; subst. cbn [app]. constructor; [|apply IHr; [exact J2|intros s Hs; apply D; right; exact Hs]].
  rewrite in_app_iff. intros [K|K]; [contradiction|]. exact (D x (or_introl eq_refl) K).
Qed.
Lemma NoDup_map_key {A} (key : A -> pystr) (f : A -> pystr) l : NoDup (map key l) -> (forall x y, In x l -> In y l -> f x = f y -> key x = key y) -> NoDup (map f l).
Proof.
  induction l as [|x l IH]; intros Hn H; [constructor|]. inversion Hn as [|? ? N1 N2]; subst. cbn. constructor; [|apply IH; [exact N2|intros; apply H; try (right; assumption); assumption]].
  intro K. apply in_map_iff in K. destruct K as (y & K1 & K2). apply N1. rewrite <- (H y x (or_intror K2) (or_introl eq_refl) K1). apply in_map, K2.
Qed.
Lemma NoDup_dotted k l : NoDup l -> NoDup (map (dotted k) l).
Proof.
  induction 1 as [|x l H H1 IH]; cbn; constructor; [|exact IH]. intro K. apply in_map_iff in K. destruct K as (y & K1 & K2). unfold dotted in K1. apply app_inv_head in K1. injection K1 as ->. contradiction.
Qed.
Lemma dotted_first k k' s s' : dotless k -> dotless k' -> dotted k s = dotted k' s' -> k = k' /\ s = s'.
Proof.
  unfold dotted, dotless. revert k'. induction k as [|c k IH]; intros [|c' k'] H H' E; cbn in E; (injection E as E1 E2 || injection E as E1).
  - auto.
  - exfalso. apply H'. left. auto.
  - exfalso. apply H. left. auto.
  - subst c'. destruct (IH k') as [-> ->]; auto; intro K; [apply H|apply H']; right; exact K.
Qed.

Section Occ.
Variable L : lib.
Variable o : options.

(** specification or proof device; models no code of its own *)
Definition dts_spec (v : value) (dts : list pystr) : Prop := forall s, In s dts <-> exists p t, has_type v p t /\ s = join dot (p ++ [t]).
Lemma no_types_scalar v : match v with VDict [] | VList [] => True | VDict _ | VList _ => False | _ => True end -> forall p t, ~ has_type v p t.
Proof. intros H p t K. destruct K as [d k w E|d k w p' t' E E'|l w E|l w p' t' E E']; [destruct d|destruct d|destruct l|destruct l]; cbn in *; contradiction. Qed.
Lemma entry_dts nested k v q : (forall w dts pts, nested v = Some (w, dts, pts) -> dts_spec v dts) -> parse_entry L o nested k v = Some q ->
  forall s, In s (part_dts q) <-> exists p t, has_type v p t /\ s = dotted k (join dot (p ++ [t])).
Proof.
  intros IH H s. unfold parse_entry in H.
  assert (N : part_dts q = [] /\ (forall p t, ~ has_type v p t) \/ exists w dts pts, nested v = Some (w, dts, pts) /\ part_dts q = map (dotted k) dts).
  { destruct v as [|b|z|f|x|l|d].
    1-4: left; split; [injection H as <-; reflexivity|apply no_types_scalar; exact I].
    - left. destruct x; (split; [injection H as <-; reflexivity|apply no_types_scalar; exact I]).
    - destruct l as [|e l]; [left; split; [injection H as <-; reflexivity|apply no_types_scalar; exact I]|]. right. cbn [is_empty] in H. destruct (nested (VList (e :: l))) as [[[w dts] pts]|]; [|discriminate]. injection H as <-. exists w, dts, pts. auto.
    - destruct d as [|e d]; [left; split; [injection H as <-; reflexivity|apply no_types_scalar; exact I]|]. right. cbn [is_empty] in H. destruct (nested (VDict (e :: d))) as [[[w dts] pts]|]; [|discriminate]. injection H as <-. exists w, dts, pts. auto. }
  destruct N as [[-> N]|(w & dts & pts & E & ->)].
  - split; [intros []|intros (p & t & K & _); destruct (N p t K)].
  - rewrite in_map_iff. split.
    + intros (s' & <- & K). apply (IH _ _ _ E) in K. destruct K as (p & t & K & ->). eauto.
    + intros (p & t & K & ->). eexists. split; [reflexivity|]. apply (IH _ _ _ E). eauto.
Qed.
Lemma element_dts nested v q : (forall w dts pts, nested v = Some (w, dts, pts) -> dts_spec v dts) -> parse_element L o nested v = Some q ->
  forall s, In s (snd (fst q)) <-> exists p t, has_type v p t /\ s = dotted [] (join dot (p ++ [t])).
Proof.
  intros IH H s. unfold parse_element in H.
  assert (N : snd (fst q) = [] /\ (forall p t, ~ has_type v p t) \/ exists w dts pts, nested v = Some (w, dts, pts) /\ snd (fst q) = map (dotted []) dts).
  { destruct v as [|b|z|f|x|l|d].
    1-4: left; split; [injection H as <-; reflexivity|apply no_types_scalar; exact I].
    - left. destruct x; (split; [injection H as <-; reflexivity|apply no_types_scalar; exact I]).
    - destruct l as [|e l]; [left; split; [injection H as <-; reflexivity|apply no_types_scalar; exact I]|]. right. cbn [is_empty] in H. destruct (nested (VList (e :: l))) as [[[w dts] pts]|]; [|discriminate]. injection H as <-. exists w, dts, pts. auto.
    - destruct d as [|e d]; [left; split; [injection H as <-; reflexivity|apply no_types_scalar; exact I]|]. right. cbn [is_empty] in H. destruct (nested (VDict (e :: d))) as [[[w dts] pts]|]; [|discriminate]. injection H as <-. exists w, dts, pts. auto. }
  destruct N as [[-> N]|(w & dts & pts & E & ->)].
  - split; [intros []|intros (p & t & K & _); destruct (N p t K)].
  - rewrite in_map_iff. split.
    + intros (s' & <- & K). apply (IH _ _ _ E) in K. destruct K as (p & t & K & ->). eauto.
    + intros (p & t & K & ->). eexists. split; [reflexivity|]. apply (IH _ _ _ E). eauto.
Qed.
Lemma part_of nested (kv : pystr * value) y :
  match parse_entry L o nested (fst kv) (snd kv) with Some p => Some (fst kv, p) | None => None end = Some y -> exists p, parse_entry L o nested (fst kv) (snd kv) = Some p /\ y = (fst kv, p).
Proof. destruct (parse_entry L o nested (fst kv) (snd kv)) as [p|]; [|discriminate]. intro H. injection H as <-. eauto. Qed.
Lemma dict_dts nested chk d w dts pts : Forall (fun kv => forall w dts pts, nested (snd kv) = Some (w, dts, pts) -> dts_spec (snd kv) dts) d ->
  dict_body L o nested chk d = Some (w, dts, pts) -> dts_spec (VDict d) dts.
Proof.
  intros IH H s. apply dict_body_some in H. unfold dict_rest in H. destruct (map_opt _ d) as [parts|] eqn:E; [|discriminate]. apply map_opt_F2 in E.
  destruct (add_hints _ _); [|discriminate]. injection H as _ <- _. rewrite in_app_iff, in_map_iff, (In_flat2 _ _ _ _ E s). rewrite Forall_forall in IH. split.
  - intros [([k v] & <- & K)|([k v] & y & K1 & K2 & K3)].
    + exists [k], (type_for v). split; [apply ht_key, K|reflexivity].
    + apply part_of in K2. destruct K2 as (q & Q1 & ->). cbn [fst snd] in *. apply (entry_dts nested k v q (IH (k, v) K1) Q1) in K3. destruct K3 as (p & t & P1 & ->). exists (k :: p), t. split; [eapply ht_dict; eassumption|symmetry; apply join_one].
  - intros (p & t & P & ->). inversion P as [d' k v K|d' k v p' t' K K'| |]; subst.
    + left. exists (k, v). auto.
    + right. destruct (in_split _ _ K) as (a & b & Eab). subst d. assert (E' := E). apply Forall2_app_inv_l in E'. destruct E' as (ya & yb & F1 & F2 & Ey). inversion F2 as [|? y ? ? F3 F4]; subst. exists (k, v), y. split; [exact K|]. split; [exact F3|].
      apply part_of in F3. destruct F3 as (q & Q1 & ->). cbn [fst snd] in *. apply (entry_dts nested k v q (IH (k, v) K) Q1). exists p', t. split; [exact K'|]. apply join_one.
Qed.
Lemma list_dts nested l w dts pts : Forall (fun v => forall w dts pts, nested v = Some (w, dts, pts) -> dts_spec v dts) l ->
  list_body L o nested l = Some (w, dts, pts) -> dts_spec (VList l) dts.
Proof.
  intros IH H s. unfold list_body in H. destruct (map_opt _ l) as [parts|] eqn:E; [|discriminate]. apply map_opt_F2 in E. injection H as _ <- _.
  rewrite nodup_In, in_app_iff, in_map_iff, (In_flat2 _ _ _ _ E s). rewrite Forall_forall in IH. split.
  - intros [(v & <- & K)|(v & y & K1 & K2 & K3)].
    + exists [[]], (type_for v). split; [apply ht_elem, K|reflexivity].
    + apply (element_dts nested v y (IH v K1) K2) in K3. destruct K3 as (p & t & P1 & ->). exists ([] :: p), t. split; [eapply ht_list; eassumption|symmetry; apply join_one].
  - intros (p & t & P & ->). inversion P as [| |l' v K|l' v p' t' K K']; subst.
    + left. exists v. auto.
    + right. destruct (in_split _ _ K) as (a & b & Eab). subst l. assert (E' := E). apply Forall2_app_inv_l in E'. destruct E' as (ya & yb & F1 & F2 & Ey). inversion F2 as [|? y ? ? F3 F4]; subst. exists v, y. split; [exact K|]. split; [exact F3|].
      apply (element_dts nested v y (IH v K) F3). exists p', t. split; [exact K'|]. apply join_one.
Qed.
Lemma nested_dts v : forall w dts pts, parse_nested L o v = Some (w, dts, pts) -> dts_spec v dts.
Proof.
  induction v as [|b|z|f|x|l IH|d IH] using value_ind'; intros w dts pts H; cbn [parse_nested] in H; try discriminate.
  - destruct (list_body L o (parse_nested L o) l) as [[[p' dts'] pts']|] eqn:E; [|discriminate]. injection H as <- <- <-. exact (list_dts _ _ _ _ _ IH E).
  - destruct (dict_body L o (parse_nested L o) true d) as [[[p' dts'] pts']|] eqn:E; [|discriminate]. injection H as <- <- <-. exact (dict_dts _ _ _ _ _ _ IH E).
Qed.

(** no string is listed twice *)
Lemma entry_nodup nested k v q : (forall w dts pts, nested v = Some (w, dts, pts) -> NoDup dts) -> parse_entry L o nested k v = Some q -> NoDup (part_dts q).
Proof.
  intros IH H. unfold parse_entry in H. destruct v as [|b|z|f|x|l|d].
  1-4: injection H as <-; constructor.
  - destruct x; injection H as <-; constructor.
  - destruct l as [|e l]; [injection H as <-; constructor|]. cbn [is_empty] in H. destruct (nested (VList (e :: l))) as [[[w dts] pts]|]; [|discriminate]. injection H as <-. apply NoDup_dotted, (IH _ _ _ eq_refl).
  - destruct d as [|e d]; [injection H as <-; constructor|]. cbn [is_empty] in H. destruct (nested (VDict (e :: d))) as [[[w dts] pts]|]; [|discriminate]. injection H as <-. apply NoDup_dotted, (IH _ _ _ eq_refl).
Qed.
Lemma dict_nodup chk d w dts pts : Forall (fun kv => forall w dts pts, parse_nested L o (snd kv) = Some (w, dts, pts) -> NoDup dts) d ->
  NoDup (dkeys d) -> Forall (fun kv => dotless (fst kv)) d -> dict_body L o (parse_nested L o) chk d = Some (w, dts, pts) -> NoDup dts.
Proof.
  intros IH Hn Hd H. apply dict_body_some in H. unfold dict_rest in H. destruct (map_opt _ d) as [parts|] eqn:E; [|discriminate]. apply map_opt_F2 in E.
  destruct (add_hints _ _); [|discriminate]. injection H as _ <- _. rewrite Forall_forall in IH, Hd. apply NoDup_app2.
  - apply (NoDup_map_key fst); [exact Hn|]. intros x y Hx Hy Exy. apply dotted_first in Exy; [apply Exy|exact (Hd x Hx)|exact (Hd y Hy)].
  - refine (NoDup_flat2 fst _ _ d parts E Hn _ _).
    + intros x y Hx Hy. apply part_of in Hy. destruct Hy as (q & Q1 & ->). exact (entry_nodup _ _ _ _ (IH x Hx) Q1).
    + intros x y x' y' s Hx Hx' Hy Hy' Hs Hs'. apply part_of in Hy, Hy'. destruct Hy as (q & Q1 & ->). destruct Hy' as (q' & Q1' & ->). cbn [snd] in *.
      apply (entry_dts _ _ _ _ (nested_dts (snd x)) Q1) in Hs. apply (entry_dts _ _ _ _ (nested_dts (snd x')) Q1') in Hs'. destruct Hs as (p & t & _ & ->). destruct Hs' as (p' & t' & _ & Es).
      apply dotted_first in Es; [apply Es|exact (Hd x Hx)|exact (Hd x' Hx')].
  - intros s Hs Hs'. apply in_map_iff in Hs. destruct Hs as ([k v] & <- & Hs). apply (In_flat2 _ _ _ _ E) in Hs'. destruct Hs' as ([k' v'] & y & K1 & K2 & K3). apply part_of in K2. destruct K2 as (q & Q1 & ->). cbn [fst snd] in *.
    apply (entry_dts _ _ _ _ (nested_dts v') Q1) in K3. destruct K3 as (p & t & P1 & Es). apply dotted_first in Es; [|exact (Hd _ Hs)|exact (Hd _ K1)]. destruct Es as [_ Es].
    destruct p as [|c p]; [exact (proj1 (has_type_ok _ _ _ P1) eq_refl)|]. rewrite join_one in Es. apply (proj1 (type_for_ok v)). rewrite Es. unfold dotted. apply in_or_app. right. left. reflexivity.
Qed.
Lemma key_in_here d : (forall k, key_in k (VDict d) -> dotless k) -> Forall (fun kv => dotless (fst kv)) d.
Proof. intro H. apply Forall_forall. intros [k v] K. apply H. exact (key_here k d v K). Qed.
Lemma nested_nodup v : wf v -> (forall k, key_in k v -> dotless k) -> forall w dts pts, parse_nested L o v = Some (w, dts, pts) -> NoDup dts.
Proof.
  induction v as [|b|z|f|x|l IH|d IH] using value_ind'; intros W K w dts pts H; cbn [parse_nested] in H; try discriminate.
  - unfold list_body in H. destruct (map_opt _ l); [|discriminate]. injection H as _ <- _. apply NoDup_nodup.
  - destruct (dict_body L o (parse_nested L o) true d) as [[[p' dts'] pts']|] eqn:E; [|discriminate]. injection H as <- <- <-. apply wf_dict in W. destruct W as [W1 W2]. refine (dict_nodup true d _ _ _ _ W1 (key_in_here d K) E).
    rewrite Forall_forall in *. intros [k v] Hk. apply (IH _ Hk (W2 _ Hk)). intros k' Hk'. apply K. exact (key_dict k' d k v Hk Hk').
Qed.

(** ** Parsed types *)
(** a value that gets parsed by parse_value *)
Definition parsed_as_value (v : value) : Prop := match v with VNone | VStr [] | VList _ | VDict _ => False | _ => True end.
(** specification or proof device; models no code of its own *)
Definition geo_type (t : pystr) : Prop := t = pt_gp \/ t = pt_gs.
(** [hint_gives d h g]: with the fields of [d] that the hint [h] names (the empty string for missing ones) the
    libraries make the point and the shape [g]. *)
Definition field_or_blank (d : dict) (k : pystr) (v : value) : Prop := dget d k = Some v \/ dget d k = None /\ v = VStr [].
(** specification or proof device; models no code of its own *)
Definition hint_gives (d : dict) (h : hint) (g : pystr * pystr) : Prop :=
  exists lon lat radius, field_or_blank d (h_lon h) lon /\ field_or_blank d (h_lat h) lat /\
    match h_radius h with Some (c :: f) => exists r, radius = Some r /\ field_or_blank d (c :: f) r | _ => radius = None end /\
    l_point L lon lat radius (h_segments h) = Some g.
(** specification or proof device; models no code of its own *)
Definition hint_works (d : dict) (h : hint) : Prop := exists g, hint_gives d h g.
Lemma field_blank d k v : field_or_blank d k v <-> v = get_or_empty d k.
Proof. unfold field_or_blank, get_or_empty. destruct (dget d k) as [w|]; split; [intros [E|[E _]]; congruence|intros ->; auto|intros [E|[_ E]]; [discriminate|exact E]|intros ->; auto]. Qed.
Lemma hint_match_gives d h g : hint_match L d h = Some g <-> hint_gives d h g.
Proof.
  unfold hint_match, hint_gives. split.
  - intro H. do 3 eexists. split; [apply field_blank; reflexivity|]. split; [apply field_blank; reflexivity|]. split; [|exact H].
    destruct (h_radius h) as [[|c f]|]; try reflexivity. eexists. split; [reflexivity|apply field_blank; reflexivity].
  - intros (lon & lat & radius & H1 & H2 & H3 & H4). apply field_blank in H1, H2. subst lon lat. rewrite <- H4. f_equal. destruct (h_radius h) as [[|c f]|]; try (symmetry; exact H3). destruct H3 as (r & -> & H3). apply field_blank in H3. subst r. reflexivity.
Qed.
Lemma hint_match_works d h : hint_match L d h <> None <-> hint_works d h.
Proof. unfold hint_works. split; [destruct (hint_match L d h) as [g|] eqn:E; [exists g; apply hint_match_gives, E|contradiction]|intros (g & H) E; apply hint_match_gives in H; congruence]. Qed.
(** [has_parsed v p t]: under [v] at path [p] (elements of lists do not add to the path) something is parsed
    with a parsed type [t]. *)
Inductive has_parsed : value -> list pystr -> pystr -> Prop :=
| hp_value v t : parsed_as_value v -> In t (dkeys (parse_value L o v)) -> has_parsed v [] t
| hp_geo d t : d <> [] -> l_geojson L d <> None -> geo_type t -> has_parsed (VDict d) [] t
| hp_key d k v p t : In (k, v) d -> has_parsed v p t -> has_parsed (VDict d) (k :: p) t
| hp_hint d h t : d <> [] -> In h (geo_hints o) -> hint_works d h -> geo_type t -> has_parsed (VDict d) [h_lat h] t
| hp_list l v p t : In v l -> has_parsed v p t -> has_parsed (VList l) p t.
(** at the root GeoJSON is not looked for *)
Inductive has_parsed_root (d : dict) : list pystr -> pystr -> Prop :=
| hr_key k v p t : In (k, v) d -> has_parsed v p t -> has_parsed_root d (k :: p) t
| hr_hint h t : In h (geo_hints o) -> hint_works d h -> geo_type t -> has_parsed_root d [h_lat h] t.

(** specification or proof device; models no code of its own *)
Definition parsed_type (t : pystr) : Prop := In t [pt_u; pt_t; pt_k; pt_gp; pt_gs; pt_b; pt_n; pt_d].
Lemma dkeys_opt {A} k (f : A -> value) x : dkeys (opt_dict k f x) = match x with Some _ => [k] | None => [] end.
Proof. destruct x; reflexivity. Qed.
Lemma parse_value_keys v : dkeys (parse_value L o v) =
  [pt_u; pt_t; pt_k] ++ match l_wkt L (text_of L o v) with Some _ => [pt_gp; pt_gs] | None => [] end ++ match bool_of L o v with Some _ => [pt_b] | None => [] end
  ++ match number_of L o v with Some _ => [pt_n] | None => [] end ++ match first_date L (date_formats o) (text_of L o v) with Some _ => [pt_d] | None => [] end.
Proof.
  unfold parse_value, dkeys. cbv zeta. rewrite !map_app. destruct (l_wkt L (text_of L o v)), (bool_of L o v), (number_of L o v), (first_date L (date_formats o) (text_of L o v)); reflexivity.
Qed.
Lemma parse_value_keys_nodup v : NoDup (dkeys (parse_value L o v)).
Proof.
  rewrite parse_value_keys. destruct (l_wkt L (text_of L o v)), (bool_of L o v), (number_of L o v), (first_date L (date_formats o) (text_of L o v)); cbn [app];
  repeat (constructor; [cbn [In]; intuition discriminate|]); constructor.
Qed.
Lemma parse_value_keys_in v t : In t (dkeys (parse_value L o v)) -> parsed_type t.
Proof.
  rewrite parse_value_keys. unfold parsed_type. destruct (l_wkt L (text_of L o v)), (bool_of L o v), (number_of L o v), (first_date L (date_formats o) (text_of L o v)); cbn [app In]; tauto.
Qed.
Lemma geo_type_ok t : geo_type t -> parsed_type t.
Proof. unfold parsed_type. intros [->| ->]; cbn [In]; tauto. Qed.
Lemma parsed_type_ok t : parsed_type t -> dotless t /\ starts 95 t.
Proof. unfold dotless, starts. intro H. repeat (destruct H as [<-|H]; [split; [cbn; intuition discriminate|eexists; reflexivity]|]). destruct H. Qed.
Lemma has_parsed_ok v p t : has_parsed v p t -> parsed_type t.
Proof. induction 1; eauto using parse_value_keys_in, geo_type_ok. Qed.

(** match_hints *)
Lemma match_hints_keys d hs : forall ms k, In k (dkeys (match_hints L d hs ms)) <-> In k (dkeys ms) \/ exists h, In h hs /\ h_lat h = k /\ hint_works d h.
Proof.
  induction hs as [|h hs IH]; intros ms k; cbn [match_hints]; [split; [auto|intros [K|(h & [] & _)]; exact K]|]. rewrite IH.
  destruct (hint_match L d h) as [g|] eqn:E.
  - rewrite In_dkeys_dset. split.
    + intros [[->|K]|(h' & K1 & K2 & K3)]; [right; exists h; repeat split; [left; reflexivity|apply hint_match_works; congruence]|left; exact K|right; exists h'; repeat split; [right; exact K1|exact K2|exact K3]].
    + intros [K|(h' & [<-|K1] & K2 & K3)]; [left; right; exact K|left; left; congruence|right; eauto].
  - split.
    + intros [K|(h' & K1 & K2 & K3)]; [left; exact K|right; exists h'; repeat split; [right; exact K1|exact K2|exact K3]].
    + intros [K|(h' & [<-|K1] & K2 & K3)]; [left; exact K|apply hint_match_works in K3; contradiction|right; eauto].
Qed.
Lemma match_hints_nodup d hs : forall ms, NoDup (dkeys ms) -> NoDup (dkeys (match_hints L d hs ms)).
Proof. induction hs as [|h hs IH]; intros ms H; cbn [match_hints]; [exact H|]. apply IH. destruct (hint_match L d h); [apply NoDup_dset, H|exact H]. Qed.
Lemma in_hints ms s : In s (flat_map (fun m : pystr * (pystr * pystr) => map (dotted (fst m)) [pt_gp; pt_gs]) ms) <-> exists k t, In k (dkeys ms) /\ geo_type t /\ s = dotted k t.
Proof.
  rewrite in_flat_map. unfold geo_type. split.
  - intros ([k g] & K1 & K2). cbn [fst map In] in K2. apply (in_map fst) in K1. destruct K2 as [<-|[<-|[]]]; eauto 6.
  - intros (k & t & K1 & K2 & ->). apply in_map_iff in K1. destruct K1 as ([k' g] & <- & K1). exists (k', g). split; [exact K1|]. cbn. destruct K2 as [->| ->]; auto.
Qed.

(** specification or proof device; models no code of its own *)
Definition pts_spec (v : value) (pts : list pystr) : Prop := forall s, In s pts <-> exists p t, has_parsed v p t /\ s = join dot (p ++ [t]).
Lemma nothing_parsed v : match v with VNone | VStr [] | VList [] | VDict [] => True | _ => False end -> forall p t, ~ has_parsed v p t.
Proof.
  intros H p t K. destruct K as [v t K1 _|d t K1 _ _|d k w p t K1 _|d h t K1 _ _ _|l w p t K1 _].
  - destruct v as [|b|z|f|[|]|[|]|[|]]; cbn in *; contradiction.
  - destruct d; [contradiction|exact H].
  - destruct d; [destruct K1|exact H].
  - destruct d; [contradiction|exact H].
  - destruct l; [destruct K1|exact H].
Qed.
Lemma value_parsed v p t : parsed_as_value v -> has_parsed v p t <-> p = [] /\ In t (dkeys (parse_value L o v)).
Proof.
  intro H. split; [|intros [-> K]; constructor; assumption]. intro K. destruct K as [v t K1 K2|d t K1 _ _|d k w p t K1 _|d h t K1 _ _ _|l w p t K1 _]; try contradiction. auto.
Qed.
(** specification or proof device; models no code of its own *)
Definition pts_good (nested : value -> option (value * list pystr * list pystr)) (v : value) : Prop :=
  is_empty v = false -> forall w dts pts, nested v = Some (w, dts, pts) -> pts_spec v pts.
Lemma entry_pts nested k v q : pts_good nested v -> parse_entry L o nested k v = Some q ->
  forall s, In s (part_pts q) <-> exists p t, has_parsed v p t /\ s = dotted k (join dot (p ++ [t])).
Proof.
  intros IH H s. unfold parse_entry in H.
  assert (N : part_pts q = [] /\ (forall p t, ~ has_parsed v p t) \/ (parsed_as_value v /\ part_pts q = map (dotted k) (dkeys (parse_value L o v))) \/ exists w dts pts, is_empty v = false /\ nested v = Some (w, dts, pts) /\ part_pts q = map (dotted k) pts).
  { destruct v as [|b|z|f|x|l|d].
    - left; split; [injection H as <-; reflexivity|apply nothing_parsed; exact I].
    - right; left. injection H as <-. split; [exact I|reflexivity].
    - right; left. injection H as <-. split; [exact I|reflexivity].
    - right; left. injection H as <-. split; [exact I|reflexivity].
    - destruct x as [|c x]; [left; split; [injection H as <-; reflexivity|apply nothing_parsed; exact I]|]. right; left. injection H as <-. split; [exact I|reflexivity].
    - destruct l as [|e l]; [left; split; [injection H as <-; reflexivity|apply nothing_parsed; exact I]|]. right; right. cbn [is_empty] in H. destruct (nested (VList (e :: l))) as [[[w dts] pts]|]; [|discriminate]. injection H as <-. exists w, dts, pts. auto.
    - destruct d as [|e d]; [left; split; [injection H as <-; reflexivity|apply nothing_parsed; exact I]|]. right; right. cbn [is_empty] in H. destruct (nested (VDict (e :: d))) as [[[w dts] pts]|]; [|discriminate]. injection H as <-. exists w, dts, pts. auto. }
  destruct N as [[-> N]|[[N ->]|(w & dts & pts & Ev & E & ->)]].
  - split; [intros []|intros (p & t & K & _); destruct (N p t K)].
  - rewrite in_map_iff. split.
    + intros (s' & <- & K). exists [], s'. split; [apply value_parsed; auto|reflexivity].
    + intros (p & t & K & ->). apply value_parsed in K; [|exact N]. destruct K as [-> K]. exists t. split; [reflexivity|exact K].
  - rewrite in_map_iff. split.
    + intros (s' & <- & K). apply (IH Ev _ _ _ E) in K. destruct K as (p & t & K & ->). eauto.
    + intros (p & t & K & ->). eexists. split; [reflexivity|]. apply (IH Ev _ _ _ E). eauto.
Qed.
Lemma element_pts nested v q : pts_good nested v -> parse_element L o nested v = Some q -> pts_spec v (snd q).
Proof.
  intros IH H s. unfold parse_element in H.
  assert (N : snd q = [] /\ (forall p t, ~ has_parsed v p t) \/ (parsed_as_value v /\ snd q = dkeys (parse_value L o v)) \/ exists w dts pts, is_empty v = false /\ nested v = Some (w, dts, pts) /\ snd q = pts).
  { destruct v as [|b|z|f|x|l|d].
    - left; split; [injection H as <-; reflexivity|apply nothing_parsed; exact I].
    - right; left. injection H as <-. split; [exact I|reflexivity].
    - right; left. injection H as <-. split; [exact I|reflexivity].
    - right; left. injection H as <-. split; [exact I|reflexivity].
    - destruct x as [|c x]; [left; split; [injection H as <-; reflexivity|apply nothing_parsed; exact I]|]. right; left. injection H as <-. split; [exact I|reflexivity].
    - destruct l as [|e l]; [left; split; [injection H as <-; reflexivity|apply nothing_parsed; exact I]|]. right; right. cbn [is_empty] in H. destruct (nested (VList (e :: l))) as [[[w dts] pts]|]; [|discriminate]. injection H as <-. exists w, dts, pts. auto.
    - destruct d as [|e d]; [left; split; [injection H as <-; reflexivity|apply nothing_parsed; exact I]|]. right; right. cbn [is_empty] in H. destruct (nested (VDict (e :: d))) as [[[w dts] pts]|]; [|discriminate]. injection H as <-. exists w, dts, pts. auto. }
  destruct N as [[-> N]|[[N ->]|(w & dts & pts & Ev & E & ->)]].
  - split; [intros []|intros (p & t & K & _); destruct (N p t K)].
  - split.
    + intro K. exists [], s. split; [apply value_parsed; auto|reflexivity].
    + intros (p & t & K & ->). apply value_parsed in K; [|exact N]. destruct K as [-> K]. exact K.
  - apply (IH Ev _ _ _ E).
Qed.
(** specification or proof device; models no code of its own *)
Definition root_pts_spec (d : dict) (pts : list pystr) : Prop := forall s, In s pts <-> exists p t, has_parsed_root d p t /\ s = join dot (p ++ [t]).
Lemma geo_in (d : dict) (chk : bool) s : In s (dkeys (if chk then match l_geojson L d with Some g => geo_dict g | None => [] end else [])) <-> chk = true /\ l_geojson L d <> None /\ geo_type s.
Proof.
  unfold geo_type. destruct chk; [|split; [intros []|intros [K _]; discriminate]]. destruct (l_geojson L d) as [g|]; cbn; [|split; [intros []|intros (_ & K & _); contradiction]].
  split; [intros [<-|[<-|[]]]; repeat split; auto; discriminate|intros (_ & _ & [->| ->]); auto].
Qed.
Lemma dict_pts nested chk d w dts pts : Forall (fun kv => pts_good nested (snd kv)) d ->
  dict_body L o nested chk d = Some (w, dts, pts) ->
  forall s, In s pts <-> (chk = true /\ l_geojson L d <> None /\ geo_type s) \/ exists p t, has_parsed_root d p t /\ s = join dot (p ++ [t]).
Proof.
  intros IH H s. apply dict_body_some in H. unfold dict_rest in H. destruct (map_opt _ d) as [parts|] eqn:E; [|discriminate]. apply map_opt_F2 in E.
  destruct (add_hints _ _); [|discriminate]. injection H as _ _ <-. rewrite !in_app_iff, geo_in. apply or_iff_compat_l.
  rewrite (In_flat2 _ _ _ _ E s), in_hints. rewrite Forall_forall in IH. split.
  - intros [([k v] & y & K1 & K2 & K3)|(k & t & K1 & K2 & ->)].
    + apply part_of in K2. destruct K2 as (q & Q1 & ->). cbn [fst snd] in *. apply (entry_pts nested k v q (IH (k, v) K1) Q1) in K3. destruct K3 as (p & t & P1 & ->). exists (k :: p), t. split; [eapply hr_key; eassumption|symmetry; apply join_one].
    + apply match_hints_keys in K1. destruct K1 as [[]|(h & H1 & <- & H2)]. exists [h_lat h], t. split; [apply hr_hint; assumption|reflexivity].
  - intros (p & t & P & ->). destruct P as [k v p t K K'|h t K1 K2 K3].
    + left. destruct (in_split _ _ K) as (a & b & Eab). subst d. assert (E' := E). apply Forall2_app_inv_l in E'. destruct E' as (ya & yb & F1 & F2 & Ey). inversion F2 as [|? y ? ? F3 F4]; subst. exists (k, v), y. split; [exact K|]. split; [exact F3|].
      apply part_of in F3. destruct F3 as (q & Q1 & ->). cbn [fst snd] in *. apply (entry_pts nested k v q (IH (k, v) K) Q1). exists p, t. split; [exact K'|]. apply join_one.
    + right. exists (h_lat h), t. split; [apply match_hints_keys; right; eauto|]. split; [exact K3|reflexivity].
Qed.
Lemma list_pts nested l w dts pts : Forall (pts_good nested) l ->
  list_body L o nested l = Some (w, dts, pts) -> pts_spec (VList l) pts.
Proof.
  intros IH H s. unfold list_body in H. destruct (map_opt _ l) as [parts|] eqn:E; [|discriminate]. apply map_opt_F2 in E. injection H as _ _ <-.
  rewrite nodup_In, (In_flat2 _ _ _ _ E s). rewrite Forall_forall in IH. split.
  - intros (v & y & K1 & K2 & K3). apply (element_pts nested v y (IH v K1) K2) in K3. destruct K3 as (p & t & P1 & ->). exists p, t. split; [eapply hp_list; eassumption|reflexivity].
  - intros (p & t & P & ->). inversion P as [v' t' Pv| | | |l' v p' t' K K']; subst; [destruct Pv|].
    destruct (in_split _ _ K) as (a & b & Eab). subst l. assert (E' := E). apply Forall2_app_inv_l in E'. destruct E' as (ya & yb & F1 & F2 & Ey). inversion F2 as [|? y ? ? F3 F4]; subst. exists v, y. split; [exact K|]. split; [exact F3|].
    apply (element_pts nested v y (IH v K) F3). exists p, t. split; [exact K'|reflexivity].
Qed.
Lemma nested_pts v : pts_good (parse_nested L o) v.
Proof.
  induction v as [|b|z|f|x|l IH|d IH] using value_ind'; intros Hv w dts pts H; cbn [parse_nested] in H; try discriminate.
  - destruct (list_body L o (parse_nested L o) l) as [[[p' dts'] pts']|] eqn:E; [|discriminate]. injection H as <- <- <-. exact (list_pts _ _ _ _ _ IH E).
  - destruct (dict_body L o (parse_nested L o) true d) as [[[p' dts'] pts']|] eqn:E; [|discriminate]. injection H as <- <- <-. intro s. rewrite (dict_pts _ _ _ _ _ _ IH E s).
    assert (Hd : d <> []) by (intros ->; discriminate). split.
    + intros [(_ & K1 & K2)|(p & t & P & ->)]; [exists [], s; split; [apply hp_geo; assumption|reflexivity]|]. exists p, t. split; [|reflexivity]. destruct P as [k v p t K K'|h t K1 K2 K3]; [eapply hp_key; eassumption|apply hp_hint; assumption].
    + intros (p & t & P & ->). inversion P as [v t' Pv|d' t' P1 P2 P3|d' k v p0 t' P1 P2|d' h t' P1 P2 P3 P4|]; subst; [destruct Pv| | |].
      * left. auto.
      * right. exists (k :: p0), t. split; [eapply hr_key; eassumption|reflexivity].
      * right. exists [h_lat h], t. split; [apply hr_hint; assumption|reflexivity].
Qed.
Lemma root_dts d w dts pts : dict_body L o (parse_nested L o) false d = Some (w, dts, pts) -> dts_spec (VDict d) dts.
Proof. apply dict_dts. apply Forall_forall. intros kv _. apply nested_dts. Qed.
Lemma root_pts d w dts pts : dict_body L o (parse_nested L o) false d = Some (w, dts, pts) -> root_pts_spec d pts.
Proof.
  intros H s. rewrite (dict_pts _ _ _ _ _ _ (proj2 (Forall_forall _ _) (fun kv _ => nested_pts (snd kv))) H s). split; [intros [[K _]|K]; [discriminate|exact K]|auto].
Qed.

(** ** No parsed type listed twice, when what a hint takes as a latitude is not itself parsed as a geometry *)
Definition plain_latitudes : Prop := forall lon lat r n t, l_point L lon lat r n <> None -> geo_type t -> ~ has_parsed lat [] t.
Lemma entry_pnodup nested k v q : (forall w dts pts, nested v = Some (w, dts, pts) -> NoDup pts) -> parse_entry L o nested k v = Some q -> NoDup (part_pts q).
Proof.
  intros IH H. unfold parse_entry in H. destruct v as [|b|z|f|x|l|d].
  - injection H as <-; constructor.
  - injection H as <-. exact (NoDup_dotted k _ (parse_value_keys_nodup (VBool b))).
  - injection H as <-. exact (NoDup_dotted k _ (parse_value_keys_nodup (VInt z))).
  - injection H as <-. exact (NoDup_dotted k _ (parse_value_keys_nodup (VFloat f))).
  - destruct x as [|c x]; injection H as <-; [constructor|exact (NoDup_dotted k _ (parse_value_keys_nodup (VStr (c :: x))))].
  - destruct l as [|e l]; [injection H as <-; constructor|]. cbn [is_empty] in H. destruct (nested (VList (e :: l))) as [[[w dts] pts]|]; [|discriminate]. injection H as <-. apply NoDup_dotted, (IH _ _ _ eq_refl).
  - destruct d as [|e d]; [injection H as <-; constructor|]. cbn [is_empty] in H. destruct (nested (VDict (e :: d))) as [[[w dts] pts]|]; [|discriminate]. injection H as <-. apply NoDup_dotted, (IH _ _ _ eq_refl).
Qed.
Lemma hints_nodup (ms : list (pystr * (pystr * pystr))) : NoDup (dkeys ms) -> NoDup (flat_map (fun m => map (dotted (fst m)) [pt_gp; pt_gs]) ms).
Proof.
  induction ms as [|[k g] ms IH]; intro H; [constructor|]. inversion H as [|? ? H1 H2]; subst. cbn [flat_map fst]. apply NoDup_app2.
  - apply NoDup_dotted. repeat constructor; cbn; intuition discriminate.
  - apply IH, H2.
  - intros s S1 S2. apply in_hints in S2. destruct S2 as (k' & t & K1 & K2 & ->). apply in_map_iff in S1. destruct S1 as (t' & S1 & S2). apply H1. assert (Ht : dotless t /\ dotless t') by (split; apply parsed_type_ok; [apply geo_type_ok, K2|unfold parsed_type; cbn [In] in *; tauto]).
    apply (f_equal rsplit_dot) in S1. rewrite !rsplit_dotted in S1 by apply Ht. injection S1 as -> _. exact K1.
Qed.
(** A hint fires only on fields that there are, or nothing is parsed at all. *)
Lemma add_hints_needs ms : forall parsed w k, add_hints parsed ms = Some w -> In k (dkeys ms) -> exists p, dget parsed k = Some (VDict p).
Proof.
  induction ms as [|[k0 g] ms IH]; intros parsed w k H Hk; [destruct Hk|]. cbn [add_hints] in H. destruct (dget parsed k0) as [[| | | | | |p]|] eqn:E; try discriminate.
  destruct (str_eqb k k0) eqn:Ek; [apply str_eqb_eq in Ek; subst; eauto|]. destruct Hk as [<-|Hk]; [cbn in Ek; rewrite str_eqb_refl in Ek; discriminate|].
  destruct (IH _ _ _ H Hk) as (p' & Q). rewrite dget_dset, Ek in Q. eauto.
Qed.
Lemma set_parts_from (parts : list (pystr * part)) k v : forall acc, dget (fold_left set_part parts acc) k = Some v -> dget acc k = Some v \/ In k (map fst parts).
Proof.
  induction parts as [|[k0 q] parts IH]; intros acc H; [left; exact H|]. cbn [fold_left map fst In] in *. destruct (IH _ H) as [K|K]; [|tauto].
  destruct q as [[[p|] a] b]; cbn [set_part] in K; [|tauto]. rewrite dget_dset in K. destruct (str_eqb k k0) eqn:E; [apply str_eqb_eq in E; subst; tauto|tauto].
Qed.
Lemma hint_keys nested chk d r k : dict_body L o nested chk d = Some r -> In k (dkeys (match_hints L d (geo_hints o) [])) -> In k (dkeys d).
Proof.
  intros H Hk. apply dict_body_some in H. unfold dict_rest in H. destruct (map_opt _ d) as [parts|] eqn:E; [|discriminate]. apply map_opt_F2 in E.
  destruct (add_hints _ _) as [w|] eqn:Ea; [|discriminate]. destruct (add_hints_needs _ _ _ _ Ea Hk) as (p & Q). apply set_parts_from in Q. destruct Q as [Q|Q].
  - exfalso. destruct chk; [|discriminate]. destruct (l_geojson L d) as [g|]; [|discriminate]. unfold geo_dict in Q. cbn [dget fst snd] in Q. destruct (str_eqb k pt_gp); [discriminate|]. destruct (str_eqb k pt_gs); discriminate.
  - clear - E Q. induction E as [|x y d parts H E IH]; [destruct Q|]. apply part_of in H. destruct H as (q & _ & ->). cbn [map fst In dkeys] in *. destruct Q as [Q|Q]; [left; exact Q|right; exact (IH Q)].
Qed.
Lemma dict_pnodup chk d w dts pts : plain_latitudes ->
  Forall (fun kv => forall w dts pts, parse_nested L o (snd kv) = Some (w, dts, pts) -> NoDup pts) d ->
  NoDup (dkeys d) -> Forall (fun kv => dotless (fst kv)) d -> dict_body L o (parse_nested L o) chk d = Some (w, dts, pts) -> NoDup pts.
Proof.
  intros HL IH Hn Hd H. rewrite Forall_forall in IH, Hd.
  assert (Hh : forall k, In k (dkeys (match_hints L d (geo_hints o) [])) -> dotless k) by (intros k Hk; apply (hint_keys _ _ _ _ _ H) in Hk; apply in_map_iff in Hk; destruct Hk as (kv & <- & Hk); exact (Hd kv Hk)).
  apply dict_body_some in H. unfold dict_rest in H. destruct (map_opt _ d) as [parts|] eqn:E; [|discriminate]. apply map_opt_F2 in E.
  destruct (add_hints _ _); [|discriminate]. injection H as _ _ <-.
  assert (Hparts : forall s, In s (flat_map (fun p : pystr * part => part_pts (snd p)) parts) -> exists k v p t, In (k, v) d /\ has_parsed v p t /\ s = dotted k (join dot (p ++ [t]))).
  { intros s Hs. apply (In_flat2 _ _ _ _ E) in Hs. destruct Hs as ([k v] & y & K1 & K2 & K3). apply part_of in K2. destruct K2 as (q & Q1 & ->). cbn [fst snd] in *. apply (entry_pts _ _ _ _ (nested_pts v) Q1) in K3. destruct K3 as (p & t & P1 & Es). exists k, v, p, t. auto. }
  apply NoDup_app2; [|apply NoDup_app2|].
  - destruct chk; [|constructor]. destruct (l_geojson L d); [|constructor]. cbn. repeat constructor; cbn; intuition discriminate.
  - refine (NoDup_flat2 fst _ _ d parts E Hn _ _).
    + intros x y Hx Hy. apply part_of in Hy. destruct Hy as (q & Q1 & ->). exact (entry_pnodup _ _ _ _ (IH x Hx) Q1).
    + intros x y x' y' s Hx Hx' Hy Hy' Hs Hs'. apply part_of in Hy, Hy'. destruct Hy as (q & Q1 & ->). destruct Hy' as (q' & Q1' & ->). cbn [snd] in *.
      apply (entry_pts _ _ _ _ (nested_pts (snd x)) Q1) in Hs. apply (entry_pts _ _ _ _ (nested_pts (snd x')) Q1') in Hs'. destruct Hs as (p & t & _ & ->). destruct Hs' as (p' & t' & _ & Es).
      apply dotted_first in Es; [apply Es|exact (Hd x Hx)|exact (Hd x' Hx')].
  - apply hints_nodup, match_hints_nodup. constructor.
  - intros s S1 S2. apply Hparts in S1. destruct S1 as (k & v & p & t & K1 & K2 & ->). apply in_hints in S2. destruct S2 as (k' & t' & M1 & M2 & Es).
    assert (Dk := Hh _ M1). apply match_hints_keys in M1. destruct M1 as [[]|(h & H1 & <- & H2)]. apply dotted_first in Es; [|exact (Hd _ K1)|exact Dk]. destruct Es as [-> Es].
    assert (Dt : dotless t') by apply parsed_type_ok, geo_type_ok, M2. destruct p as [|c p].
    + cbn in Es. subst t'. apply hint_match_works in H2. unfold hint_match in H2. unfold get_or_empty in H2 at 2. rewrite (In_dget d (h_lat h) v Hn K1) in H2. exact (HL _ _ _ _ _ H2 M2 K2).
    + rewrite join_one in Es. apply Dt. rewrite <- Es. unfold dotted. apply in_or_app. right. left. reflexivity.
  - intros s S1 S2. apply geo_in in S1. destruct S1 as (_ & _ & S1). assert (Dt : dotless s) by apply parsed_type_ok, geo_type_ok, S1. rewrite in_app_iff in S2. destruct S2 as [S2|S2].
    + apply Hparts in S2. destruct S2 as (k & v & p & t & K1 & K2 & ->). apply Dt. unfold dotted. apply in_or_app. right. left. reflexivity.
    + apply in_hints in S2. destruct S2 as (k' & t' & M1 & M2 & ->). apply Dt. unfold dotted. apply in_or_app. right. left. reflexivity.
Qed.
Lemma nested_pnodup v : plain_latitudes -> wf v -> (forall k, key_in k v -> dotless k) -> forall w dts pts, parse_nested L o v = Some (w, dts, pts) -> NoDup pts.
Proof.
  intros HL. induction v as [|b|z|f|x|l IH|d IH] using value_ind'; intros W K w dts pts H; cbn [parse_nested] in H; try discriminate.
  - unfold list_body in H. destruct (map_opt _ l); [|discriminate]. injection H as _ _ <-. apply NoDup_nodup.
  - destruct (dict_body L o (parse_nested L o) true d) as [[[p' dts'] pts']|] eqn:E; [|discriminate]. injection H as <- <- <-. apply wf_dict in W. destruct W as [W1 W2]. refine (dict_pnodup true d _ _ _ HL _ W1 (key_in_here d K) E).
    rewrite Forall_forall in *. intros [k v] Hk. apply (IH _ Hk (W2 _ Hk)). intros k' Hk'. apply K. exact (key_dict k' d k v Hk Hk').
Qed.

(** paths of parsed things *)
Definition parses (v : value) : Prop := match v with VList _ | VDict _ => parse_nested L o v <> None | _ => True end.
Lemma dict_parses chk d r k v p t : dict_body L o (parse_nested L o) chk d = Some r -> In (k, v) d -> has_parsed v p t -> parses v.
Proof.
  intros H Hk Hp. apply dict_body_some in H. unfold dict_rest in H. destruct (map_opt _ d) as [parts|] eqn:E; [|discriminate]. apply map_opt_F2 in E. clear H.
  induction E as [|x y d parts H E IH]; [destruct Hk|]. destruct Hk as [->|Hk]; [|exact (IH Hk)]. apply part_of in H. destruct H as (q & Q & _). cbn [fst snd] in Q.
  destruct v as [|b|z|f|x|[|e l]|[|e d']]; try exact I; try (exfalso; exact (nothing_parsed (VList []) I p t Hp)); try (exfalso; exact (nothing_parsed (VDict []) I p t Hp)); cbn [parse_entry is_empty] in Q; cbn [parses]; intro N; rewrite N in Q; discriminate.
Qed.
Lemma list_parses l r v p t : list_body L o (parse_nested L o) l = Some r -> In v l -> has_parsed v p t -> parses v.
Proof.
  intros H Hk Hp. unfold list_body in H. destruct (map_opt _ l) as [parts|] eqn:E; [|discriminate]. apply map_opt_F2 in E. clear H.
  induction E as [|x y l parts H E IH]; [destruct Hk|]. destruct Hk as [->|Hk]; [|exact (IH Hk)].
  destruct v as [|b|z|f|x|[|e l']|[|e d']]; try exact I; try (exfalso; exact (nothing_parsed (VList []) I p t Hp)); try (exfalso; exact (nothing_parsed (VDict []) I p t Hp)); cbn [parse_element is_empty] in H; cbn [parses]; intro N; rewrite N in H; discriminate.
Qed.
Lemma has_parsed_path v p t : has_parsed v p t -> parses v -> Forall (fun c => key_in c v) p.
Proof.
  induction 1 as [v t|d t|d k v p t K K1 IH|d h t H1 H2 H3 H4|l v p t K K1 IH]; intro P; try constructor.
  - exact (key_here k d v K).
  - cbn [parses parse_nested] in P. destruct (dict_body L o (parse_nested L o) true d) as [r|] eqn:E; [|contradiction].
    eapply Forall_impl; [|exact (IH (dict_parses _ _ _ _ _ _ _ E K K1))]. intros c Kc. exact (key_dict c d k v K Kc).
  - cbn [parses parse_nested] in P. destruct (dict_body L o (parse_nested L o) true d) as [r|] eqn:E; [|contradiction].
    assert (Q : In (h_lat h) (dkeys d)) by (apply (hint_keys _ _ _ _ _ E), match_hints_keys; right; eauto). apply in_map_iff in Q. destruct Q as ([k v] & Q1 & Q2). cbn [fst] in Q1. rewrite <- Q1. exact (key_here k d v Q2).
  - constructor.
  - cbn [parses parse_nested] in P. destruct (list_body L o (parse_nested L o) l) as [r|] eqn:E; [|contradiction].
    eapply Forall_impl; [|exact (IH (list_parses _ _ _ _ _ E K K1))]. intros c Kc. exact (key_list c l v K Kc).
Qed.
Lemma root_path d r p t : dict_body L o (parse_nested L o) false d = Some r -> has_parsed_root d p t ->
  exists k v q, p = k :: q /\ In (k, v) d /\ Forall (fun c => key_in c v) q.
Proof.
  intros H [k v q t' K K1|h t' H1 H2 H3].
  - exists k, v, q. split; [reflexivity|]. split; [exact K|]. exact (has_parsed_path _ _ _ K1 (dict_parses _ _ _ _ _ _ _ H K K1)).
  - assert (Q : In (h_lat h) (dkeys d)) by (apply (hint_keys _ _ _ _ _ H), match_hints_keys; right; eauto). apply in_map_iff in Q. destruct Q as ([k v] & Q1 & Q2). cbn [fst] in Q1. exists (h_lat h), v, []. rewrite <- Q1. auto.
Qed.
End Occ.
