(** What the listed fields count, for all records (C54): the counts of the types are always right, and when the count of a field is. *)
From Coq Require Import String Ascii.
From Coq Require Import List ZArith NArith Bool Lia Sorted Permutation.
From Verif Require Import PyVal Diff Time Prepare PrepareProofs PropsPrepare Parser ParserProofs ParserTypes ParserEq PropsParser PropsParserTypes Search PropsSearch Fields PropsFields PropsFieldsMore.
Import ListNotations.
Local Open Scope string_scope.
Local Open Scope list_scope.
Local Open Scope nat_scope.

(** ** Specification *)
(** [interrupted occurs p]: sorted as they are written, something elsewhere comes between what occurs at [p]. *)
Definition interrupted (occurs : list pystr -> pystr -> Prop) (p : list pystr) : Prop :=
  exists t1 p2 t2 t3, occurs p t1 /\ occurs p2 t2 /\ occurs p t3 /\ p2 <> p /\
    str_leb (join dot (p ++ [t1])) (join dot (p2 ++ [t2])) = true /\ str_leb (join dot (p2 ++ [t2])) (join dot (p ++ [t3])) = true.
(** [counted occurs fs records]: every field counts, for every type, the records that have it there; and as a whole it counts at least the records that
    have something there, and exactly those unless a record has something that comes between. *)
Definition counted {R} (occurs : R -> list pystr -> pystr -> Prop) (fs : list field) (records : list R) : Prop :=
  forall f, In f fs -> exists p, p <> [] /\ Forall dotless p /\ f_path f = join dot p /\
    (forall t, number (fun rec => occurs rec p t) records (type_count f t)) /\
    exists n, number (fun rec => exists t, occurs rec p t) records n /\ n <= f_count f /\
      (f_count f = n <-> forall rec, In rec records -> ~ interrupted (occurs rec) p).

(** ** Counting groups *)
Section Runs.
Context {A : Type} (key : A -> pystr) (R : A -> A -> Prop).
Hypothesis anti : forall x y, R x y -> R y x -> x = y.
Definition runs (p : pystr) (l : list A) : nat := length (filter (fun g => str_eqb p (fst g)) (groupby key l)).
Lemma runs_cons p x l : runs p (x :: l) = runs p l + match l with y :: _ => if str_eqb p (key x) && negb (str_eqb p (key y)) then 1 else 0 | [] => if str_eqb p (key x) then 1 else 0 end.
Proof.
  unfold runs. cbn [groupby]. destruct l as [|y l].
  - cbn [groupby filter fst]. destruct (str_eqb p (key x)); reflexivity.
  - destruct (groupby_head key y l) as (k & g & gs & E & ->). rewrite E. destruct (str_eqb (key x) (key y)) eqn:Exy.
    + apply str_eqb_eq in Exy. rewrite Exy. cbn [filter fst]. destruct (str_eqb p (key y)); cbn [andb negb length]; lia.
    + cbn [filter fst]. destruct (str_eqb p (key x)) eqn:Ex; [|cbn [andb]; lia]. apply str_eqb_eq in Ex. destruct (str_eqb p (key y)) eqn:Ey; [apply str_eqb_eq in Ey; rewrite <- Ex, <- Ey, str_eqb_refl in Exy; discriminate|]. cbn [andb negb length]. lia.
Qed.
Lemma runs_pos p l : 0 < runs p l <-> exists x, In x l /\ key x = p.
Proof.
  induction l as [|x l IH]; [split; [unfold runs; cbn; lia|intros (x & [] & _)]|]. rewrite runs_cons. split.
  - intro H. destruct (str_eqb p (key x)) eqn:E; [apply str_eqb_eq in E; exists x; split; [left; reflexivity|auto]|].
    assert (K : 0 < runs p l) by (destruct l; cbn [andb] in H; lia). apply IH in K. destruct K as (y & Y1 & Y2). exists y. split; [right; exact Y1|exact Y2].
  - intros (y & [->|Y1] & Y2); [|assert (K : 0 < runs p l) by (apply IH; eauto); lia]. subst p. rewrite str_eqb_refl. destruct l as [|z l]; [lia|]. cbn [andb]. destruct (str_eqb (key y) (key z)) eqn:E; cbn [negb]; [|lia].
    apply str_eqb_eq in E. assert (K : 0 < runs (key y) (z :: l)) by (apply IH; exists z; split; [left; reflexivity|auto]). lia.
Qed.
Lemma runs_two p l : StronglySorted R l -> (2 <= runs p l <-> exists x y z, In x l /\ In y l /\ In z l /\ R x y /\ R y z /\ key x = p /\ key y <> p /\ key z = p).
Proof.
  induction l as [|a l IH]; intro Hs; [split; [unfold runs; cbn; lia|intros (x & y & z & [] & _)]|]. inversion Hs as [|? ? Hs1 Hs2]; subst. specialize (IH Hs1). rewrite Forall_forall in Hs2. rewrite runs_cons. split.
  - intro H. destruct (le_lt_dec 2 (runs p l)) as [K|K].
    + apply IH in K. destruct K as (x & y & z & X & Y & Z & K). exists x, y, z. split; [right; exact X|]. split; [right; exact Y|]. split; [right; exact Z|exact K].
    + destruct l as [|b l]; [unfold runs in H; cbn in H; destruct (str_eqb p (key a)); lia|].
      destruct (str_eqb p (key a)) eqn:Ea; [|cbn [andb] in H; lia]. destruct (str_eqb p (key b)) eqn:Eb; cbn [andb negb] in H; [lia|]. apply str_eqb_eq in Ea. apply str_eqb_neq in Eb.
      assert (P : 0 < runs p (b :: l)) by lia. apply runs_pos in P. destruct P as (z & Z1 & Z2). destruct Z1 as [->|Z1]; [congruence|]. inversion Hs1 as [|? ? _ Hs3]; subst. rewrite Forall_forall in Hs3.
      exists a, b, z. split; [left; reflexivity|]. split; [right; left; reflexivity|]. split; [right; right; exact Z1|]. split; [apply Hs2; left; reflexivity|]. split; [apply Hs3, Z1|]. split; [reflexivity|]. split; [congruence|exact Z2].
  - intros (x & y & z & X & Y & Z & R1 & R2 & K1 & K2 & K3).
    assert (Y' : In y l).
    { destruct Y as [<-|Y]; [|exact Y]. exfalso. destruct X as [<-|X]; [contradiction|]. rewrite (anti _ _ (Hs2 x X) R1) in K2. contradiction. }
    assert (Z' : In z l).
    { destruct Z as [<-|Z]; [|exact Z]. exfalso. rewrite (anti _ _ (Hs2 y Y') R2) in K3. contradiction. }
    destruct X as [<-|X].
    + assert (P : 0 < runs p l) by (apply runs_pos; eauto). destruct l as [|b l]; [destruct Y'|]. destruct (str_eqb p (key a)) eqn:Ea; [|apply str_eqb_neq in Ea; congruence]. destruct (str_eqb p (key b)) eqn:Eb; cbn [andb negb]; [|lia]. apply str_eqb_eq in Eb.
      assert (T : 2 <= runs p (b :: l)); [|lia]. apply IH. destruct Y' as [->|Y']; [congruence|]. inversion Hs1 as [|? ? _ Hs3]; subst. rewrite Forall_forall in Hs3.
      exists b, y, z. split; [left; reflexivity|]. split; [right; exact Y'|]. split; [exact Z'|]. split; [apply Hs3, Y'|]. split; [exact R2|]. split; [auto|]. split; assumption.
    + assert (T : 2 <= runs p l); [|lia]. apply IH. exists x, y, z. auto 10.
Qed.
End Runs.

(** ** Counting over the documents *)
Section Doc.
Variables (valid : list pystr) (V : valid_ok valid) (ltb : pystr -> pystr -> bool) (S : strict_order ltb) (docs : list listing).
Hypothesis Hd : Forall (fun l => NoDup l /\ Forall (entry_ok valid) l) docs.
Let es := map (fun b => (read (fst b), snd b)) (buckets ltb (written docs)).
Lemma bucket_key2 b : In b (buckets ltb (written docs)) -> exists g, entry_ok valid g /\ fst b = show g.
Proof.
  intro H. apply (in_map fst) in H. rewrite buckets_keys in H. apply (fun K => proj1 (keys_In ltb (so_total _ S) _ _) K) in H. apply in_concat in H. destruct H as (d & D1 & D2). apply in_map_iff in D1. destruct D1 as (l & <- & Hl). apply in_map_iff in D2. destruct D2 as (g & Q & Hg). exists g. rewrite Forall_forall in Hd. destruct (Hd l Hl) as [_ E]. rewrite Forall_forall in E. auto.
Qed.
Lemma es_terms2 : map (fun e => (show (fst e), snd e)) es = buckets ltb (written docs).
Proof.
  unfold es. rewrite map_map. cbn [fst snd]. rewrite <- (map_id (buckets ltb (written docs))) at 2. apply map_ext_in. intros b Hb. destruct (bucket_key2 b Hb) as (g & E & Q). rewrite Q, (read_show valid g V E), <- Q. destruct b; reflexivity.
Qed.
Lemma es_ok2 : Forall (fun e => entry_ok valid (fst e)) es.
Proof. apply Forall_forall. intros e He. apply in_map_iff in He. destruct He as (b & <- & Hb). destruct (bucket_key2 b Hb) as (g & E & Q). cbn [fst]. rewrite Q, (read_show valid g V E). exact E. Qed.
Lemma shown_nodup2 l : NoDup l -> Forall (entry_ok valid) l -> NoDup (map show l).
Proof.
  intros N E. induction l as [|g l IH]; [constructor|]. inversion N as [|? ? N1 N2]; subst. inversion E as [|? ? E1 E2]; subst. cbn [map]. constructor; [|exact (IH N2 E2)]. intro H. apply in_map_iff in H. destruct H as (g' & Q & Hg). rewrite Forall_forall in E2. apply (f_equal read) in Q. rewrite (read_show valid g V E1), (read_show valid g' V (E2 g' Hg)) in Q. subst g'. contradiction.
Qed.
Lemma es_sum (Q : pystr * list pystr -> bool) : total (fun e => Q (fst e)) es = sum (map (fun l => length (filter Q l)) docs).
Proof.
  unfold total, es.
  assert (A : map snd (filter (fun e => Q (fst e)) (map (fun b => (read (fst b), snd b)) (buckets ltb (written docs)))) =
    map (fun v => length (filter (existsb (eqk ltb v)) (written docs))) (filter (fun v => Q (read v)) (fold_right (bins ltb) [] (concat (written docs))))).
  { unfold buckets. induction (fold_right (bins ltb) [] (concat (written docs))) as [|v ks IH]; [reflexivity|]. cbn [map filter fst snd]. destruct (Q (read v)); cbn [map snd]; rewrite IH; reflexivity. }
  rewrite A. rewrite (exchange (fun v d => existsb (eqk ltb v) d) (fun v => Q (read v))). clear A.
  unfold written at 2. rewrite map_map. f_equal. apply map_ext_in. intros l Hl. pose proof Hd as Hd'. rewrite Forall_forall in Hd'. destruct (Hd' l Hl) as [N E].
  rewrite (same_length (fun v => Q (read v)) _ _ (map show l)).
  + clear - E V. induction l as [|g l IH]; [reflexivity|]. inversion E as [|? ? E1 E2]; subst. cbn [map filter]. rewrite (read_show valid g V E1). destruct (Q g); cbn [length]; rewrite (IH E2); reflexivity.
  + rewrite <- buckets_keys. destruct (C34_terms _ ltb (written docs) 1 S (le_n 1)) as (terms & T1 & T2 & T3 & _).
    pose proof (iter_terms_buckets ltb (so_irrefl _ S) (so_trans _ S) (so_total _ S) (written docs) 1 _ (le_n 1) (Nat.lt_succ_diag_r _)) as B. apply T2 in B. rewrite B. exact T3.
  + apply shown_nodup2; assumption.
  + intros v Hv. apply (keys_In ltb (so_total _ S)). apply in_concat. exists (map show l). split; [apply in_map, Hl|exact Hv].
  + intro v. rewrite andb_true_iff, existsb_exists. split.
    * intros [H1 (w & H2 & H3)]. apply (eqk_eq ltb S) in H3. subst w. auto.
    * intros [H1 H2]. split; [exact H1|]. exists v. split; [exact H2|apply (eqk_eq ltb S); reflexivity].
Qed.
Lemma acc_sums acc : add_terms valid [] (buckets ltb (written docs)) = Some acc -> forall f, In f (map plain_field acc) ->
  f_count f = sum (map (fun l => length (filter (fun g => str_eqb (f_path f) (fst g)) l)) docs) /\
  forall t, type_count f t = sum (map (fun l => length (filter (fun g => str_eqb (f_path f) (fst g) && memb t (snd g)) l)) docs).
Proof.
  intros Ha f Hf. destruct (add_terms_spec valid V es [] es_ok2 (NoDup_nil _)) as (acc' & A1 & A2 & A3 & A4). rewrite es_terms2, Ha in A1. injection A1 as <-.
  apply in_map_iff in Hf. destruct Hf as ([p [n m]] & <- & He). unfold type_count. cbn [plain_field f_path f_count f_types fst snd]. destruct (A4 p n m (In_dget _ _ _ A2 He)) as [B1 B2]. cbn [dget] in B1, B2. split.
  - rewrite B1, Nat.add_0_l. exact (es_sum (fun g => str_eqb p (fst g))).
  - intro t. rewrite B2, Nat.add_0_l. exact (es_sum (fun g => str_eqb p (fst g) && memb t (snd g))).
Qed.
End Doc.

(** ** Counting over the records *)
Definition grouped (T : list pystr) : listing := map (fun g => (fst g, map type_of (snd g))) (groupby path_of (sort T)).
Lemma compress_grouped T : compress T = map show (grouped T).
Proof. unfold compress, grouped. rewrite map_map. reflexivity. Qed.
Definition typed_in (valid : list pystr) (T : list pystr) : Prop := forall s, In s T -> exists q t, s = dotted q t /\ In t valid.
Section Grouped.
Variables (valid : list pystr) (V : valid_ok valid) (T : list pystr).
Hypothesis (N : NoDup T) (HT : typed_in valid T).
Lemma sorted_nodup : NoDup (flat_map snd (groupby path_of (sort T))).
Proof. rewrite groupby_flat. exact (Permutation_NoDup (Permutation_sym (sort_perm T)) N). Qed.
Lemma group_of p g : In (p, g) (groupby path_of (sort T)) -> g <> [] /\ forall s, In s g -> In s T /\ s = dotted p (type_of s) /\ In (type_of s) valid.
Proof.
  intro Hg. destruct (groupby_keys _ _ _ _ Hg) as [K1 K2]. split; [exact K1|]. intros s Hs. rewrite Forall_forall in K2. specialize (K2 s Hs).
  assert (I : In s T) by (apply (Permutation_in _ (sort_perm T)); rewrite <- (groupby_flat path_of (sort T)); apply in_flat_map; eexists; split; [exact Hg|exact Hs]).
  split; [exact I|]. destruct (HT s I) as (q & t & -> & Ht). unfold path_of in K2. unfold type_of. rewrite rsplit_dotted in * by apply V, Ht. subst q. auto.
Qed.
Lemma group_nodup p g : In (p, g) (groupby path_of (sort T)) -> NoDup g.
Proof.
  pose proof sorted_nodup as D. intro Hg. induction (groupby path_of (sort T)) as [|x gs IH]; [destruct Hg|]. cbn [flat_map] in D. destruct Hg as [->|Hg].
  - cbn [snd] in D. clear - D. induction g as [|s g IH]; [constructor|]. inversion D as [|? ? D1 D2]; subst. constructor; [intro K; apply D1, in_or_app; left; exact K|exact (IH D2)].
  - apply IH; [|exact Hg]. clear - D. induction (snd x) as [|s g IH]; [exact D|]. inversion D as [|? ? D1 D2]; subst. exact (IH D2).
Qed.
Lemma grouped_ok : NoDup (grouped T) /\ Forall (entry_ok valid) (grouped T).
Proof.
  split.
  - unfold grouped. pose proof sorted_nodup as D. assert (G := group_of). revert D G. generalize (groupby path_of (sort T)). intro gs. induction gs as [|[p g] gs IH]; intros D G; [constructor|]. cbn [map fst snd flat_map] in *. constructor.
    + intro K. apply in_map_iff in K. destruct K as ([p' g'] & Q & K). cbn [fst snd] in Q. injection Q as -> Q. destruct (G p g (or_introl eq_refl)) as [G1 G2]. destruct (G p g' (or_intror K)) as [_ G4]. destruct g as [|s g]; [contradiction|].
      assert (X : In (type_of s) (map type_of g')) by (rewrite Q; left; reflexivity). apply in_map_iff in X. destruct X as (s' & X1 & X2). destruct (G2 s (or_introl eq_refl)) as (_ & Es & _). destruct (G4 s' X2) as (_ & Es' & _).
      assert (Q' : s' = s) by (rewrite Es, Es', X1; reflexivity). subst s'. cbn [app] in D. inversion D as [|? ? D1 _]; subst. apply D1, in_or_app. right. apply in_flat_map. exists (p, g'). auto.
    + apply IH; [|intros p' g' H; apply G; right; exact H]. clear - D. induction g as [|s g IH]; [exact D|]. inversion D as [|? ? D1 D2]; subst. exact (IH D2).
  - apply Forall_forall. intros x Hx. apply in_map_iff in Hx. destruct Hx as ([p g] & <- & Hg). destruct (group_of p g Hg) as [G1 G2]. split; [|split]; cbn [snd].
    + destruct g; [contradiction|discriminate].
    + apply (NoDup_map_key (fun s => s)); [rewrite map_id; exact (group_nodup p g Hg)|]. intros x y Hx Hy Q. destruct (G2 x Hx) as (_ & -> & _). destruct (G2 y Hy) as (_ & -> & _). rewrite Q. reflexivity.
    + apply Forall_forall. intros t Ht. apply in_map_iff in Ht. destruct Ht as (s & <- & Hs). apply (G2 s Hs).
Qed.
Lemma grouped_type p t : In t valid -> length (filter (fun g => str_eqb p (fst g) && memb t (snd g)) (grouped T)) = if memb (dotted p t) T then 1 else 0.
Proof.
  intro Ht. assert (E : memb (dotted p t) T = memb (dotted p t) (flat_map snd (groupby path_of (sort T)))).
  { rewrite groupby_flat. apply eq_true_iff_eq. rewrite !memb_In. split; apply Permutation_in; [apply Permutation_sym|]; apply sort_perm. }
  rewrite E. clear E. unfold grouped. pose proof sorted_nodup as D. assert (G := group_of). revert D G. generalize (groupby path_of (sort T)). intro gs. induction gs as [|[q g] gs IH]; intros D G; [reflexivity|]. cbn [map filter fst snd flat_map].
  assert (D2 : NoDup (flat_map snd gs)) by (clear - D; cbn [flat_map snd] in D; induction g as [|s g IH]; [exact D|]; inversion D as [|? ? D1 D2]; subst; exact (IH D2)).
  specialize (IH D2 (fun p' g' H => G p' g' (or_intror H))). destruct (G q g (or_introl eq_refl)) as [_ G2].
  assert (Q : str_eqb p q && memb t (map type_of g) = true <-> In (dotted p t) g).
  { rewrite andb_true_iff, str_eqb_eq, memb_In, in_map_iff. split.
    - intros [-> (s & <- & Hs)]. destruct (G2 s Hs) as (_ & Es & _). rewrite <- Es. exact Hs.
    - intro K. destruct (G2 _ K) as (_ & Es & _). unfold type_of in Es. rewrite rsplit_dotted in Es by apply V, Ht. assert (Ep : p = q) by (apply (dotted_inj p t q t); [apply V, Ht|apply V, Ht|exact Es]).
      split; [exact Ep|]. exists (dotted p t). split; [|exact K]. unfold type_of. rewrite rsplit_dotted by apply V, Ht. reflexivity. }
  destruct (str_eqb p q && memb t (map type_of g)) eqn:B.
  - pose proof (proj1 Q eq_refl) as K. cbn [length]. rewrite IH. assert (M : memb (dotted p t) (flat_map snd gs) = false).
    { apply not_true_is_false. rewrite memb_In. intro K'. cbn [flat_map snd] in D. clear - D K K'. induction g as [|s g IH]; [destruct K|]. inversion D as [|? ? D1 D2]; subst. destruct K as [->|K]; [apply D1, in_or_app; right; exact K'|exact (IH D2 K)]. }
    rewrite M. assert (M' : memb (dotted p t) (g ++ flat_map snd gs) = true) by (apply memb_In, in_or_app; left; exact K). rewrite M'. reflexivity.
  - rewrite IH. assert (M : memb (dotted p t) (g ++ flat_map snd gs) = memb (dotted p t) (flat_map snd gs)); [|rewrite M; reflexivity]. apply eq_true_iff_eq. rewrite !memb_In, in_app_iff. split; [intros [K|K]; [apply Q in K; discriminate|exact K]|auto].
Qed.
Lemma grouped_other p t : ~ In t valid -> length (filter (fun g => str_eqb p (fst g) && memb t (snd g)) (grouped T)) = 0.
Proof.
  intro Ht. destruct grouped_ok as [_ E]. induction (grouped T) as [|g gs IH]; [reflexivity|]. inversion E as [|? ? E1 E2]; subst. cbn [filter]. destruct E1 as (_ & _ & E1). rewrite Forall_forall in E1.
  destruct (memb t (snd g)) eqn:M; [apply memb_In, E1 in M; contradiction|]. rewrite andb_false_r. exact (IH E2).
Qed.
Lemma grouped_path p : length (filter (fun g => str_eqb p (fst g)) (grouped T)) = runs path_of p (sort T).
Proof. unfold grouped, runs. induction (groupby path_of (sort T)) as [|g gs IH]; [reflexivity|]. cbn [map filter fst]. destruct (str_eqb p (fst g)); cbn [length]; rewrite IH; reflexivity. Qed.
End Grouped.
Lemma sum_cons n l : sum (n :: l) = n + sum l. Proof. reflexivity. Qed.
Lemma sum_number {A B} (P : A -> Prop) (rel : A -> B -> Prop) (f : B -> nat) l m : Forall2 rel l m -> (forall x y, rel x y -> (P x /\ f y = 1) \/ (~ P x /\ f y = 0)) -> number P l (sum (map f m)).
Proof.
  intros F H. induction F as [|x y l m Hx F IH]; [constructor|]. cbn [map]. rewrite sum_cons. destruct (H x y Hx) as [[K ->]|[K ->]]; [apply nu_yes|apply nu_no]; assumption.
Qed.
Lemma sum_at_least {A B} (P I : A -> Prop) (rel : A -> B -> Prop) (f : B -> nat) l m : Forall2 rel l m -> (forall x y, rel x y -> (P x <-> 0 < f y) /\ (I x <-> 2 <= f y)) ->
  exists n, number P l n /\ n <= sum (map f m) /\ (sum (map f m) = n <-> forall x, In x l -> ~ I x).
Proof.
  intros F H. induction F as [|x y l m Hx F IH]; [exists 0; split; [constructor|]; split; [lia|]; split; [intros _ x []|reflexivity]|]. cbn [map]. rewrite sum_cons. destruct IH as (n & N1 & N2 & N3). destruct (H x y Hx) as [H1 H2].
  destruct (f y) as [|[|k]] eqn:Ef.
  - exists n. split; [apply nu_no; [intro K; apply H1 in K; lia|exact N1]|]. split; [lia|]. cbn [Nat.add]. rewrite N3. split; [intros K z [<-|Hz]; [intro Q; apply H2 in Q; lia|exact (K z Hz)]|intros K z Hz; apply K; right; exact Hz].
  - exists (S n). split; [apply nu_yes; [apply H1; lia|exact N1]|]. split; [lia|]. split.
    + intros E z [<-|Hz]; [intro Q; apply H2 in Q; lia|]. apply N3; [lia|exact Hz].
    + intro K. assert (E : sum (map f m) = n) by (apply N3; intros z Hz; apply K; right; exact Hz). lia.
  - exists (S n). split; [apply nu_yes; [apply H1; lia|exact N1]|]. split; [lia|]. split; [lia|]. intro K. exfalso. apply (K x (or_introl eq_refl)), H2. lia.
Qed.
Lemma records_counted {R D} valid (occurs : R -> list pystr -> pystr -> Prop) (types : D -> list pystr) records rs ltb acc fs : valid_ok valid -> strict_order ltb ->
  Forall2 (fun rec r => exists T, types r = compress T /\ NoDup T /\ (forall s, In s T <-> exists p t, occurs rec p t /\ s = join dot (p ++ [t])) /\ (forall p t, occurs rec p t -> p <> [] /\ Forall dotless p /\ In t valid)) records rs ->
  add_terms valid [] (buckets ltb (map types rs)) = Some acc -> fields_found occurs fs records ->
  (forall f, In f fs -> exists f', In f' (map plain_field acc) /\ f_path f' = f_path f /\ f_count f' = f_count f /\ f_types f' = f_types f) -> counted occurs fs records.
Proof.
  intros V S F Ha (F1 & F2 & F3) Hf f If. destruct (proj1 (F2 (f_path f)) (in_map f_path _ _ If)) as (rec0 & p & t0 & R0 & O0 & E0).
  set (rel := fun rec (l : listing) => exists T, l = grouped T /\ NoDup T /\ typed_in valid T /\ (forall s, In s T <-> exists p t, occurs rec p t /\ s = join dot (p ++ [t])) /\ (forall p t, occurs rec p t -> p <> [] /\ Forall dotless p /\ In t valid)).
  assert (X : exists ls, map types rs = written ls /\ Forall2 rel records ls).
  { clear - F V. induction F as [|rec r records rs (T & E & N & HT & O) F (ls & I1 & I2)]; [exists []; split; [reflexivity|constructor]|]. exists (grouped T :: ls). cbn [map written]. rewrite E, compress_grouped. split; [f_equal; exact I1|]. constructor; [|exact I2].
    exists T. split; [reflexivity|]. split; [exact N|]. split; [|split; [exact HT|exact O]]. intros s Hs. apply HT in Hs. destruct Hs as (p & t & K & ->). destruct (O p t K) as (O1 & _ & O3). exists (join dot p), t. split; [apply join_snoc, O1|exact O3]. }
  destruct X as (ls & Els & FL). rewrite Els in Ha.
  assert (Hd : Forall (fun l => NoDup l /\ Forall (entry_ok valid) l) ls).
  { clear - FL V. induction FL as [|rec l records ls (T & -> & N & HT & _) FL IH]; constructor; [|exact IH]. exact (grouped_ok valid V T N HT). }
  assert (O' : p <> [] /\ Forall dotless p).
  { clear - F R0 O0. induction F as [|rec r records rs (T & _ & _ & _ & O) F IH]; [destruct R0|]. destruct R0 as [->|R0]; [destruct (O p t0 O0) as (A & B & _); auto|exact (IH R0)]. }
  destruct O' as [Hp Dp]. exists p. split; [exact Hp|]. split; [exact Dp|]. split; [exact E0|].
  destruct (Hf f If) as (f' & I' & Ep & Ec & Et). destruct (acc_sums valid V ltb S ls Hd acc Ha f' I') as [A1 A2]. rewrite Ep, Ec, E0 in A1. rewrite Ep, E0 in A2.
  assert (U : forall rec l p', rel rec l -> forall t, occurs rec p' t -> join dot p' = join dot p -> p' = p).
  { intros rec l p' (T & _ & _ & _ & _ & O) t K Q. destruct (O p' t K) as (O1 & O2 & _). apply (f_equal split) in Q. rewrite !split_join in Q by assumption. exact Q. }
  split.
  - intro t. unfold type_count in *. rewrite <- Et, A2. apply (sum_number _ rel _ _ _ FL). intros rec l Hr. pose proof Hr as (T & -> & N & HT & I & O).
    destruct (in_dec str_eq_dec t valid) as [Ht|Ht].
    + rewrite (grouped_type valid V T N HT (join dot p) t Ht). destruct (memb (dotted (join dot p) t) T) eqn:M.
      * left. split; [|reflexivity]. apply memb_In, I in M. destruct M as (p' & t' & K & Q). destruct (O p' t' K) as (O1 & O2 & O3). rewrite join_snoc in Q by exact O1. apply (f_equal rsplit_dot) in Q. rewrite !rsplit_dotted in Q by (apply V; assumption). injection Q as Q ->. rewrite <- (U rec _ p' Hr t' K (eq_sym Q)). exact K.
      * right. split; [|reflexivity]. intro K. assert (M' : memb (dotted (join dot p) t) T = true) by (apply memb_In, I; exists p, t; split; [exact K|symmetry; apply join_snoc, Hp]). congruence.
    + right. split; [intro K; apply Ht, (O p t K)|exact (grouped_other valid V T N HT _ _ Ht)].
  - rewrite A1. apply (sum_at_least _ (fun rec => interrupted (occurs rec) p) rel _ _ _ FL). intros rec l Hr. pose proof Hr as (T & -> & N & HT & I & O). rewrite grouped_path.
    assert (B : forall s, In s (sort T) <-> exists p t, occurs rec p t /\ s = join dot (p ++ [t])) by (intro s; rewrite <- I; split; apply Permutation_in; [|apply Permutation_sym]; apply sort_perm).
    assert (PO : forall p' t', occurs rec p' t' -> path_of (join dot (p' ++ [t'])) = join dot p') by (intros p' t' K; destruct (O p' t' K) as (O1 & _ & O3); rewrite join_snoc by exact O1; unfold path_of; rewrite rsplit_dotted by (apply V, O3); reflexivity).
    split.
    + rewrite runs_pos. split.
      * intros (t & K). exists (join dot (p ++ [t])). split; [apply B; eauto|exact (PO p t K)].
      * intros (s & Hs & Q). apply B in Hs. destruct Hs as (p' & t & K & ->). rewrite (PO p' t K) in Q. rewrite (U rec _ p' Hr t K Q) in K. eauto.
    + rewrite (runs_two path_of _ leb_antisym (join dot p) (sort T) (sort_sorted T)). split.
      * intros (t1 & p2 & t2 & t3 & K1 & K2 & K3 & Ne & L1 & L2). exists (join dot (p ++ [t1])), (join dot (p2 ++ [t2])), (join dot (p ++ [t3])).
        split; [apply B; eauto|]. split; [apply B; eauto|]. split; [apply B; eauto|]. split; [exact L1|]. split; [exact L2|]. split; [exact (PO _ _ K1)|]. split; [|exact (PO _ _ K3)]. rewrite (PO _ _ K2). intro Q. exact (Ne (U rec _ p2 Hr t2 K2 Q)).
      * intros (x & y & z & X & Y & Z & L1 & L2 & Q1 & Q2 & Q3). apply B in X, Y, Z. destruct X as (p1 & t1 & K1 & ->). destruct Y as (p2 & t2 & K2 & ->). destruct Z as (p3 & t3 & K3 & ->).
        rewrite (PO _ _ K1) in Q1. rewrite (PO _ _ K2) in Q2. rewrite (PO _ _ K3) in Q3. pose proof (U rec _ p1 Hr t1 K1 Q1) as U1. pose proof (U rec _ p3 Hr t3 K3 Q3) as U3. rewrite U1 in K1, L1. rewrite U3 in K3, L2.
        exists t1, p2, t2, t3. split; [exact K1|]. split; [exact K2|]. split; [exact K3|]. split; [intro Q; apply Q2; rewrite Q; reflexivity|]. split; [exact L1|exact L2].
Qed.

(** ** C54 *)
Lemma record_data_types db pad L o records rs : db_ok db -> Forall2 (fun rec r => parse L o (prepare_record_data db pad rec) = Some r) records rs ->
  Forall2 (fun rec r => exists T, p_data_types r = compress T /\ NoDup T /\ (forall s, In s T <-> exists p t, has_type (VDict (prepare_record_data db pad rec)) p t /\ s = join dot (p ++ [t])) /\
    (forall p t, has_type (VDict (prepare_record_data db pad rec)) p t -> p <> [] /\ Forall dotless p /\ In t data_type_names)) records rs.
Proof.
  intros Hdb F. induction F as [|rec r records rs H F IH]; constructor; [|exact IH]. clear F IH.
  pose proof (record_keys db pad rec Hdb) as RK. pose proof (record_wf db pad rec) as W. apply wf_dict in W. destruct W as [W1 W2]. unfold parse in H.
  destruct (dict_body L o (parse_nested L o) false (prepare_record_data db pad rec)) as [[[w dts] pts]|] eqn:E; [|discriminate]. injection H as <-. cbn [p_data_types].
  exists dts. split; [reflexivity|]. split; [|split; [exact (root_dts L o _ w dts pts E)|]].
  - refine (dict_nodup L o false _ w dts pts _ W1 _ E).
    + rewrite Forall_forall in *. intros [k v] Kv. apply (nested_nodup L o v (W2 _ Kv)). intros k' K'. exact (clean_dotless db k' (RK k' (key_dict k' _ k v Kv K'))).
    + apply Forall_forall. intros [k v] Kv. exact (clean_dotless db k (RK k (key_here k _ v Kv))).
  - intros p t O. split; [apply (has_type_ok _ _ _ O)|]. split; [|exact (has_type_valid _ _ _ O)]. pose proof (has_type_path _ _ _ O) as Z. eapply Forall_impl; [|exact Z]. intros c [->|Kc]; [exact nil_dotless|exact (clean_dotless db c (RK c Kc))].
Qed.
Lemma record_parsed_types db pad L o records rs : db_ok db -> plain_latitudes L o -> Forall2 (fun rec r => parse L o (prepare_record_data db pad rec) = Some r) records rs ->
  Forall2 (fun rec r => exists T, p_parsed_types r = compress T /\ NoDup T /\ (forall s, In s T <-> exists p t, has_parsed_root L o (prepare_record_data db pad rec) p t /\ s = join dot (p ++ [t])) /\
    (forall p t, has_parsed_root L o (prepare_record_data db pad rec) p t -> p <> [] /\ Forall dotless p /\ In t parsed_type_names)) records rs.
Proof.
  intros Hdb HP F. induction F as [|rec r records rs H F IH]; constructor; [|exact IH]. clear F IH.
  pose proof (record_keys db pad rec Hdb) as RK. pose proof (record_wf db pad rec) as W. apply wf_dict in W. destruct W as [W1 W2]. unfold parse in H.
  destruct (dict_body L o (parse_nested L o) false (prepare_record_data db pad rec)) as [[[w dts] pts]|] eqn:E; [|discriminate]. injection H as <-. cbn [p_parsed_types].
  exists pts. split; [reflexivity|]. split; [|split; [exact (root_pts L o _ w dts pts E)|]].
  - refine (dict_pnodup L o false _ w dts pts HP _ W1 _ E).
    + rewrite Forall_forall in *. intros [k v] Kv. apply (nested_pnodup L o v HP (W2 _ Kv)). intros k' K'. exact (clean_dotless db k' (RK k' (key_dict k' _ k v Kv K'))).
    + apply Forall_forall. intros [k v] Kv. exact (clean_dotless db k (RK k (key_here k _ v Kv))).
  - intros p t O. split; [destruct O; discriminate|]. split; [|exact (has_parsed_root_valid L o _ _ _ O)]. destruct (root_path L o _ _ p t E O) as (k & v & q & -> & K & Q). constructor; [exact (clean_dotless db k (RK k (key_here k _ v K)))|].
    eapply Forall_impl; [|exact Q]. intros c Kc. exact (clean_dotless db c (RK c (key_dict c _ k v K Kc))).
Qed.
Theorem C54_data_counts_exact : forall db pad L o ltb records rs fs m, db_ok db -> strict_order ltb ->
  Forall2 (fun rec r => parse L o (prepare_record_data db pad rec) = Some r) records rs ->
  get_data_fields ltb m (map p_data_types rs) = Some fs -> counted (fun rec => has_type (VDict (prepare_record_data db pad rec))) fs records.
Proof.
  intros db pad L o ltb records rs fs m Hdb S F Ef.
  destruct (C54_fields_found db pad L o ltb records rs Hdb S F) as (fs' & gs' & _ & U1 & _ & D & _). rewrite <- (U1 _ _ Ef) in D. clear U1.
  unfold get_data_fields in Ef. destruct (iter_result ltb (map p_data_types rs) m S) as [Q|Q]; rewrite Q in Ef; [discriminate|]. destruct (add_terms data_type_names [] (buckets ltb (map p_data_types rs))) as [acc|] eqn:Ha; [|discriminate]. injection Ef as Ef.
  apply (records_counted _ _ _ _ _ _ _ _ data_valid S (record_data_types db pad L o records rs Hdb F) Ha D). intros f If. rewrite <- Ef in If. apply (Permutation_in _ (order_perm _)) in If. apply in_map_iff in If. destruct If as (x & <- & Hx). exists x. split; [exact Hx|]. split; [reflexivity|]. split; reflexivity.
Qed.
Print Assumptions C54_data_counts_exact.
(** The same for the parsed fields; hints do not fire on values that themselves parse as geometry. *)
Theorem C54_parsed_counts_exact : forall db pad L o ltb records rs gs n, db_ok db -> strict_order ltb -> plain_latitudes L o ->
  Forall2 (fun rec r => parse L o (prepare_record_data db pad rec) = Some r) records rs ->
  get_parsed_fields ltb n (map p_parsed_types rs) = Some gs -> counted (fun rec => has_parsed_root L o (prepare_record_data db pad rec)) gs records.
Proof.
  intros db pad L o ltb records rs gs n Hdb S HP F Eg.
  destruct (C54_fields_found db pad L o ltb records rs Hdb S F) as (fs' & gs' & _ & _ & U2 & _ & P & _). rewrite <- (U2 _ _ Eg) in P. clear U2.
  unfold get_parsed_fields in Eg. destruct (iter_result ltb (map p_parsed_types rs) n S) as [Q|Q]; rewrite Q in Eg; [discriminate|]. destruct (add_terms parsed_type_names [] (buckets ltb (map p_parsed_types rs))) as [acc|] eqn:Ha; [|discriminate]. injection Eg as Eg.
  apply (records_counted _ _ _ _ _ _ _ _ parsed_valid S (record_parsed_types db pad L o records rs Hdb HP F) Ha P). intros f If. rewrite <- Eg in If. apply (Permutation_in _ (order_perm _)) in If. exists f. split; [exact If|]. split; [reflexivity|]. split; reflexivity.
Qed.
Print Assumptions C54_parsed_counts_exact.

(** ** C37: when a path has one entry *)
(** [entries_exact entries occurs]: the entries are paths with types; a type that occurs at a path is listed by exactly one entry, and any other by none;
    and a path has several entries exactly if something elsewhere comes between what occurs there. *)
Definition entries_exact (entries : list pystr) (occurs : list pystr -> pystr -> Prop) : Prop :=
  exists l : listing, entries = map show l /\ forall p, p <> [] -> Forall dotless p ->
    (forall t, let lists := number (fun g => fst g = join dot p /\ In t (snd g)) l in occurs p t /\ lists 1 \/ ~ occurs p t /\ lists 0) /\
    (interrupted occurs p <-> exists n, 2 <= n /\ number (fun g => fst g = join dot p) l n).
Lemma entries_exact_intro valid (occurs : list pystr -> pystr -> Prop) T : valid_ok valid -> NoDup T ->
  (forall s, In s T <-> exists p t, occurs p t /\ s = join dot (p ++ [t])) -> (forall p t, occurs p t -> p <> [] /\ Forall dotless p /\ In t valid) -> entries_exact (compress T) occurs.
Proof.
  intros V N I O. assert (HT : typed_in valid T) by (intros s Hs; apply I in Hs; destruct Hs as (p & t & K & ->); destruct (O p t K) as (O1 & _ & O3); exists (join dot p), t; split; [apply join_snoc, O1|exact O3]).
  exists (grouped T). split; [apply compress_grouped|]. intros p Hp Dp.
  assert (U : forall p' t, occurs p' t -> join dot p' = join dot p -> p' = p) by (intros p' t K Q; destruct (O p' t K) as (O1 & O2 & _); apply (f_equal split) in Q; rewrite !split_join in Q by assumption; exact Q).
  assert (NP : number (fun g => fst g = join dot p) (grouped T) (runs path_of (join dot p) (sort T))).
  { rewrite <- grouped_path. apply number_filter. intros g _. rewrite str_eqb_eq. split; auto. }
  split.
  - intros t lists. assert (NT : lists (length (filter (fun g => str_eqb (join dot p) (fst g) && memb t (snd g)) (grouped T)))).
    { apply number_filter. intros g _. rewrite andb_true_iff, str_eqb_eq, memb_In. intuition. }
    destruct (in_dec str_eq_dec t valid) as [Ht|Ht].
    + rewrite (grouped_type valid V T N HT (join dot p) t Ht) in NT. destruct (memb (dotted (join dot p) t) T) eqn:M.
      * left. split; [|exact NT]. apply memb_In, I in M. destruct M as (p' & t' & K & Q). destruct (O p' t' K) as (O1 & O2 & O3). rewrite join_snoc in Q by exact O1. apply (f_equal rsplit_dot) in Q. rewrite !rsplit_dotted in Q by (apply V; assumption). injection Q as Q ->. rewrite <- (U p' t' K (eq_sym Q)). exact K.
      * right. split; [|exact NT]. intro K. assert (M' : memb (dotted (join dot p) t) T = true) by (apply memb_In, I; exists p, t; split; [exact K|symmetry; apply join_snoc, Hp]). congruence.
    + right. rewrite (grouped_other valid V T N HT _ _ Ht) in NT. split; [intro K; apply Ht, (O p t K)|exact NT].
  - assert (B : forall s, In s (sort T) <-> exists p t, occurs p t /\ s = join dot (p ++ [t])) by (intro s; rewrite <- I; split; apply Permutation_in; [|apply Permutation_sym]; apply sort_perm).
    assert (PO : forall p' t', occurs p' t' -> path_of (join dot (p' ++ [t'])) = join dot p') by (intros p' t' K; destruct (O p' t' K) as (O1 & _ & O3); rewrite join_snoc by exact O1; unfold path_of; rewrite rsplit_dotted by (apply V, O3); reflexivity).
    assert (X : interrupted occurs p <-> 2 <= runs path_of (join dot p) (sort T)).
    { rewrite (runs_two path_of _ leb_antisym (join dot p) (sort T) (sort_sorted T)). split.
      - intros (t1 & p2 & t2 & t3 & K1 & K2 & K3 & Ne & L1 & L2). exists (join dot (p ++ [t1])), (join dot (p2 ++ [t2])), (join dot (p ++ [t3])).
        split; [apply B; eauto|]. split; [apply B; eauto|]. split; [apply B; eauto|]. split; [exact L1|]. split; [exact L2|]. split; [exact (PO _ _ K1)|]. split; [|exact (PO _ _ K3)]. rewrite (PO _ _ K2). intro Q. exact (Ne (U p2 t2 K2 Q)).
      - intros (x & y & z & X & Y & Z & L1 & L2 & Q1 & Q2 & Q3). apply B in X, Y, Z. destruct X as (p1 & t1 & K1 & ->). destruct Y as (p2 & t2 & K2 & ->). destruct Z as (p3 & t3 & K3 & ->).
        rewrite (PO _ _ K1) in Q1. rewrite (PO _ _ K2) in Q2. rewrite (PO _ _ K3) in Q3. pose proof (U p1 t1 K1 Q1) as U1. pose proof (U p3 t3 K3 Q3) as U3. rewrite U1 in K1, L1. rewrite U3 in K3, L2.
        exists t1, p2, t2, t3. split; [exact K1|]. split; [exact K2|]. split; [exact K3|]. split; [intro Q; apply Q2; rewrite Q; reflexivity|]. split; [exact L1|exact L2]. }
    rewrite X. split; [eauto|]. intros (n & N2 & N3). rewrite (number_unique _ _ _ _ NP N3). exact N2.
Qed.
Theorem C37_exact : forall db pad rec L o r, db_ok db -> parse L o (prepare_record_data db pad rec) = Some r ->
  entries_exact (p_data_types r) (has_type (VDict (prepare_record_data db pad rec))) /\
  (plain_latitudes L o -> entries_exact (p_parsed_types r) (has_parsed_root L o (prepare_record_data db pad rec))).
Proof.
  intros db pad rec L o r Hdb H. assert (F : Forall2 (fun rec r => parse L o (prepare_record_data db pad rec) = Some r) [rec] [r]) by (constructor; [exact H|constructor]). split.
  - pose proof (record_data_types db pad L o _ _ Hdb F) as FD. inversion FD as [|? ? ? ? (T & E & N & I & O) _]; subst. rewrite E. exact (entries_exact_intro _ _ _ data_valid N I O).
  - intro HP. pose proof (record_parsed_types db pad L o _ _ Hdb HP F) as FD. inversion FD as [|? ? ? ? (T & E & N & I & O) _]; subst. rewrite E. exact (entries_exact_intro _ _ _ parsed_valid N I O).
Qed.
Print Assumptions C37_exact.

(** A record that meets the hypotheses and whose fields are counted twice, with the types counted once. *)
Example C54_counts_example : exists r fs gs, db_ok ascii_db /\ strict_order str_ltb /\ plain_latitudes ex_lib ex_opts /\
  parse ex_lib ex_opts (prepare_record_data ascii_db false twice) = Some r /\
  get_data_fields str_ltb 20 [p_data_types r] = Some fs /\ get_parsed_fields str_ltb 20 [p_parsed_types r] = Some gs /\
  map (fun f => (f_path f, f_count f, f_types f)) fs =
    [(lit "a.", 2, [(lit "#b", 1); (lit "#d", 1); (lit "#s", 1)]); (lit "_id", 1, [(lit "#s", 1)]); (lit "a", 1, [(lit "#l", 1)]); (lit "a..#e", 1, [(lit "#i", 1)]); (lit "a.._id", 1, [(lit "#s", 1)])] /\
  map (fun f => (f_path f, f_count f, f_types f)) gs =
    [(lit "a", 2, [(lit "_b", 1); (lit "_k", 1); (lit "_t", 1); (lit "_u", 1)]); (lit "_id", 1, [(lit "_k", 1); (lit "_t", 1); (lit "_u", 1)]);
     (lit "a.#e", 1, [(lit "_k", 1); (lit "_n", 1); (lit "_t", 1); (lit "_u", 1)]); (lit "a._id", 1, [(lit "_k", 1); (lit "_t", 1); (lit "_u", 1)])].
Proof.
  do 3 eexists. split; [exact ascii_db_ok|]. split; [exact order_str|]. split; [intros lon lat r n t H; destruct (H eq_refl)|]. split; [vm_compute; reflexivity|]. cbn [p_data_types p_parsed_types]. split; [vm_compute; reflexivity|]. split; [vm_compute; reflexivity|]. split; vm_compute; reflexivity.
Qed.
